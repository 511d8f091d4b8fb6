(** Model of the label of boundary faces and of the functions that hand it out,
    src/tdycore.c:697-703 and 448-484.

    [plex] is what a DMPlex answers: the range of the faces, the size of the support of a
    face, and the transitive closure of a point.  A label is modelled by its stratum of
    value 1; PETSc keeps the points of a stratum sorted, here they are in the order of their
    entry.  The number of references to the index set of the stratum is counted. *)
From Coq Require Import List ZArith Bool Arith.
From Verif Require Import Prelude.
Import ListNotations.
Local Open Scope Z_scope.

Record plex := mkPlex { fStart : Z; fEnd : Z; supportSize : Z -> nat; closure : Z -> list Z }.
Definition all_faces (m : plex) : list Z := map (fun i => fStart m + Z.of_nat i) (seq 0 (Z.to_nat (fEnd m - fStart m))).

(** DMLabelSetValue(label, p, 1). *)
Definition set_value (p : Z) (stratum : list Z) : list Z := if existsb (Z.eqb p) stratum then stratum else (stratum ++ [p])%list.
(** DMPlexMarkBoundaryFaces(dm, 1, label): the faces with one cell. *)
Definition mark_boundary_faces (m : plex) (stratum : list Z) : list Z :=
  fold_left (fun s f => if (supportSize m f =? 1)%nat then set_value f s else s) (all_faces m) stratum.
(** DMPlexLabelComplete(dm, label): the closure of every point gets the value of the point. *)
Definition label_complete (m : plex) (stratum : list Z) : list Z :=
  fold_left (fun s p => fold_left (fun s q => set_value q s) (closure m p) s) stratum stratum.
(** TDySetFromOptions, lines 699-703. *)
Definition boundary_label (m : plex) : list Z := label_complete m (mark_boundary_faces m []).

(** The stratum and the references to its index set, one of which the label holds. *)
Record label := mkLabel { stratum : list Z; references : nat }.
Definition new_label (m : plex) : label := mkLabel (boundary_label m) 1.
(** DMLabelGetStratumIS: no index set when the stratum is empty, else one more reference. *)
Definition get_stratum_is (l : label) : option (list Z) * label :=
  match stratum l with
  | [] => (None, l)
  | _ => (Some (stratum l), mkLabel (stratum l) (S (references l)))
  end.
(** ISGetIndices and ISRestoreIndices: an error when there is no index set. *)
Definition indices (is : option (list Z)) : outcome (list Z) := match is with Some l => Ok l | None => Err end.

(** TDyGetBoundaryFaces, lines 454-468: num_faces and faces. *)
Definition GetBoundaryFaces (l : label) : outcome (nat * list Z * label) :=
  let num := length (stratum l) in
  let '(is, l) := get_stratum_is l in
  do faces <- indices is;
  Ok (num, faces, l).
(** TDyRestoreBoundaryFaces, lines 473-484. *)
Definition RestoreBoundaryFaces (l : label) : outcome label :=
  let '(is, l) := get_stratum_is l in
  do faces <- indices is;
  Ok l.
(** A caller that asks and hands back [k] times. *)
Fixpoint ask (k : nat) (l : label) : outcome label :=
  match k with
  | O => Ok l
  | S k => do r <- GetBoundaryFaces l; do l <- RestoreBoundaryFaces (snd r); ask k l
  end.
