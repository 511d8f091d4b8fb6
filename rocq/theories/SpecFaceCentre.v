(** Specification vocabulary for the areas and centres of faces. *)
From Coq Require Import Reals List ZArith.
From Verif Require Import Geom SpecGeom SpecFaceGeo SpecCellGeo SpecMeshFaces.
Import ListNotations.
Local Open Scope R_scope.

Definition entry (t : list (list Z)) (i f : nat) (x : Z) : Prop := exists row, nth_error t i = Some row /\ nth_error row f = Some x.

(** [ps] are the corners of the face [f]: three, the fourth entry being unused, or four. *)
Definition corners (coords : list v3) (fv : list (list Z)) (f : nat) (ps : list v3) : Prop :=
  exists l, column fv f l /\ located coords l ps /\
  (length l = 4%nat \/ length l = 3%nat /\ exists x, entry fv 3 f x /\ (x < 0)%Z).

(** The [i]-th side of the cell [c] is the face [f] with the corners [ps]. *)
Definition side_is (cnv : list nat) (cf fv : list (list Z)) (coords : list v3) (c i f : nat) (ps : list v3) : Prop :=
  entry cf i c (Z.of_nat f) /\ corners coords fv f ps /\
  exists k, nth_error cnv c = Some k /\ (i < length (sides k))%nat /\ length ps = length (nth i (sides k) []).

(** Every side of the first [nl] cells is one of [nf] faces, or is marked unused. *)
Definition numbered (nl nf : nat) (cnv : list nat) (cf fv : list (list Z)) (coords : list v3) : Prop :=
  forall c i, (c < nl)%nat -> (i < 6)%nat ->
  entry cf i c (-1) \/ exists f ps, (f < nf)%nat /\ side_is cnv cf fv coords c i f ps.

Definition triangle (a b c : v3) : R := length3 (cross (vsub b a) (vsub c a)) / 2.

(** [m] is where the area of the face balances: the third of the sum of the corners
    of a triangle, and for four corners what the two triangles weighted with their
    areas give. *)
Definition third (a b c : v3) : v3 := vscale (1 / 3) (vadd a (vadd b c)).
Definition balanced (ps : list v3) (m : v3) : Prop :=
  match ps with
  | [a; b; c] => m = third a b c
  | [a; b; c; d] =>
      vscale (triangle a b c + triangle a c d) m = vadd (vscale (triangle a b c) (third a b c)) (vscale (triangle a c d) (third a c d))
  | _ => False
  end.
