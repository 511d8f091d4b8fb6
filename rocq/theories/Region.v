(** Model of src/fv/mpfao/tdyregion.c and of its use in
    UpdateTransmissibilityMatrix (src/fv/mpfao/tdympfao.c:1758-1799). *)
From Coq Require Import Reals Bool List ZArith.
From Verif Require Import Prelude Arrays.
Import ListNotations.
Local Open Scope Z_scope.

(** TDyRegion: num_cells and cell_ids (None: NULL); [leaked] counts arrays no
    longer reachable. *)
Record region := { num_cells : Z; cell_ids : option (list Z); leaked : nat }.

(** Lines 9-15. *)
Definition RegionCreate : region := {| num_cells := 0; cell_ids := None; leaked := 0 |}.

(** Lines 25-35: a new array replaces the old one. *)
Definition RegionAddCells (ids : list Z) (r : region) : region :=
  {| num_cells := Z.of_nat (length ids); cell_ids := Some ids;
     leaked := match cell_ids r with Some _ => S (leaked r) | None => leaked r end |}.

(** cell_ids[i]. *)
Definition read_id (r : region) (i : Z) : outcome Z :=
  match cell_ids r with
  | None => UB
  | Some l => if i <? 0 then UB else rd l (Z.to_nat i)
  end.

(** Lines 53-60: the value returned as a PetscBool; the error code of SETERRQ
    (PETSC_ERR_USER, 83) is returned as a truth value. *)
Definition AreCellsInTheSameRegion (r : region) (c1 c2 : Z) : outcome Z :=
  if (num_cells r <=? c1) || (num_cells r <=? c2) then Ok 83
  else do a <- read_id r c1; do b <- read_id r c2; Ok (if a =? b then 1 else 0).

(** A C condition [if (!x)]. *)
Definition is_false (x : Z) : bool := x =? 0.

(** MatZeroRows on one row of the transmissibility matrix. *)
Definition zero_row (T : list (list R)) (row : nat) : outcome (list (list R)) :=
  do r <- rd T row; wr T row (map (fun _ => 0%R) r).

(** tdympfao.c:1772-1794, for the pressure matrix; each face is its pair of
    cells (up, down), negative on the boundary. *)
Fixpoint update_faces (r : region) (iface : nat) (faces : list (Z * Z)) (T : list (list R)) : outcome (list (list R)) :=
  match faces with
  | [] => Ok T
  | (up, dn) :: rest =>
    do T <- (if (0 <=? up) && (0 <=? dn) then
               do same <- AreCellsInTheSameRegion r up dn;
               if is_false same then for_ 4 (fun isub T => zero_row T (iface * 4 + isub)) T else Ok T
             else Ok T);
    update_faces r (S iface) rest T
  end.
Definition UpdateTransmissibilityMatrix (r : region) (faces : list (Z * Z)) (T : list (list R)) : outcome (list (list R)) :=
  update_faces r 0 faces T.

(** The product of a row with the pressures (MatMult). *)
Fixpoint row_times (row p : list R) : R :=
  match row, p with a :: row, x :: p => (a * x + row_times row p)%R | _, _ => 0%R end.
