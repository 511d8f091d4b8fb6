(** Model of the diagnostic fields: TDyUpdateDiagnostics_MPFAO
    (src/fv/mpfao/tdympfao.c:2759-2786), TDyUpdateDiagnostics_FVTPF
    (src/fv/fvtpf/tdyfvtpf.c:361-389), whose loops are identical, and
    ExtractDiagnosticField (src/tdycore.c:1745-1763) as used by
    TDyGetLiquidSaturation and TDyGetLiquidMass (lines 1794-1825).

    The communicator-wide reordering of the extracted field is
    Scatter.global_to_natural; it is not repeated here. *)
From Coq Require Import Reals Bool List Arith.
From Verif Require Import Prelude Arrays Fields.
Import ListNotations.
Local Open Scope R_scope.

(** include/private/tdycoreimpl.h:24-25. *)
Definition DIAG_LIQUID_SATURATION : nat := 0.
Definition DIAG_LIQUID_MASS : nat := 1.

(** One pass of the loop; the state is the diagnostic vector and [count]. *)
Definition update_cell (is_local : list bool) (S rho V : list R) (c : nat) (st : list R * nat) : outcome (list R * nat) :=
  let '(v, count) := st in
  do l <- rd is_local c;
  if negb l then Ok (v, count)
  else
    do s <- rd S c;
    do v <- wr v (2 * count + DIAG_LIQUID_SATURATION) s;
    do d <- rd rho c;
    do w <- rd V c;
    do v <- wr v (2 * count + DIAG_LIQUID_MASS) (d * w);
    Ok (v, Datatypes.S count).

(** [ncells] is the number of cells of the diagnostics DM on this process (owned
    and ghost), whose numbering starts at 0. *)
Definition UpdateDiagnostics (is_local : list bool) (S rho V : list R) (ncells : nat) (v : list R) : outcome (list R) :=
  do st <- for_ ncells (update_cell is_local S rho V) (v, 0%nat);
  Ok (fst st).

(** [has_op]: the implementation has an update_diagnostics operation. *)
Definition ExtractDiagnosticField (setup_finished has_op : bool) (index : nat) (diag_vec vec : list R) : outcome (list R) :=
  if negb setup_finished then Err
  else if negb has_op then Err
  else VecStrideGather 2 index diag_vec vec.
Definition GetLiquidSaturation (setup_finished has_op : bool) (diag_vec : list R) : outcome (list R) :=
  ExtractDiagnosticField setup_finished has_op DIAG_LIQUID_SATURATION diag_vec (repeat 0 (Nat.div (length diag_vec) 2)).
Definition GetLiquidMass (setup_finished has_op : bool) (diag_vec : list R) : outcome (list R) :=
  ExtractDiagnosticField setup_finished has_op DIAG_LIQUID_MASS diag_vec (repeat 0 (Nat.div (length diag_vec) 2)).
