(** Specification vocabulary for the diagnostic fields. *)
From Coq Require Import Reals List Arith.
Import ListNotations.
Local Open Scope R_scope.

(** The cells of this process, in local order. *)
Definition owned_cells (is_local : list bool) (n : nat) : list nat :=
  filter (fun c => nth c is_local false) (seq 0 n).
Definition values (a : list R) (cells : list nat) : list R := map (fun c => nth c a 0) cells.
(** The mass of water stored in cell [c], as it enters the residuals. *)
Definition stored_mass (rho por S V : list R) (c : nat) : R := nth c rho 0 * nth c por 0 * nth c S 0 * nth c V 0.
