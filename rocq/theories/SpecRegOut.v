(** What a regression file should say of a field. *)
From Coq Require Import Reals List Arith.
From Verif Require Import Prelude RegOut.
Import ListNotations.
Local Open Scope R_scope.

Definition greatest (l : list R) (x : R) : Prop := In x l /\ forall y, In y l -> y <= x.
Definition least (l : list R) (x : R) : Prop := In x l /\ forall y, In y l -> x <= y.
Fixpoint sum (l : list R) : R := match l with [] => 0 | x :: l => x + sum l end.

(** One part of the file: greatest, least and mean value over all cells, and the values of
    the cells ks. *)
Definition section (q : quantity) (field : list R) (ks : list nat) (lines : list line) : Prop :=
  exists mx mn xs,
    lines = [Title q; Max (Some mx); Min (Some mn); Mean (Some (sum field / INR (length field)))]
            ++ map (fun kx => Cell (fst kx) (snd kx)) (combine ks xs) /\
    greatest field mx /\ least field mn /\
    Forall2 (fun k x => nth_error field k = Some x) ks xs.

(** Two unknowns per cell, one after the other. *)
Definition interleaved (cells : list (R * R)) : list R := flat_map (fun pt => [fst pt; snd pt]) cells.
