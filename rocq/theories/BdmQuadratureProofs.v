(** The Gauss quadrature; the inverse as a list. *)
From Coq Require Import Reals List ZArith Bool Arith Lia Lra.
From Coquelicot Require Import Coquelicot.
From Verif Require Import Prelude SpecFvtpf Hdiv SpecHdiv FeMap Bdm SpecBdm BdmProofs BdmInverseProofs BdmPatchProofs.
Import ListNotations.
Local Open Scope R_scope.

Lemma gauss_exact : forall a0 a1 a2 a3 a4 a5, let p x := a0 + a1 * x + a2 * x^2 + a3 * x^3 + a4 * x^4 + a5 * x^5 in
  is_RInt p (-1) 1 (sum_over gauss (fun q => p (fst q) * snd q)).
Proof.
  intros a0 a1 a2 a3 a4 a5 p. set (P := fun x => a0 * x + a1 * x^2 / 2 + a2 * x^3 / 3 + a3 * x^4 / 4 + a4 * x^5 / 5 + a5 * x^6 / 6).
  assert (E : sum_over gauss (fun q => p (fst q) * snd q) = minus (P 1) (P (-1))).
  { unfold sum_over, gauss, minus, plus, opp, P, p. cbn [fold_right fst snd]. simpl. set (r := sqrt (3 / 5)).
    assert (R2 : r * r = 3 / 5) by (apply sqrt_sqrt; lra).
    replace (r * (r * (r * (r * 1)))) with ((r * r) * (r * r)) by ring.
    replace (- r * (- r * (- r * (- r * 1)))) with ((r * r) * (r * r)) by ring.
    replace (- r * (- r * 1)) with (r * r) by ring. replace (r * (r * 1)) with (r * r) by ring.
    replace (- r * (- r * (- r * 1))) with (- r * (r * r)) by ring. replace (r * (r * (r * 1))) with (r * (r * r)) by ring.
    replace (- r * (- r * (- r * (- r * (- r * 1))))) with (- r * ((r * r) * (r * r))) by ring. replace (r * (r * (r * (r * (r * 1))))) with (r * ((r * r) * (r * r))) by ring.
    rewrite R2. field. }
  rewrite E. apply (is_RInt_derive P p).
  - intros x _. unfold P, p. auto_derive; [trivial|]. simpl. field.
  - intros x _. unfold p. apply (ex_derive_continuous (V := R_NormedModule)). auto_derive. trivial.
Qed.
Lemma inverse_proof : forall dim lu K L, (dim = 2 \/ dim = 3)%nat -> length K = (dim * dim)%nat -> length L = (dim * dim)%nat -> inverse_of dim L K ->
  Inverse dim lu K = L /\ inverse_of dim K (Inverse dim lu K).
Proof.
  intros dim lu K L HD LK LL I. assert (D := inverse_det dim K HD LK L LL I). split; [|apply inverse_right; assumption].
  pose proof (inverse_length dim K HD LK lu D) as LI.
  apply (nth_ext _ _ 0 0); [congruence|]. intros i Hi. rewrite LI in Hi. assert (P : (0 < dim)%nat) by lia. rewrite (Nat.div_mod_eq i dim), Nat.mul_comm.
  apply (inverse_unique dim K HD LK lu L LL I); [apply Nat.div_lt_upper_bound; lia|apply Nat.mod_upper_bound; lia].
Qed.
