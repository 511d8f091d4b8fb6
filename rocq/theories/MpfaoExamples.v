(** A concrete vertex for the theorems of Prop_MpfaoTrans.v. *)
From Coq Require Import Reals List Bool Arith Lia Lra.
From Verif Require Import Prelude Arrays SpecFvtpf Mpfao SpecMpfao MpfaoProofs.
Import ListNotations.
Local Open Scope R_scope.

(** Two cells that share an internal face; every other face is on the boundary. *)
Definition ex_s0 : subcell :=
  (mkSface true 0 0 true 0 (2, 1, 0), mkSface true 1 1 false 0 (1, 3, 0), mkSface false 1 2 false 1 (0, 0, 1)).
Definition ex_s1 : subcell :=
  (mkSface false 0 0 true 0 (-1, 0, -1), mkSface true 2 3 false 2 (0, 1, 0), mkSface false 2 4 false 3 (-1, 0, 2)).
Definition ex_v : vertex := mkVertex [0; 1]%nat [ex_s0; ex_s1] 5 4 [0; 4; 8; 12; 16]%nat.
Definition ex_X : list R := [1; 2 / 3; - 1 / 3; 0; 0; - 1 / 3].

Lemma ex_well_numbered : well_numbered ex_v.
Proof.
  assert (Hall : forall f, In f (all_faces ex_v) ->
    f = mkSface true 0 0 true 0 (2, 1, 0) \/ f = mkSface true 1 1 false 0 (1, 3, 0) \/ f = mkSface false 1 2 false 1 (0, 0, 1) \/
    f = mkSface false 0 0 true 0 (-1, 0, -1) \/ f = mkSface true 2 3 false 2 (0, 1, 0) \/ f = mkSface false 2 4 false 3 (-1, 0, 2)).
  { intros f Hf. simpl in Hf. decompose [or] Hf; subst; tauto. }
  constructor; try reflexivity.
  - unfold count; simpl; lia.
  - simpl. repeat constructor; simpl; lia.
  - simpl. intros s [<-|[<-|[]]]; simpl; repeat constructor; simpl; lia.
  - intros f Hf Hi. apply Hall in Hf. unfold inner, count. decompose [or] Hf; subst; simpl in *; try discriminate; split; lia.
  - intros f Hf Hi. apply Hall in Hf. unfold inner, count. decompose [or] Hf; subst; simpl in *; try discriminate; lia.
  - intros j f Hj. unfold inner, count. simpl in Hj |- *.
    destruct j as [|[|[|[|j]]]]; simpl in Hj; try (injection Hj as <-; reflexivity). destruct j; discriminate.
  - intros [|]; simpl; repeat constructor; simpl; lia.
Qed.
Lemma ex_candf : forall m, ComputeCandF (sizes_of DirichletBC ex_v) ex_v = Ok m ->
  cm 1 (fill_A (sizes_of DirichletBC ex_v) m) 0 0 = 3 /\
  forall j, (j < 6)%nat -> cm 1 (fill_B (sizes_of DirichletBC ex_v) m) 0 j = nth j [3; 2; -1; 0; 0; -1] 0.
Proof.
  intros m H. cbv -[Rplus Ropp Rminus Rmult IZR] in H. injection H as <-.
  split.
  - cbv -[Rplus Ropp Rminus Rmult IZR]. ring.
  - intros j Hj. destruct j as [|[|[|[|[|[|j]]]]]]; [..|lia]; cbv -[Rplus Ropp Rminus Rmult IZR]; ring.
Qed.
Lemma ex_answer : lapack_answer DirichletBC ex_v ex_X.
Proof.
  intros m H. apply ex_candf in H. destruct H as [HA HB].
  change (nsys (sizes_of DirichletBC ex_v)) with 1%nat. change (ncol (sizes_of DirichletBC ex_v)) with 6%nat.
  split; [reflexivity|]. intros i j Hi Hj. assert (i = 0)%nat by lia. subst i.
  rewrite (HB j Hj). cbn [acc]. rewrite HA.
  destruct j as [|[|[|[|[|[|j]]]]]]; [..|lia]; unfold cm, ex_X; simpl; lra.
Qed.
Lemma ex_regular : regular DirichletBC ex_v.
Proof.
  intros m H. apply ex_candf in H. destruct H as [HA _].
  change (nsys (sizes_of DirichletBC ex_v)) with 1%nat. intros y Hy k Hk.
  assert (k = 0)%nat by lia. subst k. specialize (Hy 0%nat Hk). cbn [total] in Hy. unfold cm in HA. rewrite HA in Hy. lra.
Qed.
(** With pressures 4 and 1 in the cells and 0 on the boundary, the flux through the
    shared face is 8/3. *)
Lemma ex_flux : exists l, NonCornerVertex DirichletBC 2 ex_v (Some ex_X) = Ok l /\
  mult l (fun c => match c with O => 4 | S O => 1 | _ => 0 end) 0 = 8 / 3.
Proof.
  destruct (entries_ok DirichletBC 2 ex_v ex_X ex_well_numbered) as [l E]. exists l. split; [exact E|].
  destruct (continuity_proof DirichletBC 2 ex_v ex_X l (fun c => match c with O => 4 | S O => 1 | _ => 0 end)
    ex_well_numbered ex_answer E) as [pi [Hpi [Hf _]]].
  pose proof (Hf 0%nat ex_s0 (mkSface true 0 0 true 0 (2, 1, 0)) 0%nat 0%nat eq_refl (or_introl eq_refl) eq_refl eq_refl) as F1.
  pose proof (Hf 1%nat ex_s1 (mkSface false 0 0 true 0 (-1, 0, -1)) 1%nat 0%nat eq_refl (or_introl eq_refl) eq_refl eq_refl) as F2.
  assert (Hb : forall u k f, In f (all_faces ex_v) -> sf_internal f = false -> sf_unk f = u -> sf_bnd f = k -> pi u = 0).
  { intros u k f H1 H2 <- <-. rewrite (Hpi ltac:(discriminate) f H1 H2). rewrite Nat.add_comm. reflexivity. }
  assert (P1 : pi 1%nat = 0) by (refine (Hb _ _ (mkSface true 1 1 false 0 (1, 3, 0)) _ eq_refl eq_refl eq_refl); simpl; auto 10).
  assert (P2 : pi 2%nat = 0) by (refine (Hb _ _ (mkSface false 1 2 false 1 (0, 0, 1)) _ eq_refl eq_refl eq_refl); simpl; auto 10).
  assert (P3 : pi 3%nat = 0) by (refine (Hb _ _ (mkSface true 2 3 false 2 (0, 1, 0)) _ eq_refl eq_refl eq_refl); simpl; auto 10).
  assert (P4 : pi 4%nat = 0) by (refine (Hb _ _ (mkSface false 2 4 false 3 (-1, 0, 2)) _ eq_refl eq_refl eq_refl); simpl; auto 10).
  unfold side_flux, ex_s0, ex_s1 in F1, F2. cbn [sf_g sf_unk] in F1, F2. rewrite P1, P2 in F1. rewrite P3, P4 in F2. lra.
Qed.
