(** The basis functions on the faces and at the quadrature points. *)
From Coq Require Import Reals List ZArith Bool Arith Lia Lra.
From Verif Require Import Prelude Arrays SpecFvtpf FvtpfSumProofs MpfaoProofs Hdiv SpecHdiv HdivProofs FeMap SpecFeMap.
From Verif Require Import Bdm SpecBdm SpecBdmMesh BdmProofs BdmLocalProofs BdmInverseProofs BdmGlobalProofs BdmMeshProofs.
Import ListNotations.
Local Open Scope R_scope.

Lemma trace : forall dim xi, (dim = 2 \/ dim = 3)%nat -> length xi = dim -> reference_trace dim (reference dim xi) xi.
Proof.
  intros dim xi [->| ->] L; unfold reference; cbn [Nat.eqb].
  - rewrite (two xi L) at 3. apply quad_trace.
  - rewrite (three xi L) at 4. apply hex_trace.
Qed.
Lemma corner_in_product : forall (f : nat -> R) n e, (e < n)%nat -> f e = 0 -> product f n = 0.
Proof. intros f n. induction n as [|n IH]; intros e He H; [lia|]. simpl. destruct (Nat.eq_dec e n) as [->|]; [rewrite H; ring|]. rewrite (IH e) by (lia || exact H). ring. Qed.
Lemma product_one : forall (f : nat -> R) n, (forall e, (e < n)%nat -> f e = 1) -> product f n = 1.
Proof. intros f n. induction n as [|n IH]; intro H; [reflexivity|]. simpl. rewrite IH, (H n) by (intros; try apply H; lia). ring. Qed.
Lemma corner_value : forall dim v w d x, (v < 2 ^ dim)%nat -> (w < 2 ^ dim)%nat -> (d < dim)%nat -> side w d = side v d -> (forall e, (e < dim)%nat -> x e = side v e) ->
  corner_function dim w d x = if (w =? v)%nat then 1 else 0.
Proof.
  intros dim v w d x Hv Hw Hd Hs Hx. unfold corner_function. destruct (Nat.eqb_spec w v) as [->|D].
  - apply product_one. intros e He. destruct (e =? d)%nat; [reflexivity|]. rewrite (Hx e He). unfold side. destruct (Nat.testbit v e); field.
  - assert (X : exists e, (e < dim)%nat /\ Nat.testbit w e <> Nat.testbit v e).
    { destruct (forallb (fun e => Bool.eqb (Nat.testbit w e) (Nat.testbit v e)) (seq 0 dim)) eqn:F.
      - exfalso. apply D. apply Nat.bits_inj. intro e. destruct (Nat.lt_ge_cases e dim) as [L|L].
        + rewrite forallb_forall in F. apply eqb_prop. apply F. apply in_seq. lia.
        + rewrite !Nat.bits_above_log2; [reflexivity| |].
          * destruct (Nat.eq_dec v 0) as [->|]; [change (Nat.log2 0) with 0%nat; lia|]. apply Nat.lt_le_trans with dim; [|exact L]. apply Nat.log2_lt_pow2; lia.
          * destruct (Nat.eq_dec w 0) as [->|]; [change (Nat.log2 0) with 0%nat; lia|]. apply Nat.lt_le_trans with dim; [|exact L]. apply Nat.log2_lt_pow2; lia.
      - clear - F. assert (G : forall l, forallb (fun e => Bool.eqb (Nat.testbit w e) (Nat.testbit v e)) l = false -> exists e, In e l /\ Nat.testbit w e <> Nat.testbit v e).
        { induction l as [|e l IH]; simpl; intro H; [discriminate H|]. destruct (Bool.eqb (Nat.testbit w e) (Nat.testbit v e)) eqn:Q.
          - destruct (IH H) as [e' [I1 I2]]. exists e'. tauto.
          - exists e. split; [left; reflexivity|]. intro Z. rewrite Z, eqb_reflx in Q. discriminate Q. }
        destruct (G _ F) as [e [I1 I2]]. exists e. apply in_seq in I1. split; [lia|exact I2]. }
    destruct X as [e [He Hb]]. apply corner_in_product with e; [exact He|]. destruct (Nat.eqb_spec e d) as [->|].
    + exfalso. unfold side in Hs. destruct (Nat.testbit w d), (Nat.testbit v d); try lra; apply Hb; reflexivity.
    + rewrite (Hx e He). unfold side. destruct (Nat.testbit w e), (Nat.testbit v e); try (exfalso; apply Hb; reflexivity); field.
Qed.

(** ** Quadratic functions *)
Definition quadratic (f : R -> R) : Prop := exists a p q, forall t, f t = a + p * t + q * (t * t).
Lemma quadratic_zero : forall f s, quadratic f -> s <> 0 -> f (- s) = 0 -> f 0 = 0 -> f s = 0 -> forall t, f t = 0.
Proof.
  intros f s [a [p [q H]]] Hs H1 H2 H3 t. rewrite H in H1, H2, H3 |- *.
  assert (A : a = 0) by lra. subst a. assert (Q : q * (s * s) = 0) by lra. assert (P : p * s = 0) by lra.
  apply Rmult_integral in P. destruct P as [->|P]; [|contradiction]. apply Rmult_integral in Q. destruct Q as [->|Q]; [ring|].
  exfalso. apply Rmult_integral in Q. destruct Q; contradiction.
Qed.
Lemma quadratic_total : forall (f : nat -> R -> R) n, (forall r, (r < n)%nat -> quadratic (f r)) -> quadratic (fun t => total (fun r => f r t) n).
Proof.
  intros f n. induction n as [|n IH]; intro H.
  - exists 0, 0, 0. intro t. simpl. ring.
  - destruct IH as [a [p [q E]]]; [intros r Hr; apply H; lia|]. destruct (H n ltac:(lia)) as [a' [p' [q' E']]].
    exists (a + a'), (p + p'), (q + q'). intro t. simpl. rewrite E, E'. ring.
Qed.
Lemma quadratic_scale : forall f y, quadratic f -> quadratic (fun t => y * f t).
Proof. intros f y [a [p [q E]]]. exists (y * a), (y * p), (y * q). intro t. rewrite E. ring. Qed.
Ltac by_values f := exists (f 0), ((f 1 - f (-1)) / 2), ((f 1 + f (-1)) / 2 - f 0); intro t; cbv [nth]; field.
Lemma quad_quadratic : forall i x, (i < 16)%nat -> quadratic (fun t => nth i (quad_reference t x) 0) /\ quadratic (fun t => nth i (quad_reference x t) 0).
Proof.
  intros i x Hi. unfold quad_reference. do 16 (destruct i as [|i]; [split; cbn [nth]; match goal with |- quadratic ?f => by_values f end|]). lia.
Qed.
Lemma hex_quadratic : forall i x y, (i < 72)%nat -> quadratic (fun t => nth i (hex_reference t x y) 0) /\ quadratic (fun t => nth i (hex_reference x t y) 0) /\ quadratic (fun t => nth i (hex_reference x y t) 0).
Proof.
  intros i x y Hi. unfold hex_reference. do 72 (destruct i as [|i]; [split; [|split]; cbn [nth]; match goal with |- quadratic ?f => by_values f end|]). lia.
Qed.

Definition on_grid (t : R) : Prop := t = - sqrt (3 / 5) \/ t = 0 \/ t = sqrt (3 / 5).
Lemma grid_point : forall x, Forall on_grid x -> exists w, In (x, w) (gauss_tensor (length x)).
Proof.
  assert (G : forall t, on_grid t -> exists w, In (t, w) gauss).
  { intros t [->|[->| ->]]; [exists (5/9)|exists (8/9)|exists (5/9)]; simpl; tauto. }
  intro x. induction x as [|t x IH] using rev_ind; intro H.
  - exists 1. left. reflexivity.
  - rewrite app_length, Nat.add_1_r. apply Forall_app in H. destruct H as [H1 H2]. destruct (IH H1) as [w Hw]. inversion H2 as [|? ? Ht _]; subst.
    destruct (G t Ht) as [w' Hw']. exists (w * w'). cbn [gauss_tensor]. apply in_flat_map. exists (x, w). split; [exact Hw|].
    apply in_map_iff. exists (t, w'). split; [reflexivity|exact Hw'].
Qed.
Lemma root_pos : sqrt (3 / 5) <> 0.
Proof. assert (H : 0 < sqrt (3/5)) by (apply sqrt_lt_R0; lra). lra. Qed.
(** A combination of the reference functions that vanishes at the Gauss points vanishes. *)
Lemma gauss_unisolvent : forall dim (w : nat -> R) j, (dim = 2 \/ dim = 3)%nat -> (j < dim)%nat ->
  (forall q, In q (gauss_tensor dim) -> total (fun r => w r * nth (r * dim + j) (reference dim (fst q)) 0) (dim * 2 ^ dim) = 0) ->
  forall x, length x = dim -> total (fun r => w r * nth (r * dim + j) (reference dim x) 0) (dim * 2 ^ dim) = 0.
Proof.
  intros dim w j [->| ->] Hj H x L.
  - rewrite (two x L). generalize (nth 0 x 0) as a, (nth 1 x 0) as c. clear x L. unfold reference in *. cbn [Nat.eqb nth] in *.
    change (2 * 2 ^ 2)%nat with 8%nat in *. set (f := fun a c => total (fun r => w r * nth (r * 2 + j) (quad_reference a c) 0) 8).
    assert (G : forall a c, on_grid a -> on_grid c -> f a c = 0).
    { intros a c Ha Hc. destruct (grid_point [a; c] ltac:(repeat (apply Forall_cons; [assumption|]); apply Forall_nil)) as [wt Hq]. exact (H _ Hq). }
    assert (Q1 : forall c, quadratic (fun t => f t c)).
    { intro c. apply quadratic_total. intros r Hr. apply quadratic_scale. apply quad_quadratic. lia. }
    assert (Q2 : forall c, quadratic (f c)).
    { intro c. apply quadratic_total. intros r Hr. apply quadratic_scale. apply quad_quadratic. lia. }
    intros a c. change (f a c = 0). unfold on_grid in G.
    assert (R1 : forall c, on_grid c -> forall a, f a c = 0).
    { intros c0 Hc0. apply (quadratic_zero (fun t => f t c0) (sqrt (3/5)) (Q1 c0) root_pos); apply G; tauto. }
    unfold on_grid in R1. apply (quadratic_zero (f a) (sqrt (3/5)) (Q2 a) root_pos); apply R1; tauto.
  - rewrite (three x L). generalize (nth 0 x 0) as a, (nth 1 x 0) as c, (nth 2 x 0) as e. clear x L. unfold reference in *. cbn [Nat.eqb nth] in *.
    change (3 * 2 ^ 3)%nat with 24%nat in *. set (f := fun a c e => total (fun r => w r * nth (r * 3 + j) (hex_reference a c e) 0) 24).
    assert (G : forall a c e, on_grid a -> on_grid c -> on_grid e -> f a c e = 0).
    { intros a c e Ha Hc He. destruct (grid_point [a; c; e] ltac:(repeat (apply Forall_cons; [assumption|]); apply Forall_nil)) as [wt Hq]. exact (H _ Hq). }
    assert (Q1 : forall c e, quadratic (fun t => f t c e)).
    { intros c e. apply quadratic_total. intros r Hr. apply quadratic_scale. apply hex_quadratic. lia. }
    assert (Q2 : forall a e, quadratic (fun t => f a t e)).
    { intros a e. apply quadratic_total. intros r Hr. apply quadratic_scale. apply (hex_quadratic _ a e). lia. }
    assert (Q3 : forall a c, quadratic (fun t => f a c t)).
    { intros a c. apply quadratic_total. intros r Hr. apply quadratic_scale. apply (hex_quadratic _ a c). lia. }
    intros a c e. change (f a c e = 0). unfold on_grid in G.
    assert (R1 : forall c e, on_grid c -> on_grid e -> forall a, f a c e = 0).
    { intros c0 e0 Hc0 He0. apply (quadratic_zero (fun t => f t c0 e0) (sqrt (3/5)) (Q1 c0 e0) root_pos); apply G; tauto. }
    assert (R2 : forall e, on_grid e -> forall a c, f a c e = 0).
    { intros e0 He0 a0. apply (quadratic_zero (fun t => f a0 t e0) (sqrt (3/5)) (Q2 a0 e0) root_pos); apply R1; unfold on_grid; tauto. }
    apply (quadratic_zero (f a c) (sqrt (3/5)) (Q3 a c) root_pos); apply R2; unfold on_grid; tauto.
Qed.

(** ** The coefficients are the normal components at the corners *)
Definition corner_point (dim v : nat) : list R := map (fun e => side v e) (seq 0 dim).
Lemma corner_point_nth : forall dim v e, (e < dim)%nat -> nth e (corner_point dim v) 0 = side v e.
Proof. intros dim v e He. unfold corner_point. apply map_seq_nth. exact He. Qed.
Lemma coefficient : forall dim (w : nat -> R) v d, (dim = 2 \/ dim = 3)%nat -> (v < 2 ^ dim)%nat -> (d < dim)%nat ->
  total (fun r => w r * nth (r * dim + d) (reference dim (corner_point dim v)) 0) (dim * 2 ^ dim) * side v d = w (v * dim + d)%nat.
Proof.
  intros dim w v d HD Hv Hd.
  assert (LC : length (corner_point dim v) = dim) by (unfold corner_point; rewrite map_length; apply seq_length).
  pose proof (trace dim (corner_point dim v) HD LC) as T.
  rewrite Nat.mul_comm, total_block, <- total_scale.
  rewrite (total_ext _ (fun v' => if (v =? v')%nat then w (v' * dim + d)%nat else 0)).
  - apply (total_pick (fun v' => w (v' * dim + d)%nat)). exact Hv.
  - intros v' Hv'. rewrite <- total_scale. rewrite (total_ext _ (fun d' => if (d =? d')%nat then (if (v =? v')%nat then w (v' * dim + d')%nat else 0) else 0)).
    + rewrite (total_pick (fun d' => if (v =? v')%nat then w (v' * dim + d')%nat else 0)) by exact Hd. reflexivity.
    + intros d' Hd'. assert (SD : side v d = 1 \/ side v d = -1) by (unfold side; destruct (Nat.testbit v d); [left|right]; reflexivity).
      destruct (T v' d' d (side v d) Hv' Hd' Hd SD (corner_point_nth dim v d Hd)) as [T1 T2].
      unfold component in T1, T2. rewrite Rmult_assoc.
      destruct (Nat.eqb_spec d d') as [<-|Dd].
      * destruct (Req_EM_T (side v' d) (side v d)) as [Es|Es].
        -- rewrite (T1 (conj eq_refl Es)). rewrite (corner_value dim v v' d _ Hv Hv' Hd Es (fun e He => corner_point_nth dim v e He)).
           rewrite (Nat.eqb_sym v' v). destruct (v =? v')%nat; ring.
        -- rewrite (T2 (or_intror Es)). destruct (Nat.eqb_spec v v') as [->|]; [exfalso; apply Es; reflexivity|ring].
      * rewrite (T2 (or_introl (fun X => Dd (eq_sym X)))). ring.
Qed.
Lemma corner_listed : forall dim v, (dim = 2 \/ dim = 3)%nat -> (v < 2 ^ dim)%nat -> In (corner_point dim v, 1) (corner_quadrature dim).
Proof.
  intros dim v [->| ->] Hv; simpl in Hv.
  - destruct v as [|[|[|[|v]]]]; [| | | |lia]; cbv -[IZR Ropp]; tauto.
  - do 8 (destruct v as [|v]; [cbv -[IZR Ropp]; tauto|]). lia.
Qed.
Lemma unisolvent : forall lumped dim (w : nat -> R), (dim = 2 \/ dim = 3)%nat ->
  (forall q j, In q (quadrature lumped dim) -> (j < dim)%nat -> total (fun r => w r * nth (r * dim + j) (reference dim (fst q)) 0) (dim * 2 ^ dim) = 0) ->
  forall r, (r < dim * 2 ^ dim)%nat -> w r = 0.
Proof.
  intros lumped dim w HD H r Hr. assert (D : (0 < dim)%nat) by lia.
  assert (Hv : (r / dim < 2 ^ dim)%nat) by (apply Nat.div_lt_upper_bound; [lia|exact Hr]).
  assert (Hd : (r mod dim < dim)%nat) by (apply Nat.mod_upper_bound; lia).
  replace r with (r / dim * dim + r mod dim)%nat by (rewrite (Nat.div_mod r dim) at 3 by lia; lia).
  rewrite <- (coefficient dim w _ _ HD Hv Hd).
  assert (Z : total (fun r0 => w r0 * nth (r0 * dim + r mod dim) (reference dim (corner_point dim (r / dim))) 0) (dim * 2 ^ dim) = 0).
  { destruct lumped; unfold quadrature in H.
    - apply (H (corner_point dim (r / dim), 1)); [apply corner_listed; assumption|exact Hd].
    - apply gauss_unisolvent; [exact HD|exact Hd| |unfold corner_point; rewrite map_length; apply seq_length].
      intros q Hq. apply H; assumption. }
  rewrite Z. ring.
Qed.
