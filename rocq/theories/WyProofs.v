(** Proofs about the Wheeler-Yotov method, Wy.v. *)
From Coq Require Import Reals List ZArith Arith Bool Lia Lra.
From Verif Require Import Prelude Arrays SpecFvtpf FvtpfSumProofs Mpfao SpecMpfao MpfaoProofs SpecHdiv Wy SpecWy.
Import ListNotations.
Local Open Scope R_scope.

(** * Small facts *)
Lemma ElementSide_side : forall q d, ElementSide q d = side q d.
Proof.
  intros q d. unfold ElementSide, side. rewrite Nat.testbit_eqb.
  pose proof (Nat.mod_upper_bound (q / 2 ^ d) 2 ltac:(lia)) as H.
  destruct ((q / 2 ^ d) mod 2)%nat as [|[|k]]; simpl; try reflexivity. lia.
Qed.
Lemma side_sq : forall q d, side q d * side q d = 1.
Proof. intros q d. unfold side. destruct (Nat.testbit q d); lra. Qed.

Lemma total_axis : forall d x (f : nat -> R) n, (d < n)%nat -> total (fun k => f k * axis d x k) n = f d * x.
Proof.
  intros d x f n H. rewrite (total_ext _ (fun k => (if (k =? d)%nat then x else 0) * f k)).
  - rewrite total_one by exact H. ring.
  - intros k Hk. unfold axis. ring.
Qed.
Lemma KDotADotB_axes : forall n X i j si sj, (i < n)%nat -> (j < n)%nat ->
  KDotADotB n X (axis i si) (axis j sj) = cm n X j i * si * sj.
Proof.
  intros n X i j si sj Hi Hj. unfold KDotADotB. rewrite acc_total.
  rewrite (total_ext _ (fun a => (cm n X a i * si) * axis j sj a)).
  - rewrite total_axis by exact Hj. reflexivity.
  - intros a Ha. rewrite acc_total, total_axis by exact Hi. reflexivity.
Qed.
Definition coef (n : nat) : R := 2 ^ n / (2 ^ n / 2) / (2 ^ n / 2) * (/ 2) ^ n.
Lemma coef_pos : forall n, 0 < coef n.
Proof.
  intros n. unfold coef. assert (0 < 2 ^ n) by (apply pow_lt; lra). assert (0 < (/ 2) ^ n) by (apply pow_lt; lra).
  apply Rmult_lt_0_compat; [|assumption]. unfold Rdiv. repeat apply Rmult_lt_0_compat; try assumption; apply Rinv_0_lt_compat; lra.
Qed.
Lemma coef_weight : forall n, (0 < n)%nat -> coef n * 2 ^ (n - 1) = (/ 2) ^ (n - 1).
Proof.
  intros n H. destruct n as [|n]; [lia|]. unfold coef. replace (S n - 1)%nat with n by lia.
  rewrite !pow_inv by lra. simpl. assert (2 ^ n <> 0) by (apply pow_nonzero; lra). field. assumption.
Qed.
Lemma Alocal_value : forall n el q j i, (i < n)%nat -> (j < n)%nat ->
  Alocal n el q j i = cm n (kinv el q) j i * side q i * side q j * coef n.
Proof.
  intros n el q j i Hi Hj. unfold Alocal. rewrite KDotADotB_axes by assumption. rewrite !ElementSide_side.
  unfold coef. unfold Rdiv. ring.
Qed.

Lemma cm_gemm_tn : forall alpha m n k A B i j, (i < m)%nat -> (j < n)%nat ->
  cm m (gemm_tn alpha m n k A B) i j = alpha * total (fun l => cm k A l i * cm k B l j) k.
Proof.
  intros alpha m n k A B i j Hi Hj. unfold gemm_tn. rewrite cm_seq; auto.
  - rewrite map_seq_nth by exact Hi. rewrite acc_total. reflexivity.
  - intros q. rewrite map_length, seq_length. reflexivity.
Qed.
(** J DF^-1 K DF^-T. *)
Lemma kappa_value : forall n K DFinv J i j, (i < n)%nat -> (j < n)%nat ->
  cm n (kappa n K DFinv J) i j = J * total (fun l => el_of n DFinv i l * total (fun k => el_of n K l k * el_of n DFinv j k) n) n.
Proof.
  intros n K DFinv J i j Hi Hj. unfold kappa. rewrite cm_gemm_tn by assumption. f_equal. apply total_ext. intros l Hl.
  rewrite cm_gemm_tn by assumption. rewrite Rmult_1_l. reflexivity.
Qed.

Lemma total_none : forall (f : nat -> R) k, (forall i, (i < k)%nat -> f i = 0) -> total f k = 0.
Proof. intros f k H. rewrite <- (total_zero k). apply total_ext. exact H. Qed.

Section Algebra.
Variables (n : nat) (DF DFinv K X : list R) (J : R).
Hypothesis HDF : inverse_of n DF DFinv.
Hypothesis HDF' : inverse_of n DFinv DF.
Hypothesis HX : Pullback n K DFinv J X.

Lemma X_left : forall i j, (i < n)%nat -> (j < n)%nat -> total (fun k => cm n X i k * cm n (kappa n K DFinv J) k j) n = if (i =? j)%nat then 1 else 0.
Proof. intros i j Hi Hj. destruct HX as [_ [_ H]]. rewrite <- acc_total. apply H; assumption. Qed.
Lemma X_right : forall i j, (i < n)%nat -> (j < n)%nat -> total (fun k => cm n (kappa n K DFinv J) i k * cm n X k j) n = if (i =? j)%nat then 1 else 0.
Proof. intros i j Hi Hj. destruct HX as [_ [H _]]. rewrite <- acc_total. apply H; assumption. Qed.

Lemma total_delta : forall i (f : nat -> R), (i < n)%nat -> total (fun j => (if (i =? j)%nat then 1 else 0) * f j) n = f i.
Proof.
  intros i f Hi. rewrite (total_ext _ (fun j => (if (j =? i)%nat then 1 else 0) * f j)).
  - rewrite total_one by exact Hi. ring.
  - intros j Hj. rewrite Nat.eqb_sym. reflexivity.
Qed.

(** kappa (DF^T g) = J DF^-1 K g. *)
Lemma kappa_gradient : forall g i, (i < n)%nat ->
  total (fun j => cm n (kappa n K DFinv J) i j * total (fun a => el_of n DF a j * g a) n) n
  = J * total (fun l => el_of n DFinv i l * total (fun k => el_of n K l k * g k) n) n.
Proof.
  intros g i Hi.
  rewrite (total_ext _ (fun j => J * total (fun l => el_of n DFinv i l * total (fun k => el_of n K l k * (el_of n DFinv j k * total (fun a => el_of n DF a j * g a) n)) n) n)).
  - rewrite total_scale_l. f_equal. rewrite total_swap. apply total_ext. intros l Hl. rewrite total_scale_l. f_equal.
    rewrite total_swap. apply total_ext. intros k Hk. rewrite total_scale_l. f_equal.
    rewrite (total_ext _ (fun j => total (fun a => el_of n DF a j * el_of n DFinv j k * g a) n)).
    + rewrite total_swap. rewrite (total_ext _ (fun a => (if (k =? a)%nat then 1 else 0) * g a)).
      * apply total_delta. exact Hk.
      * intros a Ha. rewrite total_scale. unfold el_of. rewrite (HDF a k Ha Hk), Nat.eqb_sym. reflexivity.
    + intros j Hj. rewrite <- total_scale_l. apply total_ext. intros a Ha. ring.
  - intros j Hj. rewrite kappa_value by assumption. rewrite Rmult_assoc. f_equal. rewrite <- total_scale. apply total_ext. intros l Hl.
    rewrite Rmult_assoc, <- total_scale. f_equal. apply total_ext. intros k Hk. ring.
Qed.
(** X (J DF^-1 K g) = DF^T g. *)
Lemma X_flux : forall g d, (d < n)%nat ->
  total (fun e => cm n X d e * (J * total (fun l => el_of n DFinv e l * total (fun k => el_of n K l k * g k) n) n)) n
  = total (fun a => el_of n DF a d * g a) n.
Proof.
  intros g d Hd.
  rewrite (total_ext _ (fun e => total (fun j => cm n X d e * cm n (kappa n K DFinv J) e j * total (fun a => el_of n DF a j * g a) n) n)).
  - rewrite total_swap. rewrite (total_ext _ (fun j => (if (d =? j)%nat then 1 else 0) * total (fun a => el_of n DF a j * g a) n)).
    + apply total_delta with (f := fun j => total (fun a => el_of n DF a j * g a) n). exact Hd.
    + intros j Hj. rewrite total_scale, X_left by assumption. reflexivity.
  - intros e He. rewrite <- kappa_gradient by exact He. rewrite <- total_scale_l. apply total_ext. intros j Hj. ring.
Qed.

(** The quadratic form of kappa. *)
Lemma kappa_form : forall y z : nat -> R,
  total (fun i => total (fun j => y i * cm n (kappa n K DFinv J) i j * z j) n) n
  = J * total (fun l => total (fun k => total (fun i => el_of n DFinv i l * y i) n * el_of n K l k * total (fun j => el_of n DFinv j k * z j) n) n) n.
Proof.
  intros y z.
  rewrite (total_ext _ (fun i => total (fun j => total (fun l => total (fun k => J * (el_of n DFinv i l * y i * el_of n K l k * (el_of n DFinv j k * z j))) n) n) n)).
  - rewrite <- total_scale_l.
    transitivity (total (fun l => total (fun k => total (fun i => total (fun j => J * (el_of n DFinv i l * y i * el_of n K l k * (el_of n DFinv j k * z j))) n) n) n) n).
    + rewrite (total_ext _ (fun i => total (fun l => total (fun j => total (fun k => J * (el_of n DFinv i l * y i * el_of n K l k * (el_of n DFinv j k * z j))) n) n) n)) by (intros; apply total_swap).
      rewrite total_swap. apply total_ext. intros l Hl.
      rewrite (total_ext _ (fun i => total (fun k => total (fun j => J * (el_of n DFinv i l * y i * el_of n K l k * (el_of n DFinv j k * z j))) n) n)) by (intros; apply total_swap).
      apply total_swap.
    + apply total_ext. intros l Hl. rewrite <- total_scale_l. apply total_ext. intros k Hk.
      rewrite (total_ext _ (fun i => el_of n DFinv i l * y i * (J * (el_of n K l k * total (fun j => el_of n DFinv j k * z j) n)))).
      * rewrite total_scale. ring.
      * intros i Hi. rewrite <- !total_scale_l. apply total_ext. intros j Hj. ring.
  - intros i Hi. apply total_ext. intros j Hj. rewrite kappa_value by assumption.
    transitivity (total (fun l => y i * J * z j * (el_of n DFinv i l * total (fun k => el_of n K l k * el_of n DFinv j k) n)) n).
    + rewrite total_scale_l. ring.
    + apply total_ext. intros l Hl.
      transitivity (y i * J * z j * el_of n DFinv i l * total (fun k => el_of n K l k * el_of n DFinv j k) n); [ring|].
      rewrite <- total_scale_l. apply total_ext. intros k Hk. ring.
Qed.

Lemma kappa_apply_X : forall t i, (i < n)%nat ->
  total (fun j => cm n (kappa n K DFinv J) i j * total (fun e => cm n X j e * t e) n) n = t i.
Proof.
  intros t i Hi.
  rewrite (total_ext _ (fun j => total (fun e => cm n (kappa n K DFinv J) i j * cm n X j e * t e) n)).
  - rewrite total_swap. rewrite (total_ext _ (fun e => (if (i =? e)%nat then 1 else 0) * t e)).
    + apply total_delta. exact Hi.
    + intros e He. rewrite total_scale, X_right by assumption. reflexivity.
  - intros j Hj. rewrite <- total_scale_l. apply total_ext. intros e He. ring.
Qed.

Hypothesis HJ : 0 < J.
Hypothesis HKs : symmetric n K.
Hypothesis HK : positive_definite n K.

(** t^T X u, with X in place of the inverse of kappa. *)
Definition form (t u : nat -> R) : R := total (fun d => total (fun e => t d * cm n X d e * u e) n) n.
Let solved (t : nat -> R) (j : nat) : R := total (fun e => cm n X j e * t e) n.
Let pulled (t : nat -> R) (l : nat) : R := total (fun i => el_of n DFinv i l * solved t i) n.

Lemma form_kappa : forall t u, form t u = J * total (fun l => total (fun k => pulled t l * el_of n K l k * pulled u k) n) n.
Proof.
  intros t u. unfold form.
  transitivity (total (fun j => total (fun i => solved t j * cm n (kappa n K DFinv J) j i * solved u i) n) n); [|apply kappa_form].
  assert (Hsym : forall i j, (i < n)%nat -> (j < n)%nat -> cm n (kappa n K DFinv J) i j = cm n (kappa n K DFinv J) j i).
  { intros i j Hi Hj. rewrite !kappa_value by assumption. f_equal.
    transitivity (total (fun l => total (fun k => el_of n DFinv i l * el_of n K l k * el_of n DFinv j k) n) n).
    - apply total_ext. intros l Hl. rewrite <- total_scale_l. apply total_ext. intros k Hk. ring.
    - rewrite total_swap. apply total_ext. intros l Hl. rewrite <- total_scale_l. apply total_ext. intros k Hk.
      rewrite (HKs k l) by assumption. ring. }
  rewrite (total_ext _ (fun d => t d * solved u d)).
  - rewrite total_swap.
    apply total_ext. intros i Hi.
    transitivity (total (fun j => cm n (kappa n K DFinv J) i j * solved t j) n * solved u i).
    + unfold solved. rewrite kappa_apply_X by exact Hi. reflexivity.
    + rewrite <- total_scale. apply total_ext. intros j Hj. rewrite (Hsym j i) by assumption. ring.
  - intros d Hd. unfold solved. rewrite <- total_scale_l. apply total_ext. intros e He. ring.
Qed.
Lemma form_sym : forall t u, form t u = form u t.
Proof.
  intros t u. rewrite !form_kappa. f_equal. rewrite total_swap. apply total_ext. intros l Hl. apply total_ext. intros k Hk.
  rewrite (HKs k l) by assumption. ring.
Qed.
Lemma all_zero_or_not : forall (w : nat -> R) k, (forall i, (i < k)%nat -> w i = 0) \/ (exists i, (i < k)%nat /\ w i <> 0).
Proof.
  intros w k; induction k as [|k IH]; [left; intros; lia|].
  destruct IH as [H|[i [H1 H2]]]; [|right; exists i; split; [lia|exact H2]].
  destruct (Req_dec (w k) 0) as [E|E]; [|right; exists k; split; [lia|exact E]].
  left. intros i Hi. destruct (Nat.eq_dec i k) as [->|Hne]; [exact E|apply H; lia].
Qed.
Lemma form_nonneg : forall t, 0 <= form t t.
Proof.
  intros t. rewrite form_kappa. apply Rmult_le_pos; [lra|].
  destruct (all_zero_or_not (pulled t) n) as [H|H]; [|left; apply (HK (pulled t) H)].
  right. symmetry. apply total_none. intros l Hl. apply total_none. intros k Hk.
  rewrite (H l Hl). ring.
Qed.
Lemma form_zero : forall t, form t t = 0 -> forall d, (d < n)%nat -> t d = 0.
Proof.
  intros t H d Hd. rewrite form_kappa in H.
  destruct (all_zero_or_not (pulled t) n) as [H0|H0].
  - assert (Hs : forall j, (j < n)%nat -> solved t j = 0).
    { intros j Hj.
      assert (E : total (fun l => el_of n DF l j * pulled t l) n = solved t j).
      { unfold pulled. rewrite (total_ext _ (fun l => total (fun i => el_of n DFinv i l * el_of n DF l j * solved t i) n)).
        - rewrite total_swap. rewrite (total_ext _ (fun i => (if (j =? i)%nat then 1 else 0) * solved t i)).
          + apply total_delta. exact Hj.
          + intros i Hi. rewrite total_scale. unfold el_of. rewrite (HDF' i j Hi Hj), Nat.eqb_sym. reflexivity.
        - intros l Hl. rewrite <- total_scale_l. apply total_ext. intros i Hi. ring. }
      rewrite <- E. rewrite <- (total_zero n). apply total_ext. intros l Hl. rewrite (H0 l Hl). ring. }
    rewrite <- (kappa_apply_X t d Hd). rewrite <- (total_zero n). apply total_ext. intros j Hj. fold (solved t j). rewrite (Hs j Hj). ring.
  - pose proof (HK (pulled t) H0) as Hp. apply Rmult_integral in H. destruct H as [H|H]; lra.
Qed.
End Algebra.

(** * Sums over lists *)
Lemma rsum_app : forall {X} (f : X -> R) l l', rsum f (l ++ l') = rsum f l + rsum f l'.
Proof. intros X f l l'; induction l as [|x l IH]; simpl; [ring|]. rewrite IH. ring. Qed.
Lemma rsum_ext : forall {X} (f g : X -> R) l, (forall x, In x l -> f x = g x) -> rsum f l = rsum g l.
Proof.
  intros X f g l; induction l as [|x l IH]; intros H; simpl; [reflexivity|].
  rewrite (H x) by (left; reflexivity). rewrite IH; [reflexivity|]. intros y Hy. apply H. right. exact Hy.
Qed.
Lemma rsum_scale : forall {X} (f : X -> R) a l, rsum (fun x => a * f x) l = a * rsum f l.
Proof. intros X f a l; induction l as [|x l IH]; simpl; [ring|]. rewrite IH. ring. Qed.
Lemma rsum_plus : forall {X} (f g : X -> R) l, rsum (fun x => f x + g x) l = rsum f l + rsum g l.
Proof. intros X f g l; induction l as [|x l IH]; simpl; [ring|]. rewrite IH. ring. Qed.
Lemma rsum_total : forall {X} (f : X -> nat -> R) l n, total (fun k => rsum (fun x => f x k) l) n = rsum (fun x => total (f x) n) l.
Proof.
  intros X f l n; induction l as [|x l IH]; simpl.
  - apply total_none. reflexivity.
  - rewrite <- IH. clear IH. induction n as [|n IH]; simpl; [ring|]. rewrite IH. ring.
Qed.
Lemma rsum_map : forall {X Y} (g : X -> Y) (f : Y -> R) l, rsum f (map g l) = rsum (fun x => f (g x)) l.
Proof. intros X Y g f l; induction l as [|x l IH]; simpl; [reflexivity|]. rewrite IH. reflexivity. Qed.
Lemma rsum_seq : forall f n, rsum f (seq 0 n) = total f n.
Proof. intros f n; induction n as [|n IH]; [reflexivity|]. rewrite seq_S, rsum_app, IH. simpl. ring. Qed.
Lemma rsum_prod : forall (f : nat * nat -> R) l n, rsum f (list_prod l (seq 0 n)) = rsum (fun c => total (fun d => f (c, d)) n) l.
Proof.
  intros f l n; induction l as [|c l IH]; simpl; [reflexivity|].
  rewrite rsum_app, IH, rsum_map, rsum_seq. reflexivity.
Qed.
Lemma rsum_one : forall {X} (f : X -> R) x l, NoDup l -> In x l -> (forall y, In y l -> y <> x -> f y = 0) -> rsum f l = f x.
Proof.
  intros X f x l; induction l as [|y l IH]; intros Hnd Hin H0; [contradiction|]. inversion Hnd as [|? ? Hy Hnd']; subst. simpl.
  destruct Hin as [->|Hin].
  - rewrite (rsum_ext f (fun _ => 0) l).
    + assert (E : rsum (fun _ : X => 0) l = 0) by (clear; induction l as [|z l IH]; simpl; [reflexivity|]; rewrite IH; ring). rewrite E. ring.
    + intros z Hz. apply H0; [right; exact Hz|]. intros ->. contradiction.
  - rewrite IH; [|assumption|assumption|intros z Hz; apply H0; right; exact Hz].
    rewrite (H0 y); [ring|left; reflexivity|]. intros ->. contradiction.
Qed.
Lemma rsum_nonneg : forall {X} (f : X -> R) l, (forall x, In x l -> 0 <= f x) -> 0 <= rsum f l.
Proof.
  intros X f l; induction l as [|x l IH]; intros H; simpl; [lra|].
  pose proof (H x (or_introl eq_refl)). pose proof (IH (fun y Hy => H y (or_intror Hy))). lra.
Qed.
Lemma rsum_zero_nonneg : forall {X} (f : X -> R) l, (forall x, In x l -> 0 <= f x) -> rsum f l = 0 -> forall x, In x l -> f x = 0.
Proof.
  intros X f l; induction l as [|y l IH]; intros H E x Hx; [contradiction|]. simpl in E.
  pose proof (H y (or_introl eq_refl)). pose proof (rsum_nonneg f l (fun z Hz => H z (or_intror Hz))).
  destruct Hx as [->|Hx]; [lra|]. apply IH; [intros z Hz; apply H; right; exact Hz|lra|exact Hx].
Qed.

Lemma list_prod_snoc : forall (l : list nat) c (s : list nat), list_prod (l ++ [c]) s = list_prod l s ++ map (pair c) s.
Proof.
  intros l c s; induction l as [|a l IH]; simpl; [rewrite app_nil_r; reflexivity|]. rewrite IH, app_assoc. reflexivity.
Qed.
Lemma NoDup_join : forall {X} (l l' : list X), NoDup l -> NoDup l' -> (forall x, In x l -> ~ In x l') -> NoDup (l ++ l').
Proof.
  intros X l l' Hl Hl' Hd; induction Hl as [|x l Hx Hl IH]; simpl; [exact Hl'|]. constructor.
  - intros H. apply in_app_or in H. destruct H as [H|H]; [contradiction|]. apply (Hd x); [left; reflexivity|exact H].
  - apply IH. intros y Hy. apply Hd. right. exact Hy.
Qed.
Lemma NoDup_prod : forall (l s : list nat), NoDup l -> NoDup s -> NoDup (list_prod l s).
Proof.
  intros l s Hl Hs; induction Hl as [|a l Ha Hl IH]; simpl; [constructor|]. apply NoDup_join; [|exact IH|].
  - clear -Hs. induction Hs as [|b s Hb Hs IH]; simpl; constructor; [|exact IH].
    intros H. apply in_map_iff in H. destruct H as [x [E Hx]]. injection E as ->. contradiction.
  - intros [u w] H1 H2. apply in_map_iff in H1. destruct H1 as [x [E _]]. injection E as <- <-.
    apply in_prod_iff in H2. destruct H2. contradiction.
Qed.

(** * Loops *)
Lemma iter_inv : forall {X St} (P : list X -> St -> Prop) (body : X -> St -> outcome St) l s,
  P [] s -> (forall l1 x s, In x l -> P l1 s -> exists s', body x s = Ok s' /\ P (l1 ++ [x]) s') ->
  exists s', iter l body s = Ok s' /\ P l s'.
Proof.
  intros X St P body l s H0 Hstep.
  assert (G : forall l2 l1 s, (forall x, In x l2 -> In x l) -> P l1 s -> exists s', iter l2 body s = Ok s' /\ P (l1 ++ l2) s').
  { induction l2 as [|x l2 IH]; intros l1 s1 Hin H1; simpl.
    - exists s1. rewrite app_nil_r. auto.
    - destruct (Hstep l1 x s1 (Hin x (or_introl eq_refl)) H1) as [s2 [E2 H2]]. rewrite E2. cbn [bind].
      destruct (IH (l1 ++ [x]) s2 (fun y Hy => Hin y (or_intror Hy)) H2) as [s3 [E3 H3]].
      exists s3. split; [exact E3|]. rewrite <- app_assoc in H3. exact H3. }
  destruct (G l [] s (fun x Hx => Hx) H0) as [s' H']. exists s'. exact H'.
Qed.
Lemma index_of_some : forall x l, In x l -> exists i, index_of x l = Some i /\ nth_error l i = Some x.
Proof.
  intros x l; induction l as [|y l IH]; intros H; [contradiction|]. simpl. destruct (y =? x)%nat eqn:E.
  - apply Nat.eqb_eq in E. subst. exists O. auto.
  - destruct H as [->|H]; [rewrite Nat.eqb_refl in E; discriminate|]. destruct (IH H) as [i [E1 E2]]. rewrite E1. exists (S i). auto.
Qed.
Lemma index_of_nodup : forall l i x, NoDup l -> nth_error l i = Some x -> index_of x l = Some i.
Proof.
  intros l i x Hnd Hi. destruct (index_of_some x l (nth_error_In _ _ Hi)) as [j [E1 E2]]. rewrite E1. f_equal.
  apply (proj1 (NoDup_nth_error l) Hnd); [|congruence]. apply nth_error_Some. congruence.
Qed.

Lemma add_row : forall M i j x M', add M i j x = Ok M' -> (j < m_cols M)%nat ->
  m_rows M' = m_rows M /\ m_cols M' = m_cols M
  /\ forall r (y : nat -> R), total (fun c => m_el M' r c * y c) (m_cols M) = total (fun c => m_el M r c * y c) (m_cols M) + (if (r =? i)%nat then x * y j else 0).
Proof.
  intros M i j x M' H Hj. unfold add in H. destruct (put_inv _ _ _ _ _ H) as [_ [_ [Hr [Hc He]]]]. split; [exact Hr|]. split; [exact Hc|].
  intros r y. destruct (r =? i)%nat eqn:E.
  - apply Nat.eqb_eq in E. subst r. rewrite <- (total_one x j y (m_cols M) Hj), <- total_plus. apply total_ext. intros c Hc'.
    rewrite He, Nat.eqb_refl. simpl. destruct (c =? j)%nat eqn:Ec; [apply Nat.eqb_eq in Ec; subst c; ring|ring].
  - rewrite Rplus_0_r. apply total_ext. intros c Hc'. rewrite He, E. reflexivity.
Qed.
Lemma add_ok : forall M i j x, (i < m_rows M)%nat -> (j < m_cols M)%nat -> exists M', add M i j x = Ok M'.
Proof. intros. apply put_ok; assumption. Qed.
Lemma add_at_ok : forall a i x, (i < length a)%nat -> exists a', add_at a i x = Ok a' /\ length a' = length a
  /\ forall k, nth k a' 0 = nth k a 0 + (if (k =? i)%nat then x else 0).
Proof.
  intros a i x Hi. unfold add_at. rewrite (rd_some a i (nth i a 0)) by (apply nth_error_nth'; exact Hi). cbn [bind].
  rewrite wr_ok by exact Hi. eexists. split; [reflexivity|]. split; [apply length_upd|]. intros k.
  destruct (k =? i)%nat eqn:E.
  - apply Nat.eqb_eq in E. subst k. apply nth_error_nth. rewrite nth_upd_same by exact Hi. reflexivity.
  - rewrite Rplus_0_r. apply Nat.eqb_neq in E. destruct (nth_error a k) as [z|] eqn:Ek.
    + rewrite (nth_error_nth _ _ 0 Ek). apply nth_error_nth. rewrite nth_upd_other by congruence. exact Ek.
    + rewrite (@nth_overflow _ a k) by (apply nth_error_None; exact Ek). apply nth_overflow. rewrite length_upd. apply nth_error_None. exact Ek.
Qed.

(** * Around a vertex *)
Section Star.
Variables (m : mesh) (star : list nat) (v : nat) (st : star_data).
Hypothesis HG : good_star m star v st.
Notation amap := (faces_of m star).
Notation bmap := (cells_of m star).
Notation n := (dim m).
Notation nA := (length (faces_of m star)).
Notation nB := (length (cells_of m star)).

Definition ix (f : nat) : nat := match index_of f amap with Some i => i | None => O end.
Definition jx (c : nat) : nat := match index_of c bmap with Some i => i | None => O end.
Definition area (f : nat) : R := nth f (V m) 0.
Definition elem (c : nat) : element := nth c (elements m) (mkElement [] [] (fun _ => [])).

Lemma ix_ok : forall f, In f amap -> index_of f amap = Some (ix f) /\ (ix f < nA)%nat /\ nth_error amap (ix f) = Some f.
Proof.
  intros f H. destruct (index_of_some f amap H) as [i [E1 E2]]. unfold ix. rewrite E1. split; [reflexivity|].
  split; [apply nth_error_Some; congruence|exact E2].
Qed.
Lemma jx_ok : forall c, In c bmap -> index_of c bmap = Some (jx c) /\ (jx c < nB)%nat /\ nth_error bmap (jx c) = Some c.
Proof.
  intros c H. destruct (index_of_some c bmap H) as [i [E1 E2]]. unfold jx. rewrite E1. split; [reflexivity|].
  split; [apply nth_error_Some; congruence|exact E2].
Qed.
Lemma ix_inj : forall f f', In f amap -> In f' amap -> ix f = ix f' -> f = f'.
Proof. intros f f' H H' E. pose proof (proj2 (proj2 (ix_ok f H))). pose proof (proj2 (proj2 (ix_ok f' H'))). congruence. Qed.
Lemma ix_nth : forall i, (i < nA)%nat -> exists f, In f amap /\ ix f = i /\ nth_error amap i = Some f.
Proof.
  intros i Hi. destruct (nth_error amap i) as [f|] eqn:E; [|apply nth_error_None in E; lia].
  exists f. pose proof (nth_error_In _ _ E) as Hin. split; [exact Hin|]. split; [|reflexivity].
  unfold ix. rewrite (index_of_nodup _ _ _ (gs_faces _ _ _ _ HG) E). reflexivity.
Qed.

(** What the loops read for cell [c]. *)
Lemma corner_read : forall c, In c bmap -> rd (elements m) c = Ok (elem c) /\ index_of v (vmap (elem c)) = Some (pos st c)
  /\ forall d, (d < n)%nat -> exists z, rd (emap (elem c)) (pos st c * n + d) = Ok z /\ face z = dir_face st c d /\ sign z = dir_sign st c d.
Proof.
  intros c Hc. destruct (gs_corner _ _ _ _ HG c Hc) as [el [E1 [Hnd [Hl [E2 Hz]]]]].
  assert (Ee : elem c = el) by (unfold elem; apply nth_error_nth; exact E1). rewrite Ee.
  split; [apply rd_some; exact E1|]. split; [apply index_of_nodup; assumption|].
  intros d Hd. destruct (Hz d Hd) as [z [E3 [_ [E4 E5]]]]. exists z. split; [apply rd_some; exact E3|]. auto.
Qed.
Lemma area_read : forall c d, In c bmap -> (d < n)%nat -> In (dir_face st c d) amap /\ rd (V m) (dir_face st c d) = Ok (area (dir_face st c d)) /\ 0 < area (dir_face st c d).
Proof.
  intros c d Hc Hd. destruct (gs_known _ _ _ _ HG c d Hc Hd) as [H1 [a [H2 H3]]]. split; [exact H1|].
  assert (E : area (dir_face st c d) = a) by (unfold area; apply nth_error_nth; exact H2). rewrite E. split; [apply rd_some; exact H2|exact H3].
Qed.

(** Entry of the element matrix of cell [c], as assembled. *)
Definition entry (c d e : nat) : R :=
  Alocal n (elem c) (pos st c) d e * dir_sign st c d * dir_sign st c e * area (dir_face st c d) * area (dir_face st c e).
Definition row_of (c d : nat) (y : nat -> R) : R := total (fun e => entry c d e * y (ix (dir_face st c e))) n.

Lemma columns_ok : forall c d A, In c bmap -> (d < n)%nat -> m_rows A = nA -> m_cols A = nA ->
  exists A', columns m amap (elem c) (pos st c) d (dir_sign st c d) (area (dir_face st c d)) (ix (dir_face st c d)) A = Ok A'
    /\ m_rows A' = nA /\ m_cols A' = nA
    /\ forall r y, total (fun k => m_el A' r k * y k) nA = total (fun k => m_el A r k * y k) nA + (if (r =? ix (dir_face st c d))%nat then row_of c d y else 0).
Proof.
  intros c d A Hc Hd Hr Hk. unfold columns. destruct (corner_read c Hc) as [_ [_ Hz]].
  destruct (for_inv (fun e A' => m_rows A' = nA /\ m_cols A' = nA
      /\ forall r y, total (fun k => m_el A' r k * y k) nA = total (fun k => m_el A r k * y k) nA + (if (r =? ix (dir_face st c d))%nat then total (fun e => entry c d e * y (ix (dir_face st c e))) e else 0))
    (fun c0 A0 => do z <- rd (emap (elem c)) (pos st c * n + c0); do lc <- found (index_of (face z) amap); do vc <- rd (V m) (face z);
       add A0 (ix (dir_face st c d)) lc (Alocal n (elem c) (pos st c) d c0 * dir_sign st c d * sign z * area (dir_face st c d) * vc)) n A) as [A' [E HA]].
  - split; [exact Hr|]. split; [exact Hk|]. intros r y. simpl. destruct (r =? _)%nat; ring.
  - intros e A0 He [H1 [H2 H3]]. destruct (Hz e He) as [z [Ez [Ef Es]]]. destruct (area_read c e Hc He) as [Hin [Ea _]].
    destruct (ix_ok _ Hin) as [Ei [Hlt _]].
    rewrite Ez. cbn [bind]. rewrite Ef, Ei. cbn [found bind]. rewrite Ea. cbn [bind]. rewrite Es.
    destruct (add_ok A0 (ix (dir_face st c d)) (ix (dir_face st c e)) (Alocal n (elem c) (pos st c) d e * dir_sign st c d * dir_sign st c e * area (dir_face st c d) * area (dir_face st c e))) as [A1 E1].
    + rewrite H1. apply ix_ok. apply area_read; assumption.
    + rewrite H2. exact Hlt.
    + exists A1. split; [exact E1|]. destruct (add_row _ _ _ _ _ E1) as [K1 [K2 K3]]; [rewrite H2; exact Hlt|].
      split; [congruence|]. split; [congruence|]. intros r y. rewrite H2 in K3. rewrite K3, H3. simpl. fold (entry c d e).
      destruct (r =? ix (dir_face st c d))%nat; ring.
  - exists A'. split; [exact E|]. exact HA.
Qed.

(** ** Recovering velocities *)
Variable P : list R.
Hypothesis HP : forall c, In c bmap -> (c < length P)%nat.
Definition outside (f : nat) : R := match bc m f with Some g => g | None => 0 end.
Definition has_bc (f : nat) : R := match bc m f with Some _ => 1 | None => 0 end.
Definition drive (x : nat * nat) : R :=
  let '(c, d) := x in let f := dir_face st c d in
  weight m * dir_sign st c d * area f * (nth c P 0 - outside f).
Definition here (i : nat) (x : nat * nat) : bool := (i =? ix (dir_face st (fst x) (snd x)))%nat.

Definition velocity_inv (L : list (nat * nat)) (s : mat * list R) : Prop :=
  m_rows (fst s) = nA /\ m_cols (fst s) = nA /\ length (snd s) = nA
  /\ (forall r y, total (fun k => m_el (fst s) r k * y k) nA = rsum (fun x => if here r x then row_of (fst x) (snd x) y else 0) L)
  /\ (forall r, nth r (snd s) 0 = rsum (fun x => if here r x then drive x else 0) L).

Lemma velocity_row_ok : forall L s c d, In c bmap -> (d < n)%nat -> velocity_inv L s ->
  exists s', velocity_row m amap (nth c P 0) (elem c) (pos st c) d s = Ok s' /\ velocity_inv (L ++ [(c, d)]) s'.
Proof.
  intros L [A F] c d Hc Hd [H1 [H2 [H3 [H4 H5]]]]. simpl in H1, H2, H3, H4, H5. unfold velocity_row. simpl.
  destruct (corner_read c Hc) as [_ [_ Hz]]. destruct (Hz d Hd) as [z [Ez [Ef Es]]]. destruct (area_read c d Hc Hd) as [Hin [Ea _]].
  destruct (ix_ok _ Hin) as [Ei [Hlt _]]. rewrite Ez. cbn [bind]. rewrite Ef, Ei. cbn [found bind]. rewrite Ea. cbn [bind]. rewrite Es.
  destruct (add_at_ok F (ix (dir_face st c d)) (weight m * dir_sign st c d * nth c P 0 * area (dir_face st c d))) as [F1 [E1 [L1 N1]]]; [rewrite H3; exact Hlt|].
  rewrite E1. cbn [bind].
  assert (E2 : exists F2, (match bc m (dir_face st c d) with
                | Some g => add_at F1 (ix (dir_face st c d)) (- weight m * dir_sign st c d * g * area (dir_face st c d)) | None => Ok F1 end) = Ok F2
              /\ length F2 = nA /\ forall k, nth k F2 0 = nth k F 0 + (if (k =? ix (dir_face st c d))%nat then drive (c, d) else 0)).
  { unfold drive, outside. destruct (bc m (dir_face st c d)) as [g|].
    - destruct (add_at_ok F1 (ix (dir_face st c d)) (- weight m * dir_sign st c d * g * area (dir_face st c d))) as [F2 [E2 [L2 N2]]]; [rewrite L1, H3; exact Hlt|].
      exists F2. split; [exact E2|]. split; [congruence|]. intros k. rewrite N2, N1. destruct (k =? _)%nat; ring.
    - exists F1. split; [reflexivity|]. split; [congruence|]. intros k. rewrite N1. destruct (k =? _)%nat; ring. }
  destruct E2 as [F2 [E2 [L2 N2]]]. rewrite E2. cbn [bind].
  destruct (columns_ok c d A Hc Hd H1 H2) as [A' [EA [R1 [R2 R3]]]]. rewrite EA. cbn [bind].
  eexists. split; [reflexivity|]. unfold velocity_inv. simpl. split; [exact R1|]. split; [exact R2|]. split; [exact L2|]. split.
  - intros r y. rewrite R3, H4, rsum_app. simpl. unfold here at 3. simpl. ring.
  - intros r. rewrite N2, H5, rsum_app. simpl. unfold here at 3. simpl. ring.
Qed.

Lemma velocity_ok : exists s, velocity_system m P star v = Ok s /\ velocity_inv (corners m star) s.
Proof.
  unfold velocity_system. rewrite (gs_fits _ _ _ _ HG).
  apply (iter_inv (fun l s => velocity_inv (list_prod l (seq 0 n)) s)).
  - unfold velocity_inv. simpl. split; [reflexivity|]. split; [reflexivity|]. split; [apply repeat_length|]. split.
    + intros r y. apply total_none. intros. ring.
    + intros r. clear. revert r. induction nA as [|k IH]; intros [|r]; simpl; auto.
  - intros l c s Hc Hs. unfold velocity_cell. destruct (corner_read c Hc) as [Ee [Ev _]]. rewrite Ee. cbn [bind]. rewrite Ev. cbn [found bind].
    rewrite (rd_some P c (nth c P 0)) by (apply nth_error_nth'; apply HP; exact Hc). cbn [bind].
    destruct (for_inv (fun k s => velocity_inv (list_prod l (seq 0 n) ++ map (pair c) (seq 0 k)) s)
      (fun r s => velocity_row m amap (nth c P 0) (elem c) (pos st c) r s) n s) as [s' [E H]].
    + simpl. rewrite app_nil_r. exact Hs.
    + intros d s1 Hd H1. destruct (velocity_row_ok _ s1 c d Hc Hd H1) as [s2 [E2 H2]]. exists s2. split; [exact E2|].
      rewrite seq_S, map_app, app_assoc. exact H2.
    + exists s'. split; [exact E|]. rewrite list_prod_snoc. exact H.
Qed.

(** ** The stencil *)
Definition push (x : nat * nat) : R := weight m * dir_sign st (fst x) (snd x) * area (dir_face st (fst x) (snd x)).
Definition assigned (r : nat) (L : list (nat * nat)) : R :=
  fold_left (fun a x => if here r x then match bc m (dir_face st (fst x) (snd x)) with
                                         | Some p => weight m * dir_sign st (fst x) (snd x) * p * area (dir_face st (fst x) (snd x)) | None => a end else a) L 0.
Definition system_inv (L : list (nat * nat)) (s : system) : Prop :=
  m_rows (sA s) = nA /\ m_cols (sA s) = nA /\ m_rows (sB s) = nA /\ m_cols (sB s) = nB /\ length (sG s) = nA
  /\ (forall r y, total (fun k => m_el (sA s) r k * y k) nA = rsum (fun x => if here r x then row_of (fst x) (snd x) y else 0) L)
  /\ (forall r q, total (fun k => m_el (sB s) r k * q k) nB = rsum (fun x => if here r x then push x * q (jx (fst x)) else 0) L)
  /\ (forall r, nth r (sG s) 0 = assigned r L).

Lemma system_row_ok : forall L s c d, In c bmap -> (d < n)%nat -> system_inv L s ->
  exists s', system_row m amap bmap c (elem c) (pos st c) d s = Ok s' /\ system_inv (L ++ [(c, d)]) s'.
Proof.
  intros L [A B G] c d Hc Hd [H1 [H2 [H3 [H4 [H5 [H6 [H7 H8]]]]]]]. simpl in H1, H2, H3, H4, H5, H6, H7, H8. unfold system_row. simpl.
  destruct (corner_read c Hc) as [_ [_ Hz]]. destruct (Hz d Hd) as [z [Ez [Ef Es]]]. destruct (area_read c d Hc Hd) as [Hin [Ea _]].
  destruct (ix_ok _ Hin) as [Ei [Hlt _]]. destruct (jx_ok _ Hc) as [Ej [Hjl _]].
  rewrite Ez. cbn [bind]. rewrite Ef, Ei, Ej. cbn [found bind]. rewrite Ea. cbn [bind]. rewrite Es.
  destruct (add_ok B (ix (dir_face st c d)) (jx c) (weight m * dir_sign st c d * area (dir_face st c d))) as [B' EB]; [rewrite H3; exact Hlt|rewrite H4; exact Hjl|].
  rewrite EB. cbn [bind]. destruct (add_row _ _ _ _ _ EB) as [K1 [K2 K3]]; [rewrite H4; exact Hjl|].
  assert (E2 : exists G', (match bc m (dir_face st c d) with
                | Some g => wr G (ix (dir_face st c d)) (weight m * dir_sign st c d * g * area (dir_face st c d)) | None => Ok G end) = Ok G'
              /\ length G' = nA /\ forall k, nth k G' 0 = assigned k (L ++ [(c, d)])).
  { assert (Ha : forall k, assigned k (L ++ [(c, d)]) = if (k =? ix (dir_face st c d))%nat then match bc m (dir_face st c d) with Some p => weight m * dir_sign st c d * p * area (dir_face st c d) | None => nth k G 0 end else nth k G 0).
    { intros k. rewrite H8. unfold assigned. rewrite fold_left_app. simpl. unfold here at 1. reflexivity. }
    destruct (bc m (dir_face st c d)) as [g|].
    - rewrite wr_ok by (rewrite H5; exact Hlt). eexists. split; [reflexivity|]. split; [rewrite length_upd; exact H5|].
      intros k. rewrite Ha. destruct (k =? ix (dir_face st c d))%nat eqn:E.
      + apply Nat.eqb_eq in E. subst k. apply nth_error_nth. apply nth_upd_same. rewrite H5. exact Hlt.
      + apply Nat.eqb_neq in E. destruct (nth_error G k) as [w|] eqn:Ek.
        * rewrite (nth_error_nth _ _ 0 Ek). apply nth_error_nth. rewrite nth_upd_other by congruence. exact Ek.
        * rewrite (@nth_overflow _ G k) by (apply nth_error_None; exact Ek). apply nth_overflow. rewrite length_upd. apply nth_error_None. exact Ek.
    - exists G. split; [reflexivity|]. split; [exact H5|]. intros k. rewrite Ha. destruct (k =? _)%nat; reflexivity. }
  destruct E2 as [G' [E2 [L2 N2]]]. rewrite E2. cbn [bind].
  destruct (columns_ok c d A Hc Hd H1 H2) as [A' [EA [R1 [R2 R3]]]]. rewrite EA. cbn [bind].
  eexists. split; [reflexivity|]. unfold system_inv. simpl. split; [exact R1|]. split; [exact R2|]. split; [congruence|]. split; [congruence|]. split; [exact L2|].
  split; [|split; [|exact N2]].
  - intros r y. rewrite R3, H6, rsum_app. simpl. unfold here at 3. simpl. ring.
  - intros r q. rewrite H4 in K3. rewrite K3, H7, rsum_app. simpl. unfold here at 3, push at 3. simpl. ring.
Qed.
Lemma system_ok : exists s, vertex_system m star v = Ok s /\ system_inv (corners m star) s.
Proof.
  unfold vertex_system. rewrite (gs_fits _ _ _ _ HG).
  apply (iter_inv (fun l s => system_inv (list_prod l (seq 0 n)) s)).
  - unfold system_inv. simpl. do 4 (split; [reflexivity|]). split; [apply repeat_length|]. split; [|split].
    + intros r y. apply total_none. intros. ring.
    + intros r y. apply total_none. intros. ring.
    + intros r. unfold assigned. simpl. clear. revert r. induction nA as [|k IH]; intros [|r]; simpl; auto.
  - intros l c s Hc Hs. unfold system_cell. destruct (corner_read c Hc) as [Ee [Ev _]]. rewrite Ee. cbn [bind]. rewrite Ev. cbn [found bind].
    destruct (for_inv (fun k s => system_inv (list_prod l (seq 0 n) ++ map (pair c) (seq 0 k)) s)
      (fun r s => system_row m amap bmap c (elem c) (pos st c) r s) n s) as [s' [E H]].
    + simpl. rewrite app_nil_r. exact Hs.
    + intros d s1 Hd H1. destruct (system_row_ok _ s1 c d Hc Hd H1) as [s2 [E2 H2]]. exists s2. split; [exact E2|].
      rewrite seq_S, map_app, app_assoc. exact H2.
    + exists s'. split; [exact E|]. rewrite list_prod_snoc. exact H.
Qed.

(** ** The matrix is symmetric positive definite *)
Hypothesis HR : forall c, In c bmap -> exists DFinv K J, regular_element m st c DFinv K J.

Lemma in_corners : forall x, In x (corners m star) <-> In (fst x) bmap /\ (snd x < n)%nat.
Proof.
  intros [c d]. unfold corners. rewrite in_prod_iff, in_seq. simpl. split; intros [H1 H2]; (split; [exact H1|lia]).
Qed.
Lemma here_face : forall f x, In f amap -> In x (corners m star) -> here (ix f) x = (dir_face st (fst x) (snd x) =? f)%nat.
Proof.
  intros f x Hf Hx. apply in_corners in Hx. destruct Hx as [H1 H2]. unfold here.
  destruct (dir_face st (fst x) (snd x) =? f)%nat eqn:E.
  - apply Nat.eqb_eq in E. rewrite E. apply Nat.eqb_refl.
  - apply Nat.eqb_neq. intros H. apply Nat.eqb_neq in E. apply E. symmetry. apply ix_inj; [exact Hf| |exact H]. apply area_read; assumption.
Qed.
Lemma sign_sq : forall c d, In c bmap -> (d < n)%nat -> dir_sign st c d * dir_sign st c d = 1.
Proof.
  intros c d Hc Hd. destruct (gs_corner _ _ _ _ HG c Hc) as [el [_ [_ [_ [_ Hz]]]]]. destruct (Hz d Hd) as [z [_ [Hnz [_ E]]]].
  rewrite <- E. unfold sign. destruct (0 <=? z)%Z; [|ring]. destruct (z =? 0)%Z eqn:E0; [apply Z.eqb_eq in E0; contradiction|ring].
Qed.

Definition local (y : nat -> R) (c d : nat) : R :=
  side (pos st c) d * dir_sign st c d * area (dir_face st c d) * y (ix (dir_face st c d)).
Definition cell_form (y z : nat -> R) (c : nat) : R := coef n * form n (kinv (elem c) (pos st c)) (local y c) (local z c).

Lemma row_local : forall c y z, total (fun d => y (ix (dir_face st c d)) * row_of c d z) n = cell_form y z c.
Proof.
  intros c y z. unfold cell_form, form, row_of. rewrite <- total_scale_l. apply total_ext. intros d Hd.
  rewrite <- !total_scale_l. apply total_ext. intros e He. unfold entry, local. rewrite Alocal_value by assumption. ring.
Qed.
Lemma elem_regular : forall c, In c bmap -> exists DF DFinv K J, inverse_of n DF DFinv /\ inverse_of n DFinv DF
  /\ Pullback n K DFinv J (kinv (elem c) (pos st c)) /\ 0 < J /\ symmetric n K /\ positive_definite n K.
Proof.
  intros c Hc. destruct (HR c Hc) as [DFinv [K [J H]]]. destruct (re_inverse _ _ _ _ _ _ H) as [DF [H1 H2]]. exists DF, DFinv, K, J.
  destruct (gs_corner _ _ _ _ HG c Hc) as [el [E1 _]].
  assert (Ee : elem c = el) by (unfold elem; apply nth_error_nth; exact E1). rewrite Ee.
  split; [exact H1|]. split; [exact H2|]. split; [apply (re_kinv _ _ _ _ _ _ H); exact E1|]. split; [apply (re_J _ _ _ _ _ _ H)|]. apply (re_K _ _ _ _ _ _ H).
Qed.

Section Matrix.
Variable A : nat -> nat -> R.
Hypothesis HA : forall r y, total (fun k => A r k * y k) nA = rsum (fun x => if here r x then row_of (fst x) (snd x) y else 0) (corners m star).

Lemma pick : forall (y : nat -> R) (g : nat * nat -> R), total (fun r => y r * rsum (fun x => if here r x then g x else 0) (corners m star)) nA
  = rsum (fun x => y (ix (dir_face st (fst x) (snd x))) * g x) (corners m star).
Proof.
  intros y g. transitivity (total (fun r => rsum (fun x => y r * (if here r x then g x else 0)) (corners m star)) nA).
  - apply total_ext. intros r Hr. rewrite rsum_scale. reflexivity.
  - rewrite rsum_total. apply rsum_ext. intros x Hx. apply in_corners in Hx. destruct Hx as [H1 H2].
    rewrite (total_ext _ (fun r => (if (r =? ix (dir_face st (fst x) (snd x)))%nat then g x else 0) * y r)).
    + rewrite total_one; [ring|]. apply ix_ok. apply area_read; assumption.
    + intros r Hr. unfold here. ring.
Qed.
Lemma quadratic : forall y z, total (fun r => y r * total (fun k => A r k * z k) nA) nA = rsum (cell_form y z) bmap.
Proof.
  intros y z. rewrite (total_ext _ (fun r => y r * rsum (fun x => if here r x then row_of (fst x) (snd x) z else 0) (corners m star))).
  - rewrite pick. unfold corners. rewrite rsum_prod. apply rsum_ext. intros c Hc. simpl. apply row_local.
  - intros r Hr. rewrite HA. reflexivity.
Qed.
Lemma quadratic_sym : forall y z, total (fun r => y r * total (fun k => A r k * z k) nA) nA = total (fun r => z r * total (fun k => A r k * y k) nA) nA.
Proof.
  intros y z. rewrite !quadratic. apply rsum_ext. intros c Hc. unfold cell_form. f_equal.
  destruct (elem_regular c Hc) as [DF [DFinv [K [J [H1 [H2 [H3 [H4 [H5 H6]]]]]]]]]. apply (form_sym n DFinv K _ J); assumption.
Qed.
Lemma cell_form_nonneg : forall y c, In c bmap -> 0 <= cell_form y y c.
Proof.
  intros y c Hc. apply Rmult_le_pos; [left; apply coef_pos|].
  destruct (elem_regular c Hc) as [DF [DFinv [K [J [H1 [H2 [H3 [H4 [H5 H6]]]]]]]]]. apply (form_nonneg n DFinv K _ J); assumption.
Qed.
Lemma quadratic_nonneg : forall y, 0 <= total (fun r => y r * total (fun k => A r k * y k) nA) nA.
Proof. intros y. rewrite quadratic. apply rsum_nonneg. intros c Hc. apply cell_form_nonneg. exact Hc. Qed.
Lemma quadratic_zero : forall y, total (fun r => y r * total (fun k => A r k * y k) nA) nA = 0 -> forall i, (i < nA)%nat -> y i = 0.
Proof.
  intros y H i Hi. rewrite quadratic in H. pose proof (rsum_zero_nonneg _ _ (fun c Hc => cell_form_nonneg y c Hc) H) as H0.
  destruct (ix_nth i Hi) as [f [Hf [Ei _]]]. destruct (gs_used _ _ _ _ HG f Hf) as [c [d [Hc [Hd Ef]]]].
  pose proof (H0 c Hc) as E. unfold cell_form in E. apply Rmult_integral in E. destruct E as [E|E]; [pose proof (coef_pos n); lra|].
  destruct (elem_regular c Hc) as [DF [DFinv [K [J [H1 [H2 [H3 [H4 [H5 H6]]]]]]]]].
  pose proof (form_zero n DF DFinv K _ J H2 H3 H4 H5 H6 (local y c) E d Hd) as Z. unfold local in Z. rewrite Ef, Ei in Z.
  apply Rmult_integral in Z. destruct Z as [Z|Z]; [|exact Z]. exfalso.
  destruct (area_read c d Hc Hd) as [_ [_ Ha]]. rewrite Ef in Ha. pose proof (sign_sq c d Hc Hd) as S2. pose proof (side_sq (pos st c) d) as S1.
  apply Rmult_integral in Z. destruct Z as [Z|Z]; [|lra]. apply Rmult_integral in Z. destruct Z as [Z|Z]; rewrite Z in *; lra.
Qed.
Lemma unique : forall b y z, (forall i, (i < nA)%nat -> total (fun k => A i k * y k) nA = b i) -> (forall i, (i < nA)%nat -> total (fun k => A i k * z k) nA = b i) ->
  forall i, (i < nA)%nat -> y i = z i.
Proof.
  intros b y z Hy Hz i Hi. apply Rminus_diag_uniq. apply (quadratic_zero (fun k => y k - z k)); [|exact Hi].
  apply total_none. intros r Hr.
  rewrite (total_ext _ (fun k => A r k * y k - A r k * z k)) by (intros; ring). rewrite total_minus, Hy, Hz by exact Hr. ring.
Qed.
End Matrix.

(** ** Boundary values *)
Definition closed : Prop := forall f, In f amap -> inner_face m star st f \/ exists p, outer_face m star st f p.
Hypothesis HC : closed.

Lemma NoDup_corners : NoDup (corners m star).
Proof. apply NoDup_prod; [apply (gs_cells _ _ _ _ HG)|apply seq_NoDup]. Qed.
Lemma assigned_none : forall r L a, (forall x, In x L -> here r x = true -> bc m (dir_face st (fst x) (snd x)) = None) ->
  fold_left (fun a x => if here r x then match bc m (dir_face st (fst x) (snd x)) with
     | Some p => weight m * dir_sign st (fst x) (snd x) * p * area (dir_face st (fst x) (snd x)) | None => a end else a) L a = a.
Proof.
  intros r L; induction L as [|x L IH]; intros a H; simpl; [reflexivity|].
  destruct (here r x) eqn:E.
  - rewrite (H x (or_introl eq_refl) E). apply IH. intros y Hy. apply H. right. exact Hy.
  - apply IH. intros y Hy. apply H. right. exact Hy.
Qed.
Lemma rsum_none : forall {X} (f : X -> R) l, (forall x, In x l -> f x = 0) -> rsum f l = 0.
Proof.
  intros X f l; induction l as [|x l IH]; intros H; simpl; [reflexivity|]. rewrite (H x (or_introl eq_refl)), IH; [ring|].
  intros y Hy. apply H. right. exact Hy.
Qed.
Lemma assigned_sum : forall f, In f amap -> assigned (ix f) (corners m star)
  = rsum (fun x => if here (ix f) x then push x * outside (dir_face st (fst x) (snd x)) else 0) (corners m star).
Proof.
  intros f Hf. destruct (HC f Hf) as [[Hb _]|[p [Hb [c [d [Hin [Ef Hu]]]]]]].
  - unfold assigned. rewrite assigned_none.
    + symmetry. apply rsum_none. intros x Hx. destruct (here (ix f) x) eqn:E; [|reflexivity].
      rewrite here_face in E by assumption. apply Nat.eqb_eq in E. rewrite E. unfold outside. rewrite Hb. ring.
    + intros x Hx E. rewrite here_face in E by assumption. apply Nat.eqb_eq in E. rewrite E. exact Hb.
  - rewrite (rsum_one _ (c, d)); [|apply NoDup_corners|exact Hin|].
    + assert (Hh : here (ix f) (c, d) = true) by (rewrite here_face by assumption; simpl; apply Nat.eqb_eq; exact Ef).
      rewrite Hh. simpl. unfold outside. rewrite Ef, Hb. unfold push. simpl. rewrite Ef.
      destruct (in_split _ _ Hin) as [l1 [l2 EL]]. pose proof NoDup_corners as Hnd. rewrite EL in Hnd.
      unfold assigned. rewrite EL, fold_left_app. simpl. rewrite Hh, Ef, Hb. rewrite assigned_none; [ring|].
      intros x Hx E. assert (Hx' : In x (corners m star)) by (rewrite EL; apply in_or_app; right; right; exact Hx).
      rewrite here_face in E by assumption. apply Nat.eqb_eq in E. destruct x as [c' d']. simpl in E.
      destruct (Hu c' d' Hx' E) as [-> ->]. exfalso. apply NoDup_remove_2 in Hnd. apply Hnd. apply in_or_app. right. exact Hx.
    + intros [c' d'] Hx Hne. destruct (here (ix f) (c', d')) eqn:E; [|reflexivity].
      rewrite here_face in E by assumption. apply Nat.eqb_eq in E. simpl in E. destruct (Hu c' d' Hx E) as [-> ->]. contradiction.
Qed.

(** A cell whose value is that of all its faces drives no flow. *)
Lemma face_balance : forall f (q : R), In f amap -> (bc m f = None \/ bc m f = Some q) ->
  rsum (fun x => if here (ix f) x then push x * (q - outside f) else 0) (corners m star) = 0.
Proof.
  intros f q Hf Hq. destruct (HC f Hf) as [[Hb Hs]|[p [Hb _]]].
  - unfold outside. rewrite Hb.
    transitivity (weight m * area f * q * rsum (fun x => if (dir_face st (fst x) (snd x) =? f)%nat then dir_sign st (fst x) (snd x) else 0) (corners m star)); [|rewrite Hs; ring].
    rewrite <- rsum_scale. apply rsum_ext. intros x Hx. rewrite here_face by assumption.
    destruct (dir_face st (fst x) (snd x) =? f)%nat eqn:E; [|ring]. apply Nat.eqb_eq in E. unfold push. rewrite E. ring.
  - apply rsum_none. intros x _. unfold outside. destruct Hq as [Hq|Hq]; [congruence|]. rewrite Hq. destruct (here _ _); ring.
Qed.

(** ** Patch test *)
Section Patch.
Variables (DF DFinv K : nat -> list R) (J : nat -> R) (xc g : nat -> nat -> R) (N xf : nat -> nat -> R) (pi u : nat -> R).
Hypothesis Hn : (0 < n)%nat.
Hypothesis Hpp : forall c, In c bmap -> parallelepiped m st c (DF c) (DFinv c) (K c) (J c) (xc c) N xf.
Hypothesis Hpi : forall c d, In c bmap -> (d < n)%nat -> linear n (nth c P 0) (g c) (xc c) (xf (dir_face st c d)) = pi (dir_face st c d).
Hypothesis Hu : forall c d, In c bmap -> (d < n)%nat -> darcy n (K c) (g c) (N (dir_face st c d)) = u (dir_face st c d).
Hypothesis Hbc : forall f p, In f amap -> bc m f = Some p -> p = pi f.

Definition exact (i : nat) : R := u (nth i amap O).
Lemma exact_ix : forall f, In f amap -> exact (ix f) = u f.
Proof. intros f Hf. unfold exact. rewrite (nth_error_nth _ _ O (proj2 (proj2 (ix_ok f Hf)))). reflexivity. Qed.

Lemma cell_flux : forall c d, In c bmap -> (d < n)%nat ->
  row_of c d exact = push (c, d) * (nth c P 0 - pi (dir_face st c d)).
Proof.
  intros c d Hc Hd. pose proof (Hpp c Hc) as Q. destruct (pp_inverse _ _ _ _ _ _ _ _ _ _ Q) as [I1 I2].
  destruct (gs_corner _ _ _ _ HG c Hc) as [el [E1 _]].
  assert (Ee : elem c = el) by (unfold elem; apply nth_error_nth; exact E1).
  pose proof (pp_kinv _ _ _ _ _ _ _ _ _ _ Q el E1) as HX. rewrite <- Ee in HX.
  assert (Hs : forall e, (e < n)%nat -> dir_sign st c e * area (dir_face st c e) * u (dir_face st c e)
     = - 2 ^ (n - 1) * side (pos st c) e * (J c * total (fun l => el_of n (DFinv c) e l * total (fun k => el_of n (K c) l k * g c k) n) n)).
  { intros e He. rewrite <- (Hu c e Hc He). unfold darcy.
    transitivity (- total (fun k => (dir_sign st c e * area (dir_face st c e) * N (dir_face st c e) k) * total (fun l => el_of n (K c) k l * g c l) n) n).
    - rewrite (total_ext (fun k => dir_sign st c e * area (dir_face st c e) * N (dir_face st c e) k * _) (fun k => (dir_sign st c e * area (dir_face st c e)) * (N (dir_face st c e) k * total (fun l => el_of n (K c) k l * g c l) n))) by (intros; ring).
      rewrite total_scale_l. ring.
    - rewrite (total_ext _ (fun k => (2 ^ (n - 1) * J c * side (pos st c) e) * (el_of n (DFinv c) e k * total (fun l => el_of n (K c) k l * g c l) n))).
      + rewrite total_scale_l. ring.
      + intros k Hk. destruct (gs_known _ _ _ _ HG c e Hc He) as [_ [a [Ea _]]].
        assert (E : area (dir_face st c e) = a) by (unfold area; apply nth_error_nth; exact Ea).
        rewrite E, (pp_area _ _ _ _ _ _ _ _ _ _ Q e k a He Hk Ea). ring. }
  unfold row_of.
  rewrite (total_ext _ (fun e => (- side (pos st c) d * coef n * 2 ^ (n - 1) * dir_sign st c d * area (dir_face st c d)) *
     (cm n (kinv (elem c) (pos st c)) d e * (J c * total (fun l => el_of n (DFinv c) e l * total (fun k => el_of n (K c) l k * g c k) n) n)))).
  - rewrite total_scale_l, (X_flux n (DF c) (DFinv c) (K c) _ (J c) I1 HX) by exact Hd.
    rewrite <- (Hpi c d Hc Hd). unfold linear, push. simpl fst. simpl snd.
    rewrite (total_ext (fun k => g c k * (xf (dir_face st c d) k - xc c k)) (fun k => side (pos st c) d * (el_of n (DF c) k d * g c k))).
    + rewrite total_scale_l. unfold weight. rewrite <- (coef_weight n Hn). ring.
    + intros k Hk. rewrite (pp_centre _ _ _ _ _ _ _ _ _ _ Q d k Hd Hk). ring.
  - intros e He. unfold entry. rewrite Alocal_value by assumption. rewrite exact_ix by (apply area_read; assumption).
    transitivity (cm n (kinv (elem c) (pos st c)) d e * side (pos st c) e * side (pos st c) d * coef n * dir_sign st c d * area (dir_face st c d) * (dir_sign st c e * area (dir_face st c e) * u (dir_face st c e))); [ring|].
    rewrite (Hs e He). pose proof (side_sq (pos st c) e) as S2.
    replace (cm n (kinv (elem c) (pos st c)) d e * side (pos st c) e * side (pos st c) d * coef n * dir_sign st c d * area (dir_face st c d) *
      (- 2 ^ (n - 1) * side (pos st c) e * (J c * total (fun l => el_of n (DFinv c) e l * total (fun k => el_of n (K c) l k * g c k) n) n)))
    with ((side (pos st c) e * side (pos st c) e) * (cm n (kinv (elem c) (pos st c)) d e * side (pos st c) d * coef n * dir_sign st c d * area (dir_face st c d) *
      (- 2 ^ (n - 1) * (J c * total (fun l => el_of n (DFinv c) e l * total (fun k => el_of n (K c) l k * g c k) n) n)))) by ring.
    rewrite S2. ring.
Qed.

Lemma patch : exists A F, velocity_system m P star v = Ok (A, F)
  /\ solves_with nA A (fun i => nth i F 0) exact
  /\ forall Y, solves_with nA A (fun i => nth i F 0) Y -> forall i f, nth_error amap i = Some f -> Y i = u f.
Proof.
  destruct velocity_ok as [[A F] [E [H1 [H2 [H3 [H4 H5]]]]]]. simpl in H1, H2, H3, H4, H5. exists A, F. split; [exact E|].
  assert (Hex : forall i, (i < nA)%nat -> total (fun k => m_el A i k * exact k) nA = nth i F 0).
  { intros i Hi. destruct (ix_nth i Hi) as [f [Hf [Ei _]]]. subst i. rewrite H4, H5.
    apply Rminus_diag_uniq.
    transitivity (- rsum (fun x => if here (ix f) x then push x * (pi f - outside f) else 0) (corners m star)).
    - transitivity (rsum (fun x => (if here (ix f) x then row_of (fst x) (snd x) exact else 0) + -1 * (if here (ix f) x then drive x else 0)) (corners m star)).
      + rewrite rsum_plus, rsum_scale. ring.
      + transitivity (-1 * rsum (fun x => if here (ix f) x then push x * (pi f - outside f) else 0) (corners m star)); [|ring].
        rewrite <- rsum_scale. apply rsum_ext. intros x Hx. destruct (here (ix f) x) eqn:Eh; [|ring].
        rewrite here_face in Eh by assumption. apply Nat.eqb_eq in Eh. apply in_corners in Hx. destruct x as [c d]. simpl in *. destruct Hx as [Hc Hd].
        rewrite cell_flux by assumption. unfold push. simpl. rewrite Eh. ring.
    - rewrite face_balance; [ring|exact Hf|]. destruct (bc m f) as [p|] eqn:Eb; [right|left; reflexivity]. rewrite (Hbc f p Hf Eb). reflexivity. }
  split.
  - intros i Hi. rewrite acc_total. apply Hex. exact Hi.
  - intros Y HY i f Hf. assert (Hi : (i < nA)%nat) by (apply nth_error_Some; congruence).
    transitivity (exact i); [|unfold exact; rewrite (nth_error_nth _ _ O Hf); reflexivity].
    apply (unique (fun r k => m_el A r k) H4 (fun i => nth i F 0)); [|exact Hex|exact Hi].
    intros j Hj. rewrite <- acc_total. apply HY. exact Hj.
Qed.
End Patch.

(** ** The stencil *)
Section Stencil.
Variable s : system.
Hypothesis Hs : vertex_system m star v = Ok s.
Variables (X : nat -> nat -> R) (Y : nat -> R) (C : nat -> nat -> R) (D : nat -> R).
Hypothesis HF : FormStencil nA nB s X Y C D.

Lemma s_inv : system_inv (corners m star) s.
Proof. destruct system_ok as [s' [E H]]. congruence. Qed.
Lemma s_A : forall r y, total (fun k => m_el (sA s) r k * y k) nA = rsum (fun x => if here r x then row_of (fst x) (snd x) y else 0) (corners m star).
Proof. apply s_inv. Qed.
Lemma s_B : forall r q, total (fun k => m_el (sB s) r k * q k) nB = rsum (fun x => if here r x then push x * q (jx (fst x)) else 0) (corners m star).
Proof. apply s_inv. Qed.
Lemma X_solves : forall i j, (i < nA)%nat -> (j < nB)%nat -> total (fun k => m_el (sA s) i k * X k j) nA = m_el (sB s) i j.
Proof. intros i j Hi Hj. rewrite <- acc_total. apply (proj1 HF); assumption. Qed.
Lemma C_value : forall i j, C i j = total (fun k => m_el (sB s) k i * X k j) nA.
Proof. intros i j. rewrite (proj1 (proj2 (proj2 HF))). apply acc_total. Qed.
Lemma D_value : forall i, D i = total (fun k => m_el (sB s) k i * Y k) nA.
Proof. intros i. rewrite (proj2 (proj2 (proj2 HF))). apply acc_total. Qed.
Lemma C_quadratic : forall i j, (i < nB)%nat -> (j < nB)%nat -> C i j = total (fun r => X r j * total (fun k => m_el (sA s) r k * X k i) nA) nA.
Proof.
  intros i j Hi Hj. rewrite C_value. apply total_ext. intros r Hr. rewrite X_solves by assumption. ring.
Qed.
Lemma C_sym : forall i j, (i < nB)%nat -> (j < nB)%nat -> C i j = C j i.
Proof.
  intros i j Hi Hj. rewrite !C_quadratic by assumption. apply (quadratic_sym (fun r k => m_el (sA s) r k) s_A (fun r => X r j) (fun r => X r i)).
Qed.
Lemma XP_solves : forall (p : nat -> R) i, (i < nA)%nat ->
  total (fun k => m_el (sA s) i k * total (fun j => X k j * p j) nB) nA = total (fun j => m_el (sB s) i j * p j) nB.
Proof.
  intros p i Hi. transitivity (total (fun k => total (fun j => m_el (sA s) i k * X k j * p j) nB) nA).
  - apply total_ext. intros k Hk. rewrite <- total_scale_l. apply total_ext. intros j Hj. ring.
  - rewrite total_swap. apply total_ext. intros j Hj. rewrite <- (X_solves i j Hi Hj). rewrite total_scale. reflexivity.
Qed.
Lemma C_apply : forall (p : nat -> R) i, total (fun j => C i j * p j) nB = total (fun k => m_el (sB s) k i * total (fun j => X k j * p j) nB) nA.
Proof.
  intros p i. transitivity (total (fun j => total (fun k => m_el (sB s) k i * X k j * p j) nA) nB).
  - apply total_ext. intros j Hj. rewrite C_value, total_scale. reflexivity.
  - rewrite total_swap. apply total_ext. intros k Hk. rewrite <- total_scale_l. apply total_ext. intros j Hj. ring.
Qed.
Lemma C_nonneg : forall p : nat -> R, 0 <= total (fun i => total (fun j => p i * C i j * p j) nB) nB.
Proof.
  intros p. pose (y := fun k => total (fun j => X k j * p j) nB).
  replace (total (fun i => total (fun j => p i * C i j * p j) nB) nB) with (total (fun r => y r * total (fun k => m_el (sA s) r k * y k) nA) nA);
    [apply (quadratic_nonneg (fun r k => m_el (sA s) r k) s_A)|].
  transitivity (total (fun r => total (fun i => m_el (sB s) r i * p i * y r) nB) nA).
  - apply total_ext. intros r Hr. unfold y at 2. rewrite XP_solves by exact Hr. rewrite total_scale. ring.
  - rewrite total_swap. apply total_ext. intros i Hi. transitivity (p i * total (fun j => C i j * p j) nB).
    + rewrite C_apply, <- total_scale_l. apply total_ext. intros k Hk. fold (y k). ring.
    + rewrite <- total_scale_l. apply total_ext. intros; ring.
Qed.

(** The stencil is the outflow of the recovered velocities. *)
Definition at_cells (i : nat) : R := nth (nth i bmap O) P 0.
Lemma at_jx : forall c, In c bmap -> at_cells (jx c) = nth c P 0.
Proof. intros c Hc. unfold at_cells. rewrite (nth_error_nth _ _ O (proj2 (proj2 (jx_ok c Hc)))). reflexivity. Qed.
Lemma stencil_solution : forall A F, velocity_system m P star v = Ok (A, F) ->
  forall Z, solves_with nA A (fun i => nth i F 0) Z ->
  forall k, (k < nA)%nat -> Z k = total (fun j => X k j * at_cells j) nB - Y k.
Proof.
  intros A F E Z HZ. destruct velocity_ok as [[A' F'] [E' [H1 [H2 [H3 [H4 H5]]]]]]. simpl in H1, H2, H3, H4, H5.
  assert (A' = A /\ F' = F) as [-> ->] by (rewrite E in E'; injection E' as <- <-; auto).
  apply (unique (fun r k => m_el A r k) H4 (fun i => nth i F 0)).
  - intros i Hi. rewrite <- acc_total. apply HZ. exact Hi.
  - intros i Hi.
    assert (EA : forall y, total (fun k => m_el A i k * y k) nA = total (fun k => m_el (sA s) i k * y k) nA) by (intros y; rewrite H4, s_A; reflexivity).
    rewrite EA. rewrite (total_ext _ (fun k => m_el (sA s) i k * total (fun j => X k j * at_cells j) nB - m_el (sA s) i k * Y k)) by (intros; ring).
    rewrite total_minus, XP_solves by exact Hi.
    assert (EY : total (fun k => m_el (sA s) i k * Y k) nA = nth i (sG s) 0) by (rewrite <- acc_total; apply (proj1 (proj2 HF)); exact Hi).
    rewrite EY, s_B, (proj2 (proj2 (proj2 (proj2 (proj2 (proj2 (proj2 s_inv))))))), H5.
    destruct (ix_nth i Hi) as [f [Hf [Ei _]]]. rewrite <- Ei. rewrite assigned_sum by exact Hf.
    transitivity (rsum (fun x => (if here (ix f) x then push x * at_cells (jx (fst x)) else 0) + -1 * (if here (ix f) x then push x * outside (dir_face st (fst x) (snd x)) else 0)) (corners m star)).
    + rewrite rsum_plus, rsum_scale. ring.
    + apply rsum_ext. intros [c d] Hx. apply in_corners in Hx. destruct Hx as [Hc Hd]. simpl in *. destruct (here (ix f) (c, d)); [|ring].
      rewrite at_jx by exact Hc. unfold push. simpl. ring.
Qed.
Lemma B_column : forall c (y : nat -> R), In c bmap -> total (fun k => m_el (sB s) k (jx c) * y k) nA
  = total (fun d => push (c, d) * y (ix (dir_face st c d))) n.
Proof.
  intros c y Hc.
  assert (E : forall k, m_el (sB s) k (jx c) = rsum (fun x => if here k x then push x * (if (jx (fst x) =? jx c)%nat then 1 else 0) else 0) (corners m star)).
  { intros k. rewrite <- (s_B k (fun j => if (j =? jx c)%nat then 1 else 0)).
    rewrite (total_ext _ (fun j => (if (j =? jx c)%nat then 1 else 0) * m_el (sB s) k j)) by (intros; ring).
    rewrite total_one by (apply jx_ok; exact Hc). ring. }
  rewrite (total_ext _ (fun k => y k * rsum (fun x => if here k x then push x * (if (jx (fst x) =? jx c)%nat then 1 else 0) else 0) (corners m star))) by (intros; rewrite E; ring).
  rewrite pick. unfold corners. rewrite rsum_prod.
  rewrite (rsum_one _ c); [|apply (gs_cells _ _ _ _ HG)|exact Hc|].
  - apply total_ext. intros d Hd. simpl. rewrite Nat.eqb_refl. ring.
  - intros c' Hc' Hne. apply total_none. intros d Hd. simpl. destruct (jx c' =? jx c)%nat eqn:Ej; [|ring].
    exfalso. apply Nat.eqb_eq in Ej. apply Hne. pose proof (proj2 (proj2 (jx_ok c Hc))). pose proof (proj2 (proj2 (jx_ok c' Hc'))). congruence.
Qed.
Lemma stencil_outflow : forall A F, velocity_system m P star v = Ok (A, F) ->
  forall Z, solves_with nA A (fun i => nth i F 0) Z ->
  forall c, In c bmap -> total (fun j => C (jx c) j * at_cells j) nB - D (jx c) = total (fun d => push (c, d) * Z (ix (dir_face st c d))) n.
Proof.
  intros A F E Z HZ c Hc. rewrite C_apply, D_value, <- total_minus, <- B_column by exact Hc.
  apply total_ext. intros k Hk. rewrite (stencil_solution A F E Z HZ k Hk). ring.
Qed.
Lemma stencil_uniform : forall p, (forall c, In c bmap -> nth c P 0 = p) -> (forall f q, In f amap -> bc m f = Some q -> q = p) ->
  forall i, (i < nB)%nat -> total (fun j => C i j * p) nB = D i.
Proof.
  intros p Hp Hq i Hi. destruct velocity_ok as [[A F] [E [H1 [H2 [H3 [H4 H5]]]]]]. simpl in H1, H2, H3, H4, H5.
  assert (HZ : solves_with nA A (fun i => nth i F 0) (fun _ => 0)).
  { intros k Hk. rewrite acc_total. rewrite total_none by (intros; ring). symmetry. rewrite H5.
    destruct (ix_nth k Hk) as [f [Hf [Ei _]]]. rewrite <- Ei.
    etransitivity; [|apply (face_balance f p Hf); destruct (bc m f) as [q|] eqn:Eb; [right|left; reflexivity]; rewrite (Hq f q Hf Eb); reflexivity].
    apply rsum_ext. intros [c d] Hx. destruct (here (ix f) (c, d)) eqn:Eh; [|reflexivity]. rewrite here_face in Eh by assumption. apply Nat.eqb_eq in Eh.
    simpl in Eh. apply in_corners in Hx. destruct Hx as [Hc _]. simpl in *. rewrite (Hp c Hc). unfold push. simpl. rewrite Eh. ring. }
  destruct (nth_error bmap i) as [c|] eqn:Ec; [|apply nth_error_None in Ec; lia].
  pose proof (nth_error_In _ _ Ec) as Hc.
  assert (Ej : jx c = i) by (unfold jx; rewrite (index_of_nodup _ _ _ (gs_cells _ _ _ _ HG) Ec); reflexivity).
  pose proof (eq_trans (stencil_outflow A F E _ HZ c Hc) (total_none (fun d => push (c, d) * 0) n (fun d _ => Rmult_0_r _))) as O. rewrite Ej in O.
  apply Rminus_diag_uniq. etransitivity; [|exact O]. f_equal. apply total_ext. intros j Hj. f_equal. unfold at_cells. symmetry. apply Hp. apply nth_In. exact Hj.
Qed.
(** Nothing is lost at a vertex away from the boundary. *)
Lemma stencil_conserves : (forall f, In f amap -> bc m f = None) -> forall p : nat -> R, total (fun i => total (fun j => C i j * p j) nB) nB = 0.
Proof.
  intros Hb p. transitivity (total (fun i => total (fun k => m_el (sB s) k i * total (fun j => X k j * p j) nB) nA) nB); [apply total_ext; intros; apply C_apply|].
  rewrite total_swap. apply total_none. intros k Hk.
  rewrite (total_scale (fun i => m_el (sB s) k i)). 
  assert (E : total (fun i => m_el (sB s) k i) nB = 0); [|rewrite E; ring].
  rewrite (total_ext _ (fun i => m_el (sB s) k i * (fun _ => 1) i)) by (intros; ring). rewrite s_B.
  destruct (ix_nth k Hk) as [f [Hf [Ei _]]]. rewrite <- Ei.
  etransitivity; [|apply (face_balance f 1 Hf (or_introl (Hb f Hf)))]. apply rsum_ext. intros x Hx. unfold outside. rewrite (Hb f Hf). destruct (here _ _); ring.
Qed.
End Stencil.
End Star.

(** * The residual *)
Lemma sign_away : forall n g c f, away n g c f -> outward n g c f = 1.
Proof.
  intros n g c f H. unfold away in H. unfold outward, PetscSign. rewrite acc_total.
  destruct (Rle_dec 0 _) as [H1|H1]; [|lra]. destruct (Req_EM_T _ 0) as [H2|H2]; [lra|reflexivity].
Qed.
Lemma sign_towards : forall n g c f, towards n g c f -> outward n g c f = -1.
Proof.
  intros n g c f H. unfold towards in H. unfold outward, PetscSign. rewrite acc_total.
  destruct (Rle_dec 0 _) as [H1|H1]; [lra|reflexivity].
Qed.

Section Residual.
Variables (n : nat) (g : geometry) (first last nfv : nat) (vel : list R) (cells : list cell_data).
Hypothesis HM : good_mesh n g first last nfv vel cells.

Lemma face_sum_ok : forall c f d, (first <= f < last)%nat ->
  face_sum n g first nfv vel c f d = Ok (d + outward n g c f * face_flow g first nfv vel f).
Proof.
  intros c f d Hf. unfold face_sum. replace (f <? first)%nat with false by (symmetry; apply Nat.ltb_ge; lia).
  destruct (for_inv (fun k x => x = d + outward n g c f * (nth f (g_V g) 0 * (total (fun j => nth (nfv * (f - first) + j) vel 0) k / INR nfv)))
    (fun j div => do u <- rd vel (nfv * (f - first) + j); do a <- rd (g_V g) f; Ok (div + outward n g c f * u * (1 / INR nfv) * a)) nfv d) as [x [E H]].
  - simpl. unfold Rdiv. ring.
  - intros j x Hj Hx. pose proof (gm_vel _ _ _ _ _ _ _ HM) as Lv. pose proof (gm_areas _ _ _ _ _ _ _ HM) as La.
    rewrite (rd_some vel _ (nth (nfv * (f - first) + j) vel 0)) by (apply nth_error_nth'; rewrite Lv; nia). cbn [bind].
    rewrite (rd_some (g_V g) f (nth f (g_V g) 0)) by (apply nth_error_nth'; lia). cbn [bind].
    eexists. split; [reflexivity|]. rewrite Hx. simpl. unfold Rdiv. ring.
  - rewrite E, H. reflexivity.
Qed.
Lemma divergence_ok : forall c cone, (forall f, In f cone -> (first <= f < last)%nat) ->
  divergence n g first nfv vel c cone = Ok (rsum (fun f => outward n g c f * face_flow g first nfv vel f) cone).
Proof.
  intros c cone H. unfold divergence.
  assert (G : forall l d, (forall f, In f l -> (first <= f < last)%nat) ->
    iter l (face_sum n g first nfv vel c) d = Ok (d + rsum (fun f => outward n g c f * face_flow g first nfv vel f) l)).
  { induction l as [|f l IH]; intros d Hl; simpl; [f_equal; ring|].
    rewrite face_sum_ok by (apply Hl; left; reflexivity). cbn [bind]. rewrite IH by (intros k Hk; apply Hl; right; exact Hk). f_equal. ring. }
  rewrite G by exact H. f_equal. ring.
Qed.
Definition outflow (c : nat) (x : cell_data) : R := rsum (fun f => outward n g c f * face_flow g first nfv vel f) (c_cone x).
Lemma residual_ok : forall dp_dt c x, nth_error cells c = Some x -> (c < length dp_dt)%nat ->
  residual n g first nfv vel cells dp_dt c = Ok (c_porosity x * c_dS_dP x * nth c dp_dt 0 + outflow c x - c_force x).
Proof.
  intros dp_dt c x Hx Hd. unfold residual. rewrite (rd_some cells c x Hx). cbn [bind].
  rewrite divergence_ok by (intros f Hf; apply (gm_range _ _ _ _ _ _ _ HM c x f Hx Hf)). cbn [bind].
  rewrite (rd_some dp_dt c (nth c dp_dt 0)) by (apply nth_error_nth'; exact Hd). reflexivity.
Qed.
Lemma rsum_flat_map : forall {X Y} (h : X -> list Y) (f : Y -> R) l, rsum f (flat_map h l) = rsum (fun x => rsum f (h x)) l.
Proof. intros X Y h f l; induction l as [|x l IH]; simpl; [reflexivity|]. rewrite rsum_app, IH. reflexivity. Qed.
Lemma total_outflow : forall w : nat -> R,
  (forall c x, nth_error cells c = Some x -> w c = outflow c x) ->
  total w (length cells) = rsum (fun x => outward n g (fst x) (snd x) * face_flow g first nfv vel (snd x)) (pairs cells).
Proof.
  intros w Hw. unfold pairs. rewrite rsum_flat_map, <- rsum_seq. apply rsum_ext. intros c Hc. apply in_seq in Hc.
  destruct (nth_error cells c) as [x|] eqn:E; [|apply nth_error_None in E; lia].
  rewrite (Hw c x E), rsum_map. reflexivity.
Qed.
Lemma rsum_filter : forall {X} (p : X -> bool) (f : X -> R) l, rsum f (filter p l) = rsum (fun x => if p x then f x else 0) l.
Proof. intros X p f l; induction l as [|x l IH]; simpl; [reflexivity|]. destruct (p x); simpl; rewrite IH; ring. Qed.
Lemma by_face : forall (h : nat * nat -> R) l, (forall x, In x l -> (first <= snd x < last)%nat) ->
  rsum h l = rsum (fun f => rsum h (filter (fun x => (snd x =? f)%nat) l)) (seq first (last - first)).
Proof.
  intros h l; induction l as [|x l IH]; intros H; simpl.
  - symmetry. apply rsum_none. reflexivity.
  - rewrite IH by (intros y Hy; apply H; right; exact Hy).
    rewrite (rsum_ext (fun f => rsum h (if (snd x =? f)%nat then x :: filter (fun y => (snd y =? f)%nat) l else filter (fun y => (snd y =? f)%nat) l))
      (fun f => (if (snd x =? f)%nat then h x else 0) + rsum h (filter (fun y => (snd y =? f)%nat) l))).
    + rewrite rsum_plus. f_equal. rewrite (rsum_one _ (snd x)).
      * rewrite Nat.eqb_refl. reflexivity.
      * apply seq_NoDup.
      * apply in_seq. pose proof (H x (or_introl eq_refl)). lia.
      * intros f _ Hne. destruct (snd x =? f)%nat eqn:E; [apply Nat.eqb_eq in E; congruence|reflexivity].
    + intros f _. destruct (snd x =? f)%nat; simpl; ring.
Qed.
Lemma pairs_range : forall x, In x (pairs cells) -> (first <= snd x < last)%nat.
Proof.
  intros x Hx. unfold pairs in Hx. apply in_flat_map in Hx. destruct Hx as [c [_ Hx]].
  destruct (nth_error cells c) as [y|] eqn:E; [|contradiction]. apply in_map_iff in Hx. destruct Hx as [f [<- Hf]]. simpl.
  apply (gm_range _ _ _ _ _ _ _ HM c y f E Hf).
Qed.
Lemma balance : forall boundary dp_dt, NoDup boundary -> (length cells <= length dp_dt)%nat ->
  (forall f, (first <= f < last)%nat -> In f boundary -> on_boundary n g cells f) ->
  (forall f, (first <= f < last)%nat -> ~ In f boundary -> between_cells n g cells f) ->
  (forall f, In f boundary -> (first <= f < last)%nat) ->
  exists r, (forall c, (c < length cells)%nat -> residual n g first nfv vel cells dp_dt c = Ok (r c))
    /\ total r (length cells) = rsum (face_flow g first nfv vel) boundary
         + total (fun c => match nth_error cells c with Some x => c_porosity x * c_dS_dP x * nth c dp_dt 0 - c_force x | None => 0 end) (length cells).
Proof.
  intros boundary dp_dt Hnd Hl Hb Hi Hr.
  exists (fun c => match nth_error cells c with Some x => c_porosity x * c_dS_dP x * nth c dp_dt 0 + outflow c x - c_force x | None => 0 end). split.
  - intros c Hc. destruct (nth_error cells c) as [x|] eqn:E; [|apply nth_error_None in E; lia]. apply residual_ok; [exact E|lia].
  - transitivity (total (fun c => match nth_error cells c with Some x => outflow c x | None => 0 end) (length cells)
       + total (fun c => match nth_error cells c with Some x => c_porosity x * c_dS_dP x * nth c dp_dt 0 - c_force x | None => 0 end) (length cells)).
    + rewrite <- total_plus. apply total_ext. intros c Hc. destruct (nth_error cells c); ring.
    + f_equal. rewrite total_outflow by (intros c x E; rewrite E; reflexivity). rewrite (by_face _ _ pairs_range).
      rewrite (rsum_ext _ (fun f => if in_dec Nat.eq_dec f boundary then face_flow g first nfv vel f else 0)).
      * assert (G : forall l, NoDup l -> (forall f, In f l -> (first <= f < last)%nat) ->
          rsum (fun f => if in_dec Nat.eq_dec f l then face_flow g first nfv vel f else 0) (seq first (last - first)) = rsum (face_flow g first nfv vel) l).
        { intros l Hl'; induction Hl' as [|f l Hf Hl' IH]; intros Hin; [apply rsum_none; reflexivity|].
          simpl rsum at 2. rewrite <- IH by (intros k Hk; apply Hin; right; exact Hk).
          rewrite (rsum_ext _ (fun k => (if (k =? f)%nat then face_flow g first nfv vel f else 0) + (if in_dec Nat.eq_dec k l then face_flow g first nfv vel k else 0))).
          - rewrite rsum_plus. f_equal. rewrite (rsum_one _ f); [rewrite Nat.eqb_refl; reflexivity|apply seq_NoDup| |].
            + apply in_seq. pose proof (Hin f (or_introl eq_refl)). lia.
            + intros k _ Hne. destruct (k =? f)%nat eqn:E; [apply Nat.eqb_eq in E; contradiction|reflexivity].
          - intros k _. destruct (in_dec Nat.eq_dec k (f :: l)) as [H|H]; destruct (in_dec Nat.eq_dec k l) as [H'|H']; destruct (k =? f)%nat eqn:E;
              try (apply Nat.eqb_eq in E; subst k); try (apply Nat.eqb_neq in E); try ring.
            + contradiction.
            + destruct H as [H|H]; [congruence|contradiction].
            + exfalso. apply H. left. reflexivity.
            + exfalso. apply H. right. exact H'.
            + exfalso. apply H. left. reflexivity. }
        apply G; assumption.
      * intros f Hf. apply in_seq in Hf. assert (Hf' : (first <= f < last)%nat) by lia. fold (sides_of cells f).
        destruct (in_dec Nat.eq_dec f boundary) as [H|H].
        -- destruct (Hb f Hf' H) as [c [E Ha]]. rewrite E. simpl. rewrite (sign_away _ _ _ _ Ha). ring.
        -- destruct (Hi f Hf' H) as [c1 [c2 [E [[H1 H2]|[H1 H2]]]]]; rewrite E; simpl.
           ++ rewrite (sign_away _ _ _ _ H1), (sign_towards _ _ _ _ H2). ring.
           ++ rewrite (sign_towards _ _ _ _ H1), (sign_away _ _ _ _ H2). ring.
Qed.
End Residual.

(** * Statements *)
Lemma parallelepiped_regular : forall m st c DF DFinv K J xc N xf, parallelepiped m st c DF DFinv K J xc N xf -> regular_element m st c DFinv K J.
Proof.
  intros m st c DF DFinv K J xc N xf H. constructor.
  - apply (pp_sizes _ _ _ _ _ _ _ _ _ _ H).
  - exists DF. apply (pp_inverse _ _ _ _ _ _ _ _ _ _ H).
  - apply (pp_J _ _ _ _ _ _ _ _ _ _ H).
  - apply (pp_K _ _ _ _ _ _ _ _ _ _ H).
  - apply (pp_kinv _ _ _ _ _ _ _ _ _ _ H).
Qed.
Lemma patch_test : forall m star v st P (DF DFinv K : nat -> list R) (J : nat -> R) (xc g N xf : nat -> nat -> R) (pi u : nat -> R),
  (0 < dim m)%nat -> good_star m star v st -> (forall c, In c (cells_of m star) -> (c < length P)%nat) ->
  (forall c, In c (cells_of m star) -> parallelepiped m st c (DF c) (DFinv c) (K c) (J c) (xc c) N xf) ->
  (forall c d, In c (cells_of m star) -> (d < dim m)%nat -> linear (dim m) (nth c P 0) (g c) (xc c) (xf (dir_face st c d)) = pi (dir_face st c d)) ->
  (forall c d, In c (cells_of m star) -> (d < dim m)%nat -> darcy (dim m) (K c) (g c) (N (dir_face st c d)) = u (dir_face st c d)) ->
  (forall f, In f (faces_of m star) -> inner_face m star st f \/ outer_face m star st f (pi f)) ->
  exists A F, velocity_system m P star v = Ok (A, F)
    /\ solves_with (length (faces_of m star)) A (fun i => nth i F 0) (fun i => u (nth i (faces_of m star) O))
    /\ forall Y, solves_with (length (faces_of m star)) A (fun i => nth i F 0) Y ->
         forall i f, nth_error (faces_of m star) i = Some f -> Y i = u f.
Proof.
  intros m star v st P DF DFinv K J xc g N xf pi u Hn HG HP Hpp Hpi Hu HC.
  assert (HR : forall c, In c (cells_of m star) -> exists DFinv K J, regular_element m st c DFinv K J).
  { intros c Hc. exists (DFinv c), (K c), (J c). apply (parallelepiped_regular _ _ _ _ _ _ _ _ _ _ (Hpp c Hc)). }
  apply (patch m star v st HG P HP HR) with (DF := DF) (DFinv := DFinv) (K := K) (J := J) (xc := xc) (g := g) (N := N) (xf := xf) (pi := pi); try assumption.
  - intros f Hf. destruct (HC f Hf) as [H|H]; [left; exact H|right; exists (pi f); exact H].
  - intros f p Hf Hb. destruct (HC f Hf) as [[H _]|[H _]]; congruence.
Qed.
Lemma stencil_facts : forall m star v st, good_star m star v st ->
  (forall c, In c (cells_of m star) -> exists DFinv K J, regular_element m st c DFinv K J) ->
  (exists s, vertex_system m star v = Ok s)
  /\ forall s X Y C D, vertex_system m star v = Ok s -> FormStencil (length (faces_of m star)) (length (cells_of m star)) s X Y C D ->
     (forall i j, (i < length (cells_of m star))%nat -> (j < length (cells_of m star))%nat -> C i j = C j i)
     /\ (forall p : nat -> R, 0 <= total (fun i => total (fun j => p i * C i j * p j) (length (cells_of m star))) (length (cells_of m star))).
Proof.
  intros m star v st HG HR. split.
  - destruct (system_ok m star v st HG) as [s [E _]]. exists s. exact E.
  - intros s X Y C D Hs HF. split.
    + apply (C_sym m star v st HG HR s Hs X Y C D HF).
    + apply (C_nonneg m star v st HG HR s Hs X Y C D HF).
Qed.
Lemma stencil_flow : forall m star v st P s X Y C D A F Z slot, good_star m star v st ->
  (forall c, In c (cells_of m star) -> exists DFinv K J, regular_element m st c DFinv K J) ->
  (forall f, In f (faces_of m star) -> inner_face m star st f \/ exists p, outer_face m star st f p) ->
  (forall c, In c (cells_of m star) -> (c < length P)%nat) ->
  vertex_system m star v = Ok s -> FormStencil (length (faces_of m star)) (length (cells_of m star)) s X Y C D ->
  velocity_system m P star v = Ok (A, F) -> solves_with (length (faces_of m star)) A (fun i => nth i F 0) Z ->
  (forall f, In f (faces_of m star) -> nth_error (faces_of m star) (slot f) = Some f) ->
  forall i c, nth_error (cells_of m star) i = Some c ->
    total (fun j => C i j * nth (nth j (cells_of m star) O) P 0) (length (cells_of m star)) - D i
    = total (fun d => dir_sign st c d * (nth (dir_face st c d) (V m) 0 / 2 ^ (dim m - 1)) * Z (slot (dir_face st c d))) (dim m).
Proof.
  intros m star v st P s X Y C D A F Z slot HG HR HC HP Hs HF HV HZ Hslot i c Hi.
  assert (Hc : In c (cells_of m star)) by (apply nth_error_In with i; exact Hi).
  assert (Ej : jx m star c = i) by (unfold jx; rewrite (index_of_nodup _ _ _ (gs_cells _ _ _ _ HG) Hi); reflexivity).
  pose proof (stencil_outflow m star v st HG P HP HR HC s Hs X Y C D HF A F HV Z HZ c Hc) as E. rewrite Ej in E.
  etransitivity; [exact E|]. apply total_ext. intros d Hd.
  destruct (area_read m star v st HG c d Hc Hd) as [Hin _].
  assert (Es : ix m star (dir_face st c d) = slot (dir_face st c d)).
  { unfold ix. rewrite (index_of_nodup _ _ _ (gs_faces _ _ _ _ HG) (Hslot _ Hin)). reflexivity. }
  rewrite Es. unfold push, weight, area. simpl. rewrite pow_inv by lra. unfold Rdiv. ring.
Qed.
Lemma uniform_pressure : forall m star v st s X Y C D p, good_star m star v st ->
  (forall c, In c (cells_of m star) -> exists DFinv K J, regular_element m st c DFinv K J) ->
  (forall f, In f (faces_of m star) -> inner_face m star st f \/ outer_face m star st f p) ->
  vertex_system m star v = Ok s -> FormStencil (length (faces_of m star)) (length (cells_of m star)) s X Y C D ->
  forall i, (i < length (cells_of m star))%nat -> total (fun j => C i j * p) (length (cells_of m star)) = D i.
Proof.
  intros m star v st s X Y C D p HG HR HC Hs HF.
  assert (Hlt : forall c, In c (cells_of m star) -> (c < length (elements m))%nat).
  { intros c Hc. unfold cells_of in Hc. apply filter_In in Hc. destruct Hc as [_ Hc]. apply Nat.ltb_lt. exact Hc. }
  apply (stencil_uniform m star v st HG (repeat p (length (elements m)))) with (s := s) (X := X) (Y := Y); try assumption.
  - intros c Hc. rewrite repeat_length. apply Hlt. exact Hc.
  - intros f Hf. destruct (HC f Hf) as [H|H]; [left; exact H|right; exists p; exact H].
  - intros c Hc. apply nth_error_nth. apply nth_error_repeat. apply Hlt. exact Hc.
  - intros f q Hf Hb. destruct (HC f Hf) as [[H _]|[H _]]; congruence.
Qed.
Lemma no_loss : forall m star v st s X Y C D, good_star m star v st ->
  (forall c, In c (cells_of m star) -> exists DFinv K J, regular_element m st c DFinv K J) ->
  (forall f, In f (faces_of m star) -> inner_face m star st f) ->
  vertex_system m star v = Ok s -> FormStencil (length (faces_of m star)) (length (cells_of m star)) s X Y C D ->
  (forall i, D i = 0) /\
  forall p : nat -> R, total (fun i => total (fun j => C i j * p j) (length (cells_of m star))) (length (cells_of m star)) = 0.
Proof.
  intros m star v st s X Y C D HG HR HC Hs HF. split.
  - intros i. rewrite (D_value m star s X Y C D HF). apply total_none. intros k Hk.
    rewrite (quadratic_zero m star v st HG HR (fun r k => m_el (sA s) r k) (s_A m star v st HG s Hs) Y); [ring| |exact Hk].
    apply total_none. intros r Hr. rewrite <- acc_total, (proj1 (proj2 HF) r Hr).
    rewrite (proj2 (proj2 (proj2 (proj2 (proj2 (proj2 (proj2 (s_inv m star v st HG s Hs)))))))).
    destruct (ix_nth m star v st HG r Hr) as [f [Hf [Er _]]]. rewrite <- Er. unfold assigned. rewrite assigned_none; [ring|].
    intros x Hx E. rewrite (here_face m star v st HG) in E by assumption. apply Nat.eqb_eq in E. rewrite E. apply (HC f Hf).
  - apply (stencil_conserves m star v st HG) with (s := s) (X := X) (Y := Y) (D := D); try assumption.
    + intros f Hf. left. apply HC. exact Hf.
    + intros f Hf. apply (HC f Hf).
Qed.
Lemma unit_cells : forall n g first last nfv vel cells dp_dt c x,
  good_mesh n g first last nfv vel cells -> nth_error cells c = Some x -> (c < length dp_dt)%nat ->
  exists out, divergence n g first nfv vel c (c_cone x) = Ok out
    /\ residual n g first nfv vel cells dp_dt c = Ok (imbalance 1 (c_porosity x) (c_dS_dP x) (nth c dp_dt 0) out (c_force x)).
Proof.
  intros n g first last nfv vel cells dp_dt c x HM Hx Hd. eexists. split.
  - apply (divergence_ok n g first last nfv vel cells HM). intros f Hf. apply (gm_range _ _ _ _ _ _ _ HM c x f Hx Hf).
  - rewrite (residual_ok n g first last nfv vel cells HM dp_dt c x Hx Hd). unfold imbalance, outflow. f_equal. ring.
Qed.
Lemma divergence_value : forall n g first last nfv vel cells c x,
  good_mesh n g first last nfv vel cells -> nth_error cells c = Some x ->
  (forall f, In f (c_cone x) -> away n g c f \/ towards n g c f) ->
  exists s : nat -> R, (forall f, In f (c_cone x) -> away n g c f /\ s f = 1 \/ towards n g c f /\ s f = -1)
    /\ divergence n g first nfv vel c (c_cone x) = Ok (rsum (fun f => s f * face_flow g first nfv vel f) (c_cone x)).
Proof.
  intros n g first last nfv vel cells c x HM Hx Hs. exists (outward n g c). split.
  - intros f Hf. destruct (Hs f Hf) as [H|H]; [left; split; [exact H|apply sign_away; exact H]|right; split; [exact H|apply sign_towards; exact H]].
  - apply (divergence_ok n g first last nfv vel cells HM). intros f Hf. apply (gm_range _ _ _ _ _ _ _ HM c x f Hx Hf).
Qed.
