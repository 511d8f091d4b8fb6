(** Proofs about the curve containers. *)
From Coq Require Import Reals List Arith Lia ZArith.
From Verif Require Import Prelude CharCurves CharCurveSet SpecCurveSet.
Import ListNotations.

(** ** Arrays *)

Lemma update_Some {A} (v : list A) j x : j < length v -> exists v', update v j x = Some v'.
Proof.
  revert j; induction v as [|y v IH]; simpl; intros j Hj; [lia|].
  destruct j as [|j]; [eauto|]. destruct (IH j ltac:(lia)) as [v' ->]; eauto.
Qed.

Lemma update_length {A} (v v' : list A) j x : update v j x = Some v' -> length v' = length v.
Proof.
  revert j v'; induction v as [|y v IH]; simpl; intros j v' H; [discriminate|].
  destruct j as [|j]; [injection H as <-; reflexivity|].
  destruct (update v j x) as [w|] eqn:E; [|discriminate]. injection H as <-.
  simpl; f_equal; eauto.
Qed.

Lemma update_same {A} (v v' : list A) j x : update v j x = Some v' -> nth_error v' j = Some x.
Proof.
  revert j v'; induction v as [|y v IH]; simpl; intros j v' H; [discriminate|].
  destruct j as [|j]; [injection H as <-; reflexivity|].
  destruct (update v j x) as [w|] eqn:E; [|discriminate]. injection H as <-. simpl; eauto.
Qed.

Lemma update_other {A} (v v' : list A) j k x :
  update v j x = Some v' -> k <> j -> nth_error v' k = nth_error v k.
Proof.
  revert j k v'; induction v as [|y v IH]; simpl; intros j k v' H Hk; [discriminate|].
  destruct j as [|j].
  - injection H as <-. destruct k; [lia|reflexivity].
  - destruct (update v j x) as [w|] eqn:E; [|discriminate]. injection H as <-.
    destruct k; [reflexivity|]. simpl. apply (IH j k w E). lia.
Qed.

Lemma nth_error_firstn {A} (l : list A) n k : k < n -> nth_error (firstn n l) k = nth_error l k.
Proof.
  revert n k; induction l as [|a l IH]; intros n k Hk.
  - rewrite firstn_nil; reflexivity.
  - destruct n; [lia|]. destruct k; simpl; [reflexivity|]. apply IH; lia.
Qed.

Lemma nth_error_skipn {A} (l : list A) n k : nth_error (skipn n l) k = nth_error l (n + k).
Proof.
  revert n; induction l as [|a l IH]; intros [|n]; simpl; try reflexivity.
  - now destruct k.
  - apply IH.
Qed.

Lemma block_some k prm i :
  k * i + k <= length prm -> exists p, block k prm i = Some p.
Proof.
  intros H. unfold block. rewrite firstn_length, skipn_length.
  replace (Nat.min k (length prm - k * i)) with k by lia. rewrite Nat.eqb_refl. eauto.
Qed.

Lemma block_spec k prm i p :
  block k prm i = Some p ->
  length p = k /\ forall j, j < k -> nth_error p j = nth_error prm (k * i + j).
Proof.
  unfold block. destruct (length _ =? k) eqn:E; [|discriminate]. intros H; injection H as <-.
  apply Nat.eqb_eq in E. split; [exact E|]. intros j Hj.
  rewrite nth_error_firstn by assumption. apply nth_error_skipn.
Qed.

Lemma list_ext {A} (p q : list A) n :
  length p = n -> length q = n -> (forall k, k < n -> nth_error p k = nth_error q k) -> p = q.
Proof.
  revert q n; induction p as [|a p IH]; intros [|b q] n Hp Hq H; simpl in *; try lia; [reflexivity|].
  destruct n; [lia|]. pose proof (H 0 ltac:(lia)) as H0. simpl in H0. injection H0 as <-.
  f_equal. apply (IH q n); try lia. intros k Hk. apply (H (S k)). lia.
Qed.

Lemma block_unique k prm i p q :
  block k prm i = Some p -> length q = k ->
  (forall j, j < k -> nth_error q j = nth_error prm (k * i + j)) -> q = p.
Proof.
  intros H Hl Hn. destruct (block_spec _ _ _ _ H) as [Hl' Hn'].
  apply (list_ext q p k); auto. intros j Hj. now rewrite Hn, Hn'.
Qed.

Section Container.
Context {In_ Out : Type}.
Variable nparams : nat -> nat.
Variable eval : nat -> list R -> In_ -> Out.
Notation container := (@container).
Notation call := (@call In_ Out).

(** ** Histories *)

Definition slot_of (r : option (list nat * list R)) (ty : nat) : slot :=
  match r with
  | Some (pts, prm) => {| sl_points := pts; sl_params := firstn (nparams ty * length pts) prm |}
  | None => empty_slot
  end.

Definition maps_ok (s : CharCurveSet.container) : Prop :=
  maps s = None \/
  maps s = Some (build_map kh_init 0 (sl_points (slot0 s)), build_map kh_init 0 (sl_points (slot1 s))).

Definition long_enough (r : option (list nat * list R)) (ty : nat) : Prop :=
  match r with Some (pts, prm) => nparams ty * length pts <= length prm | None => True end.

Lemma compute_on_points_state s pts inp out s' out' :
  compute_on_points nparams eval s pts inp out = Ok (s', out') ->
  slot0 s' = slot0 s /\ slot1 s' = slot1 s /\ (maps_ok s -> maps_ok s').
Proof.
  unfold compute_on_points, build_maps. destruct (maps s) as [[m0 m1]|] eqn:E.
  - rewrite E. destruct (on_points _ _ _ _ _ _ _ _ _) as [o| |]; simpl; try discriminate.
    intros H; injection H as <- <-. auto.
  - simpl. destruct (on_points _ _ _ _ _ _ _ _ _) as [o| |]; simpl; try discriminate.
    intros H; injection H as <- <-. simpl. repeat split. intros _. right. reflexivity.
Qed.

Lemma last_set_app (h : list call) ty pts prm :
  last_set (h ++ [CSet ty pts prm]) ty = Some (pts, prm).
Proof.
  induction h as [|c h IH]; simpl; [now rewrite Nat.eqb_refl|].
  destruct c; rewrite IH; reflexivity.
Qed.

Lemma last_set_app_other (h : list call) c ty :
  (forall pts prm, c <> CSet ty pts prm) -> last_set (h ++ [c]) ty = last_set h ty.
Proof.
  intros Hc. induction h as [|d h IH]; simpl.
  - destruct c as [ty' pts prm|]; [|reflexivity]. destruct (Nat.eqb_spec ty' ty); [|reflexivity].
    subst. exfalso. eapply Hc; reflexivity.
  - destruct d; rewrite IH; reflexivity.
Qed.

Lemma run_app s h c : run nparams eval s (h ++ [c]) = bind (run nparams eval s h) (fun s => exec nparams eval s c).
Proof.
  revert s; induction h as [|d h IH]; intros s; simpl.
  - destruct (exec nparams eval s c); reflexivity.
  - destruct (exec nparams eval s d); simpl; auto.
Qed.

Lemma run_state (h : list call) s :
  run nparams eval cc_create h = Ok s ->
  slot0 s = slot_of (last_set h 0) 0 /\ slot1 s = slot_of (last_set h 1) 1 /\
  long_enough (last_set h 0) 0 /\ long_enough (last_set h 1) 1 /\ maps_ok s.
Proof.
  revert s; induction h as [|c h IH] using rev_ind; intros s H.
  - simpl in H. injection H as <-. simpl. repeat split. left; reflexivity.
  - rewrite run_app in H. destruct (run nparams eval cc_create h) as [s1| |] eqn:E1; simpl in H; try discriminate.
    destruct (IH s1 eq_refl) as (I0 & I1 & L0 & L1 & M).
    destruct c as [ty pts prm|pts inp out].
    + simpl in H. unfold set_type in H.
      destruct (Nat.leb_spec 2 ty); [discriminate|].
      destruct (Nat.ltb_spec (length prm) (nparams ty * length pts)); [discriminate|].
      assert (Hty : ty = 0 \/ ty = 1) by lia. destruct Hty; subst ty; simpl in H; injection H as <-; simpl.
      * rewrite last_set_app. rewrite (last_set_app_other h _ 1) by (intros; discriminate).
        repeat split; auto. left; reflexivity.
      * rewrite last_set_app. rewrite (last_set_app_other h _ 0) by (intros; discriminate).
        repeat split; auto. left; reflexivity.
    + simpl in H. destruct (compute_on_points nparams eval s1 pts inp out) as [[s' out']| |] eqn:E2; simpl in H; try discriminate.
      injection H as <-. destruct (compute_on_points_state _ _ _ _ _ _ E2) as (S0 & S1 & SM).
      rewrite !last_set_app_other by (intros; discriminate).
      rewrite S0, S1. repeat split; auto.
Qed.

(** ** The whole-array loop *)

Lemma compute_points_spec ty params inp : forall pts i (out : list Out),
  NoDup pts ->
  (forall j, In j pts -> j < length inp /\ j < length out) ->
  nparams ty * (i + length pts) <= length params ->
  exists out', compute_points nparams eval ty i pts params inp out = Ok out' /\
    length out' = length out /\
    (forall k j p x, nth_error pts k = Some j -> block (nparams ty) params (i + k) = Some p ->
                     nth_error inp j = Some x -> nth_error out' j = Some (eval ty p x)) /\
    (forall j, ~ In j pts -> nth_error out' j = nth_error out j).
Proof.
  induction pts as [|j pts IH]; intros i out Hnd Hb Hlen.
  - exists out. repeat split; auto. intros [|k] j p x H; discriminate.
  - inversion Hnd as [|? ? Hni Hnd']; subst.
    destruct (Hb j (or_introl eq_refl)) as [Hji Hjo].
    simpl. destruct (nth_error inp j) as [x|] eqn:Ex; [|apply nth_error_None in Ex; lia].
    destruct (block_some (nparams ty) params i) as [p Ep].
    { simpl in Hlen. nia. }
    rewrite Ep. destruct (update_Some out j (eval ty p x) Hjo) as [out1 E1]. rewrite E1.
    pose proof (update_length _ _ _ _ E1) as L1.
    destruct (IH (S i) out1 Hnd') as (out' & H1 & H2 & H3 & H4).
    { intros j' Hj'. rewrite L1. apply Hb. now right. }
    { simpl in Hlen. rewrite Nat.add_succ_r in Hlen. exact Hlen. }
    exists out'. split; [exact H1|]. split; [lia|]. split.
    + intros [|k] j' p' x' Hk Hp Hx.
      * simpl in Hk. injection Hk as <-. rewrite Nat.add_0_r, Ep in Hp. injection Hp as <-.
        rewrite Ex in Hx; injection Hx as <-.
        rewrite H4 by assumption. eapply update_same; eassumption.
      * simpl in Hk. apply (H3 k j' p' x' Hk); [|assumption].
        replace (S i + k) with (i + S k) by lia. assumption.
    + intros j' Hj'. rewrite H4 by (intro; apply Hj'; now right).
      eapply update_other; [eassumption|]. intros ->. apply Hj'; now left.
Qed.

Lemma block_firstn k prm n i : i < n -> block k (firstn (k * n) prm) i = block k prm i.
Proof.
  intros Hi. unfold block.
  assert (E : firstn k (skipn (k * i) (firstn (k * n) prm)) = firstn k (skipn (k * i) prm)).
  { rewrite skipn_firstn_comm. rewrite firstn_firstn. f_equal.
    assert (k * i + k <= k * n) by nia. lia. }
  now rewrite E.
Qed.

Definition pts_of (h : list call) := points_of h.

Lemma slot_points h ty : sl_points (slot_of (last_set h ty) ty) = points_of (In:=In_) (Out:=Out) h ty.
Proof. unfold points_of. destruct (last_set h ty) as [[pts prm]|]; reflexivity. Qed.

Lemma assigned_block (h : list call) ty j p :
  long_enough (last_set h ty) ty -> assigned nparams h ty j p ->
  exists i, nth_error (points_of h ty) i = Some j /\
    block (nparams ty) (sl_params (slot_of (last_set h ty) ty)) i = Some p.
Proof.
  intros HL (pts & prm & i & Hl & Hi & Hlen & Hn). exists i.
  unfold points_of. rewrite Hl in *. simpl. split; [exact Hi|].
  assert (Hlt : i < length pts) by (apply nth_error_Some; congruence).
  rewrite block_firstn by assumption. simpl in HL.
  destruct (block_some (nparams ty) prm i ltac:(nia)) as [q Eq].
  rewrite Eq. f_equal. symmetry. eapply block_unique; eassumption.
Qed.

Lemma points_assigned (h : list call) ty j :
  long_enough (last_set h ty) ty -> In j (points_of h ty) -> exists p, assigned nparams h ty j p.
Proof.
  intros HL Hj. unfold points_of in Hj. destruct (last_set h ty) as [[pts prm]|] eqn:E; [|destruct Hj].
  apply In_nth_error in Hj. destruct Hj as [i Hi].
  assert (Hlt : i < length pts) by (apply nth_error_Some; congruence).
  simpl in HL. destruct (block_some (nparams ty) prm i ltac:(nia)) as [p Ep].
  destruct (block_spec _ _ _ _ Ep) as [Hl Hn].
  exists p, pts, prm, i. auto.
Qed.

Lemma long_params (h : list call) ty :
  long_enough (last_set h ty) ty ->
  nparams ty * length (points_of h ty) <= length (sl_params (slot_of (last_set h ty) ty)).
Proof.
  intros HL. unfold points_of. destruct (last_set h ty) as [[pts prm]|]; simpl in *; [|lia].
  rewrite firstn_length. lia.
Qed.

Lemma assigned_in (h : list call) ty j p : assigned nparams h ty j p -> In j (points_of h ty).
Proof.
  intros (pts & prm & i & Hl & Hi & _). unfold points_of. rewrite Hl. eapply nth_error_In; eassumption.
Qed.

Lemma NoDup_app_disj {A} (l m : list A) : NoDup (l ++ m) -> NoDup l /\ NoDup m /\ forall x, In x l -> ~ In x m.
Proof.
  induction l as [|a l IH]; simpl; intros H.
  - repeat split; [constructor|assumption|intros x []].
  - inversion H as [|? ? Hn Hd]; subst. destruct (IH Hd) as (H1 & H2 & H3). repeat split.
    + constructor; [|assumption]. intro; apply Hn; apply in_or_app; now left.
    + assumption.
    + intros x [->|Hx]; [intro; apply Hn; apply in_or_app; now right|now apply H3].
Qed.

Theorem compute_correct (h : list call) s inp (out : list Out) :
  run nparams eval cc_create h = Ok s ->
  disjoint_assignment h ->
  (forall ty j, ty < 2 -> In j (points_of h ty) -> j < length inp /\ j < length out) ->
  exists out', compute nparams eval s inp out = Ok out' /\ length out' = length out /\
    (forall ty j p x, ty < 2 -> assigned nparams h ty j p -> nth_error inp j = Some x ->
                      nth_error out' j = Some (eval ty p x)) /\
    (forall j, unassigned nparams h j -> nth_error out' j = nth_error out j).
Proof.
  intros Hr Hd Hb. destruct (run_state h s Hr) as (S0 & S1 & L0 & L1 & _).
  destruct (NoDup_app_disj _ _ Hd) as (N0 & N1 & Nx).
  unfold compute. rewrite S0, S1, !slot_points.
  destruct (compute_points_spec 0 (sl_params (slot_of (last_set h 0) 0)) inp (points_of h 0) 0 out N0)
    as (o1 & E1 & Len1 & V1 & U1).
  { intros j Hj. apply (Hb 0 j); [lia|assumption]. }
  { simpl. now apply long_params. }
  rewrite E1. cbn [bind].
  destruct (compute_points_spec 1 (sl_params (slot_of (last_set h 1) 1)) inp (points_of h 1) 0 o1 N1)
    as (o2 & E2 & Len2 & V2 & U2).
  { intros j Hj. rewrite Len1. apply (Hb 1 j); [lia|assumption]. }
  { simpl. now apply long_params. }
  exists o2. split; [exact E2|]. split; [lia|]. split.
  - intros ty j p x Hty Ha Hx. assert (Hc : ty = 0 \/ ty = 1) by lia. destruct Hc; subst ty.
    + destruct (assigned_block h 0 j p L0 Ha) as (i & Hi & Hp).
      rewrite U2 by (apply Nx; eapply assigned_in; eassumption).
      eapply V1; eassumption.
    + destruct (assigned_block h 1 j p L1 Ha) as (i & Hi & Hp). eapply V2; eassumption.
  - intros j Hu. rewrite U2, U1; [reflexivity| |].
    + intro Hj. destruct (points_assigned h 0 j L0 Hj) as [p Hp]. apply (Hu 0 p); [lia|assumption].
    + intro Hj. destruct (points_assigned h 1 j L1 Hj) as [p Hp]. apply (Hu 1 p); [lia|assumption].
Qed.

(** ** Hash maps *)

Lemma assoc_set_same l k v : assoc (assoc_set l k v) k = Some v.
Proof.
  induction l as [|[k' v'] l IH]; simpl; [now rewrite Nat.eqb_refl|].
  destruct (Nat.eqb_spec k' k); simpl; [now rewrite Nat.eqb_refl|].
  destruct (Nat.eqb_spec k' k); [contradiction|exact IH].
Qed.

Lemma assoc_set_other l k v k2 : k2 <> k -> assoc (assoc_set l k v) k2 = assoc l k2.
Proof.
  intros Hk. induction l as [|[k' v'] l IH]; simpl.
  - destruct (Nat.eqb_spec k k2); [congruence|reflexivity].
  - destruct (Nat.eqb_spec k' k); simpl.
    + subst. destruct (Nat.eqb_spec k k2); [congruence|reflexivity].
    + destruct (Nat.eqb_spec k' k2); [reflexivity|exact IH].
Qed.

Lemma assoc_set_length l k v :
  length (assoc_set l k v) = match assoc l k with Some _ => length l | None => S (length l) end.
Proof.
  induction l as [|[k' v'] l IH]; simpl; [reflexivity|].
  destruct (Nat.eqb_spec k' k); simpl; [reflexivity|]. rewrite IH. destruct (assoc l k); reflexivity.
Qed.

Lemma build_map_assoc pts : forall m i, NoDup pts ->
  (forall k j, nth_error pts k = Some j -> assoc (km_items (build_map m i pts)) j = Some (i + k)) /\
  (forall j, ~ In j pts -> assoc (km_items (build_map m i pts)) j = assoc (km_items m) j).
Proof.
  induction pts as [|j pts IH]; intros m i Hnd.
  - split; [intros [|k] j H; discriminate|reflexivity].
  - inversion Hnd as [|? ? Hni Hnd']; subst. destruct (IH (kh_put m j i) (S i) Hnd') as [H1 H2]. simpl. split.
    + intros [|k] j' Hk; simpl in Hk.
      * injection Hk as <-. rewrite H2 by assumption. simpl. rewrite assoc_set_same. f_equal; lia.
      * rewrite (H1 k j' Hk). f_equal; lia.
    + intros j' Hj'. rewrite H2 by (intro; apply Hj'; now right). simpl.
      apply assoc_set_other. intros ->; apply Hj'; now left.
Qed.

Lemma build_map_size pts : forall m i, NoDup pts ->
  (forall j, In j pts -> assoc (km_items m) j = None) ->
  kh_size (build_map m i pts) = kh_size m + length pts.
Proof.
  induction pts as [|j pts IH]; intros m i Hnd Hm; [simpl; lia|].
  inversion Hnd as [|? ? Hni Hnd']; subst. simpl. rewrite IH; [|assumption|].
  - unfold kh_size; simpl. rewrite assoc_set_length, (Hm j (or_introl eq_refl)). lia.
  - intros j' Hj'. simpl. rewrite assoc_set_other by (intros ->; contradiction). apply Hm; now right.
Qed.

(** Growth: with at most 6 distinct keys there are at most 8 buckets. *)
Definition small_inv (m : kmap) : Prop :=
  (km_buckets m = 0 /\ kh_size m = 0) \/ (km_buckets m = 4 /\ 1 <= kh_size m <= 3) \/
  (km_buckets m = 8 /\ 4 <= kh_size m <= 6).

Lemma small_put m j i :
  small_inv m -> assoc (km_items m) j = None -> kh_size m < 6 -> small_inv (kh_put m j i).
Proof.
  intros Hs Ha Hlt. unfold small_inv, kh_put in *. cbn [km_items km_buckets] in *.
  unfold kh_size in *. cbn [km_items] in *. rewrite assoc_set_length, Ha.
  destruct Hs as [[E L]|[[E L]|[E L]]]; rewrite E.
  - rewrite L. right; left. split; [reflexivity|lia].
  - change (kh_upper 4) with 3. destruct (Nat.leb_spec 3 (length (km_items m))).
    + right; right. split; [reflexivity|lia].
    + right; left. split; [reflexivity|lia].
  - change (kh_upper 8) with 6. destruct (Nat.leb_spec 6 (length (km_items m))); [lia|].
    right; right. split; [reflexivity|lia].
Qed.

Lemma small_build pts : forall m i, NoDup pts -> small_inv m ->
  (forall j, In j pts -> assoc (km_items m) j = None) -> kh_size m + length pts <= 6 ->
  small_inv (build_map m i pts).
Proof.
  induction pts as [|j pts IH]; intros m i Hnd Hs Hm Hl; [assumption|].
  inversion Hnd as [|? ? Hni Hnd']; subst. simpl in *. apply IH; auto.
  - apply small_put; auto. lia.
  - intros j' Hj'. simpl. rewrite assoc_set_other by (intros ->; contradiction). apply Hm; now right.
  - unfold kh_size in *; simpl. rewrite assoc_set_length, (Hm j (or_introl eq_refl)). lia.
Qed.

Lemma small_buckets m : small_inv m -> km_buckets m < 16.
Proof. unfold small_inv; lia. Qed.

(** ** Evaluation on a list of points *)

Lemma kh_lookup_hit pts k j : NoDup pts -> nth_error pts k = Some j ->
  kh_lookup (build_map kh_init 0 pts) j = Ok (Some k).
Proof.
  intros Hnd Hk. unfold kh_lookup. destruct (build_map_assoc pts kh_init 0 Hnd) as [H _].
  now rewrite (H k j Hk).
Qed.

Lemma kh_lookup_miss pts j : NoDup pts -> ~ In j pts -> length pts <= 6 ->
  kh_lookup (build_map kh_init 0 pts) j = Ok None.
Proof.
  intros Hnd Hj Hl. unfold kh_lookup. destruct (build_map_assoc pts kh_init 0 Hnd) as [_ H].
  rewrite (H j Hj). simpl.
  assert (Hs : small_inv (build_map kh_init 0 pts)).
  { apply small_build; auto. left; split; reflexivity. }
  apply small_buckets in Hs. destruct (Nat.ltb_spec (km_buckets (build_map kh_init 0 pts)) 16); [reflexivity|lia].
Qed.

Lemma build_empty pts : NoDup pts -> (kh_size (build_map kh_init 0 pts) =? 0) = match pts with [] => true | _ => false end.
Proof.
  intros Hnd. rewrite build_map_size; auto. destruct pts; reflexivity.
Qed.

Lemma eval_at_spec (h : list call) s q x :
  run nparams eval cc_create h = Ok s -> disjoint_assignment h -> lookup_safe h q ->
  exists r, eval_at nparams eval s (build_map kh_init 0 (points_of h 0)) (build_map kh_init 0 (points_of h 1)) q x = Ok r /\
    (forall ty p, ty < 2 -> assigned nparams h ty q p -> r = Some (eval ty p x)) /\
    (unassigned nparams h q -> r = None).
Proof.
  intros Hr Hd Hsafe. destruct (run_state h s Hr) as (S0 & S1 & L0 & L1 & _).
  destruct (NoDup_app_disj _ _ Hd) as (N0 & N1 & Nx).
  (* the second map, reached only when q is not in the first list *)
  assert (Hnext : ~ In q (points_of h 0) ->
    exists r, (if kh_size (build_map kh_init 0 (points_of h 1)) =? 0 then Ok None
      else bind (kh_lookup (build_map kh_init 0 (points_of h 1)) q) (fun hit =>
        match hit with
        | Some j => match block (nparams 1) (sl_params (get_slot s 1)) j with
                    | Some p => Ok (Some (eval 1 p x)) | None => UB end
        | None => Ok None
        end)) = Ok r /\
    (forall p, assigned nparams h 1 q p -> r = Some (eval 1 p x)) /\
    (~ In q (points_of h 1) -> r = None)).
  { intros Hn0. destruct Hsafe as [Hin|[Hl0 Hs1]]; [contradiction|].
    rewrite build_empty by assumption.
    destruct (in_dec Nat.eq_dec q (points_of h 1)) as [Hin|Hin].
    - destruct (points_assigned h 1 q L1 Hin) as [p Hp].
      destruct (assigned_block h 1 q p L1 Hp) as (i & Hi & Hb).
      exists (Some (eval 1 p x)). split; [|split; [|contradiction]].
      + rewrite (kh_lookup_hit _ _ _ N1 Hi). cbn [bind]. unfold get_slot; simpl. rewrite S1, Hb.
        destruct (points_of h 1); [destruct Hin|reflexivity].
      + intros p' Hp'. destruct (assigned_block h 1 q p' L1 Hp') as (i' & Hi' & Hb').
        assert (i' = i).
        { apply (NoDup_nth_error (points_of h 1)); [assumption| |congruence].
          apply nth_error_Some. congruence. }
        subst. congruence.
    - exists None. split; [|split; [|reflexivity]].
      + destruct Hs1 as [Hs1|Hs1]; [contradiction|].
        rewrite (kh_lookup_miss _ _ N1 Hin Hs1). simpl. destruct (points_of h 1); reflexivity.
      + intros p' Hp'. apply assigned_in in Hp'. contradiction. }
  unfold eval_at.
  destruct (in_dec Nat.eq_dec q (points_of h 0)) as [Hin|Hin].
  - destruct (points_assigned h 0 q L0 Hin) as [p Hp].
    destruct (assigned_block h 0 q p L0 Hp) as (i & Hi & Hb).
    exists (Some (eval 0 p x)). split; [|split].
    + rewrite build_empty by assumption.
      rewrite (kh_lookup_hit _ _ _ N0 Hi). cbn [bind]. change (get_slot s 0) with (slot0 s). rewrite S0, Hb.
      destruct (points_of h 0); [destruct Hin|reflexivity].
    + intros ty p' Hty Hp'. assert (Hc : ty = 0 \/ ty = 1) by lia. destruct Hc; subst ty.
      * destruct (assigned_block h 0 q p' L0 Hp') as (i' & Hi' & Hb').
        assert (i' = i).
        { apply (NoDup_nth_error (points_of h 0)); [assumption| |congruence].
          apply nth_error_Some. congruence. }
        subst. congruence.
      * apply assigned_in in Hp'. exfalso. eapply Nx; eassumption.
    + intros Hu. exfalso. eapply (Hu 0 p); [lia|assumption].
  - destruct (Hnext Hin) as (r & E & Ha & Hn). exists r. split; [|split].
    + rewrite build_empty by assumption. destruct Hsafe as [Hc|[Hl0 _]]; [contradiction|].
      rewrite (kh_lookup_miss _ _ N0 Hin Hl0). cbn [bind]. destruct (points_of h 0); exact E.
    + intros ty p' Hty Hp'. assert (Hc : ty = 0 \/ ty = 1) by lia. destruct Hc; subst ty; [|auto].
      apply assigned_in in Hp'. contradiction.
    + intros Hu. apply Hn. intro Hin1. destruct (points_assigned h 1 q L1 Hin1) as [p Hp].
      apply (Hu 1 p); [lia|assumption].
Qed.

Lemma on_points_spec (h : list call) s inp :
  run nparams eval cc_create h = Ok s -> disjoint_assignment h ->
  forall pts i (out : list Out),
  (forall q, In q pts -> lookup_safe h q) ->
  i + length pts <= length inp -> i + length pts <= length out ->
  exists out', on_points nparams eval s (build_map kh_init 0 (points_of h 0)) (build_map kh_init 0 (points_of h 1))
                 i pts inp out = Ok out' /\ length out' = length out /\
    (forall k q x ty p, nth_error pts k = Some q -> nth_error inp (i + k) = Some x -> ty < 2 ->
        assigned nparams h ty q p -> nth_error out' (i + k) = Some (eval ty p x)) /\
    (forall k q, nth_error pts k = Some q -> unassigned nparams h q -> nth_error out' (i + k) = nth_error out (i + k)) /\
    (forall k, k < i \/ i + length pts <= k -> nth_error out' k = nth_error out k).
Proof.
  intros Hr Hd. induction pts as [|q pts IH]; intros i out Hsafe Hi Ho.
  - exists out. simpl. repeat split; auto; intros [|k] q; intros; discriminate.
  - simpl in Hi, Ho. simpl. destruct (nth_error inp i) as [x|] eqn:Ex; [|apply nth_error_None in Ex; lia].
    destruct (eval_at_spec h s q x Hr Hd (Hsafe q (or_introl eq_refl))) as (r & Er & Ra & Ru).
    rewrite Er. cbn [bind].
    assert (Hsafe' : forall q, In q pts -> lookup_safe h q) by (intros; apply Hsafe; now right).
    destruct r as [v|].
    + destruct (update_Some out i v ltac:(lia)) as [o1 E1]. rewrite E1.
      pose proof (update_length _ _ _ _ E1) as L1.
      destruct (IH (S i) o1 Hsafe' ltac:(lia) ltac:(lia)) as (o' & H1 & H2 & H3 & H4 & H5).
      exists o'. split; [exact H1|]. split; [lia|]. repeat split.
      * intros [|k] q' x' ty p Hq Hx Hty Ha; simpl in Hq.
        { injection Hq as <-. rewrite Nat.add_0_r in *. rewrite Ex in Hx; injection Hx as <-.
          rewrite H5 by lia. rewrite (update_same _ _ _ _ E1). now apply Ra. }
        { rewrite Nat.add_succ_r in *. eapply (H3 k); eauto. }
      * intros [|k] q' Hq Hu; simpl in Hq.
        { injection Hq as <-. specialize (Ru Hu). discriminate. }
        { replace (i + S k) with (S i + k) by lia. rewrite (H4 k q' Hq Hu). eapply update_other; [eassumption|lia]. }
      * intros k Hk. rewrite H5 by lia. eapply update_other; [eassumption|lia].
    + destruct (IH (S i) out Hsafe' ltac:(lia) ltac:(lia)) as (o' & H1 & H2 & H3 & H4 & H5).
      exists o'. split; [exact H1|]. split; [lia|]. repeat split.
      * intros [|k] q' x' ty p Hq Hx Hty Ha; simpl in Hq.
        { injection Hq as <-. specialize (Ra ty p Hty Ha). discriminate. }
        { rewrite Nat.add_succ_r in *. eapply (H3 k); eauto. }
      * intros [|k] q' Hq Hu; simpl in Hq.
        { rewrite Nat.add_0_r. apply H5. lia. }
        { replace (i + S k) with (S i + k) by lia. now apply (H4 k q'). }
      * intros k Hk. apply H5. lia.
Qed.

Lemma run_build (h : list call) s :
  run nparams eval cc_create h = Ok s ->
  run nparams eval cc_create h = Ok s /\
  maps (build_maps s) = Some (build_map kh_init 0 (points_of h 0), build_map kh_init 0 (points_of h 1)) /\
  slot0 (build_maps s) = slot0 s /\ slot1 (build_maps s) = slot1 s.
Proof.
  intros Hr. split; [assumption|]. destruct (run_state h s Hr) as (S0 & S1 & _ & _ & M).
  unfold build_maps. destruct M as [M|M]; rewrite M; simpl; rewrite ?M, S0, S1, !slot_points; auto.
Qed.

Lemma on_points_slots s s' m0 m1 : slot0 s = slot0 s' -> slot1 s = slot1 s' ->
  forall pts i inp (out : list Out), on_points nparams eval s m0 m1 i pts inp out = on_points nparams eval s' m0 m1 i pts inp out.
Proof.
  intros E0 E1. induction pts as [|q pts IH]; intros i inp out; [reflexivity|]. simpl.
  destruct (nth_error inp i) as [x|]; [|reflexivity].
  assert (Ee : eval_at nparams eval s m0 m1 q x = eval_at nparams eval s' m0 m1 q x).
  { unfold eval_at, get_slot. simpl. rewrite E0, E1. reflexivity. }
  rewrite Ee. destruct (eval_at nparams eval s' m0 m1 q x) as [[v|]| |]; simpl; auto.
  destruct (update out i v); auto.
Qed.

Theorem compute_on_points_correct (h : list call) s pts inp (out : list Out) :
  run nparams eval cc_create h = Ok s -> disjoint_assignment h ->
  (forall q, In q pts -> lookup_safe h q) ->
  length inp = length pts -> length out = length pts ->
  exists s' out', compute_on_points nparams eval s pts inp out = Ok (s', out') /\ length out' = length out /\
    (forall k q x ty p, nth_error pts k = Some q -> nth_error inp k = Some x -> ty < 2 ->
        assigned nparams h ty q p -> nth_error out' k = Some (eval ty p x)) /\
    (forall k q, nth_error pts k = Some q -> unassigned nparams h q -> nth_error out' k = nth_error out k).
Proof.
  intros Hr Hd Hs Hi Ho. destruct (run_build h s Hr) as (_ & M & B0 & B1).
  unfold compute_on_points. rewrite M.
  destruct (on_points_spec h s inp Hr Hd pts 0 out Hs ltac:(lia) ltac:(lia)) as (o & E & L & V & U & _).
  rewrite (on_points_slots _ s _ _ B0 B1), E. cbn [bind].
  exists (build_maps s), o. repeat split; auto.
Qed.

(** ** The counter-indexed loop agrees when points are listed as 0,1,2,... *)

Lemma compute_counter_points ty params inp : forall n i (out : list Out),
  compute_counter nparams eval ty i n params inp out = compute_points nparams eval ty i (seq i n) params inp out.
Proof.
  induction n as [|n IH]; intros i out; [reflexivity|]. simpl.
  destruct (nth_error inp i); [|reflexivity]. destruct (block _ _ _); [|reflexivity].
  destruct (update out i (eval ty l i0)); [|reflexivity]. apply IH.
Qed.

Theorem compute_by_counter_identity (h : list call) s inp (out : list Out) n :
  run nparams eval cc_create h = Ok s ->
  (points_of h 0 = seq 0 n /\ points_of h 1 = [] \/ points_of h 0 = [] /\ points_of h 1 = seq 0 n) ->
  compute_by_counter nparams eval s inp out = compute nparams eval s inp out.
Proof.
  intros Hr Hp. destruct (run_state h s Hr) as (S0 & S1 & _).
  unfold compute_by_counter, compute. rewrite S0, S1, !slot_points.
  destruct Hp as [[-> ->]|[-> ->]].
  - rewrite compute_counter_points, seq_length. destruct (compute_points _ _ _ _ _ _ _ _); reflexivity.
  - simpl. rewrite compute_counter_points, seq_length. reflexivity.
Qed.

End Container.
