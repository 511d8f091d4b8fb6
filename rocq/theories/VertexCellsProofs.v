(** Proofs about the map from vertices to cells. *)
From Coq Require Import List ZArith Arith Bool Lia.
From Verif Require Import Prelude Arrays UGrid MeshFaces VertexCells MeshFacesTables SpecVertexCells.
Import ListNotations.
Local Open Scope nat_scope.

(** Every step succeeds, or the loop ends with undefined behaviour for a reason. *)
Lemma loop_or {St} (P : nat -> St -> Prop) (Bad : Prop) (body : nat -> St -> outcome St) n k s :
  P k s -> (forall i s, k <= i < k + n -> P i s -> (exists s', body i s = Ok s' /\ P (S i) s') \/ (body i s = UB /\ Bad)) ->
  (exists s', loop n k body s = Ok s' /\ P (k + n) s') \/ (loop n k body s = UB /\ Bad).
Proof.
  revert k s; induction n as [|n IH]; intros k s H Hb.
  - left. exists s. rewrite Nat.add_0_r. split; [reflexivity|exact H].
  - cbn [loop]. destruct (Hb k s ltac:(lia) H) as [[s' [E P']]|[E B]]; rewrite E; cbn [bind]; [|right; split; [reflexivity|exact B]].
    destruct (IH (S k) s' P') as [[s2 [E2 P2]]|R]; [intros i t Hi; apply Hb; lia| |right; exact R].
    left. exists s2. split; [exact E2|]. replace (k + S n) with (S k + n) by lia. exact P2.
Qed.

Section Map.
Variables (cnv : list nat) (cv : list (list Z)) (ng nv : nat).
Hypothesis W : numbered_cells cnv cv ng nv.
Notation vertices := (vertices cnv cv).

(** The cells that were entered for [v] before the [k]-th vertex of the cell [c]. *)
Definition occ (c : nat) (l : list Z) (v : nat) : list nat := map (fun _ => c) (filter (Z.eqb (Z.of_nat v)) l).
Definition entered (c k v : nat) : list nat := flat_map (fun a => occ a (vertices a) v) (seq 0 c) ++ occ c (firstn k (vertices c)) v.

Lemma entered_step c k z v : nth_error (vertices c) k = Some z ->
  entered c (S k) v = entered c k v ++ (if (Z.of_nat v =? z)%Z then [c] else []).
Proof.
  intro H. unfold entered. rewrite <- app_assoc. f_equal.
  assert (F : firstn (S k) (vertices c) = firstn k (vertices c) ++ [z]).
  { revert k H. generalize (vertices c). intro l. induction l as [|y l IH]; intros [|k] H; simpl in *; try discriminate; [congruence|]. f_equal. apply IH, H. }
  rewrite F. unfold occ. rewrite filter_app, map_app. f_equal. cbn [filter]. destruct (Z.of_nat v =? z)%Z; reflexivity.
Qed.
Lemma entered_end c v : entered c (length (vertices c)) v = entered (S c) 0 v.
Proof.
  unfold entered. rewrite firstn_all, seq_S, flat_map_app. cbn [flat_map Nat.add firstn]. unfold occ at 4. cbn [filter map]. rewrite !app_nil_r. reflexivity.
Qed.
Lemma entered_le_row c k v : length (entered c k v) <= length (entered (S c) 0 v).
Proof.
  rewrite <- entered_end. unfold entered. rewrite !app_length. apply Nat.add_le_mono_l. rewrite firstn_all.
  rewrite <- (firstn_skipn k (vertices c)) at 2. unfold occ. rewrite filter_app, map_app, app_length. lia.
Qed.
Lemma entered_le c d v : c <= d -> length (entered c 0 v) <= length (entered d 0 v).
Proof. induction 1 as [|d _ IH]; [lia|]. pose proof (entered_le_row d 0 v). lia. Qed.

Lemma occ_nodup c l v : NoDup l -> occ c l v = if existsb (Z.eqb (Z.of_nat v)) l then [c] else [].
Proof.
  unfold occ. induction 1 as [|x l N _ IH]; [reflexivity|]. cbn [filter existsb]. destruct (Z.eqb_spec (Z.of_nat v) x) as [E|E].
  - cbn [map orb]. f_equal. rewrite IH. destruct (existsb (Z.eqb (Z.of_nat v)) l) eqn:X; [|reflexivity].
    exfalso. apply existsb_exists in X as [y [Hy Ey]]. apply Z.eqb_eq in Ey. apply N. congruence.
  - cbn [orb]. exact IH.
Qed.
Lemma entered_all v : entered ng 0 v = cells_at cnv cv ng v.
Proof.
  unfold entered, cells_at. cbn [firstn]. unfold occ at 2. cbn [filter map]. rewrite app_nil_r.
  assert (K : forall l, (forall c, In c l -> c < ng) -> flat_map (fun a => occ a (vertices a) v) l = filter (fun c => existsb (Z.eqb (Z.of_nat v)) (vertices c)) l).
  { induction l as [|c l IH]; intro H; [reflexivity|]. cbn [flat_map filter]. rewrite occ_nodup by (apply (nc_different _ _ _ _ W), H; left; reflexivity).
    rewrite IH by (intros d Hd; apply H; right; exact Hd). destruct (existsb _ (vertices c)); reflexivity. }
  apply K. intros c Hc. apply in_seq in Hc. lia.
Qed.

Definition good (c k : nat) (m : vmap) : Prop :=
  length (fst m) = nv /\ (forall v, v < nv -> nth_error (fst m) v = Some (length (entered c k v)) /\ length (entered c k v) <= max_sharing) /\
  exists g, tab (snd m) max_sharing nv g /\ forall v p a, v < nv -> nth_error (entered c k v) p = Some a -> g p v = Z.of_nat a.
Definition Bad : Prop := exists v, v < nv /\ max_sharing < length (cells_at cnv cv ng v).

Lemma add_vertex_ok c k z m : c < ng -> nth_error (vertices c) k = Some z -> good c k m ->
  (exists m', add_vertex c k z m = Ok m' /\ good c (S k) m') \/ (add_vertex c k z m = UB /\ Bad).
Proof.
  intros Hc Hz [L [N [g [T G]]]]. destruct m as [num v2c]. cbn [fst snd] in *. unfold add_vertex.
  pose proof (nc_range _ _ _ _ W c z Hc (nth_error_In _ _ Hz)) as Rz.
  destruct (Z.ltb_spec z 0) as [Lz|Lz].
  { left. eexists; split; [reflexivity|]. cbn [fst snd]. assert (E : forall v, entered c (S k) v = entered c k v).
    { intro v. rewrite (entered_step c k z v Hz). destruct (Z.eqb_spec (Z.of_nat v) z); [lia|apply app_nil_r]. }
    split; [exact L|]. cbn [fst snd]. split; [intros v Hv; rewrite E; apply N, Hv|]. exists g. split; [exact T|]. intros v p a Hv. rewrite E. apply G, Hv. }
  set (v0 := Z.to_nat z). assert (Ev : z = Z.of_nat v0) by (unfold v0; lia). assert (H0 : v0 < nv) by lia. clearbody v0. subst z.
  destruct (N v0 H0) as [N0 B0]. rewrite (rdz_nat _ _ _ N0). cbn [bind].
  assert (Est : forall v, entered c (S k) v = entered c k v ++ if v =? v0 then [c] else []).
  { intro v. rewrite (entered_step c k _ v Hz). destruct (Nat.eqb_spec v v0); destruct (Z.eqb_spec (Z.of_nat v) (Z.of_nat v0)); try lia; reflexivity. }
  destruct (Nat.eq_dec (length (entered c k v0)) max_sharing) as [Em|Nm].
  - right. split.
    + rewrite Em. unfold wr2. destruct T as [LT _]. unfold rd at 1. rewrite (proj2 (nth_error_None v2c max_sharing)) by (rewrite LT; apply Nat.le_refl). reflexivity.
    + exists v0. split; [exact H0|]. rewrite <- entered_all. pose proof (entered_le_row c (S k) v0) as A1. pose proof (entered_le (S c) ng v0 Hc) as A2.
      rewrite Est, Nat.eqb_refl, app_length in A1. cbn [length] in A1. lia.
  - destruct (tab_wr _ _ _ _ (length (entered c k v0)) v0 (Z.of_nat c) T) as [t' [E' T']]; [lia|exact H0|]. rewrite E'. cbn [bind].
    rewrite wrz_nat by lia. cbn [bind].
    assert (Lk : k < nv).
    { pose proof (nth_lt _ _ _ Hz) as Lk. destruct (Nat.lt_ge_cases k nv) as [X|X]; [exact X|exfalso].
      pose proof (nc_room _ _ _ _ W c Hc). lia. }
    assert (N' : forall v, v < nv -> nth_error (upd num v0 (S (length (entered c k v0)))) v = Some (length (entered c (S k) v)) /\ length (entered c (S k) v) <= max_sharing).
    { intros v Hv. rewrite Est, app_length. destruct (Nat.eqb_spec v v0) as [->|Nv]; cbn [length].
      - rewrite nth_upd_same by lia. split; [f_equal; lia|lia].
      - rewrite nth_upd_other by congruence. rewrite Nat.add_0_r. apply N, Hv. }
    destruct (N' k Lk) as [Nk Bk]. rewrite (rd_some _ _ _ Nk). cbn [bind]. destruct (Nat.ltb_spec max_sharing (length (entered c (S k) k))) as [X|_]; [lia|].
    left. eexists; split; [reflexivity|]. cbn [fst snd]. split; [cbn [fst]; rewrite length_upd; exact L|]. split; [exact N'|].
    exists (put g (length (entered c k v0)) v0 (Z.of_nat c)). split; [exact T'|]. intros v p a Hv Hp. rewrite Est in Hp.
    destruct (Nat.lt_ge_cases p (length (entered c k v))) as [Lp|Lp].
    + rewrite nth_error_app1 in Hp by exact Lp. rewrite put_other; [apply G; assumption|].
      destruct (Nat.eq_dec v v0) as [->|]; [left; lia|right; assumption].
    + rewrite nth_error_app2 in Hp by exact Lp. destruct (Nat.eqb_spec v v0) as [->|Nv]; [|destruct (p - length (entered c k v)); discriminate Hp].
      destruct (p - length (entered c k v0)) as [|q] eqn:Ep; [|destruct q; discriminate Hp]. injection Hp as <-.
      assert (p = length (entered c k v0)) by lia. subst p. apply put_same.
Qed.

Lemma run : (exists m, setup_v2c cnv cv ng nv = Ok m /\ good ng 0 m) \/ (setup_v2c cnv cv ng nv = UB /\ Bad).
Proof.
  unfold setup_v2c. unfold for_ at 1. apply (loop_or (fun c m => good c 0 m) Bad).
  - split; [apply repeat_length|]. cbn [fst snd]. split.
    + intros v Hv. rewrite nth_error_repeat by exact Hv. split; [reflexivity|]. cbn. unfold max_sharing. lia.
    + exists (fun _ _ => (-1)%Z). split; [apply tab_alloc|]. intros v p a _ H. destruct p; discriminate H.
  - intros c m Hc H. destruct (nc_read _ _ _ _ W c ltac:(lia)) as [n [r [E1 [E2 L]]]]. rewrite (rd_some _ _ _ E1). cbn [bind].
    assert (Vc : vertices c = firstn n r) by (unfold SpecVertexCells.vertices; rewrite (nth_error_nth _ _ _ E1), (nth_error_nth _ _ _ E2); reflexivity).
    assert (Lv : length (vertices c) = n) by (rewrite Vc, firstn_length; lia).
    unfold for_. match goal with |- context [loop n 0 ?B m] => destruct (loop_or (fun k m => good c k m) Bad B n 0 m H) as [[m' [E G]]|R] end.
    + intros k m1 Hk H1. rewrite (rd_some _ _ _ E2). cbn [bind].
      destruct (nth_error (vertices c) k) as [z|] eqn:Ez; [|apply nth_error_None in Ez; lia].
      assert (Er : nth_error r k = Some z).
      { rewrite Vc in Ez. rewrite <- (firstn_skipn n r). rewrite nth_error_app1; [exact Ez|]. rewrite firstn_length. lia. }
      rewrite (rd_some _ _ _ Er). cbn [bind]. apply add_vertex_ok; [lia|exact Ez|exact H1].
    + left. exists m'. split; [exact E|]. cbn [Nat.add] in G. rewrite <- Lv in G. destruct G as [G1 [G2 [g [G3 G4]]]].
      split; [exact G1|]. split; [intros v Hv; rewrite <- entered_end; apply G2, Hv|]. exists g. split; [exact G3|].
      intros v p a Hv. rewrite <- entered_end. apply G4, Hv.
    + right. exact R.
Qed.

Theorem v2c_ok : (forall v, v < nv -> length (cells_at cnv cv ng v) <= 24) ->
  exists num v2c, setup_v2c cnv cv ng nv = Ok (num, v2c) /\ length num = nv /\
    forall v, v < nv -> nth_error num v = Some (length (cells_at cnv cv ng v)) /\
      forall p a, nth_error (cells_at cnv cv ng v) p = Some a -> exists r, nth_error v2c p = Some r /\ nth_error r v = Some (Z.of_nat a).
Proof.
  intro H. destruct run as [[[num v2c] [E [L [N [g [T G]]]]]]|[_ [v [Hv X]]]].
  - exists num, v2c. split; [exact E|]. split; [exact L|]. intros v Hv. cbn [fst snd] in *. destruct (N v Hv) as [N1 N2]. rewrite <- entered_all.
    split; [exact N1|]. intros p a Hp. pose proof (nth_lt _ _ _ Hp). destruct T as [_ T]. destruct (T p ltac:(lia)) as [r [E1 [_ E2]]].
    exists r. split; [exact E1|]. rewrite E2 by exact Hv. f_equal. apply G; assumption.
  - specialize (H v Hv). unfold max_sharing in X. lia.
Qed.
Theorem v2c_overflow v : v < nv -> 24 < length (cells_at cnv cv ng v) -> setup_v2c cnv cv ng nv = UB.
Proof.
  intros Hv H. destruct run as [[m [_ [_ [N _]]]]|[E _]]; [|exact E]. destruct (N v Hv) as [_ X]. rewrite entered_all in X. unfold max_sharing in X. lia.
Qed.
End Map.
