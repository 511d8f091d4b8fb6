From Coq Require Import List Arith ZArith Lia Bool Permutation.
From Verif Require Import Prelude Arrays UGrid UGridLoops SpecUGrid UGridProofs UGridVertexProofs UGridAllProofs UGridExtraProofs Scatter.
Import ListNotations.

(** ** Scatters *)
Lemma scatter_ok : forall {A} (pairs : list (nat * nat)) (x y : list A),
  (forall f t, In (f, t) pairs -> f < length x /\ t < length y) -> NoDup (map snd pairs) ->
  exists y', scatter pairs x y = Ok y' /\ length y' = length y /\
  (forall f t, In (f, t) pairs -> nth_error y' t = nth_error x f) /\
  (forall t, ~ In t (map snd pairs) -> nth_error y' t = nth_error y t).
Proof.
  intros A pairs x y Hb Hn. unfold scatter.
  destruct (for_inv (fun k y' => length y' = length y /\
     (forall i f t, i < k -> nth_error pairs i = Some (f, t) -> nth_error y' t = nth_error x f) /\
     (forall t, ~ In t (map snd pairs) -> nth_error y' t = nth_error y t))
    (fun k y => do ft <- rd pairs k; do v <- rd x (fst ft); wr y (snd ft) v) (length pairs) y) as [y' [E [H1 [H2 H3]]]].
  - split; [reflexivity|]. split; [intros; lia|reflexivity].
  - intros k s Hk [H1 [H2 H3]]. destruct (rd_ok pairs k Hk) as [[f t] [E N]]. rewrite E. cbn [bind fst snd].
    destruct (Hb f t (nth_error_In _ _ N)) as [Hf Ht]. destruct (rd_ok x f Hf) as [v [Ev Nv]]. rewrite Ev. cbn [bind].
    rewrite wr_ok by lia. eexists. split; [reflexivity|]. split; [rewrite length_upd; exact H1|]. split.
    + intros i f' t' Hi E'. destruct (Nat.eq_dec i k) as [->|Ni].
      * rewrite N in E'. injection E' as <- <-. rewrite nth_upd_same by lia. congruence.
      * rewrite nth_upd_other.
        -- apply (H2 i); [lia|exact E'].
        -- intro Heq. apply Ni. apply (NoDup_nth_error (map snd pairs)); [exact Hn| |].
           ++ rewrite map_length. apply nth_lt in E'. exact E'.
           ++ rewrite !nth_error_map, E', N. simpl. congruence.
    + intros t' Ht'. rewrite nth_upd_other; [apply H3; exact Ht'|]. intros ->. apply Ht'.
      apply in_map_iff. exists (f, t'). split; [reflexivity|apply nth_error_In in N; exact N].
  - exists y'. split; [exact E|]. split; [exact H1|]. split; [|exact H3].
    intros f t Hin. apply In_nth_error in Hin. destruct Hin as [i Ei]. apply (H2 i); [apply nth_lt in Ei; exact Ei|exact Ei].
Qed.

(** ** Blocks *)
Lemma block_is_length : forall ndof idx, length (block_is ndof idx) = length idx * ndof.
Proof.
  intros ndof idx. unfold block_is. induction idx as [|b idx IH]; [reflexivity|].
  simpl. rewrite app_length, IH, map_length, seq_length. reflexivity.
Qed.
Lemma block_is_nth : forall ndof idx i k, k < ndof ->
  nth_error (block_is ndof idx) (i * ndof + k) = option_map (fun b => b * ndof + k) (nth_error idx i).
Proof.
  intros ndof idx i k Hk. unfold block_is. rewrite flat_map_concat_map.
  rewrite (nth_concat_fixed _ ndof); [|apply Forall_forall; intros l Hl; apply in_map_iff in Hl; destruct Hl as [b [<- _]];
    rewrite map_length, seq_length; reflexivity|exact Hk].
  rewrite nth_error_map. destruct (nth_error idx i) as [b|]; [|reflexivity]. cbn [option_map].
  rewrite nth_error_map, (nth_error_nth' _ 0) by (rewrite seq_length; exact Hk). rewrite seq_nth by exact Hk. reflexivity.
Qed.
Lemma in_block_pairs : forall ndof a b f t, length a = length b ->
  In (f, t) (combine (block_is ndof a) (block_is ndof b)) <->
  exists i k p q, k < ndof /\ nth_error a i = Some p /\ nth_error b i = Some q /\ f = p * ndof + k /\ t = q * ndof + k.
Proof.
  intros ndof a b f t HL. split.
  - intro H. apply In_nth_error in H. destruct H as [j Ej].
    assert (Hj : j < length a * ndof).
    { apply nth_lt in Ej. rewrite combine_length, !block_is_length in Ej. lia. }
    destruct (flat_decomp _ _ _ Hj) as [i [k [Hi [Hk ->]]]].
    assert (E1 : nth_error (block_is ndof a) (i * ndof + k) = Some f /\ nth_error (block_is ndof b) (i * ndof + k) = Some t).
    { clear - Ej. revert Ej. generalize (i * ndof + k) as q. generalize (block_is ndof a) as u, (block_is ndof b) as w.
      induction u as [|x u IH]; intros [|y w] [|q] E; try discriminate E.
      - injection E as <- <-. split; reflexivity.
      - exact (IH w q E). }
    destruct E1 as [E1 E2]. rewrite block_is_nth in E1, E2 by exact Hk.
    destruct (nth_error a i) as [p|] eqn:Ea; [|discriminate]. destruct (nth_error b i) as [q|] eqn:Eb; [|discriminate].
    injection E1 as <-. injection E2 as <-. exists i, k, p, q. auto.
  - intros [i [k [p [q [Hk [Ea [Eb [-> ->]]]]]]]].
    apply (nth_error_In _ (i * ndof + k)).
    assert (E1 := block_is_nth ndof a i k Hk). assert (E2 := block_is_nth ndof b i k Hk). rewrite Ea in E1. rewrite Eb in E2.
    revert E1 E2. cbn [option_map]. generalize (p * ndof + k) as f, (q * ndof + k) as t, (i * ndof + k) as j.
    generalize (block_is ndof a) as u, (block_is ndof b) as w. clear.
    induction u as [|x u IH]; intros [|y w] f t [|j] E1 E2; try discriminate.
    + simpl in *. congruence.
    + simpl in *. apply IH; assumption.
Qed.
Lemma block_nodup : forall ndof idx, NoDup idx -> NoDup (block_is ndof idx).
Proof.
  intros ndof idx H. apply NoDup_nth_error. intros j j' Hj E. rewrite block_is_length in Hj.
  destruct (flat_decomp _ _ _ Hj) as [i [k [Hi [Hk ->]]]].
  assert (Hj' : j' < length idx * ndof).
  { rewrite <- block_is_length. apply nth_error_Some. rewrite <- E. apply nth_error_Some. rewrite block_is_length. exact Hj. }
  destruct (flat_decomp _ _ _ Hj') as [i' [k' [Hi' [Hk' ->]]]].
  rewrite !block_is_nth in E by assumption.
  destruct (nth_error idx i) as [b|] eqn:Eb; [|apply nth_error_None in Eb; lia].
  destruct (nth_error idx i') as [b'|] eqn:Eb'; [|apply nth_error_None in Eb'; lia].
  injection E as E. apply flat_inj in E; [|assumption|assumption]. destruct E as [-> ->].
  f_equal. f_equal. apply (proj1 (NoDup_nth_error idx) H i i' Hi). congruence.
Qed.

Lemma map_snd_combine : forall {A B} (a : list A) (b : list B), length a = length b -> map snd (combine a b) = b.
Proof. intros A B a; induction a as [|x a IH]; intros [|y b] H; try discriminate; [reflexivity|]. simpl. f_equal. apply IH. simpl in H. lia. Qed.
Lemma map_fst_combine : forall {A B} (a : list A) (b : list B), length a = length b -> map fst (combine a b) = a.
Proof. intros A B a; induction a as [|x a IH]; intros [|y b] H; try discriminate; [reflexivity|]. simpl. f_equal. apply IH. simpl in H. lia. Qed.

(** ** The orderings *)
Lemma gn_pairs : forall ndof ao nls off,
  global_natural_pairs ndof ao (ranks_from off nls) =
  combine (block_is ndof (seq off (list_sum nls)))
          (block_is ndof (map (fun i => Z.to_nat (petsc_to_app ao i)) (seq off (list_sum nls)))).
Proof.
  intros ndof ao nls; induction nls as [|n nls IH]; intro off; [reflexivity|].
  unfold global_natural_pairs in *. cbn [ranks_from flat_map fst snd]. rewrite IH. unfold is_local_petsc, is_local_natural.
  change (list_sum (n :: nls)) with (n + list_sum nls). rewrite seq_app, map_app.
  assert (E : map (fun i => i + off) (seq 0 n) = seq off n).
  { clear. revert off. induction n as [|n IH]; intro off; [reflexivity|]. simpl. f_equal. rewrite <- seq_shift, map_map.
    rewrite <- (IH (S off)). apply map_ext. intro. lia. }
  assert (E2 : map (fun i => Z.to_nat (petsc_to_app ao (i + off))) (seq 0 n) = map (fun i => Z.to_nat (petsc_to_app ao i)) (seq off n)).
  { rewrite <- E, map_map. reflexivity. }
  rewrite E, E2. unfold block_is. rewrite !flat_map_app.
  assert (G : forall (a a' b b' : list nat), length a = length b -> combine (a ++ a') (b ++ b') = combine a b ++ combine a' b').
  { clear. induction a as [|x a IH]; intros a' [|y b] b' H; try discriminate; [reflexivity|]. simpl. f_equal. apply IH. simpl in H. lia. }
  rewrite G; [reflexivity|]. fold (block_is ndof (seq off n)).
  fold (block_is ndof (map (fun i => Z.to_nat (petsc_to_app ao i)) (seq off n))).
  rewrite !block_is_length, map_length. reflexivity.
Qed.

(** [ao] numbers [N] cells: position [p] holds the natural number of cell [p]. *)
Section order.
Context (ndof N : nat) (ao : list Z) (nls : list nat).
Hypothesis Hao : Permutation ao (map Z.of_nat (seq 0 N)).
Hypothesis Hnls : list_sum nls = N.

Lemma ao_length : length ao = N.
Proof. apply Permutation_length in Hao. rewrite map_length, seq_length in Hao. exact Hao. Qed.

Definition natural_of (p : nat) : nat := Z.to_nat (petsc_to_app ao p).

Lemma naturals_eq : map natural_of (seq 0 N) = map Z.to_nat ao.
Proof.
  rewrite <- ao_length. unfold natural_of, petsc_to_app. clear. induction ao as [|x l IH]; [reflexivity|].
  cbn [length]. cbn [seq map nth]. f_equal. rewrite <- IH, <- seq_shift, map_map. reflexivity.
Qed.
Lemma naturals_perm : Permutation (map natural_of (seq 0 N)) (seq 0 N).
Proof.
  rewrite naturals_eq. transitivity (map Z.to_nat (map Z.of_nat (seq 0 N))); [apply Permutation_map; exact Hao|].
  rewrite map_map. rewrite (map_ext _ (fun x => x)) by (intro; apply Nat2Z.id). rewrite map_id. reflexivity.
Qed.

Lemma pairs_in : forall f t, In (f, t) (global_natural_pairs ndof ao (ranks_from 0 nls)) <->
  exists p k, p < N /\ k < ndof /\ f = p * ndof + k /\ t = natural_of p * ndof + k.
Proof.
  intros f t. rewrite gn_pairs, Hnls. rewrite in_block_pairs by (rewrite map_length; reflexivity). split.
  - intros [i [k [p [q [Hk [E1 [E2 [-> ->]]]]]]]].
    assert (Hi : i < N) by (apply nth_lt in E1; rewrite seq_length in E1; exact E1).
    rewrite (nth_error_nth' _ 0) in E1 by (rewrite seq_length; exact Hi). rewrite seq_nth in E1 by exact Hi. injection E1 as <-.
    rewrite nth_error_map, (nth_error_nth' _ 0) in E2 by (rewrite seq_length; exact Hi). rewrite seq_nth in E2 by exact Hi.
    injection E2 as <-. exists i, k. auto.
  - intros [p [k [Hp [Hk [-> ->]]]]]. exists p, k, p, (natural_of p). split; [exact Hk|]. split.
    + rewrite (nth_error_nth' _ 0) by (rewrite seq_length; exact Hp). rewrite seq_nth by exact Hp. reflexivity.
    + split; [|auto]. rewrite nth_error_map, (nth_error_nth' _ 0) by (rewrite seq_length; exact Hp). rewrite seq_nth by exact Hp. reflexivity.
Qed.

Lemma natural_lt : forall p, p < N -> natural_of p < N.
Proof.
  intros p Hp. assert (H : In (natural_of p) (map natural_of (seq 0 N))) by (apply in_map; apply in_seq; lia).
  apply (Permutation_in _ naturals_perm) in H. apply in_seq in H. lia.
Qed.

Lemma targets_nodup : NoDup (map snd (global_natural_pairs ndof ao (ranks_from 0 nls))).
Proof.
  rewrite gn_pairs, Hnls, map_snd_combine by (rewrite !block_is_length, map_length; reflexivity).
  apply block_nodup. fold natural_of. change (NoDup (map natural_of (seq 0 N))).
  apply (Permutation_NoDup (Permutation_sym naturals_perm)). apply seq_NoDup.
Qed.
Lemma sources_nodup : NoDup (map fst (global_natural_pairs ndof ao (ranks_from 0 nls))).
Proof.
  rewrite gn_pairs, Hnls, map_fst_combine by (rewrite !block_is_length, map_length; reflexivity).
  apply block_nodup. apply seq_NoDup.
Qed.

Lemma global_to_natural_ok : forall {A} (x y : list A), length x = N * ndof -> length y = N * ndof ->
  exists y', global_to_natural ndof ao nls x y = Ok y' /\ length y' = N * ndof /\
  forall p k, p < N -> k < ndof -> nth_error y' (natural_of p * ndof + k) = nth_error x (p * ndof + k).
Proof.
  intros A x y Hx Hy. unfold global_to_natural.
  destruct (scatter_ok (global_natural_pairs ndof ao (ranks_from 0 nls)) x y) as [y' [E [HL [H _]]]].
  - intros f t Hin. apply pairs_in in Hin. destruct Hin as [p [k [Hp [Hk [-> ->]]]]]. rewrite Hx, Hy.
    split; apply flat_lt; try assumption. apply natural_lt. exact Hp.
  - exact targets_nodup.
  - exists y'. split; [exact E|]. split; [lia|]. intros p k Hp Hk. apply H. apply pairs_in. exists p, k. auto.
Qed.

Lemma natural_to_global_ok : forall {A} (x y : list A), length x = N * ndof -> length y = N * ndof ->
  exists y', natural_to_global ndof ao nls x y = Ok y' /\ length y' = N * ndof /\
  forall p k, p < N -> k < ndof -> nth_error y' (p * ndof + k) = nth_error x (natural_of p * ndof + k).
Proof.
  intros A x y Hx Hy. unfold natural_to_global.
  assert (Hin : forall f t, In (f, t) (flip (global_natural_pairs ndof ao (ranks_from 0 nls))) <->
     In (t, f) (global_natural_pairs ndof ao (ranks_from 0 nls))).
  { intros f t. unfold flip. rewrite in_map_iff. split.
    - intros [[a b] [E H]]. simpl in E. congruence.
    - intro H. exists (t, f). auto. }
  destruct (scatter_ok (flip (global_natural_pairs ndof ao (ranks_from 0 nls))) x y) as [y' [E [HL [H _]]]].
  - intros f t Hft. apply Hin, pairs_in in Hft. destruct Hft as [p [k [Hp [Hk [-> ->]]]]]. rewrite Hx, Hy.
    split; apply flat_lt; try assumption. apply natural_lt. exact Hp.
  - unfold flip. rewrite map_map. exact sources_nodup.
  - exists y'. split; [exact E|]. split; [lia|]. intros p k Hp Hk. apply H. apply Hin, pairs_in. exists p, k. auto.
Qed.

Lemma natural_surj : forall c, c < N -> exists p, p < N /\ natural_of p = c.
Proof.
  intros c Hc. assert (H : In c (map natural_of (seq 0 N))) by (apply (Permutation_in _ (Permutation_sym naturals_perm)); apply in_seq; lia).
  apply in_map_iff in H. destruct H as [p [E Hp]]. apply in_seq in Hp. exists p. split; [lia|exact E].
Qed.

Lemma round_trip_proof : forall {A} (x y z : list A), length x = N * ndof -> length y = N * ndof -> length z = N * ndof ->
  exists n, global_to_natural ndof ao nls x y = Ok n /\ natural_to_global ndof ao nls n z = Ok x.
Proof.
  intros A x y z Hx Hy Hz. destruct (global_to_natural_ok x y Hx Hy) as [n [En [HLn Hn]]].
  destruct (natural_to_global_ok n z HLn Hz) as [w [Ew [HLw Hw]]]. exists n. split; [exact En|]. rewrite Ew. f_equal.
  apply nth_error_ext. intro j. destruct (le_lt_dec (N * ndof) j) as [Hge|Hlt].
  - rewrite (proj2 (nth_error_None w j)) by lia. rewrite (proj2 (nth_error_None x j)) by lia. reflexivity.
  - destruct (flat_decomp _ _ _ Hlt) as [p [k [Hp [Hk ->]]]]. rewrite Hw by assumption. apply Hn; assumption.
Qed.
Lemma round_trip_back_proof : forall {A} (x y z : list A), length x = N * ndof -> length y = N * ndof -> length z = N * ndof ->
  exists g, natural_to_global ndof ao nls x y = Ok g /\ global_to_natural ndof ao nls g z = Ok x.
Proof.
  intros A x y z Hx Hy Hz. destruct (natural_to_global_ok x y Hx Hy) as [n [En [HLn Hn]]].
  destruct (global_to_natural_ok n z HLn Hz) as [w [Ew [HLw Hw]]]. exists n. split; [exact En|]. rewrite Ew. f_equal.
  apply nth_error_ext. intro j. destruct (le_lt_dec (N * ndof) j) as [Hge|Hlt].
  - rewrite (proj2 (nth_error_None w j)) by lia. rewrite (proj2 (nth_error_None x j)) by lia. reflexivity.
  - destruct (flat_decomp _ _ _ Hlt) as [c [k [Hc [Hk ->]]]]. destruct (natural_surj c Hc) as [p [Hp <-]].
    rewrite Hw by assumption. apply Hn; assumption.
Qed.
End order.

(** ** Local vectors *)
Definition number_of (off nl : nat) (ghosts : list nat) (i : nat) : option nat :=
  if i <? nl then Some (off + i) else nth_error ghosts (i - nl).

Lemma ghosted_nth : forall off nl ghosts i, nth_error (map (fun i => i + off) (seq 0 nl) ++ ghosts) i = number_of off nl ghosts i.
Proof.
  intros off nl ghosts i. unfold number_of. destruct (Nat.ltb_spec i nl).
  - rewrite nth_error_app1 by (rewrite map_length, seq_length; exact H). rewrite nth_error_map.
    rewrite (nth_error_nth' _ 0) by (rewrite seq_length; exact H). rewrite seq_nth by exact H. simpl. f_equal. lia.
  - rewrite nth_error_app2; rewrite map_length, seq_length; [reflexivity|exact H].
Qed.

Lemma seq_nth' : forall n i, i < n -> nth_error (seq 0 n) i = Some i.
Proof. intros n i H. rewrite (nth_error_nth' _ 0) by (rewrite seq_length; exact H). rewrite seq_nth by exact H. reflexivity. Qed.

Lemma global_to_local_ok : forall {A} ndof N off nl ghosts (x y : list A),
  off + nl <= N -> (forall g, In g ghosts -> g < N) ->
  length x = N * ndof -> length y = (nl + length ghosts) * ndof ->
  exists y', global_to_local ndof off nl ghosts x y = Ok y' /\ length y' = length y /\
  forall i p k, number_of off nl ghosts i = Some p -> k < ndof -> nth_error y' (i * ndof + k) = nth_error x (p * ndof + k).
Proof.
  intros A ndof N off nl ghosts x y Hr Hg Hx Hy. unfold global_to_local, global_local_pairs, is_ghosted_petsc, is_ghosted_local.
  set (a := map (fun i => i + off) (seq 0 nl) ++ ghosts). set (n := nl + length ghosts).
  assert (HLa : length a = n) by (unfold a, n; rewrite app_length, map_length, seq_length; reflexivity).
  destruct (scatter_ok (combine (block_is ndof a) (block_is ndof (seq 0 n))) x y) as [y' [E [HL [H _]]]].
  - intros f t Hin. apply in_block_pairs in Hin; [|rewrite seq_length; exact HLa].
    destruct Hin as [i [k [p [q [Hk [Ea [Eb [-> ->]]]]]]]].
    assert (Hi : i < n) by (apply nth_lt in Ea; rewrite <- HLa; exact Ea). rewrite seq_nth' in Eb by exact Hi. injection Eb as <-.
    rewrite Hx, Hy. split; apply flat_lt; try assumption.
    unfold a in Ea. rewrite ghosted_nth in Ea. unfold number_of in Ea. destruct (Nat.ltb_spec i nl).
    + injection Ea as <-. lia.
    + apply Hg. apply nth_error_In in Ea. exact Ea.
  - rewrite map_snd_combine by (rewrite !block_is_length, seq_length, HLa; reflexivity).
    apply block_nodup. apply seq_NoDup.
  - exists y'. split; [exact E|]. split; [exact HL|]. intros i p k Hp Hk. apply H.
    apply in_block_pairs; [rewrite seq_length; exact HLa|]. rewrite <- ghosted_nth in Hp. fold a in Hp.
    exists i, k, p, i. split; [exact Hk|]. split; [exact Hp|]. split; [|auto]. apply seq_nth'. apply nth_lt in Hp. lia.
Qed.

Lemma local_step_ok : forall {A} ndof N off nl (x g : list A),
  off + nl <= N -> length g = N * ndof -> nl * ndof <= length x ->
  exists g', scatter (local_global_pairs ndof off nl) x g = Ok g' /\ length g' = N * ndof /\
  (forall i k, i < nl -> k < ndof -> nth_error g' ((off + i) * ndof + k) = nth_error x (i * ndof + k)) /\
  (forall p k, k < ndof -> (p < off \/ off + nl <= p) -> nth_error g' (p * ndof + k) = nth_error g (p * ndof + k)).
Proof.
  intros A ndof N off nl x g Hr Hg Hx. unfold local_global_pairs, is_local_local, is_local_petsc.
  set (b := map (fun i => i + off) (seq 0 nl)).
  assert (HLb : length (seq 0 nl) = length b) by (unfold b; rewrite map_length; reflexivity).
  assert (Hb : forall i, i < nl -> nth_error b i = Some (off + i)).
  { intros i Hi. unfold b. rewrite nth_error_map, seq_nth' by exact Hi. simpl. f_equal. lia. }
  assert (HLb2 : length b = nl) by (rewrite <- HLb; apply seq_length).
  destruct (scatter_ok (combine (block_is ndof (seq 0 nl)) (block_is ndof b)) x g) as [g' [E [HL [H H2]]]].
  - intros f t Hin. apply in_block_pairs in Hin; [|exact HLb].
    destruct Hin as [i [k [p [q [Hk [Ea [Eb [-> ->]]]]]]]].
    assert (Hi : i < nl) by (apply nth_lt in Ea; rewrite seq_length in Ea; exact Ea).
    rewrite seq_nth' in Ea by exact Hi. injection Ea as <-. rewrite Hb in Eb by exact Hi. injection Eb as <-.
    split; [assert (i * ndof + k < nl * ndof) by (apply flat_lt; assumption); lia|]. rewrite Hg. apply flat_lt; [lia|exact Hk].
  - rewrite map_snd_combine by (rewrite !block_is_length, HLb; reflexivity).
    apply block_nodup. apply NoDup_nth_error. intros i j Hi Eij. rewrite HLb2 in Hi. rewrite Hb in Eij by exact Hi.
    assert (Hj : j < nl) by (rewrite <- HLb2; apply nth_error_Some; congruence).
    rewrite Hb in Eij by exact Hj. injection Eij as Eij. lia.
  - exists g'. split; [exact E|]. split; [lia|]. split.
    + intros i k Hi Hk. apply H. apply in_block_pairs; [exact HLb|]. exists i, k, i, (off + i).
      split; [exact Hk|]. split; [apply seq_nth'; exact Hi|]. split; [apply Hb; exact Hi|auto].
    + intros p k Hk Hp. apply H2. intro Hin. apply in_map_iff in Hin. destruct Hin as [[f t] [Et Hin]]. simpl in Et. subst t.
      apply in_block_pairs in Hin; [|exact HLb]. destruct Hin as [i [k' [p' [q [Hk' [Ea [Eb [-> E']]]]]]]].
      apply flat_inj in E'; [|exact Hk|exact Hk']. destruct E' as [-> ->].
      assert (Hi : i < nl) by (apply nth_lt in Ea; rewrite seq_length in Ea; exact Ea).
      rewrite Hb in Eb by exact Hi. injection Eb as <-. lia.
Qed.

Lemma local_to_global_ok : forall {A} ndof N nls off (xs : list (list A)) g,
  off + list_sum nls <= N -> length g = N * ndof -> Forall2 (fun nl x => nl * ndof <= length x) nls xs ->
  exists g', local_to_global ndof (combine (ranks_from off nls) xs) g = Ok g' /\ length g' = N * ndof /\
  (forall r nl x i k, nth_error nls r = Some nl -> nth_error xs r = Some x -> i < nl -> k < ndof ->
     nth_error g' ((off + before nls r + i) * ndof + k) = nth_error x (i * ndof + k)) /\
  (forall p k, k < ndof -> (p < off \/ off + list_sum nls <= p) -> nth_error g' (p * ndof + k) = nth_error g (p * ndof + k)).
Proof.
  intros A ndof N nls off xs g Hr Hg H. revert off g Hr Hg. induction H as [|nl x nls xs Hx _ IH]; intros off g Hr Hg.
  - exists g. split; [reflexivity|]. split; [exact Hg|]. split; [intros [|r] nl x i k E; discriminate E|reflexivity].
  - change (list_sum (nl :: nls)) with (nl + list_sum nls) in *. cbn [ranks_from combine local_to_global].
    destruct (local_step_ok ndof N off nl x g ltac:(lia) Hg Hx) as [g1 [E1 [HL1 [Ha Hb]]]]. rewrite E1. cbn [bind].
    destruct (IH (off + nl) g1 ltac:(lia) HL1) as [g2 [E2 [HL2 [Hc Hd]]]]. exists g2. split; [exact E2|]. split; [exact HL2|]. split.
    + intros [|r] nl' x' i k En Ex Hi Hk.
      * injection En as <-. injection Ex as <-. unfold before. simpl list_sum. rewrite Nat.add_0_r.
        rewrite Hd by (try exact Hk; lia). apply Ha; assumption.
      * rewrite <- (Hc r nl' x' i k En Ex Hi Hk). f_equal. f_equal. f_equal. unfold before. cbn [firstn].
        change (list_sum (nl :: firstn r nls)) with (nl + list_sum (firstn r nls)). lia.
    + intros p k Hk Hp. rewrite Hd by (try exact Hk; lia). apply Hb; [exact Hk|lia].
Qed.

Lemma local_round_trip_proof : forall {A} ndof N nls (ghosts : list (list nat)) (g h : list A) (ys : list (list A)) ls,
  list_sum nls = N -> length g = N * ndof -> length h = N * ndof ->
  length ghosts = length nls -> length ys = length nls ->
  Forall (Forall (fun p => p < N)) ghosts ->
  (forall r nl gs y, nth_error nls r = Some nl -> nth_error ghosts r = Some gs -> nth_error ys r = Some y ->
     length y = (nl + length gs) * ndof) ->
  mapM (fun a => let '(off, nl, gs, y) := a in global_to_local ndof off nl gs g y)
       (combine (combine (ranks_from 0 nls) ghosts) ys) = Ok ls ->
  local_to_global ndof (combine (ranks_from 0 nls) ls) h = Ok g.
Proof.
  intros A ndof N nls ghosts g h ys ls HN Hg Hh HLg HLy HGs Hlen Em.
  assert (HR : forall r nl, nth_error nls r = Some nl -> before nls r + nl <= N).
  { intros r nl En. pose proof (ranks_from_in nls 0 _ _ (nth_error_In _ _ (ranks_from_nth nls 0 r nl En))). lia. }
  assert (HLR : length (ranks_from 0 nls) = length nls).
  { clear. generalize 0 as off. induction nls as [|m l IH]; intro off; simpl; [reflexivity|]. f_equal. apply IH. }
  assert (HM : length ls = length nls /\ forall r nl l, nth_error nls r = Some nl -> nth_error ls r = Some l ->
    nl * ndof <= length l /\ forall i k, i < nl -> k < ndof -> nth_error l (i * ndof + k) = nth_error g ((before nls r + i) * ndof + k)).
  { set (dom := combine (combine (ranks_from 0 nls) ghosts) ys) in *.
    assert (HLd : length dom = length nls) by (unfold dom; rewrite !combine_length; lia).
    assert (Hd : forall r nl, nth_error nls r = Some nl -> exists gs y, nth_error dom r = Some ((before nls r, nl), gs, y) /\
        nth_error ghosts r = Some gs /\ nth_error ys r = Some y).
    { intros r nl En. assert (Hrl : r < length nls) by (apply nth_lt in En; exact En).
      destruct (nth_error ghosts r) as [gs|] eqn:Eg; [|apply nth_error_None in Eg; lia].
      destruct (nth_error ys r) as [y|] eqn:Ey; [|apply nth_error_None in Ey; lia]. exists gs, y. split; [|auto].
      pose proof (ranks_from_nth nls 0 r nl En) as Er. simpl in Er.
      assert (Hc : forall {X Y} (a : list X) (b : list Y) i u v, nth_error a i = Some u -> nth_error b i = Some v -> nth_error (combine a b) i = Some (u, v)).
      { clear. intros X Y a. induction a as [|x a IH]; intros [|z b] [|i] u v Ea Eb; try discriminate.
        - simpl in *. congruence.
        - simpl in *. apply IH; assumption. }
      unfold dom. apply Hc; [apply Hc; assumption|assumption]. }
    clearbody dom.
    assert (HF : Forall2 (fun a l => (let '(off, nl, gs, y) := a in global_to_local ndof off nl gs g y) = Ok l) dom ls).
    { clear - Em. revert ls Em. induction dom as [|a dom IH]; intros ls Em; simpl in Em.
      - injection Em as <-. constructor.
      - destruct a as [[[off nl] gs] y]. destruct (global_to_local ndof off nl gs g y) as [l0| |] eqn:E0; simpl in Em; try discriminate.
        destruct (mapM (fun a => let '(off, nl, gs, y) := a in global_to_local ndof off nl gs g y) dom) as [l1| |] eqn:E1; simpl in Em; try discriminate.
        injection Em as <-. constructor; [exact E0|]. apply IH. reflexivity. }
    split; [rewrite <- HLd; symmetry; apply (Forall2_len _ _ _ HF)|].
    intros r nl l En El. destruct (Hd r nl En) as [gs [y [Edom [Egs Ey]]]].
    destruct (Forall2_nth _ _ _ _ _ HF Edom) as [l' [El' Hl']]. assert (l' = l) by congruence. subst l'. cbn beta iota in Hl'.
    destruct (global_to_local_ok ndof N (before nls r) nl gs g y (HR r nl En)) as [y' [E' [HL' Hy']]].
    - intros p Hp. rewrite Forall_forall in HGs. pose proof (HGs _ (nth_error_In _ _ Egs)) as HG. rewrite Forall_forall in HG. apply HG. exact Hp.
    - exact Hg.
    - exact (Hlen r nl gs y En Egs Ey).
    - assert (y' = l) by congruence. subst y'. rewrite HL', (Hlen r nl gs y En Egs Ey). split; [nia|].
      intros i k Hi Hk. apply Hy'; [|exact Hk]. unfold number_of. destruct (Nat.ltb_spec i nl); [reflexivity|lia]. }
  destruct HM as [HLl HM].
  destruct (local_to_global_ok ndof N nls 0 ls h) as [g' [E' [HL' [Hv _]]]].
  - lia.
  - exact Hh.
  - clear - HLl HM.
    assert (HM' : forall r nl l, nth_error nls r = Some nl -> nth_error ls r = Some l -> nl * ndof <= length l) by (intros; eapply HM; eassumption).
    clear HM. revert ls HLl HM'. induction nls as [|n nls IH]; intros [|l ls] HL HM; try discriminate; constructor.
    + apply (HM 0); reflexivity.
    + apply IH; [simpl in HL; lia|]. intros r. apply (HM (S r)).
  - rewrite E'. f_equal. apply nth_error_ext. intro j. destruct (le_lt_dec (N * ndof) j) as [Hge|Hlt].
    + rewrite (proj2 (nth_error_None g' j)) by lia. rewrite (proj2 (nth_error_None g j)) by lia. reflexivity.
    + destruct (flat_decomp _ _ _ Hlt) as [p [k [Hp [Hk ->]]]]. rewrite <- HN in Hp.
      destruct (find_rank nls p Hp) as [r [nl [i [En [Hi ->]]]]].
      destruct (nth_error ls r) as [l|] eqn:El; [|apply nth_error_None in El; apply nth_lt in En; lia].
      pose proof (Hv r nl l i k En El Hi Hk) as Hvr. simpl in Hvr. rewrite Hvr.
      destruct (HM r nl l En El) as [_ HM']. apply HM'; assumption.
Qed.

(** ** Restart *)
Section restart.
Context (ndof N : nat) (ao1 ao2 : list Z) (nls1 nls2 : list nat).
Hypothesis H1 : Permutation ao1 (map Z.of_nat (seq 0 N)).
Hypothesis H2 : Permutation ao2 (map Z.of_nat (seq 0 N)).
Hypothesis S1 : list_sum nls1 = N.
Hypothesis S2 : list_sum nls2 = N.

Lemma restart_proof : forall {A} (s1 s2 : solution A) tmp1 tmp2 procs,
  length (soln_prev s1) = N * ndof -> length tmp1 = N * ndof -> length tmp2 = N * ndof ->
  length (soln s2) = N * ndof -> length (soln_prev s2) = N * ndof ->
  (forall off nl gs, In (off, nl, gs) procs -> off + nl <= N /\ forall g, In g gs -> g < N) ->
  Forall2 (fun pr l => let '(off, nl, gs) := pr in length l = (nl + length gs) * ndof) procs (soln_loc s2) ->
  exists file s', OutputCheckpoint ndof ao1 nls1 s1 tmp1 = Ok file /\
    SetInitialCondition ndof ao2 nls2 procs file tmp2 s2 = Ok s' /\
    forall c k, c < N -> k < ndof -> exists p1 p2, p1 < N /\ p2 < N /\
      nth_error ao1 p1 = Some (Z.of_nat c) /\ nth_error ao2 p2 = Some (Z.of_nat c) /\
      nth_error (soln s') (p2 * ndof + k) = nth_error (soln_prev s1) (p1 * ndof + k) /\
      nth_error (soln_prev s') (p2 * ndof + k) = nth_error (soln_prev s1) (p1 * ndof + k) /\
      (forall r off nl gs l i, nth_error procs r = Some (off, nl, gs) -> nth_error (soln_loc s') r = Some l ->
         number_of off nl gs i = Some p2 -> nth_error l (i * ndof + k) = nth_error (soln_prev s1) (p1 * ndof + k)).
Proof.
  intros A s1 s2 tmp1 tmp2 procs Hs1 Ht1 Ht2 Hs2 Hp2 Hpr Hloc.
  destruct (global_to_natural_ok ndof N ao1 nls1 H1 S1 (soln_prev s1) tmp1 Hs1 Ht1) as [file [Ef [HLf Hf]]].
  destruct (natural_to_global_ok ndof N ao2 nls2 H2 S2 file (soln s2) HLf Hs2) as [a [Ea [HLa Ha]]].
  destruct (natural_to_global_ok ndof N ao2 nls2 H2 S2 file (soln_prev s2) HLf Hp2) as [b [Eb [HLb Hb]]].
  destruct (natural_to_global_ok ndof N ao2 nls2 H2 S2 file tmp2 HLf Ht2) as [w [Ew [HLw Hw]]].
  exists file. unfold OutputCheckpoint, SetInitialCondition. rewrite Ea. cbn [bind]. rewrite Eb. cbn [bind].
  destruct (mapM_ok (fun pl => let '(off, nl, gs, l) := pl in natural_to_local ndof ao2 nls2 off nl gs file tmp2 l)
     (combine procs (soln_loc s2))
     (fun pl l' => let '(off, nl, gs, l) := pl in forall i p k, number_of off nl gs i = Some p -> k < ndof ->
        nth_error l' (i * ndof + k) = nth_error w (p * ndof + k))) as [ls [Els Hls]].
  { intros [[[off nl] gs] l] Hin. unfold natural_to_local. rewrite Ew. cbn [bind].
    destruct (Hpr off nl gs (in_combine_l _ _ _ _ Hin)) as [Hr Hg].
    assert (HLl : length l = (nl + length gs) * ndof).
    { clear - Hloc Hin. induction Hloc as [|pr x prs xs Hx _ IH]; [destruct Hin|]. destruct Hin as [E|Hin]; [|apply IH; exact Hin].
      injection E as -> ->. exact Hx. }
    destruct (global_to_local_ok ndof N off nl gs w l Hr Hg HLw HLl) as [y' [Ey [_ Hy]]]. exists y'. auto. }
  rewrite Els. cbn [bind]. eexists. split; [exact Ef|]. split; [reflexivity|]. cbn [soln soln_prev soln_loc].
  assert (Hget : forall ao, Permutation ao (map Z.of_nat (seq 0 N)) -> forall c, c < N -> exists p, p < N /\
     nth_error ao p = Some (Z.of_nat c) /\ natural_of ao p = c).
  { intros ao Hao c Hc. destruct (natural_surj N ao nls1 Hao S1 c Hc) as [p [Hp E]]. exists p. split; [exact Hp|]. split; [|exact E].
    assert (HLao := ao_length N ao Hao). unfold natural_of, petsc_to_app in E.
    rewrite (nth_error_nth' ao (-1)%Z) by lia. f_equal.
    assert (Hin : In (nth p ao (-1)%Z) (map Z.of_nat (seq 0 N))) by (apply (Permutation_in _ Hao); apply nth_In; lia).
    apply in_map_iff in Hin. destruct Hin as [z [Ez _]]. lia. }
  intros c k Hc Hk. destruct (Hget ao1 H1 c Hc) as [p1 [Hp1 [E1 N1]]]. destruct (Hget ao2 H2 c Hc) as [p2 [Hp2' [E2 N2]]].
  exists p1, p2. split; [exact Hp1|]. split; [exact Hp2'|]. split; [exact E1|]. split; [exact E2|].
  assert (HF : nth_error file (natural_of ao2 p2 * ndof + k) = nth_error (soln_prev s1) (p1 * ndof + k)).
  { rewrite N2, <- N1. apply Hf; assumption. }
  split; [rewrite Ha by assumption; exact HF|]. split; [rewrite Hb by assumption; exact HF|].
  intros r off nl gs l i Er El Ei.
  assert (Hx : exists l0, nth_error (combine procs (soln_loc s2)) r = Some (off, nl, gs, l0)).
  { clear - Hloc Er. revert r Er. induction Hloc as [|pr x prs xs Hx _ IH]; intros [|r] Er; try discriminate.
    - injection Er as ->. exists x. reflexivity.
    - apply IH. exact Er. }
  destruct Hx as [l0 Ex]. destruct (Forall2_nth _ _ _ _ _ Hls Ex) as [l' [El' Hl']]. assert (l' = l) by congruence. subst l'.
  rewrite (Hl' i p2 k Ei Hk). rewrite Hw by assumption. exact HF.
Qed.
End restart.

(** ** Global numbers of local cells *)
Lemma nG2A_proof : forall off nl ghosts, exists a, nG2A 1 off nl ghosts = Ok a /\ length a = nl + length ghosts /\
  forall i, nth_error a i = number_of off nl ghosts i.
Proof.
  intros off nl ghosts. unfold nG2A.
  set (src := is_ghosted_petsc 1 off nl ghosts).
  assert (Hsrc : forall i, nth_error src i = number_of off nl ghosts i).
  { intro i. unfold src, is_ghosted_petsc. rewrite <- (ghosted_nth off nl ghosts i).
    pose proof (block_is_nth 1 (map (fun i => i + off) (seq 0 nl) ++ ghosts) i 0 ltac:(lia)) as E.
    rewrite Nat.add_0_r, Nat.mul_1_r in E. rewrite E. destruct (nth_error (map (fun i0 => i0 + off) (seq 0 nl) ++ ghosts) i); simpl; [|reflexivity]. f_equal. lia. }
  assert (HLs : length src = nl + length ghosts).
  { unfold src, is_ghosted_petsc. rewrite block_is_length, app_length, map_length, seq_length. lia. }
  destruct (for_inv (fun k (a : list nat) => length a = nl + length ghosts /\ forall i, i < k -> nth_error a i = nth_error src i)
    (fun ic a => do x <- rd src ic; wr a ic x) (nl + length ghosts) (repeat 0 (nl + length ghosts))) as [a [E [HL H]]].
  - split; [apply repeat_length|]. intros; lia.
  - intros i s Hi [HL H]. destruct (rd_ok src i) as [x [Ex Nx]]; [lia|]. rewrite Ex. cbn [bind]. rewrite wr_ok by lia.
    eexists. split; [reflexivity|]. split; [rewrite length_upd; exact HL|].
    intros j Hj. destruct (Nat.eq_dec i j) as [<-|Nj]; [rewrite nth_upd_same by lia; congruence|].
    rewrite nth_upd_other by exact Nj. apply H. lia.
  - exists a. split; [exact E|]. split; [exact HL|]. intro i. rewrite <- Hsrc.
    destruct (le_lt_dec (nl + length ghosts) i) as [Hge|Hlt]; [|apply H; exact Hlt].
    rewrite (proj2 (nth_error_None a i)) by lia. symmetry. apply nth_error_None. lia.
Qed.

Lemma natural_position_proof : forall ndof N ao nls A (x y : list A),
  Permutation ao (map Z.of_nat (seq 0 N)) -> list_sum nls = N ->
  length x = N * ndof -> length y = N * ndof ->
  exists y', global_to_natural ndof ao nls x y = Ok y' /\ length y' = N * ndof /\
  forall p k c, k < ndof -> nth_error ao p = Some (Z.of_nat c) ->
    nth_error y' (c * ndof + k) = nth_error x (p * ndof + k).
Proof.
  intros ndof N ao nls A x y Hao Hn Hx Hy.
  destruct (global_to_natural_ok ndof N ao nls Hao Hn x y Hx Hy) as [y' [E [HL H]]].
  exists y'. split; [exact E|]. split; [exact HL|]. intros p k c Hk Ep.
  assert (Hp : p < N) by (rewrite <- (ao_length N ao Hao); apply nth_lt in Ep; exact Ep).
  rewrite <- (H p k Hp Hk). unfold natural_of, petsc_to_app. rewrite (nth_error_nth _ _ _ Ep), Nat2Z.id. reflexivity.
Qed.

Lemma local_proof : forall A ndof N off nl ghosts (x y : list A),
  off + nl <= N -> (forall g, In g ghosts -> g < N) ->
  length x = N * ndof -> length y = (nl + length ghosts) * ndof ->
  exists y', global_to_local ndof off nl ghosts x y = Ok y' /\ length y' = length y /\
  forall i p k, k < ndof -> global_number (Z.of_nat off) nl (map Z.of_nat ghosts) i = Some (Z.of_nat p) ->
    nth_error y' (i * ndof + k) = nth_error x (p * ndof + k).
Proof.
  intros A ndof N off nl ghosts x y Hr Hg Hx Hy.
  destruct (global_to_local_ok ndof N off nl ghosts x y Hr Hg Hx Hy) as [y' [E [HL H]]].
  exists y'. split; [exact E|]. split; [exact HL|]. intros i p k Hk Hi. apply H; [|exact Hk].
  unfold global_number, number_of in *. destruct (i <? nl).
  - injection Hi as Hi. f_equal. lia.
  - rewrite nth_error_map in Hi. destruct (nth_error ghosts (i - nl)) as [q|]; [|discriminate]. injection Hi as Hi. f_equal. lia.
Qed.
