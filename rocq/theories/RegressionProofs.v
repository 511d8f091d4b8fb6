From Coq Require Import Bool List Arith Lia.
From Verif Require Import Prelude Regression SpecRegression.
Import ListNotations.

Lemma fold_add : forall l a, fold_left Nat.add l a = a + total l.
Proof. induction l as [|x l IH]; intro a; simpl; [lia|]. rewrite IH. lia. Qed.

Lemma fold_min_le : forall l a, fold_left min l a <= a /\ forall x, In x l -> fold_left min l a <= x.
Proof.
  induction l as [|y l IH]; intro a; simpl; [split; [lia|contradiction]|].
  destruct (IH (min a y)) as [A B]. split; [lia|]. intros x [->|H]; [lia|apply B; exact H].
Qed.

Lemma allreduce_min_le : forall l x, In x l -> allreduce_min l <= x.
Proof.
  intros [|a l] x H; [destruct H|]. unfold allreduce_min. destruct (fold_min_le l a) as [A B].
  destruct H as [<-|H]; [exact A|apply B; exact H].
Qed.

Lemma clip_le : forall sizes req x, In x sizes -> clip sizes req <= x /\ clip sizes req <= req.
Proof.
  intros sizes req x H. pose proof (allreduce_min_le sizes x H). unfold clip.
  destruct (Nat.ltb_spec (allreduce_min sizes) req); lia.
Qed.

(** Facts about one process. *)
Definition good_increment (m : rmode) (size ncells inc : nat) : Prop :=
  0 < inc /\ ndof_per_cell m * ncells * inc <= size.

Lemma in_process_ids : forall m nc inc off x, In x (process_ids m nc inc off) ->
  exists c d, c < nc /\ d < ndof_per_cell m /\ x = ndof_per_cell m * c * inc + off + d.
Proof.
  intros m nc inc off x H. unfold process_ids in H. apply in_flat_map in H. destruct H as [c [Hc H]].
  apply in_map_iff in H. destruct H as [d [<- Hd]]. apply in_seq in Hc. apply in_seq in Hd.
  exists c, d. repeat split; lia.
Qed.

Lemma NoDup_app_intro : forall {A} (l1 l2 : list A), NoDup l1 -> NoDup l2 -> (forall x, In x l1 -> ~ In x l2) -> NoDup (l1 ++ l2).
Proof.
  intros A l1; induction l1 as [|a l1 IH]; intros l2 H1 H2 Hd; [exact H2|].
  inversion H1 as [|? ? Hn H1']; subst. simpl. constructor.
  - intro Hi. apply in_app_or in Hi. destruct Hi as [Hi|Hi]; [contradiction|]. apply (Hd a); [left; reflexivity|exact Hi].
  - apply IH; [exact H1'|exact H2|]. intros x Hx. apply Hd. right. exact Hx.
Qed.

Lemma process_nodup : forall m nc inc off, 0 < inc -> NoDup (process_ids m nc inc off).
Proof.
  intros m nc inc off Hi. unfold process_ids.
  assert (G : forall k, NoDup (flat_map (fun c => map (fun idof => ndof_per_cell m * c * inc + off + idof) (seq 0 (ndof_per_cell m))) (seq k nc))).
  { induction nc as [|nc IH]; intro k; simpl; [constructor|]. apply NoDup_app_intro.
    - destruct m; simpl; repeat constructor; simpl; try tauto. intros [H|[]]. lia.
    - apply IH.
    - intros x H1 H2. apply in_map_iff in H1. destruct H1 as [d [<- Hd]]. apply in_seq in Hd.
      apply in_flat_map in H2. destruct H2 as [c [Hc H2]]. apply in_seq in Hc. apply in_map_iff in H2.
      destruct H2 as [d' [E Hd']]. apply in_seq in Hd'.
      assert (ndof_per_cell m * S k * inc <= ndof_per_cell m * c * inc) by (apply Nat.mul_le_mono_r, Nat.mul_le_mono_l; lia).
      assert (ndof_per_cell m * 1 <= ndof_per_cell m * inc) by (apply Nat.mul_le_mono_l; lia). lia. }
  apply G.
Qed.

Lemma process_owned : forall m sizes rank nc inc x, good_increment m (nth rank sizes 0) nc inc ->
  In x (process_ids m nc inc (global_offset sizes rank)) -> owned_by sizes rank x.
Proof.
  intros m sizes rank nc inc x [H1 H2] Hi. apply in_process_ids in Hi. destruct Hi as [c [d [Hc [Hd ->]]]].
  unfold owned_by, global_offset. rewrite fold_add. simpl.
  assert (ndof_per_cell m * c * inc + d < ndof_per_cell m * nc * inc).
  { assert (ndof_per_cell m * S c * inc <= ndof_per_cell m * nc * inc) by (apply Nat.mul_le_mono_r, Nat.mul_le_mono_l; lia).
    assert (ndof_per_cell m * 1 <= ndof_per_cell m * inc) by (apply Nat.mul_le_mono_l; lia). lia. }
  lia.
Qed.

Lemma process_count : forall m nc inc off, length (process_ids m nc inc off) = ndof_per_cell m * nc.
Proof.
  intros m nc inc off. unfold process_ids. generalize 0 at 2. induction nc as [|nc IH]; intro k; simpl; [lia|].
  rewrite app_length, map_length, seq_length, IH. lia.
Qed.

(** Which requests are good. *)
Lemma increment_good : forall m sizes req rank, rank < length sizes -> 0 < req ->
  (forall x, In x sizes -> 0 < x) -> (m = MTH -> forall x, In x sizes -> 2 * req <= x) ->
  exists inc, increment m (nth rank sizes 0) (clip sizes req) = Ok inc
   /\ good_increment m (nth rank sizes 0) (clip sizes req) inc.
Proof.
  intros m sizes req rank Hr Hq Hp Hth.
  assert (Hin : In (nth rank sizes 0) sizes) by (apply nth_In; exact Hr).
  destruct (clip_le sizes req _ Hin) as [C1 C2].
  assert (Hc : 0 < clip sizes req).
  { unfold clip. destruct (Nat.ltb_spec (allreduce_min sizes) req); [|exact Hq].
    destruct sizes as [|a l]; [simpl in Hr; lia|]. unfold allreduce_min.
    assert (G : forall l a, 0 < a -> (forall x, In x l -> 0 < x) -> 0 < fold_left min l a).
    { induction l0 as [|y l0 IH]; intros a0 Ha Hl; simpl; [exact Ha|]. apply IH; [|intros; apply Hl; right; assumption].
      specialize (Hl y (or_introl eq_refl)). lia. }
    apply G; [apply Hp; left; reflexivity|intros; apply Hp; right; assumption]. }
  set (size := nth rank sizes 0) in *. set (nc := clip sizes req) in *.
  unfold increment. replace (nc =? 0) with false by (symmetry; apply Nat.eqb_neq; lia).
  assert (D : nc * (size / nc) <= size) by (apply Nat.mul_div_le; lia).
  destruct m; (eexists; split; [reflexivity|]); unfold good_increment; simpl ndof_per_cell.
  - split; [apply Nat.div_str_pos; lia|lia].
  - specialize (Hth eq_refl _ Hin). fold size in Hth.
    assert (2 <= size / nc) by (apply Nat.div_le_lower_bound; nia).
    split; [apply Nat.div_str_pos; lia|].
    assert (2 * (size / nc / 2) <= size / nc) by (apply Nat.mul_div_le; lia). nia.
  - split; [apply Nat.div_str_pos; lia|lia].
Qed.

Lemma ranks_disjoint : forall sizes r r' x, r < r' -> owned_by sizes r x -> owned_by sizes r' x -> False.
Proof.
  intros sizes r r' x Hr [A1 A2] [B1 B2].
  assert (total (firstn r sizes) + nth r sizes 0 <= total (firstn r' sizes)); [|lia].
  clear - Hr. revert r r' Hr. induction sizes as [|a l IH]; intros [|r] [|r'] H; try lia; simpl.
  - lia.
  - lia.
  - lia.
  - specialize (IH r r'). lia.
Qed.

Lemma total_firstn_le : forall sizes r, total (firstn r sizes) + nth r sizes 0 <= total sizes.
Proof.
  induction sizes as [|a l IH]; intros [|r]; simpl; try lia. specialize (IH r). lia.
Qed.

Lemma sample_ok : forall m sizes req, 0 < req -> (forall x, In x sizes -> 0 < x) ->
  (m = MTH -> forall x, In x sizes -> 2 * req <= x) ->
  exists ids, sample m sizes req = Ok ids /\ NoDup ids
    /\ length ids = length sizes * (ndof_per_cell m * clip sizes req)
    /\ (forall x, In x ids -> x < total sizes).
Proof.
  intros m sizes req Hq Hp Hth. unfold sample.
  assert (G : forall n k, k + n <= length sizes -> exists ids, sample_ranks m sizes req (seq k n) = Ok ids /\ NoDup ids
     /\ length ids = n * (ndof_per_cell m * clip sizes req)
     /\ (forall x, In x ids -> exists r, k <= r < k + n /\ owned_by sizes r x)).
  { induction n as [|n IH]; intros k Hk; simpl.
    - exists []. split; [reflexivity|]. split; [constructor|]. split; [reflexivity|]. intros x [].
    - destruct (IH (S k)) as [ids [E [N [L O]]]]; [lia|].
      destruct (increment_good m sizes req k) as [inc [Ei Gi]]; [lia|exact Hq|exact Hp|exact Hth|].
      unfold sample_process. rewrite Ei. simpl. rewrite E. simpl. eexists. split; [reflexivity|].
      split; [|split].
      + apply NoDup_app_intro; [apply process_nodup; apply Gi|exact N|].
        intros x H1 H2. apply process_owned in H1; [|exact Gi]. destruct (O x H2) as [r [Hr H3]].
        apply (ranks_disjoint sizes k r x); [lia|exact H1|exact H3].
      + rewrite app_length, process_count, L. lia.
      + intros x Hx. apply in_app_or in Hx. destruct Hx as [Hx|Hx].
        * exists k. split; [lia|]. eapply process_owned; [exact Gi|exact Hx].
        * destruct (O x Hx) as [r [Hr H3]]. exists r. split; [lia|exact H3]. }
  destruct (G (length sizes) 0) as [ids [E [N [L O]]]]; [lia|].
  exists ids. split; [exact E|]. split; [exact N|]. split; [exact L|].
  intros x Hx. destruct (O x Hx) as [r [_ [_ H]]]. pose proof (total_firstn_le sizes r). lia.
Qed.

Lemma sample_owned : forall m sizes req rank, rank < length sizes -> 0 < req ->
  (forall x, In x sizes -> 0 < x) -> (m = MTH -> forall x, In x sizes -> 2 * req <= x) ->
  exists ids, sample_process m sizes req rank = Ok ids /\ forall x, In x ids -> owned_by sizes rank x.
Proof.
  intros m sizes req rank Hr Hq Hp Hth.
  destruct (increment_good m sizes req rank Hr Hq Hp Hth) as [inc [E G]].
  unfold sample_process. rewrite E. simpl. eexists. split; [reflexivity|]. intros x Hx. eapply process_owned; eassumption.
Qed.
