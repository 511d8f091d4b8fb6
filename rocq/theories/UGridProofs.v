From Coq Require Import List Arith ZArith Lia Bool Permutation.
From Verif Require Import Prelude Arrays UGrid UGridLoops SpecUGrid.
Import ListNotations.
Local Open Scope Z_scope.

(** ** In-place renumbering of the slots of a vector *)
Section frame.
Context (n m : nat) (addr : nat -> nat -> nat) (v0 : list Z) (F : nat -> nat -> Z).
Hypothesis addr_inj : forall i j i' j', (i < n)%nat -> (j < m)%nat -> (i' < n)%nat -> (j' < m)%nat ->
  addr i j = addr i' j' -> i = i' /\ j = j'.
Hypothesis addr_lt : forall i j, (i < n)%nat -> (j < m)%nat -> (addr i j < length v0)%nat.

Definition frame (k : nat) (v : list Z) : Prop :=
  length v = length v0 /\
  (forall i j, (i < n)%nat -> (j < m)%nat -> (i * m + j < k)%nat -> nth_error v (addr i j) = Some (F i j)) /\
  (forall p, (forall i j, (i < n)%nat -> (j < m)%nat -> (i * m + j < k)%nat -> p <> addr i j) ->
     nth_error v p = nth_error v0 p).

Lemma frame_0 : frame 0 v0.
Proof. split; [reflexivity|]. split; [intros; lia|reflexivity]. Qed.

Lemma frame_read : forall i j v, (i < n)%nat -> (j < m)%nat -> frame (i * m + j) v ->
  nth_error v (addr i j) = nth_error v0 (addr i j).
Proof.
  intros i j v Hi Hj [_ [_ H]]. apply H. intros i' j' Hi' Hj' Hk E.
  destruct (addr_inj i j i' j' Hi Hj Hi' Hj' E) as [-> ->]. lia.
Qed.

Lemma frame_step : forall i j v, (i < n)%nat -> (j < m)%nat -> frame (i * m + j) v ->
  frame (S (i * m + j)) (upd v (addr i j) (F i j)).
Proof.
  intros i j v Hi Hj [HL [H1 H2]]. split; [rewrite length_upd; exact HL|]. split.
  - intros i' j' Hi' Hj' Hk. rewrite nth_upd. rewrite HL.
    pose proof (addr_lt i j Hi Hj) as HA. apply Nat.ltb_lt in HA. rewrite HA, andb_true_r.
    destruct (Nat.eqb_spec (addr i j) (addr i' j')) as [E|N].
    + destruct (addr_inj i j i' j' Hi Hj Hi' Hj' E) as [-> ->]. reflexivity.
    + apply H1; [assumption|assumption|].
      destruct (Nat.eq_dec (i' * m + j') (i * m + j)) as [E|NE]; [|lia].
      apply flat_inj in E; [|assumption|assumption]. destruct E as [-> ->]. contradiction.
  - intros p Hp. rewrite nth_upd_other; [|intro E; symmetry in E; revert E; apply Hp; [assumption|assumption|lia]].
    apply H2. intros i' j' Hi' Hj' Hk. apply Hp; [assumption|assumption|lia].
Qed.

Lemma frame_keep : forall i j v, (i < n)%nat -> (j < m)%nat -> frame (i * m + j) v ->
  nth_error v0 (addr i j) = Some (F i j) -> frame (S (i * m + j)) v.
Proof.
  intros i j v Hi Hj HF E. pose proof (frame_read i j v Hi Hj HF) as HR. destruct HF as [HL [H1 H2]].
  split; [exact HL|]. split.
  - intros i' j' Hi' Hj' Hk. destruct (Nat.eq_dec (i' * m + j') (i * m + j)) as [E'|N].
    + apply flat_inj in E'; [|assumption|assumption]. destruct E' as [-> ->]. congruence.
    + apply H1; [assumption|assumption|lia].
  - intros p Hp. apply H2. intros i' j' Hi' Hj' Hk. apply Hp; [assumption|assumption|lia].
Qed.

Lemma frame_end : forall v, frame (n * m) v ->
  length v = length v0 /\
  (forall i j, (i < n)%nat -> (j < m)%nat -> nth_error v (addr i j) = Some (F i j)) /\
  (forall p, (forall i j, (i < n)%nat -> (j < m)%nat -> p <> addr i j) -> nth_error v p = nth_error v0 p).
Proof.
  intros v [HL [H1 H2]]. split; [exact HL|]. split.
  - intros i j Hi Hj. apply H1; [assumption|assumption|]. apply flat_lt; assumption.
  - intros p Hp. apply H2. intros; apply Hp; assumption.
Qed.
End frame.

(** ** Packing *)
Lemma record_length : forall c vs nbs maxd, (length nbs <= maxd)%nat ->
  length (record c vs nbs maxd) = stride_of (length vs) maxd.
Proof.
  intros c vs nbs maxd H. unfold record, stride_of, dual_offset, vertex_ids_offset.
  rewrite !app_length, !map_length, repeat_length. cbn [length]. lia.
Qed.
Lemma record_id : forall c vs nbs maxd, nth_error (record c vs nbs maxd) 0 = Some (- c - 1).
Proof. reflexivity. Qed.
Lemma record_vertex : forall c vs nbs maxd k x, nth_error vs k = Some x ->
  nth_error (record c vs nbs maxd) (2 + k) = Some (x + 1).
Proof.
  intros c vs nbs maxd k x H. unfold record. cbn [app plus nth_error].
  rewrite nth_error_app1 by (rewrite map_length; apply nth_lt in H; exact H).
  rewrite nth_error_map, H. reflexivity.
Qed.
Lemma record_sep : forall c vs nbs maxd, nth_error (record c vs nbs maxd) (2 + length vs) = Some (-888).
Proof.
  intros c vs nbs maxd. unfold record. cbn [app plus nth_error].
  rewrite nth_error_app2 by (rewrite map_length; lia). rewrite map_length, Nat.sub_diag. reflexivity.
Qed.
Lemma record_dual : forall c vs nbs maxd k, (k < maxd)%nat ->
  nth_error (record c vs nbs maxd) (dual_offset (length vs) + k) =
  Some (match nth_error nbs k with Some x => x + 1 | None => 0 end).
Proof.
  intros c vs nbs maxd k H. unfold record, dual_offset, vertex_ids_offset.
  replace (2 + length vs + 1 + k)%nat with (S (S (length vs + S k))) by lia. cbn [app nth_error].
  rewrite nth_error_app2 by (rewrite map_length; lia). rewrite map_length.
  replace (length vs + S k - length vs)%nat with (S k) by lia. cbn [nth_error].
  destruct (nth_error nbs k) as [x|] eqn:E.
  - rewrite nth_error_app1 by (rewrite map_length; apply nth_lt in E; exact E).
    rewrite nth_error_map, E. reflexivity.
  - apply nth_error_None in E. rewrite nth_error_app2 by (rewrite map_length; lia). rewrite map_length.
    rewrite nth_error_app1 by (rewrite repeat_length; lia). apply nth_error_repeat'. lia.
Qed.
Lemma record_end : forall c vs nbs maxd, (length nbs <= maxd)%nat ->
  nth_error (record c vs nbs maxd) (dual_offset (length vs) + maxd) = Some (-999999).
Proof.
  intros c vs nbs maxd H. unfold record, dual_offset, vertex_ids_offset.
  replace (2 + length vs + 1 + maxd)%nat with (S (S (length vs + S maxd))) by lia. cbn [app nth_error].
  rewrite nth_error_app2 by (rewrite map_length; lia). rewrite map_length.
  replace (length vs + S maxd - length vs)%nat with (S maxd) by lia. cbn [nth_error].
  rewrite nth_error_app2 by (rewrite map_length; lia). rewrite map_length.
  rewrite nth_error_app2 by (rewrite repeat_length; lia). rewrite repeat_length.
  replace (maxd - length nbs - (maxd - length nbs))%nat with 0%nat by lia. reflexivity.
Qed.

Section packing.
Context (maxv maxd off : nat) (verts : list (list Z)) (ia : list nat) (ja : list Z) (nbs : list (list Z)).
Hypothesis Hrows : forall i row, nth_error verts i = Some row -> (maxv <= length row)%nat.
Hypothesis Hn : length nbs = length verts.
Hypothesis Hcsr : csr ia ja nbs.
Hypothesis Hmax : forall i r, nth_error nbs i = Some r -> (length r <= maxd)%nat.

Let stride := stride_of maxv maxd.

(** The record expected for cell [i]. *)
Definition expected (i : nat) : list Z :=
  record (Z.of_nat (off + i)) (firstn maxv (nth i verts [])) (nth i nbs []) maxd.

Definition packed (c : nat) (st : nat * list Z) : Prop :=
  fst st = c /\ length (snd st) = (length verts * stride)%nat /\
  forall i k, (i < length verts)%nat -> (k < stride)%nat -> (i * stride + k < c)%nat ->
  nth_error (snd st) (i * stride + k) = nth_error (expected i) k.

Lemma firstn_len : forall i, (i < length verts)%nat -> length (firstn maxv (nth i verts [])) = maxv.
Proof.
  intros i Hi. rewrite firstn_length.
  assert (maxv <= length (nth i verts []))%nat; [|lia].
  apply (Hrows i). apply nth_error_nth'. exact Hi.
Qed.

Lemma packed_push : forall i k x st, (i < length verts)%nat -> (k < stride)%nat -> packed (i * stride + k) st ->
  nth_error (expected i) k = Some x -> exists st', push x st = Ok st' /\ packed (i * stride + S k) st'.
Proof.
  intros i k x [c v] Hi Hk [Hc [HL H]] Ex. cbn [fst snd] in *. subst c.
  assert (HB : (i * stride + k < length v)%nat) by (rewrite HL; apply flat_lt; assumption).
  exists (S (i * stride + k), upd v (i * stride + k) x). split; [apply push_ok; exact HB|].
  split; [cbn [fst]; lia|]. cbn [snd]. split; [rewrite length_upd; exact HL|].
  intros i' k' Hi' Hk' Hlt. destruct (Nat.eq_dec (i' * stride + k') (i * stride + k)) as [E|N].
  - pose proof (flat_inj _ _ _ _ _ Hk' Hk E) as [-> ->]. rewrite nth_upd_same by exact HB. symmetry. exact Ex.
  - rewrite nth_upd_other by lia. apply H; [assumption|assumption|lia].
Qed.

Lemma pack_cell_ok : forall i st, (i < length verts)%nat -> packed (i * stride) st ->
  exists st', pack_cell maxv maxd off verts ia ja i st = Ok st' /\ packed (S i * stride) st'.
Proof.
  intros i st Hi HP. unfold pack_cell.
  pose proof (firstn_len i Hi) as HF.
  assert (HS : stride = (maxv + maxd + 4)%nat) by (unfold stride, stride_of, dual_offset, vertex_ids_offset; lia).
  rewrite <- (Nat.add_0_r (i * stride)) in HP.
  destruct (packed_push i 0 (- Z.of_nat off - Z.of_nat i - 1) st Hi) as [st1 [E1 P1]]; [lia|exact HP| |].
  { unfold expected. rewrite record_id. f_equal. lia. }
  rewrite E1. cbn [bind]. clear E1 HP.
  destruct (packed_push i 1 vertex_separator st1 Hi) as [st2 [E2 P2]]; [lia|exact P1|reflexivity|].
  rewrite E2. cbn [bind]. clear E2 P1.
  destruct (for_inv (fun iv st => packed (i * stride + (2 + iv)) st)
      (fun iv st => do row <- rd verts i; do x <- rd row iv; push (x + 1) st) maxv st2) as [st3 [E3 P3]]; [exact P2| |].
  { intros iv s Hiv Hs.
    assert (Er : nth_error verts i = Some (nth i verts [])) by (apply nth_error_nth'; exact Hi).
    rewrite (rd_some _ _ _ Er). cbn [bind].
    destruct (rd_ok (nth i verts []) iv) as [x [Ex Nx]]; [pose proof (Hrows _ _ Er); lia|].
    rewrite Ex. cbn [bind]. destruct (packed_push i (2 + iv) (x + 1) s Hi) as [s' [E' P']]; [lia|exact Hs| |].
    - unfold expected. apply record_vertex.
      transitivity (nth_error (nth i verts []) iv); [|exact Nx].
      clear - Hiv. revert iv maxv Hiv. induction (nth i verts []) as [|y l IH]; intros iv mv Hiv.
      + rewrite firstn_nil. reflexivity.
      + destruct mv; [lia|]. destruct iv; cbn [firstn nth_error]; [reflexivity|]. apply IH. lia.
    - exists s'. split; [exact E'|]. replace (2 + S iv)%nat with (S (2 + iv)) by lia. exact P'. }
  rewrite E3. cbn [bind]. clear E3 P2.
  destruct (packed_push i (2 + maxv) dual_separator st3 Hi) as [st4 [E4 P4]]; [lia|exact P3| |].
  { pose proof (record_sep (Z.of_nat (off + i)) (firstn maxv (nth i verts [])) (nth i nbs []) maxd) as Q.
    rewrite HF in Q. exact Q. }
  rewrite E4. cbn [bind]. clear E4 P3.
  assert (En : nth_error nbs i = Some (nth i nbs [])) by (apply nth_error_nth'; lia).
  destruct (Hcsr i _ En) as [a [Ea [Eb Ej]]].
  rewrite (rd_some _ _ _ Ea), (rd_some _ _ _ Eb). cbn [bind].
  replace (a + length (nth i nbs []) - a)%nat with (length (nth i nbs [])) by lia.
  destruct (for_inv (fun id st => packed (i * stride + (dual_offset maxv + id)) st)
      (fun ic st => if (ic <? length (nth i nbs []))%nat then do x <- rd ja (a + ic); push (x + 1) st else push 0 st)
      maxd st4) as [st5 [E5 P5]].
  { replace (dual_offset maxv + 0)%nat with (S (2 + maxv)) by (unfold dual_offset, vertex_ids_offset; lia). exact P4. }
  { intros id s Hid Hs.
    assert (HX : nth_error (expected i) (dual_offset maxv + id) =
                 Some (match nth_error (nth i nbs []) id with Some x => x + 1 | None => 0 end)).
    { pose proof (record_dual (Z.of_nat (off + i)) (firstn maxv (nth i verts [])) (nth i nbs []) maxd id Hid) as Q.
      rewrite HF in Q. exact Q. }
    assert (HD : (dual_offset maxv + id < stride)%nat) by (unfold dual_offset, vertex_ids_offset; lia).
    replace (dual_offset maxv + S id)%nat with (S (dual_offset maxv + id)) by lia.
    destruct (Nat.ltb_spec id (length (nth i nbs []))) as [Hlt|Hge].
    - destruct (nth_error (nth i nbs []) id) as [x|] eqn:Ex; [|apply nth_error_None in Ex; lia].
      rewrite (rd_some ja (a + id) x) by (rewrite Ej by exact Hlt; exact Ex). cbn [bind].
      apply packed_push; assumption.
    - replace (nth_error (nth i nbs []) id) with (@None Z) in HX by (symmetry; apply nth_error_None; exact Hge).
      apply packed_push; assumption. }
  rewrite E5. cbn [bind]. clear E5 P4.
  destruct (packed_push i (dual_offset maxv + maxd) cell_separator st5 Hi) as [st6 [E6 P6]].
  { unfold dual_offset, vertex_ids_offset; lia. }
  { exact P5. }
  { pose proof (record_end (Z.of_nat (off + i)) (firstn maxv (nth i verts [])) (nth i nbs []) maxd (Hmax i _ En)) as Q.
    rewrite HF in Q. exact Q. }
  exists st6. split; [exact E6|]. replace (S i * stride)%nat with (i * stride + S (dual_offset maxv + maxd))%nat; [exact P6|].
  unfold dual_offset, vertex_ids_offset. nia.
Qed.

Lemma pack_ok : forall v, length v = (length verts * stride)%nat ->
  exists v', pack maxv maxd off verts ia ja v = Ok v' /\ length v' = (length verts * stride)%nat /\
  forall i k, (i < length verts)%nat -> (k < stride)%nat -> nth_error v' (i * stride + k) = nth_error (expected i) k.
Proof.
  intros v HL. unfold pack.
  destruct (for_inv (fun i st => packed (i * stride) st) (pack_cell maxv maxd off verts ia ja) (length verts) (0%nat, v))
    as [st [E [_ [P1 P2]]]].
  - split; [reflexivity|]. split; [exact HL|]. cbn. intros. lia.
  - intros i s Hi Hs. apply pack_cell_ok; assumption.
  - exists (snd st). rewrite E. cbn [bind]. split; [reflexivity|]. split; [exact P1|].
    intros i k Hi Hk. apply P2; [assumption|assumption|]. apply flat_lt; assumption.
Qed.
End packing.

(** ** Moving records *)
Section moving.
Context (stride : nat) (num : list nat).
Hypothesis Hperm : Permutation num (seq 0 (length num)).

Lemma num_get : forall c, (c < length num)%nat -> exists p, nth_error num c = Some p /\ (p < length num)%nat.
Proof.
  intros c Hc. destruct (nth_error num c) as [p|] eqn:E; [|apply nth_error_None in E; lia].
  exists p. split; [reflexivity|]. apply nth_error_In in E.
  apply (Permutation_in _ Hperm) in E. apply in_seq in E. lia.
Qed.
Lemma num_inj : forall c c' p, nth_error num c = Some p -> nth_error num c' = Some p -> c = c'.
Proof.
  intros c c' p E E'.
  assert (ND : NoDup num) by (apply (Permutation_NoDup (Permutation_sym Hperm)), seq_NoDup).
  apply (proj1 (NoDup_nth_error num) ND); [apply nth_lt in E; exact E|congruence].
Qed.
Lemma num_surj : forall p, (p < length num)%nat -> exists c, nth_error num c = Some p.
Proof.
  intros p Hp. apply In_nth_error. apply (Permutation_in _ (Permutation_sym Hperm)). apply in_seq. lia.
Qed.

Lemma move_records_ok : forall pre post,
  length pre = (length num * stride)%nat -> length post = (length num * stride)%nat ->
  exists post', move_records stride num pre post = Ok post' /\ length post' = (length num * stride)%nat /\
  forall c p k, nth_error num c = Some p -> (k < stride)%nat ->
    nth_error post' (p * stride + k) = nth_error pre (c * stride + k).
Proof.
  intros pre post Hpre Hpost. unfold move_records.
  destruct (nested_inv (fun t post => length post = (length num * stride)%nat /\
      forall c p k, nth_error num c = Some p -> (k < stride)%nat -> (c * stride + k < t)%nat ->
      nth_error post (p * stride + k) = nth_error pre (c * stride + k))
    (fun c j post => do p <- rd num c; do x <- rd pre (c * stride + j); wr post (p * stride + j) x)
    (length num) stride post) as [post' [E [P1 P2]]].
  - split; [exact Hpost|]. intros. lia.
  - intros c j s Hc Hj [HL HP]. destruct (num_get c Hc) as [p [Ep Hp]].
    rewrite (rd_some _ _ _ Ep). cbn [bind].
    destruct (rd_ok pre (c * stride + j)) as [x [Ex Nx]]; [rewrite Hpre; apply flat_lt; assumption|].
    rewrite Ex. cbn [bind].
    assert (HB : (p * stride + j < length s)%nat) by (rewrite HL; apply flat_lt; assumption).
    rewrite wr_ok by exact HB. eexists. split; [reflexivity|]. split; [rewrite length_upd; exact HL|].
    intros c' p' k' Ep' Hk' Hlt.
    destruct (Nat.eq_dec (p * stride + j) (p' * stride + k')) as [E|N].
    + pose proof (flat_inj _ _ _ _ _ Hj Hk' E) as [-> ->]. pose proof (num_inj _ _ _ Ep Ep') as ->.
      rewrite nth_upd_same by exact HB. symmetry. exact Nx.
    + rewrite nth_upd_other by exact N. apply HP; [exact Ep'|exact Hk'|].
      destruct (Nat.eq_dec (c' * stride + k') (c * stride + j)) as [E|N']; [|lia].
      pose proof (flat_inj _ _ _ _ _ Hk' Hj E) as [-> ->]. congruence.
  - exists post'. split; [exact E|]. split; [exact P1|].
    intros c p k Ep Hk. apply P2; [exact Ep|exact Hk|]. apply flat_lt; [apply nth_lt in Ep; exact Ep|exact Hk].
Qed.
End moving.

Lemma nth_firstn : forall {A} (l : list A) n k, (k < n)%nat -> nth_error (firstn n l) k = nth_error l k.
Proof.
  intros A l; induction l as [|x l IH]; intros n k H; [rewrite firstn_nil; reflexivity|].
  destruct n; [lia|]. destruct k; cbn [firstn nth_error]; [reflexivity|]. apply IH. lia.
Qed.
Lemma nth_skipn : forall {A} (l : list A) n k, nth_error (skipn n l) k = nth_error l (n + k).
Proof.
  intros A l; induction l as [|x l IH]; intros [|n] k; cbn [skipn plus]; try reflexivity.
  - destruct k; reflexivity.
  - apply IH.
Qed.
Lemma slice_nth : forall stride off nl v i k, (i < nl)%nat -> (k < stride)%nat ->
  nth_error (slice stride off nl v) (i * stride + k) = nth_error v ((off + i) * stride + k).
Proof.
  intros stride off nl v i k Hi Hk. unfold slice. rewrite nth_firstn by (apply flat_lt; assumption).
  rewrite nth_skipn. f_equal. lia.
Qed.
Lemma slice_length : forall stride off nl v, ((off + nl) * stride <= length v)%nat -> length (slice stride off nl v) = (nl * stride)%nat.
Proof. intros stride off nl v H. unfold slice. rewrite firstn_length, skipn_length. lia. Qed.

(** ** Natural numbers of the owned cells *)
Lemma save_natural_ok : forall stride nl v, (0 < stride)%nat -> length v = (nl * stride)%nat ->
  exists a, save_natural stride nl v = Ok a /\ length a = nl /\
  forall i x, (i < nl)%nat -> nth_error v (i * stride) = Some x -> nth_error a i = Some (- x - 1).
Proof.
  intros stride nl v HS HL. unfold save_natural.
  destruct (for_inv (fun k a => length a = nl /\ forall i x, (i < k)%nat -> nth_error v (i * stride) = Some x ->
     nth_error a i = Some (- x - 1))
    (fun ic a => do x <- rd v (ic * stride); wr a ic (- x - 1)) nl (repeat (-1) nl)) as [a [E [H1 H2]]].
  - split; [apply repeat_length|]. intros. lia.
  - intros i s Hi [H1 H2].
    destruct (rd_ok v (i * stride)) as [x [Ex Nx]]; [rewrite HL; nia|]. rewrite Ex. cbn [bind].
    rewrite wr_ok by lia. eexists. split; [reflexivity|]. split; [rewrite length_upd; exact H1|].
    intros i' x' Hi' Ex'. destruct (Nat.eq_dec i i') as [<-|N].
    + rewrite nth_upd_same by lia. congruence.
    + rewrite nth_upd_other by exact N. apply H2; [lia|exact Ex'].
  - exists a. auto.
Qed.

(** ** The application ordering *)
Lemma index_from_found : forall ao k x p, nth_error ao p = Some x ->
  (forall q y, (q < p)%nat -> nth_error ao q = Some y -> y <> x) -> index_from k ao x = k + Z.of_nat p.
Proof.
  induction ao as [|y ao IH]; intros k x p E H; [destruct p; discriminate E|].
  cbn [index_from]. destruct p as [|p].
  - injection E as ->. rewrite Z.eqb_refl. lia.
  - destruct (Z.eqb_spec y x) as [->|N]; [exfalso; apply (H 0%nat x); [lia|reflexivity|reflexivity]|].
    rewrite (IH (k + 1) x p E); [lia|]. intros q z Hq Ez. apply (H (S q) z); [lia|exact Ez].
Qed.
Lemma app_to_petsc_ok : forall ao p x, NoDup ao -> nth_error ao p = Some x -> app_to_petsc ao x = Z.of_nat p.
Proof.
  intros ao p x ND E. unfold app_to_petsc. rewrite (index_from_found ao 0 x p E); [lia|].
  intros q y Hq Ey ->. assert (q = p); [|lia].
  apply (proj1 (NoDup_nth_error ao) ND); [apply nth_lt in Ey; exact Ey|congruence].
Qed.
