From Coq Require Import Reals Bool List Arith Lia Lra.
From Verif Require Import Prelude Arrays Fields.
Import ListNotations.
Local Open Scope nat_scope.

Lemma concat_nth : forall (cells : list (list R)) bs i j,
  (forall c, In c cells -> length c = bs) -> j < bs -> i < length cells ->
  nth_error (concat cells) (i * bs + j) = nth_error (nth i cells []) j.
Proof.
  induction cells as [|c cells IH]; intros bs i j Hc Hj Hi; [simpl in Hi; lia|].
  pose proof (Hc c (or_introl eq_refl)) as L. simpl concat. destruct i as [|i].
  - simpl. rewrite nth_error_app1 by lia. reflexivity.
  - rewrite nth_error_app2 by (rewrite L; simpl; lia). rewrite L.
    replace (S i * bs + j - bs) with (i * bs + j) by (simpl; lia). simpl.
    apply IH; [intros; apply Hc; right; assumption|exact Hj|simpl in Hi; lia].
Qed.

Lemma concat_length : forall (cells : list (list R)) bs, (forall c, In c cells -> length c = bs) ->
  length (concat cells) = length cells * bs.
Proof.
  induction cells as [|c cells IH]; intros bs H; [reflexivity|]. simpl. rewrite app_length, (H c (or_introl eq_refl)), (IH bs); [lia|].
  intros; apply H; right; assumption.
Qed.

Lemma gather_spec : forall bs stride cells dst, stride < bs -> (forall c, In c cells -> length c = bs) ->
  length dst = length cells ->
  VecStrideGather bs stride (concat cells) dst = Ok (map (fun c => nth stride c 0%R) cells).
Proof.
  intros bs stride cells dst Hs Hc Hl. unfold VecStrideGather.
  replace (bs <=? stride) with false by (symmetry; apply Nat.leb_gt; exact Hs).
  rewrite (concat_length cells bs Hc), Hl, Nat.eqb_refl. cbn [negb].
  destruct (for_inv (fun m d => length d = length cells
     /\ forall k, k < m -> nth_error d k = nth_error (map (fun c => nth stride c 0%R) cells) k)
    (fun i d => do x <- rd (concat cells) (i * bs + stride); wr d i x) (length cells) dst) as [d [E [A B]]].
  - split; [exact Hl|]. intros; lia.
  - intros i d Hi [A B].
    assert (N : nth_error (concat cells) (i * bs + stride) = Some (nth stride (nth i cells []) 0%R)).
    { rewrite concat_nth by assumption. apply nth_error_nth'.
      rewrite (Hc (nth i cells [])); [exact Hs|apply nth_In; exact Hi]. }
    rewrite (rd_some _ _ _ N). simpl. rewrite wr_ok by lia. eexists. split; [reflexivity|].
    split; [rewrite length_upd; exact A|]. intros k Hk. destruct (Nat.eq_dec i k) as [<-|Ne].
    + rewrite nth_upd_same by lia. symmetry. rewrite nth_error_map.
      rewrite (nth_error_nth' cells [] Hi). reflexivity.
    + rewrite nth_upd_other by exact Ne. apply B. lia.
  - rewrite E. f_equal. apply nth_error_ext. intro k. destruct (Nat.lt_ge_cases k (length cells)) as [H|H].
    + apply B. exact H.
    + rewrite (proj2 (nth_error_None d k)) by lia. symmetry. apply nth_error_None. rewrite map_length. exact H.
Qed.

Lemma extract_proof : forall bs stride cells, stride < bs -> (forall c, In c cells -> length c = bs) ->
  ExtractSubVectors bs stride (concat cells) = Ok (map (fun c => nth stride c 0%R) cells).
Proof.
  intros bs stride cells Hs Hc. unfold ExtractSubVectors.
  replace (bs <=? stride) with false by (symmetry; apply Nat.leb_gt; exact Hs).
  replace (bs =? 0) with false by (symmetry; apply Nat.eqb_neq; lia).
  apply gather_spec; [exact Hs|exact Hc|]. rewrite repeat_length, (concat_length cells bs Hc). apply Nat.div_mul. lia.
Qed.

Lemma prognostic_proof : forall bs index cells dst, index < bs -> (forall c, In c cells -> length c = bs) ->
  length dst = length cells ->
  ExtractPrognosticField true bs index (concat cells) dst = Ok (map (fun c => nth index c 0%R) cells).
Proof. intros. apply gather_spec; assumption. Qed.

Lemma refused_proof : forall bs stride A, bs <= stride -> ExtractSubVectors bs stride A = Err.
Proof. intros bs stride A H. unfold ExtractSubVectors. apply Nat.leb_le in H. rewrite H. reflexivity. Qed.

Lemma flat2_lt : forall n i j, i < n -> j < n -> i * n + j < n * n.
Proof. intros. nia. Qed.

Lemma symmetric_proof : forall tol A n, length A = n * n ->
  exists e, CheckSymmetric tol A n = Ok e
   /\ (e = 0 <-> forall i j, i < n -> j < n -> (Rabs (nth (i * n + j) A 0%R - nth (j * n + i) A 0%R) <= tol)%R)
   /\ (e <> 0 -> e = 64).
Proof.
  intros tol A n HA. unfold CheckSymmetric.
  set (good := fun i j => (Rabs (nth (i * n + j) A 0%R - nth (j * n + i) A 0%R) <= tol)%R).
  assert (RD : forall i j, i < n -> j < n -> rd A (i * n + j) = Ok (nth (i * n + j) A 0%R)).
  { intros i j Hi Hj. apply rd_some, nth_error_nth'. rewrite HA. apply flat2_lt; assumption. }
  destruct (for_inv (fun m e => (e = 0 \/ e = 64) /\ (e = 0 <-> forall i j, i < m -> j < n -> good i j))
    (fun i ierr => for_ n (fun j ierr => do a <- rd A (i * n + j); do b <- rd A (j * n + i);
       Ok (if exceeds tol a b then 64%nat else ierr)) ierr) n 0) as [e [E [C D]]].
  - split; [left; reflexivity|]. split; [intros _ i j H; lia|reflexivity].
  - intros i e Hi [C D].
    destruct (for_inv (fun m e' => (e' = 0 \/ e' = 64) /\ (e' = 0 <-> e = 0 /\ forall j, j < m -> good i j))
      (fun j ierr => do a <- rd A (i * n + j); do b <- rd A (j * n + i);
       Ok (if exceeds tol a b then 64%nat else ierr)) n e) as [e' [E' [C' D']]].
    + split; [exact C|]. split; [intro H; split; [exact H|intros j Hj; lia]|tauto].
    + intros j e1 Hj [C1 D1]. rewrite (RD i j Hi Hj), (RD j i Hj Hi). cbn [bind]. eexists. split; [reflexivity|].
      unfold exceeds. destruct (Rlt_dec tol (Rabs (nth (i * n + j) A 0%R - nth (j * n + i) A 0%R))) as [Hlt|Hge].
      * split; [right; reflexivity|]. split; [discriminate|]. intros [_ H]. specialize (H j (Nat.lt_succ_diag_r j)).
        unfold good in H. lra.
      * split; [exact C1|]. split.
        -- intro H. apply D1 in H. destruct H as [H1 H2]. split; [exact H1|]. intros k Hk.
           destruct (Nat.eq_dec k j) as [->|Hn]; [unfold good; lra|apply H2; lia].
        -- intros [H1 H2]. apply D1. split; [exact H1|]. intros k Hk. apply H2. lia.
    + exists e'. split; [exact E'|]. split; [exact C'|]. split.
      * intro H. apply D' in H. destruct H as [H1 H2]. intros i' j Hi' Hj. destruct (Nat.eq_dec i' i) as [->|Hn]; [apply H2; exact Hj|].
        apply D; [exact H1|lia|exact Hj].
      * intro H. apply D'. split; [apply D; intros; apply H; lia|]. intros; apply H; lia.
  - exists e. split; [exact E|]. split; [exact D|]. intro H. destruct C; [contradiction|assumption].
Qed.

Lemma prognostic_refused_proof : forall setup bs index src dst, setup = false \/ bs <= index \/ length dst * bs <> length src ->
  ExtractPrognosticField setup bs index src dst = Err.
Proof.
  intros setup bs index src dst H. unfold ExtractPrognosticField, VecStrideGather. destruct setup; [|reflexivity]. simpl.
  destruct H as [H|[H|H]]; [discriminate| |].
  - rewrite (proj2 (Nat.leb_le _ _) H). reflexivity.
  - destruct (bs <=? index); [reflexivity|]. rewrite (proj2 (Nat.eqb_neq _ _) H). reflexivity.
Qed.
