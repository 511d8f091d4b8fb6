(** Proofs about tensor-valued properties. *)
From Coq Require Import Reals Bool List Arith Lia Lra.
From Verif Require Import Prelude Arrays Tensor SpecTensor.
Import ListNotations.
Local Open Scope nat_scope.

Lemma flat_inj : forall d i j k i' j' k', j < d -> k < d -> j' < d -> k' < d ->
  i * (d * d) + j * d + k = i' * (d * d) + j' * d + k' -> i = i' /\ j = j' /\ k = k'.
Proof.
  intros d i j k i' j' k' Hj Hk Hj' Hk' H.
  assert (Hd : 0 < d) by lia.
  assert (A : i * d + j = i' * d + j').
  { assert (E : (i * d + j) * d + k = (i' * d + j') * d + k') by lia.
    assert (Q : ((i * d + j) * d + k) / d = ((i' * d + j') * d + k') / d) by (rewrite E; reflexivity).
    rewrite !Nat.div_add_l in Q by lia. rewrite !Nat.div_small in Q by lia. lia. }
  assert (B : i = i').
  { assert (Q : (i * d + j) / d = (i' * d + j') / d) by (rewrite A; reflexivity).
    rewrite !Nat.div_add_l in Q by lia. rewrite !Nat.div_small in Q by lia. lia. }
  subst i'. split; [reflexivity|]. assert (j = j') by lia. subst j'. split; [reflexivity|]. lia.
Qed.

Lemma flat_lt : forall d n i j k, i < n -> j < d -> k < d -> i * (d * d) + j * d + k < n * (d * d).
Proof. intros d n i j k Hi Hj Hk. assert (i * (d*d) + (d * d) <= n * (d * d)) by nia. nia. Qed.

Lemma fill_diagonal_spec : forall dim n rhs v f, length f = n * (dim * dim) ->
  (forall i j, i < n -> j < dim -> rhs i j = Ok (v i j)) ->
  exists f', fill_diagonal dim n rhs f = Ok f' /\ length f' = n * (dim * dim)
    /\ (forall i j k, i < n -> j < dim -> k < dim ->
        entry dim f' i j k = if j =? k then Some (v i j) else entry dim f i j k).
Proof.
  intros dim n rhs v f Hl Hr. unfold fill_diagonal.
  destruct (for_inv (fun m g => length g = n * (dim * dim)
      /\ forall i j k, i < n -> j < dim -> k < dim ->
         entry dim g i j k = if (i <? m) && (j =? k) then Some (v i j) else entry dim f i j k)
    (fun i f => for_ dim (fun j f => do v <- rhs i j; wr f (dim * dim * i + j * dim + j)%nat v) f) n f)
    as [f' [E [H1 H2]]].
  - split; [exact Hl|]. intros i j k _ _ _. reflexivity.
  - intros i g Hi [Gl Ge].
    destruct (for_inv (fun m h => length h = n * (dim * dim)
       /\ forall i' j k, i' < n -> j < dim -> k < dim ->
          entry dim h i' j k = if ((i' <? i) || ((i' =? i) && (j <? m))) && (j =? k) then Some (v i' j) else entry dim f i' j k)
      (fun j f => do v <- rhs i j; wr f (dim * dim * i + j * dim + j)%nat v) dim g) as [h [E [A B]]].
    + split; [exact Gl|]. intros i' j k Hi' Hj Hk. rewrite Ge by assumption.
      replace (j <? 0) with false by reflexivity. rewrite andb_false_r, orb_false_r. reflexivity.
    + intros j h Hj [A B]. rewrite Hr by assumption. simpl.
      assert (L : dim * dim * i + j * dim + j < length h).
      { rewrite A. replace (dim * dim * i) with (i * (dim * dim)) by lia. apply flat_lt; assumption. }
      rewrite wr_ok by exact L. eexists. split; [reflexivity|]. split; [rewrite length_upd; exact A|].
      intros i' j' k Hi' Hj' Hk. unfold entry.
      destruct (Nat.eq_dec (dim * dim * i + j * dim + j) (i' * (dim * dim) + j' * dim + k)) as [Eq|Ne].
      * rewrite <- Eq, nth_upd_same by exact L.
        destruct (flat_inj dim i j j i' j' k) as [-> [-> ->]]; try assumption; [lia|].
        rewrite !Nat.eqb_refl. replace (k <? S k) with true by (symmetry; apply Nat.ltb_lt; lia).
        rewrite orb_true_r. reflexivity.
      * rewrite nth_upd_other by exact Ne. fold (entry dim h i' j' k). rewrite B by assumption.
        destruct (Nat.eqb_spec j' k) as [->|Hjk]; [|rewrite !andb_false_r; reflexivity]. rewrite !andb_true_r.
        destruct (Nat.eqb_spec i' i) as [->|Hii]; [|simpl; reflexivity]. simpl.
        assert (k <> j) by (intro; subst; apply Ne; lia).
        replace (k <? S j) with (k <? j); [reflexivity|].
        destruct (Nat.ltb_spec k j), (Nat.ltb_spec k (S j)); try reflexivity; lia.
    + exists h. split; [exact E|]. split; [exact A|]. intros i' j k Hi' Hj Hk. rewrite B by assumption.
      f_equal. f_equal. replace (j <? dim) with true by (symmetry; apply Nat.ltb_lt; exact Hj). rewrite andb_true_r.
      destruct (Nat.ltb_spec i' i), (Nat.eqb_spec i' i), (Nat.ltb_spec i' (S i)); simpl; try reflexivity; lia.
  - exists f'. split; [exact E|]. split; [exact H1|]. intros i j k Hi Hj Hk. rewrite H2 by assumption.
    replace (i <? n) with true by (symmetry; apply Nat.ltb_lt; exact Hi). reflexivity.
Qed.

Lemma calloc_entry : forall dim n i j k, i < n -> j < dim -> k < dim ->
  entry dim (calloc (n * (dim * dim))) i j k = Some 0%R.
Proof.
  intros dim n i j k Hi Hj Hk. unfold entry, calloc.
  pose proof (flat_lt dim n i j k Hi Hj Hk) as H. revert H. generalize (i * (dim * dim) + j * dim + k).
  generalize (n * (dim * dim)). induction n0 as [|m IH]; intros x H; [lia|]. destruct x; [reflexivity|]. simpl. apply IH. lia.
Qed.

Lemma diagonal_on_zeros : forall dim n rhs v,
  (forall i j, i < n -> j < dim -> rhs i j = Ok (v i j)) ->
  exists f', fill_diagonal dim n rhs (calloc (n * (dim * dim))) = Ok f'
    /\ holds_matrices dim n (fun i => diagonal (v i)) f'.
Proof.
  intros dim n rhs v Hr. destruct (fill_diagonal_spec dim n rhs v (calloc (n * (dim * dim)))) as [f' [E [L H]]].
  - unfold calloc. apply repeat_length.
  - exact Hr.
  - exists f'. split; [exact E|]. split; [exact L|]. intros i j k Hi Hj Hk. rewrite H by assumption.
    unfold diagonal. destruct (j =? k); [reflexivity|]. apply calloc_entry; assumption.
Qed.

Lemma constant_isotropic_proof : forall dim n t junk,
  exists f', ConstantIsotropicTensor dim (isotropic_value t junk) n (calloc (n * (dim * dim))) = Ok f'
    /\ holds_matrices dim n (fun _ => identity_times t) f'.
Proof.
  intros dim n t junk. exact (diagonal_on_zeros dim n _ (fun _ _ => t) (fun _ _ _ _ => eq_refl)).
Qed.

Lemma isotropic_proof : forall dim n values, length values = n ->
  exists f', IsotropicTensor dim values n (calloc (n * (dim * dim))) = Ok f'
    /\ holds_matrices dim n (fun i => identity_times (nth i values 0%R)) f'.
Proof.
  intros dim n values Hl. apply (diagonal_on_zeros dim n _ (fun i _ => nth i values 0%R)).
  intros i j Hi _. apply rd_some. apply nth_error_nth'. lia.
Qed.

Lemma constant_diagonal_proof : forall dim n t0 t1 t2 junk, dim <= 3 ->
  exists f', ConstantDiagonalTensor dim (diagonal_value t0 t1 t2 junk) n (calloc (n * (dim * dim))) = Ok f'
    /\ holds_matrices dim n (fun _ => diagonal (fun j => nth j [t0; t1; t2] 0%R)) f'.
Proof.
  intros dim n t0 t1 t2 junk Hd. apply (diagonal_on_zeros dim n _ (fun _ j => nth j [t0; t1; t2] 0%R)).
  intros i j _ Hj. unfold diagonal_value, rd. destruct j as [|[|[|j]]]; try reflexivity. lia.
Qed.

Lemma diagonal_proof : forall dim n values, dim <= 3 -> length values = 3 * n ->
  exists f', DiagonalTensor dim values n (calloc (n * (dim * dim))) = Ok f'
    /\ holds_matrices dim n (fun i => diagonal (fun j => nth (3 * i + j) values 0%R)) f'.
Proof.
  intros dim n values Hd Hl. apply (diagonal_on_zeros dim n _ (fun i j => nth (3 * i + j) values 0%R)).
  intros i j Hi Hj. apply rd_some. apply nth_error_nth'. lia.
Qed.

Lemma f90_diagonal_proof : forall dim n values, length values = dim * n ->
  exists f', F90DiagonalTensor dim values n (calloc (n * (dim * dim))) = Ok f'
    /\ holds_matrices dim n (fun i => diagonal (fun j => nth (dim * i + j) values 0%R)) f'.
Proof.
  intros dim n values Hl. apply (diagonal_on_zeros dim n _ (fun i j => nth (dim * i + j) values 0%R)).
  intros i j Hi Hj. apply rd_some. apply nth_error_nth'. nia.
Qed.

(** Full tensors. *)
Lemma full_constant_proof : forall dim n value f, dim * dim <= length value -> length f = n * (dim * dim) ->
  exists f', ConstantFullTensor dim value n f = Ok f'
    /\ holds_matrices dim n (fun _ row col => nth (dim * row + col) value 0%R) f'.
Proof.
  intros dim n value f Hv Hl. unfold ConstantFullTensor.
  set (D := dim * dim) in *.
  destruct (for_inv (fun m g => length g = n * D /\ forall i j, i < m -> j < D -> nth_error g (i * D + j) = nth_error value j)
    (fun i f => for_ D (fun j f => do v <- rd value j; wr f (D * i + j)%nat v) f) n f) as [f' [E [L H]]].
  - split; [exact Hl|]. intros; lia.
  - intros i g Hi [Gl Ge].
    destruct (for_inv (fun m h => length h = n * D
       /\ forall i' j, (i' < i /\ j < D) \/ (i' = i /\ j < m) -> nth_error h (i' * D + j) = nth_error value j)
      (fun j f => do v <- rd value j; wr f (D * i + j)%nat v) D g) as [h [E [A B]]].
    + split; [exact Gl|]. intros i' j [[? ?]|[? ?]]; [apply Ge; assumption|lia].
    + intros j h Hj [A B]. destruct (rd_ok value j) as [v [R1 R2]]; [lia|]. rewrite R1. simpl.
      assert (Lt : D * i + j < length h) by (rewrite A; assert (i * D + D <= n * D) by nia; nia).
      rewrite wr_ok by exact Lt. eexists. split; [reflexivity|]. split; [rewrite length_upd; exact A|].
      intros i' j' Hc. destruct (Nat.eq_dec (D * i + j) (i' * D + j')) as [Eq|Ne].
      * rewrite <- Eq, nth_upd_same by exact Lt. rewrite <- R2. f_equal.
        destruct Hc as [[? ?]|[? ?]]; [|subst; lia].
        assert (i' * D + D <= i * D) by nia. lia.
      * rewrite nth_upd_other by exact Ne. apply B. destruct Hc as [?|[-> ?]]; [left; assumption|].
        right. split; [reflexivity|]. assert (j <> j') by (intro; subst; apply Ne; lia). lia.
    + exists h. split; [exact E|]. split; [exact A|]. intros i' j Hi' Hj. apply B.
      destruct (Nat.eq_dec i' i); [right; auto|left; split; [lia|exact Hj]].
  - exists f'. split; [exact E|]. split; [exact L|]. intros i row col Hi Hr Hc. unfold entry. fold D.
    replace (i * D + row * dim + col) with (i * D + (dim * row + col)) by lia.
    rewrite H; [|exact Hi|unfold D; nia]. apply nth_error_nth'. unfold D in Hv. nia.
Qed.

Lemma full_function_proof : forall dim n values f, length values = n * (dim * dim) -> length f = n * (dim * dim) ->
  FullTensor values n f = Ok values
  /\ holds_matrices dim n (fun i row col => nth (i * (dim * dim) + row * dim + col) values 0%R) values.
Proof.
  intros dim n values f Hv Hl. unfold FullTensor. split.
  - rewrite Hv, Hl, Nat.leb_refl, <- Hl, skipn_all, app_nil_r. reflexivity.
  - split; [exact Hv|]. intros i row col Hi Hr Hc. unfold entry. apply nth_error_nth'. rewrite Hv. apply flat_lt; assumption.
Qed.

(** Whatever was in the array off the diagonal stays there. *)
Lemma only_diagonal_proof : forall dim n t junk f i row col f', length f = n * (dim * dim) ->
  ConstantIsotropicTensor dim (isotropic_value t junk) n f = Ok f' ->
  i < n -> row < dim -> col < dim ->
  entry dim f' i row col = if row =? col then Some t else entry dim f i row col.
Proof.
  intros dim n t junk f i row col f' Hl E Hi Hr Hc.
  destruct (fill_diagonal_spec dim n (fun _ _ => rd (isotropic_value t junk) 0) (fun _ _ => t) f Hl (fun _ _ _ _ => eq_refl))
    as [g [E' [_ H]]].
  unfold ConstantIsotropicTensor in E. rewrite E in E'. injection E' as <-. apply H; assumption.
Qed.

(** Diagonals read from a file (three dimensions). *)
Lemma skipn_repeat : forall {A} (x : A) n m, skipn n (repeat x m) = repeat x (m - n).
Proof.
  intros A x n; induction n as [|n IH]; intros m; [rewrite Nat.sub_0_r; reflexivity|].
  destruct m; [reflexivity|]. simpl. apply IH.
Qed.

Lemma file_diagonal_proof : forall n Tx Ty Tz,
  length Tx = n -> length Ty = n -> length Tz = n ->
  exists f', AssignDiagonalTensors 3 Tx Ty Tz 0%R n (calloc (n * (3 * 3))) = Ok f'
    /\ holds_matrices 3 n (fun i => diagonal (fun j => nth i (nth j [Tx; Ty; Tz] []) 0%R)) f'.
Proof.
  intros n Tx Ty Tz Hx Hy Hz. unfold AssignDiagonalTensors.
  assert (M : memset_reals n 0%R (calloc (n * (3 * 3))) = Ok (calloc (n * (3 * 3)))).
  { unfold memset_reals, calloc. rewrite repeat_length, skipn_repeat.
    assert (B1 : n mod 2 < 2) by (apply Nat.mod_upper_bound; lia).
    pose proof (Nat.div_mod n 2 ltac:(lia)) as B2.
    replace (n / 2 + n mod 2 <=? n * (3 * 3)) with true by (symmetry; apply Nat.leb_le; nia).
    f_equal. replace (if Nat.odd n then [0%R] else []) with (repeat 0%R (n mod 2)).
    - rewrite <- !repeat_app. f_equal. lia.
    -
      pose proof (Nat.bit0_mod n) as B. rewrite Nat.bit0_odd in B. rewrite <- B; destruct (Nat.odd n); reflexivity. }
  rewrite M. simpl bind.
  destruct (for_inv (fun m g => length g = n * (3 * 3) /\ forall i row col, i < n -> row < 3 -> col < 3 ->
      entry 3 g i row col = Some (if i <? m then diagonal (fun j => nth i (nth j [Tx; Ty; Tz] []) 0%R) row col else 0%R))
    (fun i f => if 3 =? 2 then do x <- rd Tx i; do f <- wr f (3 * 3 * i) x; do y <- rd Ty i; wr f (3 * 3 * i + 3) y
      else do x <- rd Tx i; do f <- wr f (3 * 3 * i) x; do y <- rd Ty i; do f <- wr f (3 * 3 * i + 4) y;
           do z <- rd Tz i; wr f (3 * 3 * i + 8) z) n (calloc (n * (3 * 3)))) as [f' [E [L H]]].
  - split; [apply repeat_length|]. intros i row col Hi Hr Hc. apply calloc_entry; assumption.
  - intros i g Hi [Gl Ge]. change (3 =? 2) with false. cbv iota.
    rewrite (rd_some Tx i (nth i Tx 0%R)) by (apply nth_error_nth'; lia).
    rewrite (rd_some Ty i (nth i Ty 0%R)) by (apply nth_error_nth'; lia).
    rewrite (rd_some Tz i (nth i Tz 0%R)) by (apply nth_error_nth'; lia).
    cbn [bind]. rewrite wr_ok by lia. cbn [bind]. rewrite wr_ok by (rewrite length_upd; lia). cbn [bind].
    rewrite wr_ok by (rewrite !length_upd; lia).
    eexists. split; [reflexivity|]. split; [rewrite !length_upd; exact Gl|].
    intros i' row col Hi' Hr Hc. unfold entry. rewrite !nth_upd, !length_upd.
    replace (3 * 3 * i <? length g) with true by (symmetry; apply Nat.ltb_lt; lia).
    replace (3 * 3 * i + 4 <? length g) with true by (symmetry; apply Nat.ltb_lt; lia).
    replace (3 * 3 * i + 8 <? length g) with true by (symmetry; apply Nat.ltb_lt; lia).
    rewrite !andb_true_r. fold (entry 3 g i' row col). rewrite Ge by assumption.
    destruct row as [|[|[|row]]]; try lia; destruct col as [|[|[|col]]]; try lia;
    destruct (Nat.ltb_spec i' i), (Nat.ltb_spec i' (S i)); try lia;
    repeat match goal with |- context [Nat.eqb ?a ?b] => destruct (Nat.eqb_spec a b); try lia end;
    try (replace i' with i by lia); reflexivity.
  - exists f'. split; [exact E|]. split; [exact L|]. intros i row col Hi Hr Hc. rewrite H by assumption.
    replace (i <? n) with true by (symmetry; apply Nat.ltb_lt; exact Hi). reflexivity.
Qed.
