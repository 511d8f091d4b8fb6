(** Proofs about the basis functions of Hdiv.v. *)
From Coq Require Import Reals List Arith Bool Lia Lra.
From Coquelicot Require Import Coquelicot.
From Verif Require Import Prelude Arrays SpecFvtpf FvtpfSumProofs Mpfao MpfaoProofs Hdiv SpecHdiv.
Import ListNotations.
Local Open Scope R_scope.

(** * The transformation *)
Definition mapped (dim : nat) (DF : list R) (J : R) (u : nat -> R) (i : nat) : R :=
  total (fun j => nth (i * dim + j) DF 0 * u j) dim / J.

Lemma nth_error_nth0 : forall (l : list R) i, (i < length l)%nat -> nth_error l i = Some (nth i l 0).
Proof. intros. apply nth_error_nth'. assumption. Qed.

Lemma Piola_ok : forall dim DF J u, length DF = (dim * dim)%nat -> length u = dim -> J <> 0 ->
  Piola dim DF J u = Ok (map Some (map (mapped dim DF J (fun j => nth j u 0)) (seq 0 dim))).
Proof.
  intros dim DF J u HD Hu HJ. unfold Piola.
  destruct (for_inv (fun i v => v = map (fun i => total (fun j => nth (i * dim + j) DF 0 * nth j u 0) dim) (seq 0 i))
    (fun i v => do a <- for_ dim (fun j a => do m <- rd DF (i * dim + j); do x <- rd u j; Ok (a + m * x)) 0; Ok (v ++ [a])) dim []) as [v [E Hv]].
  - reflexivity.
  - intros i v Hi Ev.
    destruct (for_inv (fun j a => a = total (fun j => nth (i * dim + j) DF 0 * nth j u 0) j)
      (fun j a => do m <- rd DF (i * dim + j); do x <- rd u j; Ok (a + m * x)) dim 0) as [a [Ea Ha]].
    + reflexivity.
    + intros j a Hj Ej. rewrite (rd_some DF (i * dim + j) (nth (i * dim + j) DF 0)) by (apply nth_error_nth0; nia).
      rewrite (rd_some u j (nth j u 0)) by (apply nth_error_nth0; lia). cbn [bind].
      eexists. split; [reflexivity|]. rewrite Ej. reflexivity.
    + rewrite Ea. cbn [bind]. eexists. split; [reflexivity|]. rewrite seq_S, map_app, Ev, Ha. reflexivity.
  - rewrite E. cbn [bind]. rewrite Hv, !map_map. f_equal. apply map_ext. intros i. unfold mapped. apply fdiv_ok. exact HJ.
Qed.

Definition mapped_all (dim n : nat) (DF : list R) (J : R) (B : list R) : list R :=
  flat_map (fun i => map (mapped dim DF J (fun j => nth (dim * i + j) B 0)) (seq 0 dim)) (seq 0 n).

Lemma nth_firstn_skipn : forall (l : list R) a dim j, (j < dim)%nat -> nth j (firstn dim (skipn a l)) 0 = nth (a + j) l 0.
Proof.
  intros l a; revert l; induction a as [|a IH]; intros l dim j Hj; simpl.
  - revert l j Hj. induction dim as [|dim IHd]; intros [|x l] [|j] Hj; simpl; try lia; try reflexivity. apply IHd. lia.
  - destruct l as [|x l]; [rewrite firstn_nil; destruct j; reflexivity|]. apply IH. exact Hj.
Qed.

Lemma transform_ok : forall dim n DF J B, length DF = (dim * dim)%nat -> length B = (n * dim)%nat -> J <> 0 ->
  transform dim n DF J B = Ok (map Some (mapped_all dim n DF J B)).
Proof.
  intros dim n DF J B HD HB HJ. unfold transform.
  destruct (for_inv (fun i out => out = map Some (mapped_all dim i DF J B))
    (fun i out => do u <- Piola dim DF J (firstn dim (skipn (dim * i) B)); Ok (out ++ u)) n []) as [out [E Ho]].
  - reflexivity.
  - intros i out Hi Eo. rewrite Piola_ok; [|exact HD| |exact HJ].
    + cbn [bind]. eexists. split; [reflexivity|]. rewrite Eo. unfold mapped_all.
      rewrite seq_S, flat_map_app, map_app. simpl. rewrite app_nil_r. f_equal. rewrite !map_map. apply map_ext_in.
      intros k Hk. f_equal. unfold mapped. f_equal. apply total_ext. intros j Hj. rewrite nth_firstn_skipn by exact Hj. reflexivity.
    + rewrite firstn_length, skipn_length, HB. nia.
  - etransitivity; [exact E|]. rewrite Ho. reflexivity.
Qed.

Lemma nth_mapped_all : forall dim n DF J B i k, (i < n)%nat -> (k < dim)%nat ->
  nth (i * dim + k) (mapped_all dim n DF J B) 0 = mapped dim DF J (fun j => nth (dim * i + j) B 0) k.
Proof.
  intros dim n DF J B i k Hi Hk. unfold mapped_all.
  pose proof (cm_seq (fun i => map (mapped dim DF J (fun j => nth (dim * i + j) B 0)) (seq 0 dim)) dim n k i) as H.
  unfold cm in H. rewrite H; [|intros; rewrite map_length, seq_length; reflexivity|assumption|assumption].
  apply map_seq_nth. exact Hk.
Qed.
Lemma component_mapped : forall dim DF J B v d k, (v < 2 ^ dim)%nat -> (d < dim)%nat -> (k < dim)%nat ->
  component dim (mapped_all dim (2 ^ dim * dim) DF J B) v d k = mapped dim DF J (component dim B v d) k.
Proof.
  intros dim DF J B v d k Hv Hd Hk. unfold component. rewrite nth_mapped_all by (try assumption; nia).
  unfold mapped. f_equal. apply total_ext. intros j Hj. rewrite (Nat.mul_comm dim (v * dim + d)). reflexivity.
Qed.

(** The flux through a mapped face is that through the face of the reference cell. *)
Lemma flux_mapped : forall dim DF J u e s n, J <> 0 -> (e < dim)%nat -> vector_area dim DF J e s n ->
  total (fun k => mapped dim DF J u k * n k) dim = u e * s.
Proof.
  intros dim DF J u e s n HJ He Hn. unfold mapped.
  rewrite (total_ext _ (fun k => total (fun j => u j / J * (nth (k * dim + j) DF 0 * n k)) dim)).
  - rewrite total_swap.
    rewrite (total_ext _ (fun j => (if (j =? e)%nat then s else 0) * u j)).
    + rewrite total_one by exact He. ring.
    + intros j Hj. rewrite total_scale_l, (Hn j Hj). destruct (j =? e)%nat; field; exact HJ.
  - intros k Hk. unfold Rdiv. rewrite Rmult_assoc, <- total_scale. apply total_ext. intros. ring.
Qed.

(** * The reference functions *)
Definition reference_trace (dim : nat) (ref x : list R) : Prop :=
  forall v d e s, (v < 2 ^ dim)%nat -> (d < dim)%nat -> (e < dim)%nat -> s = 1 \/ s = -1 -> nth e x 0 = s ->
    (d = e /\ side v d = s -> component dim ref v d e * s = corner_function dim v d (fun i => nth i x 0))
    /\ (d <> e \/ side v d <> s -> component dim ref v d e * s = 0).

Ltac cases v n := match n with O => exfalso; simpl in *; lia | S ?n => destruct v as [|v]; [|cases v n] end.
Ltac faces :=
  match goal with |- (?P -> _) /\ (?Q -> _) => idtac end;
  split; intros Hc; unfold side in Hc; cbn [Nat.testbit Nat.odd Nat.even Nat.div2 negb] in Hc;
  [ try (exfalso; destruct Hc as [? Hc]; first [discriminate|lra])
  | try (exfalso; destruct Hc as [Hc|Hc]; first [apply Hc; reflexivity|lra]) ].

Lemma quad_trace : forall x0 x1, reference_trace 2 (quad_reference x0 x1) [x0; x1].
Proof.
  intros x0 x1 v d e s Hv Hd He Hs Hx. cases v 4%nat; cases d 2%nat; cases e 2%nat; simpl in Hx; destruct Hs as [->| ->]; subst; faces;
  unfold component, corner_function, product, quad_reference, side; simpl; field.
Qed.
Lemma hex_trace : forall x0 x1 x2, reference_trace 3 (hex_reference x0 x1 x2) [x0; x1; x2].
Proof.
  intros x0 x1 x2 v d e s Hv Hd He Hs Hx. cases v 8%nat; cases d 3%nat; cases e 3%nat; simpl in Hx; destruct Hs as [->| ->]; subst; faces;
  unfold component, corner_function, product, hex_reference, side; simpl; field.
Qed.

(** Derivatives of the reference functions. *)
Definition reference_divergence (dim : nat) (ref : list R -> list R) (x : list R) : Prop :=
  forall v d, (v < 2 ^ dim)%nat -> (d < dim)%nat -> exists D : nat -> nat -> R,
    (forall k i, (k < dim)%nat -> (i < dim)%nat -> is_derive (fun t => component dim (ref (replaced x i t)) v d k) (nth i x 0) (D k i))
    /\ total (fun k => D k k) dim = 1 / 2 ^ dim.

Definition quad_ref (x : list R) : list R := quad_reference (nth 0 x 0) (nth 1 x 0).
Definition hex_ref (x : list R) : list R := hex_reference (nth 0 x 0) (nth 1 x 0) (nth 2 x 0).

Ltac diff := auto_derive; [exact I|reflexivity].
Lemma quad_divergence : forall x0 x1, reference_divergence 2 quad_ref [x0; x1].
Proof.
  intros x0 x1 v d Hv Hd.
  exists (fun k i => Derive (fun t => component 2 (quad_ref (replaced [x0; x1] i t)) v d k) (nth i [x0; x1] 0)). split.
  - intros k i Hk Hi. apply Derive_correct.
    cases v 4%nat; cases d 2%nat; cases k 2%nat; cases i 2%nat;
    unfold component, quad_ref, quad_reference; simpl; auto_derive; exact I.
  - cases v 4%nat; cases d 2%nat; unfold component, quad_ref, quad_reference, total; simpl;
    (erewrite is_derive_unique; [|diff]); (erewrite is_derive_unique; [|diff]); field.
Qed.
Lemma hex_divergence : forall x0 x1 x2, reference_divergence 3 hex_ref [x0; x1; x2].
Proof.
  intros x0 x1 x2 v d Hv Hd.
  exists (fun k i => Derive (fun t => component 3 (hex_ref (replaced [x0; x1; x2] i t)) v d k) (nth i [x0; x1; x2] 0)). split.
  - intros k i Hk Hi. apply Derive_correct.
    cases v 8%nat; cases d 3%nat; cases k 3%nat; cases i 3%nat;
    unfold component, hex_ref, hex_reference; simpl; auto_derive; exact I.
  - cases v 8%nat; cases d 3%nat; unfold component, hex_ref, hex_reference, total; simpl;
    (erewrite is_derive_unique; [|diff]); (erewrite is_derive_unique; [|diff]); (erewrite is_derive_unique; [|diff]); field.
Qed.

Lemma is_derive_total : forall (f : nat -> R -> R) (D : nat -> R) x n,
  (forall j, (j < n)%nat -> is_derive (f j) x (D j)) -> is_derive (fun t => total (fun j => f j t) n) x (total D n).
Proof.
  intros f D x n; induction n as [|n IH]; intros H; simpl.
  - exact (is_derive_const (0 : R_NormedModule) x).
  - apply (is_derive_plus (fun t => total (fun j => f j t) n) (f n)); [apply IH; intros; apply H; lia|apply H; lia].
Qed.
Lemma total_diag : forall (F : nat -> nat -> R) n, total (fun i => total (fun j => F i j * (if (i =? j)%nat then 1 else 0)) n) n = total (fun k => F k k) n.
Proof.
  intros F n. apply total_ext. intros i Hi.
  rewrite (total_ext _ (fun j => (if (j =? i)%nat then 1 else 0) * F i j)).
  - rewrite total_one by exact Hi. ring.
  - intros j Hj. rewrite Nat.eqb_sym. ring.
Qed.

Lemma divergence_mapped : forall dim ref x DF DFinv J v d, (v < 2 ^ dim)%nat -> (d < dim)%nat -> J <> 0 ->
  inverse_of dim DFinv DF -> reference_divergence dim ref x ->
  divergence dim (fun y => mapped_all dim (2 ^ dim * dim) DF J (ref y)) x DFinv v d (1 / (2 ^ dim * J)).
Proof.
  intros dim ref x DF DFinv J v d Hv Hd HJ Hinv Hr. destruct (Hr v d Hv Hd) as [Dr [H1 H2]].
  exists (fun k i => total (fun j => nth (k * dim + j) DF 0 * Dr j i) dim / J). split.
  - intros k i Hk Hi.
    apply (is_derive_ext (fun t => mapped dim DF J (component dim (ref (replaced x i t)) v d) k)).
    + intros t. symmetry. apply component_mapped; assumption.
    + unfold mapped, Rdiv. apply (is_derive_ext (fun t => / J * total (fun j => nth (k * dim + j) DF 0 * component dim (ref (replaced x i t)) v d j) dim)).
      * intros t. apply Rmult_comm.
      * rewrite Rmult_comm. apply is_derive_scal. apply (is_derive_total (fun j t => nth (k * dim + j) DF 0 * component dim (ref (replaced x i t)) v d j)).
        intros j Hj. apply is_derive_scal. apply H1; assumption.
  - assert (E : total (fun k => total (fun i => total (fun j => nth (k * dim + j) DF 0 * Dr j i) dim / J * nth (i * dim + k) DFinv 0) dim) dim
                = total (fun i => total (fun j => / J * Dr j i * (if (i =? j)%nat then 1 else 0)) dim) dim).
    { rewrite total_swap. apply total_ext. intros i Hi.
      rewrite (total_ext _ (fun k => total (fun j => / J * Dr j i * (nth (i * dim + k) DFinv 0 * nth (k * dim + j) DF 0)) dim)).
      - rewrite total_swap. apply total_ext. intros j Hj. rewrite total_scale_l. f_equal. apply Hinv; assumption.
      - intros k Hk. unfold Rdiv. rewrite Rmult_assoc, <- total_scale. apply total_ext. intros j Hj. ring. }
    rewrite E, total_diag, total_scale_l, H2. field. split; [apply pow_nonzero; lra|exact HJ].
Qed.

Lemma fluxes_mapped : forall dim ref x DF J, J <> 0 -> reference_trace dim ref x ->
  right_fluxes dim x DF J (mapped_all dim (2 ^ dim * dim) DF J ref).
Proof.
  intros dim ref x DF J HJ Ht v d e s n Hv Hd He Hs Hx Hn.
  rewrite (total_ext _ (fun k => mapped dim DF J (component dim ref v d) k * n k)).
  - rewrite (flux_mapped dim DF J _ e s n HJ He Hn). apply Ht; assumption.
  - intros k Hk. rewrite component_mapped by assumption. reflexivity.
Qed.

Lemma two : forall x : list R, length x = 2%nat -> x = [nth 0 x 0; nth 1 x 0].
Proof. intros [|a [|b [|c x]]] H; try discriminate H. reflexivity. Qed.
Lemma three : forall x : list R, length x = 3%nat -> x = [nth 0 x 0; nth 1 x 0; nth 2 x 0].
Proof. intros [|a [|b [|c [|d x]]]] H; try discriminate H. reflexivity. Qed.

Lemma quad_basis : forall DF J, length DF = 4%nat -> J <> 0 -> exists basis : list R -> list R,
  (forall x, length x = 2%nat -> HdivBasisQuad x DF J = Ok (map Some (basis x)) /\ length (basis x) = 16%nat)
  /\ (forall x, length x = 2%nat -> right_fluxes 2 x DF J (basis x))
  /\ (forall x DFinv v d, length x = 2%nat -> inverse_of 2 DFinv DF -> (v < 4)%nat -> (d < 2)%nat ->
        divergence 2 basis x DFinv v d (1 / (4 * J))).
Proof.
  intros DF J HD HJ. exists (fun x => mapped_all 2 8 DF J (quad_ref x)). split; [|split].
  - intros x Hx. rewrite (two x Hx). split; [|reflexivity]. unfold HdivBasisQuad. cbn [rd nth_error bind].
    apply transform_ok; [exact HD|reflexivity|exact HJ].
  - intros x Hx. rewrite (two x Hx). apply (fluxes_mapped 2); [exact HJ|apply quad_trace].
  - intros x DFinv v d Hx Hi Hv Hd. rewrite (two x Hx).
    replace (4 * J) with (2 ^ 2 * J) by (simpl; ring). apply (divergence_mapped 2 quad_ref); try assumption. apply quad_divergence.
Qed.
Lemma hex_basis : forall DF J, length DF = 9%nat -> J <> 0 -> exists basis : list R -> list R,
  (forall x, length x = 3%nat -> HdivBasisHex x DF J = Ok (map Some (basis x)) /\ length (basis x) = 72%nat)
  /\ (forall x, length x = 3%nat -> right_fluxes 3 x DF J (basis x))
  /\ (forall x DFinv v d, length x = 3%nat -> inverse_of 3 DFinv DF -> (v < 8)%nat -> (d < 3)%nat ->
        divergence 3 basis x DFinv v d (1 / (8 * J))).
Proof.
  intros DF J HD HJ. exists (fun x => mapped_all 3 24 DF J (hex_ref x)). split; [|split].
  - intros x Hx. rewrite (three x Hx). split; [|reflexivity]. unfold HdivBasisHex. cbn [rd nth_error bind].
    apply transform_ok; [exact HD|reflexivity|exact HJ].
  - intros x Hx. rewrite (three x Hx). apply (fluxes_mapped 3); [exact HJ|apply hex_trace].
  - intros x DFinv v d Hx Hi Hv Hd. rewrite (three x Hx).
    replace (8 * J) with (2 ^ 3 * J) by (simpl; ring). apply (divergence_mapped 3 hex_ref); try assumption. apply hex_divergence.
Qed.

(** * The quadrature *)
Lemma quadrature_ok : forall dim, dim = 1%nat \/ dim = 2%nat \/ dim = 3%nat ->
  length (quadrature_points dim) = (2 ^ dim * dim)%nat /\ length (quadrature_weights dim) = (2 ^ dim)%nat
  /\ (forall q d, (q < 2 ^ dim)%nat -> (d < dim)%nat -> nth (q * dim + d) (quadrature_points dim) 0 = side q d)
  /\ (forall f : nat -> R, total (fun q => nth q (quadrature_weights dim) 0 * f q) (2 ^ dim) = total f (2 ^ dim)).
Proof.
  intros dim [->|[->| ->]]; (split; [reflexivity|split; [reflexivity|split]]).
  - intros q d Hq Hd. cases q 2%nat; cases d 1%nat; reflexivity.
  - intros f. simpl. ring.
  - intros q d Hq Hd. cases q 4%nat; cases d 2%nat; reflexivity.
  - intros f. simpl. ring.
  - intros q d Hq Hd. cases q 8%nat; cases d 3%nat; reflexivity.
  - intros f. simpl. ring.
Qed.
