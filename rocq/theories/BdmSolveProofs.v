(** The BDM system has exactly one solution. *)
From Coq Require Import Reals List ZArith Bool Arith Lia Lra.
From Verif Require Import Prelude Arrays SpecFvtpf FvtpfSumProofs MpfaoProofs Hdiv SpecHdiv HdivProofs FeMap SpecFeMap FeMapProofs.
From Verif Require Import Bdm SpecBdm SpecBdmMesh BdmProofs BdmLocalProofs BdmInverseProofs BdmGlobalProofs BdmMeshProofs BdmFluxProofs.
Import ListNotations.
Local Open Scope R_scope.

(** ** Square systems *)
Lemma total_skip : forall (f : nat -> R) n j, (j < S n)%nat -> total f (S n) = total (fun k => f (if (k <? j)%nat then k else S k)) n + f j.
Proof.
  intros f n. induction n as [|n IH]; intros j Hj.
  - replace j with 0%nat by lia. simpl. ring.
  - destruct (Nat.eq_dec j (S n)) as [->|D].
    + rewrite (total_ext (fun k => f (if (k <? S n)%nat then k else S k)) f); [reflexivity|]. intros k Hk. destruct (Nat.ltb_spec k (S n)); [reflexivity|lia].
    + change (total f (S (S n))) with (total f (S n) + f (S n)). rewrite (IH j) by lia. simpl. destruct (Nat.ltb_spec n j); [lia|]. ring.
Qed.
Lemma underdetermined : forall n (a : nat -> nat -> R), exists x, (exists j, (j <= n)%nat /\ x j <> 0) /\ forall i, (i < n)%nat -> total (fun j => a i j * x j) (S n) = 0.
Proof.
  induction n as [|n IH]; intro a.
  - exists (fun _ => 1). split; [exists 0%nat; split; [lia|lra]|]. intros i Hi. lia.
  - assert (P : (forall j, (j < S (S n))%nat -> a n j = 0) \/ exists j, (j < S (S n))%nat /\ a n j <> 0).
    { generalize (S (S n)). induction n0 as [|k IHk]; [left; intros; lia|]. destruct IHk as [H|[j [H1 H2]]]; [|right; exists j; split; [lia|exact H2]].
      destruct (Req_EM_T (a n k) 0) as [E|E]; [left|right; exists k; split; [lia|exact E]]. intros j Hj. destruct (Nat.eq_dec j k) as [->|]; [exact E|apply H; lia]. }
    destruct P as [H|[p [Hp Ha]]].
    + destruct (IH a) as [x [[j [Hj Hx]] Z]]. exists (fun k => if (k <? S n)%nat then x k else 0). split.
      * exists j. split; [lia|]. destruct (Nat.ltb_spec j (S n)); [exact Hx|lia].
      * intros i Hi. change (total (fun j0 => a i j0 * (if (j0 <? S n)%nat then x j0 else 0)) (S n) + a i (S n) * (if (S n <? S n)%nat then x (S n) else 0) = 0).
        rewrite Nat.ltb_irrefl. rewrite (total_ext _ (fun j0 => a i j0 * x j0)) by (intros k Hk; destruct (Nat.ltb_spec k (S n)); [reflexivity|lia]).
        destruct (Nat.eq_dec i n) as [->|].
        -- rewrite (total_ext _ (fun _ => 0)) by (intros k Hk; rewrite H by lia; ring). rewrite total_zero. ring.
        -- rewrite Z by lia. ring.
    + set (sk := fun k => if (k <? p)%nat then k else S k).
      destruct (IH (fun i k => a i (sk k) - a i p * a n (sk k) / a n p)) as [x [[j [Hj Hx]] Z]].
      set (y := total (fun k => a n (sk k) * x k) (S n)).
      exists (fun k => if (k =? p)%nat then - y / a n p else x (if (k <? p)%nat then k else (k - 1)%nat)).
      assert (SK : forall k, (sk k =? p)%nat = false /\ (if (sk k <? p)%nat then sk k else (sk k - 1)%nat) = k).
      { intro k. unfold sk. destruct (Nat.ltb_spec k p).
        - split; [apply Nat.eqb_neq; lia|]. destruct (Nat.ltb_spec k p); [reflexivity|lia].
        - split; [apply Nat.eqb_neq; lia|]. destruct (Nat.ltb_spec (S k) p); lia. }
      split.
      * exists (sk j). split; [unfold sk; destruct (j <? p)%nat; lia|]. destruct (SK j) as [-> ->]. exact Hx.
      * intros i Hi. rewrite (total_skip _ (S n) p Hp). fold sk. rewrite Nat.eqb_refl.
        rewrite (total_ext _ (fun k => (a i (sk k) - a i p * a n (sk k) / a n p) * x k + a i p / a n p * (a n (sk k) * x k))).
        2: { intros k Hk. fold (sk k). destruct (SK k) as [-> ->]. field. exact Ha. }
        rewrite total_plus, total_scale_l. fold y. destruct (Nat.eq_dec i n) as [->|].
        -- rewrite (total_ext _ (fun _ => 0)) by (intros k Hk; field; exact Ha). rewrite total_zero. field. exact Ha.
        -- rewrite Z by lia. field. exact Ha.
Qed.
Lemma square_solvable : forall n (a : nat -> nat -> R) f,
  (forall x, (forall i, (i < n)%nat -> total (fun j => a i j * x j) n = 0) -> forall j, (j < n)%nat -> x j = 0) ->
  exists x, forall i, (i < n)%nat -> total (fun j => a i j * x j) n = f i.
Proof.
  intros n a f H. destruct (underdetermined n (fun i j => if (j =? n)%nat then - f i else a i j)) as [x [[j [Hj Hx]] Z]].
  assert (Z' : forall i, (i < n)%nat -> total (fun j => a i j * x j) n = f i * x n).
  { intros i Hi. specialize (Z i Hi). simpl in Z. rewrite Nat.eqb_refl in Z. rewrite (total_ext _ (fun j => a i j * x j)) in Z; [lra|].
    intros k Hk. destruct (Nat.eqb_spec k n); [lia|reflexivity]. }
  destruct (Req_EM_T (x n) 0) as [E|E].
  - exfalso. apply Hx. destruct (Nat.eq_dec j n) as [->|]; [exact E|]. apply H; [|lia]. intros i Hi. rewrite (Z' i Hi), E. ring.
  - exists (fun k => x k / x n). intros i Hi. rewrite (total_ext _ (fun j => / x n * (a i j * x j))) by (intros; field; exact E).
    rewrite total_scale_l, (Z' i Hi). field. exact E.
Qed.

Lemma times_ext : forall dim K u v i, (forall k, (k < dim)%nat -> u k = v k) -> times dim K u i = times dim K v i.
Proof. intros dim K u v i H. unfold times. apply total_ext. intros k Hk. rewrite (H k Hk). reflexivity. Qed.
Lemma times_zero : forall dim K i, times dim K (fun _ => 0) i = 0.
Proof. intros. unfold times. rewrite (total_ext _ (fun _ => 0)); [apply total_zero|]. intros; ring. Qed.

Section solve.
Variables (b : problem) (corner : nat -> nat -> nat) (wall : nat -> nat -> bool -> nat).
Let m := b_mesh b.
Let dim := p_dim m.
Let nv := (2 ^ dim)%nat.
Let N := (dim * nv)%nat.
Hypothesis SU : set_up b corner wall.
Let SZ : sized b := proj1 (setup_proof b corner wall SU).
Let HD : (dim = 2 \/ dim = 3)%nat := proj1 SZ.

(** ** The field is zero only if the coefficients are *)
Definition reference_field (w : nat -> R) (xi : list R) (j : nat) : R := total (fun r => w r * nth (r * dim + j) (reference dim xi) 0) N.
Lemma field_shapes : forall c U xi k, (k < dim)%nat ->
  field b c (shapes b c) U xi k = mapped dim (jacobian b c xi) (det b c xi) (reference_field (fun r => sign_of b c r * U r) xi) k.
Proof.
  intros c U xi k Hk. unfold field. fold m dim nv N. unfold mapped, reference_field, shapes. fold m dim. fold nv. fold N.
  rewrite (total_ext _ (fun r => total (fun j => sign_of b c r * U r * (nth (k * dim + j) (jacobian b c xi) 0 * nth (r * dim + j) (reference dim xi) 0) / det b c xi) dim)).
  - rewrite total_swap. unfold Rdiv. rewrite <- total_scale. apply total_ext. intros j Hj. rewrite <- total_scale_l, <- total_scale. apply total_ext. intros r Hr. ring.
  - intros r Hr. rewrite nth_mapped_all by assumption. unfold mapped. unfold Rdiv at 1. rewrite <- total_scale, <- total_scale_l. apply total_ext. intros j Hj.
    rewrite (Nat.mul_comm dim r). unfold Rdiv. ring.
Qed.
Lemma mapped_zero : forall DF DFinv J u, J <> 0 -> inverse_of dim DFinv DF -> (forall k, (k < dim)%nat -> mapped dim DF J u k = 0) -> forall j, (j < dim)%nat -> u j = 0.
Proof.
  intros DF DFinv J u HJ HI H j Hj.
  assert (E : total (fun k => nth (j * dim + k) DFinv 0 * total (fun l => nth (k * dim + l) DF 0 * u l) dim) dim = u j).
  { rewrite (total_ext _ (fun k => total (fun l => u l * (nth (j * dim + k) DFinv 0 * nth (k * dim + l) DF 0)) dim)).
    2: { intros k Hk. rewrite <- total_scale_l. apply total_ext. intros; ring. }
    rewrite total_swap. rewrite (total_ext _ (fun l => if (j =? l)%nat then u l else 0)).
    - apply (total_pick u). exact Hj.
    - intros l Hl. rewrite total_scale_l, (HI j l Hj Hl). destruct (j =? l)%nat; ring. }
  rewrite <- E. rewrite (total_ext _ (fun _ => 0)); [apply total_zero|]. intros k Hk. specialize (H k Hk). unfold mapped in H.
  assert (X : total (fun l => nth (k * dim + l) DF 0 * u l) dim = 0).
  { unfold Rdiv in H. apply Rmult_integral in H. destruct H as [H|H]; [exact H|]. exfalso. apply (Rinv_neq_0_compat J HJ). exact H. }
  rewrite X. ring.
Qed.
Lemma sign_unit : forall c r, (c < p_cells m)%nat -> (r < N)%nat -> sign_of b c r = 1 \/ sign_of b c r = -1.
Proof.
  intros c r Hc Hr. destruct (split_index b corner wall SU r Hr) as [v [d [Hv [Hd ->]]]].
  destruct (proj2 (unknowns b corner wall SU) c Hc) as [_ H]. destruct (H v d Hv Hd) as [_ [X _]]. fold m dim in X. fold m dim. rewrite X. unfold toward. destruct (Rle_dec _ _); tauto.
Qed.
Lemma field_injective : forall c U, (c < p_cells m)%nat -> proper b c ->
  (forall q k, In q (quadrature (b_lumped b) dim) -> (k < dim)%nat -> field b c (shapes b c) U (fst q) k = 0) -> forall r, (r < N)%nat -> U r = 0.
Proof.
  intros c U Hc HP H r Hr.
  assert (Z : sign_of b c r * U r = 0).
  { apply (unisolvent (b_lumped b) dim (fun r => sign_of b c r * U r) HD); [|exact Hr]. intros q j Hq Hj.
    destruct (quadrature_inside _ _ _ HD Hq) as [Hin _]. destruct (HP (fst q) Hin) as [_ [HJ [DFinv HI]]].
    apply (mapped_zero (jacobian b c (fst q)) DFinv (det b c (fst q)) (reference_field (fun r => sign_of b c r * U r) (fst q)) ltac:(lra) HI); [|exact Hj].
    intros k Hk. rewrite <- field_shapes by exact Hk. apply H; assumption. }
  destruct (sign_unit c r Hc Hr) as [S1|S1]; rewrite S1 in Z; lra.
Qed.

(** ** The flow through a face at each of its points *)
Lemma normal_flux_proof : forall c phi U d (s : bool) xi n, (c < p_cells m)%nat -> cell_regular b c -> basis_functions b c phi -> (d < dim)%nat -> inside dim xi ->
  nth d xi 0 = (if s then 1 else -1) -> vector_area dim (jacobian b c xi) (det b c xi) d (if s then 1 else -1) n ->
  SpecBdm.dot dim (field b c phi U xi) n
  = sum_over (on_wall b d s) (fun v => sign_of b c (v * dim + d) * U (v * dim + d)%nat * corner_function dim v d (fun e => nth e xi 0)).
Proof.
  intros c phi U d s xi n Hc HR HB Hd Hin Hx Hn. destruct (HR xi Hin) as [_ HJ].
  assert (E : SpecBdm.dot dim (field b c phi U xi) n = SpecBdm.dot dim (field b c (shapes b c) U xi) n).
  { unfold SpecBdm.dot, field. rewrite (basis_unique b c phi (shapes b c) HB (basis_exists b c SZ HR) xi Hin). reflexivity. }
  rewrite E. unfold SpecBdm.dot.
  rewrite (total_ext _ (fun k => mapped dim (jacobian b c xi) (det b c xi) (reference_field (fun r => sign_of b c r * U r) xi) k * n k)) by (intros k Hk; rewrite field_shapes by exact Hk; reflexivity).
  rewrite (flux_mapped dim _ _ _ d _ n HJ Hd Hn). unfold reference_field. unfold N. rewrite Nat.mul_comm, total_block, <- total_scale.
  pose proof (trace dim xi HD (proj1 Hin)) as T.
  assert (SB : (if s then 1 else -1) = 1 \/ (if s then 1 else -1) = -1) by (destruct s; tauto).
  unfold on_wall. fold m dim nv. rewrite sum_filter, sum_seq. apply total_ext. intros v Hv.
  rewrite <- total_scale. rewrite (total_ext _ (fun d' => if (d =? d')%nat then (if Bool.eqb (Nat.testbit v d') s then sign_of b c (v * dim + d') * U (v * dim + d')%nat * corner_function dim v d' (fun e => nth e xi 0) else 0) else 0)).
  - rewrite (total_pick (fun d' => if Bool.eqb (Nat.testbit v d') s then sign_of b c (v * dim + d') * U (v * dim + d')%nat * corner_function dim v d' (fun e => nth e xi 0) else 0)) by exact Hd. reflexivity.
  - intros d' Hd'. destruct (T v d' d _ Hv Hd' Hd SB Hx) as [T1 T2]. unfold component in T1, T2. rewrite Rmult_assoc.
    destruct (Nat.eqb_spec d d') as [<-|D].
    + destruct (Bool.eqb (Nat.testbit v d) s) eqn:Eb.
      * apply eqb_prop in Eb. rewrite T1; [reflexivity|]. split; [reflexivity|]. unfold side. rewrite Eb. reflexivity.
      * rewrite T2; [ring|]. right. unfold side. destruct (Nat.testbit v d), s; try discriminate Eb; lra.
    + rewrite T2 by (left; lia). ring.
Qed.

(** ** Uniqueness *)
Variables (K : list (list R)) (Kinv : nat -> list R) (place : nat -> nat -> nat * bool).
Hypothesis WP : well_posed b K Kinv place.
Hypothesis POS : forall c, (c < p_cells m)%nat -> positive dim (nth c K []).
Hypothesis PR : forall c, (c < p_cells m)%nat -> proper b c.
Hypothesis TS : two_sided b wall.
Hypothesis RE : forall c, (c < p_cells m)%nat -> reaches b wall c.

Lemma Kinv_positive : forall c, (c < p_cells m)%nat -> positive dim (Kinv c).
Proof.
  intros c Hc u Hu. destruct (wp_tensor _ _ _ _ WP c Hc) as [L _]. destruct (wp_inverse _ _ _ _ WP c Hc) as [L' I].
  pose proof (inverse_positive dim _ HD L (b_lu b) (POS c Hc) u Hu) as P.
  assert (E : SpecBdm.dot dim u (times dim (Inverse dim (b_lu b) (nth c K [])) u) = SpecBdm.dot dim u (times dim (Kinv c) u)).
  { unfold SpecBdm.dot, times. apply total_ext. intros i Hi. f_equal. apply total_ext. intros j Hj.
    rewrite (inverse_unique dim _ HD L (b_lu b) (Kinv c) L' I i j Hi Hj). reflexivity. }
  rewrite E in P. exact P.
Qed.
Lemma energy_nonneg : forall c (u : nat -> R), (c < p_cells m)%nat -> 0 <= SpecBdm.dot dim u (times dim (Kinv c) u).
Proof.
  intros c u Hc. destruct (forallb (fun k => if Req_EM_T (u k) 0 then true else false) (seq 0 dim)) eqn:F.
  - rewrite dot_zero; [lra|]. intros k Hk. rewrite forallb_forall in F. specialize (F k ltac:(apply in_seq; lia)). destruct (Req_EM_T (u k) 0); [assumption|discriminate F].
  - left. apply Kinv_positive; [exact Hc|].
    assert (G : forall l, forallb (fun k => if Req_EM_T (u k) 0 then true else false) l = false -> exists k, In k l /\ u k <> 0).
    { induction l as [|k l IH]; simpl; intro H; [discriminate H|]. destruct (Req_EM_T (u k) 0); [destruct (IH H) as [k' [I1 I2]]; exists k'; tauto|exists k; tauto]. }
    destruct (G _ F) as [k [Ik Uk]]. exists k. apply in_seq in Ik. split; [lia|exact Uk].
Qed.
Lemma energy_zero : forall c (u : nat -> R), (c < p_cells m)%nat -> SpecBdm.dot dim u (times dim (Kinv c) u) = 0 -> forall k, (k < dim)%nat -> u k = 0.
Proof.
  intros c u Hc H k Hk. destruct (Req_EM_T (u k) 0) as [|N0]; [assumption|]. exfalso. pose proof (Kinv_positive c Hc u (ex_intro _ k (conj Hk N0))). lra.
Qed.

Let phi (c : nat) : list R -> list R := shapes b c.
(** What a solution without data satisfies. *)
Definition homogeneous (D : nat -> R) : Prop :=
  forall V, total (fun c => bilinear b c (phi c) (Kinv c) (at_cell b D c) (pressure_at b D c) (at_cell b V c) (pressure_at b V c)) (p_cells m) = 0.
Lemma total_nonneg_zero : forall (f : nat -> R) n, (forall i, (i < n)%nat -> 0 <= f i) -> total f n = 0 -> forall i, (i < n)%nat -> f i = 0.
Proof. intros f n H E i Hi. rewrite <- sum_seq in E. apply (sum_zero (seq 0 n) f); [intros x Hx; apply H; apply in_seq in Hx; lia|exact E|apply in_seq; lia]. Qed.

Lemma velocity_zero : forall D, homogeneous D -> forall c r, (c < p_cells m)%nat -> (r < N)%nat -> at_cell b D c r = 0.
Proof.
  intros D H.
  set (isp := fun j : nat => existsb (fun c => (Z.to_nat (number_of b c N) =? j)%nat) (seq 0 (p_cells m))).
  specialize (H (fun j => if isp j then - D j else D j)).
  assert (V1 : forall c r, (c < p_cells m)%nat -> (r < N)%nat -> at_cell b (fun j => if isp j then - D j else D j) c r = at_cell b D c r).
  { intros c r Hc Hr. unfold at_cell. destruct (isp (Z.to_nat (number_of b c r))) eqn:X; [|reflexivity]. exfalso. unfold isp in X. apply existsb_exists in X.
    destruct X as [c' [Hc' E]]. apply in_seq in Hc'. apply Nat.eqb_eq in E.
    apply Z2Nat.inj in E; [|apply (number_nonneg b corner wall SU); fold m dim nv N; lia|apply (number_nonneg b corner wall SU); fold m dim nv N; lia].
    destruct (pressure_number b corner wall SU c' c r ltac:(fold m; lia) Hc ltac:(fold m dim nv N; lia) E) as [_ Q]. fold m dim nv N in Q. lia. }
  assert (V2 : forall c, (c < p_cells m)%nat -> pressure_at b (fun j => if isp j then - D j else D j) c = - pressure_at b D c).
  { intros c Hc. unfold pressure_at, at_cell. fold m dim nv N. assert (X : isp (Z.to_nat (number_of b c N)) = true).
    { unfold isp. apply existsb_exists. exists c. split; [apply in_seq; lia|apply Nat.eqb_refl]. }
    rewrite X. reflexivity. }
  assert (T : forall c, (c < p_cells m)%nat -> bilinear b c (phi c) (Kinv c) (at_cell b D c) (pressure_at b D c) (at_cell b (fun j => if isp j then - D j else D j) c) (pressure_at b (fun j => if isp j then - D j else D j) c)
    = integral b c (fun xi => SpecBdm.dot dim (field b c (phi c) (at_cell b D c) xi) (times dim (Kinv c) (field b c (phi c) (at_cell b D c) xi)))).
  { intros c Hc. unfold bilinear. rewrite V2 by exact Hc. rewrite (outflow_ext b c _ (at_cell b D c) (fun r Hr => V1 c r Hc Hr)).
    assert (X : integral b c (fun xi => SpecBdm.dot (p_dim (b_mesh b)) (field b c (phi c) (at_cell b (fun j => if isp j then - D j else D j) c) xi) (times (p_dim (b_mesh b)) (Kinv c) (field b c (phi c) (at_cell b D c) xi)))
      = integral b c (fun xi => SpecBdm.dot dim (field b c (phi c) (at_cell b D c) xi) (times dim (Kinv c) (field b c (phi c) (at_cell b D c) xi)))).
    { unfold integral. apply sum_ext. intros q _. f_equal. f_equal. unfold SpecBdm.dot. fold m dim. apply total_ext. intros k Hk.
      rewrite (field_ext b c (phi c) _ (at_cell b D c) (fst q) k (fun r Hr => V1 c r Hc Hr)). reflexivity. }
    rewrite X. ring. }
  rewrite (total_ext _ _ _ T) in H.
  assert (NN : forall c q, (c < p_cells m)%nat -> In q (quadrature (b_lumped b) dim) ->
    0 <= SpecBdm.dot dim (field b c (phi c) (at_cell b D c) (fst q)) (times dim (Kinv c) (field b c (phi c) (at_cell b D c) (fst q))) * snd q * det b c (fst q)).
  { intros c q Hc Hq. destruct (quadrature_inside _ _ _ HD Hq) as [Hin Hw]. destruct (PR c Hc (fst q) Hin) as [_ [HJ _]].
    pose proof (energy_nonneg c (field b c (phi c) (at_cell b D c) (fst q)) Hc). apply Rmult_le_pos; [apply Rmult_le_pos|]; lra. }
  assert (Z : forall c, (c < p_cells m)%nat -> integral b c (fun xi => SpecBdm.dot dim (field b c (phi c) (at_cell b D c) xi) (times dim (Kinv c) (field b c (phi c) (at_cell b D c) xi))) = 0).
  { apply total_nonneg_zero; [|exact H]. intros c Hc. unfold integral. fold m dim. apply sum_nonneg. intros q Hq. apply NN; assumption. }
  intros c r Hc Hr. apply (field_injective c (at_cell b D c) Hc (PR c Hc)); [|exact Hr]. intros q k Hq Hk.
  specialize (Z c Hc). unfold integral in Z. fold m dim in Z. pose proof (sum_zero _ _ (fun q Hq => NN c q Hc Hq) Z q Hq) as Zq.
  destruct (quadrature_inside _ _ _ HD Hq) as [Hin Hw]. destruct (PR c Hc (fst q) Hin) as [_ [HJ _]].
  apply (energy_zero c (field b c (phi c) (at_cell b D c) (fst q)) Hc); [|exact Hk].
  apply Rmult_integral in Zq. destruct Zq as [Zq|Zq]; [|lra]. apply Rmult_integral in Zq. destruct Zq as [Zq|Zq]; [exact Zq|lra].
Qed.

(** The test function that is one on all unknowns of a face. *)
Section face.
Variables (c0 d0 : nat) (s0 : bool).
Hypothesis Hc0 : (c0 < p_cells m)%nat.
Hypothesis Hd0 : (d0 < dim)%nat.
Let f := wall c0 d0 s0.
Definition ones (j : nat) : R :=
  if (first_unknown (b_start b f) <=? Z.of_nat j)%Z && (Z.of_nat j <? first_unknown (b_start b f) + size_of m f)%Z then 1 else 0.
Lemma face_of_wall : forall c d s, (c < p_cells m)%nat -> (d < dim)%nat -> is_face m (wall c d s) = true /\ NoDup (vertices_of m (wall c d s)) /\ length (vertices_of m (wall c d s)) = (2 ^ (dim - 1))%nat.
Proof.
  intros c d s Hc Hd. destruct (bx_wall _ _ _ (su_boxes _ _ _ SU) c d s Hc Hd) as [_ W2]. fold m in W2. split; [exact W2|]. apply (su_faces _ _ _ SU).
  unfold is_face in W2. apply andb_prop in W2. destruct W2 as [X Y]. apply Nat.leb_le in X. apply Nat.ltb_lt in Y. fold m. lia.
Qed.
Lemma ones_wall : forall c d s, (c < p_cells m)%nat -> (d < dim)%nat ->
  wall_flux b c d s (at_cell b ones c) = if (wall c d s =? f)%nat then toward b c f * INR (2 ^ (dim - 1)) else 0.
Proof.
  intros c d s Hc Hd. rewrite (wall_flux_face b corner wall SU c d s ones Hc Hd). fold m.
  destruct (face_of_wall c d s Hc Hd) as [F1 [ND LN]]. destruct (face_of_wall c0 d0 s0 Hc0 Hd0) as [F0 [_ LN0]]. fold f in F0, LN0.
  assert (IX : forall p, In p (vertices_of m (wall c d s)) -> (index_of p (vertices_of m (wall c d s)) < 2 ^ (dim - 1))%nat).
  { intros p Hp. apply In_nth_error in Hp. destruct Hp as [i Hi]. rewrite (index_nth _ _ _ ND Hi), <- LN. apply nth_error_Some. rewrite Hi. discriminate. }
  assert (FU : (0 <= first_unknown (b_start b (wall c d s)))%Z) by (unfold first_unknown; lia).
  destruct (Nat.eqb_spec (wall c d s) f) as [E|E].
  - rewrite (sum_ext _ _ (fun _ => 1)).
    + rewrite E. f_equal. rewrite E in LN. rewrite <- LN. generalize (vertices_of m f). intro l. induction l as [|x l IH]; [reflexivity|].
      change (1 + sum_over l (fun _ => 1) = INR (S (length l))). rewrite IH, S_INR. ring.
    + intros p Hp. specialize (IX p Hp). unfold ones. rewrite Z2Nat.id by lia. rewrite <- E. unfold size_of. rewrite F1. fold dim.
      destruct (Z.leb_spec (first_unknown (b_start b (wall c d s))) (first_unknown (b_start b (wall c d s)) + Z.of_nat (index_of p (vertices_of m (wall c d s))))); [|lia].
      match goal with |- context [(?x <? ?y)%Z] => destruct (Z.ltb_spec x y) end; [reflexivity|lia].
  - rewrite (sum_ext _ _ (fun _ => 0)); [rewrite sum_none; ring|]. intros p Hp. specialize (IX p Hp). unfold ones. rewrite Z2Nat.id by lia.
    destruct (su_ranges _ _ _ SU) as [_ R1]. fold m in R1. destruct (R1 (wall c d s) f (or_intror F1) (or_intror F0) E) as [Y|Y]; unfold size_of in Y |- *; rewrite ?F1, ?F0 in *; fold dim in Y |- *;
      match goal with |- context [(?x <=? ?y)%Z] => destruct (Z.leb_spec x y) end;
      match goal with |- context [(?x <? ?y)%Z] => destruct (Z.ltb_spec x y) end; try reflexivity; lia.
Qed.
Lemma ones_pressure : forall c, (c < p_cells m)%nat -> pressure_at b ones c = 0.
Proof.
  intros c Hc. unfold pressure_at, at_cell. fold m dim nv N. destruct (proj2 (unknowns b corner wall SU) c Hc) as [X0 _]. fold m dim nv N in X0. rewrite X0. clear X0.
  destruct (face_of_wall c0 d0 s0 Hc0 Hd0) as [F0 _]. fold f in F0. destruct (su_ranges _ _ _ SU) as [R0 R1]. fold m in R0, R1. specialize (R0 c Hc).
  assert (E : c <> f) by (intro X; rewrite X in R0; rewrite R0 in F0; discriminate F0).
  unfold ones. rewrite Z2Nat.id by (unfold first_unknown; lia).
  destruct (R1 c f (or_introl Hc) (or_intror F0) E) as [Y|Y]; unfold size_of in Y |- *; rewrite ?R0, ?F0 in *;
      match goal with |- context [(?x <=? ?y)%Z] => destruct (Z.leb_spec x y) end;
      match goal with |- context [(?x <? ?y)%Z] => destruct (Z.ltb_spec x y) end; try reflexivity; lia.
Qed.
Lemma ones_outflow : forall c d s, (c < p_cells m)%nat -> (d < dim)%nat -> wall c d s = f -> outflow b c (at_cell b ones c) = toward b c f * INR (2 ^ (dim - 1)).
Proof.
  intros c d s Hc Hd E. rewrite (walls_proof b). fold m dim.
  rewrite (total_ext _ (fun d' => if (d =? d')%nat then toward b c f * INR (2 ^ (dim - 1)) else 0)).
  - apply (total_pick (fun _ => toward b c f * INR (2 ^ (dim - 1)))). exact Hd.
  - intros d' Hd'. rewrite !ones_wall by assumption.
    assert (A : forall s', (wall c d' s' =? f)%nat = (d =? d')%nat && Bool.eqb s s').
    { intro s'. destruct (Nat.eqb_spec (wall c d' s') f) as [X|X].
      - rewrite <- E in X. destruct (wall_inj b corner wall SU c d' s' d s Hc Hd' Hd X) as [-> ->]. rewrite Nat.eqb_refl, eqb_reflx. reflexivity.
      - destruct (Nat.eqb_spec d d') as [<-|]; [|reflexivity]. destruct (Bool.eqb s s') eqn:Q; [|reflexivity]. apply eqb_prop in Q. subst s'. contradiction. }
    rewrite !A. destruct (d =? d')%nat, s; simpl; ring.
Qed.
Lemma ones_elsewhere : forall c, (c < p_cells m)%nat -> (forall d s, (d < dim)%nat -> wall c d s <> f) -> outflow b c (at_cell b ones c) = 0.
Proof.
  intros c Hc H. rewrite (walls_proof b). fold m dim. rewrite (total_ext _ (fun _ => 0)); [apply total_zero|]. intros d Hd.
  rewrite !ones_wall by assumption. destruct (Nat.eqb_spec (wall c d false) f) as [E|_]; [exfalso; apply (H d false Hd E)|].
  destruct (Nat.eqb_spec (wall c d true) f) as [E|_]; [exfalso; apply (H d true Hd E)|]. ring.
Qed.
End face.

Lemma toward_unit : forall c f, toward b c f = 1 \/ toward b c f = -1.
Proof. intros. unfold toward. destruct (Rle_dec _ _); tauto. Qed.
Lemma pressure_zero : forall D, homogeneous D -> forall c, reaches b wall c -> pressure_at b D c = 0.
Proof.
  intros D H. pose proof (velocity_zero D H) as VZ.
  assert (B0 : forall V, (forall c, (c < p_cells m)%nat -> pressure_at b V c = 0) -> total (fun c => pressure_at b D c * outflow b c (at_cell b V c)) (p_cells m) = 0).
  { intros V HV. specialize (H V). rewrite (total_ext _ (fun c => (-1) * (pressure_at b D c * outflow b c (at_cell b V c)))) in H.
    - rewrite total_scale_l in H. lra.
    - intros c Hc. unfold bilinear. rewrite (HV c Hc).
      assert (X : integral b c (fun xi => SpecBdm.dot (p_dim (b_mesh b)) (field b c (phi c) (at_cell b V c) xi) (times (p_dim (b_mesh b)) (Kinv c) (field b c (phi c) (at_cell b D c) xi))) = 0).
      { unfold integral. rewrite (sum_ext _ _ (fun _ => 0)); [apply sum_none|]. intros q _. fold m dim. unfold SpecBdm.dot.
        rewrite (total_ext _ (fun _ => 0)); [rewrite total_zero; ring|]. intros k Hk.
        rewrite (times_ext dim (Kinv c) _ (fun _ => 0) k), times_zero; [ring|]. intros j Hj. apply field_null. intros r Hr. apply VZ; [exact Hc|exact Hr]. }
      rewrite X. ring. }
  assert (NF : INR (2 ^ (dim - 1)) <> 0) by (apply not_0_INR; apply Nat.pow_nonzero; lia).
  intros c HR. induction HR as [c d s Hc Hd Alone|c d s c' d' s' SH Only HR IH].
  - fold m in Hc. fold m dim in Hd. specialize (B0 (ones c d s) (fun k Hk => ones_pressure c d s Hc Hd k Hk)).
    rewrite (total_ext _ (fun k => if (c =? k)%nat then pressure_at b D k * (toward b k (wall c d s) * INR (2 ^ (dim - 1))) else 0)) in B0.
    + rewrite (total_pick (fun k => pressure_at b D k * (toward b k (wall c d s) * INR (2 ^ (dim - 1))))) in B0 by exact Hc.
      apply Rmult_integral in B0. destruct B0 as [B0|B0]; [exact B0|]. apply Rmult_integral in B0. destruct B0 as [B0|B0]; [|contradiction].
      destruct (toward_unit c (wall c d s)); lra.
    + intros k Hk. destruct (Nat.eqb_spec c k) as [<-|Dk].
      * rewrite (ones_outflow c d s Hc Hd c d s Hc Hd eq_refl). reflexivity.
      * rewrite (ones_elsewhere c d s Hc Hd k Hk); [ring|]. intros d2 s2 Hd2 E. apply (Alone k d2 s2). repeat split; try assumption. symmetry. exact E.
  - pose proof SH as [Hc [Hd [Hc' [Hd' [Hne E]]]]]. fold m dim in Hc, Hd, Hc', Hd'.
    specialize (B0 (ones c d s) (fun k Hk => ones_pressure c d s Hc Hd k Hk)).
    rewrite (total_ext _ (fun k => (if (c =? k)%nat then pressure_at b D k * (toward b k (wall c d s) * INR (2 ^ (dim - 1))) else 0)
       + (if (c' =? k)%nat then pressure_at b D k * (toward b k (wall c d s) * INR (2 ^ (dim - 1))) else 0))) in B0.
    + rewrite total_plus in B0.
      rewrite (total_pick (fun k => pressure_at b D k * (toward b k (wall c d s) * INR (2 ^ (dim - 1)))) (p_cells m) c) in B0 by exact Hc.
      rewrite (total_pick (fun k => pressure_at b D k * (toward b k (wall c d s) * INR (2 ^ (dim - 1)))) (p_cells m) c') in B0 by exact Hc'.
      rewrite IH in B0. rewrite Rmult_0_l, Rplus_0_r in B0. apply Rmult_integral in B0. destruct B0 as [B0|B0]; [exact B0|].
      apply Rmult_integral in B0. destruct B0 as [B0|B0]; [|contradiction]. destruct (toward_unit c (wall c d s)); lra.
    + intros k Hk. destruct (Nat.eqb_spec c k) as [<-|Dk].
      * rewrite (ones_outflow c d s Hc Hd c d s Hc Hd eq_refl). destruct (Nat.eqb_spec c' c); [lia|]. ring.
      * destruct (Nat.eqb_spec c' k) as [<-|Dk'].
        -- rewrite (ones_outflow c d s Hc Hd c' d' s' Hc' Hd' (eq_sym E)). ring.
        -- rewrite (ones_elsewhere c d s Hc Hd k Hk); [ring|]. intros d2 s2 Hd2 E2. apply Dk'. symmetry. apply (Only k d2 s2). repeat split; try assumption. symmetry. exact E2.
Qed.
Lemma all_zero : forall D, homogeneous D -> forall c r, (c < p_cells m)%nat -> (r < N + 1)%nat -> at_cell b D c r = 0.
Proof.
  intros D H c r Hc Hr. destruct (Nat.eq_dec r N) as [->|]; [|apply velocity_zero; [exact H|exact Hc|lia]]. apply (pressure_zero D H c (RE c Hc)).
Qed.

Variable size : nat.
Hypothesis RG : in_range b size.
Hypothesis CV : covered b size.
Lemma solvable_proof : exists s U, ComputeSystem b (mkState K (fun _ _ => 0) (fun _ => 0)) = Ok s /\ solves s size U /\
  forall U', solves s size U' -> forall i, (i < size)%nat -> U' i = U i.
Proof.
  destruct (system_forms b K Kinv place WP size RG) as [s [E H]]. exists s.
  assert (HB : forall c, (c < p_cells m)%nat -> basis_functions b c (phi c)).
  { intros c Hc. apply basis_exists; [exact SZ|]. apply (wp_regular _ _ _ _ WP). exact Hc. }
  assert (KER : forall x, (forall i, (i < size)%nat -> total (fun j => s_A s (Z.of_nat i) (Z.of_nat j) * x j) size = 0) -> forall j, (j < size)%nat -> x j = 0).
  { intros x Hx j Hj. destruct (CV j Hj) as [c [r [Hc [Hr Er]]]]. fold m dim nv N in Hr. fold m in Hc.
    assert (Q : at_cell b x c r = 0).
    { apply all_zero; [|exact Hc|exact Hr]. intro V. pose proof (proj1 (H phi HB V) x) as HV. fold m in HV. rewrite <- HV. rewrite (total_ext _ (fun _ => 0)); [apply total_zero|].
      intros i Hi. rewrite (Hx i Hi). ring. }
    unfold at_cell in Q. rewrite Er, Nat2Z.id in Q. exact Q. }
  destruct (square_solvable size (fun i j => s_A s (Z.of_nat i) (Z.of_nat j)) (fun i => s_F s (Z.of_nat i)) KER) as [U HU].
  exists U. split; [exact E|]. split; [exact HU|]. intros U' HU' i Hi.
  assert (Z : (fun j => U' j - U j) i = 0).
  { apply (KER (fun j => U' j - U j)); [|exact Hi]. intros k Hk. rewrite (total_ext _ (fun j => s_A s (Z.of_nat k) (Z.of_nat j) * U' j - s_A s (Z.of_nat k) (Z.of_nat j) * U j)) by (intros; ring).
    rewrite total_minus. rewrite (HU' k Hk), (HU k Hk). ring. }
  simpl in Z. lra.
Qed.
End solve.
