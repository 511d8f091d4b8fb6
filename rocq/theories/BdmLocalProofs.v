(** The local system of a cell is the weak form. *)
From Coq Require Import Reals List ZArith Bool Arith Lia Lra.
From Verif Require Import Prelude Arrays SpecFvtpf FvtpfSumProofs MpfaoProofs Hdiv SpecHdiv HdivProofs FeMap SpecFeMap FeMapUnknownProofs Bdm SpecBdm BdmProofs.
Import ListNotations.
Local Open Scope R_scope.

Lemma each_pair : forall LM LF {X} (l : list X) (body : X -> list R * list R -> outcome (list R * list R)) (gM gF : X -> nat -> R),
  (forall x s, In x l -> length (fst s) = LM -> length (snd s) = LF ->
     exists s', body x s = Ok s' /\ adds (gM x) (fst s) (fst s') /\ adds (gF x) (snd s) (snd s')) ->
  forall s, length (fst s) = LM -> length (snd s) = LF ->
  exists s', each l body s = Ok s' /\ adds (fun k => sum_over l (fun x => gM x k)) (fst s) (fst s')
    /\ adds (fun k => sum_over l (fun x => gF x k)) (snd s) (snd s').
Proof.
  intros LM LF X l body gM gF. induction l as [|x l IH]; intros H s HM HF; simpl.
  - exists s. split; [reflexivity|]. split; (split; [reflexivity|intro k; lra]).
  - destruct (H x s (or_introl eq_refl) HM HF) as [s1 [E1 [[LM1 PM1] [LF1 PF1]]]]. rewrite E1. cbn [bind].
    destruct (IH (fun y s Hy => H y s (or_intror Hy)) s1 ltac:(congruence) ltac:(congruence)) as [s2 [E2 [[LM2 PM2] [LF2 PF2]]]].
    exists s2. split; [exact E2|]. split; (split; [congruence|]); intro k; [rewrite PM2, PM1|rewrite PF2, PF1]; lra.
Qed.

Section cell.
Variable b : problem.
Let m := b_mesh b.
Let dim := p_dim m.
Let nv := (2 ^ dim)%nat.
Let N := (dim * nv)%nat.
Hypothesis SZ : sized b.
Variable c : nat.
Hypothesis Hc : (c < p_cells m)%nat.
Variable K : list R.
Hypothesis HK : length K = (dim * dim)%nat.
Variable phi : list R -> list R.
Hypothesis Hphi : basis_functions b c phi.

Lemma Hdim : (dim = 2 \/ dim = 3)%nat.
Proof. exact (proj1 SZ). Qed.
Lemma Hncv : b_ncv b = nv.
Proof. exact (proj1 (proj2 SZ)). Qed.
Lemma n_eq : nlocal b = (N + 1)%nat.
Proof. unfold nlocal. rewrite Hncv. reflexivity. Qed.
Lemma N_small : ((N + 1) * (N + 1) <= 625)%nat.
Proof. unfold N, nv. destruct Hdim as [->| ->]; simpl; lia. Qed.
Lemma N_pos : (0 < N)%nat.
Proof. unfold N, nv. destruct Hdim as [->| ->]; simpl; lia. Qed.

Lemma basis_ok : forall xi, inside dim xi -> basis_at dim xi (jacobian b c xi) (det b c xi) = Ok (phi xi).
Proof.
  intros xi Hxi. unfold basis_at. destruct (Hphi xi Hxi) as [_ E]. fold m dim in E. rewrite E. apply numbers_ok.
Qed.
Lemma phi_length : forall xi, inside dim xi -> length (phi xi) = (dim * dim * nv)%nat.
Proof. intros xi Hxi. exact (proj1 (Hphi xi Hxi)). Qed.

Definition fn (B : list R) (r k : nat) : R := nth (r * dim + k) B 0.
Definition prod (B : list R) (r s : nat) : R := SpecBdm.dot dim (fn B r) (times dim K (fn B s)).

Lemma four : forall f : nat -> nat -> R,
  total (fun vi => total (fun vj => total (fun di => total (fun dj => f (vi * dim + di)%nat (vj * dim + dj)%nat) dim) dim) nv) nv
  = total (fun r => total (fun s => f r s) N) N.
Proof.
  intro f. replace N with (nv * dim)%nat by (unfold N; lia). rewrite total_block. apply total_ext. intros vi _.
  rewrite total_swap. apply total_ext. intros di _. symmetry. apply total_block.
Qed.

Lemma add_products_ok : forall B w J M, length B = (dim * dim * nv)%nat -> length M = 625%nat ->
  exists M', add_products b K B w J M = Ok M' /\
    adds (fun k => total (fun r => total (fun s => if (k =? s * (N + 1) + r)%nat then prod B r s * w * J else 0) N) N) M M'.
Proof.
  intros B w J M HB HM. unfold add_products. fold m dim. rewrite Hncv, n_eq.
  assert (H0 : forall vi vj di dj a, (vi < nv)%nat -> (vj < nv)%nat -> (di < dim)%nat -> (dj < dim)%nat -> length a = 625%nat ->
    exists a', (let row := (vi * dim + di)%nat in let col := (vj * dim + dj)%nat in
      do x <- KDotADotB dim K (skipn (dim * row) B) (skipn (dim * col) B); add_at a (col * (N + 1) + row) (x * w * J)) = Ok a' /\
      adds (fun k => if (k =? (vj * dim + dj) * (N + 1) + (vi * dim + di))%nat then prod B (vi * dim + di) (vj * dim + dj) * w * J else 0) a a').
  { intros vi vj di dj a H1 H2 H3 H4 La. cbv zeta.
    assert (Hr : (vi * dim + di < N)%nat) by (unfold N; nia). assert (Hs : (vj * dim + dj < N)%nat) by (unfold N; nia).
    assert (Hd : (0 < dim)%nat) by (destruct Hdim; lia).
    assert (HBN : (dim * N = dim * dim * nv)%nat) by (unfold N; lia).
    rewrite KDotADotB_ok; [|exact HK|rewrite skipn_length; nia|rewrite skipn_length; nia]. cbn [bind].
    destruct (adds_at a ((vj * dim + dj) * (N + 1) + (vi * dim + di))
      (SpecBdm.dot dim (fun j => nth j (skipn (dim * (vi * dim + di)) B) 0) (times dim K (fun i => nth i (skipn (dim * (vj * dim + dj)) B) 0)) * w * J)) as [a' [E A]].
    { rewrite La. pose proof N_small. nia. }
    exists a'. split; [exact E|]. eapply adds_ext; [|exact A]. intro k. cbv beta. destruct (k =? _)%nat; [|reflexivity].
    f_equal. f_equal. unfold prod, SpecBdm.dot. apply total_ext. intros i _. unfold times, fn. rewrite nth_skipn0.
    rewrite (Nat.mul_comm dim (vi * dim + di)). f_equal. apply total_ext. intros j _. rewrite nth_skipn0.
    rewrite (Nat.mul_comm dim (vj * dim + dj)). reflexivity. }
  edestruct (for_adds 625 nv) as [M' [E A]]; [|exact HM|exists M'; split; [exact E|eapply adds_ext; [|exact A]]].
  - intros vi a Hvi La. eapply (for_adds 625 nv); [|exact La]. intros vj a1 Hvj La1. eapply (for_adds 625 dim); [|exact La1].
    intros di a2 Hdi La2. eapply (for_adds 625 dim); [|exact La2]. intros dj a3 Hdj La3. exact (H0 vi vj di dj a3 Hvi Hvj Hdi Hdj La3).
  - intro k. cbv beta. exact (four (fun r s => if (k =? s * (N + 1) + r)%nat then prod B r s * w * J else 0)).
Qed.

Definition force_at (q : list R * R) : R :=
  match b_forcing b with Some f => - f (image b c (fst q)) * snd q * det b c (fst q) | None => 0 end.
Lemma add_point_ok : forall q s, inside dim (fst q) -> length (fst s) = 625%nat -> length (snd s) = 625%nat ->
  exists s', add_point b K c q s = Ok s' /\
    adds (fun k => total (fun r => total (fun t => if (k =? t * (N + 1) + r)%nat then prod (phi (fst q)) r t * snd q * det b c (fst q) else 0) N) N) (fst s) (fst s') /\
    adds (fun k => if (k =? N)%nat then force_at q else 0) (snd s) (snd s').
Proof.
  intros q s Hq LM LF. unfold add_point. fold m dim.
  destruct (b_geometry b c (fst q)) as [[x DF] J] eqn:G.
  assert (EJ : det b c (fst q) = J) by (unfold det; rewrite G; reflexivity).
  assert (ED : jacobian b c (fst q) = DF) by (unfold jacobian; rewrite G; reflexivity).
  assert (EX : image b c (fst q) = x) by (unfold image; rewrite G; reflexivity).
  pose proof (basis_ok (fst q) Hq) as EB. rewrite ED, EJ in EB. rewrite EB. cbn [bind].
  destruct (add_products_ok (phi (fst q)) (snd q) J (fst s) (phi_length _ Hq) LM) as [M' [E A]]. rewrite E. cbn [bind].
  unfold force_at. rewrite EX, EJ, n_eq. replace (N + 1 - 1)%nat with N by lia. destruct (b_forcing b) as [f|].
  - destruct (adds_at (snd s) N (- f x * snd q * J)) as [F' [EF AF]]; [rewrite LF; pose proof N_small; nia|].
    rewrite EF. cbn [bind]. eexists. split; [reflexivity|]. split; [exact A|exact AF].
  - cbn [bind]. eexists. split; [reflexivity|]. split; [exact A|]. split; [reflexivity|]. intro k. destruct (k =? N)%nat; simpl; lra.
Qed.

(** ** The boundary *)

Lemma lside_bit : forall v d, (v < nv)%nat -> (d < dim)%nat -> rd (lside dim) (v * dim + d) = Ok (Nat.b2n (Nat.testbit v d)).
Proof.
  intros v d Hv Hd. unfold nv in Hv. destruct Hdim as [E|E]; rewrite E in *; simpl in Hv.
  - destruct v as [|[|[|[|v]]]]; [| | | |lia]; (destruct d as [|[|d]]; [reflexivity|reflexivity|lia]).
  - do 8 (destruct v as [|v]; [destruct d as [|[|[|d]]]; [reflexivity|reflexivity|reflexivity|lia]|]). lia.
Qed.
Lemma place_ok : forall f d s, placed b c f d s -> face_place b c f = Ok (Some (d, Nat.b2n s)).
Proof.
  intros f d s [Hd HP]. unfold face_place. fold m dim. rewrite Hncv. fold m dim in Hd. fold m dim nv in HP.
  assert (LE : forall v d', (v < nv)%nat -> (d' < dim)%nat -> (c * nv * dim + v * dim + d' < length (b_emap b))%nat).
  { intros v d' Hv Hd'. destruct SZ as [_ [_ [-> _]]]. fold m dim nv. nia. }
  assert (INNER : forall v st, (v < nv)%nat -> for_ dim (fun d' st =>
      do z <- rd (b_emap b) (c * nv * dim + v * dim + d');
      if (Z.abs z =? Z.of_nat f)%Z then do x <- rd (lside dim) (v * dim + d'); Ok (Some (d', x)) else Ok st) st
      = Ok (if Bool.eqb (Nat.testbit v d) s then Some (d, Nat.b2n s) else st)).
  { intros v st Hv.
    destruct (for_inv (fun t st' => st' = if Bool.eqb (Nat.testbit v d) s && (d <? t)%nat then Some (d, Nat.b2n s) else st)
      (fun d' st => do z <- rd (b_emap b) (c * nv * dim + v * dim + d');
        if (Z.abs z =? Z.of_nat f)%Z then do x <- rd (lside dim) (v * dim + d'); Ok (Some (d', x)) else Ok st) dim st) as [r [E P]].
    - rewrite andb_false_r. reflexivity.
    - intros d' st' Hd' ->. rewrite (rd_nth 0%Z) by (apply LE; assumption). cbn [bind].
      specialize (HP v d' Hv Hd'). destruct (Z.eqb_spec (Z.abs (nth (c * nv * dim + v * dim + d') (b_emap b) 0%Z)) (Z.of_nat f)) as [Ez|Nz].
      + destruct (proj1 HP Ez) as [-> Eb]. rewrite lside_bit by assumption. cbn [bind]. eexists. split; [reflexivity|].
        rewrite Eb, eqb_reflx. destruct (Nat.ltb_spec d (S d)); [reflexivity|lia].
      + eexists. split; [reflexivity|]. destruct (Bool.eqb (Nat.testbit v d) s) eqn:Eb; [|reflexivity]. apply eqb_prop in Eb. cbn [andb].
        destruct (Nat.ltb_spec d d'), (Nat.ltb_spec d (S d')); try reflexivity; try lia. exfalso. apply Nz, HP. split; [lia|exact Eb].
    - rewrite E, P. destruct (Nat.ltb_spec d dim); [|lia]. rewrite andb_true_r. reflexivity. }
  destruct (for_inv (fun t st' => (st' = None /\ forall v, (v < t)%nat -> Nat.testbit v d <> s) \/ st' = Some (d, Nat.b2n s))
    (fun v st => for_ dim (fun d' st => do z <- rd (b_emap b) (c * nv * dim + v * dim + d');
      if (Z.abs z =? Z.of_nat f)%Z then do x <- rd (lside dim) (v * dim + d'); Ok (Some (d', x)) else Ok st) st) nv None) as [r [E P]].
  - left. split; [reflexivity|]. intros v H. lia.
  - intros v st Hv Hst. rewrite INNER by exact Hv. eexists. split; [reflexivity|].
    destruct (Bool.eqb (Nat.testbit v d) s) eqn:Eb; [right; reflexivity|]. destruct Hst as [[-> Hst]| ->]; [left|right; reflexivity].
    split; [reflexivity|]. intros w Hw. destruct (Nat.eq_dec w v) as [->|]; [|apply Hst; lia]. intro X. rewrite X, eqb_reflx in Eb. discriminate Eb.
  - rewrite E. destruct P as [[_ P]| ->]; [|reflexivity]. exfalso.
    destruct s.
    + apply (P (2 ^ d)%nat); [unfold nv; apply Nat.pow_lt_mono_r; [lia|exact Hd]|]. apply Nat.pow2_bits_true.
    + apply (P 0%nat); [unfold nv; clear; induction dim as [|k IH]; simpl; lia|]. apply Nat.bits_0.
Qed.
Lemma extend_none : forall k i dir s y, (dir < i)%nat -> length y = k -> extend k i dir s y = Ok y.
Proof.
  induction k as [|k IH]; intros i dir s y Hi L; [destruct y; [reflexivity|discriminate L]|]. simpl. destruct (Nat.eqb_spec i dir); [lia|].
  destruct y as [|a y]; [discriminate L|]. rewrite IH; [reflexivity|lia|simpl in L; lia].
Qed.
Lemma extend_ok : forall k i dir s y, (i <= dir < i + k)%nat -> length y = (k - 1)%nat -> extend k i dir s y = Ok (insert (dir - i) s y).
Proof.
  induction k as [|k IH]; intros i dir s y Hi L; [lia|]. simpl. destruct (Nat.eqb_spec i dir) as [->|D].
  - rewrite extend_none by (try lia). cbn [bind]. rewrite Nat.sub_diag. reflexivity.
  - destruct y as [|a y]; [simpl in L; lia|]. rewrite IH by (simpl in L; lia). cbn [bind].
    replace (dir - i)%nat with (S (dir - S i)) by lia. reflexivity.
Qed.
Lemma in_firstn : forall {A} (l : list A) k x, In x (firstn k l) -> In x l.
Proof. intros A l k x H. rewrite <- (firstn_skipn k l). apply in_or_app. left. exact H. Qed.
Lemma in_skipn : forall {A} (l : list A) k x, In x (skipn k l) -> In x l.
Proof. intros A l k x H. rewrite <- (firstn_skipn k l). apply in_or_app. right. exact H. Qed.
Lemma insert_inside : forall d s y, (d < dim)%nat -> s = 1 \/ s = -1 -> inside (dim - 1) y -> inside dim (insert d s y).
Proof.
  intros d s y Hd Hs [L F]. unfold insert. split.
  - rewrite app_length. cbn [length]. rewrite firstn_length, skipn_length. lia.
  - rewrite Forall_forall in *. intros t Ht. apply in_app_or in Ht. destruct Ht as [Ht|[<-|Ht]].
    + apply F, (in_firstn y d), Ht.
    + destruct Hs as [->| ->]; lra.
    + apply F, (in_skipn y d), Ht.
Qed.
Definition pm (s : bool) : R := if s then 1 else -1.
Lemma pm_pow : forall s, (-1) ^ (Nat.b2n s + 1) = pm s.
Proof. intros [|]; simpl; ring. Qed.
Lemma pm_cases : forall s, pm s = 1 \/ pm s = -1.
Proof. intros [|]; [left|right]; reflexivity. Qed.
Lemma normal_nth : forall f k, (k < dim)%nat -> nth k (boundary_normal b c f) 0 = out_normal b c f k.
Proof.
  intros f k Hk. unfold boundary_normal. fold m dim.
  set (h := fun d => if Rlt_dec (ADotBMinusC m f c) 0 then p_N m f d * -1 else p_N m f d).
  rewrite (nth_indep _ 0 (h 0%nat)) by (rewrite map_length, seq_length; exact Hk).
  rewrite (map_nth h), seq_nth by exact Hk. unfold h. simpl (0 + k)%nat. unfold out_normal. fold m dim. unfold ADotBMinusC. rewrite dot_fold. fold dim.
  cbv beta. set (y := fold_right _ _ _). destruct (Rlt_dec y 0); destruct (Rle_dec 0 y); try (exfalso; lra); ring.
Qed.

Definition surface_term (f d : nat) (s : bool) (g : list R -> R) (r : nat) : R :=
  sum_over (gauss_tensor (dim - 1)) (fun q => let xi := insert d (pm s) (fst q) in
    g (image b c xi) * SpecBdm.dot dim (fn (phi xi) r) (out_normal b c f) * snd q * b_surface b f (fst q)).
Lemma IntegratePressureBoundary_ok : forall g f d s F, placed b c f d s -> length F = 625%nat ->
  exists F', IntegratePressureBoundary b g c f F = Ok F' /\
    adds (fun k => if (k <? N)%nat then - surface_term f d s g k else 0) F F'.
Proof.
  intros g f d s F HP LF. unfold IntegratePressureBoundary. fold m dim. rewrite (place_ok f d s HP). cbn [bind].
  assert (Hd : (d < dim)%nat) by (destruct HP; assumption).
  pose (t := fun (q : list R * R) k => let xi := insert d (pm s) (fst q) in
    g (image b c xi) * SpecBdm.dot dim (fn (phi xi) k) (out_normal b c f) * snd q * b_surface b f (fst q)).
  match goal with |- context [each _ ?bd _] => destruct (fun H => each_adds 625 (gauss_tensor (dim - 1)) bd (fun q k => if (k <? N)%nat then - t q k else 0) H F LF) as [F' [E A]] end; [|exists F'; split; [exact E|eapply adds_ext; [|exact A]]].
  - intros q a Hq La. destruct (gauss_inside _ _ Hq) as [Hin _].
    rewrite (extend_ok dim 0 d ((-1) ^ (Nat.b2n s + 1)) (fst q)) by (try lia; destruct Hin; assumption). cbn [bind]. rewrite Nat.sub_0_r, pm_pow.
    assert (Hxi : inside dim (insert d (pm s) (fst q))) by (apply insert_inside; [exact Hd|apply pm_cases|exact Hin]).
    unfold t. set (xi := insert d (pm s) (fst q)) in *. destruct (b_geometry b c xi) as [[x DF] J] eqn:G.
    assert (EJ : det b c xi = J) by (unfold det; rewrite G; reflexivity).
    assert (ED : jacobian b c xi = DF) by (unfold jacobian; rewrite G; reflexivity).
    assert (EX : image b c xi = x) by (unfold image; rewrite G; reflexivity).
    pose proof (basis_ok xi Hxi) as EB. rewrite ED, EJ in EB. rewrite EB. cbn [bind]. rewrite Hncv, EX.
    pose proof (phi_length xi Hxi) as LB.
    match goal with |- context [for_ _ ?bd _] => destruct (fun H => for_adds 625 (nv * dim) bd (fun i k => if (k =? i)%nat then - (g x * SpecBdm.dot dim (fn (phi xi) i) (out_normal b c f) * snd q * b_surface b f (fst q)) else 0) H a La)
      as [a' [E A]] end; [|exists a'; split; [exact E|eapply adds_ext; [|exact A]]].
    + intros i a1 Hi La1. rewrite ADotB_ok.
      * cbn [bind]. edestruct (adds_at a1 i) as [a' [E A]]; [|exists a'; split; [exact E|eapply adds_ext; [|exact A]]].
        -- rewrite La1. pose proof N_small. unfold N in *. nia.
        -- intro k. cbv beta. destruct (k =? i)%nat; [|reflexivity]. f_equal. f_equal. f_equal. f_equal.
           unfold SpecBdm.dot. apply total_ext. intros j Hj. rewrite nth_skipn0, normal_nth by exact Hj. reflexivity.
      * rewrite skipn_length, LB. nia.
      * unfold boundary_normal. fold m dim. rewrite map_length, seq_length. lia.
    + intro k. cbv beta. replace (nv * dim)%nat with N by (unfold N; lia). destruct (Nat.ltb_spec k N) as [Lk|Gk].
      * rewrite (total_pick (fun i => - (g x * SpecBdm.dot dim (fn (phi xi) i) (out_normal b c f) * snd q * b_surface b f (fst q)))) by exact Lk. reflexivity.
      * rewrite (total_ext _ (fun _ => 0)); [apply total_zero|]. intros i Hi. destruct (Nat.eqb_spec k i); [lia|reflexivity].
  - intro k. cbv beta. unfold surface_term. destruct (k <? N)%nat.
    + rewrite <- sum_opp. reflexivity.
    + apply sum_none.
Qed.

Variable place : nat -> nat * bool.
Hypothesis Hplace : forall f, In f (b_cone b c) -> placed b c f (fst (place f)) (snd (place f)).
Definition boundary_term (r : nat) : R :=
  match b_pressure b with
  | Some g => - sum_over (filter (fun f => (b_marker b f =? 1)%Z) (b_cone b c)) (fun f => surface_term f (fst (place f)) (snd (place f)) g r)
  | None => 0
  end.
Lemma add_boundary_ok : forall F, length F = 625%nat ->
  exists F', add_boundary b c F = Ok F' /\ adds (fun k => if (k <? N)%nat then boundary_term k else 0) F F'.
Proof.
  intros F LF. unfold add_boundary, boundary_term. destruct (b_pressure b) as [g|].
  - match goal with |- context [each _ ?bd _] => destruct (fun H => each_adds 625 (b_cone b c) bd
      (fun f k => if (b_marker b f =? 1)%Z then if (k <? N)%nat then - surface_term f (fst (place f)) (snd (place f)) g k else 0 else 0) H F LF) as [F' [E A]] end.
    + intros f a Hf La. destruct (b_marker b f =? 1)%Z.
      * exact (IntegratePressureBoundary_ok g f _ _ a (Hplace f Hf) La).
      * exists a. split; [reflexivity|]. split; [reflexivity|]. intro k. lra.
    + exists F'. split; [exact E|]. eapply adds_ext; [|exact A]. intro k. cbv beta. destruct (k <? N)%nat.
      * rewrite <- sum_opp, sum_filter. reflexivity.
      * rewrite (sum_ext _ _ (fun _ => 0)); [apply sum_none|]. intros f _. destruct (b_marker b f =? 1)%Z; reflexivity.
  - exists F. split.
    + clear. induction (b_cone b c) as [|f l IH]; [reflexivity|]. exact IH.
    + split; [reflexivity|]. intro k. destruct (k <? N)%nat; lra.
Qed.

Let sg (r : nat) : R := sign_of b c r.
Lemma local_ok : exists M F, local_system b K c = Ok (M, F) /\ length M = 625%nat /\ length F = 625%nat /\
  (forall i j, (i < N)%nat -> (j < N)%nat -> nth (i * (N + 1) + j) M 0 =
     sum_over (quadrature (b_lumped b) dim) (fun q => prod (phi (fst q)) j i * snd q * det b c (fst q)) * (sg i * sg j)) /\
  (forall j, (j < N)%nat -> nth (N * (N + 1) + j) M 0 = - sg j) /\
  (forall i, (i < N)%nat -> nth (i * (N + 1) + N) M 0 = - sg i) /\ nth (N * (N + 1) + N) M 0 = 0 /\
  (forall i, (i < N)%nat -> nth i F 0 = boundary_term i * sg i) /\
  nth N F 0 = sum_over (quadrature (b_lumped b) dim) force_at.
Proof.
  unfold local_system. fold m dim. unfold MAX_LOCAL_SIZE.
  destruct (each_pair 625 625 (quadrature (b_lumped b) dim) (add_point b K c)
    (fun q k => total (fun r => total (fun t => if (k =? t * (N + 1) + r)%nat then prod (phi (fst q)) r t * snd q * det b c (fst q) else 0) N) N)
    (fun q k => if (k =? N)%nat then force_at q else 0)) with (s := (repeat 0 625, repeat 0 625)) as [[M1 F1] [E1 [[LM1 PM1] [LF1 PF1]]]].
  { intros q s Hq LM LF. apply add_point_ok; [|exact LM|exact LF]. apply (quadrature_inside _ _ _ Hdim Hq). }
  { apply repeat_length. } { apply repeat_length. }
  rewrite E1. cbn [bind fst snd] in *. rewrite repeat_length in LM1, LF1.
  destruct (add_boundary_ok F1 LF1) as [F2 [E2 [LF2 PF2]]]. rewrite E2. cbn [bind]. rewrite n_eq.
  pose proof N_small as HN.
  destruct (flip_ok N (skipn (c * (N + 1)) (b_orient b))) with (M := M1) (F := F2) as [M3 [F3 [E3 [L0 [L3 [P3 Q3]]]]]].
  { rewrite skipn_length. destruct SZ as [_ [_ [_ [_ ->]]]]. fold m dim nv N. nia. }
  { unfold big. lia. } { nia. }
  rewrite E3. exists M3, F3. split; [reflexivity|].
  assert (SG : forall i, IZR (nth i (skipn (c * (N + 1)) (b_orient b)) 0%Z) = sg i).
  { intro i. unfold sg, sign_of. f_equal. apply nth_skipn_any. }
  assert (R0 : forall k, nth k (repeat 0 625) 0 = 0).
  { intro k. destruct (Nat.lt_ge_cases k 625); [apply nth_repeat|apply nth_overflow; rewrite repeat_length; lia]. }
  assert (PM : forall i j, (i <= N)%nat -> (j <= N)%nat -> nth (i * (N + 1) + j) M1 0 =
    if (i <? N)%nat && (j <? N)%nat then sum_over (quadrature (b_lumped b) dim) (fun q => prod (phi (fst q)) j i * snd q * det b c (fst q)) else 0).
  { intros i j Hi Hj. rewrite PM1, R0.
    rewrite (sum_ext _ _ (fun q => if (i <? N)%nat && (j <? N)%nat then prod (phi (fst q)) j i * snd q * det b c (fst q) else 0)).
    2: { intros q _. exact (pick2 (fun r t => prod (phi (fst q)) r t * snd q * det b c (fst q)) N i j Hi Hj). }
    destruct ((i <? N)%nat && (j <? N)%nat); [lra|]. rewrite sum_none. lra. }
  split; [lia|]. split; [lia|].
  split; [|split; [|split; [|split; [|split]]]].
  - intros i j Hi Hj. rewrite P3 by lia. rewrite !SG. destruct (Nat.ltb_spec j N); [|lia]. destruct (Nat.ltb_spec i N); [|lia].
    rewrite PM by lia. destruct (Nat.ltb_spec j N); [|lia]. destruct (Nat.ltb_spec i N); [|lia]. reflexivity.
  - intros j Hj. rewrite P3 by lia. rewrite Nat.ltb_irrefl, SG. destruct (Nat.ltb_spec j N); [reflexivity|lia].
  - intros i Hi. rewrite P3 by lia. rewrite Nat.ltb_irrefl, SG. destruct (Nat.ltb_spec i N); [reflexivity|lia].
  - rewrite P3 by lia. rewrite Nat.ltb_irrefl. rewrite PM by lia. rewrite Nat.ltb_irrefl. reflexivity.
  - intros i Hi. rewrite Q3, SG. destruct (Nat.ltb_spec i N); [|lia]. rewrite PF2, PF1, R0. destruct (Nat.ltb_spec i N); [|lia].
    rewrite (sum_ext _ _ (fun _ => 0)); [rewrite sum_none; ring|]. intros q _. destruct (Nat.eqb_spec i N); [lia|reflexivity].
  - rewrite Q3, Nat.ltb_irrefl, PF2, PF1, R0, Nat.ltb_irrefl. rewrite Rplus_0_r, Rplus_0_l. apply sum_ext. intros q _. rewrite Nat.eqb_refl. reflexivity.
Qed.

(** ** The weak form *)

Lemma field_sum : forall U xi (h : nat -> R), SpecBdm.dot dim (field b c phi U xi) h = total (fun r => sg r * U r * SpecBdm.dot dim (fn (phi xi) r) h) N.
Proof.
  intros U xi h. unfold SpecBdm.dot, field, fn. fold m dim nv N.
  rewrite (total_ext _ (fun k => total (fun r => sg r * U r * (nth (r * dim + k) (phi xi) 0 * h k)) N)).
  - rewrite total_swap. apply total_ext. intros r _. apply total_scale_l.
  - intros k _. rewrite <- total_scale. apply total_ext. intros r _. unfold sg. ring.
Qed.
Lemma dot_comm : forall n x y, SpecBdm.dot n x y = SpecBdm.dot n y x.
Proof. intros n x y. apply total_ext. intros k _. ring. Qed.
Lemma times_transpose : forall Kt x y, (forall i j, (i < dim)%nat -> (j < dim)%nat -> nth (i * dim + j) Kt 0 = nth (j * dim + i) K 0) ->
  SpecBdm.dot dim x (times dim Kt y) = SpecBdm.dot dim y (times dim K x).
Proof.
  intros Kt x y H. unfold SpecBdm.dot, times.
  rewrite (total_ext (fun k => x k * _) (fun k => total (fun j => x k * (nth (j * dim + k) K 0 * y j)) dim)).
  - rewrite total_swap. apply total_ext. intros j _. rewrite <- total_scale_l. apply total_ext. intros k _. ring.
  - intros k Hk. rewrite <- total_scale_l. apply total_ext. intros j Hj. rewrite H by assumption. reflexivity.
Qed.
Lemma total_last : forall f k, total f (k + 1) = total f k + f k.
Proof. intros f k. rewrite Nat.add_comm. reflexivity. Qed.

Lemma local_weak : forall Kt s, (forall i j, (i < dim)%nat -> (j < dim)%nat -> nth (i * dim + j) Kt 0 = nth (j * dim + i) K 0) ->
  local_system b K c = Ok s -> forall V Q,
    (forall U P, total (fun i => total (fun j => with_last b V Q i * entry b s i j * with_last b U P j) (N + 1)) (N + 1) = bilinear b c phi Kt U P V Q)
    /\ total (fun i => with_last b V Q i * nth i (snd s) 0) (N + 1) = linear b c phi place V Q.
Proof.
  intros Kt s HT E V Q. destruct local_ok as [M [F [E' [_ [_ [H1 [H2 [H3 [H4 [H5 H6]]]]]]]]]]. rewrite E in E'. injection E' as ->. cbn [snd].
  assert (W1 : forall X x i, (i < N)%nat -> with_last b X x i = X i).
  { intros X x i Hi. unfold with_last. fold m dim nv N. destruct (Nat.ltb_spec i N); [reflexivity|lia]. }
  assert (W2 : forall X x, with_last b X x N = x).
  { intros X x. unfold with_last. fold m dim nv N. rewrite Nat.ltb_irrefl. reflexivity. }
  assert (EN : forall i j, entry b (M, F) i j = nth (i * (N + 1) + j) M 0) by (intros; reflexivity).
  split.
  - intros U P. rewrite total_last.
    rewrite (total_ext _ (fun i => total (fun j => V i * (sum_over (quadrature (b_lumped b) dim) (fun q => prod (phi (fst q)) j i * snd q * det b c (fst q)) * (sg i * sg j)) * U j) N
       + - (sg i * V i) * P)).
    2: { intros i Hi. rewrite total_last. rewrite W1, W2 by exact Hi. rewrite EN, H3 by exact Hi. f_equal; [|ring].
         apply total_ext. intros j Hj. rewrite W1, EN, H1 by assumption. reflexivity. }
    rewrite total_last, W2, EN, H4, total_plus.
    rewrite (total_ext (fun j => Q * _ * _) (fun j => - Q * (sg j * U j))).
    2: { intros j Hj. rewrite W1, EN, H2 by exact Hj. ring. }
    rewrite total_scale_l, total_scale, W2. rewrite total_opp. unfold bilinear, outflow. fold m dim nv N. fold sg.
    match goal with |- ?A + _ + _ = ?B - _ - _ => assert (X : A = B); [|rewrite X; unfold sg; ring] end.
    unfold integral. fold m dim.
    rewrite (total_ext _ (fun i => sum_over (quadrature (b_lumped b) dim) (fun q => total (fun j => V i * (prod (phi (fst q)) j i * snd q * det b c (fst q) * (sg i * sg j)) * U j) N))).
    2: { intros i _. rewrite <- sum_total. apply total_ext. intros j _.
         rewrite (sum_ext _ (fun q => V i * _ * U j) (fun q => (V i * (sg i * sg j) * U j) * (prod (phi (fst q)) j i * snd q * det b c (fst q)))) by (intros; ring).
         rewrite sum_scale. ring. }
    rewrite sum_total. apply sum_ext. intros q _.
    rewrite field_sum. rewrite Rmult_assoc, <- total_scale. apply total_ext. intros i _.
    rewrite times_transpose by exact HT. rewrite field_sum. rewrite <- total_scale_l, <- total_scale. apply total_ext. intros j _. unfold prod. ring.
  - rewrite total_last, W2, H6. rewrite (total_ext _ (fun i => boundary_term i * (sg i * V i))).
    2: { intros i Hi. rewrite W1, H5 by exact Hi. ring. }
    unfold linear, boundary_term, force_at. unfold Rminus. f_equal.
    + destruct (b_pressure b) as [g|].
      * rewrite (total_ext _ (fun i => - sum_over (filter (fun f => (b_marker b f =? 1)%Z) (b_cone b c)) (fun f => (sg i * V i) * surface_term f (fst (place f)) (snd (place f)) g i))).
        2: { intros i _. rewrite sum_scale. ring. }
        rewrite total_opp, sum_total. apply (f_equal Ropp). apply sum_ext. intros f _. unfold surface_term, surface_integral. fold m dim.
        rewrite (total_ext _ (fun i => sum_over (gauss_tensor (dim - 1)) (fun q => (sg i * V i) * (let xi := insert (fst (place f)) (pm (snd (place f))) (fst q) in
          g (image b c xi) * SpecBdm.dot dim (fn (phi xi) i) (out_normal b c f) * snd q * b_surface b f (fst q))))) by (intros; rewrite sum_scale; reflexivity).
        rewrite sum_total. apply sum_ext. intros q _. cbv zeta. fold (pm (snd (place f))).
        rewrite field_sum. rewrite <- total_scale_l, <- !total_scale. apply total_ext. intros i _. ring.
      * rewrite (total_ext _ (fun _ => 0)) by (intros; ring). apply total_zero.
    + destruct (b_forcing b) as [f|].
      * unfold integral. fold m dim. rewrite (sum_ext _ _ (fun q => - (f (image b c (fst q)) * snd q * det b c (fst q)))) by (intros; ring). rewrite sum_opp. ring.
      * rewrite sum_none. ring.
Qed.
End cell.
