From Coq Require Import Reals ZArith List Bool Arith Lia Lra.
From Coquelicot Require Import Coquelicot.
From Verif Require Import Prelude Arrays SpecFvtpf FvtpfSumProofs Mpfao MpfaoTs SpecMpfaoTs MpfaoTsProofs Transport SpecTransport.
From Verif Require Fvtpf.
Import ListNotations.
Local Open Scope R_scope.

(** ** Vectors with two entries per cell *)

Definition pick (k : nat) (a b : R) : R := if Nat.even k then a else b.

Lemma even_split : forall k, (Nat.even k = true /\ k = 2 * (k / 2))%nat \/ (Nat.even k = false /\ k = 2 * (k / 2) + 1)%nat.
Proof.
  intro k. pose proof (Nat.div_mod k 2) as D. destruct (Nat.even k) eqn:E; [left|right]; (split; [reflexivity|]).
  - apply Nat.even_spec in E. destruct E as [q ->]. rewrite Nat.mul_comm, Nat.div_mul by lia. lia.
  - assert (O : Nat.odd k = true) by (unfold Nat.odd; rewrite E; reflexivity). apply Nat.odd_spec in O. destruct O as [q ->].
    replace (2 * q + 1)%nat with (1 + q * 2)%nat by lia. rewrite Nat.div_add by lia. simpl. lia.
Qed.
Lemma even_2 : forall i, Nat.even (2 * i) = true.
Proof. intro i. apply Nat.even_spec. exists i. reflexivity. Qed.
Lemma even_21 : forall i, Nat.even (2 * i + 1) = false.
Proof. intro i. rewrite Nat.add_1_r, Nat.even_succ, Nat.odd_mul. reflexivity. Qed.
Lemma half_2 : forall i, (2 * i / 2 = i)%nat.
Proof. intro i. rewrite Nat.mul_comm, Nat.div_mul by lia. reflexivity. Qed.
Lemma half_21 : forall i, ((2 * i + 1) / 2 = i)%nat.
Proof. intro i. replace (2 * i + 1)%nat with (1 + i * 2)%nat by lia. rewrite Nat.div_add by lia. reflexivity. Qed.

Lemma coeff_pair : forall z k a b, coeff (z * 2 =? Z.of_nat k)%Z * a + coeff (z * 2 + 1 =? Z.of_nat k)%Z * b = coeff (z =? Z.of_nat (k / 2))%Z * pick k a b.
Proof.
  intros z k a b. unfold pick. destruct (even_split k) as [[E K]|[E K]]; rewrite E.
  - destruct (Z.eqb_spec (z * 2) (Z.of_nat k)), (Z.eqb_spec (z * 2 + 1) (Z.of_nat k)), (Z.eqb_spec z (Z.of_nat (k / 2))); try lia; simpl; ring.
  - destruct (Z.eqb_spec (z * 2) (Z.of_nat k)), (Z.eqb_spec (z * 2 + 1) (Z.of_nat k)), (Z.eqb_spec z (Z.of_nat (k / 2))); try lia; simpl; ring.
Qed.

Lemma pair_add : forall n h z a b, (0 <= z < Z.of_nat n)%Z ->
  bind (Fvtpf.add_at (tab (n * 2) h) (z * 2) (Some a)) (fun r => Fvtpf.add_at r (z * 2 + 1) (Some b)) =
  Ok (tab (n * 2) (fun k => h k + coeff (z =? Z.of_nat (k / 2))%Z * pick k a b)).
Proof.
  intros n h z a b Hz. rewrite tab_add by lia. cbn [bind]. rewrite tab_add by lia. f_equal. apply tab_ext. intros k _. rewrite <- coeff_pair. ring.
Qed.
Lemma pair_sub : forall n h z a b, (0 <= z < Z.of_nat n)%Z ->
  bind (Fvtpf.sub_at (tab (n * 2) h) (z * 2) (Some a)) (fun r => Fvtpf.sub_at r (z * 2 + 1) (Some b)) =
  Ok (tab (n * 2) (fun k => h k - coeff (z =? Z.of_nat (k / 2))%Z * pick k a b)).
Proof.
  intros n h z a b Hz. rewrite tab_sub by lia. cbn [bind]. rewrite tab_sub by lia. f_equal. apply tab_ext. intros k _. rewrite <- coeff_pair. ring.
Qed.

Lemma tab_two : forall n H w x, (forall i, (i < n)%nat -> H (2 * i)%nat = w i /\ H (2 * i + 1)%nat = x i) -> two_equations (tab (n * 2) H) n w x.
Proof.
  intros n H w x E. split; [rewrite length_tab; lia|]. intros i Hi. destruct (E i Hi) as [E1 E2]. rewrite !nth_tab.
  destruct (Nat.ltb_spec (2 * i) (n * 2)); [|lia]. destruct (Nat.ltb_spec (2 * i + 1) (n * 2)); [|lia]. rewrite E1, E2. split; reflexivity.
Qed.

Section Residual.
Variables (m : mesh) (n N nb : nat).
Hypothesis GM : good_mesh m n N nb.
Variable flux : Z -> Z -> nat -> outcome (fl * fl).
Variables q1 q2 : nat -> nat -> R.
Hypothesis HF : forall iv j v f a, nth_error (verts m) iv = Some v -> subface m iv j = Some (v, f, a) -> x_local v = true -> f_local f = true ->
  flux (f_up f) (f_dn f) a = Ok (Some (q1 iv j), Some (q2 iv j)).

Lemma row2_ok : forall iv v j h, nth_error (verts m) iv = Some v -> x_local v = true -> (j < length (x_faces v))%nat ->
  row2 m flux v j (tab (n * 2) h) = Ok (tab (n * 2) (fun k => h k + orientation m iv j (k / 2) * pick k (q1 iv j) (q2 iv j))).
Proof.
  intros iv v j h Hv Lv Hj.
  destruct (gm_vert _ _ _ _ GM v (nth_error_In _ _ Hv)) as [Ls [Fa Fs]].
  destruct (rd_ok (x_faces v) j Hj) as [a [Ra Ea]]. destruct (rd_ok (x_subs v) j) as [s [Rs Es]]; [lia|].
  destruct (rd_ok (faces m) a (Fa a (nth_error_In _ _ Ea))) as [f [Rf Ef]].
  destruct (gm_face _ _ _ _ GM f (nth_error_In _ _ Ef)) as [Hu Hd].
  assert (SF : subface m iv j = Some (v, f, (a * 4 + s)%nat)) by (unfold subface; rewrite Hv, Ea, Es, Ef; reflexivity).
  unfold row2. rewrite Ra. cbn [bind]. rewrite Rs. cbn [bind]. rewrite Rf. cbn [bind].
  unfold orientation. rewrite SF. unfold active. rewrite Lv. cbn [andb].
  destruct (f_local f) eqn:Lf; cbn [negb andb].
  2:{ f_equal. apply tab_ext. intros. ring. }
  rewrite (HF iv j v f _ Hv SF Lv Lf). cbn [bind fst snd].
  rewrite (valid_local_ok m N _ (gm_rocks _ _ _ _ GM)) by lia. cbn [bind].
  match goal with |- bind ?e _ = _ => assert (S1 : e = Ok (tab (n * 2) (fun k => h k + (if local_cell m (k / 2) then coeff (f_up f =? Z.of_nat (k / 2))%Z else 0) * pick k (q1 iv j) (q2 iv j)))) end.
  { destruct (owned m (f_up f)) eqn:O.
    - rewrite pair_add.
      + f_equal. apply tab_ext. intros i _. rewrite <- owned_coeff, O. reflexivity.
      + unfold owned in O. apply andb_true_iff in O. destruct O as [O1 O2]. apply Z.leb_le in O1. apply (gm_owned _ _ _ _ GM) in O2. lia.
    - f_equal. apply tab_ext. intros i _. rewrite <- owned_coeff, O. ring. }
  rewrite S1. cbn [bind].
  rewrite (valid_local_ok m N _ (gm_rocks _ _ _ _ GM)) by lia. cbn [bind].
  destruct (owned m (f_dn f)) eqn:O.
  - rewrite pair_sub.
    + f_equal. apply tab_ext. intros i _. pose proof (owned_coeff m (f_dn f) (i / 2)) as OC. rewrite O in OC. rewrite OC. destruct (local_cell m (i / 2)); ring.
    + unfold owned in O. apply andb_true_iff in O. destruct O as [O1 O2]. apply Z.leb_le in O1. apply (gm_owned _ _ _ _ GM) in O2. lia.
  - f_equal. apply tab_ext. intros i _. pose proof (owned_coeff m (f_dn f) (i / 2)) as OC. rewrite O in OC. destruct (local_cell m (i / 2)); [rewrite <- OC|]; ring.
Qed.

Lemma vertices2_ok : forall h,
  Vertices2 m flux (tab (n * 2) h) = Ok (tab (n * 2) (fun k => h k + all_subfaces m (fun iv j => orientation m iv j (k / 2) * pick k (q1 iv j) (q2 iv j)))).
Proof.
  intro h. unfold Vertices2, all_subfaces.
  apply (tab_loop (n * 2) (rows2 m flux) (fun iv k => total (fun j => orientation m iv j (k / 2) * pick k (q1 iv j) (q2 iv j)) (rows m iv))).
  clear h. intros iv h Hiv. unfold rows2. destruct (rd_ok (verts m) iv Hiv) as [v [Rv Ev]]. rewrite Rv. cbn [bind].
  unfold rows. rewrite Ev. destruct (x_local v) eqn:Lv; cbn [negb].
  - apply (tab_loop (n * 2) (row2 m flux v) (fun j k => orientation m iv j (k / 2) * pick k (q1 iv j) (q2 iv j))).
    intros j h' Hj. apply row2_ok; assumption.
  - f_equal. apply tab_ext. intros i _. rewrite (total_ext _ (fun _ => 0)); [rewrite total_zero; ring|].
    intros j _. unfold orientation, subface. rewrite Ev. destruct (nth_error (x_faces v) j) as [a|]; [|ring].
    destruct (nth_error (x_subs v) j) as [s|]; [|ring]. destruct (nth_error (faces m) a) as [f|]; [|ring].
    unfold active. rewrite Lv. simpl. ring.
Qed.

Lemma vertices2_zero :
  Vertices2 m flux (repeat (Some 0) (n * 2)) = Ok (tab (n * 2) (fun k => pick k (outflow m q1 (k / 2)) (outflow m q2 (k / 2)))).
Proof.
  rewrite tab_zero, vertices2_ok. f_equal. apply tab_ext. intros k _. unfold outflow, pick. destruct (Nat.even k); ring.
Qed.

(** Per-cell terms [w] and [x]. *)
Lemma cells2_ok : forall body (w x : nat -> R) h,
  (forall k h, (k < N)%nat -> body k (tab (n * 2) h) = Ok (tab (n * 2) (fun i => h i + coeff (Z.of_nat k =? Z.of_nat (i / 2))%Z * pick i (w k) (x k)))) ->
  (forall k, (N <= k)%nat -> w k = 0 /\ x k = 0) ->
  for_ N body (tab (n * 2) h) = Ok (tab (n * 2) (fun i => h i + pick i (w (i / 2)%nat) (x (i / 2)%nat))).
Proof.
  intros body w x h Hb Hw. rewrite (tab_loop (n * 2) body (fun k i => coeff (Z.of_nat k =? Z.of_nat (i / 2))%Z * pick i (w k) (x k)) N h Hb).
  f_equal. apply tab_ext. intros i _. rewrite (total_delta (fun k => pick i (w k) (x k))). destruct (Nat.ltb_spec (i / 2) N) as [L|L]; [reflexivity|].
  destruct (Hw _ L) as [-> ->]. unfold pick. destruct (Nat.even i); reflexivity.
Qed.

Lemma add_sub2_ok : forall h k a b c d, local_cell m k = true ->
  bind (Fvtpf.add_at (tab (n * 2) h) (Z.of_nat (k * 2)) (Some a)) (fun r =>
  bind (Fvtpf.sub_at r (Z.of_nat (k * 2)) (Some b)) (fun r =>
  bind (Fvtpf.add_at r (Z.of_nat (k * 2 + 1)) (Some c)) (fun r => Fvtpf.sub_at r (Z.of_nat (k * 2 + 1)) (Some d)))) =
  Ok (tab (n * 2) (fun i => h i + coeff (Z.of_nat k =? Z.of_nat (i / 2))%Z * pick i (a - b) (c - d))).
Proof.
  intros h k a b c d L. pose proof (gm_owned _ _ _ _ GM k L) as Hk. rewrite tab_add by lia. cbn [bind]. rewrite tab_sub by lia. cbn [bind].
  rewrite tab_add by lia. cbn [bind]. rewrite tab_sub by lia.
  f_equal. apply tab_ext. intros i _. rewrite <- coeff_pair.
  replace (Z.of_nat (k * 2)) with (Z.of_nat k * 2)%Z by lia. replace (Z.of_nat (k * 2 + 1)) with (Z.of_nat k * 2 + 1)%Z by lia. ring.
Qed.

Lemma total_outflow : forall q, total (outflow m q) n = all_subfaces m (fun iv j => crossing m iv j * q iv j).
Proof.
  intro q. unfold outflow, all_subfaces. rewrite total_swap. apply total_ext. intros iv _. rewrite total_swap. apply total_ext. intros j _.
  rewrite <- (total_orientation m n N nb GM). rewrite <- total_scale. reflexivity.
Qed.
End Residual.

(** ** Sides of a sub-face *)

Lemma subface_inv : forall m iv j v f a, subface m iv j = Some (v, f, a) ->
  nth_error (verts m) iv = Some v /\ (j < length (x_faces v))%nat /\ exists b s, nth_error (x_faces v) j = Some b /\ nth_error (x_subs v) j = Some s /\ nth_error (faces m) b = Some f /\ a = (b * 4 + s)%nat.
Proof.
  intros m iv j v f a E. unfold subface in E. destruct (nth_error (verts m) iv) as [v'|]; [|discriminate].
  destruct (nth_error (x_faces v') j) as [b|] eqn:Eb; [|discriminate]. destruct (nth_error (x_subs v') j) as [s|] eqn:Es; [|discriminate].
  destruct (nth_error (faces m) b) as [f'|] eqn:Ef; [|discriminate]. inversion E; subst. split; [reflexivity|].
  split; [apply nth_error_Some; congruence|]. exists b, s. auto.
Qed.

Lemma subface_sides : forall m n N nb cs bs TP GD, good_mesh m n N nb -> good_state m N nb cs bs TP GD ->
  forall iv j v f a, subface m iv j = Some (v, f, a) ->
  exists up dn, side_at cs bs (f_up f) = Ok up /\ side_at cs bs (f_dn f) = Ok dn /\ at_side cs bs (f_up f) up /\ at_side cs bs (f_dn f) dn
    /\ vis up <> 0 /\ vis dn <> 0 /\ (a < 4 * length (faces m))%nat.
Proof.
  intros m n N nb cs bs TP GD GM [Lc [Lb [Vc [Vb _]]]] iv j v f a E. destruct (subface_inv _ _ _ _ _ _ E) as [Hv [Hj [b [s [Eb [Es [Ef ->]]]]]]].
  destruct (gm_vert _ _ _ _ GM v (nth_error_In _ _ Hv)) as [Ls [Fa Fs]].
  pose proof (Fa b (nth_error_In _ _ Eb)) as Ha. pose proof (Fs s (nth_error_In _ _ Es)) as Hs.
  destruct (gm_face _ _ _ _ GM f (nth_error_In _ _ Ef)) as [Hu Hd].
  destruct (side_ok cs bs (f_up f) N nb Lc Lb Hu Vc Vb) as [up [Eu [Au Vu]]].
  destruct (side_ok cs bs (f_dn f) N nb Lc Lb Hd Vc Vb) as [dn [Ed [Ad Vd]]].
  exists up, dn. repeat (split; [assumption|]). lia.
Qed.

Lemma mean_density_code : forall up dn, (0 + rho up + rho dn) * 0.5 = mean_density up dn.
Proof. intros up dn. unfold mean_density. destruct up, dn; simpl; lra. Qed.
Lemma mobility_code : forall s, vis s <> 0 -> fdiv (Kr s) (vis s) = Some (mobility s).
Proof. intros s V. rewrite fdiv_ok by exact V. destruct s; reflexivity. Qed.
Lemma rd_nth : forall (l : list R) i, (i < length l)%nat -> rd l i = Ok (nth i l 0).
Proof. intros l i H. destruct (rd_ok l i H) as [x [E1 E2]]. rewrite E1, (nth_error_nth _ _ 0 E2). reflexivity. Qed.

(** ** Salinity *)

Section Salinity.
Variables (m : mesh) (n N nb : nat) (cs : list cell) (bs : list bnd) (TP TPsi GD : list R).
Hypothesis GM : good_mesh m n N nb.
Hypothesis GS : good_state m N nb cs bs TP GD.
Hypothesis LP : length TPsi = (4 * length (faces m))%nat.
Variables qw qs : nat -> nat -> R.
Hypothesis QW : on_faces m cs bs (saline_water TP GD) qw.
Hypothesis QS : on_faces m cs bs (saline_salt TP TPsi) qs.

Lemma salinity_flux_ok : forall iv j v f a, nth_error (verts m) iv = Some v -> subface m iv j = Some (v, f, a) -> x_local v = true -> f_local f = true ->
  salinity_flux cs bs TP TPsi GD (f_up f) (f_dn f) a = Ok (Some (qw iv j), Some (qs iv j)).
Proof.
  intros iv j v f a Hv E Lv Lf. destruct (subface_sides m n N nb cs bs TP GD GM GS iv j v f a E) as [up [dn [Su [Sd [Au [Ad [Vu [Vd Ha]]]]]]]].
  assert (AC : active v f = true) by (unfold active; rewrite Lv, Lf; reflexivity).
  destruct GS as [_ [_ [_ [_ [LT LG]]]]]. unfold salinity_flux.
  rewrite (rd_nth TP) by lia. cbn [bind]. rewrite (rd_nth TPsi) by lia. cbn [bind]. rewrite Su. cbn [bind]. rewrite Sd. cbn [bind].
  rewrite mean_density_code. rewrite (rd_nth GD) by lia. cbn [bind].
  rewrite (QW iv j v f a up dn E AC Au Ad), (QS iv j v f a up dn E AC Au Ad). unfold saline_water, saline_salt, drive.
  set (s := if Rlt_dec (nth a TP 0) 0 then up else dn). assert (V : vis s <> 0) by (unfold s; destruct (Rlt_dec _ _); assumption).
  rewrite mobility_code by exact V. cbn [fbind]. do 3 f_equal; ring.
Qed.

Lemma salinity_cells_ok : forall dtime soln src prev h, dtime <> 0 -> length soln = (2 * N)%nat -> length src = N -> length prev = (2 * n)%nat ->
  for_ N (salinity_cell m cs dtime soln src (map Some prev)) (tab (n * 2) h) =
  Ok (tab (n * 2) (fun i => h i + pick i (term m cs (fun i c k => stored c k / dtime - nth (2 * i) prev 0 - k_src k) (i / 2))
        (term m cs (fun i c k => stored_salt c k (nth (2 * i + 1) soln 0) / dtime - nth (2 * i + 1) prev 0 - nth i src 0) (i / 2)))).
Proof.
  intros dtime soln src prev h Hd Ls Lr Lp. destruct GS as [Lc _]. pose proof (gm_rocks _ _ _ _ GM) as LR. apply (cells2_ok n N).
  - clear h. intros k h Hk. unfold salinity_cell, term. destruct (rd_ok (rocks m) k) as [r [Rr Er]]; [lia|]. rewrite Rr, Er. cbn [bind].
    destruct (rd_ok cs k) as [c [Rc Ec]]; [lia|]. rewrite Ec.
    destruct (k_local r) eqn:L; cbn [negb]; [|f_equal; apply tab_ext; intros i _; unfold pick; destruct (Nat.even i); ring].
    assert (LL : local_cell m k = true) by (unfold local_cell; rewrite Er; exact L).
    pose proof (gm_owned _ _ _ _ GM k LL) as Hn. rewrite Rc. cbn [bind]. rewrite (rd_nth soln) by lia. cbn [bind].
    unfold SNESAccumulationMass, SNESAccumulationTransport. rewrite !fdiv_ok by exact Hd.
    assert (RP : forall i, (i < 2 * n)%nat -> rd (map Some prev) i = Ok (Some (nth i prev 0))).
    { intros i Hi. destruct (rd_ok prev i) as [x [_ E2]]; [lia|]. unfold rd. rewrite nth_error_map, E2. simpl. rewrite (nth_error_nth _ _ 0 E2). reflexivity. }
    rewrite !RP by lia. cbn [bind]. rewrite (rd_nth src) by lia. cbn [bind]. unfold fl2. cbn [fbind].
    rewrite (add_sub2_ok m n N nb GM h k _ _ _ _ LL). f_equal. apply tab_ext. intros i _. rewrite !(Nat.mul_comm k 2). unfold stored_salt, stored, pick.
    destruct (Nat.even i); unfold Rdiv; ring.
  - intros k Hk. unfold term. replace (nth_error cs k) with (@None cell); [split; reflexivity|]. symmetry. apply nth_error_None. lia.
Qed.

Lemma salinity_ok : forall dtime soln src prev, dtime <> 0 -> length soln = (2 * N)%nat -> length src = N -> length prev = (2 * n)%nat ->
  exists r, SNESFunction_Salinity m cs bs TP TPsi GD dtime soln src (map Some prev) n = Ok r /\
  two_equations r n
    (fun i => outflow m qw i + term m cs (fun i c k => stored c k / dtime - nth (2 * i) prev 0 - k_src k) i)
    (fun i => outflow m qs i + term m cs (fun i c k => stored_salt c k (nth (2 * i + 1) soln 0) / dtime - nth (2 * i + 1) prev 0 - nth i src 0) i).
Proof.
  intros dtime soln src prev Hd Ls Lr Lp. unfold SNESFunction_Salinity. rewrite (vertices2_zero m n N nb GM _ qw qs salinity_flux_ok). cbn [bind].
  rewrite (gm_rocks _ _ _ _ GM), (salinity_cells_ok dtime soln src prev _ Hd Ls Lr Lp). eexists. split; [reflexivity|].
  apply tab_two. intros i Hi. unfold pick. rewrite even_2, even_21, half_2, half_21. split; reflexivity.
Qed.
End Salinity.

Lemma presolve_ok : forall m n N nb cs dtime U a, good_mesh m n N nb -> length cs = N -> dtime <> 0 -> (2 * n <= length U)%nat -> length a = (2 * n)%nat ->
  exists a', PreSolve_Salinity m cs dtime U a = Ok a' /\ length a' = (2 * n)%nat /\
  forall i c k, nth_error cs i = Some c -> nth_error (rocks m) i = Some k -> k_local k = true ->
    nth_error a' (2 * i) = Some (Some (stored c k / dtime)) /\ nth_error a' (2 * i + 1) = Some (Some (stored_salt c k (nth (2 * i + 1) U 0) / dtime)).
Proof.
  intros m n N nb cs dtime U a GM Lc Hd LU La. pose proof (gm_rocks _ _ _ _ GM) as LR. unfold PreSolve_Salinity.
  destruct (for_inv (fun j a' => length a' = (2 * n)%nat /\ forall i c k, (i < j)%nat -> nth_error cs i = Some c -> nth_error (rocks m) i = Some k -> k_local k = true ->
    nth_error a' (2 * i) = Some (Some (stored c k / dtime)) /\ nth_error a' (2 * i + 1) = Some (Some (stored_salt c k (nth (2 * i + 1) U 0) / dtime)))
    (presolve_cell m cs dtime U) (length (rocks m)) a) as [a' [E [L H]]].
  - split; [exact La|]. intros; lia.
  - intros j s Hj [L H]. unfold presolve_cell. destruct (rd_ok (rocks m) j) as [r [Rr Er]]; [lia|]. rewrite Rr. cbn [bind].
    destruct (k_local r) eqn:Lo; cbn [negb].
    2:{ exists s. split; [reflexivity|]. split; [exact L|]. intros i c k Hi Ec Ek Lk. destruct (Nat.eq_dec i j) as [->|D]; [congruence|]. apply H; try assumption; lia. }
    assert (Hn : (j < n)%nat) by (apply (gm_owned _ _ _ _ GM); unfold local_cell; rewrite Er; exact Lo).
    destruct (rd_ok cs j) as [c [Rc Ec]]; [lia|]. rewrite Rc. cbn [bind]. rewrite wr_ok by (unfold fl in *; lia). cbn [bind]. rewrite (rd_nth U) by lia. cbn [bind].
    rewrite wr_ok by (rewrite length_upd; unfold fl in *; lia). eexists. split; [reflexivity|]. split; [rewrite !length_upd; exact L|].
    intros i c' k' Hi Ec' Ek Lk. unfold SNESAccumulationMass, SNESAccumulationTransport. rewrite !fdiv_ok by exact Hd.
    destruct (Nat.eq_dec i j) as [->|D].
    + assert (c' = c) as -> by congruence. assert (k' = r) as -> by congruence. rewrite !(Nat.mul_comm j 2). split.
      * rewrite nth_upd_other by lia. rewrite nth_upd_same by (unfold fl in *; lia). reflexivity.
      * rewrite nth_upd_same by (rewrite length_upd; unfold fl in *; lia). do 2 f_equal. unfold stored_salt, stored, Rdiv. ring.
    + destruct (H i c' k') as [A B]; try assumption; [lia|]. rewrite !(Nat.mul_comm j 2). rewrite !nth_upd_other by lia. split; assumption.
  - exists a'. split; [exact E|]. split; [exact L|]. intros i c k Ec Ek Lk. apply H; try assumption. apply nth_error_Some. congruence.
Qed.

(** ** Water and heat *)

Lemma chop_rounded : forall x, chop x = rounded x.
Proof. reflexivity. Qed.

Lemma enthalpy_ok : forall hs hb N nb z, length hs = N -> length hb = nb -> (- Z.of_nat nb <= z < Z.of_nat N)%Z -> enthalpy_at hs hb z = Ok (side_value (map e_h hs) hb z).
Proof.
  intros hs hb N nb z Lh Lb Hz. unfold enthalpy_at, side_value, Fvtpf.at_. destruct (Z.leb_spec 0 z) as [P|P].
  - destruct (Z.ltb_spec z 0); [lia|]. destruct (rd_ok hs (Z.to_nat z)) as [e [E1 E2]]; [lia|]. rewrite E1. cbn [bind].
    rewrite (nth_error_nth (map e_h hs) _ 0 (x := e_h e)); [reflexivity|]. rewrite nth_error_map, E2. reflexivity.
  - destruct (Z.ltb_spec (- z - 1) 0); [lia|]. apply rd_nth. lia.
Qed.

Lemma unpack_ok : forall off u N, (off < 2)%nat -> (2 * N <= length u)%nat -> unpack off u N = Ok (map (fun c => nth (2 * c + off) u 0) (seq 0 N)).
Proof.
  intros off u N Ho L. unfold unpack.
  destruct (for_inv (fun i out => out = map (fun c => nth (2 * c + off) u 0) (seq 0 i)) (component_of off u) N []) as [s [E ->]].
  - reflexivity.
  - intros i s Hi ->. unfold component_of. rewrite rd_nth by lia. cbn [bind]. eexists. split; [reflexivity|].
    rewrite seq_S, map_app. simpl. do 3 f_equal. lia.
  - exact E.
Qed.
Lemma unpack_short : forall off u N, (length u <= 2 * N - 2)%nat -> (0 < N)%nat -> unpack off u N = UB.
Proof.
  intros off u N L HN. unfold unpack, for_.
  assert (G : forall k start out, (0 < k)%nat -> (length u <= 2 * (start + k) - 2)%nat -> loop k start (component_of off u) out = UB).
  { induction k as [|k IH]; intros start out Hk HL; [lia|]. simpl. unfold component_of at 1.
    destruct (rd u (start * 2 + off)) as [x| |] eqn:E; cbn [bind]; [| |reflexivity].
    - destruct k as [|k]; [|apply IH; lia]. exfalso. unfold rd in E.
      destruct (nth_error u (start * 2 + off)) eqn:E'; [|discriminate]. assert (start * 2 + off < length u)%nat by (apply nth_error_Some; congruence). lia.
    - unfold rd in E. destruct (nth_error u (start * 2 + off)); discriminate. }
  apply G; lia.
Qed.
Lemma nth_unpacked : forall (g : nat -> R) N i, (i < N)%nat -> nth i (map g (seq 0 N)) 0 = g i.
Proof. intros g N i H. rewrite nth_indep with (d' := g 0%nat) by (rewrite map_length, seq_length; exact H). rewrite map_nth, seq_nth by exact H. reflexivity. Qed.

Section Heat.
Variables (m : mesh) (n N nb : nat) (cs : list cell) (bs : list bnd) (hs : list heat) (hb TP TT : list R).
Hypothesis GM : good_mesh m n N nb.
Hypothesis GS : good_state m N nb cs bs TP TT.
Hypothesis Lh : length hs = N.
Hypothesis Lhb : length hb = nb.
Variables qw qe : nat -> nat -> R.
Hypothesis QW : on_faces m cs bs (th_water TP) qw.
Hypothesis QE : on_faces m cs bs (th_energy hs hb TP TT) qe.

Lemma th_flux_ok : forall iv j v f a, nth_error (verts m) iv = Some v -> subface m iv j = Some (v, f, a) -> x_local v = true -> f_local f = true ->
  th_flux cs bs hs hb TP TT (f_up f) (f_dn f) a = Ok (Some (qw iv j), Some (qe iv j)).
Proof.
  intros iv j v f a Hv E Lv Lf. destruct (subface_sides m n N nb cs bs TP TT GM GS iv j v f a E) as [up [dn [Su [Sd [Au [Ad [Vu [Vd Ha]]]]]]]].
  destruct (subface_inv _ _ _ _ _ _ E) as [_ [_ [b [s0 [_ [_ [Ef _]]]]]]]. destruct (gm_face _ _ _ _ GM f (nth_error_In _ _ Ef)) as [Hu Hd].
  assert (AC : active v f = true) by (unfold active; rewrite Lv, Lf; reflexivity).
  destruct GS as [_ [_ [_ [_ [LT LG]]]]]. unfold th_flux.
  rewrite (rd_nth TP) by lia. cbn [bind]. rewrite (rd_nth TT) by lia. cbn [bind]. cbv zeta. rewrite Su. cbn [bind]. rewrite Sd. cbn [bind].
  rewrite mean_density_code, (chop_rounded (nth a TP 0)).
  rewrite (QW iv j v f a up dn E AC Au Ad), (QE iv j v f a up dn E AC Au Ad). cbv zeta.
  set (tp := rounded (nth a TP 0)). rewrite (enthalpy_ok hs hb N nb _ Lh Lhb) by (destruct (Rlt_dec tp 0); lia). cbn [bind].
  set (s := if Rlt_dec tp 0 then up else dn). assert (V : vis s <> 0) by (unfold s; destruct (Rlt_dec _ _); assumption).
  rewrite mobility_code by exact V. cbn [fbind]. rewrite chop_rounded. do 3 f_equal; ring.
Qed.

Definition th_w (p' t' : nat -> R) (i : nat) (c : cell) (e : heat) (k : rock) : R := water_rate c e k (p' i) (t' i) - k_src k * k_vol k.
Definition th_x (p' t' : nat -> R) (i : nat) (c : cell) (e : heat) (k : rock) : R := energy_rate c e k (p' i) (t' i) - e_src e * k_vol k.

Lemma th_cell_ok : forall dp dt temp k i h, length dp = N -> length dt = N -> length temp = N -> nth_error (rocks m) i = Some k -> k_local k = true ->
  th_cell m cs hs dp dt temp k i (tab (n * 2) h) =
  Ok (tab (n * 2) (fun j => h j + coeff (Z.of_nat i =? Z.of_nat (j / 2))%Z * pick j (term2 m cs hs (th_w (fun i => nth i dp 0) (fun i => nth i dt 0)) i) (term2 m cs hs (th_x (fun i => nth i dp 0) (fun i => nth i dt 0)) i))).
Proof.
  intros dp dt temp k i h L1 L2 L3 Ek Lk. destruct GS as [Lc _]. pose proof (gm_rocks _ _ _ _ GM) as LR.
  assert (LL : local_cell m i = true) by (unfold local_cell; rewrite Ek; exact Lk). pose proof (gm_owned _ _ _ _ GM i LL) as Hn.
  assert (HN : (i < N)%nat) by (rewrite <- LR; apply nth_error_Some; congruence).
  unfold th_cell, term2, term. destruct (rd_ok cs i) as [c [Rc Ec]]; [lia|]. destruct (rd_ok hs i) as [e [Re Ee]]; [lia|].
  rewrite Rc, Ec, Re, Ee, Ek, Lk. cbn [bind]. rewrite !rd_nth by lia. cbn [bind].
  rewrite tab_add by lia. cbn [bind]. rewrite tab_add by lia. cbn [bind]. rewrite tab_sub by lia. cbn [bind]. rewrite tab_sub by lia.
  f_equal. apply tab_ext. intros j _. rewrite <- coeff_pair.
  replace (Z.of_nat (i * 2)) with (Z.of_nat i * 2)%Z by lia. replace (Z.of_nat (i * 2 + 1)) with (Z.of_nat i * 2 + 1)%Z by lia.
  unfold th_w, th_x, water_rate, energy_rate, dmass_dP, th_dmass_dT, th_denergy_dP, th_denergy_dT. ring.
Qed.

(** The loop stops at the first ghost; when the owned cells come first, it has
    visited all of them. *)
Lemma th_cells_ok : forall dp dt temp, length dp = N -> length dt = N -> length temp = N ->
  (forall i, (i < N)%nat -> local_cell m i = true <-> (i < n)%nat) ->
  forall fuel i h, (i + fuel = N)%nat ->
  th_cells m cs hs dp dt temp fuel i (tab (n * 2) h) =
  Ok (tab (n * 2) (fun j => h j + (if (i <=? j / 2)%nat then
     pick j (term2 m cs hs (th_w (fun i => nth i dp 0) (fun i => nth i dt 0)) (j / 2)) (term2 m cs hs (th_x (fun i => nth i dp 0) (fun i => nth i dt 0)) (j / 2)) else 0))).
Proof.
  intros dp dt temp L1 L2 L3 OF fuel. pose proof (gm_rocks _ _ _ _ GM) as LR.
  assert (Z : forall w j, (N <= j)%nat -> term2 m cs hs w j = 0).
  { intros w j Hj. unfold term2. replace (nth_error hs j) with (@None heat); [reflexivity|]. symmetry. apply nth_error_None. lia. }
  induction fuel as [|fuel IH]; intros i h Hi; cbn [th_cells].
  - f_equal. apply tab_ext. intros j _. destruct (Nat.leb_spec i (j / 2)) as [L|L]; [|ring]. rewrite !Z by lia. unfold pick. destruct (Nat.even j); ring.
  - destruct (rd_ok (rocks m) i) as [k [Rk Ek]]; [lia|]. rewrite Rk. cbn [bind]. pose proof (OF i) as OFi. unfold local_cell in OFi. rewrite Ek in OFi.
    destruct (k_local k) eqn:Lk; cbn [negb].
    + rewrite (th_cell_ok dp dt temp k i h L1 L2 L3 Ek Lk). cbn [bind]. rewrite IH by lia. f_equal. apply tab_ext. intros j _.
      destruct (Z.eqb_spec (Z.of_nat i) (Z.of_nat (j / 2))) as [E|E].
      * assert (i = (j / 2)%nat) as -> by lia. rewrite Nat.leb_refl. destruct (Nat.leb_spec (S (j / 2)) (j / 2)); [lia|]. simpl coeff. ring.
      * simpl coeff. destruct (Nat.leb_spec (S i) (j / 2)), (Nat.leb_spec i (j / 2)); try lia; ring.
    + f_equal. apply tab_ext. intros j Hj. destruct (Nat.leb_spec i (j / 2)) as [L|L]; [|ring]. exfalso.
      assert (~ (i < n)%nat) by (intro C; apply OFi in C; [discriminate|lia]). destruct (even_split j) as [[_ K]|[_ K]]; lia.
Qed.

Lemma th_ok : forall du u, (2 * N <= length du)%nat -> (2 * N <= length u)%nat -> (forall i, (i < N)%nat -> local_cell m i = true <-> (i < n)%nat) ->
  exists r, IFunction_TH m cs bs hs hb TP TT du u n = Ok r /\
  two_equations r n
    (fun i => outflow m qw i + term2 m cs hs (fun i c e k => water_rate c e k (nth (2 * i) du 0) (nth (2 * i + 1) du 0) - k_src k * k_vol k) i)
    (fun i => outflow m qe i + term2 m cs hs (fun i c e k => energy_rate c e k (nth (2 * i) du 0) (nth (2 * i + 1) du 0) - e_src e * k_vol k) i).
Proof.
  intros du u L1 L2 OF. unfold IFunction_TH. rewrite (vertices2_zero m n N nb GM _ qw qe th_flux_ok). cbn [bind].
  rewrite (gm_rocks _ _ _ _ GM). rewrite !unpack_ok by lia. cbn [bind].
  rewrite th_cells_ok; [|rewrite map_length, seq_length; reflexivity..|exact OF|lia].
  eexists. split; [reflexivity|]. apply tab_two. intros i Hi. unfold pick. rewrite even_2, even_21, half_2, half_21.
  destruct (Nat.leb_spec 0 i); [|lia].
  assert (T : forall g g', (forall c e k, (i < N)%nat -> g i c e k = g' i c e k) -> term2 m cs hs g i = term2 m cs hs g' i).
  { intros g g' G. unfold term2, term. destruct (nth_error hs i) as [e|] eqn:Ee; [|reflexivity]. destruct (nth_error cs i) as [c|]; [|reflexivity].
    destruct (nth_error (rocks m) i) as [k|]; [|reflexivity]. destruct (k_local k); [|reflexivity]. apply G. rewrite <- Lh. apply nth_error_Some. congruence. }
  split; f_equal; apply T; intros c e k HN; unfold th_w, th_x; rewrite !nth_unpacked by exact HN; replace (2 * i + 0)%nat with (2 * i)%nat by lia; reflexivity.
Qed.
End Heat.

(** There are such fluxes. *)
Lemma on_faces_exists : forall m cs bs (g : side -> side -> Z -> Z -> nat -> R), exists q, on_faces m cs bs (fun up dn zu zd a x => x = g up dn zu zd a) q.
Proof.
  intros m cs bs g. exists (fun iv j => match subface m iv j with Some (v, f, a) =>
     match side_at cs bs (f_up f), side_at cs bs (f_dn f) with Ok up, Ok dn => g up dn (f_up f) (f_dn f) a | _, _ => 0 end | None => 0 end).
  intros iv j v f a up dn E _ Au Ad. rewrite E, (side_at_spec _ _ _ _ Au), (side_at_spec _ _ _ _ Ad). reflexivity.
Qed.
