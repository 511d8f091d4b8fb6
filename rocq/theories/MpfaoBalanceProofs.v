From Coq Require Import Reals ZArith List Bool Arith Lia Lra.
From Coquelicot Require Import Coquelicot.
From Verif Require Import Prelude Arrays SpecFvtpf FvtpfSumProofs Mpfao MpfaoTs SpecMpfaoTs MpfaoTsProofs MpfaoJacProofs MpfaoDeriveProofs.
From Verif Require Fvtpf.
Import ListNotations.
Local Open Scope R_scope.

(** ** The fluxes are determined *)

Section Balance.
Variables (m : mesh) (n N nb : nat) (cs : list cell) (bs : list bnd) (TP GD : list R) (q : nat -> nat -> R).
Hypothesis GM : good_mesh m n N nb.
Hypothesis GS : good_state m N nb cs bs TP GD.
Hypothesis Q : is_flux m cs bs TP GD q.

Lemma flux_unique : forall iv j v f a, subface m iv j = Some (v, f, a) -> active v f = true -> q iv j = flux_of m cs bs TP GD iv j.
Proof.
  intros iv j v f a Es A.
  assert (Hv : nth_error (verts m) iv = Some v /\ (j < length (x_faces v))%nat).
  { unfold subface in Es. destruct (nth_error (verts m) iv) as [v'|]; [|discriminate]. destruct (nth_error (x_faces v') j) eqn:E; [|discriminate].
    destruct (nth_error (x_subs v') j); [|discriminate]. destruct (nth_error (faces m) _); [|discriminate]. injection Es as <- _ _.
    split; [reflexivity|]. apply nth_error_Some. congruence. }
  destruct Hv as [Hv Hj].
  destruct (subface_ok m n N nb cs bs TP GD GM GS iv v j Hv Hj) as [a' [s [f' [up [dn [tp [G [Ra [Rs [Rf [Es' [Eu [Ed [Au [Ad [Vu [Vd [Rt [RG _]]]]]]]]]]]]]]]]]]].
  rewrite Es in Es'. injection Es' as <- Ea. rewrite <- Ea in *.
  pose proof (rd_inv _ _ _ Rt) as Nt. pose proof (rd_inv _ _ _ RG) as NG.
  destruct (Q iv j v f a up dn tp G Es A Au Ad Nt NG) as [Q1 Q2].
  destruct (flux_of_spec m cs bs TP GD iv j v f a up dn tp G Es A Au Ad Nt NG) as [F1 F2].
  cbv zeta in *. set (s' := if Rlt_dec _ 0 then up else dn) in *.
  destruct (blocked (bc m) (Pref m) s') eqn:B.
  - apply blocked_spec in B. rewrite (Q1 B), (F1 B). reflexivity.
  - assert (NB : ~ dry_seepage (bc m) (Pref m) s') by (intro H; apply blocked_spec in H; congruence). rewrite (Q2 NB), (F2 NB). reflexivity.
Qed.

Lemma all_ext : forall h h', (forall iv j, h iv j = h' iv j) -> all_subfaces m h = all_subfaces m h'.
Proof. intros h h' E. unfold all_subfaces. apply total_ext. intros iv _. apply total_ext. intros j _. apply E. Qed.

Lemma net_is : forall i, net_outflow m cs bs TP GD i = all_subfaces m (fun iv j => orientation m iv j i * q iv j).
Proof.
  intro i. apply all_ext. intros iv j. unfold orientation. destruct (subface m iv j) as [[[v f] a]|] eqn:Es; [|ring].
  destruct (active v f) eqn:A; [|cbn [andb]; ring]. rewrite (flux_unique iv j v f a Es A). reflexivity.
Qed.
Lemma crossing_is : all_subfaces m (fun iv j => crossing m iv j * flux_of m cs bs TP GD iv j) = all_subfaces m (fun iv j => crossing m iv j * q iv j).
Proof.
  apply all_ext. intros iv j. unfold crossing. destruct (subface m iv j) as [[[v f] a]|] eqn:Es; [|ring].
  destruct (active v f) eqn:A; [|ring]. rewrite (flux_unique iv j v f a Es A). reflexivity.
Qed.

Lemma balance : forall dp_dt, length dp_dt = n ->
  exists r, IFunction m cs bs TP GD dp_dt n = Ok (map Some r) /\ length r = n
  /\ (forall i, (i < n)%nat -> nth i r 0 = all_subfaces m (fun iv j => orientation m iv j i * q iv j)
                                  + term m cs (fun i c k => storage_rate c k (nth i dp_dt 0) - k_src k * k_vol k) i)
  /\ total (fun i => nth i r 0) n = total (term m cs (fun i c k => storage_rate c k (nth i dp_dt 0) - k_src k * k_vol k)) n
                                  + all_subfaces m (fun iv j => crossing m iv j * q iv j).
Proof.
  intros dp_dt Ld. rewrite (IFunction_ok m n N nb cs bs TP GD GM GS dp_dt Ld).
  set (h := fun i => _ + _).
  exists (map h (seq 0 n)). split; [unfold tab; rewrite map_map; reflexivity|]. split; [rewrite map_length, seq_length; reflexivity|].
  assert (E : forall i, (i < n)%nat -> nth i (map h (seq 0 n)) 0 = h i).
  { intros i Hi. rewrite nth_indep with (d' := h 0%nat) by (rewrite map_length, seq_length; exact Hi). rewrite map_nth, seq_nth by exact Hi. reflexivity. }
  split.
  - intros i Hi. rewrite E by exact Hi. unfold h. rewrite net_is. reflexivity.
  - rewrite (total_ext _ h) by exact E. unfold h. rewrite total_plus, (total_net m n N nb cs bs TP GD GM), crossing_is. apply Rplus_comm.
Qed.
End Balance.

Lemma all_zero : forall m, all_subfaces m (fun _ _ => 0) = 0.
Proof. intro m. unfold all_subfaces. rewrite (total_ext _ (fun _ => 0)); [apply total_zero|]. intros; apply total_zero. Qed.

(** With a single process only the sub-faces on the boundary remain. *)
Lemma crossing_serial : forall m n N nb, good_mesh m n N nb -> (forall k, In k (rocks m) -> k_local k = true) ->
  forall iv j v f a, subface m iv j = Some (v, f, a) -> (0 <= f_up f)%Z -> (0 <= f_dn f)%Z -> crossing m iv j = 0.
Proof.
  intros m n N nb GM SL iv j v f a Es Hu Hd. unfold crossing. rewrite Es. destruct (active v f); [|reflexivity].
  assert (IF : In f (faces m)).
  { unfold subface in Es. destruct (nth_error (verts m) iv) as [v'|]; [|discriminate]. destruct (nth_error (x_faces v') j) as [b|]; [|discriminate].
    destruct (nth_error (x_subs v') j); [|discriminate]. destruct (nth_error (faces m) b) eqn:E; [|discriminate]. injection Es as _ <- _. exact (nth_error_In _ _ E). }
  destruct (gm_face _ _ _ _ GM f IF) as [Ru Rd].
  assert (O : forall z, (0 <= z < Z.of_nat N)%Z -> owned m z = true).
  { intros z Hz. unfold owned. apply andb_true_iff. split; [apply Z.leb_le; lia|]. unfold local_cell.
    destruct (nth_error (rocks m) (Z.to_nat z)) as [k|] eqn:E; [apply SL; exact (nth_error_In _ _ E)|]. apply nth_error_None in E. rewrite (gm_rocks _ _ _ _ GM) in E. lia. }
  rewrite !O by lia. simpl. ring.
Qed.

Lemma closed_domain : forall m n N nb cs bs TP GD dp_dt, good_mesh m n N nb -> good_state m N nb cs bs TP GD ->
  length dp_dt = n -> (forall k, In k (rocks m) -> k_local k = true) -> bc m = NeumannBC ->
  (forall iv j v f a, subface m iv j = Some (v, f, a) -> closed m f -> nth_error TP a = Some 0 /\ nth_error GD a = Some 0) ->
  exists r, IFunction m cs bs TP GD dp_dt n = Ok (map Some r) /\ length r = n
  /\ total (fun i => nth i r 0) n = total (term m cs (fun i c k => storage_rate c k (nth i dp_dt 0) - k_src k * k_vol k)) n.
Proof.
  intros m n N nb cs bs TP GD dp_dt GM GS Ld SL BC Z.
  destruct (balance m n N nb cs bs TP GD _ GM GS (flux_of_spec m cs bs TP GD) dp_dt Ld) as [r [E [L [_ T]]]].
  exists r. split; [exact E|]. split; [exact L|]. rewrite T. 
  rewrite (all_ext m _ (fun _ _ => 0)).
  - rewrite all_zero. ring.
  - intros iv j. destruct (subface m iv j) as [[[v f] a]|] eqn:Es; [|unfold crossing; rewrite Es; ring].
    destruct (Z_lt_le_dec (f_up f) 0) as [U|U].
    + destruct (Z iv j v f a Es (conj BC (or_introl U))) as [T0 G0]. unfold flux_of. rewrite Es, (rd_some _ _ _ T0), (rd_some _ _ _ G0).
      destruct (side_at cs bs (f_up f)); [|ring|ring]. destruct (side_at cs bs (f_dn f)); [|ring|ring]. unfold the_flux, drive.
      replace (0 + mean_density a0 a1 * 0) with 0 by ring. destruct (blocked _ _ _); ring.
    + destruct (Z_lt_le_dec (f_dn f) 0) as [D|D].
      * destruct (Z iv j v f a Es (conj BC (or_intror D))) as [T0 G0]. unfold flux_of. rewrite Es, (rd_some _ _ _ T0), (rd_some _ _ _ G0).
        destruct (side_at cs bs (f_up f)); [|ring|ring]. destruct (side_at cs bs (f_dn f)); [|ring|ring]. unfold the_flux, drive.
        replace (0 + mean_density a0 a1 * 0) with 0 by ring. destruct (blocked _ _ _); ring.
      * rewrite (crossing_serial m n N nb GM SL iv j v f a Es U D). ring.
Qed.

(** ** Seepage *)

Lemma seepage_up : forall Pref b c tp G, b_vis b <> 0 -> c_vis c <> 0 -> b_P b <= Pref ->
  0 <= b_rho b -> 0 <= c_rho c -> 0 <= c_Kr c / c_vis c ->
  exists v, fluxm SeepageBC Pref (inr b) (inl c) tp G = Some v /\ v <= 0
    /\ (0 < drive (inr b) (inl c) tp G -> 0 < c_rho c -> 0 < c_Kr c / c_vis c -> v < 0).
Proof.
  intros Pref b c tp G Vb Vc HP Rb Rc M. rewrite fluxm_value by assumption. eexists. split; [reflexivity|].
  unfold the_flux. set (d := drive (inr b) (inl c) tp G). destruct (Rlt_dec d 0) as [L|L].
  - simpl blocked. destruct (Rle_dec (b_P b) Pref); [|contradiction]. split; [lra|intros; lra].
  - simpl. unfold mean_density; simpl. assert (0 <= (b_rho b + c_rho c) / 2) by lra.
    split.
    + assert (0 <= (b_rho b + c_rho c) / 2 * (c_Kr c / c_vis c) * d) by (apply Rmult_le_pos; [apply Rmult_le_pos; lra|lra]). lra.
    + intros D Rc' M'. assert (0 < (b_rho b + c_rho c) / 2 * (c_Kr c / c_vis c) * d) by (apply Rmult_lt_0_compat; [apply Rmult_lt_0_compat; lra|lra]). lra.
Qed.
Lemma seepage_dn : forall Pref b c tp G, b_vis b <> 0 -> c_vis c <> 0 -> b_P b <= Pref ->
  0 <= b_rho b -> 0 <= c_rho c -> 0 <= c_Kr c / c_vis c ->
  exists v, fluxm SeepageBC Pref (inl c) (inr b) tp G = Some v /\ 0 <= v
    /\ (drive (inl c) (inr b) tp G < 0 -> 0 < c_rho c -> 0 < c_Kr c / c_vis c -> 0 < v).
Proof.
  intros Pref b c tp G Vb Vc HP Rb Rc M. rewrite fluxm_value by assumption. eexists. split; [reflexivity|].
  unfold the_flux. set (d := drive (inl c) (inr b) tp G). destruct (Rlt_dec d 0) as [L|L].
  - simpl. unfold mean_density; simpl. assert (0 <= (c_rho c + b_rho b) / 2) by lra.
    split.
    + assert (0 <= (c_rho c + b_rho b) / 2 * (c_Kr c / c_vis c) * - d) by (apply Rmult_le_pos; [apply Rmult_le_pos; lra|lra]). lra.
    + intros D Rc' M'. assert (0 < (c_rho c + b_rho b) / 2 * (c_Kr c / c_vis c) * - d) by (apply Rmult_lt_0_compat; [apply Rmult_lt_0_compat; lra|lra]). lra.
  - simpl blocked. destruct (Rle_dec (b_P b) Pref); [|contradiction]. split; [lra|intros; contradiction].
Qed.

(** ** The product *)

Lemma mult_affine : forall l P k x row, mult l (with_cell P k x) row = mult l (with_cell P k 0) row + sum_at l row k * x.
Proof.
  intros l P k x row. induction l as [|[[r c] y] l IH]; simpl; [ring|]. rewrite IH. unfold with_cell at 1 3.
  destruct (Nat.eqb_spec r row), (Nat.eqb_spec c k); simpl; ring.
Qed.
Lemma mult_none : forall l P row, (forall e, In e l -> fst (fst e) <> row) -> mult l P row = 0.
Proof.
  intros l P row H. induction l as [|[[r c] y] l IH]; simpl; [reflexivity|].
  destruct (Nat.eqb_spec r row) as [E|E]; [exfalso; apply (H (r, c, y)); [left; reflexivity|exact E]|]. rewrite IH; [ring|]. intros e I. apply H. right. exact I.
Qed.
Lemma mult_ext : forall l P P' row, (forall c, P c = P' c) -> mult l P row = mult l P' row.
Proof. intros l P P' row E. induction l as [|[[r c] y] l IH]; simpl; [reflexivity|]. rewrite IH, E. reflexivity. Qed.

Lemma subface_bound : forall m n N nb iv j v f a, good_mesh m n N nb -> subface m iv j = Some (v, f, a) -> (a < 4 * length (faces m))%nat.
Proof.
  intros m n N nb iv j v f a GM Es. unfold subface in Es. destruct (nth_error (verts m) iv) as [v'|] eqn:Ev; [|discriminate].
  destruct (nth_error (x_faces v') j) as [b|] eqn:Eb; [|discriminate]. destruct (nth_error (x_subs v') j) as [s|] eqn:E; [|discriminate].
  destruct (nth_error (faces m) b); [|discriminate]. injection Es as <- _ <-.
  destruct (gm_vert _ _ _ _ GM v' (nth_error_In _ _ Ev)) as [_ [Fa Fs]]. specialize (Fa b (nth_error_In _ _ Eb)). specialize (Fs s (nth_error_In _ _ E)). lia.
Qed.
Lemma TtimesP_nth : forall m l P a, (a < 4 * length (faces m))%nat -> nth_error (TtimesP m l P) a = Some (mult l P a).
Proof.
  intros m l P a H. unfold TtimesP. rewrite nth_error_map, nth_error_nth' with (d := 0%nat) by (rewrite seq_length; exact H). rewrite seq_nth by exact H. reflexivity.
Qed.

Lemma product_placed : forall m n N nb T l f adj P k, good_mesh m n N nb -> placed m T N l -> (k < N)%nat ->
  product_of m T k (fun x => TtimesP m l (P_vec (Some f) adj N (with_cell P k x))).
Proof.
  intros m n N nb T l f adj P k GM PL Hk iv j v fc a Es A. pose proof (subface_bound _ _ _ _ _ _ _ _ _ GM Es) as B.
  destruct (PL iv j v fc a Es A) as [PC PN]. split.
  - intros C x. rewrite TtimesP_nth by exact B. rewrite mult_none by exact (PC C). reflexivity.
  - intro NC. exists (mult l (with_cell (P_vec (Some f) adj N P) k 0) a). intro x. rewrite TtimesP_nth by exact B.
    rewrite (mult_ext l _ (with_cell (P_vec (Some f) adj N P) k x)).
    + rewrite mult_affine, (PN NC k Hk). reflexivity.
    + intro c. unfold P_vec, with_cell. destruct (Nat.ltb_spec c N), (Nat.eqb_spec c k); try reflexivity. lia.
Qed.

Lemma length_TtimesP : forall m l P, length (TtimesP m l P) = (4 * length (faces m))%nat.
Proof. intros. unfold TtimesP. rewrite map_length, seq_length. reflexivity. Qed.

Lemma ts_jacobian : forall m n N nb cs bs GD T junk k c p l f adj P shift dp0 b0,
  good_mesh m n N nb -> (k < N)%nat -> consistent c p -> good_vertices m GD -> allocated m T -> placed m T N l -> length dp0 = n ->
  let TP x := TtimesP m l (P_vec (Some f) adj N (with_cell P k x)) in
  good_state m N nb (upd cs k (c p)) bs (TP p) GD -> decided m (upd cs k (c p)) bs (TP p) GD ->
  exists B, IJacobian m (upd cs k (c p)) bs (TP p) GD T junk shift (upd dp0 k (shift * p + b0)) = Ok B /\
  forall i, (i < n)%nat -> exists d, Fvtpf.entry B (Z.of_nat i) (Z.of_nat k) = Some d /\
    has_derivative (fun x => component (IFunction m (upd cs k (c x)) bs (TP x) GD (upd dp0 k (shift * x + b0)) n) i) p d.
Proof.
  intros m n N nb cs bs GD T junk k c p l f adj P shift dp0 b0 GM Hk CC GV AT PL Ld TP GS DU.
  exact (IJacobian_derive m n N nb cs bs GD T junk k c p TP GM GS (fun x => length_TtimesP m l _) GV AT Hk CC (product_placed m n N nb T l f adj P k GM PL Hk) DU shift dp0 b0 Ld).
Qed.
Lemma snes_jacobian : forall m n N nb cs bs GD T junk k c p l f adj P dtime prev,
  good_mesh m n N nb -> (k < N)%nat -> consistent c p -> good_vertices m GD -> allocated m T -> placed m T N l -> dtime <> 0 -> length prev = n ->
  let TP x := TtimesP m l (P_vec (Some f) adj N (with_cell P k x)) in
  good_state m N nb (upd cs k (c p)) bs (TP p) GD -> decided m (upd cs k (c p)) bs (TP p) GD ->
  exists B, SNESJacobian m (upd cs k (c p)) bs (TP p) GD T junk dtime = Ok B /\
  forall i, (i < n)%nat -> exists d, Fvtpf.entry B (Z.of_nat i) (Z.of_nat k) = Some d /\
    has_derivative (fun x => component (SNESFunction m (upd cs k (c x)) bs (TP x) GD dtime (map Some prev) n) i) p d.
Proof.
  intros m n N nb cs bs GD T junk k c p l f adj P dtime prev GM Hk CC GV AT PL Hd Lp TP GS DU.
  exact (SNESJacobian_derive m n N nb cs bs GD T junk k c p TP GM GS (fun x => length_TtimesP m l _) GV AT Hk CC (product_placed m n N nb T l f adj P k GM PL Hk) DU dtime prev Hd Lp).
Qed.

(** ** The other formulations *)

Lemma storage_chain : forall (c : R -> cell) (P : R -> R) t dP k, consistent c (P t) -> is_derive P t dP ->
  is_derive (fun t => stored (c (P t)) k) t (storage_rate (c (P t)) k dP).
Proof.
  intros c P t dP k [D1 [_ [_ [D4 _]]]] DP.
  apply (is_derive_ext (fun t => (k_por k * k_vol k) * (fun x => c_rho (c x) * c_S (c x)) (P t))).
  { intro x. unfold stored. match goal with |- @eq _ ?a ?b => change (@eq R a b) end. ring. }
  replace (storage_rate (c (P t)) k dP) with ((k_por k * k_vol k) * (dP * (c_drho (c (P t)) * c_S (c (P t)) + c_rho (c (P t)) * c_dS (c (P t)))))
    by (unfold storage_rate; ring).
  apply (is_derive_scal (fun t => (fun x => c_rho (c x) * c_S (c x)) (P t))).
  apply (is_derive_comp (fun x => c_rho (c x) * c_S (c x)) P); [|exact DP].
  apply (is_derive_mult (fun x => c_rho (c x)) (fun x => c_S (c x))); [exact D1|exact D4|intros; apply Rmult_comm].
Qed.

Section Formulations.
Variables (m : mesh) (n N nb : nat) (cs : list cell) (bs : list bnd) (TP GD : list R) (q : nat -> nat -> R).
Hypothesis GM : good_mesh m n N nb.
Hypothesis GS : good_state m N nb cs bs TP GD.
Hypothesis Q : is_flux m cs bs TP GD q.
Notation outflow i := (all_subfaces m (fun iv j => orientation m iv j i * q iv j)).

Lemma term_owned : forall w i c k, nth_error cs i = Some c -> nth_error (rocks m) i = Some k -> k_local k = true -> term m cs w i = w i c k.
Proof. intros w i c k Ec Ek L. unfold term. rewrite Ec, Ek, L. reflexivity. Qed.

Lemma owned_bound : forall i k, nth_error (rocks m) i = Some k -> k_local k = true -> (i < n)%nat.
Proof. intros i k E L. apply (gm_owned _ _ _ _ GM). unfold local_cell. rewrite E. exact L. Qed.

Lemma ts_component : forall dp_dt i c k, length dp_dt = n -> nth_error cs i = Some c -> nth_error (rocks m) i = Some k -> k_local k = true ->
  component (IFunction m cs bs TP GD dp_dt n) i = Some (outflow i + storage_rate c k (nth i dp_dt 0) - k_src k * k_vol k).
Proof.
  intros dp_dt i c k Ld Ec Ek L. rewrite (IFunction_ok m n N nb cs bs TP GD GM GS dp_dt Ld), component_tab by exact (owned_bound i k Ek L).
  rewrite (net_is m n N nb cs bs TP GD q GM GS Q), (term_owned _ i c k Ec Ek L). f_equal. ring.
Qed.
Lemma tv_component : forall dm_dt i c k, length dm_dt = n -> nth_error cs i = Some c -> nth_error (rocks m) i = Some k -> k_local k = true ->
  component (IFunction_TransientVariable m cs bs TP GD dm_dt n) i = Some (outflow i + nth i dm_dt 0 * k_vol k - k_src k * k_vol k).
Proof.
  intros dm_dt i c k Ld Ec Ek L. rewrite (IFunction_TransientVariable_ok m n N nb cs bs TP GD GM GS dm_dt Ld), component_tab by exact (owned_bound i k Ek L).
  rewrite (net_is m n N nb cs bs TP GD q GM GS Q), (term_owned _ i c k Ec Ek L). f_equal. ring.
Qed.
Lemma snes_component : forall dtime prev i c k, dtime <> 0 -> length prev = n -> nth_error cs i = Some c -> nth_error (rocks m) i = Some k -> k_local k = true ->
  component (SNESFunction m cs bs TP GD dtime (map Some prev) n) i = Some (outflow i + (stored c k / dtime - nth i prev 0) - k_src k).
Proof.
  intros dtime prev i c k Hd Lp Ec Ek L. rewrite (SNESFunction_ok m n N nb cs bs TP GD GM GS dtime prev Hd Lp), component_tab by exact (owned_bound i k Ek L).
  rewrite (net_is m n N nb cs bs TP GD q GM GS Q), (term_owned _ i c k Ec Ek L). f_equal. ring.
Qed.

Lemma dae_ok : forall ms u_t, length ms = n -> length u_t = (2 * n)%nat ->
  exists r, IFunction_DAE m cs bs TP GD ms u_t n = Ok r /\ length r = (2 * n)%nat /\
  forall i c k, nth_error cs i = Some c -> nth_error (rocks m) i = Some k -> k_local k = true ->
    nth_error r (2 * i) = Some (Some (outflow i + nth (2 * i + 1) u_t 0 * k_vol k - k_src k * k_vol k))
    /\ nth_error r (2 * i + 1) = Some (Some (nth i ms 0 - stored c k)).
Proof.
  intros ms u_t Lm Lu. unfold IFunction_DAE. rewrite tab_zero, (vertices_ok m n N nb cs bs TP GD GM GS). cbn [bind].
  set (rp := tab n _).
  assert (Lr : length (rocks m) = N) by apply (gm_rocks _ _ _ _ GM). pose proof GS as [Lc _].
  destruct (for_inv (fun j (r : list fl) => length r = (2 * n)%nat /\ forall i c k, (i < j)%nat -> nth_error cs i = Some c -> nth_error (rocks m) i = Some k -> k_local k = true ->
     nth_error r (2 * i) = Some (Some (outflow i + nth (2 * i + 1) u_t 0 * k_vol k - k_src k * k_vol k))
     /\ nth_error r (2 * i + 1) = Some (Some (nth i ms 0 - stored c k)))
     (dae_cell m cs ms u_t rp) (length (rocks m)) (repeat (Some 0) (n * 2))) as [r [E [L H]]].
  - split; [rewrite repeat_length; lia|]. intros; lia.
  - intros j r Hj [L H]. unfold dae_cell. destruct (rd_ok (rocks m) j Hj) as [k [Rk Ek]]. rewrite Rk. cbn [bind].
    destruct (k_local k) eqn:K; cbn [negb].
    + pose proof (owned_bound j k Ek K) as Hn. destruct (rd_ok u_t (j * 2 + 1)) as [d [Rd Ed]]; [lia|]. rewrite Rd. cbn [bind].
      unfold rp. unfold rd at 1. rewrite nth_tab. destruct (Nat.ltb_spec j n); [|lia]. cbn [bind].
      rewrite wr_ok by lia. cbn [bind]. destruct (rd_ok ms j) as [M [RM EM]]; [lia|]. rewrite RM. cbn [bind].
      destruct (rd_ok cs j) as [c [Rc Ec]]; [lia|]. rewrite Rc. cbn [bind]. rewrite wr_ok by (rewrite length_upd; lia).
      eexists. split; [reflexivity|]. split; [rewrite !length_upd; exact L|].
      intros i c' k' Hi Ec' Ek' K'. rewrite !nth_upd, !length_upd.
      destruct (Nat.eq_dec i j) as [->|NE].
      * rewrite Ec in Ec'. injection Ec' as <-. rewrite Ek in Ek'. injection Ek' as <-.
        replace (j * 2 + 1 =? 2 * j)%nat with false by (symmetry; apply Nat.eqb_neq; lia).
        replace (j * 2 =? 2 * j)%nat with true by (symmetry; apply Nat.eqb_eq; lia).
        replace (j * 2 + 1 =? 2 * j + 1)%nat with true by (symmetry; apply Nat.eqb_eq; lia).
        replace (j * 2 <? length r)%nat with true by (symmetry; apply Nat.ltb_lt; lia).
        replace (j * 2 + 1 <? length r)%nat with true by (symmetry; apply Nat.ltb_lt; lia). cbn [andb].
        replace (2 * j + 1)%nat with (j * 2 + 1)%nat by lia. rewrite (nth_error_nth _ _ _ Ed), (nth_error_nth _ _ _ EM). split.
        -- cbn [fl1 fbind]. do 2 f_equal. fold (net_outflow m cs bs TP GD j). rewrite (net_is m n N nb cs bs TP GD q GM GS Q). ring.
        -- reflexivity.
      * replace (j * 2 + 1 =? 2 * i)%nat with false by (symmetry; apply Nat.eqb_neq; lia).
        replace (j * 2 =? 2 * i)%nat with false by (symmetry; apply Nat.eqb_neq; lia).
        replace (j * 2 + 1 =? 2 * i + 1)%nat with false by (symmetry; apply Nat.eqb_neq; lia).
        replace (j * 2 =? 2 * i + 1)%nat with false by (symmetry; apply Nat.eqb_neq; lia). cbn [andb].
        apply (H i c' k'); [lia|assumption..].
    + exists r. split; [reflexivity|]. split; [exact L|]. intros i c' k' Hi Ec' Ek' K'. destruct (Nat.eq_dec i j) as [->|NE]; [congruence|]. apply (H i c' k'); [lia|assumption..].
  - exists r. split; [exact E|]. split; [exact L|]. intros i c k Ec Ek K. apply H; [|assumption..]. apply nth_error_Some. congruence.
Qed.
End Formulations.
