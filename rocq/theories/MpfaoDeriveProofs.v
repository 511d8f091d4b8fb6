From Coq Require Import Reals ZArith List Bool Arith Lia Lra.
From Coquelicot Require Import Coquelicot.
From Verif Require Import Prelude Arrays SpecFvtpf FvtpfSumProofs Mpfao MpfaoTs SpecMpfaoTs FvtpfAssemblyProofs MpfaoTsProofs MpfaoJacProofs.
From Verif Require Fvtpf.
Import ListNotations.
Local Open Scope R_scope.

Local Ltac req := match goal with |- @eq _ ?a ?b => change (@eq R a b) end.

Lemma derive_total : forall (q : nat -> R -> R) (dq : nat -> R) p m,
  (forall j, (j < m)%nat -> is_derive (q j) p (dq j)) ->
  is_derive (fun x => total (fun j => q j x) m) p (total dq m).
Proof.
  intros q dq p m; induction m as [|m IH]; intro H; cbn [total]; [apply (is_derive_const 0)|].
  apply (is_derive_plus (V := R_NormedModule) (fun x => total (fun j => q j x) m) (fun x => q m x)); [apply IH; intros; apply H; lia|apply H; lia].
Qed.

Lemma select_nodup : forall l k (g : nat -> R), NoDup l -> 
  (exists i0, (i0 < length l)%nat /\ nth i0 l 0%nat = k /\ (forall g, total (fun i => coeff (nth i l 0 =? k)%nat * g i) (length l) = g i0))
  \/ (~ In k l /\ forall g, total (fun i => coeff (nth i l 0 =? k)%nat * g i) (length l) = 0).
Proof.
  intros l k _ ND. destruct (in_dec Nat.eq_dec k l) as [I|I].
  - left. destruct (In_nth l k 0%nat I) as [i0 [L E]]. exists i0. split; [exact L|]. split; [exact E|]. intro g.
    rewrite (total_ext _ (fun i => coeff (Z.of_nat i =? Z.of_nat i0)%Z * g i)).
    + rewrite total_delta. apply Nat.ltb_lt in L. rewrite L. reflexivity.
    + intros i Hi. do 2 f_equal. destruct (Nat.eqb_spec (nth i l 0%nat) k) as [E'|E'], (Z.eqb_spec (Z.of_nat i) (Z.of_nat i0)) as [F|F]; try reflexivity.
      * exfalso. apply F. f_equal. apply (proj1 (NoDup_nth l 0%nat) ND); [exact Hi|exact L|congruence].
      * exfalso. apply E'. assert (i = i0) as -> by lia. exact E.
  - right. split; [exact I|]. intro g. rewrite (total_ext _ (fun _ => 0)); [apply total_zero|]. intros i Hi.
    destruct (Nat.eqb_spec (nth i l 0%nat) k) as [E|E]; [|simpl; ring]. exfalso. apply I. rewrite <- E. apply nth_In. exact Hi.
Qed.

Section Derivative.
Variables (m : mesh) (n N nb : nat) (cs : list cell) (bs : list bnd) (GD : list R) (T : Trans) (junk : nat -> nat -> R).
Variables (k : nat) (c : R -> cell) (p : R) (TP : R -> list R).
Local Notation csx x := (upd cs k (c x)).
Hypothesis GM : good_mesh m n N nb.
Hypothesis GS : good_state m N nb (csx p) bs (TP p) GD.
Hypothesis LT : forall x, length (TP x) = (4 * length (faces m))%nat.
Hypothesis GV : good_vertices m GD.
Hypothesis AT : allocated m T.
Hypothesis Hk : (k < N)%nat.
Hypothesis CC : consistent c p.
Hypothesis PT : product_of m T k TP.
Hypothesis DU : decided m (csx p) bs (TP p) GD.

Lemma Lcs : length cs = N.
Proof. destruct GS as [L _]. rewrite length_upd in L. exact L. Qed.
Lemma nth_k : forall x, nth_error (csx x) k = Some (c x).
Proof. intro x. rewrite nth_upd, Nat.eqb_refl. pose proof Lcs. destruct (Nat.ltb_spec k (length cs)); [reflexivity|lia]. Qed.
Lemma nth_other : forall x i, i <> k -> nth_error (csx x) i = nth_error cs i.
Proof. intros x i H. rewrite nth_upd. destruct (Nat.eqb_spec k i); [lia|reflexivity]. Qed.
Lemma vis_p : c_vis (c p) <> 0.
Proof. destruct GS as [_ [_ [V _]]]. apply V. exact (nth_error_In _ _ (nth_k p)). Qed.

Lemma good_near : locally p (fun x => good_state m N nb (csx x) bs (TP x) GD).
Proof.
  assert (V : locally p (fun x => c_vis (c x) <> 0)).
  { destruct CC as [_ [_ [D _]]].
    assert (C : continuous (fun x => c_vis (c x)) p) by (apply (ex_derive_continuous (V := R_NormedModule)); eexists; exact D).
    apply (C (fun y => y <> 0)). apply (open_neq 0). exact vis_p. }
  revert V. apply filter_imp. intros x V. destruct GS as [L [Lb [Vc [Vb [_ LG]]]]].
  split; [rewrite length_upd; exact Lcs|]. split; [exact Lb|]. split; [|split; [exact Vb|split; [apply LT|exact LG]]].
  intros c' I. apply In_nth_error in I. destruct I as [i E]. destruct (Nat.eq_dec i k) as [->|NE].
  - rewrite nth_k in E. injection E as <-. exact V.
  - apply Vc. apply (nth_error_In _ i). rewrite nth_other in E by exact NE. rewrite nth_other by exact NE. exact E.
Qed.

Definition dmob (s : side) : R := match s with inl c => c_dKr c * c_dS c / c_vis c - c_Kr c / (c_vis c * c_vis c) * c_dvis c | inr _ => 0 end.

Lemma side_family : forall z s, at_side (csx p) bs z s ->
  exists S, (forall x, side_at (csx x) bs z = Ok (S x)) /\ S p = s
    /\ varies (bc m) (Pref m) p S (coeff (z =? Z.of_nat k)%Z * drho s) (coeff (z =? Z.of_nat k)%Z * dmob s).
Proof.
  intros z s A. destruct (Z.eqb_spec z (Z.of_nat k)) as [->|NE].
  - destruct s as [c'|b]; [|destruct A; lia]. destruct A as [_ E]. rewrite Nat2Z.id, nth_k in E. injection E as <-.
    exists (fun x => inl (c x)). split; [|split; [reflexivity|]].
    + intro x. apply side_at_spec. split; [lia|]. rewrite Nat2Z.id. apply nth_k.
    + simpl coeff. rewrite !Rmult_1_l. apply varies_cell; [exact CC|exact vis_p].
  - exists (fun _ => s). split; [|split; [reflexivity|]].
    + intro x. apply side_at_spec. destruct s as [c'|b]; [|exact A]. destruct A as [P E]. split; [exact P|]. rewrite nth_other in E |- * by lia. exact E.
    + simpl coeff. rewrite !Rmult_0_l. apply varies_const.
Qed.

Lemma flux_of_derive : forall iv j v f a, subface m iv j = Some (v, f, a) -> active v f = true -> (j < length (x_faces v))%nat ->
  is_derive (fun x => flux_of m (csx x) bs (TP x) GD iv j) p (dflux m (csx p) bs (TP p) GD T iv j k).
Proof.
  intros iv j v f a Es A Hj.
  assert (Hv : nth_error (verts m) iv = Some v).
  { unfold subface in Es. destruct (nth_error (verts m) iv) as [v'|]; [|discriminate]. destruct (nth_error (x_faces v') j); [|discriminate].
    destruct (nth_error (x_subs v') j); [|discriminate]. destruct (nth_error (faces m) _); [|discriminate]. congruence. }
  destruct (subface_ok m n N nb (csx p) bs (TP p) GD GM GS iv v j Hv Hj) as [a' [s [f' [up [dn [tp [G [Ra [Rs [Rf [Es' [Eu [Ed [Au [Ad [Vu [Vd [Rt [RG [Hu Hd]]]]]]]]]]]]]]]]]]]].
  rewrite Es in Es'. injection Es' as <- Ea. rewrite <- Ea in *.
  destruct (side_family _ _ Au) as [U [EU [Up VU]]]. destruct (side_family _ _ Ad) as [D [ED [Dp VD]]].
  assert (IF : In f (faces m)) by (apply (nth_error_In _ a'); apply rd_inv; exact Rf).
  destruct (PT iv j v f a Es A) as [PC PN].
  unfold flux_of, dflux. rewrite Es. rewrite Eu, Ed, Rt, RG. destruct (is_closed m f) eqn:CL.
  - apply is_closed_spec in CL.
    apply (is_derive_ext (fun _ => 0)); [|apply (is_derive_const 0)]. intro x. rewrite EU, ED, (rd_some _ _ _ (PC CL x)). req.
    pose proof (gv_closed m GD GV iv j v f a Es CL) as G0. rewrite (rd_some _ _ _ G0) in RG. injection RG as <-.
    unfold the_flux, drive. replace (0 + mean_density (U x) (D x) * 0) with 0 by ring. destruct (blocked _ _ _); ring.
  - assert (NC : ~ closed m f) by (intro H; apply is_closed_spec in H; congruence).
    destruct (PN NC) as [t0 Et].
    apply (is_derive_ext (fun x => the_flux (bc m) (Pref m) (U x) (D x) (t0 + column T iv v j k * x) G)).
    { intro x. rewrite EU, ED, (rd_some _ _ _ (Et x)). reflexivity. }
    assert (Etp : tp = t0 + column T iv v j k * p).
    { pose proof (Et p) as H. apply rd_some in H. rewrite H in Rt. congruence. }
    assert (ND : f_up f <> f_dn f) by (apply (gv_sides m GD GV); exact IF).
    assert (DR : drive (U p) (D p) (t0 + column T iv v j k * p) G <> 0).
    { rewrite Up, Dp, <- Etp. apply (DU iv j v f a); try assumption; apply rd_inv; assumption. }
    pose proof (flux_derive (bc m) (Pref m) p U D (fun x => t0 + column T iv v j k * x) G _ _ _ _ (column T iv v j k) VU VD
      ltac:(auto_derive; [exact I|ring]) DR) as FD.
    match type of FD with is_derive _ _ ?l => match goal with |- is_derive _ _ ?r => replace r with l; [exact FD|] end end.
    clear FD. rewrite Up, Dp, <- Etp. cbv zeta.
    destruct (select_nodup (x_cells v) k (fun _ => 0) (gv_cells m GD GV v (nth_error_In _ _ Hv))) as [[i0 [L0 [E0 S0]]]|[NI S0]].
    + unfold column. rewrite !S0. rewrite E0.
      rewrite (jac_value_cell _ _ _ _ _ _ _ _ _ _ Vu Vd ND (side_sign _ _ _ _ Au) (side_sign _ _ _ _ Ad)).
      cbn [val]. cbv zeta. unfold dmob. destruct (Rlt_dec _ 0); reflexivity.
    + unfold column. rewrite !S0.
      destruct (Z.eqb_spec (f_up f) (Z.of_nat k)) as [E|E]; [exfalso; apply NI; apply (gv_known m GD GV iv j v f a Es k); left; exact E|].
      destruct (Z.eqb_spec (f_dn f) (Z.of_nat k)) as [F|F]; [exfalso; apply NI; apply (gv_known m GD GV iv j v f a Es k); right; exact F|].
      simpl coeff. rewrite !Rmult_0_l. destruct (blocked _ _ _); [reflexivity|]. destruct (Rlt_dec _ 0); req; field.
Qed.

Lemma outflow_derive : forall i,
  is_derive (fun x => net_outflow m (csx x) bs (TP x) GD i) p (all_subfaces m (fun iv j => orientation m iv j i * dflux m (csx p) bs (TP p) GD T iv j k)).
Proof.
  intro i. unfold net_outflow, all_subfaces.
  apply (derive_total (fun iv x => total (fun j => orientation m iv j i * flux_of m (csx x) bs (TP x) GD iv j) (rows m iv))). intros iv Hiv.
  apply (derive_total (fun j x => orientation m iv j i * flux_of m (csx x) bs (TP x) GD iv j)). intros j Hj.
  destruct (Req_dec (orientation m iv j i) 0) as [Z|NZ].
  - rewrite Z. apply (is_derive_ext (fun _ => 0)); [intro; req; ring|]. replace (0 * _) with 0 by ring. apply (is_derive_const 0).
  - apply (is_derive_scal (fun x => flux_of m (csx x) bs (TP x) GD iv j)).
    unfold orientation in NZ. destruct (subface m iv j) as [[[v f] a]|] eqn:Es; [|lra].
    destruct (active v f) eqn:A; [|simpl in NZ; lra]. apply (flux_of_derive iv j v f a Es A).
    unfold rows in Hj. unfold subface in Es. destruct (nth_error (verts m) iv) as [v'|]; [|lia]. destruct (nth_error (x_faces v') j); [|discriminate].
    destruct (nth_error (x_subs v') j); [|discriminate]. destruct (nth_error (faces m) _); [|discriminate]. injection Es as <- _ _. exact Hj.
Qed.

Lemma component_tab : forall h i, (i < n)%nat -> component (Ok (tab n h)) i = Some (h i).
Proof. intros h i H. unfold component. rewrite nth_tab. apply Nat.ltb_lt in H. rewrite H. reflexivity. Qed.

Lemma term_derive : forall (w : R -> nat -> cell -> rock -> R) (dw : nat -> cell -> rock -> R) i,
  (forall x c' r, nth_error cs i = Some c' -> i <> k -> w x i c' r = w p i c' r) ->
  (forall r, i = k -> nth_error (rocks m) k = Some r -> is_derive (fun x => w x k (c x) r) p (dw k (c p) r)) ->
  is_derive (fun x => term m (csx x) (w x) i) p (coeff (i =? k)%nat * term m (csx p) dw i).
Proof.
  intros w dw i Ho Hs. destruct (Nat.eqb_spec i k) as [->|NE].
  - simpl coeff. rewrite Rmult_1_l. unfold term. rewrite nth_k. destruct (nth_error (rocks m) k) as [r|] eqn:Er.
    + destruct (k_local r) eqn:L.
      * apply (is_derive_ext (fun x => w x k (c x) r)); [intro x; rewrite nth_k; reflexivity|]. apply Hs; reflexivity.
      * apply (is_derive_ext (fun _ => 0)); [intro x; rewrite nth_k; reflexivity|apply (is_derive_const 0)].
    + apply (is_derive_ext (fun _ => 0)); [intro x; rewrite nth_k; reflexivity|apply (is_derive_const 0)].
  - simpl coeff. rewrite Rmult_0_l. unfold term.
    apply (is_derive_ext (fun _ => match nth_error cs i with Some c' => match nth_error (rocks m) i with Some r => if k_local r then w p i c' r else 0 | None => 0 end | None => 0 end)); [|apply (is_derive_const (V := R_NormedModule))].
    intro x. rewrite nth_other by exact NE. destruct (nth_error cs i) as [c'|] eqn:E; [|reflexivity]. destruct (nth_error (rocks m) i) as [r|]; [|reflexivity].
    destruct (k_local r); [|reflexivity]. symmetry. apply Ho; [reflexivity|exact NE].
Qed.

(** The transient residual. *)
Lemma IJacobian_derive : forall shift dp0 b0, length dp0 = n ->
  exists B, IJacobian m (csx p) bs (TP p) GD T junk shift (upd dp0 k (shift * p + b0)) = Ok B /\
  forall i, (i < n)%nat -> exists d, Fvtpf.entry B (Z.of_nat i) (Z.of_nat k) = Some d /\
    has_derivative (fun x => component (IFunction m (csx x) bs (TP x) GD (upd dp0 k (shift * x + b0)) n) i) p d.
Proof.
  intros shift dp0 b0 Ld.
  destruct (IJacobian_ok m n N nb (csx p) bs (TP p) GD T junk GM GS GV AT shift (upd dp0 k (shift * p + b0)) ltac:(rewrite length_upd; exact Ld)) as [B [EB HB]].
  exists B. split; [exact EB|]. intros i Hi. eexists. split; [apply HB|].
  exists (fun x => net_outflow m (csx x) bs (TP x) GD i + term m (csx x) (fun i c r => storage_rate c r (nth i (upd dp0 k (shift * x + b0)) 0) - k_src r * k_vol r) i). split.
  - generalize good_near. apply filter_imp. intros x Gx.
    rewrite (IFunction_ok m n N nb (csx x) bs (TP x) GD GM Gx) by (rewrite length_upd; exact Ld). apply component_tab. exact Hi.
  - apply (is_derive_plus (V := R_NormedModule)); [apply outflow_derive|].
    assert (Hik : i = k -> forall x, nth k (upd dp0 k (shift * x + b0)) 0 = shift * x + b0).
    { intros -> x. apply nth_error_nth. rewrite nth_upd, Nat.eqb_refl. destruct (Nat.ltb_spec k (length dp0)); [reflexivity|lia]. }
    destruct (Nat.eq_dec i k) as [->|NE].
    + rewrite Nat.eqb_refl. rewrite <- (Nat.eqb_refl k). 
      apply (term_derive (fun x i c r => storage_rate c r (nth i (upd dp0 k (shift * x + b0)) 0) - k_src r * k_vol r)); [intros; congruence|].
      intros r _ _. destruct CC as [D1 [D2 [D3 [D4 [D5 D6]]]]].
      apply (is_derive_ext (fun x => (c_drho (c x) * c_S (c x) + c_rho (c x) * c_dS (c x)) * k_por r * k_vol r * (shift * x + b0) - k_src r * k_vol r)).
      { intro x. rewrite Hik by reflexivity. reflexivity. }
      rewrite Hik by reflexivity.
      assert (DX : is_derive (fun x => shift * x + b0) p shift) by (auto_derive; [exact I|ring]).
      match goal with |- is_derive ?f p ?l => cut (exists l', l' = l /\ is_derive f p l'); [intros [l' [<- H]]; exact H|] end. eexists. split; cycle 1.
      * apply (is_derive_minus (V := R_NormedModule)); [|apply (is_derive_const (V := R_NormedModule))].
        apply (is_derive_mult (fun x => (c_drho (c x) * c_S (c x) + c_rho (c x) * c_dS (c x)) * k_por r * k_vol r) (fun x => shift * x + b0)); [|exact DX|intros; apply Rmult_comm].
        apply (is_derive_mult (fun x => (c_drho (c x) * c_S (c x) + c_rho (c x) * c_dS (c x)) * k_por r) (fun x => k_vol r)); [|apply (is_derive_const (V := R_NormedModule))|intros; apply Rmult_comm].
        apply (is_derive_mult (fun x => (c_drho (c x) * c_S (c x) + c_rho (c x) * c_dS (c x))) (fun x => k_por r)); [|apply (is_derive_const (V := R_NormedModule))|intros; apply Rmult_comm].
        apply (is_derive_plus (V := R_NormedModule)).
        -- apply (is_derive_mult (fun x => c_drho (c x)) (fun x => c_S (c x))); [exact D2|exact D4|intros; apply Rmult_comm].
        -- apply (is_derive_mult (fun x => c_rho (c x)) (fun x => c_dS (c x))); [exact D1|exact D5|intros; apply Rmult_comm].
      * unfold minus, opp, plus, zero, Hierarchy.mult, dmass_dP, d2mass_dP2; simpl. req. ring.
    + apply (term_derive (fun x i c r => storage_rate c r (nth i (upd dp0 k (shift * x + b0)) 0) - k_src r * k_vol r)); [|intros; congruence].
      intros x c' r _ _. do 2 f_equal. rewrite <- !(nth_default_eq i). unfold nth_default. rewrite !nth_upd. destruct (Nat.eqb_spec k i); [lia|]. reflexivity.
Qed.

(** The residual of one implicit step. *)
Lemma SNESJacobian_derive : forall dtime prev, dtime <> 0 -> length prev = n ->
  exists B, SNESJacobian m (csx p) bs (TP p) GD T junk dtime = Ok B /\
  forall i, (i < n)%nat -> exists d, Fvtpf.entry B (Z.of_nat i) (Z.of_nat k) = Some d /\
    has_derivative (fun x => component (SNESFunction m (csx x) bs (TP x) GD dtime (map Some prev) n) i) p d.
Proof.
  intros dtime prev Hd Lp.
  destruct (SNESJacobian_ok m n N nb (csx p) bs (TP p) GD T junk GM GS GV AT dtime Hd) as [B [EB HB]].
  exists B. split; [exact EB|]. intros i Hi. eexists. split; [apply HB|].
  exists (fun x => net_outflow m (csx x) bs (TP x) GD i + term m (csx x) (fun i c r => stored c r / dtime - nth i prev 0 - k_src r) i). split.
  - generalize good_near. apply filter_imp. intros x Gx.
    rewrite (SNESFunction_ok m n N nb (csx x) bs (TP x) GD GM Gx) by assumption. apply component_tab. exact Hi.
  - apply (is_derive_plus (V := R_NormedModule)); [apply outflow_derive|].
    apply (term_derive (fun x i c r => stored c r / dtime - nth i prev 0 - k_src r)); [reflexivity|].
    intros r _ _. destruct CC as [D1 [D2 [D3 [D4 [D5 D6]]]]].
    apply (is_derive_ext (fun x => (k_por r * k_vol r / dtime) * (c_rho (c x) * c_S (c x)) + (- nth k prev 0 - k_src r))).
    { intro x. req. unfold stored. field. exact Hd. }
    match goal with |- is_derive ?f p ?l => cut (exists l', l' = l /\ is_derive f p l'); [intros [l' [<- H]]; exact H|] end. eexists. split; cycle 1.
    + apply (is_derive_plus (V := R_NormedModule)); [|apply (is_derive_const (V := R_NormedModule))].
      apply (is_derive_scal (fun x => c_rho (c x) * c_S (c x))).
      apply (is_derive_mult (fun x => c_rho (c x)) (fun x => c_S (c x))); [exact D1|exact D4|intros; apply Rmult_comm].
    + unfold minus, opp, plus, zero, Hierarchy.mult, dmass_dP; simpl. req. field. exact Hd.
Qed.
End Derivative.
