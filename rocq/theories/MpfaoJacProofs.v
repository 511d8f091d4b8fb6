From Coq Require Import Reals ZArith List Bool Arith Lia Lra.
From Coquelicot Require Import Coquelicot.
From Verif Require Import Prelude Arrays SpecFvtpf FvtpfSumProofs Mpfao MpfaoTs SpecMpfaoTs FvtpfAssemblyProofs MpfaoTsProofs.
From Verif Require Fvtpf.
Import ListNotations.
Local Open Scope R_scope.

Local Ltac req := match goal with |- @eq _ ?a ?b => change (@eq R a b) end.

(** ** Derivative of the flux of one sub-face *)

Section Flux.
Variables (b : bctype) (Pref p : R).

(** A side that may vary: derivatives of its density and mobility. *)
Definition varies (S : R -> side) (dr dm : R) : Prop :=
  is_derive (fun x => density (S x)) p dr /\ is_derive (fun x => mobility (S x)) p dm /\ (forall x, blocked b Pref (S x) = blocked b Pref (S p)).

Lemma varies_const : forall s, varies (fun _ => s) 0 0.
Proof. intro s. split; [apply (is_derive_const (density s))|]. split; [apply (is_derive_const (mobility s))|reflexivity]. Qed.

Lemma varies_cell : forall c, consistent c p -> c_vis (c p) <> 0 ->
  varies (fun x => inl (c x)) (c_drho (c p)) (c_dKr (c p) * c_dS (c p) / c_vis (c p) - c_Kr (c p) / (c_vis (c p) * c_vis (c p)) * c_dvis (c p)).
Proof.
  intros c [D1 [_ [D3 [_ [_ D6]]]]] V. split; [exact D1|]. split.
  - cbn [mobility]. replace (_ - _) with ((c_dKr (c p) * c_dS (c p) * c_vis (c p) - c_Kr (c p) * c_dvis (c p)) / c_vis (c p) ^ 2) by (field; exact V).
    apply (is_derive_div (fun x => c_Kr (c x)) (fun x => c_vis (c x)) p _ _ D6 D3 V).
  - intro x. destruct b; reflexivity.
Qed.

Lemma flux_derive : forall U D (tp : R -> R) G ru mu rd md (t : R),
  varies U ru mu -> varies D rd md -> is_derive tp p t -> drive (U p) (D p) (tp p) G <> 0 ->
  is_derive (fun x => the_flux b Pref (U x) (D x) (tp x) G) p
    (let d := drive (U p) (D p) (tp p) G in
     let s := if Rlt_dec d 0 then U p else D p in
     let ms := if Rlt_dec d 0 then mu else md in
     if blocked b Pref s then 0
     else - ((ru + rd) / 2 * mobility s * d + mean_density (U p) (D p) * ms * d + mean_density (U p) (D p) * mobility s * (t + (ru + rd) / 2 * G))).
Proof.
  intros U D tp G ru mu rd md t [RU [MU BU]] [RD [MD BD]] DT ND. cbv zeta.
  set (d := drive (U p) (D p) (tp p) G) in *. set (s := if Rlt_dec d 0 then U p else D p). set (ms := if Rlt_dec d 0 then mu else md).
  assert (DEN : is_derive (fun x => mean_density (U x) (D x)) p ((ru + rd) / 2)).
  { unfold mean_density. apply (is_derive_ext (fun x => / 2 * (density (U x) + density (D x)))); [intro; req; unfold Rdiv; ring|].
    replace ((ru + rd) / 2) with (/ 2 * (ru + rd)) by (unfold Rdiv; ring). apply (is_derive_scal (fun x => density (U x) + density (D x))).
    apply (is_derive_plus (V := R_NormedModule)); assumption. }
  assert (DD : is_derive (fun x => drive (U x) (D x) (tp x) G) p (t + (ru + rd) / 2 * G)).
  { unfold drive. apply (is_derive_plus (V := R_NormedModule)); [exact DT|]. 
    apply (is_derive_ext (fun x => G * mean_density (U x) (D x))); [intro; req; ring|]. replace ((ru + rd) / 2 * G) with (G * ((ru + rd) / 2)) by ring.
    apply (is_derive_scal (fun x => mean_density (U x) (D x))). exact DEN. }
  assert (CD : continuous (fun x => drive (U x) (D x) (tp x) G) p) by (apply (ex_derive_continuous (V := R_NormedModule)); eexists; exact DD).
  assert (SD : locally p (fun x => (if Rlt_dec (drive (U x) (D x) (tp x) G) 0 then true else false) = (if Rlt_dec d 0 then true else false))).
  { destruct (Rlt_dec d 0) as [L|L].
    - assert (Q : locally p (fun x => drive (U x) (D x) (tp x) G < 0)) by (apply (CD (fun y => y < 0)); apply (open_lt 0 d L)).
      revert Q. apply filter_imp. intros x H. destruct (Rlt_dec _ 0); [reflexivity|contradiction].
    - assert (GT : 0 < d) by (unfold d in *; lra).
      assert (Q : locally p (fun x => 0 < drive (U x) (D x) (tp x) G)) by (apply (CD (fun y => 0 < y)); apply (open_gt 0 d GT)).
      revert Q. apply filter_imp. intros x H. destruct (Rlt_dec _ 0); [lra|reflexivity]. }
  set (S := fun x => if Rlt_dec d 0 then U x else D x).
  assert (MS : is_derive (fun x => mobility (S x)) p ms) by (unfold S, ms; destruct (Rlt_dec d 0); assumption).
  assert (BS : forall x, blocked b Pref (S x) = blocked b Pref s) by (intro x; unfold S, s; destruct (Rlt_dec d 0); auto).
  apply (is_derive_ext_loc (fun x => if blocked b Pref s then 0 else - mean_density (U x) (D x) * mobility (S x) * drive (U x) (D x) (tp x) G)).
  { revert SD. apply filter_imp. intros x E. unfold the_flux. cbv zeta.
    assert (W : (if Rlt_dec (drive (U x) (D x) (tp x) G) 0 then U x else D x) = S x).
    { unfold S. destruct (Rlt_dec (drive (U x) (D x) (tp x) G) 0), (Rlt_dec d 0); try reflexivity; discriminate. }
    rewrite W, BS. reflexivity. }
  destruct (blocked b Pref s); [apply (is_derive_const 0)|].
  match goal with |- is_derive ?f p ?l => cut (exists l', l' = l /\ is_derive f p l'); [intros [l' [<- H]]; exact H|] end. eexists. split; cycle 1.
  - apply (is_derive_mult (fun x => - mean_density (U x) (D x) * mobility (S x)) (fun x => drive (U x) (D x) (tp x) G) p); [|exact DD|intros; apply Rmult_comm].
    apply (is_derive_mult (fun x => - mean_density (U x) (D x)) (fun x => mobility (S x)) p); [|exact MS|intros; apply Rmult_comm].
    apply (is_derive_opp (V := R_NormedModule) (fun x => mean_density (U x) (D x))). exact DEN.
  - unfold Hierarchy.mult, plus, opp; simpl. replace (mobility (S p)) with (mobility s) by (unfold S, s; destruct (Rlt_dec d 0); reflexivity). fold d. req. field.
Qed.
End Flux.

(** ** The value assembled for one column *)

Lemma jac_value_cell : forall b Pref zup zdn up dn tp G T k, vis up <> 0 -> vis dn <> 0 -> zup <> zdn ->
  (match up with inl _ => (0 <= zup)%Z | inr _ => (zup < 0)%Z end) -> (match dn with inl _ => (0 <= zdn)%Z | inr _ => (zdn < 0)%Z end) ->
  jac_value b Pref zup zdn up dn tp G T k =
  Some (let d := drive up dn tp G in
        let s := if Rlt_dec d 0 then up else dn in
        let dm s := match s with inl c => c_dKr c * c_dS c / c_vis c - c_Kr c / (c_vis c * c_vis c) * c_dvis c | inr _ => 0 end in
        let ru := coeff (zup =? Z.of_nat k)%Z * drho up in
        let rd := coeff (zdn =? Z.of_nat k)%Z * drho dn in
        let ms := if Rlt_dec d 0 then coeff (zup =? Z.of_nat k)%Z * dm up else coeff (zdn =? Z.of_nat k)%Z * dm dn in
        if blocked b Pref s then 0
        else - ((ru + rd) / 2 * mobility s * d + mean_density up dn * ms * d + mean_density up dn * mobility s * (T + (ru + rd) / 2 * G))).
Proof.
  intros b Pref zup zdn up dn tp G T k Vu Vd ND Su Sd. unfold jac_value. cbv zeta.
  assert (ED : 0 + 0.5 * rho up + 0.5 * rho dn = mean_density up dn) by (unfold mean_density; destruct up, dn; simpl; lra).
  rewrite ED. fold (drive up dn tp G). set (d := drive up dn tp G). set (den := mean_density up dn).
  assert (Ed : d = tp + den * G) by reflexivity.
  assert (DK : forall s, vis s <> 0 -> dukvr s = Some (match s with inl c => c_dKr c * c_dS c / c_vis c - c_Kr c / (c_vis c * c_vis c) * c_dvis c | inr _ => 0 end)).
  { intros [c|x] V; [|reflexivity]. simpl in V. unfold dukvr. rewrite !fdiv_ok by (try apply Rmult_integral_contrapositive_currified; exact V). reflexivity. }
  assert (FM : forall s, vis s <> 0 -> fdiv (Kr s) (vis s) = Some (mobility s)).
  { intros s V. rewrite fdiv_ok by exact V. destruct s; reflexivity. }
  assert (B1 : ((-1 <? zup)%Z && (Z.of_nat k =? zup)%Z) = (zup =? Z.of_nat k)%Z).
  { rewrite (Z.eqb_sym zup). destruct (Z.eqb_spec (Z.of_nat k) zup); [|apply andb_false_r]. rewrite andb_true_r. apply Z.ltb_lt. lia. }
  assert (B2 : ((-1 <? zdn)%Z && (Z.of_nat k =? zdn)%Z) = (zdn =? Z.of_nat k)%Z).
  { rewrite (Z.eqb_sym zdn). destruct (Z.eqb_spec (Z.of_nat k) zdn); [|apply andb_false_r]. rewrite andb_true_r. apply Z.ltb_lt. lia. }
  assert (RU : (match up with inl c => 0.5 * c_drho c | inr _ => 0 end) = drho up / 2) by (destruct up; simpl; lra).
  assert (RD : (match dn with inl c => 0.5 * c_drho c | inr _ => 0 end) = drho dn / 2) by (destruct dn; simpl; lra).
  rewrite B1, B2, RU, RD.
  destruct (Rlt_dec d 0).
  - destruct (blocked b Pref up); [f_equal; ring|]. rewrite (FM up Vu). cbn [fbind]. rewrite (DK up Vu). cbn [fbind]. f_equal.
    set (m' := match up with inl c => _ | inr _ => 0 end).
    destruct (Z.eqb_spec zup (Z.of_nat k)) as [E|E], (Z.eqb_spec zdn (Z.of_nat k)) as [F|F]; try congruence; simpl coeff; rewrite Ed; field.
  - destruct (blocked b Pref dn); [f_equal; ring|]. rewrite (FM dn Vd). cbn [fbind]. rewrite (DK dn Vd). cbn [fbind]. f_equal.
    set (m' := match dn with inl c => _ | inr _ => 0 end).
    destruct (Z.eqb_spec zup (Z.of_nat k)) as [E|E], (Z.eqb_spec zdn (Z.of_nat k)) as [F|F]; try congruence; simpl coeff; rewrite Ed; field.
Qed.

(** ** The assembled matrix *)

Definition is_closed (m : mesh) (f : face) : bool :=
  (match bc m with NeumannBC => true | _ => false end) && ((f_up f <? 0)%Z || (f_dn f <? 0)%Z).
Lemma is_closed_spec : forall m f, is_closed m f = true <-> closed m f.
Proof.
  intros m f. unfold is_closed, closed. rewrite andb_true_iff, orb_true_iff, !Z.ltb_lt. destruct (bc m); split; intros [A B]; split; auto; discriminate.
Qed.

(** [B] has the value [h i k] at (i, k). *)
Definition holds (B : Fvtpf.matrix) (h : nat -> nat -> R) : Prop := forall i k, Fvtpf.entry B (Z.of_nat i) (Z.of_nat k) = Some (h i k).

Lemma holds_nil : holds [] (fun _ _ => 0).
Proof. intros i k. reflexivity. Qed.
Lemma holds_ext : forall B h h', (forall i k, h i k = h' i k) -> holds B h -> holds B h'.
Proof. intros B h h' E H i k. rewrite <- E. apply H. Qed.
Lemma holds_cons : forall B h z c v, holds B h ->
  holds ((z, Z.of_nat c, Some v) :: B) (fun i k => h i k + coeff (z =? Z.of_nat i)%Z * (coeff (c =? k)%nat * v)).
Proof.
  intros B h z c v H i k. refine (eq_trans (cons_value _ _ _ _ _ _ _ (H i k)) _). rewrite coeff_mult.
  replace (Z.of_nat c =? Z.of_nat k)%Z with (c =? k)%nat; [f_equal; ring|].
  destruct (Nat.eqb_spec c k), (Z.eqb_spec (Z.of_nat c) (Z.of_nat k)); try reflexivity; lia.
Qed.
Lemma holds_loop : forall (body : nat -> Fvtpf.matrix -> outcome Fvtpf.matrix) a N B h, holds B h ->
  (forall j B h, (j < N)%nat -> holds B h -> exists B', body j B = Ok B' /\ holds B' (fun i k => h i k + a j i k)) ->
  exists B', for_ N body B = Ok B' /\ holds B' (fun i k => h i k + total (fun j => a j i k) N).
Proof.
  intros body a N B h H Hb.
  apply (for_inv (fun j s => holds s (fun i k => h i k + total (fun j => a j i k) j)) body N B).
  - apply (holds_ext B h); [|exact H]. intros. simpl. ring.
  - intros j s Hj Hs. destruct (Hb j s _ Hj Hs) as [B' [E H']]. exists B'. split; [exact E|].
    apply (holds_ext _ _ _ ltac:(intros; simpl; apply Rplus_assoc) H').
Qed.

Section Jac.
Variables (m : mesh) (n N nb : nat) (cs : list cell) (bs : list bnd) (TP GD : list R) (T : Trans) (junk : nat -> nat -> R).
Hypothesis GM : good_mesh m n N nb.
Hypothesis GS : good_state m N nb cs bs TP GD.
Hypothesis GV : good_vertices m GD.
Hypothesis AT : allocated m T.

Definition dflux (iv j k : nat) : R :=
  match subface m iv j with
  | Some (v, f, a) =>
      if is_closed m f then 0
      else
        match side_at cs bs (f_up f), side_at cs bs (f_dn f), rd TP a, rd GD a with
        | Ok up, Ok dn, Ok tp, Ok G =>
            total (fun icol => coeff (nth icol (x_cells v) 0 =? k)%nat *
              val (jac_value (bc m) (Pref m) (f_up f) (f_dn f) up dn tp G (coefficient T iv j icol) (nth icol (x_cells v) 0%nat))) (length (x_cells v))
        | _, _, _, _ => 0
        end
  | None => 0
  end.

Lemma side_sign : forall z s, at_side cs bs z s -> match s with inl _ => (0 <= z)%Z | inr _ => (z < 0)%Z end.
Proof. intros z [c|b] [H _]; exact H. Qed.

Lemma coefficient_ok : forall iv v j icol, nth_error (verts m) iv = Some v -> (j < length (x_faces v))%nat -> (icol < length (x_cells v))%nat ->
  rd3 T iv j icol = Ok (coefficient T iv j icol).
Proof.
  intros iv v j icol Hv Hj Hc. destruct (AT iv v Hv) as [t [Et Hw]]. destruct (Hw j Hj) as [w [Ew Lw]].
  destruct (rd_ok w icol) as [x [Rx Ex]]; [lia|]. unfold rd3, coefficient. rewrite (rd_some _ _ _ Et). cbn [bind]. rewrite (rd_some _ _ _ Ew). cbn [bind].
  rewrite Rx. rewrite (nth_error_nth _ _ _ Et), (nth_error_nth _ _ _ Ew), (nth_error_nth _ _ _ Ex). reflexivity.
Qed.

Lemma jac_row_ok : forall iv v j B h, nth_error (verts m) iv = Some v -> (j < length (x_faces v))%nat -> holds B h ->
  exists B', jac_row m cs bs TP GD T junk iv v j B = Ok B' /\ holds B' (fun i k => h i k + orientation m iv j i * dflux iv j k).
Proof.
  intros iv v j B h Hv Hj H.
  destruct (subface_ok m n N nb cs bs TP GD GM GS iv v j Hv Hj) as [a [s [f [up [dn [tp [G [Ra [Rs [Rf [Es [Eu [Ed [Au [Ad [Vu [Vd [Rt [RG [Hu Hd]]]]]]]]]]]]]]]]]]]].
  unfold jac_row. rewrite Ra. cbn [bind]. rewrite Rs. cbn [bind]. rewrite Rf. cbn [bind].
  unfold dflux, orientation. rewrite Es. fold (is_closed m f).
  set (tp' := if f_local f then tp else junk iv j).
  replace (if f_local f then rd TP (a * 4 + s) else Ok (junk iv j)) with (Ok tp') by (unfold tp'; destruct (f_local f); [symmetry; exact Rt|reflexivity]).
  cbn [bind]. destruct (is_closed m f); [exists B; split; [reflexivity|apply (holds_ext B h); [intros; ring|exact H]]|].
  rewrite Eu. cbn [bind]. rewrite Ed. cbn [bind]. rewrite RG, Rt. cbn [bind].
  set (o := fun i => (if owned m (f_up f) then coeff (f_up f =? Z.of_nat i)%Z else 0) - (if owned m (f_dn f) then coeff (f_dn f =? Z.of_nat i)%Z else 0)).
  assert (Eo : forall i, (if active v f && local_cell m i then coeff (f_up f =? Z.of_nat i)%Z - coeff (f_dn f =? Z.of_nat i)%Z else 0) = o i).
  { intro i. unfold o. destruct (active v f) eqn:A; cbn [andb].
    - rewrite !owned_coeff. destruct (local_cell m i); ring.
    - destruct (owned m (f_up f)) eqn:O1; [rewrite (gv_flags m GD GV iv j v f _ Es (or_introl O1)) in A; discriminate|].
      destruct (owned m (f_dn f)) eqn:O2; [rewrite (gv_flags m GD GV iv j v f _ Es (or_intror O2)) in A; discriminate|]. ring. }
  set (J := fun tp icol => val (jac_value (bc m) (Pref m) (f_up f) (f_dn f) up dn tp G (coefficient T iv j icol) (nth icol (x_cells v) 0%nat))).
  assert (ND : f_up f <> f_dn f) by (apply (gv_sides m GD GV); apply (nth_error_In _ a); destruct (rd_ok (faces m) a); [apply (gm_vert _ _ _ _ GM v (nth_error_In _ _ Hv)); apply (nth_error_In _ j); apply rd_inv; exact Ra|apply rd_inv; exact Rf]).
  destruct (holds_loop (fun icol B => do c <- rd (x_cells v) icol; jac_col m f up dn tp' G T iv j icol c B)
             (fun icol i k => o i * (coeff (nth icol (x_cells v) 0 =? k)%nat * J tp icol)) (length (x_cells v)) B h H) as [B' [E' H']].
  - clear B h H. intros icol B h Hc H. destruct (rd_ok (x_cells v) icol Hc) as [c [Rc Ec]]. rewrite Rc. cbn [bind].
    unfold jac_col. rewrite (coefficient_ok iv v j icol Hv Hj Hc). cbn [bind]. cbv zeta.
    rewrite (valid_local_ok m N _ (gm_rocks _ _ _ _ GM) Hu), (valid_local_ok m N _ (gm_rocks _ _ _ _ GM) Hd). cbn [bind].
    unfold J. rewrite (nth_error_nth _ _ 0%nat Ec).
    set (y := fun t => val (jac_value (bc m) (Pref m) (f_up f) (f_dn f) up dn t G (coefficient T iv j icol) c)).
    assert (Ey : forall t, jac_value (bc m) (Pref m) (f_up f) (f_dn f) up dn t G (coefficient T iv j icol) c = Some (y t)).
    { intro t. unfold y. rewrite (jac_value_cell _ _ _ _ _ _ _ _ _ _ Vu Vd ND (side_sign _ _ Au) (side_sign _ _ Ad)). reflexivity. }
    rewrite !Ey.
    assert (Ej : owned m (f_up f) = true \/ owned m (f_dn f) = true -> y tp' = y tp).
    { intro O. unfold tp'. pose proof (gv_flags m GD GV iv j v f _ Es O) as A. unfold active in A. apply andb_true_iff in A. destruct A as [_ ->]. reflexivity. }
    change (val (Some (y tp))) with (y tp). unfold o.
    destruct (owned m (f_up f)) eqn:O1, (owned m (f_dn f)) eqn:O2; eexists; (split; [reflexivity|]).
    + rewrite Ej by auto. apply (holds_ext _ _ _ (fun i k => eq_refl)). cbn [fl1 fbind].
      eapply holds_ext; [|apply holds_cons; apply holds_cons; exact H]. intros i k. cbv beta. ring.
    + rewrite Ej by auto. eapply holds_ext; [|apply holds_cons; exact H]. intros i k. cbv beta. ring.
    + rewrite Ej by auto. cbn [fl1 fbind]. eapply holds_ext; [|apply holds_cons; exact H]. intros i k. cbv beta. ring.
    + eapply holds_ext; [|exact H]. intros i k. ring.
  - exists B'. split; [exact E'|]. eapply holds_ext; [|exact H']. intros i k. cbv beta. rewrite Eo. f_equal. 
    rewrite (total_ext _ (fun icol => (coeff (nth icol (x_cells v) 0 =? k)%nat * J tp icol) * o i)); [|intros; ring].
    rewrite total_scale. apply Rmult_comm.
Qed.

Lemma jac_vertices_ok : exists B, IJacobian_Vertices m cs bs TP GD T junk [] = Ok B
  /\ holds B (fun i k => all_subfaces m (fun iv j => orientation m iv j i * dflux iv j k)).
Proof.
  unfold IJacobian_Vertices.
  destruct (holds_loop (jac_rows m cs bs TP GD T junk) (fun iv i k => total (fun j => orientation m iv j i * dflux iv j k) (rows m iv)) (length (verts m)) [] _ holds_nil) as [B [E H]].
  - intros iv B h Hiv H. unfold jac_rows. destruct (rd_ok (verts m) iv Hiv) as [v [Rv Ev]]. rewrite Rv. cbn [bind]. unfold rows. rewrite Ev.
    apply (holds_loop (jac_row m cs bs TP GD T junk iv v) (fun j i k => orientation m iv j i * dflux iv j k)); [exact H|].
    clear B h H. intros j B h Hj H. apply jac_row_ok; assumption.
  - exists B. split; [exact E|]. eapply holds_ext; [|exact H]. intros i k. cbv beta. unfold all_subfaces. ring.
Qed.

Lemma jac_cells_ok : forall (body : nat -> Fvtpf.matrix -> outcome Fvtpf.matrix) w B h, holds B h ->
  (forall j B h, (j < N)%nat -> holds B h -> exists B', body j B = Ok B' /\ holds B' (fun i k => h i k + coeff (Z.of_nat j =? Z.of_nat i)%Z * (coeff (j =? k)%nat * w j))) ->
  (forall j, (N <= j)%nat -> w j = 0) ->
  exists B', for_ N body B = Ok B' /\ holds B' (fun i k => h i k + coeff (i =? k)%nat * w i).
Proof.
  intros body w B h H Hb Hw. destruct (holds_loop body (fun j i k => coeff (Z.of_nat j =? Z.of_nat i)%Z * (coeff (j =? k)%nat * w j)) N B h H Hb) as [B' [E H']].
  exists B'. split; [exact E|]. eapply holds_ext; [|exact H']. intros i k. cbv beta. f_equal. rewrite (total_delta (fun j => coeff (j =? k)%nat * w j)).
  destruct (Nat.ltb_spec i N) as [L|L]; [reflexivity|]. rewrite (Hw i L). ring.
Qed.

Lemma IJacobian_ok : forall shift dp_dt, length dp_dt = n ->
  exists B, IJacobian m cs bs TP GD T junk shift dp_dt = Ok B
  /\ holds B (fun i k => all_subfaces m (fun iv j => orientation m iv j i * dflux iv j k)
       + coeff (i =? k)%nat * term m cs (fun i c r => (shift * dmass_dP c r + d2mass_dP2 c r * nth i dp_dt 0) * k_vol r) i).
Proof.
  intros shift dp_dt Ld. destruct jac_vertices_ok as [B [E H]]. unfold IJacobian. rewrite E. cbn [bind]. rewrite (gm_rocks _ _ _ _ GM).
  pose proof GS as [Lc _]. pose proof (gm_rocks _ _ _ _ GM) as Lr. apply jac_cells_ok; [exact H| |].
  - clear B E H. intros k B h Hk H. unfold jac_acc, term. destruct (rd_ok (rocks m) k) as [r [Rr Er]]; [lia|]. rewrite Rr, Er. cbn [bind].
    destruct (rd_ok cs k) as [c [Rc Ec]]; [lia|]. rewrite Ec.
    destruct (k_local r) eqn:L; cbn [negb].
    + assert (LL : local_cell m k = true) by (unfold local_cell; rewrite Er; exact L).
      pose proof (gm_owned _ _ _ _ GM k LL) as Hn. rewrite Rc. cbn [bind]. destruct (rd_ok dp_dt k) as [d [Rd Ed]]; [lia|]. rewrite Rd. cbn [bind].
      eexists. split; [reflexivity|]. rewrite (nth_error_nth _ _ 0 Ed). apply holds_cons. exact H.
    + exists B. split; [reflexivity|]. eapply holds_ext; [|exact H]. intros. ring.
  - intros k Hk. unfold term. replace (nth_error cs k) with (@None cell); [reflexivity|]. symmetry. apply nth_error_None. lia.
Qed.

Lemma SNESJacobian_ok : forall dtime, dtime <> 0 ->
  exists B, SNESJacobian m cs bs TP GD T junk dtime = Ok B
  /\ holds B (fun i k => all_subfaces m (fun iv j => orientation m iv j i * dflux iv j k)
       + coeff (i =? k)%nat * term m cs (fun i c r => dmass_dP c r * k_vol r / dtime) i).
Proof.
  intros dtime Hd. destruct jac_vertices_ok as [B [E H]]. unfold SNESJacobian. rewrite E. cbn [bind]. rewrite (gm_rocks _ _ _ _ GM).
  pose proof GS as [Lc _]. pose proof (gm_rocks _ _ _ _ GM) as Lr. apply jac_cells_ok; [exact H| |].
  - clear B E H. intros k B h Hk H. unfold jac_snes, term. destruct (rd_ok (rocks m) k) as [r [Rr Er]]; [lia|]. rewrite Rr, Er. cbn [bind].
    destruct (rd_ok cs k) as [c [Rc Ec]]; [lia|]. rewrite Ec.
    destruct (k_local r) eqn:L; cbn [negb].
    + rewrite Rc. cbn [bind]. eexists. split; [reflexivity|]. rewrite fdiv_ok by exact Hd. cbn [fl1 fbind].
      eapply holds_ext; [|apply holds_cons; exact H]. intros i j. cbv beta. do 3 f_equal. unfold Rdiv. ring.
    + exists B. split; [reflexivity|]. eapply holds_ext; [|exact H]. intros. ring.
  - intros k Hk. unfold term. replace (nth_error cs k) with (@None cell); [reflexivity|]. symmetry. apply nth_error_None. lia.
Qed.
End Jac.
