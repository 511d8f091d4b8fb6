(** C63, C64: the state on the boundary. *)
From Coq Require Import Reals List Arith ZArith Lia Lra.
From Verif Require Import Prelude Arrays CharCurves SpecCurves CharCurveSet SpecCurveSet Eos SpecEos State SpecState StateProofs Boundary SpecBoundary BoundaryProofs.
Import ListNotations.
Local Open Scope R_scope.

(** ** C63 *)

(** Before every residual each boundary face gets the pressure (temperature,
    salinity) prescribed at its centroid, or that of its cell if none is
    prescribed, and the saturation and relative permeability of the curves of its
    cell at that pressure; the values of the cells are not touched, and the next
    evaluation starts from an equally good state.  Missing: meshes on which some
    but not all cells have a Gardner curve (see C63_mixed_curves_refuted). *)
Theorem C63_boundary_partial : forall md g N nb sc kc mats bcP bcX faces l U b,
  numbering N nb faces l -> curves_ready g N sc kc -> length mats = N -> evaluates bcP faces -> (unknowns md = 2%nat -> evaluates bcX faces) ->
  sized_bnd md N nb b -> (unknowns md * N <= length U)%nat ->
  exists g' b', refresh md bcP bcX mats N nb faces U (g, b) = Ok (g', b') /\ curves_ready g' N sc kc /\ same_setting g' g /\ sized_bnd md N nb b'
    /\ bwater b' = bwater b
    /\ (forall i f c n m, nth_error faces i = Some f -> internal f = false -> touches f (c, n) -> nth_error mats c = Some m ->
         exists P q, prescribed bcP f (pressure md U c) P /\ nth_error (P_bnd b') n = Some P
           /\ (has_vector md -> nth_error (pvec b') (N + n) = Some P)
           /\ nth_error (bpoints b') n = Some q /\ wet_face g (sc c) (kc c) m P q
           /\ (unknowns md = 2%nat -> exists x, prescribed bcX f (second md U c) x /\ nth_error (x_bnd b') n = Some x /\ nth_error (xvec b') (N + n) = Some x))
    /\ (forall c, (c < N)%nat -> nth_error (pvec b') c = nth_error (pvec b) c /\ nth_error (xvec b') c = nth_error (xvec b) c).
Proof. exact boundary_refreshed. Qed.
Print Assumptions C63_boundary_partial.

(** An error in a boundary function is reported. *)
Theorem C63_error_reported : forall md g N nb mats fn bcX faces l U b,
  numbering N nb faces l -> sized_bnd md N nb b -> (unknowns md * N <= length U)%nat ->
  (forall f, In f (boundary_faces faces) -> fn (centroid f) <> UB) -> (exists f, In f (boundary_faces faces) /\ fn (centroid f) = Err) ->
  refresh md (Some fn) bcX mats N nb faces U (g, b) = Err.
Proof. exact boundary_failure. Qed.
Print Assumptions C63_error_reported.

(** With seven or more Gardner cells, a boundary face of any other cell leads to a
    read outside the lookup table. *)
Theorem C63_mixed_curves_refuted : forall g N nb h mats faces l P_bnd pts c b, numbering N nb faces l -> length mats = N -> length P_bnd = nb ->
  run sat_nparams sat_eval cc_create h = Ok (sat g) -> NoDup (points_of h 0) -> (7 <= length (points_of h 0))%nat ->
  In (c, b) l -> ~ In c (points_of h 0) -> UpdateBoundaryState g mats nb faces P_bnd pts = UB.
Proof. exact mixed_curves. Qed.
Print Assumptions C63_mixed_curves_refuted.

(** The curves assigned during setup satisfy the hypothesis. *)
Theorem C63_default_curves : forall g nc m alpha x0 x1 x2 dx c0 c1 c2 c3 a b,
  default_curves nc m alpha [x0; x1; x2; dx; c0; c1; c2; c3] = Ok (a, b) -> sat g = a -> relperm g = b ->
  curves_ready g nc (fun _ => VanGenuchten m alpha) (fun _ => Smoothed m x0 x1 x2 dx c0 c1 c2 c3).
Proof. exact default_ready. Qed.
Print Assumptions C63_default_curves.

(** A bar of two cells, pressure prescribed at its ends. *)
Example C63_example : exists g sc kc bc g' b' q, numbering 2 2 bar_faces [(0%nat, 1%nat); (1%nat, 0%nat)] /\ curves_ready g 2 sc kc /\ evaluates bc bar_faces
  /\ refresh Richards bc None (repeat example_material 2) 2 2 bar_faces [90000; 80000] (g, bar_state []) = Ok (g', b')
  /\ P_bnd b' = [103325; 101325] /\ nth_error (bpoints b') 0 = Some q /\ fst (fst (b_sat q)) = Some 1.
Proof.
  destruct example_curves as (a & e & c0 & c1 & c2 & c3 & E & _).
  set (g := example_setting a e).
  pose proof (default_ready g 2 _ _ _ _ _ _ c0 c1 c2 c3 a e E eq_refl eq_refl) as HC.
  set (bc := Some (fun x : location => Ok (101325 + 1000 * fst (fst x))) : condition).
  assert (HE : evaluates bc bar_faces) by (intros fn f Hf _; injection Hf as <-; eexists; reflexivity).
  destruct (boundary_refreshed Richards g 2 2 _ _ (repeat example_material 2) bc None bar_faces _ [90000; 80000] (bar_state []) bar_numbering HC eq_refl HE) as (g' & b' & ER & _ & _ & (LP & _) & _ & H & _).
  { discriminate. } { apply bar_sized. } { simpl; lia. }
  destruct (H 2%nat _ 1%nat 0%nat example_material eq_refl eq_refl) as (P0 & q & E0 & N0 & _ & Nq & W & _); [right; split; reflexivity|reflexivity|].
  destruct (H 1%nat _ 0%nat 1%nat example_material eq_refl eq_refl) as (P1 & q' & E1 & N1 & _); [left; split; reflexivity|reflexivity|].
  cbn [prescribed bc centroid fst] in E0, E1. injection E0 as E0. injection E1 as E1.
  exists g, (fun _ => VanGenuchten 0.5 (1/10000)), (fun _ => Smoothed 0.5 0.995 0.99 1 0.005 c0 c1 c2 c3), bc, g', b', q.
  split; [exact bar_numbering|]. split; [exact HC|]. split; [exact HE|]. split; [exact ER|]. split; [|split; [exact Nq|]].
  - destruct (P_bnd b') as [|x [|y [|z t]]]; try discriminate LP. simpl in N0, N1. injection N0 as ->. injection N1 as ->. f_equal; [lra|f_equal; lra].
  - destruct W as [-> _]. unfold sat_at, saturation, van_genuchten. cbn [g example_setting Pref Sr example_material].
    destruct (Rle_dec (101325 - P0) 0); [reflexivity|lra].
Qed.

(** ** C64 *)

(** Whatever solutions have been evaluated and whatever is prescribed, the water on
    every face is that of the reference pressure and temperature and of the salt
    content found at setup. *)
Theorem C64_reference_water : forall md g salt nb b bcP bcX mats N faces Us g' b', known md g -> allocate_water md g salt nb = Ok (bwater b) ->
  refreshes md bcP bcX mats N nb faces Us (g, b) = Ok (g', b') ->
  forall n, (n < nb)%nat -> exists w, nth_error (bwater b') n = Some w /\ water_at g (Pref g) (Tref g) (match md with RichardsFvtpf => 0 | _ => salt end) w.
Proof. exact water_never_updated. Qed.
Print Assumptions C64_reference_water.

(** This is the water prescribed there if density and viscosity are constant. *)
Theorem C64_constant_partial : forall md g salt nb b bcP bcX mats N faces Us g' b', known md g -> den_type g = DensityConstant -> vis_type g = ViscosityConstant ->
  allocate_water md g salt nb = Ok (bwater b) -> refreshes md bcP bcX mats N nb faces Us (g, b) = Ok (g', b') ->
  forall n P T m, (n < nb)%nat -> exists w, nth_error (bwater b') n = Some w /\ water_at g P T m w.
Proof.
  intros md g salt nb b bcP bcX mats N faces Us g' b' HK Hd Hv HA HR n P T m Hn.
  destruct (water_never_updated md g salt nb b bcP bcX mats N faces Us g' b' HK HA HR n Hn) as (w & Nw & Ww).
  exists w. split; [exact Nw|exact (water_constant g _ _ _ P T m w Hd Hv Ww)].
Qed.
Print Assumptions C64_constant_partial.

(** It is not for compressible water under any pressure above the reference, *)
Theorem C64_pressure_refuted : forall md g salt nb b bcP bcX mats N faces Us g' b', known md g -> den_type g = DensityExponential -> Pref g = 101325 ->
  allocate_water md g salt nb = Ok (bwater b) -> refreshes md bcP bcX mats N nb faces Us (g, b) = Ok (g', b') ->
  forall n P T m w, (n < nb)%nat -> nth_error (P_bnd b') n = Some P -> 101325 < P -> nth_error (bwater b') n = Some w -> ~ water_at g P T m w.
Proof.
  intros md g salt nb b bcP bcX mats N faces Us g' b' HK Hd HP HA HR n P T m w Hn _ H Nw.
  destruct (water_never_updated md g salt nb b bcP bcX mats N faces Us g' b' HK HA HR n Hn) as (w' & Nw' & Ww).
  rewrite Nw in Nw'. injection Nw' as <-. refine (water_pressure g P T m _ _ _ w Hd _ H Ww). rewrite HP. lra.
Qed.
Print Assumptions C64_pressure_refuted.

(** nor for salt water of any prescribed content. *)
Theorem C64_salt_refuted : forall g nb b bcP bcX mats N faces Us g' b', known Salinity g -> den_type g = DensityBatzleWang -> Pref g = 101325 -> Tref g = 25 ->
  allocate_water Salinity g 0 nb = Ok (bwater b) -> refreshes Salinity bcP bcX mats N nb faces Us (g, b) = Ok (g', b') ->
  forall n m w, (n < nb)%nat -> 0 < m <= 1 -> nth_error (bwater b') n = Some w -> ~ water_at g (Pref g) (Tref g) m w.
Proof.
  intros g nb b bcP bcX mats N faces Us g' b' HK Hd HP HT HA HR n m w Hn Hm Nw.
  destruct (water_never_updated Salinity g 0 nb b bcP bcX mats N faces Us g' b' HK HA HR n Hn) as (w' & Nw' & Ww).
  rewrite Nw in Nw'. injection Nw' as <-. rewrite HP, HT in *. exact (water_salt g m w Hd Hm Ww).
Qed.
Print Assumptions C64_salt_refuted.

(** The bar again, with compressible water and 2000 Pa over the reference pressure at one end. *)
Example C64_example : exists g ws bc g' b', known Richards g /\ den_type g = DensityExponential /\ Pref g = 101325
  /\ allocate_water Richards g 0 2 = Ok ws
  /\ refreshes Richards bc None (repeat example_material 2) 2 2 bar_faces [[90000; 80000]; [95000; 80000]] (g, bar_state ws) = Ok (g', b')
  /\ nth_error (P_bnd b') 0 = Some 103325 /\ exists w, nth_error (bwater b') 0 = Some w /\ w_rho w = Some 997.16.
Proof.
  destruct example_curves as (a & e & c0 & c1 & c2 & c3 & E & _).
  set (g := mkSetting 101325 25 DensityExponential ViscosityConstant EnthalpyConstant a e).
  pose proof (default_ready g 2 _ _ _ _ _ _ c0 c1 c2 c3 a e E eq_refl eq_refl) as HC.
  set (bc := Some (fun x : location => Ok (101325 + 1000 * fst (fst x))) : condition).
  assert (HE : evaluates bc bar_faces) by (intros fn f Hf _; injection Hf as <-; eexists; reflexivity).
  assert (HK : known Richards g) by (repeat split; discriminate).
  assert (HA : exists ws, allocate_water Richards g 0 2 = Ok ws) by (eexists; reflexivity). destruct HA as [ws HA].
  destruct (boundary_refreshed Richards g 2 2 _ _ (repeat example_material 2) bc None bar_faces _ [90000; 80000] (bar_state ws) bar_numbering HC eq_refl HE) as (g1 & b1 & E1 & HC1 & _ & S1 & _ & _ & _).
  { discriminate. } { apply bar_sized. } { simpl; lia. }
  destruct (boundary_refreshed Richards g1 2 2 _ _ (repeat example_material 2) bc None bar_faces _ [95000; 80000] b1 bar_numbering HC1 eq_refl HE) as (g2 & b2 & E2 & _ & _ & _ & _ & H & _).
  { discriminate. } { exact S1. } { simpl; lia. }
  assert (HR : refreshes Richards bc None (repeat example_material 2) 2 2 bar_faces [[90000; 80000]; [95000; 80000]] (g, bar_state ws) = Ok (g2, b2)).
  { cbn [refreshes]. rewrite E1. cbn [bind]. rewrite E2. reflexivity. }
  exists g, ws, bc, g2, b2. split; [exact HK|]. split; [reflexivity|]. split; [reflexivity|]. split; [exact HA|]. split; [exact HR|]. split.
  - destruct (H 2%nat _ 1%nat 0%nat example_material eq_refl eq_refl) as (P0 & q & E0 & N0 & _); [right; split; reflexivity|reflexivity|].
    cbn [prescribed bc centroid fst] in E0. injection E0 as E0. rewrite N0. f_equal. lra.
  - destruct (water_never_updated Richards g 0 2 (bar_state ws) bc None (repeat example_material 2) 2 bar_faces _ g2 b2 HK HA HR 0 ltac:(lia)) as (w & Nw & Ww & _).
    exists w. split; [exact Nw|]. rewrite Ww. cbn [g den_type Pref Tref EOSComputeWaterDensity cell_value]. unfold density_exponential.
    destruct (Rlt_dec 101325 101325); [reflexivity|]. cbn [cell_value]. f_equal. replace (101325 - 101325) with 0 by lra. rewrite Rmult_0_r, exp_0. lra.
Qed.
