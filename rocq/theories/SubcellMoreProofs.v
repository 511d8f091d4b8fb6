(** The remaining proofs for Prop_Subcell.v. *)
From Coq Require Import Reals List Bool Arith ZArith Lia Lra Permutation.
From Verif Require Import Prelude Arrays SpecFvtpf Geom SpecGeom Mpfao SpecMpfao MpfaoProofs Subcell SpecSubcell SubcellProofs SubcellStoreProofs GeomProofs.
Import ListNotations.
Local Open Scope R_scope.

Lemma faces_proof : forall g icell iv s, SetupSubcell g icell iv = Ok s ->
  exists f0 f1 f2 l, s_faces s = (f0, f1, f2) /\ nth_error (g_vfaces g) iv = Some l /\
    Permutation [f0; f1; f2] (filter (touches g icell) l).
Proof.
  intros g icell iv s H. destruct (made_ok _ _ _ _ H) as [c [v [h0 [h1 [h2 [y0 [y1 [y2 M]]]]]]]].
  destruct (md_of _ _ _ _ _ _ _ _ _ _ _ _ M) as [l [Hl Hp]]. exists h0, h1, h2, l.
  split; [exact (md_faces _ _ _ _ _ _ _ _ _ _ _ _ M)|]. auto.
Qed.
Lemma dual_proof : forall g icell iv s, SetupSubcell g icell iv = Ok s ->
  forall f0 f1 f2 v0 v1 v2 cen x0 x1 x2, s_faces s = (f0, f1, f2) -> s_nu s = (v0, v1, v2) ->
    nth_error (g_cc g) icell = Some cen ->
    nth_error (g_fc g) f0 = Some x0 -> nth_error (g_fc g) f1 = Some x1 -> nth_error (g_fc g) f2 = Some x2 ->
    exists d, dual v0 v1 v2 (vsub x0 cen) (vsub x1 cen) (vsub x2 cen) d /\ s_T s = Rabs d.
Proof.
  intros g icell iv s H f0 f1 f2 v0 v1 v2 cen x0 x1 x2 Hf Hn Hc H0 H1 H2.
  destruct (made_ok _ _ _ _ H) as [c [v [h0 [h1 [h2 [y0 [y1 [y2 M]]]]]]]].
  pose proof (made_setup _ _ _ _ _ _ _ _ _ _ _ _ H Hf Hc (md_vtx _ _ _ _ _ _ _ _ _ _ _ _ M) H0 H1 H2) as M'.
  exists (seen cen x0 x1 x2). pose proof (md_nu _ _ _ _ _ _ _ _ _ _ _ _ M') as E. rewrite Hn in E. injection E as -> -> ->.
  split; [apply dual_ok|exact (md_T _ _ _ _ _ _ _ _ _ _ _ _ M')].
Qed.
Lemma oriented_proof : forall g icell iv s, SetupSubcell g icell iv = Ok s ->
  forall f0 f1 f2 v0 v1 v2 cen vtx x0 x1 x2, s_faces s = (f0, f1, f2) -> s_nu s = (v0, v1, v2) ->
    nth_error (g_cc g) icell = Some cen -> nth_error (g_vx g) iv = Some vtx ->
    nth_error (g_fc g) f0 = Some x0 -> nth_error (g_fc g) f1 = Some x1 -> nth_error (g_fc g) f2 = Some x2 ->
    between cen vtx x0 x1 x2 ->
    0 < s_T s /\ dual v0 v1 v2 (vsub x0 cen) (vsub x1 cen) (vsub x2 cen) (- s_T s).
Proof.
  intros g icell iv s H f0 f1 f2 v0 v1 v2 cen vtx x0 x1 x2 Hf Hn Hc Hv H0 H1 H2 Hb.
  pose proof (made_setup _ _ _ _ _ _ _ _ _ _ _ _ H Hf Hc Hv H0 H1 H2) as M.
  destruct (made_positive _ _ _ _ _ _ _ _ _ _ _ _ M Hb) as [HD HT]. split; [exact HT|]. rewrite <- HD.
  pose proof (md_nu _ _ _ _ _ _ _ _ _ _ _ _ M) as E. rewrite Hn in E. injection E as -> -> ->. apply dual_ok.
Qed.
Lemma gradient_proof : forall g icell iv s, SetupSubcell g icell iv = Ok s ->
  forall f0 f1 f2 cen vtx x0 x1 x2, s_faces s = (f0, f1, f2) ->
    nth_error (g_cc g) icell = Some cen -> nth_error (g_vx g) iv = Some vtx ->
    nth_error (g_fc g) f0 = Some x0 -> nth_error (g_fc g) f1 = Some x1 -> nth_error (g_fc g) f2 = Some x2 ->
    between cen vtx x0 x1 x2 ->
    forall K n area, exists g0 g1 g2, row_G K s n area = Some (g0, g1, g2) /\
      forall p0 gr, g0 * (linear p0 gr cen - linear p0 gr x0) + g1 * (linear p0 gr cen - linear p0 gr x1) +
        g2 * (linear p0 gr cen - linear p0 gr x2) = area * dot n (mat_vec K gr).
Proof.
  intros g icell iv s H f0 f1 f2 cen vtx x0 x1 x2 Hf Hc Hv H0 H1 H2 Hb K n area.
  pose proof (made_setup _ _ _ _ _ _ _ _ _ _ _ _ H Hf Hc Hv H0 H1 H2) as M.
  destruct (made_positive _ _ _ _ _ _ _ _ _ _ _ _ M Hb) as [_ HT].
  destruct (row_ok' K s n area) as [[[g0 g1] g2] E]; [lra|]. exists g0, g1, g2. split; [exact E|].
  intros p0 gr. eapply row_flux_ok; eassumption.
Qed.
Lemma subface_proof : forall g f a vs, nth_error (g_fa g) f = Some a -> nth_error (g_fverts g) f = Some vs -> vs <> [] ->
  exists r, subface_area g f = Ok (Some r) /\ INR (length vs) * r = a.
Proof.
  intros g f a vs Ha Hv Hn. unfold subface_area. rewrite (rd_some _ _ _ Ha), (rd_some _ _ _ Hv). cbn [bind].
  assert (INR (length vs) <> 0) by (apply not_0_INR; destruct vs; [contradiction|discriminate]).
  rewrite fdiv_ok by assumption. eexists. split; [reflexivity|]. field. assumption.
Qed.
Lemma setup_proof : forall g cverts n st,
  (forall vs, In vs cverts -> length vs = n) ->
  (length cverts * n <= length (st_sub st))%nat -> (3 * (length cverts * n) <= length (st_continuity st))%nat ->
  (forall i vs iv, nth_error cverts i = Some vs -> In iv vs -> exists s, SetupSubcell g i iv = Ok s) ->
  exists st', SetupSubcells g n cverts st = Ok st' /\
    forall i vs j iv s, nth_error cverts i = Some vs -> nth_error vs j = Some iv -> SetupSubcell g i iv = Ok s ->
      nth_error (st_sub st') (i * n + j) = Some (Some s).
Proof.
  intros g cverts n st Hn H1 H2 Hs. destruct (uniform_ok g cverts n st Hn (conj H1 H2) Hs) as [st' [E [_ P]]].
  exists st'. split; [exact E|]. intros i vs j iv s Hi Hj Es. exact (proj1 (P i vs j iv s Hi Hj Es)).
Qed.
Lemma centroid_proof : forall g cverts n st st',
  SetupSubcells g n cverts st = Ok st' -> forall id i, ith_centroid st' id i = ith_centroid st id i.
Proof.
  intros g cverts n st st' H id i.
  assert (E : st_centroid st' = st_centroid st).
  { apply (for_preserves (fun _ t => st_centroid t = st_centroid st) _ _ _ _ H); [reflexivity|].
    intros c t t' _ Ht Hc. unfold setup_cell in Hc. step Hc Ev.
    apply (for_preserves (fun _ t => st_centroid t = st_centroid st) _ _ _ _ Hc); [exact Ht|].
    intros j u u' _ Hu Hj. step Hj Ea. step Hj Eb. unfold set_subcell in Hj. step Hj Ec. step Hj Ed. injection Hj as <-. exact Hu. }
  unfold ith_centroid. rewrite E. reflexivity.
Qed.

(** * Two-point G matrices *)
Lemma opposite_proof : forall area n xA xB KA KB GA GB,
  tpf_G area n xB xA true KA KB = Some GA -> tpf_G area n xA xB true KB KA = Some GB -> GB = - GA.
Proof. intros area n xA xB KA KB GA GB HA HB. rewrite tpf_opposite_ok, HA in HB. unfold fl1 in HB. cbn [fbind] in HB. congruence. Qed.
Lemma orthogonal_proof : forall area n xA xB k p0 gr, k <> 0 -> xA <> xB ->
  vsub xB xA = vscale (length3 (vsub xB xA)) n ->
  exists G, tpf_G area n xB xA true (isotropic k) (isotropic k) = Some G /\
    G * (linear p0 gr xA - linear p0 gr xB) / 2 = area * dot n (mat_vec (isotropic k) gr).
Proof.
  intros area n xA xB k p0 gr Hk Hx Hn. eexists. split; [apply tpf_value; assumption|].
  pose proof (length_pos _ (vsub_zero _ _ (not_eq_sym Hx))) as Hp. set (L := length3 (vsub xB xA)) in *.
  assert (H : linear p0 gr xA - linear p0 gr xB = - (L * dot n gr)).
  { assert (E : dot (vsub xB xA) gr = dot (vscale L n) gr) by (rewrite Hn; reflexivity).
    destruct xA, xB, gr, n. vec. lra. }
  rewrite H. unfold isotropic. destruct n, gr. vec. field. lra.
Qed.
Lemma series_proof : exists n xA xB G,
  vsub xB xA = vscale (length3 (vsub xB xA)) n /\ length3 (vsub xB xA) = 1 /\
  tpf_G 1 n xB xA true (isotropic 1) (isotropic 3) = Some G /\
  (exists q, series 1 3 (1/2) (1/2) 1 0 q) /\
  forall q, series 1 3 (1/2) (1/2) 1 0 q -> - (G * (1 - 0) / 2) <> q.
Proof.
  exists (V3 1 0 0), (V3 0 0 0), (V3 1 0 0).
  assert (HL : length3 (vsub (V3 1 0 0) (V3 0 0 0)) = 1).
  { unfold length3. vec. replace ((1 - 0) * (1 - 0) + (0 - 0) * (0 - 0) + (0 - 0) * (0 - 0)) with 1 by ring. apply sqrt_1. }
  assert (HV : vsub (V3 1 0 0) (V3 0 0 0) = vscale (length3 (vsub (V3 1 0 0) (V3 0 0 0))) (V3 1 0 0)).
  { rewrite HL. vec. f_equal; ring. }
  eexists. split; [exact HV|]. split; [exact HL|]. split; [apply tpf_value; [lra|lra| |exact HV]|].
  - intros E. injection E. lra.
  - rewrite HL. split.
    + exists (3/2), (1/4). lra.
    + intros q [pi [E1 E2]]. lra.
Qed.
Lemma heat_axis_proof : forall g icell cen vol f other inside n u dist area k,
  other_point g icell f = Ok (other, inside) -> nth_error (g_fn g) f = Some n ->
  UnitNormalVectorJoining other cen = Some u -> half_dist other cen inside = Some dist -> dist <> 0 -> vol <> 0 ->
  n = V3 1 0 0 \/ n = V3 0 1 0 \/ n = V3 0 0 1 ->
  exists st, nu_star g icell cen vol f = Ok (Some st) /\
    tpf_heat_G area n (isotropic k) st (vol * 6) = Some (area * k * dot n u / dist).
Proof.
  intros g icell cen vol f other inside n u dist area k Ho Hn Hu Hd Hd0 Hv Hax.
  pose proof (star_ok g icell cen vol f other inside n u dist Ho Hn Hu Hd Hd0) as Hs.
  eexists. split; [exact Hs|].
  rewrite (heat_value g icell cen vol f other inside n u dist area (isotropic k) _ Ho Hn Hu Hd Hd0 Hv Hs).
  f_equal. replace (dot n (mat_vec (isotropic k) (V3 1 1 1))) with k; [field; exact Hd0|].
  unfold isotropic. destruct Hax as [-> | [-> | ->]]; vec; ring.
Qed.
Lemma heat_proof : exists g cen other n, forall vol area k, 0 < vol -> 0 < area -> 0 < k ->
  other_point g 0 0 = Ok (other, false) /\ nth_error (g_fn g) 0 = Some n /\ nth_error (g_cc g) 0 = Some cen /\
  UnitNormalVectorJoining other cen = Some n /\ half_dist other cen false = Some (1/2) /\
  exists st G, nu_star g 0 cen vol 0 = Ok (Some st) /\ tpf_heat_G area n (isotropic k) st (vol * 6) = Some G /\
    G = - (area * k / (1/2)) /\
    forall p0 gr, area * dot n (mat_vec (isotropic k) gr) = - G * (linear p0 gr cen - linear p0 gr other).
Proof.
  exists (mkGeo [V3 (1/2) (1/2) (1/2)] [] [V3 1 (1/2) (1/2)] [V3 (-1) 0 0] [1] [(-1, 0)%Z] [] []),
    (V3 (1/2) (1/2) (1/2)), (V3 1 (1/2) (1/2)), (V3 (-1) 0 0).
  intros vol area k Hv Ha Hk.
  assert (HL : length3 (vsub (V3 (1/2) (1/2) (1/2)) (V3 1 (1/2) (1/2))) = 1/2).
  { unfold length3. vec. replace ((1/2 - 1) * (1/2 - 1) + (1/2 - 1/2) * (1/2 - 1/2) + (1/2 - 1/2) * (1/2 - 1/2)) with ((1/2) * (1/2)) by field.
    apply sqrt_square. lra. }
  assert (HU : UnitNormalVectorJoining (V3 1 (1/2) (1/2)) (V3 (1/2) (1/2) (1/2)) = Some (V3 (-1) 0 0)).
  { rewrite joining_value by (intros E; injection E; lra). rewrite HL. f_equal. vec. f_equal; field. }
  assert (HD : half_dist (V3 1 (1/2) (1/2)) (V3 (1/2) (1/2) (1/2)) false = Some (1/2)).
  { unfold half_dist. rewrite ComputeLength_sym, ComputeLength_value, HL. reflexivity. }
  split; [reflexivity|]. split; [reflexivity|]. split; [reflexivity|]. split; [exact HU|]. split; [exact HD|].
  set (g := mkGeo _ _ _ _ _ _ _ _).
  pose proof (star_ok g 0 (V3 (1/2) (1/2) (1/2)) vol 0 (V3 1 (1/2) (1/2)) false (V3 (-1) 0 0) (V3 (-1) 0 0) (1/2)
    eq_refl eq_refl HU HD ltac:(lra)) as Hs.
  do 2 eexists. split; [exact Hs|].
  split; [apply (heat_value g 0 (V3 (1/2) (1/2) (1/2)) vol 0 (V3 1 (1/2) (1/2)) false (V3 (-1) 0 0) (V3 (-1) 0 0) (1/2) area (isotropic k) _
    eq_refl eq_refl HU HD ltac:(lra) ltac:(lra) Hs)|].
  split; [unfold isotropic; vec; field|]. intros p0 [gx gy gz]. unfold isotropic. vec. field.
Qed.
Lemma salinity_proof : forall f0 f1 f2 f p pi,
  sf_g f = (tpf_psi_G, tpf_psi_G, tpf_psi_G) -> side_flux (f0, f1, f2) f p pi = 0.
Proof. intros f0 f1 f2 f p pi H. unfold side_flux. rewrite H. unfold tpf_psi_G. ring. Qed.

(** The unit cube with the corner at the origin pushed in to (3/5,3/5,3/5); the centres are
    the averages of the vertices.  The vertex and the cell centre lie on the same side of
    the plane through the centres of the faces x=0, z=0 and y=0. *)
Definition bad_geo : geo := mkGeo
  [V3 (23/40) (23/40) (23/40)]
  [V3 (3/5) (3/5) (3/5); V3 1 0 0; V3 0 1 0; V3 1 1 0; V3 0 0 1; V3 1 0 1; V3 0 1 1; V3 1 1 1]
  [V3 (3/20) (13/20) (13/20); V3 (13/20) (13/20) (3/20); V3 (13/20) (3/20) (13/20)]
  [V3 1 0 0; V3 0 0 1; V3 0 1 0] [1; 1; 1]
  [(-1, 0); (-2, 0); (-3, 0)]%Z [[0; 2; 6; 4]; [0; 1; 3; 2]; [0; 1; 5; 4]]%nat [[0; 1; 2]%nat].
Ltac ready' := do 5 eexists; split; [reflexivity|]; split; [reflexivity|]; split; [reflexivity|]; split; [reflexivity|];
  split; [reflexivity|]; split; [do 2 eexists; split; reflexivity|]; eexists; reflexivity.
Lemma distorted_proof : exists g s cen vtx x0 x1 x2 K n,
  SetupSubcell g 0 0 = Ok s /\ s_faces s = (0, 1, 2)%nat /\
  nth_error (g_cc g) 0 = Some cen /\ nth_error (g_vx g) 0 = Some vtx /\
  nth_error (g_fc g) 0 = Some x0 /\ nth_error (g_fc g) 1 = Some x1 /\ nth_error (g_fc g) 2 = Some x2 /\
  seen cen x0 x1 x2 <> 0 /\
  exists g0 g1 g2, row_G K s n 1 = Some (g0, g1, g2) /\
    forall p0 gr, g0 * (linear p0 gr cen - linear p0 gr x0) + g1 * (linear p0 gr cen - linear p0 gr x1) +
      g2 * (linear p0 gr cen - linear p0 gr x2) = - dot n (mat_vec K gr).
Proof.
  assert (exists s, SetupSubcell bad_geo 0 0 = Ok s /\ s_faces s = (0, 1, 2)%nat) as [s [E F]].
  { eapply (setup_oriented bad_geo 0 0 _ _ _ 0 1 2 0 1 2); [reflexivity|reflexivity|reflexivity|reflexivity| |ready'|ready'|ready'].
    unfold orient. cbn [rd nth_error g_fc bad_geo bind]. rewrite orient_value.
    match goal with |- context [Rlt_dec ?x 0] => destruct (Rlt_dec x 0) as [H|H]; [exfalso|reflexivity] end.
    revert H. vec. lra. }
  pose proof (made_setup bad_geo 0 0 s _ _ 0 1 2 _ _ _ E F eq_refl eq_refl eq_refl eq_refl eq_refl) as M.
  assert (HD : seen (V3 (23/40) (23/40) (23/40)) (V3 (3/20) (13/20) (13/20)) (V3 (13/20) (13/20) (3/20)) (V3 (13/20) (3/20) (13/20)) = 11/160)
    by (vec; lra).
  assert (HT : s_T s = 11/160).
  { rewrite (md_T _ _ _ _ _ _ _ _ _ _ _ _ M), HD. apply Rabs_pos_eq. lra. }
  exists bad_geo, s. do 5 eexists. exists (isotropic 1), (V3 1 0 0).
  split; [exact E|]. split; [exact F|]. split; [reflexivity|]. split; [reflexivity|]. split; [reflexivity|].
  split; [reflexivity|]. split; [reflexivity|]. split; [rewrite HD; lra|].
  unfold row_G, EntryOfG. rewrite (md_nu _ _ _ _ _ _ _ _ _ _ _ _ M), HT, fdiv_ok by lra. cbn [fbind].
  do 3 eexists. split; [reflexivity|]. intros p0 [gx gy gz]. unfold isotropic. vec. field.
Qed.
