(** Proofs about sub-cells. *)
From Coq Require Import Reals List Bool Arith ZArith Lia Lra Permutation.
From Verif Require Import Prelude Arrays SpecFvtpf FvtpfSumProofs Geom SpecGeom Mpfao SpecMpfao MpfaoProofs Subcell SpecSubcell.
Import ListNotations.
Local Open Scope R_scope.

Ltac vec := unfold dual, linear, seen, NormalToTriangle, CrossProduct, VecJoining, DotProduct, mat_vec, mulv,
  det3, dot, vsub, vscale, vadd in *; cbn [vx vy vz m0 m1 m2 m3_ m4 m5 m6 m7 m8] in *.

(** * Vectors *)
Lemma dual_ok : forall c x0 x1 x2,
  dual (NormalToTriangle c x1 x2) (NormalToTriangle c x2 x0) (NormalToTriangle c x0 x1)
       (vsub x0 c) (vsub x1 c) (vsub x2 c) (seen c x0 x1 x2).
Proof. intros [] [] [] []. vec. repeat split; ring. Qed.
Lemma volume_seen : forall c x0 x1 x2, ComputeVolumeOfTetrahedron c x0 x1 x2 * 6 = Rabs (seen c x0 x1 x2).
Proof.
  intros [] [] [] []. unfold ComputeVolumeOfTetrahedron. unfold Rdiv. rewrite Rmult_assoc.
  replace (/ 6 * 6) with 1 by field. rewrite Rmult_1_r. f_equal. vec. ring.
Qed.
Lemma orient_value : forall c v x0 x1 x2,
  DotProduct (CrossProduct (VecJoining x0 x1) (VecJoining x0 x2)) (VecJoining v c) = seen v x0 x1 x2 - seen c x0 x1 x2.
Proof. intros [] [] [] [] []. vec. ring. Qed.
Lemma seen_swap : forall c x0 x1 x2, seen c x0 x2 x1 = - seen c x0 x1 x2.
Proof. intros [] [] [] []. vec. ring. Qed.
Lemma seen_cycle : forall c x0 x1 x2, seen c x1 x2 x0 = seen c x0 x1 x2.
Proof. intros [] [] [] []. vec. ring. Qed.
Lemma between_swap : forall p q x0 x1 x2, between p q x0 x1 x2 -> between p q x0 x2 x1.
Proof.
  intros p q x0 x1 x2 H. unfold between in *. rewrite (seen_swap p x0 x1 x2), (seen_swap q x0 x1 x2). nra.
Qed.
(** Cramer: the three dual vectors recover the gradient of a linear function. *)
Lemma gradient_ok : forall c x0 x1 x2 p0 gr,
  vadd (vadd (vscale (linear p0 gr x0 - linear p0 gr c) (NormalToTriangle c x1 x2))
             (vscale (linear p0 gr x1 - linear p0 gr c) (NormalToTriangle c x2 x0)))
       (vscale (linear p0 gr x2 - linear p0 gr c) (NormalToTriangle c x0 x1)) = vscale (seen c x0 x1 x2) gr.
Proof. intros [] [] [] [] p0 []. vec. f_equal; ring. Qed.
Lemma flux_of_gradient : forall K n a b c (p q r : R) s,
  vadd (vadd (vscale p a) (vscale q b)) (vscale r c) = s ->
  DotProduct n (mulv K a) * p + DotProduct n (mulv K b) * q + DotProduct n (mulv K c) * r = dot n (mat_vec K s).
Proof. intros [] [] [] [] [] p q r s <-. vec. ring. Qed.

(** * Cells *)
Lemma parallelepiped_ok : forall v e1 e2 e3, det3 e1 e2 e3 <> 0 ->
  between (vadd v (vscale (1/2) (vadd e1 (vadd e2 e3)))) v
    (vadd v (vscale (1/2) (vadd e1 e2))) (vadd v (vscale (1/2) (vadd e2 e3))) (vadd v (vscale (1/2) (vadd e1 e3))).
Proof.
  intros [a b c] [x1 y1 z1] [x2 y2 z2] [x3 y3 z3] H. unfold between.
  set (d := det3 (V3 x1 y1 z1) (V3 x2 y2 z2) (V3 x3 y3 z3)) in *.
  match goal with |- ?l * ?r < 0 => replace l with (- d / 8); [replace r with (d / 4)|] end.
  - assert (0 < d * d) by nra. nra.
  - unfold d. vec. field.
  - unfold d. vec. field.
Qed.
Lemma prism_ok : forall v e1 e2 e3, det3 e1 e2 e3 <> 0 ->
  between (vadd v (vadd (vscale (1/3) (vadd e1 e2)) (vscale (1/2) e3))) v
    (vadd v (vscale (1/2) (vadd e1 e3))) (vadd v (vscale (1/2) (vadd e2 e3))) (vadd v (vscale (1/3) (vadd e1 e2))).
Proof.
  intros [a b c] [x1 y1 z1] [x2 y2 z2] [x3 y3 z3] H. unfold between.
  set (d := det3 (V3 x1 y1 z1) (V3 x2 y2 z2) (V3 x3 y3 z3)) in *.
  match goal with |- ?l * ?r < 0 => replace l with (d / 24); [replace r with (- d / 6)|] end.
  - assert (0 < d * d) by nra. nra.
  - unfold d. vec. field.
  - unfold d. vec. field.
Qed.

(** * SetupSubcell *)
Ltac step H E := match type of H with
  | bind ?e _ = Ok _ => destruct e eqn:E; cbn [bind] in H; try discriminate
  end.

Lemma rd_inv' : forall {A} (l : list A) i x, rd l i = Ok x -> nth_error l i = Some x.
Proof. intros A l i x H. unfold rd in H. destruct (nth_error l i); congruence. Qed.

Lemma common_ok : forall g cell l got r n, common_faces g (Z.of_nat cell) l got = Ok (r, n) -> n = 3%nat ->
  (length got <= 3)%nat -> r = got ++ filter (touches g cell) l /\ length r = 3%nat.
Proof.
  intros g cell; induction l as [|f l IH]; intros got r n H Hn Hg; simpl in H.
  - injection H as <- <-. simpl. rewrite app_nil_r. auto.
  - destruct (rd (g_fcells g) f) as [c| |] eqn:E; cbn [bind] in H; try discriminate.
    apply rd_inv' in E. simpl. unfold touches at 1. rewrite E.
    destruct ((fst c =? Z.of_nat cell)%Z || (snd c =? Z.of_nat cell)%Z) eqn:Ec.
    + destruct (Nat.eqb_spec (length got) 3) as [E3|E3].
      * injection H as <- <-. discriminate.
      * apply IH in H; [|exact Hn|rewrite app_length; simpl; lia].
        destruct H as [-> H]. rewrite <- app_assoc in H |- *. split; [reflexivity|exact H].
    + apply IH in H; assumption.
Qed.

Lemma orient_ok : forall g cen vtx a b c f0 f1 f2, orient g cen vtx a b c = Ok (f0, f1, f2) ->
  Permutation [a; b; c] [f0; f1; f2] /\
  forall x0 x1 x2, nth_error (g_fc g) f0 = Some x0 -> nth_error (g_fc g) f1 = Some x1 -> nth_error (g_fc g) f2 = Some x2 ->
    0 <= seen vtx x0 x1 x2 - seen cen x0 x1 x2.
Proof.
  intros g cen vtx a b c f0 f1 f2 H. unfold orient in H.
  step H Ea. step H Eb. step H Ec. apply rd_inv' in Ea, Eb, Ec. rewrite orient_value in H.
  match type of H with (if Rlt_dec ?x 0 then _ else _) = _ => destruct (Rlt_dec x 0) as [Hl|Hl] end;
    injection H as <- <- <-; split.
  - apply perm_skip. apply perm_swap.
  - intros x0 x1 x2 H0 H1 H2. rewrite Ea in H0. rewrite Ec in H1. rewrite Eb in H2.
    injection H0 as <-. injection H1 as <-. injection H2 as <-.
    rewrite (seen_swap vtx), (seen_swap cen). lra.
  - apply Permutation_refl.
  - intros x0 x1 x2 H0 H1 H2. rewrite Ea in H0. rewrite Eb in H1. rewrite Ec in H2.
    injection H0 as <-. injection H1 as <-. injection H2 as <-. lra.
Qed.

Record made (g : geo) (icell iv : nat) (s : sub) (cen vtx : v3) (f0 f1 f2 : nat) (x0 x1 x2 : v3) : Prop := {
  md_cen : nth_error (g_cc g) icell = Some cen;
  md_vtx : nth_error (g_vx g) iv = Some vtx;
  md_faces : s_faces s = (f0, f1, f2);
  md_0 : nth_error (g_fc g) f0 = Some x0;
  md_1 : nth_error (g_fc g) f1 = Some x1;
  md_2 : nth_error (g_fc g) f2 = Some x2;
  md_of : exists l, nth_error (g_vfaces g) iv = Some l /\ Permutation [f0; f1; f2] (filter (touches g icell) l);
  md_T : s_T s = Rabs (seen cen x0 x1 x2);
  md_nu : s_nu s = (NormalToTriangle cen x1 x2, NormalToTriangle cen x2 x0, NormalToTriangle cen x0 x1);
  md_side : 0 <= seen vtx x0 x1 x2 - seen cen x0 x1 x2;
  md_area : exists a0 a1 a2, s_area s = (a0, a1, a2) /\
    subface_area g f0 = Ok a0 /\ subface_area g f1 = Ok a1 /\ subface_area g f2 = Ok a2
}.
Lemma made_ok : forall g icell iv s, SetupSubcell g icell iv = Ok s ->
  exists cen vtx f0 f1 f2 x0 x1 x2, made g icell iv s cen vtx f0 f1 f2 x0 x1 x2.
Proof.
  intros g icell iv s H. unfold SetupSubcell in H.
  destruct (rd (g_cc g) icell) as [cen| |] eqn:Ecen; cbn [bind] in H; try discriminate.
  destruct (rd (g_vx g) iv) as [vtx| |] eqn:Evtx; cbn [bind] in H; try discriminate.
  destruct (rd (g_vfaces g) iv) as [l| |] eqn:El; cbn [bind] in H; try discriminate.
  destruct (common_faces g (Z.of_nat icell) l []) as [[r n]| |] eqn:Ef; cbn [bind] in H; try discriminate.
  destruct r as [|a [|b [|c [|? ?]]]]; try discriminate.
  destruct n as [|[|[|[|?]]]]; try discriminate.
  destruct (orient g cen vtx a b c) as [[[f0 f1] f2]| |] eqn:Eo; cbn [bind] in H; try discriminate.
  destruct (rd (g_fc g) f0) as [x0| |] eqn:E0; cbn [bind] in H; try discriminate.
  destruct (rd (g_fc g) f1) as [x1| |] eqn:E1; cbn [bind] in H; try discriminate.
  destruct (rd (g_fc g) f2) as [x2| |] eqn:E2; cbn [bind] in H; try discriminate.
  step H Ec0. step H Ec1. step H Ec2.
  destruct (subface_area g f0) as [b0| |] eqn:Eb0; cbn [bind] in H; try discriminate.
  destruct (subface_area g f1) as [b1| |] eqn:Eb1; cbn [bind] in H; try discriminate.
  destruct (subface_area g f2) as [b2| |] eqn:Eb2; cbn [bind] in H; try discriminate.
  step H Et0. step H Et1. step H Et2.
  injection H as <-.
  destruct (common_ok _ _ _ _ _ _ Ef eq_refl) as [Hc _]; [simpl; lia|].
  destruct (orient_ok _ _ _ _ _ _ _ _ _ Eo) as [Hp Ho].
  apply rd_inv' in Ecen, Evtx, El, E0, E1, E2.
  exists cen, vtx, f0, f1, f2, x0, x1, x2.
  constructor; simpl; auto.
  - exists l. split; [exact El|]. simpl in Hc. rewrite <- Hc. apply Permutation_sym. exact Hp.
  - apply volume_seen.
  - exists b0, b1, b2. auto.
Qed.
Lemma made_same : forall g icell iv s c v f0 f1 f2 x0 x1 x2 cen vtx y0 y1 y2 h0 h1 h2,
  made g icell iv s c v f0 f1 f2 x0 x1 x2 -> s_faces s = (h0, h1, h2) ->
  nth_error (g_cc g) icell = Some cen -> nth_error (g_vx g) iv = Some vtx ->
  nth_error (g_fc g) h0 = Some y0 -> nth_error (g_fc g) h1 = Some y1 -> nth_error (g_fc g) h2 = Some y2 ->
  made g icell iv s cen vtx h0 h1 h2 y0 y1 y2.
Proof.
  intros g icell iv s c v f0 f1 f2 x0 x1 x2 cen vtx y0 y1 y2 h0 h1 h2 M Hf Hc Hv H0 H1 H2.
  pose proof (md_faces _ _ _ _ _ _ _ _ _ _ _ _ M) as E. rewrite Hf in E. injection E as -> -> ->.
  rewrite (md_0 _ _ _ _ _ _ _ _ _ _ _ _ M) in H0. rewrite (md_1 _ _ _ _ _ _ _ _ _ _ _ _ M) in H1.
  rewrite (md_2 _ _ _ _ _ _ _ _ _ _ _ _ M) in H2. rewrite (md_cen _ _ _ _ _ _ _ _ _ _ _ _ M) in Hc.
  rewrite (md_vtx _ _ _ _ _ _ _ _ _ _ _ _ M) in Hv.
  injection H0 as <-. injection H1 as <-. injection H2 as <-. injection Hc as <-. injection Hv as <-. exact M.
Qed.
Lemma made_setup : forall g icell iv s cen vtx f0 f1 f2 x0 x1 x2, SetupSubcell g icell iv = Ok s ->
  s_faces s = (f0, f1, f2) ->
  nth_error (g_cc g) icell = Some cen -> nth_error (g_vx g) iv = Some vtx ->
  nth_error (g_fc g) f0 = Some x0 -> nth_error (g_fc g) f1 = Some x1 -> nth_error (g_fc g) f2 = Some x2 ->
  made g icell iv s cen vtx f0 f1 f2 x0 x1 x2.
Proof.
  intros g icell iv s cen vtx f0 f1 f2 x0 x1 x2 H Hf Hc Hv H0 H1 H2.
  destruct (made_ok _ _ _ _ H) as [c [v [h0 [h1 [h2 [y0 [y1 [y2 M]]]]]]]].
  eapply made_same; eassumption.
Qed.

Lemma made_positive : forall g icell iv s cen vtx f0 f1 f2 x0 x1 x2,
  made g icell iv s cen vtx f0 f1 f2 x0 x1 x2 -> between cen vtx x0 x1 x2 ->
  seen cen x0 x1 x2 = - s_T s /\ 0 < s_T s.
Proof.
  intros g icell iv s cen vtx f0 f1 f2 x0 x1 x2 M Hb.
  pose proof (md_side _ _ _ _ _ _ _ _ _ _ _ _ M) as Hs. rewrite (md_T _ _ _ _ _ _ _ _ _ _ _ _ M).
  unfold between in Hb.
  assert (Hn : seen cen x0 x1 x2 < 0) by nra.
  rewrite Rabs_left by exact Hn. lra.
Qed.

(** * Rows of G *)
Lemma row_ok' : forall K s n area, s_T s <> 0 -> exists r, row_G K s n area = Some r.
Proof.
  intros K s n area H. unfold row_G. destruct (s_nu s) as [[v0 v1] v2]. unfold EntryOfG.
  rewrite (fdiv_ok 1 _ H). cbn [fbind]. eauto.
Qed.
Lemma row_flux_ok : forall g icell iv s cen vtx f0 f1 f2 x0 x1 x2 K n area g0 g1 g2 p0 gr,
  made g icell iv s cen vtx f0 f1 f2 x0 x1 x2 -> between cen vtx x0 x1 x2 ->
  row_G K s n area = Some (g0, g1, g2) ->
  g0 * (linear p0 gr cen - linear p0 gr x0) + g1 * (linear p0 gr cen - linear p0 gr x1) +
  g2 * (linear p0 gr cen - linear p0 gr x2) = area * dot n (mat_vec K gr).
Proof.
  intros g icell iv s cen vtx f0 f1 f2 x0 x1 x2 K n area g0 g1 g2 p0 gr M Hb H.
  destruct (made_positive _ _ _ _ _ _ _ _ _ _ _ _ M Hb) as [HD HT].
  unfold row_G in H. rewrite (md_nu _ _ _ _ _ _ _ _ _ _ _ _ M) in H. unfold EntryOfG in H.
  rewrite (fdiv_ok 1 (s_T s)) in H by lra. cbn [fbind] in H. injection H as <- <- <-.
  pose proof (flux_of_gradient K n _ _ _ _ _ _ _ (gradient_ok cen x0 x1 x2 p0 gr)) as E.
  rewrite HD in E.
  assert (E' : dot n (mat_vec K (vscale (- s_T s) gr)) = - s_T s * dot n (mat_vec K gr)).
  { destruct gr, n, K. vec. ring. }
  rewrite E' in E.
  set (A0 := DotProduct n (mulv K (NormalToTriangle cen x1 x2))) in *.
  set (A1 := DotProduct n (mulv K (NormalToTriangle cen x2 x0))) in *.
  set (A2 := DotProduct n (mulv K (NormalToTriangle cen x0 x1))) in *.
  transitivity (- (area / s_T s) * (A0 * (linear p0 gr x0 - linear p0 gr cen) + A1 * (linear p0 gr x1 - linear p0 gr cen) +
    A2 * (linear p0 gr x2 - linear p0 gr cen))).
  - unfold Rdiv. ring.
  - rewrite E. field. lra.
Qed.

(** * The local system of a vertex has one solution *)
Section Unique.
Variable b : bctype.
Variable v : vertex.
Hypothesis Hv : well_numbered v.
Variable m : cf.
Hypothesis Hm : ComputeCandF (sizes_of b v) v = Ok m.
Hypothesis Hr : nonsingular (nsys (sizes_of b v)) (fill_A (sizes_of b v) m).
Hypothesis Ht : two_sided v.
Variable d : nat -> R.
Hypothesis HD : b <> NeumannBC -> forall f, In f (all_faces v) -> sf_internal f = false -> d (sf_unk f) = 0.
Hypothesis HI : forall a s f a' s' f', nth_error (v_sub v) a = Some s -> In f (sfaces s) ->
  nth_error (v_sub v) a' = Some s' -> In f' (sfaces s') ->
  sf_internal f = true -> sf_internal f' = true -> sf_flux f = sf_flux f' ->
  side_flux s f 0 d = side_flux s' f' 0 d.
Hypothesis HN : b = NeumannBC -> forall a s f, nth_error (v_sub v) a = Some s -> In f (sfaces s) ->
  sf_internal f = false -> side_flux s f 0 d = 0.

Lemma bnd_unknowns : forall j, (j < v_nbnd v)%nat -> b <> NeumannBC -> d (inner v + j)%nat = 0.
Proof.
  intros j Hj Hb. rewrite (wn_bnd v Hv) in Hj. unfold count in Hj.
  destruct (nth_error (filter is_bnd (all_faces v)) j) as [f|] eqn:E.
  - rewrite <- (wn_outer_unknown v Hv j f E). apply nth_error_In in E. apply filter_In in E. destruct E as [E1 E2].
    apply HD; auto. unfold is_bnd in E2. destruct (sf_internal f); [discriminate|reflexivity].
  - apply nth_error_None in E. lia.
Qed.
Lemma whole_row : forall c : nat -> R, total (fun k => c k * d k) (inner v + v_nbnd v) =
  total (fun k => c k * d k) (nsys (sizes_of b v)).
Proof.
  intros c. rewrite (split_row b). rewrite (total_ext (fun j => c (nsys (sizes_of b v) + j)%nat * d (nsys (sizes_of b v) + j)%nat) (fun _ => 0)).
  - rewrite total_zero. ring.
  - intros j Hj. destruct (sizes_cases b v) as [[Z1 [_ [_ [Z4 [_ [_ Zb]]]]]]|[Z0 _]]; [|lia].
    unfold nsys. rewrite Z1, Nat.add_0_r, (inner_in b v). rewrite (bnd_unknowns j); [ring|lia|exact Zb].
Qed.
Lemma row_of : forall bb r, (exists a s f, nth_error (v_sub v) a = Some s /\ In f (sfaces s) /\ sf_up f = bb /\ sf_flux f = r /\
    total (fun k => m_el (selC bb m) r k * d k) (nsys (sizes_of b v)) = side_flux s f 0 d) \/
  ((forall f, In f (all_faces v) -> hits bb r f = false) /\
   total (fun k => m_el (selC bb m) r k * d k) (nsys (sizes_of b v)) = 0).
Proof.
  intros bb r. destruct (existsb (hits bb r) (all_faces v)) eqn:E.
  - left. apply existsb_exists in E. destruct E as [f [Hf Hh]]. unfold hits in Hh. apply andb_prop in Hh.
    destruct Hh as [Hh1 Hh2]. apply eqb_prop in Hh1. apply Nat.eqb_eq in Hh2. subst r bb.
    unfold all_faces in Hf. apply in_flat_map in Hf. destruct Hf as [s [Hs Hf]].
    apply In_nth_error in Hs. destruct Hs as [a Ha].
    exists a, s, f. repeat (split; [auto|]).
    pose proof (row_flux b v Hv m Hm a s f d (fun _ => 0) Ha Hf) as H. cbv beta in H.
    rewrite <- H, whole_row.
    rewrite (total_ext (fun j => m_el (selF (sf_up f) m) (sf_flux f) j * 0) (fun _ => 0)) by (intros; ring).
    rewrite total_zero. ring.
  - right. assert (Hno : forall f, In f (all_faces v) -> hits bb r f = false).
    { intros f Hf. destruct (hits bb r f) eqn:Eh; [|reflexivity].
      rewrite <- E. symmetry. apply existsb_exists. exists f. auto. }
    split; [exact Hno|]. apply (empty_row b v Hv m Hm bb r d d _ 0 Hno).
Qed.
Lemma low_is_internal : forall f, In f (all_faces v) -> (sf_flux f < inner v)%nat -> sf_internal f = true.
Proof.
  intros f Hf Hl. destruct (sf_internal f) eqn:E; [reflexivity|].
  pose proof (outer_bound v Hv f Hf E). lia.
Qed.
Lemma high_is_boundary : forall f, In f (all_faces v) -> (inner v <= sf_flux f)%nat -> sf_internal f = false.
Proof.
  intros f Hf Hl. destruct (sf_internal f) eqn:E; [|reflexivity].
  pose proof (wn_inner v Hv f Hf E). lia.
Qed.
Lemma difference_zero : forall k, (k < nsys (sizes_of b v))%nat -> d k = 0.
Proof.
  apply Hr. intros i Hi.
  change (total (fun k => cm (nsys (sizes_of b v)) (fill_A (sizes_of b v) m) i k * d k) (nsys (sizes_of b v)) = 0).
  pose proof Hi as Hi'. rewrite (nsys_height b v Hv) in Hi.
  destruct (Nat.lt_ge_cases i (nflux_in (sizes_of b v))) as [Hin|Hout].
  - rewrite (total_ext _ (fun k => - (m_el (Cup m) i k * d k) + m_el (Cdn m) i k * d k))
      by (intros k Hk; rewrite (A_in b v Hv) by assumption; ring).
    rewrite total_plus, total_opp. rewrite (inner_in b v) in Hin.
    destruct (row_of true i) as [[a [s [f [Ha [Hf [Hup [Hfl E1]]]]]]]|[Hno E1]];
    destruct (row_of false i) as [[a' [s' [f' [Ha' [Hf' [Hup' [Hfl' E2]]]]]]]|[Hno' E2]];
    cbn [selC] in E1, E2; rewrite E1, E2.
    + assert (F1 : sf_internal f = true) by (apply low_is_internal; [exact (face_in v a s f Ha Hf)|lia]).
      assert (F2 : sf_internal f' = true) by (apply low_is_internal; [exact (face_in v a' s' f' Ha' Hf')|lia]).
      rewrite (HI a s f a' s' f' Ha Hf Ha' Hf' F1 F2) by congruence. ring.
    + exfalso. assert (Hfi : In f (all_faces v)) by (eapply face_in; eassumption).
      destruct (Ht f Hfi) as [h [Hh [_ [Hhf Hhu]]]]; [apply low_is_internal; [exact Hfi|lia]|].
      specialize (Hno' h Hh). unfold hits, side in Hno'. rewrite Hhu, Hup, Hhf, Hfl, Nat.eqb_refl in Hno'. discriminate.
    + exfalso. assert (Hfi : In f' (all_faces v)) by (eapply face_in; eassumption).
      destruct (Ht f' Hfi) as [h [Hh [_ [Hhf Hhu]]]]; [apply low_is_internal; [exact Hfi|lia]|].
      specialize (Hno h Hh). unfold hits, side in Hno. rewrite Hhu, Hup', Hhf, Hfl', Nat.eqb_refl in Hno. discriminate.
    + ring.
  - destruct (sizes_cases b v) as [[_ [Z2 [Z3 _]]]|[_ [_ [_ [_ [_ [_ Zb]]]]]]]; [lia|].
    destruct (Nat.lt_ge_cases (i - nflux_in (sizes_of b v)) (neu_up (sizes_of b v))) as [Hq|Hq].
    + replace i with (nflux_in (sizes_of b v) + (i - nflux_in (sizes_of b v)))%nat by lia.
      rewrite (total_ext _ (fun k => - (m_el (Cup m) (nflux_in (sizes_of b v) + (i - nflux_in (sizes_of b v))) k * d k)))
        by (intros k Hk; rewrite (A_up b v Hv) by assumption; ring).
      rewrite total_opp.
      destruct (row_of true (nflux_in (sizes_of b v) + (i - nflux_in (sizes_of b v)))%nat) as [[a [s [f [Ha [Hf [Hup [Hfl E1]]]]]]]|[Hno E1]];
        cbn [selC] in E1; rewrite E1; [|ring].
      rewrite (HN Zb a s f); auto; [ring|]. apply high_is_boundary; [eapply face_in; eassumption|].
      rewrite Hfl, (inner_in b v). lia.
    + set (q := (i - nflux_in (sizes_of b v) - neu_up (sizes_of b v))%nat).
      replace i with (nflux_in (sizes_of b v) + neu_up (sizes_of b v) + q)%nat by (unfold q; lia).
      rewrite (total_ext _ (fun k => - (m_el (Cdn m) (nflux_in (sizes_of b v) + q) k * d k)))
        by (intros k Hk; rewrite (A_dn b v Hv) by (try assumption; unfold q; lia); ring).
      rewrite total_opp.
      destruct (row_of false (nflux_in (sizes_of b v) + q)%nat) as [[a [s [f [Ha [Hf [Hup [Hfl E1]]]]]]]|[Hno E1]];
        cbn [selC] in E1; rewrite E1; [|ring].
      rewrite (HN Zb a s f); auto; [ring|]. apply high_is_boundary; [eapply face_in; eassumption|].
      rewrite Hfl, (inner_in b v). lia.
Qed.
Lemma difference_everywhere : forall f, In f (all_faces v) -> d (sf_unk f) = 0.
Proof.
  intros f Hf. destruct (Nat.lt_ge_cases (sf_unk f) (nsys (sizes_of b v))) as [H|H]; [apply difference_zero; exact H|].
  pose proof (unknown_bound v Hv f Hf) as Hb. pose proof (width b v) as W.
  destruct (sizes_cases b v) as [[Z1 [_ [_ [Z4 [_ [_ Zb]]]]]]|[Z0 _]]; [|lia].
  unfold nsys in H. rewrite Z1, (inner_in b v), Nat.add_0_r in H.
  replace (sf_unk f) with (inner v + (sf_unk f - inner v))%nat by lia. apply bnd_unknowns; [lia|exact Zb].
Qed.
End Unique.

Lemma side_flux_diff : forall s f p pi pi',
  side_flux s f p pi - side_flux s f p pi' = side_flux s f 0 (fun k => pi k - pi' k).
Proof. intros [[f0 f1] f2] f p pi pi'. unfold side_flux. destruct (sf_g f) as [[g0 g1] g2]. ring. Qed.
Lemma side_flux_ext : forall s f p pi pi', (forall h, In h (sfaces s) -> pi (sf_unk h) = pi' (sf_unk h)) ->
  side_flux s f p pi = side_flux s f p pi'.
Proof.
  intros [[f0 f1] f2] f p pi pi' H. unfold side_flux. destruct (sf_g f) as [[g0 g1] g2].
  rewrite (H f0), (H f1), (H f2); simpl; auto.
Qed.
Lemma inner_row : forall v f, well_numbered v -> In f (all_faces v) -> sf_internal f = true ->
  exists row, nth_error (v_rows v) (place v f) = Some row.
Proof.
  intros v f Hv Hf Hi. destruct (wn_inner v Hv f Hf Hi) as [_ Hl].
  assert (Hp : place v f = sf_flux f) by (unfold place, is_bnd; rewrite Hi; reflexivity).
  rewrite Hp. destruct (nth_error (v_rows v) (sf_flux f)) as [r|] eqn:E; [eauto|].
  apply nth_error_None in E. rewrite (wn_rows v Hv) in E. unfold inner in Hl. lia.
Qed.

(** Pressures that satisfy the demands of the scheme are the ones it eliminates. *)
Lemma determined : forall b ncells v X l P pi,
  well_numbered v -> regular b v -> lapack_answer b v X -> NonCornerVertex b ncells v (Some X) = Ok l ->
  two_sided v -> balanced b ncells v P pi ->
  forall a s f cell row, nth_error (v_sub v) a = Some s -> In f (sfaces s) -> nth_error (v_cells v) a = Some cell ->
    nth_error (v_rows v) (place v f) = Some row -> mult l P row = side_flux s f (P cell) pi.
Proof.
  intros b ncells v X l P pi Hv Hr HX Hl Ht [BD [BI BN]] a s f cell row Ha Hf Hc Hrow.
  destruct (continuity_proof b ncells v X l P Hv HX Hl) as [q [QD [QF QN]]].
  rewrite (QF a s f cell row Ha Hf Hc Hrow). apply side_flux_ext. intros h Hh.
  pose proof Hl as Hl'. unfold NonCornerVertex in Hl'.
  destruct (ComputeCandF (sizes_of b v) v) as [m| |] eqn:Em; cbn [bind] in Hl'; try discriminate.
  assert (Hcell : forall a s, nth_error (v_sub v) a = Some s -> exists c, nth_error (v_cells v) a = Some c).
  { intros a' s' Ha'. apply nth_lt in Ha'. rewrite <- (wn_cells v Hv) in Ha'.
    destruct (nth_error (v_cells v) a') as [c|] eqn:E; [eauto|]. apply nth_error_None in E. lia. }
  apply Rminus_diag_uniq.
  refine (difference_everywhere b v Hv m Em (Hr m Em) Ht (fun k => q k - pi k) _ _ _ h _).
  - intros Hb g Hg Hgi. rewrite (QD Hb g Hg Hgi), (BD Hb g Hg Hgi). ring.
  - intros a1 s1 f1 a2 s2 f2 H1 H1f H2 H2f I1 I2 E.
    destruct (Hcell a1 s1 H1) as [c1 Hc1]. destruct (Hcell a2 s2 H2) as [c2 Hc2].
    rewrite <- (side_flux_diff s1 f1 (P c1) q pi), <- (side_flux_diff s2 f2 (P c2) q pi).
    rewrite (BI a1 s1 f1 c1 a2 s2 f2 c2); auto.
    destruct (inner_row v f1 Hv) as [r1 Hr1]; [exact (face_in v a1 s1 f1 H1 H1f)|exact I1|].
    assert (P12 : place v f2 = place v f1) by (unfold place, is_bnd; rewrite I1, I2; simpl; congruence).
    rewrite <- (QF a1 s1 f1 c1 r1), <- (QF a2 s2 f2 c2 r1); auto. rewrite P12. exact Hr1.
  - intros Hb a1 s1 f1 H1 H1f I1. destruct (Hcell a1 s1 H1) as [c1 Hc1].
    rewrite <- (side_flux_diff s1 f1 (P c1) q pi), (BN Hb a1 s1 f1 c1), (QN Hb a1 s1 f1 c1); auto. ring.
  - exact (face_in v a s h Ha Hh).
Qed.

(** * Linear pressures *)
Section Patch.
Variables (g : geo) (K : m3) (iv : nat) (v : vertex) (face : nat -> nat).
Variables (xf nrm : nat -> v3) (ar : nat -> R).
Hypothesis Hmesh : of_mesh g K iv v face.
Hypothesis Hcomp : complete g face v xf nrm ar.
Variables (ncells : nat) (P : nat -> R) (cc : nat -> v3) (p0 : R) (gr : v3).
Hypothesis Hcc : forall cell, In cell (v_cells v) -> nth_error (g_cc g) cell = Some (cc cell) /\ P cell = linear p0 gr (cc cell).

Lemma patch_side : forall a s f cell, nth_error (v_sub v) a = Some s -> In f (sfaces s) -> nth_error (v_cells v) a = Some cell ->
  side_flux s f (P cell) (fun k => linear p0 gr (xf k)) = ar (sf_unk f) * dot (nrm (sf_unk f)) (mat_vec K gr).
Proof.
  intros a [[f0 f1] f2] f cell Ha Hf Hc.
  destruct (Hmesh a f0 f1 f2 cell Ha Hc) as [sg [cen [vtx [x0 [x1 [x2 [Es [Ef [Ec [Evx [E0 [E1 [E2 [Hb Hrow]]]]]]]]]]]]]].
  assert (Hall : forall h, In h [f0; f1; f2] -> In h (all_faces v)).
  { intros h Hh. eapply face_in; [exact Ha|exact Hh]. }
  destruct (Hcomp f0) as [C0 _]; [apply Hall; simpl; auto|]. destruct (Hcomp f1) as [C1 _]; [apply Hall; simpl; auto|].
  destruct (Hcomp f2) as [C2 _]; [apply Hall; simpl; auto|].
  rewrite C0 in E0. rewrite C1 in E1. rewrite C2 in E2. injection E0 as <-. injection E1 as <-. injection E2 as <-.
  destruct (Hcc cell) as [Hcc1 Hcc2]; [eapply nth_error_In; exact Hc|].
  rewrite Hcc1 in Ec. injection Ec as <-. rewrite Hcc2.
  pose proof (made_setup _ _ _ _ _ _ _ _ _ _ _ _ Es Ef Hcc1 Evx C0 C1 C2) as M.
  destruct (md_area _ _ _ _ _ _ _ _ _ _ _ _ M) as [a0 [a1 [a2 [Ea [A0 [A1 A2]]]]]].
  assert (Harea : forall h z, In h [f0; f1; f2] -> subface_area g (face (sf_unk h)) = Ok z -> z = Some (ar (sf_unk h))).
  { intros h z Hh Hz. destruct (Hcomp h (Hall h Hh)) as [_ [_ [AA [vs [F1 [F2 [F3 F4]]]]]]].
    unfold subface_area, rd in Hz. rewrite F1, F2 in Hz. cbn [bind] in Hz. injection Hz as <-.
    rewrite F4. apply fdiv_ok. apply not_0_INR. destruct vs; [contradiction|discriminate]. }
  apply Harea in A0; [|simpl; auto]. apply Harea in A1; [|simpl; auto]. apply Harea in A2; [|simpl; auto]. subst a0 a1 a2.
  assert (HG : row_G K sg (nrm (sf_unk f)) (ar (sf_unk f)) = Some (sf_g f)).
  { destruct (Hcomp f (Hall f Hf)) as [_ [Fn _]]. rewrite Ea in Hrow. simpl in Hf.
    destruct Hf as [<-|[<-|[<-|[]]]];
      [apply (Hrow 0%nat)|apply (Hrow 1%nat)|apply (Hrow 2%nat)]; simpl; auto. }
  unfold side_flux. destruct (sf_g f) as [[g0 g1] g2].
  eapply row_flux_ok; eassumption.
Qed.
Lemma patch_proof : forall b X l,
  well_numbered v -> regular b v -> lapack_answer b v X -> NonCornerVertex b ncells v (Some X) = Ok l -> two_sided v ->
  (b <> NeumannBC -> forall f, In f (all_faces v) -> sf_internal f = false ->
     P (sf_bnd f + ncells)%nat = linear p0 gr (xf (sf_unk f))) ->
  (b = NeumannBC -> forall f, In f (all_faces v) -> sf_internal f = false ->
     ar (sf_unk f) * dot (nrm (sf_unk f)) (mat_vec K gr) = 0) ->
  forall f row, In f (all_faces v) -> nth_error (v_rows v) (place v f) = Some row ->
    mult l P row = ar (sf_unk f) * dot (nrm (sf_unk f)) (mat_vec K gr).
Proof.
  intros b X l Hv Hr HX Hl Ht HD HN f row Hf Hrow.
  unfold all_faces in Hf. apply in_flat_map in Hf. destruct Hf as [s [Hs Hf]]. apply In_nth_error in Hs. destruct Hs as [a Ha].
  assert (exists cell, nth_error (v_cells v) a = Some cell) as [cell Hc].
  { pose proof (nth_lt _ _ _ Ha) as L. rewrite <- (wn_cells v Hv) in L.
    destruct (nth_error (v_cells v) a) as [c|] eqn:E; [eauto|]. apply nth_error_None in E. lia. }
  rewrite <- (patch_side a s f cell Ha Hf Hc).
  eapply determined; eauto. split; [|split].
  - intros Hb h Hh Hi. symmetry. apply HD; assumption.
  - intros a1 s1 f1 c1 a2 s2 f2 c2 H1 H1f H1c H2 H2f H2c I1 I2 E.
    rewrite (patch_side a1 s1 f1 c1), (patch_side a2 s2 f2 c2) by assumption.
    destruct (wn_inner v Hv f1) as [U1 _]; [exact (face_in v a1 s1 f1 H1 H1f)|exact I1|].
    destruct (wn_inner v Hv f2) as [U2 _]; [exact (face_in v a2 s2 f2 H2 H2f)|exact I2|].
    rewrite U1, U2, E. reflexivity.
  - intros Hb a1 s1 f1 c1 H1 H1f H1c I1. rewrite (patch_side a1 s1 f1 c1) by assumption.
    apply HN; auto. exact (face_in v a1 s1 f1 H1 H1f).
Qed.
End Patch.
