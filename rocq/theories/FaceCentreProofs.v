(** Proofs about the areas and centres of faces. *)
From Coq Require Import Reals Lra Psatz List ZArith Bool Lia.
From Verif Require Import Prelude Arrays Geom SpecGeom UGrid GeomProofs FaceGeo SpecFaceGeo FaceGeoProofs SpecCellGeo CellGeoProofs
  MeshFaces SpecMeshFaces FaceAttr SpecFaceAttr FaceAttrProofs FaceCentre SpecFaceCentre.
Import ListNotations.
Local Open Scope R_scope.

Lemma tri_area_triangle a b c : tri_area a b c = triangle a b c.
Proof.
  unfold tri_area, triangle. cbv zeta. change (sqrt (DotProduct ?v ?v)) with (length3 v).
  replace (length3 (cross (vsub b a) (vsub c a))) with (length3 (CrossProduct (VecJoining b c) (VecJoining b a))); [lra|].
  unfold length3, dot, CrossProduct, VecJoining, cross, vsub; cbn. f_equal. ring.
Qed.

Definition face_area (ps : list v3) : R :=
  match ps with
  | [a; b; c] => triangle a b c
  | [a; b; c; d] => triangle a b c + triangle a c d
  | _ => 0
  end.
Definition good (ps : list v3) (A : R) (m : v3) : Prop := A = face_area ps /\ mean ps m.

Lemma rd2_entry t i f x : entry t i f x -> rd2 t i (Z.of_nat f) = Ok x.
Proof.
  intros [row [E1 E2]]. unfold rd2. rewrite (rd_some _ _ _ E1). cbn [bind]. unfold rdz.
  destruct (Z.ltb_spec (Z.of_nat f) 0); [lia|]. rewrite Nat2Z.id. apply rd_some, E2.
Qed.
Lemma column_entry t f l k x : column t f l -> nth_error l k = Some x -> entry t k f x.
Proof. intros H E. exact (H k x E). Qed.

Lemma triangle_swap a d c : triangle a d c = triangle a c d.
Proof.
  unfold triangle. f_equal. unfold length3, dot, cross, vsub; cbn. f_equal. ring.
Qed.

Lemma sum_ok coords fv f ps : corners coords fv f ps ->
  exists s, sum_vertices fv coords (Z.of_nat f) (V3 0 0 0) = Ok (s, length ps) /\
  (length ps = 3 \/ length ps = 4)%nat /\
  vx s = sum (map vx ps) /\ vy s = sum (map vy ps) /\ vz s = sum (map vz ps).
Proof.
  intros [l [Hc [Hl HL]]]. unfold sum_vertices, for_.
  destruct HL as [HL|[HL [x [Ex Hx]]]].
  - destruct l as [|i1 [|i2 [|i3 [|i4 [|]]]]]; try discriminate HL.
    inversion Hl as [|? p1 ? ? A1 Hl1]; subst. inversion Hl1 as [|? p2 ? ? A2 Hl2]; subst. inversion Hl2 as [|? p3 ? ? A3 Hl3]; subst.
    inversion Hl3 as [|? p4 ? ? A4 Hl4]; subst. inversion Hl4; subst.
    assert (G : forall k i p, nth_error [i1; i2; i3; i4] k = Some i -> at_ coords i p ->
      rd2 fv k (Z.of_nat f) = Ok i /\ (0 <=? i)%Z = true /\ rdz coords i = Ok p).
    { intros k i p E A. split; [apply rd2_entry, (column_entry _ _ _ _ _ Hc E)|]. split; [apply Z.leb_le, A|apply rdz_at', A]. }
    destruct (G 0%nat i1 p1 eq_refl A1) as [B1 [C1 D1]]. destruct (G 1%nat i2 p2 eq_refl A2) as [B2 [C2 D2]].
    destruct (G 2%nat i3 p3 eq_refl A3) as [B3 [C3 D3]]. destruct (G 3%nat i4 p4 eq_refl A4) as [B4 [C4 D4]].
    cbn [loop]. rewrite B1. cbn [bind]. rewrite C1, D1. cbn [bind]. rewrite B2. cbn [bind]. rewrite C2, D2. cbn [bind].
    rewrite B3. cbn [bind]. rewrite C3, D3. cbn [bind]. rewrite B4. cbn [bind]. rewrite C4, D4. cbn [bind fst snd length].
    eexists. split; [reflexivity|]. split; [right; reflexivity|]. cbn. lra.
  - destruct l as [|i1 [|i2 [|i3 [|]]]]; try discriminate HL.
    inversion Hl as [|? p1 ? ? A1 Hl1]; subst. inversion Hl1 as [|? p2 ? ? A2 Hl2]; subst. inversion Hl2 as [|? p3 ? ? A3 Hl3]; subst.
    inversion Hl3; subst.
    assert (G : forall k i p, nth_error [i1; i2; i3] k = Some i -> at_ coords i p ->
      rd2 fv k (Z.of_nat f) = Ok i /\ (0 <=? i)%Z = true /\ rdz coords i = Ok p).
    { intros k i p E A. split; [apply rd2_entry, (column_entry _ _ _ _ _ Hc E)|]. split; [apply Z.leb_le, A|apply rdz_at', A]. }
    destruct (G 0%nat i1 p1 eq_refl A1) as [B1 [C1 D1]]. destruct (G 1%nat i2 p2 eq_refl A2) as [B2 [C2 D2]].
    destruct (G 2%nat i3 p3 eq_refl A3) as [B3 [C3 D3]].
    cbn [loop]. rewrite B1. cbn [bind]. rewrite C1, D1. cbn [bind]. rewrite B2. cbn [bind]. rewrite C2, D2. cbn [bind].
    rewrite B3. cbn [bind]. rewrite C3, D3. cbn [bind]. rewrite (rd2_entry _ _ _ _ Ex). cbn [bind].
    replace (0 <=? x)%Z with false by (symmetry; apply Z.leb_gt; exact Hx). cbn [bind fst snd length].
    eexists. split; [reflexivity|]. split; [left; reflexivity|]. cbn. lra.
Qed.

Lemma corners_unique coords fv f ps qs : corners coords fv f ps -> corners coords fv f qs -> ps = qs.
Proof.
  intros [l [C [L H]]] [l' [C' [L' H']]].
  assert (S : forall k x y, nth_error l k = Some x -> nth_error l' k = Some y -> x = y).
  { intros k x y E E'. destruct (C k x E) as [r [R1 R2]]. destruct (C' k y E') as [r' [R1' R2']]. congruence. }
  assert (T : forall m ms, column fv f m -> located coords m ms -> length m = 4%nat -> forall x, entry fv 3 f x -> (0 <= x)%Z).
  { intros m ms Cm Lm Hm x [r [R1 R2]]. destruct (nth_error m 3) as [y|] eqn:E; [|apply nth_error_None in E; lia].
    destruct (Cm 3%nat y E) as [r' [R1' R2']]. assert (x = y) by congruence. subst y.
    apply nth_error_In in E. clear - Lm E. induction Lm as [|z p m ms A _ IH]; [destruct E|]. destruct E as [->|E]; [apply A|apply IH, E]. }
  assert (EL : length l = length l').
  { destruct H as [H|[H [x [Ex Hx]]]], H' as [H'|[H' [x' [Ex' Hx']]]]; try congruence.
    - pose proof (T l ps C L H x' Ex'). lia.
    - pose proof (T l' qs C' L' H' x Ex). lia. }
  assert (l = l').
  { apply nth_error_ext. intro k. destruct (nth_error l k) as [x|] eqn:E.
    - destruct (nth_error l' k) as [y|] eqn:E'; [f_equal; eapply S; eassumption|]. apply nth_error_None in E'. apply nth_lt in E. lia.
    - symmetry. apply nth_error_None. apply nth_error_None in E. lia. }
  subst l'. eapply located_unique; eassumption.
Qed.

Lemma sides_face k i : (i < length (sides k))%nat ->
  exists ct, GetCellType k = Ok ct /\ NumVerticesOfFaceType (FaceTypeOf ct i) = length (nth i (sides k) []).
Proof.
  intro H. do 9 (destruct k as [|k]; [first [cbn in H; exfalso; lia | eexists; split; [reflexivity|];
    do 7 (destruct i as [|i]; [first [cbn in H; exfalso; lia | reflexivity]|]); cbn in H; exfalso; lia]|]). cbn in H. lia.
Qed.

Lemma wrz_nat {A} (a : list A) f v : (f < length a)%nat -> wrz a (Z.of_nat f) v = Ok (upd a f v).
Proof. intro H. unfold wrz. destruct (Z.ltb_spec (Z.of_nat f) 0); [lia|]. rewrite Nat2Z.id. apply wr_ok, H. Qed.

Section All.
Variables (nl nf : nat) (cnv : list nat) (cf fv : table) (coords : list v3) (a0 : R).
Hypothesis HN : numbered nl nf cnv cf fv coords.

(** A face that is set has its area and centre; one that is not has not been met. *)
Definition fine (met : nat -> Prop) (st : geo) : Prop :=
  length (g_set st) = nf /\ length (g_area st) = nf /\ length (g_cent st) = nf /\
  forall f, (f < nf)%nat ->
    (nth_error (g_set st) f = Some true /\ met f /\ exists A m, nth_error (g_area st) f = Some A /\ nth_error (g_cent st) f = Some m /\
       forall ps, corners coords fv f ps -> good ps A m) \/
    (nth_error (g_set st) f = Some false /\ ~ met f /\ nth_error (g_area st) f = Some a0 /\ nth_error (g_cent st) f = Some (V3 0 0 0)).

Lemma fine_ext met met' st : (forall f, (f < nf)%nat -> (met f <-> met' f)) -> fine met st -> fine met' st.
Proof.
  intros E [H1 [H2 [H3 H4]]]. repeat (split; [assumption|]). intros f Hf. destruct (H4 f Hf) as [[A [B C]]|[A [B C]]].
  - left. split; [exact A|]. split; [apply E; assumption|exact C].
  - right. split; [exact A|]. split; [intro M; apply B, E; assumption|exact C].
Qed.

Lemma nth_upd_same {A} (a : list A) i v : (i < length a)%nat -> nth_error (upd a i v) i = Some v.
Proof. revert i; induction a as [|x a IH]; intros [|i] H; cbn in *; try lia; [reflexivity|apply IH; lia]. Qed.
Lemma nth_upd_other {A} (a : list A) i j v : i <> j -> nth_error (upd a i v) j = nth_error a j.
Proof. revert i j; induction a as [|x a IH]; intros [|i] [|j] H; cbn; try reflexivity; try lia. apply IH. lia. Qed.
Lemma len_upd {A} (a : list A) i v : length (upd a i v) = length a.
Proof. revert i; induction a as [|x a IH]; intros [|i]; cbn; try reflexivity. rewrite IH. reflexivity. Qed.

Lemma side_step met c i st : (c < nl)%nat -> (i < 6)%nat -> fine met st ->
  exists st', geo_of_side cnv cf fv coords c i st = Ok st' /\
  fine (fun f => met f \/ entry cf i c (Z.of_nat f)) st'.
Proof.
  intros Hc Hi F. destruct (HN c i Hc Hi) as [E|[f [ps [Hf [E [C [k [Ek [Hk HL]]]]]]]]].
  - exists st. unfold geo_of_side. rewrite (rd2_entry _ _ _ _ E). cbn [bind]. cbn [Z.eqb Pos.eqb]. split; [reflexivity|].
    apply (fine_ext met); [|exact F]. intros f _. split; [tauto|]. intros [M|[r [R1 R2]]]; [exact M|].
    destruct E as [r' [R1' R2']]. assert ((-1)%Z = Z.of_nat f) by congruence. lia.
  - assert (U : forall g, entry cf i c (Z.of_nat g) <-> g = f).
    { intro g. split; [|intros ->; exact E]. intros [r [R1 R2]]. destruct E as [r' [R1' R2']].
      assert (Z.of_nat f = Z.of_nat g) by congruence. lia. }
    unfold geo_of_side. rewrite (rd2_entry _ _ _ _ E). cbn [bind].
    destruct (Z.eqb_spec (Z.of_nat f) (-1)); [lia|].
    pose proof F as [L1 [L2 [L3 L4]]]. destruct (L4 f Hf) as [[A [B D]]|[A [B [D1 D2]]]].
    + rewrite (rdz_n _ _ _ A). cbn [bind]. exists st. split; [reflexivity|]. apply (fine_ext met); [|exact F].
      intros g _. split; [tauto|]. intros [M|M]; [exact M|]. apply U in M. subst g. exact B.
    + rewrite (rdz_n _ _ _ A). cbn [bind]. rewrite wrz_nat by lia. cbn [bind].
      destruct (sum_ok coords fv f ps C) as [s [Es [L34 [S1 [S2 S3]]]]].
      destruct (sides_face k i Hk) as [ct [Ec En]].
      assert (X : exists p1 p2 p3 i1 i2 i3 a2, nth_error ps 0 = Some p1 /\ nth_error ps 1 = Some p2 /\ nth_error ps 2 = Some p3 /\
        entry fv 0 f i1 /\ entry fv 1 f i2 /\ entry fv 2 f i3 /\ at_ coords i1 p1 /\ at_ coords i2 p2 /\ at_ coords i3 p3 /\
        (if (NumVerticesOfFaceType (FaceTypeOf ct i) =? 4)%nat
         then do i4 <- rd2 fv 3 (Z.of_nat f); do p4 <- rdz coords i4; Ok (tri_area p1 p4 p3) else Ok 0) = Ok a2 /\
        tri_area p1 p2 p3 + a2 = face_area ps).
      { rewrite En, <- HL. destruct C as [l [Cl [Ll HL']]].
        destruct l as [|i1 [|i2 [|i3 l]]]; try (cbn in HL'; exfalso; lia).
        inversion Ll as [|? p1 ? ? A1 Hl1]; subst. inversion Hl1 as [|? p2 ? ? A2 Hl2]; subst. inversion Hl2 as [|? p3 ? ps' A3 Hl3]; subst.
        exists p1, p2, p3, i1, i2, i3. destruct HL' as [HL'|[HL' _]].
        - destruct l as [|i4 [|]]; try discriminate HL'. inversion Hl3 as [|? p4 ? ? A4 Hl4]; subst. inversion Hl4; subst.
          cbn [length Nat.eqb]. eexists. split; [reflexivity|]. split; [reflexivity|]. split; [reflexivity|].
          split; [exact (Cl 0%nat _ eq_refl)|]. split; [exact (Cl 1%nat _ eq_refl)|]. split; [exact (Cl 2%nat _ eq_refl)|].
          repeat (split; [assumption|]). split.
          + rewrite (rd2_entry fv 3 f i4 (Cl 3%nat _ eq_refl)). cbn [bind]. rewrite (rdz_at' _ _ _ A4). cbn [bind]. reflexivity.
          + cbn [face_area]. rewrite !tri_area_triangle, (triangle_swap p1 p4 p3). reflexivity.
        - destruct l; [|discriminate HL']. inversion Hl3; subst. cbn [length Nat.eqb]. exists 0. split; [reflexivity|]. split; [reflexivity|]. split; [reflexivity|].
          split; [exact (Cl 0%nat _ eq_refl)|]. split; [exact (Cl 1%nat _ eq_refl)|]. split; [exact (Cl 2%nat _ eq_refl)|].
          repeat (split; [assumption|]). split; [reflexivity|]. cbn [face_area]. rewrite tri_area_triangle. lra. }
      destruct X as [p1 [p2 [p3 [i1 [i2 [i3 [a2 [_ [_ [_ [F1 [F2 [F3 [A1 [A2 [A3 [Ea Es2]]]]]]]]]]]]]]]]].
      rewrite (rd2_entry _ _ _ _ F1). cbn [bind]. rewrite (rd2_entry _ _ _ _ F2). cbn [bind]. rewrite (rd2_entry _ _ _ _ F3). cbn [bind].
      rewrite (rdz_at' _ _ _ A1). cbn [bind]. rewrite (rdz_at' _ _ _ A2). cbn [bind]. rewrite (rdz_at' _ _ _ A3). cbn [bind].
      rewrite (rd_some _ _ _ Ek). cbn [bind]. rewrite Ec. cbn [bind]. rewrite Ea. cbn [bind].
      rewrite wrz_nat by lia. cbn [bind]. rewrite (rdz_n _ _ _ D2). cbn [bind]. rewrite Es. cbn [bind fst snd].
      rewrite wrz_nat by lia. cbn [bind]. eexists. split; [reflexivity|].
      split; [cbn [g_set]; rewrite len_upd; exact L1|]. split; [cbn [g_area]; rewrite len_upd; exact L2|].
      split; [cbn [g_cent]; rewrite len_upd; exact L3|]. cbn [g_set g_area g_cent]. intros g Hg.
      destruct (Nat.eq_dec g f) as [->|Ng].
      * left. split; [apply nth_upd_same; lia|]. split; [right; exact E|]. eexists. eexists.
        split; [apply nth_upd_same; lia|]. split; [apply nth_upd_same; lia|]. intros qs Hq.
        rewrite (corners_unique coords fv f qs ps Hq C). split; [exact Es2|].
        assert (INR (length ps) <> 0) by (apply not_0_INR; lia).
        unfold mean. cbn [vx vy vz]. rewrite S1, S2, S3. repeat split; field; assumption.
      * rewrite !nth_upd_other by congruence. destruct (L4 g Hg) as [[G1 [G2 G3]]|[G1 [G2 G3]]].
        -- left. split; [exact G1|]. split; [left; exact G2|exact G3].
        -- right. split; [exact G1|]. split; [|exact G3]. intros [M|M]; [exact (G2 M)|]. apply U in M. congruence.
Qed.

Definition met_by (c i : nat) (f : nat) : Prop := exists c' i', (c' < c \/ c' = c /\ i' < i)%nat /\ (i' < 6)%nat /\ entry cf i' c' (Z.of_nat f).

Theorem faces_geo : exists r, geo_of_faces cnv cf fv coords nl nf a0 = Ok r /\
  fine (fun f => exists c i, (c < nl)%nat /\ (i < 6)%nat /\ entry cf i c (Z.of_nat f)) r.
Proof.
  unfold geo_of_faces.
  destruct (for_inv (fun c st => fine (met_by c 0) st)
    (fun icell st => for_ 6 (fun iface st => geo_of_side cnv cf fv coords icell iface st) st) nl
    (mkGeo (repeat false nf) (repeat a0 nf) (repeat (V3 0 0 0) nf))) as [r [E F]].
  - cbn [g_set g_area g_cent]. split; [apply repeat_length|]. split; [apply repeat_length|]. split; [apply repeat_length|].
    intros f Hf. right. cbn [g_set g_area g_cent]. rewrite !nth_error_repeat by exact Hf. split; [reflexivity|]. split; [|split; reflexivity].
    intros [c' [i' [H _]]]. lia.
  - intros c st Hc F.
    destruct (for_inv (fun i st => fine (met_by c i) st) (fun iface st => geo_of_side cnv cf fv coords c iface st) 6 st) as [st' [E F']].
    + exact F.
    + intros i s Hi Fs. destruct (side_step (met_by c i) c i s Hc Hi Fs) as [s' [E' F']]. exists s'. split; [exact E'|].
      eapply fine_ext; [|exact F']. intros f Hf. split.
      * intros [[c' [i' [H1 [H2 H3]]]]|H]; [exists c', i'; split; [lia|]; split; assumption|]. exists c, i. split; [lia|]. split; assumption.
      * intros [c' [i' [H1 [H2 H3]]]].
        destruct (Nat.eq_dec c' c) as [->|Nc]; [destruct (Nat.eq_dec i' i) as [->|Ni]; [right; exact H3|]|];
          left; [exists c, i'|exists c', i']; (split; [lia|]; split; assumption).
    + exists st'. split; [exact E|]. eapply fine_ext; [|exact F']. intros f Hf. split.
      * intros [c' [i' [H1 [H2 H3]]]]. exists c', i'. split; [lia|]. split; assumption.
      * intros [c' [i' [H1 [H2 H3]]]]. exists c', i'. split; [lia|]. split; assumption.
  - exists r. split; [exact E|]. eapply fine_ext; [|exact F]. intros f Hf. split.
    + intros [c' [i' [H1 [H2 H3]]]]. exists c', i'. split; [lia|]. split; assumption.
    + intros [c' [i' [H1 [H2 H3]]]]. exists c', i'. split; [lia|]. split; assumption.
Qed.
End All.

(** ** Flat faces *)
Lemma turns_triangle n a b c : unit n -> turns n a b c -> exists k, 0 < k /\ triangle a b c = k / 2 /\ cross (vsub b a) (vsub c b) = vscale k n.
Proof.
  intros Hn [k [Hk Ek]]. exists k. split; [exact Hk|]. split; [|exact Ek]. unfold triangle. f_equal.
  replace (cross (vsub b a) (vsub c a)) with (vscale k n).
  - change (length3 (vscale k n)) with (sqrt (DotProduct (vscale k n) (vscale k n))). rewrite length_scaled by lra. unfold length3.
    unfold unit in Hn. rewrite Hn, sqrt_1. ring.
  - rewrite <- Ek. unfold cross, vsub; cbn; f_equal; ring.
Qed.
Lemma flat_area n ps : polygon n ps -> face_area ps = area n ps /\ 0 < area n ps.
Proof.
  intros [Hn H]. destruct ps as [|a [|b [|c ps]]]; try contradiction. destruct ps as [|d [|e ps]]; try contradiction.
  - destruct (turns_triangle n a b c Hn H) as [k [Hk [Et Ek]]]. cbn [face_area]. rewrite Et.
    assert (Ea : area n [a; b; c] = k / 2).
    { unfold area, vector_area. cbn [around]. replace (vadd (cross a b) (vadd (cross b c) (cross c a))) with (vscale k n).
      - transitivity (k / 2 * dot n n); [unfold dot, vscale; cbn; field|unfold unit in Hn; rewrite Hn; ring].
      - rewrite <- Ek. unfold cross, vadd, vsub; cbn; f_equal; ring. }
    rewrite Ea. split; [reflexivity|lra].
  - destruct H as [H1 [_ [H2 _]]]. destruct (turns_triangle n a b c Hn H1) as [k [Hk [Et Ek]]].
    destruct (turns_triangle n c d a Hn H2) as [k' [Hk' [Et' Ek']]]. cbn [face_area].
    assert (R : triangle a c d = triangle c d a).
    { unfold triangle. f_equal. unfold length3, dot, cross, vsub; cbn. f_equal. ring. }
    rewrite R, Et, Et'.
    assert (Ea : area n [a; b; c; d] = k / 2 + k' / 2).
    { unfold area, vector_area. cbn [around]. replace (vadd (cross a b) (vadd (cross b c) (vadd (cross c d) (cross d a)))) with (vadd (vscale k n) (vscale k' n)).
      - transitivity ((k / 2 + k' / 2) * dot n n); [unfold dot, vadd, vscale; cbn; field|unfold unit in Hn; rewrite Hn; ring].
      - rewrite <- Ek, <- Ek'. unfold cross, vadd, vsub; cbn; f_equal; ring. }
    rewrite Ea. split; [reflexivity|lra].
Qed.

(** ** Centres *)
Lemma mean_triangle a b c m : mean [a; b; c] m -> m = third a b c.
Proof.
  unfold mean, third, vscale, vadd. destruct m as [x y z]. cbn. intros [H1 [H2 H3]]. f_equal; lra.
Qed.
Lemma mean_parallelogram a p q m : mean [a; vadd a p; vadd (vadd a p) q; vadd a q] m ->
  balanced [a; vadd a p; vadd (vadd a p) q; vadd a q] m.
Proof.
  unfold mean, balanced. destruct m as [x y z]. intros [H1 [H2 H3]].
  assert (T : triangle a (vadd (vadd a p) q) (vadd a q) = triangle a (vadd a p) (vadd (vadd a p) q)).
  { unfold triangle. f_equal. unfold length3, dot, cross, vsub, vadd; cbn. f_equal. ring. }
  rewrite T. generalize (triangle a (vadd a p) (vadd (vadd a p) q)). intro t.
  unfold third, vscale, vadd in *. cbn in *. assert (x = vx a + vx p / 2 + vx q / 2) by lra. assert (y = vy a + vy p / 2 + vy q / 2) by lra.
  assert (z = vz a + vz p / 2 + vz q / 2) by lra. subst x y z. f_equal; field.
Qed.
