(** Proofs about the orientation of faces and their geometric attributes. *)
From Coq Require Import Reals Lra Psatz List ZArith Bool Lia Permutation.
From Verif Require Import Prelude Arrays Mesh Geom SpecGeom UGrid GeomProofs OwnersProofs FaceGeo SpecFaceGeo.
Import ListNotations.
Local Open Scope R_scope.

(** ** Normals *)

Lemma unit_vector_of k n : 0 < k -> unit n -> ConvertToUnitVector (vscale k n) = Some n.
Proof.
  intros Hk Hn. unfold ConvertToUnitVector. rewrite Norm_ok. cbn [fbind].
  assert (E : length3 (vscale k n) = k).
  { unfold length3. replace (dot (vscale k n) (vscale k n)) with (k * k).
    - apply sqrt_square. lra.
    - unfold unit in Hn. replace (dot (vscale k n) (vscale k n)) with (k * k * dot n n) by (unfold dot, vscale; cbn; ring). rewrite Hn. ring. }
  rewrite E. rewrite !fdiv_ok by lra. cbn [fbind]. destruct n as [x y z]. unfold vscale; cbn. f_equal. f_equal; field; lra.
Qed.

Lemma normal_turn n a b c : turns n a b c -> exists k, 0 < k /\ NormalToTriangle a b c = vscale k n.
Proof.
  intros [k [Hk E]]. exists k. split; [exact Hk|]. rewrite <- E. unfold NormalToTriangle, CrossProduct, VecJoining, cross, vsub; cbn.
  f_equal; ring.
Qed.
Lemma unit_normal n a b c : unit n -> turns n a b c -> UnitNormalToTriangle a b c = Some n.
Proof.
  intros Hn Ht. destruct (normal_turn n a b c Ht) as [k [Hk E]]. unfold UnitNormalToTriangle. rewrite E. apply unit_vector_of; assumption.
Qed.

Lemma normal_centre a b c d :
  NormalToTriangle (centre4 a b c d) a b = vscale (1 / 4) (vadd (cross (vsub b a) (vsub c b)) (cross (vsub a d) (vsub b a))).
Proof. unfold NormalToTriangle, CrossProduct, VecJoining, centre4, cross, vsub, vscale, vadd; cbn. f_equal; field. Qed.
Lemma centre_unit n a b c d : unit n -> turns n a b c -> turns n d a b -> UnitNormalToTriangle (centre4 a b c d) a b = Some n.
Proof.
  intros Hn [k [Hk E]] [k' [Hk' E']]. unfold UnitNormalToTriangle. rewrite normal_centre, E, E'.
  replace (vscale (1 / 4) (vadd (vscale k n) (vscale k' n))) with (vscale ((k + k') / 4) n).
  - apply unit_vector_of; [lra|exact Hn].
  - unfold vscale, vadd; cbn. f_equal; field.
Qed.
Lemma centre_rotate a b c d : centre4 a b c d = centre4 b c d a.
Proof. unfold centre4. f_equal; field. Qed.

Theorem quad_normal n a b c d : polygon n [a; b; c; d] -> NormalToQuadrilateral a b c d = Some n.
Proof.
  intros [Hn [H1 [H2 [H3 H4]]]]. unfold NormalToQuadrilateral.
  rewrite (centre_unit n a b c d) by assumption.
  rewrite (centre_rotate a b c d), (centre_unit n b c d a) by assumption.
  rewrite (centre_rotate b c d a), (centre_unit n c d a b) by assumption.
  rewrite (centre_rotate c d a b), (centre_unit n d a b c) by assumption.
  destruct n as [x y z]. cbn. f_equal. f_equal; field.
Qed.

Lemma turn_cycle n a b c : turns n a b c -> turns n b c a.
Proof. intros [k [Hk E]]. exists k. split; [exact Hk|]. rewrite <- E. unfold cross, vsub; cbn. f_equal; ring. Qed.
Lemma turn_back n a b c : turns n a b c -> turns (opp n) c b a.
Proof.
  intros [k [Hk E]]. exists k. split; [exact Hk|].
  replace (vscale k (opp n)) with (opp (vscale k n)) by (unfold opp, vscale; cbn; f_equal; ring).
  rewrite <- E. unfold opp, cross, vsub, vscale; cbn. f_equal; ring.
Qed.
Lemma unit_opp n : unit n -> unit (opp n).
Proof. unfold unit. intro H. rewrite <- H. unfold opp, dot, vscale; cbn. ring. Qed.
Lemma opp_opp n : opp (opp n) = n.
Proof. destruct n. unfold opp, vscale; cbn. f_equal; ring. Qed.

Theorem polygon_reversed n pts : polygon n pts -> polygon (opp n) (rev pts).
Proof.
  intros [Hn H]. split; [apply unit_opp, Hn|].
  destruct pts as [|a [|b [|c [|d [|e l]]]]]; try contradiction; cbn.
  - apply turn_back, H.
  - destruct H as [H1 [H2 [H3 H4]]].
    split; [apply turn_back, H2|]. split; [apply turn_back, H1|].
    split; [apply turn_back, H4|]. apply turn_back, H3.
Qed.

(** ** Lookup *)

Lemma rdz_at coords i p : at_ coords i p -> rdz coords i = Ok p.
Proof. intros [H0 E]. unfold rdz. destruct (Z.ltb_spec i 0); [lia|]. apply rd_some, E. Qed.

Lemma dot_unit n : unit n -> DotProduct n n = 1.
Proof. intro H. exact H. Qed.
Lemma negative_unit n : unit n -> negative (fdot (Some n) (Some n)) = false.
Proof. intro H. cbn. unfold unit, dot in H. destruct (Rlt_dec _ 0) as [K|K]; [|reflexivity]. unfold DotProduct in K. lra. Qed.
Lemma negative_opp n : unit n -> negative (fdot (Some n) (Some (opp n))) = true.
Proof.
  intro H. cbn. destruct (Rlt_dec _ 0) as [K|K]; [reflexivity|]. exfalso. apply K.
  unfold unit, dot in H. unfold DotProduct, opp, vscale. cbn. lra.
Qed.

Lemma repair_ok coords vs pts n : located coords vs pts -> nearly n pts ->
  exists vs' pts', repair coords vs = Ok vs' /\ Permutation vs vs' /\ located coords vs' pts' /\ polygon n pts' /\
    (polygon n pts -> vs' = vs) /\ (length vs = 3%nat \/ length vs = 4%nat) /\ length vs' = length vs.
Proof.
  intros HL HN. unfold nearly in HN.
  assert (Hlen : length vs = length pts) by (clear - HL; unfold located in HL; induction HL; cbn; congruence).
  destruct pts as [|a [|b [|c pts]]]; [destruct HN as [[_ []]|[]]|destruct HN as [[_ []]|[]]|destruct HN as [[_ []]|[]]|].
  inversion HL as [|i1 p1 vs1 ps1 A1 HL1]; subst. inversion HL1 as [|i2 p2 vs2 ps2 A2 HL2]; subst.
  inversion HL2 as [|i3 p3 vs3 ps3 A3 HL3]; subst.
  unfold repair. cbn [rd nth_error bind]. rewrite (rdz_at _ _ _ A1). cbn [rd nth_error bind].
  unfold rd. cbn [nth_error bind]. rewrite (rdz_at _ _ _ A2). cbn [nth_error bind]. rewrite (rdz_at _ _ _ A3). cbn [bind].
  destruct pts as [|d pts].
  - inversion HL3; subst. destruct HN as [HN|[]]. cbn [length Nat.eqb].
    exists [i1; i2; i3], [a; b; c]. split; [reflexivity|]. split; [apply Permutation_refl|].
    split; [exact HL|]. split; [exact HN|]. split; [reflexivity|]. cbn. auto.
  - inversion HL3 as [|i4 p4 vs4 ps4 A4 HL4]; subst.
    destruct pts as [|e pts]; [|destruct HN as [[_ []]|[]]].
    inversion HL4; subst. cbn [length Nat.eqb nth_error bind]. rewrite (rdz_at _ _ _ A4). cbn [bind].
    destruct HN as [HN|HN].
    + pose proof HN as HN'. destruct HN' as [Hn [H1 [H2 [H3 H4]]]]. rewrite (unit_normal n a b c Hn H1), (unit_normal n b c d Hn H2).
      rewrite (negative_unit n Hn). exists [i1; i2; i3; i4], [a; b; c; d].
      split; [reflexivity|]. split; [apply Permutation_refl|]. split; [exact HL|]. split; [exact HN|]. split; [reflexivity|]. cbn; auto.
    + pose proof HN as HN'. destruct HN' as [Hn [H1 [H2 [H3 H4]]]].
      assert (T1 : turns n a b c) by (do 1 apply turn_cycle; exact H4).
      assert (T2 : turns (opp n) b c d) by (apply turn_cycle, turn_cycle, turn_back; exact H2).
      rewrite (unit_normal n a b c Hn T1), (unit_normal (opp n) b c d (unit_opp n Hn) T2), (negative_opp n Hn).
      exists [i1; i2; i4; i3], [a; b; d; c]. split; [reflexivity|]. split; [do 2 apply perm_skip; apply perm_swap|].
      split; [do 4 (apply Forall2_cons; [assumption|]); apply Forall2_nil|]. split; [exact HN|]. split; [|cbn; auto].
      intros [_ [_ [P2 _]]]. exfalso. destruct P2 as [k [Hk E]]. destruct T2 as [k' [Hk' E']].
      rewrite E in E'. unfold unit in Hn. unfold opp, vscale in E'. cbn in E'. injection E' as X1 X2 X3.
      assert (Z0 : (k + k') * dot n n = 0) by (unfold dot; nra). rewrite Hn in Z0. lra.
Qed.

Lemma normal_ok coords vs pts n : located coords vs pts -> polygon n pts -> face_normal coords vs = Ok (Some n).
Proof.
  intros HL HN. unfold face_normal.
  destruct pts as [|a [|b [|c pts]]]; [destruct HN as [_ []]|destruct HN as [_ []]|destruct HN as [_ []]|].
  inversion HL as [|i1 p1 vs1 ps1 A1 HL1]; subst. inversion HL1 as [|i2 p2 vs2 ps2 A2 HL2]; subst.
  inversion HL2 as [|i3 p3 vs3 ps3 A3 HL3]; subst.
  unfold rd. cbn [nth_error bind]. rewrite (rdz_at _ _ _ A1). cbn [bind]. rewrite (rdz_at _ _ _ A2). cbn [bind].
  rewrite (rdz_at _ _ _ A3). cbn [bind].
  destruct pts as [|d pts].
  - inversion HL3; subst. cbn [length Nat.eqb]. destruct HN as [Hn H]. rewrite (unit_normal n a b c Hn H). reflexivity.
  - inversion HL3 as [|i4 p4 vs4 ps4 A4 HL4]; subst.
    destruct pts as [|e pts]; [|destruct HN as [_ []]].
    inversion HL4; subst. cbn [length Nat.eqb nth_error bind]. rewrite (rdz_at _ _ _ A4). cbn [bind].
    rewrite (quad_normal n a b c d HN). reflexivity.
Qed.

Lemma located_rev coords vs pts : located coords vs pts -> located coords (rev vs) (rev pts).
Proof.
  unfold located. induction 1 as [|x y l l' H _ IH]; cbn; [constructor|]. apply Forall2_app; [exact IH|apply Forall2_cons; [exact H|apply Forall2_nil]].
Qed.
Lemma reversed_rev vs : (length vs = 3%nat \/ length vs = 4%nat) -> reversed vs = rev vs.
Proof. destruct vs as [|a [|b [|c [|d [|e l]]]]]; cbn; intro H; try reflexivity; lia. Qed.
Lemma opposite_opp n : opposite (Some n) = Some (opp n).
Proof. destruct n. unfold opposite, opp, vscale; cbn. f_equal. f_equal; ring. Qed.
Lemma height_dot n x p : DotProduct n (VecJoining x p) = height n x p.
Proof. reflexivity. Qed.
Lemma height_opp n x p : height (opp n) x p = - height n x p.
Proof. unfold height, opp, dot, vscale, vsub; cbn. ring. Qed.
Lemma positive_true r : 0 < r -> positive (Some r) = true.
Proof. intro H. cbn. destruct (Rlt_dec 0 r); [reflexivity|lra]. Qed.
Lemma positive_false r : r <= 0 -> positive (Some r) = false.
Proof. intro H. cbn. destruct (Rlt_dec 0 r); [lra|reflexivity]. Qed.

(** ** Orientation *)

Theorem inner_oriented coords cents f pts n a b ca cb :
  located coords (g_verts f) pts -> nearly n pts ->
  g_cells f = (a, b) -> at_ cents a ca -> at_ cents b cb ->
  height n (g_cen f) ca * height n (g_cen f) cb < 0 ->
  exists f' up dn pts', orient_face coords cents f = Ok f' /\
    Permutation (g_verts f) (g_verts f') /\ located coords (g_verts f') pts' /\ polygon n pts' /\
    g_normal f' = Some n /\ g_cen f' = g_cen f /\ g_area f' = g_area f /\
    (g_cells f' = (a, b) /\ up = ca /\ dn = cb \/ g_cells f' = (b, a) /\ up = cb /\ dn = ca) /\
    height n (g_cen f) up < 0 < height n (g_cen f) dn.
Proof.
  intros HL HN Hc Ha Hb Hs.
  destruct (repair_ok coords _ pts n HL HN) as [vs [ps [E [HP [HL' [Hp [_ [Hlen Hlen']]]]]]]].
  unfold orient_face. rewrite E, Hc. cbn [bind fst snd]. rewrite (rdz_at _ _ _ Ha). cbn [bind].
  rewrite (normal_ok coords vs ps n HL' Hp). cbn [bind fdot]. rewrite height_dot.
  destruct (Rlt_le_dec 0 (height n (g_cen f) ca)) as [K|K].
  - rewrite positive_true by exact K. destruct (Z.ltb_spec a 0) as [Hz|Hz]; [destruct Ha; lia|].
    eexists _, cb, ca, ps. split; [reflexivity|]. cbn [g_verts g_normal g_cen g_area g_cells]. do 7 (split; [first [assumption|reflexivity|auto]|]). split; [nra|lra].
  - rewrite positive_false by exact K. destruct (Z.ltb_spec b 0) as [Hz|Hz]; [destruct Hb; lia|].
    assert (K0 : height n (g_cen f) ca < 0).
    { destruct K as [K|K]; [exact K|]. rewrite K in Hs. lra. }
    eexists _, ca, cb, ps. split; [reflexivity|]. cbn [g_verts g_normal g_cen g_area g_cells]. do 7 (split; [first [assumption|reflexivity|auto]|]). split; [exact K0|nra].
Qed.

Theorem boundary_oriented coords cents f pts n a b ca :
  located coords (g_verts f) pts -> nearly n pts ->
  g_cells f = (a, b) -> at_ cents a ca -> (b < 0)%Z -> height n (g_cen f) ca <> 0 ->
  exists f' m pts', orient_face coords cents f = Ok f' /\
    Permutation (g_verts f) (g_verts f') /\ located coords (g_verts f') pts' /\ polygon m pts' /\
    g_normal f' = Some m /\ g_cen f' = g_cen f /\ g_area f' = g_area f /\
    g_cells f' = (b, a) /\ (m = n \/ m = opp n) /\ 0 < height m (g_cen f) ca.
Proof.
  intros HL HN Hc Ha Hb Hs.
  destruct (repair_ok coords _ pts n HL HN) as [vs [ps [E [HP [HL' [Hp [_ [Hlen Hlen']]]]]]]].
  unfold orient_face. rewrite E, Hc. cbn [bind fst snd]. rewrite (rdz_at _ _ _ Ha). cbn [bind].
  rewrite (normal_ok coords vs ps n HL' Hp). cbn [bind fdot]. rewrite height_dot.
  destruct (Rlt_le_dec 0 (height n (g_cen f) ca)) as [K|K].
  - rewrite positive_true by exact K. destruct (Z.ltb_spec a 0) as [Hz|Hz]; [destruct Ha; lia|].
    eexists _, n, ps. split; [reflexivity|]. cbn. do 8 (split; [first [assumption|reflexivity|auto]|]). exact K.
  - rewrite positive_false by exact K. destruct (Z.ltb_spec b 0) as [Hz|Hz]; [|lia].
    rewrite opposite_opp.
    eexists _, (opp n), (rev ps). split; [reflexivity|]. cbn [g_verts g_normal g_cen g_area g_cells].
    rewrite reversed_rev by (rewrite Hlen'; exact Hlen).
    split; [eapply Permutation_trans; [exact HP|apply Permutation_rev]|].
    split; [apply located_rev, HL'|]. split; [apply polygon_reversed, Hp|].
    do 4 (split; [reflexivity|]). split; [right; reflexivity|]. rewrite height_opp. lra.
Qed.

Theorem cells_oriented coords cents f f' a b :
  orient_face coords cents f = Ok f' -> g_cells f = (a, b) ->
  (0 <= a)%Z /\ (g_cells f' = (a, b) \/ g_cells f' = (b, a)) /\ ((b < 0)%Z -> g_cells f' = (b, a)) /\
  Permutation (g_verts f) (g_verts f').
Proof.
  intros E Hc. unfold orient_face in E. rewrite Hc in E. cbn [fst snd] in E.
  destruct (repair coords (g_verts f)) as [vs| |] eqn:Er; try discriminate. cbn [bind] in E.
  unfold rdz in E at 1. destruct (Z.ltb_spec a 0) as [Ha|Ha]; [discriminate|].
  destruct (rd cents (Z.to_nat a)) as [c| |]; try discriminate. cbn [bind] in E.
  destruct (face_normal coords vs) as [n| |] eqn:En; try discriminate. cbn [bind] in E.
  assert (HP : Permutation (g_verts f) vs).
  { unfold repair, rd in Er. destruct (g_verts f) as [|i1 l]; cbn [nth_error bind] in Er; [discriminate|].
    destruct (rdz coords i1); try discriminate; cbn [bind] in Er. destruct l as [|i2 l]; cbn [nth_error bind] in Er; [discriminate|].
    destruct (rdz coords i2); try discriminate; cbn [bind] in Er. destruct l as [|i3 l]; cbn [nth_error bind] in Er; [discriminate|].
    destruct (rdz coords i3); try discriminate; cbn [bind] in Er.
    destruct (length (i1 :: i2 :: i3 :: l) =? 4)%nat eqn:El; [|injection Er as <-; apply Permutation_refl].
    destruct l as [|i4 [|i5 l]]; try discriminate.
    cbn [nth_error bind] in Er.
    destruct (rdz coords i4) as [v4'| |]; try discriminate. cbn [bind] in Er.
    destruct (negative _); cbn in Er; injection Er as <-; [|apply Permutation_refl].
    do 2 apply perm_skip. apply perm_swap. }
  assert (HR : Permutation vs (reversed vs)).
  { destruct vs as [|x1 [|x2 [|x3 [|x4 [|x5 l]]]]]; try apply Permutation_refl;
      [apply (Permutation_rev [x1; x2; x3])|apply (Permutation_rev [x1; x2; x3; x4])]. }
  split; [exact Ha|].
  destruct (positive _) eqn:Ep.
  - destruct (Z.ltb_spec a 0); [lia|]. injection E as <-. cbn. split; [right; reflexivity|]. split; [reflexivity|exact HP].
  - destruct (Z.ltb_spec b 0) as [Hb|Hb]; injection E as <-; cbn.
    + split; [right; reflexivity|]. split; [reflexivity|]. eapply Permutation_trans; [exact HP|exact HR].
    + split; [left; reflexivity|]. split; [lia|exact HP].
Qed.

Lemma mapM_each {A B} (f : A -> outcome B) l l' : mapM f l = Ok l' -> Forall2 (fun x y => f x = Ok y) l l'.
Proof.
  revert l'; induction l as [|x l IH]; intros l' E; cbn in E.
  - injection E as <-. constructor.
  - destruct (f x) as [y| |] eqn:Ef; try discriminate. cbn in E. destruct (mapM f l) as [ys| |] eqn:Em; try discriminate.
    injection E as <-. constructor; [exact Ef|]. apply IH. reflexivity.
Qed.

(** ** Distances *)

Lemma cross_perp u v n k : 0 < k -> cross u v = vscale k n -> dot n u = 0 /\ dot n v = 0.
Proof.
  intros Hk E. assert (E1 : dot (vscale k n) u = 0) by (rewrite <- E; unfold dot, cross; cbn; ring).
  assert (E2 : dot (vscale k n) v = 0) by (rewrite <- E; unfold dot, cross; cbn; ring).
  replace (dot (vscale k n) u) with (k * dot n u) in E1 by (unfold dot, vscale; cbn; ring).
  replace (dot (vscale k n) v) with (k * dot n v) in E2 by (unfold dot, vscale; cbn; ring).
  split; [apply Rmult_integral in E1|apply Rmult_integral in E2]; lra.
Qed.
(** All points of a polygon are at the same height. *)
Lemma turn_flat n a b c x : turns n a b c -> height n x a = height n x b /\ height n x b = height n x c.
Proof.
  intros [k [Hk E]]. destruct (cross_perp _ _ n k Hk E) as [H1 H2].
  unfold height, dot, vsub in *. cbn in *. split; lra.
Qed.

Lemma plane_side n a b c x : turns n a b c ->
  exists k, 0 < k /\ forall p, side (ComputePlaneGeometry a b c) p = k * (height n x p - height n x b).
Proof.
  intro Ht. destruct (turn_flat n a b c x Ht) as [Hab _]. destruct (normal_turn n a b c Ht) as [k [Hk E]]. exists k. split; [exact Hk|].
  intro p. rewrite <- Hab.
  transitivity (dot (NormalToTriangle a b c) (vsub p a)).
  - unfold side, ComputePlaneGeometry, NormalToTriangle, CrossProduct, VecJoining, dot, vsub; cbn. ring.
  - rewrite E. unfold height, dot, vscale, vsub; cbn. ring.
Qed.
Lemma intercept_at n x pl k p q : 0 < k -> (forall r, side pl r = k * height n x r) -> height n x p < 0 < height n x q ->
  let t := height n x p / (height n x p - height n x q) in
  PlaneIntercept pl p q = Some (vadd p (vscale t (vsub q p))).
Proof.
  intros Hk Hs [Hp Hq] t. unfold PlaneIntercept. 
  assert (E1 : pa pl * vx p + pb pl * vy p + pc pl * vz p + pd pl = k * height n x p) by apply (Hs p).
  assert (E2 : pa pl * (vx p - vx q) + pb pl * (vy p - vy q) + pc pl * (vz p - vz q) = k * (height n x p - height n x q)).
  { transitivity (side pl p - side pl q); [unfold side; ring|]. rewrite !Hs. ring. }
  rewrite E1, E2. rewrite fdiv_ok by (apply Rmult_integral_contrapositive_currified; lra). cbn [fbind].
  assert (Et : k * height n x p / (k * (height n x p - height n x q)) = t) by (unfold t; field; lra).
  rewrite Et. unfold vadd, vscale, vsub; cbn. reflexivity.
Qed.

Lemma length_scaled t d : 0 <= t -> sqrt (DotProduct (vscale t d) (vscale t d)) = t * length3 d.
Proof.
  intro Ht. replace (DotProduct (vscale t d) (vscale t d)) with ((t * t) * dot d d) by (unfold DotProduct, dot, vscale; cbn; ring).
  rewrite sqrt_mult_alt by nra. rewrite sqrt_square by exact Ht. reflexivity.
Qed.
Lemma over_ok v d : d <> 0 -> over v d = Some (vscale (/ d) v).
Proof. intro H. unfold over. rewrite !fdiv_ok by exact H. cbn [fbind]. unfold vscale. f_equal. f_equal; unfold Rdiv; ring. Qed.

Lemma apart n x p q : height n x p < 0 < height n x q -> 0 < length3 (vsub q p).
Proof.
  intros [Hp Hq]. destruct (length3_pos (vsub q p)) as [H|H]; [exact H|]. exfalso.
  symmetry in H. apply length3_zero in H.
  assert (E : height n x q - height n x p = dot n (vsub q p)) by (unfold height, dot, vsub; cbn; ring).
  rewrite H in E. unfold dot in E. cbn in E. lra.
Qed.

(** The distances between the cells and the face, along the line that joins them. *)
Lemma reach_inner_ok n x up dn a b c p4 :
  turns n a b c -> height n x b = 0 -> (forall d, p4 = Some d -> turns n b c d) ->
  height n x up < 0 < height n x dn ->
  let L := length3 (vsub dn up) in
  let t := height n x up / (height n x up - height n x dn) in
  reach_inner up dn a b c p4 = Some (mkReach (t * L) ((1 - t) * L) (vscale (/ L) (vsub dn up))).
Proof.
  intros Ht Hb Hd Hh L t.
  assert (HL : 0 < L) by (apply (apart n x); exact Hh).
  assert (Htt : 0 < t < 1).
  { unfold t. assert (Hneg : height n x up - height n x dn < 0) by lra.
    split.
    - replace (height n x up / (height n x up - height n x dn)) with ((- height n x up) / (height n x dn - height n x up)) by (field; lra).
      apply Rdiv_lt_0_compat; lra.
    - replace (height n x up / (height n x up - height n x dn)) with ((- height n x up) / (height n x dn - height n x up)) by (field; lra).
      apply (Rmult_lt_reg_r (height n x dn - height n x up)); [lra|]. field_simplify; lra. }
  set (X := vadd up (vscale t (vsub dn up))).
  assert (EX : meeting up dn a b c p4 = Some X).
  { unfold meeting. destruct (plane_side n a b c x Ht) as [k [Hk Hs]].
    assert (E1 : PlaneIntercept (ComputePlaneGeometry a b c) up dn = Some X).
    { apply (intercept_at n x _ k); [exact Hk| |exact Hh]. intro r. rewrite Hs, Hb. f_equal. lra. }
    rewrite E1. destruct p4 as [d|]; [|reflexivity].
    pose proof (Hd d eq_refl) as Ht2. destruct (plane_side n b c d x Ht2) as [k2 [Hk2 Hs2]].
    assert (E2 : PlaneIntercept (ComputePlaneGeometry b c d) up dn = Some X).
    { apply (intercept_at n x _ k2); [exact Hk2| |exact Hh]. intro r. rewrite Hs2.
      destruct (turn_flat n a b c x Ht) as [_ Hbc]. rewrite <- Hbc, Hb. f_equal. lra. }
    rewrite E2. destruct X as [x1 x2 x3]. cbn. f_equal. f_equal; field. }
  unfold reach_inner. rewrite EX.
  assert (V1 : VecJoining up X = vscale t (vsub dn up)) by (unfold VecJoining, X, vadd, vscale, vsub; cbn; f_equal; ring).
  assert (V2 : VecJoining X dn = vscale (1 - t) (vsub dn up)) by (unfold VecJoining, X, vadd, vscale, vsub; cbn; f_equal; ring).
  assert (V3' : V3 (vx (VecJoining up X) + vx (VecJoining X dn)) (vy (VecJoining up X) + vy (VecJoining X dn)) (vz (VecJoining up X) + vz (VecJoining X dn)) = vsub dn up).
  { unfold VecJoining, vsub; cbn; f_equal; ring. }
  cbv zeta. rewrite V3'. change (sqrt (DotProduct (vsub dn up) (vsub dn up))) with L.
  rewrite over_ok by lra. rewrite V1, V2, !length_scaled by lra. fold L. reflexivity.
Qed.

Lemma reach_boundary_ok n x cell a b c :
  unit n -> turns n a b c -> height n x b = 0 -> 0 < height n x cell ->
  reach_boundary cell cell a b c = Some (mkReach 0 (height n x cell) n).
Proof.
  intros Hn Ht Hb Hh. set (h := height n x cell) in *.
  unfold reach_boundary, ProjectPointOnPlane. destruct (plane_side n a b c x Ht) as [k [Hk Hs]].
  destruct (normal_turn n a b c Ht) as [k' [Hk' En]].
  assert (N : normal_of (ComputePlaneGeometry a b c) = vscale k' n) by (rewrite plane_normal; exact En).
  set (pl := ComputePlaneGeometry a b c) in *. clearbody pl.
  assert (Ekk : k = k').
  { pose proof (Hs (vadd x n)) as H1. pose proof (Hs x) as H2.
    assert (D : side pl (vadd x n) - side pl x = k' * dot n n).
    { transitivity (dot (normal_of pl) n); [unfold side, normal_of, dot, vadd; cbn; ring|]. rewrite N. unfold dot, vscale; cbn; ring. }
    rewrite H1, H2 in D. unfold unit in Hn. rewrite Hn in D.
    replace (height n x (vadd x n)) with (dot n n) in D by (unfold height, dot, vadd, vsub; cbn; ring).
    replace (height n x x) with 0 in D by (unfold height, dot, vsub; cbn; ring). rewrite Hn in D. lra. }
  assert (E1 : pa pl * vx cell + pb pl * vy cell + pc pl * vz cell + pd pl = k * h).
  { change (side pl cell = k * h). rewrite Hs, Hb. unfold h. f_equal. lra. }
  assert (P1 : pa pl = k * vx n) by (change (pa pl) with (vx (normal_of pl)); rewrite N, Ekk; reflexivity).
  assert (P2 : pb pl = k * vy n) by (change (pb pl) with (vy (normal_of pl)); rewrite N, Ekk; reflexivity).
  assert (P3 : pc pl = k * vz n) by (change (pc pl) with (vz (normal_of pl)); rewrite N, Ekk; reflexivity).
  assert (E2 : pa pl * pa pl + pb pl * pb pl + pc pl * pc pl = k * k).
  { rewrite P1, P2, P3. transitivity (k * k * dot n n); [unfold dot; ring|]. unfold unit in Hn. rewrite Hn. ring. }
  rewrite E1, E2, fdiv_ok by nra. cbn [fbind].
  assert (V : VecJoining (V3 (vx cell - pa pl * (k * h / (k * k))) (vy cell - pb pl * (k * h / (k * k))) (vz cell - pc pl * (k * h / (k * k)))) cell = vscale h n).
  { unfold VecJoining, vscale; cbn. rewrite P1, P2, P3. f_equal; field; lra. }
  cbv zeta. rewrite V. rewrite length_scaled by lra.
  assert (Ln : length3 n = 1) by (unfold length3; unfold unit in Hn; rewrite Hn; apply sqrt_1).
  rewrite Ln, Rmult_1_r. rewrite over_ok by lra.
  do 2 f_equal. destruct n as [n1 n2 n3]. unfold vscale; cbn. f_equal; field; lra.
Qed.

(** ** Attributes of a face *)

Lemma cauchy u n : unit u -> unit n -> dot u n <= 1.
Proof.
  unfold unit, dot. destruct u as [a b c], n as [x y z]. cbn. intros Hu Hn.
  pose proof (Rle_0_sqr (a - x)) as H1. pose proof (Rle_0_sqr (b - y)) as H2. pose proof (Rle_0_sqr (c - z)) as H3. unfold Rsqr in *. lra.
Qed.
Lemma unit_direction d : 0 < length3 d -> unit (vscale (/ length3 d) d).
Proof.
  intro H. unfold unit. replace (dot (vscale (/ length3 d) d) (vscale (/ length3 d) d)) with (/ length3 d * / length3 d * dot d d) by (unfold dot, vscale; cbn; ring).
  rewrite <- length3_sq. field. lra.
Qed.

(** The first vertices of a polygon. *)
Lemma polygon_start coords vs pts n : located coords vs pts -> polygon n pts ->
  exists i1 i2 i3 a b c, nth_error vs 0 = Some i1 /\ nth_error vs 1 = Some i2 /\ nth_error vs 2 = Some i3 /\
    rdz coords i1 = Ok a /\ rdz coords i2 = Ok b /\ rdz coords i3 = Ok c /\ turns n a b c /\ List.In b pts /\
    (length vs = 3%nat \/ length vs = 4%nat /\ exists i4 d, nth_error vs 3 = Some i4 /\ rdz coords i4 = Ok d /\ turns n b c d).
Proof.
  intros HL [Hn HN].
  destruct pts as [|a [|b [|c pts]]]; try contradiction.
  inversion HL as [|i1 p1 vs1 ps1 A1 HL1]; subst. inversion HL1 as [|i2 p2 vs2 ps2 A2 HL2]; subst.
  inversion HL2 as [|i3 p3 vs3 ps3 A3 HL3]; subst.
  exists i1, i2, i3, a, b, c. do 3 (split; [reflexivity|]).
  do 3 (split; [apply rdz_at; assumption|]).
  destruct pts as [|d pts].
  - inversion HL3; subst. split; [exact HN|]. split; [right; left; reflexivity|]. left. reflexivity.
  - destruct pts as [|e pts]; [|contradiction]. inversion HL3 as [|i4 p4 vs4 ps4 A4 HL4]; subst. inversion HL4; subst.
    destruct HN as [H1 [H2 _]]. split; [exact H1|]. split; [right; left; reflexivity|]. right. split; [reflexivity|].
    exists i4, d. split; [reflexivity|]. split; [apply rdz_at; assumption|exact H2].
Qed.

Theorem inner_attrs coords cents f pts n a b up dn :
  located coords (g_verts f) pts -> polygon n pts -> (forall p, List.In p pts -> height n (g_cen f) p = 0) ->
  g_normal f = Some n -> g_cells f = (a, b) -> at_ cents a up -> at_ cents b dn ->
  height n (g_cen f) up < 0 < height n (g_cen f) dn ->
  exists r w, face_attrs coords cents f = Ok (Some (mkAttrs r (Some w) (Some (g_area f * dot (r_u r) n)))) /\
    0 < r_up r /\ 0 < r_dn r /\ r_up r + r_dn r = length3 (vsub dn up) /\
    unit (r_u r) /\ dn = vadd up (vscale (r_up r + r_dn r) (r_u r)) /\
    height n (g_cen f) (vadd up (vscale (r_up r) (r_u r))) = 0 /\
    w * (r_up r + r_dn r) = r_up r /\ 0 < w < 1 /\ 0 < dot (r_u r) n <= 1.
Proof.
  intros HL HN Hflat Hnorm Hc Ha Hb Hh. set (x := g_cen f) in *.
  destruct (polygon_start coords _ pts n HL HN) as [i1 [i2 [i3 [p1 [p2 [p3 [E1 [E2 [E3 [R1 [R2 [R3 [Ht [Hin H4]]]]]]]]]]]]]].
  set (L := length3 (vsub dn up)). assert (HLp : 0 < L) by (apply (apart n x); exact Hh).
  set (t := height n x up / (height n x up - height n x dn)).
  assert (Htt : 0 < t < 1).
  { unfold t. replace (height n x up / (height n x up - height n x dn)) with ((- height n x up) / (height n x dn - height n x up)) by (field; lra).
    split; [apply Rdiv_lt_0_compat; lra|]. apply (Rmult_lt_reg_r (height n x dn - height n x up)); [lra|]. field_simplify; lra. }
  set (u := vscale (/ L) (vsub dn up)).
  exists (mkReach (t * L) ((1 - t) * L) u), t.
  assert (Hu : unit u) by (apply unit_direction; exact HLp).
  destruct HN as [Hn HN].
  assert (Hdu : dn = vadd up (vscale (t * L + (1 - t) * L) u)).
  { destruct dn, up. unfold u, vadd, vscale, vsub; cbn. f_equal; field; lra. }
  assert (Hun : dot u n = (height n x dn - height n x up) / L).
  { unfold u, height, dot, vscale, vsub; cbn. field. lra. }
  split.
  - unfold face_attrs. rewrite Hc. destruct Ha as [Ha0 Ha], Hb as [Hb0 Hb].
    destruct (Z.ltb_spec a 0); [lia|]. cbn [andb].
    assert (Len : ((length (g_verts f) <? 3) || (4 <? length (g_verts f)))%nat%bool = false).
    { apply orb_false_iff. rewrite !Nat.ltb_ge. destruct H4 as [-> | [-> _]]; lia. }
    rewrite Len. destruct (Z.leb_spec 0 a); [|lia]. destruct (Z.leb_spec 0 b); [|lia].
    unfold rdz at 1 2. destruct (Z.ltb_spec a 0); [lia|]. destruct (Z.ltb_spec b 0); [lia|].
    rewrite (rd_some _ _ _ Ha), (rd_some _ _ _ Hb). cbn [bind].
    rewrite (rd_some _ _ _ E1). cbn [bind]. rewrite R1. cbn [bind]. rewrite (rd_some _ _ _ E2). cbn [bind]. rewrite R2. cbn [bind].
    rewrite (rd_some _ _ _ E3). cbn [bind]. rewrite R3. cbn [bind andb].
    assert (E : (if (length (g_verts f) =? 4)%nat then do i4 <- rd (g_verts f) 3; do p4 <- rdz coords i4; Ok (reach_inner up dn p1 p2 p3 (Some p4))
                 else Ok (reach_inner up dn p1 p2 p3 None)) = Ok (Some (mkReach (t * L) ((1 - t) * L) u))).
    { destruct H4 as [-> | [-> [i4 [d [E4 [R4 Ht2]]]]]]; cbn [Nat.eqb].
      - rewrite (reach_inner_ok n x up dn p1 p2 p3 None Ht (Hflat p2 Hin)); [reflexivity|discriminate|exact Hh].
      - rewrite (rd_some _ _ _ E4). cbn [bind]. rewrite R4. cbn [bind].
        rewrite (reach_inner_ok n x up dn p1 p2 p3 (Some d) Ht (Hflat p2 Hin)); [reflexivity| |exact Hh].
        intros d' Ed. injection Ed as <-. exact Ht2. }
    rewrite E. cbn [bind r_up r_dn r_u]. rewrite Hnorm. cbn [fdot fl1 fbind].
    rewrite fdiv_ok by nra. replace (t * L / (t * L + (1 - t) * L)) with t by (field; lra). reflexivity.
  - cbn [r_up r_dn r_u]. split; [nra|]. split; [nra|]. split; [ring|]. split; [exact Hu|]. split; [exact Hdu|]. split.
    + replace (height n x (vadd up (vscale (t * L) u))) with (height n x up + t * L * dot u n) by (unfold height, dot, vadd, vscale, vsub; cbn; ring).
      rewrite Hun. unfold t. field. lra.
    + split; [ring|]. split; [exact Htt|]. split; [rewrite Hun; apply Rdiv_lt_0_compat; lra|]. apply cauchy; assumption.
Qed.

Theorem boundary_attrs coords cents f pts n a b c :
  located coords (g_verts f) pts -> polygon n pts -> (forall p, List.In p pts -> height n (g_cen f) p = 0) ->
  g_normal f = Some n -> g_cells f = (b, a) -> (b < 0)%Z -> at_ cents a c -> 0 < height n (g_cen f) c ->
  face_attrs coords cents f = Ok (Some (mkAttrs (mkReach 0 (height n (g_cen f) c) n) (Some 0) (Some (g_area f)))).
Proof.
  intros HL HN Hflat Hnorm Hc Hb [Ha0 Ha] Hh.
  destruct (polygon_start coords _ pts n HL HN) as [i1 [i2 [i3 [p1 [p2 [p3 [E1 [E2 [E3 [R1 [R2 [R3 [Ht [Hin H4]]]]]]]]]]]]]].
  destruct HN as [Hn HN].
  unfold face_attrs. rewrite Hc. destruct (Z.ltb_spec b 0); [|lia]. destruct (Z.ltb_spec a 0); [lia|]. cbn [andb].
  assert (Len : ((length (g_verts f) <? 3) || (4 <? length (g_verts f)))%nat%bool = false).
  { apply orb_false_iff. rewrite !Nat.ltb_ge. destruct H4 as [-> | [-> _]]; lia. }
  rewrite Len. destruct (Z.leb_spec 0 a); [|lia]. destruct (Z.leb_spec 0 b); [lia|].
  unfold rdz at 1. destruct (Z.ltb_spec a 0); [lia|]. rewrite (rd_some _ _ _ Ha). cbn [bind].
  rewrite (rd_some _ _ _ E1). cbn [bind]. rewrite R1. cbn [bind]. rewrite (rd_some _ _ _ E2). cbn [bind]. rewrite R2. cbn [bind].
  rewrite (rd_some _ _ _ E3). cbn [bind]. rewrite R3. cbn [bind andb].
  rewrite (reach_boundary_ok n (g_cen f) c p1 p2 p3 Hn Ht (Hflat p2 Hin) Hh). cbn [r_up r_dn r_u].
  rewrite Hnorm. cbn [fdot fl1 fbind]. rewrite fdiv_ok by lra.
  replace (0 / (0 + height n (g_cen f) c)) with 0 by (field; lra).
  replace (g_area f * DotProduct n n) with (g_area f); [reflexivity|].
  unfold unit in Hn. change (DotProduct n n) with (dot n n). rewrite Hn. ring.
Qed.

(** ** Storing *)

Theorem attrs_no_room coords cents fs f a : nth_error fs 0 = Some f -> face_attrs coords cents f = Ok (Some a) ->
  attrs_of_faces coords cents fs (allocate_tables (length fs)) = UB.
Proof.
  intros E Ea. destruct fs as [|f' fs]; [discriminate|]. injection E as ->.
  unfold attrs_of_faces, for_. cbn [length loop]. unfold rd at 1. cbn [nth_error bind]. rewrite Ea. cbn [bind].
  reflexivity.
Qed.

Theorem attrs_stored coords cents fs t :
  length (a_dist t) = length fs -> length (a_unit t) = length fs -> length (a_wt t) = length fs -> length (a_area t) = length fs ->
  (forall row, List.In row (a_dist t) -> (2 <= length row)%nat) -> (forall row, List.In row (a_unit t) -> (3 <= length row)%nat) ->
  (forall f, List.In f fs -> exists a, face_attrs coords cents f = Ok (Some a)) ->
  exists t', attrs_of_faces coords cents fs t = Ok t' /\
    forall k f a, nth_error fs k = Some f -> face_attrs coords cents f = Ok (Some a) ->
      (exists row, nth_error (a_dist t') k = Some row /\ nth_error row 0 = Some (r_up (t_reach a)) /\ nth_error row 1 = Some (r_dn (t_reach a))) /\
      (exists row, nth_error (a_unit t') k = Some row /\ nth_error row 0 = Some (vx (r_u (t_reach a))) /\
         nth_error row 1 = Some (vy (r_u (t_reach a))) /\ nth_error row 2 = Some (vz (r_u (t_reach a)))) /\
      nth_error (a_wt t') k = Some (t_wt a) /\ nth_error (a_area t') k = Some (t_area a).
Proof.
  intros L1 L2 L3 L4 W1 W2 HA. unfold attrs_of_faces.
  destruct (for_inv (fun i t' => length (a_dist t') = length fs /\ length (a_unit t') = length fs /\ length (a_wt t') = length fs /\ length (a_area t') = length fs /\
      (forall j row, (i <= j)%nat -> nth_error (a_dist t') j = Some row -> (2 <= length row)%nat) /\
      (forall j row, (i <= j)%nat -> nth_error (a_unit t') j = Some row -> (3 <= length row)%nat) /\
      forall k f a, (k < i)%nat -> nth_error fs k = Some f -> face_attrs coords cents f = Ok (Some a) ->
      (exists row, nth_error (a_dist t') k = Some row /\ nth_error row 0 = Some (r_up (t_reach a)) /\ nth_error row 1 = Some (r_dn (t_reach a))) /\
      (exists row, nth_error (a_unit t') k = Some row /\ nth_error row 0 = Some (vx (r_u (t_reach a))) /\
         nth_error row 1 = Some (vy (r_u (t_reach a))) /\ nth_error row 2 = Some (vz (r_u (t_reach a)))) /\
      nth_error (a_wt t') k = Some (t_wt a) /\ nth_error (a_area t') k = Some (t_area a))
    (fun k t => do f <- rd fs k; do a <- face_attrs coords cents f; store k a t) (length fs) t) as [t' [E [_ [_ [_ [_ [_ [_ H]]]]]]]].
  - do 4 (split; [assumption|]). split; [intros j row _ Hr; apply W1, (nth_error_In _ _ Hr)|].
    split; [intros j row _ Hr; apply W2, (nth_error_In _ _ Hr)|]. intros; lia.
  - intros i s Hi [M1 [M2 [M3 [M4 [X1 [X2 H]]]]]].
    destruct (nth_error fs i) as [f|] eqn:Ef; [|apply nth_error_None in Ef; lia].
    rewrite (rd_some _ _ _ Ef). cbn [bind]. destruct (HA f (nth_error_In _ _ Ef)) as [a Ea]. rewrite Ea. cbn [bind store].
    destruct (rd_ok (a_dist s) i) as [d [Ed Nd]]; [lia|]. rewrite Ed. cbn [bind].
    destruct (rd_ok (a_unit s) i) as [u [Eu Nu]]; [lia|].
    pose proof (X1 i d (le_n i) Nd) as Wd. pose proof (X2 i u (le_n i) Nu) as Wu.
    rewrite wr_ok by lia. cbn [bind]. rewrite wr_ok by (rewrite length_upd; lia). cbn [bind]. rewrite wr_ok by lia. cbn [bind].
    rewrite Eu. cbn [bind]. unfold store3. rewrite wr_ok by lia. cbn [bind]. rewrite wr_ok by (rewrite length_upd; lia). cbn [bind].
    rewrite wr_ok by (rewrite !length_upd; lia). cbn [bind]. rewrite wr_ok by lia. cbn [bind]. rewrite wr_ok by lia. cbn [bind].
    rewrite wr_ok by lia. cbn [bind]. eexists; split; [reflexivity|]. cbn [a_dist a_unit a_wt a_area]. rewrite !length_upd.
    do 4 (split; [assumption|]).
    split; [intros j row Hj Hr; rewrite nth_upd_other in Hr by lia; apply (X1 j row); [lia|exact Hr]|].
    split; [intros j row Hj Hr; rewrite nth_upd_other in Hr by lia; apply (X2 j row); [lia|exact Hr]|].
    intros k f' a' Hk Ef' Ea'. destruct (Nat.eq_dec k i) as [->|Hd].
    + rewrite Ef in Ef'. injection Ef' as <-. rewrite Ea in Ea'. injection Ea' as <-.
      rewrite !nth_upd_same by lia. split; [|split; [|auto]].
      * eexists; split; [reflexivity|]. split; [rewrite nth_upd_other by lia; apply nth_upd_same; lia|apply nth_upd_same; rewrite length_upd; lia].
      * eexists; split; [reflexivity|]. split; [rewrite !nth_upd_other by lia; apply nth_upd_same; lia|].
        split; [rewrite nth_upd_other by lia; apply nth_upd_same; rewrite length_upd; lia|apply nth_upd_same; rewrite !length_upd; lia].
    + rewrite !nth_upd_other by congruence. apply (H k f' a'); [lia|assumption..].
  - exists t'. split; [exact E|]. intros k f a Ef. apply H; [apply (nth_lt _ _ _ Ef)|exact Ef].
Qed.

(** ** From the unoriented face *)

Lemma located_in coords vs pts vs' pts' p : located coords vs pts -> located coords vs' pts' -> Permutation vs vs' ->
  List.In p pts' -> List.In p pts.
Proof.
  intros H1 H2 HP Hin.
  assert (X : exists i, List.In i vs' /\ at_ coords i p).
  { clear - H2 Hin. unfold located in H2. induction H2 as [|x y l l' H _ IH]; [destruct Hin|].
    destruct Hin as [->|Hin]; [exists x; split; [left; reflexivity|exact H]|]. destruct (IH Hin) as [i [Hi Hp]]. exists i. split; [right; exact Hi|exact Hp]. }
  destruct X as [i [Hi Hp]]. apply (Permutation_in i (Permutation_sym HP)) in Hi.
  clear - H1 Hi Hp. unfold located in H1. induction H1 as [|x y l l' H _ IH]; [destruct Hi|].
  destruct Hi as [->|Hi]; [|right; apply IH, Hi]. left. destruct H as [_ H], Hp as [_ Hp]. congruence.
Qed.

Theorem inner_face coords cents f pts n a b ca cb :
  located coords (g_verts f) pts -> nearly n pts -> (forall p, List.In p pts -> height n (g_cen f) p = 0) ->
  g_cells f = (a, b) -> at_ cents a ca -> at_ cents b cb ->
  height n (g_cen f) ca * height n (g_cen f) cb < 0 ->
  exists f' up dn r w, orient_face coords cents f = Ok f' /\
    (g_cells f' = (a, b) /\ up = ca /\ dn = cb \/ g_cells f' = (b, a) /\ up = cb /\ dn = ca) /\
    face_attrs coords cents f' = Ok (Some (mkAttrs r (Some w) (Some (g_area f * dot (r_u r) n)))) /\
    0 < r_up r /\ 0 < r_dn r /\ r_up r + r_dn r = length3 (vsub dn up) /\
    unit (r_u r) /\ dn = vadd up (vscale (r_up r + r_dn r) (r_u r)) /\
    height n (g_cen f) (vadd up (vscale (r_up r) (r_u r))) = 0 /\
    w * (r_up r + r_dn r) = r_up r /\ 0 < w < 1 /\ 0 < dot (r_u r) n <= 1.
Proof.
  intros HL HN Hflat Hc Ha Hb Hs.
  destruct (inner_oriented coords cents f pts n a b ca cb HL HN Hc Ha Hb Hs) as [f' [up [dn [pts' [E [HP [HL' [Hp [Hnn [Hcen [Har [Hcells Hh]]]]]]]]]]]].
  assert (Hflat' : forall p, List.In p pts' -> height n (g_cen f') p = 0).
  { intros p Hin. rewrite Hcen. apply Hflat. apply (located_in coords (g_verts f) pts (g_verts f') pts' p HL HL' HP Hin). }
  rewrite <- Hcen in Hh.
  assert (X : exists r w, face_attrs coords cents f' = Ok (Some (mkAttrs r (Some w) (Some (g_area f' * dot (r_u r) n)))) /\
    0 < r_up r /\ 0 < r_dn r /\ r_up r + r_dn r = length3 (vsub dn up) /\
    unit (r_u r) /\ dn = vadd up (vscale (r_up r + r_dn r) (r_u r)) /\
    height n (g_cen f') (vadd up (vscale (r_up r) (r_u r))) = 0 /\
    w * (r_up r + r_dn r) = r_up r /\ 0 < w < 1 /\ 0 < dot (r_u r) n <= 1).
  { destruct Hcells as [[Hc' [-> ->]]|[Hc' [-> ->]]].
    - exact (inner_attrs coords cents f' pts' n a b ca cb HL' Hp Hflat' Hnn Hc' Ha Hb Hh).
    - exact (inner_attrs coords cents f' pts' n b a cb ca HL' Hp Hflat' Hnn Hc' Hb Ha Hh). }
  destruct X as [r [w X]]. rewrite Har, Hcen in X. exists f', up, dn, r, w. split; [exact E|]. split; [exact Hcells|]. exact X.
Qed.

Theorem boundary_face coords cents f pts n a b c :
  located coords (g_verts f) pts -> nearly n pts -> (forall p, List.In p pts -> height n (g_cen f) p = 0) ->
  g_cells f = (a, b) -> at_ cents a c -> (b < 0)%Z -> height n (g_cen f) c <> 0 ->
  exists f' m, orient_face coords cents f = Ok f' /\ g_cells f' = (b, a) /\ g_normal f' = Some m /\ (m = n \/ m = opp n) /\
    face_attrs coords cents f' = Ok (Some (mkAttrs (mkReach 0 (Rabs (height n (g_cen f) c)) m) (Some 0) (Some (g_area f)))).
Proof.
  intros HL HN Hflat Hc Ha Hb Hs.
  destruct (boundary_oriented coords cents f pts n a b c HL HN Hc Ha Hb Hs) as [f' [m [pts' [E [HP [HL' [Hp [Hnn [Hcen [Har [Hcells [Hm Hh]]]]]]]]]]]].
  exists f', m. split; [exact E|]. split; [exact Hcells|]. split; [exact Hnn|]. split; [exact Hm|].
  assert (Hflat' : forall p, List.In p pts' -> height m (g_cen f') p = 0).
  { intros p Hin. rewrite Hcen. pose proof (Hflat p (located_in coords (g_verts f) pts (g_verts f') pts' p HL HL' HP Hin)) as H0.
    destruct Hm as [->| ->]; [exact H0|]. rewrite height_opp. lra. }
  rewrite (boundary_attrs coords cents f' pts' m a b c HL' Hp Hflat' Hnn Hcells Hb Ha); [|rewrite Hcen; exact Hh].
  rewrite Hcen, Har. assert (Eh : Rabs (height n (g_cen f) c) = height m (g_cen f) c).
  { destruct Hm as [->| ->]; [apply Rabs_pos_eq; lra|]. rewrite height_opp in *. rewrite Rabs_left; lra. }
  rewrite Eh. reflexivity.
Qed.

(** ** Witnesses *)

(** A square, with its corners in the order in which the diagonals are sides. *)
Definition square : list v3 := [V3 0 0 0; V3 1 0 0; V3 1 1 0; V3 0 1 0].
Definition bowtie : gface := mkGface (0%Z, (-1)%Z) [0; 2; 1; 3]%Z (V3 (1/2) (1/2) 0) None 1.
Theorem bowtie_lost :
  exists f', orient_face square [V3 (1/2) (1/2) (-1)] bowtie = Ok f' /\ g_verts f' = [3; 1; 2; 0]%Z /\ g_normal f' = None.
Proof.
  assert (R0 : rdz square 0 = Ok (V3 0 0 0)) by reflexivity.
  assert (R1 : rdz square 1 = Ok (V3 1 0 0)) by reflexivity.
  assert (R2 : rdz square 2 = Ok (V3 1 1 0)) by reflexivity.
  assert (R3 : rdz square 3 = Ok (V3 0 1 0)) by reflexivity.
  set (n := V3 0 0 (-1)).
  assert (Hn : unit n) by (unfold unit, dot, n; cbn; ring).
  assert (T1 : turns n (V3 0 0 0) (V3 1 1 0) (V3 1 0 0)) by (exists 1; split; [lra|]; unfold cross, vsub, vscale, n; cbn; f_equal; ring).
  assert (T2 : turns n (V3 1 1 0) (V3 1 0 0) (V3 0 1 0)) by (exists 1; split; [lra|]; unfold cross, vsub, vscale, n; cbn; f_equal; ring).
  unfold orient_face, repair, bowtie, rd. cbn -[rdz square]. rewrite R0, R2, R1, R3. cbn -[rdz square UnitNormalToTriangle negative].
  rewrite (unit_normal n _ _ _ Hn T1), (unit_normal n _ _ _ Hn T2). rewrite (negative_unit n Hn). cbn -[rdz square face_normal].
  assert (Rc : rdz [V3 (1/2) (1/2) (-1)] 0 = Ok (V3 (1/2) (1/2) (-1))) by reflexivity. rewrite Rc. cbn -[rdz square face_normal].
  unfold face_normal, rd. cbn -[rdz square]. rewrite R0, R2, R1, R3. cbn -[rdz square NormalToQuadrilateral].
  assert (Z0 : NormalToTriangle (centre4 (V3 0 0 0) (V3 1 1 0) (V3 1 0 0) (V3 0 1 0)) (V3 0 0 0) (V3 1 1 0) = V3 0 0 0).
  { unfold NormalToTriangle, CrossProduct, VecJoining, centre4; cbn. f_equal; field. }
  assert (Q : NormalToQuadrilateral (V3 0 0 0) (V3 1 1 0) (V3 1 0 0) (V3 0 1 0) = None).
  { unfold NormalToQuadrilateral. unfold UnitNormalToTriangle at 1. rewrite Z0, unit_vector_zero. reflexivity. }
  rewrite Q. cbn. eexists; split; [reflexivity|]. cbn. auto.
Qed.

Lemma unit_scaled v : 0 < length3 v -> ConvertToUnitVector v = Some (vscale (/ length3 v) v).
Proof.
  intro H. unfold ConvertToUnitVector. rewrite Norm_ok. cbn [fbind]. rewrite !fdiv_ok by lra. cbn [fbind].
  unfold vscale. f_equal. f_equal; unfold Rdiv; ring.
Qed.

(** A warped face. *)
Definition saddle : list v3 := [V3 1 0 2; V3 0 1 (-2); V3 (-1) 0 2; V3 0 (-1) (-2)].
Definition warped : gface := mkGface (0%Z, 1%Z) [0; 1; 2; 3]%Z (V3 0 0 0) None 6.
Theorem warped_short :
  exists f', orient_face saddle [V3 0 0 (-3); V3 0 0 3] warped = Ok f' /\ g_normal f' = Some (V3 0 0 (1 / 3)).
Proof.
  assert (R0 : rdz saddle 0 = Ok (V3 1 0 2)) by reflexivity.
  assert (R1 : rdz saddle 1 = Ok (V3 0 1 (-2))) by reflexivity.
  assert (R2 : rdz saddle 2 = Ok (V3 (-1) 0 2)) by reflexivity.
  assert (R3 : rdz saddle 3 = Ok (V3 0 (-1) (-2))) by reflexivity.
  assert (Rc : rdz [V3 0 0 (-3); V3 0 0 3] 0 = Ok (V3 0 0 (-3))) by reflexivity.
  unfold orient_face, repair, warped, rd. cbn -[rdz saddle]. rewrite R0, R1, R2, R3. cbn -[rdz saddle UnitNormalToTriangle negative fdot].
  assert (T1 : UnitNormalToTriangle (V3 1 0 2) (V3 0 1 (-2)) (V3 (-1) 0 2) = ConvertToUnitVector (V3 0 8 2)).
  { unfold UnitNormalToTriangle. f_equal. unfold NormalToTriangle, CrossProduct, VecJoining; cbn. f_equal; ring. }
  assert (T2 : UnitNormalToTriangle (V3 0 1 (-2)) (V3 (-1) 0 2) (V3 0 (-1) (-2)) = ConvertToUnitVector (V3 8 0 2)).
  { unfold UnitNormalToTriangle. f_equal. unfold NormalToTriangle, CrossProduct, VecJoining; cbn. f_equal; ring. }
  assert (P1 : 0 < length3 (V3 0 8 2)) by (unfold length3, dot; cbn; apply sqrt_lt_R0; lra).
  assert (P2 : 0 < length3 (V3 8 0 2)) by (unfold length3, dot; cbn; apply sqrt_lt_R0; lra).
  rewrite T1, T2, (unit_scaled _ P1), (unit_scaled _ P2).
  assert (Neg : negative (fdot (Some (vscale (/ length3 (V3 0 8 2)) (V3 0 8 2))) (Some (vscale (/ length3 (V3 8 0 2)) (V3 8 0 2)))) = false).
  { cbn [negative fdot]. apply Rinv_0_lt_compat in P1. apply Rinv_0_lt_compat in P2.
    destruct (Rlt_dec _ 0) as [K|K]; [|reflexivity]. exfalso. unfold DotProduct, vscale in K. cbn in K. nra. }
  rewrite Neg. cbn -[rdz saddle face_normal]. rewrite Rc. cbn -[rdz saddle face_normal]. unfold face_normal, rd. cbn -[rdz saddle].
  rewrite R0, R1, R2, R3. cbn -[rdz saddle NormalToQuadrilateral].
  assert (Q : NormalToQuadrilateral (V3 1 0 2) (V3 0 1 (-2)) (V3 (-1) 0 2) (V3 0 (-1) (-2)) = Some (V3 0 0 (1 / 3))).
  { assert (C : forall x y z, unit (V3 x y z) -> ConvertToUnitVector (vscale 3 (V3 x y z)) = Some (V3 x y z)) by (intros; apply unit_vector_of; [lra|assumption]).
    assert (Ce : centre4 (V3 1 0 2) (V3 0 1 (-2)) (V3 (-1) 0 2) (V3 0 (-1) (-2)) = V3 0 0 0) by (unfold centre4; cbn; f_equal; field).
    assert (U : forall p q x y z, NormalToTriangle (V3 0 0 0) p q = vscale 3 (V3 x y z) -> unit (V3 x y z) -> UnitNormalToTriangle (V3 0 0 0) p q = Some (V3 x y z)).
    { intros p q x y z Hpq Hu. unfold UnitNormalToTriangle. rewrite Hpq. apply C, Hu. }
    unfold NormalToQuadrilateral. rewrite Ce.
    rewrite (U (V3 1 0 2) (V3 0 1 (-2)) (-2/3) (2/3) (1/3)) by (unfold NormalToTriangle, CrossProduct, VecJoining, vscale, unit, dot; cbn; try f_equal; field).
    rewrite (U (V3 0 1 (-2)) (V3 (-1) 0 2) (2/3) (2/3) (1/3)) by (unfold NormalToTriangle, CrossProduct, VecJoining, vscale, unit, dot; cbn; try f_equal; field).
    rewrite (U (V3 (-1) 0 2) (V3 0 (-1) (-2)) (2/3) (-2/3) (1/3)) by (unfold NormalToTriangle, CrossProduct, VecJoining, vscale, unit, dot; cbn; try f_equal; field).
    rewrite (U (V3 0 (-1) (-2)) (V3 1 0 2) (-2/3) (-2/3) (1/3)) by (unfold NormalToTriangle, CrossProduct, VecJoining, vscale, unit, dot; cbn; try f_equal; field).
    cbn. f_equal. f_equal; field. }
  rewrite Q. cbn [bind fdot]. rewrite positive_false by (unfold DotProduct, VecJoining; cbn; lra).
  cbn. eexists; split; [reflexivity|]. reflexivity.
Qed.
