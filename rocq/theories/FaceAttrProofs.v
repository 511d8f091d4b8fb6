(** Proofs about the attributes of the face between two cells. *)
From Coq Require Import Reals Lra Psatz List ZArith Bool Lia Permutation.
From Verif Require Import Prelude Arrays Geom SpecGeom UGrid GeomProofs FaceGeo SpecFaceGeo FaceGeoProofs CellGeo SpecCellGeo CellGeoProofs
  MeshFaces SpecMeshFaces MeshFacesProofs FaceAttr SpecFaceAttr.
Import ListNotations.
Local Open Scope R_scope.

(** ** One triangle *)

Lemma intercept_gen n x pl k p q : k <> 0 -> (forall r, SpecGeom.side pl r = k * height n x r) -> height n x p <> height n x q ->
  PlaneIntercept pl p q = Some (vadd p (vscale (height n x p / (height n x p - height n x q)) (vsub q p))).
Proof.
  intros Hk Hs Hd. unfold PlaneIntercept.
  assert (E1 : pa pl * vx p + pb pl * vy p + pc pl * vz p + pd pl = k * height n x p) by apply (Hs p).
  assert (E2 : pa pl * (vx p - vx q) + pb pl * (vy p - vy q) + pc pl * (vz p - vz q) = k * (height n x p - height n x q)).
  { transitivity (SpecGeom.side pl p - SpecGeom.side pl q); [unfold SpecGeom.side; ring|]. rewrite !Hs. ring. }
  rewrite E1, E2. rewrite fdiv_ok by (apply Rmult_integral_contrapositive_currified; lra). cbn [fbind].
  replace (k * height n x p / (k * (height n x p - height n x q))) with (height n x p / (height n x p - height n x q)) by (field; lra).
  unfold vadd, vscale, vsub; cbn. reflexivity.
Qed.
Lemma tri_ok n x up dn u p1 p2 p3 k : unit n -> 0 < k -> cross (vsub p2 p1) (vsub p3 p2) = vscale k n -> height n x p2 = 0 -> height n x up <> height n x dn ->
  tri_attrs up dn u p1 p2 p3 = Some (mkTri (k / 2) (k / 2 * Rabs (dot n u)) (vadd up (vscale (height n x up / (height n x up - height n x dn)) (vsub dn up)))).
Proof.
  intros Hn Hk Hc H0 Hh. unfold tri_attrs.
  assert (Ec : CrossProduct (VecJoining p2 p3) (VecJoining p2 p1) = vscale k n).
  { rewrite <- Hc. unfold CrossProduct, VecJoining, cross, vsub; cbn. f_equal; ring. }
  assert (Em : sqrt (DotProduct (vscale k n) (vscale k n)) = k).
  { rewrite length_scaled by lra. unfold length3. unfold unit in Hn. rewrite Hn, sqrt_1. ring. }
  cbv zeta. rewrite Ec, Em. rewrite over_ok by lra.
  destruct (plane_side n p1 p2 p3 x) as [k2 [Hk2 Hs]]; [exists k; split; [exact Hk|exact Hc]|].
  rewrite (intercept_gen n x _ k2); [|lra|intro r; rewrite Hs, H0; f_equal; ring|exact Hh].
  f_equal. f_equal; [lra|]. 
  replace (vscale (/ k) (vscale k n)) with n by (destruct n; unfold vscale; cbn; f_equal; field; lra).
  rewrite Rabs_mult. change (DotProduct n u) with (dot n u). rewrite (Rabs_pos_eq (0.5 * k)) by lra. lra.
Qed.

Lemma distances_ok n x up dn ar pr : height n x up < 0 < height n x dn ->
  let t := height n x up / (height n x up - height n x dn) in let L := length3 (vsub dn up) in
  distances up dn (vadd up (vscale t (vsub dn up))) ar pr = Some (mkCattrs ar pr (t * L) ((1 - t) * L) (t * L + (1 - t) * L) t (vscale (/ L) (vsub dn up))) /\ 0 < t < 1 /\ 0 < L.
Proof.
  intros Hh t L. assert (HL : 0 < L) by (apply (apart n x); exact Hh).
  assert (Ht : 0 < t < 1).
  { unfold t. replace (height n x up / (height n x up - height n x dn)) with ((- height n x up) / (height n x dn - height n x up)) by (field; lra).
    split; [apply Rdiv_lt_0_compat; lra|]. apply (Rmult_lt_reg_r (height n x dn - height n x up)); [lra|]. field_simplify; lra. }
  split; [|split; assumption]. set (X := vadd up (vscale t (vsub dn up))). unfold distances.
  assert (V1 : VecJoining up X = vscale t (vsub dn up)) by (unfold VecJoining, X, vadd, vscale, vsub; cbn; f_equal; ring).
  assert (V2 : VecJoining X dn = vscale (1 - t) (vsub dn up)) by (unfold VecJoining, X, vadd, vscale, vsub; cbn; f_equal; ring).
  assert (V3' : V3 (vx (VecJoining up X) + vx (VecJoining X dn)) (vy (VecJoining up X) + vy (VecJoining X dn)) (vz (VecJoining up X) + vz (VecJoining X dn)) = vsub dn up).
  { unfold VecJoining, vsub; cbn; f_equal; ring. }
  cbv zeta. rewrite V3'. change (sqrt (DotProduct (vsub dn up) (vsub dn up))) with L. rewrite over_ok by lra. rewrite V1, V2, !length_scaled by lra.
  fold L. rewrite fdiv_ok by lra. do 2 f_equal. field. lra.
Qed.

(** ** The whole face *)

Definition corner4 (pts : list v3) : option v3 := nth_error pts 3.
Lemma over_self v : 0 < length3 v -> over v (sqrt (DotProduct v v)) = Some (vscale (/ length3 v) v).
Proof. intro H. change (sqrt (DotProduct v v)) with (length3 v). apply over_ok. lra. Qed.

Lemma conn_geometry_ok n pts p1 p2 p3 up dn : polygon n pts -> nth_error pts 0 = Some p1 -> nth_error pts 1 = Some p2 -> nth_error pts 2 = Some p3 ->
  height n p1 up < 0 < height n p1 dn ->
  exists a, conn_geometry up dn p1 p2 p3 (nth_error pts 3) = Some a /\
    described n pts up dn (c_area a) (c_proj a) (c_up a) (c_dn a) (c_dist a) (c_wt a) (c_u a).
Proof.
  intros [Hn HN] E1 E2 E3 Hh. unfold conn_geometry.
  set (L := length3 (vsub dn up)). assert (HL : 0 < L) by (apply (apart n p1); exact Hh).
  change (VecJoining up dn) with (vsub dn up). cbv zeta. rewrite over_self by exact HL. fold L.
  set (u := vscale (/ L) (vsub dn up)).
  assert (Hu : unit u) by (apply unit_direction; exact HL).
  set (t := height n p1 up / (height n p1 up - height n p1 dn)).
  assert (Hd : dot n u * L = height n p1 dn - height n p1 up).
  { unfold u, dot, vscale, height, vsub, dot; cbn. unfold vsub in *. field. lra. }
  assert (Hpos : 0 < dot n u) by nra.
  assert (Habs : Rabs (dot n u) = dot n u) by (apply Rabs_pos_eq; lra).
  assert (Hsym : dot u n = dot n u) by (unfold dot; ring).
  set (X := vadd up (vscale t (vsub dn up))).
  assert (HX : height n p1 X = 0).
  { unfold X. transitivity (height n p1 up + t * (height n p1 dn - height n p1 up)); [unfold height, dot, vadd, vscale, vsub; cbn; ring|]. unfold t. field. lra. }
  assert (core : forall ar, ar = area n pts -> 0 < ar -> (forall p, In p pts -> height n p1 p = 0) ->
     exists a, distances up dn X ar (ar * dot n u) = Some a /\ described n pts up dn (c_area a) (c_proj a) (c_up a) (c_dn a) (c_dist a) (c_wt a) (c_u a)).
  { intros ar Ha Hap Hf. destruct (distances_ok n p1 up dn ar (ar * dot n u) Hh) as [E [Ht _]]. fold t L in E, Ht. fold X in E. fold u in E.
    eexists; split; [exact E|]. cbn [c_area c_proj c_up c_dn c_dist c_wt c_u].
    replace (t * L + (1 - t) * L) with L by ring.
    split.
    - split; assumption.
    - split; [exact Hu|]. split; [split; [rewrite Hsym; exact Hpos|apply cauchy; assumption]|].
      unfold u, vadd, vscale, vsub; destruct dn as [d1 d2 d3]; cbn; f_equal; field; lra.
    - rewrite Hsym. reflexivity.
    - split; [reflexivity|]. split; [ring|]. split; nra.
    - intros p Hp. replace (vadd up (vscale (t * L) u)) with X.
      + transitivity (height n p1 X - height n p1 p); [unfold height, dot, vsub; cbn; ring|]. rewrite HX, (Hf p Hp). ring.
      + unfold X, u, vadd, vscale, vsub; cbn; f_equal; field; lra.
    - split; [ring|exact Ht]. }
  destruct pts as [|a [|b [|c pts]]]; try contradiction. cbn in E1, E2, E3. injection E1 as <-. injection E2 as <-. injection E3 as <-.
  assert (Hne : height n a up <> height n a dn) by lra.
  assert (H0 : height n a a = 0) by (unfold height, dot, vsub; cbn; ring).
  destruct pts as [|d [|e pts]]; try contradiction; cbn [nth_error].
  - destruct HN as [k [Hk Ek]]. destruct (turn_flat n a b c a (ex_intro _ k (conj Hk Ek))) as [F1 F2].
    rewrite (tri_ok n a up dn u a b c k) by (try assumption; lra). fold t X. cbn [i_area i_proj i_at]. rewrite Habs, !Rplus_0_r.
    assert (Ea : k / 2 = area n [a; b; c]).
    { unfold area, vector_area. cbn [around]. replace (vadd (cross a b) (vadd (cross b c) (cross c a))) with (vscale k n).
      - transitivity (k / 2 * dot n n); [unfold unit in Hn; rewrite Hn; ring|unfold dot, vscale; cbn; field].
      - rewrite <- Ek. unfold cross, vadd, vsub; cbn; f_equal; ring. }
    apply core; [exact Ea|lra|]. intros p [<-|[<-|[<-|[]]]]; lra.
  - destruct HN as [[k [Hk Ek]] [_ [[k' [Hk' Ek']] _]]].
    destruct (turn_flat n a b c a (ex_intro _ k (conj Hk Ek))) as [F1 F2]. destruct (turn_flat n c d a a (ex_intro _ k' (conj Hk' Ek'))) as [F3 F4].
    rewrite (tri_ok n a up dn u a b c k) by (try assumption; lra). fold t X.
    assert (Eo : cross (vsub d a) (vsub c d) = vscale k' (opp n)).
    { replace (vscale k' (opp n)) with (opp (vscale k' n)) by (unfold opp, vscale; cbn; f_equal; ring). rewrite <- Ek'. unfold opp, cross, vsub, vscale; cbn; f_equal; ring. }
    rewrite (tri_ok (opp n) a up dn u a d c k'); [|apply unit_opp, Hn|exact Hk'|exact Eo|rewrite height_opp; lra|rewrite !height_opp; lra].
    rewrite !height_opp. replace (- height n a up / (- height n a up - - height n a dn)) with t by (unfold t; field; lra). fold X.
    cbn [i_area i_proj i_at].
    replace (dot (opp n) u) with (- dot n u) by (unfold opp, dot, vscale; cbn; ring). rewrite Rabs_Ropp, Habs.
    replace (V3 ((vx X + vx X) / 2) ((vy X + vy X) / 2) ((vz X + vz X) / 2)) with X by (destruct X; cbn; f_equal; field).
    rewrite <- Rmult_plus_distr_r.
    assert (Ea : k / 2 + k' / 2 = area n [a; b; c; d]).
    { unfold area, vector_area. cbn [around]. replace (vadd (cross a b) (vadd (cross b c) (vadd (cross c d) (cross d a)))) with (vadd (vscale k n) (vscale k' n)).
      - transitivity ((k / 2 + k' / 2) * dot n n); [unfold unit in Hn; rewrite Hn; ring|unfold dot, vadd, vscale; cbn; field].
      - rewrite <- Ek, <- Ek'. unfold cross, vadd, vsub; cbn; f_equal; ring. }
    apply core; [exact Ea|lra|]. intros p [<-|[<-|[<-|[<-|[]]]]]; lra.
Qed.

(** ** Walks around a face *)

Lemma rotation_length {A} (l m : list A) : rotation l m -> length l = length m.
Proof. intros [a [b [-> ->]]]. rewrite !app_length. lia. Qed.
Lemma rotation_in {A} (l m : list A) x : rotation l m -> In x l <-> In x m.
Proof. intros [a [b [-> ->]]]. rewrite !in_app_iff. tauto. Qed.
Lemma rotation_points {A B} (R : A -> B -> Prop) l m ps : rotation l m -> Forall2 R l ps -> exists qs, Forall2 R m qs /\ rotation ps qs.
Proof.
  intros [a [b [-> ->]]] H. apply Forall2_app_inv_l in H as [p [q [H1 [H2 ->]]]]. exists (q ++ p). split; [apply Forall2_app; assumption|]. exists p, q. split; reflexivity.
Qed.
Lemma rotate_polygon n ps qs : rotation ps qs -> polygon n ps -> polygon n qs /\ area n qs = area n ps.
Proof.
  intros [a [b [-> ->]]] [Hn H]. unfold polygon.
  assert (F : forall x y z, turns n x y z -> turns n y z x) by apply turn_cycle.
  destruct a as [|a1 [|a2 [|a3 [|a4 [|a5 a]]]]]; destruct b as [|b1 [|b2 [|b3 [|b4 [|b5 b]]]]]; cbn [app] in *; try contradiction;
    (split; [split; [exact Hn|intuition auto]|unfold area, vector_area; cbn [around]; unfold dot, vadd, vscale, cross; cbn; ring]).
Qed.
Lemma polygon_normal n m ps : polygon n ps -> polygon m ps -> n = m.
Proof.
  intros [Hn H] [Hm K]. assert (T : exists a b c, turns n a b c /\ turns m a b c).
  { destruct ps as [|a [|b [|c [|d [|e l]]]]]; try contradiction; exists a, b, c; tauto. }
  destruct T as [a [b [c [[k [Hk Ek]] [k' [Hk' Ek']]]]]]. rewrite Ek in Ek'.
  assert (Q : k * k = k' * k').
  { transitivity (dot (vscale k n) (vscale k n)); [unfold unit in Hn; transitivity (k * k * dot n n); [rewrite Hn; ring|unfold dot, vscale; cbn; ring]|].
    rewrite Ek'. transitivity (k' * k' * dot m m); [unfold dot, vscale; cbn; ring|unfold unit in Hm; rewrite Hm; ring]. }
  assert (k = k') by nra. subst k'. destruct n as [n1 n2 n3], m as [q1 q2 q3]. unfold vscale in Ek'. cbn in Ek'. injection Ek' as A1 A2 A3.
  f_equal; apply (Rmult_eq_reg_l k); lra.
Qed.
Lemma located_unique coords l ps qs : located coords l ps -> located coords l qs -> ps = qs.
Proof.
  intro H. revert qs. induction H as [|z p l ps [_ Hz] _ IH]; intros qs K; inversion K as [|z' q l' qs' [_ Hq] K']; subst; [reflexivity|].
  f_equal; [congruence|]. apply IH, K'.
Qed.
Lemma polygon_level n ps p q : polygon n ps -> In p ps -> In q ps -> height n p q = 0.
Proof.
  intros H Hp Hq. destruct ps as [|a ps]; [destruct Hp|].
  assert (K : forall x, In x (a :: ps) -> height n a x = 0).
  { intros x Hx. assert (H0 : height n a a = 0) by (unfold height, dot, vsub; cbn; ring).
    destruct ps as [|b [|c [|d [|e l]]]]; try (exfalso; exact (proj2 H)).
    - destruct (tri_level n a b c H) as [X1 X2]. destruct Hx as [<-|[<-|[<-|[]]]]; assumption.
    - destruct (quad_level n a b c d H) as [X1 [X2 X3]]. destruct Hx as [<-|[<-|[<-|[<-|[]]]]]; assumption. }
  transitivity (height n a q - height n a p); [unfold height, dot, vsub; cbn; ring|]. rewrite (K p Hp), (K q Hq). ring.
Qed.

(** ** Reading a face *)

Lemma rdz_at' (coords : list v3) i p : at_ coords i p -> UGrid.rdz coords i = Ok p.
Proof. intros [H0 E]. unfold UGrid.rdz. destruct (Z.ltb_spec i 0); [lia|]. apply rd_some, E. Qed.
Lemma rdz_n {A} (l : list A) (i : nat) x : nth_error l i = Some x -> UGrid.rdz l (Z.of_nat i) = Ok x.
Proof. intro E. unfold UGrid.rdz. destruct (Z.ltb_spec (Z.of_nat i) 0); [lia|]. rewrite Nat2Z.id. apply rd_some, E. Qed.

Lemma conn_attrs_ok coords cents fv k i (c d f : nat) up dn l ps n :
  nth_error (k_cells k) (2 * i) = Some (Z.of_nat c) -> nth_error (k_cells k) (2 * i + 1) = Some (Z.of_nat d) ->
  nth_error cents c = Some up -> nth_error cents d = Some dn ->
  nth_error (k_face k) i = Some (Z.of_nat f) -> column fv f l -> nth_error (k_nv k) i = Some (length l) ->
  located coords l ps -> polygon n ps -> (forall p, In p ps -> height n p up < 0 < height n p dn) ->
  exists a, conn_attrs coords cents fv k i = Ok (Some a) /\
    described n ps up dn (c_area a) (c_proj a) (c_up a) (c_dn a) (c_dist a) (c_wt a) (c_u a).
Proof.
  intros Hc Hd Hu Hn Hf Hcol Hnv HL HP Hh. unfold conn_attrs.
  rewrite (rd_some _ _ _ Hc), (rd_some _ _ _ Hd). cbn [bind]. rewrite (Z.abs_eq (Z.of_nat d)) by lia. rewrite (rdz_n _ _ _ Hu), (rdz_n _ _ _ Hn), (rd_some _ _ _ Hf). cbn [bind].
  assert (RC : forall j x, nth_error l j = Some x -> rd2 fv j (Z.of_nat f) = Ok x).
  { intros j x Hx. destruct (Hcol j x Hx) as [r [R1 R2]]. unfold rd2. rewrite (rd_some _ _ _ R1). cbn [bind]. apply rdz_n, R2. }
  destruct ps as [|p1 [|p2 [|p3 rest]]]; try (exfalso; exact (proj2 HP)).
  inversion HL as [|i1 q1 l1 ps1 A1 HL1]; subst. inversion HL1 as [|i2 q2 l2 ps2 A2 HL2]; subst. inversion HL2 as [|i3 q3 l3 ps3 A3 HL3]; subst.
  rewrite (RC 0%nat _ eq_refl), (RC 1%nat _ eq_refl), (RC 2%nat _ eq_refl). cbn [bind].
  rewrite (rdz_at' _ _ _ A1), (rdz_at' _ _ _ A2), (rdz_at' _ _ _ A3), (rd_some _ _ _ Hnv). cbn [bind length].
  destruct (conn_geometry_ok n (p1 :: p2 :: p3 :: rest) p1 p2 p3 up dn HP eq_refl eq_refl eq_refl (Hh p1 (or_introl eq_refl))) as [a [Ea Da]].
  destruct rest as [|p4 rest].
  - inversion HL3; subst. cbn [length Nat.eqb bind]. exists a. split; [|exact Da]. cbn [nth_error] in Ea. rewrite Ea. reflexivity.
  - destruct rest as [|p5 rest]; [|exfalso; exact (proj2 HP)]. inversion HL3 as [|i4 q4 l4 ps4 A4 HL4]; subst. inversion HL4; subst.
    cbn [length Nat.eqb bind]. rewrite (RC 3%nat _ eq_refl). cbn [bind]. rewrite (rdz_at' _ _ _ A4). cbn [bind].
    exists a. split; [|exact Da]. cbn [nth_error] in Ea. rewrite Ea. reflexivity.
Qed.

(** ** Storing *)

Lemma in_upd_row {A} (l : list A) i x y : In y (upd l i x) -> y = x \/ In y l.
Proof.
  intro H. apply In_nth_error in H as [j Hj]. destruct (Nat.eq_dec i j) as [->|N].
  - pose proof (nth_lt _ _ _ Hj) as L. rewrite length_upd in L. rewrite nth_upd_same in Hj by exact L. left; congruence.
  - rewrite nth_upd_other in Hj by congruence. right. eapply nth_error_In, Hj.
Qed.
Lemma store_ok n i a t : roomy n t -> (i < n)%nat -> exists t', store_conn i (Some a) t = Ok t' /\ roomy n t' /\
  stored t' i (c_area a) (c_proj a) (c_up a) (c_dn a) (c_dist a) (c_wt a) (c_u a) /\
  forall j ar pr d1 d2 d w u, j <> i -> stored t j ar pr d1 d2 d w u -> stored t' j ar pr d1 d2 d w u.
Proof.
  intros [L1 [L2 [L3 [L4 [L5 [L6 [R1 R2]]]]]]] Hi. unfold store_conn.
  rewrite wr_ok by lia. cbn [bind]. rewrite wr_ok by lia. cbn [bind].
  destruct (rd_ok (h_updn t) i) as [d [Ed Nd]]; [lia|]. rewrite Ed. cbn [bind]. pose proof (R1 d (nth_error_In _ _ Nd)) as Ld.
  rewrite wr_ok by lia. cbn [bind]. rewrite wr_ok by (rewrite length_upd; lia). cbn [bind]. rewrite wr_ok by lia. cbn [bind].
  rewrite wr_ok by lia. cbn [bind]. rewrite wr_ok by lia. cbn [bind].
  destruct (rd_ok (h_unit t) i) as [u [Eu Nu]]; [lia|]. rewrite Eu. cbn [bind]. pose proof (R2 u (nth_error_In _ _ Nu)) as Lu.
  unfold store3. rewrite wr_ok by lia. cbn [bind]. rewrite wr_ok by (rewrite length_upd; lia). cbn [bind]. rewrite wr_ok by (rewrite !length_upd; lia). cbn [bind].
  rewrite wr_ok by lia. cbn [bind]. eexists; split; [reflexivity|]. split; [|split].
  - unfold roomy. cbn [h_area h_proj h_updn h_dist h_wt h_unit]. rewrite !length_upd. do 6 (split; [assumption|]). split.
    + intros row Hr. apply in_upd_row in Hr as [->|Hr]; [rewrite !length_upd; exact Ld|apply R1, Hr].
    + intros row Hr. apply in_upd_row in Hr as [->|Hr]; [rewrite !length_upd; exact Lu|apply R2, Hr].
  - unfold stored. cbn [h_area h_proj h_updn h_dist h_wt h_unit]. rewrite !nth_upd_same by lia. do 4 (split; [reflexivity|]). split.
    + eexists; split; [reflexivity|]. split; [rewrite nth_upd_other by lia; apply nth_upd_same; lia|apply nth_upd_same; rewrite length_upd; lia].
    + eexists; split; [reflexivity|]. split; [rewrite !nth_upd_other by lia; apply nth_upd_same; lia|].
      split; [rewrite nth_upd_other by lia; apply nth_upd_same; rewrite length_upd; lia|apply nth_upd_same; rewrite !length_upd; lia].
  - intros j ar pr d1 d2 dd w uu Hj H. unfold stored in *. cbn [h_area h_proj h_updn h_dist h_wt h_unit]. rewrite !nth_upd_other by congruence. exact H.
Qed.
Lemma no_room coords cents fv k a : (0 < k_n k)%nat -> conn_attrs coords cents fv k 0 = Ok (Some a) ->
  attrs_of_conns coords cents fv k (allocate_ctables (k_n k)) = UB.
Proof.
  intros Hk E. unfold attrs_of_conns. destruct (k_n k) as [|m]; [lia|]. unfold for_. cbn [loop]. rewrite E. cbn [bind]. reflexivity.
Qed.

(** ** The mesh *)

Section Whole.
Variables (nl ng : nat) (cnv : list nat) (cv : list (list Z)) (nbs : list (nat * list Z)).
Variables (coords cents : list v3) (pts : nat -> list v3).
Hypothesis Wc : conforming nl ng cnv cv nbs.
Hypothesis Ws : solid coords cnv cv pts ng.
Hypothesis Wm : forall c, (c < ng)%nat -> exists m, nth_error cents c = Some m /\ mean (pts c) m.

Notation face_points := (face_points cnv pts).
Lemma sides_small k s j : In s (sides k) -> In j s -> (j < k)%nat.
Proof.
  do 9 (destruct k as [|k]; [cbn; intros H K; repeat (destruct H as [<-|H]; [cbn in K; lia|]); destruct H|]). cbn. tauto.
Qed.
Lemma face_located c i : (c < ng)%nat -> (i < nsides cnv c)%nat -> located coords (side cnv cv c i) (face_points c i).
Proof.
  intros Hc Hi. unfold side, SpecFaceAttr.face_points, pick, located.
  assert (K : forall l, (forall j, In j l -> (j < length (pts c))%nat) -> Forall2 (at_ coords) (map (fun k => nth k (nth c cv []) 0%Z) l) (map (fun i => nth i (pts c) origin) l)).
  { induction l as [|j l IH]; intro H; cbn [map]; [constructor|]. constructor; [apply (so_corners _ _ _ _ _ Ws c Hc), H; left; reflexivity|apply IH; intros q Hq; apply H; right; exact Hq]. }
  apply K. intros j Hj. rewrite (so_count _ _ _ _ _ Ws c Hc). eapply sides_small; [|exact Hj]. apply nth_In. exact Hi.
Qed.
Lemma face_normal_of c i m : (c < ng)%nat -> (i < nsides cnv c)%nat -> mean (pts c) m ->
  exists n, polygon n (face_points c i) /\ forall p, In p (face_points c i) -> height n p m < 0.
Proof.
  intros Hc Hi Hm. destruct (so_convex _ _ _ _ _ Ws c Hc) as [_ H]. rewrite (so_count _ _ _ _ _ Ws c Hc) in H.
  assert (Hs : In (nth i (sides (nth c cnv 0%nat)) []) (sides (nth c cnv 0%nat))) by (apply nth_In; exact Hi).
  destruct (H _ Hs) as [n [P B]]. exists n. split; [exact P|]. intros p Hp.
  pose proof (mean_inside (pts c) m Hm) as I. unfold inside in I. rewrite (so_count _ _ _ _ _ Ws c Hc) in I. specialize (I _ n Hs P B).
  assert (Hh : In (nth (hd 0%nat (nth i (sides (nth c cnv 0%nat)) [])) (pts c) origin) (face_points c i)).
  { unfold SpecFaceAttr.face_points, pick. destruct (nth i (sides (nth c cnv 0%nat)) []) as [|j l]; [exfalso; exact (proj2 P)|]. left. reflexivity. }
  pose proof (polygon_level n _ _ _ P Hh Hp) as Z0.
  replace (height n p m) with (height n (nth (hd 0%nat (nth i (sides (nth c cnv 0%nat)) [])) (pts c) origin) m - height n (nth (hd 0%nat (nth i (sides (nth c cnv 0%nat)) [])) (pts c) origin) p).
  - rewrite Z0. lra.
  - unfold height, dot, vsub; cbn. ring.
Qed.
(** The normal of a common side separates the centres of its two cells. *)
Lemma between c i d j up dn : (c < ng)%nat -> (d < ng)%nat -> c <> d -> common cnv cv c i d j -> mean (pts c) up -> mean (pts d) dn ->
  exists n, polygon n (face_points c i) /\ forall p, In p (face_points c i) -> height n p up < 0 < height n p dn.
Proof.
  intros Hc Hd Hcd Hcom Hu Hn. destruct Hcom as [Hi [Hj Hin]] eqn:Ecom. clear Ecom.
  destruct (face_normal_of c i up Hc Hi Hu) as [n [P B]]. destruct (face_normal_of d j dn Hd Hj Hn) as [m [Q D]].
  exists n. split; [exact P|]. intros p Hp. split; [apply B, Hp|].
  pose proof (so_opposite _ _ _ _ _ Ws c i d j Hc Hd Hcd (conj Hi (conj Hj Hin))) as Rot.
  destruct (rotation_points (at_ coords) _ _ (face_points d j) Rot (face_located d j Hd Hj)) as [qs [L1 R1]].
  pose proof (located_rev coords _ _ (face_located c i Hc Hi)) as L2.
  pose proof (located_unique coords _ _ _ L1 L2) as ->.
  destruct (rotate_polygon m _ _ R1 Q) as [Q' _].
  pose proof (polygon_normal _ _ _ Q' (polygon_reversed n _ P)) as ->.
  assert (Hp' : In p (face_points d j)) by (apply (rotation_in _ _ p R1); apply -> in_rev; exact Hp).
  specialize (D p Hp'). rewrite height_opp in D. lra.
Qed.

Lemma described_rotate n ps qs up dn ar pr d1 d2 d w u : polygon n ps -> rotation ps qs -> described n qs up dn ar pr d1 d2 d w u -> described n ps up dn ar pr d1 d2 d w u.
Proof.
  intros P R [[A1 A2] B C D F G]. destruct (rotate_polygon n ps qs R P) as [_ E]. split; try assumption; [split; [congruence|exact A2]|].
  intros p Hp. apply F, (rotation_in _ _ p R), Hp.
Qed.

Definition attributed (r : meshfaces) (p : nat) (a : cattrs) : Prop :=
  exists c d i j n up dn, (c < nl)%nat /\ (c < d)%nat /\ (d < ng)%nat /\ common cnv cv c i d j /\
    nth_error (k_cells (f_conns r)) (2 * p) = Some (Z.of_nat c) /\ nth_error (k_cells (f_conns r)) (2 * p + 1) = Some (Z.of_nat d) /\
    nth_error cents c = Some up /\ nth_error cents d = Some dn /\ polygon n (face_points c i) /\
    (forall q, In q (face_points c i) -> height n q up < 0 < height n q dn) /\
    described n (face_points c i) up dn (c_area a) (c_proj a) (c_up a) (c_dn a) (c_dist a) (c_wt a) (c_u a).

Lemma all_conns : exists r, setup_faces cnv cv nbs nl ng true = Ok r /\
  (forall c d, (c < nl)%nat -> (c < d)%nat -> (d < ng)%nat -> adjacent cnv cv c d -> exists p, (p < k_n (f_conns r))%nat /\
     nth_error (k_cells (f_conns r)) (2 * p) = Some (Z.of_nat c) /\ nth_error (k_cells (f_conns r)) (2 * p + 1) = Some (Z.of_nat d)) /\
  forall p, (p < k_n (f_conns r))%nat -> exists a, conn_attrs coords cents (f_verts r) (f_conns r) p = Ok (Some a) /\ attributed r p a.
Proof.
  destruct (faces_ok nl ng cnv cv nbs Wc) as [r [prs [E [_ [Hin [Hk [_ [_ [_ [_ [Hp _]]]]]]]]]]].
  exists r. split; [exact E|]. split.
  - intros c d H1 H2 H3 H4. destruct (In_nth_error _ _ (proj2 (Hin c d) (conj H1 (conj H2 (conj H3 H4))))) as [p Ep].
    exists p. destruct (Hp p c d Ep) as [K1 [K2 _]]. split; [rewrite Hk; eapply nth_lt, Ep|]. split; assumption.
  - intros p Lp. destruct (nth_error prs p) as [[c d]|] eqn:Ep; [|apply nth_error_None in Ep; lia].
    destruct (proj1 (Hin c d) (nth_error_In _ _ Ep)) as [H1 [H2 [H3 _]]].
    destruct (Hp p c d Ep) as [K1 [K2 [i [j [f [l [Com [Lf [Rot [Col [_ [Kf Kn]]]]]]]]]]]].
    destruct (Wm c ltac:(lia)) as [up [Eu Mu]]. destruct (Wm d H3) as [dn [Ed Md]].
    destruct (between c i d j up dn ltac:(lia) H3 ltac:(lia) Com Mu Md) as [n [P B]].
    destruct (rotation_points (at_ coords) _ _ (face_points c i) Rot (face_located c i ltac:(lia) (proj1 Com))) as [qs [L1 R1]].
    destruct (rotate_polygon n _ _ R1 P) as [P' _].
    destruct (conn_attrs_ok coords cents (f_verts r) (f_conns r) p c d f up dn l qs n K1 K2 Eu Ed Kf Col Kn L1 P') as [a [Ea Da]].
    { intros q Hq. apply B, (rotation_in _ _ q R1), Hq. }
    exists a. split; [exact Ea|]. exists c, d, i, j, n, up, dn. do 3 (split; [assumption|]). split; [exact Com|]. do 6 (split; [assumption|]).
    eapply described_rotate; [exact P|exact R1|exact Da].
Qed.

Theorem conns_stored : exists r, setup_faces cnv cv nbs nl ng true = Ok r /\
  (forall c d, (c < nl)%nat -> (c < d)%nat -> (d < ng)%nat -> adjacent cnv cv c d -> exists p, (p < k_n (f_conns r))%nat /\
     nth_error (k_cells (f_conns r)) (2 * p) = Some (Z.of_nat c) /\ nth_error (k_cells (f_conns r)) (2 * p + 1) = Some (Z.of_nat d)) /\
  forall t, roomy (k_n (f_conns r)) t -> exists t', attrs_of_conns coords cents (f_verts r) (f_conns r) t = Ok t' /\
    forall p, (p < k_n (f_conns r))%nat -> exists a, attributed r p a /\ stored t' p (c_area a) (c_proj a) (c_up a) (c_dn a) (c_dist a) (c_wt a) (c_u a).
Proof.
  destruct all_conns as [r [E [H1 H2]]]. exists r. split; [exact E|]. split; [exact H1|]. intros t Ht. unfold attrs_of_conns.
  destruct (for_inv (fun i t' => roomy (k_n (f_conns r)) t' /\ forall p, (p < i)%nat -> exists a, attributed r p a /\ stored t' p (c_area a) (c_proj a) (c_up a) (c_dn a) (c_dist a) (c_wt a) (c_u a))
    (fun i t => do a <- conn_attrs coords cents (f_verts r) (f_conns r) i; store_conn i a t) (k_n (f_conns r)) t) as [t' [Et [_ Hs]]].
  - split; [exact Ht|]. intros p Hp. lia.
  - intros i s Hi [Hr Hs]. destruct (H2 i ltac:(lia)) as [a [Ea Aa]]. rewrite Ea. cbn [bind].
    destruct (store_ok _ i a s Hr ltac:(lia)) as [s' [Es [Hr' [St Hold]]]]. exists s'. split; [exact Es|]. split; [exact Hr'|].
    intros p Hp. destruct (Nat.eq_dec p i) as [->|Np]; [exists a; split; assumption|].
    destruct (Hs p ltac:(lia)) as [b [Ab Sb]]. exists b. split; [exact Ab|apply Hold; assumption].
  - exists t'. split; [exact Et|]. intros p Hp. apply Hs. lia.
Qed.
Theorem conns_no_room c d : (c < nl)%nat -> (c < d)%nat -> (d < ng)%nat -> adjacent cnv cv c d ->
  exists r, setup_faces cnv cv nbs nl ng true = Ok r /\ attrs_of_conns coords cents (f_verts r) (f_conns r) (allocate_ctables (k_n (f_conns r))) = UB.
Proof.
  intros X1 X2 X3 X4. destruct all_conns as [r [E [H1 H2]]]. exists r. split; [exact E|].
  destruct (H1 c d X1 X2 X3 X4) as [p [Lp _]]. destruct (H2 0%nat ltac:(lia)) as [a [Ea _]]. apply (no_room _ _ _ _ a); [lia|exact Ea].
Qed.
End Whole.

Lemma cells_centres nl ng cnv cv nbs coords pts nat_ids maxv : conforming nl ng cnv cv nbs -> solid coords cnv cv pts ng -> length nat_ids = ng -> (8 <= maxv)%nat ->
  exists cells cents, setup_cells coords cv cnv nat_ids maxv nl ng = Ok cells /\ map u_cen cells = map Some cents /\
    forall c, (c < ng)%nat -> exists m, nth_error cents c = Some m /\ mean (pts c) m.
Proof.
  intros W Ws Ln Lm.
  assert (K : forall i, (i < ng)%nat -> exists row, nth_error cv i = Some row /\ nth_error cnv i = Some (length (pts i)) /\ (length (pts i) <= maxv)%nat /\ (length (pts i) <= length row)%nat /\
     forall j, (j < length (pts i))%nat -> exists id, nth_error row j = Some id /\ at_ coords id (nth j (pts i) origin)).
  { intros i Hi. destruct (cf_kind _ _ _ _ _ W i Hi) as [Hk [Hl _]]. exists (nth i cv []).
    split; [apply nth_error_nth'; rewrite (cf_cv _ _ _ _ _ W); exact Hi|]. rewrite (so_count _ _ _ _ _ Ws i Hi).
    split; [apply nth_error_nth'; rewrite (cf_cnv _ _ _ _ _ W); exact Hi|]. split; [cbn in Hk; lia|]. split; [exact Hl|].
    intros j Hj. exists (nth j (nth i cv []) 0%Z). split; [apply nth_error_nth'; lia|]. apply (so_corners _ _ _ _ _ Ws i Hi). rewrite (so_count _ _ _ _ _ Ws i Hi). exact Hj. }
  destruct (cells_ok coords cv cnv nat_ids maxv nl ng (cf_cnv _ _ _ _ _ W) (cf_cv _ _ _ _ _ W) Ln) as [cells [E [Lc Hc]]].
  { intros i Hi. destruct (K i Hi) as [row [K1 [K2 [K3 [K4 K5]]]]]. exists row, (pts i). repeat (split; [assumption|]). apply (so_convex _ _ _ _ _ Ws i Hi). }
  assert (C : forall i, (i < ng)%nat -> exists u m, nth_error cells i = Some u /\ u_cen u = Some m /\ mean (pts i) m).
  { intros i Hi. destruct (K i Hi) as [row [K1 [K2 [K3 [K4 K5]]]]]. destruct (nth_error nat_ids i) as [id|] eqn:Ei; [|apply nth_error_None in Ei; lia].
    destruct (Hc i row (pts i) id K1 K2 Ei K5) as [m [v [Em [Mm _]]]]. eexists _, m. split; [exact Em|]. split; [reflexivity|exact Mm]. }
  exists cells, (map (fun u => match u_cen u with Some m => m | None => origin end) cells). split; [exact E|]. split.
  - rewrite map_map. apply map_ext_in. intros u Hu. apply In_nth_error in Hu as [i Hi]. pose proof (nth_lt _ _ _ Hi) as Li.
    destruct (C i ltac:(lia)) as [u' [m [E1 [E2 _]]]]. rewrite Hi in E1. injection E1 as <-. rewrite E2. reflexivity.
  - intros i Hi. destruct (C i Hi) as [u [m [E1 [E2 Mm]]]]. exists m. rewrite nth_error_map, E1. cbn [option_map]. rewrite E2. split; [reflexivity|exact Mm].
Qed.
