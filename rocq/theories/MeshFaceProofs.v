(** Proofs about the faces and vertices of the mesh. *)
From Coq Require Import List ZArith Bool Arith Lia.
From Verif Require Import Prelude Arrays Mesh SpecMesh MeshProofs MeshConnProofs.
Import ListNotations.
Local Open Scope nat_scope.

(** One more entry in a row whose used part is given. *)
Lemma used_add : forall n d ids i l c, length ids = n * d -> i < n -> length l < d ->
  holds d (length l) ids i l -> holds d (S (length l)) (upd ids (i * d + length l) (Z.of_nat c)) i (l ++ [c]).
Proof.
  intros n d ids i l c Hlen Hi Hl H j Hj. destruct (Nat.eq_dec (length l) j) as [<-|Hne].
  - rewrite nth_upd_same by (rewrite Hlen; apply row_room; lia).
    rewrite map_app, app_nth2, map_length, Nat.sub_diag by (rewrite map_length; lia). reflexivity.
  - rewrite nth_upd_other by lia. rewrite (H j ltac:(lia)). f_equal. rewrite map_app, app_nth1 by (rewrite map_length; lia). reflexivity.
Qed.

Lemma listed_ok : forall d ids i l x, holds d (length l) ids i l ->
  listed ids (Z.of_nat (i * d)) (Z.of_nat x) 0 (length l) = Ok (existsb (Nat.eqb x) l).
Proof.
  intros d ids i l x H.
  assert (G : forall r q, l = q ++ r -> listed ids (Z.of_nat (i * d)) (Z.of_nat x) (length q) (length r) = Ok (existsb (Nat.eqb x) r)).
  { induction r as [|y r IH]; intros q Hq; [reflexivity|]. simpl.
    assert (Hlt : length q < length l) by (rewrite Hq, app_length; simpl; lia).
    rewrite rdz_sum, (rd_some _ _ _ (H (length q) Hlt)). cbn [bind].
    assert (En : nth (length q) (map Z.of_nat l) (-1)%Z = Z.of_nat y).
    { rewrite Hq, map_app, app_nth2, map_length, Nat.sub_diag by (rewrite map_length; lia). reflexivity. }
    rewrite En. destruct (Z.eqb_spec (Z.of_nat y) (Z.of_nat x)) as [E|E].
    - apply Nat2Z.inj in E. subst y. rewrite Nat.eqb_refl. reflexivity.
    - destruct (Nat.eqb_spec x y) as [->|_]; [congruence|]. simpl orb.
      replace (S (length q)) with (length (q ++ [y])) by (rewrite app_length; simpl; lia).
      apply IH. rewrite Hq, <- app_assoc. reflexivity. }
  apply (G l []). reflexivity.
Qed.

Section Faces.
Variable z : sizes.

Definition at_corner (fvs bvs : list (list Z)) (s : fconn) (v : nat) : Prop :=
  let l := around (Z.of_nat v) 0 fvs in
  let lb := around (Z.of_nat v) 0 bvs in
  length l <= d_vf z /\ length lb <= d_vf z /\
  holds (d_vf z) (length l) (v_face s) v (map fst l) /\
  holds (d_vf z) (length l) (v_subface s) v (map snd l) /\
  nth_error (v_nface s) v = Some (length l) /\
  holds (d_vf z) (length lb) (v_bnd s) v (map fst lb) /\
  nth_error (v_nbnd s) v = Some (length lb).
Definition fsized (s : fconn) : Prop :=
  length (f_nvert s) = n_face z /\ length (f_vert s) = n_face z * d_fv z /\
  length (v_nface s) = n_vert z /\ length (v_face s) = n_vert z * d_vf z /\ length (v_subface s) = n_vert z * d_vf z /\
  length (v_nbnd s) = n_vert z /\ length (v_bnd s) = n_vert z * d_vf z.
Definition finv (fvs bvs : list (list Z)) (s : fconn) : Prop :=
  fsized s /\ filled (d_fv z) (f_vert s) fvs /\
  (forall f, f < n_face z -> nth_error (f_nvert s) f = Some (length (nth f fvs []))) /\
  forall v, v < n_vert z -> at_corner fvs bvs s v.
(** Room for the faces around a vertex. *)
Definition ffits (fvs : list (list Z)) : Prop := forall v, v < n_vert z -> length (around (Z.of_nat v) 0 fvs) <= d_vf z.

Lemma not_listed : forall v fvs l, ~ In (Z.of_nat v) l ->
  existsb (Nat.eqb (length fvs)) (map fst (around (Z.of_nat v) 0 (fvs ++ [l]))) = false.
Proof.
  intros v fvs l Hn. destruct (existsb _ _) eqn:E; [|reflexivity]. exfalso. apply existsb_exists in E.
  destruct E as [c [H1 H2]]. apply Nat.eqb_eq in H2. subst c. apply in_map_iff in H1. destruct H1 as [[i k] [H1 H2]].
  simpl in H1. subst i. apply in_around in H2. destruct H2 as [_ [l' [H2 H3]]].
  rewrite Nat.sub_0_r, nth_error_app2, Nat.sub_diag in H2 by lia. simpl in H2. inversion H2; subst l'.
  apply Hn. exact (nth_error_In _ _ H3).
Qed.

Lemma visit_face_vertex_ok : forall fvs l bvs s v, finv (fvs ++ [l]) bvs s ->
  length fvs < n_face z -> length l < d_fv z -> short (d_fv z) fvs -> v < n_vert z -> ~ In (Z.of_nat v) l ->
  length (around (Z.of_nat v) 0 (fvs ++ [l])) < d_vf z ->
  exists s', visit_face_vertex z (length fvs) (Z.of_nat v) s = Ok s' /\ finv (fvs ++ [l ++ [Z.of_nat v]]) bvs s'.
Proof.
  intros fvs l bvs s v [Hs [Hf [Hn Hv]]] Hc Hl Hsh Hvn Hnin Hcap.
  destruct Hs as [S1 [S2 [S3 [S4 [S5 [S6 S7]]]]]].
  unfold visit_face_vertex. rewrite row_ok by exact Hc. cbn [bind].
  assert (Hk : nth_error (f_nvert s) (length fvs) = Some (length l)).
  { rewrite (Hn _ Hc). rewrite app_nth2, Nat.sub_diag by lia. reflexivity. }
  rewrite (rd_some _ _ _ Hk). cbn [bind]. rewrite wrz_sum, wr_ok by (rewrite S2; apply row_room; lia). cbn [bind].
  rewrite wr_ok by lia. cbn [bind]. rewrite row_ok by exact Hvn. cbn [bind].
  destruct (Hv v Hvn) as [X1 [X2 [V1 [V2 [V3 [V4 V5]]]]]].
  set (L := around (Z.of_nat v) 0 (fvs ++ [l])) in *.
  rewrite rdz_nat, (rd_some _ _ _ V3). cbn [bind].
  pose proof (listed_ok (d_vf z) (v_face s) v (map fst L) (length fvs)) as G. rewrite map_length in G. rewrite (G V1). clear G.
  unfold L. rewrite (not_listed v fvs l Hnin). fold L. cbn [bind].
  rewrite !wrz_sum, wr_ok by (rewrite S4; apply row_room; lia). cbn [bind].
  rewrite wr_ok by (rewrite S5; apply row_room; lia). cbn [bind].
  rewrite wrz_nat, wr_ok by lia. cbn [bind]. eexists. split; [reflexivity|].
  split; [unfold fsized; cbn; rewrite !length_upd; repeat split; assumption|].
  split; [cbn; apply (filled_add (n_face z)); assumption|]. split.
  - intros f Hf'. cbn [f_nvert]. destruct (Nat.eq_dec (length fvs) f) as [<-|Hne].
    + rewrite nth_upd_same by lia. rewrite app_nth2, Nat.sub_diag by lia. simpl. rewrite app_length. simpl. f_equal. lia.
    + rewrite nth_upd_other by exact Hne. rewrite (Hn f Hf'). do 2 f_equal.
      destruct (Nat.lt_ge_cases f (length fvs)).
      * rewrite !app_nth1 by assumption. reflexivity.
      * rewrite !nth_overflow by (rewrite app_length; simpl; lia). reflexivity.
  - intros w Hw. unfold at_corner. cbn [v_face v_subface v_nface v_bnd v_nbnd]. rewrite around_snoc.
    destruct (Hv w Hw) as [Y1 [Y2 [W1 [W2 [W3 [W4 W5]]]]]].
    destruct (Z.eqb_spec (Z.of_nat v) (Z.of_nat w)) as [Heq|Hne].
    + apply Nat2Z.inj in Heq. subst w. fold L. rewrite app_length, !map_app. simpl length. simpl map.
      rewrite Nat.add_1_r. split; [lia|]. split; [exact Y2|]. split; [|split; [|split; [|split; [exact W4|exact W5]]]].
      * pose proof (used_add (n_vert z) (d_vf z) (v_face s) v (map fst L) (length fvs) S4 Hvn) as G. rewrite map_length in G. apply G; assumption.
      * pose proof (used_add (n_vert z) (d_vf z) (v_subface s) v (map snd L) (length l) S5 Hvn) as G. rewrite map_length in G. apply G; assumption.
      * apply nth_upd_same. lia.
    + rewrite app_nil_r. assert (Hvw : v <> w) by congruence.
      split; [exact Y1|]. split; [exact Y2|]. split; [|split; [|split; [|split; [exact W4|exact W5]]]].
      * apply holds_other; [exact Y1|exact Hvw|exact Hcap|exact W1].
      * apply holds_other; [exact Y1|exact Hvw|exact Hcap|exact W2].
      * rewrite nth_upd_other by exact Hvw. exact W3.
Qed.

Lemma mark_boundary_ok : forall fvs l bvs b r x s, finv (fvs ++ [l]) (bvs ++ [b]) s ->
  l = b ++ x :: r -> length fvs < n_face z -> short (d_fv z) (fvs ++ [l]) -> length bvs = length fvs ->
  (exists v, x = Z.of_nat v /\ v < n_vert z /\ length (around x 0 (bvs ++ [b])) < d_vf z) ->
  exists s', mark_boundary z (length fvs) (length b) s = Ok s' /\ finv (fvs ++ [l]) (bvs ++ [b ++ [x]]) s'.
Proof.
  intros fvs l bvs b r x s [Hs [Hf [Hn Hv]]] Hlb Hc Hsh Hlen [v [-> [Hvn Hcap]]].
  destruct Hs as [S1 [S2 [S3 [S4 [S5 [S6 S7]]]]]].
  unfold mark_boundary. rewrite row_ok by exact Hc. cbn [bind]. rewrite rdz_sum.
  rewrite (rd_some (f_vert s) (length fvs * d_fv z + length b) (Z.of_nat v)).
  2:{ apply (Hf (length fvs) l); [rewrite nth_error_app2, Nat.sub_diag by lia; reflexivity|].
      rewrite Hlb, nth_error_app2, Nat.sub_diag by lia. reflexivity. }
  cbn [bind]. rewrite row_ok by exact Hvn. cbn [bind].
  destruct (Hv v Hvn) as [X1 [X2 [V1 [V2 [V3 [V4 V5]]]]]].
  set (L := around (Z.of_nat v) 0 (bvs ++ [b])) in *.
  rewrite rdz_nat, (rd_some _ _ _ V5). cbn [bind].
  rewrite wrz_sum, wr_ok by (rewrite S7; apply row_room; lia). cbn [bind].
  rewrite wrz_nat, wr_ok by lia. cbn [bind]. eexists. split; [reflexivity|].
  split; [unfold fsized; cbn; rewrite ?length_upd; repeat split; assumption|].
  split; [exact Hf|]. split; [exact Hn|].
  intros w Hw. unfold at_corner. cbn [v_face v_subface v_nface v_bnd v_nbnd]. rewrite (around_snoc _ bvs).
  destruct (Hv w Hw) as [Y1 [Y2 [W1 [W2 [W3 [W4 W5]]]]]].
  destruct (Z.eqb_spec (Z.of_nat v) (Z.of_nat w)) as [Heq|Hne].
  - apply Nat2Z.inj in Heq. subst w. fold L. rewrite (app_length L), (map_app fst L). simpl length. simpl (map fst [_]). rewrite Nat.add_1_r.
    split; [exact Y1|]. split; [lia|]. split; [exact W1|]. split; [exact W2|]. split; [exact W3|]. split.
    + pose proof (used_add (n_vert z) (d_vf z) (v_bnd s) v (map fst L) (length fvs) S7 Hvn) as G. rewrite map_length in G. rewrite Hlen. apply G; assumption.
    + apply nth_upd_same. lia.
  - rewrite app_nil_r. assert (Hvw : v <> w) by congruence.
    split; [exact Y1|]. split; [exact Y2|]. split; [exact W1|]. split; [exact W2|]. split; [exact W3|]. split.
    + apply holds_other; [exact Y2|exact Hvw|exact Hcap|exact W4].
    + rewrite nth_upd_other by exact Hvw. exact W5.
Qed.

Variable t : strata.
Hypothesis Hnv : v_end t = (v_start t + Z.of_nat (n_vert z))%Z.

Definition fverts (f : nat * list Z * nat) : list Z := vof t (fst f).
(** The vertices of a boundary face. *)
Definition bverts (f : nat * list Z * nat) : list Z := if snd f =? 2 then [] else fverts f.

Lemma connect_face_ok : forall fs size closure support fvs bvs s,
  finv fvs bvs s -> length bvs = length fvs -> length fvs < n_face z ->
  nth_error fs (length fvs) = Some (size, closure, support) -> 2 * size <= length closure ->
  short (d_fv z) fvs -> length (vof t (size, closure)) <= d_fv z -> NoDup (vof t (size, closure)) ->
  ffits (fvs ++ [vof t (size, closure)]) ->
  (forall x, length (around x 0 bvs) <= length (around x 0 fvs)) ->
  exists s', connect_face t z fs (length fvs) s = Ok s' /\
    finv (fvs ++ [fverts (size, closure, support)]) (bvs ++ [bverts (size, closure, support)]) s'.
Proof.
  intros fs size closure support fvs bvs s Hinv Lb Hc Hf Hlong Sh Dv Nd Hfit Hble. unfold connect_face.
  rewrite (rd_some _ _ _ Hf). cbn [bind].
  set (cl := (size, closure)) in *.
  assert (Hpts : length (points cl) = size) by (unfold points; rewrite map_length, seq_length; reflexivity).
  destruct (for_inv (fun i st => finv (fvs ++ [members (v_start t) (v_end t) (firstn i (points cl))]) bvs st)
    (fun i s => do p <- rd closure (2 * i);
       if within p (v_start t) (v_end t) then visit_face_vertex z (length fvs) (p - v_start t) s else Ok s) size s) as [s1 [E I]].
  - simpl. change (members (v_start t) (v_end t) []) with (@nil Z).
    destruct Hinv as [H1 [H2 [H3 H4]]]. split; [exact H1|]. split; [apply filled_snoc_nil; exact H2|]. split.
    + intros f Hff. rewrite (H3 f Hff). do 2 f_equal. destruct (Nat.lt_ge_cases f (length fvs)).
      * rewrite app_nth1 by assumption. reflexivity.
      * rewrite nth_overflow by assumption. rewrite app_nth2 by assumption. destruct (f - length fvs) as [|[|m]]; reflexivity.
    + intros v Hv. unfold at_corner. rewrite around_snoc_nil. exact (H4 v Hv).
  - intros i st Hi I.
    assert (Hp : exists p, nth_error closure (2 * i) = Some p /\ nth_error (points cl) i = Some p).
    { destruct (nth_error closure (2 * i)) as [p|] eqn:Ep; [|apply nth_error_None in Ep; lia]. exists p. split; [reflexivity|].
      unfold points. rewrite nth_error_map. rewrite (nth_error_nth' (seq 0 size) 0) by (rewrite seq_length; exact Hi).
      rewrite seq_nth by exact Hi. simpl. f_equal. apply (nth_error_nth closure (2 * i) _ Ep). }
    destruct Hp as [p [Ep1 Ep2]]. rewrite (rd_some _ _ _ Ep1). cbn [bind].
    rewrite (firstn_snoc _ _ _ Ep2), members_snoc.
    set (lv := members (v_start t) (v_end t) (firstn i (points cl))) in *.
    destruct (within p (v_start t) (v_end t)) eqn:Wv.
    + assert (Hex : exists rest, vof t cl = (lv ++ [(p - v_start t)%Z]) ++ rest).
      { unfold vof. rewrite <- (firstn_skipn (S i) (points cl)). unfold members at 1. rewrite filter_app, map_app.
        eexists. f_equal. fold (members (v_start t) (v_end t) (firstn (S i) (points cl))).
        rewrite (firstn_snoc _ _ _ Ep2), members_snoc, Wv. reflexivity. }
      destruct Hex as [rest Hex]. rewrite Hnv in Wv. destruct (within_nat _ _ _ Wv) as [v [Hv Epv]]. rewrite Epv in *.
      apply visit_face_vertex_ok; try assumption.
      * rewrite Hex, !app_length in Dv. simpl in Dv. lia.
      * intro Hin. rewrite Hex in Nd. clear - Nd Hin. rewrite <- app_assoc in Nd. simpl in Nd. apply NoDup_remove_2 in Nd.
        apply Nd. apply in_or_app. left. exact Hin.
      * pose proof (Hfit v Hv) as G. rewrite Hex in G.
        pose proof (around_prefix (Z.of_nat v) fvs (lv ++ [Z.of_nat v]) rest) as G3.
        rewrite around_snoc, Z.eqb_refl, app_length in G3. simpl in G3. lia.
    + rewrite app_nil_r. exists st. split; [reflexivity|exact I].
  - rewrite E. cbn [bind]. rewrite <- Hpts, firstn_all in I. fold (vof t cl) in I.
    unfold bverts, fverts. cbn [fst snd]. destruct (support =? 2) eqn:Es.
    { exists s1. split; [reflexivity|].
      destruct I as [H1 [H2 [H3 H4]]]. split; [exact H1|]. split; [exact H2|]. split; [exact H3|].
      intros v Hv. unfold at_corner. rewrite around_snoc_nil. exact (H4 v Hv). }
    set (l := vof t cl) in *.
    assert (Hk : nth_error (f_nvert s1) (length fvs) = Some (length l)).
    { destruct I as [_ [_ [H3 _]]]. rewrite (H3 _ Hc). rewrite app_nth2, Nat.sub_diag by lia. reflexivity. }
    rewrite (rd_some _ _ _ Hk). cbn [bind].
    assert (Hl : forall x, In x l -> exists v, x = Z.of_nat v /\ v < n_vert z).
    { intros x Hx. unfold l, vof, members in Hx. apply in_map_iff in Hx. destruct Hx as [p [<- Hp]]. apply filter_In in Hp.
      destruct Hp as [_ Hp]. fold (within p (v_start t) (v_end t)) in Hp. rewrite Hnv in Hp. destruct (within_nat _ _ _ Hp) as [v [Hv Ev]].
      exists v. auto. }
    assert (Hshort : short (d_fv z) (fvs ++ [l])).
    { intros c l' Hl'. destruct (Nat.lt_ge_cases c (length fvs)).
      - rewrite nth_error_app1 in Hl' by assumption. exact (Sh c l' Hl').
      - rewrite nth_error_app2 in Hl' by assumption. destruct (c - length fvs) as [|[|m]]; try discriminate Hl'. simpl in Hl'. inversion Hl'; subst l'. exact Dv. }
    destruct (for_inv (fun i st => finv (fvs ++ [l]) (bvs ++ [firstn i l]) st) (mark_boundary z (length fvs)) (length l) s1) as [s2 [E2 I2]].
    + destruct I as [H1 [H2 [H3 H4]]]. split; [exact H1|]. split; [exact H2|]. split; [exact H3|].
      intros v Hv. unfold at_corner. simpl firstn. rewrite around_snoc_nil. exact (H4 v Hv).
    + intros i st Hi Ist. destruct (nth_error l i) as [x|] eqn:Ex; [|apply nth_error_None in Ex; lia].
      destruct (nth_error_split l i Ex) as [l1 [l2 [Hsplit Hl1]]].
      assert (Hfi : firstn i l = l1) by (rewrite Hsplit, <- Hl1, firstn_app, Nat.sub_diag, firstn_all; simpl; apply app_nil_r).
      rewrite (firstn_snoc _ _ _ Ex), Hfi in *. rewrite <- Hl1.
      destruct (Hl x (nth_error_In _ _ Ex)) as [v [Ev Hv]].
      apply (mark_boundary_ok fvs l bvs l1 l2 x st Ist Hsplit Hc Hshort Lb).
      exists v. split; [exact Ev|]. split; [exact Hv|]. rewrite Ev in *.
      pose proof (Hfit v Hv) as G. rewrite Hsplit in G.
      replace (l1 ++ Z.of_nat v :: l2) with ((l1 ++ [Z.of_nat v]) ++ l2) in G by (rewrite <- app_assoc; reflexivity).
      pose proof (around_prefix (Z.of_nat v) fvs (l1 ++ [Z.of_nat v]) l2) as G3.
      rewrite around_snoc, Z.eqb_refl, app_length in G3. simpl in G3.
      rewrite around_app, app_length in G3. rewrite around_app, app_length. specialize (Hble (Z.of_nat v)).
      simpl in *. rewrite !app_nil_r, !map_length in *. lia.
    + exists s2. split; [exact E2|]. rewrite firstn_all in I2. exact I2.
Qed.

Lemma finitial_inv : finv [] [] (finitial z).
Proof.
  split; [unfold fsized, finitial, allocate; cbn; rewrite !repeat_length; repeat split|].
  split; [intros c l k x H; destruct c; discriminate|]. split.
  - intros f Hf. unfold finitial, f_nvert. rewrite nth_error_repeat by exact Hf. destruct f; reflexivity.
  - intros v Hv. unfold at_corner. simpl. split; [lia|]. split; [lia|].
    split; [intros j Hj; lia|]. split; [intros j Hj; lia|]. split; [apply nth_error_repeat; exact Hv|].
    split; [intros j Hj; lia|]. apply nth_error_repeat. exact Hv.
Qed.

Lemma face_connectivity_ok : forall fs, length fs = n_face z ->
  (forall f sz cl su, nth_error fs f = Some (sz, cl, su) ->
     2 * sz <= length cl /\ length (vof t (sz, cl)) <= d_fv z /\ NoDup (vof t (sz, cl))) ->
  ffits (map fverts fs) ->
  exists s, face_connectivity t z fs = Ok s /\ finv (map fverts fs) (map bverts fs) s.
Proof.
  intros fs Hn Hcl Hfit. unfold face_connectivity.
  destruct (for_inv (fun i s => finv (firstn i (map fverts fs)) (firstn i (map bverts fs)) s)
    (connect_face t z fs) (n_face z) (finitial z)) as [s [E I]].
  - exact finitial_inv.
  - intros i s Hi I.
    destruct (nth_error fs i) as [[[sz cl] su]|] eqn:Ef; [|apply nth_error_None in Ef; lia].
    destruct (Hcl i sz cl su Ef) as [C1 [C2 C3]].
    assert (Lv : length (firstn i (map fverts fs)) = i) by (rewrite firstn_length, map_length; lia).
    assert (Lb : length (firstn i (map bverts fs)) = i) by (rewrite firstn_length, map_length; lia).
    assert (Sn : forall g, nth_error (map g fs) i = Some (g (sz, cl, su)) :> option (list Z)) by (intro g; rewrite nth_error_map, Ef; reflexivity).
    rewrite !(firstn_snoc _ _ _ (Sn _)).
    destruct (connect_face_ok fs sz cl su (firstn i (map fverts fs)) (firstn i (map bverts fs)) s I) as [s' [E' I']];
      rewrite ?Lv, ?Lb; try assumption; try reflexivity.
    + intros c l Hl. assert (Hx : nth_error (map fverts fs) c = Some l).
      { rewrite <- (firstn_skipn i (map fverts fs)). rewrite nth_error_app1; [exact Hl|exact (nth_lt _ _ _ Hl)]. }
      rewrite nth_error_map in Hx. destruct (nth_error fs c) as [[[sz' cl'] su']|] eqn:Ec; [|discriminate Hx]. inversion Hx; subst l.
      apply (Hcl c sz' cl' su' Ec).
    + intros v Hv. change (vof t (sz, cl)) with (fverts (sz, cl, su)). rewrite <- (firstn_snoc _ _ _ (Sn fverts)).
      pose proof (Hfit v Hv). pose proof (around_firstn_le (Z.of_nat v) (map fverts fs) (S i)). lia.
    + intro x. generalize (@eq_refl _ (firstn i fs)). rewrite !firstn_map. generalize (firstn i fs) at 2 3 4. intros q _. generalize 0.
      induction q as [|f q IH]; intro k; [simpl; lia|]. simpl. rewrite !app_length, !map_length. specialize (IH (S k)).
      unfold bverts at 1. destruct (snd f =? 2); simpl; lia.
    + rewrite Lv in E'. exists s'. split; [exact E'|exact I'].
  - rewrite E. exists s. split; [reflexivity|]. rewrite !firstn_all2 in I by (rewrite map_length; lia). exact I.
Qed.
End Faces.
