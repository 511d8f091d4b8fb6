(** Proofs about the arrays of sub-cells and about two-point G matrices. *)
From Coq Require Import Reals List Bool Arith ZArith Lia Lra Permutation.
From Verif Require Import Prelude Arrays SpecFvtpf FvtpfSumProofs Geom SpecGeom Mpfao SpecMpfao MpfaoProofs Subcell SpecSubcell SubcellProofs GeomProofs.
Import ListNotations.
Local Open Scope R_scope.

(** * The arrays *)
Definition three {A} (l : list A) (id : nat) (c : A * A * A) : Prop :=
  let '(c0, c1, c2) := c in
  nth_error l (3 * id) = Some c0 /\ nth_error l (3 * id + 1) = Some c1 /\ nth_error l (3 * id + 2) = Some c2.
Lemma put_centroids_ok : forall l id c, (3 * id + 3 <= length l)%nat ->
  exists l', put_centroids l id c = Ok l' /\ length l' = length l /\ three l' id c /\
    forall k, (k < 3 * id \/ 3 * id + 3 <= k)%nat -> nth_error l' k = nth_error l k.
Proof.
  intros l id [[c0 c1] c2] H. unfold put_centroids.
  rewrite wr_ok by lia. cbn [bind]. rewrite wr_ok by (rewrite length_upd; lia). cbn [bind].
  rewrite wr_ok by (rewrite !length_upd; lia). eexists. split; [reflexivity|].
  split; [rewrite !length_upd; reflexivity|]. unfold three. split.
  - repeat split.
    + rewrite !nth_upd_other by lia. apply nth_upd_same; lia.
    + rewrite nth_upd_other by lia. apply nth_upd_same; rewrite length_upd; lia.
    + apply nth_upd_same; rewrite !length_upd; lia.
  - intros k Hk. rewrite !nth_upd_other by lia. reflexivity.
Qed.
Definition large (st : store) (n : nat) : Prop := (n <= length (st_sub st))%nat /\ (3 * n <= length (st_continuity st))%nat.
Definition holds (st : store) (id : nat) (s : sub) : Prop :=
  nth_error (st_sub st) id = Some (Some s) /\ three (st_continuity st) id (s_cen s).
Lemma set_subcell_ok : forall st id s N, large st N -> (id < N)%nat ->
  exists st', set_subcell st id s = Ok st' /\ large st' N /\ holds st' id s /\ st_centroid st' = st_centroid st /\
    forall k r, k <> id -> holds st k r -> holds st' k r.
Proof.
  intros st id s N [H1 H2] Hid. unfold set_subcell. rewrite wr_ok by lia. cbn [bind].
  destruct (put_centroids_ok (st_continuity st) id (s_cen s)) as [l [E [L [T O]]]]; [lia|].
  rewrite E. cbn [bind]. eexists. split; [reflexivity|]. split; [|split; [|split]].
  - split; simpl; rewrite ?length_upd; lia.
  - split; simpl; [apply nth_upd_same; lia|exact T].
  - reflexivity.
  - intros k r Hk [A1 A2]. split; simpl.
    + rewrite nth_upd_other by lia. exact A1.
    + unfold three in *. destruct (s_cen r) as [[r0 r1] r2]. rewrite !O by lia. exact A2.
Qed.
Lemma setup_cell_ok : forall g n cverts i vs st N, nth_error cverts i = Some vs -> length vs = n -> large st N ->
  (forall j iv, nth_error vs j = Some iv -> exists s, SetupSubcell g i iv = Ok s) ->
  (i * n + n <= N)%nat ->
  exists st', setup_cell g n cverts i st = Ok st' /\ large st' N /\ st_centroid st' = st_centroid st /\
    (forall j iv s, nth_error vs j = Some iv -> SetupSubcell g i iv = Ok s -> holds st' (i * n + j) s) /\
    forall k r, (k < i * n \/ i * n + n <= k)%nat -> holds st k r -> holds st' k r.
Proof.
  intros g n cverts i vs st N Hi Hn Hl Hs HN. unfold setup_cell. rewrite (rd_some _ _ _ Hi). cbn [bind].
  edestruct (for_inv (fun m t => large t N /\ st_centroid t = st_centroid st /\
    (forall j iv s, (j < m)%nat -> nth_error vs j = Some iv -> SetupSubcell g i iv = Ok s -> holds t (i * n + j) s) /\
    forall k r, (k < i * n \/ i * n + n <= k)%nat -> holds st k r -> holds t k r)) as [st' [E P]].
  3:{ exists st'. split; [exact E|]. destruct P as [P1 [P2 [P3 P4]]]. split; [exact P1|]. split; [exact P2|]. split; [|exact P4].
      intros j iv s Hj. apply P3; [apply nth_lt in Hj; lia|exact Hj]. }
  - split; [exact Hl|]. split; [reflexivity|]. split; [intros; lia|auto].
  - intros j t Hj [P1 [P2 [P3 P4]]].
    destruct (rd_ok vs j ltac:(lia)) as [iv [E1 E2]]. rewrite E1. cbn [bind].
    destruct (Hs j iv E2) as [s Es]. rewrite Es. cbn [bind].
    destruct (set_subcell_ok t (i * n + j) s N P1) as [t' [E3 [Q1 [Q2 [Q3 Q4]]]]]; [lia|].
    exists t'. split; [exact E3|]. split; [exact Q1|]. split; [congruence|]. split.
    + intros j' iv' s' Hj' En Es'. destruct (Nat.eq_dec j' j) as [->|Hne].
      * rewrite E2 in En. injection En as <-. rewrite Es in Es'. injection Es' as <-. exact Q2.
      * apply Q4; [lia|]. eapply P3; eauto. lia.
    + intros k r Hk Hr. apply Q4; [lia|]. apply P4; assumption.
Qed.

(** All cells have [n] vertices: every sub-cell is in its place. *)
Lemma uniform_ok : forall g cverts n st,
  (forall vs, In vs cverts -> length vs = n) -> large st (length cverts * n) ->
  (forall i vs iv, nth_error cverts i = Some vs -> In iv vs -> exists s, SetupSubcell g i iv = Ok s) ->
  exists st', SetupSubcells g n cverts st = Ok st' /\ st_centroid st' = st_centroid st /\
    forall i vs j iv s, nth_error cverts i = Some vs -> nth_error vs j = Some iv -> SetupSubcell g i iv = Ok s ->
      holds st' (i * n + j) s.
Proof.
  intros g cverts n st Hn Hl Hs. unfold SetupSubcells.
  edestruct (for_inv (fun m t => large t (length cverts * n) /\ st_centroid t = st_centroid st /\
    forall i vs j iv s, (i < m)%nat -> nth_error cverts i = Some vs -> nth_error vs j = Some iv -> SetupSubcell g i iv = Ok s ->
      holds t (i * n + j) s)) as [st' [E P]].
  3:{ exists st'. split; [exact E|]. destruct P as [P1 [P2 P3]]. split; [exact P2|].
      intros i vs j iv s Hi. eapply P3; [apply nth_lt in Hi; exact Hi|exact Hi]. }
  - split; [exact Hl|]. split; [reflexivity|intros; lia].
  - intros i t Hi [P1 [P2 P3]]. destruct (rd_ok cverts i Hi) as [vs [_ E2]].
    assert (Hlen : length vs = n) by (apply Hn; eapply nth_error_In; exact E2).
    destruct (setup_cell_ok g n cverts i vs t (length cverts * n) E2 Hlen P1) as [t' [E3 [Q1 [Q2 [Q3 Q4]]]]].
    + intros j iv Hj. eapply Hs; [exact E2|eapply nth_error_In; exact Hj].
    + nia.
    + exists t'. split; [exact E3|]. split; [exact Q1|]. split; [congruence|].
      intros i' vs' j iv s Hi' Ei Ej Es. destruct (Nat.eq_dec i' i) as [->|Hne].
      * rewrite E2 in Ei. injection Ei as <-. eapply Q3; eassumption.
      * apply Q4; [|eapply P3; eauto; lia].
        assert (j < n)%nat by (apply nth_lt in Ej; rewrite <- (Hn vs') by (eapply nth_error_In; exact Ei); exact Ej).
        left. nia.
Qed.

(** When SetupSubcell succeeds. *)
Definition face_ready (g : geo) (icell iv f : nat) : Prop :=
  exists x n a vs p, nth_error (g_fc g) f = Some x /\ nth_error (g_fn g) f = Some n /\ nth_error (g_fa g) f = Some a /\
    nth_error (g_fverts g) f = Some vs /\ neighbours vs iv = Ok p /\
    (exists y z, nth_error (g_vx g) (fst p) = Some y /\ nth_error (g_vx g) (snd p) = Some z) /\
    exists o, other_point g icell f = Ok o.
Lemma face_ready_ok : forall g icell iv cen vtx vol f, face_ready g icell iv f ->
  (exists x, rd (g_fc g) f = Ok x) /\ (exists c, subface_centroid g vtx iv f = Ok c) /\
  (exists a, subface_area g f = Ok a) /\ exists t, nu_star g icell cen vol f = Ok t.
Proof.
  intros g icell iv cen vtx vol f [x [n [a [vs [p [Hx [Hn [Ha [Hv [Hp [[y [z [Hy Hz]]] [o Ho]]]]]]]]]]]].
  unfold subface_centroid, subface_area, nu_star.
  rewrite Ho, (rd_some _ _ _ Hx), (rd_some _ _ _ Hn), (rd_some _ _ _ Ha), (rd_some _ _ _ Hv). cbn [bind].
  rewrite Hp. cbn [bind]. rewrite (rd_some _ _ _ Hy), (rd_some _ _ _ Hz). cbn [bind]. eauto 10.
Qed.
Lemma setup_oriented : forall g icell iv cen vtx l a b c f0 f1 f2,
  nth_error (g_cc g) icell = Some cen -> nth_error (g_vx g) iv = Some vtx -> nth_error (g_vfaces g) iv = Some l ->
  common_faces g (Z.of_nat icell) l [] = Ok ([a; b; c], 3%nat) -> orient g cen vtx a b c = Ok (f0, f1, f2) ->
  face_ready g icell iv f0 -> face_ready g icell iv f1 -> face_ready g icell iv f2 ->
  exists s, SetupSubcell g icell iv = Ok s /\ s_faces s = (f0, f1, f2).
Proof.
  intros g icell iv cen vtx l a b c f0 f1 f2 Hc Hv Hl Hf Eo R0 R1 R2. unfold SetupSubcell.
  rewrite (rd_some _ _ _ Hc), (rd_some _ _ _ Hv), (rd_some _ _ _ Hl). cbn [bind]. rewrite Hf. cbn [bind].
  rewrite Eo. cbn [bind].
  destruct (face_ready_ok g icell iv cen vtx 0 f0 R0) as [[x0 E0] [[c0 Ec0] [[a0 Ea0] _]]].
  destruct (face_ready_ok g icell iv cen vtx 0 f1 R1) as [[x1 E1] [[c1 Ec1] [[a1 Ea1] _]]].
  destruct (face_ready_ok g icell iv cen vtx 0 f2 R2) as [[x2 E2] [[c2 Ec2] [[a2 Ea2] _]]].
  rewrite E0, E1, E2. cbn [bind]. rewrite Ec0, Ec1, Ec2, Ea0, Ea1, Ea2. cbn [bind].
  set (vol := ComputeVolumeOfTetrahedron cen x0 x1 x2).
  destruct (face_ready_ok g icell iv cen vtx vol f0 R0) as [_ [_ [_ [t0 Et0]]]].
  destruct (face_ready_ok g icell iv cen vtx vol f1 R1) as [_ [_ [_ [t1 Et1]]]].
  destruct (face_ready_ok g icell iv cen vtx vol f2 R2) as [_ [_ [_ [t2 Et2]]]].
  rewrite Et0, Et1, Et2. cbn [bind]. eauto.
Qed.
Lemma setup_ready : forall g icell iv cen vtx l a b c,
  nth_error (g_cc g) icell = Some cen -> nth_error (g_vx g) iv = Some vtx -> nth_error (g_vfaces g) iv = Some l ->
  common_faces g (Z.of_nat icell) l [] = Ok ([a; b; c], 3%nat) ->
  face_ready g icell iv a -> face_ready g icell iv b -> face_ready g icell iv c ->
  exists s, SetupSubcell g icell iv = Ok s.
Proof.
  intros g icell iv cen vtx l a b c Hc Hv Hl Hf Ra Rb Rc.
  assert (exists f0 f1 f2, orient g cen vtx a b c = Ok (f0, f1, f2) /\ face_ready g icell iv f0 /\ face_ready g icell iv f1 /\ face_ready g icell iv f2) as [f0 [f1 [f2 [Eo [R0 [R1 R2]]]]]].
  { destruct (face_ready_ok g icell iv cen vtx 0 a Ra) as [[xa Ea] _].
    destruct (face_ready_ok g icell iv cen vtx 0 b Rb) as [[xb Eb] _].
    destruct (face_ready_ok g icell iv cen vtx 0 c Rc) as [[xc Ec] _].
    unfold orient. rewrite Ea, Eb, Ec. cbn [bind].
    match goal with |- context [Rlt_dec ?x 0] => destruct (Rlt_dec x 0) end; do 3 eexists; (split; [reflexivity|auto]). }
  destruct (setup_oriented g icell iv cen vtx l a b c f0 f1 f2) as [s [E _]]; eauto.
Qed.

(** A vertex that has more or fewer than three faces in common with the cell. *)
Lemma common_total : forall g cell l got, Forall (fun f => (f < length (g_fcells g))%nat) l -> (length got <= 3)%nat ->
  exists r n, common_faces g (Z.of_nat cell) l got = Ok (r, n) /\
    (n = 3%nat -> (length got + length (filter (touches g cell) l) = 3)%nat).
Proof.
  intros g cell; induction l as [|f l IH]; intros got Hl Hg; simpl.
  - exists got, (length got). split; [reflexivity|lia].
  - inversion Hl as [|? ? Hf Hl']; subst. destruct (rd_ok _ _ Hf) as [c [E1 E2]]. rewrite E1. cbn [bind].
    unfold touches at 1. rewrite E2. destruct ((fst c =? Z.of_nat cell)%Z || (snd c =? Z.of_nat cell)%Z) eqn:Ec.
    + destruct (length got =? 3)%nat eqn:E3.
      * exists got, 4%nat. split; [reflexivity|discriminate].
      * apply Nat.eqb_neq in E3. destruct (IH (got ++ [f])) as [r [n [H1 H2]]]; [exact Hl'|rewrite app_length; simpl; lia|].
        exists r, n. split; [exact H1|]. intros Hn. specialize (H2 Hn). rewrite app_length in H2. simpl in *. lia.
    + destruct (IH got Hl' Hg) as [r [n [H1 H2]]]. exists r, n. auto.
Qed.
Lemma not_three_ub : forall g icell iv cen vtx l,
  nth_error (g_cc g) icell = Some cen -> nth_error (g_vx g) iv = Some vtx -> nth_error (g_vfaces g) iv = Some l ->
  Forall (fun f => (f < length (g_fcells g))%nat) l -> length (filter (touches g icell) l) <> 3%nat ->
  SetupSubcell g icell iv = UB.
Proof.
  intros g icell iv cen vtx l Hc Hv Hl Hf Hn. unfold SetupSubcell.
  rewrite (rd_some _ _ _ Hc), (rd_some _ _ _ Hv), (rd_some _ _ _ Hl). cbn [bind].
  destruct (common_total g icell l [] Hf) as [r [n [E H]]]; [simpl; lia|]. rewrite E. cbn [bind].
  destruct r as [|a [|b [|c [|]]]]; try reflexivity.
  destruct n as [|[|[|[|]]]]; try reflexivity. exfalso. apply Hn. exact (H eq_refl).
Qed.

(** * Two-point G matrices *)
Lemma ComputeLength_sym : forall a b, ComputeLength a b = ComputeLength b a.
Proof.
  intros [a0 a1 a2] [b0 b1 b2]. unfold ComputeLength. cbn [vx vy vz]. f_equal. ring.
Qed.
Lemma unit_value : forall a, a <> V3 0 0 0 -> ConvertToUnitVector a = Some (vscale (/ length3 a) a).
Proof.
  intros [x y z] H. unfold ConvertToUnitVector. rewrite Norm_ok. cbn [fbind vx vy vz].
  assert (Hl : length3 (V3 x y z) <> 0).
  { intros E. apply H. unfold length3 in E. apply sqrt_eq_0 in E; unfold dot in *; cbn [vx vy vz] in *; [|nra].
    assert (x = 0) by nra. assert (y = 0) by nra. assert (z = 0) by nra. subst. reflexivity. }
  rewrite !fdiv_ok by exact Hl. cbn [fbind]. unfold vscale. cbn [vx vy vz]. f_equal. f_equal; field; exact Hl.
Qed.
Lemma length_pos : forall a, a <> V3 0 0 0 -> 0 < length3 a.
Proof.
  intros [x y z] H. unfold length3. apply sqrt_lt_R0. unfold dot. cbn [vx vy vz].
  destruct (Req_dec x 0) as [->|]; [|nra]. destruct (Req_dec y 0) as [->|]; [|nra]. destruct (Req_dec z 0) as [->|]; [|nra].
  contradiction H; reflexivity.
Qed.
Lemma length_neg : forall a b, length3 (vsub a b) = length3 (vsub b a).
Proof. intros [a0 a1 a2] [b0 b1 b2]. unfold length3, dot, vsub. cbn [vx vy vz]. f_equal. ring. Qed.
Lemma ComputeLength_value : forall a b, ComputeLength a b = Some (length3 (vsub a b)).
Proof.
  intros [a0 a1 a2] [b0 b1 b2]. unfold ComputeLength, length3, dot, vsub. cbn [vx vy vz].
  rewrite fsqrt_ok by (repeat apply Rplus_le_le_0_compat; apply pow2_ge_0). f_equal. f_equal. ring.
Qed.
Lemma joining_value : forall a b, a <> b -> UnitNormalVectorJoining a b = Some (vscale (/ length3 (vsub b a)) (vsub b a)).
Proof.
  intros [a0 a1 a2] [b0 b1 b2] H. unfold UnitNormalVectorJoining.
  change (VecJoining (V3 a0 a1 a2) (V3 b0 b1 b2)) with (vsub (V3 b0 b1 b2) (V3 a0 a1 a2)). apply unit_value.
  unfold vsub. cbn [vx vy vz]. intros E. injection E as E1 E2 E3. apply H. f_equal; lra.
Qed.
Lemma joining_same : forall a, UnitNormalVectorJoining a a = None.
Proof.
  intros [a0 a1 a2]. unfold UnitNormalVectorJoining, VecJoining. cbn [vx vy vz].
  replace (a0 - a0) with 0 by ring. replace (a1 - a1) with 0 by ring. replace (a2 - a2) with 0 by ring. apply unit_vector_zero.
Qed.
Definition opp (u : v3) : v3 := V3 (- vx u) (- vy u) (- vz u).
Lemma joining_flip : forall a b u, UnitNormalVectorJoining a b = Some u -> UnitNormalVectorJoining b a = Some (opp u).
Proof.
  intros a b u H. assert (Hab : a <> b) by (intros ->; rewrite joining_same in H; discriminate).
  rewrite joining_value in H by exact Hab. injection H as <-. rewrite joining_value by congruence.
  rewrite (length_neg a b). destruct a as [a0 a1 a2], b as [b0 b1 b2]. unfold opp, vscale, vsub. cbn [vx vy vz]. f_equal. f_equal; ring.
Qed.
Lemma directional_flip : forall K u, directional K (opp u) = directional K u.
Proof.
  intros K [x y z]. unfold directional, opp. cbn [vx vy vz].
  replace ((- x) ^ 2) with (x ^ 2) by ring. replace ((- y) ^ 2) with (y ^ 2) by ring. replace ((- z) ^ 2) with (z ^ 2) by ring. reflexivity.
Qed.
Lemma dot_flip : forall n u, DotProduct n (opp u) = - DotProduct n u.
Proof. intros [a0 a1 a2] [b0 b1 b2]. unfold DotProduct, opp. cbn [vx vy vz]. ring. Qed.
Lemma fdiv_opp : forall a b, fdiv (- a) b = fl1 Ropp (fdiv a b).
Proof. intros a b. unfold fdiv. destruct (Req_EM_T b 0); [reflexivity|]. unfold fl1. cbn [fbind]. f_equal. field. assumption. Qed.
Lemma tpf_opposite_ok : forall area n xA xB KA KB,
  tpf_G area n xA xB true KB KA = fl1 Ropp (tpf_G area n xB xA true KA KB).
Proof.
  intros area n xA xB KA KB. unfold tpf_G, half_dist. rewrite (ComputeLength_sym xA xB), ComputeLength_value.
  unfold fl1 at 1 3. cbn [fbind].
  destruct (UnitNormalVectorJoining xB xA) as [u|] eqn:E.
  - rewrite (joining_flip _ _ _ E), !directional_flip, dot_flip.
    destruct (directional KA u) as [kA|]; destruct (directional KB u) as [kB|]; cbn [fbind]; try reflexivity.
    rewrite <- fdiv_opp. f_equal. ring.
  - assert (Hab : xB = xA).
    { destruct xA as [a0 a1 a2], xB as [b0 b1 b2]. destruct (Req_dec a0 b0) as [->|N0]; [|rewrite joining_value in E by congruence; discriminate].
      destruct (Req_dec a1 b1) as [->|N1]; [|rewrite joining_value in E by congruence; discriminate].
      destruct (Req_dec a2 b2) as [->|N2]; [|rewrite joining_value in E by congruence; discriminate]. reflexivity. }
    subst. rewrite joining_same. reflexivity.
Qed.
Lemma unit_norm : forall d, d <> V3 0 0 0 -> dot (vscale (/ length3 d) d) (vscale (/ length3 d) d) = 1.
Proof.
  intros d H. pose proof (length_pos d H) as Hp. unfold dot, vscale. cbn [vx vy vz].
  replace (/ length3 d * vx d * (/ length3 d * vx d) + / length3 d * vy d * (/ length3 d * vy d) + / length3 d * vz d * (/ length3 d * vz d))
    with ((/ length3 d) ^ 2 * dot d d) by (unfold dot; ring).
  assert (dot d d = length3 d ^ 2).
  { unfold length3. rewrite <- Rsqr_pow2, Rsqr_sqrt; [reflexivity|]. unfold dot. nra. }
  rewrite H0. field. lra.
Qed.
Lemma directional_iso : forall k u, k <> 0 -> dot u u = 1 -> directional (isotropic k) u = Some k.
Proof.
  intros k [x y z] Hk Hu. unfold directional, isotropic. cbn [m0 m4 m8 vx vy vz]. rewrite !fdiv_ok by exact Hk. cbn [fbind].
  unfold dot in Hu. cbn [vx vy vz] in Hu.
  replace (0 + x ^ 2 / k + y ^ 2 / k + z ^ 2 / k) with (/ k).
  - rewrite fdiv_ok by (apply Rinv_neq_0_compat; exact Hk). f_equal. field. exact Hk.
  - transitivity ((x * x + y * y + z * z) / k); [rewrite Hu; field; exact Hk|field; exact Hk].
Qed.
Lemma vsub_zero : forall a b, a <> b -> vsub a b <> V3 0 0 0.
Proof. intros [a0 a1 a2] [b0 b1 b2] H E. unfold vsub in E. cbn [vx vy vz] in E. injection E as E1 E2 E3. apply H. f_equal; lra. Qed.
Lemma tpf_value : forall area n xA xB kA kB, kA <> 0 -> kB <> 0 -> xA <> xB ->
  vsub xB xA = vscale (length3 (vsub xB xA)) n ->
  tpf_G area n xB xA true (isotropic kA) (isotropic kB) =
    Some (- (area * ((kA + kB) / 2) / (length3 (vsub xB xA) / 2))).
Proof.
  intros area n xA xB kA kB HA HB Hx Hn. pose proof (vsub_zero _ _ (not_eq_sym Hx)) as Hz.
  pose proof (length_pos _ Hz) as Hp. set (L := length3 (vsub xB xA)) in *.
  unfold tpf_G, half_dist. rewrite ComputeLength_value. fold L. unfold fl1. cbn [fbind].
  rewrite joining_value by congruence.
  assert (Hu : dot (vscale (/ length3 (vsub xA xB)) (vsub xA xB)) (vscale (/ length3 (vsub xA xB)) (vsub xA xB)) = 1).
  { apply unit_norm. apply vsub_zero. exact Hx. }
  rewrite !directional_iso by assumption. cbn [fbind].
  assert (Hd : DotProduct n (vscale (/ length3 (vsub xA xB)) (vsub xA xB)) = - 1).
  { rewrite (length_neg xA xB). fold L.
    assert (Hn1 : n = vscale (/ L) (vsub xB xA)).
    { rewrite Hn. destruct n as [n0 n1 n2]. unfold vscale. cbn [vx vy vz]. f_equal; field; lra. }
    assert (H1 : dot n n = 1) by (rewrite Hn1; apply unit_norm; exact Hz).
    transitivity (- dot n n); [|rewrite H1; ring].
    rewrite Hn1 at 2. destruct n as [n0 n1 n2], xA as [a0 a1 a2], xB as [b0 b1 b2]. unfold DotProduct, dot, vscale, vsub. cbn [vx vy vz]. ring_simplify.
    ring. }
  rewrite Hd. rewrite fdiv_ok by lra. f_equal. field. lra.
Qed.
Lemma two_point_flux : forall s f G p pi, two_point s f G -> side_flux s f p pi = G * (p - pi (sf_unk f)).
Proof.
  intros [[f0 f1] f2] f G p pi H. unfold side_flux. destruct H as [[-> E]|[[-> E]|[-> E]]]; rewrite E; ring.
Qed.
Lemma two_point_proof : forall b ncells v X l P, well_numbered v -> lapack_answer b v X -> NonCornerVertex b ncells v (Some X) = Ok l ->
  forall a s f A a' s' f' B row G, nth_error (v_sub v) a = Some s -> In f (sfaces s) -> nth_error (v_cells v) a = Some A ->
    nth_error (v_sub v) a' = Some s' -> In f' (sfaces s') -> nth_error (v_cells v) a' = Some B ->
    sf_internal f = true -> sf_internal f' = true -> sf_flux f = sf_flux f' ->
    two_point s f G -> two_point s' f' (- G) -> nth_error (v_rows v) (sf_flux f) = Some row ->
    mult l P row = G * (P A - P B) / 2.
Proof.
  intros b ncells v X l P Hv HX Hl a s f A a' s' f' B row G Ha Hf HA Ha' Hf' HB I1 I2 E T1 T2 Hr.
  destruct (continuity_proof b ncells v X l P Hv HX Hl) as [pi [_ [QF _]]].
  assert (P1 : place v f = sf_flux f) by (unfold place, is_bnd; rewrite I1; reflexivity).
  assert (P2 : place v f' = sf_flux f) by (unfold place, is_bnd; rewrite I2, E; reflexivity).
  pose proof (QF a s f A row Ha Hf HA ltac:(rewrite P1; exact Hr)) as F1.
  pose proof (QF a' s' f' B row Ha' Hf' HB ltac:(rewrite P2; exact Hr)) as F2.
  rewrite (two_point_flux _ _ _ _ _ T1) in F1. rewrite (two_point_flux _ _ _ _ _ T2) in F2.
  destruct (wn_inner v Hv f) as [U1 _]; [exact (face_in v a s f Ha Hf)|exact I1|].
  destruct (wn_inner v Hv f') as [U2 _]; [exact (face_in v a' s' f' Ha' Hf')|exact I2|].
  rewrite U1 in F1. rewrite U2, <- E in F2. lra.
Qed.
(** The temperature's entry: the normal is multiplied by kappa times (1,1,1). *)
Lemma heat_value : forall g icell cen vol f other inside n u dist area Kappa st,
  other_point g icell f = Ok (other, inside) -> nth_error (g_fn g) f = Some n ->
  UnitNormalVectorJoining other cen = Some u -> half_dist other cen inside = Some dist -> dist <> 0 -> vol <> 0 ->
  nu_star g icell cen vol f = Ok (Some st) ->
  tpf_heat_G area n Kappa st (vol * 6) =
    Some (area * dot n u * dot n (mat_vec Kappa (V3 1 1 1)) / dist).
Proof.
  intros g icell cen vol f other inside n u dist area Kappa st Ho Hn Hu Hd Hd0 Hv H.
  unfold nu_star in H. rewrite Ho, (rd_some _ _ _ Hn) in H. cbn [bind fst snd] in H. rewrite Hd, Hu in H. cbn [fbind] in H.
  rewrite fdiv_ok in H by exact Hd0. injection H as <-.
  unfold tpf_heat_G, EntryOfG. rewrite fdiv_ok by lra. cbn [fbind]. f_equal.
  destruct n, u, Kappa. vec. field. split; [exact Hd0|lra].
Qed.
Lemma star_ok : forall g icell cen vol f other inside n u dist,
  other_point g icell f = Ok (other, inside) -> nth_error (g_fn g) f = Some n ->
  UnitNormalVectorJoining other cen = Some u -> half_dist other cen inside = Some dist -> dist <> 0 ->
  nu_star g icell cen vol f = Ok (Some (DotProduct n u * vol * 6 / dist)).
Proof.
  intros g icell cen vol f other inside n u dist Ho Hn Hu Hd Hd0.
  unfold nu_star. rewrite Ho, (rd_some _ _ _ Hn). cbn [bind fst snd]. rewrite Hd, Hu. cbn [fbind].
  rewrite fdiv_ok by exact Hd0. reflexivity.
Qed.
