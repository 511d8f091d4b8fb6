(** More proofs about the gravity term: what it balances, and where it is stored. *)
From Coq Require Import Reals List Bool Arith ZArith Lia Lra.
From Verif Require Import Prelude Arrays SpecFvtpf Geom SpecGeom GeomProofs Mpfao SpecMpfao MpfaoProofs Subcell SpecSubcell SubcellProofs SubcellStoreProofs SubcellMoreProofs Transport UGrid MeshFacesTables Gravity SpecGravity GravityProofs.
Import ListNotations.
Local Open Scope R_scope.

(** ** Where the terms are stored *)
Section Store.
Variable m : gmesh.
Variable how : gmethod.
Variable bc : bctype.
Variable gr : v3.

Lemma skipped_none : forall iv f c, nth_error (g_fcells (q_geo m)) f = Some c -> bc = NeumannBC -> ((fst c < 0)%Z \/ (snd c < 0)%Z) ->
  grav_dis m how bc gr iv f = Ok None.
Proof.
  intros iv f c Hc -> H. unfold grav_dis. rewrite (rd_some _ _ _ Hc). cbn [bind andb].
  destruct (Z.ltb_spec (fst c) 0), (Z.ltb_spec (snd c) 0); try reflexivity. lia.
Qed.
Lemma not_skipped : forall iv f x, grav_dis m how bc gr iv f = Ok (Some x) ->
  exists c, nth_error (g_fcells (q_geo m)) f = Some c /\ (bc = NeumannBC -> (0 <= fst c)%Z /\ (0 <= snd c)%Z).
Proof.
  intros iv f x H. unfold grav_dis in H. unfold rd in H at 1. destruct (nth_error (g_fcells (q_geo m)) f) as [c|] eqn:Hc; [|discriminate].
  exists c. split; [reflexivity|]. intros ->. cbn [bind andb] in H.
  destruct (Z.ltb_spec (fst c) 0), (Z.ltb_spec (snd c) 0); try discriminate H. lia.
Qed.
Lemma skipped_inv : forall iv f, grav_dis m how bc gr iv f = Ok None ->
  forall c, nth_error (g_fcells (q_geo m)) f = Some c -> bc = NeumannBC /\ ((fst c < 0)%Z \/ (snd c < 0)%Z).
Proof.
  intros iv f H c Hc. unfold grav_dis in H. rewrite (rd_some _ _ _ Hc) in H. cbn [bind] in H.
  destruct (match bc with NeumannBC => true | _ => false end && ((fst c <? 0) || (snd c <? 0))%Z)%bool eqn:B.
  - apply andb_true_iff in B. destruct B as [B1 B2]. split; [destruct bc; congruence|].
    apply orb_true_iff in B2. destruct B2 as [B2|B2]; apply Z.ltb_lt in B2; auto.
  - exfalso. repeat match type of H with bind ?e _ = _ => destruct e; [|discriminate|discriminate]; cbn [bind] in H end.
    discriminate.
Qed.

(** What holds of the vector when the terms of [done] have been stored. *)
Definition stored (vec : list fl) (done : nat -> nat -> Prop) (vec' : list fl) : Prop :=
  length vec' = length vec /\
  (forall i, (forall iv j f, done iv j -> ~ term_at m bc iv j f i) -> nth_error vec' i = nth_error vec i) /\
  (forall iv j f i, done iv j -> term_at m bc iv j f i -> exists x, grav_dis m how bc gr iv f = Ok (Some x) /\ nth_error vec' i = Some x).

Hypothesis HD : subs_distinct m.
Lemma term_unique : forall iv j f i iv' j' f', term_at m bc iv j f i -> term_at m bc iv' j' f' i -> iv = iv' /\ f = f'.
Proof.
  intros iv j f i iv' j' f' [_ [_ [_ [fs [su [s [A1 [A2 [A3 [A4 A5]]]]]]]]]] [_ [_ [_ [fs' [su' [s' [B1 [B2 [B3 [B4 B5]]]]]]]]]].
  destruct HD as [H4 HU]. assert (s < 4)%nat by (eapply H4; [exact A2|eapply nth_error_In, A4]).
  assert (s' < 4)%nat by (eapply H4; [exact B2|eapply nth_error_In, B4]).
  assert (f = f') by lia. assert (s = s') by lia. subst f' s'. split; [|reflexivity].
  eapply HU; eassumption.
Qed.

Definition before (iv j : nat) (iv' j' : nat) : Prop := (iv' < iv)%nat \/ (iv' = iv /\ (j' < j)%nat).

Lemma stored_weaker : forall vec (d d' : nat -> nat -> Prop) cur, stored vec d cur ->
  (forall iv j, d iv j -> d' iv j) -> (forall iv j f i, d' iv j -> term_at m bc iv j f i -> d iv j) -> stored vec d' cur.
Proof.
  intros vec d d' cur [L [O1 O2]] H1 H2. split; [exact L|]. split.
  - intros i Hi. apply O1. intros iv j f B. apply Hi, H1, B.
  - intros iv j f i B T. eapply O2; [|exact T]. eapply H2; eassumption.
Qed.

Lemma face_step : forall vec iv fs su j cur cur', nth_error (q_vlocal m) iv = Some true ->
  nth_error (g_vfaces (q_geo m)) iv = Some fs -> nth_error (q_vsubs m) iv = Some su -> (j < length fs)%nat ->
  stored vec (before iv j) cur -> grav_face m how bc gr iv fs su j cur = Ok cur' ->
  stored vec (before iv (S j)) cur'.
Proof.
  intros vec iv fs su j cur cur' Hl Hfs Hsu Hj ST H. unfold grav_face in H.
  destruct (rd_ok fs j Hj) as [f [E Ef]]. rewrite E in H. cbn [bind] in H.
  unfold rd in H at 1. destruct (nth_error (q_flocal m) f) as [loc|] eqn:El; [|discriminate]. cbn [bind] in H.
  assert (Keep : (forall i, ~ term_at m bc iv j f i) -> cur' = cur -> stored vec (before iv (S j)) cur').
  { intros N ->. eapply stored_weaker; [exact ST| |].
    - intros iv' j' B. unfold before in *. lia.
    - intros iv' j' f' i B T. unfold before in *. destruct (Nat.eq_dec iv' iv) as [->|]; [|lia]. destruct (Nat.eq_dec j' j) as [->|]; [|lia].
      exfalso. pose proof T as [_ [_ [_ [fs' [su' [s' [B1 [_ [B3 _]]]]]]]]].
      rewrite Hfs in B1. injection B1 as <-. rewrite Ef in B3. injection B3 as <-. exact (N i T). }
  destruct loc; cbn [negb] in H.
  2:{ injection H as <-. apply Keep; [|reflexivity]. intros i [_ [T _]]. congruence. }
  destruct (grav_dis m how bc gr iv f) as [[x|]| |] eqn:Eg; cbn [bind] in H; try discriminate.
  2:{ injection H as <-. apply Keep; [|reflexivity]. intros i [_ [_ [[c [Hc Hb]] _]]].
      destruct (skipped_inv _ _ Eg c Hc) as [Hn Hs]. specialize (Hb Hn). lia. }
  unfold rd in H at 1. destruct (nth_error su j) as [s|] eqn:Es; [|discriminate]. cbn [bind] in H.
  apply wr_inv in H. destruct H as [Hlt ->].
  assert (T : term_at m bc iv j f (f * 4 + s)).
  { split; [exact Hl|]. split; [exact El|]. split; [eapply not_skipped; exact Eg|]. exists fs, su, s. auto. }
  destruct ST as [L [O1 O2]].
  split; [rewrite length_upd; exact L|]. split.
  - intros i Hi. rewrite nth_upd_other.
    + apply O1. intros iv' j' f' B. apply Hi. unfold before in *. lia.
    + intros <-. apply (Hi iv j f); [|exact T]. unfold before. lia.
  - intros iv' j' f' i B T'. destruct (Nat.eq_dec (f * 4 + s) i) as [<-|Hne].
    + destruct (term_unique _ _ _ _ _ _ _ T T') as [<- <-]. exists x. split; [exact Eg|]. apply nth_upd_same. exact Hlt.
    + rewrite nth_upd_other by exact Hne. apply (O2 iv' j' f' i); [|exact T'].
      unfold before in *. destruct (Nat.eq_dec iv' iv) as [->|]; [|lia]. destruct (Nat.eq_dec j' j) as [->|]; [|lia].
      exfalso. destruct T' as [_ [_ [_ [fs' [su' [s' [B1 [B2 [B3 [B4 B5]]]]]]]]]].
      rewrite Hfs in B1. injection B1 as <-. rewrite Hsu in B2. injection B2 as <-. rewrite Ef in B3. injection B3 as <-.
      rewrite Es in B4. injection B4 as <-. congruence.
Qed.

Theorem places_proof : forall vec vec', GravityDiscretization m how bc gr vec = Ok vec' ->
  length vec' = length vec /\
  (forall i, (forall iv j f, ~ term_at m bc iv j f i) -> nth_error vec' i = nth_error vec i) /\
  (forall iv j f i, term_at m bc iv j f i -> exists x, grav_dis m how bc gr iv f = Ok (Some x) /\ nth_error vec' i = Some x).
Proof.
  intros vec vec' H. unfold GravityDiscretization in H.
  assert (S0 : stored vec (before (length (q_vlocal m)) 0) vec').
  { refine (for_preserves (fun iv cur => stored vec (before iv 0) cur) _ _ _ _ H _ _).
    - split; [reflexivity|]. split; [reflexivity|]. intros iv j f i [B|[_ B]]; lia.
    - clear H. intros iv cur cur' Hiv ST H. destruct (rd_ok _ _ Hiv) as [loc [E El]]. rewrite E in H. cbn [bind] in H.
      destruct loc; cbn [negb] in H.
      + unfold rd in H at 1. destruct (nth_error (g_vfaces (q_geo m)) iv) as [fs|] eqn:Hfs; [|discriminate]. cbn [bind] in H.
        unfold rd in H at 1. destruct (nth_error (q_vsubs m) iv) as [su|] eqn:Hsu; [|discriminate]. cbn [bind] in H.
        assert (S1 : stored vec (before iv (length fs)) cur').
        { refine (for_preserves (fun j c => stored vec (before iv j) c) _ _ _ _ H ST _).
          intros j c c' Hj S1 Hs. eapply face_step; eassumption. }
        eapply stored_weaker; [exact S1| |].
        * intros iv' j' B. unfold before in *. lia.
        * intros iv' j' f i B T. unfold before in *. destruct (Nat.eq_dec iv' iv) as [->|]; [|lia]. right. split; [reflexivity|].
          destruct T as [_ [_ [_ [fs' [su' [s' [B1 [_ [B3 _]]]]]]]]]. rewrite Hfs in B1. injection B1 as <-. eapply nth_lt, B3.
      + injection H as <-. eapply stored_weaker; [exact ST| |].
        * intros iv' j' B. unfold before in *. lia.
        * intros iv' j' f i B T. unfold before in *. destruct (Nat.eq_dec iv' iv) as [->|]; [|lia]. destruct T as [T _]. congruence. }
  destruct S0 as [L [O1 O2]]. split; [exact L|]. split.
  - intros i Hi. apply O1. intros iv j f _. apply Hi.
  - intros iv j f i T. eapply O2; [|exact T]. left. destruct T as [T _]. eapply nth_lt, T.
Qed.
End Store.

Theorem complete_proof : forall m how bc gr vec, tables m ->
  (forall iv j f i, term_at m bc iv j f i -> (i < length vec)%nat /\ exists x, grav_dis m how bc gr iv f = Ok (Some x)) ->
  exists vec', GravityDiscretization m how bc gr vec = Ok vec'.
Proof.
  intros m how bc gr vec [T1 [T2 [T3 T4]]] HG. unfold GravityDiscretization.
  destruct (for_inv (fun _ (cur : list fl) => length cur = length vec)) with (n := length (q_vlocal m)) (s := vec)
    (body := fun iv vec0 => do loc <- rd (q_vlocal m) iv;
    if negb loc then Ok vec0
    else
      do fs <- rd (g_vfaces (q_geo m)) iv;
      do subs <- rd (q_vsubs m) iv;
      for_ (length fs) (grav_face m how bc gr iv fs subs) vec0) as [v [E _]]; [reflexivity| |exists v; exact E].
  intros iv cur Hiv Lc. destruct (rd_ok _ _ Hiv) as [loc [E El]]. rewrite E. cbn [bind].
  destruct loc; cbn [negb]; [|exists cur; split; [reflexivity|exact Lc]].
  destruct (rd_ok (g_vfaces (q_geo m)) iv) as [fs [E1 Hfs]]; [lia|]. rewrite E1. cbn [bind].
  destruct (rd_ok (q_vsubs m) iv) as [su [E2 Hsu]]; [lia|]. rewrite E2. cbn [bind].
  apply (for_inv (fun _ (cur : list fl) => length cur = length vec)); [exact Lc|].
  intros j c Hj Lj. unfold grav_face. destruct (rd_ok fs j Hj) as [f [Ef Hf]]. rewrite Ef. cbn [bind].
  destruct (T4 iv fs f Hfs (nth_error_In _ _ Hf)) as [F1 F2].
  destruct (rd_ok (q_flocal m) f F1) as [fl0 [Efl Hfl]]. rewrite Efl. cbn [bind].
  destruct fl0; cbn [negb]; [|exists c; split; [reflexivity|exact Lj]].
  destruct (rd_ok (g_fcells (q_geo m)) f F2) as [cc [_ Hcc]].
  destruct (rd_ok su j) as [s [Es Hs]]; [rewrite (T3 iv fs su Hfs Hsu); exact Hj|].
  assert (D : (bc = NeumannBC /\ ((fst cc < 0)%Z \/ (snd cc < 0)%Z)) \/ (bc = NeumannBC -> (0 <= fst cc)%Z /\ (0 <= snd cc)%Z)).
  { destruct bc; try (right; discriminate). destruct (Z_lt_dec (fst cc) 0), (Z_lt_dec (snd cc) 0); try (left; tauto). right. lia. }
  destruct D as [[B1 B2]|D].
  - rewrite (skipped_none m how bc gr iv f cc Hcc B1 B2). cbn [bind]. exists c. split; [reflexivity|exact Lj].
  - destruct (HG iv j f (f * 4 + s)%nat) as [Hlt [x Hx]].
    { split; [exact El|]. split; [exact Hfl|]. split; [exists cc; auto|]. exists fs, su, s. auto. }
    rewrite Hx. cbn [bind]. rewrite Es. cbn [bind]. rewrite wr_ok by lia. eexists. split; [reflexivity|]. rewrite length_upd. exact Lj.
Qed.

(** ** The search for the sub-face *)
Lemma search_sound : forall m fuel k v f id, search m fuel k v f = Ok id ->
  (k <= id < k + fuel)%nat /\ nth_error (q_sfaces m) id = Some f /\ nth_error (q_sverts m) id = Some v.
Proof.
  intros m fuel. induction fuel as [|fuel IH]; intros k v f id H; [discriminate|]. cbn [search] in H.
  unfold rd in H at 1. destruct (nth_error (q_sfaces m) k) as [x|] eqn:Ex; [|discriminate]. cbn [bind] in H.
  destruct (Z.eqb_spec f x) as [->|Hne].
  - unfold rd in H at 1. destruct (nth_error (q_sverts m) k) as [y|] eqn:Ey; [|discriminate]. cbn [bind] in H.
    destruct (Z.eqb_spec v y) as [->|Hv].
    + injection H as <-. split; [lia|]. auto.
    + apply IH in H. destruct H as [H1 H2]. split; [lia|exact H2].
  - cbn [bind] in H. apply IH in H. destruct H as [H1 H2]. split; [lia|exact H2].
Qed.
Lemma search_complete : forall m fuel k v f id, (k <= id < k + fuel)%nat -> (k + fuel <= length (q_sfaces m))%nat -> (k + fuel <= length (q_sverts m))%nat ->
  nth_error (q_sfaces m) id = Some f -> nth_error (q_sverts m) id = Some v -> exists id', search m fuel k v f = Ok id'.
Proof.
  intros m fuel. induction fuel as [|fuel IH]; intros k v f id Hid L1 L2 F V; [lia|]. cbn [search].
  destruct (rd_ok (q_sfaces m) k) as [x [E Ex]]; [lia|]. rewrite E. cbn [bind].
  destruct (rd_ok (q_sverts m) k) as [y [E2 Ey]]; [lia|].
  destruct (Z.eqb_spec f x) as [->|Hne].
  - rewrite E2. cbn [bind]. destruct (Z.eqb_spec v y) as [->|Hv]; [eexists; reflexivity|].
    apply (IH (S k) v x id); auto; try lia. destruct (Nat.eq_dec id k) as [->|]; [|lia]. congruence.
  - cbn [bind]. apply (IH (S k) v f id); auto; try lia. destruct (Nat.eq_dec id k) as [->|]; [|lia]. congruence.
Qed.
Theorem subcell_proof : forall m c nv v f,
  nth_error (q_nv m) c = Some nv -> (c * (nv * 3) + nv * 3 <= length (q_sfaces m))%nat -> (c * (nv * 3) + nv * 3 <= length (q_sverts m))%nat ->
  forall id, (c * (nv * 3) <= id < c * (nv * 3) + nv * 3)%nat ->
  nth_error (q_sfaces m) id = Some (Z.of_nat f) -> nth_error (q_sverts m) id = Some (Z.of_nat v) ->
  (forall id', (c * (nv * 3) <= id' < c * (nv * 3) + nv * 3)%nat ->
     nth_error (q_sfaces m) id' = Some (Z.of_nat f) -> nth_error (q_sverts m) id' = Some (Z.of_nat v) -> id' = id) ->
  subcell_id m (Z.of_nat c) v f = Ok id.
Proof.
  intros m c nv v f Hn L1 L2 id Hid F V U. unfold subcell_id. rewrite (rdz_some (q_nv m) (Z.of_nat c) nv); [|lia|rewrite Nat2Z.id; exact Hn].
  cbn [bind]. rewrite Nat2Z.id. destruct (search_complete m (nv * 3) (c * (nv * 3)) (Z.of_nat v) (Z.of_nat f) id Hid L1 L2 F V) as [id' E].
  rewrite E. f_equal. apply search_sound in E. destruct E as [E1 [E2 E3]]. apply U; assumption.
Qed.

(** ** Water at rest *)
Lemma GtimesZ_vertical : forall gz u, GtimesZ (V3 0 0 gz) u = Rabs gz * vz u.
Proof. intros gz u. unfold GtimesZ. cbn [vx vy vz]. rewrite Rabs_R0. ring. Qed.
Lemma rest_linear : forall p0 rho gz x, at_rest p0 rho gz x = linear p0 (V3 0 0 (- (rho * Rabs gz))) x.
Proof. intros p0 rho gz x. unfold at_rest, linear, dot. cbn [vx vy vz]. ring. Qed.

Section Rest.
Variable m : gmesh.
Variable K : m3.
Variable iv : nat.
Variable v : vertex.
Variable face : nat -> nat.
Variables xf nrm : nat -> v3.
Variable ar : nat -> R.
Let g := q_geo m.
Hypothesis Hmesh : of_mesh g K iv v face.
Hypothesis Hcomp : complete g face v xf nrm ar.
Hypothesis HU : uniform m K.
Hypothesis HS : symmetric K.
Hypothesis HI : invertible K.
Variable ncells : nat.
Variable P : nat -> R.
Variable cc : nat -> v3.
Variables p0 rho gz : R.
Hypothesis Hcc : forall cell, In cell (v_cells v) -> nth_error (g_cc g) cell = Some (cc cell) /\ P cell = at_rest p0 rho gz (cc cell).
Variable b : bctype.
Variables (X : list R) (l : list entry).
Hypothesis W : well_numbered v.
Hypothesis RG : regular b v.
Hypothesis LA : lapack_answer b v X.
Hypothesis NC : NonCornerVertex b ncells v (Some X) = Ok l.
Hypothesis TS : two_sided v.
Hypothesis Hbd : b <> NeumannBC -> forall f, In f (all_faces v) -> sf_internal f = false ->
  P (sf_bnd f + ncells)%nat = at_rest p0 rho gz (xf (sf_unk f)).
Hypothesis Hbn : b = NeumannBC -> forall f, In f (all_faces v) -> sf_internal f = false ->
  ar (sf_unk f) * vz (mat_vec K (nrm (sf_unk f))) = 0.

Lemma rest_flux : forall f row, In f (all_faces v) -> nth_error (v_rows v) (place v f) = Some row ->
  mult l P row = - (ar (sf_unk f) * (rho * Rabs gz) * vz (mat_vec K (nrm (sf_unk f)))).
Proof.
  intros f row Hf Hr.
  assert (Y : forall n, dot n (mat_vec K (V3 0 0 (- (rho * Rabs gz)))) = - (rho * Rabs gz) * vz (mat_vec K n)).
  { intros n. destruct HS as [S1 [S2 S3]]. unfold dot, mat_vec. cbn [vx vy vz]. rewrite <- S2, <- S3. ring. }
  rewrite (patch_proof g K iv v face xf nrm ar Hmesh Hcomp ncells P cc p0 (V3 0 0 (- (rho * Rabs gz)))) with (b := b) (X := X) (f := f); auto.
  - rewrite Y. ring.
  - intros cell Hc. destruct (Hcc cell Hc) as [A B]. split; [exact A|]. rewrite <- rest_linear. exact B.
  - intros Hb h Hh Hi. rewrite <- rest_linear. exact (Hbd Hb h Hh Hi).
  - intros Hb h Hh Hi. rewrite Y. pose proof (Hbn Hb h Hh Hi) as Q.
    replace (ar (sf_unk h) * (- (rho * Rabs gz) * vz (mat_vec K (nrm (sf_unk h))))) with (- (rho * Rabs gz) * (ar (sf_unk h) * vz (mat_vec K (nrm (sf_unk h))))) by ring.
    rewrite Q. ring.
Qed.

Lemma rest_total : forall f row xu xd u, In f (all_faces v) -> nth_error (v_rows v) (place v f) = Some row ->
  sides g (face (sf_unk f)) xu xd -> unit_between xu xd u -> area_known m iv (face (sf_unk f)) (ar (sf_unk f)) ->
  (b = NeumannBC -> forall c, nth_error (g_fcells g) (face (sf_unk f)) = Some c -> (0 <= fst c)%Z /\ (0 <= snd c)%Z) ->
  exists G, grav_dis m DefaultG b (V3 0 0 gz) iv (face (sf_unk f)) = Ok (Some (Some G)) /\
    mult l P row + rho * G = ar (sf_unk f) * rho * Rabs gz * (dot (nrm (sf_unk f)) (mat_vec (cut K) u) * vz u - vz (mat_vec K (nrm (sf_unk f)))).
Proof.
  intros f row xu xd u Hf Hr Hs Hu Ha Hb. destruct (Hcomp f Hf) as [C1 [C2 _]].
  pose proof (value_uniform m _ _ _ _ _ _ _ HU HS HI Hs Hu C1 C2) as V.
  eexists. split; [eapply grav_default; eassumption|].
  rewrite (rest_flux f row Hf Hr), GtimesZ_vertical. ring.
Qed.

Theorem rest_proof : not_small K -> forall f row xu xd u kappa, In f (all_faces v) -> nth_error (v_rows v) (place v f) = Some row ->
  sides g (face (sf_unk f)) xu xd -> unit_between xu xd u -> area_known m iv (face (sf_unk f)) (ar (sf_unk f)) ->
  (b = NeumannBC -> forall c, nth_error (g_fcells g) (face (sf_unk f)) = Some c -> (0 <= fst c)%Z /\ (0 <= snd c)%Z) ->
  mat_vec K (nrm (sf_unk f)) = vscale kappa u ->
  exists G, grav_dis m DefaultG b (V3 0 0 gz) iv (face (sf_unk f)) = Ok (Some (Some G)) /\ mult l P row + rho * G = 0.
Proof.
  intros Hsm f row xu xd u kappa Hf Hr Hs Hu Ha Hb Hk. destruct (rest_total f row xu xd u Hf Hr Hs Hu Ha Hb) as [G [E1 E2]].
  exists G. split; [exact E1|]. rewrite E2, (cut_id K Hsm), Hk.
  assert (D : dot (nrm (sf_unk f)) (mat_vec K u) = dot (mat_vec K (nrm (sf_unk f))) u).
  { destruct HS as [S1 [S2 S3]]. unfold dot, mat_vec. cbn [vx vy vz]. rewrite <- S1, <- S2, <- S3. ring. }
  assert (U1 : dot u u = 1).
  { destruct Hu as [Hne E]. set (L := length3 (vsub xd xu)) in *.
    assert (LL : L * L = dot (vsub xd xu) (vsub xd xu)) by (unfold L, length3; apply sqrt_sqrt, dot_pos).
    assert (L0 : L <> 0).
    { intros Z. apply Hne. rewrite Z in E. destruct xu as [a0 b0 c0], xd as [d0 e0 f0]. unfold vsub, vscale in E. cbn [vx vy vz] in E.
      injection E as X1 X2 X3. f_equal; lra. }
    rewrite E in LL. replace (dot (vscale L u) (vscale L u)) with (L * L * dot u u) in LL by (unfold dot, vscale; cbn [vx vy vz]; ring).
    apply (Rmult_eq_reg_l (L * L)); [lra|]. apply Rmult_integral_contrapositive_currified; exact L0. }
  rewrite D, Hk. replace (dot (vscale kappa u) u) with (kappa * dot u u) by (unfold dot, vscale; cbn [vx vy vz]; ring).
  rewrite U1. unfold vscale. cbn [vz]. ring.
Qed.
End Rest.
