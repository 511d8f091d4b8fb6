(** Concrete meshes for the theorems of Prop_Transmit.v. *)
From Coq Require Import Reals ZArith List Bool Arith Lia Lra.
From Verif Require Import Prelude Arrays Mpfao MpfaoTs SpecFvtpf SpecMpfao SpecMpfaoTs FvtpfSumProofs MpfaoProofs MpfaoExamples Transmit SpecTransmit TransmitProofs.
Import ListNotations.
Local Open Scope R_scope.

(** A column of two cells, at one of the vertices between them: five faces, four of
    them on the boundary.  The same G matrices for every variable. *)
Definition col_mesh : mesh := mkMesh
  [mkFace 0 1 true; mkFace 0 (-1) true; mkFace 1 (-3) true; mkFace (-2) 0 true; mkFace (-4) 1 true]
  [mkRock 1 1 0 true; mkRock 1 1 0 true] [mkVert true [0; 1; 2; 3; 4]%nat [0; 0; 0; 0; 0]%nat [0; 1]%nat] DirichletBC 0.
Definition col_extra : extra := mkExtra 4 (fun _ => [ex_s0; ex_s1]) [].
Definition col_tmesh : tmesh := mkTmesh col_mesh [col_extra] [].

Lemma col_vertex : forall x, vertex_of (mkVert true [0; 1; 2; 3; 4]%nat [0; 0; 0; 0; 0]%nat [0; 1]%nat) col_extra x = ex_v.
Proof. reflexivity. Qed.
Lemma one_vertex : forall {A} (a : A) i x, nth_error [a] i = Some x -> i = 0%nat /\ x = a.
Proof. intros A a [|[|i]] x H; try discriminate. injection H as <-. auto. Qed.
Lemma col_subface : forall iv j v f a, subface col_mesh iv j = Some (v, f, a) -> iv = 0%nat /\ v = mkVert true [0; 1; 2; 3; 4]%nat [0; 0; 0; 0; 0]%nat [0; 1]%nat /\
  (j < 5)%nat /\ nth_error (faces col_mesh) j = Some f /\ a = (4 * j)%nat.
Proof.
  intros iv j v f a H. destruct iv as [|[|iv]]; try discriminate. split; [reflexivity|].
  destruct j as [|[|[|[|[|j]]]]]; try (cbn in H; injection H as <- <- <-; repeat split; lia). destruct j; discriminate.
Qed.
Lemma col_good : good_tmesh col_tmesh 2 5.
Proof.
  constructor; cbn [t_mesh col_tmesh t_extra].
  - reflexivity.
  - intros v [<-|[]]. simpl. lia.
  - intros v c [<-|[]] Hc. simpl in *. lia.
  - intros v [<-|[]]. split; [reflexivity|]. intros a Ha. simpl in *. lia.
  - intros iv j v f a iv' j' v' f' H H'. apply col_subface in H. apply col_subface in H'. lia.
  - intros iv v e x Hv He _. apply one_vertex in Hv. apply one_vertex in He. destruct Hv as [_ ->], He as [_ ->]. exact ex_well_numbered.
  - intros iv v e j f a He H. apply one_vertex in He. destruct He as [_ ->]. apply col_subface in H. destruct H as [_ [-> [Hj [Hf _]]]].
    destruct j as [|[|[|[|[|j]]]]]; [..|lia]; cbn in Hf; injection Hf as <-; simpl; lia.
  - intros iv v e Hv He [_ H]. apply one_vertex in Hv. destruct Hv as [_ ->]. simpl in H. lia.
Qed.
Definition col_X (_ : variable) (_ : nat) : option (list R) := Some ex_X.
Lemma col_answered : forall x, answered col_tmesh (col_X x).
Proof. intros x iv _. discriminate. Qed.
Lemma col_overrun : Setup TH col_tmesh 2 5 col_X = UB.
Proof. cbv -[Rplus Ropp Rminus Rmult Rinv Rdiv IZR]. reflexivity. Qed.

(** A cell at a corner; the faces of the vertex are in another order than those of
    the sub-cell: the same rotated. *)
Definition cor_sub : subcell :=
  (mkSface true 0 0 false 0 (1, 0, 0), mkSface true 1 1 false 1 (0, 2, 0), mkSface true 2 2 false 2 (0, 0, 3)).
Definition cor_vert (l : list nat) : vert := mkVert true l [0; 0; 0]%nat [0%nat].
Definition cor_mesh (b : bctype) (l : list nat) : mesh := mkMesh [mkFace 0 (-1) true; mkFace 0 (-2) true; mkFace 0 (-3) true] [mkRock 1 1 0 true] [cor_vert l] b 0.
Definition cor_extra : extra := mkExtra 3 (fun _ => [cor_sub]) [0; 1; 2]%nat.
Definition cor_tmesh (b : bctype) (l : list nat) : tmesh := mkTmesh (cor_mesh b l) [cor_extra] [[0%nat]; [0%nat]; [0%nat]].
Definition arrangement (l : list nat) : Prop := exists r0 r1 r2, perm3 r0 r1 r2 /\ l = [r0; r1; r2].
Lemma cor_subface : forall b l iv j v f a, arrangement l -> subface (cor_mesh b l) iv j = Some (v, f, a) -> iv = 0%nat /\ v = cor_vert l /\
  (j < 3)%nat /\ exists r, nth_error l j = Some r /\ nth_error (faces (cor_mesh b l)) r = Some f /\ a = (4 * r)%nat.
Proof.
  intros b l iv j v f a [r0 [r1 [r2 [Hp ->]]]] H. destruct iv as [|[|iv]]; try discriminate. split; [reflexivity|].
  unfold subface in H. cbn [verts cor_mesh nth_error cor_vert x_faces x_subs] in H.
  destruct j as [|[|[|j]]]; cbn [nth_error] in H; [..|destruct j; discriminate];
    (match type of H with match ?t with _ => _ end = _ => destruct t as [f'|] eqn:Ef; [|discriminate] end; injection H as <- <- <-;
     split; [reflexivity|]; split; [lia|]; eexists; split; [reflexivity|]; split; [exact Ef|lia]).
Qed.
Lemma cor_good : forall b l, arrangement l -> good_tmesh (cor_tmesh b l) 1 3.
Proof.
  intros b l Hl. pose proof Hl as Hsub. destruct Hl as [r0 [r1 [r2 [Hp El]]]]. pose proof Hp as Hp'. unfold perm3 in Hp'.
  assert (Hin : forall a, In a l <-> (a < 3)%nat).
  { intros a. rewrite El. simpl. lia. }
  assert (Hnd : NoDup l) by (rewrite El; repeat constructor; simpl; lia).
  constructor; cbn [t_mesh cor_tmesh t_extra].
  - reflexivity.
  - intros v [<-|[]]. simpl. rewrite El. simpl. lia.
  - intros v c [<-|[]] Hc. simpl in *. lia.
  - intros v [<-|[]]. cbn [x_faces x_subs cor_vert]. split; [rewrite El; reflexivity|]. intros a Ha. apply Hin in Ha. exact Ha.
  - intros iv j v f a iv' j' v' f' H H'. apply (cor_subface _ _ _ _ _ _ _ Hsub) in H. apply (cor_subface _ _ _ _ _ _ _ Hsub) in H'.
    destruct H as [-> [_ [_ [r [Hr [_ ->]]]]]], H' as [-> [_ [_ [r' [Hr' [_ E]]]]]]. split; [reflexivity|].
    assert (r = r') by lia. subst r'. apply (proj1 (NoDup_nth_error l) Hnd); [apply nth_lt in Hr; exact Hr|congruence].
  - intros iv v e x Hv He Hn. apply one_vertex in Hv. apply one_vertex in He. destruct Hv as [_ ->], He as [_ ->]. exfalso. apply Hn. split; simpl; lia.
  - intros iv v e j f a He H. apply one_vertex in He. destruct He as [_ ->]. apply (cor_subface _ _ _ _ _ _ _ Hsub) in H. destruct H as [_ [-> [Hj [r [Hr [Hf _]]]]]].
    cbn [x_faces cor_vert e_nbnd cor_extra]. rewrite El. cbn [length]. split; [lia|]. intros _. right.
    destruct r as [|[|[|r]]]; cbn in Hf; [injection Hf as <-; simpl; lia..|destruct r; discriminate].
  - intros iv v e Hv He _. apply one_vertex in Hv. apply one_vertex in He. destruct Hv as [-> ->], He as [_ ->].
    cbn [x_faces x_cells e_nbnd e_sfaces cor_vert cor_extra e_sub x_subs t_fverts faces cor_mesh].
    split; [reflexivity|]. split; [rewrite El; reflexivity|]. split; [reflexivity|]. split; [reflexivity|]. split; [exact Hnd|].
    split; [repeat constructor; simpl; lia|]. split; [intros a; rewrite Hin; simpl; lia|].
    split; [intros x; exists cor_sub; split; [reflexivity|]; simpl; intros f [<-|[<-|[<-|[]]]]; reflexivity|]. split.
    + intros j a s Ha Hs. apply nth_error_In in Ha. apply Hin in Ha. exists [0%nat]. split; [destruct a as [|[|[|a]]]; [reflexivity..|lia]|].
      split; [repeat constructor; simpl; lia|]. destruct j as [|[|[|j]]]; cbn in Hs; [injection Hs as <-; reflexivity..|destruct j; discriminate].
    + intros a b' f g Ha Hb Ef Eg. apply Hin in Ha. apply Hin in Hb.
      destruct a as [|[|[|a]]]; [..|lia]; cbn in Ef; injection Ef as <-; (split; [simpl; lia|]);
        destruct b' as [|[|[|b']]]; try lia; cbn in Eg; injection Eg as <-; cbn; intros; try reflexivity; discriminate.
Qed.
Lemma rotated : arrangement [1; 2; 0]%nat.
Proof. exists 1%nat, 2%nat, 0%nat. split; [unfold perm3; lia|reflexivity]. Qed.
Definition cor_b (d : nat) : nat := nth d [1; 2; 0]%nat 0%nat.
Lemma cor_order : in_vertex_order (cor_vert [1; 2; 0]%nat) cor_extra cor_sub cor_b.
Proof.
  intros d q h Hd E Hq. destruct d as [|[|[|d]]]; [..|lia]; destruct q as [|[|[|q]]]; cbn in E, Hq; try discriminate; try (injection Hq as <-; reflexivity);
    destruct q; discriminate.
Qed.
Lemma cor_wrong : exists s, Setup RICHARDS (cor_tmesh DirichletBC [1; 2; 0]%nat) 1 3 col_X = Ok s /\
  mult (st_l (ts_p s)) (fun c => if (c =? 2)%nat then 1 else 0) 4 = -2 /\
  corner_value 1 (st_T (ts_p s)) 0 0 cor_b 0 (fun c => if (c =? 2)%nat then 1 else 0) = 0.
Proof.
  eexists. split; [cbv -[Rplus Ropp Rminus Rmult Rinv Rdiv IZR]; reflexivity|]. split; cbv -[Rplus Ropp Rminus Rmult Rinv Rdiv IZR]; ring.
Qed.
(** A single cell: the second array has three columns. *)
Lemma cor_overrun : Setup SALINITY (cor_tmesh DirichletBC [0; 1; 2]%nat) 1 3 col_X = UB.
Proof. cbv -[Rplus Ropp Rminus Rmult Rinv Rdiv IZR]. reflexivity. Qed.

(** Salt: nothing at vertices of more than one cell. *)
Lemma corner_entries : forall M N iv v e x s s', Corner M N iv v e x s = Ok s' -> exists l, st_l s' = st_l s ++ l /\
  forall y, In y l -> exists f, In f (e_sfaces e) /\ corner_row_of M iv f = Ok (fst (fst y)).
Proof.
  intros M N iv v e x s s' E. unfold Corner in E.
  destruct (rd (x_cells v) 0) as [cell| |]; cbn [bind] in E; try discriminate.
  destruct (rd (e_sub e x) 0) as [sub| |]; cbn [bind] in E; try discriminate.
  match type of E with bind ?t _ = _ => destruct t as [T1| |] end; cbn [bind] in E; try discriminate.
  destruct (corner_rows M iv (e_sfaces e)) as [rows| |] eqn:Er; cbn [bind] in E; try discriminate.
  destruct (CornerVertex N cell sub rows) as [l| |] eqn:El; cbn [bind] in E; try discriminate.
  match type of E with bind ?t _ = _ => destruct t as [br| |] end; cbn [bind] in E; try discriminate.
  match type of E with bind ?t _ = _ => destruct t as [cols| |] end; cbn [bind] in E; try discriminate.
  match type of E with bind ?t _ = _ => destruct t as [T2| |] end; cbn [bind] in E; try discriminate.
  injection E as <-. exists l. split; [reflexivity|].
  assert (Hrows : forall r, In r rows -> exists f, In f (e_sfaces e) /\ corner_row_of M iv f = Ok r).
  { clear - Er. revert rows Er. induction (e_sfaces e) as [|f fs IH]; intros rows Er; cbn [corner_rows] in Er; [injection Er as <-; intros r []|].
    destruct (corner_row_of M iv f) as [r0| |] eqn:E0; cbn [bind] in Er; try discriminate.
    destruct (corner_rows M iv fs) as [rs| |] eqn:E1; cbn [bind] in Er; try discriminate. injection Er as <-.
    intros r [<-|H]; [exists f; split; [left; reflexivity|exact E0]|]. destruct (IH rs eq_refl r H) as [f' [H1 H2]]. exists f'. split; [right; exact H1|exact H2]. }
  intros y Hy. apply Hrows. revert y Hy. unfold CornerVertex in El.
  refine (for_preserves (fun k l => forall y, In y l -> In (fst (fst y)) rows) _ _ _ _ El _ _).
  - intros ? [].
  - intros i t t' Hi IH E. destruct (rd rows i) as [r| |] eqn:Ei; cbn [bind] in E; try discriminate. apply rd_inv in Ei.
    destruct (rd (sfaces sub) i) as [h| |]; cbn [bind] in E; try discriminate.
    refine (for_preserves (fun _ l => forall y, In y l -> In (fst (fst y)) rows) _ _ _ _ E IH _).
    intros q u u' Hq IHq Eq. destruct (rd (corner_columns N sub cell) q) as [cc| |]; cbn [bind] in Eq; try discriminate.
    destruct (rd (corner_row h) q) as [xx| |]; cbn [bind] in Eq; try discriminate. injection Eq as <-.
    intros z Hz. apply in_app_or in Hz. destruct Hz as [Hz|[<-|[]]]; [apply IHq; exact Hz|]. eapply nth_error_In; exact Ei.
Qed.
Lemma salt_rows : forall M ncv nfv X s, good_tmesh M ncv nfv -> Setup SALINITY M ncv nfv X = Ok s ->
  forall y, In y (st_l (ts_s s)) -> exists iv j v e f, nth_error (t_extra M) iv = Some e /\ corner v e /\ subface (t_mesh M) iv j = Some (v, f, fst (fst y)).
Proof.
  intros M ncv nfv X s G E. unfold Setup, ComputeTransmissibilityMatrix in E.
  refine (for_preserves (fun _ s => forall y, In y (st_l (ts_s s)) -> exists iv j v e f, nth_error (t_extra M) iv = Some e /\ corner v e /\ subface (t_mesh M) iv j = Some (v, f, fst (fst y))) _ _ _ _ E _ _).
  - intros y [].
  - intros i t t' Hi IH Et. apply salt_part in Et. destruct Et as [->|[v [e [Ev [Ee [Hc Ec]]]]]]; [exact IH|].
    destruct (corner_entries _ _ _ _ _ _ _ _ Ec) as [l [-> Hl]]. intros y Hy. apply in_app_or in Hy. destruct Hy as [Hy|Hy]; [exact (IH y Hy)|].
    destruct (Hl y Hy) as [a [Ha Hr]]. destruct (gt_corner M ncv nfv G i v e Ev Ee Hc) as [_ [_ [_ [_ [_ [_ [Hin [_ [Hpos _]]]]]]]]].
    apply Hin in Ha. apply In_nth_error in Ha. destruct Ha as [j Ha].
    destruct (subface_at M ncv nfv i v G Ev j a Ha) as [f [sb [Hf [Hs Hsub]]]].
    destruct (Hpos j a sb Ha Hs) as [vs [V1 [V2 V3]]]. unfold corner_row_of in Hr. rewrite (rd_some _ _ _ V1) in Hr. cbn [bind] in Hr.
    rewrite (position_nth _ _ _ V2 V3) in Hr. injection Hr as <-. exists i, j, v, e, f. auto.
Qed.
Lemma salt_empty : forall M ncv nfv X s, good_tmesh M ncv nfv -> Setup SALINITY M ncv nfv X = Ok s ->
  forall iv j v e f a P, nth_error (t_extra M) iv = Some e -> subface (t_mesh M) iv j = Some (v, f, a) -> ~ corner v e ->
  mult (st_l (ts_s s)) P a = 0.
Proof.
  intros M ncv nfv X s G E iv j v e f a P Ee Hs Hn. apply mult_none. intros y Hy Ea.
  destruct (salt_rows M ncv nfv X s G E y Hy) as [iv' [j' [v' [e' [f' [Ee' [Hc Hs']]]]]]]. rewrite Ea in Hs'.
  destruct (gt_rows M ncv nfv G _ _ _ _ _ _ _ _ _ Hs Hs') as [<- <-]. rewrite Hs in Hs'. injection Hs' as <- <-. rewrite Ee in Ee'. injection Ee' as <-. contradiction.
Qed.
Lemma col_flux : exists s, Setup SALINITY col_tmesh 2 5 col_X = Ok s /\
  mult (st_l (ts_p s)) (fun c => match c with O => 4 | S O => 1 | _ => 0 end) 0 = 8 / 3.
Proof.
  eexists. split; [cbv -[Rplus Ropp Rminus Rmult Rinv Rdiv IZR]; reflexivity|]. cbv -[Rplus Ropp Rminus Rmult Rinv Rdiv IZR]. field.
Qed.
