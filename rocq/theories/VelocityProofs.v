(** Proofs about the recovered velocities. *)
From Coq Require Import Reals ZArith List Bool Arith Lia Lra.
From Verif Require Import Prelude Arrays Mpfao MpfaoTs SpecFvtpf SpecMpfao SpecMpfaoTs FvtpfSumProofs MpfaoProofs BdmProofs MpfaoBalanceProofs Transmit SpecTransmit TransmitProofs
  Steady SpecSteady SteadyProofs Velocity SpecVelocity.
Import ListNotations.
Local Open Scope R_scope.

(** A loop each of whose steps adds something to the velocities. *)
Lemma for_vel : forall n (f : nat -> list R -> outcome (list R)) (h : nat -> nat -> R) L s, length s = L ->
  (forall i s, (i < n)%nat -> length s = L -> exists s', f i s = Ok s' /\ length s' = L /\ forall a, (a < L)%nat -> nth a s' 0 = nth a s 0 + h i a) ->
  exists s', for_ n f s = Ok s' /\ length s' = L /\ forall a, (a < L)%nat -> nth a s' 0 = nth a s 0 + total (fun i => h i a) n.
Proof.
  intros n f h L s HL H.
  apply (for_inv (fun k s' => length s' = L /\ forall a, (a < L)%nat -> nth a s' 0 = nth a s 0 + total (fun i => h i a) k)).
  - split; [exact HL|]. intros. simpl. ring.
  - intros i t Hi [Lt IH]. destruct (H i t Hi Lt) as [t' [E [Lt' Ht]]]. exists t'. split; [exact E|]. split; [exact Lt'|].
    intros a Ha. rewrite Ht, IH by exact Ha. simpl. ring.
Qed.
Lemma for_sum : forall n (f : nat -> R -> outcome R) (h : nat -> R) s,
  (forall i s, (i < n)%nat -> f i s = Ok (s + h i)) -> for_ n f s = Ok (s + total h n).
Proof.
  intros n f h s H. destruct (for_inv (fun k s' => s' = s + total h k) f n s) as [s' [E ->]]; [simpl; ring| |exact E].
  intros i t Hi ->. rewrite H by exact Hi. eexists. split; [reflexivity|]. simpl. ring.
Qed.
Lemma add_vel_ok : forall vel a x, (a < length vel)%nat -> exists vel', add_vel vel a x = Ok vel' /\ length vel' = length vel /\
  forall b, nth b vel' 0 = nth b vel 0 + (if (b =? a)%nat then x else 0).
Proof.
  intros vel a x Ha. unfold add_vel. destruct (rd_ok vel a Ha) as [y [Ey Ny]]. rewrite Ey. cbn [bind].
  exists (upd vel a (y + x)). split; [unfold wr; destruct (Nat.ltb_spec a (length vel)); [reflexivity|lia]|].
  split; [apply length_upd|]. intros b. rewrite nth_upd_d by exact Ha. destruct (Nat.eqb_spec b a) as [->|_]; [rewrite (nth_error_nth _ _ 0 Ny)|]; ring.
Qed.

Section Recovery.
Variables (p : recover) (u : list R) (ncv c : nat) (B : nat -> R).
Let M := r_mesh p.
Let m := t_mesh M.
Let N := length (rocks m).
Let T := r_T p.
Let nfv := r_nfv p.
Let L := length (faces m).
Hypothesis G : good_tmesh M ncv nfv.
Hypothesis GR : good_recover p u.
Hypothesis D : dims T (length (verts m)) nfv c.
Hypothesis Hc : forall iv v e, nth_error (verts m) iv = Some v -> nth_error (t_extra M) iv = Some e -> (length (x_cells v) + e_nbnd e <= c)%nat.
Hypothesis HB : boundary_heads p u B.
Hypothesis HZ : forall iv v e j k, nth_error (verts m) iv = Some v -> nth_error (t_extra M) iv = Some e -> x_local v = false -> coefficient T iv j k = 0.

Lemma P_ok : forall k, (k < N)%nat -> Pcomputed p u k = Ok (head p u k).
Proof.
  intros k Hk. unfold Pcomputed, head. pose proof (gr_u p u GR) as L1. pose proof (gr_rho p u GR) as L2. pose proof (gr_gz p u GR) as L3.
  fold M in L1, L2, L3. fold m in L1, L2, L3. fold N in L1, L2, L3.
  destruct (rd_ok u k) as [x [Ex Nx]]; [lia|]. destruct (rd_ok (r_rho p) k) as [d [Ed Nd]]; [lia|]. destruct (rd_ok (r_gz p) k) as [g [Eg Ng]]; [lia|].
  rewrite Ex, Ed, Eg. cbn [bind]. rewrite (nth_error_nth _ _ 0 Nx), (nth_error_nth _ _ 0 Nd), (nth_error_nth _ _ 0 Ng). reflexivity.
Qed.
Definition cells_part (iv : nat) (v : vert) (j : nat) : R :=
  total (fun q => coefficient T iv j q * head p u (nth q (x_cells v) O)) (length (x_cells v)).
Definition outer_part (iv : nat) (v : vert) (e : extra) (j : nat) : R :=
  total (fun d => coefficient T iv j (length (x_cells v) + d) * B (nth d (map sf_bnd (outer_faces e Pressure)) O)) (length (outer_faces e Pressure)).

Lemma cell_sum_ok : forall iv v e j area x, nth_error (verts m) iv = Some v -> nth_error (t_extra M) iv = Some e -> (j < length (x_faces v))%nat ->
  cell_sum p u iv v j area x = Ok (x + - cells_part iv v j / area).
Proof.
  intros iv v e j area x Ev Ee Hj. pose proof (nth_error_In _ _ Ev) as Hv. unfold cell_sum.
  rewrite (for_sum _ _ (fun q => (- / area) * (coefficient T iv j q * head p u (nth q (x_cells v) O)))).
  - rewrite total_scale_l. unfold cells_part. f_equal. unfold Rdiv. ring.
  - intros i t Hi. destruct (rd_ok (x_cells v) i Hi) as [k [Ek Nk]]. rewrite Ek. cbn [bind].
    rewrite P_ok by exact (gt_cells M ncv nfv G v k Hv (nth_error_In _ _ Nk)). cbn [bind]. fold T.
    rewrite (rd3_ok T _ _ _ iv j i D (nth_lt _ _ _ Ev)); [|destruct (gt_max M ncv nfv G v Hv); lia|pose proof (Hc iv v e Ev Ee); lia]. cbn [bind].
    rewrite (nth_error_nth _ _ O Nk). unfold Rdiv. f_equal. ring.
Qed.
Lemma face_read : forall v j, In v (verts m) -> (j < length (x_faces v))%nat -> exists a f, rd (x_faces v) j = Ok a /\ rd (faces m) a = Ok f /\
  nth_error (x_faces v) j = Some a /\ nth_error (faces m) a = Some f /\ (a < L)%nat.
Proof.
  intros v j Hv Hj. destruct (rd_ok (x_faces v) j Hj) as [a [Ea Na]]. destruct (gt_faces M ncv nfv G v Hv) as [_ Hf].
  pose proof (Hf a (nth_error_In _ _ Na)) as Ha. destruct (rd_ok (faces m) a Ha) as [f [Ef Nf]]. exists a, f. auto 6.
Qed.
Lemma area_read : forall a, (a < L)%nat -> rd (r_area p) a = Ok (nth a (r_area p) 0).
Proof.
  intros a Ha. pose proof (gr_area p u GR) as H. fold M in H. fold m in H. fold L in H.
  destruct (rd_ok (r_area p) a) as [x [Ex Nx]]; [lia|]. rewrite Ex, (nth_error_nth _ _ 0 Nx). reflexivity.
Qed.

(** What row [j] of a vertex adds to face [b]. *)
Definition row_adds (v : vert) (w : nat -> R) (j b : nat) : R :=
  match nth_error (x_faces v) j with
  | Some a => match nth_error (faces m) a with Some f => if f_local f && (b =? a)%nat then - w j / nth a (r_area p) 0 else 0 | None => 0 end
  | None => 0
  end.
Lemma internal_adds : forall iv v e j s, nth_error (verts m) iv = Some v -> nth_error (t_extra M) iv = Some e -> (j < length (x_faces v))%nat -> length s = L ->
  exists s', internal_row p u iv v j s = Ok s' /\ length s' = L /\ forall b, (b < L)%nat -> nth b s' 0 = nth b s 0 + row_adds v (cells_part iv v) j b.
Proof.
  intros iv v e j s Ev Ee Hj HL. destruct (face_read v j (nth_error_In _ _ Ev) Hj) as [a [f [Ea [Ef [Na [Nf Ha]]]]]].
  unfold internal_row, row_adds. fold M. fold m. rewrite Ea, Na, Nf. cbn [bind]. rewrite Ef. cbn [bind]. destruct (f_local f); cbn [negb andb].
  - rewrite area_read by exact Ha. cbn [bind]. rewrite (cell_sum_ok iv v e) by assumption. cbn [bind].
    destruct (add_vel_ok s a (0 + - cells_part iv v j / nth a (r_area p) 0)) as [s' [E [L' H]]]; [lia|].
    exists s'. split; [exact E|]. split; [lia|]. intros b _. rewrite H. destruct (b =? a)%nat; ring.
  - exists s. split; [reflexivity|]. split; [exact HL|]. intros. ring.
Qed.
Lemma shared_adds : forall iv v e pB j s, nth_error (verts m) iv = Some v -> nth_error (t_extra M) iv = Some e -> (j < length (x_faces v))%nat -> length s = L ->
  length (outer_faces e Pressure) = e_nbnd e -> pB = map (fun f => B (sf_bnd f)) (outer_faces e Pressure) ->
  exists s', shared_row p u iv v (e_nbnd e) pB j s = Ok s' /\ length s' = L /\
  forall b, (b < L)%nat -> nth b s' 0 = nth b s 0 + row_adds v (fun j => cells_part iv v j + outer_part iv v e j) j b.
Proof.
  intros iv v e pB j s Ev Ee Hj HL Hl HpB. pose proof (nth_error_In _ _ Ev) as Hv. destruct (face_read v j Hv Hj) as [a [f [Ea [Ef [Na [Nf Ha]]]]]].
  unfold shared_row, row_adds. fold M. fold m. rewrite Ea, Na, Nf. cbn [bind]. rewrite Ef. cbn [bind]. destruct (f_local f); cbn [negb andb].
  - rewrite area_read by exact Ha. cbn [bind]. rewrite (cell_sum_ok iv v e) by assumption. cbn [bind]. set (ar := nth a (r_area p) 0).
    rewrite (for_sum _ _ (fun d => (- / ar) * (coefficient T iv j (length (x_cells v) + d) * B (nth d (map sf_bnd (outer_faces e Pressure)) O)))).
    + cbn [bind]. rewrite total_scale_l. rewrite <- Hl. fold (outer_part iv v e j).
      match goal with |- context [add_vel s a ?y] => destruct (add_vel_ok s a y) as [s' [E [L' H]]]; [lia|] end.
      exists s'. split; [exact E|]. split; [lia|]. intros b _. rewrite H. destruct (b =? a)%nat; [unfold Rdiv; ring|ring].
    + intros i t Hi. fold T. rewrite (rd3_ok T _ _ _ iv j _ D (nth_lt _ _ _ Ev)); [|destruct (gt_max M ncv nfv G v Hv); lia|pose proof (Hc iv v e Ev Ee); lia]. cbn [bind].
      destruct (nth_error (outer_faces e Pressure) i) as [g|] eqn:Eg; [|apply nth_error_None in Eg; lia].
      assert (Hb : rd pB i = Ok (B (sf_bnd g))) by (apply rd_some; rewrite HpB, nth_error_map, Eg; reflexivity). rewrite Hb. cbn [bind].
      assert (Hn : nth i (map sf_bnd (outer_faces e Pressure)) O = sf_bnd g) by (apply nth_error_nth; rewrite nth_error_map, Eg; reflexivity).
      rewrite Hn, (Nat.add_comm i). unfold Rdiv. f_equal. ring.
  - exists s. split; [reflexivity|]. split; [exact HL|]. intros. ring.
Qed.

Lemma bnd_values_ok : forall (other : nat -> outcome R) (oth : nat -> R) l,
  (forall k f, In (k, f) l -> r_pressure p = None -> other k = Ok (oth k) /\ B (sf_bnd f) = oth k) ->
  bnd_values p other l = Ok (map (fun f => B (sf_bnd (snd f))) l).
Proof.
  intros other oth l. induction l as [|[k f] l IH]; intros H; [reflexivity|]. cbn [bnd_values map snd].
  rewrite IH by (intros k' f' Hin; apply H; right; exact Hin).
  unfold boundary_heads in HB. destruct (r_pressure p) as [h|] eqn:Hp.
  - cbn [bind]. rewrite HB. reflexivity.
  - destruct (H k f (or_introl eq_refl) eq_refl) as [-> <-]. reflexivity.
Qed.
Lemma flat_outer : forall cs l, length cs = length l ->
  map snd (flat_map (fun q : nat * subcell => map (fun f => (fst q, f)) (filter (fun f => negb (sf_internal f)) (sfaces (snd q)))) (combine cs l)) = filter is_bnd (flat_map sfaces l).
Proof.
  induction cs as [|k cs IH]; intros [|s l] H; try discriminate; [reflexivity|]. cbn [combine flat_map fst snd].
  rewrite map_app, filter_app, IH by (simpl in H; lia). f_equal. rewrite map_map. cbn [snd]. rewrite map_id. reflexivity.
Qed.
Lemma pBoundary_ok : forall iv v e, nth_error (verts m) iv = Some v -> nth_error (t_extra M) iv = Some e -> ~ corner v e ->
  length (outer_faces e Pressure) = e_nbnd e -> (e_nbnd e <= length (x_faces v))%nat ->
  pBoundary p u v e = Ok (map (fun f => B (sf_bnd f)) (outer_faces e Pressure)).
Proof.
  intros iv v e Ev Ee Hn Hl Hle. pose proof (nth_error_In _ _ Ev) as Hv. pose proof (gt_numbered M ncv nfv G iv v e Pressure Ev Ee Hn) as W.
  pose proof (wn_cells _ W) as WL. cbn [v_cells v_sub vertex_of] in WL. unfold pBoundary.
  rewrite (bnd_values_ok (Pcomputed p u) (head p u)).
  - cbn [bind]. rewrite map_length. rewrite <- (map_length snd), (flat_outer _ _ WL). fold (outer_faces e Pressure).
    destruct (gt_max M ncv nfv G v Hv) as [Hm _]. destruct (Nat.leb_spec (length (outer_faces e Pressure)) (r_nfv p)) as [_|K]; [|unfold nfv in Hm; lia].
    f_equal. rewrite <- (map_map snd (fun f => B (sf_bnd f))), (flat_outer _ _ WL). reflexivity.
  - intros k f Hin Hp. apply in_flat_map in Hin. destruct Hin as [[k' s] [Hks Hin]]. cbn [fst snd] in Hin. apply in_map_iff in Hin. destruct Hin as [f' [E Hf]].
    injection E as -> ->. apply filter_In in Hf. destruct Hf as [Hf Hi]. apply negb_true_iff in Hi.
    apply In_nth_error in Hks. destruct Hks as [i Hi']. assert (K : nth_error (x_cells v) i = Some k /\ nth_error (e_sub e Pressure) i = Some s).
    { clear - Hi'. revert Hi'. generalize (e_sub e Pressure). generalize (x_cells v). intros cs. revert i. induction cs as [|y cs IH]; intros [|i] [|z l] H; cbn [combine nth_error] in *; try discriminate.
      - injection H as -> ->. auto.
      - apply IH. exact H. }
    destruct K as [K1 K2]. split; [apply P_ok; exact (gt_cells M ncv nfv G v k Hv (nth_error_In _ _ K1))|].
    unfold boundary_heads in HB. rewrite Hp in HB. exact (HB iv v e i k s f Ev Ee K1 K2 Hf Hi).
Qed.

(** What a vertex adds to face [b]. *)
Definition vertex_adds (iv : nat) (v : vert) (e : extra) (b : nat) : R :=
  total (fun j => row_adds v (fun j => cells_part iv v j + outer_part iv v e j) j b) (length (x_faces v)).
Lemma outer_length : forall v e iv, nth_error (verts m) iv = Some v -> nth_error (t_extra M) iv = Some e -> ~ corner v e ->
  length (outer_faces e Pressure) = e_nbnd e /\ (e_nbnd e <= length (x_faces v))%nat.
Proof.
  intros v e iv Ev Ee Hn. pose proof (gt_numbered M ncv nfv G iv v e Pressure Ev Ee Hn) as W.
  pose proof (wn_bnd _ W) as B1. pose proof (wn_faces _ W) as F. cbn [v_nbnd v_nfaces vertex_of] in B1, F. split; [symmetry; exact B1|lia].
Qed.
Lemma internal_vertex_adds : forall iv v e s, nth_error (verts m) iv = Some v -> nth_error (t_extra M) iv = Some e -> e_nbnd e = O -> length s = L ->
  exists s', for_ (length (x_faces v)) (internal_row p u iv v) s = Ok s' /\ length s' = L /\
  forall b, (b < L)%nat -> nth b s' 0 = nth b s 0 + vertex_adds iv v e b.
Proof.
  intros iv v e s Ev Ee Hnb HL. apply for_vel; [exact HL|]. intros j t Hj Lt. destruct (internal_adds iv v e j t Ev Ee Hj Lt) as [t' [E [L' H]]].
  exists t'. split; [exact E|]. split; [exact L'|]. intros b Hb. rewrite H by exact Hb. f_equal. unfold row_adds.
  assert (Hz : outer_part iv v e j = 0).
  { unfold outer_part. destruct (outer_length v e iv Ev Ee) as [Hl _]; [intros [K _]; contradiction|]. rewrite Hl, Hnb. reflexivity. }
  rewrite Hz, Rplus_0_r. reflexivity.
Qed.
Lemma shared_vertex_adds : forall iv v e s, nth_error (verts m) iv = Some v -> nth_error (t_extra M) iv = Some e -> ~ corner v e -> length s = L ->
  exists s', (do pB <- pBoundary p u v e;
      do vel <- for_ (length (x_faces v) - e_nbnd e) (shared_row p u iv v (e_nbnd e) pB) s;
      for_ (e_nbnd e) (fun irow => shared_row p u iv v (e_nbnd e) pB (irow + (length (x_faces v) - e_nbnd e))) vel) = Ok s' /\ length s' = L /\
  forall b, (b < L)%nat -> nth b s' 0 = nth b s 0 + vertex_adds iv v e b.
Proof.
  intros iv v e s Ev Ee Hn HL. destruct (outer_length v e iv Ev Ee Hn) as [Hl Hle]. rewrite (pBoundary_ok iv v e) by assumption. cbn [bind].
  set (n0 := (length (x_faces v) - e_nbnd e)%nat). set (pB := map _ _).
  destruct (for_vel n0 (shared_row p u iv v (e_nbnd e) pB) (fun j b => row_adds v (fun j => cells_part iv v j + outer_part iv v e j) j b) L s HL) as [s1 [E1 [L1 H1]]].
  { intros j t Hj Lt. apply shared_adds; auto. unfold n0 in Hj. lia. }
  rewrite E1. cbn [bind].
  destruct (for_vel (e_nbnd e) (fun irow => shared_row p u iv v (e_nbnd e) pB (irow + n0)) (fun i b => row_adds v (fun j => cells_part iv v j + outer_part iv v e j) (n0 + i) b) L s1 L1) as [s2 [E2 [L2 H2]]].
  { intros i t Hi Lt. rewrite (Nat.add_comm i). apply shared_adds; auto. unfold n0. lia. }
  exists s2. split; [exact E2|]. split; [exact L2|]. intros b Hb. rewrite H2, H1 by exact Hb. unfold vertex_adds.
  replace (length (x_faces v)) with (n0 + e_nbnd e)%nat by (unfold n0; lia). rewrite total_app. ring.
Qed.

(** Corners. *)
Definition corner_value (e : extra) (cell : nat) (s : subcell) (i : nat) : R :=
  let h := nth i (sfaces s) (fst (fst s)) in
  total (fun q => g_at h q * (nth cell u 0 - match r_pressure p with Some f => f (sf_bnd (nth q (sfaces s) h)) | None => nth cell u 0 end)) 3.
Definition corner_adds (v : vert) (e : extra) (b : nat) : R :=
  match x_cells v, e_sub e Pressure with
  | cell :: _, s :: _ =>
      total (fun i => match nth_error (e_sfaces e) i with
        | Some a => match nth_error (faces m) a with
                    | Some f => if f_local f && (b =? a)%nat then corner_value e cell s i / nth a (r_area p) 0 else 0
                    | None => 0 end
        | None => 0 end) 3
  | _, _ => 0
  end.
Lemma corner_values : forall s cell, (cell < N)%nat ->
  bnd_values p (fun c => rd u c) (map (fun f => (cell, f)) (sfaces s)) =
  Ok (map (fun f => match r_pressure p with Some h => h (sf_bnd f) | None => nth cell u 0 end) (sfaces s)).
Proof.
  intros s cell Hcell. pose proof (gr_u p u GR) as L1. fold M in L1. fold m in L1. fold N in L1.
  assert (E : rd u cell = Ok (nth cell u 0)). { destruct (rd_ok u cell) as [x [Ex Nx]]; [lia|]. rewrite Ex, (nth_error_nth _ _ 0 Nx). reflexivity. }
  induction (sfaces s) as [|f l IH]; [reflexivity|]. cbn [map bnd_values]. rewrite IH. destruct (r_pressure p); cbn [bind]; [reflexivity|]. rewrite E. reflexivity.
Qed.
Lemma corner_vertex_adds : forall iv v e s, nth_error (verts m) iv = Some v -> nth_error (t_extra M) iv = Some e -> corner v e -> length s = L ->
  exists s', corner_vertex p u v e s = Ok s' /\ length s' = L /\ forall b, (b < L)%nat -> nth b s' 0 = nth b s 0 + corner_adds v e b.
Proof.
  intros iv v e s Ev Ee Hcn HL. pose proof (nth_error_In _ _ Ev) as Hv.
  destruct (gt_corner M ncv nfv G iv v e Ev Ee Hcn) as [Hnb [Lf [Lc [Ls [Nf [Ns [Hin [Hsub _]]]]]]]].
  destruct (Hsub Pressure) as [sub [Esub _]]. destruct (x_cells v) as [|cell [|]] eqn:Ecell; try discriminate.
  assert (Hcl : (cell < N)%nat) by (apply (gt_cells M ncv nfv G v cell Hv); rewrite Ecell; left; reflexivity).
  assert (H3 : (3 <= L)%nat).
  { destruct (gt_faces M ncv nfv G v Hv) as [_ Hf]. rewrite <- Lf. rewrite <- (seq_length L 0). apply NoDup_incl_length; [exact Nf|].
    intros a Ha. apply in_seq. split; [lia|]. exact (Hf a Ha). }
  unfold corner_vertex, corner_adds. rewrite Ecell, Esub. cbn [rd nth_error bind].
  pose proof (gr_u p u GR) as L1. fold M in L1. fold m in L1. fold N in L1.
  assert (Eu : rd u cell = Ok (nth cell u 0)). { destruct (rd_ok u cell) as [x [Ex Nx]]; [lia|]. rewrite Ex, (nth_error_nth _ _ 0 Nx). reflexivity. }
  rewrite Eu. cbn [bind]. rewrite corner_values by exact Hcl. cbn [bind].
  apply for_vel; [exact HL|]. intros i t Hi Lt. destruct (rd_ok (e_sfaces e) i) as [a [Ea Na]]; [lia|].
  assert (Ha : (a < L)%nat). { destruct (gt_faces M ncv nfv G v Hv) as [_ Hf]. apply Hf. apply Hin. eapply nth_error_In; exact Na. }
  destruct (rd_ok (faces m) a Ha) as [f [Ef Nff]]. destruct (rd_ok (faces m) i) as [w [Ew _]]; [unfold L in H3; lia|].
  unfold corner_face. fold M. fold m. rewrite Ea. cbn [bind]. rewrite Ew. cbn [bind]. rewrite Ef. cbn [bind]. rewrite Na, Nff.
  destruct (f_local f); cbn [negb andb].
  2: { exists t. split; [reflexivity|]. split; [exact Lt|]. intros. ring. }
  rewrite area_read by exact Ha. cbn [bind]. destruct sub as [[g0 g1] g2]. set (ar := nth a (r_area p) 0).
  destruct (rd_ok (sfaces (g0, g1, g2)) i) as [h [Eh Nh]]; [simpl; lia|]. rewrite Eh. cbn [bind]. cbv zeta.
  set (sign := if (-1 <? f_up w)%Z then -1 else 1). assert (Hs : sign * sign = 1) by (unfold sign; destruct (_ <? _)%Z; ring).
  rewrite (for_sum _ _ (fun q => (sign * / ar) * (g_at h q * (nth cell u 0 - match r_pressure p with Some hh => hh (sf_bnd (nth q (sfaces (g0, g1, g2)) h)) | None => nth cell u 0 end)))).
  - cbn [bind]. rewrite total_scale_l. unfold corner_value. rewrite (nth_error_nth _ _ (fst (fst (g0, g1, g2))) Nh). cbv zeta.
    match goal with |- context [add_vel t a ?y] => destruct (add_vel_ok t a y) as [s' [E [L' H]]]; [lia|] end.
    exists s'. split; [exact E|]. split; [lia|]. intros b _. rewrite H. destruct (b =? a)%nat; [|ring]. f_equal.
    match goal with |- sign * (0 + sign * / ar * ?X) = ?X' / ar => change X' with X; replace (sign * (0 + sign * / ar * X)) with ((sign * sign) * (X * / ar)) by ring end.
    rewrite Hs. unfold Rdiv. ring.
  - intros q x Hq. destruct (nth_error (sfaces (g0, g1, g2)) q) as [k|] eqn:Ek; [|apply nth_error_None in Ek; simpl in Ek; lia].
    assert (Eb : rd (map (fun f => match r_pressure p with Some hh => hh (sf_bnd f) | None => nth cell u 0 end) (sfaces (g0, g1, g2))) q =
      Ok (match r_pressure p with Some hh => hh (sf_bnd k) | None => nth cell u 0 end)) by (apply rd_some; rewrite nth_error_map, Ek; reflexivity).
    rewrite Eb. cbn [bind]. rewrite (nth_error_nth _ _ h Ek). unfold Rdiv. f_equal. ring.
Qed.

(** All vertices. *)
Definition adds (iv b : nat) : R :=
  match nth_error (verts m) iv, nth_error (t_extra M) iv with
  | Some v, Some e => if is_corner v e then corner_adds v e b else vertex_adds iv v e b
  | _, _ => 0
  end.
Definition class (iv : nat) : nat :=
  match nth_error (verts m) iv, nth_error (t_extra M) iv with
  | Some v, Some e => if (e_nbnd e =? 0)%nat then 0%nat else if (1 <? length (x_cells v))%nat then 1%nat else 2%nat
  | _, _ => 3%nat
  end.
Lemma vertex_read : forall iv, (iv < length (verts m))%nat -> exists v e, rd (verts m) iv = Ok v /\ rd (t_extra M) iv = Ok e /\
  nth_error (verts m) iv = Some v /\ nth_error (t_extra M) iv = Some e.
Proof.
  intros iv Hi. destruct (rd_ok (verts m) iv Hi) as [v [Rv Ev]]. destruct (rd_ok (t_extra M) iv) as [e [Re Ee]]; [rewrite (gt_extra M ncv nfv G); exact Hi|].
  exists v, e. auto.
Qed.
Lemma unset : forall iv v e b, nth_error (verts m) iv = Some v -> nth_error (t_extra M) iv = Some e -> x_local v = false -> vertex_adds iv v e b = 0.
Proof.
  intros iv v e b Ev Ee Hl. unfold vertex_adds. transitivity (total (fun _ => 0) (length (x_faces v))); [|apply total_zero]. apply total_ext. intros j _.
  unfold row_adds. destruct (nth_error (x_faces v) j); [|reflexivity]. destruct (nth_error (faces m) n) as [f|]; [|reflexivity].
  destruct (f_local f && (b =? n)%nat); [|reflexivity].
  assert (Z : cells_part iv v j + outer_part iv v e j = 0).
  { unfold cells_part, outer_part.
    transitivity (total (fun _ => 0) (length (x_cells v)) + total (fun _ => 0) (length (outer_faces e Pressure))); [|rewrite !total_zero; ring].
    f_equal; apply total_ext; intros; rewrite (HZ iv v e) by assumption; ring. }
  rewrite Z. unfold Rdiv. ring.
Qed.
Lemma recovered : exists vel, RecoverVelocity p u = Ok vel /\ length vel = L /\
  forall b, (b < L)%nat -> nth b vel 0 = total (fun iv => adds iv b) (length (verts m)).
Proof.
  unfold RecoverVelocity. cbv zeta. fold M. fold m. fold L.
  destruct (for_vel (length (verts m)) (fun iv vel => do v <- rd (verts m) iv; do e <- rd (t_extra M) iv;
    if (e_nbnd e =? 0)%nat then for_ (length (x_faces v)) (internal_row p u iv v) vel else Ok vel)
    (fun iv b => if (class iv =? 0)%nat then adds iv b else 0) L (repeat 0 L) (repeat_length 0 L)) as [s1 [E1 [L1 H1]]].
  { intros iv t Hi Lt. destruct (vertex_read iv Hi) as [v [e [Rv [Re [Ev Ee]]]]]. rewrite Rv, Re. cbn [bind]. unfold class, adds. rewrite Ev, Ee.
    unfold is_corner. destruct (Nat.eqb_spec (e_nbnd e) 0) as [Hnb|Hnb]; cbn [orb negb Nat.eqb].
    - exact (internal_vertex_adds iv v e t Ev Ee Hnb Lt).
    - exists t. split; [reflexivity|]. split; [exact Lt|]. intros. destruct (1 <? length (x_cells v))%nat; cbn [Nat.eqb]; ring. }
  unfold InternalVertices. fold M. fold m. rewrite E1. cbn [bind].
  destruct (for_vel (length (verts m)) (fun iv vel => do v <- rd (verts m) iv; do e <- rd (t_extra M) iv;
    if (e_nbnd e =? 0)%nat || (1 <? length (x_cells v))%nat then Ok vel else corner_vertex p u v e vel)
    (fun iv b => if (class iv =? 2)%nat then adds iv b else 0) L s1 L1) as [s2 [E2 [L2 H2]]].
  { intros iv t Hi Lt. destruct (vertex_read iv Hi) as [v [e [Rv [Re [Ev Ee]]]]]. rewrite Rv, Re. cbn [bind]. unfold class, adds. rewrite Ev, Ee.
    unfold is_corner. destruct (Nat.eqb_spec (e_nbnd e) 0) as [Hnb|Hnb]; cbn [orb negb Nat.eqb].
    - exists t. split; [reflexivity|]. split; [exact Lt|]. intros. ring.
    - destruct (Nat.ltb_spec 1 (length (x_cells v))); cbn [negb Nat.eqb].
      + exists t. split; [reflexivity|]. split; [exact Lt|]. intros. ring.
      + apply (corner_vertex_adds iv); try assumption. split; [exact Hnb|lia]. }
  unfold CornerVertices. fold M. fold m. rewrite E2. cbn [bind].
  destruct (for_vel (length (verts m)) (fun iv vel => do v <- rd (verts m) iv; do e <- rd (t_extra M) iv;
    if (e_nbnd e =? 0)%nat || (length (x_cells v) <? 2)%nat || negb (x_local v) then Ok vel
    else let nb := e_nbnd e in let nflux_in := (length (x_faces v) - nb)%nat in
      do pB <- pBoundary p u v e; do vel <- for_ nflux_in (shared_row p u iv v nb pB) vel; for_ nb (fun irow => shared_row p u iv v nb pB (irow + nflux_in)) vel)
    (fun iv b => if (class iv =? 1)%nat then adds iv b else 0) L s2 L2) as [s3 [E3 [L3 H3]]].
  { intros iv t Hi Lt. destruct (vertex_read iv Hi) as [v [e [Rv [Re [Ev Ee]]]]]. rewrite Rv, Re. cbn [bind]. unfold class, adds. rewrite Ev, Ee.
    unfold is_corner. destruct (Nat.eqb_spec (e_nbnd e) 0) as [Hnb|Hnb]; cbn [orb negb Nat.eqb].
    { exists t. split; [reflexivity|]. split; [exact Lt|]. intros. ring. }
    destruct (Nat.ltb_spec (length (x_cells v)) 2), (Nat.ltb_spec 1 (length (x_cells v))); try lia; cbn [orb negb Nat.eqb].
    - exists t. split; [reflexivity|]. split; [exact Lt|]. intros. ring.
    - destruct (x_local v) eqn:Hl; cbn [negb].
      + apply shared_vertex_adds; try assumption. intros [_ K]. lia.
      + exists t. split; [reflexivity|]. split; [exact Lt|]. intros. rewrite (unset iv v e) by assumption. ring. }
  exists s3. split; [exact E3|]. split; [exact L3|]. intros b Hb.
  rewrite H3, H2, H1 by exact Hb. rewrite nth_repeat_d. destruct (Nat.ltb_spec b L); [|lia].
  rewrite (total_ext (fun iv => adds iv b) (fun iv => (if (class iv =? 0)%nat then adds iv b else 0) + (if (class iv =? 2)%nat then adds iv b else 0) + (if (class iv =? 1)%nat then adds iv b else 0))).
  - rewrite !total_plus. ring.
  - intros iv _. unfold class, adds. destruct (nth_error (verts m) iv) as [v|]; [|simpl; ring]. destruct (nth_error (t_extra M) iv) as [e|]; [|simpl; ring].
    destruct (e_nbnd e =? 0)%nat; [simpl; ring|]. destruct (1 <? length (x_cells v))%nat; simpl; ring.
Qed.
End Recovery.

Section Fluxes.
Variables (k : tmode) (M : tmesh) (ncv nfv : nat) (X : variable -> nat -> option (list R)) (st : tstate).
Variables (area rho gz : list R) (hp : option (nat -> R)) (u : list R) (B : nat -> R).
Hypothesis G : good_tmesh M ncv nfv.
Hypothesis HX : answered M (X Pressure).
Hypothesis HS : Setup k M ncv nfv X = Ok st.
Let p := mkRecover M (st_T (ts_p st)) nfv area rho gz hp.
Hypothesis GR : good_recover p u.
Hypothesis HB : boundary_heads p u B.
Let m := t_mesh M.
Let N := length (rocks m).
Let l := st_l (ts_p st).
Let T := st_T (ts_p st).

Lemma Vinv : vinv M nfv Pressure (X Pressure) (nfv + ncv) (length (verts m)) (ts_p st).
Proof. exact (pressure_inv k M ncv nfv X st G HX HS). Qed.
Lemma no_rows : forall iv j v f a P, subface m iv j = Some (v, f, a) -> x_local v = false -> mult l P a = 0.
Proof.
  intros iv j v f a P Hs Hl. apply mult_none. intros y Hy E. destruct Vinv as [_ [_ [_ [HL _]]]]. destruct (HL y Hy) as [iv' [j' [v' [f' [_ [Hs' Hl']]]]]].
  rewrite E in Hs'. destruct (gt_rows M ncv nfv G _ _ _ _ _ _ _ _ _ Hs Hs') as [<- <-]. unfold m in Hs. rewrite Hs in Hs'. congruence.
Qed.
Lemma row_flux : forall iv v e j f a, nth_error (verts m) iv = Some v -> nth_error (t_extra M) iv = Some e -> ~ corner v e -> subface m iv j = Some (v, f, a) ->
  mult l (heads p u B) a = cells_part p u iv v j + outer_part p B iv v e j.
Proof.
  intros iv v e j f a Ev Ee Hn Hs. destruct (x_local v) eqn:Hl.
  - unfold l. rewrite (stored_rows M nfv Pressure (X Pressure) (nfv + ncv) (ts_p st) Vinv iv j v e f a _ Ee Hs Hl Hn). unfold row_value, cells_part, outer_part.
    f_equal; apply total_ext; intros q Hq; change (r_T p) with T; fold T; f_equal; unfold heads; change (t_mesh (r_mesh p)) with m; fold m.
    + destruct (nth_error (x_cells v) q) as [c|] eqn:Ec; [|apply nth_error_None in Ec; lia]. rewrite (nth_error_nth _ _ O Ec).
      pose proof (gt_cells M ncv nfv G v c (nth_error_In _ _ Ev) (nth_error_In _ _ Ec)) as Hcl. fold m in Hcl.
      destruct (Nat.ltb_spec c (length (rocks m))); [reflexivity|lia].
    + match goal with |- (if (?x + ?n <? ?n)%nat then _ else _) = _ => destruct (Nat.ltb_spec (x + n) n); [lia|] end. f_equal. lia.
  - rewrite (no_rows iv j v f a _ Hs Hl). symmetry. unfold cells_part, outer_part. destruct Vinv as [_ [_ [HZ _]]].
    transitivity (total (fun _ => 0) (length (x_cells v)) + total (fun _ => 0) (length (outer_faces e Pressure))); [|rewrite !total_zero; ring].
    f_equal; apply total_ext; intros; change (r_T p) with T; unfold T; rewrite (HZ iv v e _ _ Ev Ee) by auto; ring.
Qed.
Lemma recovered_here : exists vel, RecoverVelocity p u = Ok vel /\ forall b, (b < length (faces m))%nat -> nth b vel 0 = total (fun iv => adds p u B iv b) (length (verts m)).
Proof.
  destruct Vinv as [Dm [_ [HZ _]]].
  destruct (recovered p u ncv (nfv + ncv) B G GR Dm) as [vel [E [_ H]]].
  - intros iv v e Ev Ee. exact (pressure_wide M ncv nfv G iv v e Ev Ee).
  - exact HB.
  - intros iv v e j q Ev Ee Hl. exact (HZ iv v e j q Ev Ee (or_introl Hl)).
  - exists vel. split; [exact E|exact H].
Qed.
Lemma vertex_through : forall iv v e b f, nth_error (verts m) iv = Some v -> nth_error (t_extra M) iv = Some e -> ~ corner v e ->
  nth_error (faces m) b = Some f -> f_local f = true -> nth b area 0 <> 0 ->
  vertex_adds p u B iv v e b * nth b area 0 =
  total (fun j => match face_at m iv j with Some b' => if (b' =? b)%nat then matrix_flux m l (heads p u B) iv j else 0 | None => 0 end) (rows m iv).
Proof.
  intros iv v e b f Ev Ee Hn Nf Hl Ha. unfold vertex_adds, rows, face_at. rewrite Ev, <- total_scale. apply total_ext. intros j Hj.
  unfold row_adds. change (t_mesh (r_mesh p)) with m. change (r_area p) with area.
  destruct (nth_error (x_faces v) j) as [a|] eqn:Na; [|ring].
  destruct (face_read p ncv G v j (nth_error_In _ _ Ev) Hj) as [a' [f' [_ [_ [Na' [Nf' _]]]]]]. change (t_mesh (r_mesh p)) with m in Nf'.
  assert (a' = a) by congruence. subst a'. rewrite Nf'. rewrite (Nat.eqb_sym a b). destruct (Nat.eqb_spec b a) as [<-|_]; [|rewrite andb_false_r; ring].
  assert (f' = f) by congruence. subst f'. rewrite Hl. cbn [andb].
  assert (Hs : exists q, subface m iv j = Some (v, f, q)).
  { destruct (gt_faces M ncv nfv G v (nth_error_In _ _ Ev)) as [HL _]. destruct (nth_error (x_subs v) j) as [q|] eqn:Eq; [|apply nth_error_None in Eq; lia].
    exists (b * 4 + q)%nat. unfold subface. rewrite Ev, Na, Eq, Nf. reflexivity. }
  destruct Hs as [q Hs]. unfold matrix_flux. rewrite Hs, (row_flux iv v e j f q Ev Ee Hn Hs). field. exact Ha.
Qed.
(** Faces away from the corners. *)
Lemma velocity : exists vel, RecoverVelocity p u = Ok vel /\
  forall b f, nth_error (faces m) b = Some f -> f_local f = true -> nth b area 0 <> 0 -> ~ at_corner M b ->
    nth b vel 0 * nth b area 0 = through m b (matrix_flux m l (heads p u B)).
Proof.
  destruct recovered_here as [vel [E H]]. exists vel. split; [exact E|]. intros b f Nf Hl Ha Hc. rewrite (H b (nth_lt _ _ _ Nf)).
  unfold through, all_subfaces. rewrite <- total_scale. apply total_ext. intros iv Hiv.
  destruct (vertex_read p ncv G iv Hiv) as [v [e [_ [_ [Ev Ee]]]]]. change (t_mesh (r_mesh p)) with m in Ev. change (r_mesh p) with M in Ee.
  unfold adds. change (t_mesh (r_mesh p)) with m. change (r_mesh p) with M. rewrite Ev, Ee. destruct (is_corner v e) eqn:Hcn.
  - apply is_corner_spec in Hcn. unfold rows, face_at. rewrite Ev.
    destruct (gt_corner M ncv nfv G iv v e Ev Ee Hcn) as [_ [Lf [Lc [Ls [_ [_ [Hin [Hsub _]]]]]]]].
    transitivity (total (fun _ => 0) (length (x_faces v))).
    + rewrite total_zero. unfold corner_adds. destruct (x_cells v) as [|c cs] eqn:Ec; [discriminate|]. destruct (Hsub Pressure) as [s [Es _]]. rewrite Es.
      match goal with |- ?t * _ = 0 => assert (Z : t = 0); [|rewrite Z; ring] end.
      transitivity (total (fun _ => 0) 3); [|apply total_zero]. apply total_ext. intros i Hi. destruct (nth_error (e_sfaces e) i) as [a|] eqn:Na; [|reflexivity].
      destruct (nth_error (faces (t_mesh (r_mesh p))) a); [|reflexivity]. destruct (Nat.eqb_spec b a) as [->|_]; [|rewrite andb_false_r; reflexivity].
      exfalso. apply Hc. exists iv, v, e. split; [exact Ev|]. split; [exact Ee|]. split; [exact Hcn|]. apply Hin. eapply nth_error_In; exact Na.
    + apply total_ext. intros j _. destruct (nth_error (x_faces v) j) as [a|] eqn:Na; [|reflexivity]. destruct (Nat.eqb_spec a b) as [->|_]; [|reflexivity].
      exfalso. apply Hc. exists iv, v, e. split; [exact Ev|]. split; [exact Ee|]. split; [exact Hcn|]. eapply nth_error_In; exact Na.
  - apply (vertex_through iv v e b f); try assumption. intros K. apply is_corner_spec in K. congruence.
Qed.

(** All faces, when the corners are open and there is no gravity. *)
Hypothesis Hb : bc m <> NeumannBC.
Hypothesis Hg : forall c, (c < N)%nat -> head p u c = nth c u 0.
Lemma corner_through : forall iv v e b f, nth_error (verts m) iv = Some v -> nth_error (t_extra M) iv = Some e -> corner v e -> x_local v = true ->
  nth_error (faces m) b = Some f -> f_local f = true -> nth b area 0 <> 0 ->
  corner_adds p u v e b * nth b area 0 =
  - total (fun j => match face_at m iv j with Some b' => if (b' =? b)%nat then matrix_flux m l (heads p u B) iv j else 0 | None => 0 end) (rows m iv).
Proof.
  intros iv v e b f Ev Ee Hcn Hlv Nf Hl Ha. pose proof (nth_error_In _ _ Ev) as Hv.
  destruct (gt_corner M ncv nfv G iv v e Ev Ee Hcn) as [_ [Lf [Lc [Ls [Nd [Ns [Hin [Hsub _]]]]]]]].
  destruct Vinv as [_ [_ [_ [_ Dn]]]]. destruct (Dn iv v e (nth_lt _ _ _ Ev) Ev Ee Hlv) as [_ [_ [_ D4]]].
  destruct (D4 Hcn Hb) as [sub [cell [r0 [r1 [r2 [Es [Ec [Hp [Ef [_ Hm]]]]]]]]]]. destruct (Hsub Pressure) as [sub' [Es' Hi']]. assert (sub' = sub) by congruence. subst sub'.
  assert (Hcl : (cell < N)%nat) by (apply (gt_cells M ncv nfv G v cell Hv); rewrite Ec; left; reflexivity).
  (* what one row holds *)
  assert (Hrow : forall j, (j < 3)%nat ->
    (match face_at m iv j with Some b' => if (b' =? b)%nat then matrix_flux m l (heads p u B) iv j else 0 | None => 0 end) =
    (if (nth (nth j [r0; r1; r2] O) (e_sfaces e) O =? b)%nat then - corner_value p u e cell sub (nth j [r0; r1; r2] O) else 0)).
  { intros j Hj. unfold face_at. rewrite Ev.
    assert (Na : nth_error (x_faces v) j = Some (nth (nth j [r0; r1; r2] O) (e_sfaces e) O)) by (rewrite Ef; destruct j as [|[|[|j]]]; [reflexivity..|lia]).
    rewrite Na. set (a := nth (nth j [r0; r1; r2] O) (e_sfaces e) O) in *. destruct (Nat.eqb_spec a b) as [Eab|_]; [|reflexivity].
    destruct (gt_faces M ncv nfv G v Hv) as [HL _]. destruct (nth_error (x_subs v) j) as [q|] eqn:Eq; [|apply nth_error_None in Eq; lia].
    assert (Hs : subface m iv j = Some (v, f, (a * 4 + q)%nat)) by (unfold subface; rewrite Ev, Na, Eq, Eab, Nf; reflexivity).
    unfold matrix_flux. rewrite Hs. f_equal. unfold l. rewrite (Hm j f _ (heads p u B) Hs). cbv zeta. unfold corner_value. cbv zeta.
    set (h := nth (nth j [r0; r1; r2] O) (sfaces sub) (fst (fst sub))). apply total_ext. intros t Ht. f_equal. f_equal.
    - unfold heads. change (t_mesh (r_mesh p)) with m. destruct (Nat.ltb_spec cell (length (rocks m))) as [_|K]; [|unfold N in Hcl; lia]. apply Hg. exact Hcl.
    - unfold heads. change (t_mesh (r_mesh p)) with m. match goal with |- (if (?x + ?n <? _)%nat then _ else _) = _ => change (length (rocks m)) with n; destruct (Nat.ltb_spec (x + n) n); [lia|]; replace (x + n - n)%nat with x by lia end.
      set (g := nth t (sfaces sub) h). change (r_pressure p) with hp.
      pose proof HB as HB'. unfold boundary_heads in HB'. change (r_pressure p) with hp in HB'. destruct hp as [hh|]; [apply HB'|].
      rewrite (HB' iv v e 0%nat cell sub g Ev Ee).
      + apply Hg. exact Hcl.
      + rewrite Ec. reflexivity.
      + rewrite Es. reflexivity.
      + apply nth_In. destruct sub as [[? ?] ?]. simpl. lia.
      + apply Hi'. apply nth_In. destruct sub as [[? ?] ?]. simpl. lia. }
  unfold rows. rewrite Ev, Lf. rewrite (total_ext _ _ 3 Hrow). unfold corner_adds. rewrite Ec, Es. change (t_mesh (r_mesh p)) with m. change (r_area p) with area.
  destruct (e_sfaces e) as [|a0 [|a1 [|a2 [|]]]] eqn:Esf; try discriminate.
  assert (Hone : forall i a, (if f_local f && (b =? a)%nat then corner_value p u e cell sub i / nth a area 0 else 0) * nth b area 0 = if (a =? b)%nat then corner_value p u e cell sub i else 0).
  { intros i a. rewrite Hl. cbn [andb]. rewrite (Nat.eqb_sym a b). destruct (Nat.eqb_spec b a) as [<-|_]; [field; exact Ha|ring]. }
  assert (Hone' : forall i a, match nth_error (faces m) a with Some f0 => if f_local f0 && (b =? a)%nat then corner_value p u e cell sub i / nth a area 0 else 0 | None => 0 end * nth b area 0
     = if (a =? b)%nat then corner_value p u e cell sub i else 0).
  { intros i a. destruct (Nat.eqb_spec a b) as [->|Hne].
    - rewrite Nf. pose proof (Hone i b) as K. rewrite Nat.eqb_refl in K |- *. exact K.
    - destruct (nth_error (faces m) a) as [f0|]; [|ring]. destruct (Nat.eqb_spec b a); [congruence|]. rewrite andb_false_r. ring. }
  cbn [total nth_error]. rewrite !Rmult_plus_distr_r, !Hone', Rmult_0_l.
  pose proof (perm3_cases r0 r1 r2 Hp) as HC. cbn [In] in HC. decompose [or] HC; try contradiction;
    match goal with E : [_; _; _] = [r0; r1; r2] |- _ => injection E as <- <- <- end; cbn [nth];
    destruct (a0 =? b)%nat, (a1 =? b)%nat, (a2 =? b)%nat; ring.
Qed.
Lemma signed_velocity : (forall iv v e a, nth_error (verts m) iv = Some v -> nth_error (t_extra M) iv = Some e -> corner v e -> In a (x_faces v) ->
    (forall f, nth_error (faces m) a = Some f -> f_local f = true -> x_local v = true)) ->
  exists vel, RecoverVelocity p u = Ok vel /\
  forall b f, nth_error (faces m) b = Some f -> f_local f = true -> nth b area 0 <> 0 ->
    nth b vel 0 * nth b area 0 = through m b (fun iv j => corner_sign M iv * matrix_flux m l (heads p u B) iv j).
Proof.
  intros HLoc. destruct recovered_here as [vel [E H]]. exists vel. split; [exact E|]. intros b f Nf Hl Ha. rewrite (H b (nth_lt _ _ _ Nf)).
  unfold through, all_subfaces. rewrite <- total_scale. apply total_ext. intros iv Hiv.
  destruct (vertex_read p ncv G iv Hiv) as [v [e [_ [_ [Ev Ee]]]]]. change (t_mesh (r_mesh p)) with m in Ev. change (r_mesh p) with M in Ee.
  unfold adds, corner_sign. change (t_mesh (r_mesh p)) with m. change (r_mesh p) with M. fold m. rewrite Ev, Ee.
  transitivity ((if negb (e_nbnd e =? 0)%nat && (length (x_cells v) <=? 1)%nat then -1 else 1) *
    total (fun j => match face_at m iv j with Some b' => if (b' =? b)%nat then matrix_flux m l (heads p u B) iv j else 0 | None => 0 end) (rows m iv)).
  2: { rewrite <- total_scale_l. apply total_ext. intros j _. destruct (face_at m iv j) as [b'|]; [|ring]. destruct (b' =? b)%nat; ring. }
  assert (Hsame : negb (e_nbnd e =? 0)%nat && (length (x_cells v) <=? 1)%nat = is_corner v e).
  { unfold is_corner. destruct (e_nbnd e =? 0)%nat; [reflexivity|]. cbn [negb andb orb]. destruct (Nat.leb_spec (length (x_cells v)) 1), (Nat.ltb_spec 1 (length (x_cells v))); try lia; reflexivity. }
  rewrite Hsame. destruct (is_corner v e) eqn:Hcn.
  - apply is_corner_spec in Hcn. destruct (in_dec Nat.eq_dec b (x_faces v)) as [Hi|Hi].
    + rewrite (corner_through iv v e b f); try assumption; [ring|]. exact (HLoc iv v e b Ev Ee Hcn Hi f Nf Hl).
    + destruct (gt_corner M ncv nfv G iv v e Ev Ee Hcn) as [_ [Lf [Lc [Ls [_ [_ [Hin [Hsub _]]]]]]]].
      match goal with |- _ = -1 * ?t => assert (Z : t = 0) end.
      { unfold rows, face_at. rewrite Ev. transitivity (total (fun _ => 0) (length (x_faces v))); [|apply total_zero]. apply total_ext. intros j _.
        destruct (nth_error (x_faces v) j) as [a|] eqn:Na; [|reflexivity]. destruct (Nat.eqb_spec a b) as [->|_]; [|reflexivity]. exfalso. apply Hi. eapply nth_error_In; exact Na. }
      rewrite Z. unfold corner_adds. destruct (x_cells v) as [|c cs] eqn:Ec; [discriminate|]. destruct (Hsub Pressure) as [s [Es _]]. rewrite Es.
      match goal with |- ?t * _ = _ => assert (Z' : t = 0); [|rewrite Z'; ring] end.
      transitivity (total (fun _ => 0) 3); [|apply total_zero]. apply total_ext. intros i _. destruct (nth_error (e_sfaces e) i) as [a|] eqn:Na; [|reflexivity].
      destruct (nth_error (faces (t_mesh (r_mesh p))) a); [|reflexivity]. destruct (Nat.eqb_spec b a) as [->|_]; [|rewrite andb_false_r; reflexivity].
      exfalso. apply Hi. apply Hin. eapply nth_error_In; exact Na.
  - rewrite (vertex_through iv v e b f); try assumption; [ring|]. intros K. apply is_corner_spec in K. congruence.
Qed.
End Fluxes.

(** The velocities of a solution of the steady system balance the sources. *)
Lemma faces_sum : forall M ncv nfv, good_tmesh M ncv nfv -> let m := t_mesh M in forall (w : face -> R) (F : nat -> nat -> R),
  total (fun a => match nth_error (faces m) a with Some f => w f * through m a F | None => 0 end) (length (faces m)) =
  all_subfaces m (fun iv j => match face_at m iv j with Some a => match nth_error (faces m) a with Some f => w f * F iv j | None => 0 end | None => 0 end).
Proof.
  intros M ncv nfv G m w F. unfold through, all_subfaces.
  transitivity (total (fun a => total (fun iv => total (fun j => match nth_error (faces m) a with Some f => w f * match face_at m iv j with Some b => if (b =? a)%nat then F iv j else 0 | None => 0 end | None => 0 end) (rows m iv)) (length (verts m))) (length (faces m))).
  - apply total_ext. intros a Ha. destruct (nth_error (faces m) a) as [f|].
    + rewrite <- total_scale_l. apply total_ext. intros iv _. rewrite <- total_scale_l. reflexivity.
    + symmetry. transitivity (total (fun _ => 0) (length (verts m))); [|apply total_zero]. apply total_ext. intros. apply total_zero.
  - rewrite total_swap. apply total_ext. intros iv Hiv. rewrite total_swap. apply total_ext. intros j Hj.
    unfold face_at, rows in *. destruct (nth_error (verts m) iv) as [v|] eqn:Ev; [|lia].
    destruct (nth_error (x_faces v) j) as [a|] eqn:Ea; [|apply nth_error_None in Ea; lia].
    pose proof (proj2 (gt_faces M ncv nfv G v (nth_error_In _ _ Ev)) a (nth_error_In _ _ Ea)) as Hlt. fold m in Hlt.
    rewrite (total_ext _ (fun b => if (a =? b)%nat then match nth_error (faces m) b with Some f => w f * F iv j | None => 0 end else 0)).
    + exact (total_pick (fun b => match nth_error (faces m) b with Some f => w f * F iv j | None => 0 end) _ a Hlt).
    + intros b _. destruct (nth_error (faces m) b); destruct (a =? b)%nat; ring.
Qed.
Lemma owned_nat : forall m i, local_cell m i = true -> owned m (Z.of_nat i) = true.
Proof. intros m i H. unfold owned. rewrite Nat2Z.id, H. destruct (Z.leb_spec 0 (Z.of_nat i)); [reflexivity|lia]. Qed.
Lemma conservative : forall k M ncv nfv X st gid h force area rho gz u P s,
  good_tmesh M ncv nfv -> answered M (X Pressure) -> Setup k M ncv nfv X = Ok st ->
  let q := mkSteady M (st_T (ts_p st)) gid nfv (Some h) force in
  let p := mkRecover M (st_T (ts_p st)) nfv area rho gz (Some h) in let m := t_mesh M in
  good_steady q -> good_recover p u ->
  (forall a, ~ at_corner M a) ->
  (forall a f, nth_error (faces m) a = Some f -> owned m (f_up f) = true \/ owned m (f_dn f) = true -> f_local f = true /\ nth a area 0 <> 0) ->
  (forall c, (c < length (rocks m))%nat -> nth c rho 0 * nth c gz 0 = 0 /\ nth c u 0 = P (nth c gid O)) ->
  ComputeSystem q ([], []) = Ok s ->
  exists vel, RecoverVelocity p u = Ok vel /\ forall i, local_cell m i = true ->
    total (fun a => match nth_error (faces m) a with Some f => out_of f i * (nth a vel 0 * nth a area 0) | None => 0 end) (length (faces m)) =
    source q i + residual s P (nth i gid O).
Proof.
  intros k M ncv nfv X st gid h force area rho gz u P s G HX HS q p m GS GR HC HA HU E.
  assert (HN : no_corner_flux M).
  { right. intros iv v e Ev Ee Hcn. pose proof (gt_corner M ncv nfv G iv v e Ev Ee Hcn) as [_ [Lf _]]. destruct (x_faces v) as [|a fs] eqn:Ef; [discriminate|].
    apply (HC a). exists iv, v, e. split; [exact Ev|]. split; [exact Ee|]. split; [exact Hcn|]. rewrite Ef. left. reflexivity. }
  destruct (SteadyProofs.balance k M ncv nfv X st gid h force G HX HS GS HN ([], [])) as [s' [E' H]]. fold q in E', H. rewrite E in E'. injection E' as <-.
  destruct (velocity k M ncv nfv X st area rho gz (Some h) u h G HX HS GR) as [vel [Ev Hv]]; [intros b; reflexivity|].
  exists vel. split; [exact Ev|]. intros i Hi. rewrite (H P i Hi). cbn [snd added fold_right].
  fold m. fold m in Hv. fold p in Hv.
  transitivity (total (fun a => match nth_error (faces m) a with Some f => out_of f i * through m a (matrix_flux m (st_l (ts_p st)) (heads p u h)) | None => 0 end) (length (faces m))).
  - apply total_ext. intros a _. destruct (nth_error (faces m) a) as [f|] eqn:Nf; [|reflexivity].
    destruct (Z.eqb_spec (f_up f) (Z.of_nat i)) as [Eu|Nu]; [|destruct (Z.eqb_spec (f_dn f) (Z.of_nat i)) as [Ed|Nd]].
    + destruct (HA a f Nf) as [A1 A2]; [left; rewrite Eu; apply owned_nat; exact Hi|]. rewrite (Hv a f Nf A1 A2 (HC a)). reflexivity.
    + destruct (HA a f Nf) as [A1 A2]; [right; rewrite Ed; apply owned_nat; exact Hi|]. rewrite (Hv a f Nf A1 A2 (HC a)). reflexivity.
    + unfold out_of. apply Z.eqb_neq in Nu, Nd. rewrite Nu, Nd. unfold coeff. ring.
  - rewrite (faces_sum M ncv nfv G (fun f => out_of f i)). fold m.
    match goal with |- ?x = source q i + (?y - source q i - 0) => assert (K : x = y); [|rewrite K; ring] end.
    unfold all_subfaces. apply total_ext. intros iv Hiv. apply total_ext. intros j Hj. fold q.
    assert (Hm : matrix_flux m (st_l (ts_p st)) (heads p u h) iv j = matrix_flux m (st_l (ts_p st)) (values q P h) iv j).
    { unfold matrix_flux. destruct (subface m iv j) as [[[v f] r]|]; [|reflexivity]. f_equal. apply mult_ext. intros c. unfold heads, values.
      change (t_mesh (r_mesh p)) with m. change (t_mesh (s_mesh q)) with m. destruct (Nat.ltb_spec c (length (rocks m))) as [Hc|]; [|reflexivity].
      unfold head. change (r_rho p) with rho. change (r_gz p) with gz. change (s_gid q) with gid. destruct (HU c Hc) as [-> ->]. ring. }
    rewrite Hm. unfold orientation, face_at, rows in *. destruct (nth_error (verts m) iv) as [v|] eqn:Nv; [|lia].
    destruct (nth_error (x_faces v) j) as [a|] eqn:Na; [|apply nth_error_None in Na; lia].
    destruct (subface_at M ncv nfv iv v G Nv j a Na) as [f [sb [Nf [Nsb Hs]]]]. fold m in Nf, Hs. rewrite Nf, Hs, Hi, andb_true_r.
    destruct (active v f) eqn:Ha; [reflexivity|].
    unfold out_of. destruct (Z.eqb_spec (f_up f) (Z.of_nat i)) as [Eu|Nu]; [|destruct (Z.eqb_spec (f_dn f) (Z.of_nat i)) as [Ed|Nd]].
    + pose proof (gs_flags q GS iv j v f _ Hs) as K. rewrite K in Ha; [discriminate|]. left. rewrite Eu. apply owned_nat. exact Hi.
    + pose proof (gs_flags q GS iv j v f _ Hs) as K. rewrite K in Ha; [discriminate|]. right. rewrite Ed. apply owned_nat. exact Hi.
    + unfold coeff. ring.
Qed.
