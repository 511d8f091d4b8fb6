From Coq Require Import Reals List ZArith Arith Bool Lia Lra Permutation.
From Verif Require Import Prelude Arrays SpecFvtpf SpecHdiv FvtpfSumProofs MpfaoProofs Mpfao Wy SpecWy WyProofs WyGlobal SpecWyGlobal.
Import ListNotations.
Local Open Scope R_scope.

(** * Sums *)
Lemma rsum_perm : forall {X} (f : X -> R) l l', Permutation l l' -> rsum f l = rsum f l'.
Proof. intros X f l l' H. induction H; simpl; try rewrite IHPermutation; try ring. congruence. Qed.
Lemma rsum_if_in : forall (c : nat) (b : list nat) (h : nat -> R) (f : nat -> R), NoDup b ->
  (forall a, (a < length b)%nat -> f a = if (nth a b O =? c)%nat then h a else 0) ->
  rsum f (seq 0 (length b)) = match index_of c b with Some i => h i | None => 0 end.
Proof.
  intros c b h f HN Hf. destruct (index_of c b) as [i|] eqn:E.
  - assert (Hi : nth_error b i = Some c).
    { clear -E. revert i E. induction b as [|y b IH]; intros i E; simpl in E; [discriminate|].
      destruct (y =? c)%nat eqn:Ey; [injection E as <-; apply Nat.eqb_eq in Ey; subst; reflexivity|].
      destruct (index_of c b) as [k|]; [injection E as <-; simpl; apply IH; reflexivity|discriminate]. }
    assert (Li : (i < length b)%nat) by (apply nth_error_Some; congruence).
    rewrite (rsum_one f i).
    + rewrite (Hf i Li), (nth_error_nth _ _ _ Hi), Nat.eqb_refl. reflexivity.
    + apply seq_NoDup.
    + apply in_seq. lia.
    + intros a Ha Hne. apply in_seq in Ha. rewrite Hf by lia. destruct (nth a b O =? c)%nat eqn:Ea; [|reflexivity].
      apply Nat.eqb_eq in Ea. exfalso. apply Hne.
      apply (proj1 (NoDup_nth b O) HN); [lia|lia|]. rewrite (nth_error_nth _ _ _ Hi). exact Ea.
  - apply rsum_none. intros a Ha. apply in_seq in Ha. rewrite Hf by lia. destruct (nth a b O =? c)%nat eqn:Ea; [|reflexivity].
    apply Nat.eqb_eq in Ea. exfalso. assert (In c b) by (rewrite <- Ea; apply nth_In; lia).
    destruct (index_of_some c b H) as [i [Hi _]]. congruence.
Qed.

Lemma rsum_places : forall (h : nat -> R) (b : list nat), rsum (fun q => h (nth q b O)) (seq 0 (length b)) = rsum h b.
Proof.
  intros h b. transitivity (rsum h (map (fun q => nth q b O) (seq 0 (length b)))); [rewrite rsum_map; reflexivity|]. f_equal.
  induction b as [|x b IH]; simpl; [reflexivity|]. f_equal. rewrite <- seq_shift, map_map. exact IH.
Qed.
Lemma upd_other : forall (a : list R) i v j, i <> j -> nth j (upd a i v) 0 = nth j a 0.
Proof. intros a i v j H. rewrite <- !nth_default_eq. unfold nth_default. rewrite nth_upd_other by exact H. reflexivity. Qed.
Lemma upd_same : forall (a : list R) i v, (i < length a)%nat -> nth i (upd a i v) 0 = v.
Proof. intros a i v H. apply nth_error_nth. apply nth_upd_same. exact H. Qed.
Lemma nth_map_seq : forall (h : nat -> nat) n j, (j < n)%nat -> nth j (map h (seq 0 n)) O = h j.
Proof.
  intros h n j Hj. apply nth_error_nth. rewrite (map_nth_error h j (seq 0 n) (d := j)); [reflexivity|].
  rewrite (nth_error_nth' _ O) by (rewrite seq_length; exact Hj). rewrite seq_nth by exact Hj. reflexivity.
Qed.

(** * Numbers of cells *)
Lemma column_number : forall gid c, column (gid c) = number gid c.
Proof. reflexivity. Qed.
Lemma owned_number : forall gid c, owned gid c -> number gid c = gid c.
Proof. intros gid c H. unfold owned in H. unfold number. destruct (Z.ltb_spec (gid c) 0); [lia|reflexivity]. Qed.
Lemma cells_range : forall m s c, In c (cells_of m s) -> (c < length (elements m))%nat.
Proof. intros m s c H. unfold cells_of in H. apply filter_In in H. apply Nat.ltb_lt. apply H. Qed.
Lemma faces_range : forall m s f, In f (faces_of m s) -> (fStart m <= f < fEnd m)%nat.
Proof. intros m s f H. unfold faces_of in H. apply filter_In in H. destruct H as [_ H]. apply andb_true_iff in H. destruct H as [H1 H2]. apply Nat.leb_le in H1. apply Nat.ltb_lt in H2. lia. Qed.
Lemma row_here : forall m gid c b, numbered m gid -> owned gid c -> (c < length (elements m))%nat -> (b < length (elements m))%nat ->
  (if (gid b <? 0)%Z then false else (gid b =? gid c)%Z) = (b =? c)%nat.
Proof.
  intros m gid c b HN HO Hc Hb. destruct (Nat.eqb_spec b c) as [->|Hne].
  - unfold owned in HO. destruct (Z.ltb_spec (gid c) 0); [lia|]. apply Z.eqb_refl.
  - destruct (Z.ltb_spec (gid b) 0) as [H|H]; [reflexivity|]. apply Z.eqb_neq. intros E. apply Hne. apply HN; try assumption.
    rewrite !owned_number by (assumption || exact H). exact E.
Qed.
Lemma col_here : forall m gid c b, numbered m gid -> owned gid c -> (c < length (elements m))%nat -> (b < length (elements m))%nat ->
  (number gid b =? gid c)%Z = (b =? c)%nat.
Proof.
  intros m gid c b HN HO Hc Hb. destruct (Nat.eqb_spec b c) as [->|Hne].
  - rewrite owned_number by exact HO. apply Z.eqb_refl.
  - apply Z.eqb_neq. intros E. apply Hne. apply HN; try assumption. rewrite (owned_number gid c HO). exact E.
Qed.

(** * Skipped entries *)
Lemma fold_max_ge : forall (f : nat -> R) l m, m <= fold_left (fun m k => Rmax m (f k)) l m /\ (forall k, In k l -> f k <= fold_left (fun m k => Rmax m (f k)) l m).
Proof.
  intros f l; induction l as [|x l IH]; intros m; simpl; [split; [lra|contradiction]|].
  destruct (IH (Rmax m (f x))) as [H1 H2]. split.
  - eapply Rle_trans; [apply Rmax_l|exact H1].
  - intros k [<-|Hk]; [eapply Rle_trans; [apply Rmax_r|exact H1]|apply H2; exact Hk].
Qed.
Lemma fold_max_in : forall (f : nat -> R) l m, fold_left (fun m k => Rmax m (f k)) l m = m \/ exists k, In k l /\ fold_left (fun m k => Rmax m (f k)) l m = f k.
Proof.
  intros f l; induction l as [|x l IH]; intros m; simpl; [auto|].
  destruct (IH (Rmax m (f x))) as [E|[k [Hk E]]]; [|right; exists k; auto].
  rewrite E. unfold Rmax. destruct (Rle_dec m (f x)); [right; exists x|left]; auto.
Qed.
Lemma maxC_ge : forall nB C i j, (i < nB)%nat -> (j < nB)%nat -> Rabs (C i j) <= maxC nB C.
Proof.
  intros nB C i j Hi Hj. unfold maxC.
  destruct (fold_max_ge (fun k => Rabs (C (k mod nB)%nat (k / nB)%nat)) (seq 0 (nB * nB)) 0) as [_ H].
  specialize (H (j * nB + i)%nat). cbv beta in H.
  replace ((j * nB + i) mod nB)%nat with i in H.
  2:{ rewrite Nat.add_comm, Nat.mod_add by lia. symmetry. apply Nat.mod_small. exact Hi. }
  replace ((j * nB + i) / nB)%nat with j in H.
  2:{ rewrite Nat.add_comm, Nat.div_add by lia. rewrite Nat.div_small by exact Hi. reflexivity. }
  apply H. apply in_seq. nia.
Qed.
Lemma maxC_in : forall nB C, maxC nB C = 0 \/ exists i j, (i < nB)%nat /\ (j < nB)%nat /\ maxC nB C = Rabs (C i j).
Proof.
  intros nB C. unfold maxC. destruct (fold_max_in (fun k => Rabs (C (k mod nB)%nat (k / nB)%nat)) (seq 0 (nB * nB)) 0) as [E|[k [Hk E]]]; [left; exact E|right].
  apply in_seq in Hk. assert (nB <> O) by nia. exists (k mod nB)%nat, (k / nB)%nat. split; [apply Nat.mod_upper_bound; assumption|]. split; [|exact E].
  apply Nat.div_lt_upper_bound; [assumption|lia].
Qed.
Lemma tol_pos : 0 < tol.
Proof. unfold tol. apply Rmult_lt_0_compat; [lra|]. apply Rinv_0_lt_compat. apply pow_lt. lra. Qed.

Section Whole.
Variables (m : mesh) (g : geometry) (nv : nat) (fmap : list nat) (star : nat -> list nat) (vs : list nat) (st : nat -> star_data) (cone : nat -> list nat).
Hypothesis HW : whole_mesh m g nv fmap star vs st.
Variables (gid : nat -> Z) (p : Z -> R) (P : list R).
Hypothesis HN : numbered m gid.
Hypothesis HP : local_copy m gid p P.
Variables (C : nat -> nat -> nat -> R) (D : nat -> nat -> R) (force : nat -> R).
Hypothesis HS : stencils m star vs C D.
Variable Z : nat -> nat -> R.
Hypothesis HZ : solved m P star vs Z.

Definition all_mat : list (BinNums.Z * BinNums.Z * R) := flat_map (fun v => mat_calls gid (cells_of m (star v)) (C v)) vs.
Definition all_vec : list (BinNums.Z * R) := flat_map (fun v => vec_calls gid (cells_of m (star v)) (D v)) vs ++ forcing_calls gid (length (elements m)) force.

Lemma system_calls : compute_system m gid star vs C D force = Ok (all_mat, all_vec).
Proof.
  unfold compute_system.
  destruct (iter_inv (fun l s => s = (flat_map (fun v => mat_calls gid (cells_of m (star v)) (C v)) l, flat_map (fun v => vec_calls gid (cells_of m (star v)) (D v)) l))
    (fun v s => do _ <- vertex_system m (star v) v;
      Ok (fst s ++ mat_calls gid (cells_of m (star v)) (C v), snd s ++ vec_calls gid (cells_of m (star v)) (D v))) vs ([], [])) as [s [E H]].
  - reflexivity.
  - intros l v s Hv ->. destruct (HS v Hv) as [s' [X [Y [E _]]]]. rewrite E. cbn [bind fst snd]. eexists. split; [reflexivity|].
    rewrite !flat_map_app. cbn [flat_map]. rewrite !app_nil_r. reflexivity.
  - rewrite E, H. reflexivity.
Qed.

(** ** Rows of the matrix *)
Section Row.
Variables (c : nat).
Hypothesis Hc : (c < length (elements m))%nat.
Hypothesis HO : owned gid c.
Definition kept (v i : nat) : R :=
  total (fun q => if skipped (length (cells_of m (star v))) (C v) i q then 0 else C v i q * nth (nth q (cells_of m (star v)) O) P 0) (length (cells_of m (star v))).
Definition at_vertex (h : nat -> nat -> R) (v : nat) : R := match index_of c (cells_of m (star v)) with Some i => h v i | None => 0 end.

Lemma row_vertex : forall v, In v vs ->
  rsum (fun x => if (fst (fst x) =? gid c)%Z then snd x * p (snd (fst x)) else 0) (mat_calls gid (cells_of m (star v)) (C v)) = at_vertex kept v.
Proof.
  intros v Hv. unfold mat_calls. rewrite rsum_flat_map. unfold at_vertex.
  apply rsum_if_in; [apply (gs_cells _ _ _ _ (wm_stars _ _ _ _ _ _ _ HW v Hv))|].
  intros a Ha. set (b := cells_of m (star v)) in *.
  assert (Hb : (nth a b O < length (elements m))%nat) by (apply cells_range with (star v); apply nth_In; exact Ha).
  rewrite <- (row_here m gid c (nth a b O) HN HO Hc Hb).
  destruct (Z.ltb_spec (gid (nth a b O)) 0) as [H|H]; [reflexivity|].
  rewrite rsum_flat_map, rsum_seq. unfold kept. fold b. destruct (Z.eqb_spec (gid (nth a b O)) (gid c)) as [E|E].
  - apply total_ext. intros q Hq. destruct (skipped _ _ a q); [reflexivity|]. simpl. rewrite E, Z.eqb_refl.
    rewrite column_number. rewrite (proj2 HP).
    + ring.
    + rewrite (proj1 HP). apply cells_range with (star v). apply nth_In. exact Hq.
  - apply total_none. intros q Hq. destruct (skipped _ _ a q); [reflexivity|]. simpl.
    destruct (Z.eqb_spec (gid (nth a b O)) (gid c)); [contradiction|ring].
Qed.
Lemma vec_vertex : forall v, In v vs ->
  value (vec_calls gid (cells_of m (star v)) (D v)) (gid c) = at_vertex D v.
Proof.
  intros v Hv. unfold value, vec_calls. rewrite rsum_flat_map. unfold at_vertex.
  apply rsum_if_in; [apply (gs_cells _ _ _ _ (wm_stars _ _ _ _ _ _ _ HW v Hv))|].
  intros a Ha. set (b := cells_of m (star v)) in *.
  assert (Hb : (nth a b O < length (elements m))%nat) by (apply cells_range with (star v); apply nth_In; exact Ha).
  rewrite <- (row_here m gid c (nth a b O) HN HO Hc Hb).
  destruct (Z.ltb_spec (gid (nth a b O)) 0) as [H|H]; [reflexivity|]. simpl.
  destruct (Z.eqb_spec (gid (nth a b O)) (gid c)); ring.
Qed.
Lemma forcing_value : value (forcing_calls gid (length (elements m)) force) (gid c) = force c.
Proof.
  unfold value, forcing_calls. rewrite rsum_flat_map. rewrite (rsum_one _ c).
  - unfold owned in HO. destruct (Z.ltb_spec (gid c) 0); [lia|]. simpl. rewrite Z.eqb_refl. ring.
  - apply seq_NoDup.
  - apply in_seq. lia.
  - intros b Hb Hne. apply in_seq in Hb. pose proof (row_here m gid c b HN HO Hc ltac:(lia)) as E.
    destruct (gid b <? 0)%Z; [reflexivity|]. simpl. rewrite E. destruct (Nat.eqb_spec b c); [contradiction|ring].
Qed.
Variable el : element.
Hypothesis HC : whole_cell m g nv fmap star vs st cone c el.
Lemma at_vertices : forall h, rsum (at_vertex h) vs = rsum (at_vertex h) (vmap el).
Proof.
  intros h.
  assert (Hp : Permutation (filter (fun v => match index_of c (cells_of m (star v)) with Some _ => true | None => false end) vs) (vmap el)).
  { apply NoDup_Permutation.
    - apply NoDup_filter. apply (wm_vertices _ _ _ _ _ _ _ HW).
    - apply (proj2 (wc_element _ _ _ _ _ _ _ _ _ _ HC)).
    - intros v. rewrite filter_In. split.
      + intros [Hv Hi]. destruct (index_of c (cells_of m (star v))) as [i|] eqn:E; [|discriminate].
        assert (Hin : In c (cells_of m (star v))).
        { clear -E. revert i E. induction (cells_of m (star v)) as [|y b IH]; intros i E; simpl in E; [discriminate|].
          destruct (y =? c)%nat eqn:Ey; [left; apply Nat.eqb_eq; exact Ey|]. destruct (index_of c b) as [k|]; [right; apply (IH k); reflexivity|discriminate]. }
        destruct (gs_corner _ _ _ _ (wm_stars _ _ _ _ _ _ _ HW v Hv) c Hin) as [el' [He [_ [_ [Hpos _]]]]].
        rewrite (proj1 (wc_element _ _ _ _ _ _ _ _ _ _ HC)) in He. injection He as <-. apply nth_error_In with (pos (st v) c). exact Hpos.
      + intros Hv. destruct (wc_vertices _ _ _ _ _ _ _ _ _ _ HC v Hv) as [H1 H2]. split; [exact H1|].
        destruct (index_of_some c _ H2) as [i [Hi _]]. rewrite Hi. reflexivity. }
  rewrite <- (rsum_perm _ _ _ Hp), rsum_filter. apply rsum_ext. intros v _. unfold at_vertex.
  destruct (index_of c (cells_of m (star v))); reflexivity.
Qed.
Lemma row_value : row_times all_mat (gid c) p - value all_vec (gid c)
  = rsum (fun v => at_vertex kept v - at_vertex D v) (vmap el) - force c.
Proof.
  unfold row_times, all_mat, all_vec, value. rewrite rsum_app, !rsum_flat_map.
  change (rsum (fun x => if (fst x =? gid c)%Z then snd x else 0) (forcing_calls gid (length (elements m)) force)) with (value (forcing_calls gid (length (elements m)) force) (gid c)).
  rewrite forcing_value. rewrite (rsum_ext _ _ vs row_vertex). 
  assert (E2 : rsum (fun x => rsum (fun x0 => if (fst x0 =? gid c)%Z then snd x0 else 0) (vec_calls gid (cells_of m (star x)) (D x))) vs = rsum (at_vertex D) vs) by (apply rsum_ext; exact vec_vertex).
  rewrite E2.
  rewrite !at_vertices. rewrite (rsum_ext (fun v => at_vertex kept v - at_vertex D v) (fun v => at_vertex kept v + (-1) * at_vertex D v)) by (intros; ring).
  rewrite rsum_plus, rsum_scale. ring.
Qed.

(** ** Outflow of the recovered velocities *)
Definition slot (v f : nat) : nat := match index_of f (faces_of m (star v)) with Some i => i | None => O end.
Definition dropped (v i : nat) : R :=
  total (fun q => if skipped (length (cells_of m (star v))) (C v) i q then C v i q * nth (nth q (cells_of m (star v)) O) P 0 else 0) (length (cells_of m (star v))).
Definition corner_flow (v d : nat) : R :=
  dir_sign (st v) c d * (nth (dir_face (st v) c d) (V m) 0 / 2 ^ (dim m - 1)) * Z v (slot v (dir_face (st v) c d)).
Lemma slot_ok : forall v f, In f (faces_of m (star v)) -> nth_error (faces_of m (star v)) (slot v f) = Some f.
Proof. intros v f H. unfold slot. destruct (index_of_some f _ H) as [i [E Hi]]. rewrite E. exact Hi. Qed.
Lemma velocity_defined : forall v, In v vs -> exists A F, velocity_system m P (star v) v = Ok (A, F).
Proof.
  intros v Hv. destruct (velocity_ok m (star v) v (st v) (wm_stars _ _ _ _ _ _ _ HW v Hv) P) as [[A F] [E _]].
  - intros b Hb. rewrite (proj1 HP). apply cells_range with (star v). exact Hb.
  - exists A, F. exact E.
Qed.
Lemma vertex_flow : forall v, In v (vmap el) -> at_vertex kept v - at_vertex D v = total (corner_flow v) (dim m) - at_vertex dropped v.
Proof.
  intros v Hv. destruct (wc_vertices _ _ _ _ _ _ _ _ _ _ HC v Hv) as [Hin Hb].
  destruct (index_of_some c _ Hb) as [i [Ei Hi]]. unfold at_vertex. rewrite Ei.
  destruct (HS v Hin) as [s [X [Y [Hs HF]]]]. destruct (velocity_defined v Hin) as [A [F HV]].
  pose proof (stencil_flow m (star v) v (st v) P s X Y (C v) (D v) A F (Z v) (slot v) (wm_stars _ _ _ _ _ _ _ HW v Hin) (fun b => wm_elements _ _ _ _ _ _ _ HW v b Hin)
    (fun f => wm_faces _ _ _ _ _ _ _ HW v f Hin)) as E.
  specialize (E ltac:(intros b Hb'; rewrite (proj1 HP); apply cells_range with (star v); exact Hb') Hs HF HV (HZ v Hin A F HV) (slot_ok v) i c Hi).
  fold (corner_flow v) in E. change (total (fun d => dir_sign (st v) c d * (nth (dir_face (st v) c d) (V m) 0 / 2 ^ (dim m - 1)) * Z v (slot v (dir_face (st v) c d))) (dim m)) with (total (corner_flow v) (dim m)) in E.
  rewrite <- E. unfold kept, dropped. set (nB := length (cells_of m (star v))).
  enough (total (fun j => C v i j * nth (nth j (cells_of m (star v)) O) P 0) nB =
    total (fun q => if skipped nB (C v) i q then 0 else C v i q * nth (nth q (cells_of m (star v)) O) P 0) nB +
    total (fun q => if skipped nB (C v) i q then C v i q * nth (nth q (cells_of m (star v)) O) P 0 else 0) nB) by lra.
  rewrite <- total_plus. apply total_ext. intros q _. destruct (skipped nB (C v) i q); ring.
Qed.
End Row.

(** ** Storing the velocities *)
Lemma find_vertex_ok : forall base v n o, (base + o + n <= length fmap)%nat ->
  exists r, find_vertex fmap base v n o = Ok r
    /\ match r with
       | Some k => (o <= k < o + n)%nat /\ nth (base + k) fmap O = v
       | None => forall j, (o <= j < o + n)%nat -> nth (base + j) fmap O <> v
       end.
Proof.
  intros base v n; induction n as [|n IH]; intros o Hl; simpl.
  - exists None. split; [reflexivity|]. intros j Hj. lia.
  - rewrite (rd_some fmap (base + o) (nth (base + o) fmap O)) by (apply nth_error_nth'; lia). cbn [bind].
    destruct (Nat.eqb_spec v (nth (base + o) fmap O)) as [E|E].
    + exists (Some o). split; [reflexivity|]. split; [lia|congruence].
    + destruct (IH (S o) ltac:(lia)) as [r [Er Hr]]. exists r. split; [exact Er|]. destruct r as [k|].
      * split; [lia|apply Hr].
      * intros j Hj. destruct (Nat.eq_dec j o) as [->|Hne]; [congruence|apply Hr; lia].
Qed.
Definition place (f j : nat) : nat := (nv * (f - fStart m) + j)%nat.
Definition faces_in_range (f : nat) : Prop := (fStart m <= f < fEnd m)%nat.
Lemma place_inj : forall f j f' j', faces_in_range f -> faces_in_range f' -> (j < nv)%nat -> (j' < nv)%nat -> place f j = place f' j' -> f = f' /\ j = j'.
Proof.
  unfold place, faces_in_range. intros f j f' j' Hf Hf' Hj Hj' E.
  assert (f - fStart m = f' - fStart m)%nat.
  { destruct (Nat.lt_trichotomy (f - fStart m) (f' - fStart m)) as [H|[H|H]]; [nia|exact H|nia]. }
  split; [lia|nia].
Qed.
Lemma place_lt : forall f j, faces_in_range f -> (j < nv)%nat -> (place f j < nv * (fEnd m - fStart m))%nat.
Proof. unfold place, faces_in_range. intros f j Hf Hj. nia. Qed.
Lemma distinct_place : forall f j j', faces_in_range f -> (j < nv)%nat -> (j' < nv)%nat -> nth (place f j) fmap O = nth (place f j') fmap O -> j = j'.
Proof.
  intros f j j' Hf Hj Hj' E. pose proof (wm_distinct _ _ _ _ _ _ _ HW f Hf) as HD. unfold vertices_of_face in HD.
  apply (proj1 (NoDup_nth _ O) HD); rewrite ?map_length, ?seq_length; try assumption.
  rewrite !nth_map_seq by assumption. exact E.
Qed.
Lemma store_ok : forall v amap F vel, NoDup amap -> (forall f, In f amap -> faces_in_range f) -> length vel = (nv * (fEnd m - fStart m))%nat ->
  exists vel', store m nv fmap v amap F vel = Ok vel' /\ length vel' = length vel
    /\ (forall f j, faces_in_range f -> (j < nv)%nat -> nth (place f j) fmap O <> v -> nth (place f j) vel' 0 = nth (place f j) vel 0)
    /\ (forall q f j, nth_error amap q = Some f -> (j < nv)%nat -> nth (place f j) fmap O = v -> nth (place f j) vel' 0 = F q).
Proof.
  intros v amap F vel HD HR HL. unfold store.
  destruct (for_inv (fun k vel' => length vel' = length vel
    /\ (forall f j, faces_in_range f -> (j < nv)%nat -> nth (place f j) fmap O <> v -> nth (place f j) vel' 0 = nth (place f j) vel 0)
    /\ (forall q f j, (q < k)%nat -> nth_error amap q = Some f -> (j < nv)%nat -> nth (place f j) fmap O = v -> nth (place f j) vel' 0 = F q))
    (fun q vel => do f <- rd amap q; if (f <? fStart m)%nat then UB else
      do o <- find_vertex fmap (nv * (f - fStart m)) v nv 0;
      match o with Some o => wr vel (nv * (f - fStart m) + o) (F q) | None => Ok vel end) (length amap) vel) as [vel' [E H]].
  - split; [reflexivity|]. split; [auto|]. intros; lia.
  - intros q vel1 Hq [H1 [H2 H3]]. destruct (nth_error amap q) as [f|] eqn:Ef; [|apply nth_error_None in Ef; lia].
    rewrite (rd_some amap q f Ef). cbn [bind]. pose proof (HR f (nth_error_In _ _ Ef)) as Hf.
    destruct (Nat.ltb_spec f (fStart m)) as [Hlt|_]; [unfold faces_in_range in Hf; lia|].
    destruct (find_vertex_ok (nv * (f - fStart m)) v nv 0) as [r [Er Hr]].
    { rewrite (wm_fmap _ _ _ _ _ _ _ HW). unfold faces_in_range in Hf. nia. }
    rewrite Er. cbn [bind]. destruct r as [k|].
    + destruct Hr as [Hk Hv]. fold (place f k). fold (place f k) in Hv.
      pose proof (place_lt f k Hf ltac:(lia)) as Lk.
      rewrite wr_ok by lia. eexists. split; [reflexivity|]. split; [rewrite length_upd; exact H1|]. split.
      * intros f' j Hf' Hj Hne. rewrite upd_other; [apply H2; assumption|]. intros Ep. apply Hne. rewrite <- Ep. exact Hv.
      * intros q' f' j Hq' Ef' Hj Hv'. destruct (Nat.eq_dec q' q) as [->|Hqq].
        -- rewrite Ef in Ef'. injection Ef' as <-. assert (j = k) as -> by (apply (distinct_place f); [exact Hf|exact Hj|lia|congruence]).
           apply upd_same. lia.
        -- assert (Hff : f' <> f).
           { intros ->. apply Hqq. apply (proj1 (NoDup_nth_error amap) HD); [apply nth_error_Some; congruence|congruence]. }
           rewrite upd_other; [apply (H3 q'); try assumption; lia|].
           intros Ep. apply Hff. symmetry. refine (proj1 (place_inj f k f' j Hf (HR f' (nth_error_In _ _ Ef')) _ Hj Ep)). lia.
    + eexists. split; [reflexivity|]. split; [exact H1|]. split; [exact H2|].
      intros q' f' j Hq' Ef' Hj Hv'. destruct (Nat.eq_dec q' q) as [->|Hqq]; [|apply (H3 q'); try assumption; lia].
      rewrite Ef in Ef'. injection Ef' as <-. exfalso. apply (Hr j); [lia|exact Hv'].
  - exists vel'. split; [exact E|]. destruct H as [H1 [H2 H3]]. split; [exact H1|]. split; [exact H2|].
    intros q f j Hq. apply H3; [|exact Hq]. apply nth_error_Some. congruence.
Qed.
Lemma recover_ok : forall vel, length vel = (nv * (fEnd m - fStart m))%nat ->
  exists vel', recover m nv fmap P star vs Z vel = Ok vel' /\ length vel' = (nv * (fEnd m - fStart m))%nat
    /\ forall f j, faces_in_range f -> (j < nv)%nat -> In (nth (place f j) fmap O) vs -> In f (faces_of m (star (nth (place f j) fmap O))) ->
         nth (place f j) vel' 0 = Z (nth (place f j) fmap O) (slot (nth (place f j) fmap O) f).
Proof.
  intros vel HL. unfold recover.
  destruct (iter_inv (fun l vel' => length vel' = (nv * (fEnd m - fStart m))%nat
    /\ forall f j, faces_in_range f -> (j < nv)%nat -> In (nth (place f j) fmap O) l -> In f (faces_of m (star (nth (place f j) fmap O))) ->
         nth (place f j) vel' 0 = Z (nth (place f j) fmap O) (slot (nth (place f j) fmap O) f))
    (fun v vel => do _ <- velocity_system m P (star v) v; store m nv fmap v (faces_of m (star v)) (Z v) vel) vs vel) as [vel' [E H]].
  - split; [exact HL|]. intros; contradiction.
  - intros l v vel1 Hv [H1 H2]. destruct (velocity_defined v Hv) as [A [F EV]]. rewrite EV. cbn [bind].
    destruct (store_ok v (faces_of m (star v)) (Z v) vel1 (gs_faces _ _ _ _ (wm_stars _ _ _ _ _ _ _ HW v Hv)) (faces_range m (star v)) H1) as [vel2 [E2 [L2 [H3 H4]]]].
    exists vel2. split; [exact E2|]. split; [lia|]. intros f j Hf Hj Hin Hface.
    destruct (Nat.eq_dec (nth (place f j) fmap O) v) as [Ev|Ev].
    + rewrite Ev in *. apply H4; [apply slot_ok; exact Hface|exact Hj|exact Ev].
    + rewrite H3 by assumption. apply H2; try assumption. apply in_app_or in Hin. destruct Hin as [Hin|[Hin|[]]]; [exact Hin|congruence].
  - exists vel'. split; [exact E|exact H].
Qed.

(** ** The balance of a cell *)
Section Balance.
Variables (c : nat) (el : element).
Hypothesis HO : owned gid c.
Hypothesis HC : whole_cell m g nv fmap star vs st cone c el.
Variables (vel : list R).
Hypothesis HL : length vel = (nv * (fEnd m - fStart m))%nat.
Hypothesis HV : forall f j, faces_in_range f -> (j < nv)%nat -> In (nth (place f j) fmap O) vs -> In f (faces_of m (star (nth (place f j) fmap O))) ->
         nth (place f j) vel 0 = Z (nth (place f j) fmap O) (slot (nth (place f j) fmap O) f).

Lemma c_range : (c < length (elements m))%nat.
Proof. apply nth_error_Some. rewrite (proj1 (wc_element _ _ _ _ _ _ _ _ _ _ HC)). discriminate. Qed.
Definition pair_flow (x : nat * nat) : R := outward (dim m) g c (fst x) * (nth (fst x) (V m) 0 / 2 ^ (dim m - 1)) * Z (snd x) (slot (snd x) (fst x)).
Lemma corner_pairs : rsum (fun v => total (corner_flow c v) (dim m)) (vmap el)
  = rsum pair_flow (flat_map (fun v => map (fun d => (dir_face (st v) c d, v)) (seq 0 (dim m))) (vmap el)).
Proof.
  rewrite rsum_flat_map. apply rsum_ext. intros v Hv. rewrite rsum_map, rsum_seq. apply total_ext. intros d Hd.
  unfold corner_flow, pair_flow. simpl.
  destruct (wc_signs _ _ _ _ _ _ _ _ _ _ HC v d Hv Hd) as [[Ha ->]|[Ha ->]]; [rewrite sign_away by exact Ha|rewrite sign_towards by exact Ha]; reflexivity.
Qed.
Lemma INR_nv : INR nv = 2 ^ (dim m - 1).
Proof. rewrite (proj1 (wm_nv _ _ _ _ _ _ _ HW)). rewrite pow_INR. simpl. reflexivity. Qed.
Lemma face_pairs : rsum pair_flow (flat_map (fun f => map (fun v => (f, v)) (vertices_of_face m nv fmap f)) (cone c))
  = rsum (fun f => outward (dim m) g c f * face_flow g (fStart m) nv vel f) (cone c).
Proof.
  rewrite rsum_flat_map. apply rsum_ext. intros f Hf. unfold vertices_of_face. rewrite !rsum_map, rsum_seq.
  pose proof (wc_range _ _ _ _ _ _ _ _ _ _ HC f Hf) as Hr.
  unfold face_flow. rewrite (proj1 (wm_areas _ _ _ _ _ _ _ HW)), INR_nv.
  assert (Hp : 2 ^ (dim m - 1) <> 0) by (apply pow_nonzero; lra).
  transitivity (outward (dim m) g c f * (nth f (V m) 0 / 2 ^ (dim m - 1)) * total (fun j => nth (nv * (f - fStart m) + j) vel 0) nv); [|field; exact Hp].
  rewrite <- total_scale_l. apply total_ext. intros j Hj. unfold pair_flow. simpl. fold (place f j).
  assert (Hin : In (f, nth (place f j) fmap O) (flat_map (fun v => map (fun d => (dir_face (st v) c d, v)) (seq 0 (dim m))) (vmap el))).
  { apply (Permutation_in _ (Permutation_sym (wc_pairs _ _ _ _ _ _ _ _ _ _ HC))). apply in_flat_map. exists f. split; [exact Hf|].
    apply in_map. unfold vertices_of_face. apply in_map_iff. exists j. split; [reflexivity|apply in_seq; lia]. }
  apply in_flat_map in Hin. destruct Hin as [v [Hv Hin]]. apply in_map_iff in Hin. destruct Hin as [d [Ed Hd]]. apply in_seq in Hd.
  injection Ed as Ed Ev. rewrite <- Ev. destruct (wc_vertices _ _ _ _ _ _ _ _ _ _ HC v Hv) as [Hvs Hcell].
  rewrite HV; try assumption; rewrite <- ?Ev; try assumption; [reflexivity|].
  rewrite <- Ed. apply (gs_known _ _ _ _ (wm_stars _ _ _ _ _ _ _ HW v Hvs) c d Hcell). lia.
Qed.
Lemma balance_exact : divergence (dim m) g (fStart m) nv vel c (cone c) = Ok (rsum (fun f => outward (dim m) g c f * face_flow g (fStart m) nv vel f) (cone c))
  /\ row_times all_mat (gid c) p - value all_vec (gid c)
     = rsum (fun f => outward (dim m) g c f * face_flow g (fStart m) nv vel f) (cone c) - force c - rsum (at_vertex c dropped) (vmap el).
Proof.
  split.
  - apply (divergence_ok (dim m) g (fStart m) (fEnd m) nv vel []); [|apply (wc_range _ _ _ _ _ _ _ _ _ _ HC)].
    constructor.
    + destruct (wm_nv _ _ _ _ _ _ _ HW) as [-> _]. pose proof (Nat.pow_nonzero 2 (dim m - 1)). lia.
    + intros b x f Hb. destruct b; discriminate.
    + exact HL.
    + destruct (wm_areas _ _ _ _ _ _ _ HW) as [-> H]. exact H.
  - rewrite (row_value c c_range HO el HC).
    rewrite (rsum_ext (fun v => at_vertex c kept v - at_vertex c D v) (fun v => total (corner_flow c v) (dim m) + (-1) * at_vertex c dropped v)).
    2:{ intros v Hv. rewrite (vertex_flow c el HC v Hv). ring. }
    rewrite rsum_plus, rsum_scale, corner_pairs, (rsum_perm _ _ _ (wc_pairs _ _ _ _ _ _ _ _ _ _ HC)), face_pairs. ring.
Qed.
Lemma dropped_none : significant m star vs C -> rsum (at_vertex c dropped) (vmap el) = 0.
Proof.
  intros HI. apply rsum_none. intros v Hv. destruct (wc_vertices _ _ _ _ _ _ _ _ _ _ HC v Hv) as [Hvs Hcell].
  destruct (index_of_some c _ Hcell) as [i [Ei Hi]]. unfold at_vertex. rewrite Ei.
  assert (Li : (i < length (cells_of m (star v)))%nat) by (apply nth_error_Some; congruence).
  apply total_none. intros q Hq. unfold skipped. destruct (Rlt_dec _ _) as [H|H]; [|reflexivity].
  destruct (maxC_in (length (cells_of m (star v))) (C v)) as [E|[i' [j' [Hi' [Hj' E]]]]]; rewrite E in H.
  - pose proof (Rabs_pos (C v i q)). lra.
  - destruct (HI v i q i' j' Hvs Li Hq Hi' Hj') as [->|H0]; [ring|]. fold tol in H0. lra.
Qed.
Lemma dropped_bound : forall big : nat -> R,
  (forall v i j, In v (vmap el) -> (i < length (cells_of m (star v)))%nat -> (j < length (cells_of m (star v)))%nat -> Rabs (C v i j) <= big v) ->
  Rabs (rsum (at_vertex c dropped) (vmap el)) <= tol * rsum (fun v => big v * rsum (fun b => Rabs (nth b P 0)) (cells_of m (star v))) (vmap el).
Proof.
  intros big HB. rewrite <- rsum_scale. pose proof tol_pos as Ht.
  assert (G : forall l, (forall v, In v l -> In v (vmap el)) -> Rabs (rsum (at_vertex c dropped) l) <= rsum (fun v => tol * (big v * rsum (fun b => Rabs (nth b P 0)) (cells_of m (star v)))) l).
  { induction l as [|v l IH]; intros Hl; simpl; [rewrite Rabs_R0; lra|].
    eapply Rle_trans; [apply Rabs_triang|]. apply Rplus_le_compat; [|apply IH; intros w Hw; apply Hl; right; exact Hw].
    pose proof (Hl v (or_introl eq_refl)) as Hv. destruct (wc_vertices _ _ _ _ _ _ _ _ _ _ HC v Hv) as [Hvs Hcell].
    destruct (index_of_some c _ Hcell) as [i [Ei Hi]]. unfold at_vertex. rewrite Ei.
    assert (Li : (i < length (cells_of m (star v)))%nat) by (apply nth_error_Some; congruence).
    unfold dropped. set (b := cells_of m (star v)) in *.
    assert (Hmax : maxC (length b) (C v) <= big v).
    { destruct (maxC_in (length b) (C v)) as [E|[i' [j' [Hi' [Hj' E]]]]]; rewrite E; [|apply HB; assumption].
      pose proof (Rabs_pos (C v i i)). pose proof (HB v i i Hv Li Li). lra. }
    assert (Q : forall k, (k <= length b)%nat -> Rabs (total (fun q => if skipped (length b) (C v) i q then C v i q * nth (nth q b O) P 0 else 0) k)
      <= tol * big v * total (fun q => Rabs (nth (nth q b O) P 0)) k).
    { induction k as [|k IHk]; intros Hk; simpl; [rewrite Rabs_R0; lra|].
      eapply Rle_trans; [apply Rabs_triang|]. rewrite Rmult_plus_distr_l. apply Rplus_le_compat; [apply IHk; lia|].
      pose proof (Rabs_pos (nth (nth k b O) P 0)) as Hp. unfold skipped. destruct (Rlt_dec _ _) as [Hs|Hs].
      - rewrite Rabs_mult. apply Rmult_le_compat_r; [exact Hp|]. eapply Rle_trans; [left; exact Hs|]. apply Rmult_le_compat_l; [lra|exact Hmax].
      - rewrite Rabs_R0. apply Rmult_le_pos; [|exact Hp]. apply Rmult_le_pos; [lra|]. pose proof (HB v i i Hv Li Li). pose proof (Rabs_pos (C v i i)). lra. }
    eapply Rle_trans; [apply Q; lia|]. rewrite Rmult_assoc. right. do 2 f_equal.
    rewrite <- rsum_seq. apply (rsum_places (fun x => Rabs (nth x P 0))). }
  apply G. auto.
Qed.
End Balance.
End Whole.

Lemma balance_partial : forall m g nv fmap star vs st gid p P C D force Z vel0,
  whole_mesh m g nv fmap star vs st -> numbered m gid -> local_copy m gid p P -> stencils m star vs C D -> solved m P star vs Z ->
  length vel0 = (nv * (fEnd m - fStart m))%nat -> significant m star vs C ->
  exists K F vel, compute_system m gid star vs C D force = Ok (K, F) /\ recover m nv fmap P star vs Z vel0 = Ok vel
    /\ forall cone c el, whole_cell m g nv fmap star vs st cone c el -> owned gid c ->
       exists out, divergence (dim m) g (fStart m) nv vel c (cone c) = Ok out
         /\ row_times K (gid c) p - value F (gid c) = out - force c.
Proof.
  intros m g nv fmap star vs st gid p P C D force Z vel0 HW HN HP HS HZ HL HI.
  destruct (recover_ok m g nv fmap star vs st HW gid p P HP Z vel0 HL) as [vel [E [L H]]].
  exists (all_mat m star vs gid C), (all_vec m star vs gid D force), vel. split; [apply system_calls; exact HS|]. split; [exact E|].
  intros cone c el HC HO.
  destruct (balance_exact m g nv fmap star vs st cone HW gid p P HN HP C D force HS Z HZ c el HO HC vel L H) as [E1 E2].
  eexists. split; [exact E1|]. rewrite E2, (dropped_none m g nv fmap star vs st cone P C c el HC HI). ring.
Qed.
Lemma balance_bound : forall m g nv fmap star vs st gid p P C D force Z vel0,
  whole_mesh m g nv fmap star vs st -> numbered m gid -> local_copy m gid p P -> stencils m star vs C D -> solved m P star vs Z ->
  length vel0 = (nv * (fEnd m - fStart m))%nat ->
  exists K F vel, compute_system m gid star vs C D force = Ok (K, F) /\ recover m nv fmap P star vs Z vel0 = Ok vel
    /\ forall cone c el big, whole_cell m g nv fmap star vs st cone c el -> owned gid c ->
       (forall v i j, In v (vmap el) -> (i < length (cells_of m (star v)))%nat -> (j < length (cells_of m (star v)))%nat -> Rabs (C v i j) <= big v) ->
       exists out, divergence (dim m) g (fStart m) nv vel c (cone c) = Ok out
         /\ Rabs (row_times K (gid c) p - value F (gid c) - (out - force c))
            <= 10000 * / 2 ^ 52 * rsum (fun v => big v * rsum (fun b => Rabs (nth b P 0)) (cells_of m (star v))) (vmap el).
Proof.
  intros m g nv fmap star vs st gid p P C D force Z vel0 HW HN HP HS HZ HL.
  destruct (recover_ok m g nv fmap star vs st HW gid p P HP Z vel0 HL) as [vel [E [L H]]].
  exists (all_mat m star vs gid C), (all_vec m star vs gid D force), vel. split; [apply system_calls; exact HS|]. split; [exact E|].
  intros cone c el big HC HO HB.
  destruct (balance_exact m g nv fmap star vs st cone HW gid p P HN HP C D force HS Z HZ c el HO HC vel L H) as [E1 E2].
  eexists. split; [exact E1|]. rewrite E2.
  match goal with |- Rabs ?x <= _ => replace x with (- rsum (at_vertex m star c (dropped m star P C)) (vmap el)) by ring end.
  rewrite Rabs_Ropp. eapply dropped_bound; eassumption.
Qed.

(** * Symmetry *)
Lemma entry_vertex : forall m gid (star : nat -> list nat) v C c c', NoDup (cells_of m (star v)) -> numbered m gid ->
  (c < length (elements m))%nat -> (c' < length (elements m))%nat -> owned gid c -> owned gid c' ->
  entry (mat_calls gid (cells_of m (star v)) C) (gid c) (gid c')
  = match index_of c (cells_of m (star v)) with
    | Some i => match index_of c' (cells_of m (star v)) with
                | Some j => if skipped (length (cells_of m (star v))) C i j then 0 else C i j
                | None => 0
                end
    | None => 0
    end.
Proof.
  intros m gid star v C c c' HD HN Hc Hc' HO HO'. unfold entry, mat_calls. rewrite rsum_flat_map.
  set (b := cells_of m (star v)) in *.
  apply (rsum_if_in c b (fun i => match index_of c' b with Some j => if skipped (length b) C i j then 0 else C i j | None => 0 end)); [exact HD|].
  intros a Ha. assert (Hb : (nth a b O < length (elements m))%nat) by (apply cells_range with (star v); apply nth_In; exact Ha).
  rewrite <- (row_here m gid c (nth a b O) HN HO Hc Hb).
  destruct (Z.ltb_spec (gid (nth a b O)) 0) as [H|H]; [reflexivity|]. rewrite rsum_flat_map.
  destruct (Z.eqb_spec (gid (nth a b O)) (gid c)) as [E|E].
  - apply (rsum_if_in c' b (fun j => if skipped (length b) C a j then 0 else C a j)); [exact HD|].
    intros q Hq. assert (Hb' : (nth q b O < length (elements m))%nat) by (apply cells_range with (star v); apply nth_In; exact Hq).
    rewrite <- (col_here m gid c' (nth q b O) HN HO' Hc' Hb').
    destruct (skipped (length b) C a q); [simpl; destruct (_ =? _)%Z; reflexivity|]. simpl. rewrite E, Z.eqb_refl, column_number. simpl.
    destruct (_ =? _)%Z; ring.
  - apply rsum_none. intros q _. destruct (skipped (length b) C a q); [reflexivity|]. simpl.
    destruct (Z.eqb_spec (gid (nth a b O)) (gid c)); [contradiction|]. simpl. ring.
Qed.
Lemma index_of_lt : forall x l k, index_of x l = Some k -> (k < length l)%nat.
Proof.
  intros x l; induction l as [|y b IH]; intros k E; simpl in E; [discriminate|]. simpl.
  destruct (y =? x)%nat; [injection E as <-; lia|]. destruct (index_of x b) as [k'|]; [|discriminate]. injection E as <-.
  specialize (IH k' eq_refl). lia.
Qed.
Lemma symmetric_matrix : forall m g nv fmap star vs st gid C D force,
  whole_mesh m g nv fmap star vs st -> numbered m gid -> stencils m star vs C D ->
  exists K F, compute_system m gid star vs C D force = Ok (K, F) /\
    forall c c', (c < length (elements m))%nat -> (c' < length (elements m))%nat -> owned gid c -> owned gid c' ->
      entry K (gid c) (gid c') = entry K (gid c') (gid c).
Proof.
  intros m g nv fmap star vs st gid C D force HW HN HS.
  exists (all_mat m star vs gid C), (all_vec m star vs gid D force). split; [apply system_calls; exact HS|].
  intros c c' Hc Hc' HO HO'. unfold entry, all_mat. rewrite !rsum_flat_map. apply rsum_ext. intros v Hv.
  change (entry (mat_calls gid (cells_of m (star v)) (C v)) (gid c) (gid c') = entry (mat_calls gid (cells_of m (star v)) (C v)) (gid c') (gid c)).
  pose proof (wm_stars _ _ _ _ _ _ _ HW v Hv) as HG. pose proof (gs_cells _ _ _ _ HG) as HD.
  rewrite !(entry_vertex m gid star v) by assumption.
  destruct (index_of c (cells_of m (star v))) as [i|] eqn:Ei; destruct (index_of c' (cells_of m (star v))) as [j|] eqn:Ej; try reflexivity.
  destruct (HS v Hv) as [s [X [Y [Es HF]]]].
  destruct (stencil_facts m (star v) v (st v) HG (fun b => wm_elements _ _ _ _ _ _ _ HW v b Hv)) as [_ Q].
  destruct (Q s X Y (C v) (D v) Es HF) as [Hsym _]. pose proof (Hsym i j (index_of_lt _ _ _ Ei) (index_of_lt _ _ _ Ej)) as E.
  unfold skipped. rewrite E. reflexivity.
Qed.
