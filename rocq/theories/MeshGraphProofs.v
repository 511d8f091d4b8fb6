(** Proofs about the cells kept and the graph of neighbouring cells. *)
From Coq Require Import List Arith ZArith Lia Bool.
From Verif Require Import Prelude Arrays UGrid UGridExtraProofs MeshFile SpecMeshFile SpecUGrid MeshFileProofs.
Import ListNotations.
Local Open Scope nat_scope.

Lemma known_supported : forall c, known_type (fst c) = true <-> supported c.
Proof.
  intros [ty xs]. unfold known_type, supported. cbn [fst In]. rewrite !orb_true_iff, !Z.eqb_eq. intuition lia.
Qed.

Definition padded (bs : nat) (c : file_cell) : file_cell := (fst c, snd c ++ repeat 0%Z (bs - 1 - length (snd c))).
Lemma padded_kept : forall bs c, map (fun x => (x - 1)%Z) (snd (padded bs c)) = kept_vertices bs c.
Proof.
  intros bs c. unfold padded, kept_vertices. cbn [snd]. rewrite map_app. f_equal.
  induction (bs - 1 - length (snd c)) as [|n IH]; [reflexivity|]. cbn [repeat map]. rewrite IH. reflexivity.
Qed.
Lemma read_blocks : forall bs cells, 0 < bs -> Forall (fun c : file_cell => length (snd c) <= bs - 1) cells ->
  read_cells bs (concat (map (block bs) cells)) =
  if forallb (fun c => known_type (fst c)) cells then Ok (map (kept_vertices bs) cells) else Err.
Proof.
  intros bs cells Hb H.
  replace (map (block bs) cells) with (map (fun c : file_cell => fst c :: snd c) (map (padded bs) cells)) by
    (rewrite map_map; reflexivity).
  rewrite read_cells_ok; [|exact Hb|].
  - replace (forallb (fun c : Z * list Z => known_type (fst c)) (map (padded bs) cells))
      with (forallb (fun c : file_cell => known_type (fst c)) cells)
      by (clear H; induction cells as [|c l IH]; [reflexivity|]; simpl; rewrite IH; reflexivity).
    rewrite map_map. destruct (forallb _ cells); [|reflexivity]. f_equal. apply map_ext. intro c. apply padded_kept.
  - apply Forall_map. eapply Forall_impl; [|exact H]. intros c Hc. cbn in *. rewrite app_length, repeat_length. lia.
Qed.

Lemma ranks_concat : forall {A B} (h : A -> B) (items : list A) nls off, off + list_sum nls <= length items ->
  concat (map (fun r => map h (firstn (snd r) (skipn (fst r) items))) (ranks_from off nls)) =
  map h (firstn (list_sum nls) (skipn off items)) /\
  map (fun r => length (map h (firstn (snd r) (skipn (fst r) items)))) (ranks_from off nls) = nls.
Proof.
  intros A B h items nls; induction nls as [|n nls IH]; intros off HL; [split; reflexivity|].
  change (list_sum (n :: nls)) with (n + list_sum nls) in *.
  cbn [ranks_from map concat fst snd]. destruct (IH (off + n) ltac:(lia)) as [-> ->].
  rewrite map_length, firstn_length, skipn_length, Nat.min_l by lia. split; [|reflexivity].
  rewrite <- map_app. f_equal. rewrite <- (skipn_more n off).
  rewrite <- (firstn_skipn n (skipn off items)) at 3.
  rewrite firstn_app, firstn_firstn, firstn_length, skipn_length, Nat.min_r by lia. f_equal.
  f_equal. lia.
Qed.

Lemma block_length : forall bs c, 0 < bs -> length (snd c) <= bs - 1 -> length (block bs c) = bs.
Proof. intros bs c Hb H. unfold block. cbn [length]. rewrite app_length, repeat_length. lia. Qed.

Lemma all_parts : forall bs cells nls, 0 < bs ->
  Forall (fun c : file_cell => length (snd c) <= bs - 1) cells -> list_sum nls = length cells ->
  mapM (fun r => read_cells bs (share bs (fst r) (snd r) (cells_vector bs cells))) (ranks_from 0 nls) =
  if forallb (fun c => known_type (fst c)) cells
  then Ok (map (fun r => map (kept_vertices bs) (firstn (snd r) (skipn (fst r) cells))) (ranks_from 0 nls)) else Err.
Proof.
  intros bs cells nls Hb H HL. unfold cells_vector.
  rewrite (parts_of (read_cells bs) (block bs) bs cells (kept_vertices bs) (fun c => known_type (fst c))).
  - cbn [skipn]. rewrite HL, firstn_all. reflexivity.
  - eapply Forall_impl; [|exact H]. intros c Hc. apply block_length; assumption.
  - lia.
  - intros l Hl. apply read_blocks; [exact Hb|]. rewrite Forall_forall in *. auto.
Qed.

Lemma cells_proof : forall bs cells nls, 0 < bs ->
  Forall (fun c : file_cell => length (snd c) <= bs - 1) cells -> list_sum nls = length cells -> Forall supported cells ->
  exists parts,
    mapM (fun r => read_cells bs (share bs (fst r) (snd r) (cells_vector bs cells))) (ranks_from 0 nls) = Ok parts /\
    map (@length _) parts = nls /\ concat parts = map (kept_vertices bs) cells.
Proof.
  intros bs cells nls Hb H HL Hs. rewrite all_parts by assumption.
  replace (forallb _ cells) with true.
  2:{ symmetry. apply forallb_forall. intros c Hc. apply known_supported. rewrite Forall_forall in Hs. auto. }
  eexists. split; [reflexivity|]. destruct (ranks_concat (kept_vertices bs) cells nls 0 ltac:(lia)) as [E1 E2].
  rewrite map_map. split; [exact E2|]. rewrite E1. cbn [skipn]. rewrite HL, firstn_all. reflexivity.
Qed.
Lemma unsupported_proof : forall bs cells nls, 0 < bs ->
  Forall (fun c : file_cell => length (snd c) <= bs - 1) cells -> list_sum nls = length cells ->
  Exists (fun c => ~ supported c) cells ->
  mapM (fun r => read_cells bs (share bs (fst r) (snd r) (cells_vector bs cells))) (ranks_from 0 nls) = Err.
Proof.
  intros bs cells nls Hb H HL Hs. rewrite all_parts by assumption.
  replace (forallb _ cells) with false; [reflexivity|]. symmetry. apply not_true_is_false. intro F.
  rewrite forallb_forall in F. apply Exists_exists in Hs. destruct Hs as [c [Hc Hn]]. apply Hn, known_supported, F, Hc.
Qed.

Lemma coordinates_proof : forall {A} (zero : A) vs nls, Forall (fun r => length r = 3) vs -> list_sum nls = length vs ->
  exists parts,
    mapM (fun r => read_coordinates zero 3 (share 3 (fst r) (snd r) (concat vs))) (ranks_from 0 nls) = Ok parts /\
    map (@length _) parts = nls /\ concat parts = vs.
Proof.
  intros A zero vs nls H HL.
  pose proof (parts_of (read_coordinates zero 3) (fun x => x) 3 vs (fun x => x) (fun _ => true) nls 0 H ltac:(lia)) as P.
  rewrite map_id in P. rewrite P; clear P.
  - replace (forallb _ _) with true by (symmetry; apply forallb_forall; reflexivity).
    eexists. split; [reflexivity|]. destruct (ranks_concat (fun x : list A => x) vs nls 0 ltac:(lia)) as [E1 E2].
    rewrite map_map. split; [exact E2|]. rewrite E1, map_id. cbn [skipn]. rewrite HL, firstn_all. reflexivity.
  - intros l Hl. rewrite !map_id. replace (forallb _ _) with true by (symmetry; apply forallb_forall; reflexivity).
    apply read_coordinates_ok. rewrite Forall_forall in *. auto.
Qed.

(** ** Compressed rows *)
Fixpoint starts (a : nat) (ls : list (list Z)) : list nat :=
  match ls with [] => [a] | l :: ls => a :: starts (a + length l) ls end.
Lemma starts_snoc : forall ls l a, starts a (ls ++ [l]) = starts a ls ++ [a + length (concat ls) + length l].
Proof.
  induction ls as [|m ls IH]; intros l a; cbn [app starts concat length].
  - rewrite Nat.add_0_r. reflexivity.
  - rewrite IH, app_length. cbn [app]. f_equal. f_equal. f_equal. lia.
Qed.
Lemma starts_length : forall ls a, length (starts a ls) = S (length ls).
Proof. induction ls as [|l ls IH]; intro a; cbn [starts length]; [reflexivity|]. rewrite IH. reflexivity. Qed.
Lemma starts_csr : forall ls pre post, csr (starts (length pre) ls) (pre ++ concat ls ++ post) ls.
Proof.
  induction ls as [|l ls IH]; intros pre post i row Hi.
  - destruct i; discriminate Hi.
  - destruct i as [|i].
    + injection Hi as <-. exists (length pre). split; [reflexivity|]. split.
      * cbn [starts nth_error]. destruct ls; reflexivity.
      * intros k Hk. rewrite nth_error_app2 by lia. replace (length pre + k - length pre) with k by lia.
        cbn [concat]. rewrite <- app_assoc, nth_error_app1 by exact Hk. reflexivity.
    + destruct (IH (pre ++ l) post i row Hi) as [a [H1 [H2 H3]]]. rewrite app_length in H1, H2.
      exists a. cbn [starts]. split; [exact H1|]. split; [exact H2|]. intros k Hk. rewrite <- (H3 k Hk).
      cbn [concat]. rewrite !app_assoc. reflexivity.
Qed.

Definition used_columns (ncol : nat) (row : list Z) : list Z := filter (fun x => (0 <=? x)%Z) (firstn ncol row).
Lemma used_le : forall ncol row, length (used_columns ncol row) <= ncol.
Proof.
  intros ncol row. unfold used_columns. pose proof (firstn_le_length ncol row).
  assert (forall l : list Z, length (filter (fun x => (0 <=? x)%Z) l) <= length l).
  { induction l as [|x l IHl]; cbn [filter length]; [lia|]. destruct (0 <=? x)%Z; cbn [length]; lia. }
  specialize (H0 (firstn ncol row)). lia.
Qed.

Lemma push_mid : forall x a y b, push x (length a, a ++ y :: b) = Ok (S (length a), a ++ x :: b).
Proof. intros. unfold push. rewrite wr_mid. reflexivity. Qed.

Lemma columns_loop : forall rows row ic js n,
  nth_error rows ic = Some row -> forall todo done K, row = done ++ todo -> n <= length todo -> n <= K ->
  exists K', K' + n >= K /\ loop n (length done)
    (fun ivert st => do row <- rd rows ic; do x <- rd row ivert; if (0 <=? x)%Z then push x st else Ok st)
    (length js, js ++ repeat (-1)%Z K) =
  Ok (length (js ++ used_columns n todo), (js ++ used_columns n todo) ++ repeat (-1)%Z K').
Proof.
  intros rows row ic js n Hr. revert js. induction n as [|n IH]; intros js todo done K E Hn HK.
  - exists K. split; [lia|]. cbn [loop used_columns firstn filter]. unfold used_columns. cbn [firstn filter].
    rewrite app_nil_r. reflexivity.
  - destruct todo as [|x todo]; [simpl in Hn; lia|]. cbn [loop]. rewrite (rd_some _ _ _ Hr). cbn [bind].
    assert (R : rd row (length done) = Ok x) by (rewrite E; apply rd_mid). rewrite R. cbn [bind].
    assert (E' : row = (done ++ [x]) ++ todo) by (rewrite <- app_assoc; exact E).
    unfold used_columns. cbn [firstn filter]. destruct (0 <=? x)%Z eqn:X.
    + destruct K as [|K]; [lia|]. cbn [repeat]. rewrite push_mid. cbn [bind].
      destruct (IH (js ++ [x]) todo (done ++ [x]) K E' ltac:(simpl in Hn; lia) ltac:(lia)) as [K' [HK' L]].
      exists K'. split; [lia|]. rewrite (rd_some _ _ _ Hr) in L. rewrite !app_length in L. cbn [length] in L. rewrite !Nat.add_1_r, <- !app_assoc in L.
      cbn [app] in L. etransitivity; [exact L|]. unfold used_columns. rewrite app_length. cbn [length]. rewrite <- !app_assoc. cbn [app].
      f_equal. f_equal. lia.
    + cbn [bind].
      destruct (IH js todo (done ++ [x]) K E' ltac:(simpl in Hn; lia) ltac:(lia)) as [K' [HK' L]].
      exists K'. split; [lia|]. rewrite (rd_some _ _ _ Hr) in L. rewrite app_length in L. cbn [length] in L. rewrite Nat.add_1_r in L. exact L.
Qed.

Lemma rows_loop : forall ncol rows todo done K, rows = done ++ todo ->
  Forall (fun r => ncol <= length r) rows -> length todo * ncol <= K ->
  exists K', loop (length todo) (length done)
    (fun icell st =>
      let '(count, i, j) := st in
      do st' <- for_ ncol (fun ivert st =>
          do row <- rd rows icell; do x <- rd row ivert;
          if (0 <=? x)%Z then push x st else Ok st) (count, j);
      do i <- wr i (icell + 1) (fst st');
      Ok (fst st', i, snd st'))
    (length (concat (map (used_columns ncol) done)), starts 0 (map (used_columns ncol) done) ++ repeat 0 (length todo),
     concat (map (used_columns ncol) done) ++ repeat (-1)%Z K) =
  Ok (length (concat (map (used_columns ncol) rows)), starts 0 (map (used_columns ncol) rows),
      concat (map (used_columns ncol) rows) ++ repeat (-1)%Z K').
Proof.
  intros ncol rows todo; induction todo as [|r todo IH]; intros done K E HF HK.
  - exists K. rewrite app_nil_r in E. subst done. cbn [length loop repeat]. rewrite app_nil_r. reflexivity.
  - cbn [length] in HK. cbn [length loop].
    assert (Hr : nth_error rows (length done) = Some r).
    { rewrite E, nth_error_app2, Nat.sub_diag by lia. reflexivity. }
    assert (Hl : ncol <= length r) by (rewrite Forall_forall in HF; apply HF; eapply nth_error_In; exact Hr).
    destruct (columns_loop rows r (length done) (concat (map (used_columns ncol) done)) ncol Hr r [] K eq_refl Hl ltac:(lia)) as [K1 [HK1 L]].
    cbn [length] in L. unfold for_ at 1. rewrite L. cbn [bind fst snd repeat].
    assert (S1 : length done + 1 = length (starts 0 (map (used_columns ncol) done))) by (rewrite starts_length, map_length; lia).
    rewrite S1, wr_mid. cbn [bind].
    destruct (IH (done ++ [r]) K1 ltac:(rewrite <- app_assoc; exact E) HF ltac:(lia)) as [K' L'].
    exists K'. rewrite <- L'. rewrite !map_app. cbn [map]. rewrite starts_snoc, concat_app, !app_length. cbn [concat length].
    rewrite app_nil_r, Nat.add_0_l, <- !app_assoc, Nat.add_1_r. reflexivity.
Qed.

Lemma adjacency_ok : forall ncol rows, Forall (fun r => ncol <= length r) rows ->
  exists K, adjacency ncol rows = Ok (starts 0 (map (used_columns ncol) rows),
                                      concat (map (used_columns ncol) rows) ++ repeat (-1)%Z K).
Proof.
  intros ncol rows H. unfold adjacency. rewrite Nat.add_1_r. cbn [repeat].
  rewrite wr_ok by (simpl; lia). cbn [upd bind].
  destruct (rows_loop ncol rows rows [] (length rows * ncol) eq_refl H ltac:(lia)) as [K L].
  cbn [map concat length starts app] in L. exists K. unfold for_ at 1. rewrite L. reflexivity.
Qed.

Lemma adjacency_proof : forall ncol rows, Forall (fun r => ncol <= length r) rows ->
  exists ia ja, adjacency ncol rows = Ok (ia, ja) /\ nth_error ia 0 = Some 0 /\ length ia = S (length rows) /\
  csr ia ja (map (fun r => filter (fun x => (0 <=? x)%Z) (firstn ncol r)) rows).
Proof.
  intros ncol rows H. destruct (adjacency_ok ncol rows H) as [K E]. eexists. eexists. split; [exact E|].
  split; [destruct rows; reflexivity|]. split; [rewrite starts_length, map_length; reflexivity|].
  apply (starts_csr (map (used_columns ncol) rows) [] (repeat (-1)%Z K)).
Qed.

Lemma matrix_row_starts : forall ls pre post c, c < length ls ->
  matrix_row (starts (length pre) ls, pre ++ concat ls ++ post) c = nth c ls [].
Proof.
  induction ls as [|l ls IH]; intros pre post c Hc; [simpl in Hc; lia|]. destruct c as [|c].
  - unfold matrix_row. cbn [starts fst snd nth].
    replace (nth 0 (starts (length pre + length l) ls) 0) with (length pre + length l) by (destruct ls; reflexivity).
    rewrite skipn_app, skipn_all2, Nat.sub_diag by lia. cbn [app skipn concat].
    rewrite (Nat.add_comm (length pre)), Nat.add_sub, <- app_assoc, firstn_app, Nat.sub_diag. cbn [firstn].
    rewrite firstn_all, app_nil_r. reflexivity.
  - specialize (IH (pre ++ l) post c ltac:(simpl in Hc; lia)). rewrite app_length in IH. cbn [nth]. rewrite <- IH.
    unfold matrix_row. cbn [starts fst snd nth concat]. rewrite !app_assoc. reflexivity.
Qed.
Lemma matrix_rows_starts : forall ls post, matrix_rows (starts 0 ls, concat ls ++ post) = ls.
Proof.
  intros ls post. unfold matrix_rows. cbn [fst]. rewrite starts_length. replace (S (length ls) - 1) with (length ls) by lia.
  apply (nth_ext _ _ [] []).
  - rewrite map_length, seq_length. reflexivity.
  - intros n Hn. rewrite map_length, seq_length in Hn.
    rewrite (nth_indep _ [] (matrix_row (starts 0 ls, concat ls ++ post) 0)) by (rewrite map_length, seq_length; exact Hn).
    rewrite map_nth, seq_nth by exact Hn. apply (matrix_row_starts ls [] post n Hn).
Qed.

Lemma matrices_ok : forall ncol parts, Forall (Forall (fun r => ncol <= length r)) parts ->
  exists ms, mapM (adjacency ncol) parts = Ok ms /\ concat (map matrix_rows ms) = map (used_columns ncol) (concat parts).
Proof.
  intros ncol parts H; induction H as [|p parts Hp _ IH]; [exists []; split; reflexivity|].
  destruct IH as [ms [E1 E2]]. destruct (adjacency_ok ncol p Hp) as [K E]. cbn [mapM]. rewrite E, E1. cbn [bind].
  eexists. split; [reflexivity|]. cbn [map concat]. rewrite matrix_rows_starts, E2, map_app. reflexivity.
Qed.

(** ** Widths *)
Lemma active_all_ok : forall maxv parts, Forall (Forall (fun r => maxv <= length r)) parts ->
  exists m, active_all maxv parts = Ok m /\ m <= maxv /\ (forall p r, In p parts -> In r p -> used maxv r <= m).
Proof.
  intros maxv parts H. unfold active_all.
  assert (G : forall a, a <= maxv -> exists m,
    fold_left (fun a vs => do x <- a; do y <- active maxv vs; Ok (Nat.max x y)) parts (Ok a) = Ok m /\
    a <= m /\ m <= maxv /\ (forall p r, In p parts -> In r p -> used maxv r <= m)).
  { induction H as [|p parts Hp _ IH]; intros a Ha.
    - exists a. split; [reflexivity|]. split; [lia|]. split; [exact Ha|]. intros p r [].
    - cbn [fold_left bind]. destruct (active_ok maxv p Hp) as [y [Ey [H1 H2]]]. rewrite Ey. cbn [bind].
      assert (y <= maxv).
      { destruct H2 as [->|[row [_ ->]]]; [lia|]. unfold used. pose proof (firstn_le_length maxv row).
        assert (forall l : list Z, length (filter (fun x => (0 <? x)%Z) l) <= length l).
        { induction l as [|x l IHl]; cbn [filter length]; [lia|]. destruct (0 <? x)%Z; cbn [length]; lia. }
        specialize (H0 (firstn maxv row)). lia. }
      destruct (IH (Nat.max a y) ltac:(lia)) as [m [E [M1 [M2 M3]]]]. exists m. split; [exact E|]. split; [lia|]. split; [exact M2|].
      intros q r [<-|Hq] Hr; [specialize (H1 r Hr); lia|apply (M3 q r Hq Hr)]. }
  destruct (G 0 ltac:(lia)) as [m [E [_ [M2 M3]]]]. eauto.
Qed.

(** ** The graph *)
Lemma graph_nth : forall n rows c nbs, nth_error (cell_graph n rows) c = Some nbs ->
  c < length rows /\ NoDup nbs /\
  forall d, In d nbs <-> d < length rows /\ d <> c /\ n <= common (nth c rows []) (nth d rows []).
Proof.
  intros n rows c nbs H. unfold cell_graph in H.
  assert (HL : c < length rows).
  { assert (HS : nth_error (map (fun c => filter (fun d => negb (d =? c) && (n <=? common (nth c rows []) (nth d rows []))) (seq 0 (length rows)))
      (seq 0 (length rows))) c <> None) by congruence. apply nth_error_Some in HS. rewrite map_length, seq_length in HS. exact HS. }
  split; [exact HL|]. erewrite map_nth_error in H.
  2:{ rewrite nth_error_nth' with (d := 0) by (rewrite seq_length; exact HL). rewrite seq_nth by exact HL. reflexivity. }
  injection H as <-. split; [apply NoDup_filter, seq_NoDup|].
  intro d. rewrite filter_In, in_seq, andb_true_iff, negb_true_iff, Nat.eqb_neq, Nat.leb_le. cbn [Nat.add]. intuition lia.
Qed.

Lemma common_three : forall a b, NoDup a -> (3 <= common a b <-> share_three a b).
Proof.
  intros a b Ha. unfold common. set (l := filter _ a).
  assert (ND : NoDup l) by (apply NoDup_filter; exact Ha).
  assert (HI : forall x, In x l <-> In x a /\ In x b).
  { intro x. unfold l. rewrite filter_In, existsb_exists. split.
    - intros [H1 [y [H2 H3]]]. apply Z.eqb_eq in H3. subst y. auto.
    - intros [H1 H2]. split; [exact H1|]. exists x. split; [exact H2|apply Z.eqb_refl]. }
  split.
  - intro HL. destruct l as [|x [|y [|z l']]]; try (simpl in HL; lia). exists x, y, z.
    inversion ND as [|? ? N1 ND1]; subst. inversion ND1 as [|? ? N2 ND2]; subst.
    cbn [In] in N1, N2.
    split; [intro; apply N1; auto|]. split; [intro; apply N1; auto|]. split; [intro; apply N2; auto|].
    split; intros w Hw; apply (HI w); destruct Hw as [<-|[<-|[<-|[]]]]; simpl; auto.
  - intros [x [y [z [Hxy [Hxz [Hyz [Ia Ib]]]]]]].
    assert (NoDup [x; y; z]) by (repeat constructor; simpl; intuition congruence).
    apply (NoDup_incl_length H). intros w Hw. apply HI. split; [apply Ia|apply Ib]; exact Hw.
Qed.

Lemma share_three_shift : forall a b, share_three (map (fun x => (x - 1)%Z) a) (map (fun x => (x - 1)%Z) b) <-> share_three a b.
Proof.
  intros a b. split; intros [x [y [z [Hxy [Hxz [Hyz [Ia Ib]]]]]]].
  - exists (x + 1)%Z, (y + 1)%Z, (z + 1)%Z. repeat (split; [lia|]).
    assert (G : forall l, incl [x; y; z] (map (fun x => (x - 1)%Z) l) -> incl [(x + 1)%Z; (y + 1)%Z; (z + 1)%Z] l).
    { intros l Hl w Hw. assert (In (w - 1)%Z [x; y; z]) as Hi by (simpl in *; lia).
      apply Hl, in_map_iff in Hi. destruct Hi as [u [E Hu]]. replace w with u by lia. exact Hu. }
    split; apply G; assumption.
  - exists (x - 1)%Z, (y - 1)%Z, (z - 1)%Z. repeat (split; [lia|]).
    change [(x - 1)%Z; (y - 1)%Z; (z - 1)%Z] with (map (fun x => (x - 1)%Z) [x; y; z]).
    split; apply incl_map; assumption.
Qed.

Lemma filter_all : forall (f : Z -> bool) l, Forall (fun x => f x = true) l -> filter f l = l.
Proof. intros f l H; induction H as [|x l Hx _ IH]; [reflexivity|]. simpl. rewrite Hx, IH. reflexivity. Qed.
Lemma filter_none : forall (f : Z -> bool) x n, f x = false -> filter f (repeat x n) = [].
Proof. intros f x n H; induction n as [|n IH]; [reflexivity|]. simpl. rewrite H. exact IH. Qed.
Lemma kept_length : forall bs c, length (snd c) <= bs - 1 -> length (kept_vertices bs c) = bs - 1.
Proof. intros bs c H. unfold kept_vertices. rewrite app_length, map_length, repeat_length. lia. Qed.
Lemma kept_used : forall bs c, length (snd c) <= bs - 1 -> Forall (fun x => (2 <= x)%Z) (snd c) ->
  used (bs - 1) (kept_vertices bs c) = length (snd c).
Proof.
  intros bs c HL H. unfold used. rewrite firstn_all2 by (rewrite kept_length; lia).
  unfold kept_vertices. rewrite filter_app, filter_none, app_nil_r by reflexivity.
  rewrite filter_all, map_length; [reflexivity|]. apply Forall_map. eapply Forall_impl; [|exact H].
  intros x Hx. cbv beta in *. apply Z.ltb_lt. lia.
Qed.
Lemma kept_columns : forall bs c m, Forall (fun x => (1 <= x)%Z) (snd c) -> length (snd c) <= m ->
  used_columns m (kept_vertices bs c) = map (fun x => (x - 1)%Z) (snd c).
Proof.
  intros bs c m H HL. unfold used_columns, kept_vertices. rewrite firstn_app, map_length, firstn_all2 by (rewrite map_length; lia).
  rewrite filter_app.
  assert (F : filter (fun x => (0 <=? x)%Z) (firstn (m - length (snd c)) (repeat (-1)%Z (bs - 1 - length (snd c)))) = []).
  { generalize (m - length (snd c)) (bs - 1 - length (snd c)). intros p q. revert p.
    induction q as [|q IHq]; intros [|p]; try reflexivity. cbn [repeat firstn filter]. apply IHq. }
  rewrite F, app_nil_r. apply filter_all, Forall_map. eapply Forall_impl; [|exact H]. intros x Hx. cbv beta in *. apply Z.leb_le. lia.
Qed.

Lemma graph_proof : forall bs cells nls, 0 < bs -> list_sum nls = length cells -> Forall supported cells ->
  Forall (fun c : file_cell => length (snd c) <= bs - 1 /\ NoDup (snd c) /\ Forall (fun x => (2 <= x)%Z) (snd c)) cells ->
  exists g, graph_of_file bs (cells_vector bs cells) nls = Ok g /\ length g = length cells /\
  forall c nbs vs, nth_error g c = Some nbs -> nth_error (map snd cells) c = Some vs ->
  NoDup nbs /\ forall d, In d nbs <-> d <> c /\ exists ws, nth_error (map snd cells) d = Some ws /\ share_three vs ws.
Proof.
  intros bs cells nls Hb HL Hs H.
  assert (H1 : Forall (fun c : file_cell => length (snd c) <= bs - 1) cells) by (eapply Forall_impl; [|exact H]; cbn; tauto).
  destruct (cells_proof bs cells nls Hb H1 HL Hs) as [parts [E1 [_ E2]]].
  unfold graph_of_file. rewrite E1. cbn [bind].
  assert (W : forall p r, In p parts -> In r p -> exists c, In c cells /\ r = kept_vertices bs c).
  { intros p r Hp Hr. assert (Hi : In r (concat parts)) by (apply in_concat; eauto). rewrite E2 in Hi.
    apply in_map_iff in Hi. destruct Hi as [c [<- Hc]]. eauto. }
  rewrite Forall_forall in H, H1.
  destruct (active_all_ok (bs - 1) parts) as [m [Em [M1 M2]]].
  { apply Forall_forall. intros p Hp. apply Forall_forall. intros r Hr. destruct (W p r Hp Hr) as [c [Hc ->]].
    rewrite kept_length; auto. }
  rewrite Em. cbn [bind].
  destruct (matrices_ok m parts) as [ms [E3 E4]].
  { apply Forall_forall. intros p Hp. apply Forall_forall. intros r Hr. destruct (W p r Hp Hr) as [c [Hc ->]].
    rewrite kept_length; auto. }
  rewrite E3. cbn [bind]. rewrite E4, E2.
  assert (R : map (used_columns m) (map (kept_vertices bs) cells) = map (fun vs => map (fun x => (x - 1)%Z) vs) (map snd cells)).
  { rewrite !map_map. apply map_ext_in. intros c Hc. destruct (H c Hc) as [_ [_ Hx]]. apply kept_columns.
    - eapply Forall_impl; [|exact Hx]. cbn. intros; lia.
    - assert (Hi : In (kept_vertices bs c) (concat parts)) by (rewrite E2; apply in_map; exact Hc).
      apply in_concat in Hi. destruct Hi as [p [Hp Hr]]. specialize (M2 p _ Hp Hr). rewrite kept_used in M2; auto. }
  rewrite R. eexists. split; [reflexivity|]. set (rows := map (fun vs => map (fun x => (x - 1)%Z) vs) (map snd cells)).
  assert (RL : length rows = length cells) by (unfold rows; rewrite !map_length; reflexivity).
  split; [unfold cell_graph; rewrite map_length, seq_length; exact RL|].
  assert (RN : forall d ws, nth_error (map snd cells) d = Some ws -> nth d rows [] = map (fun x => (x - 1)%Z) ws).
  { intros d ws Hd. apply nth_error_nth. unfold rows. apply (map_nth_error (fun vs => map (fun x => (x - 1)%Z) vs)). exact Hd. }
  intros c nbs vs Hg Hv. destruct (graph_nth 3 rows c nbs Hg) as [_ [ND HI]]. split; [exact ND|].
  assert (NV : NoDup (map (fun x => (x - 1)%Z) vs)).
  { apply nth_error_In, in_map_iff in Hv. destruct Hv as [cc [<- Hc]]. destruct (H cc Hc) as [_ [N _]].
    apply FinFun.Injective_map_NoDup; [intros x y; lia|exact N]. }
  intro d. rewrite HI, (RN c vs Hv). split.
  - intros [Hd [Hn Hc]]. split; [exact Hn|]. destruct (nth_error (map snd cells) d) as [ws|] eqn:Ew.
    + exists ws. split; [reflexivity|]. rewrite (RN d ws Ew) in Hc. apply common_three in Hc; [|exact NV]. apply share_three_shift; exact Hc.
    + apply nth_error_None in Ew. rewrite map_length in Ew. lia.
  - intros [Hn [ws [Ew Hsh]]]. split; [apply nth_lt in Ew; rewrite map_length in Ew; lia|]. split; [exact Hn|].
    rewrite (RN d ws Ew). apply common_three; [exact NV|]. apply share_three_shift. exact Hsh.
Qed.
