From Coq Require Import Reals List Bool Arith Lia Lra.
From Verif Require Import Prelude Arrays UGrid UGridAllProofs Regression SpecRegression RegressionProofs RegOut SpecRegOut.
Import ListNotations.

(** ** Statistics *)
Lemma fold_max : forall l a, (forall y, In y (a :: l) -> (y <= fold_left Rmax l a)%R) /\ In (fold_left Rmax l a) (a :: l).
Proof.
  induction l as [|b l IH]; intro a; cbn [fold_left].
  - split; [intros y [<-|[]]; lra|left; reflexivity].
  - destruct (IH (Rmax a b)) as [A B]. split.
    + pose proof (A (Rmax a b) (or_introl eq_refl)) as M. pose proof (Rmax_l a b). pose proof (Rmax_r a b).
      intros y [<-|[<-|H1]]; [lra|lra|]. apply A. right. exact H1.
    + destruct B as [B|B]; [|right; right; exact B]. rewrite <- B. unfold Rmax. destruct (Rle_dec a b); [right; left|left]; reflexivity.
Qed.
Lemma fold_min : forall l a, (forall y, In y (a :: l) -> (fold_left Rmin l a <= y)%R) /\ In (fold_left Rmin l a) (a :: l).
Proof.
  induction l as [|b l IH]; intro a; cbn [fold_left].
  - split; [intros y [<-|[]]; lra|left; reflexivity].
  - destruct (IH (Rmin a b)) as [A B]. split.
    + pose proof (A (Rmin a b) (or_introl eq_refl)) as M. pose proof (Rmin_l a b). pose proof (Rmin_r a b).
      intros y [<-|[<-|H1]]; [lra|lra|]. apply A. right. exact H1.
    + destruct B as [B|B]; [|right; right; exact B]. rewrite <- B. unfold Rmin. destruct (Rle_dec a b); [left|right; left]; reflexivity.
Qed.
Lemma fold_sum : forall l a, fold_left Rplus l a = (a + sum l)%R.
Proof. induction l as [|x l IH]; intro a; cbn; [lra|]. rewrite IH. lra. Qed.

Lemma statistics_right : forall l, l <> [] -> exists mx mn,
  statistics l = [Max (Some mx); Min (Some mn); Mean (Some (sum l / INR (length l)))%R] /\ greatest l mx /\ least l mn.
Proof.
  intros [|a l] H; [congruence|]. exists (fold_left Rmax l a), (fold_left Rmin l a).
  destruct (fold_max l a) as [A B]. destruct (fold_min l a) as [C D].
  split; [|split; [split; [exact B|exact A]|split; [exact D|exact C]]].
  unfold statistics, VecMax, VecMin, mean, VecSum, fdiv. rewrite fold_sum.
  destruct (Req_EM_T (INR (length (a :: l))) 0) as [E|_].
  - exfalso. pose proof (lt_0_INR (length (a :: l))). cbn [length] in *. assert (0 < S (length l)) by lia. specialize (H0 H1). lra.
  - rewrite Rplus_0_l. reflexivity.
Qed.

(** ** Splitting *)
Lemma not_TH : forall m, m <> MTH -> is_TH m = false.
Proof. intros [] H; try reflexivity. exfalso. apply H. reflexivity. Qed.

Lemma split_one : forall m nf (u : list R), m <> MTH -> split m nf u = Ok (u, repeat 0%R (length u)).
Proof.
  intros m nf u Hm. unfold split. rewrite (not_TH m Hm). cbn [andb].
  destruct (for_inv (fun k pt => snd pt = repeat 0%R (length u) /\ length (fst pt) = length u /\
      forall i, i < k -> nth_error (fst pt) i = nth_error u i)
    (fun c pt => do x <- rd u c; do p <- wr (fst pt) c x; Ok (p, snd pt)) (length u) (repeat 0%R (length u), repeat 0%R (length u)))
    as [[p t] [E (T & L & H)]].
  - cbn. rewrite repeat_length. split; [reflexivity|]. split; [reflexivity|]. intros i Hi. lia.
  - intros k [p t] Hk (T & L & H). cbn [fst snd] in *. destruct (rd_ok u k Hk) as [x [R X]]. rewrite R. cbn [bind].
    rewrite wr_ok by lia. cbn [bind]. eexists. split; [reflexivity|]. cbn [fst snd]. split; [exact T|]. split; [rewrite length_upd; exact L|].
    intros i Hi. destruct (Nat.eq_dec k i) as [<-|D]; [rewrite nth_upd_same by lia; congruence|].
    rewrite nth_upd_other by exact D. apply H. lia.
  - rewrite E. cbn [fst snd] in *. rewrite T. f_equal. f_equal. apply nth_error_ext. intros i.
    destruct (le_lt_dec (length u) i) as [Hi|Hi]; [|apply H; exact Hi].
    rewrite (proj2 (nth_error_None p i)) by lia. symmetry. apply nth_error_None. lia.
Qed.

Lemma interleaved_length : forall cells, length (interleaved cells) = 2 * length cells.
Proof. induction cells as [|[p t] l IH]; [reflexivity|]. change (interleaved ((p, t) :: l)) with (p :: t :: interleaved l). cbn [length]. rewrite IH. lia. Qed.

Lemma interleaved_nth : forall cells k, nth_error (interleaved cells) (2 * k) = nth_error (map fst cells) k /\
  nth_error (interleaved cells) (2 * k + 1) = nth_error (map snd cells) k.
Proof.
  induction cells as [|[p t] l IH]; intros k.
  - destruct k; split; cbn; try reflexivity; destruct (k + S (k + 0)); try reflexivity; destruct (k + S (k + 0) + 1); reflexivity.
  - destruct k as [|k]; [split; reflexivity|]. destruct (IH k) as [A B].
    replace (2 * S k) with (S (S (2 * k))) by lia. replace (S (S (2 * k)) + 1) with (S (S (2 * k + 1))) by lia.
    split; [exact A|exact B].
Qed.

Lemma split_TH : forall cells, split MTH 2 (interleaved cells) = Ok (map fst cells, map snd cells).
Proof.
  intros cells. unfold split. cbn [is_TH andb Nat.eqb]. rewrite interleaved_length.
  replace (2 * length cells / 2) with (length cells) by (rewrite Nat.mul_comm, Nat.div_mul; lia).
  set (u := interleaved cells). set (n := length cells).
  assert (Lu : length u = 2 * n) by apply interleaved_length.
  destruct (for_inv (fun k pt => length (fst pt) = n /\ length (snd pt) = n /\
      forall i, i < k -> nth_error (fst pt) i = nth_error (map fst cells) i /\ nth_error (snd pt) i = nth_error (map snd cells) i)
    (fun c pt => do x <- rd u (c * 2); do p <- wr (fst pt) c x; do y <- rd u (c * 2 + 1); do t <- wr (snd pt) c y; Ok (p, t))
    n (repeat 0%R n, repeat 0%R n)) as [[p t] [E (L & M & H)]].
  - cbn. rewrite repeat_length. split; [reflexivity|]. split; [reflexivity|]. intros i Hi. lia.
  - intros k [p t] Hk (L & M & H). cbn [fst snd] in *.
    destruct (interleaved_nth cells k) as [A B]. fold u in A, B.
    destruct (rd_ok u (k * 2)) as [x [Rx X]]; [lia|]. destruct (rd_ok u (k * 2 + 1)) as [y [Ry Y]]; [lia|].
    rewrite Rx. cbn [bind]. rewrite wr_ok by lia. cbn [bind]. rewrite Ry. cbn [bind]. rewrite wr_ok by lia. cbn [bind].
    eexists. split; [reflexivity|]. cbn [fst snd]. rewrite !length_upd. split; [exact L|]. split; [exact M|].
    intros i Hi. rewrite Nat.mul_comm in X, Y. destruct (Nat.eq_dec k i) as [<-|D].
    + rewrite !nth_upd_same by lia. split; congruence.
    + rewrite !nth_upd_other by exact D. apply H. lia.
  - rewrite E. cbn [fst snd] in *. f_equal. f_equal; apply nth_error_ext; intros i;
      (destruct (le_lt_dec n i) as [Hi|Hi]; [|apply H; exact Hi]).
    + rewrite (proj2 (nth_error_None p i)) by lia. symmetry. apply nth_error_None. rewrite map_length. exact Hi.
    + rewrite (proj2 (nth_error_None t i)) by lia. symmetry. apply nth_error_None. rewrite map_length. exact Hi.
Qed.

Lemma mapM_map {A B} (f : A -> outcome B) (g : A -> B) l : (forall x, In x l -> f x = Ok (g x)) -> mapM f l = Ok (map g l).
Proof.
  induction l as [|x l IH]; intro H; cbn [mapM map]; [reflexivity|].
  rewrite (H x (or_introl eq_refl)). cbn [bind]. rewrite IH by (intros y Hy; apply H; right; exact Hy). reflexivity.
Qed.

Lemma gather : forall (U : list R) ids, (forall i, In i ids -> i < length U) ->
  mapM (fun i => rd U i) ids = Ok (map (fun i => nth i U 0%R) ids).
Proof. intros U ids H. apply mapM_map. intros i Hi. apply rd_some, nth_error_nth'. apply H. exact Hi. Qed.

(** ** One unknown per cell *)
Lemma print_cells_eq : forall ids vec, length ids = length vec ->
  print_cells ids vec = Ok (map (fun kx => Cell (fst kx) (snd kx)) (combine ids vec)).
Proof.
  intros ids vec L. unfold print_cells.
  rewrite (mapM_map _ (fun i => Cell (nth i ids 0) (nth i vec 0%R))).
  - f_equal. clear - L. revert vec L. induction ids as [|k ids IH]; intros [|x vec] L; try discriminate L; [reflexivity|].
    cbn [length seq map combine]. f_equal. rewrite <- seq_shift, map_map. apply IH. cbn in L. lia.
  - intros i Hi. apply in_seq in Hi. rewrite (rd_some ids i (nth i ids 0)) by (apply nth_error_nth'; lia). cbn [bind].
    rewrite (rd_some vec i (nth i vec 0%R)) by (apply nth_error_nth'; lia). reflexivity.
Qed.

Lemma total_concat : forall {A} (U : list (list A)), total (map (@length A) U) = length (concat U).
Proof. intros A U. induction U as [|u U IH]; cbn; [reflexivity|]. rewrite app_length, IH. reflexivity. Qed.

Lemma values_ok : forall (field : list R) ks, (forall k, In k ks -> k < length field) ->
  Forall2 (fun k x => nth_error field k = Some x) ks (map (fun k => nth k field 0%R) ks).
Proof.
  intros field ks. induction ks as [|k ks IH]; intros H; cbn; constructor.
  - apply nth_error_nth', H. left. reflexivity.
  - apply IH. intros j Hj. apply H. right. exact Hj.
Qed.

Lemma one_field : forall m nf req U, m <> MTH -> 0 < req -> U <> [] -> (forall u, In u U -> u <> []) ->
  exists ks lines, Regression_file m nf req U = Ok lines /\ section LiquidPressure (concat U) ks lines /\
    NoDup ks /\ length ks = length U * clip (map (@length R) U) req.
Proof.
  intros m nf req U Hm Hq HU Hne. unfold Regression_file.
  destruct (sample_ok m (map (@length R) U) req Hq) as [ids [E [ND [L B]]]].
  { intros x Hx. apply in_map_iff in Hx. destruct Hx as [u [<- Hu]]. specialize (Hne u Hu). destruct u; [congruence|cbn; lia]. }
  { congruence. }
  rewrite E. cbn [bind]. unfold RegressionOutput. rewrite total_concat in B.
  rewrite gather by exact B. cbn [bind].
  rewrite (mapM_map (split m nf) (fun u => (u, repeat 0%R (length u))) U) by (intros u _; apply split_one; exact Hm). cbn [bind].
  rewrite (not_TH m Hm).
  rewrite print_cells_eq by (rewrite map_length; reflexivity). cbn [bind]. rewrite map_map. cbn [fst]. rewrite map_id.
  destruct (statistics_right (concat U)) as [mx [mn [S1 [G1 G2]]]].
  { destruct U as [|u U]; [congruence|]. specialize (Hne u (or_introl eq_refl)). destruct u; [congruence|discriminate]. }
  rewrite S1. exists ids. eexists. split; [reflexivity|]. split.
  - exists mx, mn, (map (fun i => nth i (concat U) 0%R) ids). rewrite app_nil_r. split; [reflexivity|]. split; [exact G1|]. split; [exact G2|].
    apply values_ok. exact B.
  - split; [exact ND|]. rewrite L, map_length. destruct m; cbn [ndof_per_cell]; try congruence; lia.
Qed.

(** ** Two unknowns per cell *)
Definition pairs (ks : list nat) : list nat := flat_map (fun k => [2 * k; 2 * k + 1]) ks.

Lemma pairs_app : forall a b, pairs (a ++ b) = pairs a ++ pairs b.
Proof. intros a b. unfold pairs. apply flat_map_app. Qed.
Lemma pairs_length : forall ks, length (pairs ks) = 2 * length ks.
Proof. induction ks as [|k ks IH]; [reflexivity|]. change (pairs (k :: ks)) with (2 * k :: 2 * k + 1 :: pairs ks). cbn [length]. rewrite IH. lia. Qed.
Lemma pairs_in : forall ks k, In k ks -> In (2 * k) (pairs ks) /\ In (2 * k + 1) (pairs ks).
Proof. intros ks k H. unfold pairs. rewrite !in_flat_map. split; exists k; (split; [exact H|cbn; tauto]). Qed.
Lemma pairs_nth : forall ks i, nth_error (pairs ks) (2 * i) = option_map (fun k => 2 * k) (nth_error ks i).
Proof.
  induction ks as [|k ks IH]; intros i.
  - destruct i; cbn; [reflexivity|]. destruct (i + S (i + 0)); reflexivity.
  - destruct i as [|i]; [reflexivity|]. replace (2 * S i) with (S (S (2 * i))) by lia. exact (IH i).
Qed.
Lemma pairs_nodup : forall ks, NoDup (pairs ks) -> NoDup ks.
Proof.
  induction ks as [|k ks IH]; intros H; constructor.
  - intros Hk. apply pairs_in in Hk. destruct Hk as [Hk _]. cbn [pairs flat_map app] in H. inversion H as [|? ? N _]. apply N. right. exact Hk.
  - apply IH. cbn [pairs flat_map app] in H. inversion H as [|? ? _ H1]. inversion H1. assumption.
Qed.

Lemma process_pairs : forall nc inc o, process_ids MTH nc inc (2 * o) = pairs (map (fun c => c * inc + o) (seq 0 nc)).
Proof.
  intros nc inc o. unfold process_ids, pairs. rewrite (flat_map_concat_map _ (map _ _)), map_map, <- flat_map_concat_map.
  apply flat_map_ext. intros c. cbn [ndof_per_cell seq map]. f_equal; [nia|]. f_equal. nia.
Qed.

Lemma sample_pairs : forall sizes req ids, (forall x, In x sizes -> Nat.even x = true) -> sample MTH sizes req = Ok ids ->
  exists ks, ids = pairs ks.
Proof.
  intros sizes req ids Hev. unfold sample.
  assert (Hoff : forall r, exists o, global_offset sizes r = 2 * o).
  { intros r. unfold global_offset. rewrite fold_add. cbn [plus]. revert r. induction sizes as [|x l IH]; intros [|r]; cbn [firstn total]; try (exists 0; reflexivity).
    destruct (IH (fun y Hy => Hev y (or_intror Hy)) r) as [o ->].
    specialize (Hev x (or_introl eq_refl)). apply Nat.even_spec in Hev. destruct Hev as [h ->]. exists (h + o). lia. }
  generalize (seq 0 (length sizes)). intros ranks. revert ids. induction ranks as [|r rs IH]; intros ids H; cbn [sample_ranks] in H.
  - injection H as <-. exists []. reflexivity.
  - unfold sample_process in H. destruct (increment MTH (nth r sizes 0) (clip sizes req)) as [inc| |]; try discriminate H. cbn [bind] in H.
    destruct (sample_ranks MTH sizes req rs) as [b| |]; try discriminate H. cbn [bind] in H. injection H as <-.
    destruct (IH b eq_refl) as [ks ->]. destruct (Hoff r) as [o ->]. rewrite process_pairs.
    exists (map (fun c => c * inc + o) (seq 0 (clip sizes req)) ++ ks). symmetry. apply pairs_app.
Qed.

Lemma interleaved_concat : forall cells, concat (map interleaved cells) = interleaved (concat cells).
Proof. induction cells as [|c cells IH]; [reflexivity|]. cbn [map concat]. rewrite IH. unfold interleaved. symmetry. apply flat_map_app. Qed.

Lemma vec_nth : forall cells ks i k, (forall k, In k ks -> k < length cells) -> nth_error ks i = Some k ->
  nth_error (map (fun j => nth j (interleaved cells) 0%R) (pairs ks)) (2 * i) = nth_error (map fst cells) k /\
  nth_error (map (fun j => nth j (interleaved cells) 0%R) (pairs ks)) (2 * i + 1) = nth_error (map snd cells) k.
Proof.
  intros cells ks. induction ks as [|k0 ks IH]; intros i k B H; [destruct i; discriminate H|].
  destruct i as [|i].
  - injection H as ->. destruct (interleaved_nth cells k) as [P Q].
    assert (Hk : k < length cells) by (apply B; left; reflexivity). pose proof (interleaved_length cells) as L.
    rewrite <- P, <- Q. cbn [pairs flat_map app map nth_error]. split; symmetry; apply nth_error_nth'; lia.
  - replace (2 * S i) with (S (S (2 * i))) by lia. replace (S (S (2 * i)) + 1) with (S (S (2 * i + 1))) by lia.
    apply (IH i k); [intros j Hj; apply B; right; exact Hj|exact H].
Qed.

Lemma print_TH : forall cells ks d field, (forall k, In k ks -> k < length cells) ->
  (d = 0 /\ field = map fst cells \/ d = 1 /\ field = map snd cells) ->
  print_cells_TH d (pairs ks) (map (fun j => nth j (interleaved cells) 0%R) (pairs ks)) =
  Ok (map (fun kx => Cell (fst kx) (snd kx)) (combine ks (map (fun k => nth k field 0%R) ks))).
Proof.
  intros cells ks d field B F. unfold print_cells_TH. rewrite map_length, pairs_length.
  replace (2 * length ks / 2) with (length ks) by (rewrite Nat.mul_comm, Nat.div_mul; lia).
  rewrite (mapM_map _ (fun i => Cell (nth i ks 0) (nth (nth i ks 0) field 0%R))).
  - f_equal. clear. induction ks as [|k ks IH]; [reflexivity|].
    cbn [length seq map combine]. f_equal. rewrite <- seq_shift, map_map. exact IH.
  - intros i Hi. apply in_seq in Hi. assert (Hk : nth_error ks i = Some (nth i ks 0)) by (apply nth_error_nth'; lia).
    rewrite (rd_some _ _ (2 * nth i ks 0)) by (rewrite pairs_nth, Hk; reflexivity). cbn [bind].
    assert (Hb : nth i ks 0 < length cells) by (apply B, nth_In; lia).
    destruct (vec_nth cells ks i _ B Hk) as [P Q].
    replace (2 * nth i ks 0 / 2) with (nth i ks 0) by (rewrite Nat.mul_comm, Nat.div_mul; lia).
    destruct F as [[-> ->]|[-> ->]].
    + rewrite Nat.add_0_r. rewrite (rd_some _ _ (nth (nth i ks 0) (map fst cells) 0%R)); [reflexivity|].
      rewrite P. apply nth_error_nth'. rewrite map_length. exact Hb.
    + rewrite (rd_some _ _ (nth (nth i ks 0) (map snd cells) 0%R)); [reflexivity|].
      rewrite Q. apply nth_error_nth'. rewrite map_length. exact Hb.
Qed.

Lemma two_fields : forall req cells, 0 < req -> cells <> [] -> (forall c, In c cells -> req <= length c) ->
  exists ks a b, Regression_file MTH 2 req (map interleaved cells) = Ok (a ++ b) /\
    section LiquidPressure (map fst (concat cells)) ks a /\ section Temperature (map snd (concat cells)) ks b /\
    NoDup ks /\ length ks = length cells * req.
Proof.
  intros req cells Hq Hne Hc. unfold Regression_file.
  assert (Sz : forall x, In x (map (@length R) (map interleaved cells)) -> Nat.even x = true /\ 2 * req <= x).
  { intros x Hx. rewrite map_map in Hx. apply in_map_iff in Hx. destruct Hx as [c [<- Hi]]. rewrite interleaved_length.
    specialize (Hc c Hi). split; [apply Nat.even_spec; exists (length c); reflexivity|lia]. }
  destruct (sample_ok MTH (map (@length R) (map interleaved cells)) req Hq) as [ids [E [ND [L B]]]].
  { intros x Hx. specialize (Sz x Hx). lia. }
  { intros _ x Hx. apply Sz. exact Hx. }
  destruct (sample_pairs _ req ids (fun x Hx => proj1 (Sz x Hx)) E) as [ks K].
  rewrite E. cbn [bind]. unfold RegressionOutput. rewrite total_concat in B. rewrite gather by exact B. cbn [bind].
  rewrite (mapM_map (split MTH 2) (fun u => match split MTH 2 u with Ok v => v | _ => ([], []) end)).
  2:{ intros u Hu. apply in_map_iff in Hu. destruct Hu as [c [<- _]]. rewrite split_TH. reflexivity. }
  cbn [bind is_TH]. rewrite interleaved_concat in *. rewrite K in *.
  assert (B2 : forall k, In k ks -> k < length (concat cells)).
  { intros k Hk. destruct (pairs_in ks k Hk) as [P _]. specialize (B _ P). rewrite interleaved_length in B. lia. }
  rewrite (print_TH (concat cells) ks 0 _ B2 (or_introl (conj eq_refl eq_refl))). cbn [bind].
  rewrite (print_TH (concat cells) ks 1 _ B2 (or_intror (conj eq_refl eq_refl))). cbn [bind].
  assert (Fp : concat (map fst (map (fun u => match split MTH 2 u with Ok v => v | _ => ([], []) end) (map interleaved cells))) = map fst (concat cells)).
  { clear. induction cells as [|c cells IH]; [reflexivity|]. cbn [map concat]. rewrite split_TH, map_app. cbn [fst]. f_equal. exact IH. }
  assert (Ft : concat (map snd (map (fun u => match split MTH 2 u with Ok v => v | _ => ([], []) end) (map interleaved cells))) = map snd (concat cells)).
  { clear. induction cells as [|c cells IH]; [reflexivity|]. cbn [map concat]. rewrite split_TH, map_app. cbn [snd]. f_equal. exact IH. }
  rewrite Fp, Ft.
  assert (Ne : concat cells <> []).
  { destruct cells as [|c cells]; [congruence|]. specialize (Hc c (or_introl eq_refl)). destruct c; [cbn in Hc; lia|discriminate]. }
  destruct (statistics_right (map fst (concat cells))) as [x1 [n1 [S1 [G1 G2]]]]; [destruct (concat cells); [congruence|discriminate]|].
  destruct (statistics_right (map snd (concat cells))) as [x2 [n2 [S2 [G3 G4]]]]; [destruct (concat cells); [congruence|discriminate]|].
  rewrite S1, S2.
  set (la := map (fun kx => Cell (fst kx) (snd kx)) (combine ks (map (fun k => nth k (map fst (concat cells)) 0%R) ks))).
  set (lb := map (fun kx => Cell (fst kx) (snd kx)) (combine ks (map (fun k => nth k (map snd (concat cells)) 0%R) ks))).
  exists ks, (Title LiquidPressure :: [Max (Some x1); Min (Some n1); Mean (Some (sum (map fst (concat cells)) / INR (length (map fst (concat cells))))%R)] ++ la),
    (Title Temperature :: [Max (Some x2); Min (Some n2); Mean (Some (sum (map snd (concat cells)) / INR (length (map snd (concat cells))))%R)] ++ lb).
  split; [|split; [|split]].
  4:{ split; [apply pairs_nodup; exact ND|]. rewrite pairs_length, !map_length in L. cbn [ndof_per_cell] in L.
      assert (C : clip (map (@length R) (map interleaved cells)) req = req).
      { unfold clip. destruct (Nat.ltb_spec (allreduce_min (map (@length R) (map interleaved cells))) req) as [Hlt|]; [|reflexivity].
        exfalso. assert (Q : In (allreduce_min (map (@length R) (map interleaved cells))) (map (@length R) (map interleaved cells))).
        { destruct cells as [|c cells]; [congruence|]. cbn [map allreduce_min].
          generalize (map (@length R) (map interleaved cells)). intros l. generalize (length (interleaved c)). clear.
          induction l as [|y l IH]; intros a; cbn [fold_left]; [left; reflexivity|]. destruct (IH (min a y)) as [Q|Q]; [|right; right; exact Q].
          rewrite <- Q. destruct (Nat.min_spec a y) as [[_ ->]|[_ ->]]; [left|right; left]; reflexivity. }
        specialize (Sz _ Q). lia. }
      rewrite C in L. nia. }
  - reflexivity.
  - exists x1, n1, (map (fun k => nth k (map fst (concat cells)) 0%R) ks). split; [reflexivity|]. split; [exact G1|]. split; [exact G2|].
    apply values_ok. intros k Hk. rewrite map_length. apply B2. exact Hk.
  - exists x2, n2, (map (fun k => nth k (map snd (concat cells)) 0%R) ks). split; [reflexivity|]. split; [exact G3|]. split; [exact G4|].
    apply values_ok. intros k Hk. rewrite map_length. apply B2. exact Hk.
Qed.
