(** Proofs for Prop_Transmit.v. *)
From Coq Require Import Reals ZArith List Bool Arith Lia Lra.
From Verif Require Import Prelude Arrays Mpfao MpfaoTs SpecFvtpf SpecMpfao SpecMpfaoTs FvtpfSumProofs MpfaoProofs Transmit SpecTransmit.
Import ListNotations.
Local Open Scope R_scope.

(** * Three-dimensional arrays *)
Definition dims (T : Trans) (a b c : nat) : Prop :=
  length T = a /\ (forall t, In t T -> length t = b /\ forall w, In w t -> length w = c).

Lemma in_upd : forall {A} (l : list A) i v x, In x (upd l i v) -> x = v \/ In x l.
Proof.
  intros A l; induction l as [|y l IH]; intros [|i] v x H; simpl in *; try tauto.
  - destruct H as [<-|H]; auto.
  - destruct H as [<-|H]; auto. destruct (IH i v x H); auto.
Qed.
Lemma nth_upd_d : forall {A} (l : list A) i v j d, (i < length l)%nat ->
  nth j (upd l i v) d = if (j =? i)%nat then v else nth j l d.
Proof.
  intros A l; induction l as [|y l IH]; intros [|i] v [|j] d H; simpl in *; try lia; try reflexivity.
  apply IH. lia.
Qed.
Lemma wr3_ok : forall T a b c i j k x, dims T a b c -> (i < a)%nat -> (j < b)%nat -> (k < c)%nat ->
  exists T', wr3 T i j k x = Ok T' /\ dims T' a b c /\
  forall i' j' k', coefficient T' i' j' k' =
    if (i' =? i)%nat && (j' =? j)%nat && (k' =? k)%nat then x else coefficient T i' j' k'.
Proof.
  intros T a b c i j k x [La D] Hi Hj Hk. unfold wr3.
  destruct (rd_ok T i) as [t [Et Nt]]; [lia|]. rewrite Et. cbn [bind].
  destruct (D t (nth_error_In _ _ Nt)) as [Lt Dt].
  destruct (rd_ok t j) as [w [Ew Nw]]; [lia|]. rewrite Ew. cbn [bind].
  pose proof (Dt w (nth_error_In _ _ Nw)) as Lw.
  rewrite (wr_ok w k) by lia. cbn [bind]. rewrite (wr_ok t j) by lia. cbn [bind]. rewrite (wr_ok T i) by lia.
  eexists. split; [reflexivity|]. split.
  - split; [rewrite length_upd; exact La|]. intros t' Ht'. apply in_upd in Ht'. destruct Ht' as [->|Ht']; [|apply D; exact Ht'].
    split; [rewrite length_upd; exact Lt|]. intros w' Hw'. apply in_upd in Hw'. destruct Hw' as [->|Hw']; [rewrite length_upd; exact Lw|apply Dt; exact Hw'].
  - intros i' j' k'. unfold coefficient. rewrite nth_upd_d by lia.
    destruct (Nat.eqb_spec i' i) as [->|Ei]; cbn [andb]; [|reflexivity].
    rewrite nth_upd_d by lia. rewrite (nth_error_nth _ _ [] Nt).
    destruct (Nat.eqb_spec j' j) as [->|Ej]; cbn [andb]; [|reflexivity].
    rewrite nth_upd_d by lia. rewrite (nth_error_nth _ _ [] Nw). reflexivity.
Qed.
Lemma dims_alloc : forall a b c, dims (alloc3 a b c) a b c.
Proof.
  intros. unfold alloc3. split; [apply repeat_length|]. intros t Ht. apply repeat_spec in Ht. subst t.
  split; [apply repeat_length|]. intros w Hw. apply repeat_spec in Hw. subst w. apply repeat_length.
Qed.
Lemma nth_repeat_d : forall {A} (x d : A) n i, nth i (repeat x n) d = if (i <? n)%nat then x else d.
Proof. intros A x d n; induction n as [|n IH]; intros [|i]; simpl; try reflexivity. rewrite IH. reflexivity. Qed.
Lemma coefficient_alloc : forall a b c i j k, coefficient (alloc3 a b c) i j k = 0.
Proof.
  intros. unfold coefficient, alloc3. rewrite nth_repeat_d. destruct (i <? a)%nat; [|destruct j; destruct k; reflexivity].
  rewrite nth_repeat_d. destruct (j <? b)%nat; [|destruct k; reflexivity]. rewrite nth_repeat_d. destruct (k <? c)%nat; reflexivity.
Qed.

(** * Storing a block *)
Lemma store_block_ok : forall z m X iv first n T a b c, dims T a b c -> (iv < a)%nat -> (first + n <= b)%nat -> (ncol z <= c)%nat ->
  exists T', store_block z m X iv first n T = Ok T' /\ dims T' a b c /\
  forall i' j' k', coefficient T' i' j' k' =
    if (i' =? iv)%nat && ((first <=? j')%nat && (j' <? first + n)%nat) && (k' <? ncol z)%nat then trans z m X j' k' else coefficient T i' j' k'.
Proof.
  intros z m X iv first n T a b c D Hi Hn Hc. unfold store_block.
  destruct (for_inv (fun k T' => dims T' a b c /\ forall i' j' k', coefficient T' i' j' k' =
      if (i' =? iv)%nat && ((first <=? j')%nat && (j' <? first + n)%nat) && (k' <? k)%nat then trans z m X j' k' else coefficient T i' j' k')
    (fun j T => for_ n (fun i T => wr3 T iv (i + first) j (trans z m X (i + first) j)) T) (npcen z + npitf_dir z) T) as [T' [E [D' H']]].
  - split; [exact D|]. intros. rewrite andb_false_r. reflexivity.
  - intros k T0 Hk [DS HS].
    destruct (for_inv (fun q T' => dims T' a b c /\ forall i' j' k', coefficient T' i' j' k' =
        if (i' =? iv)%nat && ((first <=? j')%nat && (j' <? first + q)%nat) && (k' =? k)%nat then trans z m X j' k' else coefficient T0 i' j' k')
      (fun i T => wr3 T iv (i + first) k (trans z m X (i + first) k) ) n T0) as [S' [E [DS' HS']]].
    + split; [exact DS|]. intros. destruct (Nat.leb_spec first j'), (Nat.ltb_spec j' (first + 0)); try lia; cbn [andb]; rewrite ?andb_false_r; cbn [andb]; rewrite ?andb_false_r; reflexivity.
    + intros q S1 Hq [D1 H1]. destruct (wr3_ok S1 a b c iv (q + first) k (trans z m X (q + first) k) D1) as [S2 [E2 [D2 H2]]]; try lia.
      { unfold ncol in Hc. lia. }
      exists S2. split; [exact E2|]. split; [exact D2|]. intros i' j' k'. rewrite H2, H1.
      destruct (Nat.eqb_spec i' iv); cbn [andb]; [|reflexivity]. destruct (Nat.eqb_spec k' k); rewrite ?andb_true_r, ?andb_false_r; [|reflexivity].
      destruct (Nat.eqb_spec j' (q + first)), (Nat.leb_spec first j'), (Nat.ltb_spec j' (first + q)), (Nat.ltb_spec j' (first + S q)); cbn [andb]; try lia; subst; reflexivity.
    + exists S'. split; [exact E|]. split; [exact DS'|]. intros i' j' k'. rewrite HS', HS.
      destruct (Nat.eqb_spec i' iv); cbn [andb]; [|reflexivity].
      destruct ((first <=? j')%nat && (j' <? first + n)%nat); cbn [andb]; [|reflexivity].
      destruct (Nat.eqb_spec k' k), (Nat.ltb_spec k' k), (Nat.ltb_spec k' (S k)); try lia; reflexivity.
  - exists T'. split; [exact E|]. split; [exact D'|]. intros. rewrite H'. reflexivity.
Qed.

Definition last_row (b : bctype) (v : vertex) : nat := (nflux_in (sizes_of b v) + dir_up (sizes_of b v) + dir_dn (sizes_of b v))%nat.

Lemma noncorner_ok : forall bt ncells iv v X s a b c, dims (st_T s) a b c -> (iv < a)%nat -> well_numbered v ->
  (v_nfaces v <= b)%nat -> (ncol (sizes_of bt v) <= c)%nat ->
  exists m T' l, ComputeCandF (sizes_of bt v) v = Ok m /\ vertex_entries (sizes_of bt v) m X ncells v = Ok l /\
  NonCorner bt ncells iv v (Some X) s = Ok (mkStored T' (st_l s ++ l)) /\ dims T' a b c /\
  forall i' j' k', coefficient T' i' j' k' =
    if (i' =? iv)%nat && (j' <? last_row bt v)%nat && (k' <? ncol (sizes_of bt v))%nat then trans (sizes_of bt v) m X j' k' else coefficient (st_T s) i' j' k'.
Proof.
  intros bt ncells iv v X s a b c D Hi W Hb Hc.
  destruct (candf_ok bt v W) as [m Em]. destruct (entries_ok bt ncells v X W) as [l El].
  pose proof (rows_enough bt v W) as Hr. rewrite (wn_rows v W) in Hr.
  unfold NonCornerVertex in El. rewrite Em in El. cbn [bind] in El. unfold NonCorner. rewrite Em. cbn [bind].
  set (z := sizes_of bt v) in *.
  destruct (store_block_ok z m X iv 0 (nflux_in z) (st_T s) a b c D) as [T1 [E1 [D1 H1]]]; try lia. rewrite E1. cbn [bind].
  destruct (store_block_ok z m X iv (nflux_in z) (dir_up z) T1 a b c D1) as [T2 [E2 [D2 H2]]]; try lia. rewrite E2. cbn [bind].
  destruct (store_block_ok z m X iv (nflux_in z + dir_up z) (dir_dn z) T2 a b c D2) as [T3 [E3 [D3 H3]]]; try lia. rewrite E3. cbn [bind].
  rewrite El. cbn [bind]. exists m, T3, l. split; [reflexivity|]. split; [exact El|]. split; [reflexivity|]. split; [exact D3|].
  intros i' j' k'. rewrite H3, H2, H1. unfold last_row. fold z.
  destruct (Nat.eqb_spec i' iv); cbn [andb]; [|reflexivity]. destruct (Nat.ltb_spec k' (ncol z)); rewrite ?andb_true_r, ?andb_false_r; [|reflexivity].
  destruct (Nat.leb_spec (nflux_in z + dir_up z) j'), (Nat.ltb_spec j' (nflux_in z + dir_up z + dir_dn z)), (Nat.leb_spec (nflux_in z) j'),
    (Nat.ltb_spec j' (nflux_in z + dir_up z)), (Nat.leb_spec 0 j'), (Nat.ltb_spec j' (0 + nflux_in z)); cbn [andb]; try lia; reflexivity.
Qed.

(** * What a vertex that is no corner adds *)
Lemma outer_faces_eq : forall v e x, outer_faces e x = filter is_bnd (all_faces (vertex_of v e x)).
Proof. reflexivity. Qed.
Lemma last_row_cases : forall b v, well_numbered v ->
  (b <> NeumannBC /\ last_row b v = v_nfaces v /\ ncol (sizes_of b v) = (length (v_cells v) + count is_bnd v)%nat) \/
  (b = NeumannBC /\ last_row b v = (v_nfaces v - v_nbnd v)%nat /\ ncol (sizes_of b v) = length (v_cells v)).
Proof.
  intros b v W. pose proof (nbc_total v) as Ht. pose proof (wn_faces v W). pose proof (wn_bnd v W) as Hb.
  unfold last_row, ncol, sizes_of. destruct b; cbn [nflux_in dir_up dir_dn npcen npitf_dir].
  - left. repeat split; [discriminate|lia|lia].
  - right. repeat split; lia.
  - left. repeat split; [discriminate|lia|lia].
Qed.
Lemma vertex_row_value : forall b N v e x m X l T iv,
  well_numbered (vertex_of v e x) -> vertex_entries (sizes_of b (vertex_of v e x)) m X N (vertex_of v e x) = Ok l ->
  (forall j k, coefficient T iv j k = if (j <? last_row b (vertex_of v e x))%nat && (k <? ncol (sizes_of b (vertex_of v e x)))%nat
     then trans (sizes_of b (vertex_of v e x)) m X j k else 0) ->
  forall j a P, nth_error (v_rows (vertex_of v e x)) j = Some a -> mult l P a = row_value N T iv v e x j P.
Proof.
  intros b N v e x m X l T iv W El HT j a P Ha. set (w := vertex_of v e x) in *. set (z := sizes_of b w) in *.
  unfold vertex_entries in El. pose proof (last_row_cases b w W) as HL. unfold row_value.
  pose proof (rows_enough b w W) as Hr. fold z in Hr.
  assert (Hp : npcen z = length (x_cells v)) by (unfold z; destruct b; reflexivity).
  destruct (Nat.lt_ge_cases j (last_row b w)) as [Hj|Hj].
  - assert (Hj' : (j <? last_row b w)%nat = true) by (apply Nat.ltb_lt; exact Hj).
    rewrite (rows_value _ _ _ _ _ _ El (wn_rows_distinct w W) Hr P j a Hj Ha).
    change (npcen z + npitf_dir z)%nat with (ncol z).
    assert (Hc : total (fun c => trans z m X j c * P (nth c (columns z N w) 0%nat)) (length (x_cells v)) =
                 total (fun c => coefficient T iv j c * P (nth c (x_cells v) 0%nat)) (length (x_cells v))).
    { apply total_ext. intros c Hc. rewrite HT, Hj'. assert (Hk : (c <? ncol z)%nat = true) by (apply Nat.ltb_lt; unfold ncol; lia).
      fold z. rewrite Hk. cbn [andb]. unfold z. rewrite columns_cell by exact Hc. reflexivity. }
    destruct HL as [[Hb [_ Hn]]|[Hb [_ Hn]]]; fold z in Hn; rewrite Hn.
    + rewrite total_app. change (v_cells w) with (x_cells v). rewrite Hc. f_equal.
      rewrite (outer_faces_eq v e x). fold w. unfold count. apply total_ext. intros d Hd. rewrite HT, Hj'.
      assert (Hk : (length (x_cells v) + d <? ncol z)%nat = true) by (apply Nat.ltb_lt; rewrite Hn; unfold count; change (v_cells w) with (x_cells v); lia).
      fold z. rewrite Hk. cbn [andb]. f_equal. f_equal.
      destruct (nth_error (filter is_bnd (all_faces w)) d) as [f|] eqn:Ef; [|apply nth_error_None in Ef; lia].
      rewrite <- Hp. unfold z. rewrite (columns_bnd b w N d f W Hb Ef).
      rewrite (nth_error_nth (map sf_bnd (filter is_bnd (all_faces w))) d 0%nat (map_nth_error sf_bnd d _ Ef)). reflexivity.
    + change (v_cells w) with (x_cells v). rewrite Hc.
      rewrite (total_ext (fun d => coefficient T iv j (length (x_cells v) + d) * P (nth d (map sf_bnd (outer_faces e x)) 0%nat + N)%nat) (fun _ => 0)).
      * rewrite total_zero. ring.
      * intros d _. rewrite HT. fold z. assert (Hk : (length (x_cells v) + d <? ncol z)%nat = false) by (apply Nat.ltb_ge; rewrite Hn; change (v_cells w) with (x_cells v); lia).
        rewrite Hk, andb_false_r. ring.
  - assert (Hj' : (j <? last_row b w)%nat = false) by (apply Nat.ltb_ge; exact Hj).
    rewrite (rows_other _ _ _ _ _ _ El P a).
    + rewrite (total_ext _ (fun _ => 0)) by (intros; rewrite HT, Hj'; cbn [andb]; ring). rewrite total_zero.
      rewrite (total_ext _ (fun _ => 0)) by (intros; rewrite HT, Hj'; cbn [andb]; ring). rewrite total_zero. ring.
    + intros i Hi Hi'. assert (i = j). { apply (proj1 (NoDup_nth_error (v_rows w)) (wn_rows_distinct w W)); [eapply nth_lt; exact Hi'|congruence]. }
      subst i. unfold last_row in Hj. fold z in Hj. lia.
    + exact Hr.
Qed.
(** The entries lie in the first rows of the vertex. *)
Lemma entries_rows : forall b N v m X l, vertex_entries (sizes_of b v) m X N v = Ok l ->
  forall e, In e l -> exists j, (j < last_row b v)%nat /\ nth_error (v_rows v) j = Some (fst (fst e)).
Proof.
  intros b N v m X l El. unfold vertex_entries in El.
  refine (for_preserves (fun k l => forall e, In e l -> exists j, (j < k)%nat /\ nth_error (v_rows v) j = Some (fst (fst e))) _ _ _ _ El _ _).
  - intros e [].
  - intros i s s' Hi IH E. destruct (rd (v_rows v) i) as [r| |] eqn:Er; cbn [bind] in E; try discriminate. apply rd_inv in Er.
    refine (for_preserves (fun _ l => forall e, In e l -> exists j, (j < S i)%nat /\ nth_error (v_rows v) j = Some (fst (fst e))) _ _ _ _ E _ _).
    + intros e He. destruct (IH e He) as [j [Hj Ej]]. exists j. split; [lia|exact Ej].
    + intros q t t' Hq IHq E'. destruct (rd (columns (sizes_of b v) N v) q) as [c| |]; cbn [bind] in E'; try discriminate. injection E' as <-.
      intros e He. apply in_app_or in He. destruct He as [He|[<-|[]]]; [apply IHq; exact He|]. exists i. split; [lia|exact Er].
Qed.

(** * Corners *)
Lemma find_three : forall z0 z1 z2 j, z0 <> z1 -> z0 <> z2 -> z1 <> z2 -> (j < 3)%nat ->
  find_bnd (nth j [z0; z1; z2] 0%Z) [Some z0; Some z1; Some z2] 0 = Ok j.
Proof.
  intros z0 z1 z2 j H01 H02 H12 Hj. destruct j as [|[|[|j]]]; [..|lia]; cbn [nth find_bnd].
  - rewrite Z.eqb_refl. reflexivity.
  - destruct (Z.eqb_spec z1 z0); [congruence|]. rewrite Z.eqb_refl. reflexivity.
  - destruct (Z.eqb_spec z2 z0); [congruence|]. destruct (Z.eqb_spec z2 z1); [congruence|]. rewrite Z.eqb_refl. reflexivity.
Qed.
Definition perm3 (r0 r1 r2 : nat) : Prop := (r0 < 3 /\ r1 < 3 /\ r2 < 3 /\ r0 <> r1 /\ r0 <> r2 /\ r1 <> r2)%nat.
Lemma perm3_cases : forall r0 r1 r2, perm3 r0 r1 r2 ->
  In [r0; r1; r2] [[0; 1; 2]; [0; 2; 1]; [1; 0; 2]; [1; 2; 0]; [2; 0; 1]; [2; 1; 0]]%nat.
Proof.
  intros r0 r1 r2 H. unfold perm3 in H. destruct r0 as [|[|[|r0]]]; [..|lia]; destruct r1 as [|[|[|r1]]]; try lia;
    destruct r2 as [|[|[|r2]]]; try lia; simpl; tauto.
Qed.
Definition inverse3 (r0 r1 : nat) (c : nat) : nat := if (c =? r0)%nat then 0%nat else if (c =? r1)%nat then 1%nat else 2%nat.
Lemma swap_ok : forall m s0 s1 s2 c0 c1 c2 r0 r1 r2, NoDup [s0; s1; s2] ->
  nth_error (faces m) s0 = Some c0 -> nth_error (faces m) s1 = Some c1 -> nth_error (faces m) s2 = Some c2 ->
  outside c0 <> outside c1 -> outside c0 <> outside c2 -> outside c1 <> outside c2 -> perm3 r0 r1 r2 ->
  swap_rows m [nth r0 [s0; s1; s2] O; nth r1 [s0; s1; s2] O; nth r2 [s0; s1; s2] O] [s0; s1; s2] =
    Ok ([Some (outside c0); Some (outside c1); Some (outside c2)], [r0; r1; r2]) /\
  swap_columns m [nth r0 [s0; s1; s2] O; nth r1 [s0; s1; s2] O; nth r2 [s0; s1; s2] O] [Some (outside c0); Some (outside c1); Some (outside c2)] =
    Ok [Some (inverse3 r0 r1 0); Some (inverse3 r0 r1 1); Some (inverse3 r0 r1 2)].
Proof.
  intros m s0 s1 s2 c0 c1 c2 r0 r1 r2 Hd E0 E1 E2 N01 N02 N12 Hp.
  inversion Hd as [|? ? A Hd']; subst. inversion Hd' as [|? ? B _]; subst. simpl in A, B.
  assert (Q01 : (s0 =? s1)%nat = false) by (apply Nat.eqb_neq; intros ->; tauto).
  assert (Q02 : (s0 =? s2)%nat = false) by (apply Nat.eqb_neq; intros ->; tauto).
  assert (Q12 : (s1 =? s2)%nat = false) by (apply Nat.eqb_neq; intros ->; tauto).
  assert (Q10 : (s1 =? s0)%nat = false) by (rewrite Nat.eqb_sym; exact Q01).
  assert (Q20 : (s2 =? s0)%nat = false) by (rewrite Nat.eqb_sym; exact Q02).
  assert (Q21 : (s2 =? s1)%nat = false) by (rewrite Nat.eqb_sym; exact Q12).
  assert (R0 : rd (faces m) s0 = Ok c0) by (apply rd_some; exact E0).
  assert (R1 : rd (faces m) s1 = Ok c1) by (apply rd_some; exact E1).
  assert (R2 : rd (faces m) s2 = Ok c2) by (apply rd_some; exact E2).
  assert (F : forall j, (j < 3)%nat -> find_bnd (nth j [outside c0; outside c1; outside c2] 0%Z) [Some (outside c0); Some (outside c1); Some (outside c2)] 0 = Ok j)
    by (intros; apply find_three; assumption).
  pose proof (F 0%nat ltac:(lia)) as F0. pose proof (F 1%nat ltac:(lia)) as F1. pose proof (F 2%nat ltac:(lia)) as F2. cbn [nth] in F0, F1, F2.
  unfold swap_rows, swap_columns, for_.
  apply perm3_cases in Hp. cbn [In] in Hp.
  repeat (destruct Hp as [Hp|Hp]; [injection Hp as <- <- <-|]); [..|destruct Hp];
  (split; [cbn [nth loop rd nth_error bind scan fst snd wr upd length Nat.ltb Nat.leb app];
    repeat (rewrite ?R0, ?R1, ?R2, ?Q01, ?Q02, ?Q12, ?Q10, ?Q20, ?Q21, ?Nat.eqb_refl;
      cbn [nth loop rd nth_error bind scan fst snd wr upd length Nat.ltb Nat.leb app]); reflexivity
  |cbn [nth loop rd nth_error bind fst snd app];
    repeat (rewrite ?R0, ?R1, ?R2, ?F0, ?F1, ?F2; cbn [nth loop rd nth_error bind wr upd length Nat.ltb Nat.leb]); reflexivity]).
Qed.

Definition corner_val (s : subcell) (r : list nat) (cols : list (option nat)) (i k : nat) : R :=
  let f := nth (nth i r O) (sfaces s) (fst (fst s)) in
  match k with
  | O => 0 + g_at f 0 + g_at f 1 + g_at f 2
  | S k => match nth k cols None with Some c => - g_at f c | None => 0 end
  end.
Lemma corner_first : forall T a b c iv s, dims T a b c -> (iv < a)%nat -> (3 <= b)%nat -> (4 <= c)%nat ->
  exists T', for_ 3 (fun i T => do f <- rd (sfaces s) i;
    for_ 4 (fun j T => wr3 T iv i j (if (j <? 3)%nat then - g_at f j else 0 + g_at f 0 + g_at f 1 + g_at f 2)) T) T = Ok T' /\ dims T' a b c /\
  forall i' j' k', ~ (i' = iv /\ (j' < 3)%nat /\ (k' < 4)%nat) -> coefficient T' i' j' k' = coefficient T i' j' k'.
Proof.
  intros T a b c iv s D Hi Hb Hc.
  apply (for_inv (fun _ T' => dims T' a b c /\ forall i' j' k', ~ (i' = iv /\ (j' < 3)%nat /\ (k' < 4)%nat) -> coefficient T' i' j' k' = coefficient T i' j' k')).
  - split; [exact D|]. reflexivity.
  - intros i T1 Hi3 [D1 H1]. destruct (rd_ok (sfaces s) i) as [f [Ef _]]; [destruct s as [[? ?] ?]; simpl; lia|]. rewrite Ef. cbn [bind].
    apply (for_inv (fun _ T' => dims T' a b c /\ forall i' j' k', ~ (i' = iv /\ (j' < 3)%nat /\ (k' < 4)%nat) -> coefficient T' i' j' k' = coefficient T i' j' k')).
    + split; assumption.
    + intros j T2 Hj [D2 H2]. destruct (wr3_ok T2 a b c iv i j (if (j <? 3)%nat then - g_at f j else 0 + g_at f 0 + g_at f 1 + g_at f 2) D2) as [T3 [E3 [D3 H3]]]; try lia.
      exists T3. split; [exact E3|]. split; [exact D3|]. intros i' j' k' Hn. rewrite H3.
      destruct (Nat.eqb_spec i' iv), (Nat.eqb_spec j' i), (Nat.eqb_spec k' j); cbn [andb]; try (apply H2; exact Hn). exfalso. apply Hn. lia.
Qed.
Lemma corner_second : forall T a b c iv s r c0 c1 c2, dims T a b c -> (iv < a)%nat -> (3 <= b)%nat -> (4 <= c)%nat ->
  length r = 3%nat -> (forall i, In i r -> (i < 3)%nat) ->
  let cols := [Some c0; Some c1; Some c2] in
  exists T', for_ 3 (fun i T => do row <- rd r i; do f <- rd (sfaces s) row;
    do T <- wr3 T iv i 0 (0 + g_at f 0 + g_at f 1 + g_at f 2);
    for_ 3 (fun j T => do c <- rd cols j; match c with None => UB | Some c => wr3 T iv i (j + 1) (- g_at f c) end) T) T = Ok T' /\ dims T' a b c /\
  forall i' j' k', coefficient T' i' j' k' = if (i' =? iv)%nat && (j' <? 3)%nat && (k' <? 4)%nat then corner_val s r cols j' k' else coefficient T i' j' k'.
Proof.
  intros T a b c iv s r c0 c1 c2 D Hi Hb Hc Lr Hr cols.
  apply (for_inv (fun q T' => dims T' a b c /\ forall i' j' k', coefficient T' i' j' k' =
    if (i' =? iv)%nat && (j' <? q)%nat && (k' <? 4)%nat then corner_val s r cols j' k' else coefficient T i' j' k')).
  - split; [exact D|]. intros. rewrite andb_false_r. reflexivity.
  - intros i T1 Hi3 [D1 H1]. destruct (rd_ok r i) as [row [Er Nr]]; [lia|]. rewrite Er. cbn [bind].
    pose proof (Hr row (nth_error_In _ _ Nr)) as Hrow.
    destruct (rd_ok (sfaces s) row) as [f [Ef Nf]]; [destruct s as [[? ?] ?]; simpl; lia|]. rewrite Ef. cbn [bind].
    assert (Hf : nth (nth i r O) (sfaces s) (fst (fst s)) = f) by (rewrite (nth_error_nth _ _ 0%nat Nr); apply nth_error_nth; exact Nf).
    destruct (wr3_ok T1 a b c iv i 0 (0 + g_at f 0 + g_at f 1 + g_at f 2) D1) as [T2 [E2 [D2 H2]]]; try lia. rewrite E2. cbn [bind].
    destruct (for_inv (fun q T' => dims T' a b c /\ forall i' j' k', coefficient T' i' j' k' =
        if (i' =? iv)%nat && (j' =? i)%nat && (k' <? S q)%nat then corner_val s r cols j' k' else coefficient T1 i' j' k')
      (fun j T => do c <- rd cols j; match c with None => UB | Some c => wr3 T iv i (j + 1) (- g_at f c) end) 3 T2) as [T3 [E3 [D3 H3]]].
    + split; [exact D2|]. intros i' j' k'. rewrite H2. destruct (Nat.eqb_spec i' iv), (Nat.eqb_spec j' i), (Nat.eqb_spec k' 0), (Nat.ltb_spec k' 1); cbn [andb]; try lia; try reflexivity.
      subst i' j' k'. unfold corner_val. rewrite Hf. reflexivity.
    + intros q T4 Hq [D4 H4]. assert (Hcol : exists cc, rd cols q = Ok (Some cc) /\ nth q cols None = Some cc).
      { destruct q as [|[|[|q]]]; [..|lia]; unfold cols; eexists; split; reflexivity. }
      destruct Hcol as [cc [Rc Nc]]. rewrite Rc. cbn [bind].
      destruct (wr3_ok T4 a b c iv i (q + 1) (- g_at f cc) D4) as [T5 [E5 [D5 H5]]]; try lia. exists T5. split; [exact E5|]. split; [exact D5|].
      intros i' j' k'. rewrite H5, H4.
      destruct (Nat.eqb_spec i' iv), (Nat.eqb_spec j' i), (Nat.eqb_spec k' (q + 1)), (Nat.ltb_spec k' (S q)), (Nat.ltb_spec k' (S (S q))); cbn [andb]; try lia; try reflexivity.
      subst i' j' k'. replace (q + 1)%nat with (S q) by lia. unfold corner_val. rewrite Hf, Nc. reflexivity.
    + exists T3. split; [exact E3|]. split; [exact D3|]. intros i' j' k'. rewrite H3, H1.
      destruct (Nat.eqb_spec i' iv), (Nat.eqb_spec j' i), (Nat.ltb_spec j' i), (Nat.ltb_spec j' (S i)), (Nat.ltb_spec k' 4); cbn [andb]; try lia; reflexivity.
Qed.

(** [nth r sf] lists the faces of the vertex in the order of the sub-cell's. *)
Lemma reorder : forall (vf sf : list nat), length vf = 3%nat -> length sf = 3%nat -> NoDup vf -> (forall a, In a vf <-> In a sf) ->
  exists r0 r1 r2, perm3 r0 r1 r2 /\ vf = [nth r0 sf O; nth r1 sf O; nth r2 sf O].
Proof.
  intros vf sf Lv Ls Hd Hin. destruct vf as [|a0 [|a1 [|a2 [|]]]]; try discriminate.
  assert (G : forall a, In a [a0; a1; a2] -> exists r, (r < 3)%nat /\ nth r sf O = a).
  { intros a Ha. apply Hin in Ha. apply (In_nth _ _ 0%nat) in Ha. rewrite Ls in Ha. exact Ha. }
  destruct (G a0) as [r0 [H0 E0]]; [simpl; auto|]. destruct (G a1) as [r1 [H1 E1]]; [simpl; auto|]. destruct (G a2) as [r2 [H2 E2]]; [simpl; auto|].
  inversion Hd as [|? ? A Hd']; subst. inversion Hd' as [|? ? B _]; subst. simpl in A, B.
  exists r0, r1, r2. split; [|reflexivity]. unfold perm3.
  repeat split; try assumption; intros E; subst; tauto.
Qed.
Lemma position_nth : forall l s x, NoDup l -> nth_error l s = Some x -> position x l = Some s.
Proof.
  induction l as [|y l IH]; intros s x Hd H; [destruct s; discriminate|]. inversion Hd as [|? ? A Hd']; subst.
  destruct s as [|s]; simpl in *.
  - injection H as ->. rewrite Nat.eqb_refl. reflexivity.
  - destruct (Nat.eqb_spec x y) as [->|E]; [exfalso; apply A; eapply nth_error_In; exact H|]. rewrite (IH s x Hd' H). reflexivity.
Qed.

Section CornerVertex.
Variables (M : tmesh) (ncv nfv iv : nat) (v : vert) (e : extra).
Hypothesis G : good_tmesh M ncv nfv.
Hypothesis Ev : nth_error (verts (t_mesh M)) iv = Some v.
Hypothesis Ee : nth_error (t_extra M) iv = Some e.
Hypothesis Hc : corner v e.

Lemma in_verts : In v (verts (t_mesh M)).
Proof. eapply nth_error_In; exact Ev. Qed.

Lemma subface_at : forall j a, nth_error (x_faces v) j = Some a -> exists f s, nth_error (faces (t_mesh M)) a = Some f /\ nth_error (x_subs v) j = Some s /\
  subface (t_mesh M) iv j = Some (v, f, row_of a s).
Proof.
  intros j a Ha. destruct (gt_faces M ncv nfv G v in_verts) as [Hl Hf].
  pose proof (Hf a (nth_error_In _ _ Ha)) as Hlt. pose proof (nth_lt _ _ _ Ha) as Hj.
  destruct (nth_error (faces (t_mesh M)) a) as [f|] eqn:Ef; [|apply nth_error_None in Ef; lia].
  destruct (nth_error (x_subs v) j) as [s|] eqn:Es; [|apply nth_error_None in Es; lia].
  exists f, s. split; [reflexivity|]. split; [reflexivity|]. unfold subface. rewrite Ev, Ha, Es, Ef. reflexivity.
Qed.
Lemma subface_row : forall j f a, subface (t_mesh M) iv j = Some (v, f, a) ->
  exists b s, nth_error (x_faces v) j = Some b /\ nth_error (x_subs v) j = Some s /\ nth_error (faces (t_mesh M)) b = Some f /\ a = row_of b s.
Proof.
  intros j f a H. unfold subface in H. rewrite Ev in H. destruct (nth_error (x_faces v) j) as [b|] eqn:Eb; [|discriminate].
  destruct (nth_error (x_subs v) j) as [s|] eqn:Es; [|discriminate]. destruct (nth_error (faces (t_mesh M)) b) as [f'|] eqn:Ef; [|discriminate].
  injection H as <- <-. exists b, s. auto.
Qed.

Lemma corner_ok : forall x s a b c N, dims (st_T s) a b c -> (iv < a)%nat -> (3 <= b)%nat -> (4 <= c)%nat ->
  exists sub cell T' l r0 r1 r2, e_sub e x = [sub] /\ x_cells v = [cell] /\ perm3 r0 r1 r2 /\
  x_faces v = [nth r0 (e_sfaces e) O; nth r1 (e_sfaces e) O; nth r2 (e_sfaces e) O] /\
  Corner M N iv v e x s = Ok (mkStored T' (st_l s ++ l)) /\ dims T' a b c /\
  (forall i' j' k', coefficient T' i' j' k' = if (i' =? iv)%nat && (j' <? 3)%nat && (k' <? 4)%nat
     then corner_val sub [r0; r1; r2] [Some (inverse3 r0 r1 0); Some (inverse3 r0 r1 1); Some (inverse3 r0 r1 2)] j' k' else coefficient (st_T s) i' j' k') /\
  (forall y, In y l -> exists j f, subface (t_mesh M) iv j = Some (v, f, fst (fst y))) /\
  (forall j f row P, subface (t_mesh M) iv j = Some (v, f, row) ->
     let h := nth (nth j [r0; r1; r2] O) (sfaces sub) (fst (fst sub)) in
     mult l P row = total (fun q => g_at h q * (P cell - P (sf_bnd (nth q (sfaces sub) h) + N)%nat)) 3).
Proof.
  intros x s a b c N D Hi Hb Hc4.
  destruct (gt_corner M ncv nfv G iv v e Ev Ee Hc) as [Hn [Lf [Lc [Ls [Nf [Ns [Hin [Hsub [Hpos Hout]]]]]]]]].
  destruct (Hsub x) as [sub [Es Hint]]. destruct (x_cells v) as [|cell [|]] eqn:Ec; try discriminate.
  destruct (reorder (x_faces v) (e_sfaces e) Lf Ls Nf Hin) as [r0 [r1 [r2 [Hp Ef]]]].
  destruct (e_sfaces e) as [|s0 [|s1 [|s2 [|]]]] eqn:Esf; try discriminate.
  unfold Corner. rewrite Ec, Es, Esf. cbn [rd nth_error bind].
  destruct (corner_first (st_T s) a b c iv sub D Hi Hb Hc4) as [T1 [E1 [D1 H1]]]. rewrite E1. cbn [bind].
  (* the rows *)
  assert (Hrow : forall i, (i < 3)%nat -> exists j f sb, (j < 3)%nat /\ nth j [r0; r1; r2] O = i /\ nth_error (x_faces v) j = Some (nth i [s0; s1; s2] O) /\
    nth_error (x_subs v) j = Some sb /\ nth_error (faces (t_mesh M)) (nth i [s0; s1; s2] O) = Some f /\
    subface (t_mesh M) iv j = Some (v, f, row_of (nth i [s0; s1; s2] O) sb) /\
    corner_row_of M iv (nth i [s0; s1; s2] O) = Ok (row_of (nth i [s0; s1; s2] O) sb)).
  { intros i Hi3.
    assert (Hj : exists j, (j < 3)%nat /\ nth j [r0; r1; r2] O = i).
    { unfold perm3 in Hp. destruct (Nat.eq_dec r0 i); [exists 0%nat; split; [lia|assumption]|]. destruct (Nat.eq_dec r1 i); [exists 1%nat; split; [lia|assumption]|].
      exists 2%nat. simpl. lia. }
    destruct Hj as [j [Hj Ej]].
    assert (Hf : nth_error (x_faces v) j = Some (nth i [s0; s1; s2] O)).
    { rewrite Ef. destruct j as [|[|[|j]]]; [..|lia]; cbn [nth] in Ej; subst i; reflexivity. }
    destruct (subface_at j _ Hf) as [f [sb [Hf1 [Hf2 Hf3]]]].
    exists j, f, sb. repeat (split; [assumption|]). destruct (Hpos j _ sb Hf Hf2) as [vs [Hv1 [Hv2 Hv3]]].
    unfold corner_row_of. rewrite (rd_some _ _ _ Hv1). cbn [bind]. rewrite (position_nth _ _ _ Hv2 Hv3). reflexivity. }
  destruct (Hrow 0%nat ltac:(lia)) as [j0 [f0 [b0 [A0 [A1 [A2 [A3 [A4 [A5 A6]]]]]]]]].
  destruct (Hrow 1%nat ltac:(lia)) as [j1 [f1 [b1 [B0 [B1 [B2 [B3 [B4 [B5 B6]]]]]]]]].
  destruct (Hrow 2%nat ltac:(lia)) as [j2 [f2 [b2 [C0 [C1' [C2 [C3 [C4 [C5 C6]]]]]]]]].
  cbn [nth] in A2, A4, A5, A6, B2, B4, B5, B6, C2, C4, C5, C6.
  cbn [corner_rows]. rewrite A6, B6, C6. cbn [bind].
  set (q0 := row_of s0 b0) in *. set (q1 := row_of s1 b1) in *. set (q2 := row_of s2 b2) in *.
  assert (Nq : NoDup [q0; q1; q2]).
  { assert (X01 : q0 <> q1). { intros E. rewrite E in A5. destruct (gt_rows M ncv nfv G _ _ _ _ _ _ _ _ _ A5 B5) as [_ K]. subst j1. rewrite A1 in B1. discriminate. }
    assert (X02 : q0 <> q2). { intros E. rewrite E in A5. destruct (gt_rows M ncv nfv G _ _ _ _ _ _ _ _ _ A5 C5) as [_ K]. subst j2. rewrite A1 in C1'. discriminate. }
    assert (X12 : q1 <> q2). { intros E. rewrite E in B5. destruct (gt_rows M ncv nfv G _ _ _ _ _ _ _ _ _ B5 C5) as [_ K]. subst j2. rewrite B1 in C1'. discriminate. }
    repeat constructor; simpl; intuition. }
  destruct sub as [[g0 g1] g2]. cbn [sfaces In] in Hint.
  assert (I0 : sf_internal g0 = false) by (apply Hint; auto). assert (I1 : sf_internal g1 = false) by (apply Hint; auto). assert (I2 : sf_internal g2 = false) by (apply Hint; auto).
  destruct (corner_proof N cell g0 g1 g2 q0 q1 q2 (fun _ => 0) I0 I1 I2 Nq) as [l [El _]].
  rewrite El. cbn [bind].
  (* the swaps *)
  assert (Hm : forall j, (j < 3)%nat -> In (nth j [s0; s1; s2] O) (x_faces v)) by (intros j Hj; apply Hin; apply nth_In; exact Hj).
  assert (O01 : outside f0 <> outside f1).
  { intros E. pose proof (proj2 (Hout s0 s1 f0 f1 (Hm 0%nat ltac:(lia)) (Hm 1%nat ltac:(lia)) A4 B4) E). inversion Ns; subst; simpl in *; tauto. }
  assert (O02 : outside f0 <> outside f2).
  { intros E. pose proof (proj2 (Hout s0 s2 f0 f2 (Hm 0%nat ltac:(lia)) (Hm 2%nat ltac:(lia)) A4 C4) E). inversion Ns; subst; simpl in *; tauto. }
  assert (O12 : outside f1 <> outside f2).
  { intros E. pose proof (proj2 (Hout s1 s2 f1 f2 (Hm 1%nat ltac:(lia)) (Hm 2%nat ltac:(lia)) B4 C4) E). inversion Ns as [|? ? _ Ns']; subst. inversion Ns'; subst; simpl in *; tauto. }
  destruct (swap_ok (t_mesh M) s0 s1 s2 f0 f1 f2 r0 r1 r2 Ns A4 B4 C4 O01 O02 O12 Hp) as [Sr Sc].
  rewrite Ef, Sr. cbn [bind fst snd]. rewrite Sc. cbn [bind].
  destruct (corner_second T1 a b c iv (g0, g1, g2) [r0; r1; r2] (inverse3 r0 r1 0) (inverse3 r0 r1 1) (inverse3 r0 r1 2) D1 Hi Hb Hc4 eq_refl) as [T2 [E2 [D2 H2]]].
  { unfold perm3 in Hp. simpl. intros i H. intuition subst; lia. }
  cbv zeta in E2. rewrite E2. cbn [bind].
  exists (g0, g1, g2), cell, T2, l, r0, r1, r2. repeat (split; [first [reflexivity|assumption]|]). split; [|split].
  - intros i' j' k'. rewrite H2. destruct (Nat.eqb_spec i' iv), (Nat.ltb_spec j' 3), (Nat.ltb_spec k' 4); cbn [andb]; try reflexivity; apply H1; lia.
  - intros y Hy.
    assert (K : fst (fst y) = q0 \/ fst (fst y) = q1 \/ fst (fst y) = q2).
    { revert El Hy. clear. unfold CornerVertex. intros El Hy.
      assert (forall y, In y l -> exists i, (i < 3)%nat /\ nth_error [q0; q1; q2] i = Some (fst (fst y))).
      { refine (for_preserves (fun k l => forall y, In y l -> exists i, (i < 3)%nat /\ nth_error [q0; q1; q2] i = Some (fst (fst y))) _ _ _ _ El _ _).
        - intros ? [].
        - intros i t t' Hi IH E. destruct (rd [q0; q1; q2] i) as [r| |] eqn:Er; cbn [bind] in E; try discriminate. apply rd_inv in Er.
          destruct (rd (sfaces (g0, g1, g2)) i) as [h| |]; cbn [bind] in E; try discriminate.
          refine (for_preserves (fun _ l => forall y, In y l -> exists i, (i < 3)%nat /\ nth_error [q0; q1; q2] i = Some (fst (fst y))) _ _ _ _ E IH _).
          intros q u u' Hq IHq Eq. destruct (rd (corner_columns N (g0, g1, g2) cell) q) as [cc| |]; cbn [bind] in Eq; try discriminate.
          destruct (rd (corner_row h) q) as [xx| |]; cbn [bind] in Eq; try discriminate. injection Eq as <-.
          intros z Hz. apply in_app_or in Hz. destruct Hz as [Hz|[<-|[]]]; [apply IHq; exact Hz|]. exists i. auto. }
      destruct (H y Hy) as [i [Hi E]]. destruct i as [|[|[|i]]]; [..|lia]; simpl in E; injection E as ->; auto. }
    destruct K as [->|[->| ->]]; eauto.
  - intros j f row P Hs. cbv zeta. set (h := nth (nth j [r0; r1; r2] O) (sfaces (g0, g1, g2)) (fst (fst (g0, g1, g2)))).
    destruct (corner_proof N cell g0 g1 g2 q0 q1 q2 P I0 I1 I2 Nq) as [l' [El' Hl']]. rewrite El in El'. injection El' as <-.
    destruct (subface_row j f row Hs) as [bb [sb [K1 [K2 [K3 K4]]]]].
    assert (Hj : (j < 3)%nat) by (apply nth_lt in K1; rewrite Lf in K1; exact K1).
    assert (Hrj : (nth j [r0; r1; r2] O < 3)%nat) by (unfold perm3 in Hp; destruct j as [|[|[|j]]]; [..|lia]; simpl; lia).
    assert (Hq : nth_error [q0; q1; q2] (nth j [r0; r1; r2] O) = Some row).
    { destruct (Hrow _ Hrj) as [j' [f' [sb' [D0 [D1' [D2' [D3 [D4 [D5 D6]]]]]]]]].
      assert (j' = j). { unfold perm3 in Hp. destruct j as [|[|[|j]]]; [..|lia]; destruct j' as [|[|[|j']]]; try lia; simpl in D1'; try reflexivity; lia. }
      subst j'. assert (Er : row = row_of (nth (nth j [r0; r1; r2] O) [s0; s1; s2] O) sb') by congruence. rewrite Er. clear Er. clear - Hrj D6 A6 B6 C6.
      revert Hrj D6. generalize (nth j [r0; r1; r2] O). intros i Hrj D6.
      destruct i as [|[|[|i]]]; [..|lia]; cbn [nth] in *; cbn [nth_error]; congruence. }
    assert (Hh : nth_error [g0; g1; g2] (nth j [r0; r1; r2] O) = Some h).
    { unfold h. destruct (nth j [r0; r1; r2] O) as [|[|[|i]]]; [..|lia]; reflexivity. }
    rewrite (Hl' _ h row Hh Hq). cbn [total sfaces nth]. unfold g_at. destruct (sf_g h) as [[u0 u1] u2]. simpl. ring.
Qed.
End CornerVertex.

(** ** All vertices *)

Lemma mult_none : forall l P a, (forall y, In y l -> fst (fst y) <> a) -> mult l P a = 0.
Proof.
  induction l as [|[[r c] x] l IH]; intros P a H; [reflexivity|]. cbn [mult]. rewrite IH by (intros y Hy; apply H; right; exact Hy).
  pose proof (H (r, c, x) (or_introl eq_refl)) as E. cbn [fst] in E. destruct (Nat.eqb_spec r a); [contradiction|]. ring.
Qed.
Lemma sum_at_mult : forall l a k, sum_at l a k = mult l (fun c => if (c =? k)%nat then 1 else 0) a.
Proof.
  induction l as [|[[r c] x] l IH]; intros a k; [reflexivity|]. cbn [mult]. rewrite <- IH. unfold sum_at. cbn [fold_right fst snd].
  destruct (r =? a)%nat, (c =? k)%nat; cbn [andb]; ring.
Qed.

(** One variable at one vertex. *)
Definition vertex_step (x : variable) (M : tmesh) (X : nat -> option (list R)) (iv : nat) (s : stored) : outcome stored :=
  do v <- rd (verts (t_mesh M)) iv;
  do e <- rd (t_extra M) iv;
  if negb (x_local v) then Ok s
  else if negb (is_corner v e) then NonCorner (bc (t_mesh M)) (length (rocks (t_mesh M))) iv (vertex_of v e x) (X iv) s
  else match bc (t_mesh M) with NeumannBC => Ok s | _ => Corner M (length (rocks (t_mesh M))) iv v e x s end.

Lemma is_corner_spec : forall v e, is_corner v e = true <-> corner v e.
Proof.
  intros v e. unfold is_corner, corner. rewrite negb_true_iff, orb_false_iff, Nat.eqb_neq, Nat.ltb_ge. tauto.
Qed.

Section AllVertices.
Variables (M : tmesh) (ncv nfv : nat) (x : variable) (X : nat -> option (list R)) (c : nat).
Hypothesis G : good_tmesh M ncv nfv.
Hypothesis HX : answered M X.
Let m := t_mesh M.
Let N := length (rocks m).
Let nv := length (verts m).
(** The columns of the array suffice. *)
Hypothesis Hwide : forall iv v e, nth_error (verts m) iv = Some v -> nth_error (t_extra M) iv = Some e -> x_local v = true ->
  (bc m <> NeumannBC -> (length (x_cells v) + e_nbnd e <= c)%nat) /\ (bc m = NeumannBC -> (length (x_cells v) <= c)%nat).

(** What the entries [l] and the array [T] are at vertex [iv]. *)
Definition vertex_done (l : list entry) (T : Trans) (iv : nat) (v : vert) (e : extra) : Prop :=
  (~ corner v e -> forall j f a P, subface m iv j = Some (v, f, a) -> mult l P a = row_value N T iv v e x j P) /\
  (~ corner v e -> exists l1, NonCornerVertex (bc m) N (vertex_of v e x) (X iv) = Ok l1 /\
     forall j f a P, subface m iv j = Some (v, f, a) -> mult l P a = mult l1 P a) /\
  (forall j f a, subface m iv j = Some (v, f, a) -> closed m f -> forall y, In y l -> fst (fst y) <> a) /\
  (corner v e -> bc m <> NeumannBC -> exists sub cell r0 r1 r2, e_sub e x = [sub] /\ x_cells v = [cell] /\ perm3 r0 r1 r2 /\
     x_faces v = [nth r0 (e_sfaces e) O; nth r1 (e_sfaces e) O; nth r2 (e_sfaces e) O] /\
     (forall j k, coefficient T iv j k = if (j <? 3)%nat && (k <? 4)%nat
        then corner_val sub [r0; r1; r2] [Some (inverse3 r0 r1 0); Some (inverse3 r0 r1 1); Some (inverse3 r0 r1 2)] j k else 0) /\
     (forall j f a P, subface m iv j = Some (v, f, a) ->
        let h := nth (nth j [r0; r1; r2] O) (sfaces sub) (fst (fst sub)) in
        mult l P a = total (fun q => g_at h q * (P cell - P (sf_bnd (nth q (sfaces sub) h) + N)%nat)) 3)).
Definition vinv (n : nat) (s : Transmit.stored) : Prop :=
  dims (st_T s) nv nfv c /\
  (forall iv j k, (n <= iv)%nat -> coefficient (st_T s) iv j k = 0) /\
  (forall iv v e j k, nth_error (verts m) iv = Some v -> nth_error (t_extra M) iv = Some e -> x_local v = false \/ (corner v e /\ bc m = NeumannBC) -> coefficient (st_T s) iv j k = 0) /\
  (forall y, In y (st_l s) -> exists iv j v f, (iv < n)%nat /\ subface m iv j = Some (v, f, fst (fst y)) /\ x_local v = true) /\
  (forall iv v e, (iv < n)%nat -> nth_error (verts m) iv = Some v -> nth_error (t_extra M) iv = Some e -> x_local v = true ->
     vertex_done (st_l s) (st_T s) iv v e).

Lemma row_value_ext : forall T T' iv v e j P, (forall j k, coefficient T' iv j k = coefficient T iv j k) ->
  row_value N T' iv v e x j P = row_value N T iv v e x j P.
Proof.
  intros T T' iv v e j P H. unfold row_value. f_equal; apply total_ext; intros; rewrite H; reflexivity.
Qed.
Lemma done_more : forall l l' T T' iv v e, vertex_done l T iv v e -> (forall j k, coefficient T' iv j k = coefficient T iv j k) ->
  (forall y j f, In y l' -> subface m iv j = Some (v, f, fst (fst y)) -> False) -> vertex_done (l ++ l') T' iv v e.
Proof.
  intros l l' T T' iv v e [D1 [D4 [D2 D3]]] HT Hl.
  assert (Z : forall j f a P, subface m iv j = Some (v, f, a) -> mult (l ++ l') P a = mult l P a).
  { intros j f a P Hs. rewrite mult_app, (mult_none l' P a); [ring|]. intros y Hy E. apply (Hl y j f Hy). rewrite E. exact Hs. }
  split; [|split; [|split]].
  - intros Hc j f a P Hs. rewrite (Z _ _ _ _ Hs), (row_value_ext T T') by exact HT. exact (D1 Hc j f a P Hs).
  - intros Hc. destruct (D4 Hc) as [l1 [E1 H1]]. exists l1. split; [exact E1|]. intros j f a P Hs. rewrite (Z _ _ _ _ Hs). exact (H1 j f a P Hs).
  - intros j f a Hs Hcl y Hy E. apply in_app_or in Hy. destruct Hy as [Hy|Hy]; [exact (D2 j f a Hs Hcl y Hy E)|].
    apply (Hl y j f Hy). rewrite E. exact Hs.
  - intros Hc Hb. destruct (D3 Hc Hb) as [sub [cell [r0 [r1 [r2 [A [B [C [D [E F]]]]]]]]]].
    exists sub, cell, r0, r1, r2. repeat (split; [assumption|]). split; [intros j k; rewrite HT; apply E|].
    intros j f a P Hs. cbv zeta. rewrite (Z _ _ _ _ Hs). exact (F j f a P Hs).
Qed.
Lemma done_first : forall l l' T iv v e, vertex_done l' T iv v e ->
  (forall y j f, In y l -> subface m iv j = Some (v, f, fst (fst y)) -> False) -> vertex_done (l ++ l') T iv v e.
Proof.
  intros l l' T iv v e [D1 [D4 [D2 D3]]] Hl.
  assert (Z : forall j f a P, subface m iv j = Some (v, f, a) -> mult (l ++ l') P a = mult l' P a).
  { intros j f a P Hs. rewrite mult_app, (mult_none l P a); [ring|]. intros y Hy E. apply (Hl y j f Hy). rewrite E. exact Hs. }
  split; [|split; [|split]].
  - intros Hc j f a P Hs. rewrite (Z _ _ _ _ Hs). exact (D1 Hc j f a P Hs).
  - intros Hc. destruct (D4 Hc) as [l1 [E1 H1]]. exists l1. split; [exact E1|]. intros j f a P Hs. rewrite (Z _ _ _ _ Hs). exact (H1 j f a P Hs).
  - intros j f a Hs Hcl y Hy E. apply in_app_or in Hy. destruct Hy as [Hy|Hy]; [|exact (D2 j f a Hs Hcl y Hy E)].
    apply (Hl y j f Hy). rewrite E. exact Hs.
  - intros Hc Hb. destruct (D3 Hc Hb) as [sub [cell [r0 [r1 [r2 [A [B [C [D [E F]]]]]]]]]].
    exists sub, cell, r0, r1, r2. repeat (split; [assumption|]).
    intros j f a P Hs. cbv zeta. rewrite (Z _ _ _ _ Hs). exact (F j f a P Hs).
Qed.
Lemma done_corner_neumann : forall l T iv v e, nth_error (verts m) iv = Some v -> corner v e -> bc m = NeumannBC ->
  (forall y j f, In y l -> subface m iv j = Some (v, f, fst (fst y)) -> False) -> vertex_done l T iv v e.
Proof.
  intros l T iv v e Ev Hc Hb Hl. split; [|split; [|split]].
  - intros K. contradiction.
  - intros K. contradiction.
  - intros j f a Hs _ y Hy E. apply (Hl y j f Hy). rewrite E. exact Hs.
  - intros _ K. contradiction.
Qed.
Lemma rows_of_vertex : forall iv v e j f a, nth_error (verts m) iv = Some v -> subface m iv j = Some (v, f, a) ->
  nth_error (v_rows (vertex_of v e x)) j = Some a.
Proof.
  intros iv v e j f a Ev Hs. unfold subface in Hs. rewrite Ev in Hs.
  destruct (nth_error (x_faces v) j) as [b|] eqn:Eb; [|discriminate]. destruct (nth_error (x_subs v) j) as [s|] eqn:Es; [|discriminate].
  destruct (nth_error (faces m) b) as [f'|]; [|discriminate]. injection Hs as <- <-.
  cbn [v_rows vertex_of].
  assert (K : nth_error (combine (x_faces v) (x_subs v)) j = Some (b, s)).
  { clear - Eb Es. revert j Eb Es. generalize (x_subs v). induction (x_faces v) as [|y l IH]; intros l' j Eb Es; [destruct j; discriminate|].
    destruct l' as [|y' l']; [destruct j; discriminate|]. destruct j as [|j]; simpl in *; [congruence|]. apply IH; assumption. }
  rewrite nth_error_map, K. reflexivity.
Qed.
Lemma row_has_subface : forall iv v e j a, nth_error (verts m) iv = Some v -> nth_error (v_rows (vertex_of v e x)) j = Some a ->
  exists f, subface m iv j = Some (v, f, a).
Proof.
  intros iv v e j a Ev H. cbn [v_rows vertex_of] in H. rewrite nth_error_map in H.
  destruct (nth_error (combine (x_faces v) (x_subs v)) j) as [[b s]|] eqn:K; [|discriminate]. injection H as <-.
  assert (Kb : nth_error (x_faces v) j = Some b /\ nth_error (x_subs v) j = Some s).
  { clear - K. revert j K. generalize (x_subs v). induction (x_faces v) as [|y l IH]; intros l' j K; [destruct j; discriminate|].
    destruct l' as [|y' l']; [destruct j; discriminate|]. destruct j as [|j]; simpl in *; [injection K as -> ->; auto|]. apply IH; assumption. }
  destruct Kb as [Kb Ks]. destruct (gt_faces M ncv nfv G v (nth_error_In _ _ Ev)) as [_ Hf].
  pose proof (Hf b (nth_error_In _ _ Kb)) as Hlt.
  destruct (nth_error (faces m) b) as [f|] eqn:Ef; [|apply nth_error_None in Ef; unfold m in Ef; lia].
  exists f. unfold subface. rewrite Ev, Kb, Ks, Ef. reflexivity.
Qed.

Lemma vstep_ok : forall n s, (n < nv)%nat -> vinv n s -> exists s', vertex_step x M X n s = Ok s' /\ vinv (S n) s'.
Proof.
  intros n [T0 l0] Hn [D [Z [ZL [L V]]]]. cbn [st_T st_l] in *. unfold vertex_step. fold m.
  destruct (rd_ok (verts m) n Hn) as [v [Rv Ev]]. rewrite Rv. cbn [bind].
  assert (He : (n < length (t_extra M))%nat) by (rewrite (gt_extra M ncv nfv G); exact Hn).
  destruct (rd_ok (t_extra M) n He) as [e [Re Ee]]. rewrite Re. cbn [bind].
  assert (Lold : forall y j v' f, In y l0 -> subface m n j = Some (v', f, fst (fst y)) -> False).
  { intros y j v' f Hy Hs. destruct (L y Hy) as [iv [j1 [v1 [f1 [H1 [H2 _]]]]]]. destruct (gt_rows M ncv nfv G _ _ _ _ _ _ _ _ _ Hs H2) as [E _]. lia. }
  assert (Upto : forall (T1 : Trans) (l1 : list entry),
    dims T1 nv nfv c -> (forall iv j k, iv <> n -> coefficient T1 iv j k = coefficient T0 iv j k) ->
    (forall j k, x_local v = false \/ (corner v e /\ bc m = NeumannBC) -> coefficient T1 n j k = 0) ->
    (forall y, In y l1 -> exists j f, subface m n j = Some (v, f, fst (fst y)) /\ x_local v = true) ->
    (x_local v = true -> vertex_done l1 T1 n v e) -> vinv (S n) (mkStored T1 (l0 ++ l1))).
  { intros T1 l1 D1 HT HZ Hl1 Hd. split; [exact D1|]. cbn [st_T st_l]. split; [|split; [|split]].
    - intros iv j k Hk. rewrite HT by lia. apply Z. lia.
    - intros iv v' e' j k Ev' Ee' Hv'. destruct (Nat.eq_dec iv n) as [->|Hne].
      + assert (v' = v) by congruence. assert (e' = e) by congruence. subst v' e'. apply HZ. exact Hv'.
      + rewrite HT by exact Hne. eapply ZL; eassumption.
    - intros y Hy. apply in_app_or in Hy. destruct Hy as [Hy|Hy].
      + destruct (L y Hy) as [iv [j [v1 [f [H1 H2]]]]]. exists iv, j, v1, f. split; [lia|exact H2].
      + destruct (Hl1 y Hy) as [j [f [H1 H2]]]. exists n, j, v, f. auto.
    - intros iv v' e' Hiv Ev' Ee' Hv'. destruct (Nat.eq_dec iv n) as [->|Hne].
      + assert (v' = v) by congruence. assert (e' = e) by congruence. subst v' e'. apply done_first; [apply Hd; exact Hv'|]. intros y j f Hy Hs. exact (Lold y j v f Hy Hs).
      + apply done_more with (T := T0); [apply V; try assumption; lia|intros j k; apply HT; exact Hne|].
        intros y j f Hy Hs. destruct (Hl1 y Hy) as [j1 [f1 [H1 _]]]. destruct (gt_rows M ncv nfv G _ _ _ _ _ _ _ _ _ Hs H1) as [E _]. contradiction. }
  destruct (x_local v) eqn:Hloc; cbn [negb].
  2: { exists (mkStored T0 l0). split; [reflexivity|]. rewrite <- (app_nil_r l0). apply Upto; try assumption; try reflexivity.
       - intros j k _. apply Z. lia.
       - intros y [].
       - discriminate. }
  destruct (gt_max M ncv nfv G v (nth_error_In _ _ Ev)) as [Hnf Hncv].
  destruct (Hwide n v e Ev Ee Hloc) as [Hw1 Hw2].
  destruct (is_corner v e) eqn:Hcor; cbn [negb].
  - apply is_corner_spec in Hcor. destruct (gt_corner M ncv nfv G n v e Ev Ee Hcor) as [Hnb [Lf [Lc _]]].
    assert (Step : bc m <> NeumannBC -> exists s', Corner M (length (rocks m)) n v e x (mkStored T0 l0) = Ok s' /\ vinv (S n) s').
    { intros Hb. destruct (corner_ok M ncv nfv n v e G Ev Ee Hcor x (mkStored T0 l0) nv nfv c N D Hn) as [sub [cell [T1 [l1 [r0 [r1 [r2 [A1 [A2 [A3 [A4 [A5 [A6 [A7 [A8 A9]]]]]]]]]]]]]]].
      - lia.
      - specialize (Hw1 Hb). lia.
      - exists (mkStored T1 (l0 ++ l1)). split; [exact A5|]. cbn [st_T] in A7. apply Upto; [exact A6|..].
        + intros iv j k Hne. rewrite A7. apply Nat.eqb_neq in Hne. rewrite Hne. reflexivity.
        + intros j k [K|[_ K]]; [congruence|contradiction].
        + intros y Hy. destruct (A8 y Hy) as [j [f Hs]]. eauto.
        + intros _. split; [intros K; contradiction|]. split; [intros K; contradiction|]. split; [intros j f a Hs [K _]; contradiction|].
          intros _ _. exists sub, cell, r0, r1, r2. repeat (split; [assumption|]). split.
          * intros j k. rewrite A7, Nat.eqb_refl. destruct (_ && _); [reflexivity|]. apply Z. lia.
          * exact A9. }
    destruct (bc m) eqn:Hbc; try (apply Step; discriminate).
    exists (mkStored T0 l0). split; [reflexivity|]. rewrite <- (app_nil_r l0). apply Upto; try assumption; try reflexivity.
    + intros j k _. apply Z. lia.
    + intros y [].
    + intros _. apply done_corner_neumann; auto; intros y j f [].
  - assert (Hnc : ~ corner v e) by (intros K; apply is_corner_spec in K; congruence).
    pose proof (gt_numbered M ncv nfv G n v e x Ev Ee Hnc) as W.
    destruct (X n) as [XX|] eqn:HXn; [|exfalso; exact (HX n Hn HXn)].
    pose proof (last_row_cases (bc m) _ W) as HL. pose proof (wn_bnd _ W) as Wb. cbn [v_nbnd vertex_of] in Wb.
    destruct (noncorner_ok (bc m) N n (vertex_of v e x) XX (mkStored T0 l0) nv nfv c D Hn W) as [cfm [T1 [l1 [A1 [A2 [A3 [A4 A5]]]]]]].
    + exact Hnf.
    + destruct HL as [[Hb [_ ->]]|[Hb [_ ->]]]; [rewrite <- Wb; exact (Hw1 Hb)|exact (Hw2 Hb)].
    + exists (mkStored T1 (l0 ++ l1)). split; [exact A3|]. cbn [st_T] in A5. apply Upto; [exact A4|..].
      * intros iv j k Hne. rewrite A5. apply Nat.eqb_neq in Hne. rewrite Hne. reflexivity.
      * intros j k [K|[K _]]; [congruence|contradiction].
      * intros y Hy. destruct (entries_rows _ _ _ _ _ _ A2 y Hy) as [j [_ Hj]]. destruct (row_has_subface n v e j _ Ev Hj) as [f Hs]. eauto.
      * intros _. split; [|split; [|split]].
        -- intros _ j f a P Hs. refine (vertex_row_value (bc m) N v e x cfm XX l1 T1 n W A2 _ j a P (rows_of_vertex n v e j f a Ev Hs)).
           intros j1 k1. rewrite A5, Nat.eqb_refl. cbn [andb]. destruct (_ && _); [reflexivity|]. apply Z. lia.
        -- intros _. exists l1. split; [unfold NonCornerVertex; rewrite A1; cbn [bind]; rewrite HXn; exact A2|reflexivity].
        -- intros j f a Hs [Hb Hside] y Hy E.
           destruct (entries_rows _ _ _ _ _ _ A2 y Hy) as [j1 [Hj1 Hj2]]. rewrite E in Hj2.
           destruct (row_has_subface n v e j1 a Ev Hj2) as [f1 Hs1]. destruct (gt_rows M ncv nfv G _ _ _ _ _ _ _ _ _ Hs Hs1) as [_ <-].
           apply (gt_order M ncv nfv G n v e j f a Ee Hs) in Hside.
           destruct HL as [[K _]|[_ [K _]]]; [contradiction|]. rewrite K in Hj1. cbn [v_nfaces v_nbnd vertex_of] in Hj1. lia.
        -- intros K. contradiction.
Qed.
Lemma vertices_ok : exists s', for_ nv (vertex_step x M X) (mkStored (alloc3 nv nfv c) []) = Ok s' /\ vinv nv s'.
Proof.
  apply for_inv.
  - split; [apply dims_alloc|]. cbn [st_T st_l]. split; [|split; [|split]].
    + intros. apply coefficient_alloc.
    + intros. apply coefficient_alloc.
    + intros y [].
    + intros. lia.
  - intros i s Hi H. apply vstep_ok; assumption.
Qed.
End AllVertices.

(** ** The modes *)

Lemma for_map : forall {A B : Type} (g : A -> B) (f : nat -> A -> outcome A) (h : nat -> B -> outcome B) n s s',
  (forall i s s', f i s = Ok s' -> h i (g s) = Ok (g s')) -> for_ n f s = Ok s' -> for_ n h (g s) = Ok (g s').
Proof.
  intros A B g f h n s s' Hs. unfold for_.
  assert (K : forall n i s s', loop n i f s = Ok s' -> loop n i h (g s) = Ok (g s')).
  { clear n s s'. induction n as [|n IH]; intros i s s' E; cbn [loop] in *; [injection E as <-; reflexivity|].
    destruct (f i s) as [t| |] eqn:Ef; cbn [bind] in E; try discriminate. rewrite (Hs i s t Ef). cbn [bind]. apply IH. exact E. }
  apply K.
Qed.
Lemma pressure_part : forall k M X iv s s', trans_vertex k M X iv s = Ok s' -> vertex_step Pressure M (X Pressure) iv (ts_p s) = Ok (ts_p s').
Proof.
  intros k M X iv s s' E. unfold trans_vertex in E. unfold vertex_step.
  destruct (rd (verts (t_mesh M)) iv) as [v| |]; cbn [bind] in *; try discriminate.
  destruct (rd (t_extra M) iv) as [e| |]; cbn [bind] in *; try discriminate.
  destruct (x_local v); cbn [negb] in *; [|injection E as <-; reflexivity].
  destruct (is_corner v e); cbn [negb] in *.
  - assert (K : forall s', (do p <- Corner M (length (rocks (t_mesh M))) iv v e Pressure (ts_p s);
        match k with
        | TH => do t <- Corner M (length (rocks (t_mesh M))) iv v e Temperature (ts_t s); Ok (mkTstate p t (ts_s s))
        | SALINITY => do c <- Corner M (length (rocks (t_mesh M))) iv v e Salt (ts_s s); Ok (mkTstate p (ts_t s) c)
        | RICHARDS => Ok (mkTstate p (ts_t s) (ts_s s))
        end) = Ok s' -> Corner M (length (rocks (t_mesh M))) iv v e Pressure (ts_p s) = Ok (ts_p s')).
    { clear. intros s' E. destruct (Corner M _ iv v e Pressure (ts_p s)) as [p| |]; cbn [bind] in E; try discriminate.
      destruct k; [injection E as <-; reflexivity| |].
      - destruct (Corner M _ iv v e Temperature (ts_t s)) as [t| |]; cbn [bind] in E; try discriminate. injection E as <-. reflexivity.
      - destruct (Corner M _ iv v e Salt (ts_s s)) as [t| |]; cbn [bind] in E; try discriminate. injection E as <-. reflexivity. }
    destruct (bc (t_mesh M)); [apply K; exact E|injection E as <-; reflexivity|apply K; exact E].
  - destruct (NonCorner _ _ iv (vertex_of v e Pressure) _ _) as [p| |]; cbn [bind] in E; try discriminate.
    destruct k; [injection E as <-; reflexivity| |injection E as <-; reflexivity].
    destruct (NonCorner _ _ iv (vertex_of v e Temperature) _ _) as [t| |]; cbn [bind] in E; try discriminate. injection E as <-. reflexivity.
Qed.
Lemma temperature_part : forall M X iv s s', trans_vertex TH M X iv s = Ok s' -> vertex_step Temperature M (X Temperature) iv (ts_t s) = Ok (ts_t s').
Proof.
  intros M X iv s s' E. unfold trans_vertex in E. unfold vertex_step.
  destruct (rd (verts (t_mesh M)) iv) as [v| |]; cbn [bind] in *; try discriminate.
  destruct (rd (t_extra M) iv) as [e| |]; cbn [bind] in *; try discriminate.
  destruct (x_local v); cbn [negb] in *; [|injection E as <-; reflexivity].
  destruct (is_corner v e); cbn [negb] in *.
  - destruct (bc (t_mesh M)); try (injection E as <-; reflexivity);
      (destruct (Corner M _ iv v e Pressure (ts_p s)) as [p| |]; cbn [bind] in E; try discriminate;
       destruct (Corner M _ iv v e Temperature (ts_t s)) as [t| |]; cbn [bind] in E; try discriminate; injection E as <-; reflexivity).
  - destruct (NonCorner _ _ iv (vertex_of v e Pressure) _ _) as [p| |]; cbn [bind] in E; try discriminate.
    destruct (NonCorner _ _ iv (vertex_of v e Temperature) _ _) as [t| |]; cbn [bind] in E; try discriminate. injection E as <-. reflexivity.
Qed.
Lemma salt_part : forall M X iv s s', trans_vertex SALINITY M X iv s = Ok s' ->
  ts_s s' = ts_s s \/ exists v e, nth_error (verts (t_mesh M)) iv = Some v /\ nth_error (t_extra M) iv = Some e /\ corner v e /\
    Corner M (length (rocks (t_mesh M))) iv v e Salt (ts_s s) = Ok (ts_s s').
Proof.
  intros M X iv s s' E. unfold trans_vertex in E.
  destruct (rd (verts (t_mesh M)) iv) as [v| |] eqn:Ev; cbn [bind] in *; try discriminate. apply rd_inv in Ev.
  destruct (rd (t_extra M) iv) as [e| |] eqn:Ee; cbn [bind] in *; try discriminate. apply rd_inv in Ee.
  destruct (x_local v); cbn [negb] in *; [|injection E as <-; auto].
  destruct (is_corner v e) eqn:Hc; cbn [negb] in *.
  - apply is_corner_spec in Hc. destruct (bc (t_mesh M)); try (injection E as <-; auto);
      (destruct (Corner M _ iv v e Pressure (ts_p s)) as [p| |]; cbn [bind] in E; try discriminate;
       destruct (Corner M _ iv v e Salt (ts_s s)) as [t| |] eqn:Es; cbn [bind] in E; try discriminate; injection E as <-; right; exists v, e; auto).
  - destruct (NonCorner _ _ iv (vertex_of v e Pressure) _ _) as [p| |]; cbn [bind] in E; try discriminate. injection E as <-. auto.
Qed.

Lemma pressure_wide : forall M ncv nfv, good_tmesh M ncv nfv -> forall iv v e, nth_error (verts (t_mesh M)) iv = Some v -> nth_error (t_extra M) iv = Some e ->
  (length (x_cells v) + e_nbnd e <= nfv + ncv)%nat.
Proof.
  intros M ncv nfv G iv v e Ev Ee. destruct (gt_max M ncv nfv G v (nth_error_In _ _ Ev)) as [H1 H2].
  destruct (is_corner v e) eqn:Hc.
  - apply is_corner_spec in Hc. destruct (gt_corner M ncv nfv G iv v e Ev Ee Hc) as [A [B [C _]]]. lia.
  - assert (Hn : ~ corner v e) by (intros K; apply is_corner_spec in K; congruence).
    pose proof (gt_numbered M ncv nfv G iv v e Pressure Ev Ee Hn) as W. pose proof (wn_bnd _ W) as B. pose proof (wn_faces _ W) as F.
    cbn [v_nbnd v_nfaces vertex_of] in B, F. lia.
Qed.
Lemma pressure_inv : forall k M ncv nfv X s, good_tmesh M ncv nfv -> answered M (X Pressure) -> Setup k M ncv nfv X = Ok s ->
  vinv M nfv Pressure (X Pressure) (nfv + ncv) (length (verts (t_mesh M))) (ts_p s).
Proof.
  intros k M ncv nfv X s G HX E. unfold Setup, ComputeTransmissibilityMatrix in E.
  apply (for_map ts_p _ (vertex_step Pressure M (X Pressure))) in E; [|intros i t t'; apply pressure_part].
  destruct (vertices_ok M ncv nfv Pressure (X Pressure) (nfv + ncv) G HX) as [s' [E' V]].
  { intros iv v e Ev Ee _. pose proof (pressure_wide M ncv nfv G iv v e Ev Ee). split; intros _; lia. }
  replace (ts_p (setup_arrays k (length (verts (t_mesh M))) ncv nfv)) with (mkStored (alloc3 (length (verts (t_mesh M))) nfv (nfv + ncv)) []) in E by (destruct k; reflexivity).
  rewrite E in E'. injection E' as <-. exact V.
Qed.
Lemma temperature_inv : forall M ncv nfv X s, good_tmesh M ncv nfv -> answered M (X Temperature) -> second_fits M nfv -> Setup TH M ncv nfv X = Ok s ->
  vinv M nfv Temperature (X Temperature) nfv (length (verts (t_mesh M))) (ts_t s).
Proof.
  intros M ncv nfv X s G HX HF E. unfold Setup, ComputeTransmissibilityMatrix in E.
  apply (for_map ts_t _ (vertex_step Temperature M (X Temperature))) in E; [|intros i t t'; apply temperature_part].
  destruct (vertices_ok M ncv nfv Temperature (X Temperature) nfv G HX) as [s' [E' V]].
  { intros iv v e Ev Ee Hl. pose proof (HF iv v e Ev Ee Hl). split; intros _; lia. }
  cbn [ts_t setup_arrays] in E. rewrite E in E'. injection E' as <-. exact V.
Qed.

(** No write outside the arrays. *)
Lemma setup_ok : forall k M ncv nfv X, good_tmesh M ncv nfv -> (forall x, answered M (X x)) -> (k <> RICHARDS -> second_fits M nfv) ->
  exists s, Setup k M ncv nfv X = Ok s.
Proof.
  intros k M ncv nfv X G HX HF. unfold Setup, ComputeTransmissibilityMatrix.
  set (nv := length (verts (t_mesh M))).
  assert (W1 : forall iv v e, nth_error (verts (t_mesh M)) iv = Some v -> nth_error (t_extra M) iv = Some e -> x_local v = true ->
    (bc (t_mesh M) <> NeumannBC -> (length (x_cells v) + e_nbnd e <= nfv + ncv)%nat) /\ (bc (t_mesh M) = NeumannBC -> (length (x_cells v) <= nfv + ncv)%nat)).
  { intros iv v e Ev Ee _. pose proof (pressure_wide M ncv nfv G iv v e Ev Ee). split; intros _; lia. }
  destruct (for_inv (fun n s => vinv M nfv Pressure (X Pressure) (nfv + ncv) n (ts_p s) /\ (k = TH -> vinv M nfv Temperature (X Temperature) nfv n (ts_t s)) /\
     (k = SALINITY -> dims (st_T (ts_s s)) nv nfv nfv)) (trans_vertex k M X) nv (setup_arrays k nv ncv nfv)) as [s [E _]].
  - split; [|split].
    + destruct k; (split; [apply dims_alloc|]; cbn [st_T st_l ts_p setup_arrays]; split; [|split; [|split]];
        [intros; apply coefficient_alloc|intros; apply coefficient_alloc|intros y []|intros; lia]).
    + intros ->. split; [apply dims_alloc|]; cbn [st_T st_l ts_t setup_arrays]; split; [|split; [|split]];
        [intros; apply coefficient_alloc|intros; apply coefficient_alloc|intros y []|intros; lia].
    + intros ->. apply dims_alloc.
  - intros n s Hn [Ip [It Is]].
    destruct (vstep_ok M ncv nfv Pressure (X Pressure) (nfv + ncv) G (HX Pressure) W1 n (ts_p s) Hn Ip) as [p [Ep Vp]].
    destruct (rd_ok (verts (t_mesh M)) n Hn) as [v [Rv Ev]].
    destruct (rd_ok (t_extra M) n) as [e [Re Ee]]; [rewrite (gt_extra M ncv nfv G); exact Hn|].
    pose proof Ep as Ep0. unfold trans_vertex. unfold vertex_step in Ep. rewrite Rv, Re in *. cbn [bind] in *.
    assert (Ht : k = TH -> exists t, vertex_step Temperature M (X Temperature) n (ts_t s) = Ok t /\ vinv M nfv Temperature (X Temperature) nfv (S n) t).
    { intros ->. apply (vstep_ok M ncv nfv Temperature (X Temperature) nfv G (HX Temperature)); auto.
      intros iv v' e' Ev' Ee' Hl. pose proof (HF ltac:(discriminate) iv v' e' Ev' Ee' Hl). split; intros _; lia. }
    unfold vertex_step in Ht. rewrite Rv, Re in Ht. cbn [bind] in Ht.
    destruct (x_local v) eqn:Hl; cbn [negb] in *.
    2: { injection Ep as <-. exists s. split; [reflexivity|]. split; [exact Vp|]. split; [|exact Is].
         intros Hk. destruct (Ht Hk) as [t [Et Vt]]. injection Et as <-. exact Vt. }
    destruct (is_corner v e) eqn:Hc; cbn [negb] in *.
    + assert (Step : bc (t_mesh M) <> NeumannBC -> Corner M (length (rocks (t_mesh M))) n v e Pressure (ts_p s) = Ok p ->
        (k = TH -> exists t, Corner M (length (rocks (t_mesh M))) n v e Temperature (ts_t s) = Ok t /\ vinv M nfv Temperature (X Temperature) nfv (S n) t) ->
        exists s', (do p <- Corner M (length (rocks (t_mesh M))) n v e Pressure (ts_p s);
          match k with
          | TH => do t <- Corner M (length (rocks (t_mesh M))) n v e Temperature (ts_t s); Ok (mkTstate p t (ts_s s))
          | SALINITY => do c <- Corner M (length (rocks (t_mesh M))) n v e Salt (ts_s s); Ok (mkTstate p (ts_t s) c)
          | RICHARDS => Ok (mkTstate p (ts_t s) (ts_s s))
          end) = Ok s' /\ vinv M nfv Pressure (X Pressure) (nfv + ncv) (S n) (ts_p s') /\ (k = TH -> vinv M nfv Temperature (X Temperature) nfv (S n) (ts_t s')) /\
          (k = SALINITY -> dims (st_T (ts_s s')) nv nfv nfv)).
      { intros Hb Cp Ct. rewrite Cp. cbn [bind]. apply is_corner_spec in Hc. destruct k.
        - eexists. split; [reflexivity|]. split; [exact Vp|]. split; intros; discriminate.
        - destruct (Ct eq_refl) as [t [Et Vt]]. rewrite Et. cbn [bind]. eexists. split; [reflexivity|]. split; [exact Vp|]. split; [intros _; exact Vt|intros; discriminate].
        - pose proof (HF ltac:(discriminate) n v e Ev Ee Hl) as Hfit. destruct (gt_corner M ncv nfv G n v e Ev Ee Hc) as [A [B [C _]]].
          destruct (gt_max M ncv nfv G v (nth_error_In _ _ Ev)) as [Hm _].
          destruct (corner_ok M ncv nfv n v e G Ev Ee Hc Salt (ts_s s) nv nfv nfv (length (rocks (t_mesh M))) (Is eq_refl) Hn) as [? [? [T1 [l1 [? [? [? [? [? [? [? [Ec [Dc _]]]]]]]]]]]]]; [lia|lia|].
          rewrite Ec. cbn [bind]. eexists. split; [reflexivity|]. split; [exact Vp|]. split; [intros; discriminate|intros _; exact Dc]. }
      destruct (bc (t_mesh M)) eqn:Hb.
      * apply Step; [discriminate|exact Ep|exact Ht].
      * injection Ep as <-. exists s. split; [reflexivity|]. split; [exact Vp|]. split; [|exact Is].
        intros Hk. destruct (Ht Hk) as [t [Et Vt]]. injection Et as <-. exact Vt.
      * apply Step; [discriminate|exact Ep|exact Ht].
    + rewrite Ep. cbn [bind]. destruct k.
      * eexists. split; [reflexivity|]. split; [exact Vp|]. split; intros; discriminate.
      * destruct (Ht eq_refl) as [t [Et Vt]]. rewrite Et. cbn [bind]. eexists. split; [reflexivity|]. split; [exact Vp|]. split; [intros _; exact Vt|intros; discriminate].
      * eexists. split; [reflexivity|]. split; [exact Vp|]. split; [intros; discriminate|]. exact Is.
  - eauto.
Qed.

(** The consequences of the invariant. *)
Section Consequences.
Variables (M : tmesh) (ncv nfv : nat) (x : variable) (X : nat -> option (list R)) (c : nat) (s : Transmit.stored).
Hypothesis G : good_tmesh M ncv nfv.
Hypothesis V : vinv M nfv x X c (length (verts (t_mesh M))) s.

Lemma extra_of : forall iv v, nth_error (verts (t_mesh M)) iv = Some v -> exists e, nth_error (t_extra M) iv = Some e.
Proof.
  intros iv v Ev. apply nth_lt in Ev. rewrite <- (gt_extra M ncv nfv G) in Ev.
  destruct (nth_error (t_extra M) iv) as [e|] eqn:E; [eauto|]. apply nth_error_None in E. lia.
Qed.
Lemma subface_vertex : forall iv j v f a, subface (t_mesh M) iv j = Some (v, f, a) -> nth_error (verts (t_mesh M)) iv = Some v.
Proof.
  intros iv j v f a H. unfold subface in H. destruct (nth_error (verts (t_mesh M)) iv) as [v'|] eqn:E; [|discriminate].
  destruct (nth_error (x_faces v') j); [|discriminate]. destruct (nth_error (x_subs v') j); [|discriminate].
  destruct (nth_error (faces (t_mesh M)) n); [|discriminate]. congruence.
Qed.
Lemma stored_rows : forall iv j v e f a P, nth_error (t_extra M) iv = Some e -> subface (t_mesh M) iv j = Some (v, f, a) ->
  x_local v = true -> ~ corner v e -> mult (st_l s) P a = row_value (length (rocks (t_mesh M))) (st_T s) iv v e x j P.
Proof.
  intros iv j v e f a P Ee Hs Hl Hc. destruct V as [_ [_ [_ [_ D]]]]. pose proof (subface_vertex _ _ _ _ _ Hs) as Ev.
  destruct (D iv v e (nth_lt _ _ _ Ev) Ev Ee Hl) as [D1 _]. exact (D1 Hc j f a P Hs).
Qed.
Lemma stored_vertex : forall iv v e, nth_error (verts (t_mesh M)) iv = Some v -> nth_error (t_extra M) iv = Some e ->
  x_local v = true -> ~ corner v e -> exists l1, NonCornerVertex (bc (t_mesh M)) (length (rocks (t_mesh M))) (vertex_of v e x) (X iv) = Ok l1 /\
    forall j f a P, subface (t_mesh M) iv j = Some (v, f, a) -> mult (st_l s) P a = mult l1 P a.
Proof.
  intros iv v e Ev Ee Hl Hc. destruct V as [_ [_ [_ [_ D]]]].
  destruct (D iv v e (nth_lt _ _ _ Ev) Ev Ee Hl) as [_ [D4 _]]. exact (D4 Hc).
Qed.
(** The flux of every sub-face, from either side (C40). *)
Lemma stored_flux : forall iv v e XX P, nth_error (verts (t_mesh M)) iv = Some v -> nth_error (t_extra M) iv = Some e ->
  x_local v = true -> ~ corner v e -> X iv = Some XX -> lapack_answer (bc (t_mesh M)) (vertex_of v e x) XX ->
  exists pi : nat -> R,
    (bc (t_mesh M) <> NeumannBC -> forall h, In h (outer_faces e x) -> pi (sf_unk h) = P (sf_bnd h + length (rocks (t_mesh M)))%nat) /\
    (forall j f a i sub h cell, subface (t_mesh M) iv j = Some (v, f, a) -> nth_error (e_sub e x) i = Some sub -> In h (sfaces sub) ->
       nth_error (x_cells v) i = Some cell -> place (vertex_of v e x) h = j -> mult (st_l s) P a = side_flux sub h (P cell) pi).
Proof.
  intros iv v e XX P Ev Ee Hl Hc HX HA. destruct (stored_vertex iv v e Ev Ee Hl Hc) as [l1 [E1 H1]]. rewrite HX in E1.
  destruct (continuity_proof _ _ _ _ _ P (gt_numbered M ncv nfv G iv v e x Ev Ee Hc) HA E1) as [pi [A [B _]]].
  exists pi. split.
  - intros Hb h Hh. unfold outer_faces in Hh. apply filter_In in Hh. destruct Hh as [Hh Hi].
    apply (A Hb h Hh). unfold is_bnd in Hi. apply negb_true_iff in Hi. exact Hi.
  - intros j f a i sub h cell Hs Hsub Hh Hcell Hj. rewrite (H1 j f a P Hs).
    refine (B i sub h cell a Hsub Hh Hcell _). rewrite Hj. exact (rows_of_vertex M x iv v e j f a Ev Hs).
Qed.
Lemma stored_allocated : (forall v, In v (verts (t_mesh M)) -> (length (x_cells v) <= c)%nat) -> allocated (t_mesh M) (st_T s).
Proof.
  intros Hc iv v Ev. destruct V as [[D1 D2] _]. pose proof (nth_lt _ _ _ Ev) as Hn.
  destruct (nth_error (st_T s) iv) as [t|] eqn:E; [|apply nth_error_None in E; lia]. exists t. split; [reflexivity|].
  destruct (D2 t (nth_error_In _ _ E)) as [D3 D4]. destruct (gt_max M ncv nfv G v (nth_error_In _ _ Ev)) as [H1 H2].
  intros j Hj. destruct (nth_error t j) as [w|] eqn:Ew; [|apply nth_error_None in Ew; lia]. exists w. split; [reflexivity|].
  rewrite (D4 w (nth_error_In _ _ Ew)). apply Hc. eapply nth_error_In; exact Ev.
Qed.
Lemma stored_placed : SpecMpfaoTs.placed (t_mesh M) (st_T s) (length (rocks (t_mesh M))) (st_l s).
Proof.
  intros iv j v f a Hs Ha. pose proof (subface_vertex _ _ _ _ _ Hs) as Ev. destruct (extra_of iv v Ev) as [e Ee].
  apply andb_true_iff in Ha. destruct Ha as [Hl _].
  destruct V as [_ [_ [_ [L D]]]]. destruct (D iv v e (nth_lt _ _ _ Ev) Ev Ee Hl) as [D1 [_ [D2 D3]]]. split.
  - intros Hc y Hy. exact (D2 j f a Hs Hc y Hy).
  - intros Hncl k Hk. rewrite sum_at_mult. unfold SpecMpfaoTs.column.
    assert (Hz : forall b, (if (b + length (rocks (t_mesh M)) =? k)%nat then 1 else 0) = 0).
    { intros b. destruct (Nat.eqb_spec (b + length (rocks (t_mesh M))) k); [lia|reflexivity]. }
    destruct (is_corner v e) eqn:Hc.
    + apply is_corner_spec in Hc. destruct (gt_corner M ncv nfv G iv v e Ev Ee Hc) as [_ [Lf [_ [_ [_ [_ [_ [_ [_ Hout]]]]]]]]].
      assert (Hb : bc (t_mesh M) <> NeumannBC).
      { intros Hb. apply Hncl. split; [exact Hb|]. unfold subface in Hs. rewrite Ev in Hs.
        destruct (nth_error (x_faces v) j) as [q|] eqn:Eq; [|discriminate]. destruct (nth_error (x_subs v) j); [|discriminate].
        destruct (nth_error (faces (t_mesh M)) q) as [f'|] eqn:Ef; [|discriminate]. injection Hs as -> _.
        apply nth_error_In in Eq. exact (proj1 (Hout q q f f Eq Eq Ef Ef)). }
      destruct (D3 Hc Hb) as [sub [cell [r0 [r1 [r2 [A1 [A2 [A3 [A4 [A5 A6]]]]]]]]]].
      rewrite (A6 j f a _ Hs). rewrite A2. cbv zeta. set (h := nth (nth j [r0; r1; r2] O) (sfaces sub) (fst (fst sub))) in *. cbn [length total]. change (nth 0 [cell] 0%nat) with cell.
      assert (Hj : (j < 3)%nat).
      { unfold subface in Hs. rewrite Ev in Hs. destruct (nth_error (x_faces v) j) eqn:Eq; [|discriminate]. apply nth_lt in Eq. lia. }
      rewrite A5. apply Nat.ltb_lt in Hj. rewrite Hj. cbn [andb Nat.ltb Nat.leb corner_val]. fold h. rewrite !Hz. unfold coeff.
      destruct (cell =? k)%nat; ring.
    + assert (Hn : ~ corner v e) by (intros K; apply is_corner_spec in K; congruence).
      rewrite (D1 Hn j f a _ Hs). unfold row_value.
      match goal with |- ?A + ?B = _ => assert (HB : B = 0) end.
      { transitivity (total (fun _ => 0) (length (outer_faces e x))); [|apply total_zero]. apply total_ext. intros i _. rewrite Hz. ring. }
      rewrite HB, Rplus_0_r. apply total_ext. intros i _. unfold coeff. destruct (_ =? k)%nat; ring.
Qed.
Lemma corner_row_ok : forall iv j v e f a sub cell b P, nth_error (t_extra M) iv = Some e -> subface (t_mesh M) iv j = Some (v, f, a) ->
  x_local v = true -> corner v e -> bc (t_mesh M) <> NeumannBC -> e_sub e x = [sub] -> x_cells v = [cell] -> in_vertex_order v e sub b ->
  (forall p q, (p < 3)%nat -> (q < 3)%nat -> nth_error (x_faces v) p = nth_error (e_sfaces e) q -> nth_error (x_faces v) q = nth_error (e_sfaces e) p) ->
  mult (st_l s) P a = corner_value (length (rocks (t_mesh M))) (st_T s) iv cell b j P.
Proof.
  intros iv j v e f a sub cell b P Ee Hs Hl Hc Hb Hsub Hcell Hord Hinv.
  pose proof (subface_vertex _ _ _ _ _ Hs) as Ev. destruct V as [_ [_ [_ [L D]]]]. destruct (D iv v e (nth_lt _ _ _ Ev) Ev Ee Hl) as [_ [_ [_ D3]]].
  destruct (gt_corner M ncv nfv G iv v e Ev Ee Hc) as [_ [Lf [_ [Ls [Nf [Ns _]]]]]].
  destruct (D3 Hc Hb) as [sub' [cell' [r0 [r1 [r2 [A1 [A2 [A3 [A4 [A5 A6]]]]]]]]]].
  assert (sub' = sub) by congruence. assert (cell' = cell) by congruence. subst sub' cell'.
  rewrite (A6 j f a P Hs). unfold corner_value.
  assert (Hj : (j < 3)%nat).
  { unfold subface in Hs. rewrite Ev in Hs. destruct (nth_error (x_faces v) j) eqn:Eq; [|discriminate]. apply nth_lt in Eq. lia. }
  assert (Hj' : (j <? 3)%nat = true) by (apply Nat.ltb_lt; exact Hj).
  destruct (e_sfaces e) as [|s0 [|s1 [|s2 [|]]]] eqn:Esf; try discriminate.
  destruct sub as [[g0 g1] g2].
  set (h := nth (nth j [r0; r1; r2] O) (sfaces (g0, g1, g2)) (fst (fst (g0, g1, g2)))).
  assert (B : forall d, (d < 3)%nat -> b d = sf_bnd (nth (nth d [r0; r1; r2] O) [g0; g1; g2] h)).
  { intros d Hd. assert (Hr : (nth d [r0; r1; r2] O < 3)%nat) by (unfold perm3 in A3; destruct d as [|[|[|d]]]; [..|lia]; simpl; lia).
    apply (Hord d (nth d [r0; r1; r2] O)); [exact Hd| |].
    - assert (Hq : forall q, (q < 3)%nat -> nth_error [s0; s1; s2] q = Some (nth q [s0; s1; s2] O)) by (intros q Hq; apply nth_error_nth'; exact Hq).
      rewrite A4, Esf. rewrite (Hq _ Hr). destruct d as [|[|[|d]]]; [..|lia]; reflexivity.
    - apply nth_error_nth'. exact Hr. }
  cbv zeta. fold h. cbn [total]. rewrite !A5, Hj'. cbn [andb Nat.ltb Nat.leb Nat.add].
  set (cols := [Some (inverse3 r0 r1 0); Some (inverse3 r0 r1 1); Some (inverse3 r0 r1 2)]).
  change (corner_val (g0, g1, g2) [r0; r1; r2] cols j 0) with (0 + g_at h 0 + g_at h 1 + g_at h 2).
  change (corner_val (g0, g1, g2) [r0; r1; r2] cols j 1) with (- g_at h (inverse3 r0 r1 0)).
  change (corner_val (g0, g1, g2) [r0; r1; r2] cols j 2) with (- g_at h (inverse3 r0 r1 1)).
  change (corner_val (g0, g1, g2) [r0; r1; r2] cols j 3) with (- g_at h (inverse3 r0 r1 2)).
  rewrite (B 0%nat), (B 1%nat), (B 2%nat) by lia. clear B. cbn [sfaces]. clearbody h.
  assert (Hr : nth_error [s0; s1; s2] 0 = Some s0 /\ nth_error [s0; s1; s2] 1 = Some s1 /\ nth_error [s0; s1; s2] 2 = Some s2) by auto.
  rewrite A4 in Hinv.
  inversion Ns as [|? ? N1 Ns']; subst. inversion Ns' as [|? ? N2 _]; subst. simpl in N1, N2.
  pose proof (perm3_cases r0 r1 r2 A3) as Hp. simpl in Hp.
  destruct Hp as [Hp|[Hp|[Hp|[Hp|[Hp|[Hp|[]]]]]]]; injection Hp as <- <- <-; cbn [nth inverse3 Nat.eqb] in *;
    try (unfold inverse3; cbn [Nat.eqb]; clear; unfold g_at; destruct (sf_g h) as [[u0 u1] u2]; simpl; ring).
  - exfalso. pose proof (Hinv 0%nat 1%nat ltac:(lia) ltac:(lia) eq_refl) as K. simpl in K. injection K as K. subst. tauto.
  - exfalso. pose proof (Hinv 0%nat 2%nat ltac:(lia) ltac:(lia) eq_refl) as K. simpl in K. injection K as K. subst. tauto.
Qed.
End Consequences.
