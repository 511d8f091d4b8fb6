(** Proofs about the arrays of the sub-cells. *)
From Coq Require Import List Arith ZArith Lia.
From Verif Require Import Prelude Arrays Mesh SpecMesh MeshProofs SubcellAccess SpecSubcellAccess.
Import ListNotations.
Local Open Scope nat_scope.

Lemma concat_at {A} d (L : list (list A)) : Forall (fun r => length r = d) L -> forall i l j, nth_error L i = Some l -> j < d ->
  nth_error (concat L) (i * d + j) = nth_error l j.
Proof.
  induction 1 as [|r L Hr _ IH]; intros i l j Hl Hj; [destruct i; discriminate|]. destruct i as [|i]; cbn [concat nth_error] in *.
  - injection Hl as ->. cbn. apply nth_error_app1. lia.
  - rewrite nth_error_app2 by (rewrite Hr; nia). rewrite Hr. replace (S i * d + j - d) with (i * d + j) by nia. apply IH; assumption.
Qed.
Lemma concat_len {A} d (L : list (list A)) : Forall (fun r => length r = d) L -> length (concat L) = length L * d.
Proof. induction 1 as [|r L Hr _ IH]; [reflexivity|]. cbn [concat length]. rewrite app_length, Hr, IH. cbn. reflexivity. Qed.
Lemma map_length_const {A} d (L : list (list A)) : Forall (fun r => length r = d) L -> map (@length A) L = repeat d (length L).
Proof. induction 1 as [|r L Hr _ IH]; [reflexivity|]. cbn. rewrite Hr, IH. reflexivity. Qed.

(** Compressing full rows changes nothing. *)
Lemma convert_full {A} (blank : A) n d update rows ids off : 0 < n -> table n d rows ids -> length off = S n ->
  (forall k, k <= n -> nth_error off k = Some (Z.of_nat (k * d))) ->
  exists off', convert blank n d update (repeat d n) off ids = Ok (off', ids) /\ length off' = S n /\
  forall k, k <= n -> nth_error off' k = Some (Z.of_nat (k * d)).
Proof.
  intros Hn [HL [HF ->]] Ho Hk. pose proof (concat_len d rows HF) as CL.
  assert (Hd : forall i l, nth_error rows i = Some l -> length l <= d).
  { intros i l Hl. rewrite Forall_forall in HF. rewrite (HF l (nth_error_In _ _ Hl)). lia. }
  destruct (convert_ok blank d rows Hd update off (concat rows)) as [off' [E X]].
  - lia.
  - exact CL.
  - intros i l Hl. rewrite Forall_forall in HF. pose proof (HF l (nth_error_In _ _ Hl)) as Ll. split; [lia|].
    intros j v Hv. rewrite (concat_at d rows) with (l := l); [exact Hv|rewrite Forall_forall; exact HF|exact Hl|].
    assert (j < length l) by (apply nth_error_Some; congruence). lia.
  - lia.
  - intros k Lk. apply Hk. lia.
  - rewrite map_length_const with (d := d) in E by exact HF. rewrite HL in E.
    assert (SZ : forall L : list (list A), Forall (fun r => length r = d) L -> size L = length L * d).
    { intros L F. unfold size. apply concat_len. exact F. }
    rewrite SZ, HL, Nat.sub_diag in E by exact HF. cbn [repeat] in E. rewrite app_nil_r in E. exists off'. split; [exact E|].
    destruct update; [|subst off'; split; assumption]. destruct X as [L' X]. rewrite HL in L', X. split; [exact L'|].
    intros k Lk. rewrite X by exact Lk. f_equal. f_equal. rewrite SZ.
    + rewrite firstn_length, Nat.min_l by lia. reflexivity.
    + apply Forall_forall. intros r Hr. rewrite Forall_forall in HF. apply HF. rewrite <- (firstn_skipn k rows). apply in_or_app. left. exact Hr.
Qed.

Lemma read_piece {A} (ids : list A) m p : p + m <= length ids ->
  for_ m (fun j l => do v <- rdz ids (Z.of_nat p + Z.of_nat j); Ok (l ++ [v])%list) [] = Ok (firstn m (skipn p ids)).
Proof.
  intro H. match goal with |- for_ _ ?B _ = _ => destruct (for_inv (fun j l => l = firstn j (skipn p ids)) B m []) as [l [E ->]] end.
  - reflexivity.
  - intros j l Hj ->. assert (Lp : p + j < length ids) by lia. destruct (nth_error ids (p + j)) as [v|] eqn:Ev; [|apply nth_error_None in Ev; lia].
    rewrite <- Nat2Z.inj_add. unfold rdz. destruct (Z.ltb_spec (Z.of_nat (p + j)) 0); [lia|]. rewrite Nat2Z.id, (rd_some _ _ _ Ev). cbn [bind].
    eexists. split; [reflexivity|]. clear - Ev. revert p Ev. induction ids as [|x ids IH]; intros p Ev; [destruct (p + j); discriminate|].
    destruct p as [|p].
    + cbn [skipn]. clear IH. cbn [Nat.add] in Ev. revert j Ev. generalize (x :: ids). intro l. induction l as [|y l IH]; intros j Ev; [destruct j; discriminate|].
      destruct j as [|j]; cbn in *; [injection Ev as ->; reflexivity|]. f_equal. apply IH, Ev.
    + cbn [skipn]. apply IH. exact Ev.
  - exact E.
Qed.

Lemma between_ok {A} n a b (start stop : list Z) (ids : list A) i : i < n -> a <= b -> S i * b - i * a + i * a <= length ids ->
  (forall k, k <= n -> nth_error start k = Some (Z.of_nat (k * a))) -> (forall k, k <= n -> nth_error stop k = Some (Z.of_nat (k * b))) ->
  between start stop ids i = Ok (firstn (S i * b - i * a) (skipn (i * a) ids)).
Proof.
  intros Hi Hab Hl H1 H2. unfold between. rewrite (rd_some _ _ _ (H1 i ltac:(lia))). cbn [bind]. rewrite (rd_some _ _ _ (H2 (S i) ltac:(lia))). cbn [bind].
  assert (i * a <= S i * b) by nia. replace (Z.to_nat (Z.of_nat (S i * b) - Z.of_nat (i * a))) with (S i * b - i * a) by lia.
  apply read_piece. lia.
Qed.
Lemma piece_row {A} n d rows (ids : list A) i l : table n d rows ids -> nth_error rows i = Some l ->
  firstn (S i * d - i * d) (skipn (i * d) ids) = l /\ S i * d - i * d + i * d <= length ids.
Proof.
  intros [HL [HF ->]]. revert n HL i. induction HF as [|r rows Hr HF IH]; intros n HL i Hl; [destruct i; discriminate|].
  destruct i as [|i]; cbn [nth_error concat] in *.
  - injection Hl as ->. cbn [Nat.mul skipn]. rewrite Nat.sub_0_r, !Nat.add_0_r. split; [|rewrite app_length; lia].
    rewrite firstn_app. replace (d - length l) with 0 by lia. cbn [firstn]. rewrite app_nil_r. rewrite <- Hr. apply firstn_all.
  - destruct (IH (length rows) eq_refl i Hl) as [E L]. replace (S (S i) * d - S i * d) with (S i * d - i * d) by nia. split.
    + rewrite skipn_app, Hr. rewrite (skipn_all2 r) by (rewrite Hr; nia). cbn [app]. replace (S i * d - d) with (i * d) by nia. exact E.
    + rewrite app_length, Hr. nia.
Qed.

Section Tables.
Context {A : Type}.
Variables (blank : A) (n : nat) (f : subcells A).
Variables faces up unknown flux area vertices nu nustar continuity centroid corners : list (list A).
Hypothesis Hn : 0 < n.
Hypothesis T1 : table n 3 faces (s_faces f). Hypothesis T2 : table n 3 up (s_up f). Hypothesis T3 : table n 3 unknown (s_unknown f).
Hypothesis T4 : table n 3 flux (s_flux f). Hypothesis T5 : table n 3 area (s_area f). Hypothesis T6 : table n 3 vertices (s_vertices f).
Hypothesis T7 : table n 3 nu (s_nu f). Hypothesis T8 : table n 3 nustar (s_nustar f). Hypothesis T9 : table n 3 continuity (s_continuity f).
Hypothesis T10 : table n 3 centroid (s_centroid f). Hypothesis T11 : table n 8 corners (s_corners f).

Lemma offsets_full m d : exists off, offsets m d = Ok off /\ length off = S m /\ forall k, k <= m -> nth_error off k = Some (Z.of_nat (k * d)).
Proof.
  unfold offsets. destruct (set_offsets_ok (S m) m d (le_n _)) as [off [E [L H]]]. exists off. split; [exact E|]. split; [exact L|].
  intros k Hk. rewrite H by exact Hk. destruct (Nat.ltb_spec k (S m)); [reflexivity|lia].
Qed.

Theorem tables_done : exists s s', allocate_subcells n f = Ok s /\ compress_subcells blank n s = Ok s' /\
  (forall k, k <= n -> nth_error (s_foff s') k = Some (Z.of_nat (k * 3))) /\ (forall k, k <= n -> nth_error (s_noff s') k = Some (Z.of_nat (k * 3))) /\
  (forall k, k <= n -> nth_error (s_voff s') k = Some (Z.of_nat (k * 8))) /\
  s_faces s' = s_faces f /\ s_up s' = s_up f /\ s_unknown s' = s_unknown f /\ s_flux s' = s_flux f /\ s_area s' = s_area f /\ s_vertices s' = s_vertices f /\
  s_nu s' = s_nu f /\ s_nustar s' = s_nustar f /\ s_continuity s' = s_continuity f /\ s_centroid s' = s_centroid f /\ s_corners s' = s_corners f.
Proof.
  destruct (offsets_full n 3) as [fo [E1 [L1 H1]]]. destruct (offsets_full n 8) as [vo [E3 [L3 H3]]].
  unfold allocate_subcells. change NumFaces with 3. change NumNuVectors with 3. change NumVertices with 8. rewrite E1, E3. cbn [bind].
  eexists. unfold compress_subcells. change NumFaces with 3. change NumNuVectors with 3. change NumVertices with 8. cbn [s_nfaces s_nnu s_nverts s_foff s_noff s_voff s_faces s_up s_unknown s_flux s_area s_vertices s_nu s_nustar s_continuity s_centroid s_corners].
  destruct (convert_full blank n 3 false _ _ _ Hn T1 L1 H1) as [o1 [C1 [M1 N1]]].
  destruct (convert_full blank n 3 false _ _ _ Hn T2 M1 N1) as [o2 [C2 [M2 N2]]].
  destruct (convert_full blank n 3 false _ _ _ Hn T3 M2 N2) as [o3 [C3 [M3 N3]]].
  destruct (convert_full blank n 3 false _ _ _ Hn T4 M3 N3) as [o4 [C4 [M4 N4]]].
  destruct (convert_full blank n 3 false _ _ _ Hn T5 M4 N4) as [o5 [C5 [M5 N5]]].
  destruct (convert_full blank n 3 true _ _ _ Hn T6 M5 N5) as [o6 [C6 [M6 N6]]].
  destruct (convert_full blank n 3 false _ _ _ Hn T7 L1 H1) as [o7 [C7 [M7 N7]]].
  destruct (convert_full blank n 3 false _ _ _ Hn T8 M7 N7) as [o8 [C8 [M8 N8]]].
  destruct (convert_full blank n 3 false _ _ _ Hn T9 M8 N8) as [o9 [C9 [M9 N9]]].
  destruct (convert_full blank n 3 true _ _ _ Hn T10 M9 N9) as [o10 [C10 [M10 N10]]].
  destruct (convert_full blank n 8 true _ _ _ Hn T11 L3 H3) as [o11 [C11 [M11 N11]]].
  eexists. split; [reflexivity|]. split.
  - cbn [s_nfaces s_nnu s_nverts s_foff s_noff s_voff s_faces s_up s_unknown s_flux s_area s_vertices s_nu s_nustar s_continuity s_centroid s_corners]. rewrite C1. cbn [bind]. rewrite C2. cbn [bind]. rewrite C3. cbn [bind]. rewrite C4. cbn [bind]. rewrite C5. cbn [bind]. rewrite C6. cbn [bind].
    rewrite C7. cbn [bind]. rewrite C8. cbn [bind]. rewrite C9. cbn [bind]. rewrite C10. cbn [bind]. rewrite C11. cbn [bind]. reflexivity.
  - cbn [s_foff s_noff s_voff s_faces s_up s_unknown s_flux s_area s_vertices s_nu s_nustar s_continuity s_centroid s_corners].
    split; [exact N6|]. split; [exact N10|]. split; [exact N11|]. repeat (split; [reflexivity|]). reflexivity.
Qed.

Theorem subcell_rows : exists s s', allocate_subcells n f = Ok s /\ compress_subcells blank n s = Ok s' /\ forall i, i < n ->
  (forall l, nth_error faces i = Some l -> GetSubcellFaces s' i = Ok l) /\
  (forall l, nth_error up i = Some l -> GetSubcellIsFaceUp s' i = Ok l) /\
  (forall l, nth_error unknown i = Some l -> GetSubcellFaceUnknownIdxs s' i = Ok l) /\
  (forall l, nth_error flux i = Some l -> GetSubcellFaceFluxIdxs s' i = Ok l) /\
  (forall l, nth_error area i = Some l -> GetSubcellFaceAreas s' i = Ok l) /\
  (forall l, nth_error vertices i = Some l -> GetSubcellVertices s' i = Ok l) /\
  (forall l, nth_error nu i = Some l -> GetSubcellNuVectors s' i = Ok l) /\
  (forall l, nth_error nustar i = Some l -> GetSubcellNuStarVectors s' i = Ok l) /\
  (forall l, nth_error continuity i = Some l -> GetSubcellVariableContinuityCoordinates s' i = Ok l /\ GetSubcellFaceCentroids s' i = Ok l) /\
  GetSubcellVerticesCoordinates s' i = Ok (firstn 3 (skipn (3 * i) (concat corners))).
Proof.
  destruct tables_done as [s [s' [E1 [E2 [F [N [_ [R1 [R2 [R3 [R4 [R5 [R6 [R7 [R8 [R9 [_ R11]]]]]]]]]]]]]]]]].
  exists s, s'. split; [exact E1|]. split; [exact E2|]. intros i Hi.
  assert (G : forall (rows : list (list A)) (ids : list A) stop, table n 3 rows ids -> (forall k, k <= n -> nth_error stop k = Some (Z.of_nat (k * 3))) ->
    forall l, nth_error rows i = Some l -> between (s_foff s') stop ids i = Ok l).
  { intros rows ids stop T St l Hl. destruct (piece_row n 3 rows ids i l T Hl) as [E L].
    rewrite (between_ok n 3 3 _ _ _ _ Hi (le_n _) L F St). f_equal. exact E. }
  unfold GetSubcellFaces, GetSubcellIsFaceUp, GetSubcellFaceUnknownIdxs, GetSubcellFaceFluxIdxs, GetSubcellFaceAreas, GetSubcellVertices, GetSubcellNuVectors,
    GetSubcellNuStarVectors, GetSubcellVariableContinuityCoordinates, GetSubcellFaceCentroids, GetSubcellVerticesCoordinates.
  rewrite R1, R2, R3, R4, R5, R6, R7, R8, R9, R11.
  split; [apply G with (1 := T1) (2 := F)|]. split; [apply G with (1 := T2) (2 := F)|]. split; [apply G with (1 := T3) (2 := F)|].
  split; [apply G with (1 := T4) (2 := F)|]. split; [apply G with (1 := T5) (2 := F)|]. split; [apply G with (1 := T6) (2 := F)|].
  split; [apply G with (1 := T7) (2 := N)|]. split; [apply G with (1 := T8) (2 := N)|].
  split; [intros l Hl; split; apply G with (1 := T9) (2 := N) (3 := Hl)|].
  destruct T11 as [HL [HF ->]]. rewrite (between_ok n 3 3 _ _ _ _ Hi (le_n _)) by (assumption || (rewrite (concat_len 8) by exact HF; lia)).
  f_equal. replace (S i * 3 - i * 3) with 3 by lia. rewrite (Nat.mul_comm i 3). reflexivity.
Qed.

(** Where the delivered corners come from. *)
Lemma foreign i x : 1 <= i -> In x (firstn 3 (skipn (3 * i) (concat corners))) ->
  exists r row, r < i /\ nth_error corners r = Some row /\ In x row.
Proof.
  intros Hi Hx. destruct T11 as [_ [HF _]]. apply In_nth_error in Hx. destruct Hx as [j Hj].
  assert (Lj : j < 3). { assert (X : nth_error (firstn 3 (skipn (3 * i) (concat corners))) j <> None) by congruence. apply nth_error_Some in X. rewrite firstn_length in X. lia. }
  assert (E : nth_error (concat corners) (3 * i + j) = Some x).
  { rewrite <- Hj. clear Hj. revert Lj. generalize (concat corners). intros l Lj.
    rewrite <- (firstn_skipn (3 * i) l) at 1. destruct (Nat.le_gt_cases (length l) (3 * i)) as [S|S].
    - rewrite (skipn_all2 l) by exact S. rewrite app_nil_r. rewrite (proj2 (nth_error_None _ _)) by (rewrite firstn_length; lia). destruct j as [|[|[|j]]]; reflexivity.
    - rewrite nth_error_app2 by (rewrite firstn_length; lia). rewrite firstn_length, Nat.min_l by lia. replace (3 * i + j - 3 * i) with j by lia.
      generalize (skipn (3 * i) l). intro m. destruct j as [|[|[|j]]]; [| | |lia]; destruct m as [|a [|b [|c m]]]; reflexivity. }
  set (r := (3 * i + j) / 8). assert (Lr : r < i) by (unfold r; apply Nat.div_lt_upper_bound; lia).
  pose proof (Nat.div_mod (3 * i + j) 8 ltac:(lia)) as DM. fold r in DM. pose proof (Nat.mod_upper_bound (3 * i + j) 8 ltac:(lia)) as B.
  destruct (nth_error corners r) as [row|] eqn:Er.
  - exists r, row. split; [exact Lr|]. split; [exact Er|]. apply nth_error_In with (n := (3 * i + j) mod 8).
    rewrite <- (concat_at 8 corners HF r row _ Er B). rewrite <- E. f_equal. lia.
  - exfalso. apply nth_error_None in Er. assert (X : nth_error (concat corners) (3 * i + j) <> None) by congruence. apply nth_error_Some in X.
    rewrite (concat_len 8) in X by exact HF. lia.
Qed.
End Tables.

Ltac rest := intros A blank n f faces up unknown flux area vertices nu nustar continuity centroid corners Hn T1 T2 T3 T4 T5 T6 T7 T8 T9 T10 T11.

Theorem own_entries : forall (A : Type) (blank : A) n f faces up unknown flux area vertices nu nustar continuity centroid corners,
  0 < n ->
  table n 3 faces (s_faces f) -> table n 3 up (s_up f) -> table n 3 unknown (s_unknown f) -> table n 3 flux (s_flux f) ->
  table n 3 area (s_area f) -> table n 3 vertices (s_vertices f) -> table n 3 nu (s_nu f) -> table n 3 nustar (s_nustar f) ->
  table n 3 continuity (s_continuity f) -> table n 3 centroid (s_centroid f) -> table n 8 corners (s_corners f) ->
  exists s s', allocate_subcells n f = Ok s /\ compress_subcells blank n s = Ok s' /\ forall i, i < n ->
    (forall l, nth_error faces i = Some l -> GetSubcellFaces s' i = Ok l) /\
    (forall l, nth_error up i = Some l -> GetSubcellIsFaceUp s' i = Ok l) /\
    (forall l, nth_error unknown i = Some l -> GetSubcellFaceUnknownIdxs s' i = Ok l) /\
    (forall l, nth_error flux i = Some l -> GetSubcellFaceFluxIdxs s' i = Ok l) /\
    (forall l, nth_error area i = Some l -> GetSubcellFaceAreas s' i = Ok l) /\
    (forall l, nth_error vertices i = Some l -> GetSubcellVertices s' i = Ok l) /\
    (forall l, nth_error nu i = Some l -> GetSubcellNuVectors s' i = Ok l) /\
    (forall l, nth_error nustar i = Some l -> GetSubcellNuStarVectors s' i = Ok l) /\
    (forall l, nth_error continuity i = Some l -> GetSubcellVariableContinuityCoordinates s' i = Ok l).
Proof.
  rest. destruct (subcell_rows blank n f _ _ _ _ _ _ _ _ _ _ _ Hn T1 T2 T3 T4 T5 T6 T7 T8 T9 T10 T11) as [s [s' [E1 [E2 R]]]].
  exists s, s'. split; [exact E1|]. split; [exact E2|]. intros i Hi. destruct (R i Hi) as [R1 [R2 [R3 [R4 [R5 [R6 [R7 [R8 [R9 _]]]]]]]]].
  repeat (split; [assumption|]). intros l Hl. apply (R9 l Hl).
Qed.
Theorem kept : forall (A : Type) (blank : A) n f faces up unknown flux area vertices nu nustar continuity centroid corners,
  0 < n ->
  table n 3 faces (s_faces f) -> table n 3 up (s_up f) -> table n 3 unknown (s_unknown f) -> table n 3 flux (s_flux f) ->
  table n 3 area (s_area f) -> table n 3 vertices (s_vertices f) -> table n 3 nu (s_nu f) -> table n 3 nustar (s_nustar f) ->
  table n 3 continuity (s_continuity f) -> table n 3 centroid (s_centroid f) -> table n 8 corners (s_corners f) ->
  exists s s', allocate_subcells n f = Ok s /\ compress_subcells blank n s = Ok s' /\
    s_centroid s' = concat centroid /\ s_corners s' = concat corners /\
    forall k, k <= n -> nth_error (s_foff s') k = Some (Z.of_nat (k * 3)) /\ nth_error (s_noff s') k = Some (Z.of_nat (k * 3)) /\
      nth_error (s_voff s') k = Some (Z.of_nat (k * 8)).
Proof.
  rest. destruct (tables_done blank n f _ _ _ _ _ _ _ _ _ _ _ Hn T1 T2 T3 T4 T5 T6 T7 T8 T9 T10 T11) as [s [s' [E1 [E2 [F [N [V R]]]]]]].
  exists s, s'. split; [exact E1|]. split; [exact E2|]. destruct R as [_ [_ [_ [_ [_ [_ [_ [_ [_ [R10 R11]]]]]]]]]].
  split; [rewrite R10; apply T10|]. split; [rewrite R11; apply T11|]. intros k Hk. split; [apply F, Hk|]. split; [apply N, Hk|apply V, Hk].
Qed.
Theorem centroids_wrong : forall (A : Type) (blank : A) n f faces up unknown flux area vertices nu nustar continuity centroid corners,
  0 < n ->
  table n 3 faces (s_faces f) -> table n 3 up (s_up f) -> table n 3 unknown (s_unknown f) -> table n 3 flux (s_flux f) ->
  table n 3 area (s_area f) -> table n 3 vertices (s_vertices f) -> table n 3 nu (s_nu f) -> table n 3 nustar (s_nustar f) ->
  table n 3 continuity (s_continuity f) -> table n 3 centroid (s_centroid f) -> table n 8 corners (s_corners f) ->
  exists s s', allocate_subcells n f = Ok s /\ compress_subcells blank n s = Ok s' /\ forall i l c, i < n ->
    nth_error continuity i = Some l -> nth_error centroid i = Some c ->
    GetSubcellFaceCentroids s' i = Ok l /\ (l <> c -> GetSubcellFaceCentroids s' i <> Ok c).
Proof.
  rest. destruct (subcell_rows blank n f _ _ _ _ _ _ _ _ _ _ _ Hn T1 T2 T3 T4 T5 T6 T7 T8 T9 T10 T11) as [s [s' [E1 [E2 R]]]].
  exists s, s'. split; [exact E1|]. split; [exact E2|]. intros i l c Hi Hl Hc. destruct (R i Hi) as [_ [_ [_ [_ [_ [_ [_ [_ [R9 _]]]]]]]]].
  destruct (R9 l Hl) as [_ E]. split; [exact E|]. intros Ne. congruence.
Qed.
Theorem corners_wrong : forall (A : Type) (blank : A) n f faces up unknown flux area vertices nu nustar continuity centroid corners,
  0 < n ->
  table n 3 faces (s_faces f) -> table n 3 up (s_up f) -> table n 3 unknown (s_unknown f) -> table n 3 flux (s_flux f) ->
  table n 3 area (s_area f) -> table n 3 vertices (s_vertices f) -> table n 3 nu (s_nu f) -> table n 3 nustar (s_nustar f) ->
  table n 3 continuity (s_continuity f) -> table n 3 centroid (s_centroid f) -> table n 8 corners (s_corners f) ->
  exists s s', allocate_subcells n f = Ok s /\ compress_subcells blank n s = Ok s' /\ forall i, i < n ->
    exists l, GetSubcellVerticesCoordinates s' i = Ok l /\ length l = 3 /\ nth_error corners i <> Some l /\
      (1 <= i -> forall x, In x l -> exists r row, r < i /\ nth_error corners r = Some row /\ In x row).
Proof.
  rest. destruct (subcell_rows blank n f _ _ _ _ _ _ _ _ _ _ _ Hn T1 T2 T3 T4 T5 T6 T7 T8 T9 T10 T11) as [s [s' [E1 [E2 R]]]].
  exists s, s'. split; [exact E1|]. split; [exact E2|]. intros i Hi. destruct (R i Hi) as [_ [_ [_ [_ [_ [_ [_ [_ [_ E]]]]]]]]].
  destruct T11 as [HL [HF Hc]]. eexists. split; [exact E|]. assert (L3 : length (firstn 3 (skipn (3 * i) (concat corners))) = 3).
  { rewrite firstn_length, skipn_length, (concat_len 8) by exact HF. lia. }
  split; [exact L3|]. split.
  - intro X. rewrite Forall_forall in HF. pose proof (HF _ (nth_error_In _ _ X)). lia.
  - intros Hi1 x Hx. eapply foreign; [exact Hn|split; [exact HL|split; [exact HF|exact Hc]]|exact Hi1|exact Hx].
Qed.
Theorem no_cells : forall (A : Type) (blank : A) (f : subcells A),
  exists s, allocate_subcells 0 f = Ok s /\ compress_subcells blank 0 s = UB.
Proof. intros A blank f. eexists. split; reflexivity. Qed.
