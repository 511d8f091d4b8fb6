(** Two unit squares side by side, and meshes for which the maps fail. *)
From Coq Require Import Reals List ZArith Bool Arith Lia Lra.
From Verif Require Import Prelude Arrays FeMap SpecFeMap FeMapProofs FeMapUnknownProofs.
Import ListNotations.
Local Open Scope nat_scope.

(** Cells 0 and 1; vertices 2 3 4 (below) and 5 6 7 (above); upright edges 8 9 10, level
    edges 11 12 (below) and 13 14 (above). *)
Definition sq_corner (c v : nat) : nat := 2 + c + v mod 2 + 3 * (v / 2).
Definition sq_wall (c d : nat) (s : bool) : nat := match d with 0 => 8 + c + Nat.b2n s | _ => 11 + c + 2 * Nat.b2n s end.
Definition sq_closure (p : nat) : list nat :=
  nth p [[0; 8; 9; 11; 13; 2; 3; 5; 6]; [1; 9; 10; 12; 14; 3; 4; 6; 7]; [2]; [3]; [4]; [5]; [6]; [7];
         [8; 2; 5]; [9; 3; 6]; [10; 4; 7]; [11; 2; 3]; [12; 3; 4]; [13; 5; 6]; [14; 6; 7]] [].
Definition sq_X (p d : nat) : R :=
  nth d (nth p [[1/2; 1/2]; [3/2; 1/2]; [0; 0]; [1; 0]; [2; 0]; [0; 1]; [1; 1]; [2; 1];
                [0; 1/2]; [1; 1/2]; [2; 1/2]; [1/2; 0]; [3/2; 0]; [1/2; 1]; [3/2; 1]]%R []) 0%R.
Definition sq_N (p d : nat) : R := if (p <? 11) then match d with 0 => 1%R | _ => 0%R end else match d with 0 => 0%R | _ => 1%R end.
Definition sq_image (c : nat) : list R := match c with 0 => [0; 0; 1; 0; 0; 1; 1; 1]%R | _ => [1; 0; 2; 0; 1; 1; 2; 1]%R end.
Definition squares : plex := mkPlex 2 2 2 8 8 15 sq_closure sq_X sq_N sq_image.
Definition sq_start (p : nat) : Z := match p with 0 => 0%Z | 1 => (-2)%Z | _ => (2 * (Z.of_nat p - 7))%Z end.

Ltac cases x n := match n with O => exfalso; lia | S ?n' => destruct x as [|x]; [|cases x n'] end.
Ltac far := unfold Rabs; repeat (destruct (Rcase_abs _)); lra.
Lemma small : (/ 10 ^ 12 < 1)%R.
Proof. apply (Rmult_lt_reg_l (10 ^ 12)); [apply pow_lt; lra|]. rewrite Rinv_r by (apply pow_nonzero; lra). lra. Qed.

Lemma squares_boxes : boxes squares sq_corner sq_wall.
Proof.
  constructor; cbn [p_dim p_cells p_fStart squares].
  - left. reflexivity.
  - lia.
  - intros c v Hc Hv. change (2 ^ 2) with 4 in Hv. cases c 2; cases v 4; cbn; split; try reflexivity; tauto.
  - intros c p Hc Hp. change (2 ^ 2) with 4. cases c 2; cbn in Hp;
      repeat (destruct Hp as [<-|Hp]; [intro V; try discriminate V|]); try destruct Hp;
      first [exists 0; split; [lia|reflexivity] | exists 1; split; [lia|reflexivity] | exists 2; split; [lia|reflexivity] | exists 3; split; [lia|reflexivity]].
  - intros c Hc. cases c 2; reflexivity.
  - intros c v i Hc Hv Hi. change (2 ^ 2) with 4 in Hv. cases c 2; cases v 4; cases i 2; reflexivity.
  - intros c v w Hc Hv Hw Hne. change (2 ^ 2) with 4 in Hv, Hw. pose proof small as S1.
    apply (Rlt_le_trans _ 1); [exact S1|]. clear S1.
    cases c 2; cases v 4; cases w 4; try (exfalso; apply Hne; reflexivity); cbv -[Rplus Rminus Ropp Rabs IZR Rle]; far.
  - intros c d s Hc Hd. cases c 2; cases d 2; destruct s; cbn; split; try reflexivity; tauto.
  - intros c p Hc Hp. cases c 2; cbn in Hp;
      repeat (destruct Hp as [<-|Hp]; [intro V; try discriminate V|]); try destruct Hp;
      first [exists 0, true; split; [lia|reflexivity] | exists 0, false; split; [lia|reflexivity]
            | exists 1, true; split; [lia|reflexivity] | exists 1, false; split; [lia|reflexivity]].
  - intros c d s v Hc Hd Hv. change (2 ^ 2) with 4 in Hv. cases c 2; cases d 2; destruct s; cases v 4; cbn; intuition (try discriminate; try reflexivity; try lia).
Qed.
Lemma squares_faces : square_faces squares.
Proof.
  intros f Hf. cbn in Hf. do 8 (destruct f as [|f]; [exfalso; lia|]).
  cases f 7; cbn; split; try reflexivity; repeat constructor; cbn; intuition lia.
Qed.
Lemma squares_ranges : own_ranges squares sq_start.
Proof.
  split; [intros c Hc; cbn in Hc; cases c 2; reflexivity|].
  assert (A : forall x, carries squares x -> (x = 0 /\ first_unknown (sq_start x) = 0%Z /\ size_of squares x = 1%Z) \/ (x = 1 /\ first_unknown (sq_start x) = 1%Z /\ size_of squares x = 1%Z)
     \/ (8 <= x /\ first_unknown (sq_start x) = (2 * (Z.of_nat x - 7))%Z /\ size_of squares x = 2%Z)).
  { intros x [Hx|Hx].
    - cbn in Hx. cases x 2; [left|right; left]; repeat split; reflexivity.
    - right; right. assert (S2 : size_of squares x = 2%Z) by (unfold size_of; rewrite Hx; reflexivity).
      unfold is_face in Hx. apply andb_prop in Hx. destruct Hx as [Hx _]. apply Nat.leb_le in Hx. cbn in Hx.
      split; [exact Hx|]. split; [|exact S2]. destruct x as [|[|x]]; [lia|lia|]. unfold first_unknown, sq_start. lia. }
  intros p q Hp Hq Hne. destruct (A p Hp) as [[P1 [P2 P3]]|[[P1 [P2 P3]]|[P1 [P2 P3]]]];
    destruct (A q Hq) as [[Q1 [Q2 Q3]]|[[Q1 [Q2 Q3]]|[Q1 [Q2 Q3]]]]; rewrite P2, P3, Q2, Q3; lia.
Qed.

(** ** Meshes with cells of different kinds *)
Lemma uniform_mixed : forall n l, (0 <= n)%Z -> (forall x, In x l -> (0 <= x)%Z) -> (exists x, In x l /\ x <> n) -> uniform n l = PETSC_ERR_SUP.
Proof.
  intros n l Hn. induction l as [|x l IH]; intros Hl [y [Hy Hne]]; [destruct Hy|]. simpl.
  assert (E : (n =? -1)%Z = false) by (apply Z.eqb_neq; lia). rewrite E. destruct (n =? x)%Z eqn:Ex; [|reflexivity].
  apply Z.eqb_eq in Ex. apply IH; [intros z Hz; apply Hl; right; exact Hz|]. exists y. destruct Hy as [<-|Hy]; [congruence|]. split; assumption.
Qed.
Definition not_err {A} (o : outcome A) : Prop := o <> Err.
Lemma loop_not_err : forall {St} (body : nat -> St -> outcome St) n k s, (forall j s, not_err (body j s)) -> not_err (loop n k body s).
Proof.
  intros St body n. induction n as [|n IH]; intros k s H; simpl; [discriminate|].
  pose proof (H k s). destruct (body k s); [|contradiction|discriminate]. cbn [bind]. apply IH. exact H.
Qed.
Lemma L1norm_not_err : forall m x v p, not_err (L1norm m x v p).
Proof.
  intros m x v p. unfold L1norm, for_. apply loop_not_err. intros j s. unfold rd. destruct (nth_error x _); discriminate.
Qed.
Lemma near_not_err : forall m c v idx pts a, not_err (near_vertex m c v idx pts a).
Proof.
  intros m c v idx pts. induction pts as [|p pts IH]; intro a; simpl; [discriminate|]. destruct (is_vertex m p); [|apply IH].
  pose proof (L1norm_not_err m (p_image m c) v p). destruct (L1norm m (p_image m c) v p); [|contradiction|discriminate]. cbn [bind].
  destruct (Rlt_dec _ _); [apply IH|]. unfold wr. destruct (Nat.ltb _ _); discriminate.
Qed.
Lemma near_ub : forall m c v idx pts a, 0 < p_dim m -> length (p_image m c) <= v * p_dim m -> (exists p, In p pts /\ is_vertex m p = true) ->
  near_vertex m c v idx pts a = UB.
Proof.
  intros m c v idx pts. induction pts as [|p pts IH]; intros a Hd Hl [x [Hx Vx]]; [destruct Hx|]. simpl.
  destruct (is_vertex m p) eqn:Vp.
  - assert (E : L1norm m (p_image m c) v p = UB); [|rewrite E; reflexivity].
    unfold L1norm, for_. destruct (p_dim m) as [|n]; [lia|]. simpl. unfold rd.
    assert (N : nth_error (p_image m c) (v * S n + 0) = None) by (apply nth_error_None; lia). rewrite N. reflexivity.
  - apply IH; [exact Hd|exact Hl|]. exists x. destruct Hx as [->|Hx]; [congruence|]. split; assumption.
Qed.
Lemma loop_ub : forall {St} (body : nat -> St -> outcome St) n k s i, (forall j s, not_err (body j s)) -> (forall s, body i s = UB) -> k <= i < k + n -> loop n k body s = UB.
Proof.
  intros St body n. induction n as [|n IH]; intros k s i He Hu Hi; [lia|]. simpl. destruct (Nat.eq_dec k i) as [->|Hne]; [rewrite Hu; reflexivity|].
  pose proof (He k s) as X. destruct (body k s) as [s'| |]; [|contradiction|reflexivity]. cbn [bind]. apply (IH (S k) s' i He Hu). lia.
Qed.
Lemma mixed_proof : forall m start c1 c2, 0 < p_dim m -> (forall c, length (p_image m c) <= 24) -> c1 < p_cells m -> c2 < p_cells m ->
  count_vertices m c1 <> count_vertices m c2 -> (0 < count_vertices m 0)%Z -> NumberOfCellVertices m = 56%Z /\ BDMMaps m start = UB.
Proof.
  intros m start c1 c2 Hd Hx H1 H2 Hne H0.
  assert (N : NumberOfCellVertices m = 56%Z).
  { unfold NumberOfCellVertices. destruct (p_cells m) as [|n] eqn:En; [lia|]. cbn [seq map uniform]. change (-1 =? -1)%Z with true. cbv iota zeta. rewrite Z.eqb_refl.
    apply uniform_mixed.
    - unfold count_vertices. lia.
    - intros x X. apply in_map_iff in X. destruct X as [c [<- _]]. unfold count_vertices. lia.
    - destruct (Z.eq_dec (count_vertices m c1) (count_vertices m 0)) as [E|E].
      + exists (count_vertices m c2). split; [|congruence]. apply in_map. apply in_seq. destruct c2; [congruence|lia].
      + exists (count_vertices m c1). split; [|exact E]. apply in_map. apply in_seq. destruct c1; [congruence|lia]. }
  split; [exact N|]. unfold BDMMaps. rewrite N. change (Z.to_nat 56) with 56.
  assert (E : CreateCellVertexMap m 56 = UB); [|rewrite E; reflexivity].
  unfold CreateCellVertexMap, for_ at 1. destruct (p_cells m) as [|n] eqn:En; [lia|]. cbn [loop].
  match goal with |- context [for_ 56 ?b ?s] => assert (E : for_ 56 b s = UB); [|rewrite E; reflexivity] end.
  unfold for_. apply (loop_ub _ 56 0 _ 55); [intros; apply near_not_err| |lia]. intro s. apply near_ub; [exact Hd|pose proof (Hx 0); nia|].
  unfold count_vertices in H0. destruct (filter (is_vertex m) (p_closure m 0)) as [|p l] eqn:F; [cbn in H0; lia|].
  exists p. apply filter_In. rewrite F. left. reflexivity.
Qed.

(** ** Corners that miss their vertices *)
Lemma far_vertex : forall m c v idx pts a, (forall p, In p pts -> is_vertex m p = true -> exists s, L1norm m (p_image m c) v p = Ok s /\ (/ 10 ^ 12 < s)%R) ->
  near_vertex m c v idx pts a = Ok a.
Proof.
  intros m c v idx pts a. induction pts as [|p pts IH]; intro H; simpl; [reflexivity|].
  assert (IH' := IH (fun x Hx => H x (or_intror Hx))). destruct (is_vertex m p) eqn:V; [|exact IH'].
  destruct (H p (or_introl eq_refl) V) as [s [-> L]]. cbn [bind]. destruct (Rlt_dec _ _); [exact IH'|contradiction].
Qed.
Lemma loop_same : forall {St} (body : nat -> St -> outcome St) n k s, (forall i, k <= i < k + n -> body i s = Ok s) -> loop n k body s = Ok s.
Proof.
  intros St body n. induction n as [|n IH]; intros k s H; [reflexivity|]. simpl. rewrite (H k) by lia. cbn [bind]. apply IH. intros i Hi. apply H. lia.
Qed.
Lemma each_same : forall {X St} (l : list X) (body : X -> St -> outcome St) s, (forall x, In x l -> body x s = Ok s) -> each l body s = Ok s.
Proof. intros X St l body s. induction l as [|x l IH]; intro H; [reflexivity|]. simpl. rewrite (H x (or_introl eq_refl)). cbn [bind]. apply IH. intros y Hy. apply H. right. exact Hy. Qed.
Lemma far_proof : forall m start, 0 < p_cells m -> 0 < p_dim m -> 0 < p_fStart m -> square_faces m ->
  NumberOfCellVertices m = Z.of_nat (2 ^ p_dim m) -> NumberOfFaceVertices m = Z.of_nat (2 ^ (p_dim m - 1)) ->
  (forall f, is_face m f = true -> ~ In 0 (p_closure m f)) ->
  (forall c v p, c < p_cells m -> v < 2 ^ p_dim m -> In p (p_closure m c) -> is_vertex m p = true ->
     exists s, L1norm m (p_image m c) v p = Ok s /\ (/ 10 ^ 12 < s)%R) ->
  CreateCellVertexMap m (2 ^ p_dim m) = Ok (repeat 0 (2 ^ p_dim m * p_cells m)) /\ BDMMaps m start = UB.
Proof.
  intros m start Hc Hd Hf SF N1 N2 H0 Hfar. pose proof (pow_pos (p_dim m)) as Hp. pose proof (pow_pos (p_dim m - 1)) as Hp1.
  assert (E1 : CreateCellVertexMap m (2 ^ p_dim m) = Ok (repeat 0 (2 ^ p_dim m * p_cells m))).
  { unfold CreateCellVertexMap, for_. apply loop_same. intros c Hc'. apply loop_same. intros v Hv. apply far_vertex.
    intros p Hp' V. apply (Hfar c v p); [lia|lia|exact Hp'|exact V]. }
  split; [exact E1|]. unfold BDMMaps. rewrite N1, N2, !Nat2Z.id, E1. cbn [bind].
  assert (RV : forall i, i < 2 ^ p_dim m * p_cells m -> rd (repeat 0 (2 ^ p_dim m * p_cells m)) i = Ok 0).
  { intros i Hi. apply rd_some. apply nth_error_repeat. exact Hi. }
  assert (E2 : CreateCellVertexDirFaceMap m (2 ^ p_dim m) (repeat 0 (2 ^ p_dim m * p_cells m)) = Ok (repeat 0%Z (p_dim m * 2 ^ p_dim m * p_cells m))).
  { unfold CreateCellVertexDirFaceMap, for_. apply loop_same. intros c Hc'. apply loop_same. intros q Hq. apply each_same. intros p Hp'.
    destruct (is_face m p) eqn:F; [|reflexivity]. unfold face_entries. apply each_same. intros f Hf'. rewrite RV by nia. cbn [bind].
    destruct (f =? 0) eqn:E; [|reflexivity]. apply Nat.eqb_eq in E. subst f. destruct (H0 p F Hf'). }
  rewrite E2. cbn [bind]. destruct (fmap_proof m SF) as [fmap [E3 _]]. rewrite E3. cbn [bind].
  match goal with |- context [BDMNumbering ?a ?b ?c ?d ?e ?f ?g] => assert (E4 : BDMNumbering a b c d e f g = UB); [|rewrite E4; reflexivity] end.
  unfold BDMNumbering, for_ at 1. destruct (p_cells m) as [|n] eqn:En; [lia|]. cbn [loop].
  rewrite wr_ok by (cbn [fst]; rewrite repeat_length; nia). cbn [bind].
  destruct (2 ^ p_dim m) as [|k] eqn:Ek; [lia|]. destruct (p_dim m) as [|j] eqn:Ej; [lia|].
  unfold for_. cbn [loop]. unfold BDMUnknown at 1. rewrite Ej.
  assert (R0 : rd (repeat 0%Z (S j * S k * S n)) (0 * S k * S j + 0 * S j + 0) = Ok 0%Z) by reflexivity.
  rewrite R0. cbn [bind]. change (Z.to_nat (Z.abs 0)) with 0. assert (X : 0 <? p_fStart m = true) by (apply Nat.ltb_lt; exact Hf). rewrite X. reflexivity.
Qed.

(** The two squares with corners that are off by e. *)
Definition shifted (e : R) : plex := mkPlex 2 2 2 8 8 15 sq_closure sq_X sq_N (fun c => map (fun x => (x + e)%R) (sq_image c)).
Lemma shifted_far : forall e start, (/ 10 ^ 12 < e < 1 / 2)%R ->
  CreateCellVertexMap (shifted e) 4 = Ok (repeat 0 8) /\ BDMMaps (shifted e) start = UB.
Proof.
  intros e start [E1 E2]. apply (far_proof (shifted e) start); try reflexivity; try (cbn; lia).
  - exact squares_faces.
  - intros f F. unfold is_face in F. apply andb_prop in F. destruct F as [F1 F2]. apply Nat.leb_le in F1. apply Nat.ltb_lt in F2. cbn in F1, F2.
    do 8 (destruct f as [|f]; [exfalso; lia|]). cases f 7; cbn; intuition lia.
  - intros c v p Hc Hv Hp V. cbn in Hc. change (2 ^ p_dim (shifted e)) with 4 in Hv.
    assert (Ez : (0 < / 10 ^ 12)%R) by (apply Rinv_0_lt_compat; apply pow_lt; lra).
    generalize dependent (/ 10 ^ 12)%R. intros z E1 Ez.
    cases c 2; cbn in Hp; repeat (destruct Hp as [<-|Hp]; [try discriminate V|]); try destruct Hp; cases v 4;
      (eexists; split; [reflexivity|]; cbv -[Rplus Rminus Ropp Rabs IZR Rlt];
       unfold Rabs; repeat (destruct (Rcase_abs _)); lra).
Qed.
Lemma eleven : (/ 10 ^ 12 < / 10 ^ 11 < 1 / 2)%R.
Proof.
  split.
  - apply Rinv_lt_contravar; [apply Rmult_lt_0_compat; apply pow_lt; lra|]. simpl. lra.
  - replace (1 / 2)%R with (/ 2)%R by lra. apply Rinv_lt_contravar; [apply Rmult_lt_0_compat; [lra|apply pow_lt; lra]|]. simpl. lra.
Qed.
