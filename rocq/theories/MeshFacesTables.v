(** Tables with two subscripts as functions, searches, and the sides of cells. *)
From Coq Require Import List ZArith Arith Bool Lia.
From Verif Require Import Prelude Arrays UGrid MeshFaces SpecCellGeo SpecMeshFaces.
Import ListNotations.
Local Open Scope nat_scope.

Lemma rdz_nat {A} (a : list A) (i : nat) v : nth_error a i = Some v -> rdz a (Z.of_nat i) = Ok v.
Proof. intro H. unfold rdz. destruct (Z.ltb_spec (Z.of_nat i) 0); [lia|]. rewrite Nat2Z.id. apply rd_some, H. Qed.
Lemma wrz_nat {A} (a : list A) (i : nat) v : i < length a -> wrz a (Z.of_nat i) v = Ok (upd a i v).
Proof. intro H. unfold wrz. destruct (Z.ltb_spec (Z.of_nat i) 0); [lia|]. rewrite Nat2Z.id. apply wr_ok, H. Qed.

(** [t] has [n] rows of [m] entries, given by [g]. *)
Definition tab (t : table) (n m : nat) (g : nat -> nat -> Z) : Prop :=
  length t = n /\ forall i, i < n -> exists row, nth_error t i = Some row /\ length row = m /\
    forall j, j < m -> nth_error row j = Some (g i j).
Definition put (g : nat -> nat -> Z) (i j : nat) (v : Z) (i' j' : nat) : Z :=
  if (i' =? i) && (j' =? j) then v else g i' j'.

Lemma put_same g i j v : put g i j v i j = v.
Proof. unfold put. rewrite !Nat.eqb_refl. reflexivity. Qed.
Lemma put_other g i j v i' j' : i' <> i \/ j' <> j -> put g i j v i' j' = g i' j'.
Proof.
  intro H. unfold put. destruct (Nat.eqb_spec i' i); destruct (Nat.eqb_spec j' j); try reflexivity. exfalso; destruct H; auto.
Qed.
Lemma tab_ext t n m g h : tab t n m g -> (forall i j, i < n -> j < m -> g i j = h i j) -> tab t n m h.
Proof.
  intros [L H] E. split; [exact L|]. intros i Hi. destruct (H i Hi) as [row [E1 [L1 H1]]]. exists row.
  split; [exact E1|]. split; [exact L1|]. intros j Hj. rewrite <- E by assumption. apply H1, Hj.
Qed.
Lemma tab_rd t n m g i j : tab t n m g -> i < n -> j < m -> rd2 t i (Z.of_nat j) = Ok (g i j).
Proof.
  intros [L H] Hi Hj. destruct (H i Hi) as [row [E1 [L1 H1]]]. unfold rd2. rewrite (rd_some _ _ _ E1). cbn [bind].
  apply rdz_nat, H1, Hj.
Qed.
Lemma tab_wr t n m g i j v : tab t n m g -> i < n -> j < m ->
  exists t', wr2 t i (Z.of_nat j) v = Ok t' /\ tab t' n m (put g i j v).
Proof.
  intros [L H] Hi Hj. destruct (H i Hi) as [row [E1 [L1 H1]]]. unfold wr2. rewrite (rd_some _ _ _ E1). cbn [bind].
  rewrite wrz_nat by lia. cbn [bind]. rewrite wr_ok by lia. eexists; split; [reflexivity|].
  split; [rewrite length_upd; exact L|]. intros i' Hi'. destruct (Nat.eq_dec i' i) as [->|Ni].
  - exists (upd row j v). rewrite nth_upd_same by lia. split; [reflexivity|]. rewrite length_upd. split; [exact L1|].
    intros j' Hj'. destruct (Nat.eq_dec j' j) as [->|Nj].
    + rewrite nth_upd_same by lia. rewrite put_same. reflexivity.
    + rewrite nth_upd_other by congruence. rewrite put_other by (right; exact Nj). apply H1, Hj'.
  - rewrite nth_upd_other by congruence. destruct (H i' Hi') as [row' [E2 [L2 H2]]]. exists row'. split; [exact E2|].
    split; [exact L2|]. intros j' Hj'. rewrite put_other by (left; exact Ni). apply H2, Hj'.
Qed.
Lemma tab_alloc n m : tab (alloc2 n m) n m (fun _ _ => (-1)%Z).
Proof.
  unfold alloc2. split; [apply repeat_length|]. intros i Hi. exists (repeat (-1)%Z m). split; [apply nth_error_repeat, Hi|].
  split; [apply repeat_length|]. intros j Hj. apply nth_error_repeat, Hj.
Qed.

(** Searches. *)
Lemma first_some_at {A} (f : nat -> outcome (option A)) n k p a :
  k <= p < k + n -> (forall q, k <= q < p -> f q = Ok None) -> f p = Ok (Some a) -> first_some n k f = Ok (Some a).
Proof.
  revert k; induction n as [|n IH]; intros k Hp Hb Ha; [lia|]. simpl. destruct (Nat.eq_dec k p) as [->|N].
  - rewrite Ha. reflexivity.
  - rewrite Hb by lia. simpl. apply IH; [lia| |exact Ha]. intros q Hq. apply Hb. lia.
Qed.
Lemma first_some_none {A} (f : nat -> outcome (option A)) n k :
  (forall q, k <= q < k + n -> f q = Ok None) -> first_some n k f = Ok None.
Proof.
  revert k; induction n as [|n IH]; intros k Hb; [reflexivity|]. simpl. rewrite Hb by lia. simpl.
  apply IH. intros q Hq. apply Hb. lia.
Qed.
Lemma all_true_forall (f : nat -> outcome bool) (g : nat -> bool) n k :
  (forall q, k <= q < k + n -> f q = Ok (g q)) -> all_true n k f = Ok (forallb g (seq k n)).
Proof.
  revert k; induction n as [|n IH]; intros k H; [reflexivity|]. simpl. rewrite H by lia. simpl.
  destruct (g k); [|reflexivity]. apply IH. intros q Hq. apply H. lia.
Qed.
Lemma some_true_exists (f : nat -> outcome bool) (g : nat -> bool) n :
  (forall q, q < n -> f q = Ok (g q)) -> some_true n f = Ok (existsb g (seq 0 n)).
Proof.
  intro H. unfold some_true.
  assert (K : forall k, (forall q, k <= q < k + n -> f q = Ok (g q)) ->
    first_some n k (fun k => do b <- f k; Ok (if b then Some tt else None)) = Ok (if existsb g (seq k n) then Some tt else None)).
  { clear H. induction n as [|n IH]; intros k H; [reflexivity|]. simpl. rewrite H by lia. simpl.
    destruct (g k); [reflexivity|]. apply IH. intros q Hq. apply H. lia. }
  rewrite K by (intros q Hq; apply H; lia). simpl. destruct (existsb g (seq 0 n)); reflexivity.
Qed.

(** ** The sides of the four kinds of cells, as the code numbers their corners *)
Definition corners (t : celltype) (i : nat) : list nat :=
  match t, i with
  | Tet, 2 => [0; 3; 2]
  | Tet, _ => nth i (sides 4) []
  | Pyramid, _ => nth i (sides 5) []
  | Wedge, _ => nth i (sides 6) []
  | Hex, _ => nth i (sides 8) []
  end.
Definition nverts (t : celltype) : nat := match t with Tet => 4 | Pyramid => 5 | Wedge => 6 | Hex => 8 end.


Ltac each_side t i Hi := destruct t; do 6 (try (destruct i as [|i])); try (exfalso; cbn in Hi; lia).

Lemma sides_count t : length (sides (nverts t)) = NumFaces t.
Proof. destruct t; reflexivity. Qed.
Lemma corners_length t i : i < NumFaces t -> length (corners t i) = NumFaceVertices t i.
Proof. intro Hi. each_side t i Hi; reflexivity. Qed.
Lemma corners_code t i : i < NumFaces t -> exists ids, GetFaceVertices t i = Ok ids /\
  forall k, k < NumFaceVertices t i -> nth_error ids k = Some (Z.of_nat (nth k (corners t i) 0)).
Proof.
  intro Hi. each_side t i Hi; (eexists; split; [reflexivity|]); intros k Hk; do 4 (destruct k as [|k]; [reflexivity || (cbn in Hk; lia)|]); cbn in Hk; lia.
Qed.
Lemma corners_range t i k : i < NumFaces t -> In k (corners t i) -> k < nverts t.
Proof.
  intros Hi. each_side t i Hi; cbn; intuition lia.
Qed.
Lemma corners_nodup t i : i < NumFaces t -> NoDup (corners t i).
Proof.
  intro Hi. each_side t i Hi; cbn; repeat constructor; cbn; intuition lia.
Qed.
Lemma corners_rotation t i : i < NumFaces t -> rotation (nth i (sides (nverts t)) []) (corners t i).
Proof.
  intro Hi. assert (R : forall l : list nat, rotation l l) by (intro l; exists l, []; rewrite app_nil_r; split; reflexivity).
  destruct t; [|apply R|apply R|apply R]. destruct i as [|[|[|i]]]; [apply R|apply R| |apply R].
  exists [2], [0; 3]. split; reflexivity.
Qed.
Lemma face_vertices_bound t i : i < NumFaces t -> 3 <= NumFaceVertices t i <= 4.
Proof. intro Hi. each_side t i Hi; cbn; lia. Qed.
Lemma faces_le_vertices t : NumFaces t <= nverts t.
Proof. destruct t; cbn; lia. Qed.
Lemma faces_le_6 t : NumFaces t <= 6.
Proof. destruct t; cbn; lia. Qed.
Lemma face_type_vertices t i : NumVerticesOfFaceType (FaceTypeOf t i) = NumFaceVertices t i.
Proof. destruct t; cbn; try destruct i as [|[|[|[|i]]]]; reflexivity. Qed.
Lemma same_type_spec a b : same_type a b = (NumVerticesOfFaceType a =? NumVerticesOfFaceType b).
Proof. destruct a, b; reflexivity. Qed.

Lemma rotation_in {A} (l m : list A) : rotation l m -> forall v, In v l <-> In v m.
Proof. intros [a [b [-> ->]]] v. rewrite !in_app_iff. tauto. Qed.
Lemma rotation_map {A B} (f : A -> B) l m : rotation l m -> rotation (map f l) (map f m).
Proof. intros [a [b [-> ->]]]. exists (map f a), (map f b). rewrite !map_app. split; reflexivity. Qed.
Lemma rotation_length {A} (l m : list A) : rotation l m -> length l = length m.
Proof. intros [a [b [-> ->]]]. rewrite !app_length. lia. Qed.
