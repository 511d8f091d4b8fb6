(** The numbering of the sides of all cells, SetupMaps_C2F_F2C_F2V. *)
From Coq Require Import List ZArith Arith Bool Lia.
From Verif Require Import Prelude Arrays UGrid MeshFaces SpecCellGeo SpecMeshFaces MeshFacesTables.
Import ListNotations.
Local Open Scope nat_scope.

Section Mesh.
Variables (nl ng : nat) (cnv : list nat) (cv : list (list Z)) (nbs : list (nat * list Z)).
Hypothesis CF : conforming nl ng cnv cv nbs.

Definition kind (c : nat) : celltype :=
  match nth c cnv 0 with 4 => Tet | 5 => Pyramid | 6 => Wedge | _ => Hex end.
Definition nf (c : nat) : nat := NumFaces (kind c).
Definition nvf (c i : nat) : nat := NumFaceVertices (kind c) i.
Definition vtx (c i : nat) : list Z := map (fun k => nth k (nth c cv []) 0%Z) (corners (kind c) i).

Lemma kind_verts c : c < ng -> nth c cnv 0 = nverts (kind c).
Proof.
  intro Hc. destruct (cf_kind _ _ _ _ _ CF c Hc) as [H _]. unfold kind. cbn in H.
  destruct H as [H|[H|[H|[H|[]]]]]; rewrite <- H; reflexivity.
Qed.
Lemma nth_cnv c : c < ng -> nth_error cnv c = Some (nverts (kind c)).
Proof. intro Hc. rewrite <- kind_verts by exact Hc. apply nth_error_nth'. rewrite (cf_cnv _ _ _ _ _ CF). exact Hc. Qed.
Lemma kind_ok c : c < ng -> cell_type cnv (Z.of_nat c) = Ok (kind c).
Proof.
  intro Hc. unfold cell_type. rewrite (rdz_nat _ _ _ (nth_cnv c Hc)). cbn [bind]. destruct (kind c); reflexivity.
Qed.
Lemma nsides_nf c : c < ng -> nsides cnv c = nf c.
Proof. intro Hc. unfold nsides, nf. rewrite kind_verts by exact Hc. apply sides_count. Qed.
Lemma side_rotation c i : c < ng -> i < nf c -> rotation (side cnv cv c i) (vtx c i).
Proof.
  intros Hc Hi. unfold side, vtx. rewrite kind_verts by exact Hc. apply rotation_map, corners_rotation, Hi.
Qed.
Lemma vtx_length c i : i < nf c -> length (vtx c i) = nvf c i.
Proof. intro Hi. unfold vtx, nvf. rewrite map_length. apply corners_length, Hi. Qed.
Lemma nth_cv c : c < ng -> nth_error cv c = Some (nth c cv []).
Proof. intro Hc. apply nth_error_nth'. rewrite (cf_cv _ _ _ _ _ CF). exact Hc. Qed.
Lemma nth_vtx c i k : i < nf c -> k < nvf c i -> nth k (vtx c i) 0%Z = nth (nth k (corners (kind c) i) 0) (nth c cv []) 0%Z.
Proof.
  intros Hi Hk. unfold vtx. set (F := fun k => nth k (nth c cv []) 0%Z).
  rewrite (nth_indep _ 0%Z (F 0)); [|rewrite map_length, corners_length by exact Hi; exact Hk]. apply map_nth.
Qed.
Lemma corner_read c i k : c < ng -> i < nf c -> k < nvf c i ->
  rdz (nth c cv []) (Z.of_nat (nth k (corners (kind c) i) 0)) = Ok (nth k (vtx c i) 0%Z).
Proof.
  intros Hc Hi Hk. rewrite nth_vtx by assumption. apply rdz_nat, nth_error_nth'.
  destruct (cf_kind _ _ _ _ _ CF c Hc) as [_ [H _]]. rewrite kind_verts in H by exact Hc.
  eapply Nat.lt_le_trans; [|exact H]. apply (corners_range _ i); [exact Hi|]. apply nth_In.
  rewrite corners_length by exact Hi. exact Hk.
Qed.
Lemma vtx_in_cell c i v : c < ng -> i < nf c -> In v (vtx c i) ->
  exists k, k < nth c cnv 0 /\ nth_error (nth c cv []) k = Some v.
Proof.
  intros Hc Hi H. apply in_map_iff in H as [k [E Hk]]. exists k. pose proof (corners_range _ _ _ Hi Hk) as R.
  rewrite kind_verts by exact Hc. split; [exact R|]. destruct (cf_kind _ _ _ _ _ CF c Hc) as [_ [H _]].
  rewrite kind_verts in H by exact Hc. rewrite <- E. apply nth_error_nth'. lia.
Qed.
Lemma vtx_nodup c i : c < ng -> i < nf c -> NoDup (vtx c i).
Proof.
  intros Hc Hi. destruct (cf_kind _ _ _ _ _ CF c Hc) as [_ [H D]]. rewrite kind_verts in H, D by exact Hc.
  set (row := nth c cv []) in *. assert (R := fun k => corners_range (kind c) i k Hi). pose proof (corners_nodup _ _ Hi) as N.
  unfold vtx. fold row. revert R N. generalize (corners (kind c) i). intros l. induction l as [|a l IH]; intros R N; [constructor|].
  inversion N as [|? ? Na Nl]; subst. cbn [map]. constructor.
  - intro Q. apply in_map_iff in Q as [b [E Hb]]. assert (Ra : a < nverts (kind c)) by (apply R; left; reflexivity).
    assert (Rb : b < nverts (kind c)) by (apply R; right; exact Hb).
    assert (L : length (firstn (nverts (kind c)) row) = nverts (kind c)) by (rewrite firstn_length; lia).
    assert (X : forall p, p < nverts (kind c) -> nth p (firstn (nverts (kind c)) row) 0%Z = nth p row 0%Z).
    { intros p Hp. rewrite <- (firstn_skipn (nverts (kind c)) row) at 2. rewrite app_nth1 by lia. reflexivity. }
    apply Na. rewrite NoDup_nth in D. rewrite <- (D b a); [exact Hb|lia|lia|]. rewrite !X by assumption. exact E.
  - apply IH; [|exact Nl]. intros k Hk. apply R. right. exact Hk.
Qed.
Lemma common_range c i d j : c < ng -> d < ng -> common cnv cv c i d j -> i < nf c /\ j < nf d.
Proof. intros Hc Hd [H1 [H2 _]]. rewrite nsides_nf in H1, H2 by assumption. split; assumption. Qed.
Lemma common_in c i d j : c < ng -> d < ng -> common cnv cv c i d j -> forall v, In v (vtx c i) <-> In v (vtx d j).
Proof.
  intros Hc Hd H v. destruct (common_range _ _ _ _ Hc Hd H) as [Hi Hj]. destruct H as [_ [_ H]].
  rewrite <- (rotation_in _ _ (side_rotation c i Hc Hi)), <- (rotation_in _ _ (side_rotation d j Hd Hj)). apply H.
Qed.
Lemma common_count c i d j : c < ng -> d < ng -> common cnv cv c i d j -> nvf c i = nvf d j.
Proof.
  intros Hc Hd H. pose proof (common_in _ _ _ _ Hc Hd H) as E. destruct (common_range _ _ _ _ Hc Hd H) as [Hi Hj].
  rewrite <- !vtx_length by assumption. apply Nat.le_antisymm; apply NoDup_incl_length; try (apply vtx_nodup; assumption); intros v; apply E.
Qed.
Lemma common_intro c i d j : c < ng -> d < ng -> i < nf c -> j < nf d -> nvf c i = nvf d j -> incl (vtx c i) (vtx d j) ->
  common cnv cv c i d j.
Proof.
  intros Hc Hd Hi Hj L I. split; [rewrite nsides_nf; assumption|]. split; [rewrite nsides_nf; assumption|]. intro v.
  rewrite (rotation_in _ _ (side_rotation c i Hc Hi)), (rotation_in _ _ (side_rotation d j Hd Hj)). split; [apply I|].
  apply NoDup_length_incl; [apply vtx_nodup; assumption| |exact I]. rewrite !vtx_length by assumption. lia.
Qed.
Lemma common_sym c i d j : common cnv cv c i d j -> common cnv cv d j c i.
Proof. intros [H1 [H2 H3]]. split; [exact H2|]. split; [exact H1|]. intro v. symmetry. apply H3. Qed.
(** The mate of a side is unique. *)
Lemma mate_unique c i d j e k : c < ng -> d < ng -> e < ng -> c <> d -> c <> e ->
  common cnv cv c i d j -> common cnv cv c i e k -> d = e /\ j = k.
Proof.
  intros Hc Hd He N1 N2 A B. assert (E := cf_two _ _ _ _ _ CF _ _ _ _ _ _ Hc Hd He N1 N2 A B). subst e.
  split; [reflexivity|]. apply (cf_one _ _ _ _ _ CF _ _ _ _ _ _ Hc Hd N1 A B).
Qed.

(** ** Numbers of sides *)
Fixpoint start (c : nat) : nat := match c with 0 => 0 | S c => start c + nf c end.
Definition slot (c i : nat) : nat := start c + i.
Lemma start_mono c d : c < d -> start c + nf c <= start d.
Proof. induction 1; simpl; lia. Qed.
Lemma slot_lt c i d : c < d -> i < nf c -> forall j, slot c i < slot d j.
Proof. intros H Hi j. pose proof (start_mono c d H). unfold slot. lia. Qed.
Lemma slot_inj c i d j : i < nf c -> j < nf d -> slot c i = slot d j -> c = d /\ i = j.
Proof.
  intros Hi Hj E. destruct (lt_eq_lt_dec c d) as [[H|H]|H].
  - pose proof (slot_lt c i d H Hi j). lia.
  - subst d. unfold slot in E. split; [reflexivity|lia].
  - pose proof (slot_lt d j c H Hj i). lia.
Qed.
Lemma slot_surj n f : f < start n -> exists c i, c < n /\ i < nf c /\ f = slot c i.
Proof.
  induction n as [|n IH]; simpl; [lia|]. intro H. destruct (Nat.lt_ge_cases f (start n)) as [L|L].
  - destruct (IH L) as [c [i [H1 H2]]]. exists c, i. split; [lia|exact H2].
  - exists n, (f - start n). unfold slot. split; [lia|]. split; lia.
Qed.
Lemma start_bound n : start n <= 6 * n.
Proof. induction n as [|n IH]; simpl; [lia|]. pose proof (faces_le_6 (kind n)). unfold nf. lia. Qed.
Lemma slot_bound c i : c < ng -> i < nf c -> slot c i < start ng.
Proof. intros Hc Hi. pose proof (start_mono c ng Hc). unfold slot. lia. Qed.
Lemma slot_bound6 c i : c < ng -> i < nf c -> slot c i < 6 * ng.
Proof. intros Hc Hi. pose proof (slot_bound c i Hc Hi). pose proof (start_bound ng). lia. Qed.
Lemma nf6 c : nf c <= 6.
Proof. apply faces_le_6. Qed.

(** ** SetupMaps_C2F_F2C_F2V *)
Definition before (c0 i0 c i : nat) : Prop := c < c0 \/ (c = c0 /\ i < i0).
Definition numbered (c0 i0 : nat) (m : maps) : Prop :=
  m_count m = slot c0 i0 /\ exists g h v,
  tab (m_c2f m) 6 ng g /\ tab (m_f2c m) 2 (6 * ng) h /\ tab (m_f2v m) 4 (6 * ng) v /\
  (forall c i, before c0 i0 c i -> i < nf c ->
     g i c = Z.of_nat (slot c i) /\ h 0 (slot c i) = Z.of_nat c /\ forall k, k < nvf c i -> v k (slot c i) = nth k (vtx c i) 0%Z) /\
  (forall f, slot c0 i0 <= f < 6 * ng -> h 0 f = (-1)%Z) /\ (forall f, f < 6 * ng -> h 1 f = (-1)%Z) /\
  (forall c i, nf c <= i -> g i c = (-1)%Z) /\ (forall c i k, i < nf c -> nvf c i <= k -> v k (slot c i) = (-1)%Z).

Lemma setup_face_ok c i m : c < ng -> i < nf c -> numbered c i m ->
  exists m', setup_face cv c i (kind c) m = Ok m' /\ numbered c (S i) m'.
Proof.
  intros Hc Hi [N [g [h [v [Tg [Th [Tv [B [F0 [F1 [G1 V3]]]]]]]]]]]. pose proof (slot_bound6 c i Hc Hi) as S6. pose proof (nf6 c) as N6.
  unfold setup_face. rewrite N.
  destruct (tab_wr _ _ _ _ i c (Z.of_nat (slot c i)) Tg) as [t1 [E1 T1]]; [lia|lia|]. rewrite E1. cbn [bind].
  destruct (tab_wr _ _ _ _ 0 (slot c i) (Z.of_nat c) Th) as [t2 [E2 T2]]; [lia|lia|]. rewrite E2. cbn [bind].
  destruct (corners_code _ _ Hi) as [ids [E3 H3]]. rewrite E3. cbn [bind].
  assert (L : exists t, for_ (NumFaceVertices (kind c) i) (fun iv f2v =>
      do rel <- rd ids iv; do row <- rd cv c; do v <- rdz row rel; wr2 f2v iv (Z.of_nat (slot c i)) v) (m_f2v m) = Ok t /\
    exists v', tab t 4 (6 * ng) v' /\ (forall k f, f <> slot c i -> v' k f = v k f) /\
      (forall k, k < NumFaceVertices (kind c) i -> v' k (slot c i) = nth k (vtx c i) 0%Z) /\
      forall k, NumFaceVertices (kind c) i <= k -> v' k (slot c i) = v k (slot c i)).
  { apply for_inv with (P := fun n t => exists v', tab t 4 (6 * ng) v' /\ (forall k f, f <> slot c i -> v' k f = v k f) /\
      (forall k, k < n -> v' k (slot c i) = nth k (vtx c i) 0%Z) /\
      forall k, NumFaceVertices (kind c) i <= k -> v' k (slot c i) = v k (slot c i)).
    - exists v. split; [exact Tv|]. split; [reflexivity|]. split; [intros; lia|reflexivity].
    - intros k t Hk [v' [T [K1 [K2 K3]]]]. rewrite (rd_some _ _ _ (H3 k Hk)). cbn [bind]. rewrite (rd_some _ _ _ (nth_cv c Hc)). cbn [bind].
      rewrite corner_read by assumption. cbn [bind]. pose proof (face_vertices_bound _ _ Hi) as B4.
      destruct (tab_wr _ _ _ _ k (slot c i) (nth k (vtx c i) 0%Z) T) as [t' [E T']]; [lia|lia|].
      exists t'. split; [exact E|]. exists (put v' k (slot c i) (nth k (vtx c i) 0%Z)). split; [exact T'|]. split; [|split].
      + intros k' f Hf. rewrite put_other by (right; exact Hf). apply K1, Hf.
      + intros k' Hk'. destruct (Nat.eq_dec k' k) as [->|Nk]; [apply put_same|]. rewrite put_other by (left; exact Nk). apply K2. lia.
      + intros k' Hk'. rewrite put_other by (left; lia). apply K3, Hk'. }
  destruct L as [t3 [E4 [v' [T3 [V1 [V2 V4]]]]]]. rewrite E4. cbn [bind]. eexists; split; [reflexivity|]. split.
  - cbn [m_count]. unfold slot. lia.
  - cbn [m_c2f m_f2c m_f2v]. exists (put g i c (Z.of_nat (slot c i))), (put h 0 (slot c i) (Z.of_nat c)), v'.
    split; [exact T1|]. split; [exact T2|]. split; [exact T3|]. split; [|split; [|split; [|split]]].
    + intros c' i' Hb Hi'. destruct (Nat.eq_dec (slot c' i') (slot c i)) as [E|E].
      * destruct (slot_inj _ _ _ _ Hi' Hi E) as [-> ->]. rewrite !put_same. split; [reflexivity|]. split; [reflexivity|]. exact V2.
      * assert (B' : before c i c' i').
        { destruct Hb as [Hb|[-> Hb]]; [left; exact Hb|right]. split; [reflexivity|]. assert (i' <> i) by congruence. lia. }
        destruct (B c' i' B' Hi') as [G [H V]]. rewrite !put_other; [split; [exact G|]; split; [exact H|]| |].
        -- intros k Hk. rewrite V1 by exact E. apply V, Hk.
        -- right. exact E.
        -- destruct (Nat.eq_dec c' c) as [->|Nc]; [left|right; exact Nc]. congruence.
    + intros f Hf. rewrite put_other; [apply F0|right]; unfold slot in *; lia.
    + intros f Hf. rewrite put_other by (left; lia). apply F1, Hf.
    + intros c' i' Hi'. rewrite put_other; [apply G1, Hi'|]. destruct (Nat.eq_dec c' c) as [->|Nc]; [left; lia|right; exact Nc].
    + intros c' i' k Hi' Hk. destruct (Nat.eq_dec (slot c' i') (slot c i)) as [E|E].
      * destruct (slot_inj _ _ _ _ Hi' Hi E) as [-> ->]. rewrite V4 by exact Hk. apply V3; assumption.
      * rewrite V1 by exact E. apply V3; assumption.
Qed.

Lemma setup_maps_ok : exists m, setup_maps cnv cv ng = Ok m /\ numbered ng 0 m.
Proof.
  unfold setup_maps. apply for_inv with (P := fun c m => numbered c 0 m).
  - split; [reflexivity|]. exists (fun _ _ => (-1)%Z), (fun _ _ => (-1)%Z), (fun _ _ => (-1)%Z). cbn [m_c2f m_f2c m_f2v].
    split; [apply tab_alloc|]. split; [apply tab_alloc|]. split; [apply tab_alloc|]. split; [intros c i [H|[_ H]]; lia|].
    repeat split; reflexivity.
  - intros c m Hc H. rewrite kind_ok by exact Hc. cbn [bind].
    destruct (for_inv (fun i m => numbered c i m) (fun iface m => setup_face cv c iface (kind c) m) (NumFaces (kind c)) m) as [m' [E N]].
    + exact H.
    + intros i m1 Hi H1. apply setup_face_ok; assumption.
    + exists m'. split; [exact E|]. destruct N as [N [g [h [v [T1 [T2 [T3 [B [F0 [F1 F2]]]]]]]]]].
      assert (SE : slot (S c) 0 = slot c (NumFaces (kind c))) by (unfold slot; simpl; unfold nf; lia).
      split; [rewrite SE; exact N|]. exists g, h, v. split; [exact T1|]. split; [exact T2|]. split; [exact T3|].
      split; [|split; [rewrite SE; exact F0|split; [exact F1|exact F2]]]. intros c' i' Hb Hi'. apply B; [|exact Hi'].
      destruct Hb as [Hb|[_ Hb]]; [|lia]. destruct (Nat.eq_dec c' c) as [->|Nc]; [right; split; [reflexivity|exact Hi']|left; lia].
Qed.
End Mesh.
