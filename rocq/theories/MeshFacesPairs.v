(** RemoveDuplicateFaces: the number of the smaller cell is kept for a common side. *)
From Coq Require Import List ZArith Arith Bool Lia.
From Verif Require Import Prelude Arrays UGrid MeshFaces SpecCellGeo SpecMeshFaces MeshFacesTables MeshFacesSetup.
Import ListNotations.
Local Open Scope nat_scope.

Section Mesh.
Variables (nl ng : nat) (cnv : list nat) (cv : list (list Z)) (nbs : list (nat * list Z)).
Hypothesis CF : conforming nl ng cnv cv nbs.
Notation kind := (kind cnv).
Notation nf := (nf cnv).
Notation nvf := (nvf cnv).
Notation vtx := (vtx cnv cv).
Notation slot := (slot cnv).
Notation start := (start cnv).
Notation common := (common cnv cv).

(** The state after the pairs of cells in [P] have been treated. *)
Definition paired (P : nat -> nat -> Prop) (g h : nat -> nat -> Z) : Prop :=
  (forall c i, c < ng -> i < nf c ->
    (exists b k, P b c /\ common b k c i /\ g i c = Z.of_nat (slot b k) /\ h 0 (slot c i) = (- Z.of_nat c)%Z) \/
    ((forall b k, P b c -> ~ common b k c i) /\ g i c = Z.of_nat (slot c i) /\ h 0 (slot c i) = Z.of_nat c)) /\
  (forall c i, c < ng -> i < nf c ->
    (exists d j, P c d /\ common c i d j /\ h 1 (slot c i) = Z.of_nat d) \/
    ((forall d j, P c d -> ~ common c i d j) /\ h 1 (slot c i) = (-1)%Z)) /\
  (forall f, start ng <= f < 6 * ng -> h 0 f = (-1)%Z) /\
  (forall c i, nf c <= i -> g i c = (-1)%Z).
Definition upward (P : nat -> nat -> Prop) : Prop := forall b c, P b c -> b < c /\ c < ng.

Lemma paired_iff (P Q : nat -> nat -> Prop) g h : (forall b c, P b c <-> Q b c) -> paired P g h -> paired Q g h.
Proof.
  intros E [A [B C]]. split; [|split; [|exact C]].
  - intros c i Hc Hi. destruct (A c i Hc Hi) as [[b [k [H R]]]|[H R]].
    + left. exists b, k. split; [apply E, H|exact R].
    + right. split; [|exact R]. intros b k Hb. apply H, E, Hb.
  - intros c i Hc Hi. destruct (B c i Hc Hi) as [[b [k [H R]]]|[H R]].
    + left. exists b, k. split; [apply E, H|exact R].
    + right. split; [|exact R]. intros b k Hb. apply H, E, Hb.
Qed.

(** What the columns of face_to_vertex hold. *)
Definition columns (v : nat -> nat -> Z) : Prop :=
  forall c i k, c < ng -> i < nf c -> k < nvf c i -> v k (slot c i) = nth k (vtx c i) 0%Z.

(** The vertices of the face that is stored for a side are those of the side. *)
Lemma stored P g h v c i : upward P -> paired P g h -> columns v -> c < ng -> i < nf c ->
  exists f, g i c = Z.of_nat f /\ f < start ng /\
    forall x, In x (map (fun k => v k f) (seq 0 (nvf c i))) <-> In x (vtx c i).
Proof.
  intros U [A _] V Hc Hi.
  assert (K : forall c i, c < ng -> i < nf c -> map (fun k => v k (slot c i)) (seq 0 (nvf c i)) = vtx c i).
  { clear - V. intros c i Hc Hi. rewrite <- (vtx_length cnv cv c i Hi). apply nth_ext with (d := 0%Z) (d' := 0%Z).
    - rewrite map_length, seq_length. reflexivity.
    - intros k Hk. rewrite map_length, seq_length in Hk. rewrite (nth_indep _ 0%Z (v 0 (slot c i))) by (rewrite map_length, seq_length; exact Hk).
      rewrite (map_nth (fun k => v k (slot c i)) _ 0 k), seq_nth by exact Hk. apply V; [exact Hc|exact Hi|].
      rewrite <- (vtx_length cnv cv c i Hi). exact Hk. }
  destruct (A c i Hc Hi) as [[b [k [H [C [G _]]]]]|[_ [G _]]].
  - destruct (U _ _ H) as [Hb _]. assert (Hb' : b < ng) by lia. destruct (common_range nl ng cnv cv nbs CF _ _ _ _ Hb' Hc C) as [Hk _].
    exists (slot b k). split; [exact G|]. split; [apply slot_bound; assumption|]. intro x.
    rewrite <- (common_count nl ng cnv cv nbs CF _ _ _ _ Hb' Hc C), K by assumption.
    apply (common_in nl ng cnv cv nbs CF _ _ _ _ Hb' Hc C).
  - exists (slot c i). split; [exact G|]. split; [apply slot_bound; assumption|]. intro x. rewrite K by assumption. tauto.
Qed.

Lemma has_vertex_ok d x : d < ng -> exists b, has_vertex cnv cv (Z.of_nat d) x = Ok b /\
  (b = true <-> exists k, k < nth d cnv 0 /\ nth_error (nth d cv []) k = Some x).
Proof.
  intro Hd. unfold has_vertex. rewrite (rdz_nat _ _ _ (nth_cnv _ _ _ _ _ CF d Hd)). cbn [bind].
  rewrite (rdz_nat _ _ _ (nth_cv _ _ _ _ _ CF d Hd)). cbn [bind]. rewrite (kind_verts _ _ _ _ _ CF d Hd).
  destruct (cf_kind _ _ _ _ _ CF d Hd) as [_ [L _]]. rewrite (kind_verts _ _ _ _ _ CF d Hd) in L.
  apply for_inv with (P := fun n b => b = true <-> exists k, k < n /\ nth_error (nth d cv []) k = Some x).
  - split; [discriminate|]. intros [k [H _]]. lia.
  - intros k b Hk IH. destruct (rd_ok (nth d cv []) k) as [y [Ey Ny]]; [lia|]. rewrite Ey. cbn [bind].
    eexists; split; [reflexivity|]. destruct (Z.eqb_spec x y) as [->|Nxy].
    + split; [intros _; exists k; split; [lia|exact Ny]|reflexivity].
    + rewrite IH. split; intros [p [Hp Ep]]; exists p; (split; [|exact Ep]); [lia|].
      assert (p <> k) by (intros ->; congruence). lia.
Qed.

Section Search.
Variables (P : nat -> nat -> Prop) (c2f f2v : table) (g h v : nat -> nat -> Z).
Hypothesis U : upward P.
Hypothesis Pa : paired P g h.
Hypothesis V : columns v.
Hypothesis Tg : tab c2f 6 ng g.
Hypothesis Tv : tab f2v 4 (6 * ng) v.

Lemma face_read c i : c < ng -> i < nf c -> exists f, rd2 c2f i (Z.of_nat c) = Ok (Z.of_nat f) /\ g i c = Z.of_nat f /\
  (forall k, k < nvf c i -> rd2 f2v k (Z.of_nat f) = Ok (v k f)) /\
  forall x, In x (map (fun k => v k f) (seq 0 (nvf c i))) <-> In x (vtx c i).
Proof.
  intros Hc Hi. destruct (stored P g h v c i U Pa V Hc Hi) as [f [G [Bf I]]]. exists f.
  pose proof (nf6 cnv c). pose proof (start_bound cnv ng). pose proof (face_vertices_bound _ _ Hi).
  split; [rewrite (tab_rd _ _ _ _ i c Tg) by lia; rewrite G; reflexivity|]. split; [exact G|]. split; [|exact I].
  intros k Hk. unfold nvf in Hk. apply (tab_rd _ _ _ _ k f Tv); lia.
Qed.

Lemma all_present_ok c d i : c < ng -> d < ng -> i < nf c ->
  exists b, all_present cnv cv c2f f2v (Z.of_nat c) (Z.of_nat d) i = Ok b /\
    forall j, common c i d j -> b = true.
Proof.
  intros Hc Hd Hi. unfold all_present. rewrite (kind_ok _ _ _ _ _ CF c Hc). cbn [bind].
  destruct (face_read c i Hc Hi) as [f [E [_ [R I]]]]. rewrite E. cbn [bind]. fold (nvf c i).
  pose proof (face_vertices_bound _ _ Hi) as B3. fold (nvf c i) in B3.
  destruct (Nat.eqb_spec (nvf c i) 0); [lia|].
  set (t := fun x => match has_vertex cnv cv (Z.of_nat d) x with Ok b => b | _ => false end).
  rewrite (all_true_forall _ (fun k => t (v k f)) (nvf c i) 0).
  - eexists; split; [reflexivity|]. intros j C. apply forallb_forall. intros k Hk.
    destruct (has_vertex_ok d (v k f) Hd) as [b [Eb Hb]]. unfold t. rewrite Eb. apply Hb.
    apply (vtx_in_cell nl ng cnv cv nbs CF d j); [exact Hd|apply (common_range nl ng cnv cv nbs CF _ _ _ _ Hc Hd C)|].
    apply (common_in nl ng cnv cv nbs CF _ _ _ _ Hc Hd C). apply I. apply in_map_iff. exists k. split; [reflexivity|exact Hk].
  - intros k Hk. rewrite R by lia. cbn [bind]. destruct (has_vertex_ok d (v k f) Hd) as [b [Eb _]]. unfold t. rewrite Eb. reflexivity.
Qed.

Lemma match_ok c d i j : c < ng -> d < ng -> i < nf c -> j < nf d ->
  exists f f2 b, rd2 c2f i (Z.of_nat c) = Ok (Z.of_nat f) /\ rd2 c2f j (Z.of_nat d) = Ok (Z.of_nat f2) /\
    (nvf c i = nvf d j -> all_true (nvf c i) 0 (fun iv =>
        do v <- rd2 f2v iv (Z.of_nat f);
        some_true (nvf d j) (fun iv2 => do v2 <- rd2 f2v iv2 (Z.of_nat f2); Ok (v =? v2)%Z)) = Ok b) /\
    (nvf c i = nvf d j /\ b = true <-> common c i d j).
Proof.
  intros Hc Hd Hi Hj. destruct (face_read c i Hc Hi) as [f [E [_ [R I]]]]. destruct (face_read d j Hd Hj) as [f2 [E2 [_ [R2 I2]]]].
  set (b := forallb (fun k => existsb (fun q => (v k f =? v q f2)%Z) (seq 0 (nvf d j))) (seq 0 (nvf c i))).
  exists f, f2, b. split; [exact E|]. split; [exact E2|]. split.
  - intros _. apply all_true_forall. intros k Hk. rewrite R by lia. cbn [bind]. apply some_true_exists.
    intros q Hq. rewrite R2 by exact Hq. reflexivity.
  - assert (K : b = true <-> incl (vtx c i) (vtx d j)).
    { unfold b. rewrite forallb_forall. split.
      - intros H x Hx. apply I in Hx. apply in_map_iff in Hx as [k [<- Hk]]. specialize (H k Hk).
        apply existsb_exists in H as [q [Hq Eq]]. apply Z.eqb_eq in Eq. apply I2. apply in_map_iff. exists q. split; [congruence|exact Hq].
      - intros H k Hk. apply existsb_exists.
        assert (X : In (v k f) (vtx d j)) by (apply H, I, in_map_iff; exists k; split; [reflexivity|exact Hk]).
        apply I2 in X. apply in_map_iff in X as [q [Eq Hq]]. exists q. split; [exact Hq|]. apply Z.eqb_eq. congruence. }
    rewrite K. split.
    + intros [L X]. apply (common_intro nl ng cnv cv nbs CF); assumption.
    + intro C. split; [apply (common_count nl ng cnv cv nbs CF _ _ _ _ Hc Hd C)|]. intros x. apply (common_in nl ng cnv cv nbs CF _ _ _ _ Hc Hd C).
Qed.

Lemma test_none c d i j : c < ng -> d < ng -> i < nf c -> j < nf d -> forall f, rd2 c2f i (Z.of_nat c) = Ok f ->
  exists r, (do f2 <- rd2 c2f j (Z.of_nat d);
    (let nv2 := NumFaceVertices (kind d) j in
    if NumFaceVertices (kind c) i =? nv2 then
      do b <- all_true (NumFaceVertices (kind c) i) 0 (fun iv =>
        do v <- rd2 f2v iv f;
        some_true nv2 (fun iv2 => do v2 <- rd2 f2v iv2 f2; Ok (v =? v2)%Z));
      Ok (if b then Some j else None)
    else Ok None)) = Ok r /\ (common c i d j -> r = Some j) /\ (~ common c i d j -> r = None).
Proof.
  intros Hc Hd Hi Hj f Ef. destruct (match_ok c d i j Hc Hd Hi Hj) as [f0 [f2 [b [E [E2 [M C]]]]]].
  assert (f = Z.of_nat f0) by congruence. subst f. rewrite E2. cbn [bind]. cbv zeta. fold (nvf c i) (nvf d j).
  destruct (Nat.eqb_spec (nvf c i) (nvf d j)) as [L|L].
  - rewrite M by exact L. cbn [bind]. eexists; split; [reflexivity|]. destruct b; split; intro X; try reflexivity.
    + exfalso. apply X, C. split; [exact L|reflexivity].
    + apply C in X. destruct X; discriminate.
  - eexists; split; [reflexivity|]. split; intro X; [|reflexivity]. apply C in X. destruct X; contradiction.
Qed.

Lemma corresponding_ok c d i : c < ng -> d < ng -> c <> d -> i < nf c ->
  exists r, corresponding cnv c2f f2v (Z.of_nat c) (Z.of_nat d) i = Ok r /\
    (forall j, common c i d j -> r = Some j) /\ ((forall j, ~ common c i d j) -> r = None).
Proof.
  intros Hc Hd N Hi. unfold corresponding. rewrite (kind_ok _ _ _ _ _ CF c Hc). cbn [bind]. cbv zeta.
  destruct (face_read c i Hc Hi) as [f [E _]]. rewrite E. cbn [bind]. rewrite (kind_ok _ _ _ _ _ CF d Hd). cbn [bind].
  match goal with |- context [first_some _ _ ?F] => set (FF := F) end.
  assert (T : forall j, j < nf d -> exists r, FF j = Ok r /\ (common c i d j -> r = Some j) /\ (~ common c i d j -> r = None)).
  { intros j Hj. apply (test_none c d i j Hc Hd Hi Hj _ E). }
  clearbody FF. fold (nf d).
  (* either a first success or none *)
  assert (D : forall n k, (forall j, k <= j < k + n -> j < nf d) ->
    (exists j, k <= j < k + n /\ common c i d j /\ first_some n k FF = Ok (Some j)) \/ ((forall j, k <= j < k + n -> ~ common c i d j) /\ first_some n k FF = Ok None)).
  { induction n as [|n IH]; intros k Hk; [right; split; [intros; lia|reflexivity]|]. simpl.
    destruct (T k) as [r [Er [Y Nn]]]; [apply Hk; lia|]. rewrite Er. cbn [bind]. destruct r as [q|].
    - left. assert (X : common c i d k -> q = k) by (intro X; specialize (Y X); congruence).
      assert (Z0 : ~ ~ common c i d k) by (intro X9; specialize (Nn X9); discriminate).
      destruct (match_ok c d i k Hc Hd Hi (Hk k ltac:(lia))) as [f0 [f2 [b [_ [_ [_ C]]]]]].
      assert (C' : common c i d k).
      { apply C. destruct (Nat.eq_dec (nvf c i) (nvf d k)) as [L|L]; destruct b; try (split; [exact L|reflexivity]);
          exfalso; apply Z0; intro X9; apply C in X9; destruct X9; congruence. }
      exists k. split; [lia|]. split; [exact C'|]. rewrite (X C'). reflexivity.
    - destruct (IH (S k)) as [[j [Hj [C E1]]]|[H E1]]; [intros j Hj; apply Hk; lia| |].
      + left. exists j. split; [lia|]. split; [exact C|exact E1].
      + right. split; [|exact E1]. intros j Hj. destruct (Nat.eq_dec j k) as [->|Nk]; [|apply H; lia].
        intro X. specialize (Y X). discriminate. }
  destruct (D (nf d) 0) as [[j [Hj [C E1]]]|[H E1]]; [intros; lia| |].
  - exists (Some j). split; [exact E1|]. split.
    + intros j' C'. destruct (mate_unique nl ng cnv cv nbs CF _ _ _ _ _ _ Hc Hd Hd N N C C') as [_ ->]. reflexivity.
    + intro X. exfalso. apply (X j), C.
  - exists None. split; [exact E1|]. split; [|reflexivity]. intros j C. exfalso.
    apply (H j); [|exact C]. pose proof (common_range nl ng cnv cv nbs CF _ _ _ _ Hc Hd C). lia.
Qed.

(** The search for the common side of two neighbours. *)
Lemma search_ok c d i j : c < ng -> d < ng -> c <> d -> common c i d j ->
  first_some (NumFaces (kind c)) 0 (fun iface =>
      do p <- all_present cnv cv c2f f2v (Z.of_nat c) (Z.of_nat d) iface;
      if p then do j <- corresponding cnv c2f f2v (Z.of_nat c) (Z.of_nat d) iface;
                Ok (match j with Some j => Some (iface, j) | None => None end)
      else Ok None) = Ok (Some (i, j)).
Proof.
  intros Hc Hd N C. destruct (common_range nl ng cnv cv nbs CF _ _ _ _ Hc Hd C) as [Hi Hj].
  apply first_some_at with (p := i).
  - unfold nf in Hi. lia.
  - intros q Hq. assert (Hq' : q < nf c) by lia.
    assert (X : forall k, ~ common c q d k).
    { intros k C'. destruct (cf_one _ _ _ _ _ CF _ _ _ _ _ _ Hc Hd N C C') as [E _]. lia. }
    destruct (all_present_ok c d q Hc Hd Hq') as [b [Eb _]]. rewrite Eb. cbn [bind]. destruct b; [|reflexivity].
    destruct (corresponding_ok c d q Hc Hd N Hq') as [r [Er [_ R]]]. rewrite Er, (R X). reflexivity.
  - destruct (all_present_ok c d i Hc Hd Hi) as [b [Eb Hb]]. rewrite Eb. cbn [bind]. rewrite (Hb j C).
    destruct (corresponding_ok c d i Hc Hd N Hi) as [r [Er [R _]]]. rewrite Er, (R j C). reflexivity.
Qed.
End Search.

Definition state (P : nat -> nat -> Prop) (st : table * table) : Prop :=
  exists g h, tab (fst st) 6 ng g /\ tab (snd st) 2 (6 * ng) h /\ paired P g h.

Lemma remove_pair_ok P f2v v c d z st : upward P -> columns v -> tab f2v 4 (6 * ng) v -> state P st ->
  Z.abs z = Z.of_nat d -> c < d -> d < ng -> adjacent cnv cv c d -> ~ P c d ->
  exists st', remove_pair cnv cv f2v (Z.of_nat c) z st = Ok st' /\ state (fun a b => P a b \/ (a = c /\ b = d)) st'.
Proof.
  intros U V Tv [g [h [Tg [Th Pa]]]] Ez Lcd Hd [i [j C]] NP. destruct st as [c2f f2c]. cbn [fst snd] in *.
  assert (Hc : c < ng) by lia. assert (N : c <> d) by lia.
  destruct (common_range nl ng cnv cv nbs CF _ _ _ _ Hc Hd C) as [Hi Hj].
  unfold remove_pair. rewrite Ez. cbv zeta. destruct (Z.leb_spec (Z.of_nat d) (Z.of_nat c)); [lia|].
  rewrite (kind_ok _ _ _ _ _ CF c Hc). cbn [bind].
  rewrite (search_ok P c2f f2v g h v U Pa V Tg Tv c d i j Hc Hd N C). cbn [bind].
  pose proof Pa as [A [B [F F2]]].
  assert (Gc : g i c = Z.of_nat (slot c i) /\ h 0 (slot c i) = Z.of_nat c).
  { destruct (A c i Hc Hi) as [[b [k [Hb [C' _]]]]|[_ R]]; [|exact R]. exfalso. destruct (U _ _ Hb) as [Lb _]. assert (Hb' : b < ng) by lia.
    destruct (mate_unique nl ng cnv cv nbs CF c i d j b k Hc Hd Hb' N ltac:(lia) C (common_sym _ _ _ _ _ _ C')) as [E _]. lia. }
  assert (Gd : g j d = Z.of_nat (slot d j) /\ h 0 (slot d j) = Z.of_nat d).
  { destruct (A d j Hd Hj) as [[b [k [Hb [C' _]]]]|[_ R]]; [|exact R]. exfalso. destruct (U _ _ Hb) as [Lb _]. assert (Hb' : b < ng) by lia.
    destruct (mate_unique nl ng cnv cv nbs CF d j c i b k Hd Hc Hb' ltac:(lia) ltac:(lia) (common_sym _ _ _ _ _ _ C) (common_sym _ _ _ _ _ _ C')) as [E _].
    subst b. contradiction. }
  destruct Gc as [Gc Hc0]. destruct Gd as [Gd Hd0]. pose proof (nf6 cnv c). pose proof (nf6 cnv d).
  pose proof (slot_bound6 ng cnv c i Hc Hi). pose proof (slot_bound6 ng cnv d j Hd Hj).
  rewrite (tab_rd _ _ _ _ i c Tg) by lia. rewrite Gc. cbn [bind]. rewrite (tab_rd _ _ _ _ j d Tg) by lia. rewrite Gd. cbn [bind].
  pose proof (slot_lt cnv c i d Lcd Hi j) as SL. destruct (Z.ltb_spec (Z.of_nat (slot c i)) (Z.of_nat (slot d j))); [|lia].
  destruct (tab_wr _ _ _ _ j d (Z.of_nat (slot c i)) Tg) as [t1 [E1 T1]]; [lia|lia|]. rewrite E1. cbn [bind].
  rewrite (tab_rd _ _ _ _ 0 (slot d j) Th) by lia. rewrite Hd0. cbn [bind].
  destruct (tab_wr _ _ _ _ 0 (slot d j) (- Z.of_nat d)%Z Th) as [t2 [E2 T2]]; [lia|lia|]. rewrite E2. cbn [bind].
  destruct (tab_wr _ _ _ _ 1 (slot c i) (Z.of_nat d) T2) as [t3 [E3 T3]]; [lia|lia|]. rewrite E3. cbn [bind].
  eexists; split; [reflexivity|]. cbn [fst snd]. eexists; eexists; split; [exact T1|]. split; [exact T3|].
  split; [|split; [|split]].
  - intros c' i' Hc' Hi'. rewrite put_other with (i := 1) by (left; lia).
    destruct (Nat.eq_dec (slot c' i') (slot d j)) as [E|E].
    + destruct (slot_inj cnv _ _ _ _ Hi' Hj E) as [-> ->]. rewrite !put_same. left. exists c, i.
      split; [right; split; reflexivity|]. split; [exact C|]. split; reflexivity.
    + assert (E' : i' <> j \/ c' <> d) by (destruct (Nat.eq_dec i' j); [right; congruence|left; assumption]).
      rewrite !put_other; [|right; exact E|exact E'].
      destruct (A c' i' Hc' Hi') as [[b [k [Hb R]]]|[Nb R]].
      * left. exists b, k. split; [left; exact Hb|exact R].
      * right. split; [|exact R]. intros b k [Hb|[-> ->]]; [apply Nb, Hb|]. intro C'.
        destruct (cf_one _ _ _ _ _ CF _ _ _ _ _ _ Hc Hd N C C') as [_ <-]. apply E. reflexivity.
  - intros c' i' Hc' Hi'. destruct (Nat.eq_dec (slot c' i') (slot c i)) as [E|E].
    + destruct (slot_inj cnv _ _ _ _ Hi' Hi E) as [-> ->]. rewrite put_same. left. exists d, j.
      split; [right; split; reflexivity|]. split; [exact C|reflexivity].
    + rewrite put_other by (right; exact E). rewrite put_other by (left; lia).
      destruct (B c' i' Hc' Hi') as [[b [k [Hb R]]]|[Nb R]].
      * left. exists b, k. split; [left; exact Hb|exact R].
      * right. split; [|exact R]. intros b k [Hb|[-> ->]]; [apply Nb, Hb|]. intro C'.
        destruct (cf_one _ _ _ _ _ CF _ _ _ _ _ _ Hc Hd N C C') as [<- _]. apply E. reflexivity.
  - intros f Hf. rewrite put_other by (left; lia). rewrite put_other; [apply F, Hf|].
    right. pose proof (slot_bound ng cnv d j Hd Hj). lia.
  - intros c' i' Hi'. rewrite put_other; [apply F2, Hi'|]. destruct (Nat.eq_dec c' d) as [->|Nc]; [left; lia|right; exact Nc].
Qed.

(** The pairs treated before the [k]-th neighbour of the cell [c0]. *)
Definition row (c : nat) : list Z := match nth_error nbs c with Some (n, r) => firstn n r | None => [] end.
Definition treated (c0 k a b : nat) : Prop :=
  a < b /\ b < ng /\ ((a < c0 /\ In (Z.of_nat b) (map Z.abs (row a))) \/ (a = c0 /\ In (Z.of_nat b) (map Z.abs (firstn k (row c0))))).
Lemma treated_upward c0 k : upward (treated c0 k).
Proof. intros b c [H1 [H2 _]]. split; assumption. Qed.

Lemma remove_duplicates_ok f2v v st : columns v -> tab f2v 4 (6 * ng) v -> state (fun _ _ => False) st ->
  exists st', remove_duplicates cnv cv nbs nl f2v st = Ok st' /\ state (treated nl 0) st'.
Proof.
  intros V Tv S0. unfold remove_duplicates. apply for_inv with (P := fun c st => state (treated c 0) st).
  - destruct S0 as [g [h [T1 [T2 Pa]]]]. exists g, h. split; [exact T1|]. split; [exact T2|]. eapply paired_iff; [|exact Pa].
    intros b c. split; [contradiction|]. intros [_ [_ [[H _]|[_ H]]]]; [lia|exact H].
  - intros c st1 Hc H1. destruct (rd_ok nbs c) as [[n r] [En Nn]]; [rewrite (cf_nbs _ _ _ _ _ CF); exact Hc|].
    rewrite En. cbn [bind fst snd]. destruct (cf_row _ _ _ _ _ CF c n r Nn) as [Ln [ND [Fm Adj]]].
    pose proof (cf_local _ _ _ _ _ CF) as Lg.
    assert (Er : row c = firstn n r) by (unfold row; rewrite Nn; reflexivity). assert (Lr : length (row c) = n) by (rewrite Er, firstn_length; lia).
    match goal with |- exists s', for_ n ?B st1 = Ok s' /\ _ => destruct (for_inv (fun k st => state (treated c k) st) B n st1) as [st2 [E2 H2]] end.
    + exact H1.
    + intros k st3 Hk H3. destruct (rd_ok r k) as [z [Ez Nz]]; [lia|]. rewrite Ez. cbn [bind].
      assert (Nz' : nth_error (row c) k = Some z).
      { rewrite Er. rewrite <- (firstn_skipn n r) in Nz. rewrite nth_error_app1 in Nz; [exact Nz|]. rewrite firstn_length. lia. }
      assert (Iz : In z (firstn n r)) by (rewrite <- Er; apply (nth_error_In _ _ Nz')).
      set (d := Z.to_nat (Z.abs z)). assert (Ed : Z.abs z = Z.of_nat d) by (unfold d; rewrite Z2Nat.id; [reflexivity|apply Z.abs_nonneg]).
      assert (Hd : d < ng) by (destruct (Fm z Iz) as [Q|Q]; lia).
      assert (St : forall a b, treated c (S k) a b <-> (treated c k a b \/ (a < b /\ a = c /\ b = d))).
      { intros a b. unfold treated. assert (FS : firstn (S k) (row c) = firstn k (row c) ++ [z]).
        { clear - Nz'. revert k Nz'. generalize (row c). intro l. induction l as [|y l IH]; intros [|k] H; simpl in *; try discriminate; [congruence|].
          f_equal. apply IH, H. }
        rewrite FS, map_app, in_app_iff. cbn [map In]. rewrite Ed. split.
        - intros [L1 [L2 [L3|[L3 [L4|[L4|[]]]]]]]; [left; split; [exact L1|]; split; [exact L2|]; left; exact L3
            |left; split; [exact L1|]; split; [exact L2|]; right; split; assumption
            |right; split; [exact L1|]; split; [exact L3|lia]].
        - intros [[L1 [L2 [L3|[L3 L4]]]]|[L1 [L2 L3]]]; [split; [exact L1|]; split; [exact L2|]; left; exact L3
            |split; [exact L1|]; split; [exact L2|]; right; split; [exact L3|left; exact L4]
            |split; [exact L1|]; split; [lia|]; right; split; [exact L2|right; left; lia]]. }
      destruct (Nat.lt_ge_cases c d) as [Lt|Ge].
      * assert (Ad : adjacent cnv cv c d).
        { apply (Adj d Hd). rewrite <- Ed. apply in_map, Iz. }
        assert (NT : ~ treated c k c d).
        { intros [_ [_ [[Q _]|[_ Q]]]]; [lia|]. rewrite <- Er in ND. rewrite <- (firstn_skipn k (row c)), map_app in ND.
          assert (SK : exists l, skipn k (row c) = z :: l).
          { clear - Nz'. revert k Nz'. generalize (row c). intro l. induction l as [|y l IH]; intros [|k] H; simpl in *; try discriminate.
            - injection H as ->. exists l. reflexivity.
            - apply IH, H. }
          destruct SK as [l SK]. rewrite SK in ND. cbn [map] in ND. apply NoDup_remove_2 in ND. apply ND. apply in_or_app. left. rewrite Ed. exact Q. }
        destruct (remove_pair_ok (treated c k) f2v v c d z st3 (treated_upward c k) V Tv H3 Ed Lt Hd Ad NT) as [st4 [E4 H4]].
        exists st4. split; [exact E4|]. destruct H4 as [g [h [T1 [T2 Pa]]]]. exists g, h. split; [exact T1|]. split; [exact T2|].
        eapply paired_iff; [|exact Pa]. intros a b. rewrite St. split; [intros [Q|[-> ->]]; [left; exact Q|right; split; [exact Lt|split; reflexivity]]|].
        intros [Q|[_ Q]]; [left; exact Q|right; exact Q].
      * unfold remove_pair. destruct st3 as [t1 t2]. cbv zeta. rewrite Ed. destruct (Z.leb_spec (Z.of_nat d) (Z.of_nat c)); [|lia].
        eexists; split; [reflexivity|]. destruct H3 as [g [h [T1 [T2 Pa]]]]. exists g, h. split; [exact T1|]. split; [exact T2|].
        eapply paired_iff; [|exact Pa]. intros a b. rewrite St. split; [intro Q; left; exact Q|]. intros [Q|[Q1 [-> ->]]]; [exact Q|lia].
    + exists st2. split; [exact E2|]. destruct H2 as [g [h [T1 [T2 Pa]]]]. exists g, h. split; [exact T1|]. split; [exact T2|].
      eapply paired_iff; [|exact Pa]. intros a b. unfold treated.
      assert (FA : firstn n (row c) = row c) by (rewrite <- Lr; apply firstn_all). rewrite FA. split.
      * intros [L1 [L2 [[L3 L4]|[-> L4]]]]; (split; [exact L1|]; split; [exact L2|]; left; split; [lia|exact L4]).
      * intros [L1 [L2 [[L3 L4]|[_ []]]]]. split; [exact L1|]. split; [exact L2|]. destruct (Nat.eq_dec a c) as [->|Na]; [right|left]; (split; [lia|exact L4]).
Qed.

(** In the end: all pairs of neighbouring cells, one of them local. *)
Lemma treated_all a b : treated nl 0 a b <-> a < nl /\ a < b /\ b < ng /\ adjacent cnv cv a b.
Proof.
  unfold treated. split.
  - intros [L1 [L2 [[L3 L4]|[_ []]]]]. split; [exact L3|]. split; [exact L1|]. split; [exact L2|].
    unfold row in L4. destruct (nth_error nbs a) as [[n r]|] eqn:E; [|destruct L4].
    apply (cf_row _ _ _ _ _ CF a n r E) in L4; [apply L4|exact L2].
  - intros [L1 [L2 [L3 L4]]]. split; [exact L2|]. split; [exact L3|]. left. split; [exact L1|].
    destruct (nth_error nbs a) as [[n r]|] eqn:E; [|apply nth_error_None in E; rewrite (cf_nbs _ _ _ _ _ CF) in E; lia].
    unfold row. rewrite E. apply (cf_row _ _ _ _ _ CF a n r E); [exact L3|]. split; [lia|exact L4].
Qed.
End Mesh.
