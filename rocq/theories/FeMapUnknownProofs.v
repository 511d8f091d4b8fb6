(** Proofs about the numbers of the velocity unknowns. *)
From Coq Require Import Reals List ZArith Bool Arith Lia Lra.
From Verif Require Import Prelude Arrays FeMap SpecFeMap FeMapProofs.
Import ListNotations.
Local Open Scope nat_scope.

Lemma uniform_all : forall n l, (n <> -1)%Z -> (forall x, In x l -> x = n) -> uniform n l = n.
Proof.
  intros n l Hn. induction l as [|x l IH]; intro H; simpl; [reflexivity|].
  apply Z.eqb_neq in Hn. rewrite Hn. rewrite (H x (or_introl eq_refl)), Z.eqb_refl. apply IH. intros y Hy. apply H. right. exact Hy.
Qed.
Lemma uniform_count : forall n l, (n <> -1)%Z -> l <> [] -> (forall x, In x l -> x = n) -> uniform (-1) l = n.
Proof.
  intros n [|x l] Hn Hl H; [destruct (Hl eq_refl)|]. simpl. rewrite Z.eqb_refl.
  rewrite (H x (or_introl eq_refl)). apply uniform_all; [exact Hn|]. intros y Hy. apply H. right. exact Hy.
Qed.

(** ** Filling a row *)
Lemma row_ok : forall base l i (a : list nat), base + i + length l <= length a ->
  exists a', each l (fun p (s : nat * list nat) => do a <- wr (snd s) (base + fst s) p; Ok (S (fst s), a)) (i, a) = Ok (i + length l, a')
    /\ length a' = length a
    /\ (forall j x, nth_error l j = Some x -> nth_error a' (base + i + j) = Some x)
    /\ (forall k, k < base + i \/ base + i + length l <= k -> nth_error a' k = nth_error a k).
Proof.
  intros base l. induction l as [|x l IH]; intros i a H; simpl in *.
  - exists a. rewrite Nat.add_0_r. split; [reflexivity|]. split; [reflexivity|]. split; [intros [|j] x; discriminate|reflexivity].
  - rewrite wr_ok by lia. cbn [bind]. destruct (IH (S i) (upd a (base + i) x)) as [a' [E [L [H1 H2]]]]; [rewrite length_upd; lia|].
    exists a'. rewrite E. rewrite length_upd in L. split; [f_equal; f_equal; lia|]. split; [exact L|]. split.
    + intros [|j] y Hy; simpl in Hy.
      * injection Hy as <-. rewrite Nat.add_0_r, H2 by lia. apply nth_upd_same. lia.
      * rewrite <- (H1 j y Hy). f_equal. lia.
    + intros k Hk. rewrite H2 by lia. apply nth_upd_other. lia.
Qed.

Lemma pow_pos : forall n, 0 < 2 ^ n. Proof. intro n. pose proof (Nat.pow_nonzero 2 n). lia. Qed.

Section mesh.
Variables (m : plex) (corner : nat -> nat -> nat) (wall : nat -> nat -> bool -> nat).
Hypothesis B : boxes m corner wall.
Hypothesis SF : square_faces m.
Let dim := p_dim m.
Let nv := 2 ^ dim.
Let nfv := 2 ^ (dim - 1).
Let faces := p_fEnd m - p_fStart m.

Definition fmap_ok (a : list nat) : Prop :=
  length a = nfv * faces /\ forall k i p, k < faces -> nth_error (vertices_of m (p_fStart m + k)) i = Some p -> nth_error a (nfv * k + i) = Some p.
Lemma fmap_proof : exists a, CreateFaceVertexMap m nfv = Ok a /\ fmap_ok a.
Proof.
  unfold CreateFaceVertexMap. fold faces.
  match goal with |- exists a, for_ _ ?b ?s = _ /\ _ =>
    destruct (for_inv (fun n a => length a = nfv * faces /\ forall k i p, k < n -> nth_error (vertices_of m (p_fStart m + k)) i = Some p -> nth_error a (nfv * k + i) = Some p)
      b faces s) as [a [E H]] end.
  - split; [apply repeat_length|]. intros; lia.
  - intros k a Hk [La Ha]. destruct (SF (p_fStart m + k)) as [_ SL]; [unfold faces in Hk; lia|]. fold dim nfv in SL.
    fold (vertices_of m (p_fStart m + k)).
    destruct (row_ok (nfv * k) (vertices_of m (p_fStart m + k)) 0 a) as [a' [E [L [H1 H2]]]]; [rewrite La, SL; nia|].
    rewrite E. cbn [bind snd]. exists a'. split; [reflexivity|]. split; [congruence|].
    intros k' i p Hk' Hp. rewrite Nat.add_0_r in H1, H2. destruct (Nat.eq_dec k' k) as [->|Hne]; [apply H1; exact Hp|].
    assert (Hi : i < nfv).
    { destruct (SF (p_fStart m + k')) as [_ SL']; [unfold faces in Hk; lia|]. fold dim nfv in SL'. rewrite <- SL'. exact (nth_lt _ _ _ Hp). }
    rewrite H2 by nia. apply Ha; [lia|exact Hp].
  - exists a. split; [exact E|exact H].
Qed.

(** ** One unknown *)
Section maps.
Variables (vmap : list nat) (emap : list Z) (fmap : list nat) (start : nat -> Z).
Hypothesis HV : vmap_ok m corner vmap.
Hypothesis HE : emap_ok m wall emap.
Hypothesis HF : fmap_ok fmap.
Let nlocal := dim * nv + 1.
Definition lpos (c v d : nat) : nat := c * nlocal + v * dim + d.

Lemma owned_first : forall s, owned_start s = first_unknown s.
Proof. intro s. unfold owned_start, first_unknown. destruct (Z.ltb_spec s 0); lia. Qed.
Lemma wall_face : forall c v d, c < p_cells m -> d < dim -> p_fStart m <= wall_of wall c v d < p_fEnd m.
Proof.
  intros c v d Hc Hd. destruct (bx_wall _ _ _ B c d (Nat.testbit v d) Hc Hd) as [_ H]. unfold is_face in H.
  apply andb_prop in H. destruct H as [H1 H2]. apply Nat.leb_le in H1. apply Nat.ltb_lt in H2. split; assumption.
Qed.
Lemma value_abs : forall c f, Z.abs (value m c f) = Z.of_nat f.
Proof. intros c f. unfold value. destruct (Rlt_dec _ _); lia. Qed.
Lemma fold_plus : forall (f : nat -> R) z l, fold_right (fun k s => (f k + s)%R) z l = (fold_right (fun k s => (f k + s)%R) 0%R l + z)%R.
Proof. intros f z l. induction l as [|k l IH]; simpl; [lra|]. rewrite IH. lra. Qed.
Lemma dot_fold : forall n a b, dot n a b = fold_right (fun k s => (a k * b k + s)%R) 0%R (seq 0 n).
Proof.
  intros n a b. induction n as [|n IH]; [reflexivity|]. rewrite seq_S, fold_right_app. cbn [fold_right dot].
  rewrite (fold_plus (fun k => (a k * b k)%R)), IH. cbn. lra.
Qed.
Lemma value_denotes : forall c f, 0 < f -> denotes m c f (value m c f).
Proof.
  intros c f Hf. unfold denotes, outward. split; [apply value_abs|]. unfold value, ADotBMinusC. rewrite dot_fold.
  destruct (Rlt_dec _ _) as [L|L]; split; intro H; try lia; exfalso; [|apply H]; lra.
Qed.

Lemma corner_in : forall c v d, c < p_cells m -> v < nv -> d < dim -> exists i, i < nfv /\ nth_error (vertices_of m (wall_of wall c v d)) i = Some (corner c v).
Proof.
  intros c v d Hc Hv Hd. destruct (wall_corners m corner wall B c v d Hc Hv Hd) as [H _].
  assert (I : In (corner c v) (vertices_of m (wall_of wall c v d))) by (apply filter_In; split; [exact H|apply (bx_corner _ _ _ B c v Hc Hv)]).
  apply In_nth_error in I. destruct I as [i Hi]. exists i. split; [|exact Hi].
  destruct (SF _ (wall_face c v d Hc Hd)) as [_ L]. fold dim nfv in L. rewrite <- L. exact (nth_lt _ _ _ Hi).
Qed.

Lemma unknown_ok : forall c v d L W, c < p_cells m -> v < nv -> d < dim -> lpos c v d < length L -> lpos c v d < length W ->
  exists i, nth_error (vertices_of m (wall_of wall c v d)) i = Some (corner c v)
    /\ BDMUnknown m start nv nfv vmap emap fmap c v d (L, W)
       = Ok (upd L (lpos c v d) (first_unknown (start (wall_of wall c v d)) + Z.of_nat i)%Z,
             upd W (lpos c v d) (PetscSign (value m c (wall_of wall c v d)))).
Proof.
  intros c v d L W Hc Hv Hd HL HW. destruct (corner_in c v d Hc Hv Hd) as [i [Hi Ei]]. exists i. split; [exact Ei|].
  unfold BDMUnknown. fold dim nlocal. 
  assert (RE : rd emap (c * nv * dim + v * dim + d) = Ok (value m c (wall_of wall c v d))) by exact (rd_some _ _ _ (proj2 HE c v d Hc Hv Hd)).
  assert (RV : rd vmap (nv * c + v) = Ok (corner c v)) by (rewrite (Nat.mul_comm nv c); exact (rd_some _ _ _ (proj2 HV c v Hc Hv))).
  rewrite RE. cbn [bind].
  rewrite value_abs, Nat2Z.id. pose proof (wall_face c v d Hc Hd) as Hw. set (f := wall_of wall c v d) in *.
  assert (X : f <? p_fStart m = false) by (apply Nat.ltb_ge; lia). rewrite X. fold (lpos c v d).
  destruct (SF f Hw) as [SN SL]. fold dim nfv in SL.
  match goal with |- context [for_ nfv ?b ?s] =>
    destruct (for_inv (fun n r => (i < n -> r = (true, (upd L (lpos c v d) (owned_start (start f) + Z.of_nat i)%Z, upd W (lpos c v d) (PetscSign (value m c f)))))
                               /\ (n <= i -> r = (false, (L, W)))) b nfv s) as [r [E [H1 H2]]] end.
  - split; [lia|reflexivity].
  - intros n r Hn [H1 H2]. rewrite RV. cbn [bind].
    assert (Y : exists p, nth_error (vertices_of m f) n = Some p).
    { destruct (nth_error (vertices_of m f) n) eqn:Q; [eexists; reflexivity|]. apply nth_error_None in Q. lia. }
    destruct Y as [p Hp]. assert (Z : nth_error fmap (nfv * (f - p_fStart m) + n) = Some p).
    { apply (proj2 HF); [unfold faces; lia|]. replace (p_fStart m + (f - p_fStart m)) with f by lia. exact Hp. }
    rewrite (rd_some _ _ _ Z). cbn [bind]. destruct (corner c v =? p) eqn:Ep.
    + apply Nat.eqb_eq in Ep. subst p. assert (n = i).
      { rewrite NoDup_nth_error in SN. apply SN; [rewrite SL; exact Hn|]. congruence. }
      subst n. rewrite (H2 (le_n _)). cbn [fst snd]. rewrite wr_ok by exact HL. cbn [bind]. rewrite wr_ok by exact HW. cbn [bind].
      eexists. split; [reflexivity|]. split; [reflexivity|lia].
    + apply Nat.eqb_neq in Ep. assert (n <> i) by (intros ->; congruence). exists r. split; [reflexivity|]. split; intro; [apply H1; lia|apply H2; lia].
  - rewrite E. cbn [bind]. rewrite (H1 Hi). cbn [fst snd]. rewrite owned_first. reflexivity.
Qed.

(** ** All unknowns *)
Lemma lpos_inj : forall c v d c' v' d', v < nv -> v' < nv -> d < dim -> d' < dim -> lpos c v d = lpos c' v' d' -> c = c' /\ v = v' /\ d = d'.
Proof. intros c v d c' v' d'. unfold lpos, nlocal, nv. destruct (Hdim m corner wall B) as [E|E]; fold dim in E; rewrite E; simpl; lia. Qed.
Lemma lpos_lt : forall c v d, c < p_cells m -> v < nv -> d < dim -> lpos c v d < p_cells m * nlocal.
Proof. intros c v d. unfold lpos, nlocal, nv. destruct (Hdim m corner wall B) as [E|E]; fold dim in E; rewrite E; simpl; lia. Qed.
Lemma lpos_cell : forall c v d c', v < nv -> d < dim -> lpos c v d <> (c' + 1) * nlocal - 1.
Proof. intros c v d c'. unfold lpos, nlocal, nv. destruct (Hdim m corner wall B) as [E|E]; fold dim in E; rewrite E; simpl; lia. Qed.
Lemma cell_lt : forall c, c < p_cells m -> (c + 1) * nlocal - 1 < p_cells m * nlocal.
Proof. intros c. unfold nlocal, nv. destruct (Hdim m corner wall B) as [E|E]; fold dim in E; rewrite E; simpl; lia. Qed.
Lemma cell_inj : forall c c', (c + 1) * nlocal - 1 = (c' + 1) * nlocal - 1 -> c = c'.
Proof. intros c c'. unfold nlocal, nv. destruct (Hdim m corner wall B) as [E|E]; fold dim in E; rewrite E; simpl; lia. Qed.

Definition sizes (s : list Z * list Z) : Prop := length (fst s) = p_cells m * nlocal /\ length (snd s) = p_cells m * nlocal.
Definition numbered (c v d : nat) (s : list Z * list Z) : Prop :=
  (exists i, nth_error (vertices_of m (wall_of wall c v d)) i = Some (corner c v)
     /\ nth_error (fst s) (lpos c v d) = Some (first_unknown (start (wall_of wall c v d)) + Z.of_nat i)%Z)
  /\ nth_error (snd s) (lpos c v d) = Some (PetscSign (value m c (wall_of wall c v d))).
Definition celled (c : nat) (s : list Z * list Z) : Prop := nth_error (fst s) ((c + 1) * nlocal - 1) = Some (first_unknown (start c)).
Definition done (c : nat) (s : list Z * list Z) : Prop := celled c s /\ forall v d, v < nv -> d < dim -> numbered c v d s.

(** Changing only entries of (c, v, d). *)
Lemma unknown_keeps : forall c v d s, c < p_cells m -> v < nv -> d < dim -> sizes s ->
  exists s', BDMUnknown m start nv nfv vmap emap fmap c v d s = Ok s' /\ sizes s' /\ numbered c v d s'
    /\ (forall c' v' d', v' < nv -> d' < dim -> numbered c' v' d' s -> numbered c' v' d' s')
    /\ (forall c', celled c' s -> celled c' s').
Proof.
  intros c v d [L W] Hc Hv Hd [HL HW]. cbn [fst snd] in HL, HW. pose proof (lpos_lt c v d Hc Hv Hd) as Hp.
  destruct (unknown_ok c v d L W Hc Hv Hd) as [i [Ei E]]; [lia|lia|]. eexists. split; [exact E|].
  unfold sizes. cbn [fst snd]. rewrite !length_upd. split; [split; assumption|].
  assert (N : numbered c v d (upd L (lpos c v d) (first_unknown (start (wall_of wall c v d)) + Z.of_nat i)%Z,
             upd W (lpos c v d) (PetscSign (value m c (wall_of wall c v d))))).
  { split; cbn [fst snd]; [exists i; split; [exact Ei|]|]; apply nth_upd_same; lia. }
  split; [exact N|]. split.
  - intros c' v' d' Hv' Hd' H. destruct (Nat.eq_dec (lpos c v d) (lpos c' v' d')) as [X|X].
    + destruct (lpos_inj _ _ _ _ _ _ Hv Hv' Hd Hd' X) as [<- [<- <-]]. exact N.
    + unfold numbered in *. cbn [fst snd] in *. rewrite !nth_upd_other by exact X. exact H.
  - intros c' H. unfold celled in *. cbn [fst snd] in *. rewrite nth_upd_other; [exact H|]. apply lpos_cell; assumption.
Qed.

Lemma numbering_proof : exists s, BDMNumbering m start nv nfv vmap emap fmap = Ok s /\ sizes s /\ forall c, c < p_cells m -> done c s.
Proof.
  unfold BDMNumbering. fold dim nlocal.
  match goal with |- exists s, for_ _ ?b ?s0 = _ /\ _ =>
    destruct (for_inv (fun n s => sizes s /\ forall c, c < n -> done c s) b (p_cells m) s0) as [s [E H]] end.
  - split; [split; apply repeat_length|]. intros; lia.
  - intros c [L W] Hc [[HL HW] Hs]. cbn [fst snd] in *. rewrite owned_first.
    assert (Hp : (c + 1) * nlocal - 1 < length L) by (rewrite HL; apply cell_lt; exact Hc).
    rewrite wr_ok by exact Hp. cbn [bind]. set (L' := upd L ((c + 1) * nlocal - 1) (first_unknown (start c))).
    assert (S0 : sizes (L', W)) by (split; cbn [fst snd]; unfold L'; [rewrite length_upd|]; assumption).
    assert (C0 : celled c (L', W)) by (unfold celled, L'; cbn [fst]; apply nth_upd_same; exact Hp).
    assert (D0 : forall c', c' < c -> done c' (L', W)).
    { intros c' Hc'. destruct (Hs c' Hc') as [D1 D2]. split.
      - unfold celled, L' in *. cbn [fst] in *. rewrite nth_upd_other; [exact D1|]. intro X. apply cell_inj in X. lia.
      - intros v d Hv Hd. specialize (D2 v d Hv Hd). unfold numbered, L' in *. cbn [fst snd] in *.
        rewrite nth_upd_other; [exact D2|]. intro X. symmetry in X. exact (lpos_cell c' v d c Hv Hd X). }
    match goal with |- exists s', for_ _ ?b ?s0 = _ /\ _ =>
      destruct (for_inv (fun n s => sizes s /\ (forall c', c' < c -> done c' s) /\ celled c s /\ forall v d, v < n -> d < dim -> numbered c v d s) b nv s0)
        as [s1 [E1 [S1 [D1 [C1 N1]]]]] end.
    + split; [exact S0|]. split; [exact D0|]. split; [exact C0|]. intros; lia.
    + intros v s Hv [Ss [Ds [Cs Ns]]].
      match goal with |- exists s', for_ _ ?b ?s0 = _ /\ _ =>
        destruct (for_inv (fun n s => sizes s /\ (forall c', c' < c -> done c' s) /\ celled c s /\ (forall v' d, v' < v -> d < dim -> numbered c v' d s)
             /\ forall d, d < n -> numbered c v d s) b dim s0) as [s2 [E2 [S2 [D2 [C2 [N2 M2]]]]]] end.
      * split; [exact Ss|]. split; [exact Ds|]. split; [exact Cs|]. split; [exact Ns|]. intros; lia.
      * intros d t Hd [St [Dt [Ct [Nt Mt]]]]. destruct (unknown_keeps c v d t Hc Hv Hd St) as [t' [Et [St' [N0 [K1 K2]]]]].
        exists t'. split; [exact Et|]. split; [exact St'|]. split; [|split; [|split]].
        -- intros c' Hc'. destruct (Dt c' Hc') as [X Y]. split; [apply K2; exact X|]. intros v' d' Hv' Hd'. apply K1; [assumption|assumption|apply Y; assumption].
        -- apply K2. exact Ct.
        -- intros v' d' Hv' Hd'. apply K1; [lia|assumption|apply Nt; assumption].
        -- intros d' Hd'. destruct (Nat.eq_dec d' d) as [->|Hne]; [exact N0|]. apply K1; [assumption|lia|]. apply Mt. lia.
      * exists s2. split; [exact E2|]. split; [exact S2|]. split; [exact D2|]. split; [exact C2|].
        intros v' d Hv' Hd. destruct (Nat.eq_dec v' v) as [->|Hne]; [apply M2; exact Hd|apply N2; [lia|exact Hd]].
    + exists s1. split; [exact E1|]. split; [exact S1|]. intros c' Hc'. destruct (Nat.eq_dec c' c) as [->|Hne].
      * split; assumption.
      * apply D1. lia.
  - exists s. split; [exact E|exact H].
Qed.
End maps.

Lemma counts : 0 < p_cells m -> NumberOfCellVertices m = Z.of_nat nv /\ NumberOfFaceVertices m = Z.of_nat nfv.
Proof.
  intro H. split.
  - unfold NumberOfCellVertices. apply uniform_count; [lia| |].
    + destruct (p_cells m); [lia|]. discriminate.
    + intros x Hx. apply in_map_iff in Hx. destruct Hx as [c [<- Hc]]. apply in_seq in Hc. unfold count_vertices.
      fold (vertices_of m c). rewrite (bx_count _ _ _ B c) by lia. reflexivity.
  - pose proof (Hdim m corner wall B) as D. fold dim in D. pose proof (wall_face 0 0 0 H ltac:(lia)) as Hf. unfold NumberOfFaceVertices. apply uniform_count; [lia| |].
    + destruct (p_fEnd m - p_fStart m) eqn:X; [lia|]. discriminate.
    + intros x Hx. apply in_map_iff in Hx. destruct Hx as [f [<- Hx]]. apply in_seq in Hx. unfold count_vertices.
      fold (vertices_of m f). destruct (SF f) as [_ ->]; [lia|]. reflexivity.
Qed.

Lemma maps_proof : forall start, 0 < p_cells m -> exists vmap emap L W, BDMMaps m start = Ok (vmap, emap, (L, W)) /\
  forall c, c < p_cells m -> nth_error L (c * (dim * nv + 1) + dim * nv) = Some (first_unknown (start c)) /\
  forall v, v < nv -> nth_error vmap (c * nv + v) = Some (corner c v) /\
  forall d, d < dim -> exists z i, nth_error emap (c * nv * dim + v * dim + d) = Some z /\ denotes m c (wall_of wall c v d) z /\
    nth_error (vertices_of m (wall_of wall c v d)) i = Some (corner c v) /\
    nth_error L (c * (dim * nv + 1) + v * dim + d) = Some (first_unknown (start (wall_of wall c v d)) + Z.of_nat i)%Z /\
    nth_error W (c * (dim * nv + 1) + v * dim + d) = Some (Z.sgn z).
Proof.
  intros start H0. destruct (counts H0) as [C1 C2]. unfold BDMMaps. rewrite C1, C2, !Nat2Z.id.
  destruct (vmap_proof m corner wall B) as [vmap [E1 HV]]. fold dim nv in E1. rewrite E1. cbn [bind].
  destruct (emap_proof m corner wall B vmap HV) as [emap [E2 HE]]. fold dim nv in E2. rewrite E2. cbn [bind].
  destruct fmap_proof as [fmap [E3 HF]]. rewrite E3. cbn [bind].
  destruct (numbering_proof vmap emap fmap start HV HE HF) as [[L W] [E4 [S4 D4]]]. rewrite E4. cbn [bind].
  exists vmap, emap, L, W. split; [reflexivity|]. intros c Hc. destruct (D4 c Hc) as [D1 D2]. split.
  - unfold celled in D1. cbn [fst] in D1. rewrite <- D1. f_equal. lia.
  - intros v Hv. split; [exact (proj2 HV c v Hc Hv)|]. intros d Hd. destruct (D2 v d Hv Hd) as [[i [Hi Li]] Wi]. cbn [fst snd] in *.
    exists (value m c (wall_of wall c v d)), i. split; [exact (proj2 HE c v d Hc Hv Hd)|]. split; [|split; [exact Hi|split; [exact Li|]]].
    + apply value_denotes. pose proof (wall_face c v d Hc Hd). pose proof (bx_points _ _ _ B). lia.
    + unfold lpos in Wi. rewrite Wi. f_equal. unfold PetscSign. destruct (value m c (wall_of wall c v d)); reflexivity.
Qed.

(** Two local unknowns are the same if and only if face and vertex are the same. *)
Lemma shared_proof : forall start c v d c' v' d' i i', own_ranges m start -> c < p_cells m -> c' < p_cells m -> v < nv -> v' < nv -> d < dim -> d' < dim ->
  nth_error (vertices_of m (wall_of wall c v d)) i = Some (corner c v) ->
  nth_error (vertices_of m (wall_of wall c' v' d')) i' = Some (corner c' v') ->
  ((first_unknown (start (wall_of wall c v d)) + Z.of_nat i = first_unknown (start (wall_of wall c' v' d')) + Z.of_nat i')%Z
   <-> wall_of wall c v d = wall_of wall c' v' d' /\ corner c v = corner c' v')
  /\ forall k, k < p_cells m -> (first_unknown (start (wall_of wall c v d)) + Z.of_nat i <> first_unknown (start k))%Z.
Proof.
  intros start c v d c' v' d' i i' [R0 R] Hc Hc' Hv Hv' Hd Hd' Hi Hi'.
  destruct (SF _ (wall_face c v d Hc Hd)) as [N1 L1]. destruct (SF _ (wall_face c' v' d' Hc' Hd')) as [N2 L2]. fold dim nfv in L1, L2.
  pose proof (nth_lt _ _ _ Hi) as Bi. pose proof (nth_lt _ _ _ Hi') as Bi'. rewrite L1 in Bi. rewrite L2 in Bi'.
  assert (F1 : is_face m (wall_of wall c v d) = true) by (apply (bx_wall _ _ _ B c d _ Hc Hd)).
  assert (F2 : is_face m (wall_of wall c' v' d') = true) by (apply (bx_wall _ _ _ B c' d' _ Hc' Hd')).
  split; [split|].
  - intro E. destruct (Nat.eq_dec (wall_of wall c v d) (wall_of wall c' v' d')) as [X|X].
    + split; [exact X|]. rewrite X in *. assert (i = i') by lia. congruence.
    + exfalso. destruct (R _ _ (or_intror F1) (or_intror F2) X) as [H|H]; unfold size_of in H; [rewrite F1 in H|rewrite F2 in H]; fold dim nfv in H; lia.
  - intros [X Y]. rewrite X in *. rewrite Y in Hi. rewrite NoDup_nth_error in N1. rewrite (N1 i i'); [reflexivity|lia|congruence].
  - intros k Hk E. assert (X : wall_of wall c v d <> k) by (intros X; rewrite X in F1; rewrite (R0 k Hk) in F1; discriminate).
    destruct (R _ _ (or_intror F1) (or_introl Hk) X) as [H|H]; unfold size_of in H; [rewrite F1 in H|rewrite (R0 k Hk) in H]; fold dim nfv in H; lia.
Qed.
End mesh.
