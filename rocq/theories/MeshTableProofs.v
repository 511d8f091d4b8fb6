(** Proofs about the tables of the mesh after their conversion. *)
From Coq Require Import List ZArith Bool Arith Lia.
From Verif Require Import Prelude Arrays Mesh SpecMesh MeshProofs MeshConnProofs MeshFaceProofs.
Import ListNotations.
Local Open Scope nat_scope.

(** A full set of offsets, and one without its last entry, are good enough for the
    conversion. *)
Lemma offsets_ok : forall n d, exists off, offsets n d = Ok off /\ length off = S n /\
  forall k, k < n -> nth_error off k = Some (Z.of_nat (k * d)).
Proof.
  intros n d. destruct (set_offsets_ok (S n) n d (le_n _)) as [off [E [H1 H2]]]. exists off. split; [exact E|]. split; [exact H1|].
  intros k Hk. rewrite H2 by lia. destruct (Nat.ltb_spec k (S n)); [reflexivity|lia].
Qed.
Lemma face_offsets_ok : forall n d, exists off, face_offsets n d = Ok off /\ length off = S n /\
  (forall k, k < n -> nth_error off k = Some (Z.of_nat (k * d))) /\ nth_error off n = Some (-1)%Z.
Proof.
  intros n d. destruct (set_offsets_ok n n d (Nat.le_succ_diag_r n)) as [off [E [H1 H2]]]. exists off. split; [exact E|]. split; [exact H1|].
  split.
  - intros k Hk. rewrite H2 by lia. destruct (Nat.ltb_spec k n); [reflexivity|lia].
  - rewrite H2 by lia. rewrite Nat.ltb_irrefl. reflexivity.
Qed.

(** The rows of a table given by a function of the row number. *)
Definition family (n : nat) (l : nat -> list Z) : list (list Z) := map l (seq 0 n).
Lemma nth_family : forall n l i, i < n -> nth_error (family n l) i = Some (l i).
Proof.
  intros n l i H. unfold family. rewrite nth_error_map, (nth_error_nth' (seq 0 n) 0) by (rewrite seq_length; exact H).
  rewrite seq_nth by exact H. reflexivity.
Qed.
Lemma family_rows : forall n d ids l, (forall i, i < n -> length (l i) <= d /\ holds d (length (l i)) ids i (map Z.to_nat (l i)) /\ (forall x, In x (l i) -> (0 <= x)%Z)) ->
  rows d ids (family n l).
Proof.
  intros n d ids l H i li Hi. assert (Hn : i < n).
  { pose proof (nth_lt _ _ _ Hi) as G. unfold family in G. rewrite map_length, seq_length in G. exact G. }
  rewrite (nth_family n l i Hn) in Hi. inversion Hi; subst li. destruct (H i Hn) as [H1 [H2 H3]]. split; [exact H1|].
  intros j v Hv. rewrite (H2 j (nth_lt _ _ _ Hv)). f_equal.
  rewrite map_map. apply nth_error_nth. rewrite nth_error_map, Hv. simpl. f_equal. apply Z2Nat.id. apply H3. exact (nth_error_In _ _ Hv).
Qed.
Lemma family_counts : forall n l num, length num = n -> (forall i, i < n -> nth_error num i = Some (length (l i))) ->
  map (@length Z) (family n l) = num.
Proof.
  intros n l num Hl H. apply nth_error_ext. intro i. destruct (Nat.lt_ge_cases i n) as [Hi|Hi].
  - rewrite nth_error_map, (nth_family n l i Hi), (H i Hi). reflexivity.
  - rewrite (proj2 (nth_error_None num i)) by lia. apply nth_error_None. unfold family. rewrite !map_length, seq_length. lia.
Qed.
Lemma zs_nonneg : forall l x, In x (zs l) -> (0 <= x)%Z.
Proof. intros l x H. unfold zs in H. apply in_map_iff in H. destruct H as [n [<- _]]. lia. Qed.
Lemma zs_back : forall l, map Z.to_nat (zs l) = l.
Proof. intro l. unfold zs. rewrite map_map. rewrite <- (map_id l) at 2. apply map_ext. intro n. apply Nat2Z.id. Qed.
Lemma zs_length : forall l, length (zs l) = length l.
Proof. intro l. apply map_length. Qed.

(** A table whose rows are lists of numbers. *)
Lemma family_table : forall n d off ids num (l : nat -> list nat), 0 < n -> length ids = n * d -> length num = n ->
  length off = S n -> (forall k, k < n -> nth_error off k = Some (Z.of_nat (k * d))) ->
  (forall i, i < n -> length (l i) <= d /\ holds d (length (l i)) ids i (l i) /\ nth_error num i = Some (length (l i))) ->
  exists off' ids', convert (-1)%Z n d true num off ids = Ok (off', ids') /\ forall i, i < n -> get_ids off' ids' i = Ok (zs (l i)).
Proof.
  intros n d off ids num l Hn Hlen Hnum Hol Ho Hl.
  set (L := family n (fun i => zs (l i))).
  assert (HL : length L = n) by (unfold L, family; rewrite map_length, seq_length; reflexivity).
  assert (HR : rows d ids L).
  { apply family_rows. intros i Hi. destruct (Hl i Hi) as [H1 [H2 _]]. rewrite zs_length, zs_back. split; [exact H1|]. split; [exact H2|apply zs_nonneg]. }
  assert (HC : map (@length Z) L = num).
  { apply family_counts; [exact Hnum|]. intros i Hi. rewrite zs_length. exact (proj2 (proj2 (Hl i Hi))). }
  assert (Hd : forall i l, nth_error L i = Some l -> length l <= d) by (intros i l' H; exact (proj1 (HR i l' H))).
  destruct (convert_ok (-1)%Z d L Hd true off ids) as [off' [E [_ G]]]; rewrite ?HL; auto.
  rewrite HL, HC in E. exists off', (concat L ++ repeat (-1)%Z (n * d - size L)). split; [exact E|].
  intros i Hi. pose proof (converted_get (-1)%Z d L off' i (zs (l i)) G) as K. rewrite HL in K. apply K.
  apply (nth_family n (fun i => zs (l i)) i Hi).
Qed.

Lemma within_spec : forall p a b, within p a b = true <-> (a <= p < b)%Z.
Proof. intros p a b. unfold within. rewrite andb_true_iff, Z.leb_le, Z.ltb_lt. reflexivity. Qed.

Lemma numbered_apart : forall t z, numbered t z -> forall p,
  (within p (v_start t) (v_end t) = true -> within p (e_start t) (e_end t) = false /\ within p (f_start t) (f_end t) = false) /\
  (within p (e_start t) (e_end t) = true -> within p (f_start t) (f_end t) = false).
Proof.
  intros t z [_ [_ [_ H]]] p. specialize (H p). cbv zeta in H. destruct H as [H1 [H2 H3]].
  assert (G : forall a b, ~ (a <= p < b)%Z -> within p a b = false).
  { intros a b Hn. destruct (within p a b) eqn:E; [|reflexivity]. apply within_spec in E. contradiction. }
  split.
  - intro Hv. apply within_spec in Hv. split; apply G; intro; tauto.
  - intro He. apply within_spec in He. apply G. tauto.
Qed.

Lemma connectivity_inv : forall t z cells, numbered t z -> uniform t z cells ->
  exists s, cell_connectivity t z cells = Ok s /\
    inv z (map (vertices_of t) cells) (map (edges_of t) cells) (map (faces_of t) cells) s.
Proof.
  intros t z cells Hnum [H1 [H2 [H3 [H4 H5]]]]. pose proof (numbered_apart t z Hnum) as Hap. destruct Hnum as [N1 [N2 [N3 _]]].
  apply (cell_connectivity_ok z t N1 N2 N3 Hap H2 H3 cells H1).
  - intros c cl Hc. destruct (H4 cl (nth_error_In _ _ Hc)) as [C1 [C2 [C3 C4]]].
    split; [exact C1|]. unfold vof, eof, fof. unfold vertices_of, edges_of, faces_of in *. lia.
  - intros v Hv. specialize (H5 v Hv). unfold vof. unfold vertices_of in H5. lia.
Qed.

(** *** The tables of the cells *)

Lemma cell_table_ok : forall n d ids L, 0 < n -> length L = n -> length ids = n * d ->
  (forall l, In l L -> length l = d) -> filled d ids L ->
  exists off ids', cell_table n d ids = Ok (off, ids') /\ forall c l, nth_error L c = Some l -> get_ids off ids' c = Ok l.
Proof.
  intros n d ids L Hn HL Hids Hd Hf. unfold cell_table. destruct (offsets_ok n d) as [off [E [O1 O2]]]. rewrite E. cbn [bind].
  assert (Hd' : forall i l, nth_error L i = Some l -> length l <= d) by (intros i l H; rewrite (Hd l (nth_error_In _ _ H)); lia).
  assert (Hnum : map (@length Z) L = repeat d n).
  { rewrite <- HL. clear - Hd. induction L as [|l L IH]; [reflexivity|]. simpl. rewrite (Hd l (or_introl eq_refl)). f_equal. apply IH. intros l' H. apply Hd. right. exact H. }
  destruct (convert_ok (-1)%Z d L Hd' true off ids) as [off' [E' [_ G]]]; rewrite ?HL; auto.
  { intros i l Hl. split; [exact (Hd' i l Hl)|]. intros j v Hv. exact (Hf i l j v Hl Hv). }
  rewrite HL, Hnum in E'. eexists. eexists. split; [exact E'|]. intros c l Hl.
  pose proof (converted_get (-1)%Z d L off' c l G Hl) as K. rewrite HL in K. exact K.
Qed.

Lemma cells_tables : forall t z cells, numbered t z -> uniform t z cells -> 0 < n_cell z ->
  exists s vo vi eo ei fo fi, cell_connectivity t z cells = Ok s /\
    cell_table (n_cell z) (d_cv z) (c_vert s) = Ok (vo, vi) /\
    cell_table (n_cell z) (d_ce z) (c_edge s) = Ok (eo, ei) /\
    cell_table (n_cell z) (d_cf z) (c_face s) = Ok (fo, fi) /\
    forall c cl, nth_error cells c = Some cl ->
      get_ids vo vi c = Ok (vertices_of t cl) /\ get_ids eo ei c = Ok (edges_of t cl) /\ get_ids fo fi c = Ok (faces_of t cl).
Proof.
  intros t z cells Hnum Hu Hn. destruct (connectivity_inv t z cells Hnum Hu) as [s [E [Hs [[V1 _] [[E1 _] [F1 _]]]]]].
  destruct Hu as [H1 [_ [_ [H4 _]]]]. destruct Hs as [S1 [S2 [S3 _]]].
  destruct (cell_table_ok (n_cell z) (d_cv z) (c_vert s) (map (vertices_of t) cells) Hn) as [vo [vi [Ev Gv]]];
    [rewrite map_length; exact H1|exact S1| |exact V1|].
  { intros l Hl. apply in_map_iff in Hl. destruct Hl as [cl [<- Hcl]]. apply (H4 cl Hcl). }
  destruct (cell_table_ok (n_cell z) (d_ce z) (c_edge s) (map (edges_of t) cells) Hn) as [eo [ei [Ee Ge]]];
    [rewrite map_length; exact H1|exact S2| |exact E1|].
  { intros l Hl. apply in_map_iff in Hl. destruct Hl as [cl [<- Hcl]]. apply (H4 cl Hcl). }
  destruct (cell_table_ok (n_cell z) (d_cf z) (c_face s) (map (faces_of t) cells) Hn) as [fo [fi [Ef Gf]]];
    [rewrite map_length; exact H1|exact S3| |exact F1|].
  { intros l Hl. apply in_map_iff in Hl. destruct Hl as [cl [<- Hcl]]. apply (H4 cl Hcl). }
  exists s, vo, vi, eo, ei, fo, fi. split; [exact E|]. split; [exact Ev|]. split; [exact Ee|]. split; [exact Ef|].
  intros c cl Hcl. split; [apply Gv; rewrite nth_error_map, Hcl; reflexivity|].
  split; [apply Ge; rewrite nth_error_map, Hcl; reflexivity|apply Gf; rewrite nth_error_map, Hcl; reflexivity].
Qed.

(** *** The cells around a vertex *)

Lemma around_members : forall {C} (g : C -> list Z) (cells : list C) v c k,
  In (c, k) (around v 0 (map g cells)) <-> exists cl, nth_error cells c = Some cl /\ nth_error (g cl) k = Some v.
Proof.
  intros C g cells v c k. rewrite in_around, Nat.sub_0_r. split.
  - intros [_ [l [H1 H2]]]. rewrite nth_error_map in H1. destruct (nth_error cells c) as [cl|]; [|discriminate H1].
    inversion H1; subst l. exists cl. auto.
  - intros [cl [H1 H2]]. split; [lia|]. exists (g cl). rewrite nth_error_map, H1. auto.
Qed.

Lemma holds_less : forall d m m' ids i l, m' <= m -> holds d m ids i l -> holds d m' ids i l.
Proof. intros d m m' ids i l Hle H j Hj. apply H. lia. Qed.

Lemma vertices_tables : forall t z cells, numbered t z -> uniform t z cells -> 0 < n_vert z ->
  exists s co ci so si, cell_connectivity t z cells = Ok s /\
    vertex_cell_table z s = Ok (co, ci) /\ vertex_subcell_table z s = Ok (so, si) /\
    forall v, v < n_vert z -> exists l : list (nat * nat),
      get_ids co ci v = Ok (zs (map fst l)) /\ get_ids so si v = Ok (zs (map snd l)) /\ NoDup l /\
      forall c k, In (c, k) l <-> exists cl, nth_error cells c = Some cl /\ nth_error (vertices_of t cl) k = Some (Z.of_nat v).
Proof.
  intros t z cells Hnum Hu Hn. destruct (connectivity_inv t z cells Hnum Hu) as [s [E [Hs [[_ V] _]]]].
  destruct Hs as [_ [_ [_ [S4 [S5 [S6 _]]]]]].
  set (ar := fun v => around (Z.of_nat v) 0 (map (vertices_of t) cells)).
  destruct (offsets_ok (n_vert z) (d_vc z)) as [o1 [O1 [O1a O1b]]].
  destruct (offsets_ok (n_vert z) (d_vf z)) as [o2 [O2 [O2a O2b]]].
  destruct (family_table (n_vert z) (d_vc z) o1 (v_cell s) (v_ncell s) (fun v => map fst (ar v)) Hn S5 S4 O1a O1b) as [co [ci [Ec Gc]]].
  { intros v Hv. destruct (V v Hv) as [A1 [A2 [A3 [A4 A5]]]]. rewrite map_length. split; [exact A1|]. split; [|exact A5].
    apply (holds_less _ (d_vc z)); [exact A1|exact A3]. }
  destruct (family_table (n_vert z) (d_vf z) o2 (v_sub s) (v_ncell s) (fun v => map snd (ar v)) Hn S6 S4 O2a O2b) as [so [si [Es Gs]]].
  { intros v Hv. destruct (V v Hv) as [A1 [A2 [A3 [A4 A5]]]]. rewrite map_length. split; [exact A2|]. split; [exact A4|exact A5]. }
  exists s, co, ci, so, si. split; [exact E|]. unfold vertex_cell_table, vertex_subcell_table. rewrite O1, O2. cbn [bind].
  split; [exact Ec|]. split; [exact Es|]. intros v Hv. exists (ar v).
  split; [exact (Gc v Hv)|]. split; [exact (Gs v Hv)|]. split; [apply nodup_around|]. intros c k. apply around_members.
Qed.

(** *** The cells of a face *)

Lemma face_cells : forall t z cells, numbered t z -> uniform t z cells ->
  exists s, cell_connectivity t z cells = Ok s /\
    forall f, f < n_face z -> exists l : list (nat * nat),
      NoDup l /\ (forall c k, In (c, k) l <-> exists cl, nth_error cells c = Some cl /\ nth_error (faces_of t cl) k = Some (Z.of_nat f)) /\
      nth_error (f_ncell s) f = Some (Nat.min 2 (length l)) /\
      forall j, j < 2 -> nth_error (f_cell s) (f * d_fc z + j) = Some (nth j (zs (map fst l)) (-1)%Z).
Proof.
  intros t z cells Hnum Hu. destruct (connectivity_inv t z cells Hnum Hu) as [s [E [_ [_ [_ [_ F]]]]]].
  exists s. split; [exact E|]. intros f Hf. destruct (F f Hf) as [F1 F2].
  exists (around (Z.of_nat f) 0 (map (faces_of t) cells)). split; [apply nodup_around|]. split; [intros c k; apply around_members|].
  split; [exact F2|exact F1].
Qed.

(** What the access function says about the cells of a face. *)
Lemma face_cell_get : forall z s f, f < n_face z -> exists off, face_cell_table z s = Ok (off, f_cell s) /\
  get off f = Ok (Z.of_nat (f * d_fc z), if S f <? n_face z then Z.of_nat (d_fc z) else (-1 - Z.of_nat (f * d_fc z))%Z).
Proof.
  intros z s f Hf. unfold face_cell_table. destruct (face_offsets_ok (n_face z) (d_fc z)) as [off [E [O1 [O2 O3]]]].
  rewrite E. cbn [bind]. exists off. split; [reflexivity|]. unfold get. rewrite (rd_some _ _ _ (O2 f Hf)). cbn [bind].
  destruct (Nat.ltb_spec (S f) (n_face z)) as [Hlt|Hge].
  - rewrite (rd_some _ _ _ (O2 (S f) Hlt)). cbn [bind]. do 2 f_equal. simpl Nat.mul. lia.
  - replace (S f) with (n_face z) by lia. rewrite (rd_some _ _ _ O3). reflexivity.
Qed.

(** *** Faces and vertices *)

Definition boundary_vertices (t : strata) (f : nat * list Z * nat) : list Z :=
  if snd f =? 2 then [] else vertices_of t (fst f).

Lemma faces_tables : forall t z faces, numbered t z -> fitting t z faces -> 0 < n_face z -> 0 < n_vert z ->
  exists s fo fi vo vf vs bo bi, face_connectivity t z faces = Ok s /\
    face_vertex_table z s = Ok (fo, fi) /\ vertex_face_tables z s = Ok (vo, [vf; vs]) /\ vertex_boundary_table z s = Ok (bo, bi) /\
    (forall f x, nth_error faces f = Some x -> get_ids fo fi f = Ok (vertices_of t (fst x))) /\
    forall v, v < n_vert z -> exists l b : list (nat * nat),
      get_ids vo vf v = Ok (zs (map fst l)) /\ get_ids vo vs v = Ok (zs (map snd l)) /\ NoDup l /\
      (forall f k, In (f, k) l <-> exists x, nth_error faces f = Some x /\ nth_error (vertices_of t (fst x)) k = Some (Z.of_nat v)) /\
      get_ids bo bi v = Ok (zs (map fst b)) /\ NoDup b /\
      (forall f k, In (f, k) b <-> exists x, nth_error faces f = Some x /\ snd x <> 2 /\ nth_error (vertices_of t (fst x)) k = Some (Z.of_nat v)).
Proof.
  intros t z faces Hnum [H1 [H2 H3]] Hnf Hnv. destruct Hnum as [N1 _].
  destruct (face_connectivity_ok z t N1 faces H1) as [s [E [Hs [Hf [Hn Hv]]]]].
  - intros f sz cl su Hx. destruct (H2 _ (nth_error_In _ _ Hx)) as [C1 [C2 C3]]. split; [exact C1|]. split; [exact C2|exact C3].
  - exact H3.
  - destruct Hs as [S1 [S2 [S3 [S4 [S5 [S6 S7]]]]]].
    set (ar := fun v => around (Z.of_nat v) 0 (map (fverts t) faces)).
    set (br := fun v => around (Z.of_nat v) 0 (map (bverts t) faces)).
    (* the vertices of the faces *)
    destruct (face_offsets_ok (n_face z) (d_fv z)) as [o1 [O1 [O1a [O1b _]]]].
    set (L := map (fverts t) faces).
    assert (HL : length L = n_face z) by (unfold L; rewrite map_length; exact H1).
    assert (Hd : forall i l, nth_error L i = Some l -> length l <= d_fv z).
    { intros i l Hl. unfold L in Hl. rewrite nth_error_map in Hl. destruct (nth_error faces i) as [x|] eqn:Ex; [|discriminate Hl].
      inversion Hl; subst l. apply (H2 x (nth_error_In _ _ Ex)). }
    assert (HC : map (@length Z) L = f_nvert s).
    { apply nth_error_ext. intro i. destruct (Nat.lt_ge_cases i (n_face z)) as [Hi|Hi].
      - rewrite nth_error_map, (Hn i Hi). fold L. destruct (nth_error L i) as [l|] eqn:El; [|apply nth_error_None in El; lia].
        rewrite (nth_error_nth L i [] El). reflexivity.
      - rewrite (proj2 (nth_error_None (f_nvert s) i)) by lia. apply nth_error_None. rewrite map_length. lia. }
    destruct (convert_ok (-1)%Z (d_fv z) L Hd true o1 (f_vert s)) as [fo [E1 [_ G1]]]; rewrite ?HL; auto.
    { intros i l Hl. split; [exact (Hd i l Hl)|]. intros j v Hv'. exact (Hf i l j v Hl Hv'). }
    rewrite HL, HC in E1.
    (* the faces around a vertex *)
    destruct (offsets_ok (n_vert z) (d_vf z)) as [o2 [O2 [O2a O2b]]].
    set (A := family (n_vert z) (fun v => zs (map fst (ar v)))). set (B := family (n_vert z) (fun v => zs (map snd (ar v)))).
    assert (HA : length A = n_vert z) by (unfold A, family; rewrite map_length, seq_length; reflexivity).
    assert (HB : length B = n_vert z) by (unfold B, family; rewrite map_length, seq_length; reflexivity).
    destruct (convert_all_ok (-1)%Z (n_vert z) (d_vf z) (v_nface s) [A; B] [v_face s; v_subface s] o2 Hnv) as [vo [E2 G2]];
      [discriminate|exact O2a|exact O2b| |].
    { constructor; [|constructor; [|constructor]].
      - split; [exact HA|]. split; [apply family_counts; [exact S3|]; intros v Hv'; rewrite zs_length, map_length; apply (Hv v Hv')|].
        split; [exact S4|]. apply family_rows. intros v Hv'. destruct (Hv v Hv') as [Y1 [Y2 [W1 [W2 [W3 [W4 W5]]]]]].
        rewrite zs_length, zs_back, map_length. split; [exact Y1|]. split; [exact W1|apply zs_nonneg].
      - split; [exact HB|]. split; [apply family_counts; [exact S3|]; intros v Hv'; rewrite zs_length, map_length; apply (Hv v Hv')|].
        split; [exact S5|]. apply family_rows. intros v Hv'. destruct (Hv v Hv') as [Y1 [Y2 [W1 [W2 [W3 [W4 W5]]]]]].
        rewrite zs_length, zs_back, map_length. split; [exact Y1|]. split; [exact W2|apply zs_nonneg]. }
    (* the boundary faces around a vertex *)
    destruct (family_table (n_vert z) (d_vf z) o2 (v_bnd s) (v_nbnd s) (fun v => map fst (br v)) Hnv S7 S6 O2a O2b) as [bo [bi [E3 G3]]].
    { intros v Hv'. destruct (Hv v Hv') as [Y1 [Y2 [W1 [W2 [W3 [W4 W5]]]]]]. rewrite map_length. split; [exact Y2|]. split; [exact W4|exact W5]. }
    exists s, fo. eexists. exists vo. eexists. eexists. exists bo, bi. split; [exact E|].
    unfold face_vertex_table, vertex_face_tables, vertex_boundary_table. rewrite O1, O2. cbn [bind].
    split; [exact E1|]. split; [exact E2|]. split; [exact E3|]. split.
    + intros f x Hx. assert (Hl : nth_error L f = Some (vertices_of t (fst x))) by (unfold L; rewrite nth_error_map, Hx; reflexivity).
      pose proof (converted_get (-1)%Z (d_fv z) L fo f _ G1 Hl) as K. rewrite HL in K. exact K.
    + intros v Hv'. exists (ar v), (br v).
      split; [apply (G2 A v); [left; reflexivity|apply (nth_family (n_vert z) (fun v => zs (map fst (ar v))) v Hv')]|].
      split; [apply (G2 B v); [right; left; reflexivity|apply (nth_family (n_vert z) (fun v => zs (map snd (ar v))) v Hv')]|].
      split; [apply nodup_around|]. split; [intros f k; apply around_members|].
      split; [exact (G3 v Hv')|]. split; [apply nodup_around|].
      intros f k. unfold br. rewrite around_members. unfold bverts. split.
      * intros [x [X1 X2]]. exists x. split; [exact X1|]. destruct (Nat.eqb_spec (snd x) 2) as [Heq|Hneq].
        -- destruct k; discriminate X2.
        -- split; [exact Hneq|exact X2].
      * intros [x [X1 [X2 X3]]]. exists x. split; [exact X1|]. destruct (Nat.eqb_spec (snd x) 2); [contradiction|]. exact X3.
Qed.

(** *** Room *)

Lemma count_in_ok : forall lo hi c, stored c -> count_in lo hi c = Ok (length (members lo hi (points c))).
Proof.
  intros lo hi c Hc. unfold count_in.
  destruct (for_inv (fun i n => n = length (members lo hi (firstn i (points c))))
    (fun i n => do p <- rd (snd c) (2 * i); Ok (if within p lo hi then S n else n)) (fst c) 0) as [n [E ->]].
  - reflexivity.
  - intros i n Hi ->. unfold stored in Hc.
    destruct (nth_error (snd c) (2 * i)) as [p|] eqn:Ep; [|apply nth_error_None in Ep; lia].
    rewrite (rd_some _ _ _ Ep). cbn [bind]. eexists. split; [reflexivity|].
    assert (Ep2 : nth_error (points c) i = Some p).
    { unfold points. rewrite nth_error_map, (nth_error_nth' (seq 0 (fst c)) 0) by (rewrite seq_length; exact Hi).
      rewrite seq_nth by exact Hi. simpl. f_equal. apply (nth_error_nth (snd c) (2 * i) _ Ep). }
    rewrite (firstn_snoc _ _ _ Ep2), members_snoc, app_length. destruct (within p lo hi); simpl; lia.
  - rewrite E. f_equal. rewrite firstn_all2; [reflexivity|]. unfold points. rewrite map_length, seq_length. lia.
Qed.

Lemma most_ok : forall lo hi closures, (forall c, In c closures -> stored c) ->
  exists n, most lo hi closures = Ok n /\ (forall c, In c closures -> length (members lo hi (points c)) <= n) /\
    (n = 0 \/ exists c, In c closures /\ n = length (members lo hi (points c))).
Proof.
  intros lo hi closures H. unfold most.
  destruct (for_inv (fun i r => (forall a c, a < i -> nth_error closures a = Some c -> length (members lo hi (points c)) <= r) /\
      (r = 0 \/ exists c, In c closures /\ r = length (members lo hi (points c))))
    (fun a r => do c <- rd closures a; do n <- count_in lo hi c; Ok (Nat.max r n)) (length closures) 0) as [n [E [H1 H2]]].
  - split; [intros a c Ha; lia|left; reflexivity].
  - intros i r Hi [H1 H2]. destruct (nth_error closures i) as [c|] eqn:Ec; [|apply nth_error_None in Ec; lia].
    rewrite (rd_some _ _ _ Ec). cbn [bind]. rewrite (count_in_ok lo hi c (H c (nth_error_In _ _ Ec))). cbn [bind].
    eexists. split; [reflexivity|]. split.
    + intros a c' Ha Hc'. destruct (Nat.eq_dec a i) as [->|Hne].
      * rewrite Ec in Hc'. inversion Hc'; subst c'. lia.
      * specialize (H1 a c' ltac:(lia) Hc'). lia.
    + destruct (Nat.max_spec r (length (members lo hi (points c)))) as [[_ ->]|[_ ->]].
      * right. exists c. split; [exact (nth_error_In _ _ Ec)|reflexivity].
      * exact H2.
  - exists n. split; [exact E|]. split; [|exact H2]. intros c Hc. apply In_nth_error in Hc. destruct Hc as [a Ha].
    apply (H1 a c (nth_lt _ _ _ Ha) Ha).
Qed.

(** *** In the form of the properties *)

Lemma compressed : forall (A : Type) (blank : A) d (L : list (list A)) ids off,
  0 < length L -> length ids = length L * d -> rows d ids L ->
  length off = S (length L) -> (forall k, k < length L -> nth_error off k = Some (Z.of_nat (k * d))) ->
  exists off' ids', convert blank (length L) d true (map (@length A) L) off ids = Ok (off', ids') /\
    ids' = concat L ++ repeat blank (length ids - length (concat L)) /\
    forall i l, nth_error L i = Some l -> get_ids off' ids' i = Ok l.
Proof.
  intros A blank d L ids off Hn Hlen HR Hol Ho.
  assert (Hd : forall i l, nth_error L i = Some l -> length l <= d) by (intros i l H; exact (proj1 (HR i l H))).
  destruct (convert_ok blank d L Hd true off ids Hn Hlen HR Hol Ho) as [off' [E [_ G]]].
  eexists. eexists. split; [exact E|]. split; [rewrite Hlen; reflexivity|]. intros i l Hl. exact (converted_get blank d L off' i l G Hl).
Qed.
Lemma shared_offsets : forall (A : Type) (blank : A) n d num (Ls : list (list (list A))) arrays off,
  0 < n -> Ls <> [] -> length off = S n -> (forall k, k < n -> nth_error off k = Some (Z.of_nat (k * d))) ->
  Forall2 (fun L ids => length L = n /\ map (@length A) L = num /\ length ids = n * d /\ rows d ids L) Ls arrays ->
  exists off' arrays', convert_all blank n d num off arrays = Ok (off', arrays') /\
    Forall2 (fun L ids' => forall i l, nth_error L i = Some l -> get_ids off' ids' i = Ok l) Ls arrays'.
Proof.
  intros A blank n d num Ls arrays off Hn Hne Hol Ho Hall.
  destruct (convert_all_ok blank n d num Ls arrays off Hn Hne Hol Ho Hall) as [off' [E G]].
  eexists. eexists. split; [exact E|]. clear - G. induction Ls as [|L Ls IH]; [constructor|]. simpl. constructor.
  - intros i l Hl. apply G; [left; reflexivity|exact Hl].
  - apply IH. intros L' i l Hin Hl. apply G; [right; exact Hin|exact Hl].
Qed.
Lemma cell_count : forall z s f, f < n_face z -> d_fc z = 2 ->
  exists off, face_cell_table z s = Ok (off, f_cell s) /\
    get off f = Ok (Z.of_nat (f * 2), if S f =? n_face z then (-1 - 2 * Z.of_nat f)%Z else 2%Z).
Proof.
  intros z s f Hf Hd. destruct (face_cell_get z s f Hf) as [off [E G]]. exists off. split; [exact E|]. rewrite G, Hd. do 2 f_equal.
  destruct (Nat.ltb_spec (S f) (n_face z)); destruct (Nat.eqb_spec (S f) (n_face z)); try lia.
Qed.
