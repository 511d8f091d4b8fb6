(** Consequences of the numbering, maxima, and matrix layout. *)
From Coq Require Import List Arith ZArith Lia Bool Permutation.
From Verif Require Import Prelude Arrays UGrid UGridLoops SpecUGrid UGridProofs UGridNumProofs UGridLocalProofs UGridVertexProofs UGridAllProofs.
Import ListNotations.
Local Open Scope Z_scope.

(** Local numbers of a process and cells of the mesh correspond one to one. *)
Lemma numbering_injective : forall num off nl natural ghosts i j x,
  right_numbering num off nl natural ghosts ->
  nth_error natural i = Some x -> nth_error natural j = Some x -> i = j.
Proof.
  intros num off nl natural ghosts i j x [HInc [HGo [HL HN]]] Ei Ej.
  assert (Hi : (i < nl + length ghosts)%nat) by (rewrite <- HL; apply nth_lt in Ei; exact Ei).
  assert (Hj : (j < nl + length ghosts)%nat) by (rewrite <- HL; apply nth_lt in Ej; exact Ej).
  destruct (HN i Hi) as [c [p [E1 [E2 E3]]]]. destruct (HN j Hj) as [c' [p' [F1 [F2 F3]]]].
  assert (c = c') by (rewrite Ei in E1; rewrite Ej in F1; injection E1 as E1; injection F1 as F1; lia). subst c'.
  assert (p = p') by congruence. subst p'. unfold global_number in *.
  destruct (Nat.ltb_spec i nl), (Nat.ltb_spec j nl).
  - injection E3 as E3. injection F3 as F3. lia.
  - injection E3 as E3. apply nth_error_In in F3. apply HGo in F3. lia.
  - injection F3 as F3. apply nth_error_In in E3. apply HGo in E3. lia.
  - destruct (lt_eq_lt_dec (i - nl) (j - nl)) as [[Hlt|Heq]|Hlt]; [| lia |].
    + pose proof (HInc _ _ _ _ Hlt E3 F3). lia.
    + pose proof (HInc _ _ _ _ Hlt F3 E3). lia.
Qed.

(** ** Reserved matrix entries *)
Definition owns (nl : nat) (natural : list Z) (y : Z) : bool :=
  if in_dec Z.eq_dec y (firstn nl natural) then true else false.

Lemma in_firstn : forall {A} (l : list A) n y, In y (firstn n l) <-> exists i, (i < n)%nat /\ nth_error l i = Some y.
Proof.
  intros A l n y. split.
  - intro H. apply In_nth_error in H. destruct H as [i Ei].
    assert (Hi : (i < n)%nat) by (assert (i < length (firstn n l))%nat by (apply nth_lt in Ei; exact Ei); rewrite firstn_length in H; lia).
    exists i. rewrite nth_firstn in Ei by exact Hi. auto.
  - intros [i [Hi Ei]]. apply (nth_error_In _ i). rewrite nth_firstn by exact Hi. exact Ei.
Qed.

Lemma preallocation_exact : forall num off cells nl natural ghosts nbs i c cl,
  right_numbering num off nl natural ghosts -> right_neighbours cells nl natural nbs ->
  (i < nl)%nat -> nth_error natural i = Some (Z.of_nat c) -> nth_error cells c = Some cl ->
  exists nb, nth_error nbs i = Some nb /\
  preallocate nb = Ok (S (length (filter (owns nl natural) (snd cl))),
                       length (filter (fun y => negb (owns nl natural y)) (snd cl))).
Proof.
  intros num off cells nl natural ghosts nbs i c cl HN [HL HB] Hi Ei Ecl.
  destruct (HB i c cl Hi Ei Ecl) as [row [Er Hrow]]. eexists. split; [exact Er|].
  assert (Hsgn : forall k y e, nth_error (snd cl) k = Some y -> nth_error row k = Some e -> (0 <=? e) = owns nl natural y).
  { intros k y e Ek Ee. destruct (Hrow k y Ek) as [e' [Ee' [En Hs]]]. assert (e' = e) by congruence. subst e'.
    unfold owns. destruct (in_dec Z.eq_dec y (firstn nl natural)) as [Y|Y].
    - apply Z.leb_le. apply Hs. apply in_firstn in Y. destruct Y as [j [Hj Ej]].
      rewrite (numbering_injective _ _ _ _ _ _ _ _ HN En Ej). exact Hj.
    - apply Z.leb_gt. destruct (Z.lt_ge_cases e 0) as [|Hge]; [assumption|]. exfalso. apply Y. apply in_firstn.
      exists (refers_to e). split; [apply Hs; exact Hge|exact En]. }
  assert (Hlen : (length (snd cl) <= length row)%nat).
  { destruct (length (snd cl)) as [|m] eqn:El; [lia|].
    destruct (nth_error (snd cl) m) as [y|] eqn:Em; [|apply nth_error_None in Em; lia].
    destruct (Hrow m y Em) as [e [Ee _]]. apply nth_lt in Ee. lia. }
  rewrite preallocate_ok by exact Hlen. clear - Hsgn Hlen.
  revert row Hsgn Hlen. induction (snd cl) as [|y ys IH]; intros row Hsgn Hlen; [reflexivity|].
  destruct row as [|e row]; [simpl in Hlen; lia|].
  pose proof (Hsgn 0%nat y e eq_refl eq_refl) as H0.
  assert (IH' := IH row (fun k y e => Hsgn (S k) y e) ltac:(simpl in Hlen; lia)).
  cbn [length firstn filter]. rewrite <- H0. injection IH' as I1 I2.
  destruct (Z.leb_spec 0 e), (Z.ltb_spec e 0); try lia; cbn [negb length]; rewrite I1, I2; reflexivity.
Qed.

(** ** Maxima *)
Definition used (maxv : nat) (row : list Z) : nat := length (filter (fun x => 0 <? x) (firstn maxv row)).

Lemma active_cell_ok : forall maxv row, (maxv <= length row)%nat -> active_cell maxv row = Ok (used maxv row).
Proof.
  intros maxv row H. unfold active_cell, used.
  destruct (for_inv (fun t c => c = length (filter (fun x => 0 <? x) (firstn t row)))
    (fun iv tmp => do x <- rd row iv; Ok (if 0 <? x then S tmp else tmp)) maxv 0%nat) as [c [E ->]]; [reflexivity| |exact E].
  intros k c Hk ->. destruct (rd_ok row k) as [x [Ex Nx]]; [lia|]. rewrite Ex. cbn [bind]. eexists. split; [reflexivity|].
  rewrite (firstn_snoc row k x Nx), filter_app, app_length. cbn [filter]. destruct (0 <? x); cbn [length]; lia.
Qed.

Lemma active_ok : forall maxv verts, Forall (fun r => (maxv <= length r)%nat) verts ->
  exists m, active maxv verts = Ok m /\ (forall row, In row verts -> (used maxv row <= m)%nat) /\
  (m = 0%nat \/ exists row, In row verts /\ m = used maxv row).
Proof.
  intros maxv verts H. unfold active.
  destruct (for_inv (fun t m => (forall i row, (i < t)%nat -> nth_error verts i = Some row -> (used maxv row <= m)%nat) /\
     (m = 0%nat \/ exists row, In row verts /\ m = used maxv row))
    (fun ic act => do row <- rd verts ic; do tmp <- active_cell maxv row; Ok (if (act <? tmp)%nat then tmp else act))
    (length verts) 0%nat) as [m [E [H1 H2]]].
  - split; [intros; lia|auto].
  - intros i m Hi [H1 H2]. destruct (rd_ok verts i Hi) as [row [Er Nr]]. rewrite Er. cbn [bind].
    rewrite Forall_forall in H. rewrite active_cell_ok by (apply H; apply nth_error_In in Nr; exact Nr). cbn [bind].
    eexists. split; [reflexivity|]. split.
    + intros j row' Hj Ej. destruct (Nat.eq_dec j i) as [->|Nj].
      * assert (row' = row) by congruence. subst row'. destruct (Nat.ltb_spec m (used maxv row)); lia.
      * pose proof (H1 j row' ltac:(lia) Ej). destruct (Nat.ltb_spec m (used maxv row)); lia.
    + destruct (Nat.ltb_spec m (used maxv row)); [|exact H2]. right. exists row. split; [|reflexivity]. apply nth_error_In in Nr. exact Nr.
  - exists m. split; [exact E|]. split; [|exact H2]. intros row Hr. apply In_nth_error in Hr. destruct Hr as [i Ei].
    apply (H1 i row); [apply nth_lt in Ei; exact Ei|exact Ei].
Qed.

Lemma max_dual_ok : forall ia ja rows, csr ia ja rows ->
  exists m, max_dual (length rows) ia = Ok m /\ (forall row, In row rows -> (length row <= m)%nat) /\
  (m = 0%nat \/ exists row, In row rows /\ m = length row).
Proof.
  intros ia ja rows H. unfold max_dual.
  destruct (for_inv (fun t m => (forall i row, (i < t)%nat -> nth_error rows i = Some row -> (length row <= m)%nat) /\
     (m = 0%nat \/ exists row, In row rows /\ m = length row))
    (fun ic mx => do a <- rd ia ic; do b <- rd ia (S ic); Ok (if (mx <? b - a)%nat then (b - a)%nat else mx))
    (length rows) 0%nat) as [m [E [H1 H2]]].
  - split; [intros; lia|auto].
  - intros i m Hi [H1 H2]. destruct (nth_error rows i) as [row|] eqn:Nr; [|apply nth_error_None in Nr; lia].
    destruct (H i row Nr) as [a [Ea [Eb _]]]. rewrite (rd_some _ _ _ Ea). cbn [bind]. rewrite (rd_some _ _ _ Eb). cbn [bind].
    replace (a + length row - a)%nat with (length row) by lia.
    eexists. split; [reflexivity|]. split.
    + intros j row' Hj Ej. destruct (Nat.eq_dec j i) as [->|Nj].
      * assert (row' = row) by congruence. subst row'. destruct (Nat.ltb_spec m (length row)); lia.
      * pose proof (H1 j row' ltac:(lia) Ej). destruct (Nat.ltb_spec m (length row)); lia.
    + destruct (Nat.ltb_spec m (length row)); [|exact H2]. right. exists row. split; [|reflexivity]. apply nth_error_In in Nr. exact Nr.
  - exists m. split; [exact E|]. split; [|exact H2]. intros row Hr. apply In_nth_error in Hr. destruct Hr as [i Ei].
    apply (H1 i row); [apply nth_lt in Ei; exact Ei|exact Ei].
Qed.

(** When no cell uses the vertex 0 the count is the number of vertices. *)
Lemma used_all : forall maxv row, Forall (fun x => x <> 0) row -> (length row <= maxv)%nat ->
  used maxv row = length (filter (fun x => 0 <=? x) row).
Proof.
  intros maxv row H HL. unfold used. rewrite firstn_all2 by exact HL. f_equal.
  clear HL. induction H as [|x l Hx _ IH]; [reflexivity|]. simpl. rewrite IH.
  destruct (Z.ltb_spec 0 x), (Z.leb_spec 0 x); try lia; reflexivity.
Qed.

Lemma max_vertices_proof : forall maxv verts,
  Forall (fun r => length r = maxv /\ Forall (fun x => x <> 0) r) verts ->
  exists m, active maxv verts = Ok m /\
  (forall row, In row verts -> (length (filter (fun x => (0 <=? x)%Z) row) <= m)%nat) /\
  (m = 0%nat \/ exists row, In row verts /\ m = length (filter (fun x => (0 <=? x)%Z) row)).
Proof.
  intros maxv verts H. rewrite Forall_forall in H.
  destruct (active_ok maxv verts) as [m [E [H1 H2]]].
  { apply Forall_forall. intros r Hr. destruct (H r Hr). lia. }
  exists m. split; [exact E|]. split.
  - intros row Hr. destruct (H row Hr) as [HL Hn]. rewrite <- (used_all maxv row Hn) by lia. apply H1. exact Hr.
  - destruct H2 as [->|[row [Hr ->]]]; [left; reflexivity|]. right. exists row. split; [exact Hr|].
    destruct (H row Hr) as [HL Hn]. apply used_all; [exact Hn|lia].
Qed.

Lemma record_length : forall c vs ns maxd, (length ns <= maxd)%nat ->
  length (record c vs ns maxd) = (length vs + maxd + 4)%nat.
Proof. intros. unfold record. simpl. rewrite !app_length. simpl. rewrite !app_length, !map_length, repeat_length. simpl. lia. Qed.

Lemma nth_concat_fixed : forall {A} (ls : list (list A)) m i k, Forall (fun l => length l = m) ls -> (k < m)%nat ->
  nth_error (concat ls) (i * m + k) = match nth_error ls i with Some l => nth_error l k | None => None end.
Proof.
  intros A ls m i k H Hk. revert i. induction H as [|l ls Hl _ IH]; intro i.
  - destruct i; simpl; [destruct k; reflexivity|]. destruct (m + i * m + k)%nat; reflexivity.
  - cbn [concat]. destruct i as [|i].
    + rewrite nth_error_app1 by (simpl; lia). reflexivity.
    + rewrite nth_error_app2 by (simpl; lia). replace (S i * m + k - length l)%nat with (i * m + k)%nat by (simpl; lia).
      apply IH.
Qed.

Lemma concat_length_fixed : forall {A} (ls : list (list A)) m, Forall (fun l => length l = m) ls ->
  length (concat ls) = (length ls * m)%nat.
Proof. intros A ls m H. induction H as [|l ls Hl _ IH]; [reflexivity|]. simpl. rewrite app_length, IH, Hl. reflexivity. Qed.

Lemma pack_concat_proof : forall maxv maxd off cs p v N,
  part_of cs p -> Forall (fits N maxv maxd) cs -> length v = (length cs * stride_of maxv maxd)%nat ->
  exists v', pack maxv maxd off (p_verts p) (p_ia p) (p_ja p) v = Ok v' /\
  v' = concat (map (fun ic => record (Z.of_nat (off + fst ic)) (firstn maxv (fst (snd ic))) (snd (snd ic)) maxd)
                   (combine (seq 0 (length cs)) cs)).
Proof.
  intros maxv maxd off cs p v N Hp Hf Hv.
  destruct Hp as [Hp1 Hp2].
  assert (HLp : length (p_verts p) = length cs) by (rewrite Hp1; apply map_length).
  rewrite Forall_forall in Hf.
  destruct (pack_ok maxv maxd off (p_verts p) (p_ia p) (p_ja p) (map snd cs)) with (v := v) as [v' [E [HL H]]].
  { intros i row Er. rewrite Hp1, nth_error_map in Er. destruct (nth_error cs i) as [cl|] eqn:Ec; [|discriminate Er].
    injection Er as <-. apply nth_error_In in Ec. destruct (Hf _ Ec) as [H1 _]. exact H1. }
  { rewrite map_length. symmetry. exact HLp. }
  { exact Hp2. }
  { intros i r Er. rewrite nth_error_map in Er. destruct (nth_error cs i) as [cl|] eqn:Ec; [|discriminate Er].
    injection Er as <-. apply nth_error_In in Ec. destruct (Hf _ Ec) as [_ [_ [H1 _]]]. exact H1. }
  { rewrite HLp. exact Hv. }
  exists v'. split; [exact E|]. rewrite HLp in HL, H.
  set (f := fun ic : nat * cell => record (Z.of_nat (off + fst ic)) (firstn maxv (fst (snd ic))) (snd (snd ic)) maxd).
  assert (HLc : length (combine (seq 0 (length cs)) cs) = length cs) by (rewrite combine_length, seq_length; lia).
  assert (Hnth : forall i cl, nth_error cs i = Some cl -> nth_error (combine (seq 0 (length cs)) cs) i = Some (i, cl)).
  { clear. intros i cl Ec. assert (Hi : (i < length cs)%nat) by (apply nth_lt in Ec; exact Ec).
    rewrite <- (Nat.add_0_l i) at 2. revert Ec. revert Hi. generalize 0%nat as o. revert i.
    induction cs as [|x cs IH]; intros i o Hi Ec; [simpl in Hi; lia|]. destruct i as [|i]; simpl in *.
    - injection Ec as ->. rewrite Nat.add_0_r. reflexivity.
    - rewrite (IH i (S o)); [|lia|exact Ec]. do 2 f_equal. lia. }
  assert (Hfix : Forall (fun l => length l = stride_of maxv maxd) (map f (combine (seq 0 (length cs)) cs))).
  { apply Forall_forall. intros l Hl. apply in_map_iff in Hl. destruct Hl as [[i cl] [<- Hin]]. apply in_combine_r in Hin.
    destruct (Hf _ Hin) as [H1 [_ [H2 _]]]. unfold f. cbn [fst snd]. rewrite record_length by exact H2.
    rewrite firstn_length. unfold stride_of, dual_offset, vertex_ids_offset. lia. }
  pose proof (concat_length_fixed _ _ Hfix) as HLcat. rewrite map_length, HLc in HLcat.
  apply nth_error_ext. intro q. destruct (le_lt_dec (length cs * stride_of maxv maxd) q) as [Hge|Hlt].
  - rewrite (proj2 (nth_error_None v' q)) by lia.
    rewrite (proj2 (nth_error_None (concat (map f (combine (seq 0 (length cs)) cs))) q)); [reflexivity|].
    rewrite HLcat. exact Hge.
  - destruct (flat_decomp _ _ _ Hlt) as [i [k [Hi [Hk ->]]]].
    rewrite H by assumption. rewrite nth_concat_fixed by assumption. rewrite nth_error_map.
    destruct (nth_error cs i) as [cl|] eqn:Ec; [|apply nth_error_None in Ec; lia].
    rewrite (Hnth i cl Ec). cbn [option_map]. unfold expected, f. cbn [fst snd].
    assert (E1 : nth i (p_verts p) [] = fst cl) by (apply nth_error_nth; rewrite Hp1, nth_error_map, Ec; reflexivity).
    assert (E2 : nth i (map snd cs) [] = snd cl) by (apply nth_error_nth; rewrite nth_error_map, Ec; reflexivity).
    rewrite E1, E2. reflexivity.
Qed.

Lemma owned_once_proof : forall num nls N, Permutation num (seq 0 N) -> list_sum nls = N ->
  forall c, (c < N)%nat -> exists r nl i, nth_error nls r = Some nl /\ (i < nl)%nat /\
    nth_error num c = Some (before nls r + i)%nat /\
    forall r' nl' i', nth_error nls r' = Some nl' -> (i' < nl')%nat ->
      nth_error num c = Some (before nls r' + i')%nat -> r' = r /\ i' = i.
Proof.
  intros num nls N Hp Hs c Hc.
  assert (HL : length num = N) by (apply Permutation_length in Hp; rewrite seq_length in Hp; exact Hp).
  destruct (nth_error num c) as [p|] eqn:Ep; [|apply nth_error_None in Ep; lia].
  assert (Hlt : (p < list_sum nls)%nat).
  { apply nth_error_In in Ep. apply (Permutation_in _ Hp) in Ep. apply in_seq in Ep. lia. }
  destruct (find_rank nls p Hlt) as [r [nl [i [En [Hi ->]]]]].
  exists r, nl, i. split; [exact En|]. split; [exact Hi|]. split; [reflexivity|].
  intros r' nl' i' En' Hi' E. injection E as E.
  assert (Hmono : forall l a b n, (a < b)%nat -> nth_error l a = Some n -> (before l a + n <= before l b)%nat).
  { clear. unfold before. induction l as [|x l IH]; intros a b n Hab Ea; [destruct a; discriminate|].
    destruct b; [lia|]. destruct a; simpl in *.
    - injection Ea as ->. lia.
    - pose proof (IH a b n ltac:(lia) Ea). lia. }
  destruct (lt_eq_lt_dec r r') as [[Hlt'|Heq]|Hlt'].
  - pose proof (Hmono nls r r' nl Hlt' En). lia.
  - subst r'. lia.
  - pose proof (Hmono nls r' r nl' Hlt' En'). lia.
Qed.

Lemma empty_process_proof : forall sort stride voff maxv, local_vertices sort stride voff 0 maxv [] = UB.
Proof.
  intros. unfold local_vertices, count_vertices, collect_vertices. cbn.
  unfold rank_vertices. cbn [length]. unfold rd at 1. destruct (nth_error (sort []) 0) as [idx|]; [|reflexivity].
  cbn [bind]. unfold rd. destruct idx; reflexivity.
Qed.
