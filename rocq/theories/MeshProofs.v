(** Proofs about the connectivity tables of the mesh. *)
From Coq Require Import List ZArith Bool Arith Lia.
From Verif Require Import Prelude Arrays Mesh SpecMesh.
Import ListNotations.
Local Open Scope nat_scope.

Lemma rdz_nat : forall {A} (a : list A) i, rdz a (Z.of_nat i) = rd a i.
Proof. intros A a i. unfold rdz. destruct (Z.ltb_spec (Z.of_nat i) 0); [lia|]. rewrite Nat2Z.id. reflexivity. Qed.
Lemma wrz_nat : forall {A} (a : list A) i v, wrz a (Z.of_nat i) v = wr a i v.
Proof. intros A a i v. unfold wrz. destruct (Z.ltb_spec (Z.of_nat i) 0); [lia|]. rewrite Nat2Z.id. reflexivity. Qed.
Lemma rdz_sum : forall {A} (a : list A) i j, rdz a (Z.of_nat i + Z.of_nat j) = rd a (i + j).
Proof. intros. rewrite <- Nat2Z.inj_add. apply rdz_nat. Qed.
Lemma wrz_sum : forall {A} (a : list A) i j v, wrz a (Z.of_nat i + Z.of_nat j) v = wr a (i + j) v.
Proof. intros. rewrite <- Nat2Z.inj_add. apply wrz_nat. Qed.

Lemma firstn_upd : forall {A} (a : list A) p v, p < length a -> firstn (S p) (upd a p v) = firstn p a ++ [v].
Proof.
  intros A a; induction a as [|x a IH]; intros [|p] v H; simpl in *; try lia; [reflexivity|].
  f_equal. apply (IH p v). lia.
Qed.
Lemma firstn_upd_low : forall {A} (a : list A) p q v, q <= p -> firstn q (upd a p v) = firstn q a.
Proof.
  intros A a; induction a as [|x a IH]; intros [|p] [|q] v H; simpl in *; try lia; try reflexivity.
  f_equal. apply IH. lia.
Qed.
Lemma firstn_snoc : forall {A} (l : list A) i x, nth_error l i = Some x -> firstn (S i) l = firstn i l ++ [x].
Proof.
  intros A l; induction l as [|y l IH]; intros [|i] x H; simpl in *; try discriminate; [congruence|].
  f_equal. apply (IH i x H).
Qed.

(** ** Offsets *)

Lemma set_offsets_ok : forall m n d, m <= S n ->
  exists off, set_offsets m n d = Ok off /\ length off = S n /\
    forall i, i <= n -> nth_error off i = Some (if i <? m then Z.of_nat (i * d) else (-1)%Z).
Proof.
  intros m n d Hm. unfold set_offsets.
  destruct (for_inv (fun k (off : list Z) => length off = S n /\
      forall i, i <= n -> nth_error off i = Some (if i <? k then Z.of_nat (i * d) else (-1)%Z))
    (fun i off => wr off i (Z.of_nat (i * d))) m (allocate (S n))) as [off [E [H1 H2]]].
  - split; [apply repeat_length|]. intros i Hi. simpl. unfold allocate.
    apply nth_error_repeat. lia.
  - intros k off Hk [H1 H2]. exists (upd off k (Z.of_nat (k * d))). split; [apply wr_ok; lia|].
    split; [rewrite length_upd; exact H1|]. intros i Hi.
    destruct (Nat.eq_dec k i) as [<-|Hne].
    + rewrite nth_upd_same by lia. destruct (Nat.ltb_spec k (S k)); [reflexivity|lia].
    + rewrite nth_upd_other by exact Hne. rewrite H2 by exact Hi. f_equal.
      destruct (Nat.ltb_spec i k); destruct (Nat.ltb_spec i (S k)); try reflexivity; lia.
  - exists off. auto.
Qed.

(** ** Compressed format *)

Definition size {A} (L : list (list A)) : nat := length (concat L).
Lemma size_snoc : forall {A} (L : list (list A)) i l, nth_error L i = Some l ->
  size (firstn (S i) L) = size (firstn i L) + length l.
Proof.
  intros A L i l H. unfold size. rewrite (firstn_snoc L i l H), concat_app, app_length. simpl. rewrite app_nil_r. reflexivity.
Qed.
Lemma size_le : forall {A} (L : list (list A)) d i, (forall i l, nth_error L i = Some l -> length l <= d) ->
  i <= length L -> size (firstn i L) <= i * d.
Proof.
  intros A L d i Hd; induction i as [|i IH]; intro Hi; [simpl; unfold size; simpl; lia|].
  destruct (nth_error L i) as [l|] eqn:E; [|apply nth_error_None in E; lia].
  rewrite (size_snoc L i l E). specialize (Hd i l E). specialize (IH ltac:(lia)). simpl. lia.
Qed.

Lemma get_ids_ok : forall {A} off (ids : list A) i o l,
  nth_error off i = Some (Z.of_nat o) -> nth_error off (S i) = Some (Z.of_nat (o + length l)) ->
  (forall j v, nth_error l j = Some v -> nth_error ids (o + j) = Some v) ->
  get_ids off ids i = Ok l.
Proof.
  intros A off ids i o l H1 H2 H3. unfold get_ids, get.
  rewrite (rd_some _ _ _ H1), (rd_some _ _ _ H2). cbn [bind fst snd].
  replace (Z.to_nat (Z.of_nat (o + length l) - Z.of_nat o)) with (length l) by lia.
  destruct (for_inv (fun k (acc : list A) => acc = firstn k l)
    (fun j acc => do v <- rdz ids (Z.of_nat o + Z.of_nat j); Ok (acc ++ [v])) (length l) []) as [r [E ->]].
  - reflexivity.
  - intros j acc Hj ->. destruct (nth_error l j) as [v|] eqn:Ev; [|apply nth_error_None in Ev; lia].
    exists (firstn (S j) l). split; [|reflexivity].
    rewrite rdz_sum, (rd_some _ _ _ (H3 j v Ev)). cbn [bind]. rewrite (firstn_snoc l j v Ev). reflexivity.
  - rewrite E, firstn_all. reflexivity.
Qed.

Lemma nth_concat : forall {A} (L : list (list A)) i l j v,
  nth_error L i = Some l -> nth_error l j = Some v -> nth_error (concat L) (size (firstn i L) + j) = Some v.
Proof.
  intros A L; induction L as [|a L IH]; intros [|i] l j v H1 H2; simpl in *; try discriminate.
  - inversion H1; subst a. unfold size; simpl. rewrite nth_error_app1 by (exact (nth_lt _ _ _ H2)). exact H2.
  - unfold size; simpl. rewrite app_length, nth_error_app2 by lia.
    replace (length a + length (concat (firstn i L)) + j - length a) with (size (firstn i L) + j) by (unfold size; lia).
    apply (IH i l j v H1 H2).
Qed.

Section Convert.
Context {A : Type} (blank : A).
Variables (d : nat) (L : list (list A)).
Let n := length L.
Hypothesis Hd : forall i l, nth_error L i = Some l -> length l <= d.

Lemma copy_ok : forall i l ids, nth_error L i = Some l -> length ids = n * d ->
  firstn (size (firstn i L)) ids = concat (firstn i L) ->
  (forall k l j v, i <= k -> nth_error L k = Some l -> nth_error l j = Some v -> nth_error ids (k * d + j) = Some v) ->
  exists ids', copy_row (map (@length A) L) i (Z.of_nat (i * d)) (Z.of_nat (size (firstn i L))) ids = Ok ids' /\
    length ids' = n * d /\ firstn (size (firstn (S i) L)) ids' = concat (firstn (S i) L) /\
    (forall k l j v, S i <= k -> nth_error L k = Some l -> nth_error l j = Some v -> nth_error ids' (k * d + j) = Some v).
Proof.
  intros i l ids Hl Hlen Hpre Hpost. unfold copy_row.
  assert (Hi : i < n) by exact (nth_lt _ _ _ Hl).
  rewrite (rd_some (map (@length A) L) i (length l)) by (rewrite nth_error_map, Hl; reflexivity). cbn [bind].
  pose proof (Hd i l Hl) as Hld. pose proof (size_le L d i Hd ltac:(lia)) as Hs.
  assert (Hroom : (i + 1) * d <= n * d) by (apply Nat.mul_le_mono_r; lia).
  destruct (for_inv (fun k (a : list A) => length a = n * d /\
      firstn (size (firstn i L) + k) a = concat (firstn i L) ++ firstn k l /\
      (forall j v, k <= j -> nth_error l j = Some v -> nth_error a (i * d + j) = Some v) /\
      (forall k l j v, S i <= k -> nth_error L k = Some l -> nth_error l j = Some v -> nth_error a (k * d + j) = Some v))
    (fun j ids => do v <- rdz ids (Z.of_nat (i * d) + Z.of_nat j); wrz ids (Z.of_nat (size (firstn i L)) + Z.of_nat j) v)
    (length l) ids) as [a [E [H1 [H2 [H3 H4]]]]].
  - repeat split; [exact Hlen| | |].
    + rewrite Nat.add_0_r, Hpre. simpl. rewrite app_nil_r. reflexivity.
    + intros j v _ Hj. apply (Hpost i l j v (le_n _) Hl Hj).
    + intros k l' j v Hk. apply Hpost. lia.
  - intros j a Hj [H1 [H2 [H3 H4]]].
    destruct (nth_error l j) as [v|] eqn:Ev; [|apply nth_error_None in Ev; lia].
    rewrite rdz_sum, (rd_some _ _ _ (H3 j v (le_n _) Ev)). cbn [bind]. rewrite wrz_sum.
    exists (upd a (size (firstn i L) + j) v). split; [apply wr_ok; lia|].
    repeat split.
    + rewrite length_upd. exact H1.
    + rewrite <- plus_n_Sm, firstn_upd by lia. rewrite H2, <- app_assoc. f_equal.
      rewrite (firstn_snoc l j v Ev). reflexivity.
    + intros j' v' Hj' Hv'. rewrite nth_upd_other by lia. apply H3; [lia|exact Hv'].
    + intros k l' j' v' Hk Hl' Hv'. rewrite nth_upd_other; [exact (H4 k l' j' v' Hk Hl' Hv')|].
      assert ((i + 1) * d <= k * d) by (apply Nat.mul_le_mono_r; lia). lia.
  - exists a. split; [exact E|]. split; [exact H1|]. split; [|exact H4].
    rewrite (size_snoc L i l Hl), H2, (firstn_snoc L i l Hl), concat_app, firstn_all. simpl. rewrite app_nil_r. reflexivity.
Qed.

Lemma convert_ok : forall update off ids, 0 < n -> length ids = n * d -> rows d ids L ->
  length off = S n -> (forall k, k < n -> nth_error off k = Some (Z.of_nat (k * d))) ->
  exists off', convert blank n d update (map (@length A) L) off ids = Ok (off', concat L ++ repeat blank (n * d - size L)) /\
    if update then length off' = S n /\ forall k, k <= n -> nth_error off' k = Some (Z.of_nat (size (firstn k L))) else off' = off.
Proof.
  intros update off ids Hn Hlen Hrows Hol Ho. unfold convert.
  destruct (nth_error L 0) as [l0|] eqn:E0; [|apply nth_error_None in E0; unfold n in Hn; lia].
  rewrite (rd_some (map (@length A) L) 0 (length l0)) by (rewrite nth_error_map, E0; reflexivity). cbn [bind].
  assert (H0 : firstn (size (firstn 1 L)) ids = concat (firstn 1 L)).
  { destruct (Hrows 0 l0 E0) as [Hl0 Hv]. rewrite (firstn_snoc L 0 l0 E0). simpl. rewrite app_nil_r. unfold size; simpl. rewrite app_nil_r.
    assert (Hge : length l0 <= length ids) by (rewrite Hlen; assert (1 * d <= n * d) by (apply Nat.mul_le_mono_r; lia); lia).
    apply nth_error_ext. intro j. destruct (Nat.lt_ge_cases j (length l0)) as [Hj|Hj].
    - destruct (nth_error l0 j) as [v|] eqn:Ev; [|apply nth_error_None in Ev; lia].
      specialize (Hv j v Ev). simpl in Hv. rewrite <- Hv.
      rewrite <- (firstn_skipn (length l0) ids) at 2. rewrite nth_error_app1; [reflexivity|].
      rewrite firstn_length. lia.
    - rewrite (proj2 (nth_error_None l0 j) Hj). apply nth_error_None. rewrite firstn_length. lia. }
  destruct (loop_inv (fun i (s : @conversion A) =>
      k_count s = size (firstn i L) /\ k_new s = Z.of_nat (size (firstn (i - 1) L)) /\
      length (k_ids s) = n * d /\ firstn (size (firstn i L)) (k_ids s) = concat (firstn i L) /\
      (forall k l j v, i <= k -> nth_error L k = Some l -> nth_error l j = Some v -> nth_error (k_ids s) (k * d + j) = Some v) /\
      length (k_off s) = S n /\
      (forall k, i <= k < n -> nth_error (k_off s) k = Some (Z.of_nat (k * d))) /\
      if update then forall k, k < i -> nth_error (k_off s) k = Some (Z.of_nat (size (firstn k L))) else k_off s = off)
    (convert_element update (map (@length A) L)) (n - 1) 1 (mkConversion (length l0) 0 off ids))
    as [s [E [H1 [H2 [H3 [H4 [H5 [H6 [H7 H8]]]]]]]]].
  - cbn [k_count k_new k_ids k_off]. split; [rewrite (size_snoc L 0 l0 E0); reflexivity|].
    split; [reflexivity|]. split; [exact Hlen|]. split; [exact H0|].
    split; [intros k l j v _ Hl Hv; exact (proj2 (Hrows k l Hl) j v Hv)|].
    split; [exact Hol|]. split; [intros k Hk; apply Ho; lia|].
    destruct update; [|reflexivity]. intros k Hk. replace k with 0 by lia. rewrite Ho by lia. reflexivity.
  - intros i s Hi [H1 [H2 [H3 [H4 [H5 [H6 [H7 H8]]]]]]]. unfold convert_element.
    destruct (nth_error L (i - 1)) as [lp|] eqn:Ep; [|apply nth_error_None in Ep; unfold n in *; lia].
    destruct (nth_error L i) as [l|] eqn:El; [|apply nth_error_None in El; unfold n in *; lia].
    rewrite (rd_some (map (@length A) L) (i - 1) (length lp)) by (rewrite nth_error_map, Ep; reflexivity). cbn [bind].
    rewrite (rd_some _ _ _ (H7 i ltac:(lia))). cbn [bind].
    assert (En : (k_new s + Z.of_nat (length lp))%Z = Z.of_nat (size (firstn i L))).
    { rewrite H2, <- Nat2Z.inj_add, <- (size_snoc L (i - 1) lp Ep). do 3 f_equal. lia. }
    rewrite En. destruct (copy_ok i l (k_ids s) El H3 H4 H5) as [ids' [Ec [C1 [C2 C3]]]]. rewrite Ec. cbn [bind].
    rewrite (rd_some (map (@length A) L) i (length l)) by (rewrite nth_error_map, El; reflexivity). cbn [bind].
    assert (Hc : k_count s + length l = size (firstn (S i) L)) by (rewrite H1, (size_snoc L i l El); reflexivity).
    destruct update.
    + rewrite wr_ok by lia. cbn [bind]. eexists. split; [reflexivity|]. cbn [k_count k_new k_ids k_off].
      split; [exact Hc|]. split; [rewrite Nat.sub_succ, Nat.sub_0_r; reflexivity|].
      split; [exact C1|]. split; [exact C2|]. split; [exact C3|]. split; [rewrite length_upd; exact H6|]. split.
      * intros k Hk. rewrite nth_upd_other by lia. apply H7. lia.
      * intros k Hk. destruct (Nat.eq_dec i k) as [<-|Hne].
        -- apply nth_upd_same. lia.
        -- rewrite nth_upd_other by exact Hne. apply H8. lia.
    + cbn [bind]. eexists. split; [reflexivity|]. cbn [k_count k_new k_ids k_off].
      split; [exact Hc|]. split; [rewrite Nat.sub_succ, Nat.sub_0_r; reflexivity|].
      split; [exact C1|]. split; [exact C2|]. split; [exact C3|]. split; [exact H6|]. split; [|exact H8].
      intros k Hk. apply H7. lia.
  - rewrite E. cbn [bind]. replace (1 + (n - 1)) with n in * by lia.
    assert (EL : firstn n L = L) by apply firstn_all.
    rewrite EL in H1, H4.
    pose proof (size_le L d n Hd (le_n _)) as Hsz. rewrite EL in Hsz.
    assert (Efill : loop (d * n - k_count s) (k_count s) (fun i ids => wr ids i blank) (k_ids s) = Ok (concat L ++ repeat blank (n * d - size L))).
    { destruct (loop_inv (fun i (a : list A) => length a = n * d /\ firstn i a = concat L ++ repeat blank (i - size L))
        (fun i ids => wr ids i blank) (d * n - k_count s) (k_count s) (k_ids s)) as [a [Ea [Ha1 Ha2]]].
      - split; [exact H3|]. rewrite H1, Nat.sub_diag. simpl. rewrite app_nil_r. exact H4.
      - intros i a Hi [Ha1 Ha2]. exists (upd a i blank). split; [apply wr_ok; lia|].
        split; [rewrite length_upd; exact Ha1|]. rewrite firstn_upd by lia. rewrite Ha2, <- app_assoc. f_equal.
        replace (S i - size L) with (S (i - size L)) by lia. symmetry. apply repeat_cons.
      - rewrite Ea. f_equal. replace (k_count s + (d * n - k_count s)) with (n * d) in Ha2 by lia.
        rewrite <- Ha2. rewrite <- Ha1. symmetry. apply firstn_all. }
    destruct update.
    + destruct (nth_error L (n - 1)) as [ll|] eqn:Ell; [|apply nth_error_None in Ell; unfold n in *; lia].
      replace (Z.of_nat n - 1)%Z with (Z.of_nat (n - 1)) by lia.
      rewrite rdz_nat, (rd_some (map (@length A) L) (n - 1) (length ll)) by (rewrite nth_error_map, Ell; reflexivity). cbn [bind].
      rewrite wr_ok by lia. cbn [bind]. rewrite Efill. cbn [bind]. eexists. split; [reflexivity|].
      split; [rewrite length_upd; exact H6|]. intros k Hk.
      destruct (Nat.eq_dec n k) as [<-|Hne].
      * rewrite nth_upd_same by lia. rewrite H2, <- Nat2Z.inj_add, <- (size_snoc L (n - 1) ll Ell). do 4 f_equal. lia.
      * rewrite nth_upd_other by exact Hne. apply H8. lia.
    + cbn [bind]. rewrite Efill. cbn [bind]. eexists. split; [reflexivity|exact H8].
Qed.

(** After a conversion that updates the offsets, the access functions give the rows. *)
Lemma converted_get : forall off' i l,
  (forall k, k <= n -> nth_error off' k = Some (Z.of_nat (size (firstn k L)))) ->
  nth_error L i = Some l -> get_ids off' (concat L ++ repeat blank (n * d - size L)) i = Ok l.
Proof.
  intros off' i l Ho Hl. assert (Hi : i < n) by exact (nth_lt _ _ _ Hl).
  apply (get_ids_ok off' _ i (size (firstn i L)) l).
  - apply Ho. lia.
  - rewrite Ho by lia. rewrite (size_snoc L i l Hl). reflexivity.
  - intros j v Hv. pose proof (nth_concat L i l j v Hl Hv) as H. rewrite nth_error_app1 by exact (nth_lt _ _ _ H). exact H.
Qed.
End Convert.

Lemma same_sizes : forall {A} (L L' : list (list A)), map (@length A) L = map (@length A) L' -> forall k, size (firstn k L) = size (firstn k L').
Proof.
  intros A L; induction L as [|a L IH]; intros [|b L'] H k; try discriminate; [reflexivity|]. simpl in H. inversion H as [[H1 H2]].
  destruct k as [|k]; [reflexivity|]. unfold size; simpl. rewrite !app_length. specialize (IH L' H2 k). unfold size in IH. lia.
Qed.

Lemma convert_all_ok : forall {A} (blank : A) n d num (Ls : list (list (list A))) arrays off,
  0 < n -> Ls <> [] -> length off = S n -> (forall k, k < n -> nth_error off k = Some (Z.of_nat (k * d))) ->
  Forall2 (fun L ids => length L = n /\ map (@length A) L = num /\ length ids = n * d /\ rows d ids L) Ls arrays ->
  exists off', convert_all blank n d num off arrays = Ok (off', map (fun L => concat L ++ repeat blank (n * d - size L)) Ls) /\
    forall L i l, In L Ls -> nth_error L i = Some l -> get_ids off' (concat L ++ repeat blank (n * d - size L)) i = Ok l.
Proof.
  intros A blank n d num Ls arrays off Hn Hne Hol Ho Hall.
  assert (Hmain : exists off', convert_all blank n d num off arrays = Ok (off', map (fun L => concat L ++ repeat blank (n * d - size L)) Ls) /\
    forall L : list (list A), map (@length A) L = num -> forall k, k <= n -> nth_error off' k = Some (Z.of_nat (size (firstn k L)))).
  { induction Hall as [|L ids Ls arrays [H1 [H2 [H3 H4]]] Hall IH]; [congruence|].
    assert (Hd : forall i l, nth_error L i = Some l -> length l <= d) by (intros i l Hl; exact (proj1 (H4 i l Hl))).
    destruct Hall as [|L2 ids2 Ls arrays HL2 Hall].
    - destruct (convert_ok blank d L Hd true off ids) as [off' [E [E1 E2]]]; rewrite ?H1; auto.
      rewrite H1, H2 in E. simpl. rewrite E. cbn [bind fst snd]. exists off'. split; [reflexivity|].
      intros L' HL' k Hk. rewrite H1 in E2. rewrite (E2 k Hk). rewrite (same_sizes L L') by congruence. reflexivity.
    - destruct (convert_ok blank d L Hd false off ids) as [off1 [E E1]]; rewrite ?H1; auto. subst off1.
      rewrite H1, H2 in E. destruct IH as [off' [E' Hget]]; [discriminate|].
      exists off'. split; [|exact Hget].
      change (convert_all blank n d num off (ids :: ids2 :: arrays)) with
        (do r <- convert blank n d false num off ids;
         do r' <- convert_all blank n d num (fst r) (ids2 :: arrays);
         Ok (fst r', snd r :: snd r')).
      rewrite E. cbn [bind fst snd]. rewrite E'. cbn [bind fst snd]. reflexivity. }
  destruct Hmain as [off' [E Hoff]]. exists off'. split; [exact E|]. intros L i l Hin Hl.
  assert (HL : length L = n /\ map (@length A) L = num).
  { clear - Hall Hin. induction Hall as [|L' ids Ls arrays [H1 [H2 _]] Hall IH]; [destruct Hin|].
    destruct Hin as [<-|Hin]; [auto|exact (IH Hin)]. }
  destruct HL as [H1 H2]. rewrite <- H1. apply converted_get; [rewrite H1; exact (Hoff L H2)|exact Hl].
Qed.
