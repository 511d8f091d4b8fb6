(** UpdateMapsC2F_F2C_F2V: the faces that are left are numbered again. *)
From Coq Require Import List ZArith Arith Bool Lia.
From Verif Require Import Prelude Arrays UGrid MeshFaces SpecCellGeo SpecMeshFaces MeshFacesTables MeshFacesSetup MeshFacesPairs.
Import ListNotations.
Local Open Scope nat_scope.

(** ** Ranks *)
Section Rank.
Variable keep : nat -> bool.
Definition rank (f : nat) : nat := length (filter keep (seq 0 f)).
Lemma rank_S f : rank (S f) = rank f + (if keep f then 1 else 0).
Proof. unfold rank. rewrite seq_S, filter_app, app_length. cbn. destruct (keep f); reflexivity. Qed.
Lemma rank_le f f' : f <= f' -> rank f <= rank f'.
Proof. induction 1 as [|m _ IH]; [lia|]. rewrite rank_S. lia. Qed.
Lemma rank_lt f f' : keep f = true -> f < f' -> rank f < rank f'.
Proof. intros K L. pose proof (rank_le (S f) f' L) as H. rewrite rank_S, K in H. lia. Qed.
Lemma rank_inj f f' : keep f = true -> keep f' = true -> rank f = rank f' -> f = f'.
Proof.
  intros K K' E. destruct (lt_eq_lt_dec f f') as [[L|L]|L]; [|exact L|].
  - pose proof (rank_lt f f' K L). lia.
  - pose proof (rank_lt f' f K' L). lia.
Qed.
Lemma rank_bound f : rank f <= f.
Proof. induction f as [|f IH]; [cbn; lia|]. rewrite rank_S. destruct (keep f); lia. Qed.
Lemma rank_surj n k : k < rank n -> exists f, f < n /\ keep f = true /\ rank f = k.
Proof.
  induction n as [|n IH]; [cbn; lia|]. rewrite rank_S. destruct (keep n) eqn:E; intro H.
  - destruct (Nat.eq_dec k (rank n)) as [->|N]; [exists n; split; [lia|]; split; [exact E|reflexivity]|].
    destruct IH as [f [H1 H2]]; [lia|]. exists f. split; [lia|exact H2].
  - destruct IH as [f [H1 H2]]; [lia|]. exists f. split; [lia|exact H2].
Qed.
End Rank.

(** One column is copied. *)
Lemma copy_column r n m t s g v f k : tab t r n g -> tab s r m v -> f < m -> k < n ->
  exists t', for_ r (fun iv t => do v <- rd2 s iv (Z.of_nat f); wr2 t iv (Z.of_nat k) v) t = Ok t' /\
    tab t' r n (fun i j => if j =? k then v i f else g i j).
Proof.
  intros T Q Hf Hk.
  destruct (for_inv (fun p t => tab t r n (fun i j => if (j =? k) && (i <? p) then v i f else g i j))
    (fun iv t => do v <- rd2 s iv (Z.of_nat f); wr2 t iv (Z.of_nat k) v) r t) as [t' [E T']].
  - eapply tab_ext; [exact T|]. intros i j _ _. rewrite andb_false_r. reflexivity.
  - intros p u Hp Tu. rewrite (tab_rd _ _ _ _ p f Q) by assumption. cbn [bind].
    destruct (tab_wr _ _ _ _ p k (v p f) Tu Hp Hk) as [u' [E T']]. exists u'. split; [exact E|].
    eapply tab_ext; [exact T'|]. intros i j Hi Hj. unfold put.
    destruct (Nat.eqb_spec i p); destruct (Nat.eqb_spec j k); cbn [andb]; subst;
      destruct (Nat.ltb_spec i (S p)) || destruct (Nat.ltb_spec p (S p)); try destruct (Nat.ltb_spec i p); try reflexivity; lia.
  - exists t'. split; [exact E|]. eapply tab_ext; [exact T'|]. intros i j Hi _. cbv beta. destruct (Nat.ltb_spec i r); [|lia].
    rewrite andb_true_r. reflexivity.
Qed.

Section Update.
Variables (ng : nat) (f2c f2v : table) (h v : nat -> nat -> Z).
Hypothesis Th : tab f2c 2 (6 * ng) h.
Hypothesis Tv : tab f2v 4 (6 * ng) v.
Definition kept (h : nat -> nat -> Z) (f : nat) : bool := (0 <=? h 0%nat f)%Z.
Notation rk := (rank (kept h)).

Lemma count_faces_ok : count_faces ng f2c = Ok (rk (6 * ng)).
Proof.
  unfold count_faces. match goal with |- for_ ?n ?B ?x = _ => destruct (for_inv (fun f s => s = rk f) B n x) as [s [E H]] end.
  - reflexivity.
  - intros f n Hf ->. rewrite (tab_rd _ _ _ _ 0 f Th) by lia. cbn [bind]. eexists; split; [reflexivity|].
    rewrite rank_S. unfold kept. destruct (0 <=? h 0%nat f)%Z; lia.
  - rewrite E, H. reflexivity.
Qed.

Lemma compress_vertices_ok : exists t w, compress_vertices ng f2c f2v (rk (6 * ng)) = Ok t /\ tab t 4 (rk (6 * ng)) w /\
  forall f i, f < 6 * ng -> kept h f = true -> i < 4 -> w i (rk f) = v i f.
Proof.
  unfold compress_vertices. match goal with |- context [for_ ?n ?B ?x] =>
    destruct (for_inv (fun f '(t, k) => k = rk f /\ exists w, tab t 4 (rk (6 * ng)) w /\
      forall f' i, f' < f -> kept h f' = true -> i < 4 -> w i (rk f') = v i f') B n x) as [[t k] [E [_ [w [T W]]]]] end.
  - split; [reflexivity|]. eexists. split; [apply tab_alloc|]. intros; lia.
  - intros f [t k] Hf [-> [w [T W]]]. rewrite (tab_rd _ _ _ _ 0 f Th) by lia. cbn [bind]. fold (kept h f).
    destruct (kept h f) eqn:K.
    + pose proof (rank_lt (kept h) f (6 * ng) K Hf) as L.
      destruct (copy_column 4 _ _ t f2v w v f (rk f) T Tv Hf L) as [t' [E T']]. rewrite E. cbn [bind].
      eexists; split; [reflexivity|]. cbv beta iota. split; [rewrite rank_S, K; lia|]. eexists. split; [exact T'|]. cbv beta.
      intros f' i Hf' K' Hi. destruct (Nat.eq_dec f' f) as [->|N].
      * rewrite Nat.eqb_refl. reflexivity.
      * destruct (Nat.eqb_spec (rk f') (rk f)) as [X|_]; [apply rank_inj in X; [contradiction|exact K'|exact K]|]. apply W; [lia|exact K'|exact Hi].
    + eexists; split; [reflexivity|]. cbv beta iota. split; [rewrite rank_S, K; lia|]. exists w. split; [exact T|].
      intros f' i Hf' K' Hi. apply W; [|exact K'|exact Hi]. assert (f' <> f) by congruence. lia.
  - rewrite E. cbn [bind fst]. exists t, w. split; [reflexivity|]. split; [exact T|]. exact W.
Qed.

Lemma compress_cells_ok : exists t tmp w, compress_cells ng f2c (rk (6 * ng)) = Ok (t, tmp) /\ tab t 2 (rk (6 * ng)) w /\
  (forall f i, f < 6 * ng -> kept h f = true -> i < 2 -> w i (rk f) = h i f) /\
  (forall f, f < 6 * ng -> nth_error tmp f = Some (if kept h f then Z.of_nat (rk f) else (-1)%Z)).
Proof.
  unfold compress_cells. match goal with |- context [for_ ?n ?B ?x] =>
    destruct (for_inv (fun f '(t, tmp, k) => k = rk f /\ length tmp = 6 * ng /\
      (forall f', f' < 6 * ng -> nth_error tmp f' = Some (if (f' <? f) && kept h f' then Z.of_nat (rk f') else (-1)%Z)) /\ exists w, tab t 2 (rk (6 * ng)) w /\
      forall f' i, f' < f -> kept h f' = true -> i < 2 -> w i (rk f') = h i f') B n x) as [[[t tmp] k] [E [_ [_ [M [w [T W]]]]]]] end.
  - split; [reflexivity|]. split; [apply repeat_length|]. split; [intros f' Hf'; cbn [Nat.ltb andb]; apply nth_error_repeat, Hf'|].
    eexists. split; [apply tab_alloc|]. intros; lia.
  - intros f [[t tmp] k] Hf [-> [Lt [M [w [T W]]]]]. rewrite (tab_rd _ _ _ _ 0 f Th) by lia. cbn [bind].
    assert (EK : (-1 <? h 0%nat f)%Z = kept h f) by (unfold kept; destruct (Z.ltb_spec (-1) (h 0%nat f)); destruct (Z.leb_spec 0 (h 0%nat f)); lia || reflexivity).
    rewrite EK. destruct (kept h f) eqn:K.
    + pose proof (rank_lt (kept h) f (6 * ng) K Hf) as L.
      destruct (copy_column 2 _ _ t f2c w h f (rk f) T Th Hf L) as [t' [E T']]. rewrite E. cbn [bind].
      rewrite wr_ok by lia. cbn [bind].
      eexists; split; [reflexivity|]. cbv beta iota. split; [rewrite rank_S, K; lia|]. rewrite length_upd. split; [exact Lt|]. split.
      { intros f' Hf'. destruct (Nat.eq_dec f f') as [<-|N].
        - rewrite nth_upd_same by lia. rewrite K. destruct (Nat.ltb_spec f (S f)); [reflexivity|lia].
        - rewrite nth_upd_other by exact N. rewrite M by exact Hf'.
          destruct (Nat.ltb_spec f' f); destruct (Nat.ltb_spec f' (S f)); try lia; reflexivity. }
      eexists. split; [exact T'|]. cbv beta.
      intros f' i Hf' K' Hi. destruct (Nat.eq_dec f' f) as [->|N].
      * rewrite Nat.eqb_refl. reflexivity.
      * destruct (Nat.eqb_spec (rk f') (rk f)) as [X|_]; [apply rank_inj in X; [contradiction|exact K'|exact K]|]. apply W; [lia|exact K'|exact Hi].
    + eexists; split; [reflexivity|]. cbv beta iota. split; [rewrite rank_S, K; lia|]. split; [exact Lt|]. split.
      { intros f' Hf'. rewrite M by exact Hf'. destruct (Nat.eq_dec f' f) as [->|N]; [rewrite K, !andb_false_r; reflexivity|].
        destruct (Nat.ltb_spec f' f); destruct (Nat.ltb_spec f' (S f)); try lia; reflexivity. }
      exists w. split; [exact T|]. intros f' i Hf' K' Hi. apply W; [|exact K'|exact Hi]. assert (f' <> f) by congruence. lia.
  - rewrite E. cbn [bind]. exists t, tmp, w. split; [reflexivity|]. split; [exact T|]. split; [exact W|].
    intros f Hf. rewrite M by exact Hf. destruct (Nat.ltb_spec f (6 * ng)); [reflexivity|lia].
Qed.
End Update.

Section Mesh.
Variables (nl ng : nat) (cnv : list nat) (cv : list (list Z)) (nbs : list (nat * list Z)).
Hypothesis CF : conforming nl ng cnv cv nbs.
Notation kind := (kind cnv).
Notation nf := (nf cnv).
Notation slot := (slot cnv).
Notation start := (start cnv).
Notation common := (common cnv cv).
Variables (P : nat -> nat -> Prop) (g h : nat -> nat -> Z).
Hypothesis U : upward ng P.
Hypothesis Pa : paired ng cnv cv P g h.
Notation rk := (rank (kept h)).

(** The face that stands for a side. *)
Definition face (c i : nat) : nat := Z.to_nat (g i c).
Lemma face_cases c i : c < ng -> i < nf c ->
  g i c = Z.of_nat (face c i) /\ kept h (face c i) = true /\
  ((exists b k, P b c /\ b < ng /\ k < nf b /\ common b k c i /\ face c i = slot b k) \/
   ((forall b k, P b c -> ~ common b k c i) /\ face c i = slot c i)).
Proof.
  intros Hc Hi. destruct Pa as [A [B _]]. unfold face. destruct (A c i Hc Hi) as [[b [k [Hb [C [G _]]]]]|[N [G H0]]]; rewrite G, Nat2Z.id.
  - split; [reflexivity|]. destruct (U _ _ Hb) as [Lb _]. assert (Hb' : b < ng) by lia.
    destruct (common_range nl ng cnv cv nbs CF _ _ _ _ Hb' Hc C) as [Hk _]. split.
    + unfold kept. destruct (A b k Hb' Hk) as [[a [q [Ha [C' _]]]]|[_ [_ H0]]]; [|rewrite H0; apply Z.leb_le; lia].
      exfalso. destruct (U _ _ Ha) as [La _].
      destruct (mate_unique nl ng cnv cv nbs CF b k c i a q Hb' Hc ltac:(lia) ltac:(lia) ltac:(lia) C (common_sym _ _ _ _ _ _ C')) as [E _]. lia.
    + left. exists b, k. split; [exact Hb|]. split; [exact Hb'|]. split; [exact Hk|]. split; [exact C|reflexivity].
  - split; [reflexivity|]. split; [unfold kept; rewrite H0; apply Z.leb_le; lia|]. right. split; [exact N|reflexivity].
Qed.
Lemma face_bound c i : c < ng -> i < nf c -> face c i < 6 * ng.
Proof.
  intros Hc Hi. destruct (face_cases c i Hc Hi) as [_ [_ [[b [k [_ [Hb [Hk [_ ->]]]]]]|[_ ->]]]]; apply slot_bound6; assumption.
Qed.
(** The two cells of a kept face. *)
Lemma kept_slot f : f < 6 * ng -> kept h f = true ->
  exists c i, c < ng /\ i < nf c /\ f = slot c i /\ face c i = f /\ h 0 f = Z.of_nat c /\
  ((exists d j, P c d /\ common c i d j /\ d < ng /\ j < nf d /\ h 1 f = Z.of_nat d /\ face d j = f) \/
   ((forall d j, P c d -> ~ common c i d j) /\ h 1 f = (-1)%Z)).
Proof.
  intros Hf K. destruct Pa as [A [B [F _]]]. unfold kept in K. apply Z.leb_le in K.
  destruct (Nat.lt_ge_cases f (start ng)) as [L|L]; [|rewrite F in K by lia; lia].
  destruct (slot_surj cnv ng f L) as [c [i [Hc [Hi ->]]]]. exists c, i. split; [exact Hc|]. split; [exact Hi|]. split; [reflexivity|].
  destruct (A c i Hc Hi) as [[b [k [Hb [_ [_ H0]]]]]|[N [G H0]]].
  - exfalso. destruct (U _ _ Hb) as [Lb _]. rewrite H0 in K. lia.
  - split; [unfold face; rewrite G; apply Nat2Z.id|]. split; [exact H0|]. destruct (B c i Hc Hi) as [[d [j [Hd [C H1]]]]|R]; [left|right; exact R].
    destruct (U _ _ Hd) as [Ld Hd']. destruct (common_range nl ng cnv cv nbs CF _ _ _ _ Hc Hd' C) as [_ Hj].
    exists d, j. split; [exact Hd|]. split; [exact C|]. split; [exact Hd'|]. split; [exact Hj|]. split; [exact H1|].
    destruct (A d j Hd' Hj) as [[b [k [Hb [C' [G' _]]]]]|[N' _]]; [|exfalso; apply (N' c i Hd C)].
    destruct (U _ _ Hb) as [Lb _].
    destruct (mate_unique nl ng cnv cv nbs CF d j c i b k Hd' Hc ltac:(lia) ltac:(lia) ltac:(lia) (common_sym _ _ _ _ _ _ C) (common_sym _ _ _ _ _ _ C')) as [<- <-].
    unfold face. rewrite G'. apply Nat2Z.id.
Qed.
(** Which sides have the same face. *)
Lemma face_eq c i c' i' : c < ng -> i < nf c -> c' < ng -> i' < nf c' -> face c i = face c' i' ->
  (c = c' /\ i = i') \/ (P c c' /\ common c i c' i') \/ (P c' c /\ common c' i' c i).
Proof.
  intros Hc Hi Hc' Hi' E.
  destruct (face_cases c i Hc Hi) as [_ [_ [[b [k [Hb [Lb [Hk [C Eb]]]]]]|[N Eb]]]];
  destruct (face_cases c' i' Hc' Hi') as [_ [_ [[b' [k' [Hb' [Lb' [Hk' [C' Eb']]]]]]|[N' Eb']]]]; rewrite Eb, Eb' in E;
  match type of E with slot ?x ?y = slot ?z ?w => destruct (slot_inj cnv x y z w) as [? ?]; try assumption; subst end.
  - left. destruct (U _ _ Hb) as [L1 _]. destruct (U _ _ Hb') as [L2 _].
    apply (mate_unique nl ng cnv cv nbs CF b' k' c i c' i' Lb' Hc Hc' ltac:(lia) ltac:(lia) C C').
  - right. right. split; assumption.
  - right. left. split; assumption.
  - left. split; reflexivity.
Qed.

(** ** Renumbering *)
Variables (f2c' : table) (tmp : list Z) (w : nat -> nat -> Z).
Hypothesis Tw : tab f2c' 2 (rk (6 * ng)) w.
Hypothesis W : forall f i, f < 6 * ng -> kept h f = true -> i < 2 -> w i (rk f) = h i f.
Hypothesis M : forall f, f < 6 * ng -> nth_error tmp f = Some (if kept h f then Z.of_nat (rk f) else (-1)%Z).

Lemma renumber_one_ok t q k c i : tab t 6 ng q -> c < ng -> i < nf c -> k < 6 * ng ->
  q i c = g i c -> rk (face c i) = k ->
  (forall i', i' < nf c -> i' <> i -> (q i' c = g i' c /\ rk (face c i') <> k) \/ (exists r, q i' c = Z.of_nat r /\ r < k)) ->
  exists t', renumber_one cnv tmp (Z.of_nat k) (Z.of_nat c) t = Ok t' /\ tab t' 6 ng (put q i c (Z.of_nat k)).
Proof.
  intros T Hc Hi Hk Q E O. unfold renumber_one. destruct (Z.ltb_spec (Z.of_nat c) 0); [lia|].
  rewrite (kind_ok _ _ _ _ _ CF c Hc). cbn [bind]. pose proof (nf6 cnv c) as N6.
  rewrite (first_some_at _ (NumFaces (kind c)) 0 i i).
  - cbn [bind]. apply tab_wr; [exact T|lia|exact Hc].
  - unfold nf in Hi. lia.
  - intros i' Hi'. assert (Li' : i' < nf c) by lia. rewrite (tab_rd _ _ _ _ i' c T) by lia. cbn [bind].
    destruct (O i' Li' ltac:(lia)) as [[Q' R]|[r [Q' R]]]; rewrite Q'.
    + destruct (face_cases c i' Hc Li') as [G [K _]]. rewrite G. destruct (Z.ltb_spec (Z.of_nat (face c i')) 0); [lia|].
      rewrite (rdz_nat _ _ _ (M _ (face_bound c i' Hc Li'))). cbn [bind]. rewrite K.
      destruct (Z.eqb_spec (Z.of_nat k) (Z.of_nat (rk (face c i')))); [lia|reflexivity].
    + destruct (Z.ltb_spec (Z.of_nat r) 0); [lia|]. rewrite (rdz_nat _ _ _ (M r ltac:(lia))). cbn [bind].
      pose proof (rank_bound (kept h) r). destruct (kept h r); [destruct (Z.eqb_spec (Z.of_nat k) (Z.of_nat (rk r)))|destruct (Z.eqb_spec (Z.of_nat k) (-1))]; try lia; reflexivity.
  - rewrite (tab_rd _ _ _ _ i c T) by lia. cbn [bind]. rewrite Q. destruct (face_cases c i Hc Hi) as [G [K _]]. rewrite G.
    destruct (Z.ltb_spec (Z.of_nat (face c i)) 0); [lia|]. rewrite (rdz_nat _ _ _ (M _ (face_bound c i Hc Hi))). cbn [bind]. rewrite K, E, Z.eqb_refl. reflexivity.
Qed.

Definition renumbered (k : nat) (q : nat -> nat -> Z) : Prop :=
  forall c i, c < ng -> i < nf c -> q i c = if rk (face c i) <? k then Z.of_nat (rk (face c i)) else g i c.

Lemma renumber_ok t : tab t 6 ng g -> exists t' q, renumber cnv tmp f2c' (rk (6 * ng)) t = Ok t' /\ tab t' 6 ng q /\
  (forall c i, c < ng -> i < nf c -> q i c = Z.of_nat (rk (face c i))) /\
  (forall c i, nf c <= i -> q i c = (-1)%Z).
Proof.
  intro T. unfold renumber.
  match goal with |- context [for_ ?n ?B ?x] => destruct (for_inv (fun k t => exists q, tab t 6 ng q /\ renumbered k q /\ forall c i, nf c <= i -> q i c = (-1)%Z) B n x) as [t' [E [q [T' [R R2]]]]] end.
  - exists g. split; [exact T|]. split; [intros c i _ _; reflexivity|apply Pa].
  - intros k t1 Hk [q [T1 [R R2]]]. unfold renumbered in R. unfold renumbered. destruct (rank_surj (kept h) _ _ Hk) as [f [Hf [K Ek]]].
    destruct (kept_slot f Hf K) as [c [i [Hc [Hi [_ [Fc [H0 Mate]]]]]]].
    unfold for_. cbn [loop]. rewrite (tab_rd _ _ _ _ 0 k Tw) by lia. cbn [bind]. replace (w 0 k) with (h 0 f) by (rewrite <- Ek; symmetry; apply W; assumption || lia). rewrite H0.
    assert (Lk : k < 6 * ng) by (pose proof (rank_bound (kept h) (6 * ng)); lia).
    assert (Others : forall q', (forall c' i', c' < ng -> i' < nf c' -> rk (face c' i') <> k -> q' i' c' = q i' c') ->
      forall c i, c < ng -> i < nf c -> face c i = f ->
      forall i', i' < nf c -> i' <> i -> (q' i' c = g i' c /\ rk (face c i') <> k) \/ (exists r, q' i' c = Z.of_nat r /\ r < k)).
    { intros q' Hq' c1 i1 Hc1 Hi1 F1 i' Hi' Ni'. assert (NE : rk (face c1 i') <> k).
      { intro X. rewrite <- Ek in X. apply rank_inj in X; [|apply face_cases; assumption|exact K].
        assert (X' : face c1 i1 = face c1 i') by congruence.
        destruct (face_eq _ _ _ _ Hc1 Hi1 Hc1 Hi' X') as [[_ Y]|[[Y _]|[Y _]]]; [congruence|destruct (U _ _ Y); lia|destruct (U _ _ Y); lia]. }
      rewrite Hq' by assumption. rewrite R by assumption. destruct (Nat.ltb_spec (rk (face c1 i')) k).
      - right. exists (rk (face c1 i')). split; [reflexivity|assumption].
      - left. split; [reflexivity|exact NE]. }
    assert (Same : forall c i, c < ng -> i < nf c -> face c i = f -> q i c = g i c).
    { intros c1 i1 Hc1 Hi1 F1. rewrite R by assumption. rewrite F1, Ek. destruct (Nat.ltb_spec k k); [lia|reflexivity]. }
    destruct (renumber_one_ok t1 q k c i T1 Hc Hi Lk (Same c i Hc Hi Fc)) as [t2 [E2 T2]];
      [rewrite Fc; exact Ek|apply (Others q (fun _ _ _ _ _ => eq_refl) c i Hc Hi Fc)|].
    rewrite E2. cbn [bind]. rewrite (tab_rd _ _ _ _ 1 k Tw) by lia. cbn [bind]. replace (w 1 k) with (h 1 f) by (rewrite <- Ek; symmetry; apply W; assumption || lia).
    destruct Mate as [[d [j [Hd [C [Hd' [Hj [H1 Fd]]]]]]]|[Nm H1]]; rewrite H1.
    + destruct (U _ _ Hd) as [Lcd _].
      assert (Q1 : forall c' i', c' < ng -> i' < nf c' -> rk (face c' i') <> k -> put q i c (Z.of_nat k) i' c' = q i' c').
      { intros c' i' Hc' Hi' X. apply put_other. destruct (Nat.eq_dec i' i) as [->|]; [right|left; assumption]. intros ->. apply X. rewrite Fc. exact Ek. }
      destruct (renumber_one_ok t2 (put q i c (Z.of_nat k)) k d j T2 Hd' Hj Lk) as [t3 [E3 T3]].
      * rewrite put_other by (right; lia). apply Same; assumption.
      * rewrite Fd. exact Ek.
      * apply (Others _ Q1 d j Hd' Hj Fd).
      * rewrite E3. cbn [bind]. eexists; split; [reflexivity|]. eexists; split; [exact T3|]. split.
        2:{ intros c' i' Hi'. rewrite !put_other; [apply R2, Hi'| |].
            - destruct (Nat.eq_dec c' c) as [->|Nc]; [left; lia|right; exact Nc].
            - destruct (Nat.eq_dec c' d) as [->|Nc]; [left; lia|right; exact Nc]. }
        intros c' i' Hc' Hi'. destruct (Nat.eq_dec (rk (face c' i')) k) as [X|X].
        -- rewrite X. destruct (Nat.ltb_spec k (S k)); [|lia]. rewrite <- Ek in X. apply rank_inj in X; [|apply face_cases; assumption|exact K].
           assert (X' : face c' i' = face c i) by congruence.
           destruct (face_eq _ _ _ _ Hc' Hi' Hc Hi X') as [[-> ->]|[[Y Y']|[Y Y']]].
           ++ rewrite put_other by (right; lia). apply put_same.
           ++ exfalso. destruct (U _ _ Y) as [Ly _]. destruct (mate_unique nl ng cnv cv nbs CF c i d j c' i' Hc Hd' Hc' ltac:(lia) ltac:(lia) C (common_sym _ _ _ _ _ _ Y')) as [Z0 _]. lia.
           ++ destruct (U _ _ Y) as [Ly _]. destruct (mate_unique nl ng cnv cv nbs CF c i d j c' i' Hc Hd' Hc' ltac:(lia) ltac:(lia) C Y') as [<- <-]. apply put_same.
        -- rewrite put_other; [rewrite Q1 by assumption; rewrite R by assumption|].
           ++ destruct (Nat.ltb_spec (rk (face c' i')) k); destruct (Nat.ltb_spec (rk (face c' i')) (S k)); try lia; reflexivity.
           ++ destruct (Nat.eq_dec i' j) as [->|]; [right|left; assumption]. intros ->. apply X. rewrite Fd. exact Ek.
    + unfold renumber_one. cbn [Z.ltb Z.compare bind]. eexists; split; [reflexivity|]. eexists; split; [exact T2|]. split.
      2:{ intros c' i' Hi'. rewrite put_other; [apply R2, Hi'|]. destruct (Nat.eq_dec c' c) as [->|Nc]; [left; lia|right; exact Nc]. }
      intros c' i' Hc' Hi'. destruct (Nat.eq_dec (rk (face c' i')) k) as [X|X].
      * rewrite X. destruct (Nat.ltb_spec k (S k)); [|lia]. rewrite <- Ek in X. apply rank_inj in X; [|apply face_cases; assumption|exact K].
        assert (X' : face c' i' = face c i) by congruence.
        destruct (face_eq _ _ _ _ Hc' Hi' Hc Hi X') as [[-> ->]|[[Y Y']|[Y Y']]]; [apply put_same| |exfalso; apply (Nm _ _ Y Y')].
        exfalso. destruct (face_cases c i Hc Hi) as [_ [_ [[b [k1 [Hb [Lb [Hk1 [Cb Eb]]]]]]|[Nb _]]]]; [|apply (Nb _ _ Y Y')].
        (* the face would belong to a smaller cell *)
        destruct Pa as [A _]. destruct (U _ _ Hb) as [Lb2 _]. destruct (kept_slot f Hf K) as [c0 [i0 [Hc0 [Hi0 [Ef [_ [H00 _]]]]]]].
        assert (c0 = c) by lia. subst c0. rewrite Fc, Ef in Eb. apply slot_inj in Eb; [|assumption|assumption]. lia.
      * rewrite put_other; [rewrite R by assumption|].
        -- destruct (Nat.ltb_spec (rk (face c' i')) k); destruct (Nat.ltb_spec (rk (face c' i')) (S k)); try lia; reflexivity.
        -- destruct (Nat.eq_dec i' i) as [->|]; [right|left; assumption]. intros ->. apply X. rewrite Fc. exact Ek.
  - exists t', q. split; [exact E|]. split; [exact T'|]. split; [|exact R2]. intros c i Hc Hi. rewrite R by assumption.
    pose proof (rank_lt (kept h) (face c i) (6 * ng) (proj1 (proj2 (face_cases c i Hc Hi))) (face_bound c i Hc Hi)).
    destruct (Nat.ltb_spec (rk (face c i)) (rk (6 * ng))); [reflexivity|lia].
Qed.
End Mesh.
