(** Proofs about the size of the matrix of transmissibilities. *)
From Coq Require Import List ZArith Bool Arith Lia.
From Verif Require Import Prelude Arrays Mesh Owners SpecOwners OwnersProofs TransSize SpecTransSize.
Import ListNotations.
Local Open Scope nat_scope.

Lemma filter_firstn p (l : list bool) i b : nth_error l i = Some b -> length (filter p (firstn (S i) l)) = length (filter p (firstn i l)) + (if p b then 1 else 0).
Proof.
  revert i. induction l as [|x l IH]; intros i H; [destruct i; discriminate|]. destruct i as [|i].
  - injection H as ->. cbn. destruct (p b); reflexivity.
  - change (firstn (S (S i)) (x :: l)) with (x :: firstn (S i) l). change (firstn (S i) (x :: l)) with (x :: firstn i l). cbn [filter nth_error] in *.
    specialize (IH i H). destruct (p x); cbn [length]; lia.
Qed.
Lemma count_ok p n flags : length flags = n -> count_if p n flags = Ok (length (filter p flags)).
Proof.
  intro L. unfold count_if. match goal with |- for_ _ ?B _ = _ => destruct (for_inv (fun i k => k = length (filter p (firstn i flags))) B n 0) as [k [E ->]] end.
  - reflexivity.
  - intros i k Hi ->. destruct (nth_error flags i) as [b|] eqn:Eb; [|apply nth_error_None in Eb; lia]. rewrite (rd_some _ _ _ Eb). cbn [bind].
    eexists. split; [reflexivity|]. rewrite (filter_firstn p flags i b Eb). destruct (p b); lia.
  - rewrite E. rewrite <- L, firstn_all. reflexivity.
Qed.
Lemma filter_split {A} (p : A -> bool) l : length (filter p l) + length (filter (fun x => negb (p x)) l) = length l.
Proof. induction l as [|x l IH]; [reflexivity|]. cbn. destruct (p x); cbn; lia. Qed.

Theorem counts : forall n s internal, length (b_flags s) = n -> length internal = n ->
  exists a b c, NumberOfLocalFaces n s = Ok a /\ NumberOfNonLocalFaces n s = Ok b /\ NumberOfNonInternalFaces n internal = Ok c /\
    a + b = n /\ a = count_occ Bool.bool_dec (b_flags s) true /\ c = count_occ Bool.bool_dec internal false.
Proof.
  intros n s internal L1 L2. eexists _, _, _. split; [apply count_ok, L1|]. split; [apply count_ok, L1|]. split; [apply count_ok, L2|].
  split; [pose proof (filter_split (fun b => b) (b_flags s)) as X; cbv beta in X; change (fun x => negb x) with negb in X; lia|]. split.
  - generalize (b_flags s). induction l as [|x l IH]; [reflexivity|]. cbn. destruct x; cbn; [rewrite IH|]; auto.
  - clear. induction internal as [|x l IH]; [reflexivity|]. cbn. destruct x; cbn; [|rewrite IH]; auto.
Qed.

(** Loops that run into an access outside an array. *)
Lemma loop_ub {A} (P : A -> Prop) f m : forall k i a, P a -> i <= m < i + k ->
  (forall j a, i <= j < i + k -> P a -> f j a = UB \/ exists a', f j a = Ok a' /\ P a') -> (forall a, P a -> f m a = UB) -> loop k i f a = UB.
Proof.
  induction k as [|k IH]; intros i a Ha Hm H Hf; [lia|]. cbn [loop]. destruct (Nat.eq_dec i m) as [->|Ne]; [rewrite Hf by exact Ha; reflexivity|].
  destruct (H i a ltac:(lia) Ha) as [->|[a' [-> Ha']]]; [reflexivity|]. cbn [bind]. apply IH; [exact Ha'|lia| |exact Hf].
  intros j b Hj. apply H. lia.
Qed.

Lemma filter_seq (p : bool -> bool) d l : length (filter (fun i => p (nth i l d)) (seq 0 (length l))) = length (filter p l).
Proof.
  enough (H : forall k, length (filter (fun i => p (nth (i - k) l d)) (seq k (length l))) = length (filter p l)).
  { specialize (H 0). rewrite <- H. f_equal. apply filter_ext. intro i. rewrite Nat.sub_0_r. reflexivity. }
  induction l as [|x l IH]; intro k; [reflexivity|]. cbn [length seq filter]. rewrite Nat.sub_diag. cbn [nth].
  assert (E : filter (fun i => p (nth (i - k) (x :: l) d)) (seq (S k) (length l)) = filter (fun i => p (nth (i - S k) l d)) (seq (S k) (length l))).
  { apply filter_ext_in. intros i Hi. apply in_seq in Hi. replace (i - k) with (S (i - S k)) by lia. reflexivity. }
  specialize (IH (S k)). rewrite <- E in IH. destruct (p x); cbn [length]; [f_equal|]; exact IH.
Qed.

Section Part.
Variables (cells : list (bool * Z)) (n : nat) (internal : list bool) (off ids : list Z).
Let loc := map fst cells.
Let N := length cells.
Hypothesis FK : faces_known n N internal off ids.

Let FK' : faces_known n (length loc) internal off ids.
Proof. unfold loc. rewrite map_length. exact FK. Qed.

(** What the numbering says about a boundary face. *)
Lemma numbered_index : exists s (num : nat -> nat), identify_faces n loc internal off ids (repeat false n) = Ok s /\
  length (b_flags s) = n /\ b_count s = length (filter negb internal) /\
  (forall f, nth_error internal f = Some false -> 1 <= num f <= b_count s /\ bnd_index off s f = Ok (Z.of_nat (num f) - 1)%Z) /\
  (forall f g, nth_error internal f = Some false -> nth_error internal g = Some false -> f < g -> num f < num g) /\
  (forall k, 1 <= k <= b_count s -> exists f, nth_error internal f = Some false /\ num f = k) /\
  forall f, f < n -> nth_error (b_flags s) f = Some false <-> foreign_face n loc ids f.
Proof.
  destruct (faces_numbered n loc internal off ids FK') as [s [num [E [L1 [L2 [C [R [Mo [Su V]]]]]]]]]. exists s, num.
  destruct FK as [Li [Ld KF]].
  split; [exact E|]. split; [exact L2|]. split; [exact C|]. split; [|split; [exact Mo|split; [exact Su|]]].
  - intros f Hf. split; [apply R, Hf|]. assert (Lf : f < n) by (rewrite <- Li; apply nth_error_Some; congruence).
    destruct (KF f Lf) as [Ho [i [a [b [Hi [Ha [Hb K]]]]]]]. rewrite Hf in Hi. injection Hi as <-.
    destruct (V f false a b Hf Ha Hb) as [_ [Va Vb]]. unfold first_cell, second_cell in Va, Vb. unfold bnd_index. rewrite (rd_some _ _ _ Ho). cbn [bind].
    unfold rdz. destruct (Z.ltb_spec (Z.of_nat (2 * f) + 0) 0); [lia|]. replace (Z.to_nat (Z.of_nat (2 * f) + 0)) with (2 * f) by lia.
    destruct (Z.ltb_spec (Z.of_nat (2 * f) + 1) 0); [lia|]. replace (Z.to_nat (Z.of_nat (2 * f) + 1)) with (2 * f + 1) by lia.
    rewrite (rd_some _ _ _ Va). cbn [bind]. rewrite (rd_some _ _ _ Vb). cbn [bind]. pose proof (R f Hf). f_equal.
    cbv [sides_known] in K. destruct K as [[Ka Kb]|[Ka Kb]].
    + destruct (Z.leb_spec 0 a); [|lia]. destruct (Z.leb_spec 0 a); [|lia]. destruct (Z.leb_spec 0 b); lia.
    + destruct (Z.leb_spec 0 a); [lia|]. destruct (Z.leb_spec 0 (- Z.of_nat (num f))); [lia|]. lia.
  - intros f Lf. destruct (KF f Lf) as [_ [i [a [b [Hi [Ha [Hb K]]]]]]]. destruct (V f i a b Hi Ha Hb) as [Vf _].
    destruct (nth_error (b_flags s) f) as [x|] eqn:Ex; [|apply nth_error_None in Ex; lia]. split.
    + intros X. injection X as ->. split; [exact Lf|]. intros c [Hc|Hc] O.
      * rewrite Ha in Hc. injection Hc as <-. assert (Y : Some false = Some true) by (apply Vf; left; exact O). discriminate.
      * rewrite Hb in Hc. injection Hc as <-. assert (Y : Some false = Some true) by (apply Vf; right; exact O). discriminate.
    + intros [_ F]. destruct x; [|reflexivity]. exfalso. destruct (proj1 Vf eq_refl) as [O|O]; [apply (F a); [left; exact Ha|exact O]|apply (F b); [right; exact Hb|exact O]].
Qed.

Definition outer_list (s : numbering) := filter (fun f => negb (nth f (b_flags s) true)) (seq 0 n).
Lemma outer_counted s : length (b_flags s) = n -> (forall f, f < n -> nth_error (b_flags s) f = Some false <-> foreign_face n loc ids f) ->
  foreign_count n loc ids (length (filter negb (b_flags s))).
Proof.
  intros L V. exists (outer_list s). split; [apply NoDup_filter, seq_NoDup|]. split; [unfold outer_list; rewrite <- L; apply (filter_seq negb true)|].
  intro f. unfold outer_list. rewrite filter_In, in_seq. split.
  - intros [[_ Lf] H]. cbn in Lf. apply V; [exact Lf|]. destruct (nth_error (b_flags s) f) as [x|] eqn:Ex; [|apply nth_error_None in Ex; lia].
    rewrite (nth_error_nth _ _ true Ex) in H. destruct x; [discriminate|reflexivity].
  - intros F. pose proof F as [Lf _]. apply (V f Lf) in F. split; [lia|]. rewrite (nth_error_nth _ _ true F). reflexivity.
Qed.
Lemma foreign_unique a b : foreign_count n loc ids a -> foreign_count n loc ids b -> a = b.
Proof.
  intros [l [Nl [<- Hl]]] [m [Nm [<- Hm]]]. apply Nat.le_antisymm.
  - apply NoDup_incl_length; [exact Nl|]. intros f F. apply Hm, Hl, F.
  - apply NoDup_incl_length; [exact Nm|]. intros f F. apply Hl, Hm, F.
Qed.

Lemma ghosts_split : length (filter fst cells) + ghosts cells = N.
Proof. unfold ghosts, N. pose proof (filter_split (@fst bool Z) cells). lia. Qed.

Lemma columns_are s : length (b_flags s) = n -> forall k, foreign_count n loc ids k -> (forall f, f < n -> nth_error (b_flags s) f = Some false <-> foreign_face n loc ids f) ->
  b_count s = length (filter negb internal) -> columns (length (filter fst cells)) n s internal = Ok (length (filter fst cells) + k + b_count s).
Proof.
  intros L k K V C. unfold columns, NumberOfNonLocalFaces, NumberOfNonInternalFaces. rewrite (count_ok negb n _ L). cbn [bind].
  rewrite (count_ok negb n internal) by apply FK. cbn [bind]. rewrite (foreign_unique k (length (filter negb (b_flags s))) K (outer_counted s L V)), C. reflexivity.
Qed.

(** The stores. *)
Lemma store_ok {A} s num (v : nat -> A) p m : length p = m -> N + b_count s <= m ->
  (forall f, nth_error internal f = Some false -> 1 <= num f <= b_count s /\ bnd_index off s f = Ok (Z.of_nat (num f) - 1)%Z) ->
  (forall f g, nth_error internal f = Some false -> nth_error internal g = Some false -> f < g -> num f < num g) ->
  exists p', store_boundary n N internal off s v p = Ok p' /\ length p' = m /\
    (forall c, c < N -> nth_error p' c = nth_error p c) /\ forall f, nth_error internal f = Some false -> nth_error p' (N + num f - 1) = Some (v f).
Proof.
  intros Lp Hm R Mo. destruct FK as [Li _]. unfold store_boundary.
  destruct (for_inv (fun i q => length q = m /\ (forall c, c < N -> nth_error q c = nth_error p c) /\
      forall f, f < i -> nth_error internal f = Some false -> nth_error q (N + num f - 1) = Some (v f)) (store_face N internal off s v) n p) as [q [E [Lq [Q1 Q2]]]].
  - split; [exact Lp|]. split; [reflexivity|]. intros; lia.
  - intros i q Hi [Lq [Q1 Q2]]. unfold store_face. destruct (nth_error internal i) as [b|] eqn:Eb; [|apply nth_error_None in Eb; lia].
    rewrite (rd_some _ _ _ Eb). cbn [bind]. destruct b.
    + exists q. split; [reflexivity|]. split; [exact Lq|]. split; [exact Q1|]. intros f Hf Ef. apply Q2; [|exact Ef]. destruct (Nat.eq_dec f i) as [->|]; [congruence|lia].
    + destruct (R i Eb) as [Ri ->]. cbn [bind]. unfold wrz. destruct (Z.ltb_spec (Z.of_nat (num i) - 1 + Z.of_nat N) 0); [lia|].
      replace (Z.to_nat (Z.of_nat (num i) - 1 + Z.of_nat N)) with (N + num i - 1) by lia. rewrite wr_ok by lia. eexists. split; [reflexivity|].
      rewrite length_upd. split; [exact Lq|]. split.
      * intros c Hc. rewrite nth_upd_other by lia. apply Q1, Hc.
      * intros f Hf Ef. destruct (Nat.eq_dec f i) as [->|Ne]; [apply nth_upd_same; lia|]. pose proof (Mo f i Ef Eb ltac:(lia)). destruct (R f Ef) as [Rf _].
        rewrite nth_upd_other by lia. apply Q2; [lia|exact Ef].
  - exists q. split; [exact E|]. split; [exact Lq|]. split; [exact Q1|]. intros f Ef. apply Q2; [|exact Ef]. rewrite <- Li. apply nth_error_Some. congruence.
Qed.
Lemma store_ub {A} s num (v : nat -> A) p m : length p = m -> m < N + b_count s -> 1 <= b_count s ->
  (forall f, nth_error internal f = Some false -> 1 <= num f <= b_count s /\ bnd_index off s f = Ok (Z.of_nat (num f) - 1)%Z) ->
  (forall k, 1 <= k <= b_count s -> exists f, nth_error internal f = Some false /\ num f = k) ->
  store_boundary n N internal off s v p = UB.
Proof.
  intros Lp Hm Hb R Su. destruct FK as [Li _]. destruct (Su (b_count s) ltac:(lia)) as [f [Ef Nf]]. assert (Lf : f < n) by (rewrite <- Li; apply nth_error_Some; congruence).
  unfold store_boundary, for_. apply loop_ub with (P := fun q : list A => length q = m) (m := f); [exact Lp|lia| |].
  - intros j q Hj Lq. unfold store_face. destruct (nth_error internal j) as [b|] eqn:Eb; [|apply nth_error_None in Eb; lia].
    rewrite (rd_some _ _ _ Eb). cbn [bind]. destruct b; [right; exists q; auto|]. destruct (R j Eb) as [Rj ->]. cbn [bind]. unfold wrz.
    destruct (Z.ltb_spec (Z.of_nat (num j) - 1 + Z.of_nat N) 0); [left; reflexivity|].
    destruct (Nat.lt_ge_cases (Z.to_nat (Z.of_nat (num j) - 1 + Z.of_nat N)) m) as [X|X].
    + right. rewrite wr_ok by lia. eexists. split; [reflexivity|]. rewrite length_upd. exact Lq.
    + left. unfold wr. destruct (Nat.ltb_spec (Z.to_nat (Z.of_nat (num j) - 1 + Z.of_nat N)) (length q)); [lia|reflexivity].
  - intros q Lq. unfold store_face. rewrite (rd_some _ _ _ Ef). cbn [bind]. destruct (R f Ef) as [Rf ->]. cbn [bind]. unfold wrz.
    destruct (Z.ltb_spec (Z.of_nat (num f) - 1 + Z.of_nat N) 0); [reflexivity|]. unfold wr.
    destruct (Nat.ltb_spec (Z.to_nat (Z.of_nat (num f) - 1 + Z.of_nat N)) (length q)); [lia|reflexivity].
Qed.
End Part.

Theorem room : forall cells gref loc0 gid0 n internal off ids k,
  reported cells gref -> length loc0 = length cells -> length gid0 = length cells -> faces_known n (length cells) internal off ids ->
  foreign_count n (map fst cells) ids k -> ghosts cells <= k ->
  exists loc gid nl s nc, identify_cells gref loc0 gid0 = Ok (loc, gid, nl) /\ identify_faces n loc internal off ids (repeat false n) = Ok s /\
    columns nl n s internal = Ok nc /\
    (forall c, c < length cells -> set_value nc (cell_column c) = Ok tt) /\
    (forall f, nth_error internal f = Some false -> exists col, boundary_column (length cells) off s f = Ok col /\
       (Z.of_nat (length cells) <= col)%Z /\ set_value nc col = Ok tt) /\
    (forall f g col, nth_error internal f = Some false -> nth_error internal g = Some false ->
       boundary_column (length cells) off s f = Ok col -> boundary_column (length cells) off s g = Ok col -> f = g) /\
    forall A (v : nat -> A) p, length p = nc -> exists p', store_boundary n (length cells) internal off s v p = Ok p' /\ length p' = nc /\
      (forall c, c < length cells -> nth_error p' c = nth_error p c) /\
      forall f col, nth_error internal f = Some false -> boundary_column (length cells) off s f = Ok col -> nth_error p' (Z.to_nat col) = Some (v f).
Proof.
  intros cells gref loc0 gid0 n internal off ids k HR H1 H2 FK K HG. destruct (numbered_index cells n internal off ids FK) as [s [num [E [L [C [R [Mo [Su V]]]]]]]].
  pose proof (ghosts_split cells) as GS. eexists _, _, _, s, _. split; [exact (cells_identified cells gref loc0 gid0 HR H1 H2)|]. split; [exact E|]. split; [apply (columns_are cells n internal off ids FK s L k K V C)|].
  assert (BC : forall f, nth_error internal f = Some false -> boundary_column (length cells) off s f = Ok (Z.of_nat (length cells + num f - 1))).
  { intros f Hf. destruct (R f Hf) as [Rf Bf]. unfold boundary_column. rewrite Bf. cbn [bind]. f_equal. lia. }
  split; [|split; [|split]].
  - intros c Hc. unfold set_value, cell_column. destruct (Z.ltb_spec (Z.of_nat c) (Z.of_nat (length (filter fst cells) + k + b_count s))); [reflexivity|lia].
  - intros f Hf. rewrite (BC f Hf). destruct (R f Hf) as [Rf _]. eexists. split; [reflexivity|]. split; [lia|]. unfold set_value.
    match goal with |- (if (?a <? ?b)%Z then _ else _) = _ => destruct (Z.ltb_spec a b); [reflexivity|lia] end.
  - intros f g col Hf Hg Bf Bg. rewrite (BC f Hf) in Bf. rewrite (BC g Hg) in Bg. injection Bf as <-. injection Bg as Eq. destruct (R f Hf) as [Rf _]. destruct (R g Hg) as [Rg _].
    destruct (Nat.lt_trichotomy f g) as [X|[X|X]]; [pose proof (Mo f g Hf Hg X); lia|exact X|pose proof (Mo g f Hg Hf X); lia].
  - intros A v p Lp. destruct (store_ok cells n internal off ids FK s num v p _ Lp ltac:(lia) R Mo) as [p' [Ep [Lp' [P1 P2]]]].
    exists p'. split; [exact Ep|]. split; [exact Lp'|]. split; [exact P1|]. intros f col Hf Bf. rewrite (BC f Hf) in Bf. injection Bf as <-. rewrite Nat2Z.id. apply P2, Hf.
Qed.

Theorem no_room : forall cells gref loc0 gid0 n internal off ids k,
  reported cells gref -> length loc0 = length cells -> length gid0 = length cells -> faces_known n (length cells) internal off ids ->
  foreign_count n (map fst cells) ids k -> k < ghosts cells -> In false internal ->
  exists loc gid nl s nc, identify_cells gref loc0 gid0 = Ok (loc, gid, nl) /\ identify_faces n loc internal off ids (repeat false n) = Ok s /\
    columns nl n s internal = Ok nc /\
    (exists f col, nth_error internal f = Some false /\ boundary_column (length cells) off s f = Ok col /\ set_value nc col = Err) /\
    forall A (v : nat -> A) p, length p = nc -> store_boundary n (length cells) internal off s v p = UB.
Proof.
  intros cells gref loc0 gid0 n internal off ids k HR H1 H2 FK K HG HI. destruct (numbered_index cells n internal off ids FK) as [s [num [E [L [C [R [Mo [Su V]]]]]]]].
  pose proof (ghosts_split cells) as GS. apply In_nth_error in HI. destruct HI as [f0 Hf0]. destruct (R f0 Hf0) as [R0 _].
  eexists _, _, _, s, _. split; [exact (cells_identified cells gref loc0 gid0 HR H1 H2)|]. split; [exact E|]. split; [apply (columns_are cells n internal off ids FK s L k K V C)|]. split.
  - destruct (Su (b_count s) ltac:(lia)) as [f [Hf Nf]]. destruct (R f Hf) as [Rf Bf]. exists f. eexists. split; [exact Hf|]. unfold boundary_column. rewrite Bf. cbn [bind].
    split; [reflexivity|]. unfold set_value. match goal with |- (if (?a <? ?b)%Z then _ else _) = _ => destruct (Z.ltb_spec a b); [lia|reflexivity] end.
  - intros A v p Lp. apply (store_ub cells n internal off ids FK s num v p _ Lp); [lia|lia|exact R|exact Su].
Qed.

(** Two outer faces per ghost cell are enough. *)
Theorem two_faces : forall (cells : list (bool * Z)) n ids k,
  foreign_count n (map fst cells) ids k ->
  (forall c, nth_error (map fst cells) c = Some false -> exists f g, f <> g /\ foreign_face n (map fst cells) ids f /\ foreign_face n (map fst cells) ids g /\
     on_face ids (Z.of_nat c) f /\ on_face ids (Z.of_nat c) g) ->
  ghosts cells <= k.
Proof.
  intros cells n ids k [l [Nl [<- Hl]]] H2. set (loc := map fst cells) in *.
  set (at_side := fun (x : nat * bool) => if snd x then first_cell ids (fst x) else second_cell ids (fst x)).
  assert (X : forall gs, NoDup gs -> (forall c, In c gs -> nth_error loc c = Some false) ->
    exists m : list (nat * bool), length m = 2 * length gs /\ NoDup m /\ forall x, In x m -> In (fst x) l /\ exists c, In c gs /\ at_side x = Some (Z.of_nat c)).
  { induction gs as [|c gs IH]; intros ND Hg; [exists []; split; [reflexivity|split; [constructor|intros x []]]|].
    inversion ND as [|? ? Nc ND']; subst. destruct IH as [m [Lm [Nm Hm]]]; [exact ND'|intros; apply Hg; right; assumption|].
    destruct (H2 c (Hg c (or_introl eq_refl))) as [f [g [Nfg [Ff [Fg [Of Og]]]]]].
    assert (S1 : exists b, at_side (f, b) = Some (Z.of_nat c)) by (destruct Of; [exists true|exists false]; assumption).
    assert (S2 : exists b, at_side (g, b) = Some (Z.of_nat c)) by (destruct Og; [exists true|exists false]; assumption).
    destruct S1 as [b1 S1]. destruct S2 as [b2 S2].
    assert (Out : forall x, at_side x = Some (Z.of_nat c) -> ~ In x m).
    { intros x Sx Ix. destruct (Hm x Ix) as [_ [d [Id Sd]]]. rewrite Sx in Sd. injection Sd as Ed. apply Nat2Z.inj in Ed. subst. contradiction. }
    exists ((f, b1) :: (g, b2) :: m). split; [cbn; lia|]. split.
    - constructor; [|constructor; [apply Out, S2|exact Nm]]. intros [Eq|I]; [injection Eq as Eq _; congruence|exact (Out _ S1 I)].
    - intros x [<-|[<-|Ix]].
      + split; [apply Hl, Ff|]. exists c. split; [left; reflexivity|exact S1].
      + split; [apply Hl, Fg|]. exists c. split; [left; reflexivity|exact S2].
      + destruct (Hm x Ix) as [I1 [d [Id Sd]]]. split; [exact I1|]. exists d. split; [right; exact Id|exact Sd]. }
  set (gs := filter (fun i => negb (nth i loc true)) (seq 0 (length loc))).
  assert (Lg : length gs = ghosts cells).
  { unfold gs. rewrite (filter_seq negb true). unfold ghosts, loc. clear. induction cells as [|x l IH]; [reflexivity|]. cbn. destruct (fst x); cbn; [|f_equal]; exact IH. }
  destruct (X gs) as [m [Lm [Nm Hm]]].
  - apply NoDup_filter, seq_NoDup.
  - intros c Hc. unfold gs in Hc. apply filter_In in Hc. destruct Hc as [Hc Hb]. apply in_seq in Hc. destruct (nth_error loc c) as [b|] eqn:Eb; [|apply nth_error_None in Eb; lia].
    rewrite (nth_error_nth _ _ true Eb) in Hb. destruct b; [discriminate|reflexivity].
  - assert (Y : length m <= length (list_prod l [true; false])).
    { apply NoDup_incl_length; [exact Nm|]. intros [f b] Ix. apply in_prod; [apply (Hm _ Ix)|]. destruct b; cbn; auto. }
    rewrite prod_length in Y. cbn [length] in Y. lia.
Qed.

(** One process. *)
Theorem serial : forall cells n internal off ids, faces_known n (length cells) internal off ids -> (forall c, In c cells -> fst c = true) ->
  ghosts cells = 0 /\ foreign_count n (map fst cells) ids 0.
Proof.
  intros cells n internal off ids [_ [_ KF]] All. split.
  - unfold ghosts. enough (X : filter (fun c : bool * Z => negb (fst c)) cells = []) by (rewrite X; reflexivity).
    clear KF. induction cells as [|x l IH]; [reflexivity|]. cbn. rewrite (All x (or_introl eq_refl)). cbn. apply IH. intros c Hc. apply All. right. exact Hc.
  - exists []. split; [constructor|]. split; [reflexivity|]. intro f. split; [intros []|]. intros [Lf F]. exfalso.
    destruct (KF f Lf) as [_ [i [a [b [_ [Ha [Hb K]]]]]]].
    assert (O : forall c, (0 <= c < Z.of_nat (length cells))%Z -> owned (map fst cells) c).
    { intros c Hc. split; [lia|]. destruct (nth_error cells (Z.to_nat c)) as [x|] eqn:Ex; [|apply nth_error_None in Ex; lia].
      rewrite nth_error_map, Ex. cbn. rewrite (All x (nth_error_In _ _ Ex)). reflexivity. }
    destruct i; cbv [sides_known] in K.
    + apply (F a); [left; exact Ha|apply O, K].
    + destruct K as [[Ka _]|[_ Kb]]; [apply (F a); [left; exact Ha|apply O, Ka]|apply (F b); [right; exact Hb|apply O, Kb]].
Qed.
