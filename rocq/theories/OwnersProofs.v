(** Proofs about the ownership flags. *)
From Coq Require Import List ZArith Bool Arith Lia Permutation.
From Verif Require Import Prelude Arrays Mesh Owners SpecOwners.
Import ListNotations.
Local Open Scope Z_scope.

Lemma rdz_nat {A} (a : list A) (i : nat) v : nth_error a i = Some v -> rdz a (Z.of_nat i) = Ok v.
Proof. intro H. unfold rdz. destruct (Z.ltb_spec (Z.of_nat i) 0); [lia|]. rewrite Nat2Z.id. apply rd_some, H. Qed.
Lemma wrz_nat {A} (a : list A) (i : nat) v : (i < length a)%nat -> wrz a (Z.of_nat i) v = Ok (upd a i v).
Proof. intro H. unfold wrz. destruct (Z.ltb_spec (Z.of_nat i) 0); [lia|]. rewrite Nat2Z.id. apply wr_ok, H. Qed.

Lemma firstn_S {A} (l : list A) k x : nth_error l k = Some x -> firstn (S k) l = firstn k l ++ [x].
Proof.
  revert k; induction l as [|y l IH]; intros [|k] H; simpl in *; try discriminate; [congruence|].
  f_equal. apply IH, H.
Qed.

(** ** Cells *)

Lemma Forall2_nth {A B} (R : A -> B -> Prop) l l' : Forall2 R l l' -> forall i x, nth_error l i = Some x -> exists y, nth_error l' i = Some y /\ R x y.
Proof.
  induction 1 as [|a b l l' H HF IH]; intros [|i] x E; simpl in *; try discriminate.
  - injection E as <-. eauto.
  - apply IH, E.
Qed.

Theorem cells_identified cells gref loc gid :
  reported cells gref -> length loc = length cells -> length gid = length cells ->
  identify_cells gref loc gid = Ok (map fst cells, map snd cells, length (filter fst cells)).
Proof.
  intros R Ll Lg. unfold identify_cells.
  assert (Lr : length gref = length cells) by (clear - R; unfold reported in R; induction R; cbn; congruence).
  rewrite Lr.
  destruct (for_inv (fun k (s : list bool * list Z * nat) => let '(lo, gi, n) := s in
      length lo = length cells /\ length gi = length cells /\ n = length (filter fst (firstn k cells)) /\
      forall i c, (i < k)%nat -> nth_error cells i = Some c -> nth_error lo i = Some (fst c) /\ nth_error gi i = Some (snd c))
    (identify_cell gref) (length cells) (loc, gid, 0%nat)) as [[[lo gi] n] [E [L1 [L2 [En H]]]]].
  - split; [exact Ll|split; [exact Lg|split; [reflexivity|]]]. intros; lia.
  - intros i [[lo gi] n] Hi [L1 [L2 [En H]]].
    destruct (nth_error cells i) as [c|] eqn:Ec; [|apply nth_error_None in Ec; lia].
    destruct (Forall2_nth _ _ _ R i c Ec) as [g [Eg [Hc Hg]]].
    unfold identify_cell. rewrite (rd_some _ _ _ Eg). cbn [bind].
    assert (Hn : forall j x y, (j < S i)%nat -> nth_error cells j = Some x -> 
        nth_error (upd lo i (fst c)) j = Some (fst x) /\ (y = snd c -> nth_error (upd gi i y) j = Some (snd x))).
    { intros j x y Hj Ex. destruct (Nat.eq_dec i j) as [->|Hd].
      - rewrite Ec in Ex. injection Ex as <-. rewrite !nth_upd_same by lia. split; congruence.
      - rewrite !nth_upd_other by assumption. destruct (H j x) as [H1 H2]; [lia|exact Ex|]. auto. }
    rewrite (firstn_S _ _ _ Ec), filter_app, app_length. cbn [filter].
    destruct c as [b z]. cbn [fst snd] in *.
    destruct b; cbn [length].
    + subst g. destruct (Z.leb_spec 0 z); [|lia]. rewrite !wr_ok by lia. cbn [bind].
      eexists; split; [reflexivity|]. cbv beta iota. rewrite !length_upd. do 3 (split; [lia|]).
      intros j x Hj Ex. destruct (Hn j x z Hj Ex) as [H1 H2]. auto.
    + destruct (Z.leb_spec 0 g); [lia|]. rewrite !wr_ok by lia. cbn [bind].
      eexists; split; [reflexivity|]. cbv beta iota. rewrite !length_upd. do 3 (split; [lia|]).
      intros j x Hj Ex. destruct (Hn j x (- g - 1) Hj Ex) as [H1 H2]. split; [exact H1|]. apply H2. lia.
  - rewrite E. subst n. rewrite firstn_all. repeat f_equal.
    + apply nth_error_ext. intro i. rewrite nth_error_map. destruct (nth_error cells i) as [c|] eqn:Ec; cbn [option_map].
      * apply (H i c); [apply (nth_lt _ _ _ Ec)|exact Ec].
      * apply nth_error_None. apply nth_error_None in Ec. lia.
    + apply nth_error_ext. intro i. rewrite nth_error_map. destruct (nth_error cells i) as [c|] eqn:Ec; cbn [option_map].
      * apply (H i c); [apply (nth_lt _ _ _ Ec)|exact Ec].
      * apply nth_error_None. apply nth_error_None in Ec. lia.
Qed.

(** ** Vertices *)

Lemma is_owned_ok loc c : c < Z.of_nat (length loc) -> exists b, is_owned loc c = Ok b /\ (b = true <-> owned loc c).
Proof.
  intro H. unfold is_owned, owned. destruct (Z.leb_spec 0 c) as [H0|H0].
  - unfold rdz. destruct (Z.ltb_spec c 0); [lia|]. destruct (rd_ok loc (Z.to_nat c)) as [b [E N]]; [lia|].
    exists b. split; [exact E|]. rewrite N. split; [intros ->; auto|]. intros [_ K]. congruence.
  - exists false. split; [reflexivity|]. split; [discriminate|]. intros [K _]. lia.
Qed.

Lemma vertex_identified loc num off ids v l flags :
  (exists o, nth_error num v = Some (length l) /\ nth_error off v = Some (Z.of_nat o) /\
      forall j x, nth_error l j = Some x -> nth_error ids (o + j) = Some x) ->
  (forall c, In c l -> c < Z.of_nat (length loc)) -> (v < length flags)%nat -> nth_error flags v = Some false ->
  exists flags', identify_vertex loc num off ids v flags = Ok flags' /\ length flags' = length flags /\
    (forall i, i <> v -> nth_error flags' i = nth_error flags i) /\
    exists b, nth_error flags' v = Some b /\ (b = true <-> exists c, In c l /\ owned loc c).
Proof.
  intros [o [En [Eo Hl]]] Hb Hv Hf. unfold identify_vertex. rewrite (rd_some _ _ _ En). cbn [bind].
  destruct (for_inv (fun k (fl : list bool) => length fl = length flags /\
      (forall i, i <> v -> nth_error fl i = nth_error flags i) /\
      exists b, nth_error fl v = Some b /\ (b = true <-> exists c, In c (firstn k l) /\ owned loc c))
    (fun c flags => do o <- rd off v; do icell <- rdz ids (o + Z.of_nat c); do b <- is_owned loc icell;
       if b then wr flags v true else Ok flags) (length l) flags) as [fl [E [L [Hi Hx]]]].
  - split; [reflexivity|split; [reflexivity|]]. exists false. split; [exact Hf|].
    split; [discriminate|]. intros [c [[] _]].
  - intros j fl Hj [L [Ho [b [Eb Hiff]]]]. rewrite (rd_some _ _ _ Eo). cbn [bind].
    destruct (nth_error l j) as [x|] eqn:Ex; [|apply nth_error_None in Ex; lia].
    rewrite <- Nat2Z.inj_add, (rdz_nat _ _ _ (Hl j x Ex)). cbn [bind].
    destruct (is_owned_ok loc x) as [b' [Ei Hi']]; [apply Hb, (nth_error_In _ _ Ex)|]. rewrite Ei. cbn [bind].
    rewrite (firstn_S _ _ _ Ex). destruct b'.
    + rewrite wr_ok by lia. eexists; split; [reflexivity|]. rewrite length_upd. split; [exact L|].
      split; [intros i Hd; rewrite nth_upd_other by congruence; apply Ho, Hd|].
      exists true. rewrite nth_upd_same by lia. split; [reflexivity|]. split; [|reflexivity].
      intros _. exists x. split; [apply in_or_app; right; left; reflexivity|]. apply Hi'. reflexivity.
    + eexists; split; [reflexivity|]. split; [exact L|split; [exact Ho|]]. exists b. split; [exact Eb|].
      rewrite Hiff. split.
      * intros [c [Hc Hoc]]. exists c. split; [apply in_or_app; left; exact Hc|exact Hoc].
      * intros [c [Hc Hoc]]. apply in_app_or in Hc. destruct Hc as [Hc|[<-|[]]]; [eauto|]. apply Hi' in Hoc. discriminate.
  - exists fl. rewrite firstn_all in Hx. auto.
Qed.

Theorem vertices_identified n loc num off ids L :
  length L = n -> holds_rows num off ids L -> (forall l c, In l L -> In c l -> c < Z.of_nat (length loc)) ->
  exists flags, identify_vertices n loc num off ids (repeat false n) = Ok flags /\ length flags = n /\
    forall v l, nth_error L v = Some l -> (nth_error flags v = Some true <-> exists c, In c l /\ owned loc c).
Proof.
  intros HL HR Hb. unfold identify_vertices.
  destruct (for_inv (fun k (fl : list bool) => length fl = n /\
      (forall i, (k <= i < n)%nat -> nth_error fl i = Some false) /\
      forall v l, (v < k)%nat -> nth_error L v = Some l -> (nth_error fl v = Some true <-> exists c, In c l /\ owned loc c))
    (identify_vertex loc num off ids) n (repeat false n)) as [fl [E [Lf [_ H]]]].
  - split; [apply repeat_length|]. split; [|intros; lia].
    intros i Hi. apply nth_error_repeat. lia.
  - intros i fl Hi [Lf [H1 H2]]. destruct (nth_error L i) as [l|] eqn:El; [|apply nth_error_None in El; lia].
    destruct (vertex_identified loc num off ids i l fl) as [fl' [E [L' [Ho [b [Eb Hiff]]]]]].
    + apply HR, El.
    + intros c. apply Hb. apply (nth_error_In _ _ El).
    + lia.
    + apply H1. lia.
    + exists fl'. split; [exact E|]. split; [congruence|]. split.
      * intros j Hj. rewrite Ho by lia. apply H1. lia.
      * intros v l' Hv El'. destruct (Nat.eq_dec v i) as [->|Hd].
        { rewrite El in El'. injection El' as <-. rewrite Eb, <- Hiff. split; congruence. }
        { rewrite Ho by assumption. apply H2; [lia|exact El']. }
  - exists fl. split; [exact E|]. split; [exact Lf|]. intros v l El. apply H; [|exact El].
    rewrite <- HL. apply (nth_lt _ _ _ El).
Qed.

(** ** Faces *)

Definition settled (N : nat) (loc internal : list bool) (ids ids' : list Z) (flags : list bool) (f : nat) : Prop :=
  forall i a b, nth_error internal f = Some i -> first_cell ids f = Some a -> second_cell ids f = Some b ->
    (nth_error flags f = Some true <-> owned loc a \/ owned loc b) /\
    first_cell ids' f = Some (if i then a else if 0 <=? a then a else - Z.of_nat (S (before internal f))) /\
    second_cell ids' f = Some (if i then b else if 0 <=? a then - Z.of_nat (S (before internal f)) else b).

Lemma rdz_owned loc a : 0 <= a < Z.of_nat (length loc) -> exists b, rdz loc a = Ok b /\ (b = true <-> owned loc a).
Proof.
  intro H. destruct (is_owned_ok loc a) as [b [E K]]; [lia|]. exists b. split; [|exact K].
  unfold is_owned in E. destruct (Z.leb_spec 0 a); [exact E|lia].
Qed.
Lemma not_owned loc a : a < 0 -> ~ owned loc a.
Proof. intros H [K _]. lia. Qed.

Lemma set_flag (flags : list bool) f (mine : bool) :
  nth_error flags f = Some false ->
  exists fl, (if mine then wr flags f true else Ok flags) = Ok fl /\ length fl = length flags /\
    nth_error fl f = Some mine /\ forall j, j <> f -> nth_error fl j = nth_error flags j.
Proof.
  intro H. destruct mine.
  - rewrite wr_ok by apply (nth_lt _ _ _ H). eexists; split; [reflexivity|]. rewrite length_upd.
    split; [reflexivity|]. rewrite nth_upd_same by apply (nth_lt _ _ _ H). split; [reflexivity|].
    intros j Hj. apply nth_upd_other. congruence.
  - eexists; split; [reflexivity|]. auto.
Qed.

Lemma faces_settled n loc internal off ids :
  faces_known n (length loc) internal off ids ->
  exists s, identify_faces n loc internal off ids (repeat false n) = Ok s /\
    length (b_ids s) = length ids /\ length (b_flags s) = n /\ b_count s = before internal n /\
    forall f, (f < n)%nat -> settled (length loc) loc internal ids (b_ids s) (b_flags s) f.
Proof.
  intros [Li [Lids HF]]. unfold identify_faces.
  destruct (for_inv (fun k s => length (b_ids s) = length ids /\ length (b_flags s) = n /\ b_count s = before internal k /\
      (forall f, (f < k)%nat -> settled (length loc) loc internal ids (b_ids s) (b_flags s) f) /\
      (forall j, (2 * k <= j)%nat -> nth_error (b_ids s) j = nth_error ids j) /\
      (forall f, (k <= f < n)%nat -> nth_error (b_flags s) f = Some false))
    (identify_face loc internal off) n (mkNumbering ids (repeat false n) 0)) as [s [E [L1 [L2 [Ec [H _]]]]]].
  - cbn. split; [reflexivity|]. split; [apply repeat_length|]. split; [reflexivity|]. split; [intros; lia|].
    split; [reflexivity|]. intros f Hf. apply nth_error_repeat. lia.
  - intros f s Hf [L1 [L2 [Ec [H [H3 H4]]]]].
    destruct (HF f Hf) as [Eo [i [a [b [Ei [Ea [Eb K]]]]]]].
    unfold identify_face. rewrite (rd_some _ _ _ Eo), (rd_some _ _ _ Ei). cbn [bind].
    assert (Ra : rdz (b_ids s) (Z.of_nat (2 * f) + 0) = Ok a).
    { rewrite Z.add_0_r. apply rdz_nat. rewrite H3 by lia. exact Ea. }
    assert (Rb : rdz (b_ids s) (Z.of_nat (2 * f) + 1) = Ok b).
    { change 1 with (Z.of_nat 1). rewrite <- Nat2Z.inj_add. apply rdz_nat. rewrite H3 by lia. exact Eb. }
    assert (Wa : forall x, wrz (b_ids s) (Z.of_nat (2 * f) + 0) x = Ok (upd (b_ids s) (2 * f) x)).
    { intro x. rewrite Z.add_0_r. apply wrz_nat. lia. }
    assert (Wb : forall x, wrz (b_ids s) (Z.of_nat (2 * f) + 1) x = Ok (upd (b_ids s) (2 * f + 1) x)).
    { intro x. change 1 with (Z.of_nat 1). rewrite <- Nat2Z.inj_add. apply wrz_nat. lia. }
    assert (Bf : before internal (S f) = (before internal f + (if i then 0 else 1))%nat).
    { unfold before. rewrite (firstn_S _ _ _ Ei), filter_app, app_length. f_equal. destruct i; reflexivity. }
    destruct i; cbn [negb].
    + destruct K as [Ka Kb]. rewrite Ra, Rb. cbn [bind].
      destruct (rdz_owned loc a Ka) as [la [Ela Hla]]. destruct (rdz_owned loc b Kb) as [lb [Elb Hlb]].
      rewrite Ela. cbn [bind].
      assert (Em : (if la then Ok true else rdz loc b) = Ok (la || lb)) by (destruct la; [reflexivity|exact Elb]).
      rewrite Em. cbn [bind].
      destruct (set_flag (b_flags s) f (la || lb)) as [fl [Ef [Lf [Hf1 Hf2]]]]; [apply H4; lia|].
      rewrite Ef. cbn [bind]. eexists; split; [reflexivity|]. cbn [b_ids b_flags b_count].
      split; [exact L1|]. split; [congruence|]. split; [lia|].
      split; [|split; [intros j Hj; apply H3; lia|intros g Hg; rewrite Hf2 by lia; apply H4; lia]].
      intros g Hg. destruct (Nat.eq_dec g f) as [->|Hd].
      * intros i' a' b' Ei' Ea' Eb'. rewrite Ei in Ei'. injection Ei' as <-.
        rewrite Ea in Ea'. injection Ea' as <-. rewrite Eb in Eb'. injection Eb' as <-.
        split; [|unfold first_cell, second_cell; rewrite !H3 by lia; split; [exact Ea|exact Eb]].
        rewrite Hf1, <- Hla, <- Hlb. destruct la, lb; cbn; intuition congruence.
      * intros i' a' b' Ei' Ea' Eb'. rewrite Hf2 by assumption. apply (H g); [lia|assumption..].
    + rewrite Ra. cbn [bind]. set (k := S (b_count s)).
      set (ids2 := if 0 <=? a then upd (b_ids s) (2 * f + 1) (- Z.of_nat k) else upd (b_ids s) (2 * f) (- Z.of_nat k)).
      set (c := if 0 <=? a then a else b).
      assert (Er : (if 0 <=? a then do ids <- wrz (b_ids s) (Z.of_nat (2 * f) + 1) (- Z.of_nat k); Ok (a, ids)
              else do b <- rdz (b_ids s) (Z.of_nat (2 * f) + 1); do ids <- wrz (b_ids s) (Z.of_nat (2 * f) + 0) (- Z.of_nat k); Ok (b, ids))
              = Ok (c, ids2)).
      { unfold c, ids2. destruct (0 <=? a); [rewrite Wb; reflexivity|]. rewrite Rb. cbn [bind]. rewrite Wa. reflexivity. }
      rewrite Er. cbn [bind fst snd].
      assert (Kc : 0 <= c < Z.of_nat (length loc) /\ (owned loc c <-> owned loc a \/ owned loc b)).
      { unfold c. destruct (Z.leb_spec 0 a); destruct K as [[K1 K2]|[K1 K2]]; try lia.
        - split; [exact K1|]. pose proof (not_owned loc b K2). tauto.
        - split; [exact K2|]. pose proof (not_owned loc a K1). tauto. }
      destruct Kc as [Kc Koc].
      destruct (is_owned_ok loc c) as [mine [Emine Hm]]; [lia|]. rewrite Emine. cbn [bind].
      destruct (set_flag (b_flags s) f mine) as [fl [Ef [Lf [Hf1 Hf2]]]]; [apply H4; lia|].
      rewrite Ef. cbn [bind]. eexists; split; [reflexivity|]. cbn [b_ids b_flags b_count].
      assert (L3 : length ids2 = length (b_ids s)) by (unfold ids2; destruct (0 <=? a); apply length_upd).
      assert (H5 : forall j, j <> (2 * f)%nat -> j <> (2 * f + 1)%nat -> nth_error ids2 j = nth_error (b_ids s) j).
      { intros j J1 J2. unfold ids2. destruct (0 <=? a); apply nth_upd_other; congruence. }
      split; [congruence|]. split; [congruence|]. split; [unfold k; lia|].
      split; [|split; [intros j Hj; rewrite H5 by lia; apply H3; lia|intros g Hg; rewrite Hf2 by lia; apply H4; lia]].
      intros g Hg. destruct (Nat.eq_dec g f) as [->|Hd].
      * intros i' a' b' Ei' Ea' Eb'. rewrite Ei in Ei'. injection Ei' as <-.
        rewrite Ea in Ea'. injection Ea' as <-. rewrite Eb in Eb'. injection Eb' as <-.
        split; [rewrite Hf1, <- Koc, <- Hm; split; congruence|].
        unfold first_cell, second_cell, ids2. rewrite <- Ec. fold k.
        destruct (0 <=? a).
        { rewrite nth_upd_other by lia. rewrite nth_upd_same by lia. rewrite H3 by lia. split; [exact Ea|reflexivity]. }
        { rewrite nth_upd_same by lia. rewrite nth_upd_other by lia. rewrite H3 by lia. split; [reflexivity|exact Eb]. }
      * intros i' a' b' Ei' Ea' Eb'. rewrite Hf2 by assumption.
        unfold first_cell, second_cell. rewrite !H5 by lia. apply (H g); [lia|assumption..].
  - exists s. auto.
Qed.

Theorem faces_identified n loc internal off ids :
  faces_known n (length loc) internal off ids ->
  exists s, identify_faces n loc internal off ids (repeat false n) = Ok s /\
    length (b_ids s) = length ids /\ length (b_flags s) = n /\
    b_count s = length (filter negb internal) /\
    forall f i a b, nth_error internal f = Some i -> first_cell ids f = Some a -> second_cell ids f = Some b ->
      (nth_error (b_flags s) f = Some true <-> owned loc a \/ owned loc b) /\
      (i = true -> first_cell (b_ids s) f = Some a /\ second_cell (b_ids s) f = Some b) /\
      (i = false -> 0 <= a -> first_cell (b_ids s) f = Some a /\ second_cell (b_ids s) f = Some (- Z.of_nat (S (before internal f)))) /\
      (i = false -> a < 0 -> first_cell (b_ids s) f = Some (- Z.of_nat (S (before internal f))) /\ second_cell (b_ids s) f = Some b).
Proof.
  intro HF. destruct (faces_settled n loc internal off ids HF) as [s [E [L1 [L2 [Ec H]]]]].
  destruct HF as [Li _]. exists s. split; [exact E|]. split; [exact L1|]. split; [exact L2|].
  split; [rewrite Ec; unfold before; rewrite firstn_all2 by lia; reflexivity|].
  intros f i a b Ei Ea Eb. destruct (H f) with (i := i) (a := a) (b := b) as [H1 [H2 H3]]; try assumption.
  { pose proof (nth_lt _ _ _ Ei). lia. }
  split; [exact H1|].
  split; [intros ->; auto|]. split; intros -> Hs; destruct (Z.leb_spec 0 a); try lia; auto.
Qed.

(** The numbers are different from each other and leave no gap. *)
Lemma before_S internal f i : nth_error internal f = Some i -> before internal (S f) = (before internal f + (if i then 0 else 1))%nat.
Proof. intro E. unfold before. rewrite (firstn_S _ _ _ E), filter_app, app_length. f_equal. destruct i; reflexivity. Qed.
Lemma before_le internal f g : (f <= g)%nat -> (before internal f <= before internal g)%nat.
Proof.
  intro H. induction H as [|g H IH]; [lia|].
  destruct (nth_error internal g) as [i|] eqn:E; [rewrite (before_S _ _ _ E); lia|].
  apply nth_error_None in E. unfold before in *. rewrite (firstn_all2 (n := S g)) by lia. rewrite (firstn_all2 (n := g)) in IH by lia. exact IH.
Qed.
Theorem numbers_increase internal f g :
  nth_error internal f = Some false -> (f < g)%nat -> (before internal f < before internal g)%nat.
Proof. intros E H. pose proof (before_le internal (S f) g H). rewrite (before_S _ _ _ E) in H0. lia. Qed.
Theorem numbers_used internal k : (k < length (filter negb internal))%nat ->
  exists f, nth_error internal f = Some false /\ before internal f = k.
Proof.
  intro H.
  assert (G : forall n, (k < before internal n)%nat -> exists f, nth_error internal f = Some false /\ before internal f = k).
  { induction n as [|n IH]; intro K; [unfold before in K; simpl in K; lia|].
    destruct (nth_error internal n) as [i|] eqn:E.
    - rewrite (before_S _ _ _ E) in K. destruct i; [apply IH; lia|].
      destruct (Nat.eq_dec (before internal n) k) as [Ek|Ek]; [exists n; auto|]. apply IH. lia.
    - apply IH. apply nth_error_None in E. unfold before in *. rewrite (firstn_all2 (n := S n)) in K by lia. rewrite (firstn_all2 (n := n)) by lia. exact K. }
  apply (G (length internal)). unfold before. rewrite firstn_all. exact H.
Qed.
Lemma number_below internal f : nth_error internal f = Some false -> (before internal f < length (filter negb internal))%nat.
Proof.
  intro E. pose proof (before_le internal (S f) (length internal) (nth_lt _ _ _ E)).
  rewrite (before_S _ _ _ E) in H. unfold before at 2 in H. rewrite firstn_all in H. lia.
Qed.

(** ** Order *)

Lemma nth_app_mid {A} (a l b : list A) i x : nth_error l i = Some x -> nth_error (a ++ l ++ b) (length a + i) = Some x.
Proof.
  intro H. rewrite nth_error_app2 by lia. replace (length a + i - length a)%nat with i by lia.
  rewrite nth_error_app1 by apply (nth_lt _ _ _ H). exact H.
Qed.

Definition firsts (l : list (Z * Z)) := map fst l.
Definition seconds (l : list (Z * Z)) := map snd l.

Lemma sort_pass_ok ncell a b a' b' l k acc :
  length a' = length a -> (forall p, In p l -> exists m, 0 <= fst p /\ nth_error ncell (Z.to_nat (fst p)) = Some m) ->
  sort_pass ncell (a ++ firsts l ++ b) (a' ++ seconds l ++ b') (Z.of_nat (length a)) (length l) k acc =
    Ok (acc ++ filter (has_cells ncell k) l).
Proof.
  intros La Hn. unfold sort_pass.
  destruct (for_inv (fun i sorted => sorted = acc ++ filter (has_cells ncell k) (firstn i l))
    (fun i sorted => do f <- rdz (a ++ firsts l ++ b) (Z.of_nat (length a) + Z.of_nat i);
       do s <- rdz (a' ++ seconds l ++ b') (Z.of_nat (length a) + Z.of_nat i);
       do m <- rdz ncell f; Ok (if (m =? k)%nat then sorted ++ [(f, s)] else sorted)%list) (length l) acc) as [r [E Er]].
  - cbn. rewrite app_nil_r. reflexivity.
  - intros i s Hi ->. destruct (nth_error l i) as [p|] eqn:Ep; [|apply nth_error_None in Ep; lia].
    rewrite <- Nat2Z.inj_add.
    rewrite (rdz_nat _ _ (fst p)); [|apply nth_app_mid; unfold firsts; apply map_nth_error, Ep].
    cbn [bind]. rewrite (rdz_nat _ _ (snd p)); [|rewrite <- La; apply nth_app_mid; unfold seconds; apply map_nth_error, Ep].
    cbn [bind]. destruct (Hn p) as [m [H0 Hm]]; [apply (nth_error_In _ _ Ep)|].
    unfold rdz. destruct (Z.ltb_spec (fst p) 0); [lia|]. rewrite (rd_some _ _ _ Hm). cbn [bind].
    eexists; split; [reflexivity|]. rewrite (firstn_S _ _ _ Ep), filter_app. cbn [filter].
    assert (Hh : has_cells ncell k p = (m =? k)%nat) by (unfold has_cells; rewrite Hm; reflexivity). rewrite Hh. destruct (m =? k)%nat; [|rewrite app_nil_r; reflexivity].
    rewrite app_assoc. destruct p; reflexivity.
  - rewrite E, Er, firstn_all. reflexivity.
Qed.

Lemma upd_app_mid {A} (a : list A) x (b : list A) y : upd (a ++ x :: b) (length a) y = a ++ y :: b.
Proof. induction a as [|z a IH]; simpl; [reflexivity|]. f_equal. exact IH. Qed.

Definition reordered (ncell : list nat) (l : list (Z * Z)) := filter (has_cells ncell 2) l ++ filter (has_cells ncell 1) l.

Lemma reorder_perm ncell l :
  (forall p, In p l -> exists m, 0 <= fst p /\ nth_error ncell (Z.to_nat (fst p)) = Some m /\ (m = 1%nat \/ m = 2%nat)) ->
  Permutation l (reordered ncell l).
Proof.
  intro H. unfold reordered. induction l as [|p l IH]; [constructor|].
  cbn [filter]. destruct (H p) as [m [_ [Em Hm]]]; [left; reflexivity|].
  assert (Hh : forall k, has_cells ncell k p = (m =? k)%nat) by (intro k; unfold has_cells; rewrite Em; reflexivity).
  rewrite !Hh. destruct Hm as [->| ->]; cbn [Nat.eqb].
  - apply Permutation_cons_app, IH. intros q Hq. apply H. right. exact Hq.
  - apply perm_skip, IH. intros q Hq. apply H. right. exact Hq.
Qed.

Lemma order_row ncell off v a b a' b' l :
  length a' = length a ->
  nth_error off v = Some (Z.of_nat (length a)) -> nth_error off (S v) = Some (Z.of_nat (length a + length l)) ->
  (forall p, In p l -> exists m, 0 <= fst p /\ nth_error ncell (Z.to_nat (fst p)) = Some m /\ (m = 1%nat \/ m = 2%nat)) ->
  order_faces ncell off v (a ++ firsts l ++ b, a' ++ seconds l ++ b') =
    Ok (a ++ firsts (reordered ncell l) ++ b, a' ++ seconds (reordered ncell l) ++ b').
Proof.
  intros La E0 E1 Hn. unfold order_faces, get. rewrite (rd_some _ _ _ E0), (rd_some _ _ _ E1). cbn [bind fst snd].
  replace (Z.to_nat (Z.of_nat (length a + length l) - Z.of_nat (length a))) with (length l) by lia.
  assert (Hn' : forall p, In p l -> exists m, 0 <= fst p /\ nth_error ncell (Z.to_nat (fst p)) = Some m).
  { intros p Hp. destruct (Hn p Hp) as [m [H1 [H2 _]]]. eauto. }
  rewrite (sort_pass_ok ncell a b a' b' l 2 [] La Hn'). cbn [bind].
  rewrite (sort_pass_ok ncell a b a' b' l 1 _ La Hn'). cbn [bind app]. fold (reordered ncell l).
  pose proof (Permutation_length (reorder_perm ncell l Hn)) as Lr.
  set (r := reordered ncell l) in *. clearbody r.
  destruct (for_inv (fun i t => t = (a ++ firsts (firstn i r) ++ firsts (skipn i l) ++ b, a' ++ seconds (firstn i r) ++ seconds (skipn i l) ++ b'))
    (fun i t => do p <- rd r i; do fids <- wrz (fst t) (Z.of_nat (length a) + Z.of_nat i) (fst p);
       do sids <- wrz (snd t) (Z.of_nat (length a) + Z.of_nat i) (snd p); Ok (fids, sids))
    (length l) (a ++ firsts l ++ b, a' ++ seconds l ++ b')) as [t [E Et]].
  - cbn. reflexivity.
  - intros i t Hi ->. destruct (nth_error r i) as [p|] eqn:Ep; [|apply nth_error_None in Ep; lia].
    rewrite (rd_some _ _ _ Ep). cbn [bind fst snd].
    destruct (nth_error l i) as [q|] eqn:Eq; [|apply nth_error_None in Eq; lia].
    assert (Es : skipn i l = q :: skipn (S i) l).
    { clear - Eq. revert i Eq; induction l as [|y l IH]; intros [|i] E; cbn in *; try discriminate; [congruence|]. apply IH, E. }
    rewrite <- Nat2Z.inj_add. rewrite !Es.
    assert (Lf : length (a ++ firsts (firstn i r)) = (length a + i)%nat).
    { rewrite app_length. unfold firsts. rewrite map_length, firstn_length. lia. }
    assert (Ls : length (a' ++ seconds (firstn i r)) = (length a + i)%nat).
    { rewrite app_length. unfold seconds. rewrite map_length, firstn_length. lia. }
    rewrite !wrz_nat; cbn [bind].
    + eexists; split; [reflexivity|]. rewrite (firstn_S _ _ _ Ep). unfold firsts, seconds in *. rewrite !map_app. cbn [map].
      cbn [app]. rewrite !app_assoc. rewrite <- Lf at 1. rewrite upd_app_mid. rewrite <- Ls. rewrite upd_app_mid.
      rewrite <- !app_assoc. reflexivity.
    + rewrite !app_assoc, app_assoc_reverse, app_length. unfold seconds at 2. cbn. lia.
    + rewrite !app_assoc, app_assoc_reverse, app_length. unfold firsts at 2. cbn. lia.
  - rewrite E, Et. rewrite !firstn_all2 by lia. rewrite !skipn_all. reflexivity.
Qed.

Lemma concat_split {A} (L : list (list A)) i l : nth_error L i = Some l -> concat L = concat (firstn i L) ++ l ++ concat (skipn (S i) L).
Proof.
  revert i; induction L as [|y L IH]; intros [|i] E; cbn in *; try discriminate.
  - injection E as ->. reflexivity.
  - rewrite <- app_assoc. f_equal. apply IH, E.
Qed.

Theorem faces_ordered ncell off L ra rb :
  starts L off ->
  (forall l p, In l L -> In p l -> exists m, 0 <= fst p /\ nth_error ncell (Z.to_nat (fst p)) = Some m /\ (m = 1%nat \/ m = 2%nat)) ->
  let L' := map (reordered ncell) L in
  order_all (length L) ncell off (map fst (concat L) ++ ra) (map snd (concat L) ++ rb) =
    Ok (map fst (concat L') ++ ra, map snd (concat L') ++ rb) /\
  starts L' off /\ Forall2 (@Permutation _) L L'.
Proof.
  intros Hs Hn L'.
  assert (HP : Forall2 (@Permutation _) L L').
  { unfold L'. clear Hs. induction L as [|l L IH]; cbn; constructor.
    - apply reorder_perm. intros p. apply Hn. left. reflexivity.
    - apply IH. intros l' p Hl. apply Hn. right. exact Hl. }
  assert (HL : forall i, length (concat (firstn i L')) = length (concat (firstn i L))).
  { clear - HP. induction HP as [|x y l l' H _ IH]; intros [|i]; cbn; try reflexivity.
    rewrite !app_length, IH, (Permutation_length H). reflexivity. }
  split; [|split; [|exact HP]].
  2:{ intros i Hi. unfold L' in Hi. rewrite map_length in Hi. rewrite HL. apply Hs, Hi. }
  unfold order_all.
  set (mix := fun i => firstn i L' ++ skipn i L).
  destruct (for_inv (fun i t => t = (map fst (concat (mix i)) ++ ra, map snd (concat (mix i)) ++ rb))
    (order_faces ncell off) (length L) (map fst (concat L) ++ ra, map snd (concat L) ++ rb)) as [t [E Et]].
  - reflexivity.
  - intros i t Hi ->. destruct (nth_error L i) as [l|] eqn:El; [|apply nth_error_None in El; lia].
    assert (El' : nth_error L' i = Some (reordered ncell l)) by (unfold L'; apply map_nth_error, El).
    assert (Ek : skipn i L = l :: skipn (S i) L).
    { clear - El. revert i El; induction L as [|y l' IH]; intros [|i] E; cbn in *; try discriminate; [congruence|]. apply IH, E. }
    assert (M1 : concat (mix i) = concat (firstn i L') ++ l ++ concat (skipn (S i) L)).
    { unfold mix. rewrite Ek, concat_app. reflexivity. }
    assert (M2 : concat (mix (S i)) = concat (firstn i L') ++ reordered ncell l ++ concat (skipn (S i) L)).
    { unfold mix. rewrite (firstn_S _ _ _ El'), <- app_assoc, concat_app. reflexivity. }
    rewrite M1, M2, !map_app, <- !app_assoc.
    eexists; split; [|reflexivity].
    apply (order_row ncell off i (map fst (concat (firstn i L'))) (map fst (concat (skipn (S i) L)) ++ ra)
                     (map snd (concat (firstn i L'))) (map snd (concat (skipn (S i) L)) ++ rb) l).
    + rewrite !map_length. reflexivity.
    + rewrite map_length, HL. apply Hs. lia.
    + rewrite map_length, HL. rewrite (Hs (S i)) by lia. rewrite (firstn_S _ _ _ El), concat_app, app_length. cbn [concat].
      rewrite app_nil_r. reflexivity.
    + intros p. apply Hn. apply (nth_error_In _ _ El).
  - rewrite E, Et. unfold mix. rewrite skipn_all, app_nil_r. rewrite firstn_all2 by (unfold L'; rewrite map_length; lia). reflexivity.
Qed.

Theorem faces_numbered n loc internal off ids :
  faces_known n (length loc) internal off ids ->
  exists s (num : nat -> nat), identify_faces n loc internal off ids (repeat false n) = Ok s /\
    length (b_ids s) = length ids /\ length (b_flags s) = n /\
    b_count s = length (filter negb internal) /\
    (forall f, nth_error internal f = Some false -> (1 <= num f <= b_count s)%nat) /\
    (forall f g, nth_error internal f = Some false -> nth_error internal g = Some false -> (f < g)%nat -> (num f < num g)%nat) /\
    (forall k, (1 <= k <= b_count s)%nat -> exists f, nth_error internal f = Some false /\ num f = k) /\
    forall f i a b, nth_error internal f = Some i -> first_cell ids f = Some a -> second_cell ids f = Some b ->
      (nth_error (b_flags s) f = Some true <-> owned loc a \/ owned loc b) /\
      first_cell (b_ids s) f = Some (if 0 <=? a then a else - Z.of_nat (num f)) /\
      second_cell (b_ids s) f = Some (if 0 <=? b then b else - Z.of_nat (num f)).
Proof.
  intro HF. destruct (faces_identified n loc internal off ids HF) as [s [E [L1 [L2 [Ec H]]]]].
  exists s, (fun f => S (before internal f)). split; [exact E|]. split; [exact L1|]. split; [exact L2|]. split; [exact Ec|].
  split; [intros f Ef; pose proof (number_below internal f Ef); lia|].
  split; [intros f g Ef _ Hfg; pose proof (numbers_increase internal f g Ef Hfg); lia|].
  split.
  - intros k Hk. destruct (numbers_used internal (k - 1)) as [f [Ef Hf]]; [lia|]. exists f. split; [exact Ef|lia].
  - intros f i a b Ei Ea Eb. destruct (H f i a b Ei Ea Eb) as [H1 [H2 [H3 H4]]]. split; [exact H1|].
    destruct HF as [Li [Lids HF]].
    destruct (HF f) as [_ [i' [a' [b' [Ei' [Ea' [Eb' K]]]]]]]; [pose proof (nth_lt _ _ _ Ei); lia|].
    rewrite Ei in Ei'. injection Ei' as <-. rewrite Ea in Ea'. injection Ea' as <-. rewrite Eb in Eb'. injection Eb' as <-.
    unfold sides_known in K. cbv zeta in K. destruct i.
    + destruct (Z.leb_spec 0 a); [|lia]. destruct (Z.leb_spec 0 b); [|lia]. apply H2. reflexivity.
    + destruct K as [[K1 K2]|[K1 K2]]; destruct (Z.leb_spec 0 a); try lia; destruct (Z.leb_spec 0 b); try lia; auto.
Qed.

(** What the residual of the multi-point flux scheme relies on: where an owned cell
    has a part of a face, neither the vertex nor the face is skipped. *)
Theorem owned_not_skipped n nv loc internal off ids num voff vids L s vflags f v l i a b c :
  faces_known n (length loc) internal off ids ->
  identify_faces n loc internal off ids (repeat false n) = Ok s ->
  length L = nv -> holds_rows num voff vids L -> (forall l c, In l L -> In c l -> c < Z.of_nat (length loc)) ->
  identify_vertices nv loc num voff vids (repeat false nv) = Ok vflags ->
  nth_error internal f = Some i -> first_cell ids f = Some a -> second_cell ids f = Some b ->
  nth_error L v = Some l -> c = a \/ c = b -> owned loc c -> In c l ->
  nth_error (b_flags s) f = Some true /\ nth_error vflags v = Some true.
Proof.
  intros HF Es HL HR Hb Ev Ei Ea Eb El Hc Ho Hin.
  destruct (faces_identified n loc internal off ids HF) as [s' [E [_ [_ [_ H]]]]]. rewrite Es in E. injection E as <-.
  destruct (vertices_identified nv loc num voff vids L HL HR Hb) as [fl [E [_ K]]]. rewrite Ev in E. injection E as <-.
  split.
  - apply (H f i a b Ei Ea Eb). destruct Hc as [<-|<-]; auto.
  - apply (K v l El). eauto.
Qed.
