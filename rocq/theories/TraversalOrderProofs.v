(** Lemmas about the order of cells: lists and a neighbour relation. *)
From Coq Require Import List Bool Arith Lia Permutation.
From Verif Require Import Prelude Arrays Numbering NumberingProofs Traversal.
Import ListNotations.

Section order.
Variable nb : nat -> nat -> bool.

Fixpoint linked (l : list nat) : Prop :=
  match l with
  | a :: (b :: _) as t => nb a b = true /\ linked t
  | _ => True
  end.
Lemma linked_cons : forall a b t, linked (a :: b :: t) <-> nb a b = true /\ linked (b :: t).
Proof. intros. simpl. tauto. Qed.
Lemma linked_tail : forall a t, linked (a :: t) -> linked t.
Proof. intros a [|b t] H; [exact I|apply H]. Qed.
Lemma linked_nth : forall l, linked l <-> (forall i c d, nth_error l i = Some c -> nth_error l (S i) = Some d -> nb c d = true).
Proof.
  induction l as [|a [|b t] IH].
  - split; [intros _ [|i] c d H; discriminate H|exact (fun _ => I)].
  - split; [intros _ [|i] c d H1 H2; [discriminate H2|destruct i; discriminate H1]|exact (fun _ => I)].
  - rewrite linked_cons, IH. split.
    + intros [H Ht] [|i] c d H1 H2; [simpl in H1, H2; congruence|exact (Ht i c d H1 H2)].
    + intro H. split; [exact (H 0 a b eq_refl eq_refl)|]. intros i c d H1 H2. exact (H (S i) c d H1 H2).
Qed.
Lemma linked_app : forall l m, linked (l ++ m) <->
  linked l /\ linked m /\ (forall a b, nth_error l (length l - 1) = Some a -> nth_error m 0 = Some b -> nb a b = true).
Proof.
  induction l as [|a [|b t] IH]; intro m.
  - simpl. split; [intro H; repeat split; try exact H; discriminate|tauto].
  - destruct m as [|b m].
    + simpl. split; [intros _; repeat split; discriminate|tauto].
    + change ([a] ++ b :: m) with (a :: b :: m). rewrite linked_cons. simpl length. simpl nth_error. split.
      * intros [H1 H2]. repeat split; [exact H2|]. intros x y [= <-] [= <-]. exact H1.
      * intros [_ [H2 H3]]. split; [exact (H3 a b eq_refl eq_refl)|exact H2].
  - change ((a :: b :: t) ++ m) with (a :: (b :: t ++ m)). rewrite linked_cons, linked_cons.
    change (b :: t ++ m) with ((b :: t) ++ m). rewrite IH.
    replace (length (a :: b :: t) - 1) with (S (length (b :: t) - 1)) by (simpl; lia).
    simpl (nth_error (a :: b :: t) (S _)). tauto.
Qed.

Lemma pick_some : forall c l d l', pick nb c l = Some (d, l') -> nb c d = true /\ Permutation l (d :: l').
Proof.
  induction l as [|e l IH]; intros d l' H; simpl in H; [discriminate H|].
  destruct (nb c e) eqn:E; [injection H as <- <-; split; [exact E|reflexivity]|].
  destruct (pick nb c l) as [[x m]|] eqn:P; [|discriminate H]. injection H as <- <-.
  destruct (IH x m eq_refl) as [H1 H2]. split; [exact H1|]. rewrite H2. apply perm_swap.
Qed.
Lemma pick_none : forall c l, pick nb c l = None -> forall d, In d l -> nb c d = false.
Proof.
  induction l as [|e l IH]; intros H d Hd; simpl in H; [destruct Hd|].
  destruct (nb c e) eqn:E; [discriminate H|]. destruct (pick nb c l) as [[x m]|] eqn:P; [discriminate H|].
  destruct Hd as [<-|Hd]; [exact E|exact (IH eq_refl d Hd)].
Qed.

Lemma chain_sound : forall n c l r, length l = n -> chain nb n c l = Ok r ->
  Permutation r (c :: l) /\ linked r /\ nth_error r 0 = Some c.
Proof.
  induction n as [|n IH]; intros c l r Hn H; simpl in H.
  - injection H as <-. destruct l; [|discriminate Hn]. repeat split; reflexivity.
  - destruct (pick nb c l) as [[d l']|] eqn:P; [|discriminate H].
    destruct (pick_some c l d l' P) as [N Pm].
    assert (Hn' : length l' = n) by (apply Permutation_length in Pm; simpl in Pm; lia).
    destruct (chain nb n d l') as [s| |] eqn:Es; simpl in H; try discriminate H. injection H as <-.
    destruct (IH d l' s Hn' Es) as [P1 [L1 H1]]. split; [|split; [|reflexivity]].
    + rewrite P1. apply perm_skip. symmetry. exact Pm.
    + destruct s as [|e s]; [discriminate H1|]. injection H1 as ->. apply linked_cons. split; assumption.
Qed.

Definition only_next (l : list nat) : Prop :=
  forall i j x y, nth_error l i = Some x -> nth_error l j = Some y -> i < j -> nb x y = true -> j = S i.
Lemma only_next_tail : forall a l, only_next (a :: l) -> only_next l.
Proof. intros a l H i j x y Hi Hj Hlt Hn. specialize (H (S i) (S j) x y Hi Hj ltac:(lia) Hn). lia. Qed.

Lemma chain_path : forall q c l, Permutation q l -> linked (c :: q) -> only_next (c :: q) ->
  chain nb (length l) c l = Ok (c :: q).
Proof.
  induction q as [|d q IH]; intros c l P L O.
  - apply Permutation_nil in P. subst l. reflexivity.
  - rewrite <- (Permutation_length P). simpl.
    destruct (pick nb c l) as [[e m]|] eqn:E.
    + destruct (pick_some c l e m E) as [N Pm].
      assert (He : In e (d :: q)) by (apply (Permutation_in _ (Permutation_sym P)), (Permutation_in _ (Permutation_sym Pm)); left; reflexivity).
      destruct (In_nth_error _ _ He) as [j Hj].
      assert (S j = 1) by (apply (O 0 (S j) c e eq_refl Hj); [lia|exact N]).
      assert (j = 0) by lia. subst j. injection Hj as <-.
      assert (Pq : Permutation q m) by (apply (Permutation_cons_inv (a := d)); rewrite P; exact Pm).
      rewrite (Permutation_length Pq).
      rewrite (IH d m Pq (linked_tail _ _ L) (only_next_tail _ _ O)). reflexivity.
    + exfalso. apply linked_cons in L. destruct L as [L _].
      rewrite (pick_none c l E d) in L; [discriminate L|]. apply (Permutation_in _ P). left. reflexivity.
Qed.

Definition sym_on (l : list nat) : Prop := forall x y, In x l -> In y l -> nb x y = true -> nb y x = true.
Lemma linked_rev : forall l, sym_on l -> linked l -> linked (rev l).
Proof.
  intros l Sy L. rewrite linked_nth in L |- *. intros i c d Hc Hd.
  assert (Hi : S i < length (rev l)) by (apply nth_error_Some; congruence). rewrite rev_length in Hi.
  assert (R : forall j x, j < length l -> nth_error (rev l) j = Some x -> nth_error l (length l - S j) = Some x).
  { intros j x Hj H. rewrite <- (rev_involutive l) at 1.
    rewrite (nth_error_nth' _ 0) by (rewrite !rev_length; lia).
    rewrite rev_nth by (rewrite rev_length; lia). rewrite rev_length.
    replace (length l - S (length l - S j)) with j by lia. f_equal.
    apply (nth_error_nth _ _ 0) in H. exact H. }
  apply R in Hc; [|lia]. apply R in Hd; [|lia].
  apply Sy; [eapply nth_error_In; eassumption ..|].
  apply (L (length l - S (S i))); [exact Hd|]. replace (S (length l - S (S i))) with (length l - S i) by lia. exact Hc.
Qed.

Definition next_or_ends (l : list nat) : Prop :=
  forall i j x y, nth_error l i = Some x -> nth_error l j = Some y -> i < j -> nb x y = true ->
    j = S i \/ (i = 0 /\ S j = length l).

Lemma rev_at : forall (l : list nat) j x, nth_error (rev l) j = Some x -> j < length l /\ nth_error l (length l - S j) = Some x.
Proof.
  intros l j x H. assert (Hj : j < length (rev l)) by (apply nth_error_Some; congruence). rewrite rev_length in Hj.
  split; [exact Hj|]. rewrite <- (rev_involutive l) at 1.
  rewrite (nth_error_nth' _ 0) by (rewrite !rev_length; lia).
  rewrite rev_nth by (rewrite rev_length; lia). rewrite rev_length.
  replace (length l - S (length l - S j)) with j by lia. f_equal.
  apply (nth_error_nth _ _ 0) in H. exact H.
Qed.

Lemma chain_cycle : forall q c l, Permutation q l -> linked (c :: q) -> next_or_ends (c :: q) -> sym_on (c :: q) ->
  exists r, chain nb (length l) c l = Ok r.
Proof.
  intros q c l P L O Sy. destruct q as [|d q].
  - apply Permutation_nil in P. subst l. eexists. reflexivity.
  - rewrite <- (Permutation_length P). simpl.
    destruct (pick nb c l) as [[e m]|] eqn:E.
    + destruct (pick_some c l e m E) as [N Pm].
      assert (He : In e (d :: q)) by (apply (Permutation_in _ (Permutation_sym P)), (Permutation_in _ (Permutation_sym Pm)); left; reflexivity).
      assert (Pem : Permutation (e :: m) (d :: q)) by (rewrite <- Pm; symmetry; exact P).
      assert (Hlen : length q = length m) by (apply Permutation_length in Pem; simpl in Pem; lia).
      rewrite Hlen.
      assert (O1 : only_next (d :: q)).
      { intros i j x y Hi Hj Hlt Hn. destruct (O (S i) (S j) x y Hi Hj) as [H|[H _]]; [lia|exact Hn|lia|lia]. }
      destruct (In_nth_error _ _ He) as [j Hj].
      destruct (O 0 (S j) c e eq_refl Hj) as [H|[_ H]]; [lia|exact N| |].
      * assert (j = 0) by lia. subst j. injection Hj as <-.
        rewrite (chain_path q d m).
        -- eexists. reflexivity.
        -- symmetry. apply (Permutation_cons_inv (a := d)). exact Pem.
        -- exact (linked_tail _ _ L).
        -- exact O1.
      * cbn [length] in H.
        assert (Hrev : exists q', rev (d :: q) = e :: q').
        { destruct (rev (d :: q)) as [|x q'] eqn:R; [apply (f_equal (@length nat)) in R; rewrite rev_length in R; discriminate R|].
          exists q'. f_equal. assert (R0 : nth_error (rev (d :: q)) 0 = Some x) by (rewrite R; reflexivity).
          apply rev_at in R0. destruct R0 as [_ R0]. cbn [length] in R0. replace (S (length q) - 1) with j in R0 by lia. congruence. }
        destruct Hrev as [q' Hr].
        rewrite (chain_path q' e m).
        -- eexists. reflexivity.
        -- apply (Permutation_cons_inv (a := e)). rewrite <- Hr, <- Permutation_rev. symmetry. exact Pem.
        -- rewrite <- Hr. apply linked_rev; [|exact (linked_tail _ _ L)].
           intros x y Hx Hy. apply Sy; right; assumption.
        -- rewrite <- Hr. intros i i' x y Hi Hi' Hlt Hn.
           assert (Hx : In x (d :: q)) by (apply in_rev; eapply nth_error_In; exact Hi).
           assert (Hy : In y (d :: q)) by (apply in_rev; eapply nth_error_In; exact Hi').
           apply rev_at in Hi. apply rev_at in Hi'. destruct Hi as [Bi Hi]. destruct Hi' as [Bi' Hi'].
           apply Sy in Hn; [|right; assumption ..].
           pose proof (O1 _ _ y x Hi' Hi ltac:(lia) Hn). lia.
    + exfalso. apply linked_cons in L. destruct L as [L _].
      rewrite (pick_none c l E d) in L; [discriminate L|]. apply (Permutation_in _ P). left. reflexivity.
Qed.

(** Counting neighbours. *)
Definition deg (c : nat) (l : list nat) : nat := length (filter (fun d => negb (d =? c) && nb c d) l).
Lemma deg_perm : forall c l m, Permutation l m -> deg c l = deg c m.
Proof.
  intros c l m P. unfold deg. induction P; simpl; try congruence.
  - destruct (negb (x =? c) && nb c x); simpl; congruence.
  - destruct (negb (x =? c) && nb c x); destruct (negb (y =? c) && nb c y); reflexivity.
Qed.
Lemma deg_cons : forall c d l, deg c (d :: l) = b2n (negb (d =? c) && nb c d) + deg c l.
Proof. intros. unfold deg. simpl. destruct (negb (d =? c) && nb c d); reflexivity. Qed.
Lemma sum_deg : forall c l, ~ In c l -> list_sum (map (fun d => b2n (nb c d)) l) = deg c l.
Proof.
  induction l as [|d l IH]; intro H; [reflexivity|]. rewrite deg_cons. simpl. rewrite IH by (intro; apply H; right; assumption).
  assert ((d =? c) = false) by (apply Nat.eqb_neq; intro; apply H; left; assumption). rewrite H0. reflexivity.
Qed.
Lemma counts_deg : forall l, NoDup l -> sym_on l -> counts nb l = map (fun c => deg c l) l.
Proof.
  intro l. cut (forall m, NoDup l -> sym_on l -> incl m l -> map (fun d => deg d l) m = map (fun d => deg d l) m /\ counts nb l = map (fun c => deg c l) l).
  { intros H N Sy. exact (proj2 (H [] N Sy (fun x Hx => match Hx with end))). }
  induction l as [|c l IH]; intros m N Sy _; (split; [reflexivity|]); [reflexivity|]. inversion N as [|? ? N1 N2]; subst.
  assert (S2 : sym_on l) by (intros x y Hx Hy; apply Sy; right; assumption).
  destruct (IH [] N2 S2 (fun x Hx => match Hx with end)) as [_ E]. cbn [counts map]. rewrite E. f_equal.
  - rewrite sum_deg by exact N1. rewrite deg_cons, Nat.eqb_refl. reflexivity.
  - assert (G : forall k, incl k l -> map (fun p => fst p + snd p) (combine (map (fun d => b2n (nb c d)) k) (map (fun c0 => deg c0 l) k)) =
        map (fun c0 => deg c0 (c :: l)) k).
    { induction k as [|d k IHk]; intro I; [reflexivity|]. cbn [map combine]. rewrite IHk by (intros x Hx; apply I; right; exact Hx).
      f_equal. rewrite deg_cons. simpl. f_equal. f_equal.
      assert (Hd : In d l) by (apply I; left; reflexivity).
      assert (c =? d = false) as -> by (apply Nat.eqb_neq; intro; subst; contradiction).
      simpl. destruct (nb c d) eqn:E1; destruct (nb d c) eqn:E2; try reflexivity.
      - apply Sy in E1; [congruence|left; reflexivity|right; exact Hd].
      - apply Sy in E2; [congruence|right; exact Hd|left; reflexivity]. }
    apply G. intros x Hx. exact Hx.
Qed.

Lemma fold_min : forall l a, fold_left Nat.min l a <= a /\ (forall x, In x l -> fold_left Nat.min l a <= x) /\
  (fold_left Nat.min l a = a \/ In (fold_left Nat.min l a) l).
Proof.
  induction l as [|b l IH]; intro a; simpl; [split; [lia|split; [intros x []|left; reflexivity]]|].
  destruct (IH (Nat.min a b)) as [H1 [H2 H3]]. split; [lia|]. split.
  - intros x [<-|Hx]; [lia|exact (H2 x Hx)].
  - destruct H3 as [H3|H3]; [|right; right; exact H3].
    destruct (Nat.min_dec a b) as [E|E]; rewrite E in *; [left; exact H3|right; left; symmetry; exact H3].
Qed.
Lemma fold_max : forall l a, a <= fold_left Nat.max l a /\ (forall x, In x l -> x <= fold_left Nat.max l a) /\
  (fold_left Nat.max l a = a \/ In (fold_left Nat.max l a) l).
Proof.
  induction l as [|b l IH]; intro a; simpl; [split; [lia|split; [intros x []|left; reflexivity]]|].
  destruct (IH (Nat.max a b)) as [H1 [H2 H3]]. split; [lia|]. split.
  - intros x [<-|Hx]; [lia|exact (H2 x Hx)].
  - destruct H3 as [H3|H3]; [|right; right; exact H3].
    destruct (Nat.max_dec a b) as [E|E]; rewrite E in *; [left; exact H3|right; left; symmetry; exact H3].
Qed.
Lemma counts_length : forall l, length (counts nb l) = length l.
Proof.
  induction l as [|c l IH]; [reflexivity|]. simpl. f_equal. rewrite map_length, combine_length, map_length, IH. lia.
Qed.
Lemma combine_snd : forall {X Y} (a : list X) (b : list Y), length a = length b -> map snd (combine a b) = b.
Proof.
  induction a as [|x a IH]; intros [|y b] H; try discriminate H; [reflexivity|]. simpl. f_equal. apply IH. simpl in H. lia.
Qed.
Lemma combine_fst : forall {X Y} (a : list X) (b : list Y), length a = length b -> map fst (combine a b) = a.
Proof.
  induction a as [|x a IH]; intros [|y b] H; try discriminate H; [reflexivity|]. simpl. f_equal. apply IH. simpl in H. lia.
Qed.
Lemma filter_split : forall {X} (p q : X -> bool) l, (forall x, In x l -> q x = negb (p x)) ->
  Permutation (filter p l ++ filter q l) l.
Proof.
  induction l as [|x l IH]; intro H; [reflexivity|]. simpl.
  assert (E := H x (or_introl eq_refl)). rewrite E. specialize (IH (fun y Hy => H y (or_intror Hy))).
  destruct (p x); simpl; [apply perm_skip; exact IH|].
  rewrite <- Permutation_middle. apply perm_skip. exact IH.
Qed.
Lemma ends_apart_perm : forall l r, ends_apart nb l = Ok r -> Permutation r l.
Proof.
  intros l r H. unfold ends_apart in H.
  destruct (Nat.eqb_spec (fold_left Nat.min (counts nb l) (length l)) (fold_left Nat.max (counts nb l) 0)) as [E|E];
    [injection H as <-; reflexivity|].
  set (mn := fold_left Nat.min (counts nb l) (length l)) in *.
  assert (P : Permutation (filter (fun p => fst p =? mn) (combine (counts nb l) l) ++ filter (fun p => mn <? fst p) (combine (counts nb l) l)) (combine (counts nb l) l)).
  { apply filter_split. intros [x y] Hx. apply in_combine_l in Hx. simpl.
    pose proof (proj1 (proj2 (fold_min (counts nb l) (length l))) x Hx) as Hm. fold mn in Hm.
    destruct (Nat.ltb_spec mn x), (Nat.eqb_spec x mn); try reflexivity; lia. }
  apply (Permutation_map snd) in P. rewrite map_app, (combine_snd _ _ (counts_length l)) in P.
  destruct (map snd (filter (fun p => fst p =? mn) (combine (counts nb l) l))) as [|a [|b [|? ?]]]; try discriminate H.
  injection H as <-. eapply Permutation_trans; [|exact P]. simpl. apply perm_skip. apply Permutation_app_comm.
Qed.

Lemma circular_sound : forall l r, ArrangeCellsInCircularOrder nb l = Ok r -> Permutation r l /\ linked r.
Proof.
  intros l r H. unfold ArrangeCellsInCircularOrder in H.
  destruct (ends_apart nb l) as [m| |] eqn:E; simpl in H; try discriminate H.
  destruct m as [|c m]; [discriminate H|].
  destruct (chain_sound (length m) c m r eq_refl H) as [P [L _]].
  split; [rewrite P; exact (ends_apart_perm l _ E)|exact L].
Qed.

(** A row of cells, possibly closed. *)
Definition closes (p : list nat) : Prop :=
  exists a b, nth_error p 0 = Some a /\ nth_error p (length p - 1) = Some b /\ nb b a = true.

Section row.
Variable p : list nat.
Hypothesis Hnd : NoDup p.
Hypothesis Hsym : sym_on p.
Hypothesis Hlink : linked p.
Hypothesis Hnext : next_or_ends p.

Lemma nb_pos : forall i j x y, nth_error p i = Some x -> nth_error p j = Some y -> x <> y -> nb x y = true ->
  j = S i \/ i = S j \/ (i = 0 /\ S j = length p) \/ (j = 0 /\ S i = length p).
Proof.
  intros i j x y Hi Hj Hne Hn. destruct (Nat.lt_trichotomy i j) as [H|[H|H]].
  - destruct (Hnext i j x y Hi Hj H Hn); tauto.
  - subst. congruence.
  - apply Hsym in Hn; [|eapply nth_error_In; eassumption ..]. destruct (Hnext j i y x Hj Hi H Hn); tauto.
Qed.
Lemma at_ex : forall i, i < length p -> exists x, nth_error p i = Some x.
Proof. intros i H. destruct (nth_error p i) eqn:E; [eauto|]. apply nth_error_None in E. lia. Qed.

Lemma deg_of : forall c ns, NoDup ns -> In c p -> (forall d, In d ns <-> In d p /\ d <> c /\ nb c d = true) ->
  deg c p = length ns.
Proof.
  intros c ns N Hc H. unfold deg. apply Permutation_length. apply NoDup_Permutation; [apply NoDup_filter; exact Hnd|exact N|].
  intro d. rewrite filter_In, andb_true_iff, negb_true_iff, Nat.eqb_neq, H. tauto.
Qed.
Lemma link_at : forall i x y, nth_error p i = Some x -> nth_error p (S i) = Some y -> nb x y = true /\ nb y x = true.
Proof.
  intros i x y Hx Hy. assert (E : nb x y = true) by (apply (proj1 (linked_nth p) Hlink i); assumption).
  split; [exact E|]. apply Hsym in E; [exact E|eapply nth_error_In; eassumption ..].
Qed.
Lemma ne_at : forall i j x y, nth_error p i = Some x -> nth_error p j = Some y -> i <> j -> x <> y.
Proof. intros i j x y Hi Hj Hij ->. apply Hij. exact (nodup_nth p i j y Hnd Hi Hj). Qed.

Lemma deg_inner : forall i c, 0 < i -> S i < length p -> nth_error p i = Some c -> deg c p = 2.
Proof.
  intros i c H0 H1 Hc. destruct i as [|i]; [lia|].
  destruct (at_ex i ltac:(lia)) as [a Ha]. destruct (at_ex (S (S i)) H1) as [b Hb].
  assert (Hac := ne_at _ _ _ _ Ha Hc ltac:(lia)). assert (Hbc := ne_at _ _ _ _ Hb Hc ltac:(lia)).
  assert (Hab := ne_at _ _ _ _ Ha Hb ltac:(lia)).
  rewrite (deg_of c [a; b]); [reflexivity| | |].
  - constructor; [intros [H|[]]; congruence|]. constructor; [intros []|constructor].
  - eapply nth_error_In; exact Hc.
  - intro d. split.
    + intros [<-|[<-|[]]].
      * split; [eapply nth_error_In; exact Ha|]. split; [exact Hac|]. exact (proj2 (link_at i a c Ha Hc)).
      * split; [eapply nth_error_In; exact Hb|]. split; [exact Hbc|]. exact (proj1 (link_at (S i) c b Hc Hb)).
    + intros [Hd [Hdc Hn]]. destruct (In_nth_error _ _ Hd) as [j Hj].
      destruct (nb_pos (S i) j c d Hc Hj (not_eq_sym Hdc) Hn) as [E|[E|[[E _]|[_ E]]]]; try lia.
      * subst j. right; left. congruence.
      * injection E as ->. left. congruence.
Qed.
(** The ends of a row of at least two cells. *)
Lemma deg_first : forall a b, 2 < length p -> nth_error p 0 = Some a -> nth_error p (length p - 1) = Some b ->
  deg a p = (if nb b a then 2 else 1) /\ deg b p = (if nb b a then 2 else 1).
Proof.
  intros a b Hlen Ha Hb.
  destruct (at_ex 1 ltac:(lia)) as [a1 Ha1]. destruct (at_ex (length p - 2) ltac:(lia)) as [b1 Hb1].
  assert (Hab := ne_at _ _ _ _ Ha Hb ltac:(lia)).
  assert (Ha1' := ne_at _ _ _ _ Ha1 Ha ltac:(lia)). assert (Hb1' := ne_at _ _ _ _ Hb1 Hb ltac:(lia)).
  assert (Hab1 := ne_at _ _ _ _ Ha1 Hb ltac:(lia)). assert (Hb1a := ne_at _ _ _ _ Hb1 Ha ltac:(lia)).
  assert (Ia : In a p) by (eapply nth_error_In; exact Ha). assert (Ib : In b p) by (eapply nth_error_In; exact Hb).
  assert (La := proj1 (link_at 0 a a1 Ha Ha1)).
  assert (Hb' : nth_error p (S (length p - 2)) = Some b) by (replace (S (length p - 2)) with (length p - 1) by lia; exact Hb).
  assert (Lb := proj2 (link_at (length p - 2) b1 b Hb1 Hb')).
  assert (NA : forall d, In d p -> d <> a -> nb a d = true -> d = a1 \/ d = b).
  { intros d Hd Hda Hn. destruct (In_nth_error _ _ Hd) as [j Hj].
    destruct (nb_pos 0 j a d Ha Hj (not_eq_sym Hda) Hn) as [E|[E|[[_ E]|[E E']]]]; try lia.
    - subst j. left. congruence.
    - right. replace (length p - 1) with j in Hb by lia. congruence. }
  assert (NB : forall d, In d p -> d <> b -> nb b d = true -> d = b1 \/ d = a).
  { intros d Hd Hdb Hn. destruct (In_nth_error _ _ Hd) as [j Hj].
    destruct (nb_pos (length p - 1) j b d Hb Hj (not_eq_sym Hdb) Hn) as [E|[E|[[E _]|[E _]]]]; try lia.
    - assert (j < length p) by (apply nth_error_Some; congruence). lia.
    - left. replace (length p - 2) with j in Hb1 by lia. congruence.
    - subst j. right. congruence. }
  destruct (nb b a) eqn:E.
  - assert (E' : nb a b = true) by (apply Hsym; assumption). split.
    + rewrite (deg_of a [a1; b]); [reflexivity| | |].
      * constructor; [intros [H|[]]; congruence|]. constructor; [intros []|constructor].
      * exact Ia.
      * intro d. split.
        -- intros [<-|[<-|[]]]; (split; [eapply nth_error_In; eassumption|]); (split; [congruence|assumption]).
        -- intros [Hd [Hda Hn]]. destruct (NA d Hd Hda Hn) as [->| ->]; simpl; tauto.
    + rewrite (deg_of b [b1; a]); [reflexivity| | |].
      * constructor; [intros [H|[]]; congruence|]. constructor; [intros []|constructor].
      * exact Ib.
      * intro d. split.
        -- intros [<-|[<-|[]]]; (split; [eapply nth_error_In; eassumption|]); (split; [congruence|assumption]).
        -- intros [Hd [Hda Hn]]. destruct (NB d Hd Hda Hn) as [->| ->]; simpl; tauto.
  - assert (E' : nb a b = false). { destruct (nb a b) eqn:F; [|reflexivity]. apply Hsym in F; [congruence|assumption ..]. }
    split.
    + rewrite (deg_of a [a1]); [reflexivity| | |].
      * constructor; [intros []|constructor].
      * exact Ia.
      * intro d. split.
        -- intros [<-|[]]. split; [eapply nth_error_In; eassumption|]. split; [congruence|assumption].
        -- intros [Hd [Hda Hn]]. destruct (NA d Hd Hda Hn) as [->| ->]; [left; reflexivity|congruence].
    + rewrite (deg_of b [b1]); [reflexivity| | |].
      * constructor; [intros []|constructor].
      * exact Ib.
      * intro d. split.
        -- intros [<-|[]]. split; [eapply nth_error_In; eassumption|]. split; [congruence|assumption].
        -- intros [Hd [Hda Hn]]. destruct (NB d Hd Hda Hn) as [->| ->]; [left; reflexivity|congruence].
Qed.
End row.
End order.

Lemma rot_at : forall (p1 p2 : list nat) c i x, nth_error (c :: p2 ++ p1) i = Some x ->
  exists i', nth_error (p1 ++ c :: p2) i' = Some x /\ i' < length (p1 ++ c :: p2) /\
    ((i <= length p2 /\ i' = length p1 + i) \/ (length p2 < i < S (length p2 + length p1) /\ i' = i - S (length p2))).
Proof.
  intros p1 p2 c i x H.
  assert (Hi : i < S (length p2 + length p1)) by (rewrite <- app_length; apply (nth_error_Some (c :: p2 ++ p1)); congruence).
  rewrite app_length. simpl length.
  destruct (le_lt_dec i (length p2)) as [L|L].
  - exists (length p1 + i). split; [|split; [lia|left; lia]].
    rewrite nth_error_app2 by lia. replace (length p1 + i - length p1) with i by lia.
    rewrite <- H. change (c :: p2 ++ p1) with ((c :: p2) ++ p1). rewrite nth_error_app1 by (simpl; lia). reflexivity.
  - exists (i - S (length p2)). split; [|split; [lia|right; lia]].
    change (c :: p2 ++ p1) with ((c :: p2) ++ p1) in H. rewrite nth_error_app2 in H by (simpl; lia). simpl length in H.
    rewrite nth_error_app1 by lia. exact H.
Qed.

(** A row is found whatever the order in which its cells are given. *)
Section found.
Variable nb : nat -> nat -> bool.
Variable p l : list nat.
Hypothesis Hp : Permutation p l.
Hypothesis Hnd : NoDup p.
Hypothesis Hsym : sym_on nb p.
Hypothesis Hlink : linked nb p.
Hypothesis Hnext : next_or_ends nb p.
Hypothesis Hlen : 1 < length p.

Let Hll : length l = length p := eq_sym (Permutation_length Hp).
Lemma sym_l : sym_on nb l.
Proof. intros x y Hx Hy. apply Hsym; apply (Permutation_in _ (Permutation_sym Hp)); assumption. Qed.
Lemma nd_l : NoDup l.
Proof. exact (Permutation_NoDup Hp Hnd). Qed.
Lemma counts_l : counts nb l = map (fun c => deg nb c p) l.
Proof.
  rewrite (counts_deg nb l nd_l sym_l). apply map_ext. intro c. symmetry. apply deg_perm. exact Hp.
Qed.
Lemma filter_combine : forall (g : nat -> nat) (t : nat -> bool) (m : list nat),
  map snd (filter (fun q => t (fst q)) (combine (map g m) m)) = filter (fun c => t (g c)) m.
Proof. induction m as [|c m IH]; [reflexivity|]. simpl. destruct (t (g c)); simpl; rewrite IH; reflexivity. Qed.

Lemma circular_found : exists r, ArrangeCellsInCircularOrder nb l = Ok r.
Proof.
  destruct (Nat.eq_dec (length p) 2) as [E2|E2].
  - (* two cells *)
    destruct l as [|x [|y [|? ?]]]; simpl in Hll; try lia.
    assert (N : nb x y = true).
    { destruct p as [|a [|b [|? ?]]]; simpl in E2; try lia. apply linked_cons in Hlink. destruct Hlink as [N _].
      assert (Na : a <> b) by (inversion Hnd as [|? ? H _]; intro; subst; apply H; left; reflexivity).
      destruct (Permutation_length_2 Hp) as [[-> ->]|[-> ->]]; [exact N|]. apply Hsym; [left; reflexivity|right; left; reflexivity|exact N]. }
    unfold ArrangeCellsInCircularOrder, ends_apart. simpl. rewrite N. simpl. rewrite N. eexists. reflexivity.
  - destruct (at_ex p 0 ltac:(lia)) as [a Ha]. destruct (at_ex p (length p - 1) ltac:(lia)) as [b Hb].
    destruct (deg_first nb p Hnd Hsym Hlink Hnext a b ltac:(lia) Ha Hb) as [Da Db].
    assert (Dm : forall c, In c p -> c <> a -> c <> b -> deg nb c p = 2).
    { intros c Hc Hca Hcb. destruct (In_nth_error _ _ Hc) as [i Hi].
      assert (Hi' : i < length p) by (apply nth_error_Some; congruence).
      apply (deg_inner nb p Hnd Hsym Hlink Hnext i c); [| |exact Hi].
      - destruct i; [congruence|lia].
      - destruct (Nat.eq_dec (S i) (length p)); [|lia]. replace (length p - 1) with i in Hb by lia. congruence. }
    assert (Ia : In a p) by (eapply nth_error_In; exact Ha). assert (Ib : In b p) by (eapply nth_error_In; exact Hb).
    assert (Hab : a <> b) by (apply (ne_at p Hnd 0 (length p - 1)); [exact Ha|exact Hb|lia]).
    destruct (nb b a) eqn:Eba.
    + (* closed *)
      assert (D2 : forall x, In x (counts nb l) -> x = 2).
      { intros x Hx. rewrite counts_l in Hx. apply in_map_iff in Hx. destruct Hx as [c [<- Hc]].
        apply (Permutation_in _ (Permutation_sym Hp)) in Hc.
        destruct (Nat.eq_dec c a) as [->|Hca]; [exact Da|]. destruct (Nat.eq_dec c b) as [->|Hcb]; [exact Db|]. exact (Dm c Hc Hca Hcb). }
      assert (Hne : In 2 (counts nb l)).
      { rewrite counts_l. apply in_map_iff. exists a. split; [exact Da|]. apply (Permutation_in _ Hp). exact Ia. }
      assert (Emn : fold_left Nat.min (counts nb l) (length l) = 2).
      { destruct (fold_min (counts nb l) (length l)) as [_ [H2 H3]]. specialize (H2 2 Hne).
        destruct H3 as [H3|H3]; [lia|exact (D2 _ H3)]. }
      assert (Emx : fold_left Nat.max (counts nb l) 0 = 2).
      { destruct (fold_max (counts nb l) 0) as [_ [H2 H3]]. specialize (H2 2 Hne).
        destruct H3 as [H3|H3]; [lia|exact (D2 _ H3)]. }
      unfold ArrangeCellsInCircularOrder, ends_apart. rewrite Emn, Emx. simpl.
      destruct l as [|c l'] eqn:El; [simpl in Hll; lia|].
      assert (Ic : In c p) by (apply (Permutation_in _ (Permutation_sym Hp)); left; reflexivity).
      destruct (in_split _ _ Ic) as [p1 [p2 Ep]].
      apply (chain_cycle nb (p2 ++ p1) c l').
      * apply (Permutation_cons_inv (a := c)). rewrite <- Hp, Ep. change (c :: p2 ++ p1) with ((c :: p2) ++ p1). apply Permutation_app_comm.
      * change (c :: p2 ++ p1) with ((c :: p2) ++ p1). pose proof Hlink as HL. rewrite Ep in HL.
        apply linked_app in HL. destruct HL as [L1 [L2 _]]. apply linked_app.
        split; [exact L2|]. split; [exact L1|].
        intros x y Hx Hy.
        assert (x = b).
        { rewrite Ep, app_length in Hb. cbn [length] in Hb, Hx.
          rewrite nth_error_app2 in Hb by lia. replace (length p1 + S (length p2) - 1 - length p1) with (S (length p2) - 1) in Hb by lia. congruence. }
        assert (y = a).
        { rewrite Ep in Ha. destruct p1 as [|z p1]; [discriminate Hy|]. simpl in Ha, Hy. congruence. }
        subst. exact Eba.
      * intros i j x y Hi Hj Hlt Hn.
        destruct (rot_at p1 p2 c i x Hi) as [i' [Hi' [Bi Ci]]]. destruct (rot_at p1 p2 c j y Hj) as [j' [Hj' [Bj Cj]]].
        rewrite <- Ep in Hi', Hj', Bi, Bj.
        assert (Hxy : x <> y). { apply (ne_at p Hnd i' j'); [exact Hi'|exact Hj'|]. lia. }
        assert (Lp : length p = length p1 + S (length p2)) by (rewrite Ep, app_length; reflexivity).
        cbn [length]. rewrite app_length.
        destruct (nb_pos nb p Hsym Hnext i' j' x y Hi' Hj' Hxy Hn) as [H|[H|[[H H']|[H H']]]]; lia.
      * intros x y Hx Hy. assert (I : incl (c :: p2 ++ p1) p).
        { intros z Hz. rewrite Ep. apply in_or_app. destruct Hz as [<-|Hz]; [right; left; reflexivity|].
          apply in_app_or in Hz. destruct Hz; [right; right; assumption|left; assumption]. }
        apply Hsym; apply I; assumption.
    + (* open *)
      assert (Eab : nb a b = false). { destruct (nb a b) eqn:F; [|reflexivity]. apply Hsym in F; [congruence|assumption ..]. }
      assert (Hin : forall x, In x (counts nb l) -> x = 1 \/ x = 2).
      { intros x Hx. rewrite counts_l in Hx. apply in_map_iff in Hx. destruct Hx as [c [<- Hc]].
        apply (Permutation_in _ (Permutation_sym Hp)) in Hc.
        destruct (Nat.eq_dec c a) as [->|Hca]; [left; exact Da|]. destruct (Nat.eq_dec c b) as [->|Hcb]; [left; exact Db|].
        right. exact (Dm c Hc Hca Hcb). }
      assert (H1 : In 1 (counts nb l)).
      { rewrite counts_l. apply in_map_iff. exists a. split; [exact Da|]. apply (Permutation_in _ Hp). exact Ia. }
      destruct (at_ex p 1 ltac:(lia)) as [a1 Ha1].
      assert (H2 : In 2 (counts nb l)).
      { rewrite counts_l. apply in_map_iff. exists a1. split; [|apply (Permutation_in _ Hp); eapply nth_error_In; exact Ha1].
        apply (deg_inner nb p Hnd Hsym Hlink Hnext 1 a1); [lia|lia|exact Ha1]. }
      assert (Emn : fold_left Nat.min (counts nb l) (length l) = 1).
      { destruct (fold_min (counts nb l) (length l)) as [_ [H3 H4]]. specialize (H3 1 H1).
        destruct H4 as [H4|H4]; [lia|]. destruct (Hin _ H4); lia. }
      assert (Emx : fold_left Nat.max (counts nb l) 0 = 2).
      { destruct (fold_max (counts nb l) 0) as [_ [H3 H4]]. specialize (H3 2 H2).
        destruct H4 as [H4|H4]; [lia|]. destruct (Hin _ H4); lia. }
      assert (Hfew : Permutation (filter (fun c => deg nb c p =? 1) l) [a; b]).
      { apply NoDup_Permutation; [apply NoDup_filter; exact nd_l| |].
        - constructor; [intros [H|[]]; congruence|]. constructor; [intros []|constructor].
        - intro c. rewrite filter_In, Nat.eqb_eq. split.
          + intros [Hc Hd]. apply (Permutation_in _ (Permutation_sym Hp)) in Hc.
            destruct (Nat.eq_dec c a) as [->|Hca]; [left; reflexivity|]. destruct (Nat.eq_dec c b) as [->|Hcb]; [right; left; reflexivity|].
            rewrite (Dm c Hc Hca Hcb) in Hd. lia.
          + intros [<-|[<-|[]]]; (split; [apply (Permutation_in _ Hp); assumption|assumption]). }
      assert (Hea : exists x y m, ends_apart nb l = Ok (x :: m ++ [y]) /\ (x = a \/ x = b)).
      { unfold ends_apart. rewrite Emn, Emx, counts_l. simpl (1 =? 2).
        rewrite (filter_combine (fun c => deg nb c p) (fun q => q =? 1)). cbv iota.
        destruct (Permutation_length_2_inv (Permutation_sym Hfew)) as [->| ->]; eexists; eexists; eexists; (split; [reflexivity|tauto]). }
      destruct Hea as [x [y [m [Ee Hx]]]].
      assert (Pe := ends_apart_perm nb l _ Ee).
      assert (On : only_next nb p).
      { intros i j u v Hi Hj Hlt Hn. destruct (Hnext i j u v Hi Hj Hlt Hn) as [H|[H H']]; [exact H|].
        subst i. replace (length p - 1) with j in Hb by lia. assert (u = a) by congruence. assert (v = b) by congruence. subst. congruence. }
      unfold ArrangeCellsInCircularOrder. rewrite Ee. cbn [bind].
      destruct Hx as [->| ->].
      * destruct p as [|a' q] eqn:Eq; [simpl in Hlen; lia|]. injection Ha as ->.
        exists (a :: q). apply chain_path; [|exact Hlink|exact On].
        apply (Permutation_cons_inv (a := a)). rewrite Hp. symmetry. exact Pe.
      * destruct (rev p) as [|b' q] eqn:Eq; [apply (f_equal (@length nat)) in Eq; rewrite rev_length in Eq; simpl in Eq; lia|].
        assert (b' = b).
        { assert (H0 : nth_error (rev p) 0 = Some b') by (rewrite Eq; reflexivity). apply rev_at in H0. destruct H0 as [_ H0]. congruence. }
        subst b'. exists (b :: q). apply chain_path.
        -- apply (Permutation_cons_inv (a := b)). rewrite <- Eq, <- Permutation_rev, Hp. symmetry. exact Pe.
        -- rewrite <- Eq. apply linked_rev; assumption.
        -- rewrite <- Eq. intros i j u v Hi Hj Hlt Hn.
           assert (Iu : In u p) by (apply in_rev; eapply nth_error_In; exact Hi).
           assert (Iv : In v p) by (apply in_rev; eapply nth_error_In; exact Hj).
           apply rev_at in Hi. apply rev_at in Hj. destruct Hi as [Bi Hi]. destruct Hj as [Bj Hj].
           apply Hsym in Hn; [|assumption ..]. pose proof (On _ _ v u Hj Hi ltac:(lia) Hn). lia.
Qed.
End found.
