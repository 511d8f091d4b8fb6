(** Proofs: the numbers given to the faces of the sub-cells of a vertex. *)
From Coq Require Import Reals List Bool Arith ZArith Lia Permutation.
From Verif Require Import Prelude Arrays Mpfao SpecMpfao SpecSubcell Numbering SpecNumbering NumberingProofs.
Import ListNotations.
Local Open Scope Z_scope.

(** * Lists *)
Definition before {A} (p : A -> bool) (l : list A) (q : nat) : nat := length (filter p (firstn q l)).
Lemma before_lt : forall {A} (p : A -> bool) l q q' s, (q < q')%nat -> nth_error l q = Some s -> p s = true ->
  (before p l q < before p l q')%nat.
Proof.
  intros A p l; induction l as [|x l IH]; intros q q' s Hlt Hq Hp; [destruct q; discriminate Hq|].
  destruct q' as [|q']; [lia|]. unfold before in *. cbn [firstn filter]. destruct q as [|q].
  - simpl in Hq. injection Hq as ->. rewrite Hp. cbn [firstn filter length]. lia.
  - cbn [firstn filter]. specialize (IH q q' s ltac:(lia) Hq Hp). destruct (p x); cbn [length]; lia.
Qed.
Lemma before_total : forall {A} (p : A -> bool) l q s, nth_error l q = Some s -> p s = true ->
  (before p l q < length (filter p l))%nat.
Proof.
  intros A p l q s Hq Hp. assert (L := nth_lt _ _ _ Hq).
  replace (length (filter p l)) with (before p l (length l)) by (unfold before; rewrite firstn_all; reflexivity).
  exact (before_lt p l q (length l) s L Hq Hp).
Qed.
Lemma before_inj : forall {A} (p : A -> bool) l q q' s s', nth_error l q = Some s -> nth_error l q' = Some s' ->
  p s = true -> p s' = true -> before p l q = before p l q' -> q = q'.
Proof.
  intros A p l q q' s s' Hq Hq' Hp Hp' He. destruct (lt_eq_lt_dec q q') as [[H|H]|H]; [|exact H|].
  - assert (L := before_lt p l q q' s H Hq Hp). lia.
  - assert (L := before_lt p l q' q s' H Hq' Hp'). lia.
Qed.
Lemma before_onto : forall {A} (p : A -> bool) l j, (j < length (filter p l))%nat ->
  exists q s, nth_error l q = Some s /\ p s = true /\ before p l q = j.
Proof.
  intros A p l; induction l as [|x l IH]; intros j Hj; [simpl in Hj; lia|].
  simpl in Hj. destruct (p x) eqn:Ex.
  - destruct j as [|j]; [exists 0%nat, x; auto|].
    destruct (IH j) as [q [s [Hq [Hs Hb]]]]; [simpl in Hj; lia|].
    exists (S q), s. split; [exact Hq|]. split; [exact Hs|]. unfold before in *. cbn [firstn filter].
    rewrite Ex. cbn [length]. lia.
  - destruct (IH j Hj) as [q [s [Hq [Hs Hb]]]]. exists (S q), s. split; [exact Hq|]. split; [exact Hs|].
    unfold before in *. cbn [firstn filter]. rewrite Ex. exact Hb.
Qed.
Lemma before_cons : forall {A} (p : A -> bool) x l q,
  before p (x :: l) (S q) = ((if p x then 1 else 0) + before p l q)%nat.
Proof. intros A p x l q. unfold before. cbn [firstn filter]. destruct (p x); reflexivity. Qed.

Lemma partition_length : forall {A} (p : A -> bool) l,
  (length (filter p l) + length (filter (fun x => negb (p x)) l) = length l)%nat.
Proof. intros A p l; induction l as [|x l IH]; [reflexivity|]. simpl. destruct (p x); simpl; lia. Qed.

Fixpoint write {A} (ws : list (nat * A)) (v : list A) : list A :=
  match ws with [] => v | w :: ws => write ws (upd v (fst w) (snd w)) end.
Lemma write_length : forall {A} ws (v : list A), length (write ws v) = length v.
Proof. intros A ws; induction ws as [|w ws IH]; intro v; [reflexivity|]. simpl. rewrite IH. apply length_upd. Qed.
Lemma write_other : forall {A} ws (v : list A) p, (forall w, In w ws -> fst w <> p) ->
  nth_error (write ws v) p = nth_error v p.
Proof.
  intros A ws; induction ws as [|w ws IH]; intros v p H; [reflexivity|]. simpl.
  rewrite IH by (intros w' Hw'; apply H; right; exact Hw').
  apply nth_upd_other. apply H. left. reflexivity.
Qed.
Lemma write_value : forall {A} ws (v : list A) p x, (p < length v)%nat -> In (p, x) ws ->
  (forall y, In (p, y) ws -> y = x) -> nth_error (write ws v) p = Some x.
Proof.
  intros A ws; induction ws as [|[p' x'] ws IH]; intros v p x Hp Hin Hu; [destruct Hin|].
  simpl. destruct (in_dec Nat.eq_dec p (map fst ws)) as [Hi|Hi].
  - apply in_map_iff in Hi. destruct Hi as [[p2 y] [E2 Hy]]. simpl in E2. subst p2.
    assert (y = x) by (apply Hu; right; exact Hy). subst y.
    apply IH; [rewrite length_upd; exact Hp|exact Hy|]. intros y Hy'. apply Hu. right. exact Hy'.
  - destruct Hin as [Hin|Hin]; [|exfalso; apply Hi; apply (in_map fst) in Hin; exact Hin].
    injection Hin as -> ->. rewrite write_other.
    + apply nth_upd_same. exact Hp.
    + intros w Hw He. apply Hi. rewrite <- He. apply in_map. exact Hw.
Qed.

(** * Slots *)
Lemma in_slots_from : forall cells sub i j c f, In (j, c, f) (slots_from i cells sub) <->
  exists a f0 f1 f2, (j = i + a)%nat /\ nth_error cells a = Some c /\ nth_error sub a = Some (f0, f1, f2) /\
    In f [f0; f1; f2].
Proof.
  intros cells; induction cells as [|c0 cells IH]; intros sub i j c f.
  - simpl. split; [intros []|]. intros [[|a] [f0 [f1 [f2 [_ [H _]]]]]]; discriminate H.
  - destruct sub as [|[[g0 g1] g2] sub].
    + simpl. split; [intros []|]. intros [[|a] [f0 [f1 [f2 [_ [_ [H _]]]]]]]; discriminate H.
    + cbn [slots_from In]. rewrite IH. split.
      * intros [H|[H|[H|[a [f0 [f1 [f2 [Hj [Hc [Hs Hf]]]]]]]]]];
          try (injection H as <- <- <-; exists 0%nat, g0, g1, g2;
               repeat split; [lia|simpl; auto]).
        exists (S a), f0, f1, f2. split; [lia|]. auto.
      * intros [[|a] [f0 [f1 [f2 [Hj [Hc [Hs Hf]]]]]]].
        -- simpl in Hc, Hs. injection Hc as ->. injection Hs as -> -> ->.
           replace j with i by lia. destruct Hf as [<-|[<-|[<-|[]]]]; auto.
        -- right; right; right. exists a, f0, f1, f2. split; [lia|]. auto.
Qed.
Lemma nodup_slots_from : forall cells sub i,
  (forall a f0 f1 f2, nth_error sub a = Some (f0, f1, f2) -> (a < length cells)%nat -> NoDup [f0; f1; f2]) ->
  NoDup (slots_from i cells sub).
Proof.
  intros cells; induction cells as [|c0 cells IH]; intros sub i H; [constructor|].
  destruct sub as [|[[g0 g1] g2] sub]; [constructor|]. cbn [slots_from].
  assert (N3 := H 0%nat g0 g1 g2 eq_refl ltac:(simpl; lia)).
  assert (Hrest : forall f, ~ In (i, c0, f) (slots_from (S i) cells sub)).
  { intros f Hf. apply in_slots_from in Hf. destruct Hf as [a [f0 [f1 [f2 [Hj _]]]]]. lia. }
  inversion N3 as [|? ? A1 N2]; subst. inversion N2 as [|? ? A2 N1]; subst.
  assert (NR : NoDup (slots_from (S i) cells sub)).
  { apply IH. intros a f0 f1 f2 Ha La. apply (H (S a) f0 f1 f2 Ha). simpl. lia. }
  constructor; [|constructor; [|constructor; [apply Hrest|exact NR]]].
  - intros [E|[E|E]]; [injection E as ->; apply A1; simpl; auto|injection E as ->; apply A1; simpl; auto|exact (Hrest _ E)].
  - intros [E|E]; [injection E as ->; apply A2; simpl; auto|exact (Hrest _ E)].
Qed.
Lemma slots_length : forall cells sub i, length sub = length cells ->
  length (slots_from i cells sub) = (3 * length cells)%nat.
Proof.
  intros cells; induction cells as [|c0 cells IH]; intros sub i H; [reflexivity|].
  destruct sub as [|[[g0 g1] g2] sub]; [discriminate H|]. cbn [slots_from length]. rewrite IH by (simpl in H; lia). lia.
Qed.
Lemma slots_triple : forall cells sub i a c f0 f1 f2, nth_error cells a = Some c -> nth_error sub a = Some (f0, f1, f2) ->
  nth_error (slots_from i cells sub) (3 * a) = Some ((i + a)%nat, c, f0) /\
  nth_error (slots_from i cells sub) (3 * a + 1) = Some ((i + a)%nat, c, f1) /\
  nth_error (slots_from i cells sub) (3 * a + 2) = Some ((i + a)%nat, c, f2).
Proof.
  intros cells; induction cells as [|c0 cells IH]; intros sub i a c f0 f1 f2 Ha Hs; [destruct a; discriminate Ha|].
  destruct sub as [|[[g0 g1] g2] sub]; [destruct a; discriminate Hs|]. destruct a as [|a].
  - simpl in Ha, Hs. injection Ha as ->. injection Hs as -> -> ->. rewrite Nat.add_0_r. auto.
  - destruct (IH sub (S i) a c f0 f1 f2 Ha Hs) as [E0 [E1 E2]].
    replace (3 * S a)%nat with (S (S (S (3 * a)))) by lia. cbn [slots_from nth_error Nat.add].
    rewrite E0, E1, E2. replace (S i + a)%nat with (i + S a)%nat by lia. auto.
Qed.

Lemma triples_length : forall {A} n (l : list A), length l = (3 * n)%nat -> length (triples l) = n.
Proof.
  intros A n; induction n as [|n IH]; intros l H.
  - destruct l; [reflexivity|discriminate H].
  - destruct l as [|a [|b [|c l]]]; simpl in H; try lia. simpl. rewrite IH; [reflexivity|lia].
Qed.
Lemma triples_flat : forall n (l : list sface), length l = (3 * n)%nat -> flat_map sfaces (triples l) = l.
Proof.
  intros n; induction n as [|n IH]; intros l H.
  - destruct l; [reflexivity|discriminate H].
  - destruct l as [|a [|b [|c l]]]; simpl in H; try lia. simpl. rewrite IH; [reflexivity|lia].
Qed.
Lemma triples_nth : forall {A} n (l : list A) t a b c, length l = (3 * n)%nat -> nth_error (triples l) t = Some (a, b, c) ->
  nth_error l (3 * t) = Some a /\ nth_error l (3 * t + 1) = Some b /\ nth_error l (3 * t + 2) = Some c.
Proof.
  intros A n; induction n as [|n IH]; intros l t a b c H Ht.
  - destruct l; [destruct t; discriminate Ht|discriminate H].
  - destruct l as [|x [|y [|z l]]]; simpl in H; try lia. destruct t as [|t].
    + simpl in Ht. injection Ht as -> -> ->. auto.
    + destruct (IH l t a b c ltac:(lia) Ht) as [Ea [Eb Ec]].
      replace (3 * S t)%nat with (S (S (S (3 * t)))) by lia. cbn [nth_error Nat.add]. auto.
Qed.

(** * Searches *)
Lemma inner_no_ok : forall l ii j a b c1 c2 is1 is2, c1 <> c2 -> nth_error l j = Some (a, b) ->
  norm (a, b) = norm (c1, c2) ->
  (forall j' p, nth_error l j' = Some p -> norm p = norm (c1, c2) -> j' = j) ->
  inner_no l ii c1 c2 is1 is2 = Some (ii + Z.of_nat j, if a =? c1 then (if is1 then 1 else 0) else (if is2 then 1 else 0)).
Proof.
  intros l; induction l as [|[x y] l IH]; intros ii j a b c1 c2 is1 is2 Hne Hj Hn Hu; [destruct j; discriminate Hj|].
  cbn [inner_no]. destruct j as [|j].
  - simpl in Hj. injection Hj as -> ->. destruct (norm_eq _ _ _ _ Hn) as [[-> ->]|[-> ->]].
    + rewrite !Z.eqb_refl. cbn [andb]. do 2 f_equal. lia.
    + replace (c2 =? c1) with false by (symmetry; apply Z.eqb_neq; congruence). rewrite !Z.eqb_refl. cbn [andb].
      do 2 f_equal. lia.
  - assert (Hxy : norm (x, y) <> norm (c1, c2)) by (intro E; specialize (Hu 0%nat (x, y) eq_refl E); lia).
    destruct ((x =? c1) && (y =? c2)) eqn:E1.
    { apply andb_true_iff in E1. destruct E1 as [E1 E2]. apply Z.eqb_eq in E1, E2. subst. congruence. }
    destruct ((x =? c2) && (y =? c1)) eqn:E2.
    { apply andb_true_iff in E2. destruct E2 as [E2 E3]. apply Z.eqb_eq in E2, E3. subst.
      exfalso. apply Hxy. apply norm_swap. }
    rewrite (IH (ii + 1) j a b c1 c2 is1 is2 Hne Hj Hn).
    + do 2 f_equal. lia.
    + intros j' p Hp Hnp. specialize (Hu (S j') p Hp Hnp). lia.
Qed.
Lemma outer_up_ok : forall l j a b fc cell, fc <> cell -> nth_error l j = Some (a, b) ->
  norm (a, b) = norm (fc, cell) ->
  (forall j' p, nth_error l j' = Some p -> norm p = norm (fc, cell) -> j' = j) ->
  outer_up l fc cell = Some (if b =? cell then 1 else 0).
Proof.
  intros l; induction l as [|[x y] l IH]; intros j a b fc cell Hne Hj Hn Hu; [destruct j; discriminate Hj|].
  cbn [outer_up]. destruct j as [|j].
  - simpl in Hj. injection Hj as -> ->. destruct (norm_eq _ _ _ _ Hn) as [[-> ->]|[-> ->]].
    + rewrite !Z.eqb_refl. reflexivity.
    + replace (cell =? fc) with false by (symmetry; apply Z.eqb_neq; congruence). rewrite !Z.eqb_refl. cbn [andb].
      replace (fc =? cell) with false by (symmetry; apply Z.eqb_neq; congruence). reflexivity.
  - assert (Hxy : norm (x, y) <> norm (fc, cell)) by (intro E; specialize (Hu 0%nat (x, y) eq_refl E); lia).
    destruct ((x =? fc) && (y =? cell)) eqn:E1.
    { apply andb_true_iff in E1. destruct E1 as [E1 E2]. apply Z.eqb_eq in E1, E2. subst. congruence. }
    destruct ((y =? fc) && (x =? cell)) eqn:E2.
    { apply andb_true_iff in E2. destruct E2 as [E2 E3]. apply Z.eqb_eq in E2, E3. subst.
      exfalso. apply Hxy. apply norm_swap. }
    apply (IH j a b fc cell Hne Hj Hn). intros j' p Hp Hnp. specialize (Hu (S j') p Hp Hnp). lia.
Qed.

Section Vertex.
Variables (k : corner) (ups : list (Z * Z)).
Hypotheses (Hk : conforming k) (Hc : connected k ups).

Let N : nat := length (filter (inside k) (k_faces k)).
Definition peq (p q : Z * Z) : bool := (fst p =? fst q) && (snd p =? snd q).
Lemma peq_true : forall p q, peq p q = true <-> p = q.
Proof.
  intros [a b] [c d]. unfold peq; simpl. rewrite andb_true_iff, !Z.eqb_eq. split; [intros [-> ->]; reflexivity|].
  intro H. injection H as -> ->. auto.
Qed.
Definition idx (f : nat) : nat :=
  match first_at (fun c => peq (norm c) (key k f)) ups 0 with Some i => i | None => 0%nat end.
Definition con (f : nat) : Z * Z := nth (idx f) ups (0, 0).

Lemma key_connects : forall c f, In f (k_faces k) -> norm c = key k f -> connects k f c.
Proof.
  intros [a b] f Hf He. destruct (has_ends k Hk f Hf) as [u [v E]].
  rewrite <- (ends_key k Hk f u v Hf E) in He.
  destruct (norm_eq _ _ _ _ He) as [[-> ->]|[-> ->]]; [left|right]; exact E.
Qed.

Lemma idx_spec : forall f, In f (k_faces k) ->
  nth_error ups (idx f) = Some (con f) /\ connects k f (con f) /\ norm (con f) = key k f /\
  (forall j d, nth_error ups j = Some d -> norm d = key k f -> j = idx f).
Proof.
  intros f Hf. destruct (cn_each k ups Hc f Hf) as [i [c [Hi [Hcc Hu]]]].
  assert (Hu' : forall j d, nth_error ups j = Some d -> norm d = key k f -> j = i).
  { intros j d Hj Hd. apply (Hu j d Hj). exact (key_connects d f Hf Hd). }
  assert (E : idx f = i).
  { unfold idx. rewrite (first_at_eq _ ups 0 i c Hi); [reflexivity| |].
    - apply peq_true. exact (connects_key k Hk f c Hf Hcc).
    - intros b y Hb Hy. apply peq_true in Hy. exact (Hu' b y Hb Hy). }
  assert (Ec : con f = c) by (unfold con; rewrite E; apply nth_error_nth; exact Hi).
  rewrite E, Ec. split; [exact Hi|]. split; [exact Hcc|]. split; [exact (connects_key k Hk f c Hf Hcc)|exact Hu'].
Qed.
Lemma idx_inj : forall f h, In f (k_faces k) -> In h (k_faces k) -> idx f = idx h -> f = h.
Proof.
  intros f h Hf Hh He. destruct (idx_spec f Hf) as [_ [_ [K1 _]]]. destruct (idx_spec h Hh) as [_ [_ [K2 _]]].
  apply (key_inj k Hk f h Hf Hh). rewrite <- K1, <- K2. unfold con. rewrite He. reflexivity.
Qed.
Lemma idx_inside : forall f, In f (k_faces k) -> ((idx f < N)%nat <-> inside k f = true).
Proof.
  intros f Hf. destruct (idx_spec f Hf) as [Hi [Hcc _]]. exact (cn_first k ups Hc (idx f) (con f) f Hi Hcc Hf).
Qed.
Lemma faces_ups : (length (k_faces k) <= length ups)%nat.
Proof.
  assert (ND : NoDup (map idx (k_faces k))).
  { assert (G : forall l, NoDup l -> incl l (k_faces k) -> NoDup (map idx l)).
    { intros l; induction l as [|f l IH]; intros Hn Hin; [constructor|]. inversion Hn; subst. simpl. constructor.
      - intro Hm. apply in_map_iff in Hm. destruct Hm as [h [He Hh]].
        assert (h = f) by (apply idx_inj; [apply Hin; right; exact Hh|apply Hin; left; reflexivity|exact He]).
        subst h. contradiction.
      - apply IH; [assumption|]. intros x Hx. apply Hin. right. exact Hx. }
    apply G; [apply (cf_faces k Hk)|apply incl_refl]. }
  assert (I : incl (map idx (k_faces k)) (seq 0 (length ups))).
  { intros i Hi. apply in_map_iff in Hi. destruct Hi as [f [<- Hf]]. apply in_seq.
    destruct (idx_spec f Hf) as [H _]. apply nth_lt in H. lia. }
  apply NoDup_incl_length in I; [|exact ND]. rewrite map_length, seq_length in I. exact I.
Qed.
Lemma N_le : (N <= length (k_faces k))%nat.
Proof. apply filter_len_le. Qed.
Lemma idx_onto : forall i, (i < N)%nat -> exists f, In f (k_faces k) /\ inside k f = true /\ idx f = i.
Proof.
  intros i Hi. assert (H1 := faces_ups). assert (H2 := N_le).
  destruct (rd_ok ups i) as [c [_ E]]; [lia|]. destruct (cn_sound k ups Hc i c E) as [f [Hf Hcc]].
  assert (Ei : i = idx f).
  { destruct (idx_spec f Hf) as [_ [_ [_ Hu]]]. apply (Hu i c E). exact (connects_key k Hk f c Hf Hcc). }
  exists f. split; [exact Hf|]. split; [|auto]. apply idx_inside; [exact Hf|]. lia.
Qed.

(** ** The slots of the vertex *)
Definition fc3 (s : nat * nat * nat) : nat := snd s.
Definition isb (s : nat * nat * nat) : bool := negb (inside k (snd s)).
Definition dir (s : nat * nat * nat) : bool :=
  let '(i, _, f) := s in
  if inside k f then fst (con f) =? Z.of_nat i else snd (con f) =? Z.of_nat i.
Definition dirz (s : nat * nat * nat) : Z := if dir s then 1 else 0.

Lemma in_slots : forall i c f, In (i, c, f) (slots k) <->
  nth_error (k_cells k) i = Some c /\ In f (k_faces k) /\ touches k f c.
Proof.
  intros i c f. unfold slots. rewrite in_slots_from. split.
  - intros [a [f0 [f1 [f2 [-> [Hc' [Hs Hf]]]]]]]. simpl. split; [exact Hc'|].
    apply (cf_three k Hk a c f0 f1 f2 Hc' Hs). exact Hf.
  - intros [Hc' [Hf Ht]]. destruct (rd_ok (k_sub k) i) as [[[f0 f1] f2] [_ Hs]].
    { rewrite (cf_sub k Hk). exact (nth_lt _ _ _ Hc'). }
    exists i, f0, f1, f2. split; [reflexivity|]. split; [exact Hc'|]. split; [exact Hs|].
    apply (cf_three k Hk i c f0 f1 f2 Hc' Hs). auto.
Qed.
Lemma nodup_slots : NoDup (slots k).
Proof.
  apply nodup_slots_from. intros a f0 f1 f2 Hs La.
  destruct (rd_ok (k_cells k) a La) as [c [_ Hc']]. apply (cf_three k Hk a c f0 f1 f2 Hc' Hs).
Qed.
Lemma slot_of_face : forall f, In f (k_faces k) -> exists s, In s (slots k) /\ snd s = f.
Proof.
  intros f Hf. destruct (has_ends k Hk f Hf) as [u [v E]].
  destruct E as [a b ca cb Ha _ _ Ta _|a j ca Ha _ Ta]; exists (a, ca, f); split; auto; apply in_slots; auto.
Qed.
Lemma slot_face : forall s, In s (slots k) -> In (snd s) (k_faces k).
Proof. intros [[i c] f] H. apply in_slots in H. tauto. Qed.
Lemma internal_val : forall f, In f (k_faces k) -> rd (k_internal k) f = Ok (inside k f).
Proof.
  intros f Hf. destruct (cf_sides k Hk f Hf) as [c1 [c2 [_ [_ [_ [E _]]]]]].
  unfold inside. rewrite (nth_error_nth _ _ _ E). apply rd_some. exact E.
Qed.

(** An internal face has two slots, with different directions. *)
Lemma ends_pos : forall f a b i c, In f (k_faces k) -> ends k f a b -> nth_error (k_cells k) i = Some c -> touches k f c ->
  Z.of_nat i = a \/ (Z.of_nat i = b /\ inside k f = true).
Proof.
  intros f a b i c Hf E Hi Ht. destruct E as [a b ca cb Ha Hb Hab Ta Tb|a j ca Ha Hj Ta].
  - destruct (touch_two k f ca cb c Hf Ta Tb Ht Hab) as [->| ->].
    + left. f_equal. exact (nodup_nth _ _ _ _ (cf_cells k Hk) Hi Ha).
    + right. split; [f_equal; exact (nodup_nth _ _ _ _ (cf_cells k Hk) Hi Hb)|].
      exact (touch_inside k Hk f ca cb Hf Hab Ta Tb).
  - left. f_equal. assert (Hin : In f (k_bnd k)) by (eapply nth_error_In; exact Hj).
    apply (cf_outer k Hk) in Hin. assert (c = ca) by (exact (touch_one k Hk f c ca Hf (proj2 Hin) Ht Ta)). subst c.
    exact (nodup_nth _ _ _ _ (cf_cells k Hk) Hi Ha).
Qed.
Lemma ends_ne : forall f a b, ends k f a b -> a <> b.
Proof.
  intros f a b E. destruct E as [a b ca cb Ha Hb Hab Ta Tb|a j ca Ha Hj Ta].
  - intro H. apply Nat2Z.inj in H. subst. congruence.
  - apply nth_lt in Ha. lia.
Qed.
Lemma slot_dir : forall s s', In s (slots k) -> In s' (slots k) -> snd s = snd s' -> dir s = dir s' -> s = s'.
Proof.
  intros [[i c] f] [[i' c'] f'] H H' Ef Ed. simpl in Ef. subst f'.
  apply in_slots in H, H'. destruct H as [Hi [Hf Ht]], H' as [Hi' [_ Ht']].
  assert (Ei : i = i').
  { destruct (idx_spec f Hf) as [_ [Hcc _]]. unfold dir in Ed. destruct (con f) as [x y].
    destruct (inside k f) eqn:Ein.
    - simpl in Ed. destruct Hcc as [E|E]; simpl in E; assert (Hne := ends_ne f _ _ E);
        destruct (ends_pos f _ _ i c Hf E Hi Ht) as [P|[P _]]; destruct (ends_pos f _ _ i' c' Hf E Hi' Ht') as [Q|[Q _]];
        try (apply Nat2Z.inj; congruence);
        exfalso; destruct (Z.eqb_spec x (Z.of_nat i)), (Z.eqb_spec x (Z.of_nat i')); congruence.
    - assert (c = c') by (exact (touch_one k Hk f c c' Hf Ein Ht Ht')). subst c'.
      exact (nodup_nth _ _ _ _ (cf_cells k Hk) Hi Hi'). }
  subst i'. assert (c = c') by congruence. subst c'. reflexivity.
Qed.
Lemma slot_boundary : forall s s', In s (slots k) -> In s' (slots k) -> snd s = snd s' -> isb s = true -> s = s'.
Proof.
  intros [[i c] f] [[i' c'] f'] H H' Ef Eb. simpl in Ef. subst f'.
  apply in_slots in H, H'. destruct H as [Hi [Hf Ht]], H' as [Hi' [_ Ht']].
  unfold isb in Eb. simpl in Eb. apply negb_true_iff in Eb.
  assert (c = c') by (exact (touch_one k Hk f c c' Hf Eb Ht Ht')). subst c'.
  assert (i = i') by (exact (nodup_nth _ _ _ _ (cf_cells k Hk) Hi Hi')). subst i'. reflexivity.
Qed.
Lemma other_side : forall s, In s (slots k) -> isb s = false ->
  exists s', In s' (slots k) /\ snd s' = snd s /\ dir s' = negb (dir s).
Proof.
  intros [[i c] f] H Eb. apply in_slots in H. destruct H as [Hi [Hf Ht]].
  unfold isb in Eb. simpl in Eb. apply negb_false_iff in Eb.
  destruct (cf_sides k Hk f Hf) as [c1 [c2 [Ec [Hne [_ [_ Hin]]]]]].
  assert (Ei := inside_val k Hk f c1 c2 Hf Ec). rewrite Eb in Ei. symmetry in Ei. apply andb_true_iff in Ei.
  destruct Ei as [P1 P2]. apply Z.leb_le in P1, P2.
  assert (Hd : exists d, d <> c /\ touches k f d).
  { destruct Ht as [q [Eq Ht]]. assert (q = (c1, c2)) by congruence. subst q. simpl in Ht.
    destruct Ht as [Ht|Ht].
    - exists (Z.to_nat c2). split; [lia|]. exists (c1, c2). split; [exact Ec|right; simpl; lia].
    - exists (Z.to_nat c1). split; [lia|]. exists (c1, c2). split; [exact Ec|left; simpl; lia]. }
  destruct Hd as [d [Hdc Td]]. destruct (In_nth_error _ _ (Hin d Td)) as [j Hj].
  assert (S1 : In (j, d, f) (slots k)) by (apply in_slots; auto).
  assert (S2 : In (i, c, f) (slots k)) by (apply in_slots; auto).
  exists (j, d, f). split; [exact S1|]. split; [reflexivity|].
  destruct (dir (j, d, f)) eqn:E1, (dir (i, c, f)) eqn:E2; try reflexivity; exfalso;
    (assert (E : (j, d, f) = (i, c, f)) by (apply slot_dir; auto; congruence)); injection E; congruence.
Qed.

(** ** Numbering *)
Lemma number_face_ok : forall s cnt, In s (slots k) ->
  number_face k ups (Z.of_nat N) s (Z.of_nat cnt) =
    if isb s then Ok (Z.of_nat (N + cnt), dirz s, Z.of_nat (S cnt))
    else Ok (Z.of_nat (idx (snd s)), dirz s, Z.of_nat cnt).
Proof.
  intros [[i c] f] cnt H. assert (Hs := H). apply in_slots in H. destruct H as [Hi [Hf Ht]].
  destruct (cf_sides k Hk f Hf) as [c1 [c2 [Ec [Hne [Hs1 [_ Hin]]]]]].
  assert (Ei := inside_val k Hk f c1 c2 Hf Ec).
  destruct (idx_spec f Hf) as [Hidx [Hcc [Hkey Hu]]].
  unfold number_face. rewrite (rd_some _ _ _ Ec). cbn [bind fst snd]. unfold isb, dirz, dir. cbn [snd].
  destruct (inside k f) eqn:Ein; cbn [negb].
  - symmetry in Ei. apply andb_true_iff in Ei. destruct Ei as [P1 P2]. apply Z.leb_le in P1, P2.
    replace (c1 <? 0) with false by (symmetry; apply Z.ltb_ge; lia).
    replace (c2 <? 0) with false by (symmetry; apply Z.ltb_ge; lia). cbn [orb].
    assert (T1 : touches k f (Z.to_nat c1)) by (exists (c1, c2); split; [exact Ec|left; simpl; lia]).
    assert (T2 : touches k f (Z.to_nat c2)) by (exists (c1, c2); split; [exact Ec|right; simpl; lia]).
    destruct (In_nth_error _ _ (Hin _ T1)) as [a Ha]. destruct (In_nth_error _ _ (Hin _ T2)) as [b Hb].
    assert (Ea := pos_cell _ _ _ (cf_cells k Hk) Ha). assert (Eb := pos_cell _ _ _ (cf_cells k Hk) Hb).
    rewrite Z2Nat.id in Ea, Eb by assumption. rewrite Ea, Eb.
    assert (Hab : Z.of_nat a <> Z.of_nat b).
    { intro E. apply Nat2Z.inj in E. subst b. rewrite Ha in Hb. injection Hb as Hb. lia. }
    assert (Hk2 : key k f = norm (Z.of_nat a, Z.of_nat b)).
    { symmetry. apply (ends_key k Hk f _ _ Hf). apply (ends_in k f a b _ _ Ha Hb); auto. lia. }
    destruct (con f) as [x y] eqn:Ecf. rewrite Hk2 in Hkey, Hu.
    rewrite (inner_no_ok ups 0 (idx f) x y (Z.of_nat a) (Z.of_nat b) _ _ Hab Hidx Hkey Hu).
    cbn [fst snd]. rewrite Z.add_0_l. do 3 f_equal.
    assert (Hi2 : (Z.of_nat c =? c1) = (Z.of_nat i =? Z.of_nat a) /\ (Z.of_nat c =? c2) = (Z.of_nat i =? Z.of_nat b)).
    { split; apply eq_true_iff_eq; rewrite !Z.eqb_eq; split; intro E.
      - assert (c = Z.to_nat c1) by lia. subst c. f_equal. exact (nodup_nth _ _ _ _ (cf_cells k Hk) Hi Ha).
      - apply Nat2Z.inj in E. subst i. rewrite Hi in Ha. injection Ha as ->. lia.
      - assert (c = Z.to_nat c2) by lia. subst c. f_equal. exact (nodup_nth _ _ _ _ (cf_cells k Hk) Hi Hb).
      - apply Nat2Z.inj in E. subst i. rewrite Hi in Hb. injection Hb as ->. lia. }
    destruct Hi2 as [-> ->].
    destruct (norm_eq _ _ _ _ Hkey) as [[-> ->]|[-> ->]].
    + rewrite Z.eqb_refl, Z.eqb_sym. reflexivity.
    + replace (Z.of_nat b =? Z.of_nat a) with false by (symmetry; apply Z.eqb_neq; congruence).
      rewrite Z.eqb_sym. reflexivity.
  - symmetry in Ei.
    replace ((c1 <? 0) || (c2 <? 0)) with true.
    2:{ symmetry. apply orb_true_iff. apply andb_false_iff in Ei. rewrite !Z.ltb_lt, <- !Z.leb_gt. exact Ei. }
    assert (Hb : In f (k_bnd k)) by (apply (cf_outer k Hk); auto).
    destruct (In_nth_error _ _ Hb) as [j Hj]. rewrite (pos_nat _ _ _ (cf_bnd k Hk) Hj).
    assert (E : ends k f (Z.of_nat i) (Z.of_nat (length (k_cells k) + j))) by exact (ends_out k f i j c Hi Hj Ht).
    assert (Hk2 : key k f = norm (Z.of_nat (length (k_cells k) + j), Z.of_nat i)).
    { rewrite norm_swap. symmetry. exact (ends_key k Hk f _ _ Hf E). }
    destruct (con f) as [x y] eqn:Ecf. rewrite Hk2 in Hkey, Hu.
    assert (Hne2 : Z.of_nat (length (k_cells k) + j) <> Z.of_nat i) by (apply nth_lt in Hi; lia).
    rewrite (outer_up_ok ups (idx f) x y _ _ Hne2 Hidx Hkey Hu). cbn [snd].
    do 2 f_equal; [f_equal|]; lia.
Qed.

Fixpoint nums (l : list (nat * nat * nat)) (cnt : nat) : list (Z * Z) :=
  match l with
  | [] => []
  | s :: l => if isb s then (Z.of_nat (N + cnt), dirz s) :: nums l (S cnt)
              else (Z.of_nat (idx (snd s)), dirz s) :: nums l cnt
  end.
Lemma number_faces_ok : forall l cnt, incl l (slots k) ->
  number_faces k ups (Z.of_nat N) l (Z.of_nat cnt) = Ok (nums l cnt).
Proof.
  intros l; induction l as [|s l IH]; intros cnt Hl; [reflexivity|].
  assert (Hl' : incl l (slots k)) by (intros x Hx; apply Hl; right; exact Hx).
  cbn [number_faces nums]. rewrite number_face_ok by (apply Hl; left; reflexivity).
  destruct (isb s); cbn [bind]; rewrite IH by exact Hl'; reflexivity.
Qed.

Lemma count_internal_ok : forall l, incl l (k_faces k) ->
  count_internal k l = Ok (Z.of_nat (length (filter (inside k) l))).
Proof.
  intros l; induction l as [|f l IH]; intro Hl; [reflexivity|].
  cbn [count_internal filter]. rewrite (internal_val f) by (apply Hl; left; reflexivity). cbn [bind].
  rewrite IH by (intros x Hx; apply Hl; right; exact Hx). cbn [bind].
  destruct (inside k f); cbn [length]; [f_equal; lia|reflexivity].
Qed.

Definition upb (s : nat * nat * nat) : bool := isb s && dir s.
Definition dnb (s : nat * nat * nat) : bool := isb s && negb (dir s).
Lemma count_up_ok : forall l cnt, incl l (slots k) ->
  count_up k l (nums l cnt) = Ok (Z.of_nat (length (filter upb l))).
Proof.
  intros l; induction l as [|[[i c] f] l IH]; intros cnt Hl; [reflexivity|].
  assert (Hl' : incl l (slots k)) by (intros x Hx; apply Hl; right; exact Hx).
  assert (Hf : In f (k_faces k)) by (apply (slot_face (i, c, f)); apply Hl; left; reflexivity).
  cbn [nums filter]. unfold upb at 1, isb at 1 2, dirz. cbn [snd].
  destruct (inside k f) eqn:Ein; cbn [negb andb count_up]; rewrite (internal_val f Hf), Ein; cbn [bind];
    rewrite IH by exact Hl'; cbn [bind]; [reflexivity|].
  destruct (dir (i, c, f)); cbn [length Z.eqb]; [f_equal; simpl; lia|reflexivity].
Qed.

Let NU : nat := length (filter upb (slots k)).
Let ND : nat := length (filter dnb (slots k)).

Fixpoint fluxes (l : list (nat * nat * nat)) (u d : nat) : list nat :=
  match l with
  | [] => []
  | s :: l => if isb s then if dir s then (N + u)%nat :: fluxes l (S u) d else (N + d)%nat :: fluxes l u (S d)
              else idx (snd s) :: fluxes l u d
  end.
Fixpoint writes (l : list (nat * nat * nat)) (u d : nat) : list (nat * nat) :=
  match l with
  | [] => []
  | s :: l => if isb s then if dir s then ((N + u)%nat, snd s) :: writes l (S u) d
                            else ((N + NU + d)%nat, snd s) :: writes l u (S d)
              else (idx (snd s), snd s) :: writes l u d
  end.
Lemma wrz_ok : forall a i x, (i < length a)%nat -> wrz a (Z.of_nat i) x = Ok (upd a i x).
Proof.
  intros a i x H. unfold wrz. replace (Z.of_nat i <? 0) with false by (symmetry; apply Z.ltb_ge; lia).
  rewrite Nat2Z.id. apply wr_ok. exact H.
Qed.
Lemma place_faces_ok : forall l cnt u d vf, incl l (slots k) ->
  (forall w, In w (writes l u d) -> (fst w < length vf)%nat) ->
  place_faces k (Z.of_nat N) (Z.of_nat NU) l (nums l cnt) (Z.of_nat u) (Z.of_nat d) vf =
    Ok (map Z.of_nat (fluxes l u d), write (writes l u d) vf).
Proof.
  intros l; induction l as [|[[i c] f] l IH]; intros cnt u d vf Hl Hw; [reflexivity|].
  assert (Hl' : incl l (slots k)) by (intros x Hx; apply Hl; right; exact Hx).
  assert (Hf : In f (k_faces k)) by (apply (slot_face (i, c, f)); apply Hl; left; reflexivity).
  cbn [nums writes fluxes] in Hw |- *. unfold isb at 1 2 3, dirz. unfold isb in Hw. cbn [snd] in Hw |- *.
  destruct (inside k f) eqn:Ein; cbn [negb place_faces] in Hw |- *; rewrite (internal_val f Hf), Ein; cbn [bind].
  - rewrite wrz_ok by (apply (Hw (idx f, f)); left; reflexivity). cbn [bind].
    rewrite IH; [reflexivity|exact Hl'|]. intros w Hin. rewrite length_upd. apply Hw. right. exact Hin.
  - destruct (dir (i, c, f)); cbn [Z.eqb negb].
    + replace (Z.of_nat N + Z.of_nat u) with (Z.of_nat (N + u)) by lia.
      rewrite wrz_ok by (apply (Hw ((N + u)%nat, f)); left; reflexivity). cbn [bind].
      replace (Z.of_nat u + 1) with (Z.of_nat (S u)) by lia.
      rewrite IH; [reflexivity|exact Hl'|]. intros w Hin. rewrite length_upd. apply Hw. right. exact Hin.
    + replace (Z.of_nat N + Z.of_nat NU + Z.of_nat d) with (Z.of_nat (N + NU + d)) by lia.
      rewrite wrz_ok by (apply (Hw ((N + NU + d)%nat, f)); left; reflexivity). cbn [bind].
      replace (Z.of_nat d + 1) with (Z.of_nat (S d)) by lia.
      rewrite IH; [cbn [bind fst snd map]; do 3 f_equal; lia|exact Hl'|].
      intros w Hin. rewrite length_upd. apply Hw. right. exact Hin.
Qed.

(** ** The places in the vertex's list of faces *)
Definition at_place (q : nat) (s : nat * nat * nat) : nat :=
  if isb s then if dir s then (N + before upb (slots k) q)%nat else (N + NU + before dnb (slots k) q)%nat
  else idx (snd s).
Lemma writes_nth : forall l u d q s, nth_error l q = Some s ->
  nth_error (writes l u d) q =
    Some (if isb s then if dir s then (N + u + before upb l q)%nat else (N + NU + d + before dnb l q)%nat
          else idx (snd s), snd s).
Proof.
  intros l; induction l as [|s0 l IH]; intros u d q s Hq; [destruct q; discriminate Hq|].
  destruct q as [|q].
  - simpl in Hq. injection Hq as ->. cbn [writes]. unfold before; cbn [firstn filter length].
    destruct (isb s); [destruct (dir s)|]; cbn [nth_error]; do 2 f_equal; lia.
  - cbn [nth_error] in Hq. cbn [writes]. rewrite !before_cons.
    replace (upb s0) with (isb s0 && dir s0) by reflexivity.
    replace (dnb s0) with (isb s0 && negb (dir s0)) by reflexivity.
    destruct (isb s0); [destruct (dir s0)|]; cbn [nth_error andb negb]; rewrite (IH _ _ q s Hq);
      destruct (isb s); try destruct (dir s); do 2 f_equal; lia.
Qed.
Lemma writes_length : forall l u d, length (writes l u d) = length l.
Proof.
  intros l; induction l as [|s l IH]; intros u d; [reflexivity|].
  cbn [writes]. destruct (isb s); [destruct (dir s)|]; cbn [length]; rewrite IH; reflexivity.
Qed.
Lemma in_writes : forall p f, In (p, f) (writes (slots k) 0 0) <->
  exists q s, nth_error (slots k) q = Some s /\ p = at_place q s /\ f = snd s.
Proof.
  intros p f. unfold at_place. split.
  - intro H. destruct (In_nth_error _ _ H) as [q Hq]. assert (L := nth_lt _ _ _ Hq). rewrite writes_length in L.
    destruct (rd_ok (slots k) q L) as [s [_ Hs]]. rewrite (writes_nth _ 0 0 q s Hs) in Hq.
    injection Hq as <- <-. exists q, s. split; [exact Hs|]. split; [|reflexivity].
    destruct (isb s); [destruct (dir s)|]; lia.
  - intros [q [s [Hs [-> ->]]]]. apply (nth_error_In _ q). rewrite (writes_nth _ 0 0 q s Hs).
    destruct (isb s); [destruct (dir s)|]; do 2 f_equal; lia.
Qed.

Lemma bnd_slots : Permutation (map snd (filter isb (slots k))) (k_bnd k).
Proof.
  apply NoDup_Permutation; [|apply (cf_bnd k Hk)|].
  - assert (G : forall l, NoDup l -> incl l (slots k) -> NoDup (map snd (filter isb l))).
    { intros l; induction l as [|s l IH]; intros Hn Hl; [constructor|]. inversion Hn; subst. simpl.
      assert (Hl' : incl l (slots k)) by (intros x Hx; apply Hl; right; exact Hx).
      destruct (isb s) eqn:Eb; [|apply IH; assumption]. simpl. constructor; [|apply IH; assumption].
      intro Hm. apply in_map_iff in Hm. destruct Hm as [s' [He Hs']]. apply filter_In in Hs'.
      assert (s = s') by (apply slot_boundary; [apply Hl; left; reflexivity|apply Hl'; tauto|congruence|exact Eb]).
      subst s'. tauto. }
    apply G; [exact nodup_slots|apply incl_refl].
  - intro f. rewrite in_map_iff. split.
    + intros [s [<- Hs]]. apply filter_In in Hs. destruct Hs as [Hs Hb]. apply (cf_outer k Hk).
      split; [exact (slot_face s Hs)|]. unfold isb in Hb. apply negb_true_iff in Hb. exact Hb.
    + intro Hf. apply (cf_outer k Hk) in Hf. destruct Hf as [Hf Hi].
      destruct (slot_of_face f Hf) as [s [Hs Es]]. exists s. split; [exact Es|]. apply filter_In.
      split; [exact Hs|]. unfold isb. rewrite Es, Hi. reflexivity.
Qed.
Lemma bnd_count : length (filter isb (slots k)) = length (k_bnd k).
Proof. rewrite <- (map_length snd). apply Permutation_length. exact bnd_slots. Qed.
Lemma bnd_faces : length (filter (fun f => negb (inside k f)) (k_faces k)) = length (k_bnd k).
Proof.
  apply Permutation_length. apply NoDup_Permutation; [apply NoDup_filter, (cf_faces k Hk)|apply (cf_bnd k Hk)|].
  intro f. rewrite filter_In, negb_true_iff. symmetry. apply (cf_outer k Hk).
Qed.
Lemma up_dn : forall l, (length (filter upb l) + length (filter dnb l) = length (filter isb l))%nat.
Proof.
  intros l; induction l as [|s l IH]; [reflexivity|]. simpl. unfold upb at 1, dnb at 1.
  destruct (isb s); [destruct (dir s)|]; simpl; lia.
Qed.
Lemma faces_total : length (k_faces k) = (N + NU + ND)%nat.
Proof.
  rewrite <- (partition_length (inside k) (k_faces k)), bnd_faces, <- bnd_count, <- (up_dn (slots k)).
  unfold NU, ND, N. lia.
Qed.

Lemma at_place_kind : forall q s, nth_error (slots k) q = Some s ->
  if isb s then if dir s then (N <= at_place q s < N + NU)%nat else (N + NU <= at_place q s < N + NU + ND)%nat
  else (at_place q s < N)%nat.
Proof.
  intros q s Hq. unfold at_place. assert (Hin := nth_error_In _ _ Hq).
  destruct (isb s) eqn:Eb; [destruct (dir s) eqn:Ed|].
  - assert (H := before_total upb (slots k) q s Hq ltac:(unfold upb; rewrite Eb, Ed; reflexivity)). fold NU in H. lia.
  - assert (H := before_total dnb (slots k) q s Hq ltac:(unfold dnb; rewrite Eb, Ed; reflexivity)). fold ND in H. lia.
  - apply idx_inside; [exact (slot_face s Hin)|]. unfold isb in Eb. apply negb_false_iff in Eb. exact Eb.
Qed.
Lemma at_place_bound : forall q s, nth_error (slots k) q = Some s -> (at_place q s < length (k_faces k))%nat.
Proof.
  intros q s Hq. assert (H := at_place_kind q s Hq). assert (T := faces_total).
  destruct (isb s); [destruct (dir s)|]; lia.
Qed.
Lemma at_place_face : forall q q' s s', nth_error (slots k) q = Some s -> nth_error (slots k) q' = Some s' ->
  (at_place q s = at_place q' s' <-> snd s = snd s').
Proof.
  intros q q' s s' Hq Hq'. assert (Hin := nth_error_In _ _ Hq). assert (Hin' := nth_error_In _ _ Hq').
  split.
  - intro He. assert (K := at_place_kind q s Hq). assert (K' := at_place_kind q' s' Hq').
    unfold at_place in He, K, K'.
    destruct (isb s) eqn:Eb; destruct (isb s') eqn:Eb'; try destruct (dir s) eqn:Ed; try destruct (dir s') eqn:Ed';
      try lia.
    + assert (Hqq : q = q') by (apply (before_inj upb (slots k) q q' s s' Hq Hq');
        [unfold upb; rewrite Eb, Ed; reflexivity|unfold upb; rewrite Eb', Ed'; reflexivity|lia]).
      subst q'. congruence.
    + assert (Hqq : q = q') by (apply (before_inj dnb (slots k) q q' s s' Hq Hq');
        [unfold dnb; rewrite Eb, Ed; reflexivity|unfold dnb; rewrite Eb', Ed'; reflexivity|lia]).
      subst q'. congruence.
    + apply idx_inj; [exact (slot_face s Hin)|exact (slot_face s' Hin')|exact He].
    + apply idx_inj; [exact (slot_face s Hin)|exact (slot_face s' Hin')|exact He].
    + apply idx_inj; [exact (slot_face s Hin)|exact (slot_face s' Hin')|exact He].
    + apply idx_inj; [exact (slot_face s Hin)|exact (slot_face s' Hin')|exact He].
  - intro He. destruct (isb s) eqn:Eb.
    + assert (s = s') by (apply slot_boundary; auto). subst s'.
      assert (q = q') by (exact (nodup_nth _ _ _ _ nodup_slots Hq Hq')). subst q'. reflexivity.
    + assert (Eb' : isb s' = false) by (unfold isb in *; rewrite <- He; exact Eb).
      unfold at_place. rewrite Eb, Eb', He. reflexivity.
Qed.
Lemma at_place_onto : forall p, (p < length (k_faces k))%nat -> exists q s, nth_error (slots k) q = Some s /\ at_place q s = p.
Proof.
  intros p Hp. rewrite faces_total in Hp. destruct (lt_dec p N) as [L|L].
  - destruct (idx_onto p L) as [f [Hf [Hi He]]]. destruct (slot_of_face f Hf) as [s [Hs Es]].
    destruct (In_nth_error _ _ Hs) as [q Hq]. exists q, s. split; [exact Hq|]. unfold at_place, isb.
    rewrite Es, Hi. exact He.
  - destruct (lt_dec p (N + NU)) as [L2|L2].
    + destruct (before_onto upb (slots k) (p - N)) as [q [s [Hq [Hs Hb]]]]; [fold NU; lia|].
      exists q, s. split; [exact Hq|]. unfold at_place. unfold upb in Hs. apply andb_true_iff in Hs.
      destruct Hs as [Eb Ed]. rewrite Eb, Ed. lia.
    + destruct (before_onto dnb (slots k) (p - N - NU)) as [q [s [Hq [Hs Hb]]]]; [fold ND; lia|].
      exists q, s. split; [exact Hq|]. unfold at_place. unfold dnb in Hs. apply andb_true_iff in Hs.
      destruct Hs as [Eb Ed]. apply negb_true_iff in Ed. rewrite Eb, Ed. lia.
Qed.

Definition vf' : list nat := write (writes (slots k) 0 0) (k_faces k).
Lemma vf_length : length vf' = length (k_faces k).
Proof. apply write_length. Qed.
Lemma vf_nth : forall q s, nth_error (slots k) q = Some s -> nth_error vf' (at_place q s) = Some (snd s).
Proof.
  intros q s Hq. apply write_value; [exact (at_place_bound q s Hq)|apply in_writes; eauto|].
  intros f Hf. apply in_writes in Hf. destruct Hf as [q' [s' [Hq' [Ep ->]]]].
  symmetry. apply (at_place_face q q' s s' Hq Hq'). exact Ep.
Qed.
Lemma vf_nodup : NoDup vf'.
Proof.
  apply NoDup_nth_error. intros p p' Hp He. rewrite vf_length in Hp.
  destruct (at_place_onto p Hp) as [q [s [Hq Ep]]].
  assert (E1 := vf_nth q s Hq). rewrite Ep in E1. rewrite E1 in He.
  assert (Hp' : (p' < length vf')%nat) by (apply nth_error_Some; congruence). rewrite vf_length in Hp'.
  destruct (at_place_onto p' Hp') as [q' [s' [Hq' Ep']]].
  assert (E2 := vf_nth q' s' Hq'). rewrite Ep' in E2. rewrite E2 in He. injection He as He.
  rewrite <- Ep, <- Ep'. apply (at_place_face q q' s s' Hq Hq'). exact He.
Qed.
Lemma vf_in : forall f, In f vf' -> In f (k_faces k).
Proof.
  intros f Hf. destruct (In_nth_error _ _ Hf) as [p Hp]. assert (L := nth_lt _ _ _ Hp). rewrite vf_length in L.
  destruct (at_place_onto p L) as [q [s [Hq Ep]]]. assert (E := vf_nth q s Hq). rewrite Ep, Hp in E.
  injection E as ->. apply slot_face. eapply nth_error_In. exact Hq.
Qed.

Definition sub_no (f : nat) : nat :=
  match first_at (Nat.eqb (k_iv k)) (nth f (k_fverts k) []) 0 with Some i => i | None => 0%nat end.
Lemma first_at_in : forall {A} (p : A -> bool) l i, (exists x, In x l /\ p x = true) ->
  exists j x, first_at p l i = Some (i + j)%nat /\ nth_error l j = Some x /\ p x = true.
Proof.
  intros A p l; induction l as [|y l IH]; intros i [x [Hx Hp]]; [destruct Hx|].
  simpl. destruct (p y) eqn:Ey.
  - exists 0%nat, y. split; [f_equal; lia|]. auto.
  - destruct Hx as [->|Hx]; [congruence|]. destruct (IH (S i)) as [j [z [E [Hj Hz]]]]; [eauto|].
    exists (S j), z. split; [rewrite E; f_equal; lia|]. auto.
Qed.
Lemma sub_no_spec : forall f, In f (k_faces k) -> exists vs, nth_error (k_fverts k) f = Some vs /\
  first_at (Nat.eqb (k_iv k)) vs 0 = Some (sub_no f) /\ nth_error vs (sub_no f) = Some (k_iv k) /\ (sub_no f < 4)%nat.
Proof.
  intros f Hf. destruct (cf_verts k Hk f Hf) as [vs [E [Hin Hl]]]. exists vs. split; [exact E|].
  destruct (first_at_in (Nat.eqb (k_iv k)) vs 0) as [j [x [Ej [Hj Hx]]]].
  { exists (k_iv k). split; [exact Hin|apply Nat.eqb_refl]. }
  apply Nat.eqb_eq in Hx. subst x. unfold sub_no. rewrite (nth_error_nth _ _ _ E), Ej. cbn [Nat.add].
  split; [reflexivity|]. split; [exact Hj|]. apply nth_lt in Hj. lia.
Qed.
Lemma subfaces_ok : forall l, (forall f, In f l -> In f (k_faces k)) -> subfaces k l = Ok (map sub_no l).
Proof.
  intros l; induction l as [|f l IH]; intro Hl; [reflexivity|]. cbn [subfaces].
  destruct (sub_no_spec f (Hl f (or_introl eq_refl))) as [vs [E [Ef _]]].
  rewrite (rd_some _ _ _ E). cbn [bind]. rewrite Ef, IH by (intros x Hx; apply Hl; right; exact Hx). reflexivity.
Qed.

Definition the_numbers : numbers :=
  mkNumbers (map fst (nums (slots k) 0)) (map snd (nums (slots k) 0)) (map Z.of_nat (fluxes (slots k) 0 0))
    vf' (map sub_no vf').
Lemma setup_ok : SetupUpwindFacesForSubcell k ups = Ok the_numbers.
Proof.
  unfold SetupUpwindFacesForSubcell. rewrite count_internal_ok by apply incl_refl. cbn [bind]. fold N.
  change 0 with (Z.of_nat 0). rewrite number_faces_ok by apply incl_refl. cbn [bind].
  rewrite count_up_ok by apply incl_refl. cbn [bind]. fold NU.
  rewrite place_faces_ok.
  - cbn [bind snd fst]. fold vf'. rewrite subfaces_ok by exact vf_in. reflexivity.
  - apply incl_refl.
  - intros [p f] Hw. apply in_writes in Hw. destruct Hw as [q [s [Hq [-> _]]]]. exact (at_place_bound q s Hq).
Qed.

(** ** The vertex as the assembly sees it *)
Variables (bno : nat -> nat) (G : nat -> nat -> R * R * R).
Fixpoint facelist (l : list (nat * nat * nat)) (cnt u d : nat) : list sface :=
  match l with
  | [] => []
  | s :: l =>
      let i := fst (fst s) in let f := snd s in
      if isb s then
        if dir s then mkSface true (N + u) (N + cnt) false (bno f) (G i f) :: facelist l (S cnt) (S u) d
        else mkSface false (N + d) (N + cnt) false (bno f) (G i f) :: facelist l (S cnt) u (S d)
      else mkSface (dir s) (idx f) (idx f) true (bno f) (G i f) :: facelist l cnt u d
  end.
Lemma faces_list : faces_of k bno G the_numbers = facelist (slots k) 0 0 0.
Proof.
  unfold faces_of, entries, the_numbers. cbn [n_unk n_up n_flux].
  assert (H : forall l cnt u d,
    map (fun p => face_of k bno G (fst p) (snd p))
      (combine l (combine (combine (map fst (nums l cnt)) (map snd (nums l cnt))) (map Z.of_nat (fluxes l u d)))) =
    facelist l cnt u d).
  { intros l; induction l as [|[[i c] f] l IH]; intros cnt u d; [reflexivity|].
    cbn [nums fluxes facelist]. unfold dirz. cbn [snd fst].
    destruct (isb (i, c, f)) eqn:Eb; unfold isb in Eb; cbn [snd] in Eb.
    - apply negb_true_iff in Eb. destruct (dir (i, c, f)) eqn:Ed; cbn [map combine fst snd]; rewrite IH; f_equal;
        unfold face_of; rewrite !Nat2Z.id, Eb; reflexivity.
    - apply negb_false_iff in Eb. cbn [map combine fst snd]. rewrite IH. f_equal.
      unfold face_of. rewrite !Nat2Z.id, Eb. destruct (dir (i, c, f)); reflexivity. }
  apply H.
Qed.
Lemma facelist_length : forall l cnt u d, length (facelist l cnt u d) = length l.
Proof.
  intros l; induction l as [|s l IH]; intros cnt u d; [reflexivity|]. cbn [facelist].
  destruct (isb s); [destruct (dir s)|]; cbn [length]; rewrite IH; reflexivity.
Qed.
Lemma facelist_nth : forall l cnt u d q s, nth_error l q = Some s ->
  exists h, nth_error (facelist l cnt u d) q = Some h /\ sf_up h = dir s /\ sf_internal h = negb (isb s) /\
    sf_unk h = (if isb s then (N + cnt + before isb l q)%nat else idx (snd s)) /\
    sf_flux h = (if isb s then if dir s then (N + u + before upb l q)%nat else (N + d + before dnb l q)%nat
                 else idx (snd s)).
Proof.
  intros l; induction l as [|s0 l IH]; intros cnt u d q s Hq; [destruct q; discriminate Hq|].
  destruct q as [|q].
  - simpl in Hq. injection Hq as ->. cbn [facelist]. unfold before; cbn [firstn filter length].
    destruct (isb s) eqn:Eb; [destruct (dir s) eqn:Ed|]; eexists; cbn [nth_error];
      (split; [reflexivity|]); cbn [sf_up sf_internal sf_unk sf_flux]; repeat split; try lia; auto.
  - cbn [nth_error] in Hq. cbn [facelist]. rewrite !before_cons.
    replace (upb s0) with (isb s0 && dir s0) by reflexivity.
    replace (dnb s0) with (isb s0 && negb (dir s0)) by reflexivity.
    destruct (isb s0); [destruct (dir s0)|]; cbn [nth_error andb negb];
      [destruct (IH (S cnt) (S u) d q s Hq) as [h [E [E1 [E2 [E3 E4]]]]]
      |destruct (IH (S cnt) u (S d) q s Hq) as [h [E [E1 [E2 [E3 E4]]]]]
      |destruct (IH cnt u d q s Hq) as [h [E [E1 [E2 [E3 E4]]]]]];
      exists h; (split; [exact E|]); (split; [exact E1|]); (split; [exact E2|]); rewrite E3, E4;
      destruct (isb s); try destruct (dir s); split; lia.
Qed.

Let v : vertex := vertex_of k bno G the_numbers.
Let L : list sface := facelist (slots k) 0 0 0.
Lemma L_length : length L = (3 * length (k_cells k))%nat.
Proof. unfold L. rewrite facelist_length. apply slots_length. apply (cf_sub k Hk). Qed.
Lemma all_L : all_faces v = L.
Proof.
  unfold all_faces, v, vertex_of. cbn [v_sub]. rewrite faces_list. exact (triples_flat _ L L_length).
Qed.
Lemma L_slot : forall q h, nth_error L q = Some h -> exists s, nth_error (slots k) q = Some s /\
  sf_up h = dir s /\ sf_internal h = negb (isb s) /\
  sf_unk h = (if isb s then (N + before isb (slots k) q)%nat else idx (snd s)) /\
  sf_flux h = (if isb s then if dir s then (N + before upb (slots k) q)%nat else (N + before dnb (slots k) q)%nat
               else idx (snd s)).
Proof.
  intros q h Hq. assert (Lq := nth_lt _ _ _ Hq). unfold L in Lq. rewrite facelist_length in Lq.
  destruct (rd_ok (slots k) q Lq) as [s [_ Hs]]. exists s. split; [exact Hs|].
  destruct (facelist_nth (slots k) 0 0 0 q s Hs) as [h' [E [E1 [E2 [E3 E4]]]]].
  unfold L in Hq. rewrite E in Hq. injection Hq as ->. rewrite !Nat.add_0_r in E3, E4. auto.
Qed.
Lemma filter_L : forall (p : sface -> bool) (P : nat * nat * nat -> bool),
  (forall l cnt u d q h s, nth_error (facelist l cnt u d) q = Some h -> nth_error l q = Some s -> p h = P s) ->
  forall l cnt u d, length (filter p (facelist l cnt u d)) = length (filter P l).
Proof.
  intros p P H l; induction l as [|s l IH]; intros cnt u d; [reflexivity|].
  assert (H0 := H (s :: l) cnt u d 0%nat). cbn [facelist] in *. cbn [filter].
  destruct (isb s); [destruct (dir s)|]; cbn [nth_error] in H0; cbn [filter];
    rewrite (H0 _ s eq_refl eq_refl); destruct (P s); cbn [length]; rewrite IH; reflexivity.
Qed.
Lemma nth_props : forall l cnt u d q h s, nth_error (facelist l cnt u d) q = Some h -> nth_error l q = Some s ->
  sf_up h = dir s /\ sf_internal h = negb (isb s).
Proof.
  intros l cnt u d q h s Hh Hs. destruct (facelist_nth l cnt u d q s Hs) as [h' [E [E1 [E2 _]]]].
  rewrite E in Hh. injection Hh as <-. auto.
Qed.
Lemma count_bnd : count is_bnd v = length (k_bnd k).
Proof.
  unfold count. rewrite all_L. unfold L. rewrite (filter_L is_bnd isb); [exact bnd_count|].
  intros l cnt u d q h s Hh Hs. destruct (nth_props l cnt u d q h s Hh Hs) as [_ E].
  unfold is_bnd. rewrite E. apply negb_involutive.
Qed.
Lemma count_side : forall b, count (fun h => is_bnd h && side b h) v = if b then NU else ND.
Proof.
  intro b. unfold count. rewrite all_L. unfold L. unfold NU, ND.
  destruct b.
  - apply filter_L. intros l cnt u d q h s Hh Hs. destruct (nth_props l cnt u d q h s Hh Hs) as [E1 E2].
    unfold is_bnd, side, upb. rewrite E1, E2, negb_involutive. destruct (dir s); reflexivity.
  - apply filter_L. intros l cnt u d q h s Hh Hs. destruct (nth_props l cnt u d q h s Hh Hs) as [E1 E2].
    unfold is_bnd, side, dnb. rewrite E1, E2, negb_involutive. destruct (dir s); reflexivity.
Qed.
Lemma count_up_faces : count (fun h => is_bnd h && sf_up h) v = NU.
Proof.
  rewrite <- (count_side true). unfold count. f_equal. apply filter_ext. intro h. unfold side. destruct (sf_up h); reflexivity.
Qed.
Lemma inner_N : inner v = N.
Proof.
  unfold inner. rewrite count_bnd. unfold v, vertex_of. cbn [v_nfaces].
  assert (T := partition_length (inside k) (k_faces k)). rewrite bnd_faces in T. unfold N. lia.
Qed.

Lemma unknown_face : forall q q' h h' s s', nth_error L q = Some h -> nth_error L q' = Some h' ->
  nth_error (slots k) q = Some s -> nth_error (slots k) q' = Some s' -> (sf_unk h = sf_unk h' <-> snd s = snd s').
Proof.
  intros q q' h h' s s' Hh Hh' Hs Hs'.
  destruct (L_slot q h Hh) as [t [Ht [_ [_ [U _]]]]]. assert (t = s) by congruence. subst t.
  destruct (L_slot q' h' Hh') as [t [Ht' [_ [_ [U' _]]]]]. assert (t = s') by congruence. subst t.
  assert (Hin := nth_error_In _ _ Hs). assert (Hin' := nth_error_In _ _ Hs').
  rewrite U, U'. split.
  - intro He.
    assert (K : isb s = false -> (idx (snd s) < N)%nat).
    { intro Eb. apply idx_inside; [exact (slot_face s Hin)|]. unfold isb in Eb. apply negb_false_iff in Eb. exact Eb. }
    assert (K' : isb s' = false -> (idx (snd s') < N)%nat).
    { intro Eb. apply idx_inside; [exact (slot_face s' Hin')|]. unfold isb in Eb. apply negb_false_iff in Eb. exact Eb. }
    destruct (isb s) eqn:Eb; destruct (isb s') eqn:Eb'.
    + assert (q = q') by (apply (before_inj isb (slots k) q q' s s' Hs Hs' Eb Eb'); lia). subst q'. congruence.
    + specialize (K' eq_refl). lia.
    + specialize (K eq_refl). lia.
    + apply idx_inj; [exact (slot_face s Hin)|exact (slot_face s' Hin')|exact He].
  - intro He. destruct (isb s) eqn:Eb.
    + assert (s = s') by (apply slot_boundary; auto). subst s'.
      assert (q = q') by (exact (nodup_nth _ _ _ _ nodup_slots Hs Hs')). subst q'. rewrite Eb. reflexivity.
    + assert (Eb' : isb s' = false) by (unfold isb in *; rewrite <- He; exact Eb). rewrite Eb', He. reflexivity.
Qed.

Lemma place_at : forall q h s, nth_error L q = Some h -> nth_error (slots k) q = Some s -> place v h = at_place q s.
Proof.
  intros q h s Hh Hs. destruct (L_slot q h Hh) as [t [Ht [E1 [E2 [_ E4]]]]]. assert (t = s) by congruence. subst t.
  unfold place, at_place. rewrite count_up_faces. unfold is_bnd. rewrite E2, E1, E4, negb_involutive.
  destruct (isb s); [destruct (dir s)|]; cbn [andb negb]; lia.
Qed.
Lemma rows_eq : v_rows v = map (fun f => (f * 4 + sub_no f)%nat) vf'.
Proof.
  unfold v, vertex_of, rows_of, the_numbers. cbn [v_rows n_faces n_subfaces].
  induction vf' as [|f l IH]; [reflexivity|]. cbn [map combine fst snd]. rewrite IH. reflexivity.
Qed.
Lemma row_at : forall q h i c f, nth_error L q = Some h -> nth_error (slots k) q = Some (i, c, f) ->
  nth_error (v_rows v) (place v h) = Some (f * 4 + sub_no f)%nat.
Proof.
  intros q h i c f Hh Hs. rewrite (place_at q h _ Hh Hs), rows_eq, nth_error_map, (vf_nth q _ Hs). reflexivity.
Qed.

Lemma nodup_by_nth : forall {A B} (g : A -> B) l,
  (forall i j x y, nth_error l i = Some x -> nth_error l j = Some y -> g x = g y -> i = j) -> NoDup (map g l).
Proof.
  intros A B g l H. apply NoDup_nth_error. intros i j Hi He. rewrite map_length in Hi.
  destruct (rd_ok l i Hi) as [x [_ Hx]]. rewrite !nth_error_map, Hx in He.
  destruct (nth_error l j) as [y|] eqn:Ey; [|discriminate He]. simpl in He. injection He as He.
  exact (H i j x y Hx Ey He).
Qed.
Lemma nodup_filter_nth : forall {A B} (g : A -> B) (p : A -> bool) l,
  (forall i j x y, nth_error l i = Some x -> nth_error l j = Some y -> p x = true -> p y = true -> g x = g y -> i = j) ->
  NoDup (map g (filter p l)).
Proof.
  intros A B g p l; induction l as [|x l IH]; intro H; [constructor|].
  assert (H' : NoDup (map g (filter p l))).
  { apply IH. intros i j a b Hi Hj Pa Pb E. specialize (H (S i) (S j) a b Hi Hj Pa Pb E). lia. }
  simpl. destruct (p x) eqn:Ex; [|exact H']. simpl. constructor; [|exact H'].
  intro Hin. apply in_map_iff in Hin. destruct Hin as [y [E Hy]]. apply filter_In in Hy. destruct Hy as [Hy Py].
  destruct (In_nth_error _ _ Hy) as [j Hj]. specialize (H (S j) 0%nat y x Hj eq_refl Py Ex E). lia.
Qed.

Lemma filter_nth_before : forall {A} (p : A -> bool) l j x, nth_error (filter p l) j = Some x ->
  exists q, nth_error l q = Some x /\ p x = true /\ before p l q = j.
Proof.
  intros A p l; induction l as [|y l IH]; intros j x Hj; [destruct j; discriminate Hj|].
  simpl in Hj. destruct (p y) eqn:Ey.
  - destruct j as [|j]; [simpl in Hj; injection Hj as ->; exists 0%nat; auto|].
    destruct (IH j x Hj) as [q [Hq [Px Hb]]]. exists (S q). rewrite before_cons, Ey. auto.
  - destruct (IH j x Hj) as [q [Hq [Px Hb]]]. exists (S q). rewrite before_cons, Ey. auto.
Qed.
Lemma before_L : forall (p : sface -> bool) (P : nat * nat * nat -> bool),
  (forall l cnt u d q h s, nth_error (facelist l cnt u d) q = Some h -> nth_error l q = Some s -> p h = P s) ->
  forall l cnt u d q, before p (facelist l cnt u d) q = before P l q.
Proof.
  intros p P H l; induction l as [|s l IH]; intros cnt u d q; [destruct q; reflexivity|].
  destruct q as [|q]; [reflexivity|].
  assert (H0 := H (s :: l) cnt u d 0%nat). cbn [facelist] in *.
  rewrite (before_cons P). destruct (isb s); [destruct (dir s)|]; cbn [nth_error] in H0; rewrite before_cons;
    rewrite (H0 _ s eq_refl eq_refl), IH; reflexivity.
Qed.

Lemma flux_distinct : forall b, NoDup (map sf_flux (filter (side b) L)).
Proof.
  intro b. apply nodup_filter_nth. intros q q' h h' Hh Hh' Sh Sh' He.
  destruct (L_slot q h Hh) as [s [Hs [U1 [U2 [_ U4]]]]]. destruct (L_slot q' h' Hh') as [s' [Hs' [V1 [V2 [_ V4]]]]].
  unfold side in Sh, Sh'. apply eqb_prop in Sh, Sh'. rewrite U1 in Sh. rewrite V1 in Sh'.
  assert (Hin := nth_error_In _ _ Hs). assert (Hin' := nth_error_In _ _ Hs').
  assert (Ed : dir s = dir s') by congruence.
  assert (Hp : at_place q s = at_place q' s' -> q = q').
  { intro Ep. apply (at_place_face q q' s s' Hs Hs') in Ep.
    assert (s = s') by (apply slot_dir; auto). subst s'.
    exact (nodup_nth _ _ _ _ nodup_slots Hs Hs'). }
  apply Hp. rewrite U4, V4 in He. unfold at_place.
  assert (K := at_place_kind q s Hs). assert (K' := at_place_kind q' s' Hs'). unfold at_place in K, K'.
  rewrite Ed in *. destruct (isb s), (isb s'); try destruct (dir s'); lia.
Qed.

Lemma well_numbered_ok : well_numbered v.
Proof.
  constructor.
  - unfold v, vertex_of. cbn [v_cells v_sub]. rewrite faces_list. symmetry. exact (triples_length _ L L_length).
  - rewrite count_bnd. reflexivity.
  - rewrite count_bnd. unfold v, vertex_of. cbn [v_nfaces]. rewrite <- bnd_faces. apply filter_len_le.
  - rewrite rows_eq, map_length, vf_length. reflexivity.
  - rewrite rows_eq. apply nodup_by_nth. intros i j f h Hf Hh He.
    assert (If : In f (k_faces k)) by (apply vf_in; eapply nth_error_In; exact Hf).
    assert (Ih : In h (k_faces k)) by (apply vf_in; eapply nth_error_In; exact Hh).
    destruct (sub_no_spec f If) as [_ [_ [_ [_ Lf]]]]. destruct (sub_no_spec h Ih) as [_ [_ [_ [_ Lh]]]].
    assert (f = h) by lia. subst h. exact (nodup_nth _ _ _ _ vf_nodup Hf Hh).
  - intros [[h0 h1] h2] Hs. unfold v, vertex_of in Hs. cbn [v_sub] in Hs. rewrite faces_list in Hs. fold L in Hs.
    destruct (In_nth_error _ _ Hs) as [t Ht]. 
    assert (Lt : (t < length (k_cells k))%nat)
      by (rewrite <- (triples_length _ L L_length); exact (nth_lt _ _ _ Ht)).
    destruct (triples_nth _ L t h0 h1 h2 L_length Ht) as [E0 [E1 E2]].
    destruct (rd_ok (k_cells k) t Lt) as [c [_ Hc']].
    destruct (rd_ok (k_sub k) t) as [[[f0 f1] f2] [_ Hsub]]; [rewrite (cf_sub k Hk); exact Lt|].
    destruct (slots_triple (k_cells k) (k_sub k) 0 t c f0 f1 f2 Hc' Hsub) as [S0 [S1 S2]]. fold (slots k) in S0, S1, S2.
    destruct (cf_three k Hk t c f0 f1 f2 Hc' Hsub) as [N3 _].
    inversion N3 as [|? ? A1 N2]; subst. inversion N2 as [|? ? A2 N1]; subst.
    cbn [sfaces map]. constructor; [|constructor; [|constructor; [intros []|constructor]]].
    + intros [E|[E|[]]].
      * apply (unknown_face _ _ _ _ _ _ E1 E0 S1 S0) in E. simpl in E. subst f1. apply A1. left. reflexivity.
      * apply (unknown_face _ _ _ _ _ _ E2 E0 S2 S0) in E. simpl in E. subst f2. apply A1. right. left. reflexivity.
    + intros [E|[]]. apply (unknown_face _ _ _ _ _ _ E2 E1 S2 S1) in E. simpl in E. subst f2. apply A2. left. reflexivity.
  - intros h Hh Hi. rewrite all_L in Hh. destruct (In_nth_error _ _ Hh) as [q Hq].
    destruct (L_slot q h Hq) as [s [Hs [U1 [U2 [U3 U4]]]]]. rewrite Hi in U2. symmetry in U2. apply negb_true_iff in U2.
    rewrite U3, U4, U2, inner_N. split; [reflexivity|].
    apply idx_inside; [apply slot_face; eapply nth_error_In; exact Hs|]. unfold isb in U2. apply negb_false_iff in U2. exact U2.
  - intros h Hh Hi. rewrite all_L in Hh. destruct (In_nth_error _ _ Hh) as [q Hq].
    destruct (L_slot q h Hq) as [s [Hs [U1 [U2 [U3 U4]]]]]. rewrite Hi in U2. symmetry in U2. apply negb_false_iff in U2.
    rewrite count_side, inner_N, U4, U2, U1.
    assert (K := at_place_kind q s Hs). unfold at_place in K. rewrite U2 in K. destruct (dir s); lia.
  - intros j h Hj. rewrite all_L in Hj. destruct (filter_nth_before is_bnd L j h Hj) as [q [Hq [Hb Ej]]].
    destruct (L_slot q h Hq) as [s [Hs [U1 [U2 [U3 U4]]]]]. unfold is_bnd in Hb. rewrite U2, negb_involutive in Hb.
    rewrite U3, Hb, inner_N, <- Ej. f_equal. symmetry. unfold L. apply before_L.
    intros l cnt u d q0 h0 s0 Hh0 Hs0. destruct (nth_props l cnt u d q0 h0 s0 Hh0 Hs0) as [_ E].
    unfold is_bnd. rewrite E. apply negb_involutive.
  - intro b. rewrite all_L. apply flux_distinct.
Qed.

Lemma two_sided_ok : two_sided v.
Proof.
  intros h Hh Hi. rewrite all_L in *. destruct (In_nth_error _ _ Hh) as [q Hq].
  destruct (L_slot q h Hq) as [s [Hs [U1 [U2 [U3 U4]]]]]. rewrite Hi in U2. symmetry in U2. apply negb_true_iff in U2.
  destruct (other_side s (nth_error_In _ _ Hs) U2) as [s' [Hs' [Ef Ed]]].
  destruct (In_nth_error _ _ Hs') as [q' Hq'].
  destruct (rd_ok L q') as [h' [_ Hh']]; [unfold L; rewrite facelist_length; exact (nth_lt _ _ _ Hq')|].
  destruct (L_slot q' h' Hh') as [t [Ht [V1 [V2 [V3 V4]]]]]. assert (t = s') by congruence. subst t.
  assert (Eb : isb s' = false) by (unfold isb in *; rewrite Ef; exact U2).
  exists h'. split; [eapply nth_error_In; exact Hh'|]. rewrite V2, V4, V1, U4, U1, U2, Eb, Ef, Ed. auto.
Qed.
End Vertex.

Theorem numbered_proof : forall k ups, conforming k -> connected k ups ->
  exists n, SetupUpwindFacesForSubcell k ups = Ok n /\
  forall bno G, well_numbered (vertex_of k bno G n) /\ two_sided (vertex_of k bno G n) /\
    (forall q h i c f, nth_error (all_faces (vertex_of k bno G n)) q = Some h -> nth_error (slots k) q = Some (i, c, f) ->
       (sf_internal h = inside k f) /\
       (exists vs j, nth_error (k_fverts k) f = Some vs /\ nth_error vs j = Some (k_iv k) /\
          nth_error (v_rows (vertex_of k bno G n)) (place (vertex_of k bno G n) h) = Some (f * 4 + j)%nat) /\
       (forall q' h' i' c' f', nth_error (all_faces (vertex_of k bno G n)) q' = Some h' ->
          nth_error (slots k) q' = Some (i', c', f') -> (sf_unk h = sf_unk h' <-> f = f'))).
Proof.
  intros k ups Hk Hc. exists (the_numbers k ups). split; [exact (setup_ok k ups Hk Hc)|].
  intros bno G. split; [exact (well_numbered_ok k ups Hk Hc bno G)|].
  split; [exact (two_sided_ok k ups Hk Hc bno G)|].
  intros q h i c f Hh Hs. rewrite (all_L k ups Hk bno G) in Hh. split; [|split].
  - destruct (L_slot k ups bno G q h Hh) as [s [Hs' [_ [E _]]]].
    assert (s = (i, c, f)) by congruence. subst s. rewrite E. unfold isb. cbn [snd]. apply negb_involutive.
  - assert (Hf : In f (k_faces k)) by (apply (slot_face k Hk (i, c, f)); eapply nth_error_In; exact Hs).
    destruct (sub_no_spec k ups Hk f Hf) as [vs [E [_ [E2 _]]]]. exists vs, (sub_no k f).
    split; [exact E|]. split; [exact E2|]. exact (row_at k ups Hk Hc bno G q h i c f Hh Hs).
  - intros q' h' i' c' f' Hh' Hs'. rewrite (all_L k ups Hk bno G) in Hh'.
    exact (unknown_face k ups Hk Hc bno G q q' h h' _ _ Hh Hh' Hs Hs').
Qed.
