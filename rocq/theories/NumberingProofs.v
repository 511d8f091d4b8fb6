(** Proofs: the connections around a vertex. *)
From Coq Require Import List Bool Arith ZArith Lia Permutation FinFun.
From Verif Require Import Prelude Arrays Numbering SpecNumbering.
Import ListNotations.
Local Open Scope Z_scope.

Lemma first_at_eq : forall {A} (p : A -> bool) l i a x, nth_error l a = Some x -> p x = true ->
  (forall b y, nth_error l b = Some y -> p y = true -> b = a) -> first_at p l i = Some (i + a)%nat.
Proof.
  intros A p l; induction l as [|y l IH]; intros i a x Ha Hx Hu; [destruct a; discriminate Ha|].
  simpl. destruct (p y) eqn:Ey.
  - rewrite <- (Hu 0%nat y eq_refl Ey). f_equal. lia.
  - destruct a as [|a]; [simpl in Ha; injection Ha as <-; congruence|].
    rewrite (IH (S i) a x Ha Hx); [f_equal; lia|].
    intros b z Hb Hz. specialize (Hu (S b) z Hb Hz). lia.
Qed.

Lemma nodup_nth : forall {A} (l : list A) i j x, NoDup l -> nth_error l i = Some x -> nth_error l j = Some x -> i = j.
Proof.
  intros A l i j x H Hi Hj. rewrite NoDup_nth_error in H. apply H; [|congruence].
  apply nth_error_Some. congruence.
Qed.

Lemma pos_cell : forall l a c, NoDup l -> nth_error l a = Some c -> index_in_list l (Z.of_nat c) = Z.of_nat a.
Proof.
  intros l a c Hn Ha. unfold index_in_list.
  rewrite (first_at_eq _ l 0 a c Ha); [reflexivity|apply Z.eqb_refl|].
  intros b y Hb Hy. apply Z.eqb_eq in Hy. assert (y = c) by lia. subst y. exact (nodup_nth l b a c Hn Hb Ha).
Qed.

Lemma pos_nat : forall l a f, NoDup l -> nth_error l a = Some f -> first_at (Nat.eqb f) l 0 = Some a.
Proof.
  intros l a f Hn Ha. rewrite (first_at_eq _ l 0 a f Ha); [reflexivity|apply Nat.eqb_refl|].
  intros b y Hb Hy. apply Nat.eqb_eq in Hy. subst y. exact (nodup_nth l b a f Hn Hb Ha).
Qed.

(** * Unordered pairs *)
Definition norm (c : Z * Z) : Z * Z := (Z.min (fst c) (snd c), Z.max (fst c) (snd c)).
Lemma norm_swap : forall a b, norm (a, b) = norm (b, a).
Proof. intros a b. unfold norm; simpl. rewrite Z.min_comm, Z.max_comm. reflexivity. Qed.
Lemma norm_eq : forall a b c d, norm (a, b) = norm (c, d) -> (a = c /\ b = d) \/ (a = d /\ b = c).
Proof. intros a b c d H. unfold norm in H; simpl in H. injection H. lia. Qed.

Section Corner.
Variable k : corner.
Hypothesis Hk : conforming k.

Let nc : Z := Z.of_nat (length (k_cells k)).

Lemma touch_two : forall f a b c, In f (k_faces k) -> touches k f a -> touches k f b -> touches k f c ->
  a <> b -> c = a \/ c = b.
Proof.
  intros f a b c Hf [p [Ep Hp]] [q [Eq Hq]] [r [Er Hr]] Hab.
  assert (q = p) by congruence. assert (r = p) by congruence. subst q r. lia.
Qed.

Lemma inside_val : forall f c1 c2, In f (k_faces k) -> nth_error (k_fcells k) f = Some (c1, c2) ->
  inside k f = (0 <=? c1) && (0 <=? c2).
Proof.
  intros f c1 c2 Hf E. destruct (cf_sides k Hk f Hf) as [d1 [d2 [E2 [_ [_ [E3 _]]]]]].
  rewrite E in E2. injection E2 as <- <-. unfold inside. apply nth_error_nth. exact E3.
Qed.

(** A boundary face touches one cell. *)
Lemma touch_one : forall f a b, In f (k_faces k) -> inside k f = false ->
  touches k f a -> touches k f b -> a = b.
Proof.
  intros f a b Hf Hi [[p1 p2] [Ep Hp]] [q [Eq Hq]].
  assert (q = (p1, p2)) by congruence. subst q.
  rewrite (inside_val f p1 p2 Hf Ep) in Hi. simpl in *.
  apply andb_false_iff in Hi. destruct Hi as [Hi|Hi]; apply Z.leb_gt in Hi; lia.
Qed.

(** Two cells mean an internal face. *)
Lemma touch_inside : forall f a b, In f (k_faces k) -> a <> b -> touches k f a -> touches k f b ->
  inside k f = true.
Proof.
  intros f a b Hf Hab Ha Hb. destruct (inside k f) eqn:E; [reflexivity|].
  exfalso. apply Hab. exact (touch_one f a b Hf E Ha Hb).
Qed.

Definition key (f : nat) : Z * Z :=
  match nth_error (k_fcells k) f with
  | Some (c1, c2) =>
      if (0 <=? c1) && (0 <=? c2)
      then norm (index_in_list (k_cells k) c1, index_in_list (k_cells k) c2)
      else norm (index_in_list (k_cells k) (if 0 <=? c1 then c1 else c2),
                 match first_at (Nat.eqb f) (k_bnd k) 0 with
                 | Some j => Z.of_nat (length (k_cells k) + j) | None => 0 end)
  | None => (0, 0)
  end.

Lemma ends_key : forall f a b, In f (k_faces k) -> ends k f a b -> norm (a, b) = key f.
Proof.
  intros f a b Hf H. unfold key. destruct H as [a b ca cb Ha Hb Hab Ta Tb|a j ca Ha Hj Ta].
  - assert (Hi := touch_inside f ca cb Hf Hab Ta Tb).
    destruct Ta as [[c1 c2] [Ec Ta]]. destruct Tb as [q [Eq Tb]].
    assert (q = (c1, c2)) by congruence. subst q. rewrite Ec.
    rewrite (inside_val f c1 c2 Hf Ec) in Hi. rewrite Hi. simpl in Ta, Tb.
    destruct Ta as [->| ->], Tb as [Tb|Tb]; try (exfalso; lia); rewrite Tb in *;
      rewrite (pos_cell _ _ _ (cf_cells k Hk) Ha), (pos_cell _ _ _ (cf_cells k Hk) Hb);
      [reflexivity|apply norm_swap].
  - assert (Hin : In f (k_bnd k)) by (eapply nth_error_In; exact Hj).
    apply (cf_outer k Hk) in Hin. destruct Hin as [_ Hi].
    destruct Ta as [[c1 c2] [Ec Ta]]. rewrite Ec.
    rewrite (inside_val f c1 c2 Hf Ec) in Hi. rewrite Hi. simpl in Ta.
    rewrite (pos_nat _ _ _ (cf_bnd k Hk) Hj).
    apply andb_false_iff in Hi.
    destruct (0 <=? c1) eqn:E1.
    + apply Z.leb_le in E1. destruct Hi as [Hi|Hi]; [discriminate Hi|].
      apply Z.leb_gt in Hi. destruct Ta as [->|Ta]; [|lia].
      rewrite (pos_cell _ _ _ (cf_cells k Hk) Ha). reflexivity.
    + apply Z.leb_gt in E1. destruct Ta as [Ta| ->]; [lia|].
      rewrite (pos_cell _ _ _ (cf_cells k Hk) Ha). reflexivity.
Qed.
Lemma connects_key : forall f p, In f (k_faces k) -> connects k f p -> norm p = key f.
Proof.
  intros f [a b] Hf [H|H]; simpl in H; [exact (ends_key f a b Hf H)|].
  rewrite norm_swap. exact (ends_key f b a Hf H).
Qed.

Lemma has_ends : forall f, In f (k_faces k) -> exists a b, ends k f a b.
Proof.
  intros f Hf. destruct (cf_sides k Hk f Hf) as [c1 [c2 [Ec [Hne [Hs [Ei Ht]]]]]].
  assert (T1 : 0 <= c1 -> exists a, nth_error (k_cells k) a = Some (Z.to_nat c1) /\ touches k f (Z.to_nat c1)).
  { intro H1. assert (T : touches k f (Z.to_nat c1)) by (exists (c1, c2); split; [exact Ec|left; simpl; lia]).
    destruct (In_nth_error _ _ (Ht _ T)) as [a Ha]. exists a. auto. }
  assert (T2 : 0 <= c2 -> exists a, nth_error (k_cells k) a = Some (Z.to_nat c2) /\ touches k f (Z.to_nat c2)).
  { intro H1. assert (T : touches k f (Z.to_nat c2)) by (exists (c1, c2); split; [exact Ec|right; simpl; lia]).
    destruct (In_nth_error _ _ (Ht _ T)) as [a Ha]. exists a. auto. }
  assert (Hin := inside_val f c1 c2 Hf Ec).
  destruct (inside k f) eqn:E.
  - symmetry in Hin. apply andb_true_iff in Hin. destruct Hin as [H1 H2]. apply Z.leb_le in H1, H2.
    destruct (T1 H1) as [a [Ha Ta]]. destruct (T2 H2) as [b [Hb Tb]].
    exists (Z.of_nat a), (Z.of_nat b). apply (ends_in k f a b _ _ Ha Hb); auto. lia.
  - assert (Hb : In f (k_bnd k)) by (apply (cf_outer k Hk); auto).
    destruct (In_nth_error _ _ Hb) as [j Hj].
    destruct Hs as [H1|H2].
    + destruct (T1 H1) as [a [Ha Ta]]. exists (Z.of_nat a), (Z.of_nat (length (k_cells k) + j)).
      exact (ends_out k f a j _ Ha Hj Ta).
    + destruct (T2 H2) as [a [Ha Ta]]. exists (Z.of_nat a), (Z.of_nat (length (k_cells k) + j)).
      exact (ends_out k f a j _ Ha Hj Ta).
Qed.

Lemma ends_lt : forall f a b, ends k f a b -> 0 <= a < nc /\ (b < nc \/ nc <= b).
Proof.
  intros f a b H. split; [|lia].
  destruct H as [a b ca cb Ha Hb Hab Ta Tb|a j ca Ha Hj Ta]; apply nth_lt in Ha; unfold nc; lia.
Qed.

Lemma ends_kind : forall f a b, In f (k_faces k) -> ends k f a b ->
  a < nc /\ (inside k f = true <-> b < nc).
Proof.
  intros f a b Hf H. destruct H as [a b ca cb Ha Hb Hab Ta Tb|a j ca Ha Hj Ta].
  - rewrite (touch_inside f ca cb Hf Hab Ta Tb). apply nth_lt in Ha, Hb. unfold nc. split; [lia|]. split; [lia|auto].
  - assert (Hin : In f (k_bnd k)) by (eapply nth_error_In; exact Hj).
    apply (cf_outer k Hk) in Hin. destruct Hin as [_ Hi]. rewrite Hi. apply nth_lt in Ha. unfold nc.
    split; [lia|]. split; [discriminate|lia].
Qed.

Lemma ends_inj : forall f h a b c d, In f (k_faces k) -> In h (k_faces k) ->
  ends k f a b -> ends k h c d -> norm (a, b) = norm (c, d) -> f = h.
Proof.
  intros f h a b c d Hf Hh E1 E2 Hn.
  destruct (ends_kind f a b Hf E1) as [La Kb]. destruct (ends_kind h c d Hh E2) as [Lc Kd].
  apply norm_eq in Hn.
  destruct E1 as [a b ca cb Ha Hb Hab Ta Tb|a j ca Ha Hj Ta];
  destruct E2 as [c d cc cd Hc Hd Hcd Tc Td|c j' cc Hc Hj' Tc].
  - assert (Hq : (ca = cc /\ cb = cd) \/ (ca = cd /\ cb = cc)).
    { destruct Hn as [[H1 H2]|[H1 H2]]; apply Nat2Z.inj in H1, H2; subst; [left|right]; split; congruence. }
    destruct Hq as [[-> ->]|[-> ->]]; eapply (cf_share k Hk f h); eauto.
  - apply nth_lt in Ha, Hb. lia.
  - apply nth_lt in Hc, Hd. lia.
  - apply nth_lt in Ha, Hc. assert (j = j') by lia. subst j'. congruence.
Qed.
Lemma connects_inj : forall f h p q, In f (k_faces k) -> In h (k_faces k) ->
  connects k f p -> connects k h q -> norm p = norm q -> f = h.
Proof.
  intros f h [a b] [c d] Hf Hh [E1|E1] [E2|E2] Hn; simpl in E1, E2.
  - exact (ends_inj f h a b c d Hf Hh E1 E2 Hn).
  - rewrite (norm_swap c d) in Hn. exact (ends_inj f h a b d c Hf Hh E1 E2 Hn).
  - rewrite (norm_swap a b) in Hn. exact (ends_inj f h b a c d Hf Hh E1 E2 Hn).
  - rewrite (norm_swap a b), (norm_swap c d) in Hn. exact (ends_inj f h b a d c Hf Hh E1 E2 Hn).
Qed.
Lemma key_inj : forall f h, In f (k_faces k) -> In h (k_faces k) -> key f = key h -> f = h.
Proof.
  intros f h Hf Hh He. destruct (has_ends f Hf) as [a [b E1]]. destruct (has_ends h Hh) as [c [d E2]].
  apply (ends_inj f h a b c d Hf Hh E1 E2). rewrite (ends_key f a b Hf E1), (ends_key h c d Hh E2). exact He.
Qed.
Lemma key_kind : forall f, In f (k_faces k) -> inside k f = true <-> snd (key f) < nc.
Proof.
  intros f Hf. destruct (has_ends f Hf) as [a [b E]]. destruct (ends_kind f a b Hf E) as [La Kb].
  rewrite <- (ends_key f a b Hf E). unfold norm; simpl. rewrite Kb. lia.
Qed.
Lemma nodup_keys : forall l, NoDup l -> incl l (k_faces k) -> NoDup (map key l).
Proof.
  intros l; induction l as [|f l IH]; intros Hn Hi; [constructor|].
  inversion Hn; subst. simpl. constructor.
  - intro Hm. apply in_map_iff in Hm. destruct Hm as [h [He Hh]].
    assert (h = f) by (apply key_inj; [apply Hi; right; exact Hh|apply Hi; left; reflexivity|exact He]).
    subst h. contradiction.
  - apply IH; [assumption|]. intros x Hx. apply Hi. right. exact Hx.
Qed.
End Corner.

(** * What the loops produce *)
Definition cyc {A} (r : list A) : list (A * A) := combine r (tl r ++ firstn 1 r).
Definition keep (nc : Z) (c : Z * Z) : bool := negb ((nc <=? fst c) && (nc <=? snd c)).

Lemma push_ok : forall cap l c, (length l < cap)%nat -> push cap l c = Ok (l ++ [c]).
Proof. intros cap l c H. unfold push. apply Nat.ltb_lt in H. rewrite H. reflexivity. Qed.

Lemma nth_pad : forall (r : list Z) m i, nth_error (r ++ repeat (-1) m) i =
  match nth_error r i with Some x => Some x | None => if (i - length r <? m)%nat then Some (-1) else None end.
Proof.
  intros r m i. destruct (nth_error r i) as [x|] eqn:E.
  - rewrite nth_error_app1; [exact E|]. apply nth_error_Some. congruence.
  - apply nth_error_None in E. rewrite nth_error_app2 by exact E.
    destruct (i - length r <? m)%nat eqn:El.
    + apply Nat.ltb_lt in El. apply nth_error_repeat. exact El.
    + apply Nat.ltb_ge in El. apply nth_error_None. rewrite repeat_length. exact El.
Qed.

Lemma skipn_cons : forall {A} (l : list A) i x, nth_error l i = Some x -> skipn i l = x :: skipn (S i) l.
Proof.
  intros A l; induction l as [|y l IH]; intros [|i] x H; simpl in *; try discriminate H.
  - congruence.
  - exact (IH i x H).
Qed.

Lemma nth_combine : forall {A B} (a : list A) (b : list B) i x y, nth_error a i = Some x -> nth_error b i = Some y ->
  nth_error (combine a b) i = Some (x, y).
Proof.
  intros A B a; induction a as [|p a IH]; intros [|q b] [|i] x y Ha Hb; simpl in *; try discriminate; try congruence.
  exact (IH b i x y Ha Hb).
Qed.
Lemma nth_combine_inv : forall {A B} (a : list A) (b : list B) i x y,
  nth_error (combine a b) i = Some (x, y) -> nth_error a i = Some x /\ nth_error b i = Some y.
Proof.
  intros A B a; induction a as [|p a IH]; intros [|q b] [|i] x y H; simpl in *; try discriminate.
  - injection H as <- <-. auto.
  - exact (IH b i x y H).
Qed.

Lemma cyc_next : forall {A} (r : list A) i x y, nth_error r i = Some x -> nth_error r (S i mod length r) = Some y ->
  nth_error (cyc r) i = Some (x, y).
Proof.
  intros A r i x y Hx Hy. assert (Li := nth_lt _ _ _ Hx). apply nth_combine; [exact Hx|].
  destruct r as [|z r]; [destruct i; discriminate Hx|]. simpl length in *. simpl tl. cbn [firstn].
  destruct (Nat.eq_dec (S i) (S (length r))) as [Ee|Hne].
  - rewrite Ee, Nat.mod_same in Hy by lia. simpl in Hy. injection Hy as <-.
    rewrite nth_error_app2 by lia. replace (i - length r)%nat with 0%nat by lia. reflexivity.
  - rewrite Nat.mod_small in Hy by lia. rewrite nth_error_app1 by lia. exact Hy.
Qed.
Lemma cyc_length : forall {A} (r : list A), length (cyc r) = length r.
Proof.
  intros A r. unfold cyc. rewrite combine_length, app_length, firstn_length.
  destruct r; cbn [length tl]; lia.
Qed.
Lemma cyc_inv : forall {A} (r : list A) i x y, nth_error (cyc r) i = Some (x, y) ->
  nth_error r i = Some x /\ nth_error r (S i mod length r) = Some y.
Proof.
  intros A r i x y H. assert (Li := nth_lt _ _ _ H). rewrite cyc_length in Li.
  assert (Lm : (S i mod length r < length r)%nat) by (apply Nat.mod_upper_bound; lia).
  destruct (rd_ok r i Li) as [x' [_ Hx]]. destruct (rd_ok r _ Lm) as [y' [_ Hy]].
  rewrite (cyc_next r i x' y' Hx Hy) in H. injection H as <- <-. auto.
Qed.

Lemma filter_len_le : forall {A} (p : A -> bool) l, (length (filter p l) <= length l)%nat.
Proof. intros A p l; induction l as [|x l IH]; simpl; [lia|]. destruct (p x); simpl; lia. Qed.

Section Loops.
Variables (cap : nat) (nc : Z).

Lemma along_ok : forall right r m n ii l,
  (forall x, In x r -> 0 <= x) -> r <> [] ->
  (n + ii = length r + m)%nat -> (ii <= length r)%nat ->
  (length l + length (filter (keep nc) (skipn ii (cyc r))) <= cap)%nat ->
  exists l', along cap nc right (r ++ repeat (-1) m) n ii l = Ok l' /\
    map norm l' = map norm l ++ map norm (filter (keep nc) (skipn ii (cyc r))).
Proof.
  intros right r m n; induction n as [|n IH]; intros ii l Hr Hne Hn Hii Hcap.
  - assert (m = 0%nat /\ ii = length r) as [-> ->] by lia. exists l. split; [reflexivity|].
    rewrite skipn_all2 by (rewrite cyc_length; lia). simpl. rewrite app_nil_r. reflexivity.
  - cbn [along]. unfold rd at 1. rewrite nth_pad.
    destruct (nth_error r ii) as [x|] eqn:Ex.
    + assert (Lx := nth_lt _ _ _ Ex). assert (Hx : 0 <= x) by (apply Hr; eapply nth_error_In; exact Ex).
      cbn [bind]. replace (x =? -1) with false by (symmetry; apply Z.eqb_neq; lia).
      destruct (rd_ok r (S ii mod length r)) as [y [_ Ey]]; [apply Nat.mod_upper_bound; lia|].
      assert (Hy : 0 <= y) by (apply Hr; eapply nth_error_In; exact Ey).
      assert (E0 : exists z, nth_error r 0 = Some z) by (destruct r as [|z r']; [congruence|exists z; reflexivity]).
      assert (Hnext : (do b0 <- rd (r ++ repeat (-1) m) (if (n =? 0)%nat then 0 else S ii)%nat;
                do bb <- (if b0 =? -1 then rd (r ++ repeat (-1) m) 0 else Ok b0);
                if (nc <=? x) && (nc <=? bb) then along cap nc right (r ++ repeat (-1) m) n (S ii) l
                else do l <- push cap l (if right then (x, bb) else (bb, x));
                     along cap nc right (r ++ repeat (-1) m) n (S ii) l) =
                if (nc <=? x) && (nc <=? y) then along cap nc right (r ++ repeat (-1) m) n (S ii) l
                else do l <- push cap l (if right then (x, y) else (y, x));
                     along cap nc right (r ++ repeat (-1) m) n (S ii) l).
      { destruct (Nat.eq_dec (S ii) (length r)) as [Elast|Hlast].
        - rewrite Elast, Nat.mod_same in Ey by lia.
          destruct n as [|n]; simpl Nat.eqb; cbn iota.
          + unfold rd at 1. rewrite nth_pad, Ey. cbn [bind].
            replace (y =? -1) with false by (symmetry; apply Z.eqb_neq; lia). cbn [bind]. reflexivity.
          + unfold rd at 1. rewrite nth_pad.
            replace (nth_error r (S ii)) with (@None Z) by (symmetry; apply nth_error_None; lia).
            replace (S ii - length r <? m)%nat with true by (symmetry; apply Nat.ltb_lt; lia).
            cbn [bind]. simpl Z.eqb. cbn iota. unfold rd at 1. rewrite nth_pad, Ey. cbn [bind]. reflexivity.
        - rewrite Nat.mod_small in Ey by lia.
          destruct n as [|n]; [lia|]. simpl Nat.eqb; cbn iota.
          unfold rd at 1. rewrite nth_pad, Ey. cbn [bind].
          replace (y =? -1) with false by (symmetry; apply Z.eqb_neq; lia). cbn [bind]. reflexivity. }
      assert (Ec := skipn_cons (cyc r) ii (x, y) (cyc_next r ii x y Ex Ey)).
      rewrite Ec in Hcap |- *. cbn [filter] in Hcap |- *.
      unfold keep at 1 in Hcap. unfold keep at 1. cbn [fst snd] in Hcap |- *.
      rewrite Hnext.
      destruct ((nc <=? x) && (nc <=? y)) eqn:Ek; cbn [negb] in Hcap |- *.
      * apply (IH (S ii) l Hr Hne); [lia|lia|exact Hcap].
      * cbn [length] in Hcap. rewrite push_ok by lia. cbn [bind].
        destruct (IH (S ii) (l ++ [if right then (x, y) else (y, x)]) Hr Hne) as [l' [E' M']];
          [lia|lia|rewrite app_length; cbn [length]; lia|].
        exists l'. split; [exact E'|]. rewrite M', map_app, <- app_assoc. f_equal. cbn [map app]. f_equal.
        destruct right; [reflexivity|apply norm_swap].
    + assert (ii = length r) by (apply nth_error_None in Ex; lia). subst ii.
      replace (length r - length r <? m)%nat with true by (symmetry; apply Nat.ltb_lt; lia).
      cbn [bind]. simpl Z.eqb. cbn iota. exists l. split; [reflexivity|].
      rewrite skipn_all2 by (rewrite cyc_length; lia). simpl. rewrite app_nil_r. reflexivity.
Qed.

Lemma across_ok : forall r0 r1 m0 m1 n ii l,
  (forall x, In x (r0 ++ r1) -> 0 <= x) ->
  (n + ii = length r0 + m0)%nat -> (n + ii = length r1 + m1)%nat ->
  (ii <= length r0)%nat -> (ii <= length r1)%nat ->
  (length l + length (filter (keep nc) (skipn ii (combine r0 r1))) <= cap)%nat ->
  exists l', across cap nc (r0 ++ repeat (-1) m0) (r1 ++ repeat (-1) m1) n ii l = Ok l' /\
    map norm l' = map norm l ++ map norm (filter (keep nc) (skipn ii (combine r0 r1))).
Proof.
  intros r0 r1 m0 m1 n; induction n as [|n IH]; intros ii l Hr H0 H1 L0 L1 Hcap.
  - exists l. split; [reflexivity|].
    rewrite skipn_all2 by (rewrite combine_length; lia). simpl. rewrite app_nil_r. reflexivity.
  - cbn [across]. unfold rd. rewrite !nth_pad.
    assert (Hend : (length r0 <= ii \/ length r1 <= ii)%nat ->
      map norm l = map norm l ++ map norm (filter (keep nc) (skipn ii (combine r0 r1)))).
    { intro Hl. rewrite skipn_all2 by (rewrite combine_length; lia). simpl. rewrite app_nil_r. reflexivity. }
    destruct (nth_error r0 ii) as [x|] eqn:Ex; destruct (nth_error r1 ii) as [y|] eqn:Ey.
    + assert (Lx := nth_lt _ _ _ Ex). assert (Ly := nth_lt _ _ _ Ey).
      assert (Hx : 0 <= x) by (apply Hr; apply in_or_app; left; eapply nth_error_In; exact Ex).
      assert (Hy : 0 <= y) by (apply Hr; apply in_or_app; right; eapply nth_error_In; exact Ey).
      cbn [bind]. replace (x =? -1) with false by (symmetry; apply Z.eqb_neq; lia).
      replace (y =? -1) with false by (symmetry; apply Z.eqb_neq; lia). cbn [orb].
      assert (Ec := skipn_cons (combine r0 r1) ii (x, y) (nth_combine _ _ _ _ _ Ex Ey)).
      rewrite Ec in Hcap |- *. cbn [filter] in Hcap |- *.
      unfold keep at 1 in Hcap. unfold keep at 1. cbn [fst snd] in Hcap |- *.
      destruct ((nc <=? x) && (nc <=? y)) eqn:Ek; cbn [negb] in Hcap |- *.
      * apply (IH (S ii) l Hr); try lia.
      * cbn [length] in Hcap. rewrite push_ok by lia. cbn [bind].
        destruct (IH (S ii) (l ++ [if Nat.even ii then (x, y) else (y, x)]) Hr) as [l' [E' M']];
          [lia|lia|lia|lia|rewrite app_length; cbn [length]; lia|].
        exists l'. split; [exact E'|]. rewrite M', map_app, <- app_assoc. f_equal. cbn [map app]. f_equal.
        destruct (Nat.even ii); [reflexivity|apply norm_swap].
    + apply nth_error_None in Ey. replace (ii - length r1 <? m1)%nat with true by (symmetry; apply Nat.ltb_lt; lia).
      cbn [bind]. rewrite Z.eqb_refl, orb_true_r. exists l. split; [reflexivity|]. apply Hend. lia.
    + apply nth_error_None in Ex. replace (ii - length r0 <? m0)%nat with true by (symmetry; apply Nat.ltb_lt; lia).
      cbn [bind]. exists l. split; [reflexivity|]. apply Hend. lia.
    + apply nth_error_None in Ex, Ey. replace (ii - length r0 <? m0)%nat with true by (symmetry; apply Nat.ltb_lt; lia).
      replace (ii - length r1 <? m1)%nat with true by (symmetry; apply Nat.ltb_lt; lia).
      cbn [bind]. exists l. split; [reflexivity|]. apply Hend. lia.
Qed.
End Loops.

(** * One connection for each face *)
Lemma mod_next_inj : forall n i j, (i < n)%nat -> (j < n)%nat -> (S i mod n = S j mod n)%nat -> i = j.
Proof.
  intros n i j Hi Hj H.
  destruct (Nat.eq_dec (S i) n) as [Ei|Ei]; destruct (Nat.eq_dec (S j) n) as [Ej|Ej].
  - lia.
  - rewrite Ei, Nat.mod_same, Nat.mod_small in H by lia. lia.
  - rewrite Ej, Nat.mod_same, Nat.mod_small in H by lia. lia.
  - rewrite !Nat.mod_small in H by lia. lia.
Qed.
Lemma mod_next_ne : forall n i, (1 < n)%nat -> (i < n)%nat -> (S i mod n <> i)%nat.
Proof.
  intros n i Hn Hi H. destruct (Nat.eq_dec (S i) n) as [Ei|Ei].
  - rewrite Ei, Nat.mod_same in H by lia. lia.
  - rewrite Nat.mod_small in H by lia. lia.
Qed.
Lemma mod_next_two : forall n i, (2 < n)%nat -> (i < n)%nat -> (S (S i mod n) mod n <> i)%nat.
Proof.
  intros n i Hn Hi H. destruct (Nat.eq_dec (S i) n) as [Ei|Ei].
  - rewrite Ei, Nat.mod_same, Nat.mod_small in H by lia. lia.
  - rewrite (Nat.mod_small (S i)) in H by lia. destruct (Nat.eq_dec (S (S i)) n) as [Ej|Ej].
    + rewrite Ej, Nat.mod_same in H by lia. lia.
    + rewrite Nat.mod_small in H by lia. lia.
Qed.
Lemma mod_prev : forall n j, (j < n)%nat -> exists i, (i < n)%nat /\ (S i mod n = j)%nat.
Proof.
  intros n j Hj. destruct j as [|j].
  - exists (n - 1)%nat. split; [lia|]. replace (S (n - 1)) with n by lia. apply Nat.mod_same. lia.
  - exists j. split; [lia|]. apply Nat.mod_small. lia.
Qed.

Lemma nodup_cyc : forall r : list Z, NoDup r -> (3 <= length r)%nat -> NoDup (map norm (cyc r)).
Proof.
  intros r Hn Hl. apply NoDup_nth_error. intros i j Hi He.
  assert (Hi' : (i < length r)%nat) by (rewrite map_length in Hi; rewrite <- (cyc_length r); exact Hi).
  destruct (nth_error (map norm (cyc r)) i) as [p|] eqn:Ep;
    [|apply nth_error_None in Ep; lia].
  symmetry in He. rewrite nth_error_map in Ep, He.
  destruct (nth_error (cyc r) i) as [[x y]|] eqn:Ei; [|discriminate Ep].
  destruct (nth_error (cyc r) j) as [[z w]|] eqn:Ej; [|discriminate He].
  simpl in Ep, He. assert (He' : norm (x, y) = norm (z, w)) by congruence.
  assert (Lj := nth_lt _ _ _ Ej). rewrite cyc_length in Lj.
  apply cyc_inv in Ei. apply cyc_inv in Ej. destruct Ei as [Ex Ey], Ej as [Ez Ew].
  destruct (norm_eq _ _ _ _ He') as [[-> ->]|[-> ->]].
  - exact (nodup_nth r i j z Hn Ex Ez).
  - exfalso. assert (E1 := nodup_nth r _ _ _ Hn Ex Ew). assert (E2 := nodup_nth r _ _ _ Hn Ey Ez).
    apply (mod_next_two (length r) j); [lia|exact Lj|]. rewrite <- E1. exact E2.
Qed.

Lemma nodup_across : forall r0 r1 : list Z, NoDup (r0 ++ r1) -> NoDup (map norm (combine r0 r1)).
Proof.
  intros r0 r1 Hn. apply NoDup_nth_error. intros i j Hi He.
  destruct (nth_error (map norm (combine r0 r1)) i) as [p|] eqn:Ep;
    [|apply nth_error_None in Ep; lia].
  symmetry in He. rewrite nth_error_map in Ep, He.
  destruct (nth_error (combine r0 r1) i) as [[x y]|] eqn:Ei; [|discriminate Ep].
  destruct (nth_error (combine r0 r1) j) as [[z w]|] eqn:Ej; [|discriminate He].
  simpl in Ep, He. assert (He' : norm (x, y) = norm (z, w)) by congruence.
  apply nth_combine_inv in Ei, Ej. destruct Ei as [Ex Ey], Ej as [Ez Ew].
  assert (Hpos : forall (r s : list Z) i x, nth_error r i = Some x -> nth_error (r ++ s) i = Some x).
  { intros r s a b Hab. rewrite nth_error_app1; [exact Hab|exact (nth_lt _ _ _ Hab)]. }
  destruct (norm_eq _ _ _ _ He') as [[-> ->]|[-> ->]].
  - apply (nodup_nth (r0 ++ r1) i j z Hn); apply Hpos; assumption.
  - exfalso. assert (Hw : nth_error (r0 ++ r1) (length r0 + j) = Some w).
    { rewrite nth_error_app2 by lia. replace (length r0 + j - length r0)%nat with j by lia. exact Ew. }
    assert (E1 := nodup_nth (r0 ++ r1) _ _ _ Hn (Hpos r0 r1 i w Ex) Hw). apply nth_lt in Ex. lia.
Qed.

Lemma nodup_filter_map : forall {A B} (g : A -> B) (p : A -> bool) l, NoDup (map g l) -> NoDup (map g (filter p l)).
Proof.
  intros A B g p l; induction l as [|x l IH]; intros H; [constructor|].
  simpl in *. inversion H; subst. destruct (p x); simpl; [|auto].
  constructor; [|auto]. intro Hin. apply H2. apply in_map_iff in Hin. destruct Hin as [y [Ey Hy]].
  apply filter_In in Hy. rewrite <- Ey. apply in_map. tauto.
Qed.

Lemma nodup_app : forall {A} (l m : list A), NoDup l -> NoDup m -> (forall x, In x l -> In x m -> False) -> NoDup (l ++ m).
Proof.
  intros A l; induction l as [|x l IH]; intros m Hl Hm Hd; [exact Hm|].
  inversion Hl; subst. simpl. constructor.
  - intro Hin. apply in_app_or in Hin. destruct Hin as [Hin|Hin]; [contradiction|].
    apply (Hd x); [left; reflexivity|exact Hin].
  - apply IH; auto. intros y Hy Hy'. apply (Hd y); [right; exact Hy|exact Hy'].
Qed.
Lemma nodup_app_inv : forall {A} (l m : list A), NoDup (l ++ m) -> NoDup l /\ NoDup m /\ (forall x, In x l -> In x m -> False).
Proof.
  intros A l; induction l as [|x l IH]; intros m H; simpl in *.
  - split; [constructor|]. split; [exact H|]. intros x [].
  - inversion H; subst. destruct (IH m H3) as [Hl [Hm Hd]]. split; [|split; [exact Hm|]].
    + constructor; [|exact Hl]. intro Hin. apply H2. apply in_or_app. left. exact Hin.
    + intros y [->|Hy] Hy'; [|exact (Hd y Hy Hy')]. apply H2. apply in_or_app. right. exact Hy'.
Qed.

Section Round.
Variables (k : corner) (r0 r1 : list Z).
Hypotheses (Hk : conforming k) (Hr : round k r0 r1).
Let nc : Z := Z.of_nat (length (k_cells k)).

Definition all_conn : list (Z * Z) :=
  filter (keep nc) (cyc r0) ++ filter (keep nc) (cyc r1) ++ filter (keep nc) (combine r0 r1).

Lemma keep_cell : forall x y, keep nc (x, y) = true <-> x < nc \/ y < nc.
Proof.
  intros x y. unfold keep. simpl. rewrite negb_true_iff, andb_false_iff, !Z.leb_gt. reflexivity.
Qed.

Lemma nodup_level : forall r, NoDup r -> ring k r -> NoDup (map norm (filter (keep nc) (cyc r))).
Proof.
  intros r Hn [Hj Ht].
  destruct (filter (keep nc) (cyc r)) as [|[x y] l] eqn:E; [constructor|].
  rewrite <- E. apply nodup_filter_map. apply nodup_cyc; [exact Hn|].
  assert (Hin : In (x, y) (filter (keep nc) (cyc r))) by (rewrite E; left; reflexivity).
  apply filter_In in Hin. destruct Hin as [Hin Hkp]. apply keep_cell in Hkp.
  destruct (In_nth_error _ _ Hin) as [i Hi]. apply cyc_inv in Hi. destruct Hi as [Hx Hy].
  destruct Hkp as [Hc|Hc].
  - apply (Ht x); [eapply nth_error_In; exact Hx|exact Hc].
  - apply (Ht y); [eapply nth_error_In; exact Hy|exact Hc].
Qed.

Lemma in_cyc : forall (r : list Z) x y, In (x, y) (cyc r) -> In x r /\ In y r.
Proof.
  intros r x y H. destruct (In_nth_error _ _ H) as [i Hi]. apply cyc_inv in Hi.
  destruct Hi as [Hx Hy]. split; eapply nth_error_In; eassumption.
Qed.

Lemma nodup_all : NoDup (map norm all_conn).
Proof.
  destruct (nodup_app_inv _ _ (ro_distinct k r0 r1 Hr)) as [N0 [N1 Nd]].
  unfold all_conn. rewrite !map_app. apply nodup_app; [exact (nodup_level r0 N0 (ro_ring0 _ _ _ Hr))| |].
  - apply nodup_app; [exact (nodup_level r1 N1 (ro_ring1 _ _ _ Hr))| |].
    + apply nodup_filter_map, nodup_across, (ro_distinct _ _ _ Hr).
    + intros p H1 H2. apply in_map_iff in H1, H2.
      destruct H1 as [[a b] [E1 H1]], H2 as [[c d] [E2 H2]]. apply filter_In in H1, H2.
      destruct H1 as [H1 _], H2 as [H2 _]. apply in_cyc in H1.
      assert (Hc := in_combine_l _ _ _ _ H2). rewrite <- E2 in E1.
      destruct (norm_eq _ _ _ _ E1) as [[-> ->]|[-> ->]]; [apply (Nd c)|apply (Nd c)]; tauto.
  - intros p H1 H2. apply in_map_iff in H1. destruct H1 as [[a b] [E1 H1]].
    apply filter_In in H1. destruct H1 as [H1 _]. apply in_cyc in H1.
    apply in_app_or in H2. destruct H2 as [H2|H2]; apply in_map_iff in H2; destruct H2 as [[c d] [E2 H2]];
      apply filter_In in H2; destruct H2 as [H2 _]; rewrite <- E2 in E1.
    + apply in_cyc in H2. destruct (norm_eq _ _ _ _ E1) as [[-> ->]|[-> ->]]; apply (Nd c); tauto.
    + assert (Hc := in_combine_r _ _ _ _ H2).
      destruct (norm_eq _ _ _ _ E1) as [[-> ->]|[-> ->]]; apply (Nd d); tauto.
Qed.

Lemma all_joined : forall x y, In (x, y) all_conn -> joined k x y.
Proof.
  intros x y H. unfold all_conn in H. rewrite !in_app_iff, !filter_In in H.
  destruct H as [[H Hkp]|[[H Hkp]|[H Hkp]]]; apply keep_cell in Hkp;
    destruct (In_nth_error _ _ H) as [i Hi].
  - apply cyc_inv in Hi. destruct Hi as [Hx Hy]. exact (proj1 (ro_ring0 _ _ _ Hr) i x y Hx Hy Hkp).
  - apply cyc_inv in Hi. destruct Hi as [Hx Hy]. exact (proj1 (ro_ring1 _ _ _ Hr) i x y Hx Hy Hkp).
  - apply nth_combine_inv in Hi. destruct Hi as [Hx Hy]. exact (ro_across _ _ _ Hr i x y Hx Hy Hkp).
Qed.

Lemma all_in_keys : incl (map norm all_conn) (map (key k) (k_faces k)).
Proof.
  intros p Hp. apply in_map_iff in Hp. destruct Hp as [[x y] [<- Hxy]].
  destruct (all_joined x y Hxy) as [f [Hf Hc]]. rewrite (connects_key k Hk f (x, y) Hf Hc).
  apply in_map. exact Hf.
Qed.

(** Three connections of a cell, with three different partners. *)
Lemma ring_partners : forall r i x, NoDup r -> ring k r -> nth_error r i = Some x -> is_cell k x ->
  exists y z, y <> z /\ In y r /\ In z r /\
    In (norm (x, y)) (map norm (filter (keep nc) (cyc r))) /\ In (norm (x, z)) (map norm (filter (keep nc) (cyc r))).
Proof.
  intros r i x Hn [Hj Ht] Hx Hc. assert (L := nth_lt _ _ _ Hx).
  assert (L3 : (3 <= length r)%nat) by (apply (Ht x); [eapply nth_error_In; exact Hx|exact Hc]).
  destruct (rd_ok r (S i mod length r)) as [y [_ Hy]]; [apply Nat.mod_upper_bound; lia|].
  destruct (mod_prev (length r) i L) as [p [Lp Ep]].
  destruct (rd_ok r p Lp) as [z [_ Hz]].
  exists y, z. split; [|split; [|split; [|split]]].
  - intro He. subst z. assert (E := nodup_nth r _ _ _ Hn Hy Hz).
    apply (mod_next_two (length r) p); [lia|exact Lp|]. rewrite Ep. exact E.
  - eapply nth_error_In; exact Hy.
  - eapply nth_error_In; exact Hz.
  - apply in_map. apply filter_In. split; [|apply keep_cell; left; exact Hc].
    eapply nth_error_In. exact (cyc_next r i x y Hx Hy).
  - rewrite norm_swap. apply in_map. apply filter_In. split; [|apply keep_cell; right; exact Hc].
    eapply nth_error_In. apply (cyc_next r p z x Hz). rewrite Ep. exact Hx.
Qed.

Lemma three_partners : forall a, (a < length (k_cells k))%nat -> exists x y z, x <> y /\ x <> z /\ y <> z /\
  In (norm (Z.of_nat a, x)) (map norm all_conn) /\ In (norm (Z.of_nat a, y)) (map norm all_conn) /\
  In (norm (Z.of_nat a, z)) (map norm all_conn).
Proof.
  intros a La. destruct (nodup_app_inv _ _ (ro_distinct k r0 r1 Hr)) as [N0 [N1 Nd]].
  assert (Hc : is_cell k (Z.of_nat a)) by (unfold is_cell; lia).
  assert (Hin := ro_cells _ _ _ Hr a La). apply in_app_or in Hin.
  assert (M : forall p, In p (map norm all_conn) <->
    In p (map norm (filter (keep nc) (cyc r0))) \/ In p (map norm (filter (keep nc) (cyc r1))) \/
    In p (map norm (filter (keep nc) (combine r0 r1)))).
  { intro p. unfold all_conn. rewrite !map_app, !in_app_iff. reflexivity. }
  destruct Hin as [Hin|Hin]; destruct (In_nth_error _ _ Hin) as [i Hi].
  - destruct (ring_partners r0 i _ N0 (ro_ring0 _ _ _ Hr) Hi Hc) as [y [z [Hyz [Iy [Iz [P1 P2]]]]]].
    destruct (rd_ok r1 i (ro_opposite0 _ _ _ Hr i _ Hi Hc)) as [w [_ Hw]].
    assert (Iw : In w r1) by (eapply nth_error_In; exact Hw).
    exists y, z, w. rewrite !M. repeat split; auto.
    + intros ->. exact (Nd w Iy Iw).
    + intros ->. exact (Nd w Iz Iw).
    + right; right. apply in_map, filter_In. split; [|apply keep_cell; left; exact Hc].
      eapply nth_error_In. exact (nth_combine _ _ _ _ _ Hi Hw).
  - destruct (ring_partners r1 i _ N1 (ro_ring1 _ _ _ Hr) Hi Hc) as [y [z [Hyz [Iy [Iz [P1 P2]]]]]].
    destruct (rd_ok r0 i (ro_opposite1 _ _ _ Hr i _ Hi Hc)) as [w [_ Hw]].
    assert (Iw : In w r0) by (eapply nth_error_In; exact Hw).
    exists y, z, w. rewrite !M. repeat split; auto.
    + intros ->. exact (Nd w Iw Iy).
    + intros ->. exact (Nd w Iw Iz).
    + right; right. rewrite norm_swap. apply in_map, filter_In. split; [|apply keep_cell; right; exact Hc].
      eapply nth_error_In. exact (nth_combine _ _ _ _ _ Hw Hi).
Qed.

Lemma conn_touches : forall f a p, (a < length (k_cells k))%nat -> connects k f p ->
  (exists x, norm (Z.of_nat a, x) = norm p) -> exists c, nth_error (k_cells k) a = Some c /\ touches k f c.
Proof.
  intros f a p La Hc [x Hx].
  assert (He : forall u v, ends k f u v -> (u = Z.of_nat a \/ v = Z.of_nat a) ->
    exists c, nth_error (k_cells k) a = Some c /\ touches k f c).
  { intros u v H Ha. destruct H as [u v cu cv Hu Hv Huv Tu Tv|u j cu Hu Hj Tu].
    - destruct Ha as [Ha|Ha]; apply Nat2Z.inj in Ha; subst; eauto.
    - destruct Ha as [Ha|Ha]; [apply Nat2Z.inj in Ha; subst; eauto|lia]. }
  destruct p as [p1 p2]. destruct Hc as [Hc|Hc]; simpl in Hc; apply (He _ _ Hc);
    destruct (norm_eq _ _ _ _ Hx) as [[E1 E2]|[E1 E2]]; auto.
Qed.

Lemma keys_in_all : incl (map (key k) (k_faces k)) (map norm all_conn).
Proof.
  intros p Hp. apply in_map_iff in Hp. destruct Hp as [f [<- Hf]].
  destruct (has_ends k Hk f Hf) as [u [v E]].
  assert (Ha : exists a c, nth_error (k_cells k) a = Some c /\ touches k f c).
  { destruct E as [a b ca cb Ha _ _ Ta _|a j ca Ha _ Ta]; eauto. }
  destruct Ha as [a [c [Ha Ta]]]. assert (La := nth_lt _ _ _ Ha).
  destruct (three_partners a La) as [x [y [z [Hxy [Hxz [Hyz [Px [Py Pz]]]]]]]].
  assert (Hface : forall w, In (norm (Z.of_nat a, w)) (map norm all_conn) ->
    exists h, In h (k_faces k) /\ touches k h c /\ key k h = norm (Z.of_nat a, w)).
  { intros w Pw. apply in_map_iff in Pw. destruct Pw as [[p q] [Ep Hpq]].
    destruct (all_joined p q Hpq) as [h [Hh Hc]].
    exists h. split; [exact Hh|]. split.
    - destruct (conn_touches h a (p, q) La Hc) as [c' [Hc' Tc']]; [exists w; congruence|].
      replace c with c' by congruence. exact Tc'.
    - rewrite <- (connects_key k Hk h (p, q) Hh Hc). exact Ep. }
  destruct (Hface x Px) as [hx [Ix [Tx Kx]]]. destruct (Hface y Py) as [hy [Iy [Ty Ky]]].
  destruct (Hface z Pz) as [hz [Iz [Tz Kz]]].
  assert (Hd : forall w w' h h', w <> w' -> key k h = norm (Z.of_nat a, w) -> key k h' = norm (Z.of_nat a, w') -> h <> h').
  { intros w w' h h' Hw E1 E2 ->. apply Hw. rewrite E1 in E2.
    destruct (norm_eq _ _ _ _ E2) as [[_ H]|[H1 H2]]; [exact H|congruence]. }
  destruct (rd_ok (k_sub k) a) as [[[f0 f1] f2] [_ Hs]]; [rewrite (cf_sub k Hk); exact La|].
  destruct (cf_three k Hk a c f0 f1 f2 Ha Hs) as [N3 I3].
  assert (Hincl : incl [f0; f1; f2] [hx; hy; hz]).
  { apply NoDup_length_incl.
    - constructor; [|constructor; [|constructor; [intros []|constructor]]].
      + intros [H|[H|[]]]; [apply (Hd x y hx hy)|apply (Hd x z hx hz)]; auto.
      + intros [H|[]]. apply (Hd y z hy hz); auto.
    - simpl. lia.
    - intros h [<-|[<-|[<-|[]]]]; apply I3; auto. }
  assert (Hff : In f [hx; hy; hz]) by (apply Hincl, I3; auto).
  destruct Hff as [<-|[<-|[<-|[]]]]; [rewrite Kx|rewrite Ky|rewrite Kz]; assumption.
Qed.

Lemma all_perm : Permutation (map norm all_conn) (map (key k) (k_faces k)).
Proof.
  apply NoDup_Permutation; [exact nodup_all|apply (nodup_keys k Hk); [apply (cf_faces k Hk)|apply incl_refl]|].
  intro p. split; [apply all_in_keys|apply keys_in_all].
Qed.

Lemma round_len : (length r0 + length r1 <= length (k_cells k) + length (k_bnd k))%nat.
Proof.
  rewrite <- app_length.
  assert (H : incl (r0 ++ r1) (map Z.of_nat (seq 0 (length (k_cells k) + length (k_bnd k))))).
  { intros x Hx. assert (B := ro_range _ _ _ Hr x Hx). apply in_map_iff. exists (Z.to_nat x).
    split; [lia|]. apply in_seq. lia. }
  apply NoDup_incl_length in H; [|exact (ro_distinct _ _ _ Hr)].
  rewrite map_length, seq_length in H. exact H.
Qed.

Lemma connections_ok : forall cap, (length (k_faces k) <= cap)%nat -> (0 < length (k_cells k))%nat ->
  exists l, SetUpToDownConnections cap (length (k_cells k)) (length (k_bnd k)) (padded k r0) (padded k r1) =
    Ok (cells_first nc l) /\ map norm l = map norm all_conn.
Proof.
  intros cap Hcap Hpos.
  assert (Hlen : (length all_conn <= cap)%nat).
  { rewrite <- (map_length norm), (Permutation_length all_perm), map_length. exact Hcap. }
  unfold all_conn in Hlen. rewrite !app_length in Hlen.
  assert (Hrl := round_len).
  assert (R0 : forall x, In x r0 -> 0 <= x) by (intros x Hx; apply (ro_range _ _ _ Hr); apply in_or_app; auto).
  assert (R1 : forall x, In x r1 -> 0 <= x) by (intros x Hx; apply (ro_range _ _ _ Hr); apply in_or_app; auto).
  assert (NE : r0 <> [] /\ r1 <> []).
  { assert (Hin := ro_cells _ _ _ Hr 0%nat Hpos). apply in_app_or in Hin.
    destruct Hin as [Hin|Hin]; destruct (In_nth_error _ _ Hin) as [i Hi].
    - assert (L := ro_opposite0 _ _ _ Hr i _ Hi). unfold is_cell in L. specialize (L ltac:(lia)).
      split; intros ->; [destruct Hin|simpl in L; lia].
    - assert (L := ro_opposite1 _ _ _ Hr i _ Hi). unfold is_cell in L. specialize (L ltac:(lia)).
      split; intros ->; [simpl in L; lia|destruct Hin]. }
  unfold SetUpToDownConnections, padded. fold nc.
  destruct (along_ok cap nc true r0 (length (k_cells k) + length (k_bnd k) - length r0)
    (length (k_cells k) + length (k_bnd k)) 0 [] R0 (proj1 NE)) as [l1 [E1 M1]];
    [lia|lia|unfold conn in *; cbn [skipn length]; lia|].
  rewrite E1. cbn [bind]. cbn [skipn map app] in M1.
  assert (Ln1 := f_equal (@length _) M1). rewrite !map_length in Ln1.
  destruct (along_ok cap nc false r1 (length (k_cells k) + length (k_bnd k) - length r1)
    (length (k_cells k) + length (k_bnd k)) 0 l1 R1 (proj2 NE)) as [l2 [E2 M2]];
    [lia|lia|unfold conn in *; cbn [skipn length]; lia|].
  rewrite E2. cbn [bind]. cbn [skipn] in M2.
  assert (Ln2 := f_equal (@length _) M2). rewrite app_length, !map_length in Ln2.
  destruct (across_ok cap nc r0 r1 (length (k_cells k) + length (k_bnd k) - length r0)
    (length (k_cells k) + length (k_bnd k) - length r1)
    (length (k_cells k) + length (k_bnd k)) 0 l2) as [l3 [E3 M3]];
    [intros x Hx; apply (ro_range _ _ _ Hr x Hx)|lia|lia|lia|lia|unfold conn in *; cbn [skipn length]; lia|].
  rewrite E3. cbn [bind]. exists l3. split; [reflexivity|]. cbn [skipn] in M3.
  rewrite M3, M2, M1. unfold all_conn. rewrite !map_app, app_assoc. reflexivity.
Qed.
End Round.

Lemma cells_first_perm : forall nc l, Permutation (cells_first nc l) l.
Proof.
  intros nc l. unfold cells_first. induction l as [|x l IH]; [constructor|].
  simpl. destruct (cell_cell nc x); simpl.
  - apply perm_skip. exact IH.
  - rewrite <- Permutation_middle. apply perm_skip. exact IH.
Qed.

(** A list of connections whose unordered pairs are the keys of the faces. *)
Lemma perm_connected : forall k l, conforming k ->
  Permutation (map norm l) (map (key k) (k_faces k)) ->
  connected k (cells_first (Z.of_nat (length (k_cells k))) l).
Proof.
  intros k l Hk Hp. set (nc := Z.of_nat (length (k_cells k))). set (ups := cells_first nc l : list (Z * Z)).
  assert (Hu : Permutation (map norm ups) (map (key k) (k_faces k))).
  { rewrite <- Hp. apply Permutation_map. apply cells_first_perm. }
  assert (Hnd : NoDup (map norm ups)).
  { apply (Permutation_NoDup (Permutation_sym Hu)). apply (nodup_keys k Hk); [apply (cf_faces k Hk)|apply incl_refl]. }
  assert (Hcon : forall c f, In f (k_faces k) -> norm c = key k f -> connects k f c).
  { intros [a b] f Hf He. destruct (has_ends k Hk f Hf) as [u [v E]].
    rewrite <- (ends_key k Hk f u v Hf E) in He.
    destruct (norm_eq _ _ _ _ He) as [[-> ->]|[-> ->]]; [left|right]; exact E. }
  assert (Hfirst : forall i c, nth_error ups i = Some c ->
    ((i < length (filter (cell_cell nc) l))%nat <-> cell_cell nc c = true)).
  { intros i c Hi. unfold ups, cells_first in Hi.
    destruct (lt_dec i (length (filter (cell_cell nc) l))) as [L|L].
    - rewrite nth_error_app1 in Hi by exact L. apply nth_error_In in Hi. apply filter_In in Hi. tauto.
    - rewrite nth_error_app2 in Hi by lia. apply nth_error_In in Hi. apply filter_In in Hi.
      destruct Hi as [_ Hi]. destruct (cell_cell nc c); [discriminate Hi|]. split; [lia|discriminate]. }
  assert (Hkind : forall f c, In f (k_faces k) -> norm c = key k f -> cell_cell nc c = inside k f).
  { intros f [a b] Hf He. apply eq_true_iff_eq. rewrite (key_kind k Hk f Hf), <- He.
    unfold cell_cell, norm, nc; simpl. rewrite andb_true_iff, !Z.ltb_lt. lia. }
  assert (Hcount : length (filter (cell_cell nc) l) = length (filter (inside k) (k_faces k))).
  { rewrite <- (map_length norm (filter _ l)), <- (map_length (key k) (filter _ (k_faces k))).
    apply Permutation_length. apply NoDup_Permutation.
    - apply nodup_filter_map. apply (Permutation_NoDup (Permutation_sym Hp)).
      apply (nodup_keys k Hk); [apply (cf_faces k Hk)|apply incl_refl].
    - apply nodup_filter_map. apply (nodup_keys k Hk); [apply (cf_faces k Hk)|apply incl_refl].
    - intro p. rewrite !in_map_iff. split.
      + intros [c [<- Hc]]. apply filter_In in Hc. destruct Hc as [Hc Hcc].
        assert (Hin : In (norm c) (map (key k) (k_faces k)))
          by (apply (Permutation_in _ Hp); apply in_map; exact Hc).
        apply in_map_iff in Hin. destruct Hin as [f [Ef Hf]]. exists f. split; [exact Ef|].
        apply filter_In. split; [exact Hf|]. rewrite <- (Hkind f c Hf (eq_sym Ef)). exact Hcc.
      + intros [f [<- Hf]]. apply filter_In in Hf. destruct Hf as [Hf Hi].
        assert (Hin : In (key k f) (map norm l))
          by (apply (Permutation_in _ (Permutation_sym Hp)); apply in_map; exact Hf).
        apply in_map_iff in Hin. destruct Hin as [c [Ec Hc]]. exists c. split; [exact Ec|].
        apply filter_In. split; [exact Hc|]. rewrite (Hkind f c Hf Ec). exact Hi. }
  constructor; fold nc ups; unfold conn in *.
  - intros f Hf.
    assert (Hin : In (key k f) (map norm ups))
      by (apply (Permutation_in _ (Permutation_sym Hu)); apply in_map; exact Hf).
    destruct (In_nth_error _ _ Hin) as [i Hi]. rewrite nth_error_map in Hi.
    destruct (nth_error ups i) as [c|] eqn:Ei; [|discriminate Hi]. simpl in Hi. injection Hi as Hi.
    exists i, c. split; [exact Ei|]. split; [exact (Hcon c f Hf Hi)|].
    intros j d Hj Hd. apply (connects_key k Hk f d Hf) in Hd.
    apply (nodup_nth (map norm ups) j i (key k f) Hnd); rewrite nth_error_map; [rewrite Hj|rewrite Ei]; simpl; congruence.
  - intros i c Hi.
    assert (Hin : In (norm c) (map (key k) (k_faces k)))
      by (apply (Permutation_in _ Hu); apply in_map; eapply nth_error_In; exact Hi).
    apply in_map_iff in Hin. destruct Hin as [f [Ef Hf]]. exists f. split; [exact Hf|].
    apply Hcon; [exact Hf|congruence].
  - intros i c f Hi Hc Hf. rewrite <- Hcount, (Hfirst i c Hi), (Hkind f c Hf (connects_key k Hk f c Hf Hc)).
    reflexivity.
Qed.

Theorem connected_proof : forall k r0 r1 cap, conforming k -> round k r0 r1 ->
  (0 < length (k_cells k))%nat -> (length (k_faces k) <= cap)%nat ->
  exists ups, SetUpToDownConnections cap (length (k_cells k)) (length (k_bnd k)) (padded k r0) (padded k r1) = Ok ups /\
    connected k ups.
Proof.
  intros k r0 r1 cap Hk Hr Hpos Hcap.
  destruct (connections_ok k r0 r1 Hk Hr cap Hcap Hpos) as [l [E M]].
  eexists. split; [exact E|]. apply perm_connected; [exact Hk|]. rewrite M. exact (all_perm k r0 r1 Hk Hr).
Qed.
