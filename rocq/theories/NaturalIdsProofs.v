(** Proofs about the natural numbers of cells. *)
From Coq Require Import List ZArith Lia Permutation Arith.
From Verif Require Import Prelude Arrays UGrid NaturalIds SpecNaturalIds.
Import ListNotations.
Local Open Scope nat_scope.

Lemma mapM_fun {A B} (f : A -> outcome B) (g : A -> B) l : (forall x, In x l -> f x = Ok (g x)) -> mapM f l = Ok (map g l).
Proof.
  induction l as [|x l IH]; intro H; cbn [mapM map]; [reflexivity|].
  rewrite (H x (or_introl eq_refl)). cbn [bind]. rewrite IH by (intros y Hy; apply H; right; exact Hy). reflexivity.
Qed.
Lemma mapM_ub {A B} (f : A -> outcome B) l : (forall x, In x l -> f x = UB \/ exists y, f x = Ok y) ->
  (exists x, In x l /\ f x = UB) -> mapM f l = UB.
Proof.
  induction l as [|x l IH]; intros H (z & Hz & U); cbn [mapM]; [destruct Hz|].
  destruct (H x (or_introl eq_refl)) as [-> | (y & E)]; [reflexivity|]. rewrite E. cbn [bind].
  rewrite IH; [reflexivity|intros w Hw; apply H; right; exact Hw|].
  destruct Hz as [-> | Hz]; [congruence|]. exists z. split; assumption.
Qed.
Lemma mapM_two {A B} (f : A -> outcome B) l : (forall x, In x l -> f x = UB \/ exists y, f x = Ok y) -> mapM f l = UB \/ exists ys, mapM f l = Ok ys.
Proof.
  induction l as [|x l IH]; intro H; cbn [mapM]; [right; eexists; reflexivity|].
  destruct (H x (or_introl eq_refl)) as [-> | (y & E)]; [left; reflexivity|]. rewrite E. cbn [bind].
  destruct IH as [-> | (ys & ->)]; [intros w Hw; apply H; right; exact Hw|left; reflexivity|right; eexists; reflexivity].
Qed.

Lemma rd_nth {A} (l : list A) i v : nth_error l i = Some v -> rd l i = Ok v.
Proof. intro H. unfold rd. rewrite H. reflexivity. Qed.

(** A vector is read at the place of its entry. *)
Lemma locate_spec l : forall k q o, locate l k = Some (q, o) -> exists n, nth_error l q = Some n /\ o < n /\ k = list_sum (firstn q l) + o.
Proof.
  induction l as [|n l IH]; intros k q o H; cbn [locate] in H; [discriminate H|].
  destruct (k <? n) eqn:E.
  - injection H as <- <-. exists n. apply Nat.ltb_lt in E. repeat split; auto.
  - destruct (locate l (k - n)) as [[q' o']|] eqn:L; [|discriminate H]. injection H as <- <-. apply Nat.ltb_ge in E.
    destruct (IH _ _ _ L) as (m & Hm & Ho & Hk). exists m. repeat split; [exact Hm|exact Ho|]. cbn [firstn list_sum fold_right].
    change (fold_right Init.Nat.add 0 (firstn q' l)) with (list_sum (firstn q' l)). lia.
Qed.
Lemma locate_in l : forall k, k < list_sum l -> exists q o, locate l k = Some (q, o).
Proof.
  induction l as [|n l IH]; intros k H; [cbn in H; lia|]. cbn [locate]. destruct (k <? n) eqn:E; [eexists; eexists; reflexivity|].
  apply Nat.ltb_ge in E. change (list_sum (n :: l)) with (n + list_sum l) in H.
  destruct (IH (k - n)) as (q & o & ->); [lia|]. eexists; eexists; reflexivity.
Qed.
Lemma locate_at l : forall q n o, nth_error l q = Some n -> o < n -> locate l (list_sum (firstn q l) + o) = Some (q, o).
Proof.
  induction l as [|m l IH]; intros [|q] n o Hq Ho; cbn [nth_error] in Hq; try discriminate Hq.
  - injection Hq as ->. change (list_sum (firstn 0 (n :: l)) + o) with o. cbn [locate]. apply Nat.ltb_lt in Ho. rewrite Ho. reflexivity.
  - cbn [firstn]. change (list_sum (m :: firstn q l)) with (m + list_sum (firstn q l)). cbn [locate].
    replace (m + list_sum (firstn q l) + o <? m) with false by (symmetry; apply Nat.ltb_ge; lia).
    replace (m + list_sum (firstn q l) + o - m) with (list_sum (firstn q l) + o) by lia. rewrite (IH _ _ _ Hq Ho). reflexivity.
Qed.
Lemma fetch_ok v : forall k, k < list_sum (map (@length Z) v) -> fetch v (locate (map (@length Z) v) k) = Ok (nth k (concat v) 0%Z).
Proof.
  induction v as [|a v IH]; intros k H; [cbn in H; lia|].
  change (list_sum (map (@length Z) (a :: v))) with (length a + list_sum (map (@length Z) v)) in H. cbn [map locate concat].
  destruct (k <? length a) eqn:E.
  - apply Nat.ltb_lt in E. cbn [fetch]. unfold rd at 1. cbn [nth_error bind]. rewrite app_nth1 by exact E. apply rd_nth. apply nth_error_nth'. exact E.
  - apply Nat.ltb_ge in E. rewrite app_nth2 by lia. assert (E' : k - length a < list_sum (map (@length Z) v)) by lia. pose proof (IH _ E') as F.
    destruct (locate (map (@length Z) v) (k - length a)) as [[q o]|]; exact F.
Qed.

Lemma position_in c l : In c l -> exists k, position c l = Some k /\ nth_error l k = Some c.
Proof.
  induction l as [|x l IH]; intro H; [destruct H|]. cbn [position]. destruct (c =? x) eqn:E.
  - apply Nat.eqb_eq in E. subst x. exists 0. split; reflexivity.
  - destruct H as [-> | H]; [rewrite Nat.eqb_refl in E; discriminate E|]. destruct (IH H) as (k & -> & Hk). exists (S k). split; [reflexivity|exact Hk].
Qed.
Lemma owner_in c owned : In c (concat owned) -> exists q k l, owner c owned = Some (q, k) /\ nth_error owned q = Some l /\ nth_error l k = Some c.
Proof.
  induction owned as [|l owned IH]; intro H; [destruct H|]. cbn [owner concat] in *. destruct (position c l) as [k|] eqn:P.
  - destruct (in_dec Nat.eq_dec c l) as [I | N].
    + destruct (position_in _ _ I) as (k' & P' & Hk). rewrite P in P'. injection P' as <-. exists 0, k, l. repeat split; [exact Hk].
    + exfalso. clear -P N. revert k P. induction l as [|x l IH]; intros k P; [discriminate P|]. cbn [position] in P. destruct (c =? x) eqn:E.
      * apply Nat.eqb_eq in E. apply N. left. symmetry. exact E.
      * destruct (position c l) as [k'|]; [|discriminate P]. apply (IH (fun I => N (or_intror I)) k' eq_refl).
  - apply in_app_iff in H. destruct H as [H | H]; [destruct (position_in _ _ H) as (k & E & _); congruence|].
    destruct (IH H) as (q & k & l' & -> & Hq & Hk). exists (S q), k, l'. repeat split; assumption.
Qed.

(** Rows of equal length. *)
Lemma nth_rows (F : nat -> nat -> Z) nf l : forall k c f, nth_error l k = Some c -> f < nf ->
  nth_error (concat (map (fun c => map (F c) (seq 0 nf)) l)) (k * nf + f) = Some (F c f).
Proof.
  induction l as [|x l IH]; intros k c f H Hf; [destruct k; discriminate H|]. cbn [map concat].
  assert (Len : length (map (F x) (seq 0 nf)) = nf) by (rewrite map_length, seq_length; reflexivity).
  destruct k as [|k]; cbn [nth_error] in H.
  - injection H as ->. rewrite nth_error_app1 by lia. cbn [Nat.mul Nat.add]. rewrite nth_error_map, (nth_error_nth' _ 0) by (rewrite seq_length; exact Hf).
    rewrite seq_nth by exact Hf. reflexivity.
  - replace (S k * nf + f) with (nf + (k * nf + f)) by lia. rewrite nth_error_app2 by lia. rewrite Len. replace (nf + (k * nf + f) - nf) with (k * nf + f) by lia.
    apply IH; assumption.
Qed.
Lemma length_rows (F : nat -> nat -> Z) nf (l : list nat) : length (concat (map (fun c => map (F c) (seq 0 nf)) l)) = length l * nf.
Proof. induction l as [|x l IH]; [reflexivity|]. cbn [map concat length]. rewrite app_length, map_length, seq_length, IH. lia. Qed.

Section Distribution.
Variables (n : nat) (owned locals : list (list nat)).
Hypothesis D : distribution n owned locals.

Lemma owned_lt c : In c (concat owned) <-> c < n.
Proof.
  split; intro H.
  - apply (Permutation_in _ (owned_once _ _ _ D)) in H. apply in_seq in H. lia.
  - apply (Permutation_in _ (Permutation_sym (owned_once _ _ _ D))). apply in_seq. lia.
Qed.
Lemma owned_cell l c : In l owned -> In c l -> c < n.
Proof. intros Hl Hc. apply owned_lt. apply in_concat. exists l. split; assumption. Qed.
Lemma count_owned : list_sum (map (@length nat) owned) = n.
Proof.
  rewrite <- (seq_length n 0), <- (Permutation_length (owned_once _ _ _ D)). clear D.
  induction owned as [|l o IH]; [reflexivity|]. cbn [map concat]. rewrite app_length. change (list_sum (length l :: map (@length nat) o)) with (length l + list_sum (map (@length nat) o)). rewrite IH. reflexivity.
Qed.
Lemma sizes_sum nf : list_sum (sizes nf owned) = n * nf.
Proof.
  rewrite <- count_owned. clear D. unfold sizes. induction owned as [|l o IH]; [reflexivity|]. cbn [map].
  change (list_sum (nf * length l :: map (fun l => nf * length l) o)) with (nf * length l + list_sum (map (fun l => nf * length l) o)).
  change (list_sum (length l :: map (@length nat) o)) with (length l + list_sum (map (@length nat) o)). rewrite IH. lia.
Qed.

Lemma per_cell_ok nf v : 0 < nf -> map (@length Z) v = sizes nf owned ->
  per_cell nf owned locals v = Ok (map (map (fun c => nth (c * nf) (concat v) 0%Z)) locals).
Proof.
  intros Pos Len. set (F := fun c f => nth (c * nf + f) (concat v) 0%Z).
  assert (Get : forall c f, c < n -> f < nf -> fetch v (locate (sizes nf owned) (c * nf + f)) = Ok (F c f)).
  { intros c f Hc Hf. rewrite <- Len. apply fetch_ok. rewrite Len, sizes_sum. nia. }
  assert (G : to_global nf owned v = Ok (map (fun l => concat (map (fun c => map (F c) (seq 0 nf)) l)) owned)).
  { apply mapM_fun. intros l Hl. rewrite (mapM_fun _ (fun c => map (F c) (seq 0 nf))); [reflexivity|].
    intros c Hc. apply mapM_fun. intros f Hf. apply in_seq in Hf. apply Get; [apply (owned_cell l); assumption|lia]. }
  assert (L : to_local nf owned locals (map (fun l => concat (map (fun c => map (F c) (seq 0 nf)) l)) owned) = Ok (map (fun l => concat (map (fun c => map (F c) (seq 0 nf)) l)) locals)).
  { apply mapM_fun. intros l Hl. rewrite (mapM_fun _ (fun c => map (F c) (seq 0 nf))); [reflexivity|].
    intros c Hc. apply mapM_fun. intros f Hf. apply in_seq in Hf.
    destruct (owner_in c owned) as (q & k & l' & -> & Hq & Hk); [apply owned_lt; apply (locals_exist _ _ _ D l c Hl Hc)|].
    cbn [fetch]. rewrite (rd_nth _ q _ (map_nth_error _ _ _ Hq)). cbn [bind]. apply rd_nth. apply nth_rows; [exact Hk|lia]. }
  unfold per_cell. rewrite G. cbn [bind]. rewrite L. cbn [bind].
  rewrite (mapM_fun _ (fun row => map (fun i => nth (i * nf) row 0%Z) (seq 0 (length row / nf)))).
  - f_equal. rewrite map_map. apply map_ext. intro l. rewrite length_rows, Nat.div_mul by lia.
    apply nth_error_ext. intro i. rewrite !nth_error_map. destruct (nth_error l i) as [c|] eqn:E.
    + assert (Hi : i < length l) by (apply nth_error_Some; congruence).
      rewrite (nth_error_nth' (seq 0 (length l)) 0) by (rewrite seq_length; exact Hi). rewrite seq_nth by exact Hi. cbn [option_map Nat.add]. f_equal.
      replace (i * nf) with (i * nf + 0) by lia. rewrite (nth_error_nth _ _ _ (nth_rows F nf l i c 0 E Pos)). unfold F. f_equal. lia.
    + apply nth_error_None in E. replace (nth_error (seq 0 (length l)) i) with (@None nat); [reflexivity|]. symmetry. apply nth_error_None. rewrite seq_length. exact E.
  - intros row _. apply mapM_fun. intros i Hi. apply in_seq in Hi. apply rd_nth. apply nth_error_nth'.
    pose proof (Nat.mul_div_le (length row) nf). nia.
Qed.

(** The layout of the vector that is passed is too short for a process. *)
Lemma per_cell_short nf v q m a : length v = length owned ->
  nth_error (sizes nf owned) q = Some m -> nth_error v q = Some a -> length a < m -> per_cell nf owned locals v = UB.
Proof.
  intros Lv Hq Ha Short. assert (Pos : 0 < nf).
  { unfold sizes in Hq. rewrite nth_error_map in Hq. destruct (nth_error owned q); [|discriminate Hq]. cbn in Hq. injection Hq as Hq. lia. }
  assert (Two : forall c f, c < n -> f < nf -> fetch v (locate (sizes nf owned) (c * nf + f)) = UB \/ exists y, fetch v (locate (sizes nf owned) (c * nf + f)) = Ok y).
  { intros c f Hc Hf. destruct (locate_in (sizes nf owned) (c * nf + f)) as (q' & o & ->); [rewrite sizes_sum; nia|].
    cbn [fetch]. unfold rd. destruct (nth_error v q') as [b|]; cbn [bind]; [|left; reflexivity]. destruct (nth_error b o); [right; eexists; reflexivity|left; reflexivity]. }
  set (k := list_sum (firstn q (sizes nf owned)) + length a).
  assert (Bad : fetch v (locate (sizes nf owned) k) = UB).
  { unfold k. rewrite (locate_at _ _ _ _ Hq Short). cbn [fetch]. rewrite (rd_nth _ _ _ Ha). cbn [bind]. unfold rd.
    replace (nth_error a (length a)) with (@None Z); [reflexivity|]. symmetry. apply nth_error_None. lia. }
  assert (Hk : k < n * nf).
  { rewrite <- sizes_sum. unfold k. clear -Hq Short. revert q Hq. induction (sizes nf owned) as [|x l IH]; intros [|q] Hq; cbn [nth_error] in Hq; try discriminate Hq.
    - injection Hq as ->. cbn [firstn]. change (list_sum (m :: l)) with (m + list_sum l). cbn [list_sum fold_right]. lia.
    - cbn [firstn]. change (list_sum (x :: l)) with (x + list_sum l). change (list_sum (x :: firstn q l)) with (x + list_sum (firstn q l)). specialize (IH q Hq). lia. }
  set (c := k / nf). assert (Hc : c < n) by (apply Nat.div_lt_upper_bound; lia).
  assert (Dk : k = c * nf + k mod nf) by (unfold c; rewrite (Nat.div_mod k nf) at 1; lia).
  assert (Hf : k mod nf < nf) by (apply Nat.mod_upper_bound; lia).
  assert (Cells : forall c, c < n -> mapM (fun f => fetch v (locate (sizes nf owned) (c * nf + f))) (seq 0 nf) = UB \/ exists y, mapM (fun f => fetch v (locate (sizes nf owned) (c * nf + f))) (seq 0 nf) = Ok y).
  { intros c' Hc'. apply mapM_two. intros f Hf'. apply in_seq in Hf'. apply Two; [exact Hc'|lia]. }
  assert (Rows : forall l, In l owned -> mapM (fun c => mapM (fun f => fetch v (locate (sizes nf owned) (c * nf + f))) (seq 0 nf)) l = UB \/ exists y, mapM (fun c => mapM (fun f => fetch v (locate (sizes nf owned) (c * nf + f))) (seq 0 nf)) l = Ok y).
  { intros l Hl. apply mapM_two. intros c' Hc'. apply Cells. apply (owned_cell l); assumption. }
  assert (G : to_global nf owned v = UB).
  { apply mapM_ub.
    - intros l Hl. destruct (Rows l Hl) as [-> | (y & ->)]; [left; reflexivity|right; eexists; reflexivity].
    - assert (I : In c (concat owned)) by (apply owned_lt; exact Hc). apply in_concat in I. destruct I as (l & Hl & Hcl). exists l. split; [exact Hl|].
      rewrite mapM_ub; [reflexivity| |].
      + intros c' Hc'. apply Cells. apply (owned_cell l); assumption.
      + exists c. split; [exact Hcl|]. apply mapM_ub.
        * intros f Hf'. apply in_seq in Hf'. apply Two; [exact Hc|lia].
        * exists (k mod nf). split; [apply in_seq; lia|]. rewrite <- Dk. exact Bad. }
  unfold per_cell. rewrite G. reflexivity.
Qed.
End Distribution.

(** ** The numbers that are put into the natural vector *)

Lemma length_fill nf size cum : length (fill nf size cum) = size.
Proof. unfold fill. rewrite map_length, seq_length. reflexivity. Qed.
Lemma natural_lengths nf : forall owned acc, map (@length Z) (map (fun p => fill nf (fst p) (snd p)) (combine (sizes nf owned) (prefix_sums acc (sizes nf owned)))) = sizes nf owned.
Proof.
  induction owned as [|l o IH]; intro acc; [reflexivity|]. cbn [sizes map prefix_sums combine fst snd]. rewrite length_fill. f_equal. apply IH.
Qed.
Lemma natural_nth nf (Pos : 0 < nf) : forall owned a c q o, locate (map (@length nat) owned) c = Some (q, o) ->
  nth (c * nf) (concat (map (fun p => fill nf (fst p) (snd p)) (combine (sizes nf owned) (prefix_sums (a * nf) (sizes nf owned))))) 0%Z = Z.of_nat (nf * o + (a + c - o)).
Proof.
  induction owned as [|l owned IH]; intros a c q o H; [discriminate H|]. cbn [map locate] in H. cbn [sizes map prefix_sums combine fst snd concat].
  destruct (c <? length l) eqn:E.
  - apply Nat.ltb_lt in E. injection H as <- <-. rewrite app_nth1 by (rewrite length_fill; nia). unfold fill.
    apply nth_error_nth. rewrite nth_error_map, (nth_error_nth' _ 0) by (rewrite seq_length; nia). rewrite seq_nth by nia.
    cbn [option_map Nat.add]. rewrite Nat.mod_mul by lia. cbn [Nat.eqb]. f_equal.
    replace (a * nf + nf * length l) with ((a + length l) * nf) by lia. rewrite Nat.div_mul by lia. replace (nf * length l) with (length l * nf) by lia. rewrite Nat.div_mul by lia. nia.
  - apply Nat.ltb_ge in E. destruct (locate (map (@length nat) owned) (c - length l)) as [[q' o']|] eqn:L; [|discriminate H]. injection H as <- <-.
    rewrite app_nth2 by (rewrite length_fill; nia). rewrite length_fill. replace (c * nf - nf * length l) with ((c - length l) * nf) by nia.
    replace (a * nf + nf * length l) with ((a + length l) * nf) by lia. change (map (fun l => nf * length l) owned) with (sizes nf owned).
    rewrite (IH _ _ _ _ L). destruct (locate_spec _ _ _ _ L) as (m & _ & _ & K). f_equal. lia.
Qed.

Lemma natural_value n owned locals nf : distribution n owned locals -> 0 < nf ->
  natural_ids nf owned locals = Ok (map (map (fun c => nth (c * nf) (concat (natural_vec nf owned)) 0%Z)) locals) /\
  forall c q o, locate (map (@length nat) owned) c = Some (q, o) -> nth (c * nf) (concat (natural_vec nf owned)) 0%Z = Z.of_nat (nf * o + (c - o)).
Proof.
  intros D Pos. split; [apply (per_cell_ok n owned locals D nf _ Pos); apply natural_lengths|].
  intros c q o H. exact (natural_nth nf Pos owned 0 c q o H).
Qed.

Lemma one_field n owned locals : distribution n owned locals -> natural_ids 1 owned locals = Ok (map (map Z.of_nat) locals).
Proof.
  intro D. destruct (natural_value n owned locals 1 D) as (-> & V); [lia|]. f_equal. apply map_ext_in. intros l Hl. apply map_ext_in. intros c Hc.
  pose proof (locals_exist _ _ _ D l c Hl Hc) as Lt. rewrite <- (count_owned n owned locals D) in Lt.
  destruct (locate_in _ _ Lt) as (q & o & L). rewrite (V c q o L). destruct (locate_spec _ _ _ _ L) as (m & _ & _ & K). f_equal. lia.
Qed.

Lemma several_fields n first owned locals nf k : distribution n (first :: owned) locals -> 2 <= nf -> 1 <= k -> length first = nf * k -> nf * k < n ->
  exists ids, natural_ids nf (first :: owned) locals = Ok ids /\ k <> nf * k /\
  forall p i q j l l' r r', nth_error locals p = Some l -> nth_error l i = Some k -> nth_error locals q = Some l' -> nth_error l' j = Some (nf * k) ->
    nth_error ids p = Some r -> nth_error ids q = Some r' -> nth_error r i = nth_error r' j.
Proof.
  intros D Two One Len Lt. destruct (natural_value n (first :: owned) locals nf D) as (Eq & V); [lia|]. rewrite Eq. clear Eq.
  set (val := fun c => nth (c * nf) (concat (natural_vec nf (first :: owned))) 0%Z). assert (V' : forall c q o, locate (map (@length nat) (first :: owned)) c = Some (q, o) -> val c = Z.of_nat (nf * o + (c - o))) by exact V.
  clearbody val. clear V. rename V' into V.
  eexists. split; [reflexivity|]. split; [nia|].
  intros p i q j l l' r r' Hp Hi Hq Hj Hr Hr'. rewrite (map_nth_error _ _ _ Hp) in Hr. rewrite (map_nth_error _ _ _ Hq) in Hr'.
  injection Hr as <-. injection Hr' as <-. rewrite (map_nth_error _ _ _ Hi), (map_nth_error _ _ _ Hj).
  assert (L1 : locate (map (@length nat) (first :: owned)) k = Some (0, k)).
  { cbn [map locate]. rewrite Len. replace (k <? nf * k) with true by (symmetry; apply Nat.ltb_lt; nia). reflexivity. }
  pose proof (count_owned _ _ _ D) as C. cbn [map] in C. change (list_sum (length first :: map (@length nat) owned)) with (length first + list_sum (map (@length nat) owned)) in C.
  assert (L2 : exists q', locate (map (@length nat) (first :: owned)) (nf * k) = Some (q', 0)).
  { cbn [map locate]. rewrite Len, Nat.ltb_irrefl, Nat.sub_diag. destruct (locate_in (map (@length nat) owned) 0) as (q' & o & L); [lia|]. rewrite L.
    destruct (locate_spec _ _ _ _ L) as (m & _ & _ & K). replace o with 0 by lia. eexists; reflexivity. }
  destruct L2 as (q' & L2). rewrite (V _ _ _ L1), (V _ _ _ L2). do 2 f_equal. lia.
Qed.

Lemma one_process n l locals nf : distribution n [l] locals -> 2 <= nf ->
  natural_ids nf [l] locals = Ok (map (map (fun c => Z.of_nat (nf * c))) locals).
Proof.
  intros D Pos. destruct (natural_value n [l] locals nf D) as (-> & V); [lia|]. f_equal. apply map_ext_in. intros r Hr. apply map_ext_in. intros c Hc.
  pose proof (locals_exist _ _ _ D r c Hr Hc) as Lt. pose proof (count_owned _ _ _ D) as C. cbn in C.
  rewrite (V c 0 c); [f_equal; lia|]. cbn [map locate]. replace (c <? length l) with true by (symmetry; apply Nat.ltb_lt; lia). reflexivity.
Qed.

(** ** Region numbers *)

Lemma split_lengths l : forall v : list Z, list_sum l = length v -> map (@length Z) (split l v) = l.
Proof.
  induction l as [|n l IH]; intros v H; [reflexivity|]. change (list_sum (n :: l)) with (n + list_sum l) in H. cbn [split map].
  rewrite firstn_length, IH by (rewrite skipn_length; lia). f_equal. lia.
Qed.
Lemma split_concat l : forall v : list Z, list_sum l = length v -> concat (split l v) = v.
Proof.
  induction l as [|n l IH]; intros v H; [destruct v; [reflexivity|discriminate H]|]. change (list_sum (n :: l)) with (n + list_sum l) in H. cbn [split concat].
  rewrite IH by (rewrite skipn_length; lia). apply firstn_skipn.
Qed.
Lemma sum_decided n np : 0 < np -> list_sum (decided n np) = n.
Proof.
  intro Pos. unfold decided. assert (G : forall k m b, list_sum (map (fun r => b + (if r <? m then 1 else 0)) (seq 0 k)) = k * b + min k m).
  { induction k as [|k IH]; intros m b; [reflexivity|]. rewrite seq_S, map_app, list_sum_app, IH. cbn [map list_sum fold_right Nat.add].
    destruct (k <? m) eqn:E; [apply Nat.ltb_lt in E|apply Nat.ltb_ge in E]; nia. }
  rewrite G. pose proof (Nat.div_mod n np). pose proof (Nat.mod_upper_bound n np). nia.
Qed.
Lemma length_decided n np : length (decided n np) = np.
Proof. unfold decided. rewrite map_length, seq_length. reflexivity. Qed.
Lemma length_split l : forall v : list Z, length (split l v) = length l.
Proof. induction l as [|n l IH]; intro v; [reflexivity|]. cbn [split length]. rewrite IH. reflexivity. Qed.

Lemma regions_ok n owned locals nf (file : list Z) : distribution n owned locals -> 0 < nf -> length file = n * nf ->
  decided (length file) (length owned) = sizes nf owned ->
  region_ids nf owned locals file = Ok (map (map (fun c => nth (c * nf) file 0%Z)) locals).
Proof.
  intros D Pos Len Eq. assert (Sum : list_sum (sizes nf owned) = length file) by (rewrite Len; apply (sizes_sum n owned locals D)).
  unfold region_ids. rewrite Eq, (per_cell_ok n owned locals D nf _ Pos (split_lengths _ _ Sum)), (split_concat _ _ Sum). reflexivity.
Qed.

Lemma short_somewhere : forall l l' : list nat, length l = length l' -> list_sum l = list_sum l' -> l <> l' ->
  exists q m m', nth_error l q = Some m /\ nth_error l' q = Some m' /\ m < m'.
Proof.
  assert (G : forall l l' : list nat, length l = length l' -> l <> l' -> list_sum l <= list_sum l' -> exists q m m', nth_error l q = Some m /\ nth_error l' q = Some m' /\ m < m').
  { induction l as [|x l IH]; intros [|y l'] Len Ne Le; try discriminate Len; [contradiction|]. cbn [length] in Len. injection Len as Len.
    change (list_sum (x :: l)) with (x + list_sum l) in Le. change (list_sum (y :: l')) with (y + list_sum l') in Le.
    destruct (Nat.lt_ge_cases x y) as [Lt | Ge]; [exists 0, x, y; repeat split; exact Lt|].
    destruct (list_eq_dec Nat.eq_dec l l') as [-> | N].
    - exfalso. apply Ne. f_equal. lia.
    - destruct (IH l' Len N) as (q & m & m' & Hm & Hm' & Lt); [lia|]. exists (S q), m, m'. repeat split; assumption. }
  intros l l' Len Eq Ne. apply G; [exact Len|exact Ne|lia].
Qed.

Lemma regions_ub n owned locals nf (file : list Z) : distribution n owned locals -> length file = n * nf ->
  decided (length file) (length owned) <> sizes nf owned -> region_ids nf owned locals file = UB.
Proof.
  intros D Len Ne. assert (Pos : 0 < length owned).
  { destruct owned; [|cbn; lia]. exfalso. apply Ne. reflexivity. }
  pose proof (sum_decided (length file) _ Pos) as Sd.
  destruct (short_somewhere (decided (length file) (length owned)) (sizes nf owned)) as (q & m & m' & Hm & Hm' & Lt).
  - rewrite length_decided. unfold sizes. rewrite map_length. reflexivity.
  - rewrite Sd, (sizes_sum n owned locals D). exact Len.
  - exact Ne.
  - unfold region_ids. pose proof (split_lengths _ _ Sd) as Ls.
    assert (Hq : nth_error (map (@length Z) (split (decided (length file) (length owned)) file)) q = Some m) by (rewrite Ls; exact Hm).
    rewrite nth_error_map in Hq. destruct (nth_error (split (decided (length file) (length owned)) file) q) as [a|] eqn:Ha; [|discriminate Hq]. injection Hq as Hq.
    apply (per_cell_short n owned locals D nf _ q m' a); [rewrite length_split, length_decided; reflexivity|exact Hm'|exact Ha|lia].
Qed.
