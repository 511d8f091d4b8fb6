(** Proofs about the table of closures. *)
From Coq Require Import List ZArith Bool Arith Lia.
From Verif Require Import Prelude Arrays Closures SpecClosures.
Import ListNotations.
Local Open Scope nat_scope.

Lemma nth_ex {A} (a : list A) i : i < length a -> exists v, nth_error a i = Some v.
Proof. intros H. destruct (rd_ok a i H) as [v [_ E]]. exists v; exact E. Qed.
Lemma rd_at {A} (a : list A) i v : nth_error a i = Some v -> rd a i = Ok v.
Proof. unfold rd. intros ->. reflexivity. Qed.

Lemma flat_length p : length (flat p) = 2 * length p.
Proof. induction p as [|[a b] p IH]; cbn [flat flat_map app length]; [reflexivity|]. fold (flat p). rewrite IH. lia. Qed.
Lemma flat_nth p : forall k q, nth_error p k = Some q -> nth_error (flat p) (2 * k) = Some (fst q) /\ nth_error (flat p) (2 * k + 1) = Some (snd q).
Proof.
  induction p as [|[a b] p IH]; intros [|k] q H; try discriminate H.
  - injection H as <-. split; reflexivity.
  - replace (2 * S k) with (S (S (2 * k))) by lia. replace (S (S (2 * k)) + 1) with (S (S (2 * k + 1))) by lia. exact (IH k q H).
Qed.

(** Copying a closure into a row. *)
Lemma copy_ok (p : list (Z * Z)) (r : list Z) : 2 * length p <= length r ->
  exists r', for_ (2 * length p) (fun i r => do x <- rd (flat p) i; wr r i x) r = Ok r' /\
    length r' = length r /\ forall i, i < 2 * length p -> nth_error r' i = nth_error (flat p) i.
Proof.
  intros L.
  pose (P := fun n (r' : list Z) => length r' = length r /\ forall i, i < n -> nth_error r' i = nth_error (flat p) i).
  assert (G : exists r', for_ (2 * length p) (fun i r => do x <- rd (flat p) i; wr r i x) r = Ok r' /\ P (2 * length p) r').
  { apply for_inv.
    - split; [reflexivity|lia].
    - intros i s Hi [A B].
      destruct (nth_ex (flat p) i) as [x Hx]; [rewrite flat_length; lia|].
      exists (upd s i x). split.
      + rewrite (rd_at _ _ _ Hx). cbn [bind]. apply wr_ok. lia.
      + split; [rewrite length_upd; exact A|]. intros j Hj. destruct (Nat.eq_dec j i) as [->|Hn].
        * rewrite nth_upd_same by lia. symmetry; exact Hx.
        * rewrite nth_upd_other by lia. apply B; lia. }
  destruct G as [r' [A [B C]]]. exists r'. split; [exact A|]. split; assumption.
Qed.

(** The shape of the table while it is in order. *)
Definition sane (n : nat) (st : table) : Prop :=
  freed st = false /\ room st = 432 /\ length (csize st) = n /\ length (rows st) = n /\ (forall r, In r (rows st) -> length r = 864).

Lemma save_small n e p st : sane n st -> e < n -> length p <= 432 ->
  exists st', save e p st = Ok st' /\ sane n st' /\ holds st' e p /\ (forall e' p', e' <> e -> holds st e' p' -> holds st' e' p') /\
    (forall e', e' <> e -> nth_error (csize st') e' = nth_error (csize st) e').
Proof.
  intros [F [R [Lc [Lr W]]]] He Lp. unfold save.
  rewrite (wr_ok (csize st) e (Z.of_nat (length p))) by lia. cbn [bind room freed rows csize].
  rewrite R. replace (432 <? length p) with false by (symmetry; apply Nat.ltb_ge; lia). cbn [bind freed rows csize room].
  rewrite F.
  destruct (nth_ex (rows st) e) as [r Hr]; [lia|]. rewrite (rd_at _ _ _ Hr). cbn [bind].
  pose proof (W r (nth_error_In _ _ Hr)) as Wr.
  destruct (copy_ok p r ltac:(lia)) as [r' [E [L' C]]]. rewrite E. cbn [bind].
  rewrite (wr_ok (rows st) e r') by lia. cbn [bind].
  eexists. split; [reflexivity|].
  assert (X : forall k q, nth_error p k = Some q -> k < length p) by (intros k q H; apply nth_error_Some; congruence).
  repeat split; cbn [freed room csize rows]; try (rewrite length_upd; lia); try reflexivity.
  - intros x Hx. destruct (In_nth_error _ _ Hx) as [i Hi]. destruct (Nat.eq_dec i e) as [->|Hn].
    + rewrite nth_upd_same in Hi by lia. injection Hi as <-. lia.
    + rewrite nth_upd_other in Hi by lia. apply W. eapply nth_error_In; exact Hi.
  - apply nth_upd_same; lia.
  - exists r'. split; [apply nth_upd_same; lia|]. intros k q H. pose proof (X k q H).
    rewrite !C by lia. apply flat_nth; exact H.
  - destruct H0 as [A _]. rewrite nth_upd_other by lia. exact A.
  - destruct H0 as [_ B]. rewrite nth_upd_other by lia. exact B.
  - intros e' Hn. apply nth_upd_other; lia.
Qed.

Lemma save_big n e p st : sane n st -> e < n -> 432 < length p -> save e p st = UB.
Proof.
  intros [F [R [Lc [Lr W]]]] He Lp. unfold save.
  rewrite (wr_ok (csize st) e (Z.of_nat (length p))) by lia. cbn [bind room freed rows csize].
  rewrite R. replace (432 <? length p) with true by (symmetry; apply Nat.ltb_lt; lia).
  unfold increase. cbn [bind freed]. rewrite F. cbn [bind freed].
  replace (length p =? 0) with false by (symmetry; apply Nat.eqb_neq; lia). reflexivity.
Qed.

(** A range of points. *)
Lemma range_small n a b clos st : sane n st -> b <= n -> (forall e, a <= e < b -> length (clos e) <= 432) ->
  exists st', save_range a b clos st = Ok st' /\ sane n st' /\ (forall e, a <= e < b -> holds st' e (clos e)) /\
    (forall e p, ~ (a <= e < b) -> holds st e p -> holds st' e p) /\
    (forall e, ~ (a <= e < b) -> nth_error (csize st') e = nth_error (csize st) e).
Proof.
  intros S0 Hb Hs. unfold save_range.
  pose (P := fun k (s : table) => sane n s /\ (forall e, a <= e < a + k -> holds s e (clos e)) /\
    (forall e p, ~ (a <= e < b) -> holds st e p -> holds s e p) /\
    (forall e, ~ (a <= e < b) -> nth_error (csize s) e = nth_error (csize st) e)).
  assert (G : exists st', for_ (b - a) (fun k => save (a + k) (clos (a + k))) st = Ok st' /\ P (b - a) st').
  { apply for_inv.
    - split; [exact S0|]. split; [intros; lia|]. split; auto.
    - intros k s Hk [A [B [C D]]].
      destruct (save_small n (a + k) (clos (a + k)) s A ltac:(lia) ltac:(apply Hs; lia)) as [s' [E [A' [H' [K' Z']]]]].
      exists s'. split; [exact E|]. split; [exact A'|]. split; [|split].
      + intros e He. destruct (Nat.eq_dec e (a + k)) as [->|Hn]; [exact H'|]. apply K'; [exact Hn|]. apply B; lia.
      + intros e p Hn Hh. apply K'; [lia|]. apply C; assumption.
      + intros e Hn. rewrite Z' by lia. apply D; exact Hn. }
  destruct G as [st' [E [A [B [C D]]]]]. exists st'. split; [exact E|]. split; [exact A|]. split; [|split; assumption].
  intros e He. apply B. lia.
Qed.

Lemma for_UB {A} (body : nat -> A -> outcome A) m : forall n s s', m < n -> for_ m body s = Ok s' -> body m s' = UB -> for_ n body s = UB.
Proof.
  unfold for_. intros n s s' H E U.
  assert (G : forall k i s, loop k i body s = Ok s' -> body (i + k)%nat s' = UB -> forall q, k < q -> loop q i body s = UB).
  { induction k as [|k IH]; intros i t Et Ut q Hq; destruct q as [|q]; try lia.
    - cbn [loop] in *. injection Et as ->. rewrite Nat.add_0_r in Ut. rewrite Ut. reflexivity.
    - cbn [loop] in *. destruct (body i t) as [t'| |]; try discriminate Et. cbn [bind] in *.
      apply IH; [exact Et| |lia]. replace (S i + k) with (i + S k) by lia. exact Ut. }
  apply (G m 0 s E); [exact U|exact H].
Qed.

Lemma first_big (f : nat -> nat) a b : (exists e, a <= e < b /\ 432 < f e) -> exists e, a <= e < b /\ 432 < f e /\ forall e', a <= e' < e -> f e' <= 432.
Proof.
  intros [e [He Hf]]. revert He Hf. induction e as [e IH] using lt_wf_ind. intros He Hf.
  destruct (Nat.eq_dec a e) as [->|].
  - exists e. split; [lia|]. split; [exact Hf|]. intros; lia.
  - assert (D : (exists e', a <= e' < e /\ 432 < f e') \/ forall e', a <= e' < e -> f e' <= 432).
    { clear. induction e as [|e [IH|IH]].
      - right; intros; lia.
      - destruct IH as [e' [A B]]. left; exists e'; split; [lia|exact B].
      - destruct (le_lt_dec (f e) 432).
        + right. intros e' He'. destruct (Nat.eq_dec e' e) as [->|]; [exact l|apply IH; lia].
        + destruct (le_lt_dec a e); [left; exists e; split; [lia|exact l]|right; intros; lia]. }
    destruct D as [[e' [A B]]|D].
    + apply (IH e'); [lia|lia|exact B].
    + exists e. split; [exact He|]. split; [exact Hf|exact D].
Qed.
Lemma range_big n a b clos st : sane n st -> b <= n -> (exists e, a <= e < b /\ 432 < length (clos e)) -> save_range a b clos st = UB.
Proof.
  intros S0 Hb H. destruct (first_big (fun e => length (clos e)) a b H) as [e [He [Hf Hs]]].
  destruct (range_small n a e clos st S0 ltac:(lia) Hs) as [st' [E [A _]]].
  unfold save_range in *. apply (for_UB _ (e - a) _ _ st'); [lia|exact E|].
  replace (a + (e - a)) with e by lia. apply (save_big n); [exact A|lia|exact Hf].
Qed.
Lemma small_or_big (f : nat -> nat) a b : (exists e, a <= e < b /\ 432 < f e) \/ forall e, a <= e < b -> f e <= 432.
Proof.
  induction b as [|b [IH|IH]].
  - right; intros; lia.
  - destruct IH as [e [A B]]. left; exists e; split; [lia|exact B].
  - destruct (le_lt_dec (f b) 432).
    + right. intros e He. destruct (Nat.eq_dec e b) as [->|]; [exact l|apply IH; lia].
    + destruct (le_lt_dec a b); [left; exists b; split; [lia|exact l]|right; intros; lia].
Qed.

Lemma sane_initial n : sane n (mkTable false (repeat (-1)%Z n) (repeat (repeat (-1)%Z (2 * 432)) n) 432).
Proof.
  unfold sane. cbn [freed room csize rows]. rewrite !repeat_length. repeat split. intros r H. apply repeat_spec in H. subst r. apply repeat_length.
Qed.

(** All closures small: every one of them is kept. *)
Lemma save_all dm : proper dm -> (forall e p, keeps dm e p -> length p <= 432) ->
  exists st, SaveClosures dm = Ok st /\ sane (pend dm) st /\ (forall e p, keeps dm e p -> holds st e p) /\
    forall e, e < pend dm -> (forall p, ~ keeps dm e p) -> nth_error (csize st) e = Some (-1)%Z.
Proof.
  intros [Pc Pv Pf Dcv Dcf Dvf] Hs. unfold SaveClosures. change (27 * 4 * 4) with 432.
  set (st0 := mkTable _ _ _ _). assert (S0 : sane (pend dm) st0) by apply sane_initial.
  assert (Z0 : forall e, e < pend dm -> nth_error (csize st0) e = Some (-1)%Z) by (intros e He; cbn [st0 csize]; apply nth_error_repeat; exact He).
  clearbody st0.
  destruct (range_small (pend dm) 0 (cEnd dm) (cone dm) st0 S0 Pc) as [s1 [E1 [S1 [H1 [K1 Z1]]]]].
  { intros e He. apply (Hs e). constructor; lia. }
  rewrite E1. cbn [bind].
  destruct (range_small (pend dm) (vStart dm) (vEnd dm) (star dm) s1 S1 Pv) as [s2 [E2 [S2 [H2 [K2 Z2]]]]].
  { intros e He. apply (Hs e). constructor; lia. }
  rewrite E2. cbn [bind].
  destruct (range_small (pend dm) (fStart dm) (fEnd dm) (cone dm) s2 S2 Pf) as [s3 [E3 [S3 [H3 [K3 Z3]]]]].
  { intros e He. apply (Hs e). apply keeps_face; lia. }
  exists s3. split; [exact E3|]. split; [exact S3|]. split.
  - intros e p Hk. inversion Hk as [e' He|e' He|e' He]; subst e' p.
    + apply K3; [intro C; exact (Dcf e C He)|]. apply K2; [intro C; exact (Dcv e C He)|]. apply H1; lia.
    + apply K3; [intro C; exact (Dvf e C He)|]. apply H2; lia.
    + apply H3; lia.
  - intros e He Hn. rewrite Z3, Z2, Z1; [apply Z0; exact He| | |].
    + intro C. apply (Hn (cone dm e)). constructor; lia.
    + intro C. apply (Hn (star dm e)). constructor; lia.
    + intro C. apply (Hn (cone dm e)). apply keeps_face; lia.
Qed.
Lemma save_grows dm e p : proper dm -> keeps dm e p -> 432 < length p -> SaveClosures dm = UB.
Proof.
  intros [Pc Pv Pf Dcv Dcf Dvf] Hk Hl. unfold SaveClosures. change (27 * 4 * 4) with 432.
  set (st0 := mkTable _ _ _ _). assert (S0 : sane (pend dm) st0) by apply sane_initial. clearbody st0.
  destruct (small_or_big (fun e => length (cone dm e)) 0 (cEnd dm)) as [B|C1].
  { rewrite (range_big (pend dm) 0 (cEnd dm) (cone dm) st0 S0 Pc B). reflexivity. }
  destruct (range_small (pend dm) 0 (cEnd dm) (cone dm) st0 S0 Pc C1) as [s1 [E1 [S1 _]]]. rewrite E1. cbn [bind].
  destruct (small_or_big (fun e => length (star dm e)) (vStart dm) (vEnd dm)) as [B|C2].
  { rewrite (range_big (pend dm) _ _ (star dm) s1 S1 Pv B). reflexivity. }
  destruct (range_small (pend dm) _ _ (star dm) s1 S1 Pv C2) as [s2 [E2 [S2 _]]]. rewrite E2. cbn [bind].
  apply (range_big (pend dm)); [exact S2|exact Pf|].
  inversion Hk as [e' He|e' He|e' He]; subst e' p.
  - specialize (C1 e ltac:(lia)). cbn beta in C1. lia.
  - specialize (C2 e He). cbn beta in C2. lia.
  - exists e. split; [exact He|exact Hl].
Qed.

(** Counting the points of a kind. *)
Lemma among_snoc a b p q : length (among a b (p ++ [q])) = (if within (fst q) a b then S (length (among a b p)) else length (among a b p)).
Proof.
  unfold among, within. rewrite map_app. cbn [map]. rewrite !filter_app. cbn [filter].
  destruct (fst q <? Z.of_nat b)%Z; cbn [filter]; destruct (Z.of_nat a <=? fst q)%Z; cbn [andb app]; rewrite ?app_nil_r, ?app_length; cbn [length]; lia.
Qed.
Lemma count_ok st e p a b : freed st = false -> holds st e p -> count_points st e a b = Ok (length (among a b p)).
Proof.
  intros F [C [r [Hr H]]]. unfold count_points. rewrite F, (rd_at _ _ _ C). cbn [bind]. rewrite Nat2Z.id.
  pose (P := fun k (q : nat) => q = length (among a b (firstn k p))).
  set (body := fun k q => do r <- rd (rows st) e; do x <- rd r (2 * k); Ok (if within x a b then S q else q)).
  assert (G : exists q, for_ (length p) body 0 = Ok q /\ P (length p) q).
  { apply for_inv.
    - reflexivity.
    - intros k q Hk Hq. unfold P in Hq. destruct (nth_ex p k Hk) as [z Hz]. destruct (H k z Hz) as [H1 _].
      unfold body. rewrite (rd_at _ _ _ Hr). cbn [bind]. rewrite (rd_at _ _ _ H1). cbn [bind]. eexists. split; [reflexivity|].
      assert (Q : firstn (S k) p = firstn k p ++ [z]).
      { clear - Hz. revert p Hz. induction k as [|k IH]; intros [|y p] Hz; try discriminate Hz.
        - injection Hz as ->. reflexivity.
        - cbn [nth_error] in Hz. cbn [firstn app]. f_equal. apply IH; exact Hz. }
      unfold P. rewrite Q, among_snoc, <- Hq. reflexivity. }
  destruct G as [q [E Hq]]. rewrite E. f_equal. unfold P in Hq. rewrite firstn_all in Hq. exact Hq.
Qed.

(** The number of vertices of the cells. *)
Section Number.
Variables (dm : plex) (st : table).
Hypothesis F : freed st = false.
Hypothesis Hh : forall c, c < cEnd dm -> holds st c (cone dm c).
Let nv c := length (vertices_of dm c).

Lemma from_uniform n : forall fuel c nq, c + fuel <= cEnd dm -> (forall x, c <= x < c + fuel -> nv x = n) ->
  (nq = (-1)%Z \/ nq = Z.of_nat n) -> cell_vertices_from dm st fuel c nq = Ok (if fuel =? 0 then nq else Z.of_nat n).
Proof.
  induction fuel as [|fuel IH]; intros c nq Hc Hn Hq; [reflexivity|]. cbn [cell_vertices_from].
  rewrite (count_ok st c (cone dm c)) by (auto; apply Hh; lia). cbn [bind].
  change (length (among (vStart dm) (vEnd dm) (cone dm c))) with (nv c). rewrite (Hn c) by lia.
  assert (Q : (if (nq =? -1)%Z then Z.of_nat n else nq) = Z.of_nat n) by (destruct Hq as [->| ->]; [reflexivity|]; destruct (Z.eqb_spec (Z.of_nat n) (-1)); [lia|reflexivity]).
  rewrite Q, Z.eqb_refl. rewrite IH; [|lia|intros x Hx; apply Hn; lia|right; reflexivity].
  destruct (fuel =? 0); reflexivity.
Qed.
Lemma number_uniform n : 0 < cEnd dm -> (forall c, c < cEnd dm -> nv c = n) -> NumberOfCellVertices dm st = Ok (Z.of_nat n).
Proof.
  intros H0 Hn. unfold NumberOfCellVertices. rewrite (from_uniform n); [|lia|intros x Hx; apply Hn; lia|left; reflexivity].
  destruct (cEnd dm); [lia|reflexivity].
Qed.
Lemma from_mixed n : forall fuel c, c + fuel <= cEnd dm -> (exists x, c <= x < c + fuel /\ nv x <> n) ->
  cell_vertices_from dm st fuel c (Z.of_nat n) = Ok ERR_SUP.
Proof.
  induction fuel as [|fuel IH]; intros c Hc [x [Hx Hn]]; [lia|]. cbn [cell_vertices_from].
  rewrite (count_ok st c (cone dm c)) by (auto; apply Hh; lia). cbn [bind].
  change (length (among (vStart dm) (vEnd dm) (cone dm c))) with (nv c).
  destruct (Z.eqb_spec (Z.of_nat n) (-1)); [lia|].
  destruct (Z.eqb_spec (Z.of_nat n) (Z.of_nat (nv c))) as [Q|]; [|reflexivity].
  apply IH; [lia|]. exists x. split; [|exact Hn]. destruct (Nat.eq_dec x c) as [->|]; [|lia]. exfalso; apply Hn; lia.
Qed.
Lemma number_mixed c d : c < cEnd dm -> d < cEnd dm -> nv c <> nv d -> NumberOfCellVertices dm st = Ok ERR_SUP.
Proof.
  intros Hc Hd Hn. unfold NumberOfCellVertices. assert (M : exists m, cEnd dm = S m) by (exists (pred (cEnd dm)); lia). destruct M as [m Em]. rewrite Em. cbn [cell_vertices_from].
  rewrite (count_ok st 0 (cone dm 0)) by (auto; apply Hh; lia). cbn [bind].
  change (length (among (vStart dm) (vEnd dm) (cone dm 0))) with (nv 0).
  change ((-1 =? -1)%Z) with true. cbn iota zeta. rewrite Z.eqb_refl. apply from_mixed; [lia|].
  destruct (Nat.eq_dec (nv c) (nv 0)) as [Q|Q].
  - exists d. split; [|congruence]. destruct d; [congruence|lia].
  - exists c. split; [|exact Q]. destruct c; [congruence|lia].
Qed.
End Number.

(** The largest number. *)
Lemma max_ok st (clos : nat -> list (Z * Z)) a b o1 o2 : freed st = false -> (forall e, a <= e < b -> holds st e (clos e)) ->
  exists m, MaxNum st a b o1 o2 = Ok m /\ largest (fun e => length (among o1 o2 (clos e))) a b m.
Proof.
  intros F Hh. unfold MaxNum.
  pose (f := fun e => length (among o1 o2 (clos e))).
  pose (P := fun k m => largest f a (a + k) m).
  assert (G : exists m, for_ (b - a) (fun k result => do n <- count_points st (a + k) o1 o2; Ok (Nat.max result n)) 0 = Ok m /\ P (b - a) m).
  { apply for_inv.
    - split; [intros; lia|left; reflexivity].
    - intros k m Hk [A B]. rewrite (count_ok st (a + k) (clos (a + k))) by (auto; apply Hh; lia). cbn [bind]. eexists. split; [reflexivity|].
      change (length (among o1 o2 (clos (a + k)))) with (f (a + k)). split.
      + intros x Hx. destruct (Nat.eq_dec x (a + k)) as [->|]; [lia|]. specialize (A x ltac:(lia)). lia.
      + destruct (le_lt_dec m (f (a + k))).
        * right. exists (a + k). split; lia.
        * destruct B as [->|[x [Hx E]]]; [lia|]. right. exists x. split; lia. }
  destruct G as [m [E [A B]]]. exists m. split; [exact E|]. split.
  - intros x Hx. apply A. lia.
  - destruct B as [B|[x [Hx Ex]]]; [left; exact B|right]. exists x. split; [lia|exact Ex].
Qed.
