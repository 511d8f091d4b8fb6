(** Facts about nested counted loops over the slots of fixed-length records. *)
From Coq Require Import List Arith ZArith Lia Bool Permutation Sorting.Sorted.
From Verif Require Import Prelude Arrays UGrid.
Import ListNotations.
Local Open Scope nat_scope.

Lemma nested_inv : forall {St} (P : nat -> St -> Prop) (body : nat -> nat -> St -> outcome St) n m s,
  P 0 s ->
  (forall i j s, i < n -> j < m -> P (i * m + j) s -> exists s', body i j s = Ok s' /\ P (S (i * m + j)) s') ->
  exists s', for_ n (fun i s => for_ m (fun j s => body i j s) s) s = Ok s' /\ P (n * m) s'.
Proof.
  intros St P body n m s H0 Hb.
  apply (for_inv (fun i s => P (i * m) s)); [exact H0|].
  intros i t Hi Ht.
  destruct (for_inv (fun j s => P (i * m + j) s) (fun j s => body i j s) m t) as [t' [E Q]].
  - rewrite Nat.add_0_r. exact Ht.
  - intros j u Hj Hu. destruct (Hb i j u Hi Hj Hu) as [u' [Eu Qu]]. exists u'. split; [exact Eu|].
    replace (i * m + S j) with (S (i * m + j)) by lia. exact Qu.
  - exists t'. split; [exact E|]. replace (S i * m) with (i * m + m) by lia. exact Q.
Qed.

Lemma for_S : forall {St} (A : St -> outcome St) (B : nat -> St -> outcome St) m s,
  for_ (S m) (fun j s => match j with O => A s | S j => B j s end) s = do s <- A s; for_ m B s.
Proof.
  intros St A B m s. unfold for_. cbn [loop]. destruct (A s) as [s1| |]; cbn [bind]; try reflexivity.
  assert (G : forall n k t, loop n (S k) (fun j s => match j with O => A s | S j => B j s end) t = loop n k B t).
  { induction n as [|n IH]; intros k t; cbn [loop]; [reflexivity|].
    destruct (B k t); cbn [bind]; auto. }
  apply G.
Qed.

Lemma for_ext : forall {St} (f g : nat -> St -> outcome St) n s,
  (forall i s, i < n -> f i s = g i s) -> for_ n f s = for_ n g s.
Proof.
  intros St f g n s H. unfold for_.
  assert (G : forall m k t, k + m <= n -> loop m k f t = loop m k g t).
  { induction m as [|m IH]; intros k t Hk; cbn [loop]; [reflexivity|].
    rewrite H by lia. destruct (g k t); cbn [bind]; auto. apply IH. lia. }
  apply G. lia.
Qed.

(** Number of selected positions below [k]. *)
Fixpoint cnt (sel : nat -> bool) (k : nat) : nat :=
  match k with O => 0 | S k => if sel k then S (cnt sel k) else cnt sel k end.
Lemma cnt_mono : forall sel a b, a <= b -> cnt sel a <= cnt sel b.
Proof.
  intros sel a b H. induction H as [|b _ IH]; [lia|]. cbn [cnt]. destruct (sel b); lia.
Qed.
Lemma cnt_lt : forall sel a b, a < b -> sel a = true -> cnt sel a < cnt sel b.
Proof.
  intros sel a b H E. assert (cnt sel (S a) <= cnt sel b) by (apply cnt_mono; lia).
  cbn [cnt] in H0. rewrite E in H0. lia.
Qed.
Lemma cnt_inj : forall sel a b, sel a = true -> sel b = true -> cnt sel a = cnt sel b -> a = b.
Proof.
  intros sel a b Ha Hb E. destruct (lt_eq_lt_dec a b) as [[H|H]|H]; [|exact H|].
  - pose proof (cnt_lt sel a b H Ha). lia.
  - pose proof (cnt_lt sel b a H Hb). lia.
Qed.
Lemma cnt_ex : forall sel k r, r < cnt sel k -> exists a, a < k /\ sel a = true /\ cnt sel a = r.
Proof.
  intros sel k; induction k as [|k IH]; intros r H; cbn [cnt] in H; [lia|].
  destruct (sel k) eqn:E.
  - destruct (Nat.eq_dec r (cnt sel k)) as [->|N].
    + exists k. auto.
    + destruct (IH r) as [a [Ha Q]]; [lia|]. exists a. split; [lia|exact Q].
  - destruct (IH r H) as [a [Ha Q]]. exists a. split; [lia|exact Q].
Qed.
Lemma cnt_none : forall sel k, (forall i, i < k -> sel i = false) -> cnt sel k = 0.
Proof.
  intros sel k H. induction k as [|k IH]; [reflexivity|]. cbn [cnt]. rewrite H by lia. apply IH. intros; apply H; lia.
Qed.

(** Positions of the flattened double loop. *)
Definition flat {A} (m : nat) (f : nat -> nat -> A) (k : nat) : A := f (k / m) (k mod m).
Lemma flat_at : forall {A} m (f : nat -> nat -> A) i j, j < m -> flat m f (i * m + j) = f i j.
Proof.
  intros A m f i j H. unfold flat.
  rewrite Nat.div_add_l by lia. rewrite Nat.div_small by lia.
  rewrite Nat.add_0_r, (Nat.add_comm (i * m) j), Nat.mod_add, Nat.mod_small by lia. reflexivity.
Qed.
Lemma flat_lt : forall m i j n, i < n -> j < m -> i * m + j < n * m.
Proof. intros m i j n Hi Hj. nia. Qed.
Lemma flat_inj : forall m i j i' j', j < m -> j' < m -> i * m + j = i' * m + j' -> i = i' /\ j = j'.
Proof.
  intros m i j i' j' Hj Hj' E.
  assert (i = i') by (destruct (lt_eq_lt_dec i i') as [[H|H]|H]; [nia|exact H|nia]). subst. lia.
Qed.
Lemma flat_decomp : forall m n k, k < n * m -> exists i j, i < n /\ j < m /\ k = i * m + j.
Proof.
  intros m n k H. assert (m <> 0) by nia. exists (k / m), (k mod m).
  pose proof (Nat.div_mod k m H0). pose proof (Nat.mod_upper_bound k m H0).
  repeat split; [|assumption|nia]. apply Nat.div_lt_upper_bound; [assumption|nia].
Qed.

(** Appending to an array of the exact length. *)
Lemma push_ok : forall x c v, c < length v -> push x (c, v) = Ok (S c, upd v c x).
Proof. intros x c v H. unfold push. rewrite wr_ok by exact H. reflexivity. Qed.

Lemma rdz_nat : forall {A} (a : list A) i, rdz a (Z.of_nat i) = rd a i.
Proof.
  intros A a i. unfold rdz. destruct (Z.ltb_spec (Z.of_nat i) 0); [lia|]. rewrite Nat2Z.id. reflexivity.
Qed.
Lemma wrz_nat : forall {A} (a : list A) i x, wrz a (Z.of_nat i) x = wr a i x.
Proof.
  intros A a i x. unfold wrz. destruct (Z.ltb_spec (Z.of_nat i) 0); [lia|]. rewrite Nat2Z.id. reflexivity.
Qed.

Lemma nth_error_repeat' : forall {A} (x : A) n i, i < n -> nth_error (repeat x n) i = Some x.
Proof. intros A x n; induction n as [|n IH]; intros [|i] H; simpl; [lia|lia|reflexivity|apply IH; lia]. Qed.
