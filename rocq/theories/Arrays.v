(** C arrays and counted loops. *)
From Coq Require Import List Arith Lia Bool.
From Verif Require Import Prelude.
Import ListNotations.

(** [a[i]] and [a[i] = v]: undefined outside the array. *)
Definition rd {A} (a : list A) (i : nat) : outcome A :=
  match nth_error a i with Some v => Ok v | None => UB end.
Fixpoint upd {A} (a : list A) (i : nat) (v : A) : list A :=
  match a, i with
  | [], _ => []
  | _ :: a, O => v :: a
  | x :: a, S i => x :: upd a i v
  end.
Definition wr {A} (a : list A) (i : nat) (v : A) : outcome (list A) :=
  if i <? length a then Ok (upd a i v) else UB.

(** [for (i = k; i < k+n; ++i) body]. *)
Fixpoint loop {St} (n k : nat) (body : nat -> St -> outcome St) (s : St) : outcome St :=
  match n with
  | O => Ok s
  | S n => do s' <- body k s; loop n (S k) body s'
  end.
Definition for_ {St} (n : nat) (body : nat -> St -> outcome St) (s : St) : outcome St := loop n 0 body s.

(** ** Facts *)

Lemma length_upd : forall {A} (a : list A) i v, length (upd a i v) = length a.
Proof. intros A a; induction a as [|x a IH]; intros [|i] v; simpl; auto. Qed.

Lemma nth_upd : forall {A} (a : list A) i v j,
  nth_error (upd a i v) j = if (i =? j) && (i <? length a) then Some v else nth_error a j.
Proof.
  intros A a; induction a as [|x a IH]; intros [|i] v [|j]; simpl; try reflexivity.
  - destruct (i =? j); reflexivity.
  - apply IH.
Qed.

Lemma nth_upd_same : forall {A} (a : list A) i v, i < length a -> nth_error (upd a i v) i = Some v.
Proof.
  intros A a i v H. rewrite nth_upd, Nat.eqb_refl. apply Nat.ltb_lt in H. rewrite H. reflexivity.
Qed.

Lemma nth_upd_other : forall {A} (a : list A) i v j, i <> j -> nth_error (upd a i v) j = nth_error a j.
Proof. intros A a i v j H. rewrite nth_upd. apply Nat.eqb_neq in H. rewrite H. reflexivity. Qed.

Lemma wr_ok : forall {A} (a : list A) i v, i < length a -> wr a i v = Ok (upd a i v).
Proof. intros A a i v H. unfold wr. apply Nat.ltb_lt in H. rewrite H. reflexivity. Qed.

Lemma wr_inv : forall {A} (a : list A) i v a', wr a i v = Ok a' -> i < length a /\ a' = upd a i v.
Proof.
  intros A a i v a' H. unfold wr in H. destruct (i <? length a) eqn:E; [|discriminate H].
  apply Nat.ltb_lt in E. split; [exact E|congruence].
Qed.

Lemma rd_ok : forall {A} (a : list A) i, i < length a -> exists v, rd a i = Ok v /\ nth_error a i = Some v.
Proof.
  intros A a i H. unfold rd. destruct (nth_error a i) as [v|] eqn:E; [exists v; auto|].
  apply nth_error_None in E. lia.
Qed.

Lemma rd_some : forall {A} (a : list A) i v, nth_error a i = Some v -> rd a i = Ok v.
Proof. intros A a i v H. unfold rd. rewrite H. reflexivity. Qed.

Lemma nth_lt : forall {A} (a : list A) i v, nth_error a i = Some v -> i < length a.
Proof. intros A a i v H. apply nth_error_Some. congruence. Qed.

Lemma loop_inv : forall {St} (P : nat -> St -> Prop) (body : nat -> St -> outcome St) n k s,
  P k s -> (forall i s, k <= i < k + n -> P i s -> exists s', body i s = Ok s' /\ P (S i) s') ->
  exists s', loop n k body s = Ok s' /\ P (k + n) s'.
Proof.
  intros St P body n; induction n as [|n IH]; intros k s H0 Hb; simpl.
  - exists s. rewrite Nat.add_0_r. auto.
  - destruct (Hb k s) as [s1 [E1 P1]]; [lia|exact H0|]. rewrite E1. simpl.
    destruct (IH (S k) s1 P1) as [s2 [E2 P2]]; [intros i s' Hi Hp; apply Hb; [lia|exact Hp]|].
    exists s2. split; [exact E2|]. replace (k + S n) with (S k + n) by lia. exact P2.
Qed.

Lemma for_inv : forall {St} (P : nat -> St -> Prop) (body : nat -> St -> outcome St) n s,
  P 0 s -> (forall i s, i < n -> P i s -> exists s', body i s = Ok s' /\ P (S i) s') ->
  exists s', for_ n body s = Ok s' /\ P n s'.
Proof.
  intros St P body n s H0 Hb. destruct (loop_inv P body n 0 s H0) as [s' [E Q]].
  - intros i s' Hi Hp. apply Hb; [lia|exact Hp].
  - exists s'. split; assumption.
Qed.

(** From a successful loop: what the body preserves. *)
Lemma loop_preserves : forall {St} (P : nat -> St -> Prop) (body : nat -> St -> outcome St) n k s s',
  loop n k body s = Ok s' -> P k s ->
  (forall i s s', k <= i < k + n -> P i s -> body i s = Ok s' -> P (S i) s') -> P (k + n) s'.
Proof.
  intros St P body n; induction n as [|n IH]; intros k s s' E H0 Hb; simpl in E.
  - injection E as <-. rewrite Nat.add_0_r. exact H0.
  - destruct (body k s) as [s1| |] eqn:E1; try discriminate E. simpl in E.
    replace (k + S n) with (S k + n) by lia. eapply IH; [exact E| |].
    + eapply Hb; [|exact H0|exact E1]. lia.
    + intros i t t' Hi Hp Et. eapply Hb; [|exact Hp|exact Et]. lia.
Qed.
Lemma for_preserves : forall {St} (P : nat -> St -> Prop) (body : nat -> St -> outcome St) n s s',
  for_ n body s = Ok s' -> P 0 s ->
  (forall i s s', i < n -> P i s -> body i s = Ok s' -> P (S i) s') -> P n s'.
Proof.
  intros St P body n s s' E H0 Hb. apply (loop_preserves P body n 0 s s' E H0).
  intros i t t' Hi. apply Hb. lia.
Qed.

Lemma nth_error_ext : forall {A} (a b : list A), (forall i, nth_error a i = nth_error b i) -> a = b.
Proof.
  intros A a; induction a as [|x a IH]; intros [|y b] H; [reflexivity|discriminate (H 0)|discriminate (H 0)|].
  f_equal; [specialize (H 0); simpl in H; congruence|]. apply IH. intro i. apply (H (S i)).
Qed.
