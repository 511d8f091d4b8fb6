(** Proofs about Demo. *)
From Coq Require Import Reals List Arith Lia Lra Psatz.
From Coquelicot Require Import Coquelicot.
From Verif Require Import Prelude Arrays Demo SpecDemo.
Import ListNotations.
Local Open Scope R_scope.

Lemma wrs_ok : forall l out i, (i + length l <= length out)%nat ->
  exists out', wrs out i l = Ok out' /\ length out' = length out /\
    (forall k a, nth_error l k = Some a -> nth_error out' (i + k) = Some (Some a)) /\
    (forall j, (j < i \/ i + length l <= j)%nat -> nth_error out' j = nth_error out j).
Proof.
  induction l as [|a l IH]; intros out i H; cbn [length wrs] in *.
  - exists out. repeat split; auto. intros [|k] b; discriminate.
  - rewrite wr_ok by lia. cbn [bind].
    destruct (IH (upd out i (Some a)) (S i)) as (o & E & L & A & B); [rewrite length_upd; lia|].
    rewrite length_upd in L. exists o. repeat split; auto.
    + intros [|k] b Hk; cbn in Hk.
      * injection Hk as <-. rewrite Nat.add_0_r. rewrite B by lia. apply nth_upd_same; lia.
      * replace (i + S k)%nat with (S i + k)%nat by lia. apply A, Hk.
    + intros j Hj. rewrite B by lia. apply nth_upd_other; lia.
Qed.

(** A loop setting the entries w*i .. w*i+w-1 in step i. *)
Lemma for_fill : forall (w n : nat) (body : nat -> list fl -> outcome (list fl)) (G : nat -> list R) (out : list fl),
  (w * n <= length out)%nat ->
  (forall i, (i < n)%nat -> length (G i) = w) ->
  (forall i o, (i < n)%nat -> body i o = wrs o (w * i) (G i)) ->
  exists out', for_ n body out = Ok out' /\ length out' = length out /\
    (forall i k, (i < n)%nat -> (k < w)%nat -> nth_error out' (w * i + k) = Some (Some (nth k (G i) 0))) /\
    (forall j, (w * n <= j)%nat -> nth_error out' j = nth_error out j).
Proof.
  intros w n body G out L LG B.
  destruct (for_inv (fun m (o : list fl) => length o = length out /\ (forall i k, (i < m)%nat -> (k < w)%nat ->
     nth_error o (w * i + k) = Some (Some (nth k (G i) 0))) /\ (forall j, (w * n <= j)%nat -> nth_error o j = nth_error out j)) body n out) as (o & E & L' & A & Fr).
  - split; [reflexivity|]. split; [intros; lia|auto].
  - intros m o Hm (Lo & A & Fr). rewrite B by lia.
    assert (Hw : (w * S m <= w * n)%nat) by (apply Nat.mul_le_mono_l; lia). rewrite Nat.mul_succ_r in Hw.
    destruct (wrs_ok (G m) o (w * m)) as (o' & E & L' & C & D); [unfold fl in *; rewrite LG by lia; lia|].
    exists o'. split; [assumption|]. split; [unfold fl in *; congruence|]. split.
    + intros i k Hi Hk. destruct (Nat.eq_dec i m) as [->|N].
      * apply C. apply nth_error_nth'. rewrite LG by lia. lia.
      * assert (w * S i <= w * m)%nat by (apply Nat.mul_le_mono_l; lia). rewrite D by (left; lia). apply A; lia.
    + intros j Hj. rewrite D by (right; rewrite LG by lia; lia). apply Fr, Hj.
  - exists o. auto.
Qed.

Lemma rd_nth (x : list R) i : (i < length x)%nat -> rd x i = Ok (nth i x 0).
Proof. intros H. apply rd_some. apply nth_error_nth'. exact H. Qed.
Lemma xy_ok n x i : length x = (2 * n)%nat -> (i < n)%nat -> xy x i = Ok (point 2 x i 0%nat, point 2 x i 1%nat).
Proof. intros L H. unfold xy, point. rewrite !rd_nth by lia. cbn [bind]. rewrite Nat.add_0_r. reflexivity. Qed.
Lemma xyz_ok n x i : length x = (3 * n)%nat -> (i < n)%nat -> xyz x i = Ok (point 3 x i 0%nat, point 3 x i 1%nat, point 3 x i 2%nat).
Proof. intros L H. unfold xyz, point. rewrite !rd_nth by lia. cbn [bind]. rewrite Nat.add_0_r. reflexivity. Qed.
Lemma get_ok (K : list fl) i a : nth_error K i = Some (Some a) -> get K i = Ok a.
Proof. intros H. unfold get. rewrite (rd_some _ _ _ H). reflexivity. Qed.

Lemma k4_ok n (K : list fl) i G : (i < n)%nat -> (forall i k, (i < n)%nat -> (k < 4)%nat -> nth_error K (4 * i + k) = Some (Some (G i k))) ->
  k4 K i = Ok (G i 0, G i 1, G i 2, G i 3)%nat.
Proof.
  intros H A. unfold k4. pose proof (A i 0%nat H ltac:(lia)) as A0. rewrite Nat.add_0_r in A0.
  rewrite (get_ok _ _ _ A0), (get_ok _ _ _ (A i 1%nat H ltac:(lia))), (get_ok _ _ _ (A i 2%nat H ltac:(lia))), (get_ok _ _ _ (A i 3%nat H ltac:(lia))).
  reflexivity.
Qed.
Lemma k9_ok n (K : list fl) i G : (i < n)%nat -> (forall i k, (i < n)%nat -> (k < 9)%nat -> nth_error K (9 * i + k) = Some (Some (G i k))) ->
  k9 K i = Ok (G i 0, G i 1, G i 2, G i 3, G i 4, G i 5, G i 6, G i 7, G i 8)%nat.
Proof.
  intros H A. unfold k9. pose proof (A i 0%nat H ltac:(lia)) as A0. rewrite Nat.add_0_r in A0.
  rewrite (get_ok _ _ _ A0), (get_ok _ _ _ (A i 1%nat H ltac:(lia))), (get_ok _ _ _ (A i 2%nat H ltac:(lia))), (get_ok _ _ _ (A i 3%nat H ltac:(lia))),
    (get_ok _ _ _ (A i 4%nat H ltac:(lia))), (get_ok _ _ _ (A i 5%nat H ltac:(lia))), (get_ok _ _ _ (A i 6%nat H ltac:(lia))),
    (get_ok _ _ _ (A i 7%nat H ltac:(lia))), (get_ok _ _ _ (A i 8%nat H ltac:(lia))).
  reflexivity.
Qed.

Lemma wr_wrs (o : list fl) i a : wr o i (Some a) = wrs o (1 * i) [a].
Proof. cbn [wrs]. rewrite Nat.mul_1_l. destruct (wr o i (Some a)); reflexivity. Qed.

(** Codes made of a loop. *)
Lemma fills_loop d w (F : (nat -> R) -> list R) (body : list R -> nat -> list fl -> outcome (list fl)) :
  (forall q, length (F q) = w) ->
  (forall n x i o, length x = (d * n)%nat -> (i < n)%nat -> body x i o = wrs o (w * i) (F (point d x i))) ->
  fills d w (fun n x out => for_ n (body x) out) (fun q k => nth k (F q) 0).
Proof.
  intros LF B n x out Lx Lo. apply (for_fill w n (body x) (fun i => F (point d x i)) out); auto.
  intros i o Hi. apply (B n); auto.
Qed.
(** The same after a permeability has been computed. *)
Lemma fills_perm4 d w perm KF (F : (nat -> R) -> list R) (body : list fl -> list R -> nat -> list fl -> outcome (list fl)) :
  fills d 4 perm KF ->
  (forall q, length (F q) = w) ->
  (forall n x K i o, length x = (d * n)%nat -> (i < n)%nat ->
     k4 K i = Ok (KF (point d x i) 0, KF (point d x i) 1, KF (point d x i) 2, KF (point d x i) 3)%nat ->
     body K x i o = wrs o (w * i) (F (point d x i))) ->
  fills d w (fun n x out => do K <- perm n x (repeat None (4 * n)); for_ n (body K x) out) (fun q k => nth k (F q) 0).
Proof.
  intros HK LF B n x out Lx Lo.
  destruct (HK n x (repeat None (4 * n)) Lx ltac:(rewrite repeat_length; lia)) as (K & E & _ & A & _). rewrite E. cbn [bind].
  apply (for_fill w n (body K x) (fun i => F (point d x i)) out); auto.
  intros i o Hi. apply (B n); auto. apply (k4_ok n K i (fun i => KF (point d x i))); auto.
Qed.
Lemma fills_perm9 d w perm KF (F : (nat -> R) -> list R) (body : list fl -> list R -> nat -> list fl -> outcome (list fl)) :
  fills d 9 perm KF ->
  (forall q, length (F q) = w) ->
  (forall n x K i o, length x = (d * n)%nat -> (i < n)%nat ->
     k9 K i = Ok (KF (point d x i) 0, KF (point d x i) 1, KF (point d x i) 2, KF (point d x i) 3, KF (point d x i) 4, KF (point d x i) 5, KF (point d x i) 6, KF (point d x i) 7, KF (point d x i) 8)%nat ->
     body K x i o = wrs o (w * i) (F (point d x i))) ->
  fills d w (fun n x out => do K <- perm n x (repeat None (9 * n)); for_ n (body K x) out) (fun q k => nth k (F q) 0).
Proof.
  intros HK LF B n x out Lx Lo.
  destruct (HK n x (repeat None (9 * n)) Lx ltac:(rewrite repeat_length; lia)) as (K & E & _ & A & _). rewrite E. cbn [bind].
  apply (for_fill w n (body K x) (fun i => F (point d x i)) out); auto.
  intros i o Hi. apply (B n); auto. apply (k9_ok n K i (fun i => KF (point d x i))); auto.
Qed.
Lemma fills_ext d w c F G : fills d w c F -> (forall q k, (k < w)%nat -> F q k = G q k) -> fills d w c G.
Proof.
  intros H E n x out Lx Lo. destruct (H n x out Lx Lo) as (o & A & B & C & D). exists o. split; [exact A|]. split; [exact B|]. split; [|exact D].
  intros i k Hi Hk. rewrite C by assumption. now rewrite E.
Qed.

Lemma fills_gives d w size c F : (w <= size)%nat -> fills d w c F -> gives d w size c F.
Proof.
  intros Hw H x out Lx Lo. destruct (H 1%nat x out) as (o & A & B & C & _); [lia|unfold fl in *; lia|].
  exists o. split; [exact A|]. split; [unfold fl in *; congruence|].
  intros k Hk. specialize (C 0%nat k ltac:(lia) Hk). rewrite Nat.mul_0_r in C. exact C.
Qed.

Ltac solve_loop :=
  intros; unfold table in *;
  repeat match goal with
  | H : k4 _ _ = _ |- _ => rewrite H; clear H
  | H : k9 _ _ = _ |- _ => rewrite H; clear H
  | L : length ?x = (2 * ?n)%nat, H : (?i < ?n)%nat |- context [xy ?x ?i] => rewrite (xy_ok n x i L H)
  | L : length ?x = (3 * ?n)%nat, H : (?i < ?n)%nat |- context [xyz ?x ?i] => rewrite (xyz_ok n x i L H)
  end; cbn [bind nth]; try rewrite wr_wrs; reflexivity.

Lemma PermTest2D_fills : fills 2 4 PermTest2D (table [5; 1; 1; 2]).
Proof. apply (fills_loop 2 4 (fun _ => [5; 1; 1; 2]) (fun x i K => wrs K (4 * i) [5; 1; 1; 2])); solve_loop. Qed.
Lemma PermTest3D_fills : fills 3 9 PermTest3D (table [4321/1000; 1; 1/2; 1; 1234/1000; 1; 1/2; 1; 11/10]).
Proof. apply (fills_loop 3 9 (fun _ => [4321/1000; 1; 1/2; 1; 1234/1000; 1; 1/2; 1; 11/10]) (fun x i K => wrs K (9 * i) _)); solve_loop. Qed.
Lemma PermWheeler2006_1_fills : fills 2 4 PermWheeler2006_1 (table [5; 1; 1; 2]).
Proof. exact PermTest2D_fills. Qed.
Lemma PermWheeler2012_1_fills : fills 2 4 PermWheeler2012_1 (table [2; 125/100; 125/100; 3]).
Proof. apply (fills_loop 2 4 (fun _ => [2; 125/100; 125/100; 3]) (fun x i K => wrs K (4 * i) _)); solve_loop. Qed.
Lemma PermWheeler2012_2_fills a : fills 3 9 (PermWheeler2012_2 a) (table [a; 1; 1; 1; 2; 1; 1; 1; 2]).
Proof. apply (fills_loop 3 9 (fun _ => [a; 1; 1; 1; 2; 1; 1; 1; 2]) (fun x i K => wrs K (9 * i) _)); solve_loop. Qed.

Definition K2006 (q : nat -> R) : list R :=
  [4 + (q 0%nat + 2)^2 + (q 1%nat)^2; 1 + sin (q 0%nat * q 1%nat); 1 + sin (q 0%nat * q 1%nat); 2].
Lemma PermWheeler2006_2_fills : fills 2 4 PermWheeler2006_2 (fun q k => nth k (K2006 q) 0).
Proof. eapply (fills_loop 2 4 K2006); solve_loop. Qed.

(** One entry per point. *)
Lemma fills1 d c (F : (nat -> R) -> R) : fills d 1 c (fun q k => nth k [F q] 0) -> fills d 1 c (fun q _ => F q).
Proof. intros H. eapply fills_ext; [exact H|]. intros q [|k] Hk; [reflexivity|lia]. Qed.

Notation q0 q := (q 0%nat). Notation q1 q := (q 1%nat). Notation q2 q := (q 2%nat).

Ltac pressure F := apply fills1; eapply (fills_loop _ 1 (fun q => [F q])); solve_loop.

(** Fields. *)
Definition pconst (q : nat -> R) := 314/100.
Definition pquad2 (q : nat -> R) := 314/100 + q0 q*(1-q0 q) + q1 q*(1-q1 q).
Definition pquad3 (q : nat -> R) := 314/100 + q0 q*(1-q0 q) + q1 q*(1-q1 q) + q2 q*(1-q2 q).
Definition p2006_1 (q : nat -> R) := (1-q0 q)^4 + (1-q1 q)^3 * (1-q0 q) + sin (1-q1 q) * cos (1-q0 q).
Definition psin (q : nat -> R) := sin (3*PI*q0 q) * sin (3*PI*q0 q) * sin (3*PI*q1 q) * sin (3*PI*q1 q).
Definition pbump (q : nat -> R) := q0 q*q0 q*(q1 q*q1 q)*(q2 q*q2 q)*(q0 q-1)^2*(q1 q-1)^2*(q2 q-1)^2.
Definition pcos (q : nat -> R) := cos (q0 q) * cos (q1 q) * cos (q2 q).

Lemma PressureConstant_fills d : fills d 1 PressureConstant (fun q _ => pconst q).
Proof. pressure pconst. Qed.
Lemma PressureQuadratic2D_fills : fills 2 1 PressureQuadratic2D (fun q _ => pquad2 q).
Proof. pressure pquad2. Qed.
Lemma PressureQuadratic3D_fills : fills 3 1 PressureQuadratic3D (fun q _ => pquad3 q).
Proof. pressure pquad3. Qed.
Lemma PressureWheeler2006_1_fills : fills 2 1 PressureWheeler2006_1 (fun q _ => p2006_1 q).
Proof. pressure p2006_1. Qed.
Lemma PressureWheeler2006_2_fills : fills 2 1 PressureWheeler2006_2 (fun q _ => psin q).
Proof. pressure psin. Qed.
Lemma PressureWheeler2012_2_fills : fills 3 1 PressureWheeler2012_2 (fun q _ => pbump q).
Proof. pressure pbump. Qed.
Lemma Pressure3_fills : fills 3 1 Pressure3 (fun q _ => pcos q).
Proof. pressure pcos. Qed.
