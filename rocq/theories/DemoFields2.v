(** Proofs about Demo: the remaining problems. *)
From Coq Require Import Reals List Arith Lia Lra Psatz.
From Coquelicot Require Import Coquelicot.
From Verif Require Import Prelude Arrays Demo SpecDemo DemoProofs DemoFields.
Import ListNotations.
Local Open Scope R_scope.

(** Wheeler 2012, problem 1: forcing for all points, velocity for one. *)
Lemma double X Y : cos (6*PI*(X-Y)) - cos (6*PI*(X+Y)) = 8 * sin (3*PI*X) * cos (3*PI*X) * sin (3*PI*Y) * cos (3*PI*Y).
Proof.
  replace (6*PI*(X-Y)) with (2*(3*PI*X) - 2*(3*PI*Y)) by ring.
  replace (6*PI*(X+Y)) with (2*(3*PI*X) + 2*(3*PI*Y)) by ring.
  rewrite cos_minus, cos_plus, !sin_2a. ring.
Qed.
Definition px12 (X Y : R) := 6*PI*sin (3*PI*X)*sin (3*PI*Y)*sin (3*PI*Y)*cos (3*PI*X).
Definition py12 (X Y : R) := 6*PI*sin (3*PI*X)*sin (3*PI*X)*sin (3*PI*Y)*cos (3*PI*Y).
Definition f2012_1 (X Y : R) := let sx := sin (3*PI*X) in let sy := sin (3*PI*Y) in let cx := cos (3*PI*X) in let cy := cos (3*PI*Y) in
  (2*sx*sx*sy*sy - 2*sy*sy*cx*cx - 125/100*(cos (6*PI*(X-Y)) - cos (6*PI*(X+Y))) * (25/100)
      - 125/100*(cos (6*PI*(X-Y)) - cos (6*PI*(X+Y))) * (25/100) + 3*sx*sx*sy*sy - 3*sx*sx*cy*cy) * (18*PI*PI).
Lemma good2012_1 : good2 (fun _ _ => [2; 125/100; 125/100; 3]) (fun X Y => (sin (3*PI*X) * sin (3*PI*Y))^2)
  (fun X Y => - (2 * px12 X Y + 125/100 * py12 X Y)) (fun X Y => - (125/100 * px12 X Y + 3 * py12 X Y)) f2012_1.
Proof. unfold px12, py12, f2012_1; cbv zeta. good2; rewrite ?double; field. Qed.

Lemma VelocityWheeler2012_1_gives : gives 2 2 3 VelocityWheeler2012_1 (fun q k => nth k
  [- (2 * px12 (q0 q) (q1 q) + 125/100 * py12 (q0 q) (q1 q)); - (125/100 * px12 (q0 q) (q1 q) + 3 * py12 (q0 q) (q1 q))] 0).
Proof.
  intros x out Lx Lo. unfold VelocityWheeler2012_1.
  destruct (PermWheeler2012_1_fills 1%nat x (repeat None 4) ltac:(exact Lx) ltac:(cbn; lia)) as (K & E & LK & A & _).
  change (4 * 1)%nat with 4%nat. rewrite E. cbn [bind]. unfold for_. cbn [loop].
  rewrite (xy_ok 1%nat x 0%nat Lx) by lia. cbn [bind].
  rewrite (k4_ok 1%nat K 0%nat (fun i => table [2; 125/100; 125/100; 3] (point 2 x i))) by (auto; lia). cbn [bind]. unfold table; cbn [nth].
  destruct out as [|o0 [|o1 [|o2 [|]]]]; try discriminate Lo. cbn.
  eexists. split; [reflexivity|]. split; [reflexivity|].
  intros [|[|k]] Hk; [reflexivity|reflexivity|lia].
Qed.
Lemma wheeler2012_1 : point_solution 2 (table [2; 125/100; 125/100; 3]) (fun q => (sin (3*PI*q 0%nat) * sin (3*PI*q 1%nat))^2)
  PermWheeler2012_1 PressureWheeler2012_1 VelocityWheeler2012_1 ForcingWheeler2012_1.
Proof.
  exists (fun q k => nth k [- (2 * px12 (q0 q) (q1 q) + 125/100 * py12 (q0 q) (q1 q)); - (125/100 * px12 (q0 q) (q1 q) + 3 * py12 (q0 q) (q1 q))] 0),
    (fun q => f2012_1 (q0 q) (q1 q)).
  split; [exact PermWheeler2012_1_fills|].
  split; [eapply fills_ext; [exact PressureWheeler2006_2_fills|]; intros q k _; unfold psin; ring|].
  split; [exact VelocityWheeler2012_1_gives|].
  split; [apply fills1; f4 PermWheeler2012_1_fills (fun q => [f2012_1 (q0 q) (q1 q)])|].
  exact (darcy2 (fun _ _ => [2; 125/100; 125/100; 3]) (fun X Y => (sin (3*PI*X) * sin (3*PI*Y))^2)
    (fun X Y => - (2 * px12 X Y + 125/100 * py12 X Y)) (fun X Y => - (125/100 * px12 X Y + 3 * py12 X Y)) f2012_1 good2012_1).
Qed.

(** For more points, entries beyond the first two are not touched. *)
Lemma velocity2012_1_first n x v : length x = (2 * n)%nat -> (2 <= length v)%nat ->
  exists v', VelocityWheeler2012_1 n x v = Ok v' /\ length v' = length v /\ forall j, (2 <= j)%nat -> nth_error v' j = nth_error v j.
Proof.
  intros Lx Lv. unfold VelocityWheeler2012_1.
  destruct (PermWheeler2012_1_fills n x (repeat None (4 * n)) Lx ltac:(rewrite repeat_length; lia)) as (K & E & LK & A & _). rewrite E. cbn [bind].
  match goal with |- context [for_ n ?b v] => set (body := b) end.
  destruct (for_inv (fun _ o => length o = length v /\ forall j, (2 <= j)%nat -> nth_error o j = nth_error v j) body n v) as (o & E' & L & B).
  - auto.
  - intros i o Hi (Lo & B). unfold body.
    rewrite (xy_ok n x i Lx Hi). cbn [bind].
    rewrite (k4_ok n K i (fun i => table [2; 125/100; 125/100; 3] (point 2 x i)) Hi A). cbn [bind]. cbv zeta.
    match goal with |- context [wrs o 0 ?l] => destruct (wrs_ok l o 0%nat) as (o' & E1 & L1 & _ & D) end.
    { cbn [length]. unfold fl in *. lia. }
    exists o'. split; [exact E1|]. split; [unfold fl in *; congruence|].
    intros j Hj. rewrite D by (right; cbn [length]; lia). auto.
  - exists o. auto.
Qed.

(** Wheeler 2012, problem 2. *)
Section Alpha.
Variable a : R.
Definition bump (X : R) := X*X*(X-1)^2.
Definition dbump (X : R) := 2*X*(X-1)*(2*X-1).
Definition KL := [a; 1; 1; 1; 2; 1; 1; 1; 2].
Definition px22 (X Y Z : R) := 2*X*(X-1)*(2*X-1)*(Y*Y)*(Y-1)^2*(Z*Z)*(Z-1)^2.
Definition py22 (X Y Z : R) := X*X*(X-1)^2*(2*Y*(Y-1)*(2*Y-1))*(Z*Z)*(Z-1)^2.
Definition pz22 (X Y Z : R) := X*X*(X-1)^2*(Y*Y)*(Y-1)^2*(2*Z*(Z-1)*(2*Z-1)).
Definition f2012_2 (X Y Z : R) :=
    let X2 := X*X in let Y2 := Y*Y in let Z2 := Z*Z in
    let Xm12 := (X-1)^2 in let Ym12 := (Y-1)^2 in let Zm12 := (Z-1)^2 in
    let a1 := 2*X*(X-1)*(2*X-1) in let b1 := 2*Y*(Y-1)*(2*Y-1) in let c1 := 2*Z*(Z-1)*(2*Z-1) in
    let a2 := 12*X2 - 12*X + 2 in let b2 := 12*Y2 - 12*Y + 2 in let c2 := 12*Z2 - 12*Z + 2 in
      - a*a2*Y2*Ym12*Z2*Zm12 - 1*a1*b1*Z2*Zm12 - 1*a1*Y2*Ym12*c1 +
      - 1*a1*b1*Z2*Zm12 - 2*X2*Xm12*b2*Z2*Zm12 - 1*X2*Xm12*b1*c1 +
      - 1*a1*Y2*Ym12*c1 - 1*X2*Xm12*b1*c1 - 2*X2*Xm12*Y2*Ym12*c2.
Definition v22 (k : nat) (X Y Z : R) := - nth (3 * k) KL 0 * px22 X Y Z - nth (3 * k + 1) KL 0 * py22 X Y Z - nth (3 * k + 2) KL 0 * pz22 X Y Z.
Lemma wheeler2012_2 : solution 3 (table [a; 1; 1; 1; 2; 1; 1; 1; 2])
  (fun q => (q 0%nat * q 1%nat * q 2%nat * (q 0%nat - 1) * (q 1%nat - 1) * (q 2%nat - 1))^2)
  (PermWheeler2012_2 a) PressureWheeler2012_2 (VelocityWheeler2012_2 a) (ForcingWheeler2012_2 a).
Proof.
  apply (solution3 (fun _ _ _ => [a; 1; 1; 1; 2; 1; 1; 1; 2]) (fun X Y Z => (X*Y*Z*(X-1)*(Y-1)*(Z-1))^2) (v22 0) (v22 1) (v22 2) f2012_2).
  - exact (PermWheeler2012_2_fills a).
  - eapply fills_ext; [exact PressureWheeler2012_2_fills|]. intros q k _. unfold pbump. ring.
  - f9 (PermWheeler2012_2_fills a) (fun q => [v22 0 (q0 q) (q1 q) (q2 q); v22 1 (q0 q) (q1 q) (q2 q); v22 2 (q0 q) (q1 q) (q2 q)]).
  - f9 (PermWheeler2012_2_fills a) (fun q => [f2012_2 (q0 q) (q1 q) (q2 q)]).
  - unfold v22, KL, px22, py22, pz22, f2012_2; cbv zeta; cbn [nth Nat.mul Nat.add]. good3; ring.
Qed.

Definition v3 (k : nat) (X Y Z : R) := nth (3 * k) KL 0 * sin X * cos Y * cos Z + nth (3 * k + 1) KL 0 * sin Y * cos X * cos Z + nth (3 * k + 2) KL 0 * sin Z * cos X * cos Y.
Definition f3 (X Y Z : R) := a * cos X * cos Y * cos Z - 1 * sin X * sin Y * cos Z - 1 * sin X * sin Z * cos Y -
      1 * sin X * sin Y * cos Z + 2 * cos X * cos Y * cos Z - 1 * sin Y * sin Z * cos X -
      1 * sin X * sin Z * cos Y - 1 * sin Y * sin Z * cos X + 2 * cos X * cos Y * cos Z.
Lemma problem3 : solution 3 (table [a; 1; 1; 1; 2; 1; 1; 1; 2]) (fun q => cos (q 0%nat) * cos (q 1%nat) * cos (q 2%nat))
  (PermWheeler2012_2 a) Pressure3 (Velocity3 a) (Forcing3 a).
Proof.
  apply (solution3 (fun _ _ _ => [a; 1; 1; 1; 2; 1; 1; 1; 2]) (fun X Y Z => cos X * cos Y * cos Z) (v3 0) (v3 1) (v3 2) f3).
  - exact (PermWheeler2012_2_fills a).
  - exact Pressure3_fills.
  - f9 (PermWheeler2012_2_fills a) (fun q => [v3 0 (q0 q) (q1 q) (q2 q); v3 1 (q0 q) (q1 q) (q2 q); v3 2 (q0 q) (q1 q) (q2 q)]).
  - f9 (PermWheeler2012_2_fills a) (fun q => [f3 (q0 q) (q1 q) (q2 q)]).
  - unfold v3, KL, f3; cbn [nth Nat.mul Nat.add]. good3; ring.
Qed.
End Alpha.
