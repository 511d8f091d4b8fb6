(** Proofs about Demo: the velocities and forcings. *)
From Coq Require Import Reals List Arith Lia Lra Psatz.
From Coquelicot Require Import Coquelicot.
From Verif Require Import Prelude Arrays Demo SpecDemo DemoProofs.
Import ListNotations.
Local Open Scope R_scope.

Lemma darcy2 (K : R -> R -> list R) (P V1 V2 F : R -> R -> R) :
  (forall X Y, exists gx gy wx wy,
     is_derive (fun t => P t Y) X gx /\ is_derive (fun t => P X t) Y gy /\
     (V1 X Y = - (nth 0 (K X Y) 0 * gx + nth 1 (K X Y) 0 * gy) /\ V2 X Y = - (nth 2 (K X Y) 0 * gx + nth 3 (K X Y) 0 * gy)) /\
     is_derive (fun t => V1 t Y) X wx /\ is_derive (fun t => V2 X t) Y wy /\ F X Y = wx + wy) ->
  darcy 2 (fun q k => nth k (K (q0 q) (q1 q)) 0) (fun q => P (q0 q) (q1 q))
    (fun q k => nth k [V1 (q0 q) (q1 q); V2 (q0 q) (q1 q)] 0) (fun q => F (q0 q) (q1 q)).
Proof.
  intros H q. destruct (H (q0 q) (q1 q)) as (gx & gy & wx & wy & A & B & (C1 & C2) & D & E & G).
  exists (fun k => match k with 0%nat => gx | _ => gy end), (fun k => match k with 0%nat => wx | _ => wy end).
  split; [|split; [|split]].
  - intros [|[|k]] Hk; [exact A|exact B|lia].
  - intros [|[|k]] Hk; [| |lia]; cbn [nth sum Nat.mul Nat.add]; [rewrite C1|rewrite C2]; ring.
  - intros [|[|k]] Hk; [exact D|exact E|lia].
  - cbn [sum]. rewrite G. ring.
Qed.
Lemma darcy3 (K : R -> R -> R -> list R) (P V1 V2 V3 F : R -> R -> R -> R) :
  (forall X Y Z, exists gx gy gz wx wy wz,
     is_derive (fun t => P t Y Z) X gx /\ is_derive (fun t => P X t Z) Y gy /\ is_derive (fun t => P X Y t) Z gz /\
     (V1 X Y Z = - (nth 0 (K X Y Z) 0 * gx + nth 1 (K X Y Z) 0 * gy + nth 2 (K X Y Z) 0 * gz) /\
      V2 X Y Z = - (nth 3 (K X Y Z) 0 * gx + nth 4 (K X Y Z) 0 * gy + nth 5 (K X Y Z) 0 * gz) /\
      V3 X Y Z = - (nth 6 (K X Y Z) 0 * gx + nth 7 (K X Y Z) 0 * gy + nth 8 (K X Y Z) 0 * gz)) /\
     is_derive (fun t => V1 t Y Z) X wx /\ is_derive (fun t => V2 X t Z) Y wy /\ is_derive (fun t => V3 X Y t) Z wz /\ F X Y Z = wx + wy + wz) ->
  darcy 3 (fun q k => nth k (K (q0 q) (q1 q) (q2 q)) 0) (fun q => P (q0 q) (q1 q) (q2 q))
    (fun q k => nth k [V1 (q0 q) (q1 q) (q2 q); V2 (q0 q) (q1 q) (q2 q); V3 (q0 q) (q1 q) (q2 q)] 0) (fun q => F (q0 q) (q1 q) (q2 q)).
Proof.
  intros H q. destruct (H (q0 q) (q1 q) (q2 q)) as (gx & gy & gz & wx & wy & wz & A & B & B' & (C1 & C2 & C3) & D & E & E' & G).
  exists (fun k => match k with 0%nat => gx | 1%nat => gy | _ => gz end), (fun k => match k with 0%nat => wx | 1%nat => wy | _ => wz end).
  split; [|split; [|split]].
  - intros [|[|[|k]]] Hk; [exact A|exact B|exact B'|lia].
  - intros [|[|[|k]]] Hk; [| | |lia]; cbn [nth sum Nat.mul Nat.add]; [rewrite C1|rewrite C2|rewrite C3]; ring.
  - intros [|[|[|k]]] Hk; [exact D|exact E|exact E'|lia].
  - cbn [sum]. rewrite G. ring.
Qed.

Definition good2 (K : R -> R -> list R) (P V1 V2 F : R -> R -> R) := forall X Y, exists gx gy wx wy,
     is_derive (fun t => P t Y) X gx /\ is_derive (fun t => P X t) Y gy /\
     (V1 X Y = - (nth 0 (K X Y) 0 * gx + nth 1 (K X Y) 0 * gy) /\ V2 X Y = - (nth 2 (K X Y) 0 * gx + nth 3 (K X Y) 0 * gy)) /\
     is_derive (fun t => V1 t Y) X wx /\ is_derive (fun t => V2 X t) Y wy /\ F X Y = wx + wy.
Definition good3 (K : R -> R -> R -> list R) (P V1 V2 V3 F : R -> R -> R -> R) := forall X Y Z, exists gx gy gz wx wy wz,
     is_derive (fun t => P t Y Z) X gx /\ is_derive (fun t => P X t Z) Y gy /\ is_derive (fun t => P X Y t) Z gz /\
     (V1 X Y Z = - (nth 0 (K X Y Z) 0 * gx + nth 1 (K X Y Z) 0 * gy + nth 2 (K X Y Z) 0 * gz) /\
      V2 X Y Z = - (nth 3 (K X Y Z) 0 * gx + nth 4 (K X Y Z) 0 * gy + nth 5 (K X Y Z) 0 * gz) /\
      V3 X Y Z = - (nth 6 (K X Y Z) 0 * gx + nth 7 (K X Y Z) 0 * gy + nth 8 (K X Y Z) 0 * gz)) /\
     is_derive (fun t => V1 t Y Z) X wx /\ is_derive (fun t => V2 X t Z) Y wy /\ is_derive (fun t => V3 X Y t) Z wz /\ F X Y Z = wx + wy + wz.

Lemma solution2 K P V1 V2 F perm pressure velocity forcing :
  fills 2 4 perm (fun q k => nth k (K (q0 q) (q1 q)) 0) ->
  fills 2 1 pressure (fun q _ => P (q0 q) (q1 q)) ->
  fills 2 2 velocity (fun q k => nth k [V1 (q0 q) (q1 q); V2 (q0 q) (q1 q)] 0) ->
  fills 2 1 forcing (fun q k => nth k [F (q0 q) (q1 q)] 0) -> good2 K P V1 V2 F ->
  solution 2 (fun q k => nth k (K (q0 q) (q1 q)) 0) (fun q => P (q0 q) (q1 q)) perm pressure velocity forcing.
Proof.
  intros A B C D G. exists (fun q k => nth k [V1 (q0 q) (q1 q); V2 (q0 q) (q1 q)] 0), (fun q => F (q0 q) (q1 q)).
  split; [exact A|]. split; [exact B|]. split; [exact C|]. split; [apply fills1; exact D|]. apply (darcy2 K P V1 V2 F), G.
Qed.
Lemma solution3 K P V1 V2 V3 F perm pressure velocity forcing :
  fills 3 9 perm (fun q k => nth k (K (q0 q) (q1 q) (q2 q)) 0) ->
  fills 3 1 pressure (fun q _ => P (q0 q) (q1 q) (q2 q)) ->
  fills 3 3 velocity (fun q k => nth k [V1 (q0 q) (q1 q) (q2 q); V2 (q0 q) (q1 q) (q2 q); V3 (q0 q) (q1 q) (q2 q)] 0) ->
  fills 3 1 forcing (fun q k => nth k [F (q0 q) (q1 q) (q2 q)] 0) -> good3 K P V1 V2 V3 F ->
  solution 3 (fun q k => nth k (K (q0 q) (q1 q) (q2 q)) 0) (fun q => P (q0 q) (q1 q) (q2 q)) perm pressure velocity forcing.
Proof.
  intros A B C D G. exists (fun q k => nth k [V1 (q0 q) (q1 q) (q2 q); V2 (q0 q) (q1 q) (q2 q); V3 (q0 q) (q1 q) (q2 q)] 0), (fun q => F (q0 q) (q1 q) (q2 q)).
  split; [exact A|]. split; [exact B|]. split; [exact C|]. split; [apply fills1; exact D|]. apply (darcy3 K P V1 V2 V3 F), G.
Qed.

Ltac der := auto_derive; [first [exact I|repeat split; exact I]|reflexivity].
Ltac good2 := intros X Y; do 4 eexists; split; [der|]; split; [der|]; split; [split; cbn [nth]|split; [der|]; split; [der|]].
Ltac good3 := intros X Y Z; do 6 eexists; split; [der|]; split; [der|]; split; [der|]; split; [split; [|split]; cbn [nth]|split; [der|]; split; [der|]; split; [der|]].
Ltac f4 L F := eapply (fills_perm4 2 _ _ _ F); [exact L| |]; solve_loop.
Ltac f9 L F := eapply (fills_perm9 3 _ _ _ F); [apply L| |]; solve_loop.

(** Quadratic pressure in the plane. *)
Lemma quadratic2D : solution 2 (table [5; 1; 1; 2]) (fun q => 314/100 + q 0%nat*(1 - q 0%nat) + q 1%nat*(1 - q 1%nat))
  PermTest2D PressureQuadratic2D VelocityQuadratic2D ForcingQuadratic2D.
Proof.
  apply (solution2 (fun _ _ => [5; 1; 1; 2]) (fun X Y => 314/100 + X*(1-X) + Y*(1-Y))
    (fun X Y => - 5*(1-2*X) - 1*(1-2*Y)) (fun X Y => - 1*(1-2*X) - 2*(1-2*Y)) (fun X Y => 2*5 + 2*2)).
  - exact PermTest2D_fills.
  - exact PressureQuadratic2D_fills.
  - f4 PermTest2D_fills (fun q => [- 5*(1-2*q0 q) - 1*(1-2*q1 q); - 1*(1-2*q0 q) - 2*(1-2*q1 q)]).
  - f4 PermTest2D_fills (fun q : nat -> R => [2*5 + 2*2]).
  - good2; ring.
Qed.

(** Wheeler 2006, problem 1. *)
Lemma sin_flip a : sin (1 - a) = - sin (a - 1).
Proof. rewrite <- sin_neg. f_equal; ring. Qed.
Lemma cos_flip a : cos (1 - a) = cos (a - 1).
Proof. rewrite <- cos_neg. f_equal; ring. Qed.
Definition vx1 (X Y : R) := -4*(1-X)^3 + - (1-Y)^3 + sin (Y-1) * sin (X-1).
Definition vy1 (X Y : R) := -3*(1-Y)^2*(1-X) + - cos (X-1) * cos (Y-1).
Definition f2006_1 (X Y : R) := - 5*(12*(1-X)^2 + sin (Y-1) * cos (X-1)) + - 1*(3*(1-Y)^2 + sin (X-1) * cos (Y-1))
      + - 1*(3*(1-Y)^2 + sin (X-1) * cos (Y-1)) + - 2*(-6*(1-X)*(Y-1) + sin (Y-1) * cos (X-1)).
Lemma wheeler2006_1_any perm : fills 2 4 perm (table [5; 1; 1; 2]) -> solution 2 (table [5; 1; 1; 2])
  (fun q => (1 - q 0%nat)^4 + (1 - q 1%nat)^3 * (1 - q 0%nat) + sin (1 - q 1%nat) * cos (1 - q 0%nat))
  perm PressureWheeler2006_1 VelocityWheeler2006_1 ForcingWheeler2006_1.
Proof.
  intros HP.
  apply (solution2 (fun _ _ => [5; 1; 1; 2]) (fun X Y => (1-X)^4 + (1-Y)^3 * (1-X) + sin (1-Y) * cos (1-X))
    (fun X Y => - (5 * vx1 X Y + 1 * vy1 X Y)) (fun X Y => - (1 * vx1 X Y + 2 * vy1 X Y)) f2006_1).
  - exact HP.
  - exact PressureWheeler2006_1_fills.
  - f4 PermWheeler2006_1_fills (fun q => [- (5 * vx1 (q0 q) (q1 q) + 1 * vy1 (q0 q) (q1 q)); - (1 * vx1 (q0 q) (q1 q) + 2 * vy1 (q0 q) (q1 q))]).
  - f4 PermWheeler2006_1_fills (fun q => [f2006_1 (q0 q) (q1 q)]).
  - unfold vx1, vy1, f2006_1. good2; unfold Rminus; rewrite ?sin_flip, ?cos_flip; try (fold (Rminus 1 X); fold (Rminus 1 Y); rewrite !sin_flip, !cos_flip); unfold Rminus; ring.
Qed.

(** Wheeler 2006, problem 2. *)
Definition v1_2 (X Y : R) := let sx := sin (3*PI*X) in let sy := sin (3*PI*Y) in let cx := cos (3*PI*X) in let cy := cos (3*PI*Y) in
  -6*PI*((sin (X*Y) + 1)*sx*cy + (Y*Y + (X+2)^2 + 4)*sy*cx)*sx*sy.
Definition v2_2 (X Y : R) := let sx := sin (3*PI*X) in let sy := sin (3*PI*Y) in let cx := cos (3*PI*X) in let cy := cos (3*PI*Y) in
  -6*PI*((sin (X*Y) + 1)*sy*cx + 2*sx*cy)*sx*sy.
Definition f2006_2 (X Y : R) := let sx := sin (3*PI*X) in let sy := sin (3*PI*Y) in let cx := cos (3*PI*X) in let cy := cos (3*PI*Y) in
  (-12*PI*(sin (X*Y) + 1)*sx*sy*cx*cy + 3*PI*(Y*Y + (X+2)^2 + 4)*sx*sx*sy*sy - 3*PI*(Y*Y + (X+2)^2 + 4)*sy*sy*cx*cx
    + 6*PI*sx*sx*sy*sy - 6*PI*sx*sx*cy*cy - X*sx*sy*sy*cx*cos (X*Y) - Y*sx*sx*sy*cy*cos (X*Y) - 2*(X+2)*sx*sy*sy*cx) * (6*PI).
Lemma wheeler2006_2 : solution 2
  (fun q k => nth k [4 + (q 0%nat + 2)^2 + (q 1%nat)^2; 1 + sin (q 0%nat * q 1%nat); 1 + sin (q 0%nat * q 1%nat); 2] 0)
  (fun q => (sin (3*PI*q 0%nat) * sin (3*PI*q 1%nat))^2)
  PermWheeler2006_2 PressureWheeler2006_2 VelocityWheeler2006_2 ForcingWheeler2006_2.
Proof.
  apply (solution2 (fun X Y => [4 + (X+2)^2 + Y^2; 1 + sin (X*Y); 1 + sin (X*Y); 2]) (fun X Y => (sin (3*PI*X) * sin (3*PI*Y))^2) v1_2 v2_2 f2006_2).
  - exact PermWheeler2006_2_fills.
  - eapply fills_ext; [exact PressureWheeler2006_2_fills|]. intros q k _. unfold psin. ring.
  - eapply (fills_loop 2 2 (fun q => [v1_2 (q0 q) (q1 q); v2_2 (q0 q) (q1 q)])); solve_loop.
  - eapply (fills_loop 2 1 (fun q => [f2006_2 (q0 q) (q1 q)])); solve_loop.
  - unfold v1_2, v2_2, f2006_2; cbv zeta. good2; ring.
Qed.
