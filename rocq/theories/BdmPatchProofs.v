(** Linear pressures are solutions of the BDM system on parallelepipeds. *)
From Coq Require Import Reals List ZArith Bool Arith Lia Lra Permutation.
From Verif Require Import Prelude Arrays SpecFvtpf FvtpfSumProofs MpfaoProofs Hdiv SpecHdiv HdivProofs FeMap SpecFeMap FeMapProofs.
From Verif Require Import Bdm SpecBdm SpecBdmMesh BdmProofs BdmLocalProofs BdmInverseProofs BdmGlobalProofs BdmMeshProofs BdmFluxProofs BdmSolveProofs.
Import ListNotations.
Local Open Scope R_scope.

(** ** Gauss quadrature of quadratic functions *)
Definition simpson (f : R -> R) : R := f (-1) / 3 + 4 / 3 * f 0 + f 1 / 3.
Lemma root_square : sqrt (3 / 5) * sqrt (3 / 5) = 3 / 5.
Proof. apply sqrt_sqrt. lra. Qed.
Lemma gauss_quadratic : forall f, quadratic f -> sum_over gauss (fun g => f (fst g) * snd g) = simpson f.
Proof.
  intros f [a [p [q H]]]. unfold simpson, gauss. simpl. rewrite !H. pose proof root_square as S2. set (s := sqrt (3/5)) in *.
  replace (a + p * - s + q * (- s * - s)) with (a - p * s + q * (s * s)) by ring. rewrite S2. field.
Qed.
Lemma tensor_step : forall k (F : list R -> R), sum_over (gauss_tensor (S k)) (fun q => F (fst q) * snd q)
  = sum_over (gauss_tensor k) (fun p => sum_over gauss (fun g => F (fst p ++ [fst g]) * snd g) * snd p).
Proof.
  intros k F. cbn [gauss_tensor]. rewrite sum_flat_map. apply sum_ext. intros p _. rewrite sum_map. cbn [fst snd].
  rewrite Rmult_comm, <- sum_scale. apply sum_ext. intros g _. ring.
Qed.
Lemma tensor1 : forall F, quadratic (fun t => F [t]) -> sum_over (gauss_tensor 1) (fun q => F (fst q) * snd q) = simpson (fun t => F [t]).
Proof.
  intros F H. rewrite tensor_step. change (sum_over gauss (fun g => F ([] ++ [fst g]) * snd g) * 1 + 0 = simpson (fun t => F [t])).
  change (sum_over gauss (fun g => (fun t => F [t]) (fst g) * snd g) * 1 + 0 = simpson (fun t => F [t])). rewrite gauss_quadratic by exact H. ring.
Qed.
Lemma quadratic_simpson : forall (f : R -> R -> R), (forall t, quadratic (fun a => f a t)) -> quadratic (fun a => simpson (f a)).
Proof.
  intros f H. destruct (H (-1)) as [a1 [p1 [q1 E1]]], (H 0) as [a2 [p2 [q2 E2]]], (H 1) as [a3 [p3 [q3 E3]]].
  exists (a1 / 3 + 4 / 3 * a2 + a3 / 3), (p1 / 3 + 4 / 3 * p2 + p3 / 3), (q1 / 3 + 4 / 3 * q2 + q3 / 3). intro t. unfold simpson. rewrite E1, E2, E3. field.
Qed.
Lemma tensor2 : forall F, (forall a, quadratic (fun t => F [a; t])) -> (forall c, quadratic (fun t => F [t; c])) ->
  sum_over (gauss_tensor 2) (fun q => F (fst q) * snd q) = simpson (fun a => simpson (fun c => F [a; c])).
Proof.
  intros F H1 H2. rewrite tensor_step.
  rewrite (sum_ext _ _ (fun p => (fun x => simpson (fun c => F (x ++ [c]))) (fst p) * snd p)).
  - rewrite (tensor1 (fun x => simpson (fun c => F (x ++ [c])))); [reflexivity|]. cbn [app]. apply (quadratic_simpson (fun a c => F [a; c])). exact H2.
  - intros [x w] Hp. cbn [fst snd]. f_equal. destruct (gauss_inside 1 (x, w) Hp) as [[L _] _]. cbn [fst] in L. destruct x as [|a [|? ?]]; try discriminate L.
    cbn [app]. apply (gauss_quadratic (fun t => F [a; t])). apply H1.
Qed.
Lemma tensor3 : forall F, (forall a c, quadratic (fun t => F [a; c; t])) -> (forall a e, quadratic (fun t => F [a; t; e])) -> (forall c e, quadratic (fun t => F [t; c; e])) ->
  sum_over (gauss_tensor 3) (fun q => F (fst q) * snd q) = simpson (fun a => simpson (fun c => simpson (fun e => F [a; c; e]))).
Proof.
  intros F H1 H2 H3. rewrite tensor_step.
  rewrite (sum_ext _ _ (fun p => (fun x => simpson (fun e => F (x ++ [e]))) (fst p) * snd p)).
  - rewrite (tensor2 (fun x => simpson (fun e => F (x ++ [e])))); [reflexivity| |]; cbn [app].
    + intro a. apply (quadratic_simpson (fun c e => F [a; c; e])). intro e. apply H2.
    + intro c. apply (quadratic_simpson (fun a e => F [a; c; e])). intro e. apply H3.
  - intros [x w] Hp. cbn [fst snd]. f_equal. destruct (gauss_inside 2 (x, w) Hp) as [[L _] _]. cbn [fst] in L. destruct x as [|a [|c [|? ?]]]; try discriminate L.
    cbn [app]. apply (gauss_quadratic (fun t => F [a; c; t])). apply H1.
Qed.

(** ** Moments of the basis functions *)
Definition theta (lumped : bool) : R := if lumped then 0 else 1 / 3.
Definition moment (lumped : bool) (v d j : nat) : R := if (j =? d)%nat then side v d else theta lumped * side v j.
Ltac each_index i n := match n with O => exfalso; simpl in *; lia | S ?n' => destruct i as [|i]; [|each_index i n'] end.
Definition corners1 (f : R -> R) : R := f (-1) + f 1.
Lemma corners2 : forall F, sum_over (corner_quadrature 2) (fun q => F (fst q) * snd q) = corners1 (fun c => corners1 (fun a => F [a; c])).
Proof. intro F. unfold corners1. cbn -[IZR Rplus Rmult Ropp]. ring. Qed.
Lemma corners3 : forall F, sum_over (corner_quadrature 3) (fun q => F (fst q) * snd q) = corners1 (fun e => corners1 (fun c => corners1 (fun a => F [a; c; e]))).
Proof. intro F. unfold corners1. cbn -[IZR Rplus Rmult Ropp]. ring. Qed.
Ltac pick := cbn [reference Nat.eqb nth Nat.mul Nat.add quad_reference hex_reference].
Ltac evaluate := cbn [Nat.testbit Nat.odd Nat.even Nat.div2 negb]; field.
Lemma moment_ok : forall lumped dim v d j, (dim = 2 \/ dim = 3)%nat -> (v < 2 ^ dim)%nat -> (d < dim)%nat -> (j < dim)%nat ->
  sum_over (quadrature lumped dim) (fun q => nth ((v * dim + d) * dim + j) (reference dim (fst q)) 0 * snd q) = moment lumped v d j.
Proof.
  intros lumped dim v d j [->| ->] Hv Hd Hj; simpl in Hv; destruct lumped; unfold quadrature.
  - rewrite (corners2 (fun x => nth ((v * 2 + d) * 2 + j) (reference 2 x) 0)).
    each_index v 4%nat; each_index d 2%nat; each_index j 2%nat; pick; unfold corners1, moment, theta, side; pick; evaluate.
  - rewrite (tensor2 (fun x => nth ((v * 2 + d) * 2 + j) (reference 2 x) 0)).
    + each_index v 4%nat; each_index d 2%nat; each_index j 2%nat; pick; unfold simpson, moment, theta, side; pick; evaluate.
    + intro a. exact (proj2 (quad_quadratic ((v * 2 + d) * 2 + j) a ltac:(lia))).
    + intro c. exact (proj1 (quad_quadratic ((v * 2 + d) * 2 + j) c ltac:(lia))).
  - rewrite (corners3 (fun x => nth ((v * 3 + d) * 3 + j) (reference 3 x) 0)).
    each_index v 8%nat; each_index d 3%nat; each_index j 3%nat; pick; unfold corners1, moment, theta, side; pick; evaluate.
  - rewrite (tensor3 (fun x => nth ((v * 3 + d) * 3 + j) (reference 3 x) 0)).
    + each_index v 8%nat; each_index d 3%nat; each_index j 3%nat; pick; unfold simpson, moment, theta, side; pick; evaluate.
    + intros a c. exact (proj2 (proj2 (hex_quadratic ((v * 3 + d) * 3 + j) a c ltac:(lia)))).
    + intros a e. exact (proj1 (proj2 (hex_quadratic ((v * 3 + d) * 3 + j) a e ltac:(lia)))).
    + intros c e. exact (proj1 (hex_quadratic ((v * 3 + d) * 3 + j) c e ltac:(lia))).
Qed.
(** Constant fields. *)
Lemma constants : forall dim xi d j, (dim = 2 \/ dim = 3)%nat -> length xi = dim -> (d < dim)%nat -> (j < dim)%nat ->
  total (fun v => side v d * nth ((v * dim + d) * dim + j) (reference dim xi) 0) (2 ^ dim) = if (d =? j)%nat then 1 else 0.
Proof.
  intros dim xi d j [->| ->] L Hd Hj; unfold reference; cbn [Nat.eqb].
  - generalize (nth 0 xi 0) as x, (nth 1 xi 0) as y. intros x y. unfold quad_reference, side. each_index d 2%nat; each_index j 2%nat; cbn -[IZR Rplus Rmult Rdiv Ropp Rminus]; field.
  - generalize (nth 0 xi 0) as x, (nth 1 xi 0) as y, (nth 2 xi 0) as z. intros x y z. unfold hex_reference, side. each_index d 3%nat; each_index j 3%nat; cbn -[IZR Rplus Rmult Rdiv Ropp Rminus]; field.
Qed.
Lemma sides_cancel : forall dim d, (dim = 2 \/ dim = 3)%nat -> (d < dim)%nat -> total (fun v => side v d) (2 ^ dim) = 0.
Proof. intros dim d [->| ->] Hd; unfold side; [each_index d 2%nat|each_index d 3%nat]; cbn -[IZR Rplus Rmult Rdiv Ropp Rminus]; lra. Qed.
(** A linear function times a corner function on a face. *)
Definition face_fn (dim v d : nat) (s : bool) (a : R) (h : nat -> R) (y : list R) : R :=
  (a + total (fun j => h j * nth j (insert d (if s then 1 else -1) y) 0) dim) * corner_function dim v d (fun e => nth e (insert d (if s then 1 else -1) y) 0).
Ltac open := unfold face_fn, insert, corner_function, product, side; cbn [total nth Nat.eqb firstn skipn app].
Lemma face_moment : forall dim v d (s : bool) a (h : nat -> R), (dim = 2 \/ dim = 3)%nat -> (v < 2 ^ dim)%nat -> (d < dim)%nat ->
  sum_over (gauss_tensor (dim - 1)) (fun q => face_fn dim v d s a h (fst q) * snd q)
  = a + total (fun j => h j * (if (j =? d)%nat then (if s then 1 else -1) else side v j / 3)) dim.
Proof.
  intros dim v d s a h [->| ->] Hv Hd; simpl in Hv; cbn [Nat.sub].
  - rewrite (tensor1 (face_fn 2 v d s a h)).
    + each_index d 2%nat; each_index v 4%nat; open; unfold simpson; evaluate.
    + each_index d 2%nat; open; match goal with |- quadratic ?f => by_values f end.
  - rewrite (tensor2 (face_fn 3 v d s a h)).
    + each_index d 3%nat; each_index v 8%nat; open; unfold simpson; evaluate.
    + intro t0. each_index d 3%nat; open; match goal with |- quadratic ?f => by_values f end.
    + intro t0. each_index d 3%nat; open; match goal with |- quadratic ?f => by_values f end.
Qed.
