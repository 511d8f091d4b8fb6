(** Shared vocabulary of the model. *)
From Coq Require Import Reals List ZArith Lra Lia.
From Coquelicot Require Import Coquelicot.
Import ListNotations.
Local Open Scope R_scope.

(** ** Outcome of a C function
    Every modelled function returns [Ok v] (error code 0), [Err] (a non-zero
    PetscErrorCode, raised through SETERRQ/CHKERRQ) or [UB] (an access the C
    standard leaves undefined: out-of-range index, dangling or NULL pointer,
    integer division by zero). *)
Inductive outcome (A : Type) : Type :=
| Ok (a : A)
| Err
| UB.
Arguments Ok {A} a.
Arguments Err {A}.
Arguments UB {A}.

Definition bind {A B} (o : outcome A) (f : A -> outcome B) : outcome B :=
  match o with Ok a => f a | Err => Err | UB => UB end.
Notation "'do' x <- e ; f" := (bind e (fun x => f))
  (at level 200, x pattern, e at level 100, f at level 200).

(** ** Floating-point values
    [fl] is a [PetscReal]: [Some x] a finite number, idealised to a real
    (rounding and overflow are not modelled), [None] a NaN or an infinity. *)
Definition fl := option R.

(** C division [a / b]: not finite for a zero divisor. *)
Definition fdiv (a b : R) : fl :=
  if Req_EM_T b 0 then None else Some (a / b).

(** C [pow] (PETSc's PetscPowReal): positive base; zero base; a negative base
    is treated as not finite (C accepts it for integral exponents only, which no
    modelled call uses). *)
Definition fpow (x y : R) : fl :=
  if Rlt_dec 0 x then Some (Rpower x y)
  else if Req_EM_T x 0 then
         if Rlt_dec 0 y then Some 0
         else if Req_EM_T y 0 then Some 1 else None
       else None.

(** C [sqrt] (PETSc's PetscSqrtReal). *)
Definition fsqrt (x : R) : fl :=
  if Rle_dec 0 x then Some (sqrt x) else None.

Definition fbind {A} (o : fl) (f : R -> option A) : option A :=
  match o with Some a => f a | None => None end.
Notation "'flet' x := e ; f" := (fbind e (fun x => f))
  (at level 200, x name, e at level 100, f at level 200).

(** Arithmetic on possibly non-finite values (a non-finite operand gives a
    non-finite result). *)
Definition fl1 (f : R -> R) (a : fl) : fl := flet x := a; Some (f x).
Definition fl2 (f : R -> R -> R) (a b : fl) : fl := flet x := a; flet y := b; Some (f x y).

(** ** Specification vocabulary: derivatives of partial functions *)

(** [has_derivative f x d]: near [x] the function [f] is finite, and its
    derivative at [x] is [d]. *)
Definition has_derivative (f : R -> fl) (x d : R) : Prop :=
  exists g : R -> R, locally x (fun y => f y = Some (g y)) /\ is_derive g x d.

(** One-sided versions. *)
Definition has_left_derivative (f : R -> fl) (x d : R) : Prop :=
  exists g : R -> R, (forall y, y <= x -> f y = Some (g y)) /\ is_derive g x d.
Definition has_right_derivative (f : R -> fl) (x d : R) : Prop :=
  exists g : R -> R, (forall y, x <= y -> f y = Some (g y)) /\ is_derive g x d.

(** ** Small facts about the partial operations *)

Lemma fdiv_ok a b : b <> 0 -> fdiv a b = Some (a / b).
Proof. intros H; unfold fdiv; destruct (Req_EM_T b 0); [contradiction|reflexivity]. Qed.

Lemma fpow_pos x y : 0 < x -> fpow x y = Some (Rpower x y).
Proof. intros H; unfold fpow; destruct (Rlt_dec 0 x); [reflexivity|lra]. Qed.

Lemma fpow_zero y : 0 < y -> fpow 0 y = Some 0.
Proof.
  intros H; unfold fpow; destruct (Rlt_dec 0 0); [lra|].
  destruct (Req_EM_T 0 0); [|lra]. destruct (Rlt_dec 0 y); [reflexivity|lra].
Qed.

Lemma fsqrt_ok x : 0 <= x -> fsqrt x = Some (sqrt x).
Proof. intros H; unfold fsqrt; destruct (Rle_dec 0 x); [reflexivity|lra]. Qed.

Lemma locally_gt (a x : R) : a < x -> locally x (fun y => a < y).
Proof.
  intros H. exists (mkposreal (x - a) ltac:(lra)). intros y Hy.
  unfold ball in Hy; simpl in Hy; unfold AbsRing_ball, abs, minus, plus, opp in Hy; simpl in Hy.
  apply Rabs_def2 in Hy. lra.
Qed.

Lemma locally_lt (a x : R) : x < a -> locally x (fun y => y < a).
Proof.
  intros H. exists (mkposreal (a - x) ltac:(lra)). intros y Hy.
  unfold ball in Hy; simpl in Hy; unfold AbsRing_ball, abs, minus, plus, opp in Hy; simpl in Hy.
  apply Rabs_def2 in Hy. lra.
Qed.
