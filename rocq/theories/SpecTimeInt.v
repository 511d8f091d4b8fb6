(** Specification vocabulary for runs of the time integrator: functions of the
    event log of one run (newest event first). *)
From Coq Require Import Reals List ZArith.
From Verif Require Import Prelude TimeInt.
Import ListNotations.
Local Open Scope R_scope.

Section Spec.
Context {Sol Acc : Type}.
Notation event := (@event Sol Acc).

(** Sizes of the steps the solver accepted. *)
Fixpoint accepted (l : list event) : list R :=
  match l with
  | [] => []
  | Solve _ d _ _ _ (Some _) :: l => d :: accepted l
  | _ :: l => accepted l
  end.

(** The solutions the solver accepted, newest first. *)
Fixpoint solutions (l : list event) : list Sol :=
  match l with
  | [] => []
  | Solve _ _ _ _ _ (Some u) :: l => u :: solutions l
  | _ :: l => solutions l
  end.

(** Accepted solutions with their step numbers, when the run starts at step [a]. *)
Fixpoint numbered (a : Z) (us : list Sol) : list (Z * Sol) :=
  match us with
  | [] => []
  | u :: us => ((a + Z.of_nat (S (length us)))%Z, u) :: numbered a us
  end.

(** Number of solves that did not converge. *)
Fixpoint failures (l : list event) : nat :=
  match l with
  | [] => O
  | Solve _ _ _ _ _ None :: l => S (failures l)
  | _ :: l => failures l
  end.

(** Number of calls of the solver. *)
Fixpoint solves (l : list event) : nat :=
  match l with
  | [] => O
  | Solve _ _ _ _ _ _ :: l => S (solves l)
  | _ :: l => solves l
  end.

Fixpoint total (l : list R) : R := match l with [] => 0 | x :: l => x + total l end.

(** Step numbers written as output / as checkpoint, newest first. *)
Fixpoint outputs (l : list event) : list Z :=
  match l with
  | [] => []
  | Output k :: l => k :: outputs l
  | _ :: l => outputs l
  end.
Fixpoint checkpoints (l : list event) : list (Z * Sol) :=
  match l with
  | [] => []
  | Checkpoint k u :: l => (k, u) :: checkpoints l
  | _ :: l => checkpoints l
  end.

(** The multiples of [k] among the [n] step numbers after [a], largest first. *)
Fixpoint multiples (k a : Z) (n : nat) : list Z :=
  match n with
  | O => []
  | S m => let i := (a + Z.of_nat (S m))%Z in
           if Z.eqb (i mod k) 0 then i :: multiples k a m else multiples k a m
  end.

(** A failed attempt that would have reached the target. *)
Definition failed_at_target (sync : R) (e : event) : Prop :=
  match e with Solve t d _ _ _ None => t + d = sync | _ => False end.

(** Every call of the solver satisfies [P start size guess previous reference]. *)
Definition all_solves (P : R -> R -> Sol -> Sol -> Acc -> Prop) (l : list event) : Prop :=
  forall t d g p a ok, In (Solve t d g p a ok) l -> P t d g p a.

(** Calls of the solver, newest first: clock at the start, step size, converged? *)
Fixpoint attempts (l : list event) : list (R * R * bool) :=
  match l with
  | [] => []
  | Solve t d _ _ _ o :: l => (t, d, match o with Some _ => true | None => false end) :: attempts l
  | _ :: l => attempts l
  end.

(** The step-size law: the first attempt of a run takes the current step size, an
    attempt after a failed one a quarter of the failed size at the same clock, an
    attempt after an accepted one starts where the accepted one ended and takes the
    grown size; first and grown sizes are cut at the target and grown ones at the
    maximum. *)
Fixpoint size_law (dtmax growth sync t0 dt0 : R) (l : list (R * R * bool)) : Prop :=
  match l with
  | [] => True
  | (t, d, _) :: l' =>
      match l' with
      | [] => t = t0 /\ d = Rmin dt0 (sync - t)
      | (t', d', false) :: _ => t = t' /\ d = d' / 4
      | (t', d', true) :: _ => t = t' + d' /\ d = Rmin (Rmin (d' * growth) dtmax) (sync - t)
      end /\ size_law dtmax growth sync t0 dt0 l'
  end.

(** Every call of the solver, retry or not, starts from the last accepted solution
    ([u0] if none yet) and with the stored mass of that solution for its own step
    size. *)
Fixpoint clean_starts (stored : Sol -> R -> Acc) (u0 : Sol) (l : list event) : Prop :=
  match l with
  | [] => True
  | e :: l' =>
      match e with
      | Solve _ d guess prev acc _ =>
          let last := hd u0 (solutions l') in guess = last /\ prev = last /\ acc = stored last d
      | _ => True
      end /\ clean_starts stored u0 l'
  end.

End Spec.
