(** Specification of curve assignment: what a history of calls assigns to a
    point, without reference to the container's storage. *)
From Coq Require Import Reals List.
From Verif Require Import CharCurveSet.
Import ListNotations.

Section Spec.
Context {In Out : Type}.
Variable nparams : nat -> nat.

(** The points and parameters most recently given for a curve type. *)
Fixpoint last_set (h : list (@call In Out)) (ty : nat) : option (list nat * list R) :=
  match h with
  | [] => None
  | CSet ty' pts prm :: h =>
      match last_set h ty with
      | Some r => Some r
      | None => if Nat.eqb ty' ty then Some (pts, prm) else None
      end
  | _ :: h => last_set h ty
  end.

(** Point [j] is assigned curve type [ty] with parameters [p]: it is the [i]-th
    point of the latest assignment of that type, and [p] is the [i]-th group of
    parameters passed with it. *)
Definition assigned (h : list (@call In Out)) (ty j : nat) (p : list R) : Prop :=
  exists pts prm i, last_set h ty = Some (pts, prm) /\
    nth_error pts i = Some j /\
    length p = nparams ty /\
    (forall k, k < nparams ty -> nth_error p k = nth_error prm (nparams ty * i + k)).

Definition unassigned (h : list (@call In Out)) (j : nat) : Prop :=
  forall ty p, ty < 2 -> ~ assigned h ty j p.

(** The points of the latest assignment of a type ([] if none). *)
Definition points_of (h : list (@call In Out)) (ty : nat) : list nat :=
  match last_set h ty with Some (pts, _) => pts | None => [] end.

(** No point is listed twice: neither within a type nor in both types. *)
Definition disjoint_assignment (h : list (@call In Out)) : Prop :=
  NoDup (points_of h 0 ++ points_of h 1).

(** Lookups that are certain not to read outside the hash flags: the point is in
    the first map that is asked and cannot answer otherwise. *)
Definition lookup_safe (h : list (@call In Out)) (q : nat) : Prop :=
  List.In q (points_of h 0) \/
  (length (points_of h 0) <= 6 /\ (List.In q (points_of h 1) \/ length (points_of h 1) <= 6)).
End Spec.
