(** Specification vocabulary for the characteristic curves: which parameters
    are physically admissible (they describe the documented models, see the
    comments at src/materials/tdycharacteristiccurves.c:430-440, 454-466,
    617-640, 664-690). *)
From Coq Require Import Reals.
From Verif Require Import Prelude CharCurves.
Local Open Scope R_scope.

Definition admissible_sat (c : sat_curve) : Prop :=
  match c with
  | Gardner n m alpha => 0 < m /\ 0 < alpha
  | VanGenuchten m alpha => 0 < m < 1 /\ 0 < alpha
  end.

Definition admissible_kr (c : rel_perm_curve) : Prop :=
  match c with
  | Irmay m => 0 < m
  | Mualem_unsmoothed m => 0 < m
  end.
