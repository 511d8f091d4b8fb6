(** Properties of condition and material-property slots. *)
From Coq Require Import Reals Bool List Arith Lra.
From Verif Require Import Prelude Slots SpecSlots SlotsProofs.
Import ListNotations.

(** C21: contexts handed over with a destructor are destroyed once each, in
    order, by the end of the simulator's life. *)
Theorem C21_destroyed_exactly_once : forall l k, k <> SalinitySource -> k <> BoundaryPressureType ->
  destroyed_for k (destroyed (destroy (run new_store l))) = handed_over k 0 l.
Proof. exact destroyed_once_proof. Qed.

(** Before that, exactly those that have been replaced. *)
Theorem C21_replaced_are_destroyed : forall l k,
  destroyed_for k (destroyed (run new_store l)) ++ installed (get (run new_store l) k) = handed_over k 0 l.
Proof. exact replaced_once_proof. Qed.

(** No destructor is ever called on anything else: in particular never on a
    context handed over without one. *)
Theorem C21_nothing_else_destroyed : forall l k c d, In (k, c, d) (destroyed (destroy (run new_store l))) ->
  In (c, d) (handed_over k 0 l).
Proof. exact no_dtor_proof. Qed.

(** Contexts the library allocates itself (constants and plain functions) are
    different allocations, so "in order, once each" means never twice. *)
Theorem C21_own_contexts_never_twice : forall k l,
  (forall o, In o l -> match o with OSet _ (Some (Own _ _)) _ _ => False | _ => True end) ->
  (forall o, In o l -> match o with OSet _ _ _ (Some _) => False | _ => True end) ->
  NoDup (handed_over k 0 l).
Proof. exact own_once_proof. Qed.

(** The salinity source and the boundary pressure type are forgotten by
    ConditionsDestroy: whatever is installed last is never destroyed. *)
Theorem C21_forgotten_kinds : forall l k, k = SalinitySource \/ k = BoundaryPressureType ->
  destroyed_for k (destroyed (destroy (run new_store l))) ++ installed (get (run new_store l) k) = handed_over k 0 l.
Proof. exact forgotten_proof. Qed.

(** The context of the boundary pressure type is never destroyed. *)
Theorem C21_every_kind_destroyed_refuted : exists l k,
  handed_over k 0 l = [(Own 0 (PFunction 7), DFree)] /\ destroyed (destroy (run new_store l)) = [].
Proof. exists [OFunction BoundaryPressureType 7], BoundaryPressureType. split; reflexivity. Qed.

(** Setting a slot again with the context it already holds destroys the context
    and keeps it installed; it is destroyed a second time at the end. *)
Theorem C21_same_context_set_again_refuted : exists l, handed_over Porosity 0 l = [(User 1, DUser 0); (User 1, DUser 0)]
  /\ destroyed (run new_store l) = [(Porosity, User 1, DUser 0)]
  /\ s_context (get (run new_store l) Porosity) = Some (User 1)
  /\ destroyed (destroy (run new_store l)) = [(Porosity, User 1, DUser 0); (Porosity, User 1, DUser 0)].
Proof.
  exists [OSet Porosity (Some (User 1)) (Some (FUser 3)) (Some (DUser 0));
          OSet Porosity (Some (User 1)) (Some (FUser 4)) (Some (DUser 0))].
  repeat split; reflexivity.
Qed.

Example C21_example :
  let l := [OConstant BoundaryPressure 1%R; OSet Permeability (Some (User 5)) (Some (FUser 0)) None;
            OFunction Forcing 3; OSet BoundaryPressure (Some (User 6)) (Some (FUser 1)) (Some (DUser 2));
            OConstant Permeability 2%R] in
  destroyed (run new_store l) = [(BoundaryPressure, Own 0 (PValue 1), DFree)]
  /\ destroyed (destroy (run new_store l)) =
     [(BoundaryPressure, Own 0 (PValue 1), DFree); (Forcing, Own 1 (PFunction 3), DFree);
      (BoundaryPressure, User 6, DUser 2); (Permeability, Own 2 (PValue 2), DFree)].
Proof. split; reflexivity. Qed.

(** C22 *)
Theorem C22_last_function_and_context : forall (X : Type) (w : @world X) l k n c f d xs old,
  last_op k 0 None l = Some (n, OSet k c (Some (FUser f)) d) -> length (user_fn w f c xs) = length old ->
  evaluate w (run new_store l) k xs old = Ok (user_fn w f c xs).
Proof. exact last_user_proof. Qed.

Theorem C22_last_constant : forall (X : Type) (w : @world X) l k n v xs old,
  last_op k 0 None l = Some (n, OConstant k v) -> length xs = length old ->
  evaluate w (run new_store l) k xs old = Ok (repeat v (length xs)).
Proof. exact last_constant_proof. Qed.

Theorem C22_last_spatial_function : forall (X : Type) (w : @world X) l k n f xs old,
  last_op k 0 None l = Some (n, OFunction k f) -> length (spatial w f xs) = length old ->
  evaluate w (run new_store l) k xs old = Ok (spatial w f xs).
Proof. exact last_function_proof. Qed.

Theorem C22_absent_when_never_set : forall (X : Type) (w : @world X) l k xs old,
  (forall o, In o l -> op_kind o <> k) ->
  has (run new_store l) k = false
  /\ evaluate w (run new_store l) k xs old = if is_condition k then UB else Ok old.
Proof. exact never_set_proof. Qed.

Theorem C22_reported_present : forall l k,
  has (run new_store l) k = match last_op k 0 None l with
                            | Some (_, OSet _ _ f _) => match f with Some _ => true | None => false end
                            | Some _ => true
                            | None => false end.
Proof. exact has_proof. Qed.

Theorem C22_kinds_independent : forall (X : Type) (w : @world X) l o k xs old, op_kind o <> k ->
  has (run new_store (l ++ [o])) k = has (run new_store l) k
  /\ evaluate w (run new_store (l ++ [o])) k xs old = evaluate w (run new_store l) k xs old.
Proof. exact independent_proof. Qed.

(** A constant boundary velocity has three components per point; only the first
    entry of the caller's vector is written. *)
Theorem C22_constant_velocity_refuted : exists (w : @world nat) v,
  evaluate w (run new_store [OConstant BoundaryVelocity v]) BoundaryVelocity [0%nat] [1; 2; 3]%R = Ok [v; 2; 3]%R
  /\ Ok [v; 2; 3]%R <> Ok [v; v; v].
Proof.
  exists {| user_fn := fun _ _ _ => []; spatial := fun _ _ => [] |}, 0%R. split; [reflexivity|].
  intro H. injection H as H. lra.
Qed.

Example C22_example : forall w : @world nat,
  evaluate w (run new_store [OConstant Porosity 1%R; OConstant BoundaryPressure 2%R; OConstant Porosity 3%R]) Porosity [4; 5]%nat [0; 0]%R
  = Ok [3; 3]%R.
Proof. reflexivity. Qed.

Print Assumptions C21_destroyed_exactly_once.
Print Assumptions C21_replaced_are_destroyed.
Print Assumptions C21_nothing_else_destroyed.
Print Assumptions C21_own_contexts_never_twice.
Print Assumptions C21_forgotten_kinds.
Print Assumptions C21_every_kind_destroyed_refuted.
Print Assumptions C21_same_context_set_again_refuted.
Print Assumptions C22_last_function_and_context.
Print Assumptions C22_last_constant.
Print Assumptions C22_last_spatial_function.
Print Assumptions C22_absent_when_never_set.
Print Assumptions C22_reported_present.
Print Assumptions C22_kinds_independent.
Print Assumptions C22_constant_velocity_refuted.
