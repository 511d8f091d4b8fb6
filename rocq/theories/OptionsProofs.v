From Coq Require Import Reals Bool List String Lra.
From Verif Require Import Prelude Slots SpecSlots SlotsProofs Options SpecOptions.
Import ListNotations.
Local Open Scope string_scope.

Lemma options_proof : forall db q o, q <> QThermalConductivity ->
  (q = QPorosity -> real_option db "-tdy_thermal_conductivity" = None) ->
  value q (ReadCommandLineOptions db o) = expected db q (value q o).
Proof.
  intros db q o H1 H2. destruct q; try reflexivity; [|contradiction].
  specialize (H2 eq_refl). unfold expected, ReadCommandLineOptions, OptionsReal, value, overridden, option_of. simpl.
  rewrite H2. reflexivity.
Qed.

Lemma thermal_conductivity_ignored_proof : forall db o,
  thermal_conductivity (ReadCommandLineOptions db o) = thermal_conductivity o
  /\ forall v, real_option db "-tdy_thermal_conductivity" = Some v -> porosity (ReadCommandLineOptions db o) = v.
Proof.
  intros db o. split; [reflexivity|]. intros v H. unfold ReadCommandLineOptions, OptionsReal. simpl. rewrite H. reflexivity.
Qed.

(** Adding one option changes no other quantity. *)
Lemma one_option_proof : forall db o name v q, name <> "-tdy_thermal_conductivity" -> option_of q <> Some name ->
  value q (ReadCommandLineOptions (with_option db name v) o) = value q (ReadCommandLineOptions db o).
Proof.
  intros db o name v q Hn Hq.
  assert (E : forall n, n <> name -> real_option (with_option db name v) n = real_option db n).
  { intros n H. unfold with_option. cbn [real_option]. destruct (String.eqb_spec n name); [contradiction|reflexivity]. }
  assert (S : string_option (with_option db name v) = string_option db) by reflexivity.
  destruct q; try reflexivity; unfold ReadCommandLineOptions, OptionsReal, value;
  cbn [gravity_constant porosity permeability soil_density soil_specific_heat thermal_conductivity residual_saturation
       gardner_n vangenuchten_m vangenuchten_alpha boundary_pressure boundary_velocity boundary_temperature];
  rewrite ?S;
  repeat rewrite E by (intro Eq; (apply Hq; rewrite <- Eq; reflexivity) || (apply Hn; symmetry; exact Eq)); reflexivity.
Qed.

(** Driver defaults. *)
Lemma get_default : forall s k v k', get (default_if_absent s k v) k' =
  if has s k then get s k'
  else if kind_eqb k k' then {| s_context := Some (Own (serial s) (PValue v)); s_fn := Some FConstant; s_dtor := Some DFree |}
  else get s k'.
Proof.
  intros s k v k'. unfold default_if_absent. destruct (has s k); [reflexivity|].
  change (set_constant s k v) with (apply s (OConstant k v)). rewrite get_apply. reflexivity.
Qed.

Lemma has_default : forall s k v k', has (default_if_absent s k v) k' = has s k' || kind_eqb k k'.
Proof.
  intros s k v k'. unfold has at 1. rewrite get_default. destruct (has s k) eqn:H.
  - fold (has s k'). destruct (kind_eqb k k') eqn:E; [|rewrite orb_false_r; reflexivity].
    apply kind_eqb_eq in E. subst k'. rewrite H. reflexivity.
  - destruct (kind_eqb k k') eqn:E; [rewrite orb_true_r; reflexivity|rewrite orb_false_r; reflexivity].
Qed.


Lemma kept_default : forall s k v k', has s k' = true -> get (default_if_absent s k v) k' = get s k'.
Proof.
  intros s k v k' H. rewrite get_default. destruct (has s k) eqn:Hk; [reflexivity|].
  destruct (kind_eqb k k') eqn:E; [|reflexivity]. apply kind_eqb_eq in E. subst k'. congruence.
Qed.

Lemma get_set_constant : forall s k v k', get (set_constant s k v) k' =
  if kind_eqb k k' then {| s_context := Some (Own (serial s) (PValue v)); s_fn := Some FConstant; s_dtor := Some DFree |}
  else get s k'.
Proof. intros s k v k'. change (set_constant s k v) with (apply s (OConstant k v)). rewrite get_apply. reflexivity. Qed.

Lemma driver_keeps_proof : forall m o s k, has s k = true -> k <> SalineMolecularWeight ->
  get (driver_defaults m o s) k = get s k.
Proof.
  intros m o s k H Hk. unfold driver_defaults.
  assert (Q : forall s k' v, has s k = true -> has (default_if_absent s k' v) k = true).
  { intros s' k' v H'. rewrite has_default, H'. reflexivity. }
  destruct m; rewrite ?kept_default; auto 10; rewrite ?get_set_constant.
  - destruct (kind_eqb SalineMolecularWeight k) eqn:E; [apply kind_eqb_eq in E; congruence|].
    rewrite !kept_default by auto. reflexivity.
  - unfold has. rewrite get_set_constant. destruct (kind_eqb SalineMolecularWeight k) eqn:E; [reflexivity|].
    rewrite !kept_default by auto. exact H.
Qed.


Lemma has_set_constant : forall s k v k', has (set_constant s k v) k' = has s k' || kind_eqb k k'.
Proof.
  intros s k v k'. unfold has at 1. rewrite get_set_constant.
  destruct (kind_eqb k k'); [rewrite orb_true_r; reflexivity|rewrite orb_false_r; reflexivity].
Qed.

Lemma driver_sets_proof : forall m o s k, has s k = false -> In k (needed m) ->
  constant_payload (get (driver_defaults m o s) k) = default_of k o.
Proof.
  intros m o s k H Hk. unfold driver_defaults, constant_payload.
  destruct m; simpl in Hk;
  repeat (destruct Hk as [<-|Hk]; [
    repeat (rewrite get_default || rewrite get_set_constant || rewrite has_default || rewrite has_set_constant); rewrite ?H; simpl;
    repeat match goal with |- context [has s ?k || ?b] => destruct (has s k); simpl end;
    repeat match goal with |- context [if has s ?k then _ else _] => destruct (has s k); simpl end; rewrite ?H; reflexivity
  |]); destruct Hk.
Qed.

Lemma boundary_constants_proof : forall db o k q, In (k, q)
    [(BoundaryPressure, QBoundaryPressure); (BoundaryVelocity, QBoundaryVelocity); (BoundaryTemperature, QBoundaryTemperature)] ->
  forall name v, option_of q = Some name -> overridden db q = false ->
  real_option db name = Some v ->
  constant_payload (get (constant_conditions db o new_store) k) = Some v.
Proof.
  intros db o k q Hi name v Hn Ho Hr.
  destruct Hi as [E|[E|[E|[]]]]; injection E as <- <-; injection Hn as <-; unfold overridden in Ho; cbn beta iota in Ho;
  unfold constant_conditions, ReadCommandLineOptions, OptionsReal;
  cbn [boundary_pressure boundary_velocity boundary_temperature]; rewrite Ho, Hr;
  repeat match goal with |- context [string_option db ?x] => destruct (string_option db x) end;
  repeat match goal with |- context [real_option db ?x] => destruct (real_option db x) end;
  reflexivity.
Qed.
