(** C103: functions handed over from Fortran. *)
From Coq Require Import Reals List Bool Arith String Lia.
From Verif Require Import Prelude Arrays F90 SpecF90 F90Proofs.
Import ListNotations.
Local Open Scope nat_scope.

(** As long as all functions for properties and conditions are handed over before all functions for the type of the boundary condition, or the other way round, and each kind has at most 31 functions, every property is evaluated with the function last set for it, and so is the type.  Missing: mixed histories, more functions, selection by name. *)
Theorem C103_functions_partial : forall junk a b,
  (Forall spatial a /\ Forall typed b) \/ (Forall typed a /\ Forall spatial b) ->
  at_most 31 (functions a) -> at_most 31 (functions b) ->
  exists s, run junk (a ++ b) start = Ok s /\
    (forall p, called s p = answer (chosen p (a ++ b))) /\ called_type s = answer (chosen_type (a ++ b)).
Proof. exact functions_partial. Qed.
Print Assumptions C103_functions_partial.

(** Both kinds of functions share the counter of the last number, and the first function for the type sets it back to 1: with functions for the porosity, the boundary pressure, its type and then the residual saturation, the boundary pressure is computed with the function for the residual saturation. *)
Theorem C103_functions_refuted :
  ~ (forall junk cs s, run junk cs start = Ok s -> forall p, called s p = answer (chosen p cs)).
Proof. exact functions_refuted. Qed.
Print Assumptions C103_functions_refuted.

(** With the 32nd different function the search reads behind the end of the registry of 32 entries (it is enlarged only later), for any functions. *)
Theorem C103_many_refuted : forall junk p fs, NoDup fs -> 32 <= List.length fs -> run junk (map (CSet p) fs) start = UB.
Proof. exact many. Qed.
Print Assumptions C103_many_refuted.

(** A function is found by a name of at least 32 characters if it is the only function whose last name is this one (up to 32 characters) and memory that was never set does not happen to hold it.  Missing: shorter names, several names. *)
Theorem C103_names_partial : forall junk cs p name f,
  Forall spatial cs -> at_most 31 (functions cs) -> 32 <= String.length name ->
  (forall i, i < 32 -> junk i <> pad name) ->
  (exists n, name_of f cs = Some n /\ pad n = pad name) ->
  (forall g n, g <> f -> name_of g cs = Some n -> pad n <> pad name) ->
  exists s, run junk (cs ++ [CSelect p name]) start = Ok s /\ called s p = Ok f /\
    (forall q, q <> p -> called s q = answer (chosen q cs)).
Proof. exact names_partial. Qed.
Print Assumptions C103_names_partial.

(** The selection by a name of fewer than 32 characters always reads behind the end of the name, after any history. *)
Theorem C103_short_names_refuted : forall junk cs s p name, run junk cs start = Ok s -> String.length name < 32 ->
  exec junk (CSelect p name) s = UB.
Proof. exact short_name. Qed.
Print Assumptions C103_short_names_refuted.

(** A function registered under two names is not found by the first one: the selection uses a null pointer. *)
Theorem C103_two_names_refuted :
  ~ (forall junk cs p name f, Forall spatial cs -> at_most 31 (functions cs) -> 32 <= String.length name ->
      named name cs = Some f -> exists s, run junk (cs ++ [CSelect p name]) start = Ok s).
Proof. exact names_refuted. Qed.
Print Assumptions C103_two_names_refuted.

(** A name given to one function and then to another one that was registered before may still mean the first. *)
Theorem C103_name_again_refuted :
  ~ (forall junk cs p name f s, Forall spatial cs -> 32 <= String.length name ->
      named name cs = Some f -> run junk (cs ++ [CSelect p name]) start = Ok s -> called s p = Ok f).
Proof. exact again_refuted. Qed.
Print Assumptions C103_name_again_refuted.

(** A function that does not look at the coordinates gives its value at all n points. *)
Theorem C103_points_partial : forall c n x f, List.length x = 3 * n -> List.length f = n ->
  CallF90 (demo_porosity c) n x f = Ok (repeat c n).
Proof. exact porosity_ok. Qed.
Print Assumptions C103_points_partial.

(** The array of the 3n coordinates is passed with n elements: the boundary pressure of the demonstration, which reads x(3i+1), x(3i+2) and x(3i+3), reads outside of it for every number of points. *)
Theorem C103_points_refuted : forall top n x f, 1 <= n -> List.length x = 3 * n -> List.length f = n ->
  CallF90 (demo_pressure top) n x f = UB.
Proof. exact pressure_UB. Qed.
Print Assumptions C103_points_refuted.

(** The mesh of a simulator is made by the Fortran constructor set last, if all calls are for this simulator, unless it has a C constructor. *)
Theorem C103_mesh_partial : forall t fs s f,
  mesh_of (fold_left (fun s c => set_ctor c s) (map (SetF t) (fs ++ [f])) s) t =
  match c_ctor s t with Some g => FromC g | None => FromFortran f end.
Proof. exact ctor_last. Qed.
Print Assumptions C103_mesh_partial.

(** A C constructor makes the mesh of exactly the simulator it was last set for, whatever constructors are set for others; a simulator without one gets no mesh from a C constructor, and one from the options if no Fortran constructor was set at all. *)
Theorem C103_c_constructors : forall cs t,
  let s := fold_left (fun s c => set_ctor c s) cs no_ctors in
  (forall before f after, cs = before ++ SetC t f :: after -> (forall g, ~ In (SetC t g) after) -> mesh_of s t = FromC f) /\
  ((forall g, ~ In (SetC t g) cs) -> (forall f, mesh_of s t <> FromC f) /\
   ((forall u g, ~ In (SetF u g) cs) -> mesh_of s t = FromOptions)).
Proof.
  assert (K : forall cs t s, (forall g, ~ In (SetC t g) cs) -> c_ctor (fold_left (fun s c => set_ctor c s) cs s) t = c_ctor s t).
  { induction cs as [|c cs IH]; intros t s H; [reflexivity|]. cbn [fold_left].
    rewrite IH by (intros g Hg; apply (H g); right; exact Hg).
    destruct c as [u f|u f]; cbn [set_ctor c_ctor]; [|reflexivity].
    destruct (t =? u) eqn:E; [|reflexivity]. apply Nat.eqb_eq in E. subst u. exfalso. apply (H f). left. reflexivity. }
  assert (F : forall cs s, (forall u g, ~ In (SetF u g) cs) -> f_ctor (fold_left (fun s c => set_ctor c s) cs s) = f_ctor s).
  { induction cs as [|c cs IH]; intros s H; [reflexivity|]. cbn [fold_left].
    rewrite IH by (intros u g Hg; apply (H u g); right; exact Hg).
    destruct c as [u f|u f]; [reflexivity|]. exfalso. apply (H u f). left. reflexivity. }
  intros cs t s. split.
  - intros before f after E H. subst cs. unfold s, mesh_of. rewrite fold_left_app. cbn [fold_left].
    rewrite K by exact H. cbn [set_ctor c_ctor]. rewrite Nat.eqb_refl. reflexivity.
  - intro H. unfold s, mesh_of. rewrite K by exact H. cbn [no_ctors c_ctor]. split.
    + intros f. destruct (f_ctor _); discriminate.
    + intro G. rewrite F by exact G. reflexivity.
Qed.
Print Assumptions C103_c_constructors.

(** The Fortran constructor belongs to no simulator: one set for simulator 1 makes the mesh of simulator 0. *)
Theorem C103_mesh_refuted : ~ (forall cs t f, (forall g, ~ In (SetF t g) cs) -> (forall g, ~ In (SetC t g) cs) ->
  mesh_of (fold_left (fun s c => set_ctor c s) cs no_ctors) t <> FromFortran f).
Proof. exact ctor_refuted. Qed.
Print Assumptions C103_mesh_refuted.

(** The calls of demo/transient/fv_tpff90.F90:316-319 (two functions, then the type) are of the first kind; a function set again for another property gets the same number. *)
Example C103_example :
  exists s, run (fun _ => ""%string) [CSet 0 10; CSet 1 11; CSet 2 10; CSetType 12] start = Ok s /\
    called s 0 = Ok 10 /\ called s 1 = Ok 11 /\ called s 2 = Ok 10 /\ called s 3 = Err /\ called_type s = Ok 12 /\ slots s 2 = Some 1.
Proof. eexists. repeat split. Qed.
