(** C17, C18, C53: call order, mode/discretization pairs, destruction. *)
From Coq Require Import String Bool List.
From Verif Require Import Lifecycle SpecLifecycle LifecycleProofs.
Import ListNotations.
Ltac by_compute := vm_compute; first [reflexivity | discriminate].
Local Open Scope string_scope.

(** A call whose prerequisites are missing returns an error and changes nothing. *)
Theorem C17_refused : forall s c, ~ allowed s c -> exec s c = Err s.
Proof. exact refused. Qed.
Print Assumptions C17_refused.

(** Errors of the remaining kinds leave the configuration alone as well, except
    for the three cases of the refutations below. *)
Theorem C17_errors_change_nothing_partial : forall s c s',
  exec s c = Err s' ->
  match c with
  | CSetDisc _ | CSetDM _ | CQuery _ => True
  | CSetMode _ => disc_set s = false
  | CSetFromOptions o => c_init_file o = false
  | CSetup => s_output_mesh s = false
  end -> s' = s.
Proof. exact err_unchanged. Qed.
Print Assumptions C17_errors_change_nothing_partial.

(** Refused mode changes have already changed the mode; a refused combination of
    initial conditions and a refused mesh output leave changes behind too. *)
Theorem C17_errors_change_nothing_refuted :
  (exists l s s', run_strict new_sim l = Ok s /\ exec s (CSetMode TH) = Err s' /\ s_mode s <> s_mode s') /\
  (exists l o s s', run_strict new_sim l = Ok s /\ exec s (CSetFromOptions o) = Err s' /\ s_init_file s <> s_init_file s') /\
  (exists l s s', run_strict new_sim l = Ok s /\ exec s CSetup = Err s' /\ s_diag s <> s_diag s').
Proof.
  split; [|split].
  - exists [CSetMode RICHARDS; CSetDisc FV_TPF]. eexists _, _. split; [by_compute|]. split; [by_compute|]. by_compute.
  - exists [CSetMode RICHARDS; CSetDisc FV_TPF].
    exists {| c_mode := None; c_disc := None; c_random := Some true; c_init_file := true; c_output_mesh := None; c_pflotran_mesh := false |}.
    eexists _, _. split; [by_compute|]. split; [by_compute|]. by_compute.
  - exists [CSetMode RICHARDS; CSetDisc FV_TPF;
      CSetFromOptions {| c_mode := None; c_disc := None; c_random := None; c_init_file := false; c_output_mesh := Some true; c_pflotran_mesh := false |}].
    eexists _, _. split; [by_compute|]. split; [by_compute|]. by_compute.
Qed.
Print Assumptions C17_errors_change_nothing_refuted.

(** After a successful setup the mode and the discretization can still be changed,
    without an error; the next diagnostics call or setup is then undefined. *)
Theorem C17_frozen_after_setup_refuted :
  exists l s s', run_strict new_sim l = Ok s /\ setup_finished s = true /\
    exec s (CSetDisc MPFA_O) = Ok s' /\ s_disc s' <> s_disc s /\
    exec s' CSetup = Crash /\ exec s' (CQuery true) = Crash.
Proof.
  exists [CSetMode RICHARDS; CSetDisc BDM; CSetFromOptions plain; CSetup].
  eexists _, _. split; [by_compute|]. split; [by_compute|]. split; [by_compute|]. split; [by_compute|]. split; by_compute.
Qed.
Print Assumptions C17_frozen_after_setup_refuted.

(** Reading the options before a discretization is chosen is not refused: it calls
    through a null pointer. *)
Theorem C17_options_first_refuted :
  exec new_sim (CSetFromOptions plain) = Crash /\ run new_sim [CSetMode TH; CSetFromOptions plain] = Crash.
Proof. split; by_compute. Qed.
Print Assumptions C17_options_first_refuted.

(** Programs that choose mode and discretization before reading the options (and
    leave them alone afterwards), and stop at the first error, never reach
    undefined behaviour; everything else may come in any order and number. *)
Theorem C17_no_crash_partial : forall l, disciplined_run new_sim l -> run_strict new_sim l <> Crash.
Proof. exact no_crash. Qed.
Print Assumptions C17_no_crash_partial.

(** An unsupported pair is refused and nothing changes. *)
Theorem C18_unsupported_refused : forall s d, ~ supported (s_mode s) d -> exec s (CSetDisc d) = Err s.
Proof. exact unsupported_refused. Qed.
Print Assumptions C18_unsupported_refused.

(** A supported pair is accepted as soon as a mode is set. *)
Theorem C18_supported_accepted : forall s d, mode_set s = true -> supported (s_mode s) d ->
  exists s', exec s (CSetDisc d) = Ok s' /\ s_mode s' = s_mode s /\ s_disc s' = d /\ ops_belong (s_mode s) d (s_ops s').
Proof.
  intros s d Hm H. destruct (proj1 (assign_supported (s_mode s) d (s_ops s)) H) as (o & E & B).
  simpl. unfold set_discretization. rewrite Hm. simpl. rewrite E. eexists. split; [reflexivity|]. auto.
Qed.
Print Assumptions C18_supported_accepted.

(** In every configuration reached by successful calls that do not override the
    choice on the command line, the pair is supported and the operations are its own. *)
Theorem C18_operations_match_partial : forall l s,
  Forall no_override l -> run_strict new_sim l = Ok s -> disc_set s = true ->
  mode_set s = true /\ supported (s_mode s) (s_disc s) /\ ops_belong (s_mode s) (s_disc s) (s_ops s).
Proof. intros l s Hf H. apply (active_run l new_sim s Hf); [discriminate|exact H]. Qed.
Print Assumptions C18_operations_match_partial.

(** With -tdy_mode TH the options are read without an error although the pair is
    not supported, and the Richards operations stay active; the same happens after
    an error of TDySetMode that the caller ignores. *)
Theorem C18_operations_match_refuted :
  (exists o s, run_strict new_sim [CSetMode RICHARDS; CSetDisc FV_TPF; CSetFromOptions o] = Ok s /\
     disc_set s = true /\ ~ supported (s_mode s) (s_disc s) /\ ~ ops_belong (s_mode s) (s_disc s) (s_ops s)) /\
  (exists s, run new_sim [CSetMode RICHARDS; CSetDisc BDM; CSetMode SALINITY] = Ok s /\ disc_set s = true /\ ~ supported (s_mode s) (s_disc s)).
Proof.
  split.
  - exists {| c_mode := Some TH; c_disc := None; c_random := None; c_init_file := false; c_output_mesh := None; c_pflotran_mesh := false |}.
    eexists. split; [by_compute|]. split; [by_compute|]. split.
    + intros [H|H]; discriminate.
    + intros (_ & _ & _ & H & _). vm_compute in H. discriminate.
  - eexists. split; [by_compute|]. split; [by_compute|]. intros [H|H]; discriminate.
Qed.
Print Assumptions C18_operations_match_refuted.

(** The number of fields is the previous pair's in TH mode (none at all when there
    was no previous pair, which then crashes on a PFLOTRAN mesh), and BDM's for WY. *)
Theorem C18_number_of_fields_refuted :
  (exists s, run_strict new_sim [CSetMode SALINITY; CSetDisc MPFA_O; CSetMode TH] = Ok s /\
     o_get_num_dm_fields (s_ops s) = Some "TDyGetNumDMFields_Salinity_MPFAO") /\
  run new_sim [CSetMode TH; CSetDisc MPFA_O;
    CSetFromOptions {| c_mode := None; c_disc := None; c_random := None; c_init_file := false; c_output_mesh := None; c_pflotran_mesh := true |}] = Crash /\
  (exists s, run_strict new_sim [CSetMode RICHARDS; CSetDisc WY] = Ok s /\ o_get_num_dm_fields (s_ops s) = Some "TDyGetNumDMFields_BDM").
Proof. split; [eexists; split; by_compute|]. split; [by_compute|]. eexists; split; by_compute. Qed.
Print Assumptions C18_number_of_fields_refuted.

(** A simulator of a disciplined program can be destroyed before a discretization
    is chosen and at any point after the options were read. *)
Theorem C53_destroy_partial : forall l s, disciplined_run new_sim l -> run_strict new_sim l = Ok s ->
  (options_set s = true \/ disc_set s = false) -> destroy s = Some tt.
Proof. exact destroy_safe. Qed.
Print Assumptions C53_destroy_partial.

(** Between choosing the discretization and reading the options, and after a late
    change of the discretization, destruction is undefined. *)
Theorem C53_destroy_refuted :
  (exists s, run_strict new_sim [CSetMode RICHARDS; CSetDisc MPFA_O] = Ok s /\ destroy s = None) /\
  (exists s, run_strict new_sim [CSetMode RICHARDS; CSetDisc MPFA_O; CSetFromOptions plain; CSetup; CSetDisc WY] = Ok s /\ destroy s = None).
Proof. split; eexists; split; by_compute. Qed.
Print Assumptions C53_destroy_refuted.

(** Non-trivial instances: a full life, with options read twice, is disciplined and
    ends in a finished setup; the second reading discards the first objects. *)
Example C17_example_life :
  let l := [CSetMode SALINITY; CSetMode TH; CSetDisc MPFA_O; CSetDM 3; CSetFromOptions plain; CSetFromOptions plain; CSetup; CQuery true] in
  disciplined_run new_sim l /\ exists s, run_strict new_sim l = Ok s /\ setup_finished s = true /\ s_mode s = TH /\ s_objects s = 2.
Proof.
  cbv zeta. split.
  - repeat (eapply dr_ok; [vm_compute; auto|by_compute|]). apply dr_nil.
  - eexists. split; [by_compute|]. auto.
Qed.
Example C17_example_refused : ~ allowed new_sim CSetup /\ exec new_sim CSetup = Err new_sim /\ allowed new_sim (CSetMode TH).
Proof. split; [intros [H _]; discriminate|]. split; [reflexivity|exact I]. Qed.
Example C18_example : supported TH MPFA_O /\ ~ supported TH BDM /\ ops_belong RICHARDS WY (value (assign_ops RICHARDS WY no_ops) no_ops).
Proof. split; [now right|]. split; [intros [H|H]; discriminate|repeat split]. Qed.
