(** C19, C20, C50, C54: shutdown functions, function registry, timers, metadata. *)
From Coq Require Import String Bool List Arith.
From Verif Require Import Prelude Registry SpecRegistry RegistryProofs.
Import ListNotations.
Local Open Scope string_scope.

(** The first cycle of a process: finalizing runs every registered function exactly
    once, most recent first, for any number of registrations. *)
Theorem C19_reverse_order_partial : forall l q h,
  no_finalize l -> starts_properly l -> ~ asks_timing l -> run fresh l = Ok (q, h) ->
  exists q', exec q CFinalize = Ok (q', Done) /\ ran q' = rev (registered false false l) /\
             users (ran q') = rev (user_registered l).
Proof. exact C19_reverse_order_partial_proof. Qed.
Print Assumptions C19_reverse_order_partial.

(** The same with profiling switched on, once a simulator has been set up. *)
Theorem C19_reverse_order_timing_partial : forall l q h,
  no_finalize l -> has_metadata l -> run fresh (CInit true :: l) = Ok (q, h) ->
  exists q', exec q CFinalize = Ok (q', Done) /\ ran q' = rev (registered false false (CInit true :: l)) /\
             users (ran q') = rev (user_registered l).
Proof. exact C19_reverse_order_timing_partial_proof. Qed.
Print Assumptions C19_reverse_order_timing_partial.

(** After an initialization no sequence of calls of the first cycle is undefined:
    the array of shutdown functions never overflows. *)
Theorem C19_never_overflows : forall b l, no_finalize l -> exists q h, run fresh (CInit b :: l) = Ok (q, h).
Proof. intros b l H. exact (no_ub l b H). Qed.
Print Assumptions C19_never_overflows.

(** A second cycle is undefined: the tables and the array were freed but are still
    pointed to. So is finalizing twice, and finalizing with profiling switched on
    but no simulator set up. *)
Theorem C19_every_cycle_refuted :
  run fresh [CInit false; CFinalize; CInit false] = UB /\
  run fresh [COnFinalize 1; CFinalize; COnFinalize 2] = UB /\
  run fresh [CInit false; CFinalize; CFinalize] = UB /\
  run fresh [CInit true; COnFinalize 1; CFinalize] = UB.
Proof. repeat split. Qed.
Print Assumptions C19_every_cycle_refuted.

(** Lookup returns the function most recently registered under the name, and an
    error (None) when there is none. *)
Theorem C20_lookup : forall l q h name,
  no_finalize l -> starts_properly l -> run fresh l = Ok (q, h) ->
  exec q (CGetFunction name) = Ok (q, Function (last_registered None l name)).
Proof. intros l q h name Hno Hs Hr. exact (registry_lookup l q h name Hno (proper_usable l Hs) Hr). Qed.
Print Assumptions C20_lookup.

(** After finalization lookups read a freed table. *)
Theorem C20_after_finalize_refuted : run fresh [CRegister "f" 1; CFinalize; CGetFunction "f"] = UB.
Proof. reflexivity. Qed.
Print Assumptions C20_after_finalize_refuted.

(** All answers given for timers during a cycle: equal exactly for equal names;
    PETSc events are registered once per distinct name. *)
Theorem C50_timers : forall l q h,
  no_finalize l -> run fresh l = Ok (q, h) ->
  (forall n n' t t', In (CTimer n, Timer t) h -> In (CTimer n', Timer t') h -> (n = n' <-> t = t')) /\
  exists names, NoDup names /\ (forall n, In n names <-> In n (timer_names l)) /\ events q = List.length names.
Proof. exact C50_timers_proof. Qed.
Print Assumptions C50_timers.

(** Stages, the three of the library included. *)
Theorem C50_stages : forall l q h,
  no_finalize l -> run fresh l = Ok (q, h) ->
  (forall n n' t t', In (CEnterStage n, Stage (Some t)) h -> In (CEnterStage n', Stage (Some t')) h -> (n = n' <-> t = t')) /\
  (initialized q = true ->
   exists names, NoDup names /\ (forall n, In n names <-> In n library_stages \/ In n (stage_names l)) /\ nstages q = List.length names).
Proof. exact C50_stages_proof. Qed.
Print Assumptions C50_stages.

(** The profile of a process with one simulator, set up once, carries that
    simulator's metadata. *)
Theorem C54_footer_partial : forall l1 l2 q h t md,
  no_finalize (l1 ++ l2)%list -> (forall t' m', ~ In (CMetadata t' m') (l1 ++ l2)%list) ->
  run fresh (CInit true :: (l1 ++ CMetadata t md :: l2)%list) = Ok (q, h) ->
  metadata q = Live [(t, md)].
Proof. exact C54_footer_partial_proof. Qed.
Print Assumptions C54_footer_partial.

(** Setting a simulator up again (for instance after changing its mode) keeps the
    metadata of the first setup. *)
Theorem C54_footer_refuted :
  exists q h, run fresh [CInit true; CMetadata 7 1; CMetadata 7 2; CFinalize] = Ok (q, h) /\ footer q = [1].
Proof. eexists _, _. split; vm_compute; reflexivity. Qed.
Print Assumptions C54_footer_refuted.

(** Instances: forty functions (the array grows past 32) are run in reverse order;
    overriding a name; timers. *)
Example C19_example :
  exists q h, run fresh (CInit false :: map COnFinalize (seq 0 40) ++ [CFinalize])%list = Ok (q, h) /\ users (ran q) = rev (seq 0 40).
Proof. eexists _, _. split; vm_compute; reflexivity. Qed.
Example C20_example :
  exists q h, run fresh [CRegister "p0" 1; CRegister "q" 5; CRegister "p0" 2; CGetFunction "p0"; CGetFunction "r"] = Ok (q, h) /\
    map snd h = [Done; Done; Done; Function (Some 2); Function None].
Proof. eexists _, _. split; vm_compute; reflexivity. Qed.
Example C50_example :
  exists q h, run fresh [CInit false; CTimer "a"; CTimer "b"; CTimer "a"; CEnterStage "x"; CAddStage "x"; CEnterStage "x"] = Ok (q, h) /\
    map snd h = [Done; Timer 0; Timer 1; Timer 0; Stage None; Done; Stage (Some 3)] /\ events q = 2.
Proof. eexists _, _. split; [vm_compute; reflexivity|]. split; vm_compute; reflexivity. Qed.
Example C54_example :
  exists q h, run fresh [CInit true; CMetadata 7 1; CTimer "a"; CFinalize] = Ok (q, h) /\ footer q = [1].
Proof. eexists _, _. split; vm_compute; reflexivity. Qed.
