(** C12-C16, C38, C52: the time integrator. *)
From Coq Require Import Reals Lra List ZArith Lia Bool.
From Verif Require Import Prelude TimeInt SpecTimeInt TimeIntProofs.
Import ListNotations.
Local Open Scope R_scope.

(** ** C12 *)
Theorem C12_run_ends_at_target : forall Sol Acc (accumulation : Sol -> R -> Acc) cfg solver sync s s',
  0 < dt_growth cfg -> reachable accumulation cfg solver s -> time s <= sync ->
  run_to_time accumulation cfg solver sync s s' -> pc s' = Finished -> time s' = sync.
Proof. intros. eapply run_reaches; eauto. Qed.
Print Assumptions C12_run_ends_at_target.

Theorem C12_clock_monotone : forall Sol Acc (accumulation : Sol -> R -> Acc) cfg solver sync s n,
  0 < dt_growth cfg -> reachable accumulation cfg solver s -> time s <= sync ->
  let clock k := time (steps accumulation cfg solver sync k (enter s)) in
  time s <= clock n <= clock (S n) /\ clock (S n) <= sync.
Proof. intros. eapply run_clock; eauto. Qed.
Print Assumptions C12_clock_monotone.

(** A target that is not ahead of the clock changes nothing. *)
Theorem C12_past_target : forall Sol Acc (accumulation : Sol -> R -> Acc) cfg solver sync s s',
  sync <= time s -> run_to_time accumulation cfg solver sync s s' ->
  pc s' = Finished /\ time s' = time s /\ dt s' = dt s /\ dt_save s' = dt_save s /\ istep s' = istep s /\
  soln s' = soln s /\ soln_prev s' = soln_prev s /\ log s' = log s /\ ncalls s' = ncalls s.
Proof. intros. eapply past_target; eauto. Qed.
Print Assumptions C12_past_target.

Theorem C12_ts_first_run : forall sync, 0 <= sync -> ts_run sync (0, 0) = (sync, sync).
Proof. exact ts_first. Qed.
Print Assumptions C12_ts_first_run.

(** With PETSc's TS a second run can stop short of its target. *)
Theorem C12_ts_second_run_refuted : snd (ts_run 5 (ts_run 3 (0, 0))) <> 5.
Proof. exact ts_second. Qed.
Print Assumptions C12_ts_second_run_refuted.

(** ** C13 *)

(** Missing: runs in which an attempt that would have reached the target failed. *)
Theorem C13_no_time_skipped_partial : forall Sol Acc (accumulation : Sol -> R -> Acc) cfg solver sync s n,
  0 < dt_growth cfg -> reachable accumulation cfg solver s -> time s <= sync ->
  let s' := steps accumulation cfg solver sync n (enter s) in
  exists evs, log s' = evs ++ log s /\
    time s + total (accepted evs) <= time s' /\
    ((forall e, In e evs -> ~ failed_at_target sync e) -> time s + total (accepted evs) = time s').
Proof. intros. eapply run_no_gap; eauto. Qed.
Print Assumptions C13_no_time_skipped_partial.

(** Steps adding up to 1/8 are accepted while the clock moves from 0 to 1/2. *)
Theorem C13_no_time_skipped_refuted :
  exists Sol Acc (accumulation : Sol -> R -> Acc) cfg solver sync s s',
    1 <= dt_growth cfg /\ reachable accumulation cfg solver s /\ run_to_time accumulation cfg solver sync s s' /\
    pc s' = Finished /\ log s = [] /\ time s + total (accepted (log s')) <> time s'.
Proof.
  destruct witness_skip as (s' & H1 & H2 & H3 & H4 & _).
  exists nat, R, acc0, cfg0, fail_first, (1/2), (ti_create 1 7%nat 0), s'.
  split; [simpl; lra|]. split; [constructor; simpl; lra|]. split; [exact H1|]. split; [exact H2|]. split; [reflexivity|].
  rewrite H3, H4. simpl. lra.
Qed.
Print Assumptions C13_no_time_skipped_refuted.

(** After a run that ended with an error, the next run jumps to its target after
    one accepted step, even if none of its own solves fails. *)
Theorem C13_run_after_error_refuted :
  exists Sol Acc (accumulation : Sol -> R -> Acc) cfg solver sync1 sync2 s s1 s2,
    reachable accumulation cfg solver s /\ log s = [] /\
    run_to_time accumulation cfg solver sync1 s s1 /\ pc s1 = Failed /\
    run_to_time accumulation cfg solver sync2 s1 s2 /\ pc s2 = Finished /\
    time s2 - time s1 = 5 /\ total (accepted (log s2)) = 1/8.
Proof.
  destruct witness_after_failure as (s1 & s2 & H).
  exists nat, R, acc0, cfg_nocut, fail_first, (1/2), 5, (ti_create 1 7%nat 0), s1, s2.
  split; [constructor; simpl; lra|]. split; [reflexivity|exact H].
Qed.
Print Assumptions C13_run_after_error_refuted.

(** ** C14 *)
Theorem C14_step_sizes : forall Sol Acc (accumulation : Sol -> R -> Acc) cfg solver sync s n,
  0 < dt_growth cfg -> reachable accumulation cfg solver s -> time s <= sync ->
  exists evs, log (steps accumulation cfg solver sync n (enter s)) = evs ++ log s /\
    all_solves (fun t d _ _ _ => time s <= t /\ 0 < d <= dt_max cfg /\ t + d <= sync) evs /\
    size_law (dt_max cfg) (dt_growth cfg) sync (time s) (dt s) (attempts evs).
Proof. intros. eapply run_sizes; eauto. Qed.
Print Assumptions C14_step_sizes.

(** The initial step is not compared with the maximum. *)
Theorem C14_initial_step_refuted :
  exists s', run_to_time acc0 cfg0 always 20 (ti_create 20 7%nat 0) s' /\ pc s' = Finished /\
    In (Solve 0 20 7%nat 7%nat 20 (Some 0%nat)) (log s') /\ 20 > dt_max cfg0.
Proof. exact witness_initial_too_large. Qed.
Print Assumptions C14_initial_step_refuted.

(** ** C15 *)
Theorem C15_terminates : forall Sol Acc (accumulation : Sol -> R -> Acc) cfg solver sync s,
  1 <= dt_growth cfg -> reachable accumulation cfg solver s -> time s <= sync ->
  exists s', run_to_time accumulation cfg solver sync s s' /\
    forall s'', run_to_time accumulation cfg solver sync s s'' -> s'' = s'.
Proof.
  intros Sol Acc accumulation cfg solver sync s Hg Hr Ht.
  destruct (run_total accumulation cfg solver sync s ltac:(lra) Hr Ht Hg) as [s' Hs'].
  exists s'. split; [exact Hs'|]. intros s'' H''. eapply run_deterministic; eauto.
Qed.
Print Assumptions C15_terminates.

Theorem C15_bounded_failures : forall Sol Acc (accumulation : Sol -> R -> Acc) cfg solver sync s n,
  0 < dt_growth cfg -> reachable accumulation cfg solver s -> time s <= sync ->
  let s' := steps accumulation cfg solver sync n (enter s) in
  exists evs, log s' = evs ++ log s /\ (failures evs <= 25)%nat /\
    (pc s' = Failed ->
       failures evs = 25%nat \/ has_presolve cfg = false \/ (has_timecut cfg = false /\ failures evs = 1%nat)) /\
    (pc s' = Crashed -> chk_enabled cfg = true /\ chk_interval cfg = 0%Z).
Proof. intros. eapply run_failures; eauto. Qed.
Print Assumptions C15_bounded_failures.

Theorem C15_bounded_successes : forall Sol Acc (accumulation : Sol -> R -> Acc) cfg solver sync s n,
  1 <= dt_growth cfg -> reachable accumulation cfg solver s -> time s <= sync ->
  exists evs, log (steps accumulation cfg solver sync n (enter s)) = evs ++ log s /\
    INR (length (accepted evs)) <= 1 + (sync - time s) / (dt s * (/ 4) ^ 24).
Proof. intros. eapply run_accepted; eauto. lra. Qed.
Print Assumptions C15_bounded_successes.

(** With a growth factor of 1/2, which the options accept, a run never returns. *)
Theorem C15_shrinking_steps_refuted : forall s',
  ~ run_to_time acc0 cfg_shrink always 10 (ti_create 1 7%nat 0) s'.
Proof. exact shrink_never_ends. Qed.
Print Assumptions C15_shrinking_steps_refuted.

(** ** C16 *)

(** Missing: the exact list of outputs of a run with failed solves. *)
Theorem C16_outputs_partial : forall Sol Acc (accumulation : Sol -> R -> Acc) cfg solver sync s n,
  0 < dt_growth cfg -> reachable accumulation cfg solver s -> time s <= sync ->
  let s' := steps accumulation cfg solver sync n (enter s) in
  exists evs, log s' = evs ++ log s /\
    (forall k, In k (outputs evs) -> (0 < out_interval cfg /\ k mod out_interval cfg = 0)%Z) /\
    ((0 < out_interval cfg)%Z -> forall k, (istep s < k <= istep s')%Z ->
       (k mod out_interval cfg = 0)%Z -> In k (outputs evs)) /\
    (failures evs = O -> outputs evs =
       if Z.ltb 0 (out_interval cfg) then multiples (out_interval cfg) (istep s) (length (accepted evs)) else []) /\
    istep s' = (istep s + Z.of_nat (length (accepted evs)))%Z.
Proof. intros. eapply run_outputs; eauto. Qed.
Print Assumptions C16_outputs_partial.

(** One failed solve before the only accepted step: "step 0" is written as well. *)
Theorem C16_outputs_refuted :
  exists s', run_to_time acc0 cfg0 fail_first (1/2) (ti_create 1 7%nat 0) s' /\ pc s' = Finished /\
    outputs (log s') = [1%Z; 0%Z] /\ multiples (out_interval cfg0) 0 (length (accepted (log s'))) = [1%Z].
Proof.
  destruct witness_skip as (s' & H1 & H2 & H3 & H4 & H5 & H6). exists s'.
  split; [exact H1|]. split; [exact H2|]. split; [exact H5|].
  destruct (accepted (log s')) as [|x l] eqn:E; [simpl in H3; lra|].
  destruct H1 as (n & En & _).
  destruct (run_outputs acc0 cfg0 fail_first (1/2) (ti_create 1 7%nat 0) ltac:(simpl; lra)
     ltac:(constructor; simpl; lra) ltac:(simpl; lra) n) as (evs & L & _ & A & _ & B).
  rewrite <- En in *. simpl in L. rewrite app_nil_r in L. subst evs.
  destruct l as [|y l]; [reflexivity|]. exfalso.
  assert (Hin : In 2%Z (outputs (log s'))).
  { apply A; [reflexivity| |reflexivity]. rewrite B, E. simpl. lia. }
  rewrite H5 in Hin. simpl in Hin. destruct Hin as [H|[H|H]]; try discriminate. contradiction.
Qed.
Print Assumptions C16_outputs_refuted.

Theorem C16_checkpoints : forall Sol Acc (accumulation : Sol -> R -> Acc) cfg solver sync s s',
  run_to_time accumulation cfg solver sync s s' -> chk_enabled cfg = true -> chk_interval cfg <> 0%Z ->
  exists evs, log s' = evs ++ log s /\
  istep s' = (istep s + Z.of_nat (length (solutions evs)))%Z /\
  (pc s' = Finished ->
   checkpoints evs = filter (fun p => Z.eqb (fst p mod chk_interval cfg) 0 || Z.eqb (fst p) (istep s'))
                            (numbered (istep s) (solutions evs))) /\
  (pc s' = Failed ->
   checkpoints evs = filter (fun p => Z.eqb (fst p mod chk_interval cfg) 0) (numbered (istep s) (solutions evs))).
Proof. exact @run_checkpoints. Qed.
Print Assumptions C16_checkpoints.

Theorem C16_final_checkpoint : forall Sol Acc (accumulation : Sol -> R -> Acc) cfg solver sync s s',
  run_to_time accumulation cfg solver sync s s' -> chk_enabled cfg = true -> chk_interval cfg <> 0%Z ->
  pc s' = Finished ->
  exists evs, log s' = evs ++ log s /\
  (solutions evs = [] \/ exists l, checkpoints evs = (istep s', soln_prev s') :: l).
Proof. exact @run_final_checkpoint. Qed.
Print Assumptions C16_final_checkpoint.

Theorem C16_checkpoints_off : forall Sol Acc (accumulation : Sol -> R -> Acc) cfg solver sync s s',
  run_to_time accumulation cfg solver sync s s' -> chk_enabled cfg = false ->
  exists evs, log s' = evs ++ log s /\ checkpoints evs = [].
Proof. exact @run_no_checkpoints. Qed.
Print Assumptions C16_checkpoints_off.

(** A checkpoint interval of 0 divides by zero after the first step. *)
Theorem C16_interval_zero_refuted : exists s',
  run_to_time acc0 cfg_chk0 always 1 (ti_create 1 7%nat 0) s' /\ pc s' = Crashed.
Proof. exact chk0_crashes. Qed.
Print Assumptions C16_interval_zero_refuted.

(** ** C38 *)

Theorem C38_failed_step_no_trace : forall Sol Acc (accumulation : Sol -> R -> Acc) cfg solver sync s n,
  0 < dt_growth cfg -> reachable accumulation cfg solver s -> time s <= sync ->
  let s' := steps accumulation cfg solver sync n (enter s) in
  exists evs, log s' = evs ++ log s /\
    clean_starts accumulation (soln_prev s) evs /\ soln_prev s' = hd (soln_prev s) (solutions evs).
Proof. intros. eapply run_clean_start; eauto. Qed.
Print Assumptions C38_failed_step_no_trace.

(** ** C52 *)
(** The configured factor is 1/2; a failed step of 1/2 is followed by one of 1/8. *)
Theorem C52_reduction_factor_refuted :
  exists s', run_to_time acc0 cfg0 fail_first (1/2) (ti_create 1 7%nat 0) s' /\ dt_reduction cfg0 = 1/2 /\
    attempts (log s') = [(0, 1/8, true); (0, 1/2, false)].
Proof. exact witness_reduction. Qed.
Print Assumptions C52_reduction_factor_refuted.

Theorem C52_reduction_factor_unused : forall Sol Acc (accumulation : Sol -> R -> Acc) cfg solver r sync n s,
  steps accumulation
    {| dt_max := dt_max cfg; dt_growth := dt_growth cfg; dt_reduction := r; out_interval := out_interval cfg;
       chk_enabled := chk_enabled cfg; chk_interval := chk_interval cfg;
       has_presolve := has_presolve cfg; has_timecut := has_timecut cfg |} solver sync n s =
  steps accumulation cfg solver sync n s.
Proof. intros. apply reduction_unused. Qed.
Print Assumptions C52_reduction_factor_unused.

(** A run that meets the hypotheses, with a failed solve, an output and a checkpoint. *)
Example C12_hypotheses_met : exists s' : state,
  reachable acc0 cfg0 fail_first (ti_create 1 7%nat 0) /\ 1 <= dt_growth cfg0 /\
  run_to_time acc0 cfg0 fail_first (1/2) (ti_create 1 7%nat 0) s' /\ pc s' = Finished /\ time s' = 1/2 /\
  checkpoints (log s') = [(1%Z, 1%nat)].
Proof.
  destruct witness_skip as (s' & H1 & H2 & H3 & H4 & H5 & H6). exists s'.
  split; [constructor; simpl; lra|]. split; [simpl; lra|]. auto.
Qed.

(** The expected lists on an example. *)
Example C16_lists : multiples 3 4 6 = [9; 6]%Z /\
  filter (fun p => Z.eqb (fst p mod 2) 0 || Z.eqb (fst p) 7)%bool (numbered 4 [30; 20; 10]%nat) = [(7%Z, 30%nat); (6%Z, 20%nat)].
Proof. split; reflexivity. Qed.
