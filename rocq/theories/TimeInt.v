(** Model of src/tdyti.c: the time integrator, as a small-step machine.
    One machine step is one pass through a marked point of the SNES loop of
    TDyTimeIntegratorRunToTime.  The non-linear solver is an oracle: the outcome
    of the k-th call of SNESSolve (converged or not, and the vector it leaves in
    tdy->soln) is arbitrary.  Printing is left out.  PetscReal arithmetic is
    exact (no rounding). *)
From Coq Require Import Reals List ZArith Bool.
From Verif Require Import Prelude.
Import ListNotations.
Local Open Scope R_scope.

(** What the run may see from outside: configuration of integrator and I/O, and
    which discretization hooks exist. *)
Record config := {
  dt_max : R; dt_growth : R; dt_reduction : R;
  out_interval : Z;        (* io->output_timestep_interval *)
  chk_enabled : bool;      (* io->enable_checkpoint *)
  chk_interval : Z;        (* io->checkpoint_timestep_interval *)
  has_presolve : bool;     (* TDyPreSolveSNESSolver, src/tdycore.c:2074-2118: FV_TPF, and MPFA_O except TH *)
  has_timecut : bool       (* TDyTimeCut, src/tdycore.c:2126-2161: FV_TPF only *)
}.

Section TimeIntegrator.
Context {Sol : Type}.                 (* contents of tdy->soln / soln_prev *)
Context {Acc : Type}.                 (* contents of tdy->accumulation_prev *)
(** The stored-mass vector of a solution divided by the step size, as computed by
    TDyUpdateState and the accumulation loop (src/fv/fvtpf/tdyfvtpf_snes.c:57-72). *)
Variable accumulation : Sol -> R -> Acc.

(** Observable events: a call of SNESSolve (clock at the start, step size given to
    the solver, initial guess, previous solution and stored-mass reference it
    sees, and the solution if it converged), an output or a checkpoint (with the step number and the
    solution written). *)
Inductive event :=
| Solve (start dt : R) (guess prev : Sol) (acc : Acc) (outcome : option Sol)
| Output (step : Z)
| Checkpoint (step : Z) (saved : Sol).

Inductive point := Top | Attempt | AfterStep | Finished | Failed | Crashed.

Record state := {
  pc : point;
  time : R; dt : R; dt_save : R; istep : Z;     (* struct TDyTimeIntegrator *)
  dtime : R; soln : Sol; soln_prev : Sol; accum_prev : Acc;   (* struct TDy *)
  icut : Z; pending : bool;                     (* locals icut, checkpoint *)
  ncalls : nat;                                 (* solver calls so far *)
  log : list event                              (* newest first *)
}.

(** TDyTimeIntegratorSetTargetTime, src/tdyti.c:83-91. *)
Definition set_target (sync time dt dt_save : R) : R * R :=
  let dt_for_sync := sync - time in
  if Rlt_dec dt_for_sync dt then (dt_for_sync, dt) else (dt, dt_save).

(** TDyTimeIntegratorUpdateDT, src/tdyti.c:71-81: (time, dt, dt_save). *)
Definition update_dt (cfg : config) (sync time dt dt_save : R) : R * R * R :=
  let '(time, dt, dt_save) := if Rlt_dec 0 dt_save then (sync, dt_save, 0) else (time, dt, dt_save) in
  let dt := dt * dt_growth cfg in
  (time, if Rlt_dec (dt_max cfg) dt then dt_max cfg else dt, dt_save).

(** The output test, src/tdyti.c:162-166. *)
Definition output_events (cfg : config) (step : Z) (l : list event) : list event :=
  if Z.ltb 0 (out_interval cfg) then
    if Z.eqb (Z.rem step (out_interval cfg)) 0 then Output step :: l else l
  else l.

(** src/tdyti.c:118-131: the loop test and the start of a step; 179-181: the end. *)
Definition step_top (cfg : config) (sync : R) (s : state) : state :=
  if Rlt_dec (time s) sync then
    let '(dt', save') := set_target sync (time s) (dt s) (dt_save s) in
    {| pc := Attempt; time := time s; dt := dt'; dt_save := save'; istep := istep s;
       dtime := dt'; soln := soln s; soln_prev := soln_prev s; accum_prev := accum_prev s;
       icut := icut s; pending := pending s; ncalls := ncalls s; log := log s |}
  else
    {| pc := Finished; time := time s; dt := dt s; dt_save := dt_save s; istep := istep s;
       dtime := dtime s; soln := soln s; soln_prev := soln_prev s; accum_prev := accum_prev s;
       icut := icut s; pending := pending s; ncalls := ncalls s;
       log := if chk_enabled cfg && pending s then Checkpoint (istep s) (soln_prev s) :: log s else log s |}.

(** src/tdyti.c:133-167: one pass through the inner loop.  TDyPreSolveSNESSolver
    recomputes the stored-mass reference from soln_prev with the current dtime;
    TDyTimeCut copies soln_prev to soln and recomputes the reference
    (src/fv/fvtpf/tdyfvtpf_snes.c:44-76 and 82-115). *)
Definition step_attempt (cfg : config) (solver : nat -> bool * Sol) (s : state) : state :=
  let fail (l : list event) (d dtm : R) (u : Sol) (a : Acc) (cuts : Z) (k : nat) :=
    {| pc := Failed; time := time s; dt := d; dt_save := dt_save s; istep := istep s;
       dtime := dtm; soln := u; soln_prev := soln_prev s; accum_prev := a;
       icut := cuts; pending := pending s; ncalls := k; log := l |} in
  if negb (has_presolve cfg) then fail (log s) (dt s) (dtime s) (soln s) (accum_prev s) (icut s) (ncalls s) else
  let acc := accumulation (soln_prev s) (dtime s) in
  let '(ok, u) := solver (ncalls s) in
  let l := Solve (time s) (dtime s) (soln s) (soln_prev s) acc (if ok then Some u else None) :: log s in
  let k := S (ncalls s) in
  if ok then
    {| pc := AfterStep; time := time s + dt s; dt := dt s; dt_save := dt_save s; istep := istep s + 1;
       dtime := dtime s; soln := u; soln_prev := u; accum_prev := acc;
       icut := icut s; pending := pending s; ncalls := k; log := output_events cfg (istep s + 1) l |}
  else
    let d := dt s * 0.25 in
    let cuts := (icut s + 1)%Z in
    if negb (has_timecut cfg) then fail l d d u acc cuts k else
    let acc' := accumulation (soln_prev s) d in
    if Z.eqb cuts 25 then fail l d d (soln_prev s) acc' cuts k else
    {| pc := Attempt; time := time s; dt := d; dt_save := dt_save s; istep := istep s;
       dtime := d; soln := soln_prev s; soln_prev := soln_prev s; accum_prev := acc';
       icut := cuts; pending := pending s; ncalls := k; log := output_events cfg (istep s) l |}.

(** src/tdyti.c:169-176: checkpoint test and UpdateDT.  istep % 0 is undefined. *)
Definition step_after (cfg : config) (sync : R) (s : state) : state :=
  let '(t, d, sv) := update_dt cfg sync (time s) (dt s) (dt_save s) in
  let mk p pend l :=
    {| pc := p; time := t; dt := d; dt_save := sv; istep := istep s;
       dtime := dtime s; soln := soln s; soln_prev := soln_prev s; accum_prev := accum_prev s;
       icut := icut s; pending := pend; ncalls := ncalls s; log := l |} in
  if chk_enabled cfg then
    if Z.eqb (chk_interval cfg) 0 then mk Crashed (pending s) (log s)
    else if Z.eqb (Z.rem (istep s) (chk_interval cfg)) 0
         then mk Top false (Checkpoint (istep s) (soln_prev s) :: log s)
         else mk Top true (log s)
  else mk Top (pending s) (log s).

Definition step (cfg : config) (solver : nat -> bool * Sol) (sync : R) (s : state) : state :=
  match pc s with
  | Top => step_top cfg sync s
  | Attempt => step_attempt cfg solver s
  | AfterStep => step_after cfg sync s
  | Finished | Failed | Crashed => s
  end.

Fixpoint steps (cfg : config) (solver : nat -> bool * Sol) (sync : R) (n : nat) (s : state) : state :=
  match n with O => s | S n => steps cfg solver sync n (step cfg solver sync s) end.

(** Entering TDyTimeIntegratorRunToTime, src/tdyti.c:104-116. *)
Definition enter (s : state) : state :=
  {| pc := Top; time := time s; dt := dt s; dt_save := dt_save s; istep := istep s;
     dtime := dtime s; soln := soln s; soln_prev := soln_prev s; accum_prev := accum_prev s;
     icut := 0; pending := false; ncalls := ncalls s; log := log s |}.

(** TDyTimeIntegratorCreate, src/tdyti.c:8-69 (after reading the options), with a
    solution already initialised by the driver (soln copied to soln_prev,
    src/tdyrichards.c and src/tdydriver.c). *)
Definition ti_create (dt_init : R) (u : Sol) (a : Acc) : state :=
  {| pc := Finished; time := 0; dt := dt_init; dt_save := 0; istep := 0;
     dtime := 0; soln := u; soln_prev := u; accum_prev := a;
     icut := 0; pending := false; ncalls := 0; log := [] |}.

(** TDyTimeIntegratorSetTimeStep, src/tdyti.c:93-98. *)
Definition set_time_step (d : R) (s : state) : state :=
  {| pc := pc s; time := time s; dt := d; dt_save := dt_save s; istep := istep s;
     dtime := dtime s; soln := soln s; soln_prev := soln_prev s; accum_prev := accum_prev s;
     icut := icut s; pending := pending s; ncalls := ncalls s; log := log s |}.

(** A complete call of TDyTimeIntegratorRunToTime. *)
Definition final (s : state) : Prop := pc s = Finished \/ pc s = Failed \/ pc s = Crashed.
Definition run_to_time (cfg : config) (solver : nat -> bool * Sol) (sync : R) (s s' : state) : Prop :=
  exists n, s' = steps cfg solver sync n (enter s) /\ final s'.

(** States reachable by calls that returned without error: creation, changing the
    time step to a positive value not above the maximum, and completed runs. *)
Inductive reachable (cfg : config) (solver : nat -> bool * Sol) : state -> Prop :=
| reach_create dt_init u a : 0 < dt_init <= dt_max cfg -> reachable cfg solver (ti_create dt_init u a)
| reach_set s d : reachable cfg solver s -> 0 < d <= dt_max cfg -> reachable cfg solver (set_time_step d s)
| reach_run s s' sync : reachable cfg solver s -> run_to_time cfg solver sync s s' -> pc s' = Finished ->
    reachable cfg solver s'.

End TimeIntegrator.

(** The TS branch, src/tdyti.c:183-191: TSSetMaxTime is given the difference of
    the target and the current time.  TSSolve (with TS_EXACTFINALTIME_MATCHSTEP,
    set by src/tdydriver.c:159) is modelled by its documentation: it advances TS's
    own clock to the maximum time unless the clock is already there or beyond.
    State: TS's clock and ti->time. *)
Definition ts_run (sync : R) (st : R * R) : R * R :=
  let '(ts_time, ti_time) := st in
  let delta_time := sync - ti_time in
  let t := if Rlt_dec ts_time delta_time then delta_time else ts_time in
  (t, t).
