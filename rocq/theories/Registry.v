(** Model of the process-wide registries: shutdown functions and named functions
    (src/tdycore.c:80-258), timers, profiling stages and timing metadata
    (src/tdytimers.c, include/tdytimers.h:26-88).

    Simplifications: PETSc calls succeed; PetscLogEventRegister and
    PetscLogStageRegister hand out fresh numbers; a khash table is an association
    list (the string keys are kept by pointer in C, so callers must not change
    them); user shutdown functions do not call the library. *)
From Coq Require Import String Bool List Arith.
From Verif Require Import Prelude.
Import ListNotations.

(** A global pointer: NULL, a live object, or an object already freed. *)
Inductive ptr (A : Type) := Null | Live (a : A) | Freed.
Arguments Null {A}. Arguments Live {A} a. Arguments Freed {A}.

Inductive shutdown_fn := User (k : nat) | DestroyFunctionRegistry | ShutDownTimers.

(** TimingMetadata, src/tdytimers.c:13-18, as one value. *)
Record proc := {
  initialized : bool;                            (* TDyPackageInitialized *)
  enabled : bool;                                (* timersEnabled_ *)
  sd_funcs : ptr (list (option shutdown_fn));    (* shutdown_funcs_, length = capacity *)
  sd_num : nat; sd_cap : nat;
  funcs : ptr (list (string * nat));             (* funcs_ *)
  timers : ptr (list (string * nat));            (* TDY_TIMERS *)
  stages : ptr (list (string * nat));            (* TDY_PROFILING_STAGES *)
  metadata : ptr (list (nat * nat));             (* TDY_PROFILING_METADATA *)
  events : nat; nstages : nat;                   (* PETSc's registered events and stages *)
  ran : list shutdown_fn;                        (* shutdown functions run so far, oldest first *)
  footer : list nat                              (* metadata written to the profile, oldest first *)
}.

Definition fresh : proc :=
  {| initialized := false; enabled := false; sd_funcs := Null; sd_num := 0; sd_cap := 0;
     funcs := Null; timers := Null; stages := Null; metadata := Null;
     events := 0; nstages := 0; ran := []; footer := [] |}.

Section Tables.
Context {K V : Type}.
Variable eqb : K -> K -> bool.
(** kh_get / kh_put with assignment. *)
Fixpoint find (l : list (K * V)) (k : K) : option V :=
  match l with [] => None | (k', v) :: l => if eqb k' k then Some v else find l k end.
Fixpoint put (l : list (K * V)) (k : K) (v : V) : list (K * V) :=
  match l with [] => [(k, v)] | (k', v') :: l => if eqb k' k then (k', v) :: l else (k', v') :: put l k v end.
End Tables.

Fixpoint store {A} (l : list A) (i : nat) (x : A) : option (list A) :=
  match l, i with
  | [], _ => None
  | _ :: l, O => Some (x :: l)
  | y :: l, S i => match store l i x with Some l' => Some (y :: l') | None => None end
  end.

Definition with_sd (p : proc) (a : ptr (list (option shutdown_fn))) (n c : nat) : proc :=
  {| initialized := initialized p; enabled := enabled p; sd_funcs := a; sd_num := n; sd_cap := c;
     funcs := funcs p; timers := timers p; stages := stages p; metadata := metadata p;
     events := events p; nstages := nstages p; ran := ran p; footer := footer p |}.

(** TDyOnFinalize, src/tdycore.c:174-187. *)
Definition on_finalize (p : proc) (f : shutdown_fn) : outcome proc :=
  let write a n c :=
    match store a n (Some f) with Some a' => Ok (with_sd p (Live a') (S n) c) | None => UB end in
  match sd_funcs p with
  | Null => write (repeat None 32) (sd_num p) 32
  | Freed => UB
  | Live a =>
      if sd_num p =? sd_cap p
      then let c := sd_cap p * 2 in write (firstn c a ++ repeat None (c - length a)) (sd_num p) c
      else write a (sd_num p) (sd_cap p)
  end.

Definition with_funcs (p : proc) (f : ptr (list (string * nat))) : proc :=
  {| initialized := initialized p; enabled := enabled p; sd_funcs := sd_funcs p; sd_num := sd_num p; sd_cap := sd_cap p;
     funcs := f; timers := timers p; stages := stages p; metadata := metadata p;
     events := events p; nstages := nstages p; ran := ran p; footer := footer p |}.

(** TDyRegisterFunction, src/tdycore.c:223-234. *)
Definition register_function (p : proc) (name : string) (f : nat) : outcome proc :=
  match funcs p with
  | Null => match on_finalize (with_funcs p (Live [])) DestroyFunctionRegistry with
            | Ok p' => Ok (with_funcs p' (Live (put String.eqb [] name f)))
            | r => r
            end
  | Live m => Ok (with_funcs p (Live (put String.eqb m name f)))
  | Freed => UB
  end.

(** TDyGetFunction, src/tdycore.c:239-258: None is the error code. *)
Definition get_function (p : proc) (name : string) : outcome (option nat) :=
  match funcs p with
  | Null => Ok None
  | Live m => Ok (find String.eqb m name)
  | Freed => UB
  end.

(** TDyGetTimer, include/tdytimers.h:27-39. *)
Definition get_timer (p : proc) (name : string) : outcome (proc * nat) :=
  match timers p with
  | Live m =>
      match find String.eqb m name with
      | Some t => Ok (p, t)
      | None =>
          let t := events p in
          Ok ({| initialized := initialized p; enabled := enabled p; sd_funcs := sd_funcs p; sd_num := sd_num p; sd_cap := sd_cap p;
                 funcs := funcs p; timers := Live (put String.eqb m name t); stages := stages p; metadata := metadata p;
                 events := S (events p); nstages := nstages p; ran := ran p; footer := footer p |}, t)
      end
  | _ => UB
  end.

(** TDyAddProfilingStage, src/tdytimers.c:69-79. *)
Definition add_stage (p : proc) (name : string) : outcome proc :=
  match stages p with
  | Live m =>
      match find String.eqb m name with
      | Some _ => Ok p
      | None =>
          Ok {| initialized := initialized p; enabled := enabled p; sd_funcs := sd_funcs p; sd_num := sd_num p; sd_cap := sd_cap p;
                funcs := funcs p; timers := timers p; stages := Live (put String.eqb m name (nstages p)); metadata := metadata p;
                events := events p; nstages := S (nstages p); ran := ran p; footer := footer p |}
      end
  | _ => UB
  end.

(** TDyEnterProfilingStage, include/tdytimers.h:70-78: the stage pushed, if any. *)
Definition enter_stage (p : proc) (name : string) : outcome (option nat) :=
  match stages p with Live m => Ok (find String.eqb m name) | _ => UB end.

(** TDySetTimingMetadata, src/tdytimers.c:81-113, for the simulator at address
    [tdy]; an existing entry is kept (and the new record leaked). *)
Definition set_metadata (p : proc) (tdy md : nat) : outcome proc :=
  if enabled p then
    match metadata p with
    | Live m =>
        match find Nat.eqb m tdy with
        | Some _ => Ok p
        | None =>
            Ok {| initialized := initialized p; enabled := enabled p; sd_funcs := sd_funcs p; sd_num := sd_num p; sd_cap := sd_cap p;
                  funcs := funcs p; timers := timers p; stages := stages p; metadata := Live (put Nat.eqb m tdy md);
                  events := events p; nstages := nstages p; ran := ran p; footer := footer p |}
        end
    | _ => UB
    end
  else Ok p.

Definition or_new {A} (x : ptr (list A)) : ptr (list A) := match x with Null => Live [] | _ => x end.

(** TDyInitTimers, src/tdytimers.c:35-61. *)
Definition init_timers (p : proc) : outcome proc :=
  let p1 := {| initialized := initialized p; enabled := enabled p; sd_funcs := sd_funcs p; sd_num := sd_num p; sd_cap := sd_cap p;
     funcs := funcs p; timers := or_new (timers p); stages := or_new (stages p); metadata := or_new (metadata p);
     events := events p; nstages := nstages p; ran := ran p; footer := footer p |} in
  match add_stage p1 "TDycore Setup" with
  | Ok p2 => match add_stage p2 "TDycore Stepping" with
             | Ok p3 => match add_stage p3 "TDycore I/O" with
                        | Ok p4 => on_finalize p4 ShutDownTimers
                        | r => r end
             | r => r end
  | r => r
  end.

(** TDyInit / TDyInitSubsystems, src/tdycore.c:86-141; [timing] is -tdy_timers. *)
Definition init (p : proc) (timing : bool) : outcome proc :=
  if initialized p then Ok p else
  match init_timers p with
  | Ok p' =>
      Ok {| initialized := true; enabled := enabled p' || timing; sd_funcs := sd_funcs p'; sd_num := sd_num p'; sd_cap := sd_cap p';
            funcs := funcs p'; timers := timers p'; stages := stages p'; metadata := metadata p';
            events := events p'; nstages := nstages p'; ran := ran p'; footer := footer p' |}
  | r => r
  end.

Definition freed {A} (x : ptr A) : outcome (ptr A) := match x with Null => Ok Null | Live _ => Ok Freed | Freed => UB end.

(** ShutDownTimers, src/tdytimers.c:28-33: write the profile (115-162), then
    TDyDestroyTimers (164-177).  With timers enabled the scan for the first entry
    of the metadata table reads the flags of an empty table, which has none; the
    values are freed before the table is tested against NULL. *)
Definition shut_down_timers (p : proc) : outcome proc :=
  match metadata p with
  | Live m =>
      match (if enabled p then match m with [] => None | (_, md) :: _ => Some [md] end else Some []) with
      | None => UB
      | Some written =>
          match freed (timers p), freed (stages p) with
          | Ok t, Ok s =>
              Ok {| initialized := initialized p; enabled := enabled p; sd_funcs := sd_funcs p; sd_num := sd_num p; sd_cap := sd_cap p;
                    funcs := funcs p; timers := t; stages := s; metadata := Freed;
                    events := events p; nstages := nstages p; ran := ran p; footer := footer p ++ written |}
          | _, _ => UB
          end
      end
  | _ => UB
  end.

Definition call_shutdown (p : proc) (f : shutdown_fn) : outcome proc :=
  let p1 := {| initialized := initialized p; enabled := enabled p; sd_funcs := sd_funcs p; sd_num := sd_num p; sd_cap := sd_cap p;
     funcs := funcs p; timers := timers p; stages := stages p; metadata := metadata p;
     events := events p; nstages := nstages p; ran := ran p ++ [f]; footer := footer p |} in
  match f with
  | User _ => Ok p1
  | DestroyFunctionRegistry =>         (* src/tdycore.c:213-215; kh_destroy accepts NULL *)
      match freed (funcs p1) with Ok f => Ok (with_funcs p1 f) | _ => UB end
  | ShutDownTimers => shut_down_timers p1
  end.

(** The loop of TDyFinalize over i = n-1, ..., 0. *)
Fixpoint run_shutdown (a : list (option shutdown_fn)) (n : nat) (p : proc) : outcome proc :=
  match n with
  | O => Ok p
  | S i => match nth_error a i with
           | Some (Some f) => match call_shutdown p f with Ok p' => run_shutdown a i p' | r => r end
           | _ => UB
           end
  end.

(** TDyFinalize, src/tdycore.c:189-205: shutdown_funcs_ and its counters keep their
    values. *)
Definition finalize (p : proc) : outcome proc :=
  let done p := {| initialized := false; enabled := enabled p; sd_funcs := sd_funcs p; sd_num := sd_num p; sd_cap := sd_cap p;
     funcs := funcs p; timers := timers p; stages := stages p; metadata := metadata p;
     events := events p; nstages := nstages p; ran := ran p; footer := footer p |} in
  match sd_funcs p with
  | Null => Ok (done p)
  | Live a => match run_shutdown a (sd_num p) p with
              | Ok p' => Ok (done (with_sd p' Freed (sd_num p') (sd_cap p')))
              | r => r
              end
  | Freed => UB
  end.

Inductive call :=
| CInit (timing : bool) | COnFinalize (k : nat) | CRegister (name : string) (f : nat) | CGetFunction (name : string)
| CTimer (name : string) | CAddStage (name : string) | CEnterStage (name : string)
| CMetadata (tdy md : nat) | CFinalize.

Inductive answer := Done | Function (f : option nat) | Timer (t : nat) | Stage (s : option nat).

Definition exec (p : proc) (c : call) : outcome (proc * answer) :=
  let quiet r := match r with Ok p' => Ok (p', Done) | Err => Err | UB => UB end in
  match c with
  | CInit b => quiet (init p b)
  | COnFinalize k => quiet (on_finalize p (User k))
  | CRegister n f => quiet (register_function p n f)
  | CGetFunction n => match get_function p n with Ok x => Ok (p, Function x) | Err => Err | UB => UB end
  | CTimer n => match get_timer p n with Ok (p', t) => Ok (p', Timer t) | Err => Err | UB => UB end
  | CAddStage n => quiet (add_stage p n)
  | CEnterStage n => match enter_stage p n with Ok x => Ok (p, Stage x) | Err => Err | UB => UB end
  | CMetadata t m => quiet (set_metadata p t m)
  | CFinalize => quiet (finalize p)
  end.

(** Runs a list of calls; the answers come back in order, each with its call. *)
Fixpoint run (p : proc) (l : list call) : outcome (proc * list (call * answer)) :=
  match l with
  | [] => Ok (p, [])
  | c :: l => match exec p c with
              | Ok (p', a) => match run p' l with Ok (q, h) => Ok (q, (c, a) :: h) | Err => Err | UB => UB end
              | Err => Err
              | UB => UB
              end
  end.
