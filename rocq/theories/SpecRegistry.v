(** Specification vocabulary for the process-wide registries: functions of the
    list of calls. *)
From Coq Require Import String Bool List Arith.
From Verif Require Import Prelude Registry.
Import ListNotations.

(** Shutdown functions registered by a list of calls, in order: the user's, the
    timers' at the first initialization, the function registry's at the first
    registration of a function. *)
Fixpoint registered (inited has_funcs : bool) (l : list call) : list shutdown_fn :=
  match l with
  | [] => []
  | CInit _ :: l => if inited then registered inited has_funcs l else ShutDownTimers :: registered true has_funcs l
  | COnFinalize k :: l => User k :: registered inited has_funcs l
  | CRegister _ _ :: l => if has_funcs then registered inited has_funcs l
                          else DestroyFunctionRegistry :: registered inited true l
  | _ :: l => registered inited has_funcs l
  end.

(** The user's shutdown functions alone. *)
Fixpoint user_registered (l : list call) : list nat :=
  match l with [] => [] | COnFinalize k :: l => k :: user_registered l | _ :: l => user_registered l end.
Fixpoint users (l : list shutdown_fn) : list nat :=
  match l with [] => [] | User k :: l => k :: users l | _ :: l => users l end.

(** The function most recently registered under a name. *)
Fixpoint last_registered (acc : option nat) (l : list call) (name : string) : option nat :=
  match l with
  | [] => acc
  | CRegister n f :: l => last_registered (if String.eqb n name then Some f else acc) l name
  | _ :: l => last_registered acc l name
  end.

Definition no_finalize (l : list call) : Prop := ~ In CFinalize l.

(** Calls that work on the timer tables. *)
Definition uses_timers (c : call) : Prop :=
  match c with CTimer _ | CAddStage _ | CEnterStage _ | CMetadata _ _ => True | _ => False end.

Definition asks_timing (l : list call) : Prop := In (CInit true) l.
Definition has_metadata (l : list call) : Prop := exists t m, In (CMetadata t m) l.

(** Timer names asked for; stage names added, with the three of the library. *)
Fixpoint timer_names (l : list call) : list string :=
  match l with [] => [] | CTimer n :: l => n :: timer_names l | _ :: l => timer_names l end.
Fixpoint stage_names (l : list call) : list string :=
  match l with [] => [] | CAddStage n :: l => n :: stage_names l | _ :: l => stage_names l end.

(** The timer tables are used only after an initialization. *)
Definition starts_properly (l : list call) : Prop :=
  forall l1 c l2, l = l1 ++ c :: l2 -> uses_timers c -> exists b, In (CInit b) l1.
