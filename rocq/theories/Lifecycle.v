(** Model of the life cycle of a simulator object: src/tdycore.c (TDyCreate,
    TDySetMode, TDySetDiscretization, TDySetDMConstructor, TDySetFromOptions,
    TDySetup, the calls that require a finished setup, TDyDestroy).
    Functions behind the operation pointers are represented by their names; calls
    into PETSc and into the implementations are assumed to succeed. *)
From Coq Require Import String Bool List.
Import ListNotations.
Local Open Scope string_scope.

(** include/tdycore.h:11-40 *)
Inductive mode := RICHARDS | TH | SALINITY.
Inductive discretization := MPFA_O | MPFA_O_DAE | MPFA_O_TRANSIENTVAR | BDM | WY | FV_TPF.

Definition mode_eqb (a b : mode) : bool :=
  match a, b with RICHARDS, RICHARDS | TH, TH | SALINITY, SALINITY => true | _, _ => false end.
Definition disc_eqb (a b : discretization) : bool :=
  match a, b with
  | MPFA_O, MPFA_O | MPFA_O_DAE, MPFA_O_DAE | MPFA_O_TRANSIENTVAR, MPFA_O_TRANSIENTVAR
  | BDM, BDM | WY, WY | FV_TPF, FV_TPF => true
  | _, _ => false
  end.

(** struct _TDyOps (include/private/tdycoreimpl.h:40-79) without create_dm; None is NULL. *)
Record ops := {
  o_create : option string; o_destroy : option string; o_set_from_options : option string;
  o_set_dm_fields : option string; o_get_num_dm_fields : option string; o_setup : option string;
  o_update_state : option string; o_update_diagnostics : option string }.

Record sim := {
  mode_set : bool; disc_set : bool; options_set : bool; setup_finished : bool;   (* setup_flags *)
  s_mode : mode; s_disc : discretization; s_ops : ops;
  s_random : bool; s_init_file : bool; s_output_mesh : bool;   (* the other options looked at here *)
  s_create_dm : option nat;       (* ops->create_dm *)
  s_context : option string;      (* the create function that made tdy->context *)
  s_objects : nat;                (* how many times conditions / matprop / cc were created *)
  s_diag : bool                   (* tdy->diag_vec exists *)
}.

Inductive result := Ok (s : sim) | Err (s : sim) | Crash.

(** TDyCreate, src/tdycore.c:298-327, with SetDefaultOptions, 260-296. *)
Definition no_ops : ops :=
  {| o_create := None; o_destroy := None; o_set_from_options := None; o_set_dm_fields := None;
     o_get_num_dm_fields := None; o_setup := None; o_update_state := None; o_update_diagnostics := None |}.
Definition new_sim : sim :=
  {| mode_set := false; disc_set := false; options_set := false; setup_finished := false;
     s_mode := RICHARDS; s_disc := MPFA_O; s_ops := no_ops;
     s_random := false; s_init_file := false; s_output_mesh := false;
     s_create_dm := None; s_context := None; s_objects := 0; s_diag := false |}.

(** The assignments of TDySetDiscretization, src/tdycore.c:843-931; None: the pair
    is refused.  TH does not assign get_num_dm_fields (908-915); WY takes BDM's. *)
Definition assign_ops (m : mode) (d : discretization) (old : ops) : option ops :=
  match m, d with
  | RICHARDS, MPFA_O | RICHARDS, MPFA_O_TRANSIENTVAR =>
      Some {| o_create := Some "TDyCreate_MPFAO"; o_destroy := Some "TDyDestroy_MPFAO";
              o_set_from_options := Some "TDySetFromOptions_MPFAO"; o_set_dm_fields := Some "TDySetDMFields_Richards_MPFAO";
              o_get_num_dm_fields := Some "TDyGetNumDMFields_Richards_MPFAO"; o_setup := Some "TDySetup_Richards_MPFAO";
              o_update_state := Some "TDyUpdateState_Richards_MPFAO"; o_update_diagnostics := Some "TDyUpdateDiagnostics_MPFAO" |}
  | RICHARDS, MPFA_O_DAE =>
      Some {| o_create := Some "TDyCreate_MPFAO"; o_destroy := Some "TDyDestroy_MPFAO";
              o_set_from_options := Some "TDySetFromOptions_MPFAO"; o_set_dm_fields := Some "TDySetDMFields_Richards_MPFAO_DAE";
              o_get_num_dm_fields := Some "TDyGetNumDMFields_Richards_MPFAO_DAE"; o_setup := Some "TDySetup_Richards_MPFAO_DAE";
              o_update_state := Some "TDyUpdateState_Richards_MPFAO"; o_update_diagnostics := Some "TDyUpdateDiagnostics_MPFAO" |}
  | RICHARDS, BDM =>
      Some {| o_create := Some "TDyCreate_BDM"; o_destroy := Some "TDyDestroy_BDM";
              o_set_from_options := Some "TDySetFromOptions_BDM"; o_set_dm_fields := Some "TDySetDMFields_BDM";
              o_get_num_dm_fields := Some "TDyGetNumDMFields_BDM"; o_setup := Some "TDySetup_BDM";
              o_update_state := None; o_update_diagnostics := None |}
  | RICHARDS, WY =>
      Some {| o_create := Some "TDyCreate_WY"; o_destroy := Some "TDyDestroy_WY";
              o_set_from_options := Some "TDySetFromOptions_WY"; o_set_dm_fields := Some "TDySetDMFields_WY";
              o_get_num_dm_fields := Some "TDyGetNumDMFields_BDM"; o_setup := Some "TDySetup_WY";
              o_update_state := Some "TDyUpdateState_WY"; o_update_diagnostics := None |}
  | RICHARDS, FV_TPF =>
      Some {| o_create := Some "TDyCreate_FVTPF"; o_destroy := Some "TDyDestroy_FVTPF";
              o_set_from_options := Some "TDySetFromOptions_FVTPF"; o_set_dm_fields := Some "TDySetDMFields_Richards_FVTPF";
              o_get_num_dm_fields := Some "TDyGetNumDMFields_Richards_FVTPF"; o_setup := Some "TDySetup_Richards_FVTPF";
              o_update_state := Some "TDyUpdateState_Richards_FVTPF"; o_update_diagnostics := Some "TDyUpdateDiagnostics_FVTPF" |}
  | TH, MPFA_O =>
      Some {| o_create := Some "TDyCreate_MPFAO"; o_destroy := Some "TDyDestroy_MPFAO";
              o_set_from_options := Some "TDySetFromOptions_MPFAO"; o_set_dm_fields := Some "TDySetDMFields_TH_MPFAO";
              o_get_num_dm_fields := o_get_num_dm_fields old; o_setup := Some "TDySetup_TH_MPFAO";
              o_update_state := Some "TDyUpdateState_TH_MPFAO"; o_update_diagnostics := Some "TDyUpdateDiagnostics_MPFAO" |}
  | SALINITY, MPFA_O =>
      Some {| o_create := Some "TDyCreate_MPFAO"; o_destroy := Some "TDyDestroy_MPFAO";
              o_set_from_options := Some "TDySetFromOptions_MPFAO"; o_set_dm_fields := Some "TDySetDMFields_Salinity_MPFAO";
              o_get_num_dm_fields := Some "TDyGetNumDMFields_Salinity_MPFAO"; o_setup := Some "TDySetup_Salinity_MPFAO";
              o_update_state := Some "TDyUpdateState_Salinity_MPFAO"; o_update_diagnostics := Some "TDyUpdateDiagnostics_MPFAO" |}
  | TH, _ | SALINITY, _ => None
  end.

Definition with_disc (s : sim) (d : discretization) (o : ops) : sim :=
  {| mode_set := mode_set s; disc_set := true; options_set := options_set s; setup_finished := setup_finished s;
     s_mode := s_mode s; s_disc := d; s_ops := o; s_random := s_random s; s_init_file := s_init_file s;
     s_output_mesh := s_output_mesh s; s_create_dm := s_create_dm s; s_context := s_context s;
     s_objects := s_objects s; s_diag := s_diag s |}.

(** TDySetDiscretization, src/tdycore.c:832-936. *)
Definition set_discretization (s : sim) (d : discretization) : result :=
  if negb (mode_set s) then Err s else
  match assign_ops (s_mode s) d (s_ops s) with
  | Some o => Ok (with_disc s d o)
  | None => Err s
  end.

(** TDySetMode, src/tdycore.c:813-826. *)
Definition set_mode (s : sim) (m : mode) : result :=
  let s1 := {| mode_set := true; disc_set := disc_set s; options_set := options_set s; setup_finished := setup_finished s;
     s_mode := m; s_disc := s_disc s; s_ops := s_ops s; s_random := s_random s; s_init_file := s_init_file s;
     s_output_mesh := s_output_mesh s; s_create_dm := s_create_dm s; s_context := s_context s;
     s_objects := s_objects s; s_diag := s_diag s |} in
  if disc_set s1 then set_discretization s1 (s_disc s1) else Ok s1.

(** TDySetDMConstructor, src/tdycore.c:340-356. *)
Definition set_dm_constructor (s : sim) (f : nat) : result :=
  if negb (disc_set s) then Err s else
  if options_set s then Err s else
  Ok {| mode_set := mode_set s; disc_set := disc_set s; options_set := options_set s; setup_finished := setup_finished s;
     s_mode := s_mode s; s_disc := s_disc s; s_ops := s_ops s; s_random := s_random s; s_init_file := s_init_file s;
     s_output_mesh := s_output_mesh s; s_create_dm := Some f; s_context := s_context s;
     s_objects := s_objects s; s_diag := s_diag s |}.

(** The command-line options looked at here. *)
Record cli := {
  c_mode : option mode; c_disc : option discretization; c_random : option bool; c_init_file : bool;
  c_output_mesh : option bool; c_pflotran_mesh : bool }.

(** The state left by a call whose return code is ignored. *)
Definition ignore (s : sim) (r : result) : sim := match r with Ok s' | Err s' => s' | Crash => s end.

Definition value {A} (o : option A) (d : A) : A := match o with Some x => x | None => d end.

Definition set_init (s : sim) (random init_file : bool) (objs : nat) : sim :=
  {| mode_set := mode_set s; disc_set := disc_set s; options_set := options_set s; setup_finished := setup_finished s;
     s_mode := s_mode s; s_disc := s_disc s; s_ops := s_ops s; s_random := random; s_init_file := init_file;
     s_output_mesh := s_output_mesh s; s_create_dm := s_create_dm s; s_context := s_context s;
     s_objects := objs; s_diag := s_diag s |}.

(** ReadCommandLineOptions and TDySetFromOptions, src/tdycore.c:504-621 and 627-717. *)
Definition set_from_options (s : sim) (c : cli) : result :=
  if setup_finished s then Err s else
  let m := value (c_mode c) (s_mode s) in
  let d := value (c_disc c) (s_disc s) in
  (* 595-600: return codes ignored *)
  let s1 := if mode_eqb (s_mode s) m then s else ignore s (set_mode s m) in
  let s2 := if disc_eqb (s_disc s1) d then s1 else ignore s1 (set_discretization s1 d) in
  (* 602-603; PetscOptionsGetString sets the flag either way *)
  let s3 := set_init s2 (value (c_random c) (s_random s2)) (c_init_file c) (S (s_objects s2)) in
  if s_init_file s3 && s_random s3 then Err s3 else
  match o_create (s_ops s3) with
  | None => Crash                                   (* 645: call through a null pointer *)
  | Some create =>
      match c_pflotran_mesh c, o_get_num_dm_fields (s_ops s3) with
      | true, None => Crash                         (* 657 *)
      | _, _ =>
          Ok {| mode_set := mode_set s3; disc_set := disc_set s3; options_set := true; setup_finished := setup_finished s3;
                s_mode := s_mode s3; s_disc := s_disc s3; s_ops := s_ops s3; s_random := s_random s3; s_init_file := s_init_file s3;
                s_output_mesh := value (c_output_mesh c) (s_output_mesh s3); s_create_dm := s_create_dm s3;
                s_context := Some create; s_objects := s_objects s3; s_diag := s_diag s3 |}
      end
  end.

(** Which create function makes the context a setup or destroy function expects. *)
Definition context_of (f : string) : string :=
  if String.eqb f "TDySetup_BDM" || String.eqb f "TDyDestroy_BDM" then "TDyCreate_BDM"
  else if String.eqb f "TDySetup_WY" || String.eqb f "TDyDestroy_WY" then "TDyCreate_WY"
  else if String.eqb f "TDySetup_Richards_FVTPF" || String.eqb f "TDyDestroy_FVTPF" then "TDyCreate_FVTPF"
  else "TDyCreate_MPFAO".

(** A function of an implementation is called with a context: a missing context or
    one of another implementation is undefined behaviour. *)
Definition context_fits (f : string) (ctx : option string) : bool :=
  match ctx with Some c => String.eqb c (context_of f) | None => false end.

(** TDySetup, src/tdycore.c:724-808 (DMPlex meshes, for which update_diagnostics is kept). *)
Definition setup (s : sim) : result :=
  if negb (disc_set s) then Err s else
  if negb (options_set s) then Err s else
  match o_setup (s_ops s) with
  | None => Crash
  | Some f =>
      if negb (context_fits f (s_context s)) then Crash else
      let mk done := {| mode_set := mode_set s; disc_set := disc_set s; options_set := options_set s; setup_finished := done;
         s_mode := s_mode s; s_disc := s_disc s; s_ops := s_ops s; s_random := s_random s; s_init_file := s_init_file s;
         s_output_mesh := s_output_mesh s; s_create_dm := s_create_dm s; s_context := s_context s; s_objects := s_objects s;
         s_diag := match o_update_diagnostics (s_ops s) with Some _ => true | None => s_diag s end |} in
      if s_output_mesh s && negb (disc_eqb (s_disc s) MPFA_O) then Err (mk (setup_finished s)) else Ok (mk true)
  end.

(** Calls that need a finished setup: TDyUpdateDiagnostics and
    TDyCreateDiagnosticVector / TDyGetLiquidSaturation / TDyGetLiquidMass (1663-1825,
    [diag] true), TDyCreatePrognosticVector, TDyCreateMatrix, TDyGetLiquidPressure
    ([diag] false). *)
Definition query (s : sim) (diag : bool) : result :=
  if negb (setup_finished s) then Err s else
  if diag then
    match o_update_diagnostics (s_ops s) with
    | None => Err s
    | Some _ => if s_diag s then Ok s else Crash        (* tdy->diag_vec is NULL *)
    end
  else Ok s.

(** TDyDestroy, src/tdycore.c:368-420: the implementation's destructor is called
    whenever it is known, and dereferences the context. *)
Definition destroy (s : sim) : option unit :=
  match o_destroy (s_ops s) with
  | None => Some tt
  | Some f => if context_fits f (s_context s) then Some tt else None
  end.

Inductive call :=
| CSetMode (m : mode) | CSetDisc (d : discretization) | CSetDM (f : nat)
| CSetFromOptions (c : cli) | CSetup | CQuery (diag : bool).

Definition exec (s : sim) (c : call) : result :=
  match c with
  | CSetMode m => set_mode s m
  | CSetDisc d => set_discretization s d
  | CSetDM f => set_dm_constructor s f
  | CSetFromOptions o => set_from_options s o
  | CSetup => setup s
  | CQuery b => query s b
  end.

(** A program that carries on after errors. *)
Fixpoint run (s : sim) (l : list call) : result :=
  match l with
  | [] => Ok s
  | c :: l => match exec s c with Ok s' | Err s' => run s' l | Crash => Crash end
  end.

(** A program that stops at the first error. *)
Fixpoint run_strict (s : sim) (l : list call) : result :=
  match l with
  | [] => Ok s
  | c :: l => match exec s c with Ok s' => run_strict s' l | r => r end
  end.
