(** Specification vocabulary for the life cycle. *)
From Coq Require Import String Bool List.
From Verif Require Import Lifecycle.
Local Open Scope string_scope.

(** Pairs documented as supported: every discretization for RICHARDS, MPFA-O for
    the other two modes. *)
Definition supported (m : mode) (d : discretization) : Prop := m = RICHARDS \/ d = MPFA_O.

(** Name of the implementation family and of the mode-specific variant. *)
Definition family (d : discretization) : string :=
  match d with
  | MPFA_O | MPFA_O_DAE | MPFA_O_TRANSIENTVAR => "MPFAO" | BDM => "BDM" | WY => "WY" | FV_TPF => "FVTPF"
  end.
Definition variant (m : mode) (d : discretization) : string :=
  match m, d with
  | TH, _ => "TH_MPFAO"
  | SALINITY, _ => "Salinity_MPFAO"
  | RICHARDS, MPFA_O | RICHARDS, MPFA_O_TRANSIENTVAR => "Richards_MPFAO"
  | RICHARDS, MPFA_O_DAE => "Richards_MPFAO_DAE"
  | RICHARDS, FV_TPF => "Richards_FVTPF"
  | RICHARDS, BDM => "BDM"
  | RICHARDS, WY => "WY"
  end.

(** The operations of a pair, except get_num_dm_fields, update_state and
    update_diagnostics. *)
Definition ops_belong (m : mode) (d : discretization) (o : ops) : Prop :=
  o_create o = Some ("TDyCreate_" ++ family d) /\
  o_destroy o = Some ("TDyDestroy_" ++ family d) /\
  o_set_from_options o = Some ("TDySetFromOptions_" ++ family d) /\
  o_set_dm_fields o = Some ("TDySetDMFields_" ++ variant m d) /\
  o_setup o = Some ("TDySetup_" ++ variant m d).

(** What a call needs. *)
Definition allowed (s : sim) (c : call) : Prop :=
  match c with
  | CSetMode _ => True
  | CSetDisc _ => mode_set s = true
  | CSetDM _ => disc_set s = true /\ options_set s = false
  | CSetFromOptions _ => setup_finished s = false
  | CSetup => disc_set s = true /\ options_set s = true
  | CQuery _ => setup_finished s = true
  end.
