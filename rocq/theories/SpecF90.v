(** What is expected of functions handed over from Fortran: the history alone decides which
    function is used. *)
From Coq Require Import List Bool Arith String.
From Verif Require Import Prelude F90.
Import ListNotations.
Local Open Scope nat_scope.

(** The function last set for [p], the type function last set, the name last given to [f]. *)
Definition chosen (p : nat) (cs : list call) : option nat :=
  fold_left (fun a c => match c with CSet q f => if q =? p then Some f else a | _ => a end) cs None.
Definition chosen_type (cs : list call) : option nat :=
  fold_left (fun a c => match c with CSetType f => Some f | _ => a end) cs None.
Definition name_of (f : nat) (cs : list call) : option string :=
  fold_left (fun a c => match c with CRegister n g => if g =? f then Some n else a | _ => a end) cs None.
(** The function last registered under a name. *)
Definition named (name : string) (cs : list call) : option nat :=
  fold_left (fun a c => match c with CRegister n g => if String.eqb n name then Some g else a | _ => a end) cs None.

Definition answer (o : option nat) : outcome nat := match o with Some f => Ok f | None => Err end.

(** Calls about real functions (by themselves), calls about the type. *)
Definition spatial (c : call) : Prop := match c with CSet _ _ | CRegister _ _ => True | _ => False end.
Definition typed (c : call) : Prop := match c with CSetType _ => True | _ => False end.
Definition functions (cs : list call) : list nat :=
  flat_map (fun c => match c with CSet _ f => [f] | CSetType f => [f] | CRegister _ f => [f] | CSelect _ _ => [] end) cs.
(** At most [n] different functions. *)
Definition at_most (n : nat) (l : list nat) : Prop := exists fs, List.length fs <= n /\ incl l fs.
