(** Model of the functions that Fortran programs hand to the library: the registry of
    functions (src/f90-mod/tdycoremod.F90:51-59, 343-448, 461-811), the call of a registered
    function (tdycoremod.F90:306-341, src/f90-mod/tdycoref.c:259-325) and the constructors of
    meshes (src/tdycore.c:341-366, 664-676).
    Functions are named by numbers.  The arrays of Fortran begin at 1.  A character variable
    that has not been set holds something: [junk] says what. *)
From Coq Require Import Reals List Bool Arith String.
From Verif Require Import Prelude Arrays.
Import ListNotations.
Local Open Scope nat_scope.

(** ** The registry *)
Record reg := Reg { funcs : list (option nat); names : list string }.

(** Element [i] of an array that begins at 1. *)
Definition rd1 {A} (l : list A) (i : nat) : outcome A := match i with O => UB | S i => rd l i end.
Definition wr1 {A} (l : list A) (i : nat) (x : A) : outcome (list A) := match i with O => UB | S i => wr l i x end.

(** associated(p, f) *)
Definition associated (p : option nat) (f : nat) : bool := match p with Some g => g =? f | None => false end.

(** do id = 1, last; if (associated(...)) exit; the variable is last + 1 after the last pass. *)
Fixpoint scan (l : list (option nat)) (f fuel id : nat) : outcome nat :=
  match fuel with
  | O => Ok id
  | S fuel => do p <- rd1 l id; if associated p f then Ok id else scan l f fuel (S id)
  end.

(** allocate(new(2*old_size)): pointers are null, characters are not set. *)
Definition grow (junk : nat -> string) (r : reg) : reg :=
  let n := List.length (funcs r) in
  Reg (funcs r ++ repeat None n) (names r ++ map junk (seq n n)).

(** FindOrAppendSpatialFunction, 343-383, and FindOrAppendIntegerSpatialFunction, 385-423:
    the array may not be allocated; the counter is the same variable for both. *)
Definition FindOrAppend (junk : nat -> string) (o : option reg) (last f : nat) : outcome (reg * nat * nat) :=
  do s <- match o with
          | None => Ok (Reg (repeat None 32) (map junk (seq 0 32)), 1, 1)
          | Some r => do id <- scan (funcs r) f last 1; Ok (r, last, id)
          end;
  let '(r, last, id) := s in
  do p <- rd1 (funcs r) id;
  if associated p f then Ok (r, last, id)
  else
    let r := if List.length (funcs r) <? last then grow junk r else r in
    do fs <- wr1 (funcs r) last (Some f);
    Ok (Reg fs (names r), S last, last).

(** What is allocated, the counter, and the numbers stored with the properties and
    conditions ([slots]) and with the type of the boundary condition. *)
Record state := State { sp : option reg; ig : option reg; last : nat; slots : nat -> option nat; kind : option nat }.
Definition start : state := State None None 0 (fun _ => None) None.

(** TDySet…Function, 562-638, 666-690, 715-739, 787-811, for property or condition [p]. *)
Definition SetFunction (junk : nat -> string) (p f : nat) (s : state) : outcome state :=
  do x <- FindOrAppend junk (sp s) (last s) f;
  let '(r, l, id) := x in
  Ok (State (Some r) (ig s) l (fun q => if q =? p then Some id else slots s q) (kind s)).

(** TDySetBoundaryPressureTypeFunction, 640-664. *)
Definition SetTypeFunction (junk : nat -> string) (f : nat) (s : state) : outcome state :=
  do x <- FindOrAppend junk (ig s) (last s) f;
  let '(r, l, id) := x in
  Ok (State (sp s) (Some r) l (slots s) (Some id)).

(** Assignment to a character variable of length 32. *)
Fixpoint spaces (n : nat) : string := match n with O => ""%string | S n => String.append " "%string (spaces n) end.
Definition pad (s : string) : string :=
  if 32 <=? String.length s then substring 0 32 s else String.append s (spaces (32 - String.length s)).

(** RegisterSpatialFunction, 425-434. *)
Definition RegisterFunction (junk : nat -> string) (name : string) (f : nat) (s : state) : outcome state :=
  do x <- FindOrAppend junk (sp s) (last s) f;
  let '(r, l, id) := x in
  do ns <- wr1 (names r) id (pad name);
  Ok (State (Some (Reg (funcs r) ns)) (ig s) l (slots s) (kind s)).

(** name(1:32) *)
Definition first32 (name : string) : outcome string := if 32 <=? String.length name then Ok (substring 0 32 name) else UB.

(** GetSpatialFunction, 436-448. *)
Definition GetFunction (name : string) (o : option reg) : outcome (option nat) :=
  match o with
  | None => UB
  | Some r =>
      for_ (List.length (funcs r)) (fun i func =>
        do a <- rd (names r) i; do b <- first32 name;
        if String.eqb a b then rd (funcs r) i else Ok func) None
  end.

(** TDySelect…Function, 492-560: the pointer has to be associated. *)
Definition SelectFunction (junk : nat -> string) (p : nat) (name : string) (s : state) : outcome state :=
  do o <- GetFunction name (sp s);
  match o with Some f => SetFunction junk p f s | None => UB end.

Inductive call := CSet (p f : nat) | CSetType (f : nat) | CRegister (name : string) (f : nat) | CSelect (p : nat) (name : string).
Definition exec (junk : nat -> string) (c : call) (s : state) : outcome state :=
  match c with
  | CSet p f => SetFunction junk p f s
  | CSetType f => SetTypeFunction junk f s
  | CRegister name f => RegisterFunction junk name f s
  | CSelect p name => SelectFunction junk p name s
  end.
Fixpoint run (junk : nat -> string) (cs : list call) (s : state) : outcome state :=
  match cs with [] => Ok s | c :: cs => do s <- exec junk c s; run junk cs s end.

(** Which function is called for a property: TDyCallF90SpatialFunction, line 318, and
    TDyCallF90IntegerSpatialFunction, line 337. *)
Definition entry (o : option reg) (id : option nat) : outcome nat :=
  match id with
  | None => Err
  | Some id =>
      match o with
      | None => UB
      | Some r => do p <- rd1 (funcs r) id; match p with Some f => Ok f | None => UB end
      end
  end.
Definition called (s : state) (p : nat) : outcome nat := entry (sp s) (slots s p).
Definition called_type (s : state) : outcome nat := entry (ig s) (kind s).

(** ** The call: lines 319-321.  Both Fortran arrays have n elements; the function gets n and
    the two arrays and returns the second. *)
Definition ffun := nat -> list R -> list R -> outcome (list R).
Definition view {A} (l : list A) (n : nat) : outcome (list A) := if n <=? List.length l then Ok (firstn n l) else UB.
Definition CallF90 (g : ffun) (n : nat) (x f : list R) : outcome (list R) :=
  do vx <- view x n; do vf <- view f n;
  do r <- g n vx vf; Ok (r ++ skipn n f).

(** demo/transient/fv_tpff90.F90:17-26: theta(:) = c. *)
Definition demo_porosity (c : R) : ffun := fun n x f => Ok (map (fun _ => c) f).
(** demo/transient/fv_tpff90.F90:118-153: [pressure = ...] sets the whole array. *)
Definition demo_pressure (is_top : R -> R -> R -> bool) : ffun := fun n x f =>
  for_ n (fun i f => do a <- rd x (3 * i); do b <- rd x (3 * i + 1); do c <- rd x (3 * i + 2);
                     Ok (map (fun _ => if is_top a b c then 111325%R else 70000%R) f)) f.

(** ** Constructors of meshes: one C function for each simulator, one Fortran function. *)
Record ctors := Ctors { c_ctor : nat -> option nat; f_ctor : option nat }.
Inductive ctor_call := SetC (t f : nat) | SetF (t f : nat).
Definition set_ctor (c : ctor_call) (s : ctors) : ctors :=
  match c with
  | SetC t f => Ctors (fun u => if u =? t then Some f else c_ctor s u) (f_ctor s)
  | SetF t f => Ctors (c_ctor s) (Some f)
  end.
Inductive mesh_source := FromC (f : nat) | FromFortran (f : nat) | FromOptions.
(** src/tdycore.c:665-675 *)
Definition mesh_of (s : ctors) (t : nat) : mesh_source :=
  match c_ctor s t with
  | Some f => FromC f
  | None => match f_ctor s with Some f => FromFortran f | None => FromOptions end
  end.
Definition no_ctors : ctors := Ctors (fun _ => None) None.
