(** Model of the start of the driver: TDyDriverInitializeTDy (src/tdydriver.c:10-230), the
    functions that hand the residuals and Jacobians to the solvers (src/tdycore.c:1868-2047)
    and the initial states of the modes (src/tdyrichards.c:5-29, src/tdyth.c:5-45,
    src/tdysalinity.c:4-40).
    Call-backs are represented by their names.  TDySetup, the creation of vectors and
    matrices and all calls into PETSc are assumed to succeed. *)
From Coq Require Import Reals List Bool Arith.
From Verif Require Import Lifecycle Prelude Arrays.
Import ListNotations.
Local Open Scope R_scope.

(** include/private/tdytiimpl.h: TDyTimeIntegrationMethod. *)
Inductive method := TDySNES | TDyTS.

Inductive residual :=
| MPFAOSNESFunction | MPFAOSNESFunction_Salinity | FVTPFSNESFunction
| MPFAOIFunction | MPFAOIFunction_TH | MPFAOIFunction_DAE | MPFAOIFunction_TransientVariable | WYResidual.
Inductive jacobian := MPFAOSNESJacobian | FVTPFSNESJacobian | MPFAOIJacobian | MPFAOIJacobian_TH.

(** TDySetIFunction, src/tdycore.c:1868-1919. *)
Definition SetIFunction (m : mode) (d : discretization) : outcome residual :=
  match d with
  | MPFA_O => match m with RICHARDS => Ok MPFAOIFunction | TH => Ok MPFAOIFunction_TH | SALINITY => Err end
  | MPFA_O_DAE => Ok MPFAOIFunction_DAE
  | MPFA_O_TRANSIENTVAR => Ok MPFAOIFunction_TransientVariable
  | BDM => Err
  | WY => Ok WYResidual
  | FV_TPF => Err
  end.

(** TDySetIJacobian, src/tdycore.c:1921-1965; None: no function is handed to the solver. *)
Definition SetIJacobian (m : mode) (d : discretization) : outcome (option jacobian) :=
  match d with
  | MPFA_O => Ok (match m with RICHARDS => Some MPFAOIJacobian | TH => Some MPFAOIJacobian_TH | SALINITY => None end)
  | MPFA_O_DAE => Ok None
  | MPFA_O_TRANSIENTVAR => Ok None
  | BDM | WY | FV_TPF => Err
  end.

(** TDySetSNESFunction, src/tdycore.c:1967-2014. *)
Definition SetSNESFunction (m : mode) (d : discretization) : outcome residual :=
  match d with
  | MPFA_O => match m with
              | RICHARDS => Ok MPFAOSNESFunction
              | TH => Ok MPFAOSNESFunction
              | SALINITY => Ok MPFAOSNESFunction_Salinity
              end
  | MPFA_O_DAE | MPFA_O_TRANSIENTVAR | BDM | WY => Err
  | FV_TPF => Ok FVTPFSNESFunction
  end.

(** TDySetSNESJacobian, src/tdycore.c:2016-2056. *)
Definition SetSNESJacobian (m : mode) (d : discretization) : outcome (option jacobian) :=
  match d with
  | MPFA_O => Ok (Some MPFAOSNESJacobian)
  | MPFA_O_DAE | MPFA_O_TRANSIENTVAR | BDM | WY => Err
  | FV_TPF => Ok (Some FVTPFSNESJacobian)
  end.

(** ** Material properties *)

Inductive prop := Porosity | Permeability | ResidualSaturation | ThermalConductivity | SoilDensity
                | SoilSpecificHeat | SalineMolecularWeight | SalineDiffusivity.
Definition prop_eqb (a b : prop) : bool :=
  match a, b with
  | Porosity, Porosity | Permeability, Permeability | ResidualSaturation, ResidualSaturation
  | ThermalConductivity, ThermalConductivity | SoilDensity, SoilDensity | SoilSpecificHeat, SoilSpecificHeat
  | SalineMolecularWeight, SalineMolecularWeight | SalineDiffusivity, SalineDiffusivity => true
  | _, _ => false
  end.
(** Where the function of a property comes from: set by the caller (and which one), a
    constant from the options, or the data set of a file. *)
Inductive source := User (f : nat) | Option_ | File.
Definition table := prop -> option source.
Definition set (t : table) (p : prop) (s : source) : table := fun q => if prop_eqb p q then Some s else t q.
(** MaterialPropHas…, src/materials/tdymaterialproperties.c:178-231. *)
Definition has (t : table) (p : prop) : bool := match t p with Some _ => true | None => false end.
Definition set_unless (t : table) (p : prop) (s : source) : table := if has t p then t else set t p s.

(** src/tdydriver.c:39-89.  The files of porosity and permeability are given by name. *)
Definition materials (m : mode) (porosity_file permeability_file : bool) (t : table) : table :=
  let t := set_unless t Porosity (if porosity_file then File else Option_) in
  let t := set_unless t Permeability (if permeability_file then File else Option_) in
  let t := set_unless t ResidualSaturation Option_ in
  match m with
  | TH =>
      let t := set_unless t ThermalConductivity Option_ in
      let t := set_unless t SoilDensity Option_ in
      set_unless t SoilSpecificHeat Option_
  | SALINITY =>
      let t := set t SalineMolecularWeight Option_ in
      set_unless t SalineDiffusivity Option_
  | RICHARDS => t
  end.

(** ** Initial state: the entries of tdy->soln and tdy->soln_prev owned by a process. *)

Record state := State { soln : list R; soln_prev : list R }.

(** A PetscRandom: draw k i is the i-th number of the k-th call of VecSetRandom, for the
    interval [0,1] (PetscRandomSetInterval scales it). *)
Definition random := nat -> nat -> R.
Definition VecSetRandom (draw : random) (k : nat) (lo hi : R) (n : nat) : list R :=
  map (fun i => lo + draw k i * (hi - lo)) (seq 0 n).

(** [for (i=first; i<n; i+=2) soln[i] = temp[i]]. *)
Definition every_second (first n : nat) (temp s : list R) : outcome (list R) :=
  for_ n (fun i s => if (first <=? i)%nat && Nat.even (i - first) then do x <- rd temp i; wr s i x else Ok s) s.

Definition two_fields (draw : random) (lo0 hi0 lo1 hi1 : R) (s : list R) : outcome (list R) :=
  let n := length s in
  do s <- every_second 0 n (VecSetRandom draw 0 lo0 hi0 n) s;
  every_second 1 n (VecSetRandom draw 1 lo1 hi1 n) s.

Definition VecSet (s : list R) (x : R) : list R := map (fun _ => x) s.

(** The vector in a binary file; VecLoad refuses a vector of another length. *)
Definition VecLoad (file : option (list R)) (s : list R) : outcome (list R) :=
  match file with
  | Some v => if (length v =? length s)%nat then Ok v else Err
  | None => Err
  end.

(** The options: -tdy_init_with_random_field, -tdy_init_file (None: not given; Some None: it
    cannot be read), -ic_file in the same way.  The vector of -ic_file is in the order of the
    solution, the reordering of TDySetInitialCondition being that of Scatter.v. *)
Record options := Options {
  opt_random : bool; init_file : option (option (list R)); ic_file : option (option (list R));
  porosity_file : bool; permeability_file : bool }.

Definition RichardsInitialize (draw : random) (o : options) (s : state) : outcome state :=
  if opt_random o then Ok (State (VecSetRandom draw 0 10000 1000000 (length (soln s))) (soln_prev s))
  else match init_file o with
       | Some f => do v <- VecLoad f (soln s); Ok (State v v)
       | None => Ok (State (VecSet (soln s) 101325) (soln_prev s))
       end.
Definition THInitialize (draw : random) (o : options) (s : state) : outcome state :=
  if opt_random o then do v <- two_fields draw 10000 100000 15 35 (soln s); Ok (State v (soln_prev s))
  else Ok (State (VecSet (soln s) 101325) (soln_prev s)).
Definition SalinityInitialize (draw : random) (o : options) (s : state) : outcome state :=
  if opt_random o then do v <- two_fields draw 10000 100000 (1/10) (8/10) (soln s); Ok (State v (soln_prev s))
  else Ok (State (VecSet (soln s) 101325) (soln_prev s)).
Definition Initialize (m : mode) (draw : random) (o : options) (s : state) : outcome state :=
  match m with
  | RICHARDS => RichardsInitialize draw o s
  | TH => THInitialize draw o s
  | SALINITY => SalinityInitialize draw o s
  end.

(** TDyIOReadIC, src/tdyio.c:263-290, with TDySetInitialCondition, src/tdycore.c:1625-1632. *)
Definition ReadIC (f : option (list R)) (s : state) : outcome state :=
  do v <- VecLoad f (soln s); Ok (State v v).

(** ** TDyDriverInitializeTDy, src/tdydriver.c:10-230 *)

Record prepared := Prepared { p_residual : residual; p_jacobian : option jacobian; p_state : state; p_table : table }.

Definition unsupported (m : mode) (w : method) : bool :=
  match w, m with TDySNES, TH => true | TDyTS, SALINITY => true | _, _ => false end.

Definition InitializeTDy (m : mode) (d : discretization) (w : method) (draw : random) (o : options)
    (t : table) (s : state) : outcome prepared :=
  match d with
  | WY => Err
  | _ =>
    let t := materials m (porosity_file o) (permeability_file o) t in
    if unsupported m w then Err else
    do r <- match w with TDySNES => SetSNESFunction m d | TDyTS => SetIFunction m d end;
    do j <- match w with TDySNES => SetSNESJacobian m d | TDyTS => SetIJacobian m d end;
    do s <- Initialize m draw o s;
    (* 214-218: the code returned by TDyIOReadIC is not looked at *)
    let s := match ic_file o with
             | Some f => match ReadIC f s with Ok s' => s' | _ => s end
             | None => s
             end in
    let s := match w with TDySNES => State (soln s) (soln s) | TDyTS => s end in
    Ok (Prepared r j s t)
  end.

(** A whole start: the mode and the discretization are chosen (TDySetMode and
    TDySetDiscretization, src/tdycore.c:813-936, in Lifecycle.v), the options are read (at most
    one of the two kinds of initial field, src/tdycore.c:605-607), the vectors are created (all
    zero) and the driver is initialised. *)
Definition start (m : mode) (d : discretization) (w : method) (draw : random) (o : options) (t : table) (n : nat)
  : outcome prepared :=
  match assign_ops m d no_ops with
  | None => Err
  | Some _ =>
      if opt_random o && match init_file o with Some _ => true | None => false end then Err else
      InitializeTDy m d w draw o t (State (repeat 0 n) (repeat 0 n))
  end.
