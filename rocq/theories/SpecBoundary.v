(** Specification vocabulary for the boundary.  Of Boundary.v only the data types
    are used. *)
From Coq Require Import Reals List Arith ZArith.
From Verif Require Import Prelude CharCurves CharCurveSet SpecCurveSet Eos SpecEos State SpecState Boundary.
Import ListNotations.
Local Open Scope R_scope.

(** ** Boundary faces *)

Definition boundary_faces (faces : list face) : list face := filter (fun f => negb (internal f)) faces.
(** A boundary face has a cell on one side and its own number [b], stored as
    [-b-1], on the other. *)
Definition touches (f : face) (cb : nat * nat) : Prop :=
  (id0 f = Z.of_nat (fst cb) /\ id1 f = (- Z.of_nat (snd cb) - 1)%Z) \/ (id1 f = Z.of_nat (fst cb) /\ id0 f = (- Z.of_nat (snd cb) - 1)%Z).
(** The boundary faces have the cells and numbers [l], and no number is used twice. *)
Definition numbering (N nb : nat) (faces : list face) (l : list (nat * nat)) : Prop :=
  Forall2 touches (boundary_faces faces) l /\ NoDup (map snd l) /\ Forall (fun cb => (fst cb < N)%nat /\ (snd cb < nb)%nat) l.

(** What a face should be given: the prescribed value there, or that of the cell. *)
Definition prescribed (bc : condition) (f : face) (of_cell v : R) : Prop :=
  match bc with Some fn => fn (centroid f) = Ok v | None => v = of_cell end.
Definition evaluates (bc : condition) (faces : list face) : Prop :=
  forall fn f, bc = Some fn -> In f (boundary_faces faces) -> exists v, fn (centroid f) = Ok v.

(** ** Curves *)

(** As [curves_set]; in addition either few cells or all have a Gardner curve
    (otherwise the lookup of a cell with another curve reads outside the table, see C05). *)
Definition curves_ready (g : setting) (N : nat) (sc : nat -> sat_curve) (kc : nat -> kr_law) : Prop :=
  (exists h, run sat_nparams sat_eval cc_create h = Ok (sat g) /\ disjoint_assignment h
    /\ (forall ty j, (ty < 2)%nat -> In j (points_of h ty) -> (j < N)%nat)
    /\ (forall c, (c < N)%nat -> exists ty p, (ty < 2)%nat /\ assigned sat_nparams h ty c p /\ describes_sat ty p (sc c))
    /\ ((length (points_of h 0) <= 6)%nat \/ forall c, (c < N)%nat -> In c (points_of h 0)))
  /\ (exists h, run kr_nparams kr_eval_fl cc_create h = Ok (relperm g)
    /\ (points_of h 0 = seq 0 N /\ points_of h 1 = [] \/ points_of h 0 = [] /\ points_of h 1 = seq 0 N)
    /\ (forall c, (c < N)%nat -> exists ty p, (ty < 2)%nat /\ assigned kr_nparams h ty c p /\ describes_kr ty p (kc c))).

(** The curves of the cell at the pressure of the face. *)
Definition wet_face (g : setting) (sc : sat_curve) (kc : kr_law) (f : material) (P : R) (q : bpoint) : Prop :=
  b_sat q = sat_at sc (Sr f) (Pref g) P
  /\ forall S, fst (fst (b_sat q)) = Some S -> Sr f <> 1 ->
       let k := law kc (effective_saturation (Sr f) S) in
       fst (b_kr q) = fst k /\ snd (b_kr q) = fl1 (fun d => d / (1 - Sr f)) (snd k).

(** ** Sizes and histories *)

Definition has_vector (md : mode) : Prop := md <> RichardsFvtpf.
Definition sized_bnd (md : mode) (N nb : nat) (b : bstate) : Prop :=
  length (P_bnd b) = nb /\ length (bpoints b) = nb /\ (has_vector md -> (N + nb <= length (pvec b))%nat)
  /\ (unknowns md = 2%nat -> length (x_bnd b) = nb /\ (N + nb <= length (xvec b))%nat).
(** The settings agree except for the stored curves. *)
Definition same_setting (g h : setting) : Prop :=
  Pref g = Pref h /\ Tref g = Tref h /\ den_type g = den_type h /\ vis_type g = vis_type h /\ enthalpy g = enthalpy h.
(** Evaluations at a sequence of solutions. *)
Fixpoint refreshes (md : mode) (bcP bcX : condition) (mats : list material) (N nb : nat) (faces : list face) (Us : list (list R)) (s : setting * bstate)
    : outcome (setting * bstate) :=
  match Us with
  | [] => Ok s
  | U :: Us => do s <- refresh md bcP bcX mats N nb faces U s; refreshes md bcP bcX mats N nb faces Us s
  end.

(** Water of a face with pressure [P], temperature [T] and salt content [m]. *)
Definition water_at (g : setting) (P T m : R) (w : water) : Prop :=
  w_rho w = cell_value (EOSComputeWaterDensity (den_type g) P T m (None, None, None))
  /\ w_vis w = cell_value (EOSComputeWaterViscosity (vis_type g) P T m (None, None, None)).
