(** Model of the state on the boundary faces: TDyMPFAO_SetBoundaryPressure,
    _SetBoundaryTemperature and _SetBoundarySalineConcentration
    (src/fv/mpfao/tdympfao_utils.c:690-883), TDyFVTPFSetBoundaryPressure
    (src/fv/fvtpf/tdyfvtpf.c:574-624), TDyMPFAOUpdateBoundaryState
    (tdympfao_utils.c:24-99) and its copy TDyFVTPFUpdateBoundaryState
    (tdyfvtpf.c:498-573), and of the allocation of the boundary arrays
    (tdympfao.c:297-362, tdyfvtpf.c:276-309).

    Simplifications: a boundary condition is [None] (not set) or a function from
    the centroid of a face to a value or an error; the arrays S_bnd, dS_dP_bnd,
    d2S_dP2_bnd, Kr_bnd, dKr_dS_bnd, which have the same length, are one array. *)
From Coq Require Import Reals List Arith ZArith Bool.
From Verif Require Import Prelude Arrays Eos CharCurveSet State.
Import ListNotations.
Local Open Scope R_scope.

Definition location := (R * R * R)%type.
(** is_internal, the two entries of cell_ids, centroid. *)
Record face := mkFace { internal : bool; id0 : Z; id1 : Z; centroid : location }.
Definition condition := option (location -> outcome R).

(** Array accesses with an index that may be negative. *)
Definition rdz {A} (a : list A) (i : Z) : outcome A := if (i <? 0)%Z then UB else rd a (Z.to_nat i).
Definition wrz {A} (a : list A) (i : Z) (v : A) : outcome (list A) := if (i <? 0)%Z then UB else wr a (Z.to_nat i) v.

(** tdympfao_utils.c:735-741: the cell of a boundary face, and the number of the face. *)
Definition boundary_ids (f : face) : Z * Z :=
  if (0 <=? id0 f)%Z then (id0 f, (- id1 f - 1)%Z) else (id1 f, (- id0 f - 1)%Z).

(** One face, tdympfao_utils.c:728-752: [vals] are the values of the cells, [bnd] is
    P_bnd, T_bnd or Psi_bnd, [vec] is P_vec, Temp_P_vec or Psi_vec.  The two-point
    scheme has no such vector ([keep] is false). *)
Definition set_face (bc : condition) (vals : list R) (ncells : nat) (keep : bool) (f : face) (s : list R * list R) : outcome (list R * list R) :=
  if internal f then Ok s
  else
    let '(c, b) := boundary_ids f in
    do v <- match bc with Some fn => fn (centroid f) | None => rdz vals c end;
    do bnd <- wrz (fst s) b v;
    do vec <- (if keep then wrz (snd s) (b + Z.of_nat ncells) v else Ok (snd s));
    Ok (bnd, vec).
Definition set_boundary (bc : condition) (vals : list R) (ncells : nat) (keep : bool) (faces : list face) (s : list R * list R) : outcome (list R * list R) :=
  for_ (length faces) (fun i s => do f <- rd faces i; set_face bc vals ncells keep f s) s.

(** tdympfao_utils.c:690-757 and tdyfvtpf.c:574-624. *)
Definition SetBoundaryPressure (md : mode) (bc : condition) (U : list R) (ncells : nat) (faces : list face) (s : list R * list R) : outcome (list R * list R) :=
  do p <- gather md 0 U ncells;
  set_boundary bc p ncells (match md with RichardsFvtpf => false | _ => true end) faces s.
(** tdympfao_utils.c:760-883. *)
Definition SetBoundarySecond (md : mode) (bc : condition) (U : list R) (ncells : nat) (faces : list face) (s : list R * list R) : outcome (list R * list R) :=
  do t <- gather md 1 U ncells;
  set_boundary bc t ncells true faces s.

(** ** UpdateBoundaryState *)

(** tdympfao_utils.c:36-55: the lists of cells and of face numbers, with room for
    num_boundary_faces entries. *)
Definition collect (nb : nat) (f : face) (s : list nat * list nat) : outcome (list nat * list nat) :=
  if internal f then Ok s
  else
    let '(c, b) := boundary_ids f in
    if (length (fst s) <? nb)%nat then
      if ((c <? 0)%Z || (b <? 0)%Z)%bool then UB else Ok (fst s ++ [Z.to_nat c], snd s ++ [Z.to_nat b])
    else UB.

(** The entries of S_bnd, dS_dP_bnd, d2S_dP2_bnd and of Kr_bnd, dKr_dS_bnd. *)
Record bpoint := mkBpoint { b_sat : fl * fl * fl; b_kr : fl * fl }.

(** tdympfao_utils.c:58-64. *)
Definition inputs (Pref : R) (mats : list material) (P_bnd : list R) (ids : list nat * list nat) (k : nat) (out : list (R * R)) : outcome (list (R * R)) :=
  do c <- rd (fst ids) k;
  do f <- rd mats c;
  do b <- rd (snd ids) k;
  do P <- rd P_bnd b;
  Ok (out ++ [(Sr f, Pref - P)]).
(** tdympfao_utils.c:76-79. *)
Definition effective_bnd (inp : list (R * R)) (S : list (fl * fl * fl)) (k : nat) (out : list fl) : outcome (list fl) :=
  do x <- rd inp k;
  do s <- rd S k;
  Ok (out ++ [flet s := fst (fst s); fdiv (s - fst x) (1 - fst x)]).
(** tdympfao_utils.c:88-95. *)
Definition place (inp : list (R * R)) (bs : list nat) (S : list (fl * fl * fl)) (Kr : list (fl * fl)) (k : nat) (out : list bpoint) : outcome (list bpoint) :=
  do x <- rd inp k;
  do b <- rd bs k;
  do s <- rd S k;
  do kr <- rd Kr k;
  wr out b (mkBpoint s (fst kr, fl2 Rmult (snd kr) (fdiv 1 (1 - fst x)))).

(** tdympfao_utils.c:24-99.  The evaluation builds lookup tables, so the curves are
    returned too.  The local arrays S, Kr, … start with unknown contents. *)
Definition UpdateBoundaryState (g : setting) (mats : list material) (nb : nat) (faces : list face) (P_bnd : list R) (pts : list bpoint)
    : outcome (setting * list bpoint) :=
  do ids <- for_ (length faces) (fun i s => do f <- rd faces i; collect nb f s) ([], []);
  let n := length (fst ids) in
  do inp <- for_ n (inputs (Pref g) mats P_bnd ids) [];
  do Ss <- SaturationComputeOnPoints (sat g) (fst ids) inp (repeat (None, None, None) n);
  do Se <- for_ n (effective_bnd inp (snd Ss)) [];
  do Kr <- compute_on_points kr_nparams kr_eval_fl (relperm g) (fst ids) Se (repeat (None, None) n);
  do pts <- for_ n (place inp (snd ids) (snd Ss) (snd Kr)) pts;
  Ok (mkSetting (Pref g) (Tref g) (den_type g) (vis_type g) (enthalpy g) (fst Ss) (fst Kr), pts).

(** ** Water on the boundary *)

(** rho_bnd, vis_bnd and h_bnd of a face. *)
Record water := mkWater { w_rho : fl; w_vis : fl; w_h : fl }.
(** AllocateMemoryForBoundaryValues and AllocateMemoryForEnergyBoundaryValues,
    tdympfao.c:297-362 and tdyfvtpf.c:276-309: [salt] is m_nacl[0] there, 0 in the
    two-point scheme; the enthalpy only exists in the TH mode. *)
Definition boundary_water (md : mode) (g : setting) (salt : R) : outcome water :=
  let m := match md with RichardsFvtpf => 0 | _ => salt end in
  do rho <- EOSComputeWaterDensity (den_type g) (Pref g) (Tref g) m (Some 0, None, None);
  do vis <- EOSComputeWaterViscosity (vis_type g) (Pref g) (Tref g) m (Some 0, None, None);
  do h <- match md with TH => EOSComputeWaterEnthalpy (enthalpy g) (Tref g) (Pref g) (Some 0, None, None) | _ => Ok (None, None, None) end;
  Ok (mkWater (fst (fst rho)) (fst (fst vis)) (fst (fst h))).
Definition allocate_water (md : mode) (g : setting) (salt : R) (nb : nat) : outcome (list water) :=
  for_ nb (fun _ out => do w <- boundary_water md g salt; Ok (out ++ [w])) [].

(** ** The whole of the boundary, and its update before a residual *)

(** P_bnd, T_bnd or Psi_bnd, the arrays of curve values, the water, and the two
    vectors. *)
Record bstate := mkBstate { P_bnd : list R; x_bnd : list R; bpoints : list bpoint; bwater : list water; pvec : list R; xvec : list R }.

(** tdympfao_ts.c:182-183, tdympfao_snes.c:98-99, tdympfao_ts_dae.c:46-47,
    tdympfao_th_ts.c:185-187, tdympfao_snes_salinity.c:254-256,
    tdyfvtpf_snes.c:558-559. *)
Definition refresh (md : mode) (bcP bcX : condition) (mats : list material) (ncells nb : nat) (faces : list face) (U : list R) (s : setting * bstate)
    : outcome (setting * bstate) :=
  let '(g, b) := s in
  do p <- SetBoundaryPressure md bcP U ncells faces (P_bnd b, pvec b);
  do x <- (if (stride md =? 1)%nat then Ok (x_bnd b, xvec b) else SetBoundarySecond md bcX U ncells faces (x_bnd b, xvec b));
  do r <- UpdateBoundaryState g mats nb faces (fst p) (bpoints b);
  Ok (fst r, mkBstate (fst p) (fst x) (snd r) (bwater b) (snd p) (snd x)).
