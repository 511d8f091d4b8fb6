(** C86: the velocities recovered from a solution of the multi-point flux scheme. *)
From Coq Require Import Reals ZArith List Bool Arith Lia Lra.
From Verif Require Import Prelude Arrays Mpfao MpfaoTs SpecFvtpf SpecMpfao SpecMpfaoTs MpfaoExamples
  Transmit SpecTransmit TransmitProofs TransmitExamples Steady SpecSteady SteadyProofs SteadyExamples Velocity SpecVelocity VelocityProofs VelocityExamples.
Import ListNotations.
Local Open Scope R_scope.

(** The recovery succeeds, and on a local face that no corner of the mesh touches the
    velocity times the area is the sum of the multi-point fluxes through its sub-faces,
    as the matrix of the setup gives them for the heads of the cells and the values on
    the boundary.  Missing: faces at corners, see C86_corner_refuted, and the weight of
    the water in the boundary values, see C86_rest_refuted. *)
Theorem C86_velocity_partial : forall k M ncv nfv X st area rho gz hp u B,
  good_tmesh M ncv nfv -> answered M (X Pressure) -> Setup k M ncv nfv X = Ok st ->
  let p := mkRecover M (st_T (ts_p st)) nfv area rho gz hp in let m := t_mesh M in
  good_recover p u -> boundary_heads p u B ->
  exists vel, RecoverVelocity p u = Ok vel /\
  forall a f, nth_error (faces m) a = Some f -> f_local f = true -> nth a area 0 <> 0 -> ~ at_corner M a ->
    nth a vel 0 * nth a area 0 = through m a (matrix_flux m (st_l (ts_p st)) (heads p u B)).
Proof. exact velocity. Qed.
Print Assumptions C86_velocity_partial.

(** The velocities of a solution of the steady system balance the sources: without
    gravity and corners, the sum of velocity times area out of an owned cell is its
    source plus the residual of its row. *)
Theorem C86_conservative_partial : forall k M ncv nfv X st gid h force area rho gz u P s,
  good_tmesh M ncv nfv -> answered M (X Pressure) -> Setup k M ncv nfv X = Ok st ->
  let q := mkSteady M (st_T (ts_p st)) gid nfv (Some h) force in
  let p := mkRecover M (st_T (ts_p st)) nfv area rho gz (Some h) in let m := t_mesh M in
  good_steady q -> good_recover p u ->
  (forall a, ~ at_corner M a) ->
  (forall a f, nth_error (faces m) a = Some f -> owned m (f_up f) = true \/ owned m (f_dn f) = true -> f_local f = true /\ nth a area 0 <> 0) ->
  (forall c, (c < length (rocks m))%nat -> nth c rho 0 * nth c gz 0 = 0 /\ nth c u 0 = P (nth c gid O)) ->
  ComputeSystem q ([], []) = Ok s ->
  exists vel, RecoverVelocity p u = Ok vel /\ forall i, local_cell m i = true ->
    total (fun a => match nth_error (faces m) a with Some f => out_of f i * (nth a vel 0 * nth a area 0) | None => 0 end) (length (faces m)) =
    source q i + residual s P (nth i gid O).
Proof. exact conservative. Qed.
Print Assumptions C86_conservative_partial.

(** What the code computes on all faces when the boundary is open and there is no
    gravity: the sub-faces at corners enter with the opposite sign. *)
Theorem C86_signs : forall k M ncv nfv X st area rho gz hp u B,
  good_tmesh M ncv nfv -> answered M (X Pressure) -> Setup k M ncv nfv X = Ok st ->
  let p := mkRecover M (st_T (ts_p st)) nfv area rho gz hp in let m := t_mesh M in
  good_recover p u -> boundary_heads p u B -> bc m <> NeumannBC ->
  (forall c, (c < length (rocks m))%nat -> head p u c = nth c u 0) ->
  (forall iv v e a, nth_error (verts m) iv = Some v -> nth_error (t_extra M) iv = Some e -> corner v e -> In a (x_faces v) ->
    forall f, nth_error (faces m) a = Some f -> f_local f = true -> x_local v = true) ->
  exists vel, RecoverVelocity p u = Ok vel /\
  forall a f, nth_error (faces m) a = Some f -> f_local f = true -> nth a area 0 <> 0 ->
    nth a vel 0 * nth a area 0 = through m a (fun iv j => corner_sign M iv * matrix_flux m (st_l (ts_p st)) (heads p u B) iv j).
Proof. exact signed_velocity. Qed.
Print Assumptions C86_signs.

(** The velocity at a corner has the wrong sign.  tdympfao_utils.c:629-638 multiplies
    the value twice by the sign of the face and so leaves G (u - pB), which is minus
    the flux; everywhere else the value is minus Trans times the pressures.  A single
    cell at pressure 1, boundary at 0: the flux of the matrix is -3, the velocity 3. *)
Theorem C86_corner_refuted : exists M ncv nfv X st area rho gz h u vel f,
  good_tmesh M ncv nfv /\ answered M (X Pressure) /\ Setup RICHARDS M ncv nfv X = Ok st /\
  let p := mkRecover M (st_T (ts_p st)) nfv area rho gz (Some h) in let m := t_mesh M in
  good_recover p u /\ (forall c, (c < length (rocks m))%nat -> head p u c = nth c u 0) /\ RecoverVelocity p u = Ok vel /\
  nth_error (faces m) 2 = Some f /\ f_local f = true /\ nth 2 area 0 = 1 /\
  through m 2 (matrix_flux m (st_l (ts_p st)) (heads p u h)) = -3 /\ nth 2 vel 0 = 3.
Proof.
  destruct cor_velocity as [vel [E H]].
  exists (cor_tmesh DirichletBC [0; 1; 2]%nat), 1%nat, 3%nat, col_X, cor_st, [1; 1; 1], [0], [0], (fun _ => 0), [1], vel, (mkFace 0 (-3) true).
  split; [exact (cor_good _ _ straight)|]. split; [intros iv _; discriminate|]. split; [exact cor_setup|].
  split; [constructor; reflexivity|]. split; [intros [|c] Hc; [unfold head; simpl; ring|simpl in Hc; lia]|]. split; [exact E|].
  split; [reflexivity|]. split; [reflexivity|]. split; [reflexivity|]. split; [exact cor_through|exact H].
Qed.
Print Assumptions C86_corner_refuted.

(** Water at rest gets a velocity.  The head of a cell is its pressure plus the weight
    of the column below it, but prescribed boundary pressures are used as they are
    (lines 329-331).  All cells and boundary faces at the height where that weight is
    1, and all at pressure -1: nothing should flow. *)
Theorem C86_rest_refuted : exists M ncv nfv X st area rho gz h u vel,
  good_tmesh M ncv nfv /\ answered M (X Pressure) /\ Setup RICHARDS M ncv nfv X = Ok st /\
  let p := mkRecover M (st_T (ts_p st)) nfv area rho gz (Some h) in let m := t_mesh M in
  good_recover p u /\ (forall a, ~ at_corner M a) /\
  (forall c, (c < length (rocks m))%nat -> nth c rho 0 * nth c gz 0 = 1 /\ nth c u 0 = -1) /\ (forall b, h b = -1) /\
  RecoverVelocity p u = Ok vel /\ nth 1 vel 0 = -7 / 3.
Proof.
  destruct col_rest as [vel [E H]].
  exists col_tmesh, 2%nat, 5%nat, col_X, col_st, [2; 1; 1; 1; 1], [1; 1], [1; 1], (fun _ => -1), [-1; -1], vel.
  split; [exact col_good|]. split; [exact (col_answered Pressure)|]. split; [exact col_setup|].
  split; [apply col_recover; reflexivity|]. split; [exact col_away|].
  split; [intros [|[|c]] Hc; [simpl; split; [ring|reflexivity]..|simpl in Hc; lia]|]. split; [reflexivity|]. split; [exact E|exact H].
Qed.
Print Assumptions C86_rest_refuted.

(** ** Example *)
Example C86_example : good_tmesh col_tmesh 2 5 /\ Setup RICHARDS col_tmesh 2 5 col_X = Ok col_st /\
  good_recover (col_r [0; 0] [0; 0] (Some (fun _ => 0))) [4; 1] /\ (forall a, ~ at_corner col_tmesh a) /\
  exists vel, RecoverVelocity (col_r [0; 0] [0; 0] (Some (fun _ => 0))) [4; 1] = Ok vel /\ nth 0 vel 0 = -4 / 3.
Proof. split; [exact col_good|]. split; [exact col_setup|]. split; [apply col_recover; reflexivity|]. split; [exact col_away|exact col_velocity]. Qed.
