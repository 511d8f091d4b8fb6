(** C107: the velocity error that the recovery of velocities prints. *)
From Coq Require Import Reals ZArith List Bool Arith Lia Lra.
From Verif Require Import Prelude Arrays Mpfao MpfaoTs SpecFvtpf SpecMpfao SpecMpfaoTs MpfaoExamples
  Transmit SpecTransmit TransmitProofs TransmitExamples Steady SpecSteady SteadyProofs SteadyExamples Velocity SpecVelocity VelocityProofs VelocityExamples
  VelocityError SpecVelocityError VelocityErrorProofs VelocityZero.
Import ListNotations.
Local Open Scope R_scope.

(** Accumulating the error does not change the velocities. *)
Theorem C107_velocities : forall p b u vel err n, RecoverError p b u = Ok (vel, err, n) -> RecoverVelocity p u = Ok vel.
Proof. intros p b u vel err n E. exact (recover_sim p b u _ E). Qed.
Print Assumptions C107_velocities.

(** What is accumulated on a mesh without corners: over all sub-faces of this process,
    the square of the flux divided by the area of the whole face, minus the flux of the
    prescribed velocity through the sub-face; and the number of these sub-faces.
    Without a prescribed velocity 0/0 is printed.  Missing: corners, see
    C107_corner_refuted. *)
Theorem C107_error_partial : forall k M ncv nfv X st area rho gz hp b u B,
  good_tmesh M ncv nfv -> answered M (X Pressure) -> Setup k M ncv nfv X = Ok st ->
  let p := mkRecover M (st_T (ts_p st)) nfv area rho gz hp in let m := t_mesh M in
  good_recover p u -> good_probe p b -> boundary_heads p u B -> (forall a, ~ at_corner M a) ->
  exists vel err n, RecoverError p b u = Ok (vel, err, n) /\ RecoverVelocity p u = Ok vel /\
  (b_velocity b = None -> printed [(err, n)] = None) /\
  (forall w, b_velocity b = Some w ->
    err = over_counted M (fun iv j => (matrix_flux m (st_l (ts_p st)) (heads p u B) iv j / whole_area m area iv j - true_flux m b w iv j) ^ 2) /\
    INR n = over_counted M (fun _ _ => 1)).
Proof. exact complete. Qed.
Print Assumptions C107_error_partial.

(** The printed number is the root of the mean over all processes. *)
Theorem C107_mean : forall l, (forall x, In x l -> 0 <= fst x) -> (0 < sum_count l)%nat ->
  exists x, printed l = Some x /\ 0 <= x /\ x * x * INR (sum_count l) = sum_err l.
Proof. exact printed_mean. Qed.
Print Assumptions C107_mean.

(** The printed error vanishes exactly if every flux is the true flux times the area
    of the whole face.  So it is a measure of the error only when all faces have area
    one. *)
Theorem C107_zero_partial : forall k M ncv nfv X st area rho gz hp b w u B,
  good_tmesh M ncv nfv -> answered M (X Pressure) -> Setup k M ncv nfv X = Ok st ->
  let p := mkRecover M (st_T (ts_p st)) nfv area rho gz hp in let m := t_mesh M in
  good_recover p u -> good_probe p b -> boundary_heads p u B -> (forall a, ~ at_corner M a) ->
  b_velocity b = Some w -> (forall a f, nth_error (faces m) a = Some f -> f_local f = true -> nth a area 0 <> 0) -> (exists iv j, counted M iv j = true) ->
  exists vel err n, RecoverError p b u = Ok (vel, err, n) /\
  (printed [(err, n)] = Some 0 <->
   forall iv j, counted M iv j = true -> matrix_flux m (st_l (ts_p st)) (heads p u B) iv j = whole_area m area iv j * true_flux m b w iv j).
Proof. exact zero. Qed.
Print Assumptions C107_zero_partial.

(** ** Examples *)
(** Two cells; velocity [s] in the direction of x, all normals against it, sub-faces of
    the areas [l]. *)
Definition flow (s : R) (l : list R) (n : nat) : probe := mkProbe (Some (fun _ => (s, 0, 0))) (repeat (-1, 0, 0) n) (fun _ _ => (0, 0, 0)) (fun _ j => nth j l 0).
Definition col_a (area : list R) : recover := mkRecover col_tmesh (st_T (ts_p col_st)) 5 area [0; 0] [0; 0] (Some (fun _ => 0)).
Definition col_flux : nat -> R := matrix_flux col_mesh (st_l (ts_p col_st)) (heads (col_a []) [4; 1] (fun _ => 0)) 0.
Lemma col_fluxes : col_flux 0 = -8 / 3 /\ col_flux 1 = -34 / 3 /\ col_flux 2 = -1 /\ col_flux 3 = -4 /\ col_flux 4 = -17 / 3.
Proof. cbv -[Rplus Ropp Rminus Rmult Rinv Rdiv IZR]. repeat split; field. Qed.
Lemma col_counted : forall iv j, counted col_tmesh iv j = true -> iv = O /\ (j < 5)%nat.
Proof. intros iv j H. destruct (counted_row _ _ _ H) as [H1 H2]. simpl in H1. assert (iv = O) by lia. subst. split; [reflexivity|exact H2]. Qed.
Lemma col_zero : forall area s l, length area = 5%nat -> (forall a, (a < 5)%nat -> nth a area 0 <> 0) ->
  exists vel err n, RecoverError (col_a area) (flow s l 5) [4; 1] = Ok (vel, err, n) /\
  (printed [(err, n)] = Some 0 <-> forall iv j, counted col_tmesh iv j = true ->
     matrix_flux col_mesh (st_l (ts_p col_st)) (heads (col_a area) [4; 1] (fun _ => 0)) iv j = whole_area col_mesh area iv j * true_flux col_mesh (flow s l 5) (fun _ => (s, 0, 0)) iv j).
Proof.
  intros area s l HL Ha. apply (C107_zero_partial RICHARDS col_tmesh 2 5 col_X col_st area [0; 0] [0; 0] (Some (fun _ => 0)) (flow s l 5) (fun _ => (s, 0, 0)) [4; 1] (fun _ => 0)
    col_good (col_answered Pressure) col_setup).
  - constructor; try reflexivity. exact HL.
  - constructor. reflexivity.
  - intros c. reflexivity.
  - exact col_away.
  - reflexivity.
  - intros a f Nf _. apply Ha. assert (H : (a < length (faces (t_mesh col_tmesh)))%nat) by (apply nth_error_Some; congruence). exact H.
  - exists O, O. reflexivity.
Qed.

(** A solution whose fluxes are all right has a non-zero error: velocity times area of
    sub-face is compared with flux over area of face (tdympfao_utils.c:192, 202). *)
Theorem C107_units_refuted : exists area l vel err n,
  RecoverError (col_a area) (flow 1 l 5) [4; 1] = Ok (vel, err, n) /\
  (forall iv j, counted col_tmesh iv j = true -> nth j area 0 = 2 * nth j l 0 /\
    matrix_flux col_mesh (st_l (ts_p col_st)) (heads (col_a area) [4; 1] (fun _ => 0)) iv j = true_flux col_mesh (flow 1 l 5) (fun _ => (1, 0, 0)) iv j) /\
  printed [(err, n)] <> Some 0.
Proof.
  exists [16 / 3; 68 / 3; 2; 8; 34 / 3], [8 / 3; 34 / 3; 1; 4; 17 / 3].
  destruct (col_zero [16 / 3; 68 / 3; 2; 8; 34 / 3] 1 [8 / 3; 34 / 3; 1; 4; 17 / 3]) as [vel [err [n [E H]]]]; [reflexivity|intros [|[|[|[|[|a]]]]] Ha; simpl; try lra; lia|].
  exists vel, err, n. split; [exact E|]. destruct col_fluxes as [F0 [F1 [F2 [F3 F4]]]].
  change (matrix_flux col_mesh (st_l (ts_p col_st)) (heads (col_a [16 / 3; 68 / 3; 2; 8; 34 / 3]) [4; 1] (fun _ => 0)) 0) with col_flux in H. split.
  - intros iv j Hc. destruct (col_counted iv j Hc) as [-> Hj].
    change (matrix_flux col_mesh (st_l (ts_p col_st)) (heads (col_a [16 / 3; 68 / 3; 2; 8; 34 / 3]) [4; 1] (fun _ => 0)) 0) with col_flux.
    destruct j as [|[|[|[|[|j]]]]]; [..|lia]; (split; [simpl; field|]); [rewrite F0|rewrite F1|rewrite F2|rewrite F3|rewrite F4]; unfold true_flux, inner; simpl; field.
  - intros K. pose proof (proj1 H K O O eq_refl) as Q.
    change (matrix_flux col_mesh (st_l (ts_p col_st)) (heads (col_a [16 / 3; 68 / 3; 2; 8; 34 / 3]) [4; 1] (fun _ => 0)) 0 0) with (col_flux 0) in Q.
    rewrite F0 in Q. unfold true_flux, whole_area, inner in Q. simpl in Q. lra.
Qed.
Print Assumptions C107_units_refuted.

(** A solution whose fluxes are all twice the right ones has error zero. *)
Theorem C107_wrong_refuted : exists area s l vel err n,
  RecoverError (col_a area) (flow s l 5) [4; 1] = Ok (vel, err, n) /\
  (forall iv j, counted col_tmesh iv j = true -> 0 < nth j l 0 < nth j area 0 /\
    matrix_flux col_mesh (st_l (ts_p col_st)) (heads (col_a area) [4; 1] (fun _ => 0)) iv j = 2 * true_flux col_mesh (flow s l 5) (fun _ => (s, 0, 0)) iv j /\
    true_flux col_mesh (flow s l 5) (fun _ => (s, 0, 0)) iv j <> 0) /\
  printed [(err, n)] = Some 0.
Proof.
  exists [2; 2; 2; 2; 2], 17, [4 / 51; 1 / 3; 1 / 34; 2 / 17; 1 / 6].
  destruct (col_zero [2; 2; 2; 2; 2] 17 [4 / 51; 1 / 3; 1 / 34; 2 / 17; 1 / 6]) as [vel [err [n [E H]]]]; [reflexivity|intros [|[|[|[|[|a]]]]] Ha; simpl; try lra; lia|].
  exists vel, err, n. split; [exact E|]. destruct col_fluxes as [F0 [F1 [F2 [F3 F4]]]].
  assert (Q : forall iv j, counted col_tmesh iv j = true -> 0 < nth j [4 / 51; 1 / 3; 1 / 34; 2 / 17; 1 / 6] 0 < nth j [2; 2; 2; 2; 2] 0 /\ whole_area col_mesh [2; 2; 2; 2; 2] iv j = 2 /\
    matrix_flux col_mesh (st_l (ts_p col_st)) (heads (col_a [2; 2; 2; 2; 2]) [4; 1] (fun _ => 0)) iv j = 2 * true_flux col_mesh (flow 17 [4 / 51; 1 / 3; 1 / 34; 2 / 17; 1 / 6] 5) (fun _ => (17, 0, 0)) iv j /\
    true_flux col_mesh (flow 17 [4 / 51; 1 / 3; 1 / 34; 2 / 17; 1 / 6] 5) (fun _ => (17, 0, 0)) iv j <> 0).
  { intros iv j Hc. destruct (col_counted iv j Hc) as [-> Hj].
    change (matrix_flux col_mesh (st_l (ts_p col_st)) (heads (col_a [2; 2; 2; 2; 2]) [4; 1] (fun _ => 0)) 0) with col_flux.
    destruct j as [|[|[|[|[|j]]]]]; [..|lia]; (split; [simpl; lra|]); (split; [reflexivity|]); [rewrite F0|rewrite F1|rewrite F2|rewrite F3|rewrite F4]; unfold true_flux, inner; simpl; split; lra. }
  split.
  - intros iv j Hc. destruct (Q iv j Hc) as [Q1 [_ [Q3 Q4]]]. auto.
  - apply H. intros iv j Hc. destruct (Q iv j Hc) as [_ [Q2 [Q3 _]]]. rewrite Q2. exact Q3.
Qed.
Print Assumptions C107_wrong_refuted.

(** At corners the sign is wrong (see C86_corner_refuted), so that faces of area one
    with the right fluxes have an error as well. *)
Theorem C107_corner_refuted : exists l vel err n,
  RecoverError (cor_r (Some (fun _ => 0))) (flow 3 l 3) [1] = Ok (vel, err, n) /\
  (forall j, (j < 3)%nat -> nth j (r_area (cor_r None)) 0 = 1 /\
    matrix_flux (cor_mesh DirichletBC [0; 1; 2]%nat) (st_l (ts_p cor_st)) (heads (cor_r (Some (fun _ => 0))) [1] (fun _ => 0)) 0 j =
    true_flux (cor_mesh DirichletBC [0; 1; 2]%nat) (flow 3 l 3) (fun _ => (3, 0, 0)) 0 j) /\
  printed [(err, n)] <> Some 0.
Proof.
  exists [1 / 3; 2 / 3; 1]. do 3 eexists. split; [cbv -[Rplus Ropp Rminus Rmult Rinv Rdiv IZR pow]; reflexivity|]. split.
  - intros [|[|[|j]]] Hj; [..|lia]; (split; [reflexivity|]); cbv -[Rplus Ropp Rminus Rmult Rinv Rdiv IZR]; field.
  - match goal with |- printed [(?e, ?n)] <> _ => assert (He : e = 56) by field end. rewrite He. rewrite printed_zero by (try lra; lia). lra.
Qed.
Print Assumptions C107_corner_refuted.
