(** C85: the steady system of the multi-point flux scheme. *)
From Coq Require Import Reals ZArith List Bool Arith Lia Lra.
From Verif Require Import Prelude Arrays Mpfao MpfaoTs SpecFvtpf SpecMpfao SpecMpfaoTs MpfaoExamples
  Transmit SpecTransmit TransmitProofs TransmitExamples Steady SpecSteady SteadyProofs SteadyExamples.
Import ListNotations.
Local Open Scope R_scope.

(** K and F are computed without a fault, and the row of an owned cell in K P - F is
    the sum of the multi-point fluxes out of the cell, as the matrix of the setup gives
    them, minus its source, minus what was in F before.  Missing: Dirichlet and seepage
    conditions on a mesh with corners, see C85_corner_refuted. *)
Theorem C85_balance_partial : forall k M ncv nfv X st gid h force,
  good_tmesh M ncv nfv -> answered M (X Pressure) -> Setup k M ncv nfv X = Ok st ->
  let p := mkSteady M (st_T (ts_p st)) gid nfv (Some h) force in let m := t_mesh M in
  good_steady p -> no_corner_flux M ->
  forall s0, exists s, ComputeSystem p s0 = Ok s /\ forall P i, local_cell m i = true ->
    residual s P (nth i gid O) =
    all_subfaces m (fun iv j => orientation m iv j i * matrix_flux m (st_l (ts_p st)) (values p P h) iv j)
    - source p i - added (snd s0) (nth i gid O).
Proof. exact balance. Qed.
Print Assumptions C85_balance_partial.

(** Summed over the owned cells, only the fluxes across the boundary of the process
    or of the domain are left. *)
Theorem C85_conservation_partial : forall k M ncv nfv X st gid h force,
  good_tmesh M ncv nfv -> answered M (X Pressure) -> Setup k M ncv nfv X = Ok st ->
  let p := mkSteady M (st_T (ts_p st)) gid nfv (Some h) force in let m := t_mesh M in let N := length (rocks m) in
  good_steady p -> no_corner_flux M ->
  forall s0, exists s, ComputeSystem p s0 = Ok s /\ forall P,
    total (fun i => if local_cell m i then residual s P (nth i gid O) else 0) N =
    all_subfaces m (fun iv j => crossing m iv j * matrix_flux m (st_l (ts_p st)) (values p P h) iv j)
    - total (fun i => if local_cell m i then source p i + added (snd s0) (nth i gid O) else 0) N.
Proof. exact conservation. Qed.
Print Assumptions C85_conservation_partial.

(** At corners the system does not contain the multi-point fluxes: tdympfao_steady.c:
    337-424 still reads the three boundary columns of Trans as columns 0 to 2, where
    the setup now stores the cell and two of the boundary faces.  A cell whose three
    sub-faces have transmissibilities 1, 2 and 3, at pressure 1 against a boundary at
    0: the fluxes sum to 6, the row of the system gives 3. *)
Theorem C85_corner_refuted : exists M ncv nfv X st gid h s,
  good_tmesh M ncv nfv /\ answered M (X Pressure) /\ Setup RICHARDS M ncv nfv X = Ok st /\
  let p := mkSteady M (st_T (ts_p st)) gid nfv (Some h) None in let m := t_mesh M in
  good_steady p /\ local_cell m 0 = true /\ nth 0 gid O = 0%nat /\ ComputeSystem p ([], []) = Ok s /\
  all_subfaces m (fun iv j => orientation m iv j 0 * matrix_flux m (st_l (ts_p st)) (values p (fun _ => 1) h) iv j) = -6 /\
  residual s (fun _ => 1) 0 = -3.
Proof.
  destruct cor_system as [s [E H]].
  exists (cor_tmesh DirichletBC [0; 1; 2]%nat), 1%nat, 3%nat, col_X, cor_st, [0%nat], (fun _ => 0), s.
  split; [exact (cor_good _ _ straight)|]. split; [intros iv _; discriminate|]. split; [exact cor_setup|].
  split; [exact (cor_steady _)|]. split; [reflexivity|]. split; [reflexivity|]. split; [exact E|]. split; [exact cor_flux|exact H].
Qed.
Print Assumptions C85_corner_refuted.

(** The call is not repeatable: K is cleared, F is not, so the second system has the
    sources and boundary terms twice. *)
Theorem C85_repeated_refuted : exists M ncv nfv X st gid h force s1 s2,
  good_tmesh M ncv nfv /\ answered M (X Pressure) /\ Setup RICHARDS M ncv nfv X = Ok st /\
  let p := mkSteady M (st_T (ts_p st)) gid nfv (Some h) force in
  good_steady p /\ no_corner_flux M /\ ComputeSystem p ([], []) = Ok s1 /\ ComputeSystem p s1 = Ok s2 /\
  fst s2 = fst s1 /\ added (snd s1) (nth 0 gid O) = 1 /\ added (snd s2) (nth 0 gid O) = 2.
Proof.
  destruct col_twice as [s1 [s2 [E1 [E2 [A [B C]]]]]].
  exists col_tmesh, 2%nat, 5%nat, col_X, col_st, [3; 7]%nat, (fun _ => 0), (Some (fun _ => 1)), s1, s2.
  split; [exact col_good|]. split; [exact (col_answered Pressure)|]. split; [exact col_setup|].
  split; [exact (col_steady _ _)|]. split; [exact col_no_corner|]. auto.
Qed.
Print Assumptions C85_repeated_refuted.

(** With a closed boundary the boundary pressures do not matter, but the function is
    called all the same (lines 189-195): without one, a NULL pointer. *)
Theorem C85_closed_refuted : exists M ncv nfv X st gid,
  good_tmesh M ncv nfv /\ answered M (X Pressure) /\ bc (t_mesh M) = NeumannBC /\ Setup RICHARDS M ncv nfv X = Ok st /\
  let p := mkSteady M (st_T (ts_p st)) gid nfv None None in good_steady p /\ ComputeSystem p ([], []) = UB.
Proof.
  exists shut_tmesh, 2%nat, 5%nat, col_X, shut_st, [0; 1]%nat. split; [exact shut_good|]. split; [exact (shut_answered Pressure)|].
  split; [reflexivity|]. split; [exact shut_setup|]. split; [exact shut_steady|exact shut_null].
Qed.
Print Assumptions C85_closed_refuted.

(** ** Example *)
Example C85_example : good_tmesh col_tmesh 2 5 /\ Setup RICHARDS col_tmesh 2 5 col_X = Ok col_st /\
  good_steady (col_p (Some (fun _ => 0)) (Some (fun _ => 1))) /\ no_corner_flux col_tmesh /\
  exists s, ComputeSystem (col_p (Some (fun _ => 0)) (Some (fun _ => 1))) ([], []) = Ok s /\
  residual s (fun c => if (c =? 3)%nat then 4 else 1) 3 = -11.
Proof. split; [exact col_good|]. split; [exact col_setup|]. split; [exact (col_steady _ _)|]. split; [exact col_no_corner|exact col_system]. Qed.
