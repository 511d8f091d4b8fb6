(** C39, C40: the transmissibilities of the multi-point flux scheme. *)
From Coq Require Import Reals List Bool Arith Lia Lra.
From Verif Require Import Prelude Arrays SpecFvtpf Mpfao SpecMpfao MpfaoProofs MpfaoExamples.
Import ListNotations.
Local Open Scope R_scope.

(** [l] are the entries that one vertex adds to the global matrix; [mult l P row] is
    what they contribute to T*P in a row, i.e. the flux through a sub-face. *)

(** Nothing is written outside the work arrays. *)
Theorem C39_no_overrun : forall b ncells v X, well_numbered v ->
  exists l, NonCornerVertex b ncells v (Some X) = Ok l.
Proof. exact entries_ok. Qed.
Print Assumptions C39_no_overrun.

(** Uniform pressure: no flux through any sub-face of the vertex. *)
Theorem C39_uniform : forall b ncells v X l P c,
  well_numbered v -> regular b v -> lapack_answer b v X ->
  NonCornerVertex b ncells v (Some X) = Ok l ->
  (forall i, In i (v_cells v) -> P i = c) ->
  (b <> NeumannBC -> forall f, In f (all_faces v) -> sf_internal f = false -> P (sf_bnd f + ncells)%nat = c) ->
  forall row, mult l P row = 0.
Proof. exact uniform_zero_proof. Qed.
Print Assumptions C39_uniform.

(** Corner vertices (a single cell, three boundary faces): the flux through each
    sub-face is the product of the face's row of G with the pressure differences. *)
Theorem C39_corner : forall ncells cell f0 f1 f2 r0 r1 r2 P,
  sf_internal f0 = false -> sf_internal f1 = false -> sf_internal f2 = false ->
  NoDup [r0; r1; r2] ->
  exists l, CornerVertex ncells cell (f0, f1, f2) [r0; r1; r2] = Ok l /\
  forall i f row, nth_error [f0; f1; f2] i = Some f -> nth_error [r0; r1; r2] i = Some row ->
    mult l P row =
    let '(g0, g1, g2) := sf_g f in
    g0 * (P cell - P (sf_bnd f0 + ncells)%nat) + g1 * (P cell - P (sf_bnd f1 + ncells)%nat) +
    g2 * (P cell - P (sf_bnd f2 + ncells)%nat).
Proof. exact corner_proof. Qed.
Print Assumptions C39_corner.

(** There are interface pressures [pi], equal to the prescribed pressure on
    Dirichlet faces, such that for every face of every sub-cell the flux in T*P is
    the flux computed inside that sub-cell: the two sides of an internal face agree.
    With Neumann conditions no flux crosses a boundary face, neither in T*P nor in
    the local system. *)
Theorem C40_continuous : forall b ncells v X l P,
  well_numbered v -> lapack_answer b v X ->
  NonCornerVertex b ncells v (Some X) = Ok l ->
  exists pi : nat -> R,
    (b <> NeumannBC -> forall f, In f (all_faces v) -> sf_internal f = false -> pi (sf_unk f) = P (sf_bnd f + ncells)%nat) /\
    (forall a s f cell row, nth_error (v_sub v) a = Some s -> In f (sfaces s) -> nth_error (v_cells v) a = Some cell ->
       nth_error (v_rows v) (place v f) = Some row -> mult l P row = side_flux s f (P cell) pi) /\
    (b = NeumannBC -> forall a s f cell, nth_error (v_sub v) a = Some s -> In f (sfaces s) ->
       nth_error (v_cells v) a = Some cell -> sf_internal f = false -> side_flux s f (P cell) pi = 0).
Proof. exact continuity_proof. Qed.
Print Assumptions C40_continuous.

(** ** Examples *)
Example C39_example : well_numbered ex_v /\ regular DirichletBC ex_v /\ lapack_answer DirichletBC ex_v ex_X.
Proof. split; [exact ex_well_numbered|split; [exact ex_regular|exact ex_answer]]. Qed.
Example C40_example : exists l, NonCornerVertex DirichletBC 2 ex_v (Some ex_X) = Ok l /\
  mult l (fun c => match c with O => 4 | S O => 1 | _ => 0 end) 0 = 8 / 3.
Proof. exact ex_flux. Qed.
