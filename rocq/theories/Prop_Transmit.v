(** C84: the transmissibilities stored in the setup. *)
From Coq Require Import Reals ZArith List Bool Arith Lia Lra.
From Coquelicot Require Import Coquelicot.
From Verif Require Import Prelude Arrays Mpfao MpfaoTs SpecFvtpf SpecMpfao SpecMpfaoTs MpfaoTsProofs MpfaoJacProofs MpfaoDeriveProofs MpfaoBalanceProofs MpfaoExamples
  Transmit SpecTransmit TransmitProofs TransmitExamples.
From Verif Require Fvtpf.
Import ListNotations.
Local Open Scope R_scope.

(** Richards: every store stays inside the array. *)
Theorem C84_setup : forall M ncv nfv X, good_tmesh M ncv nfv -> (forall x, answered M (X x)) ->
  exists s, Setup RICHARDS M ncv nfv X = Ok s.
Proof. intros M ncv nfv X G HX. apply setup_ok; auto. intros K. contradiction. Qed.
Print Assumptions C84_setup.

(** TH and SALINITY: the same when no vertex has more than [nfv] cells and boundary
    faces, [nfv] being the largest number of faces of a vertex.  Missing: the other
    meshes, see C84_overrun_refuted. *)
Theorem C84_setup_partial : forall k M ncv nfv X, good_tmesh M ncv nfv -> (forall x, answered M (X x)) -> second_fits M nfv ->
  exists s, Setup k M ncv nfv X = Ok s.
Proof. intros k M ncv nfv X G HX HF. apply setup_ok; auto. Qed.
Print Assumptions C84_setup_partial.

(** Temp_Trans and Psi_Trans are allocated with nfv columns, Trans with nfv+ncv
    (tdympfao.c:2313, 2434, 2505), but the three are filled alike.  In a column of
    cells, the vertices between two cells have 5 faces, 2 cells and 4 boundary faces:
    the sixth column is written outside the array.  With a single cell, the same
    happens at its corners. *)
Theorem C84_overrun_refuted :
  (exists M ncv nfv X, good_tmesh M ncv nfv /\ (forall x, answered M (X x)) /\ Setup TH M ncv nfv X = UB) /\
  (exists M ncv nfv X, good_tmesh M ncv nfv /\ (forall x, answered M (X x)) /\ Setup SALINITY M ncv nfv X = UB).
Proof.
  split.
  - exists col_tmesh, 2%nat, 5%nat, col_X. split; [exact col_good|]. split; [exact col_answered|exact col_overrun].
  - exists (cor_tmesh DirichletBC [0; 1; 2]%nat), 1%nat, 3%nat, col_X. split; [|split; [intros x iv _; discriminate|exact cor_overrun]].
    apply cor_good. exists 0%nat, 1%nat, 2%nat. split; [unfold perm3; lia|reflexivity].
Qed.
Print Assumptions C84_overrun_refuted.

(** The flux through a sub-face is the same whether it is computed with the matrix
    (residual) or with the array (Jacobian, steady system, velocities), at every
    vertex but the corners. *)
Theorem C84_rows : forall k M ncv nfv X s, good_tmesh M ncv nfv -> answered M (X Pressure) -> Setup k M ncv nfv X = Ok s ->
  forall iv j v e f a P, nth_error (t_extra M) iv = Some e -> subface (t_mesh M) iv j = Some (v, f, a) -> x_local v = true -> ~ corner v e ->
  mult (st_l (ts_p s)) P a = row_value (length (rocks (t_mesh M))) (st_T (ts_p s)) iv v e Pressure j P.
Proof. intros k M ncv nfv X s G HX E iv j v e f a P. exact (stored_rows _ _ _ _ _ _ (pressure_inv k M ncv nfv X s G HX E) iv j v e f a P). Qed.
Print Assumptions C84_rows.

Theorem C84_temperature_rows : forall M ncv nfv X s, good_tmesh M ncv nfv -> answered M (X Temperature) -> second_fits M nfv -> Setup TH M ncv nfv X = Ok s ->
  forall iv j v e f a P, nth_error (t_extra M) iv = Some e -> subface (t_mesh M) iv j = Some (v, f, a) -> x_local v = true -> ~ corner v e ->
  mult (st_l (ts_t s)) P a = row_value (length (rocks (t_mesh M))) (st_T (ts_t s)) iv v e Temperature j P.
Proof. intros M ncv nfv X s G HX HF E iv j v e f a P. exact (stored_rows _ _ _ _ _ _ (temperature_inv M ncv nfv X s G HX HF E) iv j v e f a P). Qed.
Print Assumptions C84_temperature_rows.

(** The whole matrix gives the multi-point flux of C40 at every vertex but the
    corners: there are interface pressures such that both cells of a face compute the
    flux of its row.  No other vertex adds to the row. *)
Theorem C84_flux : forall k M ncv nfv X s, good_tmesh M ncv nfv -> answered M (X Pressure) -> Setup k M ncv nfv X = Ok s ->
  forall iv v e XX P, nth_error (verts (t_mesh M)) iv = Some v -> nth_error (t_extra M) iv = Some e ->
  x_local v = true -> ~ corner v e -> X Pressure iv = Some XX -> lapack_answer (bc (t_mesh M)) (vertex_of v e Pressure) XX ->
  exists pi : nat -> R,
    (bc (t_mesh M) <> NeumannBC -> forall h, In h (outer_faces e Pressure) -> pi (sf_unk h) = P (sf_bnd h + length (rocks (t_mesh M)))%nat) /\
    (forall j f a i sub h cell, subface (t_mesh M) iv j = Some (v, f, a) -> nth_error (e_sub e Pressure) i = Some sub -> In h (sfaces sub) ->
       nth_error (x_cells v) i = Some cell -> place (vertex_of v e Pressure) h = j -> mult (st_l (ts_p s)) P a = side_flux sub h (P cell) pi).
Proof. intros k M ncv nfv X s G HX E iv v e XX P. exact (stored_flux _ _ _ _ _ _ _ G (pressure_inv k M ncv nfv X s G HX E) iv v e XX P). Qed.
Print Assumptions C84_flux.

(** The columns of the cells agree at every vertex, corners included; closed
    sub-faces have no entries.  These are the hypotheses of C42. *)
Theorem C84_placed : forall k M ncv nfv X s, good_tmesh M ncv nfv -> answered M (X Pressure) -> Setup k M ncv nfv X = Ok s ->
  placed (t_mesh M) (st_T (ts_p s)) (length (rocks (t_mesh M))) (st_l (ts_p s)) /\ allocated (t_mesh M) (st_T (ts_p s)).
Proof.
  intros k M ncv nfv X s G HX E. pose proof (pressure_inv k M ncv nfv X s G HX E) as V. split; [exact (stored_placed _ _ _ _ _ _ _ G V)|].
  apply (stored_allocated _ _ _ _ _ _ _ G V). intros v Hv. destruct (gt_max M ncv nfv G v Hv). lia.
Qed.
Print Assumptions C84_placed.

(** So, with what the setup stored, the Jacobian of an implicit step is the
    derivative of its residual. *)
Theorem C84_jacobian : forall k0 M ncv nfv X s, good_tmesh M ncv nfv -> answered M (X Pressure) -> Setup k0 M ncv nfv X = Ok s ->
  forall n nb cs bs GD junk k c p f adj P dtime prev, let m := t_mesh M in let N := length (rocks m) in let l := st_l (ts_p s) in
  good_mesh m n N nb -> (k < N)%nat -> consistent c p -> good_vertices m GD -> dtime <> 0 -> length prev = n ->
  let TP x := TtimesP m l (P_vec (Some f) adj N (with_cell P k x)) in
  good_state m N nb (upd cs k (c p)) bs (TP p) GD -> decided m (upd cs k (c p)) bs (TP p) GD ->
  exists B, SNESJacobian m (upd cs k (c p)) bs (TP p) GD (st_T (ts_p s)) junk dtime = Ok B /\
  forall i, (i < n)%nat -> exists d, Fvtpf.entry B (Z.of_nat i) (Z.of_nat k) = Some d /\
    has_derivative (fun x => component (SNESFunction m (upd cs k (c x)) bs (TP x) GD dtime (map Some prev) n) i) p d.
Proof.
  intros k0 M ncv nfv X s G HX E n nb cs bs GD junk k c p f adj P dtime prev m N l Hm Hk Hc Hv Hd Hp TP Hs Hdec.
  destruct (C84_placed k0 M ncv nfv X s G HX E) as [Hpl Hal].
  exact (snes_jacobian m n N nb cs bs GD (st_T (ts_p s)) junk k c p l f adj P dtime prev Hm Hk Hc Hv Hal Hpl Hd Hp Hs Hdec).
Qed.
Print Assumptions C84_jacobian.

(** Corners: the comment in lines 1647-1653 asks for the boundary columns in the
    order of the vertex.  They are, when exchanging the two orders of its three faces
    twice gives back the first.  Missing: the other orders, see the next theorem. *)
Theorem C84_corner_columns_partial : forall k M ncv nfv X s, good_tmesh M ncv nfv -> answered M (X Pressure) -> Setup k M ncv nfv X = Ok s ->
  forall iv j v e f a sub cell b P, nth_error (t_extra M) iv = Some e -> subface (t_mesh M) iv j = Some (v, f, a) ->
  x_local v = true -> corner v e -> bc (t_mesh M) <> NeumannBC -> e_sub e Pressure = [sub] -> x_cells v = [cell] -> in_vertex_order v e sub b ->
  (forall p q, (p < 3)%nat -> (q < 3)%nat -> nth_error (x_faces v) p = nth_error (e_sfaces e) q -> nth_error (x_faces v) q = nth_error (e_sfaces e) p) ->
  mult (st_l (ts_p s)) P a = corner_value (length (rocks (t_mesh M))) (st_T (ts_p s)) iv cell b j P.
Proof.
  intros k M ncv nfv X s G HX E iv j v e f a sub cell b P.
  exact (corner_row_ok _ _ _ _ _ _ _ G (pressure_inv k M ncv nfv X s G HX E) iv j v e f a sub cell b P).
Qed.
Print Assumptions C84_corner_columns_partial.

(** Lines 1723-1735 store [T_2[row][col] = Told[row][j]] where [T_2[row][j] =
    Told[row][col]] is needed.  When the faces of the vertex are those of the sub-cell
    rotated, the columns are mixed up: a unit pressure on the boundary face whose flux
    is 2 is taken for that of another face.  (The matrix is right.  Whether a mesh
    generator produces this order was not examined.) *)
Theorem C84_corner_columns_refuted : exists M ncv nfv X s iv j v e f a sub cell b P,
  good_tmesh M ncv nfv /\ answered M (X Pressure) /\ Setup RICHARDS M ncv nfv X = Ok s /\
  nth_error (t_extra M) iv = Some e /\ subface (t_mesh M) iv j = Some (v, f, a) /\
  x_local v = true /\ corner v e /\ bc (t_mesh M) = DirichletBC /\ e_sub e Pressure = [sub] /\ x_cells v = [cell] /\ in_vertex_order v e sub b /\
  mult (st_l (ts_p s)) P a = -2 /\ corner_value (length (rocks (t_mesh M))) (st_T (ts_p s)) iv cell b j P = 0.
Proof.
  destruct cor_wrong as [s [E [A B]]].
  exists (cor_tmesh DirichletBC [1; 2; 0]%nat), 1%nat, 3%nat, col_X, s, 0%nat, 0%nat, (cor_vert [1; 2; 0]%nat), cor_extra, (mkFace 0 (-2) true), 4%nat,
    cor_sub, 0%nat, cor_b, (fun c => if (c =? 2)%nat then 1 else 0).
  split; [exact (cor_good _ _ rotated)|]. split; [intros iv _; discriminate|]. split; [exact E|].
  split; [reflexivity|]. split; [reflexivity|]. split; [reflexivity|]. split; [split; simpl; lia|]. split; [reflexivity|]. split; [reflexivity|].
  split; [reflexivity|]. split; [exact cor_order|]. split; [exact A|exact B].
Qed.
Print Assumptions C84_corner_columns_refuted.

(** In SALINITY mode the rows of Psi_Trans_mat of all vertices but the corners stay
    empty: lines 1815-1819 compute variable 0, and variable 1 in TH mode, but never
    variable 2.  The product of lines 258-259 of tdympfao_snes_salinity.c, the
    diffusive flux of salt, is zero there whatever the concentrations, although the
    same G matrices give a flux of pressure of 8/3. *)
Theorem C84_salt_refuted :
  (forall M ncv nfv X s, good_tmesh M ncv nfv -> Setup SALINITY M ncv nfv X = Ok s ->
     forall iv j v e f a P, nth_error (t_extra M) iv = Some e -> subface (t_mesh M) iv j = Some (v, f, a) -> ~ corner v e ->
     mult (st_l (ts_s s)) P a = 0) /\
  (exists M ncv nfv X s v e f a P, good_tmesh M ncv nfv /\ (forall x, answered M (X x)) /\ Setup SALINITY M ncv nfv X = Ok s /\
     nth_error (t_extra M) 0 = Some e /\ subface (t_mesh M) 0 0 = Some (v, f, a) /\ ~ corner v e /\
     e_sub e Salt = e_sub e Pressure /\ X Salt = X Pressure /\ lapack_answer (bc (t_mesh M)) (vertex_of v e Salt) ex_X /\ X Salt 0%nat = Some ex_X /\
     mult (st_l (ts_p s)) P a = 8 / 3 /\ mult (st_l (ts_s s)) P a = 0).
Proof.
  split; [exact salt_empty|]. destruct col_flux as [s [E A]].
  exists col_tmesh, 2%nat, 5%nat, col_X, s, (mkVert true [0; 1; 2; 3; 4]%nat [0; 0; 0; 0; 0]%nat [0; 1]%nat), col_extra, (mkFace 0 1 true), 0%nat,
    (fun c => match c with O => 4 | S O => 1 | _ => 0 end).
  split; [exact col_good|]. split; [exact col_answered|]. split; [exact E|]. split; [reflexivity|]. split; [reflexivity|].
  assert (Hn : ~ corner (mkVert true [0; 1; 2; 3; 4]%nat [0; 0; 0; 0; 0]%nat [0; 1]%nat) col_extra) by (intros [_ K]; simpl in K; lia).
  split; [exact Hn|]. split; [reflexivity|]. split; [reflexivity|]. split; [exact ex_answer|]. split; [reflexivity|]. split; [exact A|].
  exact (salt_empty col_tmesh 2 5 col_X s col_good E 0 0 _ _ _ _ _ eq_refl eq_refl Hn).
Qed.
Print Assumptions C84_salt_refuted.

(** ** Examples *)
Example C84_example : good_tmesh col_tmesh 2 5 /\ (forall x, answered col_tmesh (col_X x)) /\
  exists s, Setup RICHARDS col_tmesh 2 5 col_X = Ok s /\
  row_value 2 (st_T (ts_p s)) 0 (mkVert true [0; 1; 2; 3; 4]%nat [0; 0; 0; 0; 0]%nat [0; 1]%nat) col_extra Pressure 0
    (fun c => match c with O => 4 | S O => 1 | _ => 0 end) = 8 / 3.
Proof.
  split; [exact col_good|]. split; [exact col_answered|]. eexists.
  split; [cbv -[Rplus Ropp Rminus Rmult Rinv Rdiv IZR]; reflexivity|]. cbv -[Rplus Ropp Rminus Rmult Rinv Rdiv IZR]. field.
Qed.
Example C84_corner_example : good_tmesh (cor_tmesh DirichletBC [1; 0; 2]%nat) 1 3 /\ exists s, Setup RICHARDS (cor_tmesh DirichletBC [1; 0; 2]%nat) 1 3 col_X = Ok s /\
  corner_value 1 (st_T (ts_p s)) 0 0 (fun d => nth d [1; 0; 2]%nat 0%nat) 0 (fun c => match c with O => 5 | S (S O) => 1 | _ => 0 end) = 8.
Proof.
  split; [apply cor_good; exists 1%nat, 0%nat, 2%nat; split; [unfold perm3; lia|reflexivity]|]. eexists.
  split; [cbv -[Rplus Ropp Rminus Rmult Rinv Rdiv IZR]; reflexivity|]. cbv -[Rplus Ropp Rminus Rmult Rinv Rdiv IZR]. ring.
Qed.
