(** Property C99: the output of fields. *)
From Coq Require Import List Arith ZArith Bool String Permutation Reals Lra Lia.
From Verif Require Import Prelude Arrays UGrid Scatter Output SpecOutput OutputProofs OutputWrite OutputFile OutputHead.
Import ListNotations.
Local Open Scope nat_scope.

(** The getters of the liquid saturation, the liquid mass and the pressure return
    the values of the cells in the natural order, for every distribution of the
    cells, in the modes with one unknown per cell. *)
Theorem C99_getters : forall A (zero : A) pr ao diag sat mass p out,
  layout pr ao -> field diag DIAG_LIQUID_SATURATION sat -> field diag DIAG_LIQUID_MASS mass ->
  List.length sat = List.length ao -> List.length mass = List.length ao ->
  List.length p = List.length ao -> List.length out = List.length ao ->
  (exists y, GetLiquidSaturation zero pr 1 ao diag out = Ok y /\ in_natural_order ao sat y) /\
  (exists y, GetLiquidMass zero pr 1 ao diag out = Ok y /\ in_natural_order ao mass y) /\
  (exists y, GetLiquidPressure zero pr 1 ao p out = Ok y /\ in_natural_order ao p y).
Proof.
  exact (fun A zero pr ao diag sat mass p out HL Hs Hm Ls Lm Lp Lo =>
    conj (getter_ok zero pr ao _ diag sat out HL (Nat.lt_0_succ 1) Hs Ls Lo)
   (conj (getter_ok zero pr ao _ diag mass out HL (Nat.lt_succ_diag_r 1) Hm Lm Lo)
         (pressure_getter_ok zero pr ao p out HL Lp Lo))).
Qed.
Print Assumptions C99_getters.

(** With several unknowns per cell the getter of the pressure is refused, because
    the vector it extracts into has all unknowns, and on several processes the
    getter of the saturation reads beyond the end of its vector. *)
Theorem C99_getters_refuted : forall A (zero : A) pr ndof ao nls diag sat p out,
  1 < ndof -> ao <> [] -> numbering ao -> list_sum nls = List.length ao ->
  field diag DIAG_LIQUID_SATURATION sat -> List.length sat = List.length ao -> List.length p = List.length ao * ndof ->
  GetLiquidPressure zero pr ndof ao p out = Err /\
  GetLiquidSaturation zero (ManyProcesses nls) ndof ao diag out = UB.
Proof.
  exact (fun A zero pr ndof ao nls diag sat p out Hd Ha Hn Hs Hf HL Hp =>
    conj (pressure_getter_many zero pr ndof ao p out Hd Ha Hp) (saturation_parallel zero ndof ao Hd Ha Hn nls diag sat out Hs Hf HL)).
Qed.
Print Assumptions C99_getters_refuted.

(** In HDF5 format the pressure is written in the natural order. *)
Theorem C99_pressure : forall A (zero : A) pr ao t p diag sat (s : io A),
  layout pr ao -> fmt s = HDF5Format -> List.length p = List.length ao ->
  field diag DIAG_LIQUID_SATURATION sat -> List.length sat = List.length ao ->
  exists pn sn s', WriteVec zero pr 1 ao t p diag s = Ok (s', [(name_pressure, pn); (name_saturation, sn)]) /\
  fetch t name_pressure (h5 s') = Some pn /\ in_natural_order ao p pn /\ fetch t name_saturation (h5 s') = Some sn.
Proof. exact written_pressure. Qed.
Print Assumptions C99_pressure.

(** The saturation is in the natural order too if the cells keep their order. *)
Theorem C99_saturation_partial : forall A (zero : A) pr ao t p diag sat (s : io A),
  layout pr ao -> unchanged_order ao -> fmt s = HDF5Format -> List.length p = List.length ao ->
  field diag DIAG_LIQUID_SATURATION sat -> List.length sat = List.length ao ->
  exists pn sn s', WriteVec zero pr 1 ao t p diag s = Ok (s', [(name_pressure, pn); (name_saturation, sn)]) /\
  in_natural_order ao sat sn.
Proof. exact written_saturation. Qed.
Print Assumptions C99_saturation_partial.

(** It is not otherwise: it is converted to the natural order twice, so for every
    distribution that changes the order of the cells there is a saturation field
    that is written to the wrong cells. *)
Theorem C99_saturation_refuted : forall A (a b : A) pr ao,
  layout pr ao -> ~ unchanged_order ao -> a <> b ->
  exists sat diag, field diag DIAG_LIQUID_SATURATION sat /\ List.length sat = List.length ao /\
  forall t p (s : io A), fmt s = HDF5Format -> List.length p = List.length ao ->
  exists pn sn s', WriteVec a pr 1 ao t p diag s = Ok (s', [(name_pressure, pn); (name_saturation, sn)]) /\
  ~ in_natural_order ao sat sn.
Proof. exact written_wrong. Qed.
Print Assumptions C99_saturation_refuted.

(** In Exodus format the pressure is written in the global and the saturation in
    the natural order: the two variables of a file belong to different cells for
    every distribution that changes the order of the cells. *)
Theorem C99_exodus_refuted : forall A (a b : A) pr ao,
  layout pr ao -> ~ unchanged_order ao -> a <> b ->
  exists v diag, field diag DIAG_LIQUID_SATURATION v /\ List.length v = List.length ao /\
  forall t (s : io A), fmt s = ExodusFormat ->
  exists sn, WriteVec a pr 1 ao t v diag s = Ok (s, [(name_pressure, v); (name_saturation, sn)]) /\
  ~ same_order ao v v v sn.
Proof. exact written_differ. Qed.
Print Assumptions C99_exodus_refuted.

(** In ASCII format the file name of the saturation does not fit into its buffer,
    whatever the time. *)
Theorem C99_ascii_refuted : forall A (zero : A) pr ao t p diag sat (s : io A),
  layout pr ao -> fmt s = AsciiFormat ->
  field diag DIAG_LIQUID_SATURATION sat -> List.length sat = List.length ao ->
  WriteVec zero pr 1 ao t p diag s = UB.
Proof. exact (fun A zero pr ao t p diag sat s HL => write_ascii zero pr ao HL t p diag sat s). Qed.
Print Assumptions C99_ascii_refuted.

(** Without a format, output is refused. *)
Theorem C99_format : forall A (zero : A) pr ao t p diag sat (s : io A),
  layout pr ao -> fmt s = NullFormat ->
  field diag DIAG_LIQUID_SATURATION sat -> List.length sat = List.length ao ->
  WriteVec zero pr 1 ao t p diag s = Err.
Proof. exact (fun A zero pr ao t p diag sat s HL => write_null zero pr ao HL t p diag sat s). Qed.
Print Assumptions C99_format.

(** With several unknowns per cell nothing is written in HDF5 format on one
    process (an error), and on several processes in any format memory outside the
    saturation is read; in Exodus format on one process all unknowns are written
    under the name of the pressure. *)
Theorem C99_fields_refuted : forall A (zero : A) ndof ao t p diag sat (s : io A) nls,
  1 < ndof -> ao <> [] -> numbering ao -> list_sum nls = List.length ao ->
  field diag DIAG_LIQUID_SATURATION sat -> List.length sat = List.length ao -> List.length p = List.length ao * ndof ->
  (fmt s = HDF5Format -> WriteVec zero OneProcess ndof ao t p diag s = Err) /\
  (fmt s = ExodusFormat -> WriteVec zero OneProcess ndof ao t p diag s = Ok (s, [(name_pressure, p); (name_saturation, sat)])) /\
  WriteVec zero (ManyProcesses nls) ndof ao t p diag s = UB.
Proof.
  exact (fun A zero ndof ao t p diag sat s nls Hd Ha Hn Hs Hf HL Hp =>
    conj (fun Ef => write_serial zero ndof ao Hd Ha Hn t p diag sat s Ef Hf Hp HL)
   (conj (fun Ef => write_serial_exodus zero ndof ao Hd t p diag sat s Ef Hf)
         (write_parallel zero ndof ao Hd Ha Hn nls t p diag sat s Hs Hf HL))).
Qed.
Print Assumptions C99_fields_refuted.

(** The description of the HDF5 file, out.xmf, of a run on one process is
    well-formed XML and lists exactly the outputs made since the format was last
    set, in order, whatever calls came before and whatever the file held. *)
Theorem C99_document_partial : forall A (zero : A) pr m ndof ao cs ws old (s : io A),
  Forall is_write ws -> run zero pr m ndof ao (cs ++ CSetMode HDF5Format :: ws) (Create old) = Ok s ->
  exists l, Destroy 1 (xmf s) = Some l /\ document l /\ listed l = outputs ws.
Proof. exact @run_document. Qed.
Print Assumptions C99_document_partial.

(** Its data items refer to the same variables in the same order, and each of these
    is a dataset of the HDF5 file. *)
Theorem C99_references : forall A (zero : A) pr m ndof ao cs ws old (s : io A) l,
  Forall is_write ws -> run zero pr m ndof ao (cs ++ CSetMode HDF5Format :: ws) (Create old) = Ok s -> Destroy 1 (xmf s) = Some l ->
  referenced l = outputs ws /\ forall t name, In (t, name) (referenced l) -> exists v, fetch t name (h5 s) = Some v.
Proof. exact @run_refer. Qed.
Print Assumptions C99_references.

(** On several processes each of them appends the closing tags: the file is never
    well-formed. *)
Theorem C99_processes_refuted : forall A (zero : A) pr m ndof ao cs ws old (s : io A) np l,
  1 < np -> Forall is_write ws -> run zero pr m ndof ao (cs ++ CSetMode HDF5Format :: ws) (Create old) = Ok s ->
  Destroy np (xmf s) = Some l -> ~ document l.
Proof. exact @run_unbalanced. Qed.
Print Assumptions C99_processes_refuted.

(** A run that never asks for HDF5 output still appends the closing tags: it
    leaves a file that is not well-formed, also when an earlier run left a
    well-formed one. *)
Theorem C99_other_format_refuted : forall A (zero : A) pr m ndof ao cs old (s : io A) np l,
  0 < np -> Forall not_hdf5 cs -> (forall l0, old = Some l0 -> document l0) ->
  run zero pr m ndof ao cs (Create old) = Ok s -> Destroy np (xmf s) = Some l -> ~ document l.
Proof. exact @run_no_hdf5. Qed.
Print Assumptions C99_other_format_refuted.

(** An output stays in the HDF5 file as long as no later one prints the same time. *)
Theorem C99_kept : forall A (zero : A) pr m ao ws1 ws2 t p diag sat (s0 s : io A),
  layout pr ao -> Forall is_write ws1 -> Forall is_write ws2 ->
  List.length p = List.length ao -> field diag DIAG_LIQUID_SATURATION sat -> List.length sat = List.length ao ->
  ~ In (Some t) (map time_of ws2) ->
  run zero pr m 1 ao (CSetMode HDF5Format :: ws1 ++ CWrite t p diag :: ws2) s0 = Ok s ->
  exists v, fetch t name_pressure (h5 s) = Some v /\ in_natural_order ao p v.
Proof. exact @kept. Qed.
Print Assumptions C99_kept.

(** Times that differ by more than one unit of the sixth digit print differently. *)
Theorem C99_times : forall t1 t2 p, prints t1 p -> prints t2 p -> (Rabs (t1 - t2) <= powerRZ 10 (pexp p - 5))%R.
Proof. exact prints_close. Qed.
Print Assumptions C99_times.

(** Other times may print alike, and then the later output replaces the earlier
    one: 100000 s and 100000.4 s for example. *)
Theorem C99_times_refuted : exists (t1 t2 : R) t, (t1 < t2)%R /\ prints t1 t /\ prints t2 t /\
  forall A (zero : A) pr m ao p1 p2 diag1 diag2 sat2 (s0 s : io A), layout pr ao ->
  List.length p1 = List.length ao -> List.length p2 = List.length ao -> p1 <> p2 ->
  field diag2 DIAG_LIQUID_SATURATION sat2 -> List.length sat2 = List.length ao ->
  run zero pr m 1 ao [CSetMode HDF5Format; CWrite t p1 diag1; CWrite t p2 diag2] s0 = Ok s ->
  exists v, fetch t name_pressure (h5 s) = Some v /\ ~ in_natural_order ao p1 v.
Proof. exact lost_output. Qed.
Print Assumptions C99_times_refuted.

(** For meshes of tetrahedra, wedges or hexahedra with one unknown per cell the
    header of out.xmf gives the right shape, number of cells and table of
    vertices. *)
Theorem C99_header_partial : forall A m N (s : io A) n shape verts edges faces cells,
  mdim m = 3 -> by_depth m = [verts; edges; faces; cells] -> corners m <> [] -> Forall (eq n) (corners m) ->
  shape_name 3 n = Some shape -> n <> 5 ->
  exists hd, SetMode m (N * 1) HDF5Format s = Ok (Io HDF5Format (Some hd) []) /\
  topology hd = [(shape, Z.of_nat N)] /\ vertex_table hd = [[Z.of_nat verts; 3%Z]].
Proof. exact header_right. Qed.
Print Assumptions C99_header_partial.

(** Meshes of pyramids or of mixed shapes, and processes without cells, read
    outside the table of shapes or print a null pointer. *)
Theorem C99_shapes_refuted : forall A m N (s : io A),
  (mdim m = 3 -> corners m <> [] -> Forall (eq 5) (corners m) -> SetMode m N HDF5Format s = UB) /\
  (forall q q', mdim m = 2 \/ mdim m = 3 -> In q (corners m) -> In q' (corners m) -> q' <> q -> SetMode m N HDF5Format s = UB) /\
  (mdim m = 2 \/ mdim m = 3 -> corners m = [] -> SetMode m N HDF5Format s = UB).
Proof. exact (fun A m N s => conj (no_pyramids m N s) (conj (no_mixed m N s) (no_cells m N s))). Qed.
Print Assumptions C99_shapes_refuted.

(** In two dimensions the header says there are no vertices, and with several
    unknowns per cell it multiplies the number of cells. *)
Theorem C99_header_refuted : forall A m N ndof (s : io A) n shape verts edges cells,
  mdim m = 2 -> by_depth m = [verts; edges; cells] -> corners m <> [] -> Forall (eq n) (corners m) -> shape_name 2 n = Some shape ->
  exists hd, SetMode m (N * ndof) HDF5Format s = Ok (Io HDF5Format (Some hd) []) /\
  topology hd = [(shape, Z.of_nat (N * ndof))] /\ vertex_table hd = [[0%Z; 2%Z]].
Proof. exact header_wrong. Qed.
Print Assumptions C99_header_refuted.

(** Three cells on two processes, numbered 1, 2, 0: the saturations 7, 8, 9 of the
    natural cells 1, 2, 0 are written as 8, 9, 7 instead of 9, 7, 8. *)
Example C99_example : exists s', WriteVec 0%Z (ManyProcesses [2; 1]) 1 [1; 2; 0]%Z hundred_thousand [4; 5; 6]%Z [7; 0; 8; 0; 9; 0]%Z
    (Io HDF5Format (Some []) []) = Ok (s', [(name_pressure, [6; 4; 5]%Z); (name_saturation, [8; 9; 7]%Z)]) /\
  layout (ManyProcesses [2; 1]) [1; 2; 0]%Z /\ field [7; 0; 8; 0; 9; 0]%Z DIAG_LIQUID_SATURATION [7; 8; 9]%Z /\
  in_natural_order [1; 2; 0]%Z [7; 8; 9]%Z [9; 7; 8]%Z.
Proof. exact three_cells. Qed.

(** A run with two outputs on one process. *)
Example C99_run_example : exists s l, run 0%Z OneProcess (Mesh 3 [8; 12; 6; 1] [8]) 1 [0]%Z
    [CSetMode HDF5Format; CWrite (Printed false 0 0) [1]%Z [2; 3]%Z; CWrite hundred_thousand [4]%Z [5; 6]%Z] (Create None) = Ok s /\
  Destroy 1 (xmf s) = Some l /\
  listed l = [(Printed false 0 0, name_pressure); (Printed false 0 0, name_saturation);
              (hundred_thousand, name_pressure); (hundred_thousand, name_saturation)] /\
  topology l = [("Hexahedron"%string, 1%Z)] /\ fetch (Printed false 0 0) name_saturation (h5 s) = Some [2]%Z.
Proof. exact two_outputs. Qed.
