(** The header of the XML file, and outputs whose printed times agree. *)
From Coq Require Import List Arith ZArith Lia Bool String Permutation Reals Lra.
From Verif Require Import Prelude Arrays UGrid Scatter Output SpecOutput OutputProofs OutputWrite OutputFile.
Import ListNotations.
Local Open Scope nat_scope.

Lemma corners_uniform n qs : qs <> [] -> Forall (eq n) qs -> corners_from (-1) qs = Z.of_nat n.
Proof.
  intros Hq H. destruct H as [|q qs <- H]; [congruence|]. cbn [corners_from].
  rewrite Z.eqb_refl, Z.eqb_refl.
  induction H as [|q qs <- H IH]; [reflexivity|]. cbn [corners_from].
  rewrite (proj2 (Z.eqb_neq (Z.of_nat n) (-1))) by lia. rewrite Z.eqb_refl. apply IH. discriminate.
Qed.
Lemma corners_mixed qs q : In q qs -> (exists q', In q' qs /\ q' <> q) -> corners_from (-1) qs = 56%Z.
Proof.
  assert (G : forall qs nq, (0 <= nq)%Z -> (exists q', In q' qs /\ Z.of_nat q' <> nq) -> corners_from nq qs = 56%Z).
  { clear. induction qs as [|a qs IH]; intros nq Hn [q' [Hin Ne]]; [destruct Hin|]. cbn [corners_from].
    rewrite (proj2 (Z.eqb_neq nq (-1))) by lia. destruct (nq =? Z.of_nat a)%Z eqn:E; [|reflexivity].
    apply Z.eqb_eq in E. apply IH; [exact Hn|]. destruct Hin as [->|Hin]; [congruence|]. exists q'. auto. }
  intros Hq [q' [Hq' Ne]]. destruct qs as [|a qs]; [destruct Hq|]. cbn [corners_from]. rewrite Z.eqb_refl, Z.eqb_refl.
  apply G; [lia|]. destruct (Nat.eq_dec q a) as [->|Na].
  - exists q'. split; [destruct Hq' as [->|H]; [congruence|exact H]|lia].
  - exists q. split; [destruct Hq as [->|H]; [congruence|exact H]|lia].
Qed.

(** The number of cells and the shape given by the header; there is one. *)
Definition topology (l : list token) : list (string * Z) :=
  flat_map (fun k => match k with TOpen Topology (Elements s n) => [(s, n)] | _ => [] end) l.
Definition vertex_table (l : list token) : list (list Z) :=
  skipn 1 (flat_map (fun k => match k with TOpen DataItem (Dims d) => [d] | _ => [] end) l).
Lemma head_tables {A} m N (s : io A) n shape : corners m <> [] -> Forall (eq n) (corners m) ->
  cellMap (Z.of_nat (mdim m) * Z.of_nat n) = Ok shape ->
  exists hd, SetMode m N HDF5Format s = Ok (Io HDF5Format (Some hd) []) /\
  topology hd = [(shape, Z.of_nat N)] /\ vertex_table hd = [[Z.of_nat (height_count m 3); Z.of_nat (mdim m)]].
Proof.
  intros Hc Hn Es. unfold SetMode, XMFHeader, NumberOfCellVertices. rewrite (corners_uniform n _ Hc Hn), Es. cbn [bind].
  eexists. split; [reflexivity|]. split; reflexivity.
Qed.

Lemma named_shapes n shape : shape_name 3 n = Some shape -> n <> 5 -> cellMap (3 * Z.of_nat n) = Ok shape.
Proof.
  intros E N. do 9 (destruct n as [|n]; [try discriminate; try congruence; injection E as <-; reflexivity|]). discriminate.
Qed.

Lemma no_pyramids {A} m N (s : io A) : mdim m = 3 -> corners m <> [] -> Forall (eq 5) (corners m) -> SetMode m N HDF5Format s = UB.
Proof.
  intros Hd Hc Hn. unfold SetMode, XMFHeader, NumberOfCellVertices. rewrite (corners_uniform 5 _ Hc Hn), Hd. reflexivity.
Qed.
Lemma no_mixed {A} m N (s : io A) q q' : mdim m = 2 \/ mdim m = 3 -> In q (corners m) -> In q' (corners m) -> q' <> q -> SetMode m N HDF5Format s = UB.
Proof.
  intros Hd Hq Hq' Ne. unfold SetMode, XMFHeader, NumberOfCellVertices. rewrite (corners_mixed _ q Hq (ex_intro _ q' (conj Hq' Ne))).
  destruct Hd as [->| ->]; reflexivity.
Qed.
Lemma no_cells {A} m N (s : io A) : mdim m = 2 \/ mdim m = 3 -> corners m = [] -> SetMode m N HDF5Format s = UB.
Proof. intros Hd Hc. unfold SetMode, XMFHeader, NumberOfCellVertices. rewrite Hc. destruct Hd as [->| ->]; reflexivity. Qed.

(** ** Lost outputs *)
Lemma natural_order_inj {A} ao (x1 x2 v : list A) : numbering ao -> List.length x1 = List.length ao -> List.length x2 = List.length ao ->
  in_natural_order ao x1 v -> in_natural_order ao x2 v -> x1 = x2.
Proof.
  intros Hn H1 H2 [_ V1] [_ V2]. apply nth_error_ext. intro p. destruct (lt_dec p (List.length ao)) as [Hp|Hp].
  - destruct (natural_exists ao Hn p Hp) as [c [_ N]]. rewrite <- (V1 p c N), <- (V2 p c N). reflexivity.
  - rewrite (proj2 (nth_error_None x1 p)) by lia. symmetry. apply nth_error_None. lia.
Qed.
Lemma overwritten {A} (zero : A) pr m ao t p1 p2 diag1 diag2 sat2 (s0 s : io A) : layout pr ao ->
  List.length p1 = List.length ao -> List.length p2 = List.length ao -> p1 <> p2 ->
  field diag2 DIAG_LIQUID_SATURATION sat2 -> List.length sat2 = List.length ao ->
  run zero pr m 1 ao [CSetMode HDF5Format; CWrite t p1 diag1; CWrite t p2 diag2] s0 = Ok s ->
  exists v, fetch t name_pressure (h5 s) = Some v /\ ~ in_natural_order ao p1 v.
Proof.
  intros HL H1 H2 Ne Hf Hs E.
  destruct (kept zero pr m ao [CWrite t p1 diag1] [] t p2 diag2 sat2 s0 s HL) as [v [Ev Nv]]; try assumption.
  - repeat constructor.
  - constructor.
  - intros [].
  - exists v. split; [exact Ev|]. intro H. apply Ne. apply (natural_order_inj ao p1 p2 v (proj1 HL) H1 H2 H Nv).
Qed.

Local Open Scope R_scope.
Definition hundred_thousand := Printed false 100000 5.
Lemma same_print : prints 100000 hundred_thousand /\ prints (100000 + 4 / 10) hundred_thousand.
Proof.
  split; right; (split; [lra|]); (split; [reflexivity|]); (split; [cbn; lia|]); cbn [pdigits pexp hundred_thousand];
  change (5 - 5)%Z with 0%Z; cbn [powerRZ]; unfold Rabs; destruct (Rcase_abs _); lra.
Qed.
Local Open Scope nat_scope.

Lemma written_pressure : forall A (zero : A) pr ao t p diag sat (s : io A),
  layout pr ao -> fmt s = HDF5Format -> List.length p = List.length ao ->
  field diag DIAG_LIQUID_SATURATION sat -> List.length sat = List.length ao ->
  exists pn sn s', WriteVec zero pr 1 ao t p diag s = Ok (s', [(name_pressure, pn); (name_saturation, sn)]) /\
  fetch t name_pressure (h5 s') = Some pn /\ in_natural_order ao p pn /\ fetch t name_saturation (h5 s') = Some sn.
Proof.
  intros A zero pr ao t p diag sat s HL Ef Hp Hf Hs.
  destruct (write_hdf5 zero pr ao HL t p diag sat s Ef Hp Hf Hs) as [pn [tmp [sn [s' [E [_ [_ [Eh [Np _]]]]]]]]].
  exists pn, sn, s'. split; [exact E|]. rewrite Eh. split; [|split; [exact Np|apply fetch_store_same]].
  rewrite fetch_store_other by (intro H; injection H as H; discriminate). apply fetch_store_same.
Qed.
Lemma written_saturation : forall A (zero : A) pr ao t p diag sat (s : io A),
  layout pr ao -> unchanged_order ao -> fmt s = HDF5Format -> List.length p = List.length ao ->
  field diag DIAG_LIQUID_SATURATION sat -> List.length sat = List.length ao ->
  exists pn sn s', WriteVec zero pr 1 ao t p diag s = Ok (s', [(name_pressure, pn); (name_saturation, sn)]) /\
  in_natural_order ao sat sn.
Proof.
  intros A zero pr ao t p diag sat s HL Hu Ef Hp Hf Hs.
  destruct (write_hdf5 zero pr ao HL t p diag sat s Ef Hp Hf Hs) as [pn [tmp [sn [s' [E [_ [_ [_ [_ [Nt Ns]]]]]]]]]].
  exists pn, sn, s'. split; [exact E|]. split; [apply Ns|]. intros q c N.
  rewrite (proj2 Ns q c N). rewrite <- (proj2 Nt q c N). rewrite (unchanged_natural ao Hu q c N). reflexivity.
Qed.
Lemma written_wrong : forall A (a b : A) pr ao,
  layout pr ao -> ~ unchanged_order ao -> a <> b ->
  exists sat diag, field diag DIAG_LIQUID_SATURATION sat /\ List.length sat = List.length ao /\
  forall t p (s : io A), fmt s = HDF5Format -> List.length p = List.length ao ->
  exists pn sn s', WriteVec a pr 1 ao t p diag s = Ok (s', [(name_pressure, pn); (name_saturation, sn)]) /\
  ~ in_natural_order ao sat sn.
Proof.
  intros A a b pr ao HL Hu Hab. destruct (twice_wrong a b ao (proj1 HL) Hu Hab) as [sat [Hs H]].
  exists sat, (diag_of a sat). split; [apply diag_of_field|]. split; [exact Hs|]. intros t p s Ef Hp.
  destruct (write_hdf5 a pr ao HL t p _ sat s Ef Hp (diag_of_field a sat) Hs) as [pn [tmp [sn [s' [E [_ [_ [_ [_ [Nt Ns]]]]]]]]]].
  exists pn, sn, s'. split; [exact E|]. apply (H tmp sn Nt Ns).
Qed.
Lemma written_differ : forall A (a b : A) pr ao,
  layout pr ao -> ~ unchanged_order ao -> a <> b ->
  exists v diag, field diag DIAG_LIQUID_SATURATION v /\ List.length v = List.length ao /\
  forall t (s : io A), fmt s = ExodusFormat ->
  exists sn, WriteVec a pr 1 ao t v diag s = Ok (s, [(name_pressure, v); (name_saturation, sn)]) /\
  ~ same_order ao v v v sn.
Proof.
  intros A a b pr ao HL Hu Hab. destruct (orders_differ a b ao (proj1 HL) Hu Hab) as [v [Hs H]].
  exists v, (diag_of a v). split; [apply diag_of_field|]. split; [exact Hs|]. intros t s Ef.
  destruct (write_exodus a pr ao HL t v _ v s Ef (diag_of_field a v) Hs) as [sn [E N]]. exists sn. split; [exact E|]. apply (H sn N).
Qed.
Lemma lost_output : exists (t1 t2 : R) t, (t1 < t2)%R /\ prints t1 t /\ prints t2 t /\
  forall A (zero : A) pr m ao p1 p2 diag1 diag2 sat2 (s0 s : io A), layout pr ao ->
  List.length p1 = List.length ao -> List.length p2 = List.length ao -> p1 <> p2 ->
  field diag2 DIAG_LIQUID_SATURATION sat2 -> List.length sat2 = List.length ao ->
  run zero pr m 1 ao [CSetMode HDF5Format; CWrite t p1 diag1; CWrite t p2 diag2] s0 = Ok s ->
  exists v, fetch t name_pressure (h5 s) = Some v /\ ~ in_natural_order ao p1 v.
Proof.
  exists 100000%R, (100000 + 4 / 10)%R, hundred_thousand. split; [lra|]. split; [apply same_print|]. split; [apply same_print|].
  intros A zero pr m ao p1 p2 diag1 diag2 sat2 s0 s. apply overwritten.
Qed.
Lemma header_right : forall A m N (s : io A) n shape verts edges faces cells,
  mdim m = 3 -> by_depth m = [verts; edges; faces; cells] -> corners m <> [] -> Forall (eq n) (corners m) ->
  shape_name 3 n = Some shape -> n <> 5 ->
  exists hd, SetMode m (N * 1) HDF5Format s = Ok (Io HDF5Format (Some hd) []) /\
  topology hd = [(shape, Z.of_nat N)] /\ vertex_table hd = [[Z.of_nat verts; 3%Z]].
Proof.
  intros A m N s n shape verts edges faces cells Hd Hb Hc Hn Hs N5. rewrite Nat.mul_1_r.
  destruct (head_tables m N s n shape Hc Hn) as [hd [E [E1 E2]]]; [rewrite Hd; apply named_shapes; assumption|].
  exists hd. split; [exact E|]. split; [exact E1|]. rewrite E2, Hd. unfold height_count. rewrite Hb. reflexivity.
Qed.
Lemma header_wrong : forall A m N ndof (s : io A) n shape verts edges cells,
  mdim m = 2 -> by_depth m = [verts; edges; cells] -> corners m <> [] -> Forall (eq n) (corners m) -> shape_name 2 n = Some shape ->
  exists hd, SetMode m (N * ndof) HDF5Format s = Ok (Io HDF5Format (Some hd) []) /\
  topology hd = [(shape, Z.of_nat (N * ndof))] /\ vertex_table hd = [[0%Z; 2%Z]].
Proof.
  intros A m N ndof s n shape verts edges cells Hd Hb Hc Hn Hs.
  destruct (head_tables m (N * ndof) s n shape Hc Hn) as [hd [E [E1 E2]]].
  { rewrite Hd. do 5 (destruct n as [|n]; [try discriminate; injection Hs as <-; reflexivity|]). discriminate. }
  exists hd. split; [exact E|]. split; [exact E1|]. rewrite E2, Hd. unfold height_count. rewrite Hb. reflexivity.
Qed.
Lemma three_cells : exists s', WriteVec 0%Z (ManyProcesses [2; 1]) 1 [1; 2; 0]%Z hundred_thousand [4; 5; 6]%Z [7; 0; 8; 0; 9; 0]%Z
    (Io HDF5Format (Some []) []) = Ok (s', [(name_pressure, [6; 4; 5]%Z); (name_saturation, [8; 9; 7]%Z)]) /\
  layout (ManyProcesses [2; 1]) [1; 2; 0]%Z /\ field [7; 0; 8; 0; 9; 0]%Z DIAG_LIQUID_SATURATION [7; 8; 9]%Z /\
  in_natural_order [1; 2; 0]%Z [7; 8; 9]%Z [9; 7; 8]%Z.
Proof.
  eexists. split; [vm_compute; reflexivity|]. split; [|split].
  - split; [|reflexivity]. unfold numbering. cbn. apply (Permutation_app_comm [1; 2]%Z [0]%Z).
  - split; [reflexivity|]. intros [|[|[|p]]] Hp; try reflexivity. cbn in Hp. lia.
  - split; [reflexivity|]. intros [|[|[|p]]] c N; unfold natural_number in N; cbn [nth_error] in N;
      [| | |rewrite (proj2 (nth_error_None (@nil Z) p)) in N; [discriminate|cbn; lia]];
      injection N as N; [assert (c = 1) as -> by lia|assert (c = 2) as -> by lia|assert (c = 0) as -> by lia]; reflexivity.
Qed.
Lemma two_outputs : exists s l, run 0%Z OneProcess (Mesh 3 [8; 12; 6; 1] [8]) 1 [0]%Z
    [CSetMode HDF5Format; CWrite (Printed false 0 0) [1]%Z [2; 3]%Z; CWrite hundred_thousand [4]%Z [5; 6]%Z] (Create None) = Ok s /\
  Destroy 1 (xmf s) = Some l /\
  listed l = [(Printed false 0 0, name_pressure); (Printed false 0 0, name_saturation);
              (hundred_thousand, name_pressure); (hundred_thousand, name_saturation)] /\
  topology l = [("Hexahedron"%string, 1%Z)] /\ fetch (Printed false 0 0) name_saturation (h5 s) = Some [2]%Z.
Proof. eexists. eexists. split; [vm_compute; reflexivity|]. split; [vm_compute; reflexivity|]. repeat split; vm_compute; reflexivity. Qed.
