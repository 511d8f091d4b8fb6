From Coq Require Import Reals List Bool Arith ZArith String Permutation Lia Lra.
From Verif Require Import Prelude Arrays UGrid SpecUGrid Scatter ScatterProofs Tensor SpecTensor TensorProofs ReadMat SpecReadMat.
Import ListNotations.

Lemma nth_error_firstn' : forall {A} n (l : list A) i, i < n -> nth_error (firstn n l) i = nth_error l i.
Proof. intros A n; induction n as [|n IH]; intros [|x l] [|i] H; cbn; try lia; try reflexivity. apply IH. lia. Qed.

(** Copying an array element by element. *)
Lemma copy_loop : forall {A} (l s : list A) n, n <= List.length l -> List.length s = n ->
  for_ n (fun i v => do x <- rd l i; wr v i x) s = Ok (firstn n l).
Proof.
  intros A l s n Hl Hs.
  destruct (for_inv (fun k v => List.length v = n /\ forall i, i < k -> nth_error v i = nth_error l i)
    (fun i v => do x <- rd l i; wr v i x) n s) as [v [E [L H]]].
  - split; [exact Hs|]. intros i Hi. lia.
  - intros k v Hk [L H]. destruct (rd_ok l k) as [x [R X]]; [lia|]. rewrite R. cbn [bind]. rewrite wr_ok by lia.
    eexists. split; [reflexivity|]. split; [rewrite length_upd; exact L|]. intros i Hi.
    destruct (Nat.eq_dec k i) as [<-|D].
    + rewrite nth_upd_same by lia. congruence.
    + rewrite nth_upd_other by exact D. apply H. lia.
  - rewrite E. f_equal. apply nth_error_ext. intros i. destruct (le_lt_dec n i) as [Hi|Hi].
    + rewrite (proj2 (nth_error_None v i)) by lia. symmetry. apply nth_error_None. rewrite firstn_length. lia.
    + rewrite H by exact Hi. symmetry. apply nth_error_firstn'. exact Hi.
Qed.

Lemma missing : forall d file name, file name = None -> ReadVariable d file name = Err.
Proof. intros d file name H. unfold ReadVariable. rewrite H. reflexivity. Qed.

Lemma wrong_length : forall N d file name u, distribution N d -> file name = Some u -> List.length u <> N * ndof d ->
  ReadVariable d file name = Err.
Proof.
  intros N d file name u (P & _) F L. unfold ReadVariable. rewrite F, (ao_length N (ao d) P).
  replace (List.length u =? N * ndof d) with false by (symmetry; apply Nat.eqb_neq; exact L). reflexivity.
Qed.

(** The vector read: position k of local cell i is position k of the cell it stands for. *)
Lemma read_ok : forall N d file name u, distribution N d -> file name = Some u -> List.length u = N * ndof d ->
  exists v, ReadVariable d file name = Ok v /\ List.length v = local_cells d * ndof d /\
  forall i c k, cell_of_file d i c -> k < ndof d -> nth_error v (i * ndof d + k) = nth_error u (c * ndof d + k).
Proof.
  intros N d file name u (P & Q & O & G) F L. unfold ReadVariable. rewrite F, (ao_length N (ao d) P).
  replace (List.length u =? N * ndof d) with true by (symmetry; apply Nat.eqb_eq; exact L). cbn [negb].
  unfold natural_to_local.
  destruct (natural_to_global_ok (ndof d) N (ao d) (nls d) P Q u (repeat 0%R (N * ndof d)) L (repeat_length _ _)) as [w [Ew [Lw Hw]]].
  rewrite Ew. cbn [bind].
  destruct (global_to_local_ok (ndof d) N (off d) (nl d) (ghosts d) w (repeat 0%R (local_cells d * ndof d)) O G Lw (repeat_length _ _)) as [y [Ey [Ly Hy]]].
  rewrite Ey. cbn [bind]. rewrite repeat_length in Ly.
  rewrite copy_loop by (try apply repeat_length; lia). rewrite firstn_all.
  exists y. split; [reflexivity|]. split; [exact Ly|].
  intros i c k (p & Hp & Hc) Hk.
  rewrite (Hy i p k Hp Hk). 
  assert (Hlt : p < N) by (apply nth_lt in Hc; rewrite (ao_length N (ao d) P) in Hc; exact Hc).
  rewrite (Hw p k Hlt Hk). f_equal. f_equal. f_equal.
  unfold natural_of, petsc_to_app. rewrite (nth_error_nth (ao d) p _ Hc). apply Nat2Z.id.
Qed.

Lemma read_one : forall N d file name u, distribution N d -> ndof d = 1 -> file name = Some u -> List.length u = N ->
  exists v, ReadVariable d file name = Ok v /\ from_file d u v.
Proof.
  intros N d file name u D K F L.
  destruct (read_ok N d file name u D F) as [v [E [Lv H]]]; [rewrite K; lia|]. exists v. split; [exact E|]. split.
  - rewrite Lv, K. unfold local_cells. lia.
  - intros i c C. specialize (H i c 0 C). rewrite K in H. replace (i * 1 + 0) with i in H by lia. replace (c * 1 + 0) with c in H by lia. apply H. lia.
Qed.

Definition the_name (default dataset : string) : string := if String.length dataset =? 0 then default else dataset.

Lemma copy_ok : forall size s, String.length s + 1 <= size -> copy size s = Ok s.
Proof. intros size s H. unfold copy. apply Nat.leb_le in H. rewrite H. reflexivity. Qed.

Lemma append_length : forall a b, String.length (String.append a b) = String.length a + String.length b.
Proof. induction a as [|c a IH]; intros b; cbn; [reflexivity|]. rewrite IH. reflexivity. Qed.

Lemma porosity_values : forall N max d file dataset u n s,
  distribution N d -> ndof d = 1 -> String.length (the_name "Porosity" dataset) < max ->
  file (the_name "Porosity" dataset) = Some u -> List.length u = N ->
  n = nl d + List.length (ghosts d) -> List.length s = n ->
  exists c v, ReadPorosity max d file dataset = Ok c /\ AssignScalars c n s = Ok v /\ from_file d u v.
Proof.
  intros N max d file dataset u n s D K M F L -> Ls. unfold ReadPorosity. fold (the_name "Porosity" dataset).
  rewrite copy_ok by lia. cbn [bind].
  destruct (read_one N d file _ u D K F L) as [v [E H]]. rewrite E.
  exists (Values v), v. split; [reflexivity|]. split; [|exact H]. cbn [AssignScalars].
  destruct H as [Lv _]. rewrite copy_loop by (try exact Ls; lia). rewrite <- Lv, firstn_all. reflexivity.
Qed.

Lemma porosity_missing : forall N max d file dataset n s,
  distribution N d -> String.length (the_name "Porosity" dataset) < max ->
  (forall u, file (the_name "Porosity" dataset) = Some u -> List.length u <> N * ndof d) ->
  exists c, ReadPorosity max d file dataset = Ok c /\ AssignScalars c n s = UB.
Proof.
  intros N max d file dataset n s D M F. unfold ReadPorosity. fold (the_name "Porosity" dataset).
  rewrite copy_ok by lia. cbn [bind].
  destruct (file (the_name "Porosity" dataset)) as [u|] eqn:E.
  - rewrite (wrong_length N d file _ u D E (F u eq_refl)). exists Uninitialised. split; reflexivity.
  - rewrite (missing d file _ E). exists Uninitialised. split; reflexivity.
Qed.

(** With more unknowns per cell the values of the first cells are spread over the others. *)
Lemma porosity_spread : forall N max d file dataset u n s,
  distribution N d -> 0 < ndof d -> String.length (the_name "Porosity" dataset) < max ->
  file (the_name "Porosity" dataset) = Some u -> List.length u = N * ndof d ->
  n = nl d + List.length (ghosts d) -> List.length s = n ->
  exists c v, ReadPorosity max d file dataset = Ok c /\ AssignScalars c n s = Ok v /\ List.length v = n /\
  forall i j k, i = j * ndof d + k -> k < ndof d -> i < n ->
    forall cell, cell_of_file d j cell -> nth_error v i = nth_error u (cell * ndof d + k).
Proof.
  intros N max d file dataset u n s D K M F L Hn Ls. unfold ReadPorosity. fold (the_name "Porosity" dataset).
  rewrite copy_ok by lia. cbn [bind].
  destruct (read_ok N d file _ u D F L) as [v [E [Lv H]]]. rewrite E.
  assert (Hle : n <= List.length v) by (rewrite Lv, Hn; unfold local_cells; nia).
  exists (Values v), (firstn n v). split; [reflexivity|]. cbn [AssignScalars].
  rewrite copy_loop by (try exact Ls; exact Hle). split; [reflexivity|]. split; [rewrite firstn_length; lia|].
  intros i j k Hi Hk Hlt cell C. rewrite nth_error_firstn' by exact Hlt. rewrite Hi. apply H; assumption.
Qed.

Lemma entry_eq : forall f i row col, entry3 f i row col = entry 3 f i row col.
Proof. intros. unfold entry3, entry. f_equal. lia. Qed.

Lemma permeability_values : forall N max d file dataset ux uy uz n,
  distribution N d -> ndof d = 1 -> String.length (the_name "Permeability" dataset) + 1 < max ->
  file (String.append (the_name "Permeability" dataset) "X") = Some ux -> List.length ux = N ->
  file (String.append (the_name "Permeability" dataset) "Y") = Some uy -> List.length uy = N ->
  file (String.append (the_name "Permeability" dataset) "Z") = Some uz -> List.length uz = N ->
  n = nl d + List.length (ghosts d) ->
  exists c f, ReadPermeability max true d file dataset = Ok c /\ AssignTensors c n = Ok f /\ List.length f = 9 * n /\
  forall i cell row col, cell_of_file d i cell -> i < n -> row < 3 -> col < 3 ->
    entry3 f i row col = if row =? col then nth_error (nth row [ux; uy; uz] []) cell else Some 0%R.
Proof.
  intros N max d file dataset ux uy uz n D K M Fx Lx Fy Ly Fz Lz Hn. unfold ReadPermeability. fold (the_name "Permeability" dataset).
  rewrite copy_ok by lia. cbn [bind].
  rewrite !copy_ok by (rewrite append_length; cbn; lia). cbn [bind].
  destruct (read_one N d file _ ux D K Fx Lx) as [vx [Ex [Nx Hx]]]. rewrite Ex. cbn [bind].
  destruct (read_one N d file _ uy D K Fy Ly) as [vy [Ey [Ny Hy]]]. rewrite Ey. cbn [bind].
  destruct (read_one N d file _ uz D K Fz Lz) as [vz [Ez [Nz Hz]]]. rewrite Ez. cbn [bind].
  exists (Diagonals vx vy vz). cbn [AssignTensors].
  destruct (file_diagonal_proof n vx vy vz) as [f [E [Lf Hf]]]; [lia..|].
  exists f. split; [reflexivity|]. split; [exact E|]. split; [lia|].
  intros i cell row col C Hi Hr Hc. rewrite entry_eq, (Hf i row col Hi Hr Hc). unfold diagonal.
  destruct (row =? col); [|reflexivity].
  destruct row as [|[|[|row]]]; [| | |lia]; cbn [nth].
  - rewrite <- (Hx i cell C). symmetry. apply nth_error_nth'. lia.
  - rewrite <- (Hy i cell C). symmetry. apply nth_error_nth'. lia.
  - rewrite <- (Hz i cell C). symmetry. apply nth_error_nth'. lia.
Qed.

(** Without the option for anisotropy. *)
Lemma permeability_constant : forall N max d file dataset u n c0 c1 c2,
  distribution N d -> ndof d = 1 -> String.length (the_name "Permeability" dataset) + 1 < max ->
  file (the_name "Permeability" dataset) = Some u -> List.length u = N ->
  cell_of_file d 0 c0 -> cell_of_file d 1 c1 -> cell_of_file d 2 c2 -> 
  exists c f, ReadPermeability max false d file dataset = Ok c /\ AssignTensors c n = Ok f /\ List.length f = 9 * n /\
  forall i row col, i < n -> row < 3 -> col < 3 ->
    entry3 f i row col = if row =? col then nth_error u (nth row [c0; c1; c2] 0) else Some 0%R.
Proof.
  intros N max d file dataset u n c0 c1 c2 D K M F L C0 C1 C2. unfold ReadPermeability. fold (the_name "Permeability" dataset).
  rewrite copy_ok by lia. cbn [bind].
  destruct (read_one N d file _ u D K F L) as [v [E [Nv H]]]. rewrite E. cbn [bind].
  pose proof (H 0 c0 C0) as H0. pose proof (H 1 c1 C1) as H1. pose proof (H 2 c2 C2) as H2.
  assert (B : forall i c, cell_of_file d i c -> i < List.length v).
  { intros i c (p & Hp & _). rewrite Nv. destruct (Nat.ltb_spec i (nl d)); [lia|]. apply nth_lt in Hp. lia. }
  destruct (rd_ok v 0 (B _ _ C0)) as [k0 [R0 X0]]. destruct (rd_ok v 1 (B _ _ C1)) as [k1 [R1 X1]]. destruct (rd_ok v 2 (B _ _ C2)) as [k2 [R2 X2]].
  rewrite R0, R1, R2. cbn [bind]. exists (ConstantDiagonal [k0; k1; k2]). cbn [AssignTensors].
  destruct (constant_diagonal_proof 3 n k0 k1 k2 []) as [f [Ef [Lf Hf]]]; [lia|].
  exists f. split; [reflexivity|]. split; [exact Ef|]. split; [lia|].
  intros i row col Hi Hr Hc. rewrite entry_eq, (Hf i row col Hi Hr Hc). unfold diagonal.
  destruct (row =? col); [|reflexivity].
  destruct row as [|[|[|row]]]; [| | |lia]; cbn [nth]; congruence.
Qed.

Lemma permeability_few : forall N max d file dataset u,
  distribution N d -> ndof d = 1 -> String.length (the_name "Permeability" dataset) + 1 < max ->
  file (the_name "Permeability" dataset) = Some u -> List.length u = N -> nl d + List.length (ghosts d) < 3 ->
  ReadPermeability max false d file dataset = UB.
Proof.
  intros N max d file dataset u D K M F L S3. unfold ReadPermeability. fold (the_name "Permeability" dataset).
  rewrite copy_ok by lia. cbn [bind].
  destruct (read_one N d file _ u D K F L) as [v [E [Nv _]]]. rewrite E. cbn [bind]. rewrite <- Nv in S3.
  destruct v as [|a [|b [|c v]]]; cbn in *; try reflexivity. lia.
Qed.

Lemma permeability_missing : forall N max anisotropic d file dataset,
  distribution N d -> String.length (the_name "Permeability" dataset) + 1 < max ->
  (forall s u, file (String.append (the_name "Permeability" dataset) s) = Some u -> List.length u <> N * ndof d) ->
  ReadPermeability max anisotropic d file dataset = Err.
Proof.
  intros N max anisotropic d file dataset D M F. unfold ReadPermeability. fold (the_name "Permeability" dataset).
  rewrite copy_ok by lia. cbn [bind].
  assert (Q : forall s, ReadVariable d file (String.append (the_name "Permeability" dataset) s) = Err).
  { intros s. destruct (file (String.append (the_name "Permeability" dataset) s)) as [u|] eqn:E.
    - apply (wrong_length N d file _ u D E). exact (F s u E).
    - apply missing. exact E. }
  destruct anisotropic.
  - rewrite !copy_ok by (rewrite append_length; cbn; lia). cbn [bind]. rewrite Q. reflexivity.
  - assert (Z : forall t, String.append t "" = t) by (induction t; cbn; congruence).
    specialize (Q ""%string). rewrite Z in Q. rewrite Q. reflexivity.
Qed.

Lemma permeability_name : forall max anisotropic d file dataset, String.length dataset <> 0 ->
  max <= String.length dataset + 1 -> ReadPermeability max anisotropic d file dataset = UB.
Proof.
  intros max anisotropic d file dataset Z M. unfold ReadPermeability, copy.
  replace (String.length dataset =? 0) with false by (symmetry; apply Nat.eqb_neq; exact Z).
  replace (String.length dataset + 1 <=? max - 1) with false by (symmetry; apply Nat.leb_gt; lia). reflexivity.
Qed.
