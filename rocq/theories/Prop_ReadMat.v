(** C101: material properties read from a file. *)
From Coq Require Import Reals List Bool Arith ZArith String Permutation Lia Lra.
From Verif Require Import Prelude Arrays UGrid Scatter Tensor ReadMat SpecReadMat ReadMatProofs.
Import ListNotations.
Local Open Scope nat_scope.

(** With one unknown per cell, every cell of every process, owned or ghost, gets the porosity
    the file has for it, for every distribution of the mesh; the data set is the one named
    by the user, or else "Porosity". *)
Theorem C101_porosity_partial : forall N max d file dataset u n s,
  let name := if String.length dataset =? 0 then "Porosity"%string else dataset in
  distribution N d -> ndof d = 1 -> String.length name < max ->
  file name = Some u -> List.length u = N ->
  n = nl d + List.length (ghosts d) -> List.length s = n ->
  exists c v, ReadPorosity max d file dataset = Ok c /\ AssignScalars c n s = Ok v /\ from_file d u v.
Proof. exact porosity_values. Qed.
Print Assumptions C101_porosity_partial.

(** A missing file or data set, or one of the wrong length, is not reported when porosities
    are read: an uninitialised pointer is used when they are needed. *)
Theorem C101_porosity_error_refuted : forall N max d file dataset n s,
  let name := if String.length dataset =? 0 then "Porosity"%string else dataset in
  distribution N d -> String.length name < max ->
  (forall u, file name = Some u -> List.length u <> N * ndof d) ->
  exists c, ReadPorosity max d file dataset = Ok c /\ AssignScalars c n s = UB.
Proof. exact porosity_missing. Qed.
Print Assumptions C101_porosity_error_refuted.

(** With several unknowns per cell the file must have as many values per cell, and cell
    number j*ndof+k of the process gets the k-th value of its cell number j. *)
Theorem C101_porosity_unknowns_refuted :
  (forall N max d file dataset u n s,
     let name := if String.length dataset =? 0 then "Porosity"%string else dataset in
     distribution N d -> 0 < ndof d -> String.length name < max ->
     file name = Some u -> List.length u = N * ndof d ->
     n = nl d + List.length (ghosts d) -> List.length s = n ->
     exists c v, ReadPorosity max d file dataset = Ok c /\ AssignScalars c n s = Ok v /\ List.length v = n /\
     forall i j k, i = j * ndof d + k -> k < ndof d -> i < n ->
       forall cell, cell_of_file d j cell -> nth_error v i = nth_error u (cell * ndof d + k)) /\
  (exists v, let d := Part 2 [2; 0; 1]%Z [3] 0 3 [] in
     distribution 3 d /\
     (do c <- ReadPorosity 100 d (fun _ => Some [1; 1; 2; 2; 3; 3]%R) ""; AssignScalars c 3 [0; 0; 0]%R) = Ok v /\
     v = [3; 3; 1]%R /\ ~ from_file d [1; 2; 3]%R v).
Proof.
  split; [exact porosity_spread|]. exists [3; 3; 1]%R. cbn zeta. split.
  { split; [|split; [reflexivity|split; [cbn; lia|intros g []]]]. cbn.
    apply Permutation_trans with [0; 2; 1]%Z; [apply perm_swap|]. apply perm_skip, perm_swap. }
  split; [reflexivity|]. split; [reflexivity|]. intros [_ H].
  specialize (H 1 0). cbn in H. assert (E : Some 3%R = Some 1%R) by (apply H; exists 1; split; reflexivity).
  injection E as E. lra.
Qed.
Print Assumptions C101_porosity_unknowns_refuted.

(** With one unknown per cell and the option for anisotropic permeability, every cell gets
    the diagonal tensor the three data sets have for it, and zeros elsewhere. *)
Theorem C101_permeability_partial : forall N max d file dataset ux uy uz n,
  let name := if String.length dataset =? 0 then "Permeability"%string else dataset in
  distribution N d -> ndof d = 1 -> String.length name + 1 < max ->
  file (String.append name "X") = Some ux -> List.length ux = N ->
  file (String.append name "Y") = Some uy -> List.length uy = N ->
  file (String.append name "Z") = Some uz -> List.length uz = N ->
  n = nl d + List.length (ghosts d) ->
  exists c f, ReadPermeability max true d file dataset = Ok c /\ AssignTensors c n = Ok f /\ List.length f = 9 * n /\
  forall i cell row col, cell_of_file d i cell -> i < n -> row < 3 -> col < 3 ->
    entry3 f i row col = if row =? col then nth_error (nth row [ux; uy; uz] []) cell else Some 0%R.
Proof. exact permeability_values. Qed.
Print Assumptions C101_permeability_partial.

(** Without that option the values of the first three cells of the process become the
    diagonal of the tensor of all its cells, so that the result depends on the
    distribution; with fewer than three cells the array is read out of bounds. *)
Theorem C101_permeability_refuted :
  (forall N max d file dataset u n c0 c1 c2,
     let name := if String.length dataset =? 0 then "Permeability"%string else dataset in
     distribution N d -> ndof d = 1 -> String.length name + 1 < max ->
     file name = Some u -> List.length u = N ->
     cell_of_file d 0 c0 -> cell_of_file d 1 c1 -> cell_of_file d 2 c2 ->
     exists c f, ReadPermeability max false d file dataset = Ok c /\ AssignTensors c n = Ok f /\ List.length f = 9 * n /\
     forall i row col, i < n -> row < 3 -> col < 3 ->
       entry3 f i row col = if row =? col then nth_error u (nth row [c0; c1; c2] 0) else Some 0%R) /\
  (forall N max d file dataset u,
     let name := if String.length dataset =? 0 then "Permeability"%string else dataset in
     distribution N d -> ndof d = 1 -> String.length name + 1 < max ->
     file name = Some u -> List.length u = N -> nl d + List.length (ghosts d) < 3 ->
     ReadPermeability max false d file dataset = UB).
Proof. exact (conj permeability_constant permeability_few). Qed.
Print Assumptions C101_permeability_refuted.

(** Missing data sets of the permeability and data sets of the wrong length are refused. *)
Theorem C101_permeability_error : forall N max anisotropic d file dataset,
  let name := if String.length dataset =? 0 then "Permeability"%string else dataset in
  distribution N d -> String.length name + 1 < max ->
  (forall s u, file (String.append name s) = Some u -> List.length u <> N * ndof d) ->
  ReadPermeability max anisotropic d file dataset = Err.
Proof. exact permeability_missing. Qed.
Print Assumptions C101_permeability_error.

(** The name of a permeability data set of the greatest length the option accepts (one less
    than the longest path) overflows the buffer it is copied to. *)
Theorem C101_name_refuted : forall max anisotropic d file dataset, String.length dataset <> 0 ->
  String.length dataset = max - 1 -> ReadPermeability max anisotropic d file dataset = UB.
Proof. intros max anisotropic d file dataset Z M. apply permeability_name; [exact Z|lia]. Qed.
Print Assumptions C101_name_refuted.

(** Three cells on two processes; the second owns the cells 0 and 1 of the file and has
    cell 2 as ghost. *)
Example C101_example :
  let d := Part 1 [2; 0; 1]%Z [1; 2] 1 2 [0] in
  let file := fun name => if String.eqb name "KX" then Some [1; 2; 3]%R else if String.eqb name "KY" then Some [4; 5; 6]%R
    else if String.eqb name "KZ" then Some [7; 8; 9]%R else if String.eqb name "Porosity" then Some [10; 20; 30]%R else None in
  distribution 3 d /\ cell_of_file d 2 2 /\
  (do c <- ReadPorosity 100 d file ""; AssignScalars c 3 [0; 0; 0]%R) = Ok [10; 20; 30]%R /\
  (do c <- ReadPermeability 100 true d file "K"; AssignTensors c 3) =
    Ok [1; 0; 0; 0; 4; 0; 0; 0; 7; 2; 0; 0; 0; 5; 0; 0; 0; 8; 3; 0; 0; 0; 6; 0; 0; 0; 9]%R /\
  ReadPermeability 100 false d file "" = Err /\
  ReadPermeability 100 false d file "KX" = Ok (ConstantDiagonal [1; 2; 3]%R) /\
  ReadPermeability 100 false (Part 1 [2; 0; 1]%Z [1; 2] 0 1 []) file "KX" = UB.
Proof.
  cbn zeta. split.
  { split; [|split; [reflexivity|split; [cbn; lia|]]]; cbn.
    - apply Permutation_trans with [0; 2; 1]%Z; [apply perm_swap|]. apply perm_skip, perm_swap.
    - intros g [<-|[]]. lia. }
  split; [exists 0; split; reflexivity|]. repeat split; reflexivity.
Qed.
