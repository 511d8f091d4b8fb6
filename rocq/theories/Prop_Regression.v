(** Properties of the regression output. *)
From Coq Require Import Bool List Arith Lia.
From Verif Require Import Prelude Regression SpecRegression RegressionProofs.
Import ListNotations.

(** C25: every process has entries, some cells are requested, and in TH mode
    every process has at least as many cells as requested. *)
Theorem C25_samples_distinct_and_in_range : forall m sizes req, 0 < req -> (forall x, In x sizes -> 0 < x) ->
  (m = MTH -> forall x, In x sizes -> 2 * req <= x) ->
  exists ids, sample m sizes req = Ok ids /\ NoDup ids
    /\ length ids = length sizes * (ndof_per_cell m * clip sizes req)
    /\ (forall x, In x ids -> x < total sizes).
Proof. exact sample_ok. Qed.

Theorem C25_samples_belong_to_their_process : forall m sizes req rank, rank < length sizes -> 0 < req ->
  (forall x, In x sizes -> 0 < x) -> (m = MTH -> forall x, In x sizes -> 2 * req <= x) ->
  exists ids, sample_process m sizes req rank = Ok ids /\ forall x, In x ids -> owned_by sizes rank x.
Proof. exact sample_owned. Qed.

(** TH with more requested cells than a process has: duplicates. *)
Theorem C25_TH_few_cells_refuted : exists sizes ids, (forall x, In x sizes -> 0 < x)
  /\ sample MTH sizes 3 = Ok ids /\ ~ NoDup ids.
Proof.
  exists [4]. eexists. split; [intros x [<-|[]]; lia|]. split; [reflexivity|].
  intro H. inversion H as [|? ? Hn _]. apply Hn. simpl. tauto.
Qed.

(** SALINITY has two unknowns per cell but is sampled as if it had one, so the
    sampled entries need not belong to different cells. *)
Theorem C25_salinity_cells_refuted : exists sizes ids, sample MSalinity sizes 4 = Ok ids
  /\ ids = [0; 1; 2; 3] /\ map (cell_of 2) ids = [0; 0; 1; 1].
Proof. exists [4]. eexists. split; [reflexivity|]. split; reflexivity. Qed.

(** A process without cells, or a request for none: integer division by zero. *)
Theorem C25_empty_process_refuted : sample MRichards [4; 0] 2 = UB /\ sample MRichards [4; 4] 0 = UB.
Proof. split; reflexivity. Qed.

Example C25_example : sample MTH [8; 12] 2 = Ok [0; 1; 4; 5; 8; 9; 14; 15] /\ sample MRichards [5; 3] 9 = Ok [0; 1; 2; 5; 6; 7].
Proof. split; reflexivity. Qed.

Print Assumptions C25_samples_distinct_and_in_range.
Print Assumptions C25_samples_belong_to_their_process.
Print Assumptions C25_TH_few_cells_refuted.
Print Assumptions C25_salinity_cells_refuted.
Print Assumptions C25_empty_process_refuted.
