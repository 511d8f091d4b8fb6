(** C102: what the regression file says. *)
From Coq Require Import Reals List Bool Arith ZArith Lia Lra.
From Verif Require Import Prelude Arrays UGrid Scatter Regression RegOut SpecRegOut RegOutProofs.
Import ListNotations.
Local Open Scope nat_scope.

(** With one unknown per cell the file gives the greatest, the least and the mean pressure of
    all cells of all processes and the pressure of each of the chosen cells, which are
    distinct, for every partition without empty processes. *)
Theorem C102_one_unknown : forall nf req U, 0 < req -> U <> [] -> (forall u, In u U -> u <> []) ->
  exists ks lines, Regression_file MRichards nf req U = Ok lines /\ section LiquidPressure (concat U) ks lines /\
    NoDup ks /\ length ks = length U * clip (map (@length R) U) req.
Proof. intros nf req U. apply one_field. discriminate. Qed.
Print Assumptions C102_one_unknown.

(** With water and heat on a mesh that knows both fields, the file has a part for the pressure
    and one for the temperature, for the same cells, provided that no process has fewer cells
    than are asked for. *)
Theorem C102_two_unknowns_partial : forall req cells, 0 < req -> cells <> [] -> (forall c, In c cells -> req <= length c) ->
  exists ks a b, Regression_file MTH 2 req (map interleaved cells) = Ok (a ++ b) /\
    section LiquidPressure (map fst (concat cells)) ks a /\ section Temperature (map snd (concat cells)) ks b /\
    NoDup ks /\ length ks = length cells * req.
Proof. exact two_fields. Qed.
Print Assumptions C102_two_unknowns_partial.

(** With salt the file takes every unknown for the pressure of a cell of its own: the
    statistics are over pressures and mass fractions together. *)
Theorem C102_salinity_refuted :
  (forall nf req cells, 0 < req -> cells <> [] -> (forall c, In c cells -> c <> []) ->
     exists ks lines, Regression_file MSalinity nf req (map interleaved cells) = Ok lines /\
       section LiquidPressure (interleaved (concat cells)) ks lines) /\
  (exists cells lines, Regression_file MSalinity 2 2 (map interleaved cells) = Ok lines /\
     In (Cell 1 (1/2)%R) lines /\ forall ks, ~ section LiquidPressure (map fst (concat cells)) ks lines).
Proof.
  assert (G : forall nf req cells, 0 < req -> cells <> [] -> (forall c, In c cells -> c <> []) ->
     exists ks lines, Regression_file MSalinity nf req (map interleaved cells) = Ok lines /\
       section LiquidPressure (interleaved (concat cells)) ks lines).
  { intros nf req cells Hq Hne Hc.
    destruct (one_field MSalinity nf req (map interleaved cells)) as [ks [lines [E [S _]]]]; [discriminate|exact Hq| | |].
    - destruct cells; [congruence|discriminate].
    - intros u Hu. apply in_map_iff in Hu. destruct Hu as [c [<- Hi]]. specialize (Hc c Hi). destruct c as [|[p t] c]; [congruence|discriminate].
    - exists ks, lines. split; [exact E|]. rewrite <- interleaved_concat. exact S. }
  split; [exact G|].
  exists [[(100000, 1/2)]]%R. eexists. split; [reflexivity|]. split; [cbn; tauto|].
  intros ks (mx & mn & xs & E & _ & L & _). cbn [concat map app fst] in L. destruct L as [[<-|[]] _].
  unfold statistics in E. cbn [map concat app fst interleaved flat_map length repeat upd snd] in E. injection E as _ M _.
  cbn [concat app VecMin fold_left] in M. unfold Rmin in M. destruct (Rle_dec 100000 (1/2)); lra.
Qed.
Print Assumptions C102_salinity_refuted.

(** On a mesh whose section does not tell the two fields apart, the temperatures of the
    statistics are zeros. *)
Theorem C102_fields_refuted : exists lines,
  Regression_file MTH 1 1 (map interleaved [[(5, 7)]]%R) = Ok lines /\
  nth_error lines 5 = Some (Title Temperature) /\ nth_error lines 6 = Some (Max (Some 0%R)) /\
  nth_error lines 9 = Some (Cell 0 7%R).
Proof. eexists. split; [reflexivity|]. split; [reflexivity|]. split; reflexivity. Qed.
Print Assumptions C102_fields_refuted.

(** The cells are identified by their position in the global order, which depends on the
    distribution of the mesh, and not by their natural number, as the name of the array says:
    here cell 0 of the mesh has the value 10 and the file gives 30 for it. *)
Theorem C102_numbers_refuted : exists lines,
  global_to_natural 1 [2; 0; 1]%Z [3] [30; 10; 20]%R [0; 0; 0]%R = Ok [10; 20; 30]%R /\
  Regression_file MRichards 1 3 [[30; 10; 20]%R] = Ok lines /\ In (Cell 0 30%R) lines.
Proof. eexists. split; [reflexivity|]. split; [reflexivity|]. cbn. tauto. Qed.
Print Assumptions C102_numbers_refuted.

(** The name of the file fits into its buffer whenever the option's value fits into its own. *)
Theorem C102_name : forall max_path len, len < max_path -> file_name max_path len = Ok tt.
Proof. intros max_path len H. unfold file_name. replace (len + 11 + 1 <=? max_path + 11) with true by (symmetry; apply Nat.leb_le; lia). reflexivity. Qed.
Print Assumptions C102_name.

(** Two processes with two cells and one cell; one cell of each is printed. *)
Example C102_example : exists lines, Regression_file MTH 2 1 (map interleaved [[(1, 2); (3, 4)]; [(5, 6)]]%R) = Ok lines /\
  firstn 1 lines = [Title LiquidPressure] /\
  nth_error lines 4 = Some (Cell 0 1%R) /\ nth_error lines 5 = Some (Cell 2 5%R) /\ nth_error lines 6 = Some (Title Temperature) /\
  nth_error lines 10 = Some (Cell 0 2%R) /\ nth_error lines 11 = Some (Cell 2 6%R) /\ length lines = 12.
Proof. eexists. split; [reflexivity|]. repeat split; reflexivity. Qed.
