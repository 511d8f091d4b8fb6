(** C05: every point is evaluated with the curve most recently assigned to it. *)
From Coq Require Import Reals List Arith Lia Lra.
From Verif Require Import Prelude CharCurves CharCurveSet SpecCurveSet CharCurveSetProofs.
Import ListNotations.

(** After any history of assignments and evaluations, the whole-array saturation
    evaluation writes at every assigned point the value of the curve and
    parameters last assigned to it, and touches nothing else. *)
Theorem C05_saturation_compute : forall (h : list call) s inp out,
  run sat_nparams sat_eval cc_create h = Ok s ->
  disjoint_assignment h ->
  (forall ty j, ty < 2 -> In j (points_of h ty) -> j < length inp /\ j < length out) ->
  exists out', SaturationCompute s inp out = Ok out' /\ length out' = length out /\
    (forall ty j p x, ty < 2 -> assigned sat_nparams h ty j p -> nth_error inp j = Some x ->
                      nth_error out' j = Some (sat_eval ty p x)) /\
    (forall j, unassigned sat_nparams h j -> nth_error out' j = nth_error out j).
Proof. exact (compute_correct sat_nparams sat_eval). Qed.
Print Assumptions C05_saturation_compute.

(** Evaluation on a list of points gives each listed point the same value,
    provided the lookup of each point is answered before a hash table of more
    than six points is asked about a point it does not hold (see the refutation below). *)
Theorem C05_saturation_on_points_partial : forall (h : list call) s pts inp out,
  run sat_nparams sat_eval cc_create h = Ok s -> disjoint_assignment h ->
  (forall q, In q pts -> lookup_safe h q) ->
  length inp = length pts -> length out = length pts ->
  exists s' out', SaturationComputeOnPoints s pts inp out = Ok (s', out') /\ length out' = length out /\
    (forall k q x ty p, nth_error pts k = Some q -> nth_error inp k = Some x -> ty < 2 ->
        assigned sat_nparams h ty q p -> nth_error out' k = Some (sat_eval ty p x)) /\
    (forall k q, nth_error pts k = Some q -> unassigned sat_nparams h q -> nth_error out' k = nth_error out k).
Proof. exact (compute_on_points_correct sat_nparams sat_eval). Qed.
Print Assumptions C05_saturation_on_points_partial.

Theorem C05_rel_perm_on_points_partial : forall (h : list call) s pts inp out,
  run kr_nparams kr_eval cc_create h = Ok s -> disjoint_assignment h ->
  (forall q, In q pts -> lookup_safe h q) ->
  length inp = length pts -> length out = length pts ->
  exists s' out', RelativePermeabilityComputeOnPoints s pts inp out = Ok (s', out') /\ length out' = length out /\
    (forall k q x ty p, nth_error pts k = Some q -> nth_error inp k = Some x -> ty < 2 ->
        assigned kr_nparams h ty q p -> nth_error out' k = Some (kr_eval ty p x)) /\
    (forall k q, nth_error pts k = Some q -> unassigned kr_nparams h q -> nth_error out' k = nth_error out k).
Proof. exact (compute_on_points_correct kr_nparams kr_eval). Qed.
Print Assumptions C05_rel_perm_on_points_partial.

(** Relative permeability over the whole array: right when one type covers the
    points 0..n-1 in order, the only way the library itself assigns curves. *)
Theorem C05_rel_perm_compute_partial : forall (h : list call) s inp out n,
  run kr_nparams kr_eval cc_create h = Ok s ->
  (points_of h 0 = seq 0 n /\ points_of h 1 = [] \/ points_of h 0 = [] /\ points_of h 1 = seq 0 n) ->
  n <= length inp -> n <= length out ->
  exists out', RelativePermeabilityCompute s inp out = Ok out' /\ length out' = length out /\
    (forall ty j p x, ty < 2 -> assigned kr_nparams h ty j p -> nth_error inp j = Some x ->
                      nth_error out' j = Some (kr_eval ty p x)) /\
    (forall j, unassigned kr_nparams h j -> nth_error out' j = nth_error out j).
Proof.
  intros h s inp out n Hr Hp Hi Ho. unfold RelativePermeabilityCompute.
  rewrite (compute_by_counter_identity kr_nparams kr_eval h s inp out n Hr Hp).
  apply compute_correct; [assumption| |].
  - unfold disjoint_assignment. destruct Hp as [[-> ->]|[-> ->]]; rewrite ?app_nil_r; apply seq_NoDup.
  - intros ty j Hty Hj. assert (Hc : ty = 0 \/ ty = 1) by lia.
    destruct Hp as [[H0 H1]|[H0 H1]], Hc; subst ty; rewrite ?H0, ?H1 in Hj;
      try (destruct Hj; fail); apply in_seq in Hj; lia.
Qed.
Print Assumptions C05_rel_perm_compute_partial.

(** The same statement is false for other point lists: RelativePermeabilityCompute
    uses the loop counter as the point, so with only point 1 assigned it writes
    point 0 and leaves point 1 as it was. *)
Theorem C05_rel_perm_compute_refuted :
  exists (h : list call) s inp out out' p,
    run kr_nparams kr_eval cc_create h = Ok s /\ disjoint_assignment h /\
    assigned kr_nparams h 0 1 p /\ unassigned kr_nparams h 0 /\
    RelativePermeabilityCompute s inp out = Ok out' /\
    nth_error out' 0 <> nth_error out 0 /\ nth_error out' 1 = nth_error out 1 /\
    nth_error out' 1 <> Some (kr_eval 0 p 1%R).
Proof.
  set (h := [CSet 0 [1] [2%R]] : list (@call R (fl * fl))).
  exists h. eexists. exists [1%R; 1%R], [(None, None); (None, None)]. eexists. exists [2%R].
  split; [reflexivity|]. split; [|split; [|split; [|split; [reflexivity|split; [|split; [reflexivity|]]]]]].
  - unfold disjoint_assignment. simpl. repeat constructor; intros [].
  - exists [1], [2%R], 0. repeat split.
  - intros ty p Hty (pts & prm & i & Hl & Hi & _). simpl in Hl.
    destruct ty as [|ty]; simpl in Hl; [|discriminate]. injection Hl as <- <-.
    destruct i as [|[|i]]; discriminate.
  - simpl. unfold irmay. destruct (Rle_dec 1 1) as [H|H]; [intro E; discriminate E|exfalso; lra].
  - simpl. unfold irmay. destruct (Rle_dec 1 1) as [H|H]; [intro E; discriminate E|exfalso; lra].
Qed.
Print Assumptions C05_rel_perm_compute_refuted.

(** Looking up a point of the second type among seven points of the first reads
    past the hash table's flag array. *)
Theorem C05_on_points_refuted :
  exists (h : list call) s pts inp out,
    run sat_nparams sat_eval cc_create h = Ok s /\ disjoint_assignment h /\
    (forall q, In q pts -> exists p, assigned sat_nparams h 1 q p) /\
    length inp = length pts /\ length out = length pts /\
    SaturationComputeOnPoints s pts inp out = UB.
Proof.
  exists [CSet 0 (seq 0 7) (repeat 1%R 21); CSet 1 [7] [1%R; 1%R]]. eexists. exists [7], [(0%R, 0%R)], [(None, None, None)].
  split; [reflexivity|]. split; [|split; [|split; [|split]]].
  - unfold disjoint_assignment. apply (seq_NoDup 8 0).
  - intros q [<-|[]]. exists [1%R; 1%R], [7], [1%R; 1%R], 0. repeat split.
  - reflexivity.
  - reflexivity.
  - reflexivity.
Qed.
Print Assumptions C05_on_points_refuted.

(** A point listed under both types is evaluated as type 1 over the array and as
    type 0 on a list, whichever was assigned last. *)
Theorem C05_double_assignment_refuted :
  exists (h : list call) s x out1 s2 out2,
    run kr_nparams kr_eval cc_create h = Ok s /\
    RelativePermeabilityCompute s [x] [(None, None)] = Ok out1 /\
    RelativePermeabilityComputeOnPoints s [0] [x] [(None, None)] = Ok (s2, out2) /\
    (exists p, assigned kr_nparams h 0 0 p /\ nth_error out2 0 = Some (kr_eval 0 p x)) /\
    (exists p, assigned kr_nparams h 1 0 p /\ nth_error out1 0 = Some (kr_eval 1 p x)).
Proof.
  exists [CSet 1 [0] (repeat 1%R 9); CSet 0 [0] [1%R]]. eexists. exists 1%R. eexists. eexists. eexists.
  split; [reflexivity|]. split; [reflexivity|]. split; [reflexivity|]. split.
  - exists [1%R]. split; [|reflexivity]. exists [0], [1%R], 0. repeat split.
  - exists (repeat 1%R 9). split; [|reflexivity]. exists [0], (repeat 1%R 9), 0. repeat split.
Qed.
Print Assumptions C05_double_assignment_refuted.

(** The hypotheses are met by a history that assigns, evaluates and reassigns. *)
Example C05_hypotheses_met :
  let h := [CSet 0 [0; 2] [2;1;3;2;1;3]%R; COnPoints [2] [(1%R, 1%R)] [(None, None, None)];
            CSet 1 [1] [0.5; 1]%R; CSet 0 [2] [3;1;3]%R] in
  (exists s, run sat_nparams sat_eval cc_create h = Ok s) /\ disjoint_assignment h /\
  assigned sat_nparams h 0 2 [3;1;3]%R /\ assigned sat_nparams h 1 1 [0.5; 1]%R /\
  unassigned sat_nparams h 0 /\ (forall q, lookup_safe h q).
Proof.
  intros h. split; [eexists; reflexivity|]. split; [|split; [|split; [|split]]].
  - unfold disjoint_assignment. simpl. repeat constructor; simpl; intuition discriminate.
  - exists [2], [3;1;3]%R, 0. repeat split.
  - exists [1], [0.5; 1]%R, 0. repeat split.
  - intros ty p Hty (pts & prm & i & Hl & Hi & _). simpl in Hl.
    destruct ty as [|[|ty]]; simpl in Hl; [| |lia]; injection Hl as <- <-;
      destruct i as [|[|i]]; discriminate.
  - intros q. right. simpl. split; [lia|right; simpl; lia].
Qed.
