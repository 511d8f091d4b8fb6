(** C30: natural, global and local orderings. *)
From Coq Require Import List Arith ZArith Lia Bool Permutation.
From Verif Require Import Prelude Arrays UGrid SpecUGrid Scatter ScatterProofs.
Import ListNotations.

(** [ao] lists the natural number of every cell in global order; the processes
    own [nls] cells each. *)

(** What the conversion does: the value of every cell arrives at the cell's
    natural position, whatever the target held before. *)
Theorem C30_natural_position : forall ndof N ao nls A (x y : list A),
  Permutation ao (map Z.of_nat (seq 0 N)) -> list_sum nls = N ->
  length x = N * ndof -> length y = N * ndof ->
  exists y', global_to_natural ndof ao nls x y = Ok y' /\ length y' = N * ndof /\
  forall p k c, k < ndof -> nth_error ao p = Some (Z.of_nat c) ->
    nth_error y' (c * ndof + k) = nth_error x (p * ndof + k).
Proof. exact natural_position_proof. Qed.
Print Assumptions C30_natural_position.

Theorem C30_round_trip : forall ndof N ao nls A (x y z : list A),
  Permutation ao (map Z.of_nat (seq 0 N)) -> list_sum nls = N ->
  length x = N * ndof -> length y = N * ndof -> length z = N * ndof ->
  (exists n, global_to_natural ndof ao nls x y = Ok n /\ natural_to_global ndof ao nls n z = Ok x) /\
  (exists g, natural_to_global ndof ao nls x y = Ok g /\ global_to_natural ndof ao nls g z = Ok x).
Proof. intros. split; [eapply round_trip_proof|eapply round_trip_back_proof]; eassumption. Qed.
Print Assumptions C30_round_trip.

(** Local vectors hold, for owned and ghost cells, the values of the cells they
    stand for; scattering the owned values back restores the global vector. *)
Theorem C30_local : forall A ndof N off nl ghosts (x y : list A),
  off + nl <= N -> (forall g, In g ghosts -> g < N) ->
  length x = N * ndof -> length y = (nl + length ghosts) * ndof ->
  exists y', global_to_local ndof off nl ghosts x y = Ok y' /\ length y' = length y /\
  forall i p k, k < ndof -> global_number (Z.of_nat off) nl (map Z.of_nat ghosts) i = Some (Z.of_nat p) ->
    nth_error y' (i * ndof + k) = nth_error x (p * ndof + k).
Proof. exact local_proof. Qed.
Print Assumptions C30_local.
Theorem C30_local_round_trip : forall A ndof N nls (ghosts : list (list nat)) (g h : list A) (ys : list (list A)) ls,
  list_sum nls = N -> length g = N * ndof -> length h = N * ndof ->
  length ghosts = length nls -> length ys = length nls ->
  Forall (Forall (fun p => p < N)) ghosts ->
  (forall r nl gs y, nth_error nls r = Some nl -> nth_error ghosts r = Some gs -> nth_error ys r = Some y ->
     length y = (nl + length gs) * ndof) ->
  mapM (fun a => let '(off, nl, gs, y) := a in global_to_local ndof off nl gs g y)
       (combine (combine (ranks_from 0 nls) ghosts) ys) = Ok ls ->
  local_to_global ndof (combine (ranks_from 0 nls) ls) h = Ok g.
Proof. intros A. exact local_round_trip_proof. Qed.
Print Assumptions C30_local_round_trip.

(** A checkpoint written by one run and read as initial condition by another run
    of the same mesh, on any other number of processes and partition, gives every
    cell the value it had. *)
Theorem C30_restart : forall ndof N ao1 ao2 nls1 nls2,
  Permutation ao1 (map Z.of_nat (seq 0 N)) -> Permutation ao2 (map Z.of_nat (seq 0 N)) ->
  list_sum nls1 = N -> list_sum nls2 = N ->
  forall A (s1 s2 : solution A) tmp1 tmp2 procs,
  length (soln_prev s1) = N * ndof -> length tmp1 = N * ndof -> length tmp2 = N * ndof ->
  length (soln s2) = N * ndof -> length (soln_prev s2) = N * ndof ->
  (forall off nl gs, In (off, nl, gs) procs -> off + nl <= N /\ forall g, In g gs -> g < N) ->
  Forall2 (fun pr l => let '(off, nl, gs) := pr in length l = (nl + length gs) * ndof) procs (soln_loc s2) ->
  exists file s', OutputCheckpoint ndof ao1 nls1 s1 tmp1 = Ok file /\
    SetInitialCondition ndof ao2 nls2 procs file tmp2 s2 = Ok s' /\
    forall c k, c < N -> k < ndof -> exists p1 p2, p1 < N /\ p2 < N /\
      nth_error ao1 p1 = Some (Z.of_nat c) /\ nth_error ao2 p2 = Some (Z.of_nat c) /\
      nth_error (soln s') (p2 * ndof + k) = nth_error (soln_prev s1) (p1 * ndof + k) /\
      nth_error (soln_prev s') (p2 * ndof + k) = nth_error (soln_prev s1) (p1 * ndof + k) /\
      (forall r off nl gs l i, nth_error procs r = Some (off, nl, gs) -> nth_error (soln_loc s') r = Some l ->
         number_of off nl gs i = Some p2 -> nth_error l (i * ndof + k) = nth_error (soln_prev s1) (p1 * ndof + k)).
Proof. exact restart_proof. Qed.
Print Assumptions C30_restart.

(** The mesh's table of global numbers is right with one unknown per cell. *)
Theorem C30_mesh_numbers_partial : forall off nl ghosts, exists a, nG2A 1 off nl ghosts = Ok a /\ length a = nl + length ghosts /\
  forall i, nth_error a i = number_of off nl ghosts i.
Proof. exact nG2A_proof. Qed.
Print Assumptions C30_mesh_numbers_partial.

(** With two unknowns per cell it takes the indices of unknowns for numbers of
    cells: the second cell gets the number 1 of the first cell's second unknown
    and the ghost cell 7 does not appear. *)
Theorem C30_mesh_numbers_refuted : exists a, nG2A 2 4 2 [7] = Ok a /\
  nth_error a 0 <> number_of 4 2 [7] 0 /\ ~ In 7 a.
Proof. exists [8; 9; 10]. vm_compute. split; [reflexivity|]. split; [discriminate|]. intuition discriminate. Qed.
Print Assumptions C30_mesh_numbers_refuted.

(** Three cells with two unknowns each, in the order 2, 0, 1 over two processes. *)
Example ex_orders :
  Permutation [2; 0; 1]%Z (map Z.of_nat (seq 0 3)) /\
  global_to_natural 2 [2; 0; 1]%Z [1; 2] [20; 21; 0; 1; 10; 11] (repeat 99 6) = Ok [0; 1; 10; 11; 20; 21] /\
  natural_to_global 2 [2; 0; 1]%Z [1; 2] [0; 1; 10; 11; 20; 21] (repeat 99 6) = Ok [20; 21; 0; 1; 10; 11] /\
  global_to_local 2 1 2 [0] [20; 21; 0; 1; 10; 11] (repeat 99 6) = Ok [0; 1; 10; 11; 20; 21].
Proof.
  split; [|vm_compute; auto]. simpl. change [0; 1; 2]%Z with ([0; 1] ++ [2])%list%Z. apply Permutation_cons_append.
Qed.
(** Written on two processes, read on three. *)
Example ex_restart :
  (do f <- OutputCheckpoint 1 [2; 0; 1]%Z [1; 2] (Solution [] [20; 0; 10] []) (repeat 99 3);
   SetInitialCondition 1 [1; 2; 0]%Z [1; 1; 1] [(0, 1, [2]); (1, 1, []); (2, 1, [0; 1])] f (repeat 98 3)
     (Solution (repeat 97 3) (repeat 96 3) [[95; 95]; [95]; [95; 95; 95]]))
  = Ok (Solution [10; 20; 0] [10; 20; 0] [[10; 0]; [20]; [0; 10; 20]]).
Proof. reflexivity. Qed.
