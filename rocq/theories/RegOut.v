(** Model of the regression file: TDyRegressionOutput, src/tdyregression.c:141-288.  The chosen
    cells are those of Regression.v.  U is given by the parts of the processes.  Numbers are
    written without rounding; a line of the file is a constructor. *)
From Coq Require Import Reals List Bool Arith.
From Verif Require Import Prelude Arrays UGrid Regression.
Import ListNotations.
Local Open Scope R_scope.

Inductive quantity := LiquidPressure | Temperature.
Inductive line := Title (q : quantity) | Max (x : fl) | Min (x : fl) | Mean (x : fl) | Cell (id : nat) (x : R).

Definition is_TH (m : rmode) : bool := match m with MTH => true | _ => false end.

(** Lines 173-207, one process: new vectors are zero. *)
Definition split (m : rmode) (num_fields : nat) (u : list R) : outcome (list R * list R) :=
  let n := if is_TH m then (length u / 2)%nat else length u in
  if is_TH m && (num_fields =? 2)%nat then
    for_ n (fun c pt => do x <- rd u (c * 2); do p <- wr (fst pt) c x;
                        do y <- rd u (c * 2 + 1); do t <- wr (snd pt) c y; Ok (p, t)) (repeat 0 n, repeat 0 n)
  else
    for_ n (fun c pt => do x <- rd u c; do p <- wr (fst pt) c x; Ok (p, snd pt)) (repeat 0 n, repeat 0 n).

(** VecMax, VecMin, VecSum over all processes. *)
Definition VecMax (l : list R) : fl := match l with [] => None | x :: l => Some (fold_left Rmax l x) end.
Definition VecMin (l : list R) : fl := match l with [] => None | x :: l => Some (fold_left Rmin l x) end.
Definition VecSum (l : list R) : R := fold_left Rplus l 0.
(** Lines 216-228. *)
Definition mean (l : list R) : fl := fdiv (VecSum l) (INR (length l)).
Definition statistics (l : list R) : list line := [Max (VecMax l); Min (VecMin l); Mean (mean l)].

(** Lines 243-270, the loops of the process that writes the file. *)
Definition print_cells (ids : list nat) (vec : list R) : outcome (list line) :=
  mapM (fun i => do k <- rd ids i; do x <- rd vec i; Ok (Cell k x)) (seq 0 (length vec)).
Definition print_cells_TH (d : nat) (ids : list nat) (vec : list R) : outcome (list line) :=
  mapM (fun i => do k <- rd ids (2 * i); do x <- rd vec (2 * i + d); Ok (Cell (k / 2) x)) (seq 0 (length vec / 2)).

Definition RegressionOutput (m : rmode) (num_fields : nat) (ids : list nat) (U : list (list R)) : outcome (list line) :=
  do vec <- mapM (fun i => rd (concat U) i) ids;                              (* 158-159 *)
  do fields <- mapM (split m num_fields) U;
  let pres := concat (map fst fields) in
  let temp := concat (map snd fields) in
  do a <- (if is_TH m then print_cells_TH 0 ids vec else print_cells ids vec);
  do b <- (if is_TH m then do c <- print_cells_TH 1 ids vec; Ok (Title Temperature :: statistics temp ++ c) else Ok []);
  Ok (Title LiquidPressure :: statistics pres ++ a ++ b).

(** TDyRegressionInitialize and TDyRegressionOutput of a run. *)
Definition Regression_file (m : rmode) (num_fields requested : nat) (U : list (list R)) : outcome (list line) :=
  do ids <- sample m (map (@length R) U) requested;
  RegressionOutput m num_fields ids U.

(** Lines 233-234: the buffer of the name of the file, for a name of [len] characters. *)
Definition file_name (max_path len : nat) : outcome unit := if (len + 11 + 1 <=? max_path + 11)%nat then Ok tt else UB.
