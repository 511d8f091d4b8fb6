(** Specification vocabulary for mesh redistribution, independent of the model's
    functions. *)
From Coq Require Import List Arith ZArith Permutation.
Import ListNotations.
Local Open Scope Z_scope.

(** The record of cell number [c] with the given vertices and neighbours (both
    0-based), in fields of [maxd] neighbours. *)
Definition record (c : Z) (verts nbs : list Z) (maxd : nat) : list Z :=
  [- c - 1; -777] ++ map (fun x => x + 1) verts ++ [-888] ++
  map (fun x => x + 1) nbs ++ repeat 0 (maxd - length nbs) ++ [-999999].

(** Compressed rows: row [i] of the pair ([ia], [ja]) is the list [rows[i]]. *)
Definition csr (ia : list nat) (ja : list Z) (rows : list (list Z)) : Prop :=
  forall i row, nth_error rows i = Some row ->
  exists a, nth_error ia i = Some a /\ nth_error ia (S i) = Some (a + length row)%nat /\
  forall k, (k < length row)%nat -> nth_error ja (a + k) = nth_error row k.

(** [p] sorts [a]: it is a permutation of the positions along which [a] does not
    decrease. *)
Definition sorts (a : list Z) (p : list nat) : Prop :=
  Permutation p (seq 0 (length a)) /\
  forall i j pi pj x y, (i <= j)%nat -> nth_error p i = Some pi -> nth_error p j = Some pj ->
  nth_error a pi = Some x -> nth_error a pj = Some y -> x <= y.

Definition increasing (l : list Z) : Prop :=
  forall i j x y, (i < j)%nat -> nth_error l i = Some x -> nth_error l j = Some y -> x < y.

(** The global number of the cell a process knows as number [k]: the owned
    cells are [off .. off+nl-1], followed by the ghost cells. *)
Definition global_number (off : Z) (nl : nat) (ghosts : list Z) (k : nat) : option Z :=
  if (k <? nl)%nat then Some (off + Z.of_nat k) else nth_error ghosts (k - nl).

(** The cell a neighbour entry refers to: owned cells as they are, ghost cells
    negated. *)
Definition refers_to (k : Z) : nat := Z.to_nat (Z.abs k).

(** A cell of the mesh file: its vertices and the cells it shares a face with,
    all 0-based; unused vertex entries are -1. *)
Notation cell := (list Z * list Z)%type.
Definition cell_vs (c : cell) : list Z := filter (fun x => 0 <=? x) (fst c).

(** Cells are described with at most [maxv] vertices and [maxd] neighbours. *)
Definition fits (N maxv maxd : nat) (c : cell) : Prop :=
  (maxv <= length (fst c))%nat /\
  (forall k x, nth_error (fst c) k = Some x -> -1 <= x /\ ((maxv <= k)%nat -> x = -1)) /\
  (length (snd c) <= maxd)%nat /\
  (forall x, In x (snd c) -> 0 <= x < Z.of_nat N) /\
  (exists x, In x (cell_vs c)).

(** Number of elements before position [r]. *)
Definition before (nls : list nat) (r : nat) : nat := list_sum (firstn r nls).

(** What a process that owns the cells with global numbers [off .. off+nl-1]
    must know after redistribution of the mesh [cells], cell [c] having received
    the global number [num[c]]. *)
Definition right_numbering (num : list nat) (off nl : nat) (natural ghosts : list Z) : Prop :=
  increasing ghosts /\
  (forall g, In g ghosts -> g < Z.of_nat off \/ Z.of_nat (off + nl) <= g) /\
  length natural = (nl + length ghosts)%nat /\
  forall i, (i < nl + length ghosts)%nat -> exists c p,
    nth_error natural i = Some (Z.of_nat c) /\ nth_error num c = Some p /\
    global_number (Z.of_nat off) nl ghosts i = Some (Z.of_nat p).

(** The ghost cells are exactly the neighbours that the process does not own. *)
Definition ghosts_needed (cells : list cell) (nl : nat) (natural ghosts : list Z) : Prop :=
  forall k x, (nl <= k)%nat -> nth_error natural k = Some x ->
  exists i c cl, (i < nl)%nat /\ nth_error natural i = Some (Z.of_nat c) /\ nth_error cells c = Some cl /\ In x (snd cl).

Definition right_neighbours (cells : list cell) (nl : nat) (natural : list Z) (nbs : list (nat * list Z)) : Prop :=
  length nbs = nl /\
  forall i c cl, (i < nl)%nat -> nth_error natural i = Some (Z.of_nat c) -> nth_error cells c = Some cl ->
  exists row, nth_error nbs i = Some (length (snd cl), row) /\
  forall k y, nth_error (snd cl) k = Some y -> exists e,
    nth_error row k = Some e /\ nth_error natural (refers_to e) = Some y /\
    (0 <= e <-> (refers_to e < nl)%nat).

Definition right_vertices (cells : list cell) (n : nat) (natural vids : list Z) (vrows : list (nat * list Z)) : Prop :=
  increasing vids /\ length vrows = n /\
  (forall i c cl, (i < n)%nat -> nth_error natural i = Some (Z.of_nat c) -> nth_error cells c = Some cl ->
   exists row, nth_error vrows i = Some (length (cell_vs cl), row) /\
   forall k y, nth_error (cell_vs cl) k = Some y -> exists r,
     nth_error row k = Some (Z.of_nat r) /\ nth_error vids r = Some y) /\
  (forall y, In y vids -> exists i c cl, (i < n)%nat /\ nth_error natural i = Some (Z.of_nat c) /\
     nth_error cells c = Some cl /\ In y (cell_vs cl)).
