(** Model of the cells of a mesh that is read from a file in PFLOTRAN's format
    (src/fv/share/tdymeshcustom.c:49-207).

    [coords] and [cv] are ugrid->vertices and the rows of ugrid->cell_vertices,
    [cnv] is ugrid->cell_num_vertices and [nat_ids] ugrid->cell_ids_natural.  Of
    AllocateCells only the lengths of the arrays are modelled. *)
From Coq Require Import Reals List ZArith Bool.
From Verif Require Import Prelude Arrays Geom UGrid.
Import ListNotations.
Local Open Scope R_scope.

(** The tables of ComputeVolume, lines 61-81. *)
Definition hex_tets : list (nat * nat * nat * nat) :=
  [(0, 1, 2, 5); (0, 5, 7, 4); (0, 5, 2, 7); (7, 5, 2, 6); (0, 2, 3, 7)]%nat.
Definition wedge_tets : list (nat * nat * nat * nat) := [(0, 1, 2, 3); (2, 3, 4, 5); (1, 2, 3, 4)]%nat.
Definition pyramid_tets : list (nat * nat * nat * nat) := [(0, 1, 2, 4); (2, 3, 0, 4)]%nat.
Definition tet_tets : list (nat * nat * nat * nat) := [(0, 1, 2, 3)]%nat.

(** vertex_coords is a local array; [None]: not yet written. *)
Definition corner (vc : list (option v3)) (i : nat) : outcome v3 :=
  do p <- rd vc i; match p with Some p => Ok p | None => UB end.
Definition add_tet (vc : list (option v3)) (t : nat * nat * nat * nat) (volume : R) : outcome R :=
  let '(a, b, c, d) := t in
  do pa <- corner vc a; do pb <- corner vc b; do pc <- corner vc c; do pd <- corner vc d;
  Ok (volume + VolumeofTetrahedron pa pb pc pd).
Fixpoint add_tets (vc : list (option v3)) (ts : list (nat * nat * nat * nat)) (volume : R) : outcome R :=
  match ts with
  | [] => Ok volume
  | t :: ts => do volume <- add_tet vc t volume; add_tets vc ts volume
  end.
(** ComputeVolume, lines 56-143. *)
Definition ComputeVolume (vc : list (option v3)) (ncoords : nat) : outcome R :=
  match ncoords with
  | 8%nat => add_tets vc hex_tets 0
  | 6%nat => add_tets vc wedge_tets 0
  | 5%nat => add_tets vc pyramid_tets 0
  | 4%nat => add_tets vc tet_tets 0
  | _ => Err
  end.

(** The arrays of a cell that are filled here: natural_id, centroid ([None]: not a
    number), is_local, volume. *)
Record ucell := mkUcell { u_nat : Z; u_cen : option v3; u_local : bool; u_vol : R }.

Section Cells.
Variable coords : list v3.
Variable cv : list (list Z).
Variable cnv : list nat.
Variable nat_ids : list Z.

(** Lines 187-194. *)
Definition gather_vertices (icell nvmax : nat) (vc : list (option v3)) : outcome (list (option v3) * v3) :=
  for_ nvmax (fun iv '(vc, xyz) =>
    do row <- rd cv icell; do id <- rd row iv; do p <- rdz coords id;
    do vc <- wr vc iv (Some p);
    Ok (vc, V3 (vx xyz + vx p) (vy xyz + vy p) (vz xyz + vz p))) (vc, V3 0 0 0).
(** Lines 196-198. *)
Definition divided (xyz : v3) (n : nat) : option v3 :=
  fbind (fdiv (vx xyz) (INR n)) (fun x => fbind (fdiv (vy xyz) (INR n)) (fun y => fbind (fdiv (vz xyz) (INR n)) (fun z => Some (V3 x y z)))).
(** The body of the loop, lines 175-203. *)
Definition setup_cell (nlmax icell : nat) (st : list (option v3) * list ucell) : outcome (list (option v3) * list ucell) :=
  let '(vc, cells) := st in
  do id <- rd nat_ids icell;
  do nvmax <- rd cnv icell;
  do g <- gather_vertices icell nvmax vc;
  let '(vc, xyz) := g in
  do vol <- ComputeVolume vc nvmax;
  do cells <- wr cells icell (mkUcell id (divided xyz nvmax) (icell <? nlmax)%nat vol);
  Ok (vc, cells).
(** TDySetupCellsFromDiscretization, lines 146-207; the arrays start with -1 and 0. *)
Definition setup_cells (maxv nlmax ngmax : nat) : outcome (list ucell) :=
  do st <- for_ ngmax (setup_cell nlmax) (repeat None maxv, repeat (mkUcell (-1) (Some (V3 0 0 0)) false 0) ngmax);
  Ok (snd st).
End Cells.
