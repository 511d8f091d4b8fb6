(** Model of the gravity term of the multi-point flux scheme
    (src/fv/mpfao/tdympfao.c:1869-2275 and tdympfao_utils.c:11-22).

    dim = 3.  The mesh is that of [Subcell]; a face knows the cells on its two sides
    (negative: outside).  Numbers that are not finite are [None]. *)
From Coq Require Import Reals List Bool Arith ZArith.
From Verif Require Import Prelude Arrays Geom Mpfao Subcell Transport UGrid.
Import ListNotations.
Local Open Scope R_scope.

(** [q_nv]: the number of vertices of each cell; [q_sfaces], [q_sverts], [q_sareas]:
    subcells->face_ids, vertex_ids and face_area; [q_vsubs]: the subface of each face of
    a vertex; the flags is_local; [q_K]: mpfao->K0. *)
Record gmesh := mkGmesh {
  q_geo : geo; q_nv : list nat; q_sfaces : list Z; q_sverts : list Z; q_sareas : list R;
  q_vsubs : list (list nat); q_vlocal : list bool; q_flocal : list bool; q_K : list m3
}.

Section Gravity.
Variable m : gmesh.
Let g := q_geo m.

(** Lines 1885-1902, 1931-1955: the centre of the cell, or of the face. *)
Definition centre_of (f : nat) (z : Z) : outcome v3 := if (0 <=? z)%Z then rdz (g_cc g) z else rd (g_fc g) f.

(** ComputeUpDownUnitVector, lines 1869-1907. *)
Definition UpDownUnitVector (f : nat) : outcome (option v3) :=
  do c <- rd (g_fcells g) f;
  if ((fst c <? 0) && (snd c <? 0))%Z then Err
  else
    do up <- centre_of f (fst c);
    do dn <- centre_of f (snd c);
    Ok (UnitNormalVectorJoining up dn).

(** ComputeUpAndDownDist, lines 1918-1957. *)
Definition dist_of (f : nat) (z : Z) : outcome fl :=
  if (0 <=? z)%Z then do x <- rdz (g_cc g) z; do xf <- rd (g_fc g) f; Ok (ComputeLength x xf) else Ok (Some 0).
Definition UpAndDownDist (f : nat) : outcome (fl * fl) :=
  do c <- rd (g_fcells g) f;
  if ((fst c <? 0) && (snd c <? 0))%Z then Err
  else do up <- dist_of f (fst c); do dn <- dist_of f (snd c); Ok (up, dn).

(** ExtractUpAndDownPermeabilityTensors, lines 1967-1998: rows become columns. *)
Definition transposed (a : m3) : m3 := M3 (m0 a) (m3_ a) (m6 a) (m1 a) (m4 a) (m7 a) (m2 a) (m5 a) (m8 a).
Definition UpAndDownTensors (f : nat) : outcome (m3 * m3) :=
  do c <- rd (g_fcells g) f;
  if ((fst c <? 0) && (snd c <? 0))%Z then Err
  else
    do up <- rdz (q_K m) (if (0 <=? fst c)%Z then fst c else snd c);
    do dn <- rdz (q_K m) (if (0 <=? snd c)%Z then snd c else fst c);
    Ok (transposed up, transposed dn).

Definition map2 (f : R -> R -> R) (a b : m3) : m3 :=
  M3 (f (m0 a) (m0 b)) (f (m1 a) (m1 b)) (f (m2 a) (m2 b)) (f (m3_ a) (m3_ b)) (f (m4 a) (m4 b)) (f (m5 a) (m5 b))
     (f (m6 a) (m6 b)) (f (m7 a) (m7 b)) (f (m8 a) (m8 b)).
(** Lines 2041-2047. *)
Definition kept (x : R) : R := if Rlt_dec x 0 then 0 else if Rlt_dec (Rabs x) epsilon then 0 else x.

(** ComputeFacePermeabilityTensor, lines 2008-2050. *)
Definition harmonic (w : R) (Kup Kdn : m3) : option m3 :=
  match fst (Inverse3 epsilon Kup), fst (Inverse3 epsilon Kdn) with
  | Some iu, Some id =>
    match fst (Inverse3 epsilon (map2 (fun a b => w * a + (1 - w) * b) iu id)) with
    | Some K => Some (map2 (fun a _ => kept a) K K)
    | None => None
    end
  | _, _ => None
  end.
Definition weight_up (d : fl * fl) : fl := flet a := fst d; flet b := snd d; fdiv a (a + b).
Definition FaceTensor (f : nat) : outcome (option m3) :=
  do d <- UpAndDownDist f;
  do K <- UpAndDownTensors f;
  Ok (match weight_up d with Some w => harmonic w (fst K) (snd K) | None => None end).

(** ComputeFacePermeabilityValueTPF, lines 2067-2094. *)
Definition along (u : v3) (K : m3) : fl :=
  flet a := fdiv (vx u ^ 2) (m0 K); flet b := fdiv (vy u ^ 2) (m4 K); flet c := fdiv (vz u ^ 2) (m8 K);
  fdiv 1 (0 + a + b + c).
Definition FaceValueTPF (f : nat) : outcome fl :=
  do u <- UpDownUnitVector f;
  do K <- UpAndDownTensors f;
  do d <- UpAndDownDist f;
  Ok (match u with
      | Some u => flet a := along u (fst K); flet b := along u (snd K); flet w := weight_up d; fdiv (a * b) (w * b + (1 - w) * a)
      | None => None
      end).

(** ComputeFacePermeabilityValueMPFAO, lines 2113-2143. *)
Definition times (K : m3) (u : v3) : v3 :=
  V3 (0 + m0 K * vx u + m1 K * vy u + m2 K * vz u) (0 + m3_ K * vx u + m4 K * vy u + m5 K * vz u) (0 + m6 K * vx u + m7 K * vy u + m8 K * vz u).
Definition FaceValueMPFAO (f : nat) : outcome fl :=
  do u <- UpDownUnitVector f;
  do K <- FaceTensor f;
  do n <- rd (g_fn g) f;
  Ok (match u, K with Some u, Some K => Some (DotProduct n (times K u)) | _, _ => None end).

(** ComputeGtimesZ, tdympfao_utils.c:11-22. *)
Definition GtimesZ (gravity x : v3) : R := 0 + Rabs (vx gravity) * vx x + Rabs (vy gravity) * vy x + Rabs (vz gravity) * vz x.

(** TDyMeshGetSubcellIDGivenCellIdVertexIdFaceId, src/fv/share/tdymeshplex.c:503-536:
    the first entry of the cell with this face and this vertex. *)
Fixpoint search (fuel k : nat) (v f : Z) : outcome nat :=
  match fuel with
  | O => Err
  | S fuel =>
    do x <- rd (q_sfaces m) k;
    do b <- (if (f =? x)%Z then do y <- rd (q_sverts m) k; Ok (v =? y)%Z else Ok false);
    if b : bool then Ok k else search fuel (S k) v f
  end.
Definition subcell_id (cell : Z) (v f : nat) : outcome nat :=
  do nv <- rdz (q_nv m) cell;
  let num := (nv * 3)%nat in
  search num (Z.to_nat cell * num) (Z.of_nat v) (Z.of_nat f).

(** gmatrix_method *)
Inductive gmethod := DefaultG | TPF.

(** Lines 2210-2261: GravDis of a face at a vertex; [None] in the outer option: the face
    is skipped. *)
Definition grav_dis (how : gmethod) (bc : bctype) (gravity : v3) (iv f : nat) : outcome (option fl) :=
  do c <- rd (g_fcells g) f;
  if (match bc with NeumannBC => true | _ => false end && ((fst c <? 0) || (snd c <? 0))%Z)%bool then Ok None
  else
    do id <- subcell_id (if (fst c <? 0)%Z then snd c else fst c) iv f;
    do area <- rd (q_sareas m) id;
    do u <- UpDownUnitVector f;
    do k <- (match how with DefaultG => FaceValueMPFAO f | TPF => FaceValueTPF f end);
    do n <- rd (g_fn g) f;
    Ok (Some (match u with
              | Some u =>
                let area := match how with DefaultG => area | TPF => area * DotProduct n u end in
                flet k := k; Some (area * k * GtimesZ gravity u)
              | None => None
              end)).

(** ComputeGravityDiscretization, lines 2169-2275. *)
Definition grav_face (how : gmethod) (bc : bctype) (gravity : v3) (iv : nat) (fs subs : list nat) (j : nat) (vec : list fl) : outcome (list fl) :=
  do f <- rd fs j;
  do loc <- rd (q_flocal m) f;
  if negb loc then Ok vec
  else
    do x <- grav_dis how bc gravity iv f;
    match x with
    | None => Ok vec
    | Some x => do s <- rd subs j; wr vec (f * 4 + s) x
    end.
Definition GravityDiscretization (how : gmethod) (bc : bctype) (gravity : v3) (vec : list fl) : outcome (list fl) :=
  for_ (length (q_vlocal m)) (fun iv vec =>
    do loc <- rd (q_vlocal m) iv;
    if negb loc then Ok vec
    else
      do fs <- rd (g_vfaces g) iv;
      do subs <- rd (q_vsubs m) iv;
      for_ (length fs) (grav_face how bc gravity iv fs subs) vec) vec.
End Gravity.
