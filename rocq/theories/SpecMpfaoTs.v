(** Specification vocabulary for the multi-point residual and Jacobian.  Only the
    data types of MpfaoTs.v are used, none of its computations. *)
From Coq Require Import Reals ZArith List Bool.
From Coquelicot Require Import Coquelicot.
From Verif Require Import Prelude Mpfao SpecFvtpf MpfaoTs.
Import ListNotations.
Local Open Scope R_scope.

(** ** Meshes *)

Definition local_cell (m : mesh) (i : nat) : bool :=
  match nth_error (rocks m) i with Some k => k_local k | None => false end.
(** The cell with (possibly negative) number [z] belongs to this process. *)
Definition owned (m : mesh) (z : Z) : bool := (0 <=? z)%Z && local_cell m (Z.to_nat z).

(** Number of sub-faces at vertex [iv], and the face and position in the
    sub-face arrays of the [j]-th of them. *)
Definition rows (m : mesh) (iv : nat) : nat :=
  match nth_error (verts m) iv with Some v => length (x_faces v) | None => 0 end.
Definition subface (m : mesh) (iv j : nat) : option (vert * face * nat) :=
  match nth_error (verts m) iv with
  | Some v =>
      match nth_error (x_faces v) j, nth_error (x_subs v) j with
      | Some a, Some s => match nth_error (faces m) a with Some f => Some (v, f, a * 4 + s)%nat | None => None end
      | _, _ => None
      end
  | None => None
  end.
(** The sub-face is computed by this process. *)
Definition active (v : vert) (f : face) : bool := x_local v && f_local f.

(** Sum over all sub-faces of all vertices. *)
Definition all_subfaces (m : mesh) (h : nat -> nat -> R) : R :=
  total (fun iv => total (fun j => h iv j) (rows m iv)) (length (verts m)).

(** +1 when the active sub-face has the owned cell [i] on its up side, -1 on its
    down side. *)
Definition orientation (m : mesh) (iv j i : nat) : R :=
  match subface m iv j with
  | Some (v, f, _) =>
      if active v f && local_cell m i then coeff (f_up f =? Z.of_nat i)%Z - coeff (f_dn f =? Z.of_nat i)%Z else 0
  | None => 0
  end.
(** +1 when only the up side of the active sub-face is owned, -1 when only the
    down side. *)
Definition crossing (m : mesh) (iv j : nat) : R :=
  match subface m iv j with
  | Some (v, f, _) => if active v f then coeff (owned m (f_up f)) - coeff (owned m (f_dn f)) else 0
  | None => 0
  end.

(** ** Darcy flux of a sub-face *)

Definition mobility (s : side) : R := match s with inl c => c_Kr c / c_vis c | inr b => b_Kr b / b_vis b end.
Definition density (s : side) : R := match s with inl c => c_rho c | inr b => b_rho b end.
Definition viscosity (s : side) : R := match s with inl c => c_vis c | inr b => b_vis b end.
Definition mean_density (up dn : side) : R := (density up + density dn) / 2.
(** The driving potential [TP + rho G]; water flows from up to down when it is
    negative, and takes the mobility of the side it comes from. *)
Definition drive (up dn : side) (TP G : R) : R := TP + mean_density up dn * G.
(** At or below the reference pressure, a seepage boundary supplies no water. *)
Definition dry_seepage (b : bctype) (Pref : R) (s : side) : Prop :=
  b = SeepageBC /\ match s with inl _ => False | inr x => b_P x <= Pref end.

(** What is on side [z] of a face. *)
Definition at_side (cs : list cell) (bs : list bnd) (z : Z) (s : side) : Prop :=
  match s with
  | inl c => (0 <= z)%Z /\ nth_error cs (Z.to_nat z) = Some c
  | inr b => (z < 0)%Z /\ nth_error bs (Z.to_nat (- z - 1)) = Some b
  end.

(** [q] is the flux of every active sub-face. *)
Definition is_flux (m : mesh) (cs : list cell) (bs : list bnd) (TP GD : list R) (q : nat -> nat -> R) : Prop :=
  forall iv j v f a up dn tp G, subface m iv j = Some (v, f, a) -> active v f = true ->
    at_side cs bs (f_up f) up -> at_side cs bs (f_dn f) dn ->
    nth_error TP a = Some tp -> nth_error GD a = Some G ->
    let d := drive up dn tp G in
    let s := if Rlt_dec d 0 then up else dn in
    (dry_seepage (bc m) (Pref m) s -> q iv j = 0) /\
    (~ dry_seepage (bc m) (Pref m) s -> q iv j = - mean_density up dn * mobility s * d).

(** Rate of change of the stored mass rho por S V, for the pressure rate [d]. *)
Definition storage_rate (c : cell) (k : rock) (d : R) : R :=
  (c_drho c * c_S c + c_rho c * c_dS c) * k_por k * k_vol k * d.
Definition stored (c : cell) (k : rock) : R := c_rho c * k_por k * c_S c * k_vol k.

(** The value [w] of the owned cell [i], 0 for other cells. *)
Definition term (m : mesh) (cs : list cell) (w : nat -> cell -> rock -> R) (i : nat) : R :=
  match nth_error cs i, nth_error (rocks m) i with
  | Some c, Some k => if k_local k then w i c k else 0
  | _, _ => 0
  end.

(** ** Well-formed problems: [n] owned cells, [N] cells, [nb] boundary faces. *)
Record good_mesh (m : mesh) (n N nb : nat) : Prop := {
  gm_rocks : length (rocks m) = N;
  gm_owned : forall i, local_cell m i = true -> (i < n)%nat;
  gm_vert : forall v, In v (verts m) -> length (x_subs v) = length (x_faces v)
              /\ (forall a, In a (x_faces v) -> (a < length (faces m))%nat) /\ (forall s, In s (x_subs v) -> (s < 4)%nat);
  gm_face : forall f, In f (faces m) ->
              (- Z.of_nat nb <= f_up f < Z.of_nat N)%Z /\ (- Z.of_nat nb <= f_dn f < Z.of_nat N)%Z
}.
Definition good_state (m : mesh) (N nb : nat) (cs : list cell) (bs : list bnd) (TP GD : list R) : Prop :=
  length cs = N /\ length bs = nb /\ (forall c, In c cs -> c_vis c <> 0) /\ (forall b, In b bs -> b_vis b <> 0)
  /\ length TP = (4 * length (faces m))%nat /\ length GD = (4 * length (faces m))%nat.

(** ** Derivatives *)

(** A cell state that varies with its pressure, with the stored derivatives. *)
Definition consistent (c : R -> cell) (p : R) : Prop :=
  is_derive (fun x => c_rho (c x)) p (c_drho (c p))
  /\ is_derive (fun x => c_drho (c x)) p (c_d2rho (c p))
  /\ is_derive (fun x => c_vis (c x)) p (c_dvis (c p))
  /\ is_derive (fun x => c_S (c x)) p (c_dS (c p))
  /\ is_derive (fun x => c_dS (c x)) p (c_d2S (c p))
  /\ is_derive (fun x => c_Kr (c x)) p (c_dKr (c p) * c_dS (c p)).

(** Entry [i] of a computed vector. *)
Definition component (o : outcome (list fl)) (i : nat) : fl :=
  match o with Ok r => match nth_error r i with Some v => v | None => None end | _ => None end.

(** Transmissibility of column [icol] of sub-face [j] at vertex [iv]. *)
Definition coefficient (T : Trans) (iv j icol : nat) : R := nth icol (nth j (nth iv T []) []) 0.
(** The array is allocated: every vertex has a value for each of its sub-faces
    and cells. *)
Definition allocated (m : mesh) (T : Trans) : Prop :=
  forall iv v, nth_error (verts m) iv = Some v ->
    exists t, nth_error T iv = Some t /\
      forall j, (j < length (x_faces v))%nat -> exists w, nth_error t j = Some w /\ (length (x_cells v) <= length w)%nat.
(** Sum of the transmissibilities of the columns of cell [k]. *)
Definition column (T : Trans) (iv : nat) (v : vert) (j k : nat) : R :=
  total (fun icol => coeff (nth icol (x_cells v) 0%nat =? k)%nat * coefficient T iv j icol) (length (x_cells v)).
(** A boundary sub-face under a Neumann condition, which is closed. *)
Definition closed (m : mesh) (f : face) : Prop := bc m = NeumannBC /\ ((f_up f < 0)%Z \/ (f_dn f < 0)%Z).

(** [TP x] is the product of the transmissibility matrix with pressures whose
    value in cell [k] is [x]: it is affine in [x], with the transmissibility of
    cell [k] as slope; it is zero on closed sub-faces. *)
Definition product_of (m : mesh) (T : Trans) (k : nat) (TP : R -> list R) : Prop :=
  forall iv j v f a, subface m iv j = Some (v, f, a) -> active v f = true ->
    (closed m f -> forall x, nth_error (TP x) a = Some 0) /\
    (~ closed m f -> exists t0, forall x, nth_error (TP x) a = Some (t0 + column T iv v j k * x)).
(** Owned cells only touch computed sub-faces; the two sides of a face differ;
    the cells of a vertex are distinct and contain those of its faces; sub-faces
    that are closed have no gravity term. *)
Record good_vertices (m : mesh) (GD : list R) : Prop := {
  gv_flags : forall iv j v f a, subface m iv j = Some (v, f, a) -> owned m (f_up f) = true \/ owned m (f_dn f) = true -> active v f = true;
  gv_sides : forall f, In f (faces m) -> f_up f <> f_dn f;
  gv_cells : forall v, In v (verts m) -> NoDup (x_cells v);
  gv_known : forall iv j v f a, subface m iv j = Some (v, f, a) ->
    (forall k, f_up f = Z.of_nat k \/ f_dn f = Z.of_nat k -> In k (x_cells v));
  gv_closed : forall iv j v f a, subface m iv j = Some (v, f, a) -> closed m f -> nth_error GD a = Some 0
}.
(** The upwind direction of every sub-face that is not closed is decided. *)
Definition decided (m : mesh) (cs : list cell) (bs : list bnd) (TP GD : list R) : Prop :=
  forall iv j v f a up dn tp G, subface m iv j = Some (v, f, a) -> active v f = true -> ~ closed m f ->
    at_side cs bs (f_up f) up -> at_side cs bs (f_dn f) dn -> nth_error TP a = Some tp -> nth_error GD a = Some G ->
    drive up dn tp G <> 0.

(** Sum of the values added to the global matrix at (row, col). *)
Definition sum_at (l : list entry) (row col : nat) : R :=
  fold_right (fun e s => if (fst (fst e) =? row)%nat && (snd (fst e) =? col)%nat then snd e + s else s) 0 l.
(** The entries [l] of the global matrix in the columns of the cells are the
    transmissibilities [T]; closed sub-faces have no entries. *)
Definition placed (m : mesh) (T : Trans) (N : nat) (l : list entry) : Prop :=
  forall iv j v f a, subface m iv j = Some (v, f, a) -> active v f = true ->
    (closed m f -> forall e, In e l -> fst (fst e) <> a) /\
    (~ closed m f -> forall k, (k < N)%nat -> sum_at l a k = column T iv v j k).
(** The pressures [P] with value [x] in cell [k]. *)
Definition with_cell (P : nat -> R) (k : nat) (x : R) : nat -> R := fun c => if (c =? k)%nat then x else P c.
