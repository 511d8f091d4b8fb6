(** Specification vocabulary for the two-point flux scheme.  Only the data types
    of Fvtpf.v are used, none of its computations, except in the last section. *)
From Coq Require Import Reals ZArith List Bool.
From Coquelicot Require Import Coquelicot.
From Verif Require Import Prelude Fvtpf.
Import ListNotations.
Local Open Scope R_scope.

(** Permeability of a medium with diagonal permeability [k] in direction [u]. *)
Definition directional (u k : vec3) : R :=
  let '(u0, u1, u2) := u in let '(k0, k1, k2) := k in
  1 / (u0 * u0 / k0 + u1 * u1 / k1 + u2 * u2 / k2).
Definition positive3 (k : vec3) : Prop := let '(k0, k1, k2) := k in 0 < k0 /\ 0 < k1 /\ 0 < k2.
Definition nonzero3 (u : vec3) : Prop := let '(u0, u1, u2) := u in u0 <> 0 \/ u1 <> 0 \/ u2 <> 0.

(** Density at the face: interpolated linearly between the two cell centres when
    both sides hold water, else the density of the side that does. *)
Definition threshold : R := 1 / 100000000.
Definition face_density (dist_up dist_dn S_up S_dn rho_up rho_dn : R) : R :=
  if Rlt_dec S_up threshold then rho_dn
  else if Rlt_dec S_dn threshold then rho_up
  else (dist_dn * rho_up + dist_up * rho_dn) / (dist_up + dist_dn).
(** Drop of hydraulic potential from the up to the down cell: the pressure drop
    minus the weight of the water column between the two centres. *)
Definition potential_drop (P_up P_dn rho weight_arm : R) : R := P_up - P_dn - rho * weight_arm.

(** Sums over index ranges. *)
Fixpoint total (f : nat -> R) (n : nat) : R :=
  match n with O => 0 | S n => total f n + f n end.

(** A cell state that varies with its own pressure, with the reported derivatives
    being the derivatives at [p]. *)
Definition consistent (c : R -> cell) (p : R) : Prop :=
  (forall x, c_P (c x) = x)
  /\ is_derive (fun x => c_rho (c x)) p (c_drho (c p))
  /\ is_derive (fun x => c_vis (c x)) p (c_dvis (c p))
  /\ is_derive (fun x => c_S (c x)) p (c_dS (c p))
  /\ is_derive (fun x => c_Kr (c x)) p (c_dKr (c p) * c_dS (c p)).

(** ** Mass balance *)

(** Cell [i] belongs to this process. *)
Definition local_cell (g : grid) (i : nat) : bool :=
  match nth_error (rocks g) i with Some k => k_local k | None => false end.
(** Interior face [j] of this process has cell [i], owned by this process, on its
    up (down) side. *)
Definition leaves (g : grid) (j i : nat) : bool :=
  match nth_error (faces g) j with
  | Some f => f_local f && f_internal f && (f_up f =? Z.of_nat i)%Z && local_cell g i
  | None => false
  end.
Definition enters (g : grid) (j i : nat) : bool :=
  match nth_error (faces g) j with
  | Some f => f_local f && f_internal f && (f_dn f =? Z.of_nat i)%Z && local_cell g i
  | None => false
  end.
(** Boundary face [j] of this process is not closed, and [i] is its inner cell. *)
Definition open_face (f : face) : bool := match f_bc f with Neumann => false | _ => true end.
Definition bounds (g : grid) (j i : nat) : bool :=
  match nth_error (faces g) j with
  | Some f => f_local f && negb (f_internal f) && open_face f && (f_dn f =? Z.of_nat i)%Z
  | None => false
  end.
Definition coeff (b : bool) : R := if b then 1 else 0.

(** The balance of cell [i]: outflow through its interior faces, minus the inflow
    through its boundary faces, plus the gain of stored mass, minus the source.
    [q], [b]: mass flow from up to down of an interior face, and into the domain
    of a boundary face; [acc], [prev], [src]: stored mass over the time step now
    and before, and source. *)
Definition cell_balance (g : grid) (q b acc prev src : nat -> R) (i : nat) : R :=
  total (fun j => (coeff (leaves g j i) - coeff (enters g j i)) * q j) (length (faces g))
  - total (fun j => coeff (bounds g j i) * b j) (length (faces g))
  + (if local_cell g i then acc i - prev i - src i else 0).

(** Balance of the whole process: what all its cells gain, plus what crosses the
    interior faces whose other side is not owned, minus what enters through the
    open boundary. *)
Definition owned (g : grid) (z : Z) : bool := (0 <=? z)%Z && local_cell g (Z.to_nat z).
Definition crossing (g : grid) (j : nat) : R :=
  match nth_error (faces g) j with
  | Some f => if f_local f && f_internal f then coeff (owned g (f_up f)) - coeff (owned g (f_dn f)) else 0
  | None => 0
  end.
Definition boundary_open (g : grid) (j : nat) : bool :=
  match nth_error (faces g) j with
  | Some f => f_local f && negb (f_internal f) && open_face f
  | None => false
  end.

(** ** Well-formed discrete problems of [n] cells and [nb] boundary faces *)

Definition diagonal_at (g : grid) (i : nat) (k : vec3) : Prop :=
  let '(k0, k1, k2) := k in
  nth_error (K0 g) (9 * i) = Some k0 /\ nth_error (K0 g) (9 * i + 4) = Some k1 /\ nth_error (K0 g) (9 * i + 8) = Some k2.
Definition in_range (z : Z) (n : nat) : Prop := (0 <= z < Z.of_nat n)%Z.
Definition good_face (n nb : nat) (f : face) : Prop :=
  0 < f_dist_up f /\ 0 < f_dist_dn f /\ 0 < f_area f /\ nonzero3 (f_unit f)
  /\ in_range (f_dn f) n
  /\ (if f_internal f then in_range (f_up f) n /\ f_up f <> f_dn f
      else (f_up f < 0)%Z /\ match f_bc f with
           | Neumann => True
           | Seepage => in_range (- f_up f - 1) nb
           | Dirichlet => in_range (- f_up f + 1) nb
           | OtherBC => False
           end).
Definition good_grid (g : grid) (n nb : nat) : Prop :=
  length (rocks g) = n /\ dtime g <> 0
  /\ (forall f, In f (faces g) -> good_face n nb f)
  /\ (forall i, (i < n)%nat -> exists k, diagonal_at g i k /\ positive3 k).
Definition good_cell (c : cell) : Prop := 0 < c_vis c /\ 0 < c_rho c /\ 0 <= c_Kr c.
Definition good_bnd (b : bnd) : Prop := 0 < b_vis b /\ 0 < b_rho b /\ 0 <= b_Kr b.
(** Every interior face has water that can move on at least one side. *)
Definition wet (g : grid) (cs : list cell) : Prop :=
  forall f, In f (faces g) -> f_local f = true -> f_internal f = true ->
    exists up dn, nth_error cs (Z.to_nat (f_up f)) = Some up /\ nth_error cs (Z.to_nat (f_dn f)) = Some dn
      /\ (threshold < c_Kr up \/ threshold < c_Kr dn).

(** ** What the flux routines report

    Names for the numbers appearing in the balances; these refer to the routines of
    Fvtpf.v, not to the assembly loops. *)

Definition res_of (o : outcome fl) : R := match o with Ok (Some v) => v | _ => 0 end.
Definition interior_result (g : grid) (cs : list cell) (junk : nat -> fl) (j : nat) : outcome fl :=
  ignore_error (RichardsResidual g cs j (junk j)) (junk j).
Definition boundary_result (g : grid) (cs : list cell) (bs : list bnd) (j : nat) : outcome fl :=
  match nth_error (faces g) j with
  | Some f => match f_bc f with
              | Dirichlet => ignore_error (RichardsBCResidual g cs bs j (Some 0)) (Some 0)
              | Seepage => ignore_error (RichardsSeepageBCResidual g cs bs j (Some 0)) (Some 0)
              | _ => Err
              end
  | None => Err
  end.
Definition acc_of (g : grid) (cs : list cell) (i : nat) : fl :=
  match nth_error cs i, nth_error (rocks g) i with
  | Some c, Some k => Accumulation (dtime g) c k
  | _, _ => None
  end.
Definition src_of (g : grid) (i : nat) : R := match nth_error (rocks g) i with Some k => k_src k | None => 0 end.
Definition val (o : fl) : R := match o with Some v => v | None => 0 end.
