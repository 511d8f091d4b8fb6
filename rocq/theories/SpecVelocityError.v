(** What the theorems about the printed velocity error say. *)
From Coq Require Import Reals ZArith List Bool Arith.
From Verif Require Import Prelude Mpfao MpfaoTs SpecFvtpf SpecMpfao SpecMpfaoTs Transmit SpecTransmit SpecSteady Velocity SpecVelocity VelocityError.
Import ListNotations.
Local Open Scope R_scope.

Definition inner (a b : R * R * R) : R := fst (fst a) * fst (fst b) + snd (fst a) * snd (fst b) + snd a * snd b.
(** The flux through sub-face [j] of vertex [iv] of the velocity [w]: its component
    along the normal of the face times the area of the sub-face. *)
Definition true_flux (m : mesh) (b : probe) (w : R * R * R -> R * R * R) (iv j : nat) : R :=
  match face_at m iv j with
  | Some a => inner (w (b_centroid b iv j)) (nth a (b_normal b) (0, 0, 0)) * b_sub b iv j
  | None => 0
  end.
(** The area of the whole face of that sub-face. *)
Definition whole_area (m : mesh) (area : list R) (iv j : nat) : R :=
  match face_at m iv j with Some a => nth a area 0 | None => 0 end.
(** The sub-face is on this process: its face is, and at the boundary also its vertex. *)
Definition counted (M : tmesh) (iv j : nat) : bool :=
  match subface (t_mesh M) iv j, nth_error (t_extra M) iv with
  | Some (v, f, _), Some e => f_local f && ((e_nbnd e =? 0)%nat || x_local v)
  | _, _ => false
  end.
(** Sums over the counted sub-faces. *)
Definition over_counted (M : tmesh) (F : nat -> nat -> R) : R :=
  all_subfaces (t_mesh M) (fun iv j => if counted M iv j then F iv j else 0).
Record good_probe (p : recover) (b : probe) : Prop := { gp_normal : length (b_normal b) = length (faces (t_mesh (r_mesh p))) }.
(** The sums over the processes of the squares and of the counts. *)
Fixpoint sum_err (l : list (R * nat)) : R := match l with [] => 0 | x :: l => fst x + sum_err l end.
Fixpoint sum_count (l : list (R * nat)) : nat := match l with [] => O | x :: l => (snd x + sum_count l)%nat end.
