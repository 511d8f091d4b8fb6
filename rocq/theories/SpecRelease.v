(** What releasing the memory of a simulator means. *)
From Coq Require Import Reals ZArith Bool List Arith String Permutation.
From Verif Require Import Prelude Arrays Release.
Import ListNotations.
Local Open Scope string_scope.
Local Open Scope nat_scope.
Local Open Scope list_scope.

(** A heap as the allocator leaves it: no address twice, the next one above all of them. *)
Definition good_heap (h : heap) : Prop :=
  NoDup (live h) /\ forall b, In b (live h) -> b < next h.

(** Everything that existed before exists afterwards, and exactly [n] further
    blocks are left over, all of them allocated in between. *)
Definition leaves (n : nat) (h h' : heap) : Prop :=
  good_heap h' /\ next h <= next h' /\
  exists extra, Permutation (live h') (extra ++ live h) /\ List.length extra = n
    /\ forall b, In b extra -> next h <= b.

(** What TDyDestroy of an MPFA-O simulator leaves over: K, K0 and porosity, with a
    thermal conductivity Kappa and Kappa0 (5 blocks), on a mesh with cells; the
    region's cell ids; bc_type, projected_area, dist, dist_wt_up, and the two
    two-dimensional arrays dist_up_dn and unit_vec_up_dn of the faces. *)
Definition left_mpfao (m : materials) (z : sizes) : nat :=
  (if z_cells z =? 0 then 0 else 3 + (if m_kappa m then 2 else 0) + (if m_region m then 1 else 0))
  + (if z_faces z =? 0 then 0 else 4 + 2 * (1 + z_faces z)).

(** The fields whose memory outlives the simulator. *)
Definition left_fields (m : materials) : list (obj * string) :=
  [ (Ctx, "K"); (Ctx, "K0"); (Ctx, "porosity");
    (Mesh, "faces.bc_type"); (Mesh, "faces.projected_area"); (Mesh, "faces.dist"); (Mesh, "faces.dist_wt_up");
    (Mesh, "faces.dist_up_dn"); (Mesh, "faces.unit_vec_up_dn") ]
  ++ (if m_kappa m then [ (Ctx, "Kappa"); (Ctx, "Kappa0") ] else [])
  ++ (if m_region m then [ (Mesh, "region_connected.cell_ids") ] else []).

(** The only fields TDyDestroy of an FV-TPF simulator releases. *)
Definition released_fvtpf : list string :=
  [ "vel"; "V"; "X"; "N"; "rho"; "d2rho_dP2"; "vis"; "dvis_dP"; "d2vis_dP2"; "h"; "dh_dP"; "dh_dT"; "dvis_dT" ].

(** Total left over by a sequence of simulations. *)
Definition left_by_all (l : list (mode * materials * sizes)) : nat :=
  list_sum (map (fun c => left_mpfao (snd (fst c)) (snd c)) l).
