(** Properties of the release of a simulator's memory. *)
From Coq Require Import Reals ZArith Bool List Arith Lia String Permutation.
From Verif Require Import Prelude Arrays Release SpecRelease ReleaseProofs.
Import ListNotations.
Local Open Scope string_scope.
Local Open Scope nat_scope.

(** C105: for every flow mode, every combination of material properties and all mesh
    sizes, setting an MPFA-O simulator up and destroying it frees nothing twice and
    touches no other memory; exactly the stated number of blocks is left over. *)
Theorem C105_left_partial : forall md m z h, md <> RichardsDAE -> good_heap h ->
  exists h', life_mpfao md m z h = Ok h' /\ leaves (left_mpfao m z) h h'.
Proof. exact life_left_proof. Qed.

(** C105: an array of the context or of the mesh outlives the simulator exactly if it is
    among the listed ones. *)
Theorem C105_fields : forall md m z h, md <> RichardsDAE -> good_heap h ->
  exists s s1, run z (setup_mpfao md m) (create h) = Ok s /\ run z mpfao_frees s = Ok s1 /\
    forall k, get s k <> Null -> (is_live (hp s1) (get s k) = true <-> In k (left_fields m)).
Proof. exact mpfao_fields_proof. Qed.

(** C105: the left-over memory of simulations run one after the other adds up. *)
Theorem C105_many : forall l h, Forall (fun c => fst (fst c) <> RichardsDAE) l -> good_heap h ->
  exists h', lives l h = Ok h' /\ leaves (left_by_all l) h h'.
Proof. exact lives_proof. Qed.

(** C105, refuted: that all memory is given back. *)
Theorem C105_all_released_refuted : ~ (forall md m z h, md <> RichardsDAE -> good_heap h ->
  exists h', life_mpfao md m z h = Ok h' /\ Permutation (live h') (live h)).
Proof. exact not_all_released_proof. Qed.

(** C105, refuted: that a simulator may be destroyed before its setup; the mesh is read
    through a NULL pointer, always. *)
Theorem C105_before_setup_refuted : forall z h, good_heap h -> destroy_mpfao z (create h) = UB.
Proof. exact before_setup_proof. Qed.

(** C105, refuted: that a simulator of the DAE formulation, whose setup returns at once,
    may be destroyed. *)
Theorem C105_dae_refuted : forall m z h, good_heap h -> life_mpfao RichardsDAE m z h = UB.
Proof. exact dae_proof. Qed.

(** C105: after destroying an FV-TPF simulator exactly the thirteen listed arrays of its
    context are gone; everything else, the mesh and the context included, is left over. *)
Theorem C105_fvtpf : forall m z h, good_heap h ->
  exists s s1, run z (setup_fvtpf m) (create h) = Ok s /\ run z fvtpf_frees s = Ok s1
    /\ is_live (hp s1) (ctx s1) = true /\
    forall k, get s k <> Null ->
      (is_live (hp s1) (get s k) = false <-> fst k = Ctx /\ In (snd k) released_fvtpf).
Proof. exact fvtpf_fields_proof. Qed.

(** C105: an FV-TPF simulator may be destroyed before its setup; the context is left over. *)
Theorem C105_fvtpf_before_setup : forall z h, good_heap h ->
  exists h', destroy_fvtpf z (create h) = Ok h' /\ leaves 1 h h'.
Proof. exact fvtpf_before_setup_proof. Qed.

(** One hexahedron, Richards, no thermal properties: 21 of more than 200 blocks are left. *)
Example one_hexahedron :
  match life_mpfao Richards bare one_hex (mkHeap [] 0) with
  | Ok h => (List.length (live h), 200 <=? next h)
  | _ => (0, false)
  end = (21, true).
Proof. vm_compute. reflexivity. Qed.
(** Three of them in a row, over memory in use: what was there stays. *)
Example three_runs :
  match lives (repeat (TH, bare, one_hex) 3) (mkHeap [4; 7] 8) with
  | Ok h => (List.length (live h), existsb (Nat.eqb 4) (live h), existsb (Nat.eqb 7) (live h))
  | _ => (0, false, false)
  end = (65, true, true).
Proof. vm_compute. reflexivity. Qed.
(** The model sees wrong extents: releasing with too few rows leaves blocks, with far too
    many reads behind the array, a second release of a freed array is undefined. *)
Example few_rows : match alloc_array [3; 2] (mkHeap [] 0) with
  | (p, h) => match dealloc_array [2] p h with Ok h => List.length (live h) | _ => 0 end end = 1.
Proof. reflexivity. Qed.
Example many_rows : match alloc_array [3; 2] (mkHeap [] 0) with
  | (p, h) => dealloc_array [25] p h end = UB.
Proof. reflexivity. Qed.
Example twice : match alloc_array [3; 2] (mkHeap [] 0) with
  | (p, h) => do h1 <- dealloc_array [3] p h; dealloc_array [3] p h1 end = UB.
Proof. reflexivity. Qed.

Print Assumptions C105_left_partial.
Print Assumptions C105_fields.
Print Assumptions C105_many.
Print Assumptions C105_all_released_refuted.
Print Assumptions C105_before_setup_refuted.
Print Assumptions C105_dae_refuted.
Print Assumptions C105_fvtpf.
Print Assumptions C105_fvtpf_before_setup.
