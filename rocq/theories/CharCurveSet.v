(** Model of the curve containers (Saturation, RelativePermeability) in
    src/materials/tdycharacteristiccurves.c: which point uses which curve.

    Both containers have the same layout (two curve types; per type a list of
    points, an array of parameters, and a lazily built hash map from point to
    position), so the loops are written once, over the number of parameters per
    point and the evaluation of one point, and instantiated twice below.

    Simplifications: the output arrays S, dSdP, d2SdP2 (resp. Kr, dKrdSe) are one
    array of tuples; so are the input arrays Sr, Pc.  Point indices are [nat]
    (negative ones are not modelled).  Storage of replaced arrays is garbage
    collected (the C code leaks it when the number of points does not change,
    lines 88-93 and 300-305). *)
From Coq Require Import Reals List Arith ZArith Lia.
From Verif Require Import Prelude CharCurves.
Import ListNotations.

(** [v[j] = x]; [None] when [j] is outside the array. *)
Fixpoint update {A} (v : list A) (j : nat) (x : A) : option (list A) :=
  match v, j with
  | [], _ => None
  | _ :: v, O => Some (x :: v)
  | y :: v, S j => match update v j x with Some v' => Some (y :: v') | None => None end
  end.

(** The [k] parameters of the [i]-th point, [&parameters[k*i]]; [None] when the
    array is too short. *)
Definition block (k : nat) (params : list R) (i : nat) : option (list R) :=
  let b := firstn k (skipn (k * i) params) in
  if length b =? k then Some b else None.

(** ** Hash map from point to position
    klib's khash (petsc/private/khash/khash.h) as instantiated at
    tdycharacteristiccurves.c:11, without deletions: the contents, and the
    number of buckets (which decides whether a failed lookup is harmless). *)
Record kmap := { km_items : list (nat * nat); km_buckets : nat }.

Definition kh_init : kmap := {| km_items := []; km_buckets := 0 |}.
Definition kh_size (m : kmap) : nat := length (km_items m).

(** upper_bound = (khint_t)(n_buckets * 0.77 + 0.5) *)
Definition kh_upper (nb : nat) : nat := (nb * 77 + 50) / 100.

Fixpoint assoc (l : list (nat * nat)) (k : nat) : option nat :=
  match l with
  | [] => None
  | (k', v) :: l => if k' =? k then Some v else assoc l k
  end.

Fixpoint assoc_set (l : list (nat * nat)) (k v : nat) : list (nat * nat) :=
  match l with
  | [] => [(k, v)]
  | (k', v') :: l => if k' =? k then (k, v) :: l else (k', v') :: assoc_set l k v
  end.

(** kh_put followed by the assignment to kh_value: grow to the next power of
    two (at least 4) when the load limit is reached, then insert or overwrite. *)
Definition kh_put (m : kmap) (k v : nat) : kmap :=
  let nb := if kh_upper (km_buckets m) <=? kh_size m
            then (if km_buckets m =? 0 then 4 else 2 * km_buckets m)
            else km_buckets m in
  {| km_items := assoc_set (km_items m) k v; km_buckets := nb |}.

(** kh_get followed by kh_exist (lines 210-211): a failed lookup returns
    n_buckets, for which kh_exist reads flag word n_buckets/16.  The flag array
    has 1 word for fewer than 16 buckets and n_buckets/16 words otherwise, so
    the read is in range (and says "empty") only for fewer than 16 buckets. *)
Definition kh_lookup (m : kmap) (k : nat) : outcome (option nat) :=
  match assoc (km_items m) k with
  | Some v => Ok (Some v)
  | None => if km_buckets m <? 16 then Ok None else UB
  end.

Section Container.
Context {In Out : Type}.
Variable nparams : nat -> nat.              (* parameters per point of a type *)
Variable eval : nat -> list R -> In -> Out.  (* curve of a type at one point *)

Record slot := { sl_points : list nat; sl_params : list R }.
Record container := { slot0 : slot; slot1 : slot; maps : option (kmap * kmap) }.

(** SaturationCreate / RelativePermeabilityCreate, lines 41-48 and 239-245: zeroed. *)
Definition empty_slot : slot := {| sl_points := []; sl_params := [] |}.
Definition cc_create : container := {| slot0 := empty_slot; slot1 := empty_slot; maps := None |}.

Definition get_slot (s : container) (ty : nat) : slot := if ty =? 0 then slot0 s else slot1 s.

(** SaturationSetType, lines 72-113; RelativePermeabilitySetType, lines 271-316. *)
Definition set_type (s : container) (ty : nat) (points : list nat) (params : list R) : outcome container :=
  if 2 <=? ty then Err
  else
    let n := nparams ty * length points in
    if length params <? n then UB   (* memcpy past the end of the caller's array *)
    else
      let sl := {| sl_points := points; sl_params := firstn n params |} in
      Ok (if ty =? 0 then {| slot0 := sl; slot1 := slot1 s; maps := None |}
          else {| slot0 := slot0 s; slot1 := sl; maps := None |}).

(** One type of SaturationCompute, lines 132-156: loop counter [i], remaining points. *)
Fixpoint compute_points (ty i : nat) (pts : list nat) (params : list R)
    (inp : list In) (out : list Out) : outcome (list Out) :=
  match pts with
  | [] => Ok out
  | j :: pts =>
      match nth_error inp j, block (nparams ty) params i with
      | Some x, Some p =>
          match update out j (eval ty p x) with
          | Some out => compute_points ty (S i) pts params inp out
          | None => UB
          end
      | _, _ => UB
      end
  end.

(** SaturationCompute, lines 125-157: types in increasing order. *)
Definition compute (s : container) (inp : list In) (out : list Out) : outcome (list Out) :=
  do out <- compute_points 0 0 (sl_points (slot0 s)) (sl_params (slot0 s)) inp out;
  compute_points 1 0 (sl_points (slot1 s)) (sl_params (slot1 s)) inp out.

(** One type of RelativePermeabilityCompute, lines 330-351: the loop counter
    itself (not the point stored at that position) indexes Se, Kr and dKrdSe. *)
Fixpoint compute_counter (ty i n : nat) (params : list R)
    (inp : list In) (out : list Out) : outcome (list Out) :=
  match n with
  | O => Ok out
  | S n =>
      match nth_error inp i, block (nparams ty) params i with
      | Some x, Some p =>
          match update out i (eval ty p x) with
          | Some out => compute_counter ty (S i) n params inp out
          | None => UB
          end
      | _, _ => UB
      end
  end.

(** RelativePermeabilityCompute, lines 325-353. *)
Definition compute_by_counter (s : container) (inp : list In) (out : list Out) : outcome (list Out) :=
  do out <- compute_counter 0 0 (length (sl_points (slot0 s))) (sl_params (slot0 s)) inp out;
  compute_counter 1 0 (length (sl_points (slot1 s))) (sl_params (slot1 s)) inp out.

(** SaturationBuildPointMaps, lines 159-175 (355-371 for relative permeability). *)
Fixpoint build_map (m : kmap) (i : nat) (pts : list nat) : kmap :=
  match pts with
  | [] => m
  | j :: pts => build_map (kh_put m j i) (S i) pts
  end.

Definition build_maps (s : container) : container :=
  match maps s with
  | Some _ => s
  | None => {| slot0 := slot0 s; slot1 := slot1 s;
               maps := Some (build_map kh_init 0 (sl_points (slot0 s)),
                             build_map kh_init 0 (sl_points (slot1 s))) |}
  end.

(** The inner loop over types of SaturationComputeOnPoints, lines 206-233: the
    output for point [i1] with input [x], or [None] if no type claims it. *)
Definition eval_at (s : container) (m0 m1 : kmap) (i1 : nat) (x : In) : outcome (option Out) :=
  let try ty (m : kmap) (next : outcome (option Out)) :=
    if kh_size m =? 0 then next
    else
      do hit <- kh_lookup m i1;
      match hit with
      | Some j => match block (nparams ty) (sl_params (get_slot s ty)) j with
                  | Some p => Ok (Some (eval ty p x))
                  | None => UB
                  end
      | None => next
      end in
  try 0 m0 (try 1 m1 (Ok None)).

(** SaturationComputeOnPoints, lines 189-236 (382-428 for relative
    permeability): position [i] of the inputs and outputs belongs to point [points[i]]. *)
Fixpoint on_points (s : container) (m0 m1 : kmap) (i : nat) (pts : list nat)
    (inp : list In) (out : list Out) : outcome (list Out) :=
  match pts with
  | [] => Ok out
  | i1 :: pts =>
      match nth_error inp i with
      | None => UB
      | Some x =>
          do r <- eval_at s m0 m1 i1 x;
          match r with
          | None => on_points s m0 m1 (S i) pts inp out
          | Some v =>
              match update out i v with
              | Some out => on_points s m0 m1 (S i) pts inp out
              | None => UB
              end
          end
      end
  end.

Definition compute_on_points (s : container) (pts : list nat) (inp : list In) (out : list Out)
    : outcome (container * list Out) :=
  let s := build_maps s in
  match maps s with
  | Some (m0, m1) => do out <- on_points s m0 m1 0 pts inp out; Ok (s, out)
  | None => UB
  end.

(** A history of calls: curve assignments and (map-building) evaluations. *)
Inductive call :=
| CSet (ty : nat) (points : list nat) (params : list R)
| COnPoints (pts : list nat) (inp : list In) (out : list Out).

Definition exec (s : container) (c : call) : outcome container :=
  match c with
  | CSet ty pts prm => set_type s ty pts prm
  | COnPoints pts inp out => do r <- compute_on_points s pts inp out; Ok (fst r)
  end.

Fixpoint run (s : container) (h : list call) : outcome container :=
  match h with
  | [] => Ok s
  | c :: h => do s <- exec s c; run s h
  end.

End Container.

(** ** The two instances *)

(** Gardner: 3 parameters (n, m, alpha); van Genuchten: 2 (m, alpha). *)
Definition sat_nparams (ty : nat) : nat := if ty =? 0 then 3 else 2.
Definition sat_eval (ty : nat) (p : list R) (x : R * R) : fl * fl * fl :=
  match ty, p with
  | 0, [n; m; alpha] => gardner n m alpha (fst x) (snd x)
  | 1, [m; alpha] => van_genuchten m alpha (fst x) (snd x)
  | _, _ => (None, None, None)  (* unreachable: parameter blocks have the right length *)
  end%nat.

(** Irmay: 1 parameter (m); Mualem: 9 (m, x0, x1, x2, dx, four coefficients). *)
Definition kr_nparams (ty : nat) : nat := if ty =? 0 then 1 else 9.
Definition kr_eval (ty : nat) (p : list R) (Se : R) : fl * fl :=
  match ty, p with
  | 0, [m] => irmay m Se
  | 1, [m; x0; x1; x2; dx; c0; c1; c2; c3] => mualem m x0 x1 dx c0 c1 c2 c3 Se
  | _, _ => (None, None)  (* unreachable *)
  end%nat.

Definition SaturationSetType := set_type sat_nparams.
Definition SaturationCompute := compute sat_nparams sat_eval.
Definition SaturationComputeOnPoints := compute_on_points sat_nparams sat_eval.
Definition RelativePermeabilitySetType := set_type kr_nparams.
Definition RelativePermeabilityCompute := compute_by_counter kr_nparams kr_eval.
Definition RelativePermeabilityComputeOnPoints := compute_on_points kr_nparams kr_eval.
