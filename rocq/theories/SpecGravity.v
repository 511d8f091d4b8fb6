(** What the theorems about the gravity term say, independently of how it is computed. *)
From Coq Require Import Reals List Bool Arith ZArith.
From Verif Require Import Prelude Geom SpecGeom Mpfao Subcell SpecSubcell Gravity.
Import ListNotations.
Local Open Scope R_scope.

(** The smallest relative step of the floating point numbers, 2^-52. *)
Definition step : R := / 2 ^ 52.

(** The gravity term of the [j]-th face of the vertex [iv], the face [f], has to be
    stored at place [i]. *)
Definition term_at (m : gmesh) (bc : bctype) (iv j f i : nat) : Prop :=
  nth_error (q_vlocal m) iv = Some true /\ nth_error (q_flocal m) f = Some true /\
  (exists c, nth_error (g_fcells (q_geo m)) f = Some c /\ (bc = NeumannBC -> (0 <= fst c)%Z /\ (0 <= snd c)%Z)) /\
  exists fs subs s, nth_error (g_vfaces (q_geo m)) iv = Some fs /\ nth_error (q_vsubs m) iv = Some subs /\
    nth_error fs j = Some f /\ nth_error subs j = Some s /\ i = (f * 4 + s)%nat.
(** The tables that are walked through are complete. *)
Definition tables (m : gmesh) : Prop :=
  length (g_vfaces (q_geo m)) = length (q_vlocal m) /\ length (q_vsubs m) = length (q_vlocal m) /\
  (forall iv fs subs, nth_error (g_vfaces (q_geo m)) iv = Some fs -> nth_error (q_vsubs m) iv = Some subs -> length subs = length fs) /\
  (forall iv fs f, nth_error (g_vfaces (q_geo m)) iv = Some fs -> In f fs ->
     (f < length (q_flocal m))%nat /\ (f < length (g_fcells (q_geo m)))%nat).
(** The sub-faces of a face have numbers below four, different for different vertices. *)
Definition subs_distinct (m : gmesh) : Prop :=
  (forall iv subs s, nth_error (q_vsubs m) iv = Some subs -> In s subs -> (s < 4)%nat) /\
  forall iv iv' fs fs' subs subs' j j' f s,
    nth_error (g_vfaces (q_geo m)) iv = Some fs -> nth_error (q_vsubs m) iv = Some subs -> nth_error fs j = Some f -> nth_error subs j = Some s ->
    nth_error (g_vfaces (q_geo m)) iv' = Some fs' -> nth_error (q_vsubs m) iv' = Some subs' -> nth_error fs' j' = Some f -> nth_error subs' j' = Some s ->
    iv = iv'.

(** The points between which the unit vector of the face points: the cell centres, or
    the centre of the face on the side where there is no cell. *)
Definition side_point (g : geo) (f : nat) (z : Z) (x : v3) : Prop :=
  ((0 <= z)%Z /\ nth_error (g_cc g) (Z.to_nat z) = Some x) \/ ((z < 0)%Z /\ nth_error (g_fc g) f = Some x).
Definition sides (g : geo) (f : nat) (xu xd : v3) : Prop :=
  exists c, nth_error (g_fcells g) f = Some c /\ ((0 <= fst c)%Z \/ (0 <= snd c)%Z) /\
    side_point g f (fst c) xu /\ side_point g f (snd c) xd.
Definition unit_between (a b u : v3) : Prop := a <> b /\ vsub b a = vscale (length3 (vsub b a)) u.

(** The same tensor in every cell. *)
Definition uniform (m : gmesh) (K : m3) : Prop :=
  length (q_K m) = length (g_cc (q_geo m)) /\ forall i k, nth_error (q_K m) i = Some k -> k = K.
Definition symmetric (K : m3) : Prop := m1 K = m3_ K /\ m2 K = m6 K /\ m5 K = m7 K.
Definition entries_of (a : m3) : list R := [m0 a; m1 a; m2 a; m3_ a; m4 a; m5 a; m6 a; m7 a; m8 a].
(** No entry of the tensor is negative or tiny. *)
Definition not_small (K : m3) : Prop := forall x, In x (entries_of K) -> x = 0 \/ step <= x.

(** The table of sub-cells has the sub-face of [f] at the vertex [iv], with the area [a]. *)
Definition area_known (m : gmesh) (iv f : nat) (a : R) : Prop :=
  forall c, nth_error (g_fcells (q_geo m)) f = Some c ->
    exists id, subcell_id m (if (fst c <? 0)%Z then snd c else fst c) iv f = Ok id /\ nth_error (q_sareas m) id = Some a.

(** Water at rest: the pressure falls by rho·|g| per unit of height. *)
Definition at_rest (p0 rho gz : R) (x : v3) : R := p0 - rho * Rabs gz * vz x.

(** A permeability along the axes. *)
Definition diagonal (a b c : R) : m3 := M3 a 0 0 0 b 0 0 0 c.
