(** What the output of fields should be, independent of the code. *)
From Coq Require Import List Arith ZArith Reals String Permutation.
From Verif Require Import Output.
Import ListNotations.

(** [ao] numbers the cells. *)
Definition numbering (ao : list Z) : Prop := Permutation ao (map Z.of_nat (seq 0 (List.length ao))).
Definition natural_number (ao : list Z) (p c : nat) : Prop := nth_error ao p = Some (Z.of_nat c).
Definition unchanged_order (ao : list Z) : Prop := forall p, p < List.length ao -> natural_number ao p p.

(** [y] lists by natural number the values that [x] lists by global number. *)
Definition in_natural_order {A} (ao : list Z) (x y : list A) : Prop :=
  List.length y = List.length ao /\ forall p c, natural_number ao p c -> nth_error y c = nth_error x p.

(** Well-formed XML: nested elements. *)
Inductive content : list token -> Prop :=
| content_nil : content []
| content_text : forall i l, content l -> content (TText i :: l)
| content_element : forall g i inner l, content inner -> content l -> content (TOpen g i :: inner ++ TClose g :: l).
Definition document (l : list token) : Prop :=
  exists g i inner, l = TOpen g i :: inner ++ [TClose g] /\ content inner.

(** The variables a document lists, in order. *)
Definition listed (l : list token) : list (printed * string) :=
  flat_map (fun k => match k with TOpen Attribute (Entry t name) => [(t, name)] | _ => [] end) l.

(** The datasets its data items refer to, in order. *)
Definition referenced (l : list token) : list (printed * string) :=
  flat_map (fun k => match k with TText (Entry t name) => [(t, name)] | _ => [] end) l.

(** Cell shapes by dimension and number of vertices. *)
Definition shape_name (dim n : nat) : option string :=
  match dim, n with
  | 2, 3 => Some "Triangle"%string | 2, 4 => Some "Quadrilateral"%string
  | 3, 4 => Some "Tetrahedron"%string | 3, 5 => Some "Pyramid"%string
  | 3, 6 => Some "Wedge"%string | 3, 8 => Some "Hexahedron"%string
  | _, _ => None
  end.

(** C's %.5e of a time: six digits, rounded to nearest. *)
Local Open Scope R_scope.
Definition prints (t : R) (p : printed) : Prop :=
  (t = 0 /\ p = Printed false 0 0) \/
  (0 < t /\ pneg p = false /\ (100000 <= pdigits p < 1000000)%Z /\
   Rabs (t - IZR (pdigits p) * powerRZ 10 (pexp p - 5)) <= powerRZ 10 (pexp p - 5) / 2).
