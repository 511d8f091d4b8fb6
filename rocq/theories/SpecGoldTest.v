(** Specification vocabulary for the comparison with gold files. *)
From Coq Require Import Reals List Bool Ascii String.
From Verif Require Import Prelude RegOut SpecRegOut GoldTest.
Import ListNotations.
Local Open Scope string_scope.
Local Open Scope list_scope.
Local Open Scope R_scope.

(** What a regression file reports: blocks of named values. *)
Record block := { b_type : str; b_name : str; b_entries : list (str * str) }.

Definition blank (s : str) : Prop := forall a, In a s -> space a = true.
Definition trimmed (s : str) : Prop := forall a, hd_error s = Some a \/ hd_error (rev s) = Some a -> space a = false.

(** The text of a block, as TDycore writes it (src/tdyregression.c:241-270). *)
Definition title_line (b : block) (l : str) : Prop :=
  exists nl, (nl = [] \/ nl = [newline]) /\ l = lit "-- " ++ b_type b ++ lit ": " ++ b_name b ++ lit " --" ++ nl.
Definition entry_line (kv : str * str) (l : str) : Prop :=
  exists p q r, blank p /\ blank q /\ blank r /\ l = p ++ fst kv ++ lit ":" ++ q ++ snd kv ++ r.
Definition block_lines (b : block) (ls : list str) : Prop :=
  exists t es, ls = t :: es /\ title_line b t /\ Forall2 entry_line (b_entries b) es.
Definition file_lines (G : list block) (ls : list str) : Prop :=
  exists parts, ls = List.concat parts /\ Forall2 block_lines G parts.

Definition good_entry (kv : str * str) : Prop :=
  trimmed (fst kv) /\ ~ In ":"%char (fst kv) /\ hd_error (fst kv) <> Some "-"%char /\ fst kv <> lit "name" /\ fst kv <> lit "type"
  /\ snd kv <> [] /\ (forall a, In a (snd kv) -> space a = false) /\ ~ In ":"%char (snd kv).
Definition good_block (b : block) : Prop :=
  b_type b <> [] /\ (forall a, In a (b_type b) -> word a = true)
  /\ trimmed (b_name b) /\ ~ In newline (b_name b)
  /\ NoDup (map fst (b_entries b)) /\ (forall kv, In kv (b_entries b) -> good_entry kv).
Definition good_file (G : list block) : Prop := NoDup (map b_name G) /\ forall b, In b G -> good_block b.

(** The kinds of quantities that are given by numbers with a tolerance. *)
Definition title_of (c : category) : option string :=
  match c with
  | CConcentration => Some "concentration" | CGeneric => Some "generic" | CRate => Some "rate"
  | CVolumeFraction => Some "volume_fraction" | CPressure => Some "pressure" | CSaturation => Some "saturation"
  | CDisplacement => Some "displacement" | CStrain => Some "strain" | CStress => Some "stress"
  | _ => None
  end.
Definition kind (t : str) (c : category) : Prop := exists n, title_of c = Some n /\ lower t = lit n.

(** The same blocks with the same keys. *)
Definition same_shape (A B : list block) : Prop :=
  (forall n, In n (map b_name A) <-> In n (map b_name B))
  /\ forall a b, In a A -> In b B -> b_name a = b_name b -> forall k, In k (map fst (b_entries a)) <-> In k (map fst (b_entries b)).

(** A value [c] beside the gold value [g]. *)
Definition scale (g c : R) : R := if Req_EM_T g 0 then Rabs c else Rabs g.
Definition within (t : tol) (g c : R) : Prop :=
  (t_type t = lit "absolute" -> Rabs (g - c) <= t_value t)
  /\ (t_type t = lit "relative" -> Rabs (g - c) <= t_value t * scale g c)
  /\ (t_type t = lit "percent" -> 100 * Rabs (g - c) <= t_value t * scale g c).
Definition compared (t : tol) (g : R) : Prop := t_min t <= Rabs g <= t_max t.
Definition sound_tol (t : tol) : Prop :=
  0 <= t_value t /\ (t_type t = lit "absolute" \/ t_type t = lit "relative" \/ t_type t = lit "percent").

(** All pairs of values of two files with the same block and key. *)
Definition pairs (A B : list block) (P : block -> str -> str -> Prop) : Prop :=
  forall a b, In a A -> In b B -> b_name a = b_name b -> forall k g c, In (k, g) (b_entries a) -> In (k, c) (b_entries b) -> P a g c.
Definition values_agree (float_of : str -> option num) (tols : category -> tol) (A B : list block) : Prop :=
  pairs A B (fun a g c => forall k x y, kind (b_type a) k -> float_of g = Some (Fin x) -> float_of c = Some (Fin y) ->
               compared (tols k) x -> within (tols k) x y).
Definition values (A : list block) (P : str -> Prop) : Prop := forall b kv, In b A -> In kv (b_entries b) -> P (snd kv).
Definition kinds (A : list block) : Prop := forall b, In b A -> exists c, kind (b_type b) c.

(** Printing of numbers: [rnd x] is the number that is read back from the text of [x]. *)
Definition readable (float_of : str -> option num) (show : R -> str) (rnd : R -> R) : Prop :=
  forall x, show x <> [] /\ (forall a, In a (show x) -> space a = false) /\ ~ In ":"%char (show x) /\ float_of (show x) = Some (Fin (rnd x)).
Definition digit (a : ascii) : Prop := (48 <= nat_of_ascii a <= 57)%nat.
Definition decimal (show_id : nat -> str) : Prop :=
  (forall i j, show_id i = show_id j -> i = j) /\ forall i, show_id i <> [] /\ forall a, In a (show_id i) -> digit a.

(** A file that reports the fields [fs], with the values of the cells [ks]. *)
Definition reports (fs : list (quantity * list R)) (ks : list nat) (lines : list line) : Prop :=
  NoDup ks /\ NoDup (map fst fs) /\ exists parts, lines = List.concat parts /\ Forall2 (fun qf part => section (fst qf) (snd qf) ks part) fs parts.
(** The numbers reported of a field, side by side for two fields. *)
Definition reported (f f' : list R) (ks : list nat) (x x' : R) : Prop :=
  (greatest f x /\ greatest f' x') \/ (least f x /\ least f' x')
  \/ (x = sum f / INR (List.length f) /\ x' = sum f' / INR (List.length f'))
  \/ (exists k, In k ks /\ nth_error f k = Some x /\ nth_error f' k = Some x').
Definition category_for (q : quantity) : category := match q with LiquidPressure => CPressure | Temperature => CGeneric end.
Definition fields_agree (t : tol) (rnd : R -> R) (f f' : list R) (ks : list nat) : Prop :=
  forall x x', reported f f' ks x x' -> compared t (rnd x) -> within t (rnd x) (rnd x').
