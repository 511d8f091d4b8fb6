(** Model of the comparison of a regression file with its gold file:
    regression_tests/regression_tests.py, class RegressionTest, lines 75-136 (tolerances),
    406-424 (_check_gold), 468-541 (_compare_regression_files), 779-1029 (_get_sections to
    _compare_discrete) and 1090-1144 (settings and _set_criteria).
    Files are lists of lines as readlines gives them, with characters of one byte; a line
    break occurs at the end of a line only.  float() and int() are parameters (the float of a
    text may be infinite or nan); arithmetic is that of the real numbers.  The criteria of a
    configuration file are given as parsed (_validate_criteria); their numbers are finite.
    Not modelled: the comparison of other files, restarts and realisations. *)
From Coq Require Import Reals ZArith List Bool Arith Ascii String.
From Verif Require Import Prelude.
Import ListNotations.
Local Open Scope string_scope.
Local Open Scope list_scope.
Local Open Scope nat_scope.

Definition str := list ascii.
Definition lit : string -> str := list_ascii_of_string.
Definition seqb (a b : str) : bool := if list_eq_dec ascii_dec a b then true else false.

(** str.isspace, characters of words, str.lower on ASCII characters. *)
Definition space (a : ascii) : bool :=
  let n := nat_of_ascii a in ((9 <=? n) && (n <=? 13)) || ((28 <=? n) && (n <=? 32)).
Definition word (a : ascii) : bool :=
  let n := nat_of_ascii a in
  ((48 <=? n) && (n <=? 57)) || ((65 <=? n) && (n <=? 90)) || (n =? 95) || ((97 <=? n) && (n <=? 122)).
Definition newline : ascii := "010"%char.
Definition lower_char (a : ascii) : ascii :=
  let n := nat_of_ascii a in if (65 <=? n) && (n <=? 90) then ascii_of_nat (n + 32) else a.
Definition lower (s : str) : str := map lower_char s.

Fixpoint drop (p : ascii -> bool) (s : str) : str :=
  match s with [] => [] | a :: s' => if p a then drop p s' else s end.
Fixpoint take (p : ascii -> bool) (s : str) : str :=
  match s with [] => [] | a :: s' => if p a then a :: take p s' else [] end.
(** str.strip() *)
Definition strip (s : str) : str := rev (drop space (rev (drop space s))).
(** str.split(':') *)
Fixpoint split_colon (s : str) : list str :=
  match s with
  | [] => [[]]
  | a :: s' => if Ascii.eqb a ":" then [] :: split_colon s'
               else match split_colon s' with w :: ws => (a :: w) :: ws | [] => [[a]] end
  end.
(** str.split() *)
Fixpoint split_space (s : str) : list str :=
  match s with
  | [] => []
  | a :: s' =>
      if space a then split_space s'
      else match s' with
           | [] => [[a]]
           | b :: _ => if space b then [a] :: split_space s'
                       else match split_space s' with w :: ws => (a :: w) :: ws | [] => [[a]] end
           end
  end.
Fixpoint prefix (p s : str) : bool :=
  match p, s with [], _ => true | _, [] => false | a :: p', b :: s' => Ascii.eqb a b && prefix p' s' end.
(** re.search of a plain text *)
Fixpoint contains (p s : str) : bool := prefix p s || match s with [] => false | _ :: s' => contains p s' end.

(** Line 788: two dashes, space, a word, a colon, any text (the name), space, two dashes at the
    end of the line. *)
Definition name_re (line : str) : option (str * str) :=
  match line with
  | a :: b :: s =>
      if Ascii.eqb a "-" && Ascii.eqb b "-" then
        match take space s, take word (drop space s), drop word (drop space s) with
        | _ :: _, _ :: _, c :: rest =>
            if Ascii.eqb c ":" then
              let back := match rev rest with n :: r => if Ascii.eqb n newline then r else n :: r | [] => [] end in
              match back with
              | d :: e :: w :: g =>
                  if Ascii.eqb d "-" && Ascii.eqb e "-" && space w && forallb (fun x => negb (Ascii.eqb x newline)) g
                  then Some (take word (drop space s), rev g) else None
              | _ => None
              end
            else None
        | _, _, _ => None
        end
      else None
  | _ => None
  end.

(** Dictionaries keep the order of insertion. *)
Section Dict.
Context {V : Type}.
Fixpoint put (k : str) (v : V) (d : list (str * V)) : list (str * V) :=
  match d with [] => [(k, v)] | (k', v') :: d' => if seqb k k' then (k', v) :: d' else (k', v') :: put k v d' end.
Fixpoint get (k : str) (d : list (str * V)) : option V :=
  match d with [] => None | (k', v') :: d' => if seqb k k' then Some v' else get k d' end.
Definition has (k : str) (d : list (str * V)) : bool := match get k d with Some _ => true | None => false end.
End Dict.

Definition sect := list (str * str).

(** Lines 779-811 *)
Definition save (s : sect) (secs : list (str * sect)) : list (str * sect) :=
  match get (lit "name") s with Some n => put n s secs | None => secs end.
Fixpoint sections_from (output : list str) (secs : list (str * sect)) (s : sect) : outcome (list (str * sect)) :=
  match output with
  | [] => Ok (save s secs)
  | line :: rest =>
      match name_re line with
      | Some (data_type, name) => sections_from rest (save s secs) [(lit "name", strip name); (lit "type", data_type)]
      | None =>
          match split_colon line with
          | name :: value :: _ => sections_from rest secs (put (strip name) (strip value) s)
          | _ => Err
          end
      end
  end.
Definition get_sections (output : list str) : outcome (list (str * sect)) := sections_from output [] [].

(** Numbers of Python: finite, infinite, nan. *)
Inductive num := Fin (x : R) | Inf (positive : bool) | NaN.
Definition nabs (a : num) : num := match a with Fin x => Fin (Rabs x) | Inf _ => Inf true | NaN => NaN end.
Definition nsub (a b : num) : num :=
  match a, b with
  | Fin x, Fin y => Fin (x - y)
  | NaN, _ | _, NaN => NaN
  | Inf p, Inf q => if Bool.eqb p q then NaN else Inf p
  | Inf p, Fin _ => Inf p
  | Fin _, Inf q => Inf (negb q)
  end.
Definition positive (x : R) : bool := if Rlt_dec 0 x then true else false.
(** Division by a number that is not zero *)
Definition ndiv (a b : num) : num :=
  match a, b with
  | Fin x, Fin y => Fin (x / y)
  | NaN, _ | _, NaN => NaN
  | Inf _, Inf _ => NaN
  | Inf p, Fin y => Inf (Bool.eqb p (positive y))
  | Fin _, Inf _ => Fin 0
  end.
Definition nscale (c : R) (a : num) : num := match a with Fin x => Fin (x * c) | Inf p => Inf p | NaN => NaN end.
Definition is_zero (a : num) : bool := match a with Fin x => if Req_EM_T x 0 then true else false | _ => false end.
(** a <= b and a > b for a number b that is finite *)
Definition nle (a : R) (b : num) : bool := match b with Fin y => if Rle_dec a y then true else false | Inf p => p | NaN => false end.
Definition ngt (a : num) (b : R) : bool := match a with Fin x => if Rlt_dec b x then true else false | Inf p => p | NaN => false end.
Definition nle_R (a : num) (b : R) : bool := match a with Fin x => if Rle_dec x b then true else false | Inf p => negb p | NaN => false end.

(** Lines 77-93 *)
Inductive category := CTime | CConcentration | CGeneric | CDiscrete | CRate | CVolumeFraction | CPressure | CSaturation
  | CDisplacement | CStrain | CStress | CResidual.
Record tol := { t_value : R; t_type : str; t_min : R; t_max : R }.
(** Lines 121-136; sys.float_info.max and sys.maxsize *)
Definition float_max : R := ((2 - / 2 ^ 52) * 2 ^ 1023)%R.
Definition default_tol (c : category) : tol :=
  match c with
  | CTime => {| t_value := 5; t_type := lit "percent"; t_min := 0; t_max := float_max |}
  | CDiscrete => {| t_value := 0; t_type := lit "absolute"; t_min := 0; t_max := 2 ^ 63 - 1 |}
  | _ => {| t_value := / 10 ^ 12; t_type := lit "absolute"; t_min := 0; t_max := float_max |}
  end.
(** Lines 1124-1144, for the categories of lines 1100-1122: the criteria of the test, of the
    configuration file, and the defaults.  The type keeps its case (line 1180). *)
Record criteria := { r_value : R; r_type : str; r_min : option R; r_max : option R }.
Definition set_from (r : criteria) (t : tol) : tol :=
  {| t_value := r_value r; t_type := r_type r;
     t_min := match r_min r with Some x => x | None => t_min t end;
     t_max := match r_max r with Some x => x | None => t_max t end |}.
Definition set_criteria (test cfg : category -> option criteria) (c : category) : tol :=
  match c with
  | CResidual => default_tol c
  | _ => match test c with
         | Some r => set_from r (default_tol c)
         | None => match cfg c with Some r => set_from r (default_tol c) | None => default_tol c end
         end
  end.

Section Compare.
Context (float_of : str -> option num) (int_of : str -> option Z) (tols : category -> tol) (check_performance : bool).

Definition as_float (s : str) : outcome num := match float_of s with Some x => Ok x | None => Err end.
Definition as_int (s : str) : outcome num := match int_of s with Some z => Ok (Fin (IZR z)) | None => Err end.

(** Lines 955-996 *)
Definition compare_solution (name previous current : str) : outcome (num * num * tol) :=
  match split_colon name with
  | _ :: param :: _ =>
      let param := strip param in
      if seqb param (lit "Time (seconds)") then do p <- as_float previous; do c <- as_float current; Ok (p, c, tols CTime)
      else if seqb param (lit "Time Steps") then do p <- as_int previous; do c <- as_int current; Ok (p, c, tols CDiscrete)
      else if seqb param (lit "Newton Iterations") then do p <- as_int previous; do c <- as_int current; Ok (p, c, tols CDiscrete)
      else if seqb param (lit "Solver Iterations") then do p <- as_int previous; do c <- as_int current; Ok (p, c, tols CDiscrete)
      else if seqb param (lit "Time Step Cuts") then do p <- as_int previous; do c <- as_int current; Ok (p, c, tols CDiscrete)
      else if seqb param (lit "Solution 2-Norm") then do p <- as_float previous; do c <- as_float current; Ok (p, c, tols CGeneric)
      else if seqb param (lit "Residual 2-Norm") then do p <- as_float previous; do c <- as_float current; Ok (p, c, tols CResidual)
      else Err
  | _ => Err
  end.
(** Lines 998-1029 *)
Definition compare_discrete (name previous current : str) : outcome (num * num * tol) :=
  if contains (lit "Mean") name then do p <- as_float previous; do c <- as_float current; Ok (p, c, tols CGeneric)
  else do p <- as_int previous; do c <- as_int current; Ok (p, c, tols CDiscrete).

(** Lines 888-902 *)
Definition measured (key : str) : option category :=
  if seqb key (lit "concentration") then Some CConcentration
  else if seqb key (lit "generic") then Some CGeneric
  else if seqb key (lit "rate") then Some CRate
  else if seqb key (lit "volume_fraction") then Some CVolumeFraction
  else if seqb key (lit "pressure") then Some CPressure
  else if seqb key (lit "saturation") then Some CSaturation
  else if seqb key (lit "displacement") then Some CDisplacement
  else if seqb key (lit "strain") then Some CStrain
  else if seqb key (lit "stress") then Some CStress
  else None.

(** Lines 877-953: 1 for a failure *)
Definition compare_values (name data_type previous current : str) : outcome nat :=
  let key := lower data_type in
  do pct <- match measured key with
            | Some c => do p <- as_float previous; do q <- as_float current; Ok (p, q, tols c)
            | None => if seqb key (lit "solution") then compare_solution name previous current
                      else if seqb key (lit "discrete") then compare_discrete name previous current
                      else Err
            end;
  let '(p, c, t) := pct in
  let ratio := if negb (is_zero p) then nabs (ndiv (nsub p c) p)
               else if negb (is_zero c) then nabs (ndiv (nsub p c) c)
               else Fin 0 in
  do delta <- (if seqb (t_type t) (lit "absolute") then Ok (nabs (nsub p c))
               else if seqb (t_type t) (lit "relative") then Ok ratio
               else if seqb (t_type t) (lit "percent") then Ok (nscale 100 ratio)
               else Err);
  Ok (if nle (t_min t) (nabs p) && nle_R (nabs p) (t_max t) then (if ngt delta (t_value t) then 1 else 0) else 0).

Definition total (l : list nat) : nat := fold_right Nat.add 0 l.
Definition one_if (b : bool) : nat := if b then 1 else 0.
(** An exception counts as one failure. *)
Definition failures (o : outcome nat) : nat := match o with Ok n => n | _ => 1 end.

(** Lines 813-875 *)
Definition compare_key (name data_type : str) (gold current : sect) (k : str) : nat :=
  if seqb k (lit "name") || seqb k (lit "type") then 0
  else match get k gold, get k current with
       | Some g, Some c =>
           let g := split_space g in
           let c := split_space c in
           if negb (List.length g =? List.length c) then 1
           else total (map (fun gc => failures (compare_values (name ++ lit ":" ++ k) data_type (fst gc) (snd gc))) (combine g c))
       | _, _ => 0
       end.
Definition compare_sections (gold current : sect) : outcome nat :=
  match get (lit "name") gold, get (lit "name") current with
  | Some name, Some name' =>
      if negb (seqb name name') then Err
      else match get (lit "type") gold with
           | None => Err
           | Some data_type =>
               if negb check_performance && seqb (lower data_type) (lit "solution") then Ok 0
               else Ok (total (map (fun kv => one_if (negb (has (fst kv) current))) gold)
                        + total (map (fun kv => one_if (negb (has (fst kv) gold))) current)
                        + total (map (fun kv => compare_key name data_type gold current (fst kv)) gold))
           end
  | _, _ => Err
  end.

(** Lines 468-541: true if the test fails *)
Definition compare_regression_files (current gold : option (list str)) : outcome bool :=
  match gold, current with
  | Some gold_output, Some current_output =>
      do gs <- get_sections gold_output;
      do cs <- get_sections current_output;
      Ok (0 <? total (map (fun s => one_if (negb (has (fst s) cs))) gs)
               + total (map (fun s => one_if (negb (has (fst s) gs))) cs)
               + total (map (fun s => match get (fst s) cs with Some c => failures (compare_sections (snd s) c) | None => 0 end) gs))
  | _, _ => Ok true
  end.

(** Lines 1072-1089: the setting of a test that leaves out a comparison.  The text stays as it
    is unless it starts with T, t, Y or y. *)
Inductive setting := PyNone | PyTrue | PyText (s : str).
Definition read_setting (s : option str) : outcome setting :=
  match s with
  | None => Ok PyNone
  | Some [] => Err
  | Some (a :: r) => Ok (if existsb (Ascii.eqb a) ["T"; "t"; "Y"; "y"]%char then PyTrue else PyText (a :: r))
  end.
Definition truth (s : setting) : bool := match s with PyNone => false | PyTrue => true | PyText t => negb (seqb t []) end.

(** Lines 406-424 *)
Definition check_gold (skip_gold skip_regression : option str) (current gold : option (list str)) : outcome bool :=
  do g <- read_setting skip_gold;
  do r <- read_setting skip_regression;
  if truth g then Ok false
  else if truth r then Ok false
  else compare_regression_files current gold.
End Compare.
