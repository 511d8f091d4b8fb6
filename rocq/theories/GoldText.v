(** The text of a regression file: the fprintf calls of TDyRegressionOutput,
    src/tdyregression.c:241-270.  The conversions %21.13e and %9d are parameters apart from
    the padding. *)
From Coq Require Import Reals List Ascii String.
From Verif Require Import Prelude RegOut GoldTest.
Import ListNotations.
Local Open Scope string_scope.
Local Open Scope list_scope.

Section Text.
Context (show : R -> str) (show_id : nat -> str).
Definition pad (n : nat) (s : str) : str := repeat " "%char (n - List.length s) ++ s.
Definition show_fl (x : fl) : str := match x with Some x => show x | None => lit "nan" end.
Definition line_text (l : line) : str :=
  match l with
  | Title LiquidPressure => lit "-- PRESSURE: Liquid Pressure --" ++ [newline]
  | Title Temperature => lit "-- GENERIC: Temperature --" ++ [newline]
  | Max x => lit "      Max: " ++ pad 21 (show_fl x) ++ [newline]
  | Min x => lit "      Min: " ++ pad 21 (show_fl x) ++ [newline]
  | Mean x => lit "     Mean: " ++ pad 21 (show_fl x) ++ [newline]
  | Cell id x => pad 9 (show_id id) ++ lit ": " ++ pad 21 (show x) ++ [newline]
  end.
Definition text (ls : list line) : list str := map line_text ls.
End Text.
