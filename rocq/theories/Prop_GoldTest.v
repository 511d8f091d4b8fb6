(** C106: what it means that a regression test passes. *)
From Coq Require Import Reals ZArith List Bool Arith Ascii String Lia Lra.
From Verif Require Import Prelude Arrays Regression RegOut SpecRegOut RegOutProofs GoldTest GoldText SpecGoldTest GoldTestProofs GoldTextProofs.
Import ListNotations.
Local Open Scope string_scope.
Local Open Scope list_scope.
Local Open Scope nat_scope.

(** For files of finite numbers: the test passes exactly if both files have the same blocks with
    the same keys and every value whose gold value lies within the thresholds agrees with it
    within the tolerance of its block.  Missing: values that are not finite (below), blocks of
    type solution and discrete, several values in a line. *)
Theorem C106_verdict_partial : forall float_of int_of tols perf G C gold current,
  good_file G -> good_file C -> file_lines G gold -> file_lines C current -> kinds G -> (forall c, sound_tol (tols c)) ->
  values G (fun v => exists x, float_of v = Some (Fin x)) -> values C (fun v => exists x, float_of v = Some (Fin x)) ->
  exists r, check_gold float_of int_of tols perf None None (Some current) (Some gold) = Ok r
  /\ (r = false <-> same_shape G C /\ values_agree float_of tols G C).
Proof. exact verdict_finite. Qed.
Print Assumptions C106_verdict_partial.

(** For files written by TDycore: the test passes exactly if the same cells are printed and the
    greatest, least and mean value of every field and its values in these cells agree. *)
Theorem C106_reports : forall float_of int_of tols perf show show_id rnd, readable float_of show rnd -> decimal show_id ->
  forall fs fs' ks ks' L L', reports fs ks L -> reports fs' ks' L' -> map fst fs = map fst fs' -> fs <> [] -> (forall c, sound_tol (tols c)) ->
  exists r, check_gold float_of int_of tols perf None None (Some (text show show_id L')) (Some (text show show_id L)) = Ok r
  /\ (r = false <-> (forall k, In k ks <-> In k ks') /\ forall q f f', In (q, f) fs -> In (q, f') fs' -> fields_agree (tols (category_for q)) rnd f f' ks).
Proof. intros float_of int_of tols perf show show_id rnd HR HD. exact (runs_verdict float_of int_of tols perf show show_id rnd HR HD). Qed.
Print Assumptions C106_reports.

(** Two runs with one unknown per cell, from their solutions to the verdict. *)
Theorem C106_runs : forall float_of int_of tols perf show show_id rnd, readable float_of show rnd -> decimal show_id -> (forall c, sound_tol (tols c)) ->
  forall nf nf' req req' U U', 0 < req -> 0 < req' -> U <> [] -> U' <> [] -> (forall u, In u U -> u <> []) -> (forall u, In u U' -> u <> []) ->
  exists L L' ks ks' r, Regression_file MRichards nf req U = Ok L /\ Regression_file MRichards nf' req' U' = Ok L'
  /\ section LiquidPressure (List.concat U) ks L /\ section LiquidPressure (List.concat U') ks' L'
  /\ check_gold float_of int_of tols perf None None (Some (text show show_id L')) (Some (text show show_id L)) = Ok r
  /\ (r = false <-> (forall k, In k ks <-> In k ks') /\ fields_agree (tols CPressure) rnd (List.concat U) (List.concat U') ks).
Proof.
  intros float_of int_of tols perf show show_id rnd HR HD ST nf nf' req req' U U' H1 H2 H3 H4 H5 H6.
  destruct (one_field MRichards nf req U ltac:(discriminate) H1 H3 H5) as (ks & L & E & S & N & _).
  destruct (one_field MRichards nf' req' U' ltac:(discriminate) H2 H4 H6) as (ks' & L' & E' & S' & N' & _).
  assert (RP : forall V k l, section LiquidPressure (List.concat V) k l -> NoDup k -> reports [(LiquidPressure, List.concat V)] k l).
  { intros V k l SV NV. split; [exact NV|]. split; [repeat constructor; intros []|]. exists [l]. split; [symmetry; apply app_nil_r|]. constructor; [exact SV|constructor]. }
  destruct (C106_reports float_of int_of tols perf show show_id rnd HR HD _ _ _ _ _ _ (RP U ks L S N) (RP U' ks' L' S' N') eq_refl ltac:(discriminate) ST) as [r [ER HV]].
  exists L, L', ks, ks', r. do 5 (split; [assumption|]). rewrite HV. split; intros [K A]; (split; [exact K|]).
  - apply (A LiquidPressure); left; reflexivity.
  - intros q f f' [F|[]] [F'|[]]. injection F as <- <-. injection F' as <-. exact A.
Qed.
Print Assumptions C106_runs.

(** A missing file makes the test fail. *)
Theorem C106_missing : forall float_of int_of tols perf current gold, current = None \/ gold = None ->
  check_gold float_of int_of tols perf None None current gold = Ok true.
Proof. intros float_of int_of tols perf current gold H. exact (missing float_of int_of tols perf None None (current, gold) eq_refl eq_refl H). Qed.
Print Assumptions C106_missing.

(** A value that is not the text of a number makes the test fail, in either file, and so does
    a tolerance of unknown type. *)
Theorem C106_unreadable : forall float_of int_of tols perf G C gold current,
  good_file G -> good_file C -> file_lines G gold -> file_lines C current -> kinds G ->
  forall a b k g c, In a G -> In b C -> b_name a = b_name b -> In (k, g) (b_entries a) -> In (k, c) (b_entries b) ->
  float_of g = None \/ float_of c = None \/
  (forall cat, kind (b_type a) cat -> t_type (tols cat) <> lit "absolute" /\ t_type (tols cat) <> lit "relative" /\ t_type (tols cat) <> lit "percent") ->
  check_gold float_of int_of tols perf None None (Some current) (Some gold) = Ok true.
Proof.
  intros float_of int_of tols perf G C gold current GG GC FG FC KG a b k g c Ha Hb EN Hg Hc HU.
  destruct (verdict float_of int_of tols perf G C gold current GG GC FG FC KG) as [r [E H]]. rewrite E. f_equal.
  destruct r; [reflexivity|]. exfalso. destruct (proj1 H eq_refl) as [_ P].
  specialize (P a b Ha Hb EN k g c Hg Hc []). destruct (KG a Ha) as [cat HK].
  unfold compare_values in P. rewrite (measured_kind _ _ HK) in P. unfold as_float in P.
  destruct (float_of g) as [x|]; [|discriminate P]. destruct (float_of c) as [y|]; [|discriminate P].
  destruct HU as [HU|[HU|HU]]; try discriminate HU. destruct (HU cat HK) as [U1 [U2 U3]].
  cbn [bind] in P. rewrite !seqb_neq in P by assumption. discriminate P.
Qed.
Print Assumptions C106_unreadable.

(** A run whose results are all nan passes every test that has the same blocks and keys: no
    comparison with nan is true, in particular not the one that reports a failure. *)
Theorem C106_nan_refuted : forall float_of int_of tols perf G C gold current,
  good_file G -> good_file C -> file_lines G gold -> file_lines C current -> kinds G -> (forall c, sound_tol (tols c)) -> same_shape G C ->
  values G (fun v => exists x, float_of v = Some x) -> values C (fun v => float_of v = Some NaN) ->
  check_gold float_of int_of tols perf None None (Some current) (Some gold) = Ok false.
Proof. exact verdict_nan. Qed.
Print Assumptions C106_nan_refuted.

(** The setting skip_check_regression leaves out the comparison whatever its value is, also
    with "False" or "no": the text that is not true stays a text, which counts as true. *)
Theorem C106_skip_refuted : forall float_of int_of tols perf current gold,
  check_gold float_of int_of tols perf None (Some (lit "False")) current gold = Ok false
  /\ forall a s, check_gold float_of int_of tols perf None (Some (a :: s)) current gold = Ok false.
Proof.
  intros float_of int_of tols perf current gold. split; [apply (skipped float_of int_of tols perf "F"%char (lit "alse") (current, gold))|].
  intros a s. exact (skipped float_of int_of tols perf a s (current, gold)).
Qed.
Print Assumptions C106_skip_refuted.

(** The tolerances: those of the test go before those of the configuration file and these
    before the built-in ones; thresholds that are not given are the built-in ones.  By
    default numbers may differ by 1e-12. *)
Theorem C106_tolerances : forall test cfg c, c <> CResidual ->
  (forall r, test c = Some r \/ (test c = None /\ cfg c = Some r) ->
     t_value (set_criteria test cfg c) = r_value r /\ t_type (set_criteria test cfg c) = r_type r
     /\ t_min (set_criteria test cfg c) = (match r_min r with Some x => x | None => 0 end)%R
     /\ forall x, r_max r = Some x -> t_max (set_criteria test cfg c) = x)
  /\ (test c = None -> cfg c = None -> title_of c <> None ->
      forall x y, (within (set_criteria test cfg c) x y <-> Rabs (x - y) <= / 10 ^ 12)%R
        /\ (Rabs x <= 2 ^ 1023 -> compared (set_criteria test cfg c) x)%R).
Proof.
  intros test cfg c NR. split.
  - intros r H.
    assert (E : set_criteria test cfg c = set_from r (default_tol c)).
    { unfold set_criteria. destruct H as [-> | [-> ->]]; destruct c; congruence || reflexivity. }
    rewrite E. split; [reflexivity|]. split; [reflexivity|]. split; [destruct c; reflexivity|]. intros x EX. cbn [set_from t_max]. rewrite EX. reflexivity.
  - intros ET EC EN x y.
    assert (E : set_criteria test cfg c = default_tol CGeneric).
    { unfold set_criteria. rewrite ET, EC. destruct c; try reflexivity; destruct EN; reflexivity. }
    rewrite E. cbn [default_tol]. split.
    + unfold within. cbn [t_type t_value]. split; [intros [H _]; apply H; reflexivity|]. intros H. split; [auto|]. split; discriminate.
    + intros H. unfold compared. cbn [t_min t_max]. split; [apply Rabs_pos|]. apply Rle_trans with (1 := H). unfold float_max.
      assert (0 < 2 ^ 1023)%R by (apply pow_lt; lra). assert (/ 2 ^ 52 <= / 2)%R.
      { apply Rinv_le_contravar; [lra|]. replace (2 ^ 52)%R with (2 * 2 ^ 51)%R by reflexivity. assert (1 <= 2 ^ 51)%R by (apply pow_R1_Rle; lra). lra. }
      rewrite <- (Rmult_1_l (2 ^ 1023)) at 1. apply Rmult_le_compat_r; lra.
Qed.
Print Assumptions C106_tolerances.

(** A type of tolerance that is not in small letters is accepted when the configuration is read,
    but then every comparison fails, even of equal values. *)
Theorem C106_case_refuted : forall float_of int_of tols c name ty v, kind ty c -> t_type (tols c) = lit "Relative" ->
  failures (compare_values float_of int_of tols name ty v v) = 1.
Proof.
  intros float_of int_of tols c name ty v HK E. unfold compare_values. rewrite (measured_kind _ _ HK). unfold as_float. destruct (float_of v); [|reflexivity].
  cbn [bind]. rewrite E. reflexivity.
Qed.
Print Assumptions C106_case_refuted.

(** Whole numbers must be equal by default. *)
Theorem C106_discrete : forall float_of int_of tols name ty p c a b, lower ty = lit "discrete" -> contains (lit "Mean") name = false ->
  int_of p = Some a -> int_of c = Some b -> tols CDiscrete = default_tol CDiscrete -> (Rabs (IZR a) <= 2 ^ 63 - 1)%R ->
  failures (compare_values float_of int_of tols name ty p c) = 0 <-> a = b.
Proof. exact discrete. Qed.
Print Assumptions C106_discrete.

(** Examples: numbers that are printed as 0.0 or 1.0, and nan. *)
Definition toy_float (s : str) : option num :=
  if seqb s (lit "0.0") then Some (Fin 0) else if seqb s (lit "1.0") then Some (Fin 1) else if seqb s (lit "nan") then Some NaN else None.
Definition toy_show (x : R) : str := if Rle_dec x 0 then lit "0.0" else lit "1.0".
Definition toy_round (x : R) : R := if Rle_dec x 0 then 0%R else 1%R.
Definition toy_id (n : nat) : str := repeat "1"%char (S n).
Definition no_int (s : str) : option Z := None.
Lemma toy_readable : readable toy_float toy_show toy_round.
Proof.
  intros x. unfold toy_show, toy_round. destruct (Rle_dec x 0); (split; [discriminate|]); (split; [|split; [|reflexivity]]).
  all: try (intros a Ha; cbn in Ha; repeat (destruct Ha as [<-|Ha]; [reflexivity|]); destruct Ha).
  all: intros H; cbn in H; repeat (destruct H as [H|H]; [discriminate|]); destruct H.
Qed.
Lemma toy_decimal : decimal toy_id.
Proof.
  split.
  - intros i j H. apply (f_equal (@List.length ascii)) in H. unfold toy_id in H. rewrite !repeat_length in H. lia.
  - intros i. split; [discriminate|]. intros a Ha. apply repeat_spec in Ha. subst. unfold digit. vm_compute. lia.
Qed.
Lemma toy_sound : forall c, sound_tol (default_tol c).
Proof.
  assert (0 < / 10 ^ 12)%R by (apply Rinv_0_lt_compat, pow_lt; lra).
  intros c. split; [destruct c; cbn [default_tol t_value]; lra|]. destruct c; cbn [default_tol t_type]; auto.
Qed.
(** A run with pressure 1 fails against one with pressure 0; each passes against itself. *)
Example C106_runs_example : forall x, exists L L' r, Regression_file MRichards 1 1 [[0]]%R = Ok L /\ Regression_file MRichards 1 1 [[x]] = Ok L'
  /\ check_gold toy_float no_int default_tol false None None (Some (text toy_show toy_id L')) (Some (text toy_show toy_id L)) = Ok r
  /\ ((x <= 0)%R -> r = false) /\ ((0 < x)%R -> r = true).
Proof.
  intros x. destruct (C106_runs toy_float no_int default_tol false toy_show toy_id toy_round toy_readable toy_decimal toy_sound 1 1 1 1 [[0%R]] [[x]])
    as (L & L' & ks & ks' & r & E & E' & S & S' & ER & HV); try lia; try discriminate.
  { intros u [<-|[]]; discriminate. } { intros u [<-|[]]; discriminate. }
  exists L, L', r. split; [exact E|]. split; [exact E'|]. split; [exact ER|].
  assert (ONE : forall y k l, section LiquidPressure (List.concat [[y]]) k l -> Regression_file MRichards 1 1 [[y]] = Ok l -> k = [0]).
  { intros y k l (mx & mn & xs & F & _ & _ & X) R1. cbn in R1. injection R1 as <-. injection F as _ _ _ F.
    inversion X as [|k0 x0 kr xr E0 X0]; subst; [discriminate|]. cbn in F. injection F as <- <- F. destruct X0; [reflexivity|discriminate]. }
  pose proof (ONE _ _ _ S E) as K1. pose proof (ONE _ _ _ S' E') as K2. subst ks ks'.
  assert (P : (0 < / 10 ^ 12)%R /\ (/ 10 ^ 12 < 1)%R).
  { split; [apply Rinv_0_lt_compat, pow_lt; lra|]. rewrite <- Rinv_1. apply Rinv_lt_contravar; [rewrite Rmult_1_l; apply pow_lt; lra|]. apply Rlt_pow_R1; [lra|lia]. }
  assert (Z : toy_round 0 = 0%R) by (unfold toy_round; destruct (Rle_dec 0 0); lra).
  split; intros Hx.
  - apply HV. split; [tauto|]. intros u u' RP _.
    assert (EU : u = 0%R /\ u' = x).
    { destruct RP as [[[A _] [B _]]|[[[A _] [B _]]|[[A B]|(k & Ik & A & B)]]].
      - destruct A as [<-|[]], B as [<-|[]]. auto.
      - destruct A as [<-|[]], B as [<-|[]]. auto.
      - cbn in A, B. lra.
      - destruct Ik as [<-|[]]. injection A as <-. injection B as <-. auto. }
    destruct EU as [-> ->]. rewrite Z. unfold toy_round. destruct (Rle_dec x 0); [|lra]. apply (proj1 (proj2 (C106_tolerances (fun _ => None) (fun _ => None) CPressure ltac:(discriminate)) eq_refl eq_refl ltac:(discriminate) 0%R 0%R)).
    rewrite Rminus_0_r, Rabs_R0. lra.
  - destruct r; [reflexivity|]. exfalso. destruct (proj1 HV eq_refl) as [_ FA].
    assert (W : within (default_tol CPressure) (toy_round 0) (toy_round x)).
    { apply FA; [right; right; right; exists 0; cbn; auto|]. rewrite Z.
      apply (proj2 (C106_tolerances (fun _ => None) (fun _ => None) CPressure ltac:(discriminate)) eq_refl eq_refl ltac:(discriminate) 0%R 0%R). rewrite Rabs_R0. apply pow_le. lra. }
    apply (proj1 (proj2 (C106_tolerances (fun _ => None) (fun _ => None) CPressure ltac:(discriminate)) eq_refl eq_refl ltac:(discriminate) _ _)) in W.
    rewrite Z in W. unfold toy_round in W. destruct (Rle_dec x 0); [lra|]. replace (0 - 1)%R with (- (1))%R in W by lra. rewrite Rabs_Ropp, Rabs_R1 in W. lra.
Qed.
(** A file with nan passes. *)
Example C106_nan_example :
  check_gold toy_float no_int default_tol false None None
    (Some [lit "-- PRESSURE: Liquid Pressure --" ++ [newline]; lit "      Max:      nan" ++ [newline]])
    (Some [lit "-- PRESSURE: Liquid Pressure --" ++ [newline]; lit "      Max:      1.0" ++ [newline]]) = Ok false.
Proof.
  pose (B := fun v => [{| b_type := lit "PRESSURE"; b_name := lit "Liquid Pressure"; b_entries := [(lit "Max", lit v)] |}]).
  assert (GE : forall v, v = "nan" \/ v = "1.0" -> good_file (B v)).
  { intros v Hv. split; [repeat constructor; intros []|]. intros b [<-|[]]. split; [discriminate|]. split.
    - intros a Ha; cbn in Ha; repeat (destruct Ha as [<-|Ha]; [reflexivity|]); destruct Ha.
    - split; [intros a [H|H]; injection H as <-; reflexivity|]. split; [intros H; cbn in H; repeat (destruct H as [H|H]; [discriminate|]); destruct H|].
      split; [repeat constructor; intros []|]. intros kv [<-|[]]. unfold good_entry. cbn [fst snd].
      split; [intros a [H|H]; injection H as <-; reflexivity|]. split; [intros H; cbn in H; repeat (destruct H as [H|H]; [discriminate|]); destruct H|].
      do 3 (split; [discriminate|]). split; [destruct Hv as [-> | ->]; discriminate|]. split.
      + intros a Ha; destruct Hv as [-> | ->]; cbn in Ha; repeat (destruct Ha as [<-|Ha]; [reflexivity|]); destruct Ha.
      + intros H; destruct Hv as [-> | ->]; cbn in H; repeat (destruct H as [H|H]; [discriminate|]); destruct H. }
  assert (FL : forall v, file_lines (B v) [lit "-- PRESSURE: Liquid Pressure --" ++ [newline]; lit "      Max: " ++ lit "     " ++ lit v ++ [newline]]).
  { intros v. eexists [_]. split; [symmetry; apply app_nil_r|]. constructor; [|constructor]. eexists; eexists. split; [reflexivity|]. split.
    - exists [newline]. split; [right; reflexivity|reflexivity].
    - constructor; [|constructor]. exists (lit "      "), (lit "      "), [newline]. cbn [fst snd].
      split; [intros a Ha; cbn in Ha; repeat (destruct Ha as [<-|Ha]; [reflexivity|]); destruct Ha|].
      split; [intros a Ha; cbn in Ha; repeat (destruct Ha as [<-|Ha]; [reflexivity|]); destruct Ha|].
      split; [intros a [<-|[]]; reflexivity|reflexivity]. }
  apply (C106_nan_refuted toy_float no_int default_tol false (B "1.0") (B "nan")).
  - apply GE; auto.
  - apply GE; auto.
  - exact (FL "1.0").
  - exact (FL "nan").
  - intros b [<-|[]]. exists CPressure. eexists. split; reflexivity.
  - exact toy_sound.
  - split; [reflexivity|]. intros a b [<-|[]] [<-|[]] _ k. reflexivity.
  - intros b kv [<-|[]] [<-|[]]. eexists. reflexivity.
  - intros b kv [<-|[]] [<-|[]]. reflexivity.
Qed.
