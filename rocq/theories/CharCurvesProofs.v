(** Proofs about the scalar characteristic curves. *)
From Coq Require Import Reals Lra List.
From Coquelicot Require Import Coquelicot.
From Verif Require Import Prelude CharCurves SpecCurves.
Import ListNotations.
Local Open Scope R_scope.

(** ** Elementary facts *)

Lemma Rpower_pos x y : 0 < Rpower x y.
Proof. unfold Rpower; apply exp_pos. Qed.

Lemma exp_le a b : a <= b -> exp a <= exp b.
Proof. intros [H|H]; [left; now apply exp_increasing | right; now rewrite H]. Qed.

Lemma ln_le a b : 0 < a -> a <= b -> ln a <= ln b.
Proof. intros Ha [H|H]; [left; now apply ln_increasing | right; now rewrite H]. Qed.

Lemma Rpower_le_base a b y : 0 < a -> a <= b -> 0 <= y -> Rpower a y <= Rpower b y.
Proof.
  intros Ha Hab Hy; unfold Rpower; apply exp_le.
  apply Rmult_le_compat_l; [lra|now apply ln_le].
Qed.

Lemma Rpower_le_base_neg a b y : 0 < a -> a <= b -> y <= 0 -> Rpower b y <= Rpower a y.
Proof.
  intros Ha Hab Hy; unfold Rpower; apply exp_le.
  pose proof (ln_le a b Ha Hab). nra.
Qed.

Lemma Rpower_1_l y : Rpower 1 y = 1.
Proof. unfold Rpower; rewrite ln_1, Rmult_0_r; apply exp_0. Qed.

Lemma Rpower_le_1 a y : 0 < a <= 1 -> 0 <= y -> Rpower a y <= 1.
Proof. intros [H1 H2] Hy. rewrite <- (Rpower_1_l y). now apply Rpower_le_base. Qed.

Lemma Rpower_lt_1 a y : 0 < a < 1 -> 0 < y -> Rpower a y < 1.
Proof.
  intros [H1 H2] Hy. unfold Rpower. rewrite <- exp_0. apply exp_increasing.
  assert (ln a < 0) by (rewrite <- ln_1; now apply ln_increasing). nra.
Qed.

Lemma Rpower_neg_lt_1 o y : 1 < o -> 0 < y -> Rpower o (- y) < 1.
Proof.
  intros Ho Hy. unfold Rpower. rewrite <- exp_0. apply exp_increasing.
  assert (0 < ln o) by (rewrite <- ln_1; apply ln_increasing; lra). nra.
Qed.

(** ** Closed forms on the domain of interest *)

Definition g_val (m alpha Sr Pc : R) := (1 - Sr) * exp (- alpha * Pc / m) + Sr.
Definition g_d (m alpha Sr Pc : R) := (1 - Sr) * (alpha / m) * exp (- alpha * Pc / m).
Definition g_d2 (m alpha Sr Pc : R) := (1 - Sr) * (alpha / m) * (alpha / m) * exp (- alpha * Pc / m).

Lemma gardner_unsat n m alpha Sr Pc :
  m <> 0 -> 0 <= Pc ->
  gardner n m alpha Sr Pc = (Some (g_val m alpha Sr Pc), Some (g_d m alpha Sr Pc), Some (g_d2 m alpha Sr Pc)).
Proof.
  intros Hm HP. unfold gardner. destruct (Rlt_dec Pc 0); [lra|].
  rewrite !(fdiv_ok _ m Hm). unfold fl1, fl2, fbind, g_val, g_d, g_d2.
  f_equal; [f_equal|]; f_equal; field; assumption.
Qed.

Lemma gardner_sat n m alpha Sr Pc : Pc < 0 -> gardner n m alpha Sr Pc = (Some 1, Some 0, Some 0).
Proof. intros H; unfold gardner; destruct (Rlt_dec Pc 0); [reflexivity|lra]. Qed.

Definition vg_n (m : R) := 1 / (1 - m).
Definition vg_pan (m alpha Pc : R) := Rpower (Pc * alpha) (vg_n m).
Definition vg_val (m alpha Sr Pc : R) := (1 - Sr) * Rpower (1 + vg_pan m alpha Pc) (- m) + Sr.
Definition vg_d (m alpha Sr Pc : R) :=
  - (- m * vg_n m * alpha * vg_pan m alpha Pc / (Pc * alpha * Rpower (1 + vg_pan m alpha Pc) (m + 1))) * (1 - Sr).
Definition vg_d2 (m alpha Sr Pc : R) :=
  (1 - Sr) * (m * vg_n m * vg_pan m alpha Pc * Rpower (1 + vg_pan m alpha Pc) (- m - 2)
              * ((m * vg_n m + 1) * vg_pan m alpha Pc - vg_n m + 1) / Rpower Pc 2).

Lemma vg_pan_pos m alpha Pc : 0 < vg_pan m alpha Pc.
Proof. apply Rpower_pos. Qed.

Lemma vg_unsat m alpha Sr Pc :
  m < 1 -> 0 < alpha -> 0 < Pc ->
  van_genuchten m alpha Sr Pc = (Some (vg_val m alpha Sr Pc), Some (vg_d m alpha Sr Pc), Some (vg_d2 m alpha Sr Pc)).
Proof.
  intros Hm Ha HP. unfold van_genuchten. destruct (Rle_dec Pc 0); [lra|].
  rewrite (fdiv_ok 1 (1 - m)) by lra. cbn [fbind fl1].
  assert (Hpa : 0 < Pc * alpha) by nra.
  rewrite (fpow_pos (Pc * alpha) (1 / (1 - m)) Hpa). cbn [fbind fl1].
  fold (vg_n m). fold (vg_pan m alpha Pc).
  pose proof (vg_pan_pos m alpha Pc) as Hp.
  rewrite !(fpow_pos (1 + vg_pan m alpha Pc)) by lra. cbn [fbind fl1].
  rewrite (fpow_pos Pc 2) by lra. cbn [fbind fl1].
  rewrite fdiv_ok.
  2:{ pose proof (Rpower_pos (1 + vg_pan m alpha Pc) (m + 1)). nra. }
  rewrite fdiv_ok by (pose proof (Rpower_pos Pc 2); lra).
  cbn [fbind fl1]. reflexivity.
Qed.

Lemma vg_sat m alpha Sr Pc : Pc <= 0 -> van_genuchten m alpha Sr Pc = (Some 1, Some 0, Some 0).
Proof. intros H; unfold van_genuchten; destruct (Rle_dec Pc 0); [reflexivity|lra]. Qed.

(** ** Bounds and monotonicity (C01) *)

Lemma g_val_bounds m alpha Sr Pc :
  0 < m -> 0 < alpha -> 0 <= Sr < 1 -> 0 < Pc -> Sr < g_val m alpha Sr Pc < 1.
Proof.
  intros Hm Ha HS HP. unfold g_val.
  pose proof (exp_pos (- alpha * Pc / m)).
  assert (exp (- alpha * Pc / m) < 1).
  { rewrite <- exp_0. apply exp_increasing.
    assert (0 < alpha * Pc / m) by (apply Rdiv_lt_0_compat; nra).
    replace (- alpha * Pc / m) with (- (alpha * Pc / m)) by (field; lra). lra. }
  nra.
Qed.

Lemma g_val_0 m alpha Sr : g_val m alpha Sr 0 = 1.
Proof. unfold g_val. replace (- alpha * 0 / m) with 0 by (unfold Rdiv; ring). rewrite exp_0; ring. Qed.

Lemma g_val_mono m alpha Sr p q :
  0 < m -> 0 < alpha -> Sr <= 1 -> p <= q -> g_val m alpha Sr q <= g_val m alpha Sr p.
Proof.
  intros Hm Ha HS Hpq. unfold g_val.
  assert (exp (- alpha * q / m) <= exp (- alpha * p / m)).
  { apply exp_le. unfold Rdiv. pose proof (Rinv_0_lt_compat m Hm).
    apply Rmult_le_compat_r; [lra|]. nra. }
  nra.
Qed.

Lemma vg_val_bounds m alpha Sr Pc :
  0 < m < 1 -> 0 < alpha -> 0 <= Sr < 1 -> 0 < Pc -> Sr < vg_val m alpha Sr Pc < 1.
Proof.
  intros Hm Ha HS HP. unfold vg_val.
  pose proof (vg_pan_pos m alpha Pc).
  pose proof (Rpower_pos (1 + vg_pan m alpha Pc) (- m)).
  pose proof (Rpower_neg_lt_1 (1 + vg_pan m alpha Pc) m ltac:(lra) ltac:(lra)).
  nra.
Qed.

Lemma vg_n_pos m : m < 1 -> 0 < vg_n m.
Proof. intros; unfold vg_n; apply Rdiv_lt_0_compat; lra. Qed.

Lemma vg_val_mono m alpha Sr p q :
  0 < m < 1 -> 0 < alpha -> Sr <= 1 -> 0 < p -> p <= q -> vg_val m alpha Sr q <= vg_val m alpha Sr p.
Proof.
  intros Hm Ha HS Hp Hpq. unfold vg_val.
  assert (Hpan : vg_pan m alpha p <= vg_pan m alpha q).
  { unfold vg_pan. apply Rpower_le_base; [nra|nra|]. left; apply vg_n_pos; lra. }
  pose proof (vg_pan_pos m alpha p).
  pose proof (Rpower_le_base_neg (1 + vg_pan m alpha p) (1 + vg_pan m alpha q) (- m) ltac:(lra) ltac:(lra) ltac:(lra)).
  nra.
Qed.

(** ** Derivatives (C02) *)

Lemma is_derive_g_val m alpha Sr Pref P :
  m <> 0 -> is_derive (fun P => g_val m alpha Sr (Pref - P)) P (g_d m alpha Sr (Pref - P)).
Proof.
  intros Hm. unfold g_val, g_d. auto_derive; [auto|]. unfold Rminus, Rdiv. ring.
Qed.

Lemma is_derive_g_d m alpha Sr Pref P :
  m <> 0 -> is_derive (fun P => g_d m alpha Sr (Pref - P)) P (g_d2 m alpha Sr (Pref - P)).
Proof.
  intros Hm. unfold g_d, g_d2. auto_derive; [auto|]. unfold Rminus, Rdiv. ring.
Qed.

Lemma is_derive_Rpower_r (y x : R) : 0 < x -> is_derive (fun x => Rpower x y) x (y * Rpower x y / x).
Proof.
  intros Hx. unfold Rpower. auto_derive; [exact Hx|]. field. lra.
Qed.

Lemma Rpower_pred x y : 0 < x -> Rpower x (y - 1) = Rpower x y / x.
Proof.
  intros Hx. unfold Rminus. rewrite Rpower_plus, Rpower_Ropp, Rpower_1 by assumption. reflexivity.
Qed.

Lemma is_derive_vg_pan m alpha Pref P :
  m < 1 -> 0 < alpha -> P < Pref ->
  is_derive (fun P => vg_pan m alpha (Pref - P)) P (- vg_n m * vg_pan m alpha (Pref - P) / (Pref - P)).
Proof.
  intros Hm Ha HP. unfold vg_pan.
  evar_last.
  { apply (is_derive_comp (fun x => Rpower x (vg_n m)) (fun P => (Pref - P) * alpha)).
    - apply is_derive_Rpower_r. nra.
    - auto_derive; [auto|reflexivity]. }
  unfold scal; simpl; unfold mult; simpl. field. lra.
Qed.

Lemma is_derive_vg_val m alpha Sr Pref P :
  m < 1 -> 0 < alpha -> P < Pref ->
  is_derive (fun P => vg_val m alpha Sr (Pref - P)) P (vg_d m alpha Sr (Pref - P)).
Proof.
  intros Hm Ha HP.
  pose proof (is_derive_vg_pan m alpha Pref P Hm Ha HP) as Hpan.
  pose proof (vg_pan_pos m alpha (Pref - P)) as Hpos.
  assert (Hc : is_derive (fun P => Rpower (1 + vg_pan m alpha (Pref - P)) (- m)) P
     ((- vg_n m * vg_pan m alpha (Pref - P) / (Pref - P)) *
      (- m * Rpower (1 + vg_pan m alpha (Pref - P)) (- m) / (1 + vg_pan m alpha (Pref - P))))).
  { apply (is_derive_comp (fun x => Rpower x (- m)) (fun P => 1 + vg_pan m alpha (Pref - P))).
    - apply is_derive_Rpower_r. lra.
    - evar_last; [apply (is_derive_plus (fun _ => 1) (fun P => vg_pan m alpha (Pref - P)));
        [apply is_derive_const|exact Hpan]|].
      unfold plus, zero; simpl. ring. }
  unfold vg_val.
  evar_last.
  { apply (is_derive_plus (fun P => (1 - Sr) * Rpower (1 + vg_pan m alpha (Pref - P)) (- m)) (fun _ => Sr)).
    - apply (is_derive_scal (fun P => Rpower (1 + vg_pan m alpha (Pref - P)) (- m)) P (1 - Sr) _ Hc).
    - apply is_derive_const. }
  unfold plus, zero; simpl. unfold vg_d.
  assert (HR : Rpower (1 + vg_pan m alpha (Pref - P)) (m + 1) =
     (1 + vg_pan m alpha (Pref - P)) * / Rpower (1 + vg_pan m alpha (Pref - P)) (- m)).
  { rewrite Rpower_plus, Rpower_1 by lra.
    rewrite (Rpower_Ropp _ m). field. pose proof (Rpower_pos (1 + vg_pan m alpha (Pref - P)) m). lra. }
  rewrite HR. pose proof (Rpower_pos (1 + vg_pan m alpha (Pref - P)) (- m)).
  field. repeat split; lra.
Qed.

Lemma is_derive_vg_d m alpha Sr Pref P :
  m < 1 -> 0 < alpha -> P < Pref ->
  is_derive (fun P => vg_d m alpha Sr (Pref - P)) P (vg_d2 m alpha Sr (Pref - P)).
Proof.
  intros Hm Ha HP.
  pose proof (is_derive_vg_pan m alpha Pref P Hm Ha HP) as Hpan.
  pose proof (vg_pan_pos m alpha (Pref - P)) as Hpos.
  assert (Hc : is_derive (fun P => Rpower (1 + vg_pan m alpha (Pref - P)) (m + 1)) P
     ((- vg_n m * vg_pan m alpha (Pref - P) / (Pref - P)) *
      ((m + 1) * Rpower (1 + vg_pan m alpha (Pref - P)) (m + 1) / (1 + vg_pan m alpha (Pref - P))))).
  { apply (is_derive_comp (fun x => Rpower x (m + 1)) (fun P => 1 + vg_pan m alpha (Pref - P))).
    - apply is_derive_Rpower_r. lra.
    - evar_last; [apply (is_derive_plus (fun _ => 1) (fun P => vg_pan m alpha (Pref - P)));
        [apply is_derive_const|exact Hpan]|].
      unfold plus, zero; simpl. ring. }
  assert (Hq : is_derive (fun P => (Pref - P) * alpha) P (- alpha)).
  { auto_derive; [auto|ring]. }
  assert (Hden : is_derive (fun P => (Pref - P) * alpha * Rpower (1 + vg_pan m alpha (Pref - P)) (m + 1)) P
     (- alpha * Rpower (1 + vg_pan m alpha (Pref - P)) (m + 1) + (Pref - P) * alpha *
      ((- vg_n m * vg_pan m alpha (Pref - P) / (Pref - P)) *
      ((m + 1) * Rpower (1 + vg_pan m alpha (Pref - P)) (m + 1) / (1 + vg_pan m alpha (Pref - P)))))).
  { evar_last.
    { apply (is_derive_mult (fun P => (Pref - P) * alpha) (fun P => Rpower (1 + vg_pan m alpha (Pref - P)) (m + 1)));
      [exact Hq|exact Hc|intros; apply Rmult_comm]. }
    unfold plus, mult; simpl. reflexivity. }
  pose proof (Rpower_pos (1 + vg_pan m alpha (Pref - P)) (m + 1)) as Hr.
  assert (Hnz : (Pref - P) * alpha * Rpower (1 + vg_pan m alpha (Pref - P)) (m + 1) <> 0).
  { apply Rgt_not_eq. apply Rmult_lt_0_compat; [apply Rmult_lt_0_compat; lra|exact Hr]. }
  assert (Hquot := is_derive_div (fun P => vg_pan m alpha (Pref - P)) _ P _ _ Hpan Hden Hnz).
  assert (Hall := is_derive_scal _ P (m * vg_n m * alpha * (1 - Sr)) _ Hquot).
  eapply is_derive_ext; [|evar_last; [exact Hall|]].
  { intros t. simpl. unfold vg_d. unfold Rdiv. ring. }
  unfold vg_d2.
  set (pan := vg_pan m alpha (Pref - P)) in *. set (Pc := Pref - P) in *.
  assert (HPc : 0 < Pc) by (unfold Pc; lra).
  assert (H2 : Rpower Pc 2 = Pc * Pc).
  { replace 2 with (1 + 1) by ring. rewrite Rpower_plus, Rpower_1 by assumption. reflexivity. }
  rewrite H2.
  assert (H3 : Rpower (1 + pan) (- m - 2) = / (Rpower (1 + pan) (m + 1) * (1 + pan))).
  { replace (- m - 2) with (- ((m + 1) + 1)) by ring.
    rewrite Rpower_Ropp, Rpower_plus, Rpower_1 by lra. reflexivity. }
  rewrite H3. set (r := Rpower (1 + pan) (m + 1)) in *. set (n := vg_n m) in *.
  field. repeat split; lra.
Qed.

(** ** Saturation seen from the pressure side *)

Definition cv (c : sat_curve) (Sr Pc : R) : R :=
  match c with
  | Gardner n m alpha => g_val m alpha Sr Pc
  | VanGenuchten m alpha => vg_val m alpha Sr Pc
  end.
Definition cd (c : sat_curve) (Sr Pc : R) : R :=
  match c with
  | Gardner n m alpha => g_d m alpha Sr Pc
  | VanGenuchten m alpha => vg_d m alpha Sr Pc
  end.
Definition cd2 (c : sat_curve) (Sr Pc : R) : R :=
  match c with
  | Gardner n m alpha => g_d2 m alpha Sr Pc
  | VanGenuchten m alpha => vg_d2 m alpha Sr Pc
  end.

Lemma sat_at_unsat c Sr Pref P :
  admissible_sat c -> P < Pref ->
  sat_at c Sr Pref P = (Some (cv c Sr (Pref - P)), Some (cd c Sr (Pref - P)), Some (cd2 c Sr (Pref - P))).
Proof.
  intros Hc HP. unfold sat_at, saturation. destruct c; simpl in *.
  - apply gardner_unsat; lra.
  - apply vg_unsat; lra.
Qed.

Lemma sat_at_above c Sr Pref P :
  Pref < P -> sat_at c Sr Pref P = (Some 1, Some 0, Some 0).
Proof.
  intros HP. unfold sat_at, saturation. destruct c; [apply gardner_sat|apply vg_sat]; lra.
Qed.

Lemma S_at_ref c Sr Pref : admissible_sat c -> S_at c Sr Pref Pref = Some 1.
Proof.
  intros Hc. unfold S_at, sat_at, saturation. rewrite Rminus_eq_0. destruct c; simpl in Hc.
  - rewrite gardner_unsat by lra. simpl. now rewrite g_val_0.
  - rewrite vg_sat by lra. reflexivity.
Qed.

Lemma S_at_full c Sr Pref P : admissible_sat c -> Pref <= P -> S_at c Sr Pref P = Some 1.
Proof.
  intros Hc [H|H]; [|subst; now apply S_at_ref].
  unfold S_at; now rewrite sat_at_above.
Qed.

Lemma S_at_unsat c Sr Pref P :
  admissible_sat c -> P < Pref -> S_at c Sr Pref P = Some (cv c Sr (Pref - P)).
Proof. intros Hc H. unfold S_at; now rewrite sat_at_unsat. Qed.

Lemma cv_bounds c Sr Pc : admissible_sat c -> 0 <= Sr < 1 -> 0 < Pc -> Sr < cv c Sr Pc < 1.
Proof.
  intros Hc HS HP. destruct c; simpl in *; [apply g_val_bounds|apply vg_val_bounds]; lra.
Qed.

Lemma cv_Sr1 c Pc : cv c 1 Pc = 1.
Proof. destruct c; simpl; unfold g_val, vg_val; ring. Qed.

Lemma saturation_bounds c Sr Pref P :
  admissible_sat c -> 0 <= Sr <= 1 ->
  exists s, S_at c Sr Pref P = Some s /\ Sr <= s <= 1 /\
            (Pref <= P -> s = 1) /\ (P < Pref -> Sr < 1 -> Sr < s < 1).
Proof.
  intros Hc HS. destruct (Rle_lt_dec Pref P) as [H|H].
  - exists 1. rewrite (S_at_full c Sr Pref P Hc H). repeat split; try lra.
  - exists (cv c Sr (Pref - P)). rewrite (S_at_unsat c Sr Pref P Hc H).
    split; [reflexivity|].
    destruct (Rlt_le_dec Sr 1) as [HS1|HS1].
    + pose proof (cv_bounds c Sr (Pref - P) Hc ltac:(lra) ltac:(lra)). repeat split; try lra.
    + assert (Sr = 1) by lra; subst Sr. rewrite cv_Sr1. repeat split; lra.
Qed.

Lemma saturation_monotone c Sr Pref P Q s t :
  admissible_sat c -> 0 <= Sr <= 1 -> P <= Q ->
  S_at c Sr Pref P = Some s -> S_at c Sr Pref Q = Some t -> s <= t.
Proof.
  intros Hc HS HPQ HsP HsQ.
  destruct (Rle_lt_dec Pref Q) as [HQ|HQ].
  - rewrite (S_at_full c Sr Pref Q Hc HQ) in HsQ. injection HsQ as <-.
    destruct (saturation_bounds c Sr Pref P Hc HS) as (s' & E & B & _).
    rewrite E in HsP; injection HsP as <-. lra.
  - rewrite (S_at_unsat c Sr Pref Q Hc HQ) in HsQ.
    rewrite (S_at_unsat c Sr Pref P Hc) in HsP by lra.
    injection HsQ as <-; injection HsP as <-.
    destruct c; simpl in *; [apply g_val_mono|apply vg_val_mono]; lra.
Qed.

Lemma dS_at_unsat c Sr Pref P :
  admissible_sat c -> P < Pref -> dS_at c Sr Pref P = Some (cd c Sr (Pref - P)).
Proof. intros Hc H. unfold dS_at; now rewrite sat_at_unsat. Qed.
Lemma d2S_at_unsat c Sr Pref P :
  admissible_sat c -> P < Pref -> d2S_at c Sr Pref P = Some (cd2 c Sr (Pref - P)).
Proof. intros Hc H. unfold d2S_at; now rewrite sat_at_unsat. Qed.

Lemma saturation_derivatives c Sr Pref P :
  admissible_sat c -> P <> Pref ->
  exists d d2, dS_at c Sr Pref P = Some d /\ d2S_at c Sr Pref P = Some d2 /\
    has_derivative (S_at c Sr Pref) P d /\ has_derivative (dS_at c Sr Pref) P d2.
Proof.
  intros Hc HP. destruct (Rle_lt_dec Pref P) as [H|H].
  - assert (Hlt : Pref < P) by lra. exists 0, 0. unfold dS_at, d2S_at. rewrite sat_at_above by assumption.
    repeat split.
    + exists (fun _ => 1). split; [|apply (is_derive_const 1)].
      apply (filter_imp (fun y => Pref < y)); [|now apply locally_gt].
      intros y Hy. unfold S_at. now rewrite sat_at_above.
    + exists (fun _ => 0). split; [|apply (is_derive_const 0)].
      apply (filter_imp (fun y => Pref < y)); [|now apply locally_gt].
      intros y Hy. now rewrite sat_at_above.
  - exists (cd c Sr (Pref - P)), (cd2 c Sr (Pref - P)).
    rewrite dS_at_unsat, d2S_at_unsat by assumption. repeat split.
    + exists (fun P => cv c Sr (Pref - P)). split.
      * apply (filter_imp (fun y => y < Pref)); [|now apply locally_lt].
        intros y Hy. now rewrite S_at_unsat.
      * destruct c; simpl in *; [apply is_derive_g_val|apply is_derive_vg_val]; lra.
    + exists (fun P => cd c Sr (Pref - P)). split.
      * apply (filter_imp (fun y => y < Pref)); [|now apply locally_lt].
        intros y Hy. now rewrite dS_at_unsat.
      * destruct c; simpl in *; [apply is_derive_g_d|apply is_derive_vg_d]; lra.
Qed.

Lemma saturation_derivative_kink c Sr Pref :
  admissible_sat c ->
  exists d, dS_at c Sr Pref Pref = Some d /\
    (has_left_derivative (S_at c Sr Pref) Pref d \/ has_right_derivative (S_at c Sr Pref) Pref d).
Proof.
  intros Hc. destruct c as [n m alpha|m alpha]; simpl in Hc.
  - exists (g_d m alpha Sr (Pref - Pref)). split.
    + unfold dS_at, sat_at, saturation. rewrite gardner_unsat by lra. reflexivity.
    + left. exists (fun P => g_val m alpha Sr (Pref - P)). split.
      * intros y Hy. unfold S_at, sat_at, saturation. rewrite gardner_unsat by lra. reflexivity.
      * apply is_derive_g_val; lra.
  - exists 0. split.
    + unfold dS_at, sat_at, saturation. rewrite vg_sat by lra. reflexivity.
    + right. exists (fun _ => 1). split; [|apply (is_derive_const 1)].
      intros y Hy. unfold S_at, sat_at, saturation. rewrite vg_sat by lra. reflexivity.
Qed.

(** ** Relative permeability (C03) *)

Definition mu_t (m Se : R) := Rpower (1 - Rpower Se (1 / m)) m.
Definition mu_val (m Se : R) := sqrt Se * ((1 - mu_t m Se) * (1 - mu_t m Se)).
Definition mu_d (m Se : R) :=
  0.5 * mu_val m Se / Se +
  2 * Rpower Se (1 / m - 0.5) * Rpower (1 - Rpower Se (1 / m)) (m - 1) * (1 - mu_t m Se).

Lemma mu_a_bounds m Se : 0 < m -> 0 < Se < 1 -> 0 < Rpower Se (1 / m) < 1.
Proof.
  intros Hm HS. split; [apply Rpower_pos|]. apply Rpower_lt_1; [lra|].
  apply Rdiv_lt_0_compat; lra.
Qed.

Lemma mu_t_bounds m Se : 0 < m -> 0 < Se < 1 -> 0 < mu_t m Se < 1.
Proof.
  intros Hm HS. pose proof (mu_a_bounds m Se Hm HS). unfold mu_t.
  split; [apply Rpower_pos|]. apply Rpower_lt_1; lra.
Qed.

Lemma mualem_mid m Se :
  0 < m -> 0 < Se < 1 ->
  mualem_unsmoothed m Se = (Some (mu_val m Se), Some (mu_d m Se)).
Proof.
  intros Hm HS. unfold mualem_unsmoothed. destruct (Rle_dec 1 Se); [lra|].
  rewrite (fdiv_ok 1 m) by lra. cbn [fbind fl1 fl2].
  rewrite (fpow_pos Se (1 / m)) by lra. cbn [fbind fl1 fl2].
  pose proof (mu_a_bounds m Se Hm HS).
  rewrite !(fpow_pos (1 - Rpower Se (1 / m))) by lra.
  rewrite (fpow_pos Se) by lra. rewrite fsqrt_ok by lra. cbn [fbind fl1 fl2].
  rewrite fdiv_ok by lra. cbn [fbind fl1 fl2]. reflexivity.
Qed.

Lemma mualem_0 m : 0 < m -> fst (mualem_unsmoothed m 0) = Some 0.
Proof.
  intros Hm. unfold mualem_unsmoothed. destruct (Rle_dec 1 0); [lra|].
  rewrite (fdiv_ok 1 m) by lra. cbn [fbind fl1 fl2].
  rewrite (fpow_zero (1 / m)) by (apply Rdiv_lt_0_compat; lra). cbn [fbind fl1 fl2].
  rewrite !(fpow_pos (1 - 0)) by lra. rewrite fsqrt_ok by lra. cbn [fbind fl1 fl2 fst].
  rewrite sqrt_0. f_equal. ring.
Qed.

Lemma mualem_1 m Se : 1 <= Se -> mualem_unsmoothed m Se = (Some 1, Some 0).
Proof. intros H. unfold mualem_unsmoothed. destruct (Rle_dec 1 Se); [reflexivity|lra]. Qed.

Lemma irmay_mid m Se : 0 < Se < 1 -> irmay m Se = (Some (Rpower Se m), Some (Rpower Se (m - 1) * m)).
Proof.
  intros HS. unfold irmay. destruct (Rle_dec 1 Se); [lra|].
  rewrite !(fpow_pos Se) by lra. reflexivity.
Qed.

Lemma irmay_0 m : 0 < m -> fst (irmay m 0) = Some 0.
Proof.
  intros Hm. unfold irmay. destruct (Rle_dec 1 0); [lra|]. cbn [fst]. now apply fpow_zero.
Qed.

Lemma irmay_1 m Se : 1 <= Se -> irmay m Se = (Some 1, Some 0).
Proof. intros H. unfold irmay. destruct (Rle_dec 1 Se); [reflexivity|lra]. Qed.

Definition kr_val (c : rel_perm_curve) Se :=
  match c with Irmay m => Rpower Se m | Mualem_unsmoothed m => mu_val m Se end.
Definition kr_d (c : rel_perm_curve) Se :=
  match c with Irmay m => Rpower Se (m - 1) * m | Mualem_unsmoothed m => mu_d m Se end.

Lemma rel_perm_mid c Se :
  admissible_kr c -> 0 < Se < 1 -> rel_perm c Se = (Some (kr_val c Se), Some (kr_d c Se)).
Proof. destruct c; simpl; intros Hc HS; [now apply irmay_mid|now apply mualem_mid]. Qed.

Lemma rel_perm_0 c : admissible_kr c -> fst (rel_perm c 0) = Some 0.
Proof. destruct c; simpl; intros Hc; [now apply irmay_0|now apply mualem_0]. Qed.

Lemma rel_perm_1 c Se : 1 <= Se -> rel_perm c Se = (Some 1, Some 0).
Proof. destruct c; simpl; intros H; [now apply irmay_1|now apply mualem_1]. Qed.

Lemma mu_val_bounds m Se : 0 < m -> 0 < Se < 1 -> 0 < mu_val m Se < 1.
Proof.
  intros Hm HS. pose proof (mu_t_bounds m Se Hm HS).
  assert (0 < sqrt Se < 1).
  { split; [apply sqrt_lt_R0; lra|]. rewrite <- sqrt_1. apply sqrt_lt_1; lra. }
  unfold mu_val. set (u := 1 - mu_t m Se). assert (0 < u < 1) by (unfold u; lra).
  assert (0 < u * u < 1) by nra. nra.
Qed.

Lemma kr_val_bounds c Se : admissible_kr c -> 0 < Se < 1 -> 0 < kr_val c Se < 1.
Proof.
  destruct c; simpl; intros Hc HS; [|now apply mu_val_bounds].
  split; [apply Rpower_pos|]. apply Rpower_lt_1; lra.
Qed.

Lemma mu_val_mono m p q : 0 < m -> 0 < p -> p <= q -> q < 1 -> mu_val m p <= mu_val m q.
Proof.
  intros Hm Hp Hpq Hq.
  pose proof (mu_t_bounds m p Hm ltac:(lra)). pose proof (mu_t_bounds m q Hm ltac:(lra)).
  assert (Ht : mu_t m q <= mu_t m p).
  { unfold mu_t. pose proof (mu_a_bounds m p Hm ltac:(lra)). pose proof (mu_a_bounds m q Hm ltac:(lra)).
    assert (Rpower p (1 / m) <= Rpower q (1 / m)).
    { apply Rpower_le_base; [lra|lra|]. left; apply Rdiv_lt_0_compat; lra. }
    apply Rpower_le_base; lra. }
  assert (Hs : sqrt p <= sqrt q) by (apply sqrt_le_1_alt; lra).
  pose proof (sqrt_pos p). unfold mu_val.
  apply Rmult_le_compat; nra.
Qed.

Lemma kr_val_mono c p q : admissible_kr c -> 0 < p -> p <= q -> q < 1 -> kr_val c p <= kr_val c q.
Proof.
  destruct c; simpl; intros Hc Hp Hpq Hq; [|now apply mu_val_mono].
  apply Rpower_le_base; lra.
Qed.

Lemma rel_perm_bounds c Se :
  admissible_kr c -> 0 <= Se <= 1 ->
  exists k, fst (rel_perm c Se) = Some k /\ 0 <= k <= 1 /\ (Se = 0 -> k = 0) /\ (Se = 1 -> k = 1)
            /\ (0 < Se < 1 -> 0 < k < 1).
Proof.
  intros Hc HS. destruct (Req_dec Se 0) as [->|H0].
  { exists 0. rewrite rel_perm_0 by assumption. repeat split; try lra. }
  destruct (Req_dec Se 1) as [->|H1].
  { exists 1. rewrite rel_perm_1 by lra. repeat split; try lra. }
  assert (HS' : 0 < Se < 1) by lra.
  exists (kr_val c Se). rewrite rel_perm_mid by assumption.
  pose proof (kr_val_bounds c Se Hc HS'). repeat split; try lra.
Qed.

Lemma rel_perm_monotone c p q k l :
  admissible_kr c -> 0 <= p -> p <= q -> q <= 1 ->
  fst (rel_perm c p) = Some k -> fst (rel_perm c q) = Some l -> k <= l.
Proof.
  intros Hc Hp Hpq Hq Hk Hl.
  destruct (rel_perm_bounds c p Hc ltac:(lra)) as (k' & Ek & Bk & K0 & _). rewrite Ek in Hk; injection Hk as <-.
  destruct (rel_perm_bounds c q Hc ltac:(lra)) as (l' & El & Bl & _ & L1 & _). rewrite El in Hl; injection Hl as <-.
  destruct (Req_dec p 0) as [H0|H0]; [specialize (K0 H0); lra|].
  destruct (Req_dec q 1) as [H1|H1]; [specialize (L1 H1); lra|].
  rewrite rel_perm_mid in Ek, El by (assumption || lra). injection Ek as <-; injection El as <-.
  apply kr_val_mono; lra || assumption.
Qed.

Lemma is_derive_mu_t m Se :
  0 < m -> 0 < Se < 1 ->
  is_derive (mu_t m) Se (- Rpower Se (1 / m) / Se * (Rpower (1 - Rpower Se (1 / m)) (m - 1))).
Proof.
  intros Hm HS. pose proof (mu_a_bounds m Se Hm HS). unfold mu_t.
  evar_last.
  { apply (is_derive_comp (fun x => Rpower x m) (fun Se => 1 - Rpower Se (1 / m))).
    - apply is_derive_Rpower_r. lra.
    - apply (is_derive_minus (fun _ => 1) (fun Se => Rpower Se (1 / m))).
      + apply is_derive_const.
      + apply is_derive_Rpower_r. lra. }
  unfold scal, minus, plus, opp, zero; simpl. unfold mult; simpl.
  rewrite Rpower_pred by lra. field. repeat split; lra.
Qed.

Lemma Rpower_half x : 0 < x -> Rpower x 0.5 = sqrt x.
Proof.
  intros H. replace 0.5 with (/ 2) by lra. now apply Rpower_sqrt.
Qed.

Lemma is_derive_mu_val m Se : 0 < m -> 0 < Se < 1 -> is_derive (mu_val m) Se (mu_d m Se).
Proof.
  intros Hm HS. pose proof (is_derive_mu_t m Se Hm HS) as Ht.
  assert (Hs : is_derive sqrt Se (/ (2 * sqrt Se))).
  { apply is_derive_Reals. apply derivable_pt_lim_sqrt. lra. }
  assert (Hu : is_derive (fun x => 1 - mu_t m x) Se
                (- (- Rpower Se (1 / m) / Se * (Rpower (1 - Rpower Se (1 / m)) (m - 1))))).
  { evar_last; [apply (is_derive_minus (fun _ => 1) (mu_t m)); [apply is_derive_const|exact Ht]|].
    unfold minus, plus, opp, zero; simpl. ring. }
  unfold mu_val.
  evar_last.
  { apply (is_derive_mult sqrt (fun x => (1 - mu_t m x) * (1 - mu_t m x))); [exact Hs| |intros; apply Rmult_comm].
    apply (is_derive_mult (fun x => 1 - mu_t m x) (fun x => 1 - mu_t m x)); [exact Hu|exact Hu|intros; apply Rmult_comm]. }
  unfold plus, mult; simpl. unfold mu_d, mu_val.
  replace (Rpower Se (1 / m - 0.5)) with (Rpower Se (1 / m) / sqrt Se).
  2:{ unfold Rminus. rewrite Rpower_plus, Rpower_Ropp, Rpower_half by lra. reflexivity. }
  pose proof (sqrt_lt_R0 Se ltac:(lra)) as Hpos.
  assert (Hsq : Se = sqrt Se * sqrt Se) by (rewrite sqrt_sqrt; lra).
  set (r := sqrt Se) in *. set (a := Rpower Se (1 / m)) in *. set (q := Rpower (1 - a) (m - 1)) in *.
  set (t := mu_t m Se) in *. rewrite Hsq. replace 0.5 with (1 / 2) by lra. field. lra.
Qed.

Lemma rel_perm_derivative c Se :
  admissible_kr c -> 0 < Se < 1 ->
  exists d, snd (rel_perm c Se) = Some d /\ has_derivative (fun x => fst (rel_perm c x)) Se d.
Proof.
  intros Hc HS. exists (kr_d c Se). rewrite rel_perm_mid by assumption. split; [reflexivity|].
  exists (kr_val c). split.
  - apply (filter_imp (fun y => 0 < y /\ y < 1)).
    + intros y Hy. rewrite rel_perm_mid by assumption. reflexivity.
    + apply filter_and; [apply locally_gt|apply locally_lt]; lra.
  - destruct c; simpl in *; [|now apply is_derive_mu_val].
    evar_last; [apply is_derive_Rpower_r; lra|]. rewrite Rpower_pred by lra. field. lra.
Qed.

(** At a completely dry point the reported Mualem derivative is 0/0. *)
Lemma mualem_dry_derivative m : 0 < m -> snd (mualem_unsmoothed m 0) = None.
Proof.
  intros Hm. unfold mualem_unsmoothed. destruct (Rle_dec 1 0); [lra|]. cbn [snd].
  rewrite (fdiv_ok 1 m) by lra. cbn [fbind fl1 fl2].
  rewrite (fpow_zero (1 / m)) by (apply Rdiv_lt_0_compat; lra). cbn [fbind fl1 fl2].
  rewrite !(fpow_pos (1 - 0)) by lra. rewrite fsqrt_ok by lra. cbn [fbind fl1 fl2].
  unfold fdiv at 1. destruct (Req_EM_T 0 0); [reflexivity|lra].
Qed.

(** ** Cubic smoothing (C04) *)

Definition cub (c0 c1 c2 c3 x0 dx x : R) :=
  let t := (x - x0) / dx in c0 + t * (c1 + t * (c2 + t * c3)).
Definition cub_d (c0 c1 c2 c3 x0 dx x : R) :=
  let t := (x - x0) / dx in (c1 + t * (2 * c2 + t * 3 * c3)) / dx.

Lemma cubic_evaluate_ok c0 c1 c2 c3 x x0 dx :
  dx <> 0 -> cubic_evaluate c0 c1 c2 c3 x x0 dx = (Some (cub c0 c1 c2 c3 x0 dx x), Some (cub_d c0 c1 c2 c3 x0 dx x)).
Proof.
  intros Hd. unfold cubic_evaluate. rewrite (fdiv_ok (x - x0) dx Hd). cbn [fbind fl1].
  rewrite fdiv_ok by assumption. reflexivity.
Qed.

Lemma is_derive_cub c0 c1 c2 c3 x0 dx x :
  dx <> 0 -> is_derive (cub c0 c1 c2 c3 x0 dx) x (cub_d c0 c1 c2 c3 x0 dx x).
Proof. intros Hd. unfold cub, cub_d. auto_derive; [auto|]. field. assumption. Qed.

Lemma smoothing_coeffs_ends m x0 x1 x2 dx c0 c1 c2 c3 :
  smoothing_coeffs m x0 x1 x2 dx c0 c1 c2 c3 ->
  dx <> 0 /\
  mualem_unsmoothed m x1 = (Some (cub c0 c1 c2 c3 x0 dx x1), Some (cub_d c0 c1 c2 c3 x0 dx x1)) /\
  cub c0 c1 c2 c3 x0 dx x2 = 1 /\ cub_d c0 c1 c2 c3 x0 dx x2 = 0.
Proof.
  intros (A & Kr & dKr & HA & HK & HD). unfold cubic_matrix in HA.
  destruct (Req_EM_T dx 0) as [|Hdx]; [discriminate|]. injection HA as <-.
  unfold dgesv4_solution in HD. cbn [nth Nat.add Nat.mul] in HD.
  destruct HD as (H0 & H1 & H2 & H3).
  split; [assumption|]. rewrite HK. unfold cub, cub_d.
  set (t1 := (x1 - x0) / dx) in *. set (t2 := (x2 - x0) / dx) in *.
  split; [|split].
  - f_equal; f_equal.
    + rewrite <- H1. ring.
    + rewrite <- H3. unfold Rdiv. ring.
  - rewrite <- H0. ring.
  - rewrite <- H2. unfold Rdiv. ring.
Qed.

(** Existence and uniqueness of the coefficients: the system handed to LAPACK
    is non-singular. *)
Lemma cubic_system_solvable x0 x1 x2 dx b0 b1 b2 b3 :
  dx <> 0 -> x1 <> x2 ->
  exists A, cubic_matrix x0 x1 x2 dx = Some A /\
  exists c0 c1 c2 c3, dgesv4_solution A b0 b1 b2 b3 c0 c1 c2 c3.
Proof.
  intros Hdx H12. unfold cubic_matrix. destruct (Req_EM_T dx 0) as [|_]; [contradiction|].
  eexists; split; [reflexivity|].
  unfold dgesv4_solution. cbn [nth Nat.add Nat.mul].
  set (t1 := (x1 - x0) / dx). set (t2 := (x2 - x0) / dx).
  assert (Hh : t2 - t1 <> 0).
  { unfold t1, t2. intro H. apply H12.
    assert (E : x2 - x1 = ((x2 - x0) / dx - (x1 - x0) / dx) * dx) by (field; assumption).
    rewrite H in E. lra. }
  set (h := t2 - t1) in *.
  set (s := (b0 - b1) / h). set (d1 := b3 * dx). set (d2 := b2 * dx).
  (* Hermite form around t1: b1 + d1 u + p u^2 + q u^3, u = t - t1 *)
  set (p := (3 * s - 2 * d1 - d2) / h). set (q := (d1 + d2 - 2 * s) / (h * h)).
  exists (b1 - d1 * t1 + p * t1 * t1 - q * t1 * t1 * t1),
         (d1 - 2 * p * t1 + 3 * q * t1 * t1), (p - 3 * q * t1), q.
  assert (Et2 : t2 = t1 + h) by (unfold h; ring).
  rewrite Et2. unfold p, q, s, d1, d2. repeat split; field; auto.
Qed.

Lemma cubic_system_unique x0 x1 x2 dx A b0 b1 b2 b3 c0 c1 c2 c3 e0 e1 e2 e3 :
  x1 <> x2 -> cubic_matrix x0 x1 x2 dx = Some A ->
  dgesv4_solution A b0 b1 b2 b3 c0 c1 c2 c3 -> dgesv4_solution A b0 b1 b2 b3 e0 e1 e2 e3 ->
  c0 = e0 /\ c1 = e1 /\ c2 = e2 /\ c3 = e3.
Proof.
  intros H12 HA Hc He. unfold cubic_matrix in HA.
  destruct (Req_EM_T dx 0) as [|Hdx]; [discriminate|]. injection HA as <-.
  unfold dgesv4_solution in Hc, He. cbn [nth Nat.add Nat.mul] in Hc, He.
  set (t1 := (x1 - x0) / dx) in *. set (t2 := (x2 - x0) / dx) in *.
  assert (Hh : t2 - t1 <> 0).
  { unfold t1, t2. intro H. apply H12.
    assert (E : x2 - x1 = ((x2 - x0) / dx - (x1 - x0) / dx) * dx) by (field; assumption).
    rewrite H in E. lra. }
  destruct Hc as (C0 & C1 & C2 & C3), He as (E0 & E1 & E2 & E3).
  set (a0 := c0 - e0). set (a1 := c1 - e1). set (a2 := c2 - e2). set (a3 := c3 - e3).
  assert (D0 : a0 + a1 * t2 + a2 * (t2 * t2) + a3 * (t2 * t2 * t2) = 0) by (unfold a0, a1, a2, a3; lra).
  assert (D1 : a0 + a1 * t1 + a2 * (t1 * t1) + a3 * (t1 * t1 * t1) = 0) by (unfold a0, a1, a2, a3; lra).
  assert (D2 : a1 + 2 * a2 * t2 + 3 * a3 * (t2 * t2) = 0).
  { apply (Rmult_eq_reg_r (/ dx)); [|now apply Rinv_neq_0_compat].
    unfold a1, a2, a3. unfold Rdiv in C2, E2. lra. }
  assert (D3 : a1 + 2 * a2 * t1 + 3 * a3 * (t1 * t1) = 0).
  { apply (Rmult_eq_reg_r (/ dx)); [|now apply Rinv_neq_0_compat].
    unfold a1, a2, a3. unfold Rdiv in C3, E3. lra. }
  set (h := t2 - t1) in *. assert (Et2 : t2 = t1 + h) by (unfold h; ring). rewrite Et2 in *.
  assert (G1 : h * (a1 + 2 * a2 * t1 + a2 * h + a3 * (3 * t1 * t1 + 3 * t1 * h + h * h)) = 0) by lra.
  apply Rmult_integral in G1. destruct G1 as [G1|G1]; [contradiction|].
  assert (G2 : h * (2 * a2 + 6 * a3 * t1 + 3 * a3 * h) = 0) by lra.
  apply Rmult_integral in G2. destruct G2 as [G2|G2]; [contradiction|].
  assert (G3 : h * (a2 + 3 * a3 * t1 + a3 * h) = 0) by lra.
  apply Rmult_integral in G3. destruct G3 as [G3|G3]; [contradiction|].
  assert (G4 : a3 * h = 0) by lra. apply Rmult_integral in G4. destruct G4 as [G4|G4]; [|contradiction].
  assert (a2 = 0) by (rewrite G4 in G3; lra).
  assert (a1 = 0) by (rewrite G4, H in D3; lra).
  assert (a0 = 0) by (rewrite G4, H, H0 in D1; lra).
  unfold a0, a1, a2, a3 in *. repeat split; lra.
Qed.

(** Gluing two differentiable pieces with equal value and slope. *)
Lemma is_derive_glue (f g h : R -> R) (a d : R) :
  is_derive f a d -> is_derive g a d -> f a = g a ->
  (forall x, x <= a -> h x = f x) -> (forall x, a < x -> h x = g x) ->
  is_derive h a d.
Proof.
  intros Hf Hg Hfg Hle Hgt.
  apply is_derive_Reals. apply is_derive_Reals in Hf, Hg.
  intros eps Heps. destruct (Hf eps Heps) as [df Hdf]. destruct (Hg eps Heps) as [dg Hdg].
  assert (Hm : 0 < Rmin df dg) by (apply Rmin_pos; apply cond_pos).
  exists (mkposreal _ Hm). intros x Hx0 Hx. simpl in Hx.
  assert (Rabs x < df) by (eapply Rlt_le_trans; [exact Hx|apply Rmin_l]).
  assert (Rabs x < dg) by (eapply Rlt_le_trans; [exact Hx|apply Rmin_r]).
  rewrite (Hle a (Rle_refl a)).
  destruct (Rle_lt_dec (a + x) a) as [Hs|Hs].
  - rewrite (Hle _ Hs). now apply Hdf.
  - rewrite (Hgt _ Hs), Hfg. now apply Hdg.
Qed.

Lemma mualem_smoothed_C1 m x0 x1 x2 dx c0 c1 c2 c3 :
  0 < m -> 0 < x1 < 1 ->
  smoothing_coeffs m x0 x1 x2 dx c0 c1 c2 c3 ->
  exists d, snd (mualem m x0 x1 dx c0 c1 c2 c3 x1) = Some d /\
    has_derivative (fun Se => fst (mualem m x0 x1 dx c0 c1 c2 c3 Se)) x1 d.
Proof.
  intros Hm H1 Hs. destruct (smoothing_coeffs_ends _ _ _ _ _ _ _ _ _ Hs) as (Hdx & E & _).
  exists (mu_d m x1). rewrite (mualem_mid m x1 Hm H1) in E. injection E as Ev Ed.
  assert (Hlow : forall y, 0 < y <= x1 -> mualem m x0 x1 dx c0 c1 c2 c3 y = (Some (mu_val m y), Some (mu_d m y))).
  { intros y Hy. unfold mualem. destruct (Rlt_dec x1 y); [lra|]. apply mualem_mid; lra. }
  assert (Hhigh : forall y, x1 < y -> mualem m x0 x1 dx c0 c1 c2 c3 y =
            (Some (cub c0 c1 c2 c3 x0 dx y), Some (cub_d c0 c1 c2 c3 x0 dx y))).
  { intros y Hy. unfold mualem. destruct (Rlt_dec x1 y); [|lra]. now apply cubic_evaluate_ok. }
  split; [now rewrite Hlow by lra|].
  exists (fun y => if Rle_dec y x1 then mu_val m y else cub c0 c1 c2 c3 x0 dx y). split.
  - apply (filter_imp (fun y => 0 < y)); [|apply locally_gt; lra].
    intros y Hy. destruct (Rle_dec y x1).
    + now rewrite Hlow by lra.
    + now rewrite Hhigh by lra.
  - apply (is_derive_glue (mu_val m) (cub c0 c1 c2 c3 x0 dx)).
    + now apply is_derive_mu_val.
    + rewrite Ed. now apply is_derive_cub.
    + exact Ev.
    + intros x Hx. destruct (Rle_dec x x1); [reflexivity|lra].
    + intros x Hx. destruct (Rle_dec x x1); [lra|reflexivity].
Qed.

Lemma mualem_smoothed_end m x0 x1 x2 dx c0 c1 c2 c3 :
  x1 < x2 -> smoothing_coeffs m x0 x1 x2 dx c0 c1 c2 c3 ->
  mualem m x0 x1 dx c0 c1 c2 c3 x2 = (Some 1, Some 0).
Proof.
  intros H12 Hs. destruct (smoothing_coeffs_ends _ _ _ _ _ _ _ _ _ Hs) as (Hdx & _ & E1 & E2).
  unfold mualem. destruct (Rlt_dec x1 x2); [|lra].
  rewrite cubic_evaluate_ok by assumption. now rewrite E1, E2.
Qed.

Lemma mualem_smoothed_derivative m x0 x1 x2 dx c0 c1 c2 c3 Se :
  0 < m -> 0 < x1 < 1 -> 0 < Se ->
  smoothing_coeffs m x0 x1 x2 dx c0 c1 c2 c3 ->
  exists d, snd (mualem m x0 x1 dx c0 c1 c2 c3 Se) = Some d /\
    has_derivative (fun Se => fst (mualem m x0 x1 dx c0 c1 c2 c3 Se)) Se d.
Proof.
  intros Hm H1 HSe Hs.
  destruct (Rtotal_order Se x1) as [H|[->|H]].
  - exists (mu_d m Se). split.
    + unfold mualem. destruct (Rlt_dec x1 Se); [lra|]. rewrite mualem_mid by lra. reflexivity.
    + exists (mu_val m). split; [|apply is_derive_mu_val; lra].
      apply (filter_imp (fun y => 0 < y /\ y < x1)).
      * intros y Hy. unfold mualem. destruct (Rlt_dec x1 y); [lra|]. rewrite mualem_mid by lra. reflexivity.
      * apply filter_and; [apply locally_gt|apply locally_lt]; lra.
  - now apply mualem_smoothed_C1 with x2.
  - destruct (smoothing_coeffs_ends _ _ _ _ _ _ _ _ _ Hs) as (Hdx & _).
    exists (cub_d c0 c1 c2 c3 x0 dx Se). split.
    + unfold mualem. destruct (Rlt_dec x1 Se); [|lra]. rewrite cubic_evaluate_ok by assumption. reflexivity.
    + exists (cub c0 c1 c2 c3 x0 dx). split; [|now apply is_derive_cub].
      apply (filter_imp (fun y => x1 < y)); [|now apply locally_gt].
      intros y Hy. unfold mualem. destruct (Rlt_dec x1 y); [|lra]. rewrite cubic_evaluate_ok by assumption. reflexivity.
Qed.

(** Bounds on the smoothing interval, under the usual slope condition for a
    monotone cubic (slope at the start at most three times the secant slope). *)
Lemma cub_monotone_bounds m x0 x1 x2 dx c0 c1 c2 c3 Kr dKr x :
  x1 < x2 -> smoothing_coeffs m x0 x1 x2 dx c0 c1 c2 c3 ->
  mualem_unsmoothed m x1 = (Some Kr, Some dKr) ->
  Kr <= 1 -> 0 <= dKr -> dKr * (x2 - x1) <= 3 * (1 - Kr) -> x1 <= x <= x2 ->
  Kr <= cub c0 c1 c2 c3 x0 dx x <= 1.
Proof.
  intros H12 Hs HK HKr HdKr Hslope Hx.
  destruct (smoothing_coeffs_ends _ _ _ _ _ _ _ _ _ Hs) as (Hdx & E & E1 & E2).
  rewrite HK in E. injection E as Ev Ed.
  set (h := x2 - x1) in *. set (u := (x - x1) / h).
  assert (Hh : 0 < h) by (unfold h; lra).
  assert (Hu : 0 <= u <= 1).
  { unfold u; split.
    - apply Rmult_le_pos; [lra|left; now apply Rinv_0_lt_compat].
    - apply (Rmult_le_reg_r h); [assumption|]. unfold Rdiv. rewrite Rmult_assoc, Rinv_l by lra. unfold h; lra. }
  (* Hermite representation of the cubic *)
  assert (Herm : cub c0 c1 c2 c3 x0 dx x =
      Kr * (1 + 2 * u) * (1 - u) * (1 - u) + dKr * h * u * (1 - u) * (1 - u) + u * u * (3 - 2 * u)).
  { assert (Ex : x = x1 + u * h) by (unfold u; field; lra).
    replace (u * u * (3 - 2 * u)) with (cub c0 c1 c2 c3 x0 dx x2 * (u * u * (3 - 2 * u))
        - cub_d c0 c1 c2 c3 x0 dx x2 * h * u * u * (1 - u)) by (rewrite E1, E2; ring).
    rewrite Ev, Ed, Ex. unfold cub, cub_d. replace x2 with (x1 + h) by (unfold h; ring).
    field. assumption. }
  rewrite Herm. clear Herm. clearbody u.
  set (w := dKr * h) in *. assert (0 <= w) by (unfold w; nra). clearbody w.
  split.
  - (* >= Kr *)
    assert (Hkey : 0 <= (1 - Kr) * (u * u * (3 - 2 * u)) + w * u * (1 - u) * (1 - u)).
    { apply Rplus_le_le_0_compat.
      - apply Rmult_le_pos; [lra|]. apply Rmult_le_pos; nra.
      - repeat apply Rmult_le_pos; lra. }
    nra.
  - assert (Hw : w * (u * (1 - u) * (1 - u)) <= 3 * (1 - Kr) * (u * (1 - u) * (1 - u))).
    { apply Rmult_le_compat_r; [|assumption]. repeat apply Rmult_le_pos; lra. }
    assert (Hq : 3 * (1 - Kr) * (u * (1 - u) * (1 - u)) <= (1 - Kr) * ((1 + 2 * u) * (1 - u) * (1 - u))).
    { assert (0 <= (1 - Kr) * ((1 - u) * (1 - u) * (1 - u))).
      { repeat apply Rmult_le_pos; lra. }
      nra. }
    nra.
Qed.

Lemma smoothing_determined m x0 x1 x2 dx :
  0 < m -> 0 < x1 < 1 -> x1 < x2 -> dx <> 0 ->
  (exists c0 c1 c2 c3, smoothing_coeffs m x0 x1 x2 dx c0 c1 c2 c3) /\
  (forall c0 c1 c2 c3 e0 e1 e2 e3,
     smoothing_coeffs m x0 x1 x2 dx c0 c1 c2 c3 -> smoothing_coeffs m x0 x1 x2 dx e0 e1 e2 e3 ->
     c0 = e0 /\ c1 = e1 /\ c2 = e2 /\ c3 = e3).
Proof.
  intros Hm H1 H12 Hdx. split.
  - destruct (cubic_system_solvable x0 x1 x2 dx 1 (mu_val m x1) 0 (mu_d m x1) Hdx ltac:(lra))
      as (A & HA & c0 & c1 & c2 & c3 & HD).
    exists c0, c1, c2, c3, A, (mu_val m x1), (mu_d m x1). repeat split; try assumption; try apply HD.
    now apply mualem_mid.
  - intros c0 c1 c2 c3 e0 e1 e2 e3 (A & Kr & dKr & HA & HK & HD) (A' & Kr' & dKr' & HA' & HK' & HD').
    rewrite HA in HA'; injection HA' as <-. rewrite HK in HK'; injection HK' as <- <-.
    apply (cubic_system_unique x0 x1 x2 dx A 1 Kr 0 dKr); try assumption. lra.
Qed.

Lemma smoothing_junction m x0 x1 x2 dx c0 c1 c2 c3 :
  smoothing_coeffs m x0 x1 x2 dx c0 c1 c2 c3 ->
  cubic_evaluate c0 c1 c2 c3 x1 x0 dx = mualem_unsmoothed m x1 /\
  mualem m x0 x1 dx c0 c1 c2 c3 x1 = mualem_unsmoothed m x1.
Proof.
  intros Hs. destruct (smoothing_coeffs_ends _ _ _ _ _ _ _ _ _ Hs) as (Hdx & E & _).
  split.
  - rewrite cubic_evaluate_ok by assumption. now rewrite E.
  - unfold mualem. destruct (Rlt_dec x1 x1); [lra|reflexivity].
Qed.

Lemma mualem_smoothed_bounds m x0 x1 x2 dx c0 c1 c2 c3 Kr dKr Se :
  x1 < x2 -> smoothing_coeffs m x0 x1 x2 dx c0 c1 c2 c3 ->
  mualem_unsmoothed m x1 = (Some Kr, Some dKr) ->
  Kr <= 1 -> 0 <= dKr -> dKr * (x2 - x1) <= 3 * (1 - Kr) -> x1 < Se <= x2 ->
  exists k, fst (mualem m x0 x1 dx c0 c1 c2 c3 Se) = Some k /\ Kr <= k <= 1.
Proof.
  intros H12 Hs HK H1 H2 H3 HSe.
  destruct (smoothing_coeffs_ends _ _ _ _ _ _ _ _ _ Hs) as (Hdx & _).
  exists (cub c0 c1 c2 c3 x0 dx Se). split.
  - unfold mualem. destruct (Rlt_dec x1 Se); [|lra]. rewrite cubic_evaluate_ok by assumption. reflexivity.
  - eapply cub_monotone_bounds; try eassumption. lra.
Qed.
