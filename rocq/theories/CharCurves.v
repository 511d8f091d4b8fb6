(** Model of the scalar characteristic curves in
    src/materials/tdycharacteristiccurves.c.

    Simplifications: PetscReal is [fl] (see Prelude.v).  The optional output
    pointers are modelled as always present, which is how every caller in the
    library uses them; absence only suppresses the corresponding output. *)
From Coq Require Import Reals Lra.
From Verif Require Import Prelude.
Local Open Scope R_scope.

(** PressureSaturation_Gardner, src/materials/tdycharacteristiccurves.c:641-661.
    Result: (S, dS_dP, d2S_dP2). *)
Definition gardner (n m alpha Sr Pc : R) : fl * fl * fl :=
  if Rlt_dec Pc 0 then (Some 1, Some 0, Some 0)
  else
    let Se := fl1 exp (fdiv (- alpha * Pc) m) in
    let S := fl1 (fun Se => (1 - Sr) * Se + Sr) Se in
    let dSe_dPc := fl2 Rmult (fdiv (- alpha) m) (fl1 exp (fdiv (- alpha * Pc) m)) in
    let dS_dP := fl1 (fun d => - d * (1 - Sr)) dSe_dPc in
    let d2Se_dPc2 := fl2 Rmult (fdiv (- alpha) m) dSe_dPc in
    let d2S_dP2 := fl1 (fun d => (1 - Sr) * d) d2Se_dPc2 in
    (S, dS_dP, d2S_dP2).

(** PressureSaturation_VanGenuchten, src/materials/tdycharacteristiccurves.c:692-717.
    Result: (S, dS_dP, d2S_dP2). *)
Definition van_genuchten (m alpha Sr Pc : R) : fl * fl * fl :=
  if Rle_dec Pc 0 then (Some 1, Some 0, Some 0)
  else
    let n := fdiv 1 (1 - m) in
    let pc_alpha := Pc * alpha in
    let pc_alpha_n := flet n := n; fpow pc_alpha n in
    let one_plus := fl1 (fun a => 1 + a) pc_alpha_n in
    let Se := flet o := one_plus; fpow o (- m) in
    let S := fl1 (fun Se => (1 - Sr) * Se + Sr) Se in
    let dSe_dPc :=
      flet n := n; flet pan := pc_alpha_n; flet o := one_plus;
      flet q := fpow o (m + 1);
      fdiv (- m * n * alpha * pan) (pc_alpha * q) in
    let dS_dP := fl1 (fun d => - d * (1 - Sr)) dSe_dPc in
    let d2Se_dPc2 :=
      flet n := n; flet pan := pc_alpha_n; flet o := one_plus;
      flet q := fpow o (- m - 2); flet p2 := fpow Pc 2;
      fdiv (m * n * pan * q * ((m * n + 1) * pan - n + 1)) p2 in
    let d2S_dP2 := fl1 (fun d => (1 - Sr) * d) d2Se_dPc2 in
    (S, dS_dP, d2S_dP2).

(** RelativePermeability_Irmay, src/materials/tdycharacteristiccurves.c:443-452.
    Result: (Kr, dKr_dSe). *)
Definition irmay (m Se : R) : fl * fl :=
  if Rle_dec 1 Se then (Some 1, Some 0)
  else (fpow Se m, fl1 (fun x => x * m) (fpow Se (m - 1))).

(** RelativePermeability_Mualem_Unsmoothed,
    src/materials/tdycharacteristiccurves.c:468-485.  Result: (Kr, dKr_dSe). *)
Definition mualem_unsmoothed (m Se : R) : fl * fl :=
  if Rle_dec 1 Se then (Some 1, Some 0)
  else
    let Se_one_over_m := flet e := fdiv 1 m; fpow Se e in
    let tmp := flet a := Se_one_over_m; fpow (1 - a) m in
    let Kr := fl2 (fun s t => s * ((1 - t) * (1 - t))) (fsqrt Se) tmp in
    let d1 := flet k := Kr; fdiv (0.5 * k) Se in
    let d2 :=
      flet e := fdiv 1 m; flet p := fpow Se (e - 0.5);
      flet a := Se_one_over_m; flet q := fpow (1 - a) (m - 1);
      flet t := fpow (1 - a) m; Some (2 * p * q * (1 - t)) in
    (Kr, fl2 Rplus d1 d2).

(** CubicPolynomialSetup, src/materials/tdycharacteristiccurves.c:509-537: the
    matrix A as stored (16 consecutive entries, read by LAPACK column by column,
    so that row i, column j is entry i + 4 j).  [None] if dx = 0. *)
Definition cubic_matrix (x0 x1 x2 dx : R) : option (list R) :=
  if Req_EM_T dx 0 then None
  else
    let xt1 := (x1 - x0) / dx in
    let xt2 := (x2 - x0) / dx in
    let xt1_p2 := xt1 * xt1 in
    let xt2_p2 := xt2 * xt2 in
    let xt1_p3 := xt1 * xt1 * xt1 in
    let xt2_p3 := xt2 * xt2 * xt2 in
    Some (cons 1 (cons 1 (cons 0 (cons 0
         (cons xt2 (cons xt1 (cons (1 / dx) (cons (1 / dx)
         (cons xt2_p2 (cons xt1_p2 (cons (2 * xt2 / dx) (cons (2 * xt1 / dx)
         (cons xt2_p3 (cons xt1_p3 (cons (3 * xt2_p2 / dx) (cons (3 * xt1_p2 / dx)
          nil)))))))))))))))).

(** LAPACK dgesv with n = 4, nrhs = 1, as used at
    src/materials/tdycharacteristiccurves.c:530: on success it leaves in [x] a
    solution of A x = b, A being stored by columns (trusted specification). *)
Definition dgesv4_solution (A : list R) (b0 b1 b2 b3 : R) (c0 c1 c2 c3 : R) : Prop :=
  let a i j := List.nth (i + 4 * j) A 0 in
  let row i := a i 0%nat * c0 + a i 1%nat * c1 + a i 2%nat * c2 + a i 3%nat * c3 in
  row 0%nat = b0 /\ row 1%nat = b1 /\ row 2%nat = b2 /\ row 3%nat = b3.

(** RelativePermeability_Mualem_GetSmoothingCoeffs,
    src/materials/tdycharacteristiccurves.c:577-596, as a relation: [c0..c3] are
    the coefficients it leaves when it returns without error. *)
Definition smoothing_coeffs (m x0 x1 x2 dx : R) (c0 c1 c2 c3 : R) : Prop :=
  exists A Kr dKr,
    cubic_matrix x0 x1 x2 dx = Some A /\
    mualem_unsmoothed m x1 = (Some Kr, Some dKr) /\
    dgesv4_solution A 1 Kr 0 dKr c0 c1 c2 c3.

(** CubicPolynomialEvaluate, src/materials/tdycharacteristiccurves.c:551-562. *)
Definition cubic_evaluate (c0 c1 c2 c3 x x0 dx : R) : fl * fl :=
  let xt := fdiv (x - x0) dx in
  (fl1 (fun t => c0 + t * (c1 + t * (c2 + t * c3))) xt,
   flet t := xt; fdiv (c1 + t * (2 * c2 + t * 3 * c3)) dx).

(** RelativePermeability_Mualem, src/materials/tdycharacteristiccurves.c:607-614. *)
Definition mualem (m x0 x1 dx c0 c1 c2 c3 Se : R) : fl * fl :=
  if Rlt_dec x1 Se then cubic_evaluate c0 c1 c2 c3 Se x0 dx
  else mualem_unsmoothed m Se.

(** The two saturation models with their parameters, in the order of the
    parameter arrays (tdycharacteristiccurves.c:138-140, 148-149), and the two
    relative permeability models. *)
Inductive sat_curve :=
| Gardner (n m alpha : R)
| VanGenuchten (m alpha : R).

Definition saturation (c : sat_curve) (Sr Pc : R) : fl * fl * fl :=
  match c with
  | Gardner n m alpha => gardner n m alpha Sr Pc
  | VanGenuchten m alpha => van_genuchten m alpha Sr Pc
  end.

Inductive rel_perm_curve :=
| Irmay (m : R)
| Mualem_unsmoothed (m : R).

Definition rel_perm (c : rel_perm_curve) (Se : R) : fl * fl :=
  match c with
  | Irmay m => irmay m Se
  | Mualem_unsmoothed m => mualem_unsmoothed m Se
  end.

(** Capillary pressure as every TDyUpdateState_* computes it,
    src/fv/fvtpf/tdyfvtpf.c:409 and src/fv/mpfao/tdympfao.c:2545 (Pc = Pref - P);
    saturation and its derivatives as functions of the liquid pressure. *)
Definition sat_at (c : sat_curve) (Sr Pref P : R) : fl * fl * fl :=
  saturation c Sr (Pref - P).
Definition S_at c Sr Pref P : fl := fst (fst (sat_at c Sr Pref P)).
Definition dS_at c Sr Pref P : fl := snd (fst (sat_at c Sr Pref P)).
Definition d2S_at c Sr Pref P : fl := snd (sat_at c Sr Pref P).
