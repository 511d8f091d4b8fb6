(** Concrete velocities for the theorems of Prop_Velocity.v. *)
From Coq Require Import Reals ZArith List Bool Arith Lia Lra.
From Verif Require Import Prelude Arrays Mpfao MpfaoTs SpecFvtpf SpecMpfao SpecMpfaoTs FvtpfSumProofs MpfaoProofs MpfaoExamples
  Transmit SpecTransmit TransmitProofs TransmitExamples Steady SpecSteady SteadyProofs SteadyExamples Velocity SpecVelocity VelocityProofs.
Import ListNotations.
Local Open Scope R_scope.

(** Areas 2 and 1, no gravity. *)
Definition col_r (rho gz : list R) (h : option (nat -> R)) : recover := mkRecover col_tmesh (st_T (ts_p col_st)) 5 [2; 1; 1; 1; 1] rho gz h.
Lemma col_recover : forall rho gz h u, length rho = 2%nat -> length gz = 2%nat -> length u = 2%nat -> good_recover (col_r rho gz h) u.
Proof. intros rho gz h u A B C. constructor; simpl; auto. Qed.
Lemma col_away : forall a, ~ at_corner col_tmesh a.
Proof. intros a [iv [v [e [Ev [_ [[_ H] _]]]]]]. apply one_vertex in Ev. destruct Ev as [_ ->]. simpl in H. lia. Qed.
Lemma col_velocity : exists vel, RecoverVelocity (col_r [0; 0] [0; 0] (Some (fun _ => 0))) [4; 1] = Ok vel /\ nth 0 vel 0 = -4 / 3.
Proof.
  eexists. split; [cbv -[Rplus Ropp Rminus Rmult Rinv Rdiv IZR]; reflexivity|]. cbv -[Rplus Ropp Rminus Rmult Rinv Rdiv IZR]. field.
Qed.
(** Everything at the same height, where the weight of the column below is 1, and at
    pressure -1. *)
Lemma col_rest : exists vel, RecoverVelocity (col_r [1; 1] [1; 1] (Some (fun _ => -1))) [-1; -1] = Ok vel /\ nth 1 vel 0 = -7 / 3.
Proof.
  eexists. split; [cbv -[Rplus Ropp Rminus Rmult Rinv Rdiv IZR]; reflexivity|]. cbv -[Rplus Ropp Rminus Rmult Rinv Rdiv IZR]. field.
Qed.
Definition cor_r (h : option (nat -> R)) : recover := mkRecover (cor_tmesh DirichletBC [0; 1; 2]%nat) (st_T (ts_p cor_st)) 3 [1; 1; 1] [0] [0] h.
Lemma cor_velocity : exists vel, RecoverVelocity (cor_r (Some (fun _ => 0))) [1] = Ok vel /\ nth 2 vel 0 = 3.
Proof.
  eexists. split; [cbv -[Rplus Ropp Rminus Rmult Rinv Rdiv IZR]; reflexivity|]. cbv -[Rplus Ropp Rminus Rmult Rinv Rdiv IZR]. field.
Qed.
Lemma cor_through : through (cor_mesh DirichletBC [0; 1; 2]%nat) 2 (matrix_flux (cor_mesh DirichletBC [0; 1; 2]%nat) (st_l (ts_p cor_st)) (heads (cor_r (Some (fun _ => 0))) [1] (fun _ => 0))) = -3.
Proof. cbv -[Rplus Ropp Rminus Rmult Rinv Rdiv IZR]. ring. Qed.
