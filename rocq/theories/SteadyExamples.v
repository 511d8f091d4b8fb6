(** Concrete systems for the theorems of Prop_Steady.v. *)
From Coq Require Import Reals ZArith List Bool Arith Lia Lra.
From Verif Require Import Prelude Arrays Mpfao MpfaoTs SpecFvtpf SpecMpfao SpecMpfaoTs FvtpfSumProofs MpfaoProofs MpfaoExamples
  Transmit SpecTransmit TransmitProofs TransmitExamples Steady SpecSteady SteadyProofs.
Import ListNotations.
Local Open Scope R_scope.

Definition run (o : outcome tstate) : tstate := match o with Ok s => s | _ => setup_arrays RICHARDS 0 0 0 end.
Definition col_st : tstate := run (Setup RICHARDS col_tmesh 2 5 col_X).
Lemma col_setup : Setup RICHARDS col_tmesh 2 5 col_X = Ok col_st.
Proof. cbv -[Rplus Ropp Rminus Rmult Rinv Rdiv IZR]. reflexivity. Qed.
Definition col_p (pressure forcing : option (nat -> R)) : steady := mkSteady col_tmesh (st_T (ts_p col_st)) [3; 7]%nat 5 pressure forcing.
Lemma col_steady : forall a b, good_steady (col_p a b).
Proof.
  intros a b. constructor; cbn [s_mesh s_gid col_p t_mesh col_tmesh].
  - reflexivity.
  - repeat constructor; simpl; lia.
  - intros f Hf. simpl in Hf. decompose [or] Hf; subst; simpl; try lia; contradiction.
  - intros iv j v f q H _. apply col_subface in H. destruct H as [_ [-> [Hj [Hf _]]]].
    destruct j as [|[|[|[|[|j]]]]]; [..|lia]; cbn in Hf; injection Hf as <-; reflexivity.
Qed.
Lemma col_no_corner : no_corner_flux col_tmesh.
Proof. right. intros iv v e Hv _ [_ H]. apply one_vertex in Hv. destruct Hv as [_ ->]. simpl in H. lia. Qed.

Definition cor_st : tstate := run (Setup RICHARDS (cor_tmesh DirichletBC [0; 1; 2]%nat) 1 3 col_X).
Lemma straight : arrangement [0; 1; 2]%nat.
Proof. exists 0%nat, 1%nat, 2%nat. split; [unfold perm3; lia|reflexivity]. Qed.
Lemma cor_setup : Setup RICHARDS (cor_tmesh DirichletBC [0; 1; 2]%nat) 1 3 col_X = Ok cor_st.
Proof. cbv -[Rplus Ropp Rminus Rmult Rinv Rdiv IZR]. reflexivity. Qed.
Definition cor_p (h : nat -> R) : steady := mkSteady (cor_tmesh DirichletBC [0; 1; 2]%nat) (st_T (ts_p cor_st)) [0%nat] 3 (Some h) None.
Lemma cor_steady : forall h, good_steady (cor_p h).
Proof.
  intros h. constructor; cbn [s_mesh s_gid cor_p t_mesh cor_tmesh].
  - reflexivity.
  - repeat constructor; simpl; lia.
  - intros f Hf. simpl in Hf. decompose [or] Hf; subst; simpl; try lia; contradiction.
  - intros iv j v f q H _. apply (cor_subface _ _ _ _ _ _ _ straight) in H. destruct H as [_ [-> [Hj [r [Hr [Hf _]]]]]].
    destruct r as [|[|[|r]]]; cbn in Hf; [injection Hf as <-; reflexivity..|destruct r; discriminate].
Qed.
(** The pressure of the cell is 1, that of the boundary 0. *)
Lemma cor_system : exists s, ComputeSystem (cor_p (fun _ => 0)) ([], []) = Ok s /\ residual s (fun _ => 1) 0 = -3.
Proof.
  eexists. split; [cbv -[Rplus Ropp Rminus Rmult Rinv Rdiv IZR]; reflexivity|]. cbv -[Rplus Ropp Rminus Rmult Rinv Rdiv IZR]. ring.
Qed.
Lemma cor_flux : all_subfaces (cor_mesh DirichletBC [0; 1; 2]%nat)
  (fun iv j => orientation (cor_mesh DirichletBC [0; 1; 2]%nat) iv j 0 * matrix_flux (cor_mesh DirichletBC [0; 1; 2]%nat) (st_l (ts_p cor_st)) (values (cor_p (fun _ => 0)) (fun _ => 1) (fun _ => 0)) iv j) = -6.
Proof. cbv -[Rplus Ropp Rminus Rmult Rinv Rdiv IZR]. ring. Qed.
Lemma col_twice : exists s1 s2, ComputeSystem (col_p (Some (fun _ => 0)) (Some (fun _ => 1))) ([], []) = Ok s1 /\
  ComputeSystem (col_p (Some (fun _ => 0)) (Some (fun _ => 1))) s1 = Ok s2 /\ fst s2 = fst s1 /\ added (snd s1) 3 = 1 /\ added (snd s2) 3 = 2.
Proof.
  eexists. eexists. split; [cbv -[Rplus Ropp Rminus Rmult Rinv Rdiv IZR]; reflexivity|].
  split; [cbv -[Rplus Ropp Rminus Rmult Rinv Rdiv IZR]; reflexivity|]. split; [reflexivity|].
  split; cbv -[Rplus Ropp Rminus Rmult Rinv Rdiv IZR]; ring.
Qed.
(** A closed boundary and no boundary pressure. *)
Definition shut_tmesh : tmesh := mkTmesh (mkMesh (faces col_mesh) (rocks col_mesh) (verts col_mesh) NeumannBC 0) [col_extra] [].
Lemma shut_good : good_tmesh shut_tmesh 2 5.
Proof. destruct col_good. constructor; assumption. Qed.
Lemma shut_answered : forall x, answered shut_tmesh (col_X x).
Proof. intros x iv _. discriminate. Qed.
Definition shut_st : tstate := run (Setup RICHARDS shut_tmesh 2 5 col_X).
Lemma shut_setup : Setup RICHARDS shut_tmesh 2 5 col_X = Ok shut_st.
Proof. cbv -[Rplus Ropp Rminus Rmult Rinv Rdiv IZR]. reflexivity. Qed.
Definition shut_p : steady := mkSteady shut_tmesh (st_T (ts_p shut_st)) [0; 1]%nat 5 None None.
Lemma shut_steady : good_steady shut_p.
Proof.
  destruct (col_steady None None) as [A B C D]. constructor; [reflexivity|repeat constructor; simpl; lia|exact C|exact D].
Qed.
Lemma shut_null : ComputeSystem shut_p ([], []) = UB.
Proof. cbv -[Rplus Ropp Rminus Rmult Rinv Rdiv IZR]. reflexivity. Qed.
(** Pressures 4 and 1 in the cells, 0 on the boundary, forcing 1 in volumes of 1. *)
Lemma col_system : exists s, ComputeSystem (col_p (Some (fun _ => 0)) (Some (fun _ => 1))) ([], []) = Ok s /\
  residual s (fun c => if (c =? 3)%nat then 4 else 1) 3 = -11.
Proof.
  eexists. split; [cbv -[Rplus Ropp Rminus Rmult Rinv Rdiv IZR]; reflexivity|]. cbv -[Rplus Ropp Rminus Rmult Rinv Rdiv IZR]. field.
Qed.
