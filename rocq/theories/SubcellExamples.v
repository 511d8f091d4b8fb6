(** Two unit cubes that share a face, seen from the vertex (1,0,0). *)
From Coq Require Import Reals List Bool Arith ZArith Lia Lra.
From Verif Require Import Prelude Arrays SpecFvtpf Geom SpecGeom Mpfao SpecMpfao MpfaoProofs Subcell SpecSubcell SubcellProofs SubcellStoreProofs.
Import ListNotations.
Local Open Scope R_scope.

(** Vertex i+3(j+2k) is (i,j,k).  The faces of vertex 1: the shared one, y=0 and z=0 of
    the first cube, y=0 and z=0 of the second. *)
Definition sx_geo : geo := mkGeo
  [V3 (1/2) (1/2) (1/2); V3 (3/2) (1/2) (1/2)]
  [V3 0 0 0; V3 1 0 0; V3 2 0 0; V3 0 1 0; V3 1 1 0; V3 2 1 0;
   V3 0 0 1; V3 1 0 1; V3 2 0 1; V3 0 1 1; V3 1 1 1; V3 2 1 1]
  [V3 1 (1/2) (1/2); V3 (1/2) 0 (1/2); V3 (1/2) (1/2) 0; V3 (3/2) 0 (1/2); V3 (3/2) (1/2) 0]
  [V3 1 0 0; V3 0 1 0; V3 0 0 1; V3 0 1 0; V3 0 0 1]
  [1; 1; 1; 1; 1]
  [(0, 1); (-1, 0); (-2, 0); (-3, 1); (-4, 1)]%Z
  [[1; 4; 10; 7]; [0; 1; 7; 6]; [0; 1; 4; 3]; [1; 2; 8; 7]; [1; 2; 5; 4]]%nat
  [[]; [0; 1; 2; 3; 4]%nat].
Definition sx_K : m3 := M3 2 1 0 1 3 0 0 0 1.
Definition sx_f00 := mkSface true 0 0 true 0 (-1, 0, 1/2).
Definition sx_f02 := mkSface true 1 1 false 1 (0, 1/2, 0).
Definition sx_f01 := mkSface false 1 2 false 0 (-1/2, 0, 3/2).
Definition sx_f10 := mkSface false 0 0 true 0 (1, 1/2, 0).
Definition sx_f13 := mkSface true 2 3 false 2 (1/2, 3/2, 0).
Definition sx_f14 := mkSface false 2 4 false 3 (0, 0, 1/2).
Definition sx_v : vertex := mkVertex [0; 1]%nat [(sx_f00, sx_f02, sx_f01); (sx_f10, sx_f13, sx_f14)] 5 4 [0; 4; 8; 12; 16]%nat.
Definition sx_X : list R := [1/4; 3/4; 0; 1/4; -1/4; 0].
Definition sx_face (k : nat) : nat := nth k [0; 2; 1; 3; 4]%nat 0%nat.
Definition sx_xf (k : nat) : v3 := nth (sx_face k) (g_fc sx_geo) (V3 0 0 0).
Definition sx_n (k : nat) : v3 := nth (sx_face k) (g_fn sx_geo) (V3 0 0 0).
Definition sx_a (_ : nat) : R := 1 / 4.

Ltac ready := do 5 eexists; split; [reflexivity|]; split; [reflexivity|]; split; [reflexivity|]; split; [reflexivity|];
  split; [reflexivity|]; split; [do 2 eexists; split; reflexivity|]; eexists; reflexivity.
Lemma sx_setup0 : exists s, SetupSubcell sx_geo 0 1 = Ok s /\ s_faces s = (0, 2, 1)%nat.
Proof.
  eapply (setup_oriented sx_geo 0 1 _ _ _ 0 1 2 0 2 1); [reflexivity|reflexivity|reflexivity|reflexivity| |ready|ready|ready].
  unfold orient. cbn [rd nth_error g_fc sx_geo bind]. rewrite orient_value.
  match goal with |- context [Rlt_dec ?x 0] => destruct (Rlt_dec x 0) as [H|H]; [reflexivity|exfalso; apply H] end.
  vec. lra.
Qed.
Lemma sx_setup1 : exists s, SetupSubcell sx_geo 1 1 = Ok s /\ s_faces s = (0, 3, 4)%nat.
Proof.
  eapply (setup_oriented sx_geo 1 1 _ _ _ 0 3 4 0 3 4); [reflexivity|reflexivity|reflexivity|reflexivity| |ready|ready|ready].
  unfold orient. cbn [rd nth_error g_fc sx_geo bind]. rewrite orient_value.
  match goal with |- context [Rlt_dec ?x 0] => destruct (Rlt_dec x 0) as [H|H]; [exfalso|reflexivity] end.
  revert H. vec. lra.
Qed.
Lemma sx_mesh : of_mesh sx_geo sx_K 1 sx_v sx_face.
Proof.
  intros a f0 f1 f2 cell Ha Hc. destruct a as [|[|a]]; simpl in Ha, Hc; [| |destruct a; discriminate].
  - injection Ha as <- <- <-. injection Hc as <-. destruct sx_setup0 as [s [E F]].
    assert (Hb : between (V3 (1/2) (1/2) (1/2)) (V3 1 0 0) (V3 1 (1/2) (1/2)) (V3 (1/2) (1/2) 0) (V3 (1/2) 0 (1/2))).
    { unfold between. vec. lra. }
    assert (M : made sx_geo 0 1 s (V3 (1/2) (1/2) (1/2)) (V3 1 0 0) 0 2 1 (V3 1 (1/2) (1/2)) (V3 (1/2) (1/2) 0) (V3 (1/2) 0 (1/2))).
    { apply made_setup; auto. }
    destruct (made_positive _ _ _ _ _ _ _ _ _ _ _ _ M Hb) as [HD _].
    assert (HT : s_T s = 1 / 8) by (revert HD; vec; lra).
    destruct (md_area _ _ _ _ _ _ _ _ _ _ _ _ M) as [a0 [a1 [a2 [Ea [A0 [A1 A2]]]]]].
    unfold subface_area in A0, A1, A2. cbn [rd nth_error sx_geo g_fa g_fverts bind length INR] in A0, A1, A2.
    rewrite fdiv_ok in A0, A1, A2 by lra. injection A0 as <-. injection A1 as <-. injection A2 as <-.
    do 6 eexists. split; [exact E|]. split; [exact F|]. split; [reflexivity|]. split; [reflexivity|].
    split; [reflexivity|]. split; [reflexivity|]. split; [reflexivity|]. split; [exact Hb|].
    intros k f ar n Hk Har Hn. rewrite Ea in Har. unfold row_G, EntryOfG. rewrite HT, (md_nu _ _ _ _ _ _ _ _ _ _ _ _ M), fdiv_ok by lra.
    cbn [fbind].
    destruct k as [|[|[|k]]]; simpl in Hk, Har; [| | |destruct k; discriminate];
      injection Hk as <-; injection Har as <-; injection Hn as <-; unfold sx_f00, sx_f02, sx_f01, sx_K; cbn [sf_g];
      vec; f_equal; f_equal; [f_equal| |f_equal| |f_equal|]; field.
  - injection Ha as <- <- <-. injection Hc as <-. destruct sx_setup1 as [s [E F]].
    assert (Hb : between (V3 (3/2) (1/2) (1/2)) (V3 1 0 0) (V3 1 (1/2) (1/2)) (V3 (3/2) 0 (1/2)) (V3 (3/2) (1/2) 0)).
    { unfold between. vec. lra. }
    assert (M : made sx_geo 1 1 s (V3 (3/2) (1/2) (1/2)) (V3 1 0 0) 0 3 4 (V3 1 (1/2) (1/2)) (V3 (3/2) 0 (1/2)) (V3 (3/2) (1/2) 0)).
    { apply made_setup; auto. }
    destruct (made_positive _ _ _ _ _ _ _ _ _ _ _ _ M Hb) as [HD _].
    assert (HT : s_T s = 1 / 8) by (revert HD; vec; lra).
    destruct (md_area _ _ _ _ _ _ _ _ _ _ _ _ M) as [a0 [a1 [a2 [Ea [A0 [A1 A2]]]]]].
    unfold subface_area in A0, A1, A2. cbn [rd nth_error sx_geo g_fa g_fverts bind length INR] in A0, A1, A2.
    rewrite fdiv_ok in A0, A1, A2 by lra. injection A0 as <-. injection A1 as <-. injection A2 as <-.
    do 6 eexists. split; [exact E|]. split; [exact F|]. split; [reflexivity|]. split; [reflexivity|].
    split; [reflexivity|]. split; [reflexivity|]. split; [reflexivity|]. split; [exact Hb|].
    intros k f ar n Hk Har Hn. rewrite Ea in Har. unfold row_G, EntryOfG. rewrite HT, (md_nu _ _ _ _ _ _ _ _ _ _ _ _ M), fdiv_ok by lra.
    cbn [fbind].
    destruct k as [|[|[|k]]]; simpl in Hk, Har; [| | |destruct k; discriminate];
      injection Hk as <-; injection Har as <-; injection Hn as <-; unfold sx_f10, sx_f13, sx_f14, sx_K; cbn [sf_g];
      vec; f_equal; f_equal; [f_equal| |f_equal| |f_equal|]; field.
Qed.
Lemma sx_all : forall f, In f (all_faces sx_v) -> f = sx_f00 \/ f = sx_f02 \/ f = sx_f01 \/ f = sx_f10 \/ f = sx_f13 \/ f = sx_f14.
Proof. intros f Hf. simpl in Hf. decompose [or] Hf; subst; tauto. Qed.
Lemma sx_complete : complete sx_geo sx_face sx_v sx_xf sx_n sx_a.
Proof.
  intros f Hf. apply sx_all in Hf.
  assert (H4 : forall q : list nat, length q = 4%nat -> sx_a (sf_unk f) = 1 / INR (length q)).
  { intros q ->. unfold sx_a. simpl. field. }
  decompose [or] Hf; subst f; (split; [reflexivity|]); (split; [reflexivity|]); do 2 eexists;
    (split; [reflexivity|]); (split; [reflexivity|]); (split; [discriminate|apply H4; reflexivity]).
Qed.
Lemma sx_well_numbered : well_numbered sx_v.
Proof.
  constructor; try reflexivity.
  - unfold count; simpl; lia.
  - simpl. repeat constructor; simpl; lia.
  - simpl. intros s [<-|[<-|[]]]; simpl; repeat constructor; simpl; lia.
  - intros f Hf Hi. apply sx_all in Hf. unfold inner, count. decompose [or] Hf; subst; simpl in *; try discriminate; split; lia.
  - intros f Hf Hi. apply sx_all in Hf. unfold inner, count. decompose [or] Hf; subst; simpl in *; try discriminate; lia.
  - intros j f Hj. unfold inner, count. simpl in Hj |- *.
    destruct j as [|[|[|[|j]]]]; simpl in Hj; try (injection Hj as <-; reflexivity). destruct j; discriminate.
  - intros [|]; simpl; repeat constructor; simpl; lia.
Qed.
Lemma sx_two_sided : two_sided sx_v.
Proof.
  intros f Hf Hi. apply sx_all in Hf. decompose [or] Hf; subst f; try discriminate.
  - exists sx_f10. simpl. auto 10.
  - exists sx_f00. simpl. auto 10.
Qed.
Lemma sx_candf : forall m, ComputeCandF (sizes_of DirichletBC sx_v) sx_v = Ok m ->
  cm 1 (fill_A (sizes_of DirichletBC sx_v) m) 0 0 = -2 /\
  forall j, (j < 6)%nat -> cm 1 (fill_B (sizes_of DirichletBC sx_v) m) 0 j = nth j [-1/2; -3/2; 0; -1/2; 1/2; 0] 0.
Proof.
  intros m H. cbv -[Rplus Ropp Rminus Rmult Rdiv Rinv IZR] in H. injection H as <-.
  split.
  - cbv -[Rplus Ropp Rminus Rmult Rdiv Rinv IZR]. field.
  - intros j Hj. destruct j as [|[|[|[|[|[|j]]]]]]; [..|lia]; cbv -[Rplus Ropp Rminus Rmult Rdiv Rinv IZR]; field.
Qed.
Lemma sx_answer : lapack_answer DirichletBC sx_v sx_X.
Proof.
  intros m H. apply sx_candf in H. destruct H as [HA HB].
  change (nsys (sizes_of DirichletBC sx_v)) with 1%nat. change (ncol (sizes_of DirichletBC sx_v)) with 6%nat.
  split; [reflexivity|]. intros i j Hi Hj. assert (i = 0)%nat by lia. subst i.
  rewrite (HB j Hj). cbn [acc]. rewrite HA.
  destruct j as [|[|[|[|[|[|j]]]]]]; [..|lia]; unfold cm, sx_X; simpl; lra.
Qed.
Lemma sx_regular : regular DirichletBC sx_v.
Proof.
  intros m H. apply sx_candf in H. destruct H as [HA _].
  change (nsys (sizes_of DirichletBC sx_v)) with 1%nat. intros y Hy k Hk.
  assert (k = 0)%nat by lia. subst k. specialize (Hy 0%nat Hk). cbn [total] in Hy. unfold cm in HA. rewrite HA in Hy. lra.
Qed.
(** The pressure 5 + 2x - y + 3z at the cell centres and the centres of the boundary faces. *)
Definition sx_cc (c : nat) : v3 := nth c (g_cc sx_geo) (V3 0 0 0).
Definition sx_P (c : nat) : R :=
  linear 5 (V3 2 (-1) 3) (nth c [V3 (1/2) (1/2) (1/2); V3 (3/2) (1/2) (1/2); V3 (1/2) 0 (1/2); V3 (1/2) (1/2) 0; V3 (3/2) 0 (1/2); V3 (3/2) (1/2) 0] (V3 0 0 0)).
(** The flux through the shared quarter face: a quarter of (1,0,0)·K(2,-1,3) = 3. *)
Lemma sx_flux : exists l, NonCornerVertex DirichletBC 2 sx_v (Some sx_X) = Ok l /\ mult l sx_P 0 = 3 / 4.
Proof.
  destruct (entries_ok DirichletBC 2 sx_v sx_X sx_well_numbered) as [l E]. exists l. split; [exact E|].
  rewrite (patch_proof sx_geo sx_K 1 sx_v sx_face sx_xf sx_n sx_a sx_mesh sx_complete 2 sx_P sx_cc 5 (V3 2 (-1) 3)) with
    (b := DirichletBC) (X := sx_X) (f := sx_f00).
  - unfold sx_a, sx_n. simpl nth. unfold sx_K. vec. simpl. field.
  - intros cell [<-|[<-|[]]]; split; reflexivity.
  - exact sx_well_numbered.
  - exact sx_regular.
  - exact sx_answer.
  - exact E.
  - exact sx_two_sided.
  - intros _ f Hf Hi. apply sx_all in Hf. destruct Hf as [->|[->|[->|[->|[->| ->]]]]]; try discriminate Hi; unfold sx_P; apply f_equal; reflexivity.
  - discriminate.
  - simpl. auto.
  - reflexivity.
Qed.
