(** Concrete problems for the Jacobian of the water and heat mode. *)
From Coq Require Import Reals ZArith List Bool Arith Lia Lra.
From Coquelicot Require Import Coquelicot.
From Verif Require Import Prelude Arrays SpecFvtpf FvtpfSumProofs Mpfao MpfaoTs SpecMpfaoTs MpfaoTsProofs Transport SpecTransport TransportProofs TransportExamples.
From Verif Require Import ThJac SpecThJac ThJacProofs.
From Verif Require Fvtpf.
Import ListNotations.
Local Open Scope R_scope.

Lemma chop_big : forall x, / 2 ^ 52 <= Rabs x -> chop x = x.
Proof. intros x H. unfold chop, epsilon. destruct (Rlt_dec (Rabs x) (/ 2 ^ 52)); [lra|reflexivity]. Qed.
Lemma tiny : / 2 ^ 52 < / 2.
Proof. apply Rinv_lt_contravar; [|]; lra. Qed.
Lemma chop_neg : forall x, x <= - / 2 -> chop x = x.
Proof. intros x H. apply chop_big. rewrite Rabs_left1 by lra. pose proof tiny. lra. Qed.
Lemma chop_0 : chop 0 = 0.
Proof. unfold chop. destruct (Rlt_dec _ _); reflexivity. Qed.

Definition steady : thermal := mkThermal 0 0 0.
Definition pair_T : Trans := [[[-1; 1]]].
Definition no_T : Trans := [[[0; 0]]].

(** A compressible cell. *)
Definition soft (x : R) : cell := mkCell (1 + x) 1 0 1 0 1 0 0 1 0.
Definition warm : heat := mkHeat 1 0 0 0 0 0 0 0 0.

(** Two cells at the boundary: the vertex has one boundary face of each. *)
Definition edge_vert : vert := mkVert true [0%nat; 1%nat; 2%nat] [0%nat; 0%nat; 0%nat] [0%nat; 1%nat].
Definition edge_mesh : mesh := mkMesh [mkFace 0 1 true; mkFace 0 (-1) true; mkFace 1 (-2) true] [mkRock 1 1 0 true; mkRock 1 1 0 true] [edge_vert] DirichletBC 0.
Definition edge_T : Trans := [[[-1; 1]; [-1; 0]; [0; -1]]].
Definition no_edge_T : Trans := [[[0; 0]; [0; 0]; [0; 0]]].
Definition brim : bnd := mkBnd 0 1 1 1.

Lemma pair_vertices : good_vertices pair_mesh [0; 0; 0; 0].
Proof.
  split.
  - intros iv j v f a H _. destruct (pair_sub _ _ _ _ _ H) as [_ [_ [-> [-> _]]]]. reflexivity.
  - intros f [<-|[]]. simpl. lia.
  - intros v [<-|[]]. repeat constructor; simpl; lia.
  - intros iv j v f a H k [K|K]; destruct (pair_sub _ _ _ _ _ H) as [_ [_ [-> [-> _]]]]; simpl in K |- *; lia.
  - intros iv j v f a H [B _]. discriminate.
Qed.
Lemma pair_alloc : forall w, (2 <= length w)%nat -> allocated pair_mesh [[w]].
Proof.
  intros w L [|iv] v H; [|destruct iv; discriminate]. injection H as <-. exists [w]. split; [reflexivity|]. intros [|j] Hj; [|simpl in Hj; lia]. exists w. split; [reflexivity|exact L].
Qed.
Lemma pair_exist : cells_exist pair_mesh 2.
Proof. split; [intros v [<-|[]] c [<-|[<-|[]]]; lia|intros f [<-|[]]; left; simpl; lia]. Qed.

(** The Jacobian of the pair without storage. *)
Lemma pair_jac : forall c0 g x0, c_vis c0 = 1 -> c_Kr c0 = 1 -> c_dKr c0 = 0 -> c_dS c0 = 0 -> c_dvis c0 = 0 ->
  exists B, IJacobian_TH pair_mesh [0%nat] [c0; fluid 1] [] [cold; cold] [] [steady; steady] [g; 0] [-1; 0; 0; 0] pair_T no_T (fun _ _ => 0) 0 [0; 0; 0; 0] [0; x0; 0; 0] = Ok B
   /\ Fvtpf.entry B 0 0 = Some (- chop (0.5 * c_drho c0 * -1 + (c_rho c0 + 1) * 0.5 * -1 * (1 + 0.5 * c_drho c0 * g)))
   /\ Fvtpf.entry B 0 1 = Some (- chop ((c_rho c0 + 1) * 0.5 * -1)).
Proof.
  intros c0 g x0 V K DK DS DV.
  assert (GS : good_state pair_mesh 2 0 [c0; fluid 1] [] [-1; 0; 0; 0] [0; 0; 0; 0]).
  { split; [reflexivity|]. split; [reflexivity|]. split; [|split; [intros b []|split; reflexivity]]. intros c [<-|[<-|[]]]; simpl; lra. }
  destruct (IJacobian_TH_ok pair_mesh 2 2 0 [0%nat] [c0; fluid 1] [] [cold; cold] [] [steady; steady] [g; 0] [-1; 0; 0; 0] [0; 0; 0; 0] [0; 0; 0; 0] pair_T no_T (fun _ _ => 0)
    pair_good GS pair_vertices (pair_alloc [-1; 1] (le_n 2)) (pair_alloc [0; 0] (le_n 2)) eq_refl eq_refl eq_refl eq_refl eq_refl (proj1 pair_exist) (proj2 pair_exist) 0 [0; 0; 0; 0] [0; x0; 0; 0] (le_n 4) (le_n 4))
    as [B0 [B [_ [E [_ H]]]]].
  exists B. split; [exact E|].
    assert (Q : col_quad pair_mesh [c0; fluid 1] [] [cold; cold] [] [steady; steady] [g; 0] [-1; 0; 0; 0] pair_T no_T 0 0 0 =
      val4 (block_map (fl1 (fun x => - chop x)) (conduct 0 (near_block ((0 + c_rho c0 + 1) * 0.5) (0.5 * c_drho c0) (0.5 * 0) (Some 1) (Some 0) (Some 0) 0 0 0 (-1) (-1) g)))).
    { unfold col_quad. change (subface pair_mesh 0 0) with (Some (pair_vert, mkFace 0 1 true, 0%nat)). cbv iota beta zeta. change (nth 0 [-1; 0; 0; 0] 0) with (-1). rewrite (chop_neg (-1)) by lra. destruct (Rlt_dec (-1) 0) as [?|]; [|lra].
      unfold upwind_at, half_of. cbn -[th_block val4 block_map near_block conduct]. unfold fdiv. rewrite V, K, DK, DS, DV. 
      destruct (Req_EM_T 1 0); [lra|]. destruct (Req_EM_T (1 * 1) 0); [lra|]. unfold th_block. destruct (Rlt_dec (-1) 0) as [?|]; [|lra]. cbn -[chop val4]. 
      change (Pos.to_nat 1) with 1%nat. cbn -[chop].
      repeat apply f_equal2; (apply (f_equal Ropp); apply (f_equal chop); field). }
    assert (A : forall b, sel 0 b (acc_quad pair_mesh [c0; fluid 1] [cold; cold] 0 [0; 0; 0; 0] [0; x0; 0; 0] 0) = 0).
    { intro b. unfold acc_quad, sel, pick, acc_block. simpl. destruct (Nat.even b); ring. }
    split.
    + rewrite (H 0%nat 0%nat : Fvtpf.entry B 0 0 = _). f_equal. unfold all_subfaces, orientation, row_sum. cbn -[col_quad acc_quad sel]. rewrite Q. cbn -[chop col_quad acc_quad].
      rewrite A. match goal with |- context [- chop ?a] => match goal with |- _ = - chop ?b => replace a with b by (unfold Rdiv; field) end end. ring.
    + rewrite (H 0%nat 1%nat : Fvtpf.entry B 0 1 = _). f_equal. unfold all_subfaces, orientation, row_sum. cbn -[col_quad acc_quad sel]. rewrite Q. cbn -[chop col_quad acc_quad].
      rewrite A. match goal with |- context [- chop ?a] => match goal with |- _ = - chop ?b => replace a with b by (unfold Rdiv; field) end end. ring.
Qed.

(** The first residual of the pair without storage. *)
Lemma pair_res : forall c0 hs tp u, c_vis c0 = 1 -> c_Kr c0 = 1 -> tp <= - / 2 -> length hs = 2%nat -> length u = 4%nat ->
  component (IFunction_TH pair_mesh [c0; fluid 1] [] hs [] [tp; 0; 0; 0] [0; 0; 0; 0] [0; 0; 0; 0] u 2) 0 = Some (- ((c_rho c0 + 1) / 2) * tp).
Proof.
  intros c0 hs tp u V K Ht Lh Lu.
  assert (GS : good_state pair_mesh 2 0 [c0; fluid 1] [] [tp; 0; 0; 0] [0; 0; 0; 0]).
  { split; [reflexivity|]. split; [reflexivity|]. split; [|split; [intros b []|split; reflexivity]]. intros c [<-|[<-|[]]]; simpl; lra. }
  destruct (on_faces_exists pair_mesh [c0; fluid 1] [] (fun up dn zup zdn a => - mean_density up dn * mobility (if Rlt_dec (rounded (nth a [tp; 0; 0; 0] 0)) 0 then up else dn) * rounded (nth a [tp; 0; 0; 0] 0) * side_value (map e_h hs) [] (if Rlt_dec (rounded (nth a [tp; 0; 0; 0] 0)) 0 then zup else zdn)
      - rounded (nth a [0; 0; 0; 0] 0))) as [qe QE].
  assert (Hx : th_water [tp; 0; 0; 0] (inl c0) (inl (fluid 1)) 0 1 0 (- ((c_rho c0 + 1) / 2) * tp)).
  { unfold th_water. cbv zeta. change (nth 0 [tp; 0; 0; 0] 0) with tp. change (rounded tp) with (chop tp). rewrite chop_neg by exact Ht. destruct (Rlt_dec tp 0); [|lra].
    unfold mobility, mean_density, density. rewrite V, K. simpl. field. }
  destruct (th_ok pair_mesh 2 2 0 _ [] hs [] _ _ pair_good GS Lh eq_refl (fun _ _ => - ((c_rho c0 + 1) / 2) * tp) qe (pair_faces _ _ _ _ Hx) QE [0; 0; 0; 0] u) as [r [E [_ H]]].
  - simpl; lia.
  - lia.
  - intros [|[|i]] Hi; [| |lia]; (split; [intros; lia|reflexivity]).
  - unfold component. rewrite E. destruct (H 0%nat ltac:(lia)) as [A _]. change (2 * 0)%nat with 0%nat in A. rewrite A, pair_outflow. f_equal.
    destruct hs as [|h0 [|h1 [|]]]; try discriminate. unfold term2, term, water_rate; simpl. ring.
Qed.

(** Nothing depends on the temperature, but the entry for it is 1. *)
Lemma temperature_witness : exists B,
  IJacobian_TH pair_mesh [0%nat] [fluid 1; fluid 1] [] [cold; cold] [] [steady; steady] [0; 0] [-1; 0; 0; 0] pair_T no_T (fun _ _ => 0) 0 [0; 0; 0; 0] [0; 20; 0; 0] = Ok B
  /\ Fvtpf.entry B 0 1 = Some 1
  /\ has_derivative (fun t => component (IFunction_TH pair_mesh [fluid 1; fluid 1] [] [cold; cold] [] [-1; 0; 0; 0] [0; 0; 0; 0] [0; 0; 0; 0] [0; t; 0; 0] 2) 0) 20 0.
Proof.
  destruct (pair_jac (fluid 1) 0 20) as [B [E [_ H]]]; try reflexivity. exists B. split; [exact E|]. split.
  - rewrite H. f_equal. simpl. rewrite chop_neg; lra.
  - exists (fun _ => 1). split; [|exact (is_derive_const 1 20)]. apply filter_forall. intro t. rewrite pair_res; try reflexivity; [|lra]. f_equal. simpl. field.
Qed.

(** The pressure of cell 0 varies near 1; without gravity in the residual, the
    derivative is 2. *)
Lemma soft_derive : has_derivative (fun x => component (IFunction_TH pair_mesh [soft x; fluid 1] [] [cold; cold] [] [- x; 0; 0; 0] [0; 0; 0; 0] [0; 0; 0; 0] [0; 20; 0; 0] 2) 0) 1 2.
Proof.
  exists (fun x => (2 + x) / 2 * x). split.
  - exists (mkposreal (/ 2) ltac:(lra)). intros y By. unfold ball in By; simpl in By; unfold AbsRing_ball, abs, minus, plus, opp in By; simpl in By.
    apply Rabs_def2 in By. rewrite pair_res; try reflexivity; [|lra]. f_equal. simpl. field.
  - auto_derive; [exact I|]. field.
Qed.
Lemma gravity_witness : exists B,
  IJacobian_TH pair_mesh [0%nat] [soft 1; fluid 1] [] [cold; cold] [] [steady; steady] [1; 0] [-1; 0; 0; 0] pair_T no_T (fun _ _ => 0) 0 [0; 0; 0; 0] [0; 20; 0; 0] = Ok B
  /\ Fvtpf.entry B 0 0 = Some 2.75.
Proof.
  destruct (pair_jac (soft 1) 1 20) as [B [E [H _]]]; try reflexivity. exists B. split; [exact E|]. rewrite H. f_equal. simpl. rewrite chop_neg; lra.
Qed.

(** The vertex at the boundary: with pressure [x] in cell 0 and 0 elsewhere, water
    leaves cell 0 through the inner face and through the boundary. *)
Lemma edge_good : good_mesh edge_mesh 2 2 2.
Proof.
  split.
  - reflexivity.
  - intros [|[|[|i]]]; unfold local_cell; simpl; intro; try lia; discriminate.
  - intros v [<-|[]]. split; [reflexivity|]. split; simpl; intros a H; lia.
  - intros f [<-|[<-|[<-|[]]]]; simpl; lia.
Qed.
Lemma edge_sub : forall iv j v f a, subface edge_mesh iv j = Some (v, f, a) -> iv = 0%nat /\ v = edge_vert /\
  ((j = 0%nat /\ f = mkFace 0 1 true /\ a = 0%nat) \/ (j = 1%nat /\ f = mkFace 0 (-1) true /\ a = 4%nat) \/ (j = 2%nat /\ f = mkFace 1 (-2) true /\ a = 8%nat)).
Proof.
  intros [|iv] j v f a H; [|unfold subface in H; simpl in H; destruct iv; discriminate].
  destruct j as [|[|[|j]]]; [| | |unfold subface in H; simpl in H; destruct j; discriminate]; unfold subface in H; simpl in H; injection H as <- <- <-; tauto.
Qed.
Definition edge_TP (x : R) : list R := [- x; 0; 0; 0; - x; 0; 0; 0; 0; 0; 0; 0].
Definition edge_0 : list R := repeat 0 12.
Lemma edge_state : forall x, good_state edge_mesh 2 2 [fluid 1; fluid 1] [brim; brim] (edge_TP x) edge_0.
Proof.
  intro x. split; [reflexivity|]. split; [reflexivity|]. split; [|split; [|split; reflexivity]].
  - intros c [<-|[<-|[]]]; simpl; lra.
  - intros b [<-|[<-|[]]]; simpl; lra.
Qed.
Lemma edge_vertices : good_vertices edge_mesh edge_0.
Proof.
  split.
  - intros iv j v f a H _. destruct (edge_sub _ _ _ _ _ H) as [_ [-> [[_ [-> _]]|[[_ [-> _]]|[_ [-> _]]]]]]; reflexivity.
  - intros f [<-|[<-|[<-|[]]]]; simpl; lia.
  - intros v [<-|[]]. repeat constructor; simpl; lia.
  - intros iv j v f a H k K. destruct (edge_sub _ _ _ _ _ H) as [_ [-> [[_ [-> _]]|[[_ [-> _]]|[_ [-> _]]]]]]; simpl in K |- *; lia.
  - intros iv j v f a H [C _]. discriminate.
Qed.
Lemma edge_alloc : forall a b c, (2 <= length a)%nat -> (2 <= length b)%nat -> (2 <= length c)%nat -> allocated edge_mesh [[a; b; c]].
Proof.
  intros a b c La Lb Lc [|iv] v H; [|destruct iv; discriminate]. injection H as <-. exists [a; b; c]. split; [reflexivity|].
  intros [|[|[|j]]] Hj; [| | |simpl in Hj; lia]; eexists; (split; [reflexivity|assumption]).
Qed.
Lemma edge_exist : cells_exist edge_mesh 2.
Proof. split; [intros v [<-|[]] c [<-|[<-|[]]]; lia|intros f [<-|[<-|[<-|[]]]]; left; simpl; lia]. Qed.

Lemma edge_entry : exists B,
  IJacobian_TH edge_mesh [2%nat] [fluid 1; fluid 1] [brim; brim] [cold; cold] [0; 0] [steady; steady] [0; 0] (edge_TP 1) edge_T no_edge_T (fun _ _ => 0) 0 [0; 0; 0; 0] [0; 0; 0; 0] = Ok B
  /\ Fvtpf.entry B 0 0 = Some 1.
Proof.
  destruct (IJacobian_TH_ok edge_mesh 2 2 2 [2%nat] [fluid 1; fluid 1] [brim; brim] [cold; cold] [0; 0] [steady; steady] [0; 0] (edge_TP 1) edge_0 edge_0 edge_T no_edge_T (fun _ _ => 0)
    edge_good (edge_state 1) edge_vertices (edge_alloc [-1; 1] [-1; 0] [0; -1] (le_n 2) (le_n 2) (le_n 2)) (edge_alloc [0; 0] [0; 0] [0; 0] (le_n 2) (le_n 2) (le_n 2))
    eq_refl eq_refl eq_refl eq_refl eq_refl (proj1 edge_exist) (proj2 edge_exist) 0 [0; 0; 0; 0] [0; 0; 0; 0] (le_n 4) (le_n 4))
    as [B0 [B [_ [E [_ H]]]]].
  exists B. split; [exact E|].
  assert (Q : sel 0 0 (col_quad edge_mesh [fluid 1; fluid 1] [brim; brim] [cold; cold] [0; 0] [steady; steady] [0; 0] (edge_TP 1) edge_T no_edge_T 0 0 0) = 1).
  { unfold col_quad. change (subface edge_mesh 0 0) with (Some (edge_vert, mkFace 0 1 true, 0%nat)). cbv iota beta zeta. change (nth 0 (edge_TP 1) 0) with (- (1)). rewrite (chop_neg (- (1))) by lra.
    destruct (Rlt_dec (- (1)) 0) as [?|]; [|lra].
    unfold upwind_at, half_of. cbn -[th_block val4 block_map near_block conduct sel]. unfold fdiv.
    destruct (Req_EM_T 1 0); [lra|]. destruct (Req_EM_T (1 * 1) 0); [lra|]. unfold th_block. destruct (Rlt_dec (- (1)) 0) as [?|]; [|lra].
    change (Pos.to_nat 1) with 1%nat. cbn -[chop]. rewrite chop_neg; lra. }
  rewrite (H 0%nat 0%nat : Fvtpf.entry B 0 0 = _). f_equal. unfold all_subfaces, orientation, row_sum. cbn -[col_quad acc_quad sel]. rewrite Q.
  unfold acc_quad, sel, pick, acc_block. cbn -[col_quad]. ring.
Qed.
Lemma edge_res : forall x, / 2 <= x ->
  component (IFunction_TH edge_mesh [fluid 1; fluid 1] [brim; brim] [cold; cold] [0; 0] (edge_TP x) edge_0 [0; 0; 0; 0] [0; 0; 0; 0] 2) 0 = Some (2 * x).
Proof.
  intros x Hx.
  destruct (on_faces_exists edge_mesh [fluid 1; fluid 1] [brim; brim] (fun up dn zup zdn a => - mean_density up dn * mobility (if Rlt_dec (rounded (nth a (edge_TP x) 0)) 0 then up else dn) * rounded (nth a (edge_TP x) 0) * side_value (map e_h [cold; cold]) [0; 0] (if Rlt_dec (rounded (nth a (edge_TP x) 0)) 0 then zup else zdn)
      - rounded (nth a edge_0 0))) as [qe QE].
  assert (QW : on_faces edge_mesh [fluid 1; fluid 1] [brim; brim] (th_water (edge_TP x)) (fun _ j => if (j =? 2)%nat then 0 else x)).
  { intros iv j v f a up dn Hs _ Au Ad. unfold th_water. cbv zeta.
    destruct (edge_sub _ _ _ _ _ Hs) as [_ [_ [[-> [-> ->]]|[[-> [-> ->]]|[-> [-> ->]]]]]].
    - assert (up = inl (fluid 1)) as -> by (eapply at_side_det; [exact Au|]; split; [simpl; lia|reflexivity]).
      assert (dn = inl (fluid 1)) as -> by (eapply at_side_det; [exact Ad|]; split; [simpl; lia|reflexivity]).
      change (nth 0 (edge_TP x) 0) with (- x). change (rounded (- x)) with (chop (- x)). rewrite chop_neg by lra. destruct (Rlt_dec (- x) 0); [|lra]. unfold mean_density; simpl. field.
    - assert (up = inl (fluid 1)) as -> by (eapply at_side_det; [exact Au|]; split; [simpl; lia|reflexivity]).
      assert (dn = inr brim) as -> by (eapply at_side_det; [exact Ad|]; split; [simpl; lia|reflexivity]).
      change (nth 4 (edge_TP x) 0) with (- x). change (rounded (- x)) with (chop (- x)). rewrite chop_neg by lra. destruct (Rlt_dec (- x) 0); [|lra]. unfold mean_density; simpl. field.
    - change (nth 8 (edge_TP x) 0) with 0. change (rounded 0) with (chop 0). rewrite chop_0. simpl. ring. }
  destruct (th_ok edge_mesh 2 2 2 _ [brim; brim] [cold; cold] [0; 0] _ _ edge_good (edge_state x) eq_refl eq_refl _ qe QW QE [0; 0; 0; 0] [0; 0; 0; 0]) as [r [E [_ H]]].
  - simpl; lia.
  - simpl; lia.
  - intros [|[|i]] Hi; [| |lia]; (split; [intros; lia|reflexivity]).
  - unfold component. rewrite E. destruct (H 0%nat ltac:(lia)) as [A _]. change (2 * 0)%nat with 0%nat in A. rewrite A. f_equal.
    unfold outflow, all_subfaces, orientation, term2, term, water_rate; simpl. ring.
Qed.
Lemma edge_derive : has_derivative (fun x => component (IFunction_TH edge_mesh [fluid 1; fluid 1] [brim; brim] [cold; cold] [0; 0] (edge_TP x) edge_0 [0; 0; 0; 0] [0; 0; 0; 0] 2) 0) 1 2.
Proof.
  exists (fun x => 2 * x). split.
  - exists (mkposreal (/ 2) ltac:(lra)). intros y By. unfold ball in By; simpl in By; unfold AbsRing_ball, abs, minus, plus, opp in By; simpl in By.
    apply Rabs_def2 in By. apply edge_res. lra.
  - auto_derive; [exact I|]. ring.
Qed.
Lemma edge_product : product_of edge_mesh edge_T 0 edge_TP.
Proof.
  intros iv j v f a H _. split; [intros [C _]; discriminate|]. intros _.
  destruct (edge_sub _ _ _ _ _ H) as [-> [-> [[-> [-> ->]]|[[-> [-> ->]]|[-> [-> ->]]]]]]; exists 0; intro x; unfold edge_TP, column, coefficient; simpl; do 2 f_equal; ring.
Qed.
Lemma pair_product : product_of pair_mesh pair_T 0 (fun x => [- x; 0; 0; 0]).
Proof.
  intros iv j v f a H _. split; [intros [C _]; discriminate|]. intros _. destruct (pair_sub _ _ _ _ _ H) as [-> [-> [-> [-> ->]]]].
  exists 0. intro x. unfold column, coefficient. simpl. do 2 f_equal. ring.
Qed.
Lemma pair_flowing : flowing pair_mesh [- (1); 0; 0; 0].
Proof.
  intros iv j v f a H _ _ _. destruct (pair_sub _ _ _ _ _ H) as [_ [_ [_ [_ ->]]]]. change (nth 0 [- (1); 0; 0; 0] 0) with (- (1)). rewrite Rabs_left by lra. pose proof tiny. lra.
Qed.
Lemma soft_consistent : forall p, consistent soft p.
Proof.
  intro p. unfold consistent, soft; simpl. do 5 (split; [auto_derive; [exact I|ring]|]). auto_derive; [exact I|ring].
Qed.
Lemma warm_consistent : forall p, heat_by_pressure (fun _ => warm) p 0.
Proof.
  intro p. unfold heat_by_pressure, warm; simpl. do 6 (split; [auto_derive; [exact I|reflexivity]|]). auto.
Qed.
Lemma soft_state : good_state pair_mesh 2 0 [soft 1; fluid 1] [] [- (1); 0; 0; 0] [0; 0; 0; 0].
Proof.
  split; [reflexivity|]. split; [reflexivity|]. split; [|split; [intros b []|split; reflexivity]]. intros c [<-|[<-|[]]]; simpl; lra.
Qed.
Lemma pair_inside : forall i, inside pair_mesh i.
Proof. intros i iv j v f a H _. destruct (pair_sub _ _ _ _ _ H) as [_ [_ [_ [-> _]]]]. simpl. lia. Qed.
Lemma pair_owned : forall i, (i < 2)%nat -> local_cell pair_mesh i = true <-> (i < 2)%nat.
Proof. intros [|[|i]] Hi; [| |lia]; (split; [intros; lia|reflexivity]). Qed.
