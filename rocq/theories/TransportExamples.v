(** Concrete problems for the residuals with two unknowns per cell. *)
From Coq Require Import Reals ZArith List Bool Arith Lia Lra.
From Coquelicot Require Import Coquelicot.
From Verif Require Import Prelude Arrays SpecFvtpf FvtpfSumProofs Mpfao MpfaoTs SpecMpfaoTs MpfaoTsProofs Transport SpecTransport TransportProofs.
Import ListNotations.
Local Open Scope R_scope.

(** A cell of unit density, viscosity and saturation with relative permeability [k]. *)
Definition fluid (k : R) : cell := mkCell 1 0 0 1 0 1 0 0 k 0.

(** Two unit cells and the face between them. *)
Definition pair_vert : vert := mkVert true [0%nat] [0%nat] [0%nat; 1%nat].
Definition pair_mesh : mesh := mkMesh [mkFace 0 1 true] [mkRock 1 1 0 true; mkRock 1 1 0 true] [pair_vert] DirichletBC 0.
(** One unit cell with a seepage boundary on its down side. *)
Definition seep_vert : vert := mkVert true [0%nat] [0%nat] [0%nat].
Definition seep_mesh : mesh := mkMesh [mkFace 0 (-1) true] [mkRock 1 1 0 true] [seep_vert] SeepageBC 0.

Lemma pair_good : good_mesh pair_mesh 2 2 0.
Proof.
  split.
  - reflexivity.
  - intros [|[|[|i]]]; unfold local_cell; simpl; intro; try lia; discriminate.
  - intros v [<-|[]]. split; [reflexivity|]. split; intros a [<-|[]]; simpl; lia.
  - intros f [<-|[]]; simpl; lia.
Qed.
Lemma seep_good : good_mesh seep_mesh 1 1 1.
Proof.
  split.
  - reflexivity.
  - intros [|[|i]]; unfold local_cell; simpl; intro; try lia; discriminate.
  - intros v [<-|[]]. split; [reflexivity|]. split; intros a [<-|[]]; simpl; lia.
  - intros f [<-|[]]; simpl; lia.
Qed.
Lemma pair_sub : forall iv j v f a, subface pair_mesh iv j = Some (v, f, a) -> iv = 0%nat /\ j = 0%nat /\ v = pair_vert /\ f = mkFace 0 1 true /\ a = 0%nat.
Proof.
  intros [|iv] j v f a H; [|unfold subface in H; simpl in H; destruct iv; discriminate].
  destruct j as [|j]; [|unfold subface in H; simpl in H; destruct j; discriminate]. unfold subface in H; simpl in H. injection H as <- <- <-. auto.
Qed.
Lemma seep_sub : forall iv j v f a, subface seep_mesh iv j = Some (v, f, a) -> iv = 0%nat /\ j = 0%nat /\ v = seep_vert /\ f = mkFace 0 (-1) true /\ a = 0%nat.
Proof.
  intros [|iv] j v f a H; [|unfold subface in H; simpl in H; destruct iv; discriminate].
  destruct j as [|j]; [|unfold subface in H; simpl in H; destruct j; discriminate]. unfold subface in H; simpl in H. injection H as <- <- <-. auto.
Qed.
Lemma pair_state : forall k1 k2 tp g, good_state pair_mesh 2 0 [fluid k1; fluid k2] [] [tp; 0; 0; 0] [g; 0; 0; 0].
Proof.
  intros. split; [reflexivity|]. split; [reflexivity|]. split; [|split; [|split; reflexivity]].
  - intros c [<-|[<-|[]]]; simpl; lra.
  - intros b [].
Qed.
Lemma seep_state : forall k b tp g, b_vis b = 1 -> good_state seep_mesh 1 1 [fluid k] [b] [tp; 0; 0; 0] [g; 0; 0; 0].
Proof.
  intros k b tp g V. split; [reflexivity|]. split; [reflexivity|]. split; [|split; [|split; reflexivity]].
  - intros c [<-|[]]; simpl; lra.
  - intros x [<-|[]]; lra.
Qed.

(** On these meshes one number is the flux. *)
Lemma pair_faces : forall c1 c2 (F : side -> side -> Z -> Z -> nat -> R -> Prop) x, F (inl c1) (inl c2) 0%Z 1%Z 0%nat x -> on_faces pair_mesh [c1; c2] [] F (fun _ _ => x).
Proof.
  intros c1 c2 F x H iv j v f a up dn E _ Au Ad. destruct (pair_sub _ _ _ _ _ E) as [_ [_ [_ [-> ->]]]].
  assert (up = inl c1) as -> by (eapply at_side_det; [exact Au|]; split; [simpl; lia|reflexivity]).
  assert (dn = inl c2) as -> by (eapply at_side_det; [exact Ad|]; split; [simpl; lia|reflexivity]). exact H.
Qed.
Lemma seep_faces : forall c b (F : side -> side -> Z -> Z -> nat -> R -> Prop) x, F (inl c) (inr b) 0%Z (-1)%Z 0%nat x -> on_faces seep_mesh [c] [b] F (fun _ _ => x).
Proof.
  intros c b F x H iv j v f a up dn E _ Au Ad. destruct (seep_sub _ _ _ _ _ E) as [_ [_ [_ [-> ->]]]].
  assert (up = inl c) as -> by (eapply at_side_det; [exact Au|]; split; [simpl; lia|reflexivity]).
  assert (dn = inr b) as -> by (eapply at_side_det; [exact Ad|]; split; [simpl; lia|reflexivity]). exact H.
Qed.
Lemma pair_outflow : forall q, outflow pair_mesh q 0 = q 0%nat 0%nat.
Proof. intro q. unfold outflow, all_subfaces, orientation. simpl. ring. Qed.
Lemma seep_outflow : forall q, outflow seep_mesh q 0 = q 0%nat 0%nat.
Proof. intro q. unfold outflow, all_subfaces, orientation. simpl. ring. Qed.

(** The residuals of the pair for given fluxes; salt and water are stored as before. *)
Lemma pair_salinity : forall k1 k2 tp tpsi g psi x y,
  saline_water [tp; 0; 0; 0] [g; 0; 0; 0] (inl (fluid k1)) (inl (fluid k2)) 0 1 0 x ->
  saline_salt [tp; 0; 0; 0] [tpsi; 0; 0; 0] (inl (fluid k1)) (inl (fluid k2)) 0 1 0 y ->
  exists r, SNESFunction_Salinity pair_mesh [fluid k1; fluid k2] [] [tp; 0; 0; 0] [tpsi; 0; 0; 0] [g; 0; 0; 0] 1 [0; psi; 0; psi] [0; 0] (map Some [1; psi; 1; psi]) 2 = Ok r
    /\ nth_error r 0 = Some (Some x) /\ nth_error r 1 = Some (Some y).
Proof.
  intros k1 k2 tp tpsi g psi x y Hx Hy.
  destruct (salinity_ok pair_mesh 2 2 0 _ [] _ [tpsi; 0; 0; 0] _ pair_good (pair_state k1 k2 tp g) eq_refl (fun _ _ => x) (fun _ _ => y)
    (pair_faces _ _ _ _ Hx) (pair_faces _ _ _ _ Hy) 1 [0; psi; 0; psi] [0; 0] [1; psi; 1; psi] ltac:(lra) eq_refl eq_refl eq_refl) as [r [E [_ H]]].
  exists r. split; [exact E|]. destruct (H 0%nat ltac:(lia)) as [A B]. split; [etransitivity; [exact A|]|etransitivity; [exact B|]]; rewrite pair_outflow; unfold term, stored_salt, stored; simpl; do 2 f_equal; lra.
Qed.

Definition cold : heat := mkHeat 0 0 0 0 0 0 0 0 0.
Lemma pair_th : forall k1 k2 tp g x,
  th_water [tp; 0; 0; 0] (inl (fluid k1)) (inl (fluid k2)) 0 1 0 x ->
  exists r, IFunction_TH pair_mesh [fluid k1; fluid k2] [] [cold; cold] [] [tp; 0; 0; 0] [g; 0; 0; 0] [0; 0; 0; 0] [0; 0; 0; 0] 2 = Ok r
    /\ nth_error r 0 = Some (Some x).
Proof.
  intros k1 k2 tp g x Hx.
  destruct (on_faces_exists pair_mesh [fluid k1; fluid k2] [] (fun up dn zup zdn a => - mean_density up dn * mobility (if Rlt_dec (rounded (nth a [tp; 0; 0; 0] 0)) 0 then up else dn) * rounded (nth a [tp; 0; 0; 0] 0) * side_value (map e_h [cold; cold]) [] (if Rlt_dec (rounded (nth a [tp; 0; 0; 0] 0)) 0 then zup else zdn)
      - rounded (nth a [g; 0; 0; 0] 0))) as [qe QE].
  destruct (th_ok pair_mesh 2 2 0 _ [] [cold; cold] [] _ _ pair_good (pair_state k1 k2 tp g) eq_refl eq_refl (fun _ _ => x) qe (pair_faces _ _ _ _ Hx) QE [0; 0; 0; 0] [0; 0; 0; 0]) as [r [E [_ H]]].
  - simpl; lia.
  - simpl; lia.
  - intros [|[|i]] Hi; [| |lia]; (split; [intros; lia|reflexivity]).
  - exists r. split; [exact E|]. destruct (H 0%nat ltac:(lia)) as [A _]. etransitivity; [exact A|]. rewrite pair_outflow.
    unfold term2, term, water_rate; simpl. do 2 f_equal. ring.
Qed.
