(** Concrete problems for the multi-point residual and Jacobian. *)
From Coq Require Import Reals ZArith List Bool Arith Lia Lra.
From Coquelicot Require Import Coquelicot.
From Verif Require Import Prelude Arrays SpecFvtpf Mpfao MpfaoTs SpecMpfaoTs MpfaoTsProofs MpfaoJacProofs MpfaoDeriveProofs MpfaoBalanceProofs.
From Verif Require Fvtpf Region.
Import ListNotations.
Local Open Scope R_scope.

(** A fluid whose density is its pressure, and one of constant density. *)
Definition gas (x : R) : cell := mkCell x 1 0 1 0 1 0 0 1 0.
Definition water : cell := mkCell 1 0 0 1 0 1 0 0 1 0.
Definition outside (P : R) : bnd := mkBnd P 1 1 1.

Lemma gas_consistent : forall p, consistent gas p.
Proof. intro p. unfold consistent, gas; simpl. refine (conj _ (conj _ (conj _ (conj _ (conj _ _))))); auto_derive; auto; ring. Qed.
Lemma water_consistent : forall p, consistent (fun _ => water) p.
Proof. intro p. unfold consistent, water; simpl. refine (conj _ (conj _ (conj _ (conj _ (conj _ _))))); auto_derive; auto; ring. Qed.

(** Two cells, the face between them and a boundary face of the second cell. *)
Definition ex_mesh (b : bctype) : mesh :=
  mkMesh [mkFace 0 1 true; mkFace 1 (-1) true] [mkRock (1/2) 2 1 true; mkRock (1/2) 4 0 true] [mkVert true [0%nat; 1%nat] [0%nat; 0%nat] [0%nat; 1%nat]] b 0.
Definition ex_T : Trans := [[[-1; 1]; [0; -1]]].
Definition ex_l : list entry := [(0%nat, 0%nat, -1); (0%nat, 1%nat, 1); (4%nat, 1%nat, -1); (4%nat, 2%nat, 1)].
Definition ex_GD : list R := [0;0;0;0;0;0;0;0].

Lemma ex_mesh_good : forall b, good_mesh (ex_mesh b) 2 2 1.
Proof.
  intro b. split.
  - reflexivity.
  - intros [|[|[|i]]]; unfold local_cell; simpl; intro; try lia; discriminate.
  - intros v [<-|[]]. split; [reflexivity|]. split; intros a [<-|[<-|[]]]; simpl; lia.
  - intros f [<-|[<-|[]]]; simpl; lia.
Qed.
Lemma ex_sub : forall b iv j v f a, subface (ex_mesh b) iv j = Some (v, f, a) ->
  iv = 0%nat /\ v = mkVert true [0%nat; 1%nat] [0%nat; 0%nat] [0%nat; 1%nat] /\ ((j = 0%nat /\ f = mkFace 0 1 true /\ a = 0%nat) \/ (j = 1%nat /\ f = mkFace 1 (-1) true /\ a = 4%nat)).
Proof.
  intros b [|iv] j v f a H; [|unfold subface in H; simpl in H; destruct iv; discriminate].
  destruct j as [|[|j]]; [| |unfold subface in H; simpl in H; destruct j; discriminate]; unfold subface in H; simpl in H; injection H as <- <- <-; (split; [reflexivity|split; [reflexivity|]]).
  - left. auto.
  - right. auto.
Qed.
Lemma ex_vertices_good : forall b, good_vertices (ex_mesh b) ex_GD.
Proof.
  intro b. split.
  - intros iv j v f a H _. destruct (ex_sub _ _ _ _ _ _ H) as [_ [-> [[_ [-> _]]|[_ [-> _]]]]]; reflexivity.
  - intros f [<-|[<-|[]]]; simpl; lia.
  - intros v [<-|[]]. simpl. constructor; [intros [H|[]]; discriminate H|]. constructor; [intros []|constructor].
  - intros iv j v f a H k K. destruct (ex_sub _ _ _ _ _ _ H) as [_ [-> [[_ [-> _]]|[_ [-> _]]]]]; simpl in *; lia.
  - intros iv j v f a H _. destruct (ex_sub _ _ _ _ _ _ H) as [_ [_ [[_ [_ ->]]|[_ [_ ->]]]]]; reflexivity.
Qed.
Lemma ex_allocated : forall b, allocated (ex_mesh b) ex_T.
Proof.
  intros b [|iv] v H; [|destruct iv; discriminate]. injection H as <-. eexists. split; [reflexivity|].
  intros [|[|j]] Hj; simpl in Hj; [| |lia]; eexists; (split; [reflexivity|simpl; lia]).
Qed.
Lemma ex_placed : placed (ex_mesh DirichletBC) ex_T 2 ex_l.
Proof.
  intros iv j v f a H _. split; [intros [C _]; discriminate C|]. intros _ k Hk. destruct (ex_sub _ _ _ _ _ _ H) as [-> [-> [[-> [_ ->]]|[-> [_ ->]]]]];
    (destruct k as [|[|k]]; [| |lia]); unfold sum_at, column, coefficient; simpl; lra.
Qed.
Definition ex_P (c : nat) : R := match c with O => 2 | _ => 1 end.
Definition ex_TP (x : R) : list R := TtimesP (ex_mesh DirichletBC) ex_l (P_vec (Some (fun _ => 0)) (fun _ => 1%nat) 2 (with_cell ex_P 0 x)).
Lemma ex_TP_value : forall x, ex_TP x = [-1 * x + (1 * 1 + (0 + (0 + 0))); 0 + (0 + (0 + (0 + 0))); 0 + (0 + (0 + (0 + 0))); 0 + (0 + (0 + (0 + 0))); 0 + (0 + (-1 * 1 + (1 * 0 + 0))); 0 + (0 + (0 + (0 + 0))); 0 + (0 + (0 + (0 + 0))); 0 + (0 + (0 + (0 + 0)))].
Proof. intro x. reflexivity. Qed.
Lemma ex_state_good : good_state (ex_mesh DirichletBC) 2 1 (upd [water; water] 0 (gas 2)) [outside 0] (ex_TP 2) ex_GD.
Proof.
  split; [reflexivity|]. split; [reflexivity|]. split; [|split; [|split; reflexivity]].
  - intros c [<-|[<-|[]]]; simpl; lra.
  - intros b [<-|[]]; simpl; lra.
Qed.
Lemma ex_decided : decided (ex_mesh DirichletBC) (upd [water; water] 0 (gas 2)) [outside 0] (ex_TP 2) ex_GD.
Proof.
  intros iv j v f a up dn tp G H _ _ Au Ad Et EG. rewrite ex_TP_value in Et.
  destruct (ex_sub _ _ _ _ _ _ H) as [_ [_ [[_ [-> ->]]|[_ [-> ->]]]]]; simpl in Et, EG; injection Et as <-; injection EG as <-; unfold drive; lra.
Qed.

(** ** No boundary pressure function *)

Definition bd_mesh : mesh := mkMesh [mkFace 0 (-1) true] [mkRock 1 1 0 true] [mkVert true [0%nat] [0%nat] [0%nat]] DirichletBC 0.
Definition bd_l : list entry := [(0%nat, 0%nat, -1); (0%nat, 1%nat, 1)].
Definition bd_TP (x : R) : list R := TtimesP bd_mesh bd_l (P_vec None (fun _ => 0%nat) 1 (with_cell (fun _ => 0) 0 x)).
Definition bd_GD : list R := [1; 0; 0; 0].
Lemma bd_sub : forall iv j v f a, subface bd_mesh iv j = Some (v, f, a) -> iv = 0%nat /\ v = mkVert true [0%nat] [0%nat] [0%nat] /\ j = 0%nat /\ f = mkFace 0 (-1) true /\ a = 0%nat.
Proof.
  intros [|iv] j v f a H; [|unfold subface in H; simpl in H; destruct iv; discriminate].
  destruct j as [|j]; [|unfold subface in H; simpl in H; destruct j; discriminate]. unfold subface in H; simpl in H. injection H as <- <- <-. auto.
Qed.
Lemma bd_good : good_mesh bd_mesh 1 1 1 /\ good_vertices bd_mesh bd_GD /\ allocated bd_mesh [[[-1]]] /\ placed bd_mesh [[[-1]]] 1 bd_l.
Proof.
  split; [|split; [|split]].
  - split.
    + reflexivity.
    + intros [|[|i]]; unfold local_cell; simpl; intro; try lia; discriminate.
    + intros v [<-|[]]. split; [reflexivity|]. split; intros a [<-|[]]; simpl; lia.
    + intros f [<-|[]]; simpl; lia.
  - split.
    + intros iv j v f a H _. destruct (bd_sub _ _ _ _ _ H) as [_ [-> [_ [-> _]]]]. reflexivity.
    + intros f [<-|[]]; simpl; lia.
    + intros v [<-|[]]. constructor; [intros []|constructor].
    + intros iv j v f a H k K. destruct (bd_sub _ _ _ _ _ H) as [_ [-> [_ [-> _]]]]. simpl in *. lia.
    + intros iv j v f a _ [C _]. discriminate C.
  - intros [|iv] v H; [|destruct iv; discriminate]. injection H as <-. eexists. split; [reflexivity|].
    intros [|j] Hj; simpl in Hj; [|lia]; eexists; (split; [reflexivity|simpl; lia]).
  - intros iv j v f a H _. split; [intros [C _]; discriminate C|]. intros _ k Hk. destruct (bd_sub _ _ _ _ _ H) as [-> [-> [-> [_ ->]]]].
    destruct k as [|k]; [|lia]. unfold sum_at, column, coefficient; simpl; lra.
Qed.
Lemma bd_TP_value : forall x, bd_TP x = [-1 * x + (1 * x + 0); 0 + (0 + 0); 0 + (0 + 0); 0 + (0 + 0)].
Proof. intro x. reflexivity. Qed.
Lemma bd_state : forall x, good_state bd_mesh 1 1 [water] [outside 0] (bd_TP x) bd_GD /\ decided bd_mesh [water] [outside 0] (bd_TP x) bd_GD.
Proof.
  intro x. split.
  - split; [reflexivity|]. split; [reflexivity|]. split; [intros c [<-|[]]; simpl; lra|]. split; [intros b [<-|[]]; simpl; lra|]. split; reflexivity.
  - intros iv j v f a up dn tp G H _ _ Au Ad Et EG. rewrite bd_TP_value in Et.
    destruct (bd_sub _ _ _ _ _ H) as [_ [_ [_ [-> ->]]]]. simpl in Et, EG. injection Et as <-. injection EG as <-.
    destruct up as [u|u]; [|destruct Au as [P _]; simpl in P; lia]. destruct Au as [_ E]. simpl in E. injection E as <-.
    destruct dn as [d|d]; [destruct Ad as [P _]; simpl in P; lia|]. destruct Ad as [_ E]. simpl in E. injection E as <-.
    unfold drive, mean_density; simpl. lra.
Qed.
Lemma bd_residual : forall x, component (SNESFunction bd_mesh [water] [outside 0] (bd_TP x) bd_GD 1 [Some 0] 1) 0 = Some 0.
Proof.
  intro x. change [Some 0] with (map Some [0]).
  destruct (bd_state x) as [GS DU]. destruct bd_good as [GM _].
  rewrite (snes_component bd_mesh 1 1 1 [water] [outside 0] (bd_TP x) bd_GD _ GM GS (flux_of_spec _ _ _ _ _) 1 [0] 0 water (mkRock 1 1 0 true)); try reflexivity; try lra.
  f_equal. unfold all_subfaces, orientation, flux_of, stored, the_flux, drive, mean_density, mobility, coefficient. rewrite bd_TP_value. simpl.
  destruct (Rlt_dec _ 0); simpl; lra.
Qed.
Lemma bd_jacobian : forall junk x, exists B, SNESJacobian bd_mesh [water] [outside 0] (bd_TP x) bd_GD [[[-1]]] junk 1 = Ok B /\ Fvtpf.entry B 0 0 = Some 1.
Proof.
  intros junk x. destruct (bd_state x) as [GS DU]. destruct bd_good as [GM [GV [AT _]]].
  destruct (SNESJacobian_ok bd_mesh 1 1 1 [water] [outside 0] (bd_TP x) bd_GD [[[-1]]] junk GM GS GV AT 1 ltac:(lra)) as [B [E H]].
  exists B. split; [exact E|]. refine (eq_trans (H 0%nat 0%nat) _). f_equal.
  unfold all_subfaces, orientation, dflux. rewrite bd_TP_value. simpl. unfold term, dmass_dP; simpl.
  unfold jac_value, dukvr; simpl. unfold coefficient; simpl. destruct (Rlt_dec _ 0); [lra|].
  rewrite !fdiv_ok by (simpl; lra). simpl. lra.
Qed.

(** ** Two regions *)

Definition rg_mesh : mesh := mkMesh [mkFace 0 1 true] [mkRock 1 1 0 true; mkRock 1 1 0 true] [mkVert true [0%nat] [0%nat] [0%nat; 1%nat]] NeumannBC 0.
Definition rg_T : Trans := [[[-1; 1]]].
Definition rg_matrix : list (list R) := [[-1; 1]; [0; 0]; [0; 0]; [0; 0]].
Definition rg_region : Region.region := Region.RegionAddCells [1%Z; 2%Z] Region.RegionCreate.
Definition rg_GD (g : R) : list R := [g; 0; 0; 0].
(** The product with the matrix after UpdateTransmissibilityMatrix. *)
Definition rg_TP (x : R) : list R := map (fun row => Region.row_times row [x; 1]) [[0; 0]; [0; 0]; [0; 0]; [0; 0]].
Lemma rg_update : Region.UpdateTransmissibilityMatrix rg_region [(0%Z, 1%Z)] rg_matrix = Ok [[0; 0]; [0; 0]; [0; 0]; [0; 0]].
Proof. reflexivity. Qed.
Lemma rg_sub : forall iv j v f a, subface rg_mesh iv j = Some (v, f, a) -> iv = 0%nat /\ v = mkVert true [0%nat] [0%nat] [0%nat; 1%nat] /\ j = 0%nat /\ f = mkFace 0 1 true /\ a = 0%nat.
Proof.
  intros [|iv] j v f a H; [|unfold subface in H; simpl in H; destruct iv; discriminate].
  destruct j as [|j]; [|unfold subface in H; simpl in H; destruct j; discriminate]. unfold subface in H; simpl in H. injection H as <- <- <-. auto.
Qed.
Lemma rg_good : good_mesh rg_mesh 2 2 0 /\ (forall g, good_vertices rg_mesh (rg_GD g)) /\ allocated rg_mesh rg_T.
Proof.
  split; [|split].
  - split.
    + reflexivity.
    + intros [|[|[|i]]]; unfold local_cell; simpl; intro; try lia; discriminate.
    + intros v [<-|[]]. split; [reflexivity|]. split; intros a [<-|[]]; simpl; lia.
    + intros f [<-|[]]; simpl; lia.
  - intro g. split.
    + intros iv j v f a H _. destruct (rg_sub _ _ _ _ _ H) as [_ [-> [_ [-> _]]]]. reflexivity.
    + intros f [<-|[]]; simpl; lia.
    + intros v [<-|[]]. constructor; [intros [C|[]]; discriminate C|]. constructor; [intros []|constructor].
    + intros iv j v f a H k K. destruct (rg_sub _ _ _ _ _ H) as [_ [-> [_ [-> _]]]]. simpl in *. lia.
    + intros iv j v f a H [_ C]. destruct (rg_sub _ _ _ _ _ H) as [_ [_ [_ [-> _]]]]. simpl in C. lia.
  - intros [|iv] v H; [|destruct iv; discriminate]. injection H as <-. eexists. split; [reflexivity|].
    intros [|j] Hj; simpl in Hj; [|lia]; eexists; (split; [reflexivity|simpl; lia]).
Qed.
Lemma rg_state : forall g x, good_state rg_mesh 2 0 [water; water] [] (rg_TP x) (rg_GD g).
Proof.
  intros g x. split; [reflexivity|]. split; [reflexivity|]. split; [intros c [<-|[<-|[]]]; simpl; lra|]. split; [intros b []|]. split; reflexivity.
Qed.
Lemma rg_decided : forall x, decided rg_mesh [water; water] [] (rg_TP x) (rg_GD 1).
Proof.
  intros x iv j v f a up dn tp G H _ _ Au Ad Et EG.
  destruct (rg_sub _ _ _ _ _ H) as [_ [_ [_ [-> ->]]]]. simpl in Et, EG. injection Et as <-. injection EG as <-.
  destruct up as [u|u]; [|destruct Au as [P _]; simpl in P; lia]. destruct Au as [_ E]. simpl in E. injection E as <-.
  destruct dn as [d|d]; [|destruct Ad as [P _]; simpl in P; lia]. destruct Ad as [_ E]. simpl in E. injection E as <-.
  unfold drive, mean_density; simpl. lra.
Qed.
Lemma rg_residual : forall g x, 0 < g -> exists r, IFunction rg_mesh [water; water] [] (rg_TP x) (rg_GD g) [0; 0] 2 = Ok (map Some r) /\ length r = 2%nat /\ nth 0 r 0 = - g /\ nth 1 r 0 = g.
Proof.
  intros g x Hg. destruct rg_good as [GM _].
  destruct (balance rg_mesh 2 2 0 [water; water] [] (rg_TP x) (rg_GD g) _ GM (rg_state g x) (flux_of_spec _ _ _ _ _) [0; 0] eq_refl) as [r [E [L [H _]]]].
  exists r. split; [exact E|]. split; [exact L|].
  rewrite (H 0%nat), (H 1%nat) by lia.
  unfold all_subfaces, orientation, flux_of, term, storage_rate, the_flux, drive, mean_density, mobility; simpl.
  destruct (Rlt_dec _ 0); [lra|]. simpl. split; lra.
Qed.
Lemma rg_snes : forall x, component (SNESFunction rg_mesh [water; water] [] (rg_TP x) (rg_GD 1) 1 (map Some [0; 0]) 2) 0 = Some 0.
Proof.
  intro x. destruct rg_good as [GM _].
  rewrite (snes_component rg_mesh 2 2 0 [water; water] [] (rg_TP x) (rg_GD 1) _ GM (rg_state 1 x) (flux_of_spec _ _ _ _ _) 1 [0; 0] 0 water (mkRock 1 1 0 true)); try reflexivity; try lra.
  f_equal. unfold all_subfaces, orientation, flux_of, stored, the_flux, drive, mean_density, mobility; simpl. destruct (Rlt_dec _ 0); simpl; lra.
Qed.
Lemma rg_jacobian : forall junk x, exists B, SNESJacobian rg_mesh [water; water] [] (rg_TP x) (rg_GD 1) rg_T junk 1 = Ok B /\ Fvtpf.entry B 0 0 = Some 1.
Proof.
  intros junk x. destruct rg_good as [GM [GV AT]].
  destruct (SNESJacobian_ok rg_mesh 2 2 0 [water; water] [] (rg_TP x) (rg_GD 1) rg_T junk GM (rg_state 1 x) (GV 1) AT 1 ltac:(lra)) as [B [E H]].
  exists B. split; [exact E|]. refine (eq_trans (H 0%nat 0%nat) _). f_equal.
  unfold all_subfaces, orientation, dflux. simpl. unfold term, dmass_dP; simpl.
  unfold jac_value, dukvr; simpl. unfold coefficient; simpl. destruct (Rlt_dec _ 0); [lra|].
  rewrite !fdiv_ok by (simpl; lra). simpl. lra.
Qed.

(** ** One cell of volume 2 *)

Definition lone_mesh (src : R) : mesh := mkMesh [] [mkRock 1 2 src true] [] NeumannBC 0.
Lemma lone_good : forall src, good_mesh (lone_mesh src) 1 1 0 /\ good_state (lone_mesh src) 1 0 [water] [] [] [].
Proof.
  intro src. split.
  - split.
    + reflexivity.
    + intros [|[|i]]; unfold local_cell; simpl; intro; try lia; discriminate.
    + intros v [].
    + intros f [].
  - split; [reflexivity|]. split; [reflexivity|]. split; [intros c [<-|[]]; simpl; lra|]. split; [intros b []|]. split; reflexivity.
Qed.
