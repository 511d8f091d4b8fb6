(** The global system of the BDM method. *)
From Coq Require Import Reals List ZArith Bool Arith Lia Lra.
From Verif Require Import Prelude Arrays SpecFvtpf FvtpfSumProofs MpfaoProofs Hdiv SpecHdiv HdivProofs FeMap Bdm SpecBdm BdmProofs BdmLocalProofs BdmInverseProofs.
Import ListNotations.
Local Open Scope R_scope.

Definition hit (x y : Z) : R := if (x =? y)%Z then 1 else 0.

Lemma assemble_ok : forall n L s A F, (n <= length L)%nat -> (n * n <= length (fst s))%nat -> (n <= length (snd s))%nat ->
  exists A' F', assemble n L s A F = Ok (A', F')
    /\ (forall r k, A' r k = A r k + total (fun i => total (fun j => hit r (nth i L 0%Z) * hit k (nth j L 0%Z) * nth (i * n + j) (fst s) 0) n) n)
    /\ (forall r, F' r = F r + total (fun i => hit r (nth i L 0%Z) * nth i (snd s) 0) n).
Proof.
  intros n L s A F HL HM HF. unfold assemble.
  assert (IN : forall i A0, (i < n)%nat -> exists A1, for_ n (fun j A =>
      do r <- rd L i; do k <- rd L j; do x <- rd (fst s) (i * n + j); Ok (add_value A r k x)) A0 = Ok A1 /\
      forall r k, A1 r k = A0 r k + total (fun j => hit r (nth i L 0%Z) * hit k (nth j L 0%Z) * nth (i * n + j) (fst s) 0) n).
  { intros i A0 Hi.
    apply (for_inv (fun t A1 => forall r k, A1 r k = A0 r k + total (fun j => hit r (nth i L 0%Z) * hit k (nth j L 0%Z) * nth (i * n + j) (fst s) 0) t)).
    - intros r k. simpl. lra.
    - intros j A1 Hj P. rewrite !(rd_nth 0%Z) by lia. cbn [bind]. rewrite (rd_nth 0) by nia. cbn [bind]. eexists. split; [reflexivity|].
      intros r k. unfold add_value. simpl. rewrite P. unfold hit. destruct (r =? nth i L 0)%Z, (k =? nth j L 0)%Z; cbn [andb]; ring. }
  destruct (for_inv (fun t A1 => forall r k, A1 r k = A r k + total (fun i => total (fun j => hit r (nth i L 0%Z) * hit k (nth j L 0%Z) * nth (i * n + j) (fst s) 0) n) t)
    (fun i A => for_ n (fun j A => do r <- rd L i; do k <- rd L j; do x <- rd (fst s) (i * n + j); Ok (add_value A r k x)) A) n A) as [A' [EA PA]].
  - intros r k. simpl. lra.
  - intros i A1 Hi P. destruct (IN i A1 Hi) as [A2 [E2 P2]]. exists A2. split; [exact E2|]. intros r k. rewrite P2, P. simpl. ring.
  - rewrite EA. cbn [bind].
    destruct (for_inv (fun t F1 => forall r, F1 r = F r + total (fun i => hit r (nth i L 0%Z) * nth i (snd s) 0) t)
      (fun i F => do r <- rd L i; do x <- rd (snd s) i; Ok (add_entry F r x)) n F) as [F' [EF PF]].
    + intro r. simpl. lra.
    + intros i F1 Hi P. rewrite (rd_nth 0%Z) by lia. cbn [bind]. rewrite (rd_nth 0) by lia. cbn [bind]. eexists. split; [reflexivity|].
      intro r. unfold add_entry. simpl. rewrite P. unfold hit. destruct (r =? nth i L 0)%Z; ring.
    + rewrite EF. cbn [bind]. exists A', F'. split; [reflexivity|]. split; [exact PA|exact PF].
Qed.

Lemma total_hit : forall z (h : nat -> R) size, (0 <= z < Z.of_nat size)%Z -> total (fun j => hit (Z.of_nat j) z * h j) size = h (Z.to_nat z).
Proof.
  intros z h size Hz. rewrite (total_ext _ (fun j => if (Z.to_nat z =? j)%nat then h j else 0)).
  - apply total_pick. lia.
  - intros j _. unfold hit. destruct (Z.eqb_spec (Z.of_nat j) z), (Nat.eqb_spec (Z.to_nat z) j); try lia; ring.
Qed.

Section system.
Variable b : problem.
Let m := b_mesh b.
Let dim := p_dim m.
Let nv := (2 ^ dim)%nat.
Let N := (dim * nv)%nat.
Let n := (N + 1)%nat.
Variables (K : list (list R)) (Kinv : nat -> list R) (place : nat -> nat -> nat * bool).
Hypothesis WP : well_posed b K Kinv place.

Let SZ : sized b := wp_sized _ _ _ _ WP.
Definition inv_of (c : nat) : list R := Inverse dim (b_lu b) (nth c K []).
Definition loc (c : nat) : list R * list R := match local_system b (inv_of c) c with Ok s => s | _ => ([], []) end.

Lemma inv_det : forall c, (c < p_cells m)%nat -> determinant dim (nth c K []) <> 0.
Proof.
  intros c Hc. destruct (wp_tensor _ _ _ _ WP c Hc) as [L _]. destruct (wp_inverse _ _ _ _ WP c Hc) as [L' I].
  apply (inverse_det dim _ (proj1 SZ) L (Kinv c) L' I).
Qed.
Lemma inv_length : forall c, (c < p_cells m)%nat -> length (inv_of c) = (dim * dim)%nat.
Proof. intros c Hc. unfold inv_of. destruct (wp_tensor _ _ _ _ WP c Hc) as [LK _]. apply inverse_length; [exact (proj1 SZ)|exact LK|apply inv_det; exact Hc]. Qed.
Lemma inv_transpose : forall c, (c < p_cells m)%nat -> forall i j, (i < dim)%nat -> (j < dim)%nat -> nth (i * dim + j) (Kinv c) 0 = nth (j * dim + i) (inv_of c) 0.
Proof.
  intros c Hc i j Hi Hj. destruct (wp_tensor _ _ _ _ WP c Hc) as [L S]. destruct (wp_inverse _ _ _ _ WP c Hc) as [L' I]. unfold inv_of.
  rewrite <- (inverse_symmetric dim _ (proj1 SZ) L (b_lu b) (inv_det c Hc) S i j Hi Hj). symmetry.
  apply (inverse_unique dim _ (proj1 SZ) L (b_lu b) (Kinv c) L' I i j Hi Hj).
Qed.
Lemma loc_ok : forall c, (c < p_cells m)%nat -> local_system b (inv_of c) c = Ok (loc c) /\ length (fst (loc c)) = 625%nat /\ length (snd (loc c)) = 625%nat.
Proof.
  intros c Hc.
  destruct (local_ok b SZ c Hc (inv_of c) (inv_length c Hc) (shapes b c) (basis_exists b c SZ (wp_regular _ _ _ _ WP c Hc)) (place c) (fun f Hf => wp_place _ _ _ _ WP c f Hc Hf))
    as [M [F [E [L1 [L2 _]]]]]. unfold loc. rewrite E. auto.
Qed.
Lemma loc_weak : forall c phi, (c < p_cells m)%nat -> basis_functions b c phi -> forall V Q,
  (forall U P, total (fun i => total (fun j => with_last b V Q i * entry b (loc c) i j * with_last b U P j) n) n = bilinear b c phi (Kinv c) U P V Q)
  /\ total (fun i => with_last b V Q i * nth i (snd (loc c)) 0) n = linear b c phi (place c) V Q.
Proof.
  intros c phi Hc HB. apply (local_weak b SZ c Hc (inv_of c) (inv_length c Hc) phi HB (place c) (fun f Hf => wp_place _ _ _ _ WP c f Hc Hf) (Kinv c) (loc c) (inv_transpose c Hc)).
  apply loc_ok. exact Hc.
Qed.

Let L (c i : nat) : Z := number_of b c i.
Definition partA (c : nat) (r k : Z) : R := total (fun i => total (fun j => hit r (L c i) * hit k (L c j) * entry b (loc c) i j) n) n.
Definition partF (c : nat) (r : Z) : R := total (fun i => hit r (L c i) * nth i (snd (loc c)) 0) n.

Lemma small : (n * n <= 625)%nat.
Proof. destruct (proj1 SZ) as [E|E]; unfold n, N, nv, dim; fold m in E; rewrite E; simpl; lia. Qed.
Lemma compute_ok : exists s, ComputeSystem b (mkState K (fun _ _ => 0) (fun _ => 0)) = Ok s
  /\ (forall r k, s_A s r k = total (fun c => partA c r k) (p_cells m)) /\ (forall r, s_F s r = total (fun c => partF c r) (p_cells m)).
Proof.
  unfold ComputeSystem. fold m.
  destruct (for_inv (fun t s => length (s_K s) = p_cells m /\ (forall c, (t <= c)%nat -> nth c (s_K s) [] = nth c K [])
    /\ (forall r k, s_A s r k = total (fun c => partA c r k) t) /\ (forall r, s_F s r = total (fun c => partF c r) t))
    (compute_cell b) (p_cells m) (mkState K (fun _ _ => 0) (fun _ => 0))) as [s [E [_ [_ [PA PF]]]]].
  - cbn [s_K s_A s_F]. split; [exact (wp_tensors _ _ _ _ WP)|]. repeat split.
  - intros c s Hc [LK [PK [PA PF]]]. unfold compute_cell. destruct (Z.ltb_spec (b_start b c) 0) as [X|_]; [pose proof (wp_owned _ _ _ _ WP c Hc); lia|].
    rewrite (rd_nth []) by lia. cbn [bind]. rewrite PK by lia. fold m dim. fold (inv_of c).
    destruct (loc_ok c Hc) as [E1 [L1 L2]]. rewrite E1. cbn [bind]. rewrite (n_eq b SZ). fold m dim nv N n.
    pose proof small as SM.
    assert (LG : (n <= length (skipn (c * n) (b_LtoG b)))%nat).
    { rewrite skipn_length. destruct SZ as [_ [_ [_ [-> _]]]]. fold m dim nv N n. fold m in Hc. nia. }
    destruct (assemble_ok n (skipn (c * n) (b_LtoG b)) (loc c) (s_A s) (s_F s) LG ltac:(lia) ltac:(nia)) as [A' [F' [E2 [QA QF]]]].
    rewrite E2. cbn [bind fst snd]. eexists. split; [reflexivity|]. cbn [s_K s_A s_F].
    split; [rewrite length_upd; exact LK|]. split; [|split].
    + intros c' Hc'. rewrite <- (PK c') by lia.
      assert (X : nth_error (upd (s_K s) c (inv_of c)) c' = nth_error (s_K s) c') by (apply nth_upd_other; lia).
      destruct (nth_error (s_K s) c') eqn:Y.
      * rewrite (nth_error_nth _ _ [] X), (nth_error_nth _ _ [] Y). reflexivity.
      * apply nth_error_None in X, Y. rewrite !nth_overflow by assumption. reflexivity.
    + intros r k. rewrite QA, PA. simpl. apply (f_equal (Rplus _)). apply total_ext. intros i _. apply total_ext. intros j _.
      rewrite !nth_skipn_any. reflexivity.
    + intros r. rewrite QF, PF. simpl. apply (f_equal (Rplus _)). apply total_ext. intros i _. rewrite nth_skipn_any. reflexivity.
  - exists s. split; [exact E|]. split; [exact PA|exact PF].
Qed.

Variable size : nat.
Hypothesis RG : in_range b size.

Lemma with_cell : forall U c i, (i < n)%nat -> with_last b (at_cell b U c) (pressure_at b U c) i = U (Z.to_nat (L c i)).
Proof.
  intros U c i Hi. unfold with_last, pressure_at, at_cell. fold m dim nv N. destruct (Nat.ltb_spec i N); [reflexivity|].
  replace i with N by (unfold n in Hi; lia). reflexivity.
Qed.
Lemma apply_A : forall s V U, (forall r k, s_A s r k = total (fun c => partA c r k) (p_cells m)) ->
  total (fun i => V i * total (fun j => s_A s (Z.of_nat i) (Z.of_nat j) * U j) size) size
  = total (fun c => total (fun i => total (fun j => V (Z.to_nat (L c i)) * entry b (loc c) i j * U (Z.to_nat (L c j))) n) n) (p_cells m).
Proof.
  intros s V U HA.
  assert (ROW : forall i, total (fun j => s_A s (Z.of_nat i) (Z.of_nat j) * U j) size
    = total (fun c => total (fun p => hit (Z.of_nat i) (L c p) * total (fun q => entry b (loc c) p q * U (Z.to_nat (L c q))) n) n) (p_cells m)).
  { intro i. rewrite (total_ext _ (fun j => total (fun c => partA c (Z.of_nat i) (Z.of_nat j) * U j) (p_cells m))).
    2: { intros j _. rewrite HA, total_scale. reflexivity. }
    rewrite total_swap. apply total_ext. intros c Hc. unfold partA.
    rewrite (total_ext _ (fun j => total (fun p => total (fun q => hit (Z.of_nat i) (L c p) * (hit (Z.of_nat j) (L c q) * (entry b (loc c) p q * U j))) n) n)).
    2: { intros j _. rewrite <- total_scale. apply total_ext. intros p _. rewrite <- total_scale. apply total_ext. intros q _. ring. }
    rewrite total_swap. apply total_ext. intros p _. rewrite total_swap. rewrite <- total_scale_l. apply total_ext. intros q Hq.
    rewrite total_scale_l. rewrite (total_hit (L c q) (fun j => entry b (loc c) p q * U j)); [reflexivity|]. apply RG; [exact Hc|exact Hq]. }
  rewrite (total_ext _ (fun i => total (fun c => total (fun p => hit (Z.of_nat i) (L c p) * (V i * total (fun q => entry b (loc c) p q * U (Z.to_nat (L c q))) n)) n) (p_cells m))).
  2: { intros i _. rewrite ROW, <- total_scale_l. apply total_ext. intros c _. rewrite <- total_scale_l. apply total_ext. intros p _. ring. }
  rewrite total_swap. apply total_ext. intros c Hc. rewrite total_swap. apply total_ext. intros p Hp.
  rewrite (total_hit (L c p) (fun i => V i * total (fun q => entry b (loc c) p q * U (Z.to_nat (L c q))) n)) by (apply RG; [exact Hc|exact Hp]).
  rewrite <- total_scale_l. apply total_ext. intros q _. ring.
Qed.
Lemma apply_F : forall s V, (forall r, s_F s r = total (fun c => partF c r) (p_cells m)) ->
  total (fun i => V i * s_F s (Z.of_nat i)) size = total (fun c => total (fun i => V (Z.to_nat (L c i)) * nth i (snd (loc c)) 0) n) (p_cells m).
Proof.
  intros s V HF. rewrite (total_ext _ (fun i => total (fun c => total (fun p => hit (Z.of_nat i) (L c p) * (V i * nth p (snd (loc c)) 0)) n) (p_cells m))).
  2: { intros i _. rewrite HF, <- total_scale_l. apply total_ext. intros c _. unfold partF. rewrite <- total_scale_l. apply total_ext. intros p _. ring. }
  rewrite total_swap. apply total_ext. intros c Hc. rewrite total_swap. apply total_ext. intros p Hp.
  rewrite (total_hit (L c p) (fun i => V i * nth p (snd (loc c)) 0)); [reflexivity|]. apply RG; [exact Hc|exact Hp].
Qed.

Lemma system_forms : exists s, ComputeSystem b (mkState K (fun _ _ => 0) (fun _ => 0)) = Ok s /\
  forall phi, (forall c, (c < p_cells m)%nat -> basis_functions b c (phi c)) -> forall V,
  (forall U, total (fun i => V i * total (fun j => s_A s (Z.of_nat i) (Z.of_nat j) * U j) size) size
    = total (fun c => bilinear b c (phi c) (Kinv c) (at_cell b U c) (pressure_at b U c) (at_cell b V c) (pressure_at b V c)) (p_cells m))
  /\ total (fun i => V i * s_F s (Z.of_nat i)) size = total (fun c => linear b c (phi c) (place c) (at_cell b V c) (pressure_at b V c)) (p_cells m).
Proof.
  destruct compute_ok as [s [E [HA HF]]]. exists s. split; [exact E|]. intros phi HB V. split.
  - intro U. rewrite (apply_A s V U HA). apply total_ext. intros c Hc.
    rewrite <- (proj1 (loc_weak c (phi c) Hc (HB c Hc) (at_cell b V c) (pressure_at b V c))).
    apply total_ext. intros i Hi. apply total_ext. intros j Hj. rewrite !with_cell by assumption. reflexivity.
  - rewrite (apply_F s V HF). apply total_ext. intros c Hc.
    rewrite <- (proj2 (loc_weak c (phi c) Hc (HB c Hc) (at_cell b V c) (pressure_at b V c))).
    apply total_ext. intros i Hi. rewrite with_cell by exact Hi. reflexivity.
Qed.
Lemma rows : forall (f g : nat -> R), (forall i, (i < size)%nat -> f i = g i) <-> (forall V, total (fun i => V i * f i) size = total (fun i => V i * g i) size).
Proof.
  intros f g. split.
  - intros H V. apply total_ext. intros i Hi. rewrite (H i Hi). reflexivity.
  - intros W i Hi. specialize (W (fun j => if (i =? j)%nat then 1 else 0)).
    rewrite (total_ext _ (fun j => if (i =? j)%nat then f j else 0)) in W by (intros k _; destruct (i =? k)%nat; ring).
    rewrite (total_ext (fun j => _ * g j) (fun j => if (i =? j)%nat then g j else 0)) in W by (intros k _; destruct (i =? k)%nat; ring).
    rewrite (total_pick f), (total_pick g) in W by exact Hi. exact W.
Qed.
Lemma system_proof : exists s, ComputeSystem b (mkState K (fun _ _ => 0) (fun _ => 0)) = Ok s /\
  forall phi, (forall c, (c < p_cells m)%nat -> basis_functions b c (phi c)) -> forall U, solves s size U <-> weak_solution b phi Kinv place U.
Proof.
  destruct system_forms as [s [E H]]. exists s. split; [exact E|]. intros phi HB U. unfold solves, weak_solution. fold m. rewrite rows.
  split; intros W V; destruct (H phi HB V) as [H1 H2].
  - rewrite <- H1, <- H2. apply W.
  - rewrite H1, H2. apply W.
Qed.
End system.
