From Coq Require Import Reals ZArith List Bool Arith Lia Lra.
From Verif Require Import Prelude Arrays Fvtpf SpecFvtpf FvtpfProofs FvtpfSumProofs.
Import ListNotations.
Local Open Scope R_scope.

Lemma coeff_and : forall a b, coeff (a && b) = if a then coeff b else 0.
Proof. intros [] []; reflexivity. Qed.

(** ** Conservation *)
Lemma conservation_proof : forall g cs bs prev junk n vs,
  SNESFunction g cs bs prev junk n = Ok (map Some vs) ->
  (forall i, (n <= i)%nat -> local_cell g i = false) ->
  let q := fun j => res_of (interior_result g cs junk j) in
  let b := fun j => res_of (boundary_result g cs bs j) in
  let acc := fun i => val (acc_of g cs i) in
  fold_right Rplus 0 vs =
    total (fun i => if local_cell g i then acc i - nth i prev 0 - src_of g i else 0) n
    + total (fun j => crossing g j * q j) (length (faces g))
    - total (fun j => coeff (boundary_open g j) * b j) (length (faces g)).
Proof.
  intros g cs bs prev junk n vs H Hl q b acc.
  pose proof (residual_length _ _ _ _ _ _ _ H) as L. rewrite map_length in L.
  rewrite <- total_list, L.
  rewrite (total_ext _ (cell_balance g q b acc (fun i => nth i prev 0) (src_of g))).
  2:{ intros i Hi. apply (cell_residual_proof g cs bs prev junk n _ i (nth i vs 0) H).
      rewrite nth_error_map. rewrite (nth_error_nth' vs 0) by lia. reflexivity. }
  unfold cell_balance. rewrite total_plus, total_minus.
  rewrite (total_swap (fun i j => (coeff (leaves g j i) - coeff (enters g j i)) * q j)), (total_swap (fun i j => coeff (bounds g j i) * b j)).
  assert (E1 : total (fun j => total (fun i => (coeff (leaves g j i) - coeff (enters g j i)) * q j) n) (length (faces g))
             = total (fun j => crossing g j * q j) (length (faces g))).
  { apply total_ext. intros j Hj. rewrite total_scale. f_equal. rewrite total_minus. unfold leaves, enters, crossing.
    destruct (nth_error (faces g) j) as [f|]; [|rewrite !total_zero; ring].
    destruct (f_local f && f_internal f); simpl andb; [|rewrite !total_zero; ring].
    rewrite !total_select.
    assert (G : forall z, (0 <=? z)%Z && (z <? Z.of_nat n)%Z && local_cell g (Z.to_nat z) = owned g z).
    { intro z. unfold owned. destruct (Z.leb_spec 0 z); [|reflexivity]. simpl. destruct (Z.ltb_spec z (Z.of_nat n)); [reflexivity|].
      symmetry. apply Hl. lia. }
    rewrite !G. reflexivity. }
  assert (E2 : total (fun j => total (fun i => coeff (bounds g j i) * b j) n) (length (faces g))
             = total (fun j => coeff (boundary_open g j) * b j) (length (faces g))).
  { apply total_ext. intros j Hj. rewrite total_scale.
    (* a boundary face that reaches the residual writes inside it *)
    assert (R : boundary_open g j = true -> exists f, nth_error (faces g) j = Some f /\ (0 <= f_dn f < Z.of_nat n)%Z).
    { intro O. unfold boundary_open in O. destruct (nth_error (faces g) j) as [f|] eqn:F; [|discriminate O]. exists f. split; [reflexivity|].
      unfold SNESFunction in H.
      destruct (for_ (length (faces g)) (internal_face g cs junk) (repeat (Some 0) n)) as [r1| |] eqn:E1'; try discriminate H. simpl in H.
      destruct (for_ (length (faces g)) (boundary_face g cs bs) r1) as [r2| |] eqn:E2'; try discriminate H. clear H.
      assert (L1 : length r1 = n).
      { apply (for_preserves (fun _ r => length r = n) _ _ _ _ E1'); [apply repeat_length|].
        intros k s s' _ IH Es. rewrite (internal_face_length _ _ _ _ _ _ Es). exact IH. }
      assert (G : length r2 = n /\ ((j < length (faces g))%nat -> (0 <= f_dn f < Z.of_nat n)%Z)).
      { apply (for_preserves (fun k r => length r = n /\ ((j < k)%nat -> (0 <= f_dn f < Z.of_nat n)%Z)) _ _ _ _ E2'); [split; [exact L1|lia]|].
        intros k s s' _ [IH1 IH2] Es. split; [rewrite (boundary_face_length _ _ _ _ _ _ Es); exact IH1|]. intro Hjk.
        destruct (Nat.eq_dec j k) as [<-|Hne]; [|apply IH2; lia].
        unfold boundary_face in Es. rewrite (rd_some _ _ _ F) in Es. simpl in Es.
        destruct (f_local f); [|discriminate O]. destruct (f_internal f); [discriminate O|]. simpl in Es, O. unfold open_face in O.
        assert (Q : forall o, (do Res <- o; sub_at s (f_dn f) Res) = Ok s' -> (0 <= f_dn f < Z.of_nat n)%Z).
        { intros [Res| |] E; try discriminate E. simpl in E. apply sub_at_inv in E. destruct E as [Z0 [x [Hx _]]]. apply nth_lt in Hx. lia. }
        destruct (f_bc f); [eapply Q; exact Es|discriminate O|eapply Q; exact Es|discriminate Es]. }
      apply (proj2 G). exact Hj. }
    f_equal. unfold bounds, boundary_open in *. destruct (nth_error (faces g) j) as [f|]; [|apply total_zero].
    destruct (f_local f && negb (f_internal f) && open_face f); simpl andb in *; [|apply total_zero].
    destruct (R eq_refl) as [f' [Ef Hd]]. injection Ef as <-.
    rewrite (total_ext _ (fun i => coeff ((f_dn f =? Z.of_nat i)%Z && true))) by (intros; rewrite andb_true_r; reflexivity).
    rewrite (total_select (f_dn f) (fun _ => true)). rewrite (proj2 (Z.leb_le _ _)), (proj2 (Z.ltb_lt _ _)) by lia. reflexivity. }
  rewrite E1, E2. ring.
Qed.

(** When every cell belongs to the process the interior faces cancel. *)
Lemma crossing_owned : forall g j,
  (forall f, In f (faces g) -> f_local f = true -> f_internal f = true -> owned g (f_up f) = true /\ owned g (f_dn f) = true) -> crossing g j = 0.
Proof.
  intros g j H. unfold crossing. destruct (nth_error (faces g) j) as [f|] eqn:F; [|reflexivity].
  destruct (f_local f) eqn:L; [|reflexivity]. destruct (f_internal f) eqn:I; [|reflexivity]. simpl.
  apply nth_error_In in F. destruct (H f F L I) as [-> ->]. simpl. ring.
Qed.

(** ** The residual of a well-formed problem is defined *)
Lemma at_ok : forall {A} (l : list A) z x, (0 <= z)%Z -> nth_error l (Z.to_nat z) = Some x -> at_ l z = Ok x.
Proof. intros A l z x Hz Hx. unfold at_. destruct (Z.ltb_spec z 0); [lia|]. apply rd_some. exact Hx. Qed.

Lemma diagonal_ok : forall g z k, (0 <= z)%Z -> diagonal_at g (Z.to_nat z) k -> diagonal g z = Ok k.
Proof.
  intros g z [[k0 k1] k2] Hz [H0 [H1 H2]]. unfold diagonal.
  rewrite (at_ok (K0 g) (z * 9 + 0 * 3 + 0) k0); [|lia|rewrite <- H0; f_equal; lia]. cbn [bind].
  rewrite (at_ok (K0 g) (z * 9 + 1 * 3 + 1) k1); [|lia|rewrite <- H1; f_equal; lia]. cbn [bind].
  rewrite (at_ok (K0 g) (z * 9 + 2 * 3 + 2) k2); [|lia|rewrite <- H2; f_equal; lia]. reflexivity.
Qed.

Lemma face_permeability_ok : forall g n nb f, good_grid g n nb -> good_face n nb f ->
  exists Dq, ComputeFacePermeability g f = Ok (Some Dq) /\ 0 < Dq.
Proof.
  intros g n nb f [L [T [_ HK]]] [Du [Dd [_ [U [Rd_ Ri]]]]]. unfold ComputeFacePermeability, ExtractUpAndDown.
  destruct Rd_ as [Z0 Z1]. destruct (Z.ltb_spec (f_dn f) 0); [lia|]. rewrite andb_false_r.
  destruct (HK (Z.to_nat (f_dn f))) as [kd [Kd Pd]]; [lia|].
  assert (Up : exists ku, diagonal g (if (0 <=? f_up f)%Z then f_up f else f_dn f) = Ok ku /\ positive3 ku).
  { destruct (Z.leb_spec 0 (f_up f)) as [Hu|Hu].
    - assert (in_range (f_up f) n) as [_ Hu2] by (destruct (f_internal f); [apply Ri|lia]).
      destruct (HK (Z.to_nat (f_up f))) as [ku [Ku Pu]]; [lia|]. exists ku. split; [apply diagonal_ok; assumption|exact Pu].
    - exists kd. split; [apply diagonal_ok; assumption|exact Pd]. }
  destruct Up as [ku [-> Pu]]. cbn [bind]. rewrite (proj2 (Z.leb_le 0 (f_dn f)) Z0). rewrite (diagonal_ok g (f_dn f) kd) by assumption.
  cbn [bind]. simpl fst. simpl snd.
  destruct (face_value_mean_proof (f_unit f) (f_dist_up f) (f_dist_dn f) ku kd Pu Pd U Du Dd) as [v [E [Pv _]]].
  exists v. rewrite E. auto.
Qed.

Lemma weight_defined : forall g f Su Sd, 0 < f_dist_up f -> 0 < f_dist_dn f -> exists w, set_weight Su Sd (snd (CalculateDistances g f)) = Some w.
Proof.
  intros g f Su Sd Hu Hd. rewrite upweight_ok by assumption. destruct (density_ok _ _ Su Sd 0 0 Hu Hd) as [w [_ [E _]]]. exists w. exact E.
Qed.

Lemma in_range_nth : forall {A} (l : list A) z n, length l = n -> in_range z n -> exists x, nth_error l (Z.to_nat z) = Some x.
Proof.
  intros A l z n L [H0 H1]. destruct (nth_error l (Z.to_nat z)) as [x|] eqn:E; [exists x; reflexivity|].
  apply nth_error_None in E. lia.
Qed.

Definition all_local (g : grid) : Prop := forall f, In f (faces g) -> owned g (f_up f) = true.

Section Defined.
Variables (g : grid) (n nb : nat) (cs : list cell) (bs : list bnd).
Hypothesis G : good_grid g n nb.
Hypothesis Lc : length cs = n.
Hypothesis Gc : forall c, In c cs -> good_cell c.

Lemma interior_defined : forall junk j f, nth_error (faces g) j = Some f -> f_local f = true -> f_internal f = true -> wet g cs ->
  exists v, interior_result g cs junk j = Ok (Some v).
Proof.
  intros junk j f F L I W. unfold interior_result, RichardsResidual. rewrite (rd_some _ _ _ F). cbn [bind].
  pose proof (nth_error_In _ _ F) as Fin. pose proof (proj1 (proj2 (proj2 G)) f Fin) as GF.
  destruct (face_permeability_ok g n nb f G GF) as [Dq [EDq _]].
  destruct GF as [Du [Dd [_ [_ [Rd_ Ri]]]]]. rewrite I in Ri. destruct Ri as [Ru _].
  destruct (W f Fin L I) as [up [dn [Eu [Ed K]]]].
  change (CalculateDistances g f) with (fst (CalculateDistances g f), snd (CalculateDistances g f)).
  cbv iota. rewrite EDq. cbn [bind].
  rewrite (at_ok cs (f_up f) up) by (try assumption; apply Ru). cbn [bind].
  rewrite (at_ok cs (f_dn f) dn) by (try assumption; apply Rd_). cbn [bind]. simpl ignore_error.
  destruct (Gc up (nth_error_In _ _ Eu)) as [Vu _]. destruct (Gc dn (nth_error_In _ _ Ed)) as [Vd _].
  pose proof (richards_value g f Dq up dn (junk j) Du Dd Vu Vd K) as RV. cbv zeta in RV. simpl fst in *. simpl snd in *.
  eexists. f_equal. exact RV.
Qed.

Hypothesis Lb : length bs = nb.
Hypothesis Gb : forall b, In b bs -> good_bnd b.

Lemma boundary_defined : forall j f, nth_error (faces g) j = Some f -> f_local f = true -> f_internal f = false -> open_face f = true ->
  exists v, boundary_result g cs bs j = Ok (Some v).
Proof.
  intros j f F L I O. unfold boundary_result. rewrite F.
  pose proof (nth_error_In _ _ F) as Fin. pose proof (proj1 (proj2 (proj2 G)) f Fin) as GF.
  destruct (face_permeability_ok g n nb f G GF) as [Dq [EDq _]].
  destruct GF as [Du [Dd [_ [_ [Rd_ Ri]]]]]. rewrite I in Ri. destruct Ri as [Un Rb].
  destruct (in_range_nth cs _ n Lc Rd_) as [dn Ed]. destruct (Gc dn (nth_error_In _ _ Ed)) as [Vd _].
  unfold open_face in O. destruct (f_bc f); [| discriminate O | | contradiction Rb].
  - destruct (in_range_nth bs _ nb Lb Rb) as [b Eb]. destruct (Gb b (nth_error_In _ _ Eb)) as [Vb _].
    unfold RichardsBCResidual. rewrite (rd_some _ _ _ F). cbn [bind].
    change (CalculateDistances g f) with (fst (CalculateDistances g f), snd (CalculateDistances g f)). cbv iota. rewrite EDq. cbn [bind].
    rewrite (at_ok bs (- f_up f + 1) b) by (try assumption; apply Rb). cbn [bind].
    rewrite (at_ok cs (f_dn f) dn) by (try assumption; apply Rd_). cbn [bind]. simpl ignore_error.
    destruct (gt (b_Kr b) eps || gt (c_Kr dn) eps) eqn:E.
    + pose proof (bc_value g f Dq b dn (Some 0) Du Dd Vb Vd (proj1 (wet_true _ _) E)) as RV. cbv zeta in RV. simpl fst in *. simpl snd in *.
      eexists. f_equal. exact RV.
    + unfold bc_flux. rewrite E. exists 0. reflexivity.
  - destruct (in_range_nth bs _ nb Lb Rb) as [b Eb]. destruct (Gb b (nth_error_In _ _ Eb)) as [Vb _].
    unfold RichardsSeepageBCResidual. rewrite (rd_some _ _ _ F). cbn [bind].
    change (CalculateDistances g f) with (fst (CalculateDistances g f), snd (CalculateDistances g f)). cbv iota. rewrite EDq. cbn [bind].
    rewrite (at_ok bs (- f_up f - 1) b) by (try assumption; apply Rb). cbn [bind].
    rewrite (at_ok cs (f_dn f) dn) by (try assumption; apply Rd_). cbn [bind]. simpl ignore_error.
    destruct (gt (b_Kr b) eps || gt (c_Kr dn) eps) eqn:E.
    + pose proof (seepage_value g f Dq b dn (Some 0) Du Dd Vb Vd (proj1 (wet_true _ _) E)) as RV. cbv zeta in RV. simpl fst in *. simpl snd in *.
      eexists. f_equal. exact RV.
    + unfold seepage_flux. rewrite E. exists 0. reflexivity.
Qed.

Definition lift (vs : list R) : list fl := map Some vs.
Lemma finite_upd : forall (vs : list R) i x, exists vs', upd (lift vs) i (Some x) = lift vs' /\ length vs' = length vs.
Proof.
  induction vs as [|v vs IH]; intros i x; [exists []; split; reflexivity|]. destruct i as [|i].
  - exists (x :: vs). split; reflexivity.
  - destruct (IH i x) as [vs' [E L]]. exists (v :: vs'). simpl. rewrite E, L. split; reflexivity.
Qed.

Lemma add_at_finite : forall vs z y, in_range z (length vs) ->
  exists vs', add_at (lift vs) z (Some y) = Ok (lift vs') /\ length vs' = length vs.
Proof.
  intros vs z y [Z0 Z1]. destruct (nth_error vs (Z.to_nat z)) as [x|] eqn:E; [|apply nth_error_None in E; lia].
  assert (E' : nth_error (lift vs) (Z.to_nat z) = Some (Some x)) by (unfold lift; rewrite nth_error_map, E; reflexivity).
  unfold add_at. rewrite (at_ok (lift vs) z _ Z0 E'). cbn [bind]. rewrite wr_ok by (unfold lift; rewrite map_length; lia). simpl fl2.
  destruct (finite_upd vs (Z.to_nat z) (x + y)) as [vs' [Eu L]]. exists vs'. rewrite Eu. split; [reflexivity|exact L].
Qed.
Lemma sub_at_finite : forall vs z y, in_range z (length vs) ->
  exists vs', sub_at (lift vs) z (Some y) = Ok (lift vs') /\ length vs' = length vs.
Proof.
  intros vs z y [Z0 Z1]. destruct (nth_error vs (Z.to_nat z)) as [x|] eqn:E; [|apply nth_error_None in E; lia].
  assert (E' : nth_error (lift vs) (Z.to_nat z) = Some (Some x)) by (unfold lift; rewrite nth_error_map, E; reflexivity).
  unfold sub_at. rewrite (at_ok (lift vs) z _ Z0 E'). cbn [bind]. rewrite wr_ok by (unfold lift; rewrite map_length; lia). simpl fl2.
  destruct (finite_upd vs (Z.to_nat z) (x - y)) as [vs' [Eu L]]. exists vs'. rewrite Eu. split; [reflexivity|exact L].
Qed.

Lemma valid_local_ok : forall z, in_range z n -> exists u, valid_local g z = Ok u.
Proof.
  intros z H. unfold valid_local. destruct (Z.ltb_spec z 0); [exists false; reflexivity|].
  destruct (in_range_nth (rocks g) z n (proj1 G) H) as [k E]. rewrite (at_ok _ z k) by assumption. exists (k_local k). reflexivity.
Qed.

Lemma residual_defined_proof : forall prev junk, wet g cs -> length prev = n ->
  exists vs, SNESFunction g cs bs prev junk n = Ok (lift vs) /\ length vs = n.
Proof.
  intros prev junk W Lp. unfold SNESFunction.
  set (P := fun (_ : nat) (r : list fl) => exists vs, r = lift vs /\ length vs = n).
  assert (H0 : P 0%nat (repeat (Some 0) n)).
  { exists (repeat 0 n). rewrite repeat_length. split; [|reflexivity]. clear. unfold lift. induction n as [|m IH]; [reflexivity|]. simpl. rewrite <- IH. reflexivity. }
  destruct (for_inv P (internal_face g cs junk) (length (faces g)) _ H0) as [r1 [-> P1]].
  { intros j s Hj [vs [-> L]]. unfold internal_face. destruct (nth_error (faces g) j) as [f|] eqn:F; [|apply nth_error_None in F; lia].
    rewrite (rd_some _ _ _ F). cbn [bind]. destruct (f_local f) eqn:Lo; simpl; [|eexists; split; [reflexivity|exists vs; auto]].
    destruct (f_internal f) eqn:I; simpl; [|eexists; split; [reflexivity|exists vs; auto]].
    destruct (interior_defined junk j f F Lo I W) as [v Ev]. fold (interior_result g cs junk j). rewrite Ev. cbn [bind].
    pose proof (proj1 (proj2 (proj2 G)) f (nth_error_In _ _ F)) as GF. destruct GF as [_ [_ [_ [_ [Rd_ Ri]]]]]. rewrite I in Ri. destruct Ri as [Ru _].
    destruct (valid_local_ok (f_up f) Ru) as [u ->]. cbn [bind].
    assert (A : exists vs1, (if u then add_at (lift vs) (f_up f) (Some v) else Ok (lift vs)) = Ok (lift vs1) /\ length vs1 = n).
    { destruct u; [|exists vs; auto]. destruct (add_at_finite vs (f_up f) v) as [vs1 [E1 L1]]; [rewrite L; exact Ru|]. exists vs1. rewrite L1. auto. }
    destruct A as [vs1 [-> L1]]. cbn [bind]. destruct (valid_local_ok (f_dn f) Rd_) as [d ->]. cbn [bind].
    destruct d; [|eexists; split; [reflexivity|exists vs1; auto]].
    destruct (sub_at_finite vs1 (f_dn f) v) as [vs2 [E2 L2]]; [rewrite L1; exact Rd_|]. rewrite E2. eexists. split; [reflexivity|]. exists vs2. rewrite L2. auto. }
  cbn [bind].
  destruct (for_inv P (boundary_face g cs bs) (length (faces g)) r1 P1) as [r2 [-> P2]].
  { intros j s Hj [vs [-> L]]. unfold boundary_face. destruct (nth_error (faces g) j) as [f|] eqn:F; [|apply nth_error_None in F; lia].
    rewrite (rd_some _ _ _ F). cbn [bind]. destruct (f_local f) eqn:Lo; simpl; [|eexists; split; [reflexivity|exists vs; auto]].
    destruct (f_internal f) eqn:I; simpl; [eexists; split; [reflexivity|exists vs; auto]|].
    pose proof (proj1 (proj2 (proj2 G)) f (nth_error_In _ _ F)) as GF. destruct GF as [_ [_ [_ [_ [Rd_ Ri]]]]]. rewrite I in Ri. destruct Ri as [Un Rb].
    destruct (open_face f) eqn:O.
    - destruct (boundary_defined j f F Lo I O) as [v Ev]. unfold boundary_result in Ev. rewrite F in Ev. unfold open_face in O.
      destruct (sub_at_finite vs (f_dn f) v) as [vs1 [E1 L1]]; [rewrite L; exact Rd_|].
      destruct (f_bc f); try discriminate; try contradiction; rewrite Ev; cbn [bind]; rewrite E1; eexists; (split; [reflexivity|]); exists vs1; rewrite L1; auto.
    - unfold open_face in O. destruct (f_bc f); try discriminate. eexists. split; [reflexivity|]. exists vs. auto. }
  cbn [bind].
  destruct (for_inv P (accumulation_cell g cs prev) (length (rocks g)) r2 P2) as [r3 [-> [vs [-> L3]]]].
  { intros j s Hj [vs [-> L]]. unfold accumulation_cell.
    destruct (nth_error (rocks g) j) as [k|] eqn:K; [|apply nth_error_None in K; lia]. rewrite (rd_some _ _ _ K). cbn [bind].
    destruct (k_local k); simpl negb; cbv iota; [|eexists; split; [reflexivity|exists vs; auto]].
    assert (jn : (j < n)%nat) by (rewrite <- (proj1 G); exact Hj).
    destruct (nth_error cs j) as [c|] eqn:C; [|apply nth_error_None in C; lia]. rewrite (rd_some _ _ _ C). cbn [bind].
    destruct (nth_error prev j) as [p|] eqn:Pv; [|apply nth_error_None in Pv; lia]. rewrite (rd_some _ _ _ Pv). cbn [bind].
    unfold Accumulation. rewrite fdiv_ok by apply G. simpl fl1.
    destruct (add_at_finite vs (Z.of_nat j) (c_rho c * k_por k * c_S c * k_vol k / dtime g - p)) as [vs1 [E1 L1]]; [rewrite L; unfold in_range; lia|].
    rewrite E1. cbn [bind].
    destruct (sub_at_finite vs1 (Z.of_nat j) (k_src k)) as [vs2 [E2 L2]]; [rewrite L1, L; unfold in_range; lia|].
    rewrite E2. eexists. split; [reflexivity|]. exists vs2. rewrite L2, L1. auto. }
  exists vs. split; [reflexivity|exact L3].
Qed.
End Defined.
