From Coq Require Import Reals ZArith List Bool Arith Lia Lra.
From Coquelicot Require Import Coquelicot.
From Verif Require Import Prelude Arrays Fvtpf SpecFvtpf FvtpfProofs FvtpfDerivProofs FvtpfSumProofs FvtpfTotalProofs.
Import ListNotations.
Local Open Scope R_scope.

Lemma total_derivative : forall (a : nat -> R) (q : nat -> R -> R) (dq : nat -> R) p m,
  (forall j, (j < m)%nat -> a j <> 0 -> is_derive (q j) p (dq j)) ->
  is_derive (fun x => total (fun j => a j * q j x) m) p (total (fun j => a j * dq j) m).
Proof.
  intros a q dq p m; induction m as [|m IH]; intro H; cbn [total].
  - apply const_derivative.
  - apply (is_derive_plus (fun x => total (fun j => a j * q j x) m) (fun x => a m * q m x)).
    + apply IH. intros j Hj. apply H. lia.
    + destruct (Req_dec (a m) 0) as [E|N].
      * rewrite E. apply (is_derive_ext (fun _ => 0)); [intro t; symmetry; apply Rmult_0_l|]. replace (0 * dq m) with 0 by ring. apply const_derivative.
      * apply (is_derive_scal (q m) p (a m) (dq m)). apply H; [lia|exact N].
Qed.

Definition interior_jacobian (g : grid) (cs : list cell) (junk : nat -> fl * fl) (j : nat) : outcome (fl * fl) :=
  ignore_error (RichardsJacobian g cs j (junk j)) (junk j).
Definition jac_of (g : grid) (cs : list cell) (junk : nat -> fl * fl) (k : nat) (j : nat) : R :=
  match nth_error (faces g) j, interior_jacobian g cs junk j with
  | Some f, Ok (Some a, Some b) => coeff (f_up f =? Z.of_nat k)%Z * a + coeff (f_dn f =? Z.of_nat k)%Z * b
  | _, _ => 0
  end.

Lemma entry_cons : forall t B i j x, entry B i j = Some x ->
  entry (t :: B) i j = if (fst (fst t) =? i)%Z && (snd (fst t) =? j)%Z then fl2 Rplus (snd t) (Some x) else Some x.
Proof. intros t B i j x H. unfold entry in *. simpl. rewrite H. reflexivity. Qed.

Lemma cons_value : forall r c (v : R) B i j x, entry B i j = Some x ->
  entry ((r, c, Some v) :: B) i j = Some (coeff ((r =? i)%Z && (c =? j)%Z) * v + x).
Proof.
  intros r c v B i j x H. rewrite (entry_cons _ _ _ _ _ H). cbn [fst snd]. destruct ((r =? i)%Z && (c =? j)%Z); simpl; f_equal; ring.
Qed.

Lemma coeff_mult : forall a b, coeff (a && b) = coeff a * coeff b.
Proof. intros [] []; simpl; ring. Qed.

Section Assembly.
Variables (g : grid) (n nb : nat) (cs : list cell) (bs : list bnd) (k : nat) (c : R -> cell) (p : R).
Hypothesis G : good_grid g n nb.
Hypothesis Lc : length cs = n.
Hypothesis Gc : forall i c', nth_error cs i = Some c' -> i <> k -> good_cell c'.
Hypothesis Lb : length bs = nb.
Hypothesis Gb : forall b, In b bs -> good_bnd b.
Hypothesis Hk : (k < n)%nat.
Hypothesis C : consistent c p.
Hypothesis Gk : locally p (fun x => good_cell (c x)).
Hypothesis W : wet g (upd cs k (c p)).
Hypothesis NS : c_S (c p) <> threshold.
Hypothesis NB : forall f, In f (faces g) -> f_local f = true -> f_internal f = false -> open_face f = true -> f_dn f <> Z.of_nat k.
Hypothesis NT : forall f up dn, In f (faces g) -> f_local f = true -> f_internal f = true ->
  f_up f = Z.of_nat k \/ f_dn f = Z.of_nat k ->
  nth_error (upd cs k (c p)) (Z.to_nat (f_up f)) = Some up -> nth_error (upd cs k (c p)) (Z.to_nat (f_dn f)) = Some dn ->
  potential_drop (c_P up) (c_P dn) (face_density (f_dist_up f) (f_dist_dn f) (c_S up) (c_S dn) (c_rho up) (c_rho dn))
    (dot (gravity g) (f_unit f) * (f_dist_up f + f_dist_dn f)) <> 0.

Lemma good_at : forall x, good_cell (c x) -> forall c', In c' (upd cs k (c x)) -> good_cell c'.
Proof.
  intros x Hx c' Hin. apply In_nth_error in Hin. destruct Hin as [i Hi]. rewrite nth_upd in Hi.
  destruct (Nat.eqb_spec k i) as [E|Hne].
  - subst i. assert (L : (k <? length cs)%nat = true) by (apply Nat.ltb_lt; lia). rewrite L in Hi. injection Hi as <-. exact Hx.
  - simpl in Hi. apply (Gc i); [exact Hi|lia].
Qed.

Lemma wet_near : locally p (fun x => wet g (upd cs k (c x))).
Proof.
  destruct C as [CP [Cr [Cv [CS Ck]]]].
  assert (L : (k <? length cs)%nat = true) by (apply Nat.ltb_lt; lia).
  assert (A : locally p (fun x => threshold < c_Kr (c p) -> threshold < c_Kr (c x))).
  { destruct (Rlt_dec threshold (c_Kr (c p))) as [H|H]; [|apply filter_forall; intros; contradiction].
    apply (filter_imp (fun x => threshold < c_Kr (c x))); [auto|]. apply (derive_gt _ _ _ _ Ck H). }
  revert A. apply filter_imp. intros x H f Fin Lo I. destruct (W f Fin Lo I) as [up [dn [Eu [Ed K]]]].
  rewrite nth_upd in Eu, Ed. rewrite L in *. 
  exists (if (k =? Z.to_nat (f_up f))%nat then c x else up), (if (k =? Z.to_nat (f_dn f))%nat then c x else dn).
  rewrite !nth_upd, !L.
  destruct (k =? Z.to_nat (f_up f))%nat; destruct (k =? Z.to_nat (f_dn f))%nat; cbn [andb] in *;
    (split; [first [reflexivity|exact Eu]|split; [first [reflexivity|exact Ed]|]]);
    repeat match goal with E : Some (c p) = Some ?u |- _ => injection E as <- end; destruct K as [K|K]; auto.
Qed.

Lemma residual_at : forall cs' junk j f Dq up dn,
  nth_error (faces g) j = Some f -> ComputeFacePermeability g f = Ok (Some Dq) ->
  (0 <= f_up f)%Z -> (0 <= f_dn f)%Z ->
  nth_error cs' (Z.to_nat (f_up f)) = Some up -> nth_error cs' (Z.to_nat (f_dn f)) = Some dn ->
  interior_result g cs' junk j = Ok (richards_flux (fst (CalculateDistances g f)) (snd (CalculateDistances g f)) (Some Dq) (f_area f) up dn (junk j)).
Proof.
  intros cs' junk j f Dq up dn F ED U0 D0 Eu Ed. unfold interior_result, RichardsResidual. rewrite (rd_some _ _ _ F). cbn [bind].
  change (CalculateDistances g f) with (fst (CalculateDistances g f), snd (CalculateDistances g f)) at 1. cbv iota.
  rewrite ED. cbn [bind]. rewrite (at_ok cs' (f_up f) up) by assumption. cbn [bind]. rewrite (at_ok cs' (f_dn f) dn) by assumption. reflexivity.
Qed.
Lemma jacobian_at : forall cs' junk j f Dq up dn,
  nth_error (faces g) j = Some f -> ComputeFacePermeability g f = Ok (Some Dq) ->
  (0 <= f_up f)%Z -> (0 <= f_dn f)%Z ->
  nth_error cs' (Z.to_nat (f_up f)) = Some up -> nth_error cs' (Z.to_nat (f_dn f)) = Some dn ->
  interior_jacobian g cs' junk j = Ok (richards_jacobian (fst (CalculateDistances g f)) (snd (CalculateDistances g f)) (Some Dq) (f_area f) up dn (junk j)).
Proof.
  intros cs' junk j f Dq up dn F ED U0 D0 Eu Ed. unfold interior_jacobian, RichardsJacobian. rewrite (rd_some _ _ _ F). cbn [bind].
  change (CalculateDistances g f) with (fst (CalculateDistances g f), snd (CalculateDistances g f)) at 1. cbv iota.
  rewrite ED. cbn [bind]. rewrite (at_ok cs' (f_up f) up) by assumption. cbn [bind]. rewrite (at_ok cs' (f_dn f) dn) by assumption. reflexivity.
Qed.

Lemma jacobian_defined : forall f Dq up dn J, 0 < f_dist_up f -> 0 < f_dist_dn f -> c_vis up <> 0 -> c_vis dn <> 0 ->
  gt (c_Kr up) eps || gt (c_Kr dn) eps = true ->
  exists a b, richards_jacobian (fst (CalculateDistances g f)) (snd (CalculateDistances g f)) (Some Dq) (f_area f) up dn J = (Some a, Some b).
Proof.
  intros f Dq up dn J Hu Hd Vu Vd K. destruct (weight_defined g f (c_S up) (c_S dn) Hu Hd) as [w Ew].
  unfold richards_jacobian. rewrite K, Ew. cbn [fbind]. cbv zeta.
  destruct (ge _ 0); (rewrite fdiv_ok by assumption); cbn [fbind]; unfold dukvr; (rewrite fdiv_ok by assumption);
    (rewrite fdiv_ok by (apply pow_nonzero; assumption)); cbn [fbind]; eexists _, _; reflexivity.
Qed.

Lemma derive_of_has : forall (F : R -> fl) d, has_derivative F p d -> is_derive (fun x => val (F x)) p d.
Proof.
  intros F d [h [E D]]. apply (is_derive_ext_loc h); [|exact D]. revert E. apply filter_imp. intros x E. rewrite E. reflexivity.
Qed.

Lemma val_res : forall o, res_of (Ok o) = val o.
Proof. intros [v|]; reflexivity. Qed.

Lemma interior_derivative : forall junk junkJ j f, nth_error (faces g) j = Some f -> f_local f = true -> f_internal f = true ->
  (exists a b, interior_jacobian g (upd cs k (c p)) junkJ j = Ok (Some a, Some b))
  /\ is_derive (fun x => res_of (interior_result g (upd cs k (c x)) junk j)) p (jac_of g (upd cs k (c p)) junkJ k j).
Proof.
  intros junk junkJ j f F Lo I. pose proof (nth_error_In _ _ F) as Fin. pose proof (proj1 (proj2 (proj2 G)) f Fin) as GF.
  destruct (face_permeability_ok g n nb f G GF) as [Dq [EDq _]].
  destruct GF as [Du [Dd [_ [_ [Rd_ Ri]]]]]. rewrite I in Ri. destruct Ri as [Ru Nud].
  assert (L : (k <? length cs)%nat = true) by (apply Nat.ltb_lt; lia).
  assert (Gp : good_cell (c p)) by (apply (locally_singleton p (fun x => good_cell (c x)) Gk)).
  destruct (W f Fin Lo I) as [up [dn [Eu [Ed K]]]]. pose proof (NT f up dn Fin Lo I) as NT'.
  pose proof (good_at p Gp up (nth_error_In _ _ Eu)) as [Vu _]. pose proof (good_at p Gp dn (nth_error_In _ _ Ed)) as [Vd _].
  assert (K' : gt (c_Kr up) eps || gt (c_Kr dn) eps = true) by (apply wet_true; exact K).
  pose proof (jacobian_at (upd cs k (c p)) junkJ j f Dq up dn F EDq (proj1 Ru) (proj1 Rd_) Eu Ed) as EJ.
  assert (Dj : exists a b, interior_jacobian g (upd cs k (c p)) junkJ j = Ok (Some a, Some b)).
  { destruct (jacobian_defined f Dq up dn (junkJ j) Du Dd) as [a [b Eab]]; try lra; try assumption. exists a, b. rewrite EJ, Eab. reflexivity. }
  split; [exact Dj|].
  pose proof (upweight_ok g f Du Dd) as UW. pose proof Ru as [Ru0 Ru1]. pose proof Rd_ as [Rd0 Rd1].
  destruct (Z.eq_dec (f_up f) (Z.of_nat k)) as [EU|NU].
  - (* the varying cell is the up cell *)
    assert (ku : Z.to_nat (f_up f) = k) by lia. assert (kd : (k =? Z.to_nat (f_dn f))%nat = false) by (apply Nat.eqb_neq; lia).
    rewrite ku in Eu. rewrite nth_upd, Nat.eqb_refl, L in Eu. injection Eu as <-.
    rewrite nth_upd, kd in Ed. cbn [andb] in Ed.
    destruct (density_ok _ _ (c_S (c p)) (c_S dn) (c_rho (c p)) (c_rho dn) Du Dd) as [w [_ [Ew Er]]].
    assert (T : p - c_P dn - (w * c_rho (c p) + (1 - w) * c_rho dn) * fst (CalculateDistances g f) <> 0).
    { rewrite Er. pose proof (NT' (or_introl EU)) as N1. rewrite ku in N1. rewrite !nth_upd, Nat.eqb_refl, L, kd in N1.
      specialize (N1 eq_refl Ed). rewrite (proj1 C) in N1. exact N1. }
    destruct (richards_jacobian_up_raw (fst (CalculateDistances g f)) (f_dist_dn f / (f_dist_up f + f_dist_dn f)) Dq (f_area f)
                c p dn w (junk j) (junkJ j) C) as [a [b [EJ' DJ]]]; try assumption; try lra.
    rewrite <- UW in EJ', DJ.
    assert (Ejac : jac_of g (upd cs k (c p)) junkJ k j = a).
    { unfold jac_of. rewrite F, EJ, EJ', EU, Z.eqb_refl. destruct (Z.eqb_spec (f_dn f) (Z.of_nat k)); [lia|]. simpl. ring. }
    rewrite Ejac. apply (is_derive_ext (fun x => val (richards_flux (fst (CalculateDistances g f)) (snd (CalculateDistances g f)) (Some Dq) (f_area f) (c x) dn (junk j)))).
    + intro x. rewrite (residual_at (upd cs k (c x)) junk j f Dq (c x) dn F EDq (proj1 Ru) (proj1 Rd_)); [rewrite val_res; reflexivity| |].
      * rewrite ku, nth_upd, Nat.eqb_refl, L. reflexivity.
      * rewrite nth_upd, kd. exact Ed.
    + apply derive_of_has. exact DJ.
  - destruct (Z.eq_dec (f_dn f) (Z.of_nat k)) as [ED|ND].
    + assert (kd : Z.to_nat (f_dn f) = k) by lia. assert (ku : (k =? Z.to_nat (f_up f))%nat = false) by (apply Nat.eqb_neq; lia).
      rewrite kd in Ed. rewrite nth_upd, Nat.eqb_refl, L in Ed. injection Ed as <-.
      rewrite nth_upd, ku in Eu. cbn [andb] in Eu.
      destruct (density_ok _ _ (c_S up) (c_S (c p)) (c_rho up) (c_rho (c p)) Du Dd) as [w [_ [Ew Er]]].
      assert (T : c_P up - p - (w * c_rho up + (1 - w) * c_rho (c p)) * fst (CalculateDistances g f) <> 0).
      { rewrite Er. pose proof (NT' (or_intror ED)) as N1. rewrite kd in N1. rewrite !nth_upd, Nat.eqb_refl, L, ku in N1.
        specialize (N1 Eu eq_refl). rewrite (proj1 C) in N1. exact N1. }
      destruct (richards_jacobian_dn_raw (fst (CalculateDistances g f)) (f_dist_dn f / (f_dist_up f + f_dist_dn f)) Dq (f_area f)
                  c p up w (junk j) (junkJ j) C) as [a [b [EJ' DJ]]]; try assumption; try lra.
      rewrite <- UW in EJ', DJ.
      assert (Ejac : jac_of g (upd cs k (c p)) junkJ k j = b).
      { unfold jac_of. rewrite F, EJ, EJ', ED, Z.eqb_refl. destruct (Z.eqb_spec (f_up f) (Z.of_nat k)); [lia|]. simpl. ring. }
      rewrite Ejac. apply (is_derive_ext (fun x => val (richards_flux (fst (CalculateDistances g f)) (snd (CalculateDistances g f)) (Some Dq) (f_area f) up (c x) (junk j)))).
      * intro x. rewrite (residual_at (upd cs k (c x)) junk j f Dq up (c x) F EDq (proj1 Ru) (proj1 Rd_)); [rewrite val_res; reflexivity| |].
        -- rewrite nth_upd, ku. exact Eu.
        -- rewrite kd, nth_upd, Nat.eqb_refl, L. reflexivity.
      * apply derive_of_has. exact DJ.
    + (* the face does not touch the varying cell *)
      assert (ku : (k =? Z.to_nat (f_up f))%nat = false) by (apply Nat.eqb_neq; destruct Ru; lia).
      assert (kd : (k =? Z.to_nat (f_dn f))%nat = false) by (apply Nat.eqb_neq; destruct Rd_; lia).
      rewrite nth_upd, ku in Eu. rewrite nth_upd, kd in Ed. cbn [andb] in Eu, Ed.
      assert (Ejac : jac_of g (upd cs k (c p)) junkJ k j = 0).
      { unfold jac_of. destruct Dj as [a [b ->]]. rewrite F. destruct (Z.eqb_spec (f_up f) (Z.of_nat k)); [lia|]. destruct (Z.eqb_spec (f_dn f) (Z.of_nat k)); [lia|]. simpl. ring. }
      rewrite Ejac. apply (is_derive_ext (fun _ => res_of (Ok (richards_flux (fst (CalculateDistances g f)) (snd (CalculateDistances g f)) (Some Dq) (f_area f) up dn (junk j))))); [|apply const_derivative].
      intro x. rewrite (residual_at (upd cs k (c x)) junk j f Dq up dn F EDq (proj1 Ru) (proj1 Rd_)); [reflexivity| |].
      * rewrite nth_upd, ku. exact Eu.
      * rewrite nth_upd, kd. exact Ed.
Qed.

Lemma boundary_constant : forall x j i, bounds g j i = true -> boundary_result g (upd cs k (c x)) bs j = boundary_result g cs bs j.
Proof.
  intros x j i B. unfold bounds in B. unfold boundary_result. destruct (nth_error (faces g) j) as [f|] eqn:F; [|discriminate B].
  apply andb_true_iff in B. destruct B as [B _]. apply andb_true_iff in B. destruct B as [B O]. apply andb_true_iff in B. destruct B as [Lo I].
  apply negb_true_iff in I. pose proof (NB f (nth_error_In _ _ F) Lo I O) as N.
  assert (A : at_ (upd cs k (c x)) (f_dn f) = at_ cs (f_dn f)).
  { unfold at_. destruct (Z.ltb_spec (f_dn f) 0); [reflexivity|]. unfold rd. rewrite nth_upd.
    destruct (Nat.eqb_spec k (Z.to_nat (f_dn f))); [lia|]. reflexivity. }
  unfold RichardsBCResidual, RichardsSeepageBCResidual. rewrite (rd_some _ _ _ F). cbn [bind].
  destruct (CalculateDistances g f) as [arm uw]. rewrite A. reflexivity.
Qed.

Definition dacc (i : nat) : R :=
  if (i =? k)%nat then match nth_error (rocks g) k with Some r => val (JacobianAccumulation (dtime g) (c p) r) | None => 0 end else 0.

Lemma accumulation_entry_derivative : forall i, (i < n)%nat ->
  is_derive (fun x => val (acc_of g (upd cs k (c x)) i)) p (dacc i).
Proof.
  intros i Hi. unfold dacc. assert (L : (k <? length cs)%nat = true) by (apply Nat.ltb_lt; lia).
  destruct (Nat.eqb_spec i k) as [E|Hne].
  - subst i. destruct (nth_error (rocks g) k) as [r|] eqn:K; [|apply nth_error_None in K; rewrite (proj1 G) in K; lia].
    destruct (accumulation_derivative_proof c p r (dtime g) C (proj1 (proj2 G))) as [a [-> D]]. simpl val.
    apply (is_derive_ext (fun x => val (Accumulation (dtime g) (c x) r))); [|apply derive_of_has; exact D].
    intro x. unfold acc_of. rewrite nth_upd, Nat.eqb_refl, L, K. reflexivity.
  - apply (is_derive_ext (fun _ => val (acc_of g cs i))); [|apply const_derivative].
    intro x. unfold acc_of. rewrite nth_upd. destruct (Nat.eqb_spec k i); [lia|]. reflexivity.
Qed.

Definition slope (junkJ : nat -> fl * fl) (i : nat) : R :=
  total (fun j => (coeff (leaves g j i) - coeff (enters g j i)) * jac_of g (upd cs k (c p)) junkJ k j) (length (faces g))
  + (if local_cell g i then dacc i else 0).

Lemma residual_derivative : forall prev junk junkJ i, (i < n)%nat -> length prev = n ->
  has_derivative (fun x => match SNESFunction g (upd cs k (c x)) bs prev junk n with Ok r => nth i r None | _ => None end) p (slope junkJ i).
Proof.
  intros prev junk junkJ i Hi Lp.
  exists (fun x => cell_balance g (fun j => res_of (interior_result g (upd cs k (c x)) junk j)) (fun j => res_of (boundary_result g (upd cs k (c x)) bs j))
                  (fun i => val (acc_of g (upd cs k (c x)) i)) (fun i => nth i prev 0) (src_of g) i). split.
  - generalize (filter_and _ _ wet_near Gk). apply filter_imp. intros x [Wx Gx].
    assert (Lx : length (upd cs k (c x)) = n) by (rewrite length_upd; exact Lc).
    destruct (residual_defined_proof g n nb (upd cs k (c x)) bs G Lx (good_at x Gx) Lb Gb prev junk Wx Lp) as [vs [E Lv]].
    rewrite E.
    assert (Ni : nth_error (lift vs) i = Some (Some (nth i vs 0))) by (unfold lift; rewrite nth_error_map, (nth_error_nth' vs 0) by lia; reflexivity).
    rewrite (nth_error_nth (lift vs) i None Ni). f_equal.
    apply (cell_residual_proof g (upd cs k (c x)) bs prev junk n _ i (nth i vs 0) E Ni).
  - unfold cell_balance, slope.
    apply (is_derive_ext (fun x => total (fun j => (coeff (leaves g j i) - coeff (enters g j i)) * res_of (interior_result g (upd cs k (c x)) junk j)) (length (faces g))
       + ((if local_cell g i then val (acc_of g (upd cs k (c x)) i) else 0)
          + ((if local_cell g i then - nth i prev 0 - src_of g i else 0)
             - total (fun j => coeff (bounds g j i) * res_of (boundary_result g cs bs j)) (length (faces g)))))).
    + intro x. rewrite (total_ext (fun j => coeff (bounds g j i) * res_of (boundary_result g (upd cs k (c x)) bs j))
                  (fun j => coeff (bounds g j i) * res_of (boundary_result g cs bs j))).
      2:{ intros j Hj. destruct (bounds g j i) eqn:B; [rewrite (boundary_constant x j i B); reflexivity|simpl; lra]. }
      destruct (local_cell g i); lra.
    + apply (is_derive_plus (V:=R_NormedModule)).
      * apply (total_derivative (fun j => coeff (leaves g j i) - coeff (enters g j i)) (fun j x => res_of (interior_result g (upd cs k (c x)) junk j))).
        intros j Hj N. destruct (nth_error (faces g) j) as [f|] eqn:F; [|apply nth_error_None in F; lia].
        apply (proj2 (interior_derivative junk junkJ j f F
          ltac:(unfold leaves, enters in N; rewrite F in N; destruct (f_local f); [reflexivity|simpl in N; lra])
          ltac:(unfold leaves, enters in N; rewrite F in N; destruct (f_local f), (f_internal f); simpl in N; first [reflexivity|lra]))).
      * set (K := (if local_cell g i then - nth i prev 0 - src_of g i else 0) - total (fun j => coeff (bounds g j i) * res_of (boundary_result g cs bs j)) (length (faces g))).
        replace (if local_cell g i then dacc i else 0) with (plus (if local_cell g i then dacc i else 0) 0) by (unfold plus; simpl; ring).
        apply (is_derive_plus (V:=R_NormedModule)); [|apply const_derivative].
        destruct (local_cell g i); [apply accumulation_entry_derivative; exact Hi|apply const_derivative].
Qed.

Definition entry_is (i : nat) (v : R) (B : matrix) : Prop := entry B (Z.of_nat i) (Z.of_nat k) = Some v.

Lemma valid_value : forall z i, in_range z n -> exists u, valid_local g z = Ok u /\ (z =? Z.of_nat i)%Z && u = (z =? Z.of_nat i)%Z && local_cell g i.
Proof.
  intros z i Hz. destruct (valid_local_ok g n nb G z Hz) as [u E]. exists u. split; [exact E|].
  apply valid_local_inv in E. destruct E as [T F]. destruct u.
  - destruct (T eq_refl) as [_ Hl]. destruct (Z.eqb_spec z (Z.of_nat i)) as [->|]; [|reflexivity]. rewrite Nat2Z.id in Hl. rewrite Hl. reflexivity.
  - rewrite (F eq_refl i). apply andb_false_r.
Qed.

Lemma jac_internal_step : forall junkJ j i v B, (j < length (faces g))%nat -> entry_is i v B ->
  exists B', jac_internal_face g (upd cs k (c p)) junkJ j B = Ok B'
    /\ entry_is i (v + (coeff (leaves g j i) - coeff (enters g j i)) * jac_of g (upd cs k (c p)) junkJ k j) B'.
Proof.
  intros junkJ j i v B Hj E. destruct (nth_error (faces g) j) as [f|] eqn:F; [|apply nth_error_None in F; lia].
  unfold jac_internal_face. rewrite (rd_some _ _ _ F). cbn [bind]. unfold leaves, enters. rewrite F.
  destruct (f_local f) eqn:Lo; cbn [negb andb]; [|exists B; split; [reflexivity|]; simpl coeff; replace (v + _) with v by ring; exact E].
  destruct (f_internal f) eqn:I; cbn [negb andb]; [|exists B; split; [reflexivity|]; simpl coeff; replace (v + _) with v by ring; exact E].
  destruct (proj1 (interior_derivative (fun _ => None) junkJ j f F Lo I)) as [a [b EJ]].
  unfold jac_of. rewrite F. unfold interior_jacobian in *. rewrite EJ. cbn [bind].
  pose proof (proj1 (proj2 (proj2 G)) f (nth_error_In _ _ F)) as [_ [_ [_ [_ [Rd_ Ri]]]]]. rewrite I in Ri. destruct Ri as [Ru _].
  destruct (valid_value (f_up f) i Ru) as [u [-> Vu]]. destruct (valid_value (f_dn f) i Rd_) as [d [-> Vd]]. cbn [bind].
  rewrite <- Vu, <- Vd. eexists. split; [reflexivity|]. unfold entry_is in *.
  assert (S1 : entry (if u then (f_up f, f_up f, Some a) :: (f_up f, f_dn f, Some b) :: B else B) (Z.of_nat i) (Z.of_nat k)
     = Some (v + coeff ((f_up f =? Z.of_nat i)%Z && u) * (coeff (f_up f =? Z.of_nat k)%Z * a + coeff (f_dn f =? Z.of_nat k)%Z * b))).
  { destruct u; [|rewrite andb_false_r; simpl coeff; rewrite E; f_equal; ring].
    refine (eq_trans (cons_value _ _ _ _ _ _ _ (cons_value _ _ _ _ _ _ _ E)) _). rewrite !coeff_mult. simpl (coeff true). f_equal. ring. }
  destruct d.
  - refine (eq_trans (cons_value _ _ _ _ _ _ _ (cons_value _ _ _ _ _ _ _ S1)) _). rewrite !coeff_mult. simpl (coeff true). f_equal. ring.
  - refine (eq_trans S1 _). rewrite andb_false_r. simpl (coeff false). f_equal. ring.
Qed.

Lemma jac_boundary_step : forall junkb j i v B, (j < length (faces g))%nat -> entry_is i v B ->
  exists B', jac_boundary_face g (upd cs k (c p)) bs junkb j B = Ok B' /\ entry_is i v B'.
Proof.
  intros junkb j i v B Hj E. destruct (nth_error (faces g) j) as [f|] eqn:F; [|apply nth_error_None in F; lia].
  unfold jac_boundary_face. rewrite (rd_some _ _ _ F). cbn [bind].
  destruct (f_local f) eqn:Lo; cbn [negb]; [|exists B; auto]. destruct (f_internal f) eqn:I; [exists B; auto|].
  pose proof (nth_error_In _ _ F) as Fin. pose proof (proj1 (proj2 (proj2 G)) f Fin) as GF.
  destruct (face_permeability_ok g n nb f G GF) as [Dq [EDq _]].
  destruct GF as [_ [_ [_ [_ [Rd_ Ri]]]]]. rewrite I in Ri. destruct Ri as [Un Rb].
  destruct (valid_value (f_dn f) i Rd_) as [d [Ed _]].
  assert (Lx : length (upd cs k (c p)) = n) by (rewrite length_upd; exact Lc).
  destruct (in_range_nth (upd cs k (c p)) _ n Lx Rd_) as [dn Edn].
  assert (Fin' : forall (Jdn : fl), open_face f = true -> exists B',
     (do d <- valid_local g (f_dn f); Ok (if d then (f_dn f, f_dn f, fl1 Ropp Jdn) :: B else B)) = Ok B' /\ entry_is i v B').
  { intros J O. rewrite Ed. cbn [bind]. eexists. split; [reflexivity|]. destruct d; [|exact E].
    unfold entry_is in *. rewrite (entry_cons _ _ _ _ _ E). cbn [fst snd].
    destruct (Z.eqb_spec (f_dn f) (Z.of_nat k)) as [X|_]; [|rewrite andb_false_r; reflexivity].
    exfalso. exact (NB f Fin Lo I O X). }
  destruct (f_bc f) eqn:Bc; [| exists B; auto | | contradiction Rb].
  - assert (Rb' : in_range (- f_up f - 1) nb) by (destruct Rb; split; lia).
    destruct (in_range_nth bs _ nb Lb Rb') as [b Eb]. unfold RichardsBCJacobian. rewrite (rd_some _ _ _ F). cbn [bind].
    destruct (CalculateDistances g f) as [arm uw]. rewrite EDq. cbn [bind].
    rewrite (at_ok bs _ b (proj1 Rb') Eb). cbn [bind]. rewrite (at_ok _ _ dn (proj1 Rd_) Edn). cbn [bind ignore_error].
    apply Fin'. unfold open_face. rewrite Bc. reflexivity.
  - destruct (in_range_nth bs _ nb Lb Rb) as [b Eb]. unfold RichardsSeepageBCJacobian. rewrite (rd_some _ _ _ F). cbn [bind].
    destruct (CalculateDistances g f) as [arm uw]. rewrite EDq. cbn [bind].
    rewrite (at_ok bs _ b (proj1 Rb) Eb). cbn [bind]. rewrite (at_ok _ _ dn (proj1 Rd_) Edn). cbn [bind ignore_error].
    apply Fin'. unfold open_face. rewrite Bc. reflexivity.
Qed.

Lemma assembled_entry : forall junkJ junkb i, (i < n)%nat ->
  exists B, SNESJacobian g (upd cs k (c p)) bs junkJ junkb = Ok B /\ entry_is i (slope junkJ i) B.
Proof.
  intros junkJ junkb i Hi. unfold SNESJacobian.
  set (T := fun m => total (fun j => (coeff (leaves g j i) - coeff (enters g j i)) * jac_of g (upd cs k (c p)) junkJ k j) m).
  destruct (for_inv (fun m B => entry_is i (T m) B) (jac_internal_face g (upd cs k (c p)) junkJ) (length (faces g)) []) as [B1 [-> E1]].
  { reflexivity. }
  { intros j B Hj E. destruct (jac_internal_step junkJ j i (T j) B Hj E) as [B' [E' H]]. exists B'. split; assumption. }
  cbn [bind].
  destruct (for_inv (fun _ B => entry_is i (T (length (faces g))) B) (jac_boundary_face g (upd cs k (c p)) bs junkb) (length (faces g)) B1 E1) as [B2 [-> E2]].
  { intros j B Hj E. apply jac_boundary_step; assumption. }
  cbn [bind].
  assert (L : (k <? length cs)%nat = true) by (apply Nat.ltb_lt; lia).
  destruct (for_inv (fun m B => entry_is i (T (length (faces g)) + (if (i <? m)%nat && local_cell g i then dacc i else 0)) B)
              (jac_accumulation g (upd cs k (c p))) (length (rocks g)) B2) as [B3 [-> E3]].
  { simpl. rewrite Rplus_0_r. exact E2. }
  { intros j B Hj E. unfold jac_accumulation. destruct (nth_error (rocks g) j) as [r|] eqn:K; [|apply nth_error_None in K; lia].
    rewrite (rd_some _ _ _ K). cbn [bind].
    assert (jn : (j < n)%nat) by (rewrite <- (proj1 G); exact Hj).
    assert (Lx : length (upd cs k (c p)) = n) by (rewrite length_upd; exact Lc).
    destruct (nth_error (upd cs k (c p)) j) as [c'|] eqn:Cj; [|apply nth_error_None in Cj; lia].
    assert (HL : local_cell g j = k_local r) by (unfold local_cell; rewrite K; reflexivity).
    destruct (k_local r) eqn:KL; cbn [negb].
    - rewrite (rd_some _ _ _ Cj). cbn [bind]. eexists. split; [reflexivity|]. unfold entry_is in *.
      unfold JacobianAccumulation. rewrite fdiv_ok by apply G. cbn [fbind].
      refine (eq_trans (cons_value _ _ _ _ _ _ _ E) _). f_equal.
      destruct (Nat.eq_dec j i) as [->|Hji].
      + rewrite Z.eqb_refl. replace (i <? i)%nat with false by (symmetry; apply Nat.ltb_irrefl). replace (i <? S i)%nat with true by (symmetry; apply Nat.ltb_lt; lia).
        rewrite HL. cbn [andb]. unfold dacc. destruct (Nat.eqb_spec i k) as [->|Hik].
        * rewrite Z.eqb_refl, K. rewrite nth_upd, Nat.eqb_refl, L in Cj. cbn [andb] in Cj. injection Cj as <-.
          unfold JacobianAccumulation. rewrite fdiv_ok by apply G. simpl. lra.
        * destruct (Z.eqb_spec (Z.of_nat i) (Z.of_nat k)); [lia|]. simpl. lra.
      + destruct (Z.eqb_spec (Z.of_nat j) (Z.of_nat i)); [lia|]. simpl coeff.
        replace (i <? S j)%nat with (i <? j)%nat; [lra|]. destruct (Nat.ltb_spec i j), (Nat.ltb_spec i (S j)); try reflexivity; lia.
    - exists B. split; [reflexivity|]. destruct (Nat.eq_dec j i) as [->|Hji].
      + rewrite HL in *. rewrite !andb_false_r in *. exact E.
      + replace (i <? S j)%nat with (i <? j)%nat; [exact E|]. destruct (Nat.ltb_spec i j), (Nat.ltb_spec i (S j)); try reflexivity; lia. }
  exists B3. split; [reflexivity|]. unfold slope. rewrite (proj1 G) in E3. assert (X : (i <? n)%nat = true) by (apply Nat.ltb_lt; exact Hi). rewrite X in E3. exact E3.
Qed.
End Assembly.
