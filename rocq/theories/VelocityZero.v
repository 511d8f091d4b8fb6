(** When the printed velocity error vanishes. *)
From Coq Require Import Reals ZArith List Bool Arith Lia Lra.
From Verif Require Import Prelude Arrays Mpfao MpfaoTs SpecFvtpf SpecMpfao SpecMpfaoTs FvtpfSumProofs Transmit SpecTransmit
  SpecSteady Velocity SpecVelocity VelocityProofs VelocityError SpecVelocityError VelocityErrorProofs.
Import ListNotations.
Local Open Scope R_scope.

Lemma total_nonneg : forall f n, (forall i, (i < n)%nat -> 0 <= f i) -> 0 <= total f n.
Proof. intros f n H. induction n as [|n IH]; simpl; [lra|]. pose proof (H n (Nat.lt_succ_diag_r n)). assert (0 <= total f n) by (apply IH; intros i Hi; apply H; lia). lra. Qed.
Lemma total_null : forall f n, (forall i, (i < n)%nat -> 0 <= f i) -> (total f n = 0 <-> forall i, (i < n)%nat -> f i = 0).
Proof.
  intros f n H. split.
  - induction n as [|n IH]; simpl; intros E i Hi; [lia|]. assert (0 <= total f n) by (apply total_nonneg; intros k Hk; apply H; lia). pose proof (H n (Nat.lt_succ_diag_r n)).
    assert (i = n \/ (i < n)%nat) as [->|Hl] by lia; [lra|]. apply IH; [intros k Hk; apply H; lia|lra|exact Hl].
  - intros E. transitivity (total (fun _ => 0) n); [apply total_ext; exact E|apply total_zero].
Qed.
Ltac nn H := match goal with |- 0 <= (if ?c then _ else _) => destruct c; [apply H|lra] end.
Lemma counted_row : forall M iv j, counted M iv j = true -> (iv < length (verts (t_mesh M)))%nat /\ (j < rows (t_mesh M) iv)%nat.
Proof.
  intros M iv j H. unfold counted, subface in H. unfold rows. destruct (nth_error (verts (t_mesh M)) iv) as [v|] eqn:Ev; [|discriminate].
  destruct (nth_error (x_faces v) j) as [a|] eqn:Ea; [|discriminate]. split; apply nth_error_Some; congruence.
Qed.
Lemma over_null : forall M F, (forall iv j, 0 <= F iv j) -> (over_counted M F = 0 <-> forall iv j, counted M iv j = true -> F iv j = 0).
Proof.
  intros M F H. unfold over_counted, all_subfaces. rewrite total_null by (intros; apply total_nonneg; intros; nn H). split.
  - intros E iv j Hc. destruct (counted_row M iv j Hc) as [Hi Hj]. pose proof (E iv Hi) as Ei. rewrite total_null in Ei by (intros; nn H).
    specialize (Ei j Hj). rewrite Hc in Ei. exact Ei.
  - intros E iv _. transitivity (total (fun _ => 0) (rows (t_mesh M) iv)); [|apply total_zero]. apply total_ext. intros j _. destruct (counted M iv j) eqn:Hc; [exact (E iv j Hc)|reflexivity].
Qed.
Lemma over_nonneg : forall M F, (forall iv j, 0 <= F iv j) -> 0 <= over_counted M F.
Proof. intros M F H. apply total_nonneg. intros. apply total_nonneg. intros. nn H. Qed.

(** The printed number. *)
Lemma fold_err : forall l s, fold_left (fun s (x : R * nat) => s + fst x) l s = s + sum_err l.
Proof. induction l as [|x l IH]; intros s; simpl; [ring|]. rewrite IH. ring. Qed.
Lemma fold_count : forall l s, fold_left (fun s (x : R * nat) => (s + snd x)%nat) l s = (s + sum_count l)%nat.
Proof. induction l as [|x l IH]; intros s; simpl; [lia|]. rewrite IH. lia. Qed.
Lemma printed_eq : forall l, printed l = if (sum_count l =? 0)%nat then None else Some (sqrt (sum_err l / INR (sum_count l))).
Proof. intros l. unfold printed. cbv zeta. rewrite fold_err, fold_count, Rplus_0_l. reflexivity. Qed.
Lemma printed_mean : forall l, (forall x, In x l -> 0 <= fst x) -> (0 < sum_count l)%nat ->
  exists x, printed l = Some x /\ 0 <= x /\ x * x * INR (sum_count l) = sum_err l.
Proof.
  intros l H Hn. rewrite printed_eq. destruct (Nat.eqb_spec (sum_count l) 0); [lia|]. eexists. split; [reflexivity|]. split; [apply sqrt_pos|].
  assert (HI : 0 < INR (sum_count l)) by (apply lt_0_INR; exact Hn).
  assert (HE : 0 <= sum_err l). { clear - H. induction l as [|y l IH]; simpl; [lra|]. pose proof (H y (or_introl eq_refl)). assert (0 <= sum_err l) by (apply IH; intros; apply H; right; assumption). lra. }
  rewrite sqrt_sqrt by (apply Rle_mult_inv_pos; assumption). field. lra.
Qed.
Lemma printed_zero : forall err n, 0 <= err -> (0 < n)%nat -> (printed [(err, n)] = Some 0 <-> err = 0).
Proof.
  intros err n He Hn. destruct (printed_mean [(err, n)]) as [x [E [_ Hx]]]; [intros y [<-|[]]; exact He|simpl; lia|].
  rewrite E. cbn [sum_err sum_count fst snd] in Hx. rewrite Nat.add_0_r, Rplus_0_r in Hx. assert (HI : 0 < INR n) by (apply lt_0_INR; exact Hn). split; intros K.
  - injection K as ->. rewrite <- Hx. ring.
  - f_equal. rewrite K in Hx. apply Rmult_integral in Hx. destruct Hx as [Hx|Hx]; [|lra]. apply Rmult_integral in Hx. tauto.
Qed.

Section Zero.
Variables (k : tmode) (M : tmesh) (ncv nfv : nat) (X : variable -> nat -> option (list R)) (st : tstate).
Variables (area rho gz : list R) (hp : option (nat -> R)) (b : probe) (w : R * R * R -> R * R * R) (u : list R) (B : nat -> R).
Hypothesis G : good_tmesh M ncv nfv.
Hypothesis HX : answered M (X Pressure).
Hypothesis HS : Setup k M ncv nfv X = Ok st.
Let p := mkRecover M (st_T (ts_p st)) nfv area rho gz hp.
Hypothesis GR : good_recover p u.
Hypothesis GP : good_probe p b.
Hypothesis HB : boundary_heads p u B.
Hypothesis HN : forall a, ~ at_corner M a.
Let m := t_mesh M.
Let l := st_l (ts_p st).
Lemma complete : exists vel err n, RecoverError p b u = Ok (vel, err, n) /\ RecoverVelocity p u = Ok vel /\
  (b_velocity b = None -> printed [(err, n)] = None) /\
  (forall w, b_velocity b = Some w ->
    err = over_counted M (fun iv j => (matrix_flux m l (heads p u B) iv j / whole_area m area iv j - true_flux m b w iv j) ^ 2) /\
    INR n = over_counted M (fun _ _ => 1)).
Proof.
  destruct (error_here k M ncv nfv X st area rho gz hp b u B G HX HS GR GP HB HN) as [vel [err [n [E [H0 H1]]]]]. exists vel, err, n.
  split; [exact E|]. split; [exact (recover_sim _ _ _ _ E)|]. split; [|exact H1]. intros Hv. rewrite (H0 Hv). reflexivity.
Qed.
Lemma zero : b_velocity b = Some w -> (forall a f, nth_error (faces m) a = Some f -> f_local f = true -> nth a area 0 <> 0) -> (exists iv j, counted M iv j = true) ->
  exists vel err n, RecoverError p b u = Ok (vel, err, n) /\
  (printed [(err, n)] = Some 0 <-> forall iv j, counted M iv j = true -> matrix_flux m l (heads p u B) iv j = whole_area m area iv j * true_flux m b w iv j).
Proof.
  intros Hw Ha Hex. destruct complete as [vel [err [n [E [_ [_ H]]]]]]. destruct (H w Hw) as [He Hn]. exists vel, err, n. split; [exact E|].
  assert (Hp : (0 < n)%nat).
  { destruct n; [|lia]. exfalso. simpl in Hn. symmetry in Hn. rewrite over_null in Hn by (intros; lra). destruct Hex as [iv [j Hc]]. specialize (Hn iv j Hc). lra. }
  rewrite printed_zero; [|rewrite He; apply over_nonneg; intros; apply pow2_ge_0|exact Hp].
  rewrite He, over_null by (intros; apply pow2_ge_0).
  assert (K : forall iv j, counted M iv j = true -> whole_area m area iv j <> 0).
  { intros iv j Hc. unfold counted, subface in Hc. unfold whole_area, face_at. fold m in Hc. destruct (nth_error (verts m) iv) as [v|]; [|discriminate].
    destruct (nth_error (x_faces v) j) as [a|]; [|discriminate]. destruct (nth_error (x_subs v) j); [|discriminate].
    destruct (nth_error (faces m) a) as [f|] eqn:Ef; [|discriminate]. destruct (nth_error (t_extra M) iv); [|discriminate]. apply andb_true_iff in Hc. exact (Ha a f Ef (proj1 Hc)). }
  split; intros Q iv j Hc; specialize (Q iv j Hc); specialize (K iv j Hc).
  - assert (Z : matrix_flux m l (heads p u B) iv j / whole_area m area iv j - true_flux m b w iv j = 0) by (apply Rsqr_0_uniq; unfold Rsqr; simpl in Q; lra).
    replace (true_flux m b w iv j) with (matrix_flux m l (heads p u B) iv j / whole_area m area iv j) by lra. field. exact K.
  - rewrite Q. field. exact K.
Qed.
End Zero.
