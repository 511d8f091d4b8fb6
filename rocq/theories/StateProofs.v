(** Proofs about State.v. *)
From Coq Require Import Reals List Arith Lia Lra Bool.
From Coquelicot Require Import Coquelicot.
From Verif Require Import Prelude Arrays CharCurves SpecCurves CharCurvesProofs CharCurveSet SpecCurveSet CharCurveSetProofs Eos SpecEos EosProofs State SpecState.
From Verif Require Fvtpf MpfaoTs Transport SpecFvtpf SpecMpfaoTs SpecTransport.
Import ListNotations.
Local Open Scope R_scope.

Lemma stride_unknowns md : stride md = unknowns md.
Proof. destruct md; reflexivity. Qed.

Lemma collect_ok {A} (body : nat -> list A -> outcome (list A)) (h : nat -> A) n :
  (forall c out, (c < n)%nat -> body c out = Ok (out ++ [h c])) ->
  for_ n body [] = Ok (map h (seq 0 n)).
Proof.
  intros Hb.
  destruct (for_inv (fun i out => out = map h (seq 0 i)) body n []) as [r [E R]]; [reflexivity| |].
  - intros i s Hi ->. exists (map h (seq 0 i) ++ [h i]). split; [apply Hb; exact Hi|].
    rewrite seq_S, map_app. reflexivity.
  - rewrite E, R. reflexivity.
Qed.

Lemma gather_ok md off U n : (off < stride md)%nat -> (stride md * n <= length U)%nat ->
  gather md off U n = Ok (map (fun c => nth (stride md * c + off) U 0) (seq 0 n)).
Proof.
  intros Ho HU. unfold gather. apply collect_ok. intros c out Hc.
  assert (L : (stride md * c + off < length U)%nat) by nia.
  unfold rd. rewrite (nth_error_nth' U 0 L). reflexivity.
Qed.

Lemma nth_seq_map {A} (h : nat -> A) n c : (c < n)%nat -> nth_error (map h (seq 0 n)) c = Some (h c).
Proof.
  intros H. rewrite nth_error_map, (nth_error_nth' _ 0%nat) by (rewrite seq_length; exact H).
  rewrite seq_nth by exact H. reflexivity.
Qed.

Lemma nth_combine {A B} (a : list A) (b : list B) c x y :
  nth_error a c = Some x -> nth_error b c = Some y -> nth_error (combine a b) c = Some (x, y).
Proof.
  revert b c. induction a as [|x0 a IH]; intros [|y0 b] [|c] H1 H2; try discriminate; simpl in *.
  - congruence.
  - apply IH; assumption.
Qed.

Lemma length_combine_eq {A B} (a : list A) (b : list B) : length a = length b -> length (combine a b) = length a.
Proof. intros H. rewrite combine_length. lia. Qed.

Lemma describes_sat_eval ty p c x : describes_sat ty p c -> sat_eval ty p x = saturation c (fst x) (snd x).
Proof. destruct c; simpl; intros [-> ->]; reflexivity. Qed.
Lemma describes_kr_eval ty p c x : describes_kr ty p c -> kr_eval ty p x = law c x.
Proof. destruct c; simpl; intros [-> ->]; reflexivity. Qed.

(** ** Saturation and relative permeability *)

Definition Se_of (f : material) (s : fl * fl * fl) : fl := flet s := fst (fst s); fdiv (s - Sr f) (1 - Sr f).
Definition law_fl (kc : kr_law) (Se : fl) : fl * fl := match Se with Some x => law kc x | None => (None, None) end.
Definition curved (g : setting) (sc : sat_curve) (kc : kr_law) (f : material) (P : R) (p : point) : point :=
  let s := sat_at sc (Sr f) (Pref g) P in set_kr (set_sat p s) (law_fl kc (Se_of f s)).

Lemma curves_ok g N sc kc mats Ps pts : curves_set g N sc kc ->
  length mats = N -> length Ps = N -> length pts = N ->
  exists pts', curves g mats N (map (fun P => Pref g - P) Ps) pts = Ok pts' /\ length pts' = N /\
    forall c p f P, nth_error pts c = Some p -> nth_error mats c = Some f -> nth_error Ps c = Some P ->
      nth_error pts' c = Some (curved g (sc c) (kc c) f P p).
Proof.
  intros [[h [Hr [Hd [Hin Hall]]]] [h' [Hr' [Hp' Hall']]]] Lm LP Lp.
  unfold curves.
  set (Pc := map (fun P => Pref g - P) Ps).
  assert (LPc : length Pc = N) by (unfold Pc; rewrite map_length; exact LP).
  assert (Lin : length (combine (map Sr mats) Pc) = N) by (rewrite combine_length, map_length; lia).
  destruct (compute_correct sat_nparams sat_eval h (sat g) (combine (map Sr mats) Pc) (map p_sat pts) Hr Hd) as (s & Es & Ls & Hs & _).
  { intros ty j Hty Hj. specialize (Hin ty j Hty Hj). rewrite Lin, map_length. lia. }
  unfold SaturationCompute. rewrite Es. cbn [bind]. rewrite map_length in Ls.
  set (pts1 := map (fun x => set_sat (fst x) (snd x)) (combine pts s)).
  assert (L1 : length pts1 = N) by (unfold pts1; rewrite map_length, length_combine_eq by congruence; exact Lp).
  assert (N1 : forall c p f P, nth_error pts c = Some p -> nth_error mats c = Some f -> nth_error Ps c = Some P ->
     nth_error pts1 c = Some (set_sat p (sat_at (sc c) (Sr f) (Pref g) P))).
  { intros c p f P H1 H2 H3.
    destruct (Hall c) as (ty & q & Hty & Ha & Hq); [rewrite <- Lm; apply nth_lt with f; exact H2|].
    assert (Hx : nth_error (combine (map Sr mats) Pc) c = Some (Sr f, Pref g - P)).
    { apply nth_combine; [rewrite nth_error_map, H2; reflexivity|unfold Pc; rewrite nth_error_map, H3; reflexivity]. }
    specialize (Hs ty c q _ Hty Ha Hx). rewrite (describes_sat_eval _ _ _ _ Hq) in Hs.
    unfold pts1. rewrite nth_error_map, (nth_combine _ _ c p _ H1 Hs). reflexivity. }
  set (Sef := fun c => match nth_error pts1 c, nth_error mats c with Some p, Some f => Se_of f (p_sat p) | _, _ => None end).
  rewrite (collect_ok _ Sef N).
  2:{ intros c out Hc. unfold effective.
      destruct (rd_ok pts1 c) as [p [Ep Np]]; [lia|]. rewrite Ep. cbn [bind].
      destruct (rd_ok mats c) as [f [Ef Nf]]; [lia|]. rewrite Ef. cbn [bind].
      unfold Sef. rewrite Np, Nf. reflexivity. }
  cbn [bind].
  rewrite (compute_by_counter_identity kr_nparams kr_eval_fl h' (relperm g) _ _ N Hr' Hp').
  destruct (compute_correct kr_nparams kr_eval_fl h' (relperm g) (map Sef (seq 0 N)) (map p_kr pts1) Hr') as (k & Ek & Lk & Hk & _).
  { unfold disjoint_assignment. destruct Hp' as [[-> ->]|[-> ->]]; rewrite ?app_nil_r; apply seq_NoDup. }
  { intros ty j Hty Hj. rewrite !map_length, seq_length, L1. assert (Hc : (ty = 0 \/ ty = 1)%nat) by lia.
    destruct Hp' as [[H0 H1]|[H0 H1]], Hc; subst ty; rewrite ?H0, ?H1 in Hj; try (destruct Hj; fail); apply in_seq in Hj; lia. }
  rewrite Ek. cbn [bind]. rewrite map_length in Lk.
  eexists. split; [reflexivity|]. split; [rewrite map_length, length_combine_eq by congruence; exact L1|].
  intros c p f P H1 H2 H3.
  assert (Hc : (c < N)%nat) by (rewrite <- Lm; apply nth_lt with f; exact H2).
  destruct (Hall' c Hc) as (ty & q & Hty & Ha & Hq).
  specialize (Hk ty c q _ Hty Ha (nth_seq_map Sef N c Hc)).
  rewrite nth_error_map, (nth_combine _ _ c _ _ (N1 c p f P H1 H2 H3) Hk). cbn [option_map fst snd].
  unfold curved. do 3 f_equal. unfold Sef. rewrite (N1 c p f P H1 H2 H3), H2. cbn [p_sat set_sat].
  unfold kr_eval_fl, law_fl. destruct (Se_of f _) as [x|]; [apply describes_kr_eval; exact Hq|reflexivity].
Qed.

(** ** Cells *)

Lemma cells_ok md g mats Ps xs N pts :
  length mats = N -> length pts = N -> length Ps = N -> (stride md = 2%nat -> length xs = N) ->
  (forall c p f P x, nth_error pts c = Some p -> nth_error mats c = Some f -> exists p', update_point md g f P x p = Ok p') ->
  exists pts', for_ N (update_cell md g mats Ps xs) pts = Ok pts' /\ length pts' = N /\
    forall c p f P, nth_error pts c = Some p -> nth_error mats c = Some f -> nth_error Ps c = Some P ->
      exists p', update_point md g f P (if (stride md =? 1)%nat then 0 else nth c xs 0) p = Ok p' /\ nth_error pts' c = Some p'.
Proof.
  intros Lm Lp LP Lx Hu.
  destruct (for_inv (fun i l => length l = N /\
     (forall c, (i <= c)%nat -> nth_error l c = nth_error pts c) /\
     forall c p f P, (c < i)%nat -> nth_error pts c = Some p -> nth_error mats c = Some f -> nth_error Ps c = Some P ->
      exists p', update_point md g f P (if (stride md =? 1)%nat then 0 else nth c xs 0) p = Ok p' /\ nth_error l c = Some p')
    (update_cell md g mats Ps xs) N pts) as [l [E [Ll [_ Hl]]]].
  - split; [exact Lp|]. split; [reflexivity|]. intros; lia.
  - intros i l Hi [Ll [Hr Hd]]. unfold update_cell.
    destruct (rd_ok l i) as [p [Ep Np]]; [lia|]. rewrite Ep. cbn [bind].
    destruct (rd_ok mats i) as [f [Ef Nf]]; [lia|]. rewrite Ef. cbn [bind].
    destruct (rd_ok Ps i) as [P [EP NP]]; [lia|]. rewrite EP. cbn [bind].
    assert (Np0 : nth_error pts i = Some p) by (rewrite <- Hr by lia; exact Np).
    assert (Ex : (if (stride md =? 1)%nat then Ok 0 else rd xs i) = Ok (if (stride md =? 1)%nat then 0 else nth i xs 0)).
    { destruct (stride md =? 1)%nat eqn:E1; [reflexivity|]. assert (H2 : stride md = 2%nat) by (destruct md; simpl in *; congruence).
      specialize (Lx H2). unfold rd. rewrite (nth_error_nth' xs 0) by lia. reflexivity. }
    rewrite Ex. cbn [bind].
    destruct (Hu i p f P (if (stride md =? 1)%nat then 0 else nth i xs 0) Np0 Nf) as [p' Ep']. rewrite Ep'. cbn [bind].
    rewrite wr_ok by lia. eexists. split; [reflexivity|]. split; [rewrite length_upd; exact Ll|]. split.
    + intros c Hc. rewrite nth_upd_other by lia. apply Hr. lia.
    + intros c q f' P' Hc H1 H2 H3. destruct (Nat.eq_dec c i) as [->|Hne].
      * rewrite Np0 in H1. rewrite Nf in H2. rewrite NP in H3. injection H1 as <-. injection H2 as <-. injection H3 as <-.
        exists p'. split; [exact Ep'|apply nth_upd_same; lia].
      * destruct (Hd c q f' P') as [p2 [E2 N2]]; [lia|assumption..|]. exists p2. split; [exact E2|].
        rewrite nth_upd_other by lia. exact N2.
  - exists l. split; [exact E|]. split; [exact Ll|]. intros c p f P H1 H2 H3. apply (Hl c p f P); try assumption.
    rewrite <- Lm. apply nth_lt with f. exact H2.
Qed.

Lemma store_ok (h : nat -> R) n v : (n <= length v)%nat ->
  exists v', for_ n (store (map h (seq 0 n))) v = Ok v' /\ length v' = length v /\
    (forall c, (c < n)%nat -> nth_error v' c = Some (h c)) /\ (forall c, (n <= c)%nat -> nth_error v' c = nth_error v c).
Proof.
  intros L.
  destruct (for_inv (fun i l => length l = length v /\ (forall c, (c < i)%nat -> nth_error l c = Some (h c)) /\
     forall c, (i <= c)%nat -> nth_error l c = nth_error v c) (store (map h (seq 0 n))) n v) as [l [E [Ll H]]].
  - split; [reflexivity|]. split; [intros; lia|reflexivity].
  - intros i l Hi [Ll [H1 H2]]. unfold store. rewrite (rd_some _ i _ (nth_seq_map h n i Hi)). cbn [bind].
    rewrite wr_ok by lia. eexists. split; [reflexivity|]. split; [rewrite length_upd; exact Ll|]. split.
    + intros c Hc. destruct (Nat.eq_dec c i) as [->|Hne]; [apply nth_upd_same; lia|rewrite nth_upd_other by lia; apply H1; lia].
    + intros c Hc. rewrite nth_upd_other by lia. apply H2. lia.
  - exists l. split; [exact E|]. split; [exact Ll|exact H].
Qed.

Lemma density_at_ok ty P T m mem : ty <> DensityOther -> exists r, density_at ty P T m mem = Ok r.
Proof. intros H. destruct m, ty, mem as [[a b] c]; try contradiction; eexists; reflexivity. Qed.
Lemma viscosity_at_ok ty P T m mem : ty <> ViscosityOther -> exists r, viscosity_at ty P T m mem = Ok r.
Proof. intros H. destruct m, ty, mem as [[a b] c]; try contradiction; eexists; reflexivity. Qed.

Lemma update_point_ok md g f P x p : known md g -> exists p', update_point md g f P x p = Ok p'.
Proof.
  intros [H1 [H2 H3]]. unfold update_point.
  destruct (density_at_ok (den_type g) P (Tref g) (match md with RichardsFvtpf => Some 0 | _ => match md with Salinity => EOSComputeSalinityFraction x (mu f) 0 | _ => p_salt p end end) (p_rho p) H1) as [r Er].
  destruct (viscosity_at_ok (vis_type g) P (Tref g) (match md with RichardsFvtpf => Some 0 | _ => match md with Salinity => EOSComputeSalinityFraction x (mu f) 0 | _ => p_salt p end end) (p_vis p) H2) as [v Ev].
  destruct md; rewrite Er; cbn [bind]; rewrite Ev; cbn [bind]; try (eexists; reflexivity).
  specialize (H3 eq_refl). destruct (enthalpy g); [|contradiction]. simpl. eexists; reflexivity.
Qed.

(** ** The whole update *)

Lemma update_ok md g N sc kc mats U s : curves_set g N sc kc -> known md g -> sized md N mats s -> (unknowns md * N <= length U)%nat ->
  exists s', UpdateState md g mats N U s = Ok s' /\ length (points s') = N /\
    (forall c p f, nth_error (points s) c = Some p -> nth_error mats c = Some f ->
      exists p', update_point md g f (pressure md U c) (second md U c) (curved g (sc c) (kc c) f (pressure md U c) p) = Ok p'
        /\ nth_error (points s') c = Some p') /\
    (forall c, (c < N)%nat -> nth_error (P_vec s') c = Some (pressure md U c)) /\
    (forall c, (N <= c)%nat -> nth_error (P_vec s') c = nth_error (P_vec s) c) /\
    (unknowns md = 2%nat -> forall c, (c < N)%nat -> nth_error (aux s') c = Some (second md U c)) /\
    length (P_vec s') = length (P_vec s) /\ length (aux s') = length (aux s).
Proof.
  intros HC HK [Lm [Lp [LP La]]] HU. unfold UpdateState.
  assert (Hst := stride_unknowns md).
  rewrite (gather_ok md 0) by (destruct md; simpl in *; lia). cbn [bind].
  set (Pf := fun c => nth (stride md * c + 0) U 0).
  assert (HPf : forall c, Pf c = pressure md U c) by (intro c; unfold Pf, pressure; rewrite Hst, Nat.add_0_r; reflexivity).
  set (xf := fun c => nth (stride md * c + 1) U 0).
  assert (Ex : (if (stride md =? 1)%nat then Ok [] else gather md 1 U N) = Ok (if (stride md =? 1)%nat then [] else map xf (seq 0 N))).
  { destruct (stride md =? 1)%nat eqn:E1; [reflexivity|]. rewrite gather_ok; [reflexivity|destruct md; simpl in *; try discriminate; lia|rewrite Hst; exact HU]. }
  rewrite Ex. cbn [bind].
  destruct (curves_ok g N sc kc mats (map Pf (seq 0 N)) (points s) HC Lm) as (pts1 & E1 & L1 & H1); [rewrite map_length, seq_length; reflexivity|exact Lp|].
  rewrite E1. cbn [bind].
  destruct (cells_ok md g mats (map Pf (seq 0 N)) (if (stride md =? 1)%nat then [] else map xf (seq 0 N)) N pts1 Lm L1) as (pts2 & E2 & L2 & H2).
  { rewrite map_length, seq_length; reflexivity. }
  { intros E. rewrite E. simpl. rewrite map_length, seq_length; reflexivity. }
  { intros. apply update_point_ok. exact HK. }
  rewrite E2. cbn [bind].
  destruct (store_ok Pf N (P_vec s) LP) as (pv & E3 & L3 & H3 & H3'). rewrite E3. cbn [bind].
  assert (E4 : exists av, (if (stride md =? 1)%nat then Ok (aux s) else for_ N (store (if (stride md =? 1)%nat then [] else map xf (seq 0 N))) (aux s)) = Ok av
    /\ length av = length (aux s) /\ (unknowns md = 2%nat -> forall c, (c < N)%nat -> nth_error av c = Some (second md U c))).
  { destruct (stride md =? 1)%nat eqn:Es.
    - exists (aux s). split; [reflexivity|]. split; [reflexivity|]. intros H. rewrite <- Hst in H. rewrite H in Es. discriminate.
    - assert (H2' : unknowns md = 2%nat) by (destruct md; simpl in *; congruence).
      destruct (store_ok xf N (aux s) (La H2')) as (av & Ea & Lav & Hav & _). exists av. split; [exact Ea|]. split; [exact Lav|].
      intros _ c Hc. rewrite (Hav c Hc). f_equal. destruct md; simpl in H2'; try discriminate; reflexivity. }
  destruct E4 as (av & E4 & L4 & H4). rewrite E4. cbn [bind].
  eexists. split; [reflexivity|]. cbn [points P_vec aux]. split; [exact L2|]. split; [|split; [|split; [|split; [|split]]]].
  - intros c p f Hp Hf.
    assert (Hc : (c < N)%nat) by (rewrite <- Lm; apply nth_lt with f; exact Hf).
    specialize (H1 c p f (Pf c) Hp Hf (nth_seq_map Pf N c Hc)).
    destruct (H2 c _ f (Pf c) H1 Hf (nth_seq_map Pf N c Hc)) as (p' & Eu & Np').
    rewrite HPf in Eu. exists p'. split; [|exact Np'].
    assert (Hx : (if (stride md =? 1)%nat then 0 else nth c (if (stride md =? 1)%nat then [] else map xf (seq 0 N)) 0) = second md U c).
    { destruct (stride md =? 1)%nat eqn:Es; [destruct md; simpl in *; congruence|].
      rewrite (nth_error_nth _ _ _ (nth_seq_map xf N c Hc)). destruct md; simpl in Es; try discriminate; reflexivity. }
    rewrite Hx in Eu. exact Eu.
  - intros c Hc. rewrite (H3 c Hc), HPf. reflexivity.
  - exact H3'.
  - exact H4.
  - exact L3.
  - exact L4.
Qed.

(** ** What the state is *)

Ltac split_update H :=
  unfold update_point in H;
  match type of H with bind ?e _ = Ok _ => let E := fresh "Er" in destruct e as [[[? ?] ?]| |] eqn:E; cbn [bind] in H; try discriminate H end;
  match type of H with bind ?e _ = Ok _ => let E := fresh "Ev" in destruct e as [[[? ?] ?]| |] eqn:E; cbn [bind] in H; try discriminate H end.

Lemma update_wet md g f P x p p' sc kc p0 :
  p = curved g sc kc f P p0 -> update_point md g f P x p = Ok p' -> wet_state g sc kc f P p'.
Proof.
  intros -> H.
  assert (F : p_sat p' = sat_at sc (Sr f) (Pref g) P /\ fst (p_kr p') = fst (law_fl kc (Se_of f (sat_at sc (Sr f) (Pref g) P)))
    /\ snd (p_kr p') = fl2 Rmult (snd (law_fl kc (Se_of f (sat_at sc (Sr f) (Pref g) P)))) (fdiv 1 (1 - Sr f))
    /\ p_K p' = map (fun k0 => fl1 (fun k => k0 * k) (fst (p_kr p'))) (K0 f)).
  { split_update H. destruct md; try (injection H as <-; repeat split).
    match type of H with bind ?e _ = Ok _ => destruct e as [h| |] eqn:Eh; cbn [bind] in H; try discriminate H end.
    injection H as <-. repeat split. }
  destruct F as [F1 [F2 [F3 F4]]]. split; [exact F1|]. intros S HS Hr.
  rewrite F1 in HS. unfold Se_of in F2, F3. rewrite HS in F2, F3. cbn [fbind] in F2, F3.
  rewrite fdiv_ok in F2, F3 by lra. rewrite fdiv_ok in F3 by lra. cbn [law_fl] in F2, F3.
  cbv zeta. unfold effective_saturation. split; [exact F2|]. split.
  - rewrite F3. unfold fl2, fl1. destruct (snd (law kc _)) as [d|]; [|reflexivity]. cbn [fbind]. f_equal. unfold Rdiv. ring.
  - rewrite F4, F2. reflexivity.
Qed.

Lemma density_pressure_only ty P T m m' mem mem' : pressure_only ty -> density_at ty P T m mem = density_at ty P T m' mem'.
Proof. intros [-> | ->]; destruct m, m'; reflexivity. Qed.

Lemma update_same md g f P x sc kc p q p' q' : simple_water g ->
  update_point md g f P x (curved g sc kc f P p) = Ok p' -> update_point md g f P x (curved g sc kc f P q) = Ok q' -> same_state md p' q'.
Proof.
  intros [HD HV] Hp Hq. unfold update_point in Hp, Hq.
  rewrite HV in Hp, Hq.
  match type of Hp with bind ?e _ = Ok _ => destruct e as [r| |] eqn:Er; cbn [bind] in Hp; try discriminate Hp end.
  match type of Hq with bind ?e _ = Ok _ => destruct e as [r'| |] eqn:Er'; cbn [bind] in Hq; try discriminate Hq end.
  assert (Hr : r = r').
  { match type of Er with density_at _ _ _ ?m ?mem = _ => match type of Er' with density_at _ _ _ ?m' ?mem' = _ =>
      rewrite (density_pressure_only _ P (Tref g) m m' mem mem' HD), Er' in Er end end. congruence. }
  subst r'.
  assert (Evis : forall m mem, viscosity_at ViscosityConstant P (Tref g) m mem = Ok viscosity_constant) by (intros [?|] mem; reflexivity).
  rewrite Evis in Hp, Hq. cbn [bind] in Hp, Hq.
  destruct md; try (injection Hp as <-; injection Hq as <-; repeat split; intros; discriminate).
  destruct (enthalpy g); simpl in Hp, Hq; [|discriminate].
  injection Hp as <-; injection Hq as <-. repeat split; intros; discriminate.
Qed.

Theorem update_local md g N sc kc mats U V s t c : curves_set g N sc kc -> known md g -> simple_water g ->
  sized md N mats s -> sized md N mats t -> (unknowns md * N <= length U)%nat -> (unknowns md * N <= length V)%nat ->
  (c < N)%nat -> pressure md U c = pressure md V c -> second md U c = second md V c ->
  exists s' t' p q, UpdateState md g mats N U s = Ok s' /\ UpdateState md g mats N V t = Ok t'
    /\ nth_error (points s') c = Some p /\ nth_error (points t') c = Some q /\ same_state md p q.
Proof.
  intros HC HK HW Ss St LU LV Hc HP Hx.
  destruct (update_ok md g N sc kc mats U s HC HK Ss LU) as (s' & Es & _ & Hs & _).
  destruct (update_ok md g N sc kc mats V t HC HK St LV) as (t' & Et & _ & Ht & _).
  destruct Ss as [Lm [Ls _]]. destruct St as [_ [Lt _]].
  destruct (rd_ok mats c) as [f [_ Nf]]; [lia|].
  destruct (rd_ok (points s) c) as [p [_ Np]]; [lia|]. destruct (rd_ok (points t) c) as [q [_ Nq]]; [lia|].
  destruct (Hs c p f Np Nf) as (p' & Ep & Np'). destruct (Ht c q f Nq Nf) as (q' & Eq & Nq').
  exists s', t', p', q'. repeat (split; [assumption|]).
  rewrite <- HP, <- Hx in Eq. exact (update_same md g f _ _ _ _ p q p' q' HW Ep Eq).
Qed.

(** ** Derivatives *)

Definition val (o : fl) : R := match o with Some v => v | None => 0 end.

Lemma val_derive f x d : has_derivative f x d -> is_derive (fun y => val (f y)) x d.
Proof.
  intros [h [Hl Hd]]. apply (is_derive_ext_loc h); [|exact Hd].
  apply (filter_imp (fun y => f y = Some (h y))); [|exact Hl]. intros y Hy. rewrite Hy. reflexivity.
Qed.
Lemma derivative_finite f x d : has_derivative f x d -> exists v, f x = Some v.
Proof. intros [h [Hl _]]. exists (h x). exact (locally_singleton _ _ Hl). Qed.

Lemma saturated c Sr Pref P : Pref < P -> sat_at c Sr Pref P = (Some 1, Some 0, Some 0).
Proof.
  intros H. unfold sat_at, saturation, gardner, van_genuchten. destruct c.
  - destruct (Rlt_dec (Pref - P) 0); [reflexivity|lra].
  - destruct (Rle_dec (Pref - P) 0); [reflexivity|lra].
Qed.

Lemma sat_finite c Sr Pref P : admissible_sat c -> exists s d d2, sat_at c Sr Pref P = (Some s, Some d, Some d2).
Proof.
  intros Ha. destruct (Req_EM_T P Pref) as [->|Hne].
  - unfold sat_at, saturation, gardner, van_genuchten. destruct c as [n m alpha|m alpha]; simpl in Ha.
    + destruct (Rlt_dec (Pref - Pref) 0); [lra|]. rewrite !fdiv_ok by lra. cbn. eexists _, _, _. reflexivity.
    + destruct (Rle_dec (Pref - Pref) 0); [|lra]. eexists _, _, _. reflexivity.
  - destruct (saturation_derivatives c Sr Pref P Ha Hne) as (d & d2 & H1 & H2 & H3 & _).
    destruct (derivative_finite _ _ _ H3) as [s Hs].
    unfold S_at, dS_at, d2S_at in *. destruct (sat_at c Sr Pref P) as [[a b] e]. cbn in *.
    exists s, d, d2. subst a b e. reflexivity.
Qed.

Lemma law_derivative kc Se : admissible_law kc -> 0 < Se < 1 ->
  exists d, snd (law kc Se) = Some d /\ has_derivative (fun x => fst (law kc x)) Se d.
Proof.
  destruct kc as [m|m x0 x1 x2 dx c0 c1 c2 c3]; simpl; intros Ha Hs.
  - exact (rel_perm_derivative (Irmay m) Se Ha Hs).
  - destruct Ha as [H1 [H2 H3]]. apply (mualem_smoothed_derivative m x0 x1 x2 dx c0 c1 c2 c3 Se); try assumption. lra.
Qed.
Lemma law_finite kc Se : admissible_law kc -> 0 < Se <= 1 -> exists k d, law kc Se = (Some k, Some d).
Proof.
  intros Ha Hs. destruct (Req_EM_T Se 1) as [->|Hne].
  - destruct kc as [m|m x0 x1 x2 dx c0 c1 c2 c3]; simpl in *.
    + unfold irmay. destruct (Rle_dec 1 1); [|lra]. eexists _, _; reflexivity.
    + destruct Ha as [H1 [H2 H3]].
      destruct (mualem_smoothed_derivative m x0 x1 x2 dx c0 c1 c2 c3 1 H1 H2 ltac:(lra) H3) as (d & Hd & H).
      destruct (derivative_finite _ _ _ H) as [k Hk]. destruct (mualem _ _ _ _ _ _ _ _ 1) as [a b]. cbn in *. exists k, d. subst a b. reflexivity.
  - destruct (law_derivative kc Se Ha ltac:(lra)) as (d & Hd & H).
    destruct (derivative_finite _ _ _ H) as [k Hk]. destruct (law kc Se) as [a b]. cbn in *. exists k, d. subst a b. reflexivity.
Qed.

(** Saturation, relative permeability and their derivatives as real functions. *)
Section Wet.
Variables (sc : sat_curve) (kc : kr_law) (Pr sr : R).
Hypothesis (Hs : admissible_sat sc) (Hk : admissible_law kc) (Hr : 0 <= sr < 1).
Definition fS P := val (S_at sc sr Pr P).
Definition fdS P := val (dS_at sc sr Pr P).
Definition fd2S P := val (d2S_at sc sr Pr P).
Definition fSe P := (fS P - sr) / (1 - sr).
Definition fKr P := val (fst (law kc (fSe P))).
Definition fdKr P := val (snd (law kc (fSe P))) / (1 - sr).

Lemma wet_sat P : sat_at sc sr Pr P = (Some (fS P), Some (fdS P), Some (fd2S P)).
Proof.
  destruct (sat_finite sc sr Pr P Hs) as (s & d & d2 & E).
  unfold fS, fdS, fd2S, S_at, dS_at, d2S_at. rewrite E. reflexivity.
Qed.
Lemma fSe_range P : 0 < fSe P <= 1 /\ (P < Pr -> fSe P < 1).
Proof.
  destruct (saturation_bounds sc sr Pr P Hs ltac:(lra)) as (s & E & B & B1 & B2).
  assert (ES : fS P = s) by (unfold fS; rewrite E; reflexivity).
  unfold fSe. rewrite ES. destruct (Rlt_dec P Pr) as [L|L].
  - specialize (B2 L ltac:(lra)). split; [split|intros _].
    + apply Rdiv_lt_0_compat; lra.
    + apply (Rmult_le_reg_r (1 - sr)); [lra|]. unfold Rdiv. rewrite Rmult_assoc, Rinv_l by lra. lra.
    + apply (Rmult_lt_reg_r (1 - sr)); [lra|]. unfold Rdiv. rewrite Rmult_assoc, Rinv_l by lra. lra.
  - specialize (B1 ltac:(lra)). rewrite B1. unfold Rdiv. rewrite Rinv_r by lra. split; [lra|lra].
Qed.
Lemma wet_law P : law kc (fSe P) = (Some (fKr P), Some (fdKr P * (1 - sr))).
Proof.
  destruct (law_finite kc (fSe P) Hk (proj1 (fSe_range P))) as (k & d & E).
  unfold fKr, fdKr. rewrite E. cbn. f_equal. f_equal. field. lra.
Qed.
Lemma wet_derivatives P : P <> Pr ->
  is_derive fS P (fdS P) /\ is_derive fdS P (fd2S P) /\ is_derive fKr P (fdKr P * fdS P).
Proof.
  intros Hne. destruct (saturation_derivatives sc sr Pr P Hs Hne) as (d & d2 & E1 & E2 & D1 & D2).
  assert (F1 : fdS P = d) by (unfold fdS; rewrite E1; reflexivity).
  assert (F2 : fd2S P = d2) by (unfold fd2S; rewrite E2; reflexivity).
  apply val_derive in D1. apply val_derive in D2.
  assert (D1' : is_derive fS P (fdS P)) by (rewrite F1; exact D1).
  refine (conj D1' (conj _ _)); [rewrite F2; exact D2|].
  destruct (Rlt_dec P Pr) as [L|L].
  - destruct (fSe_range P) as [[B1 B2] B3]. specialize (B3 L).
    destruct (law_derivative kc (fSe P) Hk (conj B1 B3)) as (k & Ek & Dk). apply val_derive in Dk.
    assert (DSe : is_derive fSe P (fdS P / (1 - sr))).
    { apply (is_derive_ext (fun x => / (1 - sr) * (fS x - sr))); [intro t; unfold fSe; rewrite Rmult_comm; reflexivity|].
      replace (fdS P / (1 - sr)) with (scal (/ (1 - sr)) (minus (fdS P) zero)).
      2:{ unfold scal, minus, plus, opp, zero; simpl. unfold mult; simpl. field. lra. }
      apply (is_derive_scal (fun x => fS x - sr) P (/ (1 - sr))).
      apply (is_derive_minus fS (fun _ => sr) P (fdS P) zero); [exact D1'|exact (is_derive_const (sr : R_NormedModule) P)]. }
    replace (fdKr P * fdS P) with (scal (fdS P / (1 - sr)) k).
    + exact (is_derive_comp (fun s => val (fst (law kc s))) fSe P k (fdS P / (1 - sr)) Dk DSe).
    + unfold fdKr. rewrite Ek. cbn [val]. unfold scal; simpl. unfold mult; simpl. field. lra.
  - assert (G : Pr < P) by lra.
    assert (Z : fdS P = 0) by (unfold fdS, dS_at; rewrite saturated by exact G; reflexivity).
    rewrite Z, Rmult_0_r. apply (is_derive_ext_loc (fun _ => fKr P)); [|exact (is_derive_const (fKr P : R_NormedModule) P)].
    apply (filter_imp (fun y => Pr < y)); [|apply locally_gt; exact G].
    intros y Hy. unfold fKr, fSe, fS, S_at. rewrite !saturated by assumption. reflexivity.
Qed.
End Wet.

Lemma pressure_upd md U c x : (c < length U)%nat -> (unknowns md * c < length U)%nat ->
  pressure md (upd U (unknowns md * c) x) c = x /\ second md (upd U (unknowns md * c) x) c = second md U c.
Proof.
  intros _ H. split.
  - unfold pressure. apply nth_error_nth. apply nth_upd_same. exact H.
  - destruct md; try reflexivity; unfold second; cbn [unknowns] in *.
    all: destruct (nth_error U (2 * c + 1)) as [v|] eqn:E.
    all: try (rewrite (nth_error_nth _ _ _ E); apply nth_error_nth; rewrite nth_upd_other by lia; exact E).
    all: apply nth_error_None in E; rewrite !nth_overflow; [reflexivity|exact E|rewrite length_upd; exact E].
Qed.

(** Density of the simple models as a real function. *)
Definition frho g x := val (cell_value (EOSComputeWaterDensity (den_type g) x (Tref g) 0 (None, None, None))).
Definition fdrho g x := val (cell_first (EOSComputeWaterDensity (den_type g) x (Tref g) 0 (None, None, None))).
Definition fd2rho g x := val (cell_second (EOSComputeWaterDensity (den_type g) x (Tref g) 0 (None, None, None))).
Lemma simple_density g P T m mem : pressure_only (den_type g) ->
  density_at (den_type g) P T m mem = Ok (Some (frho g P), Some (fdrho g P), Some (fd2rho g P)).
Proof.
  intros H. unfold frho, fdrho, fd2rho. destruct H as [-> | ->].
  - destruct m; reflexivity.
  - destruct m; simpl; unfold density_exponential; destruct (Rlt_dec P 101325); reflexivity.
Qed.

Lemma updated_point md g sc kc f P x p p' : simple_water g -> admissible_sat sc -> admissible_law kc -> 0 <= Sr f < 1 ->
  update_point md g f P x (curved g sc kc f P p) = Ok p' ->
  p_sat p' = (Some (fS sc (Pref g) (Sr f) P), Some (fdS sc (Pref g) (Sr f) P), Some (fd2S sc (Pref g) (Sr f) P))
  /\ p_kr p' = (Some (fKr sc kc (Pref g) (Sr f) P), Some (fdKr sc kc (Pref g) (Sr f) P))
  /\ p_rho p' = (Some (frho g P), Some (fdrho g P), Some (fd2rho g P))
  /\ p_vis p' = (Some 0.000994, Some 0, Some 0).
Proof.
  intros [HD HV] Hs Hk Hr H.
  assert (E := wet_sat sc (Pref g) (Sr f) Hs P).
  assert (EL := wet_law sc kc (Pref g) (Sr f) Hs Hk Hr P).
  assert (EC : curved g sc kc f P p = set_kr (set_sat p (Some (fS sc (Pref g) (Sr f) P), Some (fdS sc (Pref g) (Sr f) P), Some (fd2S sc (Pref g) (Sr f) P)))
    (Some (fKr sc kc (Pref g) (Sr f) P), Some (fdKr sc kc (Pref g) (Sr f) P * (1 - Sr f)))).
  { unfold curved. rewrite E. unfold Se_of. cbn [fst fbind]. rewrite fdiv_ok by lra. cbn [law_fl].
    change ((fS sc (Pref g) (Sr f) P - Sr f) / (1 - Sr f)) with (fSe sc (Pref g) (Sr f) P). rewrite EL. reflexivity. }
  rewrite EC in H. unfold update_point in H. rewrite simple_density in H by exact HD. cbn [bind] in H.
  rewrite HV in H.
  assert (Evis : forall m mem, viscosity_at ViscosityConstant P (Tref g) m mem = Ok viscosity_constant) by (intros [?|] mem; reflexivity).
  rewrite Evis in H. cbn [bind] in H.
  cbn [set_kr set_sat p_kr p_sat fst snd] in H. rewrite fdiv_ok in H by lra.
  unfold fl2 in H. cbn [fbind] in H.
  replace (fdKr sc kc (Pref g) (Sr f) P * (1 - Sr f) * (1 / (1 - Sr f))) with (fdKr sc kc (Pref g) (Sr f) P) in H by (field; lra).
  destruct md; try (injection H as <-; repeat split; fail).
  match type of H with bind ?e _ = Ok _ => destruct e as [h| |] eqn:Eh; cbn [bind] in H; try discriminate H end.
  injection H as <-. repeat split.
Qed.

Lemma density_derives g p : pressure_only (den_type g) -> (den_type g = DensityExponential -> p <> 101325) ->
  is_derive (frho g) p (fdrho g p) /\ is_derive (fdrho g) p (fd2rho g p).
Proof.
  intros Hp Hne. destruct (Req_EM_T p 101325) as [->|Hn].
  - assert (E : den_type g = DensityConstant) by (destruct Hp as [E|E]; [exact E|exfalso; exact (Hne E eq_refl)]).
    unfold frho, fdrho, fd2rho. rewrite E. cbn. split; [exact (is_derive_const (998 : R_NormedModule) 101325)|exact (is_derive_const (0 : R_NormedModule) 101325)].
  - destruct (density_derivatives (den_type g) p (Tref g) 0 (None, None, None) Hp Hn) as (d1 & d2 & E1 & E2 & D1 & D2).
    apply val_derive in D1. apply val_derive in D2. unfold frho, fdrho, fd2rho. rewrite E1, E2. split; assumption.
Qed.

Theorem state_consistent md g N sc kc mats U s k f : curves_set g N sc kc -> known md g -> simple_water g -> sized md N mats s ->
  (unknowns md * N <= length U)%nat -> nth_error mats k = Some f -> 0 <= Sr f < 1 -> admissible_sat (sc k) -> admissible_law (kc k) ->
  pressure md U k <> Pref g -> (den_type g = DensityExponential -> pressure md U k <> 101325) ->
  exists c e,
    (forall x, exists s' p, UpdateState md g mats N (upd U (unknowns md * k) x) s = Ok s' /\ nth_error (points s') k = Some p
       /\ nth_error (P_vec s') k = Some x /\ mpfa_cell p = Some (c x) /\ two_point_cell x p = Some (e x))
    /\ SpecMpfaoTs.consistent c (pressure md U k) /\ SpecFvtpf.consistent e (pressure md U k).
Proof.
  intros HC HK HW HS HU Hf Hr Ha Hl Hne Hne2.
  set (P0 := pressure md U k) in *.
  set (S0 := fS (sc k) (Pref g) (Sr f)). set (S1 := fdS (sc k) (Pref g) (Sr f)). set (S2 := fd2S (sc k) (Pref g) (Sr f)).
  set (K1 := fKr (sc k) (kc k) (Pref g) (Sr f)). set (K2 := fdKr (sc k) (kc k) (Pref g) (Sr f)).
  exists (fun x => MpfaoTs.mkCell (frho g x) (fdrho g x) (fd2rho g x) 0.000994 0 (S0 x) (S1 x) (S2 x) (K1 x) (K2 x)).
  exists (fun x => Fvtpf.mkCell x (frho g x) (fdrho g x) 0.000994 0 (S0 x) (S1 x) (K1 x) (K2 x)).
  destruct (wet_derivatives (sc k) (kc k) (Pref g) (Sr f) Ha Hl Hr P0 Hne) as [D1 [D2 D3]].
  destruct (density_derives g P0 (proj1 HW) Hne2) as [R1 R2].
  assert (Hk : (k < N)%nat) by (destruct HS as [<- _]; apply nth_lt with f; exact Hf).
  assert (Hi : (unknowns md * k < length U)%nat) by (destruct md; simpl in *; lia).
  split; [|split].
  - intros x.
    destruct (update_ok md g N sc kc mats (upd U (unknowns md * k) x) s HC HK HS) as (s' & Es & _ & Hs & HP & _); [rewrite length_upd; exact HU|].
    destruct (rd_ok (points s) k) as [p [_ Np]]; [destruct HS as [_ [-> _]]; exact Hk|].
    destruct (Hs k p f Np Hf) as (p' & Ep & Np').
    assert (Lk : (k < length U)%nat) by (destruct md; simpl in *; lia).
    destruct (pressure_upd md U k x Lk Hi) as [Q1 Q2]. rewrite Q1, Q2 in Ep.
    destruct (updated_point md g _ _ f x _ p p' HW Ha Hl Hr Ep) as (A1 & A2 & A3 & A4).
    exists s', p'. split; [exact Es|]. split; [exact Np'|]. split; [rewrite (HP k Hk), Q1; reflexivity|].
    unfold mpfa_cell, two_point_cell. rewrite A1, A2, A3, A4. split; reflexivity.
  - unfold SpecMpfaoTs.consistent. cbn [MpfaoTs.c_rho MpfaoTs.c_drho MpfaoTs.c_d2rho MpfaoTs.c_vis MpfaoTs.c_dvis MpfaoTs.c_S MpfaoTs.c_dS MpfaoTs.c_d2S MpfaoTs.c_Kr MpfaoTs.c_dKr].
    refine (conj R1 (conj R2 (conj _ (conj D1 (conj D2 D3))))). exact (is_derive_const (0.000994 : R_NormedModule) P0).
  - unfold SpecFvtpf.consistent. cbn [Fvtpf.c_P Fvtpf.c_rho Fvtpf.c_drho Fvtpf.c_vis Fvtpf.c_dvis Fvtpf.c_S Fvtpf.c_dS Fvtpf.c_Kr Fvtpf.c_dKr].
    refine (conj _ (conj R1 (conj _ (conj D1 D3)))); [reflexivity|]. exact (is_derive_const (0.000994 : R_NormedModule) P0).
Qed.

(** ** Curves as the library sets them *)

Lemma nth_blocks (b : list R) n i k : (k < length b)%nat -> (i < n)%nat -> nth_error (concat (repeat b n)) (length b * i + k) = nth_error b k.
Proof.
  intros Hk. revert i. induction n as [|n IH]; intros i Hi; [lia|]. simpl.
  destruct i as [|i].
  - rewrite Nat.mul_0_r, Nat.add_0_l, nth_error_app1 by exact Hk. reflexivity.
  - rewrite nth_error_app2 by nia. replace (length b * S i + k - length b)%nat with (length b * i + k)%nat by nia. apply IH. lia.
Qed.
Lemma length_blocks (b : list R) n : length (concat (repeat b n)) = (length b * n)%nat.
Proof. induction n as [|n IH]; simpl; [lia|]. rewrite app_length, IH. lia. Qed.

Lemma bind_ret {A} (o : outcome A) : (do x <- o; Ok x) = o.
Proof. destruct o; reflexivity. Qed.

Lemma default_ok g nc m alpha x0 x1 x2 dx c0 c1 c2 c3 :
  exists a b, default_curves nc m alpha [x0; x1; x2; dx; c0; c1; c2; c3] = Ok (a, b) /\
    (sat g = a -> relperm g = b -> curves_set g nc (fun _ => VanGenuchten m alpha) (fun _ => Smoothed m x0 x1 x2 dx c0 c1 c2 c3)).
Proof.
  unfold default_curves, SaturationSetType, RelativePermeabilitySetType.
  set (b1 := [m; alpha]). set (b2 := [m; x0; x1; x2; dx; c0; c1; c2; c3]).
  assert (R1 : run (Out := fl * fl * fl) sat_nparams sat_eval cc_create [CSet 1 (seq 0 nc) (concat (repeat b1 nc))]
               = set_type sat_nparams cc_create 1 (seq 0 nc) (concat (repeat b1 nc))).
  { cbn [run exec]. apply bind_ret. }
  assert (R2 : run (Out := fl * fl) kr_nparams kr_eval_fl cc_create [CSet 1 (seq 0 nc) (concat (repeat b2 nc))]
               = set_type kr_nparams cc_create 1 (seq 0 nc) (concat (repeat b2 nc))).
  { cbn [run exec]. apply bind_ret. }
  assert (O1 : exists a, set_type sat_nparams cc_create 1 (seq 0 nc) (concat (repeat b1 nc)) = Ok a).
  { unfold set_type. change (2 <=? 1)%nat with false. cbv iota zeta. rewrite seq_length, length_blocks. change (length b1) with (sat_nparams 1).
    rewrite Nat.ltb_irrefl. eexists; reflexivity. }
  assert (O2 : exists a, set_type kr_nparams cc_create 1 (seq 0 nc) (concat (repeat b2 nc)) = Ok a).
  { unfold set_type. change (2 <=? 1)%nat with false. cbv iota zeta. rewrite seq_length, length_blocks. change (length b2) with (kr_nparams 1).
    rewrite Nat.ltb_irrefl. eexists; reflexivity. }
  destruct O1 as [a Ea]. destruct O2 as [b Eb]. rewrite Ea in R1. rewrite Eb in R2.
  exists a, b. split; [rewrite Ea; cbn [bind]; change (m :: [x0; x1; x2; dx; c0; c1; c2; c3]) with b2; rewrite Eb; reflexivity|].
  intros <- <-. split.
  - eexists. split; [exact R1|]. split; [unfold disjoint_assignment; apply seq_NoDup|]. split.
    + intros ty j Hty Hj. destruct ty as [|[|ty]]; [destruct Hj| |lia]. apply in_seq in Hj. lia.
    + intros c Hc. exists 1%nat, b1. split; [lia|]. split; [|split; reflexivity].
      exists (seq 0 nc), (concat (repeat b1 nc)), c. split; [reflexivity|]. split; [|split; [reflexivity|]].
      * rewrite (nth_error_nth' _ 0%nat) by (rewrite seq_length; exact Hc). rewrite seq_nth by exact Hc. reflexivity.
      * intros k Hk. symmetry. exact (nth_blocks b1 nc c k Hk Hc).
  - eexists. split; [exact R2|]. split; [right; split; reflexivity|].
    intros c Hc. exists 1%nat, b2. split; [lia|]. split; [|split; reflexivity].
    exists (seq 0 nc), (concat (repeat b2 nc)), c. split; [reflexivity|]. split; [|split; [reflexivity|]].
    + rewrite (nth_error_nth' _ 0%nat) by (rewrite seq_length; exact Hc). rewrite seq_nth by exact Hc. reflexivity.
    + intros k Hk. symmetry. exact (nth_blocks b2 nc c k Hk Hc).
Qed.

(** ** Too few values *)

Lemma compute_points_range {I O} np (ev : nat -> list R -> I -> O) ty pts : forall i params inp out,
  compute_points np ev ty i pts params inp out <> Err /\
  (forall out', compute_points np ev ty i pts params inp out = Ok out' -> forall j, In j pts -> (j < length inp)%nat).
Proof.
  induction pts as [|q pts IH]; intros i params inp out; simpl.
  - split; [discriminate|intros out' _ j []].
  - destruct (nth_error inp q) as [x|] eqn:E; [|split; [discriminate|intros; discriminate]].
    destruct (block _ _ _) as [p|]; [|split; [discriminate|intros; discriminate]].
    destruct (update out q _) as [out1|]; [|split; [discriminate|intros; discriminate]].
    destruct (IH (S i) params inp out1) as [H1 H2]. split; [exact H1|].
    intros out' Ho j [<-|Hj]; [apply nth_lt with x; exact E|exact (H2 out' Ho j Hj)].
Qed.

Lemma compute_short {I O} np (ev : nat -> list R -> I -> O) (h : list call) s inp out ty j :
  run np ev cc_create h = Ok s -> (ty < 2)%nat -> In j (points_of h ty) -> (length inp <= j)%nat -> compute np ev s inp out = UB.
Proof.
  intros Hr Hty Hj Hl. destruct (run_state np ev h s Hr) as (S0 & S1 & _).
  unfold compute. rewrite S0, S1, !slot_points.
  destruct (compute_points_range np ev 0 (points_of h 0) 0 (sl_params (slot_of np (last_set h 0) 0)) inp out) as [A1 A2].
  destruct (compute_points _ _ 0 _ _ _ _ _) as [o1| |] eqn:E1; [|contradiction A1; reflexivity|reflexivity]. cbn [bind].
  destruct (compute_points_range np ev 1 (points_of h 1) 0 (sl_params (slot_of np (last_set h 1) 1)) inp o1) as [B1 B2].
  destruct (compute_points _ _ 1 _ _ _ _ _) as [o2| |] eqn:E2; [|contradiction B1; reflexivity|reflexivity].
  exfalso. destruct ty as [|[|ty]]; [specialize (A2 o1 eq_refl j Hj)|specialize (B2 o2 eq_refl j Hj)|]; lia.
Qed.

Lemma presolve_ghosts md g N n sc kc mats U s : curves_set g N sc kc -> (n < N)%nat -> length U = (unknowns md * n)%nat ->
  presolve_state md g mats n U s = UB.
Proof.
  intros [[h [Hr [_ [_ Hall]]]] _] Hn HU. unfold presolve_state, UpdateState.
  assert (Hst := stride_unknowns md).
  rewrite (gather_ok md 0) by (destruct md; simpl in *; lia). cbn [bind].
  assert (Ex : exists xs, (if (stride md =? 1)%nat then Ok [] else gather md 1 U n) = Ok xs).
  { destruct (stride md =? 1)%nat eqn:E1; [eexists; reflexivity|]. rewrite gather_ok; [eexists; reflexivity|destruct md; simpl in *; try discriminate; lia|rewrite Hst; lia]. }
  destruct Ex as [xs Ex]. rewrite Ex. cbn [bind].
  destruct (Hall n Hn) as (ty & p & Hty & (pts & prm & i & Hl & Hi & _) & _).
  unfold curves, SaturationCompute.
  rewrite (compute_short sat_nparams sat_eval h (sat g) _ _ ty n Hr Hty); [reflexivity| |].
  - unfold points_of. rewrite Hl. exact (nth_error_In _ _ Hi).
  - rewrite combine_length, !map_length, seq_length. lia.
Qed.

Lemma loop_short {St} (body : nat -> St -> outcome St) n k s j : (k <= j < k + n)%nat ->
  (forall i s, body i s <> Err) -> (forall s, body j s = UB) -> loop n k body s = UB.
Proof.
  revert k s. induction n as [|n IH]; intros k s Hj He Hu; [lia|]. simpl.
  destruct (Nat.eq_dec k j) as [->|Hne]; [rewrite Hu; reflexivity|].
  destruct (body k s) as [s'| |] eqn:E; cbn [bind]; [apply IH; [lia|assumption..]|contradiction (He k s E)|reflexivity].
Qed.

Lemma presolve_salinity_ghosts g N n mats U s : (n < N)%nat -> length U = (2 * n)%nat -> presolve_state_salinity g mats N U s = UB.
Proof.
  intros Hn HU. unfold presolve_state_salinity, UpdateState, gather, for_.
  rewrite (loop_short _ N 0 [] n); [reflexivity|lia| |].
  - intros i out. unfold rd. destruct (nth_error U _); discriminate.
  - intros out. unfold rd. simpl stride. destruct (nth_error U (2 * n + 0)) eqn:E; [|reflexivity].
    apply nth_lt in E. lia.
Qed.

(** ** What is never assigned *)

Lemma update_keeps md g f P x p p' : update_point md g f P x p = Ok p' ->
  p_du_dP p' = p_du_dP p /\ p_du_dT p' = p_du_dT p /\ p_drho_dT p' = p_drho_dT p /\ p_dS_dT p' = p_dS_dT p
  /\ (md <> Salinity -> p_salt p' = p_salt p)
  /\ (den_type g = DensityBatzleWang -> snd (fst (p_rho p')) = snd (fst (p_rho p)) /\ snd (p_rho p') = snd (p_rho p)).
Proof.
  intros H.
  assert (HB : den_type g = DensityBatzleWang -> forall r m, density_at (den_type g) P (Tref g) m (p_rho p) = Ok r -> snd (fst r) = snd (fst (p_rho p)) /\ snd r = snd (p_rho p)).
  { intros E r m. rewrite E. destruct m, (p_rho p) as [[a b] c]; simpl; intros H'; injection H' as <-; split; reflexivity. }
  unfold update_point in H.
  match type of H with bind ?e _ = Ok _ => destruct e as [r| |] eqn:Er; cbn [bind] in H; try discriminate H end.
  match type of H with bind ?e _ = Ok _ => destruct e as [v| |] eqn:Ev; cbn [bind] in H; try discriminate H end.
  destruct md.
  3: match type of H with bind ?e _ = Ok _ => destruct e as [h| |] eqn:Eh; cbn [bind] in H; try discriminate H end.
  all: injection H as <-; cbn [p_du_dP p_du_dT p_drho_dT p_dS_dT p_salt p_rho].
  all: refine (conj eq_refl (conj eq_refl (conj eq_refl (conj eq_refl (conj _ _))))); [intros Hm; try reflexivity; contradiction|].
  all: intros E; exact (HB E r _ Er).
Qed.

Lemma update_sized md g N sc kc mats U s s' : curves_set g N sc kc -> known md g -> sized md N mats s -> (unknowns md * N <= length U)%nat ->
  UpdateState md g mats N U s = Ok s' -> sized md N mats s'.
Proof.
  intros HC HK HS HU E. destruct (update_ok md g N sc kc mats U s HC HK HS HU) as (s1 & E1 & L1 & _ & _ & _ & _ & L2 & L3).
  rewrite E1 in E. injection E as <-. destruct HS as [A [B [C D]]]. split; [exact A|]. split; [exact L1|]. rewrite L2, L3. split; assumption.
Qed.

Lemma evaluate_inv md g N sc kc mats (Q : point -> Prop) : curves_set g N sc kc -> known md g ->
  (forall c f P x p p', update_point md g f P x (curved g (sc c) (kc c) f P p) = Ok p' -> Q p -> Q p') ->
  forall Us s, sized md N mats s -> (forall U, In U Us -> (unknowns md * N <= length U)%nat) ->
  (forall c p, nth_error (points s) c = Some p -> Q p) ->
  exists s', evaluate md g mats N Us s = Ok s' /\ sized md N mats s' /\ (forall c p, nth_error (points s') c = Some p -> Q p).
Proof.
  intros HC HK Hst. induction Us as [|U Us IH]; intros s HS HU HQ.
  - exists s. split; [reflexivity|]. split; assumption.
  - assert (HU0 : (unknowns md * N <= length U)%nat) by (apply HU; left; reflexivity).
    destruct (update_ok md g N sc kc mats U s HC HK HS HU0) as (s1 & E1 & L1 & H1 & _).
    simpl. rewrite E1. cbn [bind]. apply IH.
    + exact (update_sized md g N sc kc mats U s s1 HC HK HS HU0 E1).
    + intros V HV. apply HU. right. exact HV.
    + intros c p' Hp'. destruct HS as [Lm [Lp _]].
      assert (Hc : (c < N)%nat) by (rewrite <- L1; apply nth_lt with p'; exact Hp').
      destruct (rd_ok (points s) c) as [p [_ Np]]; [lia|]. destruct (rd_ok mats c) as [f [_ Nf]]; [lia|].
      destruct (H1 c p f Np Nf) as (p2 & E2 & N2). rewrite Hp' in N2. injection N2 as <-.
      exact (Hst c f _ _ p p' E2 (HQ c p Np)).
Qed.

Lemma fresh_sized md N mats ncol : length mats = N -> (N <= ncol)%nat -> sized md N mats (fresh N ncol).
Proof. intros H1 H2. unfold sized, fresh. cbn. rewrite !repeat_length. repeat split; intros; lia. Qed.
Lemma fresh_points N ncol c p : nth_error (points (fresh N ncol)) c = Some p -> p = zero_point.
Proof. intros H. apply nth_error_In in H. simpl in H. apply repeat_spec in H. exact H. Qed.

Theorem heat_never_assigned md g N sc kc mats Us ncol : curves_set g N sc kc -> known md g -> length mats = N -> (N <= ncol)%nat ->
  (forall U, In U Us -> (unknowns md * N <= length U)%nat) ->
  exists s, evaluate md g mats N Us (fresh N ncol) = Ok s /\ sized md N mats s /\
    forall c p, nth_error (points s) c = Some p -> p_du_dP p = 0 /\ p_du_dT p = 0 /\ p_drho_dT p = 0 /\ p_dS_dT p = 0.
Proof.
  intros HC HK Lm Ln HU.
  apply (evaluate_inv md g N sc kc mats (fun p => p_du_dP p = 0 /\ p_du_dT p = 0 /\ p_drho_dT p = 0 /\ p_dS_dT p = 0) HC HK).
  - intros c f P x p p' E [Q1 [Q2 [Q3 Q4]]]. destruct (update_keeps md g f P x _ p' E) as (K1 & K2 & K3 & K4 & _).
    rewrite K1, K2, K3, K4. repeat split; assumption.
  - apply fresh_sized; assumption.
  - exact HU.
  - intros c p Hp. rewrite (fresh_points _ _ _ _ Hp). repeat split.
Qed.

Theorem brine_derivative_zero md g N sc kc mats Us ncol : curves_set g N sc kc -> known md g -> den_type g = DensityBatzleWang ->
  length mats = N -> (N <= ncol)%nat -> (forall U, In U Us -> (unknowns md * N <= length U)%nat) ->
  exists s, evaluate md g mats N Us (fresh N ncol) = Ok s /\
    forall c p, nth_error (points s) c = Some p -> snd (fst (p_rho p)) = Some 0.
Proof.
  intros HC HK HB Lm Ln HU.
  destruct (evaluate_inv md g N sc kc mats (fun p => snd (fst (p_rho p)) = Some 0) HC HK) with (Us := Us) (s := fresh N ncol) as (s & E & _ & H).
  - intros c f P x p p' E Q. destruct (update_keeps md g f P x _ p' E) as (_ & _ & _ & _ & _ & K). destruct (K HB) as [K1 _]. rewrite K1. exact Q.
  - apply fresh_sized; assumption.
  - exact HU.
  - intros c p Hp. rewrite (fresh_points _ _ _ _ Hp). reflexivity.
  - exists s. split; assumption.
Qed.

Lemma brine_varies P T : 0 <= P <= 1000000 -> 0 <= T <= 100 -> exists d, is_derive (fun q => density_batzle_wang q T 0) P d /\ d <> 0.
Proof.
  intros HP HT.
  set (a := / 1000000). 
  exists ((/1000000 * (489 * a - 2 * T * a + 0.016 * a * T ^ 2 - 0.000013 * T ^ 3 * a - 0.333 * (2 * (P * a) * a) - 0.002 * T * (2 * (P * a) * a))) * 1000).
  split.
  - unfold density_batzle_wang, density_batzle_wang_pw. fold a. auto_derive; [exact I|]. unfold a. field.
  - assert (A : 0 <= P * a <= 1) by (unfold a; lra).
    assert (B : 0 <= T ^ 2) by (apply pow2_ge_0).
    assert (C : T ^ 3 <= 1000000) by (replace (T ^ 3) with (T * T * T) by ring; assert (0 <= T * T <= 10000) by nra; nra).
    intro E.
    assert (F : 489 - 2 * T + 0.016 * T ^ 2 - 0.000013 * T ^ 3 - 0.333 * (2 * (P * a)) - 0.002 * T * (2 * (P * a)) = 0).
    { apply (Rmult_eq_reg_r (/1000000 * a * 1000)); [|unfold a; lra]. rewrite Rmult_0_l. rewrite <- E. ring. }
    assert (T * (P * a) <= 100) by nra. lra.
Qed.

(** ** Heat *)

Lemma updated_heat g f P x p p' : update_point TH g f P x p = Ok p' ->
  p_h p' = (Some 1.8890, Some 0, Some 0) /\ p_Kappa p' = Kappa0 f /\
  (forall r, fst (fst (p_rho p')) = Some r -> r <> 0 -> p_u p' = Some (1.8890 - P / r)).
Proof.
  intros H. unfold update_point in H.
  match type of H with bind ?e _ = Ok _ => destruct e as [r| |] eqn:Er; cbn [bind] in H; try discriminate H end.
  match type of H with bind ?e _ = Ok _ => destruct e as [v| |] eqn:Ev; cbn [bind] in H; try discriminate H end.
  destruct (enthalpy g); simpl EOSComputeWaterEnthalpy in H; cbn [bind] in H; [|discriminate].
  injection H as <-. cbn [p_h p_Kappa p_rho p_u fst snd fbind]. split; [reflexivity|]. split; [reflexivity|].
  intros r0 Hr Hne. rewrite Hr. cbn [fbind]. rewrite fdiv_ok by exact Hne. reflexivity.
Qed.

Theorem energy_rate_wrong g N sc kc mats Us ncol U k f rk rs cs src T : curves_set g N sc kc -> known TH g ->
  den_type g = DensityConstant -> vis_type g = ViscosityConstant -> length mats = N -> (N <= ncol)%nat ->
  (forall V, In V Us -> (2 * N <= length V)%nat) -> (2 * N <= length U)%nat ->
  nth_error mats k = Some f -> 0 <= Sr f < 1 -> admissible_sat (sc k) -> admissible_law (kc k) -> nth (2 * k) U 0 <> Pref g ->
  MpfaoTs.k_por rk * MpfaoTs.k_vol rk <> 0 ->
  exists s c e, evaluate TH g mats N Us (fresh N ncol) = Ok s
   /\ (forall x, exists s' p, UpdateState TH g mats N (upd U (2 * k) x) s = Ok s' /\ nth_error (points s') k = Some p
       /\ mpfa_cell p = Some (c x) /\ heat_cell rs cs src p = Some (e x))
   /\ ~ is_derive (fun x => SpecTransport.stored_energy (c x) (e x) rk T) (nth (2 * k) U 0)
          (SpecTransport.energy_rate (c (nth (2 * k) U 0)) (e (nth (2 * k) U 0)) rk 1 0).
Proof.
  intros HC HK HD HV Lm Ln HUs HU Hf Hr Ha Hl Hne Hrk.
  destruct (heat_never_assigned TH g N sc kc mats Us ncol HC HK Lm Ln HUs) as (s & Es & HS & Hz).
  assert (HW : simple_water g) by (split; [left; exact HD|exact HV]).
  set (P0 := nth (2 * k) U 0) in *.
  set (S0 := fS (sc k) (Pref g) (Sr f)). set (S1 := fdS (sc k) (Pref g) (Sr f)). set (S2 := fd2S (sc k) (Pref g) (Sr f)).
  set (K1 := fKr (sc k) (kc k) (Pref g) (Sr f)). set (K2 := fdKr (sc k) (kc k) (Pref g) (Sr f)).
  exists s, (fun x => MpfaoTs.mkCell 998 0 0 0.000994 0 (S0 x) (S1 x) (S2 x) (K1 x) (K2 x)).
  exists (fun x => Transport.mkHeat 1.8890 (1.8890 - x / 998) 0 0 0 0 rs cs src).
  destruct (wet_derivatives (sc k) (kc k) (Pref g) (Sr f) Ha Hl Hr P0 Hne) as [D1 _].
  fold S0 S1 in D1.
  assert (Hk : (k < N)%nat) by (rewrite <- Lm; apply nth_lt with f; exact Hf).
  split; [exact Es|]. split.
  - intros x.
    destruct (update_ok TH g N sc kc mats (upd U (2 * k) x) s HC HK HS) as (s' & Es' & L' & Hs & _); [rewrite length_upd; exact HU|].
    destruct (rd_ok (points s) k) as [p [_ Np]]; [destruct HS as [_ [-> _]]; exact Hk|].
    destruct (Hs k p f Np Hf) as (p' & Ep & Np').
    destruct (pressure_upd TH U k x ltac:(lia) ltac:(simpl; lia)) as [Q1 Q2]. cbn [unknowns] in Q1, Q2. rewrite Q1, Q2 in Ep.
    destruct (updated_point TH g _ _ f x _ p p' HW Ha Hl Hr Ep) as (A1 & A2 & A3 & A4).
    destruct (updated_heat g f x _ _ p' Ep) as (B1 & _ & B3).
    destruct (update_keeps TH g f x _ _ p' Ep) as (C1 & C2 & C3 & C4 & _).
    destruct (Hz k p Np) as (Z1 & Z2 & Z3 & Z4).
    assert (R0 : frho g x = 998) by (unfold frho; rewrite HD; reflexivity).
    assert (R1 : fdrho g x = 0) by (unfold fdrho; rewrite HD; reflexivity).
    assert (R2 : fd2rho g x = 0) by (unfold fd2rho; rewrite HD; reflexivity).
    rewrite R0, R1, R2 in A3.
    exists s', p'. split; [exact Es'|]. split; [exact Np'|]. unfold mpfa_cell, heat_cell. rewrite A1, A2, A3, A4, B1. split; [reflexivity|].
    rewrite (B3 998) by (try lra; rewrite A3; reflexivity). rewrite C1, C2, C3, C4.
    cbn [curved set_kr set_sat p_du_dP p_du_dT p_drho_dT p_dS_dT]. rewrite Z1, Z2, Z3, Z4. reflexivity.
  - unfold SpecTransport.stored_energy, SpecTransport.energy_rate.
    cbn [MpfaoTs.c_rho MpfaoTs.c_drho MpfaoTs.c_S MpfaoTs.c_dS Transport.e_u Transport.e_du_dP Transport.e_du_dT Transport.e_drho_dT Transport.e_dS_dT Transport.e_rho_soil Transport.e_c_soil].
    set (por := MpfaoTs.k_por rk) in *. set (vol := MpfaoTs.k_vol rk) in *. intro D.
    assert (HSpos : 0 < S0 P0).
    { destruct (saturation_bounds (sc k) (Sr f) (Pref g) P0 Ha ltac:(lra)) as (s0 & E0 & B & B1 & B2).
      unfold S0, fS. rewrite E0. cbn [val]. destruct (Rlt_dec P0 (Pref g)) as [L|L]; [specialize (B2 L ltac:(lra)); lra|specialize (B1 ltac:(lra)); lra]. }
    assert (D' : is_derive (fun x => (998 * por * S0 x * (1.8890 - x / 998) + rs * cs * (1 - por) * T) * vol) P0
       ((998 * por * S1 P0 * (1.8890 - P0 / 998) + 998 * por * S0 P0 * (- / 998)) * vol)).
    { assert (EX : ex_derive S0 P0) by (exists (S1 P0); exact D1).
      assert (ED : Derive (fun x : R => S0 x) P0 = S1 P0) by (apply is_derive_unique; exact D1).
      auto_derive; [exact EX|]. rewrite ED. field. }
    apply is_derive_unique in D. apply is_derive_unique in D'.
    assert (EQ : 998 * por * S0 P0 * (- / 998) * vol = 0).
    { assert (Dd := eq_trans (eq_sym D) D'). cbv beta in Dd.
      apply (Rplus_eq_reg_l (998 * por * S1 P0 * (1.8890 - P0 / 998) * vol)). rewrite Rplus_0_r.
      etransitivity; [|etransitivity; [exact (eq_sym Dd)|]]; ring. }
    assert (EQ2 : por * vol * S0 P0 = 0) by (etransitivity; [|etransitivity; [exact (f_equal Ropp EQ)|apply Ropp_0]]; field).
    apply Rmult_integral in EQ2. destruct EQ2; [exact (Hrk H)|lra].
Qed.

Theorem temperature_ignored g N sc kc mats U V s c : curves_set g N sc kc -> known TH g -> sized TH N mats s ->
  (2 * N <= length U)%nat -> (2 * N <= length V)%nat -> (c < N)%nat -> nth (2 * c) U 0 = nth (2 * c) V 0 ->
  exists s' t' p q, UpdateState TH g mats N U s = Ok s' /\ UpdateState TH g mats N V s = Ok t'
    /\ nth_error (points s') c = Some p /\ nth_error (points t') c = Some q /\ p_rho p = p_rho q /\ p_vis p = p_vis q /\ p_h p = p_h q /\ p_u p = p_u q.
Proof.
  intros HC HK HS LU LV Hc HP.
  destruct (update_ok TH g N sc kc mats U s HC HK HS LU) as (s' & Es & _ & Hs & _).
  destruct (update_ok TH g N sc kc mats V s HC HK HS LV) as (t' & Et & _ & Ht & _).
  destruct HS as [Lm [Ls _]].
  destruct (rd_ok mats c) as [f [_ Nf]]; [lia|]. destruct (rd_ok (points s) c) as [p [_ Np]]; [lia|].
  destruct (Hs c p f Np Nf) as (p' & Ep & Np'). destruct (Ht c p f Np Nf) as (q' & Eq & Nq').
  exists s', t', p', q'. repeat (split; [assumption|]).
  assert (EP : pressure TH V c = pressure TH U c) by (symmetry; exact HP). rewrite EP in Eq.
  set (b := curved g (sc c) (kc c) f (pressure TH U c) p) in *. clearbody b.
  unfold update_point in Ep, Eq.
  match type of Ep with bind ?e _ = Ok _ => destruct e as [r| |] eqn:Er; cbn [bind] in Ep, Eq; try discriminate Ep end.
  match type of Ep with bind ?e _ = Ok _ => destruct e as [v| |] eqn:Ev; cbn [bind] in Ep, Eq; try discriminate Ep end.
  destruct (enthalpy g); simpl EOSComputeWaterEnthalpy in Ep, Eq; cbn [bind] in Ep, Eq; [|discriminate].
  injection Ep as <-. injection Eq as <-. repeat split.
Qed.

(** The salt content of a cell is that of its salinity, whatever was there. *)
Theorem salt_content g N sc kc mats U s c f : curves_set g N sc kc -> known Salinity g -> sized Salinity N mats s ->
  (2 * N <= length U)%nat -> nth_error mats c = Some f ->
  exists s' p, UpdateState Salinity g mats N U s = Ok s' /\ nth_error (points s') c = Some p
    /\ (nth (2 * c + 1) U 0 * mu f + 999 <> 0 ->
        exists x, p_salt p = Some x /\ x = nth (2 * c + 1) U 0 * mu f / (nth (2 * c + 1) U 0 * mu f + 999)
        /\ fst (fst (p_rho p)) = cell_value (EOSComputeWaterDensity (den_type g) (nth (2 * c) U 0) (Tref g) x (None, None, None))
        /\ fst (fst (p_vis p)) = cell_value (EOSComputeWaterViscosity (vis_type g) (nth (2 * c) U 0) (Tref g) x (None, None, None))).
Proof.
  intros HC HK HS LU Nf.
  destruct (update_ok Salinity g N sc kc mats U s HC HK HS LU) as (s' & Es & _ & Hs & _).
  destruct HS as [Lm [Ls _]].
  assert (Hc : (c < N)%nat) by (rewrite <- Lm; apply nth_lt with f; exact Nf).
  destruct (rd_ok (points s) c) as [p [_ Np]]; [lia|].
  destruct (Hs c p f Np Nf) as (p' & Ep & Np'). exists s', p'. split; [exact Es|]. split; [exact Np'|]. intros Hne.
  set (b := curved g (sc c) (kc c) f _ p) in *. clearbody b.
  unfold update_point in Ep. change (second Salinity U c) with (nth (2 * c + 1) U 0) in Ep. change (pressure Salinity U c) with (nth (2 * c) U 0) in Ep.
  unfold EOSComputeSalinityFraction in Ep. rewrite fdiv_ok in Ep by exact Hne.
  set (x := nth (2 * c + 1) U 0 * mu f / (nth (2 * c + 1) U 0 * mu f + 999)) in *. cbn [density_at viscosity_at] in Ep.
  match type of Ep with bind ?e _ = Ok _ => destruct e as [r| |] eqn:Er; cbn [bind] in Ep; try discriminate Ep end.
  match type of Ep with bind ?e _ = Ok _ => destruct e as [v| |] eqn:Ev; cbn [bind] in Ep; try discriminate Ep end.
  injection Ep as <-. cbn [p_salt p_rho p_vis]. exists x. split; [reflexivity|]. split; [reflexivity|]. split.
  - destruct (den_type g), (p_rho b) as [[a1 a2] a3]; simpl in Er; try discriminate; injection Er as <-; try reflexivity.
    simpl. unfold density_exponential. destruct (Rlt_dec _ 101325); reflexivity.
  - destruct (vis_type g), (p_vis b) as [[a1 a2] a3]; simpl in Ev; try discriminate; injection Ev as <-; reflexivity.
Qed.

Theorem state_computed md g N sc kc mats U s : curves_set g N sc kc -> known md g -> sized md N mats s -> (unknowns md * N <= length U)%nat ->
  exists s', UpdateState md g mats N U s = Ok s' /\ sized md N mats s' /\
    (forall c f, nth_error mats c = Some f ->
      exists p, nth_error (points s') c = Some p /\ wet_state g (sc c) (kc c) f (pressure md U c) p
        /\ nth_error (P_vec s') c = Some (pressure md U c)
        /\ (unknowns md = 2%nat -> nth_error (aux s') c = Some (second md U c))) /\
    (forall c, (N <= c)%nat -> nth_error (P_vec s') c = nth_error (P_vec s) c).
Proof.
  intros HC HK HS HU. destruct (update_ok md g N sc kc mats U s HC HK HS HU) as (s' & E & L & Hs & HP & HP' & HA & _).
  exists s'. split; [exact E|]. split; [exact (update_sized md g N sc kc mats U s s' HC HK HS HU E)|]. split; [|exact HP'].
  intros c f Nf. destruct HS as [Lm [Lp _]].
  assert (Hc : (c < N)%nat) by (rewrite <- Lm; apply nth_lt with f; exact Nf).
  destruct (rd_ok (points s) c) as [p [_ Np]]; [lia|].
  destruct (Hs c p f Np Nf) as (p' & Ep & Np'). exists p'. split; [exact Np'|].
  split; [exact (update_wet md g f _ _ _ p' (sc c) (kc c) p eq_refl Ep)|]. split; [exact (HP c Hc)|].
  intros H2. exact (HA H2 c Hc).
Qed.

(** ** Concrete cases *)

Definition example_setting (a b : container) : setting := mkSetting 101325 25 DensityConstant ViscosityConstant EnthalpyConstant a b.
Definition example_material : material := mkMaterial 0.1 (repeat 1 9) (repeat 1 9) 58.

Lemma example_curves : exists a b c0 c1 c2 c3,
  default_curves 2 0.5 (1/10000) [0.995; 0.99; 1; 0.005; c0; c1; c2; c3] = Ok (a, b)
  /\ curves_set (example_setting a b) 2 (fun _ => VanGenuchten 0.5 (1/10000)) (fun _ => Smoothed 0.5 0.995 0.99 1 0.005 c0 c1 c2 c3)
  /\ admissible_law (Smoothed 0.5 0.995 0.99 1 0.005 c0 c1 c2 c3).
Proof.
  destruct (smoothing_determined 0.5 0.995 0.99 1 0.005) as [(c0 & c1 & c2 & c3 & Hc) _]; try lra.
  set (g0 := example_setting cc_create cc_create).
  destruct (default_ok g0 2 0.5 (1/10000) 0.995 0.99 1 0.005 c0 c1 c2 c3) as (a & b & E & _).
  exists a, b, c0, c1, c2, c3. split; [exact E|]. split.
  - destruct (default_ok (example_setting a b) 2 0.5 (1/10000) 0.995 0.99 1 0.005 c0 c1 c2 c3) as (a' & b' & E' & H).
    rewrite E in E'. injection E' as <- <-. apply H; reflexivity.
  - split; [lra|]. split; [lra|exact Hc].
Qed.
