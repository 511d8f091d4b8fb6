(** Proofs about the time integrator. *)
From Coq Require Import Reals List ZArith Bool Lra Lia Psatz.
From Verif Require Import Prelude TimeInt SpecTimeInt.
Import ListNotations.
Local Open Scope R_scope.

Lemma quarter_pow_pos n : 0 < (/ 4) ^ n.
Proof. apply pow_lt. lra. Qed.

Lemma quarter_pow_S n : (/ 4) ^ S n = (/ 4) ^ n * / 4.
Proof. simpl. ring. Qed.

Lemma quarter_pow_le n m : (n <= m)%nat -> (/ 4) ^ m <= (/ 4) ^ n.
Proof.
  induction 1 as [|m H IH]; [lra|]. rewrite quarter_pow_S. pose proof (quarter_pow_pos m). lra.
Qed.

Lemma multiples_S k a n :
  multiples k a (S n) =
  if Z.eqb ((a + Z.of_nat (S n)) mod k) 0 then (a + Z.of_nat (S n))%Z :: multiples k a n else multiples k a n.
Proof. reflexivity. Qed.

Lemma rem_mod a k : k <> 0%Z -> Z.eqb (Z.rem a k) 0 = Z.eqb (a mod k) 0.
Proof.
  intros Hk. destruct (Z.eqb_spec (Z.rem a k) 0) as [H|H], (Z.eqb_spec (a mod k) 0) as [H'|H']; try reflexivity; exfalso.
  - apply H'. apply Z.mod_divide; [assumption|]. now apply Z.rem_divide.
  - apply H. apply Z.rem_divide; [assumption|]. now apply Z.mod_divide.
Qed.

Section Run.
Context {Sol Acc : Type}.
Variable accumulation : Sol -> R -> Acc.
Variable cfg : config.
Variable solver : nat -> bool * Sol.
Variable sync : R.
Variable s0 : @state Sol Acc.
Notation state := (@state Sol Acc).
Notation event := (@event Sol Acc).

(** What a fresh integrator, or one whose last run returned without error, satisfies. *)
Record start_ok (s : state) : Prop := {
  so_save : dt_save s = 0;
  so_dt : 0 < dt s <= dt_max cfg;
  so_soln : soln s = soln_prev s }.

Hypothesis growth_pos : 0 < dt_growth cfg.
Hypothesis Hs0 : start_ok s0.
Hypothesis Htime : time s0 <= sync.

Definition delta : R := dt s0 * (/ 4) ^ 24.

Definition nofail_target (evs : list event) : Prop := forall e, In e evs -> ~ failed_at_target sync e.

Definition nacc (evs : list event) : nat := length (accepted evs).

Record Common (s : state) (evs : list event) : Prop := {
  c_log : log s = evs ++ log s0;
  c_istep : istep s = (istep s0 + Z.of_nat (nacc evs))%Z;
  c_icut : icut s = Z.of_nat (failures evs);
  c_calls : ncalls s = (ncalls s0 + solves evs)%nat;
  c_solves : all_solves (fun t d g p a => time s0 <= t /\ 0 < d <= dt_max cfg /\ t + d <= sync /\
                                          g = p /\ a = accumulation p d) evs;
  c_time : time s0 + total (accepted evs) <= time s;
  c_exact : nofail_target evs -> time s0 + total (accepted evs) = time s;
  c_le : time s <= sync;
  c_out_mult : forall k, In k (outputs evs) -> (0 < out_interval cfg /\ k mod out_interval cfg = 0)%Z;
  c_out_all : (0 < out_interval cfg)%Z -> forall k, (istep s0 < k <= istep s)%Z ->
              (k mod out_interval cfg = 0)%Z -> In k (outputs evs);
  c_out_exact : failures evs = O ->
     outputs evs = if Z.ltb 0 (out_interval cfg) then multiples (out_interval cfg) (istep s0) (nacc evs) else [] }.

Definition lower (s : state) (evs : list event) (d : R) : Prop :=
  1 <= dt_growth cfg -> dt s0 * (/ 4) ^ failures evs <= d.
Definition progress (s : state) (evs : list event) : Prop :=
  1 <= dt_growth cfg -> time s0 + INR (nacc evs) * delta <= time s.

Definition AtTop (s : state) (evs : list event) : Prop :=
  dt_save s = 0 /\ 0 < dt s <= dt_max cfg /\ soln s = soln_prev s /\ (failures evs < 25)%nat /\
  lower s evs (dt s) /\ (time s = sync \/ progress s evs).

Definition AtAttempt (s : state) (evs : list event) : Prop :=
  time s < sync /\ 0 < dt s <= dt_max cfg /\ time s + dt s <= sync /\ dtime s = dt s /\ soln s = soln_prev s /\
  (failures evs < 25)%nat /\ 0 <= dt_save s <= dt_max cfg /\
  (dt_save s = 0 -> lower s evs (dt s)) /\ (0 < dt_save s -> lower s evs (dt_save s)) /\
  (0 < dt_save s -> nofail_target evs -> time s + dt s = sync) /\ progress s evs.

Definition AtAfter (s : state) (evs : list event) : Prop :=
  0 < dt s <= dt_max cfg /\ soln s = soln_prev s /\ (failures evs < 25)%nat /\
  0 <= dt_save s <= dt_max cfg /\
  (dt_save s = 0 -> lower s evs (dt s)) /\ (0 < dt_save s -> lower s evs (dt_save s)) /\
  (0 < dt_save s -> nofail_target evs -> time s = sync) /\ (dt_save s = 0 -> progress s evs) /\
  (1 <= nacc evs)%nat /\ (1 <= dt_growth cfg -> time s0 + INR (nacc evs - 1) * delta < sync).

Definition AtPoint (s : state) (evs : list event) : Prop :=
  match pc s with
  | Top => AtTop s evs
  | Attempt => AtAttempt s evs
  | AfterStep => AtAfter s evs
  | Finished => dt_save s = 0 /\ 0 < dt s <= dt_max cfg /\ soln s = soln_prev s /\ time s = sync /\ (failures evs < 25)%nat
  | Failed => failures evs = 25%nat \/ has_presolve cfg = false \/ (has_timecut cfg = false /\ failures evs = 1%nat)
  | Crashed => chk_enabled cfg = true /\ chk_interval cfg = 0%Z
  end.

(** The number of accepted steps, bounded through [delta]. *)
Definition Bounded (evs : list event) : Prop :=
  1 <= dt_growth cfg -> (nacc evs = O) \/ time s0 + INR (nacc evs - 1) * delta < sync.

Definition Inv (s : state) : Prop :=
  exists evs, Common s evs /\ AtPoint s evs /\ Bounded evs /\ (failures evs <= 25)%nat /\
    (has_timecut cfg = false -> pc s <> Failed -> failures evs = O).

Lemma delta_pos : 0 < delta.
Proof. unfold delta. destruct Hs0 as [_ Hd _]. pose proof (quarter_pow_pos 24). nra. Qed.

Lemma inv_enter : Inv (enter s0).
Proof.
  destruct Hs0 as [Hsv Hd Hs]. exists [].
  assert (C : Common (enter s0) []).
  { constructor.
    - reflexivity.
    - simpl. lia.
    - reflexivity.
    - simpl. lia.
    - intros t d g p a ok [].
    - simpl. lra.
    - intros _. simpl. lra.
    - exact Htime.
    - intros k [].
    - simpl. intros. lia.
    - intros _. destruct (0 <? out_interval cfg)%Z; reflexivity. }
  split; [exact C|]. split; [|split; [|split]].
  - red; simpl. unfold AtTop, lower, progress; simpl.
    split; [assumption|]. split; [assumption|]. split; [assumption|]. split; [lia|]. split; [intros; lra|].
    right. intros _. lra.
  - intros _. left. reflexivity.
  - simpl. lia.
  - reflexivity.
Qed.

Lemma Bounded_mono evs evs' : nacc evs' = nacc evs -> Bounded evs -> Bounded evs'.
Proof. intros E H. unfold Bounded in *. now rewrite E. Qed.

Lemma inv_top s : pc s = Top -> Inv s -> Inv (step_top cfg sync s).
Proof.
  intros Hpc (evs & C & P & B & F & NC). rewrite Hpc in NC. specialize (fun H => NC H ltac:(discriminate)).
  unfold AtPoint in P. rewrite Hpc in P. destruct P as (Hsv & Hd & Hs & Hf & Hlow & Hprog).
  unfold step_top. destruct (Rlt_dec (time s) sync) as [Hlt|Hge].
  - assert (Hpr : progress s evs) by (destruct Hprog as [?|?]; [lra|assumption]).
    unfold set_target. destruct (Rlt_dec (sync - time s) (dt s)) as [Htr|Hnt].
    + exists evs. split; [destruct C; constructor; assumption|]. split; [|auto].
      red; simpl. unfold AtAttempt; simpl.
      split; [lra|]. split; [lra|]. split; [lra|]. split; [reflexivity|]. split; [assumption|]. split; [assumption|].
      split; [lra|]. split; [intros; lra|]. split; [intros; assumption|]. split; [intros; lra|exact Hpr].
    + exists evs. split; [destruct C; constructor; assumption|]. split; [|auto].
      red; simpl. unfold AtAttempt; simpl.
      split; [lra|]. split; [lra|]. split; [lra|]. split; [reflexivity|]. split; [assumption|]. split; [assumption|].
      split; [lra|]. split; [intros; assumption|]. split; [intros; lra|]. split; [intros; lra|exact Hpr].
  - assert (Hsync : time s = sync) by (destruct C; lra).
    destruct (chk_enabled cfg && pending s).
    + exists (Checkpoint (istep s) (soln_prev s) :: evs). split; [|split; [|split; [exact B|split; [exact F|intros H _; exact (NC H)]]]].
      * destruct C as [L1 L2 L3 L4 L5 L6 L7 L8 L9 L10 L11]. constructor; simpl; try assumption.
        -- now rewrite L1.
        -- intros t d g p a ok [H|H]; [discriminate|]. now apply (L5 t d g p a ok).
        -- intros H. apply L7. intros e He. apply H. now right.
      * red; simpl. auto.
    + exists evs. split; [destruct C; constructor; assumption|]. split; [|auto]. red; simpl. auto.
Qed.

Lemma output_accepted step (l : list event) : accepted (output_events cfg step l) = accepted l.
Proof. unfold output_events. destruct (0 <? _)%Z; [destruct (Z.rem _ _ =? 0)%Z|]; reflexivity. Qed.
Lemma output_failures step (l : list event) : failures (output_events cfg step l) = failures l.
Proof. unfold output_events. destruct (0 <? _)%Z; [destruct (Z.rem _ _ =? 0)%Z|]; reflexivity. Qed.
Lemma output_solves step (l : list event) : solves (output_events cfg step l) = solves l.
Proof. unfold output_events. destruct (0 <? _)%Z; [destruct (Z.rem _ _ =? 0)%Z|]; reflexivity. Qed.
Lemma output_app step (l m : list event) : output_events cfg step (l ++ m) = output_events cfg step l ++ m.
Proof. unfold output_events. destruct (0 <? _)%Z; [destruct (Z.rem _ _ =? 0)%Z|]; reflexivity. Qed.
Lemma output_in step (l : list event) e : In e (output_events cfg step l) -> In e l \/ e = Output step.
Proof.
  unfold output_events. destruct (0 <? _)%Z; [destruct (Z.rem _ _ =? 0)%Z|]; simpl; intuition.
Qed.
Lemma output_incl step (l : list event) e : In e l -> In e (output_events cfg step l).
Proof.
  unfold output_events. destruct (0 <? _)%Z; [destruct (Z.rem _ _ =? 0)%Z|]; simpl; intuition.
Qed.
Lemma output_outputs step (l : list event) :
  outputs (output_events cfg step l) =
  if Z.ltb 0 (out_interval cfg) then
    if Z.eqb (step mod out_interval cfg) 0 then step :: outputs l else outputs l
  else outputs l.
Proof.
  unfold output_events. destruct (Z.ltb_spec 0 (out_interval cfg)); [|reflexivity].
  rewrite rem_mod by lia. destruct (Z.eqb _ _); reflexivity.
Qed.

Lemma output_nofail step (l : list event) : nofail_target (output_events cfg step l) -> nofail_target l.
Proof. intros H e He. apply H. now apply output_incl. Qed.

Lemma accepted_pos (evs : list event) (P : R -> R -> Sol -> Sol -> Acc -> Prop) :
  (forall t d g p a, P t d g p a -> 0 < d) -> all_solves P evs -> 0 <= total (accepted evs).
Proof.
  intros HP. induction evs as [|e evs IH]; intros H; simpl; [lra|].
  assert (IH' : 0 <= total (accepted evs)).
  { apply IH. intros t d g p a ok He. apply (H t d g p a ok). now right. }
  destruct e as [t d g p a [u|]| |]; simpl; try assumption.
  specialize (H t d g p a (Some u) (or_introl eq_refl)). apply HP in H. lra.
Qed.

Lemma inv_attempt s : pc s = Attempt -> Inv s -> Inv (step_attempt accumulation cfg solver s).
Proof.
  intros Hpc (evs & C & P & B & F & NC). rewrite Hpc in NC. specialize (fun H => NC H ltac:(discriminate)).
  unfold AtPoint in P. rewrite Hpc in P.
  destruct P as (Hlt & Hd & Hend & Hdt & Hs & Hf & Hsv & Hlow0 & Hlow1 & Htr & Hprog).
  unfold step_attempt. destruct (has_presolve cfg) eqn:Epre; cbn [negb].
  2:{ exists evs. split; [destruct C; constructor; assumption|]. split; [red; simpl; tauto|].
      split; [exact B|]. split; [exact F|]. intros _ H. elim H. reflexivity. }
  destruct C as [L1 L2 L3 L4 L5 L6 L7 L8 L9 L10 L11].
  destruct (solver (ncalls s)) as [ok u] eqn:Esolve.
  set (ev := Solve (time s) (dtime s) (soln s) (soln_prev s) (accumulation (soln_prev s) (dtime s)) (if ok then Some u else None)).
  assert (Hev : all_solves (fun t d g p a => time s0 <= t /\ 0 < d <= dt_max cfg /\ t + d <= sync /\
                                          g = p /\ a = accumulation p d) (ev :: evs)).
  { intros t d g p a ok' [E|H]; [|now apply (L5 t d g p a ok')].
    injection E as <- <- <- <- <- _. rewrite Hdt.
    assert (Hpos : 0 <= total (accepted evs)) by (eapply accepted_pos; [|exact L5]; cbv beta; intros; lra).
    split; [lra|]. split; [lra|]. split; [lra|]. split; [assumption|reflexivity]. }
  destruct ok.
  - (* accepted *)
    exists (output_events cfg (istep s + 1) (ev :: evs)). split; [|split; [|split; [|split]]].
    + constructor; simpl.
      * rewrite L1. rewrite <- output_app. reflexivity.
      * unfold nacc in *. rewrite output_accepted. simpl. lia.
      * rewrite output_failures. exact L3.
      * rewrite output_solves. simpl. lia.
      * intros t d g p a ok He. destruct (output_in _ _ _ He) as [He'|He']; [|discriminate].
        now apply (Hev t d g p a ok).
      * rewrite output_accepted. simpl. rewrite Hdt. lra.
      * intros H. rewrite output_accepted. simpl. rewrite Hdt.
        assert (nofail_target evs) as Hn.
        { intros e He. apply (output_nofail _ _ H). now right. }
        specialize (L7 Hn). lra.
      * lra.
      * rewrite output_outputs. intros k Hk. destruct (Z.ltb_spec 0 (out_interval cfg)); [|now apply L9].
        destruct (Z.eqb_spec ((istep s + 1) mod out_interval cfg) 0); [|now apply L9].
        destruct Hk as [<-|Hk]; [split; assumption|now apply L9].
      * intros Hn k Hk Hm. rewrite output_outputs. destruct (Z.ltb_spec 0 (out_interval cfg)); [|lia].
        simpl. destruct (Z.eq_dec k (istep s + 1)) as [->|Hne].
        -- rewrite Hm. simpl. now left.
        -- assert (In k (outputs evs)) by (apply L10; auto; lia).
           destruct (Z.eqb_spec ((istep s + 1) mod out_interval cfg) 0); [right|]; assumption.
      * rewrite output_failures, output_outputs. unfold nacc. rewrite output_accepted. simpl. intros Hf0.
        specialize (L11 Hf0). change (length (accepted evs)) with (nacc evs).
        rewrite L11. destruct (0 <? out_interval cfg)%Z; [|reflexivity].
        rewrite L2. replace (istep s0 + Z.of_nat (nacc evs) + 1)%Z with (istep s0 + Z.of_nat (S (nacc evs)))%Z by lia.
        reflexivity.
    + red; simpl. unfold AtAfter, lower, progress, nacc; simpl.
      rewrite output_accepted, output_failures. cbn [accepted failures ev length]. change (length (accepted evs)) with (nacc evs).
      split; [lra|]. split; [reflexivity|]. split; [assumption|]. split; [lra|]. split; [assumption|]. split; [assumption|].
      split; [|split; [|split]].
      * intros Hp H. apply Htr; auto. intros e He. apply (output_nofail _ _ H). now right.
      * intros H0 Hg. specialize (Hprog Hg). specialize (Hlow0 H0 Hg).
        assert (Hdl : delta <= dt s).
        { unfold delta. apply Rle_trans with (dt s0 * (/ 4) ^ failures evs); [|exact Hlow0].
          apply Rmult_le_compat_l; [destruct Hs0; lra|]. apply quarter_pow_le. lia. }
        rewrite S_INR. lra.
      * lia.
      * intros Hg. specialize (Hprog Hg). cbn [Nat.sub]. rewrite Nat.sub_0_r. lra.
    + unfold Bounded, nacc. rewrite output_accepted. cbn [accepted ev length Nat.sub]. intros Hg. right. rewrite Nat.sub_0_r.
      specialize (Hprog Hg). fold (nacc evs). lra.
    + rewrite output_failures. exact F.
    + intros Hc _. rewrite output_failures. exact (NC Hc).
  - (* failed *)
    assert (Htot : nacc (ev :: evs) = nacc evs) by reflexivity.
    destruct (has_timecut cfg) eqn:Ecut; cbn [negb].
    2:{ exists (ev :: evs). split; [|split; [|split; [exact B|split; [simpl; lia|intros _ H; elim H; reflexivity]]]].
        - constructor; simpl; try assumption; try lia.
          + now rewrite L1.
          + intros H. apply L7. intros e He. apply H. now right.
        - red; simpl. right. right. split; [assumption|]. rewrite NC by reflexivity. reflexivity. }
    destruct (Z.eqb_spec (icut s + 1) 25) as [H25|H25].
    + exists (ev :: evs). split; [|split; [|split; [exact B|split; [simpl; lia|intros _ H; elim H; reflexivity]]]].
      * constructor; simpl; try assumption; try lia.
        -- now rewrite L1.
        -- intros H. apply L7. intros e He. apply H. now right.
      * red; simpl. left. lia.
    + exists (output_events cfg (istep s) (ev :: evs)). split; [|split; [|split; [|split]]].
      * constructor; simpl.
        -- rewrite L1. rewrite <- output_app. reflexivity.
        -- unfold nacc in *. rewrite output_accepted. simpl. exact L2.
        -- rewrite output_failures. simpl. lia.
        -- rewrite output_solves. simpl. lia.
        -- intros t d g p a ok He. destruct (output_in _ _ _ He) as [He'|He']; [|discriminate].
           now apply (Hev t d g p a ok).
        -- rewrite output_accepted. exact L6.
        -- intros H. rewrite output_accepted. simpl. apply L7. intros e He. apply (output_nofail _ _ H). now right.
        -- lra.
        -- rewrite output_outputs. intros k Hk. destruct (Z.ltb_spec 0 (out_interval cfg)); [|now apply L9].
           destruct (Z.eqb_spec (istep s mod out_interval cfg) 0); [|now apply L9].
           destruct Hk as [<-|Hk]; [split; assumption|now apply L9].
        -- intros Hn k Hk Hm. rewrite output_outputs. destruct (Z.ltb_spec 0 (out_interval cfg)); [|lia].
           simpl. assert (In k (outputs evs)) by (apply L10; auto).
           destruct (Z.eqb_spec (istep s mod out_interval cfg) 0); [right|]; assumption.
        -- rewrite output_failures. simpl. discriminate.
      * red; simpl. unfold AtAttempt, lower, progress, nacc; simpl.
        rewrite output_accepted, output_failures. cbn [accepted failures ev]. change (length (accepted evs)) with (nacc evs).
        split; [lra|]. split; [lra|]. split; [lra|]. split; [reflexivity|]. split; [reflexivity|].
        split; [lia|]. split; [lra|]. split; [|split; [|split]].
        -- intros H0 Hg. specialize (Hlow0 H0 Hg). rewrite quarter_pow_S. lra.
        -- intros H0 Hg. specialize (Hlow1 H0 Hg). rewrite quarter_pow_S.
           pose proof (quarter_pow_pos (failures evs)). destruct Hs0 as [_ Hd0 _]. nra.
        -- intros H0 H. exfalso. apply (H ev); [apply output_incl; now left|]. simpl.
           rewrite Hdt. apply Htr; [assumption|]. intros e He. apply (output_nofail _ _ H). now right.
        -- exact Hprog.
      * unfold Bounded, nacc. rewrite output_accepted. exact B.
      * rewrite output_failures. simpl. lia.
      * rewrite Ecut. discriminate.
Qed.

Lemma inv_after s : pc s = AfterStep -> Inv s -> Inv (step_after cfg sync s).
Proof.
  intros Hpc (evs & C & P & B & F & NC). rewrite Hpc in NC. specialize (fun H => NC H ltac:(discriminate)).
  unfold AtPoint in P. rewrite Hpc in P.
  destruct P as (Hd & Hs & Hf & Hsv & Hlow0 & Hlow1 & Htr & Hprog & Hn & Hb).
  unfold step_after, update_dt.
  assert (Hmax : forall d, 0 < d <= dt_max cfg -> let d' := d * dt_growth cfg in
     (0 < (if Rlt_dec (dt_max cfg) d' then dt_max cfg else d') <= dt_max cfg) /\
     (1 <= dt_growth cfg -> d <= (if Rlt_dec (dt_max cfg) d' then dt_max cfg else d'))).
  { intros d Hd' d'. assert (0 < d') by (unfold d'; apply Rmult_lt_0_compat; lra).
    destruct (Rlt_dec (dt_max cfg) d'); split; try lra; intros; unfold d' in *; nra. }
  set (X := if Rlt_dec 0 (dt_save s) then (sync, dt_save s, 0) else (time s, dt s, dt_save s)).
  assert (HX : exists t d, X = (t, d, 0) /\ 0 < d <= dt_max cfg /\ lower s evs d /\ (t = sync \/ progress s evs /\ t = time s) /\
     time s <= t <= sync /\ (nofail_target evs -> t = time s)).
  { unfold X. destruct (Rlt_dec 0 (dt_save s)) as [Hp|Hp].
    - exists sync, (dt_save s). split; [reflexivity|]. split; [lra|]. split; [now apply Hlow1|]. split; [now left|].
      split; [destruct C; lra|]. intros H. symmetry. now apply Htr.
    - assert (dt_save s = 0) as E by lra. exists (time s), (dt s). rewrite E. split; [reflexivity|]. split; [lra|].
      split; [now apply Hlow0|]. split; [right; split; [now apply Hprog|reflexivity]|]. split; [destruct C; lra|reflexivity]. }
  destruct HX as (t & d & -> & Hd' & Hl & Ht & Htle & Hte).
  specialize (Hmax d Hd'). cbv zeta in Hmax. destruct Hmax as [Hr Hr'].
  set (d2 := if Rlt_dec (dt_max cfg) (d * dt_growth cfg) then dt_max cfg else d * dt_growth cfg) in *.
  assert (HC : forall p pend (l : list event) evs', l = evs' ++ log s0 ->
     (evs' = evs \/ exists k u, evs' = Checkpoint k u :: evs) ->
     Common {| pc := p; time := t; dt := d2; dt_save := 0; istep := istep s;
        dtime := dtime s; soln := soln s; soln_prev := soln_prev s; accum_prev := accum_prev s;
        icut := icut s; pending := pend; ncalls := ncalls s; log := l |} evs').
  { intros p pend l evs' E Hevs. destruct C as [L1 L2 L3 L4 L5 L6 L7 L8 L9 L10 L11].
    destruct Hevs as [->|(k & u & ->)]; constructor; simpl; auto; try lra.
    - intros H. rewrite L7 by assumption. symmetry. now apply Hte.
    - intros t' d' g q a ok [H|H]; [discriminate|]. now apply (L5 t' d' g q a ok).
    - intros H. assert (nofail_target evs) by (intros e He; apply H; now right).
      rewrite L7 by assumption. symmetry. now apply Hte. }
  assert (HT : forall pend l, AtPoint {| pc := Top; time := t; dt := d2; dt_save := 0; istep := istep s;
        dtime := dtime s; soln := soln s; soln_prev := soln_prev s; accum_prev := accum_prev s;
        icut := icut s; pending := pend; ncalls := ncalls s; log := l |} evs).
  { intros pend l. red; simpl. unfold AtTop; simpl. split; [reflexivity|]. split; [assumption|]. split; [assumption|].
    split; [assumption|]. split.
    - intros Hg. apply Rle_trans with d; [now apply Hl|now apply Hr'].
    - destruct Ht as [->|[Ht ->]]; [now left|]. right. exact Ht. }
  destruct (chk_enabled cfg) eqn:Een.
  - destruct (Z.eqb_spec (chk_interval cfg) 0) as [E0|E0].
    + exists evs. split; [apply HC; [destruct C; assumption|now left]|]. split; [red; simpl; auto|]. auto.
    + destruct (Z.eqb _ 0).
      * exists (Checkpoint (istep s) (soln_prev s) :: evs).
        split; [apply HC; [simpl; destruct C; congruence|right; eauto]|]. split; [exact (HT _ _)|]. auto.
      * exists evs. split; [apply HC; [destruct C; assumption|now left]|]. split; [apply HT|]. auto.
  - exists evs. split; [apply HC; [destruct C; assumption|now left]|]. split; [apply HT|]. auto.
Qed.

Lemma inv_step s : Inv s -> Inv (step accumulation cfg solver sync s).
Proof.
  intros H. unfold step. destruct (pc s) eqn:E; try assumption.
  - now apply inv_top.
  - now apply inv_attempt.
  - now apply inv_after.
Qed.

Lemma inv_steps n s : Inv s -> Inv (steps accumulation cfg solver sync n s).
Proof. revert s. induction n as [|n IH]; intros s H; simpl; [assumption|]. apply IH. now apply inv_step. Qed.

Lemma inv_run n : Inv (steps accumulation cfg solver sync n (enter s0)).
Proof. apply inv_steps, inv_enter. Qed.

(** ** Number of machine steps. *)
Definition Count (n : nat) (s : state) : Prop :=
  exists evs, log s = evs ++ log s0 /\
  match pc s with
  | Top => n = (3 * nacc evs + failures evs)%nat
  | Attempt => n = (3 * nacc evs + failures evs + 1)%nat
  | AfterStep => (n + 1 = 3 * nacc evs + failures evs)%nat
  | _ => True
  end.

Lemma count_step n s : Count n s -> Count (S n) (step accumulation cfg solver sync s).
Proof.
  intros (evs & L & H). unfold Count, step. destruct (pc s) eqn:E; rewrite ?E.
  - unfold step_top. destruct (Rlt_dec _ _).
    + unfold set_target. destruct (Rlt_dec _ _); exists evs; simpl; split; auto; lia.
    + simpl. destruct (chk_enabled cfg && pending s); [exists (Checkpoint (istep s) (soln_prev s) :: evs)|exists evs]; simpl; rewrite L; auto.
  - unfold step_attempt. destruct (has_presolve cfg); cbn [negb]; [|exists evs; split; [assumption|exact I]].
    destruct (solver (ncalls s)) as [[|] u].
    + simpl. rewrite L, app_comm_cons, output_app. eexists. split; [reflexivity|]. unfold nacc in *.
      rewrite output_accepted, output_failures. simpl. lia.
    + destruct (has_timecut cfg); cbn [negb]; [|eexists; simpl; rewrite L, app_comm_cons; split; [reflexivity|exact I]].
      destruct (Z.eqb _ 25); [eexists; simpl; rewrite L, app_comm_cons; split; [reflexivity|exact I]|].
      simpl. rewrite L, app_comm_cons, output_app. eexists. split; [reflexivity|]. unfold nacc in *.
      rewrite output_accepted, output_failures. simpl. lia.
  - unfold step_after. destruct (update_dt cfg sync (time s) (dt s) (dt_save s)) as [[t d] sv].
    destruct (chk_enabled cfg); [destruct (Z.eqb _ 0); [|destruct (Z.eqb _ 0)]|]; simpl.
    + exists evs; split; [assumption|exact I].
    + exists (Checkpoint (istep s) (soln_prev s) :: evs). rewrite L. split; [reflexivity|].
      unfold nacc in *. simpl. lia.
    + exists evs; split; auto. lia.
    + exists evs; split; auto. lia.
  - exists evs. auto.
  - exists evs. auto.
  - exists evs. auto.
Qed.

Lemma steps_S n s : steps accumulation cfg solver sync (S n) s = step accumulation cfg solver sync (steps accumulation cfg solver sync n s).
Proof. revert s. induction n as [|n IH]; intros s; [reflexivity|]. exact (IH (step accumulation cfg solver sync s)). Qed.

Lemma count_run n : Count n (steps accumulation cfg solver sync n (enter s0)).
Proof.
  induction n as [|n IH].
  - exists []. split; reflexivity.
  - rewrite steps_S. now apply count_step.
Qed.

Definition max_accepted : nat := S (Z.to_nat (up ((sync - time s0) / delta))).

Lemma bounded_nacc evs : 1 <= dt_growth cfg -> Bounded evs -> (nacc evs <= max_accepted)%nat.
Proof.
  intros Hg H. destruct (H Hg) as [E|Hlt]; [lia|]. unfold max_accepted.
  set (x := (sync - time s0) / delta).
  assert (Hx : INR (nacc evs - 1) < x).
  { unfold x. apply Rmult_lt_reg_r with delta; [exact delta_pos|]. unfold Rdiv.
    rewrite Rmult_assoc, Rinv_l by (pose proof delta_pos; lra). lra. }
  destruct (archimed x) as [Hup _].
  assert ((Z.of_nat (nacc evs - 1) < up x)%Z).
  { apply lt_IZR. rewrite <- INR_IZR_INZ. lra. }
  lia.
Qed.

Lemma run_terminates : 1 <= dt_growth cfg ->
  final (steps accumulation cfg solver sync (3 * max_accepted + 27) (enter s0)).
Proof.
  intros Hg. set (n := (3 * max_accepted + 27)%nat).
  destruct (inv_run n) as (evs & C & P & B & F & _). destruct (count_run n) as (evs' & L & H).
  pose proof (c_log _ _ C) as L'. rewrite L in L'. apply app_inv_tail in L'. subst evs'.
  pose proof (bounded_nacc evs Hg B) as Hn.
  unfold final. destruct (pc (steps accumulation cfg solver sync n (enter s0))); auto; exfalso; unfold n in H; lia.
Qed.

(** ** The step-size law. *)
Definition law (evs : list event) : Prop := size_law (dt_max cfg) (dt_growth cfg) sync (time s0) (dt s0) (attempts evs).

Definition at_law (s : state) (evs : list event) : Prop :=
  match pc s with
  | Top => dt_save s = 0 /\
           (time s < sync ->
            match attempts evs with
            | [] => time s = time s0 /\ dt s = dt s0
            | (t', d', ok) :: _ => ok = true /\ time s = t' + d' /\ dt s = Rmin (d' * dt_growth cfg) (dt_max cfg)
            end)
  | Attempt => dtime s = dt s /\ 0 <= dt_save s /\
           match attempts evs with
            | [] => time s = time s0 /\ dt s = Rmin (dt s0) (sync - time s)
            | (t', d', false) :: _ => time s = t' /\ dt s = d' / 4
            | (t', d', true) :: _ => time s = t' + d' /\ dt s = Rmin (Rmin (d' * dt_growth cfg) (dt_max cfg)) (sync - time s)
           end
  | AfterStep => 0 <= dt_save s /\
           match attempts evs with
            | [] => False
            | (t', d', ok) :: _ => ok = true /\ time s = t' + d' /\ dt s = d'
           end
  | _ => True
  end.

Definition InvLaw (s : state) : Prop := exists evs, log s = evs ++ log s0 /\ law evs /\ at_law s evs.

Lemma output_attempts step (l : list event) : attempts (output_events cfg step l) = attempts l.
Proof. unfold output_events. destruct (0 <? _)%Z; [destruct (Z.rem _ _ =? 0)%Z|]; reflexivity. Qed.

Lemma Rmin_cut a b : (if Rlt_dec b a then b else a) = Rmin a b.
Proof. destruct (Rlt_dec b a); [rewrite Rmin_right|rewrite Rmin_left]; lra. Qed.

Lemma law_step s : Inv s -> InvLaw s -> InvLaw (step accumulation cfg solver sync s).
Proof.
  intros (evs0 & C & P & _) (evs & L & Hl & Ha). pose proof (c_log _ _ C) as L'. rewrite L in L'. apply app_inv_tail in L'. subst evs0.
  unfold InvLaw, step, AtPoint, at_law in *. destruct (pc s) eqn:E.
  - destruct Ha as [Hsv Ha]. destruct P as (_ & Hd & _). unfold step_top. destruct (Rlt_dec (time s) sync) as [Ht|Ht].
    + specialize (Ha Ht). unfold set_target. exists evs.
      assert (Hmin : forall d sv, (if Rlt_dec (sync - time s) (dt s) then (sync - time s, dt s) else (dt s, dt_save s)) = (d, sv) ->
          d = Rmin (dt s) (sync - time s) /\ 0 <= sv).
      { intros d sv. rewrite <- Rmin_cut. destruct (Rlt_dec (sync - time s) (dt s)); intros X; injection X as <- <-; split; auto; lra. }
      destruct (if Rlt_dec (sync - time s) (dt s) then _ else _) as [d sv] eqn:Ed.
      destruct (Hmin d sv eq_refl) as [Hdd Hsv']. clear Hmin Ed.
      cbn [log pc dtime dt_save dt time]. split; [assumption|]. split; [assumption|]. split; [reflexivity|]. split; [assumption|].
      destruct (attempts evs) as [|[[t' d'] ok] l].
      * destruct Ha as [Ha1 Ha2]. rewrite Hdd, Ha2. auto.
      * destruct Ha as (-> & Ha2 & Ha3). rewrite Hdd, Ha3. auto.
    + simpl. destruct (chk_enabled cfg && pending s); [exists (Checkpoint (istep s) (soln_prev s) :: evs)|exists evs]; simpl; rewrite L; auto.
  - destruct Ha as (Hdt & Hsv & Ha). unfold step_attempt. destruct (has_presolve cfg); cbn [negb]; [|exists evs; split; [assumption|split; [assumption|exact I]]].
    assert (Hlaw : forall ok, size_law (dt_max cfg) (dt_growth cfg) sync (time s0) (dt s0) ((time s, dtime s, ok) :: attempts evs)).
    { intros ok. cbn [size_law]. split; [|exact Hl]. rewrite Hdt.
      destruct (attempts evs) as [|[[t' d'] [|]] l]; assumption. }
    destruct (solver (ncalls s)) as [[|] u].
    + simpl. rewrite L, app_comm_cons, output_app. eexists. split; [reflexivity|]. unfold law.
      rewrite output_attempts. cbn [attempts]. split; [apply Hlaw|]. rewrite Hdt. split; [assumption|auto].
    + destruct (has_timecut cfg); cbn [negb];
        [|eexists; simpl; rewrite L, app_comm_cons; split; [reflexivity|]; split; [apply Hlaw|exact I]].
      destruct (Z.eqb _ 25); [eexists; simpl; rewrite L, app_comm_cons; split; [reflexivity|]; split; [apply Hlaw|exact I]|].
      simpl. rewrite L, app_comm_cons, output_app. eexists. split; [reflexivity|]. unfold law.
      rewrite output_attempts. cbn [attempts]. split; [apply Hlaw|]. split; [reflexivity|]. split; [assumption|].
      split; [reflexivity|]. rewrite Hdt. lra.
  - destruct Ha as (Hsv & Ha). unfold step_after, update_dt.
    set (X := if Rlt_dec 0 (dt_save s) then (sync, dt_save s, 0) else (time s, dt s, dt_save s)).
    assert (HX : exists t d, X = (t, d, 0) /\ (t = sync \/ t = time s /\ d = dt s)).
    { unfold X. destruct (Rlt_dec 0 (dt_save s)).
      - eexists _, _. split; [reflexivity|now left].
      - assert (dt_save s = 0) as -> by lra. eexists _, _. split; [reflexivity|now right]. }
    destruct HX as (t & d & -> & Ht).
    assert (HT : forall pend (l : list event) evs', l = evs' ++ log s0 -> attempts evs' = attempts evs -> exists evs',
       log {| pc := Top; time := t; dt := if Rlt_dec (dt_max cfg) (d * dt_growth cfg) then dt_max cfg else d * dt_growth cfg;
        dt_save := 0; istep := istep s;
        dtime := dtime s; soln := soln s; soln_prev := soln_prev s; accum_prev := accum_prev s;
        icut := icut s; pending := pend; ncalls := ncalls s; log := l |} = evs' ++ log s0 /\ law evs' /\
       0 = 0 /\ (t < sync -> match attempts evs' with
            | [] => t = time s0 /\ (if Rlt_dec (dt_max cfg) (d * dt_growth cfg) then dt_max cfg else d * dt_growth cfg) = dt s0
            | (t', d', ok) :: _ => ok = true /\ t = t' + d' /\
                  (if Rlt_dec (dt_max cfg) (d * dt_growth cfg) then dt_max cfg else d * dt_growth cfg) = Rmin (d' * dt_growth cfg) (dt_max cfg)
            end)).
    { intros pend l evs' El Ea. exists evs'. split; [exact El|]. split; [unfold law; now rewrite Ea|]. split; [reflexivity|].
      intros Hts. destruct Ht as [Ht|[-> ->]]; [lra|]. rewrite Ea. destruct (attempts evs) as [|[[t' d'] ok] l']; [contradiction|].
      destruct Ha as (-> & Ha2 & ->). rewrite Rmin_cut. auto. }
    destruct (chk_enabled cfg); [destruct (Z.eqb _ 0); [|destruct (Z.eqb _ 0)]|]; cbn [pc].
    + exists evs; split; [assumption|split; [assumption|exact I]].
    + apply HT with (Checkpoint (istep s) (soln_prev s) :: evs); [simpl; now rewrite L|reflexivity].
    + apply HT with evs; auto.
    + apply HT with evs; auto.
  - exists evs. rewrite E. auto.
  - exists evs. rewrite E. auto.
  - exists evs. rewrite E. auto.
Qed.

Lemma law_run n : InvLaw (steps accumulation cfg solver sync n (enter s0)).
Proof.
  induction n as [|n IH].
  - exists []. split; [reflexivity|]. split; [exact I|]. red; simpl. split; [now destruct Hs0|]. auto.
  - rewrite steps_S. apply law_step; [apply inv_run|exact IH].
Qed.

(** ** Finished states stay; the clock is monotone. *)
Lemma final_stable n s : final s -> steps accumulation cfg solver sync n s = s.
Proof.
  intros H. induction n as [|n IH]; [reflexivity|]. rewrite steps_S, IH. unfold step.
  destruct H as [->|[->| ->]]; reflexivity.
Qed.

Lemma clock_step s : Inv s -> time s <= time (step accumulation cfg solver sync s).
Proof.
  intros (evs & C & P & _). unfold step, AtPoint in *. destruct (pc s) eqn:E; try lra.
  - unfold step_top. destruct (Rlt_dec _ _); [unfold set_target; destruct (Rlt_dec _ _)|]; simpl; lra.
  - destruct P as (_ & Hd & _). unfold step_attempt. destruct (has_presolve cfg); [|simpl; lra].
    destruct (solver (ncalls s)) as [[|] u]; [simpl; lra|].
    destruct (has_timecut cfg); [|simpl; lra]. cbn [negb]. destruct (Z.eqb _ 25); simpl; lra.
  - pose proof (c_le _ _ C). unfold step_after, update_dt. destruct (Rlt_dec 0 (dt_save s)); simpl;
    (destruct (chk_enabled cfg); [destruct (Z.eqb _ 0); [|destruct (Z.eqb _ 0)]|]); simpl; lra.
Qed.
End Run.

(** ** Checkpoints. *)
Section Checkpoints.
Context {Sol Acc : Type}.
Variable accumulation : Sol -> R -> Acc.
Variable cfg : config.
Variable solver : nat -> bool * Sol.
Variable sync : R.
Variable s0 : @state Sol Acc.
Notation state := (@state Sol Acc).
Notation event := (@event Sol Acc).

Definition due (p : Z * Sol) : bool := Z.eqb (fst p mod chk_interval cfg) 0.

Definition InvC (s : state) : Prop :=
  exists evs, log s = evs ++ log s0 /\ istep s = (istep s0 + Z.of_nat (length (solutions evs)))%Z /\
  match solutions evs with [] => soln_prev s = soln_prev s0 | u :: _ => soln_prev s = u end /\
  (chk_enabled cfg = false -> checkpoints evs = []) /\
  (chk_enabled cfg = true -> chk_interval cfg <> 0%Z ->
   match pc s with
   | Top | Attempt => checkpoints evs = filter due (numbered (istep s0) (solutions evs)) /\
       pending s = match solutions evs with [] => false | _ :: _ => negb (Z.eqb (istep s mod chk_interval cfg) 0) end
   | AfterStep => match solutions evs with [] => False | u :: us => checkpoints evs = filter due (numbered (istep s0) us) end
   | Finished => checkpoints evs = filter (fun p => due p || Z.eqb (fst p) (istep s)) (numbered (istep s0) (solutions evs))
   | Failed => checkpoints evs = filter due (numbered (istep s0) (solutions evs))
   | Crashed => False
   end).

Lemma output_solutions step (l : list event) : solutions (output_events cfg step l) = solutions l.
Proof. unfold output_events. destruct (0 <? _)%Z; [destruct (Z.rem _ _ =? 0)%Z|]; reflexivity. Qed.
Lemma output_checkpoints step (l : list event) : checkpoints (output_events cfg step l) = checkpoints l.
Proof. unfold output_events. destruct (0 <? _)%Z; [destruct (Z.rem _ _ =? 0)%Z|]; reflexivity. Qed.

Lemma numbered_lt a (us : list Sol) p : In p (numbered a us) -> (fst p <= a + Z.of_nat (length us))%Z.
Proof.
  induction us as [|u us IH]; simpl; [contradiction|]. intros [<-|H]; simpl; [lia|]. specialize (IH H). lia.
Qed.

Lemma filter_final us :
  filter (fun p => due p || Z.eqb (fst p) (istep s0 + Z.of_nat (length us))) (numbered (istep s0) us) =
  match us with
  | [] => []
  | u :: _ => if Z.eqb ((istep s0 + Z.of_nat (length us)) mod chk_interval cfg) 0
              then filter due (numbered (istep s0) us)
              else ((istep s0 + Z.of_nat (length us))%Z, u) :: filter due (numbered (istep s0) us)
  end.
Proof.
  destruct us as [|u us]; [reflexivity|]. cbn [numbered filter fst length].
  rewrite Z.eqb_refl, orb_true_r.
  assert (H : filter (fun p : Z * Sol => due p || Z.eqb (fst p) (istep s0 + Z.of_nat (S (length us)))) (numbered (istep s0) us)
              = filter due (numbered (istep s0) us)).
  { apply filter_ext_in. intros p Hp. apply numbered_lt in Hp.
    destruct (Z.eqb_spec (fst p) (istep s0 + Z.of_nat (S (length us)))); [lia|]. now rewrite orb_false_r. }
  rewrite H. replace (due ((istep s0 + Z.of_nat (S (length us)))%Z, u))
    with (Z.eqb ((istep s0 + Z.of_nat (S (length us))) mod chk_interval cfg) 0) by reflexivity.
  destruct (Z.eqb _ 0); reflexivity.
Qed.

Lemma chk_step s : InvC s -> InvC (step accumulation cfg solver sync s).
Proof.
  intros (evs & L & Hi & Hu & Hoff & Hon). unfold step. destruct (pc s) eqn:E.
  - unfold step_top. destruct (Rlt_dec _ _).
    + unfold set_target. destruct (Rlt_dec _ _); exists evs; simpl; auto.
    + destruct (chk_enabled cfg) eqn:Een; cbn [andb].
      * destruct (Z.eq_dec (chk_interval cfg) 0) as [Ez|Ez].
        -- exists (if pending s then Checkpoint (istep s) (soln_prev s) :: evs else evs).
           destruct (pending s); cbn [log istep soln_prev solutions]; rewrite L;
             (split; [reflexivity|]); (split; [assumption|]); (split; [assumption|]); (split; [intros; congruence|]); intros; contradiction.
        -- destruct (Hon eq_refl Ez) as [Hc Hp].
           exists (if pending s then Checkpoint (istep s) (soln_prev s) :: evs else evs). simpl.
           split; [destruct (pending s); now rewrite L|].
           assert (Esol : solutions (if pending s then Checkpoint (istep s) (soln_prev s) :: evs else evs) = solutions evs)
             by (destruct (pending s); reflexivity).
           rewrite Esol. split; [assumption|]. split; [assumption|]. split; [congruence|]. intros _ _.
           rewrite Hi. rewrite filter_final, Hp, <- Hi. destruct (solutions evs) as [|u us].
           ++ exact Hc.
           ++ destruct (Z.eqb _ 0); simpl; [exact Hc|]. now rewrite Hc, Hu.
      * exists evs. simpl. split; [assumption|]. split; [assumption|]. split; [assumption|]. split; [intros _; exact (Hoff eq_refl)|congruence].
  - unfold step_attempt. destruct (has_presolve cfg); cbn [negb].
    2:{ exists evs. simpl. split; [assumption|]. split; [assumption|]. split; [assumption|]. split; [assumption|].
        intros He Hz. now destruct (Hon He Hz). }
    destruct (solver (ncalls s)) as [[|] u].
    + simpl. rewrite L, app_comm_cons, output_app. eexists. split; [reflexivity|].
      rewrite output_solutions, output_checkpoints. simpl. split; [lia|]. split; [reflexivity|]. split; [assumption|].
      intros He Hz. now destruct (Hon He Hz).
    + destruct (has_timecut cfg); cbn [negb].
      2:{ eexists; simpl; rewrite L, app_comm_cons. split; [reflexivity|]. simpl. split; [assumption|]. split; [assumption|].
          split; [assumption|]. intros He Hz. now destruct (Hon He Hz). }
      destruct (Z.eqb _ 25).
      * eexists; simpl; rewrite L, app_comm_cons. split; [reflexivity|]. simpl. split; [assumption|]. split; [assumption|].
        split; [assumption|]. intros He Hz. now destruct (Hon He Hz).
      * simpl. rewrite L, app_comm_cons, output_app. eexists. split; [reflexivity|].
        rewrite output_solutions, output_checkpoints. simpl. auto.
  - unfold step_after. destruct (update_dt cfg sync (time s) (dt s) (dt_save s)) as [[t d] sv].
    destruct (chk_enabled cfg) eqn:Een.
    + destruct (Z.eqb_spec (chk_interval cfg) 0) as [Ez|Ez].
      * exists evs. simpl. split; [assumption|]. split; [assumption|]. split; [assumption|]. split; [congruence|intros; contradiction].
      * specialize (Hon eq_refl Ez). destruct (solutions evs) as [|u us] eqn:Es; [contradiction|].
        rewrite rem_mod by assumption.
        assert (Enum : filter due (numbered (istep s0) (u :: us)) =
           if Z.eqb (istep s mod chk_interval cfg) 0 then (istep s, u) :: filter due (numbered (istep s0) us)
           else filter due (numbered (istep s0) us)).
        { cbn [numbered filter]. unfold due at 1. cbn [fst]. rewrite Hi. cbn [length]. destruct (Z.eqb _ 0); reflexivity. }
        destruct (Z.eqb (istep s mod chk_interval cfg) 0) eqn:Em.
        -- exists (Checkpoint (istep s) (soln_prev s) :: evs). simpl. rewrite Es, L, Em. split; [reflexivity|].
           split; [assumption|]. split; [assumption|]. split; [congruence|]. intros _ _.
           split; [|reflexivity]. symmetry. etransitivity; [exact Enum|]. rewrite Hon, Hu. reflexivity.
        -- exists evs. simpl. rewrite Es, Em. split; [assumption|].
           split; [assumption|]. split; [assumption|]. split; [congruence|]. intros _ _.
           split; [|reflexivity]. symmetry. etransitivity; [exact Enum|]. now rewrite Hon.
    + exists evs. simpl. split; [assumption|]. split; [assumption|]. split; [assumption|]. split; [intros _; exact (Hoff eq_refl)|congruence].
  - exists evs. rewrite E. auto.
  - exists evs. rewrite E. auto.
  - exists evs. rewrite E. auto.
Qed.

Lemma chk_run n : InvC (steps accumulation cfg solver sync n (enter s0)).
Proof.
  induction n as [|n IH].
  - exists []. simpl. split; [reflexivity|]. split; [lia|]. auto.
  - rewrite steps_S. now apply chk_step.
Qed.
End Checkpoints.

(** ** Statements about whole runs. *)
Section Runs.
Context {Sol Acc : Type}.
Variable accumulation : Sol -> R -> Acc.
Variable cfg : config.
Variable solver : nat -> bool * Sol.
Notation state := (@state Sol Acc).
Notation event := (@event Sol Acc).
Notation reachable := (reachable accumulation cfg solver).
Notation run_to_time := (run_to_time accumulation cfg solver).
Notation steps := (steps accumulation cfg solver).

Lemma past_target sync (s s' : state) : sync <= time s -> run_to_time sync s s' ->
  pc s' = Finished /\ time s' = time s /\ dt s' = dt s /\ dt_save s' = dt_save s /\ istep s' = istep s /\
  soln s' = soln s /\ soln_prev s' = soln_prev s /\ log s' = log s /\ ncalls s' = ncalls s.
Proof.
  intros Ht (n & -> & Hf). destruct n as [|n].
  - exfalso. unfold final in Hf. simpl in Hf. destruct Hf as [H|[H|H]]; discriminate.
  - cbn [TimeInt.steps]. set (s1 := step accumulation cfg solver sync (enter s)).
    assert (E : s1 = {| pc := Finished; time := time s; dt := dt s; dt_save := dt_save s; istep := istep s;
       dtime := dtime s; soln := soln s; soln_prev := soln_prev s; accum_prev := accum_prev s;
       icut := 0; pending := false; ncalls := ncalls s; log := log s |}).
    { unfold s1, step, enter; simpl. unfold step_top; simpl. destruct (Rlt_dec (time s) sync); [lra|].
      rewrite andb_false_r. reflexivity. }
    rewrite final_stable by (left; rewrite E; reflexivity). rewrite E. simpl. repeat split.
Qed.

Lemma reachable_ok s : 0 < dt_growth cfg -> reachable s -> start_ok cfg s.
Proof.
  intros Hg H. induction H as [d u a Hd|s d Hr IH Hd|s s' sync Hr IH Hrun Hpc].
  - constructor; auto.
  - destruct IH as [A B C]. constructor; auto.
  - destruct (Rle_dec (time s) sync) as [Hle|Hgt].
    + destruct Hrun as (n & -> & _).
      destruct (inv_run accumulation cfg solver sync s Hg IH Hle n) as (evs & _ & P & _).
      unfold AtPoint in P. rewrite Hpc in P. destruct P as (A & B & C & _). constructor; assumption.
    + destruct (past_target sync s s' ltac:(lra) Hrun) as (_ & _ & A & B & _ & C & D & _).
      destruct IH as [I1 I2 I3]. constructor; congruence.
Qed.

Section One.
Variable sync : R.
Variable s : state.
Hypothesis Hg : 0 < dt_growth cfg.
Hypothesis Hr : reachable s.
Hypothesis Ht : time s <= sync.

Lemma one_inv n : Inv accumulation cfg sync s (steps sync n (enter s)).
Proof. apply inv_run; auto. now apply reachable_ok. Qed.

Lemma run_reaches s' : run_to_time sync s s' -> pc s' = Finished -> time s' = sync.
Proof.
  intros (n & -> & _) Hpc. destruct (one_inv n) as (evs & _ & P & _). unfold AtPoint in P. rewrite Hpc in P. tauto.
Qed.

Lemma run_clock n : time s <= time (steps sync n (enter s)) <= time (steps sync (S n) (enter s)) /\
  time (steps sync (S n) (enter s)) <= sync.
Proof.
  assert (Hmono : forall n, time (steps sync n (enter s)) <= time (steps sync (S n) (enter s))).
  { intros m. rewrite steps_S. apply clock_step with (s0 := s). apply one_inv. }
  assert (Hlow : time s <= time (steps sync n (enter s))).
  { induction n as [|m IH]; [simpl; lra|]. specialize (Hmono m). lra. }
  specialize (Hmono n). split; [lra|]. destruct (one_inv (S n)) as (evs & C & _). exact (c_le _ _ _ _ _ _ C).
Qed.

Lemma run_no_gap n : exists evs, log (steps sync n (enter s)) = evs ++ log s /\
  time s + total (accepted evs) <= time (steps sync n (enter s)) /\
  ((forall e, In e evs -> ~ failed_at_target sync e) -> time s + total (accepted evs) = time (steps sync n (enter s))).
Proof. destruct (one_inv n) as (evs & C & _). exists evs. destruct C. auto. Qed.

Lemma run_sizes n : exists evs, log (steps sync n (enter s)) = evs ++ log s /\
  all_solves (fun t d _ _ _ => time s <= t /\ 0 < d <= dt_max cfg /\ t + d <= sync) evs /\
  size_law (dt_max cfg) (dt_growth cfg) sync (time s) (dt s) (attempts evs).
Proof.
  destruct (one_inv n) as (evs & C & _).
  destruct (law_run accumulation cfg solver sync s Hg (reachable_ok s Hg Hr) Ht n) as (evs' & L & Hl & _).
  pose proof (c_log _ _ _ _ _ _ C) as L'. rewrite L in L'. apply app_inv_tail in L'. subst evs'.
  exists evs. split; [assumption|]. split; [|assumption].
  intros t d g p a o Hin. destruct (c_solves _ _ _ _ _ _ C t d g p a o Hin) as (A & B & D & _). auto.
Qed.

Lemma run_failures n : exists evs, log (steps sync n (enter s)) = evs ++ log s /\ (failures evs <= 25)%nat /\
  (pc (steps sync n (enter s)) = Failed ->
     failures evs = 25%nat \/ has_presolve cfg = false \/ (has_timecut cfg = false /\ failures evs = 1%nat)) /\
  (pc (steps sync n (enter s)) = Crashed -> chk_enabled cfg = true /\ chk_interval cfg = 0%Z).
Proof.
  destruct (one_inv n) as (evs & C & P & _ & F & _). exists evs. split; [destruct C; assumption|]. split; [assumption|].
  unfold AtPoint in P. split; intros E; rewrite E in P; exact P.
Qed.

Lemma run_total : 1 <= dt_growth cfg -> exists s', run_to_time sync s s'.
Proof.
  intros H1. eexists. eexists. split; [reflexivity|]. apply run_terminates; auto. now apply reachable_ok.
Qed.

Lemma run_outputs n : exists evs, log (steps sync n (enter s)) = evs ++ log s /\
  (forall k, In k (outputs evs) -> (0 < out_interval cfg /\ k mod out_interval cfg = 0)%Z) /\
  ((0 < out_interval cfg)%Z -> forall k, (istep s < k <= istep (steps sync n (enter s)))%Z ->
     (k mod out_interval cfg = 0)%Z -> In k (outputs evs)) /\
  (failures evs = O -> outputs evs =
     if Z.ltb 0 (out_interval cfg) then multiples (out_interval cfg) (istep s) (length (accepted evs)) else []) /\
  istep (steps sync n (enter s)) = (istep s + Z.of_nat (length (accepted evs)))%Z.
Proof. destruct (one_inv n) as (evs & C & _). exists evs. destruct C. auto. Qed.

Lemma run_accepted n : 1 <= dt_growth cfg -> exists evs, log (steps sync n (enter s)) = evs ++ log s /\
  INR (length (accepted evs)) <= 1 + (sync - time s) / (dt s * (/ 4) ^ 24).
Proof.
  intros H1. destruct (one_inv n) as (evs & C & _ & B & _). exists evs. split; [destruct C; assumption|].
  pose proof (delta_pos cfg s (reachable_ok s Hg Hr)) as Hdl. unfold delta in Hdl.
  set (dl := dt s * (/ 4) ^ 24) in *.
  assert (Hq : 0 <= (sync - time s) / dl) by (apply Rmult_le_pos; [lra|left; now apply Rinv_0_lt_compat]).
  destruct (B H1) as [E|Hlt]; unfold nacc in *; [rewrite E; simpl; lra|].
  destruct (length (accepted evs)) as [|m]; [simpl; lra|].
  cbn [Nat.sub] in Hlt. rewrite Nat.sub_0_r in Hlt. rewrite S_INR.
  assert (INR m < (sync - time s) / dl); [|lra].
  apply Rmult_lt_reg_r with dl; [exact Hdl|]. unfold Rdiv. rewrite Rmult_assoc, Rinv_l by lra.
  fold dl in Hlt. unfold delta in Hlt. fold dl in Hlt. lra.
Qed.

Definition InvClean (x : state) : Prop := exists evs, log x = evs ++ log s /\
  clean_starts accumulation (soln_prev s) evs /\ soln_prev x = hd (soln_prev s) (solutions evs).

Lemma output_clean k (l : list event) :
  clean_starts accumulation (soln_prev s) l -> clean_starts accumulation (soln_prev s) (output_events cfg k l).
Proof. unfold output_events. destruct (0 <? _)%Z; [destruct (Z.rem _ _ =? 0)%Z|]; simpl; auto. Qed.

Lemma clean_step x : Inv accumulation cfg sync s x -> InvClean x -> InvClean (step accumulation cfg solver sync x).
Proof.
  intros (evs0 & _ & P & _) (evs & L & Hc & Hp). unfold InvClean, step, AtPoint in *. destruct (pc x) eqn:E; try (exists evs; now auto).
  - unfold step_top. destruct (Rlt_dec _ _).
    + unfold set_target. destruct (Rlt_dec _ _); exists evs; auto.
    + simpl. destruct (chk_enabled cfg && pending x); [exists (Checkpoint (istep x) (soln_prev x) :: evs)|exists evs]; simpl; rewrite L; auto.
  - destruct P as (_ & _ & _ & Hdt & Hs & _). unfold step_attempt. destruct (has_presolve cfg); cbn [negb]; [|exists evs; auto].
    assert (Hnew : forall o, clean_starts accumulation (soln_prev s)
       (Solve (time x) (dtime x) (soln x) (soln_prev x) (accumulation (soln_prev x) (dtime x)) o :: evs)).
    { intros o. cbn [clean_starts]. split; [|exact Hc]. cbv zeta. rewrite Hs, <- Hp. auto. }
    destruct (solver (ncalls x)) as [[|] u].
    + simpl. rewrite L, app_comm_cons, output_app. eexists. split; [reflexivity|]. rewrite output_solutions.
      split; [apply output_clean, Hnew|reflexivity].
    + destruct (has_timecut cfg); cbn [negb]; [|eexists; simpl; rewrite L, app_comm_cons; split; [reflexivity|]; split; [apply Hnew|exact Hp]].
      destruct (Z.eqb _ 25); [eexists; simpl; rewrite L, app_comm_cons; split; [reflexivity|]; split; [apply Hnew|exact Hp]|].
      simpl. rewrite L, app_comm_cons, output_app. eexists. split; [reflexivity|]. rewrite output_solutions.
      split; [apply output_clean, Hnew|exact Hp].
  - unfold step_after. destruct (update_dt cfg sync (time x) (dt x) (dt_save x)) as [[t d] sv].
    destruct (chk_enabled cfg); [destruct (Z.eqb _ 0); [|destruct (Z.eqb _ 0)]|]; simpl; try (exists evs; now auto).
    exists (Checkpoint (istep x) (soln_prev x) :: evs). simpl. rewrite L. auto.
Qed.

Lemma run_clean_start n : exists evs, log (steps sync n (enter s)) = evs ++ log s /\
  clean_starts accumulation (soln_prev s) evs /\
  soln_prev (steps sync n (enter s)) = hd (soln_prev s) (solutions evs).
Proof.
  induction n as [|n IH]; [exists []; simpl; auto|]. rewrite steps_S. apply clean_step; [apply one_inv|exact IH].
Qed.
End One.

Lemma run_deterministic sync (s s1 s2 : state) : run_to_time sync s s1 -> run_to_time sync s s2 -> s1 = s2.
Proof.
  intros (n & -> & Hn) (m & -> & Hm).
  assert (Hadd : forall k n (x : state), steps sync (k + n) x = steps sync k (steps sync n x)).
  { intros k. induction k as [|k IH]; intros j x; [reflexivity|].
    change (S k + j)%nat with (S (k + j)). rewrite !steps_S, IH. reflexivity. }
  destruct (Nat.le_ge_cases n m) as [H|H].
  - replace m with ((m - n) + n)%nat by lia. rewrite Hadd. symmetry. now apply final_stable.
  - replace n with ((n - m) + m)%nat by lia. rewrite Hadd. now apply final_stable.
Qed.

Lemma run_checkpoints sync (s s' : state) : run_to_time sync s s' ->
  chk_enabled cfg = true -> chk_interval cfg <> 0%Z ->
  exists evs, log s' = evs ++ log s /\
  istep s' = (istep s + Z.of_nat (length (solutions evs)))%Z /\
  (pc s' = Finished ->
   checkpoints evs = filter (fun p => Z.eqb (fst p mod chk_interval cfg) 0 || Z.eqb (fst p) (istep s'))
                            (numbered (istep s) (solutions evs))) /\
  (pc s' = Failed ->
   checkpoints evs = filter (fun p => Z.eqb (fst p mod chk_interval cfg) 0) (numbered (istep s) (solutions evs))).
Proof.
  intros (n & -> & _) He Hz. destruct (chk_run accumulation cfg solver sync s n) as (evs & L & Hi & _ & _ & H).
  exists evs. split; [assumption|]. split; [assumption|]. specialize (H He Hz).
  split; intros E; rewrite E in H; exact H.
Qed.

Lemma run_final_checkpoint sync (s s' : state) : run_to_time sync s s' ->
  chk_enabled cfg = true -> chk_interval cfg <> 0%Z -> pc s' = Finished ->
  exists evs, log s' = evs ++ log s /\
  (solutions evs = [] \/ exists l, checkpoints evs = (istep s', soln_prev s') :: l).
Proof.
  intros (n & -> & _) He Hz Hpc. destruct (chk_run accumulation cfg solver sync s n) as (evs & L & Hi & Hu & _ & H).
  exists evs. split; [assumption|]. specialize (H He Hz). rewrite Hpc in H.
  destruct (solutions evs) as [|u us] eqn:Es; [now left|]. right. eexists. rewrite H, Hi.
  cbn [numbered filter fst length]. rewrite Z.eqb_refl, orb_true_r, Hu. reflexivity.
Qed.

Lemma run_no_checkpoints sync (s s' : state) : run_to_time sync s s' -> chk_enabled cfg = false ->
  exists evs, log s' = evs ++ log s /\ checkpoints evs = [].
Proof.
  intros (n & -> & _) He. destruct (chk_run accumulation cfg solver sync s n) as (evs & L & _ & _ & H & _). eauto.
Qed.

(** Nothing depends on the configured reduction factor. *)
Lemma reduction_unused r sync n (s : state) :
  TimeInt.steps accumulation
    {| dt_max := dt_max cfg; dt_growth := dt_growth cfg; dt_reduction := r; out_interval := out_interval cfg;
       chk_enabled := chk_enabled cfg; chk_interval := chk_interval cfg;
       has_presolve := has_presolve cfg; has_timecut := has_timecut cfg |} solver sync n s = steps sync n s.
Proof. revert s. induction n as [|n IH]; intros s; [reflexivity|]. cbn [TimeInt.steps]. rewrite IH. reflexivity. Qed.
End Runs.

(** ** Witnesses. *)
Definition cfg0 : config :=
  {| dt_max := 10; dt_growth := 2; dt_reduction := 1/2; out_interval := 1; chk_enabled := true; chk_interval := 2;
     has_presolve := true; has_timecut := true |}.

Lemma steps_next {Sol Acc} (A : Sol -> R -> Acc) c f y n s :
  steps A c f y (S n) s = steps A c f y n (step A c f y s).
Proof. reflexivity. Qed.

Ltac decide_R :=
  match goal with
  | |- context [Rlt_dec ?a ?b] => destruct (Rlt_dec a b); try (exfalso; lra)
  end.
Ltac cbn_R := cbn -[Rlt_dec Rmult Rplus Rminus Rdiv Rinv IZR].
Ltac one_step :=
  match goal with
  | |- context [steps ?A ?c ?f ?y (S ?n) ?s] =>
      rewrite (steps_next A c f y n s);
      eassert (step A c f y s = _) as ->
        by (unfold step; cbn [pc enter]; first [unfold step_top at 1|unfold step_attempt at 1|unfold step_after at 1];
            unfold set_target, update_dt; cbn_R; repeat (decide_R; cbn_R); reflexivity)
  end.

Definition fail_first (k : nat) : bool * nat := (negb (Nat.eqb k 0), k).
Definition acc0 (u : nat) (d : R) : R := d.

Lemma witness_skip : exists s' : state,
  run_to_time acc0 cfg0 fail_first (1/2) (ti_create 1 7%nat 0) s' /\ pc s' = Finished /\
  total (accepted (log s')) = 1/8 /\ time s' = 1/2 /\ outputs (log s') = [1%Z; 0%Z] /\ checkpoints (log s') = [(1%Z, 1%nat)].
Proof.
  assert (H : exists s' : state, steps acc0 cfg0 fail_first (1/2) 5 (enter (ti_create 1 7%nat 0)) = s' /\
     pc s' = Finished /\ total (accepted (log s')) = 1/8 /\ time s' = 1/2 /\ outputs (log s') = [1%Z; 0%Z] /\ checkpoints (log s') = [(1%Z, 1%nat)]).
  2:{ destruct H as (s' & E & P & H). exists s'. split; [|tauto]. exists 5%nat. split; [symmetry; exact E|now left]. }
  do 5 one_step. eexists. split; [reflexivity|]. cbn_R.
  split; [reflexivity|]. split; [lra|]. split; [lra|]. split; reflexivity.
Qed.

(** MPFA-O has no TDyTimeCut: the first failed solve ends the run with an error. *)
Definition cfg_nocut : config :=
  {| dt_max := 10; dt_growth := 2; dt_reduction := 1/2; out_interval := 0; chk_enabled := false; chk_interval := 1;
     has_presolve := true; has_timecut := false |}.

Lemma witness_after_failure : exists s1 s2 : state,
  run_to_time acc0 cfg_nocut fail_first (1/2) (ti_create 1 7%nat 0) s1 /\ pc s1 = Failed /\
  run_to_time acc0 cfg_nocut fail_first 5 s1 s2 /\ pc s2 = Finished /\
  time s2 - time s1 = 5 /\ total (accepted (log s2)) = 1/8.
Proof.
  assert (H : exists s1 : state, steps acc0 cfg_nocut fail_first (1/2) 2 (enter (ti_create 1 7%nat 0)) = s1 /\
    pc s1 = Failed /\ exists s2, steps acc0 cfg_nocut fail_first 5 4 (enter s1) = s2 /\ pc s2 = Finished /\
    time s2 - time s1 = 5 /\ total (accepted (log s2)) = 1/8).
  2:{ destruct H as (s1 & E1 & P1 & s2 & E2 & P2 & H). exists s1, s2. split; [|split; [assumption|split; [|tauto]]].
      - exists 2%nat. split; [now symmetry|right; now left].
      - exists 4%nat. split; [now symmetry|now left]. }
  do 2 one_step. eexists. split; [reflexivity|]. split; [reflexivity|].
  do 4 one_step. eexists. split; [reflexivity|]. split; [reflexivity|]. cbn_R. split; lra.
Qed.

Definition always (k : nat) : bool * nat := (true, k).

Lemma witness_initial_too_large : exists s1 : state,
  run_to_time acc0 cfg0 always 20 (ti_create 20 7%nat 0) s1 /\ pc s1 = Finished /\
  In (Solve 0 20 7%nat 7%nat 20 (Some 0%nat)) (log s1) /\ 20 > dt_max cfg0.
Proof.
  assert (H : exists s1 : state, steps acc0 cfg0 always 20 4 (enter (ti_create 20 7%nat 0)) = s1 /\
    pc s1 = Finished /\ In (Solve 0 20 7%nat 7%nat 20 (Some 0%nat)) (log s1) /\ 20 > dt_max cfg0).
  2:{ destruct H as (s1 & E1 & P1 & H). exists s1. split; [|tauto]. exists 4%nat. split; [now symmetry|now left]. }
  do 4 one_step. eexists. split; [reflexivity|]. cbn_R. split; [reflexivity|]. split; [|lra].
  repeat (first [left; reflexivity|right]).
Qed.

(** A growth factor below one: the steps shrink and the target is never reached. *)
Definition cfg_shrink : config :=
  {| dt_max := 10; dt_growth := 1/2; dt_reduction := 1/2; out_interval := 0; chk_enabled := false; chk_interval := 1;
     has_presolve := true; has_timecut := true |}.

Definition shrink_inv (s : @state nat R) : Prop :=
  dt_save s = 0 /\ 0 < dt s <= 1 /\
  match pc s with
  | Top => time s = 2 - 2 * dt s
  | Attempt => time s = 2 - 2 * dt s
  | AfterStep => time s = 2 - dt s
  | _ => False
  end.

Lemma shrink_never_ends : forall s', ~ run_to_time acc0 cfg_shrink always 10 (ti_create 1 7%nat 0) s'.
Proof.
  intros s' (n & -> & Hf).
  assert (H : shrink_inv (steps acc0 cfg_shrink always 10 n (enter (ti_create 1 7%nat 0)))).
  { clear Hf. induction n as [|n IH].
    - red; simpl. split; [reflexivity|]. split; lra.
    - rewrite steps_S. set (s := steps acc0 cfg_shrink always 10 n (enter (ti_create 1 7%nat 0))) in *. clearbody s.
      destruct IH as (Hs & Hd & Ht). unfold step. destruct (pc s) eqn:E; try contradiction.
      + unfold step_top. decide_R. unfold set_target. decide_R. red; simpl. auto.
      + red. unfold step_attempt. simpl. split; [assumption|]. split; [assumption|lra].
      + red. unfold step_after, update_dt. rewrite Hs. destruct (Rlt_dec 0 0); [lra|]. simpl.
        decide_R. split; [reflexivity|]. split; lra. }
  destruct H as (_ & _ & H). destruct Hf as [E|[E|E]]; rewrite E in H; exact H.
Qed.

Definition cfg_chk0 : config :=
  {| dt_max := 10; dt_growth := 2; dt_reduction := 1/2; out_interval := 0; chk_enabled := true; chk_interval := 0;
     has_presolve := true; has_timecut := true |}.

Lemma chk0_crashes : exists s' : state,
  run_to_time acc0 cfg_chk0 always 1 (ti_create 1 7%nat 0) s' /\ pc s' = Crashed.
Proof.
  assert (H : exists s1 : state, steps acc0 cfg_chk0 always 1 3 (enter (ti_create 1 7%nat 0)) = s1 /\ pc s1 = Crashed).
  2:{ destruct H as (s1 & E1 & P1). exists s1. split; [|assumption]. exists 3%nat. split; [now symmetry|right; now right]. }
  do 3 one_step. eexists. split; reflexivity.
Qed.

(** The retry takes a quarter although the configured factor is a half. *)
Lemma witness_reduction : exists s' : state,
  run_to_time acc0 cfg0 fail_first (1/2) (ti_create 1 7%nat 0) s' /\ dt_reduction cfg0 = 1/2 /\
  attempts (log s') = [(0, 1/8, true); (0, 1/2, false)].
Proof.
  assert (H : exists s1 : state, steps acc0 cfg0 fail_first (1/2) 5 (enter (ti_create 1 7%nat 0)) = s1 /\ pc s1 = Finished /\
     attempts (log s1) = [(0, 1/8, true); (0, 1/2, false)]).
  2:{ destruct H as (s1 & E1 & P1 & H). exists s1. split; [exists 5%nat; split; [now symmetry|now left]|]. split; [reflexivity|exact H]. }
  do 5 one_step. eexists. split; [reflexivity|]. split; [reflexivity|]. cbn_R.
  replace ((1 / 2 - 0) * 0.25) with (1 / 8) by lra. replace (1 / 2 - 0) with (1 / 2) by lra. reflexivity.
Qed.

Lemma ts_first sync : 0 <= sync -> ts_run sync (0, 0) = (sync, sync).
Proof. intros H. unfold ts_run. destruct (Rlt_dec 0 (sync - 0)); f_equal; lra. Qed.

Lemma ts_second : snd (ts_run 5 (ts_run 3 (0, 0))) <> 5.
Proof. rewrite ts_first by lra. unfold ts_run. destruct (Rlt_dec 3 (5 - 3)); simpl; lra. Qed.
