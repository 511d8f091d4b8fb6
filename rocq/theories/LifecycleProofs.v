(** Proofs about the life cycle. *)
From Coq Require Import String Bool List Lia.
From Verif Require Import Lifecycle SpecLifecycle.
Import ListNotations.
Local Open Scope string_scope.

Lemma refused s c : ~ allowed s c -> exec s c = Err s.
Proof.
  destruct c as [m|d|f|o| |b]; simpl; intros H.
  - tauto.
  - unfold set_discretization. destruct (mode_set s); [tauto|reflexivity].
  - unfold set_dm_constructor. destruct (disc_set s); [|reflexivity]. destruct (options_set s); [reflexivity|tauto].
  - unfold set_from_options. destruct (setup_finished s); [reflexivity|tauto].
  - unfold setup. destruct (disc_set s); [|reflexivity]. destruct (options_set s); [tauto|reflexivity].
  - unfold query. destruct (setup_finished s); [tauto|reflexivity].
Qed.

Lemma set_disc_err s d s' : set_discretization s d = Err s' -> s' = s.
Proof.
  unfold set_discretization. destruct (mode_set s); simpl; [|now intros [= <-]].
  destruct (assign_ops (s_mode s) d (s_ops s)); [discriminate|now intros [= <-]].
Qed.

Lemma err_unchanged s c s' :
  exec s c = Err s' ->
  match c with
  | CSetDisc _ | CSetDM _ | CQuery _ => True
  | CSetMode _ => disc_set s = false
  | CSetFromOptions o => c_init_file o = false
  | CSetup => s_output_mesh s = false
  end -> s' = s.
Proof.
  destruct c as [m|d|f|o| |b]; simpl; intros H G.
  - unfold set_mode in H. simpl in H. rewrite G in H. discriminate.
  - now apply set_disc_err in H.
  - unfold set_dm_constructor in H. destruct (disc_set s), (options_set s); simpl in H; congruence.
  - unfold set_from_options in H. destruct (setup_finished s); [congruence|]. cbv zeta in H.
    set (s3 := set_init _ _ _ _) in H.
    assert (E : s_init_file s3 = false) by exact G. clearbody s3. rewrite E in H. cbn [andb] in H.
    destruct (o_create (s_ops s3)); [|discriminate]. destruct (c_pflotran_mesh o), (o_get_num_dm_fields (s_ops s3)); discriminate.
  - unfold setup in H. destruct (disc_set s); simpl in H; [|congruence]. destruct (options_set s); simpl in H; [|congruence].
    destruct (o_setup (s_ops s)) as [f|]; [|discriminate]. destruct (context_fits f (s_context s)); simpl in H; [|discriminate].
    rewrite G in H. discriminate.
  - unfold query in H. destruct (setup_finished s); simpl in H; [|congruence]. destruct b; [|discriminate].
    destruct (o_update_diagnostics (s_ops s)); [|congruence]. destruct (s_diag s); discriminate.
Qed.

(** ** Active operations. *)
Lemma assign_supported m d o : supported m d <-> exists o', assign_ops m d o = Some o' /\ ops_belong m d o'.
Proof.
  split.
  - intros [->| ->].
    + destruct d; eexists; (split; [reflexivity|]); repeat split.
    + destruct m; eexists; (split; [reflexivity|]); repeat split.
  - intros (o' & H & _). destruct m; [now left| |]; destruct d; try discriminate; now right.
Qed.

Lemma unsupported_refused s d : ~ supported (s_mode s) d -> set_discretization s d = Err s.
Proof.
  intros H. unfold set_discretization. destruct (mode_set s); [|reflexivity]. simpl.
  destruct (assign_ops (s_mode s) d (s_ops s)) as [o|] eqn:E; [|reflexivity].
  exfalso. apply H. destruct (s_mode s); [now left| |]; destruct d; try discriminate; now right.
Qed.

Definition active (s : sim) : Prop :=
  disc_set s = true -> mode_set s = true /\ supported (s_mode s) (s_disc s) /\ ops_belong (s_mode s) (s_disc s) (s_ops s).

Lemma set_disc_active s d s' : set_discretization s d = Ok s' -> active s'.
Proof.
  unfold set_discretization. destruct (mode_set s) eqn:Em; [|discriminate]. simpl.
  destruct (assign_ops (s_mode s) d (s_ops s)) as [o|] eqn:E; [|discriminate]. intros [= <-]. intros _. simpl.
  assert (Hsup : supported (s_mode s) d).
  { destruct (s_mode s); [now left| |]; destruct d; try discriminate; now right. }
  split; [assumption|]. split; [assumption|].
  destruct (proj1 (assign_supported (s_mode s) d (s_ops s)) Hsup) as (o' & E' & H). congruence.
Qed.

Definition no_override (c : call) : Prop :=
  match c with CSetFromOptions o => c_mode o = None /\ c_disc o = None | _ => True end.

Lemma mode_eqb_refl m : mode_eqb m m = true. Proof. destruct m; reflexivity. Qed.
Lemma disc_eqb_refl m : disc_eqb m m = true. Proof. destruct m; reflexivity. Qed.

Lemma active_step s c s' : no_override c -> active s -> exec s c = Ok s' -> active s'.
Proof.
  destruct c as [m|d|f|o| |b]; simpl; intros Hn Ha H.
  - unfold set_mode in H. cbn [disc_set s_disc] in H. destruct (disc_set s) eqn:Ed.
    + eapply set_disc_active; eassumption.
    + injection H as <-. intros Hd. simpl in Hd. congruence.
  - eapply set_disc_active; eassumption.
  - unfold set_dm_constructor in H. destruct (disc_set s) eqn:Ed, (options_set s); simpl in H; try discriminate.
    injection H as <-. intros Hd. exact (Ha Ed).
  - unfold set_from_options in H. destruct Hn as [Hm Hdisc]. destruct (setup_finished s); [discriminate|].
    rewrite Hm, Hdisc in H. simpl value in H. rewrite mode_eqb_refl in H. rewrite disc_eqb_refl in H. cbv zeta in H.
    destruct (s_init_file _ && s_random _)%bool; [discriminate|]. simpl in H.
    destruct (o_create (s_ops s)) as [f|]; [|discriminate].
    destruct (c_pflotran_mesh o); [destruct (o_get_num_dm_fields (s_ops s)); [|discriminate]|]; injection H as <-; exact Ha.
  - unfold setup in H. destruct (disc_set s) eqn:Ed; [|discriminate]. simpl in H. destruct (options_set s); [|discriminate]. simpl in H.
    destruct (o_setup (s_ops s)) as [f|]; [|discriminate]. destruct (context_fits f (s_context s)); [|discriminate]. simpl in H.
    destruct (s_output_mesh s && negb (disc_eqb (s_disc s) MPFA_O))%bool; [discriminate|]. injection H as <-. intros _. exact (Ha Ed).
  - unfold query in H. destruct (setup_finished s); [|discriminate]. simpl in H. destruct b; [|now injection H as <-].
    destruct (o_update_diagnostics (s_ops s)); [|discriminate]. destruct (s_diag s); [now injection H as <-|discriminate].
Qed.

Lemma active_run l : forall s s', Forall no_override l -> active s -> run_strict s l = Ok s' -> active s'.
Proof.
  induction l as [|c l IH]; simpl; intros s s' Hf Ha H; [now injection H as <-|].
  inversion Hf as [|? ? Hc Hl]; subst. destruct (exec s c) as [s1|s1|] eqn:E; try discriminate.
  apply (IH s1 s' Hl); [|exact H]. eapply active_step; eassumption.
Qed.

(** ** Programs that select before reading the options never reach undefined behaviour. *)
Definition disciplined (s : sim) (c : call) : Prop :=
  match c with
  | CSetMode _ | CSetDisc _ => options_set s = false
  | CSetFromOptions o => disc_set s = true /\ c_pflotran_mesh o = false
  | _ => True
  end.

(** The operation pointers belong to one implementation. *)
Definition coherent (o : ops) : Prop :=
  exists c f g, o_create o = Some c /\ o_setup o = Some f /\ o_destroy o = Some g /\ context_of f = c /\ context_of g = c.

Definition safe (s : sim) : Prop :=
  (disc_set s = true -> coherent (s_ops s)) /\
  (disc_set s = false -> s_ops s = no_ops) /\
  (options_set s = true -> disc_set s = true /\ s_context s = o_create (s_ops s)) /\
  (setup_finished s = true -> options_set s = true /\
      match o_update_diagnostics (s_ops s) with Some _ => s_diag s = true | None => True end).

Lemma assign_coherent m d o o' : assign_ops m d o = Some o' -> coherent o'.
Proof.
  destruct m, d; simpl; intros H; try discriminate; injection H as <-; eexists _, _, _; repeat split.
Qed.

Lemma set_disc_safe s d : options_set s = false -> safe s ->
  exists s', (set_discretization s d = Ok s' \/ set_discretization s d = Err s') /\ safe s' /\ options_set s' = false /\
             setup_finished s' = setup_finished s.
Proof.
  intros Ho (S1 & S2 & S3 & S4). unfold set_discretization. destruct (mode_set s); simpl.
  2:{ exists s. split; [now right|]. split; [repeat split; tauto|]. auto. }
  destruct (assign_ops (s_mode s) d (s_ops s)) as [o|] eqn:E.
  - eexists. split; [now left|]. split; [|auto]. split; [|split; [|split]]; simpl.
    + intros _. eapply assign_coherent; eassumption.
    + discriminate.
    + rewrite Ho. discriminate.
    + intros Hs. apply S4 in Hs. destruct Hs as [Hs _]. congruence.
  - exists s. split; [now right|]. split; [repeat split; tauto|]. auto.
Qed.

Lemma set_mode_safe s m : options_set s = false -> safe s ->
  exists s', (set_mode s m = Ok s' \/ set_mode s m = Err s') /\ safe s' /\ options_set s' = false.
Proof.
  intros Ho (S1 & S2 & S3 & S4). unfold set_mode. cbn [disc_set s_disc].
  set (s1 := Build_sim _ _ _ _ _ _ _ _ _ _ _ _ _ _).
  assert (Hs1 : safe s1) by (split; [|split; [|split]]; simpl; assumption).
  destruct (disc_set s) eqn:Ed.
  - destruct (set_disc_safe s1 (s_disc s) Ho Hs1) as (s' & A & B & C & _). exists s'. auto.
  - exists s1. split; [now left|]. split; [assumption|exact Ho].
Qed.

Lemma mode_ignore_ops s m : disc_set s = true -> (disc_set s = true -> coherent (s_ops s)) ->
  disc_set (ignore s (set_mode s m)) = true /\ coherent (s_ops (ignore s (set_mode s m))) /\
  setup_finished (ignore s (set_mode s m)) = setup_finished s.
Proof.
  intros Hd Hc. unfold set_mode. cbn [disc_set s_disc]. rewrite Hd. unfold set_discretization. cbn [mode_set negb s_mode s_ops].
  destruct (assign_ops m (s_disc s) (s_ops s)) as [o|] eqn:E; simpl.
  - split; [reflexivity|]. split; [eapply assign_coherent; eassumption|reflexivity].
  - split; [first [assumption|reflexivity]|]. split; [now apply Hc|reflexivity].
Qed.

Lemma disc_ignore_ops s d : disc_set s = true -> coherent (s_ops s) ->
  disc_set (ignore s (set_discretization s d)) = true /\ coherent (s_ops (ignore s (set_discretization s d))) /\
  setup_finished (ignore s (set_discretization s d)) = setup_finished s.
Proof.
  intros Hd Hc. unfold set_discretization. destruct (mode_set s); simpl; [|auto].
  destruct (assign_ops (s_mode s) d (s_ops s)) as [o|] eqn:E; simpl; [|auto].
  split; [reflexivity|]. split; [eapply assign_coherent; eassumption|reflexivity].
Qed.

(** After an error of TDySetFromOptions the context may not fit the operations any
    more, so a strict program stops there. *)
Lemma safe_step s c : disciplined s c -> safe s ->
  match exec s c with Ok s' => safe s' | Err _ => True | Crash => False end.
Proof.
  intros Hd Hs. destruct c as [m|d|f|o| |b]; simpl in *.
  - destruct (set_mode_safe s m Hd Hs) as (s' & [E|E] & H & _); rewrite E; auto.
  - destruct (set_disc_safe s d Hd Hs) as (s' & [E|E] & H & _); rewrite E; auto.
  - unfold set_dm_constructor. destruct (disc_set s) eqn:Ed; simpl; [|auto]. destruct (options_set s) eqn:Eo; [auto|].
    destruct Hs as (S1 & S2 & S3 & S4). rewrite Ed, Eo in *. split; [|split; [|split]]; simpl; auto; try congruence.
  - unfold set_from_options. destruct (setup_finished s) eqn:Esf; [auto|]. destruct Hd as [Hd Hp]. cbv zeta.
    destruct Hs as (S1 & S2 & S3 & S4).
    set (s1 := if mode_eqb (s_mode s) (value (c_mode o) (s_mode s)) then s else ignore s (set_mode s (value (c_mode o) (s_mode s)))).
    assert (H1 : disc_set s1 = true /\ coherent (s_ops s1) /\ setup_finished s1 = false).
    { unfold s1. destruct (mode_eqb _ _); [auto|].
      destruct (mode_ignore_ops s (value (c_mode o) (s_mode s)) Hd S1) as (A & B & C). rewrite C. auto. }
    clearbody s1. destruct H1 as (A1 & B1 & C1).
    set (s2 := if disc_eqb (s_disc s1) (value (c_disc o) (s_disc s)) then s1 else ignore s1 (set_discretization s1 (value (c_disc o) (s_disc s)))).
    assert (H2 : disc_set s2 = true /\ coherent (s_ops s2) /\ setup_finished s2 = false).
    { unfold s2. destruct (disc_eqb _ _); [auto|].
      destruct (disc_ignore_ops s1 (value (c_disc o) (s_disc s)) A1 B1) as (A & B & C). rewrite C. auto. }
    clearbody s2. destruct H2 as (A2 & B2 & C2). simpl.
    destruct (c_init_file o && value (c_random o) (s_random s2))%bool; [auto|].
    pose proof B2 as (c & f & g & E1 & E2 & E3 & E4 & E5). rewrite E1, Hp.
    split; [|split; [|split]]; simpl; auto; try congruence.
  - unfold setup. destruct (disc_set s) eqn:Ed; simpl; [|auto]. destruct (options_set s) eqn:Eo; simpl; [|auto].
    destruct Hs as (S1 & S2 & S3 & S4). rewrite Ed, Eo in *. destruct (S1 eq_refl) as (c & f & g & E1 & E2 & E3 & E4 & E5).
    destruct (S3 eq_refl) as [_ Hctx]. rewrite E2. unfold context_fits. rewrite Hctx, E1, E4, String.eqb_refl. simpl.
    destruct (s_output_mesh s && negb (disc_eqb (s_disc s) MPFA_O))%bool; [auto|].
    split; [|split; [|split]]; simpl; auto; try congruence.
    split; [reflexivity|]. destruct (o_update_diagnostics (s_ops s)); auto.
  - unfold query. destruct (setup_finished s) eqn:Es; simpl; [|auto]. destruct b; [|auto].
    pose proof Hs as (_ & _ & _ & S4). destruct (S4 Es) as [_ Sd].
    destruct (o_update_diagnostics (s_ops s)) eqn:Eu; [|auto]. rewrite Sd. exact Hs.
Qed.

Inductive disciplined_run : sim -> list call -> Prop :=
| dr_nil s : disciplined_run s []
| dr_ok s c s' l : disciplined s c -> exec s c = Ok s' -> disciplined_run s' l -> disciplined_run s (c :: l)
| dr_stop s c l : disciplined s c -> (forall s', exec s c <> Ok s') -> disciplined_run s (c :: l).

Lemma safe_new : safe new_sim.
Proof. split; [|split; [|split]]; simpl; auto; discriminate. Qed.

Lemma safe_run s l : disciplined_run s l -> safe s ->
  run_strict s l <> Crash /\ forall s', run_strict s l = Ok s' -> safe s'.
Proof.
  induction 1 as [s|s c s' l Hd E Hr IH|s c l Hd Hne]; intros Hs; simpl.
  - split; [discriminate|]. now intros s' [= <-].
  - rewrite E. pose proof (safe_step s c Hd Hs) as H. rewrite E in H. now apply IH.
  - pose proof (safe_step s c Hd Hs) as H. destruct (exec s c) as [s'|s'|]; [now elim (Hne s')| |contradiction].
    split; [discriminate|]. discriminate.
Qed.

Lemma no_crash l : disciplined_run new_sim l -> run_strict new_sim l <> Crash.
Proof. intros H. exact (proj1 (safe_run _ _ H safe_new)). Qed.

Lemma destroy_safe l s : disciplined_run new_sim l -> run_strict new_sim l = Ok s ->
  (options_set s = true \/ disc_set s = false) -> destroy s = Some tt.
Proof.
  intros H E Hs. destruct (proj2 (safe_run _ _ H safe_new) s E) as (S1 & S2 & S3 & _).
  unfold destroy. destruct Hs as [Hs|Hs].
  - destruct (S3 Hs) as [Hd Hc]. destruct (S1 Hd) as (c & f & g & E1 & E2 & E3 & E4 & E5).
    rewrite E3. unfold context_fits. now rewrite Hc, E1, E5, String.eqb_refl.
  - now rewrite (S2 Hs).
Qed.

Definition plain : cli :=
  {| c_mode := None; c_disc := None; c_random := None; c_init_file := false; c_output_mesh := None; c_pflotran_mesh := false |}.
