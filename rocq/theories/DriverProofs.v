From Coq Require Import Reals List Bool Arith Lia Lra.
From Verif Require Import Lifecycle Prelude Arrays Driver SpecDriver.
Import ListNotations.
Local Open Scope R_scope.

(** ** The state *)

Lemma every_second_ok : forall first n temp s, length temp = n -> length s = n ->
  exists s', every_second first n temp s = Ok s' /\ length s' = n /\
    forall i, nth_error s' i = if (i <? n)%nat && ((first <=? i)%nat && Nat.even (i - first)) then nth_error temp i else nth_error s i.
Proof.
  intros first n temp s Ht Hs. unfold every_second.
  destruct (for_inv (fun k s' => length s' = n /\
     forall i, nth_error s' i = if (i <? k)%nat && ((first <=? i)%nat && Nat.even (i - first)) then nth_error temp i else nth_error s i)
     (fun i s => if (first <=? i)%nat && Nat.even (i - first) then do x <- rd temp i; wr s i x else Ok s) n s)
    as [s' [E [L H]]].
  - split; [exact Hs|]. intros i. reflexivity.
  - intros k s1 Hk [L H]. destruct ((first <=? k)%nat && Nat.even (k - first)) eqn:B.
    + destruct (rd_ok temp k) as [x [R N]]; [lia|]. rewrite R. cbn [bind]. rewrite wr_ok by lia.
      eexists. split; [reflexivity|]. split; [rewrite length_upd; exact L|]. intros i.
      destruct (Nat.eq_dec k i) as [<-|D].
      * rewrite nth_upd_same by lia. replace (k <? S k)%nat with true by (symmetry; apply Nat.ltb_lt; lia). rewrite B. cbn. congruence.
      * rewrite nth_upd_other by exact D. rewrite H.
        destruct (Nat.ltb_spec i k), (Nat.ltb_spec i (S k)); try lia; reflexivity.
    + exists s1. split; [reflexivity|]. split; [exact L|]. intros i. rewrite H.
      destruct (Nat.eq_dec k i) as [<-|D].
      * rewrite B, !andb_false_r. reflexivity.
      * destruct (Nat.ltb_spec i k), (Nat.ltb_spec i (S k)); try lia; reflexivity.
  - exists s'. split; [exact E|]. split; [exact L|exact H].
Qed.

Lemma length_random : forall draw k lo hi n, length (VecSetRandom draw k lo hi n) = n.
Proof. intros. unfold VecSetRandom. rewrite map_length, seq_length. reflexivity. Qed.

Lemma nth_random : forall draw k lo hi n i, (i < n)%nat ->
  nth_error (VecSetRandom draw k lo hi n) i = Some (lo + draw k i * (hi - lo)).
Proof.
  intros draw k lo hi n i H. unfold VecSetRandom.
  apply (map_nth_error (fun i => lo + draw k i * (hi - lo)) i (seq 0 n)).
  rewrite (nth_error_nth' _ O) by (rewrite seq_length; exact H). rewrite seq_nth by exact H. reflexivity.
Qed.

Lemma two_fields_ok : forall draw lo0 hi0 lo1 hi1 s, exists v,
  two_fields draw lo0 hi0 lo1 hi1 s = Ok v /\ length v = length s /\
  forall i, (i < length s)%nat -> nth_error v i =
    Some (if Nat.even i then lo0 + draw 0%nat i * (hi0 - lo0) else lo1 + draw 1%nat i * (hi1 - lo1)).
Proof.
  intros draw lo0 hi0 lo1 hi1 s. unfold two_fields.
  destruct (every_second_ok 0 (length s) (VecSetRandom draw 0 lo0 hi0 (length s)) s (length_random _ _ _ _ _) eq_refl)
    as [s1 [E1 [L1 H1]]]. rewrite E1. cbn [bind].
  destruct (every_second_ok 1 (length s) (VecSetRandom draw 1 lo1 hi1 (length s)) s1 (length_random _ _ _ _ _) L1)
    as [s2 [E2 [L2 H2]]].
  exists s2. split; [exact E2|]. split; [exact L2|]. intros i Hi. rewrite H2, H1.
  replace (i <? length s)%nat with true by (symmetry; apply Nat.ltb_lt; exact Hi). cbn [andb].
  rewrite !nth_random by exact Hi. rewrite Nat.sub_0_r.
  destruct i as [|i]; [reflexivity|].
  replace (1 <=? S i)%nat with true by reflexivity. replace (0 <=? S i)%nat with true by reflexivity. cbn [andb].
  replace (S i - 1)%nat with i by lia. rewrite Nat.even_succ, <- Nat.negb_even.
  destruct (Nat.even i); reflexivity.
Qed.

Lemma length_VecSet : forall s x, length (VecSet s x) = length s.
Proof. intros. apply map_length. Qed.

Lemma Initialize_length : forall m draw o s s', length (soln_prev s) = length (soln s) -> Initialize m draw o s = Ok s' ->
  length (soln s') = length (soln s) /\ length (soln_prev s') = length (soln s).
Proof.
  intros m draw o s s' L H.
  destruct m; cbn in H; unfold RichardsInitialize, THInitialize, SalinityInitialize in H; destruct (opt_random o).
  - injection H as <-. cbn. rewrite length_random. auto.
  - destruct (init_file o) as [f|].
    + unfold VecLoad in H. destruct f as [v|]; [|discriminate H].
      destruct (length v =? length (soln s))%nat eqn:B; [|discriminate H]. injection H as <-. cbn.
      apply Nat.eqb_eq in B. auto.
    + injection H as <-. cbn. rewrite length_VecSet. auto.
  - destruct (two_fields_ok draw 10000 100000 15 35 (soln s)) as [v [E [Lv _]]]. rewrite E in H. injection H as <-. cbn. auto.
  - injection H as <-. cbn. rewrite length_VecSet. auto.
  - destruct (two_fields_ok draw 10000 100000 (1/10) (8/10) (soln s)) as [v [E [Lv _]]]. rewrite E in H. injection H as <-. cbn. auto.
  - injection H as <-. cbn. rewrite length_VecSet. auto.
Qed.

Lemma Initialize_length0 : forall m draw o n s', Initialize m draw o (State (repeat 0 n) (repeat 0 n)) = Ok s' ->
  length (soln s') = n.
Proof.
  intros m draw o n s' H.
  destruct (Initialize_length m draw o (State (repeat 0 n) (repeat 0 n)) s' eq_refl H) as [L _].
  cbn in L. rewrite repeat_length in L. exact L.
Qed.

(** ** Unfolding of a start *)

Definition after_ic (o : options) (s : state) : state :=
  match ic_file o with Some f => match ReadIC f s with Ok s' => s' | _ => s end | None => s end.
Definition finish (w : method) (s : state) : state := match w with TDySNES => State (soln s) (soln s) | TDyTS => s end.

Lemma start_inv : forall m d w draw o t n p, start m d w draw o t n = Ok p ->
  assign_ops m d no_ops <> None /\
  (opt_random o = true -> init_file o = None) /\ d <> WY /\ unsupported m w = false /\
  match w with TDySNES => SetSNESFunction m d | TDyTS => SetIFunction m d end = Ok (p_residual p) /\
  match w with TDySNES => SetSNESJacobian m d | TDyTS => SetIJacobian m d end = Ok (p_jacobian p) /\
  (exists s, Initialize m draw o (State (repeat 0 n) (repeat 0 n)) = Ok s /\ p_state p = finish w (after_ic o s)) /\
  p_table p = materials m (porosity_file o) (permeability_file o) t.
Proof.
  intros m d w draw o t n p H. unfold start in H.
  destruct (assign_ops m d no_ops) as [x|] eqn:A; [|discriminate H].
  destruct (opt_random o && match init_file o with Some _ => true | None => false end) eqn:B; [discriminate H|].
  assert (I : InitializeTDy m d w draw o t (State (repeat 0 n) (repeat 0 n)) = Ok p) by exact H. clear H.
  unfold InitializeTDy in I.
  assert (D : d <> WY) by (intros ->; discriminate I).
  assert (I2 : (let t0 := materials m (porosity_file o) (permeability_file o) t in
    if unsupported m w then Err else
    do r <- match w with TDySNES => SetSNESFunction m d | TDyTS => SetIFunction m d end;
    do j <- match w with TDySNES => SetSNESJacobian m d | TDyTS => SetIJacobian m d end;
    do s <- Initialize m draw o (State (repeat 0 n) (repeat 0 n));
    Ok (Prepared r j (finish w (after_ic o s)) t0)) = Ok p).
  { destruct d; try exact I. congruence. }
  clear I. cbn zeta in I2. destruct (unsupported m w); [discriminate I2|].
  set (r := match w with TDySNES => SetSNESFunction m d | TDyTS => SetIFunction m d end) in *.
  set (j := match w with TDySNES => SetSNESJacobian m d | TDyTS => SetIJacobian m d end) in *.
  destruct r as [r'| |]; try discriminate I2. cbn [bind] in I2.
  destruct j as [j'| |]; try discriminate I2. cbn [bind] in I2.
  destruct (Initialize m draw o (State (repeat 0 n) (repeat 0 n))) as [s| |]; try discriminate I2.
  injection I2 as <-. cbn.
  split; [discriminate|]. split.
  { intros R. rewrite R in B. destruct (init_file o); [discriminate B|reflexivity]. }
  split; [exact D|]. split; [reflexivity|]. split; [reflexivity|]. split; [reflexivity|].
  split; [exists s; auto|reflexivity].
Qed.

Lemma Initialize_ok : forall m draw o s,
  (forall f, m = RICHARDS -> opt_random o = false -> init_file o = Some f -> exists v, f = Some v /\ length v = length (soln s)) ->
  exists s', Initialize m draw o s = Ok s'.
Proof.
  intros m draw o s H. destruct m; cbn; unfold RichardsInitialize, THInitialize, SalinityInitialize; destruct (opt_random o).
  - eauto.
  - destruct (init_file o) as [f|]; [|eauto].
    destruct (H f eq_refl eq_refl eq_refl) as [v [-> L]]. cbn. apply Nat.eqb_eq in L. rewrite L. cbn. eauto.
  - destruct (two_fields_ok draw 10000 100000 15 35 (soln s)) as [v [E _]]. rewrite E. cbn. eauto.
  - eauto.
  - destruct (two_fields_ok draw 10000 100000 (1/10) (8/10) (soln s)) as [v [E _]]. rewrite E. cbn. eauto.
  - eauto.
Qed.

Lemma combinations : forall m d w draw o t n,
  (opt_random o = true -> init_file o = None) ->
  (forall f, init_file o = Some f -> exists v, f = Some v /\ length v = n) ->
  ((exists p, start m d w draw o t n = Ok p) <-> In (m, d, w) supported) /\
  (~ In (m, d, w) supported -> start m d w draw o t n = Err).
Proof.
  intros m d w draw o t n X F.
  assert (B : opt_random o && match init_file o with Some _ => true | None => false end = false).
  { destruct (opt_random o); [rewrite X by reflexivity|]; reflexivity. }
  destruct (Initialize_ok m draw o (State (repeat 0 n) (repeat 0 n))) as [s I].
  { intros f _ _ E. cbn. rewrite repeat_length. exact (F f E). }
  unfold start. rewrite B.
  destruct m, d, w; cbn -[Initialize]; rewrite ?I; cbn [bind];
    (split; [split; [intros [p E]; first [discriminate E|tauto]|intros K; first [solve [eauto]|exfalso; repeat destruct K as [K|K]; try discriminate K; exact K]]
            |intros K; first [reflexivity|exfalso; apply K; tauto]]).
Qed.

Lemma both_refused : forall m d w draw o t n f, opt_random o = true -> init_file o = Some f -> start m d w draw o t n = Err.
Proof.
  intros m d w draw o t n f R F. unfold start. rewrite R, F. destruct (assign_ops m d no_ops); reflexivity.
Qed.

Lemma residual_right : forall m d w draw o t n p, start m d w draw o t n = Ok p -> residual_for (p_residual p) = (m, d, w).
Proof.
  intros m d w draw o t n p H. apply start_inv in H. destruct H as (A & _ & D & U & R & _).
  destruct m, d, w; try congruence; try discriminate R; try discriminate U; try (exfalso; apply A; reflexivity);
    injection R as <-; reflexivity.
Qed.

Lemma jacobian_right : forall m d w draw o t n p, start m d w draw o t n = Ok p ->
  (In m [RICHARDS; TH] /\ In d [MPFA_O; FV_TPF]) -> exists j, p_jacobian p = Some j /\ jacobian_for j = (m, d, w).
Proof.
  intros m d w draw o t n p H [Hm Hd]. apply start_inv in H. destruct H as (A & _ & D & U & R & J & _).
  destruct m, d, w; try congruence; try discriminate R; try discriminate U; try discriminate J; try (exfalso; apply A; reflexivity);
    try (exfalso; cbn in Hm, Hd; intuition discriminate); injection J as J; rewrite <- J; eexists; (split; reflexivity).
Qed.

Lemma jacobian_wrong : forall m d w draw o t n p, start m d w draw o t n = Ok p ->
  ~ (In m [RICHARDS; TH] /\ In d [MPFA_O; FV_TPF]) -> forall j, p_jacobian p = Some j -> jacobian_for j <> (m, d, w).
Proof.
  intros m d w draw o t n p H N j E. apply start_inv in H. destruct H as (A & _ & D & U & R & J & _). rewrite E in J.
  destruct m, d, w; try congruence; try discriminate R; try discriminate U; try discriminate J; try (exfalso; apply A; reflexivity);
    try (exfalso; apply N; cbn; tauto); injection J as <-; discriminate.
Qed.

(** ** Initial state *)

Lemma after_none : forall o s, ic_file o = None -> after_ic o s = s.
Proof. intros o s H. unfold after_ic. rewrite H. reflexivity. Qed.

Lemma soln_finish : forall w s, soln (finish w s) = soln s.
Proof. intros []; reflexivity. Qed.

Lemma scaled : forall lo hi u, 0 <= u <= 1 -> lo <= hi -> lo <= lo + u * (hi - lo) <= hi.
Proof. intros lo hi u H L. nra. Qed.

Lemma random_plausible : forall m d w draw o t n p, unit_interval draw -> start m d w draw o t n = Ok p ->
  opt_random o = true -> ic_file o = None -> length (soln (p_state p)) = n /\ plausible_state m (soln (p_state p)).
Proof.
  intros m d w draw o t n p U H R C. apply start_inv in H. destruct H as (_ & _ & _ & _ & _ & _ & (s & I & E) & _).
  rewrite (after_none o s C) in E. rewrite E, soln_finish.
  pose proof (Initialize_length0 m draw o n s I) as L.
  split; [exact L|]. intros i x X. pose proof (nth_lt _ _ _ X) as Hi. rewrite L in Hi.
  destruct m; cbn in I; unfold RichardsInitialize, THInitialize, SalinityInitialize in I; rewrite R in I.
  - injection I as <-. cbn in X. rewrite repeat_length, nth_random in X by exact Hi. injection X as <-. cbn.
    pose proof (scaled 10000 1000000 _ (U O i)). lra.
  - destruct (two_fields_ok draw 10000 100000 15 35 (repeat 0 n)) as [v [Ev [Lv Nv]]]. cbn in I. rewrite Ev in I.
    injection I as <-. cbn in X. rewrite Nv in X by (rewrite repeat_length; exact Hi). injection X as <-. unfold plausible.
    pose proof (scaled 10000 100000 _ (U O i)). pose proof (scaled 15 35 _ (U 1%nat i)). destruct (Nat.even i); lra.
  - destruct (two_fields_ok draw 10000 100000 (1/10) (8/10) (repeat 0 n)) as [v [Ev [Lv Nv]]]. cbn in I. rewrite Ev in I.
    injection I as <-. cbn in X. rewrite Nv in X by (rewrite repeat_length; exact Hi). injection X as <-. unfold plausible.
    pose proof (scaled 10000 100000 _ (U O i)). pose proof (scaled (1/10) (8/10) _ (U 1%nat i)). destruct (Nat.even i); lra.
Qed.

Lemma default_state : forall m d w draw o t n p, start m d w draw o t n = Ok p ->
  opt_random o = false -> ic_file o = None -> (m = RICHARDS -> init_file o = None) ->
  soln (p_state p) = repeat 101325 n.
Proof.
  intros m d w draw o t n p H R C F. apply start_inv in H. destruct H as (_ & _ & _ & _ & _ & _ & (s & I & E) & _).
  rewrite (after_none o s C) in E. rewrite E, soln_finish.
  assert (G : VecSet (repeat 0 n) 101325 = repeat 101325 n).
  { unfold VecSet. clear. induction n; cbn; congruence. }
  destruct m; cbn in I; unfold RichardsInitialize, THInitialize, SalinityInitialize in I; rewrite R in I.
  - rewrite F in I by reflexivity. injection I as <-. exact G.
  - injection I as <-. exact G.
  - injection I as <-. exact G.
Qed.

Lemma from_init_file : forall d w draw o t n p f, start RICHARDS d w draw o t n = Ok p ->
  init_file o = Some f -> ic_file o = None -> exists v, f = Some v /\ p_state p = State v v.
Proof.
  intros d w draw o t n p f H F C. apply start_inv in H. destruct H as (_ & X & _ & _ & _ & _ & (s & I & E) & _).
  rewrite (after_none o s C) in E. cbn in I. unfold RichardsInitialize in I.
  destruct (opt_random o); [rewrite X in F by reflexivity; discriminate F|]. rewrite F in I.
  destruct f as [v|]; [|discriminate I]. unfold VecLoad in I.
  match type of I with context [(?a =? ?b)%nat] => destruct (a =? b)%nat end; [|discriminate I]. injection I as <-.
  exists v. split; [reflexivity|]. rewrite E. destruct w; reflexivity.
Qed.

Lemma from_ic_file : forall m d w draw o t n p v, start m d w draw o t n = Ok p ->
  ic_file o = Some (Some v) -> length v = n -> p_state p = State v v.
Proof.
  intros m d w draw o t n p v H C L. apply start_inv in H. destruct H as (_ & _ & _ & _ & _ & _ & (s & I & E) & _).
  pose proof (Initialize_length0 m draw o n s I) as Ls.
  rewrite E. unfold after_ic. rewrite C. unfold ReadIC, VecLoad.
  replace (length v =? length (soln s))%nat with true by (symmetry; apply Nat.eqb_eq; lia). cbn. destruct w; reflexivity.
Qed.

Lemma ic_ignored : forall m d w draw o t n f,
  (forall v, f = Some v -> length v <> n) ->
  start m d w draw (Options (opt_random o) (init_file o) (Some f) (porosity_file o) (permeability_file o)) t n =
  start m d w draw (Options (opt_random o) (init_file o) None (porosity_file o) (permeability_file o)) t n.
Proof.
  intros m d w draw o t n f N. unfold start. destruct (assign_ops m d no_ops); [|reflexivity]. cbn [opt_random init_file].
  destruct (opt_random o && _); [reflexivity|]. unfold InitializeTDy. cbn [ic_file porosity_file permeability_file].
  assert (Q : forall s, length (soln s) = n -> match ReadIC f s with Ok s' => s' | _ => s end = s).
  { intros s L. unfold ReadIC, VecLoad. destruct f as [v|]; [|reflexivity].
    destruct (length v =? length (soln s))%nat eqn:B; [|reflexivity]. apply Nat.eqb_eq in B. exfalso. apply (N v eq_refl). lia. }
  assert (K : forall r j, (do s <- Initialize m draw (Options (opt_random o) (init_file o) (Some f) (porosity_file o) (permeability_file o)) (State (repeat 0 n) (repeat 0 n));
     Ok (Prepared r j (match w with TDySNES => State (soln (match ReadIC f s with Ok s' => s' | _ => s end)) (soln (match ReadIC f s with Ok s' => s' | _ => s end)) | TDyTS => match ReadIC f s with Ok s' => s' | _ => s end end)
       (materials m (porosity_file o) (permeability_file o) t))) =
     (do s <- Initialize m draw (Options (opt_random o) (init_file o) None (porosity_file o) (permeability_file o)) (State (repeat 0 n) (repeat 0 n));
     Ok (Prepared r j (match w with TDySNES => State (soln s) (soln s) | TDyTS => s end) (materials m (porosity_file o) (permeability_file o) t)))).
  { intros r j.
    replace (Initialize m draw (Options (opt_random o) (init_file o) None (porosity_file o) (permeability_file o)) (State (repeat 0 n) (repeat 0 n)))
      with (Initialize m draw (Options (opt_random o) (init_file o) (Some f) (porosity_file o) (permeability_file o)) (State (repeat 0 n) (repeat 0 n)))
      by (destruct m; reflexivity).
    destruct (Initialize m draw (Options (opt_random o) (init_file o) (Some f) (porosity_file o) (permeability_file o)) (State (repeat 0 n) (repeat 0 n))) as [s| |] eqn:I; try reflexivity.
    cbn [bind]. rewrite (Q s); [reflexivity|].
    exact (Initialize_length0 m draw _ n s I). }
  destruct d; try reflexivity; (destruct (unsupported m w); [reflexivity|]);
    destruct w; cbn [SetSNESFunction SetSNESJacobian SetIFunction SetIJacobian bind]; try reflexivity; destruct m;
    cbn [SetSNESFunction SetSNESJacobian SetIFunction SetIJacobian bind]; try reflexivity; apply K.
Qed.

Lemma previous_snes : forall m d draw o t n p, start m d TDySNES draw o t n = Ok p ->
  soln_prev (p_state p) = soln (p_state p).
Proof.
  intros m d draw o t n p H. apply start_inv in H. destruct H as (_ & _ & _ & _ & _ & _ & (s & I & E) & _).
  rewrite E. reflexivity.
Qed.

Lemma previous_ts : forall m d draw o t n p, start m d TDyTS draw o t n = Ok p ->
  (m = RICHARDS -> init_file o = None) -> ic_file o = None -> soln_prev (p_state p) = repeat 0 n.
Proof.
  intros m d draw o t n p H F C. apply start_inv in H. destruct H as (_ & _ & _ & _ & _ & _ & (s & I & E) & _).
  rewrite (after_none o s C) in E. rewrite E. cbn.
  destruct m; cbn in I; unfold RichardsInitialize, THInitialize, SalinityInitialize in I; destruct (opt_random o).
  - injection I as <-. reflexivity.
  - rewrite F in I by reflexivity. injection I as <-. reflexivity.
  - destruct (two_fields_ok draw 10000 100000 15 35 (repeat 0 n)) as [v [Ev _]]. cbn in I. rewrite Ev in I. injection I as <-. reflexivity.
  - injection I as <-. reflexivity.
  - destruct (two_fields_ok draw 10000 100000 (1/10) (8/10) (repeat 0 n)) as [v [Ev _]]. cbn in I. rewrite Ev in I. injection I as <-. reflexivity.
  - injection I as <-. reflexivity.
Qed.

(** ** Material properties *)

Lemma materials_complete : forall m a b t p, In p (needed m) -> materials m a b t p <> None.
Proof.
  intros m a b t p H. unfold materials, set_unless, has.
  destruct m; cbn in H; repeat destruct H as [<-|H]; try contradiction;
    repeat match goal with |- context [match ?x with Some _ => true | None => false end] => destruct x eqn:?; cbn [set prop_eqb] in * end;
    cbn; congruence.
Qed.

Lemma set_unless_kept : forall t q s p x, t p = Some x -> set_unless t q s p = Some x.
Proof.
  intros t q s p x H. unfold set_unless. destruct (has t q) eqn:B; [exact H|]. unfold set, has in *.
  destruct q, p; cbn; try exact H; rewrite H in B; discriminate B.
Qed.

Lemma materials_kept : forall m a b t p x, t p = Some x -> (m = SALINITY -> p <> SalineMolecularWeight) ->
  materials m a b t p = Some x.
Proof.
  intros m a b t p x H N. unfold materials.
  pose proof (set_unless_kept t Porosity (if a then File else Option_) p x H) as H1.
  pose proof (set_unless_kept _ Permeability (if b then File else Option_) p x H1) as H2.
  pose proof (set_unless_kept _ ResidualSaturation Option_ p x H2) as H3.
  cbn zeta. destruct m; [exact H3|do 3 apply set_unless_kept; exact H3|]. apply set_unless_kept.
  unfold set at 1. destruct p; cbn; try exact H3. exfalso. exact (N eq_refl eq_refl).
Qed.

Lemma materials_filled : forall m a b t p, t p = None ->
  materials m a b t p =
    match p with
    | Porosity => Some (if a then File else Option_)
    | Permeability => Some (if b then File else Option_)
    | ResidualSaturation => Some Option_
    | ThermalConductivity | SoilDensity | SoilSpecificHeat => match m with TH => Some Option_ | _ => None end
    | SalineMolecularWeight | SalineDiffusivity => match m with SALINITY => Some Option_ | _ => None end
    end.
Proof.
  intros m a b t p H. unfold materials, set_unless, has.
  destruct m, p;
    repeat match goal with |- context [match ?x with Some _ => true | None => false end] => destruct x eqn:?; cbn [set prop_eqb] in * end;
    cbn in *; unfold set in *; cbn in *; congruence.
Qed.

Lemma start_materials : forall m d w draw o t n p, start m d w draw o t n = Ok p ->
  (forall q, In q (needed m) -> p_table p q <> None) /\
  (forall q x, t q = Some x -> (m = SALINITY -> q <> SalineMolecularWeight) -> p_table p q = Some x) /\
  (forall q, t q = None -> ~ In q (needed m) -> p_table p q = None) /\
  (t Porosity = None -> p_table p Porosity = Some (if porosity_file o then File else Option_)) /\
  (t Permeability = None -> p_table p Permeability = Some (if permeability_file o then File else Option_)).
Proof.
  intros m d w draw o t n p H. apply start_inv in H. destruct H as (_ & _ & _ & _ & _ & _ & _ & T). rewrite T.
  split; [intros q; apply materials_complete|]. split; [intros q x; apply materials_kept|]. split; [|split; intros Q; apply materials_filled; exact Q].
  intros q Q N. rewrite materials_filled by exact Q. destruct m, q; try reflexivity; exfalso; apply N; cbn; tauto.
Qed.

Lemma weight_lost : forall d w draw o t n p, start SALINITY d w draw o t n = Ok p ->
  p_table p SalineMolecularWeight = Some Option_.
Proof.
  intros d w draw o t n p H. apply start_inv in H. destruct H as (_ & _ & _ & _ & _ & _ & _ & T). rewrite T.
  unfold materials. unfold set_unless at 1. unfold has.
  match goal with |- context [match ?x with Some _ => true | None => false end] => destruct x end; reflexivity.
Qed.
