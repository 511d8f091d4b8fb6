(** Proofs about the process-wide registries. *)
From Coq Require Import String Bool List Arith Lia.
From Verif Require Import Prelude Registry SpecRegistry.
Import ListNotations.

Section Tables.
Context {K V : Type} (eqb : K -> K -> bool).
Hypothesis eqb_spec : forall a b, eqb a b = true <-> a = b.

Lemma find_put (l : list (K * V)) k v k' : find eqb (put eqb l k v) k' = if eqb k k' then Some v else find eqb l k'.
Proof using eqb_spec.
  induction l as [|[k1 v1] l IH]; simpl; [reflexivity|].
  destruct (eqb k1 k) eqn:E; simpl.
  - apply eqb_spec in E. subst. destruct (eqb k k'); reflexivity.
  - destruct (eqb k1 k') eqn:E'; [|exact IH].
    destruct (eqb k k') eqn:E2; [|reflexivity].
    apply eqb_spec in E', E2. subst. rewrite (proj2 (eqb_spec k' k') eq_refl) in E. discriminate.
Qed.

Lemma find_in (l : list (K * V)) k : find eqb l k <> None <-> In k (map fst l).
Proof using eqb_spec.
  induction l as [|[k1 v1] l IH]; simpl; [tauto|].
  destruct (eqb k1 k) eqn:E.
  - apply eqb_spec in E. split; [auto|discriminate].
  - rewrite IH. split; [auto|]. intros [H|H]; [|auto]. apply eqb_spec in H. congruence.
Qed.

Lemma put_new (l : list (K * V)) k v : find eqb l k = None -> put eqb l k v = l ++ [(k, v)].
Proof using.
  induction l as [|[k1 v1] l IH]; simpl; [reflexivity|].
  destruct (eqb k1 k) eqn:E; [discriminate|]. intros H. now rewrite IH.
Qed.
End Tables.

Lemma store_ok {A} (l : list A) i x : i < length l ->
  exists l', store l i x = Some l' /\ length l' = length l /\ firstn (S i) l' = firstn i l ++ [x].
Proof.
  revert i; induction l as [|y l IH]; intros [|i] H; simpl in *; try lia.
  - eexists; repeat split.
  - destruct (IH i) as (l' & E & L & F); [lia|]. rewrite E. eexists. split; [reflexivity|]. simpl. split; [lia|].
    change (firstn (S i) l') with (firstn (S i) l') in F. simpl in F. now rewrite F.
Qed.

(** ** The array of shutdown functions. *)
Definition sd_inv (regs : list shutdown_fn) (p : proc) : Prop :=
  sd_num p = length regs /\
  match sd_funcs p with
  | Null => regs = []
  | Live a => length a = sd_cap p /\ sd_num p <= sd_cap p /\ 0 < sd_cap p /\ firstn (sd_num p) a = map Some regs
  | Freed => False
  end.

Lemma on_finalize_ok regs p f : sd_inv regs p ->
  exists a n c, on_finalize p f = Ok (with_sd p (Live a) n c) /\ sd_inv (regs ++ [f]) (with_sd p (Live a) n c).
Proof.
  intros [Hn H]. unfold on_finalize.
  assert (W : forall a c, length a = c -> sd_num p < c -> firstn (sd_num p) a = map Some regs ->
    exists a' n' c', match store a (sd_num p) (Some f) with Some a' => Ok (with_sd p (Live a') (S (sd_num p)) c) | None => UB end
      = Ok (with_sd p (Live a') n' c') /\ sd_inv (regs ++ [f]) (with_sd p (Live a') n' c')).
  { intros a c Hl Hlt Hf. destruct (store_ok a (sd_num p) (Some f)) as (a' & E & L & F); [lia|].
    rewrite E. exists a', (S (sd_num p)), c. split; [reflexivity|]. unfold sd_inv.
    cbn [sd_num sd_funcs sd_cap with_sd]. rewrite app_length. split; [simpl; lia|]. split; [lia|]. split; [lia|]. split; [lia|].
    rewrite F, Hf, map_app. reflexivity. }
  destruct (sd_funcs p) as [|a|]; [| |contradiction].
  - subst regs. simpl in Hn. apply (W (repeat None 32) 32); rewrite ?Hn; [reflexivity|lia|reflexivity].
  - destruct H as (L & Hle & Hpos & Hf). destruct (Nat.eqb_spec (sd_num p) (sd_cap p)) as [E|E].
    + apply W.
      * rewrite app_length, firstn_length, repeat_length. lia.
      * lia.
      * rewrite firstn_app, firstn_firstn. replace (Nat.min (sd_num p) (sd_cap p * 2)) with (sd_num p) by lia.
        rewrite Hf. rewrite firstn_length. replace (sd_num p - _) with 0 by lia. simpl. apply app_nil_r.
    + apply W; [assumption|lia|assumption].
Qed.

(** ** Invariant of a cycle. [regs]: functions registered; [i]: initialized;
    [hf]: a function was registered; [lr]: last function per name. *)
Definition timer_ptrs (i : bool) (p : proc) : Prop :=
  if i then (exists t, timers p = Live t) /\ (exists s, stages p = Live s) /\ (exists m, metadata p = Live m)
  else timers p = Null /\ stages p = Null /\ metadata p = Null.

Definition funcs_inv (hf : bool) (lr : string -> option nat) (p : proc) : Prop :=
  if hf then exists m, funcs p = Live m /\ forall n, find String.eqb m n = lr n
  else funcs p = Null /\ forall n, lr n = None.

Record inv (regs : list shutdown_fn) (i hf : bool) (lr : string -> option nat) (p : proc) : Prop := {
  inv_sd : sd_inv regs p;
  inv_init : initialized p = i;
  inv_timers : timer_ptrs i p;
  inv_funcs : funcs_inv hf lr p;
  inv_ran : ran p = []
}.

Definition next_i (i : bool) (c : call) : bool := match c with CInit _ => true | _ => i end.
Definition next_hf (h : bool) (c : call) : bool := match c with CRegister _ _ => true | _ => h end.
Definition next_lr (lr : string -> option nat) (c : call) : string -> option nat :=
  match c with CRegister n f => fun name => if String.eqb n name then Some f else lr name | _ => lr end.
Definition usable (i : bool) (c : call) : Prop := uses_timers c -> i = true.

Lemma add_stage_ok p n s : stages p = Live s ->
  exists p' s', add_stage p n = Ok p' /\ stages p' = Live s' /\
    initialized p' = initialized p /\ timers p' = timers p /\ metadata p' = metadata p /\ funcs p' = funcs p /\
    sd_funcs p' = sd_funcs p /\ sd_num p' = sd_num p /\ sd_cap p' = sd_cap p /\ ran p' = ran p /\ enabled p' = enabled p /\
    events p' = events p /\ footer p' = footer p.
Proof.
  intros H. unfold add_stage. rewrite H. destruct (find String.eqb s n).
  - exists p, s. repeat split; auto.
  - eexists _, _. repeat split.
Qed.

Lemma init_timers_ok regs p : sd_inv regs p -> (timers p = Null /\ stages p = Null /\ metadata p = Null) ->
  exists p', init_timers p = Ok p' /\ sd_inv (regs ++ [ShutDownTimers]) p' /\
    timers p' = Live [] /\ stages p' = Live [("TDycore Setup"%string, nstages p); ("TDycore Stepping"%string, S (nstages p)); ("TDycore I/O"%string, S (S (nstages p)))] /\
    metadata p' = Live [] /\ funcs p' = funcs p /\ ran p' = ran p /\ enabled p' = enabled p /\
    events p' = events p /\ nstages p' = S (S (S (nstages p))) /\ footer p' = footer p.
Proof.
  intros Hs (Ht & Hst & Hm). unfold init_timers. rewrite Ht, Hst, Hm.
  match goal with |- exists p', match add_stage ?p1 ?n with _ => _ end = _ /\ _ => set (q1 := p1) end.
  simpl add_stage at 1. cbv iota beta. unfold add_stage; simpl.
  match goal with |- context [on_finalize ?p4 _] => set (q4 := p4) end.
  assert (H4 : sd_inv regs q4) by exact Hs.
  destruct (on_finalize_ok regs q4 ShutDownTimers H4) as (a & n & c & E & I). rewrite E. eexists. split; [reflexivity|].
  split; [exact I|]. repeat split.
Qed.

Lemma step_inv regs i hf lr p c : inv regs i hf lr p -> c <> CFinalize -> usable i c ->
  exists p' a, exec p c = Ok (p', a) /\
    inv (regs ++ registered i hf [c]) (next_i i c) (next_hf hf c) (next_lr lr c) p'.
Proof.
  intros [Hs Hi Ht Hf Hr] Hc Hu. destruct c as [b|k|n f|n|n|n|n|t m|]; simpl; try congruence.
  - (* init *)
    unfold init. rewrite Hi. destruct i.
    + exists p, Done. split; [reflexivity|]. rewrite app_nil_r. constructor; auto.
    + destruct (init_timers_ok regs p Hs Ht) as (p' & E & S & T1 & T2 & T3 & F & R & _). rewrite E.
      eexists _, _. split; [reflexivity|]. constructor; simpl; auto.
      * split; [|split]; simpl; eauto.
      * red. destruct hf; simpl; rewrite F; exact Hf.
      * now rewrite R.
  - destruct (on_finalize_ok regs p (User k) Hs) as (a & n & c & E & I). rewrite E. eexists _, _. split; [reflexivity|].
    constructor; auto.
  - unfold register_function. destruct hf.
    + destruct Hf as (m & Hm & Hl). rewrite Hm. eexists _, _. split; [reflexivity|]. rewrite app_nil_r. constructor; auto.
      simpl. eexists. split; [reflexivity|]. intros name. rewrite find_put by apply String.eqb_eq. now rewrite Hl.
    + destruct Hf as [Hf Hl]. rewrite Hf. destruct (on_finalize_ok regs (with_funcs p (Live [])) DestroyFunctionRegistry Hs) as (a & k & c & E & I).
      rewrite E. eexists _, _. split; [reflexivity|]. constructor; auto. simpl. eexists. split; [reflexivity|].
      intros name. simpl. destruct (String.eqb n name); auto.
  - unfold get_function. assert (H : exists x, match funcs p with Null => Ok None | Live m => Ok (find String.eqb m n) | Freed => UB end = Ok x).
    { destruct hf; [destruct Hf as (m & -> & _)|destruct Hf as [-> _]]; eauto. }
    destruct H as [x ->]. exists p, (Function x). split; [reflexivity|]. rewrite app_nil_r. constructor; auto.
  - destruct i; [|discriminate (Hu I)]. destruct Ht as ((t & Ht) & Hst & Hm). unfold get_timer. rewrite Ht.
    rewrite app_nil_r. destruct (find String.eqb t n); eexists _, _; (split; [reflexivity|]); constructor; auto; (split; [|split]); simpl; eauto.
  - destruct i; [|discriminate (Hu I)]. destruct Ht as ((t & Ht) & (s & Hst) & (m & Hm)). rewrite app_nil_r.
    destruct (add_stage_ok p n s Hst) as (p' & s' & E & A1 & A2 & A3 & A4 & A5 & A6 & A7 & A8 & A9 & _). rewrite E.
    exists p', Done. split; [reflexivity|]. constructor.
    + unfold sd_inv in *. now rewrite A6, A7, A8.
    + simpl. congruence.
    + cbn [next_i]. unfold timer_ptrs. rewrite A1, A3, A4. split; [|split]; eauto.
    + cbn [next_hf next_lr]. unfold funcs_inv in *. destruct hf; rewrite A5; exact Hf.
    + congruence.
  - destruct i; [|discriminate (Hu I)]. destruct Ht as ((t & Ht) & (s & Hst) & (m & Hm)). unfold enter_stage. rewrite Hst.
    eexists _, _. split; [reflexivity|]. rewrite app_nil_r. constructor; auto. split; [|split]; eauto.
  - destruct i; [|discriminate (Hu I)]. destruct Ht as ((t' & Ht) & (s & Hst) & (m' & Hm)). unfold set_metadata. rewrite Hm, app_nil_r.
    destruct (enabled p); [destruct (find Nat.eqb m' t)|]; eexists _, _; (split; [reflexivity|]); constructor; auto; (split; [|split]); simpl; eauto.
Qed.

Fixpoint run_i (i : bool) (l : list call) : bool := match l with [] => i | c :: l => run_i (next_i i c) l end.
Fixpoint run_hf (h : bool) (l : list call) : bool := match l with [] => h | c :: l => run_hf (next_hf h c) l end.
Fixpoint run_lr (lr : string -> option nat) (l : list call) : string -> option nat :=
  match l with [] => lr | c :: l => run_lr (next_lr lr c) l end.

Lemma registered_cons i hf c l : registered i hf (c :: l) = registered i hf [c] ++ registered (next_i i c) (next_hf hf c) l.
Proof. destruct c, i, hf; reflexivity. Qed.

Fixpoint usable_run (i : bool) (l : list call) : Prop :=
  match l with [] => True | c :: l => usable i c /\ usable_run (next_i i c) l end.

Lemma run_inv l : forall regs i hf lr p, inv regs i hf lr p -> no_finalize l -> usable_run i l ->
  exists q h, run p l = Ok (q, h) /\ inv (regs ++ registered i hf l) (run_i i l) (run_hf hf l) (run_lr lr l) q.
Proof.
  induction l as [|c l IH]; intros regs i hf lr p Hinv Hno Hu.
  - exists p, []. split; [reflexivity|]. simpl. now rewrite app_nil_r.
  - destruct Hu as [Hc Hl]. destruct (step_inv regs i hf lr p c Hinv) as (p' & a & E & I'); [intros ->; apply Hno; now left|assumption|].
    destruct (IH _ _ _ _ _ I' (fun H => Hno (or_intror H)) Hl) as (q & h & E' & I'').
    exists q, ((c, a) :: h). split; [cbn [run]; now rewrite E, E'|].
    rewrite registered_cons, app_assoc. exact I''.
Qed.

Lemma inv_fresh : inv [] false false (fun _ => None) fresh.
Proof. constructor; repeat split. Qed.

Lemma usable_true l : usable_run true l.
Proof. induction l as [|c l IH]; [exact I|]. split; [intros _; reflexivity|]. destruct c; exact IH. Qed.

Lemma run_lr_last l : forall lr name, run_lr lr l name = last_registered (lr name) l name.
Proof.
  induction l as [|c l IH]; intros lr name; [reflexivity|]. cbn [run_lr]. rewrite IH. destruct c; reflexivity.
Qed.

(** ** Finalization. *)
Fixpoint occurs_once (i hf : bool) (regs : list shutdown_fn) : Prop :=
  (* read from the newest: each internal function at most once, only if allowed *)
  match regs with
  | [] => True
  | User _ :: l => occurs_once i hf l
  | ShutDownTimers :: l => i = true /\ occurs_once false hf l
  | DestroyFunctionRegistry :: l => hf = true /\ occurs_once i false l
  end.

Lemma occurs_app a b i hf : occurs_once i hf (a ++ b) ->
  occurs_once i hf a.
Proof.
  revert i hf; induction a as [|x a IH]; intros i hf; simpl; [tauto|]. destruct x.
  - apply IH.
  - intros [E H]. split; [assumption|now apply IH].
  - intros [E H]. split; [assumption|now apply IH].
Qed.

Definition fin_ready (i hf : bool) (p : proc) : Prop :=
  (i = true -> (exists t, timers p = Live t) /\ (exists s, stages p = Live s) /\
     exists m, metadata p = Live m /\ (enabled p = true -> m <> [])) /\
  (hf = true -> exists m, funcs p = Live m).

Lemma run_shutdown_ok regs : forall a p i hf,
  firstn (length regs) a = map Some regs -> occurs_once i hf (rev regs) -> fin_ready i hf p ->
  exists p', run_shutdown a (length regs) p = Ok p' /\ ran p' = ran p ++ rev regs.
Proof.
  induction regs as [|f regs IH] using rev_ind; intros a p i hf Hf Ho [Ht Hh].
  - exists p. split; [reflexivity|]. simpl. now rewrite app_nil_r.
  - rewrite app_length in *. cbn [length] in *. replace (length regs + 1) with (S (length regs)) in * by lia.
    rewrite rev_app_distr in *. simpl in Ho.
    assert (Hn : nth_error a (length regs) = Some (Some f) /\ firstn (length regs) a = map Some regs).
    { rewrite map_app in Hf. cbn [map] in Hf.
      assert (Hl : length regs < length a).
      { apply (f_equal (@length _)) in Hf. rewrite firstn_length, app_length, map_length in Hf. cbn [length] in Hf. lia. }
      split.
      - rewrite <- (firstn_skipn (S (length regs)) a), Hf. rewrite nth_error_app1 by (rewrite app_length, map_length; simpl; lia).
        rewrite nth_error_app2; rewrite map_length; [|lia]. now rewrite Nat.sub_diag.
      - replace (firstn (length regs) a) with (firstn (length regs) (firstn (S (length regs)) a)) by (rewrite firstn_firstn; f_equal; lia).
        rewrite Hf, firstn_app, map_length, Nat.sub_diag. simpl. rewrite app_nil_r.
        rewrite <- (map_length Some regs) at 1. apply firstn_all. }
    destruct Hn as [Hn Hfirst]. simpl run_shutdown. rewrite Hn.
    destruct f as [k| |].
    + simpl. match goal with |- context [run_shutdown a (length regs) ?x] => destruct (IH a x i hf Hfirst Ho) as (p' & E & R) end; [split; assumption|]. exists p'; split; [exact E|].
      rewrite R. simpl. now rewrite <- app_assoc.
    + destruct Ho as [-> Ho]. destruct (Hh eq_refl) as (m & Hm). simpl. rewrite Hm. simpl.
      match goal with |- context [run_shutdown a (length regs) ?x] => destruct (IH a x i false Hfirst Ho) as (p' & E & R) end; [|exists p'; split; [exact E|]].
      * split; [exact Ht|discriminate].
      * rewrite R. simpl. now rewrite <- app_assoc.
    + destruct Ho as [-> Ho]. destruct (Ht eq_refl) as ((t & E1) & (s & E2) & (m & E3 & E4)). simpl.
      unfold shut_down_timers. simpl. rewrite E1, E2, E3. simpl.
      destruct (enabled p) eqn:Ee.
      * destruct m as [|[x md] m]; [now elim (E4 eq_refl)|].
        match goal with |- context [run_shutdown a (length regs) ?x] => destruct (IH a x false hf Hfirst Ho) as (p' & E & R) end; [|exists p'; split; [exact E|]].
        -- split; [discriminate|exact Hh].
        -- rewrite R. simpl. now rewrite <- app_assoc.
      * match goal with |- context [run_shutdown a (length regs) ?x] => destruct (IH a x false hf Hfirst Ho) as (p' & E & R) end; [|exists p'; split; [exact E|]].
        -- split; [discriminate|exact Hh].
        -- rewrite R. simpl. now rewrite <- app_assoc.
Qed.

(** The registrations of a cycle contain the internal functions at most once. *)
Fixpoint has_T (l : list shutdown_fn) : nat := match l with [] => 0 | ShutDownTimers :: l => S (has_T l) | _ :: l => has_T l end.
Fixpoint has_D (l : list shutdown_fn) : nat := match l with [] => 0 | DestroyFunctionRegistry :: l => S (has_D l) | _ :: l => has_D l end.
Lemma has_T_app a b : has_T (a ++ b) = has_T a + has_T b.
Proof. induction a as [|[] a IH]; simpl; lia. Qed.
Lemma has_D_app a b : has_D (a ++ b) = has_D a + has_D b.
Proof. induction a as [|[] a IH]; simpl; lia. Qed.
Lemma has_T_rev a : has_T (rev a) = has_T a.
Proof. induction a as [|[] a IH]; simpl; rewrite ?has_T_app; simpl; lia. Qed.
Lemma has_D_rev a : has_D (rev a) = has_D a.
Proof. induction a as [|[] a IH]; simpl; rewrite ?has_D_app; simpl; lia. Qed.

Lemma registered_counts l : forall i hf,
  has_T (registered i hf l) <= (if i then 0 else if run_i i l then 1 else 0) /\
  has_D (registered i hf l) <= (if hf then 0 else if run_hf hf l then 1 else 0).
Proof.
  assert (R : forall l, run_i true l = true) by (intros l0; induction l0 as [|[] l0 IH]; simpl; auto).
  assert (R' : forall l, run_hf true l = true) by (intros l0; induction l0 as [|[] l0 IH]; simpl; auto).
  induction l as [|c l IH]; intros i hf; [destruct i, hf; simpl; lia|].
  destruct c; simpl; try apply IH.
  - destruct i; [apply IH|]. simpl. specialize (IH true hf). simpl in IH. rewrite R in *. lia.
  - destruct hf; [apply IH|]. simpl. specialize (IH i true). simpl in IH. rewrite R' in *. lia.
Qed.

Lemma counts_once l : forall i hf : bool, has_T l <= (if i then 1 else 0) -> has_D l <= (if hf then 1 else 0) -> occurs_once i hf l.
Proof.
  induction l as [|f l IH]; intros i hf; simpl; [auto|]. destruct f; simpl.
  - apply IH.
  - intros H1 H2. destruct hf; [|lia]. split; [reflexivity|]. apply IH; lia.
  - intros H1 H2. destruct i; [|lia]. split; [reflexivity|]. apply IH; lia.
Qed.

(** ** Frame: what a call leaves alone. *)
Ltac crush_exec E :=
  repeat match type of E with
  | context [match ?x with _ => _ end] =>
      lazymatch x with
      | context [match _ with _ => _ end] => fail
      | _ => let Q := fresh "Q" in destruct x eqn:Q; try discriminate
      end
  end.

Lemma on_finalize_shape p f p' : on_finalize p f = Ok p' -> exists a n c, p' = with_sd p a n c.
Proof.
  unfold on_finalize. intros E. crush_exec E; injection E as <-; eauto.
Qed.
Lemma add_stage_shape p n p' : add_stage p n = Ok p' ->
  enabled p' = enabled p /\ metadata p' = metadata p /\ footer p' = footer p /\ timers p' = timers p /\ events p' = events p /\
  initialized p' = initialized p /\ sd_funcs p' = sd_funcs p /\ funcs p' = funcs p.
Proof. unfold add_stage. intros E. crush_exec E; injection E as <-; repeat split. Qed.

Lemma init_timers_shape p p' : init_timers p = Ok p' ->
  enabled p' = enabled p /\ metadata p' = or_new (metadata p) /\ footer p' = footer p /\ timers p' = or_new (timers p) /\ events p' = events p.
Proof.
  unfold init_timers. intros E.
  destruct (add_stage _ "TDycore Setup"%string) as [p2| |] eqn:E2; try discriminate.
  destruct (add_stage p2 _) as [p3| |] eqn:E3; try discriminate.
  destruct (add_stage p3 _) as [p4| |] eqn:E4; try discriminate.
  apply add_stage_shape in E2, E3, E4. apply on_finalize_shape in E. destruct E as (a & n & c & ->). simpl.
  destruct E2 as (A1 & A2 & A3 & A4 & A5 & _), E3 as (B1 & B2 & B3 & B4 & B5 & _), E4 as (C1 & C2 & C3 & C4 & C5 & _).
  simpl in *. repeat split; congruence.
Qed.

Definition is_init (c : call) : bool := match c with CInit _ => true | _ => false end.
Lemma exec_frame p c p' a : exec p c = Ok (p', a) -> c <> CFinalize ->
  (enabled p = true -> enabled p' = true) /\
  (enabled p' = true -> enabled p = true \/ c = CInit true) /\
  footer p' = footer p /\
  (timers p' = (if is_init c then or_new (timers p) else timers p) \/ timers p' = timers p \/ exists n, c = CTimer n) /\
  (forall m, metadata p = Live m -> match c with
     | CMetadata t md => metadata p' = Live (if enabled p then match find Nat.eqb m t with Some _ => m | None => put Nat.eqb m t md end else m)
     | _ => metadata p' = Live m end).
Proof.
  intros E Hc. destruct c as [b|k|n f|n|n|n|n|t m|]; simpl in E; try congruence.
  - unfold init in E. destruct (initialized p); [injection E as <- <-; repeat split; auto|].
    destruct (init_timers p) as [p1| |] eqn:E1; try discriminate. injection E as <- <-. apply init_timers_shape in E1.
    destruct E1 as (A1 & A2 & A3 & A4 & A5). simpl. rewrite A1. split; [intros ->; reflexivity|]. split; [|split; [auto|split]].
    + intros H. apply orb_true_iff in H. destruct H as [H| ->]; auto.
    + left. assumption.
    + intros m Hm. rewrite A2, Hm. reflexivity.
  - destruct (on_finalize p (User k)) eqn:E1; try discriminate. apply on_finalize_shape in E1. destruct E1 as (x & n & c & ->).
    injection E as <- <-. simpl. repeat split; auto.
  - unfold register_function in E. destruct (funcs p) eqn:Ef; try discriminate.
    + destruct (on_finalize _ _) eqn:E1; try discriminate. apply on_finalize_shape in E1. destruct E1 as (x & y & c & ->).
      injection E as <- <-. simpl. repeat split; auto.
    + injection E as <- <-. simpl. repeat split; auto.
  - destruct (get_function p n); try discriminate. injection E as <- <-. simpl. repeat split; auto.
  - unfold get_timer in E. destruct (timers p) as [|t|] eqn:Et; try discriminate. destruct (find _ _ _); injection E as <- <-; simpl; repeat split; eauto.
  - destruct (add_stage p n) as [p1| |] eqn:E1; try discriminate. injection E as <- <-. apply add_stage_shape in E1.
    destruct E1 as (A1 & A2 & A3 & A4 & A5 & _). rewrite A1, A2, A3, A4. repeat split; auto.
  - destruct (enter_stage p n); try discriminate. injection E as <- <-. simpl. repeat split; auto.
  - unfold set_metadata in E. destruct (enabled p) eqn:Ee.
    + destruct (metadata p) as [|m'|] eqn:Em; try discriminate. destruct (find Nat.eqb m' t) eqn:Ef; injection E as <- <-; simpl.
      * repeat split; auto. intros m0 Hm0. assert (m0 = m') by congruence. subst. now rewrite Ef.
      * repeat split; auto. intros m0 [= <-]. now rewrite Ef.
    + injection E as <- <-. rewrite Ee. simpl. repeat split; auto.
Qed.

Lemma run_app l1 l2 p : run p (l1 ++ l2) =
  match run p l1 with
  | Ok (q, h) => match run q l2 with Ok (r, h') => Ok (r, h ++ h') | Err => Err | UB => UB end
  | Err => Err | UB => UB
  end.
Proof.
  revert p; induction l1 as [|c l1 IH]; intros p; simpl.
  - destruct (run p l2) as [[r h]| |]; reflexivity.
  - destruct (exec p c) as [[p' a]| |]; try reflexivity. rewrite IH. destruct (run p' l1) as [[q h]| |]; try reflexivity.
    destruct (run q l2) as [[r h']| |]; reflexivity.
Qed.

Lemma enabled_run l : forall p q h, run p l = Ok (q, h) -> no_finalize l ->
  enabled q = true -> enabled p = true \/ asks_timing l.
Proof.
  induction l as [|c l IH]; intros p q h H Hno; simpl in H; [injection H as <- <-; auto|].
  destruct (exec p c) as [[p' a]| |] eqn:E; try discriminate. destruct (run p' l) as [[q' h']| |] eqn:E2; try discriminate.
  injection H as <- <-. intros He. destruct (IH p' q' h' E2 (fun H => Hno (or_intror H)) He) as [H|H]; [|right; now right].
  destruct (exec_frame p c p' a E) as (_ & F & _); [intros ->; apply Hno; now left|].
  destruct (F H) as [F'| ->]; [now left|right; now left].
Qed.

Lemma put_not_nil {K V} (e : K -> K -> bool) (l : list (K * V)) k v : put e l k v <> [].
Proof. destruct l as [|[k' v'] l]; simpl; [discriminate|]. destruct (e k' k); discriminate. Qed.

(** Metadata stay recorded, and are recorded by any setup of an enabled process. *)
Lemma metadata_run l : forall p q h m, run p l = Ok (q, h) -> no_finalize l -> enabled p = true -> metadata p = Live m ->
  exists m', metadata q = Live m' /\ (m <> [] \/ has_metadata l -> m' <> []).
Proof.
  induction l as [|c l IH]; intros p q h m H Hno He Hm; simpl in H.
  - injection H as <- <-. exists m. split; [assumption|]. intros [H|(t & md & H)]; [assumption|inversion H].
  - destruct (exec p c) as [[p' a]| |] eqn:E; try discriminate. destruct (run p' l) as [[q' h']| |] eqn:E2; try discriminate.
    injection H as <- <-.
    destruct (exec_frame p c p' a E) as (F1 & _ & _ & _ & F); [intros ->; apply Hno; now left|]. specialize (F m Hm). rewrite He in F.
    assert (exists m1, metadata p' = Live m1 /\ (m <> [] \/ (exists t md, c = CMetadata t md) -> m1 <> [])) as (m1 & M1 & M2).
    { destruct c as [b|k|n f|n|n|n|n|t md|]; try (exists m; split; [exact F|intros [G|(? & ? & G)]; [exact G|discriminate]]).
      eexists. split; [exact F|]. intros _. destruct (find Nat.eqb m t) eqn:Ef; [|apply put_not_nil]. intros ->. discriminate. }
    destruct (IH p' q' h' m1 E2 (fun H => Hno (or_intror H)) (F1 He) M1) as (m' & A & B).
    exists m'. split; [assumption|]. intros G. apply B. destruct G as [G|(t & md & [G|G])].
    + left. apply M2. now left.
    + left. apply M2. right. exists t, md. exact G.
    + right. exists t, md. exact G.
Qed.

(** ** The cycle. *)
Lemma cycle l q h : no_finalize l -> usable_run false l -> run fresh l = Ok (q, h) ->
  (enabled q = true -> exists e m, metadata q = Live (e :: m)) ->
  exists q', exec q CFinalize = Ok (q', Done) /\ ran q' = rev (registered false false l).
Proof.
  intros Hno Hu Hr He. destruct (run_inv l [] false false _ fresh inv_fresh Hno Hu) as (q0 & h0 & E & I). 
  assert (q0 = q) by congruence. subst q0. destruct I as [[Hn Hs] Hi Ht Hf Hran]. simpl in Hn, Hs.
  simpl exec. unfold finalize. destruct (sd_funcs q) as [|a|] eqn:Ea; [| |contradiction].
  - rewrite Hs. eexists. split; [reflexivity|]. exact Hran.
  - destruct Hs as (L & Hle & Hpos & Hfirst). rewrite Hn in *.
    destruct (registered_counts l false false) as [CT CD].
    destruct (run_shutdown_ok (registered false false l) a q (run_i false l) (run_hf false l) Hfirst) as (p' & E' & R).
    + apply counts_once; rewrite ?has_T_rev, ?has_D_rev; assumption.
    + split.
      * intros Hti. rewrite Hti in Ht. destruct Ht as (A & B & m & M). split; [assumption|]. split; [assumption|].
        exists m. split; [assumption|]. intros En. destruct (He En) as (e & m' & M'). rewrite M in M'. injection M' as ->. discriminate.
      * intros Hh. rewrite Hh in Hf. destruct Hf as (m & M & _). eauto.
    + rewrite E'. eexists. split; [reflexivity|]. simpl. rewrite R, Hran. reflexivity.
Qed.

Lemma users_registered l : forall i hf, users (registered i hf l) = user_registered l.
Proof. induction l as [|c l IH]; intros i hf; [reflexivity|]. destruct c; simpl; rewrite ?IH; try reflexivity.
  - destruct i; simpl; apply IH.
  - destruct hf; simpl; apply IH.
Qed.
Lemma users_app a b : users (a ++ b) = users a ++ users b.
Proof. induction a as [|[] a IH]; simpl; congruence. Qed.
Lemma users_rev l : users (rev l) = rev (users l).
Proof. induction l as [|[] l IH]; simpl; rewrite ?users_app; simpl; rewrite ?IH, ?app_nil_r; reflexivity. Qed.

(** ** Timers. *)

Definition table_inv (m : list (string * nat)) (count : nat) : Prop :=
  NoDup (map fst m) /\ length m = count /\ (forall n t, find String.eqb m n = Some t -> t < count) /\
  (forall n n' t, find String.eqb m n = Some t -> find String.eqb m n' = Some t -> n = n').

Lemma table_new m count n : table_inv m count -> find String.eqb m n = None ->
  table_inv (put String.eqb m n count) (S count) /\ map fst (put String.eqb m n count) = map fst m ++ [n].
Proof.
  intros (H1 & H2 & H3 & H4) H.
  assert (P : map fst (put String.eqb m n count) = map fst m ++ [n]) by (rewrite put_new by assumption; now rewrite map_app).
  split; [|exact P]. split; [|split; [|split]].
  - rewrite P. apply NoDup_rev in H1. rewrite <- (rev_involutive (map fst m ++ [n])). apply NoDup_rev. rewrite rev_app_distr. simpl.
    constructor; [|assumption]. rewrite <- in_rev. intros Hin. apply (find_in String.eqb String.eqb_eq) in Hin. congruence.
  - rewrite put_new by assumption. rewrite app_length. simpl. lia.
  - intros n' t. rewrite (find_put String.eqb String.eqb_eq). destruct (String.eqb n n'); [intros [= <-]; lia|].
    intros Hf. apply H3 in Hf. lia.
  - intros a b t. rewrite !(find_put String.eqb String.eqb_eq).
    destruct (String.eqb_spec n a), (String.eqb_spec n b); intros Ha Hb.
    + congruence.
    + injection Ha as <-. apply H3 in Hb. lia.
    + injection Hb as <-. apply H3 in Ha. lia.
    + eapply H4; eassumption.
Qed.

Definition timers_inv (names : list string) (h : list (call * answer)) (p : proc) : Prop :=
  match timers p with
  | Null => names = [] /\ h = [] \/ names = [] /\ (forall n t, ~ In (CTimer n, Timer t) h)
  | Live m => table_inv m (events p) /\ (forall n, In n (map fst m) <-> In n names) /\
              (forall n t, In (CTimer n, Timer t) h -> find String.eqb m n = Some t)
  | Freed => False
  end /\ (timers p = Null -> events p = 0).

Lemma timers_step names h p c p' a : timers_inv names h p -> c <> CFinalize -> exec p c = Ok (p', a) ->
  timers_inv (names ++ timer_names [c]) (h ++ [(c, a)]) p'.
Proof.
  intros Hinv Hc E.
  assert (Same : (forall n, c <> CTimer n) -> timers p' = timers p -> events p' = events p ->
     timers_inv (names ++ timer_names [c]) (h ++ [(c, a)]) p').
  { intros Hn Et Ee. assert (timer_names [c] = []) as -> by (destruct c; try reflexivity; now elim (Hn name)). rewrite app_nil_r.
    unfold timers_inv in *. rewrite Et, Ee. destruct Hinv as [Hinv Hz]. split; [|exact Hz]. destruct (timers p) as [|m|].
    - right. destruct Hinv as [[-> ->]|[-> Hinv]]; (split; [reflexivity|]); intros n t; rewrite in_app_iff.
      + intros [H|[H|H]]; [inversion H| |inversion H]. injection H as -> _. now elim (Hn n).
      + intros [H|[H|H]]; [now elim (Hinv n t)| |inversion H]. injection H as -> _. now elim (Hn n).
    - destruct Hinv as (A & B & C). split; [assumption|]. split; [assumption|].
      intros n t. rewrite in_app_iff. intros [H|[H|H]]; [now apply C| |inversion H]. injection H as -> _. now elim (Hn n).
    - contradiction. }
  destruct c as [b|k|n f|n|n|n|n|t m|]; simpl in E; try congruence.
  - unfold init in E. destruct (initialized p); [injection E as <- <-; apply Same; auto; discriminate|].
    destruct (init_timers p) as [p1| |] eqn:E1; try discriminate. injection E as <- <-. apply init_timers_shape in E1.
    destruct E1 as (A1 & A2 & A3 & A4 & A5). destruct (timers p) as [|m|] eqn:Et.
    + unfold timers_inv in *. simpl. rewrite A4. simpl. rewrite Et in Hinv. destruct Hinv as [Hinv Hz].
      rewrite A5, (Hz eq_refl). rewrite app_nil_r. split; [|discriminate]. split.
      * split; [constructor|]. split; [reflexivity|]. split; intros; discriminate.
      * destruct Hinv as [[-> ->]|[-> Hinv]]; (split; [reflexivity|]); intros n t; rewrite ?in_app_iff.
        -- intros [[]|[H|[]]]; discriminate.
        -- intros [H|[H|H]]; [now elim (Hinv n t)|discriminate|inversion H].
    + apply Same; [discriminate| |assumption]. simpl. rewrite A4. simpl. congruence.
    + unfold timers_inv in Hinv. rewrite Et in Hinv. destruct Hinv as [[] _].
  - destruct (on_finalize p (User k)) eqn:E1; try discriminate. apply on_finalize_shape in E1. destruct E1 as (x & n & c & ->).
    injection E as <- <-. apply Same; auto; discriminate.
  - unfold register_function in E. destruct (funcs p) eqn:Ef; try discriminate.
    + destruct (on_finalize _ _) eqn:E1; try discriminate. apply on_finalize_shape in E1. destruct E1 as (x & y & c & ->).
      injection E as <- <-. apply Same; auto; discriminate.
    + injection E as <- <-. apply Same; auto; discriminate.
  - destruct (get_function p n); try discriminate. injection E as <- <-. apply Same; auto; discriminate.
  - clear Same. unfold get_timer in E. destruct Hinv as [Hinv Hz]. destruct (timers p) as [|m|] eqn:Et; try discriminate.
    destruct Hinv as (A & B & C). destruct (find String.eqb m n) as [t|] eqn:Ef; injection E as <- <-.
    + unfold timers_inv. rewrite Et. split; [|discriminate]. split; [assumption|]. split.
      * intros x. rewrite B, in_app_iff. simpl. split; [auto|]. intros [H|[H|H]]; [assumption| |contradiction]. subst x.
        apply B. apply (find_in String.eqb String.eqb_eq). congruence.
      * intros x t'. rewrite in_app_iff. intros [H|[H|H]]; [now apply C| |inversion H]. now injection H as <- <-.
    + unfold timers_inv. simpl. destruct (table_new m (events p) n A Ef) as [T P]. split; [|discriminate]. split; [assumption|]. split.
      * intros x. rewrite P, !in_app_iff, B. tauto.
      * intros x t'. rewrite in_app_iff, (find_put String.eqb String.eqb_eq). intros [H|[H|H]].
        -- apply C in H. destruct (String.eqb_spec n x); [congruence|assumption].
        -- injection H as <- <-. now rewrite String.eqb_refl.
        -- inversion H.
  - destruct (add_stage p n) as [p1| |] eqn:E1; try discriminate. injection E as <- <-. apply add_stage_shape in E1.
    destruct E1 as (A1 & A2 & A3 & A4 & A5 & _). apply Same; auto; discriminate.
  - destruct (enter_stage p n); try discriminate. injection E as <- <-. apply Same; auto; discriminate.
  - unfold set_metadata in E. destruct (enabled p) eqn:Ee.
    + destruct (metadata p) as [|m'|] eqn:Em; try discriminate. destruct (find Nat.eqb m' t) eqn:Ef; injection E as <- <-; apply Same; auto; discriminate.
    + injection E as <- <-. apply Same; auto; discriminate.
Qed.

Lemma timer_names_cons c l : timer_names (c :: l) = timer_names [c] ++ timer_names l.
Proof. destruct c; reflexivity. Qed.

Lemma timers_run l : forall names h p q h', timers_inv names h p -> no_finalize l -> run p l = Ok (q, h') ->
  timers_inv (names ++ timer_names l) (h ++ h') q.
Proof.
  induction l as [|c l IH]; intros names h p q h' Hinv Hno H; simpl run in H.
  - injection H as <- <-. now rewrite !app_nil_r.
  - destruct (exec p c) as [[p' a]| |] eqn:E; try discriminate. destruct (run p' l) as [[q' h2]| |] eqn:E2; try discriminate.
    injection H as <- <-. rewrite timer_names_cons, app_assoc. change ((c, a) :: h2) with ([(c, a)] ++ h2). rewrite app_assoc.
    apply IH with p'; [|intros H; apply Hno; now right|exact E2]. apply timers_step with p; auto. intros ->. apply Hno. now left.
Qed.

Lemma timers_fresh : timers_inv [] [] fresh.
Proof. split; [left; auto|reflexivity]. Qed.

(** ** Stages: the same with the library's three. *)
Definition library_stages : list string := ["TDycore Setup"%string; "TDycore Stepping"%string; "TDycore I/O"%string].

Definition stages_inv (names : list string) (h : list (call * answer)) (p : proc) : Prop :=
  (initialized p = false -> stages p = Null) /\
  match stages p with
  | Null => names = [] /\ (forall n t, ~ In (CEnterStage n, Stage t) h) /\ nstages p = 0 /\ initialized p = false
  | Live m => table_inv m (nstages p) /\ (forall n, In n (map fst m) <-> In n library_stages \/ In n names) /\
              (forall n t, In (CEnterStage n, Stage (Some t)) h -> find String.eqb m n = Some t)
  | Freed => False
  end.

Lemma stages_step names h p c p' a : stages_inv names h p -> c <> CFinalize -> exec p c = Ok (p', a) ->
  stages_inv (names ++ stage_names [c]) (h ++ [(c, a)]) p'.
Proof.
  intros Hinv Hc E.
  assert (Same : (forall n, c <> CAddStage n) -> (forall n, c <> CEnterStage n) -> initialized p' = initialized p -> stages p' = stages p -> nstages p' = nstages p ->
     stages_inv (names ++ stage_names [c]) (h ++ [(c, a)]) p').
  { intros Hn Hn' Ei Et Ee. assert (stage_names [c] = []) as -> by (destruct c; try reflexivity; now elim (Hn name)). rewrite app_nil_r.
    unfold stages_inv in *. rewrite Ei, Et, Ee. destruct Hinv as [Hi Hinv]. split; [assumption|]. destruct (stages p) as [|m|].
    - destruct Hinv as (A & B & C & D). repeat split; auto. intros n t; rewrite in_app_iff.
      intros [H|[H|H]]; [now elim (B n t)| |inversion H]. injection H as -> _. now elim (Hn' n).
    - destruct Hinv as (A & B & C). split; [assumption|]. split; [assumption|].
      intros n t. rewrite in_app_iff. intros [H|[H|H]]; [now apply C| |inversion H]. injection H as -> _. now elim (Hn' n).
    - contradiction. }
  destruct c as [b|k|n f|n|n|n|n|t m|]; simpl in E; try congruence.
  - unfold init in E. destruct (initialized p) eqn:Ei; [injection E as <- <-; apply Same; auto; discriminate|].
    destruct Hinv as [Hi Hinv]. rewrite (Hi Ei) in Hinv. destruct Hinv as (-> & Hh & Hz & _).
    assert (Est := Hi Ei).
    destruct (init_timers p) as [p1| |] eqn:E1; try discriminate. injection E as <- <-.
    unfold init_timers in E1. rewrite Est in E1. unfold add_stage in E1. simpl in E1. rewrite Hz in E1.
    apply on_finalize_shape in E1. destruct E1 as (x & y & z & ->). unfold stages_inv. cbn [stages initialized nstages with_sd]. split; [discriminate|].
    split; [|split].
    + split; [|split; [reflexivity|split]].
      * repeat constructor; simpl; intuition discriminate.
      * intros n t H. cbn [find put] in H. rewrite ?(proj2 (String.eqb_neq _ _)) in H by discriminate. cbn [find put] in H. repeat match type of H with context [String.eqb ?u n] => destruct (String.eqb u n) end; try discriminate; injection H as <-; lia.
      * intros n n' t H H'. cbn [find put] in H, H'.
        repeat match type of H with context [String.eqb ?u n] => destruct (String.eqb_spec u n) end;
        repeat match type of H' with context [String.eqb ?u n'] => destruct (String.eqb_spec u n') end; congruence.
    + intros n. simpl; tauto.
    + intros n t. rewrite in_app_iff. intros [H|[H|H]]; [now elim (Hh n (Some t))|discriminate|inversion H].
  - destruct (on_finalize p (User k)) eqn:E1; try discriminate. apply on_finalize_shape in E1. destruct E1 as (x & n & c & ->).
    injection E as <- <-. apply Same; auto; discriminate.
  - unfold register_function in E. destruct (funcs p) eqn:Ef; try discriminate.
    + destruct (on_finalize _ _) eqn:E1; try discriminate. apply on_finalize_shape in E1. destruct E1 as (x & y & c & ->).
      injection E as <- <-. apply Same; auto; discriminate.
    + injection E as <- <-. apply Same; auto; discriminate.
  - destruct (get_function p n); try discriminate. injection E as <- <-. apply Same; auto; discriminate.
  - unfold get_timer in E. destruct (timers p) as [|m|] eqn:Et; try discriminate. destruct (find String.eqb m n); injection E as <- <-; apply Same; auto; discriminate.
  - clear Same. unfold add_stage in E. destruct Hinv as [Hi Hinv]. destruct (stages p) as [|m|] eqn:Et; try discriminate.
    destruct Hinv as (A & B & C). destruct (find String.eqb m n) as [t|] eqn:Ef; injection E as <- <-.
    + unfold stages_inv. rewrite Et. split; [exact Hi|]. split; [assumption|]. split.
      * intros x. rewrite B, in_app_iff. simpl. split; [tauto|]. intros [H|[H|[H|[]]]]; [tauto|tauto|]. subst x.
        apply B. apply (find_in String.eqb String.eqb_eq). congruence.
      * intros x t'. rewrite in_app_iff. intros [H|[H|H]]; [now apply C|discriminate|inversion H].
    + unfold stages_inv. simpl. destruct (table_new m (nstages p) n A Ef) as [T P]. split; [intros G; specialize (Hi G); discriminate|]. split; [assumption|]. split.
      * intros x. rewrite P, !in_app_iff, B. simpl. tauto.
      * intros x t'. rewrite in_app_iff, (find_put String.eqb String.eqb_eq). intros [H|[H|H]]; [|discriminate|inversion H].
        apply C in H. destruct (String.eqb_spec n x); [congruence|assumption].
  - clear Same. unfold enter_stage in E. destruct Hinv as [Hi Hinv]. destruct (stages p) as [|m|] eqn:Et; try discriminate.
    injection E as <- <-. unfold stages_inv. rewrite Et. split; [exact Hi|]. destruct Hinv as (A & B & C). split; [assumption|].
    simpl. rewrite app_nil_r. split; [assumption|]. intros x t. rewrite in_app_iff. intros [H|[H|H]]; [now apply C| |inversion H].
    injection H as -> H. exact H.
  - unfold set_metadata in E. destruct (enabled p) eqn:Ee.
    + destruct (metadata p) as [|m'|] eqn:Em; try discriminate. destruct (find Nat.eqb m' t) eqn:Ef; injection E as <- <-; apply Same; auto; discriminate.
    + injection E as <- <-. apply Same; auto; discriminate.
Qed.

Lemma stage_names_cons c l : stage_names (c :: l) = stage_names [c] ++ stage_names l.
Proof. destruct c; reflexivity. Qed.

Lemma stages_run l : forall names h p q h', stages_inv names h p -> no_finalize l -> run p l = Ok (q, h') ->
  stages_inv (names ++ stage_names l) (h ++ h') q.
Proof.
  induction l as [|c l IH]; intros names h p q h' Hinv Hno H; simpl run in H.
  - injection H as <- <-. now rewrite !app_nil_r.
  - destruct (exec p c) as [[p' a]| |] eqn:E; try discriminate. destruct (run p' l) as [[q' h2]| |] eqn:E2; try discriminate.
    injection H as <- <-. rewrite stage_names_cons, app_assoc. change ((c, a) :: h2) with ([(c, a)] ++ h2). rewrite app_assoc.
    apply IH with p'; [|intros H; apply Hno; now right|exact E2]. apply stages_step with p; auto. intros ->. apply Hno. now left.
Qed.

Lemma stages_fresh : stages_inv [] [] fresh.
Proof. split; [reflexivity|]. simpl. repeat split; auto. Qed.

(** ** Statements. *)
Lemma registry_lookup l q h name : no_finalize l -> usable_run false l -> run fresh l = Ok (q, h) ->
  exec q (CGetFunction name) = Ok (q, Function (last_registered None l name)).
Proof.
  intros Hno Hu Hr. destruct (run_inv l [] false false _ fresh inv_fresh Hno Hu) as (q0 & h0 & E & I).
  assert (q0 = q) by congruence. subst q0. destruct I as [_ _ _ Hf _]. unfold funcs_inv in Hf. simpl. unfold get_function.
  destruct (run_hf false l).
  - destruct Hf as (m & -> & Hl). now rewrite Hl, run_lr_last.
  - destruct Hf as (-> & Hl). specialize (Hl name). rewrite run_lr_last in Hl. now rewrite Hl.
Qed.

Lemma no_ub l b : no_finalize l -> exists q h, run fresh (CInit b :: l) = Ok (q, h).
Proof.
  intros Hno. destruct (run_inv (CInit b :: l) [] false false _ fresh inv_fresh) as (q & h & E & _).
  - intros [H|H]; [discriminate|now apply Hno].
  - split; [intros []|]. apply usable_true.
  - eauto.
Qed.

Lemma starts_usable l : forall i, (forall l1 c l2, l = l1 ++ c :: l2 -> uses_timers c -> i = true \/ exists b, In (CInit b) l1) -> usable_run i l.
Proof.
  induction l as [|c l IH]; intros i H; [exact I|]. split.
  - intros Hc. destruct (H [] c l eq_refl Hc) as [E|[b []]]. exact E.
  - apply IH. intros l1 c' l2 -> Hc. destruct (H (c :: l1) c' l2 eq_refl Hc) as [E|[b [E|E]]].
    + left. subst i. destruct c; reflexivity.
    + left. subst c. reflexivity.
    + right. eauto.
Qed.

Lemma proper_usable l : starts_properly l -> usable_run false l.
Proof. intros H. apply starts_usable. intros l1 c l2 E Hc. right. eapply H; eassumption. Qed.

Lemma C19_reverse_order_partial_proof : forall l q h,
  no_finalize l -> starts_properly l -> ~ asks_timing l -> run fresh l = Ok (q, h) ->
  exists q', exec q CFinalize = Ok (q', Done) /\ ran q' = rev (registered false false l) /\
             users (ran q') = rev (user_registered l).
Proof.
  intros l q h Hno Hs Ha Hr. destruct (cycle l q h Hno (proper_usable l Hs) Hr) as (q' & E & R).
  - intros He. destruct (enabled_run l fresh q h Hr Hno He) as [H|H]; [discriminate|contradiction].
  - exists q'. split; [exact E|]. split; [exact R|]. now rewrite R, users_rev, users_registered.
Qed.

Lemma C19_reverse_order_timing_partial_proof : forall l q h,
  no_finalize l -> has_metadata l -> run fresh (CInit true :: l) = Ok (q, h) ->
  exists q', exec q CFinalize = Ok (q', Done) /\ ran q' = rev (registered false false (CInit true :: l)) /\
             users (ran q') = rev (user_registered l).
Proof.
  intros l q h Hno Hm Hr.
  assert (Hno' : no_finalize (CInit true :: l)) by (intros [H|H]; [discriminate|now apply Hno]).
  destruct (cycle (CInit true :: l) q h Hno') as (q' & E & R).
  - split; [intros []|]. apply usable_true.
  - exact Hr.
  - intros _. cbn [run] in Hr.
    destruct (init_timers_ok [] fresh) as (p1 & E1 & _ & _ & _ & M & _); [split; reflexivity|repeat split|].
    cbn [exec] in Hr. unfold init in Hr. cbn [initialized fresh] in Hr. rewrite E1 in Hr.
    match type of Hr with match match run ?x l with _ => _ end with _ => _ end = _ => idtac | _ => idtac end.
    destruct (run _ l) as [[q0 h0]| |] eqn:E2; try discriminate. injection Hr as <- <-.
    destruct (metadata_run l _ _ _ [] E2 Hno) as (m' & A & B); [apply orb_true_r|exact M|].
    destruct m' as [|e m']; [exfalso; apply B; auto|eauto].
  - exists q'. split; [exact E|]. split; [exact R|]. rewrite R, users_rev, users_registered. reflexivity.
Qed.

Lemma C50_timers_proof : forall l q h,
  no_finalize l -> run fresh l = Ok (q, h) ->
  (forall n n' t t', In (CTimer n, Timer t) h -> In (CTimer n', Timer t') h -> (n = n' <-> t = t')) /\
  exists names, NoDup names /\ (forall n, In n names <-> In n (timer_names l)) /\ events q = List.length names.
Proof.
  intros l q h Hno Hr. pose proof (timers_run l [] [] fresh q h timers_fresh Hno Hr) as H. simpl in H.
  destruct H as [H Hz]. destruct (timers q) as [|m|].
  - split.
    + intros n n' t t' H1. exfalso. destruct H as [[_ ->]|[_ H]]; [inversion H1|now apply (H n t)].
    + exists []. rewrite (Hz eq_refl). assert (timer_names l = []) as -> by tauto. repeat split; [constructor|tauto|tauto].
  - destruct H as ((D & L & B & J) & N & A). split.
    + intros n n' t t' H1 H2. apply A in H1, H2. split; [intros ->; congruence|intros ->; eapply J; eassumption].
    + exists (map fst m). split; [assumption|]. split; [assumption|]. now rewrite map_length.
  - contradiction.
Qed.

Lemma C50_stages_proof : forall l q h,
  no_finalize l -> run fresh l = Ok (q, h) ->
  (forall n n' t t', In (CEnterStage n, Stage (Some t)) h -> In (CEnterStage n', Stage (Some t')) h -> (n = n' <-> t = t')) /\
  (initialized q = true ->
   exists names, NoDup names /\ (forall n, In n names <-> In n library_stages \/ In n (stage_names l)) /\ nstages q = List.length names).
Proof.
  intros l q h Hno Hr. pose proof (stages_run l [] [] fresh q h stages_fresh Hno Hr) as H. simpl in H.
  destruct H as [Hi H]. destruct (stages q) as [|m|].
  - destruct H as (_ & H & _ & Hf). split; [intros n n' t t' H1; now elim (H n (Some t))|]. congruence.
  - destruct H as ((D & L & B & J) & N & A). split.
    + intros n n' t t' H1 H2. apply A in H1, H2. split; [intros ->; congruence|intros ->; eapply J; eassumption].
    + intros _. exists (map fst m). split; [assumption|]. split; [assumption|]. now rewrite map_length.
  - contradiction.
Qed.

Lemma C54_footer_partial_proof : forall l1 l2 q h t md,
  no_finalize (l1 ++ l2)%list -> (forall t' m', ~ In (CMetadata t' m') (l1 ++ l2)%list) ->
  run fresh (CInit true :: (l1 ++ CMetadata t md :: l2)%list) = Ok (q, h) ->
  metadata q = Live [(t, md)].
Proof.
  intros l1 l2 q h t md Hno Hnm Hr.
  assert (K : forall l p q h m, run p l = Ok (q, h) -> no_finalize l -> (forall t' m', ~ In (CMetadata t' m') l) ->
              enabled p = true -> metadata p = Live m -> metadata q = Live m /\ enabled q = true).
  { induction l as [|c l IH]; intros p q0 h0 m H Hn Hm He Hp; simpl in H; [injection H as <- <-; auto|].
    destruct (exec p c) as [[p' a]| |] eqn:E; try discriminate. destruct (run p' l) as [[q' h']| |] eqn:E2; try discriminate.
    injection H as <- <-. destruct (exec_frame p c p' a E) as (F1 & _ & _ & _ & F); [intros ->; apply Hn; now left|].
    apply (IH p' q' h' m E2); [intros H; apply Hn; now right|intros t' m' H; apply (Hm t' m'); now right|now apply F1|].
    specialize (F m Hp). destruct c; try exact F. now elim (Hm tdy md0); left. }
  change (CInit true :: (l1 ++ CMetadata t md :: l2)%list) with ((CInit true :: l1) ++ (CMetadata t md :: l2))%list in Hr.
  rewrite run_app in Hr. destruct (run fresh (CInit true :: l1)) as [[q1 h1]| |] eqn:E1; try discriminate.
  cbn [run] in E1. destruct (exec fresh (CInit true)) as [[p0 a0]| |] eqn:E0; try discriminate.
  assert (P0 : enabled p0 = true /\ metadata p0 = Live []) by (simpl in E0; injection E0 as <- _; split; reflexivity).
  destruct (run p0 l1) as [[q2 h2]| |] eqn:E2; try discriminate. injection E1 as <- _.
  destruct (K l1 p0 q2 h2 [] E2) as [K1 K2]; [intros H; apply Hno, in_or_app; now left|intros t' m' H; apply (Hnm t' m'), in_or_app; now left|tauto|tauto|].
  cbn [run] in Hr. destruct (exec q2 (CMetadata t md)) as [[q3 a3]| |] eqn:E3; try discriminate.
  destruct (exec_frame _ _ _ _ E3) as (F1 & _ & _ & _ & F); [discriminate|]. specialize (F [] K1). rewrite K2 in F. simpl in F.
  destruct (run q3 l2) as [[q4 h4]| |] eqn:E4; try discriminate. injection Hr as <- _.
  apply (K l2 q3 q4 h4 _ E4); [intros H; apply Hno, in_or_app; now right|intros t' m' H; apply (Hnm t' m'), in_or_app; now right|now apply F1|exact F].
Qed.
