(** Proofs about the functions handed over from Fortran. *)
From Coq Require Import Reals List Bool Arith String Lia.
From Verif Require Import Prelude Arrays F90 SpecF90.
Import ListNotations.
Local Open Scope nat_scope.

Lemma run_app : forall junk a b s, run junk (a ++ b) s = (do s <- run junk a s; run junk b s).
Proof. induction a as [|c a IH]; intros b s; cbn; [reflexivity|]. destruct (exec junk c s); cbn; auto. Qed.

(** The array holds the functions of [l], then null pointers. *)
Definition holds (l : list nat) (r : reg) : Prop :=
  List.length (funcs r) = 32 /\ List.length (names r) = 32 /\
  (forall i, i < 32 -> nth_error (funcs r) i = Some (nth_error l i)) /\ NoDup l.
Definition rel (o : option reg) (last : nat) (l : list nat) : Prop :=
  (o = None /\ l = []) \/ (exists r, o = Some r /\ holds l r /\ last = S (List.length l) /\ List.length l <= 31).

Lemma assoc_spec : forall p f, associated p f = true <-> p = Some f.
Proof. intros [g|] f; cbn; [|split; discriminate]. rewrite Nat.eqb_eq. split; congruence. Qed.

Lemma scan_found : forall l r f j k i, holds l r -> nth_error l j = Some f -> i <= j -> j < i + k -> i + k <= 32 ->
  scan (funcs r) f k (S i) = Ok (S j).
Proof.
  intros l r f j k. induction k as [|k IH]; intros i H E Hi Hj Hk; [lia|].
  cbn. pose proof H as (L & _ & F & D). rewrite (rd_some _ _ _ (F i ltac:(lia))). cbn.
  destruct (associated (nth_error l i) f) eqn:A.
  - apply assoc_spec in A. assert (i = j); [|congruence].
    apply (proj1 (NoDup_nth_error l)); auto. eapply nth_lt; eassumption. congruence.
  - apply IH; auto; try lia. destruct (Nat.eq_dec i j) as [->|]; [|lia].
    assert (associated (nth_error l j) f = true) by (apply assoc_spec; auto). congruence.
Qed.
Lemma scan_none : forall l r f k i, holds l r -> ~ In f l -> i + k <= 32 -> scan (funcs r) f k (S i) = Ok (S (i + k)).
Proof.
  intros l r f k. induction k as [|k IH]; intros i H E Hk; cbn; [do 2 f_equal; lia|].
  pose proof H as (L & _ & F & D). rewrite (rd_some _ _ _ (F i ltac:(lia))). cbn.
  destruct (associated (nth_error l i) f) eqn:A.
  - apply assoc_spec in A. apply nth_error_In in A. contradiction.
  - rewrite IH by (auto; lia). do 2 f_equal. lia.
Qed.

Definition old_names (junk : nat -> string) (o : option reg) : list string :=
  match o with None => map junk (seq 0 32) | Some r => names r end.

Lemma NoDup_snoc : forall (l : list nat) x, NoDup l -> ~ In x l -> NoDup (l ++ [x]).
Proof.
  intros l x D N. replace (l ++ [x]) with (l ++ x :: nil) by reflexivity.
  apply NoDup_Add with (a := x) (l := l); [|split; assumption].
  pose proof (Add_app x l []) as A. now rewrite app_nil_r in A.
Qed.

Lemma holds_upd : forall l r f, holds l r -> ~ In f l -> List.length l <= 31 ->
  holds (l ++ [f]) (Reg (upd (funcs r) (List.length l) (Some f)) (names r)).
Proof.
  intros l r f (L & N & F & D) Hf Hl. repeat split; cbn.
  - now rewrite length_upd.
  - assumption.
  - intros i Hi. destruct (Nat.eq_dec i (List.length l)) as [->|Ne].
    + rewrite nth_upd_same by lia. rewrite nth_error_app2 by lia. now rewrite Nat.sub_diag.
    + rewrite nth_upd_other by lia. rewrite F by assumption. f_equal.
      destruct (Nat.lt_ge_cases i (List.length l)).
      * now rewrite nth_error_app1 by assumption.
      * rewrite nth_error_app2 by lia. destruct (i - List.length l) as [|k] eqn:E; [lia|].
        cbn. rewrite (proj2 (nth_error_None l i)) by lia. now destruct k.
  - apply NoDup_snoc; assumption.
Qed.

Lemma foa_ok : forall junk o last l f, rel o last l -> (In f l \/ List.length l <= 30) ->
  exists r last' j l', FindOrAppend junk o last f = Ok (r, last', S j) /\ rel (Some r) last' l' /\
    nth_error l' j = Some f /\ names r = old_names junk o /\ (l' = l \/ (~ In f l /\ l' = l ++ [f])).
Proof.
  intros junk o last l f [[-> ->]|(r & -> & H & -> & Hl)] Hf.
  - assert (H0 : holds [] (Reg (repeat None 32) (map junk (seq 0 32)))).
    { repeat split; try constructor. intros i Hi. cbn [funcs]. rewrite nth_error_repeat by lia. now destruct i. }
    exists (Reg (upd (repeat None 32) 0 (Some f)) (map junk (seq 0 32))), 2, 0, [f].
    split; [reflexivity|]. split; [|split; [reflexivity|split; [reflexivity|]]].
    + right. eexists. split; [reflexivity|]. split; [|split; [reflexivity|cbn; lia]].
      apply (holds_upd [] _ f H0); [intros []|cbn; lia].
    + right. split; [intros []|reflexivity].
  - pose proof H as (L & N & F & D). destruct (in_dec Nat.eq_dec f l) as [I|I].
    + destruct (In_nth_error _ _ I) as (j & Ej). pose proof (nth_lt _ _ _ Ej) as Hj.
      exists r, (S (List.length l)), j, l. unfold FindOrAppend.
      rewrite (scan_found l r f j) by (auto; lia). cbn [bind rd1].
      rewrite (rd_some _ _ _ (F j ltac:(lia))). cbn [bind].
      rewrite (proj2 (assoc_spec (nth_error l j) f) Ej).
      repeat split; auto. right. exists r. auto.
    + assert (Hl' : List.length l <= 30) by tauto.
      exists (Reg (upd (funcs r) (List.length l) (Some f)) (names r)), (S (S (List.length l))), (List.length l), (l ++ [f]).
      unfold FindOrAppend. rewrite (scan_none l r f) by (auto; lia). cbn [bind rd1 Nat.add].
      rewrite (rd_some _ _ _ (F (S (List.length l)) ltac:(lia))). cbn [bind].
      rewrite (proj2 (nth_error_None l (S (List.length l)))) by lia. cbn [associated].
      rewrite (proj2 (Nat.ltb_ge _ _)) by lia. cbn [wr1]. rewrite wr_ok by lia. cbn [bind].
      split; [reflexivity|]. split; [|split; [|split; [reflexivity|auto]]].
      * right. eexists. split; [reflexivity|]. split; [apply holds_upd; auto; lia|].
        rewrite app_length. cbn. split; lia.
      * rewrite nth_error_app2 by lia. now rewrite Nat.sub_diag.
Qed.
Lemma foa_UB : forall junk o last l f, rel o last l -> ~ In f l -> List.length l = 31 -> FindOrAppend junk o last f = UB.
Proof.
  intros junk o last l f [[-> ->]|(r & -> & H & -> & Hl)] Hf Hn; [discriminate|].
  unfold FindOrAppend. rewrite (scan_none l r f) by (auto; lia). cbn [bind rd1 Nat.add].
  pose proof H as (L & _). unfold rd. rewrite (proj2 (nth_error_None (funcs r) (S (List.length l)))) by lia. reflexivity.
Qed.

Lemma at_most_step : forall l fs (f : nat), NoDup l -> incl l fs -> In f fs -> List.length fs <= 31 -> In f l \/ List.length l <= 30.
Proof.
  intros l fs f D I Hf Hn. destruct (in_dec Nat.eq_dec f l) as [|N]; [now left|right].
  assert (List.length (f :: l) <= List.length fs).
  { apply NoDup_incl_length; [constructor; auto|]. intros x [<-|Hx]; auto. }
  cbn in *. lia.
Qed.
Lemma rel_NoDup : forall o last l, rel o last l -> NoDup l.
Proof. intros o last l [[_ ->]|(r & _ & (_ & _ & _ & D) & _)]; [constructor|assumption]. Qed.

Lemma nth_grow : forall (l l' : list nat) f j x, (l' = l \/ (~ In f l /\ l' = l ++ [f])) -> nth_error l j = Some x -> nth_error l' j = Some x.
Proof. intros l l' f j x [->|[_ ->]] E; auto. rewrite nth_error_app1; auto. eapply nth_lt; eassumption. Qed.
Lemma In_grow : forall (l l' : list nat) f x, (l' = l \/ (~ In f l /\ l' = l ++ [f])) -> In f l' -> (In x l' <-> In x l \/ x = f).
Proof. intros l l' f x [->|[_ ->]] I; [intuition congruence|]. rewrite in_app_iff. cbn. intuition. Qed.

(** The state after calls about real functions. *)
Definition name_at (junk : nat -> string) (l : list nat) (cs : list call) (i : nat) : string :=
  match nth_error l i with
  | Some f => match name_of f cs with Some n => pad n | None => junk i end
  | None => junk i
  end.
Record spatial_inv (junk : nat -> string) (s0 : state) (cs : list call) (s : state) (l : list nat) : Prop := {
  i_rel : rel (sp s) (last s) l;
  i_in : forall f, In f l <-> In f (functions cs);
  i_slot : forall p, match chosen p cs with
                     | Some f => exists j, slots s p = Some (S j) /\ nth_error l j = Some f
                     | None => slots s p = None
                     end;
  i_names : forall i, i < 32 -> nth_error (old_names junk (sp s)) i = Some (name_at junk l cs i);
  i_ig : ig s = ig s0; i_kind : kind s = kind s0 }.

Lemma chosen_snoc : forall p cs c, chosen p (cs ++ [c]) = match c with CSet q f => if q =? p then Some f else chosen p cs | _ => chosen p cs end.
Proof. intros. unfold chosen. rewrite fold_left_app. now destruct c. Qed.
Lemma name_snoc : forall f cs c, name_of f (cs ++ [c]) = match c with CRegister n g => if g =? f then Some n else name_of f cs | _ => name_of f cs end.
Proof. intros. unfold name_of. rewrite fold_left_app. now destruct c. Qed.
Lemma functions_app : forall a b, functions (a ++ b) = functions a ++ functions b.
Proof. intros. apply flat_map_app. Qed.
Lemma name_none : forall f cs, ~ In f (functions cs) -> name_of f cs = None.
Proof.
  intros f cs. induction cs as [|c cs IH] using rev_ind; intros H; [reflexivity|].
  rewrite functions_app, in_app_iff in H. rewrite name_snoc.
  destruct c; cbn in H; try (apply IH; tauto).
  destruct (f0 =? f) eqn:E; [|apply IH; tauto]. apply Nat.eqb_eq in E. subst. exfalso. apply H. right. now left.
Qed.
Lemma chosen_none : forall p cs, ~ (exists f, In (CSet p f) cs) -> chosen p cs = None.
Proof.
  intros p cs. induction cs as [|c cs IH] using rev_ind; intros H; [reflexivity|].
  assert (H' : ~ (exists f, In (CSet p f) cs)) by (intros (f & I); apply H; exists f; rewrite in_app_iff; auto).
  rewrite chosen_snoc. destruct c; try (now apply IH).
  destruct (p0 =? p) eqn:E; [|now apply IH]. apply Nat.eqb_eq in E. subst. exfalso. apply H. exists f. rewrite in_app_iff. right. now left.
Qed.

Lemma old_junk : forall (junk : nat -> string) i, i < 32 -> nth_error (map junk (seq 0 32)) i = Some (junk i).
Proof.
  intros junk i H. rewrite nth_error_map, (nth_error_nth' (seq 0 32) 0) by (rewrite seq_length; lia).
  cbn [option_map]. now rewrite seq_nth by lia.
Qed.

(** The names do not change when a function is added or found. *)
Lemma names_step : forall junk s0 cs s l f l' r,
  spatial_inv junk s0 cs s l -> (l' = l \/ (~ In f l /\ l' = l ++ [f])) -> names r = old_names junk (sp s) ->
  forall i, i < 32 -> nth_error (names r) i = Some (name_at junk l' cs i).
Proof.
  intros junk s0 cs s l f l' r I G N i Hi. rewrite N.
  pose proof (i_names _ _ _ _ _ I i Hi) as Q.
  rewrite Q. f_equal. unfold name_at. destruct G as [->|[Hf ->]]; [reflexivity|].
  destruct (Nat.lt_ge_cases i (List.length l)).
  - now rewrite nth_error_app1.
  - rewrite (proj2 (nth_error_None l i)) by assumption. rewrite nth_error_app2 by assumption.
    destruct (i - List.length l) as [|k]; cbn; [|now destruct k].
    rewrite name_none; [reflexivity|]. now rewrite <- (i_in _ _ _ _ _ I).
Qed.

Lemma spatial_start : forall junk s0, sp s0 = None -> (forall p, slots s0 p = None) -> spatial_inv junk s0 [] s0 [].
Proof.
  intros junk s0 H0 Hs. constructor; auto.
  - left. auto.
  - reflexivity.
  - cbn. auto.
  - intros i Hi. rewrite H0. cbn [old_names]. rewrite old_junk by assumption. unfold name_at. now destruct i.
Qed.

Lemma spatial_step : forall junk s0 cs s l c fs, spatial_inv junk s0 cs s l -> spatial c ->
  incl (functions (cs ++ [c])) fs -> List.length fs <= 31 ->
  exists s' l', exec junk c s = Ok s' /\ spatial_inv junk s0 (cs ++ [c]) s' l'.
Proof.
  intros junk s0 cs s l c fs I Hc Hfs Hn.
  assert (Hf : forall f, In f (functions [c]) -> In f l \/ List.length l <= 30).
  { intros f Hf. apply (at_most_step l fs f); auto.
    - apply (rel_NoDup _ _ _ (i_rel _ _ _ _ _ I)).
    - intros x Hx. apply Hfs. rewrite functions_app, in_app_iff. left. now apply (i_in _ _ _ _ _ I).
    - apply Hfs. rewrite functions_app, in_app_iff. now right. }
  destruct c as [p f| |name f|]; try contradiction.
  - destruct (foa_ok junk (sp s) (last s) l f (i_rel _ _ _ _ _ I) (Hf f (or_introl eq_refl)))
      as (r & last' & j & l' & E & R & Ej & N & G).
    eexists. exists l'. cbn [exec]. unfold SetFunction. rewrite E. cbn [bind]. split; [reflexivity|].
    constructor; cbn [sp last slots kind ig].
    + exact R.
    + intros x. rewrite functions_app, in_app_iff, (In_grow l l' f x G), (i_in _ _ _ _ _ I) by (eapply nth_error_In; eassumption).
      cbn. intuition.
    + intros q. rewrite chosen_snoc, (Nat.eqb_sym p q). destruct (q =? p); [exists j; auto|].
      pose proof (i_slot _ _ _ _ _ I q) as Q. destruct (chosen q cs); [|exact Q].
      destruct Q as (k & Ek & Ek'). exists k. split; auto. eapply nth_grow; eassumption.
    + intros i Hi. cbn [old_names]. rewrite (names_step junk s0 cs s l f l' r I G N i Hi). f_equal.
      unfold name_at. destruct (nth_error l' i); [|reflexivity]. now rewrite name_snoc.
    + apply (i_ig _ _ _ _ _ I).
    + apply (i_kind _ _ _ _ _ I).
  - destruct (foa_ok junk (sp s) (last s) l f (i_rel _ _ _ _ _ I) (Hf f (or_introl eq_refl)))
      as (r & last' & j & l' & E & R & Ej & N & G).
    assert (Hh : holds l' r /\ last' = S (List.length l') /\ List.length l' <= 31).
    { destruct R as [[R _]|(r' & R & Rest)]; [discriminate|]. injection R as <-. exact Rest. }
    destruct Hh as ((L1 & L2 & F & D) & EL & Hl').
    pose proof (nth_lt _ _ _ Ej) as Hj.
    eexists. exists l'. cbn [exec]. unfold RegisterFunction. rewrite E. cbn [bind wr1]. rewrite wr_ok by lia. cbn [bind].
    split; [reflexivity|].
    constructor; cbn [sp last slots kind ig].
    + right. eexists. split; [reflexivity|]. split; [|auto]. repeat split; cbn [funcs names]; auto. now rewrite length_upd.
    + intros x. rewrite functions_app, in_app_iff, (In_grow l l' f x G), (i_in _ _ _ _ _ I) by (eapply nth_error_In; eassumption).
      cbn. intuition.
    + intros q. rewrite chosen_snoc.
      pose proof (i_slot _ _ _ _ _ I q) as Q. destruct (chosen q cs); [|exact Q].
      destruct Q as (k & Ek & Ek'). exists k. split; auto. eapply nth_grow; eassumption.
    + intros i Hi. cbn [old_names names]. unfold name_at. destruct (Nat.eq_dec i j) as [->|Ne].
      * rewrite nth_upd_same by lia. rewrite Ej, name_snoc, Nat.eqb_refl. reflexivity.
      * rewrite nth_upd_other by auto. rewrite (names_step junk s0 cs s l f l' r I G N i Hi). f_equal.
        unfold name_at. destruct (nth_error l' i) as [x|] eqn:Ex; [|reflexivity]. rewrite name_snoc.
        destruct (f =? x) eqn:Q; [|reflexivity]. apply Nat.eqb_eq in Q. subst x. exfalso. apply Ne.
        apply (proj1 (NoDup_nth_error l')); auto. eapply nth_lt; eassumption. congruence.
    + apply (i_ig _ _ _ _ _ I).
    + apply (i_kind _ _ _ _ _ I).
Qed.

Lemma spatial_run : forall junk s0 cs fs, sp s0 = None -> (forall p, slots s0 p = None) ->
  Forall spatial cs -> incl (functions cs) fs -> List.length fs <= 31 ->
  exists s l, run junk cs s0 = Ok s /\ spatial_inv junk s0 cs s l.
Proof.
  intros junk s0 cs fs H0 Hs Hc Hf Hn. induction cs as [|c cs IH] using rev_ind.
  - exists s0, []. split; [reflexivity|]. now apply spatial_start.
  - apply Forall_app in Hc. destruct Hc as [Hc Hc1].
    destruct IH as (s & l & E & I); auto.
    { intros x Hx. apply Hf. rewrite functions_app, in_app_iff. auto. }
    destruct (spatial_step junk s0 cs s l c fs I (Forall_inv Hc1) Hf Hn) as (s' & l' & E' & I').
    exists s', l'. rewrite run_app, E. cbn [bind run]. rewrite E'. auto.
Qed.
Lemma spatial_called : forall junk s0 cs s l, spatial_inv junk s0 cs s l -> forall p, called s p = answer (chosen p cs).
Proof.
  intros junk s0 cs s l I p. unfold called. pose proof (i_slot _ _ _ _ _ I p) as Q.
  destruct (chosen p cs) as [f|]; [|now rewrite Q].
  destruct Q as (j & -> & Ej). cbn [entry answer].
  destruct (i_rel _ _ _ _ _ I) as [[_ ->]|(r & -> & (L & _ & F & _) & _ & Hl)]; [now destruct j|].
  cbn [rd1]. rewrite (rd_some _ _ _ (F j ltac:(pose proof (nth_lt _ _ _ Ej); lia))). cbn [bind]. now rewrite Ej.
Qed.

(** The state after calls about the type. *)
Record type_inv (s0 : state) (cs : list call) (s : state) (l : list nat) : Prop := {
  t_rel : rel (ig s) (last s) l;
  t_in : forall f, In f l <-> In f (functions cs);
  t_slot : match chosen_type cs with
           | Some f => exists j, kind s = Some (S j) /\ nth_error l j = Some f
           | None => kind s = None
           end;
  t_sp : sp s = sp s0; t_slots : slots s = slots s0 }.
Lemma type_snoc : forall cs c, chosen_type (cs ++ [c]) = match c with CSetType f => Some f | _ => chosen_type cs end.
Proof. intros. unfold chosen_type. rewrite fold_left_app. now destruct c. Qed.
Lemma type_run : forall junk s0 cs fs, ig s0 = None -> kind s0 = None ->
  Forall typed cs -> incl (functions cs) fs -> List.length fs <= 31 ->
  exists s l, run junk cs s0 = Ok s /\ type_inv s0 cs s l.
Proof.
  intros junk s0 cs fs H0 Hs Hc Hf Hn. induction cs as [|c cs IH] using rev_ind.
  - exists s0, []. split; [reflexivity|]. constructor; auto. left; auto. reflexivity.
  - apply Forall_app in Hc. destruct Hc as [Hc Hc1].
    destruct IH as (s & l & E & I); auto.
    { intros x Hx. apply Hf. rewrite functions_app, in_app_iff. auto. }
    apply Forall_inv in Hc1. destruct c as [| f | |]; try contradiction.
    assert (HI : In f l \/ List.length l <= 30).
    { apply (at_most_step l fs f); auto.
      - apply (rel_NoDup _ _ _ (t_rel _ _ _ _ I)).
      - intros x Hx. apply Hf. rewrite functions_app, in_app_iff. left. now apply (t_in _ _ _ _ I).
      - apply Hf. rewrite functions_app, in_app_iff. right. now left. }
    destruct (foa_ok junk (ig s) (last s) l f (t_rel _ _ _ _ I) HI) as (r & last' & j & l' & E' & R & Ej & N & G).
    eexists. exists l'. rewrite run_app, E. cbn [bind run exec]. unfold SetTypeFunction. rewrite E'. cbn [bind].
    split; [reflexivity|]. constructor; cbn [sp last slots kind ig].
    + exact R.
    + intros x. rewrite functions_app, in_app_iff, (In_grow l l' f x G), (t_in _ _ _ _ I) by (eapply nth_error_In; eassumption).
      cbn. intuition.
    + rewrite type_snoc. exists j. auto.
    + apply (t_sp _ _ _ _ I).
    + apply (t_slots _ _ _ _ I).
Qed.
Lemma type_called : forall s0 cs s l, type_inv s0 cs s l -> called_type s = answer (chosen_type cs).
Proof.
  intros s0 cs s l I. unfold called_type. pose proof (t_slot _ _ _ _ I) as Q.
  destruct (chosen_type cs) as [f|]; [|now rewrite Q].
  destruct Q as (j & -> & Ej). cbn [entry answer].
  destruct (t_rel _ _ _ _ I) as [[_ ->]|(r & -> & (L & _ & F & _) & _ & Hl)]; [now destruct j|].
  cbn [rd1]. rewrite (rd_some _ _ _ (F j ltac:(pose proof (nth_lt _ _ _ Ej); lia))). cbn [bind]. now rewrite Ej.
Qed.

Lemma chosen_typed : forall p a b, Forall typed b -> chosen p (a ++ b) = chosen p a.
Proof.
  intros p a b H. induction b as [|c b IH] using rev_ind; [now rewrite app_nil_r|].
  apply Forall_app in H. destruct H as [H H1]. apply Forall_inv in H1.
  rewrite app_assoc, chosen_snoc. destruct c; try contradiction. now apply IH.
Qed.
Lemma type_spatial : forall a b, Forall spatial b -> chosen_type (a ++ b) = chosen_type a.
Proof.
  intros a b H. induction b as [|c b IH] using rev_ind; [now rewrite app_nil_r|].
  apply Forall_app in H. destruct H as [H H1]. apply Forall_inv in H1.
  rewrite app_assoc, type_snoc. destruct c; try contradiction; now apply IH.
Qed.
Lemma chosen_all_typed : forall p a b, Forall typed a -> chosen p (a ++ b) = chosen p b.
Proof.
  intros p a b H. induction b as [|c b IH] using rev_ind.
  - rewrite app_nil_r. now rewrite <- (chosen_typed p [] a H).
  - now rewrite app_assoc, !chosen_snoc, IH.
Qed.
Lemma type_all_spatial : forall a b, Forall spatial a -> chosen_type (a ++ b) = chosen_type b.
Proof.
  intros a b H. induction b as [|c b IH] using rev_ind.
  - rewrite app_nil_r. now rewrite <- (type_spatial [] a H).
  - now rewrite app_assoc, !type_snoc, IH.
Qed.

Lemma functions_partial : forall junk a b,
  (Forall spatial a /\ Forall typed b) \/ (Forall typed a /\ Forall spatial b) ->
  at_most 31 (functions a) -> at_most 31 (functions b) ->
  exists s, run junk (a ++ b) start = Ok s /\
    (forall p, called s p = answer (chosen p (a ++ b))) /\ called_type s = answer (chosen_type (a ++ b)).
Proof.
  intros junk a b [[Ha Hb]|[Ha Hb]] (fa & Na & Ia) (fb & Nb & Ib).
  - destruct (spatial_run junk start a fa eq_refl (fun _ => eq_refl) Ha Ia Na) as (s1 & l1 & E1 & I1).
    destruct (type_run junk s1 b fb) as (s2 & l2 & E2 & I2); auto.
    { rewrite (i_ig _ _ _ _ _ I1). reflexivity. } { rewrite (i_kind _ _ _ _ _ I1). reflexivity. }
    exists s2. rewrite run_app, E1. cbn [bind]. split; [exact E2|]. split.
    + intros p. rewrite chosen_typed by assumption. rewrite <- (spatial_called _ _ _ _ _ I1 p). unfold called.
      now rewrite (t_sp _ _ _ _ I2), (t_slots _ _ _ _ I2).
    + rewrite type_all_spatial by assumption. apply (type_called _ _ _ _ I2).
  - destruct (type_run junk start a fa eq_refl eq_refl Ha Ia Na) as (s1 & l1 & E1 & I1).
    destruct (spatial_run junk s1 b fb) as (s2 & l2 & E2 & I2); auto.
    { rewrite (t_sp _ _ _ _ I1). reflexivity. } { rewrite (t_slots _ _ _ _ I1). reflexivity. }
    exists s2. rewrite run_app, E1. cbn [bind]. split; [exact E2|]. split.
    + intros p. rewrite chosen_all_typed by assumption. apply (spatial_called _ _ _ _ _ I2 p).
    + rewrite type_spatial by assumption. rewrite <- (type_called _ _ _ _ I1). unfold called_type.
      now rewrite (i_ig _ _ _ _ _ I2), (i_kind _ _ _ _ _ I2).
Qed.

(** Porosity, boundary pressure, type of the boundary condition, residual saturation. *)
Lemma functions_refuted : ~ (forall junk cs s, run junk cs start = Ok s -> forall p, called s p = answer (chosen p cs)).
Proof.
  intros H. specialize (H (fun _ => ""%string) [CSet 0 10; CSet 1 11; CSetType 12; CSet 2 13] _ eq_refl 1).
  vm_compute in H. discriminate.
Qed.

Lemma NoDup_app_left : forall (a b : list nat), NoDup (a ++ b) -> NoDup a.
Proof.
  induction a as [|x a IH]; intros b H; [constructor|]. cbn in H. inversion_clear H as [|? ? N D]. constructor.
  - intros I. apply N. rewrite in_app_iff. auto.
  - eapply IH; eassumption.
Qed.
Lemma run_UB : forall junk a b s, run junk a s = UB -> run junk (a ++ b) s = UB.
Proof. intros junk a b s H. now rewrite run_app, H. Qed.
Lemma many : forall junk p fs, NoDup fs -> 32 <= List.length fs -> run junk (map (CSet p) fs) start = UB.
Proof.
  intros junk p fs D Hn. rewrite <- (firstn_skipn 32 fs), map_app. apply run_UB.
  assert (E : exists a f, firstn 32 fs = a ++ [f] /\ List.length a = 31).
  { pose proof (firstn_length_le fs Hn) as L. destruct (exists_last (l := firstn 32 fs)) as (a & f & E).
    - intros C. rewrite C in L. discriminate.
    - exists a, f. split; auto. rewrite E, app_length in L. cbn in L. lia. }
  destruct E as (a & f & E & La). rewrite E.
  assert (D' : NoDup (a ++ [f])).
  { rewrite <- E. rewrite <- (firstn_skipn 32 fs) in D. apply NoDup_app_left in D. exact D. }
  assert (Hfun : functions (map (CSet p) a) = a).
  { clear. unfold functions. induction a; cbn; congruence. }
  destruct (spatial_run junk start (map (CSet p) a) a eq_refl (fun _ => eq_refl)) as (s & l & E1 & I).
  { apply Forall_forall. intros c Hc. apply in_map_iff in Hc. destruct Hc as (x & <- & _). exact Logic.I. }
  { rewrite Hfun. apply incl_refl. } { lia. }
  rewrite map_app, run_app, E1. cbn [bind run map exec]. unfold SetFunction.
  rewrite (foa_UB junk (sp s) (last s) l f (i_rel _ _ _ _ _ I)); [reflexivity| |].
  - rewrite (i_in _ _ _ _ _ I), Hfun. apply NoDup_remove_2 in D'. now rewrite app_nil_r in D'.
  - rewrite <- La. apply Nat.le_antisymm.
    + apply NoDup_incl_length; [apply (rel_NoDup _ _ _ (i_rel _ _ _ _ _ I))|].
      intros x Hx. rewrite (i_in _ _ _ _ _ I), Hfun in Hx. exact Hx.
    + apply NoDup_incl_length; [now apply NoDup_app_left in D'|].
      intros x Hx. rewrite (i_in _ _ _ _ _ I), Hfun. exact Hx.
Qed.

(** ** Names *)
Definition room (o : option reg) : Prop := forall r, o = Some r -> 1 <= List.length (funcs r) /\ 1 <= List.length (names r).
Lemma wr1_length : forall {A} (l l' : list A) i x, wr1 l i x = Ok l' -> List.length l' = List.length l.
Proof. intros A l l' [|i] x H; [discriminate|]. apply wr_inv in H. destruct H as [_ ->]. apply length_upd. Qed.
Lemma foa_room : forall junk o last f r l' id, room o -> FindOrAppend junk o last f = Ok (r, l', id) -> room (Some r).
Proof.
  intros junk o last f r l' id H E r0 Q. injection Q as <-. unfold FindOrAppend in E.
  assert (K : exists r1 last1 id1, 1 <= List.length (funcs r1) /\ 1 <= List.length (names r1) /\
     (do p <- rd1 (funcs r1) id1;
      if associated p f then Ok (r1, last1, id1)
      else let r := if List.length (funcs r1) <? last1 then grow junk r1 else r1 in
           do fs <- wr1 (funcs r) last1 (Some f); Ok (Reg fs (names r), S last1, last1)) = Ok (r, l', id)).
  { destruct o as [r1|].
    - destruct (scan (funcs r1) f last 1) as [i| |]; try discriminate. cbn [bind] in E.
      exists r1, last, i. destruct (H r1 eq_refl). auto.
    - exists (Reg (repeat None 32) (map junk (seq 0 32))), 1, 1. split; [cbn; lia|]. split; [cbn; lia|exact E]. }
  destruct K as (r1 & last1 & id1 & H1 & H2 & K).
  destruct (rd1 (funcs r1) id1) as [p| |]; try discriminate. cbn [bind] in K.
  destruct (associated p f); [injection K as -> _ _; auto|]. cbn zeta in K.
  destruct (wr1 _ last1 (Some f)) as [fs| |] eqn:W in K; try discriminate. cbn [bind] in K. injection K as <- _ _.
  cbn [funcs names]. apply wr1_length in W. rewrite W.
  destruct (List.length (funcs r1) <? last1); auto. unfold grow. cbn [funcs names]. rewrite !app_length. lia.
Qed.
Lemma exec_room : forall junk c s s', room (sp s) -> exec junk c s = Ok s' -> room (sp s').
Proof.
  assert (Hset : forall junk p f s s', room (sp s) -> SetFunction junk p f s = Ok s' -> room (sp s')).
  { intros junk p f s s' H E. unfold SetFunction in E.
    destruct (FindOrAppend junk (sp s) (last s) f) as [[[r l] id]| |] eqn:F; try discriminate. cbn [bind] in E.
    injection E as <-. cbn [sp]. eapply foa_room; eassumption. }
  intros junk [p f|f|n f|p n] s s' H E; cbn [exec] in E.
  - eapply Hset; eassumption.
  - unfold SetTypeFunction in E. destruct (FindOrAppend junk (ig s) (last s) f) as [[[r l] id]| |]; try discriminate.
    cbn [bind] in E. injection E as <-. exact H.
  - unfold RegisterFunction in E.
    destruct (FindOrAppend junk (sp s) (last s) f) as [[[r l] id]| |] eqn:F; try discriminate. cbn [bind] in E.
    destruct (wr1 (names r) id (pad n)) as [ns| |] eqn:W; try discriminate. cbn [bind] in E. injection E as <-. cbn [sp].
    intros r0 Q. injection Q as <-. cbn [funcs names]. apply wr1_length in W. rewrite W.
    exact (foa_room _ _ _ _ _ _ _ H F r eq_refl).
  - unfold SelectFunction in E. destruct (GetFunction n (sp s)) as [[f|]| |]; try discriminate. cbn [bind] in E.
    eapply Hset; eassumption.
Qed.
Lemma run_room : forall junk cs s s', room (sp s) -> run junk cs s = Ok s' -> room (sp s').
Proof.
  induction cs as [|c cs IH]; intros s s' H E; cbn in E; [injection E as <-; exact H|].
  destruct (exec junk c s) as [s1| |] eqn:X; try discriminate. cbn in E. eapply IH; [|exact E]. eapply exec_room; eassumption.
Qed.
Lemma short_name : forall junk cs s p name, run junk cs start = Ok s -> String.length name < 32 -> exec junk (CSelect p name) s = UB.
Proof.
  intros junk cs s p name E Hn. assert (R : room (sp s)). { eapply run_room; [|exact E]. intros r Q. discriminate. }
  cbn [exec]. unfold SelectFunction, GetFunction. destruct (sp s) as [r|]; [|reflexivity].
  destruct (R r eq_refl) as [H1 H2]. unfold for_. destruct (List.length (funcs r)) as [|n]; [lia|].
  cbn [loop]. destruct (rd_ok (names r) 0 ltac:(lia)) as (a & -> & _). cbn [bind].
  unfold first32. rewrite (proj2 (Nat.leb_gt _ _)) by assumption. reflexivity.
Qed.

Lemma pad_first : forall name, 32 <= String.length name -> first32 name = Ok (pad name).
Proof. intros name H. unfold first32, pad. now rewrite (proj2 (Nat.leb_le _ _) H). Qed.

Lemma get_ok : forall junk s0 cs s l name f, spatial_inv junk s0 cs s l -> 32 <= String.length name ->
  (forall i, i < 32 -> junk i <> pad name) ->
  (exists n, name_of f cs = Some n /\ pad n = pad name) ->
  (forall g n, g <> f -> name_of g cs = Some n -> pad n <> pad name) ->
  GetFunction name (sp s) = Ok (Some f) /\ In f l.
Proof.
  intros junk s0 cs s l name f I Hn Hj (n & En & Ep) Hu.
  assert (Hf : In f l).
  { apply (i_in _ _ _ _ _ I). destruct (in_dec Nat.eq_dec f (functions cs)); auto.
    rewrite name_none in En by assumption. discriminate. }
  split; [|exact Hf].
  destruct (In_nth_error _ _ Hf) as (j & Ej).
  pose proof (i_names _ _ _ _ _ I) as N.
  destruct (i_rel _ _ _ _ _ I) as [[_ ->]|(r & E & (L & L' & F & D) & _ & Hl)]; [contradiction|].
  rewrite E in N |- *. cbn [old_names] in N. unfold GetFunction. rewrite L.
  pose proof (nth_lt _ _ _ Ej) as Hj'.
  destruct (for_inv (fun i (x : option nat) => (j < i -> x = Some f) /\ (i <= j -> x = None))
     (fun i func => do a <- rd (names r) i; do b <- first32 name; if String.eqb a b then rd (funcs r) i else Ok func) 32 None)
    as (x & Ex & Px & _).
  { split; [lia|reflexivity]. }
  { intros i x Hi [P1 P2]. rewrite (rd_some _ _ _ (N i Hi)), (pad_first name Hn). cbn [bind].
    destruct (Nat.eq_dec i j) as [->|Ne].
    - assert (Q : name_at junk l cs j = pad name) by (unfold name_at; rewrite Ej, En; exact Ep).
      rewrite Q, String.eqb_refl, (rd_some _ _ _ (F j ltac:(lia))), Ej. eexists. split; [reflexivity|]. split; [auto|lia].
    - assert (Q : name_at junk l cs i <> pad name).
      { unfold name_at. destruct (nth_error l i) as [g|] eqn:Eg; [|now apply Hj].
        destruct (name_of g cs) as [m|] eqn:Em; [|now apply Hj]. apply (Hu g m); auto.
        intros ->. apply Ne. apply (proj1 (NoDup_nth_error l)); auto. eapply nth_lt; eassumption. congruence. }
      apply String.eqb_neq in Q. rewrite Q. exists x. split; [reflexivity|]. split; intros; [apply P1|apply P2]; lia. }
  rewrite Ex. now rewrite Px by lia.
Qed.

Lemma names_partial : forall junk cs p name f,
  Forall spatial cs -> at_most 31 (functions cs) -> 32 <= String.length name ->
  (forall i, i < 32 -> junk i <> pad name) ->
  (exists n, name_of f cs = Some n /\ pad n = pad name) ->
  (forall g n, g <> f -> name_of g cs = Some n -> pad n <> pad name) ->
  exists s, run junk (cs ++ [CSelect p name]) start = Ok s /\ called s p = Ok f /\
    (forall q, q <> p -> called s q = answer (chosen q cs)).
Proof.
  intros junk cs p name f Hc (fs & Nf & If) Hn Hj Hex Hu.
  destruct (spatial_run junk start cs fs eq_refl (fun _ => eq_refl) Hc If Nf) as (s & l & E & I).
  destruct (get_ok junk start cs s l name f I Hn Hj Hex Hu) as [G Hf].
  destruct (spatial_step junk start cs s l (CSet p f) fs I Logic.I) as (s' & l' & E' & I'); auto.
  { rewrite functions_app. intros x Hx. apply in_app_iff in Hx. destruct Hx as [Hx|[<-|[]]]; [auto|].
    apply If. now apply (i_in _ _ _ _ _ I). }
  exists s'. rewrite run_app, E. cbn [bind run]. cbn [exec]. unfold SelectFunction. rewrite G. cbn [bind].
  cbn [exec] in E'. rewrite E'. split; [reflexivity|]. split.
  - rewrite (spatial_called _ _ _ _ _ I' p), chosen_snoc, Nat.eqb_refl. reflexivity.
  - intros q Hq. rewrite (spatial_called _ _ _ _ _ I' q), chosen_snoc, (proj2 (Nat.eqb_neq p q)) by auto. reflexivity.
Qed.

Definition name_a : string := "aaaaaaaaaaaaaaaaaaaaaaaaaaaaaaaa"%string.
Definition name_b : string := "bbbbbbbbbbbbbbbbbbbbbbbbbbbbbbbb"%string.
(** A second name replaces the first one; a name given again may mean the wrong function. *)
Lemma names_refuted :
  ~ (forall junk cs p name f, Forall spatial cs -> at_most 31 (functions cs) -> 32 <= String.length name ->
      named name cs = Some f -> exists s, run junk (cs ++ [CSelect p name]) start = Ok s).
Proof.
  intros H. specialize (H (fun _ => ""%string) [CRegister name_a 1; CRegister name_b 1] 0 name_a 1).
  destruct H as (s & E).
  - repeat constructor.
  - exists [1]. split; [cbn; lia|]. intros x. cbn. tauto.
  - cbn. lia.
  - reflexivity.
  - vm_compute in E. discriminate.
Qed.
Lemma again_refuted :
  ~ (forall junk cs p name f s, Forall spatial cs -> 32 <= String.length name ->
      named name cs = Some f -> run junk (cs ++ [CSelect p name]) start = Ok s -> called s p = Ok f).
Proof.
  intros H. specialize (H (fun _ => ""%string) [CRegister name_b 2; CRegister name_a 1; CRegister name_a 2] 0 name_a 2).
  specialize (H _ ltac:(repeat constructor) ltac:(cbn; lia) eq_refl eq_refl). vm_compute in H. discriminate.
Qed.

(** ** Calls *)
Lemma porosity_ok : forall c n x f, List.length x = 3 * n -> List.length f = n -> CallF90 (demo_porosity c) n x f = Ok (repeat c n).
Proof.
  intros c n x f Hx Hf. unfold CallF90, view. rewrite (proj2 (Nat.leb_le _ _)) by lia. cbn [bind].
  rewrite (proj2 (Nat.leb_le _ _)) by lia. cbn [bind]. unfold demo_porosity. cbn [bind].
  rewrite <- Hf, firstn_all, skipn_all, app_nil_r. f_equal. clear. induction f; cbn; congruence.
Qed.
Lemma pressure_UB : forall top n x f, 1 <= n -> List.length x = 3 * n -> List.length f = n -> CallF90 (demo_pressure top) n x f = UB.
Proof.
  intros top n x f Hn Hx Hf. unfold CallF90, view. rewrite (proj2 (Nat.leb_le _ _)) by lia. cbn [bind].
  rewrite (proj2 (Nat.leb_le _ _)) by lia. cbn [bind].
  assert (E : demo_pressure top n (firstn n x) (firstn n f) = UB); [|now rewrite E].
  unfold demo_pressure, for_.
  assert (Lx : List.length (firstn n x) = n) by (rewrite firstn_length; lia).
  (* the pass that reads element n+1 *)
  assert (K : forall m k g, m + k = n -> k * 3 <= n + 2 -> 1 <= m ->
    loop m k (fun i (f : list R) => do a <- rd (firstn n x) (3 * i); do b <- rd (firstn n x) (3 * i + 1); do c <- rd (firstn n x) (3 * i + 2);
            Ok (map (fun _ => if top a b c then 111325%R else 70000%R) f)) g = UB).
  { induction m as [|m IH]; intros k g Hk Hb Hm; [lia|]. cbn [loop].
    destruct (Nat.lt_ge_cases (3 * k) n) as [A|A].
    2:{ unfold rd at 1. rewrite (proj2 (nth_error_None _ _)) by lia. reflexivity. }
    destruct (rd_ok (firstn n x) (3 * k) ltac:(lia)) as (a & -> & _). cbn [bind].
    destruct (Nat.lt_ge_cases (3 * k + 1) n) as [B|B].
    2:{ unfold rd at 1. rewrite (proj2 (nth_error_None _ _)) by lia. reflexivity. }
    destruct (rd_ok (firstn n x) (3 * k + 1) ltac:(lia)) as (b & -> & _). cbn [bind].
    destruct (Nat.lt_ge_cases (3 * k + 2) n) as [C|C].
    2:{ unfold rd at 1. rewrite (proj2 (nth_error_None _ _)) by lia. reflexivity. }
    destruct (rd_ok (firstn n x) (3 * k + 2) ltac:(lia)) as (c & -> & _). cbn [bind].
    apply IH; lia. }
  apply K; lia.
Qed.

(** ** Constructors *)
Lemma ctor_last : forall t fs s f, mesh_of (fold_left (fun s c => set_ctor c s) (map (SetF t) (fs ++ [f])) s) t =
  match c_ctor s t with Some g => FromC g | None => FromFortran f end.
Proof.
  intros t fs s f. rewrite map_app, fold_left_app. cbn [map fold_left set_ctor].
  unfold mesh_of. cbn [c_ctor f_ctor].
  assert (E : c_ctor (fold_left (fun s c => set_ctor c s) (map (SetF t) fs) s) = c_ctor s).
  { revert s. induction fs as [|g fs IH]; intros s; cbn; [reflexivity|]. now rewrite IH. }
  now rewrite E.
Qed.
Lemma ctor_refuted : ~ (forall cs t f, (forall g, ~ In (SetF t g) cs) -> (forall g, ~ In (SetC t g) cs) ->
  mesh_of (fold_left (fun s c => set_ctor c s) cs no_ctors) t <> FromFortran f).
Proof.
  intros H. apply (H [SetF 1 5] 0 5).
  - intros g [Q|[]]. discriminate.
  - intros g [Q|[]]. discriminate.
  - reflexivity.
Qed.
