From Coq Require Import List Arith ZArith Lia Bool Permutation.
From Verif Require Import Prelude Arrays UGrid UGridLoops SpecUGrid UGridProofs UGridNumProofs.
Import ListNotations.
Local Open Scope Z_scope.

Lemma upd_same : forall {A} (l : list A) i x, nth_error l i = Some x -> upd l i x = l.
Proof.
  intros A l; induction l as [|y l IH]; intros [|i] x H; simpl in *; try discriminate; [congruence|].
  f_equal. apply IH. exact H.
Qed.

(** ** Collecting selected entries while marking them *)
Section collecting.
Context (n m : nat) (addr : nat -> nat -> nat) (v : list Z).
Hypothesis ainj : forall i j i' j', (i < n)%nat -> (j < m)%nat -> (i' < n)%nat -> (j' < m)%nat ->
  addr i j = addr i' j' -> i = i' /\ j = j'.
Hypothesis alt : forall i j, (i < n)%nat -> (j < m)%nat -> (addr i j < length v)%nat.
Context (sel : Z -> bool) (mark : nat -> Z) (other : Z -> Z).
Context (body : nat -> nat -> nat * list Z * list Z -> outcome (nat * list Z * list Z)).
Let val i j := nth (addr i j) v 0.
Let C := cnt (flat m (fun i j => sel (val i j))).

Hypothesis body_sel : forall i j c a w, (i < n)%nat -> (j < m)%nat -> nth_error w (addr i j) = Some (val i j) ->
  sel (val i j) = true -> (c < length a)%nat ->
  body i j (c, a, w) = Ok (S c, upd a c (val i j), upd w (addr i j) (mark c)).
Hypothesis body_other : forall i j c a w, (i < n)%nat -> (j < m)%nat -> nth_error w (addr i j) = Some (val i j) ->
  sel (val i j) = false -> body i j (c, a, w) = Ok (c, a, upd w (addr i j) (other (val i j))).

Definition collected_slot (i j : nat) : Z :=
  if sel (val i j) then mark (C (i * m + j)) else other (val i j).

Lemma val_read : forall i j, (i < n)%nat -> (j < m)%nat -> nth_error v (addr i j) = Some (val i j).
Proof. intros i j Hi Hj. apply nth_error_nth'. apply alt; assumption. Qed.

Lemma collecting_ok : exists a w,
  for_ n (fun i s => for_ m (fun j s => body i j s) s) (0%nat, repeat 0 (C (n * m)), v) = Ok (C (n * m), a, w) /\
  length a = C (n * m) /\
  (forall i j, (i < n)%nat -> (j < m)%nat -> sel (val i j) = true -> nth_error a (C (i * m + j)) = Some (val i j)) /\
  length w = length v /\
  (forall i j, (i < n)%nat -> (j < m)%nat -> nth_error w (addr i j) = Some (collected_slot i j)) /\
  (forall q, (forall i j, (i < n)%nat -> (j < m)%nat -> q <> addr i j) -> nth_error w q = nth_error v q).
Proof.
  destruct (nested_inv (fun k st => let '(c, a, w) := st in c = C k /\ length a = C (n * m) /\
      (forall i j, (i < n)%nat -> (j < m)%nat -> (i * m + j < k)%nat -> sel (val i j) = true ->
        nth_error a (C (i * m + j)) = Some (val i j)) /\
      frame n m addr v collected_slot k w) body n m (0%nat, repeat 0 (C (n * m)), v))
    as [[[c a] w] [E [-> [HL [HA HF]]]]].
  - split; [reflexivity|]. split; [apply repeat_length|]. split; [intros; lia|]. apply frame_0.
  - intros i j [[c a] w] Hi Hj [-> [HL [HA HF]]].
    pose proof (frame_read n m addr v collected_slot ainj i j w Hi Hj HF) as HR. rewrite val_read in HR by assumption.
    pose proof (frame_step n m addr v collected_slot ainj alt i j w Hi Hj HF) as HS.
    assert (HC : C (S (i * m + j)) = if sel (val i j) then S (C (i * m + j)) else C (i * m + j)).
    { unfold C. cbn [cnt]. rewrite flat_at by exact Hj. reflexivity. }
    unfold collected_slot in HS at 2. destruct (sel (val i j)) eqn:Es.
    + assert (HB : (C (i * m + j) < C (n * m))%nat).
      { apply cnt_lt; [apply flat_lt; assumption|]. rewrite flat_at by exact Hj. exact Es. }
      rewrite body_sel by (assumption || lia). eexists. split; [reflexivity|]. cbn beta iota zeta.
      split; [symmetry; exact HC|]. split; [rewrite length_upd; exact HL|]. split; [|exact HS].
      intros i' j' Hi' Hj' Hk Es'. destruct (Nat.eq_dec (i' * m + j') (i * m + j)) as [E|N].
      * pose proof (flat_inj _ _ _ _ _ Hj' Hj E) as [-> ->]. rewrite nth_upd_same by lia. reflexivity.
      * assert (HB' : (C (i' * m + j') < C (i * m + j))%nat).
        { apply cnt_lt; [lia|]. rewrite flat_at by exact Hj'. exact Es'. }
        rewrite nth_upd_other by lia. apply HA; [assumption|assumption|lia|assumption].
    + rewrite body_other by assumption. eexists. split; [reflexivity|]. cbn beta iota zeta.
      split; [symmetry; exact HC|]. split; [exact HL|]. split; [|exact HS].
      intros i' j' Hi' Hj' Hk Es'. apply HA; [assumption|assumption| |assumption].
      destruct (Nat.eq_dec (i' * m + j') (i * m + j)) as [E|N]; [|lia].
      pose proof (flat_inj _ _ _ _ _ Hj' Hj E) as [-> ->]. congruence.
  - exists a, w. split; [exact E|]. split; [exact HL|]. split.
    + intros i j Hi Hj Es. apply HA; [assumption|assumption| |assumption]. apply flat_lt; assumption.
    + apply frame_end in HF. exact HF.
Qed.

(** Everything in the array comes from a selected slot. *)
Lemma collected_from : forall (a : list Z), length a = C (n * m) ->
  (forall i j, (i < n)%nat -> (j < m)%nat -> sel (val i j) = true -> nth_error a (C (i * m + j)) = Some (val i j)) ->
  forall x, In x a -> exists i j, (i < n)%nat /\ (j < m)%nat /\ sel x = true /\ val i j = x.
Proof.
  intros a HL HA x Hx. apply In_nth_error in Hx. destruct Hx as [r Er].
  destruct (cnt_ex (flat m (fun i j => sel (val i j))) (n * m) r) as [k [Hk [Es Ek]]].
  { apply nth_lt in Er. rewrite HL in Er. exact Er. }
  destruct (flat_decomp m n k Hk) as [i [j [Hi [Hj ->]]]]. rewrite flat_at in Es by exact Hj.
  exists i, j. pose proof (HA i j Hi Hj Es) as EA. unfold C in EA. rewrite Ek, Er in EA. injection EA as ->. auto.
Qed.
End collecting.

(** ** Neighbour numbers local to a process *)
Section local.
Context (sort : list Z -> list nat).
Hypothesis Hsort : forall a, sorts a (sort a).
Context (stride doff nl maxd : nat) (off : Z) (v : list Z).
Hypothesis Hs : (doff + maxd <= stride)%nat.
Hypothesis Hv : length v = (nl * stride)%nat.
Let slot := at_slot stride doff.
Let d (i id : nat) : Z := nth (slot i id) v 0.
Hypothesis Hpos : forall i id, (i < nl)%nat -> (id < maxd)%nat -> 0 <= d i id.

Lemma l_slot_lt : forall i id, (i < nl)%nat -> (id < maxd)%nat -> (slot i id < length v)%nat.
Proof. intros i id Hi Hid. unfold slot, at_slot. rewrite Hv. nia. Qed.
Lemma l_slot_inj : forall i j i' j', (i < nl)%nat -> (j < maxd)%nat -> (i' < nl)%nat -> (j' < maxd)%nat ->
  slot i j = slot i' j' -> i = i' /\ j = j'.
Proof.
  intros i j i' j' Hi Hj Hi' Hj' E. unfold slot, at_slot in E. rewrite <- !Nat.add_assoc in E.
  apply flat_inj in E; lia.
Qed.
Lemma l_slot_read : forall i id, (i < nl)%nat -> (id < maxd)%nat -> nth_error v (slot i id) = Some (d i id).
Proof. intros. apply nth_error_nth'. apply l_slot_lt; assumption. Qed.

Let gsel (x : Z) : bool := (0 <? x) && is_ghost nl off x.
Let C := cnt (flat maxd (fun i j => gsel (d i j))).

Lemma count_ghosts_ok : count_ghosts stride doff nl maxd off v = Ok (C (nl * maxd)).
Proof.
  unfold count_ghosts.
  destruct (nested_inv (fun k c => c = C k) (fun i j c => do x <- rd v (slot i j);
      Ok (if 0 <? x then (if is_ghost nl off x then S c else c) else c)) nl maxd 0%nat) as [c [E ->]];
    [reflexivity| |exact E].
  intros i j c Hi Hj ->. rewrite (rd_some _ _ _ (l_slot_read i j Hi Hj)). cbn [bind].
  eexists. split; [reflexivity|]. unfold C. cbn [cnt]. rewrite flat_at by exact Hj. unfold gsel.
  destruct (0 <? d i j); cbn [andb]; [|reflexivity]. reflexivity.
Qed.

Lemma to_local_ok : exists ghosts w, to_local sort stride doff nl maxd off v = Ok (ghosts, w) /\
  increasing ghosts /\ length w = length v /\
  (forall g, In g ghosts -> 0 <= g /\ (g + 1 <= off \/ off + Z.of_nat nl < g + 1) /\
     exists i id, (i < nl)%nat /\ (id < maxd)%nat /\ d i id = g + 1) /\
  (forall i id, (i < nl)%nat -> (id < maxd)%nat -> d i id = 0 -> nth_error w (slot i id) = Some 0) /\
  (forall i id, (i < nl)%nat -> (id < maxd)%nat -> 0 < d i id ->
     exists k, nth_error w (slot i id) = Some (Z.of_nat (S k)) /\
       (k < nl + length ghosts)%nat /\
       global_number off nl ghosts k = Some (d i id - 1)) /\
  (forall q, (forall i id, (i < nl)%nat -> (id < maxd)%nat -> q <> slot i id) -> nth_error w q = nth_error v q).
Proof.
  unfold to_local. rewrite count_ghosts_ok. cbn [bind]. unfold collect_ghosts.
  set (body := fun (ic id : nat) (st : nat * list Z * list Z) =>
      let '(c, a1, v) := st in
      do d <- rd v (slot ic id);
      if 0 <? d then
        if is_ghost nl off d then
          do a1 <- wr a1 c d; do v <- wr v (slot ic id) (- Z.of_nat (S c)); Ok (S c, a1, v)
        else
          do v <- wr v (slot ic id) (d - off); Ok (c, a1, v)
      else Ok st).
  set (other := fun x => if 0 <? x then x - off else x).
  destruct (collecting_ok nl maxd slot v l_slot_inj l_slot_lt gsel (fun c => - Z.of_nat (S c)) other body)
    as [a [w [E [HLa [HA [HLw [HW HWo]]]]]]].
  { intros i j c a w Hi Hj Er Es Hc. unfold body. fold (d i j) in *. rewrite (rd_some _ _ _ Er). cbn [bind].
    unfold gsel in Es. apply andb_true_iff in Es. destruct Es as [E0 E1]. rewrite E0, E1.
    rewrite wr_ok by exact Hc. cbn [bind]. rewrite wr_ok by (apply nth_lt in Er; exact Er). reflexivity. }
  { intros i j c a w Hi Hj Er Es. unfold body, other. fold (d i j) in *. rewrite (rd_some _ _ _ Er). cbn [bind].
    unfold gsel in Es. destruct (0 <? d i j) eqn:E0; cbn [andb] in Es.
    - rewrite Es. rewrite wr_ok by (apply nth_lt in Er; exact Er). reflexivity.
    - rewrite upd_same by exact Er. reflexivity. }
  change (for_ nl (fun ic st => for_ maxd (fun id st => body ic id st) st) (0%nat, repeat 0 (C (nl * maxd)), v)
     = Ok (C (nl * maxd), a, w)) in E.
  change (length a = C (nl * maxd)) in HLa.
  change (forall i j, (i < nl)%nat -> (j < maxd)%nat -> gsel (d i j) = true -> nth_error a (C (i * maxd + j)) = Some (d i j)) in HA.
  change (forall i j, (i < nl)%nat -> (j < maxd)%nat -> nth_error w (slot i j) =
     Some (if gsel (d i j) then - Z.of_nat (S (C (i * maxd + j))) else other (d i j))) in HW.
  pose proof (collected_from nl maxd slot v gsel a HLa HA) as HFrom.
  match goal with |- context [for_ nl ?f ?s] => replace (for_ nl f s) with (@Ok (nat * list Z * list Z) (C (nl * maxd), a, w)) by (symmetry; exact E) end.
  cbn [bind].
  assert (HOwn : forall i id, (i < nl)%nat -> (id < maxd)%nat -> 0 < d i id -> gsel (d i id) = false ->
     exists k, other (d i id) = Z.of_nat (S k) /\ (k < nl)%nat /\ off + Z.of_nat k = d i id - 1).
  { intros i id Hi Hid H0 Es. unfold gsel in Es. replace (0 <? d i id) with true in Es by (symmetry; apply Z.ltb_lt; exact H0).
    cbn [andb] in Es. unfold is_ghost in Es. apply orb_false_iff in Es. destruct Es as [Ea Eb].
    apply Z.leb_gt in Ea. apply Z.ltb_ge in Eb.
    exists (Z.to_nat (d i id - off - 1)). unfold other.
    replace (0 <? d i id) with true by (symmetry; apply Z.ltb_lt; exact H0). split; [lia|]. split; lia. }
  assert (HNeg : forall i id, (i < nl)%nat -> (id < maxd)%nat -> gsel (d i id) = false -> 0 <= other (d i id)).
  { intros i id Hi Hid Es. destruct (Z.lt_ge_cases 0 (d i id)) as [H0|H0].
    - destruct (HOwn i id Hi Hid H0 Es) as [k [-> _]]. lia.
    - unfold other. destruct (Z.ltb_spec 0 (d i id)); [lia|]. apply Hpos; assumption. }
  destruct (Nat.ltb_spec 0 (C (nl * maxd))) as [Hc|Hc].
  - set (a' := map (fun x => x - 1) a).
    assert (HLa' : length a' = C (nl * maxd)) by (unfold a'; rewrite map_length; exact HLa).
    destruct (rank_ghosts_ok sort Hsort a') as [t [a3 [a4 [a5 [Er [HInc [HLen [HRk HIn]]]]]]]]; [lia|].
    rewrite Er. cbn [bind].
    set (ghosts := firstn (S t) a3) in *.
    (* the new label of a ghost slot *)
    assert (HLab : forall i id, (i < nl)%nat -> (id < maxd)%nat -> gsel (d i id) = true ->
       exists g r, nth_error a5 (C (i * maxd + id)) = Some (Z.of_nat g) /\ nth_error a4 g = Some (Z.of_nat r) /\
       nth_error ghosts r = Some (d i id - 1)).
    { intros i id Hi Hid Es. apply HRk. unfold a'. rewrite nth_error_map, HA by assumption. reflexivity. }
    set (G := fun i id => if gsel (d i id)
       then nth (Z.to_nat (nth (C (i * maxd + id)) a5 0)) a4 0 + Z.of_nat nl + 1 else other (d i id)).
    assert (alt' : forall i j, (i < nl)%nat -> (j < maxd)%nat -> (slot i j < length w)%nat)
      by (intros; rewrite HLw; apply l_slot_lt; assumption).
    unfold relabel.
    destruct (nested_inv (fun k u => frame nl maxd slot w G k u)
       (fun i id u => do x <- rd u (slot i id);
         if x <? 0 then do idx <- rdz a5 (- x - 1); do r <- rdz a4 idx; wr u (slot i id) (r + Z.of_nat nl + 1) else Ok u)
       nl maxd w) as [u [Eu HU]].
    { apply frame_0. }
    { intros i id u Hi Hid HF.
      pose proof (frame_read nl maxd slot w G l_slot_inj i id u Hi Hid HF) as HR.
      rewrite HW in HR by assumption. rewrite (rd_some _ _ _ HR). cbn [bind].
      destruct (gsel (d i id)) eqn:Es.
      - destruct (HLab i id Hi Hid Es) as [g [r [E5 [E4 _]]]].
        destruct (Z.ltb_spec (- Z.of_nat (S (C (i * maxd + id)))) 0) as [_|Hx]; [|lia].
        replace (- - Z.of_nat (S (C (i * maxd + id))) - 1) with (Z.of_nat (C (i * maxd + id))) by lia.
        rewrite rdz_nat, (rd_some _ _ _ E5). cbn [bind]. rewrite rdz_nat, (rd_some _ _ _ E4). cbn [bind].
        rewrite wr_ok by (apply nth_lt in HR; exact HR). eexists. split; [reflexivity|].
        replace (Z.of_nat r + Z.of_nat nl + 1) with (G i id).
        + apply frame_step; [exact l_slot_inj|exact alt'|assumption|assumption|exact HF].
        + unfold G. rewrite Es. rewrite (nth_error_nth _ _ _ E5), Nat2Z.id. rewrite (nth_error_nth _ _ _ E4). reflexivity.
      - pose proof (HNeg i id Hi Hid Es). destruct (Z.ltb_spec (other (d i id)) 0); [lia|].
        eexists. split; [reflexivity|]. apply frame_keep; [exact l_slot_inj|assumption|assumption|exact HF|].
        rewrite HW by assumption. unfold G. rewrite Es. reflexivity. }
    unfold slot in Eu. rewrite Eu. cbn [bind]. apply frame_end in HU. destruct HU as [HU1 [HU2 HU3]].
    exists ghosts, u. split; [reflexivity|]. split; [exact HInc|]. split; [congruence|]. split.
    { intros g Hg. apply In_nth_error in Hg. destruct Hg as [r Eg]. apply HIn in Eg. unfold a' in Eg.
      apply in_map_iff in Eg. destruct Eg as [x [Ex Hx]]. destruct (HFrom x Hx) as [i [id [Hi [Hid [Es Ed]]]]].
      unfold gsel in Es. apply andb_true_iff in Es. destruct Es as [Es0 Es]. unfold is_ghost in Es.
      apply orb_true_iff in Es. apply Z.ltb_lt in Es0. split; [lia|]. split.
      - destruct Es as [Es|Es]; [apply Z.leb_le in Es; left; lia|apply Z.ltb_lt in Es; right; lia].
      - exists i, id. split; [exact Hi|]. split; [exact Hid|]. fold (d i id) in Ed. lia. }
    split.
    { intros i id Hi Hid E0. rewrite HU2 by assumption. unfold G, gsel. rewrite E0. reflexivity. }
    split.
    { intros i id Hi Hid H0. destruct (gsel (d i id)) eqn:Es.
      - destruct (HLab i id Hi Hid Es) as [g [r [E5 [E4 EG]]]].
        exists (nl + r)%nat. assert (Hr : (r < length ghosts)%nat) by (apply nth_lt in EG; exact EG).
        split; [|split].
        + rewrite HU2 by assumption. unfold G. rewrite Es, (nth_error_nth _ _ _ E5), Nat2Z.id, (nth_error_nth _ _ _ E4).
          f_equal. lia.
        + lia.
        + unfold global_number. destruct (Nat.ltb_spec (nl + r) nl); [lia|].
          replace (nl + r - nl)%nat with r by lia. exact EG.
      - destruct (HOwn i id Hi Hid H0 Es) as [k [Ek [Hk Eo]]]. exists k. split; [|split].
        + rewrite HU2 by assumption. unfold G. rewrite Es. congruence.
        + lia.
        + unfold global_number. destruct (Nat.ltb_spec k nl); [|lia]. congruence. }
    { intros q Hq. rewrite HU3 by exact Hq. apply HWo. exact Hq. }
  - assert (Hno : forall i id, (i < nl)%nat -> (id < maxd)%nat -> gsel (d i id) = false).
    { intros i id Hi Hid. destruct (gsel (d i id)) eqn:Es; [|reflexivity].
      assert (C (i * maxd + id) < C (nl * maxd))%nat; [|lia].
      apply cnt_lt; [apply flat_lt; assumption|]. rewrite flat_at by exact Hid. exact Es. }
    exists [], w. split; [reflexivity|]. split; [intros i j x y _ Ex; destruct i; discriminate Ex|].
    split; [exact HLw|]. split; [intros g []|]. split; [|split].
    + intros i id Hi Hid E0. rewrite HW by assumption. rewrite Hno by assumption. unfold other. rewrite E0. reflexivity.
    + intros i id Hi Hid H0. destruct (HOwn i id Hi Hid H0 (Hno i id Hi Hid)) as [k [Ek [Hk Eo]]]. exists k.
      split; [|split].
      * rewrite HW by assumption. rewrite Hno by assumption. congruence.
      * simpl. lia.
      * unfold global_number. destruct (Nat.ltb_spec k nl); [|lia]. congruence.
    + exact HWo.
Qed.
End local.

(** ** The remaining arrays of a process *)
Section tables.
Context (stride doff nl maxd : nat) (w : list Z).
Hypothesis Hs : (doff + maxd <= stride)%nat.
Hypothesis Hw : length w = (nl * stride)%nat.
Let slot := at_slot stride doff.

Lemma t_slot_lt : forall i id, (i < nl)%nat -> (id < maxd)%nat -> (slot i id < nl * stride)%nat.
Proof. intros i id Hi Hid. unfold slot, at_slot. nia. Qed.

(** Each ghost number receives the natural number found beside it. *)
Lemma update_natural_ok : forall ng nat_ids vn (natof : nat -> Z),
  length vn = (nl * stride)%nat -> (nl <= length nat_ids)%nat ->
  (forall i id, (i < nl)%nat -> (id < maxd)%nat -> exists x, nth_error w (slot i id) = Some x /\ 0 <= x <= Z.of_nat (nl + ng) /\
     (Z.of_nat nl < x -> nth_error vn (slot i id) = Some (natof (Z.to_nat (x - 1)) + 1))) ->
  exists a, update_natural stride doff nl maxd ng nat_ids vn w = Ok a /\ length a = (nl + ng)%nat /\
  (forall i, (i < nl)%nat -> nth_error a i = nth_error nat_ids i) /\
  (forall i id k, (i < nl)%nat -> (id < maxd)%nat -> nth_error w (slot i id) = Some (Z.of_nat (S k)) -> (nl <= k)%nat ->
     nth_error a k = Some (natof k)).
Proof.
  intros ng nat_ids vn natof Hvn Hn HX. unfold update_natural.
  destruct (for_inv (fun k a => length a = (nl + ng)%nat /\ forall i, (i < k)%nat -> nth_error a i = nth_error nat_ids i)
     (fun ic a => do x <- rd nat_ids ic; wr a ic x) nl (repeat (-1) (nl + ng))) as [a0 [E0 [HL0 H0]]].
  { split; [apply repeat_length|]. intros; lia. }
  { intros i s Hi [HL H]. destruct (rd_ok nat_ids i) as [x [Ex Nx]]; [lia|]. rewrite Ex. cbn [bind].
    rewrite wr_ok by lia. eexists. split; [reflexivity|]. split; [rewrite length_upd; exact HL|].
    intros i' Hi'. destruct (Nat.eq_dec i i') as [<-|N]; [rewrite nth_upd_same by lia; congruence|].
    rewrite nth_upd_other by exact N. apply H. lia. }
  rewrite E0. cbn [bind].
  destruct (nested_inv (fun t a => length a = (nl + ng)%nat /\
      (forall i, (i < nl)%nat -> nth_error a i = nth_error nat_ids i) /\
      (forall i id k, (i < nl)%nat -> (id < maxd)%nat -> (i * maxd + id < t)%nat ->
         nth_error w (slot i id) = Some (Z.of_nat (S k)) -> (nl <= k)%nat -> nth_error a k = Some (natof k)))
    (fun ic id a => do x <- rd w (slot ic id);
      if 0 <=? x then if Z.of_nat nl <? x then do y <- rd vn (slot ic id); wrz a (x - 1) (y - 1) else Ok a else Ok a)
    nl maxd a0) as [a [E [HL [H1 H2]]]].
  - split; [exact HL0|]. split; [exact H0|]. intros; lia.
  - intros i id s Hi Hid [HL [H1 H2]]. destruct (HX i id Hi Hid) as [x [Ex [Hx Hgh]]].
    rewrite (rd_some _ _ _ Ex). cbn [bind]. destruct (Z.leb_spec 0 x); [|lia].
    destruct (Z.ltb_spec (Z.of_nat nl) x) as [Hlt|Hge].
    + rewrite (rd_some _ _ _ (Hgh Hlt)). cbn [bind].
      replace (x - 1) with (Z.of_nat (Z.to_nat (x - 1))) by lia. rewrite wrz_nat, Nat2Z.id.
      rewrite wr_ok by lia. eexists. split; [reflexivity|].
      replace (natof (Z.to_nat (x - 1)) + 1 - 1) with (natof (Z.to_nat (x - 1))) by lia.
      split; [rewrite length_upd; exact HL|]. split.
      * intros i' Hi'. rewrite nth_upd_other by lia. apply H1. exact Hi'.
      * intros i' id' k Hi' Hid' Ht Ek Hk. destruct (Nat.eq_dec (Z.to_nat (x - 1)) k) as [<-|N].
        -- rewrite nth_upd_same by lia. reflexivity.
        -- rewrite nth_upd_other by exact N. eapply H2; [exact Hi'|exact Hid'| |exact Ek|exact Hk].
           destruct (Nat.eq_dec (i' * maxd + id') (i * maxd + id)) as [E|N']; [|lia].
           pose proof (flat_inj _ _ _ _ _ Hid' Hid E) as [-> ->]. rewrite Ex in Ek. injection Ek as ->. exfalso. apply N. lia.
    + eexists. split; [reflexivity|]. split; [exact HL|]. split; [exact H1|].
      intros i' id' k Hi' Hid' Ht Ek Hk. eapply H2; [exact Hi'|exact Hid'| |exact Ek|exact Hk].
      destruct (Nat.eq_dec (i' * maxd + id') (i * maxd + id)) as [E|N']; [|lia].
      pose proof (flat_inj _ _ _ _ _ Hid' Hid E) as [-> ->]. rewrite Ex in Ek. injection Ek as ->. lia.
  - exists a. split; [exact E|]. split; [exact HL|]. split; [exact H1|].
    intros i id k Hi Hid Ek Hk. eapply H2; [exact Hi|exact Hid| |exact Ek|exact Hk]. apply flat_lt; assumption.
Qed.

(** The neighbour row of a cell whose slots hold [ks] followed by zeros. *)
Lemma neighbours_ok : forall i (ks : list nat), (i < nl)%nat -> (length ks <= maxd)%nat ->
  (forall id, (id < maxd)%nat -> nth_error w (slot i id) =
     Some (match nth_error ks id with Some k => Z.of_nat (S k) | None => 0 end)) ->
  exists row, neighbours stride doff nl maxd w i = Ok (length ks, row) /\ length row = maxd /\
  forall id k, nth_error ks id = Some k ->
    nth_error row id = Some (if (k <? nl)%nat then Z.of_nat k else - Z.of_nat k).
Proof.
  intros i ks Hi HL HX. unfold neighbours.
  destruct (for_inv (fun t st => fst st = Nat.min t (length ks) /\ length (snd st) = maxd /\
      forall id k, (id < t)%nat -> nth_error ks id = Some k ->
      nth_error (snd st) id = Some (if (k <? nl)%nat then Z.of_nat k else - Z.of_nat k))
    (fun id (st : nat * list Z) => let (c, row) := st in do d <- rd w (slot i id);
      if 0 <? d then do row <- wr row id (if Z.of_nat nl <? d then - d + 1 else d - 1); Ok (S c, row) else Ok st)
    maxd (0%nat, repeat (-1) maxd)) as [[c row] [E [Hc [HR HV]]]].
  - split; [reflexivity|]. split; [apply repeat_length|]. intros; lia.
  - intros id [c row] Hid [Hc [HR HV]]. cbn [fst snd] in *.
    rewrite (rd_some _ _ _ (HX id Hid)). cbn [bind].
    destruct (nth_error ks id) as [k|] eqn:Ek.
    + assert (Hlt : (id < length ks)%nat) by (apply nth_lt in Ek; exact Ek).
      destruct (Z.ltb_spec 0 (Z.of_nat (S k))); [|lia].
      rewrite wr_ok by lia. cbn [bind]. eexists. split; [reflexivity|]. cbn [fst snd].
      split; [lia|]. split; [rewrite length_upd; exact HR|].
      intros id' k' Hid' Ek'. destruct (Nat.eq_dec id id') as [<-|N].
      * rewrite nth_upd_same by lia. rewrite Ek in Ek'. injection Ek' as <-. f_equal.
        destruct (Z.ltb_spec (Z.of_nat nl) (Z.of_nat (S k))), (Nat.ltb_spec k nl); lia.
      * rewrite nth_upd_other by exact N. apply HV; [lia|exact Ek'].
    + cbn [Z.ltb Z.compare]. eexists. split; [reflexivity|]. cbn [fst snd].
      apply nth_error_None in Ek. split; [lia|]. split; [exact HR|].
      intros id' k' Hid' Ek'. apply HV; [|exact Ek']. apply nth_lt in Ek'. lia.
  - cbn [fst snd] in *. exists row. replace (length ks) with c by lia. split; [exact E|]. split; [exact HR|].
    intros id k Ek. apply HV; [|exact Ek]. apply nth_lt in Ek. lia.
Qed.
End tables.

Lemma all_neighbours_ok : forall stride doff nl maxd w (f : nat -> nat * list Z),
  (forall i, (i < nl)%nat -> neighbours stride doff nl maxd w i = Ok (f i)) ->
  exists a, all_neighbours stride doff nl maxd w = Ok a /\ length a = nl /\
  forall i, (i < nl)%nat -> nth_error a i = Some (f i).
Proof.
  intros stride doff nl maxd w f Hf. unfold all_neighbours.
  destruct (for_inv (fun k a => length a = nl /\ forall i, (i < k)%nat -> nth_error a i = Some (f i))
     (fun ic (a : list (nat * list Z)) => do r <- neighbours stride doff nl maxd w ic; wr a ic r) nl
     (repeat (0%nat, []) nl)) as [a [E [HL H]]].
  - split; [apply repeat_length|]. intros; lia.
  - intros i s Hi [HL H]. rewrite Hf by exact Hi. cbn [bind]. rewrite wr_ok by lia.
    eexists. split; [reflexivity|]. split; [rewrite length_upd; exact HL|].
    intros i' Hi'. destruct (Nat.eq_dec i i') as [<-|N]; [apply nth_upd_same; lia|].
    rewrite nth_upd_other by exact N. apply H. lia.
  - exists a. auto.
Qed.

(** ** Reserved matrix entries *)
Lemma preallocate_ok : forall num row, (num <= length row)%nat ->
  preallocate (num, row) = Ok (S (length (filter (fun x => 0 <=? x) (firstn num row))),
                               length (filter (fun x => x <? 0) (firstn num row))).
Proof.
  intros num row H. unfold preallocate.
  destruct (for_inv (fun t dn => dn = (S (length (filter (fun x => 0 <=? x) (firstn t row))),
                               length (filter (fun x => x <? 0) (firstn t row))))
    (fun k (dn : nat * nat) => let (d, o) := dn in do x <- rd row k; Ok (if 0 <=? x then (S d, o) else (d, S o)))
    num (1%nat, 0%nat)) as [dn [E ->]]; [reflexivity| |exact E].
  intros k dn Hk ->. cbn beta iota zeta. destruct (rd_ok row k) as [x [Ex Nx]]; [lia|]. rewrite Ex. cbn [bind].
  eexists. split; [reflexivity|].
  assert (HF : firstn (S k) row = firstn k row ++ [x]).
  { clear - Nx. revert k Nx. induction row as [|y l IH]; intros [|k] Nx; try discriminate Nx.
    - injection Nx as ->. reflexivity.
    - change (y :: firstn (S k) l = y :: firstn k l ++ [x]). f_equal. apply IH. exact Nx. }
  rewrite HF, !filter_app, !app_length. cbn [filter].
  destruct (Z.leb_spec 0 x), (Z.ltb_spec x 0); try lia; cbn [length]; f_equal; lia.
Qed.
