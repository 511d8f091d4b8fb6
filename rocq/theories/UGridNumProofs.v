From Coq Require Import List Arith ZArith Lia Bool Permutation.
From Verif Require Import Prelude Arrays UGrid UGridLoops SpecUGrid UGridProofs.
Import ListNotations.
Local Open Scope Z_scope.

(** ** From natural to PETSc numbers *)
Section global.
Context (stride doff nl maxd : nat) (ao nat_ids v : list Z).
Hypothesis Hd : (0 < doff)%nat.
Hypothesis Hs : (doff + maxd <= stride)%nat.
Hypothesis Hv : length v = (nl * stride)%nat.
Hypothesis Hnat : (nl <= length nat_ids)%nat.

Let M := S maxd.
Definition val_at (i id : nat) : Z := nth (at_slot stride doff i id) v 0.
Let sel (i j : nat) : bool := match j with O => true | S id => 0 <? val_at i id end.
Let val (i j : nat) : Z := match j with O => nth i nat_ids 0 | S id => val_at i id - 1 end.
Let addr (i j : nat) : nat := match j with O => (i * stride)%nat | S id => at_slot stride doff i id end.
Let C := cnt (flat M sel).

Lemma slot_lt : forall i id, (i < nl)%nat -> (id < maxd)%nat -> (at_slot stride doff i id < length v)%nat.
Proof. intros i id Hi Hid. unfold at_slot. rewrite Hv. nia. Qed.
Lemma slot_read : forall i id, (i < nl)%nat -> (id < maxd)%nat ->
  nth_error v (at_slot stride doff i id) = Some (val_at i id).
Proof. intros i id Hi Hid. apply nth_error_nth'. apply slot_lt; assumption. Qed.

Lemma addr_lt : forall i j, (i < nl)%nat -> (j < M)%nat -> (addr i j < length v)%nat.
Proof.
  intros i [|id] Hi Hj; unfold addr; [rewrite Hv; nia|]. apply slot_lt; [exact Hi|unfold M in Hj; lia].
Qed.
Lemma addr_inj : forall i j i' j', (i < nl)%nat -> (j < M)%nat -> (i' < nl)%nat -> (j' < M)%nat ->
  addr i j = addr i' j' -> i = i' /\ j = j'.
Proof.
  intros i j i' j' Hi Hj Hi' Hj' E.
  set (w := fun j => match j with O => 0%nat | S id => (id + doff)%nat end).
  assert (HA : forall i j, addr i j = (i * stride + w j)%nat).
  { intros a [|b]; unfold addr, w, at_slot; lia. }
  rewrite !HA in E. apply flat_inj in E.
  - destruct E as [-> E]. split; [reflexivity|]. destruct j, j'; unfold w in E; lia.
  - unfold w, M in *. destruct j; lia.
  - unfold w, M in *. destruct j'; lia.
Qed.

Lemma C_next : forall i j, (j < M)%nat -> C (S (i * M + j)) = if sel i j then S (C (i * M + j)) else C (i * M + j).
Proof. intros i j Hj. unfold C. cbn [cnt]. rewrite flat_at by exact Hj. reflexivity. Qed.
Lemma C_lt : forall i j, (i < nl)%nat -> (j < M)%nat -> sel i j = true -> (C (i * M + j) < C (nl * M))%nat.
Proof.
  intros i j Hi Hj E. apply cnt_lt; [apply flat_lt; assumption|]. rewrite flat_at by exact Hj. exact E.
Qed.

Lemma count_ids_ok : count_ids stride doff nl maxd v = Ok (C (nl * M)).
Proof.
  unfold count_ids.
  rewrite (for_ext _ (fun i c => for_ M (fun j c => match j with O => Ok (S c)
     | S id => do d <- rd v (at_slot stride doff i id); Ok (if 0 <? d then S c else c) end) c))
    by (intros i s Hi; unfold M; rewrite for_S; reflexivity).
  destruct (nested_inv (fun k c => c = C k) (fun i j c => match j with O => Ok (S c)
     | S id => do d <- rd v (at_slot stride doff i id); Ok (if 0 <? d then S c else c) end) nl M 0%nat)
    as [c [E ->]]; [reflexivity| |exact E].
  intros i j c Hi Hj ->. rewrite C_next by exact Hj. destruct j as [|id]; [eexists; split; reflexivity|].
  rewrite (rd_some _ _ _ (slot_read i id Hi ltac:(unfold M in Hj; lia))). cbn [bind].
  eexists. split; [reflexivity|]. reflexivity.
Qed.

Lemma collect_ids_ok : exists ids, collect_ids stride doff nl maxd v nat_ids (C (nl * M)) = Ok ids /\
  length ids = C (nl * M) /\
  forall i j, (i < nl)%nat -> (j < M)%nat -> sel i j = true -> nth_error ids (C (i * M + j)) = Some (val i j).
Proof.
  unfold collect_ids.
  set (body := fun (i j : nat) (st : nat * list Z) => match j with
     | O => do x <- rd nat_ids i; push x st
     | S id => do d <- rd v (at_slot stride doff i id); if 0 <? d then push (d - 1) st else Ok st end).
  rewrite (for_ext _ (fun i st => for_ M (fun j st => body i j st) st)).
  2: { intros i s Hi. unfold M, body.
       rewrite (for_S (fun st => do x <- rd nat_ids i; push x st)
         (fun id st => do d <- rd v (at_slot stride doff i id); if 0 <? d then push (d - 1) st else Ok st)).
       destruct (rd nat_ids i); reflexivity. }
  destruct (nested_inv (fun k st => fst st = C k /\ length (snd st) = C (nl * M) /\
     forall i j, (i < nl)%nat -> (j < M)%nat -> (i * M + j < k)%nat -> sel i j = true ->
     nth_error (snd st) (C (i * M + j)) = Some (val i j)) body nl M (0%nat, repeat 0 (C (nl * M)))) as [st [E [_ [P1 P2]]]].
  - split; [reflexivity|]. split; [apply repeat_length|]. intros. lia.
  - intros i j [c a] Hi Hj [Hc [HL HP]]. cbn [fst snd] in *. subst c.
    assert (G : sel i j = true -> exists s', push (val i j) (C (i * M + j), a) = Ok s' /\
       fst s' = C (S (i * M + j)) /\ length (snd s') = C (nl * M) /\
       (forall i' j', (i' < nl)%nat -> (j' < M)%nat -> (i' * M + j' < S (i * M + j))%nat -> sel i' j' = true ->
         nth_error (snd s') (C (i' * M + j')) = Some (val i' j'))).
    { intro Es. pose proof (C_lt i j Hi Hj Es) as HB. rewrite push_ok by lia.
      eexists. split; [reflexivity|]. cbn [fst snd]. rewrite C_next, Es by exact Hj. split; [reflexivity|].
      split; [rewrite length_upd; exact HL|]. intros i' j' Hi' Hj' Hk Es'.
      destruct (Nat.eq_dec (i' * M + j') (i * M + j)) as [E|N].
      - pose proof (flat_inj _ _ _ _ _ Hj' Hj E) as [-> ->]. rewrite nth_upd_same by lia. reflexivity.
      - assert (HC : (C (i' * M + j') < C (i * M + j))%nat).
        { apply cnt_lt; [lia|]. rewrite flat_at by exact Hj'. exact Es'. }
        rewrite nth_upd_other by lia. apply HP; [assumption|assumption|lia|assumption]. }
    destruct j as [|id]; unfold body.
    + destruct (rd_ok nat_ids i) as [x [Ex Nx]]; [lia|]. rewrite Ex. cbn [bind].
      assert (x = val i 0) as -> by (unfold val; symmetry; apply nth_error_nth; exact Nx).
      apply G. reflexivity.
    + rewrite (rd_some _ _ _ (slot_read i id Hi ltac:(unfold M in Hj; lia))). cbn [bind].
      destruct (0 <? val_at i id) eqn:Es.
      * apply G. exact Es.
      * eexists. split; [reflexivity|]. cbn [fst snd]. rewrite C_next by exact Hj.
        assert (Es2 : sel i (S id) = false) by exact Es. rewrite Es2.
        split; [reflexivity|]. split; [exact HL|]. intros i' j' Hi' Hj' Hk Es'.
        apply HP; [assumption|assumption| |assumption].
        destruct (Nat.eq_dec (i' * M + j') (i * M + S id)) as [E|N]; [|lia].
        pose proof (flat_inj _ _ _ _ _ Hj' Hj E) as [-> ->]. congruence.
  - exists (snd st). rewrite E. cbn [bind]. split; [reflexivity|]. split; [exact P1|].
    intros i j Hi Hj Es. apply P2; [assumption|assumption| |assumption]. apply flat_lt; assumption.
Qed.

(** The renumbered vector. *)
Definition global_slot (i id : nat) : Z :=
  if 0 <? val_at i id then app_to_petsc ao (val_at i id - 1) + 1 else val_at i id.
Let F (i j : nat) : Z := match j with O => app_to_petsc ao (nth i nat_ids 0) + 1 | S id => global_slot i id end.

Lemma to_global_ok : exists petsc v', to_global stride doff nl maxd ao nat_ids v = Ok (petsc, v') /\
  length petsc = nl /\ length v' = length v /\
  (forall i, (i < nl)%nat -> nth_error petsc i = Some (app_to_petsc ao (nth i nat_ids 0))) /\
  (forall i, (i < nl)%nat -> nth_error v' (i * stride) = Some (app_to_petsc ao (nth i nat_ids 0) + 1)) /\
  (forall i id, (i < nl)%nat -> (id < maxd)%nat -> nth_error v' (at_slot stride doff i id) = Some (global_slot i id)) /\
  (forall i k, (i < nl)%nat -> (0 < k < stride)%nat -> (k < doff \/ doff + maxd <= k)%nat ->
     nth_error v' (i * stride + k) = nth_error v (i * stride + k)).
Proof.
  unfold to_global. rewrite count_ids_ok. cbn [bind].
  destruct collect_ids_ok as [ids [Ei [HL HI]]]. rewrite Ei. cbn [bind].
  set (ids' := map (app_to_petsc ao) ids).
  assert (HI' : forall i j, (i < nl)%nat -> (j < M)%nat -> sel i j = true ->
     nth_error ids' (C (i * M + j)) = Some (app_to_petsc ao (val i j))).
  { intros i j Hi Hj Es. unfold ids'. rewrite nth_error_map, HI by assumption. reflexivity. }
  clearbody ids'.
  unfold place_ids.
  set (body := fun (i j : nat) (st : nat * list Z * list Z) =>
    match j with
    | O => let '(c, petsc, v) := st in do x <- rd ids' c; do petsc <- wr petsc i x;
           do v <- wr v (i * stride)%nat (x + 1); Ok (S c, petsc, v)
    | S id => let '(c, petsc, v) := st in
      do d <- rd v (at_slot stride doff i id);
      if 0 <? d then do x <- rd ids' c; do v <- wr v (at_slot stride doff i id) (x + 1); Ok (S c, petsc, v)
      else Ok st
    end).
  match goal with |- context [for_ nl ?f ?s] => rewrite (for_ext f (fun i st => for_ M (fun j st => body i j st) st)) end.
  2: { intros i [[c a] w] Hi. unfold M, body. rewrite for_S.
       destruct (rd ids' c); cbn [bind]; try reflexivity.
       destruct (wr a i a0); cbn [bind]; try reflexivity.
       destruct (wr w (i * stride)%nat (a0 + 1)); cbn [bind]; reflexivity. }
  destruct (nested_inv (fun k st => let '(c, petsc, w) := st in
      c = C k /\ length petsc = nl /\ frame nl M addr v F k w /\
      forall i, (i < nl)%nat -> (i * M < k)%nat -> nth_error petsc i = Some (app_to_petsc ao (nth i nat_ids 0)))
      body nl M (0%nat, repeat (-1) nl, v)) as [[[c petsc] v'] [E [_ [P1 [P2 P3]]]]].
  - split; [reflexivity|]. split; [apply repeat_length|]. split; [apply frame_0|]. intros. lia.
  - intros i j [[c petsc] w] Hi Hj [-> [HP1 [HP2 HP3]]].
    pose proof (frame_read nl M addr v F addr_inj i j w Hi Hj HP2) as HR.
    pose proof (frame_step nl M addr v F addr_inj addr_lt i j w Hi Hj HP2) as HS2.
    assert (HW : (addr i j < length w)%nat) by (destruct HP2 as [-> _]; apply addr_lt; assumption).
    destruct j as [|id]; unfold body.
    + pose proof (HI' i 0%nat Hi Hj eq_refl) as EI. rewrite (rd_some _ _ _ EI). cbn [bind].
      rewrite wr_ok by lia. cbn [bind]. unfold addr in HW. rewrite wr_ok by exact HW. cbn [bind].
      eexists. split; [reflexivity|]. cbn beta iota zeta.
      split; [rewrite C_next by exact Hj; reflexivity|]. split; [rewrite length_upd; exact HP1|].
      split; [exact HS2|]. intros i' Hi' Hk. destruct (Nat.eq_dec i i') as [<-|N].
      * rewrite nth_upd_same by lia. reflexivity.
      * rewrite nth_upd_other by exact N. apply HP3; [assumption|].
        assert (i' < i)%nat by (unfold M in *; nia). unfold M in *; nia.
    + assert (Hid : (id < maxd)%nat) by (unfold M in Hj; lia).
      unfold addr in HR, HW, HS2. rewrite slot_read in HR by assumption.
      rewrite (rd_some _ _ _ HR). cbn [bind].
      assert (HP3' : forall i', (i' < nl)%nat -> (i' * M < S (i * M + S id))%nat ->
         nth_error petsc i' = Some (app_to_petsc ao (nth i' nat_ids 0))).
      { intros i' Hi' Hk. apply HP3; [assumption|]. unfold M in *.
        destruct (le_lt_dec i' i) as [Hle|Hgt]; [|assert (S i * S maxd <= i' * S maxd)%nat by (apply Nat.mul_le_mono_r; exact Hgt); lia].
        assert (i' * S maxd <= i * S maxd)%nat by (apply Nat.mul_le_mono_r; exact Hle). lia. }
      destruct (0 <? val_at i id) eqn:Es.
      * pose proof (HI' i (S id) Hi Hj Es) as EI. rewrite (rd_some _ _ _ EI). cbn [bind].
        rewrite wr_ok by exact HW. cbn [bind]. eexists. split; [reflexivity|]. cbn beta iota zeta.
        split; [rewrite C_next by exact Hj; unfold sel; rewrite Es; reflexivity|].
        split; [exact HP1|]. split; [|exact HP3'].
        replace (app_to_petsc ao (val i (S id)) + 1) with (F i (S id)); [exact HS2|].
        unfold F, global_slot, val. rewrite Es. reflexivity.
      * eexists. split; [reflexivity|]. cbn beta iota zeta.
        split; [rewrite C_next by exact Hj; unfold sel; rewrite Es; reflexivity|].
        split; [exact HP1|]. split; [|exact HP3'].
        apply frame_keep; [exact addr_inj|assumption|assumption|exact HP2|].
        unfold addr, F, global_slot. rewrite Es. apply slot_read; assumption.
  - rewrite E. cbn [bind]. exists petsc, v'. split; [reflexivity|].
    apply frame_end in P2. destruct P2 as [Q1 [Q2 Q3]].
    split; [exact P1|]. split; [exact Q1|].
    split; [intros i Hi; apply P3; [exact Hi|unfold M; nia]|].
    split; [intros i Hi; apply (Q2 i 0%nat Hi); unfold M; lia|].
    split; [intros i id Hi Hid; apply (Q2 i (S id) Hi); unfold M; lia|].
    intros i k Hi Hk Ho. apply Q3. intros i' j' Hi' Hj' EA.
    set (w := match j' with O => 0%nat | S id => (id + doff)%nat end).
    assert (HA : addr i' j' = (i' * stride + w)%nat) by (destruct j'; unfold addr, w, at_slot; lia).
    rewrite HA in EA. apply flat_inj in EA; [|lia|unfold w, M in *; destruct j'; lia].
    destruct EA as [_ EA]. unfold w, M in *. destruct j'; lia.
Qed.
End global.

(** ** Ranking *)
Lemma sort_get : forall a p, sorts a p -> length p = length a /\
  (forall i, (i < length a)%nat -> exists q, nth_error p i = Some q /\ (q < length a)%nat) /\
  (forall i j q, nth_error p i = Some q -> nth_error p j = Some q -> i = j) /\
  (forall q, (q < length a)%nat -> exists i, (i < length a)%nat /\ nth_error p i = Some q).
Proof.
  intros a p [HP _]. assert (HL : length p = length a).
  { apply Permutation_length in HP. rewrite seq_length in HP. exact HP. }
  assert (HP' : Permutation p (seq 0 (length p))) by (rewrite HL; exact HP).
  split; [exact HL|]. split.
  - intros i Hi. rewrite <- HL in *. apply num_get; assumption.
  - split.
    + intros i j q. apply (num_inj p HP').
    + intros q Hq. destruct (num_surj p HP' q) as [i Ei]; [lia|]. exists i. split; [|exact Ei].
      apply nth_lt in Ei. lia.
Qed.

Section ranking.
Context (a : list Z) (p : list nat).
Hypothesis Hsort : sorts a p.
Hypothesis Hne : (0 < length a)%nat.

(** The value at sorted position [k]. *)
Definition sv (k : nat) : Z := nth (nth k p 0%nat) a 0.

Lemma sv_at : forall k, (k < length a)%nat -> exists q, nth_error p k = Some q /\ (q < length a)%nat /\ nth_error a q = Some (sv k).
Proof.
  intros k Hk. destruct (sort_get a p Hsort) as [_ [H _]]. destruct (H k Hk) as [q [Eq Hq]].
  exists q. split; [exact Eq|]. split; [exact Hq|]. unfold sv. rewrite (nth_error_nth _ _ _ Eq).
  apply nth_error_nth'. exact Hq.
Qed.
Lemma sv_mono : forall k l, (k <= l)%nat -> (l < length a)%nat -> sv k <= sv l.
Proof.
  intros k l Hkl Hl. destruct (sv_at k) as [q [Eq [_ Ex]]]; [lia|]. destruct (sv_at l Hl) as [q' [Eq' [_ Ex']]].
  destruct Hsort as [_ H]. eapply H; [exact Hkl|exact Eq|exact Eq'|exact Ex|exact Ex'].
Qed.

(** What holds of (t, a3, a4) after [k] sorted positions, where [a4k] tells how
    ranks are recorded. *)
Definition ranked (k t : nat) (a3 : list Z) (rk : nat -> option Z) : Prop :=
  length a3 = length a /\ (t <= Nat.pred k)%nat /\
  nth_error a3 t = Some (sv (Nat.pred k)) /\
  (forall r r' x y, (r < r')%nat -> (r' <= t)%nat -> nth_error a3 r = Some x -> nth_error a3 r' = Some y -> x < y) /\
  (forall g, (g < k)%nat -> exists r, (r <= t)%nat /\ rk g = Some (Z.of_nat r) /\ nth_error a3 r = Some (sv g)) /\
  (forall r, (r <= t)%nat -> exists i, (i < length a)%nat /\ nth_error a3 r = nth_error a i).

Lemma ranked_step : forall k t a3 rk rk', (k < length a)%nat -> ranked k t a3 rk ->
  exists t' a3', (if sv (Nat.pred k) <? sv k then do a3 <- wr a3 (S t) (sv k); Ok (S t, a3) else Ok (t, a3)) = Ok (t', a3') /\
  ((forall g, (g < k)%nat -> rk' g = rk g) -> rk' k = Some (Z.of_nat t') -> ranked (S k) t' a3' rk').
Proof.
  intros k t a3 rk rk' Hk [HL [Ht [HT [HM [HR HX]]]]].
  destruct (Z.ltb_spec (sv (Nat.pred k)) (sv k)) as [Hlt|Hge].
  - assert (HkP : (1 <= k)%nat) by (destruct k; [simpl in Hlt; lia|lia]).
    assert (HB : (S t < length a3)%nat) by lia.
    rewrite wr_ok by exact HB. cbn [bind]. exists (S t), (upd a3 (S t) (sv k)). split; [reflexivity|].
    intros Hold Hnew. cbn [Nat.pred].
    assert (HU : forall r, (r <= t)%nat -> nth_error (upd a3 (S t) (sv k)) r = nth_error a3 r) by (intros; apply nth_upd_other; lia).
    assert (HN : nth_error (upd a3 (S t) (sv k)) (S t) = Some (sv k)) by (apply nth_upd_same; exact HB).
    split; [rewrite length_upd; exact HL|]. split; [cbn [Nat.pred]; lia|]. split; [exact HN|]. split; [|split].
    + intros r r' x y Hr Hr' Ex Ey. rewrite HU in Ex by lia.
      destruct (Nat.eq_dec r' (S t)) as [->|N].
      * rewrite HN in Ey. injection Ey as <-.
        destruct (Nat.eq_dec r t) as [->|N']; [rewrite HT in Ex; injection Ex as <-; exact Hlt|].
        assert (x < sv (Nat.pred k)); [|lia]. eapply HM; [| |exact Ex|exact HT]; lia.
      * rewrite HU in Ey by lia. eapply HM; [exact Hr| |exact Ex|exact Ey]. lia.
    + intros g Hg. destruct (Nat.eq_dec g k) as [->|N].
      * exists (S t). split; [lia|]. split; [exact Hnew|exact HN].
      * destruct (HR g) as [r [Hr [Er Ev]]]; [lia|]. exists r. split; [lia|]. split; [rewrite Hold by lia; exact Er|].
        rewrite HU by exact Hr. exact Ev.
    + intros r Hr. destruct (Nat.eq_dec r (S t)) as [->|N].
      * destruct (sv_at k Hk) as [q [_ [Hq Ex]]]. exists q. split; [exact Hq|]. congruence.
      * rewrite HU by lia. apply HX. lia.
  - assert (HE : sv (Nat.pred k) = sv k).
    { assert (sv (Nat.pred k) <= sv k) by (apply sv_mono; lia). lia. }
    exists t, a3. split; [reflexivity|]. intros Hold Hnew. cbn [Nat.pred].
    split; [exact HL|]. split; [cbn [Nat.pred]; lia|]. split; [cbn [Nat.pred]; rewrite <- HE; exact HT|]. split; [exact HM|]. split.
    + intros g Hg. destruct (Nat.eq_dec g k) as [->|N].
      * exists t. split; [lia|]. split; [exact Hnew|rewrite <- HE; exact HT].
      * destruct (HR g) as [r [Hr [Er Ev]]]; [lia|]. exists r. split; [lia|]. split; [rewrite Hold by lia; exact Er|exact Ev].
    + exact HX.
Qed.

Lemma ranked_start : forall x rk, nth_error a (nth 0 p 0%nat) = Some x -> ranked 0 0 (upd (repeat (-1) (length a)) 0 x) rk.
Proof.
  intros x rk Ex. assert (HU : nth_error (upd (repeat (-1) (length a)) 0 x) 0 = Some x)
    by (apply nth_upd_same; rewrite repeat_length; exact Hne).
  split; [rewrite length_upd; apply repeat_length|]. split; [simpl; lia|].
  split; [rewrite HU; unfold sv; cbn [Nat.pred]; rewrite (nth_error_nth _ _ _ Ex); reflexivity|].
  split; [intros; lia|]. split; [intros; lia|].
  intros r Hr. replace r with 0%nat by lia. exists (nth 0 p 0%nat). split; [apply nth_lt in Ex; exact Ex|congruence].
Qed.

Lemma first_read : exists q x, nth_error p 0 = Some q /\ nth_error a q = Some x /\ nth_error a (nth 0 p 0%nat) = Some x /\ (q < length a)%nat.
Proof.
  destruct (sv_at 0 Hne) as [q [Eq [Hq Ex]]]. exists q, (sv 0). split; [exact Eq|]. split; [exact Ex|].
  split; [rewrite (nth_error_nth _ _ _ Eq); exact Ex|exact Hq].
Qed.

Lemma ranked_increasing : forall t a3 rk, ranked (length a) t a3 rk -> increasing (firstn (S t) a3) /\
  length (firstn (S t) a3) = S t.
Proof.
  intros t a3 rk [HL [Ht [_ [HM _]]]]. split.
  - intros i j x y Hij Ex Ey. assert (Hj : (j < S t)%nat).
    { apply nth_lt in Ey. rewrite firstn_length in Ey. lia. }
    rewrite nth_firstn in Ex, Ey by lia. eapply HM; [exact Hij| |exact Ex|exact Ey]. lia.
  - rewrite firstn_length. lia.
Qed.

End ranking.

Section rank_both.
Context (sort : list Z -> list nat).
Hypothesis Hsort : forall a, sorts a (sort a).

Lemma rank_ghosts_ok : forall a, (0 < length a)%nat -> exists t a3 a4 a5,
  rank_ghosts sort a = Ok (t, a3, a4, a5) /\ increasing (firstn (S t) a3) /\
  length (firstn (S t) a3) = S t /\
  (forall i x, nth_error a i = Some x -> exists g r, nth_error a5 i = Some (Z.of_nat g) /\
     nth_error a4 g = Some (Z.of_nat r) /\ nth_error (firstn (S t) a3) r = Some x) /\
  (forall r x, nth_error (firstn (S t) a3) r = Some x -> In x a).
Proof.
  intros a Hne. pose proof (Hsort a) as HS. set (p := sort a) in *.
  destruct (sort_get a p HS) as [HL [HG [HI HSJ]]].
  unfold rank_ghosts. fold p. destruct (first_read a p HS Hne) as [q [x [Eq [Ex [Ex' Hq]]]]].
  rewrite (rd_some _ _ _ Eq). cbn [bind]. rewrite (rd_some _ _ _ Ex). cbn [bind].
  rewrite wr_ok by (rewrite repeat_length; exact Hne). cbn [bind].
  destruct (for_inv (fun k st => let '(t, a3, a4, a5) := st in
      length a4 = length a /\ length a5 = length a /\
      ranked a p k t a3 (fun g => nth_error a4 g) /\
      forall g q, (g < k)%nat -> nth_error p g = Some q -> nth_error a5 q = Some (Z.of_nat g))
    (rank_step a p) (length a) (0%nat, upd (repeat (-1) (length a)) 0 x, repeat (-1) (length a), repeat (-1) (length a)))
    as [[[[t a3] a4] a5] [E [H4 [H5 [HR HV]]]]].
  - split; [apply repeat_length|]. split; [apply repeat_length|]. split; [apply ranked_start; assumption|]. intros. lia.
  - intros k [[[t a3] a4] a5] Hk [H4 [H5 [HR HV]]]. unfold rank_step.
    destruct (sv_at a p HS k Hk) as [qk [Eqk [Hqk Exk]]].
    rewrite (rd_some _ _ _ Eqk). cbn [bind].
    pose proof HR as [_ [_ [HT _]]]. rewrite (rd_some _ _ _ HT). cbn [bind].
    rewrite (rd_some _ _ _ Exk). cbn [bind].
    destruct (ranked_step a p HS Hne k t a3 (fun g => nth_error a4 g) (fun g => nth_error a4 g) Hk HR) as [t' [a3' [Es _]]].
    rewrite Es. cbn [bind]. cbn beta iota zeta.
    rewrite wr_ok by lia. cbn [bind]. rewrite wr_ok by lia. cbn [bind].
    eexists. split; [reflexivity|]. cbn beta iota zeta.
    split; [rewrite length_upd; exact H4|]. split; [rewrite length_upd; exact H5|]. split.
    + destruct (ranked_step a p HS Hne k t a3 (fun g => nth_error a4 g) (fun g => nth_error (upd a4 k (Z.of_nat t')) g) Hk HR)
        as [t'' [a3'' [Es' Hst]]]. rewrite Es in Es'. injection Es' as <- <-. apply Hst.
      * intros g Hg. apply nth_upd_other. lia.
      * apply nth_upd_same. lia.
    + intros g q' Hg Eg. destruct (Nat.eq_dec g k) as [->|N].
      * rewrite Eqk in Eg. injection Eg as <-. apply nth_upd_same. lia.
      * rewrite nth_upd_other; [apply HV; [lia|exact Eg]|]. intros ->. apply N. eapply HI; eassumption.
  - exists t, a3, a4, a5. split; [exact E|]. destruct (ranked_increasing a p Hne t a3 _ HR) as [HInc HLen].
    split; [exact HInc|]. split; [exact HLen|]. split.
    + intros i y Ey. pose proof (nth_lt _ _ _ Ey) as Hi. destruct (HSJ i Hi) as [g [Hg Eg]].
      destruct HR as [_ [_ [_ [_ [HR _]]]]]. destruct (HR g Hg) as [r [Hr [Er Ev]]].
      exists g, r. split; [apply HV; assumption|]. split; [exact Er|].
      rewrite nth_firstn by lia. rewrite Ev. unfold sv.
      rewrite (nth_error_nth _ _ _ Eg). rewrite (nth_error_nth _ _ _ Ey). reflexivity.
    + intros r y Ey. assert (Hr : (r < S t)%nat) by (apply nth_lt in Ey; lia).
      rewrite nth_firstn in Ey by exact Hr. destruct HR as [_ [_ [_ [_ [_ HX]]]]].
      destruct (HX r) as [i [Hi Ei]]; [lia|]. rewrite Ei in Ey. apply nth_error_In in Ey. exact Ey.
Qed.

Lemma rank_vertices_ok : forall a, (0 < length a)%nat -> exists t a3 a4,
  rank_vertices sort a = Ok (t, a3, a4) /\ increasing (firstn (S t) a3) /\
  length (firstn (S t) a3) = S t /\
  (forall i x, nth_error a i = Some x -> exists r, nth_error a4 i = Some (Z.of_nat r) /\
     nth_error (firstn (S t) a3) r = Some x) /\
  (forall r x, nth_error (firstn (S t) a3) r = Some x -> In x a).
Proof.
  intros a Hne. pose proof (Hsort a) as HS. set (p := sort a) in *.
  destruct (sort_get a p HS) as [HL [HG [HI HSJ]]].
  unfold rank_vertices. fold p. destruct (first_read a p HS Hne) as [q [x [Eq [Ex [Ex' Hq]]]]].
  rewrite (rd_some _ _ _ Eq). cbn [bind]. rewrite (rd_some _ _ _ Ex). cbn [bind].
  rewrite wr_ok by (rewrite repeat_length; exact Hne). cbn [bind].
  rewrite wr_ok by (rewrite repeat_length; exact Hq). cbn [bind].
  set (rk := fun (a4 : list Z) g => match nth_error p g with Some q => nth_error a4 q | None => None end).
  destruct (for_inv (fun k st => let '(t, a3, a4) := st in
      length a4 = length a /\ ranked a p k t a3 (rk a4))
    (rank_vertex a p) (length a) (0%nat, upd (repeat (-1) (length a)) 0 x, upd (repeat (-1) (length a)) q 0))
    as [[[t a3] a4] [E [H4 HR]]].
  - split; [rewrite length_upd; apply repeat_length|]. apply ranked_start; assumption.
  - intros k [[t a3] a4] Hk [H4 HR]. unfold rank_vertex.
    destruct (sv_at a p HS k Hk) as [qk [Eqk [Hqk Exk]]].
    rewrite (rd_some _ _ _ Eqk). cbn [bind]. rewrite (rd_some _ _ _ Exk). cbn [bind].
    pose proof HR as [_ [_ [HT _]]]. rewrite (rd_some _ _ _ HT). cbn [bind].
    destruct (ranked_step a p HS Hne k t a3 (rk a4) (rk a4) Hk HR) as [t' [a3' [Es _]]].
    rewrite Es. cbn [bind]. cbn beta iota zeta.
    rewrite wr_ok by lia. cbn [bind].
    eexists. split; [reflexivity|]. cbn beta iota zeta.
    split; [rewrite length_upd; exact H4|].
    destruct (ranked_step a p HS Hne k t a3 (rk a4) (rk (upd a4 qk (Z.of_nat t'))) Hk HR) as [t'' [a3'' [Es' Hst]]].
    rewrite Es in Es'. injection Es' as <- <-. apply Hst; unfold rk.
    + intros g Hg. destruct (HG g) as [qg [Eg _]]; [lia|]. rewrite Eg. apply nth_upd_other. intros ->.
      assert (k = g) by (eapply HI; eassumption). lia.
    + rewrite Eqk. apply nth_upd_same. lia.
  - exists t, a3, a4. split; [exact E|]. destruct (ranked_increasing a p Hne t a3 _ HR) as [HInc HLen].
    split; [exact HInc|]. split; [exact HLen|]. split.
    + intros i y Ey. pose proof (nth_lt _ _ _ Ey) as Hi. destruct (HSJ i Hi) as [g [Hg Eg]].
      destruct HR as [_ [_ [_ [_ [HR _]]]]]. destruct (HR g Hg) as [r [Hr [Er Ev]]].
      exists r. unfold rk in Er. rewrite Eg in Er. split; [exact Er|].
      rewrite nth_firstn by lia. rewrite Ev. unfold sv.
      rewrite (nth_error_nth _ _ _ Eg). rewrite (nth_error_nth _ _ _ Ey). reflexivity.
    + intros r y Ey. assert (Hr : (r < S t)%nat) by (apply nth_lt in Ey; lia).
      rewrite nth_firstn in Ey by exact Hr. destruct HR as [_ [_ [_ [_ [_ HX]]]]].
      destruct (HX r) as [i [Hi Ei]]; [lia|]. rewrite Ei in Ey. apply nth_error_In in Ey. exact Ey.
Qed.
End rank_both.
