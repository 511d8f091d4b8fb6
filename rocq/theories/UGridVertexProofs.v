From Coq Require Import List Arith ZArith Lia Bool Permutation.
From Verif Require Import Prelude Arrays UGrid UGridLoops SpecUGrid UGridProofs UGridNumProofs UGridLocalProofs.
Import ListNotations.
Local Open Scope Z_scope.

(** ** Copies of records *)
Lemma gather_records_ok : forall stride ids v N, length v = (N * stride)%nat ->
  (forall g, In g ids -> 0 <= g < Z.of_nat N) ->
  exists w, gather_records stride ids v = Ok w /\ length w = (length ids * stride)%nat /\
  forall i g k, nth_error ids i = Some g -> (k < stride)%nat ->
    nth_error w (i * stride + k) = nth_error v (Z.to_nat g * stride + k).
Proof.
  intros stride ids v N HL Hg. unfold gather_records.
  destruct (nested_inv (fun t w => length w = (length ids * stride)%nat /\
     forall i g k, nth_error ids i = Some g -> (k < stride)%nat -> (i * stride + k < t)%nat ->
     nth_error w (i * stride + k) = nth_error v (Z.to_nat g * stride + k))
    (fun ic j a => do g <- rd ids ic; do x <- rdz v (g * Z.of_nat stride + Z.of_nat j); wr a (ic * stride + j) x)
    (length ids) stride (repeat 0 (length ids * stride))) as [w [E [H1 H2]]].
  - split; [apply repeat_length|]. intros; lia.
  - intros i j s Hi Hj [H1 H2]. destruct (rd_ok ids i Hi) as [g [Eg Ng]]. rewrite Eg. cbn [bind].
    assert (Hgb : 0 <= g < Z.of_nat N) by (apply Hg; apply nth_error_In in Ng; exact Ng).
    replace (g * Z.of_nat stride + Z.of_nat j) with (Z.of_nat (Z.to_nat g * stride + j)) by nia.
    rewrite rdz_nat. assert (HgN : (Z.to_nat g < N)%nat) by lia.
    destruct (rd_ok v (Z.to_nat g * stride + j)) as [x [Ex Nx]]; [rewrite HL; apply flat_lt; assumption|].
    rewrite Ex. cbn [bind]. assert (HB : (i * stride + j < length s)%nat) by (rewrite H1; apply flat_lt; assumption).
    rewrite wr_ok by exact HB. eexists. split; [reflexivity|]. split; [rewrite length_upd; exact H1|].
    intros i' g' k' Eg' Hk' Ht. destruct (Nat.eq_dec (i' * stride + k') (i * stride + j)) as [E|N'].
    + pose proof (flat_inj _ _ _ _ _ Hk' Hj E) as [-> ->]. rewrite nth_upd_same by exact HB.
      assert (g' = g) by congruence. subst g'. symmetry. exact Nx.
    + rewrite nth_upd_other by lia. eapply H2; [exact Eg'|exact Hk'|lia].
  - exists w. split; [exact E|]. split; [exact H1|]. intros i g k Eg Hk. eapply H2; [exact Eg|exact Hk|].
    apply flat_lt; [apply nth_lt in Eg; exact Eg|exact Hk].
Qed.

(** ** Vertices *)
Section vertices.
Context (sort : list Z -> list nat).
Hypothesis Hsort : forall a, sorts a (sort a).
Context (stride voff n maxv : nat) (v : list Z).
Hypothesis Hs : (voff + maxv <= stride)%nat.
Hypothesis Hv : length v = (n * stride)%nat.
Let slot (i iv : nat) : nat := (i * stride + voff + iv)%nat.
Let d (i iv : nat) : Z := nth (slot i iv) v 0.

Lemma v_slot_lt : forall i id, (i < n)%nat -> (id < maxv)%nat -> (slot i id < length v)%nat.
Proof. intros i id Hi Hid. unfold slot. rewrite Hv. nia. Qed.
Lemma v_slot_inj : forall i j i' j', (i < n)%nat -> (j < maxv)%nat -> (i' < n)%nat -> (j' < maxv)%nat ->
  slot i j = slot i' j' -> i = i' /\ j = j'.
Proof.
  intros i j i' j' Hi Hj Hi' Hj' E. unfold slot in E. rewrite <- !Nat.add_assoc in E. apply flat_inj in E; lia.
Qed.
Lemma v_slot_read : forall i id, (i < n)%nat -> (id < maxv)%nat -> nth_error v (slot i id) = Some (d i id).
Proof. intros. apply nth_error_nth'. apply v_slot_lt; assumption. Qed.

Let sel (x : Z) : bool := 0 <? x.
Let C := cnt (flat maxv (fun i j => sel (d i j))).

Lemma count_vertices_ok : count_vertices stride voff n maxv v = Ok (C (n * maxv)).
Proof.
  unfold count_vertices.
  destruct (nested_inv (fun k c => c = C k) (fun i j c => do x <- rd v (slot i j); Ok (if 0 <? x then S c else c)) n maxv 0%nat)
    as [c [E ->]]; [reflexivity| |exact E].
  intros i j c Hi Hj ->. rewrite (rd_some _ _ _ (v_slot_read i j Hi Hj)). cbn [bind].
  eexists. split; [reflexivity|]. unfold C. cbn [cnt]. rewrite flat_at by exact Hj. reflexivity.
Qed.

(** The vertices recorded for cell [i], 0-based. *)
Definition recorded (i : nat) : list Z := map (fun x => x - 1) (filter (fun x => 0 <? x) (map (d i) (seq 0 maxv))).

Lemma firstn_snoc : forall {A} (l : list A) t x, nth_error l t = Some x -> firstn (S t) l = firstn t l ++ [x].
Proof.
  intros A l; induction l as [|y l IH]; intros [|t] x H; try discriminate H.
  - injection H as ->. reflexivity.
  - change (y :: firstn (S t) l = y :: firstn t l ++ [x]). f_equal. apply IH. exact H.
Qed.

Lemma recorded_prefix : forall i t, (t < maxv)%nat ->
  filter (fun x => 0 <? x) (map (d i) (firstn (S t) (seq 0 maxv))) =
  filter (fun x => 0 <? x) (map (d i) (firstn t (seq 0 maxv))) ++ (if 0 <? d i t then [d i t] else []).
Proof.
  intros i t Ht. assert (E : nth_error (seq 0 maxv) t = Some t).
  { rewrite (nth_error_nth' _ 0%nat) by (rewrite seq_length; exact Ht). rewrite seq_nth by exact Ht. reflexivity. }
  rewrite (firstn_snoc _ _ _ E), map_app, filter_app.
  cbn [map filter]. reflexivity.
Qed.

Lemma local_vertices_ok : (exists i iv, (i < n)%nat /\ (iv < maxv)%nat /\ 0 < d i iv) ->
  exists vids cells, local_vertices sort stride voff n maxv v = Ok (vids, cells) /\
  increasing vids /\ length cells = n /\
  (forall x, In x vids -> exists i, (i < n)%nat /\ In x (recorded i)) /\
  (forall i, (i < n)%nat -> exists row, nth_error cells i = Some (length (recorded i), row) /\ length row = maxv /\
     forall k x, nth_error (recorded i) k = Some x ->
     exists r, nth_error row k = Some (Z.of_nat r) /\ nth_error vids r = Some x).
Proof.
  intros [i0 [iv0 [Hi0 [Hiv0 Hpos0]]]]. unfold local_vertices. rewrite count_vertices_ok. cbn [bind].
  unfold collect_vertices.
  set (body := fun (ic iv : nat) (st : nat * list Z * list Z) =>
      let '(c, a1, v) := st in
      do d <- rd v (slot ic iv);
      if 0 <? d then
        do a1 <- wr a1 c d; do v <- wr v (slot ic iv) (Z.of_nat (S c)); Ok (S c, a1, v)
      else Ok st).
  destruct (collecting_ok n maxv slot v v_slot_inj v_slot_lt sel (fun c => Z.of_nat (S c)) (fun x => x) body)
    as [a [w [E [HLa [HA [HLw [HW HWo]]]]]]].
  { intros i j c a w Hi Hj Er Es Hc. unfold body. fold (d i j) in *. rewrite (rd_some _ _ _ Er). cbn [bind].
    unfold sel in Es. rewrite Es. rewrite wr_ok by exact Hc. cbn [bind]. rewrite wr_ok by (apply nth_lt in Er; exact Er). reflexivity. }
  { intros i j c a w Hi Hj Er Es. unfold body. fold (d i j) in *. rewrite (rd_some _ _ _ Er). cbn [bind].
    unfold sel in Es. rewrite Es. rewrite upd_same by exact Er. reflexivity. }
  change (for_ n (fun ic st => for_ maxv (fun id st => body ic id st) st) (0%nat, repeat 0 (C (n * maxv)), v)
     = Ok (C (n * maxv), a, w)) in E.
  change (length a = C (n * maxv)) in HLa.
  change (forall i j, (i < n)%nat -> (j < maxv)%nat -> sel (d i j) = true -> nth_error a (C (i * maxv + j)) = Some (d i j)) in HA.
  change (forall i j, (i < n)%nat -> (j < maxv)%nat -> nth_error w (slot i j) =
     Some (if sel (d i j) then Z.of_nat (S (C (i * maxv + j))) else d i j)) in HW.
  pose proof (collected_from n maxv slot v sel a HLa HA) as HFrom.
  match goal with |- context [for_ n ?f ?s] => replace (for_ n f s) with (@Ok (nat * list Z * list Z) (C (n * maxv), a, w)) by (symmetry; exact E) end.
  cbn [bind].
  set (a' := map (fun x => x - 1) a).
  assert (HLa' : length a' = C (n * maxv)) by (unfold a'; rewrite map_length; exact HLa).
  assert (HC0 : (C (i0 * maxv + iv0) < C (n * maxv))%nat).
  { apply cnt_lt; [apply flat_lt; assumption|]. rewrite flat_at by exact Hiv0. apply Z.ltb_lt. exact Hpos0. }
  destruct (rank_vertices_ok sort Hsort a') as [t [a3 [a4 [Er [HInc [HLen [HRk HIn]]]]]]]; [lia|].
  rewrite Er. cbn [bind]. set (vids := firstn (S t) a3) in *.
  assert (HLab : forall i iv, (i < n)%nat -> (iv < maxv)%nat -> sel (d i iv) = true ->
     exists r, nth_error a4 (C (i * maxv + iv)) = Some (Z.of_nat r) /\ nth_error vids r = Some (d i iv - 1)).
  { intros i iv Hi Hiv Es. apply HRk. unfold a'. rewrite nth_error_map, HA by assumption. reflexivity. }
  (* one cell *)
  assert (HCell : forall i, (i < n)%nat -> exists row, cell_vertices stride voff maxv a4 w i = Ok (length (recorded i), row) /\
     length row = maxv /\ forall k x, nth_error (recorded i) k = Some x ->
       exists r, nth_error row k = Some (Z.of_nat r) /\ nth_error vids r = Some x).
  { intros i Hi. unfold cell_vertices.
    set (pre := fun t => filter (fun x => 0 <? x) (map (d i) (firstn t (seq 0 maxv)))).
    destruct (for_inv (fun t st => fst st = length (pre t) /\ length (snd st) = maxv /\ (length (pre t) <= t)%nat /\
        forall k x, nth_error (pre t) k = Some x -> exists r, nth_error (snd st) k = Some (Z.of_nat r) /\ nth_error vids r = Some (x - 1))
      (fun iv (st : nat * list Z) => let (c, row) := st in do d <- rd w (slot i iv);
        if 0 <? d then do x <- rdz a4 (d - 1); do row <- wr row c x; Ok (S c, row) else Ok st)
      maxv (0%nat, repeat (-1) maxv)) as [[c row] [Ec [Hc [HR [_ HV]]]]].
    - split; [reflexivity|]. split; [apply repeat_length|]. split; [simpl; lia|]. intros [|k] x Ex; discriminate Ex.
    - intros iv [c row] Hiv [Hc [HR [Hle HV]]]. cbn [fst snd] in *.
      rewrite (rd_some _ _ _ (HW i iv Hi Hiv)). cbn [bind].
      assert (EP : pre (S iv) = pre iv ++ (if 0 <? d i iv then [d i iv] else [])) by (apply recorded_prefix; exact Hiv).
      unfold sel. destruct (0 <? d i iv) eqn:Es.
      + destruct (Z.ltb_spec 0 (Z.of_nat (S (C (i * maxv + iv))))); [|lia].
        destruct (HLab i iv Hi Hiv Es) as [r [E4 EV]].
        replace (Z.of_nat (S (C (i * maxv + iv))) - 1) with (Z.of_nat (C (i * maxv + iv))) by lia.
        rewrite rdz_nat, (rd_some _ _ _ E4). cbn [bind]. rewrite wr_ok by lia. cbn [bind].
        eexists. split; [reflexivity|]. cbn [fst snd]. rewrite EP, app_length. cbn [length].
        split; [lia|]. split; [rewrite length_upd; exact HR|]. split; [lia|].
        intros k x Ex. destruct (Nat.eq_dec k c) as [->|N].
        * rewrite nth_error_app2 in Ex by lia. rewrite Hc, Nat.sub_diag in Ex. injection Ex as <-.
          exists r. rewrite nth_upd_same by lia. split; [reflexivity|exact EV].
        * assert (Hk : (k < length (pre iv))%nat).
          { apply nth_lt in Ex. rewrite app_length in Ex. cbn [length] in Ex. lia. }
          rewrite nth_error_app1 in Ex by exact Hk. destruct (HV k x Ex) as [r' [E1 E2]]. exists r'.
          rewrite nth_upd_other by lia. split; assumption.
      + rewrite Es. eexists. split; [reflexivity|]. cbn [fst snd]. rewrite EP, app_nil_r.
        split; [exact Hc|]. split; [exact HR|]. split; [lia|exact HV].
    - cbn [fst snd] in *.
      assert (EP : recorded i = map (fun x => x - 1) (pre maxv)).
      { unfold recorded, pre. rewrite firstn_all2 by (rewrite seq_length; lia). reflexivity. }
      exists row. rewrite EP, map_length. split; [rewrite Hc in Ec; exact Ec|]. split; [exact HR|].
      intros k x Ex. rewrite nth_error_map in Ex. destruct (nth_error (pre maxv) k) as [y|] eqn:Ey; [|discriminate Ex].
      injection Ex as <-. apply HV. exact Ey. }
  destruct (for_inv (fun k (cs : list (nat * list Z)) => length cs = n /\ forall i, (i < k)%nat ->
       exists r, nth_error cs i = Some r /\ cell_vertices stride voff maxv a4 w i = Ok r)
     (fun ic (cs : list (nat * list Z)) => do r <- cell_vertices stride voff maxv a4 w ic; wr cs ic r) n (repeat (0%nat, []) n))
    as [cells [Ec [HL H]]].
  { split; [apply repeat_length|]. intros; lia. }
  { intros i s Hi [HL H]. destruct (HCell i Hi) as [row [Ecell _]]. rewrite Ecell. cbn [bind].
    rewrite wr_ok by lia. eexists. split; [reflexivity|]. split; [rewrite length_upd; exact HL|].
    intros i' Hi'. destruct (Nat.eq_dec i i') as [<-|N].
    - exists (length (recorded i), row). rewrite nth_upd_same by lia. split; [reflexivity|exact Ecell].
    - rewrite nth_upd_other by exact N. apply H. lia. }
  rewrite Ec. cbn [bind]. exists vids, cells. split; [reflexivity|]. split; [exact HInc|]. split; [exact HL|]. split.
  - intros x Hx. apply In_nth_error in Hx. destruct Hx as [r Ex]. apply HIn in Ex. unfold a' in Ex.
    apply in_map_iff in Ex. destruct Ex as [y [Ey Hy]]. destruct (HFrom y Hy) as [i [iv [Hi [Hiv [Es Ed]]]]].
    exists i. split; [exact Hi|]. unfold recorded. apply in_map_iff. exists y. split; [exact Ey|].
    apply filter_In. split; [|exact Es]. apply in_map_iff. exists iv. split; [exact Ed|]. apply in_seq. lia.
  - intros i Hi. destruct (H i Hi) as [r [Ei Er']]. destruct (HCell i Hi) as [row [Ecell HR]].
    rewrite Ecell in Er'. injection Er' as <-. exists row. split; [exact Ei|exact HR].
Qed.

(** A process without any vertex reads outside its arrays. *)
Lemma local_vertices_empty : (forall i iv, (i < n)%nat -> (iv < maxv)%nat -> d i iv <= 0) ->
  local_vertices sort stride voff n maxv v = UB.
Proof.
  intro H0. unfold local_vertices. rewrite count_vertices_ok. cbn [bind].
  assert (Hno : C (n * maxv) = 0%nat).
  { apply cnt_none. intros k Hk. destruct (flat_decomp maxv n k Hk) as [i [j [Hi [Hj ->]]]].
    rewrite flat_at by exact Hj. apply Z.ltb_ge. apply H0; assumption. }
  rewrite Hno. unfold collect_vertices.
  destruct (nested_inv (fun k st => st = (0%nat, @nil Z, v)) (fun ic iv st =>
      let '(c, a1, v) := st in
      do d <- rd v (slot ic iv);
      if 0 <? d then
        do a1 <- wr a1 c d; do v <- wr v (slot ic iv) (Z.of_nat (S c)); Ok (S c, a1, v)
      else Ok st) n maxv (0%nat, @nil Z, v)) as [st [E ->]]; [reflexivity| |].
  - intros i j st Hi Hj ->. rewrite (rd_some _ _ _ (v_slot_read i j Hi Hj)). cbn [bind].
    destruct (Z.ltb_spec 0 (d i j)) as [Hp|_]; [pose proof (H0 i j Hi Hj); lia|]. eexists. split; reflexivity.
  - cbn [repeat]. unfold slot in E. rewrite E. cbn [bind map]. unfold rank_vertices.
    pose proof (sort_get [] (sort []) (Hsort [])) as [HL _]. simpl in HL.
    destruct (sort []) as [|q l]; [reflexivity|discriminate HL].
Qed.
End vertices.

Lemma local_coordinates_ok : forall {A} ids (coords : list (list A)),
  (forall g, In g ids -> 0 <= g < Z.of_nat (length coords)) ->
  exists cs, local_coordinates ids coords = Ok cs /\ length cs = length ids /\
  forall i g, nth_error ids i = Some g -> nth_error cs i = nth_error coords (Z.to_nat g).
Proof.
  intros A ids coords Hg. unfold local_coordinates.
  destruct (for_inv (fun k (cs : list (list A)) => length cs = length ids /\ forall i g, (i < k)%nat ->
      nth_error ids i = Some g -> nth_error cs i = nth_error coords (Z.to_nat g))
    (fun iv a => do g <- rd ids iv; do c <- rdz coords g; wr a iv c) (length ids) (repeat [] (length ids)))
    as [cs [E [HL H]]].
  - split; [apply repeat_length|]. intros; lia.
  - intros i s Hi [HL H]. destruct (rd_ok ids i Hi) as [g [Eg Ng]]. rewrite Eg. cbn [bind].
    assert (Hgb : 0 <= g < Z.of_nat (length coords)) by (apply Hg; apply nth_error_In in Ng; exact Ng).
    assert (Er : rdz coords g = rd coords (Z.to_nat g)) by (rewrite <- rdz_nat; f_equal; lia). rewrite Er. clear Er.
    destruct (rd_ok coords (Z.to_nat g)) as [c [Ec Nc]]; [lia|]. rewrite Ec. cbn [bind]. rewrite wr_ok by lia.
    eexists. split; [reflexivity|]. split; [rewrite length_upd; exact HL|].
    intros i' g' Hi' Eg'. destruct (Nat.eq_dec i i') as [<-|N].
    + rewrite nth_upd_same by lia. congruence.
    + rewrite nth_upd_other by exact N. apply H; [lia|exact Eg'].
  - exists cs. split; [exact E|]. split; [exact HL|]. intros i g Eg. apply H; [apply nth_lt in Eg; exact Eg|exact Eg].
Qed.

(** Sorting permutations exist: positions inserted in order of their value. *)
Fixpoint ins (a : list Z) (i : nat) (p : list nat) : list nat :=
  match p with
  | [] => [i]
  | j :: p' => if nth i a 0 <=? nth j a 0 then i :: p else j :: ins a i p'
  end.
Definition insertion_sort (a : list Z) : list nat := fold_right (ins a) [] (seq 0 (length a)).

Lemma ins_perm : forall a i p, Permutation (ins a i p) (i :: p).
Proof.
  intros a i p; induction p as [|j p IH]; simpl; [reflexivity|].
  destruct (nth i a 0 <=? nth j a 0); [reflexivity|].
  rewrite IH. apply perm_swap.
Qed.
Definition nondec (a : list Z) (p : list nat) : Prop :=
  forall i j pi pj, (i <= j)%nat -> nth_error p i = Some pi -> nth_error p j = Some pj -> nth pi a 0 <= nth pj a 0.
Lemma ins_nondec : forall a i p, nondec a p -> nondec a (ins a i p).
Proof.
  intros a i p; induction p as [|j p IH]; intros H; simpl.
  - intros x y px py Hxy Ex Ey. destruct x as [|x]; [|destruct x; discriminate Ex].
    destruct y as [|y]; [|destruct y; discriminate Ey]. injection Ex as <-. injection Ey as <-. lia.
  - destruct (Z.leb_spec (nth i a 0) (nth j a 0)) as [Hle|Hgt].
    + intros x y px py Hxy Ex Ey. destruct x as [|x].
      * injection Ex as <-. destruct y as [|y]; [injection Ey as <-; lia|]. simpl in Ey.
        pose proof (H 0%nat y j py ltac:(lia) eq_refl Ey). lia.
      * destruct y as [|y]; [lia|]. simpl in Ex, Ey. apply (H x y px py); [lia|exact Ex|exact Ey].
    + assert (HT : nondec a p).
      { intros x y px py Hxy Ex Ey. apply (H (S x) (S y) px py); [lia|exact Ex|exact Ey]. }
      specialize (IH HT). intros x y px py Hxy Ex Ey. destruct x as [|x].
      * injection Ex as <-. destruct y as [|y]; [injection Ey as <-; lia|]. simpl in Ey.
        apply nth_error_In in Ey. apply (Permutation_in _ (ins_perm a i p)) in Ey. destruct Ey as [<-|Hin]; [lia|].
        apply In_nth_error in Hin. destruct Hin as [z Ez]. apply (H 0%nat (S z) j py ltac:(lia) eq_refl Ez).
      * destruct y as [|y]; [lia|]. simpl in Ex, Ey. apply (IH x y px py); [lia|exact Ex|exact Ey].
Qed.
Lemma insertion_sorts : forall a, sorts a (insertion_sort a).
Proof.
  intro a. unfold insertion_sort.
  assert (G : forall l, Permutation (fold_right (ins a) [] l) l /\ nondec a (fold_right (ins a) [] l)).
  { induction l as [|i l [IH1 IH2]]; simpl.
    - split; [reflexivity|]. intros x y px py _ Ex. destruct x; discriminate Ex.
    - split; [rewrite ins_perm, IH1; reflexivity|]. apply ins_nondec. exact IH2. }
  destruct (G (seq 0 (length a))) as [H1 H2]. split; [exact H1|].
  intros i j pi pj x y Hij Ei Ej Ex Ey. pose proof (H2 i j pi pj Hij Ei Ej) as Hle.
  rewrite (nth_error_nth _ _ _ Ex), (nth_error_nth _ _ _ Ey) in Hle. exact Hle.
Qed.
