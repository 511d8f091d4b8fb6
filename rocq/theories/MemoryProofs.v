From Coq Require Import Reals ZArith Bool List Arith Lia.
From Verif Require Import Prelude Arrays Memory.
Import ListNotations.
Local Open Scope nat_scope.

Section MemoryProofs.
Context {V : Type}.
Variable zero : V.
Notation heap := (heap V).

(** [shape h lo hi p dims v]: [p] is an array of the given extents, occupying
    exactly the blocks [lo, hi), all of whose elements are [v]. *)
Fixpoint shape (dims : list nat) (v : V) (h : heap) (lo hi : nat) (p : pointer) : Prop :=
  match dims with
  | [] => False
  | n :: rest =>
    match n with
    | O => p = None /\ hi = lo
    | S _ =>
      p = Some lo /\
      match rest with
      | [] => hi = S lo /\ nth_error h lo = Some (Some (Data (repeat v n)))
      | _ => exists ps, length ps = n /\ nth_error h lo = Some (Some (Pointers ps)) /\
             (fix children (ps : list pointer) (lo hi : nat) : Prop :=
                match ps with
                | [] => hi = lo
                | q :: ps => exists mid, shape rest v h lo mid q /\ children ps mid hi
                end) ps (S lo) hi
      end
    end
  end.

Fixpoint children (rest : list nat) (v : V) (h : heap) (ps : list pointer) (lo hi : nat) : Prop :=
  match ps with
  | [] => hi = lo
  | q :: ps => exists mid, shape rest v h lo mid q /\ children rest v h ps mid hi
  end.

Lemma shape_nested : forall n r rest v h lo hi p, shape (n :: r :: rest) v h lo hi p <->
  (n = 0 /\ p = None /\ hi = lo) \/
  (n <> 0 /\ p = Some lo /\ exists ps, length ps = n /\ nth_error h lo = Some (Some (Pointers ps)) /\ children (r :: rest) v h ps (S lo) hi).
Proof.
  intros n r rest v h lo hi p.
  assert (C : forall ps lo hi, children (r :: rest) v h ps lo hi <->
    (fix children (ps : list pointer) (lo hi : nat) : Prop :=
                match ps with
                | [] => hi = lo
                | q :: ps => exists mid, shape (r :: rest) v h lo mid q /\ children ps mid hi
                end) ps lo hi) by (induction ps as [|q ps IH]; intros; simpl; [tauto|]; split; intros [mid [A B]]; exists mid; split; auto; apply IH; exact B).
  destruct n as [|n].
  - simpl. split; [intros [A B]; left; auto|]. intros [[_ [A B]]|[A _]]; [auto|congruence].
  - split.
    + intros [A [ps [L [N B]]]]. right. split; [discriminate|]. split; [exact A|]. exists ps. split; [exact L|]. split; [exact N|]. apply C. exact B.
    + intros [[A _]|[_ [A [ps [L [N B]]]]]]; [discriminate|]. split; [exact A|]. exists ps. split; [exact L|]. split; [exact N|]. apply C. exact B.
Qed.

Lemma shape_leaf : forall n v h lo hi p, shape [n] v h lo hi p <->
  (n = 0 /\ p = None /\ hi = lo) \/
  (n <> 0 /\ p = Some lo /\ hi = S lo /\ nth_error h lo = Some (Some (Data (repeat v n)))).
Proof.
  intros [|n] v h lo hi p; simpl.
  - split; [intros [A B]; left; auto|]. intros [[_ [A B]]|[A _]]; [auto|congruence].
  - split; [intros [A [B C]]; right; auto|]. intros [[A _]|[_ [A [B C]]]]; [discriminate|auto].
Qed.

Lemma shape_cases : forall (P : list nat -> Prop), P [] -> (forall n, P [n]) ->
  (forall n r rest, P (r :: rest) -> P (n :: r :: rest)) -> forall dims, P dims.
Proof.
  intros P H0 H1 H2 dims. induction dims as [|n [|r rest] IH]; [exact H0|apply H1|apply H2; exact IH].
Qed.

Lemma shape_le : forall dims v h lo hi p, shape dims v h lo hi p -> lo <= hi.
Proof.
  intro dims. induction dims as [| n | n r rest IH] using shape_cases; intros v h lo hi p H.
  - destruct H.
  - apply shape_leaf in H. destruct H as [[_ [_ ->]]|[_ [_ [-> _]]]]; lia.
  - apply shape_nested in H. destruct H as [[_ [_ ->]]|[_ [_ [ps [_ [_ C]]]]]]; [lia|].
    assert (G : forall ps lo, children (r :: rest) v h ps lo hi -> lo <= hi).
    { induction ps0 as [|q ps0 IHp]; intros l0 Hc; [simpl in Hc; lia|]. destruct Hc as [mid [A B]].
      apply IH in A. apply IHp in B. lia. }
    apply G in C. lia.
Qed.

Lemma children_le : forall rest v h ps lo hi, children rest v h ps lo hi -> lo <= hi.
Proof.
  intros rest v h ps; induction ps as [|q ps IH]; intros lo hi H; [simpl in H; lia|].
  destruct H as [mid [A B]]. apply shape_le in A. apply IH in B. lia.
Qed.

(** The shape only looks at its own blocks. *)
Lemma shape_frame : forall dims v h h' lo hi p, shape dims v h lo hi p ->
  (forall a, lo <= a < hi -> nth_error h' a = nth_error h a) -> shape dims v h' lo hi p.
Proof.
  intro dims. induction dims as [| n | n r rest IH] using shape_cases; intros v h h' lo hi p H F.
  - destruct H.
  - apply shape_leaf in H. apply shape_leaf. destruct H as [H|[A [B [C D]]]]; [left; exact H|right].
    repeat split; auto. rewrite F by lia. exact D.
  - pose proof (shape_le _ _ _ _ _ _ H) as Hle.
    apply shape_nested in H. apply shape_nested. destruct H as [H|[A [B [ps [L [N C]]]]]]; [left; exact H|right].
    split; [exact A|]. split; [exact B|]. exists ps. split; [exact L|].
    pose proof (children_le _ _ _ _ _ _ C) as Hc.
    split; [rewrite F by lia; exact N|].
    assert (G : forall ps lo0, lo <= lo0 -> children (r :: rest) v h ps lo0 hi -> children (r :: rest) v h' ps lo0 hi).
    { induction ps0 as [|q ps0 IHp]; intros l0 Hl Hch; [exact Hch|]. destruct Hch as [mid [X Y]].
      pose proof (shape_le _ _ _ _ _ _ X). pose proof (children_le _ _ _ _ _ _ Y). exists mid. split.
      - apply (IH v h); [exact X|]. intros a Ha. apply F. lia.
      - apply IHp; [lia|exact Y]. }
    apply G; [lia|exact C].
Qed.

Lemma children_frame : forall rest v h h' ps lo hi, children rest v h ps lo hi ->
  (forall a, lo <= a < hi -> nth_error h' a = nth_error h a) -> children rest v h' ps lo hi.
Proof.
  intros rest v h h' ps; induction ps as [|q ps IH]; intros lo hi H F; [exact H|].
  destruct H as [mid [A B]]. pose proof (shape_le _ _ _ _ _ _ A). pose proof (children_le _ _ _ _ _ _ B).
  exists mid. split; [apply (shape_frame _ v h); [exact A|intros; apply F; lia]|apply IH; [exact B|intros; apply F; lia]].
Qed.

Lemma children_snoc : forall rest v h ps q lo mid hi, children rest v h ps lo mid -> shape rest v h mid hi q ->
  children rest v h (ps ++ [q]) lo hi.
Proof.
  intros rest v h ps; induction ps as [|q' ps IH]; intros q lo mid hi H S; simpl.
  - simpl in H. subst mid. exists hi. split; [exact S|reflexivity].
  - destruct H as [m [A B]]. exists m. split; [exact A|]. eapply IH; eassumption.
Qed.

Lemma upd_app_repeat : forall {A} (ps : list A) x y n, length ps < n ->
  upd (ps ++ repeat x (n - length ps)) (length ps) y = (ps ++ [y]) ++ repeat x (n - S (length ps)).
Proof.
  intros A ps x y n H. replace (n - length ps) with (S (n - S (length ps))) by lia.
  generalize (n - S (length ps)). intro k. clear H. induction ps as [|a ps IH]; simpl; [reflexivity|]. f_equal. exact IH.
Qed.

(** Allocation. *)
Lemma allocate_spec : forall dims h, dims <> [] ->
  exists h' p, allocate zero dims h = Ok (h', p) /\ shape dims zero h' (length h) (length h') p
    /\ length h <= length h' /\ (forall a, a < length h -> nth_error h' a = nth_error h a).
Proof.
  intro dims. induction dims as [| n | n r rest IH] using shape_cases; intros h Hd.
  - congruence.
  - cbn [allocate]. unfold alloc. destruct (Nat.eqb_spec n 0) as [->|Hn].
    + exists h, None. split; [reflexivity|]. split; [apply shape_leaf; left; auto|]. split; [lia|reflexivity].
    + eexists _, _. split; [reflexivity|]. rewrite app_length. cbn [length]. split; [|split; [lia|]].
      * apply shape_leaf. right. split; [exact Hn|]. split; [reflexivity|]. split; [lia|].
        rewrite nth_error_app2 by lia. rewrite Nat.sub_diag. reflexivity.
      * intros a Ha. apply nth_error_app1. exact Ha.
  - change (allocate zero (n :: r :: rest) h) with
      (let '(h, p) := alloc h n (Pointers (repeat None n)) in
       do h <- for_ n (fun i h => do hq <- allocate zero (r :: rest) h; write_pointer (fst hq) p i (snd hq)) h;
       Ok (h, p)).
    unfold alloc. destruct (Nat.eqb_spec n 0) as [->|Hn].
    + exists h, None. split; [reflexivity|]. split; [apply shape_nested; left; auto|]. split; [lia|reflexivity].
    + set (lo := length h). set (h0 := h ++ [Some (Pointers (repeat None n))]).
      destruct (for_inv (fun m g => S lo <= length g /\ (forall a, a < lo -> nth_error g a = nth_error h a)
          /\ exists ps, length ps = m /\ nth_error g lo = Some (Some (Pointers (ps ++ repeat None (n - m))))
             /\ children (r :: rest) zero g ps (S lo) (length g))
        (fun i h => do hq <- allocate zero (r :: rest) h; write_pointer (fst hq) (Some lo) i (snd hq)) n h0)
        as [h' [E [L [F [ps [Lp [N C]]]]]]].
      * unfold h0. rewrite app_length. simpl. split; [lia|]. split; [intros a Ha; apply nth_error_app1; exact Ha|].
        exists []. split; [reflexivity|]. split; [|simpl; lia].
        rewrite nth_error_app2 by (unfold lo; lia). unfold lo. rewrite Nat.sub_diag, Nat.sub_0_r. reflexivity.
      * intros i g Hi [L [F [ps [Lp [N C]]]]].
        destruct (IH g) as [g1 [q [Eq [Sq [Lq Fq]]]]]; [discriminate|]. rewrite Eq. cbn [bind fst snd].
        unfold write_pointer, deref. rewrite Fq by lia. rewrite N. cbn [bind].
        rewrite wr_ok by (rewrite app_length, repeat_length; lia). cbn [bind].
        subst i. pose proof (upd_app_repeat ps None q n Hi) as Up. unfold pointer in *. rewrite Up.
        eexists. split; [reflexivity|]. rewrite length_upd. split; [lia|]. split.
        -- intros a Ha. rewrite nth_upd_other by lia. rewrite Fq by lia. apply F. exact Ha.
        -- exists (ps ++ [q]). split; [rewrite app_length; simpl; lia|]. split.
           ++ rewrite nth_upd_same by lia. reflexivity.
           ++ apply children_snoc with (mid := length g).
              ** apply (children_frame _ _ g); [exact C|]. intros a Ha. rewrite nth_upd_other by lia. apply Fq. lia.
              ** apply (shape_frame _ _ g1); [exact Sq|]. intros a Ha. apply nth_upd_other. lia.
      * exists h', (Some lo). split; [match goal with |- bind ?t _ = _ => change t with (for_ n (fun i (h : heap) => do hq <- allocate zero (r :: rest) h; write_pointer (fst hq) (Some lo) i (snd hq)) h0) end; unfold Memory.heap in *; rewrite E; reflexivity|]. split; [|split; [lia|exact F]].
        apply shape_nested. right. split; [exact Hn|]. split; [reflexivity|].
        rewrite Nat.sub_diag in N. simpl in N. rewrite app_nil_r in N. exists ps. split; [exact Lp|]. split; [exact N|exact C].
Qed.

(** Picking one child. *)
Lemma children_nth : forall rest v h ps lo hi i q, children rest v h ps lo hi -> nth_error ps i = Some q ->
  exists l m, lo <= l /\ m <= hi /\ shape rest v h l m q.
Proof.
  intros rest v h ps; induction ps as [|q0 ps IH]; intros lo hi i q H Hn; [destruct i; discriminate Hn|].
  destruct H as [mid [A B]]. pose proof (shape_le _ _ _ _ _ _ A). pose proof (children_le _ _ _ _ _ _ B).
  destruct i as [|i]; simpl in Hn.
  - injection Hn as <-. exists lo, mid. repeat split; try lia. exact A.
  - destruct (IH mid hi i q B Hn) as [l [m [X [Y Z]]]]. exists l, m. repeat split; try lia. exact Z.
Qed.

Lemma children_nth2 : forall rest v h ps lo hi i j q q', children rest v h ps lo hi -> i < j ->
  nth_error ps i = Some q -> nth_error ps j = Some q' ->
  exists l m l' m', lo <= l /\ m <= l' /\ m' <= hi /\ shape rest v h l m q /\ shape rest v h l' m' q'.
Proof.
  intros rest v h ps; induction ps as [|q0 ps IH]; intros lo hi i j q q' H Hij Hi Hj; [destruct i; discriminate Hi|].
  destruct H as [mid [A B]]. pose proof (shape_le _ _ _ _ _ _ A). destruct j as [|j]; [lia|]. simpl in Hj.
  destruct i as [|i]; simpl in Hi.
  - injection Hi as <-. destruct (children_nth _ _ _ _ _ _ _ _ B Hj) as [l' [m' [X [Y Z]]]].
    exists lo, mid, l', m'. repeat split; try lia; assumption.
  - destruct (IH mid hi i j q q' B) as [l [m [l' [m' [X [Y [Z [U W]]]]]]]]; [lia|exact Hi|exact Hj|].
    exists l, m, l', m'. repeat split; try lia; assumption.
Qed.

Definition in_range (dims idx : list nat) : Prop := Forall2 (fun n i => i < n) dims idx.

Lemma address_ok : forall dims v h lo hi p idx, shape dims v h lo hi p -> in_range dims idx ->
  exists b o, address dims h p idx = Ok (b, o) /\ lo <= b < hi /\ read_at h (b, o) = Ok v.
Proof.
  intro dims. induction dims as [| n | n r rest IH] using shape_cases; intros v h lo hi p idx S R.
  - destruct S.
  - inversion R as [|? i ? idx' Hi R']; subst. inversion R'; subst. apply shape_leaf in S.
    destruct S as [[-> _]|[_ [-> [-> N]]]]; [lia|].
    cbn [address]. unfold deref. rewrite N. cbn [bind]. rewrite repeat_length.
    replace (i <? n) with true by (symmetry; apply Nat.ltb_lt; exact Hi).
    exists lo, i. split; [reflexivity|]. split; [lia|]. unfold read_at, deref. cbn [fst snd]. rewrite N. cbn [bind].
    apply rd_some. clear - Hi. revert i Hi. induction n as [|n IHn]; intros [|i] Hi; try lia; [reflexivity|]. apply IHn. lia.
  - inversion R as [|? i ? idx' Hi R']; subst. apply shape_nested in S.
    destruct S as [[-> _]|[_ [-> [ps [L [N C]]]]]]; [lia|].
    destruct idx' as [|j idx']; [inversion R'|].
    change (address (n :: r :: rest) h (Some lo) (i :: j :: idx')) with
      (do q <- read_pointer h (Some lo) i; address (r :: rest) h q (j :: idx')).
    unfold read_pointer, deref. rewrite N. cbn [bind].
    destruct (rd_ok ps i) as [q [E Nq]]; [lia|]. rewrite E. cbn [bind].
    destruct (children_nth _ _ _ _ _ _ _ _ C Nq) as [l [m [X [Y Z]]]].
    destruct (IH v h l m q (j :: idx') Z R') as [b [o [E2 [B2 R2]]]].
    exists b, o. split; [exact E2|]. split; [lia|exact R2].
Qed.

Lemma address_distinct : forall dims v h lo hi p idx idx', shape dims v h lo hi p ->
  in_range dims idx -> in_range dims idx' -> address dims h p idx = address dims h p idx' -> idx = idx'.
Proof.
  intro dims. induction dims as [| n | n r rest IH] using shape_cases; intros v h lo hi p idx idx' S R R' E.
  - destruct S.
  - inversion R as [|? i ? t Hi R1]; subst. inversion R1; subst.
    inversion R' as [|? i' ? t' Hi' R1']; subst. inversion R1'; subst. apply shape_leaf in S.
    destruct S as [[-> _]|[_ [-> [-> N]]]]; [lia|].
    cbn [address] in E. unfold deref in E. rewrite N in E. cbn [bind] in E. rewrite repeat_length in E.
    apply Nat.ltb_lt in Hi, Hi'. rewrite Hi, Hi' in E. congruence.
  - inversion R as [|? i ? t Hi R1]; subst. inversion R' as [|? i' ? t' Hi' R1']; subst.
    apply shape_nested in S. destruct S as [[-> _]|[_ [-> [ps [L [N C]]]]]]; [lia|].
    destruct t as [|j t]; [inversion R1|]. destruct t' as [|j' t']; [inversion R1'|].
    change ((do q <- read_pointer h (Some lo) i; address (r :: rest) h q (j :: t)) =
      (do q <- read_pointer h (Some lo) i'; address (r :: rest) h q (j' :: t'))) in E.
    unfold read_pointer, deref in E. rewrite N in E. cbn [bind] in E.
    destruct (rd_ok ps i) as [q [Eq Nq]]; [lia|]. destruct (rd_ok ps i') as [q' [Eq' Nq']]; [lia|].
    rewrite Eq, Eq' in E. cbn [bind] in E.
    destruct (Nat.lt_trichotomy i i') as [Hlt|[->|Hgt]].
    + destruct (children_nth2 _ _ _ _ _ _ _ _ _ _ C Hlt Nq Nq') as [l [m [l' [m' [X [Y [Z [U W]]]]]]]].
      destruct (address_ok _ _ _ _ _ _ _ U R1) as [b [o [E1 [B1 _]]]].
      destruct (address_ok _ _ _ _ _ _ _ W R1') as [b' [o' [E1' [B1' _]]]].
      rewrite E1, E1' in E. injection E as -> ->. lia.
    + rewrite Nq in Nq'. injection Nq' as <-. f_equal.
      destruct (children_nth _ _ _ _ _ _ _ _ C Nq) as [l [m [_ [_ Z]]]].
      eapply IH; eassumption.
    + destruct (children_nth2 _ _ _ _ _ _ _ _ _ _ C Hgt Nq' Nq) as [l [m [l' [m' [X [Y [Z [U W]]]]]]]].
      destruct (address_ok _ _ _ _ _ _ _ U R1') as [b [o [E1 [B1 _]]]].
      destruct (address_ok _ _ _ _ _ _ _ W R1) as [b' [o' [E1' [B1' _]]]].
      rewrite E1, E1' in E. injection E as -> ->. lia.
Qed.

(** Initialisation. *)
Lemma initialize_spec : forall dims v v' h lo hi p, shape dims v h lo hi p ->
  exists h', initialize dims h p v' = Ok h' /\ shape dims v' h' lo hi p /\ length h' = length h
    /\ (forall a, a < lo \/ hi <= a -> nth_error h' a = nth_error h a).
Proof.
  intro dims. induction dims as [| n | n r rest IH] using shape_cases; intros v v' h lo hi p S.
  - destruct S.
  - apply shape_leaf in S. destruct S as [[-> [-> ->]]|[Hn [-> [-> N]]]].
    + exists h. split; [reflexivity|]. split; [apply shape_leaf; left; auto|]. split; reflexivity.
    + cbn [initialize].
      destruct (for_inv (fun m g => length g = length h /\ (forall a, a <> lo -> nth_error g a = nth_error h a)
        /\ nth_error g lo = Some (Some (Data (repeat v' m ++ repeat v (n - m)))))
        (fun i h => write_data h (Some lo) i v') n h) as [h' [E [L [F N']]]].
      * split; [reflexivity|]. split; [reflexivity|]. simpl. rewrite Nat.sub_0_r. exact N.
      * intros i g Hi [L [F N']]. unfold write_data, deref. rewrite N'. cbn [bind].
        rewrite wr_ok by (rewrite app_length, !repeat_length; lia). cbn [bind]. eexists. split; [reflexivity|].
        rewrite length_upd. split; [exact L|]. split; [intros a Ha; rewrite nth_upd_other by lia; apply F; exact Ha|].
        assert (Hlo : lo < length g) by (apply nth_lt in N'; exact N').
        rewrite nth_upd_same by exact Hlo. do 3 f_equal.
        pose proof (upd_app_repeat (repeat v' i) v v' n) as U. rewrite repeat_length in U. rewrite U by exact Hi.
        f_equal. rewrite <- repeat_cons. reflexivity.
      * exists h'. split; [exact E|]. split; [|split; [exact L|intros a Ha; apply F; lia]].
        apply shape_leaf. right. repeat split; auto. rewrite Nat.sub_diag in N'. simpl in N'. rewrite app_nil_r in N'. exact N'.
  - pose proof S as S0. apply shape_nested in S. destruct S as [[-> [-> ->]]|[Hn [-> [ps [L [N C]]]]]].
    + exists h. split; [reflexivity|]. split; [apply shape_nested; left; auto|]. split; reflexivity.
    + change (initialize (n :: r :: rest) h (Some lo) v') with
        (for_ n (fun i h => do q <- read_pointer h (Some lo) i; initialize (r :: rest) h q v') h).
      destruct (for_inv (fun m g => length g = length h /\ (forall a, a <= lo \/ hi <= a -> nth_error g a = nth_error h a)
         /\ exists mid, children (r :: rest) v' g (firstn m ps) (S lo) mid /\ children (r :: rest) v g (skipn m ps) mid hi)
        (fun i h => do q <- read_pointer h (Some lo) i; initialize (r :: rest) h q v') n h) as [h' [E [L' [F [mid [C1 C2]]]]]].
      * split; [reflexivity|]. split; [reflexivity|]. exists (Datatypes.S lo). split; [reflexivity|exact C].
      * intros i g Hi [L' [F [mid [C1 C2]]]]. unfold read_pointer, deref.
        rewrite F by lia. rewrite N. cbn [bind]. destruct (rd_ok ps i) as [q [E Nq]]; [lia|]. rewrite E. cbn [bind].
        assert (Hsk : skipn i ps = q :: skipn (Datatypes.S i) ps).
        { clear - Nq. revert i Nq. induction ps as [|x ps IHp]; intros [|i] Nq; try discriminate Nq; simpl in *; [congruence|apply IHp; exact Nq]. }
        assert (Hfi : firstn (Datatypes.S i) ps = firstn i ps ++ [q]).
        { clear - Nq. revert i Nq. induction ps as [|x ps IHp]; intros [|i] Nq; try discriminate Nq; simpl in *; [congruence|f_equal; apply IHp; exact Nq]. }
        rewrite Hsk in C2. destruct C2 as [mid' [Sq C2]].
        pose proof (shape_le _ _ _ _ _ _ Sq) as Hm. pose proof (children_le _ _ _ _ _ _ C1) as Hm1. pose proof (children_le _ _ _ _ _ _ C2) as Hm2.
        destruct (IH v v' g mid mid' q Sq) as [g' [Eg [Sg [Lg Fg]]]]. exists g'. split; [exact Eg|]. split; [congruence|].
        split; [intros a Ha; rewrite Fg by lia; apply F; exact Ha|].
        exists mid'. rewrite Hfi. split.
        -- apply children_snoc with (mid := mid); [|exact Sg]. apply (children_frame _ _ g); [exact C1|]. intros; apply Fg; lia.
        -- apply (children_frame _ _ g); [exact C2|]. intros; apply Fg; lia.
      * exists h'. split; [exact E|]. split; [|split; [exact L'|intros a Ha; apply F; lia]].
        apply shape_nested. right. split; [exact Hn|]. split; [reflexivity|]. exists ps. split; [exact L|].
        split; [rewrite F by lia; exact N|]. rewrite firstn_all2 in C1 by lia. rewrite skipn_all2 in C2 by lia. simpl in C2. subst mid. exact C1.
Qed.

(** Deallocation frees exactly the blocks of the array. *)
Lemma deallocate_spec : forall dims v h lo hi p, shape dims v h lo hi p -> hi <= length h ->
  exists h', deallocate dims h p = Ok h' /\ length h' = length h
    /\ (forall a, lo <= a < hi -> nth_error h' a = Some None)
    /\ (forall a, a < lo \/ hi <= a -> nth_error h' a = nth_error h a).
Proof.
  intro dims. induction dims as [| n | n r rest IH] using shape_cases; intros v h lo hi p S Hh.
  - destruct S.
  - apply shape_leaf in S. destruct S as [[-> [-> ->]]|[Hn [-> [-> N]]]].
    + exists h. split; [reflexivity|]. split; [reflexivity|]. split; [intros; lia|reflexivity].
    + cbn [deallocate free]. rewrite N. eexists. split; [reflexivity|]. rewrite length_upd. split; [reflexivity|]. split.
      * intros a Ha. replace a with lo by lia. apply nth_upd_same. lia.
      * intros a Ha. apply nth_upd_other. lia.
  - apply shape_nested in S. destruct S as [[-> [-> ->]]|[Hn [-> [ps [L [N C]]]]]].
    + exists h. split; [reflexivity|]. split; [reflexivity|]. split; [intros; lia|reflexivity].
    + pose proof (children_le _ _ _ _ _ _ C) as Hle.
      change (deallocate (n :: r :: rest) h (Some lo)) with
        (do h <- for_ n (fun i h => do q <- read_pointer h (Some lo) i; deallocate (r :: rest) h q) h; free h (Some lo)).
      destruct (for_inv (fun m g => length g = length h
         /\ exists mid, Datatypes.S lo <= mid <= hi /\ (forall a, Datatypes.S lo <= a < mid -> nth_error g a = Some None)
            /\ (forall a, a <= lo \/ mid <= a -> nth_error g a = nth_error h a)
            /\ children (r :: rest) v h (skipn m ps) mid hi)
        (fun i h => do q <- read_pointer h (Some lo) i; deallocate (r :: rest) h q) n h) as [h' [E [L' [mid [Hm [A [B C2]]]]]]].
      * split; [reflexivity|]. exists (Datatypes.S lo). split; [lia|]. split; [intros; lia|]. split; [reflexivity|exact C].
      * intros i g Hi [L' [mid [Hm [A [B C2]]]]]. unfold read_pointer, deref. rewrite B by lia. rewrite N. cbn [bind].
        destruct (rd_ok ps i) as [q [E Nq]]; [lia|]. rewrite E. cbn [bind].
        assert (Hsk : skipn i ps = q :: skipn (Datatypes.S i) ps).
        { clear - Nq. revert i Nq. induction ps as [|x ps IHp]; intros [|i] Nq; try discriminate Nq; simpl in *; [congruence|apply IHp; exact Nq]. }
        rewrite Hsk in C2. destruct C2 as [mid' [Sq C2]].
        pose proof (shape_le _ _ _ _ _ _ Sq) as H1. pose proof (children_le _ _ _ _ _ _ C2) as H2.
        destruct (IH v g mid mid' q) as [g' [Eg [Lg [Fg1 Fg2]]]].
        { apply (shape_frame _ _ h); [exact Sq|]. intros; apply B; lia. }
        { lia. }
        exists g'. split; [exact Eg|]. split; [congruence|]. exists mid'. split; [lia|]. split; [|split].
        -- intros a Ha. destruct (Nat.lt_ge_cases a mid); [rewrite Fg2 by lia; apply A; lia|apply Fg1; lia].
        -- intros a Ha. rewrite Fg2 by lia. apply B. lia.
        -- exact C2.
      * unfold Memory.heap in *. rewrite E. cbn [bind free]. rewrite B by lia. rewrite N. eexists. split; [reflexivity|]. rewrite length_upd.
        rewrite skipn_all2 in C2 by lia. simpl in C2. subst mid.
        split; [exact L'|]. split.
        -- intros a Ha. destruct (Nat.eq_dec lo a) as [<-|Hne]; [apply nth_upd_same; lia|].
           rewrite nth_upd_other by exact Hne. apply A. lia.
        -- intros a Ha. rewrite nth_upd_other by lia. apply B. lia.
Qed.

(** Statements about whole operations. *)
Lemma initialised_array_proof : forall dims h v, dims <> [] ->
  exists h1 p h2, allocate zero dims h = Ok (h1, p) /\ initialize dims h1 p v = Ok h2
    /\ (forall idx, in_range dims idx -> exists a, address dims h2 p idx = Ok a /\ length h <= fst a /\ read_at h2 a = Ok v)
    /\ (forall idx idx', in_range dims idx -> in_range dims idx' -> address dims h2 p idx = address dims h2 p idx' -> idx = idx')
    /\ (forall a, a < length h -> nth_error h2 a = nth_error h a).
Proof.
  intros dims h v Hd. destruct (allocate_spec dims h Hd) as [h1 [p [E1 [S1 [L1 F1]]]]].
  destruct (initialize_spec dims zero v h1 _ _ p S1) as [h2 [E2 [S2 [L2 F2]]]].
  exists h1, p, h2. split; [exact E1|]. split; [exact E2|]. split; [|split].
  - intros idx R. destruct (address_ok _ _ _ _ _ _ _ S2 R) as [b [o [E [B V']]]]. exists (b, o). split; [exact E|].
    split; [simpl; lia|exact V'].
  - intros idx idx' R R' E. eapply address_distinct; eassumption.
  - intros a Ha. rewrite F2 by lia. apply F1. exact Ha.
Qed.

Lemma allocated_array_proof : forall dims h, dims <> [] ->
  exists h1 p, allocate zero dims h = Ok (h1, p)
    /\ (forall idx, in_range dims idx -> exists a, address dims h1 p idx = Ok a /\ length h <= fst a /\ read_at h1 a = Ok zero)
    /\ (forall idx idx', in_range dims idx -> in_range dims idx' -> address dims h1 p idx = address dims h1 p idx' -> idx = idx')
    /\ (forall a, a < length h -> nth_error h1 a = nth_error h a).
Proof.
  intros dims h Hd. destruct (allocate_spec dims h Hd) as [h1 [p [E1 [S1 [L1 F1]]]]].
  exists h1, p. split; [exact E1|]. split; [|split; [|exact F1]].
  - intros idx R. destruct (address_ok _ _ _ _ _ _ _ S1 R) as [b [o [E [B V']]]]. exists (b, o). split; [exact E|].
    split; [simpl; lia|exact V'].
  - intros idx idx' R R' E. eapply address_distinct; eassumption.
Qed.

Lemma freed_proof : forall dims h v, dims <> [] ->
  exists h1 p h2 h3, allocate zero dims h = Ok (h1, p) /\ initialize dims h1 p v = Ok h2 /\ deallocate dims h2 p = Ok h3 /\ length h3 = length h2
    /\ (forall a, a < length h -> nth_error h3 a = nth_error h a)
    /\ (forall a, length h <= a < length h3 -> nth_error h3 a = Some None).
Proof.
  intros dims h v Hd. destruct (allocate_spec dims h Hd) as [h1 [p [E1 [S1 [L1 F1]]]]].
  destruct (initialize_spec dims zero v h1 _ _ p S1) as [h2 [E2 [S2 [L2 F2]]]].
  destruct (deallocate_spec dims v h2 _ _ p S2) as [h3 [E3 [L3 [A3 B3]]]]; [lia|].
  exists h1, p, h2, h3. split; [exact E1|]. split; [exact E2|]. split; [exact E3|]. split; [lia|]. split.
  - intros a Ha. rewrite B3 by lia. rewrite F2 by lia. apply F1. exact Ha.
  - intros a Ha. apply A3. lia.
Qed.
End MemoryProofs.

Section Arrays.
Local Open Scope nat_scope.
Lemma integer_array_proof : forall dims (h : heap Z), dims <> [] ->
  exists h' p, AllocateIntegerArray dims h = Ok (h', p)
    /\ (forall idx, Forall2 (fun n i => i < n) dims idx -> exists a, address dims h' p idx = Ok a /\ length h <= fst a /\ read_at h' a = Ok (-1)%Z)
    /\ (forall idx idx', Forall2 (fun n i => i < n) dims idx -> Forall2 (fun n i => i < n) dims idx' ->
          address dims h' p idx = address dims h' p idx' -> idx = idx')
    /\ (forall a, a < length h -> nth_error h' a = nth_error h a).
Proof.
  intros dims h Hd. destruct (initialised_array_proof 0%Z dims h (-1)%Z Hd) as [h1 [p [h2 [E1 [E2 P]]]]].
  exists h2, p. split; [|exact P]. unfold AllocateIntegerArray, Memory.heap in *. rewrite E1. cbn [bind fst snd]. rewrite E2. reflexivity.
Qed.

Lemma real_array_proof : forall dims (h : heap R), dims <> [] ->
  exists h' p, AllocateRealArray dims h = Ok (h', p)
    /\ (forall idx, Forall2 (fun n i => i < n) dims idx -> exists a, address dims h' p idx = Ok a /\ length h <= fst a /\ read_at h' a = Ok 0%R)
    /\ (forall idx idx', Forall2 (fun n i => i < n) dims idx -> Forall2 (fun n i => i < n) dims idx' ->
          address dims h' p idx = address dims h' p idx' -> idx = idx')
    /\ (forall a, a < length h -> nth_error h' a = nth_error h a).
Proof.
  intros dims h Hd. unfold AllocateRealArray. destruct (length dims =? 4).
  - destruct (initialised_array_proof 0%R dims h 0%R Hd) as [h1 [p [h2 [E1 [E2 P]]]]].
    exists h2, p. split; [|exact P]. unfold Memory.heap in *. rewrite E1. cbn [bind fst snd]. rewrite E2. reflexivity.
  - destruct (allocated_array_proof 0%R dims h Hd) as [h1 [p [E1 P]]].
    exists h1, p. split; [|exact P]. unfold Memory.heap in *. rewrite E1. reflexivity.
Qed.

Lemma integer_array_freed_proof : forall dims (h : heap Z), dims <> [] ->
  exists h' p h'', AllocateIntegerArray dims h = Ok (h', p) /\ deallocate dims h' p = Ok h'' /\ length h'' = length h'
    /\ (forall a, a < length h -> nth_error h'' a = nth_error h a)
    /\ (forall a, length h <= a < length h'' -> nth_error h'' a = Some None).
Proof.
  intros dims h Hd. destruct (freed_proof 0%Z dims h (-1)%Z Hd) as [h1 [p [h2 [h3 [E1 [E2 P]]]]]].
  exists h2, p, h3. split; [|exact P]. unfold AllocateIntegerArray, Memory.heap in *. rewrite E1. cbn [bind fst snd]. rewrite E2. reflexivity.
Qed.

Lemma real_array_freed_proof : forall dims (h : heap R), dims <> [] ->
  exists h' p h'', AllocateRealArray dims h = Ok (h', p) /\ deallocate dims h' p = Ok h'' /\ length h'' = length h'
    /\ (forall a, a < length h -> nth_error h'' a = nth_error h a)
    /\ (forall a, length h <= a < length h'' -> nth_error h'' a = Some None).
Proof.
  intros dims h Hd. unfold AllocateRealArray. destruct (length dims =? 4).
  - destruct (freed_proof 0%R dims h 0%R Hd) as [h1 [p [h2 [h3 [E1 [E2 P]]]]]].
    exists h2, p, h3. split; [|exact P]. unfold Memory.heap in *. rewrite E1. cbn [bind fst snd]. rewrite E2. reflexivity.
  - destruct (allocate_spec 0%R dims h Hd) as [h1 [p [E1 [S1 [L1 F1]]]]].
    destruct (deallocate_spec dims 0%R h1 _ _ p S1) as [h3 [E3 [L3 [A3 B3]]]]; [lia|].
    exists h1, p, h3. split; [unfold Memory.heap in *; rewrite E1; reflexivity|]. split; [exact E3|]. split; [lia|]. split.
    + intros a Ha. rewrite B3 by lia. apply F1. exact Ha.
    + intros a Ha. apply A3. lia.
Qed.
End Arrays.
