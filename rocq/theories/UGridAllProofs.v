From Coq Require Import List Arith ZArith Lia Bool Permutation.
From Verif Require Import Prelude Arrays UGrid UGridLoops SpecUGrid UGridProofs UGridNumProofs UGridLocalProofs UGridVertexProofs.
Import ListNotations.
Local Open Scope Z_scope.

Lemma list_choice : forall {A} n (P : nat -> A -> Prop), (forall i, (i < n)%nat -> exists x, P i x) ->
  exists l, length l = n /\ forall i x, nth_error l i = Some x -> P i x.
Proof.
  intros A n; induction n as [|n IH]; intros P H.
  - exists []. split; [reflexivity|]. intros [|i] x E; discriminate E.
  - destruct (IH P) as [l [HL Hl]]; [intros; apply H; lia|]. destruct (H n) as [x Hx]; [lia|].
    exists (l ++ [x]). split; [rewrite app_length; simpl; lia|]. intros i y E.
    destruct (Nat.eq_dec i n) as [->|N].
    + rewrite nth_error_app2 in E by lia. rewrite HL, Nat.sub_diag in E. injection E as <-. exact Hx.
    + apply Hl. assert (i < length (l ++ [x]))%nat by (apply nth_lt in E; exact E). rewrite app_length in H0. simpl in H0.
      rewrite nth_error_app1 in E by lia. exact E.
Qed.

Lemma mapM_ok : forall {A B} (f : A -> outcome B) l (P : A -> B -> Prop),
  (forall x, In x l -> exists y, f x = Ok y /\ P x y) -> exists ys, mapM f l = Ok ys /\ Forall2 P l ys.
Proof.
  intros A B f l P; induction l as [|x l IH]; intro H; simpl.
  - exists []. split; constructor.
  - destruct (H x) as [y [Ey Py]]; [left; reflexivity|]. rewrite Ey. cbn [bind].
    destruct IH as [ys [Eys Pys]]; [intros; apply H; right; assumption|]. rewrite Eys. cbn [bind].
    exists (y :: ys). split; [reflexivity|constructor; assumption].
Qed.

Lemma Forall2_nth : forall {A B} (P : A -> B -> Prop) l ys i x, Forall2 P l ys -> nth_error l i = Some x ->
  exists y, nth_error ys i = Some y /\ P x y.
Proof.
  intros A B P l ys i x H. revert i. induction H as [|a b l ys Hab H IH]; intros [|i] E; try discriminate E.
  - injection E as <-. exists b. split; [reflexivity|exact Hab].
  - apply IH. exact E.
Qed.
Lemma Forall2_len : forall {A B} (P : A -> B -> Prop) l ys, Forall2 P l ys -> length l = length ys.
Proof. intros A B P l ys H; induction H; simpl; congruence. Qed.

Lemma ranks_from_nth : forall nls off r n, nth_error nls r = Some n ->
  nth_error (ranks_from off nls) r = Some ((off + before nls r)%nat, n).
Proof.
  induction nls as [|m nls IH]; intros off [|r] n E; try discriminate E.
  - injection E as ->. unfold before. simpl. rewrite Nat.add_0_r. reflexivity.
  - simpl. rewrite (IH (off + m)%nat r n E). unfold before. simpl. f_equal. f_equal. lia.
Qed.
Lemma ranks_from_in : forall nls off o n, In (o, n) (ranks_from off nls) ->
  (off <= o /\ o + n <= off + list_sum nls)%nat.
Proof.
  induction nls as [|m nls IH]; intros off o n H; simpl in H; [contradiction|]. destruct H as [E|H].
  - injection E as -> ->. simpl. lia.
  - apply IH in H. simpl. lia.
Qed.

(** Concatenating what the processes hold gives the distributed array. *)
Lemma concat_ranks : forall {A} stride nls off (ls : list (list A)),
  Forall2 (fun r l => length l = (snd r * stride)%nat) (ranks_from off nls) ls ->
  length (concat ls) = (list_sum nls * stride)%nat /\
  forall r n l i, nth_error nls r = Some n -> nth_error ls r = Some l -> (i < n * stride)%nat ->
    nth_error (concat ls) (before nls r * stride + i) = nth_error l i.
Proof.
  intros A stride nls; induction nls as [|m nls IH]; intros off ls H.
  - simpl in H. inversion H; subst. split; [reflexivity|]. intros [|r] n l i E; discriminate E.
  - simpl in H. inversion H as [|? l ? ls' Hl H' E1 E2]; subst. destruct (IH _ _ H') as [HL HI].
    split; [simpl; rewrite app_length, HL; simpl in Hl; lia|].
    intros [|r] n l' i En El Hi.
    + simpl in En, El. injection En as <-. injection El as <-. unfold before. simpl.
      simpl in Hl. rewrite nth_error_app1 by lia. reflexivity.
    + simpl in En, El. unfold before. simpl. simpl in Hl. rewrite nth_error_app2 by lia.
      rewrite Hl. replace ((m + list_sum (firstn r nls)) * stride + i - m * stride)%nat
        with (before nls r * stride + i)%nat by (unfold before; lia).
      apply (HI r n l' i En El Hi).
Qed.

Lemma find_rank : forall nls p, (p < list_sum nls)%nat -> exists r n i, nth_error nls r = Some n /\ (i < n)%nat /\ p = (before nls r + i)%nat.
Proof.
  induction nls as [|m nls IH]; intros p H; simpl in H; [lia|].
  destruct (le_lt_dec m p) as [Hle|Hlt].
  - destruct (IH (p - m)%nat) as [r [n [i [En [Hi E]]]]]; [lia|]. exists (S r), n, i.
    split; [exact En|]. split; [exact Hi|]. unfold before in *. simpl. lia.
  - exists 0%nat, m, p. split; [reflexivity|]. split; [exact Hlt|]. reflexivity.
Qed.

(** The description of a process' share of the mesh. *)
Definition part_of (cs : list cell) (p : part) : Prop :=
  p_verts p = map fst cs /\ csr (p_ia p) (p_ja p) (map snd cs).

Section all.
Context (sort : list Z -> list nat).
Hypothesis Hsort : forall a, sorts a (sort a).
Context (maxv maxd : nat).
Let stride := stride_of maxv maxd.
Let doff := dual_offset maxv.
Let rec (c : nat) (cl : cell) : list Z := record (Z.of_nat c) (firstn maxv (fst cl)) (snd cl) maxd.

Lemma stride_pos : (0 < stride)%nat.
Proof. unfold stride, stride_of. lia. Qed.
Lemma doff_fits : (doff + maxd <= stride)%nat.
Proof. unfold doff, stride, stride_of. lia. Qed.

Lemma pack_all_ok : forall N pcells parts off, Forall2 part_of pcells parts ->
  Forall (fits N maxv maxd) (concat pcells) ->
  exists pre, pack_all maxv maxd off parts = Ok pre /\ length pre = (length (concat pcells) * stride)%nat /\
  forall c cl k, nth_error (concat pcells) c = Some cl -> (k < stride)%nat ->
    nth_error pre (c * stride + k) = nth_error (rec (off + c) cl) k.
Proof.
  intros N pcells parts off H. revert off. induction H as [|cs p pcells parts [Hv Hc] _ IH]; intros off HF.
  - exists []. split; [reflexivity|]. split; [reflexivity|]. intros [|c] cl k E; discriminate E.
  - cbn [concat] in HF. apply Forall_app in HF. destruct HF as [HF1 HF2].
    assert (HN : length (p_verts p) = length cs) by (rewrite Hv; apply map_length).
    cbn [pack_all].
    destruct (pack_ok maxv maxd off (p_verts p) (p_ia p) (p_ja p) (map snd cs)) with
      (v := repeat 0 (length (p_verts p) * stride_of maxv maxd)) as [v [Ev [HLv Hrec]]].
    + intros i row Er. rewrite Hv, nth_error_map in Er. destruct (nth_error cs i) as [cl|] eqn:Ec; [|discriminate Er].
      injection Er as <-. apply nth_error_In in Ec. rewrite Forall_forall in HF1. destruct (HF1 _ Ec) as [H1 _]. exact H1.
    + rewrite map_length. symmetry. exact HN.
    + exact Hc.
    + intros i r Er. rewrite nth_error_map in Er. destruct (nth_error cs i) as [cl|] eqn:Ec; [|discriminate Er].
      injection Er as <-. apply nth_error_In in Ec. rewrite Forall_forall in HF1. destruct (HF1 _ Ec) as [_ [_ [H1 _]]]. exact H1.
    + apply repeat_length.
    + rewrite Ev. cbn [bind]. rewrite HN in HLv, Hrec |- *.
      destruct (IH (off + length cs)%nat HF2) as [pre [Ep [HLp Hp]]]. rewrite Ep. cbn [bind].
      exists (v ++ pre). split; [reflexivity|]. fold stride in HLv.
      split; [cbn [concat]; rewrite !app_length, HLp; nia|].
      intros c cl k Ec Hk. cbn [concat] in Ec. destruct (le_lt_dec (length cs) c) as [Hge|Hlt].
      * rewrite nth_error_app2 in Ec by exact Hge.
        rewrite nth_error_app2 by (rewrite HLv; nia). rewrite HLv.
        replace (c * stride + k - length cs * stride)%nat with ((c - length cs) * stride + k)%nat by nia.
        rewrite (Hp _ _ _ Ec Hk). f_equal. unfold rec. f_equal. lia.
      * rewrite nth_error_app1 in Ec by exact Hlt.
        rewrite nth_error_app1 by (rewrite HLv; nia).
        rewrite Hrec by assumption. unfold expected, rec. f_equal. f_equal.
        -- f_equal. rewrite Hv. apply nth_error_nth. rewrite nth_error_map, Ec. reflexivity.
        -- apply nth_error_nth. rewrite nth_error_map, Ec. reflexivity.
Qed.

Context (cells : list cell) (num nls : list nat).
Let N := length cells.
Hypothesis Hfits : Forall (fits N maxv maxd) cells.
Hypothesis Hnum : Permutation num (seq 0 N).
Hypothesis Hnls : list_sum nls = N.

Lemma num_len : length num = N.
Proof. apply Permutation_length in Hnum. rewrite seq_length in Hnum. exact Hnum. Qed.
Lemma num_perm : Permutation num (seq 0 (length num)).
Proof. rewrite num_len. exact Hnum. Qed.

(** The vector after the move. *)
Context (post : list Z).
Hypothesis Hpost : length post = (N * stride)%nat.
Hypothesis Hrec : forall c cl p k, nth_error cells c = Some cl -> nth_error num c = Some p -> (k < stride)%nat ->
  nth_error post (p * stride + k) = nth_error (rec c cl) k.

(** Each global number belongs to one cell. *)
Lemma cell_of : forall p, (p < N)%nat -> exists c cl, nth_error num c = Some p /\ nth_error cells c = Some cl /\ fits N maxv maxd cl.
Proof.
  intros p Hp. destruct (num_surj num num_perm p) as [c Ec]; [rewrite num_len; exact Hp|].
  assert (Hc : (c < N)%nat) by (rewrite <- num_len; apply nth_lt in Ec; exact Ec).
  destruct (nth_error cells c) as [cl|] eqn:Ecl; [|apply nth_error_None in Ecl; unfold N in Hc; lia].
  exists c, cl. split; [exact Ec|]. split; [exact Ecl|]. rewrite Forall_forall in Hfits. apply Hfits.
  apply nth_error_In in Ecl. exact Ecl.
Qed.

Definition nat_ok (r : nat * nat) (a : list Z) : Prop :=
  length a = snd r /\
  forall i, (i < snd r)%nat -> exists c, nth_error num c = Some (fst r + i)%nat /\ nth_error a i = Some (Z.of_nat c).

Lemma save_ok : forall r, (fst r + snd r <= N)%nat ->
  exists a, save_natural stride (snd r) (slice stride (fst r) (snd r) post) = Ok a /\ nat_ok r a.
Proof.
  intros [o n] Hr. cbn [fst snd] in *.
  destruct (save_natural_ok stride n (slice stride o n post)) as [a [E [HL H]]].
  - exact stride_pos.
  - apply slice_length. rewrite Hpost. apply Nat.mul_le_mono_r. exact Hr.
  - exists a. split; [exact E|]. split; [exact HL|]. cbn [fst snd]. intros i Hi.
    destruct (cell_of (o + i)) as [c [cl [Ec [Ecl _]]]]; [lia|]. exists c. split; [exact Ec|].
    rewrite (H i (- Z.of_nat c - 1) Hi); [f_equal; lia|].
    rewrite <- (Nat.add_0_r (i * stride)). rewrite slice_nth by (exact Hi || exact stride_pos).
    rewrite (Hrec c cl (o + i)%nat 0%nat Ecl Ec stride_pos). apply record_id.
Qed.

Context (ao : list Z).
Hypothesis Hao : forall c p, nth_error num c = Some p -> nth_error ao p = Some (Z.of_nat c).
Hypothesis Hao_len : length ao = N.

Lemma ao_nodup : NoDup ao.
Proof.
  apply NoDup_nth_error. intros i j Hi E. rewrite Hao_len in Hi.
  destruct (cell_of i Hi) as [c [cl [Ec _]]]. pose proof (Hao c i Ec) as Ei. rewrite Ei in E.
  assert (Hj : (j < N)%nat) by (rewrite <- Hao_len; symmetry in E; apply nth_lt in E; exact E).
  destruct (cell_of j Hj) as [c' [cl' [Ec' _]]]. pose proof (Hao c' j Ec') as Ej. rewrite Ej in E.
  injection E as E. assert (c = c') by lia. subst c'. congruence.
Qed.
Lemma ao_num : forall c p, nth_error num c = Some p -> app_to_petsc ao (Z.of_nat c) = Z.of_nat p.
Proof. intros c p E. apply app_to_petsc_ok; [exact ao_nodup|]. apply Hao. exact E. Qed.

(** *** One process *)
Definition rank_state (r : nat * nat) (x : numbers) : Prop :=
  let (off, nl) := r in
  right_numbering num off nl (n_natural x) (n_ghosts x) /\
  ghosts_needed cells nl (n_natural x) (n_ghosts x) /\
  right_neighbours cells nl (n_natural x) (n_nbs x) /\
  length (n_petsc x) = nl /\
  (forall i, (i < nl)%nat -> nth_error (n_petsc x) i = Some (Z.of_nat (off + i))) /\
  length (n_vec x) = (nl * stride)%nat /\
  (forall i iv, (i < nl)%nat -> (iv < maxv)%nat ->
     nth_error (n_vec x) (i * stride + (2 + iv)) = nth_error post ((off + i) * stride + (2 + iv))).

Lemma number_rank_ok : forall off nl, (off + nl <= N)%nat ->
  exists x, number_rank sort maxv maxd ao post (off, nl) = Ok x /\ rank_state (off, nl) x.
Proof.
  intros off nl Hr. unfold number_rank. fold stride. fold doff.
  set (v := slice stride off nl post).
  assert (Hv : length v = (nl * stride)%nat).
  { apply slice_length. rewrite Hpost. apply Nat.mul_le_mono_r. exact Hr. }
  assert (Hvp : forall i k, (i < nl)%nat -> (k < stride)%nat -> nth_error v (i * stride + k) = nth_error post ((off + i) * stride + k)).
  { intros. apply slice_nth; assumption. }
  destruct (save_ok (off, nl) Hr) as [nat_ids [En [HLn Hn]]]. cbn [fst snd] in *.
  fold v in En. rewrite En. cbn [bind].
  assert (Hdo : (0 < doff)%nat) by (unfold doff, dual_offset, vertex_ids_offset; lia).
  (* the neighbour slots before renumbering *)
  assert (Hdual : forall i id c cl, (i < nl)%nat -> (id < maxd)%nat -> nth_error num c = Some (off + i)%nat ->
     nth_error cells c = Some cl ->
     nth_error v (at_slot stride doff i id) = Some (match nth_error (snd cl) id with Some x => x + 1 | None => 0 end)).
  { intros i id c cl Hi Hid Ec Ecl. unfold at_slot. replace (i * stride + id + doff)%nat with (i * stride + (doff + id))%nat by lia.
    rewrite Hvp; [|exact Hi|pose proof doff_fits; lia].
    rewrite (Hrec c cl (off + i)%nat _ Ecl Ec) by (pose proof doff_fits; lia).
    pose proof (record_dual (Z.of_nat c) (firstn maxv (fst cl)) (snd cl) maxd id Hid) as Q.
    rewrite firstn_length in Q. rewrite Forall_forall in Hfits.
    destruct (Hfits cl) as [Hmv _]; [apply nth_error_In in Ecl; exact Ecl|].
    replace (Nat.min maxv (length (fst cl))) with maxv in Q by lia. exact Q. }
  destruct (to_global_ok stride doff nl maxd ao nat_ids v Hdo doff_fits Hv) as [petsc [vg [Eg [HLp [HLg [Hpe [_ [Hgl Hoth]]]]]]]]; [lia|].
  rewrite Eg. cbn [bind].
  assert (HgG : forall i id c cl, (i < nl)%nat -> (id < maxd)%nat -> nth_error num c = Some (off + i)%nat -> nth_error cells c = Some cl ->
     nth_error vg (at_slot stride doff i id) = Some (match nth_error (snd cl) id with
       Some x => app_to_petsc ao x + 1 | None => 0 end)).
  { intros i id c cl Hi Hid Ec Ecl. rewrite Hgl by assumption. unfold global_slot, val_at.
    rewrite (nth_error_nth _ _ _ (Hdual i id c cl Hi Hid Ec Ecl)).
    destruct (nth_error (snd cl) id) as [y|] eqn:Ey; [|reflexivity].
    rewrite Forall_forall in Hfits. destruct (Hfits cl) as [_ [_ [_ [Hnb _]]]]; [apply nth_error_In in Ecl; exact Ecl|].
    pose proof (Hnb y (nth_error_In _ _ Ey)). destruct (Z.ltb_spec 0 (y + 1)); [|lia]. f_equal. f_equal. f_equal. lia. }
  (* natural number to global number *)
  assert (Hnat : forall y, 0 <= y < Z.of_nat N -> exists p, nth_error num (Z.to_nat y) = Some p /\ (p < N)%nat /\ app_to_petsc ao y = Z.of_nat p).
  { intros y Hy. destruct (num_get num num_perm (Z.to_nat y)) as [p [Ep Hp]]; [rewrite num_len; lia|].
    exists p. split; [exact Ep|]. split; [rewrite <- num_len; exact Hp|]. rewrite <- (ao_num _ _ Ep). f_equal. lia. }
  destruct (to_local_ok sort Hsort stride doff nl maxd (Z.of_nat off) vg doff_fits) as
    [ghosts [vl [El [HInc [HLl [HGh [HZ [HK HO]]]]]]]]; [congruence| |].
  { intros i id Hi Hid. destruct (cell_of (off + i)) as [c [cl [Ec [Ecl Hf]]]]; [lia|].
    rewrite (nth_error_nth _ _ _ (HgG i id c cl Hi Hid Ec Ecl)).
    destruct (nth_error (snd cl) id) as [y|] eqn:Ey; [|lia]. destruct Hf as [_ [_ [_ [Hnb _]]]].
    destruct (Hnat y (Hnb y (nth_error_In _ _ Ey))) as [p [_ [_ ->]]]. lia. }
  rewrite El. cbn [bind].
  (* what a slot holds in the end *)
  assert (HSlot : forall i id c cl, (i < nl)%nat -> (id < maxd)%nat -> nth_error num c = Some (off + i)%nat -> nth_error cells c = Some cl ->
     match nth_error (snd cl) id with
     | Some y => exists k p, nth_error vl (at_slot stride doff i id) = Some (Z.of_nat (S k)) /\ (k < nl + length ghosts)%nat /\
          nth_error num (Z.to_nat y) = Some p /\ 0 <= y < Z.of_nat N /\
          global_number (Z.of_nat off) nl ghosts k = Some (Z.of_nat p)
     | None => nth_error vl (at_slot stride doff i id) = Some 0
     end).
  { intros i id c cl Hi Hid Ec Ecl. pose proof (nth_error_nth _ _ 0 (HgG i id c cl Hi Hid Ec Ecl)) as Ed.
    destruct (nth_error (snd cl) id) as [y|] eqn:Ey.
    - rewrite Forall_forall in Hfits. destruct (Hfits cl) as [_ [_ [_ [Hnb _]]]]; [apply nth_error_In in Ecl; exact Ecl|].
      pose proof (Hnb y (nth_error_In _ _ Ey)) as Hy. destruct (Hnat y Hy) as [p [Ep [Hp Ea]]].
      destruct (HK i id Hi Hid) as [k [Ek [Hk Egn]]]; [rewrite Ed, Ea; lia|].
      exists k, p. split; [exact Ek|]. split; [exact Hk|]. split; [exact Ep|]. split; [exact Hy|].
      rewrite Egn, Ed, Ea. f_equal. lia.
    - apply HZ; assumption. }
  (* numbers of ghosts *)
  set (natof := fun k => nth (Z.to_nat (nth (k - nl) ghosts 0)) ao 0).
  assert (Hnatof : forall k c p, (nl <= k)%nat -> global_number (Z.of_nat off) nl ghosts k = Some (Z.of_nat p) ->
     nth_error num c = Some p -> natof k = Z.of_nat c).
  { intros k c p Hk Egn Ec. unfold global_number in Egn. destruct (Nat.ltb_spec k nl); [lia|].
    unfold natof. rewrite (nth_error_nth _ _ _ Egn), Nat2Z.id. apply nth_error_nth. apply Hao. exact Ec. }
  destruct (update_natural_ok stride doff nl maxd vl doff_fits ltac:(congruence) (length ghosts) nat_ids v natof) as
    [nat_all [Eu [HLu [Hu1 Hu2]]]]; [exact Hv|lia| |].
  { intros i id Hi Hid. destruct (cell_of (off + i)) as [c [cl [Ec [Ecl Hf]]]]; [lia|].
    pose proof (HSlot i id c cl Hi Hid Ec Ecl) as HSl. pose proof (Hdual i id c cl Hi Hid Ec Ecl) as HDu.
    destruct (nth_error (snd cl) id) as [y|] eqn:Ey.
    - destruct HSl as [k [p [Ek [Hk [Ep [Hy Egn]]]]]]. exists (Z.of_nat (S k)). split; [exact Ek|]. split; [lia|].
      intro Hlt. rewrite HDu. f_equal. replace (Z.to_nat (Z.of_nat (S k) - 1)) with k by lia.
      rewrite (Hnatof k (Z.to_nat y) p); [lia|lia|exact Egn|exact Ep].
    - exists 0. split; [exact HSl|]. split; [lia|]. lia. }
  rewrite Eu. cbn [bind].
  (* natural numbers of all local cells *)
  assert (HAll : forall k c p, (k < nl + length ghosts)%nat -> global_number (Z.of_nat off) nl ghosts k = Some (Z.of_nat p) ->
     nth_error num c = Some p -> nth_error nat_all k = Some (Z.of_nat c)).
  { intros k c p Hk Egn Ec. destruct (le_lt_dec nl k) as [Hge|Hlt].
    - unfold global_number in Egn. destruct (Nat.ltb_spec k nl); [lia|].
      destruct (HGh (Z.of_nat p)) as [_ [Hno [i [id [Hi [Hid Ed]]]]]]; [apply nth_error_In in Egn; exact Egn|].
      destruct (HK i id Hi Hid) as [k' [Ek' [Hk' Egn']]]; [rewrite Ed; lia|]. rewrite Ed in Egn'.
      replace (Z.of_nat p + 1 - 1) with (Z.of_nat p) in Egn' by lia.
      assert (k' = k).
      { unfold global_number in Egn'. destruct (Nat.ltb_spec k' nl).
        - injection Egn' as E. exfalso. lia.
        - destruct (lt_eq_lt_dec (k' - nl) (k - nl)) as [[Hlt|He]|Hgt]; [|lia|].
          + pose proof (HInc _ _ _ _ Hlt Egn' Egn). lia.
          + pose proof (HInc _ _ _ _ Hgt Egn Egn'). lia. }
      subst k'. rewrite (Hu2 i id k Hi Hid Ek' Hge). f_equal. apply (Hnatof k c p); [exact Hge| |exact Ec].
      unfold global_number. destruct (Nat.ltb_spec k nl); [lia|exact Egn].
    - unfold global_number in Egn. destruct (Nat.ltb_spec k nl); [|lia]. injection Egn as E.
      rewrite Hu1 by exact Hlt. destruct (Hn k Hlt) as [c' [Ec' ->]]. do 2 f_equal.
      apply (num_inj num num_perm c' c (off + k)%nat Ec'). rewrite Ec. f_equal. lia. }
  assert (HOwn : forall i, (i < nl)%nat -> exists c cl, nth_error num c = Some (off + i)%nat /\ nth_error cells c = Some cl /\ nth_error nat_all i = Some (Z.of_nat c)).
  { intros i Hi. destruct (cell_of (off + i)) as [c [cl [Ec [Ecl _]]]]; [lia|]. exists c, cl. split; [exact Ec|]. split; [exact Ecl|].
    apply (HAll i c (off + i)%nat); [lia| |exact Ec]. unfold global_number. destruct (Nat.ltb_spec i nl); [|lia]. f_equal. lia. }
  (* neighbour rows *)
  destruct (list_choice nl (fun i r => neighbours stride doff nl maxd vl i = Ok r /\
      exists c cl, nth_error num c = Some (off + i)%nat /\ nth_error cells c = Some cl /\ fst r = length (snd cl) /\
      forall k y, nth_error (snd cl) k = Some y -> exists e, nth_error (snd r) k = Some e /\
        nth_error nat_all (refers_to e) = Some y /\ (0 <= e <-> (refers_to e < nl)%nat))) as [rows [HLr Hrows]].
  { intros i Hi. destruct (HOwn i Hi) as [c [cl [Ec [Ecl _]]]].
    assert (Hnd : (length (snd cl) <= maxd)%nat).
    { rewrite Forall_forall in Hfits. destruct (Hfits cl) as [_ [_ [Hnd _]]]; [apply nth_error_In in Ecl; exact Ecl|exact Hnd]. }
    destruct (list_choice (length (snd cl)) (fun id k => nth_error vl (at_slot stride doff i id) = Some (Z.of_nat (S k)) /\
       nth_error nat_all k = nth_error (snd cl) id)) as [ks [HLk Hks]].
    { intros id Hid. pose proof (HSlot i id c cl Hi ltac:(lia) Ec Ecl) as HSl.
      destruct (nth_error (snd cl) id) as [y|] eqn:Ey; [|apply nth_error_None in Ey; lia].
      destruct HSl as [k [p [Ek [Hk [Ep [Hy Egn]]]]]]. exists k. split; [exact Ek|].
      rewrite (HAll k (Z.to_nat y) p Hk Egn Ep). f_equal. lia. }
    destruct (neighbours_ok stride doff nl maxd vl doff_fits ltac:(congruence) i ks Hi) as [row [Er [HLrow Hrow]]].
    { lia. }
    { intros id Hid. destruct (nth_error ks id) as [k|] eqn:Ek.
      - destruct (Hks id k Ek) as [E1 _]. exact E1.
      - apply nth_error_None in Ek. pose proof (HSlot i id c cl Hi Hid Ec Ecl) as HSl.
        replace (nth_error (snd cl) id) with (@None Z) in HSl by (symmetry; apply nth_error_None; lia). exact HSl. }
    exists (length ks, row). split; [exact Er|]. exists c, cl. split; [exact Ec|]. split; [exact Ecl|]. cbn [fst snd].
    split; [exact HLk|]. intros k y Ey.
    destruct (nth_error ks k) as [kk|] eqn:Ekk; [|apply nth_error_None in Ekk; apply nth_lt in Ey; lia].
    destruct (Hks k kk Ekk) as [_ E2]. eexists. split; [apply Hrow; exact Ekk|].
    assert (ER : refers_to (if (kk <? nl)%nat then Z.of_nat kk else - Z.of_nat kk) = kk).
    { unfold refers_to. destruct (kk <? nl)%nat; lia. }
    rewrite ER. split; [congruence|]. destruct (Nat.ltb_spec kk nl); lia. }
  destruct (all_neighbours_ok stride doff nl maxd vl (fun i => nth i rows (0%nat, []))) as [nbs [Eb [HLb Hb]]].
  { intros i Hi. destruct (nth_error rows i) as [r|] eqn:Er; [|apply nth_error_None in Er; lia].
    rewrite (nth_error_nth _ _ _ Er). apply (Hrows i r Er). }
  rewrite Eb. cbn [bind]. eexists. split; [reflexivity|]. unfold rank_state. cbn [n_natural n_ghosts n_nbs n_petsc n_vec].
  assert (HNum : right_numbering num off nl nat_all ghosts).
  { split; [exact HInc|]. split.
    - intros g Hg. destruct (HGh g Hg) as [_ [Hno _]]. lia.
    - split; [exact HLu|]. intros k Hk. destruct (le_lt_dec nl k) as [Hge|Hlt].
      + destruct (nth_error ghosts (k - nl)) as [g|] eqn:Eg2; [|apply nth_error_None in Eg2; lia].
        assert (exists p, g = Z.of_nat p /\ (p < N)%nat) as [p [-> Hp]].
        { destruct (HGh g (nth_error_In _ _ Eg2)) as [Hg0 [_ [i [id [Hi [Hid Ed]]]]]].
          destruct (HOwn i Hi) as [c [cl [Ec [Ecl _]]]].
          rewrite (nth_error_nth _ _ _ (HgG i id c cl Hi Hid Ec Ecl)) in Ed.
          destruct (nth_error (snd cl) id) as [y|] eqn:Ey.
          - rewrite Forall_forall in Hfits. destruct (Hfits cl) as [_ [_ [_ [Hnb _]]]]; [apply nth_error_In in Ecl; exact Ecl|].
            destruct (Hnat y (Hnb y (nth_error_In _ _ Ey))) as [p [_ [Hp Ea]]]. exists p. split; [lia|exact Hp].
          - exfalso. lia. }
        destruct (cell_of p Hp) as [c [cl [Ec _]]]. exists c, p.
        assert (Egn : global_number (Z.of_nat off) nl ghosts k = Some (Z.of_nat p)).
        { unfold global_number. destruct (Nat.ltb_spec k nl); [lia|exact Eg2]. }
        split; [apply (HAll k c p Hk Egn Ec)|]. split; [exact Ec|exact Egn].
      + destruct (HOwn k Hlt) as [c [cl [Ec [_ Ek]]]]. exists c, (off + k)%nat. split; [exact Ek|]. split; [exact Ec|].
        unfold global_number. destruct (Nat.ltb_spec k nl); [|lia]. f_equal. lia. }
  split; [exact HNum|]. split; [|split].
  - (* every ghost is a neighbour of an owned cell *)
    intros k x Hk Ex. assert (Hkl : (k < nl + length ghosts)%nat) by (rewrite <- HLu; apply nth_lt in Ex; exact Ex).
    destruct (nth_error ghosts (k - nl)) as [g|] eqn:Eg2; [|apply nth_error_None in Eg2; lia].
    destruct (HGh g (nth_error_In _ _ Eg2)) as [Hg0 [_ [i [id [Hi [Hid Ed]]]]]].
    destruct (HOwn i Hi) as [c [cl [Ec [Ecl Ei]]]]. exists i, c, cl. split; [exact Hi|]. split; [exact Ei|]. split; [exact Ecl|].
    rewrite (nth_error_nth _ _ _ (HgG i id c cl Hi Hid Ec Ecl)) in Ed.
    destruct (nth_error (snd cl) id) as [y|] eqn:Ey; [|lia].
    rewrite Forall_forall in Hfits. destruct (Hfits cl) as [_ [_ [_ [Hnb _]]]]; [apply nth_error_In in Ecl; exact Ecl|].
    pose proof (Hnb y (nth_error_In _ _ Ey)) as Hy.
    destruct (Hnat y Hy) as [p [Ep [Hp Ea]]].
    assert (Egn : global_number (Z.of_nat off) nl ghosts k = Some (Z.of_nat p)).
    { unfold global_number. destruct (Nat.ltb_spec k nl); [lia|]. rewrite Eg2. f_equal. lia. }
    pose proof (HAll k (Z.to_nat y) p Hkl Egn Ep) as Ek. rewrite Ex in Ek. injection Ek as Ek.
    replace x with y by lia. apply nth_error_In in Ey. exact Ey.
  - split; [exact HLb|]. intros i c cl Hi Ei Ecl.
    destruct (nth_error rows i) as [r|] eqn:Er; [|apply nth_error_None in Er; lia].
    destruct (Hrows i r Er) as [_ [c' [cl' [Ec' [Ecl' [Hf Hr2]]]]]].
    destruct (HOwn i Hi) as [c2 [cl2 [Ec2 [Ecl2 Ei2]]]]. rewrite Ei in Ei2. injection Ei2 as Ei2.
    assert (c = c2) by lia. subst c2. assert (c' = c) by (apply (num_inj num num_perm c' c _ Ec' Ec2)). subst c'.
    assert (cl' = cl) by congruence. subst cl'.
    exists (snd r). split; [rewrite Hb by exact Hi; rewrite (nth_error_nth _ _ _ Er); destruct r; cbn [fst snd] in *; congruence|].
    exact Hr2.
  - split; [exact HLp|]. split; [|split].
    + intros i Hi. rewrite Hpe by exact Hi. f_equal. destruct (Hn i Hi) as [c [Ec Ei]].
      rewrite (nth_error_nth _ _ _ Ei). apply ao_num. exact Ec.
    + congruence.
    + intros i iv Hi Hiv.
      assert (HSt : (2 + iv < stride)%nat) by (unfold stride, stride_of, dual_offset, vertex_ids_offset; lia).
      rewrite HO.
      * rewrite Hoth; [apply Hvp; [exact Hi|exact HSt]|exact Hi|lia|left; unfold doff, dual_offset, vertex_ids_offset; lia].
      * intros i' id' Hi' Hid' E. unfold at_slot in E. rewrite <- Nat.add_assoc in E.
        apply flat_inj in E; [|exact HSt|pose proof doff_fits; lia].
        unfold doff, dual_offset, vertex_ids_offset in E. lia.
Qed.

(** *** Vertices of one process *)
Lemma recorded_vertices : forall (w : list Z) i cl, (forall iv, (iv < maxv)%nat ->
    nth_error w (i * stride + (2 + iv)) = nth_error (rec 0 cl) (2 + iv)) -> fits N maxv maxd cl ->
  recorded stride vertex_ids_offset maxv w i = cell_vs cl.
Proof.
  intros w i cl Hw [Hmv [Hval _]]. unfold recorded, cell_vs.
  assert (E : map (fun iv => nth (i * stride + vertex_ids_offset + iv) w 0) (seq 0 maxv) = map (fun x => x + 1) (firstn maxv (fst cl))).
  { apply nth_error_ext. intro k. rewrite !nth_error_map. destruct (le_lt_dec maxv k) as [Hge|Hlt].
    - rewrite (proj2 (nth_error_None (seq 0 maxv) k)) by (rewrite seq_length; exact Hge).
      rewrite (proj2 (nth_error_None (firstn maxv (fst cl)) k)) by (rewrite firstn_length; lia). reflexivity.
    - rewrite (nth_error_nth' (seq 0 maxv) 0%nat) by (rewrite seq_length; exact Hlt). rewrite seq_nth by exact Hlt.
      rewrite nth_firstn by exact Hlt.
      destruct (nth_error (fst cl) k) as [x|] eqn:Ex; [|apply nth_error_None in Ex; lia].
      cbn [option_map]. f_equal. apply nth_error_nth. unfold vertex_ids_offset.
      replace (i * stride + 2 + (0 + k))%nat with (i * stride + (2 + k))%nat by lia.
      rewrite Hw by exact Hlt. unfold rec. apply record_vertex. rewrite nth_firstn by exact Hlt. exact Ex. }
  rewrite E. clear E Hw.
  assert (E : filter (fun x => 0 <=? x) (fst cl) = filter (fun x => 0 <=? x) (firstn maxv (fst cl))).
  { rewrite <- (firstn_skipn maxv (fst cl)) at 1. rewrite filter_app.
    replace (filter (fun x => 0 <=? x) (skipn maxv (fst cl))) with (@nil Z); [apply app_nil_r|].
    assert (H1 : forall x, In x (skipn maxv (fst cl)) -> x = -1).
    { intros x Hx. apply In_nth_error in Hx. destruct Hx as [k Ek]. rewrite nth_skipn in Ek.
      apply (Hval _ _ Ek). lia. }
    revert H1. generalize (skipn maxv (fst cl)) as l. induction l as [|y l IH]; intro H1; [reflexivity|].
    simpl. rewrite (H1 y (or_introl eq_refl)). simpl. apply IH. intros x Hx. apply H1. right. exact Hx. }
  rewrite E. clear E Hval Hmv. generalize (firstn maxv (fst cl)) as l. induction l as [|y l IH]; [reflexivity|].
  cbn [map filter]. destruct (Z.ltb_spec 0 (y + 1)), (Z.leb_spec 0 y); try lia; cbn [map].
  - f_equal; [lia|exact IH].
  - exact IH.
Qed.

Lemma vertices_rank_ok : forall {A} (coords : list (list A)) vec off nl x, (0 < nl)%nat -> (off + nl <= N)%nat ->
  rank_state (off, nl) x -> length vec = (N * stride)%nat ->
  (forall p iv, (p < N)%nat -> (iv < maxv)%nat -> nth_error vec (p * stride + (2 + iv)) = nth_error post (p * stride + (2 + iv))) ->
  (forall c cl y, nth_error cells c = Some cl -> In y (cell_vs cl) -> y < Z.of_nat (length coords)) ->
  exists vids rows cs, vertices_rank sort maxv maxd coords vec x = Ok (vids, rows, cs) /\
  right_vertices cells (nl + length (n_ghosts x)) (n_natural x) vids rows /\
  length cs = length vids /\
  (forall r g, nth_error vids r = Some g -> nth_error cs r = nth_error coords (Z.to_nat g)).
Proof.
  intros A coords vec off nl x Hnl Hr [[HInc [HGo [HLn HNum]]] [_ [_ [HLp [Hpe _]]]]] HLv Hvec Hco.
  unfold vertices_rank. fold stride. set (ids := n_petsc x ++ n_ghosts x).
  assert (HLi : length ids = (nl + length (n_ghosts x))%nat) by (unfold ids; rewrite app_length, HLp; reflexivity).
  assert (Hid : forall i, (i < nl + length (n_ghosts x))%nat -> exists c cl p, nth_error ids i = Some (Z.of_nat p) /\
     nth_error num c = Some p /\ (p < N)%nat /\ nth_error cells c = Some cl /\ fits N maxv maxd cl /\
     nth_error (n_natural x) i = Some (Z.of_nat c)).
  { intros i Hi. destruct (HNum i Hi) as [c [p [En [Ec Egn]]]].
    assert (Hc : (c < N)%nat) by (rewrite <- num_len; apply nth_lt in Ec; exact Ec).
    destruct (nth_error cells c) as [cl|] eqn:Ecl; [|apply nth_error_None in Ecl; unfold N in Hc; lia].
    exists c, cl, p. split.
    - unfold ids, global_number in *. destruct (Nat.ltb_spec i nl).
      + rewrite nth_error_app1 by lia. rewrite Hpe by assumption. injection Egn as Egn. f_equal. lia.
      + rewrite nth_error_app2 by lia. rewrite HLp. exact Egn.
    - split; [exact Ec|]. split.
      + destruct (num_get num num_perm c) as [p' [Ep' Hp']]; [rewrite num_len; exact Hc|]. rewrite num_len in Hp'. congruence.
      + split; [exact Ecl|]. split; [|exact En]. rewrite Forall_forall in Hfits. apply Hfits. apply nth_error_In in Ecl. exact Ecl. }
  destruct (gather_records_ok stride ids vec N HLv) as [w [Ew [HLw Hw]]].
  { intros g Hg. apply In_nth_error in Hg. destruct Hg as [i Ei].
    destruct (Hid i) as [c [cl [p [Ep [_ [Hp _]]]]]]; [rewrite <- HLi; apply nth_lt in Ei; exact Ei|].
    rewrite Ei in Ep. injection Ep as ->. lia. }
  rewrite Ew. cbn [bind].
  assert (HRec : forall i c cl, (i < nl + length (n_ghosts x))%nat -> nth_error (n_natural x) i = Some (Z.of_nat c) ->
     nth_error cells c = Some cl -> recorded stride vertex_ids_offset maxv w i = cell_vs cl /\ fits N maxv maxd cl).
  { intros i c cl Hi En Ecl. destruct (Hid i Hi) as [c' [cl' [p [Ep [Ec [Hp [Ecl' [Hf En']]]]]]]].
    rewrite En in En'. injection En' as En'. assert (c' = c) by lia. subst c'. assert (cl' = cl) by congruence. subst cl'.
    split; [|exact Hf]. apply recorded_vertices; [|exact Hf]. intros iv Hiv.
    assert (HSt : (2 + iv < stride)%nat) by (unfold stride, stride_of, dual_offset, vertex_ids_offset; lia).
    rewrite (Hw i _ _ Ep HSt), Nat2Z.id. rewrite Hvec by assumption. rewrite (Hrec c cl p _ Ecl Ec HSt). unfold rec.
    destruct (nth_error (firstn maxv (fst cl)) iv) as [y|] eqn:Ey.
    - rewrite !(record_vertex _ _ _ _ _ _ Ey). reflexivity.
    - apply nth_error_None in Ey. rewrite firstn_length in Ey. destruct Hf as [Hmv _]. lia. }
  destruct (local_vertices_ok sort Hsort stride vertex_ids_offset (length ids) maxv w) as
    [vids [rows [El [HVI [HLr [HVF HVR]]]]]].
  - unfold stride, stride_of, dual_offset, vertex_ids_offset. lia.
  - exact HLw.
  - destruct (Hid 0%nat) as [c [cl [p [Ep [Ec [Hp [Ecl [Hf En]]]]]]]]; [lia|].
    destruct (HRec 0%nat c cl ltac:(lia) En Ecl) as [HR0 _].
    destruct Hf as [_ [_ [_ [_ [y Hy]]]]]. rewrite <- HR0 in Hy. unfold recorded in Hy.
    apply in_map_iff in Hy. destruct Hy as [z [_ Hz]]. apply filter_In in Hz. destruct Hz as [Hz Hz0].
    apply in_map_iff in Hz. destruct Hz as [iv [Ez Hiv]]. apply in_seq in Hiv.
    exists 0%nat, iv. split; [lia|]. split; [lia|]. apply Z.ltb_lt in Hz0. rewrite <- Ez in Hz0. exact Hz0.
  - rewrite El. cbn [bind].
    assert (HVIn : forall y, In y vids -> exists i c cl, (i < nl + length (n_ghosts x))%nat /\
       nth_error (n_natural x) i = Some (Z.of_nat c) /\ nth_error cells c = Some cl /\ In y (cell_vs cl)).
    { intros y Hy. destruct (HVF y Hy) as [i [Hi Hin]]. rewrite HLi in Hi.
      destruct (Hid i Hi) as [c [cl [p [_ [_ [_ [Ecl [_ En]]]]]]]]. exists i, c, cl.
      destruct (HRec i c cl Hi En Ecl) as [HR _]. rewrite <- HR. auto. }
    destruct (local_coordinates_ok vids coords) as [cs [Ecs [HLc Hcs]]].
    { intros g Hg. destruct (HVIn g Hg) as [i [c [cl [_ [_ [Ecl Hin]]]]]]. split; [|exact (Hco c cl g Ecl Hin)].
      unfold cell_vs in Hin. apply filter_In in Hin. destruct Hin as [_ Hin]. apply Z.leb_le in Hin. exact Hin. }
    rewrite Ecs. cbn [bind]. exists vids, rows, cs. split; [reflexivity|]. split; [|split; [exact HLc|exact Hcs]].
    split; [exact HVI|]. split; [congruence|]. split; [|exact HVIn].
    intros i c cl Hi En Ecl. destruct (HRec i c cl Hi En Ecl) as [HR _].
    destruct (HVR i) as [row [Er [_ Hrow]]]; [lia|]. exists row. rewrite HR in Er, Hrow. split; [exact Er|exact Hrow].
Qed.
End all.

(** *** All processes *)
Section whole.
Context (sort : list Z -> list nat).
Hypothesis Hsort : forall a, sorts a (sort a).
Context (maxv maxd : nat) (pcells : list (list cell)) (parts : list part) (num nls : list nat).
Let cells := concat pcells.
Hypothesis Hparts : Forall2 part_of pcells parts.
Hypothesis Hfits : Forall (fits (length cells) maxv maxd) cells.
Hypothesis Hnum : Permutation num (seq 0 (length cells)).
Hypothesis Hnls : list_sum nls = length cells.
Hypothesis Hne : Forall (fun n => (0 < n)%nat) nls.
Context {A : Type} (coords : list (list A)).
Hypothesis Hco : forall c cl y, nth_error cells c = Some cl -> In y (cell_vs cl) -> y < Z.of_nat (length coords).

Lemma redistribute_ok : exists rs, redistribute sort maxv maxd coords parts num nls = Ok rs /\ length rs = length nls /\
  forall r nl, nth_error nls r = Some nl -> exists x vids vrows cs, nth_error rs r = Some (x, (vids, vrows, cs)) /\
    right_numbering num (before nls r) nl (n_natural x) (n_ghosts x) /\
    ghosts_needed cells nl (n_natural x) (n_ghosts x) /\
    right_neighbours cells nl (n_natural x) (n_nbs x) /\
    right_vertices cells (nl + length (n_ghosts x)) (n_natural x) vids vrows /\
    length cs = length vids /\
    (forall k g, nth_error vids k = Some g -> nth_error cs k = nth_error coords (Z.to_nat g)).
Proof.
  unfold redistribute. set (stride := stride_of maxv maxd).
  destruct (pack_all_ok maxv maxd (length cells) pcells parts 0 Hparts Hfits) as [pre [Epre [HLpre Hpre]]].
  fold cells in HLpre, Hpre. fold stride in HLpre, Hpre.
  rewrite Epre. cbn [bind].
  pose proof (num_len cells num Hnum) as HLnum. pose proof (num_perm cells num Hnum) as Hperm.
  destruct (move_records_ok stride num Hperm pre (repeat 0 (length pre))) as [post [Epost [HLpost Hpost]]].
  { rewrite HLnum. exact HLpre. }
  { rewrite repeat_length, HLnum. exact HLpre. }
  rewrite Epost. cbn [bind].
  assert (Hrec : forall c cl p k, nth_error cells c = Some cl -> nth_error num c = Some p -> (k < stride)%nat ->
    nth_error post (p * stride + k) = nth_error (record (Z.of_nat c) (firstn maxv (fst cl)) (snd cl) maxd) k).
  { intros c cl p k Ecl Ec Hk. rewrite (Hpost c p k Ec Hk). rewrite (Hpre c cl k Ecl Hk). reflexivity. }
  assert (HLpost' : length post = (length cells * stride)%nat) by (rewrite HLpost, HLnum; reflexivity).
  assert (Hin : forall r, In r (ranks_from 0 nls) -> (fst r + snd r <= length cells)%nat).
  { intros [o n] Hr. apply ranks_from_in in Hr. cbn [fst snd]. lia. }
  destruct (mapM_ok (fun r => save_natural stride (snd r) (slice stride (fst r) (snd r) post)) (ranks_from 0 nls) (nat_ok num))
    as [nats [Enats Hnats]].
  { intros r Hr. exact (save_ok maxv maxd cells num nls Hfits Hnum Hnls post HLpost' Hrec r (Hin r Hr)). }
  rewrite Enats. cbn [bind].
  destruct (concat_ranks 1 nls 0 nats) as [HLao Hcat].
  { clear - Hnats. induction Hnats as [|r l rs ls [H _] _ IH]; constructor; [rewrite Nat.mul_1_r; exact H|exact IH]. }
  rewrite Nat.mul_1_r, Hnls in HLao.
  assert (Hao : forall c p, nth_error num c = Some p -> nth_error (concat nats) p = Some (Z.of_nat c)).
  { intros c p Ec. assert (Hp : (p < list_sum nls)%nat).
    { rewrite Hnls, <- HLnum. destruct (num_get num Hperm c) as [p' [Ep' Hp']]; [apply nth_lt in Ec; exact Ec|]. congruence. }
    destruct (find_rank nls p Hp) as [r [n [i [En [Hi ->]]]]].
    destruct (Forall2_nth _ _ _ _ _ Hnats (ranks_from_nth nls 0 r n En)) as [l [El [HLl Hl]]]. cbn [fst snd plus] in *.
    pose proof (Hcat r n l i En El) as Hc2. rewrite !Nat.mul_1_r in Hc2. rewrite Hc2 by exact Hi.
    destruct (Hl i Hi) as [c' [Ec' ->]]. do 2 f_equal. apply (num_inj num Hperm c' c _ Ec' Ec). }
  destruct (mapM_ok (number_rank sort maxv maxd (concat nats) post) (ranks_from 0 nls) (rank_state maxv maxd cells num post))
    as [ns [Ens Hns]].
  { intros [o n] Hr. pose proof (Hin (o, n) Hr) as Hon. cbn [fst snd] in Hon.
    exact (number_rank_ok sort Hsort maxv maxd cells num nls Hfits Hnum Hnls post HLpost' Hrec (concat nats) Hao HLao o n Hon). }
  rewrite Ens. cbn [bind].
  destruct (concat_ranks stride nls 0 (map n_vec ns)) as [HLvec Hvcat].
  { clear - Hns. induction Hns as [|[o n] x rs xs H _ IH]; constructor; [|exact IH].
    destruct H as [_ [_ [_ [_ [_ [H _]]]]]]. exact H. }
  rewrite Hnls in HLvec.
  destruct (mapM_ok (vertices_rank sort maxv maxd coords (concat (map n_vec ns))) ns
    (fun x y => forall off nl, In (off, nl) (ranks_from 0 nls) -> rank_state maxv maxd cells num post (off, nl) x ->
      let '(vids, vrows, cs) := y in right_vertices cells (nl + length (n_ghosts x)) (n_natural x) vids vrows /\
      length cs = length vids /\ (forall k g, nth_error vids k = Some g -> nth_error cs k = nth_error coords (Z.to_nat g))))
    as [vs [Evs Hvs]].
  { intros x Hx.
    apply In_nth_error in Hx. destruct Hx as [r Er].
    assert (Hrl : (r < length nls)%nat).
    { apply nth_lt in Er. rewrite <- (Forall2_len _ _ _ Hns) in Er. clear - Er. revert r Er. generalize 0%nat as off.
      induction nls as [|m l IH]; intros off r Er; simpl in *; [lia|]. destruct r; [lia|]. apply (IH (off + m)%nat) in Er || (assert (r < length (ranks_from (off + m) l))%nat by lia; apply (IH (off + m)%nat) in H; lia). }
    destruct (nth_error nls r) as [nl|] eqn:En; [|apply nth_error_None in En; lia].
    pose proof (ranks_from_nth nls 0 r nl En) as Erk.
    destruct (Forall2_nth _ _ _ _ _ Hns Erk) as [x' [Ex' Hst]]. assert (x' = x) by congruence. subst x'.
    pose proof (Hin _ (nth_error_In _ _ Erk)) as Hon. cbn [fst snd] in Hon.
    assert (Hnl : (0 < nl)%nat) by (rewrite Forall_forall in Hne; apply Hne; apply nth_error_In in En; exact En).
    destruct (vertices_rank_ok sort Hsort maxv maxd cells num nls Hfits Hnum Hnls post HLpost' Hrec (concat nats) HLao coords (concat (map n_vec ns)) _ nl x Hnl Hon Hst)
      as [vids [vrows [cs [Ev [H1 [H2 H3]]]]]].
    - exact HLvec.
    - intros p iv Hp Hiv. rewrite <- Hnls in Hp. destruct (find_rank nls p Hp) as [r' [n' [i [En' [Hi ->]]]]].
      destruct (Forall2_nth _ _ _ _ _ Hns (ranks_from_nth nls 0 r' n' En')) as [y [Ey Hy]].
      assert (HSt : (2 + iv < stride)%nat) by (unfold stride, stride_of, dual_offset, vertex_ids_offset; lia).
      fold stride. replace ((before nls r' + i) * stride + (2 + iv))%nat with (before nls r' * stride + (i * stride + (2 + iv)))%nat by lia.
      rewrite (Hvcat r' n' (n_vec y)); [|exact En'|rewrite nth_error_map, Ey; reflexivity|apply flat_lt; assumption].
      destruct Hy as [_ [_ [_ [_ [_ [_ Hy]]]]]]. etransitivity; [exact (Hy i iv Hi Hiv)|]. fold stride. f_equal. lia.
    - exact Hco.
    - exists (vids, vrows, cs). split; [exact Ev|]. intros off' nl' _ Hst'.
      assert (nl' = nl).
      { destruct Hst as [_ [_ [_ [Ha _]]]]. destruct Hst' as [_ [_ [_ [Hb _]]]]. congruence. }
      subst nl'. auto. }
  rewrite Evs. cbn [bind]. eexists. split; [reflexivity|].
  assert (HLr : length (ranks_from 0 nls) = length nls).
  { clear. generalize 0%nat as off. induction nls as [|m l IH]; intro off; simpl; [reflexivity|]. f_equal. apply IH. }
  pose proof (Forall2_len _ _ _ Hns) as HLns. pose proof (Forall2_len _ _ _ Hvs) as HLvs.
  split; [rewrite combine_length; lia|].
  intros r nl En. pose proof (ranks_from_nth nls 0 r nl En) as Erk.
  destruct (Forall2_nth _ _ _ _ _ Hns Erk) as [x [Ex Hst]].
  destruct (Forall2_nth _ _ _ _ _ Hvs Ex) as [[[vids vrows] cs] [Ey Hy]].
  exists x, vids, vrows, cs. split.
  { clear - Ex Ey. revert ns vs Ex Ey. induction r as [|r IH]; intros [|a ns] [|b vs] Ex Ey; try discriminate.
    - injection Ex as ->. injection Ey as ->. reflexivity.
    - simpl. apply IH; assumption. }
  specialize (Hy _ _ (nth_error_In _ _ Erk) Hst). cbn [plus] in Hst. cbn beta iota zeta in Hy.
  destruct Hst as [H1 [H2 [H3 _]]]. destruct Hy as [H4 [H5 H6]]. auto 10.
Qed.
End whole.
