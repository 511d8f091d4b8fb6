From Coq Require Import Reals ZArith List Bool Arith Lia Lra.
From Verif Require Import Prelude Arrays Fvtpf SpecFvtpf FvtpfProofs.
Import ListNotations.
Local Open Scope R_scope.

Lemma at_inv : forall {A} (l : list A) i x, at_ l i = Ok x -> (0 <= i)%Z /\ nth_error l (Z.to_nat i) = Some x.
Proof.
  intros A l i x H. unfold at_ in H. destruct (i <? 0)%Z eqn:E; [discriminate H|]. apply Z.ltb_ge in E. split; [exact E|].
  unfold rd in H. destruct (nth_error l (Z.to_nat i)); congruence.
Qed.
Lemma rd_inv : forall {A} (l : list A) i x, rd l i = Ok x -> nth_error l i = Some x.
Proof. intros A l i x H. unfold rd in H. destruct (nth_error l i); congruence. Qed.

Lemma add_at_inv : forall r i v r', add_at r i v = Ok r' ->
  (0 <= i)%Z /\ exists x, nth_error r (Z.to_nat i) = Some x /\ r' = upd r (Z.to_nat i) (fl2 Rplus x v).
Proof.
  intros r i v r' H. unfold add_at in H. destruct (at_ r i) as [x| |] eqn:E; try discriminate H. simpl in H.
  apply at_inv in E. destruct E as [E1 E2]. split; [exact E1|]. exists x. split; [exact E2|]. apply wr_inv in H. tauto.
Qed.
Lemma sub_at_inv : forall r i v r', sub_at r i v = Ok r' ->
  (0 <= i)%Z /\ exists x, nth_error r (Z.to_nat i) = Some x /\ r' = upd r (Z.to_nat i) (fl2 Rminus x v).
Proof.
  intros r i v r' H. unfold sub_at in H. destruct (at_ r i) as [x| |] eqn:E; try discriminate H. simpl in H.
  apply at_inv in E. destruct E as [E1 E2]. split; [exact E1|]. exists x. split; [exact E2|]. apply wr_inv in H. tauto.
Qed.

(** What an update does to entry [i], when the result is finite. *)
Lemma add_at_entry : forall r z v r' i x', add_at r z v = Ok r' -> nth_error r' i = Some (Some x') ->
  exists x, nth_error r i = Some (Some x)
    /\ ((z =? Z.of_nat i)%Z = true -> exists y, v = Some y /\ x' = x + y)
    /\ ((z =? Z.of_nat i)%Z = false -> x' = x).
Proof.
  intros r z v r' i x' H Hi. apply add_at_inv in H. destruct H as [Hz [x [Hx ->]]].
  rewrite nth_upd in Hi. destruct (Z.eqb_spec z (Z.of_nat i)) as [->|Hne].
  - rewrite Nat2Z.id, Nat.eqb_refl in Hi. rewrite Nat2Z.id in Hx. pose proof (nth_lt _ _ _ Hx) as L. apply Nat.ltb_lt in L. rewrite L in Hi. simpl in Hi.
    destruct x as [x|]; [|discriminate Hi]. destruct v as [y|]; [|discriminate Hi]. simpl in Hi. injection Hi as <-.
    exists x. split; [exact Hx|]. split; [intros _; exists y; auto|discriminate].
  - assert (Z.to_nat z <> i) as Hni by lia. apply Nat.eqb_neq in Hni. rewrite Hni in Hi. simpl in Hi.
    exists x'. split; [exact Hi|]. split; [discriminate|reflexivity].
Qed.
Lemma sub_at_entry : forall r z v r' i x', sub_at r z v = Ok r' -> nth_error r' i = Some (Some x') ->
  exists x, nth_error r i = Some (Some x)
    /\ ((z =? Z.of_nat i)%Z = true -> exists y, v = Some y /\ x' = x - y)
    /\ ((z =? Z.of_nat i)%Z = false -> x' = x).
Proof.
  intros r z v r' i x' H Hi. apply sub_at_inv in H. destruct H as [Hz [x [Hx ->]]].
  rewrite nth_upd in Hi. destruct (Z.eqb_spec z (Z.of_nat i)) as [->|Hne].
  - rewrite Nat2Z.id, Nat.eqb_refl in Hi. rewrite Nat2Z.id in Hx. pose proof (nth_lt _ _ _ Hx) as L. apply Nat.ltb_lt in L. rewrite L in Hi. simpl in Hi.
    destruct x as [x|]; [|discriminate Hi]. destruct v as [y|]; [|discriminate Hi]. simpl in Hi. injection Hi as <-.
    exists x. split; [exact Hx|]. split; [intros _; exists y; auto|discriminate].
  - assert (Z.to_nat z <> i) as Hni by lia. apply Nat.eqb_neq in Hni. rewrite Hni in Hi. simpl in Hi.
    exists x'. split; [exact Hi|]. split; [discriminate|reflexivity].
Qed.
Lemma add_at_length : forall r z v r', add_at r z v = Ok r' -> length r' = length r.
Proof. intros r z v r' H. apply add_at_inv in H. destruct H as [_ [x [_ ->]]]. apply length_upd. Qed.
Lemma sub_at_length : forall r z v r', sub_at r z v = Ok r' -> length r' = length r.
Proof. intros r z v r' H. apply sub_at_inv in H. destruct H as [_ [x [_ ->]]]. apply length_upd. Qed.

Lemma valid_local_inv : forall g z u, valid_local g z = Ok u ->
  (u = true -> (0 <= z)%Z /\ local_cell g (Z.to_nat z) = true) /\
  (u = false -> forall i, (z =? Z.of_nat i)%Z && local_cell g i = false).
Proof.
  intros g z u H. unfold valid_local in H. destruct (z <? 0)%Z eqn:E.
  - injection H as <-. apply Z.ltb_lt in E. split; [discriminate|]. intros _ i. destruct (Z.eqb_spec z (Z.of_nat i)); [lia|reflexivity].
  - apply Z.ltb_ge in E. destruct (at_ (rocks g) z) as [k| |] eqn:A; try discriminate H. simpl in H. injection H as <-.
    apply at_inv in A. destruct A as [_ A]. split.
    + intro Hk. split; [exact E|]. unfold local_cell. rewrite A. exact Hk.
    + intros Hk i. destruct (Z.eqb_spec z (Z.of_nat i)) as [->|]; [|reflexivity]. rewrite Nat2Z.id in A. simpl. unfold local_cell. rewrite A. exact Hk.
Qed.

(** One interior face. *)
Lemma internal_face_entry : forall g cs junk j r r' i x',
  internal_face g cs junk j r = Ok r' -> nth_error r' i = Some (Some x') ->
  exists x, nth_error r i = Some (Some x)
    /\ x' = x + (coeff (leaves g j i) - coeff (enters g j i)) * res_of (interior_result g cs junk j)
    /\ (leaves g j i || enters g j i = true -> exists v, interior_result g cs junk j = Ok (Some v)).
Proof.
  intros g cs junk j r r' i x' H Hi. unfold internal_face in H.
  destruct (rd (faces g) j) as [f| |] eqn:F; try discriminate H. simpl in H. apply rd_inv in F.
  unfold leaves, enters. rewrite F.
  destruct (f_local f); simpl in H; [|injection H as <-; exists x'; split; [exact Hi|]; split; [simpl; lra|discriminate]].
  destruct (f_internal f); simpl in H; [|injection H as <-; exists x'; split; [exact Hi|]; split; [simpl; lra|discriminate]].
  fold (interior_result g cs junk j) in H.
  destruct (interior_result g cs junk j) as [Res| |] eqn:RR; try discriminate H. simpl bind in H.
  destruct (valid_local g (f_up f)) as [u| |] eqn:U; try discriminate H. simpl bind in H.
  destruct (if u then add_at r (f_up f) Res else Ok r) as [r1| |] eqn:E1; try discriminate H. simpl bind in H.
  destruct (valid_local g (f_dn f)) as [d| |] eqn:D; try discriminate H. simpl bind in H.
  apply valid_local_inv in U, D. destruct U as [U1 U0]. destruct D as [D1 D0]. simpl andb.
  (* down side *)
  assert (S2 : exists x1, nth_error r1 i = Some (Some x1)
     /\ x' = x1 - coeff ((f_dn f =? Z.of_nat i)%Z && local_cell g i) * res_of (Ok Res)
     /\ ((f_dn f =? Z.of_nat i)%Z && local_cell g i = true -> exists v, Res = Some v)).
  { destruct d.
    - destruct (sub_at_entry _ _ _ _ _ _ H Hi) as [x1 [N1 [A B]]]. exists x1. split; [exact N1|].
      destruct (f_dn f =? Z.of_nat i)%Z eqn:Z1.
      + destruct (A eq_refl) as [y [-> ->]]. apply Z.eqb_eq in Z1. rewrite Z1, Nat2Z.id in D1. destruct (D1 eq_refl) as [_ ->].
        simpl. split; [lra|]. intros _. exists y. reflexivity.
      + rewrite (B eq_refl). simpl. split; [lra|discriminate].
    - injection H as <-. exists x'. split; [exact Hi|]. rewrite (D0 eq_refl i). simpl. split; [lra|discriminate]. }
  destruct S2 as [x1 [N1 [Ex1 V1]]].
  assert (S1 : exists x, nth_error r i = Some (Some x)
     /\ x1 = x + coeff ((f_up f =? Z.of_nat i)%Z && local_cell g i) * res_of (Ok Res)
     /\ ((f_up f =? Z.of_nat i)%Z && local_cell g i = true -> exists v, Res = Some v)).
  { destruct u.
    - destruct (add_at_entry _ _ _ _ _ _ E1 N1) as [x [N [A B]]]. exists x. split; [exact N|].
      destruct (f_up f =? Z.of_nat i)%Z eqn:Z1.
      + destruct (A eq_refl) as [y [-> ->]]. apply Z.eqb_eq in Z1. rewrite Z1, Nat2Z.id in U1. destruct (U1 eq_refl) as [_ ->].
        simpl. split; [lra|]. intros _. exists y. reflexivity.
      + rewrite (B eq_refl). simpl. split; [lra|discriminate].
    - injection E1 as <-. exists x1. split; [exact N1|]. rewrite (U0 eq_refl i). simpl. split; [lra|discriminate]. }
  destruct S1 as [x [N [Ex V]]]. exists x. split; [exact N|]. split; [rewrite Ex1, Ex; ring|].
  intro Ho. apply orb_true_iff in Ho. destruct Ho as [Ho|Ho]; [destruct (V Ho) as [v ->]|destruct (V1 Ho) as [v ->]]; exists v; reflexivity.
Qed.

Lemma internal_face_length : forall g cs junk j r r', internal_face g cs junk j r = Ok r' -> length r' = length r.
Proof.
  intros g cs junk j r r' H. unfold internal_face in H.
  destruct (rd (faces g) j) as [f| |]; try discriminate H. simpl in H.
  destruct (f_local f); simpl in H; [|congruence]. destruct (f_internal f); simpl in H; [|congruence].
  destruct (ignore_error _ _) as [Res| |]; try discriminate H. simpl bind in H.
  destruct (valid_local g (f_up f)) as [u| |]; try discriminate H. simpl bind in H.
  destruct (if u then add_at r (f_up f) Res else Ok r) as [r1| |] eqn:E1; try discriminate H. simpl bind in H.
  assert (length r1 = length r) as <- by (destruct u; [exact (add_at_length _ _ _ _ E1)|congruence]).
  destruct (valid_local g (f_dn f)) as [d| |]; try discriminate H. simpl bind in H.
  destruct d; [exact (sub_at_length _ _ _ _ H)|congruence].
Qed.

Lemma boundary_face_entry : forall g cs bs j r r' i x',
  boundary_face g cs bs j r = Ok r' -> nth_error r' i = Some (Some x') ->
  exists x, nth_error r i = Some (Some x)
    /\ x' = x - coeff (bounds g j i) * res_of (boundary_result g cs bs j)
    /\ (bounds g j i = true -> exists v, boundary_result g cs bs j = Ok (Some v)).
Proof.
  intros g cs bs j r r' i x' H Hi. unfold boundary_face in H.
  destruct (rd (faces g) j) as [f| |] eqn:F; try discriminate H. simpl in H. apply rd_inv in F.
  unfold bounds, boundary_result, open_face. rewrite F.
  destruct (f_local f); simpl in H; [|injection H as <-; exists x'; split; [exact Hi|]; split; [simpl; lra|discriminate]].
  destruct (f_internal f); simpl in H; [injection H as <-; exists x'; split; [exact Hi|]; split; [simpl; lra|discriminate]|].
  simpl andb.
  assert (G : forall o, (do Res <- o; sub_at r (f_dn f) Res) = Ok r' ->
    exists x, nth_error r i = Some (Some x)
    /\ x' = x - coeff ((f_dn f =? Z.of_nat i)%Z) * res_of o
    /\ ((f_dn f =? Z.of_nat i)%Z = true -> exists v, o = Ok (Some v))).
  { intros [Res| |] E; try discriminate E. simpl in E. destruct (sub_at_entry _ _ _ _ _ _ E Hi) as [x [N [A B]]].
    exists x. split; [exact N|]. destruct (f_dn f =? Z.of_nat i)%Z.
    - destruct (A eq_refl) as [y [-> ->]]. simpl. split; [lra|]. intros _. exists y. reflexivity.
    - rewrite (B eq_refl). simpl. split; [lra|discriminate]. }
  destruct (f_bc f); [apply G; exact H| |apply G; exact H|discriminate H].
  injection H as <-. exists x'. split; [exact Hi|]. simpl. split; [lra|discriminate].
Qed.

Lemma boundary_face_length : forall g cs bs j r r', boundary_face g cs bs j r = Ok r' -> length r' = length r.
Proof.
  intros g cs bs j r r' H. unfold boundary_face in H.
  destruct (rd (faces g) j) as [f| |]; try discriminate H. simpl in H.
  destruct (f_local f); simpl in H; [|congruence]. destruct (f_internal f); simpl in H; [congruence|].
  destruct (f_bc f); try congruence; destruct (ignore_error _ _) as [Res| |]; try discriminate H; simpl in H; exact (sub_at_length _ _ _ _ H).
Qed.

Lemma accumulation_cell_entry : forall g cs prev j r r' i x',
  accumulation_cell g cs prev j r = Ok r' -> nth_error r' i = Some (Some x') ->
  exists x, nth_error r i = Some (Some x)
    /\ (j <> i -> x' = x)
    /\ (j = i -> local_cell g i = false -> x' = x)
    /\ (j = i -> local_cell g i = true -> exists a p, acc_of g cs i = Some a /\ nth_error prev i = Some p /\ x' = x + (a - p - src_of g i)).
Proof.
  intros g cs prev j r r' i x' H Hi. unfold accumulation_cell in H.
  destruct (rd (rocks g) j) as [k| |] eqn:K; try discriminate H. simpl in H. apply rd_inv in K.
  destruct (k_local k) eqn:L; simpl in H.
  - destruct (rd cs j) as [c| |] eqn:C; try discriminate H. simpl in H. apply rd_inv in C.
    destruct (rd prev j) as [p| |] eqn:P; try discriminate H. simpl in H. apply rd_inv in P.
    destruct (add_at r (Z.of_nat j) _) as [r1| |] eqn:E1; try discriminate H. simpl in H.
    destruct (sub_at_entry _ _ _ _ _ _ H Hi) as [x1 [N1 [A1 B1]]].
    destruct (add_at_entry _ _ _ _ _ _ E1 N1) as [x [N [A B]]].
    exists x. split; [exact N|].
    assert (Zij : (Z.of_nat j =? Z.of_nat i)%Z = (j =? i)%nat).
    { destruct (Nat.eqb_spec j i) as [->|]; [apply Z.eqb_refl|apply Z.eqb_neq; lia]. }
    rewrite Zij in *. split; [|split].
    + intro Hn. apply Nat.eqb_neq in Hn. rewrite (B1 Hn), (B Hn). reflexivity.
    + intros -> Hl. unfold local_cell in Hl. rewrite K in Hl. congruence.
    + intros -> _. rewrite Nat.eqb_refl in *. destruct (A1 eq_refl) as [y1 [Y1 ->]]. destruct (A eq_refl) as [y [Y ->]].
      injection Y1 as <-. unfold acc_of, src_of. rewrite C, K.
      destruct (Accumulation (dtime g) c k) as [a|]; [|discriminate Y]. simpl in Y. injection Y as <-.
      exists a, p. split; [reflexivity|]. split; [exact P|]. lra.
  - injection H as <-. exists x'. split; [exact Hi|]. split; [reflexivity|]. split; [reflexivity|].
    intros -> Hl. unfold local_cell in Hl. rewrite K in Hl. congruence.
Qed.

Lemma accumulation_cell_length : forall g cs prev j r r', accumulation_cell g cs prev j r = Ok r' -> length r' = length r.
Proof.
  intros g cs prev j r r' H. unfold accumulation_cell in H.
  destruct (rd (rocks g) j) as [k| |]; try discriminate H. simpl in H.
  destruct (k_local k); simpl in H; [|congruence].
  destruct (rd cs j) as [c| |]; try discriminate H. simpl in H.
  destruct (rd prev j) as [p| |]; try discriminate H. simpl in H.
  destruct (add_at r (Z.of_nat j) _) as [r1| |] eqn:E1; try discriminate H. simpl in H.
  rewrite (sub_at_length _ _ _ _ H). exact (add_at_length _ _ _ _ E1).
Qed.

Lemma local_cell_lt : forall g i, local_cell g i = true -> (i < length (rocks g))%nat.
Proof. intros g i H. unfold local_cell in H. destruct (nth_error (rocks g) i) eqn:E; [exact (nth_lt _ _ _ E)|discriminate H]. Qed.

Lemma cell_residual_proof : forall g cs bs prev junk n r i x,
  SNESFunction g cs bs prev junk n = Ok r -> nth_error r i = Some (Some x) ->
  let q := fun j => res_of (interior_result g cs junk j) in
  let b := fun j => res_of (boundary_result g cs bs j) in
  let acc := fun i => val (acc_of g cs i) in
  x = cell_balance g q b acc (fun i => nth i prev 0) (src_of g) i
  /\ (forall j, (j < length (faces g))%nat -> leaves g j i || enters g j i = true -> interior_result g cs junk j = Ok (Some (q j)))
  /\ (forall j, (j < length (faces g))%nat -> bounds g j i = true -> boundary_result g cs bs j = Ok (Some (b j)))
  /\ (local_cell g i = true -> acc_of g cs i = Some (acc i)).
Proof.
  intros g cs bs prev junk n r i x H Hi q b acc. unfold SNESFunction in H.
  destruct (for_ (length (faces g)) (internal_face g cs junk) (repeat (Some 0) n)) as [r1| |] eqn:E1; try discriminate H. simpl in H.
  destruct (for_ (length (faces g)) (boundary_face g cs bs) r1) as [r2| |] eqn:E2; try discriminate H. simpl in H.
  (* accumulation *)
  assert (A : forall x, nth_error r i = Some (Some x) -> exists x2, nth_error r2 i = Some (Some x2)
     /\ x = x2 + (if local_cell g i then acc i - nth i prev 0 - src_of g i else 0)
     /\ (local_cell g i = true -> acc_of g cs i = Some (acc i))).
  { assert (G : forall x, nth_error r i = Some (Some x) -> exists x2, nth_error r2 i = Some (Some x2)
     /\ x = x2 + (if (i <? length (rocks g))%nat && local_cell g i then acc i - nth i prev 0 - src_of g i else 0)
     /\ ((i <? length (rocks g))%nat && local_cell g i = true -> acc_of g cs i = Some (acc i))).
    { apply (for_preserves (fun k r => forall x, nth_error r i = Some (Some x) -> exists x2, nth_error r2 i = Some (Some x2)
     /\ x = x2 + (if (i <? k)%nat && local_cell g i then acc i - nth i prev 0 - src_of g i else 0)
     /\ ((i <? k)%nat && local_cell g i = true -> acc_of g cs i = Some (acc i))) _ _ _ _ H).
      - intros y Hy. exists y. split; [exact Hy|]. simpl. split; [lra|discriminate].
      - intros k s s' Hk IH Es y Hy. destruct (accumulation_cell_entry _ _ _ _ _ _ _ _ Es Hy) as [y1 [N1 [A1 [A2 A3]]]].
        destruct (IH y1 N1) as [x2 [N2 [Ey W]]]. exists x2. split; [exact N2|].
        destruct (Nat.eq_dec k i) as [->|Hne].
        + replace (i <? i)%nat with false in * by (symmetry; apply Nat.ltb_irrefl). replace (i <? S i)%nat with true by (symmetry; apply Nat.ltb_lt; lia).
          simpl andb in *. destruct (local_cell g i) eqn:L.
          * destruct (A3 eq_refl eq_refl) as [a [p [Ea [Ep ->]]]]. unfold acc. rewrite Ea. simpl.
            rewrite (nth_error_nth _ _ 0 Ep). split; [rewrite Ey; ring|reflexivity].
          * rewrite (A2 eq_refl eq_refl). split; [exact Ey|discriminate].
        + rewrite (A1 Hne). replace (i <? S k)%nat with (i <? k)%nat; [split; assumption|].
          destruct (Nat.ltb_spec i k), (Nat.ltb_spec i (S k)); try reflexivity; lia. }
    intros y Hy. destruct (G y Hy) as [x2 [N2 [Ey W]]]. exists x2. split; [exact N2|].
    destruct (local_cell g i) eqn:L; [|rewrite andb_false_r in *; split; [exact Ey|discriminate]].
    pose proof (local_cell_lt g i L) as Hlt. apply Nat.ltb_lt in Hlt. rewrite Hlt in *. simpl in *. split; assumption. }
  destruct (A x Hi) as [x2 [N2 [Ex Wacc]]]. clear A.
  (* boundary faces *)
  assert (B : forall x, nth_error r2 i = Some (Some x) -> exists x1, nth_error r1 i = Some (Some x1)
     /\ x = x1 - total (fun j => coeff (bounds g j i) * b j) (length (faces g))
     /\ (forall j, (j < length (faces g))%nat -> bounds g j i = true -> boundary_result g cs bs j = Ok (Some (b j)))).
  { apply (for_preserves (fun k r => forall x, nth_error r i = Some (Some x) -> exists x1, nth_error r1 i = Some (Some x1)
     /\ x = x1 - total (fun j => coeff (bounds g j i) * b j) k
     /\ (forall j, (j < k)%nat -> bounds g j i = true -> boundary_result g cs bs j = Ok (Some (b j)))) _ _ _ _ E2).
    - intros y Hy. exists y. split; [exact Hy|]. simpl. split; [lra|intros; lia].
    - intros k s s' Hk IH Es y Hy. destruct (boundary_face_entry _ _ _ _ _ _ _ _ Es Hy) as [y1 [N1 [Ey V]]].
      destruct (IH y1 N1) as [x1 [M1 [Ey1 W]]]. exists x1. split; [exact M1|]. simpl total. fold (b k) in Ey. split; [rewrite Ey, Ey1; ring|].
      intros j Hj Hb. destruct (Nat.eq_dec j k) as [->|Hne]; [|apply W; [lia|exact Hb]].
      destruct (V Hb) as [v Ev]. unfold b. rewrite Ev. reflexivity. }
  destruct (B x2 N2) as [x1 [N1 [Ex2 Wb]]]. clear B.
  (* interior faces *)
  assert (C : forall x, nth_error r1 i = Some (Some x) ->
     x = total (fun j => (coeff (leaves g j i) - coeff (enters g j i)) * q j) (length (faces g))
     /\ (forall j, (j < length (faces g))%nat -> leaves g j i || enters g j i = true -> interior_result g cs junk j = Ok (Some (q j)))).
  { apply (for_preserves (fun k r => forall x, nth_error r i = Some (Some x) ->
     x = total (fun j => (coeff (leaves g j i) - coeff (enters g j i)) * q j) k
     /\ (forall j, (j < k)%nat -> leaves g j i || enters g j i = true -> interior_result g cs junk j = Ok (Some (q j)))) _ _ _ _ E1).
    - intros y Hy. apply nth_error_In, repeat_spec in Hy. injection Hy as ->. simpl. split; [reflexivity|intros; lia].
    - intros k s s' Hk IH Es y Hy. destruct (internal_face_entry _ _ _ _ _ _ _ _ Es Hy) as [y1 [N1' [Ey V]]].
      destruct (IH y1 N1') as [Ey1 W]. simpl total. fold (q k) in Ey. split; [rewrite Ey, Ey1; ring|].
      intros j Hj Hb. destruct (Nat.eq_dec j k) as [->|Hne]; [|apply W; [lia|exact Hb]].
      destruct (V Hb) as [v Ev]. unfold q. rewrite Ev. reflexivity. }
  destruct (C x1 N1) as [Ex1 Wq]. split; [unfold cell_balance; rewrite Ex, Ex2, Ex1; ring|]. split; [exact Wq|]. split; [exact Wb|exact Wacc].
Qed.

Lemma residual_length : forall g cs bs prev junk n r, SNESFunction g cs bs prev junk n = Ok r -> length r = n.
Proof.
  intros g cs bs prev junk n r H. unfold SNESFunction in H.
  destruct (for_ (length (faces g)) (internal_face g cs junk) (repeat (Some 0) n)) as [r1| |] eqn:E1; try discriminate H. simpl in H.
  destruct (for_ (length (faces g)) (boundary_face g cs bs) r1) as [r2| |] eqn:E2; try discriminate H. simpl in H.
  assert (L1 : length r1 = n).
  { apply (for_preserves (fun _ r => length r = n) _ _ _ _ E1); [apply repeat_length|].
    intros k s s' _ IH Es. rewrite (internal_face_length _ _ _ _ _ _ Es). exact IH. }
  assert (L2 : length r2 = n).
  { apply (for_preserves (fun _ r => length r = n) _ _ _ _ E2); [exact L1|].
    intros k s s' _ IH Es. rewrite (boundary_face_length _ _ _ _ _ _ Es). exact IH. }
  apply (for_preserves (fun _ r => length r = n) _ _ _ _ H); [exact L2|].
  intros k s s' _ IH Es. rewrite (accumulation_cell_length _ _ _ _ _ _ Es). exact IH.
Qed.

(** ** Sums *)
Lemma total_ext : forall f h n, (forall i, (i < n)%nat -> f i = h i) -> total f n = total h n.
Proof. intros f h n; induction n as [|n IH]; intro H; simpl; [reflexivity|]. rewrite IH by (intros; apply H; lia). rewrite H by lia. reflexivity. Qed.
Lemma total_plus : forall f h n, total (fun i => f i + h i) n = total f n + total h n.
Proof. intros f h n; induction n as [|n IH]; simpl; [ring|]. rewrite IH. ring. Qed.
Lemma total_minus : forall f h n, total (fun i => f i - h i) n = total f n - total h n.
Proof. intros f h n; induction n as [|n IH]; simpl; [ring|]. rewrite IH. ring. Qed.
Lemma total_scale : forall f k n, total (fun i => f i * k) n = total f n * k.
Proof. intros f k n; induction n as [|n IH]; simpl; [ring|]. rewrite IH. ring. Qed.
Lemma total_zero : forall n, total (fun _ => 0) n = 0.
Proof. induction n as [|n IH]; simpl; [reflexivity|]. rewrite IH. ring. Qed.
Lemma total_swap : forall (f : nat -> nat -> R) n m, total (fun i => total (fun j => f i j) m) n = total (fun j => total (fun i => f i j) n) m.
Proof.
  intros f n m. induction n as [|n IH]; simpl; [symmetry; apply total_zero|]. rewrite IH. rewrite <- total_plus. reflexivity.
Qed.
Lemma total_select : forall (z : Z) (P : nat -> bool) n,
  total (fun i => coeff ((z =? Z.of_nat i)%Z && P i)) n = coeff ((0 <=? z)%Z && (z <? Z.of_nat n)%Z && P (Z.to_nat z)).
Proof.
  intros z P n; induction n as [|n IH]; cbn [total].
  - replace (z <? Z.of_nat 0)%Z with (negb (0 <=? z)%Z) by (rewrite <- Z.ltb_antisym; reflexivity).
    destruct (0 <=? z)%Z; reflexivity.
  - rewrite IH. destruct (Z.eqb_spec z (Z.of_nat n)) as [->|Hne].
    + replace (0 <=? Z.of_nat n)%Z with true by (symmetry; apply Z.leb_le; lia).
      replace (Z.of_nat n <? Z.of_nat n)%Z with false by (symmetry; apply Z.ltb_irrefl).
      replace (Z.of_nat n <? Z.of_nat (S n))%Z with true by (symmetry; apply Z.ltb_lt; lia).
      rewrite Nat2Z.id. simpl. lra.
    + replace (z <? Z.of_nat (S n))%Z with (z <? Z.of_nat n)%Z; [simpl; lra|].
      destruct (Z.ltb_spec z (Z.of_nat n)), (Z.ltb_spec z (Z.of_nat (S n))); try reflexivity; lia.
Qed.

Lemma total_list : forall vs, total (fun i => nth i vs 0) (length vs) = fold_right Rplus 0 vs.
Proof.
  intro vs. assert (G : forall (l : list R) (a : R), total (fun i => nth i (a :: l) 0) (S (length l)) = a + total (fun i => nth i l 0) (length l)).
  { intros l a. generalize (length l) as m. induction m as [|m IH]; [simpl; ring|].
    change (total (fun i => nth i (a :: l) 0) (S (S m))) with (total (fun i => nth i (a :: l) 0) (S m) + nth m l 0). rewrite IH. simpl. ring. }
  induction vs as [|a l IH]; [reflexivity|]. change (length (a :: l)) with (S (length l)). rewrite G, IH. reflexivity.
Qed.
