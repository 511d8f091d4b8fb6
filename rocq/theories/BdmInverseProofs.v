(** The inverse of the permeability; the basis functions exist. *)
From Coq Require Import Reals List ZArith Bool Arith Lia Lra.
From Verif Require Import Prelude Arrays SpecFvtpf FvtpfSumProofs MpfaoProofs Hdiv SpecHdiv HdivProofs FeMap Bdm SpecBdm BdmProofs.
Import ListNotations.
Local Open Scope R_scope.

Lemma list4 : forall K : list R, length K = 4%nat -> exists a b c d, K = [a; b; c; d].
Proof. intros K H. do 5 (destruct K as [|? K]; try discriminate H). do 4 eexists. reflexivity. Qed.
Lemma list9 : forall K : list R, length K = 9%nat -> exists a b c d e f g h i, K = [a; b; c; d; e; f; g; h; i].
Proof. intros K H. do 10 (destruct K as [|? K]; try discriminate H). do 9 eexists. reflexivity. Qed.

Section inverse.
Variables (dim : nat) (K : list R).
Hypothesis Hd : (dim = 2 \/ dim = 3)%nat.
Hypothesis HK : length K = (dim * dim)%nat.
Variable lu : list R -> list R.

Lemma inverse_length : determinant dim K <> 0 -> length (Inverse dim lu K) = (dim * dim)%nat.
Proof.
  intro D. unfold Inverse. destruct (Req_EM_T _ _); [contradiction|]. rewrite map_length. unfold adjugate. destruct Hd as [->| ->]; reflexivity.
Qed.
Lemma inverse_right : determinant dim K <> 0 -> inverse_of dim K (Inverse dim lu K).
Proof.
  intros D i j Hi Hj. unfold Inverse. destruct (Req_EM_T _ _) as [X|_]; [contradiction|]. destruct Hd as [E|E]; rewrite E in *; simpl in HK.
  - destruct (list4 K HK) as [a [b [c [d ->]]]]. unfold determinant, adjugate, ent in *. simpl in D |- *.
    destruct i as [|[|i]]; [| |lia]; (destruct j as [|[|j]]; [| |lia]); simpl; field; exact D.
  - destruct (list9 K HK) as [a [b [c [d [e0 [f [g [h [k ->]]]]]]]]]. unfold determinant, adjugate, ent in *. simpl in D |- *.
    destruct i as [|[|[|i]]]; [| | |lia]; (destruct j as [|[|[|j]]]; [| | |lia]); simpl; field; exact D.
Qed.
Lemma inverse_left : determinant dim K <> 0 -> inverse_of dim (Inverse dim lu K) K.
Proof.
  intros D i j Hi Hj. unfold Inverse. destruct (Req_EM_T _ _) as [X|_]; [contradiction|]. destruct Hd as [E|E]; rewrite E in *; simpl in HK.
  - destruct (list4 K HK) as [a [b [c [d ->]]]]. unfold determinant, adjugate, ent in *. simpl in D |- *.
    destruct i as [|[|i]]; [| |lia]; (destruct j as [|[|j]]; [| |lia]); simpl; field; exact D.
  - destruct (list9 K HK) as [a [b [c [d [e0 [f [g [h [k ->]]]]]]]]]. unfold determinant, adjugate, ent in *. simpl in D |- *.
    destruct i as [|[|[|i]]]; [| | |lia]; (destruct j as [|[|[|j]]]; [| | |lia]); simpl; field; exact D.
Qed.
Lemma inverse_symmetric : determinant dim K <> 0 -> symmetric dim K -> symmetric dim (Inverse dim lu K).
Proof.
  intros D S i j Hi Hj. unfold Inverse. destruct (Req_EM_T _ _) as [X|_]; [contradiction|]. unfold symmetric in S. destruct Hd as [E|E]; rewrite E in *; simpl in HK.
  - destruct (list4 K HK) as [a [b [c [d ->]]]]. pose proof (S 0%nat 1%nat ltac:(lia) ltac:(lia)) as S1. simpl in S1. clear S. subst c.
    unfold determinant, adjugate, ent in *. simpl in D |- *. destruct i as [|[|i]]; [| |lia]; (destruct j as [|[|j]]; [| |lia]); simpl; reflexivity.
  - destruct (list9 K HK) as [a [b [c [d [e0 [f [g [h [k ->]]]]]]]]].
    pose proof (S 0%nat 1%nat ltac:(lia) ltac:(lia)) as S1. pose proof (S 0%nat 2%nat ltac:(lia) ltac:(lia)) as S2. pose proof (S 1%nat 2%nat ltac:(lia) ltac:(lia)) as S3.
    simpl in S1, S2, S3. clear S. subst d g h. unfold determinant, adjugate, ent in *. simpl in D |- *.
    destruct i as [|[|[|i]]]; [| | |lia]; (destruct j as [|[|[|j]]]; [| | |lia]); simpl; field; exact D.
Qed.
(** Every left inverse is this one. *)
Lemma inverse_det : forall L, length L = (dim * dim)%nat -> inverse_of dim L K -> determinant dim K <> 0.
Proof.
  intros L HL I. unfold inverse_of in I. intro Z.
  destruct Hd as [E|E]; rewrite E in *; simpl in HK, HL.
  - destruct (list4 K HK) as [a [b [c [d ->]]]]. destruct (list4 L HL) as [a' [b' [c' [d' ->]]]].
    pose proof (I 0%nat 0%nat ltac:(lia) ltac:(lia)) as I00. pose proof (I 0%nat 1%nat ltac:(lia) ltac:(lia)) as I01.
    pose proof (I 1%nat 0%nat ltac:(lia) ltac:(lia)) as I10. pose proof (I 1%nat 1%nat ltac:(lia) ltac:(lia)) as I11. clear I.
    unfold determinant, ent in Z. simpl in *.
    assert (X : (0 + a' * a + b' * c) * (0 + c' * b + d' * d) - (0 + a' * b + b' * d) * (0 + c' * a + d' * c) = (a' * d' - b' * c') * (a * d - b * c)) by ring.
    rewrite I00, I01, I10, I11, Z in X. lra.
  - destruct (list9 K HK) as [a [b [c [d [e0 [f [g [h [k ->]]]]]]]]]. destruct (list9 L HL) as [a' [b' [c' [d' [e' [f' [g' [h' [k' ->]]]]]]]]].
    assert (I00 := I 0%nat 0%nat ltac:(lia) ltac:(lia)). assert (I01 := I 0%nat 1%nat ltac:(lia) ltac:(lia)). assert (I02 := I 0%nat 2%nat ltac:(lia) ltac:(lia)).
    assert (I10 := I 1%nat 0%nat ltac:(lia) ltac:(lia)). assert (I11 := I 1%nat 1%nat ltac:(lia) ltac:(lia)). assert (I12 := I 1%nat 2%nat ltac:(lia) ltac:(lia)).
    assert (I20 := I 2%nat 0%nat ltac:(lia) ltac:(lia)). assert (I21 := I 2%nat 1%nat ltac:(lia) ltac:(lia)). assert (I22 := I 2%nat 2%nat ltac:(lia) ltac:(lia)). clear I.
    unfold determinant, ent in Z. simpl in *.
    assert (X : (0 + a' * a + b' * d + c' * g) * ((0 + d' * b + e' * e0 + f' * h) * (0 + g' * c + h' * f + k' * k) - (0 + d' * c + e' * f + f' * k) * (0 + g' * b + h' * e0 + k' * h))
      - (0 + a' * b + b' * e0 + c' * h) * ((0 + d' * a + e' * d + f' * g) * (0 + g' * c + h' * f + k' * k) - (0 + d' * c + e' * f + f' * k) * (0 + g' * a + h' * d + k' * g))
      + (0 + a' * c + b' * f + c' * k) * ((0 + d' * a + e' * d + f' * g) * (0 + g' * b + h' * e0 + k' * h) - (0 + d' * b + e' * e0 + f' * h) * (0 + g' * a + h' * d + k' * g))
      = (a' * (e' * k' - f' * h') - b' * (d' * k' - f' * g') + c' * (d' * h' - e' * g')) * (a * (e0 * k - f * h) - b * (d * k - f * g) + c * (d * h - e0 * g))) by ring.
    rewrite I00, I01, I02, I10, I11, I12, I20, I21, I22, Z in X. lra.
Qed.
Lemma inverse_unique : forall L, length L = (dim * dim)%nat -> inverse_of dim L K -> forall i j, (i < dim)%nat -> (j < dim)%nat ->
  nth (i * dim + j) (Inverse dim lu K) 0 = nth (i * dim + j) L 0.
Proof.
  intros L HL I i j Hi Hj. pose proof (inverse_right (inverse_det L HL I)) as R.
  transitivity (total (fun k => (if (i =? k)%nat then 1 else 0) * nth (k * dim + j) (Inverse dim lu K) 0) dim).
  - rewrite (total_ext _ (fun k => if (i =? k)%nat then nth (k * dim + j) (Inverse dim lu K) 0 else 0)).
    + symmetry. apply (total_pick (fun k => nth (k * dim + j) (Inverse dim lu K) 0)). exact Hi.
    + intros k _. destruct (i =? k)%nat; ring.
  - rewrite (total_ext _ (fun k => total (fun l => nth (i * dim + l) L 0 * (nth (l * dim + k) K 0 * nth (k * dim + j) (Inverse dim lu K) 0)) dim)).
    2: { intros k Hk. rewrite <- (I i k Hi Hk). rewrite <- total_scale. apply total_ext. intros l _. ring. }
    rewrite total_swap. rewrite (total_ext _ (fun l => if (j =? l)%nat then nth (i * dim + l) L 0 else 0)).
    + apply (total_pick (fun l => nth (i * dim + l) L 0)). exact Hj.
    + intros l Hl. rewrite total_scale_l, (R l j Hl Hj). rewrite Nat.eqb_sym. destruct (j =? l)%nat; ring.
Qed.
(** Positive matrices have positive inverses. *)
Lemma positive_det : positive dim K -> determinant dim K <> 0.
Proof.
  intros P Z. unfold positive, SpecBdm.dot, times in P. destruct Hd as [E|E]; rewrite E in *; simpl in HK.
  - destruct (list4 K HK) as [a [b [c [d ->]]]]. unfold determinant, ent in Z. simpl in Z.
    pose proof (P (fun k => match k with O => 0 | _ => 1 end) ltac:(exists 1%nat; split; [lia|lra])) as P1. simpl in P1.
    pose proof (P (fun k => match k with O => d | _ => - c end) ltac:(exists 0%nat; split; [lia|lra])) as P2. simpl in P2.
    assert (X : 0 + d * (0 + a * d + b * - c) + - c * (0 + c * d + d * - c) = d * (a * d - b * c)) by ring. rewrite X, Z in P2. lra.
  - destruct (list9 K HK) as [a [b [c [d [e0 [f [g [h [k ->]]]]]]]]]. unfold determinant, ent in Z. simpl in Z.
    pose proof (P (fun i => match i with 2%nat => 1 | _ => 0 end) ltac:(exists 2%nat; split; [lia|lra])) as P1. simpl in P1.
    pose proof (P (fun i => match i with 1%nat => k | 2%nat => - h | _ => 0 end) ltac:(exists 1%nat; split; [lia|lra])) as P2. simpl in P2.
    assert (X2 : 0 + 0 * (0 + a * 0 + b * k + c * - h) + k * (0 + d * 0 + e0 * k + f * - h) + - h * (0 + g * 0 + h * k + k * - h) = k * (e0 * k - f * h)) by ring.
    rewrite X2 in P2. assert (M : 0 < e0 * k - f * h) by (apply Rmult_lt_reg_l with k; lra).
    pose proof (P (fun i => match i with 0%nat => e0 * k - f * h | 1%nat => - (d * k - f * g) | _ => d * h - e0 * g end) ltac:(exists 0%nat; split; [lia|lra])) as P3. simpl in P3.
    match type of P3 with 0 < ?x => assert (X3 : x = (e0 * k - f * h) * (a * (e0 * k - f * h) - b * (d * k - f * g) + c * (d * h - e0 * g))) by ring end.
    rewrite X3, Z in P3. lra.
Qed.
Lemma inverse_positive : positive dim K -> positive dim (Inverse dim lu K).
Proof.
  intros P u [k [Hk Hu]]. pose proof (positive_det P) as D. pose proof (inverse_right D) as R.
  set (w := times dim (Inverse dim lu K) u).
  assert (KW : forall i, (i < dim)%nat -> times dim K w i = u i).
  { intros i Hi. unfold w, times.
    rewrite (total_ext _ (fun j => total (fun l => nth (i * dim + j) K 0 * nth (j * dim + l) (Inverse dim lu K) 0 * u l) dim)).
    2: { intros j _. rewrite <- total_scale_l. apply total_ext. intros l _. ring. }
    rewrite total_swap. rewrite (total_ext _ (fun l => if (i =? l)%nat then u l else 0)); [apply total_pick; exact Hi|].
    intros l Hl. rewrite total_scale, (R i l Hi Hl). destruct (i =? l)%nat; ring. }
  assert (E : SpecBdm.dot dim u w = SpecBdm.dot dim w (times dim K w)).
  { apply total_ext. intros i Hi. rewrite KW by exact Hi. ring. }
  rewrite E. apply P. destruct (Req_EM_T (total (fun i => w i * w i) dim) 0) as [Z0|NZ].
  - exfalso. apply Hu. rewrite <- (KW k Hk). unfold times. rewrite (total_ext _ (fun _ => 0)); [apply total_zero|].
    intros j Hj. assert (W : w j = 0).
    { clear -Z0 Hj. clearbody w. revert j Hj Z0. induction dim as [|n IH]; intros j Hj Z0; [lia|]. simpl in Z0.
      assert (T : 0 <= total (fun i => w i * w i) n).
      { clear. induction n as [|n IH]; simpl; [lra|]. pose proof (Rle_0_sqr (w n)). unfold Rsqr in *. lra. }
      pose proof (Rle_0_sqr (w n)) as S. unfold Rsqr in S. destruct (Nat.eq_dec j n) as [->|].
      - assert (Y : w n * w n = 0) by lra. apply Rmult_integral in Y. destruct Y; assumption.
      - apply IH; [lia|lra]. }
    rewrite W. ring.
  - assert (EX : exists j, (j < dim)%nat /\ w j <> 0).
    { clear -NZ. clearbody w. induction dim as [|n IH]; [simpl in NZ; lra|]. destruct (Req_EM_T (w n) 0) as [Z|Z].
      - simpl in NZ. rewrite Z in NZ. destruct IH as [j [Hj Hw]]; [lra|]. exists j. split; [lia|exact Hw].
      - exists n. split; [lia|exact Z]. }
    exact EX.
Qed.
End inverse.

(** ** The basis functions *)

Definition reference (dim : nat) (xi : list R) : list R :=
  if (dim =? 2)%nat then quad_reference (nth 0 xi 0) (nth 1 xi 0) else hex_reference (nth 0 xi 0) (nth 1 xi 0) (nth 2 xi 0).
Definition shapes (b : problem) (c : nat) (xi : list R) : list R :=
  let dim := p_dim (b_mesh b) in mapped_all dim (dim * 2 ^ dim) (jacobian b c xi) (det b c xi) (reference dim xi).
Lemma basis_exists : forall b c, sized b -> cell_regular b c -> basis_functions b c (shapes b c).
Proof.
  intros b c [Hd _] HR xi Hin. destruct (HR xi Hin) as [HL HJ]. destruct Hin as [Lx _]. unfold shapes, reference.
  destruct Hd as [E|E]; rewrite E in *; cbn [Nat.eqb].
  - split; [reflexivity|]. rewrite (two xi Lx) at 1. unfold HdivBasisQuad. cbn [rd nth_error bind]. rewrite transform_ok; [|exact HL|reflexivity|exact HJ]. reflexivity.
  - split; [reflexivity|]. rewrite (three xi Lx) at 1. unfold HdivBasisHex. cbn [rd nth_error bind]. rewrite transform_ok; [|exact HL|reflexivity|exact HJ]. reflexivity.
Qed.
Lemma some_inj : forall l k : list R, map Some l = map Some k -> l = k.
Proof. induction l as [|x l IH]; intros [|y k] H; simpl in H; try discriminate H; [reflexivity|]. injection H as H1 H2. f_equal; [exact H1|apply IH; exact H2]. Qed.
Lemma basis_unique : forall b c phi psi, basis_functions b c phi -> basis_functions b c psi -> forall xi, inside (p_dim (b_mesh b)) xi -> phi xi = psi xi.
Proof.
  intros b c phi psi H1 H2 xi Hin. destruct (H1 xi Hin) as [_ E1]. destruct (H2 xi Hin) as [_ E2]. rewrite E1 in E2. apply some_inj. congruence.
Qed.
