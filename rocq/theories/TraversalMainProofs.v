(** Proofs about the order of the cells around a vertex: both levels. *)
From Coq Require Import Reals List Bool Arith ZArith Lia Permutation.
From Verif Require Import Prelude Arrays Geom Mpfao SpecMpfao SpecSubcell Numbering SpecNumbering NumberingProofs NumberingSubProofs Traversal SpecTraversal TraversalOrderProofs TraversalProofs.
Import ListNotations.
Local Open Scope nat_scope.

Lemma round_swap : forall k r0 r1, round k r0 r1 -> round k r1 r0.
Proof.
  intros k r0 r1 [H1 H2 H3 H4 H5 H6 H7 H8]. constructor; try assumption.
  - apply nodup_app_inv in H1. destruct H1 as [A [B C]]. apply nodup_app; try assumption. intros x Hx Hy. exact (C x Hy Hx).
  - intros x Hx. apply H2. apply in_or_app. apply in_app_or in Hx. tauto.
  - intros a Ha. specialize (H3 a Ha). apply in_or_app. apply in_app_or in H3. tauto.
  - intros i x y Hx Hy Hc. destruct (H6 i y x Hy Hx ltac:(tauto)) as [f [Hf [H|H]]]; exists f; (split; [exact Hf|]); [right|left]; exact H.
Qed.
Lemma forall2_nth : forall {X Y} (P : X -> Y -> Prop) l m, Forall2 P l m ->
  length l = length m /\ forall i x y, nth_error l i = Some x -> nth_error m i = Some y -> P x y.
Proof.
  intros X Y P l m H. induction H as [|x y l m Hxy H [E IH]]; [split; [reflexivity|intros [|i] x y H; discriminate H]|].
  split; [simpl; congruence|]. intros [|i] x' y' Hx Hy; simpl in Hx, Hy; [congruence|exact (IH i x' y' Hx Hy)].
Qed.
Lemma forall2_in : forall {X Y} (P : X -> Y -> Prop) l m y, Forall2 P l m -> In y m -> exists x, In x l /\ P x y.
Proof.
  intros X Y P l m y H. induction H as [|x z l m Hxy H IH]; intro Hy; [destruct Hy|].
  destruct Hy as [->|Hy]; [exists x; split; [left; reflexivity|exact Hxy]|].
  destruct (IH Hy) as [x' [Hx' Hp]]. exists x'. split; [right; exact Hx'|exact Hp].
Qed.
Lemma forall2_nodup : forall {X Y} (P : X -> Y -> Prop) l m, (forall x x' y, In x l -> In x' l -> P x y -> P x' y -> x = x') ->
  Forall2 P l m -> NoDup l -> NoDup m.
Proof.
  intros X Y P l m Hinj H. induction H as [|x y l m Hxy H IH]; intro N; [constructor|]. inversion N as [|? ? N1 N2]; subst.
  constructor; [|apply IH; [|exact N2]; intros a b c Ha Hb; apply Hinj; right; assumption].
  intro Hy. destruct (forall2_in P l m y H Hy) as [x' [Hx' Hp]].
  apply N1. rewrite (Hinj x x' y); [exact Hx'|left; reflexivity|right; exact Hx'|exact Hxy|exact Hp].
Qed.

Lemma m_nil : forall {T} (l : list nat) (x y : T), l = [] -> match l with [] => x | _ :: _ => y end = x.
Proof. intros T l x y ->. reflexivity. Qed.
Lemma m_cons : forall {T} (l : list nat) (x y : T), l <> [] -> match l with [] => x | _ :: _ => y end = y.
Proof. intros T [|a l] x y H; [congruence|reflexivity]. Qed.

Lemma perm_nil : forall (a l : list nat), Permutation a l -> (l = [] <-> a = []).
Proof.
  intros a l H. split; intro X; subst; [symmetry in H|]; exact (Permutation_nil H).
Qed.

Section mesh.
Variables (h : shape) (k : corner) (A B : list nat).
Hypothesis Hk : conforming k.
Hypothesis Hl : layered h k A B.

Let nb := AreCellsNeighbors h.
Let ps := ps k.
Let bp := bp k.

Lemma nd_AB : NoDup (A ++ B).
Proof. exact (Permutation_NoDup (Permutation_sym (ly_cells _ _ _ _ Hl)) (cf_cells k Hk)). Qed.
Lemma disj : forall c, In c A -> In c B -> False.
Proof. exact (proj2 (proj2 (nodup_app_inv _ _ nd_AB))). Qed.
Lemma inA : incl A (k_cells k).
Proof. intros c H. apply (Permutation_in _ (ly_cells _ _ _ _ Hl)). apply in_or_app. left. exact H. Qed.
Lemma inB : incl B (k_cells k).
Proof. intros c H. apply (Permutation_in _ (ly_cells _ _ _ _ Hl)). apply in_or_app. right. exact H. Qed.
Lemma inAB : forall c, In c (k_cells k) -> In c A \/ In c B.
Proof. intros c H. apply in_app_or. apply (Permutation_in _ (Permutation_sym (ly_cells _ _ _ _ Hl))). exact H. Qed.
Lemma flatA : forall f c d, In f (k_faces k) -> ~ upright h k f -> c <> d -> touches k f c -> touches k f d -> In c A -> ~ In d A.
Proof.
  intros f c d Hf U Hne T1 T2 Hc Hd. apply (disj d Hd). apply (ly_across _ _ _ _ Hl f c d); assumption.
Qed.
Lemma upB : forall f c d, In f (k_faces k) -> upright h k f -> touches k f c -> touches k f d -> In c B -> In d B.
Proof.
  intros f c d Hf U T1 T2 Hc. destruct (inAB d (in_cells k Hk f d Hf T2)) as [Hd|Hd]; [|exact Hd].
  exfalso. apply (disj c); [|exact Hc]. exact (ly_level _ _ _ _ Hl f d c Hf U T2 T1 Hd).
Qed.
Lemma flatB : forall f c d, In f (k_faces k) -> ~ upright h k f -> c <> d -> touches k f c -> touches k f d -> In c B -> ~ In d B.
Proof.
  intros f c d Hf U Hne T1 T2 Hc Hd. apply (disj d); [|exact Hd].
  apply (ly_across _ _ _ _ Hl f d c Hf U (not_eq_sym Hne) T2 T1). exact Hc.
Qed.

Lemma nb_meet : forall c d, In c (k_cells k) -> In d (k_cells k) -> c <> d -> (nb c d = true <-> meet k c d).
Proof.
  intros c d Hc Hd Hne. rewrite <- (ly_faces _ _ _ _ Hl c d Hc Hd Hne). unfold nb, AreCellsNeighbors.
  rewrite existsb_exists. split.
  - intros [f [H1 H2]]. apply existsb_exists in H2. destruct H2 as [g [H2 E]]. apply Nat.eqb_eq in E. subst g. eauto.
  - intros [f [H1 H2]]. exists f. split; [exact H1|]. apply existsb_exists. exists f. split; [exact H2|apply Nat.eqb_refl].
Qed.

(** ** Putting a level in order *)
Section level.
Variable L : list nat.
Hypothesis HLnd : NoDup L.
Hypothesis HLin : incl L (k_cells k).
Hypothesis HLup : forall f c d, In f (k_faces k) -> upright h k f -> touches k f c -> touches k f d -> In c L -> In d L.
Hypothesis HLflat : forall f c d, In f (k_faces k) -> ~ upright h k f -> c <> d -> touches k f c -> touches k f d ->
  In c L -> ~ In d L.

Lemma linked_row : forall o, Permutation o L -> linked nb o -> row k L o.
Proof.
  intros o P H. assert (N : NoDup o) by exact (Permutation_NoDup (Permutation_sym P) HLnd). constructor.
  - exact N.
  - intros x Hx. exact (Permutation_in _ P Hx).
  - intros x Hx. exact (Permutation_in _ (Permutation_sym P) Hx).
  - intros i c d Hc Hd. apply nb_meet.
    + apply HLin, (Permutation_in _ P). eapply nth_error_In. exact Hc.
    + apply HLin, (Permutation_in _ P). eapply nth_error_In. exact Hd.
    + intro. subst d. pose proof (nodup_nth o i (S i) c N Hc Hd). lia.
    + exact (proj1 (linked_nth nb o) H i c d Hc Hd).
Qed.
Lemma row_linked : forall o, row k L o -> linked nb o.
Proof.
  intros o Ho. apply linked_nth. intros i c d Hc Hd. apply nb_meet.
  - apply HLin, (rw_in _ _ _ Ho). eapply nth_error_In. exact Hc.
  - apply HLin, (rw_in _ _ _ Ho). eapply nth_error_In. exact Hd.
  - intro. subst d. pose proof (nodup_nth o i (S i) c (rw_nodup _ _ _ Ho) Hc Hd). lia.
  - exact (rw_meet _ _ _ Ho i c d Hc Hd).
Qed.
Lemma row_perm : forall o, row k L o -> Permutation o L.
Proof. intros o Ho. apply NoDup_Permutation; [exact (rw_nodup _ _ _ Ho)|exact HLnd|]. intro x. split; [apply (rw_in _ _ _ Ho)|apply (rw_all _ _ _ Ho)]. Qed.
Lemma nb_sym : forall o, row k L o -> sym_on nb o.
Proof.
  intros o Ho x y Hx Hy Hn. destruct (Nat.eq_dec x y) as [->|Hne]; [exact Hn|].
  assert (Cx := HLin _ (rw_in _ _ _ Ho x Hx)). assert (Cy := HLin _ (rw_in _ _ _ Ho y Hy)).
  apply (nb_meet y x Cy Cx (not_eq_sym Hne)). apply meet_sym. apply (nb_meet x y Cx Cy Hne). exact Hn.
Qed.
Lemma row_next : forall o, row k L o -> next_or_ends nb o.
Proof.
  intros o Ho i j x y Hi Hj Hlt Hn.
  assert (Cx := HLin _ (rw_in _ _ _ Ho x (nth_error_In _ _ Hi))). assert (Cy := HLin _ (rw_in _ _ _ Ho y (nth_error_In _ _ Hj))).
  assert (Hne : x <> y). { intro. subst y. pose proof (nodup_nth o i j x (rw_nodup _ _ _ Ho) Hi Hj). lia. }
  apply (row_meet h k A B Hk Hl L HLin HLflat o Ho i j x y Hi Hj Hlt). apply (nb_meet x y Cx Cy Hne). exact Hn.
Qed.

(** ArrangeCellsInCircularOrder and ArrangeCellsInAntiClockwiseDirection. *)
Lemma arranged : forall o o', ArrangeCellsInCircularOrder nb L = Ok o ->
  ArrangeCellsInAntiClockwiseDirection h k o = Ok o' -> row k L o'.
Proof.
  intros o o' E E'. destruct (circular_sound nb L o E) as [P Li]. assert (R := linked_row o P Li).
  unfold ArrangeCellsInAntiClockwiseDirection in E'. destruct o as [|c [|d o]]; try discriminate E'.
  destruct (rd (h_vx h) (k_iv k)) as [a| |]; cbn [bind] in E'; try discriminate E'.
  destruct (rd (h_cc h) c) as [b| |]; cbn [bind] in E'; try discriminate E'.
  destruct (rd (h_fc h) (shared_face k c d)) as [x| |]; cbn [bind] in E'; try discriminate E'.
  destruct (anticlockwise a b x).
  - injection E' as <-. exact R.
  - assert (o' = rev (c :: d :: o)) by congruence. subst o'. exact (row_rev k L _ R).
Qed.
Lemma arranges : 1 < length L -> in_a_row k L -> exists o o', ArrangeCellsInCircularOrder nb L = Ok o /\
  ArrangeCellsInAntiClockwiseDirection h k o = Ok o'.
Proof.
  intros Hn [p [P Hp]].
  assert (R : row k L p).
  { constructor; [exact (Permutation_NoDup (Permutation_sym P) HLnd)|intros x Hx; exact (Permutation_in _ P Hx)| |exact Hp].
    intros x Hx. exact (Permutation_in _ (Permutation_sym P) Hx). }
  destruct (circular_found nb p L P (rw_nodup _ _ _ R) (nb_sym p R) (row_linked p R) (row_next p R)) as [o E];
    [rewrite (Permutation_length P); exact Hn|].
  exists o. destruct (circular_sound nb L o E) as [Po Li]. assert (Ro := linked_row o Po Li).
  assert (Hlen : 1 < length o) by (rewrite (Permutation_length Po); exact Hn).
  destruct o as [|c [|d o]]; [simpl in Hlen; lia|simpl in Hlen; lia|].
  assert (Lc : In c L) by (apply (rw_in _ _ _ Ro); left; reflexivity).
  assert (Ld : In d L) by (apply (rw_in _ _ _ Ro); right; left; reflexivity).
  assert (Hcd : c <> d). { intro. subst d. pose proof (nodup_nth _ 0 1 c (rw_nodup _ _ _ Ro) eq_refl eq_refl). lia. }
  destruct (rw_meet _ _ _ Ro 0 c d eq_refl eq_refl) as [f [Hf [T1 T2]]].
  assert (Hs : In (shared_face k c d) (k_faces k)).
  { unfold shared_face. destruct (find (between_cells k c d) (k_faces k)) as [g|] eqn:Eg; [exact (proj1 (find_some _ _ Eg))|].
    exfalso. assert (N := find_none _ _ Eg f Hf). unfold between_cells in N.
    destruct T1 as [[a b] [E1 T1]]. destruct T2 as [fc [E2 T2]]. assert (fc = (a, b)) by congruence. subst fc.
    rewrite E1 in N. simpl in T1, T2.
    assert (((a =? Z.of_nat c)%Z || (a =? Z.of_nat d)%Z) && ((b =? Z.of_nat c)%Z || (b =? Z.of_nat d)%Z) = true); [|congruence].
    apply andb_true_iff. rewrite !orb_true_iff, !Z.eqb_eq. lia. }
  destruct (rd_ok (h_vx h) (k_iv k) (iv_known h k A B Hk Hl f Hf)) as [a [Ea _]].
  destruct (rd_ok (h_cc h) c (proj2 (ly_known _ _ _ _ Hl c (HLin c Lc)))) as [b [Eb _]].
  destruct (rd_ok (h_fc h) _ (ly_centre _ _ _ _ Hl _ Hs)) as [x [Ex _]].
  eexists. split; [exact E|]. unfold ArrangeCellsInAntiClockwiseDirection. rewrite Ea, Eb, Ex. reflexivity.
Qed.

(** ** The faces of a single level *)
Hypothesis HLall : incl (k_cells k) L.
Lemma flat_outer : forall c f, In c L -> In f (k_faces k) -> touches k f c -> ~ upright h k f -> In f (k_bnd k).
Proof.
  intros c f Hc Hf Tf U. apply (cf_outer k Hk). split; [exact Hf|]. destruct (inside k f) eqn:E; [|reflexivity].
  exfalso. destruct (other_cell k Hk f c Hf Tf E) as [d [Hd [Td Cd]]].
  exact (HLflat f c d Hf U (not_eq_sym Hd) Tf Td Hc (HLall d Cd)).
Qed.
Definition flat_at (c j : nat) : Prop := exists f, nth_error (k_bnd k) j = Some f /\ touches k f c /\ ~ upright h k f.
Lemma flat_inj : forall c d j, flat_at c j -> flat_at d j -> c = d.
Proof.
  intros c d j [f [Hf [Tf _]]] [g [Hg [Tg _]]]. assert (g = f) by congruence. subst g.
  destruct (bnd_face k Hk f (nth_error_In _ _ Hf)) as [F1 F2]. exact (touch_one k Hk f c d F1 F2 Tf Tg).
Qed.
Lemma put_flat_ok : forall l pre m used, incl l L -> NoDup l -> length l <= m ->
  (forall c j f, In c l -> nth_error (k_bnd k) j = Some f -> touches k f c -> (used j = true <-> upright h k f)) ->
  exists js, put_flat k l (length pre) used (pre ++ repeat (-1)%Z m) = Ok ((pre ++ map bp js) ++ repeat (-1)%Z (m - length l)) /\
    Forall2 flat_at l js.
Proof.
  induction l as [|c l IH]; intros pre m used HI N Hm Hu.
  - exists []. split; [|constructor]. simpl. rewrite app_nil_r, Nat.sub_0_r. reflexivity.
  - inversion N as [|? ? N1 N2]; subst. cbn [length] in Hm.
    assert (Lc : In c L) by (apply HI; left; reflexivity).
    destruct (has_flat h k A B Hl c (HLin c Lc)) as [w [Fw [Tw Uw]]].
    assert (Bw := flat_outer c w Lc Fw Tw Uw). destruct (In_nth_error _ _ Bw) as [jw Hjw].
    cbn [put_flat].
    destruct (find (fun p => negb (used (fst p)) && side_of k (snd p) c) (numbered_from 0 (k_bnd k))) as [[j f]|] eqn:Ef.
    + destruct (find_some _ _ Ef) as [Hin Hp]. apply andb_true_iff in Hp. destruct Hp as [Hp1 Hp2]. cbn [fst snd] in Hp1, Hp2.
      apply negb_true_iff in Hp1. apply side_touch in Hp2. apply numbered_nth in Hin. rewrite Nat.sub_0_r in Hin. destruct Hin as [_ Hj].
      assert (Uf : ~ upright h k f). { intro U. apply (Hu c j f (or_introl eq_refl) Hj Hp2) in U. congruence. }
      rewrite wr_pad by lia. cbn [bind].
      destruct (IH (pre ++ [bp j]) (m - 1) (fun x => used x || (x =? j)) (fun x Hx => HI x (or_intror Hx)) N2 ltac:(lia)) as [js [E F]].
      { intros d i g Hd Hi Tg. rewrite orb_true_iff, Nat.eqb_eq. rewrite (Hu d i g (or_intror Hd) Hi Tg).
        split; [|tauto]. intros [U|E]; [exact U|]. subst i. exfalso. assert (g = f) by congruence. subst g.
        destruct (bnd_face k Hk f (nth_error_In _ _ Hj)) as [F1 F2].
        assert (c = d) by exact (touch_one k Hk f c d F1 F2 Hp2 Tg). subst d. contradiction. }
      exists (j :: js). split.
      * replace (S (length pre)) with (length (pre ++ [bp j])) by (rewrite app_length; simpl; lia).
        transitivity (Ok (((pre ++ [bp j]) ++ map bp js) ++ repeat (-1)%Z (m - 1 - length l))); [exact E|].
        rewrite <- (app_assoc pre [bp j]). cbn [length map app]. replace (m - S (length l)) with (m - 1 - length l) by lia. reflexivity.
      * constructor; [exists f; auto|exact F].
    + exfalso. assert (X := find_none _ _ Ef (jw, w)). cbn [fst snd] in X.
      rewrite (proj2 (side_touch k w c) Tw), andb_true_r in X.
      assert (used jw = true); [|apply Uw; apply (Hu c jw w (or_introl eq_refl) Hjw Tw); assumption].
      apply negb_false_iff. apply X. apply numbered_nth. rewrite Nat.sub_0_r. split; [lia|exact Hjw].
Qed.

Lemma single_level : forall o, row k L o -> 1 < length o -> exists r fl,
  ConvertCells h k o (repeat (-1)%Z (length (k_cells k) + length (k_bnd k))) = Ok (padded k r) /\
  AddUpDownBndFaces k o (padded k r) (repeat (-1)%Z (length (k_cells k) + length (k_bnd k))) = Ok (padded k fl) /\
  round k r fl.
Proof.
  intros o Ho Hn. destruct (convert_many h k A B Hk Hl L HLin HLup HLflat o Ho Hn) as [r [Er [R1 R2 [ext [R3 R3']] R4]]].
  exists r. fold ps in R3.
  assert (Hu : forall c j f, In c o -> nth_error (k_bnd k) j = Some f -> touches k f c -> (used_in k (padded k r) j = true <-> upright h k f)).
  { intros c j f Hc Hj Tf. unfold used_in. rewrite existsb_exists. split.
    - intros [x [Hx E]]. apply Z.eqb_eq in E. subst x. change (Z.of_nat (length (k_cells k) + j)) with (bp j) in Hx.
      unfold padded in Hx. apply in_app_or in Hx. destruct Hx as [Hx|Hx].
      + rewrite R3 in Hx. apply in_app_or in Hx. destruct Hx as [Hx|Hx].
        * apply in_map_iff in Hx. destruct Hx as [d [E Hd]]. exfalso.
          apply (ps_bp k Hk d j); [apply HLin, (rw_in _ _ _ Ho); exact Hd|exact E].
        * destruct (R3' _ Hx) as [j' [f' [d [E [Hj' [Of _]]]]]]. apply bp_inj in E. subst j'.
          assert (f' = f) by congruence. subst f'. apply Of.
      + apply repeat_spec in Hx. unfold bp, TraversalProofs.bp in Hx. lia.
    - intro U. exists (bp j). split; [|apply Z.eqb_refl]. unfold padded. apply in_or_app. left.
      apply (R4 c j f); [apply (rw_in _ _ _ Ho); exact Hc|exact Hj|]. split; [eapply nth_error_In; exact Hj|auto]. }
  destruct (put_flat_ok o [] (length (k_cells k) + length (k_bnd k)) (used_in k (padded k r)) (rw_in _ _ _ Ho) (rw_nodup _ _ _ Ho)) as [js [E F]];
    [assert (X := row_len k L HLin o Ho); lia|exact Hu|].
  exists (map bp js). split; [exact Er|].
  destruct (forall2_nth _ _ _ F) as [Flen Fnth].
  split; [unfold padded; rewrite map_length, <- Flen; exact E|].
  assert (Njs : NoDup js).
  { apply (forall2_nodup flat_at o js); [|exact F|exact (rw_nodup _ _ _ Ho)]. intros x x' y _ _. apply flat_inj. }
  constructor.
  - apply nodup_app; [exact R2| |].
    + apply FinFun.Injective_map_NoDup; [|exact Njs]. intros x y Hxy. exact (bp_inj k x y Hxy).
    + intros x Hx Hy. apply in_map_iff in Hy. destruct Hy as [j [<- Hj]].
      destruct (forall2_in _ _ _ j F Hj) as [c [Hc [f [Hf [Tf Uf]]]]]. apply Uf. apply (Hu c j f Hc Hf Tf).
      unfold used_in. apply existsb_exists. exists (bp j). split; [unfold padded; apply in_or_app; left; exact Hx|apply Z.eqb_refl].
  - intros x Hx. apply in_app_or in Hx. destruct Hx as [Hx|Hx].
    + rewrite R3 in Hx. apply in_app_or in Hx. destruct Hx as [Hx|Hx].
      * apply in_map_iff in Hx. destruct Hx as [c [<- Hc]].
        assert (X := ps_cell k Hk c (HLin c (rw_in _ _ _ Ho c Hc))). unfold is_cell, ps, TraversalProofs.ps in *. lia.
      * destruct (R3' x Hx) as [j [f [c [-> [Hj _]]]]]. apply nth_lt in Hj. unfold TraversalProofs.bp. lia.
    + apply in_map_iff in Hx. destruct Hx as [j [<- Hj]]. destruct (forall2_in _ _ _ j F Hj) as [c [Hc [f [Hf _]]]].
      apply nth_lt in Hf. unfold bp, TraversalProofs.bp. lia.
  - intros a Ha. destruct (nth_error (k_cells k) a) as [c|] eqn:Ec; [|apply nth_error_None in Ec; lia].
    apply in_or_app. left. rewrite R3. apply in_or_app. left. apply in_map_iff. exists c. split.
    + unfold ps, TraversalProofs.ps. f_equal. assert (Cc := nth_error_In _ _ Ec).
      exact (nodup_nth _ _ _ c (cf_cells k Hk) (proj2 (posn_spec k Hk c Cc)) Ec).
    + apply (rw_all _ _ _ Ho), HLall. eapply nth_error_In. exact Ec.
  - exact R1.
  - split.
    + intros i x y Hx Hy [Hc|Hc]; exfalso.
      * apply nth_error_In, in_map_iff in Hx. destruct Hx as [j [<- _]]. exact (bp_not k j Hc).
      * apply nth_error_In, in_map_iff in Hy. destruct Hy as [j [<- _]]. exact (bp_not k j Hc).
    + intros x Hx Hc. exfalso. apply in_map_iff in Hx. destruct Hx as [j [<- _]]. exact (bp_not k j Hc).
  - intros i x y Hx Hy Hc. rewrite nth_error_map in Hy. destruct (nth_error js i) as [j|] eqn:Ej; [|discriminate Hy].
    simpl in Hy. injection Hy as <-.
    assert (Hi : i < length o) by (rewrite Flen; apply nth_error_Some; congruence).
    rewrite R3, nth_error_app1 in Hx by (rewrite map_length; exact Hi).
    rewrite nth_error_map in Hx. destruct (nth_error o i) as [c|] eqn:Ec; [|discriminate Hx]. simpl in Hx. injection Hx as <-.
    destruct (Fnth i c j Ec Ej) as [f [Hf [Tf _]]].
    apply (joined_bnd k Hk c j f); [|exact Hf|exact Tf]. apply HLin, (rw_in _ _ _ Ho). eapply nth_error_In. exact Ec.
  - intros i x Hx Hc. rewrite map_length, <- Flen. destruct (lt_dec i (length o)) as [H|H]; [exact H|]. exfalso.
    rewrite R3, nth_error_app2 in Hx by (rewrite map_length; lia).
    destruct (R3' x (nth_error_In _ _ Hx)) as [j [f [d [-> _]]]]. exact (bp_not k j Hc).
  - intros i x Hx Hc. exfalso. apply nth_error_In, in_map_iff in Hx. destruct Hx as [j [<- _]]. exact (bp_not k j Hc).
Qed.
End level.

(** ** Two levels *)
Section both.
Hypothesis HA : A <> [].
Hypothesis HB : B <> [].
Definition over (a b : nat) : Prop := In b B /\ meet k a b.

Lemma across_flat : forall f a b, In f (k_faces k) -> touches k f a -> touches k f b -> In a A -> In b B -> ~ upright h k f.
Proof. intros f a b Hf Ta Tb Ha Hb U. exact (disj b (ly_level _ _ _ _ Hl f a b Hf U Ta Tb Ha) Hb). Qed.
Lemma below : forall a, In a A -> exists b, over a b.
Proof.
  intros a Ha. destruct (has_flat h k A B Hl a (inA a Ha)) as [f [Hf [Tf Uf]]].
  assert (Hi := ly_both _ _ _ _ Hl f a Hf Uf Tf HA HB).
  destruct (other_cell k Hk f a Hf Tf Hi) as [b [Hne [Tb _]]]. exists b. split.
  - apply (ly_across _ _ _ _ Hl f a b Hf Uf (not_eq_sym Hne) Tf Tb). exact Ha.
  - exists f. auto.
Qed.
Lemma above : forall b, In b B -> exists a, In a A /\ meet k a b.
Proof.
  intros b Hb. destruct (has_flat h k A B Hl b (inB b Hb)) as [f [Hf [Tf Uf]]].
  assert (Hi := ly_both _ _ _ _ Hl f b Hf Uf Tf HA HB).
  destruct (other_cell k Hk f b Hf Tf Hi) as [a [Hne [Ta _]]]. exists a. split.
  - apply (ly_across _ _ _ _ Hl f a b Hf Uf Hne Ta Tf). exact Hb.
  - exists f. auto.
Qed.
Lemma over_inj : forall a a' b, In a A -> In a' A -> over a b -> over a' b -> a = a'.
Proof.
  intros a a' b Ha Ha' [Hb [f [Hf [T1 T2]]]] [_ [g [Hg [T3 T4]]]].
  assert (f = g) by (apply (one_flat h k A B Hl b f g (inB b Hb) Hf Hg T2 T4);
    [exact (across_flat f a b Hf T1 T2 Ha Hb)|exact (across_flat g a' b Hg T3 T4 Ha' Hb)]). subst g.
  destruct (touch3 k f a a' b Hf T1 T3 T2) as [E|[E|E]]; [exact E| |]; subst; exfalso; [exact (disj b Ha Hb)|exact (disj b Ha' Hb)].
Qed.
Lemma over_inj' : forall a b b', In a A -> over a b -> over a b' -> b = b'.
Proof.
  intros a b b' Ha [Hb [f [Hf [T1 T2]]]] [Hb' [g [Hg [T3 T4]]]].
  assert (f = g) by (apply (one_flat h k A B Hl a f g (inA a Ha) Hf Hg T1 T3);
    [exact (across_flat f a b Hf T1 T2 Ha Hb)|exact (across_flat g a b' Hg T3 T4 Ha Hb')]). subst g.
  destruct (touch3 k f b b' a Hf T2 T4 T1) as [E|[E|E]]; [exact E| |]; subst; exfalso; [exact (disj a Ha Hb)|exact (disj a Ha Hb')].
Qed.
Lemma exist2 : forall {X Y} (P : X -> Y -> Prop) l, (forall x, In x l -> exists y, P x y) -> exists m, Forall2 P l m.
Proof.
  induction l as [|x l IH]; intro H; [exists []; constructor|].
  destruct (H x (or_introl eq_refl)) as [y Hy]. destruct (IH (fun z Hz => H z (or_intror Hz))) as [m Hm].
  exists (y :: m). constructor; assumption.
Qed.
Lemma ndA : NoDup A. Proof. exact (proj1 (nodup_app_inv _ _ nd_AB)). Qed.
Lemma ndB : NoDup B. Proof. exact (proj1 (proj2 (nodup_app_inv _ _ nd_AB))). Qed.
Lemma same_number : length A = length B.
Proof.
  apply Nat.le_antisymm.
  - destruct (exist2 over A below) as [m Hm]. rewrite (proj1 (forall2_nth _ _ _ Hm)).
    apply NoDup_incl_length.
    + apply (forall2_nodup over A m); [|exact Hm|exact ndA]. intros x x' y Hx Hx'. apply over_inj; assumption.
    + intros y Hy. destruct (forall2_in _ _ _ y Hm Hy) as [x [_ [H _]]]. exact H.
  - destruct (exist2 (fun b a => In a A /\ meet k a b) B above) as [m Hm]. rewrite (proj1 (forall2_nth _ _ _ Hm)).
    apply NoDup_incl_length.
    + apply (forall2_nodup (fun b a => In a A /\ meet k a b) B m); [|exact Hm|exact ndB].
      intros x x' y Hx Hx' [H1 H2] [_ H3]. apply (over_inj' y); [exact H1|split; assumption|split; assumption].
    + intros y Hy. destruct (forall2_in _ _ _ y Hm Hy) as [x [_ [H _]]]. exact H.
Qed.
Lemma partners_ok : forall l, incl l A -> exists r, partners nb l B false = Ok r /\ Forall2 over l r.
Proof.
  induction l as [|a l IH]; intro HI; [exists []; split; [reflexivity|constructor]|].
  destruct (IH (fun x Hx => HI x (or_intror Hx))) as [r [E F]]. cbn [partners].
  assert (Ha : In a A) by (apply HI; left; reflexivity). destruct (below a Ha) as [b [Hb Hm]].
  assert (Hne : a <> b) by (intro; subst; exact (disj b Ha Hb)).
  destruct (find (nb a) B) as [d|] eqn:Ef.
  - destruct (find_some _ _ Ef) as [Hd Hn]. rewrite E. cbn [bind]. exists (d :: r). split; [reflexivity|].
    constructor; [|exact F]. split; [exact Hd|].
    apply nb_meet; [exact (inA a Ha)|exact (inB d Hd)|intro; subst; exact (disj d Ha Hd)|exact Hn].
  - exfalso. assert (N := find_none _ _ Ef b Hb). rewrite (proj2 (nb_meet a b (inA a Ha) (inB b Hb) Hne) Hm) in N. discriminate N.
Qed.
Lemma as_neighbours : forall o, row k A o -> exists r, RearrangeCellsInListAsNeighbors nb o B = Ok r /\ Forall2 over o r.
Proof.
  intros o Ho. assert (E : length o = length B) by (rewrite (Permutation_length (row_perm A ndA o Ho)); exact same_number).
  destruct (partners_ok o (rw_in _ _ _ Ho)) as [r [Er F]]. exists r. split; [|exact F].
  unfold RearrangeCellsInListAsNeighbors. rewrite E, firstn_all, skipn_all, Nat.ltb_irrefl, Er. cbn [bind]. rewrite app_nil_r. reflexivity.
Qed.
Lemma below_row : forall o r, row k A o -> Forall2 over o r -> row k B r.
Proof.
  intros o r Ho F. destruct (forall2_nth _ _ _ F) as [Flen Fnth].
  assert (N : NoDup r).
  { apply (forall2_nodup over o r); [|exact F|exact (rw_nodup _ _ _ Ho)]. intros x x' y Hx Hx'.
    apply over_inj; apply (rw_in _ _ _ Ho); assumption. }
  assert (I : incl r B) by (intros y Hy; destruct (forall2_in _ _ _ y F Hy) as [x [_ [H _]]]; exact H).
  constructor; [exact N|exact I| |].
  - apply NoDup_length_incl; [exact N| |exact I]. rewrite <- Flen, (Permutation_length (row_perm A ndA o Ho)), same_number. reflexivity.
  - intros i b b' Hb Hb'.
    assert (exists a, nth_error o i = Some a) as [a Ha].
    { destruct (nth_error o i) eqn:E; [eauto|]. apply nth_error_None in E. apply nth_lt in Hb. lia. }
    assert (exists a, nth_error o (S i) = Some a) as [a' Ha'].
    { destruct (nth_error o (S i)) eqn:E; [eauto|]. apply nth_error_None in E. apply nth_lt in Hb'. lia. }
    destruct (Fnth i a b Ha Hb) as [Ib M]. destruct (Fnth (S i) a' b' Ha' Hb') as [Ib' M'].
    apply (ly_match _ _ _ _ Hl a a' b b'); try assumption.
    + apply (rw_in _ _ _ Ho). eapply nth_error_In. exact Ha.
    + apply (rw_in _ _ _ Ho). eapply nth_error_In. exact Ha'.
    + exact (rw_meet _ _ _ Ho i a a' Ha Ha').
    + intro. subst a'. pose proof (nodup_nth o i (S i) a (rw_nodup _ _ _ Ho) Ha Ha'). lia.
Qed.

Lemma convert_level : forall L o, incl L (k_cells k) ->
  (forall f c d, In f (k_faces k) -> upright h k f -> touches k f c -> touches k f d -> In c L -> In d L) ->
  (forall f c d, In f (k_faces k) -> ~ upright h k f -> c <> d -> touches k f c -> touches k f d -> In c L -> ~ In d L) ->
  row k L o -> o <> [] -> exists r,
  ConvertCells h k o (repeat (-1)%Z (length (k_cells k) + length (k_bnd k))) = Ok (padded k r) /\ leveled h k L o r.
Proof.
  intros L o H1 H2 H3 Ho Hne. destruct o as [|c [|d o]]; [congruence| |].
  - apply (convert_one h k A B Hk Hl L H1 H2 c Ho).
    intros f Hf Tf Uf. exact (ly_both _ _ _ _ Hl f c Hf Uf Tf HA HB).
  - apply (convert_many h k A B Hk Hl L H1 H2 H3 _ Ho). simpl. lia.
Qed.
Lemma two_levels : forall o r, row k A o -> Forall2 over o r -> exists r0 r1,
  ConvertCells h k o (repeat (-1)%Z (length (k_cells k) + length (k_bnd k))) = Ok (padded k r0) /\
  ConvertCells h k r (repeat (-1)%Z (length (k_cells k) + length (k_bnd k))) = Ok (padded k r1) /\ round k r0 r1.
Proof.
  intros o r Ho F. assert (Hr := below_row o r Ho F). destruct (forall2_nth _ _ _ F) as [Flen Fnth].
  assert (No : o <> []). { intro. subst o. destruct A as [|a A']; [congruence|]. exact (rw_all _ _ _ Ho a (or_introl eq_refl)). }
  assert (Nr : r <> []). { intro. subst r. destruct o; [congruence|discriminate Flen]. }
  destruct (convert_level A o inA (ly_level _ _ _ _ Hl) flatA Ho No) as [r0 [E0 [R0 N0 [x0 [P0 X0]] Q0]]].
  destruct (convert_level B r inB upB flatB Hr Nr) as [r1 [E1 [R1 N1 [x1 [P1 X1]] Q1]]].
  exists r0, r1. split; [exact E0|]. split; [exact E1|]. fold ps in P0, P1.
  assert (In0 : forall x, In x r0 -> (exists c, x = ps c /\ In c A) \/ (exists j f c, x = bp j /\ nth_error (k_bnd k) j = Some f /\ touches k f c /\ In c A)).
  { intros x Hx. rewrite P0 in Hx. apply in_app_or in Hx. destruct Hx as [Hx|Hx].
    - left. apply in_map_iff in Hx. destruct Hx as [c [<- Hc]]. exists c. split; [reflexivity|exact (rw_in _ _ _ Ho c Hc)].
    - right. destruct (X0 x Hx) as [j [f [c [-> [Hj [Hf Hc]]]]]]. exists j, f, c. split; [reflexivity|]. split; [exact Hj|]. split; [apply Hf|exact Hc]. }
  assert (In1 : forall x, In x r1 -> (exists c, x = ps c /\ In c B) \/ (exists j f c, x = bp j /\ nth_error (k_bnd k) j = Some f /\ touches k f c /\ In c B)).
  { intros x Hx. rewrite P1 in Hx. apply in_app_or in Hx. destruct Hx as [Hx|Hx].
    - left. apply in_map_iff in Hx. destruct Hx as [c [<- Hc]]. exists c. split; [reflexivity|exact (rw_in _ _ _ Hr c Hc)].
    - right. destruct (X1 x Hx) as [j [f [c [-> [Hj [Hf Hc]]]]]]. exists j, f, c. split; [reflexivity|]. split; [exact Hj|]. split; [apply Hf|exact Hc]. }
  assert (Rng : forall x L, incl L (k_cells k) -> (exists c, x = ps c /\ In c L) \/ (exists j f c, x = bp j /\ nth_error (k_bnd k) j = Some f /\ touches k f c /\ In c L) ->
     (0 <= x < Z.of_nat (length (k_cells k) + length (k_bnd k)))%Z).
  { intros x L HL [[c [-> Hc]]|[j [f [c [-> [Hj _]]]]]].
    - assert (X := ps_cell k Hk c (HL c Hc)). unfold is_cell, ps, TraversalProofs.ps in *. lia.
    - apply nth_lt in Hj. unfold bp, TraversalProofs.bp. lia. }
  assert (At0 : forall i x, nth_error r0 i = Some x -> is_cell k x -> exists c, nth_error o i = Some c /\ x = ps c).
  { intros i x Hx Hc. destruct (lt_dec i (length o)) as [H|H].
    - rewrite P0, nth_error_app1 in Hx by (rewrite map_length; exact H). exact (nth_map_ps k o i x Hx).
    - exfalso. rewrite P0, nth_error_app2 in Hx by (rewrite map_length; lia).
      destruct (X0 x (nth_error_In _ _ Hx)) as [j [f [d [-> _]]]]. exact (bp_not k j Hc). }
  assert (At1 : forall i x, nth_error r1 i = Some x -> is_cell k x -> exists c, nth_error r i = Some c /\ x = ps c).
  { intros i x Hx Hc. destruct (lt_dec i (length r)) as [H|H].
    - rewrite P1, nth_error_app1 in Hx by (rewrite map_length; exact H). exact (nth_map_ps k r i x Hx).
    - exfalso. rewrite P1, nth_error_app2 in Hx by (rewrite map_length; lia).
      destruct (X1 x (nth_error_In _ _ Hx)) as [j [f [d [-> _]]]]. exact (bp_not k j Hc). }
  assert (Len0 : length o <= length r0) by (rewrite P0, app_length, map_length; lia).
  assert (Len1 : length r <= length r1) by (rewrite P1, app_length, map_length; lia).
  assert (Cell0 : forall i x, i < length o -> nth_error r0 i = Some x -> exists c, nth_error o i = Some c /\ x = ps c).
  { intros i x H Hx. rewrite P0, nth_error_app1 in Hx by (rewrite map_length; exact H). exact (nth_map_ps k o i x Hx). }
  assert (Cell1 : forall i x, i < length r -> nth_error r1 i = Some x -> exists c, nth_error r i = Some c /\ x = ps c).
  { intros i x H Hx. rewrite P1, nth_error_app1 in Hx by (rewrite map_length; exact H). exact (nth_map_ps k r i x Hx). }
  constructor.
  - apply nodup_app; [exact N0|exact N1|]. intros x Hx Hy.
    destruct (In0 x Hx) as [[c [-> Hc]]|[j [f [c [-> [Hj [Tf Hc]]]]]]];
      destruct (In1 _ Hy) as [[d [E Hd]]|[j' [f' [d [E [Hj' [Tf' Hd]]]]]]].
    + apply (ps_inj k Hk) in E; [|exact (inA c Hc)|exact (inB d Hd)]. subst d. exact (disj c Hc Hd).
    + exact (ps_bp k Hk c j' (inA c Hc) E).
    + exact (ps_bp k Hk d j (inB d Hd) (eq_sym E)).
    + apply bp_inj in E. subst j'. assert (f' = f) by congruence. subst f'.
      destruct (bnd_face k Hk f (nth_error_In _ _ Hj)) as [F1 F2].
      assert (c = d) by exact (touch_one k Hk f c d F1 F2 Tf Tf'). subst d. exact (disj c Hc Hd).
  - intros x Hx. apply in_app_or in Hx. destruct Hx as [Hx|Hx]; [exact (Rng x A inA (In0 x Hx))|exact (Rng x B inB (In1 x Hx))].
  - intros a Ha. destruct (nth_error (k_cells k) a) as [c|] eqn:Ec; [|apply nth_error_None in Ec; lia].
    assert (Cc := nth_error_In _ _ Ec).
    assert (Ep : ps c = Z.of_nat a).
    { unfold ps, TraversalProofs.ps. f_equal. exact (nodup_nth _ _ _ c (cf_cells k Hk) (proj2 (posn_spec k Hk c Cc)) Ec). }
    rewrite <- Ep. apply in_or_app. destruct (inAB c Cc) as [H|H].
    + left. rewrite P0. apply in_or_app. left. apply in_map. exact (rw_all _ _ _ Ho c H).
    + right. rewrite P1. apply in_or_app. left. apply in_map. exact (rw_all _ _ _ Hr c H).
  - exact R0.
  - exact R1.
  - intros i x y Hx Hy Hc.
    assert (Hi : i < length o).
    { destruct Hc as [Hc|Hc]; [destruct (At0 i x Hx Hc) as [c [H _]]; exact (nth_lt _ _ _ H)|
        destruct (At1 i y Hy Hc) as [c [H _]]; rewrite Flen; exact (nth_lt _ _ _ H)]. }
    destruct (Cell0 i x Hi Hx) as [c [Hc1 ->]]. destruct (Cell1 i y ltac:(lia) Hy) as [d [Hd1 ->]].
    destruct (Fnth i c d Hc1 Hd1) as [Hd M]. assert (Ic : In c A) by (apply (rw_in _ _ _ Ho); eapply nth_error_In; exact Hc1).
    apply (joined_cells k Hk c d (inA c Ic) (inB d Hd)); [|exact M]. intro. subst d. exact (disj c Ic Hd).
  - intros i x Hx Hc. destruct (At0 i x Hx Hc) as [c [H _]]. apply nth_lt in H. lia.
  - intros i x Hx Hc. destruct (At1 i x Hx Hc) as [c [H _]]. apply nth_lt in H. lia.
Qed.
End both.

(** ** The whole traversal *)
Lemma row_small : forall L, NoDup L -> length L <= 1 -> row k L L.
Proof.
  intros L N H. constructor; [exact N|apply incl_refl|apply incl_refl|].
  intros i c d Hc Hd. apply nth_lt in Hc, Hd. lia.
Qed.
Definition ordered (ab : list nat * list nat) : Prop :=
  row k A (fst ab) /\ row k B (snd ab) /\ (A <> [] -> B <> [] -> Forall2 over (fst ab) (snd ab)).

Lemma arrangement : forall ab,
  (if (1 <? length A) || (1 <? length B) then RearrangeCellsInAntiClockwiseDir h k A B else Ok (A, B)) = Ok ab -> ordered ab.
Proof.
  intros ab H. destruct (list_eq_dec Nat.eq_dec A []) as [EA|EA]; destruct (list_eq_dec Nat.eq_dec B []) as [EB|EB];
    destruct ((1 <? length A) || (1 <? length B))%bool eqn:E.
  - exfalso. rewrite EA, EB in E. discriminate E.
  - injection H as <-. split; [exact (row_small A ndA ltac:(rewrite EA; simpl; lia))|].
    split; [exact (row_small B ndB ltac:(rewrite EB; simpl; lia))|]. intro. contradiction.
  - unfold RearrangeCellsInAntiClockwiseDir in H. destruct (negb (in_mesh h A && in_mesh h B)); [discriminate H|]. cbv zeta in H. fold nb in H.
    rewrite (m_nil A) in H by exact EA.
    destruct (ArrangeCellsInCircularOrder nb B) as [o| |] eqn:E1; cbn [bind] in H; try discriminate H.
    destruct (ArrangeCellsInAntiClockwiseDirection h k o) as [o'| |] eqn:E2; cbn [bind] in H; try discriminate H.
    rewrite (m_nil A) in H by exact EA. injection H as <-. split; [|split].
    + cbn [fst]. rewrite <- EA. exact (row_small A ndA ltac:(rewrite EA; simpl; lia)).
    + exact (arranged B ndB inB o o' E1 E2).
    + intro. contradiction.
  - injection H as <-. apply orb_false_iff in E. rewrite !Nat.ltb_ge in E. destruct E as [LA LB].
    split; [exact (row_small A ndA LA)|]. split; [exact (row_small B ndB LB)|]. intro. contradiction.
  - unfold RearrangeCellsInAntiClockwiseDir in H. destruct (negb (in_mesh h A && in_mesh h B)); [discriminate H|]. cbv zeta in H. fold nb in H.
    rewrite (m_cons A) in H by exact EA.
    destruct (ArrangeCellsInCircularOrder nb A) as [o| |] eqn:E1; cbn [bind] in H; try discriminate H.
    destruct (ArrangeCellsInAntiClockwiseDirection h k o) as [o'| |] eqn:E2; cbn [bind] in H; try discriminate H.
    rewrite (m_cons A) in H by exact EA. rewrite (m_nil B) in H by exact EB. injection H as <-. split; [|split].
    + exact (arranged A ndA inA o o' E1 E2).
    + cbn [snd]. rewrite <- EB. exact (row_small B ndB ltac:(rewrite EB; simpl; lia)).
    + intros _ X. contradiction.
  - injection H as <-. apply orb_false_iff in E. rewrite !Nat.ltb_ge in E. destruct E as [LA LB].
    split; [exact (row_small A ndA LA)|]. split; [exact (row_small B ndB LB)|]. intros _ X. contradiction.
  - unfold RearrangeCellsInAntiClockwiseDir in H. destruct (negb (in_mesh h A && in_mesh h B)); [discriminate H|]. cbv zeta in H. fold nb in H.
    rewrite (m_cons A) in H by exact EA.
    destruct (ArrangeCellsInCircularOrder nb A) as [o| |] eqn:E1; cbn [bind] in H; try discriminate H.
    destruct (ArrangeCellsInAntiClockwiseDirection h k o) as [o'| |] eqn:E2; cbn [bind] in H; try discriminate H.
    rewrite (m_cons A) in H by exact EA. rewrite (m_cons B) in H by exact EB.
    assert (Ho := arranged A ndA inA o o' E1 E2).
    destruct (as_neighbours EA EB o' Ho) as [r [Er F]].
    rewrite Er in H. cbn [bind] in H. injection H as <-. split; [exact Ho|]. split; [|intros _ _; exact F].
    exact (below_row EA EB o' r Ho F).
  - injection H as <-. apply orb_false_iff in E. rewrite !Nat.ltb_ge in E. destruct E as [LA LB].
    split; [exact (row_small A ndA LA)|]. split; [exact (row_small B ndB LB)|]. cbn [fst snd]. intros _ _.
    destruct (exist2 over A (below EA EB)) as [m Hm].
    assert (m = B); [|subst; exact Hm].
    destruct (forall2_nth _ _ _ Hm) as [Fl _].
    assert (Hi : forall y, In y m -> In y B) by (intros y Hy; destruct (forall2_in _ _ _ y Hm Hy) as [x [_ [X _]]]; exact X).
    destruct A as [|a [|? ?]]; [congruence| |simpl in LA; lia]. destruct B as [|b [|? ?]]; [congruence| |simpl in LB; lia].
    destruct m as [|x [|? ?]]; try discriminate Fl. destruct (Hi x (or_introl eq_refl)) as [->|[]]. reflexivity.
Qed.

Lemma in_mesh_ok : forall l, incl l (k_cells k) -> in_mesh h l = true.
Proof. intros l H. apply forallb_forall. intros c Hc. apply Nat.ltb_lt. exact (proj1 (ly_known _ _ _ _ Hl c (H c Hc))). Qed.
Lemma arrangement_found : in_a_row k A -> in_a_row k B -> exists ab,
  (if (1 <? length A) || (1 <? length B) then RearrangeCellsInAntiClockwiseDir h k A B else Ok (A, B)) = Ok ab.
Proof.
  intros RA RB. destruct ((1 <? length A) || (1 <? length B))%bool eqn:E; [|eexists; reflexivity].
  apply orb_true_iff in E. rewrite !Nat.ltb_lt in E.
  unfold RearrangeCellsInAntiClockwiseDir. rewrite (in_mesh_ok A inA), (in_mesh_ok B inB). cbn [andb negb]. cbv zeta. fold nb.
  destruct (list_eq_dec Nat.eq_dec A []) as [EA|EA].
  - rewrite (m_nil A) by exact EA. rewrite EA in E. simpl in E.
    destruct (arranges B ndB inB flatB ltac:(lia) RB) as [o [o' [E1 E2]]]. rewrite E1. cbn [bind]. rewrite E2. cbn [bind].
    rewrite (m_nil A) by exact EA. eexists. reflexivity.
  - rewrite (m_cons A) by exact EA.
    assert (LA : 1 < length A).
    { destruct (list_eq_dec Nat.eq_dec B []) as [EB|EB]; [rewrite EB in E; simpl in E; lia|]. rewrite <- (same_number EA EB) in E. lia. }
    destruct (arranges A ndA inA flatA LA RA) as [o [o' [E1 E2]]]. rewrite E1. cbn [bind]. rewrite E2. cbn [bind].
    rewrite (m_cons A) by exact EA.
    destruct (list_eq_dec Nat.eq_dec B []) as [EB|EB]; [rewrite (m_nil B) by exact EB; eexists; reflexivity|].
    rewrite (m_cons B) by exact EB.
    destruct (as_neighbours EA EB o' (arranged A ndA inA o o' E1 E2)) as [r [Er _]]. rewrite Er. eexists. reflexivity.
Qed.

Lemma traversed : forall ab, 1 < length (k_cells k) ->
  (if (1 <? length A) || (1 <? length B) then RearrangeCellsInAntiClockwiseDir h k A B else Ok (A, B)) = Ok ab ->
  exists r0 r1, Traversal h k A B = Ok (padded k r0, padded k r1) /\ round k r0 r1.
Proof.
  intros ab Hn E. destruct (arrangement ab E) as [HA [HB F]]. unfold Traversal. rewrite E. cbn [bind]. destruct ab as [a b]. cbn [fst snd] in *.
  assert (Pa := row_perm A ndA a HA). assert (Pb := row_perm B ndB b HB).
  assert (Na := perm_nil _ _ Pa).
  assert (Nb := perm_nil _ _ Pb).
  assert (Hlen := Permutation_length (ly_cells _ _ _ _ Hl)). rewrite app_length in Hlen.
  destruct (list_eq_dec Nat.eq_dec A []) as [EA|EA]; destruct (list_eq_dec Nat.eq_dec B []) as [EB|EB].
  - exfalso. rewrite EA, EB in Hlen. simpl in Hlen. lia.
  - rewrite EA in Hlen. simpl in Hlen.
    destruct (single_level B inB upB flatB ltac:(intros c Hc; destruct (inAB c Hc) as [X|X]; [rewrite EA in X; destruct X|exact X]) b HB
      ltac:(rewrite (Permutation_length Pb); lia)) as [r [fl [E1 [E2 R]]]].
    rewrite E1. apply Na in EA. subst a. cbn [ConvertCells bind]. rewrite E2. cbn [bind].
    exists fl, r. split; [reflexivity|exact (round_swap k r fl R)].
  - rewrite EB in Hlen. simpl in Hlen.
    destruct (single_level A inA (ly_level _ _ _ _ Hl) flatA ltac:(intros c Hc; destruct (inAB c Hc) as [X|X]; [exact X|rewrite EB in X; destruct X]) a HA
      ltac:(rewrite (Permutation_length Pa); lia)) as [r [fl [E1 [E2 R]]]].
    rewrite E1. apply Nb in EB. subst b. cbn [ConvertCells bind].
    rewrite (m_cons a) by (intro X; apply Na in X; contradiction). rewrite E2. cbn [bind].
    exists r, fl. split; [reflexivity|exact R].
  - destruct (two_levels EA EB a b HA (F EA EB)) as [r0 [r1 [E1 [E2 R]]]]. rewrite E1. cbn [bind]. rewrite E2. cbn [bind].
    rewrite (m_cons a) by (intro X; apply Na in X; contradiction). rewrite (m_cons b) by (intro X; apply Nb in X; contradiction).
    exists r0, r1. split; [reflexivity|exact R].
Qed.
End mesh.

Theorem order_proof : forall h k A B t0 t1, conforming k -> layered h k A B -> 1 < length (k_cells k) ->
  Traversal h k A B = Ok (t0, t1) -> exists r0 r1, t0 = padded k r0 /\ t1 = padded k r1 /\ round k r0 r1.
Proof.
  intros h k A B t0 t1 Hk Hl Hn E.
  destruct (if (1 <? length A) || (1 <? length B) then RearrangeCellsInAntiClockwiseDir h k A B else Ok (A, B)) as [ab| |] eqn:Ea;
    [|unfold Traversal in E; rewrite Ea in E; discriminate E|unfold Traversal in E; rewrite Ea in E; discriminate E].
  destruct (traversed h k A B Hk Hl ab Hn Ea) as [r0 [r1 [E' R]]]. rewrite E' in E. injection E as <- <-. eauto.
Qed.
Theorem order_found_proof : forall h k A B, conforming k -> layered h k A B -> 1 < length (k_cells k) ->
  in_a_row k A -> in_a_row k B -> exists r0 r1, Traversal h k A B = Ok (padded k r0, padded k r1) /\ round k r0 r1.
Proof.
  intros h k A B Hk Hl Hn RA RB. destruct (arrangement_found h k A B Hk Hl RA RB) as [ab E].
  exact (traversed h k A B Hk Hl ab Hn E).
Qed.
Theorem determined_proof : forall h k A B cap, conforming k -> layered h k A B -> 1 < length (k_cells k) ->
  in_a_row k A -> in_a_row k B -> length (k_faces k) <= cap ->
  exists n, DetermineUpwindFaces cap h k A B = Ok n /\
    forall bno G, well_numbered (vertex_of k bno G n) /\ two_sided (vertex_of k bno G n).
Proof.
  intros h k A B cap Hk Hl Hn RA RB Hc. destruct (order_found_proof h k A B Hk Hl Hn RA RB) as [r0 [r1 [E R]]].
  destruct (connected_proof k r0 r1 cap Hk R ltac:(lia) Hc) as [ups [E1 C]].
  destruct (numbered_proof k ups Hk C) as [n [E2 H]]. exists n. split.
  - unfold DetermineUpwindFaces, NumberVertex. rewrite E. cbn [bind fst snd]. rewrite E1. exact E2.
  - intros bno G. destruct (H bno G) as [W [T _]]. split; assumption.
Qed.
