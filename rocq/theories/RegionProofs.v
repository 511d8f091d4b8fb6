From Coq Require Import Reals Bool List ZArith Lia Lra.
From Verif Require Import Prelude Arrays Region SpecRegion.
Import ListNotations.
Local Open Scope Z_scope.

Lemma rd_valid : forall ids n lk c, valid_cell ids c ->
  exists x, read_id {| num_cells := n; cell_ids := Some ids; leaked := lk |} c = Ok x /\ nth_error ids (Z.to_nat c) = Some x.
Proof.
  intros ids n lk c [H1 H2]. unfold read_id. simpl. replace (c <? 0) with false by (symmetry; apply Z.ltb_ge; lia).
  apply rd_ok. lia.
Qed.

Lemma same_region_proof : forall r ids c1 c2, valid_cell ids c1 -> valid_cell ids c2 ->
  exists v, AreCellsInTheSameRegion (RegionAddCells ids r) c1 c2 = Ok v /\ (is_false v = false <-> same_region ids c1 c2).
Proof.
  intros r ids c1 c2 H1 H2. unfold AreCellsInTheSameRegion, RegionAddCells. cbn [num_cells].
  replace (Z.of_nat (length ids) <=? c1) with false by (symmetry; apply Z.leb_gt; apply H1).
  replace (Z.of_nat (length ids) <=? c2) with false by (symmetry; apply Z.leb_gt; apply H2). cbn [orb].
  destruct (rd_valid ids (Z.of_nat (length ids)) (match cell_ids r with Some _ => S (leaked r) | None => leaked r end) c1 H1) as [a [Ea Na]].
  destruct (rd_valid ids (Z.of_nat (length ids)) (match cell_ids r with Some _ => S (leaked r) | None => leaked r end) c2 H2) as [b [Eb Nb]].
  rewrite Ea, Eb. simpl. eexists. split; [reflexivity|]. unfold same_region. rewrite Na, Nb.
  destruct (Z.eqb_spec a b) as [->|Hn]; cbn.
  - split; reflexivity.
  - split; [discriminate|]. intro H. injection H as H. contradiction.
Qed.

Lemma beyond_proof : forall r ids c1 c2, Z.of_nat (length ids) <= c1 \/ Z.of_nat (length ids) <= c2 ->
  AreCellsInTheSameRegion (RegionAddCells ids r) c1 c2 = Ok 83.
Proof.
  intros r ids c1 c2 H. unfold AreCellsInTheSameRegion, RegionAddCells. cbn [num_cells].
  destruct (Z.leb_spec (Z.of_nat (length ids)) c1), (Z.leb_spec (Z.of_nat (length ids)) c2); try reflexivity. lia.
Qed.

Lemma last_addition_proof : forall (l : list (list Z)) r ids, cell_ids (fold_left (fun r ids => RegionAddCells ids r) (l ++ [ids]) r) = Some ids
  /\ num_cells (fold_left (fun r ids => RegionAddCells ids r) (l ++ [ids]) r) = Z.of_nat (length ids).
Proof. intros l r ids. rewrite fold_left_app. simpl. split; reflexivity. Qed.

(** Closing of faces. *)
Definition zero_like (row : list R) : list R := map (fun _ => 0%R) row.

Lemma zero4 : forall (iface : nat) T, (iface * 4 + 4 <= length T)%nat ->
  exists T', for_ 4 (fun isub T => zero_row T (iface * 4 + isub)) T = Ok T' /\ length T' = length T
    /\ forall k, nth_error T' k = if ((iface * 4 <=? k) && (k <? iface * 4 + 4))%nat then option_map zero_like (nth_error T k) else nth_error T k.
Proof.
  intros iface T HT.
  destruct (for_inv (fun m g => length g = length T
    /\ forall k, nth_error g k = if ((iface * 4 <=? k) && (k <? iface * 4 + m))%nat then option_map zero_like (nth_error T k) else nth_error T k)
    (fun isub T => zero_row T (iface * 4 + isub)) 4%nat T) as [T' [E [A B]]].
  - split; [reflexivity|]. intro k. destruct (Nat.leb_spec (iface * 4) k), (Nat.ltb_spec k (iface * 4 + 0)); try reflexivity. lia.
  - intros i g Hi [A B]. unfold zero_row.
    destruct (rd_ok g (iface * 4 + i)) as [row [E N]]; [lia|]. rewrite E. simpl. rewrite wr_ok by lia.
    eexists. split; [reflexivity|]. split; [rewrite length_upd; exact A|]. intro k.
    destruct (Nat.eq_dec (iface * 4 + i) k) as [<-|Ne].
    + rewrite nth_upd_same by lia. rewrite B in N.
      destruct (Nat.leb_spec (iface * 4) (iface * 4 + i)); [|lia].
      destruct (Nat.ltb_spec (iface * 4 + i) (iface * 4 + i)); [lia|].
      destruct (Nat.ltb_spec (iface * 4 + i) (iface * 4 + S i)); [|lia]. simpl in *. rewrite N. reflexivity.
    + rewrite nth_upd_other by exact Ne. rewrite B. f_equal.
      destruct (Nat.leb_spec (iface * 4) k), (Nat.ltb_spec k (iface * 4 + i)), (Nat.ltb_spec k (iface * 4 + S i)); try reflexivity; lia.
  - exists T'. split; [exact E|]. split; [exact A|exact B].
Qed.

Lemma separated_dec : forall ids f, {separated ids f} + {~ separated ids f}.
Proof.
  intros ids [u d]. unfold separated, same_region; simpl.
  destruct (Z_le_dec 0 u), (Z_le_dec 0 d); try (right; tauto).
  assert (D : {nth_error ids (Z.to_nat u) = nth_error ids (Z.to_nat d)} + {nth_error ids (Z.to_nat u) <> nth_error ids (Z.to_nat d)})
    by (decide equality; apply Z.eq_dec).
  destruct D; [right; tauto|left; tauto].
Qed.

Lemma update_proof : forall r ids faces iface T, length T = ((iface + length faces) * 4)%nat ->
  (forall u d, In (u, d) faces -> 0 <= u -> 0 <= d -> valid_cell ids u /\ valid_cell ids d) ->
  exists T', update_faces (RegionAddCells ids r) iface faces T = Ok T' /\ length T' = length T
    /\ (forall k, (k < iface * 4)%nat -> nth_error T' k = nth_error T k)
    /\ (forall i f s, nth_error faces i = Some f -> (s < 4)%nat ->
        (separated ids f -> nth_error T' ((iface + i) * 4 + s) = option_map zero_like (nth_error T ((iface + i) * 4 + s)))
        /\ (~ separated ids f -> nth_error T' ((iface + i) * 4 + s) = nth_error T ((iface + i) * 4 + s))).
Proof.
  intros r ids faces; induction faces as [|[u d] faces IH]; intros iface T HT Hv; simpl.
  - exists T. split; [reflexivity|]. split; [reflexivity|]. split; [reflexivity|]. intros i f s H. destruct i; discriminate H.
  - assert (S1 : exists T1, (if (0 <=? u) && (0 <=? d) then
               do same <- AreCellsInTheSameRegion (RegionAddCells ids r) u d;
               if is_false same then for_ 4 (fun isub T => zero_row T (iface * 4 + isub)) T else Ok T
             else Ok T) = Ok T1 /\ length T1 = length T
        /\ (forall k, (k < iface * 4 \/ iface * 4 + 4 <= k)%nat -> nth_error T1 k = nth_error T k)
        /\ (forall s, (s < 4)%nat ->
            (separated ids (u, d) -> nth_error T1 (iface * 4 + s) = option_map zero_like (nth_error T (iface * 4 + s)))
            /\ (~ separated ids (u, d) -> nth_error T1 (iface * 4 + s) = nth_error T (iface * 4 + s)))).
    { destruct (Z.leb_spec 0 u) as [Hu|Hu]; [destruct (Z.leb_spec 0 d) as [Hd|Hd]|]; cbn [andb].
      - destruct (Hv u d (or_introl eq_refl) Hu Hd) as [V1 V2].
        destruct (same_region_proof r ids u d V1 V2) as [v [E Iff]]. rewrite E. simpl.
        destruct (is_false v) eqn:Ev.
        + destruct (zero4 iface T) as [T1 [E1 [L1 N1]]]; [simpl in HT; lia|].
          exists T1. split; [exact E1|]. split; [exact L1|]. split.
          * intros k Hk. rewrite N1. destruct (Nat.leb_spec (iface * 4) k), (Nat.ltb_spec k (iface * 4 + 4)); try reflexivity; lia.
          * intros s Hs. split.
            -- intros _. rewrite N1. destruct (Nat.leb_spec (iface * 4) (iface * 4 + s)), (Nat.ltb_spec (iface * 4 + s) (iface * 4 + 4)); try reflexivity; lia.
            -- intro Hn. exfalso. apply Hn. split; [exact Hu|]. split; [exact Hd|]. simpl. intro Hs'.
               apply Iff in Hs'. discriminate.
        + exists T. split; [reflexivity|]. split; [reflexivity|]. split; [reflexivity|]. intros s Hs. split; [|reflexivity].
          intros [_ [_ Hn]]. exfalso. apply Hn. apply Iff. reflexivity.
      - exists T. split; [reflexivity|]. split; [reflexivity|]. split; [reflexivity|]. intros s Hs. split; [|reflexivity].
        intros [_ [Hn _]]. simpl in Hn. lia.
      - exists T. split; [reflexivity|]. split; [reflexivity|]. split; [reflexivity|]. intros s Hs. split; [|reflexivity].
        intros [Hn _]. simpl in Hn. lia. }
    destruct S1 as [T1 [E1 [L1 [O1 Z1]]]]. rewrite E1. cbn [bind].
    destruct (IH (S iface) T1) as [T2 [E2 [L2 [O2 Z2]]]].
    + rewrite L1, HT. simpl. lia.
    + intros u' d' Hi. apply Hv. right. exact Hi.
    + exists T2. split; [exact E2|]. split; [congruence|]. split.
      * intros k Hk. rewrite O2 by lia. apply O1. lia.
      * intros [|i] f s Hf Hs; simpl in Hf.
        -- injection Hf as <-. rewrite Nat.add_0_r, O2 by lia. apply Z1. exact Hs.
        -- destruct (Z2 i f s Hf Hs) as [A B].
           replace ((S iface + i) * 4 + s)%nat with ((iface + S i) * 4 + s)%nat in A, B by lia.
           rewrite O1 in A, B by lia. split; assumption.
Qed.

Lemma row_times_zero : forall row p, row_times (zero_like row) p = 0%R.
Proof.
  induction row as [|a row IH]; intros [|x p]; try reflexivity. simpl. rewrite IH. lra.
Qed.
