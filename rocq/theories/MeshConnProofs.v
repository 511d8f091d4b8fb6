(** Proofs about the connectivity of the mesh. *)
From Coq Require Import List ZArith Bool Arith Lia FinFun.
From Verif Require Import Prelude Arrays Mesh SpecMesh MeshProofs.
Import ListNotations.
Local Open Scope nat_scope.

(** ** Occurrences *)

Lemma occurrences_snoc : forall x l k y, occurrences x k (l ++ [y]) = occurrences x k l ++ (if Z.eqb y x then [k + length l] else []).
Proof.
  intros x l; induction l as [|a l IH]; intros k y; simpl; [rewrite Nat.add_0_r, app_nil_r; reflexivity|].
  rewrite IH, <- app_assoc. do 2 f_equal. destruct (Z.eqb y x); [|reflexivity]. f_equal. lia.
Qed.
Lemma around_app : forall x L M c, around x c (L ++ M) = around x c L ++ around x (c + length L) M.
Proof.
  intros x L; induction L as [|l L IH]; intros M c; simpl; [rewrite Nat.add_0_r; reflexivity|].
  rewrite IH, <- app_assoc. do 2 f_equal. f_equal. lia.
Qed.
Lemma around_snoc_nil : forall x L c, around x c (L ++ [[]]) = around x c L.
Proof. intros. rewrite around_app. simpl. apply app_nil_r. Qed.
Lemma around_snoc : forall x L l y c,
  around x c (L ++ [l ++ [y]]) = around x c (L ++ [l]) ++ (if Z.eqb y x then [(c + length L, length l)] else []).
Proof.
  intros x L l y c. rewrite !around_app. simpl. rewrite !app_nil_r, occurrences_snoc, map_app, app_assoc. f_equal.
  simpl. destruct (Z.eqb y x); reflexivity.
Qed.
Lemma in_occurrences : forall x l k i, In i (occurrences x k l) <-> k <= i /\ nth_error l (i - k) = Some x.
Proof.
  intros x l; induction l as [|a l IH]; intros k i; simpl.
  - split; [tauto|]. intros [_ H]. destruct (i - k); discriminate.
  - rewrite in_app_iff, IH. split.
    + intros [H|[H1 H2]].
      * destruct (Z.eqb_spec a x) as [->|]; [|destruct H]. destruct H as [<-|[]]. rewrite Nat.sub_diag. auto.
      * split; [lia|]. replace (i - k) with (S (i - S k)) by lia. exact H2.
    + intros [H1 H2]. destruct (Nat.eq_dec i k) as [->|Hne].
      * rewrite Nat.sub_diag in H2. simpl in H2. inversion H2; subst a. rewrite Z.eqb_refl. left. left. reflexivity.
      * right. split; [lia|]. replace (i - k) with (S (i - S k)) in H2 by lia. exact H2.
Qed.
Lemma in_around : forall x L c i k, In (i, k) (around x c L) <->
  c <= i /\ exists l, nth_error L (i - c) = Some l /\ nth_error l k = Some x.
Proof.
  intros x L; induction L as [|l L IH]; intros c i k; simpl.
  - split; [tauto|]. intros [_ [l [H _]]]. destruct (i - c); discriminate.
  - rewrite in_app_iff, IH, in_map_iff. split.
    + intros [[k' [H1 H2]]|[H1 [l' [H2 H3]]]].
      * inversion H1; subst. rewrite in_occurrences in H2. rewrite Nat.sub_0_r in H2. split; [lia|]. exists l. rewrite Nat.sub_diag. simpl. tauto.
      * split; [lia|]. exists l'. replace (i - c) with (S (i - S c)) by lia. auto.
    + intros [H1 [l' [H2 H3]]]. destruct (Nat.eq_dec i c) as [->|Hne].
      * left. rewrite Nat.sub_diag in H2. simpl in H2. inversion H2; subst l'. exists k. split; [reflexivity|].
        rewrite in_occurrences, Nat.sub_0_r. split; [lia|exact H3].
      * right. split; [lia|]. exists l'. replace (i - c) with (S (i - S c)) in H2 by lia. auto.
Qed.
Lemma nodup_occurrences : forall x l k, NoDup (occurrences x k l).
Proof.
  intros x l; induction l as [|a l IH]; intro k; simpl; [constructor|].
  destruct (Z.eqb a x); [|apply IH]. simpl. constructor; [|apply IH]. rewrite in_occurrences. lia.
Qed.
Lemma nodup_around : forall x L c, NoDup (around x c L).
Proof.
  intros x L; induction L as [|l L IH]; intro c; simpl; [constructor|].
  assert (Hm : NoDup (map (pair c) (occurrences x 0 l))).
  { apply FinFun.Injective_map_NoDup; [intros a b H; inversion H; reflexivity|apply nodup_occurrences]. }
  assert (Hdis : forall p, In p (map (pair c) (occurrences x 0 l)) -> ~ In p (around x (S c) L)).
  { intros [i k] H1 H2. rewrite in_map_iff in H1. destruct H1 as [k' [H1 _]]. inversion H1; subst. rewrite in_around in H2. lia. }
  revert Hm Hdis. generalize (map (pair c) (occurrences x 0 l)) as P. induction P as [|p P IHP]; intros Hm Hdis; [apply IH|].
  simpl. inversion Hm as [|p' P' Hp HP]; subst. constructor.
  - rewrite in_app_iff. intros [H|H]; [exact (Hp H)|exact (Hdis p (or_introl eq_refl) H)].
  - apply IHP; [exact HP|]. intros q Hq. apply Hdis. right. exact Hq.
Qed.

(** ** Slots *)

(** The first m entries of row i are the numbers in l, then -1. *)
Definition holds (d m : nat) (ids : list Z) (i : nat) (l : list nat) : Prop :=
  forall j, j < m -> nth_error ids (i * d + j) = Some (nth j (map Z.of_nat l) (-1)%Z).

Lemma row_ok : forall n d i, i < n -> row n d (Z.of_nat i) = Ok (Z.of_nat (i * d)).
Proof.
  intros n d i H. unfold row. destruct (Z.leb_spec 0 (Z.of_nat i)); [|lia].
  destruct (Z.ltb_spec (Z.of_nat i) (Z.of_nat n)); [|lia]. simpl. f_equal. lia.
Qed.

Lemma holds_nil : forall n d m i, m <= d -> i < n -> holds d m (allocate (n * d)) i [].
Proof.
  intros n d m i Hm Hi j Hj. assert ((i + 1) * d <= n * d) by (apply Nat.mul_le_mono_r; lia).
  unfold allocate. rewrite nth_error_repeat by lia. destruct j; reflexivity.
Qed.

Lemma free_slot_ok : forall free d m ids i l, free (-1)%Z = true -> (forall c, free (Z.of_nat c) = false) ->
  holds d m ids i l ->
  free_slot free ids (Z.of_nat (i * d)) 0 m = Ok (if length l <? m then Some (length l) else None).
Proof.
  intros free d m ids i l Hf Hc H.
  assert (G : forall k j, j + k = m -> j <= length l -> free_slot free ids (Z.of_nat (i * d)) j k = Ok (if length l <? m then Some (length l) else None)).
  { induction k as [|k IH]; intros j Hj Hle; simpl.
    - destruct (Nat.ltb_spec (length l) m); [lia|reflexivity].
    - rewrite rdz_sum, (rd_some _ _ _ (H j ltac:(lia))). cbn [bind].
      destruct (Nat.eq_dec j (length l)) as [->|Hne].
      + rewrite nth_overflow by (rewrite map_length; lia). rewrite Hf.
        destruct (Nat.ltb_spec (length l) m); [reflexivity|lia].
      + replace (-1)%Z with (-1)%Z by reflexivity.
        destruct (nth_error l j) as [c|] eqn:Ec; [|apply nth_error_None in Ec; lia].
        rewrite (nth_error_nth (map Z.of_nat l) j (-1)%Z (x := Z.of_nat c)) by (rewrite nth_error_map, Ec; reflexivity).
        rewrite Hc. apply IH; lia. }
  apply G; lia.
Qed.

Lemma row_apart : forall d i i' j j', i <> i' -> j < d -> j' < d -> i * d + j <> i' * d + j'.
Proof.
  intros d i i' j j' Hne Hj Hj' H. destruct (Nat.lt_ge_cases i i') as [Hlt|Hge].
  - assert ((i + 1) * d <= i' * d) by (apply Nat.mul_le_mono_r; lia). lia.
  - assert ((i' + 1) * d <= i * d) by (apply Nat.mul_le_mono_r; lia). lia.
Qed.
Lemma row_room : forall n d i j, i < n -> j < d -> i * d + j < n * d.
Proof. intros n d i j Hi Hj. assert ((i + 1) * d <= n * d) by (apply Nat.mul_le_mono_r; lia). lia. Qed.

Lemma holds_add : forall n d m ids i l c, length ids = n * d -> i < n -> m <= d -> length l < m ->
  holds d m ids i l -> holds d m (upd ids (i * d + length l) (Z.of_nat c)) i (l ++ [c]).
Proof.
  intros n d m ids i l c Hlen Hi Hm Hl H j Hj. destruct (Nat.eq_dec (length l) j) as [<-|Hne].
  - rewrite nth_upd_same by (rewrite Hlen; apply row_room; lia).
    rewrite map_app, app_nth2, map_length, Nat.sub_diag by (rewrite map_length; lia). reflexivity.
  - rewrite nth_upd_other by lia. rewrite (H j Hj). f_equal. rewrite map_app.
    destruct (Nat.lt_ge_cases j (length l)) as [Hlt|Hge].
    + rewrite app_nth1 by (rewrite map_length; exact Hlt). reflexivity.
    + rewrite (nth_overflow (map Z.of_nat l)) by (rewrite map_length; lia).
      rewrite nth_overflow; [reflexivity|]. rewrite app_length, !map_length. simpl. lia.
Qed.
Lemma holds_other : forall d m ids i i' l j v, m <= d -> i <> i' -> j < d ->
  holds d m ids i' l -> holds d m (upd ids (i * d + j) v) i' l.
Proof. intros d m ids i i' l j v Hm Hne Hj H k Hk. rewrite nth_upd_other; [exact (H k Hk)|]. apply row_apart; lia. Qed.
Lemma holds_full : forall d m ids i l c, m <= length l -> holds d m ids i l -> holds d m ids i (l ++ [c]).
Proof. intros d m ids i l c Hm H j Hj. rewrite (H j Hj), map_app, app_nth1; [reflexivity|]. rewrite map_length. lia. Qed.

(** ** Rows of the cells *)

Definition filled (d : nat) (ids : list Z) (L : list (list Z)) : Prop :=
  forall c l k x, nth_error L c = Some l -> nth_error l k = Some x -> nth_error ids (c * d + k) = Some x.

Lemma filled_add : forall n d ids L l x, length ids = n * d -> length L < n -> length l < d ->
  (forall c l, nth_error L c = Some l -> length l <= d) ->
  filled d ids (L ++ [l]) -> filled d (upd ids (length L * d + length l) x) (L ++ [l ++ [x]]).
Proof.
  intros n d ids L l x Hlen HL Hl Hd H c l' k y Hc Hk.
  destruct (Nat.lt_ge_cases c (length L)) as [Hlt|Hge].
  - rewrite nth_error_app1 in Hc by exact Hlt. specialize (Hd c l' Hc). pose proof (nth_lt _ _ _ Hk).
    rewrite nth_upd_other by (apply row_apart; lia). apply (H c l' k y); [|exact Hk]. rewrite nth_error_app1 by exact Hlt. exact Hc.
  - rewrite nth_error_app2 in Hc by exact Hge. assert (Hc0 : c - length L = 0).
    { destruct (c - length L) as [|[|m]]; [reflexivity|discriminate Hc|discriminate Hc]. }
    rewrite Hc0 in Hc. simpl in Hc. inversion Hc; subst l'. assert (c = length L) by lia. subst c.
    destruct (Nat.lt_ge_cases k (length l)) as [Hk1|Hk1].
    + rewrite nth_error_app1 in Hk by exact Hk1. rewrite nth_upd_other by lia.
      apply (H (length L) l k y); [|exact Hk]. rewrite nth_error_app2, Nat.sub_diag by lia. reflexivity.
    + rewrite nth_error_app2 in Hk by exact Hk1. destruct (k - length l) as [|[|m]] eqn:E; try discriminate Hk.
      simpl in Hk. inversion Hk; subst y. replace k with (length l) by lia. apply nth_upd_same. rewrite Hlen. apply row_room; lia.
Qed.
Lemma filled_snoc_nil : forall d ids L, filled d ids L -> filled d ids (L ++ [[]]).
Proof.
  intros d ids L H c l k x Hc Hk. destruct (Nat.lt_ge_cases c (length L)) as [Hlt|Hge].
  - rewrite nth_error_app1 in Hc by exact Hlt. exact (H c l k x Hc Hk).
  - rewrite nth_error_app2 in Hc by exact Hge. destruct (c - length L) as [|[|m]]; try discriminate Hc.
    simpl in Hc. inversion Hc; subst l. destruct k; discriminate Hk.
Qed.

(** ** Closures *)

Lemma members_snoc : forall a b ps p, members a b (ps ++ [p]) = members a b ps ++ (if within p a b then [(p - a)%Z] else []).
Proof.
  intros a b ps p. unfold members. rewrite filter_app, map_app. f_equal. simpl. unfold within.
  destruct (Z.leb a p && Z.ltb p b)%bool; reflexivity.
Qed.
Lemma members_firstn_le : forall a b ps i, length (members a b (firstn i ps)) <= length (members a b ps).
Proof.
  intros a b ps i. rewrite <- (firstn_skipn i ps) at 2. unfold members. rewrite filter_app, map_app, app_length. lia.
Qed.
Lemma within_nat : forall p a n, within p a (a + Z.of_nat n) = true -> exists i, i < n /\ (p - a)%Z = Z.of_nat i.
Proof.
  intros p a n H. unfold within in H. apply andb_prop in H. destruct H as [H1 H2].
  apply Z.leb_le in H1. apply Z.ltb_lt in H2. exists (Z.to_nat (p - a)). split; lia.
Qed.
Lemma around_prefix : forall x vs l l', length (around x 0 (vs ++ [l])) <= length (around x 0 (vs ++ [l ++ l'])).
Proof.
  intros x vs l l'. rewrite !around_app, !app_length. simpl. rewrite !app_nil_r, !map_length.
  assert (G : forall k, length (occurrences x k l) <= length (occurrences x k (l ++ l'))).
  { clear. induction l as [|a l IH]; intro k; simpl; [lia|]. rewrite !app_length. specialize (IH (S k)). lia. }
  specialize (G 0). lia.
Qed.
Lemma around_firstn_le : forall x vs i, length (around x 0 (firstn i vs)) <= length (around x 0 vs).
Proof. intros x vs i. rewrite <- (firstn_skipn i vs) at 2. rewrite around_app, app_length. lia. Qed.

Section Connect.
Variable z : sizes.

Definition at_vertex (vs : list (list Z)) (s : conn) (v : nat) : Prop :=
  let l := around (Z.of_nat v) 0 vs in
  length l <= d_vc z /\ length l <= d_vf z /\
  holds (d_vc z) (d_vc z) (v_cell s) v (map fst l) /\
  holds (d_vf z) (length l) (v_sub s) v (map snd l) /\
  nth_error (v_ncell s) v = Some (length l).
Definition at_edge (es : list (list Z)) (s : conn) (e : nat) : Prop :=
  holds (d_ec z) 2 (e_cell s) e (map fst (around (Z.of_nat e) 0 es)).
Definition at_face (fs : list (list Z)) (s : conn) (f : nat) : Prop :=
  let l := around (Z.of_nat f) 0 fs in
  holds (d_fc z) 2 (f_cell s) f (map fst l) /\ nth_error (f_ncell s) f = Some (Nat.min 2 (length l)).

Definition sized (s : conn) : Prop :=
  length (c_vert s) = n_cell z * d_cv z /\ length (c_edge s) = n_cell z * d_ce z /\ length (c_face s) = n_cell z * d_cf z /\
  length (v_ncell s) = n_vert z /\ length (v_cell s) = n_vert z * d_vc z /\ length (v_sub s) = n_vert z * d_vf z /\
  length (e_cell s) = n_edge z * d_ec z /\ length (f_cell s) = n_face z * d_fc z /\ length (f_ncell s) = n_face z.
Definition vpart (vs : list (list Z)) (s : conn) : Prop :=
  filled (d_cv z) (c_vert s) vs /\ forall v, v < n_vert z -> at_vertex vs s v.
Definition epart (es : list (list Z)) (s : conn) : Prop :=
  filled (d_ce z) (c_edge s) es /\ forall e, e < n_edge z -> at_edge es s e.
Definition fpart (fs : list (list Z)) (s : conn) : Prop :=
  filled (d_cf z) (c_face s) fs /\ forall f, f < n_face z -> at_face fs s f.
Definition inv (vs es fs : list (list Z)) (s : conn) : Prop := sized s /\ vpart vs s /\ epart es s /\ fpart fs s.

Definition short (d : nat) (L : list (list Z)) : Prop := forall c l, nth_error L c = Some l -> length l <= d.

Lemma visit_vertex_ok : forall vs l es fs s v, inv (vs ++ [l]) es fs s ->
  length vs < n_cell z -> length l < d_cv z -> short (d_cv z) vs -> v < n_vert z ->
  length (around (Z.of_nat v) 0 (vs ++ [l])) < d_vc z -> length (around (Z.of_nat v) 0 (vs ++ [l])) < d_vf z ->
  exists s', visit_vertex z (length vs) (Z.of_nat v) (length l) s = Ok s' /\ inv (vs ++ [l ++ [Z.of_nat v]]) es fs s'.
Proof.
  intros vs l es fs s v [Hs [[Hf Hv] [He Hfa]]] Hc Hl Hsh Hvn Hcap1 Hcap2.
  destruct Hs as [S1 [S2 [S3 [S4 [S5 [S6 [S7 [S8 S9]]]]]]]].
  unfold visit_vertex. rewrite row_ok by exact Hc. cbn [bind]. rewrite wrz_sum.
  rewrite wr_ok by (rewrite S1; apply row_room; lia). cbn [bind].
  rewrite !row_ok by exact Hvn. cbn [bind].
  destruct (Hv v Hvn) as [V1 [V2 [V3 [V4 V5]]]].
  set (L := around (Z.of_nat v) 0 (vs ++ [l])) in *.
  rewrite (free_slot_ok (Z.eqb (-1)) (d_vc z) (d_vc z) (v_cell s) v (map fst L)); [|reflexivity| |exact V3].
  2:{ intro c. destruct (Z.eqb_spec (-1) (Z.of_nat c)); [lia|reflexivity]. }
  rewrite map_length. cbn [bind]. destruct (Nat.ltb_spec (length L) (d_vc z)); [|lia].
  rewrite rdz_nat, (rd_some _ _ _ V5). cbn [bind].
  rewrite wrz_nat, wr_ok by lia. cbn [bind].
  rewrite wrz_sum, wr_ok by (rewrite S5; apply row_room; lia). cbn [bind].
  rewrite wrz_sum, wr_ok by (rewrite S6; apply row_room; lia). cbn [bind].
  eexists. split; [reflexivity|].
  split; [unfold sized; cbn; rewrite !length_upd; repeat split; assumption|].
  split; [|split; [exact He|exact Hfa]].
  split; [cbn; apply (filled_add (n_cell z)); assumption|].
  intros w Hw. unfold at_vertex. cbn [v_cell v_sub v_ncell]. rewrite around_snoc. fold L.
  destruct (Z.eqb_spec (Z.of_nat v) (Z.of_nat w)) as [Heq|Hne].
  - apply Nat2Z.inj in Heq. subst w. fold L. rewrite app_length. simpl length. rewrite !map_app. simpl map.
    split; [lia|]. split; [lia|]. split; [|split].
    + pose proof (holds_add (n_vert z) (d_vc z) (d_vc z) (v_cell s) v (map fst L) (length vs) S5 Hvn (le_n _)) as G.
      rewrite map_length in G. apply G; [exact Hcap1|exact V3].
    + intros j Hj. destruct (Nat.eq_dec (length L) j) as [<-|Hnj].
      * rewrite nth_upd_same by (rewrite S6; apply row_room; lia).
        rewrite map_app, app_nth2, !map_length, Nat.sub_diag by (rewrite !map_length; lia). reflexivity.
      * rewrite nth_upd_other by lia. rewrite (V4 j ltac:(lia)), map_app, app_nth1 by (rewrite !map_length; lia). reflexivity.
    + rewrite nth_upd_same by lia. f_equal. lia.
  - rewrite app_nil_r. assert (Hvw : v <> w) by congruence.
    destruct (Hv w Hw) as [W1 [W2 [W3 [W4 W5]]]]. split; [exact W1|]. split; [exact W2|]. split; [|split].
    + apply holds_other; [lia|exact Hvw|lia|exact W3].
    + apply holds_other; [exact W2|exact Hvw|lia|exact W4].
    + rewrite nth_upd_other by exact Hvw. exact W5.
Qed.

Lemma visit_edge_ok : forall vs es l fs s e, inv vs (es ++ [l]) fs s -> 2 <= d_ec z ->
  length es < n_cell z -> length l < d_ce z -> short (d_ce z) es -> e < n_edge z ->
  exists s', visit_edge z (length es) (Z.of_nat e) (length l) s = Ok s' /\ inv vs (es ++ [l ++ [Z.of_nat e]]) fs s'.
Proof.
  intros vs es l fs s e [Hs [Hvp [[Hf He] Hfa]]] Hd Hc Hl Hsh Hen.
  destruct Hs as [S1 [S2 [S3 [S4 [S5 [S6 [S7 [S8 S9]]]]]]]].
  unfold visit_edge. rewrite row_ok by exact Hc. cbn [bind]. rewrite wrz_sum.
  rewrite wr_ok by (rewrite S2; apply row_room; lia). cbn [bind].
  rewrite !row_ok by exact Hen. cbn [bind].
  set (L := around (Z.of_nat e) 0 (es ++ [l])) in *.
  pose proof (He e Hen) as E1. unfold at_edge in E1. fold L in E1.
  rewrite (free_slot_ok (Z.eqb (-1)) (d_ec z) 2 (e_cell s) e (map fst L)); [|reflexivity| |exact E1].
  2:{ intro c. destruct (Z.eqb_spec (-1) (Z.of_nat c)); [lia|reflexivity]. }
  rewrite map_length. cbn [bind].
  assert (G : exists ec, (match (if length L <? 2 then Some (length L) else None) with
       | Some j => wrz (e_cell s) (Z.of_nat (e * d_ec z) + Z.of_nat j) (Z.of_nat (length es)) | None => Ok (e_cell s) end) = Ok ec /\
     length ec = length (e_cell s) /\
     forall w, w < n_edge z -> holds (d_ec z) 2 ec w (map fst (around (Z.of_nat w) 0 (es ++ [l ++ [Z.of_nat e]])))).
  { assert (Hother : forall w, e <> w -> around (Z.of_nat w) 0 (es ++ [l ++ [Z.of_nat e]]) = around (Z.of_nat w) 0 (es ++ [l])).
    { intros w Hw. rewrite around_snoc. destruct (Z.eqb_spec (Z.of_nat e) (Z.of_nat w)); [lia|]. apply app_nil_r. }
    assert (Hsame : map fst (around (Z.of_nat e) 0 (es ++ [l ++ [Z.of_nat e]])) = map fst L ++ [length es]).
    { rewrite around_snoc, Z.eqb_refl, map_app. reflexivity. }
    destruct (Nat.ltb_spec (length L) 2) as [Hlt|Hge].
    - rewrite wrz_sum, wr_ok by (rewrite S7; apply row_room; lia). eexists. split; [reflexivity|]. split; [apply length_upd|].
      intros w Hw. destruct (Nat.eq_dec e w) as [<-|Hne].
      + rewrite Hsame. pose proof (holds_add (n_edge z) (d_ec z) 2 (e_cell s) e (map fst L) (length es) S7 Hen Hd) as G.
        rewrite map_length in G. apply G; assumption.
      + rewrite (Hother w Hne). apply holds_other; [exact Hd|exact Hne|lia|exact (He w Hw)].
    - exists (e_cell s). split; [reflexivity|]. split; [reflexivity|]. intros w Hw. destruct (Nat.eq_dec e w) as [<-|Hne].
      + rewrite Hsame. apply holds_full; [rewrite map_length; exact Hge|exact E1].
      + rewrite (Hother w Hne). exact (He w Hw). }
  destruct G as [ec [Ee [Hlen Hh]]]. rewrite Ee. cbn [bind]. eexists. split; [reflexivity|].
  split; [unfold sized; cbn; rewrite ?length_upd, Hlen; repeat split; assumption|].
  split; [exact Hvp|]. split; [|exact Hfa]. split; [cbn; apply (filled_add (n_cell z)); assumption|exact Hh].
Qed.

Lemma visit_face_ok : forall vs es fs l s f, inv vs es (fs ++ [l]) s -> 2 <= d_fc z ->
  length fs < n_cell z -> length l < d_cf z -> short (d_cf z) fs -> f < n_face z ->
  exists s', visit_face z (length fs) (Z.of_nat f) (length l) s = Ok s' /\ inv vs es (fs ++ [l ++ [Z.of_nat f]]) s'.
Proof.
  intros vs es fs l s f [Hs [Hvp [Hep [Hf He]]]] Hd Hc Hl Hsh Hen.
  destruct Hs as [S1 [S2 [S3 [S4 [S5 [S6 [S7 [S8 S9]]]]]]]].
  unfold visit_face. rewrite row_ok by exact Hc. cbn [bind]. rewrite row_ok by exact Hen. cbn [bind]. rewrite wrz_sum.
  rewrite wr_ok by (rewrite S3; apply row_room; lia). cbn [bind].
  set (L := around (Z.of_nat f) 0 (fs ++ [l])) in *.
  destruct (He f Hen) as [E1 E2]. fold L in E1, E2.
  rewrite (free_slot_ok (fun v => Z.ltb v 0) (d_fc z) 2 (f_cell s) f (map fst L)); [|reflexivity| |exact E1].
  2:{ intro c. destruct (Z.ltb_spec (Z.of_nat c) 0); [lia|reflexivity]. }
  rewrite map_length. cbn [bind].
  assert (G : exists fc fn, (match (if length L <? 2 then Some (length L) else None) with
       | Some j => do fc <- wrz (f_cell s) (Z.of_nat (f * d_fc z) + Z.of_nat j) (Z.of_nat (length fs));
                   do n <- rdz (f_ncell s) (Z.of_nat f); do fn <- wrz (f_ncell s) (Z.of_nat f) (S n); Ok (fc, fn)
       | None => Ok (f_cell s, f_ncell s) end) = Ok (fc, fn) /\
     length fc = length (f_cell s) /\ length fn = length (f_ncell s) /\
     forall w, w < n_face z -> holds (d_fc z) 2 fc w (map fst (around (Z.of_nat w) 0 (fs ++ [l ++ [Z.of_nat f]]))) /\
       nth_error fn w = Some (Nat.min 2 (length (around (Z.of_nat w) 0 (fs ++ [l ++ [Z.of_nat f]]))))).
  { assert (Hother : forall w, f <> w -> around (Z.of_nat w) 0 (fs ++ [l ++ [Z.of_nat f]]) = around (Z.of_nat w) 0 (fs ++ [l])).
    { intros w Hw. rewrite around_snoc. destruct (Z.eqb_spec (Z.of_nat f) (Z.of_nat w)); [lia|]. apply app_nil_r. }
    assert (Hsame : around (Z.of_nat f) 0 (fs ++ [l ++ [Z.of_nat f]]) = L ++ [(length fs, length l)]).
    { rewrite around_snoc, Z.eqb_refl. reflexivity. }
    destruct (Nat.ltb_spec (length L) 2) as [Hlt|Hge].
    - rewrite wrz_sum, wr_ok by (rewrite S8; apply row_room; lia). cbn [bind]. rewrite rdz_nat, (rd_some _ _ _ E2). cbn [bind].
      rewrite wrz_nat, wr_ok by lia. cbn [bind].
      eexists. eexists. split; [reflexivity|]. split; [apply length_upd|]. split; [apply length_upd|].
      intros w Hw. destruct (Nat.eq_dec f w) as [<-|Hne].
      + rewrite Hsame, map_app. split.
        * pose proof (holds_add (n_face z) (d_fc z) 2 (f_cell s) f (map fst L) (length fs) S8 Hen Hd) as G.
          rewrite map_length in G. apply G; assumption.
        * rewrite nth_upd_same by lia. f_equal. rewrite app_length. simpl length. lia.
      + rewrite (Hother w Hne). destruct (He w Hw) as [W1 W2]. split.
        * apply holds_other; [exact Hd|exact Hne|lia|exact W1].
        * rewrite nth_upd_other by exact Hne. exact W2.
    - exists (f_cell s), (f_ncell s). split; [reflexivity|]. split; [reflexivity|]. split; [reflexivity|].
      intros w Hw. destruct (Nat.eq_dec f w) as [<-|Hne].
      + rewrite Hsame, map_app. split; [apply holds_full; [rewrite map_length; exact Hge|exact E1]|].
        rewrite E2. f_equal. rewrite app_length. simpl length. lia.
      + rewrite (Hother w Hne). exact (He w Hw). }
  destruct G as [fc [fn [Ee [Hl1 [Hl2 Hh]]]]]. rewrite Ee. cbn [bind fst snd]. eexists. split; [reflexivity|].
  split; [unfold sized; cbn; rewrite ?length_upd, Hl1, Hl2; repeat split; assumption|].
  split; [exact Hvp|]. split; [exact Hep|]. split; [cbn; apply (filled_add (n_cell z)); assumption|exact Hh].
Qed.

(** ** The closure of a cell *)

Variable t : strata.
Hypothesis Hnv : v_end t = (v_start t + Z.of_nat (n_vert z))%Z.
Hypothesis Hne : e_end t = (e_start t + Z.of_nat (n_edge z))%Z.
Hypothesis Hnf : f_end t = (f_start t + Z.of_nat (n_face z))%Z.
(** No point is in two strata. *)
Hypothesis apart : forall p,
  (within p (v_start t) (v_end t) = true -> within p (e_start t) (e_end t) = false /\ within p (f_start t) (f_end t) = false) /\
  (within p (e_start t) (e_end t) = true -> within p (f_start t) (f_end t) = false).
Hypothesis Hec : 2 <= d_ec z.
Hypothesis Hfc : 2 <= d_fc z.

Definition vof (c : nat * list Z) : list Z := members (v_start t) (v_end t) (points c).
Definition eof (c : nat * list Z) : list Z := members (e_start t) (e_end t) (points c).
Definition fof (c : nat * list Z) : list Z := members (f_start t) (f_end t) (points c).


(** Room for the cells around a vertex. *)
Definition fits (vs : list (list Z)) : Prop :=
  forall v, v < n_vert z -> length (around (Z.of_nat v) 0 vs) <= d_vc z /\ length (around (Z.of_nat v) 0 vs) <= d_vf z.


Lemma visit_cell_ok : forall closures cl vs es fs s,
  inv vs es fs s -> length es = length vs -> length fs = length vs -> length vs < n_cell z ->
  nth_error closures (length vs) = Some cl -> 2 * fst cl <= length (snd cl) ->
  short (d_cv z) vs -> short (d_ce z) es -> short (d_cf z) fs ->
  length (vof cl) <= d_cv z -> length (eof cl) <= d_ce z -> length (fof cl) <= d_cf z ->
  fits (vs ++ [vof cl]) ->
  exists s', visit_cell t z closures (length vs) s = Ok s' /\ inv (vs ++ [vof cl]) (es ++ [eof cl]) (fs ++ [fof cl]) s'.
Proof.
  intros closures cl vs es fs s Hinv Le Lf Hc Hcl Hlong Sv Se Sf Dv De Df Hfit. unfold visit_cell.
  rewrite (rd_some _ _ _ Hcl). cbn [bind].
  assert (Hpts : length (points cl) = fst cl) by (unfold points; rewrite map_length, seq_length; reflexivity).
  destruct (for_inv (fun i (st : conn * (nat * nat * nat)) =>
      let l := firstn i (points cl) in
      let lv := members (v_start t) (v_end t) l in let le := members (e_start t) (e_end t) l in let lf := members (f_start t) (f_end t) l in
      snd st = (length lv, length le, length lf) /\ inv (vs ++ [lv]) (es ++ [le]) (fs ++ [lf]) (fst st))
    (visit_point t z (snd cl) (length vs)) (fst cl) (s, (0, 0, 0))) as [[s' cnt] [E [_ I]]].
  - split; [reflexivity|]. simpl.
    destruct Hinv as [Hs [[V1 V2] [[E1 E2] [F1 F2]]]].
    split; [exact Hs|]. split; [|split].
    + split; [apply filled_snoc_nil; exact V1|]. intros v Hv. unfold at_vertex. change (members (v_start t) (v_end t) []) with (@nil Z).
      rewrite around_snoc_nil. exact (V2 v Hv).
    + split; [apply filled_snoc_nil; exact E1|]. intros v Hv. unfold at_edge. change (members (e_start t) (e_end t) []) with (@nil Z).
      rewrite around_snoc_nil. exact (E2 v Hv).
    + split; [apply filled_snoc_nil; exact F1|]. intros v Hv. unfold at_face. change (members (f_start t) (f_end t) []) with (@nil Z).
      rewrite around_snoc_nil. exact (F2 v Hv).
  - intros i [cn [[kv ke] kf]] Hi [Hk I]. cbn [fst snd] in Hk, I. inversion Hk as [[K1 K2 K3]].
    assert (Hp : exists p, nth_error (snd cl) (2 * i) = Some p /\ nth_error (points cl) i = Some p).
    { destruct (nth_error (snd cl) (2 * i)) as [p|] eqn:Ep; [|apply nth_error_None in Ep; lia]. exists p. split; [reflexivity|].
      unfold points. rewrite nth_error_map. rewrite (nth_error_nth' (seq 0 (fst cl)) 0) by (rewrite seq_length; exact Hi).
      rewrite seq_nth by exact Hi. simpl. f_equal. apply (nth_error_nth (snd cl) (2 * i) _ Ep). }
    destruct Hp as [p [Ep1 Ep2]].
    unfold visit_point. rewrite (rd_some _ _ _ Ep1). cbn [bind].
    rewrite (firstn_snoc _ _ _ Ep2), !members_snoc.
    set (lv := members (v_start t) (v_end t) (firstn i (points cl))) in *.
    set (le := members (e_start t) (e_end t) (firstn i (points cl))) in *.
    set (lf := members (f_start t) (f_end t) (firstn i (points cl))) in *.
    pose proof (members_firstn_le (v_start t) (v_end t) (points cl) (S i)) as Mv.
    pose proof (members_firstn_le (e_start t) (e_end t) (points cl) (S i)) as Me.
    pose proof (members_firstn_le (f_start t) (f_end t) (points cl) (S i)) as Mf.
    rewrite (firstn_snoc _ _ _ Ep2), members_snoc in Mv, Me, Mf. fold lv in Mv. fold le in Me. fold lf in Mf.
    unfold vof in Dv, Hfit. unfold eof in De. unfold fof in Df.
    destruct (apart p) as [A1 A2].
    destruct (within p (v_start t) (v_end t)) eqn:Wv.
    { destruct (A1 eq_refl) as [We Wf]. rewrite We, Wf, !app_nil_r.
      rewrite Hnv in Wv. destruct (within_nat _ _ _ Wv) as [v [Hv Epv]]. rewrite Epv.
      rewrite app_length in Mv. simpl in Mv.
      assert (Hlt : length (around (Z.of_nat v) 0 (vs ++ [lv])) < d_vc z /\ length (around (Z.of_nat v) 0 (vs ++ [lv])) < d_vf z).
      { destruct (Hfit v Hv) as [G1 G2].
        assert (Hex : exists rest, members (v_start t) (v_end t) (points cl) = (lv ++ [Z.of_nat v]) ++ rest).
        { rewrite <- (firstn_skipn (S i) (points cl)). unfold members at 1. rewrite filter_app, map_app.
          eexists. f_equal. fold (members (v_start t) (v_end t) (firstn (S i) (points cl))).
          rewrite (firstn_snoc _ _ _ Ep2), members_snoc. rewrite Hnv at 2. rewrite Wv, Epv. reflexivity. }
        destruct Hex as [rest Hex]. rewrite Hex in G1, G2.
        pose proof (around_prefix (Z.of_nat v) vs (lv ++ [Z.of_nat v]) rest) as G3.
        rewrite around_snoc, Z.eqb_refl, app_length in G3. simpl in G3. lia. }
      destruct Hlt as [G1 G2].
      destruct (visit_vertex_ok vs lv (es ++ [le]) (fs ++ [lf]) cn v I Hc ltac:(lia) Sv Hv G1 G2) as [s' [E' I']].
      rewrite E'. cbn [bind]. exists (s', (S (length lv), length le, length lf)). split; [reflexivity|]. split; [|exact I'].
      cbn [snd]. rewrite app_length. simpl. do 2 f_equal. lia. }
    destruct (within p (e_start t) (e_end t)) eqn:We.
    { rewrite (A2 eq_refl), !app_nil_r.
      rewrite Hne in We. destruct (within_nat _ _ _ We) as [e [He Epe]]. rewrite Epe.
      rewrite app_length in Me. simpl in Me.
      destruct (visit_edge_ok (vs ++ [lv]) es le (fs ++ [lf]) cn e I Hec ltac:(lia) ltac:(lia) Se He) as [s' [E' I']].
      rewrite Le in E'. rewrite E'. cbn [bind]. exists (s', (length lv, S (length le), length lf)). split; [reflexivity|]. split; [|exact I'].
      cbn [snd]. rewrite app_length. simpl. do 2 f_equal. lia. }
    destruct (within p (f_start t) (f_end t)) eqn:Wf.
    { rewrite !app_nil_r.
      rewrite Hnf in Wf. destruct (within_nat _ _ _ Wf) as [f [Hf Epf]]. rewrite Epf.
      rewrite app_length in Mf. simpl in Mf.
      destruct (visit_face_ok (vs ++ [lv]) (es ++ [le]) fs lf cn f I Hfc ltac:(lia) ltac:(lia) Sf Hf) as [s' [E' I']].
      rewrite Lf in E'. rewrite E'. cbn [bind]. exists (s', (length lv, length le, S (length lf))). split; [reflexivity|]. split; [|exact I'].
      cbn [snd]. rewrite app_length. simpl. f_equal. lia. }
    rewrite !app_nil_r. eexists. split; [reflexivity|]. split; [reflexivity|exact I].
  - rewrite E. cbn [bind fst snd] in *. exists s'. split; [reflexivity|].
    rewrite <- Hpts, firstn_all in I. exact I.
Qed.

Lemma initial_inv : inv [] [] [] (initial z).
Proof.
  split; [unfold sized, initial, allocate; cbn; rewrite !repeat_length; repeat split|].
  split; [|split].
  - split; [intros c l k x H; destruct c; discriminate|]. intros v Hv. unfold at_vertex. simpl.
    split; [lia|]. split; [lia|]. split; [apply holds_nil; [lia|exact Hv]|]. split; [intros j Hj; lia|]. apply nth_error_repeat. exact Hv.
  - split; [intros c l k x H; destruct c; discriminate|]. intros v Hv. apply holds_nil; [exact Hec|exact Hv].
  - split; [intros c l k x H; destruct c; discriminate|]. intros v Hv. split; [apply holds_nil; [exact Hfc|exact Hv]|].
    apply nth_error_repeat. exact Hv.
Qed.


Lemma cell_connectivity_ok : forall closures, length closures = n_cell z ->
  (forall c cl, nth_error closures c = Some cl ->
     2 * fst cl <= length (snd cl) /\ length (vof cl) <= d_cv z /\ length (eof cl) <= d_ce z /\ length (fof cl) <= d_cf z) ->
  fits (map vof closures) ->
  exists s, cell_connectivity t z closures = Ok s /\ inv (map vof closures) (map eof closures) (map fof closures) s.
Proof.
  intros closures Hn Hcl Hfit. unfold cell_connectivity.
  destruct (for_inv (fun i s => inv (firstn i (map vof closures)) (firstn i (map eof closures)) (firstn i (map fof closures)) s)
    (visit_cell t z closures) (n_cell z) (initial z)) as [s [E I]].
  - exact initial_inv.
  - intros i s Hi I.
    destruct (nth_error closures i) as [cl|] eqn:Ecl; [|apply nth_error_None in Ecl; lia].
    destruct (Hcl i cl Ecl) as [C1 [C2 [C3 C4]]].
    assert (Lv : length (firstn i (map vof closures)) = i) by (rewrite firstn_length, map_length; lia).
    assert (Le : length (firstn i (map eof closures)) = i) by (rewrite firstn_length, map_length; lia).
    assert (Lf : length (firstn i (map fof closures)) = i) by (rewrite firstn_length, map_length; lia).
    assert (Sn : forall g, nth_error (map g closures) i = Some (g cl) :> option (list Z)) by (intro g; rewrite nth_error_map, Ecl; reflexivity).
    assert (Short : forall g d, (forall c cl, nth_error closures c = Some cl -> length (g cl) <= d) -> short d (firstn i (map g closures))).
    { intros g d Hg c l Hl. assert (Hx : nth_error (map g closures) c = Some l).
      { rewrite <- (firstn_skipn i (map g closures)). rewrite nth_error_app1; [exact Hl|exact (nth_lt _ _ _ Hl)]. }
      rewrite nth_error_map in Hx. destruct (nth_error closures c) as [cl'|] eqn:Ec; [|discriminate Hx]. inversion Hx; subst l. exact (Hg c cl' Ec). }
    rewrite !(firstn_snoc _ _ _ (Sn _)).
    assert (Hf1 : fits (firstn i (map vof closures) ++ [vof cl])).
    { intros v Hv. rewrite <- (firstn_snoc _ _ _ (Sn vof)).
      destruct (Hfit v Hv) as [G1 G2]. pose proof (around_firstn_le (Z.of_nat v) (map vof closures) (S i)). lia. }
    destruct (visit_cell_ok closures cl (firstn i (map vof closures)) (firstn i (map eof closures)) (firstn i (map fof closures)) s I)
      as [s' [E' I']]; rewrite ?Lv, ?Le, ?Lf; try assumption; try reflexivity.
    + apply Short. intros c cl' Ec. apply (Hcl c cl' Ec).
    + apply Short. intros c cl' Ec. apply (Hcl c cl' Ec).
    + apply Short. intros c cl' Ec. apply (Hcl c cl' Ec).
    + rewrite Lv in E'. exists s'. split; [exact E'|exact I'].
  - rewrite E. exists s. split; [reflexivity|]. rewrite !firstn_all2 in I by (rewrite map_length; lia). exact I.
Qed.
End Connect.
