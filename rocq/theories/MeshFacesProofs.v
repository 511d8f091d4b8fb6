(** CreateInternalFaces, and the whole set-up of faces. *)
From Coq Require Import List ZArith Arith Bool Lia.
From Verif Require Import Prelude Arrays UGrid MeshFaces SpecCellGeo SpecMeshFaces MeshFacesTables MeshFacesSetup MeshFacesPairs MeshFacesRenumber.
Import ListNotations.
Local Open Scope nat_scope.

Lemma loop_ub {St} (body : nat -> St -> outcome St) n k s :
  (forall i s, k <= i < k + n -> body i s = UB \/ body i s = Ok s) -> (exists i, k <= i < k + n /\ forall s, body i s = UB) ->
  loop n k body s = UB.
Proof.
  revert k; induction n as [|n IH]; intros k H [i [Hi Ei]]; [lia|]. cbn [loop]. destruct (H k s) as [E|E]; [lia| |]; rewrite E; cbn [bind]; [reflexivity|].
  apply IH; [intros; apply H; lia|]. exists i. split; [|exact Ei]. destruct (Nat.eq_dec i k) as [->|]; [|lia]. rewrite Ei in E. discriminate.
Qed.
Lemma loop_same {St} (body : nat -> St -> outcome St) n k s : (forall i s, k <= i < k + n -> body i s = Ok s) -> loop n k body s = Ok s.
Proof. revert k; induction n as [|n IH]; intros k H; [reflexivity|]. cbn [loop]. rewrite H by lia. cbn [bind]. apply IH. intros; apply H; lia. Qed.
Lemma nodup_app {A} (l m : list A) : NoDup l -> NoDup m -> (forall x, In x l -> ~ In x m) -> NoDup (l ++ m).
Proof.
  induction l as [|x l IH]; intros H1 H2 D; [exact H2|]. inversion H1 as [|? ? N1 N2]; subst. cbn [app]. constructor.
  - intro H. apply in_app_or in H as [H|H]; [contradiction|]. apply (D x); [left; reflexivity|exact H].
  - apply IH; [exact N2|exact H2|]. intros y Hy. apply D. right. exact Hy.
Qed.

Section Mesh.
Variables (nl ng : nat) (cnv : list nat) (cv : list (list Z)) (nbs : list (nat * list Z)).
Hypothesis CF : conforming nl ng cnv cv nbs.
Notation kind := (kind cnv).
Notation nf := (nf cnv).
Notation slot := (slot cnv).
Notation common := (common cnv cv).
Notation row := (row nbs).

(** ** The list of connections *)
Definition ups (a : nat) (l : list Z) : list (nat * nat) :=
  map (fun z => (a, Z.to_nat (Z.abs z))) (filter (fun z => Z.of_nat a <? Z.abs z)%Z l).
Definition pairs (c k : nat) : list (nat * nat) := flat_map (fun a => ups a (row a)) (seq 0 c) ++ ups c (firstn k (row c)).

Lemma firstn_snoc {A} (l : list A) k x : nth_error l k = Some x -> firstn (S k) l = firstn k l ++ [x].
Proof.
  revert k; induction l as [|y l IH]; intros [|k] H; simpl in *; try discriminate; [congruence|]. f_equal. apply IH, H.
Qed.
Lemma ups_app a l m : ups a (l ++ m) = ups a l ++ ups a m.
Proof. unfold ups. rewrite filter_app, map_app. reflexivity. Qed.
Lemma pairs_step c k z : nth_error (row c) k = Some z ->
  pairs c (S k) = pairs c k ++ (if (Z.of_nat c <? Z.abs z)%Z then [(c, Z.to_nat (Z.abs z))] else []).
Proof.
  intro H. unfold pairs. rewrite (firstn_snoc _ _ _ H), ups_app, app_assoc. f_equal. unfold ups. cbn [filter].
  destruct (Z.of_nat c <? Z.abs z)%Z; reflexivity.
Qed.
Lemma pairs_end c n : length (row c) = n -> pairs c n = pairs (S c) 0.
Proof.
  intros <-. unfold pairs. rewrite firstn_all, seq_S, flat_map_app. cbn [flat_map Nat.add]. cbn [firstn]. unfold ups at 4. cbn [filter map].
  rewrite !app_nil_r. reflexivity.
Qed.
Lemma pairs_row_le c k : length (pairs c k) <= length (pairs (S c) 0).
Proof.
  rewrite <- (pairs_end c _ eq_refl). unfold pairs. rewrite !app_length. apply Nat.add_le_mono_l.
  rewrite firstn_all. rewrite <- (firstn_skipn k (row c)) at 2. rewrite ups_app, app_length. lia.
Qed.
Lemma pairs_le c d : c <= d -> length (pairs c 0) <= length (pairs d 0).
Proof. induction 1 as [|d _ IH]; [lia|]. pose proof (pairs_row_le d 0). lia. Qed.
Lemma pairs_all_le c k : c < nl -> length (pairs c k) <= length (pairs nl 0).
Proof. intro H. pose proof (pairs_row_le c k). pose proof (pairs_le (S c) nl H). lia. Qed.

Lemma row_length c n r : nth_error nbs c = Some (n, r) -> length (row c) = n /\ forall k, k < n -> nth_error r k = nth_error (row c) k.
Proof.
  intro E. destruct (cf_row _ _ _ _ _ CF c n r E) as [L _]. unfold row. rewrite E. split; [rewrite firstn_length; lia|].
  intros k Hk. rewrite <- (firstn_skipn n r) at 1. rewrite nth_error_app1; [reflexivity|]. rewrite firstn_length. lia.
Qed.
Lemma row_entry c z : c < nl -> In z (row c) -> Z.to_nat (Z.abs z) < ng /\ Z.to_nat (Z.abs z) <> c /\ adjacent cnv cv c (Z.to_nat (Z.abs z)) /\
  ((z <? 0) || (Z.of_nat c <? z))%Z = (Z.of_nat c <? Z.abs z)%Z.
Proof.
  intros Hc Hz. unfold row in Hz. destruct (nth_error nbs c) as [[n r]|] eqn:E; [|destruct Hz].
  destruct (cf_row _ _ _ _ _ CF c n r E) as [_ [_ [F A]]]. pose proof (cf_local _ _ _ _ _ CF).
  assert (L : Z.to_nat (Z.abs z) < ng) by (destruct (F z Hz); lia). split; [exact L|].
  assert (I : In (Z.of_nat (Z.to_nat (Z.abs z))) (map Z.abs (firstn n r))) by (rewrite Z2Nat.id by lia; apply in_map, Hz).
  apply A in I; [|exact L]. destruct I as [I1 I2]. split; [exact I1|]. split; [exact I2|].
  destruct (F z Hz); destruct (Z.ltb_spec z 0); destruct (Z.ltb_spec (Z.of_nat c) z); destruct (Z.ltb_spec (Z.of_nat c) (Z.abs z)); cbn [orb]; lia || reflexivity.
Qed.
Lemma in_ups a l b : In (a, b) (ups a l) <-> a < b /\ In (Z.of_nat b) (map Z.abs l).
Proof.
  unfold ups. rewrite in_map_iff. split.
  - intros [z [E H]]. apply filter_In in H as [H1 H2]. apply Z.ltb_lt in H2. injection E as <-. split; [lia|].
    apply in_map_iff. exists z. split; [lia|exact H1].
  - intros [L H]. apply in_map_iff in H as [z [E H]]. exists z. split; [f_equal; lia|]. apply filter_In. split; [exact H|]. apply Z.ltb_lt. lia.
Qed.
Lemma ups_fst a l p : In p (ups a l) -> fst p = a.
Proof. unfold ups. rewrite in_map_iff. intros [z [<- _]]. reflexivity. Qed.
Lemma in_pairs a b : In (a, b) (pairs nl 0) <-> a < nl /\ a < b /\ b < ng /\ adjacent cnv cv a b.
Proof.
  rewrite <- (treated_all nl ng cnv cv nbs CF). unfold pairs. cbn [firstn]. unfold ups at 2. cbn [filter map]. rewrite app_nil_r.
  rewrite in_flat_map. unfold treated. split.
  - intros [a' [Ha H]]. apply in_seq in Ha. pose proof (ups_fst _ _ _ H) as E. cbn in E. subst a'. apply in_ups in H as [L H].
    split; [exact L|]. split; [|left; split; [lia|exact H]]. apply in_map_iff in H as [z [Ez Hz]]. destruct (row_entry a z ltac:(lia) Hz). lia.
  - intros [L [Hb [[Ha H]|[_ []]]]]. exists a. split; [apply in_seq; lia|]. apply in_ups. split; assumption.
Qed.
Lemma pairs_nodup : NoDup (pairs nl 0).
Proof.
  unfold pairs. cbn [firstn]. unfold ups at 2. cbn [filter map]. rewrite app_nil_r.
  assert (R : forall a, NoDup (ups a (row a))).
  { intro a. unfold row. destruct (nth_error nbs a) as [[n r]|] eqn:E; [|constructor]. destruct (cf_row _ _ _ _ _ CF a n r E) as [_ [N _]].
    revert N. generalize (firstn n r). intro l. induction l as [|z l IH]; intro N; [constructor|]. cbn [map] in N. inversion N as [|? ? N1 N2]; subst.
    unfold ups in *. cbn [filter]. destruct (Z.of_nat a <? Z.abs z)%Z; [|apply IH, N2]. cbn [map]. constructor; [|apply IH, N2].
    intro H. apply in_map_iff in H as [y [Ey Hy]]. apply filter_In in Hy as [Hy _]. apply N1. apply in_map_iff. exists y. split; [|exact Hy]. injection Ey. lia. }
  assert (G : forall n, NoDup (flat_map (fun a => ups a (row a)) (seq 0 n))).
  { induction n as [|n IH]; [constructor|]. rewrite seq_S, flat_map_app. cbn [flat_map Nat.add]. rewrite app_nil_r.
    apply nodup_app; [exact IH|apply R|]. intros p Hp Hq. apply in_flat_map in Hp as [a [Ha Hp]]. apply in_seq in Ha.
    apply ups_fst in Hp. apply ups_fst in Hq. lia. }
  apply G.
Qed.

Lemma count_ok : count_connections nbs nl = Ok (length (pairs nl 0)).
Proof.
  unfold count_connections.
  match goal with |- for_ ?n ?B ?x = _ => destruct (for_inv (fun c s => s = length (pairs c 0)) B n x) as [s [E H]] end; [reflexivity| |rewrite E, H; reflexivity].
  intros c s Hc ->. destruct (rd_ok nbs c) as [[n r] [En Nn]]; [rewrite (cf_nbs _ _ _ _ _ CF); exact Hc|]. rewrite En. cbn [bind fst snd].
  destruct (row_length c n r Nn) as [L R].
  match goal with |- exists s', for_ ?n ?B ?x = _ /\ _ => destruct (for_inv (fun k s => s = length (pairs c k)) B n x) as [s [E H]] end; [reflexivity| |].
  - intros k s Hk ->. destruct (nth_error (row c) k) as [z|] eqn:Ez; [|apply nth_error_None in Ez; lia].
    rewrite (rd_some r k z) by (rewrite R by exact Hk; exact Ez). cbn [bind]. eexists; split; [reflexivity|].
    destruct (row_entry c z Hc (nth_error_In _ _ Ez)) as [_ [_ [_ Q]]]. rewrite Q, (pairs_step c k z Ez), app_length.
    destruct (Z.of_nat c <? Z.abs z)%Z; cbn [length]; lia.
  - exists s. split; [exact E|]. rewrite H, (pairs_end c n L). reflexivity.
Qed.

(** ** Connections *)
Section Connect.
Variables (g h : nat -> nat -> Z).
Notation P := (treated ng nbs nl 0).
Hypothesis Pa : paired ng cnv cv P g h.
Notation rk := (rank (kept h)).
Notation face := (face g).
Variables (c2f f2c' : table) (q w : nat -> nat -> Z).
Hypothesis Tq : tab c2f 6 ng q.
Hypothesis Q : forall c i, c < ng -> i < nf c -> q i c = Z.of_nat (rk (face c i)).
Hypothesis Tw : tab f2c' 2 (rk (6 * ng)) w.
Hypothesis W : forall f i, f < 6 * ng -> kept h f = true -> i < 2 -> w i (rk f) = h i f.
Let U : upward ng P := treated_upward ng nbs nl 0.

Lemma owner c i : c < ng -> i < nf c -> kept h (slot c i) = true -> forall b k, P b c -> ~ common b k c i.
Proof.
  intros Hc Hi K. destruct Pa as [A _]. destruct (A c i Hc Hi) as [[b [k [Hb [_ [_ H0]]]]]|[N _]]; [|exact N].
  unfold kept in K. rewrite H0 in K. apply Z.leb_le in K. destruct (U _ _ Hb). lia.
Qed.
Lemma pair_face c i d j : c < ng -> P c d -> common c i d j -> d < ng /\ i < nf c /\ j < nf d /\ face c i = slot c i /\ face d j = slot c i /\
  h 0 (slot c i) = Z.of_nat c /\ h 1 (slot c i) = Z.of_nat d.
Proof.
  intros Hc Hp C. destruct (U _ _ Hp) as [L Hd]. destruct (common_range nl ng cnv cv nbs CF _ _ _ _ Hc Hd C) as [Hi Hj].
  split; [exact Hd|]. split; [exact Hi|]. split; [exact Hj|].
  assert (Fc : face c i = slot c i).
  { destruct (face_cases nl ng cnv cv nbs CF P g h U Pa c i Hc Hi) as [_ [_ [[b [k [Hb [Lb [Hk [Cb _]]]]]]|[_ E]]]]; [|exact E].
    exfalso. destruct (U _ _ Hb). destruct (mate_unique nl ng cnv cv nbs CF c i d j b k Hc Hd Lb ltac:(lia) ltac:(lia) C (common_sym _ _ _ _ _ _ Cb)) as [X _]. lia. }
  split; [exact Fc|]. split.
  { destruct (face_cases nl ng cnv cv nbs CF P g h U Pa d j Hd Hj) as [_ [_ [[b [k [Hb [Lb [Hk [Cb E]]]]]]|[N _]]]]; [|exfalso; apply (N c i Hp C)].
    destruct (U _ _ Hb). destruct (mate_unique nl ng cnv cv nbs CF d j c i b k Hd Hc Lb ltac:(lia) ltac:(lia) (common_sym _ _ _ _ _ _ C) (common_sym _ _ _ _ _ _ Cb)) as [<- <-]. exact E. }
  destruct (face_cases nl ng cnv cv nbs CF P g h U Pa c i Hc Hi) as [_ [K _]]. rewrite Fc in K.
  destruct Pa as [A [B _]]. split.
  - destruct (A c i Hc Hi) as [[b [k [Hb [_ [_ H0]]]]]|[_ [_ H0]]]; [|exact H0]. exfalso. unfold kept in K. rewrite H0 in K. apply Z.leb_le in K. destruct (U _ _ Hb). lia.
  - destruct (B c i Hc Hi) as [[d' [j' [Hd' [C' H1]]]]|[N _]]; [|exfalso; apply (N d j Hp C)]. destruct (U _ _ Hd').
    destruct (mate_unique nl ng cnv cv nbs CF c i d j d' j' Hc Hd ltac:(lia) ltac:(lia) ltac:(lia) C C') as [<- _]. exact H1.
Qed.
(** Another side of [c] does not lead to [d]. *)
Lemma other_side c i d j i' : c < ng -> P c d -> common c i d j -> i' < nf c -> i' <> i ->
  h 0 (face c i') <> Z.of_nat d /\ h 1 (face c i') <> Z.of_nat d.
Proof.
  intros Hc Hp C Hi' N. destruct (U _ _ Hp) as [L Hd].
  destruct (face_cases nl ng cnv cv nbs CF P g h U Pa c i' Hc Hi') as [_ [K _]].
  pose proof (face_bound nl ng cnv cv nbs CF P g h U Pa c i' Hc Hi') as Bf.
  destruct (kept_slot nl ng cnv cv nbs CF P g h U Pa _ Bf K) as [c0 [i0 [Hc0 [Hi0 [Ef [F0 [H0 Mt]]]]]]].
  assert (OW : forall b k, P b c0 -> ~ common b k c0 i0) by (apply owner; [assumption|assumption|rewrite <- Ef; exact K]).
  destruct (face_eq nl ng cnv cv nbs CF P g h U Pa c0 i0 c i' Hc0 Hi0 Hc Hi' F0) as [[-> ->]|[[Y Y']|[Y Y']]].
  - split; [rewrite H0; lia|]. destruct Mt as [[d' [j' [_ [C' [Hd' [_ [H1 _]]]]]]]|[_ H1]]; rewrite H1; [|lia].
    intro X. assert (d' = d) by lia. subst d'. destruct (cf_one _ _ _ _ _ CF _ _ _ _ _ _ Hc Hd ltac:(lia) C C') as [X' _]. congruence.
  - destruct (U _ _ Y) as [Ly _]. split; [rewrite H0; lia|]. destruct Mt as [[d' [j' [Hp' [C' [Hd' [_ [H1 _]]]]]]]|[_ H1]]; rewrite H1; [|lia].
    destruct (U _ _ Hp'). destruct (mate_unique nl ng cnv cv nbs CF c0 i0 d' j' c i' Hc0 Hd' Hc ltac:(lia) ltac:(lia) C' Y') as [-> _]. lia.
  - exfalso. apply (OW _ _ Y Y').
Qed.

(** What is stored for the connections made so far. *)
Definition recorded (done : list (nat * nat)) (k : conns) : Prop :=
  let n := length (pairs nl 0) in
  k_n k = length done /\ length (k_cells k) = 2 * n /\ length (k_id k) = n /\ length (k_nv k) = n /\ length (k_face k) = n /\
  forall p c d, nth_error done p = Some (c, d) ->
    nth_error (k_cells k) (2 * p) = Some (Z.of_nat c) /\ nth_error (k_cells k) (2 * p + 1) = Some (Z.of_nat d) /\
    exists i j, common c i d j /\ nth_error (k_id k) p = Some (Z.of_nat (rk (face c i))) /\ nth_error (k_face k) p = Some (Z.of_nat (rk (face c i))) /\
      nth_error (k_nv k) p = Some (nvf cnv c i).

Lemma connect_ok c k z st : c < nl -> nth_error (row c) k = Some z -> recorded (pairs c k) st ->
  exists st', connect cnv c2f (Live f2c') c z st = Ok st' /\ recorded (pairs c (S k)) st'.
Proof.
  intros Hl Ez R. pose proof (cf_local _ _ _ _ _ CF) as Lg. assert (Hc : c < ng) by lia.
  pose proof (pairs_step c k z Ez) as PS. pose proof (pairs_all_le c (S k) Hl) as PL.
  destruct (row_entry c z Hl (nth_error_In _ _ Ez)) as [Hd [Nd [[i [j C]] _]]].
  set (d := Z.to_nat (Z.abs z)) in *. assert (Ed : Z.abs z = Z.of_nat d) by (unfold d; rewrite Z2Nat.id; [reflexivity|apply Z.abs_nonneg]). clearbody d.
  unfold connect. rewrite Ed in *. cbv zeta. destruct (Z.ltb_spec (Z.of_nat c) (Z.of_nat d)) as [L|L].
  2:{ rewrite app_nil_r in PS. rewrite PS. exists st. split; [reflexivity|exact R]. }
  rewrite PS, app_length in PL. cbn [length] in PL. destruct R as [R0 [R1 [R2 [R3 [R4 R5]]]]].
  assert (Hp : P c d) by (apply (treated_all nl ng cnv cv nbs CF); split; [exact Hl|]; split; [lia|]; split; [exact Hd|]; exists i, j; exact C).
  destruct (pair_face c i d j Hc Hp C) as [_ [Hi [Hj [Fc [Fd [H0 H1]]]]]].
  pose proof (nf6 cnv c) as N6. pose proof (nf6 cnv d) as N6d.
  rewrite (kind_ok _ _ _ _ _ CF c Hc). cbn [bind].
  assert (RQ : forall c i, c < ng -> i < nf c -> rd2 c2f i (Z.of_nat c) = Ok (Z.of_nat (rk (face c i)))).
  { intros c1 i1 Hc1 Hi1. pose proof (nf6 cnv c1). rewrite (tab_rd _ _ _ _ i1 c1 Tq) by lia. rewrite Q by assumption. reflexivity. }
  assert (RW : forall c i s, c < ng -> i < nf c -> s < 2 -> rd2 f2c' s (Z.of_nat (rk (face c i))) = Ok (h s (face c i))).
  { intros c1 i1 s Hc1 Hi1 Hs. pose proof (face_bound nl ng cnv cv nbs CF P g h U Pa c1 i1 Hc1 Hi1) as B1.
    destruct (face_cases nl ng cnv cv nbs CF P g h U Pa c1 i1 Hc1 Hi1) as [_ [K1 _]].
    rewrite (tab_rd _ _ _ _ s (rk (face c1 i1)) Tw); [rewrite W by assumption; reflexivity|exact Hs|]. apply rank_lt; assumption. }
  rewrite (first_some_at _ (NumFaces (kind c)) 0 i (i, Z.of_nat (rk (face c i)))).
  2:{ unfold nf in Hi. lia. }
  2:{ intros i' Hi'. assert (Li' : i' < nf c) by lia. rewrite RQ by assumption. cbn [bind].
      rewrite (some_true_exists _ (fun s => (h s (face c i') =? Z.of_nat d)%Z)).
      - cbn [bind seq existsb]. destruct (other_side c i d j i' Hc Hp C Li' ltac:(lia)) as [X0 X1].
        destruct (Z.eqb_spec (h 0 (face c i')) (Z.of_nat d)); [contradiction|]. destruct (Z.eqb_spec (h 1 (face c i')) (Z.of_nat d)); [contradiction|]. reflexivity.
      - intros s Hs. cbn [deref bind]. rewrite RW by assumption. reflexivity. }
  2:{ rewrite RQ by assumption. cbn [bind]. rewrite (some_true_exists _ (fun s => (h s (face c i) =? Z.of_nat d)%Z)).
      - cbn [bind seq existsb]. rewrite Fc, H1, Z.eqb_refl. rewrite orb_true_r. reflexivity.
      - intros s Hs. cbn [deref bind]. rewrite RW by assumption. reflexivity. }
  cbn [bind]. rewrite R0. rewrite wr_ok by lia. cbn [bind].
  rewrite (rdz_nat _ _ _ (nth_cnv _ _ _ _ _ CF d Hd)). cbn [bind].
  assert (Hjn : j < nverts (kind d)) by (pose proof (faces_le_vertices (kind d)); unfold nf in Hj; lia).
  rewrite (first_some_at _ (nverts (kind d)) 0 j j).
  2:{ lia. }
  2:{ intros j' Hj'. rewrite RQ by assumption. cbn [bind]. assert (Lj' : j' < nf d) by lia. rewrite RQ by assumption. cbn [bind].
      destruct (Z.eqb_spec (Z.of_nat (rk (face c i))) (Z.of_nat (rk (face d j')))) as [X|_]; [|reflexivity]. exfalso.
      apply Nat2Z.inj in X. apply rank_inj in X; [|apply (face_cases nl ng cnv cv nbs CF P g h U Pa c i Hc Hi)|apply (face_cases nl ng cnv cv nbs CF P g h U Pa d j' Hd Lj')].
      assert (X' : face d j = face d j') by congruence.
      destruct (face_eq nl ng cnv cv nbs CF P g h U Pa d j d j' Hd Hj Hd Lj' X') as [[_ Y]|[[Y _]|[Y _]]]; [lia|destruct (U _ _ Y); lia|destruct (U _ _ Y); lia]. }
  2:{ rewrite !RQ by assumption. cbn [bind]. rewrite Fc, Fd, Z.eqb_refl. reflexivity. }
  cbn [bind]. rewrite (kind_ok _ _ _ _ _ CF d Hd). cbn [bind]. rewrite same_type_spec, !face_type_vertices.
  pose proof (common_count nl ng cnv cv nbs CF _ _ _ _ Hc Hd C) as EN. unfold nvf in EN. rewrite <- EN, Nat.eqb_refl.
  rewrite wr_ok by lia. cbn [bind]. rewrite wr_ok by lia. cbn [bind]. rewrite wr_ok by (rewrite length_upd; lia). cbn [bind].
  rewrite RQ by assumption. cbn [bind]. rewrite wr_ok by lia. cbn [bind]. eexists; split; [reflexivity|].
  unfold recorded. cbv zeta. cbn [k_n k_cells k_id k_nv k_face]. rewrite PS, app_length, !length_upd. cbn [length].
  split; [lia|]. split; [exact R1|]. split; [exact R2|]. split; [exact R3|]. split; [exact R4|].
  intros p c' d' Hp'. destruct (Nat.lt_ge_cases p (length (pairs c k))) as [Lp|Lp].
  - rewrite nth_error_app1 in Hp' by exact Lp. destruct (R5 p c' d' Hp') as [A1 [A2 [i1 [j1 [A3 [A4 [A5 A6]]]]]]].
    rewrite !nth_upd_other by lia. split; [exact A1|]. split; [exact A2|]. exists i1, j1. split; [exact A3|]. split; [exact A4|]. split; [exact A5|exact A6].
  - rewrite nth_error_app2 in Hp' by exact Lp. destruct (p - length (pairs c k)) as [|m] eqn:Em; [|destruct m; discriminate Hp'].
    assert (p = length (pairs c k)) by lia. subst p. injection Hp' as <- <-.
    rewrite (nth_upd_other (upd (k_cells st) _ _)) by lia. rewrite !nth_upd_same by (rewrite ?length_upd; lia).
    split; [reflexivity|]. split; [reflexivity|]. exists i, j. split; [exact C|]. split; [reflexivity|]. split; reflexivity.
Qed.

Lemma create_ok : exists st, create_faces cnv nbs nl c2f (Live f2c') = Ok st /\ recorded (pairs nl 0) st.
Proof.
  unfold create_faces. rewrite count_ok. cbn [bind]. apply for_inv with (P := fun c st => recorded (pairs c 0) st).
  - unfold recorded. cbv zeta. cbn [k_n k_cells k_id k_nv k_face]. rewrite !repeat_length, map_length, seq_length.
    split; [reflexivity|]. split; [reflexivity|]. split; [reflexivity|]. split; [reflexivity|]. split; [reflexivity|]. intros [|p] c d H; discriminate H.
  - intros c st Hc H. destruct (rd_ok nbs c) as [[n r] [En Nn]]; [rewrite (cf_nbs _ _ _ _ _ CF); exact Hc|]. rewrite En. cbn [bind fst snd].
    destruct (row_length c n r Nn) as [L R].
    match goal with |- exists s', for_ ?n ?B ?x = _ /\ _ => destruct (for_inv (fun k s => recorded (pairs c k) s) B n x) as [s [E H']] end; [exact H| |].
    + intros k s Hk Hs. destruct (nth_error (row c) k) as [z|] eqn:Ez; [|apply nth_error_None in Ez; lia].
      rewrite (rd_some r k z) by (rewrite R by exact Hk; exact Ez). cbn [bind]. apply connect_ok; assumption.
    + exists s. split; [exact E|]. rewrite <- (pairs_end c n L). exact H'.
Qed.

(** With the freed memory the first connection is undefined behaviour. *)
Lemma create_freed : pairs nl 0 <> [] -> create_faces cnv nbs nl c2f Freed = UB.
Proof.
  intro Ne. destruct (pairs nl 0) as [|[a b] l] eqn:Ep; [contradiction|]. clear Ne.
  assert (I : In (a, b) (pairs nl 0)) by (rewrite Ep; left; reflexivity). clear Ep l.
  unfold create_faces. rewrite count_ok. cbn [bind].
  assert (Cn : forall c z st, c < nl -> connect cnv c2f Freed c z st = if (Z.of_nat c <? Z.abs z)%Z then UB else Ok st).
  { intros c z st Hl. pose proof (cf_local _ _ _ _ _ CF). assert (Hc : c < ng) by lia. unfold connect. cbv zeta. destruct (Z.of_nat c <? Z.abs z)%Z; [|reflexivity].
    rewrite (kind_ok _ _ _ _ _ CF c Hc). cbn [bind].
    assert (F0 : 0 < nf c) by (unfold nf; destruct (kind c); cbn; lia).
    assert (ES : exists m, NumFaces (kind c) = S m) by (exists (NumFaces (kind c) - 1); unfold nf in F0; lia). destruct ES as [m ES]. rewrite ES. cbn [first_some].
    rewrite (tab_rd _ _ _ _ 0 c Tq) by lia. cbn [bind]. unfold some_true. cbn [first_some deref bind]. reflexivity. }
  assert (Rw : forall c n r, c < nl -> nth_error nbs c = Some (n, r) -> forall st,
    for_ n (fun idual k => do d <- rd r idual; connect cnv c2f Freed c d k) st =
    if existsb (fun z => Z.of_nat c <? Z.abs z)%Z (row c) then UB else Ok st).
  { intros c n r Hc Nn st. destruct (row_length c n r Nn) as [L R].
    assert (Bd : forall i st, i < n -> exists z, nth_error (row c) i = Some z /\ (do d <- rd r i; connect cnv c2f Freed c d st) = if (Z.of_nat c <? Z.abs z)%Z then UB else Ok st).
    { intros i st' Hi. destruct (nth_error (row c) i) as [z|] eqn:Ez; [|apply nth_error_None in Ez; lia]. exists z. split; [reflexivity|].
      rewrite (rd_some r i z) by (rewrite R by exact Hi; exact Ez). cbn [bind]. apply Cn, Hc. }
    destruct (existsb (fun z => Z.of_nat c <? Z.abs z)%Z (row c)) eqn:Ex.
    - apply existsb_exists in Ex as [z [Hz Lz]]. apply In_nth_error in Hz as [i Ei]. apply loop_ub.
      + intros p s Hp. destruct (Bd p s ltac:(lia)) as [y [_ E]]. rewrite E. destruct (Z.of_nat c <? Z.abs y)%Z; [left|right]; reflexivity.
      + exists i. pose proof (nth_lt _ _ _ Ei). split; [lia|]. intro s. destruct (Bd i s ltac:(lia)) as [y [Ey E]]. rewrite E. assert (y = z) by congruence. subst y. rewrite Lz. reflexivity.
    - apply loop_same. intros p s Hp. destruct (Bd p s ltac:(lia)) as [y [Ey E]]. rewrite E.
      destruct (Z.of_nat c <? Z.abs y)%Z eqn:Ly; [|reflexivity]. exfalso. assert (X : existsb (fun z => Z.of_nat c <? Z.abs z)%Z (row c) = true); [|congruence].
      apply existsb_exists. exists y. split; [apply (nth_error_In _ _ Ey)|exact Ly]. }
  apply loop_ub.
  - intros c s Hc. destruct (rd_ok nbs c) as [[n r] [En Nn]]; [rewrite (cf_nbs _ _ _ _ _ CF); lia|]. rewrite En. cbn [bind fst snd].
    rewrite (Rw c n r ltac:(lia) Nn). destruct (existsb _ (row c)); [left|right]; reflexivity.
  - exists a. pose proof (proj1 (in_pairs a b) I) as [Ha [Lab _]]. split; [lia|]. intro s.
    destruct (rd_ok nbs a) as [[n r] [En Nn]]; [rewrite (cf_nbs _ _ _ _ _ CF); lia|]. rewrite En. cbn [bind fst snd].
    rewrite (Rw a n r Ha Nn). replace (existsb (fun z => Z.of_nat a <? Z.abs z)%Z (row a)) with true; [reflexivity|]. symmetry. apply existsb_exists.
    assert (T : P a b) by (apply (treated_all nl ng cnv cv nbs CF), in_pairs, I).
    destruct T as [_ [_ [[_ T]|[T _]]]]; [|lia]. apply in_map_iff in T as [z [Ez Hz]]. exists z. split; [exact Hz|]. apply Z.ltb_lt. lia.
Qed.
End Connect.

(** ** All together *)
Lemma maps_ok : exists m g h v, setup_maps cnv cv ng = Ok m /\ tab (m_f2v m) 4 (6 * ng) v /\ columns ng cnv cv v /\
  tab (m_c2f m) 6 ng g /\ tab (m_f2c m) 2 (6 * ng) h /\ paired ng cnv cv (fun _ _ => False) g h /\
  (forall c i k, i < nf c -> nvf cnv c i <= k -> v k (slot c i) = (-1)%Z).
Proof.
  destruct (setup_maps_ok nl ng cnv cv nbs CF) as [m [E [N [g [h [v [Tg [Th [Tv [B [F0 [F1 [G1 V3]]]]]]]]]]]]].
  exists m, g, h, v. split; [exact E|]. split; [exact Tv|].
  assert (BB : forall c i, c < ng -> before ng 0 c i) by (intros; left; assumption).
  split; [intros c i k Hc Hi Hk; apply (proj2 (proj2 (B c i (BB c i Hc) Hi))), Hk|]. split; [exact Tg|]. split; [exact Th|].
  split; [|exact V3]. split; [|split; [|split; [|exact G1]]].
  - intros c i Hc Hi. right. destruct (B c i (BB c i Hc) Hi) as [G [H _]]. split; [contradiction|]. split; assumption.
  - intros c i Hc Hi. right. split; [contradiction|]. apply F1. apply slot_bound6; assumption.
  - intros f Hf. apply F0. unfold MeshFacesSetup.slot. lia.
Qed.

Lemma pipeline : exists g h v c2f f2c' uf2v q w u,
  paired ng cnv cv (treated ng nbs nl 0) g h /\ columns ng cnv cv v /\
  tab c2f 6 ng q /\ (forall c i, c < ng -> i < nf c -> q i c = Z.of_nat (rank (kept h) (face g c i))) /\
  tab f2c' 2 (rank (kept h) (6 * ng)) w /\ (forall f i, f < 6 * ng -> kept h f = true -> i < 2 -> w i (rank (kept h) f) = h i f) /\
  tab uf2v 4 (rank (kept h) (6 * ng)) u /\ (forall f i, f < 6 * ng -> kept h f = true -> i < 4 -> u i (rank (kept h) f) = v i f) /\
  (forall c i, nf c <= i -> q i c = (-1)%Z) /\ (forall c i k, i < nf c -> nvf cnv c i <= k -> v k (slot c i) = (-1)%Z) /\
  forall b, setup_faces cnv cv nbs nl ng b =
    (do k <- create_faces cnv nbs nl c2f (if b then Live f2c' else Freed); Ok (mkMF (rank (kept h) (6 * ng)) uf2v c2f k)).
Proof.
  destruct maps_ok as [m [g0 [h0 [v [Em [Tv [V [Tg0 [Th0 [P0 V3]]]]]]]]]].
  destruct (remove_duplicates_ok nl ng cnv cv nbs CF (m_f2v m) v (m_c2f m, m_f2c m) V Tv) as [[c2f1 f2c1] [E1 [g [h [Tg [Th Pa]]]]]].
  { exists g0, h0. split; [exact Tg0|]. split; [exact Th0|exact P0]. }
  cbn [fst snd] in *.
  destruct (compress_vertices_ok ng f2c1 (m_f2v m) h v Th Tv) as [uf2v [u [E2 [Tu Hu]]]].
  destruct (compress_cells_ok ng f2c1 h Th) as [f2c' [tmp [w [E3 [Tw [W M]]]]]].
  destruct (renumber_ok nl ng cnv cv nbs CF (treated ng nbs nl 0) g h (treated_upward ng nbs nl 0) Pa f2c' tmp w Tw W M c2f1 Tg) as [c2f [q [E4 [Tq [Q Q2]]]]].
  exists g, h, v, c2f, f2c', uf2v, q, w, u. split; [exact Pa|]. split; [exact V|]. split; [exact Tq|]. split; [exact Q|].
  split; [exact Tw|]. split; [exact W|]. split; [exact Tu|]. split; [exact Hu|].
  split; [exact Q2|]. split; [exact V3|].
  intro b. unfold setup_faces. rewrite Em. cbn [bind]. rewrite E1. cbn [bind]. unfold update_maps.
  rewrite (count_faces_ok ng f2c1 h Th). cbn [bind]. rewrite E2. cbn [bind]. rewrite E3. cbn [bind]. rewrite E4. cbn [bind]. reflexivity.
Qed.

(** Undefined behaviour as soon as two cells are neighbours. *)
Theorem freed_ub c d : c < nl -> c < d -> d < ng -> adjacent cnv cv c d -> setup_faces cnv cv nbs nl ng false = UB.
Proof.
  intros H1 H2 H3 H4. destruct pipeline as [g [h [v [c2f [f2c' [uf2v [q [w [u [Pa [V [Tq [Q [Tw [W [Tu [Hu [Q2 [V3 E]]]]]]]]]]]]]]]]]]].
  rewrite E. rewrite (create_freed c2f q Tq); [reflexivity|]. intro X.
  assert (I : In (c, d) (pairs nl 0)) by (apply in_pairs; auto). rewrite X in I. exact I.
Qed.

Theorem faces_ok : exists r prs, setup_faces cnv cv nbs nl ng true = Ok r /\
  NoDup prs /\ (forall c d, In (c, d) prs <-> c < nl /\ c < d /\ d < ng /\ adjacent cnv cv c d) /\
  k_n (f_conns r) = length prs /\ length (k_cells (f_conns r)) = 2 * length prs /\
  length (k_id (f_conns r)) = length prs /\ length (k_face (f_conns r)) = length prs /\ length (k_nv (f_conns r)) = length prs /\
  (forall p c d, nth_error prs p = Some (c, d) ->
     nth_error (k_cells (f_conns r)) (2 * p) = Some (Z.of_nat c) /\ nth_error (k_cells (f_conns r)) (2 * p + 1) = Some (Z.of_nat d) /\
     exists i j f l, common c i d j /\ f < f_num r /\ rotation (side cnv cv c i) l /\ column (f_verts r) f l /\
       nth_error (k_id (f_conns r)) p = Some (Z.of_nat f) /\ nth_error (k_face (f_conns r)) p = Some (Z.of_nat f) /\
       nth_error (k_nv (f_conns r)) p = Some (length l)) /\
  exists num, (forall c i, c < ng -> i < nsides cnv c -> num c i < f_num r) /\
    (forall f, f < f_num r -> exists c i, c < ng /\ i < nsides cnv c /\ num c i = f) /\
    (forall c i c' i', c < ng -> i < nsides cnv c -> c' < ng -> i' < nsides cnv c' ->
       (num c i = num c' i' <-> (c = c' /\ i = i') \/ ((In (c, c') prs \/ In (c', c) prs) /\ common c i c' i'))) /\
    (forall p c d i j, nth_error prs p = Some (c, d) -> common c i d j -> nth_error (k_id (f_conns r)) p = Some (Z.of_nat (num c i))).
Proof.
  destruct pipeline as [g [h [v [c2f [f2c' [uf2v [q [w [u [Pa [V [Tq [Q [Tw [W [Tu [Hu [Q2 [V3 E]]]]]]]]]]]]]]]]]]].
  destruct (create_ok g h Pa c2f f2c' q w Tq Q Tw W) as [st [Es R]].
  exists (mkMF (rank (kept h) (6 * ng)) uf2v c2f st), (pairs nl 0). rewrite E, Es. cbn [bind f_num f_verts f_cells f_conns].
  split; [reflexivity|]. split; [exact pairs_nodup|]. split; [exact in_pairs|]. destruct R as [R0 [R1 [R2 [R3 [R4 R5]]]]].
  split; [exact R0|]. split; [exact R1|]. split; [exact R2|]. split; [exact R4|]. split; [exact R3|].
  set (U := treated_upward ng nbs nl 0).
  assert (TP : forall c d, In (c, d) (pairs nl 0) <-> treated ng nbs nl 0 c d).
  { intros c d. rewrite (treated_all nl ng cnv cv nbs CF). apply in_pairs. }
  assert (FB : forall c i, c < ng -> i < nf c -> rank (kept h) (face g c i) < rank (kept h) (6 * ng)).
  { intros c i Hc Hi. apply rank_lt; [apply (face_cases nl ng cnv cv nbs CF _ g h U Pa c i Hc Hi)|apply (face_bound nl ng cnv cv nbs CF _ g h U Pa c i Hc Hi)]. }
  split.
  - intros p c d Hp. destruct (R5 p c d Hp) as [A1 [A2 [i [j [C [A3 [A4 A5]]]]]]]. split; [exact A1|]. split; [exact A2|].
    pose proof (nth_error_In _ _ Hp) as I. pose proof (proj1 (in_pairs c d) I) as [Hl [Lcd [Hd _]]]. assert (Hc : c < ng) by lia.
    apply TP in I. destruct (pair_face g h Pa c i d j Hc I C) as [_ [Hi [Hj [Fc [Fd [H0 H1]]]]]].
    exists i, j, (rank (kept h) (face g c i)), (vtx cnv cv c i). split; [exact C|]. split; [apply FB; assumption|].
    split; [apply (side_rotation nl ng cnv cv nbs CF); assumption|]. split; [|split; [exact A3|]; split; [exact A4|]; rewrite vtx_length by exact Hi; exact A5].
    intros k x Hk. pose proof (nth_lt _ _ _ Hk) as Lk. rewrite vtx_length in Lk by exact Hi. pose proof (face_vertices_bound _ _ Hi) as B4.
    unfold nvf in Lk. destruct Tu as [_ Tu]. destruct (Tu k ltac:(lia)) as [rw [E1 [_ E2]]]. exists rw. split; [exact E1|].
    rewrite (E2 _ (FB c i Hc Hi)). f_equal. rewrite Hu; [| | |lia].
    + rewrite Fc, V by assumption. apply nth_error_nth with (d := 0%Z) in Hk. exact Hk.
    + apply (face_bound nl ng cnv cv nbs CF _ g h U Pa c i Hc Hi).
    + apply (face_cases nl ng cnv cv nbs CF _ g h U Pa c i Hc Hi).
  - exists (fun c i => rank (kept h) (face g c i)). split; [|split; [|split]].
    + intros c i Hc Hi. rewrite (nsides_nf nl ng cnv cv nbs CF) in Hi by exact Hc. apply FB; assumption.
    + intros f Hf. destruct (rank_surj _ _ _ Hf) as [f0 [Hf0 [K0 <-]]].
      destruct (kept_slot nl ng cnv cv nbs CF _ g h U Pa f0 Hf0 K0) as [c [i [Hc [Hi [_ [F _]]]]]]. exists c, i.
      rewrite (nsides_nf nl ng cnv cv nbs CF) by exact Hc. split; [exact Hc|]. split; [exact Hi|]. rewrite F. reflexivity.
    + intros c i c' i' Hc Hi Hc' Hi'. rewrite (nsides_nf nl ng cnv cv nbs CF) in Hi, Hi' by assumption. rewrite !TP. split.
      * intro X. apply rank_inj in X; [|apply (face_cases nl ng cnv cv nbs CF _ g h U Pa c i Hc Hi)|apply (face_cases nl ng cnv cv nbs CF _ g h U Pa c' i' Hc' Hi')].
        destruct (face_eq nl ng cnv cv nbs CF _ g h U Pa c i c' i' Hc Hi Hc' Hi' X) as [Y|[[Y Y']|[Y Y']]]; [left; exact Y|right; split; [left; exact Y|exact Y']|right].
        split; [right; exact Y|apply common_sym, Y'].
      * intros [[-> ->]|[[Y|Y] C]]; [reflexivity| |].
        -- destruct (pair_face g h Pa c i c' i' Hc Y C) as [_ [_ [_ [-> [-> _]]]]]. reflexivity.
        -- destruct (pair_face g h Pa c' i' c i Hc' Y (common_sym _ _ _ _ _ _ C)) as [_ [_ [_ [-> [-> _]]]]]. reflexivity.
    + intros p c d i j Hp C. destruct (R5 p c d Hp) as [_ [_ [i' [j' [C' [A3 _]]]]]].
      pose proof (proj1 (in_pairs c d) (nth_error_In _ _ Hp)) as [Hl [Lcd [Hd _]]]. assert (Hc : c < ng) by lia.
      destruct (cf_one _ _ _ _ _ CF _ _ _ _ _ _ Hc Hd ltac:(lia) C C') as [-> _]. exact A3.
Qed.

(** The tables of sides and vertices, including the entries that are not used. *)
Theorem tables_ok : exists r, setup_faces cnv cv nbs nl ng true = Ok r /\
  forall c i, c < ng -> i < 6 ->
  (i < nsides cnv c /\ exists f l b k, f < f_num r /\ b < ng /\ i < nsides cnv c /\ k < nsides cnv b /\
     ((b = c /\ k = i) \/ (b < nl /\ b < c /\ common b k c i)) /\
     (exists row, nth_error (f_cells r) i = Some row /\ nth_error row c = Some (Z.of_nat f)) /\
     rotation (side cnv cv b k) l /\ column (f_verts r) f l /\
     (length l = 4 \/ (length l = 3 /\ exists row, nth_error (f_verts r) 3 = Some row /\ nth_error row f = Some (-1)%Z))) \/
  (nsides cnv c <= i /\ exists row, nth_error (f_cells r) i = Some row /\ nth_error row c = Some (-1)%Z).
Proof.
  destruct pipeline as [g [h [v [c2f [f2c' [uf2v [q [w [u [Pa [V [Tq [Q [Tw [W [Tu [Hu [Q2 [V3 E]]]]]]]]]]]]]]]]]]].
  destruct (create_ok g h Pa c2f f2c' q w Tq Q Tw W) as [st [Es _]].
  exists (mkMF (rank (kept h) (6 * ng)) uf2v c2f st). rewrite E, Es. cbn [bind f_num f_verts f_cells].
  split; [reflexivity|]. set (U := treated_upward ng nbs nl 0). intros c i Hc Hi6.
  destruct Tq as [_ Tq]. destruct (Tq i Hi6) as [rq [Erq [_ Nrq]]].
  rewrite (nsides_nf nl ng cnv cv nbs CF) by exact Hc.
  destruct (Nat.lt_ge_cases i (nf c)) as [Hi|Hi].
  - left. split; [exact Hi|].
    pose proof (face_cases nl ng cnv cv nbs CF _ g h U Pa c i Hc Hi) as [_ [K Cases]].
    pose proof (face_bound nl ng cnv cv nbs CF _ g h U Pa c i Hc Hi) as FBd.
    assert (FB : rank (kept h) (face g c i) < rank (kept h) (6 * ng)) by (apply rank_lt; assumption).
    assert (X : exists b k, b < ng /\ k < nf b /\ ((b = c /\ k = i) \/ (b < nl /\ b < c /\ common b k c i)) /\ face g c i = slot b k).
    { destruct Cases as [[b [k [Hb [Lb [Hk [C F]]]]]]|[_ F]].
      - exists b, k. apply (treated_all nl ng cnv cv nbs CF) in Hb. destruct Hb as [Hl [Lt _]]. auto 10.
      - exists c, i. auto 10. }
    destruct X as [b [k [Hb [Hk [O F]]]]].
    exists (rank (kept h) (face g c i)), (vtx cnv cv b k), b, k. split; [exact FB|]. split; [exact Hb|]. split; [exact Hi|].
    split; [rewrite (nsides_nf nl ng cnv cv nbs CF) by exact Hb; exact Hk|]. split; [exact O|].
    split; [exists rq; split; [exact Erq|]; rewrite Nrq by exact Hc; rewrite Q by assumption; reflexivity|].
    split; [apply (side_rotation nl ng cnv cv nbs CF); assumption|].
    pose proof (face_vertices_bound _ _ Hk) as B4. destruct Tu as [_ Tu].
    assert (UU : forall k', k' < 4 -> exists rw, nth_error uf2v k' = Some rw /\ nth_error rw (rank (kept h) (face g c i)) = Some (v k' (slot b k))).
    { intros k' Hk'. destruct (Tu k' Hk') as [rw [E1 [_ E2]]]. exists rw. split; [exact E1|]. rewrite E2 by exact FB. rewrite Hu by assumption. rewrite F. reflexivity. }
    split.
    + intros k' x Hx. pose proof (nth_lt _ _ _ Hx) as Lk. rewrite vtx_length in Lk by exact Hk. unfold nvf in Lk.
      destruct (UU k' ltac:(lia)) as [rw [E1 E2]]. exists rw. split; [exact E1|]. rewrite E2. f_equal.
      rewrite V by assumption. apply nth_error_nth with (d := 0%Z) in Hx. exact Hx.
    + rewrite vtx_length by exact Hk. unfold nvf. destruct (Nat.eq_dec (NumFaceVertices (kind b) k) 4) as [->|N4]; [left; reflexivity|right].
      split; [lia|]. destruct (UU 3 ltac:(lia)) as [rw [E1 E2]]. exists rw. split; [exact E1|]. rewrite E2. f_equal. apply V3; [exact Hk|]. unfold nvf. lia.
  - right. split; [exact Hi|]. exists rq. split; [exact Erq|]. rewrite Nrq by exact Hc. f_equal. apply Q2, Hi.
Qed.
End Mesh.
