(** Proofs about the transmissibility matrices of Mpfao.v. *)
From Coq Require Import Reals List Bool Arith Lia Lra.
From Verif Require Import Prelude Arrays SpecFvtpf FvtpfSumProofs Mpfao SpecMpfao.
Import ListNotations.
Local Open Scope R_scope.

(** * Sums *)
Lemma acc_total : forall f n, acc f n = total f n.
Proof. intros f n; induction n as [|n IH]; [reflexivity|]. simpl. rewrite IH. reflexivity. Qed.
Lemma total_app : forall f a b, total f (a + b) = total f a + total (fun k => f (a + k)%nat) b.
Proof.
  intros f a b; induction b as [|b IH].
  - rewrite Nat.add_0_r. simpl. ring.
  - rewrite Nat.add_succ_r. simpl. rewrite IH. ring.
Qed.
Lemma total_opp : forall f n, total (fun k => - f k) n = - total f n.
Proof. intros f n; induction n as [|n IH]; simpl; [ring|rewrite IH; ring]. Qed.
Lemma total_scale_l : forall f c n, total (fun k => c * f k) n = c * total f n.
Proof. intros f c n; induction n as [|n IH]; simpl; [ring|rewrite IH; ring]. Qed.
Lemma total_one : forall (x : R) (a : nat) (pi : nat -> R) n, (a < n)%nat ->
  total (fun k => (if (k =? a)%nat then x else 0) * pi k) n = x * pi a.
Proof.
  intros x a pi n; induction n as [|n IH]; intros H; [lia|]. simpl.
  destruct (Nat.eq_dec a n) as [E|E].
  - subst a. rewrite Nat.eqb_refl.
    rewrite (total_ext _ (fun _ => 0)).
    + rewrite total_zero. ring.
    + intros i Hi. destruct (i =? n)%nat eqn:E; [apply Nat.eqb_eq in E; lia|]. ring.
  - rewrite IH by lia. destruct (n =? a)%nat eqn:E'; [apply Nat.eqb_eq in E'; lia|]. ring.
Qed.

(** * The C and F matrices *)
Lemma put_inv : forall M i j x M', put M i j x = Ok M' ->
  (i < m_rows M)%nat /\ (j < m_cols M)%nat /\ m_rows M' = m_rows M /\ m_cols M' = m_cols M /\
  forall r c, m_el M' r c = if (r =? i)%nat && (c =? j)%nat then x else m_el M r c.
Proof.
  intros M i j x M' H. unfold put in H.
  destruct ((i <? m_rows M)%nat && (j <? m_cols M)%nat) eqn:E; [|discriminate].
  apply andb_prop in E. destruct E as [E1 E2]. apply Nat.ltb_lt in E1, E2.
  injection H as <-. simpl. repeat split; auto.
Qed.
Lemma put_ok : forall M i j x, (i < m_rows M)%nat -> (j < m_cols M)%nat -> exists M', put M i j x = Ok M'.
Proof.
  intros M i j x H1 H2. unfold put.
  apply Nat.ltb_lt in H1, H2. rewrite H1, H2. simpl. eauto.
Qed.

Definition c_row (s : subcell) (f : sface) (k : nat) (old : R) : R :=
  let '(f0, f1, f2) := s in
  let '(g0, g1, g2) := sf_g f in
  if (k =? sf_unk f2)%nat then - g2 else if (k =? sf_unk f1)%nat then - g1
  else if (k =? sf_unk f0)%nat then - g0 else old.

Lemma put_row_inv : forall C s f C', put_row C s f = Ok C' ->
  m_rows C' = m_rows C /\ m_cols C' = m_cols C /\
  (forall k, In k (map sf_unk (sfaces s)) -> (k < m_cols C)%nat) /\ (sf_flux f < m_rows C)%nat /\
  forall r k, m_el C' r k = if (r =? sf_flux f)%nat then c_row s f k (m_el C r k) else m_el C r k.
Proof.
  intros C [[f0 f1] f2] f C' H. unfold put_row in H. unfold c_row. destruct (sf_g f) as [[g0 g1] g2].
  destruct (put C (sf_flux f) (sf_unk f0) (- g0)) as [C1| |] eqn:E1; cbn [bind] in H; try discriminate.
  destruct (put C1 (sf_flux f) (sf_unk f1) (- g1)) as [C2| |] eqn:E2; cbn [bind] in H; try discriminate.
  apply put_inv in E1, E2, H.
  destruct E1 as [A1 [A2 [A3 [A4 A5]]]]. destruct E2 as [B1 [B2 [B3 [B4 B5]]]]. destruct H as [D1 [D2 [D3 [D4 D5]]]].
  repeat split; try congruence.
  - simpl. intros k [<-|[<-|[<-|[]]]]; congruence.
  - intros r k. rewrite D5, B5, A5.
    destruct (r =? sf_flux f)%nat; simpl; [|reflexivity].
    destruct (k =? sf_unk f2)%nat, (k =? sf_unk f1)%nat, (k =? sf_unk f0)%nat; reflexivity.
Qed.
Lemma put_row_ok : forall C s f, (sf_flux f < m_rows C)%nat ->
  (forall k, In k (map sf_unk (sfaces s)) -> (k < m_cols C)%nat) -> exists C', put_row C s f = Ok C'.
Proof.
  intros C [[f0 f1] f2] f Hr Hc. unfold put_row. destruct (sf_g f) as [[g0 g1] g2].
  destruct (put_ok C (sf_flux f) (sf_unk f0) (- g0)) as [C1 E1]; [exact Hr|apply Hc; simpl; auto|].
  rewrite E1. cbn [bind]. apply put_inv in E1. destruct E1 as [_ [_ [R1 [K1 _]]]].
  destruct (put_ok C1 (sf_flux f) (sf_unk f1) (- g1)) as [C2 E2];
    [rewrite R1; exact Hr|rewrite K1; apply Hc; simpl; auto|].
  rewrite E2. cbn [bind]. apply put_inv in E2. destruct E2 as [_ [_ [R2 [K2 _]]]].
  apply put_ok; [rewrite R2, R1; exact Hr|rewrite K2, K1; apply Hc; simpl; auto].
Qed.

Definition selC (b : bool) (m : cf) : mat := if b then Cup m else Cdn m.
Definition selF (b : bool) (m : cf) : mat := if b then Fup m else Fdn m.
Definition same_dims (m m' : cf) : Prop :=
  forall b, m_rows (selC b m') = m_rows (selC b m) /\ m_cols (selC b m') = m_cols (selC b m) /\
            m_rows (selF b m') = m_rows (selF b m) /\ m_cols (selF b m') = m_cols (selF b m).
Definition hits (b : bool) (r : nat) (f : sface) : bool := side b f && (r =? sf_flux f)%nat.

Lemma cf_face_inv : forall a s f m m', cf_face a s f m = Ok m' ->
  same_dims m m' /\
  forall b r, (forall k, m_el (selC b m') r k = if hits b r f then c_row s f k (m_el (selC b m) r k) else m_el (selC b m) r k) /\
              (forall k, m_el (selF b m') r k = if hits b r f && (k =? a)%nat then minus_sum f else m_el (selF b m) r k).
Proof.
  intros a s f m m' H. unfold cf_face in H. unfold hits, side, same_dims.
  destruct (sf_up f) eqn:Eu.
  - destruct (put_row (Cup m) s f) as [C| |] eqn:EC; cbn [bind] in H; try discriminate.
    destruct (put (Fup m) (sf_flux f) a (minus_sum f)) as [F| |] eqn:EF; cbn [bind] in H; try discriminate.
    injection H as <-. apply put_row_inv in EC. apply put_inv in EF.
    destruct EC as [C1 [C2 [_ [_ C5]]]]. destruct EF as [_ [_ [F1 [F2 F3]]]].
    split; [intros [|]; simpl; auto|].
    intros [|] r; simpl; split; intros k; auto.
  - destruct (put_row (Cdn m) s f) as [C| |] eqn:EC; cbn [bind] in H; try discriminate.
    destruct (put (Fdn m) (sf_flux f) a (minus_sum f)) as [F| |] eqn:EF; cbn [bind] in H; try discriminate.
    injection H as <-. apply put_row_inv in EC. apply put_inv in EF.
    destruct EC as [C1 [C2 [_ [_ C5]]]]. destruct EF as [_ [_ [F1 [F2 F3]]]].
    split; [intros [|]; simpl; auto|].
    intros [|] r; simpl; split; intros k; auto.
Qed.
Lemma cf_face_ok : forall a s f m,
  (sf_flux f < m_rows (selC (sf_up f) m))%nat -> (sf_flux f < m_rows (selF (sf_up f) m))%nat ->
  (forall k, In k (map sf_unk (sfaces s)) -> (k < m_cols (selC (sf_up f) m))%nat) ->
  (a < m_cols (selF (sf_up f) m))%nat -> exists m', cf_face a s f m = Ok m'.
Proof.
  intros a s f m H1 H2 H3 H4. unfold cf_face. destruct (sf_up f); simpl in *.
  - destruct (put_row_ok (Cup m) s f H1 H3) as [C E]. rewrite E. cbn [bind].
    destruct (put_ok (Fup m) (sf_flux f) a (minus_sum f) H2 H4) as [F E']. rewrite E'. cbn [bind]. eauto.
  - destruct (put_row_ok (Cdn m) s f H1 H3) as [C E]. rewrite E. cbn [bind].
    destruct (put_ok (Fdn m) (sf_flux f) a (minus_sum f) H2 H4) as [F E']. rewrite E'. cbn [bind]. eauto.
Qed.

(** The faces with their cell number and sub-cell, in the order of the loops. *)
Fixpoint placed (i : nat) (l : list subcell) : list (nat * subcell * sface) :=
  match l with
  | [] => []
  | s :: l => map (fun f => (i, s, f)) (sfaces s) ++ placed (S i) l
  end.
Fixpoint cf_list (L : list (nat * subcell * sface)) (m : cf) : outcome cf :=
  match L with
  | [] => Ok m
  | (i, s, f) :: L => do m <- cf_face i s f m; cf_list L m
  end.
Lemma cf_list_app : forall L L' m, cf_list (L ++ L') m = do m <- cf_list L m; cf_list L' m.
Proof.
  induction L as [|[[i s] f] L IH]; intros L' m; [reflexivity|]. simpl.
  destruct (cf_face i s f m); cbn [bind]; auto.
Qed.
Lemma cf_cells_list : forall l i m, cf_cells i l m = cf_list (placed i l) m.
Proof.
  induction l as [|s l IH]; intros i m; [reflexivity|]. cbn [cf_cells placed].
  rewrite cf_list_app. unfold cf_subcell. destruct s as [[f0 f1] f2]. cbn [sfaces map cf_list].
  destruct (cf_face i (f0, f1, f2) f0 m) as [m1| |]; cbn [bind]; auto.
  destruct (cf_face i (f0, f1, f2) f1 m1) as [m2| |]; cbn [bind]; auto.
  destruct (cf_face i (f0, f1, f2) f2 m2) as [m3| |]; cbn [bind]; auto.
Qed.
Lemma placed_faces : forall l i, map snd (placed i l) = flat_map sfaces l.
Proof.
  induction l as [|s l IH]; intros i; [reflexivity|]. simpl. rewrite map_app, IH, map_map. simpl.
  rewrite map_id. reflexivity.
Qed.
Lemma placed_in : forall l i a s f, In (a, s, f) (placed i l) ->
  (i <= a)%nat /\ nth_error l (a - i) = Some s /\ In f (sfaces s).
Proof.
  induction l as [|t l IH]; intros i a s f H; [contradiction|]. simpl in H. apply in_app_or in H.
  destruct H as [H|H].
  - apply in_map_iff in H. destruct H as [h [E Hh]]. injection E as <- <- <-.
    rewrite Nat.sub_diag. auto.
  - apply IH in H. destruct H as [H1 [H2 H3]]. split; [lia|]. split; [|exact H3].
    replace (a - i)%nat with (S (a - S i)) by lia. exact H2.
Qed.
Lemma in_placed : forall l i a s f, nth_error l a = Some s -> In f (sfaces s) -> In ((i + a)%nat, s, f) (placed i l).
Proof.
  induction l as [|t l IH]; intros i a s f H Hf; [destruct a; discriminate|].
  simpl. apply in_or_app. destruct a as [|a].
  - left. injection H as <-. rewrite Nat.add_0_r. apply in_map_iff. exists f. auto.
  - right. replace (i + S a)%nat with (S i + a)%nat by lia. apply IH; assumption.
Qed.

Lemma hits_refl : forall f, hits (sf_up f) (sf_flux f) f = true.
Proof. intros f. unfold hits, side. rewrite Nat.eqb_refl, eqb_reflx. reflexivity. Qed.

(** After the loops: the row of each face holds its entries, the other rows are as before. *)
Lemma cf_list_inv : forall L m m', cf_list L m = Ok m' ->
  (forall b, NoDup (map sf_flux (filter (side b) (map snd L)))) ->
  same_dims m m' /\
  (forall b r, (forall a s f, In (a, s, f) L -> hits b r f = false) ->
     (forall k, m_el (selC b m') r k = m_el (selC b m) r k) /\ (forall k, m_el (selF b m') r k = m_el (selF b m) r k)) /\
  (forall a s f, In (a, s, f) L ->
     (forall k, m_el (selC (sf_up f) m') (sf_flux f) k = c_row s f k (m_el (selC (sf_up f) m) (sf_flux f) k)) /\
     (forall k, m_el (selF (sf_up f) m') (sf_flux f) k =
                if (k =? a)%nat then minus_sum f else m_el (selF (sf_up f) m) (sf_flux f) k)).
Proof.
  induction L as [|[[i s] f] L IH]; intros m m' H Hd.
  - injection H as <-. split; [intros b; auto|]. split; [auto|contradiction].
  - simpl in H. destruct (cf_face i s f m) as [m1| |] eqn:E; cbn [bind] in H; try discriminate.
    apply cf_face_inv in E. destruct E as [Hs He].
    assert (Hd' : forall b, NoDup (map sf_flux (filter (side b) (map snd L)))).
    { intros b. specialize (Hd b). simpl in Hd. destruct (side b f); [|exact Hd].
      simpl in Hd. apply NoDup_cons_iff in Hd. apply Hd. }
    destruct (IH m1 m' H Hd') as [Hs' [Hn Hy]].
    assert (Hfresh : forall a' s' f', In (a', s', f') L -> hits (sf_up f) (sf_flux f) f' = false).
    { intros a' s' f' Hin. unfold hits. destruct (side (sf_up f) f') eqn:Es; [|reflexivity]. simpl.
      apply Nat.eqb_neq. intros Eq. specialize (Hd (sf_up f)). simpl in Hd.
      unfold side at 1 in Hd. rewrite eqb_reflx in Hd. simpl in Hd. apply NoDup_cons_iff in Hd.
      destruct Hd as [Hd _]. apply Hd. rewrite Eq. apply in_map. apply filter_In. split; [|exact Es].
      apply (in_map snd) in Hin. exact Hin. }
    split; [|split].
    + intros b. destruct (Hs b) as [A1 [A2 [A3 A4]]]. destruct (Hs' b) as [B1 [B2 [B3 B4]]].
      repeat split; congruence.
    + intros b r Hno. destruct (Hn b r) as [N1 N2]; [intros a' s' f' Hin; apply (Hno a' s' f'); right; exact Hin|].
      destruct (He b r) as [E1 E2]. rewrite (Hno i s f) in E1, E2 by (left; reflexivity).
      split; intros k; [rewrite N1; apply E1|rewrite N2; apply E2].
    + intros a' s' f' [Eq|Hin].
      * injection Eq as <- <- <-. destruct (Hn (sf_up f) (sf_flux f)) as [N1 N2]; [exact Hfresh|].
        destruct (He (sf_up f) (sf_flux f)) as [E1 E2]. rewrite hits_refl in E1, E2.
        split; intros k; [rewrite N1; apply E1|rewrite N2; apply E2].
      * destruct (Hy a' s' f' Hin) as [Y1 Y2]. destruct (He (sf_up f') (sf_flux f')) as [E1 E2].
        assert (Hh : hits (sf_up f') (sf_flux f') f = false).
        { destruct (hits (sf_up f') (sf_flux f') f) eqn:Hh; [|reflexivity].
          unfold hits in Hh. apply andb_prop in Hh. destruct Hh as [Hh1 Hh2].
          apply eqb_prop in Hh1. apply Nat.eqb_eq in Hh2.
          specialize (Hfresh a' s' f' Hin). rewrite Hh1, <- Hh2, hits_refl in Hfresh. discriminate. }
        rewrite Hh in E1, E2. split; intros k; [rewrite Y1, E1; reflexivity|rewrite Y2, E2; reflexivity].
Qed.
Lemma cf_list_ok : forall L m,
  (forall a s f, In (a, s, f) L ->
    (sf_flux f < m_rows (selC (sf_up f) m))%nat /\ (sf_flux f < m_rows (selF (sf_up f) m))%nat /\
    (forall k, In k (map sf_unk (sfaces s)) -> (k < m_cols (selC (sf_up f) m))%nat) /\
    (a < m_cols (selF (sf_up f) m))%nat) -> exists m', cf_list L m = Ok m'.
Proof.
  induction L as [|[[i s] f] L IH]; intros m H; [simpl; eauto|]. simpl.
  destruct (H i s f) as [H1 [H2 [H3 H4]]]; [left; reflexivity|].
  destruct (cf_face_ok i s f m H1 H2 H3 H4) as [m1 E]. rewrite E. cbn [bind].
  apply cf_face_inv in E. destruct E as [Hs _]. apply IH.
  intros a' s' f' Hin. destruct (H a' s' f') as [G1 [G2 [G3 G4]]]; [right; exact Hin|].
  destruct (Hs (sf_up f')) as [D1 [D2 [D3 D4]]]. rewrite D1, D2, D3, D4. auto.
Qed.

(** * Column-major arrays *)
Lemma flat_map_length : forall (col : nat -> list R) h l, (forall j, In j l -> length (col j) = h) ->
  length (flat_map col l) = (length l * h)%nat.
Proof.
  intros col h l; induction l as [|x l IH]; intros H; [reflexivity|]. simpl.
  rewrite app_length, (H x), IH; auto; [intros j Hj; apply H; right; exact Hj|left; reflexivity].
Qed.
Lemma cm_flat_map : forall (col : nat -> list R) h l i j x, (forall j, In j l -> length (col j) = h) ->
  (i < h)%nat -> nth_error l j = Some x -> nth (j * h + i) (flat_map col l) 0 = nth i (col x) 0.
Proof.
  intros col h l; induction l as [|y l IH]; intros i j x H Hi Hj; [destruct j; discriminate|].
  assert (Hy : length (col y) = h) by (apply H; left; reflexivity). simpl.
  destruct j as [|j].
  - injection Hj as <-. simpl. rewrite app_nth1 by lia. reflexivity.
  - simpl in Hj. rewrite app_nth2; rewrite Hy; [|simpl; lia].
    replace (S j * h + i - h)%nat with (j * h + i)%nat by (simpl; lia).
    apply IH; auto. intros k Hk. apply H. right. exact Hk.
Qed.
Lemma nth_error_seq0 : forall n j, (j < n)%nat -> nth_error (seq 0 n) j = Some j.
Proof.
  intros n j H. destruct (nth_error (seq 0 n) j) as [x|] eqn:E.
  - f_equal. pose proof (nth_error_nth _ _ 0%nat E) as E'. rewrite seq_nth in E' by exact H. lia.
  - apply nth_error_None in E. rewrite seq_length in E. lia.
Qed.
Lemma cm_seq : forall (col : nat -> list R) h n i j, (forall j, length (col j) = h) ->
  (i < h)%nat -> (j < n)%nat -> cm h (flat_map col (seq 0 n)) i j = nth i (col j) 0.
Proof. intros. unfold cm. apply cm_flat_map; auto. apply nth_error_seq0. assumption. Qed.
Lemma cm_two : forall (c1 c2 : nat -> list R) h n1 n2 i j, (forall j, length (c1 j) = h) -> (forall j, length (c2 j) = h) ->
  (i < h)%nat -> (j < n1 + n2)%nat ->
  cm h (flat_map c1 (seq 0 n1) ++ flat_map c2 (seq 0 n2)) i j =
  if (j <? n1)%nat then nth i (c1 j) 0 else nth i (c2 (j - n1)%nat) 0.
Proof.
  intros c1 c2 h n1 n2 i j H1 H2 Hi Hj. unfold cm.
  assert (L1 : length (flat_map c1 (seq 0 n1)) = (n1 * h)%nat) by (rewrite (flat_map_length _ h), seq_length; auto).
  destruct (Nat.ltb_spec j n1) as [Hlt|Hge].
  - rewrite app_nth1.
    + apply cm_flat_map; auto. apply nth_error_seq0. exact Hlt.
    + rewrite L1. nia.
  - rewrite app_nth2; rewrite L1; [|nia].
    replace (j * h + i - n1 * h)%nat with ((j - n1) * h + i)%nat by nia.
    apply cm_flat_map; auto. apply nth_error_seq0. lia.
Qed.
Lemma map_seq_nth : forall (f : nat -> R) n i, (i < n)%nat -> nth i (map f (seq 0 n)) 0 = f i.
Proof.
  intros f n i H. rewrite (nth_indep _ 0 (f 0%nat)) by (rewrite map_length, seq_length; exact H).
  rewrite map_nth, seq_nth by exact H. reflexivity.
Qed.
Lemma column_length : forall a b c f g h, length (column a b c f g h) = (a + (b + c))%nat.
Proof. intros. unfold column. rewrite !app_length, !map_length, !seq_length. reflexivity. Qed.
Lemma column_in : forall a b c f g h i, (i < a)%nat -> nth i (column a b c f g h) 0 = f i.
Proof.
  intros. unfold column. rewrite app_nth1 by (rewrite map_length, seq_length; assumption).
  apply map_seq_nth. assumption.
Qed.
Lemma column_up : forall a b c f g h i, (i < b)%nat -> nth (a + i) (column a b c f g h) 0 = g i.
Proof.
  intros. unfold column. rewrite app_nth2; rewrite map_length, seq_length; [|lia].
  replace (a + i - a)%nat with i by lia.
  rewrite app_nth1 by (rewrite map_length, seq_length; assumption). apply map_seq_nth. assumption.
Qed.
Lemma column_dn : forall a b c f g h i, (i < c)%nat -> nth (a + b + i) (column a b c f g h) 0 = h i.
Proof.
  intros. unfold column. rewrite app_nth2; rewrite map_length, seq_length; [|lia].
  rewrite app_nth2; rewrite map_length, seq_length; [|lia].
  replace (a + b + i - a - b)%nat with i by lia. apply map_seq_nth. assumption.
Qed.

Lemma cm_gemm : forall m n k C X i j, (i < m)%nat -> (j < n)%nat ->
  cm m (gemm m n k C X) i j = total (fun l => cm m C i l * cm k X l j) k.
Proof.
  intros m n k C X i j Hi Hj. unfold gemm. rewrite cm_seq; auto.
  - rewrite map_seq_nth by exact Hi. apply acc_total.
  - intros q. rewrite map_length, seq_length. reflexivity.
Qed.
(** C (X u) is (C X) u. *)
Lemma gemm_apply : forall m n k C X u i, (i < m)%nat ->
  total (fun j => cm m (gemm m n k C X) i j * u j) n =
  total (fun l => cm m C i l * total (fun j => cm k X l j * u j) n) k.
Proof.
  intros m n k C X u i Hi.
  rewrite (total_ext _ (fun j => total (fun l => cm m C i l * (cm k X l j * u j)) k)).
  - rewrite total_swap. apply total_ext. intros l Hl. rewrite total_scale_l. reflexivity.
  - intros j Hj. rewrite cm_gemm by assumption. rewrite <- total_scale. apply total_ext. intros; ring.
Qed.
Lemma solves_apply : forall n m A B X u i, solves n m A B X -> (i < n)%nat ->
  total (fun k => cm n A i k * total (fun j => cm n X k j * u j) m) n = total (fun j => cm n B i j * u j) m.
Proof.
  intros n m A B X u i [_ H] Hi.
  rewrite (total_ext _ (fun k => total (fun j => cm n A i k * (cm n X k j * u j)) m)).
  - rewrite total_swap. apply total_ext. intros j Hj. pose proof (H i j Hi Hj) as E. rewrite acc_total in E. rewrite <- E.
    rewrite <- (total_scale (fun k => cm n A i k * cm n X k j) (u j) n).
    apply total_ext. intros; ring.
  - intros k Hk. rewrite total_scale_l. reflexivity.
Qed.

(** * The entries of the global matrix *)
Lemma mult_app : forall l l' P row, mult (l ++ l') P row = mult l P row + mult l' P row.
Proof.
  induction l as [|[[r c] x] l IH]; intros l' P row; simpl; [ring|]. rewrite IH. ring.
Qed.
Lemma rows_inv : forall (T : nat -> nat -> R) rows cols n w l,
  for_ n (fun i l => do row <- rd rows i;
    for_ w (fun j l => do col <- rd cols j; Ok (l ++ [(row, col, T i j)])) l) [] = Ok l ->
  forall P row, mult l P row =
    total (fun i => if (nth i rows 0 =? row)%nat then total (fun j => T i j * P (nth j cols 0%nat)) w else 0) n.
Proof.
  intros T rows cols n w l H P row.
  refine (for_preserves (fun k l => mult l P row =
    total (fun i => if (nth i rows 0 =? row)%nat then total (fun j => T i j * P (nth j cols 0%nat)) w else 0) k) _ _ _ _ H _ _).
  - reflexivity.
  - intros i s s' Hi IH E. destruct (rd rows i) as [r| |] eqn:Er; cbn [bind] in E; try discriminate.
    apply rd_inv in Er. simpl. rewrite (nth_error_nth _ _ 0%nat Er), <- IH.
    refine (for_preserves (fun k l => mult l P row = mult s P row +
      (if (r =? row)%nat then total (fun j => T i j * P (nth j cols 0%nat)) k else 0)) _ _ _ _ E _ _).
    + destruct (r =? row)%nat; simpl; ring.
    + intros j t t' Hj IHj E'. destruct (rd cols j) as [c| |] eqn:Ec; cbn [bind] in E'; try discriminate.
      injection E' as <-. apply rd_inv in Ec. rewrite mult_app, IHj. simpl.
      rewrite (nth_error_nth _ _ 0%nat Ec). destruct (r =? row)%nat; ring.
Qed.
Lemma rows_value : forall (T : nat -> nat -> R) rows cols n w l,
  for_ n (fun i l => do row <- rd rows i;
    for_ w (fun j l => do col <- rd cols j; Ok (l ++ [(row, col, T i j)])) l) [] = Ok l ->
  NoDup rows -> (n <= length rows)%nat -> forall P i row, (i < n)%nat -> nth_error rows i = Some row ->
  mult l P row = total (fun j => T i j * P (nth j cols 0%nat)) w.
Proof.
  intros T rows cols n w l H Hd Hn P i row Hi Hrow. rewrite (rows_inv _ _ _ _ _ _ H).
  rewrite (total_ext _ (fun k => (if (k =? i)%nat then 1 else 0) * (total (fun j => T k j * P (nth j cols 0%nat)) w))).
  - rewrite total_one by exact Hi. ring.
  - intros k Hk. destruct (Nat.eqb_spec k i) as [E|E].
    + subst k. rewrite (nth_error_nth _ _ 0%nat Hrow), Nat.eqb_refl. ring.
    + destruct (Nat.eqb_spec (nth k rows 0%nat) row) as [E'|E']; [|ring].
      exfalso. apply E. apply (proj1 (NoDup_nth rows 0%nat) Hd); try lia.
      rewrite E'. symmetry. apply nth_error_nth. exact Hrow.
Qed.
Lemma rows_other : forall (T : nat -> nat -> R) rows cols n w l,
  for_ n (fun i l => do row <- rd rows i;
    for_ w (fun j l => do col <- rd cols j; Ok (l ++ [(row, col, T i j)])) l) [] = Ok l ->
  forall P row, (forall i, (i < n)%nat -> nth_error rows i <> Some row) -> (n <= length rows)%nat -> mult l P row = 0.
Proof.
  intros T rows cols n w l H P row Hno Hn. rewrite (rows_inv _ _ _ _ _ _ H).
  rewrite (total_ext _ (fun _ => 0)); [apply total_zero|].
  intros i Hi. destruct (Nat.eqb_spec (nth i rows 0%nat) row) as [E|E]; [|reflexivity].
  exfalso. apply (Hno i Hi). rewrite <- E. apply nth_error_nth'. lia.
Qed.
Lemma rows_ok : forall (T : nat -> nat -> R) (rows cols : list nat) n w, (n <= length rows)%nat -> (w <= length cols)%nat ->
  exists l, for_ n (fun i l => do row <- rd rows i;
    for_ w (fun j l => do col <- rd cols j; Ok (l ++ [(row, col, T i j)])) l) [] = Ok l.
Proof.
  intros T rows cols n w Hn Hw.
  destruct (for_inv (fun _ _ => True) (fun i l => do row <- rd rows i;
    for_ w (fun j l => do col <- rd cols j; Ok (l ++ [(row, col, T i j)])) l) n [] I) as [l [E _]].
  - intros i s Hi _. destruct (rd_ok rows i) as [r [Er _]]; [lia|]. rewrite Er. cbn [bind].
    destruct (for_inv (fun _ _ => True) (fun j l => do col <- rd cols j; Ok (l ++ [(r, col, T i j)])) w s I) as [l [E _]].
    + intros j t Hj _. destruct (rd_ok cols j) as [c [Ec _]]; [lia|]. rewrite Ec. cbn [bind]. eauto.
    + exists l. auto.
  - exists l. exact E.
Qed.

(** * One vertex *)
Lemma total_three : forall n (a b c : nat) (x y z : R) (pi : nat -> R),
  (a < n)%nat -> (b < n)%nat -> (c < n)%nat -> a <> b -> a <> c -> b <> c ->
  total (fun k => (if (k =? c)%nat then z else if (k =? b)%nat then y else if (k =? a)%nat then x else 0) * pi k) n =
  x * pi a + y * pi b + z * pi c.
Proof.
  intros n a b c x y z pi Ha Hb Hc Hab Hac Hbc.
  rewrite <- (total_one x a pi n Ha), <- (total_one y b pi n Hb), <- (total_one z c pi n Hc).
  rewrite <- !total_plus. apply total_ext. intros k _.
  destruct (Nat.eqb_spec k a), (Nat.eqb_spec k b), (Nat.eqb_spec k c); subst; try congruence; ring.
Qed.

Section Vertex.
Variable b : bctype.
Variable v : vertex.
Hypothesis Hv : well_numbered v.
Let z := sizes_of b v.
Variable m : cf.
Hypothesis Hm : ComputeCandF z v = Ok m.

Lemma bnd_faces_filter : boundary_faces v = filter is_bnd (all_faces v).
Proof. reflexivity. Qed.
Lemma filter_filter : forall {A} (p q : A -> bool) l, filter p (filter q l) = filter (fun x => q x && p x) l.
Proof.
  intros A p q l; induction l as [|x l IH]; [reflexivity|]. simpl.
  destruct (q x); simpl; [destruct (p x); simpl; congruence|exact IH].
Qed.
Lemma nbc_up_count : nbc_up v = count (fun h => is_bnd h && sf_up h) v.
Proof. unfold nbc_up, count. rewrite bnd_faces_filter, filter_filter. reflexivity. Qed.
Lemma nbc_dn_count : nbc_dn v = count (fun h => is_bnd h && negb (sf_up h)) v.
Proof. unfold nbc_dn, count. rewrite bnd_faces_filter, filter_filter. reflexivity. Qed.
Lemma nbc_total : (nbc_up v + nbc_dn v = count is_bnd v)%nat.
Proof.
  unfold nbc_up, nbc_dn, count. rewrite bnd_faces_filter.
  generalize (filter is_bnd (all_faces v)). intros l; induction l as [|f l IH]; [reflexivity|].
  simpl. destruct (sf_up f); simpl; lia.
Qed.
Lemma count_ext : forall p q w, (forall f, p f = q f) -> count p w = count q w.
Proof. intros p q w H. unfold count. f_equal. apply filter_ext. exact H. Qed.
Lemma inner_in : nflux_in z = inner v.
Proof.
  clear Hm. unfold z, sizes_of, inner. rewrite <- nbc_total. destruct b; reflexivity.
Qed.
Lemma npcen_len : npcen z = length (v_sub v).
Proof. clear Hm. unfold z, sizes_of. rewrite <- (wn_cells v Hv). destruct b; reflexivity. Qed.

Lemma outer_bound : forall f, In f (all_faces v) -> sf_internal f = false ->
  (inner v <= sf_flux f < inner v + (if sf_up f then nbc_up v else nbc_dn v))%nat.
Proof.
  intros f Hf Hb. pose proof (wn_outer v Hv f Hf Hb) as H.
  destruct (sf_up f) eqn:E.
  - rewrite nbc_up_count. rewrite (count_ext _ (fun h => is_bnd h && sf_up h)) in H; [exact H|].
    intros h. unfold side. destruct (sf_up h); reflexivity.
  - rewrite nbc_dn_count. rewrite (count_ext _ (fun h => is_bnd h && negb (sf_up h))) in H; [exact H|].
    intros h. unfold side. destruct (sf_up h); reflexivity.
Qed.
Lemma unknown_bound : forall f, In f (all_faces v) -> (sf_unk f < inner v + v_nbnd v)%nat.
Proof.
  intros f Hf. destruct (sf_internal f) eqn:E.
  - destruct (wn_inner v Hv f Hf E). lia.
  - assert (Hin : In f (filter is_bnd (all_faces v))) by (apply filter_In; split; [exact Hf|unfold is_bnd; rewrite E; reflexivity]).
    apply In_nth_error in Hin. destruct Hin as [j Hj]. rewrite (wn_outer_unknown v Hv j f Hj), (wn_bnd v Hv).
    apply nth_lt in Hj. unfold count. lia.
Qed.
Lemma face_in : forall a s f, nth_error (v_sub v) a = Some s -> In f (sfaces s) -> In f (all_faces v).
Proof. intros a s f Ha Hf. unfold all_faces. apply in_flat_map. exists s. split; [eapply nth_error_In; exact Ha|exact Hf]. Qed.

Lemma cf_rows :
  (forall bb r, (forall f, In f (all_faces v) -> hits bb r f = false) ->
     (forall k, m_el (selC bb m) r k = 0) /\ (forall k, m_el (selF bb m) r k = 0)) /\
  (forall a s f, nth_error (v_sub v) a = Some s -> In f (sfaces s) ->
     (forall k, m_el (selC (sf_up f) m) (sf_flux f) k = c_row s f k 0) /\
     (forall k, m_el (selF (sf_up f) m) (sf_flux f) k = if (k =? a)%nat then minus_sum f else 0)).
Proof.
  pose proof Hm as H. unfold ComputeCandF in H. rewrite cf_cells_list in H.
  apply cf_list_inv in H; [|intros bb; rewrite placed_faces; apply (wn_flux_distinct v Hv)].
  destruct H as [_ [Hn Hy]]. split.
  - intros bb r Hno. destruct (Hn bb r) as [N1 N2].
    + intros a s f Hin. apply Hno. unfold all_faces. rewrite <- (placed_faces _ 0).
      apply (in_map snd) in Hin. exact Hin.
    + split; intros k; [rewrite N1|rewrite N2]; destruct bb; reflexivity.
  - intros a s f Ha Hf. destruct (Hy a s f) as [Y1 Y2]; [apply (in_placed _ 0 a s f Ha Hf)|].
    split; intros k; [rewrite Y1|rewrite Y2]; destruct (sf_up f); reflexivity.
Qed.

(** The row of a face applied to interface and cell pressures is the side flux. *)
Lemma row_flux : forall a s f pi (p : nat -> R), nth_error (v_sub v) a = Some s -> In f (sfaces s) ->
  total (fun k => m_el (selC (sf_up f) m) (sf_flux f) k * pi k) (inner v + v_nbnd v) -
  total (fun j => m_el (selF (sf_up f) m) (sf_flux f) j * p j) (npcen z) = side_flux s f (p a) pi.
Proof.
  intros a s f pi p Ha Hf. destruct cf_rows as [_ Hrow]. destruct (Hrow a s f Ha Hf) as [Hc HF].
  rewrite (total_ext _ (fun k => c_row s f k 0 * pi k)) by (intros k _; rewrite Hc; reflexivity).
  rewrite (total_ext (fun j => m_el (selF (sf_up f) m) (sf_flux f) j * p j)
    (fun j => (if (j =? a)%nat then minus_sum f else 0) * p j)) by (intros k _; rewrite HF; reflexivity).
  rewrite total_one by (rewrite npcen_len; eapply nth_lt; exact Ha).
  pose proof (wn_unknowns_distinct v Hv s (nth_error_In _ _ Ha)) as Hd.
  assert (Hin : forall h, In h (sfaces s) -> (sf_unk h < inner v + v_nbnd v)%nat).
  { intros h Hh. apply unknown_bound. eapply face_in; eassumption. }
  destruct s as [[f0 f1] f2]. unfold c_row, side_flux, minus_sum.
  destruct (sf_g f) as [[g0 g1] g2]. simpl in Hin, Hd.
  inversion Hd as [|x1 l1 Hd1 Hd2]; subst. inversion Hd2 as [|x2 l2 Hd3 Hd4]; subst.
  rewrite total_three; auto; simpl in Hd1, Hd3; try tauto; try (intros E; apply Hd1; auto); try (intros E; apply Hd3; auto).
  ring.
Qed.
(** A row that belongs to no face is empty. *)
Lemma empty_row : forall bb r pi (p : nat -> R) w1 w2, (forall f, In f (all_faces v) -> hits bb r f = false) ->
  total (fun k => m_el (selC bb m) r k * pi k) w1 = 0 /\ total (fun j => m_el (selF bb m) r j * p j) w2 = 0.
Proof.
  intros bb r pi p w1 w2 Hno. destruct cf_rows as [He _]. destruct (He bb r Hno) as [N1 N2].
  split; (rewrite (total_ext _ (fun _ => 0)); [apply total_zero|intros k _; rewrite ?N1, ?N2; ring]).
Qed.
(** ** The local system *)
Lemma sizes_cases :
  (npitf_neu z = 0%nat /\ neu_up z = 0%nat /\ neu_dn z = 0%nat /\ npitf_dir z = v_nbnd v /\
   dir_up z = nbc_up v /\ dir_dn z = nbc_dn v /\ b <> NeumannBC) \/
  (npitf_dir z = 0%nat /\ dir_up z = 0%nat /\ dir_dn z = 0%nat /\ npitf_neu z = v_nbnd v /\
   neu_up z = nbc_up v /\ neu_dn z = nbc_dn v /\ b = NeumannBC).
Proof. clear Hm. unfold z. destruct b; simpl; [left|right|left]; repeat split; congruence. Qed.
Lemma nsys_height : nsys z = (nflux_in z + (neu_up z + neu_dn z))%nat.
Proof.
  unfold nsys. destruct sizes_cases as [[H1 [H2 [H3 _]]]|[_ [_ [_ [H1 [H2 [H3 _]]]]]]].
  - lia.
  - rewrite H1, H2, H3, nbc_total, (wn_bnd v Hv). reflexivity.
Qed.
Lemma width : (nsys z + npitf_dir z = inner v + v_nbnd v)%nat.
Proof.
  unfold nsys. rewrite inner_in. destruct sizes_cases as [[H1 [H2 [H3 [H4 _]]]]|[H0 [_ [_ [H1 _]]]]]; lia.
Qed.

Let A := fill_A z m.
Let B := fill_B z m.
Lemma A_in : forall i k, (i < nflux_in z)%nat -> (k < nsys z)%nat ->
  cm (nsys z) A i k = - m_el (Cup m) i k + m_el (Cdn m) i k.
Proof.
  intros i k Hi Hk. unfold A, fill_A. rewrite nsys_height. rewrite cm_two; try (intros; apply column_length); try lia.
  - destruct (Nat.ltb_spec k (nflux_in z)) as [Hlt|Hge]; rewrite column_in by exact Hi.
    + reflexivity.
    + unfold C13, block. unfold nsys in Hk.
      destruct sizes_cases as [[H1 _]|[H0 _]]; [lia|].
      rewrite H0. replace (nflux_in z + 0 + (k - nflux_in z))%nat with k by lia. reflexivity.
  - unfold nsys in Hk. exact Hk.
Qed.
Lemma C_in : forall i k, (i < nflux_in z)%nat -> (k < nsys z)%nat -> cm (nsys z) (fill_C z m) i k = m_el (Cup m) i k.
Proof.
  intros i k Hi Hk. unfold fill_C. rewrite nsys_height. rewrite cm_two; try (intros; apply column_length); try lia.
  - destruct (Nat.ltb_spec k (nflux_in z)) as [Hlt|Hge]; rewrite column_in by exact Hi.
    + reflexivity.
    + unfold C13, block. unfold nsys in Hk.
      destruct sizes_cases as [[H1 _]|[H0 _]]; [lia|].
      rewrite H0. replace (nflux_in z + 0 + (k - nflux_in z))%nat with k by lia. reflexivity.
  - unfold nsys in Hk. exact Hk.
Qed.
Lemma A_up : forall q k, (q < neu_up z)%nat -> (k < nsys z)%nat ->
  cm (nsys z) A (nflux_in z + q) k = - m_el (Cup m) (nflux_in z + q) k.
Proof.
  intros q k Hq Hk. unfold A, fill_A. rewrite nsys_height. rewrite cm_two; try (intros; apply column_length); try lia.
  - destruct sizes_cases as [[H1 [H2 _]]|[H0 [H1 [H2 [H3 _]]]]]; [lia|].
    destruct (Nat.ltb_spec k (nflux_in z)) as [Hlt|Hge]; rewrite column_up by exact Hq.
    + unfold C31, block. rewrite H1, Nat.add_0_r. reflexivity.
    + unfold C33, block. unfold nsys in Hk. rewrite H0, H1, !Nat.add_0_r.
      replace (nflux_in z + (k - nflux_in z))%nat with k by lia. reflexivity.
  - unfold nsys in Hk. exact Hk.
Qed.
Lemma A_dn : forall q k, (q < neu_dn z)%nat -> (k < nsys z)%nat ->
  cm (nsys z) A (nflux_in z + neu_up z + q) k = - m_el (Cdn m) (nflux_in z + q) k.
Proof.
  intros q k Hq Hk. unfold A, fill_A. rewrite nsys_height. rewrite cm_two; try (intros; apply column_length); try lia.
  - destruct sizes_cases as [[H1 [H2 [H3 _]]]|[H0 [H1 [H2 [H3 _]]]]]; [lia|].
    destruct (Nat.ltb_spec k (nflux_in z)) as [Hlt|Hge]; rewrite column_dn by exact Hq.
    + unfold C31, block. rewrite H2, Nat.add_0_r. reflexivity.
    + unfold C33, block. unfold nsys in Hk. rewrite H0, H2, !Nat.add_0_r.
      replace (nflux_in z + (k - nflux_in z))%nat with k by lia. reflexivity.
  - unfold nsys in Hk. exact Hk.
Qed.
Lemma B_in : forall i j, (i < nflux_in z)%nat -> (j < ncol z)%nat ->
  cm (nsys z) B i j = if (j <? npcen z)%nat then - m_el (Fup m) i j + m_el (Fdn m) i j
                      else m_el (Cup m) i (nflux_in z + (j - npcen z)) - m_el (Cdn m) i (nflux_in z + (j - npcen z)).
Proof.
  intros i j Hi Hj. unfold B, fill_B. rewrite nsys_height. rewrite cm_two; try (intros; apply column_length); try lia.
  - destruct (Nat.ltb_spec j (npcen z)) as [Hlt|Hge]; rewrite column_in by exact Hi; reflexivity.
  - exact Hj.
Qed.
Lemma B_up : forall q j, (q < neu_up z)%nat -> (j < ncol z)%nat ->
  cm (nsys z) B (nflux_in z + q) j = - m_el (Fup m) (nflux_in z + q) j.
Proof.
  intros q j Hq Hj. unfold B, fill_B. rewrite nsys_height. rewrite cm_two; try (intros; apply column_length); try lia.
  - destruct sizes_cases as [[H1 [H2 _]]|[H0 [H1 [H2 [H3 _]]]]]; [lia|].
    destruct (Nat.ltb_spec j (npcen z)) as [Hlt|Hge]; rewrite column_up by exact Hq.
    + unfold F3, block. rewrite H1, Nat.add_0_r. reflexivity.
    + unfold ncol in Hj. lia.
  - exact Hj.
Qed.
Lemma B_dn : forall q j, (q < neu_dn z)%nat -> (j < ncol z)%nat ->
  cm (nsys z) B (nflux_in z + neu_up z + q) j = - m_el (Fdn m) (nflux_in z + q) j.
Proof.
  intros q j Hq Hj. unfold B, fill_B. rewrite nsys_height. rewrite cm_two; try (intros; apply column_length); try lia.
  - destruct sizes_cases as [[H1 [H2 [H3 _]]]|[H0 [H1 [H2 [H3 _]]]]]; [lia|].
    destruct (Nat.ltb_spec j (npcen z)) as [Hlt|Hge]; rewrite column_dn by exact Hq.
    + unfold F3, block. rewrite H2, Nat.add_0_r. reflexivity.
    + unfold ncol in Hj. lia.
  - exact Hj.
Qed.

(** ** The interface pressures that the local system eliminates *)
Variable X : list R.
Hypothesis HX : solves (nsys z) (ncol z) A B X.
Variable u : nat -> R.       (* cell values, then prescribed boundary values *)
Let y (k : nat) : R := total (fun j => cm (nsys z) X k j * u j) (ncol z).
Let pi (k : nat) : R := if (k <? nsys z)%nat then y k else u (npcen z + (k - nsys z))%nat.
Let S (bb : bool) (r : nat) : R :=
  total (fun k => m_el (selC bb m) r k * pi k) (inner v + v_nbnd v) -
  total (fun j => m_el (selF bb m) r j * u j) (npcen z).

Lemma split_pi : forall (c : nat -> R),
  total (fun k => c k * pi k) (inner v + v_nbnd v) =
  total (fun k => c k * y k) (nsys z) + total (fun j => c (nsys z + j)%nat * u (npcen z + j)%nat) (npitf_dir z).
Proof.
  intros c. rewrite <- width, total_app. f_equal; apply total_ext; intros k Hk; unfold pi.
  - destruct (Nat.ltb_spec k (nsys z)); [reflexivity|lia].
  - destruct (Nat.ltb_spec (nsys z + k) (nsys z)); [lia|].
    replace (nsys z + k - nsys z)%nat with k by lia. reflexivity.
Qed.
Lemma split_u : forall (c : nat -> R), total (fun j => c j * u j) (ncol z) =
  total (fun j => c j * u j) (npcen z) + total (fun j => c (npcen z + j)%nat * u (npcen z + j)%nat) (npitf_dir z).
Proof. intros c. unfold ncol. rewrite total_app. reflexivity. Qed.
Lemma dir_column : forall j, (j < npitf_dir z)%nat -> (nsys z + j = nflux_in z + j)%nat.
Proof. intros j Hj. unfold nsys. destruct sizes_cases as [[H1 _]|[H0 _]]; lia. Qed.

Lemma continuous : forall i, (i < nflux_in z)%nat -> S true i = S false i.
Proof.
  intros i Hi. assert (Hin : (i < nsys z)%nat) by (unfold nsys; lia).
  pose proof (solves_apply _ _ _ _ _ u i HX Hin) as H. fold y in H.
  unfold S. rewrite !split_pi. simpl.
  rewrite (total_ext _ (fun k => - (m_el (Cup m) i k * y k) + m_el (Cdn m) i k * y k)) in H
    by (intros k Hk; rewrite A_in by assumption; unfold y; ring).
  rewrite split_u in H.
  rewrite (total_ext (fun j => cm (nsys z) B i j * u j)
    (fun j => - (m_el (Fup m) i j * u j) + m_el (Fdn m) i j * u j)) in H.
  2:{ intros j Hj. rewrite B_in; [|assumption|unfold ncol; lia]. apply Nat.ltb_lt in Hj. rewrite Hj. ring. }
  rewrite (total_ext (fun j => cm (nsys z) B i (npcen z + j) * u (npcen z + j)%nat)
    (fun j => m_el (Cup m) i (nsys z + j) * u (npcen z + j)%nat - m_el (Cdn m) i (nsys z + j) * u (npcen z + j)%nat)) in H.
  2:{ intros j Hj. rewrite B_in; [|assumption|unfold ncol; lia].
      destruct (Nat.ltb_spec (npcen z + j) (npcen z)); [lia|].
      replace (npcen z + j - npcen z)%nat with j by lia. rewrite (dir_column j Hj). ring. }
  rewrite !total_plus, total_minus, !total_opp in H. lra.
Qed.
Lemma neumann_up : forall q, (q < neu_up z)%nat -> S true (nflux_in z + q) = 0.
Proof.
  intros q Hq. assert (Hin : (nflux_in z + q < nsys z)%nat) by (rewrite nsys_height; lia).
  pose proof (solves_apply _ _ _ _ _ u _ HX Hin) as H. fold y in H.
  unfold S. rewrite split_pi. simpl.
  rewrite (total_ext _ (fun k => - (m_el (Cup m) (nflux_in z + q) k * y k))) in H
    by (intros k Hk; rewrite A_up by assumption; unfold y; ring).
  rewrite (total_ext (fun j => cm (nsys z) B (nflux_in z + q) j * u j)
    (fun j => - (m_el (Fup m) (nflux_in z + q) j * u j))) in H by (intros j Hj; rewrite B_up by assumption; ring).
  rewrite !total_opp in H. unfold ncol in H.
  destruct sizes_cases as [[H1 [H2 _]]|[H0 _]]; [lia|]. rewrite H0, Nat.add_0_r in *. simpl. lra.
Qed.
Lemma neumann_dn : forall q, (q < neu_dn z)%nat -> S false (nflux_in z + q) = 0.
Proof.
  intros q Hq. assert (Hin : (nflux_in z + neu_up z + q < nsys z)%nat) by (rewrite nsys_height; lia).
  pose proof (solves_apply _ _ _ _ _ u _ HX Hin) as H. fold y in H.
  unfold S. rewrite split_pi. simpl.
  rewrite (total_ext _ (fun k => - (m_el (Cdn m) (nflux_in z + q) k * y k))) in H
    by (intros k Hk; rewrite A_dn by assumption; unfold y; ring).
  rewrite (total_ext (fun j => cm (nsys z) B (nflux_in z + neu_up z + q) j * u j)
    (fun j => - (m_el (Fdn m) (nflux_in z + q) j * u j))) in H by (intros j Hj; rewrite B_dn by assumption; ring).
  rewrite !total_opp in H. unfold ncol in H.
  destruct sizes_cases as [[H1 [H2 [H3 _]]]|[H0 _]]; [lia|]. rewrite H0, Nat.add_0_r in *. simpl. lra.
Qed.

(** ** The rows of Trans *)
Lemma trans_in : forall i, (i < nflux_in z)%nat -> total (fun j => trans z m X i j * u j) (ncol z) = S true i.
Proof.
  intros i Hi. assert (Hin : (i < nsys z)%nat) by (unfold nsys; lia).
  unfold S. rewrite split_pi. simpl.
  rewrite (total_ext (fun k => m_el (Cup m) i k * y k) (fun k => cm (nsys z) (fill_C z m) i k * y k))
    by (intros k Hk; rewrite C_in by assumption; reflexivity).
  unfold y. rewrite <- (gemm_apply (nsys z) (ncol z) (nsys z) (fill_C z m) X u i Hin).
  rewrite !split_u.
  rewrite (total_ext (fun j => trans z m X i j * u j)
    (fun j => cm (nsys z) (gemm (nsys z) (ncol z) (nsys z) (fill_C z m) X) i j * u j - m_el (Fup m) i j * u j)).
  2:{ intros j Hj. unfold trans. apply Nat.ltb_lt in Hi, Hj. rewrite Hi, Hj. unfold F1, block, nsys. simpl. ring. }
  rewrite (total_ext (fun j => trans z m X i (npcen z + j) * u (npcen z + j)%nat)
    (fun j => cm (nsys z) (gemm (nsys z) (ncol z) (nsys z) (fill_C z m) X) i (npcen z + j) * u (npcen z + j)%nat +
              m_el (Cup m) i (nsys z + j) * u (npcen z + j)%nat)).
  2:{ intros j Hj. unfold trans. apply Nat.ltb_lt in Hi. rewrite Hi.
      destruct (Nat.ltb_spec (npcen z + j) (npcen z)); [lia|].
      replace (npcen z + j - npcen z)%nat with j by lia. rewrite (dir_column j Hj). unfold C12, block, nsys. simpl. ring. }
  rewrite total_minus, total_plus. lra.
Qed.
Lemma trans_dir_up : forall q, (q < dir_up z)%nat ->
  total (fun j => trans z m X (nflux_in z + q) j * u j) (ncol z) = S true (nflux_in z + q).
Proof.
  intros q Hq. destruct sizes_cases as [[Z1 [Z2 [Z3 [Z4 [Z5 [Z6 _]]]]]]|[_ [Z1 _]]]; [|lia].
  assert (Hn : nsys z = nflux_in z) by (unfold nsys; lia).
  unfold S. rewrite split_pi. simpl.
  rewrite (total_ext (fun k => m_el (Cup m) (nflux_in z + q) k * y k) (fun k => cm (dir_up z) (fill_Cup_dir z m) q k * y k)).
  2:{ intros k Hk. unfold fill_Cup_dir. rewrite cm_seq; [|intros; rewrite map_length, seq_length; reflexivity|lia|lia].
      rewrite map_seq_nth by exact Hq. reflexivity. }
  unfold y. rewrite <- (gemm_apply (dir_up z) (ncol z) (nsys z) (fill_Cup_dir z m) X u q Hq).
  rewrite !split_u.
  assert (Hnot : (nflux_in z + q <? nflux_in z)%nat = false) by (apply Nat.ltb_ge; lia).
  assert (Hyes : (nflux_in z + q <? nflux_in z + dir_up z)%nat = true) by (apply Nat.ltb_lt; lia).
  rewrite (total_ext (fun j => trans z m X (nflux_in z + q) j * u j)
    (fun j => cm (dir_up z) (gemm (dir_up z) (ncol z) (nsys z) (fill_Cup_dir z m) X) q j * u j - m_el (Fup m) (nflux_in z + q) j * u j)).
  2:{ intros j Hj. unfold trans. rewrite Hnot, Hyes. apply Nat.ltb_lt in Hj. rewrite Hj, Hn.
      replace (nflux_in z + q - nflux_in z)%nat with q by lia. unfold F2, block. simpl. ring. }
  rewrite (total_ext (fun j => trans z m X (nflux_in z + q) (npcen z + j) * u (npcen z + j)%nat)
    (fun j => cm (dir_up z) (gemm (dir_up z) (ncol z) (nsys z) (fill_Cup_dir z m) X) q (npcen z + j) * u (npcen z + j)%nat +
              m_el (Cup m) (nflux_in z + q) (nsys z + j) * u (npcen z + j)%nat)).
  2:{ intros j Hj. unfold trans. rewrite Hnot, Hyes.
      destruct (Nat.ltb_spec (npcen z + j) (npcen z)); [lia|].
      replace (npcen z + j - npcen z)%nat with j by lia. rewrite Hn.
      replace (nflux_in z + q - nflux_in z)%nat with q by lia. unfold C22, block. ring. }
  rewrite total_minus, total_plus. lra.
Qed.
Lemma trans_dir_dn : forall q, (q < dir_dn z)%nat ->
  total (fun j => trans z m X (nflux_in z + dir_up z + q) j * u j) (ncol z) = S false (nflux_in z + q).
Proof.
  intros q Hq. destruct sizes_cases as [[Z1 [Z2 [Z3 [Z4 [Z5 [Z6 _]]]]]]|[_ [_ [Z1 _]]]]; [|lia].
  assert (Hn : nsys z = nflux_in z) by (unfold nsys; lia).
  unfold S. rewrite split_pi. simpl.
  rewrite (total_ext (fun k => m_el (Cdn m) (nflux_in z + q) k * y k) (fun k => cm (dir_dn z) (fill_Cdn_dir z m) q k * y k)).
  2:{ intros k Hk. unfold fill_Cdn_dir. rewrite cm_seq; [|intros; rewrite map_length, seq_length; reflexivity|lia|lia].
      rewrite map_seq_nth by exact Hq. reflexivity. }
  unfold y. rewrite <- (gemm_apply (dir_dn z) (ncol z) (nsys z) (fill_Cdn_dir z m) X u q Hq).
  rewrite !split_u.
  assert (Hnot : (nflux_in z + dir_up z + q <? nflux_in z)%nat = false) by (apply Nat.ltb_ge; lia).
  assert (Hno' : (nflux_in z + dir_up z + q <? nflux_in z + dir_up z)%nat = false) by (apply Nat.ltb_ge; lia).
  rewrite (total_ext (fun j => trans z m X (nflux_in z + dir_up z + q) j * u j)
    (fun j => cm (dir_dn z) (gemm (dir_dn z) (ncol z) (nsys z) (fill_Cdn_dir z m) X) q j * u j - m_el (Fdn m) (nflux_in z + q) j * u j)).
  2:{ intros j Hj. unfold trans. rewrite Hnot, Hno'. apply Nat.ltb_lt in Hj. rewrite Hj, Hn.
      replace (nflux_in z + dir_up z + q - (nflux_in z + dir_up z))%nat with q by lia. unfold F2, block. simpl. ring. }
  rewrite (total_ext (fun j => trans z m X (nflux_in z + dir_up z + q) (npcen z + j) * u (npcen z + j)%nat)
    (fun j => cm (dir_dn z) (gemm (dir_dn z) (ncol z) (nsys z) (fill_Cdn_dir z m) X) q (npcen z + j) * u (npcen z + j)%nat +
              m_el (Cdn m) (nflux_in z + q) (nsys z + j) * u (npcen z + j)%nat)).
  2:{ intros j Hj. unfold trans. rewrite Hnot, Hno'.
      destruct (Nat.ltb_spec (npcen z + j) (npcen z)); [lia|].
      replace (npcen z + j - npcen z)%nat with j by lia. rewrite Hn.
      replace (nflux_in z + dir_up z + q - (nflux_in z + dir_up z))%nat with q by lia. unfold C22, block. ring. }
  rewrite total_minus, total_plus. lra.
Qed.
(** ** Uniform pressure *)
Lemma row_balance : forall bb r, total (fun k => m_el (selC bb m) r k) (inner v + v_nbnd v) =
  total (fun j => m_el (selF bb m) r j) (npcen z).
Proof.
  intros bb r.
  assert (H1 : forall f n, total f n = total (fun k => f k * 1) n) by (intros f n; apply total_ext; intros; ring).
  rewrite (H1 (fun k => m_el (selC bb m) r k)), (H1 (fun j => m_el (selF bb m) r j)).
  destruct (existsb (hits bb r) (all_faces v)) eqn:E.
  - apply existsb_exists in E. destruct E as [f [Hf Hh]]. unfold hits in Hh. apply andb_prop in Hh.
    destruct Hh as [Hh1 Hh2]. apply eqb_prop in Hh1. apply Nat.eqb_eq in Hh2. subst r bb.
    unfold all_faces in Hf. apply in_flat_map in Hf. destruct Hf as [s [Hs Hf]].
    apply In_nth_error in Hs. destruct Hs as [a Ha].
    pose proof (row_flux a s f (fun _ => 1) (fun _ => 1) Ha Hf) as H.
    unfold side_flux in H. destruct s as [[f0 f1] f2]. destruct (sf_g f) as [[g0 g1] g2]. lra.
  - assert (Hno : forall f, In f (all_faces v) -> hits bb r f = false).
    { intros f Hf. destruct (hits bb r f) eqn:Eh; [|reflexivity].
      rewrite <- E. symmetry. apply existsb_exists. exists f. auto. }
    destruct (empty_row bb r (fun _ => 1) (fun _ => 1) (inner v + v_nbnd v) (npcen z) Hno) as [N1 N2].
    rewrite N1, N2. reflexivity.
Qed.
Lemma split_row : forall (c : nat -> R), total c (inner v + v_nbnd v) =
  total c (nsys z) + total (fun j => c (nsys z + j)%nat) (npitf_dir z).
Proof. intros c. rewrite <- width, total_app. reflexivity. Qed.
Ltac eta_m i :=
  change (fun k => m_el (Cup m) i k) with (m_el (Cup m) i) in *;
  change (fun k => m_el (Cdn m) i k) with (m_el (Cdn m) i) in *;
  change (fun k => m_el (Fup m) i k) with (m_el (Fup m) i) in *;
  change (fun k => m_el (Fdn m) i k) with (m_el (Fdn m) i) in *.
Lemma system_balance : forall i, (i < nsys z)%nat ->
  total (fun k => cm (nsys z) A i k) (nsys z) = total (fun j => cm (nsys z) B i j) (ncol z).
Proof.
  intros i Hi. rewrite nsys_height in Hi.
  destruct (Nat.lt_ge_cases i (nflux_in z)) as [H1|H1].
  - rewrite (total_ext _ (fun k => - m_el (Cup m) i k + m_el (Cdn m) i k)) by (intros k Hk; apply A_in; assumption).
    unfold ncol. rewrite total_app.
    rewrite (total_ext (fun j => cm (nsys z) B i j) (fun j => - m_el (Fup m) i j + m_el (Fdn m) i j)).
    2:{ intros j Hj. rewrite B_in; [|assumption|unfold ncol; lia]. apply Nat.ltb_lt in Hj. rewrite Hj. reflexivity. }
    rewrite (total_ext (fun j => cm (nsys z) B i (npcen z + j))
      (fun j => m_el (Cup m) i (nsys z + j) - m_el (Cdn m) i (nsys z + j))).
    2:{ intros j Hj. rewrite B_in; [|assumption|unfold ncol; lia].
        destruct (Nat.ltb_spec (npcen z + j) (npcen z)); [lia|].
        replace (npcen z + j - npcen z)%nat with j by lia. rewrite (dir_column j Hj). reflexivity. }
    rewrite !total_plus, total_minus, !total_opp.
    pose proof (row_balance true i) as R1. pose proof (row_balance false i) as R2.
    rewrite split_row in R1, R2. cbn [selC selF] in R1, R2. eta_m i. lra.
  - destruct sizes_cases as [[Z1 [Z2 [Z3 _]]]|[Z0 _]]; [lia|].
    unfold ncol. rewrite Z0, Nat.add_0_r.
    destruct (Nat.lt_ge_cases i (nflux_in z + neu_up z)) as [H2|H2].
    + replace i with (nflux_in z + (i - nflux_in z))%nat by lia. set (q := (i - nflux_in z)%nat).
      rewrite (total_ext _ (fun k => - m_el (Cup m) (nflux_in z + q) k)) by (intros k Hk; apply A_up; unfold q; lia).
      rewrite (total_ext (fun j => cm (nsys z) B (nflux_in z + q) j) (fun j => - m_el (Fup m) (nflux_in z + q) j))
        by (intros j Hj; apply B_up; unfold q, ncol; lia).
      rewrite !total_opp. pose proof (row_balance true (nflux_in z + q)) as R1. rewrite split_row, Z0 in R1.
      cbn [selC selF total] in R1. eta_m (nflux_in z + q)%nat. lra.
    + replace i with (nflux_in z + neu_up z + (i - nflux_in z - neu_up z))%nat by lia. set (q := (i - nflux_in z - neu_up z)%nat).
      rewrite (total_ext _ (fun k => - m_el (Cdn m) (nflux_in z + q) k)) by (intros k Hk; apply A_dn; unfold q; lia).
      rewrite (total_ext (fun j => cm (nsys z) B (nflux_in z + neu_up z + q) j) (fun j => - m_el (Fdn m) (nflux_in z + q) j))
        by (intros j Hj; apply B_dn; unfold q, ncol; lia).
      rewrite !total_opp. pose proof (row_balance false (nflux_in z + q)) as R1. rewrite split_row, Z0 in R1.
      cbn [selC selF total] in R1. eta_m (nflux_in z + q)%nat. lra.
Qed.
Lemma uniform_interfaces : forall c, nonsingular (nsys z) A -> (forall j, (j < ncol z)%nat -> u j = c) ->
  forall k, (k < nsys z)%nat -> y k = c.
Proof.
  intros c HA Hu k Hk. apply Rminus_diag_uniq. apply (HA (fun k => y k - c)); [|exact Hk].
  intros i Hi. fold (cm (nsys z) A i).
  rewrite (total_ext _ (fun k => cm (nsys z) A i k * y k - cm (nsys z) A i k * c)) by (intros q _; unfold cm; ring).
  rewrite total_minus, total_scale. pose proof (solves_apply _ _ _ _ _ u i HX Hi) as H. fold y in H.
  unfold y at 1. rewrite H.
  rewrite (total_ext _ (fun j => cm (nsys z) B i j * c)) by (intros j Hj; rewrite Hu by exact Hj; reflexivity).
  pose proof (system_balance i Hi) as E.
  change (fun k => cm (nsys z) A i k) with (cm (nsys z) A i) in E.
  change (fun k => cm (nsys z) B i k) with (cm (nsys z) B i) in E.
  rewrite total_scale.
  change (fun k => cm (nsys z) A i k) with (cm (nsys z) A i).
  change (fun k => cm (nsys z) B i k) with (cm (nsys z) B i).
  rewrite E. ring.
Qed.
Lemma uniform_rows : forall c, nonsingular (nsys z) A -> (forall j, (j < ncol z)%nat -> u j = c) ->
  forall bb r, S bb r = 0.
Proof.
  intros c HA Hu bb r. unfold S.
  rewrite (total_ext _ (fun k => m_el (selC bb m) r k * c)).
  - rewrite (total_ext (fun j => m_el (selF bb m) r j * u j) (fun j => m_el (selF bb m) r j * c))
      by (intros j Hj; rewrite Hu; [reflexivity|unfold ncol; lia]).
    rewrite !total_scale. pose proof (row_balance bb r) as E.
    change (fun k => m_el (selC bb m) r k) with (m_el (selC bb m) r) in *.
    change (fun k => m_el (selF bb m) r k) with (m_el (selF bb m) r) in *.
    rewrite E. apply Rminus_diag_eq. reflexivity.
  - intros k Hk. unfold pi. destruct (Nat.ltb_spec k (nsys z)) as [H|H].
    + rewrite (uniform_interfaces c HA Hu k H). reflexivity.
    + rewrite Hu; [reflexivity|]. unfold ncol. rewrite <- width in Hk. lia.
Qed.
Lemma uniform_trans : forall c, nonsingular (nsys z) A -> (forall j, (j < ncol z)%nat -> u j = c) ->
  forall i, (i < nflux_in z + dir_up z + dir_dn z)%nat -> total (fun j => trans z m X i j * u j) (ncol z) = 0.
Proof.
  intros c HA Hu i Hi.
  destruct (Nat.lt_ge_cases i (nflux_in z)) as [H1|H1].
  - rewrite trans_in by exact H1. apply (uniform_rows c HA Hu).
  - destruct (Nat.lt_ge_cases i (nflux_in z + dir_up z)) as [H2|H2].
    + replace i with (nflux_in z + (i - nflux_in z))%nat by lia. rewrite trans_dir_up by lia. apply (uniform_rows c HA Hu).
    + replace i with (nflux_in z + dir_up z + (i - nflux_in z - dir_up z))%nat by lia.
      rewrite trans_dir_dn by lia. apply (uniform_rows c HA Hu).
Qed.

(** ** Faces *)
Lemma face_row : forall a s f, nth_error (v_sub v) a = Some s -> In f (sfaces s) ->
  S (sf_up f) (sf_flux f) = side_flux s f (u a) pi.
Proof. intros a s f Ha Hf. unfold S. apply row_flux; assumption. Qed.
Lemma face_trans : forall a s f, nth_error (v_sub v) a = Some s -> In f (sfaces s) ->
  sf_internal f = true \/ b <> NeumannBC ->
  (place v f < nflux_in z + dir_up z + dir_dn z)%nat /\
  total (fun j => trans z m X (place v f) j * u j) (ncol z) = side_flux s f (u a) pi.
Proof.
  intros a s f Ha Hf Hk. rewrite <- (face_row a s f Ha Hf).
  pose proof (face_in a s f Ha Hf) as Hin. unfold place.
  destruct (sf_internal f) eqn:Ei.
  - destruct (wn_inner v Hv f Hin Ei) as [_ Hlt]. rewrite <- inner_in in Hlt.
    unfold is_bnd. rewrite Ei. cbn [negb andb]. split; [lia|].
    rewrite trans_in by exact Hlt. destruct (sf_up f); [reflexivity|apply continuous; exact Hlt].
  - destruct Hk as [Hk|Hk]; [discriminate|].
    destruct sizes_cases as [[Z1 [Z2 [Z3 [Z4 [Z5 [Z6 _]]]]]]|[_ [_ [_ [_ [_ [_ Z]]]]]]]; [|contradiction].
    pose proof (outer_bound f Hin Ei) as Hob. rewrite <- inner_in in Hob.
    unfold is_bnd. rewrite Ei. cbn [negb andb].
    destruct (sf_up f) eqn:Eu; cbn [negb].
    + split; [lia|]. replace (sf_flux f) with (nflux_in z + (sf_flux f - nflux_in z))%nat by lia.
      apply trans_dir_up. lia.
    + change (count (fun h => negb (sf_internal h) && sf_up h) v) with (count (fun h => is_bnd h && sf_up h) v).
      rewrite <- nbc_up_count, <- Z5. split; [lia|].
      replace (sf_flux f + dir_up z)%nat with (nflux_in z + dir_up z + (sf_flux f - nflux_in z))%nat by lia.
      rewrite trans_dir_dn by lia. f_equal. lia.
Qed.
Lemma face_neumann : forall a s f, nth_error (v_sub v) a = Some s -> In f (sfaces s) ->
  sf_internal f = false -> b = NeumannBC -> side_flux s f (u a) pi = 0.
Proof.
  intros a s f Ha Hf Hi Hb. rewrite <- (face_row a s f Ha Hf).
  pose proof (face_in a s f Ha Hf) as Hin. pose proof (outer_bound f Hin Hi) as Hob. rewrite <- inner_in in Hob.
  destruct sizes_cases as [[_ [_ [_ [_ [_ [_ Z]]]]]]|[Z0 [Z1 [Z2 [Z3 [Z4 [Z5 _]]]]]]]; [contradiction|].
  destruct (sf_up f); replace (sf_flux f) with (nflux_in z + (sf_flux f - nflux_in z))%nat by lia.
  - apply neumann_up. lia.
  - apply neumann_dn. lia.
Qed.
Lemma pi_dirichlet : forall j, b <> NeumannBC -> pi (inner v + j) = u (npcen z + j)%nat.
Proof.
  intros j Hb. unfold pi.
  destruct sizes_cases as [[Z1 _]|[_ [_ [_ [_ [_ [_ Z]]]]]]]; [|contradiction].
  assert (Hn : nsys z = inner v) by (unfold nsys; rewrite Z1, inner_in; lia). rewrite Hn.
  destruct (Nat.ltb_spec (inner v + j) (inner v)); [lia|]. replace (inner v + j - inner v)%nat with j by lia. reflexivity.
Qed.
End Vertex.

Lemma columns_cell : forall b v ncells a, (a < length (v_cells v))%nat ->
  nth a (columns (sizes_of b v) ncells v) 0%nat = nth a (v_cells v) 0%nat.
Proof. intros. unfold columns. apply app_nth1. assumption. Qed.
Lemma columns_bnd : forall b v ncells j f, well_numbered v -> b <> NeumannBC ->
  nth_error (filter is_bnd (all_faces v)) j = Some f ->
  nth (npcen (sizes_of b v) + j) (columns (sizes_of b v) ncells v) 0%nat = (sf_bnd f + ncells)%nat.
Proof.
  intros b v ncells j f Hv Hb Hj.
  assert (Hd : npitf_dir (sizes_of b v) = v_nbnd v /\ npcen (sizes_of b v) = length (v_cells v))
    by (destruct b; simpl; auto; congruence).
  destruct Hd as [Hd Hp]. unfold columns. rewrite Hd, Hp.
  assert (H0 : (0 <? v_nbnd v)%nat = true).
  { apply Nat.ltb_lt. rewrite (wn_bnd v Hv). unfold count. apply nth_lt in Hj. lia. }
  rewrite H0, app_nth2 by lia. replace (length (v_cells v) + j - length (v_cells v))%nat with j by lia.
  apply nth_error_nth. apply (map_nth_error (fun f => (sf_bnd f + ncells)%nat) j _ Hj).
Qed.
Lemma columns_length : forall b v ncells, well_numbered v ->
  length (columns (sizes_of b v) ncells v) = ncol (sizes_of b v).
Proof.
  intros b v ncells Hv. unfold columns, ncol. rewrite app_length.
  assert (Hc : npcen (sizes_of b v) = length (v_cells v)) by (destruct b; reflexivity). rewrite Hc. f_equal.
  destruct (Nat.ltb_spec 0 (npitf_dir (sizes_of b v))) as [H|H].
  - rewrite map_length. assert (Hd : npitf_dir (sizes_of b v) = v_nbnd v) by (destruct b; simpl in *; auto; lia).
    rewrite Hd, (wn_bnd v Hv). reflexivity.
  - simpl. lia.
Qed.
Lemma columns_in : forall b v ncells j, well_numbered v -> (j < ncol (sizes_of b v))%nat ->
  (exists a, (a < length (v_cells v))%nat /\ nth j (columns (sizes_of b v) ncells v) 0%nat = nth a (v_cells v) 0%nat) \/
  (b <> NeumannBC /\ exists f, In f (filter is_bnd (all_faces v)) /\
     nth j (columns (sizes_of b v) ncells v) 0%nat = (sf_bnd f + ncells)%nat).
Proof.
  intros b v ncells j Hv Hj.
  assert (Hc : npcen (sizes_of b v) = length (v_cells v)) by (destruct b; reflexivity).
  destruct (Nat.lt_ge_cases j (length (v_cells v))) as [H|H].
  - left. exists j. split; [exact H|]. apply columns_cell. exact H.
  - right. unfold ncol in Hj. rewrite Hc in Hj.
    assert (Hb : b <> NeumannBC) by (intros ->; simpl in Hj; lia). split; [exact Hb|].
    assert (Hd : npitf_dir (sizes_of b v) = v_nbnd v) by (destruct b; simpl; auto; congruence).
    rewrite Hd, (wn_bnd v Hv) in Hj. unfold count in Hj.
    destruct (nth_error (filter is_bnd (all_faces v)) (j - length (v_cells v))) as [f|] eqn:E.
    + exists f. split; [eapply nth_error_In; exact E|].
      rewrite <- (columns_bnd b v ncells _ f Hv Hb E). f_equal. lia.
    + apply nth_error_None in E. lia.
Qed.

(** * The theorems *)
Theorem candf_ok : forall b v, well_numbered v -> exists m, ComputeCandF (sizes_of b v) v = Ok m.
Proof.
  intros b v Hv. unfold ComputeCandF. rewrite cf_cells_list. apply cf_list_ok.
  intros a s f Hin. apply placed_in in Hin. destruct Hin as [_ [Ha Hf]]. rewrite Nat.sub_0_r in Ha.
  pose proof (face_in v a s f Ha Hf) as Hall.
  pose proof (inner_in b v) as Hi. pose proof (nth_lt _ _ _ Ha) as Hlt.
  assert (Hflux : (sf_flux f < nflux_in (sizes_of b v) + (if sf_up f then nbc_up v else nbc_dn v))%nat).
  { rewrite Hi. destruct (sf_internal f) eqn:E.
    - destruct (wn_inner v Hv f Hall E). lia.
    - pose proof (outer_bound v Hv f Hall E). lia. }
  assert (Hp : npcen (sizes_of b v) = length (v_sub v)) by (rewrite <- (wn_cells v Hv); destruct b; reflexivity).
  assert (Hunk : forall k, In k (map sf_unk (sfaces s)) -> (k < nflux_in (sizes_of b v) + v_nbnd v)%nat).
  { intros k Hk. apply in_map_iff in Hk. destruct Hk as [h [<- Hh]]. rewrite Hi.
    apply (unknown_bound v Hv). eapply face_in; eassumption. }
  assert (Hr1 : (dir_up (sizes_of b v) + neu_up (sizes_of b v) = nbc_up v)%nat) by (destruct b; simpl; lia).
  assert (Hr2 : (dir_dn (sizes_of b v) + neu_dn (sizes_of b v) = nbc_dn v)%nat) by (destruct b; simpl; lia).
  destruct (sf_up f); cbn [selC selF Cup Cdn Fup Fdn alloc m_rows m_cols]; repeat split; auto; lia.
Qed.
Theorem entries_ok : forall b ncells v X, well_numbered v -> exists l, NonCornerVertex b ncells v (Some X) = Ok l.
Proof.
  intros b ncells v X Hv. unfold NonCornerVertex. destruct (candf_ok b v Hv) as [m E]. rewrite E. cbn [bind].
  apply rows_ok.
  - rewrite (wn_rows v Hv).
    assert (H : (nflux_in (sizes_of b v) + dir_up (sizes_of b v) + dir_dn (sizes_of b v) <= inner v + count is_bnd v)%nat).
    { rewrite inner_in, <- nbc_total. destruct b; simpl; lia. }
    pose proof (wn_faces v Hv). unfold inner in H. lia.
  - rewrite columns_length by exact Hv. apply Nat.le_refl.
Qed.

Lemma rows_enough : forall b v, well_numbered v ->
  (nflux_in (sizes_of b v) + dir_up (sizes_of b v) + dir_dn (sizes_of b v) <= length (v_rows v))%nat.
Proof.
  intros b v Hv. rewrite (wn_rows v Hv).
  assert (H : (nflux_in (sizes_of b v) + dir_up (sizes_of b v) + dir_dn (sizes_of b v) <= inner v + count is_bnd v)%nat).
  { rewrite inner_in, <- nbc_total. destruct b; simpl; lia. }
  pose proof (wn_faces v Hv). unfold inner in H. lia.
Qed.
Theorem uniform_zero_proof : forall b ncells v X l P c,
  well_numbered v -> regular b v -> lapack_answer b v X ->
  NonCornerVertex b ncells v (Some X) = Ok l ->
  (forall i, In i (v_cells v) -> P i = c) ->
  (b <> NeumannBC -> forall f, In f (all_faces v) -> sf_internal f = false -> P (sf_bnd f + ncells)%nat = c) ->
  forall row, mult l P row = 0.
Proof.
  intros b ncells v X l P c Hv Hr HX H Hc Hb row. unfold NonCornerVertex in H.
  destruct (ComputeCandF (sizes_of b v) v) as [m| |] eqn:E; cbn [bind] in H; try discriminate.
  specialize (Hr m E). specialize (HX m E). unfold vertex_entries in H.
  rewrite (rows_inv _ _ _ _ _ _ H).
  rewrite (total_ext _ (fun _ => 0)); [apply total_zero|]. intros i Hi.
  destruct (nth i (v_rows v) 0 =? row)%nat; [|reflexivity].
  apply (uniform_trans b v Hv m E X HX (fun j => P (nth j (columns (sizes_of b v) ncells v) 0%nat)) c Hr); [|exact Hi].
  intros j Hj. destruct (columns_in b v ncells j Hv Hj) as [[a [Ha Ea]]|[Hnb [f [Hf Ef]]]].
  - rewrite Ea. apply Hc. apply nth_In. exact Ha.
  - rewrite Ef. apply filter_In in Hf. destruct Hf as [Hf Hf']. apply (Hb Hnb f Hf).
    unfold is_bnd in Hf'. destruct (sf_internal f); [discriminate|reflexivity].
Qed.
Theorem continuity_proof : forall b ncells v X l P,
  well_numbered v -> lapack_answer b v X ->
  NonCornerVertex b ncells v (Some X) = Ok l ->
  exists pi : nat -> R,
    (b <> NeumannBC -> forall f, In f (all_faces v) -> sf_internal f = false -> pi (sf_unk f) = P (sf_bnd f + ncells)%nat) /\
    (forall a s f cell row, nth_error (v_sub v) a = Some s -> In f (sfaces s) -> nth_error (v_cells v) a = Some cell ->
       nth_error (v_rows v) (place v f) = Some row -> mult l P row = side_flux s f (P cell) pi) /\
    (b = NeumannBC -> forall a s f cell, nth_error (v_sub v) a = Some s -> In f (sfaces s) ->
       nth_error (v_cells v) a = Some cell -> sf_internal f = false -> side_flux s f (P cell) pi = 0).
Proof.
  intros b ncells v X l P Hv HX H. unfold NonCornerVertex in H.
  destruct (ComputeCandF (sizes_of b v) v) as [m| |] eqn:E; cbn [bind] in H; try discriminate.
  specialize (HX m E). unfold vertex_entries in H.
  set (u := fun j => P (nth j (columns (sizes_of b v) ncells v) 0%nat)).
  assert (Hu : forall a cell, nth_error (v_cells v) a = Some cell -> u a = P cell).
  { intros a cell Ha. unfold u. rewrite columns_cell by (eapply nth_lt; exact Ha).
    rewrite (nth_error_nth _ _ 0%nat Ha). reflexivity. }
  exists (fun k => if (k <? nsys (sizes_of b v))%nat
    then total (fun j => cm (nsys (sizes_of b v)) X k j * u j) (ncol (sizes_of b v))
    else u (npcen (sizes_of b v) + (k - nsys (sizes_of b v)))%nat).
  split; [|split].
  - intros Hb f Hf Hi.
    assert (Hin : In f (filter is_bnd (all_faces v))) by (apply filter_In; split; [exact Hf|unfold is_bnd; rewrite Hi; reflexivity]).
    apply In_nth_error in Hin. destruct Hin as [j Hj]. rewrite (wn_outer_unknown v Hv j f Hj).
    rewrite <- (columns_bnd b v ncells j f Hv Hb Hj). apply (pi_dirichlet b v X u j Hb).
  - intros a s f cell row Ha Hf Hcell Hrow. rewrite <- (Hu a cell Hcell).
    destruct (sf_internal f) eqn:Ei.
    + destruct (face_trans b v Hv m E X HX u a s f Ha Hf (or_introl Ei)) as [H1 H2]. rewrite <- H2.
      apply (rows_value _ _ _ _ _ _ H (wn_rows_distinct v Hv) (rows_enough b v Hv) P _ row H1 Hrow).
    + destruct b.
      * destruct (face_trans DirichletBC v Hv m E X HX u a s f Ha Hf) as [H1 H2]; [right; discriminate|]. rewrite <- H2.
        apply (rows_value _ _ _ _ _ _ H (wn_rows_distinct v Hv) (rows_enough DirichletBC v Hv) P _ row H1 Hrow).
      * rewrite (face_neumann NeumannBC v Hv m E X HX u a s f Ha Hf Ei eq_refl).
        apply (rows_other _ _ _ _ _ _ H); [|apply (rows_enough NeumannBC v Hv)].
        intros i Hi Hi'. assert (i = place v f).
        { apply (proj1 (NoDup_nth_error (v_rows v)) (wn_rows_distinct v Hv)); [eapply nth_lt; exact Hi'|congruence]. }
        subst i. pose proof (outer_bound v Hv f (face_in v a s f Ha Hf) Ei) as Hob.
        rewrite <- (inner_in NeumannBC v) in Hob. revert Hi. unfold place.
        destruct (is_bnd f && negb (sf_up f)); simpl in *; lia.
      * destruct (face_trans SeepageBC v Hv m E X HX u a s f Ha Hf) as [H1 H2]; [right; discriminate|]. rewrite <- H2.
        apply (rows_value _ _ _ _ _ _ H (wn_rows_distinct v Hv) (rows_enough SeepageBC v Hv) P _ row H1 Hrow).
  - intros Hb a s f cell Ha Hf Hcell Hi. rewrite <- (Hu a cell Hcell).
    apply (face_neumann b v Hv m E X HX u a s f Ha Hf Hi Hb).
Qed.

(** * Corner vertices *)
Theorem corner_proof : forall ncells cell f0 f1 f2 r0 r1 r2 P,
  sf_internal f0 = false -> sf_internal f1 = false -> sf_internal f2 = false ->
  NoDup [r0; r1; r2] ->
  exists l, CornerVertex ncells cell (f0, f1, f2) [r0; r1; r2] = Ok l /\
  forall i f row, nth_error [f0; f1; f2] i = Some f -> nth_error [r0; r1; r2] i = Some row ->
    mult l P row =
    let '(g0, g1, g2) := sf_g f in
    g0 * (P cell - P (sf_bnd f0 + ncells)%nat) + g1 * (P cell - P (sf_bnd f1 + ncells)%nat) +
    g2 * (P cell - P (sf_bnd f2 + ncells)%nat).
Proof.
  intros ncells cell f0 f1 f2 r0 r1 r2 P H0 H1 H2 Hd.
  unfold CornerVertex, corner_columns. cbn [sfaces filter]. rewrite H0, H1, H2. cbn [negb map length app Nat.add].
  unfold corner_row. destruct (sf_g f0) as [[a0 a1] a2] eqn:G0. destruct (sf_g f1) as [[b0 b1] b2] eqn:G1.
  destruct (sf_g f2) as [[c0 c1] c2] eqn:G2.
  cbv [for_ loop rd nth_error bind]. rewrite G0, G1, G2. cbn [app]. eexists; split; [reflexivity|].
  inversion Hd as [|x1 l1 Hd1 Hd2]; subst. inversion Hd2 as [|x2 l2 Hd3 Hd4]; subst.
  simpl in Hd1, Hd3.
  assert (E01 : (r0 =? r1)%nat = false) by (apply Nat.eqb_neq; intros E; apply Hd1; subst; auto).
  assert (E02 : (r0 =? r2)%nat = false) by (apply Nat.eqb_neq; intros E; apply Hd1; subst; auto).
  assert (E12 : (r1 =? r2)%nat = false) by (apply Nat.eqb_neq; intros E; apply Hd3; subst; auto).
  assert (E10 : (r1 =? r0)%nat = false) by (rewrite Nat.eqb_sym; exact E01).
  assert (E20 : (r2 =? r0)%nat = false) by (rewrite Nat.eqb_sym; exact E02).
  assert (E21 : (r2 =? r1)%nat = false) by (rewrite Nat.eqb_sym; exact E12).
  intros [|[|[|i]]] f row Hf Hrow; simpl in Hf, Hrow; try (destruct i; discriminate);
    injection Hf as <-; injection Hrow as <-;
    cbn [mult]; rewrite ?Nat.eqb_refl, ?E01, ?E02, ?E12, ?E10, ?E20, ?E21, ?G0, ?G1, ?G2; ring.
Qed.
