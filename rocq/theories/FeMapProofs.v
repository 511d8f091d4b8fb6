(** Proofs about the maps of the finite elements. *)
From Coq Require Import Reals List ZArith Bool Arith Lia Lra.
From Verif Require Import Prelude Arrays FeMap SpecFeMap.
Import ListNotations.
Local Open Scope nat_scope.

(** ** Loops over lists *)
Lemma each_spec : forall {X St} (l : list X) (body : X -> St -> outcome St) (I : St -> Prop) (Rel : St -> St -> Prop) (Q : X -> St -> Prop),
  (forall s, Rel s s) -> (forall a b c, Rel a b -> Rel b c -> Rel a c) -> (forall x s s', Q x s -> Rel s s' -> Q x s') ->
  (forall s s', I s -> Rel s s' -> I s') ->
  (forall x s, In x l -> I s -> exists s', body x s = Ok s' /\ Rel s s' /\ Q x s') ->
  forall s, I s -> exists s', each l body s = Ok s' /\ Rel s s' /\ forall x, In x l -> Q x s'.
Proof.
  intros X St l body I Rel Q Hr Ht Hq Hi. induction l as [|x l IH]; intros Hb s Hs; simpl.
  - exists s. split; [reflexivity|]. split; [apply Hr|]. intros x [].
  - destruct (Hb x s (or_introl eq_refl) Hs) as [s1 [E1 [R1 Q1]]]. rewrite E1. cbn [bind].
    destruct (IH (fun y t Hy => Hb y t (or_intror Hy)) s1 (Hi _ _ Hs R1)) as [s2 [E2 [R2 Q2]]].
    exists s2. split; [exact E2|]. split; [eapply Ht; eassumption|].
    intros y [<-|Hy]; [eapply Hq; eassumption|exact (Q2 y Hy)].
Qed.

(** ** The table of opposite corners *)
Definition opp (dim q d : nat) : nat := nth (q * dim + d) (local_dirs dim) 0.
Definition table_ok (dim : nat) : bool :=
  forallb (fun q => forallb (fun d =>
    (match nth_error (local_dirs dim) (q * dim + d) with Some x => x =? opp dim q d | None => false end) && (opp dim q d <? 2 ^ dim)
    && forallb (fun e => Bool.eqb (Nat.testbit (opp dim q d) e) (xorb (Nat.testbit q e) (negb (e =? d)))) (seq 0 dim)) (seq 0 dim)) (seq 0 (2 ^ dim)).
Lemma table : forall dim q d, dim = 2 \/ dim = 3 -> q < 2 ^ dim -> d < dim ->
  rd (local_dirs dim) (q * dim + d) = Ok (opp dim q d) /\ opp dim q d < 2 ^ dim /\
  forall e, e < dim -> Nat.testbit (opp dim q d) e = xorb (Nat.testbit q e) (negb (e =? d)).
Proof.
  intros dim q d Hdim Hq Hd.
  assert (T : table_ok dim = true) by (destruct Hdim as [-> | ->]; vm_compute; reflexivity).
  unfold table_ok in T. rewrite forallb_forall in T. specialize (T q ltac:(apply in_seq; lia)).
  rewrite forallb_forall in T. specialize (T d ltac:(apply in_seq; lia)).
  apply andb_prop in T. destruct T as [T T3]. apply andb_prop in T. destruct T as [T1 T2].
  split; [|split].
  - unfold rd. destruct (nth_error (local_dirs dim) (q * dim + d)); [|discriminate]. apply Nat.eqb_eq in T1. rewrite T1. reflexivity.
  - apply Nat.ltb_lt. exact T2.
  - intros e He. rewrite forallb_forall in T3. apply eqb_prop. apply T3. apply in_seq. lia.
Qed.

Section mesh.
Variables (m : plex) (corner : nat -> nat -> nat) (wall : nat -> nat -> bool -> nat).
Hypothesis B : boxes m corner wall.
Let dim := p_dim m.
Let nv := 2 ^ dim.

Lemma Hdim : dim = 2 \/ dim = 3. Proof. exact (bx_dim _ _ _ B). Qed.

Lemma distance_zero : forall a, distance dim a a = 0%R.
Proof.
  intro a. unfold distance. induction (seq 0 dim) as [|i l IH]; simpl; [reflexivity|].
  rewrite IH, Rminus_diag_eq by reflexivity. rewrite Rabs_R0. lra.
Qed.
Lemma corner_inj : forall c v w, c < p_cells m -> v < nv -> w < nv -> corner c v = corner c w -> v = w.
Proof.
  intros c v w Hc Hv Hw E. destruct (Nat.eq_dec v w) as [|Hne]; [assumption|exfalso].
  pose proof (bx_apart _ _ _ B c v w Hc Hv Hw Hne) as H. rewrite E in H. fold dim in H. rewrite distance_zero in H.
  assert (0 < / 10 ^ 12)%R by (apply Rinv_0_lt_compat; lra). lra.
Qed.

Lemma L1norm_ok : forall c v p, c < p_cells m -> v < nv ->
  L1norm m (p_image m c) v p = Ok (distance dim (p_X m (corner c v)) (p_X m p)).
Proof.
  intros c v p Hc Hv. pose proof (fun i => bx_image _ _ _ B c v i Hc Hv) as H. unfold L1norm, distance.
  fold dim in H |- *. destruct Hdim as [E|E]; rewrite E in *; unfold for_; cbn [loop seq fold_right].
  - rewrite (rd_some _ _ _ (H 0 ltac:(lia))). cbn [bind]. rewrite (rd_some _ _ _ (H 1 ltac:(lia))). cbn [bind]. f_equal. ring.
  - rewrite (rd_some _ _ _ (H 0 ltac:(lia))). cbn [bind]. rewrite (rd_some _ _ _ (H 1 ltac:(lia))). cbn [bind].
    rewrite (rd_some _ _ _ (H 2 ltac:(lia))). cbn [bind]. f_equal. ring.
Qed.

Lemma near_ok : forall c v idx a pts, c < p_cells m -> v < nv -> incl pts (p_closure m c) -> In (corner c v) pts ->
  near_vertex m c v idx pts a = wr a idx (corner c v).
Proof.
  intros c v idx a pts Hc Hv. induction pts as [|p pts IH]; intros Hi Hin; [destruct Hin|]. simpl.
  assert (Hi' : incl pts (p_closure m c)) by (intros x Hx; apply Hi; right; exact Hx).
  destruct (is_vertex m p) eqn:Ep.
  - rewrite (L1norm_ok c v p Hc Hv). cbn [bind].
    destruct (bx_corners _ _ _ B c p Hc (Hi p (or_introl eq_refl)) Ep) as [w [Hw ->]]. fold dim nv in Hw.
    destruct (Nat.eq_dec v w) as [->|Hne].
    + rewrite distance_zero. destruct (Rlt_dec _ _) as [L|]; [|reflexivity].
      assert (0 < / 10 ^ 12)%R by (apply Rinv_0_lt_compat; lra). lra.
    + destruct (Rlt_dec _ _) as [_|L]; [|destruct (L (bx_apart _ _ _ B c v w Hc Hv Hw Hne))].
      apply IH; [exact Hi'|]. destruct Hin as [E|Hin]; [|exact Hin]. destruct Hne. symmetry. apply (corner_inj c w v Hc Hw Hv E).
  - apply IH; [exact Hi'|]. destruct Hin as [->|Hin]; [|exact Hin].
    destruct (bx_corner _ _ _ B c v Hc Hv) as [_ X]. congruence.
Qed.

Lemma pos_inj2 : forall c v c' v', v < nv -> v' < nv -> c * nv + v = c' * nv + v' -> c = c' /\ v = v'.
Proof. intros c v c' v' Hv Hv'. unfold nv in *. destruct Hdim as [E|E]; rewrite E in *; simpl in *; lia. Qed.
Lemma pos_lt2 : forall c v n, c < n -> v < nv -> c * nv + v < nv * n.
Proof. intros c v n Hc Hv. unfold nv in *. destruct Hdim as [E|E]; rewrite E in *; simpl in *; lia. Qed.

Definition vmap_ok (a : list nat) : Prop := length a = nv * p_cells m /\ forall c v, c < p_cells m -> v < nv -> nth_error a (c * nv + v) = Some (corner c v).
Lemma vmap_proof : exists a, CreateCellVertexMap m nv = Ok a /\ vmap_ok a.
Proof.
  unfold CreateCellVertexMap.
  destruct (for_inv (fun c a => length a = nv * p_cells m /\ forall c' v, c' < c -> v < nv -> nth_error a (c' * nv + v) = Some (corner c' v))
    (fun c a => for_ nv (fun v a => near_vertex m c v (c * nv + v) (p_closure m c) a) a) (p_cells m) (repeat 0 (nv * p_cells m))) as [a [E H]].
  - split; [apply repeat_length|]. intros; lia.
  - intros c a Hc [La Ha].
    destruct (for_inv (fun w a => length a = nv * p_cells m /\ (forall c' v, c' < c -> v < nv -> nth_error a (c' * nv + v) = Some (corner c' v))
                                 /\ forall v, v < w -> nth_error a (c * nv + v) = Some (corner c v))
      (fun v a => near_vertex m c v (c * nv + v) (p_closure m c) a) nv a) as [a' [E' [L' [H1 H2]]]].
    + split; [exact La|]. split; [exact Ha|]. intros; lia.
    + intros w b Hw [Lb [Hb1 Hb2]]. rewrite (near_ok c w _ b (p_closure m c) Hc Hw (incl_refl _)) by (apply (bx_corner _ _ _ B c w Hc Hw)).
      assert (P : c * nv + w < length b) by (rewrite Lb; apply pos_lt2; assumption).
      rewrite wr_ok by exact P. eexists. split; [reflexivity|]. split; [rewrite length_upd; exact Lb|]. split.
      * intros c' v Hc' Hv. rewrite nth_upd_other; [apply Hb1; assumption|]. intro X.
        destruct (pos_inj2 _ _ _ _ Hw Hv X). lia.
      * intros v Hv. destruct (Nat.eq_dec v w) as [->|Hne]; [apply nth_upd_same; exact P|].
        rewrite nth_upd_other by lia. apply Hb2. lia.
    + exists a'. split; [exact E'|]. split; [exact L'|]. intros c' v Hc' Hv.
      destruct (Nat.eq_dec c' c) as [->|Hne]; [apply H2; exact Hv|apply H1; [lia|exact Hv]].
  - exists a. split; [exact E|exact H].
Qed.

(** ** The face of every corner and direction *)
Definition value (c f : nat) : Z := if Rlt_dec (ADotBMinusC m f c) 0 then (- Z.of_nat f)%Z else Z.of_nat f.
Definition pos (c q d : nat) : nat := c * nv * dim + q * dim + d.
Definition entry (c q d : nat) : Z := value c (wall_of wall c q d).
Definition step (c q : nat) (a a' : list Z) : Prop :=
  length a' = length a /\ forall i, nth_error a' i = nth_error a i \/ exists d, d < dim /\ i = pos c q d /\ nth_error a' i = Some (entry c q d).
Definition set (c q d : nat) (a : list Z) : Prop := nth_error a (pos c q d) = Some (entry c q d).

Lemma pos_inj : forall c q d c' q' d', q < nv -> q' < nv -> d < dim -> d' < dim -> pos c q d = pos c' q' d' -> c = c' /\ q = q' /\ d = d'.
Proof. intros c q d c' q' d'. unfold pos, nv. destruct Hdim as [E|E]; rewrite E; simpl; lia. Qed.
Lemma pos_lt : forall c q d, c < p_cells m -> q < nv -> d < dim -> pos c q d < dim * nv * p_cells m.
Proof. intros c q d. unfold pos, nv. destruct Hdim as [E|E]; rewrite E; simpl; lia. Qed.
Lemma step_refl : forall c q a, step c q a a.
Proof. intros. split; [reflexivity|]. left. reflexivity. Qed.
Lemma step_trans : forall c q a b d, step c q a b -> step c q b d -> step c q a d.
Proof.
  intros c q a b e [L1 H1] [L2 H2]. split; [congruence|]. intro i. destruct (H2 i) as [E|E]; [|right; exact E].
  destruct (H1 i) as [E'|[d [Hd [Hi E']]]]; [left; congruence|]. right. exists d. split; [exact Hd|]. split; [exact Hi|]. congruence.
Qed.
Lemma step_set : forall c q c' q' d a b, q < nv -> q' < nv -> d < dim -> set c' q' d a -> step c q a b -> set c' q' d b.
Proof.
  intros c q c' q' d a b Hq Hq' Hd Hs [_ H]. unfold set in *. destruct (H (pos c' q' d)) as [E|[e [He [Hi E]]]]; [congruence|].
  destruct (pos_inj _ _ _ _ _ _ Hq' Hq Hd He Hi) as [-> [-> ->]]. exact E.
Qed.

Section dirs.
Variables (vmap : list nat).
Hypothesis HV : vmap_ok vmap.

Lemma opp_inj : forall q d e, q < nv -> d < dim -> e < dim -> opp dim q d = opp dim q e -> d = e.
Proof.
  intros q d e Hq Hd He E. destruct (Nat.eq_dec d e) as [|Hne]; [assumption|exfalso].
  destruct (table dim q d Hdim Hq Hd) as [_ [_ T1]]. destruct (table dim q e Hdim Hq He) as [_ [_ T2]].
  specialize (T1 d Hd). specialize (T2 d Hd). rewrite E, T2 in T1. rewrite Nat.eqb_refl in T1.
  assert (X : d =? e = false) by (apply Nat.eqb_neq; exact Hne). rewrite X in T1. destruct (Nat.testbit q d); discriminate.
Qed.

(** A face with corner q and the corner opposite to q across direction d. *)
Lemma the_wall : forall c q d p, c < p_cells m -> q < nv -> d < dim -> In p (p_closure m c) -> is_face m p = true ->
  In (corner c q) (p_closure m p) -> In (corner c (opp dim q d)) (p_closure m p) -> p = wall_of wall c q d.
Proof.
  intros c q d p Hc Hq Hd Hp Hf H1 H2. destruct (bx_walls _ _ _ B c p Hc Hp Hf) as [e [s [He ->]]]. fold dim in He.
  destruct (table dim q d Hdim Hq Hd) as [_ [T1 T2]].
  apply (bx_side _ _ _ B c e s q Hc He Hq) in H1. apply (bx_side _ _ _ B c e s _ Hc He T1) in H2.
  specialize (T2 e He). rewrite H2, H1 in T2. destruct (e =? d) eqn:X; [|destruct s; discriminate].
  apply Nat.eqb_eq in X. subst e. unfold wall_of. rewrite H1. reflexivity.
Qed.
Lemma wall_corners : forall c q d, c < p_cells m -> q < nv -> d < dim ->
  In (corner c q) (p_closure m (wall_of wall c q d)) /\ In (corner c (opp dim q d)) (p_closure m (wall_of wall c q d)).
Proof.
  intros c q d Hc Hq Hd. destruct (table dim q d Hdim Hq Hd) as [_ [T1 T2]]. unfold wall_of. split.
  - apply (bx_side _ _ _ B c d _ q Hc Hd Hq). reflexivity.
  - apply (bx_side _ _ _ B c d _ _ Hc Hd T1). rewrite (T2 d Hd), Nat.eqb_refl. destruct (Nat.testbit q d); reflexivity.
Qed.

Lemma directions_ok : forall c q p w, c < p_cells m -> q < nv ->
  (forall d, d < dim -> w = corner c (opp dim q d) -> p = wall_of wall c q d) ->
  forall ds a, NoDup ds -> (forall d, In d ds -> d < dim) -> length a = dim * nv * p_cells m ->
  exists a', directions m nv c q p w vmap ds a = Ok a' /\ step c q a a' /\
    (forall d, In d ds -> w = corner c (opp dim q d) -> set c q d a').
Proof.
  intros c q p w Hc Hq HP. induction ds as [|d ds IH]; intros a Hn Hds La; simpl.
  - exists a. split; [reflexivity|]. split; [apply step_refl|]. intros d [].
  - assert (Hd : d < dim) by (apply Hds; left; reflexivity). inversion Hn as [|x l N1 N2]; subst.
    destruct (table dim q d Hdim Hq Hd) as [T0 [T1 T2]]. fold dim. rewrite T0. cbn [bind].
    rewrite (rd_some _ _ _ (proj2 HV c _ Hc T1)). cbn [bind]. fold (pos c q d).
    assert (Hds' : forall e, In e ds -> e < dim) by (intros e He; apply Hds; right; exact He).
    destruct (w =? corner c (opp dim q d)) eqn:Ew.
    + apply Nat.eqb_eq in Ew. pose proof (HP d Hd Ew) as Ep.
      assert (Hother : forall e, In e ds -> w <> corner c (opp dim q e)).
      { intros e He X. rewrite Ew in X. destruct (table dim q e Hdim Hq (Hds' e He)) as [_ [T1' _]].
        apply (corner_inj c _ _ Hc T1 T1') in X. apply (opp_inj q d e Hq Hd (Hds' e He)) in X. subst e. exact (N1 He). }
      assert (Hpos : pos c q d < length a) by (rewrite La; apply pos_lt; assumption).
      assert (Hstep : step c q a (upd a (pos c q d) (entry c q d))).
      { split; [apply length_upd|]. intro i. destruct (Nat.eq_dec (pos c q d) i) as [<-|Hne].
        - right. exists d. split; [exact Hd|]. split; [reflexivity|]. apply nth_upd_same. exact Hpos.
        - left. apply nth_upd_other. exact Hne. }
      assert (Hset : set c q d (upd a (pos c q d) (entry c q d))) by (unfold set; apply nth_upd_same; exact Hpos).
      assert (Eval : entry c q d = if Rlt_dec (ADotBMinusC m p c) 0 then (- Z.of_nat p)%Z else Z.of_nat p) by (unfold entry, value; rewrite <- Ep; reflexivity).
      destruct (Rlt_dec (ADotBMinusC m p c) 0) as [L|L].
      * rewrite wr_ok by exact Hpos. rewrite <- Eval. eexists. split; [reflexivity|]. split; [exact Hstep|].
        intros e [<-|He] X; [exact Hset|destruct (Hother e He X)].
      * rewrite wr_ok by exact Hpos. cbn [bind]. rewrite <- Eval.
        destruct (IH (upd a (pos c q d) (entry c q d)) N2 Hds') as [a' [E' [S' Q']]]; [rewrite length_upd; exact La|].
        exists a'. split; [exact E'|]. split; [eapply step_trans; eassumption|].
        intros e [<-|He] X; [exact (step_set c q c q d _ _ Hq Hq Hd Hset S')|exact (Q' e He X)].
    + apply Nat.eqb_neq in Ew. destruct (IH a N2 Hds' La) as [a' [E' [S' Q']]].
      exists a'. split; [exact E'|]. split; [exact S'|]. intros e [<-|He] X; [destruct (Ew X)|exact (Q' e He X)].
Qed.

Lemma face_entries_ok : forall c q p a, c < p_cells m -> q < nv -> In p (p_closure m c) -> is_face m p = true -> length a = dim * nv * p_cells m ->
  exists a', face_entries m nv c q p vmap a = Ok a' /\ step c q a a' /\ forall d, d < dim -> p = wall_of wall c q d -> set c q d a'.
Proof.
  intros c q p a Hc Hq Hp Hf La. unfold face_entries.
  destruct (each_spec (p_closure m p) (fun f a =>
    do u <- rd vmap (c * nv + q);
    if f =? u then each (p_closure m p) (fun w a => directions m nv c q p w vmap (seq 0 (p_dim m)) a) a else Ok a)
    (fun a => length a = dim * nv * p_cells m) (step c q)
    (fun f a => f = corner c q -> forall d, d < dim -> In (corner c (opp dim q d)) (p_closure m p) -> set c q d a)) with (s := a) as [a' [E [S Q]]].
  - apply step_refl.
  - apply step_trans.
  - intros f s s' H1 H2 Ef d Hd Hin. exact (step_set c q c q d _ _ Hq Hq Hd (H1 Ef d Hd Hin) H2).
  - intros s s' H1 [H2 _]. congruence.
  - intros f s Hf' Ls. rewrite (rd_some _ _ _ (proj2 HV c q Hc Hq)). cbn [bind].
    destruct (f =? corner c q) eqn:Ef.
    + apply Nat.eqb_eq in Ef. subst f.
      destruct (each_spec (p_closure m p) (fun w a => directions m nv c q p w vmap (seq 0 (p_dim m)) a)
        (fun a => length a = dim * nv * p_cells m) (step c q)
        (fun w a => forall d, d < dim -> w = corner c (opp dim q d) -> set c q d a)) with (s := s) as [s' [E' [S' Q']]].
      * apply step_refl.
      * apply step_trans.
      * intros w t t' H1 H2 d Hd X. exact (step_set c q c q d _ _ Hq Hq Hd (H1 d Hd X) H2).
      * intros t t' H1 [H2 _]. congruence.
      * intros w t Hw Lt. destruct (directions_ok c q p w Hc Hq) with (ds := seq 0 dim) (a := t) as [t' [Et [St Qt]]].
        -- intros d Hd X. subst w. eapply the_wall; eassumption.
        -- apply seq_NoDup.
        -- intros d Hd. apply in_seq in Hd. lia.
        -- exact Lt.
        -- exists t'. split; [exact Et|]. split; [exact St|]. intros d Hd. apply Qt. apply in_seq. lia.
      * exact Ls.
      * exists s'. split; [exact E'|]. split; [exact S'|]. intros _ d Hd Hin. exact (Q' _ Hin d Hd eq_refl).
    + apply Nat.eqb_neq in Ef. exists s. split; [reflexivity|]. split; [apply step_refl|]. intro X. destruct (Ef X).
  - exact La.
  - exists a'. split; [exact E|]. split; [exact S|]. intros d Hd ->. destruct (wall_corners c q d Hc Hq Hd) as [W1 W2].
    exact (Q _ W1 eq_refl d Hd W2).
Qed.

Definition emap_ok (a : list Z) : Prop := length a = dim * nv * p_cells m /\ forall c q d, c < p_cells m -> q < nv -> d < dim -> set c q d a.
Lemma emap_proof : exists a, CreateCellVertexDirFaceMap m nv vmap = Ok a /\ emap_ok a.
Proof.
  unfold CreateCellVertexDirFaceMap. fold dim.
  destruct (for_inv (fun c a => length a = dim * nv * p_cells m /\ forall c' q d, c' < c -> q < nv -> d < dim -> set c' q d a)
    (fun c a => for_ nv (fun q a => each (p_closure m c) (fun p a => if is_face m p then face_entries m nv c q p vmap a else Ok a) a) a)
    (p_cells m) (repeat 0%Z (dim * nv * p_cells m))) as [a [E H]].
  - split; [apply repeat_length|]. intros; lia.
  - intros c a Hc [La Ha].
    destruct (for_inv (fun n a => length a = dim * nv * p_cells m /\ (forall c' q d, c' < c -> q < nv -> d < dim -> set c' q d a)
                                 /\ forall q d, q < n -> d < dim -> set c q d a)
      (fun q a => each (p_closure m c) (fun p a => if is_face m p then face_entries m nv c q p vmap a else Ok a) a) nv a) as [a' [E' [L' [H1 H2]]]].
    + split; [exact La|]. split; [exact Ha|]. intros; lia.
    + intros q b Hq [Lb [Hb1 Hb2]].
      destruct (each_spec (p_closure m c) (fun p a => if is_face m p then face_entries m nv c q p vmap a else Ok a)
        (fun a => length a = dim * nv * p_cells m) (step c q)
        (fun p a => forall d, d < dim -> p = wall_of wall c q d -> set c q d a)) with (s := b) as [b' [Eb [Sb Qb]]].
      * apply step_refl.
      * apply step_trans.
      * intros p t t' X Y d Hd W. exact (step_set c q c q d _ _ Hq Hq Hd (X d Hd W) Y).
      * intros t t' X [Y _]. congruence.
      * intros p t Hp Lt. destruct (is_face m p) eqn:Ef; [apply face_entries_ok; assumption|].
        exists t. split; [reflexivity|]. split; [apply step_refl|]. intros d Hd ->.
        destruct (bx_wall _ _ _ B c d (Nat.testbit q d) Hc Hd) as [_ X]. unfold wall_of in Ef. congruence.
      * exact Lb.
      * exists b'. split; [exact Eb|]. split; [destruct Sb; congruence|]. split.
        -- intros c' q' d Hc' Hq' Hd. eapply step_set; [exact Hq|exact Hq'|exact Hd|apply Hb1; assumption|exact Sb].
        -- intros q' d Hq' Hd. destruct (Nat.eq_dec q' q) as [->|Hne].
           ++ apply (Qb (wall_of wall c q d)); [|exact Hd|reflexivity]. apply (bx_wall _ _ _ B c d _ Hc Hd).
           ++ eapply step_set; [exact Hq| |exact Hd|apply Hb2; [lia|exact Hd]|exact Sb]. lia.
    + exists a'. split; [exact E'|]. split; [exact L'|]. intros c' q d Hc' Hq Hd.
      destruct (Nat.eq_dec c' c) as [->|Hne]; [apply H2; assumption|apply H1; [lia|assumption|assumption]].
  - exists a. split; [exact E|exact H].
Qed.
End dirs.
End mesh.
