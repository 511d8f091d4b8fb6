(** Proofs about the order of the cells around a vertex: one level. *)
From Coq Require Import Reals List Bool Arith ZArith Lia Permutation.
From Verif Require Import Prelude Arrays Geom Numbering SpecNumbering NumberingProofs Traversal SpecTraversal TraversalOrderProofs.
Import ListNotations.
Local Open Scope nat_scope.

Lemma side_touch : forall k f c, side_of k f c = true <-> touches k f c.
Proof.
  intros k f c. unfold side_of, touches. split.
  - destruct (nth_error (k_fcells k) f) as [[a b]|]; [|discriminate]. intro H. exists (a, b). split; [reflexivity|].
    apply orb_true_iff in H. simpl. destruct H as [H|H]; apply Z.eqb_eq in H; [left|right]; congruence.
  - intros [[a b] [-> H]]. apply orb_true_iff. simpl in H. destruct H as [->| ->]; [left|right]; apply Z.eqb_refl.
Qed.
Lemma touch3 : forall k f a b c, In f (k_faces k) -> touches k f a -> touches k f b -> touches k f c ->
  a = b \/ a = c \/ b = c.
Proof.
  intros k f a b c Hf Ha Hb Hc. destruct (Nat.eq_dec a b) as [E|E]; [left; exact E|].
  destruct (touch_two k f a b c Hf Ha Hb Hc E); subst; auto.
Qed.
Lemma meet_sym : forall k c d, meet k c d -> meet k d c.
Proof. intros k c d [f [H [H1 H2]]]. exists f. auto. Qed.
Lemma numbered_nth : forall {X} (l : list X) i j x, In (j, x) (numbered_from i l) <-> i <= j /\ nth_error l (j - i) = Some x.
Proof.
  induction l as [|y l IH]; intros i j x; simpl.
  - split; [intros []|]. intros [_ H]. destruct (j - i); discriminate H.
  - rewrite IH. split.
    + intros [[= -> ->]|[H1 H2]]; [split; [lia|]; rewrite Nat.sub_diag; reflexivity|].
      split; [lia|]. replace (j - i) with (S (j - S i)) by lia. exact H2.
    + intros [H1 H2]. destruct (Nat.eq_dec i j) as [->|Hne].
      * left. rewrite Nat.sub_diag in H2. simpl in H2. congruence.
      * right. split; [lia|]. replace (j - i) with (S (j - S i)) in H2 by lia. exact H2.
Qed.
Lemma numbered_nodup : forall {X} (l : list X) i, NoDup (map fst (numbered_from i l)).
Proof.
  induction l as [|y l IH]; intro i; simpl; [constructor|]. constructor; [|apply IH].
  intro H. apply in_map_iff in H. destruct H as [[j x] [E H]]. simpl in E. subst j. apply numbered_nth in H. lia.
Qed.

Section mesh.
Variables (h : shape) (k : corner) (A B : list nat).
Hypothesis Hk : conforming k.
Hypothesis Hl : layered h k A B.

Lemma upright_in_spec : forall iv vs, iv < length (h_vx h) -> (forall v, In v vs -> v < length (h_vx h)) ->
  exists b, upright_in h iv vs = Ok b /\ (b = true <-> exists v, In v vs /\ v <> iv /\ straight h iv v).
Proof.
  intros iv vs Hiv. induction vs as [|v vs IH]; intro Hvs.
  - exists false. split; [reflexivity|]. split; [discriminate|]. intros [v [[] _]].
  - destruct (IH (fun w Hw => Hvs w (or_intror Hw))) as [b [E Hb]]. simpl.
    destruct (Nat.eqb_spec v iv) as [->|Hne].
    + exists b. split; [exact E|]. rewrite Hb. split; intros [w [Hw R]]; exists w; (split; [|exact R]);
        [right; exact Hw|destruct Hw as [<-|Hw]; [destruct R as [R _]; congruence|exact Hw]].
    + unfold same_xy.
      destruct (nth_error (h_vx h) iv) as [x|] eqn:Ex; [|apply nth_error_None in Ex; lia].
      assert (Hv := Hvs v (or_introl eq_refl)).
      destruct (nth_error (h_vx h) v) as [y|] eqn:Ey; [|apply nth_error_None in Ey; lia].
      rewrite (rd_some _ _ _ Ex), (rd_some _ _ _ Ey). cbn [bind].
      destruct (Rlt_dec ((vx x - vx y) ^ 2 + (vy x - vy y) ^ 2) (1 / 10 ^ 14)) as [Hlt|Hge].
      * exists true. split; [reflexivity|]. split; [|reflexivity]. intros _. exists v.
        split; [left; reflexivity|]. split; [exact Hne|]. exists x, y. auto.
      * exists b. split; [exact E|]. rewrite Hb. split; intros [w [Hw R]]; exists w; (split; [|exact R]).
        -- right. exact Hw.
        -- destruct Hw as [<-|Hw]; [|exact Hw]. exfalso. destruct R as [_ [x' [y' [E1 [E2 R]]]]].
           apply Hge. congruence.
Qed.
Lemma iv_known : forall f, In f (k_faces k) -> k_iv k < length (h_vx h).
Proof.
  intros f Hf. destruct (cf_verts k Hk f Hf) as [vs [E [Hin _]]]. exact (ly_points _ _ _ _ Hl f vs _ Hf E Hin).
Qed.
Lemma upr : forall f, In f (k_faces k) -> exists b, is_upright h k f = Ok b /\ (b = true <-> upright h k f).
Proof.
  intros f Hf. destruct (cf_verts k Hk f Hf) as [vs [E [Hin _]]].
  destruct (upright_in_spec (k_iv k) vs (iv_known f Hf) (fun v Hv => ly_points _ _ _ _ Hl f vs v Hf E Hv)) as [b [Eb Hb]].
  exists b. unfold is_upright. rewrite (rd_some _ _ _ E). cbn [bind]. split; [exact Eb|]. rewrite Hb. unfold upright. split.
  - intros [v [Hv R]]. exists vs, v. auto.
  - intros [vs' [v [E' [Hv R]]]]. exists v. assert (vs' = vs) by congruence. subst. auto.
Qed.
Lemma upr_dec : forall f, In f (k_faces k) -> upright h k f \/ ~ upright h k f.
Proof.
  intros f Hf. destruct (upr f Hf) as [[] [_ H]]; [left; apply H; reflexivity|right; intro U; apply H in U; discriminate U].
Qed.

Lemma in_cells : forall f c, In f (k_faces k) -> touches k f c -> In c (k_cells k).
Proof. intros f c Hf H. destruct (cf_sides k Hk f Hf) as [c1 [c2 [_ [_ [_ [_ I]]]]]]. exact (I c H). Qed.

(** Two upright faces of a cell are all there are; the third is the only other one. *)
Lemma two_up : forall c f g x, In c (k_cells k) -> In f (k_faces k) -> In g (k_faces k) -> In x (k_faces k) ->
  touches k f c -> touches k g c -> touches k x c -> upright h k f -> upright h k g -> upright h k x -> f <> g -> x = f \/ x = g.
Proof.
  intros c f g x Hc Hf Hg Hx Tf Tg Tx Uf Ug Ux Hne. destruct (ly_three _ _ _ _ Hl c Hc) as [u [v [w [Huv [Uu [Uv [Uw H]]]]]]].
  assert (Cf := proj1 (H f) (conj Hf Tf)). assert (Cg := proj1 (H g) (conj Hg Tg)). assert (Cx := proj1 (H x) (conj Hx Tx)).
  destruct Cf as [->|[->| ->]]; destruct Cg as [->|[->| ->]]; destruct Cx as [->|[->| ->]]; tauto.
Qed.
Lemma one_flat : forall c f g, In c (k_cells k) -> In f (k_faces k) -> In g (k_faces k) ->
  touches k f c -> touches k g c -> ~ upright h k f -> ~ upright h k g -> f = g.
Proof.
  intros c f g Hc Hf Hg Tf Tg Uf Ug. destruct (ly_three _ _ _ _ Hl c Hc) as [u [v [w [Huv [Uu [Uv [Uw H]]]]]]].
  assert (Cf := proj1 (H f) (conj Hf Tf)). assert (Cg := proj1 (H g) (conj Hg Tg)).
  destruct Cf as [->|[->| ->]]; destruct Cg as [->|[->| ->]]; tauto.
Qed.
Lemma other_up : forall c f, In c (k_cells k) -> In f (k_faces k) -> touches k f c -> upright h k f ->
  exists g, In g (k_faces k) /\ touches k g c /\ upright h k g /\ g <> f.
Proof.
  intros c f Hc Hf Tf Uf. destruct (ly_three _ _ _ _ Hl c Hc) as [u [v [w [Huv [Uu [Uv [Uw H]]]]]]].
  assert (Cu := proj2 (H u) (or_introl eq_refl)). assert (Cv := proj2 (H v) (or_intror (or_introl eq_refl))).
  destruct (Nat.eq_dec f u) as [->|Hne]; [exists v|exists u]; intuition congruence.
Qed.
Lemma has_flat : forall c, In c (k_cells k) -> exists g, In g (k_faces k) /\ touches k g c /\ ~ upright h k g.
Proof.
  intros c Hc. destruct (ly_three _ _ _ _ Hl c Hc) as [u [v [w [Huv [Uu [Uv [Uw H]]]]]]].
  assert (Cw := proj2 (H w) (or_intror (or_intror eq_refl))). exists w. tauto.
Qed.
(** The other cell of a face that is inside. *)
Lemma other_cell : forall f c, In f (k_faces k) -> touches k f c -> inside k f = true ->
  exists d, d <> c /\ touches k f d /\ In d (k_cells k).
Proof.
  intros f c Hf Tc Hi. destruct (cf_sides k Hk f Hf) as [c1 [c2 [E [Hne [_ [Ei I]]]]]].
  assert (Hpos : (0 <= c1 /\ 0 <= c2)%Z).
  { unfold inside in Hi. rewrite (nth_error_nth _ _ false Ei) in Hi. apply andb_true_iff in Hi. lia. }
  destruct Tc as [fc [E' T]]. assert (fc = (c1, c2)) by congruence. subst fc. simpl in T.
  destruct T as [T|T].
  - exists (Z.to_nat c2). assert (T2 : touches k f (Z.to_nat c2)) by (exists (c1, c2); split; [exact E|right; simpl; lia]).
    split; [lia|]. split; [exact T2|exact (I _ T2)].
  - exists (Z.to_nat c1). assert (T2 : touches k f (Z.to_nat c1)) by (exists (c1, c2); split; [exact E|left; simpl; lia]).
    split; [lia|]. split; [exact T2|exact (I _ T2)].
Qed.

(** A boundary face that is upright. *)
Definition outer (c f : nat) : Prop := In f (k_bnd k) /\ touches k f c /\ upright h k f.
Lemma bnd_face : forall f, In f (k_bnd k) -> In f (k_faces k) /\ inside k f = false.
Proof. intros f H. apply (cf_outer k Hk). exact H. Qed.

Definition posn (c : nat) : nat := match first_at (Nat.eqb c) (k_cells k) 0 with Some j => j | None => 0 end.
Lemma posn_spec : forall c, In c (k_cells k) -> first_at (Nat.eqb c) (k_cells k) 0 = Some (posn c) /\
  nth_error (k_cells k) (posn c) = Some c.
Proof.
  intros c Hc. destruct (In_nth_error _ _ Hc) as [a Ha]. unfold posn.
  rewrite (pos_nat _ _ _ (cf_cells k Hk) Ha). split; [reflexivity|exact Ha].
Qed.
Definition ps (c : nat) : Z := Z.of_nat (posn c).
Definition bp (j : nat) : Z := Z.of_nat (length (k_cells k) + j).
Lemma ps_cell : forall c, In c (k_cells k) -> is_cell k (ps c).
Proof. intros c Hc. unfold is_cell, ps. assert (H := nth_lt _ _ _ (proj2 (posn_spec c Hc))). lia. Qed.
Lemma bp_not : forall j, ~ is_cell k (bp j).
Proof. intros j H. unfold is_cell, bp in H. lia. Qed.
Lemma ps_inj : forall c d, In c (k_cells k) -> In d (k_cells k) -> ps c = ps d -> c = d.
Proof.
  intros c d Hc Hd E. unfold ps in E. apply Nat2Z.inj in E.
  assert (H1 := proj2 (posn_spec c Hc)). assert (H2 := proj2 (posn_spec d Hd)). congruence.
Qed.
Lemma joined_cells : forall c d, In c (k_cells k) -> In d (k_cells k) -> c <> d -> meet k c d -> joined k (ps c) (ps d).
Proof.
  intros c d Hc Hd Hne [f [Hf [T1 T2]]]. exists f. split; [exact Hf|]. left. simpl.
  exact (ends_in k f _ _ c d (proj2 (posn_spec c Hc)) (proj2 (posn_spec d Hd)) Hne T1 T2).
Qed.
Lemma joined_bnd : forall c j f, In c (k_cells k) -> nth_error (k_bnd k) j = Some f -> touches k f c -> joined k (ps c) (bp j).
Proof.
  intros c j f Hc Hj T. exists f. split; [exact (proj1 (bnd_face f (nth_error_In _ _ Hj)))|]. left. simpl.
  exact (ends_out k f _ j c (proj2 (posn_spec c Hc)) Hj T).
Qed.
Lemma joined_swap : forall x y, joined k x y -> joined k y x.
Proof. intros x y [f [Hf [H|H]]]; exists f; (split; [exact Hf|]); [right|left]; exact H. Qed.

(** Searching for upright boundary faces. *)
Lemma find_upright_some : forall c skip l ii j x, incl l (k_bnd k) -> nth_error l j = Some x -> outer c x ->
  (forall i y, nth_error l i = Some y -> outer c y -> i = j) -> skip <> Some (ii + j) ->
  find_upright h k c skip ii l = Ok (Some (ii + j)).
Proof.
  intros c skip. induction l as [|f l IH]; intros ii j x HI Hj Ho Hu Hs; [destruct j; discriminate Hj|]. simpl.
  destruct j as [|j].
  - injection Hj as ->. destruct Ho as [H1 [H2 H3]].
    assert ((match skip with Some j => ii =? j | None => false end) = false) as ->.
    { destruct skip as [j|]; [|reflexivity]. apply Nat.eqb_neq. intro. subst. apply Hs. f_equal. lia. }
    rewrite (proj2 (side_touch k x c) H2). cbn [negb andb].
    destruct (upr x (proj1 (bnd_face x H1))) as [b [E Hb]]. rewrite E. cbn [bind].
    rewrite (proj2 Hb H3). do 2 f_equal. lia.
  - assert (IH' : find_upright h k c skip (S ii) l = Ok (Some (S ii + j))).
    { apply (IH (S ii) j x); [intros y Hy; apply HI; right; exact Hy|exact Hj|exact Ho| |].
      - intros i y Hi Hy. specialize (Hu (S i) y Hi Hy). lia.
      - intro. apply Hs. subst. f_equal. lia. }
    rewrite IH'. replace (ii + S j) with (S ii + j) by lia.
    destruct (negb (match skip with Some j0 => ii =? j0 | None => false end) && side_of k f c) eqn:E; [|reflexivity].
    apply andb_true_iff in E. destruct E as [_ E]. apply side_touch in E.
    assert (Hfb : In f (k_bnd k)) by (apply HI; left; reflexivity).
    destruct (upr f (proj1 (bnd_face f Hfb))) as [[] [E1 Hb]]; rewrite E1; cbn [bind]; [|reflexivity].
    exfalso. specialize (Hu 0 f eq_refl (conj Hfb (conj E (proj1 Hb eq_refl)))). discriminate Hu.
Qed.
Lemma find_upright_none : forall c skip l ii, incl l (k_bnd k) -> (forall y, In y l -> ~ outer c y) ->
  find_upright h k c skip ii l = Ok None.
Proof.
  intros c skip. induction l as [|f l IH]; intros ii HI Hn; [reflexivity|]. simpl.
  rewrite (IH (S ii) (fun y Hy => HI y (or_intror Hy)) (fun y Hy => Hn y (or_intror Hy))).
  destruct (negb (match skip with Some j0 => ii =? j0 | None => false end) && side_of k f c) eqn:E; [|reflexivity].
  apply andb_true_iff in E. destruct E as [_ E]. apply side_touch in E.
  assert (Hfb : In f (k_bnd k)) by (apply HI; left; reflexivity).
  destruct (upr f (proj1 (bnd_face f Hfb))) as [[] [E1 Hb]]; rewrite E1; cbn [bind]; [|reflexivity].
  exfalso. exact (Hn f (or_introl eq_refl) (conj Hfb (conj E (proj1 Hb eq_refl)))).
Qed.

(** Writing to the arrays. *)
Lemma wr_pad : forall (r : list Z) m x, 0 < m -> wr (r ++ repeat (-1)%Z m) (length r) x = Ok ((r ++ [x]) ++ repeat (-1)%Z (m - 1)).
Proof.
  intros r m x Hm. rewrite wr_ok by (rewrite app_length, repeat_length; lia). f_equal.
  destruct m as [|m]; [lia|]. simpl repeat. replace (S m - 1) with m by lia. rewrite Nat.sub_0_r.
  induction r as [|y r IH]; [reflexivity|]. simpl. f_equal. exact IH.
Qed.
Lemma put_cells_ok : forall l pre m, incl l (k_cells k) -> length l <= m ->
  put_cells k l (length pre) (pre ++ repeat (-1)%Z m) = Ok ((pre ++ map ps l) ++ repeat (-1)%Z (m - length l)).
Proof.
  induction l as [|c l IH]; intros pre m HI Hm; cbn [put_cells].
  - rewrite app_nil_r, Nat.sub_0_r. reflexivity.
  - cbn [length] in Hm. rewrite (proj1 (posn_spec c (HI c (or_introl eq_refl)))), wr_pad by lia. cbn [bind].
    replace (S (length pre)) with (length (pre ++ [Z.of_nat (posn c)])) by (rewrite app_length; simpl; lia).
    rewrite IH by ((intros x Hx; apply HI; right; exact Hx) || lia). cbn [map length].
    replace (m - S (length l)) with (m - 1 - length l) by lia. rewrite <- (app_assoc pre [Z.of_nat (posn c)]). reflexivity.
Qed.

(** ** One level *)
Section level.
Variable L : list nat.
Hypothesis HLin : incl L (k_cells k).
Hypothesis HLup : forall f c d, In f (k_faces k) -> upright h k f -> touches k f c -> touches k f d -> In c L -> In d L.
Hypothesis HLflat : forall f c d, In f (k_faces k) -> ~ upright h k f -> c <> d -> touches k f c -> touches k f d ->
  In c L -> ~ In d L.

Lemma meet_up : forall c d, In c L -> In d L -> c <> d -> meet k c d ->
  exists f, In f (k_faces k) /\ touches k f c /\ touches k f d /\ upright h k f.
Proof.
  intros c d Hc Hd Hne [f [Hf [T1 T2]]]. exists f. repeat split; try assumption.
  destruct (upr_dec f Hf) as [U|U]; [exact U|]. exfalso. exact (HLflat f c d Hf U Hne T1 T2 Hc Hd).
Qed.

Record row (o : list nat) : Prop := {
  rw_nodup : NoDup o;
  rw_in : incl o L;
  rw_all : incl L o;
  rw_meet : forall i c d, nth_error o i = Some c -> nth_error o (S i) = Some d -> meet k c d
}.

Lemma row_rev : forall o, row o -> row (rev o).
Proof.
  intros o [H1 H2 H3 H4]. constructor.
  - apply NoDup_rev. exact H1.
  - intros x Hx. apply H2. apply in_rev. exact Hx.
  - intros x Hx. apply in_rev. rewrite rev_involutive. apply H3. exact Hx.
  - intros i c d Hc Hd. apply rev_at in Hc. apply rev_at in Hd. destruct Hc as [B1 Hc]. destruct Hd as [B2 Hd].
    apply meet_sym. apply (H4 (length o - S (S i))); [exact Hd|].
    replace (S (length o - S (S i))) with (length o - S i) by lia. exact Hc.
Qed.

Section a_row.
Variable o : list nat.
Hypothesis Ho : row o.
Let ne : forall i j x y, nth_error o i = Some x -> nth_error o j = Some y -> i <> j -> x <> y.
Proof. intros i j x y Hi Hj Hij ->. apply Hij. exact (nodup_nth o i j y (rw_nodup o Ho) Hi Hj). Qed.
Let inL : forall i x, nth_error o i = Some x -> In x L.
Proof. intros i x H. apply (rw_in o Ho). eapply nth_error_In. exact H. Qed.
Let ex : forall i, i < length o -> exists x, nth_error o i = Some x.
Proof. intros i H. destruct (nth_error o i) eqn:E; [eauto|]. apply nth_error_None in E. lia. Qed.

Lemma mid : forall i c f, 0 < i -> S i < length o -> nth_error o i = Some c -> In f (k_faces k) -> upright h k f ->
  touches k f c -> exists j d, (S j = i \/ j = S i) /\ nth_error o j = Some d /\ touches k f d.
Proof.
  intros i c f H0 H1 Hc Hf Uf Tf. destruct i as [|i]; [lia|].
  destruct (ex i ltac:(lia)) as [a Ha]. destruct (ex (S (S i)) H1) as [b Hb].
  destruct (meet_up a c (inL _ _ Ha) (inL _ _ Hc) (ne _ _ _ _ Ha Hc ltac:(lia)) (rw_meet o Ho i a c Ha Hc)) as [p [Hp [Tpa [Tpc Up]]]].
  destruct (meet_up c b (inL _ _ Hc) (inL _ _ Hb) (ne _ _ _ _ Hc Hb ltac:(lia)) (rw_meet o Ho (S i) c b Hc Hb)) as [q [Hq [Tqc [Tqb Uq]]]].
  assert (Hpq : p <> q).
  { intro. subst q. destruct (touch3 k p a c b Hp Tpa Tpc Tqb) as [E|[E|E]]; revert E;
      [apply (ne i (S i))|apply (ne i (S (S i)))|apply (ne (S i) (S (S i)))]; auto; lia. }
  destruct (two_up c p q f (HLin c (inL _ _ Hc)) Hp Hq Hf Tpc Tqc Tf Up Uq Uf Hpq) as [->| ->].
  - exists i, a. auto.
  - exists (S (S i)), b. auto.
Qed.
Lemma row_meet : forall i j x y, nth_error o i = Some x -> nth_error o j = Some y -> i < j -> meet k x y ->
  j = S i \/ (i = 0 /\ S j = length o).
Proof.
  intros i j x y Hi Hj Hlt Hm. assert (Hjl : j < length o) by (apply nth_error_Some; congruence).
  destruct (meet_up x y (inL _ _ Hi) (inL _ _ Hj) (ne _ _ _ _ Hi Hj ltac:(lia)) Hm) as [f [Hf [Tx [Ty Uf]]]].
  assert (Hpos : forall m z, nth_error o m = Some z -> touches k f z -> m = i \/ m = j).
  { intros m z Hz Tz. destruct (Nat.eq_dec m i) as [|Hmi]; [left; assumption|]. destruct (Nat.eq_dec m j) as [|Hmj]; [right; assumption|].
    exfalso. destruct (touch3 k f x y z Hf Tx Ty Tz) as [E|[E|E]]; revert E;
      [apply (ne i j)|apply (ne i m)|apply (ne j m)]; auto; lia. }
  destruct (Nat.eq_dec (S j) (length o)) as [Hl1|Hl1].
  - destruct i as [|i]; [right; split; [reflexivity|exact Hl1]|]. left.
    destruct (mid (S i) x f ltac:(lia) ltac:(lia) Hi Hf Uf Tx) as [m [z [Hm' [Hz Tz]]]]. destruct (Hpos m z Hz Tz); lia.
  - left. destruct (mid j y f ltac:(lia) ltac:(lia) Hj Hf Uf Ty) as [m [z [Hm' [Hz Tz]]]]. destruct (Hpos m z Hz Tz); lia.
Qed.
(** The first cell has an upright boundary face, exactly one, or it is beside the last. *)
Lemma first_cases : forall a b, 1 < length o -> nth_error o 0 = Some a -> nth_error o (length o - 1) = Some b ->
  (2 < length o /\ meet k b a /\ forall f, ~ outer a f) \/
  (exists x, outer a x /\ (forall f, outer a f -> f = x) /\ ~ (2 < length o /\ meet k b a)).
Proof.
  intros a b Hn Ha Hb. destruct (ex 1 Hn) as [a1 Ha1].
  assert (Ca : In a (k_cells k)) by (apply HLin; exact (inL _ _ Ha)).
  assert (Na1 := ne _ _ _ _ Ha Ha1 ltac:(lia)). assert (Nab := ne _ _ _ _ Ha Hb ltac:(lia)).
  destruct (meet_up a a1 (inL _ _ Ha) (inL _ _ Ha1) Na1 (rw_meet o Ho 0 a a1 Ha Ha1)) as [s [Hs [Tsa [Ts1 Us]]]].
  destruct (other_up a s Ca Hs Tsa Us) as [x [Hx [Tx [Ux Hxs]]]].
  assert (Hsin : inside k s = true) by (apply (touch_inside k Hk s a a1); assumption).
  assert (Hout : forall f, outer a f -> f = x).
  { intros f [F1 [F2 F3]]. destruct (bnd_face f F1) as [F4 F5].
    destruct (two_up a s x f Ca Hs Hx F4 Tsa Tx F2 Us Ux F3 (not_eq_sym Hxs)) as [->| ->]; [congruence|reflexivity]. }
  destruct (inside k x) eqn:Ex.
  - left. destruct (other_cell x a Hx Tx Ex) as [d [Hda [Td Cd]]].
    assert (Ld : In d L) by (apply (HLup x a d); try assumption; exact (inL _ _ Ha)).
    destruct (In_nth_error _ _ (rw_all o Ho d Ld)) as [j Hj].
    assert (Hj0 : 0 < j) by (destruct j; [congruence|lia]).
    assert (Hj1 : j <> 1).
    { intro. subst j. assert (d = a1) by congruence. subst d.
      apply Hxs. exact (cf_share k Hk x s a a1 Hx Hs Na1 Tx Td Tsa Ts1). }
    destruct (row_meet 0 j a d Ha Hj Hj0 (ex_intro _ x (conj Hx (conj Tx Td)))) as [E|[_ E]]; [lia|].
    replace (length o - 1) with j in Hb by lia. assert (d = b) by congruence. subst d.
    split; [lia|]. split; [exists x; auto|].
    intros f Hf. assert (f = x) by exact (Hout f Hf). subst f. destruct Hf as [F1 _]. destruct (bnd_face x F1). congruence.
  - right. exists x. split; [split; [apply (cf_outer k Hk); auto|auto]|]. split; [exact Hout|].
    intros [Hn3 Hm].
    destruct (meet_up b a (inL _ _ Hb) (inL _ _ Ha) (not_eq_sym Nab) Hm) as [f [Hf [Tb [Ta Uf]]]].
    destruct (two_up a s x f Ca Hs Hx Hf Tsa Tx Ta Us Ux Uf (not_eq_sym Hxs)) as [->| ->].
    + destruct (touch3 k s a a1 b Hs Tsa Ts1 Tb) as [E|[E|E]]; revert E;
        [apply (ne 0 1)|apply (ne 0 (length o - 1))|apply (ne 1 (length o - 1))]; auto; lia.
    + apply Nab. exact (touch_one k Hk x a b Hx Ex Tx Tb).
Qed.
Lemma mid_none : forall i c f, 0 < i -> S i < length o -> nth_error o i = Some c -> ~ outer c f.
Proof.
  intros i c f H0 H1 Hc [F1 [F2 F3]]. destruct (bnd_face f F1) as [F4 F5].
  destruct (mid i c f H0 H1 Hc F4 F3 F2) as [j [d [Hj [Hd Td]]]].
  assert (c = d) by exact (touch_one k Hk f c d F4 F5 F2 Td).
  revert H. apply (ne i j); auto. lia.
Qed.
End a_row.
Lemma last_cases : forall o, row o -> forall a b, 1 < length o -> nth_error o 0 = Some a -> nth_error o (length o - 1) = Some b ->
  (2 < length o /\ meet k b a /\ forall f, ~ outer b f) \/
  (exists x, outer b x /\ (forall f, outer b f -> f = x) /\ ~ (2 < length o /\ meet k b a)).
Proof.
  intros o Ho a b Hn Ha Hb. destruct (first_cases (rev o) (row_rev o Ho) b a) as [H|H].
  - rewrite rev_length. exact Hn.
  - assert (exists z, nth_error (rev o) 0 = Some z) as [z Hz].
    { destruct (nth_error (rev o) 0) eqn:E; [eauto|]. apply nth_error_None in E. rewrite rev_length in E. lia. }
    rewrite Hz. apply rev_at in Hz. destruct Hz as [_ Hz]. congruence.
  - rewrite rev_length. assert (exists z, nth_error (rev o) (length o - 1) = Some z) as [z Hz].
    { destruct (nth_error (rev o) (length o - 1)) eqn:E; [eauto|]. apply nth_error_None in E. rewrite rev_length in E. lia. }
    rewrite Hz. apply rev_at in Hz. destruct Hz as [_ Hz]. replace (length o - S (length o - 1)) with 0 in Hz by lia. congruence.
  - left. rewrite rev_length in H. destruct H as [H1 [H2 H3]]. split; [exact H1|]. split; [apply meet_sym; exact H2|exact H3].
  - right. rewrite rev_length in H. destruct H as [x [H1 [H2 H3]]]. exists x. split; [exact H1|]. split; [exact H2|].
    intros [H4 H5]. apply H3. split; [exact H4|apply meet_sym; exact H5].
Qed.

(** What ConvertCells makes of a row. *)
Record leveled (o : list nat) (r : list Z) : Prop := {
  lv_ring : ring k r;
  lv_nodup : NoDup r;
  lv_cells : exists ext, r = map ps o ++ ext /\
    (forall x, In x ext -> exists j f c, x = bp j /\ nth_error (k_bnd k) j = Some f /\ outer c f /\ In c L);
  lv_all : forall c j f, In c L -> nth_error (k_bnd k) j = Some f -> outer c f -> In (bp j) r
}.
Lemma nth_ext2 : forall (m : list Z) u v i x, nth_error (m ++ [u; v]) i = Some x ->
  (i < length m /\ nth_error m i = Some x) \/ (i = length m /\ x = u) \/ (i = S (length m) /\ x = v).
Proof.
  intros m u v i x H. destruct (lt_dec i (length m)) as [Hi|Hi].
  - left. rewrite nth_error_app1 in H by exact Hi. auto.
  - right. rewrite nth_error_app2 in H by lia. destruct (i - length m) as [|[|d]] eqn:E; simpl in H.
    + left. split; [lia|congruence].
    + right. split; [lia|congruence].
    + destruct d; discriminate H.
Qed.
Lemma nth_map_ps : forall o i x, nth_error (map ps o) i = Some x -> exists c, nth_error o i = Some c /\ x = ps c.
Proof.
  intros o i x H. rewrite nth_error_map in H. destruct (nth_error o i) as [c|]; [|discriminate H].
  exists c. split; [reflexivity|]. simpl in H. congruence.
Qed.
Lemma row_joined : forall o, row o -> forall i x y, nth_error (map ps o) i = Some x -> nth_error (map ps o) (S i) = Some y -> joined k x y.
Proof.
  intros o Ho i x y Hx Hy. destruct (nth_map_ps _ _ _ Hx) as [c [Hc ->]]. destruct (nth_map_ps _ _ _ Hy) as [d [Hd ->]].
  apply joined_cells.
  - apply HLin, (rw_in o Ho). eapply nth_error_In. exact Hc.
  - apply HLin, (rw_in o Ho). eapply nth_error_In. exact Hd.
  - intro. subst d. pose proof (nodup_nth o i (S i) c (rw_nodup o Ho) Hc Hd). lia.
  - exact (rw_meet o Ho i c d Hc Hd).
Qed.
Lemma ring_open : forall o a b fa fb ja jb, row o -> nth_error o 0 = Some a -> nth_error o (length o - 1) = Some b ->
  nth_error (k_bnd k) ja = Some fa -> touches k fa a -> nth_error (k_bnd k) jb = Some fb -> touches k fb b ->
  ring k (map ps o ++ [bp jb; bp ja]).
Proof.
  intros o a b fa fb ja jb Ho Ha Hb Hja Ta Hjb Tb.
  assert (Hpos : 0 < length o) by (apply nth_error_Some; congruence).
  assert (Ca : In a (k_cells k)) by (apply HLin, (rw_in o Ho); eapply nth_error_In; exact Ha).
  assert (Cb : In b (k_cells k)) by (apply HLin, (rw_in o Ho); eapply nth_error_In; exact Hb).
  split.
  - intros i x y Hx Hy Hc. rewrite app_length, map_length in Hy. simpl length in Hy.
    apply nth_ext2 in Hx. rewrite map_length in Hx. destruct Hx as [[Hi Hx]|[[-> ->]|[-> ->]]].
    + rewrite Nat.mod_small in Hy by lia. apply nth_ext2 in Hy. rewrite map_length in Hy.
      destruct Hy as [[Hi' Hy]|[[Hi' ->]|[Hi' ->]]]; [exact (row_joined o Ho i x y Hx Hy)| |lia].
      destruct (nth_map_ps _ _ _ Hx) as [c [Hc' ->]]. replace (length o - 1) with i in Hb by lia.
      assert (c = b) by congruence. subst c. exact (joined_bnd b jb fb Cb Hjb Tb).
    + exfalso. rewrite Nat.mod_small in Hy by lia. apply nth_ext2 in Hy. rewrite map_length in Hy.
      destruct Hy as [[Hi' _]|[[Hi' _]|[_ ->]]]; [lia|lia|]. destruct Hc as [Hc|Hc]; exact (bp_not _ Hc).
    + replace (S (S (length o)) mod (length o + 2)) with 0 in Hy
        by (replace (S (S (length o))) with (length o + 2) by lia; symmetry; apply Nat.mod_same; lia).
      apply nth_ext2 in Hy. rewrite map_length in Hy. destruct Hy as [[_ Hy]|[[Hy _]|[Hy _]]]; [|lia|lia].
      destruct (nth_map_ps _ _ _ Hy) as [c [Hc' ->]]. assert (c = a) by congruence. subst c.
      apply joined_swap. exact (joined_bnd a ja fa Ca Hja Ta).
  - intros _ _ _. rewrite app_length, map_length. simpl. lia.
Qed.
Lemma ring_closed : forall o a b, row o -> 2 < length o -> nth_error o 0 = Some a -> nth_error o (length o - 1) = Some b ->
  meet k b a -> ring k (map ps o).
Proof.
  intros o a b Ho Hn Ha Hb Hm.
  assert (Ca : In a (k_cells k)) by (apply HLin, (rw_in o Ho); eapply nth_error_In; exact Ha).
  assert (Cb : In b (k_cells k)) by (apply HLin, (rw_in o Ho); eapply nth_error_In; exact Hb).
  split.
  - intros i x y Hx Hy _. rewrite map_length in Hy.
    assert (Hi : i < length o) by (rewrite <- (map_length ps); apply nth_error_Some; congruence).
    destruct (Nat.eq_dec (S i) (length o)) as [E|E].
    + rewrite E, Nat.mod_same in Hy by lia. replace (length o - 1) with i in Hb by lia.
      destruct (nth_map_ps _ _ _ Hx) as [c [Hc ->]]. destruct (nth_map_ps _ _ _ Hy) as [d [Hd ->]].
      assert (c = b) by congruence. assert (d = a) by congruence. subst c d.
      apply joined_cells; try assumption. intro. subst b.
      pose proof (nodup_nth o 0 i a (rw_nodup o Ho) Ha Hc). lia.
    + rewrite Nat.mod_small in Hy by lia. exact (row_joined o Ho i x y Hx Hy).
  - intros _ _ _. rewrite map_length. lia.
Qed.
Lemma nodup_ps : forall o, row o -> NoDup (map ps o).
Proof.
  intros o Ho. assert (HI : incl o (k_cells k)) by (intros x Hx; apply HLin, (rw_in o Ho); exact Hx).
  assert (N := rw_nodup o Ho). clear Ho. induction N as [|c o H N IH]; [constructor|]. simpl.
  constructor; [|apply IH; intros x Hx; apply HI; right; exact Hx].
  intro Hin. apply in_map_iff in Hin. destruct Hin as [d [E Hd]].
  assert (d = c) by (apply ps_inj; [apply HI; right; exact Hd|apply HI; left; reflexivity|exact E]). subst. contradiction.
Qed.
Lemma ps_bp : forall c j, In c (k_cells k) -> ps c <> bp j.
Proof. intros c j Hc E. apply (bp_not j). rewrite <- E. apply ps_cell. exact Hc. Qed.
Lemma bp_inj : forall i j, bp i = bp j -> i = j.
Proof. intros i j E. unfold bp in E. lia. Qed.
Lemma nodup_ext2 : forall o i j, row o -> i <> j -> NoDup (map ps o ++ [bp i; bp j]).
Proof.
  intros o i j Ho Hij. apply nodup_app; [exact (nodup_ps o Ho)| |].
  - constructor; [intros [E|[]]; apply bp_inj in E; congruence|]. constructor; [intros []|constructor].
  - intros x Hx Hy. apply in_map_iff in Hx. destruct Hx as [c [<- Hc]].
    assert (Cc : In c (k_cells k)) by (apply HLin, (rw_in o Ho); exact Hc).
    destruct Hy as [E|[E|[]]]; exact (ps_bp c _ Cc (eq_sym E)).
Qed.
Lemma last_at : forall (o : list nat) b, nth_error o (length o - 1) = Some b -> last o 0 = b.
Proof.
  induction o as [|a [|a' o] IH]; intros b H; [discriminate H|simpl in H; simpl; congruence|].
  change (last (a :: a' :: o) 0) with (last (a' :: o) 0). apply IH.
  cbn [length] in H |- *. replace (S (S (length o)) - 1) with (S (S (length o) - 1)) in H by lia. exact H.
Qed.
Lemma row_len : forall o, row o -> length o <= length (k_cells k).
Proof. intros o Ho. apply NoDup_incl_length; [exact (rw_nodup o Ho)|]. intros x Hx. apply HLin, (rw_in o Ho). exact Hx. Qed.
Lemma two_bnd : forall i j (f g : nat), nth_error (k_bnd k) i = Some f -> nth_error (k_bnd k) j = Some g -> i <> j -> 2 <= length (k_bnd k).
Proof. intros i j f g Hi Hj Hij. apply nth_lt in Hi, Hj. lia. Qed.
Lemma bnd_same : forall i j f, nth_error (k_bnd k) i = Some f -> nth_error (k_bnd k) j = Some f -> i = j.
Proof. intros i j f. exact (nodup_nth _ i j f (cf_bnd k Hk)). Qed.
Lemma pad2 : forall (r : list Z) x y m, length r + 2 <= m ->
  (do t <- wr (r ++ repeat (-1)%Z (m - length r)) (length r) x; wr t (length r + 1) y) =
  Ok ((r ++ [x; y]) ++ repeat (-1)%Z (m - length (r ++ [x; y]))).
Proof.
  intros r x y m Hm. rewrite wr_pad by lia. cbn [bind].
  replace (length r + 1) with (length (r ++ [x])) by (rewrite app_length; reflexivity).
  rewrite wr_pad by lia. rewrite !app_length. simpl length. rewrite <- (app_assoc r [x] [y]).
  replace (m - (length r + 2)) with (m - length r - 1 - 1) by lia. reflexivity.
Qed.

Lemma convert_many : forall o, row o -> 1 < length o -> exists r,
  ConvertCells h k o (repeat (-1)%Z (length (k_cells k) + length (k_bnd k))) = Ok (padded k r) /\ leveled o r.
Proof.
  intros o Ho Hn. set (m := length (k_cells k) + length (k_bnd k)).
  assert (Hlen := row_len o Ho).
  assert (HI : incl o (k_cells k)) by (intros x Hx; apply HLin, (rw_in o Ho); exact Hx).
  assert (Hput : put_cells k o 0 (repeat (-1)%Z m) = Ok (map ps o ++ repeat (-1)%Z (m - length (map ps o)))).
  { rewrite map_length. exact (put_cells_ok o [] m HI ltac:(unfold m; lia)). }
  assert (Econv : ConvertCells h k o (repeat (-1)%Z m) = AddTwoBndFacesOfTwoCells h k o (map ps o ++ repeat (-1)%Z (m - length (map ps o)))).
  { unfold ConvertCells. destruct o as [|c1 [|c2 o']]; [simpl in Hn; lia|simpl in Hn; lia|]. rewrite Hput. cbn [bind].
    unfold AddTwoBndFacesOfTwoCells. destruct (k_bnd k); reflexivity. }
  rewrite Econv. clear Econv Hput.
  assert (exists a, nth_error o 0 = Some a) as [a Ha] by (destruct o; [simpl in Hn; lia|eexists; reflexivity]).
  assert (exists b, nth_error o (length o - 1) = Some b) as [b Hb].
  { destruct (nth_error o (length o - 1)) eqn:E; [eauto|]. apply nth_error_None in E. lia. }
  assert (Hab : a <> b). { intro. subst b. pose proof (nodup_nth o _ _ a (rw_nodup o Ho) Ha Hb). lia. }
  assert (Eh : hd 0 o = a) by (destruct o; [discriminate Ha|simpl in Ha; simpl; congruence]).
  unfold AddTwoBndFacesOfTwoCells. rewrite (last_at o b Hb), Eh.
  assert (Lall : forall c j f, In c L -> nth_error (k_bnd k) j = Some f -> outer c f -> outer a f \/ outer b f).
  { intros c j f Hc Hj Hf. destruct (In_nth_error _ _ (rw_all o Ho c Hc)) as [i Hi].
    destruct i as [|i]; [left; assert (c = a) by congruence; subst; exact Hf|].
    assert (Hil : S i < length o) by (apply nth_error_Some; congruence).
    destruct (Nat.eq_dec (S (S i)) (length o)) as [E|E].
    - right. replace (length o - 1) with (S i) in Hb by lia. assert (c = b) by congruence. subst. exact Hf.
    - exfalso. exact (mid_none o Ho (S i) c f ltac:(lia) ltac:(lia) Hi Hf). }
  destruct (first_cases o Ho a b Hn Ha Hb) as [[Hn3 [Hm Na]]|[xa [Oa [Ua Nm]]]];
    destruct (last_cases o Ho a b Hn Ha Hb) as [[Hn3' [Hm' Nb]]|[xb [Ob [Ub Nm']]]]; try (exfalso; tauto).
  - rewrite (find_upright_none b None (k_bnd k) 0 (incl_refl _) (fun y _ => Nb y)). cbn [bind put].
    rewrite (find_upright_none a None (k_bnd k) 0 (incl_refl _) (fun y _ => Na y)). cbn [bind put].
    exists (map ps o). split; [reflexivity|]. constructor.
    + exact (ring_closed o a b Ho Hn3 Ha Hb Hm).
    + exact (nodup_ps o Ho).
    + exists []. split; [rewrite app_nil_r; reflexivity|intros x []].
    + intros c j f Hc Hj Hf. exfalso. destruct (Lall c j f Hc Hj Hf); [exact (Na f H)|exact (Nb f H)].
  - destruct (In_nth_error _ _ (proj1 Oa)) as [ja Hja]. destruct (In_nth_error _ _ (proj1 Ob)) as [jb Hjb].
    assert (Hj : jb <> ja).
    { intro. subst jb. assert (xa = xb) by congruence. subst xb. destruct (bnd_face xa (proj1 Oa)) as [F1 F2].
      apply Hab. exact (touch_one k Hk xa a b F1 F2 (proj1 (proj2 Oa)) (proj1 (proj2 Ob))). }
    rewrite (find_upright_some b None (k_bnd k) 0 jb xb (incl_refl _) Hjb Ob); [| |discriminate].
    2: { intros i y Hi Hy. rewrite (Ub y Hy) in Hi. exact (bnd_same i jb xb Hi Hjb). }
    cbn [bind put Nat.add].
    rewrite (find_upright_some a (Some jb) (k_bnd k) 0 ja xa (incl_refl _) Hja Oa); [| |simpl; congruence].
    2: { intros i y Hi Hy. rewrite (Ua y Hy) in Hi. exact (bnd_same i ja xa Hi Hja). }
    cbn [bind put Nat.add].
    exists (map ps o ++ [bp jb; bp ja]). split.
    + assert (H2 := two_bnd jb ja xb xa Hjb Hja Hj). unfold padded. fold m.
      rewrite <- (pad2 (map ps o) (bp jb) (bp ja) m) by (rewrite map_length; unfold m; lia).
      rewrite map_length. reflexivity.
    + constructor.
      * exact (ring_open o a b xa xb ja jb Ho Ha Hb Hja (proj1 (proj2 Oa)) Hjb (proj1 (proj2 Ob))).
      * exact (nodup_ext2 o jb ja Ho Hj).
      * exists [bp jb; bp ja]. split; [reflexivity|]. intros x [<-|[<-|[]]].
        -- exists jb, xb, b. repeat split; try assumption; try apply Ob. apply (rw_in o Ho). eapply nth_error_In. exact Hb.
        -- exists ja, xa, a. repeat split; try assumption; try apply Oa. apply (rw_in o Ho). eapply nth_error_In. exact Ha.
      * intros c j f Hc Hj' Hf. apply in_or_app. right. destruct (Lall c j f Hc Hj' Hf) as [H|H].
        -- right; left. f_equal. rewrite (Ua f H) in Hj'. exact (bnd_same ja j xa Hja Hj').
        -- left. f_equal. rewrite (Ub f H) in Hj'. exact (bnd_same jb j xb Hjb Hj').
Qed.

(** A level of one cell whose third face is inside. *)
Lemma convert_one : forall c, row [c] -> (forall f, In f (k_faces k) -> touches k f c -> ~ upright h k f -> inside k f = true) ->
  exists r, ConvertCells h k [c] (repeat (-1)%Z (length (k_cells k) + length (k_bnd k))) = Ok (padded k r) /\ leveled [c] r.
Proof.
  intros c Ho Hflat. set (m := length (k_cells k) + length (k_bnd k)).
  assert (Lc : In c L) by (apply (rw_in _ Ho); left; reflexivity). assert (Cc := HLin c Lc).
  destruct (ly_three _ _ _ _ Hl c Cc) as [u [v [w [Huv [Uu [Uv [Uw H]]]]]]].
  destruct (proj2 (H u) (or_introl eq_refl)) as [Fu Tu]. destruct (proj2 (H v) (or_intror (or_introl eq_refl))) as [Fv Tv].
  destruct (proj2 (H w) (or_intror (or_intror eq_refl))) as [Fw Tw].
  assert (Hout : forall f, In f (k_faces k) -> touches k f c -> upright h k f -> In f (k_bnd k)).
  { intros f Hf Tf Uf. apply (cf_outer k Hk). split; [exact Hf|]. destruct (inside k f) eqn:E; [|reflexivity].
    exfalso. destruct (other_cell f c Hf Tf E) as [d [Hd [Td _]]].
    assert (Ld := HLup f c d Hf Uf Tf Td Lc). destruct (rw_all _ Ho d Ld) as [<-|[]]. congruence. }
  assert (Bu := Hout u Fu Tu Uu). assert (Bv := Hout v Fv Tv Uv).
  destruct (In_nth_error _ _ Bu) as [ju Hju]. destruct (In_nth_error _ _ Bv) as [jv Hjv].
  assert (Hj : ju <> jv) by (intro; subst; congruence).
  assert (Hf2 : Permutation (filter (fun p => side_of k (snd p) c) (numbered_from 0 (k_bnd k))) [(ju, u); (jv, v)]).
  { apply NoDup_Permutation.
    - apply NoDup_filter. apply (NoDup_map_inv fst). apply numbered_nodup.
    - constructor; [intros [E|[]]; congruence|]. constructor; [intros []|constructor].
    - intros [i f]. rewrite filter_In, numbered_nth, Nat.sub_0_r. cbn [snd]. rewrite side_touch. split.
      + intros [[_ Hi] Tf]. destruct (bnd_face f (nth_error_In _ _ Hi)) as [Ff If].
        destruct (proj1 (H f) (conj Ff Tf)) as [->|[->| ->]].
        * left. f_equal. exact (bnd_same ju i u Hju Hi).
        * right; left. f_equal. exact (bnd_same jv i v Hjv Hi).
        * rewrite (Hflat w Fw Tw Uw) in If. discriminate If.
      + intros [[= <- <-]|[[= <- <-]|[]]]; (split; [split; [lia|assumption]|assumption]). }
  assert (Hm : 2 <= length (k_bnd k)) by exact (two_bnd ju jv u v Hju Hjv Hj).
  assert (Hc1 : 1 <= length (k_cells k)) by exact (row_len [c] Ho).
  unfold ConvertCells.
  assert (Hput : put_cells k [c] 0 (repeat (-1)%Z m) = Ok ([ps c] ++ repeat (-1)%Z (m - length [ps c]))).
  { exact (put_cells_ok [c] [] m ltac:(intros x [<-|[]]; exact Cc) ltac:(simpl; unfold m; lia)). }
  rewrite Hput. cbn [bind].
  assert (E : forall X (a b : X), match k_bnd k with [] => a | _ => b end = b) by (intros; destruct (k_bnd k); [simpl in Hm; lia|reflexivity]).
  rewrite E.
  assert (Hiv := iv_known u Fu).
  destruct (rd_ok (h_vx h) (k_iv k) Hiv) as [pa [Ea _]].
  destruct (rd_ok (h_cc h) c (proj2 (ly_known _ _ _ _ Hl c Cc))) as [pb [Eb _]].
  assert (Main : exists i j fi fj, i <> j /\ nth_error (k_bnd k) i = Some fi /\ nth_error (k_bnd k) j = Some fj /\
      touches k fi c /\ touches k fj c /\ upright h k fi /\ upright h k fj /\
      (forall f, outer c f -> f = fi \/ f = fj) /\
      AddTwoBndFacesOfACell h k c ([ps c] ++ repeat (-1)%Z (m - length [ps c])) =
      (do t <- wr ([ps c] ++ repeat (-1)%Z (m - length [ps c])) (length [ps c]) (bp i); wr t (length [ps c] + 1) (bp j))).
  { assert (Ho2 : forall f, outer c f -> f = u \/ f = v).
    { intros f [F1 [F2 F3]]. destruct (bnd_face f F1) as [F4 F5]. destruct (proj1 (H f) (conj F4 F2)) as [->|[->| ->]]; tauto. }
    unfold AddTwoBndFacesOfACell.
    destruct (Permutation_length_2_inv (Permutation_sym Hf2)) as [Ef|Ef]; rewrite Ef, Ea, Eb; cbn [bind].
    - destruct (rd_ok (h_fc h) u (ly_centre _ _ _ _ Hl u Fu)) as [px [Ex _]]. rewrite Ex. cbn [bind].
      destruct (anticlockwise pa pb px); [exists ju, jv, u, v|exists jv, ju, v, u];
        (repeat split; try assumption; try congruence); intros f Hf; destruct (Ho2 f Hf); tauto.
    - destruct (rd_ok (h_fc h) v (ly_centre _ _ _ _ Hl v Fv)) as [px [Ex _]]. rewrite Ex. cbn [bind].
      destruct (anticlockwise pa pb px); [exists jv, ju, v, u|exists ju, jv, u, v];
        (repeat split; try assumption; try congruence); intros f Hf; destruct (Ho2 f Hf); tauto. }
  destruct Main as [i [j [fi [fj [Hij [Hi [Hj' [Ti [Tj [Ui [Uj [Hall Em]]]]]]]]]]]].
  rewrite Em, pad2 by (unfold m; simpl; lia).
  exists (map ps [c] ++ [bp i; bp j]). split; [reflexivity|]. constructor.
  - exact (ring_open [c] c c fj fi j i Ho eq_refl eq_refl Hj' Tj Hi Ti).
  - exact (nodup_ext2 [c] i j Ho Hij).
  - exists [bp i; bp j]. split; [reflexivity|]. intros x [<-|[<-|[]]].
    + exists i, fi, c. repeat split; try assumption. eapply nth_error_In. exact Hi.
    + exists j, fj, c. repeat split; try assumption. eapply nth_error_In. exact Hj'.
  - intros d q f Hd Hq Hf. destruct (rw_all _ Ho d Hd) as [<-|[]]. apply in_or_app. right.
    destruct (Hall f Hf) as [->| ->]; [left|right; left]; f_equal; [exact (bnd_same i q fi Hi Hq)|exact (bnd_same j q fj Hj' Hq)].
Qed.
End level.
End mesh.
