(** Proofs about the cells above and below the vertices. *)
From Coq Require Import Reals List Bool Arith ZArith Lia Lra Permutation.
From Verif Require Import Prelude Arrays Geom Numbering SpecNumbering Traversal SpecTraversal TraversalProofs NumberingProofs Levels SpecLevels.
Import ListNotations.
Local Open Scope nat_scope.

Lemma straight_sym : forall h a b, straight h a b -> straight h b a.
Proof. intros h a b [x [y [Hx [Hy H]]]]. exists y, x. split; [exact Hy|]. split; [exact Hx|]. nra. Qed.

Lemma level_perm : forall t up v l m, level_of t up v l -> level_of t up v m -> Permutation l m.
Proof. intros t up v l m [N H] [N' H']. apply NoDup_Permutation; [exact N|exact N'|]. intro c. rewrite H, H'. reflexivity. Qed.
Lemma level_perm' : forall t up v l m, Permutation l m -> level_of t up v l -> level_of t up v m.
Proof.
  intros t up v l m P [N H]. split; [exact (Permutation_NoDup P N)|]. intro c. rewrite <- H. split; intro X.
  - exact (Permutation_in _ (Permutation_sym P) X).
  - exact (Permutation_in _ P X).
Qed.

Lemma partition_perm : forall (l : list (nat * nat)),
  Permutation (filter (fun p => 0 <? fst p) l ++ filter (fun p => fst p =? 0) l) l.
Proof.
  induction l as [|[n c] l IH]; [constructor|]. simpl. destruct n as [|n]; simpl.
  - apply Permutation_sym. eapply Permutation_trans; [|apply Permutation_middle]. constructor. symmetry. exact IH.
  - constructor. exact IH.
Qed.
Lemma map_snd_combine : forall (n l : list nat), length n = length l -> map snd (combine n l) = l.
Proof. induction n as [|x n IH]; intros [|c l] H; try discriminate H; [reflexivity|]. simpl. f_equal. apply IH. simpl in H. lia. Qed.
Lemma rim_rest : forall (n l : list nat), length n = length l ->
  Permutation (map snd (filter (fun p => 0 <? fst p) (combine n l)) ++ map snd (filter (fun p => fst p =? 0) (combine n l))) l.
Proof.
  intros n l H. rewrite <- map_app. rewrite <- (map_snd_combine n l H) at 3. apply Permutation_map. apply partition_perm.
Qed.

Lemma count_one : forall l v, NoDup l -> count_occ Nat.eq_dec l v = if in_dec Nat.eq_dec v l then 1 else 0.
Proof.
  intros l v N. destruct (in_dec Nat.eq_dec v l) as [H|H].
  - exact (proj1 (NoDup_count_occ' Nat.eq_dec l) N v H).
  - exact (proj1 (count_occ_not_In Nat.eq_dec l v) H).
Qed.

Lemma two_of : forall {X} (P : X -> bool) l f g, NoDup l -> f <> g ->
  (forall x, In x l /\ P x = true <-> x = f \/ x = g) -> exists a b, filter P l = [a; b] /\ (a = f /\ b = g \/ a = g /\ b = f).
Proof.
  intros X P l f g N Hne H.
  assert (Q : Permutation (filter P l) [f; g]).
  { apply NoDup_Permutation; [apply NoDup_filter; exact N| |].
    - constructor; [simpl; intros [E|[]]; congruence|]. constructor; [intros []|constructor].
    - intro x. rewrite filter_In, H. simpl. intuition. }
  assert (L := Permutation_length Q). destruct (filter P l) as [|a [|b [|? ?]]]; try discriminate L.
  exists a, b. split; [reflexivity|].
  apply Permutation_length_2 in Q. intuition.
Qed.

Section mesh.
Variable t : terrain.
Hypothesis Ht : columns t.

Lemma at_lt : forall v c, corner_at t v c -> v < length (t_vcells t).
Proof. intros v c H. exact (proj1 (co_verts t Ht v c H)). Qed.

Lemma same_xy_ok : forall v w c d, corner_at t v c -> corner_at t w d ->
  exists b, same_xy (t_h t) v w = Ok b /\ (b = true <-> straight (t_h t) v w).
Proof.
  intros v w c d Hv Hw. destruct (nth_error (h_vx (t_h t)) v) as [x|] eqn:Ex.
  2:{ apply nth_error_None in Ex. destruct (co_verts t Ht v c Hv). lia. }
  destruct (nth_error (h_vx (t_h t)) w) as [y|] eqn:Ey.
  2:{ apply nth_error_None in Ey. destruct (co_verts t Ht w d Hw). lia. }
  unfold same_xy. rewrite (rd_some _ _ _ Ex), (rd_some _ _ _ Ey). cbn [bind]. eexists. split; [reflexivity|].
  destruct (Rlt_dec ((vx x - vx y) ^ 2 + (vy x - vy y) ^ 2) (1 / 10 ^ 14)) as [r|r]; split; intro H; try discriminate H; auto.
  - exists x, y. auto.
  - destruct H as [x' [y' [Hx [Hy H]]]]. rewrite Ex in Hx. rewrite Ey in Hy. injection Hx as <-. injection Hy as <-. contradiction.
Qed.

Lemma partner_in_ok : forall v c vs, corner_at t v c -> (forall w, In w vs -> corner_at t w c) ->
  exists r, partner_in (t_h t) v vs = Ok r /\
    match r with Some w => In w vs /\ w <> v /\ straight (t_h t) v w
               | None => forall w, In w vs -> w <> v -> ~ straight (t_h t) v w end.
Proof.
  intros v c vs Hv. induction vs as [|w vs IH]; intro H.
  - exists None. split; [reflexivity|]. intros w [].
  - destruct (IH (fun w' X => H w' (or_intror X))) as [r [E Hr]]. cbn [partner_in]. destruct (Nat.eqb_spec w v) as [->|Hne].
    + exists r. split; [exact E|]. destruct r as [w'|].
      * destruct Hr as [A B]. split; [right; exact A|exact B].
      * intros w' [<-|Hw] Hne; [congruence|exact (Hr w' Hw Hne)].
    + destruct (same_xy_ok v w c c Hv (H w (or_introl eq_refl))) as [b [Eb Hb]]. rewrite Eb. cbn [bind]. destruct b.
      * exists (Some w). split; [reflexivity|]. split; [left; reflexivity|]. split; [exact Hne|]. apply Hb. reflexivity.
      * exists r. split; [exact E|]. destruct r as [w'|].
        -- destruct Hr as [A B]. split; [right; exact A|exact B].
        -- intros w' [<-|Hw] Hne'; [|exact (Hr w' Hw Hne')]. intro X. apply Hb in X. discriminate X.
Qed.
Lemma partner_ok : forall v c w, corner_at t v c -> post t v c w -> partner t c v = Ok (Some w).
Proof.
  intros v c w Hv Hw. destruct (co_post t Ht v c Hv) as [w0 [P0 [U0 _]]]. assert (w = w0) by (apply U0; exact Hw). subst w0.
  destruct Hw as [[vs [Evs Hin]] [Hne Hs]]. unfold partner. rewrite (rd_some _ _ _ Evs). cbn [bind].
  destruct (partner_in_ok v c vs Hv) as [r [E Hr]].
  { intros x Hx. exists vs. auto. }
  rewrite E. destruct r as [w'|].
  - destruct Hr as [A [B C]]. rewrite (U0 w'); [reflexivity|]. split; [exists vs; auto|auto].
  - exfalso. exact (Hr w Hin Hne Hs).
Qed.

Lemma higher_asym : forall v w, higher t v w -> higher t w v -> False.
Proof.
  intros v w [y [x [A [B C]]]] [y' [x' [A' [B' C']]]]. rewrite A in B'. rewrite B in A'. injection B' as <-. injection A' as <-. lra.
Qed.
Lemma above_ok : forall v c, corner_at t v c -> exists b, IsCellAboveTheVertex t c v = Ok b /\ lies t b v c /\ ~ lies t (negb b) v c.
Proof.
  intros v c Hv. destruct (co_post t Ht v c Hv) as [w [P [U Hz]]]. unfold IsCellAboveTheVertex. rewrite (partner_ok v c w Hv P). cbn [bind].
  assert (Z : exists y x, nth_error (h_vx (t_h t)) w = Some y /\ nth_error (h_vx (t_h t)) v = Some x).
  { destruct Hz as [[y [x [A [B _]]]]|[y [x [A [B _]]]]]; eauto. }
  destruct Z as [y [x [Ey Ex]]]. rewrite (rd_some _ _ _ Ey), (rd_some _ _ _ Ex). cbn [bind]. eexists. split; [reflexivity|].
  destruct (Rlt_dec (vz x) (vz y)) as [r|r]; cbn [negb].
  - assert (Hh : higher t w v) by (exists y, x; auto). split.
    + split; [exact Hv|]. exists w. split; [exact P|exact Hh].
    + intros [_ [w' [P' H']]]. rewrite (U w' P') in H'. exact (higher_asym _ _ Hh H').
  - assert (Hh : higher t v w).
    { destruct Hz as [[y' [x' [A [B C]]]]|Hz]; [|exact Hz]. rewrite Ey in A. rewrite Ex in B. injection A as <-. injection B as <-. contradiction. }
    split.
    + split; [exact Hv|]. exists w. split; [exact P|exact Hh].
    + intros [_ [w' [P' H']]]. rewrite (U w' P') in H'. exact (higher_asym _ _ Hh H').
Qed.

Lemma split_ok : forall v cs, (forall c, In c cs -> corner_at t v c) -> NoDup cs -> exists a b,
  split_levels t v cs = Ok (a, b) /\ NoDup a /\ NoDup b /\
  (forall c, In c a <-> In c cs /\ lies t true v c) /\ (forall c, In c b <-> In c cs /\ lies t false v c).
Proof.
  intros v cs. induction cs as [|c cs IH]; intros H N.
  - exists [], []. split; [reflexivity|]. split; [constructor|]. split; [constructor|]. simpl. split; tauto.
  - apply NoDup_cons_iff in N. destruct N as [N0 N].
    destruct (IH (fun d X => H d (or_intror X)) N) as [a [b [E [Na [Nb [Ha Hb]]]]]].
    destruct (above_ok v c (H c (or_introl eq_refl))) as [u [Eu [L L']]].
    cbn [split_levels]. rewrite Eu. cbn [bind]. rewrite E. cbn [bind fst snd]. destruct u; cbn [negb] in L'.
    + exists (c :: a), b. split; [reflexivity|]. split; [constructor; [rewrite Ha; tauto|exact Na]|]. split; [exact Nb|]. split.
      * intro d. simpl. rewrite Ha. split; [intros [<-|X]; tauto|]. intros [[<-|X] Y]; auto.
      * intro d. simpl. rewrite Hb. split; [tauto|]. intros [[<-|X] Y]; [contradiction|auto].
    + exists a, (c :: b). split; [reflexivity|]. split; [exact Na|]. split; [constructor; [rewrite Hb; tauto|exact Nb]|]. split.
      * intro d. simpl. rewrite Ha. split; [tauto|]. intros [[<-|X] Y]; [contradiction|auto].
      * intro d. simpl. rewrite Hb. split; [intros [<-|X]; tauto|]. intros [[<-|X] Y]; auto.
Qed.

(** The side faces. *)
Definition has_both (v w f : nat) : bool :=
  match nth_error (t_fverts t) f with
  | Some vs => existsb (Nat.eqb v) vs && existsb (Nat.eqb w) vs
  | None => false
  end.
Lemma has_both_side : forall v w f, has_both v w f = true <-> side t v w f.
Proof.
  intros v w f. unfold has_both, side. destruct (nth_error (t_fverts t) f) as [vs|].
  - rewrite andb_true_iff, !existsb_exists. split.
    + intros [[a [Ha Ea]] [b [Hb Eb]]]. apply Nat.eqb_eq in Ea, Eb. subst. eauto.
    + intros [vs' [E [A B]]]. injection E as <-. split; [exists v|exists w]; (split; [assumption|apply Nat.eqb_refl]).
  - split; [discriminate|]. intros [vs [E _]]. discriminate E.
Qed.
Lemma side_flags_ok : forall v w fs, v <> w ->
  (forall f, In f fs -> f < length (t_fint t) /\ exists vs, nth_error (t_fverts t) f = Some vs /\ NoDup vs) ->
  side_flags t v w fs = Ok (map (fun f => negb (nth f (t_fint t) false)) (filter (has_both v w) fs)).
Proof.
  intros v w fs Hne. induction fs as [|f fs IH]; intro H; [reflexivity|].
  destruct (H f (or_introl eq_refl)) as [Hf [vs [E N]]]. cbn [side_flags]. rewrite (rd_some _ _ _ E). cbn [bind filter].
  rewrite (IH (fun x X => H x (or_intror X))).
  assert (B : (count_occ Nat.eq_dec vs v + count_occ Nat.eq_dec vs w =? 2) = has_both v w f).
  { unfold has_both. rewrite E. rewrite !count_one by exact N.
    destruct (in_dec Nat.eq_dec v vs) as [Hv|Hv]; destruct (in_dec Nat.eq_dec w vs) as [Hw|Hw]; cbn [Nat.add Nat.eqb]; symmetry.
    - apply andb_true_iff. rewrite !existsb_exists. split; [exists v|exists w]; (split; [assumption|apply Nat.eqb_refl]).
    - apply andb_false_iff. right. apply not_true_iff_false. rewrite existsb_exists. intros [x [Hx Ex]]. apply Nat.eqb_eq in Ex. subst. contradiction.
    - apply andb_false_iff. left. apply not_true_iff_false. rewrite existsb_exists. intros [x [Hx Ex]]. apply Nat.eqb_eq in Ex. subst. contradiction.
    - apply andb_false_iff. left. apply not_true_iff_false. rewrite existsb_exists. intros [x [Hx Ex]]. apply Nat.eqb_eq in Ex. subst. contradiction. }
  rewrite B. destruct (has_both v w f); [|reflexivity].
  destruct (rd_ok (t_fint t) f Hf) as [i [Ei Ni]]. rewrite Ei. cbn [bind map]. rewrite (nth_error_nth _ _ false Ni). reflexivity.
Qed.
Definition rim_cell (v c : nat) : Prop := exists w fs f, post t v c w /\ nth_error (h_cfaces (t_h t)) c = Some fs /\ In f fs /\
  side t v w f /\ nth_error (t_fint t) f = Some false.
Lemma bnd_sides_ok : forall v c, corner_at t v c -> exists n, bnd_sides t v c = Ok n /\ (0 < n -> rim_cell v c).
Proof.
  intros v c Hv. destruct (co_post t Ht v c Hv) as [w [P _]]. unfold bnd_sides. rewrite (partner_ok v c w Hv P). cbn [bind].
  destruct (co_sides t Ht v c w Hv P) as [fs [f [g [E [N [Hne H]]]]]]. rewrite (rd_some _ _ _ E). cbn [bind].
  rewrite side_flags_ok; [|intro X; subst; apply (proj1 (proj2 P)); reflexivity|intros x Hx; exact (co_faces t Ht c fs x E Hx)].
  cbn [bind].
  destruct (two_of (has_both v w) fs f g N Hne) as [a [b [Eab _]]].
  { intro x. rewrite has_both_side. exact (H x). }
  rewrite Eab. cbn [map]. eexists. split; [reflexivity|]. intro Hn.
  assert (G : forall x, In x [a; b] -> nth x (t_fint t) false = false -> rim_cell v c).
  { intros x Hx Fx. rewrite <- Eab in Hx. apply filter_In in Hx. destruct Hx as [Hx Sx]. exists w, fs, x.
    split; [exact P|]. split; [exact E|]. split; [exact Hx|]. split; [apply has_both_side; exact Sx|].
    destruct (co_faces t Ht c fs x E Hx) as [Lx _]. rewrite (nth_error_nth' _ false Lx). rewrite Fx. reflexivity. }
  destruct (nth a (t_fint t) false) eqn:Fa.
  - destruct (nth b (t_fint t) false) eqn:Fb; [simpl in Hn; lia|]. exact (G b (or_intror (or_introl eq_refl)) Fb).
  - exact (G a (or_introl eq_refl) Fa).
Qed.
Lemma all_sides_ok : forall v l, (forall c, In c l -> corner_at t v c) -> exists n, all_sides t v l = Ok n /\ length n = length l /\
  forall x, In x (combine n l) -> 0 < fst x -> rim_cell v (snd x).
Proof.
  intros v l. induction l as [|c l IH]; intro H.
  - exists []. split; [reflexivity|]. split; [reflexivity|]. intros x [].
  - destruct (IH (fun d X => H d (or_intror X))) as [n [E [L R]]]. destruct (bnd_sides_ok v c (H c (or_introl eq_refl))) as [m [Em Rm]].
    cbn [all_sides]. rewrite Em. cbn [bind]. rewrite E. cbn [bind]. exists (m :: n). split; [reflexivity|]. split; [simpl; lia|].
    intros x [<-|Hx] H0; [exact (Rm H0)|exact (R x Hx H0)].
Qed.

Lemma arrange_ok : forall up v l, NoDup l -> (forall c, In c l -> lies t up v c) -> exists l', arrange_level t v l = Ok l' /\ Permutation l' l.
Proof.
  intros up v l N H. unfold arrange_level. destruct (length l <? 2) eqn:E2; [exists l; split; reflexivity|].
  destruct (all_sides_ok v l (fun c Hc => proj1 (H c Hc))) as [n [E [L R]]]. rewrite E. cbn [bind]. cbv zeta.
  set (rim := map snd (filter (fun p => 0 <? fst p) (combine n l))). set (rest := map snd (filter (fun p => fst p =? 0) (combine n l))).
  assert (P : Permutation (rim ++ rest) l) by exact (rim_rest n l L).
  assert (Hr : forall c, In c rim -> In c l /\ rim_cell v c).
  { intros c Hc. split; [apply (Permutation_in _ P); apply in_or_app; left; exact Hc|].
    unfold rim in Hc. apply in_map_iff in Hc. destruct Hc as [x [<- Hx]]. apply filter_In in Hx. destruct Hx as [Hx Ht0].
    apply R; [exact Hx|]. apply Nat.ltb_lt. exact Ht0. }
  assert (Nr : NoDup rim) by (apply (nodup_app_inv rim rest); exact (Permutation_NoDup (Permutation_sym P) N)).
  destruct rim as [|a [|b [|e rim]]].
  - exists l. split; reflexivity.
  - exists (a :: rest). split; [reflexivity|exact P].
  - exists (a :: rest ++ [b]). split; [reflexivity|]. eapply Permutation_trans; [|exact P]. simpl. constructor.
    symmetry. apply Permutation_cons_append.
  - exfalso.
    assert (Ha := Hr a ltac:(simpl; auto)). assert (Hb := Hr b ltac:(simpl; auto)). assert (He := Hr e ltac:(simpl; auto)).
    destruct Ha as [La Ra], Hb as [Lb Rb], He as [Le Re]. assert (Ra' := Ra). destruct Ra' as [w [_ [_ [Pw _]]]].
    assert (U : forall x w', In x l -> post t v x w' -> w' = w).
    { intros x w' Hx Px. destruct (H a La) as [Ca [wa [Pa Ua]]]. destruct (H x Hx) as [Cx [wx [Px' Ux]]].
      destruct (co_post t Ht v a Ca) as [wa0 [_ [UA _]]]. destruct (co_post t Ht v x Cx) as [wx0 [_ [UX _]]].
      rewrite (UA w Pw). rewrite <- (UA wa Pa). rewrite (UX w' Px). rewrite <- (UX wx Px').
      apply (co_edge t Ht v x a wx wa Cx Ca Px' Pa). destruct up; [left|right]; split; assumption. }
    assert (X := co_rim t Ht up v w a b e (H a La) (H b Lb) (H e Le) Pw).
    assert (Y : forall x, x = a \/ x = b \/ x = e -> exists fs f, nth_error (h_cfaces (t_h t)) x = Some fs /\ In f fs /\ side t v w f /\
       nth_error (t_fint t) f = Some false).
    { assert (Z : forall x, In x l -> rim_cell v x -> exists fs f, nth_error (h_cfaces (t_h t)) x = Some fs /\ In f fs /\ side t v w f /\
         nth_error (t_fint t) f = Some false).
      { intros x Hx [w' [fs [f [Px [A [B [C D]]]]]]]. rewrite (U x w' Hx Px) in C. eauto 8. }
      intros x [->|[->| ->]]; auto. }
    specialize (X Y). apply NoDup_cons_iff in Nr. destruct Nr as [N1 Nr]. apply NoDup_cons_iff in Nr. destruct Nr as [N2 _].
    simpl in N1, N2. intuition.
Qed.

Lemma determine_ok : forall v, v < length (t_vcells t) -> exists a b, DetermineCellsAboveAndBelow t v = Ok (a, b) /\
  level_of t true v a /\ level_of t false v b.
Proof.
  intros v Hv. destruct (rd_ok (t_vcells t) v Hv) as [cs [E Ecs]]. destruct (co_cells t Ht v cs Ecs) as [N [Hne Hc]].
  destruct (split_ok v cs (fun c X => proj1 (Hc c) X) N) as [a [b [Es [Na [Nb [Ha Hb]]]]]].
  unfold DetermineCellsAboveAndBelow. rewrite E. cbn [bind]. rewrite Es. cbn [bind fst snd].
  destruct (arrange_ok true v a Na (fun c X => proj2 (proj1 (Ha c) X))) as [a' [Ea Pa]].
  destruct (arrange_ok false v b Nb (fun c X => proj2 (proj1 (Hb c) X))) as [b' [Eb Pb]].
  rewrite Ea. cbn [bind]. rewrite Eb. cbn [bind].
  assert (La : level_of t true v a').
  { apply (level_perm' t true v a); [symmetry; exact Pa|]. split; [exact Na|]. intro c. rewrite Ha. split; [tauto|]. intro X. split; [|exact X].
    apply Hc. exact (proj1 X). }
  assert (Lb : level_of t false v b').
  { apply (level_perm' t false v b); [symmetry; exact Pb|]. split; [exact Nb|]. intro c. rewrite Hb. split; [tauto|]. intro X. split; [|exact X].
    apply Hc. exact (proj1 X). }
  exists a', b'. split; [|split; assumption].
  assert (Hl := co_even t Ht v a' b' Hv La Lb).
  assert (Hz : a' <> [] \/ b' <> []).
  { destruct cs as [|c cs]; [congruence|]. assert (C : corner_at t v c) by (apply Hc; left; reflexivity).
    destruct (above_ok v c C) as [u [_ [L _]]]. destruct u; [left; apply (proj2 La) in L|right; apply (proj2 Lb) in L]; intro X; rewrite X in L; destruct L. }
  destruct a' as [|x a']; destruct b' as [|y b'].
  - destruct Hz; congruence.
  - reflexivity.
  - reflexivity.
  - rewrite (Hl ltac:(discriminate) ltac:(discriminate)). cbn [length Nat.ltb Nat.leb andb]. rewrite Nat.eqb_refl. reflexivity.
Qed.

(** The cells above a vertex are the cells below the vertex at the other end of the post. *)
Lemma opposite : forall up v c w l, level_of t up v l -> In c l -> post t v c w -> level_of t (negb up) w l.
Proof.
  intros up v c w l [N H] Hc P. split; [exact N|].
  assert (S0 : forall d, lies t up v d -> post t v d w /\ (if up then higher t w v else higher t v w)).
  { intros d [Cd [wd [Pd Hd]]]. destruct (proj1 (H c) Hc) as [Cc [wc [Pc Hh]]].
    destruct (co_post t Ht v c Cc) as [w0 [_ [U _]]]. assert (w = wc) by (rewrite (U w P), (U wc Pc); reflexivity). subst wc.
    assert (wd = w); [|subst wd; auto]. apply (co_edge t Ht v d c wd w Cd Cc Pd P). destruct up; [left|right]; split; assumption. }
  destruct (S0 c (proj1 (H c) Hc)) as [_ Hw].
  assert (Cc := proj1 (proj1 (H c) Hc)).
  assert (Q : post t w c v).
  { split; [exact Cc|]. split; [|exact (straight_sym _ _ _ (proj2 (proj2 P)))]. intro X. apply (proj1 (proj2 P)). symmetry. exact X. }
  intro d. rewrite H. split; intro Hd.
  - destruct (S0 d Hd) as [Pd Hh]. split; [exact (proj1 Pd)|]. exists v. split; [|destruct up; exact Hh].
    split; [exact (proj1 Hd)|]. split; [intro X; apply (proj1 (proj2 Pd)); symmetry; exact X|exact (straight_sym _ _ _ (proj2 (proj2 Pd)))].
  - destruct Hd as [Cd [v' [Pd Hh]]].
    assert (v' = v).
    { apply (co_edge t Ht w d c v' v Cd (proj1 P) Pd Q). destruct up; cbn [negb] in Hh; [right|left]; split; assumption. }
    subst v'. split; [exact (proj1 Pd)|]. exists w. split; [|destruct up; exact Hh].
    split; [exact Cd|]. split; [intro X; apply (proj1 (proj2 Pd)); symmetry; exact X|exact (straight_sym _ _ _ (proj2 (proj2 Pd)))].
Qed.

Variable cap : nat.
(** The tables hold only right rows. *)
Definition fine (up : bool) (x : levels) : Prop :=
  length x = length (t_vcells t) /\ forall v l, nth_error x v = Some (Some l) -> level_of t up v l /\ length l < cap.
(** Rows that have been set stay set. *)
Definition grows (x y : levels) : Prop := forall v, nth_error y v = Some None -> nth_error x v = Some None.
Lemma grows_refl : forall x, grows x x. Proof. intros x v H. exact H. Qed.
Lemma grows_trans : forall x y z, grows x y -> grows y z -> grows x z.
Proof. intros x y z A B v H. apply A, B, H. Qed.

Lemma save_inv : forall x v l y, save cap x v l = Ok y -> length l < cap /\ v < length x /\ y = upd x v (Some l).
Proof.
  intros x v l y H. unfold save in H. destruct (length l <? cap) eqn:E; [|discriminate H]. apply Nat.ltb_lt in E.
  destruct (wr_inv _ _ _ _ H) as [A B]. auto.
Qed.
Lemma save_ok : forall x v l, length l < cap -> v < length x -> save cap x v l = Ok (upd x v (Some l)).
Proof. intros x v l H Hv. unfold save. apply Nat.ltb_lt in H. rewrite H. apply wr_ok. exact Hv. Qed.
Lemma save_fine : forall up x v l y, fine up x -> level_of t up v l -> save cap x v l = Ok y ->
  fine up y /\ grows x y /\ nth_error y v = Some (Some l).
Proof.
  intros up x v l y [L F] Hl H. destruct (save_inv _ _ _ _ H) as [Hc [Hv ->]]. split; [|split].
  - split; [rewrite length_upd; exact L|]. intros u m E. destruct (Nat.eq_dec v u) as [<-|Hne].
    + rewrite nth_upd_same in E by exact Hv. injection E as <-. auto.
    + rewrite nth_upd_other in E by exact Hne. exact (F u m E).
  - intros u E. destruct (Nat.eq_dec v u) as [<-|Hne].
    + rewrite nth_upd_same in E by exact Hv. discriminate E.
    + rewrite nth_upd_other in E by exact Hne. exact E.
  - apply nth_upd_same. exact Hv.
Qed.

Lemma opposite_fine : forall up v l x y, fine (negb up) x -> level_of t up v l ->
  SaveCellIdsAtOppositeLevel cap t v l x = Ok y -> fine (negb up) y /\ grows x y.
Proof.
  intros up v l x y F Hl H. destruct l as [|c l]; [injection H as <-; split; [exact F|apply grows_refl]|].
  cbn [SaveCellIdsAtOppositeLevel] in H. destruct (proj1 (proj2 Hl c) (or_introl eq_refl)) as [Cc [w [P _]]].
  unfold VertexIdWithSameXYInACell in H. rewrite (partner_ok v c w Cc P) in H. cbn [bind] in H.
  destruct (save_fine _ _ _ _ _ F (opposite up v c w (c :: l) Hl (or_introl eq_refl) P) H) as [A [B _]]. auto.
Qed.
Lemma opposite_total : forall up v l x, length x = length (t_vcells t) -> length l < cap -> level_of t up v l ->
  exists y, SaveCellIdsAtOppositeLevel cap t v l x = Ok y.
Proof.
  intros up v l x L Hc Hl. destruct l as [|c l]; [eexists; reflexivity|].
  cbn [SaveCellIdsAtOppositeLevel]. destruct (proj1 (proj2 Hl c) (or_introl eq_refl)) as [Cc [w [P _]]].
  unfold VertexIdWithSameXYInACell. rewrite (partner_ok v c w Cc P). cbn [bind]. eexists. apply save_ok; [exact Hc|].
  rewrite L. exact (at_lt w c (proj1 P)).
Qed.
Lemma opposite_ne : forall v l x, SaveCellIdsAtOppositeLevel cap t v l x <> Err.
Proof.
  intros v [|c l] x; [discriminate|]. cbn [SaveCellIdsAtOppositeLevel]. unfold VertexIdWithSameXYInACell, partner.
  assert (S0 : forall a b, same_xy (t_h t) a b <> Err).
  { intros a b. unfold same_xy, rd. destruct (nth_error (h_vx (t_h t)) a); [|discriminate]. destruct (nth_error (h_vx (t_h t)) b); discriminate. }
  assert (P : forall vs, partner_in (t_h t) v vs <> Err).
  { induction vs as [|w vs IH]; [discriminate|]. cbn [partner_in]. destruct (w =? v); [exact IH|].
    destruct (same_xy (t_h t) v w) as [b| |] eqn:Eb; [|exfalso; exact (S0 _ _ Eb)|discriminate]. cbn [bind]. destruct b; [discriminate|exact IH]. }
  unfold rd. destruct (nth_error (t_cverts t) c) as [vs|]; [|discriminate]. cbn [bind].
  specialize (P vs). destruct (partner_in (t_h t) v vs) as [r| |]; [|congruence|discriminate]. cbn [bind].
  unfold save, wr. destruct (length (c :: l) <? cap); [|discriminate]. destruct (_ <? length x); discriminate.
Qed.

(** The cells of the vertex that are not on one level are those of the other. *)
Lemma rest_level : forall up v cs l, nth_error (t_vcells t) v = Some cs -> level_of t up v l ->
  level_of t (negb up) v (filter (fun c => negb (existsb (Nat.eqb c) l)) cs) /\
  (length cs = length l -> forall c, ~ lies t (negb up) v c).
Proof.
  intros up v cs l E [N H]. destruct (co_cells t Ht v cs E) as [Ncs [_ Hc]].
  assert (X : forall c, corner_at t v c -> (lies t up v c <-> ~ lies t (negb up) v c)).
  { intros c Cc. destruct (above_ok v c Cc) as [b [_ [L L']]]. destruct b, up; cbn [negb] in *; tauto. }
  assert (F : forall c, In c (filter (fun c => negb (existsb (Nat.eqb c) l)) cs) <-> lies t (negb up) v c).
  { intro c. rewrite filter_In, negb_true_iff, <- not_true_iff_false, existsb_exists, Hc. split.
    - intros [Cc Hn]. destruct (above_ok v c Cc) as [b [_ [L L']]].
      destruct (bool_dec b up) as [->|Hb]; [|destruct b, up; try congruence; exact L].
      exfalso. apply Hn. exists c. split; [apply H; exact L|apply Nat.eqb_refl].
    - intro L. split; [exact (proj1 L)|]. intros [d [Hd Ed]]. apply Nat.eqb_eq in Ed. subst d. apply H in Hd.
      apply (X c (proj1 L)) in Hd. contradiction. }
  split; [split; [apply NoDup_filter; exact Ncs|exact F]|].
  intros Hlen c L. assert (I : incl l cs) by (intros d Hd; apply Hc; exact (proj1 (proj1 (H d) Hd))).
  assert (J : incl cs l) by (apply (NoDup_length_incl N); [lia|exact I]).
  assert (Hd : In c l) by (apply J; apply Hc; exact (proj1 L)). apply H in Hd. apply (X c (proj1 L)) in Hd. contradiction.
Qed.

Definition settled (x : levels * levels) (v : nat) : Prop :=
  (nth_error (fst x) v = Some None -> forall c, ~ lies t true v c) /\
  (nth_error (snd x) v = Some None -> forall c, ~ lies t false v c).
Lemma settled_grows : forall x y v, grows (fst x) (fst y) -> grows (snd x) (snd y) -> settled x v -> settled y v.
Proof. intros x y v A B [S1 S2]. split; intro H; [apply S1, A, H|apply S2, B, H]. Qed.

Lemma uninit_inv : forall up v l x y, fine (negb up) x -> level_of t up v l -> FindCellsAtUninitializedLevel cap t v l x = Ok y ->
  fine (negb up) y /\ grows x y /\ (nth_error y v = Some None -> forall c, ~ lies t (negb up) v c).
Proof.
  intros up v l x y F Hl H. unfold FindCellsAtUninitializedLevel in H.
  destruct (rd (t_vcells t) v) as [cs| |] eqn:E; cbn [bind] in H; try discriminate H.
  assert (E' : nth_error (t_vcells t) v = Some cs) by (unfold rd in E; destruct (nth_error (t_vcells t) v); [congruence|discriminate E]).
  destruct (rest_level up v cs l E' Hl) as [R1 R2]. destruct (Nat.eqb_spec (length cs) (length l)) as [En|En].
  - injection H as <-. split; [exact F|]. split; [apply grows_refl|]. intros _. exact (R2 En).
  - destruct (save_fine _ _ _ _ _ F R1 H) as [A [B C]]. split; [exact A|]. split; [exact B|]. rewrite C. discriminate.
Qed.

Lemma visit_sound : forall v x r, fine true (fst x) -> fine false (snd x) -> visit cap t v x = Ok r ->
  snd r = true /\ fine true (fst (fst r)) /\ fine false (snd (fst r)) /\ grows (fst x) (fst (fst r)) /\ grows (snd x) (snd (fst r)) /\
  (nth_error (t_local t) v = Some true -> settled (fst r) v).
Proof.
  intros v [up dn] r Fu Fd H. cbn [fst snd] in *. unfold visit in H. cbn [fst snd] in H.
  destruct (rd (t_local t) v) as [i| |] eqn:El; cbn [bind] in H; try discriminate H.
  assert (El' : nth_error (t_local t) v = Some i) by (unfold rd in El; destruct (nth_error (t_local t) v); [congruence|discriminate El]).
  destruct i; cbn [negb] in H.
  2:{ injection H as <-. cbn [fst snd]. rewrite El'. split; [reflexivity|]. split; [exact Fu|]. split; [exact Fd|].
      split; [apply grows_refl|]. split; [apply grows_refl|]. discriminate. }
  destruct (rd up v) as [a| |] eqn:Ea; cbn [bind] in H; try discriminate H.
  destruct (rd dn v) as [b| |] eqn:Eb; cbn [bind] in H; try discriminate H.
  assert (Ea' : nth_error up v = Some a) by (unfold rd in Ea; destruct (nth_error up v); [congruence|discriminate Ea]).
  assert (Eb' : nth_error dn v = Some b) by (unfold rd in Eb; destruct (nth_error dn v); [congruence|discriminate Eb]).
  destruct a as [a|]; destruct b as [b|].
  - injection H as <-. cbn [fst snd]. split; [reflexivity|]. split; [exact Fu|]. split; [exact Fd|].
    split; [apply grows_refl|]. split; [apply grows_refl|]. intros _. split; cbn [fst snd]; congruence.
  - destruct (FindCellsAtUninitializedLevel cap t v a dn) as [dn'| |] eqn:E; cbn [bind] in H; try discriminate H. injection H as <-. cbn [fst snd].
    destruct (uninit_inv true v a dn dn' Fd (proj1 (proj2 Fu v a Ea')) E) as [A [B C]].
    split; [reflexivity|]. split; [exact Fu|]. split; [exact A|]. split; [apply grows_refl|]. split; [exact B|]. intros _. split; [cbn [fst]; congruence|exact C].
  - destruct (FindCellsAtUninitializedLevel cap t v b up) as [up'| |] eqn:E; cbn [bind] in H; try discriminate H. injection H as <-. cbn [fst snd].
    destruct (uninit_inv false v b up up' Fu (proj1 (proj2 Fd v b Eb')) E) as [A [B C]].
    split; [reflexivity|]. split; [exact A|]. split; [exact Fd|]. split; [exact B|]. split; [apply grows_refl|]. intros _. split; [exact C|cbn [snd]; congruence].
  - assert (Hv : v < length (t_vcells t)) by (rewrite <- (proj1 Fu); exact (nth_lt _ _ _ Ea')).
    destruct (determine_ok v Hv) as [a [b [Ed [La Lb]]]]. unfold FindCellsAboveAndBelowAVertex in H. rewrite Ed in H. cbn [fst snd] in H.
    destruct (save cap up v a) as [up1| |] eqn:Eu1; cbn [bind] in H; try discriminate H.
    destruct (save cap dn v b) as [dn1| |] eqn:Ed1; cbn [bind] in H; try discriminate H.
    destruct (SaveCellIdsAtOppositeLevel cap t v a dn1) as [dn2| |] eqn:Ed2; cbn [bind] in H; try discriminate H.
    destruct (SaveCellIdsAtOppositeLevel cap t v b up1) as [up2| |] eqn:Eu2; cbn [bind] in H; try discriminate H.
    injection H as <-. cbn [fst snd].
    destruct (save_fine true up v a up1 Fu La Eu1) as [Fu1 [Gu1 Su1]]. destruct (save_fine false dn v b dn1 Fd Lb Ed1) as [Fd1 [Gd1 Sd1]].
    destruct (opposite_fine true v a dn1 dn2 Fd1 La Ed2) as [Fd2 Gd2]. destruct (opposite_fine false v b up1 up2 Fu1 Lb Eu2) as [Fu2 Gu2].
    split; [reflexivity|]. split; [exact Fu2|]. split; [exact Fd2|]. split; [exact (grows_trans _ _ _ Gu1 Gu2)|]. split; [exact (grows_trans _ _ _ Gd1 Gd2)|].
    intros _. split; cbn [fst snd]; intro X; exfalso; [apply Gu2 in X|apply Gd2 in X]; congruence.
Qed.
Lemma visit_ne : forall v x, fine true (fst x) -> visit cap t v x <> Err.
Proof.
  intros v [up dn] Fu. cbn [fst] in Fu. unfold visit. cbn [fst snd].
  assert (Sv : forall y u l, save cap y u l <> Err) by (intros y u l; unfold save, wr; destruct (length l <? cap); [destruct (u <? length y); discriminate|discriminate]).
  assert (Un : forall l y, FindCellsAtUninitializedLevel cap t v l y <> Err).
  { intros l y. unfold FindCellsAtUninitializedLevel, rd. destruct (nth_error (t_vcells t) v); [|discriminate]. cbn [bind].
    destruct (_ =? _); [discriminate|apply Sv]. }
  unfold rd. destruct (nth_error (t_local t) v) as [[|]|]; cbn [bind negb]; try discriminate.
  destruct (nth_error up v) as [a|] eqn:Ea; [|discriminate]. cbn [bind]. destruct (nth_error dn v) as [b|]; [|discriminate]. cbn [bind].
  destruct a as [a|]; destruct b as [b|].
  - discriminate.
  - specialize (Un a dn). destruct (FindCellsAtUninitializedLevel cap t v a dn); [discriminate|congruence|discriminate].
  - specialize (Un b up). destruct (FindCellsAtUninitializedLevel cap t v b up); [discriminate|congruence|discriminate].
  - assert (Hv : v < length (t_vcells t)) by (rewrite <- (proj1 Fu); exact (nth_lt _ _ _ Ea)).
    destruct (determine_ok v Hv) as [a [b [Ed _]]]. unfold FindCellsAboveAndBelowAVertex. rewrite Ed. cbn [fst snd].
    assert (S1 := Sv up v a). destruct (save cap up v a) as [up1| |]; cbn [bind]; [|congruence|discriminate].
    assert (S2 := Sv dn v b). destruct (save cap dn v b) as [dn1| |]; cbn [bind]; [|congruence|discriminate].
    assert (S3 := opposite_ne v a dn1). destruct (SaveCellIdsAtOppositeLevel cap t v a dn1) as [dn2| |]; cbn [bind]; [|congruence|discriminate].
    assert (S4 := opposite_ne v b up1). destruct (SaveCellIdsAtOppositeLevel cap t v b up1) as [up2| |]; cbn [bind]; [|congruence|discriminate].
    discriminate.
Qed.
Lemma visit_total : roomy cap t -> forall v x, v < length (t_vcells t) -> fine true (fst x) -> fine false (snd x) -> exists r, visit cap t v x = Ok r.
Proof.
  intros Hr v [up dn] Hv Fu Fd. cbn [fst snd] in *. unfold visit. cbn [fst snd].
  destruct (rd_ok (t_local t) v ltac:(rewrite (co_local t Ht); exact Hv)) as [i [Ei _]]. rewrite Ei. cbn [bind].
  destruct i; cbn [negb]; [|eexists; reflexivity].
  destruct (rd_ok up v ltac:(rewrite (proj1 Fu); exact Hv)) as [a [Ea Na]]. destruct (rd_ok dn v ltac:(rewrite (proj1 Fd); exact Hv)) as [b [Eb Nb]].
  rewrite Ea. cbn [bind]. rewrite Eb. cbn [bind].
  assert (Un : forall w l y, length y = length (t_vcells t) -> level_of t w v l -> exists z, FindCellsAtUninitializedLevel cap t v l y = Ok z).
  { intros w l y Ly Hl. unfold FindCellsAtUninitializedLevel. destruct (rd_ok (t_vcells t) v Hv) as [cs [Ecs Ncs]]. rewrite Ecs. cbn [bind].
    destruct (_ =? _); [eexists; reflexivity|]. eexists. apply save_ok; [|rewrite Ly; exact Hv].
    exact (Hr _ v _ Hv (proj1 (rest_level w v cs l Ncs Hl))). }
  destruct a as [a|]; destruct b as [b|].
  - eexists. reflexivity.
  - destruct (Un true a dn (proj1 Fd) (proj1 (proj2 Fu v a Na))) as [z Ez]. rewrite Ez. eexists. reflexivity.
  - destruct (Un false b up (proj1 Fu) (proj1 (proj2 Fd v b Nb))) as [z Ez]. rewrite Ez. eexists. reflexivity.
  - destruct (determine_ok v Hv) as [a [b [Ed [La Lb]]]]. unfold FindCellsAboveAndBelowAVertex. rewrite Ed. cbn [fst snd].
    assert (Ca := Hr true v a Hv La). assert (Cb := Hr false v b Hv Lb).
    rewrite save_ok by (try rewrite (proj1 Fu); assumption). cbn [bind]. rewrite save_ok by (try rewrite (proj1 Fd); assumption). cbn [bind].
    destruct (opposite_total true v a (upd dn v (Some b)) ltac:(rewrite length_upd; exact (proj1 Fd)) Ca La) as [d Ed2]. rewrite Ed2. cbn [bind].
    destruct (opposite_total false v b (upd up v (Some a)) ltac:(rewrite length_upd; exact (proj1 Fu)) Cb Lb) as [u Eu2]. rewrite Eu2. cbn [bind].
    eexists. reflexivity.
Qed.

Lemma visits_sound : forall vs x r, fine true (fst x) -> fine false (snd x) -> visits cap t vs x = Ok r ->
  snd r = true /\ fine true (fst (fst r)) /\ fine false (snd (fst r)) /\ grows (fst x) (fst (fst r)) /\ grows (snd x) (snd (fst r)) /\
  (forall v, In v vs -> nth_error (t_local t) v = Some true -> settled (fst r) v).
Proof.
  induction vs as [|v vs IH]; intros x r Fu Fd H.
  - injection H as <-. cbn [fst snd]. split; [reflexivity|]. split; [exact Fu|]. split; [exact Fd|]. split; [apply grows_refl|].
    split; [apply grows_refl|]. intros v [].
  - cbn [visits] in H. destruct (visit cap t v x) as [s| |] eqn:E; cbn [bind] in H; try discriminate H.
    destruct (visit_sound v x s Fu Fd E) as [Os [Fu1 [Fd1 [G1 [G2 S1]]]]]. rewrite Os in H.
    destruct (IH (fst s) r Fu1 Fd1 H) as [Or [Fu2 [Fd2 [G3 [G4 S2]]]]]. split; [exact Or|]. split; [exact Fu2|]. split; [exact Fd2|].
    split; [exact (grows_trans _ _ _ G1 G3)|]. split; [exact (grows_trans _ _ _ G2 G4)|].
    intros u [<-|Hu] Hl; [|exact (S2 u Hu Hl)]. exact (settled_grows (fst s) (fst r) _ G3 G4 (S1 Hl)).
Qed.
Lemma visits_ne : forall vs x, fine true (fst x) -> fine false (snd x) -> visits cap t vs x <> Err.
Proof.
  induction vs as [|v vs IH]; intros x Fu Fd; [discriminate|]. cbn [visits].
  destruct (visit cap t v x) as [s| |] eqn:E; cbn [bind]; [|exfalso; exact (visit_ne v x Fu E)|discriminate].
  destruct (visit_sound v x s Fu Fd E) as [Os [Fu1 [Fd1 _]]]. rewrite Os. exact (IH (fst s) Fu1 Fd1).
Qed.
Lemma visits_total : roomy cap t -> forall vs x, (forall v, In v vs -> v < length (t_vcells t)) -> fine true (fst x) -> fine false (snd x) ->
  exists r, visits cap t vs x = Ok r.
Proof.
  intros Hr vs. induction vs as [|v vs IH]; intros x H Fu Fd; [eexists; reflexivity|]. cbn [visits].
  destruct (visit_total Hr v x (H v (or_introl eq_refl)) Fu Fd) as [s E]. rewrite E. cbn [bind].
  destruct (visit_sound v x s Fu Fd E) as [Os [Fu1 [Fd1 _]]]. rewrite Os. exact (IH (fst s) (fun u X => H u (or_intror X)) Fu1 Fd1).
Qed.

Lemma unset_fine : forall up, fine up (unset t).
Proof.
  intro up. split; [apply repeat_length|]. intros v l E. apply nth_error_In in E. apply repeat_spec in E. discriminate E.
Qed.
Lemma row_right : forall up x v, fine up x -> v < length (t_vcells t) -> (nth_error x v = Some None -> forall c, ~ lies t up v c) ->
  level_of t up v (row_of x v).
Proof.
  intros up x v F Hv Hs. unfold row_of. assert (Hx : v < length x) by (rewrite (proj1 F); exact Hv).
  destruct (nth_error x v) as [[l|]|] eqn:E; [| |apply nth_error_None in E; lia]; rewrite (nth_error_nth _ _ None E).
  - exact (proj1 (proj2 F v l E)).
  - split; [constructor|]. intro c. split; [intros []|intro L; exact (Hs eq_refl c L)].
Qed.

Theorem sound : forall r, FindCellsAboveAndBelowVertices cap t = Ok r ->
  snd r = true /\ forall v, nth_error (t_local t) v = Some true -> right_at t (fst r) v /\
    (length (row_of (fst (fst r)) v) < cap \/ row_of (fst (fst r)) v = []) /\ (length (row_of (snd (fst r)) v) < cap \/ row_of (snd (fst r)) v = []).
Proof.
  intros r H. destruct (visits_sound _ (unset t, unset t) _ (unset_fine true) (unset_fine false) H) as [O [Fu [Fd [_ [_ St]]]]].
  split; [exact O|]. intros v Hl. assert (Hv : v < length (t_vcells t)) by (rewrite <- (co_local t Ht); exact (nth_lt _ _ _ Hl)).
  destruct (St v ltac:(apply in_seq; lia) Hl) as [S1 S2]. split; [split; [exact (row_right true _ v Fu Hv S1)|exact (row_right false _ v Fd Hv S2)]|].
  assert (G : forall up x, fine up x -> length (row_of x v) < cap \/ row_of x v = []).
  { intros up x F. unfold row_of. destruct (nth_error x v) as [[l|]|] eqn:E.
    - rewrite (nth_error_nth _ _ None E). left. exact (proj2 (proj2 F v l E)).
    - rewrite (nth_error_nth _ _ None E). right. reflexivity.
    - rewrite nth_overflow by (apply nth_error_None; exact E). right. reflexivity. }
  split; [exact (G true _ Fu)|exact (G false _ Fd)].
Qed.
Theorem total : roomy cap t -> exists x, FindCellsAboveAndBelowVertices cap t = Ok (x, true).
Proof.
  intro Hr. destruct (visits_total Hr (seq 0 (length (t_vcells t))) (unset t, unset t)
    ltac:(intros v Hv; apply in_seq in Hv; lia) (unset_fine true) (unset_fine false)) as [[x b] E].
  destruct (visits_sound _ (unset t, unset t) _ (unset_fine true) (unset_fine false) E) as [O _]. cbn [snd] in O. subst b. exists x. exact E.
Qed.
Theorem never_err : FindCellsAboveAndBelowVertices cap t <> Err.
Proof. exact (visits_ne _ (unset t, unset t) (unset_fine true) (unset_fine false)). Qed.
End mesh.

Theorem levels_proof : forall t cap, columns t -> roomy cap t -> exists x, FindCellsAboveAndBelowVertices cap t = Ok (x, true) /\
  forall v, nth_error (t_local t) v = Some true -> right_at t x v.
Proof.
  intros t cap Ht Hr. destruct (total t Ht cap Hr) as [x E]. exists x. split; [exact E|]. intros v Hv.
  exact (proj1 (proj2 (sound t Ht cap _ E) v Hv)).
Qed.
(** Without room there is a write beyond the end of a row. *)
Theorem no_room_proof : forall t cap v up l, columns t -> nth_error (t_local t) v = Some true -> level_of t up v l -> l <> [] ->
  cap <= length l -> FindCellsAboveAndBelowVertices cap t = UB.
Proof.
  intros t cap v up l Ht Hv Hl Hne Hc. destruct (FindCellsAboveAndBelowVertices cap t) as [r| |] eqn:E; [|exfalso; exact (never_err t Ht cap E)|reflexivity].
  exfalso. destruct (sound t Ht cap r E) as [_ H]. destruct (H v Hv) as [[R1 R2] [C1 C2]].
  assert (L : forall m, level_of t up v m -> length m < cap \/ m = [] -> False).
  { intros m Hm C. assert (P := level_perm _ _ _ _ _ Hl Hm). destruct C as [C|C].
    - apply Permutation_length in P. lia.
    - subst m. symmetry in P. apply Permutation_nil in P. contradiction. }
  destruct up; [exact (L _ R1 C1)|exact (L _ R2 C2)].
Qed.

Lemma fold_max_ge : forall l n x, In x l \/ x <= n -> x <= fold_left Nat.max l n.
Proof.
  induction l as [|y l IH]; intros n x H; cbn [fold_left]; [destruct H as [[]|H]; exact H|].
  apply IH. destruct H as [[->|H]|H]; [right; lia|left; exact H|right; lia].
Qed.
Lemma fold_max_le : forall l n m, n <= m -> (forall x, In x l -> x <= m) -> fold_left Nat.max l n <= m.
Proof.
  induction l as [|y l IH]; intros n m Hn H; cbn [fold_left]; [exact Hn|]. apply IH; [|intros x Hx; apply H; right; exact Hx].
  assert (Y := H y (or_introl eq_refl)). lia.
Qed.
(** With the rows as large as the code makes them: a vertex with the largest number of cells,
    all on one side of it, is enough. *)
Theorem one_layer_proof : forall t v cs up, columns t -> nth_error (t_local t) v = Some true -> nth_error (t_vcells t) v = Some cs ->
  (forall u cu, nth_error (t_vcells t) u = Some cu -> length cu <= length cs) -> (forall c, In c cs -> lies t up v c) ->
  SetupLevels t = UB.
Proof.
  intros t v cs up Ht Hv Hcs Hmax Hone. unfold SetupLevels. destruct (co_cells t Ht v cs Hcs) as [N [Hne Hc]].
  rewrite (no_room_proof t _ v up cs Ht Hv); [reflexivity| |exact Hne|].
  - split; [exact N|]. intro c. split; [apply Hone|]. intro L. apply Hc. exact (proj1 L).
  - unfold MaxNumberOfCellsSharingAVertex. apply fold_max_le; [lia|]. intros x Hx. apply in_map_iff in Hx. destruct Hx as [cu [<- Hu]].
    apply In_nth_error in Hu. destruct Hu as [u Hu]. exact (Hmax u cu Hu).
Qed.
(** If every vertex with the largest number of cells has cells on both sides, the rows are
    large enough. *)
Theorem setup_proof : forall t, columns t ->
  (forall v up l, v < length (t_vcells t) -> level_of t up v l -> length l < MaxNumberOfCellsSharingAVertex t) ->
  exists x, SetupLevels t = Ok x /\ forall v, nth_error (t_local t) v = Some true -> right_at t x v.
Proof.
  intros t Ht Hr. destruct (levels_proof t (MaxNumberOfCellsSharingAVertex t) Ht) as [x [E H]]; [intros up v l Hv Hl; exact (Hr v up l Hv Hl)|].
  exists x. split; [|exact H]. unfold SetupLevels. rewrite E. reflexivity.
Qed.
