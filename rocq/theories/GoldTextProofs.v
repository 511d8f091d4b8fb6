(** The text of a regression file is read back as the blocks of its fields. *)
From Coq Require Import Reals ZArith List Bool Arith Ascii String Lia Lra.
From Verif Require Import Prelude RegOut SpecRegOut GoldTest GoldText SpecGoldTest GoldTestProofs.
Import ListNotations.
Local Open Scope string_scope.
Local Open Scope list_scope.
Local Open Scope nat_scope.

Section Text.
Context (float_of : str -> option num) (int_of : str -> option Z) (tols : category -> tol) (perf : bool).
Context (show : R -> str) (show_id : nat -> str) (rnd : R -> R).
Context (HR : readable float_of show rnd) (HD : decimal show_id).

Definition type_text (q : quantity) : str := match q with LiquidPressure => lit "PRESSURE" | Temperature => lit "GENERIC" end.
Definition name_text (q : quantity) : str := match q with LiquidPressure => lit "Liquid Pressure" | Temperature => lit "Temperature" end.
Definition cells_text (ks : list nat) (xs : list R) : list (str * str) := map (fun kx => (show_id (fst kx), show (snd kx))) (combine ks xs).
Definition block_of (q : quantity) (mx mn me : R) (ks : list nat) (xs : list R) : block :=
  {| b_type := type_text q; b_name := name_text q;
     b_entries := (lit "Max", show mx) :: (lit "Min", show mn) :: (lit "Mean", show me) :: cells_text ks xs |}.

Lemma digit_space a : digit a -> space a = false.
Proof. unfold digit, space. intros H. repeat (rewrite ?orb_false_iff, ?andb_false_iff, ?Nat.leb_gt). lia. Qed.
Lemma digit_not a c : digit a -> ~ digit c -> a <> c.
Proof. intros H N ->. auto. Qed.
Lemma pad_blank n s : exists p, blank p /\ pad n s = p ++ s.
Proof. exists (repeat " "%char (n - List.length s)). split; [|reflexivity]. intros a Ha. apply repeat_spec in Ha. subst. reflexivity. Qed.
Lemma nl_blank : blank [newline].
Proof. intros a [<-|[]]. reflexivity. Qed.

Lemma entry_text k p s : blank p -> entry_line (lit k, s) (p ++ lit k ++ lit ": " ++ pad 21 s ++ [newline]).
Proof.
  intros Hp. destruct (pad_blank 21 s) as [q [Hq ->]]. exists p, (" "%char :: q), [newline]. split; [exact Hp|]. split; [|split; [exact nl_blank|]].
  - intros a [<-|Ha]; [reflexivity|exact (Hq a Ha)].
  - cbn [fst snd]. change (lit ": ") with (lit ":" ++ [" "%char]). rewrite <- !app_assoc. reflexivity.
Qed.
Lemma cell_text k s : entry_line (show_id k, s) (pad 9 (show_id k) ++ lit ": " ++ pad 21 s ++ [newline]).
Proof.
  destruct (pad_blank 21 s) as [q [Hq ->]]. destruct (pad_blank 9 (show_id k)) as [p [Hp ->]].
  exists p, (" "%char :: q), [newline]. split; [exact Hp|]. split; [|split; [exact nl_blank|]].
  - intros a [<-|Ha]; [reflexivity|exact (Hq a Ha)].
  - cbn [fst snd]. change (lit ": ") with (lit ":" ++ [" "%char]). rewrite <- !app_assoc. reflexivity.
Qed.
Lemma spaces_blank n : blank (repeat " "%char n).
Proof. intros a Ha. apply repeat_spec in Ha. subst. reflexivity. Qed.

Lemma block_text q mx mn me ks xs :
  block_lines (block_of q mx mn me ks xs)
    (text show show_id ([Title q; Max (Some mx); Min (Some mn); Mean (Some me)] ++ map (fun kx => Cell (fst kx) (snd kx)) (combine ks xs))).
Proof.
  eexists. eexists. split; [reflexivity|]. split.
  - exists [newline]. split; [right; reflexivity|]. destruct q; reflexivity.
  - cbn [b_entries block_of]. constructor; [exact (entry_text "Max" (repeat " "%char 6) (show mx) (spaces_blank 6))|].
    constructor; [exact (entry_text "Min" (repeat " "%char 6) (show mn) (spaces_blank 6))|].
    constructor; [exact (entry_text "Mean" (repeat " "%char 5) (show me) (spaces_blank 5))|].
    unfold cells_text. induction (combine ks xs) as [|[k x] l IH]; [constructor|]. simpl. constructor; [apply cell_text|exact IH].
Qed.

Lemma good_value k x : trimmed k -> ~ In ":"%char k -> hd_error k <> Some "-"%char -> k <> lit "name" -> k <> lit "type" -> good_entry (k, show x).
Proof.
  intros H1 H2 H3 H4 H5. destruct (HR x) as (V1 & V2 & V3 & _). unfold good_entry. cbn [fst snd]. tauto.
Qed.
Lemma key_cases k v q mx mn me ks xs : In (k, v) (b_entries (block_of q mx mn me ks xs)) ->
  (k = lit "Max" /\ v = show mx) \/ (k = lit "Min" /\ v = show mn) \/ (k = lit "Mean" /\ v = show me)
  \/ exists i x, k = show_id i /\ v = show x /\ In (i, x) (combine ks xs).
Proof.
  cbn [b_entries block_of]. intros [H|[H|[H|H]]].
  - left. split; [symmetry; exact (f_equal fst H)|symmetry; exact (f_equal snd H)].
  - right; left. split; [symmetry; exact (f_equal fst H)|symmetry; exact (f_equal snd H)].
  - right; right; left. split; [symmetry; exact (f_equal fst H)|symmetry; exact (f_equal snd H)].
  - right; right; right. apply in_map_iff in H. destruct H as [[i x] [H Hi]]. exists i, x.
    split; [symmetry; exact (f_equal fst H)|]. split; [symmetry; exact (f_equal snd H)|exact Hi].
Qed.
Lemma id_first i w a r : w = a :: r -> ~ digit a -> show_id i <> w.
Proof. intros -> N E. destruct HD as [_ H]. destruct (H i) as [_ H']. apply N, H'. rewrite E. left. reflexivity. Qed.
Lemma id_not i n : In n ["Max"; "Min"; "Mean"; "name"; "type"] -> show_id i <> lit n.
Proof. intros H. repeat (destruct H as [<-|H]; [eapply id_first; [reflexivity|unfold digit; vm_compute; lia]|]). destruct H. Qed.
Lemma nodup_ids ks xs : NoDup ks -> NoDup (map fst (cells_text ks xs)).
Proof.
  intros ND. unfold cells_text. rewrite map_map. cbn [fst].
  revert xs. induction ND as [|k ks NI ND IH]; intros xs; [constructor|]. destruct xs as [|x xs]; [constructor|]. cbn [combine map fst]. constructor; [|apply IH].
  intros H. apply in_map_iff in H. destruct H as [[i y] [E Hi]]. cbn [fst] in E. apply (proj1 HD) in E. subst i. apply in_combine_l in Hi. exact (NI Hi).
Qed.
Lemma block_good q mx mn me ks xs : NoDup ks -> good_block (block_of q mx mn me ks xs).
Proof.
  intros ND. split; [destruct q; discriminate|]. split.
  { intros a Ha. destruct q; cbn in Ha; repeat (destruct Ha as [<-|Ha]; [reflexivity|]); destruct Ha. }
  split. { intros a [H|H]; destruct q; injection H as <-; reflexivity. }
  split. { intros H. destruct q; cbn in H; repeat (destruct H as [H|H]; [discriminate|]); destruct H. }
  split.
  - cbn [b_entries block_of map fst].
    assert (NC : forall n, In n ["Max"; "Min"; "Mean"; "name"; "type"] -> ~ In (lit n) (map fst (cells_text ks xs))).
    { intros n Hn H. unfold cells_text in H. rewrite map_map in H. apply in_map_iff in H. destruct H as [[i y] [E _]]. exact (id_not i n Hn E). }
    constructor; [|constructor; [|constructor; [|exact (nodup_ids ks xs ND)]]].
    + intros [H|[H|H]]; [discriminate|discriminate|]. revert H. apply (NC "Max"). simpl; auto 9.
    + intros [H|H]; [discriminate|]. revert H. apply (NC "Min"). simpl; auto 9.
    + intros H. revert H. apply (NC "Mean"). simpl; auto 9.
  - intros [k v] Hi. apply key_cases in Hi. destruct Hi as [[-> ->]|[[-> ->]|[[-> ->]|(i & x & -> & -> & _)]]]; apply good_value.
    1, 6, 11: intros a [H|H]; injection H as <-; reflexivity.
    1, 5, 9: intros H; cbn in H; repeat (destruct H as [H|H]; [discriminate|]); destruct H.
    1, 2, 3, 4, 5, 6, 7, 8, 9: discriminate.
    + intros a H. destruct HD as [_ H']. apply digit_space, (H' i).
      destruct H as [H|H]; [destruct (show_id i); [discriminate|]; injection H as <-; left; reflexivity|].
      apply in_rev. destruct (rev (show_id i)); [discriminate|]. injection H as <-. left. reflexivity.
    + intros H. destruct HD as [_ H']. apply (H' i) in H. unfold digit in H. vm_compute in H. lia.
    + intros H. destruct HD as [_ H']. assert (D : digit "-"%char). { apply (H' i). destruct (show_id i); [discriminate|]. injection H as ->. left. reflexivity. }
      unfold digit in D. vm_compute in D. lia.
    + apply (id_not i "name"). simpl; auto 9.
    + apply (id_not i "type"). simpl; auto 9.

Qed.

(** Blocks of a report. *)
Record entry := { n_q : quantity; n_f : list R; n_mx : R; n_mn : R; n_xs : list R }.
Definition block_at (ks : list nat) (e : entry) : block := block_of (n_q e) (n_mx e) (n_mn e) (sum (n_f e) / INR (List.length (n_f e)))%R ks (n_xs e).
Definition fits (ks : list nat) (e : entry) : Prop :=
  greatest (n_f e) (n_mx e) /\ least (n_f e) (n_mn e) /\ Forall2 (fun k x => nth_error (n_f e) k = Some x) ks (n_xs e).

Lemma report_blocks fs ks parts : Forall2 (fun qf part => section (fst qf) (snd qf) ks part) fs parts ->
  exists es, fs = map (fun e => (n_q e, n_f e)) es /\ (forall e, In e es -> fits ks e)
  /\ Forall2 block_lines (map (block_at ks) es) (map (text show show_id) parts).
Proof.
  induction 1 as [|[q f] part fs parts (mx & mn & xs & E & G & L & X) H (es & -> & HF & HB)].
  - exists []. split; [reflexivity|]. split; [intros e []|constructor].
  - exists ({| n_q := q; n_f := f; n_mx := mx; n_mn := mn; n_xs := xs |} :: es). split; [reflexivity|]. split.
    + intros e [<-|He]; [exact (conj G (conj L X))|exact (HF e He)].
    + cbn [map]. constructor; [|exact HB]. rewrite E. apply block_text.
Qed.
Lemma text_concat parts : text show show_id (List.concat parts) = List.concat (map (text show show_id) parts).
Proof. unfold text. apply concat_map. Qed.

Lemma name_inj q q' : name_text q = name_text q' -> q = q'.
Proof. destruct q, q'; intros H; try reflexivity; discriminate. Qed.
Lemma kind_of q : kind (type_text q) (category_for q).
Proof. destruct q; eexists; split; reflexivity. Qed.
Lemma kind_only q c : kind (type_text q) c -> c = category_for q.
Proof. intros (n & E & L). destruct q, c; inversion E; subst n; try reflexivity; discriminate. Qed.

Lemma in_cells ks e : fits ks e -> forall k x, In (k, x) (combine ks (n_xs e)) <-> In k ks /\ nth_error (n_f e) k = Some x.
Proof.
  intros (_ & _ & H) k x. induction H as [|k0 x0 l l' E H IH]; simpl; [split; [intros []|intros [[] _]]|]. rewrite IH. split.
  - intros [I|[I F]]; [injection I as -> ->; auto|auto].
  - intros [[->|I] F]; [left; congruence|auto].
Qed.
Lemma cells_keys ks e : fits ks e -> forall k, In k (map fst (cells_text ks (n_xs e))) <-> exists i, k = show_id i /\ In i ks.
Proof.
  intros HF k. unfold cells_text. rewrite map_map. cbn [fst]. rewrite in_map_iff. split.
  - intros [[i x] [<- Hi]]. exists i. split; [reflexivity|]. apply in_combine_l in Hi. exact Hi.
  - intros [i [-> Hi]]. destruct HF as (_ & _ & H). induction H as [|k0 x0 l l' E H IH]; [destruct Hi|].
    destruct Hi as [<-|Hi]; [exists (k0, x0); split; [reflexivity|left; reflexivity]|].
    destruct (IH Hi) as [y [E' Hy]]. exists y. split; [exact E'|right; exact Hy].
Qed.
Lemma greatest_one f x y : greatest f x -> greatest f y -> x = y.
Proof. intros [A B] [C D]. apply Rle_antisym; auto. Qed.
Lemma least_one f x y : least f x -> least f y -> x = y.
Proof. intros [A B] [C D]. apply Rle_antisym; auto. Qed.

Lemma runs_verdict fs fs' ks ks' L L' : reports fs ks L -> reports fs' ks' L' -> map fst fs = map fst fs' -> fs <> [] -> (forall c, sound_tol (tols c)) ->
  exists r, check_gold float_of int_of tols perf None None (Some (text show show_id L')) (Some (text show show_id L)) = Ok r
  /\ (r = false <-> (forall k, In k ks <-> In k ks') /\ forall q f f', In (q, f) fs -> In (q, f') fs' -> fields_agree (tols (category_for q)) rnd f f' ks).
Proof.
  intros (NK & NQ & parts & -> & HP) (NK' & NQ' & parts' & -> & HP') EQ NE ST.
  destruct (report_blocks fs ks parts HP) as (es & -> & HF & HB). destruct (report_blocks fs' ks' parts' HP') as (es' & -> & HF' & HB').
  rewrite map_map in NQ, NQ', EQ. rewrite map_map in EQ. cbn [fst] in *. change (map n_q es = map n_q es') in EQ.
  assert (GF : forall ks es, NoDup ks -> NoDup (map n_q es) -> good_file (map (block_at ks) es)).
  { intros k0 e0 N1 N2. split.
    - rewrite map_map. cbn [b_name block_at block_of]. rewrite <- (map_map n_q name_text).
      clear -N2. induction N2 as [|q l NI N IH]; [constructor|]. cbn [map]. constructor; [|exact IH].
      intros H. apply in_map_iff in H. destruct H as [q' [E Hi]]. apply name_inj in E. subst. exact (NI Hi).
    - intros b Hb. apply in_map_iff in Hb. destruct Hb as [e [<- _]]. apply block_good. exact N1. }
  destruct (verdict_finite float_of int_of tols perf (map (block_at ks) es) (map (block_at ks') es') (text show show_id (List.concat parts)) (text show show_id (List.concat parts')))
    as [r [E H]].
  - exact (GF ks es NK NQ).
  - exact (GF ks' es' NK' NQ').
  - eexists. split; [apply text_concat|exact HB].
  - eexists. split; [apply text_concat|exact HB'].
  - intros b Hb. apply in_map_iff in Hb. destruct Hb as [e [<- _]]. exists (category_for (n_q e)). apply kind_of.
  - exact ST.
  - intros b [k v] Hb Hv. apply in_map_iff in Hb. destruct Hb as [e [<- _]]. apply key_cases in Hv. cbn [snd].
    destruct Hv as [[-> ->]|[[-> ->]|[[-> ->]|(i & x & -> & -> & _)]]]; eexists; apply HR.
  - intros b [k v] Hb Hv. apply in_map_iff in Hb. destruct Hb as [e [<- _]]. apply key_cases in Hv. cbn [snd].
    destruct Hv as [[-> ->]|[[-> ->]|[[-> ->]|(i & x & -> & -> & _)]]]; eexists; apply HR.
  - exists r. split; [exact E|]. rewrite H. clear E H r.
    assert (TW : forall e, In e es -> exists e', In e' es' /\ n_q e = n_q e').
    { intros e He. apply (in_map n_q) in He. rewrite EQ in He. apply in_map_iff in He. destruct He as [e' [Q He]]. exists e'. auto. }
    assert (TW' : forall e, In e es' -> exists e', In e' es /\ n_q e = n_q e').
    { intros e He. apply (in_map n_q) in He. rewrite <- EQ in He. apply in_map_iff in He. destruct He as [e' [Q He]]. exists e'. auto. }
    split.
    + intros [[SN SK] VA].
      assert (KK : forall k, In k ks <-> In k ks').
      { destruct es as [|e es0] eqn:EE; [destruct NE; reflexivity|]. rewrite <- EE in *. assert (He : In e es) by (rewrite EE; left; reflexivity).
        destruct (TW e He) as [e' [He' Q]]. specialize (SK (block_at ks e) (block_at ks' e') (in_map _ _ _ He) (in_map _ _ _ He') (f_equal name_text Q)).
        assert (OF : forall i e0 k0, fits k0 e0 -> (In (show_id i) (map fst (b_entries (block_at k0 e0))) <-> In i k0)).
        { intros i e0 k0 F0. cbn [b_entries block_at block_of map fst]. split.
          - intros [I|[I|[I|I]]]; try (symmetry in I; exfalso; revert I; apply (id_not i); simpl; auto 9; fail).
            apply (cells_keys k0 e0 F0) in I. destruct I as [j [Ej Ij]]. apply (proj1 HD) in Ej. subst j. exact Ij.
          - intros I. right; right; right. apply (cells_keys k0 e0 F0). exists i. auto. }
        intros k. rewrite <- (OF k e ks (HF e He)), <- (OF k e' ks' (HF' e' He')). apply SK. }
      split; [exact KK|]. intros q f f' Hf Hf' x x' RP C.
      apply in_map_iff in Hf. destruct Hf as [e [Ef He]]. injection Ef as <- <-. apply in_map_iff in Hf'. destruct Hf' as [e' [Ef He']]. injection Ef as Q <-.
      pose proof (VA (block_at ks e) (block_at ks' e') (in_map _ _ _ He) (in_map _ _ _ He') (f_equal name_text (eq_sym Q))) as VE.
      destruct (HF e He) as (G & L & X) eqn:FE. destruct (HF' e' He') as (G' & L' & X').
      assert (FIN : forall key u u', In (key, show u) (b_entries (block_at ks e)) -> In (key, show u') (b_entries (block_at ks' e')) ->
                compared (tols (category_for (n_q e))) (rnd u) -> within (tols (category_for (n_q e))) (rnd u) (rnd u')).
      { intros key u u' I I' C'. apply (VE key (show u) (show u') I I' (category_for (n_q e)) (rnd u) (rnd u') (kind_of _)); [apply HR|apply HR|exact C']. }
      destruct RP as [[A B]|[[A B]|[[A B]|(k & Ik & A & B)]]].
      * rewrite (greatest_one _ _ _ A G) in *. rewrite (greatest_one _ _ _ B G'). apply (FIN (lit "Max")); [left; reflexivity|left; reflexivity|exact C].
      * rewrite (least_one _ _ _ A L) in *. rewrite (least_one _ _ _ B L'). apply (FIN (lit "Min")); [right; left; reflexivity|right; left; reflexivity|exact C].
      * subst x x'. apply (FIN (lit "Mean")); [right; right; left; reflexivity|right; right; left; reflexivity|exact C].
      * apply (FIN (show_id k)); [| |exact C].
        -- right; right; right. apply in_map_iff. exists (k, x). split; [reflexivity|]. apply (in_cells ks e (HF e He)). auto.
        -- right; right; right. apply in_map_iff. exists (k, x'). split; [reflexivity|]. apply (in_cells ks' e' (HF' e' He')). split; [apply KK; exact Ik|exact B].
    + intros [KK FA].
      assert (BK : forall e e', In e es -> In e' es' -> forall k, In k (map fst (b_entries (block_at ks e))) <-> In k (map fst (b_entries (block_at ks' e')))).
      { intros e e' He He' k. cbn [b_entries block_at block_of map fst In]. rewrite (cells_keys ks e (HF e He)), (cells_keys ks' e' (HF' e' He')).
        split; (intros [I|[I|[I|[i [-> I]]]]]; [auto|auto|auto|right; right; right; exists i; split; [reflexivity|apply KK; exact I]]). }
      split; [split|].
      * intros n. rewrite !map_map. cbn [b_name block_at block_of]. rewrite !in_map_iff. split.
        -- intros [e [<- He]]. destruct (TW e He) as [e' [He' Q]]. exists e'. split; [rewrite Q; reflexivity|exact He'].
        -- intros [e [<- He]]. destruct (TW' e He) as [e' [He' Q]]. exists e'. split; [rewrite Q; reflexivity|exact He'].
      * intros a b Ha Hb _. apply in_map_iff in Ha, Hb. destruct Ha as [e [<- He]]. destruct Hb as [e' [<- He']]. apply BK; assumption.
      * intros a b Ha Hb EN k g c Hg Hc cat x y HK Ex Ey C. apply in_map_iff in Ha, Hb. destruct Ha as [e [<- He]]. destruct Hb as [e' [<- He']].
        apply name_inj in EN as Q. apply kind_only in HK. subst cat.
        assert (Hf : In (n_q e, n_f e) (map (fun e => (n_q e, n_f e)) es)) by (apply in_map_iff; exists e; auto).
        assert (Hf' : In (n_q e, n_f e') (map (fun e => (n_q e, n_f e)) es')) by (apply in_map_iff; exists e'; rewrite Q; auto).
        pose proof (FA _ _ _ Hf Hf') as F. destruct (HF e He) as (G & L & X) eqn:FE. destruct (HF' e' He') as (G' & L' & X').
        assert (FIN : forall u u', g = show u -> c = show u' -> reported (n_f e) (n_f e') ks u u' -> within (tols (category_for (n_q e))) x y).
        { intros u u' -> -> RP. rewrite (proj2 (proj2 (proj2 (HR u)))) in Ex. rewrite (proj2 (proj2 (proj2 (HR u')))) in Ey.
          injection Ex as <-. injection Ey as <-. exact (F u u' RP C). }
        apply key_cases in Hg, Hc.
        destruct Hg as [[-> Eg]|[[-> Eg]|[[-> Eg]|(i & u & -> & Eg & Ig)]]]; destruct Hc as [[E Ec]|[[E Ec]|[[E Ec]|(j & w & E & Ec & Ic)]]];
          try discriminate; try (exfalso; revert E; apply (id_not i); simpl; auto 9; fail); try (symmetry in E; exfalso; revert E; apply (id_not j); simpl; auto 9; fail).
        -- apply (FIN _ _ Eg Ec). left. split; assumption.
        -- apply (FIN _ _ Eg Ec). right; left. split; assumption.
        -- apply (FIN _ _ Eg Ec). right; right; left. split; reflexivity.
        -- apply (FIN _ _ Eg Ec). right; right; right. apply (proj1 HD) in E. subst j. apply (in_cells ks e (HF e He)) in Ig. apply (in_cells ks' e' (HF' e' He')) in Ic.
           exists i. tauto.
Qed.
End Text.
