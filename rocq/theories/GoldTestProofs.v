(** Proofs about the comparison with gold files. *)
From Coq Require Import Reals ZArith List Bool Arith Ascii String Lia Lra.
From Verif Require Import Prelude GoldTest SpecGoldTest.
Import ListNotations.
Local Open Scope string_scope.
Local Open Scope list_scope.
Local Open Scope nat_scope.

Lemma seqb_eq a b : seqb a b = true <-> a = b.
Proof. unfold seqb. destruct list_eq_dec; split; congruence. Qed.
Lemma seqb_refl a : seqb a a = true.
Proof. apply seqb_eq; reflexivity. Qed.
Lemma seqb_neq a b : a <> b -> seqb a b = false.
Proof. unfold seqb. destruct list_eq_dec; congruence. Qed.

Lemma word_space a : word a = true -> space a = false.
Proof. destruct a as [[] [] [] [] [] [] [] []]; vm_compute; congruence. Qed.
Lemma colon_space : space ":"%char = false. Proof. reflexivity. Qed.

Lemma drop_all p s t : (forall a, In a s -> p a = true) -> drop p (s ++ t) = drop p t.
Proof. induction s as [|a s IH]; simpl; intros H; [reflexivity|]. rewrite H by auto. apply IH; auto. Qed.
Lemma drop_stop p a t : p a = false -> drop p (a :: t) = a :: t.
Proof. simpl. intros ->. reflexivity. Qed.
Lemma take_all p s a t : (forall x, In x s -> p x = true) -> p a = false -> take p (s ++ a :: t) = s.
Proof. induction s as [|b s IH]; simpl; intros H E; [now rewrite E|]. rewrite H by auto. rewrite IH; auto. Qed.

Lemma strip_trim p s q : blank p -> blank q -> trimmed s -> strip (p ++ s ++ q) = s.
Proof.
  intros Hp Hq Ht. unfold strip. rewrite drop_all by exact Hp.
  destruct s as [|a s].
  - simpl. rewrite <- (app_nil_r q), drop_all by exact Hq. reflexivity.
  - cbn [app]. rewrite drop_stop by (apply Ht; left; reflexivity).
    change (a :: s ++ q) with ((a :: s) ++ q). rewrite rev_app_distr.
    rewrite drop_all by (intros x Hx; apply Hq, in_rev, Hx).
    destruct (rev (a :: s)) as [|z r] eqn:R.
    + apply (f_equal (@rev _)) in R. rewrite rev_involutive in R. discriminate.
    + rewrite drop_stop by (apply Ht; right; rewrite R; reflexivity). rewrite <- R. apply rev_involutive.
Qed.

Lemma split_colon_app s t : ~ In ":"%char s -> split_colon (s ++ ":"%char :: t) = s :: split_colon t.
Proof.
  induction s as [|a s IH]; intros H; [reflexivity|]. simpl.
  destruct (Ascii.eqb_spec a ":") as [->|N]; [destruct H; left; reflexivity|].
  rewrite IH by (intros Hi; apply H; right; exact Hi). reflexivity.
Qed.
Lemma split_colon_none s : ~ In ":"%char s -> split_colon s = [s].
Proof.
  induction s as [|a s IH]; intros H; [reflexivity|]. simpl.
  destruct (Ascii.eqb_spec a ":") as [->|N]; [destruct H; left; reflexivity|].
  rewrite IH by (intros Hi; apply H; right; exact Hi). reflexivity.
Qed.
Lemma blank_colon s : blank s -> ~ In ":"%char s.
Proof. intros H Hi. apply H in Hi. discriminate. Qed.
Lemma split_space_one s : s <> [] -> (forall a, In a s -> space a = false) -> split_space s = [s].
Proof.
  induction s as [|a s IH]; intros N H; [congruence|]. simpl. rewrite H by (left; reflexivity).
  destruct s as [|b s]; [reflexivity|]. rewrite (H b) by (right; left; reflexivity).
  rewrite IH; [reflexivity|congruence|]. intros x Hx. apply H. right. exact Hx.
Qed.

(** Lines. *)
Lemma title_read b l : good_block b -> title_line b l -> exists g, name_re l = Some (b_type b, g) /\ strip g = b_name b.
Proof.
  intros (Tn & Tw & Nt & Nn & _) (nl & Hnl & ->).
  exists (" "%char :: b_name b). split.
  - unfold name_re. change (lit "-- " ++ ?x) with ("-"%char :: "-"%char :: " "%char :: x).
    cbn [Ascii.eqb]. cbv beta iota.
    destruct (b_type b) as [|a ty] eqn:ET; [congruence|].
    assert (Sa : space a = false) by (apply word_space, Tw; left; reflexivity).
    change (lit ": " ++ ?x) with (":"%char :: " "%char :: x).
    assert (TS : take space (" "%char :: (a :: ty) ++ ":"%char :: " "%char :: b_name b ++ lit " --" ++ nl) = [" "%char])
      by (simpl; now rewrite Sa).
    assert (DS : drop space (" "%char :: (a :: ty) ++ ":"%char :: " "%char :: b_name b ++ lit " --" ++ nl) = (a :: ty) ++ ":"%char :: " "%char :: b_name b ++ lit " --" ++ nl)
      by (simpl; now rewrite Sa).
    rewrite TS, DS, take_all by (exact Tw || reflexivity). rewrite drop_all by exact Tw. rewrite drop_stop by reflexivity.
    replace (Ascii.eqb "-" "-") with true by reflexivity. cbn [andb].
    replace (Ascii.eqb ":" ":") with true by reflexivity.
    assert (RV : rev (" "%char :: b_name b ++ lit " --" ++ nl) = rev nl ++ "-"%char :: "-"%char :: " "%char :: rev (b_name b) ++ [" "%char]).
    { change (" "%char :: b_name b ++ lit " --" ++ nl) with ([" "%char] ++ b_name b ++ lit " --" ++ nl).
      rewrite !rev_app_distr. simpl. rewrite <- !app_assoc. reflexivity. }
    rewrite RV.
    assert (FN : forallb (fun x => negb (Ascii.eqb x newline)) (rev (b_name b) ++ [" "%char]) = true).
    { apply forallb_forall. intros x Hx. apply in_app_or in Hx. destruct Hx as [Hx|[<-|[]]]; [|reflexivity].
      apply in_rev in Hx. destruct (Ascii.eqb_spec x newline); [congruence|reflexivity]. }
    assert (RG : rev (rev (b_name b) ++ [" "%char]) = " "%char :: b_name b) by (rewrite rev_app_distr, rev_involutive; reflexivity).
    destruct Hnl as [-> | ->]; cbn [rev app].
    + replace (Ascii.eqb "-" newline) with false by reflexivity. cbv beta iota.
      replace (Ascii.eqb "-" "-") with true by reflexivity. rewrite FN, RG. reflexivity.
    + replace (Ascii.eqb newline newline) with true by reflexivity. cbv beta iota.
      replace (Ascii.eqb "-" "-") with true by reflexivity. rewrite FN, RG. reflexivity.
  - change (" "%char :: b_name b) with ([" "%char] ++ b_name b). rewrite <- (app_nil_r (b_name b)) at 1.
    apply strip_trim; [intros a [<-|[]]; reflexivity|intros a []|exact Nt].
Qed.
Lemma entry_read kv l : good_entry kv -> entry_line kv l ->
  name_re l = None /\ exists a b, split_colon l = [a; b] /\ strip a = fst kv /\ strip b = snd kv.
Proof.
  intros (Kt & Kc & Kd & _ & _ & Vn & Vs & Vc) (p & q & r & Hp & Hq & Hr & ->). split.
  - unfold name_re.
    destruct p as [|c p]; cbn [app].
    + destruct (fst kv) as [|c k]; cbn [app].
      * change (lit ":" ++ ?x) with (":"%char :: x). destruct (q ++ snd kv ++ r); reflexivity.
      * destruct (k ++ lit ":" ++ q ++ snd kv ++ r); [reflexivity|].
        destruct (Ascii.eqb_spec c "-") as [->|_]; [destruct Kd; reflexivity|reflexivity].
    + destruct (p ++ fst kv ++ lit ":" ++ q ++ snd kv ++ r); [reflexivity|].
      destruct (Ascii.eqb_spec c "-") as [->|_]; [specialize (Hp "-"%char (or_introl eq_refl)); discriminate|reflexivity].
  - exists (p ++ fst kv), (q ++ snd kv ++ r). split; [|split].
    + change (lit ":" ++ ?x) with (":"%char :: x). rewrite app_assoc, split_colon_app.
      * rewrite split_colon_none; [reflexivity|]. intros H. apply in_app_or in H. destruct H as [H|H]; [exact (blank_colon _ Hq H)|].
        apply in_app_or in H. destruct H as [H|H]; [exact (Vc H)|exact (blank_colon _ Hr H)].
      * intros H. apply in_app_or in H. destruct H as [H|H]; [exact (blank_colon _ Hp H)|exact (Kc H)].
    + rewrite <- (app_nil_r (fst kv)) at 1. apply strip_trim; [exact Hp|intros a []|exact Kt].
    + apply strip_trim; [exact Hq|exact Hr|]. intros a [H|H].
      * apply Vs. destruct (snd kv); [discriminate|]. injection H as <-. left. reflexivity.
      * apply Vs. apply in_rev. destruct (rev (snd kv)); [discriminate|]. injection H as <-. left. reflexivity.
Qed.

(** Dictionaries. *)
Section Dict.
Context {V : Type}.
Lemma put_new k (v : V) d : ~ In k (map fst d) -> put k v d = d ++ [(k, v)].
Proof.
  induction d as [|[k' v'] d IH]; simpl; intros H; [reflexivity|].
  rewrite seqb_neq by (intros ->; apply H; left; reflexivity). rewrite IH; auto.
Qed.
Lemma get_in k (v : V) d : NoDup (map fst d) -> (get k d = Some v <-> In (k, v) d).
Proof.
  induction d as [|[k' v'] d IH]; simpl; intros ND; [split; [discriminate|intros []]|].
  inversion_clear ND as [|? ? NI ND']. destruct (seqb k k') eqn:E.
  - apply seqb_eq in E. subst k'. split; [injection 1 as ->; left; reflexivity|].
    intros [H|H]; [injection H as ->; reflexivity|]. destruct NI. apply in_map_iff. exists (k, v). auto.
  - rewrite IH by exact ND'. split; [auto|]. intros [H|H]; [|exact H]. injection H as -> ->. rewrite seqb_refl in E. discriminate.
Qed.
Lemma has_in k (d : list (str * V)) : has k d = true <-> In k (map fst d).
Proof.
  unfold has. induction d as [|[k' v'] d IH]; simpl; [split; [discriminate|intros []]|].
  destruct (seqb k k') eqn:E.
  - apply seqb_eq in E. subst. split; auto.
  - rewrite IH. split; [auto|]. intros [<-|H]; [rewrite seqb_refl in E; discriminate|exact H].
Qed.
End Dict.

(** Sections of a file. *)
Definition sect_of (b : block) : sect := (lit "name", b_name b) :: (lit "type", b_type b) :: b_entries b.
Definition dict_of (G : list block) : list (str * sect) := map (fun b => (b_name b, sect_of b)) G.

Lemma keys_sect b : good_block b -> NoDup (map fst (sect_of b)).
Proof.
  intros (_ & _ & _ & _ & ND & HE). simpl.
  constructor; [|constructor; [|exact ND]].
  - intros [H|H]; [discriminate|]. apply in_map_iff in H. destruct H as [kv [E Hi]]. destruct (HE _ Hi) as (_ & _ & _ & N & _). exact (N E).
  - intros H. apply in_map_iff in H. destruct H as [kv [E Hi]]. destruct (HE _ Hi) as (_ & _ & _ & _ & N & _). exact (N E).
Qed.

Lemma read_entries es ls : Forall2 entry_line es ls -> (forall kv, In kv es -> good_entry kv) ->
  forall secs s rest, NoDup (map fst (s ++ es)) -> sections_from (ls ++ rest) secs s = sections_from rest secs (s ++ es).
Proof.
  induction 1 as [|kv l es ls Hl H IH]; intros HG secs s rest ND; [rewrite app_nil_r; reflexivity|].
  destruct (entry_read kv l (HG kv (or_introl eq_refl)) Hl) as [NR [a [b [SC [Ea Eb]]]]].
  cbn [app sections_from]. rewrite NR, SC, Ea, Eb.
  rewrite map_app in ND. simpl in ND. apply NoDup_remove in ND as ND'.
  rewrite put_new by (intros Hi; apply (proj2 ND'), in_or_app; left; exact Hi).
  destruct kv as [k v]. cbn [fst snd].
  rewrite IH; [rewrite <- app_assoc; reflexivity|intros x Hx; apply HG; right; exact Hx|].
  rewrite <- app_assoc, map_app. simpl. exact ND.
Qed.
Lemma read_block b ls secs s rest : good_block b -> block_lines b ls ->
  sections_from (ls ++ rest) secs s = sections_from rest (save s secs) (sect_of b).
Proof.
  intros GB (t & es & -> & Ht & HE). destruct (title_read b t GB Ht) as [g [NR SG]].
  cbn [app sections_from]. rewrite NR, SG.
  rewrite (read_entries _ _ HE); [reflexivity| |exact (keys_sect b GB)].
  destruct GB as (_ & _ & _ & _ & _ & G). exact G.
Qed.
Lemma save_sect b secs : ~ In (b_name b) (map fst secs) -> save (sect_of b) secs = secs ++ [(b_name b, sect_of b)].
Proof. intros H. unfold save. change (get (lit "name") (sect_of b)) with (Some (b_name b)). apply put_new, H. Qed.
Lemma read_blocks G parts : Forall2 block_lines G parts -> (forall b, In b G -> good_block b) ->
  forall secs b, NoDup (map fst secs ++ b_name b :: map b_name G) ->
  sections_from (List.concat parts) secs (sect_of b) = Ok (secs ++ (b_name b, sect_of b) :: dict_of G).
Proof.
  induction 1 as [|c ls G parts Hc H IH]; intros HG secs b ND.
  - simpl. rewrite save_sect; [reflexivity|]. apply NoDup_remove in ND. destruct ND as [_ N]. intros Hi. apply N, in_or_app. left. exact Hi.
  - cbn [List.concat]. rewrite (read_block c ls) by (exact Hc || (apply HG; left; reflexivity)).
    rewrite save_sect by (apply NoDup_remove in ND; destruct ND as [_ N]; intros Hi; apply N, in_or_app; left; exact Hi).
    rewrite IH; [rewrite <- app_assoc; reflexivity|intros x Hx; apply HG; right; exact Hx|].
    rewrite map_app, <- app_assoc. exact ND.
Qed.
Lemma sections_read G ls : good_file G -> file_lines G ls -> get_sections ls = Ok (dict_of G).
Proof.
  intros [ND HG] (parts & -> & H). unfold get_sections. destruct H as [|b ls G parts Hb H]; [reflexivity|].
  cbn [List.concat]. rewrite (read_block b ls) by (exact Hb || (apply HG; left; reflexivity)).
  change (save [] []) with (@nil (str * sect)). rewrite (read_blocks G parts H); [reflexivity|intros x Hx; apply HG; right; exact Hx|exact ND].
Qed.

(** Counting. *)
Lemma total_zero {A} (f : A -> nat) l : total (map f l) = 0 <-> forall x, In x l -> f x = 0.
Proof.
  induction l as [|a l IH]; simpl; [split; [intros _ x []|reflexivity]|]. split.
  - intros H x [<-|Hx]; [lia|]. apply IH; [lia|exact Hx].
  - intros H. rewrite (H a) by auto. apply IH. auto.
Qed.
Lemma one_if_zero b : one_if (negb b) = 0 <-> b = true.
Proof. destruct b; simpl; split; congruence. Qed.

Lemma measured_kind t c : kind t c -> measured (lower t) = Some c.
Proof. intros (n & E & ->). destruct c; inversion E; subst n; reflexivity. Qed.

Section Compare.
Context (float_of : str -> option num) (int_of : str -> option Z) (tols : category -> tol) (perf : bool).

Lemma values_finite name ty c g v x y : kind ty c -> sound_tol (tols c) -> float_of g = Some (Fin x) -> float_of v = Some (Fin y) ->
  failures (compare_values float_of int_of tols name ty g v) = 0 <-> (compared (tols c) x -> within (tols c) x y).
Proof.
  intros HK [V0 HT] Eg Ev. unfold compare_values. rewrite (measured_kind _ _ HK). unfold as_float. rewrite Eg, Ev. cbn [bind].
  set (t := tols c) in *. unfold compared, within, scale. cbn [nabs nle nle_R].
  assert (RD : forall z, z <> 0%R -> Rabs ((x - y) / z) = (Rabs (x - y) / Rabs z)%R).
  { intros z Hz. unfold Rdiv. rewrite Rabs_mult, Rabs_inv by exact Hz. reflexivity. }
  assert (DV : forall z k, z <> 0%R -> (Rabs (x - y) / Rabs z * k <= t_value t <-> k * Rabs (x - y) <= t_value t * Rabs z)%R).
  { intros z k Hz. pose proof (Rabs_pos_lt z Hz). split; intros H'.
    - apply (Rmult_le_compat_r (Rabs z)) in H'; [|lra]. replace (Rabs (x - y) / Rabs z * k * Rabs z)%R with (k * Rabs (x - y))%R in H' by (field; lra). exact H'.
    - apply Rmult_le_reg_r with (Rabs z); [lra|]. replace (Rabs (x - y) / Rabs z * k * Rabs z)%R with (k * Rabs (x - y))%R by (field; lra). exact H'. }
  assert (NZ : lit "relative" <> lit "absolute" /\ lit "percent" <> lit "absolute" /\ lit "percent" <> lit "relative") by (repeat split; discriminate).
  destruct NZ as (N1 & N2 & N3).
  assert (TH : forall d : R, failures (Ok (if (if Rle_dec (t_min t) (Rabs x) then true else false) && (if Rle_dec (Rabs x) (t_max t) then true else false) then (if ngt (Fin d) (t_value t) then 1 else 0) else 0)) = 0
    <-> (t_min t <= Rabs x <= t_max t -> d <= t_value t)%R).
  { intros d. cbn [failures ngt]. destruct (Rle_dec (t_min t) (Rabs x)); destruct (Rle_dec (Rabs x) (t_max t)); cbn [andb]; try (split; [intros _ []; lra|reflexivity]).
    destruct (Rlt_dec (t_value t) d); split; try lia; intros; try lra. }
  destruct HT as [HT|[HT|HT]]; rewrite HT.
  - rewrite seqb_refl. cbn [bind]. cbn [nsub nabs]. rewrite TH. split.
    + intros H C. split; [auto|]. split; intros; congruence.
    + intros H C. apply (H C). reflexivity.
  - rewrite (seqb_neq _ _ N1), seqb_refl. cbn [bind]. cbn [is_zero].
    assert (G : forall d, (d <= t_value t <-> Rabs (x - y) <= t_value t * (if Req_EM_T x 0 then Rabs y else Rabs x))%R ->
       failures (Ok (if (if Rle_dec (t_min t) (Rabs x) then true else false) && (if Rle_dec (Rabs x) (t_max t) then true else false) then (if ngt (Fin d) (t_value t) then 1 else 0) else 0)) = 0
       <-> ((t_min t <= Rabs x <= t_max t)%R -> (lit "relative" = lit "absolute" -> (Rabs (x - y) <= t_value t)%R)
            /\ (lit "relative" = lit "relative" -> (Rabs (x - y) <= t_value t * (if Req_EM_T x 0 then Rabs y else Rabs x))%R)
            /\ (lit "relative" = lit "percent" -> (100 * Rabs (x - y) <= t_value t * (if Req_EM_T x 0 then Rabs y else Rabs x))%R))).
    { intros d E. rewrite TH, E. split.
      - intros H C. split; [intros; congruence|]. split; [auto|intros; congruence].
      - intros H C. apply (H C). reflexivity. }
    destruct (Req_EM_T x 0) as [X|X]; cbn [negb].
    + destruct (Req_EM_T y 0) as [Y|Y]; cbn [negb].
      * apply G. subst. rewrite Rminus_0_r, Rabs_R0. split; intros; lra.
      * cbn [nsub ndiv nabs]. apply G. rewrite RD by exact Y. rewrite <- (Rmult_1_r (_ / _)). rewrite DV by exact Y. rewrite Rmult_1_l. reflexivity.
    + cbn [nsub ndiv nabs]. apply G. rewrite RD by exact X. rewrite <- (Rmult_1_r (_ / _)). rewrite DV by exact X. rewrite Rmult_1_l. reflexivity.
  - rewrite (seqb_neq _ _ N2), (seqb_neq _ _ N3), seqb_refl. cbn [bind]. cbn [is_zero].
    assert (G : forall d, (d <= t_value t <-> 100 * Rabs (x - y) <= t_value t * (if Req_EM_T x 0 then Rabs y else Rabs x))%R ->
       failures (Ok (if (if Rle_dec (t_min t) (Rabs x) then true else false) && (if Rle_dec (Rabs x) (t_max t) then true else false) then (if ngt (Fin d) (t_value t) then 1 else 0) else 0)) = 0
       <-> ((t_min t <= Rabs x <= t_max t)%R -> (lit "percent" = lit "absolute" -> (Rabs (x - y) <= t_value t)%R)
            /\ (lit "percent" = lit "relative" -> (Rabs (x - y) <= t_value t * (if Req_EM_T x 0 then Rabs y else Rabs x))%R)
            /\ (lit "percent" = lit "percent" -> (100 * Rabs (x - y) <= t_value t * (if Req_EM_T x 0 then Rabs y else Rabs x))%R))).
    { intros d E. rewrite TH, E. split.
      - intros H C. split; [intros; congruence|]. split; [intros; congruence|auto].
      - intros H C. apply (H C). reflexivity. }
    destruct (Req_EM_T x 0) as [X|X]; cbn [negb].
    + destruct (Req_EM_T y 0) as [Y|Y]; cbn [negb].
      * cbn [nscale]. apply G. subst. rewrite Rminus_0_r, Rabs_R0. split; intros; lra.
      * cbn [nsub ndiv nabs nscale]. apply G. rewrite RD by exact Y. apply DV. exact Y.
    + cbn [nsub ndiv nabs nscale]. apply G. rewrite RD by exact X. apply DV. exact X.
Qed.

Lemma values_nan name ty c g v x : kind ty c -> sound_tol (tols c) -> float_of g = Some x -> float_of v = Some NaN ->
  failures (compare_values float_of int_of tols name ty g v) = 0.
Proof.
  intros HK [V0 HT] Eg Ev. unfold compare_values. rewrite (measured_kind _ _ HK). unfold as_float. rewrite Eg, Ev. cbn [bind].
  assert (S : nsub x NaN = NaN) by (destruct x; reflexivity). rewrite S.
  assert (E : forall z, ngt (nabs (ndiv NaN z)) (t_value (tols c)) = false) by (intros []; reflexivity).
  assert (E' : forall z, ngt (nscale 100 (nabs (ndiv NaN z))) (t_value (tols c)) = false) by (intros []; reflexivity).
  destruct HT as [-> | [-> | ->]].
  - rewrite seqb_refl. cbn [bind failures nabs ngt]. destruct (_ && _); reflexivity.
  - rewrite seqb_neq by discriminate. rewrite seqb_refl. cbn [bind failures]. cbn [is_zero negb].
    destruct (is_zero x); cbn [negb]; rewrite E; destruct (_ && _); reflexivity.
  - rewrite !seqb_neq by discriminate. rewrite seqb_refl. cbn [bind failures]. cbn [is_zero negb].
    destruct (is_zero x); cbn [negb]; rewrite E'; destruct (_ && _); reflexivity.
Qed.

(** Sections *)
Lemma sect_get b k v : good_block b -> k <> lit "name" -> k <> lit "type" -> (get k (sect_of b) = Some v <-> In (k, v) (b_entries b)).
Proof.
  intros GB N1 N2. rewrite (get_in k v _ (keys_sect b GB)). simpl. split; [|auto].
  intros [H|[H|H]]; [destruct (N1 (eq_sym (f_equal fst H)))|destruct (N2 (eq_sym (f_equal fst H)))|exact H].
Qed.
Lemma compare_sections_zero a b : good_block a -> good_block b -> b_name a = b_name b -> (exists c, kind (b_type a) c) ->
  failures (compare_sections float_of int_of tols perf (sect_of a) (sect_of b)) = 0 <->
  (forall k, In k (map fst (b_entries a)) <-> In k (map fst (b_entries b)))
  /\ forall k g c, In (k, g) (b_entries a) -> In (k, c) (b_entries b) ->
       failures (compare_values float_of int_of tols (b_name a ++ lit ":" ++ k) (b_type a) g c) = 0.
Proof.
  intros GA GB EN [cat HK]. unfold compare_sections.
  change (get (lit "name") (sect_of a)) with (Some (b_name a)). change (get (lit "name") (sect_of b)) with (Some (b_name b)).
  change (get (lit "type") (sect_of a)) with (Some (b_type a)). rewrite EN, seqb_refl. cbn [negb].
  assert (NS : seqb (lower (b_type a)) (lit "solution") = false).
  { destruct HK as (n & E & ->). apply seqb_neq. destruct cat; inversion E; subst n; discriminate. }
  rewrite NS, andb_false_r. cbn [failures].
  assert (HN : forall b k, In k (map fst (b_entries b)) -> good_block b -> k <> lit "name" /\ k <> lit "type").
  { intros b0 k Hi G0. apply in_map_iff in Hi. destruct Hi as [kv [<- Hi]]. destruct G0 as (_ & _ & _ & _ & _ & HE).
    destruct (HE _ Hi) as (_ & _ & _ & X & Y & _). split; assumption. }
  assert (KS : forall b k, In k (map fst (sect_of b)) <-> k = lit "name" \/ k = lit "type" \/ In k (map fst (b_entries b))).
  { intros b0 k. simpl. split; intros [H|[H|H]]; auto. }
  assert (SUM : forall p q r : nat, p + q + r = 0 <-> p = 0 /\ q = 0 /\ r = 0) by lia.
  rewrite SUM, !total_zero. split.
  - intros (H1 & H2 & H3). split.
    + intros k. split; intros Hi.
      * destruct (HN _ _ Hi GA) as [X Y]. assert (In k (map fst (sect_of a))) by (apply KS; auto). apply in_map_iff in H. destruct H as [kv [<- H]].
        apply H1 in H. apply one_if_zero, has_in, KS in H. destruct H as [H|[H|H]]; [congruence|congruence|exact H].
      * destruct (HN _ _ Hi GB) as [X Y]. assert (In k (map fst (sect_of b))) by (apply KS; auto). apply in_map_iff in H. destruct H as [kv [<- H]].
        apply H2 in H. apply one_if_zero, has_in, KS in H. destruct H as [H|[H|H]]; [congruence|congruence|exact H].
    + intros k g c Hg Hc. destruct (HN a k (in_map fst _ _ Hg) GA) as [X Y].
      specialize (H3 (k, g) (or_intror (or_intror Hg))). cbn [fst] in H3. unfold compare_key in H3.
      rewrite (seqb_neq k (lit "name") X), (seqb_neq k (lit "type") Y) in H3. cbn [orb] in H3.
      apply (sect_get a k g GA X Y) in Hg as Eg. apply (sect_get b k c GB X Y) in Hc as Ec. rewrite Eg, Ec in H3.
      destruct GA as (_ & _ & _ & _ & _ & HE). destruct GB as (_ & _ & _ & _ & _ & HE').
      destruct (HE _ Hg) as (_ & _ & _ & _ & _ & V1 & V2 & _). destruct (HE' _ Hc) as (_ & _ & _ & _ & _ & W1 & W2 & _).
      cbn [snd] in *. rewrite (split_space_one g V1 V2), (split_space_one c W1 W2) in H3. cbn in H3. rewrite Nat.add_0_r in H3. exact H3.
  - intros (HS & HV). split; [|split].
    + intros kv Hi. apply one_if_zero, has_in, KS. apply (in_map fst) in Hi. apply KS in Hi. rewrite HS in Hi. exact Hi.
    + intros kv Hi. apply one_if_zero, has_in, KS. apply (in_map fst) in Hi. apply KS in Hi. rewrite <- HS in Hi. exact Hi.
    + intros [k g] Hi. cbn [fst]. unfold compare_key.
      destruct (seqb k (lit "name")) eqn:E1; [reflexivity|]. destruct (seqb k (lit "type")) eqn:E2; [reflexivity|]. cbn [orb].
      assert (X : k <> lit "name") by (intros ->; rewrite seqb_refl in E1; discriminate).
      assert (Y : k <> lit "type") by (intros ->; rewrite seqb_refl in E2; discriminate).
      destruct (get k (sect_of a)) as [g'|] eqn:Eg; [|reflexivity]. destruct (get k (sect_of b)) as [c|] eqn:Ec; [|reflexivity].
      apply (sect_get a k g' GA X Y) in Eg. apply (sect_get b k c GB X Y) in Ec.
      pose proof (HV k g' c Eg Ec) as F.
      destruct GA as (_ & _ & _ & _ & _ & HE). destruct GB as (_ & _ & _ & _ & _ & HE').
      destruct (HE _ Eg) as (_ & _ & _ & _ & _ & V1 & V2 & _). destruct (HE' _ Ec) as (_ & _ & _ & _ & _ & W1 & W2 & _).
      cbn [snd] in *. rewrite (split_space_one g' V1 V2), (split_space_one c W1 W2). cbn. rewrite Nat.add_0_r. exact F.
Qed.

Lemma keys_dict G : map fst (dict_of G) = map b_name G.
Proof. unfold dict_of. rewrite map_map. reflexivity. Qed.
Lemma dict_get G b : NoDup (map b_name G) -> In b G -> get (b_name b) (dict_of G) = Some (sect_of b).
Proof. intros ND Hi. apply get_in; [rewrite keys_dict; exact ND|]. apply in_map_iff. exists b. auto. Qed.

Lemma same_name G a b : NoDup (map b_name G) -> In a G -> In b G -> b_name a = b_name b -> a = b.
Proof.
  induction G as [|c G IH]; intros ND Ha Hb E; [destruct Ha|]. simpl in ND. inversion_clear ND as [|? ? NI ND'].
  destruct Ha as [<-|Ha], Hb as [<-|Hb]; auto.
  - destruct NI. rewrite E. apply in_map, Hb.
  - destruct NI. rewrite <- E. apply in_map, Ha.
Qed.

Lemma verdict G C gold current : good_file G -> good_file C -> file_lines G gold -> file_lines C current -> kinds G ->
  exists r, check_gold float_of int_of tols perf None None (Some current) (Some gold) = Ok r
  /\ (r = false <-> same_shape G C /\ pairs G C (fun a g c => forall name, failures (compare_values float_of int_of tols name (b_type a) g c) = 0)).
Proof.
  intros [NG GG] [NC GC] FG FC KG. unfold check_gold. cbn [read_setting bind truth]. unfold compare_regression_files.
  rewrite (sections_read G gold (conj NG GG) FG), (sections_read C current (conj NC GC) FC). cbn [bind].
  eexists. split; [reflexivity|].
  assert (ANY : forall a, In a G -> forall g c n n', failures (compare_values float_of int_of tols n (b_type a) g c) = failures (compare_values float_of int_of tols n' (b_type a) g c)).
  { intros a Ha g c n n'. destruct (KG a Ha) as [k HK]. unfold compare_values. rewrite (measured_kind _ _ HK). reflexivity. }
  rewrite Nat.ltb_ge, Nat.le_0_r.
  assert (SUM : forall p q r : nat, p + q + r = 0 <-> p = 0 /\ q = 0 /\ r = 0) by lia.
  rewrite SUM, !total_zero. split.
  - intros (H1 & H2 & H3).
    assert (B1 : forall n, In n (map b_name G) <-> In n (map b_name C)).
    { intros n. split; intros Hi; rewrite <- keys_dict in Hi; apply in_map_iff in Hi; destruct Hi as [x [<- Hi]].
      - apply H1 in Hi. apply one_if_zero, has_in in Hi. rewrite keys_dict in Hi. exact Hi.
      - apply H2 in Hi. apply one_if_zero, has_in in Hi. rewrite keys_dict in Hi. exact Hi. }
    assert (B2 : forall a b, In a G -> In b C -> b_name a = b_name b -> failures (compare_sections float_of int_of tols perf (sect_of a) (sect_of b)) = 0).
    { intros a b Ha Hb E. specialize (H3 (b_name a, sect_of a)). cbn [fst snd] in H3. rewrite E, (dict_get C b NC Hb) in H3. apply H3.
      apply in_map_iff. exists a. rewrite E. auto. }
    split; [split; [exact B1|]|].
    + intros a b Ha Hb E. apply (compare_sections_zero a b (GG a Ha) (GC b Hb) E (KG a Ha)). auto.
    + intros a b Ha Hb E k g c Hg Hc n. destruct (proj1 (compare_sections_zero a b (GG a Ha) (GC b Hb) E (KG a Ha)) (B2 a b Ha Hb E)) as [_ F].
      rewrite (ANY a Ha g c n (b_name a ++ lit ":" ++ k)). eapply F; eassumption.
  - intros ((B1 & B2) & HV). split; [|split].
    + intros x Hi. apply one_if_zero, has_in. rewrite keys_dict. apply B1. rewrite <- keys_dict. apply in_map, Hi.
    + intros x Hi. apply one_if_zero, has_in. rewrite keys_dict. apply B1. rewrite <- keys_dict. apply in_map, Hi.
    + intros x Hi. apply in_map_iff in Hi. destruct Hi as [a [<- Ha]]. cbn [fst snd].
      destruct (get (b_name a) (dict_of C)) as [s|] eqn:E; [|reflexivity].
      apply get_in in E; [|rewrite keys_dict; exact NC]. apply in_map_iff in E. destruct E as [b [E Hb]]. injection E as E <-.
      apply (compare_sections_zero a b (GG a Ha) (GC b Hb) (eq_sym E) (KG a Ha)). split; [apply B2; auto|].
      intros k g c Hg Hc. apply (HV a b Ha Hb (eq_sym E) k g c Hg Hc).
Qed.

Lemma verdict_finite G C gold current : good_file G -> good_file C -> file_lines G gold -> file_lines C current -> kinds G ->
  (forall c, sound_tol (tols c)) ->
  values G (fun v => exists x, float_of v = Some (Fin x)) -> values C (fun v => exists x, float_of v = Some (Fin x)) ->
  exists r, check_gold float_of int_of tols perf None None (Some current) (Some gold) = Ok r
  /\ (r = false <-> same_shape G C /\ values_agree float_of tols G C).
Proof.
  intros GG GC FG FC KG ST VG VC. destruct (verdict G C gold current GG GC FG FC KG) as [r [E H]]. exists r. split; [exact E|]. rewrite H.
  split; intros [S P]; (split; [exact S|]); intros a b Ha Hb EN k g c Hg Hc.
  - intros cat x y HK Ex Ey. apply (values_finite [] (b_type a) cat g c x y HK (ST cat) Ex Ey). eapply P; eassumption.
  - intros n. destruct (KG a Ha) as [cat HK]. destruct (VG a _ Ha Hg) as [x Ex]. destruct (VC b _ Hb Hc) as [y Ey].
    apply (values_finite n (b_type a) cat g c x y HK (ST cat) Ex Ey). eapply P; eassumption.
Qed.
Lemma verdict_nan G C gold current : good_file G -> good_file C -> file_lines G gold -> file_lines C current -> kinds G ->
  (forall c, sound_tol (tols c)) -> same_shape G C ->
  values G (fun v => exists x, float_of v = Some x) -> values C (fun v => float_of v = Some NaN) ->
  check_gold float_of int_of tols perf None None (Some current) (Some gold) = Ok false.
Proof.
  intros GG GC FG FC KG ST SS VG VC. destruct (verdict G C gold current GG GC FG FC KG) as [r [E H]]. rewrite E. f_equal. apply H.
  split; [exact SS|]. intros a b Ha Hb EN k g c Hg Hc n. destruct (KG a Ha) as [cat HK]. destruct (VG a _ Ha Hg) as [x Ex].
  exact (values_nan n (b_type a) cat g c x HK (ST cat) Ex (VC b _ Hb Hc)).
Qed.
Lemma missing skip1 skip2 files : skip1 = None -> skip2 = None -> (fst files = None \/ snd files = None) ->
  check_gold float_of int_of tols perf skip1 skip2 (fst files) (snd files) = Ok true.
Proof. intros -> -> H. unfold check_gold. cbn [read_setting bind truth]. unfold compare_regression_files. destruct H as [-> | ->]; [destruct (snd files)|]; reflexivity. Qed.
Lemma skipped a s files : check_gold float_of int_of tols perf None (Some (a :: s)) (fst files) (snd files) = Ok false.
Proof.
  unfold check_gold. cbn [read_setting bind]. change (truth PyNone) with false. cbv beta iota.
  destruct (existsb (Ascii.eqb a) ["T"%char; "t"%char; "Y"%char; "y"%char]); cbn [truth]; [reflexivity|].
  rewrite seqb_neq by discriminate. reflexivity.
Qed.
Lemma discrete name ty p c a b : lower ty = lit "discrete" -> contains (lit "Mean") name = false -> int_of p = Some a -> int_of c = Some b ->
  tols CDiscrete = default_tol CDiscrete -> (Rabs (IZR a) <= 2 ^ 63 - 1)%R ->
  failures (compare_values float_of int_of tols name ty p c) = 0 <-> a = b.
Proof.
  intros ET EM Ea Eb DT RG. unfold compare_values. rewrite ET. change (measured (lit "discrete")) with (@None category). cbv beta iota.
  rewrite (seqb_neq (lit "discrete") (lit "solution")) by discriminate. rewrite seqb_refl. unfold compare_discrete. rewrite EM. unfold as_int. rewrite Ea, Eb.
  cbn [bind]. rewrite DT. cbn [default_tol t_type t_value t_min t_max]. rewrite seqb_refl. cbn [bind nsub nabs nle nle_R ngt failures].
  destruct (Rle_dec 0 (Rabs (IZR a))) as [_|N]; [|destruct N; apply Rabs_pos].
  destruct (Rle_dec (Rabs (IZR a)) (2 ^ 63 - 1)) as [_|N]; [|destruct (N RG)]. cbn [andb].
  destruct (Rlt_dec 0 (Rabs (IZR a - IZR b))) as [L|L]; split; intros H; try lia.
  - subst b. rewrite Rminus_diag_eq, Rabs_R0 in L by reflexivity. lra.
  - destruct (Z.eq_dec a b) as [|N]; [assumption|]. destruct L. apply Rabs_pos_lt. intros E. apply N, eq_IZR. lra.
Qed.
End Compare.
