(** Proofs about Boundary.v. *)
From Coq Require Import Reals List Arith ZArith Lia Lra Bool.
From Verif Require Import Prelude Arrays CharCurves SpecCurves CharCurveSet SpecCurveSet CharCurveSetProofs Eos SpecEos State SpecState StateProofs Boundary SpecBoundary.
Import ListNotations.
Local Open Scope R_scope.

(** ** Loops over the faces *)

Fixpoint each {A St} (body : A -> St -> outcome St) (l : list A) (s : St) : outcome St :=
  match l with [] => Ok s | x :: l => do s <- body x s; each body l s end.

Lemma loop_each {A St} (body : A -> St -> outcome St) (l0 l : list A) s k :
  (forall i, (i < length l)%nat -> nth_error l0 (k + i) = nth_error l i) ->
  loop (length l) k (fun i s => do f <- rd l0 i; body f s) s = each body l s.
Proof.
  revert s k. induction l as [|x l IH]; intros s k H; [reflexivity|]. cbn [length loop each].
  unfold rd at 1. pose proof (H 0%nat ltac:(simpl; lia)) as H0. rewrite Nat.add_0_r in H0. rewrite H0. cbn [nth_error bind].
  destruct (body x s) as [s'| |]; try reflexivity. cbn [bind]. apply IH. intros i Hi.
  replace (S k + i)%nat with (k + S i)%nat by lia. rewrite H by (simpl; lia). reflexivity.
Qed.
Lemma for_each {A St} (body : A -> St -> outcome St) (l : list A) s :
  for_ (length l) (fun i s => do f <- rd l i; body f s) s = each body l s.
Proof. apply loop_each. reflexivity. Qed.
Lemma each_boundary {St} (body : face -> St -> outcome St) faces s :
  (forall f s, internal f = true -> body f s = Ok s) -> each body faces s = each body (boundary_faces faces) s.
Proof.
  intros Hb. revert s. induction faces as [|f faces IH]; intros s; [reflexivity|]. unfold boundary_faces. cbn [each filter].
  destruct (internal f) eqn:E; cbn [negb].
  - rewrite (Hb f s E). cbn [bind]. apply IH.
  - cbn [each]. destruct (body f s); try reflexivity. cbn [bind]. apply IH.
Qed.

Lemma touches_ids f c b : touches f (c, b) -> boundary_ids f = (Z.of_nat c, Z.of_nat b).
Proof.
  unfold touches, boundary_ids. simpl. intros [[H0 H1]|[H0 H1]].
  - destruct (Z.leb_spec 0 (id0 f)); [|lia]. f_equal; lia.
  - destruct (Z.leb_spec 0 (id0 f)); [lia|]. f_equal; lia.
Qed.
Lemma boundary_external faces f : In f (boundary_faces faces) -> internal f = false.
Proof. intros H. apply filter_In in H. destruct H as [_ H]. destruct (internal f); [discriminate H|reflexivity]. Qed.

Lemma rdz_nat {A} (a : list A) i : rdz a (Z.of_nat i) = rd a i.
Proof. unfold rdz. destruct (Z.ltb_spec (Z.of_nat i) 0); [lia|]. rewrite Nat2Z.id. reflexivity. Qed.
Lemma wrz_nat {A} (a : list A) i v : wrz a (Z.of_nat i) v = wr a i v.
Proof. unfold wrz. destruct (Z.ltb_spec (Z.of_nat i) 0); [lia|]. rewrite Nat2Z.id. reflexivity. Qed.

(** ** Boundary values *)

Definition wanted (bc : condition) (vals : list R) (f : face) (c : nat) (v : R) : Prop :=
  match bc with Some fn => fn (centroid f) = Ok v | None => nth_error vals c = Some v end.

Lemma each_set bc vals N keep l : forall fs s,
  Forall2 touches fs l -> (forall f, In f fs -> internal f = false) -> NoDup (map snd l) ->
  Forall (fun cb => (snd cb < length (fst s))%nat /\ (keep = true -> (N + snd cb < length (snd s))%nat)) l ->
  (forall k f c b, nth_error fs k = Some f -> nth_error l k = Some (c, b) -> exists v, wanted bc vals f c v) ->
  exists s', each (set_face bc vals N keep) fs s = Ok s' /\ length (fst s') = length (fst s) /\ length (snd s') = length (snd s) /\
    (forall k f c b v, nth_error fs k = Some f -> nth_error l k = Some (c, b) -> wanted bc vals f c v ->
       nth_error (fst s') b = Some v /\ (keep = true -> nth_error (snd s') (N + b) = Some v)) /\
    (forall b, ~ In b (map snd l) -> nth_error (fst s') b = nth_error (fst s) b /\ nth_error (snd s') (N + b) = nth_error (snd s) (N + b)) /\
    (forall c, (c < N)%nat -> nth_error (snd s') c = nth_error (snd s) c).
Proof.
  induction l as [|[c b] l IH]; intros fs s HF Hi Hn HL Hv; inversion HF as [|f cb fs' l' Ht HF' E1 E2]; subst.
  - exists s. refine (conj eq_refl (conj eq_refl (conj eq_refl (conj _ (conj (fun b _ => conj eq_refl eq_refl) (fun c _ => eq_refl)))))).
    intros [|k] f c b v H; discriminate H.
  - inversion Hn as [|? ? Nb Hn']; subst. inversion HL as [|? ? Lb HL']; subst. simpl in Lb, Nb. destruct Lb as [Lb Lv].
    destruct (Hv 0%nat f c b eq_refl eq_refl) as [v Wv].
    set (bnd := upd (fst s) b v). set (vec := if keep then upd (snd s) (N + b) v else snd s).
    assert (E : set_face bc vals N keep f s = Ok (bnd, vec)).
    { unfold set_face. rewrite (Hi f) by (left; reflexivity). rewrite (touches_ids f c b Ht).
      assert (Ev : match bc with Some fn => fn (centroid f) | None => rdz vals (Z.of_nat c) end = Ok v).
      { unfold wanted in Wv. destruct bc; [exact Wv|]. rewrite rdz_nat. apply rd_some; exact Wv. }
      rewrite Ev. cbn [bind]. rewrite wrz_nat, wr_ok by exact Lb. cbn [bind].
      replace (Z.of_nat b + Z.of_nat N)%Z with (Z.of_nat (N + b)) by lia. rewrite wrz_nat.
      unfold vec. destruct keep; [rewrite wr_ok by (apply Lv; reflexivity); reflexivity|reflexivity]. }
    assert (L1 : length bnd = length (fst s)) by apply length_upd.
    assert (L2 : length vec = length (snd s)) by (unfold vec; destruct keep; [apply length_upd|reflexivity]).
    destruct (IH fs' (bnd, vec) HF') as (s' & E' & L1' & L2' & HW & HU & HC).
    + intros f' Hf. apply Hi. right; exact Hf.
    + exact Hn'.
    + apply Forall_forall. intros cb Hcb. apply Forall_forall with (x := cb) in HL'; [|exact Hcb]. simpl. rewrite L1, L2. exact HL'.
    + intros k. exact (Hv (S k)).
    + exists s'. cbn [each]. rewrite E. cbn [bind]. split; [exact E'|]. simpl in L1', L2'. split; [congruence|]. split; [congruence|].
      split; [|split].
      * intros [|k] f' c' b' v' Hf Hl Hw; simpl in Hf, Hl.
        -- injection Hf as <-. injection Hl as <- <-. assert (v' = v) as -> by (unfold wanted in *; destruct bc; congruence).
           destruct (HU b Nb) as [U1 U2]. simpl in U1, U2. rewrite U1, U2. split; [apply nth_upd_same; exact Lb|].
           intros ->. unfold vec. apply nth_upd_same. apply Lv; reflexivity.
        -- exact (HW k f' c' b' v' Hf Hl Hw).
      * intros b' Hb'. simpl in Hb'. destruct (HU b') as [U1 U2]; [tauto|]. simpl in U1, U2. rewrite U1, U2.
        split; [apply nth_upd_other; tauto|]. unfold vec. destruct keep; [apply nth_upd_other; lia|reflexivity].
      * intros c' Hc'. rewrite (HC c' Hc'). simpl. unfold vec. destruct keep; [apply nth_upd_other; lia|reflexivity].
Qed.

Lemma set_boundary_ok bc vals N nb keep faces l bnd vec : numbering N nb faces l -> length vals = N -> evaluates bc faces ->
  length bnd = nb -> (keep = true -> (N + nb <= length vec)%nat) ->
  exists bnd' vec', set_boundary bc vals N keep faces (bnd, vec) = Ok (bnd', vec') /\ length bnd' = nb /\ length vec' = length vec /\
    (forall k f c b, nth_error (boundary_faces faces) k = Some f -> nth_error l k = Some (c, b) ->
       exists v, prescribed bc f (nth c vals 0) v /\ nth_error bnd' b = Some v /\ (keep = true -> nth_error vec' (N + b) = Some v)) /\
    (forall c, (c < N)%nat -> nth_error vec' c = nth_error vec c).
Proof.
  intros (HF & Hn & HL) Lv He Lb Lvec.
  assert (Hex : forall k f c b, nth_error (boundary_faces faces) k = Some f -> nth_error l k = Some (c, b) ->
     exists v, wanted bc vals f c v /\ prescribed bc f (nth c vals 0) v).
  { intros k f c b Hf Hc. unfold wanted, prescribed. destruct bc as [fn|].
    - destruct (He fn f eq_refl) as [v Ev]; [apply nth_error_In with k; exact Hf|]. exists v. split; exact Ev.
    - apply nth_error_In in Hc. apply Forall_forall with (x := (c, b)) in HL; [|exact Hc]. simpl in HL.
      exists (nth c vals 0). split; [apply nth_error_nth'; lia|reflexivity]. }
  unfold set_boundary. rewrite for_each, each_boundary by (intros f s Hf; unfold set_face; rewrite Hf; reflexivity).
  destruct (each_set bc vals N keep l (boundary_faces faces) (bnd, vec) HF) as ([bnd' vec'] & E & L1 & L2 & HW & _ & HC).
  - apply boundary_external.
  - exact Hn.
  - apply Forall_forall. intros cb Hcb. apply Forall_forall with (x := cb) in HL; [|exact Hcb]. simpl. split; [lia|].
    intros Hk. specialize (Lvec Hk). lia.
  - intros k f c b Hf Hc. destruct (Hex k f c b Hf Hc) as (v & W & _). exists v; exact W.
  - simpl in L1, L2. exists bnd', vec'. split; [exact E|]. split; [congruence|]. split; [exact L2|]. split.
    + intros k f c b Hf Hc. destruct (Hex k f c b Hf Hc) as (v & W & Pv). exists v. split; [exact Pv|].
      exact (HW k f c b v Hf Hc W).
    + exact HC.
Qed.

(** ** Curves *)

Lemma each_collect nb l : forall fs acc,
  Forall2 touches fs l -> (forall f, In f fs -> internal f = false) -> (length (fst acc) + length l <= nb)%nat ->
  each (collect nb) fs acc = Ok (fst acc ++ map fst l, snd acc ++ map snd l).
Proof.
  induction l as [|[c b] l IH]; intros fs acc HF Hi HL; inversion HF as [|f cb fs' l' Ht HF' E1 E2]; subst.
  - simpl. rewrite !app_nil_r. destruct acc; reflexivity.
  - cbn [each]. unfold collect at 1. rewrite (Hi f) by (left; reflexivity). rewrite (touches_ids f c b Ht).
    simpl in HL. destruct (Nat.ltb_spec (length (fst acc)) nb); [|lia].
    destruct (Z.ltb_spec (Z.of_nat c) 0); [lia|]. destruct (Z.ltb_spec (Z.of_nat b) 0); [lia|]. cbn [orb bind].
    rewrite IH; [|exact HF'|intros f' Hf; apply Hi; right; exact Hf|simpl; rewrite app_length; simpl; lia].
    cbn [fst snd map]. rewrite <- !app_assoc, !Nat2Z.id. reflexivity.
Qed.

Lemma last_set_snoc {I O} (h : list (@call I O)) pts inp out ty : last_set (h ++ [COnPoints pts inp out]) ty = last_set h ty.
Proof. induction h as [|[ty' ps prm|ps i o] h IH]; simpl; [reflexivity| |exact IH]. rewrite IH. reflexivity. Qed.
Lemma points_of_snoc {I O} (h : list (@call I O)) pts inp out ty : points_of (h ++ [COnPoints pts inp out]) ty = points_of h ty.
Proof. unfold points_of. rewrite last_set_snoc. reflexivity. Qed.
Lemma assigned_snoc {I O} np (h : list (@call I O)) pts inp out ty j p : assigned np h ty j p -> assigned np (h ++ [COnPoints pts inp out]) ty j p.
Proof. unfold assigned. rewrite last_set_snoc. exact (fun H => H). Qed.
Lemma run_snoc {I O} np (ev : nat -> list R -> I -> O) h s0 s c s' : run np ev s0 h = Ok s -> exec np ev s c = Ok s' -> run np ev s0 (h ++ [c]) = Ok s'.
Proof.
  revert s0. induction h as [|d h IH]; intros s0 H E; simpl in *.
  - injection H as ->. rewrite E. reflexivity.
  - destruct (exec np ev s0 d) as [s1| |]; try discriminate H. cbn [bind] in *. apply IH; assumption.
Qed.

Lemma ready_set g N sc kc : curves_ready g N sc kc -> curves_set g N sc kc.
Proof.
  intros [(h & H1 & H2 & H3 & H4 & _) H]. split; [|exact H]. exists h. repeat split; assumption.
Qed.

Lemma NoDup_bound (l : list nat) n : NoDup l -> (forall x, In x l -> (x < n)%nat) -> (length l <= n)%nat.
Proof.
  intros Hn Hl. rewrite <- (seq_length n 0). apply NoDup_incl_length; [exact Hn|]. intros x Hx. apply in_seq. specialize (Hl x Hx). lia.
Qed.

Lemma update_boundary_ok g N nb sc kc mats faces l P_bnd pts : numbering N nb faces l -> curves_ready g N sc kc -> length mats = N ->
  length P_bnd = nb -> length pts = nb ->
  exists g' pts', UpdateBoundaryState g mats nb faces P_bnd pts = Ok (g', pts') /\ curves_ready g' N sc kc /\ same_setting g' g /\ length pts' = nb /\
    (forall k c b f P, nth_error l k = Some (c, b) -> nth_error mats c = Some f -> nth_error P_bnd b = Some P ->
       exists q, nth_error pts' b = Some q /\ wet_face g (sc c) (kc c) f P q) /\
    (forall b, ~ In b (map snd l) -> nth_error pts' b = nth_error pts b).
Proof.
  intros (HF & Hn & HL) [(h & Hr & Hd & Hin & Hall & Hsafe) (h' & Hr' & Hp' & Hall')] Lm LP Lp.
  assert (Lt : forall k c b, nth_error l k = Some (c, b) -> (c < N)%nat /\ (b < nb)%nat).
  { intros k c b Hk. apply nth_error_In in Hk. apply Forall_forall with (x := (c, b)) in HL; [exact HL|exact Hk]. }
  assert (Ll : (length l <= nb)%nat).
  { rewrite <- (map_length snd l). apply NoDup_bound; [exact Hn|]. intros x Hx. apply in_map_iff in Hx. destruct Hx as ([c b] & <- & Hx).
    apply Forall_forall with (x := (c, b)) in HL; [exact (proj2 HL)|exact Hx]. }
  unfold UpdateBoundaryState.
  rewrite for_each, each_boundary by (intros f s Hf; unfold collect; rewrite Hf; reflexivity).
  rewrite (each_collect nb l) by (assumption || apply boundary_external || (simpl; lia)). cbn [bind fst snd].
  change ([] ++ map fst l) with (map fst l). change ([] ++ map snd l) with (map snd l). rewrite map_length.
  set (n := length l).
  set (hin := fun k => match nth_error l k with Some (c, b) => (match nth_error mats c with Some f => Sr f | None => 0 end, Pref g - nth b P_bnd 0) | None => (0, 0) end).
  assert (Hinp : for_ n (inputs (Pref g) mats P_bnd (map fst l, map snd l)) [] = Ok (map hin (seq 0 n))).
  { apply collect_ok. intros k out Hk. unfold inputs. cbn [fst snd].
    destruct (rd_ok l k Hk) as ([c b] & _ & Nk). destruct (Lt k c b Nk) as [Lc Lb].
    rewrite (rd_some (map fst l) k c) by (rewrite nth_error_map, Nk; reflexivity). cbn [bind].
    destruct (rd_ok mats c) as (f & Ef & Nf); [lia|]. rewrite Ef. cbn [bind].
    rewrite (rd_some (map snd l) k b) by (rewrite nth_error_map, Nk; reflexivity). cbn [bind].
    rewrite (rd_some P_bnd b (nth b P_bnd 0)) by (apply nth_error_nth'; lia). cbn [bind].
    unfold hin. rewrite Nk, Nf. reflexivity. }
  rewrite Hinp. cbn [bind].
  set (inp := map hin (seq 0 n)). set (cs := map fst l).
  assert (Li : length inp = length cs) by (unfold inp, cs; rewrite !map_length, seq_length; reflexivity).
  assert (Lcs : length cs = n) by apply map_length.
  assert (Ncs : forall k q, nth_error cs k = Some q -> (k < n)%nat /\ (q < N)%nat).
  { intros k q Hk. split; [rewrite <- Lcs; apply nth_lt with q; exact Hk|]. unfold cs in Hk. rewrite nth_error_map in Hk.
    destruct (nth_error l k) as [[c b]|] eqn:E; [|discriminate Hk]. injection Hk as <-. exact (proj1 (Lt k c b E)). }
  destruct (compute_on_points_correct sat_nparams sat_eval h (sat g) cs inp (repeat (None, None, None) n) Hr Hd) as (s' & S & ES & LS & HS & _).
  { intros q Hq. apply In_nth_error in Hq. destruct Hq as [k Hk]. destruct (Ncs k q Hk) as [_ Lq].
    destruct (Hall q Lq) as (ty & p & Hty & Ha & _). unfold lookup_safe.
    destruct Hsafe as [Hs|Hs]; [|left; apply Hs; exact Lq].
    destruct Ha as (ps & prm & i & El & Ei & _). assert (In q (points_of h ty)) by (unfold points_of; rewrite El; apply nth_error_In with i; exact Ei).
    destruct ty as [|[|ty]]; [left; assumption|right; split; [exact Hs|left; assumption]|lia]. }
  { exact Li. } { rewrite repeat_length. symmetry. exact Lcs. }
  unfold SaturationComputeOnPoints. rewrite ES. cbn [bind fst snd]. rewrite repeat_length in LS.
  set (hse := fun k => match nth_error inp k, nth_error S k with Some x, Some s => (flet s := fst (fst s); fdiv (s - fst x) (1 - fst x)) | _, _ => None end : fl).
  rewrite (collect_ok (effective_bnd inp S) hse n).
  2:{ intros k out Hk. unfold effective_bnd. destruct (rd_ok inp k) as (x & Ex & Nx); [lia|]. rewrite Ex. cbn [bind].
      destruct (rd_ok S k) as (s & Es & Ns); [lia|]. rewrite Es. cbn [bind]. unfold hse. rewrite Nx, Ns. reflexivity. }
  cbn [bind].
  assert (Hd' : disjoint_assignment h').
  { unfold disjoint_assignment. destruct Hp' as [[-> ->]|[-> ->]]; rewrite ?app_nil_r; apply seq_NoDup. }
  destruct (compute_on_points_correct kr_nparams kr_eval_fl h' (relperm g) cs (map hse (seq 0 n)) (repeat (None, None) n) Hr' Hd') as (k' & K & EK & LK & HK & _).
  { intros q Hq. apply In_nth_error in Hq. destruct Hq as [k Hk]. destruct (Ncs k q Hk) as [_ Lq]. unfold lookup_safe.
    destruct Hp' as [[-> ->]|[-> ->]]; [left|right; split; [simpl; lia|left]]; apply in_seq; lia. }
  { rewrite map_length, seq_length. symmetry. exact Lcs. } { rewrite repeat_length. symmetry. exact Lcs. }
  rewrite EK. cbn [bind fst snd]. rewrite repeat_length in LK.
  (* placing *)
  set (val := fun k => match nth_error inp k, nth_error S k, nth_error K k with
     | Some x, Some s, Some kr => mkBpoint s (fst kr, fl2 Rmult (snd kr) (fdiv 1 (1 - fst x))) | _, _, _ => mkBpoint (None, None, None) (None, None) end).
  destruct (for_inv (fun i out => length out = nb /\ (forall k c b, (k < i)%nat -> nth_error l k = Some (c, b) -> nth_error out b = Some (val k))
      /\ (forall b, ~ In b (map snd l) -> nth_error out b = nth_error pts b)) (place inp (map snd l) S K) n pts) as (pts' & EP & LP' & HP & HU).
  { split; [exact Lp|]. split; [intros; lia|reflexivity]. }
  { intros k out Hk (Lo & Ho & Hu). destruct (rd_ok l k Hk) as ([c b] & _ & Nk). destruct (Lt k c b Nk) as [_ Lb].
    unfold place. destruct (rd_ok inp k) as (x & Ex & Nx); [lia|]. rewrite Ex. cbn [bind].
    rewrite (rd_some (map snd l) k b) by (rewrite nth_error_map, Nk; reflexivity). cbn [bind].
    destruct (rd_ok S k) as (s & Es & Ns); [lia|]. rewrite Es. cbn [bind].
    destruct (rd_ok K k) as (kr & Er & Nr); [lia|]. rewrite Er. cbn [bind].
    rewrite wr_ok by lia. eexists. split; [reflexivity|]. split; [rewrite length_upd; exact Lo|]. split.
    - intros j c' b' Hj Nj. destruct (Nat.eq_dec j k) as [->|Hne].
      + rewrite Nk in Nj. injection Nj as <- <-. rewrite nth_upd_same by lia. unfold val. rewrite Nx, Ns, Nr. reflexivity.
      + rewrite nth_upd_other; [apply Ho with c'; [lia|exact Nj]|]. intros ->. apply Hne.
        apply (proj1 (NoDup_nth_error (map snd l)) Hn); [rewrite map_length; unfold n in Hk; lia|].
        rewrite !nth_error_map, Nk, Nj. reflexivity.
    - intros b' Hb'. rewrite nth_upd_other; [apply Hu; exact Hb'|]. intros ->. apply Hb'. apply nth_error_In with k. rewrite nth_error_map, Nk. reflexivity. }
  rewrite EP. cbn [bind].
  eexists. exists pts'. split; [reflexivity|]. split; [|split; [repeat split|split; [exact LP'|split; [|exact HU]]]].
  - split; cbn [sat relperm].
    + exists (h ++ [COnPoints cs inp (repeat (None, None, None) n)]). split.
      { apply run_snoc with (sat g); [exact Hr|]. cbn [exec]. rewrite ES. reflexivity. }
      unfold disjoint_assignment. rewrite !points_of_snoc. split; [exact Hd|]. split.
      { intros ty j. rewrite points_of_snoc. apply Hin. }
      split; [|exact Hsafe]. intros c Hc. destruct (Hall c Hc) as (ty & p & H1 & H2 & H3). exists ty, p. split; [exact H1|].
      split; [apply assigned_snoc; exact H2|exact H3].
    + exists (h' ++ [COnPoints cs (map hse (seq 0 n)) (repeat (None, None) n)]). split.
      { apply run_snoc with (relperm g); [exact Hr'|]. cbn [exec]. rewrite EK. reflexivity. }
      rewrite !points_of_snoc. split; [exact Hp'|].
      intros c Hc. destruct (Hall' c Hc) as (ty & p & H1 & H2 & H3). exists ty, p. split; [exact H1|].
      split; [apply assigned_snoc; exact H2|exact H3].
  - intros k c b f P Nk Nf NP. assert (Hk : (k < n)%nat) by (apply nth_lt with (c, b); exact Nk).
    exists (val k). split; [apply (HP k c b Hk Nk)|].
    assert (Nc : nth_error cs k = Some c) by (unfold cs; rewrite nth_error_map, Nk; reflexivity).
    assert (Nx : nth_error inp k = Some (Sr f, Pref g - P)).
    { unfold inp. rewrite (nth_seq_map hin n k Hk). unfold hin. rewrite Nk, Nf, (nth_error_nth P_bnd b 0 NP). reflexivity. }
    destruct (Lt k c b Nk) as [Lc _].
    destruct (Hall c Lc) as (ty & p & Hty & Ha & Hq). pose proof (HS k c _ ty p Nc Nx Hty Ha) as Ns. rewrite (describes_sat_eval _ _ _ _ Hq) in Ns.
    cbn [fst snd] in Ns.
    destruct (Hall' c Lc) as (ty' & p' & Hty' & Ha' & Hq').
    pose proof (HK k c _ ty' p' Nc (nth_seq_map hse n k Hk) Hty' Ha') as Nr.
    unfold val. rewrite Nx, Ns, Nr. cbn [fst snd]. unfold wet_face. cbn [b_sat b_kr]. split; [reflexivity|].
    intros Sv HSv HSr. unfold hse. rewrite Nx, Ns. cbn [fst snd]. rewrite HSv. cbn [fbind]. rewrite !fdiv_ok by lra.
    cbn [kr_eval_fl]. rewrite (describes_kr_eval _ _ _ _ Hq'). cbv zeta. unfold effective_saturation. split; [reflexivity|].
    unfold fl2, fl1. destruct (snd (law (kc c) _)) as [d|]; [|reflexivity]. cbn [fbind]. f_equal. unfold Rdiv. ring.
Qed.

(** ** The whole update *)

Lemma touches_unique f c b c' b' : touches f (c, b) -> touches f (c', b') -> c = c' /\ b = b'.
Proof. unfold touches. simpl. lia. Qed.
Lemma numbering_find N nb faces l i f c b : numbering N nb faces l -> nth_error faces i = Some f -> internal f = false -> touches f (c, b) ->
  exists k, nth_error (boundary_faces faces) k = Some f /\ nth_error l k = Some (c, b).
Proof.
  intros (HF & _ & _) Hi Hf Ht.
  assert (HI : In f (boundary_faces faces)) by (apply filter_In; split; [apply nth_error_In with i; exact Hi|rewrite Hf; reflexivity]).
  apply In_nth_error in HI. destruct HI as [k Hk]. exists k. split; [exact Hk|].
  clear Hi. revert k Hk. induction HF as [|g cb gs l Hg HF IH]; intros [|k] Hk; try discriminate Hk; simpl in *.
  - injection Hk as ->. destruct cb as [c' b']. destruct (touches_unique f c b c' b' Ht Hg) as [-> ->]. reflexivity.
  - apply IH; exact Hk.
Qed.
Lemma nth_gather md off (U : list R) N c : (c < N)%nat -> nth c (map (fun c => nth (stride md * c + off) U 0) (seq 0 N)) 0 = nth (stride md * c + off) U 0.
Proof. intros H. apply nth_error_nth. exact (nth_seq_map (fun c => nth (stride md * c + off) U 0) N c H). Qed.

Theorem boundary_refreshed md g N nb sc kc mats bcP bcX faces l U b :
  numbering N nb faces l -> curves_ready g N sc kc -> length mats = N -> evaluates bcP faces -> (unknowns md = 2%nat -> evaluates bcX faces) ->
  sized_bnd md N nb b -> (unknowns md * N <= length U)%nat ->
  exists g' b', refresh md bcP bcX mats N nb faces U (g, b) = Ok (g', b') /\ curves_ready g' N sc kc /\ same_setting g' g /\ sized_bnd md N nb b'
    /\ bwater b' = bwater b
    /\ (forall i f c n m, nth_error faces i = Some f -> internal f = false -> touches f (c, n) -> nth_error mats c = Some m ->
         exists P q, prescribed bcP f (pressure md U c) P /\ nth_error (P_bnd b') n = Some P
           /\ (has_vector md -> nth_error (pvec b') (N + n) = Some P)
           /\ nth_error (bpoints b') n = Some q /\ wet_face g (sc c) (kc c) m P q
           /\ (unknowns md = 2%nat -> exists x, prescribed bcX f (second md U c) x /\ nth_error (x_bnd b') n = Some x /\ nth_error (xvec b') (N + n) = Some x))
    /\ (forall c, (c < N)%nat -> nth_error (pvec b') c = nth_error (pvec b) c /\ nth_error (xvec b') c = nth_error (xvec b) c).
Proof.
  intros HN HC Lm HP HX (LP & Lp & Lv & Lx) LU.
  set (keep := match md with RichardsFvtpf => false | _ => true end).
  assert (Hkeep : keep = true <-> has_vector md) by (unfold keep, has_vector; destruct md; split; congruence).
  unfold refresh, SetBoundaryPressure. rewrite <- stride_unknowns in LU.
  rewrite (gather_ok md 0 U N) by (destruct md; simpl in *; lia). cbn [bind].
  set (ps := map (fun c => nth (stride md * c + 0) U 0) (seq 0 N)).
  destruct (set_boundary_ok bcP ps N nb keep faces l (P_bnd b) (pvec b) HN) as (bnd & vec & E & LB & LV & HW & HCell); try assumption.
  { unfold ps. rewrite map_length, seq_length. reflexivity. }
  { intros Hk. apply Lv. apply Hkeep. exact Hk. }
  fold keep. rewrite E. cbn [bind fst snd].
  assert (HSec : exists xb xv, (if (stride md =? 1)%nat then Ok (x_bnd b, xvec b) else SetBoundarySecond md bcX U N faces (x_bnd b, xvec b)) = Ok (xb, xv)
    /\ (unknowns md = 2%nat -> length xb = nb /\ (N + nb <= length xv)%nat)
    /\ (forall k f c n, nth_error (boundary_faces faces) k = Some f -> nth_error l k = Some (c, n) -> (c < N)%nat -> unknowns md = 2%nat ->
          exists x, prescribed bcX f (second md U c) x /\ nth_error xb n = Some x /\ nth_error xv (N + n) = Some x)
    /\ (forall c, (c < N)%nat -> nth_error xv c = nth_error (xvec b) c)).
  { rewrite stride_unknowns. destruct (Nat.eqb_spec (unknowns md) 1) as [H1|H1].
    - exists (x_bnd b), (xvec b). split; [reflexivity|]. split; [intros H2; lia|]. split; [intros; lia|reflexivity].
    - assert (H2 : unknowns md = 2%nat) by (destruct md; simpl in *; congruence).
      destruct (Lx H2) as [Lx1 Lx2]. unfold SetBoundarySecond. rewrite (gather_ok md 1 U N) by (destruct md; simpl in *; lia). cbn [bind].
      destruct (set_boundary_ok bcX (map (fun c => nth (stride md * c + 1) U 0) (seq 0 N)) N nb true faces l (x_bnd b) (xvec b) HN) as (xb & xv & EX & LXB & LXV & HXW & HXC).
      { rewrite map_length, seq_length. reflexivity. } { apply HX; exact H2. } { exact Lx1. } { intros _; exact Lx2. }
      exists xb, xv. split; [exact EX|]. split; [intros _; split; [exact LXB|lia]|]. split; [|exact HXC].
      intros k f c n Hf Hl Hc _. destruct (HXW k f c n Hf Hl) as (x & Px & Nx & Vx). rewrite nth_gather in Px by exact Hc.
      exists x. split; [|split; [exact Nx|apply Vx; reflexivity]].
      replace (second md U c) with (nth (stride md * c + 1) U 0); [exact Px|]. destruct md; simpl in H2; try discriminate H2; reflexivity. }
  destruct HSec as (xb & xv & EX & LX & HXW & HXC). rewrite EX. cbn [bind fst snd].
  destruct (update_boundary_ok g N nb sc kc mats faces l bnd (bpoints b) HN HC Lm LB Lp) as (g' & pts' & EU & HC' & HS' & LU' & HQ & _).
  rewrite EU. cbn [bind fst snd].
  eexists. eexists. split; [reflexivity|]. split; [exact HC'|]. split; [exact HS'|]. cbn [P_bnd x_bnd bpoints bwater pvec xvec].
  split.
  { split; [exact LB|]. split; [exact LU'|]. cbn [P_bnd x_bnd bpoints bwater pvec xvec]. split; [|exact LX].
    intros Hv. rewrite LV. apply Lv. exact Hv. }
  split; [reflexivity|]. split.
  - intros i f c n m Hi Hf Ht Hm. destruct (numbering_find N nb faces l i f c n HN Hi Hf Ht) as (k & Hk & Hl).
    assert (Hc : (c < N)%nat) by (rewrite <- Lm; apply nth_lt with m; exact Hm).
    destruct (HW k f c n Hk Hl) as (P & Pp & NP & VP). unfold ps in Pp. rewrite nth_gather, Nat.add_0_r, stride_unknowns in Pp by exact Hc.
    destruct (HQ k c n m P Hl Hm NP) as (q & Nq & Wq).
    exists P, q. split; [exact Pp|]. split; [exact NP|]. split; [intros Hv; apply VP, Hkeep, Hv|]. split; [exact Nq|]. split; [exact Wq|].
    intros H2. exact (HXW k f c n Hk Hl Hc H2).
  - intros c Hc. split; [apply HCell; exact Hc|apply HXC; exact Hc].
Qed.

(** ** Failures *)

Definition may_fail (fn : location -> outcome R) (faces : list face) : Prop :=
  forall f, In f (boundary_faces faces) -> fn (centroid f) <> UB.

Lemma each_fail fn vals N keep l : forall fs s,
  Forall2 touches fs l -> (forall f, In f fs -> internal f = false) ->
  Forall (fun cb => (snd cb < length (fst s))%nat /\ (keep = true -> (N + snd cb < length (snd s))%nat)) l ->
  (forall f, In f fs -> fn (centroid f) <> UB) -> (exists f, In f fs /\ fn (centroid f) = Err) ->
  each (set_face (Some fn) vals N keep) fs s = Err.
Proof.
  induction l as [|[c b] l IH]; intros fs s HF Hi HL Hu (f0 & H0 & E0); inversion HF as [|f cb fs' l' Ht HF' E1 E2]; subst; [destruct H0|].
  inversion HL as [|? ? Lb HL']; subst. simpl in Lb. destruct Lb as [Lb Lv]. cbn [each].
  unfold set_face at 1. rewrite (Hi f) by (left; reflexivity). rewrite (touches_ids f c b Ht).
  destruct (fn (centroid f)) as [v| |] eqn:Ev; [|reflexivity|exfalso; apply (Hu f); [left; reflexivity|exact Ev]].
  cbn [bind]. rewrite wrz_nat, wr_ok by exact Lb. cbn [bind].
  replace (Z.of_nat b + Z.of_nat N)%Z with (Z.of_nat (N + b)) by lia. rewrite wrz_nat.
  assert (EV : (if keep then wr (snd s) (N + b) v else Ok (snd s)) = Ok (if keep then upd (snd s) (N + b) v else snd s)).
  { destruct keep; [apply wr_ok; apply Lv; reflexivity|reflexivity]. }
  rewrite EV. cbn [bind]. apply IH; try assumption.
  - intros f' Hf. apply Hi. right; exact Hf.
  - apply Forall_forall. intros cb Hcb. apply Forall_forall with (x := cb) in HL'; [|exact Hcb]. simpl. rewrite length_upd.
    destruct keep; rewrite ?length_upd; exact HL'.
  - intros f' Hf. apply Hu. right; exact Hf.
  - exists f0. split; [|exact E0]. destruct H0 as [->|H0]; [congruence|exact H0].
Qed.

Theorem boundary_failure md g N nb mats fn bcX faces l U b :
  numbering N nb faces l -> sized_bnd md N nb b -> (unknowns md * N <= length U)%nat ->
  (forall f, In f (boundary_faces faces) -> fn (centroid f) <> UB) -> (exists f, In f (boundary_faces faces) /\ fn (centroid f) = Err) ->
  refresh md (Some fn) bcX mats N nb faces U (g, b) = Err.
Proof.
  intros (HF & Hn & HL) (LP & Lp & Lv & Lx) LU Hu He. unfold refresh, SetBoundaryPressure. rewrite <- stride_unknowns in LU.
  rewrite (gather_ok md 0 U N) by (destruct md; simpl in *; lia). cbn [bind]. unfold set_boundary.
  rewrite for_each, each_boundary by (intros f s Hf; unfold set_face; rewrite Hf; reflexivity).
  rewrite (each_fail fn _ N _ l) by
    (assumption || apply boundary_external ||
     (apply Forall_forall; intros cb Hcb; apply Forall_forall with (x := cb) in HL; [|exact Hcb]; simpl; split; [lia|];
      intros Hk; assert (has_vector md) as Hv by (intros ->; discriminate Hk); specialize (Lv Hv); lia)).
  reflexivity.
Qed.

(** ** Different curves *)

Lemma big_put m j i : small_inv m \/ (16 <= km_buckets m)%nat -> assoc (km_items m) j = None ->
  small_inv (kh_put m j i) \/ (16 <= km_buckets (kh_put m j i))%nat.
Proof.
  intros [Hs|Hb] Ha.
  - destruct (Nat.lt_ge_cases (kh_size m) 6) as [H|H]; [left; apply small_put; assumption|].
    right. unfold small_inv in Hs. unfold kh_put. cbn [km_buckets]. destruct Hs as [[E L]|[[E L]|[E L]]]; rewrite E; try lia.
    change (kh_upper 8) with 6%nat. destruct (Nat.leb_spec 6 (kh_size m)); simpl; lia.
  - right. unfold kh_put. cbn [km_buckets]. destruct (_ <=? _)%nat; [|exact Hb].
    destruct (Nat.eqb_spec (km_buckets m) 0); lia.
Qed.
Lemma big_build pts : forall m i, NoDup pts -> small_inv m \/ (16 <= km_buckets m)%nat -> (forall j, In j pts -> assoc (km_items m) j = None) ->
  small_inv (build_map m i pts) \/ (16 <= km_buckets (build_map m i pts))%nat.
Proof.
  induction pts as [|j pts IH]; intros m i Hnd Hs Hm; [exact Hs|]. inversion Hnd as [|? ? Hni Hnd']; subst. simpl. apply IH; [exact Hnd'| |].
  - apply big_put; [exact Hs|]. apply Hm. left; reflexivity.
  - intros j' Hj'. simpl. rewrite assoc_set_other by (intros ->; contradiction). apply Hm; right; exact Hj'.
Qed.
Lemma lookup_miss_big pts q : NoDup pts -> ~ In q pts -> (7 <= length pts)%nat -> kh_lookup (build_map kh_init 0 pts) q = UB.
Proof.
  intros Hnd Hq Hl. unfold kh_lookup. destruct (build_map_assoc pts kh_init 0 Hnd) as [_ H]. rewrite (H q Hq). simpl.
  pose proof (build_map_size pts kh_init 0 Hnd (fun j _ => eq_refl)) as Sz. simpl in Sz.
  destruct (big_build pts kh_init 0 Hnd (or_introl (or_introl (conj eq_refl eq_refl))) (fun j _ => eq_refl)) as [Hs|Hb].
  - unfold small_inv in Hs. change (kh_size kh_init) with 0%nat in Sz. lia.
  - destruct (Nat.ltb_spec (km_buckets (build_map kh_init 0 pts)) 16); [lia|reflexivity].
Qed.

Lemma on_points_UB {I O} np (ev : nat -> list R -> I -> O) s m0 m1 q pts : forall i inp out, In q pts ->
  (forall x, eval_at np ev s m0 m1 q x = UB) -> on_points np ev s m0 m1 i pts inp out = UB.
Proof.
  induction pts as [|q' pts IH]; intros i inp out Hin HU; [destruct Hin|]. cbn [on_points].
  destruct (nth_error inp i) as [x|]; [|reflexivity].
  destruct Hin as [->|Hin]; [rewrite HU; reflexivity|].
  assert (NE : eval_at np ev s m0 m1 q' x <> Err).
  { unfold eval_at. destruct (kh_size m0 =? 0)%nat; [|unfold kh_lookup; destruct (assoc _ _); cbn [bind]; [destruct (block _ _ _); discriminate|
      destruct (km_buckets m0 <? 16)%nat; cbn [bind]; [|discriminate]]];
    (destruct (kh_size m1 =? 0)%nat; [discriminate|unfold kh_lookup; destruct (assoc _ _); cbn [bind]; [destruct (block _ _ _); discriminate|
      destruct (km_buckets m1 <? 16)%nat; cbn [bind]; discriminate]]). }
  destruct (eval_at np ev s m0 m1 q' x) as [[v|]| |]; cbn [bind]; [|apply IH; assumption|congruence|reflexivity].
  destruct (update out i v); [apply IH; assumption|reflexivity].
Qed.

Theorem mixed_curves g N nb h mats faces l P_bnd pts c b : numbering N nb faces l -> length mats = N -> length P_bnd = nb ->
  run sat_nparams sat_eval cc_create h = Ok (sat g) -> NoDup (points_of h 0) -> (7 <= length (points_of h 0))%nat ->
  In (c, b) l -> ~ In c (points_of h 0) -> UpdateBoundaryState g mats nb faces P_bnd pts = UB.
Proof.
  intros (HF & Hn & HL) Lm LP Hr Hnd H7 Hcb Hc.
  assert (Lt : forall k c b, nth_error l k = Some (c, b) -> (c < N)%nat /\ (b < nb)%nat).
  { intros k c' b' Hk. apply nth_error_In in Hk. apply Forall_forall with (x := (c', b')) in HL; [exact HL|exact Hk]. }
  assert (Ll : (length l <= nb)%nat).
  { rewrite <- (map_length snd l). apply NoDup_bound; [exact Hn|]. intros x Hx. apply in_map_iff in Hx. destruct Hx as ([c' b'] & <- & Hx).
    apply Forall_forall with (x := (c', b')) in HL; [exact (proj2 HL)|exact Hx]. }
  unfold UpdateBoundaryState.
  rewrite for_each, each_boundary by (intros f s Hf; unfold collect; rewrite Hf; reflexivity).
  rewrite (each_collect nb l) by (assumption || apply boundary_external || (simpl; lia)). cbn [bind fst snd].
  change ([] ++ map fst l) with (map fst l). change ([] ++ map snd l) with (map snd l). rewrite map_length.
  set (hin := fun k => match nth_error l k with Some (c, b) => (match nth_error mats c with Some f => Sr f | None => 0 end, Pref g - nth b P_bnd 0) | None => (0, 0) end).
  rewrite (collect_ok (inputs (Pref g) mats P_bnd (map fst l, map snd l)) hin).
  2:{ intros k out Hk. unfold inputs. cbn [fst snd].
    destruct (rd_ok l k Hk) as ([c' b'] & _ & Nk). destruct (Lt k c' b' Nk) as [Lc Lb].
    rewrite (rd_some (map fst l) k c') by (rewrite nth_error_map, Nk; reflexivity). cbn [bind].
    destruct (rd_ok mats c') as (f & Ef & Nf); [lia|]. rewrite Ef. cbn [bind].
    rewrite (rd_some (map snd l) k b') by (rewrite nth_error_map, Nk; reflexivity). cbn [bind].
    rewrite (rd_some P_bnd b' (nth b' P_bnd 0)) by (apply nth_error_nth'; lia). cbn [bind].
    unfold hin. rewrite Nk, Nf. reflexivity. }
  cbn [bind]. unfold SaturationComputeOnPoints, compute_on_points.
  destruct (run_build sat_nparams sat_eval h (sat g) Hr) as (_ & M & B0 & B1). rewrite M.
  rewrite (on_points_UB sat_nparams sat_eval _ _ _ c); [reflexivity|apply in_map_iff; exists (c, b); split; [reflexivity|exact Hcb]|].
  intros x. unfold eval_at. rewrite (build_map_size (points_of h 0) kh_init 0 Hnd (fun j _ => eq_refl)).
  change (kh_size kh_init) with 0%nat. destruct (Nat.eqb_spec (0 + length (points_of h 0)) 0); [lia|].
  rewrite (lookup_miss_big _ c Hnd Hc H7). reflexivity.
Qed.

(** ** Water *)

Lemma refreshes_water md bcP bcX mats N nb faces Us : forall g b g' b', refreshes md bcP bcX mats N nb faces Us (g, b) = Ok (g', b') -> bwater b' = bwater b.
Proof.
  induction Us as [|U Us IH]; intros g b g' b' H; simpl in H; [congruence|].
  destruct (SetBoundaryPressure md bcP U N faces (P_bnd b, pvec b)) as [p| |]; try discriminate H. cbn [bind] in H.
  destruct (if (stride md =? 1)%nat then _ else _) as [x| |]; try discriminate H. cbn [bind] in H.
  destruct (UpdateBoundaryState g mats nb faces (fst p) (bpoints b)) as [r| |]; try discriminate H. cbn [bind] in H.
  apply IH in H. exact H.
Qed.

Lemma allocate_ok md g salt nb w : boundary_water md g salt = Ok w -> allocate_water md g salt nb = Ok (repeat w nb).
Proof.
  intros H. unfold allocate_water. rewrite (collect_ok _ (fun _ => w)).
  - f_equal. clear. generalize 0%nat. induction nb as [|nb IH]; intros k; [reflexivity|]. simpl. rewrite IH. reflexivity.
  - intros c out _. rewrite H. reflexivity.
Qed.

Lemma water_reference md g salt w : boundary_water md g salt = Ok w ->
  water_at g (Pref g) (Tref g) (match md with RichardsFvtpf => 0 | _ => salt end) w.
Proof.
  unfold boundary_water. set (m := match md with RichardsFvtpf => 0 | _ => salt end). intros H.
  destruct (EOSComputeWaterDensity (den_type g) (Pref g) (Tref g) m (Some 0, None, None)) as [[[r r1] r2]| |] eqn:Er; try discriminate H. cbn [bind] in H.
  destruct (EOSComputeWaterViscosity (vis_type g) (Pref g) (Tref g) m (Some 0, None, None)) as [[[v v1] v2]| |] eqn:Ev; try discriminate H. cbn [bind] in H.
  destruct (match md with TH => _ | _ => _ end) as [h| |]; try discriminate H. cbn [bind] in H. injection H as <-. cbn [fst snd].
  unfold water_at. cbn [w_rho w_vis]. split.
  - apply (f_equal cell_value) in Er. etransitivity; [exact (eq_sym Er)|]. destruct (den_type g); reflexivity.
  - apply (f_equal cell_value) in Ev. etransitivity; [exact (eq_sym Ev)|]. destruct (vis_type g); reflexivity.
Qed.

Lemma allocate_inv md g salt nb ws : known md g -> allocate_water md g salt nb = Ok ws ->
  exists w, boundary_water md g salt = Ok w /\ ws = repeat w nb.
Proof.
  intros (K1 & K2 & K3) H.
  assert (EW : exists w, boundary_water md g salt = Ok w).
  { unfold boundary_water. set (m := match md with RichardsFvtpf => 0 | _ => salt end).
    destruct (EOSComputeWaterDensity (den_type g) (Pref g) (Tref g) m (Some 0, None, None)) as [r| |] eqn:Er; [|destruct (den_type g); try discriminate Er; congruence|destruct (den_type g); discriminate Er].
    cbn [bind].
    destruct (EOSComputeWaterViscosity (vis_type g) (Pref g) (Tref g) m (Some 0, None, None)) as [v| |] eqn:Ev; [|destruct (vis_type g); try discriminate Ev; congruence|destruct (vis_type g); discriminate Ev].
    cbn [bind]. destruct md; try (eexists; reflexivity). specialize (K3 eq_refl). destruct (enthalpy g); [eexists; reflexivity|congruence]. }
  destruct EW as [w Ew]. exists w. split; [exact Ew|]. rewrite (allocate_ok md g salt nb w Ew) in H. congruence.
Qed.

Theorem water_never_updated md g salt nb b bcP bcX mats N faces Us g' b' : known md g -> allocate_water md g salt nb = Ok (bwater b) ->
  refreshes md bcP bcX mats N nb faces Us (g, b) = Ok (g', b') ->
  forall n, (n < nb)%nat -> exists w, nth_error (bwater b') n = Some w /\ water_at g (Pref g) (Tref g) (match md with RichardsFvtpf => 0 | _ => salt end) w.
Proof.
  intros HK HA HR n Hn. destruct (allocate_inv md g salt nb _ HK HA) as (w & Ew & Ews).
  exists w. split; [|exact (water_reference md g salt w Ew)].
  rewrite (refreshes_water md bcP bcX mats N nb faces Us g b g' b' HR), Ews. apply nth_error_repeat. exact Hn.
Qed.

Lemma water_constant g P T m P' T' m' w : den_type g = DensityConstant -> vis_type g = ViscosityConstant -> water_at g P T m w -> water_at g P' T' m' w.
Proof. intros Hd Hv. unfold water_at. rewrite Hd, Hv. exact (fun H => H). Qed.

Lemma exponential_differs P P0 : P0 <= 101325 -> 101325 < P -> fst (fst (density_exponential P)) <> fst (fst (density_exponential P0)).
Proof.
  intros H0 HP. unfold density_exponential. destruct (Rlt_dec P 101325); [lra|]. destruct (Rlt_dec P0 101325) as [H|H]; cbn [fst].
  - intros E. injection E as E. assert (X : exp 0 < exp (/ 100000000 * (P - 101325))) by (apply exp_increasing; lra). rewrite exp_0 in X. lra.
  - intros E. injection E as E. assert (X : exp (/ 100000000 * (P0 - 101325)) < exp (/ 100000000 * (P - 101325))) by (apply exp_increasing; lra). lra.
Qed.
Lemma water_pressure g P T m P0 T0 m0 w : den_type g = DensityExponential -> P0 <= 101325 -> 101325 < P -> water_at g P0 T0 m0 w -> ~ water_at g P T m w.
Proof.
  intros Hd H0 HP (E0 & _) (E & _). rewrite Hd in E0, E. cbn [EOSComputeWaterDensity cell_value] in E0, E.
  apply (exponential_differs P P0 H0 HP).
  destruct (density_exponential P) as [[a a1] a2]. destruct (density_exponential P0) as [[c c1] c2]. cbn [fst cell_value] in *. congruence.
Qed.
Lemma brine_heavier S : 0 < S <= 1 -> density_batzle_wang 101325 25 0 < density_batzle_wang 101325 25 S.
Proof.
  intros HS. unfold density_batzle_wang. cbv zeta.
  set (A := 0.668 + 0.44 * S + _).
  assert (HA : 0 < A) by (unfold A; lra).
  assert (0 < S * A) by (apply Rmult_lt_0_compat; lra). lra.
Qed.
Lemma water_salt g m w : den_type g = DensityBatzleWang -> 0 < m <= 1 -> water_at g 101325 25 0 w -> ~ water_at g 101325 25 m w.
Proof.
  intros Hd Hm (E0 & _) (E & _). rewrite Hd in E0, E. cbn [EOSComputeWaterDensity cell_value] in E0, E.
  pose proof (brine_heavier m Hm). rewrite E0 in E. injection E as E. lra.
Qed.

(** ** Curves of the library *)

Lemma default_ready g nc m alpha x0 x1 x2 dx c0 c1 c2 c3 a b :
  default_curves nc m alpha [x0; x1; x2; dx; c0; c1; c2; c3] = Ok (a, b) -> sat g = a -> relperm g = b ->
  curves_ready g nc (fun _ => VanGenuchten m alpha) (fun _ => Smoothed m x0 x1 x2 dx c0 c1 c2 c3).
Proof.
  intros E Ha Hb. destruct (default_ok g nc m alpha x0 x1 x2 dx c0 c1 c2 c3) as (a' & b' & E' & H).
  rewrite E in E'. injection E' as <- <-. destruct (H Ha Hb) as [_ HK]. split; [|exact HK].
  clear H HK. unfold default_curves, SaturationSetType in E.
  set (b1 := [m; alpha]) in *.
  assert (R1 : run (Out := fl * fl * fl) sat_nparams sat_eval cc_create [CSet 1 (seq 0 nc) (concat (repeat b1 nc))]
               = set_type sat_nparams cc_create 1 (seq 0 nc) (concat (repeat b1 nc))).
  { cbn [run exec]. apply bind_ret. }
  destruct (set_type sat_nparams cc_create 1 (seq 0 nc) (concat (repeat b1 nc))) as [a1| |]; try discriminate E. cbn [bind] in E.
  destruct (RelativePermeabilitySetType _ _ _ _) as [k1| |]; try discriminate E. cbn [bind] in E. injection E as E1 E2.
  exists [CSet 1 (seq 0 nc) (concat (repeat b1 nc))]. split; [rewrite Ha, <- E1; exact R1|].
  split; [unfold disjoint_assignment; apply seq_NoDup|]. split.
  - intros ty j Hty Hj. destruct ty as [|[|ty]]; [destruct Hj| |lia]. apply in_seq in Hj. lia.
  - split; [|left; simpl; lia]. intros c Hc. exists 1%nat, b1. split; [lia|]. split; [|split; reflexivity].
    exists (seq 0 nc), (concat (repeat b1 nc)), c. split; [reflexivity|]. split; [|split; [reflexivity|]].
    + rewrite (nth_error_nth' _ 0%nat) by (rewrite seq_length; exact Hc). rewrite seq_nth by exact Hc. reflexivity.
    + intros k Hk. symmetry. exact (nth_blocks b1 nc c k Hk Hc).
Qed.

(** ** A bar of two cells *)

Definition bar_faces : list face := [mkFace true 0 1 (1, 0, 0); mkFace false 0 (-2) (0, 0, 0); mkFace false (-1) 1 (2, 0, 0)].
Lemma bar_numbering : numbering 2 2 bar_faces [(0%nat, 1%nat); (1%nat, 0%nat)].
Proof.
  split; [|split].
  - constructor; [left; split; reflexivity|]. constructor; [right; split; reflexivity|constructor].
  - repeat constructor; simpl; lia.
  - repeat constructor.
Qed.
Definition bar_state (w : list water) : bstate := mkBstate [0; 0] [0; 0] (repeat (mkBpoint (Some 0, Some 0, Some 0) (Some 0, Some 0)) 2) w [0; 0; 0; 0] [0; 0; 0; 0].
Lemma bar_sized md w : sized_bnd md 2 2 (bar_state w).
Proof. repeat split; simpl; intros; lia. Qed.
