(** Proofs about WyState.v. *)
From Coq Require Import Reals List Arith Lia Lra Bool.
From Coquelicot Require Import Coquelicot.
From Verif Require Import Prelude Arrays CharCurves SpecCurves CharCurvesProofs CharCurveSet SpecCurveSet CharCurveSetProofs Eos State SpecState StateProofs WyState.
Import ListNotations.
Local Open Scope R_scope.

Lemma wy_update_ok g N sc kc mats U pts : curves_set g N sc kc -> length mats = N -> length pts = N -> (N <= length U)%nat ->
  exists pts', UpdateState_WY g mats N U pts = Ok pts' /\ length pts' = N /\
    forall c f, nth_error mats c = Some f -> exists p, nth_error pts' c = Some p /\ wet_state g (sc c) (kc c) f (nth c U 0) p.
Proof.
  intros HC Lm Lp HU. unfold UpdateState_WY. rewrite (gather_ok Richards 0) by (simpl; lia). cbn [bind].
  set (Ps := map (fun c => nth (stride Richards * c + 0) U 0) (seq 0 N)).
  assert (LP : length Ps = N) by (unfold Ps; rewrite map_length, seq_length; reflexivity).
  destruct (curves_ok g N sc kc mats Ps pts HC Lm LP Lp) as (pts1 & E1 & L1 & H1). rewrite E1. cbn [bind].
  destruct (for_inv (fun i l => length l = N /\ (forall c, (i <= c)%nat -> nth_error l c = nth_error pts1 c)
     /\ forall c f, (c < i)%nat -> nth_error mats c = Some f -> exists p, nth_error l c = Some p /\ wet_state g (sc c) (kc c) f (nth c U 0) p)
    (scale_cell mats) N pts1) as [l [E [Ll [_ Hl]]]].
  - split; [exact L1|]. split; [reflexivity|]. intros; lia.
  - intros i l Hi [Ll [Hr Hd]]. unfold scale_cell.
    destruct (rd_ok l i) as [p [Ep Np]]; [lia|]. rewrite Ep. cbn [bind].
    destruct (rd_ok mats i) as [f [Ef Nf]]; [lia|]. rewrite Ef. cbn [bind]. cbv zeta.
    rewrite wr_ok by lia. eexists. split; [reflexivity|]. split; [rewrite length_upd; exact Ll|]. split.
    + intros c Hc. rewrite nth_upd_other by lia. apply Hr. lia.
    + intros c f' Hc Hf'. destruct (Nat.eq_dec c i) as [->|Hne].
      * assert (f' = f) as -> by congruence. eexists. split; [apply nth_upd_same; lia|].
        destruct (rd_ok pts i) as [p0 [_ Np0]]; [lia|].
        assert (NP : nth_error Ps i = Some (nth i U 0)).
        { unfold Ps. rewrite nth_seq_map by exact Hi. f_equal. f_equal. simpl. lia. }
        pose proof (H1 i p0 f (nth i U 0) Np0 Nf NP) as Hp. rewrite <- Hr in Hp by lia. rewrite Np in Hp. injection Hp as ->.
        split; [reflexivity|]. cbn [p_sat p_kr p_K]. intros S HS Hr1. unfold curved in HS. cbn [p_sat set_kr set_sat] in HS.
        unfold curved. cbn [p_kr set_kr]. unfold Se_of. rewrite HS. cbn [fbind]. rewrite fdiv_ok by lra. rewrite fdiv_ok by lra. cbn [law_fl fst snd].
        cbv zeta. unfold effective_saturation. split; [reflexivity|]. split; [|reflexivity].
        unfold fl2, fl1. destruct (snd (law (kc i) _)) as [d|]; [|reflexivity]. cbn [fbind]. f_equal. unfold Rdiv. ring.
      * rewrite nth_upd_other by lia. apply Hd; [lia|exact Hf'].
  - exists l. split; [exact E|]. split; [exact Ll|]. intros c f Hf. apply Hl; [|exact Hf]. rewrite <- Lm. apply nth_lt with f. exact Hf.
Qed.

Lemma wy_state g N sc kc mats U pts : curves_set g N sc kc -> length mats = N -> length pts = N -> (N <= length U)%nat ->
  exists pts', state_WY g mats N U pts = Ok pts' /\ length pts' = N /\
    forall c f, nth_error mats c = Some f -> exists p, nth_error pts' c = Some p /\
      wet_state g (sc c) (kc c) (mkMaterial 0 (K0 f) [] 0) (nth c U 0) p /\ (Sr f = 0 -> wet_state g (sc c) (kc c) f (nth c U 0) p).
Proof.
  intros HC Lm Lp HU.
  destruct (wy_update_ok g N sc kc (map setup_material mats) U pts HC) as (pts' & E & L & H); [rewrite map_length; exact Lm|exact Lp|exact HU|].
  exists pts'. split; [exact E|]. split; [exact L|]. intros c f Hf. destruct (H c (setup_material f)) as [p [Np Hp]]; [rewrite nth_error_map, Hf; reflexivity|].
  exists p. split; [exact Np|]. split; [exact Hp|]. intros H0. destruct Hp as [W1 W2]. cbn [Sr K0 setup_material] in W1, W2. unfold wet_state. rewrite H0. split; [exact W1|exact W2].
Qed.

Lemma wy_dry : exists g N sc kc mats U pts pts' f p s, curves_set g N sc kc /\ (forall c, admissible_sat (sc c)) /\ length mats = N /\ length pts = N /\ (N <= length U)%nat
  /\ state_WY g mats N U pts = Ok pts' /\ nth_error mats 0 = Some f /\ 0 <= Sr f < 1
  /\ nth_error pts' 0 = Some p /\ fst (fst (p_sat p)) = Some s /\ s < Sr f.
Proof.
  destruct example_curves as (a & b & c0 & c1 & c2 & c3 & _ & HC & _).
  set (sc := fun _ : nat => VanGenuchten 0.5 (1/10000)) in *.
  assert (Ha : forall c, admissible_sat (sc c)) by (intros c; simpl; lra).
  destruct (saturation_bounds (sc 0%nat) 0 101325 0 (Ha 0%nat) ltac:(lra)) as (s & Es & _ & _ & Hs). destruct (Hs ltac:(lra) ltac:(lra)) as [Hs0 Hs1].
  set (f := mkMaterial ((s + 1) / 2) (repeat 1 9) (repeat 1 9) 58).
  destruct (wy_state (example_setting a b) 2 sc _ [f; f] [0; 0] (points (fresh 2 2)) HC eq_refl eq_refl ltac:(simpl; lia)) as (pts' & E & L & H).
  destruct (H 0%nat f eq_refl) as (p & Np & [Hp _] & _).
  exists (example_setting a b), 2%nat, sc, (fun _ => Smoothed 0.5 0.995 0.99 1 0.005 c0 c1 c2 c3), [f; f], [0; 0], (points (fresh 2 2)), pts', f, p, s.
  split; [exact HC|]. split; [exact Ha|]. split; [reflexivity|]. split; [reflexivity|]. split; [simpl; lia|]. split; [exact E|]. split; [reflexivity|].
  split; [unfold f; cbn [Sr]; lra|]. split; [exact Np|]. split; [|unfold f; cbn [Sr]; lra]. rewrite Hp. exact Es.
Qed.
