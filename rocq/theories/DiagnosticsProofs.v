From Coq Require Import Reals List Arith Lia Lra Bool.
From Verif Require Import Prelude Arrays Fields FieldsProofs Diagnostics SpecDiagnostics.
Import ListNotations.
Local Open Scope nat_scope.

Definition pair_of (S rho V : list R) (c : nat) : list R := [nth c S 0%R; (nth c rho 0 * nth c V 0)%R].

Lemma owned_step : forall is_local i, owned_cells is_local (S i) = owned_cells is_local i ++ (if nth i is_local false then [i] else []).
Proof.
  intros. unfold owned_cells. rewrite seq_S, filter_app. simpl. destruct (nth i is_local false); reflexivity.
Qed.

Lemma owned_length_mono : forall is_local i n, i <= n -> length (owned_cells is_local i) <= length (owned_cells is_local n).
Proof.
  intros is_local i n H. induction H as [|n H IH]; [lia|]. rewrite owned_step, app_length. lia.
Qed.

Lemma upd_app : forall {A} (a b : list A) x y, upd (a ++ x :: b) (length a) y = a ++ y :: b.
Proof. intros A a b x y. induction a as [|z a IH]; simpl; [reflexivity|]. rewrite IH. reflexivity. Qed.

Lemma pairs_length : forall S rho V l, length (concat (map (pair_of S rho V) l)) = 2 * length l.
Proof. intros. induction l as [|c l IH]; [reflexivity|]. simpl. rewrite IH. lia. Qed.

Lemma skipn_cons2 : forall {A} k (v : list A), k + 2 <= length v -> exists x y, skipn k v = x :: y :: skipn (k + 2) v.
Proof.
  intros A k. induction k as [|k IH]; intros [|x v] H; simpl in H; try lia.
  - destruct v as [|y v]; simpl in H; [lia|]. exists x, y. reflexivity.
  - destruct (IH v) as [a [b E]]; [lia|]. exists a, b. simpl. exact E.
Qed.

Lemma update_spec : forall is_local S rho V n v, length is_local = n -> length S = n -> length rho = n -> length V = n ->
  length v = 2 * length (owned_cells is_local n) ->
  UpdateDiagnostics is_local S rho V n v = Ok (concat (map (pair_of S rho V) (owned_cells is_local n))).
Proof.
  intros is_local S rho V n v Li LS Lr LV Lv. unfold UpdateDiagnostics.
  destruct (for_inv (fun i st => st = (concat (map (pair_of S rho V) (owned_cells is_local i)) ++ skipn (2 * length (owned_cells is_local i)) v,
              length (owned_cells is_local i))) (update_cell is_local S rho V) n (v, 0)) as [st [E ->]].
  - reflexivity.
  - intros i st Hi ->. unfold update_cell.
    destruct (rd_ok is_local i) as [l [Rl El]]; [lia|]. rewrite Rl. cbn [bind].
    assert (HL : length (owned_cells is_local (Datatypes.S i)) <= length (owned_cells is_local n)) by (apply owned_length_mono; lia).
    rewrite owned_step in *. rewrite (nth_error_nth _ _ false El) in *.
    destruct l; cbn [negb].
    2:{ eexists. split; [reflexivity|]. rewrite app_nil_r. reflexivity. }
    set (ow := owned_cells is_local i) in *. rewrite app_length in HL. simpl in HL.
    destruct (rd_ok S i) as [s [Rs Es]]; [lia|]. destruct (rd_ok rho i) as [d [Rd Ed]]; [lia|]. destruct (rd_ok V i) as [w [Rw Ew]]; [lia|].
    rewrite Rs. cbn [bind].
    destruct (skipn_cons2 (2 * length ow) v) as [x [y Ev]]; [lia|]. rewrite Ev.
    assert (LC := pairs_length S rho V ow). set (a := concat (map (pair_of S rho V) ow)) in *.
    unfold DIAG_LIQUID_SATURATION, DIAG_LIQUID_MASS.
    rewrite wr_ok by (rewrite app_length; simpl; lia). cbn [bind]. rewrite Nat.add_0_r, <- LC, upd_app.
    rewrite Rd. cbn [bind]. rewrite Rw. cbn [bind].
    rewrite wr_ok by (rewrite app_length; simpl; lia). cbn [bind].
    replace (a ++ s :: y :: skipn (length a + 2) v) with ((a ++ [s]) ++ y :: skipn (length a + 2) v) by (rewrite <- app_assoc; reflexivity).
    replace (length a + 1) with (length (a ++ [s])) by (rewrite app_length; reflexivity). rewrite upd_app.
    eexists. split; [reflexivity|]. f_equal; [|rewrite app_length; simpl; lia].
    rewrite map_app, concat_app, app_length. fold a. simpl.
    rewrite (nth_error_nth _ _ 0%R Es), (nth_error_nth _ _ 0%R Ed), (nth_error_nth _ _ 0%R Ew).
    rewrite <- !app_assoc. simpl. replace (length ow + 1 + (length ow + 1 + 0)) with (length a + 2) by lia. reflexivity.
  - rewrite E. cbn [bind fst]. rewrite skipn_all2 by lia. rewrite app_nil_r. reflexivity.
Qed.

Lemma extract_diag : forall index S rho V cells, index < 2 ->
  ExtractDiagnosticField true true index (concat (map (pair_of S rho V) cells)) (repeat 0%R (Nat.div (length (concat (map (pair_of S rho V) cells))) 2))
  = Ok (map (fun c => nth index (pair_of S rho V c) 0%R) cells).
Proof.
  intros index S rho V cells Hi. unfold ExtractDiagnosticField. cbn [negb].
  rewrite gather_spec; [f_equal; apply map_map|exact Hi| |].
  - intros c Hc. apply in_map_iff in Hc. destruct Hc as [x [<- _]]. reflexivity.
  - rewrite repeat_length, pairs_length, map_length, Nat.mul_comm. apply Nat.div_mul. lia.
Qed.

Lemma diagnostics_exact : forall is_local S rho V n v, length is_local = n -> length S = n -> length rho = n -> length V = n ->
  length v = 2 * length (owned_cells is_local n) ->
  exists d, UpdateDiagnostics is_local S rho V n v = Ok d /\ length d = length v
    /\ GetLiquidSaturation true true d = Ok (values S (owned_cells is_local n))
    /\ GetLiquidMass true true d = Ok (map (fun c => (nth c rho 0 * nth c V 0)%R) (owned_cells is_local n)).
Proof.
  intros is_local S rho V n v Li LS Lr LV Lv. eexists. split; [apply update_spec; assumption|].
  split; [rewrite pairs_length; lia|]. split; unfold GetLiquidSaturation, GetLiquidMass; rewrite extract_diag by (unfold DIAG_LIQUID_SATURATION, DIAG_LIQUID_MASS; lia); reflexivity.
Qed.

Lemma diagnostics_refused : forall setup has_op index d vec, setup = false \/ has_op = false ->
  ExtractDiagnosticField setup has_op index d vec = Err.
Proof. intros setup has_op index d vec [-> | ->]; unfold ExtractDiagnosticField; [reflexivity|]. destruct setup; reflexivity. Qed.
