From Coq Require Import Reals ZArith List Bool Arith Lia Lra.
From Coquelicot Require Import Coquelicot.
From Verif Require Import Prelude Arrays SpecFvtpf FvtpfSumProofs Mpfao MpfaoTs SpecMpfaoTs.
From Verif Require Fvtpf.
Import ListNotations.
Local Open Scope R_scope.

(** ** Finite vectors as functions *)

Definition tab (n : nat) (h : nat -> R) : list fl := map (fun i => Some (h i)) (seq 0 n).

Lemma nth_tab : forall n h i, nth_error (tab n h) i = if (i <? n)%nat then Some (Some (h i)) else None.
Proof.
  intros n h i. unfold tab. rewrite nth_error_map. destruct (Nat.ltb_spec i n) as [L|L].
  - rewrite nth_error_nth' with (d := 0%nat) by (rewrite seq_length; exact L). rewrite seq_nth by exact L. reflexivity.
  - replace (nth_error (seq 0 n) i) with (@None nat); [reflexivity|]. symmetry. apply nth_error_None. rewrite seq_length. exact L.
Qed.
Lemma length_tab : forall n h, length (tab n h) = n.
Proof. intros. unfold tab. rewrite map_length, seq_length. reflexivity. Qed.
Lemma tab_ext : forall n h h', (forall i, (i < n)%nat -> h i = h' i) -> tab n h = tab n h'.
Proof.
  intros n h h' E. apply nth_error_ext. intro i. rewrite !nth_tab. destruct (Nat.ltb_spec i n); [rewrite E by assumption|]; reflexivity.
Qed.
Lemma tab_zero : forall n, repeat (Some 0) n = tab n (fun _ => 0).
Proof.
  intro n. apply nth_error_ext. intro i. rewrite nth_tab. destruct (Nat.ltb_spec i n) as [L|L].
  - apply nth_error_repeat. exact L.
  - apply nth_error_None. rewrite repeat_length. exact L.
Qed.

Lemma tab_upd : forall n h z y, (0 <= z < Z.of_nat n)%Z ->
  upd (tab n h) (Z.to_nat z) (Some (h (Z.to_nat z) + y)) = tab n (fun i => h i + coeff (z =? Z.of_nat i)%Z * y).
Proof.
  intros n h z y Hz. apply nth_error_ext. intro i. rewrite nth_upd, !nth_tab, length_tab.
  destruct (Z.eqb_spec z (Z.of_nat i)) as [->|N].
  - rewrite Nat2Z.id, Nat.eqb_refl. destruct (Nat.ltb_spec i n); [|lia]. simpl. do 2 f_equal. ring.
  - assert ((Z.to_nat z =? i)%nat = false) as -> by (apply Nat.eqb_neq; lia). simpl. destruct (i <? n)%nat; [|reflexivity]. do 2 f_equal. ring.
Qed.

Lemma tab_at : forall n h z, (0 <= z < Z.of_nat n)%Z -> Fvtpf.at_ (tab n h) z = Ok (Some (h (Z.to_nat z))).
Proof.
  intros n h z Hz. unfold Fvtpf.at_. destruct (Z.ltb_spec z 0); [lia|]. unfold rd. rewrite nth_tab.
  destruct (Nat.ltb_spec (Z.to_nat z) n); [reflexivity|lia].
Qed.
Lemma tab_add : forall n h z y, (0 <= z < Z.of_nat n)%Z ->
  Fvtpf.add_at (tab n h) z (Some y) = Ok (tab n (fun i => h i + coeff (z =? Z.of_nat i)%Z * y)).
Proof.
  intros n h z y Hz. unfold Fvtpf.add_at. rewrite (tab_at n h z Hz). cbn [bind fl2]. rewrite wr_ok by (rewrite length_tab; lia).
  f_equal. apply (tab_upd n h z y Hz).
Qed.
Lemma tab_sub : forall n h z y, (0 <= z < Z.of_nat n)%Z ->
  Fvtpf.sub_at (tab n h) z (Some y) = Ok (tab n (fun i => h i - coeff (z =? Z.of_nat i)%Z * y)).
Proof.
  intros n h z y Hz. unfold Fvtpf.sub_at. rewrite (tab_at n h z Hz). cbn [bind fl2]. rewrite wr_ok by (rewrite length_tab; lia).
  f_equal. change (fl2 Rminus (Some (h (Z.to_nat z))) (Some y)) with (Some (h (Z.to_nat z) + - y)). rewrite (tab_upd n h z (- y) Hz). apply tab_ext. intros. ring.
Qed.

Lemma tab_loop : forall n (body : nat -> list fl -> outcome (list fl)) a N h,
  (forall k h, (k < N)%nat -> body k (tab n h) = Ok (tab n (fun i => h i + a k i))) ->
  for_ N body (tab n h) = Ok (tab n (fun i => h i + total (fun k => a k i) N)).
Proof.
  intros n body a N h Hb.
  destruct (for_inv (fun k s => s = tab n (fun i => h i + total (fun k => a k i) k)) body N (tab n h)) as [s' [E ->]].
  - apply tab_ext. intros. simpl. ring.
  - intros k s Hk ->. eexists. split; [apply Hb; exact Hk|]. apply tab_ext. intros. simpl. ring.
  - exact E.
Qed.

Lemma total_delta : forall w N i, total (fun k => coeff (Z.of_nat k =? Z.of_nat i)%Z * w k) N = if (i <? N)%nat then w i else 0.
Proof.
  intros w N i. induction N as [|N IH]; simpl total; [reflexivity|]. rewrite IH.
  destruct (Z.eqb_spec (Z.of_nat N) (Z.of_nat i)) as [E|E].
  - assert (N = i) as -> by lia. rewrite Nat.ltb_irrefl. replace (i <? S i)%nat with true by (symmetry; apply Nat.ltb_lt; lia). simpl. ring.
  - replace (i <? S N)%nat with (i <? N)%nat; [simpl; ring|]. destruct (Nat.ltb_spec i N), (Nat.ltb_spec i (S N)); try reflexivity; lia.
Qed.

(** ** One sub-face *)

Lemma side_ok : forall cs bs z N nb, length cs = N -> length bs = nb -> (- Z.of_nat nb <= z < Z.of_nat N)%Z ->
  (forall c, In c cs -> c_vis c <> 0) -> (forall b, In b bs -> b_vis b <> 0) ->
  exists s, side_at cs bs z = Ok s /\ at_side cs bs z s /\ vis s <> 0.
Proof.
  intros cs bs z N nb Lc Lb Hz Vc Vb. unfold side_at. destruct (Z.leb_spec 0 z) as [P|P].
  - destruct (nth_error cs (Z.to_nat z)) as [c|] eqn:E; [|apply nth_error_None in E; lia].
    exists (inl c). unfold Fvtpf.at_. destruct (Z.ltb_spec z 0); [lia|]. rewrite (rd_some _ _ _ E). split; [reflexivity|]. split; [split; assumption|].
    apply Vc. exact (nth_error_In _ _ E).
  - destruct (nth_error bs (Z.to_nat (- z - 1))) as [b|] eqn:E; [|apply nth_error_None in E; lia].
    exists (inr b). unfold Fvtpf.at_. destruct (Z.ltb_spec (- z - 1) 0); [lia|]. rewrite (rd_some _ _ _ E). split; [reflexivity|]. split; [split; assumption|].
    apply Vb. exact (nth_error_In _ _ E).
Qed.
Lemma at_side_det : forall cs bs z s s', at_side cs bs z s -> at_side cs bs z s' -> s = s'.
Proof. intros cs bs z [c|b] [c'|b'] [P E] [P' E']; try lia; congruence. Qed.
Lemma side_at_spec : forall cs bs z s, at_side cs bs z s -> side_at cs bs z = Ok s.
Proof.
  intros cs bs z [c|b] [P E]; unfold side_at.
  - destruct (Z.leb_spec 0 z); [|lia]. unfold Fvtpf.at_. destruct (Z.ltb_spec z 0); [lia|]. rewrite (rd_some _ _ _ E). reflexivity.
  - destruct (Z.leb_spec 0 z); [lia|]. unfold Fvtpf.at_. destruct (Z.ltb_spec (- z - 1) 0); [lia|]. rewrite (rd_some _ _ _ E). reflexivity.
Qed.

Definition the_flux (b : bctype) (Pref : R) (up dn : side) (TP G : R) : R :=
  let d := drive up dn TP G in
  let s := if Rlt_dec d 0 then up else dn in
  if blocked b Pref s then 0 else - mean_density up dn * mobility s * d.

Lemma blocked_spec : forall b Pref s, blocked b Pref s = true <-> dry_seepage b Pref s.
Proof.
  intros b Pref s. unfold dry_seepage. destruct b, s as [c|x]; simpl; try (split; [discriminate|intros [E F]; try discriminate E; contradiction]).
  destruct (Rle_dec (b_P x) Pref); split; auto; try discriminate. intros [_ F]; contradiction.
Qed.

Lemma fluxm_value : forall b Pref up dn TP G, vis up <> 0 -> vis dn <> 0 -> fluxm b Pref up dn TP G = Some (the_flux b Pref up dn TP G).
Proof.
  intros b Pref up dn TP G Vu Vd. unfold fluxm, the_flux, drive.
  assert (E : (0 + rho up + rho dn) * 0.5 = mean_density up dn).
  { unfold mean_density. destruct up, dn; simpl; lra. }
  rewrite E. set (den := mean_density up dn). set (s := if Rlt_dec (TP + den * G) 0 then up else dn).
  destruct (blocked b Pref s); [reflexivity|].
  assert (V : vis s <> 0) by (unfold s; destruct (Rlt_dec _ _); assumption).
  rewrite fdiv_ok by exact V. cbn [fbind]. f_equal.
  replace (mobility s) with (Kr s / vis s) by (destruct s; reflexivity). ring.
Qed.

Lemma valid_local_ok : forall m N z, length (rocks m) = N -> (z < Z.of_nat N)%Z -> valid_local m z = Ok (owned m z).
Proof.
  intros m N z L Hz. unfold valid_local, owned. destruct (Z.ltb_spec z 0) as [P|P].
  - destruct (Z.leb_spec 0 z); [lia|reflexivity].
  - destruct (Z.leb_spec 0 z); [|lia]. unfold local_cell. destruct (nth_error (rocks m) (Z.to_nat z)) as [k|] eqn:E; [|apply nth_error_None in E; lia].
    unfold Fvtpf.at_. destruct (Z.ltb_spec z 0); [lia|]. rewrite (rd_some _ _ _ E). reflexivity.
Qed.

Lemma owned_coeff : forall m z i, (if owned m z then coeff (z =? Z.of_nat i)%Z else 0) = if local_cell m i then coeff (z =? Z.of_nat i)%Z else 0.
Proof.
  intros m z i. unfold owned. destruct (Z.eqb_spec z (Z.of_nat i)) as [->|N].
  - rewrite Nat2Z.id. destruct (Z.leb_spec 0 (Z.of_nat i)); [reflexivity|lia].
  - destruct (_ && _), (local_cell m i); reflexivity.
Qed.

Section Residual.
Variables (m : mesh) (n N nb : nat) (cs : list cell) (bs : list bnd) (TP GD : list R).
Hypothesis GM : good_mesh m n N nb.
Hypothesis GS : good_state m N nb cs bs TP GD.

Lemma subface_ok : forall iv v j, nth_error (verts m) iv = Some v -> (j < length (x_faces v))%nat ->
  exists a s f up dn tp G, rd (x_faces v) j = Ok a /\ rd (x_subs v) j = Ok s /\ rd (faces m) a = Ok f
    /\ subface m iv j = Some (v, f, (a * 4 + s)%nat)
    /\ side_at cs bs (f_up f) = Ok up /\ side_at cs bs (f_dn f) = Ok dn
    /\ at_side cs bs (f_up f) up /\ at_side cs bs (f_dn f) dn /\ vis up <> 0 /\ vis dn <> 0
    /\ rd TP (a * 4 + s) = Ok tp /\ rd GD (a * 4 + s) = Ok G
    /\ (f_up f < Z.of_nat N)%Z /\ (f_dn f < Z.of_nat N)%Z.
Proof.
  intros iv v j Hv Hj. destruct GS as [Lc [Lb [Vc [Vb [LT LG]]]]].
  destruct (gm_vert _ _ _ _ GM v (nth_error_In _ _ Hv)) as [Ls [Fa Fs]].
  destruct (rd_ok (x_faces v) j Hj) as [a [Ra Ea]]. destruct (rd_ok (x_subs v) j) as [s [Rs Es]]; [lia|].
  pose proof (Fa a (nth_error_In _ _ Ea)) as Ha. pose proof (Fs s (nth_error_In _ _ Es)) as Hs.
  destruct (rd_ok (faces m) a Ha) as [f [Rf Ef]].
  destruct (gm_face _ _ _ _ GM f (nth_error_In _ _ Ef)) as [Hu Hd].
  destruct (side_ok cs bs (f_up f) N nb Lc Lb Hu Vc Vb) as [up [Eu [Au Vu]]].
  destruct (side_ok cs bs (f_dn f) N nb Lc Lb Hd Vc Vb) as [dn [Ed [Ad Vd]]].
  destruct (rd_ok TP (a * 4 + s)) as [tp [Rt _]]; [lia|]. destruct (rd_ok GD (a * 4 + s)) as [G [RG _]]; [lia|].
  exists a, s, f, up, dn, tp, G. unfold subface. rewrite Hv, Ea, Es, Ef.
  repeat (split; [first [assumption|reflexivity]|]). lia.
Qed.

Definition flux_of (iv j : nat) : R :=
  match subface m iv j with
  | Some (v, f, a) =>
      match side_at cs bs (f_up f), side_at cs bs (f_dn f), rd TP a, rd GD a with
      | Ok up, Ok dn, Ok tp, Ok G => the_flux (bc m) (Pref m) up dn tp G
      | _, _, _, _ => 0
      end
  | None => 0
  end.

Lemma flux_of_spec : is_flux m cs bs TP GD flux_of.
Proof.
  intros iv j v f a up dn tp G E A Au Ad Et EG d s. unfold flux_of. rewrite E, (side_at_spec _ _ _ _ Au), (side_at_spec _ _ _ _ Ad), (rd_some _ _ _ Et), (rd_some _ _ _ EG).
  unfold the_flux. fold d. fold s. destruct (blocked (bc m) (Pref m) s) eqn:B.
  - apply blocked_spec in B. split; [reflexivity|intro H; contradiction].
  - split; [|reflexivity]. intro H. apply blocked_spec in H. congruence.
Qed.

Lemma vertex_row_ok : forall iv v j h, nth_error (verts m) iv = Some v -> x_local v = true -> (j < length (x_faces v))%nat ->
  vertex_row m cs bs TP GD v j (tab n h) = Ok (tab n (fun i => h i + orientation m iv j i * flux_of iv j)).
Proof.
  intros iv v j h Hv Lv Hj.
  destruct (subface_ok iv v j Hv Hj) as [a [s [f [up [dn [tp [G [Ra [Rs [Rf [Es [Eu [Ed [Au [Ad [Vu [Vd [Rt [RG [Hu Hd]]]]]]]]]]]]]]]]]]]].
  unfold vertex_row. rewrite Ra. cbn [bind]. rewrite Rs. cbn [bind]. rewrite Rf. cbn [bind].
  unfold orientation, flux_of. rewrite Es. unfold active. rewrite Lv. cbn [andb].
  destruct (f_local f); cbn [negb andb].
  2:{ f_equal. apply tab_ext. intros. ring. }
  rewrite Rt. cbn [bind]. rewrite Eu. cbn [bind]. rewrite Ed. cbn [bind]. rewrite RG. cbn [bind]. cbv zeta.
  rewrite (fluxm_value _ _ _ _ _ _ Vu Vd). set (q := the_flux _ _ _ _ _ _).
  rewrite (valid_local_ok m N _ (gm_rocks _ _ _ _ GM) Hu). cbn [bind].
  assert (S1 : (if owned m (f_up f) then Fvtpf.add_at (tab n h) (f_up f) (Some q) else Ok (tab n h))
             = Ok (tab n (fun i => h i + (if local_cell m i then coeff (f_up f =? Z.of_nat i)%Z else 0) * q))).
  { destruct (owned m (f_up f)) eqn:O.
    - rewrite tab_add.
      + f_equal. apply tab_ext. intros i _. rewrite <- owned_coeff, O. reflexivity.
      + unfold owned in O. apply andb_true_iff in O. destruct O as [O1 O2]. apply Z.leb_le in O1. apply (gm_owned _ _ _ _ GM) in O2. lia.
    - f_equal. apply tab_ext. intros i _. rewrite <- owned_coeff, O. ring. }
  rewrite S1. cbn [bind].
  rewrite (valid_local_ok m N _ (gm_rocks _ _ _ _ GM) Hd). cbn [bind].
  destruct (owned m (f_dn f)) eqn:O.
  - rewrite tab_sub.
    + f_equal. apply tab_ext. intros i _. pose proof (owned_coeff m (f_dn f) i) as OC. rewrite O in OC. rewrite OC. destruct (local_cell m i); ring.
    + unfold owned in O. apply andb_true_iff in O. destruct O as [O1 O2]. apply Z.leb_le in O1. apply (gm_owned _ _ _ _ GM) in O2. lia.
  - f_equal. apply tab_ext. intros i _. pose proof (owned_coeff m (f_dn f) i) as OC. rewrite O in OC. destruct (local_cell m i); [rewrite <- OC|]; ring.
Qed.

Lemma vertices_ok : forall h,
  IFunction_Vertices m cs bs TP GD (tab n h) = Ok (tab n (fun i => h i + all_subfaces m (fun iv j => orientation m iv j i * flux_of iv j))).
Proof.
  intro h. unfold IFunction_Vertices, all_subfaces.
  apply (tab_loop n (vertex_rows m cs bs TP GD) (fun iv i => total (fun j => orientation m iv j i * flux_of iv j) (rows m iv))).
  clear h. intros iv h Hiv. unfold vertex_rows. destruct (rd_ok (verts m) iv Hiv) as [v [Rv Ev]]. rewrite Rv. cbn [bind].
  unfold rows. rewrite Ev. destruct (x_local v) eqn:Lv; cbn [negb].
  - apply (tab_loop n (vertex_row m cs bs TP GD v) (fun j i => orientation m iv j i * flux_of iv j)).
    intros j h' Hj. apply vertex_row_ok; assumption.
  - f_equal. apply tab_ext. intros i _. rewrite (total_ext _ (fun _ => 0)); [rewrite total_zero; ring|].
    intros j _. unfold orientation, subface. rewrite Ev. destruct (nth_error (x_faces v) j) as [a|]; [|ring].
    destruct (nth_error (x_subs v) j) as [s|]; [|ring]. destruct (nth_error (faces m) a) as [f|]; [|ring].
    unfold active. rewrite Lv. simpl. ring.
Qed.

(** A residual with per-cell terms [w]. *)
Lemma cells_ok : forall body (w : nat -> R) h,
  (forall k h, (k < N)%nat -> body k (tab n h) = Ok (tab n (fun i => h i + coeff (Z.of_nat k =? Z.of_nat i)%Z * w k))) ->
  (forall k, (N <= k)%nat -> w k = 0) ->
  for_ N body (tab n h) = Ok (tab n (fun i => h i + w i)).
Proof.
  intros body w h Hb Hw. rewrite (tab_loop n body (fun k i => coeff (Z.of_nat k =? Z.of_nat i)%Z * w k) N h Hb).
  f_equal. apply tab_ext. intros i _. rewrite total_delta. destruct (Nat.ltb_spec i N) as [L|L]; [reflexivity|]. rewrite (Hw i L). reflexivity.
Qed.

Lemma add_sub_ok : forall h k a b, local_cell m k = true ->
  bind (Fvtpf.add_at (tab n h) (Z.of_nat k) (Some a)) (fun r => Fvtpf.sub_at r (Z.of_nat k) (Some b)) =
  Ok (tab n (fun i => h i + coeff (Z.of_nat k =? Z.of_nat i)%Z * (a - b))).
Proof.
  intros h k a b L. pose proof (gm_owned _ _ _ _ GM k L) as Hk. rewrite tab_add by lia. cbn [bind]. rewrite tab_sub by lia.
  f_equal. apply tab_ext. intros. ring.
Qed.

Lemma ts_ok : forall dp_dt h, length dp_dt = n ->
  for_ N (ts_cell m cs dp_dt) (tab n h) =
  Ok (tab n (fun i => h i + term m cs (fun i c k => storage_rate c k (nth i dp_dt 0) - k_src k * k_vol k) i)).
Proof.
  intros dp_dt h Ld. destruct GS as [Lc _]. pose proof (gm_rocks _ _ _ _ GM) as Lr. apply cells_ok.
  - clear h. intros k h Hk. unfold ts_cell, term. destruct (rd_ok (rocks m) k) as [r [Rr Er]]; [lia|]. rewrite Rr, Er. cbn [bind].
    destruct (rd_ok cs k) as [c [Rc Ec]]; [lia|]. rewrite Ec.
    destruct (k_local r) eqn:L; cbn [negb]; [|f_equal; apply tab_ext; intros; ring].
    assert (LL : local_cell m k = true) by (unfold local_cell; rewrite Er; exact L).
    pose proof (gm_owned _ _ _ _ GM k LL) as Hn. rewrite Rc. cbn [bind]. destruct (rd_ok dp_dt k) as [d [Rd Ed]]; [lia|]. rewrite Rd. cbn [bind].
    rewrite (add_sub_ok h k _ _ LL). f_equal. apply tab_ext. intros i _. rewrite (nth_error_nth _ _ 0 Ed). unfold storage_rate, dmass_dP. ring.
  - intros k Hk. unfold term. replace (nth_error cs k) with (@None cell); [reflexivity|]. symmetry. apply nth_error_None. lia.
Qed.

Lemma tv_ok : forall dm_dt h, length dm_dt = n ->
  for_ N (tv_cell m dm_dt) (tab n h) =
  Ok (tab n (fun i => h i + term m cs (fun i c k => nth i dm_dt 0 * k_vol k - k_src k * k_vol k) i)).
Proof.
  intros dm_dt h Ld. destruct GS as [Lc _]. pose proof (gm_rocks _ _ _ _ GM) as Lr. apply cells_ok.
  - clear h. intros k h Hk. unfold tv_cell, term. destruct (rd_ok (rocks m) k) as [r [Rr Er]]; [lia|]. rewrite Rr, Er. cbn [bind].
    destruct (rd_ok cs k) as [c [Rc Ec]]; [lia|]. rewrite Ec.
    destruct (k_local r) eqn:L; cbn [negb]; [|f_equal; apply tab_ext; intros; ring].
    assert (LL : local_cell m k = true) by (unfold local_cell; rewrite Er; exact L).
    pose proof (gm_owned _ _ _ _ GM k LL) as Hn. destruct (rd_ok dm_dt k) as [d [Rd Ed]]; [lia|]. rewrite Rd. cbn [bind].
    rewrite (add_sub_ok h k _ _ LL). f_equal. apply tab_ext. intros i _. rewrite (nth_error_nth _ _ 0 Ed). ring.
  - intros k Hk. unfold term. replace (nth_error cs k) with (@None cell); [reflexivity|]. symmetry. apply nth_error_None. lia.
Qed.

Lemma snes_ok : forall dtime prev h, dtime <> 0 -> length prev = n ->
  for_ N (snes_cell m cs dtime (map Some prev)) (tab n h) =
  Ok (tab n (fun i => h i + term m cs (fun i c k => stored c k / dtime - nth i prev 0 - k_src k) i)).
Proof.
  intros dtime prev h Hd Lp. destruct GS as [Lc _]. pose proof (gm_rocks _ _ _ _ GM) as Lr. apply cells_ok.
  - clear h. intros k h Hk. unfold snes_cell, term. destruct (rd_ok (rocks m) k) as [r [Rr Er]]; [lia|]. rewrite Rr, Er. cbn [bind].
    destruct (rd_ok cs k) as [c [Rc Ec]]; [lia|]. rewrite Ec.
    destruct (k_local r) eqn:L; cbn [negb]; [|f_equal; apply tab_ext; intros; ring].
    assert (LL : local_cell m k = true) by (unfold local_cell; rewrite Er; exact L).
    pose proof (gm_owned _ _ _ _ GM k LL) as Hn. rewrite Rc. cbn [bind].
    destruct (rd_ok prev k) as [d [Rd Ed]]; [lia|]. unfold rd at 1. rewrite nth_error_map, Ed. cbn [option_map bind].
    unfold SNESAccumulation. rewrite fdiv_ok by exact Hd. unfold fl2. cbn [fbind option_map].
    rewrite (add_sub_ok h k _ _ LL). f_equal. apply tab_ext. intros i _. rewrite (nth_error_nth _ _ 0 Ed). unfold stored. ring.
  - intros k Hk. unfold term. replace (nth_error cs k) with (@None cell); [reflexivity|]. symmetry. apply nth_error_None. lia.
Qed.

Definition net_outflow (i : nat) : R := all_subfaces m (fun iv j => orientation m iv j i * flux_of iv j).

Lemma IFunction_ok : forall dp_dt, length dp_dt = n ->
  IFunction m cs bs TP GD dp_dt n =
  Ok (tab n (fun i => net_outflow i + term m cs (fun i c k => storage_rate c k (nth i dp_dt 0) - k_src k * k_vol k) i)).
Proof.
  intros dp_dt Ld. unfold IFunction. rewrite tab_zero, vertices_ok. cbn [bind]. rewrite (gm_rocks _ _ _ _ GM), (ts_ok dp_dt _ Ld).
  f_equal. apply tab_ext. intros. unfold net_outflow. ring.
Qed.
Lemma IFunction_TransientVariable_ok : forall dm_dt, length dm_dt = n ->
  IFunction_TransientVariable m cs bs TP GD dm_dt n =
  Ok (tab n (fun i => net_outflow i + term m cs (fun i c k => nth i dm_dt 0 * k_vol k - k_src k * k_vol k) i)).
Proof.
  intros dm_dt Ld. unfold IFunction_TransientVariable. rewrite tab_zero, vertices_ok. cbn [bind]. rewrite (gm_rocks _ _ _ _ GM), (tv_ok dm_dt _ Ld).
  f_equal. apply tab_ext. intros. unfold net_outflow. ring.
Qed.
Lemma SNESFunction_ok : forall dtime prev, dtime <> 0 -> length prev = n ->
  SNESFunction m cs bs TP GD dtime (map Some prev) n =
  Ok (tab n (fun i => net_outflow i + term m cs (fun i c k => stored c k / dtime - nth i prev 0 - k_src k) i)).
Proof.
  intros dtime prev Hd Lp. unfold SNESFunction. rewrite tab_zero, vertices_ok. cbn [bind]. rewrite (gm_rocks _ _ _ _ GM), (snes_ok dtime prev _ Hd Lp).
  f_equal. apply tab_ext. intros. unfold net_outflow. ring.
Qed.

(** ** Sum over the cells *)

Lemma total_orientation : forall iv j, total (fun i => orientation m iv j i) n = crossing m iv j.
Proof.
  intros iv j. unfold orientation, crossing. destruct (subface m iv j) as [[[v f] a]|]; [|apply total_zero].
  destruct (active v f); cbn [andb]; [|apply total_zero].
  assert (D : forall z, total (fun i => if local_cell m i then coeff (z =? Z.of_nat i)%Z else 0) n = coeff (owned m z)).
  { intro z. unfold owned. destruct (Z.leb_spec 0 z) as [P|P].
    - rewrite (total_ext _ (fun i => coeff (Z.of_nat i =? Z.of_nat (Z.to_nat z))%Z * coeff (local_cell m i))).
      + rewrite total_delta. cbn [andb]. destruct (Nat.ltb_spec (Z.to_nat z) n) as [L|L]; [reflexivity|].
        destruct (local_cell m (Z.to_nat z)) eqn:E; [|reflexivity]. apply (gm_owned _ _ _ _ GM) in E. lia.
      + intros i _. rewrite Z2Nat.id by exact P. rewrite (Z.eqb_sym (Z.of_nat i) z). destruct (local_cell m i); simpl; ring.
    - simpl. rewrite (total_ext _ (fun _ => 0)); [apply total_zero|]. intros i _. destruct (Z.eqb_spec z (Z.of_nat i)); [lia|]. destruct (local_cell m i); reflexivity. }
  rewrite (total_ext _ (fun i => (if local_cell m i then coeff (f_up f =? Z.of_nat i)%Z else 0) - (if local_cell m i then coeff (f_dn f =? Z.of_nat i)%Z else 0))).
  - rewrite total_minus, !D. reflexivity.
  - intros i _. destruct (local_cell m i); ring.
Qed.

Lemma total_net : total net_outflow n = all_subfaces m (fun iv j => crossing m iv j * flux_of iv j).
Proof.
  unfold net_outflow, all_subfaces. rewrite total_swap. apply total_ext. intros iv _. rewrite total_swap. apply total_ext. intros j _.
  rewrite <- total_orientation. rewrite <- total_scale. reflexivity.
Qed.
End Residual.
