(** Proofs about the steady system. *)
From Coq Require Import Reals ZArith List Bool Arith Lia Lra.
From Verif Require Import Prelude Arrays Mpfao MpfaoTs SpecFvtpf SpecMpfao SpecMpfaoTs FvtpfSumProofs MpfaoProofs Transmit SpecTransmit TransmitProofs Steady SpecSteady.
From Verif Require Fvtpf.
Import ListNotations.
Local Open Scope R_scope.

Lemma added_app : forall l l' r, added (l ++ l') r = added l r + added l' r.
Proof. induction l as [|e l IH]; intros l' r; simpl; [ring|]. rewrite IH. ring. Qed.
Lemma res_addK : forall s row col x P r, residual (addK s row col x) P r = residual s P r + (if (row =? r)%nat then x * P col else 0).
Proof. intros. unfold residual, addK. cbn [fst snd]. rewrite mult_app. cbn [mult]. ring. Qed.
Lemma res_addF : forall s row x P r, residual (addF s row x) P r = residual s P r - (if (row =? r)%nat then x else 0).
Proof. intros. unfold residual, addF. cbn [fst snd]. rewrite added_app. simpl. ring. Qed.

(** A loop each of whose steps adds something to the residual. *)
Lemma for_res : forall n (f : nat -> system -> outcome system) (h : nat -> (nat -> R) -> nat -> R) s,
  (forall i s, (i < n)%nat -> exists s', f i s = Ok s' /\ forall P r, residual s' P r = residual s P r + h i P r) ->
  exists s', for_ n f s = Ok s' /\ forall P r, residual s' P r = residual s P r + total (fun i => h i P r) n.
Proof.
  intros n f h s H.
  apply (for_inv (fun k s' => forall P r, residual s' P r = residual s P r + total (fun i => h i P r) k)).
  - intros. simpl. ring.
  - intros i t Hi IH. destruct (H i t Hi) as [t' [E Ht]]. exists t'. split; [exact E|]. intros. rewrite Ht, IH. simpl. ring.
Qed.
Lemma rd3_ok : forall T a b c i j k, dims T a b c -> (i < a)%nat -> (j < b)%nat -> (k < c)%nat -> rd3 T i j k = Ok (coefficient T i j k).
Proof.
  intros T a b c i j k [D1 D2] Hi Hj Hk. unfold rd3, coefficient.
  destruct (rd_ok T i) as [t [Et Nt]]; [lia|]. rewrite Et. cbn [bind]. destruct (D2 t (nth_error_In _ _ Nt)) as [D3 D4].
  destruct (rd_ok t j) as [w [Ew Nw]]; [lia|]. rewrite Ew. cbn [bind]. pose proof (D4 w (nth_error_In _ _ Nw)) as D5.
  destruct (rd_ok w k) as [y [Ey Ny]]; [lia|]. rewrite Ey.
  rewrite (nth_error_nth _ _ [] Nt), (nth_error_nth _ _ [] Nw), (nth_error_nth _ _ 0 Ny). reflexivity.
Qed.

Section SteadySystem.
Variables (p : steady) (ncv c : nat) (h : nat -> R).
Let M := s_mesh p.
Let m := t_mesh M.
Let N := length (rocks m).
Let T := s_T p.
Let nfv := s_nfv p.
Hypothesis G : good_tmesh M ncv nfv.
Hypothesis GS : good_steady p.
Hypothesis D : dims T (length (verts m)) nfv c.
Hypothesis Hc : forall iv v e, nth_error (verts m) iv = Some v -> nth_error (t_extra M) iv = Some e -> (length (x_cells v) + e_nbnd e <= c)%nat.
Hypothesis Hh : s_pressure p = Some h.
Hypothesis Hzero : forall iv v e, nth_error (verts m) iv = Some v -> nth_error (t_extra M) iv = Some e -> corner v e ->
  forall j k, coefficient T iv j k = 0.

(** 1 when [z] is an owned cell with global number [r]. *)
Definition here (z : Z) (r : nat) : R := coeff (owned m z && (nth (Z.to_nat z) (s_gid p) O =? r)%nat).

Lemma cell_of_ok : forall z, (0 <= z < Z.of_nat N)%Z -> cell_of p z = Ok (owned m z, nth (Z.to_nat z) (s_gid p) O).
Proof.
  intros z Hz. unfold cell_of, Fvtpf.at_. fold M. fold m. destruct (Z.ltb_spec z 0); [lia|].
  destruct (rd_ok (rocks m) (Z.to_nat z)) as [k [Ek Nk]]; [unfold N in Hz; lia|]. rewrite Ek. cbn [bind].
  destruct (rd_ok (s_gid p) (Z.to_nat z)) as [g [Eg Ng]]; [rewrite (gs_gid p GS); fold M; fold m; unfold N in Hz; lia|]. rewrite Eg. cbn [bind].
  unfold owned, local_cell. rewrite Nk. destruct (Z.leb_spec 0 z); [|lia]. cbn [andb]. rewrite (nth_error_nth _ _ O Ng). reflexivity.
Qed.
Lemma cell_if_ok : forall z, (z < Z.of_nat N)%Z -> exists g, cell_if p z = Ok (owned m z, g) /\ forall r, here z r = coeff (owned m z && (g =? r)%nat).
Proof.
  intros z Hz. unfold cell_if. destruct (Z.ltb_spec z 0).
  - exists 0%nat. unfold here, owned. destruct (Z.leb_spec 0 z); [lia|]. split; reflexivity.
  - exists (nth (Z.to_nat z) (s_gid p) O). split; [apply cell_of_ok; lia|reflexivity].
Qed.
Lemma column_ok : forall v icol, In v (verts m) -> (icol < length (x_cells v))%nat ->
  column_id p v icol = Ok (nth (nth icol (x_cells v) O) (s_gid p) O) /\ (nth icol (x_cells v) O < N)%nat.
Proof.
  intros v icol Hv Hi. unfold column_id. destruct (rd_ok (x_cells v) icol Hi) as [k [Ek Nk]]. rewrite Ek. cbn [bind].
  pose proof (gt_cells M ncv nfv G v k Hv (nth_error_In _ _ Nk)) as Hk. fold m in Hk. fold N in Hk. rewrite (nth_error_nth _ _ O Nk). split; [|exact Hk].
  destruct (rd_ok (s_gid p) k) as [g [Eg Ng]]; [rewrite (gs_gid p GS); exact Hk|]. rewrite Eg, (nth_error_nth _ _ O Ng). reflexivity.
Qed.
Lemma face_ok : forall v j, In v (verts m) -> (j < length (x_faces v))%nat -> exists a f, rd (x_faces v) j = Ok a /\ rd (faces m) a = Ok f /\
  In f (faces m) /\ nth_error (x_faces v) j = Some a /\ nth_error (faces m) a = Some f.
Proof.
  intros v j Hv Hj. destruct (rd_ok (x_faces v) j Hj) as [a [Ea Na]]. destruct (gt_faces M ncv nfv G v Hv) as [_ Hf].
  destruct (rd_ok (faces m) a (Hf a (nth_error_In _ _ Na))) as [f [Ef Nf]]. exists a, f. repeat split; try assumption. eapply nth_error_In; exact Nf.
Qed.
Lemma face_subface : forall iv v j a f, nth_error (verts m) iv = Some v -> nth_error (x_faces v) j = Some a -> nth_error (faces m) a = Some f ->
  exists q, subface m iv j = Some (v, f, q).
Proof.
  intros iv v j a f Ev Ha Hf. destruct (gt_faces M ncv nfv G v (nth_error_In _ _ Ev)) as [Hl _].
  destruct (nth_error (x_subs v) j) as [s|] eqn:Es; [|apply nth_error_None in Es; apply nth_lt in Ha; lia].
  exists (a * 4 + s)%nat. unfold subface. rewrite Ev, Ha, Es, Hf. reflexivity.
Qed.

(** The part of the row of the cells. *)
Definition cell_part (iv : nat) (v : vert) (j : nat) (P : nat -> R) : R :=
  total (fun q => coefficient T iv j q * P (nth (nth q (x_cells v) O) (s_gid p) O)) (length (x_cells v)).
Definition bnd_part (iv : nat) (v : vert) (e : extra) (j : nat) : R :=
  total (fun d => coefficient T iv j (length (x_cells v) + d) * h (nth d (map sf_bnd (outer_faces e Pressure)) O)) (length (outer_faces e Pressure)).
Definition face_sides (v : vert) (j : nat) (r : nat) : R :=
  match nth_error (x_faces v) j with
  | Some a => match nth_error (faces m) a with Some f => here (f_up f) r - here (f_dn f) r | None => 0 end
  | None => 0
  end.

Lemma internal_ok : forall iv v e j s, nth_error (verts m) iv = Some v -> nth_error (t_extra M) iv = Some e -> e_nbnd e = O -> (j < length (x_faces v))%nat ->
  exists s', internal_row p iv v j s = Ok s' /\ forall P r, residual s' P r = residual s P r + face_sides v j r * - cell_part iv v j P.
Proof.
  intros iv v e j s Ev Ee Hnb Hj. pose proof (nth_error_In _ _ Ev) as Hv. destruct (face_ok v j Hv Hj) as [a [f [Ea [Ef [Hf [Na Nf]]]]]].
  destruct (face_subface iv v j a f Ev Na Nf) as [q Hs].
  assert (Hin : (0 <= f_up f)%Z /\ (0 <= f_dn f)%Z).
  { pose proof (gt_order M ncv nfv G iv v e j f q Ee Hs) as Ho. rewrite Hnb in Ho. lia. }
  destruct (gs_faces p GS f Hf) as [F1 F2]. fold M in F1, F2. fold m in F1, F2. fold N in F1, F2.
  unfold internal_row. rewrite Ea. cbn [bind]. fold M. fold m. rewrite Ef. cbn [bind].
  destruct (for_res (length (x_cells v)) (fun icol s =>
    do col <- column_id p v icol; do t <- rd3 (s_T p) iv j icol; let value := - t in do up <- cell_of p (f_up f);
    let s := if fst up then addK s (snd up) col value else s in do dn <- cell_of p (f_dn f);
    Ok (if fst dn then addK s (snd dn) col (- value) else s))
    (fun icol P r => (here (f_up f) r - here (f_dn f) r) * - (coefficient T iv j icol * P (nth (nth icol (x_cells v) O) (s_gid p) O))) s) as [s' [E H]].
  - intros i t Hi. destruct (column_ok v i Hv Hi) as [Ec _]. rewrite Ec. cbn [bind].
    fold T. rewrite (rd3_ok T _ _ _ iv j i D (nth_lt _ _ _ Ev)); [|destruct (gt_max M ncv nfv G v Hv); lia|pose proof (Hc iv v e Ev Ee); lia]. cbn [bind]. cbv zeta.
    rewrite !cell_of_ok by lia. cbn [bind fst snd]. eexists. split; [reflexivity|]. intros P r. unfold here, coeff.
    destruct (owned m (f_up f)), (owned m (f_dn f)); rewrite ?res_addK; cbn [andb];
      repeat match goal with |- context [(?u =? r)%nat] => destruct (u =? r)%nat end; ring.
  - exists s'. split; [exact E|]. intros P r. rewrite H. f_equal. unfold face_sides. rewrite Na, Nf. unfold cell_part.
    rewrite total_scale_l, total_opp. reflexivity.
Qed.

Lemma side_ok : forall iv v e pB j sign u s, nth_error (verts m) iv = Some v -> nth_error (t_extra M) iv = Some e -> (j < length (x_faces v))%nat ->
  length (outer_faces e Pressure) = e_nbnd e -> pB = map (fun f => h (sf_bnd f)) (outer_faces e Pressure) ->
  exists s', shared_side p iv v (e_nbnd e) pB j sign u s = Ok s' /\
  forall P r, residual s' P r = residual s P r + sign * coeff (fst u && (snd u =? r)%nat) * - (cell_part iv v j P + bnd_part iv v e j).
Proof.
  intros iv v e pB j sign u s Ev Ee Hj Hl HpB. pose proof (nth_error_In _ _ Ev) as Hv. unfold shared_side. destruct (fst u) eqn:Hu; cbn [negb].
  2: { exists s. split; [reflexivity|]. intros. simpl. unfold coeff. ring. }
  assert (Hjb : (j < nfv)%nat) by (destruct (gt_max M ncv nfv G v Hv); lia). pose proof (Hc iv v e Ev Ee) as Hw.
  destruct (for_res (length (x_cells v)) (fun icol s => do col <- column_id p v icol; do t <- rd3 (s_T p) iv j icol; Ok (addK s (snd u) col (sign * - t)))
    (fun icol P r => (sign * coeff (snd u =? r)%nat) * - (coefficient T iv j icol * P (nth (nth icol (x_cells v) O) (s_gid p) O))) s) as [s1 [E1 H1]].
  { intros i t Hi. destruct (column_ok v i Hv Hi) as [Ec _]. rewrite Ec. cbn [bind]. fold T.
    rewrite (rd3_ok T _ _ _ iv j i D (nth_lt _ _ _ Ev) Hjb) by lia. cbn [bind]. eexists. split; [reflexivity|].
    intros P r. rewrite res_addK. unfold coeff. destruct (snd u =? r)%nat; ring. }
  rewrite E1. cbn [bind].
  destruct (for_res (e_nbnd e) (fun icol s => do t <- rd3 (s_T p) iv j (icol + length (x_cells v)); do pb <- rd pB icol; Ok (addF s (snd u) (- sign * (- t * pb))))
    (fun icol P r => (sign * coeff (snd u =? r)%nat) * - (coefficient T iv j (length (x_cells v) + icol) * h (nth icol (map sf_bnd (outer_faces e Pressure)) O))) s1) as [s2 [E2 H2]].
  { intros i t Hi. fold T. rewrite (rd3_ok T _ _ _ iv j _ D (nth_lt _ _ _ Ev) Hjb) by lia. cbn [bind].
    destruct (nth_error (outer_faces e Pressure) i) as [g|] eqn:Eg; [|apply nth_error_None in Eg; lia].
    assert (Hb : rd pB i = Ok (h (sf_bnd g))) by (apply rd_some; rewrite HpB, nth_error_map, Eg; reflexivity). rewrite Hb. cbn [bind].
    eexists. split; [reflexivity|]. intros P r. rewrite res_addF.
    assert (Hn : nth i (map sf_bnd (outer_faces e Pressure)) O = sf_bnd g) by (apply nth_error_nth; rewrite nth_error_map, Eg; reflexivity).
    rewrite Hn, (Nat.add_comm i). unfold coeff. destruct (snd u =? r)%nat; ring. }
  exists s2. split; [exact E2|]. intros P r. rewrite H2, H1, !total_scale_l, !total_opp. unfold cell_part, bnd_part. rewrite Hl. cbn [andb]. ring.
Qed.

Definition vertex_res (iv : nat) (v : vert) (e : extra) (P : nat -> R) (r : nat) : R :=
  total (fun j => face_sides v j r * - (cell_part iv v j P + bnd_part iv v e j)) (length (x_faces v)).

Lemma bounded_ok : forall v e iv, nth_error (verts m) iv = Some v -> nth_error (t_extra M) iv = Some e -> ~ corner v e ->
  length (outer_faces e Pressure) = e_nbnd e /\ (e_nbnd e <= length (x_faces v))%nat.
Proof.
  intros v e iv Ev Ee Hn. pose proof (gt_numbered M ncv nfv G iv v e Pressure Ev Ee Hn) as W.
  pose proof (wn_bnd _ W) as B. pose proof (wn_faces _ W) as F. cbn [v_nbnd v_nfaces vertex_of] in B, F. split; [symmetry; exact B|lia].
Qed.
Lemma face_sides_at : forall v j a f r, nth_error (x_faces v) j = Some a -> nth_error (faces m) a = Some f -> face_sides v j r = here (f_up f) r - here (f_dn f) r.
Proof. intros v j a f r Ha Hf. unfold face_sides. rewrite Ha, Hf. reflexivity. Qed.

Lemma shared_ok : forall iv v e s, nth_error (verts m) iv = Some v -> nth_error (t_extra M) iv = Some e -> ~ corner v e -> e_nbnd e <> O ->
  exists s', shared_vertex p iv v e s = Ok s' /\ forall P r, residual s' P r = residual s P r + vertex_res iv v e P r.
Proof.
  intros iv v e s Ev Ee Hn Hnb. pose proof (nth_error_In _ _ Ev) as Hv. destruct (bounded_ok v e iv Ev Ee Hn) as [Hl Hle].
  unfold shared_vertex. cbv zeta.
  assert (HpB : boundary_pressures p (boundary_faces (vertex_of v e Pressure)) = Ok (map (fun f => h (sf_bnd f)) (outer_faces e Pressure))).
  { change (boundary_faces (vertex_of v e Pressure)) with (outer_faces e Pressure). unfold boundary_pressures. rewrite Hh.
    destruct (outer_faces e Pressure) as [|g gs] eqn:Eo; [simpl in Hl; lia|]. rewrite Hl.
    destruct (gt_max M ncv nfv G v Hv) as [Hm _]. destruct (Nat.leb_spec (e_nbnd e) (s_nfv p)) as [_|K]; [reflexivity|]. unfold nfv in Hm. lia. }
  rewrite HpB. cbn [bind]. set (pB := map (fun f => h (sf_bnd f)) (outer_faces e Pressure)) in *. set (n0 := (length (x_faces v) - e_nbnd e)%nat).
  fold M. fold m.
  destruct (for_res n0 (fun irow s => do face_id <- rd (x_faces v) irow; do f <- rd (faces m) face_id; do up <- cell_of p (f_up f);
    do s <- shared_side p iv v (e_nbnd e) pB irow 1 up s; do dn <- cell_of p (f_dn f); shared_side p iv v (e_nbnd e) pB irow (-1) dn s)
    (fun j P r => face_sides v j r * - (cell_part iv v j P + bnd_part iv v e j)) s) as [s1 [E1 H1]].
  { intros j t Hj. destruct (face_ok v j Hv) as [a [f [Ea [Ef [Hf [Na Nf]]]]]]; [unfold n0 in Hj; lia|]. rewrite Ea. cbn [bind]. rewrite Ef. cbn [bind].
    destruct (face_subface iv v j a f Ev Na Nf) as [q Hs].
    assert (Hin : (0 <= f_up f)%Z /\ (0 <= f_dn f)%Z).
    { pose proof (gt_order M ncv nfv G iv v e j f q Ee Hs) as Ho. unfold n0 in Hj. lia. }
    destruct (gs_faces p GS f Hf) as [F1 F2]. fold M in F1, F2. fold m in F1, F2. fold N in F1, F2.
    rewrite cell_of_ok by lia. cbn [bind].
    destruct (side_ok iv v e pB j 1 (owned m (f_up f), nth (Z.to_nat (f_up f)) (s_gid p) O) t Ev Ee) as [t1 [T1 R1]]; auto; [unfold n0 in Hj; lia|]. rewrite T1. cbn [bind].
    rewrite cell_of_ok by lia. cbn [bind].
    destruct (side_ok iv v e pB j (-1) (owned m (f_dn f), nth (Z.to_nat (f_dn f)) (s_gid p) O) t1 Ev Ee) as [t2 [T2 R2]]; auto; [unfold n0 in Hj; lia|].
    exists t2. split; [exact T2|]. intros P r. rewrite R2, R1, (face_sides_at v j a f r Na Nf). cbn [fst snd]. unfold here. ring. }
  rewrite E1. cbn [bind].
  destruct (for_res (e_nbnd e) (fun irow s => do face_id <- rd (x_faces v) (irow + n0); do f <- rd (faces m) face_id; do up <- cell_if p (f_up f);
    do s <- shared_side p iv v (e_nbnd e) pB (irow + n0) 1 up s; do dn <- cell_if p (f_dn f); shared_side p iv v (e_nbnd e) pB (irow + n0) (-1) dn s)
    (fun i P r => face_sides v (n0 + i) r * - (cell_part iv v (n0 + i) P + bnd_part iv v e (n0 + i))) s1) as [s2 [E2 H2]].
  { intros i t Hi. rewrite (Nat.add_comm i). set (j := (n0 + i)%nat). assert (Hj : (j < length (x_faces v))%nat) by (unfold j, n0; lia).
    destruct (face_ok v j Hv Hj) as [a [f [Ea [Ef [Hf [Na Nf]]]]]]. rewrite Ea. cbn [bind]. rewrite Ef. cbn [bind].
    destruct (gs_faces p GS f Hf) as [F1 F2]. fold M in F1, F2. fold m in F1, F2. fold N in F1, F2.
    destruct (cell_if_ok (f_up f) F1) as [g1 [U1 X1]]. rewrite U1. cbn [bind].
    destruct (side_ok iv v e pB j 1 (owned m (f_up f), g1) t Ev Ee) as [t1 [T1 R1]]; auto. rewrite T1. cbn [bind].
    destruct (cell_if_ok (f_dn f) F2) as [g2 [U2 X2]]. rewrite U2. cbn [bind].
    destruct (side_ok iv v e pB j (-1) (owned m (f_dn f), g2) t1 Ev Ee) as [t2 [T2 R2]]; auto.
    exists t2. split; [exact T2|]. intros P r. rewrite R2, R1, (face_sides_at v j a f r Na Nf). cbn [fst snd]. rewrite X1, X2. ring. }
  exists s2. split; [exact E2|]. intros P r. rewrite H2, H1. unfold vertex_res. replace (length (x_faces v)) with (n0 + e_nbnd e)%nat by (unfold n0; lia).
  rewrite total_app. ring.
Qed.

Lemma corner_zero : forall iv v e s, nth_error (verts m) iv = Some v -> nth_error (t_extra M) iv = Some e -> corner v e ->
  exists s', corner_vertex p iv v e s = Ok s' /\ forall P r, residual s' P r = residual s P r.
Proof.
  intros iv v e s Ev Ee Hcn. pose proof (nth_error_In _ _ Ev) as Hv. pose proof (Hzero iv v e Ev Ee Hcn) as HZ.
  destruct (gt_corner M ncv nfv G iv v e Ev Ee Hcn) as [Hnb [Lf [Lc [Ls [Nf [Ns [Hin [Hsub _]]]]]]]].
  destruct (Hsub Pressure) as [sub [Esub _]]. destruct (x_cells v) as [|cell [|]] eqn:Ecell; try discriminate.
  assert (Hcl : (cell < N)%nat) by (apply (gt_cells M ncv nfv G v cell Hv); rewrite Ecell; left; reflexivity).
  assert (H3 : (3 <= nfv)%nat) by (destruct (gt_max M ncv nfv G v Hv); lia).
  assert (H4 : (4 <= c)%nat) by (pose proof (Hc iv v e Ev Ee) as K; rewrite Ecell, Hnb in K; simpl in K; lia).
  unfold corner_vertex. rewrite Ecell, Esub. cbn [rd nth_error bind].
  assert (HpB : boundary_pressures p (sfaces sub) = Ok (map (fun f => h (sf_bnd f)) (sfaces sub))).
  { destruct sub as [[g0 g1] g2]. unfold boundary_pressures. cbn [sfaces]. rewrite Hh. cbn [length]. destruct (Nat.leb_spec 3 (s_nfv p)) as [_|K]; [reflexivity|]. unfold nfv in H3. lia. }
  rewrite HpB. cbn [bind]. fold M. fold m. fold T.
  assert (Hface : forall i, (i < 3)%nat -> exists a f, rd (e_sfaces e) i = Ok a /\ rd (faces m) a = Ok f /\ In f (faces m)).
  { intros i Hi. destruct (rd_ok (e_sfaces e) i) as [a [Ea Na]]; [lia|]. exists a. destruct (gt_faces M ncv nfv G v Hv) as [_ Hf].
    destruct (rd_ok (faces m) a) as [f [Ef Nff]]; [apply Hf; apply Hin; eapply nth_error_In; exact Na|]. exists f. repeat split; try assumption. eapply nth_error_In; exact Nff. }
  assert (Hrd : forall i k, (i < 3)%nat -> (k < 4)%nat -> rd3 T iv i k = Ok 0).
  { intros i k Hi Hk. rewrite (rd3_ok T _ _ _ iv i k D (nth_lt _ _ _ Ev)) by lia. rewrite HZ. reflexivity. }
  match goal with |- exists s', bind (for_ 3 ?f1 s) _ = _ /\ _ => destruct (for_res 3 f1 (fun _ _ _ => 0) s) as [s1 [E1 H1]] end.
  { intros i t Hi. destruct (Hface i Hi) as [a [f [Ea [Ef Hf]]]]. rewrite Ea. cbn [bind]. rewrite Ef. cbn [bind]. rewrite !Hrd by lia. cbn [bind].
    rewrite cell_of_ok by lia. cbn [bind fst snd]. eexists. split; [reflexivity|]. intros P r. destruct (owned m (Z.of_nat cell)); [|ring].
    rewrite res_addK. destruct (_ =? r)%nat; ring. }
  rewrite E1. cbn [bind].
  match goal with |- exists s', for_ 3 ?f1 s1 = _ /\ _ => destruct (for_res 3 f1 (fun _ _ _ => 0) s1) as [s2 [E2 H2]] end.
  { intros i t Hi. destruct (Hface i Hi) as [a [f [Ea [Ef Hf]]]]. rewrite Ea. cbn [bind]. rewrite Ef. cbn [bind].
    destruct (gs_faces p GS f Hf) as [F1 F2]. fold M in F1, F2. fold m in F1, F2. fold N in F1, F2.
    destruct (cell_if_ok (f_up f) F1) as [g1 [U1 _]]. rewrite U1. cbn [bind fst snd].
    assert (Hloop : forall (w : R -> R -> R) g t, (forall pb, w 0 pb = 0) -> exists t', for_ (e_nbnd e) (fun icol s => do t <- rd3 T iv i icol; do pb <- rd (map (fun f => h (sf_bnd f)) (sfaces sub)) icol; Ok (addF s g (w t pb))) t = Ok t' /\
      forall P r, residual t' P r = residual t P r).
    { intros w g t0 Hw. destruct (for_res (e_nbnd e) (fun icol s => do t <- rd3 T iv i icol; do pb <- rd (map (fun f => h (sf_bnd f)) (sfaces sub)) icol; Ok (addF s g (w t pb))) (fun _ _ _ => 0) t0) as [t' [Et Ht]].
      - intros k t1 Hk. rewrite Hrd by lia. cbn [bind]. destruct (rd_ok (map (fun f => h (sf_bnd f)) (sfaces sub)) k) as [pb [Epb _]]; [rewrite map_length; destruct sub as [[? ?] ?]; simpl; lia|].
        rewrite Epb. cbn [bind]. eexists. split; [reflexivity|]. intros. rewrite res_addF, Hw. destruct (_ =? _)%nat; ring.
      - exists t'. split; [exact Et|]. intros. rewrite Ht, total_zero. ring. }
    assert (A1 : exists t1, (if owned m (f_up f) then for_ (e_nbnd e) (fun icol s => do t <- rd3 T iv i icol; do pb <- rd (map (fun f => h (sf_bnd f)) (sfaces sub)) icol; Ok (addF s g1 (- t * pb))) t else Ok t) = Ok t1 /\ forall P r, residual t1 P r = residual t P r).
    { destruct (owned m (f_up f)); [apply (Hloop (fun t pb => - t * pb)); intros; ring|exists t; split; reflexivity]. }
    destruct A1 as [t1 [T1 R1]]. rewrite T1. cbn [bind].
    destruct (cell_if_ok (f_dn f) F2) as [g2 [U2 _]]. rewrite U2. cbn [bind fst snd].
    destruct (owned m (f_dn f)).
    - destruct (Hloop (fun t pb => - (- t * pb)) g2 t1) as [t2 [T2 R2]]; [intros; ring|]. exists t2. split; [exact T2|]. intros. rewrite R2, R1. ring.
    - exists t1. split; [reflexivity|]. intros. rewrite R1. ring. }
  exists s2. split; [exact E2|]. intros. rewrite H2, H1, !total_zero. ring.
Qed.

(** All vertices. *)
Definition vres (iv : nat) (P : nat -> R) (r : nat) : R :=
  match nth_error (verts m) iv, nth_error (t_extra M) iv with Some v, Some e => vertex_res iv v e P r | _, _ => 0 end.
Definition kind (iv : nat) : nat :=
  match nth_error (verts m) iv, nth_error (t_extra M) iv with
  | Some v, Some e => if (e_nbnd e =? 0)%nat then 0%nat else if (1 <? length (x_cells v))%nat then 1%nat else 2%nat
  | _, _ => 3%nat
  end.
Lemma vertex_extra : forall iv, (iv < length (verts m))%nat -> exists v e, rd (verts m) iv = Ok v /\ rd (t_extra M) iv = Ok e /\
  nth_error (verts m) iv = Some v /\ nth_error (t_extra M) iv = Some e.
Proof.
  intros iv Hi. destruct (rd_ok (verts m) iv Hi) as [v [Rv Ev]]. destruct (rd_ok (t_extra M) iv) as [e [Re Ee]]; [rewrite (gt_extra M ncv nfv G); exact Hi|].
  exists v, e. auto.
Qed.
Lemma here_zero : forall iv v j a f, nth_error (verts m) iv = Some v -> nth_error (x_faces v) j = Some a -> nth_error (faces m) a = Some f -> x_local v = false ->
  forall r, here (f_up f) r = 0 /\ here (f_dn f) r = 0.
Proof.
  intros iv v j a f Ev Na Nf Hl r. destruct (face_subface iv v j a f Ev Na Nf) as [q Hs].
  pose proof (gs_flags p GS iv j v f q Hs) as Hfl. unfold active in Hfl. rewrite Hl in Hfl. cbn [andb] in Hfl. fold M in Hfl. fold m in Hfl.
  unfold here. split.
  - destruct (owned m (f_up f)) eqn:E; [|reflexivity]. discriminate Hfl. auto.
  - destruct (owned m (f_dn f)) eqn:E; [|reflexivity]. discriminate Hfl. auto.
Qed.
Lemma nonlocal_zero : forall iv v e P r, nth_error (verts m) iv = Some v -> x_local v = false -> vertex_res iv v e P r = 0.
Proof.
  intros iv v e P r Ev Hl. unfold vertex_res. transitivity (total (fun _ => 0) (length (x_faces v))); [|apply total_zero]. apply total_ext. intros j Hj.
  destruct (face_ok v j (nth_error_In _ _ Ev) Hj) as [a [f [_ [_ [_ [Na Nf]]]]]]. rewrite (face_sides_at v j a f r Na Nf).
  destruct (here_zero iv v j a f Ev Na Nf Hl r) as [-> ->]. ring.
Qed.
Lemma corner_res : forall iv v e P r, nth_error (verts m) iv = Some v -> nth_error (t_extra M) iv = Some e -> corner v e -> vertex_res iv v e P r = 0.
Proof.
  intros iv v e P r Ev Ee Hcn. unfold vertex_res. transitivity (total (fun _ => 0) (length (x_faces v))); [|apply total_zero]. apply total_ext. intros j _.
  unfold cell_part, bnd_part. pose proof (Hzero iv v e Ev Ee Hcn) as HZ.
  assert (Z1 : total (fun q => coefficient T iv j q * P (nth (nth q (x_cells v) O) (s_gid p) O)) (length (x_cells v)) = 0).
  { transitivity (total (fun _ => 0) (length (x_cells v))); [|apply total_zero]. apply total_ext. intros q _. rewrite HZ. ring. }
  assert (Z2 : total (fun d => coefficient T iv j (length (x_cells v) + d) * h (nth d (map sf_bnd (outer_faces e Pressure)) O)) (length (outer_faces e Pressure)) = 0).
  { transitivity (total (fun _ => 0) (length (outer_faces e Pressure))); [|apply total_zero]. apply total_ext. intros q _. rewrite HZ. ring. }
  rewrite Z1, Z2. ring.
Qed.

Lemma internal_all : forall s, exists s', InternalVertices p s = Ok s' /\
  forall P r, residual s' P r = residual s P r + total (fun iv => if (kind iv =? 0)%nat then vres iv P r else 0) (length (verts m)).
Proof.
  intros s. apply for_res. intros iv t Hi. destruct (vertex_extra iv Hi) as [v [e [Rv [Re [Ev Ee]]]]]. fold M. fold m. rewrite Rv, Re. cbn [bind].
  unfold kind, vres. rewrite Ev, Ee. destruct (Nat.eqb_spec (e_nbnd e) 0) as [Hnb|Hnb].
  - cbn [Nat.eqb].
    destruct (for_res (length (x_faces v)) (internal_row p iv v) (fun j P r => face_sides v j r * - (cell_part iv v j P + bnd_part iv v e j)) t) as [t' [Et Ht]].
    + intros j t1 Hj. destruct (internal_ok iv v e j t1 Ev Ee Hnb Hj) as [t2 [E2 H2]]. exists t2. split; [exact E2|]. intros P r. rewrite H2.
      assert (Hz : bnd_part iv v e j = 0).
      { unfold bnd_part. destruct (bounded_ok v e iv Ev Ee) as [Hl _]; [intros [K _]; contradiction|]. rewrite Hl, Hnb. reflexivity. }
      rewrite Hz. ring.
    + exists t'. split; [exact Et|]. exact Ht.
  - exists t. split; [reflexivity|]. intros. destruct (1 <? length (x_cells v))%nat; cbn [Nat.eqb]; ring.
Qed.
Lemma shared_all : forall s, exists s', SharedVertices p s = Ok s' /\
  forall P r, residual s' P r = residual s P r + total (fun iv => if (kind iv =? 1)%nat then vres iv P r else 0) (length (verts m)).
Proof.
  intros s. apply for_res. intros iv t Hi. destruct (vertex_extra iv Hi) as [v [e [Rv [Re [Ev Ee]]]]]. fold M. fold m. rewrite Rv, Re. cbn [bind].
  unfold kind, vres. rewrite Ev, Ee. destruct (Nat.eqb_spec (e_nbnd e) 0) as [Hnb|Hnb]; cbn [orb].
  { exists t. split; [reflexivity|]. intros. cbn [Nat.eqb]. ring. }
  destruct (Nat.ltb_spec (length (x_cells v)) 2), (Nat.ltb_spec 1 (length (x_cells v))); try lia; cbn [orb Nat.eqb].
  - exists t. split; [reflexivity|]. intros. ring.
  - destruct (x_local v) eqn:Hl; cbn [negb].
    + apply shared_ok; try assumption. intros [_ K]. lia.
    + exists t. split; [reflexivity|]. intros. rewrite (nonlocal_zero iv v e P r Ev Hl). ring.
Qed.
Lemma corner_all : forall s, exists s', CornerVertices p s = Ok s' /\
  forall P r, residual s' P r = residual s P r + total (fun iv => if (kind iv =? 2)%nat then vres iv P r else 0) (length (verts m)).
Proof.
  intros s. apply for_res. intros iv t Hi. destruct (vertex_extra iv Hi) as [v [e [Rv [Re [Ev Ee]]]]]. fold M. fold m. rewrite Rv, Re. cbn [bind].
  unfold kind, vres. rewrite Ev, Ee. destruct (Nat.eqb_spec (e_nbnd e) 0) as [Hnb|Hnb]; cbn [orb].
  { exists t. split; [reflexivity|]. intros. cbn [Nat.eqb]. ring. }
  destruct (Nat.ltb_spec 1 (length (x_cells v))); cbn [Nat.eqb].
  - exists t. split; [reflexivity|]. intros. ring.
  - assert (Hcn : corner v e) by (split; [exact Hnb|lia]). destruct (corner_zero iv v e t Ev Ee Hcn) as [t' [Et Ht]].
    exists t'. split; [exact Et|]. intros. rewrite Ht, (corner_res iv v e P r Ev Ee Hcn). ring.
Qed.
Lemma kinds : forall iv P r, (if (kind iv =? 0)%nat then vres iv P r else 0) + (if (kind iv =? 1)%nat then vres iv P r else 0) + (if (kind iv =? 2)%nat then vres iv P r else 0) = vres iv P r.
Proof.
  intros. unfold kind, vres. destruct (nth_error (verts m) iv) as [v|]; [|simpl; ring]. destruct (nth_error (t_extra M) iv) as [e|]; [|simpl; ring].
  destruct (e_nbnd e =? 0)%nat; [simpl; ring|]. destruct (1 <? length (x_cells v))%nat; simpl; ring.
Qed.
(** The source of the cells with row [r]. *)
Definition source_of (r : nat) : R := total (fun i => coeff (local_cell m i && (nth i (s_gid p) O =? r)%nat) * source p i) N.
Lemma system_ok : forall s0, exists s, ComputeSystem p s0 = Ok s /\
  forall P r, residual s P r = - added (snd s0) r + total (fun iv => vres iv P r) (length (verts m)) - source_of r.
Proof.
  intros s0. unfold ComputeSystem. cbv zeta. destruct (internal_all ([], snd s0)) as [s1 [E1 H1]]. rewrite E1. cbn [bind].
  destruct (shared_all s1) as [s2 [E2 H2]]. rewrite E2. cbn [bind]. destruct (corner_all s2) as [s3 [E3 H3]]. rewrite E3. cbn [bind].
  assert (H : forall P r, residual s3 P r = - added (snd s0) r + total (fun iv => vres iv P r) (length (verts m))).
  { intros P r. rewrite H3, H2, H1. unfold residual at 1. cbn [fst snd mult].
    rewrite (total_ext (fun iv => vres iv P r) (fun iv => (if (kind iv =? 0)%nat then vres iv P r else 0) + (if (kind iv =? 1)%nat then vres iv P r else 0) + (if (kind iv =? 2)%nat then vres iv P r else 0))).
    - rewrite !total_plus. ring.
    - intros. symmetry. apply kinds. }
  unfold source_of, source. fold M. fold m. destruct (s_forcing p) as [f|].
  - destruct (for_res (length (rocks m)) (fun icell s => do k <- rd (rocks m) icell; if negb (k_local k) then Ok s else do row <- rd (s_gid p) icell; Ok (addF s row (f icell * k_vol k)))
      (fun i P r => - (coeff (local_cell m i && (nth i (s_gid p) O =? r)%nat) * match nth_error (rocks m) i with Some k => f i * k_vol k | None => 0 end)) s3) as [s4 [E4 H4]].
    + intros i t Hi. destruct (rd_ok (rocks m) i Hi) as [k [Ek Nk]]. rewrite Ek. cbn [bind]. unfold local_cell. rewrite Nk.
      destruct (k_local k); cbn [negb].
      * destruct (rd_ok (s_gid p) i) as [g [Eg Ng]]; [rewrite (gs_gid p GS); exact Hi|]. rewrite Eg. cbn [bind]. eexists. split; [reflexivity|].
        intros P r. rewrite res_addF, (nth_error_nth _ _ O Ng). unfold coeff. cbn [andb]. destruct (g =? r)%nat; ring.
      * exists t. split; [reflexivity|]. intros. unfold coeff. simpl. ring.
    + exists s4. split; [exact E4|]. intros P r. rewrite H4, H, total_opp. unfold N. ring.
  - exists s3. split; [reflexivity|]. intros P r. rewrite H.
    assert (Hz : total (fun i => coeff (local_cell m i && (nth i (s_gid p) O =? r)%nat) * 0) N = 0) by (rewrite total_scale; ring).
    rewrite Hz. ring.
Qed.
End SteadySystem.

Section Balance.
Variables (k : tmode) (M : tmesh) (ncv nfv : nat) (X : variable -> nat -> option (list R)) (st : tstate).
Variables (gid : list nat) (h : nat -> R) (force : option (nat -> R)).
Hypothesis G : good_tmesh M ncv nfv.
Hypothesis HX : answered M (X Pressure).
Hypothesis HS : Setup k M ncv nfv X = Ok st.
Let p := mkSteady M (st_T (ts_p st)) gid nfv (Some h) force.
Hypothesis GS : good_steady p.
Hypothesis HN : no_corner_flux M.
Let m := t_mesh M.
Let N := length (rocks m).
Let l := st_l (ts_p st).
Let T := st_T (ts_p st).

Lemma Vp : vinv M nfv Pressure (X Pressure) (nfv + ncv) (length (verts m)) (ts_p st).
Proof. exact (pressure_inv k M ncv nfv X st G HX HS). Qed.
Lemma corner_coefficient : forall iv v e, nth_error (verts m) iv = Some v -> nth_error (t_extra M) iv = Some e -> corner v e ->
  forall j q, coefficient T iv j q = 0.
Proof.
  intros iv v e Ev Ee Hc j q. destruct HN as [Hb|Hno]; [|exfalso; exact (Hno iv v e Ev Ee Hc)].
  destruct Vp as [_ [_ [Z _]]]. apply (Z iv v e j q Ev Ee). right. auto.
Qed.
Lemma here_is : forall i z, local_cell m i = true -> (z < Z.of_nat N)%Z -> here p z (nth i gid O) = coeff (z =? Z.of_nat i)%Z.
Proof.
  intros i z Hi Hz. unfold here. change (s_gid p) with gid. change (t_mesh (s_mesh p)) with m.
  assert (Li : (i < N)%nat). { unfold local_cell in Hi. destruct (nth_error (rocks m) i) eqn:E; [|discriminate]. apply nth_lt in E. exact E. }
  pose proof (gs_gid p GS) as Lg. cbn [s_gid p s_mesh] in Lg. fold m in Lg. fold N in Lg.
  destruct (Z.eqb_spec z (Z.of_nat i)) as [->|Hne].
  - unfold owned. rewrite Nat2Z.id, Hi, Nat.eqb_refl. destruct (Z.leb_spec 0 (Z.of_nat i)); [reflexivity|lia].
  - unfold owned. destruct (Z.leb_spec 0 z); [|reflexivity]. cbn [andb]. destruct (Nat.eqb_spec (nth (Z.to_nat z) gid O) (nth i gid O)) as [E|E].
    + exfalso. apply (proj1 (NoDup_nth gid O) (gs_distinct p GS)) in E; [lia|lia|lia].
    + rewrite andb_false_r. reflexivity.
Qed.
Lemma flux_is : forall iv v e j f a P, nth_error (verts m) iv = Some v -> nth_error (t_extra M) iv = Some e -> subface m iv j = Some (v, f, a) -> x_local v = true ->
  mult l (values p P h) a = cell_part p iv v j P + bnd_part p h iv v e j.
Proof.
  intros iv v e j f a P Ev Ee Hs Hl. destruct (is_corner v e) eqn:Hc.
  - apply is_corner_spec in Hc. pose proof (corner_coefficient iv v e Ev Ee Hc) as HZ. destruct HN as [Hb|Hno]; [|exfalso; exact (Hno iv v e Ev Ee Hc)].
    assert (Hm : mult l (values p P h) a = 0).
    { apply mult_none. destruct Vp as [_ [_ [_ [_ Dn]]]]. destruct (Dn iv v e (nth_lt _ _ _ Ev) Ev Ee Hl) as [_ [_ [D2 _]]].
      destruct (gt_corner M ncv nfv G iv v e Ev Ee Hc) as [_ [_ [_ [_ [_ [_ [_ [_ [_ Hout]]]]]]]]].
      apply (D2 j f a Hs). split; [exact Hb|]. unfold subface in Hs. rewrite Ev in Hs.
      destruct (nth_error (x_faces v) j) as [q|] eqn:Eq; [|discriminate]. destruct (nth_error (x_subs v) j); [|discriminate].
      destruct (nth_error (faces m) q) as [f'|] eqn:Ef; [|discriminate]. injection Hs as -> _.
      apply nth_error_In in Eq. exact (proj1 (Hout q q f f Eq Eq Ef Ef)). }
    rewrite Hm. unfold cell_part, bnd_part. change (s_T p) with T.
    assert (Z1 : total (fun q => coefficient T iv j q * P (nth (nth q (x_cells v) O) (s_gid p) O)) (length (x_cells v)) = 0).
    { transitivity (total (fun _ => 0) (length (x_cells v))); [|apply total_zero]. apply total_ext. intros q _. rewrite HZ. ring. }
    assert (Z2 : total (fun d => coefficient T iv j (length (x_cells v) + d) * h (nth d (map sf_bnd (outer_faces e Pressure)) O)) (length (outer_faces e Pressure)) = 0).
    { transitivity (total (fun _ => 0) (length (outer_faces e Pressure))); [|apply total_zero]. apply total_ext. intros q _. rewrite HZ. ring. }
    rewrite Z1, Z2. ring.
  - assert (Hn : ~ corner v e) by (intros K; apply is_corner_spec in K; congruence).
    unfold l. rewrite (stored_rows M nfv Pressure (X Pressure) (nfv + ncv) (ts_p st) Vp iv j v e f a _ Ee Hs Hl Hn). unfold row_value, cell_part, bnd_part.
    f_equal; apply total_ext; intros q Hq; change (s_T p) with T; fold T; f_equal; unfold values; change (t_mesh (s_mesh p)) with m; fold m.
    + destruct (nth_error (x_cells v) q) as [c|] eqn:Ec; [|apply nth_error_None in Ec; lia]. rewrite (nth_error_nth _ _ O Ec).
      pose proof (gt_cells M ncv nfv G v c (nth_error_In _ _ Ev) (nth_error_In _ _ Ec)) as Hcl. fold m in Hcl.
      destruct (Nat.ltb_spec c (length (rocks m))); [reflexivity|lia].
    + match goal with |- (if (?x + ?n <? ?n)%nat then _ else _) = _ => destruct (Nat.ltb_spec (x + n) n); [lia|] end. f_equal. lia.
Qed.
Lemma vres_is : forall i iv P, local_cell m i = true -> (iv < length (verts m))%nat ->
  vres p h iv P (nth i gid O) = total (fun j => orientation m iv j i * matrix_flux m l (values p P h) iv j) (rows m iv).
Proof.
  intros i iv P Hi Hiv. destruct (vertex_extra p ncv G iv Hiv) as [v [e [_ [_ [Ev Ee]]]]]. change (t_mesh (s_mesh p)) with m in Ev. change (s_mesh p) with M in Ee.
  unfold vres, rows. change (t_mesh (s_mesh p)) with m. change (s_mesh p) with M. rewrite Ev, Ee. unfold vertex_res. apply total_ext. intros j Hj.
  destruct (face_ok p ncv G v j (nth_error_In _ _ Ev) Hj) as [a [f [_ [_ [Hf [Na Nf]]]]]]. change (t_mesh (s_mesh p)) with m in *.
  destruct (face_subface p ncv G iv v j a f Ev Na Nf) as [q Hs]. change (t_mesh (s_mesh p)) with m in Hs.
  rewrite (face_sides_at p v j a f _ Na Nf). unfold orientation, matrix_flux. rewrite Hs, Hi.
  destruct (gs_faces p GS f Hf) as [F1 F2]. change (t_mesh (s_mesh p)) with m in F1, F2. fold N in F1, F2. rewrite !here_is by assumption.
  destruct (active v f) eqn:Ha; cbn [andb].
  - apply andb_true_iff in Ha. destruct Ha as [Hl _]. rewrite (flux_is iv v e j f q P Ev Ee Hs Hl). ring.
  - assert (Ho : owned m (f_up f) = false /\ owned m (f_dn f) = false).
    { pose proof (gs_flags p GS iv j v f q Hs) as K. change (t_mesh (s_mesh p)) with m in K. split.
      - destruct (owned m (f_up f)); [|reflexivity]. rewrite K in Ha by auto. discriminate.
      - destruct (owned m (f_dn f)); [|reflexivity]. rewrite K in Ha by auto. discriminate. }
    assert (Hz : forall z, owned m z = false -> coeff (z =? Z.of_nat i)%Z = 0).
    { intros z Hz. destruct (Z.eqb_spec z (Z.of_nat i)) as [->|]; [|reflexivity]. unfold owned in Hz. rewrite Nat2Z.id, Hi in Hz. destruct (Z.leb_spec 0 (Z.of_nat i)); [discriminate|lia]. }
    destruct Ho as [O1 O2]. rewrite !Hz by assumption. ring.
Qed.
Lemma source_is : forall i, local_cell m i = true -> source_of p (nth i gid O) = source p i.
Proof.
  intros i Hi. unfold source_of. change (t_mesh (s_mesh p)) with m. fold N. change (s_gid p) with gid.
  assert (Li : (i < N)%nat). { unfold local_cell in Hi. destruct (nth_error (rocks m) i) eqn:E; [|discriminate]. apply nth_lt in E. exact E. }
  pose proof (gs_gid p GS) as Lg. cbn [s_gid p s_mesh] in Lg. fold m in Lg. fold N in Lg.
  rewrite (total_ext _ (fun q => coeff (q =? i)%nat * source p q)).
  - clear - Li. induction N as [|n IH]; [lia|]. cbn [total]. destruct (Nat.eq_dec i n) as [->|Hne].
    + rewrite Nat.eqb_refl. assert (Hz : total (fun q => coeff (q =? n)%nat * source p q) n = 0).
      { transitivity (total (fun _ => 0) n); [|apply total_zero]. apply total_ext. intros q Hq. destruct (Nat.eqb_spec q n); [lia|]. unfold coeff. ring. }
      rewrite Hz. unfold coeff. ring.
    + rewrite IH by lia. destruct (Nat.eqb_spec n i); [lia|]. unfold coeff. ring.
  - intros q Hq. f_equal. destruct (Nat.eqb_spec q i) as [->|Hne]; [rewrite Hi, Nat.eqb_refl; reflexivity|].
    destruct (Nat.eqb_spec (nth q gid O) (nth i gid O)) as [E|_]; [|rewrite andb_false_r; reflexivity].
    exfalso. apply Hne. apply (proj1 (NoDup_nth gid O) (gs_distinct p GS)) in E; [exact E|lia|lia].
Qed.
Lemma balance : forall s0, exists s, ComputeSystem p s0 = Ok s /\ forall P i, local_cell m i = true ->
  residual s P (nth i gid O) = all_subfaces m (fun iv j => orientation m iv j i * matrix_flux m l (values p P h) iv j) - source p i - added (snd s0) (nth i gid O).
Proof.
  intros s0. destruct Vp as [Dm _].
  destruct (system_ok p ncv (nfv + ncv) h G GS Dm) with (s0 := s0) as [s [E H]].
  - intros iv v e Ev Ee. exact (pressure_wide M ncv nfv G iv v e Ev Ee).
  - reflexivity.
  - exact corner_coefficient.
  - exists s. split; [exact E|]. intros P i Hi. rewrite H, (source_is i Hi). unfold all_subfaces.
    change (t_mesh (s_mesh p)) with m. rewrite (total_ext (fun iv => vres p h iv P (nth i gid O)) (fun iv => total (fun j => orientation m iv j i * matrix_flux m l (values p P h) iv j) (rows m iv))).
    + ring.
    + intros iv Hiv. apply vres_is; assumption.
Qed.
(** Summed over the cells. *)
Lemma orientation_sum : forall iv j, total (fun i => orientation m iv j i) N = crossing m iv j.
Proof.
  intros iv j. unfold orientation, crossing. destruct (subface m iv j) as [[[v f] a]|] eqn:Hs; [|apply total_zero].
  destruct (active v f); cbn [andb]; [|apply total_zero].
  assert (Hf : In f (faces m)).
  { unfold subface in Hs. destruct (nth_error (verts m) iv) as [v'|]; [|discriminate]. destruct (nth_error (x_faces v') j) as [q|]; [|discriminate].
    destruct (nth_error (x_subs v') j); [|discriminate]. destruct (nth_error (faces m) q) eqn:E; [|discriminate]. injection Hs as _ -> _. eapply nth_error_In; exact E. }
  destruct (gs_faces p GS f Hf) as [F1 F2]. change (t_mesh (s_mesh p)) with m in F1, F2. fold N in F1, F2.
  assert (K : forall z n, (z < Z.of_nat n)%Z -> total (fun i => if local_cell m i then coeff (z =? Z.of_nat i)%Z else 0) n = coeff (owned m z)).
  { intros z n. induction n as [|n IH]; intros Hz.
    - unfold owned. destruct (Z.leb_spec 0 z); [lia|]. reflexivity.
    - cbn [total]. destruct (Z.eqb_spec z (Z.of_nat n)) as [->|Hne].
      + assert (Hz0 : total (fun i => if local_cell m i then coeff (Z.of_nat n =? Z.of_nat i)%Z else 0) n = 0).
        { transitivity (total (fun _ => 0) n); [|apply total_zero]. apply total_ext. intros i Hi. destruct (Z.eqb_spec (Z.of_nat n) (Z.of_nat i)); [lia|]. destruct (local_cell m i); reflexivity. }
        rewrite Hz0. unfold owned. rewrite Nat2Z.id. destruct (Z.leb_spec 0 (Z.of_nat n)); [|lia]. cbn [andb]. destruct (local_cell m n); unfold coeff; ring.
      + rewrite IH by lia. destruct (local_cell m n); unfold coeff; ring. }
  rewrite (total_ext _ (fun i => (if local_cell m i then coeff (f_up f =? Z.of_nat i)%Z else 0) - (if local_cell m i then coeff (f_dn f =? Z.of_nat i)%Z else 0))).
  - rewrite total_minus, !K by assumption. reflexivity.
  - intros i _. destruct (local_cell m i); ring.
Qed.
Lemma conservation : forall s0, exists s, ComputeSystem p s0 = Ok s /\ forall P,
  total (fun i => if local_cell m i then residual s P (nth i gid O) else 0) N =
  all_subfaces m (fun iv j => crossing m iv j * matrix_flux m l (values p P h) iv j) -
  total (fun i => if local_cell m i then source p i + added (snd s0) (nth i gid O) else 0) N.
Proof.
  intros s0. destruct (balance s0) as [s [E H]]. exists s. split; [exact E|]. intros P.
  rewrite (total_ext _ (fun i => all_subfaces m (fun iv j => orientation m iv j i * matrix_flux m l (values p P h) iv j) - (if local_cell m i then source p i + added (snd s0) (nth i gid O) else 0))).
  - rewrite total_minus. f_equal. unfold all_subfaces. rewrite total_swap. apply total_ext. intros iv _. rewrite total_swap. apply total_ext. intros j _.
    rewrite total_scale, orientation_sum. reflexivity.
  - intros i _. destruct (local_cell m i) eqn:Hi; [rewrite (H P i Hi); ring|].
    assert (Hz : all_subfaces m (fun iv j => orientation m iv j i * matrix_flux m l (values p P h) iv j) = 0).
    { unfold all_subfaces. transitivity (total (fun _ => 0) (length (verts m))); [|apply total_zero]. apply total_ext. intros iv _.
      transitivity (total (fun _ => 0) (rows m iv)); [|apply total_zero]. apply total_ext. intros j _. unfold orientation.
      destruct (subface m iv j) as [[[v f] a]|]; [|ring]. rewrite Hi, andb_false_r. ring. }
    rewrite Hz. ring.
Qed.
End Balance.
