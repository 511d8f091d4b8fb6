(** Proofs about the printed velocity error. *)
From Coq Require Import Reals ZArith List Bool Arith Lia Lra.
From Verif Require Import Prelude Arrays Mpfao MpfaoTs SpecFvtpf SpecMpfao SpecMpfaoTs FvtpfSumProofs MpfaoProofs BdmProofs MpfaoBalanceProofs Transmit SpecTransmit TransmitProofs
  Steady SpecSteady SteadyProofs Velocity SpecVelocity VelocityProofs VelocityError SpecVelocityError.
Import ListNotations.
Local Open Scope R_scope.

(** ** The velocities are those of Velocity.v *)
Definition vel_of (s : estate) : list R := fst (fst s).
Lemma loop_sim : forall n i (fe : nat -> estate -> outcome estate) (f : nat -> list R -> outcome (list R)),
  (forall i s s', fe i s = Ok s' -> f i (vel_of s) = Ok (vel_of s')) ->
  forall s s', loop n i fe s = Ok s' -> loop n i f (vel_of s) = Ok (vel_of s').
Proof.
  induction n as [|n IH]; intros i fe f H s s' E; cbn [loop] in *; [injection E as <-; reflexivity|].
  destruct (fe i s) as [t| |] eqn:Et; cbn [bind] in E; try discriminate. rewrite (H _ _ _ Et). cbn [bind]. exact (IH _ _ _ H _ _ E).
Qed.
Lemma for_sim : forall n (fe : nat -> estate -> outcome estate) (f : nat -> list R -> outcome (list R)),
  (forall i s s', fe i s = Ok s' -> f i (vel_of s) = Ok (vel_of s')) ->
  forall s s', for_ n fe s = Ok s' -> for_ n f (vel_of s) = Ok (vel_of s').
Proof. intros n fe f H s s' E. exact (loop_sim n 0 fe f H s s' E). Qed.
Lemma record_sim : forall b iv r a x s s', record b iv r a x s = Ok s' -> add_vel (vel_of s) a x = Ok (vel_of s').
Proof.
  intros b iv r a x [[vel err] n] s' E. unfold record in E. cbn [vel_of fst]. destruct (add_vel vel a x) as [vel'| |]; cbn [bind] in E; try discriminate.
  destruct (b_velocity b) as [w|]; [|injection E as <-; reflexivity].
  destruct (rd (b_normal b) a) as [nn| |]; cbn [bind] in E; try discriminate. injection E as <-. reflexivity.
Qed.
Ltac step E := match type of E with
  | (do _ <- ?x; _) = Ok _ => destruct x eqn:?; cbn [bind] in E |- *; try discriminate E end.
Lemma recover_sim : forall p b u s, RecoverError p b u = Ok s -> RecoverVelocity p u = Ok (vel_of s).
Proof.
  intros p b u s E. unfold RecoverError in E. cbv zeta in E. unfold RecoverVelocity. cbv zeta.
  set (v0 := repeat 0 _) in *.
  destruct (InternalVertices_e p b u (v0, 0, O)) as [s1| |] eqn:E1; cbn [bind] in E; try discriminate.
  destruct (CornerVertices_e p b u s1) as [s2| |] eqn:E2; cbn [bind] in E; try discriminate.
  assert (R1 : InternalVertices p u v0 = Ok (vel_of s1)).
  { change v0 with (vel_of (v0, 0, O)) at 1. revert E1. apply for_sim. intros iv t t' Et. step Et. step Et.
    destruct (_ =? _)%nat; [|injection Et as <-; reflexivity]. revert Et. apply for_sim. intros j t1 t2 Ej. unfold internal_row_e in Ej. unfold internal_row.
    step Ej. step Ej. destruct (negb _); [injection Ej as <-; reflexivity|]. step Ej. step Ej. exact (record_sim _ _ _ _ _ _ _ Ej). }
  rewrite R1. cbn [bind].
  assert (R2 : CornerVertices p u (vel_of s1) = Ok (vel_of s2)).
  { revert E2. apply for_sim. intros iv t t' Et. step Et. step Et.
    destruct (_ || _); [injection Et as <-; reflexivity|]. unfold corner_vertex_e in Et. unfold corner_vertex. step Et. step Et. step Et. step Et.
    revert Et. apply for_sim. intros j t1 t2 Ej. unfold corner_face_e in Ej. unfold corner_face.
    step Ej. step Ej. step Ej. destruct (negb _); [injection Ej as <-; reflexivity|]. step Ej. step Ej. cbv zeta in Ej |- *. step Ej. exact (record_sim _ _ _ _ _ _ _ Ej). }
  rewrite R2. cbn [bind].
  revert E. apply for_sim. intros iv t t' Et. step Et. step Et.
  destruct (_ || _); [injection Et as <-; reflexivity|]. cbv zeta in Et |- *. step Et. step Et.
  assert (SR : forall v nb pB r t1 t2, shared_row_e p b u iv v nb pB r t1 = Ok t2 -> shared_row p u iv v nb pB r (vel_of t1) = Ok (vel_of t2)).
  { intros v nb pB r t1 t2 Ej. unfold shared_row_e in Ej. unfold shared_row.
    step Ej. step Ej. destruct (negb _); [injection Ej as <-; reflexivity|]. step Ej. step Ej. step Ej. exact (record_sim _ _ _ _ _ _ _ Ej). }
  match goal with H : for_ _ (shared_row_e _ _ _ _ _ _ _) _ = Ok _ |- _ => rewrite (for_sim _ _ _ (SR _ _ _) _ _ H) end. cbn [bind].
  revert Et. apply for_sim. intros. apply SR. assumption.
Qed.

(** ** The error *)
Lemma for_err : forall n (f : nat -> estate -> outcome estate) (h k : nat -> R) L vel err c, length vel = L ->
  (forall i vel err c, (i < n)%nat -> length vel = L -> exists vel' err' c', f i (vel, err, c) = Ok (vel', err', c') /\ length vel' = L /\ err' = err + h i /\ INR c' = INR c + k i) ->
  exists vel' err' c', for_ n f (vel, err, c) = Ok (vel', err', c') /\ length vel' = L /\ err' = err + total h n /\ INR c' = INR c + total k n.
Proof.
  intros n f h k L vel err c HL H.
  destruct (for_inv (fun i (s : estate) => length (fst (fst s)) = L /\ snd (fst s) = err + total h i /\ INR (snd s) = INR c + total k i) f n (vel, err, c)) as [[[v' e'] c'] [E [P1 [P2 P3]]]].
  - cbn [fst snd total]. split; [exact HL|]. split; ring.
  - intros i [[v1 e1] c1] Hi [Q1 [Q2 Q3]]. cbn [fst snd] in *. destruct (H i v1 e1 c1 Hi Q1) as [v2 [e2 [c2 [E [P1 [P2 P3]]]]]].
    exists (v2, e2, c2). split; [exact E|]. cbn [fst snd total]. split; [exact P1|]. rewrite P2, P3, Q2, Q3. split; ring.
  - exists v', e', c'. auto.
Qed.

Section Errors.
Variables (p : recover) (b : probe) (u : list R) (ncv c : nat) (B : nat -> R).
Let M := r_mesh p.
Let m := t_mesh M.
Let N := length (rocks m).
Let T := r_T p.
Let nfv := r_nfv p.
Let L := length (faces m).
Hypothesis G : good_tmesh M ncv nfv.
Hypothesis GR : good_recover p u.
Hypothesis GP : good_probe p b.
Hypothesis D : dims T (length (verts m)) nfv c.
Hypothesis Hc : forall iv v e, nth_error (verts m) iv = Some v -> nth_error (t_extra M) iv = Some e -> (length (x_cells v) + e_nbnd e <= c)%nat.
Hypothesis HB : boundary_heads p u B.
Hypothesis HN : forall iv v e, nth_error (verts m) iv = Some v -> nth_error (t_extra M) iv = Some e -> ~ corner v e.

(** What one sub-face of face [a] with velocity [x] adds to the error and the count. *)
Definition square (iv j a : nat) (x : R) : R :=
  match b_velocity b with Some w => (x - inner (w (b_centroid b iv j)) (nth a (b_normal b) (0, 0, 0)) * b_sub b iv j) ^ 2 | None => 0 end.
Definition one : R := match b_velocity b with Some _ => 1 | None => 0 end.
Lemma record_ok : forall iv j a x vel err n, length vel = L -> (a < L)%nat ->
  exists vel' err' n', record b iv j a x (vel, err, n) = Ok (vel', err', n') /\ length vel' = L /\ err' = err + square iv j a x /\ INR n' = INR n + one.
Proof.
  intros iv j a x vel err n HL Ha. unfold record, square, one. destruct (add_vel_ok vel a x) as [vel' [E [L' _]]]; [lia|]. rewrite E. cbn [bind].
  destruct (b_velocity b) as [w|].
  - pose proof (gp_normal p b GP) as Hn. fold M in Hn. fold m in Hn. fold L in Hn. destruct (rd_ok (b_normal b) a) as [y [Ey Ny]]; [lia|]. rewrite Ey. cbn [bind].
    cbv zeta. eexists _, _, _. split; [reflexivity|]. split; [lia|]. pose proof (nth_error_nth _ _ (0, 0, 0) Ny) as Hy. unfold vec3 in *. rewrite Hy. split.
    + destruct (w (b_centroid b iv j)) as [[w0 w1] w2]. destruct y as [[y0 y1] y2]. reflexivity.
    + rewrite S_INR. ring.
  - exists vel', err, n. split; [reflexivity|]. split; [lia|]. split; ring.
Qed.

Definition row_square (iv : nat) (v : vert) (w : nat -> R) (j : nat) : R :=
  match nth_error (x_faces v) j with
  | Some a => match nth_error (faces m) a with Some f => if f_local f then square iv j a (- w j / nth a (r_area p) 0) else 0 | None => 0 end
  | None => 0
  end.
Definition row_one (v : vert) (j : nat) : R :=
  match nth_error (x_faces v) j with
  | Some a => match nth_error (faces m) a with Some f => if f_local f then one else 0 | None => 0 end
  | None => 0
  end.
Lemma internal_row_ok : forall iv v e j vel err n, nth_error (verts m) iv = Some v -> nth_error (t_extra M) iv = Some e -> (j < length (x_faces v))%nat -> length vel = L ->
  exists vel' err' n', internal_row_e p b u iv v j (vel, err, n) = Ok (vel', err', n') /\ length vel' = L /\ err' = err + row_square iv v (cells_part p u iv v) j /\ INR n' = INR n + row_one v j.
Proof.
  intros iv v e j vel err n Ev Ee Hj HL. destruct (face_read p ncv G v j (nth_error_In _ _ Ev) Hj) as [a [f [Ea [Ef [Na [Nf Ha]]]]]]. fold M in Ef, Nf, Ha. fold m in Ef, Nf, Ha. fold L in Ha.
  unfold internal_row_e, row_square, row_one. fold M. fold m. rewrite Ea, Na, Nf. cbn [bind]. rewrite Ef. cbn [bind]. destruct (f_local f); cbn [negb].
  - rewrite (area_read p u GR) by exact Ha. cbn [bind]. rewrite (cell_sum_ok p u ncv c G GR D Hc iv v e) by assumption. cbn [bind]. rewrite Rplus_0_l.
    apply record_ok; assumption.
  - exists vel, err, n. split; [reflexivity|]. split; [exact HL|]. split; ring.
Qed.
Lemma shared_row_ok : forall iv v e pB j vel err n, nth_error (verts m) iv = Some v -> nth_error (t_extra M) iv = Some e -> (j < length (x_faces v))%nat -> length vel = L ->
  length (outer_faces e Pressure) = e_nbnd e -> pB = map (fun f => B (sf_bnd f)) (outer_faces e Pressure) ->
  exists vel' err' n', shared_row_e p b u iv v (e_nbnd e) pB j (vel, err, n) = Ok (vel', err', n') /\ length vel' = L /\
  err' = err + row_square iv v (fun j => cells_part p u iv v j + outer_part p B iv v e j) j /\ INR n' = INR n + row_one v j.
Proof.
  intros iv v e pB j vel err n Ev Ee Hj HL Hl HpB. pose proof (nth_error_In _ _ Ev) as Hv.
  destruct (face_read p ncv G v j Hv Hj) as [a [f [Ea [Ef [Na [Nf Ha]]]]]]. fold M in Ef, Nf, Ha. fold m in Ef, Nf, Ha. fold L in Ha.
  unfold shared_row_e, row_square, row_one. fold M. fold m. rewrite Ea, Na, Nf. cbn [bind]. rewrite Ef. cbn [bind]. destruct (f_local f); cbn [negb].
  - rewrite (area_read p u GR) by exact Ha. cbn [bind]. rewrite (cell_sum_ok p u ncv c G GR D Hc iv v e) by assumption. cbn [bind]. set (ar := nth a (r_area p) 0).
    rewrite (for_sum _ _ (fun d => (- / ar) * (coefficient T iv j (length (x_cells v) + d) * B (nth d (map sf_bnd (outer_faces e Pressure)) O)))).
    + cbn [bind]. rewrite total_scale_l. rewrite <- Hl. change (total _ (length (outer_faces e Pressure))) with (outer_part p B iv v e j).
      replace (0 + - cells_part p u iv v j / ar + - / ar * outer_part p B iv v e j) with (- (cells_part p u iv v j + outer_part p B iv v e j) / ar) by (unfold Rdiv; ring).
      apply record_ok; assumption.
    + intros i t Hi. fold T. rewrite (rd3_ok T _ _ _ iv j _ D (nth_lt _ _ _ Ev)); [|destruct (gt_max M ncv nfv G v Hv); lia|pose proof (Hc iv v e Ev Ee); lia]. cbn [bind].
      destruct (nth_error (outer_faces e Pressure) i) as [g|] eqn:Eg; [|apply nth_error_None in Eg; lia].
      assert (Hb : rd pB i = Ok (B (sf_bnd g))) by (apply rd_some; rewrite HpB, nth_error_map, Eg; reflexivity). rewrite Hb. cbn [bind].
      assert (Hn : nth i (map sf_bnd (outer_faces e Pressure)) O = sf_bnd g) by (apply nth_error_nth; rewrite nth_error_map, Eg; reflexivity).
      rewrite Hn, (Nat.add_comm i). unfold Rdiv. f_equal. ring.
  - exists vel, err, n. split; [reflexivity|]. split; [exact HL|]. split; ring.
Qed.

Definition both (iv : nat) (v : vert) (e : extra) (j : nat) : R := cells_part p u iv v j + outer_part p B iv v e j.
Definition vertex_square (iv : nat) (v : vert) (e : extra) : R := total (row_square iv v (both iv v e)) (length (x_faces v)).
Definition vertex_one (v : vert) : R := total (row_one v) (length (x_faces v)).
Lemma internal_vertex_ok : forall iv v e vel err n, nth_error (verts m) iv = Some v -> nth_error (t_extra M) iv = Some e -> e_nbnd e = O -> length vel = L ->
  exists vel' err' n', for_ (length (x_faces v)) (internal_row_e p b u iv v) (vel, err, n) = Ok (vel', err', n') /\ length vel' = L /\
  err' = err + vertex_square iv v e /\ INR n' = INR n + vertex_one v.
Proof.
  intros iv v e vel err n Ev Ee Hnb HL. apply for_err; [exact HL|]. intros j vel1 err1 n1 Hj L1.
  destruct (internal_row_ok iv v e j vel1 err1 n1 Ev Ee Hj L1) as [v2 [e2 [n2 [E [P1 [P2 P3]]]]]]. exists v2, e2, n2. split; [exact E|]. split; [exact P1|]. split; [|exact P3].
  rewrite P2. f_equal. unfold row_square, both.
  assert (Hz : outer_part p B iv v e j = 0).
  { unfold outer_part. destruct (outer_length p ncv G v e iv Ev Ee (HN _ _ _ Ev Ee)) as [Hl _]. rewrite Hl, Hnb. reflexivity. }
  rewrite Hz, Rplus_0_r. reflexivity.
Qed.
Lemma shared_vertex_ok : forall iv v e vel err n, nth_error (verts m) iv = Some v -> nth_error (t_extra M) iv = Some e -> length vel = L ->
  exists vel' err' n', (do pB <- pBoundary p u v e;
      do s <- for_ (length (x_faces v) - e_nbnd e) (shared_row_e p b u iv v (e_nbnd e) pB) (vel, err, n);
      for_ (e_nbnd e) (fun irow => shared_row_e p b u iv v (e_nbnd e) pB (irow + (length (x_faces v) - e_nbnd e))) s) = Ok (vel', err', n') /\ length vel' = L /\
  err' = err + vertex_square iv v e /\ INR n' = INR n + vertex_one v.
Proof.
  intros iv v e vel err n Ev Ee HL. destruct (outer_length p ncv G v e iv Ev Ee (HN _ _ _ Ev Ee)) as [Hl Hle].
  rewrite (pBoundary_ok p u ncv B G GR HB iv v e Ev Ee (HN _ _ _ Ev Ee) Hl Hle). cbn [bind].
  set (n0 := (length (x_faces v) - e_nbnd e)%nat). set (pB := map _ _).
  destruct (for_err n0 (shared_row_e p b u iv v (e_nbnd e) pB) (row_square iv v (both iv v e)) (row_one v) L vel err n HL) as [v1 [e1 [n1 [E1 [L1 [H1 K1]]]]]].
  { intros j t1 t2 t3 Hj Lt. apply shared_row_ok; auto. unfold n0 in Hj. lia. }
  rewrite E1. cbn [bind].
  destruct (for_err (e_nbnd e) (fun irow => shared_row_e p b u iv v (e_nbnd e) pB (irow + n0)) (fun i => row_square iv v (both iv v e) (n0 + i)) (fun i => row_one v (n0 + i)) L v1 e1 n1 L1)
    as [v2 [e2 [n2 [E2 [L2 [H2 K2]]]]]].
  { intros i t1 t2 t3 Hi Lt. rewrite (Nat.add_comm i). apply shared_row_ok; auto. unfold n0. lia. }
  exists v2, e2, n2. split; [exact E2|]. split; [exact L2|]. rewrite H2, H1, K2, K1. unfold vertex_square, vertex_one.
  replace (length (x_faces v)) with (n0 + e_nbnd e)%nat by (unfold n0; lia). rewrite !total_app. split; ring.
Qed.

(** All vertices. *)
Definition here (iv : nat) (x : vert -> extra -> R) : R :=
  match nth_error (verts m) iv, nth_error (t_extra M) iv with
  | Some v, Some e => if (e_nbnd e =? 0)%nat || x_local v then x v e else 0
  | _, _ => 0
  end.
Definition inside (iv : nat) : bool := match nth_error (t_extra M) iv with Some e => (e_nbnd e =? 0)%nat | None => false end.
Lemma error_sums : exists vel err n, RecoverError p b u = Ok (vel, err, n) /\
  err = total (fun iv => here iv (vertex_square iv)) (length (verts m)) /\ INR n = total (fun iv => here iv (fun v _ => vertex_one v)) (length (verts m)).
Proof.
  unfold RecoverError. cbv zeta. fold M. fold m. fold L.
  destruct (for_err (length (verts m)) (fun iv s => do v <- rd (verts m) iv; do e <- rd (t_extra M) iv;
    if (e_nbnd e =? 0)%nat then for_ (length (x_faces v)) (internal_row_e p b u iv v) s else Ok s)
    (fun iv => if inside iv then here iv (vertex_square iv) else 0) (fun iv => if inside iv then here iv (fun v _ => vertex_one v) else 0)
    L (repeat 0 L) 0 O (repeat_length 0 L)) as [v1 [e1 [n1 [E1 [L1 [H1 K1]]]]]].
  { intros iv t1 t2 t3 Hi Lt. destruct (vertex_read p ncv G iv Hi) as [v [e [Rv [Re [Ev Ee]]]]]. fold M in Rv, Ev, Re, Ee. fold m in Rv, Ev. rewrite Rv, Re. cbn [bind].
    unfold inside, here. rewrite Ev, Ee. destruct (Nat.eqb_spec (e_nbnd e) 0) as [Hnb|Hnb]; cbn [orb].
    - exact (internal_vertex_ok iv v e t1 t2 t3 Ev Ee Hnb Lt).
    - exists t1, t2, t3. split; [reflexivity|]. split; [exact Lt|]. split; ring. }
  unfold InternalVertices_e. fold M. fold m. rewrite E1. cbn [bind].
  destruct (for_err (length (verts m)) (fun iv s => do v <- rd (verts m) iv; do e <- rd (t_extra M) iv;
    if (e_nbnd e =? 0)%nat || (1 <? length (x_cells v))%nat then Ok s else corner_vertex_e p b u iv v e s)
    (fun _ => 0) (fun _ => 0) L v1 e1 n1 L1) as [v2 [e2 [n2 [E2 [L2 [H2 K2]]]]]].
  { intros iv t1 t2 t3 Hi Lt. destruct (vertex_read p ncv G iv Hi) as [v [e [Rv [Re [Ev Ee]]]]]. fold M in Rv, Ev, Re, Ee. fold m in Rv, Ev. rewrite Rv, Re. cbn [bind].
    exists t1, t2, t3. split; [|split; [exact Lt|split; ring]].
    destruct (Nat.eqb_spec (e_nbnd e) 0) as [Hnb|Hnb]; [reflexivity|]. destruct (Nat.ltb_spec 1 (length (x_cells v))); [reflexivity|].
    exfalso. apply (HN _ _ _ Ev Ee). split; [exact Hnb|lia]. }
  unfold CornerVertices_e. fold M. fold m. rewrite E2. cbn [bind].
  destruct (for_err (length (verts m)) (fun iv s => do v <- rd (verts m) iv; do e <- rd (t_extra M) iv;
    if (e_nbnd e =? 0)%nat || (length (x_cells v) <? 2)%nat || negb (x_local v) then Ok s
    else let nb := e_nbnd e in let nflux_in := (length (x_faces v) - nb)%nat in
      do pB <- pBoundary p u v e; do s <- for_ nflux_in (shared_row_e p b u iv v nb pB) s; for_ nb (fun irow => shared_row_e p b u iv v nb pB (irow + nflux_in)) s)
    (fun iv => if inside iv then 0 else here iv (vertex_square iv)) (fun iv => if inside iv then 0 else here iv (fun v _ => vertex_one v)) L v2 e2 n2 L2) as [v3 [e3 [n3 [E3 [L3 [H3 K3]]]]]].
  { intros iv t1 t2 t3 Hi Lt. destruct (vertex_read p ncv G iv Hi) as [v [e [Rv [Re [Ev Ee]]]]]. fold M in Rv, Ev, Re, Ee. fold m in Rv, Ev. rewrite Rv, Re. cbn [bind].
    unfold inside, here. rewrite Ev, Ee. destruct (Nat.eqb_spec (e_nbnd e) 0) as [Hnb|Hnb]; cbn [orb].
    { exists t1, t2, t3. split; [reflexivity|]. split; [exact Lt|]. split; ring. }
    destruct (Nat.ltb_spec (length (x_cells v)) 2); cbn [orb]; [exfalso; apply (HN _ _ _ Ev Ee); split; [exact Hnb|lia]|].
    destruct (x_local v); cbn [negb].
    - exact (shared_vertex_ok iv v e t1 t2 t3 Ev Ee Lt).
    - exists t1, t2, t3. split; [reflexivity|]. split; [exact Lt|]. split; ring. }
  exists v3, e3, n3. split; [exact E3|]. rewrite H3, H2, H1, K3, K2, K1. rewrite !total_zero.
  split.
  - rewrite (total_ext (fun iv => here iv (vertex_square iv)) (fun iv => (if inside iv then here iv (vertex_square iv) else 0) + (if inside iv then 0 else here iv (vertex_square iv)))).
    + rewrite total_plus. ring.
    + intros iv _. destruct (inside iv); ring.
  - rewrite (total_ext (fun iv => here iv (fun v _ => vertex_one v)) (fun iv => (if inside iv then here iv (fun v _ => vertex_one v) else 0) + (if inside iv then 0 else here iv (fun v _ => vertex_one v)))).
    + rewrite total_plus. simpl. ring.
    + intros iv _. destruct (inside iv); ring.
Qed.
End Errors.

Section Printed.
Variables (k : tmode) (M : tmesh) (ncv nfv : nat) (X : variable -> nat -> option (list R)) (st : tstate).
Variables (area rho gz : list R) (hp : option (nat -> R)) (b : probe) (u : list R) (B : nat -> R).
Hypothesis G : good_tmesh M ncv nfv.
Hypothesis HX : answered M (X Pressure).
Hypothesis HS : Setup k M ncv nfv X = Ok st.
Let p := mkRecover M (st_T (ts_p st)) nfv area rho gz hp.
Hypothesis GR : good_recover p u.
Hypothesis GP : good_probe p b.
Hypothesis HB : boundary_heads p u B.
Hypothesis HN : forall a, ~ at_corner M a.
Let m := t_mesh M.
Let l := st_l (ts_p st).

Lemma no_corner : forall iv v e, nth_error (verts m) iv = Some v -> nth_error (t_extra M) iv = Some e -> ~ corner v e.
Proof.
  intros iv v e Ev Ee Hcn. destruct (gt_corner M ncv nfv G iv v e Ev Ee Hcn) as [_ [Lf _]].
  destruct (x_faces v) as [|a fs] eqn:Ef; [discriminate|]. apply (HN a). exists iv, v, e. rewrite Ef. split; [exact Ev|]. split; [exact Ee|]. split; [exact Hcn|left; reflexivity].
Qed.
(** Rows and sub-faces. *)
Lemma here_counted : forall iv (x : nat -> vert -> extra -> R) (F : nat -> R), (iv < length (verts m))%nat ->
  (forall j v e f q, nth_error (verts m) iv = Some v -> nth_error (t_extra M) iv = Some e -> subface m iv j = Some (v, f, q) -> (j < length (x_faces v))%nat ->
    x j v e = if f_local f then F j else 0) ->
  here p iv (fun v e => total (fun j => x j v e) (length (x_faces v))) = total (fun j => if counted M iv j then F j else 0) (rows m iv).
Proof.
  intros iv x F Hiv H. destruct (vertex_read p ncv G iv Hiv) as [v [e [_ [_ [Ev Ee]]]]]. change (t_mesh (r_mesh p)) with m in Ev. change (r_mesh p) with M in Ee.
  unfold here, rows. change (r_mesh p) with M. fold m. rewrite Ev, Ee.
  assert (Hs : forall j, (j < length (x_faces v))%nat -> exists f q, subface m iv j = Some (v, f, q)).
  { intros j Hj. destruct (face_read p ncv G v j (nth_error_In _ _ Ev) Hj) as [a [f [_ [_ [Na [Nf _]]]]]]. change (t_mesh (r_mesh p)) with m in Nf.
    destruct (gt_faces M ncv nfv G v (nth_error_In _ _ Ev)) as [HL _]. destruct (nth_error (x_subs v) j) as [q|] eqn:Eq; [|apply nth_error_None in Eq; lia].
    exists f, (a * 4 + q)%nat. unfold subface. rewrite Ev, Na, Eq, Nf. reflexivity. }
  destruct ((e_nbnd e =? 0)%nat || x_local v) eqn:Ew.
  - apply total_ext. intros j Hj. destruct (Hs j Hj) as [f [q E]]. unfold counted. fold m. rewrite E, Ee, Ew, andb_true_r. exact (H j v e f q Ev Ee E Hj).
  - symmetry. transitivity (total (fun _ => 0) (length (x_faces v))); [|apply total_zero]. apply total_ext. intros j Hj. destruct (Hs j Hj) as [f [q E]].
    unfold counted. fold m. rewrite E, Ee, Ew, andb_false_r. reflexivity.
Qed.
Lemma error_here : exists vel err n, RecoverError p b u = Ok (vel, err, n) /\
  (b_velocity b = None -> n = O) /\
  (forall w, b_velocity b = Some w ->
    err = over_counted M (fun iv j => (matrix_flux m l (heads p u B) iv j / whole_area m area iv j - true_flux m b w iv j) ^ 2) /\
    INR n = over_counted M (fun _ _ => 1)).
Proof.
  pose proof (Vinv k M ncv nfv X st G HX HS) as VI. destruct VI as [Dm _].
  destruct (error_sums p b u ncv (nfv + ncv) B G GR GP Dm) as [vel [err [n [E [He Hn]]]]].
  - intros iv v e Ev Ee. exact (pressure_wide M ncv nfv G iv v e Ev Ee).
  - exact HB.
  - exact no_corner.
  - exists vel, err, n. split; [exact E|]. split.
    + intros Hv. apply INR_eq. rewrite Hn. simpl (INR 0). change (t_mesh (r_mesh p)) with m.
      transitivity (total (fun _ => 0) (length (verts m))); [|apply total_zero]. apply total_ext. intros iv _. unfold here.
      destruct (nth_error _ _) as [v|]; [|reflexivity]. destruct (nth_error _ _) as [e|]; [|reflexivity]. destruct (_ || _); [|reflexivity].
      unfold vertex_one. transitivity (total (fun _ => 0) (length (x_faces v))); [|apply total_zero]. apply total_ext. intros j _.
      unfold row_one, one. rewrite Hv. destruct (nth_error _ _); [|reflexivity]. destruct (nth_error _ _) as [f|]; [|reflexivity]. destruct (f_local f); reflexivity.
    + intros w Hw. rewrite He, Hn. change (t_mesh (r_mesh p)) with m. unfold over_counted, all_subfaces. fold m. split; apply total_ext; intros iv Hiv.
      * apply (here_counted iv (fun j v e => row_square p b iv v (both p u B iv v e) j) (fun j => (matrix_flux m l (heads p u B) iv j / whole_area m area iv j - true_flux m b w iv j) ^ 2) Hiv).
        intros j v e f q Ev Ee Es Hj. pose proof (row_flux k M ncv nfv X st area rho gz hp u B G HX HS iv v e j f q Ev Ee (no_corner _ _ _ Ev Ee) Es) as RF.
        unfold row_square, square, matrix_flux, whole_area, true_flux, face_at. rewrite Hw. change (t_mesh (r_mesh p)) with m. change (r_area p) with area.
        fold p in RF. fold l in RF. rewrite Es, RF. unfold subface in Es. fold m in Es. rewrite Ev in *. destruct (nth_error (x_faces v) j) as [a|]; [|discriminate].
        destruct (nth_error (x_subs v) j); [|discriminate]. destruct (nth_error (faces m) a) as [f'|]; [|discriminate]. injection Es as -> _.
        destruct (f_local f); reflexivity.
      * apply (here_counted iv (fun j v e => row_one p b v j) (fun _ => 1) Hiv).
        intros j v e f q Ev Ee Es Hj. unfold row_one, one. rewrite Hw. change (t_mesh (r_mesh p)) with m.
        unfold subface in Es. fold m in Es. rewrite Ev in Es. destruct (nth_error (x_faces v) j) as [a|]; [|discriminate].
        destruct (nth_error (x_subs v) j); [|discriminate]. destruct (nth_error (faces m) a) as [f'|]; [|discriminate]. injection Es as -> _.
        destruct (f_local f); reflexivity.
Qed.
End Printed.
