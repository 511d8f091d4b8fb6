From Coq Require Import Reals ZArith List Bool Arith Lia Lra.
From Coquelicot Require Import Coquelicot.
From Verif Require Import Prelude Arrays SpecFvtpf FvtpfSumProofs Mpfao MpfaoTs SpecMpfaoTs FvtpfAssemblyProofs MpfaoTsProofs MpfaoJacProofs MpfaoDeriveProofs.
From Verif Require Import Transport SpecTransport TransportProofs ThJac SpecThJac.
From Verif Require Fvtpf.
Import ListNotations.
Local Open Scope R_scope.

Local Ltac req := match goal with |- @eq _ ?a ?b => change (@eq R a b) end.

(** ** Blocks *)

Definition quad : Type := (R * R * R * R)%type.
Definition some4 (q : quad) : block := let '(a, b, c, d) := q in (Some a, Some b, Some c, Some d).
(** Entry of a block in row [r] and column [s] of the matrix. *)
Definition sel (r s : nat) (q : quad) : R := let '(a, b, c, d) := q in if Nat.even s then pick r a b else pick r c d.
Definition opp4 (q : quad) : quad := let '(a, b, c, d) := q in (- a, - b, - c, - d).

Lemma some4_opp : forall q, block_map (fl1 Ropp) (some4 q) = some4 (opp4 q).
Proof. intros [[[a b] c] d]. reflexivity. Qed.
Lemma sel_opp : forall r s q, sel r s (opp4 q) = - sel r s q.
Proof. intros r s [[[a b] c] d]. unfold sel, opp4, pick. destruct (Nat.even s), (Nat.even r); reflexivity. Qed.

Lemma coeff_2 : forall z k, coeff (z * 2 =? Z.of_nat k)%Z = coeff (z =? Z.of_nat (k / 2))%Z * pick k 1 0.
Proof. intros z k. rewrite <- coeff_pair. ring. Qed.
Lemma coeff_21 : forall z k, coeff (z * 2 + 1 =? Z.of_nat k)%Z = coeff (z =? Z.of_nat (k / 2))%Z * pick k 0 1.
Proof. intros z k. rewrite <- coeff_pair. ring. Qed.
Lemma coeff_nat : forall a b, coeff (a =? b)%nat = coeff (Z.of_nat a =? Z.of_nat b)%Z.
Proof. intros a b. f_equal. destruct (Nat.eqb_spec a b), (Z.eqb_spec (Z.of_nat a) (Z.of_nat b)); try reflexivity; lia. Qed.

Lemma holds_block : forall B h z c q, holds B h ->
  holds (add_block z c (some4 q) B) (fun r s => h r s + coeff (z =? Z.of_nat (r / 2))%Z * (coeff (c =? s / 2)%nat * sel r s q)).
Proof.
  intros B h z c [[[a b] c0] d] H. unfold add_block, some4.
  eapply holds_ext; [|do 4 apply holds_cons; exact H]. intros r s. cbv beta. rewrite !coeff_nat.
  replace (Z.of_nat (c * 2)) with (Z.of_nat c * 2)%Z by lia. replace (Z.of_nat (c * 2 + 1)) with (Z.of_nat c * 2 + 1)%Z by lia.
  rewrite !coeff_2, !coeff_21. unfold sel, pick. destruct (Nat.even r), (Nat.even s); ring.
Qed.

(** ** One column *)

(** The upwind values when the viscosities are not 0. *)
Record upwindR := mkUpwindR { v_k : R; v_kP : R; v_kT : R; v_h : R; v_hP : R; v_hT : R }.
Definition lift (w : upwindR) : upwind := mkUpwind (Some (v_k w)) (Some (v_kP w)) (Some (v_kT w)) (v_h w) (v_hP w) (v_hT w).

Lemma th_block_some : forall zup zdn tp den w dd c t tq g, exists q, th_block zup zdn tp den (lift w) dd c t tq g = some4 q.
Proof.
  intros zup zdn tp den w [[[d1 d2] d3] d4] c t tq g. unfold th_block, lift. cbn [w_k w_kP w_kT w_h w_hP w_hT].
  set (f := if Rlt_dec tp 0 then true else false). destruct (_ && _)%bool.
  - destruct f; unfold near_block, conduct, block_map; cbn [fl1 fbind]; eexists (_, _, _, _); reflexivity.
  - destruct (_ && _)%bool.
    + destruct f; unfold near_block, conduct, block_map; cbn [fl1 fbind]; eexists (_, _, _, _); reflexivity.
    + unfold far_block, conduct, block_map; cbn [fl1 fbind]; eexists (_, _, _, _); reflexivity.
Qed.
Definition val4 (b : block) : quad := let '(a, b, c, d) := b in (val a, val b, val c, val d).
Lemma val4_some : forall q, val4 (some4 q) = q.
Proof. intros [[[a b] c] d]. reflexivity. Qed.

Section Upwind.
Variables (cs : list cell) (bs : list bnd) (hs : list heat) (hb : list R) (ts : list thermal) (N nb : nat).
Hypothesis Lc : length cs = N.
Hypothesis Lb : length bs = nb.
Hypothesis Lh : length hs = N.
Hypothesis Lhb : length hb = nb.
Hypothesis Lt : length ts = N.
Hypothesis Vc : forall c, In c cs -> c_vis c <> 0.
Hypothesis Vb : forall b, In b bs -> b_vis b <> 0.

Definition side_dh (z : Z) : R := if (0 <=? z)%Z then match nth_error ts (Z.to_nat z) with Some t => t_dh_dP t | None => 0 end else 0.

Lemma upwind_ok : forall z s, (- Z.of_nat nb <= z < Z.of_nat N)%Z -> at_side cs bs z s ->
  exists w, upwind_at cs bs hs hb ts z = Ok (lift w) /\ v_k w = mobility s /\ v_kP w = dmob s /\ v_h w = side_value (map e_h hs) hb z /\ v_hP w = side_dh z.
Proof.
  intros z s Hz A. unfold upwind_at, side_value, side_dh, Fvtpf.at_. destruct (Z.leb_spec 0 z) as [P|P].
  - destruct (Z.ltb_spec z 0); [lia|]. destruct s as [c|b]; [|destruct A; lia]. destruct A as [_ Ec].
    rewrite (rd_some _ _ _ Ec). cbn [bind]. destruct (rd_ok hs (Z.to_nat z)) as [e [Re Ee]]; [lia|]. destruct (rd_ok ts (Z.to_nat z)) as [t [Rt Et]]; [lia|].
    rewrite Re. cbn [bind]. rewrite Rt. cbn [bind]. assert (V : c_vis c <> 0) by (apply Vc; exact (nth_error_In _ _ Ec)).
    assert (V2 : c_vis c * c_vis c <> 0) by (apply Rmult_integral_contrapositive_currified; exact V).
    rewrite !fdiv_ok by assumption. cbn [fbind]. rewrite Et.
    eexists (mkUpwindR _ _ _ _ _ _). unfold lift; cbn [v_k v_kP v_kT v_h v_hP v_hT]. split; [reflexivity|]. split; [reflexivity|]. split; [reflexivity|]. split; [|reflexivity].
    symmetry. apply nth_error_nth. rewrite nth_error_map, Ee. reflexivity.
  - destruct s as [c|b]; [destruct A; lia|]. destruct A as [_ Eb]. destruct (Z.ltb_spec (- z - 1) 0); [lia|].
    rewrite (rd_some _ _ _ Eb). cbn [bind]. rewrite (rd_nth hb) by lia. cbn [bind]. rewrite fdiv_ok by (apply Vb; exact (nth_error_In _ _ Eb)).
    eexists (mkUpwindR _ _ _ _ _ _). unfold lift; cbn [v_k v_kP v_kT v_h v_hP v_hT]. repeat (split; [reflexivity|]). reflexivity.
Qed.
End Upwind.

Lemma half_ok : forall (l : list R) z N, length l = N -> (z < Z.of_nat N)%Z -> exists x, half_of l z = Ok x /\ ((0 <= z)%Z -> x = 0.5 * nth (Z.to_nat z) l 0).
Proof.
  intros l z N L Hz. unfold half_of, Fvtpf.at_. destruct (Z.leb_spec 0 z) as [P|P]; [|eexists; split; [reflexivity|lia]].
  destruct (Z.ltb_spec z 0); [lia|]. rewrite rd_nth by lia. eexists. split; [reflexivity|]. reflexivity.
Qed.

(** ** The matrix *)

Section Jac.
Variables (m : mesh) (n N nb : nat) (nbf : list nat) (cs : list cell) (bs : list bnd) (hs : list heat) (hb : list R) (ts : list thermal) (gz TP TT GD : list R) (T Tq : Trans) (junk : nat -> nat -> R).
Hypothesis GM : good_mesh m n N nb.
Hypothesis GS : good_state m N nb cs bs TP TT.
Hypothesis GV : good_vertices m GD.
Hypothesis AT : allocated m T.
Hypothesis AQ : allocated m Tq.
Hypothesis Ln : length nbf = length (verts m).
Hypothesis Lh : length hs = N.
Hypothesis Lhb : length hb = nb.
Hypothesis Lt : length ts = N.
Hypothesis Lg : length gz = N.
Hypothesis Cells : forall v, In v (verts m) -> forall c, In c (x_cells v) -> (c < N)%nat.
Hypothesis Wet : forall f, In f (faces m) -> (0 <= f_up f)%Z \/ (0 <= f_dn f)%Z.

(** The sub-face is between two cells. *)
Definition between (f : face) : bool := (0 <=? f_up f)%Z && (0 <=? f_dn f)%Z.
Definition skipped (iv : nat) (v : vert) : bool := (0 <? nth iv nbf 0)%nat && (length (x_cells v) <? 2)%nat.

(** What [th_jac_row] puts in for column [icol]. *)
Definition col_quad (iv j icol : nat) : quad :=
  match subface m iv j with
  | Some (v, f, a) =>
      let tp := chop (nth a TP 0) in
      match upwind_at cs bs hs hb ts (if Rlt_dec tp 0 then f_up f else f_dn f), side_at cs bs (f_up f), side_at cs bs (f_dn f),
            half_of (map c_drho cs) (f_up f), half_of (map c_drho cs) (f_dn f), half_of (map e_drho_dT hs) (f_up f), half_of (map e_drho_dT hs) (f_dn f) with
      | Ok w, Ok up, Ok dn, Ok d1, Ok d2, Ok d3, Ok d4 =>
          val4 (th_block (f_up f) (f_dn f) tp ((0 + rho up + rho dn) * 0.5) w (d1, d2, d3, d4) (nth icol (x_cells v) 0%nat)
            (coefficient T iv j icol) (coefficient Tq iv j icol) (nth (nth icol (x_cells v) 0%nat) gz 0))
      | _, _, _, _, _, _, _ => (0, 0, 0, 0)
      end
  | None => (0, 0, 0, 0)
  end.
Definition row_sum (iv j r s : nat) : R :=
  match subface m iv j with
  | Some (v, f, _) =>
      if between f && negb (skipped iv v) then total (fun icol => coeff (nth icol (x_cells v) 0 =? s / 2)%nat * sel r s (col_quad iv j icol)) (length (x_cells v))
      else 0
  | None => 0
  end.

Lemma at_rock : forall z, (0 <= z < Z.of_nat N)%Z -> exists k, Fvtpf.at_ (rocks m) z = Ok k /\ k_local k = owned m z.
Proof.
  intros z Hz. unfold Fvtpf.at_, owned, local_cell. destruct (Z.ltb_spec z 0); [lia|]. pose proof (gm_rocks _ _ _ _ GM) as L.
  destruct (rd_ok (rocks m) (Z.to_nat z)) as [k [R1 E]]; [lia|]. exists k. rewrite E. split; [exact R1|]. destruct (Z.leb_spec 0 z); [reflexivity|lia].
Qed.

Lemma th_row_ok : forall iv v j B h, nth_error (verts m) iv = Some v -> skipped iv v = false -> (j < length (x_faces v))%nat -> holds B h ->
  exists B', th_jac_row m cs bs hs hb ts gz TP T Tq junk iv v j B = Ok B' /\ holds B' (fun r s => h r s + orientation m iv j (r / 2) * row_sum iv j r s).
Proof.
  intros iv v j B h Hv SK Hj H.
  destruct (subface_ok m n N nb cs bs TP TT GM GS iv v j Hv Hj) as [a [s0 [f [up [dn [tp [G [Ra [Rs [Rf [Es [Eu [Ed [Au [Ad [Vu [Vd [Rt [RG [Hu Hd]]]]]]]]]]]]]]]]]]]].
  pose proof GS as [Lc [Lb [Vc [Vb [LT LG]]]]].
  assert (IF : In f (faces m)) by (apply (nth_error_In _ a); apply rd_inv; exact Rf).
  clear Hu Hd. destruct (gm_face _ _ _ _ GM f IF) as [Hu Hd].
  unfold th_jac_row. rewrite Ra. cbn [bind]. rewrite Rs. cbn [bind]. rewrite Rf. cbn [bind].
  assert (Etp : tp = nth (a * 4 + s0) TP 0) by (symmetry; apply nth_error_nth; apply rd_inv; exact Rt).
  set (tp' := if f_local f then chop tp else junk iv j).
  replace (if f_local f then do x <- rd TP (a * 4 + s0); Ok (chop x) else Ok (junk iv j)) with (Ok tp') by (unfold tp'; destruct (f_local f); [rewrite Rt|]; reflexivity).
  cbn [bind].
  assert (UW : forall t, exists w, upwind_at cs bs hs hb ts (if Rlt_dec t 0 then f_up f else f_dn f) = Ok (lift w)).
  { intro t. destruct (Rlt_dec t 0).
    - destruct (upwind_ok cs bs hs hb ts N nb Lc Lb Lh Lhb Lt Vc Vb (f_up f) up Hu Au) as [w [E _]]. exists w. exact E.
    - destruct (upwind_ok cs bs hs hb ts N nb Lc Lb Lh Lhb Lt Vc Vb (f_dn f) dn Hd Ad) as [w [E _]]. exists w. exact E. }
  destruct (UW tp') as [w Ew]. rewrite Ew. cbn [bind]. rewrite Eu. cbn [bind]. rewrite Ed. cbn [bind]. cbv zeta.
  set (zup := if (f_up f <? 0)%Z then f_dn f else f_up f). set (zdn := if (f_dn f <? 0)%Z then zup else f_dn f).
  assert (Zu : (0 <= zup < Z.of_nat N)%Z) by (unfold zup; destruct (Wet f IF); destruct (Z.ltb_spec (f_up f) 0); lia).
  assert (Zd : (0 <= zdn < Z.of_nat N)%Z) by (unfold zdn; destruct (Z.ltb_spec (f_dn f) 0); lia).
  destruct (half_ok (map c_drho cs) zup N) as [d1 [D1 _]]; [rewrite map_length; exact Lc|lia|].
  destruct (half_ok (map c_drho cs) zdn N) as [d2 [D2 _]]; [rewrite map_length; exact Lc|lia|].
  destruct (half_ok (map e_drho_dT hs) zup N) as [d3 [D3 _]]; [rewrite map_length; exact Lh|lia|].
  destruct (half_ok (map e_drho_dT hs) zdn N) as [d4 [D4 _]]; [rewrite map_length; exact Lh|lia|].
  rewrite D1. cbn [bind]. rewrite D2. cbn [bind]. rewrite D3. cbn [bind]. rewrite D4. cbn [bind].
  destruct (at_rock zup Zu) as [ku [Ku Lu]]. destruct (at_rock zdn Zd) as [kd [Kd Ld]].
  set (o := fun i => (if owned m zup then coeff (zup =? Z.of_nat i)%Z else 0) - (if owned m zdn then coeff (zdn =? Z.of_nat i)%Z else 0)).
  set (Q := fun icol => val4 (th_block zup zdn tp' ((0 + rho up + rho dn) * 0.5) (lift w) (d1, d2, d3, d4) (nth icol (x_cells v) 0%nat)
            (coefficient T iv j icol) (coefficient Tq iv j icol) (nth (nth icol (x_cells v) 0%nat) gz 0))).
  destruct (holds_loop (th_col m gz T Tq iv j zup zdn tp' ((0 + rho up + rho dn) * 0.5) (lift w) (d1, d2, d3, d4) v)
             (fun icol r s => o (r / 2)%nat * (coeff (nth icol (x_cells v) 0 =? s / 2)%nat * sel r s (Q icol))) (length (x_cells v)) B h H) as [B' [E' H']].
  - clear B h H. intros icol B h Hc H. destruct (rd_ok (x_cells v) icol Hc) as [c [Rc Ec]]. unfold th_col. rewrite Rc. cbn [bind].
    rewrite (coefficient_ok m T AT iv v j icol Hv Hj Hc). cbn [bind]. rewrite (coefficient_ok m Tq AQ iv v j icol Hv Hj Hc). cbn [bind].
    pose proof (Cells v (nth_error_In _ _ Hv) c (nth_error_In _ _ Ec)) as HcN. rewrite (rd_nth gz) by lia. cbn [bind]. cbv zeta.
    unfold Q. rewrite (nth_error_nth _ _ 0%nat Ec). 
    destruct (th_block_some zup zdn tp' ((0 + rho up + rho dn) * 0.5) w (d1, d2, d3, d4) c (coefficient T iv j icol) (coefficient Tq iv j icol) (nth c gz 0)) as [q ->].
    rewrite val4_some, some4_opp, Ku, Kd. cbn [bind]. rewrite Lu, Ld. unfold o. eexists. split; [reflexivity|].
    destruct (owned m zup), (owned m zdn).
    + eapply holds_ext; [|apply holds_block; apply holds_block; exact H]. intros r s. cbv beta. rewrite sel_opp. ring.
    + eapply holds_ext; [|apply holds_block; exact H]. intros r s. cbv beta. ring.
    + eapply holds_ext; [|apply holds_block; exact H]. intros r s. cbv beta. rewrite sel_opp. ring.
    + eapply holds_ext; [|exact H]. intros r s. ring.
  - exists B'. split; [exact E'|]. eapply holds_ext; [|exact H']. intros r s. cbv beta. f_equal.
    unfold orientation, row_sum. rewrite Es, SK. cbn [negb]. rewrite andb_true_r. unfold between.
    destruct (Z.leb_spec 0 (f_up f)) as [PU|PU]; cbn [andb].
    2:{ rewrite Rmult_0_r. transitivity (total (fun _ => 0) (length (x_cells v))); [|apply total_zero]. apply total_ext. intros icol _.
        replace (o (r / 2)%nat) with 0; [ring|]. unfold o, zdn, zup. destruct (Z.ltb_spec (f_up f) 0); [|lia]. destruct (Z.ltb_spec (f_dn f) 0); ring. }
    destruct (Z.leb_spec 0 (f_dn f)) as [PD|PD].
    2:{ rewrite Rmult_0_r. transitivity (total (fun _ => 0) (length (x_cells v))); [|apply total_zero]. apply total_ext. intros icol _.
        replace (o (r / 2)%nat) with 0; [ring|]. unfold o, zdn, zup. destruct (Z.ltb_spec (f_up f) 0); [lia|]. destruct (Z.ltb_spec (f_dn f) 0); [ring|lia]. }
    assert (Zu' : zup = f_up f) by (unfold zup; destruct (Z.ltb_spec (f_up f) 0); [lia|reflexivity]).
    assert (Zd' : zdn = f_dn f) by (unfold zdn; destruct (Z.ltb_spec (f_dn f) 0); [lia|reflexivity]).
    clearbody zup zdn. subst zup zdn.
    destruct (active v f) eqn:A; cbn [andb].
    2:{ rewrite Rmult_0_l. transitivity (total (fun _ => 0) (length (x_cells v))); [|apply total_zero]. apply total_ext. intros icol _.
        replace (o (r / 2)%nat) with 0; [ring|]. unfold o.
        destruct (owned m (f_up f)) eqn:O1; [rewrite (gv_flags m GD GV iv j v f _ Es (or_introl O1)) in A; discriminate|].
        destruct (owned m (f_dn f)) eqn:O2; [rewrite (gv_flags m GD GV iv j v f _ Es (or_intror O2)) in A; discriminate|]. ring. }
    assert (Eo : (if local_cell m (r / 2) then coeff (f_up f =? Z.of_nat (r / 2))%Z - coeff (f_dn f =? Z.of_nat (r / 2))%Z else 0) = o (r / 2)%nat).
    { unfold o. rewrite !owned_coeff. destruct (local_cell m (r / 2)); ring. }
    rewrite Eo. rewrite Rmult_comm, <- total_scale. apply total_ext. intros icol _. 
    assert (EQ : col_quad iv j icol = Q icol).
    { unfold col_quad, Q. rewrite Es. cbv zeta. rewrite <- Etp. 
      assert (F : f_local f = true) by (unfold active in A; apply andb_true_iff in A; apply A).
      assert (T' : tp' = chop tp) by (unfold tp'; rewrite F; reflexivity). rewrite <- T'. rewrite Ew, Eu, Ed, D1, D2, D3, D4. reflexivity. }
    rewrite EQ. ring.
Qed.

Lemma th_vertices_ok : exists B, IJacobian_Vertices_TH m nbf cs bs hs hb ts gz TP T Tq junk [] = Ok B
  /\ holds B (fun r s => all_subfaces m (fun iv j => orientation m iv j (r / 2) * row_sum iv j r s)).
Proof.
  unfold IJacobian_Vertices_TH.
  destruct (holds_loop (th_jac_vertex m nbf cs bs hs hb ts gz TP T Tq junk) (fun iv r s => total (fun j => orientation m iv j (r / 2) * row_sum iv j r s) (rows m iv)) (length (verts m)) [] _ holds_nil) as [B [E H]].
  - intros iv B h Hiv H. unfold th_jac_vertex. destruct (rd_ok (verts m) iv Hiv) as [v [Rv Ev]]. destruct (rd_ok nbf iv) as [b [Rb Eb]]; [lia|].
    rewrite Rv. cbn [bind]. rewrite Rb. cbn [bind]. unfold rows. rewrite Ev.
    assert (SK : ((0 <? b)%nat && (length (x_cells v) <? 2)%nat) = skipped iv v) by (unfold skipped; rewrite (nth_error_nth _ _ 0%nat Eb); reflexivity).
    rewrite SK. destruct (skipped iv v) eqn:K.
    + exists B. split; [reflexivity|]. eapply holds_ext; [|exact H]. intros r s. cbv beta.
      transitivity (h r s + total (fun _ => 0) (length (x_faces v))); [rewrite total_zero; ring|]. f_equal. apply total_ext. intros j _.
      unfold row_sum, subface. rewrite Ev. destruct (nth_error (x_faces v) j) as [a|]; [|ring]. destruct (nth_error (x_subs v) j) as [s0|]; [|ring].
      destruct (nth_error (faces m) a) as [f|]; [|ring]. rewrite K. rewrite andb_false_r. ring.
    + apply (holds_loop (th_jac_row m cs bs hs hb ts gz TP T Tq junk iv v) (fun j r s => orientation m iv j (r / 2) * row_sum iv j r s)); [exact H|].
      clear B h H. intros j B h Hj H. apply th_row_ok; assumption.
  - exists B. split; [exact E|]. eapply holds_ext; [|exact H]. intros r s. cbv beta. unfold all_subfaces. ring.
Qed.

(** The storage block of cell [i], 0 for ghosts. *)
Definition acc_quad (shift : R) (du u : list R) (i : nat) : quad :=
  match nth_error hs i with
  | Some e => match nth_error cs i, nth_error (rocks m) i with
              | Some c, Some k => if k_local k then acc_block c e k (nth (2 * i + 1) u 0) shift (nth (2 * i) du 0) (nth (2 * i + 1) du 0) else (0, 0, 0, 0)
              | _, _ => (0, 0, 0, 0)
              end
  | None => (0, 0, 0, 0)
  end.

Lemma sel_zero : forall r s, sel r s (0, 0, 0, 0) = 0.
Proof. intros r s. unfold sel, pick. destruct (Nat.even s), (Nat.even r); reflexivity. Qed.

Lemma IJacobian_TH_ok : forall shift du u, (2 * N <= length du)%nat -> (2 * N <= length u)%nat ->
  exists B0 B, IJacobian_Vertices_TH m nbf cs bs hs hb ts gz TP T Tq junk [] = Ok B0 /\ IJacobian_TH m nbf cs bs hs hb ts gz TP T Tq junk shift du u = Ok B
  /\ holds B0 (fun r s => all_subfaces m (fun iv j => orientation m iv j (r / 2) * row_sum iv j r s))
  /\ holds B (fun r s => all_subfaces m (fun iv j => orientation m iv j (r / 2) * row_sum iv j r s) + coeff (r / 2 =? s / 2)%nat * sel r s (acc_quad shift du u (r / 2))).
Proof.
  intros shift du u L1 L2. destruct th_vertices_ok as [B0 [E0 H0]]. exists B0. unfold IJacobian_TH. rewrite E0. cbn [bind]. rewrite (gm_rocks _ _ _ _ GM).
  rewrite !unpack_ok by lia. cbn [bind].
  pose proof GS as [Lc _]. pose proof (gm_rocks _ _ _ _ GM) as Lr.
  match goal with |- context [for_ N ?b B0] => destruct (holds_loop b (fun j r s => coeff (Z.of_nat j =? Z.of_nat (r / 2))%Z * (coeff (j =? s / 2)%nat * sel r s (acc_quad shift du u j))) N B0 _ H0) as [B [E H]] end.
  - intros i B h Hi H. unfold th_acc, acc_quad. destruct (rd_ok (rocks m) i) as [k [Rk Ek]]; [lia|]. rewrite Rk, Ek. cbn [bind].
    destruct (rd_ok cs i) as [c [Rc Ec]]; [lia|]. destruct (rd_ok hs i) as [e [Re Ee]]; [lia|]. rewrite Ec, Ee.
    destruct (k_local k); cbn [negb].
    + rewrite Rc. cbn [bind]. rewrite Re. cbn [bind]. rewrite !rd_nth by (rewrite map_length, seq_length; exact Hi). cbn [bind].
      rewrite !nth_unpacked by exact Hi. replace (2 * i + 0)%nat with (2 * i)%nat by lia.
      destruct (acc_block c e k (nth (2 * i + 1) u 0) shift (nth (2 * i) du 0) (nth (2 * i + 1) du 0)) as [[[a b] c0] d].
      eexists. split; [reflexivity|]. exact (holds_block B h (Z.of_nat i) i (a, b, c0, d) H).
    + exists B. split; [reflexivity|]. eapply holds_ext; [|exact H]. intros r s. cbv beta. rewrite sel_zero. ring.
  - exists B. split; [reflexivity|]. split; [exact E|]. split; [exact H0|]. eapply holds_ext; [|exact H]. intros r s. cbv beta. f_equal.
    rewrite (total_delta (fun j => coeff (j =? s / 2)%nat * sel r s (acc_quad shift du u j))). destruct (Nat.ltb_spec (r / 2) N) as [L|L]; [reflexivity|].
    unfold acc_quad. replace (nth_error hs (r / 2)) with (@None heat) by (symmetry; apply nth_error_None; lia). rewrite sel_zero. ring.
Qed.
End Jac.

(** ** Derivatives of the storage terms *)

Lemma water_rate_derive : forall (ro dro s ds drt dst pr tr : R -> R) p por vol src lro ldro ls lds ldrt ldst lpr ltr,
  is_derive ro p lro -> is_derive dro p ldro -> is_derive s p ls -> is_derive ds p lds -> is_derive drt p ldrt -> is_derive dst p ldst -> is_derive pr p lpr -> is_derive tr p ltr ->
  is_derive (fun x => ((dro x * pr x + drt x * tr x) * s x + ro x * (ds x * pr x + dst x * tr x)) * por * vol - src) p
    (((ldro * pr p + dro p * lpr + ldrt * tr p + drt p * ltr) * s p + (dro p * pr p + drt p * tr p) * ls
      + lro * (ds p * pr p + dst p * tr p) + ro p * (lds * pr p + ds p * lpr + ldst * tr p + dst p * ltr)) * por * vol).
Proof.
  intros ro dro s ds drt dst pr tr p por vol src lro ldro ls lds ldrt ldst lpr ltr D1 D2 D3 D4 D5 D6 D7 D8.
  auto_derive; [repeat split; eexists; eassumption|].
  rewrite (is_derive_unique (fun x : R => ro x) p _ D1), (is_derive_unique (fun x : R => dro x) p _ D2), (is_derive_unique (fun x : R => s x) p _ D3), (is_derive_unique (fun x : R => ds x) p _ D4), (is_derive_unique (fun x : R => drt x) p _ D5), (is_derive_unique (fun x : R => dst x) p _ D6), (is_derive_unique (fun x : R => pr x) p _ D7), (is_derive_unique (fun x : R => tr x) p _ D8). ring.
Qed.
Lemma energy_rate_derive : forall (ro dro s ds drt dst u dup dut pr tr : R -> R) p por vol rc src lro ldro ls lds ldrt ldst lu ldup ldut lpr ltr,
  is_derive ro p lro -> is_derive dro p ldro -> is_derive s p ls -> is_derive ds p lds -> is_derive drt p ldrt -> is_derive dst p ldst ->
  is_derive u p lu -> is_derive dup p ldup -> is_derive dut p ldut -> is_derive pr p lpr -> is_derive tr p ltr ->
  is_derive (fun x => (((dro x * pr x + drt x * tr x) * s x + ro x * (ds x * pr x + dst x * tr x)) * por * u x
      + ro x * por * s x * (dup x * pr x + dut x * tr x) + rc * (1 - por) * tr x) * vol - src) p
    ((((ldro * pr p + dro p * lpr + ldrt * tr p + drt p * ltr) * s p + (dro p * pr p + drt p * tr p) * ls
      + lro * (ds p * pr p + dst p * tr p) + ro p * (lds * pr p + ds p * lpr + ldst * tr p + dst p * ltr)) * por * u p
     + ((dro p * pr p + drt p * tr p) * s p + ro p * (ds p * pr p + dst p * tr p)) * por * lu
     + (lro * s p + ro p * ls) * por * (dup p * pr p + dut p * tr p) + ro p * por * s p * (ldup * pr p + dup p * lpr + ldut * tr p + dut p * ltr) + rc * (1 - por) * ltr) * vol).
Proof.
  intros ro dro s ds drt dst u dup dut pr tr p por vol rc src lro ldro ls lds ldrt ldst lu ldup ldut lpr ltr D1 D2 D3 D4 D5 D6 D7 D8 D9 Da Db.
  auto_derive; [repeat split; eexists; eassumption|].
  rewrite (is_derive_unique (fun x : R => ro x) p _ D1), (is_derive_unique (fun x : R => dro x) p _ D2), (is_derive_unique (fun x : R => s x) p _ D3), (is_derive_unique (fun x : R => ds x) p _ D4), (is_derive_unique (fun x : R => drt x) p _ D5), (is_derive_unique (fun x : R => dst x) p _ D6), (is_derive_unique (fun x : R => u x) p _ D7), (is_derive_unique (fun x : R => dup x) p _ D8), (is_derive_unique (fun x : R => dut x) p _ D9), (is_derive_unique (fun x : R => pr x) p _ Da), (is_derive_unique (fun x : R => tr x) p _ Db). ring.
Qed.

Lemma affine_derive : forall a b p, is_derive (fun x => a * x + b) p a.
Proof. intros a b p. auto_derive; [exact I|ring]. Qed.

(** The blocks, by pressure and by temperature. *)
Lemma storage_by_pressure : forall c e p dh k T shift b0 t', consistent c p -> heat_by_pressure e p dh ->
  let '(a, b, _, _) := acc_block (c p) (e p) k T shift (shift * p + b0) t' in
  is_derive (fun x => water_rate (c x) (e x) k (shift * x + b0) t' - k_src k * k_vol k) p a
  /\ is_derive (fun x => energy_rate (c x) (e x) k (shift * x + b0) t' - e_src (e x) * k_vol k) p b.
Proof.
  intros c e p dh k T shift b0 t' [C1 [C2 [_ [C4 [C5 _]]]]] [_ [H2 [H3 [H4 [H5 [H6 H7]]]]]]. unfold acc_block. split.
  - pose proof (water_rate_derive _ _ _ _ _ _ _ (fun _ => t') p (k_por k) (k_vol k) (k_src k * k_vol k) _ _ _ _ _ _ _ 0 C1 C2 C4 C5 H5 H6 (affine_derive shift b0 p) (is_derive_const t' p)) as D.
    match type of D with is_derive _ _ ?l => match goal with |- is_derive _ _ ?r => replace r with l; [exact D|] end end.
    unfold acc_dmass_dP, acc_d2mass_dP2, acc_d2mass_dPdT. ring.
  - pose proof (energy_rate_derive _ _ _ _ _ _ _ _ _ _ (fun _ => t') p (k_por k) (k_vol k) (e_rho_soil (e p) * e_c_soil (e p)) (e_src (e p) * k_vol k) _ _ _ _ _ _ _ _ _ _ 0 C1 C2 C4 C5 H5 H6 H2 H3 H4 (affine_derive shift b0 p) (is_derive_const t' p)) as D.
    match type of D with is_derive _ _ ?l => match goal with |- is_derive _ _ ?r => replace r with l; [|] end end.
    + eapply is_derive_ext; [|exact D]. intro x. cbv beta. unfold energy_rate. destruct (H7 x) as [-> [-> ->]]. reflexivity.
    + unfold acc_denergy_dP, acc_d2energy_dP2, acc_d2energy_dPdT. ring.
Qed.
Lemma storage_by_temperature : forall c e t k shift p' b0, water_by_temperature c e t -> heat_by_temperature e t ->
  let '(_, _, c0, d) := acc_block (c t) (e t) k t shift p' (shift * t + b0) in
  is_derive (fun x => water_rate (c x) (e x) k p' (shift * x + b0)) t c0 /\ is_derive (fun x => energy_rate (c x) (e x) k p' (shift * x + b0)) t d.
Proof.
  intros c e t k shift p' b0 [W1 [W2 [W3 [W4 [W5 W6]]]]] [H1 [H2 [H3 H4]]]. unfold acc_block. split.
  - pose proof (water_rate_derive _ _ _ _ _ _ (fun _ => p') _ t (k_por k) (k_vol k) 0 _ _ _ _ _ _ 0 _ W1 W3 W2 W4 W5 W6 (is_derive_const p' t) (affine_derive shift b0 t)) as D.
    match type of D with is_derive _ _ ?l => match goal with |- is_derive _ _ ?r => replace r with l; [|] end end.
    + eapply is_derive_ext; [|exact D]. intro x. cbv beta. unfold water_rate. req. ring.
    + unfold acc_dmass_dT, acc_d2mass_dT2, acc_d2mass_dPdT. ring.
  - pose proof (energy_rate_derive _ _ _ _ _ _ _ _ _ (fun _ => p') _ t (k_por k) (k_vol k) (e_rho_soil (e t) * e_c_soil (e t)) 0 _ _ _ _ _ _ _ _ _ 0 _ W1 W3 W2 W4 W5 W6 H1 H2 H3 (is_derive_const p' t) (affine_derive shift b0 t)) as D.
    match type of D with is_derive _ _ ?l => match goal with |- is_derive _ _ ?r => replace r with l; [|] end end.
    + eapply is_derive_ext; [|exact D]. intro x. cbv beta. unfold energy_rate. destruct (H4 x) as [-> ->]. req. ring.
    + unfold acc_denergy_dT, acc_d2energy_dT2, acc_d2energy_dPdT. ring.
Qed.

(** ** The pressure columns of one block *)

Lemma chop_near : forall x, Rabs (chop x - x) <= / 2 ^ 52.
Proof.
  intro x. unfold chop, epsilon. destruct (Rlt_dec (Rabs x) (/ 2 ^ 52)).
  - replace (0 - x) with (- x) by ring. rewrite Rabs_Ropp. lra.
  - replace (x - x) with 0 by ring. rewrite Rabs_R0. left. apply Rinv_0_lt_compat. apply pow_lt. lra.
Qed.

Lemma th_block_pressure : forall zup zdn tp den w d1 d2 d3 d4 c t tq, (0 <= zup)%Z -> (0 <= zdn)%Z -> zup <> zdn ->
  let cu := coeff (zup =? Z.of_nat c)%Z in let cd := coeff (zdn =? Z.of_nat c)%Z in
  let W := (cu * d1 + cd * d2) * v_k w * tp + den * ((if Rlt_dec tp 0 then cu else cd) * v_kP w) * tp + den * v_k w * t in
  let '(a, b, _, _) := val4 (th_block zup zdn tp den (lift w) (d1, d2, d3, d4) c t tq 0) in
  a = - chop W /\ b = - chop (W * v_h w + den * v_k w * tp * ((if Rlt_dec tp 0 then cu else cd) * v_hP w)).
Proof.
  intros zup zdn tp den w d1 d2 d3 d4 c t tq Pu Pd ND. cbv zeta. unfold th_block, lift. cbn [w_k w_kP w_kT w_h w_hP w_hT].
  assert (B1 : ((-1 <? zup)%Z && (Z.of_nat c =? zup)%Z) = (zup =? Z.of_nat c)%Z).
  { rewrite (Z.eqb_sym zup). destruct (Z.ltb_spec (-1) zup); [reflexivity|lia]. }
  assert (B2 : ((-1 <? zdn)%Z && (Z.of_nat c =? zdn)%Z) = (zdn =? Z.of_nat c)%Z).
  { rewrite (Z.eqb_sym zdn). destruct (Z.ltb_spec (-1) zdn); [reflexivity|lia]. }
  rewrite B1, B2.
  destruct (Z.eqb_spec zup (Z.of_nat c)) as [E|E], (Z.eqb_spec zdn (Z.of_nat c)) as [F|F]; try congruence; simpl coeff; destruct (Rlt_dec tp 0);
    unfold near_block, far_block, conduct, block_map, val4, val, fl1, fbind; (split; f_equal; f_equal; ring).
Qed.

Lemma settle : forall (g : R -> R) p l, is_derive g p l -> / 2 ^ 52 < Rabs (g p) ->
  locally p (fun x => rounded (g x) = g x /\ (if Rlt_dec (g x) 0 then true else false) = (if Rlt_dec (g p) 0 then true else false)).
Proof.
  intros g p l D H. assert (C : continuous g p) by (apply (ex_derive_continuous (V := R_NormedModule)); eexists; exact D).
  assert (EP : 0 < / 2 ^ 52) by (apply Rinv_0_lt_compat; apply pow_lt; lra).
  destruct (Rlt_dec (g p) 0) as [L|L].
  - assert (L' : g p < - / 2 ^ 52) by (rewrite Rabs_left in H by exact L; lra).
    assert (Q : locally p (fun x => g x < - / 2 ^ 52)) by (apply (C (fun y => y < - / 2 ^ 52)); apply (open_lt _ _ L')).
    revert Q. apply filter_imp. intros x Hx. unfold rounded. destruct (Rlt_dec (g x) 0) as [_|B]; [|lra]. split; [|reflexivity].
    destruct (Rlt_dec (Rabs (g x)) (/ 2 ^ 52)) as [B|_]; [|reflexivity]. rewrite Rabs_left in B by lra. lra.
  - assert (L' : / 2 ^ 52 < g p) by (rewrite Rabs_right in H by lra; lra).
    assert (Q : locally p (fun x => / 2 ^ 52 < g x)) by (apply (C (fun y => / 2 ^ 52 < y)); apply (open_gt _ _ L')).
    revert Q. apply filter_imp. intros x Hx. unfold rounded. destruct (Rlt_dec (g x) 0) as [B|_]; [lra|]. split; [|reflexivity].
    destruct (Rlt_dec (Rabs (g x)) (/ 2 ^ 52)) as [B|_]; [|reflexivity]. rewrite Rabs_right in B by lra. lra.
Qed.

(** Derivatives of sums, with a bound on the distance to [f]. *)
Lemma total_derive_near : forall (q : nat -> R -> R) (f h : nat -> R) p n,
  (forall j, (j < n)%nat -> exists d, is_derive (q j) p d /\ Rabs (f j - d) <= h j) ->
  exists d, is_derive (fun x => total (fun j => q j x) n) p d /\ Rabs (total f n - d) <= total h n.
Proof.
  intros q f h p n H. induction n as [|n IH]; cbn [total].
  - exists 0. split; [apply (is_derive_const 0)|]. rewrite Rminus_0_r, Rabs_R0. lra.
  - destruct IH as [d [D B]]; [intros; apply H; lia|]. destruct (H n ltac:(lia)) as [d' [D' B']]. exists (d + d'). split.
    + apply (is_derive_plus (V := R_NormedModule) (fun x => total (fun j => q j x) n) (fun x => q n x)); assumption.
    + replace (total f n + f n - (d + d')) with ((total f n - d) + (f n - d')) by ring. eapply Rle_trans; [apply Rabs_triang|]. lra.
Qed.

(** ** The pressure columns *)

Section Derivative.
Variables (m : mesh) (n N nb : nat) (nbf : list nat) (cs : list cell) (bs : list bnd) (hs : list heat) (hb : list R) (ts : list thermal) (gz TT GD : list R) (T Tq : Trans) (junk : nat -> nat -> R).
Variables (k : nat) (c : R -> cell) (e : R -> heat) (p : R) (TP : R -> list R) (t : thermal).
Local Notation csx x := (upd cs k (c x)).
Local Notation hsx x := (upd hs k (e x)).
Hypothesis GM : good_mesh m n N nb.
Hypothesis GS : good_state m N nb (csx p) bs (TP p) TT.
Hypothesis LT : forall x, length (TP x) = (4 * length (faces m))%nat.
Hypothesis GV : good_vertices m GD.
Hypothesis AT : allocated m T.
Hypothesis AQ : allocated m Tq.
Hypothesis Ln : length nbf = length (verts m).
Hypothesis Lh : length hs = N.
Hypothesis Lhb : length hb = nb.
Hypothesis Lt : length ts = N.
Hypothesis Lg : length gz = N.
Hypothesis CE : cells_exist m N.
Hypothesis NG : forall g, In g gz -> g = 0.
Hypothesis Hk : (k < N)%nat.
Hypothesis Et : nth_error ts k = Some t.
Hypothesis CC : consistent c p.
Hypothesis CH : heat_by_pressure e p (t_dh_dP t).
Hypothesis PT : product_of m T k TP.
Hypothesis FL : flowing m (TP p).

Definition water_q (x : R) (iv j : nat) : R :=
  match subface m iv j with
  | Some (v, f, a) =>
      match side_at (csx x) bs (f_up f), side_at (csx x) bs (f_dn f) with
      | Ok up, Ok dn => let tp := rounded (nth a (TP x) 0) in - mean_density up dn * mobility (if Rlt_dec tp 0 then up else dn) * tp
      | _, _ => 0
      end
  | None => 0
  end.
Definition energy_q (x : R) (iv j : nat) : R :=
  match subface m iv j with
  | Some (v, f, a) =>
      let tp := rounded (nth a (TP x) 0) in
      water_q x iv j * side_value (map e_h (hsx x)) hb (if Rlt_dec tp 0 then f_up f else f_dn f) - rounded (nth a TT 0)
  | None => 0
  end.
Lemma water_q_ok : forall x, on_faces m (csx x) bs (th_water (TP x)) (water_q x).
Proof.
  intros x iv j v f a up dn E _ Au Ad. unfold water_q, th_water. rewrite E, (side_at_spec _ _ _ _ Au), (side_at_spec _ _ _ _ Ad). reflexivity.
Qed.
Lemma energy_q_ok : forall x, on_faces m (csx x) bs (th_energy (hsx x) hb (TP x) TT) (energy_q x).
Proof.
  intros x iv j v f a up dn E _ Au Ad. unfold energy_q, water_q, th_energy. rewrite E, (side_at_spec _ _ _ _ Au), (side_at_spec _ _ _ _ Ad). cbv zeta. reflexivity.
Qed.

Lemma nth_hk : forall x, nth_error (hsx x) k = Some (e x).
Proof. intro x. rewrite nth_upd, Nat.eqb_refl. destruct (Nat.ltb_spec k (length hs)); [reflexivity|lia]. Qed.

Lemma value_derive : forall z, is_derive (fun x => side_value (map e_h (hsx x)) hb z) p (coeff (z =? Z.of_nat k)%Z * side_dh ts z).
Proof.
  intro z. unfold side_value, side_dh. destruct (Z.eqb_spec z (Z.of_nat k)) as [->|NE].
  - destruct (Z.leb_spec 0 (Z.of_nat k)); [|lia]. rewrite Nat2Z.id, Et. simpl coeff. rewrite Rmult_1_l. destruct CH as [D _].
    eapply is_derive_ext; [|exact D]. intro x. req. symmetry. apply nth_error_nth. rewrite nth_error_map, nth_hk. reflexivity.
  - simpl coeff. rewrite Rmult_0_l. destruct (Z.leb_spec 0 z).
    + apply (is_derive_ext (fun _ => nth (Z.to_nat z) (map e_h hs) 0)); [|apply (is_derive_const (V := R_NormedModule))]. intro x. req.
      rewrite <- !(nth_default_eq (Z.to_nat z)). unfold nth_default. rewrite !nth_error_map, nth_upd. destruct (Nat.eqb_spec k (Z.to_nat z)); [lia|reflexivity].
    + apply (is_derive_const (V := R_NormedModule)).
Qed.

(** Derivatives of the fluxes of one sub-face between cells; the code has them up to
    the size of the entries that it drops. *)
Lemma fluxes_derive : forall iv j v f a, subface m iv j = Some (v, f, a) -> active v f = true -> between f = true -> skipped nbf iv v = false ->
  exists dw de, is_derive (fun x => water_q x iv j) p dw /\ is_derive (fun x => energy_q x iv j) p de
  /\ (forall i, Rabs (row_sum m nbf (csx p) bs (hsx p) hb ts gz (TP p) T Tq iv j (2 * i) (2 * k) - dw) <= / 2 ^ 52)
  /\ (forall i, Rabs (row_sum m nbf (csx p) bs (hsx p) hb ts gz (TP p) T Tq iv j (2 * i + 1) (2 * k) - de) <= / 2 ^ 52).
Proof.
  intros iv j v f a Es A BT SK. destruct (subface_inv _ _ _ _ _ _ Es) as [Hv [Hj _]].
  destruct (subface_ok m n N nb (csx p) bs (TP p) TT GM GS iv v j Hv Hj) as [a' [s [f' [up [dn [tp [G [Ra [Rs [Rf [Es' [Eu [Ed [Au [Ad [Vu [Vd [Rt [RG _]]]]]]]]]]]]]]]]]]].
  rewrite Es in Es'. injection Es' as <- Ea. rewrite <- Ea in *.
  assert (IF : In f (faces m)) by (apply (nth_error_In _ a'); apply rd_inv; exact Rf).
  destruct (gm_face _ _ _ _ GM f IF) as [Hu Hd].
  unfold between in BT. apply andb_true_iff in BT. destruct BT as [PU PD]. apply Z.leb_le in PU. apply Z.leb_le in PD.
  destruct (side_family m N nb cs bs TT k c p TP GS Hk CC _ _ Au) as [U [EU [Up VU]]].
  destruct (side_family m N nb cs bs TT k c p TP GS Hk CC _ _ Ad) as [D [ED [Dp VD]]].
  assert (NC : ~ closed m f) by (intros [_ [H|H]]; lia).
  destruct (proj2 (PT iv j v f a Es A) NC) as [t0 Etp].
  set (g := fun x => t0 + column T iv v j k * x).
  assert (Eg : forall x, nth a (TP x) 0 = g x) by (intro x; apply nth_error_nth; apply Etp).
  assert (Dg : is_derive g p (column T iv v j k)) by (unfold g; auto_derive; [exact I|ring]).
  assert (Fp : / 2 ^ 52 < Rabs (g p)) by (rewrite <- Eg; apply (FL iv j v f a Es A PU PD)).
  assert (Rg : rounded (g p) = g p).
  { unfold rounded. destruct (Rlt_dec (Rabs (g p)) (/ 2 ^ 52)); [lra|reflexivity]. }
  assert (ND : f_up f <> f_dn f) by (apply (gv_sides m GD GV); exact IF).
  assert (V1 : varies DirichletBC 0 p U (coeff (f_up f =? Z.of_nat k)%Z * drho up) (coeff (f_up f =? Z.of_nat k)%Z * dmob up)) by (destruct VU as [X [Y _]]; split; [exact X|split; [exact Y|reflexivity]]).
  assert (V2 : varies DirichletBC 0 p D (coeff (f_dn f =? Z.of_nat k)%Z * drho dn) (coeff (f_dn f =? Z.of_nat k)%Z * dmob dn)) by (destruct VD as [X [Y _]]; split; [exact X|split; [exact Y|reflexivity]]).
  assert (NZ : drive (U p) (D p) (g p) 0 <> 0).
  { unfold drive. rewrite Rmult_0_r, Rplus_0_r. intro Z. rewrite Z, Rabs_R0 in Fp. assert (0 < / 2 ^ 52) by (apply Rinv_0_lt_compat; apply pow_lt; lra). lra. }
  pose proof (flux_derive DirichletBC 0 p U D g 0 _ _ _ _ _ V1 V2 Dg NZ) as FD. cbv zeta in FD.
  replace (drive (U p) (D p) (g p) 0) with (g p) in FD by (unfold drive; ring).
  set (zs := if Rlt_dec (g p) 0 then f_up f else f_dn f).
  assert (LW : locally p (fun x => water_q x iv j = the_flux DirichletBC 0 (U x) (D x) (g x) 0 /\
     energy_q x iv j = the_flux DirichletBC 0 (U x) (D x) (g x) 0 * side_value (map e_h (hsx x)) hb zs - rounded (nth a TT 0))).
  { generalize (settle g p _ Dg Fp). apply filter_imp. intros x [X1 X2].
    assert (WQ : water_q x iv j = the_flux DirichletBC 0 (U x) (D x) (g x) 0).
    { unfold water_q. rewrite Es, EU, ED, Eg, X1. unfold the_flux, drive. rewrite Rmult_0_r, Rplus_0_r. cbv zeta. reflexivity. }
    split; [exact WQ|]. unfold energy_q. rewrite Es, Eg, X1, WQ. cbv zeta. do 3 f_equal. unfold zs. destruct (Rlt_dec (g x) 0), (Rlt_dec (g p) 0); try discriminate; reflexivity. }
  match type of FD with is_derive _ _ ?l => set (dw := l) in FD end.
  assert (FE : is_derive (fun x => the_flux DirichletBC 0 (U x) (D x) (g x) 0 * side_value (map e_h (hsx x)) hb zs - rounded (nth a TT 0)) p
    (dw * side_value (map e_h (hsx p)) hb zs + the_flux DirichletBC 0 (U p) (D p) (g p) 0 * (coeff (zs =? Z.of_nat k)%Z * side_dh ts zs))).
  { match goal with |- is_derive ?f p ?l => cut (exists l', l' = l /\ is_derive f p l'); [intros [l' [<- H]]; exact H|] end. eexists. split; cycle 1.
    - apply (is_derive_minus (V := R_NormedModule)); [|apply (is_derive_const (V := R_NormedModule))].
      apply (is_derive_mult (fun x => the_flux DirichletBC 0 (U x) (D x) (g x) 0) (fun x => side_value (map e_h (hsx x)) hb zs)); [exact FD|apply value_derive|intros; apply Rmult_comm].
    - unfold minus, opp, plus, zero, Hierarchy.mult; simpl. req. ring. }
  match type of FE with is_derive _ _ ?l => set (de := l) in FE end.
  exists dw, de. split; [|split].
  { eapply is_derive_ext_loc; [|exact FD]. revert LW. apply filter_imp. intros x [X _]. symmetry. exact X. }
  { eapply is_derive_ext_loc; [|exact FE]. revert LW. apply filter_imp. intros x [_ X]. symmetry. exact X. }
  assert (BD : between f = true) by (unfold between; destruct (Z.leb_spec 0 (f_up f)), (Z.leb_spec 0 (f_dn f)); try lia; reflexivity).
  pose proof GS as [Lc [Lb [Vc [Vb _]]]].
  assert (Lh' : length (hsx p) = N) by (rewrite length_upd; exact Lh).
  assert (UW : exists w, upwind_at (csx p) bs (hsx p) hb ts zs = Ok (lift w) /\ v_k w = mobility (if Rlt_dec (g p) 0 then up else dn) /\ v_kP w = dmob (if Rlt_dec (g p) 0 then up else dn)
     /\ v_h w = side_value (map e_h (hsx p)) hb zs /\ v_hP w = side_dh ts zs).
  { unfold zs. destruct (Rlt_dec (g p) 0); [apply (upwind_ok _ _ _ _ _ N nb Lc Lb Lh' Lhb Lt Vc Vb _ _ Hu Au)|apply (upwind_ok _ _ _ _ _ N nb Lc Lb Lh' Lhb Lt Vc Vb _ _ Hd Ad)]. }
  destruct UW as [w [Ew [Wk [WkP [Wh WhP]]]]].
  destruct (half_ok (map c_drho (csx p)) (f_up f) N) as [d1 [D1 X1]]; [rewrite map_length; exact Lc|lia|].
  destruct (half_ok (map c_drho (csx p)) (f_dn f) N) as [d2 [D2 X2]]; [rewrite map_length; exact Lc|lia|].
  destruct (half_ok (map e_drho_dT (hsx p)) (f_up f) N) as [d3 [D3 _]]; [rewrite map_length; exact Lh'|lia|].
  destruct (half_ok (map e_drho_dT (hsx p)) (f_dn f) N) as [d4 [D4 _]]; [rewrite map_length; exact Lh'|lia|].
  assert (Y : forall z (s : side) d, at_side (csx p) bs z s -> (0 <= z)%Z -> d = 0.5 * nth (Z.to_nat z) (map c_drho (csx p)) 0 -> d = drho s / 2).
  { intros z [x|x] d [P Q] P' ->; [|lia]. rewrite (nth_error_nth (map c_drho (csx p)) _ 0 (x := c_drho x)) by (rewrite nth_error_map, Q; reflexivity). simpl. lra. }
  pose proof (Y _ _ _ Au PU (X1 PU)) as Yu. pose proof (Y _ _ _ Ad PD (X2 PD)) as Yd. clear Y X1 X2.
  assert (CQ : forall icol, (icol < length (x_cells v))%nat -> nth icol (x_cells v) 0%nat = k ->
     let '(qa, qb, _, _) := col_quad m (csx p) bs (hsx p) hb ts gz (TP p) T Tq iv j icol in
     (column T iv v j k = coefficient T iv j icol -> Rabs (qa - dw) <= / 2 ^ 52 /\ Rabs (qb - de) <= / 2 ^ 52)).
  { intros icol Hi Ei. unfold col_quad. rewrite Es. cbv zeta. rewrite Eg, chop_rounded, Rg. fold zs. rewrite Ew, Eu, Ed, D1, D2, D3, D4, Ei, mean_density_code.
    assert (Z0 : nth k gz 0 = 0) by (apply NG; apply nth_In; lia). rewrite Z0.
    pose proof (th_block_pressure (f_up f) (f_dn f) (g p) (mean_density up dn) w d1 d2 d3 d4 k (coefficient T iv j icol) (coefficient Tq iv j icol) PU PD ND) as TB.
    cbv zeta in TB. destruct (val4 _) as [[[qa qb] qc] qd]. destruct TB as [Qa Qb]. intro Co.
    match type of Qa with _ = - chop ?w => set (W := w) in Qa, Qb end.
    assert (EW : dw = - W).
    { unfold dw, W. rewrite Up, Dp, Co, Yu, Yd, Wk, WkP. cbn [blocked]. destruct (Rlt_dec (g p) 0); req; field. }
    assert (EE : de = - (W * v_h w + mean_density up dn * v_k w * g p * ((if Rlt_dec (g p) 0 then coeff (f_up f =? Z.of_nat k)%Z else coeff (f_dn f =? Z.of_nat k)%Z) * v_hP w))).
    { unfold de. rewrite EW, Wh, WhP, Wk. unfold the_flux, drive. rewrite Rmult_0_r, Rplus_0_r. cbv zeta. cbn [blocked]. rewrite Up, Dp. unfold zs. destruct (Rlt_dec (g p) 0); req; ring. }
    split.
    - rewrite Qa, EW. replace (- chop W - - W) with (- (chop W - W)) by ring. rewrite Rabs_Ropp. apply chop_near.
    - rewrite Qb, EE. match goal with |- Rabs (- chop ?x - - ?x) <= _ => replace (- chop x - - x) with (- (chop x - x)) by ring end. rewrite Rabs_Ropp. apply chop_near. }
  assert (RS : forall r, row_sum m nbf (csx p) bs (hsx p) hb ts gz (TP p) T Tq iv j r (2 * k) =
     total (fun icol => coeff (nth icol (x_cells v) 0 =? k)%nat * sel r (2 * k) (col_quad m (csx p) bs (hsx p) hb ts gz (TP p) T Tq iv j icol)) (length (x_cells v))).
  { intro r. unfold row_sum. rewrite Es, BD, SK, half_2. reflexivity. }
  destruct (select_nodup (x_cells v) k (fun _ => 0) (gv_cells m GD GV v (nth_error_In _ _ Hv))) as [[i0 [L0 [E0 S0]]]|[NI S0]].
  - specialize (CQ i0 L0 E0). assert (Co : column T iv v j k = coefficient T iv j i0) by (unfold column; rewrite S0; reflexivity).
    split; intro i; rewrite RS, S0; unfold sel; destruct (col_quad m (csx p) bs (hsx p) hb ts gz (TP p) T Tq iv j i0) as [[[qa qb] qc] qd]; destruct (CQ Co) as [Q1 Q2];
      unfold pick; rewrite even_2; [rewrite even_2; exact Q1|rewrite even_21; exact Q2].
  - destruct (Z.eqb_spec (f_up f) (Z.of_nat k)) as [E|E]; [exfalso; apply NI; apply (gv_known m GD GV iv j v f a Es k); left; exact E|].
    destruct (Z.eqb_spec (f_dn f) (Z.of_nat k)) as [F|F]; [exfalso; apply NI; apply (gv_known m GD GV iv j v f a Es k); right; exact F|].
    assert (Co : column T iv v j k = 0) by (unfold column; apply S0).
    assert (EW : dw = 0) by (unfold dw; rewrite Co; cbn [blocked]; simpl coeff; destruct (Rlt_dec (g p) 0); req; field).
    assert (EE : de = 0).
    { unfold de. rewrite EW. replace (coeff (zs =? Z.of_nat k)%Z) with 0; [ring|]. unfold zs. destruct (Rlt_dec (g p) 0); [destruct (Z.eqb_spec (f_up f) (Z.of_nat k))|destruct (Z.eqb_spec (f_dn f) (Z.of_nat k))]; try congruence; reflexivity. }
    assert (EP : 0 < / 2 ^ 52) by (apply Rinv_0_lt_compat; apply pow_lt; lra).
    split; intro i; rewrite RS, S0; [rewrite EW|rewrite EE]; rewrite Rminus_0_r, Rabs_R0; lra.
Qed.

Lemma inside_unskipped : forall iv j v f a i, subface m iv j = Some (v, f, a) -> orientation m iv j i <> 0 -> inside m i ->
  active v f = true /\ between f = true /\ skipped nbf iv v = false.
Proof.
  intros iv j v f a i Es NZ IN. unfold orientation in NZ. rewrite Es in NZ. destruct (active v f) eqn:A; [|simpl in NZ; lra]. cbn [andb] in NZ.
  destruct (local_cell m i); [|lra].
  assert (O : f_up f = Z.of_nat i \/ f_dn f = Z.of_nat i).
  { destruct (Z.eqb_spec (f_up f) (Z.of_nat i)); [left; assumption|]. destruct (Z.eqb_spec (f_dn f) (Z.of_nat i)); [right; assumption|]. simpl in NZ. lra. }
  destruct (IN iv j v f a Es O) as [PU PD]. split; [reflexivity|]. split; [unfold between; destruct (Z.leb_spec 0 (f_up f)), (Z.leb_spec 0 (f_dn f)); try lia; reflexivity|].
  unfold skipped. destruct (subface_inv _ _ _ _ _ _ Es) as [_ [_ [b [s [_ [_ [Ef _]]]]]]].
  pose proof (gv_sides m GD GV f (nth_error_In _ _ Ef)) as ND.
  assert (I1 : In (Z.to_nat (f_up f)) (x_cells v)) by (apply (gv_known m GD GV iv j v f a Es); left; lia).
  assert (I2 : In (Z.to_nat (f_dn f)) (x_cells v)) by (apply (gv_known m GD GV iv j v f a Es); right; lia).
  assert (L : (2 <= length (x_cells v))%nat).
  { destruct (x_cells v) as [|x [|y l]]; simpl in *; [contradiction| |lia]. destruct I1 as [I1|[]], I2 as [I2|[]]. exfalso. apply ND. lia. }
  destruct (Nat.ltb_spec (length (x_cells v)) 2); [lia|]. apply andb_false_r.
Qed.

Lemma outflows_derive : forall i, inside m i ->
  (exists dw, is_derive (fun x => outflow m (water_q x) i) p dw
    /\ Rabs (all_subfaces m (fun iv j => orientation m iv j i * row_sum m nbf (csx p) bs (hsx p) hb ts gz (TP p) T Tq iv j (2 * i) (2 * k)) - dw) <= / 2 ^ 52 * subfaces_of m i)
  /\ (exists de, is_derive (fun x => outflow m (energy_q x) i) p de
    /\ Rabs (all_subfaces m (fun iv j => orientation m iv j i * row_sum m nbf (csx p) bs (hsx p) hb ts gz (TP p) T Tq iv j (2 * i + 1) (2 * k)) - de) <= / 2 ^ 52 * subfaces_of m i).
Proof.
  intros i IN.
  assert (Q : forall iv j,
    (exists dw, is_derive (fun x => orientation m iv j i * water_q x iv j) p dw
      /\ Rabs (orientation m iv j i * row_sum m nbf (csx p) bs (hsx p) hb ts gz (TP p) T Tq iv j (2 * i) (2 * k) - dw) <= / 2 ^ 52 * Rabs (orientation m iv j i))
    /\ (exists de, is_derive (fun x => orientation m iv j i * energy_q x iv j) p de
      /\ Rabs (orientation m iv j i * row_sum m nbf (csx p) bs (hsx p) hb ts gz (TP p) T Tq iv j (2 * i + 1) (2 * k) - de) <= / 2 ^ 52 * Rabs (orientation m iv j i))).
  { intros iv j. destruct (Req_dec (orientation m iv j i) 0) as [Z|NZ].
    - rewrite Z. split; exists 0; (split; [apply (is_derive_ext (fun _ => 0)); [intro; req; ring|apply (is_derive_const 0)]|]); rewrite !Rmult_0_l, Rminus_0_r, Rabs_R0; lra.
    - destruct (subface m iv j) as [[[v f] a]|] eqn:Es; [|exfalso; apply NZ; unfold orientation; rewrite Es; reflexivity].
      destruct (inside_unskipped iv j v f a i Es NZ IN) as [A [BT SK]].
      destruct (fluxes_derive iv j v f a Es A BT SK) as [dw [de [X1 [X2 [X3 X4]]]]]. split.
      + exists (orientation m iv j i * dw). split; [apply (is_derive_scal (fun x => water_q x iv j)); exact X1|].
        rewrite <- Rmult_minus_distr_l, Rabs_mult, (Rmult_comm (Rabs (orientation m iv j i))). apply Rmult_le_compat_r; [apply Rabs_pos|apply X3].
      + exists (orientation m iv j i * de). split; [apply (is_derive_scal (fun x => energy_q x iv j)); exact X2|].
        rewrite <- Rmult_minus_distr_l, Rabs_mult, (Rmult_comm (Rabs (orientation m iv j i))). apply Rmult_le_compat_r; [apply Rabs_pos|apply X4]. }
  assert (SB : / 2 ^ 52 * subfaces_of m i = all_subfaces m (fun iv j => / 2 ^ 52 * Rabs (orientation m iv j i))).
  { unfold subfaces_of, all_subfaces. rewrite Rmult_comm, <- total_scale. apply total_ext. intros iv _. rewrite <- total_scale. apply total_ext. intros; ring. }
  rewrite SB. unfold outflow, all_subfaces. split.
  - apply (total_derive_near (fun iv x => total (fun j => orientation m iv j i * water_q x iv j) (rows m iv))). intros iv _.
    apply (total_derive_near (fun j x => orientation m iv j i * water_q x iv j)). intros j _. apply (Q iv j).
  - apply (total_derive_near (fun iv x => total (fun j => orientation m iv j i * energy_q x iv j) (rows m iv))). intros iv _.
    apply (total_derive_near (fun j x => orientation m iv j i * energy_q x iv j)). intros j _. apply (Q iv j).
Qed.

Lemma term2_derive : forall (w : R -> nat -> cell -> heat -> rock -> R) (dw : R) i,
  (forall x c' e' r, i <> k -> w x i c' e' r = w p i c' e' r) ->
  (forall r, i = k -> nth_error (rocks m) k = Some r -> k_local r = true -> is_derive (fun x => w x k (c x) (e x) r) p dw) ->
  local_cell m i = true -> (i < N)%nat ->
  is_derive (fun x => term2 m (csx x) (hsx x) (w x) i) p (coeff (i =? k)%nat * dw).
Proof.
  intros w dw i Ho Hs LL Hi. unfold local_cell in LL. destruct (nth_error (rocks m) i) as [r|] eqn:Er; [|discriminate].
  destruct (Nat.eqb_spec i k) as [->|NE].
  - simpl coeff. rewrite Rmult_1_l.
    apply (is_derive_ext (fun x => w x k (c x) (e x) r)); [|apply Hs; auto]. intro x. unfold term2, term.
    rewrite nth_hk, (nth_k m N nb cs bs TT k c p TP GS Hk), Er, LL. reflexivity.
  - simpl coeff. rewrite Rmult_0_l. apply (is_derive_ext (fun _ => term2 m cs hs (w p) i)); [|apply (is_derive_const (V := R_NormedModule))].
    intro x. unfold term2, term. rewrite !nth_upd. destruct (Nat.eqb_spec k i); [lia|]. destruct (nth_error hs i) as [e'|]; [|reflexivity].
    destruct (nth_error cs i) as [c'|]; [|reflexivity]. rewrite Er, LL. symmetry. apply Ho. exact NE.
Qed.

Lemma pressure_columns : forall shift b0 du u, (2 * N <= length du)%nat -> (2 * N <= length u)%nat -> (forall i, (i < N)%nat -> local_cell m i = true <-> (i < n)%nat) ->
  exists B, IJacobian_TH m nbf (csx p) bs (hsx p) hb ts gz (TP p) T Tq junk shift (upd du (2 * k) (shift * p + b0)) u = Ok B /\
  forall i, (i < n)%nat -> (n <= N)%nat -> inside m i ->
    let residual a x := component (IFunction_TH m (csx x) bs (hsx x) hb (TP x) TT (upd du (2 * k) (shift * x + b0)) u n) (2 * i + a) in
    near_derivative B (2 * i) (2 * k) (residual 0%nat) p (/ 2 ^ 52 * subfaces_of m i) /\ near_derivative B (2 * i + 1) (2 * k) (residual 1%nat) p (/ 2 ^ 52 * subfaces_of m i).
Proof.
  intros shift b0 du u L1 L2 OF. destruct CE as [CE1 CE2].
  assert (Lh' : forall x, length (hsx x) = N) by (intro; rewrite length_upd; exact Lh).
  destruct (IJacobian_TH_ok m n N nb nbf (csx p) bs (hsx p) hb ts gz (TP p) TT GD T Tq junk GM GS GV AT AQ Ln (Lh' p) Lhb Lt Lg CE1 CE2 shift (upd du (2 * k) (shift * p + b0)) u
    ltac:(rewrite length_upd; exact L1) L2) as [B0 [B [_ [EB [_ HB]]]]].
  exists B. split; [exact EB|]. intros i Hi HnN IN. cbv zeta.
  assert (LL : local_cell m i = true) by (apply OF; lia).
  destruct (outflows_derive i IN) as [[dw [DW BW]] [de [DE BE]]].
  set (D := fun x => upd du (2 * k) (shift * x + b0)).
  assert (N1 : forall x, nth (2 * k) (D x) 0 = shift * x + b0).
  { intro x. apply nth_error_nth. unfold D. rewrite nth_upd, Nat.eqb_refl. destruct (Nat.ltb_spec (2 * k) (length du)); [reflexivity|lia]. }
  assert (N2 : forall x q, q <> (2 * k)%nat -> nth q (D x) 0 = nth q du 0).
  { intros x q NE. unfold D. rewrite <- !(nth_default_eq q). unfold nth_default. rewrite nth_upd. destruct (Nat.eqb_spec (2 * k) q); [lia|reflexivity]. }
  assert (RES : locally p (fun x => exists r, IFunction_TH m (csx x) bs (hsx x) hb (TP x) TT (D x) u n = Ok r /\ two_equations r n
    (fun i => outflow m (water_q x) i + term2 m (csx x) (hsx x) (fun i c e k => water_rate c e k (nth (2 * i) (D x) 0) (nth (2 * i + 1) (D x) 0) - k_src k * k_vol k) i)
    (fun i => outflow m (energy_q x) i + term2 m (csx x) (hsx x) (fun i c e k => energy_rate c e k (nth (2 * i) (D x) 0) (nth (2 * i + 1) (D x) 0) - e_src e * k_vol k) i))).
  { generalize (good_near m N nb cs bs TT k c p TP GS LT Hk CC). apply filter_imp. intros x Gx.
    apply (th_ok m n N nb (csx x) bs (hsx x) hb (TP x) TT GM Gx (Lh' x) Lhb (water_q x) (energy_q x) (water_q_ok x) (energy_q_ok x)); [unfold D; rewrite length_upd; exact L1|exact L2|exact OF]. }
  assert (SB : forall r, i = k -> nth_error (rocks m) k = Some r -> k_local r = true ->
     let '(qa, qb, _, _) := acc_quad m (csx p) (hsx p) shift (D p) u i in
     is_derive (fun x => water_rate (c x) (e x) r (nth (2 * k) (D x) 0) (nth (2 * k + 1) (D x) 0) - k_src r * k_vol r) p qa
     /\ is_derive (fun x => energy_rate (c x) (e x) r (nth (2 * k) (D x) 0) (nth (2 * k + 1) (D x) 0) - e_src (e x) * k_vol r) p qb).
  { intros r -> Er Lr. unfold acc_quad. rewrite nth_hk, (nth_k m N nb cs bs TT k c p TP GS Hk), Er, Lr. rewrite N1, (N2 p (2 * k + 1)%nat) by lia.
    pose proof (storage_by_pressure c e p _ r (nth (2 * k + 1) u 0) shift b0 (nth (2 * k + 1) du 0) CC CH) as SP.
    destruct (acc_block _ _ _ _ _ _ _) as [[[qa qb] qc] qd]. destruct SP as [S1 S2]. split.
    - eapply is_derive_ext; [|exact S1]. intro x. rewrite N1, N2 by lia. reflexivity.
    - eapply is_derive_ext; [|exact S2]. intro x. rewrite N1, N2 by lia. reflexivity. }
  assert (OTH : forall x, i <> k -> nth (2 * i) (D x) 0 = nth (2 * i) (D p) 0 /\ nth (2 * i + 1) (D x) 0 = nth (2 * i + 1) (D p) 0).
  { intros x NE. rewrite !N2 by lia. split; reflexivity. }
  split.
  - exists (all_subfaces m (fun iv j => orientation m iv j i * row_sum m nbf (csx p) bs (hsx p) hb ts gz (TP p) T Tq iv j (2 * i) (2 * k)) + coeff (i =? k)%nat * sel (2 * i) (2 * k) (acc_quad m (csx p) (hsx p) shift (D p) u i)).
    exists (dw + coeff (i =? k)%nat * sel (2 * i) (2 * k) (acc_quad m (csx p) (hsx p) shift (D p) u i)).
    split; [rewrite HB, !half_2; reflexivity|]. split.
    + exists (fun x => outflow m (water_q x) i + term2 m (csx x) (hsx x) (fun i c e k => water_rate c e k (nth (2 * i) (D x) 0) (nth (2 * i + 1) (D x) 0) - k_src k * k_vol k) i). split.
      * revert RES. apply filter_imp. intros x [r [E [_ H]]]. fold (D x). rewrite E. replace (2 * i + 0)%nat with (2 * i)%nat by lia. unfold component. destruct (H i Hi) as [-> _]. reflexivity.
      * apply (is_derive_plus (V := R_NormedModule)); [exact DW|].
        apply (term2_derive (fun x i c e k => water_rate c e k (nth (2 * i) (D x) 0) (nth (2 * i + 1) (D x) 0) - k_src k * k_vol k)); [| |exact LL|lia].
        -- intros x c' e' r NE. destruct (OTH x NE) as [-> ->]. reflexivity.
        -- intros r Ek Er Lr. pose proof (SB r Ek Er Lr) as S1. destruct (acc_quad m (csx p) (hsx p) shift (D p) u i) as [[[qa qb] qc] qd]. unfold sel, pick. rewrite !even_2. apply S1.
    + match goal with |- Rabs ?x <= _ => match type of BW with Rabs ?y <= _ => replace x with y by ring end end. exact BW.
  - exists (all_subfaces m (fun iv j => orientation m iv j i * row_sum m nbf (csx p) bs (hsx p) hb ts gz (TP p) T Tq iv j (2 * i + 1) (2 * k)) + coeff (i =? k)%nat * sel (2 * i + 1) (2 * k) (acc_quad m (csx p) (hsx p) shift (D p) u i)).
    exists (de + coeff (i =? k)%nat * sel (2 * i + 1) (2 * k) (acc_quad m (csx p) (hsx p) shift (D p) u i)).
    split; [rewrite HB, half_2, half_21; reflexivity|]. split.
    + exists (fun x => outflow m (energy_q x) i + term2 m (csx x) (hsx x) (fun i c e k => energy_rate c e k (nth (2 * i) (D x) 0) (nth (2 * i + 1) (D x) 0) - e_src e * k_vol k) i). split.
      * revert RES. apply filter_imp. intros x [r [E [_ H]]]. fold (D x). rewrite E. unfold component. destruct (H i Hi) as [_ ->]. reflexivity.
      * apply (is_derive_plus (V := R_NormedModule)); [exact DE|].
        apply (term2_derive (fun x i c e k => energy_rate c e k (nth (2 * i) (D x) 0) (nth (2 * i + 1) (D x) 0) - e_src e * k_vol k)); [| |exact LL|lia].
        -- intros x c' e' r NE. destruct (OTH x NE) as [-> ->]. reflexivity.
        -- intros r Ek Er Lr. pose proof (SB r Ek Er Lr) as S1. destruct (acc_quad m (csx p) (hsx p) shift (D p) u i) as [[[qa qb] qc] qd]. unfold sel, pick. rewrite even_2, even_21. apply S1.
    + match goal with |- Rabs ?x <= _ => match type of BE with Rabs ?y <= _ => replace x with y by ring end end. exact BE.
Qed.
End Derivative.

(** ** The storage terms *)

Lemma storage_blocks : forall m n N nb nbf cs bs hs hb ts gz TP TT GD T Tq junk,
  good_mesh m n N nb -> good_state m N nb cs bs TP TT -> good_vertices m GD -> allocated m T -> allocated m Tq ->
  length nbf = length (verts m) -> length hs = N -> length hb = nb -> length ts = N -> length gz = N -> cells_exist m N ->
  forall shift du u, (2 * N <= length du)%nat -> (2 * N <= length u)%nat ->
  exists B0 B Q, IJacobian_Vertices_TH m nbf cs bs hs hb ts gz TP T Tq junk [] = Ok B0 /\ IJacobian_TH m nbf cs bs hs hb ts gz TP T Tq junk shift du u = Ok B
  /\ (forall i j a b, (a < 2)%nat -> (b < 2)%nat -> exists x, Fvtpf.entry B0 (Z.of_nat (2 * i + a)) (Z.of_nat (2 * j + b)) = Some x
        /\ Fvtpf.entry B (Z.of_nat (2 * i + a)) (Z.of_nat (2 * j + b)) = Some (x + if (i =? j)%nat then Q i a b else 0))
  /\ forall i k, nth_error (rocks m) i = Some k ->
     (k_local k = false -> forall a b, Q i a b = 0) /\
     (k_local k = true ->
      (forall c e p dh b0, nth_error cs i = Some (c p) -> nth_error hs i = Some (e p) -> consistent c p -> heat_by_pressure e p dh -> nth (2 * i) du 0 = shift * p + b0 ->
         is_derive (fun x => water_rate (c x) (e x) k (shift * x + b0) (nth (2 * i + 1) du 0)) p (Q i 0%nat 0%nat)
         /\ is_derive (fun x => energy_rate (c x) (e x) k (shift * x + b0) (nth (2 * i + 1) du 0)) p (Q i 1%nat 0%nat))
      /\ (forall c e t b0, nth_error cs i = Some (c t) -> nth_error hs i = Some (e t) -> water_by_temperature c e t -> heat_by_temperature e t ->
           nth (2 * i + 1) u 0 = t -> nth (2 * i + 1) du 0 = shift * t + b0 ->
         is_derive (fun x => water_rate (c x) (e x) k (nth (2 * i) du 0) (shift * x + b0)) t (Q i 0%nat 1%nat)
         /\ is_derive (fun x => energy_rate (c x) (e x) k (nth (2 * i) du 0) (shift * x + b0)) t (Q i 1%nat 1%nat))).
Proof.
  intros m n N nb nbf cs bs hs hb ts gz TP TT GD T Tq junk GM GS GV AT AQ Ln Lh Lhb Lt Lg [Cells Wet] shift du u L1 L2.
  destruct (IJacobian_TH_ok m n N nb nbf cs bs hs hb ts gz TP TT GD T Tq junk GM GS GV AT AQ Ln Lh Lhb Lt Lg Cells Wet shift du u L1 L2) as [B0 [B [E0 [E [H0 H]]]]].
  exists B0, B, (fun i a b => sel a b (acc_quad m cs hs shift du u i)). split; [exact E0|]. split; [exact E|]. split.
  - intros i j a b Ha Hb. eexists. split; [apply H0|]. rewrite H. f_equal.
    assert (D : forall x y, (y < 2)%nat -> ((2 * x + y) / 2 = x)%nat) by (intros x y Hy; rewrite Nat.mul_comm, Nat.div_add_l by lia; rewrite (Nat.div_small y 2) by exact Hy; lia).
    assert (PE : forall x y, Nat.even (2 * x + y) = Nat.even y) by (intros x y; rewrite Nat.add_comm, Nat.even_add_mul_2; reflexivity).
    assert (SE : forall q, sel (2 * i + a) (2 * j + b) q = sel a b q) by (intros [[[x0 x1] x2] x3]; unfold sel, pick; rewrite !PE; reflexivity).
    f_equal. rewrite (D j b Hb), (D i a Ha), SE. unfold coeff. destruct (i =? j)%nat; ring.
  - intros i k Ek. split.
    + intros Lk a b. unfold acc_quad. rewrite Ek, Lk. destruct (nth_error hs i); [|apply sel_zero]. destruct (nth_error cs i); apply sel_zero.
    + intro Lk. split.
      * intros c e p dh b0 Ec Ee C Hc Ed. unfold acc_quad. rewrite Ec, Ee, Ek, Lk, Ed.
        pose proof (storage_by_pressure c e p dh k (nth (2 * i + 1) u 0) shift b0 (nth (2 * i + 1) du 0) C Hc) as K.
        destruct (acc_block (c p) (e p) k (nth (2 * i + 1) u 0) shift (shift * p + b0) (nth (2 * i + 1) du 0)) as [[[a b] c0] d]. destruct K as [K1 K2].
        unfold sel, pick. cbn [Nat.even]. split.
        -- replace a with (a + 0) by ring. eapply is_derive_ext; [|exact (is_derive_plus _ _ _ _ _ K1 (is_derive_const (k_src k * k_vol k) p))]. intro x. cbv beta. unfold plus; simpl. ring.
        -- replace b with (b + 0) by ring. eapply is_derive_ext; [|exact (is_derive_plus _ _ _ _ _ K2 (is_derive_const (e_src (e p) * k_vol k) p))]. intro x. cbv beta. unfold plus; simpl.
           destruct Hc as [_ [_ [_ [_ [_ [_ Hc]]]]]]. destruct (Hc x) as [_ [_ ->]]. ring.
      * intros c e t b0 Ec Ee W Hc Et Ed. unfold acc_quad. rewrite Ec, Ee, Ek, Lk, Ed, Et.
        pose proof (storage_by_temperature c e t k shift (nth (2 * i) du 0) b0 W Hc) as K.
        destruct (acc_block (c t) (e t) k t shift (nth (2 * i) du 0) (shift * t + b0)) as [[[a b] c0] d]. exact K.
Qed.
