(** The areas and centres of the faces of a conforming mesh, with the tables that the
    program itself sets up. *)
From Coq Require Import Reals Lra List ZArith Lia Permutation.
From Verif Require Import Prelude Arrays Geom SpecGeom SpecFaceGeo SpecCellGeo MeshFaces SpecMeshFaces MeshFacesTables MeshFacesSetup MeshFacesProofs
  SpecFaceAttr FaceCentre SpecFaceCentre FaceCentreProofs.
Import ListNotations.
Local Open Scope nat_scope.

Lemma located_ex coords l : (forall v, In v l -> exists p, at_ coords v p) -> exists ps, located coords l ps.
Proof.
  induction l as [|v l IH]; intro H; [exists []; constructor|].
  destruct (H v (or_introl eq_refl)) as [p Hp]. destruct IH as [ps Hps]; [intros w Hw; apply H; right; exact Hw|].
  exists (p :: ps). constructor; assumption.
Qed.
Lemma located_length coords l ps : located coords l ps -> length ps = length l.
Proof. induction 1; cbn; congruence. Qed.
Lemma located_map coords l ps : located coords l ps -> ps = map (fun i => nth (Z.to_nat i) coords (V3 0 0 0)) l.
Proof.
  induction 1 as [|v p l ps [_ E] _ IH]; [reflexivity|]. cbn [map]. f_equal; [|exact IH].
  symmetry. apply nth_error_nth, E.
Qed.
Lemma located_perm coords l l' ps ps' : Permutation l l' -> located coords l ps -> located coords l' ps' -> Permutation ps ps'.
Proof. intros P L L'. rewrite (located_map _ _ _ L), (located_map _ _ _ L'). apply Permutation_map, P. Qed.
Lemma sum_perm l l' : Permutation l l' -> sum l = sum l'.
Proof. induction 1; cbn in *; lra. Qed.
Lemma mean_perm ps ps' m : Permutation ps ps' -> mean ps m -> mean ps' m.
Proof.
  intros P [A [B C]]. unfold mean. rewrite <- (Permutation_length P).
  rewrite <- !(fun f => sum_perm _ _ (Permutation_map f P)). auto.
Qed.
Lemma rotation_perm {A} (l m : list A) : rotation l m -> Permutation l m.
Proof. intros [a [b [-> ->]]]. apply Permutation_app_comm. Qed.

Section Mesh.
Variables (nl ng : nat) (cnv : list nat) (cv : list (list Z)) (nbs : list (nat * list Z)) (coords : list v3).
Hypothesis CF : conforming nl ng cnv cv nbs.
Hypothesis CO : forall c v, c < ng -> In v (firstn (nth c cnv 0) (nth c cv [])) -> exists p, at_ coords v p.

Lemma side_known b k l : b < ng -> k < nsides cnv b -> rotation (side cnv cv b k) l ->
  Permutation (vtx cnv cv b k) l /\ exists ps, located coords l ps.
Proof.
  intros Hb Hk R. rewrite (nsides_nf nl ng cnv cv nbs CF) in Hk by exact Hb.
  assert (P : Permutation (vtx cnv cv b k) l).
  { eapply perm_trans; [apply Permutation_sym, rotation_perm, (side_rotation nl ng cnv cv nbs CF); assumption|apply rotation_perm, R]. }
  split; [exact P|]. apply located_ex. intros v Hv.
  destruct (vtx_in_cell nl ng cnv cv nbs CF b k v Hb Hk) as [q [Lq Eq]]; [apply Permutation_in with (2 := Hv), Permutation_sym, P|].
  apply (CO b v Hb). rewrite <- (firstn_skipn (nth b cnv 0) (nth b cv [])) in Eq.
  destruct (cf_kind _ _ _ _ _ CF b Hb) as [_ [Lb _]].
  rewrite nth_error_app1 in Eq by (rewrite firstn_length; lia). apply nth_error_In in Eq. exact Eq.
Qed.

(** The corners of the stored side are those of the side itself. *)
Lemma side_same b k c i l : b < ng -> c < ng -> k < nsides cnv b -> i < nsides cnv c ->
  (b = c /\ k = i) \/ (b < nl /\ b < c /\ common cnv cv b k c i) -> rotation (side cnv cv b k) l -> Permutation (side cnv cv c i) l.
Proof.
  intros Hb Hc Hk Hi O R. pose proof (proj1 (side_known b k l Hb Hk R)) as P.
  destruct O as [[-> ->]|[_ [_ C]]]; [apply rotation_perm, R|].
  rewrite (nsides_nf nl ng cnv cv nbs CF) in Hk by exact Hb. rewrite (nsides_nf nl ng cnv cv nbs CF) in Hi by exact Hc.
  eapply perm_trans; [apply rotation_perm, (side_rotation nl ng cnv cv nbs CF c i Hc Hi)|]. eapply perm_trans; [|exact P].
  apply NoDup_Permutation; [apply (vtx_nodup nl ng cnv cv nbs CF); assumption|apply (vtx_nodup nl ng cnv cv nbs CF); assumption|].
  intro v. symmetry. apply (common_in nl ng cnv cv nbs CF b k c i Hb Hc C).
Qed.

Theorem mesh_faces a0 : exists r g, setup_faces cnv cv nbs nl ng true = Ok r /\
  geo_of_faces cnv (f_cells r) (f_verts r) coords nl (f_num r) a0 = Ok g /\
  length (g_area g) = f_num r /\ length (g_cent g) = f_num r /\
  forall c i, c < nl -> i < nsides cnv c -> exists f b k l ps A m,
    entry (f_cells r) i c (Z.of_nat f) /\
    ((b = c /\ k = i) \/ (b < nl /\ b < c /\ common cnv cv b k c i)) /\ rotation (side cnv cv b k) l /\ located coords l ps /\
    nth_error (g_area g) f = Some A /\ nth_error (g_cent g) f = Some m /\
    (forall qs, located coords (side cnv cv c i) qs -> mean qs m) /\
    ((exists p q s, ps = [p; q; s] /\ A = triangle p q s) \/ (exists p q s t, ps = [p; q; s; t] /\ A = triangle p q s + triangle p s t)%R) /\
    (forall n, polygon n ps -> A = area n ps /\ 0 < A)%R.
Proof.
  destruct (tables_ok nl ng cnv cv nbs CF) as [r [E T]]. exists r. pose proof (cf_local _ _ _ _ _ CF) as Lg.
  assert (S : forall c i, c < nl -> i < 6 -> entry (f_cells r) i c (-1) /\ nsides cnv c <= i \/
    exists f b k l ps, f < f_num r /\ side_is cnv (f_cells r) (f_verts r) coords c i f ps /\
    ((b = c /\ k = i) \/ (b < nl /\ b < c /\ common cnv cv b k c i)) /\ rotation (side cnv cv b k) l /\ located coords l ps /\
    Permutation (side cnv cv c i) l).
  { intros c i Hc Hi. destruct (T c i ltac:(lia) Hi) as [[Hs [f [l [b [k [Hf [Hb [_ [Hk [O [Ec [R [Cl L]]]]]]]]]]]]]|[Hs Ec]]; [right|left; split; assumption].
    destruct (side_known b k l Hb Hk R) as [_ [ps Hps]]. pose proof (side_same b k c i l Hb ltac:(lia) Hk Hs O R) as P.
    exists f, b, k, l, ps. split; [exact Hf|]. split; [|auto]. split; [exact Ec|]. split.
    - exists l. split; [exact Cl|]. split; [exact Hps|]. destruct L as [L|[L M]]; [left; exact L|right]. split; [exact L|].
      exists (-1)%Z. split; [exact M|lia].
    - exists (nth c cnv 0). split; [apply nth_error_nth'; rewrite (cf_cnv _ _ _ _ _ CF); lia|]. split; [exact Hs|].
      rewrite (located_length _ _ _ Hps), <- (Permutation_length P). unfold side. apply map_length. }
  assert (N : numbered nl (f_num r) cnv (f_cells r) (f_verts r) coords).
  { intros c i Hc Hi. destruct (S c i Hc Hi) as [[H _]|[f [_ [_ [_ [ps [Hf [H _]]]]]]]]; [left; exact H|right; exists f, ps; split; assumption]. }
  destruct (faces_geo nl (f_num r) cnv (f_cells r) (f_verts r) coords a0 N) as [g [Eg [_ [L1 [L2 F]]]]].
  exists g. split; [exact E|]. split; [exact Eg|]. split; [exact L1|]. split; [exact L2|]. intros c i Hc Hi.
  assert (Hi6 : i < 6).
  { rewrite (nsides_nf nl ng cnv cv nbs CF) in Hi by lia. pose proof (nf6 cnv c). lia. }
  destruct (S c i Hc Hi6) as [[_ X]|[f [b [k [l [ps [Hf [[S1 [S2 S3]] [O [R [Hps P]]]]]]]]]]]; [lia|].
  destruct (F f Hf) as [[_ [_ [A [m [EA [Em G]]]]]]|[_ [X _]]]; [|exfalso; apply X; exists c, i; split; [exact Hc|split; [exact Hi6|exact S1]]].
  destruct (G ps S2) as [EQ M]. exists f, b, k, l, ps, A, m. split; [exact S1|]. split; [exact O|]. split; [exact R|]. split; [exact Hps|].
  split; [exact EA|]. split; [exact Em|]. split; [|split].
  - intros qs Hqs. apply mean_perm with (2 := M). apply (located_perm coords l (side cnv cv c i)); [apply Permutation_sym, P|exact Hps|exact Hqs].
  - destruct S2 as [l' [_ [HL LL]]]. apply located_length in HL. rewrite EQ.
    destruct LL as [LL|[LL _]]; rewrite LL in HL.
    + right. destruct ps as [|p [|q [|s [|t [|x ps]]]]]; try discriminate HL. exists p, q, s, t. split; reflexivity.
    + left. destruct ps as [|p [|q [|s [|t ps]]]]; try discriminate HL. exists p, q, s. split; reflexivity.
  - intros n Pn. destruct (flat_area n ps Pn) as [X Y]. rewrite EQ, X. split; [reflexivity|exact Y].
Qed.
End Mesh.
