(** An example: four hexahedra, two by two, around an edge. *)
From Coq Require Import List ZArith Arith Lia.
From Verif Require Import Prelude Arrays Mesh SpecMesh MeshProofs.
Import ListNotations.
Local Open Scope Z_scope.

(** Cells 0-3, vertices 4-21, faces 22-41, edges 42-74; the common edge is the
    eleventh, point 53, between the vertices 4 and 13. *)
Definition ex_strata : strata := mkStrata 4 22 42 75 22 42.
Definition ex_sizes : sizes := mkSizes 4 18 33 20 8 12 6 4 2 4 8 4.
Definition ex_cells : list (nat * list Z) := [
  (27%nat, [0; 0; 22; 0; 23; 0; 24; 0; 25; 0; 26; 0; 27; 0; 42; 0; 43; 0; 44; 0; 45; 0; 46; 0; 47; 0; 48; 0; 49; 0; 50; 0; 51; 0; 52; 0; 53; 0; 4; 0; 7; 0; 8; 0; 5; 0; 13; 0; 14; 0; 17; 0; 16; 0]);
  (27%nat, [1; 0; 28; 0; 29; 0; 30; 0; 31; 0; 32; 0; 26; 0; 44; 0; 54; 0; 55; 0; 56; 0; 57; 0; 58; 0; 59; 0; 47; 0; 60; 0; 50; 0; 53; 0; 61; 0; 5; 0; 8; 0; 9; 0; 6; 0; 14; 0; 15; 0; 18; 0; 17; 0]);
  (27%nat, [2; 0; 33; 0; 34; 0; 25; 0; 35; 0; 36; 0; 37; 0; 62; 0; 63; 0; 64; 0; 43; 0; 48; 0; 65; 0; 66; 0; 67; 0; 53; 0; 52; 0; 68; 0; 69; 0; 7; 0; 10; 0; 11; 0; 8; 0; 16; 0; 17; 0; 20; 0; 19; 0]);
  (27%nat, [3; 0; 38; 0; 39; 0; 31; 0; 40; 0; 41; 0; 36; 0; 64; 0; 70; 0; 71; 0; 54; 0; 59; 0; 72; 0; 73; 0; 65; 0; 61; 0; 53; 0; 69; 0; 74; 0; 8; 0; 11; 0; 12; 0; 9; 0; 17; 0; 18; 0; 21; 0; 20; 0])].
Definition ex_faces : list (nat * list Z * nat) := [
  (9%nat, [22; 0; 42; 0; 43; 0; 44; 0; 45; 0; 4; 0; 7; 0; 8; 0; 5; 0], 1%nat);
  (9%nat, [23; 0; 46; 0; 47; 0; 48; 0; 49; 0; 13; 0; 14; 0; 17; 0; 16; 0], 1%nat);
  (9%nat, [24; 0; 45; 0; 50; 0; 46; 0; 51; 0; 4; 0; 5; 0; 14; 0; 13; 0], 1%nat);
  (9%nat, [25; 0; 43; 0; 52; 0; 48; 0; 53; 0; 8; 0; 7; 0; 16; 0; 17; 0], 2%nat);
  (9%nat, [26; 0; 44; 0; 53; 0; 47; 0; 50; 0; 5; 0; 8; 0; 17; 0; 14; 0], 2%nat);
  (9%nat, [27; 0; 51; 0; 49; 0; 52; 0; 42; 0; 4; 0; 13; 0; 16; 0; 7; 0], 1%nat);
  (9%nat, [28; 0; 44; 0; 54; 0; 55; 0; 56; 0; 5; 0; 8; 0; 9; 0; 6; 0], 1%nat);
  (9%nat, [29; 0; 57; 0; 58; 0; 59; 0; 47; 0; 14; 0; 15; 0; 18; 0; 17; 0], 1%nat);
  (9%nat, [30; 0; 56; 0; 60; 0; 57; 0; 50; 0; 5; 0; 6; 0; 15; 0; 14; 0], 1%nat);
  (9%nat, [31; 0; 54; 0; 53; 0; 59; 0; 61; 0; 9; 0; 8; 0; 17; 0; 18; 0], 2%nat);
  (9%nat, [32; 0; 55; 0; 61; 0; 58; 0; 60; 0; 6; 0; 9; 0; 18; 0; 15; 0], 1%nat);
  (9%nat, [33; 0; 62; 0; 63; 0; 64; 0; 43; 0; 7; 0; 10; 0; 11; 0; 8; 0], 1%nat);
  (9%nat, [34; 0; 48; 0; 65; 0; 66; 0; 67; 0; 16; 0; 17; 0; 20; 0; 19; 0], 1%nat);
  (9%nat, [35; 0; 63; 0; 68; 0; 66; 0; 69; 0; 11; 0; 10; 0; 19; 0; 20; 0], 1%nat);
  (9%nat, [36; 0; 64; 0; 69; 0; 65; 0; 53; 0; 8; 0; 11; 0; 20; 0; 17; 0], 2%nat);
  (9%nat, [37; 0; 52; 0; 67; 0; 68; 0; 62; 0; 7; 0; 16; 0; 19; 0; 10; 0], 1%nat);
  (9%nat, [38; 0; 64; 0; 70; 0; 71; 0; 54; 0; 8; 0; 11; 0; 12; 0; 9; 0], 1%nat);
  (9%nat, [39; 0; 59; 0; 72; 0; 73; 0; 65; 0; 17; 0; 18; 0; 21; 0; 20; 0], 1%nat);
  (9%nat, [40; 0; 70; 0; 69; 0; 73; 0; 74; 0; 12; 0; 11; 0; 20; 0; 21; 0], 1%nat);
  (9%nat, [41; 0; 71; 0; 74; 0; 72; 0; 61; 0; 9; 0; 12; 0; 21; 0; 18; 0], 1%nat)].
Definition ex_stars : list (nat * list Z) := [
  (8%nat, [4; 0; 42; 0; 45; 0; 51; 0; 22; 0; 24; 0; 27; 0; 0; 0]);
  (12%nat, [5; 0; 44; 0; 45; 0; 50; 0; 56; 0; 22; 0; 24; 0; 26; 0; 28; 0; 30; 0; 0; 0; 1; 0]);
  (8%nat, [6; 0; 55; 0; 56; 0; 60; 0; 28; 0; 30; 0; 32; 0; 1; 0]);
  (12%nat, [7; 0; 42; 0; 43; 0; 52; 0; 62; 0; 22; 0; 25; 0; 27; 0; 33; 0; 37; 0; 0; 0; 2; 0]);
  (18%nat, [8; 0; 43; 0; 44; 0; 53; 0; 54; 0; 64; 0; 22; 0; 25; 0; 26; 0; 28; 0; 31; 0; 33; 0; 36; 0; 38; 0; 0; 0; 1; 0; 2; 0; 3; 0]);
  (12%nat, [9; 0; 54; 0; 55; 0; 61; 0; 71; 0; 28; 0; 31; 0; 32; 0; 38; 0; 41; 0; 1; 0; 3; 0]);
  (8%nat, [10; 0; 62; 0; 63; 0; 68; 0; 33; 0; 35; 0; 37; 0; 2; 0]);
  (12%nat, [11; 0; 63; 0; 64; 0; 69; 0; 70; 0; 33; 0; 35; 0; 36; 0; 38; 0; 40; 0; 2; 0; 3; 0]);
  (8%nat, [12; 0; 70; 0; 71; 0; 74; 0; 38; 0; 40; 0; 41; 0; 3; 0]);
  (8%nat, [13; 0; 46; 0; 49; 0; 51; 0; 23; 0; 24; 0; 27; 0; 0; 0]);
  (12%nat, [14; 0; 46; 0; 47; 0; 50; 0; 57; 0; 23; 0; 24; 0; 26; 0; 29; 0; 30; 0; 0; 0; 1; 0]);
  (8%nat, [15; 0; 57; 0; 58; 0; 60; 0; 29; 0; 30; 0; 32; 0; 1; 0]);
  (12%nat, [16; 0; 48; 0; 49; 0; 52; 0; 67; 0; 23; 0; 25; 0; 27; 0; 34; 0; 37; 0; 0; 0; 2; 0]);
  (18%nat, [17; 0; 47; 0; 48; 0; 53; 0; 59; 0; 65; 0; 23; 0; 25; 0; 26; 0; 29; 0; 31; 0; 34; 0; 36; 0; 39; 0; 0; 0; 1; 0; 2; 0; 3; 0]);
  (12%nat, [18; 0; 58; 0; 59; 0; 61; 0; 72; 0; 29; 0; 31; 0; 32; 0; 39; 0; 41; 0; 1; 0; 3; 0]);
  (8%nat, [19; 0; 66; 0; 67; 0; 68; 0; 34; 0; 35; 0; 37; 0; 2; 0]);
  (12%nat, [20; 0; 65; 0; 66; 0; 69; 0; 73; 0; 34; 0; 35; 0; 36; 0; 39; 0; 40; 0; 2; 0; 3; 0]);
  (8%nat, [21; 0; 72; 0; 73; 0; 74; 0; 39; 0; 40; 0; 41; 0; 3; 0])].

Lemma ex_numbered : numbered ex_strata ex_sizes.
Proof. split; [reflexivity|]. split; [reflexivity|]. split; [reflexivity|]. intro p. cbv zeta. cbn [v_start v_end e_start e_end f_start f_end ex_strata]. lia. Qed.
Lemma forallb_below : forall n (p : nat -> bool), forallb p (seq 0 n) = true -> forall v, (v < n)%nat -> p v = true.
Proof. intros n p H v Hv. rewrite forallb_forall in H. apply H. apply in_seq. lia. Qed.
Lemma ex_uniform : uniform ex_strata ex_sizes ex_cells.
Proof.
  split; [reflexivity|]. split; [cbn; lia|]. split; [cbn; lia|]. split.
  - intros cl H. unfold stored.
    assert (G : forallb (fun cl => (2 * fst cl <=? length (snd cl))%nat && (length (vertices_of ex_strata cl) =? 8)%nat &&
      (length (edges_of ex_strata cl) =? 12)%nat && (length (faces_of ex_strata cl) =? 6)%nat)%bool ex_cells = true) by (vm_compute; reflexivity).
    rewrite forallb_forall in G. specialize (G cl H). rewrite !Bool.andb_true_iff, !Nat.eqb_eq, Nat.leb_le in G. cbn [d_cv d_ce d_cf ex_sizes]. tauto.
  - intros v Hv. apply Nat.leb_le. revert v Hv.
    apply (forallb_below 18 (fun v => (length (around (Z.of_nat v) 0 (map (vertices_of ex_strata) ex_cells)) <=? Nat.min 4 8)%nat)). vm_compute. reflexivity.
Qed.
Lemma ex_fitting : fitting ex_strata ex_sizes ex_faces.
Proof.
  split; [reflexivity|]. split.
  - intros f H. unfold stored.
    assert (G : forallb (fun f => (2 * fst (fst f) <=? length (snd (fst f)))%nat && (length (vertices_of ex_strata (fst f)) =? 4)%nat &&
      (length (nodup Z.eq_dec (vertices_of ex_strata (fst f))) =? 4)%nat)%bool ex_faces = true) by (vm_compute; reflexivity).
    rewrite forallb_forall in G. specialize (G f H). rewrite !Bool.andb_true_iff, !Nat.eqb_eq, Nat.leb_le in G. destruct G as [[G1 G2] G3].
    split; [exact G1|]. split; [cbn [d_fv ex_sizes]; lia|].
    apply (@NoDup_incl_NoDup Z (nodup Z.eq_dec (vertices_of ex_strata (fst f)))); [apply NoDup_nodup|lia|].
    intros x Hx. apply nodup_In in Hx. exact Hx.
  - intros v Hv. apply Nat.leb_le. revert v Hv.
    apply (forallb_below 18 (fun v => (length (around (Z.of_nat v) 0 (map (fun f => vertices_of ex_strata (fst f)) ex_faces)) <=? 8)%nat)). vm_compute. reflexivity.
Qed.

Lemma connectivity_example :
  numbered ex_strata ex_sizes /\ uniform ex_strata ex_sizes ex_cells /\
  most 0 4 ex_stars = Ok 4%nat /\ most 22 42 ex_stars = Ok 8%nat /\
  exists s, cell_connectivity ex_strata ex_sizes ex_cells = Ok s /\
    (do t <- cell_table 4 8 (c_vert s); get_ids (fst t) (snd t) 3) = Ok [4; 7; 8; 5; 13; 14; 17; 16]%Z /\
    (do t <- vertex_cell_table ex_sizes s; get_ids (fst t) (snd t) 4) = Ok [0; 1; 2; 3]%Z /\
    (do t <- vertex_subcell_table ex_sizes s; get_ids (fst t) (snd t) 4) = Ok [2; 1; 3; 0]%Z /\
    (do t <- vertex_cell_table ex_sizes s; get_ids (fst t) (snd t) 14) = Ok [1; 3]%Z.
Proof.
  split; [exact ex_numbered|]. split; [exact ex_uniform|]. split; [vm_compute; reflexivity|]. split; [vm_compute; reflexivity|].
  eexists. split; [vm_compute; reflexivity|]. repeat split; vm_compute; reflexivity.
Qed.
Lemma edges_refuted :
  exists s, cell_connectivity ex_strata ex_sizes ex_cells = Ok s /\
    (forall c cl, nth_error ex_cells c = Some cl -> In 11%Z (edges_of ex_strata cl)) /\
    firstn 4 (skipn (11 * d_ec ex_sizes) (e_cell s)) = [0; 1; -1; -1]%Z.
Proof.
  eexists. split; [vm_compute; reflexivity|]. split; [|vm_compute; reflexivity].
  intros c cl H. apply nth_error_In in H.
  assert (G : forallb (fun cl => existsb (Z.eqb 11) (edges_of ex_strata cl)) ex_cells = true) by (vm_compute; reflexivity).
  rewrite forallb_forall in G. specialize (G cl H). apply existsb_exists in G. destruct G as [x [G1 G2]]. apply Z.eqb_eq in G2. subst x. exact G1.
Qed.
Lemma faces_example : fitting ex_strata ex_sizes ex_faces /\
  exists s, face_connectivity ex_strata ex_sizes ex_faces = Ok s /\
    (do t <- face_vertex_table ex_sizes s; get_ids (fst t) (snd t) 9) = Ok [5; 4; 13; 14]%Z /\
    (do t <- vertex_face_tables ex_sizes s; get_ids (fst t) (nth 0 (snd t) []) 4) = Ok [0; 3; 4; 6; 9; 11; 14; 16]%Z /\
    (do t <- vertex_face_tables ex_sizes s; get_ids (fst t) (nth 1 (snd t) []) 4) = Ok [2; 0; 1; 1; 1; 3; 0; 0]%Z /\
    (do t <- vertex_boundary_table ex_sizes s; get_ids (fst t) (snd t) 4) = Ok [0; 6; 11; 16]%Z.
Proof.
  split; [exact ex_fitting|]. eexists. split; [vm_compute; reflexivity|]. repeat split; vm_compute; reflexivity.
Qed.
Lemma count_refuted :
  exists s off, cell_connectivity ex_strata ex_sizes ex_cells = Ok s /\ face_cell_table ex_sizes s = Ok (off, f_cell s) /\
    nth_error (f_ncell s) 0 = Some 1%nat /\ get off 0 = Ok (0, 2) /\
    nth_error (f_ncell s) 19 = Some 1%nat /\ get off 19 = Ok (38, -39).
Proof. eexists. eexists. split; [vm_compute; reflexivity|]. split; [vm_compute; reflexivity|]. repeat split; vm_compute; reflexivity. Qed.
