(** A hexahedron with a pyramid on top and a wedge, which is a ghost, beside it. *)
From Coq Require Import List ZArith Arith Bool Lia.
From Verif Require Import Prelude Arrays UGrid MeshFaces SpecCellGeo SpecMeshFaces.
Import ListNotations.
Local Open Scope nat_scope.

Definition ex_cnv : list nat := [8; 5; 6].
Definition ex_cv : list (list Z) := [[0; 1; 2; 3; 4; 5; 6; 7]; [4; 5; 6; 7; 8; -1; -1; -1]; [1; 2; 9; 5; 6; 10; -1; -1]]%Z.
Definition ex_nbs : list (nat * list Z) := [(2%nat, [1; -2; -1; -1; -1; -1]); (1%nat, [0; -1; -1; -1; -1; -1])]%Z.

Definition subset (l m : list Z) : bool := forallb (fun x => existsb (Z.eqb x) m) l.
Definition commonb (c i d j : nat) : bool :=
  (i <? nsides ex_cnv c) && (j <? nsides ex_cnv d) && subset (side ex_cnv ex_cv c i) (side ex_cnv ex_cv d j) && subset (side ex_cnv ex_cv d j) (side ex_cnv ex_cv c i).
Lemma subset_incl l m : subset l m = true <-> incl l m.
Proof.
  unfold subset. rewrite forallb_forall. split; intros H x Hx.
  - specialize (H x Hx). apply existsb_exists in H as [y [Hy E]]. apply Z.eqb_eq in E. subst. exact Hy.
  - apply existsb_exists. exists x. split; [apply H, Hx|apply Z.eqb_refl].
Qed.
Lemma commonb_spec c i d j : common ex_cnv ex_cv c i d j <-> commonb c i d j = true.
Proof.
  unfold commonb, common. rewrite !andb_true_iff, !Nat.ltb_lt, !subset_incl. unfold incl. split.
  - intros [H1 [H2 H3]]. repeat split; try assumption; intros v; apply H3.
  - intros [[[H1 H2] H3] H4]. split; [exact H1|]. split; [exact H2|]. intro v. split; [apply H3|apply H4].
Qed.
Definition quads : list (nat * nat * nat * nat) := [(0, 5, 1, 4); (1, 4, 0, 5); (0, 1, 2, 0); (2, 0, 0, 1)].
Definition quad_eqb (p q : nat * nat * nat * nat) : bool :=
  let '(a, b, c, d) := p in let '(a', b', c', d') := q in (a =? a') && (b =? b') && (c =? c') && (d =? d').
Lemma ex_all : forallb (fun c => forallb (fun i => forallb (fun d => forallb (fun j =>
  (c =? d) || Bool.eqb (commonb c i d j) (existsb (quad_eqb (c, i, d, j)) quads)) (seq 0 6)) (seq 0 3)) (seq 0 6)) (seq 0 3) = true.
Proof. vm_compute. reflexivity. Qed.
Lemma ex_common c i d j : c < 3 -> d < 3 -> c <> d -> common ex_cnv ex_cv c i d j <-> In (c, i, d, j) quads.
Proof.
  intros Hc Hd N.
  assert (Eq : existsb (quad_eqb (c, i, d, j)) quads = true <-> In (c, i, d, j) quads).
  { rewrite existsb_exists. split.
    - intros [[[[a b] a'] b'] [H E]]. unfold quad_eqb in E. rewrite !andb_true_iff, !Nat.eqb_eq in E. destruct E as [[[-> ->] ->] ->]. exact H.
    - intro H. exists (c, i, d, j). split; [exact H|]. unfold quad_eqb. rewrite !Nat.eqb_refl. reflexivity. }
  assert (K : i < 6 -> j < 6 -> commonb c i d j = existsb (quad_eqb (c, i, d, j)) quads).
  { intros Hi Hj. pose proof ex_all as A. rewrite forallb_forall in A. specialize (A c). rewrite forallb_forall in A.
    specialize (A ltac:(apply in_seq; lia) i). rewrite forallb_forall in A. specialize (A ltac:(apply in_seq; lia) d). rewrite forallb_forall in A.
    specialize (A ltac:(apply in_seq; lia) j ltac:(apply in_seq; lia)). apply orb_true_iff in A as [A|A]; [apply Nat.eqb_eq in A; contradiction|].
    apply eqb_prop, A. }
  split.
  - intro C. assert (L : i < 6 /\ j < 6).
    { destruct C as [H1 [H2 _]]. destruct c as [|[|[|c]]]; destruct d as [|[|[|d]]]; cbn in H1, H2; lia. }
    apply Eq. rewrite <- K by apply L. apply commonb_spec, C.
  - intro H. apply commonb_spec. rewrite K; [apply Eq, H| |]; cbn in H; destruct H as [H|[H|[H|[H|[]]]]]; injection H as <- <- <- <-; lia.
Qed.

Lemma ex_conforming : conforming 2 3 ex_cnv ex_cv ex_nbs.
Proof.
  split; try reflexivity; [lia| | | |].
  - intros c Hc. destruct c as [|[|[|c]]]; [| | |lia]; cbn [ex_cnv ex_cv nth firstn length]; (split; [cbn; tauto|split; [lia|]]);
      repeat constructor; cbn; intuition lia.
  - intros c i d j e k Hc Hd He N1 N2 A B. apply ex_common in A; [|assumption..]. apply ex_common in B; [|assumption..].
    cbn in A, B. intuition congruence.
  - intros c i d j i' j' Hc Hd N A B. apply ex_common in A; [|assumption..]. apply ex_common in B; [|assumption..].
    cbn in A, B. intuition congruence.
  - assert (Adj : forall c d, c < 3 -> d < 3 -> c <> d -> (adjacent ex_cnv ex_cv c d <-> In (c, d) [(0, 1); (1, 0); (0, 2); (2, 0)])).
    { intros c d Hc Hd N. unfold adjacent. split.
      - intros [i [j C]]. apply ex_common in C; [|assumption..]. cbn in C |- *. intuition congruence.
      - intro H. cbn in H. destruct H as [H|[H|[H|[H|[]]]]]; injection H as <- <-;
          [exists 5, 4|exists 4, 5|exists 1, 0|exists 0, 1]; apply ex_common; try assumption; cbn; tauto. }
    intros c n r E. destruct c as [|[|c]]; [| |destruct c; discriminate E]; injection E as <- <-; cbn [firstn map Z.abs length].
    + split; [lia|]. split; [repeat constructor; cbn; intuition lia|]. split; [intros z Hz; cbn in Hz; lia|].
      intros d Hd. destruct d as [|[|[|d]]]; [| | |lia]; cbn [In Z.of_nat Pos.of_succ_nat Pos.succ].
      * split; [intuition lia|]. intros [X _]. congruence.
      * split; [intros _; split; [lia|]; apply Adj; [lia|lia|lia|cbn; tauto]|tauto].
      * split; [intros _; split; [lia|]; apply Adj; [lia|lia|lia|cbn; tauto]|tauto].
    + split; [lia|]. split; [repeat constructor; cbn; intuition lia|]. split; [intros z Hz; cbn in Hz; lia|].
      intros d Hd. destruct d as [|[|[|d]]]; [| | |lia]; cbn [In Z.of_nat Pos.of_succ_nat Pos.succ].
      * split; [intros _; split; [lia|]; apply Adj; [lia|lia|lia|cbn; tauto]|tauto].
      * split; [intuition lia|]. intros [X _]. congruence.
      * split; [intuition lia|]. intros [X Y]. apply Adj in Y; [|lia..]. cbn in Y. intuition congruence.
Qed.
