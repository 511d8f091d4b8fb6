(** The maps give the elements that the Wheeler-Yotov method works on. *)
From Coq Require Import Reals List ZArith Bool Arith Lia Lra.
From Verif Require Import Prelude Arrays Wy SpecWy FeMap SpecFeMap FeMapProofs FeMapUnknownProofs.
Import ListNotations.
Local Open Scope nat_scope.

Lemma nth_firstn_lt : forall {A} (l : list A) n i, i < n -> nth_error (firstn n l) i = nth_error l i.
Proof.
  intros A l. induction l as [|x l IH]; intros n i H; [rewrite firstn_nil; reflexivity|].
  destruct n as [|n]; [lia|]. destruct i as [|i]; [reflexivity|]. simpl. apply IH. lia.
Qed.
Lemma nth_skipn : forall {A} (l : list A) a i, nth_error (skipn a l) i = nth_error l (a + i).
Proof.
  intros A l a. revert l. induction a as [|a IH]; intros l i; [reflexivity|]. destruct l as [|x l]; [destruct i; reflexivity|]. simpl. apply IH.
Qed.
Definition slice {A} (l : list A) (a n : nat) : list A := firstn n (skipn a l).
Lemma nth_slice : forall {A} (l : list A) a n i, i < n -> nth_error (slice l a n) i = nth_error l (a + i).
Proof. intros. unfold slice. rewrite nth_firstn_lt by assumption. apply nth_skipn. Qed.

(** Element c, as the array accesses of tdywy.c find it. *)
Definition element_of (dim : nat) (vm : list nat) (em : list Z) (ki : nat -> nat -> list R) (c : nat) : element :=
  mkElement (slice vm (c * 2 ^ dim) (2 ^ dim)) (slice em (c * 2 ^ dim * dim) (2 ^ dim * dim)) (ki c).

Section mesh.
Variables (m : plex) (corner : nat -> nat -> nat) (wall : nat -> nat -> bool -> nat).
Hypothesis B : boxes m corner wall.
Let n := p_dim m.
Let nv := 2 ^ n.

Lemma wy_proof : exists vm em, CreateCellVertexMap m nv = Ok vm /\ CreateCellVertexDirFaceMap m nv vm = Ok em /\
  forall ki c k, c < p_cells m -> k < nv -> let el := element_of n vm em ki c in
    NoDup (vmap el) /\ length (vmap el) = nv /\ nth_error (vmap el) k = Some (corner c k) /\
    forall d, d < n -> exists z, nth_error (emap el) (k * n + d) = Some z /\ z <> 0%Z /\ face z = wall_of wall c k d /\
      (outward m c (wall_of wall c k d) -> sign z = 1%R) /\ (~ outward m c (wall_of wall c k d) -> sign z = (-1)%R).
Proof.
  destruct (vmap_proof m corner wall B) as [vm [E1 HV]]. destruct (emap_proof m corner wall B vm HV) as [em [E2 HE]].
  exists vm, em. split; [exact E1|]. split; [exact E2|]. intros ki c k Hc Hk el.
  assert (V : forall i, i < nv -> nth_error (vmap el) i = Some (corner c i)).
  { intros i Hi. unfold el, element_of. cbn [vmap]. rewrite nth_slice by exact Hi. apply (proj2 HV c i Hc Hi). }
  assert (L : length (vmap el) = nv).
  { unfold el, element_of. cbn [vmap]. unfold slice. rewrite firstn_length, skipn_length. destruct HV as [-> _]. fold n nv. nia. }
  split; [|split; [exact L|split; [apply V; exact Hk|]]].
  - apply NoDup_nth_error. intros i j Hi E. rewrite L in Hi. assert (Hj : j < nv).
    { rewrite <- L. apply nth_error_Some. rewrite <- E, (V i Hi). discriminate. }
    rewrite (V i Hi), (V j Hj) in E. injection E as E. exact (corner_inj m corner wall B c i j Hc Hi Hj E).
  - intros d Hd. exists (value m c (wall_of wall c k d)).
    assert (F : 0 < wall_of wall c k d).
    { destruct (bx_wall _ _ _ B c d (Nat.testbit k d) Hc Hd) as [_ H]. unfold is_face in H. apply andb_prop in H. destruct H as [H _].
      apply Nat.leb_le in H. pose proof (bx_points _ _ _ B). unfold wall_of. lia. }
    destruct (value_denotes m c (wall_of wall c k d) F) as [D1 [D2 D3]]. split; [|split; [|split; [|split]]].
    + unfold el, element_of. cbn [emap]. rewrite nth_slice by (fold nv; nia). rewrite <- (proj2 HE c k d Hc Hk Hd). f_equal. unfold pos. fold n nv. lia.
    + lia.
    + unfold face. rewrite D1. apply Nat2Z.id.
    + intro H. specialize (D2 H). unfold sign. destruct (0 <=? _)%Z eqn:X; [|apply Z.leb_gt in X; lia]. destruct (_ =? 0)%Z eqn:Y; [apply Z.eqb_eq in Y; lia|reflexivity].
    + intro H. specialize (D3 H). unfold sign. destruct (0 <=? _)%Z eqn:X; [apply Z.leb_le in X; lia|reflexivity].
Qed.
End mesh.
