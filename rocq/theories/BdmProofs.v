(** The local matrices of the BDM method. *)
From Coq Require Import Reals List ZArith Bool Arith Lia Lra.
From Verif Require Import Prelude Arrays SpecFvtpf FvtpfSumProofs MpfaoProofs Hdiv SpecHdiv HdivProofs FeMap SpecFeMap Bdm SpecBdm.
Import ListNotations.
Local Open Scope R_scope.

(** ** Loops that add *)

Definition adds (g : nat -> R) (a a' : list R) : Prop := length a' = length a /\ forall k, nth k a' 0 = nth k a 0 + g k.

Lemma nth_upd0 : forall (a : list R) i v k, (i < length a)%nat -> nth k (upd a i v) 0 = if (k =? i)%nat then v else nth k a 0.
Proof.
  intro a. induction a as [|x a IH]; intros i v k H; [simpl in H; lia|].
  destruct i as [|i]; destruct k as [|k]; simpl in *; try reflexivity. apply IH. lia.
Qed.
Lemma rd_nth : forall {A} (d : A) (a : list A) i, (i < length a)%nat -> rd a i = Ok (nth i a d).
Proof.
  intros A d a i H. unfold rd. destruct (nth_error a i) eqn:E.
  - rewrite (nth_error_nth a i d E). reflexivity.
  - apply nth_error_None in E. lia.
Qed.
Lemma adds_at : forall a i x, (i < length a)%nat -> exists a', add_at a i x = Ok a' /\ adds (fun k => if (k =? i)%nat then x else 0) a a'.
Proof.
  intros a i x H. unfold add_at. rewrite (rd_nth 0) by exact H. cbn [bind]. rewrite wr_ok by exact H. eexists. split; [reflexivity|].
  split; [apply length_upd|]. intro k. rewrite nth_upd0 by exact H. destruct (Nat.eqb_spec k i) as [->|]; lra.
Qed.
Lemma adds_ext : forall g h a a', (forall k, g k = h k) -> adds g a a' -> adds h a a'.
Proof. intros g h a a' E [L H]. split; [exact L|]. intro k. rewrite H, E. reflexivity. Qed.
Lemma for_adds : forall L n (body : nat -> list R -> outcome (list R)) (g : nat -> nat -> R),
  (forall i a, (i < n)%nat -> length a = L -> exists a', body i a = Ok a' /\ adds (g i) a a') ->
  forall a, length a = L -> exists a', for_ n body a = Ok a' /\ adds (fun k => total (fun i => g i k) n) a a'.
Proof.
  intros L n body g H a HL.
  destruct (for_inv (fun i a' => adds (fun k => total (fun i => g i k) i) a a') body n a) as [a' [E P]].
  - split; [reflexivity|]. intro k. simpl. lra.
  - intros i s Hi [L1 P]. destruct (H i s Hi ltac:(congruence)) as [s' [E [L2 Q]]]. exists s'. split; [exact E|]. split; [congruence|].
    intro k. rewrite Q, P. simpl. lra.
  - exists a'. split; assumption.
Qed.
Lemma each_adds : forall L {X} (l : list X) (body : X -> list R -> outcome (list R)) (g : X -> nat -> R),
  (forall x a, In x l -> length a = L -> exists a', body x a = Ok a' /\ adds (g x) a a') ->
  forall a, length a = L -> exists a', each l body a = Ok a' /\ adds (fun k => sum_over l (fun x => g x k)) a a'.
Proof.
  intros L X l body g. induction l as [|x l IH]; intros H a HL; simpl.
  - exists a. split; [reflexivity|]. split; [reflexivity|]. intro k. lra.
  - destruct (H x a (or_introl eq_refl) HL) as [a1 [E1 [L1 P1]]]. rewrite E1. cbn [bind].
    destruct (IH (fun y s Hy => H y s (or_intror Hy)) a1 ltac:(congruence)) as [a2 [E2 [L2 P2]]].
    exists a2. split; [exact E2|]. split; [congruence|]. intro k. rewrite P2, P1. lra.
Qed.

(** ** Sums *)

Lemma total_pick : forall (f : nat -> R) n i, (i < n)%nat -> total (fun k => if (i =? k)%nat then f k else 0) n = f i.
Proof.
  intros f n. induction n as [|n IH]; intros i H; [lia|]. simpl. destruct (Nat.eqb_spec i n) as [->|D].
  - rewrite (total_ext _ (fun _ => 0)); [rewrite total_zero; lra|]. intros k Hk. destruct (Nat.eqb_spec n k); [lia|reflexivity].
  - rewrite IH by lia. lra.
Qed.
Lemma total_block : forall f a b, total f (a * b) = total (fun i => total (fun j => f (i * b + j)%nat) b) a.
Proof.
  intros f a b. induction a as [|a IH]; [reflexivity|]. simpl. rewrite Nat.add_comm, total_app, IH. reflexivity.
Qed.
Lemma sum_ext : forall {X} (l : list X) f g, (forall x, In x l -> f x = g x) -> sum_over l f = sum_over l g.
Proof. intros X l f g. induction l as [|x l IH]; intro H; [reflexivity|]. simpl. rewrite H by (left; reflexivity). rewrite IH; [reflexivity|]. intros y Hy. apply H. right. exact Hy. Qed.
Lemma sum_total : forall {X} (l : list X) (f : X -> nat -> R) n, total (fun k => sum_over l (fun x => f x k)) n = sum_over l (fun x => total (f x) n).
Proof.
  intros X l f n. induction l as [|x l IH]; simpl; [apply total_zero|]. rewrite total_plus, IH. reflexivity.
Qed.
Lemma sum_scale : forall {X} (l : list X) (f : X -> R) y, sum_over l (fun x => y * f x) = y * sum_over l f.
Proof. intros X l f y. induction l as [|x l IH]; simpl; [ring|]. rewrite IH. ring. Qed.
Lemma sum_plus : forall {X} (l : list X) (f g : X -> R), sum_over l (fun x => f x + g x) = sum_over l f + sum_over l g.
Proof. intros X l f g. induction l as [|x l IH]; simpl; [ring|]. rewrite IH. ring. Qed.
Lemma sum_opp : forall {X} (l : list X) (f : X -> R), sum_over l (fun x => - f x) = - sum_over l f.
Proof. intros X l f. induction l as [|x l IH]; simpl; [ring|]. rewrite IH. ring. Qed.
Lemma sum_map : forall {X Y} (h : Y -> X) (l : list Y) f, sum_over (map h l) f = sum_over l (fun y => f (h y)).
Proof. intros X Y h l f. induction l as [|x l IH]; simpl; [reflexivity|]. rewrite IH. reflexivity. Qed.
Lemma sum_flat_map : forall {X Y} (h : Y -> list X) (l : list Y) f, sum_over (flat_map h l) f = sum_over l (fun y => sum_over (h y) f).
Proof.
  intros X Y h l f. induction l as [|x l IH]; simpl; [reflexivity|]. rewrite <- IH. generalize (h x) as k. intro k.
  induction k as [|y k IHk]; simpl; [lra|]. rewrite IHk. lra.
Qed.
Lemma sum_none : forall {X} (l : list X), sum_over l (fun _ => 0) = 0.
Proof. intros X l. induction l as [|x l IH]; simpl; [reflexivity|]. rewrite IH. ring. Qed.
Lemma sum_filter : forall {X} (p : X -> bool) (l : list X) f, sum_over (filter p l) f = sum_over l (fun x => if p x then f x else 0).
Proof. intros X p l f. induction l as [|x l IH]; simpl; [reflexivity|]. destruct (p x); simpl; rewrite IH; lra. Qed.
Lemma sum_nonneg : forall {X} (l : list X) f, (forall x, In x l -> 0 <= f x) -> 0 <= sum_over l f.
Proof. intros X l f. induction l as [|x l IH]; intro H; simpl; [lra|]. pose proof (H x (or_introl eq_refl)). pose proof (IH (fun y Hy => H y (or_intror Hy))). lra. Qed.
Lemma sum_zero : forall {X} (l : list X) f, (forall x, In x l -> 0 <= f x) -> sum_over l f = 0 -> forall x, In x l -> f x = 0.
Proof.
  intros X l f. induction l as [|x l IH]; intros H E y Hy; [destruct Hy|]. simpl in E.
  pose proof (H x (or_introl eq_refl)). pose proof (sum_nonneg l f (fun y Hy => H y (or_intror Hy))).
  destruct Hy as [<-|Hy]; [lra|]. apply IH; [intros z Hz; apply H; right; exact Hz|lra|exact Hy].
Qed.

(** ** Products of basis functions *)

Lemma KDotADotB_ok : forall dim K A B, length K = (dim * dim)%nat -> (dim <= length A)%nat -> (dim <= length B)%nat ->
  KDotADotB dim K A B = Ok (dot dim (fun j => nth j A 0) (times dim K (fun i => nth i B 0))).
Proof.
  intros dim K A B HK HA HB. unfold KDotADotB.
  assert (I : forall i, (i < dim)%nat -> for_ dim (fun j inner => do k <- rd K (j * dim + i); do a <- rd A j; Ok (inner + k * a)) 0
     = Ok (total (fun j => nth (j * dim + i) K 0 * nth j A 0) dim)).
  { intros i Hi. destruct (for_inv (fun n s => s = total (fun j => nth (j * dim + i) K 0 * nth j A 0) n)
      (fun j inner => do k <- rd K (j * dim + i); do a <- rd A j; Ok (inner + k * a)) dim 0) as [s [E P]]; [reflexivity| |rewrite E, P; reflexivity].
    intros j s Hj ->. rewrite !(rd_nth 0) by nia. cbn [bind]. eexists. split; [reflexivity|]. reflexivity. }
  destruct (for_inv (fun n s => s = total (fun i => total (fun j => nth (j * dim + i) K 0 * nth j A 0) dim * nth i B 0) n)
    (fun i outer => do inner <- for_ dim (fun j inner => do k <- rd K (j * dim + i); do a <- rd A j; Ok (inner + k * a)) 0;
      do y <- rd B i; Ok (outer + inner * y)) dim 0) as [s [E P]]; [reflexivity| |].
  - intros i s Hi ->. rewrite I by exact Hi. cbn [bind]. rewrite (rd_nth 0) by lia. cbn [bind]. eexists. split; [reflexivity|]. reflexivity.
  - rewrite E, P. f_equal. unfold dot, times. rewrite (total_ext _ (fun i => total (fun j => nth (j * dim + i) K 0 * nth j A 0 * nth i B 0) dim)).
    2: { intros i _. rewrite <- total_scale. reflexivity. }
    rewrite total_swap. apply total_ext. intros j _. rewrite <- total_scale_l. apply total_ext. intros i _. ring.
Qed.
Lemma ADotB_ok : forall dim A B, (dim <= length A)%nat -> (dim <= length B)%nat -> ADotB dim A B = Ok (dot dim (fun j => nth j A 0) (fun j => nth j B 0)).
Proof.
  intros dim A B HA HB. unfold ADotB.
  destruct (for_inv (fun n s => s = total (fun j => nth j A 0 * nth j B 0) n) (fun i s => do a <- rd A i; do y <- rd B i; Ok (s + a * y)) dim 0) as [s [E P]].
  - reflexivity.
  - intros j s Hj ->. rewrite !(rd_nth 0) by lia. cbn [bind]. eexists. split; [reflexivity|]. reflexivity.
  - rewrite E, P. reflexivity.
Qed.
Lemma numbers_ok : forall l, numbers (map Some l) = Ok l.
Proof. induction l as [|x l IH]; [reflexivity|]. simpl. rewrite IH. reflexivity. Qed.
Lemma nth_skipn_any : forall {A} (x0 : A) (l : list A) a k, nth k (skipn a l) x0 = nth (a + k) l x0.
Proof. intros A x0 l a. revert l. induction a as [|a IH]; intros l k; [reflexivity|]. destruct l as [|x l]; [destruct k; reflexivity|]. simpl. apply IH. Qed.
Lemma nth_skipn0 : forall (l : list R) a k, nth k (skipn a l) 0 = nth (a + k) l 0.
Proof. intros l a. revert l. induction a as [|a IH]; intros l k; [reflexivity|]. destruct l as [|x l]; [destruct k; reflexivity|]. simpl. apply IH. Qed.

(** ** Quadrature points *)

Lemma root_le : 0 <= sqrt (3 / 5) <= 1.
Proof. split; [apply sqrt_pos|]. rewrite <- sqrt_1. apply sqrt_le_1; lra. Qed.
Lemma gauss_inside : forall dim q, In q (gauss_tensor dim) -> inside dim (fst q) /\ 0 < snd q.
Proof.
  pose proof root_le as Hr. induction dim as [|dim IH]; intros q H; cbn [gauss_tensor] in H.
  - destruct H as [<-|[]]. split; [split; [reflexivity|constructor]|simpl; lra].
  - apply in_flat_map in H. destruct H as [p [Hp Hq]]. apply in_map_iff in Hq. destruct Hq as [g [<- Hg]]. destruct (IH p Hp) as [[L F] W].
    assert (G : -1 <= fst g <= 1 /\ 0 < snd g) by (destruct Hg as [<-|[<-|[<-|[]]]]; cbn [fst snd]; lra).
    cbn [fst snd]. split; [split|].
    + rewrite app_length, L. simpl. lia.
    + apply Forall_app. split; [exact F|]. constructor; [lra|constructor].
    + apply Rmult_lt_0_compat; lra.
Qed.
Lemma corner_inside : forall dim q, (dim = 2 \/ dim = 3)%nat -> In q (corner_quadrature dim) -> inside dim (fst q) /\ 0 < snd q.
Proof.
  intros dim q [->| ->] H; simpl in H; repeat (destruct H as [<-|H]; [split; [split; [reflexivity|repeat constructor; lra]|simpl; lra]|]); destruct H.
Qed.
Lemma quadrature_inside : forall l dim q, (dim = 2 \/ dim = 3)%nat -> In q (quadrature l dim) -> inside dim (fst q) /\ 0 < snd q.
Proof. intros [|] dim q Hd H; [exact (corner_inside dim q Hd H)|exact (gauss_inside dim q H)]. Qed.

(** ** Index arithmetic *)

Lemma idx_inj : forall n i j i' j', (j < n)%nat -> (j' < n)%nat -> (i * n + j = i' * n + j')%nat -> i = i' /\ j = j'.
Proof.
  intros n i j i' j' H H' E. assert (Q : i = i').
  { rewrite (Nat.div_unique (i * n + j) n i j H ltac:(lia)). symmetry. apply Nat.div_unique with j'; lia. }
  subst i'. split; [reflexivity|lia].
Qed.
Lemma pick2 : forall (y : nat -> nat -> R) N i j, (i <= N)%nat -> (j <= N)%nat ->
  total (fun r => total (fun s => if (i * (N + 1) + j =? s * (N + 1) + r)%nat then y r s else 0) N) N
  = if (i <? N)%nat && (j <? N)%nat then y j i else 0.
Proof.
  intros y N i j Hi Hj.
  rewrite (total_ext _ (fun r => if (j =? r)%nat then (if (i <? N)%nat then y r i else 0) else 0)).
  - destruct (Nat.ltb_spec j N) as [Lj|Gj].
    + rewrite (total_pick (fun r => if (i <? N)%nat then y r i else 0)) by exact Lj. destruct (i <? N)%nat; reflexivity.
    + rewrite andb_false_r. rewrite (total_ext _ (fun _ => 0)); [apply total_zero|]. intros r Hr. destruct (Nat.eqb_spec j r); [lia|reflexivity].
  - intros r Hr. destruct (Nat.eqb_spec j r) as [->|D].
    + rewrite (total_ext _ (fun s => if (i =? s)%nat then y r s else 0)).
      * destruct (Nat.ltb_spec i N) as [Li|Gi]; [apply total_pick; exact Li|].
        rewrite (total_ext _ (fun _ => 0)); [apply total_zero|]. intros s Hs. destruct (Nat.eqb_spec i s); [lia|reflexivity].
      * intros s Hs. destruct (Nat.eqb_spec i s) as [->|D']; [rewrite Nat.eqb_refl; reflexivity|].
        destruct (Nat.eqb_spec (i * (N + 1) + r) (s * (N + 1) + r)) as [E|]; [|reflexivity]. destruct (idx_inj (N + 1) i r s r ltac:(lia) ltac:(lia) E); lia.
    + rewrite (total_ext _ (fun _ => 0)); [apply total_zero|]. intros s Hs.
      destruct (Nat.eqb_spec (i * (N + 1) + j) (s * (N + 1) + r)) as [E|]; [|reflexivity]. destruct (idx_inj (N + 1) i j s r ltac:(lia) ltac:(lia) E); lia.
Qed.

(** ** Orientation *)

Section flip.
Variables (N : nat) (o : list Z).
Hypothesis Ho : (N <= length o)%nat.
Let n := (N + 1)%nat.
Let sg (i : nat) : R := IZR (nth i o 0%Z).
Definition big (M : list R) : Prop := (n * n <= length M)%nat.

Lemma column_scale : forall t M, (t < N)%nat -> big M ->
  exists M', for_ N (fun vj M => do o' <- rd o vj; do y <- rd M (vj * n + t); wr M (vj * n + t) (y * IZR (nth t o 0%Z * o'))) M = Ok M' /\
    length M' = length M /\ forall i j, (i <= N)%nat -> (j <= N)%nat ->
    nth (i * n + j) M' 0 = if (j =? t)%nat && (i <? N)%nat then nth (i * n + j) M 0 * (sg t * sg i) else nth (i * n + j) M 0.
Proof.
  intros t M Ht HB.
  destruct (for_inv (fun u M' => length M' = length M /\ forall i j, (i <= N)%nat -> (j <= N)%nat ->
    nth (i * n + j) M' 0 = if (j =? t)%nat && (i <? u)%nat then nth (i * n + j) M 0 * (sg t * sg i) else nth (i * n + j) M 0)
    (fun vj M => do o' <- rd o vj; do y <- rd M (vj * n + t); wr M (vj * n + t) (y * IZR (nth t o 0%Z * o'))) N M) as [M' [E [L P]]].
  - split; [reflexivity|]. intros i j _ _. rewrite andb_false_r. reflexivity.
  - intros u M' Hu [L P]. rewrite (rd_nth 0%Z) by lia. cbn [bind]. unfold big in HB. unfold n in *.
    assert (B : (u * (N + 1) + t < length M')%nat) by (rewrite L; nia).
    rewrite (rd_nth 0) by exact B. cbn [bind]. rewrite wr_ok by exact B. eexists. split; [reflexivity|]. split; [rewrite length_upd; exact L|].
    intros i j Hi Hj. rewrite nth_upd0 by exact B. destruct (Nat.eqb_spec (i * (N + 1) + j) (u * (N + 1) + t)) as [Eq|Ne].
    + destruct (idx_inj (N + 1) i j u t ltac:(lia) ltac:(lia) Eq) as [-> ->]. rewrite Nat.eqb_refl. rewrite (P u t Hi Hj).
      rewrite Nat.eqb_refl, Nat.ltb_irrefl. simpl andb. cbn [andb]. destruct (Nat.ltb_spec u (S u)); [|lia]. cbn [andb]. unfold sg. rewrite mult_IZR. ring.
    + rewrite (P i j Hi Hj). destruct (Nat.eqb_spec j t) as [->|]; [|reflexivity]. cbn [andb].
      destruct (Nat.ltb_spec i u), (Nat.ltb_spec i (S u)); try reflexivity; try lia. assert (i = u) by lia. subst i. contradiction.
  - exists M'. split; [exact E|]. split; [exact L|exact P].
Qed.

Lemma flip_ok : forall M F, big M -> (N <= length F)%nat ->
  exists M' F', flip n o (M, F) = Ok (M', F') /\ length M' = length M /\ length F' = length F /\
    (forall i j, (i <= N)%nat -> (j <= N)%nat -> nth (i * n + j) M' 0 =
       if (j <? N)%nat then (if (i <? N)%nat then nth (i * n + j) M 0 * (sg i * sg j) else - sg j)
       else if (i <? N)%nat then - sg i else nth (i * n + j) M 0) /\
    (forall i, nth i F' 0 = if (i <? N)%nat then nth i F 0 * sg i else nth i F 0).
Proof.
  intros M F HM HF. unfold flip.
  set (body := fun vi (s : list R * list R) => _).
  destruct (for_inv (fun t (s : list R * list R) => length (fst s) = length M /\ length (snd s) = length F /\
    (forall i j, (i <= N)%nat -> (j <= N)%nat -> nth (i * n + j) (fst s) 0 =
       if (j <? N)%nat then (if (j <? t)%nat then if (i <? N)%nat then nth (i * n + j) M 0 * (sg i * sg j) else - sg j else nth (i * n + j) M 0)
       else if (i <? t)%nat then - sg i else nth (i * n + j) M 0) /\
    (forall i, nth i (snd s) 0 = if (i <? t)%nat then nth i F 0 * sg i else nth i F 0)) body (n - 1) (M, F)) as [[M' F'] [E [L1 [L2 [P Q]]]]].
  - cbn [fst snd]. repeat split. intros i j _ _. destruct (j <? N)%nat, (j <? 0)%nat eqn:X, (i <? 0)%nat eqn:Y; try reflexivity; try (apply Nat.ltb_lt in X; lia); apply Nat.ltb_lt in Y; lia.
  - intros t [M1 F1] Ht [L1 [L2 [P Q]]]. cbn [fst snd] in *. assert (Ht' : (t < N)%nat) by (unfold n in Ht; lia).
    unfold body. cbn [fst snd]. rewrite (rd_nth 0%Z) by lia. cbn [bind]. rewrite (rd_nth 0) by lia. cbn [bind]. rewrite wr_ok by lia. cbn [bind].
    assert (Hn : (n - 1)%nat = N) by (unfold n; lia). rewrite Hn.
    assert (HB1 : big M1) by (unfold big in *; lia).
    destruct (column_scale t M1 Ht' HB1) as [M2 [E2 [L3 P2]]]. rewrite E2. cbn [bind].
    assert (B1 : (N * n + t < length M2)%nat) by (rewrite L3; unfold big, n in *; nia).
    rewrite wr_ok by exact B1. cbn [bind].
    assert (B2 : (t * n + n - 1 < length (upd M2 (N * n + t) (- IZR (nth t o 0%Z))))%nat) by (rewrite length_upd, L3; unfold big, n in *; nia).
    rewrite wr_ok by exact B2. cbn [bind]. eexists. split; [reflexivity|]. cbn [fst snd].
    split; [rewrite !length_upd; congruence|]. split; [rewrite length_upd; exact L2|]. split.
    + intros i j Hi Hj. rewrite nth_upd0 by exact B2. rewrite nth_upd0 by exact B1.
      replace (t * n + n - 1)%nat with (t * n + N)%nat by (unfold n; lia).
      destruct (Nat.eqb_spec (i * n + j) (t * n + N)) as [Eq|Ne1].
      { destruct (idx_inj n i j t N ltac:(unfold n; lia) ltac:(unfold n; lia) Eq) as [-> ->]. rewrite Nat.ltb_irrefl.
        destruct (Nat.ltb_spec t (S t)); [reflexivity|lia]. }
      destruct (Nat.eqb_spec (i * n + j) (N * n + t)) as [Eq|Ne2].
      { destruct (idx_inj n i j N t ltac:(unfold n; lia) ltac:(unfold n; lia) Eq) as [-> ->].
        destruct (Nat.ltb_spec t N); [|lia]. destruct (Nat.ltb_spec t (S t)); [|lia]. rewrite Nat.ltb_irrefl. reflexivity. }
      rewrite (P2 i j Hi Hj), (P i j Hi Hj). destruct (Nat.eqb_spec j t) as [->|Dj].
      * cbn [andb]. destruct (Nat.ltb_spec t N); [|lia]. rewrite Nat.ltb_irrefl. destruct (Nat.ltb_spec t (S t)); [|lia].
        destruct (Nat.ltb_spec i N); [ring|]. assert (i = N) by lia. subst i. contradiction.
      * cbn [andb]. destruct (Nat.ltb_spec j N).
        -- destruct (Nat.ltb_spec j t), (Nat.ltb_spec j (S t)); try reflexivity; lia.
        -- assert (j = N) by lia. subst j. destruct (Nat.ltb_spec i t), (Nat.ltb_spec i (S t)); try reflexivity; try lia. assert (i = t) by lia. subst i. contradiction.
    + intro i. rewrite nth_upd0 by lia. destruct (Nat.eqb_spec i t) as [->|D].
      * rewrite Q, Nat.ltb_irrefl. destruct (Nat.ltb_spec t (S t)); [reflexivity|lia].
      * rewrite Q. destruct (Nat.ltb_spec i t), (Nat.ltb_spec i (S t)); try reflexivity; lia.
  - cbn [fst snd] in *. exists M', F'. split; [exact E|]. split; [exact L1|]. split; [exact L2|]. assert (Hn : (n - 1)%nat = N) by (unfold n; lia). rewrite Hn in *. split.
    + intros i j Hi Hj. rewrite (P i j Hi Hj). destruct (Nat.ltb_spec j N); reflexivity.
    + exact Q.
Qed.
End flip.
