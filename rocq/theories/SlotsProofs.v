(** Proofs about condition and property slots. *)
From Coq Require Import Reals Bool List Arith Lia.
From Verif Require Import Prelude Slots SpecSlots.
Import ListNotations.

Lemma kind_eqb_eq : forall a b, kind_eqb a b = true <-> a = b.
Proof. intros a b; split; [destruct a, b; simpl; intro H; try discriminate H; reflexivity | intros ->; destruct b; reflexivity]. Qed.
Lemma kind_eqb_refl : forall a, kind_eqb a a = true.
Proof. destruct a; reflexivity. Qed.

Lemma get_set : forall s k c f d k',
  get (set s k c f d) k' = if kind_eqb k k' then {| s_context := c; s_fn := f; s_dtor := d |} else get s k'.
Proof. intros s k c f d k'; destruct k, k'; reflexivity. Qed.

Lemma get_allocated : forall s k, get (allocated s) k = get s k.
Proof. intros s k; destruct k; reflexivity. Qed.

Lemma destroyed_set : forall s k c f d, destroyed (set s k c f d) = destroyed s ++ release k (get s k).
Proof. intros s k c f d; destruct k; reflexivity. Qed.

Lemma serial_set : forall s k c f d, serial (set s k c f d) = serial s.
Proof. intros s k c f d; destruct k; reflexivity. Qed.

(** The slot installed by an operation. *)
Definition slot_of (n : nat) (o : op) : slot :=
  match o with
  | OSet _ c f d => {| s_context := c; s_fn := f; s_dtor := d |}
  | OConstant _ v => {| s_context := Some (Own n (PValue v)); s_fn := Some FConstant; s_dtor := Some DFree |}
  | OFunction _ f => {| s_context := Some (Own n (PFunction f)); s_fn := Some FWrapper; s_dtor := Some DFree |}
  end.

Lemma get_apply : forall s o k,
  get (apply s o) k = if kind_eqb (op_kind o) k then slot_of (serial s) o else get s k.
Proof.
  intros s [k' c f d|k' v|k' f] k; simpl; unfold set_constant, set_function; rewrite get_set;
  destruct (kind_eqb k' k); try reflexivity; apply get_allocated.
Qed.

Lemma serial_apply : forall s o, serial (apply s o) = (serial s + allocates o)%nat.
Proof.
  intros s [k' c f d|k' v|k' f]; simpl; unfold set_constant, set_function; rewrite serial_set; simpl; lia.
Qed.

Lemma destroyed_apply : forall s o, destroyed (apply s o) = destroyed s ++ release (op_kind o) (get s (op_kind o)).
Proof.
  intros s [k' c f d|k' v|k' f]; simpl; unfold set_constant, set_function; rewrite destroyed_set;
  rewrite ?get_allocated; reflexivity.
Qed.

Lemma destroyed_for_app : forall k a b, destroyed_for k (a ++ b) = destroyed_for k a ++ destroyed_for k b.
Proof.
  intros k a b; induction a as [|[[k' c] d] a IH]; [reflexivity|]. simpl. rewrite IH, app_assoc. reflexivity.
Qed.

Lemma destroyed_for_release : forall k k' s,
  destroyed_for k (release k' s) = if kind_eqb k' k then installed s else [].
Proof.
  intros k k' s. unfold release, installed. destruct (s_context s), (s_dtor s); simpl;
  destruct (kind_eqb k' k); reflexivity.
Qed.

Lemma installed_slot_of : forall n o, installed (slot_of n o) = handed n o.
Proof. intros n [k [c|] f [d|]|k v|k f]; reflexivity. Qed.

Lemma handed_over_eq : forall k l s,
  destroyed_for k (destroyed (run s l)) ++ installed (get (run s l) k)
  = destroyed_for k (destroyed s) ++ installed (get s k) ++ handed_over k (serial s) l.
Proof.
  intros k l; induction l as [|o l IH]; intro s; simpl; [rewrite app_nil_r; reflexivity|].
  change (run s (o :: l)) with (run (apply s o) l).
  rewrite IH, serial_apply, destroyed_apply, get_apply, destroyed_for_app, destroyed_for_release.
  destruct (kind_eqb (op_kind o) k) eqn:E.
  - apply kind_eqb_eq in E. subst k. rewrite installed_slot_of, <- !app_assoc. reflexivity.
  - rewrite app_nil_r. reflexivity.
Qed.

Lemma destroy_get : forall s k, k <> SalinitySource -> k <> BoundaryPressureType ->
  destroyed_for k (destroyed (destroy s)) = destroyed_for k (destroyed s) ++ installed (get s k) /\ get (destroy s) k = empty.
Proof.
  intros s k H1 H2.
  assert (G : forall l t, NoDup l -> In k l ->
    destroyed_for k (destroyed (fold_left reset l t)) = destroyed_for k (destroyed t) ++ installed (get t k)
    /\ get (fold_left reset l t) k = empty).
  { assert (N : forall l t, ~ In k l ->
      destroyed_for k (destroyed (fold_left reset l t)) = destroyed_for k (destroyed t) /\ get (fold_left reset l t) k = get t k).
    { induction l as [|a l IH]; intros t Hn; simpl; [split; reflexivity|].
      destruct (IH (reset t a)) as [A B]; [intro Hi; apply Hn; right; exact Hi|].
      rewrite A, B. unfold reset. rewrite destroyed_set, destroyed_for_app, destroyed_for_release, get_set.
      destruct (kind_eqb a k) eqn:E; [apply kind_eqb_eq in E; exfalso; apply Hn; left; exact E|].
      rewrite app_nil_r. split; reflexivity. }
    induction l as [|a l IH]; intros t Hd Hi; [destruct Hi|]. inversion Hd as [|? ? Hn Hd']; subst.
    simpl. destruct Hi as [->|Hi].
    - destruct (N l (reset t k) Hn) as [A B]. rewrite A, B. unfold reset.
      rewrite destroyed_set, destroyed_for_app, destroyed_for_release, get_set, kind_eqb_refl. split; reflexivity.
    - destruct (IH (reset t a) Hd' Hi) as [A B]. rewrite A, B. unfold reset.
      rewrite destroyed_set, destroyed_for_app, destroyed_for_release, get_set.
      destruct (kind_eqb a k) eqn:E; [apply kind_eqb_eq in E; subst a; contradiction|].
      rewrite app_nil_r. split; reflexivity. }
  apply G.
  - repeat constructor; simpl; intuition discriminate.
  - destruct k; simpl; try congruence; tauto.
Qed.

(** C21: every kind except the two that the destructor forgets. *)
Lemma destroyed_once_proof : forall l k, k <> SalinitySource -> k <> BoundaryPressureType ->
  destroyed_for k (destroyed (destroy (run new_store l))) = handed_over k 0 l.
Proof.
  intros l k H1 H2. destruct (destroy_get (run new_store l) k H1 H2) as [A _].
  rewrite A, handed_over_eq. destruct k; reflexivity.
Qed.

Lemma replaced_once_proof : forall l k,
  destroyed_for k (destroyed (run new_store l)) ++ installed (get (run new_store l) k) = handed_over k 0 l.
Proof. intros l k. rewrite handed_over_eq. destruct k; reflexivity. Qed.

Lemma forgotten_get : forall s k, k = SalinitySource \/ k = BoundaryPressureType ->
  destroyed_for k (destroyed (destroy s)) = destroyed_for k (destroyed s) /\ get (destroy s) k = get s k.
Proof.
  intros s k H. unfold destroy.
  assert (N : forall l t, ~ In k l ->
      destroyed_for k (destroyed (fold_left reset l t)) = destroyed_for k (destroyed t) /\ get (fold_left reset l t) k = get t k).
  { induction l as [|a l IH]; intros t Hn; simpl; [split; reflexivity|].
    destruct (IH (reset t a)) as [A B]; [intro Hi; apply Hn; right; exact Hi|].
    rewrite A, B. unfold reset. rewrite destroyed_set, destroyed_for_app, destroyed_for_release, get_set.
    destruct (kind_eqb a k) eqn:E; [apply kind_eqb_eq in E; exfalso; apply Hn; left; exact E|].
    rewrite app_nil_r. split; reflexivity. }
  apply N. destruct H; subst k; simpl; intuition discriminate.
Qed.

Lemma forgotten_proof : forall l k, k = SalinitySource \/ k = BoundaryPressureType ->
  destroyed_for k (destroyed (destroy (run new_store l))) ++ installed (get (run new_store l) k) = handed_over k 0 l.
Proof. intros l k H. destruct (forgotten_get (run new_store l) k H) as [A _]. rewrite A. apply replaced_once_proof. Qed.

Lemma no_dtor_proof : forall l k c d, In (k, c, d) (destroyed (destroy (run new_store l))) ->
  In (c, d) (handed_over k 0 l).
Proof.
  intros l k c d H.
  assert (Q : forall dd, In (k, c, d) dd -> In (c, d) (destroyed_for k dd)).
  { induction dd as [|[[k' c'] d'] dd IH]; intro Hi; [destruct Hi|]. simpl. apply in_or_app. destruct Hi as [E|Hi].
    - inversion E; subst. rewrite kind_eqb_refl. left. left. reflexivity.
    - right. apply IH. exact Hi. }
  apply Q in H.
  destruct (kind_eqb k SalinitySource) eqn:E1; [|destruct (kind_eqb k BoundaryPressureType) eqn:E2].
  - apply kind_eqb_eq in E1. rewrite <- (forgotten_proof l k (or_introl E1)). apply in_or_app. left. exact H.
  - apply kind_eqb_eq in E2. rewrite <- (forgotten_proof l k (or_intror E2)). apply in_or_app. left. exact H.
  - rewrite <- (destroyed_once_proof l k); [exact H| |]; intro; subst k; discriminate.
Qed.

(** C22 *)
Lemma last_op_get : forall k l s acc,
  get s k = match acc with Some (n, o) => slot_of n o | None => empty end ->
  get (run s l) k = match last_op k (serial s) acc l with Some (n, o) => slot_of n o | None => empty end.
Proof.
  intros k l; induction l as [|o l IH]; intros s acc H; simpl; [exact H|].
  change (run s (o :: l)) with (run (apply s o) l). rewrite <- serial_apply.
  apply IH. rewrite get_apply. destruct (kind_eqb (op_kind o) k); [reflexivity|exact H].
Qed.

Lemma get_run : forall k l,
  get (run new_store l) k = match last_op k 0 None l with Some (n, o) => slot_of n o | None => empty end.
Proof. intros k l. exact (last_op_get k l new_store None (ltac:(destruct k; reflexivity))). Qed.

Lemma last_user_proof : forall (X : Type) (w : @world X) l k n c f d xs old,
  last_op k 0 None l = Some (n, OSet k c (Some (FUser f)) d) -> length (user_fn w f c xs) = length old ->
  evaluate w (run new_store l) k xs old = Ok (user_fn w f c xs).
Proof.
  intros X w l k n c f d xs old H Hl. unfold evaluate. rewrite get_run, H. simpl. unfold overwrite.
  rewrite <- Hl, Nat.leb_refl, Hl, skipn_all, app_nil_r. reflexivity.
Qed.

Lemma last_constant_proof : forall (X : Type) (w : @world X) l k n v xs old,
  last_op k 0 None l = Some (n, OConstant k v) -> length xs = length old ->
  evaluate w (run new_store l) k xs old = Ok (repeat v (length xs)).
Proof.
  intros X w l k n v xs old H Hl. unfold evaluate. rewrite get_run, H. simpl. unfold overwrite.
  rewrite map_length, Hl, Nat.leb_refl, skipn_all, app_nil_r. f_equal.
  revert old Hl. induction xs as [|x xs IH]; intros [|o old] Hl; try discriminate Hl; [reflexivity|].
  simpl. f_equal. apply IH. simpl in Hl. lia.
Qed.

Lemma last_function_proof : forall (X : Type) (w : @world X) l k n f xs old,
  last_op k 0 None l = Some (n, OFunction k f) -> length (spatial w f xs) = length old ->
  evaluate w (run new_store l) k xs old = Ok (spatial w f xs).
Proof.
  intros X w l k n f xs old H Hl. unfold evaluate. rewrite get_run, H. simpl. unfold overwrite.
  rewrite <- Hl, Nat.leb_refl, Hl, skipn_all, app_nil_r. reflexivity.
Qed.

Lemma last_op_none : forall k l n, (forall o, In o l -> op_kind o <> k) -> last_op k n None l = None.
Proof.
  intros k l; induction l as [|o l IH]; intros n H; simpl; [reflexivity|].
  destruct (kind_eqb (op_kind o) k) eqn:E.
  - exfalso. apply (H o); [left; reflexivity|]. apply kind_eqb_eq. exact E.
  - apply IH. intros o' Ho. apply H. right. exact Ho.
Qed.

Lemma never_set_proof : forall (X : Type) (w : @world X) l k xs old,
  (forall o, In o l -> op_kind o <> k) ->
  has (run new_store l) k = false
  /\ evaluate w (run new_store l) k xs old = if is_condition k then UB else Ok old.
Proof.
  intros X w l k xs old H. unfold has, evaluate. rewrite get_run, last_op_none by exact H. simpl. split; reflexivity.
Qed.

Lemma has_proof : forall l k,
  has (run new_store l) k = match last_op k 0 None l with
                            | Some (_, OSet _ _ f _) => match f with Some _ => true | None => false end
                            | Some _ => true
                            | None => false end.
Proof.
  intros l k. unfold has. rewrite get_run. destruct (last_op k 0 None l) as [[n [k' c f d|k' v|k' f]]|]; reflexivity.
Qed.

Lemma independent_proof : forall (X : Type) (w : @world X) l o k xs old, op_kind o <> k ->
  has (run new_store (l ++ [o])) k = has (run new_store l) k
  /\ evaluate w (run new_store (l ++ [o])) k xs old = evaluate w (run new_store l) k xs old.
Proof.
  intros X w l o k xs old H. unfold run. rewrite fold_left_app. simpl. unfold has, evaluate. rewrite get_apply.
  destruct (kind_eqb (op_kind o) k) eqn:E; [apply kind_eqb_eq in E; contradiction|]. split; reflexivity.
Qed.

(** Setting a whole list of other kinds afterwards. *)
Lemma last_op_app : forall k l l' n acc, last_op k n acc (l ++ l') =
  last_op k (n + fold_right (fun o m => allocates o + m) 0 l) (last_op k n acc l) l'.
Proof.
  intros k l; induction l as [|o l IH]; intros l' n acc; simpl; [rewrite Nat.add_0_r; reflexivity|].
  rewrite IH. f_equal. lia.
Qed.

Lemma serial_distinct : forall k l n c d m p, In (c, d) (handed_over k n l) -> c = Own m p ->
  (forall o, In o l -> match o with OSet _ (Some (Own _ _)) _ _ => False | _ => True end) ->
  (n <= m < n + fold_right (fun o m => allocates o + m) 0 l)%nat.
Proof.
  intros k l; induction l as [|o l IH]; intros n c d m p Hi Hc Ho; [destruct Hi|].
  simpl in Hi |- *. apply in_app_or in Hi. destruct Hi as [Hi|Hi].
  - specialize (Ho o (or_introl eq_refl)). destruct (kind_eqb (op_kind o) k); [|destruct Hi].
    destruct o as [k' [c'|] f [d'|]|k' v|k' f]; simpl in Hi; try (destruct Hi as [E|[]]; injection E as <- <-); try (destruct Hi; fail);
    subst; try contradiction; try (injection Hc as <- <-; simpl; lia).
  - specialize (IH _ _ _ _ _ Hi Hc (fun o' Ho' => Ho o' (or_intror Ho'))). lia.
Qed.

Lemma own_once_proof : forall k l,
  (forall o, In o l -> match o with OSet _ (Some (Own _ _)) _ _ => False | _ => True end) ->
  (forall o, In o l -> match o with OSet _ _ _ (Some _) => False | _ => True end) ->
  NoDup (handed_over k 0 l).
Proof.
  intros k l. generalize 0%nat. induction l as [|o l IH]; intros n H1 H2; simpl; [constructor|].
  assert (T : NoDup (handed_over k (n + allocates o) l)).
  { apply IH; intros o' Ho'; [apply H1|apply H2]; right; exact Ho'. }
  destruct (kind_eqb (op_kind o) k) eqn:E; [|exact T].
  pose proof (H1 o (or_introl eq_refl)) as A. pose proof (H2 o (or_introl eq_refl)) as B.
  destruct o as [k' [c'|] f [d'|]|k' v|k' f]; simpl in *; try contradiction; try exact T;
  constructor; try exact T; intro Hi;
  pose proof (serial_distinct k l (n+1) _ _ _ _ Hi eq_refl (fun o' Ho' => H1 o' (or_intror Ho'))); lia.
Qed.
