(** Proofs about the label of boundary faces. *)
From Coq Require Import List ZArith Bool Arith Lia.
From Verif Require Import Prelude BoundaryLabel SpecBoundaryLabel.
Import ListNotations.
Local Open Scope Z_scope.

Lemma set_in p s x : In x (set_value p s) <-> x = p \/ In x s.
Proof.
  unfold set_value. destruct (existsb (Z.eqb p) s) eqn:E.
  - apply existsb_exists in E. destruct E as [q [I E]]. apply Z.eqb_eq in E. subst q. split; [auto|]. intros [->|H]; auto.
  - rewrite in_app_iff. cbn. split; [intros [H|[H|[]]]|intros [H|H]]; auto.
Qed.
Lemma set_nodup p s : NoDup s -> NoDup (set_value p s).
Proof.
  intro N. unfold set_value. destruct (existsb (Z.eqb p) s) eqn:E; [exact N|]. apply NoDup_rev in N. rewrite <- (rev_involutive (s ++ [p])). apply NoDup_rev. rewrite rev_app_distr.
  cbn. constructor; [|exact N]. intro I. apply in_rev in I. assert (X : existsb (Z.eqb p) s = true) by (apply existsb_exists; exists p; split; [exact I|apply Z.eqb_refl]). congruence.
Qed.
Lemma all_in m f : In f (all_faces m) <-> face m f.
Proof.
  unfold all_faces, face. rewrite in_map_iff. split.
  - intros [i [<- I]]. apply in_seq in I. lia.
  - intro H. exists (Z.to_nat (f - fStart m)). split; [lia|]. apply in_seq. lia.
Qed.
Lemma mark_in m : forall l s x, In x (fold_left (fun s f => if (supportSize m f =? 1)%nat then set_value f s else s) l s) <-> In x s \/ (In x l /\ supportSize m x = 1%nat).
Proof.
  induction l as [|f l IH]; intros s x; cbn [fold_left]; [cbn; tauto|]. rewrite IH. destruct (Nat.eqb_spec (supportSize m f) 1) as [E|E].
  - rewrite set_in. cbn. split; [intros [[->|H]|H]|intros [H|[[->|H] H']]]; auto; tauto.
  - cbn. split; [intros [H|H]|intros [H|[[->|H] H']]]; auto; tauto.
Qed.
Lemma mark_nodup m : forall l s, NoDup s -> NoDup (fold_left (fun s f => if (supportSize m f =? 1)%nat then set_value f s else s) l s).
Proof. induction l as [|f l IH]; intros s N; [exact N|]. cbn [fold_left]. apply IH. destruct (supportSize m f =? 1)%nat; [apply set_nodup|]; exact N. Qed.
Lemma sets_in : forall l s x, In x (fold_left (fun s q => set_value q s) l s) <-> In x s \/ In x l.
Proof. induction l as [|q l IH]; intros s x; cbn [fold_left]; [cbn; tauto|]. rewrite IH, set_in. cbn. intuition auto. Qed.
Lemma sets_nodup : forall l s, NoDup s -> NoDup (fold_left (fun s q => set_value q s) l s).
Proof. induction l as [|q l IH]; intros s N; [exact N|]. cbn. apply IH, set_nodup, N. Qed.
Lemma complete_in m : forall l s x, In x (fold_left (fun s p => fold_left (fun s q => set_value q s) (closure m p) s) l s) <-> In x s \/ exists p, In p l /\ In x (closure m p).
Proof.
  induction l as [|p l IH]; intros s x; cbn [fold_left].
  - split; [auto|]. intros [H|[p [[] _]]]. exact H.
  - rewrite IH, sets_in. split.
    + intros [[H|H]|[q [I H]]]; [left; exact H|right; exists p; split; [left; reflexivity|exact H]|right; exists q; split; [right; exact I|exact H]].
    + intros [H|[q [[->|I] H]]]; [auto|auto|right; exists q; auto].
Qed.
Lemma complete_nodup m : forall l s, NoDup s -> NoDup (fold_left (fun s p => fold_left (fun s q => set_value q s) (closure m p) s) l s).
Proof. induction l as [|p l IH]; intros s N; [exact N|]. cbn [fold_left]. apply IH, sets_nodup, N. Qed.

Theorem label_points m : closed m -> NoDup (boundary_label m) /\ forall x, In x (boundary_label m) <-> exists f, boundary_face m f /\ In x (closure m f).
Proof.
  intros [C _]. unfold boundary_label, label_complete, mark_boundary_faces. split; [apply complete_nodup, mark_nodup; constructor|].
  assert (M : forall f, In f (fold_left (fun s f => if (supportSize m f =? 1)%nat then set_value f s else s) (all_faces m) []) <-> boundary_face m f).
  { intro f. rewrite mark_in, all_in. cbn. unfold boundary_face. tauto. }
  intro x. rewrite complete_in. split.
  - intros [H|[p [I H]]]; [exists x; split; [apply M, H|apply C]|exists p; split; [apply M, I|exact H]].
  - intros [f [B H]]. right. exists f. split; [apply M, B|exact H].
Qed.

Theorem all_given : forall m, closed m -> (exists f, boundary_face m f) ->
  exists num faces l, GetBoundaryFaces (new_label m) = Ok (num, faces, l) /\ num = length faces /\ NoDup faces /\
    (forall f, boundary_face m f -> In f faces) /\ (forall x, In x faces -> exists f, boundary_face m f /\ In x (closure m f)) /\
    exists l', RestoreBoundaryFaces l = Ok l' /\ stratum l' = faces.
Proof.
  intros m C [f0 B0]. destruct (label_points m C) as [ND P]. unfold GetBoundaryFaces, new_label, get_stratum_is. cbn [stratum references].
  assert (I0 : In f0 (boundary_label m)) by (apply P; exists f0; split; [exact B0|apply C]).
  destruct (boundary_label m) as [|a s] eqn:E; [contradiction|]. cbn [indices bind]. eexists _, _, _. split; [reflexivity|]. split; [reflexivity|]. split; [exact ND|].
  split; [intros f B; apply P; exists f; split; [exact B|apply C]|]. split; [intros x I; apply P, I|].
  unfold RestoreBoundaryFaces, get_stratum_is. cbn [stratum]. cbn [indices bind]. eexists. split; reflexivity.
Qed.

Theorem not_only_faces : forall m f p, closed m -> boundary_face m f -> In p (closure m f) -> ~ face m p ->
  exists num faces l, GetBoundaryFaces (new_label m) = Ok (num, faces, l) /\ In p faces /\
    forall b, NoDup b -> (forall x, In x b <-> boundary_face m x) -> (length b < num)%nat.
Proof.
  intros m f p C B I Np. destruct (all_given m C (ex_intro _ f B)) as [num [faces [l [E [-> [ND [A [O _]]]]]]]]. exists (length faces), faces, l. split; [exact E|].
  assert (Ip : In p faces).
  { destruct (label_points m C) as [_ P]. unfold GetBoundaryFaces, new_label, get_stratum_is in E. cbn [stratum references] in E.
    destruct (boundary_label m) as [|a s] eqn:Eb; [discriminate|]. cbn [indices bind] in E. injection E as _ <- _. apply P. exists f. auto. }
  split; [exact Ip|]. intros b Nb Hb. assert (X : (length (p :: b) <= length faces)%nat).
  { apply NoDup_incl_length.
    - constructor; [|exact Nb]. intro Ib. apply Hb in Ib. apply Np, Ib.
    - intros x [<-|Ix]; [exact Ip|]. apply A, Hb, Ix. }
  cbn in X. lia.
Qed.

Theorem none_marked : forall m, closed m -> (forall f, ~ boundary_face m f) -> GetBoundaryFaces (new_label m) = Err /\ RestoreBoundaryFaces (new_label m) = Err.
Proof.
  intros m C H. destruct (label_points m C) as [_ P]. unfold GetBoundaryFaces, RestoreBoundaryFaces, new_label, get_stratum_is. cbn [stratum references].
  destruct (boundary_label m) as [|a s]; [split; reflexivity|]. exfalso. destruct (proj1 (P a) (or_introl eq_refl)) as [f [B _]]. exact (H f B).
Qed.

Theorem references_left : forall m k, closed m -> (exists f, boundary_face m f) ->
  exists l, ask k (new_label m) = Ok l /\ stratum l = boundary_label m /\ references l = (1 + 2 * k)%nat.
Proof.
  intros m k C [f0 B0]. destruct (label_points m C) as [_ P]. assert (I0 : In f0 (boundary_label m)) by (apply P; exists f0; split; [exact B0|apply C]).
  unfold new_label. destruct (boundary_label m) as [|a s]; [contradiction|]. clear.
  enough (G : forall j r, exists l, ask j (mkLabel (a :: s) r) = Ok l /\ stratum l = a :: s /\ references l = (r + 2 * j)%nat) by apply G. clear k.
  induction j as [|j IH]; intro r.
  - eexists. split; [reflexivity|]. cbn. split; [reflexivity|lia].
  - cbn [ask]. unfold GetBoundaryFaces at 1, get_stratum_is. cbn [stratum references indices bind snd]. unfold RestoreBoundaryFaces at 1, get_stratum_is. cbn [stratum references indices bind].
    destruct (IH (S (S r))) as [l [E [S1 R1]]]. exists l. split; [exact E|]. split; [exact S1|]. lia.
Qed.
