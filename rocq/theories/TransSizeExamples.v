(** A block of 3 x 3 x 3 cells; the cell in the middle belongs to another process. *)
From Coq Require Import List ZArith Bool Arith Lia.
From Verif Require Import Prelude Arrays Mesh Owners SpecOwners TransSize SpecTransSize.
Import ListNotations.
Local Open Scope Z_scope.

(** Ghost cells come last. *)
Definition block_cell (x y z : Z) : Z := let c := x + 3 * (y + 3 * z) in if c =? 13 then 26 else if 13 <? c then c - 1 else c.
Definition line (cell : Z -> Z) : list (Z * Z) := [(cell 0, -1); (cell 0, cell 1); (cell 1, cell 2); (cell 2, -1)].
Definition block_sides : list (Z * Z) :=
  flat_map (fun a => flat_map (fun b => line (fun i => block_cell i a b) ++ line (fun i => block_cell a i b) ++ line (fun i => block_cell a b i)) [0; 1; 2]) [0; 1; 2].
Definition block_cells : list (bool * Z) := map (fun c => (c <? 26, c)) (map Z.of_nat (seq 0 27)).
Definition block_gref : list Z := map (fun c : bool * Z => if fst c then snd c else - (snd c + 1)) block_cells.
Definition block_ids : list Z := flat_map (fun p => [fst p; snd p]) block_sides.
Definition block_internal : list bool := map (fun p => (0 <=? fst p) && (0 <=? snd p)) block_sides.
Definition block_off : list Z := map (fun f => Z.of_nat (2 * f)) (seq 0 109).

Lemma block_reported : reported block_cells block_gref.
Proof. unfold reported. repeat (constructor; [cbn; split; [lia|reflexivity]|]). constructor. Qed.

Definition real_b (c : Z) : bool := (0 <=? c) && (c <? 27).
Definition check_face (f : nat) : bool :=
  match nth_error block_off f, nth_error block_internal f, first_cell block_ids f, second_cell block_ids f with
  | Some o, Some i, Some a, Some b => (o =? Z.of_nat (2 * f)) && (if i then real_b a && real_b b else (real_b a && (b <? 0)) || ((a <? 0) && real_b b))
  | _, _, _, _ => false
  end.
Lemma block_known : faces_known 108 27 block_internal block_off block_ids.
Proof.
  split; [reflexivity|]. split; [reflexivity|]. intros f Hf.
  assert (X : forallb check_face (seq 0 108) = true) by (vm_compute; reflexivity). rewrite forallb_forall in X. specialize (X f ltac:(apply in_seq; lia)).
  unfold check_face in X. destruct (nth_error block_off f) as [o|]; [|discriminate]. destruct (nth_error block_internal f) as [i|]; [|discriminate].
  destruct (first_cell block_ids f) as [a|]; [|discriminate]. destruct (second_cell block_ids f) as [b|]; [|discriminate].
  apply andb_true_iff in X. destruct X as [Xo Xs]. apply Z.eqb_eq in Xo. subst o. split; [reflexivity|]. exists i, a, b.
  split; [reflexivity|]. split; [reflexivity|]. split; [reflexivity|]. unfold sides_known, real_b in *.
  destruct i; [apply andb_true_iff in Xs; destruct Xs as [A B]; apply andb_true_iff in A, B; lia|].
  apply orb_true_iff in Xs. destruct Xs as [Xs|Xs]; apply andb_true_iff in Xs; destruct Xs as [A B]; [left; apply andb_true_iff in A|right; apply andb_true_iff in B]; lia.
Qed.

Definition has_owner (f : nat) : bool :=
  match first_cell block_ids f, second_cell block_ids f with
  | Some a, Some b => ((0 <=? a) && (a <? 26)) || ((0 <=? b) && (b <? 26))
  | _, _ => false
  end.
Lemma block_owned c : 0 <= c < 26 -> owned (map fst block_cells) c.
Proof.
  intro H. split; [lia|]. replace c with (Z.of_nat (Z.to_nat c)) by lia. set (k := Z.to_nat c). assert (Hk : (k < 26)%nat) by lia. clearbody k. clear c H.
  rewrite Nat2Z.id. do 26 (destruct k as [|k]; [reflexivity|]). lia.
Qed.
Lemma block_foreign : foreign_count 108 (map fst block_cells) block_ids 0.
Proof.
  exists []. split; [constructor|]. split; [reflexivity|]. intro f. split; [intros []|]. intros [Hf F]. exfalso.
  assert (X : forallb has_owner (seq 0 108) = true) by (vm_compute; reflexivity). rewrite forallb_forall in X. specialize (X f ltac:(apply in_seq; lia)).
  unfold has_owner in X. destruct (first_cell block_ids f) as [a|] eqn:Ea; [|discriminate]. destruct (second_cell block_ids f) as [b|] eqn:Eb; [|discriminate].
  apply orb_true_iff in X. destruct X as [X|X]; apply andb_true_iff in X.
  - apply (F a); [left; exact Ea|apply block_owned; lia].
  - apply (F b); [right; exact Eb|apply block_owned; lia].
Qed.
