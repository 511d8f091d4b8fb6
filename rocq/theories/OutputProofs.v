(** Proofs about the output of fields. *)
From Coq Require Import List Arith ZArith Lia Bool String Permutation.
From Verif Require Import Prelude Arrays UGrid Scatter ScatterProofs Output SpecOutput.
Import ListNotations.
Local Open Scope nat_scope.

(** ** Vectors *)
Lemma gather_ok {A} bs start (x s : list A) : start < bs -> List.length x = List.length s * bs ->
  exists y, StrideGather bs start x s = Ok y /\ List.length y = List.length s /\
  forall i, i < List.length s -> nth_error y i = nth_error x (i * bs + start).
Proof.
  intros Hs Hl. unfold StrideGather. rewrite (proj2 (Nat.ltb_lt _ _) Hs). cbn [negb].
  rewrite (proj2 (Nat.eqb_eq _ _) Hl). cbn [negb].
  destruct (for_inv (fun k y => List.length y = List.length s /\ forall i, i < k -> nth_error y i = nth_error x (i * bs + start))
    (fun i s => do v <- rd x (i * bs + start); wr s i v) (List.length s) s) as [y [E [H1 H2]]].
  - split; [reflexivity|]. intros; lia.
  - intros k y Hk [H1 H2].
    assert (Hx : k * bs + start < List.length x) by (rewrite Hl; nia).
    destruct (rd_ok x _ Hx) as [v [Ev Nv]]. rewrite Ev. cbn [bind]. rewrite wr_ok by lia.
    eexists. split; [reflexivity|]. split; [rewrite length_upd; exact H1|].
    intros i Hi. destruct (Nat.eq_dec i k) as [->|Ne].
    + rewrite nth_upd_same by lia. congruence.
    + rewrite nth_upd_other by congruence. apply H2. lia.
  - exists y. auto.
Qed.
Lemma gather_size {A} bs start (x s : list A) : List.length x <> List.length s * bs -> StrideGather bs start x s = Err.
Proof.
  intro H. unfold StrideGather. destruct (negb (start <? bs)); [reflexivity|].
  rewrite (proj2 (Nat.eqb_neq _ _) H). reflexivity.
Qed.

(** The field of the diagnostics with index [k]. *)
Definition field {A} (diag : list A) (k : nat) (x : list A) : Prop :=
  List.length diag = List.length x * num_diag /\ forall p, p < List.length x -> nth_error x p = nth_error diag (p * num_diag + k).

Lemma half_length {A} (diag x : list A) : List.length diag = List.length x * num_diag -> List.length diag / num_diag = List.length x.
Proof. intro H. rewrite H. apply Nat.div_mul. discriminate. Qed.

Lemma gather_field {A} (zero : A) diag k x : k < num_diag -> field diag k x ->
  StrideGather num_diag k diag (CreateDiagnosticVector zero diag) = Ok x.
Proof.
  intros Hk [HL Hx]. assert (HC : List.length (CreateDiagnosticVector zero diag) = List.length x).
  { unfold CreateDiagnosticVector. rewrite repeat_length. apply half_length. exact HL. }
  destruct (gather_ok num_diag k diag (CreateDiagnosticVector zero diag) Hk) as [y [E [Hy H]]]; [rewrite HC; exact HL|].
  rewrite E. f_equal. apply nth_error_ext. intro p. destruct (lt_dec p (List.length x)) as [Hp|Hp].
  - rewrite H by lia. symmetry. apply Hx. exact Hp.
  - rewrite (proj2 (nth_error_None y p)) by lia. symmetry. apply nth_error_None. lia.
Qed.

Definition layout (pr : processes) (ao : list Z) : Prop :=
  numbering ao /\ match pr with OneProcess => unchanged_order ao | ManyProcesses nls => list_sum nls = List.length ao end.

Lemma unchanged_natural ao : unchanged_order ao -> forall p c, natural_number ao p c -> p = c.
Proof.
  intros H p c N. unfold natural_number in *. assert (Hp : p < List.length ao) by (apply nth_lt in N; exact N).
  specialize (H p Hp). unfold natural_number in H. rewrite H in N. injection N as N. lia.
Qed.

(** Scalar vectors are converted as they should be. *)
Lemma to_natural_ok {A} pr ao (x y : list A) : layout pr ao -> List.length x = List.length ao -> List.length y = List.length ao ->
  exists z, GlobalToNatural pr 1 ao x y = Ok z /\ in_natural_order ao x z.
Proof.
  intros [Hn Hp] Hx Hy. destruct pr as [|nls]; simpl.
  - rewrite (proj2 (Nat.eqb_eq _ _)) by lia. exists x. split; [reflexivity|]. split; [exact Hx|].
    intros p c N. rewrite (unchanged_natural ao Hp p c N). reflexivity.
  - destruct (natural_position_proof 1 (List.length ao) ao nls A x y Hn Hp) as [z [E [HL H]]]; try lia.
    exists z. split; [exact E|]. split; [lia|]. intros p c N. specialize (H p 0 c ltac:(lia) N).
    rewrite !Nat.mul_1_r, !Nat.add_0_r in H. exact H.
Qed.
Lemma natural_order_unique {A} ao (x y z : list A) : numbering ao -> in_natural_order ao x y -> in_natural_order ao x z -> y = z.
Proof.
  intros Hn [Ly Hy] [Lz Hz]. apply nth_error_ext. intro c. destruct (lt_dec c (List.length ao)) as [Hc|Hc].
  - assert (In (Z.of_nat c) ao) as Hin.
    { apply (Permutation_in _ (Permutation_sym Hn)). apply in_map. apply in_seq. lia. }
    apply In_nth_error in Hin. destruct Hin as [p N]. rewrite (Hy p c N), (Hz p c N). reflexivity.
  - rewrite (proj2 (nth_error_None y c)) by lia. symmetry. apply nth_error_None. lia.
Qed.

(** *** Getters *)
Lemma getter_ok {A} (zero : A) pr ao k diag x out : layout pr ao -> k < num_diag -> field diag k x -> List.length x = List.length ao ->
  List.length out = List.length ao ->
  exists y, GetDiagnostic zero pr 1 ao k diag out = Ok y /\ in_natural_order ao x y.
Proof.
  intros HL Hk Hf Hx Ho. unfold GetDiagnostic. rewrite (gather_field zero diag k x Hk Hf). cbn [bind].
  apply to_natural_ok; assumption.
Qed.

Lemma gather_one {A} (x s : list A) : List.length x = List.length s -> StrideGather 1 0 x s = Ok x.
Proof.
  intro H. destruct (gather_ok 1 0 x s ltac:(lia) ltac:(lia)) as [y [E [HL Hy]]]. rewrite E. f_equal.
  apply nth_error_ext. intro p. destruct (lt_dec p (List.length s)) as [Hp|Hp].
  - rewrite Hy by exact Hp. f_equal. lia.
  - rewrite (proj2 (nth_error_None y p)) by lia. symmetry. apply nth_error_None. lia.
Qed.
Lemma pressure_getter_ok {A} (zero : A) pr ao p out : layout pr ao -> List.length p = List.length ao -> List.length out = List.length ao ->
  exists y, GetLiquidPressure zero pr 1 ao p out = Ok y /\ in_natural_order ao p y.
Proof.
  intros HL Hp Ho. unfold GetLiquidPressure, VAR_PRESSURE. rewrite gather_one.
  - cbn [bind]. apply to_natural_ok; assumption.
  - unfold CreateGlobalVector. rewrite repeat_length. lia.
Qed.
Lemma pressure_getter_many {A} (zero : A) pr ndof ao p out : 1 < ndof -> ao <> [] -> List.length p = List.length ao * ndof ->
  GetLiquidPressure zero pr ndof ao p out = Err.
Proof.
  intros Hd Ha Hp. unfold GetLiquidPressure. rewrite gather_size; [reflexivity|].
  unfold CreateGlobalVector. rewrite repeat_length. destruct ao; [congruence|]. simpl List.length in *. nia.
Qed.

(** Index pairs beyond the end of a vector with one value per cell. *)
Lemma loop_no_err {St} (body : nat -> St -> outcome St) : (forall i s, body i s <> Err) -> forall n k s, loop n k body s <> Err.
Proof.
  intros Hb n; induction n as [|n IH]; intros k s; simpl; [discriminate|].
  specialize (Hb k s). destruct (body k s); [apply IH|congruence|discriminate].
Qed.
Lemma scatter_no_err {A} pairs (x y : list A) : scatter pairs x y <> Err.
Proof.
  unfold scatter, for_. apply loop_no_err. intros i s. unfold rd, wr. destruct (nth_error pairs i); [|discriminate]. cbn [bind].
  destruct (nth_error x _); [|discriminate]. cbn [bind]. destruct (_ <? _); discriminate.
Qed.
Lemma scatter_reads {A} pairs (x y y' : list A) : scatter pairs x y = Ok y' -> forall f t, In (f, t) pairs -> f < List.length x.
Proof.
  intros E f t Hin. apply In_nth_error in Hin. destruct Hin as [i N].
  pose proof (nth_lt _ _ _ N) as Hi. unfold scatter in E.
  pose proof (for_preserves (fun k _ => forall j, j < k -> forall f t, nth_error pairs j = Some (f, t) -> f < List.length x) _ _ _ _ E) as H.
  cbv beta in H. apply (H ltac:(intros; lia)) with (j := i) (t := t); [|exact Hi|exact N].
  intros k s s' Hk IH Eb j Hj f' t' Nj. destruct (Nat.eq_dec j k) as [->|Ne]; [|apply (IH j ltac:(lia) f' t' Nj)].
  rewrite (rd_some _ _ _ Nj) in Eb. cbn [bind fst] in Eb. unfold rd in Eb.
  destruct (nth_error x f') eqn:Ef; [apply nth_lt in Ef; exact Ef|discriminate].
Qed.
Lemma short_source {A} ndof ao nls (x y : list A) : 1 < ndof -> ao <> [] -> numbering ao -> list_sum nls = List.length ao ->
  List.length x = List.length ao -> global_to_natural ndof ao nls x y = UB.
Proof.
  intros Hd Ha Hn Hs Hx. unfold global_to_natural.
  destruct (scatter (global_natural_pairs ndof ao (ranks_from 0 nls)) x y) as [z| |] eqn:E; [exfalso| |reflexivity].
  - assert (Hpos : 0 < List.length ao) by (destruct ao; [congruence|simpl; lia]).
    assert (Hlt : (List.length ao - 1) * ndof + 1 < List.length x).
    { apply (scatter_reads _ _ _ _ E _ (natural_of ao (List.length ao - 1) * ndof + 1)).
      apply (pairs_in ndof (List.length ao) ao nls Hs). exists (List.length ao - 1), 1. repeat split; lia. }
    rewrite Hx in Hlt. nia.
  - destruct (scatter_no_err _ _ _ E).
Qed.
