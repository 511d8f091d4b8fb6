(** What TDyIOWriteVec writes. *)
From Coq Require Import List Arith ZArith Lia Bool String Permutation.
From Verif Require Import Prelude Arrays UGrid Scatter ScatterProofs Output SpecOutput OutputProofs.
Import ListNotations.
Local Open Scope nat_scope.

Lemma width_small t : width t <= 13.
Proof. unfold width. destruct (pneg t), (Z.abs (pexp t) >=? 100)%Z; lia. Qed.
Lemma width_large t : 11 <= width t.
Proof. unfold width. lia. Qed.
Lemma hdf5_var {A} name t (v : list A) s :
  WriteHDF5Var name t v s = Ok (Io (fmt s) (append (xmf s) (XMFAttribute name t (Z.of_nat (List.length v)))) (store t name v (h5 s))).
Proof.
  unfold WriteHDF5Var, sprintf. rewrite (proj2 (Nat.leb_le _ _)); [reflexivity|]. pose proof (width_small t). lia.
Qed.

Section scalar.
Context {A : Type} (zero : A) (pr : processes) (ao : list Z).
Hypothesis HL : layout pr ao.

Lemma saturation_ok (diag sat : list A) : field diag DIAG_LIQUID_SATURATION sat -> List.length sat = List.length ao ->
  exists y, GetLiquidSaturation zero pr 1 ao diag (CreateDiagnosticVector zero diag) = Ok y /\ in_natural_order ao sat y.
Proof.
  intros Hf Hs. apply getter_ok; [exact HL|unfold num_diag, DIAG_LIQUID_SATURATION; lia|exact Hf|exact Hs|].
  unfold CreateDiagnosticVector. rewrite repeat_length, (half_length diag sat) by apply Hf. exact Hs.
Qed.

Lemma write_hdf5 t (p diag sat : list A) s : fmt s = HDF5Format -> List.length p = List.length ao ->
  field diag DIAG_LIQUID_SATURATION sat -> List.length sat = List.length ao ->
  exists pn tmp sn s', WriteVec zero pr 1 ao t p diag s = Ok (s', [(name_pressure, pn); (name_saturation, sn)]) /\
  fmt s' = HDF5Format /\
  xmf s' = append (append (xmf s) (XMFAttribute name_pressure t (Z.of_nat (List.length ao)))) (XMFAttribute name_saturation t (Z.of_nat (List.length ao))) /\
  h5 s' = store t name_saturation sn (store t name_pressure pn (h5 s)) /\
  in_natural_order ao p pn /\ in_natural_order ao sat tmp /\ in_natural_order ao tmp sn.
Proof.
  intros Ef Hp Hf Hs. unfold WriteVec. destruct (saturation_ok diag sat Hf Hs) as [tmp [E Ht]]. rewrite E. cbn [bind]. rewrite Ef.
  assert (Hg : List.length (CreateGlobalVector zero 1 ao) = List.length ao) by (unfold CreateGlobalVector; rewrite repeat_length; lia).
  destruct (to_natural_ok pr ao p (CreateGlobalVector zero 1 ao) HL Hp Hg) as [pn [Ep Np]]. rewrite Ep. cbn [bind].
  destruct (to_natural_ok pr ao tmp (CreateGlobalVector zero 1 ao) HL (proj1 Ht) Hg) as [sn [Es Ns]]. rewrite Es. cbn [bind].
  rewrite hdf5_var. cbn [bind]. rewrite hdf5_var. cbn [bind fmt xmf h5]. exists pn, tmp, sn. eexists. split; [reflexivity|]. cbn [fmt xmf h5].
  rewrite (proj1 Np), (proj1 Ns).
  split; [exact Ef|]. split; [reflexivity|]. split; [reflexivity|]. split; [exact Np|]. split; assumption.
Qed.

Lemma write_exodus t (p diag sat : list A) s : fmt s = ExodusFormat ->
  field diag DIAG_LIQUID_SATURATION sat -> List.length sat = List.length ao ->
  exists sn, WriteVec zero pr 1 ao t p diag s = Ok (s, [(name_pressure, p); (name_saturation, sn)]) /\ in_natural_order ao sat sn.
Proof.
  intros Ef Hf Hs. unfold WriteVec. destruct (saturation_ok diag sat Hf Hs) as [tmp [E Ht]]. rewrite E. cbn [bind]. rewrite Ef.
  exists tmp. auto.
Qed.

Lemma write_ascii t (p diag sat : list A) s : fmt s = AsciiFormat ->
  field diag DIAG_LIQUID_SATURATION sat -> List.length sat = List.length ao ->
  WriteVec zero pr 1 ao t p diag s = UB.
Proof.
  intros Ef Hf Hs. unfold WriteVec. destruct (saturation_ok diag sat Hf Hs) as [tmp [E Ht]]. rewrite E. cbn [bind]. rewrite Ef.
  unfold ascii_name, sprintf. pose proof (width_large t).
  destruct (_ <=? _); [|reflexivity]. cbn [bind]. rewrite (proj2 (Nat.leb_gt _ _)); [reflexivity|].
  unfold name_saturation. cbn [String.length]. lia.
Qed.

Lemma write_null t (p diag sat : list A) s : fmt s = NullFormat ->
  field diag DIAG_LIQUID_SATURATION sat -> List.length sat = List.length ao ->
  WriteVec zero pr 1 ao t p diag s = Err.
Proof.
  intros Ef Hf Hs. unfold WriteVec. destruct (saturation_ok diag sat Hf Hs) as [tmp [E Ht]]. rewrite E. cbn [bind]. rewrite Ef. reflexivity.
Qed.
End scalar.

(** ** Changed order *)
Lemma natural_inj ao : numbering ao -> forall p q c, natural_number ao p c -> natural_number ao q c -> p = q.
Proof.
  intros Hn p q c Hp Hq. assert (ND : NoDup ao).
  { apply (Permutation_NoDup (Permutation_sym Hn)). apply FinFun.Injective_map_NoDup; [|apply seq_NoDup].
    intros x y E. lia. }
  apply (proj1 (NoDup_nth_error ao) ND); [apply nth_lt in Hp; exact Hp|]. unfold natural_number in *. congruence.
Qed.
Lemma natural_exists ao : numbering ao -> forall p, p < List.length ao -> exists c, c < List.length ao /\ natural_number ao p c.
Proof.
  intros Hn p Hp. destruct (nth_error ao p) as [z|] eqn:E; [|apply nth_error_None in E; lia].
  pose proof (nth_error_In _ _ E) as Hin. apply (Permutation_in _ Hn) in Hin. apply in_map_iff in Hin.
  destruct Hin as [c [<- Hc]]. apply in_seq in Hc. exists c. split; [lia|exact E].
Qed.
Lemma natural_onto ao : numbering ao -> forall c, c < List.length ao -> exists p, p < List.length ao /\ natural_number ao p c.
Proof.
  intros Hn c Hc. assert (Hin : In (Z.of_nat c) ao) by (apply (Permutation_in _ (Permutation_sym Hn)); apply in_map, in_seq; lia).
  apply In_nth_error in Hin. destruct Hin as [p E]. exists p. split; [apply nth_lt in E; exact E|exact E].
Qed.
Lemma changed ao : numbering ao -> ~ unchanged_order ao -> exists p c, p < List.length ao /\ c < List.length ao /\ natural_number ao p c /\ p <> c.
Proof.
  intros Hn Hu. destruct (Exists_dec (fun p => nth_error ao p <> Some (Z.of_nat p)) (seq 0 (List.length ao))) as [H|H].
  - intro p. destruct (nth_error ao p) as [z|]; [|left; discriminate]. destruct (Z.eq_dec z (Z.of_nat p)) as [->|Ne]; [right; auto|left; congruence].
  - apply Exists_exists in H. destruct H as [p [Hp Np]]. apply in_seq in Hp. destruct (natural_exists ao Hn p) as [c [Hc N]]; [lia|].
    exists p, c. repeat split; try lia; try exact N. intros ->. exact (Np N).
  - destruct Hu. intros p Hp. unfold natural_number. destruct (nth_error ao p) as [z|] eqn:E.
    + destruct (Z.eq_dec z (Z.of_nat p)) as [->|Ne]; [reflexivity|]. destruct H. apply Exists_exists. exists p. split; [apply in_seq; lia|congruence].
    + apply nth_error_None in E. lia.
Qed.

(** One marked cell. *)
Definition mark {A} (a b : A) (n p : nat) : list A := upd (repeat a n) p b.
Lemma mark_length {A} (a b : A) n p : List.length (mark a b n p) = n.
Proof. unfold mark. rewrite length_upd. apply repeat_length. Qed.
Lemma mark_at {A} (a b : A) n p : p < n -> nth_error (mark a b n p) p = Some b.
Proof. intro H. apply nth_upd_same. rewrite repeat_length. exact H. Qed.
Lemma mark_off {A} (a b : A) n p q : q < n -> p <> q -> nth_error (mark a b n p) q = Some a.
Proof. intros H N. unfold mark. rewrite nth_upd_other by exact N. apply nth_error_repeat. exact H. Qed.

Lemma twice_wrong {A} (a b : A) ao : numbering ao -> ~ unchanged_order ao -> a <> b ->
  exists sat : list A, List.length sat = List.length ao /\ forall tmp y : list A, in_natural_order ao sat tmp -> in_natural_order ao tmp y -> ~ in_natural_order ao sat y.
Proof.
  intros Hn Hu Hab. destruct (changed ao Hn Hu) as [p [c [Hp [Hc [N Ne]]]]].
  exists (mark a b (List.length ao) p). split; [apply mark_length|]. intros tmp y [Lt Ht] [Ly Hy] [_ Hr].
  destruct (natural_onto ao Hn p Hp) as [q [Hq Nq]].
  assert (q <> p). { intros ->. unfold natural_number in *. rewrite N in Nq. injection Nq as Nq. lia. }
  pose proof (Hr p c N) as H1. rewrite (Hy p c N), (Ht q p Nq) in H1.
  rewrite mark_off in H1 by (try exact Hq; congruence). rewrite mark_at in H1 by exact Hp. congruence.
Qed.

(** Both vectors by global number, or both by natural number. *)
Definition same_order {A} (ao : list Z) (p sat y1 y2 : list A) : Prop :=
  (y1 = p /\ y2 = sat) \/ (in_natural_order ao p y1 /\ in_natural_order ao sat y2).
Lemma orders_differ {A} (a b : A) ao : numbering ao -> ~ unchanged_order ao -> a <> b ->
  exists v : list A, List.length v = List.length ao /\ forall y : list A, in_natural_order ao v y -> ~ same_order ao v v v y.
Proof.
  intros Hn Hu Hab. destruct (changed ao Hn Hu) as [p [c [Hp [Hc [N Ne]]]]].
  exists (mark a b (List.length ao) p). split; [apply mark_length|]. intros y [Ly Hy] [[_ E]|[[_ H] _]].
  - pose proof (Hy p c N) as H. rewrite E in H. rewrite mark_off in H by assumption. rewrite mark_at in H by exact Hp. congruence.
  - pose proof (H p c N) as H1. rewrite mark_off in H1 by assumption. rewrite mark_at in H1 by exact Hp. congruence.
Qed.

(** The diagnostics with a given saturation. *)
Definition diag_of {A} (mass : A) (sat : list A) : list A := flat_map (fun v => [v; mass]) sat.
Lemma diag_of_field {A} (mass : A) sat : field (diag_of mass sat) DIAG_LIQUID_SATURATION sat.
Proof.
  unfold field, num_diag, DIAG_LIQUID_SATURATION. induction sat as [|x l [IH1 IH2]]; [split; [reflexivity|intros p Hp; inversion Hp]|].
  change (diag_of mass (x :: l)) with (x :: mass :: diag_of mass l). cbn [List.length]. split; [lia|].
  intros [|p] Hp; [reflexivity|]. cbn [nth_error]. rewrite IH2 by lia. reflexivity.
Qed.

(** ** Several fields *)
Section several.
Context {A : Type} (zero : A) (ndof : nat) (ao : list Z).
Hypothesis Hd : 1 < ndof.
Hypothesis Ha : ao <> [].
Hypothesis Hn : numbering ao.

Lemma saturation_parallel nls (diag sat out : list A) : list_sum nls = List.length ao -> field diag DIAG_LIQUID_SATURATION sat ->
  List.length sat = List.length ao -> GetLiquidSaturation zero (ManyProcesses nls) ndof ao diag out = UB.
Proof.
  intros Hs Hf HL. unfold GetLiquidSaturation, GetDiagnostic.
  rewrite (gather_field zero diag DIAG_LIQUID_SATURATION sat) by (exact Hf || (unfold num_diag, DIAG_LIQUID_SATURATION; lia)).
  cbn [bind GlobalToNatural]. apply short_source; assumption.
Qed.
Lemma write_parallel nls t (p diag sat : list A) s : list_sum nls = List.length ao -> field diag DIAG_LIQUID_SATURATION sat ->
  List.length sat = List.length ao -> WriteVec zero (ManyProcesses nls) ndof ao t p diag s = UB.
Proof. intros Hs Hf HL. unfold WriteVec. rewrite (saturation_parallel nls diag sat) by assumption. reflexivity. Qed.
Lemma write_serial t (p diag sat : list A) s : fmt s = HDF5Format -> field diag DIAG_LIQUID_SATURATION sat ->
  List.length p = List.length ao * ndof ->
  List.length sat = List.length ao -> WriteVec zero OneProcess ndof ao t p diag s = Err.
Proof.
  intros Ef Hf Hp HL. unfold WriteVec, GetLiquidSaturation, GetDiagnostic.
  rewrite (gather_field zero diag DIAG_LIQUID_SATURATION sat) by (exact Hf || (unfold num_diag, DIAG_LIQUID_SATURATION; lia)).
  cbn [bind GlobalToNatural]. unfold CreateDiagnosticVector. rewrite repeat_length, (half_length diag sat) by apply Hf.
  rewrite Nat.eqb_refl. cbn [bind]. rewrite Ef. unfold CreateGlobalVector. rewrite repeat_length, Hp, Nat.eqb_refl. cbn [bind].
  rewrite (proj2 (Nat.eqb_neq _ _)); [reflexivity|]. rewrite HL. destruct ao; [congruence|]. simpl List.length. nia.
Qed.
Lemma write_serial_exodus t (p diag sat : list A) s : fmt s = ExodusFormat -> field diag DIAG_LIQUID_SATURATION sat ->
  WriteVec zero OneProcess ndof ao t p diag s = Ok (s, [(name_pressure, p); (name_saturation, sat)]).
Proof.
  intros Ef Hf. unfold WriteVec, GetLiquidSaturation, GetDiagnostic.
  rewrite (gather_field zero diag DIAG_LIQUID_SATURATION sat) by (exact Hf || (unfold num_diag, DIAG_LIQUID_SATURATION; lia)).
  cbn [bind GlobalToNatural]. unfold CreateDiagnosticVector. rewrite repeat_length, (half_length diag sat) by apply Hf.
  rewrite Nat.eqb_refl. cbn [bind]. rewrite Ef. reflexivity.
Qed.
End several.
