(** A hexahedron, and a hexahedron with a wedge on top of one of its faces. *)
From Coq Require Import List ZArith Bool Arith Lia.
From Verif Require Import Prelude Arrays Closures SpecClosures ClosuresProofs.
Import ListNotations.
Local Open Scope nat_scope.

(** What a successful run of TDySaveClosures leaves. *)
Lemma saved_ok dm st : proper dm -> SaveClosures dm = Ok st -> freed st = false /\ (forall e p, keeps dm e p -> holds st e p) /\
  forall e, e < pend dm -> (forall p, ~ keeps dm e p) -> nth_error (csize st) e = Some (-1)%Z.
Proof.
  intros W E.
  assert (Hs : forall e p, keeps dm e p -> length p <= 432).
  { intros e p Hk. destruct (le_lt_dec (length p) 432) as [L|L]; [exact L|]. rewrite (save_grows dm e p W Hk L) in E. discriminate E. }
  destruct (save_all dm W Hs) as [st' [E' [[F _] [H Z]]]]. rewrite E in E'. injection E' as <-. auto.
Qed.
Lemma number_proof dm st n : proper dm -> SaveClosures dm = Ok st -> 0 < cEnd dm -> (forall c, c < cEnd dm -> length (vertices_of dm c) = n) ->
  NumberOfCellVertices dm st = Ok (Z.of_nat n).
Proof.
  intros W E H0 Hn. destruct (saved_ok dm st W E) as [F [H _]]. apply number_uniform; auto. intros c Hc. apply H. constructor; exact Hc.
Qed.
Lemma mixed_proof dm st c d : proper dm -> SaveClosures dm = Ok st -> c < cEnd dm -> d < cEnd dm -> length (vertices_of dm c) <> length (vertices_of dm d) ->
  setup_sizes dm st = Ok [83; 83; 83; 83; 83; 83; 83]%Z.
Proof.
  intros W E Hc Hd Hn. destruct (saved_ok dm st W E) as [F [H _]]. unfold setup_sizes.
  rewrite (number_mixed dm st F (fun x Hx => H x _ (keeps_cell dm x Hx)) c d Hc Hd Hn). reflexivity.
Qed.
Lemma sizes_proof dm st n l : proper dm -> SaveClosures dm = Ok st -> 0 < cEnd dm -> (forall c, c < cEnd dm -> Z.of_nat (length (vertices_of dm c)) = n) -> shape n l ->
  setup_sizes dm st = Ok (l ++ [8; 3])%Z.
Proof.
  intros W E H0 Hn S. unfold setup_sizes.
  rewrite (number_proof dm st (Z.to_nat n) W E H0) by (intros c Hc; rewrite <- (Hn c Hc), Nat2Z.id; reflexivity).
  destruct S; reflexivity.
Qed.
Lemma unsupported_proof dm st n : proper dm -> SaveClosures dm = Ok st -> 0 < cEnd dm -> (forall c, c < cEnd dm -> Z.of_nat (length (vertices_of dm c)) = n) ->
  n <> 6%Z -> n <> 8%Z -> exists v e nb f, setup_sizes dm st = Ok [v; e; nb; f; 83; 83; 83]%Z.
Proof.
  intros W E H0 Hn H6 H8. unfold setup_sizes.
  rewrite (number_proof dm st (Z.to_nat n) W E H0) by (intros c Hc; rewrite <- (Hn c Hc), Nat2Z.id; reflexivity).
  assert (N : (0 <= n)%Z) by (rewrite <- (Hn 0 H0); lia). rewrite Z2Nat.id by exact N. cbn [bind].
  unfold GetCellType. destruct (Z.eqb_spec n 4) as [->|]; [do 4 eexists; reflexivity|]. destruct (Z.eqb_spec n 5) as [->|]; [do 4 eexists; reflexivity|].
  destruct (Z.eqb_spec n 6); [contradiction|]. destruct (Z.eqb_spec n 8); [contradiction|]. do 4 eexists; reflexivity.
Qed.
Lemma max_proof dm st o1 o2 : proper dm -> SaveClosures dm = Ok st ->
  exists m, MaxNum st (vStart dm) (vEnd dm) o1 o2 = Ok m /\ largest (fun v => length (among o1 o2 (star dm v))) (vStart dm) (vEnd dm) m.
Proof. intros W E. destruct (saved_ok dm st W E) as [F [H _]]. apply max_ok; [exact F|]. intros e He. apply H. constructor; exact He. Qed.

(** One hexahedron: cell 0, vertices 1 to 8, faces 9 to 14, edges 15 to 26. *)
Definition pts (l : list Z) : list (Z * Z) := map (fun x => (x, 0%Z)) l.
Definition zr (a n : nat) : list Z := map Z.of_nat (seq a n).
Definition hx_cone (e : nat) : list (Z * Z) :=
  if e =? 0 then (0, 0)%Z :: map (fun x => (x, (-2)%Z)) (zr 9 6) ++ pts (zr 15 12 ++ zr 1 8)
  else if (9 <=? e) && (e <? 15) then pts [Z.of_nat e; 15; 16; 17; 18; 1; 2; 3; 4]%Z else [].
Definition hx : plex := mkPlex 27 1 9 15 15 27 1 9 hx_cone (fun v => pts [Z.of_nat v; 15; 16; 17; 9; 10; 11; 0]%Z).
Lemma hx_proper : proper hx.
Proof. split; cbn; lia. Qed.
Lemma hx_run : exists st, SaveClosures hx = Ok st /\ setup_sizes hx st = Ok [8; 12; 6; 6; 4; 8; 3]%Z /\
  MaxCellsSharingAVertex hx st = Ok 1 /\ MaxEdgesSharingAVertex hx st = Ok 3 /\ MaxFacesSharingAVertex hx st = Ok 3.
Proof.
  destruct (save_all hx hx_proper) as [st [E _]].
  { intros e p Hk. inversion Hk as [e' He|e' He|e' He]; subst e' p.
    - cbn in He. replace e with 0 by lia. cbn. lia.
    - cbn. lia.
    - cbn in He. assert (C : e = 9 \/ e = 10 \/ e = 11 \/ e = 12 \/ e = 13 \/ e = 14) by lia. destruct C as [->|[->|[->|[->|[->| ->]]]]]; cbn; lia. }
  exists st. split; [exact E|].
  split; [exact (sizes_proof hx st 8 _ hx_proper E ltac:(cbn; lia) ltac:(intros c Hc; cbn in Hc; replace c with 0 by lia; reflexivity) hexahedron)|].
  destruct (saved_ok hx st hx_proper E) as [F [H _]].
  assert (V : forall v, 1 <= v < 9 -> holds st v (star hx v)) by (intros v Hv; apply H; constructor; exact Hv).
  assert (M : forall o1 o2 n, (forall v, 1 <= v < 9 -> length (among o1 o2 (star hx v)) = n) -> MaxNum st 1 9 o1 o2 = Ok n).
  { intros o1 o2 n Hn. destruct (max_ok st (star hx) 1 9 o1 o2 F V) as [m [Em [A B]]]. rewrite Em. f_equal.
    specialize (A 1 ltac:(lia)). cbn beta in A. rewrite Hn in A by lia. destruct B as [->|[x [Hx <-]]]; [lia|]. rewrite Hn by lia. reflexivity. }
  assert (C : forall v, 1 <= v < 9 -> v = 1 \/ v = 2 \/ v = 3 \/ v = 4 \/ v = 5 \/ v = 6 \/ v = 7 \/ v = 8) by lia.
  split; [|split]; apply M; intros v Hv; destruct (C v Hv) as [->|[->|[->|[->|[->|[->|[->| ->]]]]]]]; reflexivity.
Qed.

(** Two cells: a hexahedron and a wedge, with four common vertices (closures without the
    edges). *)
Definition mx : plex := mkPlex 14 2 12 14 14 14 2 12
  (fun e => if e =? 0 then pts (0%Z :: 12%Z :: zr 2 8) else if e =? 1 then pts [1; 12; 6; 7; 8; 9; 10; 11]%Z else pts [Z.of_nat e])
  (fun v => pts [Z.of_nat v; 12; 0; 1]%Z).
Lemma mx_proper : proper mx.
Proof. split; cbn; lia. Qed.
Lemma mx_run : exists st, SaveClosures mx = Ok st /\ length (vertices_of mx 0) = 8 /\ length (vertices_of mx 1) = 6 /\ setup_sizes mx st = Ok [83; 83; 83; 83; 83; 83; 83]%Z.
Proof.
  destruct (save_all mx mx_proper) as [st [E _]].
  { intros e p Hk. inversion Hk as [e' He|e' He|e' He]; subst e' p; cbn [mx cone star]; [| |];
    try (destruct (e =? 0); [cbn; lia|]; destruct (e =? 1); cbn; lia); cbn; lia. }
  exists st. split; [exact E|]. split; [reflexivity|]. split; [reflexivity|].
  apply (mixed_proof mx st 0 1 mx_proper E); cbn; lia.
Qed.

(** Four hundred and forty cells around a vertex. *)
Definition gx : plex := mkPlex 2 1 2 2 2 2 1 2 (fun e => pts [Z.of_nat e]) (fun v => pts (zr 0 440)).
Lemma gx_run : proper gx /\ SaveClosures gx = UB.
Proof.
  assert (W : proper gx) by (split; cbn; lia). split; [exact W|].
  apply (save_grows gx 1 (star gx 1) W); [constructor; cbn; lia|]. cbn [gx star]. unfold pts, zr. rewrite !map_length, seq_length. lia.
Qed.
