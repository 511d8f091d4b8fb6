(** Proofs about the reading of mesh files. *)
From Coq Require Import List Arith ZArith Lia Bool.
From Verif Require Import Prelude Arrays UGrid UGridExtraProofs MeshFile SpecMeshFile SpecUGrid.
Import ListNotations.
Local Open Scope nat_scope.

(** ** Rows *)
Lemma upd_mid : forall {A} (a : list A) x b y, upd (a ++ x :: b) (length a) y = a ++ y :: b.
Proof. intros A a x b y; induction a as [|z a IH]; simpl; [reflexivity|]. rewrite IH. reflexivity. Qed.
Lemma wr_mid : forall {A} (a : list A) x b y, wr (a ++ x :: b) (length a) y = Ok (a ++ y :: b).
Proof.
  intros A a x b y. rewrite wr_ok by (rewrite app_length; simpl; lia). rewrite upd_mid. reflexivity.
Qed.
Lemma rd_mid : forall {A} (a : list A) x b, rd (a ++ x :: b) (length a) = Ok x.
Proof. intros A a x b. apply rd_some. rewrite nth_error_app2 by lia. rewrite Nat.sub_diag. reflexivity. Qed.

Lemma row_loop : forall {A B} (f : A -> B) z post xs pre dn,
  loop (length xs) (length dn)
    (fun j st => do x <- rd (pre ++ xs ++ post) (fst st); do row <- wr (snd st) j (f x); Ok (S (fst st), row))
    (length pre, dn ++ repeat z (length xs)) = Ok (length pre + length xs, dn ++ map f xs).
Proof.
  intros A B f z post xs; induction xs as [|x xs IH]; intros pre dn; cbn [length loop repeat map fst snd].
  - rewrite Nat.add_0_r. reflexivity.
  - cbn [app]. rewrite rd_mid. cbn [bind fst snd]. rewrite wr_mid. cbn [bind].
    specialize (IH (pre ++ [x]) (dn ++ [f x])). rewrite !app_length in IH. cbn [length] in IH.
    rewrite <- !app_assoc in IH. cbn [app] in IH.
    rewrite !Nat.add_1_r in IH. rewrite IH. f_equal. f_equal. lia.
Qed.
Lemma read_row_ok : forall {A B} (f : A -> B) z xs pre post,
  read_row f (length xs) (pre ++ xs ++ post) (length pre, repeat z (length xs)) = Ok (length pre + length xs, map f xs).
Proof. intros. unfold read_row, for_. apply (row_loop f z post xs pre []). Qed.

(** ** Blocks *)
Lemma share_blocks : forall {A} bs (rows : list (list A)) off nl,
  Forall (fun r => length r = bs) rows -> share bs off nl (concat rows) = concat (firstn nl (skipn off rows)).
Proof.
  intros A bs rows off nl H. unfold share. revert off. induction H as [|r rows Hr H IH]; intro off.
  - change (concat (@nil (list A))) with (@nil A). rewrite !skipn_nil, !firstn_nil. reflexivity.
  - destruct off as [|off].
    + cbn [Nat.mul skipn]. clear IH. revert r rows Hr H. induction nl as [|nl IHn]; intros r rows Hr H; [reflexivity|].
      cbn [firstn concat Nat.mul]. rewrite firstn_app, <- Hr, firstn_all2 by lia. f_equal.
      rewrite Nat.add_comm, Nat.add_sub, Hr. destruct rows as [|r2 rows]; [simpl; rewrite !firstn_nil; reflexivity|].
      inversion H; subst. apply IHn; assumption.
    + cbn [concat skipn Nat.mul]. rewrite skipn_app, <- Hr, skipn_all2 by lia. cbn [app].
      rewrite Nat.add_comm, Nat.add_sub, Hr. apply IH.
Qed.
Lemma concat_length_blocks : forall {A} bs (rows : list (list A)),
  Forall (fun r => length r = bs) rows -> length (concat rows) = length rows * bs.
Proof. intros A bs rows H; induction H as [|r rows Hr _ IH]; simpl; [reflexivity|]. rewrite app_length. lia. Qed.

(** ** Cells *)
Lemma cells_loop : forall maxv rest (dn : list nat),
  Forall (fun c : Z * list Z => length (snd c) = maxv) rest ->
  forall pre dvs, length dvs = length dn ->
  loop (length rest) (length dn)
    (fun i st =>
      do nvertex <- rd (pre ++ concat (map (fun c => fst c :: snd c) rest)) (fst st);
      if known_type nvertex then
        do row <- rd (snd st) i;
        do st' <- read_row (fun x => (x - 1)%Z) maxv (pre ++ concat (map (fun c => fst c :: snd c) rest)) (S (fst st), row);
        do cv <- wr (snd st) i (snd st');
        Ok (fst st', cv)
      else Err)
    (length pre, dvs ++ repeat (repeat (-1)%Z maxv) (length rest)) =
  if forallb (fun c => known_type (fst c)) rest
  then Ok (length pre + length rest * S maxv, dvs ++ map (fun c => map (fun x => (x - 1)%Z) (snd c)) rest) else Err.
Proof.
  intros maxv rest. induction rest as [|c rest IH]; intros dn H pre dvs HL.
  - cbn [length loop forallb map repeat]. rewrite Nat.add_0_r. reflexivity.
  - inversion H as [|c' rest' Hc Hr]; subst c' rest'. clear H. destruct c as [ty xs]. cbn [fst snd] in Hc.
    cbn [length loop forallb map concat repeat fst snd app]. rewrite rd_mid. cbn [bind].
    destruct (known_type ty); [|reflexivity]. cbn [andb].
    replace (length dn) with (length dvs) by exact HL. rewrite rd_mid. cbn [bind].
    change (pre ++ ty :: xs ++ concat (map (fun c => fst c :: snd c) rest))
      with (pre ++ [ty] ++ xs ++ concat (map (fun c => fst c :: snd c) rest)).
    assert (E : S (length pre) = length (pre ++ [ty])) by (rewrite app_length; simpl; lia).
    assert (R : read_row (fun x => (x - 1)%Z) maxv (pre ++ [ty] ++ xs ++ concat (map (fun c => fst c :: snd c) rest))
                (S (length pre), repeat (-1)%Z maxv) = Ok (S (length pre) + maxv, map (fun x => (x - 1)%Z) xs)).
    { rewrite (app_assoc pre [ty]), E, <- Hc. apply read_row_ok. }
    rewrite R. cbn [bind fst snd]. rewrite wr_mid. cbn [bind].
    specialize (IH (0 :: dn) Hr (pre ++ [ty] ++ xs) (dvs ++ [map (fun x => (x - 1)%Z) xs])
                   ltac:(rewrite app_length; simpl; lia)).
    cbn [length] in IH. rewrite <- !app_assoc in IH. cbn [app] in IH.
    replace (length (pre ++ ty :: xs)) with (S (length pre) + maxv) in IH by (rewrite app_length; simpl; lia).
    rewrite HL. cbn [app]. rewrite IH. destruct (forallb _ rest); [|reflexivity]. f_equal. f_equal. lia.
Qed.

Lemma read_cells_ok : forall bs (cells : list (Z * list Z)), 0 < bs ->
  Forall (fun c => length (snd c) = bs - 1) cells ->
  read_cells bs (concat (map (fun c => fst c :: snd c) cells)) =
  if forallb (fun c => known_type (fst c)) cells then Ok (map (fun c => map (fun x => (x - 1)%Z) (snd c)) cells) else Err.
Proof.
  intros bs cells Hb H. unfold read_cells.
  rewrite (concat_length_blocks bs) by
    (apply Forall_map; eapply Forall_impl; [|exact H]; intros c Hc; cbn in *; lia).
  rewrite map_length, Nat.div_mul by lia.
  pose proof (cells_loop (bs - 1) cells [] H [] [] eq_refl) as L. cbn [app length] in L. unfold for_. rewrite L.
  destruct (forallb _ cells); reflexivity.
Qed.

(** ** Coordinates *)
Lemma coords_loop : forall {A} (zero : A) d rest dn,
  Forall (fun r : list A => length r = d) rest ->
  forall pre dvs, length dvs = length (dn : list nat) ->
  loop (length rest) (length dn)
    (fun i st =>
      do row <- rd (snd st) i;
      do st' <- read_row (fun x => x) d (pre ++ concat rest) (fst st, row);
      do cs <- wr (snd st) i (snd st');
      Ok (fst st', cs))
    (length pre, dvs ++ repeat (repeat zero d) (length rest)) =
  Ok (length pre + length rest * d, dvs ++ rest).
Proof.
  intros A zero d rest. induction rest as [|r rest IH]; intros dn H pre dvs HL.
  - cbn [length loop repeat]. rewrite Nat.add_0_r. reflexivity.
  - inversion H as [|c' rest' Hc Hr]; subst c' rest'. clear H.
    cbn [length loop concat repeat fst snd]. rewrite <- HL, rd_mid. cbn [bind].
    assert (R : read_row (fun x : A => x) d (pre ++ r ++ concat rest) (length pre, repeat zero d) = Ok (length pre + d, r)).
    { rewrite <- Hc. rewrite read_row_ok, map_id. reflexivity. }
    rewrite R. cbn [bind fst snd]. rewrite wr_mid. cbn [bind].
    specialize (IH (0 :: dn) Hr (pre ++ r) (dvs ++ [r]) ltac:(rewrite app_length; simpl; lia)).
    cbn [length] in IH. rewrite <- HL, <- !app_assoc in IH. cbn [app] in IH. rewrite app_length, Hc in IH. rewrite IH.
    f_equal. f_equal. lia.
Qed.
Lemma read_coordinates_ok : forall {A} (zero : A) vs, Forall (fun r => length r = 3) vs ->
  read_coordinates zero 3 (concat vs) = Ok vs.
Proof.
  intros A zero vs H. unfold read_coordinates. cbn [Nat.eqb negb].
  rewrite (concat_length_blocks 3) by exact H. rewrite Nat.div_mul by lia.
  pose proof (coords_loop zero 3 vs [] H [] [] eq_refl) as L. cbn [app length] in L. unfold for_. rewrite L. reflexivity.
Qed.

(** ** All processes *)
Lemma In_firstn_in : forall {A} (x : A) n l, In x (firstn n l) -> In x l.
Proof. intros A x n l H. rewrite <- (firstn_skipn n l). apply in_or_app. left; exact H. Qed.
Lemma In_skipn_in : forall {A} (x : A) n l, In x (skipn n l) -> In x l.
Proof. intros A x n l H. rewrite <- (firstn_skipn n l). apply in_or_app. right; exact H. Qed.
Lemma skipn_more : forall {A} a b (l : list A), skipn a (skipn b l) = skipn (b + a) l.
Proof. intros A a b; induction b as [|b IH]; intro l; [reflexivity|]. destruct l; simpl; [apply skipn_nil|apply IH]. Qed.
Lemma parts_of : forall {A B C} (f : list A -> outcome (list B)) (g : C -> list A) bs (items : list C) (h : C -> B) ok nls off,
  Forall (fun c => length (g c) = bs) items -> off + list_sum nls <= length items ->
  (forall l, Forall (fun c => In c items) l ->
     f (concat (map g l)) = if forallb ok l then Ok (map h l) else Err) ->
  mapM (fun r => f (share bs (fst r) (snd r) (concat (map g items)))) (ranks_from off nls) =
  if forallb ok (firstn (list_sum nls) (skipn off items))
  then Ok (map (fun r => map h (firstn (snd r) (skipn (fst r) items))) (ranks_from off nls)) else Err.
Proof.
  intros A B C f g bs items h ok nls. induction nls as [|n nls IH]; intros off H HL Hf; [reflexivity|].
  change (list_sum (n :: nls)) with (n + list_sum nls) in *.
  cbn [ranks_from mapM map fst snd].
  rewrite share_blocks by (apply Forall_map; exact H). rewrite skipn_map, firstn_map.
  rewrite Hf. 2:{ apply Forall_forall. intros c Hc. apply (In_skipn_in c off). apply In_firstn_in in Hc. exact Hc. }
  assert (E : firstn (n + list_sum nls) (skipn off items) = firstn n (skipn off items) ++ firstn (list_sum nls) (skipn (off + n) items)).
  { rewrite <- (firstn_skipn n (skipn off items)) at 1. rewrite firstn_app, firstn_firstn, firstn_length, skipn_length.
    rewrite Nat.min_r by lia. f_equal. replace (n + list_sum nls - Nat.min n (length items - off)) with (list_sum nls) by lia.
    f_equal. rewrite skipn_more. reflexivity. }
  rewrite E, forallb_app. destruct (forallb ok (firstn n (skipn off items))); [|reflexivity]. cbn [bind andb].
  rewrite IH by (try assumption; lia). destruct (forallb ok _); reflexivity.
Qed.
