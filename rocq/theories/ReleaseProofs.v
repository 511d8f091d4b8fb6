From Coq Require Import Reals ZArith Bool List Arith Lia String Permutation.
From Verif Require Import Prelude Arrays Release SpecRelease.
Import ListNotations.
Local Open Scope string_scope.
Local Open Scope nat_scope.
Local Open Scope list_scope.

Fixpoint blocks (p : ptr) : list nat :=
  match p with Null => [] | Blk b _ rows => b :: flat_map blocks rows end.

Fixpoint shaped (dims : list nat) (p : ptr) : Prop :=
  match dims with
  | [] => False
  | n :: rest =>
      match n with
      | O => p = Null
      | _ => exists b rows, p = Blk b (n * 8) rows /\
               match rest with
               | [] => rows = []
               | _ => List.length rows = n /\ Forall (shaped rest) rows
               end
      end
  end.

Fixpoint nblocks (dims : list nat) : nat :=
  match dims with
  | [] => 0
  | n :: rest => if n =? 0 then 0 else 1 + match rest with [] => 0 | _ => n * nblocks rest end
  end.

Lemma flat_map_length_const : forall (rows : list ptr) k, Forall (fun p => List.length (blocks p) = k) rows ->
  List.length (flat_map blocks rows) = List.length rows * k.
Proof.
  induction rows as [|p rows IH]; intros k H; [reflexivity|].
  inversion H; subst. cbn [flat_map List.length]. rewrite app_length, IH with (k := List.length (blocks p)) by assumption. lia.
Qed.

Lemma shaped_nblocks : forall dims p, shaped dims p -> List.length (blocks p) = nblocks dims.
Proof.
  induction dims as [|n rest IH]; intros p H; [destruct H|].
  cbn [shaped] in H. cbn [nblocks]. destruct n as [|n].
  - subst p. reflexivity.
  - destruct H as (b & rows & -> & H). cbn [Nat.eqb]. destruct rest as [|d rest].
    + subst rows. reflexivity.
    + destruct H as [HL HF]. cbn [blocks List.length]. 
      rewrite (flat_map_length_const rows (nblocks (d :: rest))), HL; [reflexivity|].
      eapply Forall_impl; [|exact HF]. intros q Hq. apply IH. exact Hq.
Qed.

(** ** Allocation *)
Definition allocated (h h' : heap) (l : list nat) : Prop :=
  good_heap h' /\ next h <= next h' /\ Permutation (live h') (l ++ live h)
  /\ forall b, In b l -> next h <= b < next h'.

Lemma allocated_trans : forall h h1 h2 l1 l2,
  allocated h h1 l1 -> allocated h1 h2 l2 -> allocated h h2 (l1 ++ l2).
Proof.
  intros h h1 h2 l1 l2 (G1 & N1 & P1 & B1) (G2 & N2 & P2 & B2).
  split; [exact G2|]. split; [lia|]. split.
  - rewrite P2, P1. rewrite (app_assoc l2), (Permutation_app_comm l2 l1). reflexivity.
  - intros b Hb. apply in_app_or in Hb. destruct Hb as [Hb|Hb].
    + apply B1 in Hb. lia.
    + apply B2 in Hb. lia.
Qed.

Lemma allocated_nil : forall h, good_heap h -> allocated h h [].
Proof. intros h G. split; [exact G|]. split; [lia|]. split; [reflexivity|]. intros b []. Qed.

Lemma tdy_alloc_spec : forall n h, good_heap h -> 0 < n ->
  exists h', tdy_alloc n h = (Blk (next h) n [], h') /\ allocated h h' [next h].
Proof.
  intros n h [ND LT] Hn. unfold tdy_alloc. destruct (Nat.eqb_spec n 0) as [E|E]; [lia|].
  eexists. split; [reflexivity|].
  split; [|split; [|split]].
  - split; cbn.
    + constructor; [|exact ND]. intros Hin. apply LT in Hin. lia.
    + intros b [Hb|Hb]; [lia|]. apply LT in Hb. lia.
  - cbn. lia.
  - reflexivity.
  - intros b [Hb|[]]. cbn. lia.
Qed.

Lemma rows_alloc_spec : forall (Q : ptr -> Prop) f,
  (forall h, good_heap h -> exists p h', f h = (p, h') /\ allocated h h' (blocks p) /\ Q p) ->
  forall k h, good_heap h ->
  exists rows h', rows_alloc k f h = (rows, h') /\ allocated h h' (flat_map blocks rows)
    /\ List.length rows = k /\ Forall Q rows.
Proof.
  intros Q f Hf. induction k as [|k IH]; intros h G.
  - exists [], h. split; [reflexivity|]. split; [apply allocated_nil; exact G|]. split; [reflexivity|constructor].
  - cbn [rows_alloc]. destruct (Hf h G) as (p & h1 & E & A & HQ). rewrite E.
    destruct (IH h1 (proj1 A)) as (rows & h2 & E2 & A2 & L & HF). rewrite E2.
    exists (p :: rows), h2. split; [reflexivity|]. split; [|split].
    + cbn [flat_map]. eapply allocated_trans; eassumption.
    + cbn. lia.
    + constructor; assumption.
Qed.

Lemma alloc_array_spec : forall dims h, dims <> [] -> good_heap h ->
  exists p h', alloc_array dims h = (p, h') /\ allocated h h' (blocks p) /\ shaped dims p.
Proof.
  induction dims as [|n rest IH]; intros h HD G; [congruence|].
  cbn [alloc_array]. destruct n as [|n].
  - cbn [Nat.mul tdy_alloc Nat.eqb]. destruct rest as [|d rest].
    + exists Null, h. split; [reflexivity|]. split; [apply allocated_nil; exact G|]. reflexivity.
    + cbn [rows_alloc]. exists Null, h. split; [reflexivity|]. split; [apply allocated_nil; exact G|]. reflexivity.
  - destruct (tdy_alloc_spec (S n * 8) h G ltac:(lia)) as (h1 & E & A). rewrite E.
    destruct rest as [|d rest].
    + exists (Blk (next h) (S n * 8) []), h1. split; [reflexivity|]. split; [exact A|].
      cbn [shaped]. exists (next h), []. split; reflexivity.
    + destruct (rows_alloc_spec (shaped (d :: rest)) (alloc_array (d :: rest))) with (k := S n) (h := h1)
        as (rows & h2 & E2 & A2 & L & HF).
      { intros h0 G0. apply IH; [discriminate|exact G0]. }
      { exact (proj1 A). }
      rewrite E2. exists (Blk (next h) (S n * 8) rows), h2. split; [reflexivity|]. split.
      * cbn [blocks]. change (next h :: flat_map blocks rows) with ([next h] ++ flat_map blocks rows).
        eapply allocated_trans; eassumption.
      * cbn [shaped]. exists (next h), rows. split; [reflexivity|]. split; assumption.
Qed.

(** ** Release *)
Lemma remove_perm : forall b l, NoDup l -> In b l -> Permutation l (b :: remove Nat.eq_dec b l).
Proof.
  intros b. induction l as [|x l IH]; intros ND HI; [destruct HI|].
  inversion ND as [|? ? Hx ND']; subst. cbn [remove]. destruct (Nat.eq_dec b x) as [->|NE].
  - rewrite notin_remove by exact Hx. reflexivity.
  - destruct HI as [E|HI]; [congruence|]. rewrite perm_swap. constructor. apply IH; assumption.
Qed.

(** [l] is gone. *)
Definition released (h h' : heap) (l : list nat) : Prop :=
  good_heap h' /\ next h' = next h /\ Permutation (live h) (l ++ live h').

Lemma released_trans : forall h h1 h2 l1 l2, released h h1 l1 -> released h1 h2 l2 -> released h h2 (l1 ++ l2).
Proof.
  intros h h1 h2 l1 l2 (G1 & N1 & P1) (G2 & N2 & P2). split; [exact G2|]. split; [congruence|].
  rewrite P1, P2, app_assoc. reflexivity.
Qed.

Lemma is_live_spec : forall h b c r, is_live h (Blk b c r) = true <-> In b (live h).
Proof.
  intros h b c r. cbn. rewrite existsb_exists. split.
  - intros (x & Hx & E). apply Nat.eqb_eq in E. subst. exact Hx.
  - intros H. exists b. split; [exact H|apply Nat.eqb_refl].
Qed.

Lemma tdy_free_spec : forall b c r h, good_heap h -> In b (live h) ->
  exists h', tdy_free (Blk b c r) h = Ok h' /\ released h h' [b].
Proof.
  intros b c r h [ND LT] HI. unfold tdy_free.
  rewrite (proj2 (is_live_spec h b c r) HI). eexists. split; [reflexivity|].
  assert (P := remove_perm b (live h) ND HI).
  split; [|split; [reflexivity|exact P]].
  split; cbn.
  - assert (ND2 := Permutation_NoDup P ND). inversion ND2; assumption.
  - intros x Hx. apply LT. eapply Permutation_in; [symmetry; exact P|]. right. exact Hx.
Qed.

Lemma dealloc_rows_spec : forall f (Q : ptr -> Prop),
  (forall p h, Q p -> good_heap h -> (exists l, Permutation (live h) (blocks p ++ l)) ->
     exists h', f p h = Ok h' /\ released h h' (blocks p)) ->
  forall todo done b c h, good_heap h -> Forall Q todo ->
  (exists l, Permutation (live h) (b :: flat_map blocks todo ++ l)) ->
  exists h', dealloc_rows (List.length todo) (List.length done) f (Blk b c (done ++ todo)) h = Ok h'
    /\ released h h' (flat_map blocks todo).
Proof.
  intros f Q Hf. induction todo as [|p todo IH]; intros done b c h G HF [l P].
  - exists h. split; [reflexivity|]. split; [exact G|]. split; reflexivity.
  - inversion HF as [|? ? HQ HF']; subst. cbn [List.length dealloc_rows]. unfold row.
    assert (HI : In b (live h)). { eapply Permutation_in; [symmetry; exact P|]. left. reflexivity. }
    rewrite (proj2 (is_live_spec h b c (done ++ p :: todo)) HI).
    rewrite nth_error_app2 by lia. rewrite Nat.sub_diag. cbn [nth_error bind].
    destruct (Hf p h HQ G) as (h1 & E1 & R1).
    { exists (b :: flat_map blocks todo ++ l). rewrite P. cbn [flat_map].
      rewrite <- !app_assoc. rewrite Permutation_middle. reflexivity. }
    rewrite E1. cbn [bind].
    destruct (IH (done ++ [p]) b c h1 (proj1 R1) HF') as (h2 & E2 & R2).
    { exists l. destruct R1 as (_ & _ & P1). 
      apply (Permutation_app_inv_l (blocks p)). rewrite <- P1, P. cbn [flat_map]. rewrite <- !app_assoc.
      rewrite <- Permutation_middle. reflexivity. }
    rewrite app_length in E2. cbn [List.length] in E2. rewrite Nat.add_1_r in E2.
    rewrite <- app_assoc in E2. cbn [app] in E2. rewrite E2.
    exists h2. split; [reflexivity|]. cbn [flat_map]. eapply released_trans; eassumption.
Qed.

Lemma dealloc_array_spec : forall dims p h, shaped dims p -> good_heap h ->
  (exists l, Permutation (live h) (blocks p ++ l)) ->
  exists h', dealloc_array (removelast dims) p h = Ok h' /\ released h h' (blocks p).
Proof.
  induction dims as [|n rest IH]; intros p h HS G [l P]; [destruct HS|].
  cbn [shaped] in HS. destruct n as [|n].
  - subst p. destruct rest as [|d rest].
    + cbn. exists h. split; [reflexivity|]. split; [exact G|]. split; reflexivity.
    + change (removelast (0 :: d :: rest)) with (0 :: removelast (d :: rest)).
      cbn [dealloc_array dealloc_rows bind tdy_free]. exists h. split; [reflexivity|]. split; [exact G|]. split; reflexivity.
  - destruct HS as (b & rows & -> & HS). cbn [blocks] in *.
    destruct rest as [|d rest].
    + subst rows. cbn [removelast dealloc_array]. apply tdy_free_spec; [exact G|].
      eapply Permutation_in; [symmetry; exact P|]. left. reflexivity.
    + change (removelast (S n :: d :: rest)) with (S n :: removelast (d :: rest)).
      cbn [dealloc_array]. destruct HS as [HL HF].
      destruct (dealloc_rows_spec (dealloc_array (removelast (d :: rest))) (shaped (d :: rest)) IH
                  rows [] b (S n * 8) h G HF) as (h1 & E1 & R1).
      { exists l. exact P. }
      cbn [app List.length] in E1. rewrite HL in E1. rewrite E1. cbn [bind].
      destruct R1 as (G1 & N1 & P1).
      assert (Pb : Permutation (live h1) (b :: l)).
      { apply (Permutation_app_inv_l (flat_map blocks rows)). rewrite <- P1, P. cbn [app]. apply Permutation_middle. }
      destruct (tdy_free_spec b (S n * 8) rows h1 G1) as (h2 & E2 & R2).
      { eapply Permutation_in; [symmetry; exact Pb|]. left. reflexivity. }
      exists h2. split; [exact E2|].
      destruct R2 as (G2 & N2 & P2). split; [exact G2|]. split; [congruence|].
      rewrite P1, P2. cbn [app]. rewrite Permutation_middle. reflexivity.
Qed.

(** ** Bookkeeping of which fields hold arrays *)
Definition key := (obj * string)%type.
Definition obj_eqb (a b : obj) := match a, b with Ctx, Ctx | Mesh, Mesh => true | _, _ => false end.
Definition key_eqb (a b : key) := obj_eqb (fst a) (fst b) && String.eqb (snd a) (snd b).
Lemma key_eqb_spec : forall a b, key_eqb a b = true <-> a = b.
Proof.
  intros [o f] [o' f']. unfold key_eqb. cbn. rewrite andb_true_iff, String.eqb_eq.
  split; [intros [H1 H2]; destruct o, o'; cbn in H1; congruence|].
  intros E. inversion E. subst. split; [destruct o'; reflexivity|reflexivity].
Qed.

Fixpoint size_eqb (a b : size) : bool :=
  match a, b with
  | Cells, Cells | Faces, Faces | Edges, Edges | Vertices, Vertices | BoundaryFaces, BoundaryFaces
  | CellVertices, CellVertices | CellEdges, CellEdges | CellNeighbors, CellNeighbors | CellFaces, CellFaces
  | VertexCells, VertexCells | VertexFaces, VertexFaces | VertexEdges, VertexEdges
  | EdgeCells, EdgeCells | FaceCells, FaceCells | FaceEdges, FaceEdges | FaceVertices, FaceVertices => true
  | Const n, Const m => Nat.eqb n m
  | Plus a b, Plus c d | Times a b, Times c d => size_eqb a c && size_eqb b d
  | _, _ => false
  end.
Lemma size_eqb_eq : forall a b, size_eqb a b = true -> a = b.
Proof.
  induction a; destruct b; cbn; intros H; try discriminate; try reflexivity.
  - apply Nat.eqb_eq in H. congruence.
  - apply andb_prop in H. destruct H as [H1 H2]. f_equal; auto.
  - apply andb_prop in H. destruct H as [H1 H2]. f_equal; auto.
Qed.
Fixpoint sizes_eqb (a b : list size) : bool :=
  match a, b with
  | [], [] => true
  | x :: a, y :: b => size_eqb x y && sizes_eqb a b
  | _, _ => false
  end.
Lemma sizes_eqb_eq : forall a b, sizes_eqb a b = true -> a = b.
Proof.
  induction a as [|x a IH]; destruct b as [|y b]; cbn; intros H; try discriminate; [reflexivity|].
  apply andb_prop in H. destruct H as [H1 H2]. apply size_eqb_eq in H1. apply IH in H2. congruence.
Qed.

Definition entry := (key * list size)%type.
Record ghost := mkG { own : list entry; dom : list key }.
Definition mem (k : key) (l : list key) := existsb (key_eqb k) l.
Definition mesh_entry : entry := ((Ctx, "mesh"), [Const 1]).
Fixpoint owned (k : key) (l : list entry) : option (list size) :=
  match l with
  | [] => None
  | (k', d) :: l => if key_eqb k k' then Some d else owned k l
  end.
Fixpoint drop (k : key) (l : list entry) : list entry :=
  match l with
  | [] => []
  | (k', d) :: l => if key_eqb k k' then l else (k', d) :: drop k l
  end.
Definition mesh_ok (g : ghost) : bool :=
  match owned (Ctx, "mesh") (own g) with Some [Const 1] => true | _ => false end.
Definition obj_ok (g : ghost) (o : obj) : bool := match o with Ctx => true | Mesh => mesh_ok g end.
Definition counts_ok (g : ghost) (c : list size) : bool := match c with [] => true | _ => mesh_ok g end.
Definition empty (c : list size) : bool := match c with [] => true | _ => false end.

Definition check_step (a : op) (g : ghost) : option ghost :=
  match a with
  | Alloc o f d =>
      if obj_ok g o && negb (mem (o, f) (dom g)) && negb (empty d)
      then Some (mkG (((o, f), d) :: own g) ((o, f) :: dom g)) else None
  | Free o f c =>
      if obj_ok g o then
        match owned (o, f) (own g) with
        | Some d => if sizes_eqb (removelast d) c && counts_ok g c then Some (mkG (drop (o, f) (own g)) (dom g)) else None
        | None => if negb (mem (o, f) (dom g)) && empty c then Some g else None
        end
      else None
  | FreeIf o f c =>
      if obj_ok g o then
        match owned (o, f) (own g) with
        | Some d => if sizes_eqb (removelast d) c && counts_ok g c then Some (mkG (drop (o, f) (own g)) (dom g)) else None
        | None => if negb (mem (o, f) (dom g)) then Some g else None
        end
      else None
  end.
Fixpoint check (l : list op) (g : ghost) : option ghost :=
  match l with [] => Some g | a :: l => match check_step a g with Some g' => check l g' | None => None end end.

Definition held (s : st) (l : list entry) : list nat := flat_map (fun e : entry => blocks (get s (fst e))) l.

Record inv (z : sizes) (h0 : heap) (s : st) (g : ghost) : Prop := {
  i_good : good_heap (hp s);
  i_next : next h0 <= next (hp s);
  i_ctx : exists c, ctx s = Blk c 1 [] /\ next h0 <= c /\
            Permutation (live (hp s)) (c :: held s (own g) ++ live h0);
  i_new : forall b, In b (held s (own g)) -> next h0 <= b;
  i_shape : Forall (fun e : entry => shaped (map (eval z) (snd e)) (get s (fst e))) (own g);
  i_nodup : NoDup (map fst (own g));
  i_dom : forall k, In k (map fst (own g)) -> In k (dom g);
  i_null : forall k, ~ In k (dom g) -> get s k = Null }.

Lemma mem_spec : forall k l, mem k l = true <-> In k l.
Proof.
  intros k l. unfold mem. rewrite existsb_exists. split.
  - intros (x & Hx & E). apply key_eqb_spec in E. subst. exact Hx.
  - intros H. exists k. split; [exact H|]. apply key_eqb_spec. reflexivity.
Qed.

Lemma owned_in : forall k l d, owned k l = Some d -> In (k, d) l.
Proof.
  intros k. induction l as [|[k' d'] l IH]; cbn; intros d H; [discriminate|].
  destruct (key_eqb k k') eqn:E.
  - apply key_eqb_spec in E. inversion H. subst. left. reflexivity.
  - right. apply IH. exact H.
Qed.

Lemma drop_perm : forall k l d, owned k l = Some d -> Permutation l ((k, d) :: drop k l).
Proof.
  intros k. induction l as [|[k' d'] l IH]; cbn; intros d H; [discriminate|].
  destruct (key_eqb k k') eqn:E.
  - apply key_eqb_spec in E. inversion H. subst. reflexivity.
  - rewrite (IH d H) at 1. apply perm_swap.
Qed.

Lemma held_perm : forall s l l', Permutation l l' -> Permutation (held s l) (held s l').
Proof. intros s l l' P. unfold held. apply Permutation_flat_map. exact P. Qed.

Lemma held_ext : forall s s' l, (forall e : entry, In e l -> get s (fst e) = get s' (fst e)) -> held s l = held s' l.
Proof.
  intros s s' l H. unfold held. induction l as [|e l IH]; [reflexivity|].
  cbn [flat_map]. rewrite (H e) by (left; reflexivity). rewrite IH; [reflexivity|].
  intros e' He. apply H. right. exact He.
Qed.

Lemma get_set_other : forall s o f p h k, k <> (o, f) -> get (set s o f p h) k = get s k.
Proof.
  intros s o f p h [o' f'] NE. unfold get, set. destruct o, o'; cbn; try reflexivity.
  - destruct (String.eqb_spec f' f); [subst; congruence|reflexivity].
  - destruct (String.eqb_spec f' f); [subst; congruence|reflexivity].
Qed.
Lemma get_set_same : forall s o f p h, get (set s o f p h) (o, f) = p.
Proof. intros s o f p h. unfold get, set. destruct o; cbn; rewrite String.eqb_refl; reflexivity. Qed.
Lemma hp_set : forall s o f p h, hp (set s o f p h) = h.
Proof. intros. destruct o; reflexivity. Qed.
Lemma ctx_set : forall s o f p h, ctx (set s o f p h) = ctx s.
Proof. intros. destruct o; reflexivity. Qed.
Lemma get_with_heap : forall s h k, get (with_heap s h) k = get s k.
Proof. intros s h [[] f]; reflexivity. Qed.

Lemma in_held : forall s l k d b, In (k, d) l -> In b (blocks (get s k)) -> In b (held s l).
Proof. intros s l k d b H1 H2. unfold held. apply in_flat_map. exists (k, d). split; [exact H1|exact H2]. Qed.

Lemma reach_ctx : forall z h0 s g, inv z h0 s g -> reach s Ctx = Ok tt.
Proof.
  intros z h0 s g I. destruct (i_ctx _ _ _ _ I) as (c & E & _ & P). unfold reach. rewrite E.
  rewrite (proj2 (is_live_spec _ _ _ _)); [reflexivity|].
  eapply Permutation_in; [symmetry; exact P|]. left. reflexivity.
Qed.

Lemma reach_mesh : forall z h0 s g, inv z h0 s g -> mesh_ok g = true -> reach s Mesh = Ok tt.
Proof.
  intros z h0 s g I HM. assert (RC := reach_ctx _ _ _ _ I).
  destruct (i_ctx _ _ _ _ I) as (c & E & _ & P). unfold reach in *.
  destruct (is_live (hp s) (ctx s)); [|discriminate].
  unfold mesh_ok in HM. destruct (owned (Ctx, "mesh") (own g)) as [d|] eqn:EO; [|discriminate].
  assert (Ed : d = [Const 1]).
  { destruct d as [|[| | | | | | | | | | | | | | | |n|a b|a b] d]; try discriminate.
    destruct n as [|[|n]]; try discriminate. destruct d; [reflexivity|discriminate]. }
  subst d. apply owned_in in EO.
  assert (HS := proj1 (Forall_forall _ _) (i_shape _ _ _ _ I) _ EO).
  change (shaped [1] (get s (Ctx, "mesh"))) in HS. cbn [shaped] in HS.
  destruct HS as (b & rows & EG & ->). rewrite EG.
  rewrite (proj2 (is_live_spec _ _ _ _)); [reflexivity|].
  eapply Permutation_in; [symmetry; exact P|]. right. apply in_or_app. left.
  eapply in_held; [exact EO|]. rewrite EG. left. reflexivity.
Qed.

Lemma reach_ok : forall z h0 s g o, inv z h0 s g -> obj_ok g o = true -> reach s o = Ok tt.
Proof. intros z h0 s g [] I H; [eapply reach_ctx|eapply reach_mesh]; eassumption. Qed.

Lemma alloc_sound : forall z h0 s g o f d g', inv z h0 s g -> check_step (Alloc o f d) g = Some g' ->
  exists s', step z (Alloc o f d) s = Ok s' /\ inv z h0 s' g'.
Proof.
  intros z h0 s g o f d g' I H. cbn [check_step] in H.
  destruct (obj_ok g o && negb (mem (o, f) (dom g)) && negb (empty d)) eqn:C; [|discriminate].
  inversion H; subst g'; clear H.
  apply andb_prop in C. destruct C as [C C3]. apply andb_prop in C. destruct C as [C1 C2].
  cbn [step]. rewrite (reach_ok _ _ _ _ _ I C1). cbn [bind].
  destruct (alloc_array_spec (map (eval z) d) (hp s)) as (p & h' & E & A & SH).
  { destruct d; [discriminate|discriminate]. }
  { exact (i_good _ _ _ _ I). }
  rewrite E. eexists. split; [reflexivity|].
  assert (NI : ~ In (o, f) (dom g)).
  { intros Hin. apply mem_spec in Hin. rewrite Hin in C2. discriminate. }
  assert (NO : ~ In (o, f) (map fst (own g))).
  { intros Hin. apply NI. apply (i_dom _ _ _ _ I). exact Hin. }
  assert (HE : held (set s o f p h') (own g) = held s (own g)).
  { apply held_ext. intros e He. apply get_set_other. intros EQ. apply NO. rewrite <- EQ. apply in_map. exact He. }
  destruct A as (GA & NA & PA & BA).
  assert (IN := i_next _ _ _ _ I).
  constructor; cbn [own dom].
  - rewrite hp_set. exact GA.
  - rewrite hp_set. lia.
  - destruct (i_ctx _ _ _ _ I) as (c & EC & NC & P). exists c. rewrite ctx_set, hp_set.
    split; [exact EC|]. split; [exact NC|].
    rewrite PA, P. unfold held. cbn [flat_map fst]. rewrite get_set_same. fold (held (set s o f p h') (own g)).
    rewrite HE. rewrite <- app_assoc. symmetry. apply Permutation_middle.
  - intros b Hb. unfold held in Hb. cbn [flat_map fst] in Hb. rewrite get_set_same in Hb.
    fold (held (set s o f p h') (own g)) in Hb. rewrite HE in Hb. apply in_app_or in Hb.
    destruct Hb as [Hb|Hb]; [apply BA in Hb; lia|]. apply (i_new _ _ _ _ I). exact Hb.
  - constructor.
    + cbn [fst snd]. rewrite get_set_same. exact SH.
    + apply Forall_forall. intros e He. rewrite get_set_other.
      * exact (proj1 (Forall_forall _ _) (i_shape _ _ _ _ I) e He).
      * intros EQ. apply NO. rewrite <- EQ. apply in_map. exact He.
  - cbn [map fst]. constructor; [exact NO|exact (i_nodup _ _ _ _ I)].
  - cbn [map fst]. intros k [Hk|Hk]; [left; exact Hk|right; apply (i_dom _ _ _ _ I); exact Hk].
  - intros k Hk. rewrite get_set_other.
    + apply (i_null _ _ _ _ I). intros Hin. apply Hk. right. exact Hin.
    + intros EQ. apply Hk. left. symmetry. exact EQ.
Qed.

Lemma release_sound : forall z h0 s g k d c, inv z h0 s g -> owned k (own g) = Some d ->
  sizes_eqb (removelast d) c && counts_ok g c = true ->
  exists s', release z s k c = Ok s' /\ inv z h0 s' (mkG (drop k (own g)) (dom g)).
Proof.
  intros z h0 s g k d c I HO C. apply andb_prop in C. destruct C as [C1 C2].
  apply sizes_eqb_eq in C1. subst c.
  assert (HI := owned_in _ _ _ HO). assert (DP := drop_perm _ _ _ HO).
  assert (HS := proj1 (Forall_forall _ _) (i_shape _ _ _ _ I) _ HI). cbn [fst snd] in HS.
  unfold release.
  assert (HC : (match removelast d with [] => Ok tt | _ => reach s Mesh end) = Ok tt).
  { unfold counts_ok in C2. destruct (removelast d); [reflexivity|]. eapply reach_mesh; eassumption. }
  rewrite HC. cbn [bind].
  assert (HMR : map (eval z) (removelast d) = removelast (map (eval z) d)).
  { clear. induction d as [|x d IH]; [reflexivity|]. destruct d as [|y d]; [reflexivity|].
    change (removelast (x :: y :: d)) with (x :: removelast (y :: d)). cbn [map] in *. rewrite IH. reflexivity. }
  rewrite HMR.
  destruct (i_ctx _ _ _ _ I) as (cb & EC & NC & P).
  assert (HP := held_perm s _ _ DP). unfold held at 2 in HP. cbn [flat_map fst] in HP. fold (held s (drop k (own g))) in HP.
  assert (P' : Permutation (live (hp s)) (blocks (get s k) ++ cb :: held s (drop k (own g)) ++ live h0)).
  { rewrite P, HP. rewrite <- app_assoc. apply Permutation_middle. }
  destruct (dealloc_array_spec (map (eval z) d) (get s k) (hp s) HS (i_good _ _ _ _ I)) as (h' & E & G' & N' & R').
  { eexists. exact P'. }
  rewrite E. cbn [bind]. eexists. split; [reflexivity|].
  constructor; cbn [own dom].
  - exact G'.
  - cbn [with_heap hp]. rewrite N'. exact (i_next _ _ _ _ I).
  - exists cb. cbn [with_heap hp ctx]. split; [exact EC|]. split; [exact NC|].
    rewrite (held_ext (with_heap s h') s) by (intros; apply get_with_heap).
    apply (Permutation_app_inv_l (blocks (get s k))). rewrite <- R'. exact P'.
  - intros b Hb. rewrite (held_ext (with_heap s h') s) in Hb by (intros; apply get_with_heap).
    apply (i_new _ _ _ _ I). eapply Permutation_in; [symmetry; exact HP|]. apply in_or_app. right. exact Hb.
  - apply Forall_forall. intros e He. rewrite get_with_heap.
    apply (proj1 (Forall_forall _ _) (i_shape _ _ _ _ I)). eapply Permutation_in; [symmetry; exact DP|]. right. exact He.
  - assert (ND := Permutation_NoDup (Permutation_map fst DP) (i_nodup _ _ _ _ I)). cbn [map] in ND. inversion ND; assumption.
  - intros k' Hk. apply (i_dom _ _ _ _ I). eapply Permutation_in; [symmetry; exact (Permutation_map fst DP)|]. right. exact Hk.
  - intros k' Hk. rewrite get_with_heap. apply (i_null _ _ _ _ I). exact Hk.
Qed.

(** A field that holds NULL may be struck off. *)
Lemma drop_null : forall z h0 s g k d, inv z h0 s g -> owned k (own g) = Some d -> get s k = Null ->
  inv z h0 s (mkG (drop k (own g)) (dom g)).
Proof.
  intros z h0 s g k d I HO HN. assert (DP := drop_perm _ _ _ HO).
  assert (HP := held_perm s _ _ DP). unfold held at 2 in HP. cbn [flat_map fst] in HP. fold (held s (drop k (own g))) in HP.
  rewrite HN in HP. cbn [blocks app] in HP.
  destruct I as [I1 I2 (c & EC & NC & P) I4 I5 I6 I7 I8]. constructor; cbn [own dom]; try assumption.
  - exists c. split; [exact EC|]. split; [exact NC|]. rewrite P, HP. reflexivity.
  - intros b Hb. apply I4. eapply Permutation_in; [symmetry; exact HP|]. exact Hb.
  - apply Forall_forall. intros e He. apply (proj1 (Forall_forall _ _) I5). eapply Permutation_in; [symmetry; exact DP|]. right. exact He.
  - assert (ND := Permutation_NoDup (Permutation_map fst DP) I6). cbn [map] in ND. inversion ND; assumption.
  - intros k' Hk. apply I7. eapply Permutation_in; [symmetry; exact (Permutation_map fst DP)|]. right. exact Hk.
Qed.

Lemma with_heap_same : forall s, with_heap s (hp s) = s.
Proof. intros []. reflexivity. Qed.

Lemma free_sound : forall z h0 s g o f c g', inv z h0 s g -> check_step (Free o f c) g = Some g' ->
  exists s', step z (Free o f c) s = Ok s' /\ inv z h0 s' g'.
Proof.
  intros z h0 s g o f c g' I H. cbn [check_step] in H. cbn [step].
  destruct (obj_ok g o) eqn:CO; [|discriminate]. rewrite (reach_ok _ _ _ _ _ I CO). cbn [bind].
  destruct (owned (o, f) (own g)) as [d|] eqn:EO.
  - destruct (sizes_eqb (removelast d) c && counts_ok g c) eqn:CC; [|discriminate]. inversion H; subst g'.
    eapply release_sound; eassumption.
  - destruct (negb (mem (o, f) (dom g)) && empty c) eqn:CC; [|discriminate]. inversion H; subst g'.
    apply andb_prop in CC. destruct CC as [CM CE]. destruct c; [|discriminate].
    assert (NI : ~ In (o, f) (dom g)). { intros Hin. apply mem_spec in Hin. rewrite Hin in CM. discriminate. }
    unfold release. cbn [bind map dealloc_array]. rewrite (i_null _ _ _ _ I _ NI). cbn [tdy_free bind].
    exists s. split; [rewrite with_heap_same; reflexivity|exact I].
Qed.

Lemma freeif_sound : forall z h0 s g o f c g', inv z h0 s g -> check_step (FreeIf o f c) g = Some g' ->
  exists s', step z (FreeIf o f c) s = Ok s' /\ inv z h0 s' g'.
Proof.
  intros z h0 s g o f c g' I H. cbn [check_step] in H. cbn [step].
  destruct (obj_ok g o) eqn:CO; [|discriminate]. rewrite (reach_ok _ _ _ _ _ I CO). cbn [bind].
  destruct (owned (o, f) (own g)) as [d|] eqn:EO.
  - destruct (sizes_eqb (removelast d) c && counts_ok g c) eqn:CC; [|discriminate]. inversion H; subst g'.
    destruct (get s (o, f)) as [|b cap rows] eqn:EG.
    + exists s. split; [reflexivity|]. eapply drop_null; eassumption.
    + eapply release_sound; eassumption.
  - destruct (negb (mem (o, f) (dom g))) eqn:CM; [|discriminate]. inversion H; subst g'.
    assert (NI : ~ In (o, f) (dom g)). { intros Hin. apply mem_spec in Hin. rewrite Hin in CM. discriminate. }
    rewrite (i_null _ _ _ _ I _ NI). exists s. split; [reflexivity|exact I].
Qed.

Lemma check_sound : forall l z h0 s g g', inv z h0 s g -> check l g = Some g' ->
  exists s', run z l s = Ok s' /\ inv z h0 s' g'.
Proof.
  induction l as [|a l IH]; intros z h0 s g g' I H.
  - cbn in H. inversion H; subst. exists s. split; [reflexivity|exact I].
  - cbn [check] in H. destruct (check_step a g) as [g1|] eqn:E; [|discriminate].
    assert (HS : exists s1, step z a s = Ok s1 /\ inv z h0 s1 g1).
    { destruct a; [eapply alloc_sound|eapply free_sound|eapply freeif_sound]; eassumption. }
    destruct HS as (s1 & E1 & I1). cbn [run]. rewrite E1. cbn [bind]. eapply IH; eassumption.
Qed.

Lemma create_inv : forall z h0, good_heap h0 -> inv z h0 (create h0) (mkG [] []).
Proof.
  intros z h0 G. unfold create.
  destruct (tdy_alloc_spec 1 h0 G ltac:(lia)) as (h1 & E & G1 & N1 & P1 & B1). rewrite E.
  constructor; cbn [own dom hp ctx].
  - exact G1.
  - exact N1.
  - exists (next h0). split; [reflexivity|]. split; [lia|]. exact P1.
  - intros b [].
  - constructor.
  - constructor.
  - intros k [].
  - intros [[] f] _; reflexivity.
Qed.

Lemma run_app : forall z l1 l2 s, run z (l1 ++ l2) s = (do s1 <- run z l1 s; run z l2 s1).
Proof.
  intros z. induction l1 as [|a l1 IH]; intros l2 s; [reflexivity|].
  cbn [app run]. destruct (step z a s); cbn [bind]; [apply IH|reflexivity|reflexivity].
Qed.

Definition held_count (z : sizes) (l : list entry) : nat :=
  fold_right (fun (e : entry) a => nblocks (map (eval z) (snd e)) + a) 0 l.
Lemma held_length : forall z s l,
  Forall (fun e : entry => shaped (map (eval z) (snd e)) (get s (fst e))) l ->
  List.length (held s l) = held_count z l.
Proof.
  intros z s l H. induction H as [|e l HE H IH]; [reflexivity|].
  unfold held. cbn [flat_map held_count fold_right]. rewrite app_length. fold (held s l).
  rewrite (shaped_nblocks _ _ HE), IH. reflexivity.
Qed.

(** The context itself is released last. *)
Lemma destroy_sound : forall z h0 s l g', inv z h0 s (mkG [] []) -> check l (mkG [] []) = Some g' ->
  exists s1 h', run z l s = Ok s1 /\ reach s1 Ctx = Ok tt /\ tdy_free (ctx s1) (hp s1) = Ok h'
    /\ leaves (held_count z (own g')) h0 h'.
Proof.
  intros z h0 s l g' I H. destruct (check_sound _ _ _ _ _ _ I H) as (s1 & E & I1).
  destruct (i_ctx _ _ _ _ I1) as (c & EC & NC & P).
  destruct (tdy_free_spec c 1 [] (hp s1) (i_good _ _ _ _ I1)) as (h' & EF & G' & N' & R').
  { eapply Permutation_in; [symmetry; exact P|]. left. reflexivity. }
  exists s1, h'. split; [exact E|]. split; [eapply reach_ctx; exact I1|]. split; [rewrite EC; exact EF|].
  split; [exact G'|]. split; [rewrite N'; exact (i_next _ _ _ _ I1)|].
  exists (held s1 (own g')). split; [|split].
  - apply (Permutation_app_inv_l [c]). rewrite <- R'. exact P.
  - apply held_length. exact (i_shape _ _ _ _ I1).
  - exact (i_new _ _ _ _ I1).
Qed.

Lemma keep_sound : forall z h0 s l g', inv z h0 s (mkG [] []) -> check l (mkG [] []) = Some g' ->
  exists s1, run z l s = Ok s1 /\ leaves (S (held_count z (own g'))) h0 (hp s1).
Proof.
  intros z h0 s l g' I H. destruct (check_sound _ _ _ _ _ _ I H) as (s1 & E & I1).
  destruct (i_ctx _ _ _ _ I1) as (c & EC & NC & P).
  exists s1. split; [exact E|]. split; [exact (i_good _ _ _ _ I1)|]. split; [exact (i_next _ _ _ _ I1)|].
  exists (c :: held s1 (own g')). split; [exact P|]. split.
  - cbn [List.length]. f_equal. apply held_length. exact (i_shape _ _ _ _ I1).
  - intros b [<-|Hb]; [exact NC|]. apply (i_new _ _ _ _ I1). exact Hb.
Qed.

Definition some (b : bool) (l : list entry) : list entry := if b then l else [].
Definition left_entries (m : materials) : list entry :=
  some (m_kappa m) [ ((Ctx, "Kappa0"), [Times (Const 9) Cells]); ((Ctx, "Kappa"), [Times (Const 9) Cells]) ]
  ++ [ ((Ctx, "porosity"), [Cells]); ((Ctx, "K0"), [Times (Const 9) Cells]); ((Ctx, "K"), [Times (Const 9) Cells]) ]
  ++ some (m_region m) [ ((Mesh, "region_connected.cell_ids"), [Cells]) ]
  ++ [ ((Mesh, "faces.unit_vec_up_dn"), [Faces; Const 2]); ((Mesh, "faces.dist_up_dn"), [Faces; Const 2]);
       ((Mesh, "faces.dist_wt_up"), [Faces]); ((Mesh, "faces.dist"), [Faces]);
       ((Mesh, "faces.projected_area"), [Faces]); ((Mesh, "faces.bc_type"), [Faces]) ].

Definition entry_eqb (a b : entry) := key_eqb (fst a) (fst b) && sizes_eqb (snd a) (snd b).
Fixpoint entries_eqb (a b : list entry) : bool :=
  match a, b with
  | [], [] => true
  | x :: a, y :: b => entry_eqb x y && entries_eqb a b
  | _, _ => false
  end.
Lemma entries_eqb_eq : forall a b, entries_eqb a b = true -> a = b.
Proof.
  induction a as [|[k d] a IH]; destruct b as [|[k' d'] b]; cbn; intros H; try discriminate; [reflexivity|].
  apply andb_prop in H. destruct H as [H1 H2]. unfold entry_eqb in H1. apply andb_prop in H1. destruct H1 as [H0 H1].
  apply key_eqb_spec in H0. apply sizes_eqb_eq in H1. apply IH in H2. cbn in *. subst. reflexivity.
Qed.
Fixpoint keys_eqb (a b : list key) : bool :=
  match a, b with
  | [], [] => true
  | x :: a, y :: b => key_eqb x y && keys_eqb a b
  | _, _ => false
  end.
Lemma keys_eqb_eq : forall a b, keys_eqb a b = true -> a = b.
Proof.
  induction a as [|x a IH]; destruct b as [|y b]; cbn; intros H; try discriminate; [reflexivity|].
  apply andb_prop in H. destruct H as [H1 H2]. apply key_eqb_spec in H1. apply IH in H2. subst. reflexivity.
Qed.
Definition g0 := mkG [] [].
Definition case_ok (setup frees : list op) (P : list entry -> bool) : bool :=
  match check setup g0 with
  | Some g1 =>
      keys_eqb (map fst (own g1)) (dom g1) &&
      match check frees g1 with Some g2 => P (own g2) | None => false end
  | None => false
  end.
Lemma case_ok_inv : forall setup frees P, case_ok setup frees P = true ->
  exists g1 g2, check setup g0 = Some g1 /\ map fst (own g1) = dom g1 /\ check frees g1 = Some g2 /\ P (own g2) = true.
Proof.
  intros setup frees P H. unfold case_ok in H. destruct (check setup g0) as [g1|] eqn:E1; [|discriminate].
  apply andb_prop in H. destruct H as [H1 H2]. destruct (check frees g1) as [g2|] eqn:E2; [|discriminate].
  exists g1, g2. split; [reflexivity|]. split; [apply keys_eqb_eq; exact H1|]. split; [exact E2|exact H2].
Qed.

Definition bools := [true; false].
Definition all_materials : list materials :=
  flat_map (fun a => flat_map (fun b => flat_map (fun c => flat_map (fun d => flat_map (fun e =>
    map (mkMaterials a b c d e) bools) bools) bools) bools) bools) bools.
Lemma in_all_materials : forall m, In m all_materials.
Proof.
  assert (B : forall b, In b bools) by (intros []; cbn; auto).
  intros [a b c d e f]. unfold all_materials.
  repeat (apply in_flat_map; eexists; split; [apply B|]). apply in_map. apply B.
Qed.

Lemma all_cases : forallb (fun md => forallb (fun m =>
  case_ok (setup_mpfao md m) mpfao_frees (entries_eqb (left_entries m))) all_materials) [Richards; TH; Salinity] = true.
Proof. vm_compute. reflexivity. Qed.

Lemma mpfao_case : forall md m, md <> RichardsDAE ->
  exists g1 g2, check (setup_mpfao md m) g0 = Some g1 /\ map fst (own g1) = dom g1
    /\ check mpfao_frees g1 = Some g2 /\ own g2 = left_entries m.
Proof.
  intros md m HM. assert (H := all_cases). rewrite forallb_forall in H.
  assert (HI : In md [Richards; TH; Salinity]) by (destruct md; cbn; auto; congruence).
  specialize (H md HI). cbv beta in H. rewrite forallb_forall in H. specialize (H m (in_all_materials m)).
  apply case_ok_inv in H. destruct H as (g1 & g2 & E1 & E2 & E3 & E4).
  exists g1, g2. split; [exact E1|]. split; [exact E2|]. split; [exact E3|]. symmetry. apply entries_eqb_eq. exact E4.
Qed.

Lemma check_app : forall l1 l2 g g1, check l1 g = Some g1 -> check (l1 ++ l2) g = check l2 g1.
Proof.
  induction l1 as [|a l1 IH]; intros l2 g g1 H.
  - cbn in H. inversion H. reflexivity.
  - cbn [app check] in *. destruct (check_step a g) as [g'|]; [|discriminate]. apply IH. exact H.
Qed.

Lemma left_count : forall m z, held_count z (left_entries m) = left_mpfao m z.
Proof.
  intros [k a b c d r] z. unfold left_mpfao, left_entries. cbn [m_kappa m_region].
  destruct k, r; cbn [some app held_count fold_right snd map eval nblocks];
  destruct (z_cells z) as [|n]; destruct (z_faces z) as [|n']; cbn [Nat.eqb Nat.mul Nat.add]; lia.
Qed.

Lemma bind_ok : forall (A B : Type) (e : outcome A) (f : A -> outcome B) y, bind e f = Ok y ->
  exists x, e = Ok x /\ f x = Ok y.
Proof. intros A B [x| |] f y H; [exists x; split; [reflexivity|exact H]|discriminate|discriminate]. Qed.

Lemma life_of_run : forall z l1 l2 h s1 h', run z (l1 ++ l2) (create h) = Ok s1 -> reach s1 Ctx = Ok tt ->
  tdy_free (ctx s1) (hp s1) = Ok h' ->
  (do s <- run z l1 (create h); do s1 <- run z l2 s; do _ <- reach s1 Ctx; tdy_free (ctx s1) (hp s1)) = Ok h'.
Proof.
  intros z l1 l2 h s1 h' E RC EF. rewrite run_app in E. apply bind_ok in E. destruct E as (s & E1 & E2).
  rewrite E1. cbn [bind]. rewrite E2. cbn [bind]. rewrite RC. exact EF.
Qed.


Lemma life_left_proof : forall md m z h, md <> RichardsDAE -> good_heap h ->
  exists h', life_mpfao md m z h = Ok h' /\ leaves (left_mpfao m z) h h'.
Proof.
  intros md m z h HM G. destruct (mpfao_case md m HM) as (g1 & g2 & C1 & _ & C2 & HO).
  assert (HC : check (setup_mpfao md m ++ mpfao_frees) (mkG [] []) = Some g2).
  { rewrite (check_app _ _ _ _ C1). exact C2. }
  destruct (destroy_sound z h (create h) _ g2 (create_inv z h G) HC) as (s1 & h' & E & RC & EF & LV).
  exists h'. split.
  - unfold life_mpfao, destroy_mpfao. exact (life_of_run _ _ _ _ _ _ E RC EF).
  - rewrite <- left_count, <- HO. exact LV.
Qed.

(** ** Many simulations in a row *)
Lemma leaves_trans : forall n n' h h1 h2, leaves n h h1 -> leaves n' h1 h2 -> leaves (n + n') h h2.
Proof.
  intros n n' h h1 h2 (G1 & N1 & e1 & P1 & L1 & B1) (G2 & N2 & e2 & P2 & L2 & B2).
  split; [exact G2|]. split; [lia|]. exists (e2 ++ e1). split; [|split].
  - rewrite P2, P1, app_assoc. reflexivity.
  - rewrite app_length. lia.
  - intros b Hb. apply in_app_or in Hb. destruct Hb as [Hb|Hb]; [apply B2 in Hb; lia|apply B1; exact Hb].
Qed.

Lemma lives_proof : forall l h, Forall (fun c => fst (fst c) <> RichardsDAE) l -> good_heap h ->
  exists h', lives l h = Ok h' /\ leaves (left_by_all l) h h'.
Proof.
  induction l as [|[[md m] z] l IH]; intros h HF G.
  - exists h. split; [reflexivity|]. split; [exact G|]. split; [lia|]. exists []. split; [reflexivity|]. split; [reflexivity|]. intros b [].
  - inversion HF as [|? ? H1 H2]; subst. cbn [fst] in H1.
    destruct (life_left_proof md m z h H1 G) as (h1 & E1 & L1).
    destruct (IH h1 H2 (proj1 L1)) as (h2 & E2 & L2).
    exists h2. split.
    + cbn [lives]. rewrite E1. cbn [bind]. exact E2.
    + change (left_by_all ((md, m, z) :: l)) with (left_mpfao m z + left_by_all l). eapply leaves_trans; eassumption.
Qed.

(** ** Which fields keep their memory *)
Definition no_alloc (l : list op) : bool := forallb (fun a => match a with Alloc _ _ _ => false | _ => true end) l.

Lemma step_get : forall z a s s', (match a with Alloc _ _ _ => false | _ => true end) = true -> step z a s = Ok s' ->
  forall k, get s' k = get s k.
Proof.
  intros z a s s' HA H k.
  assert (R : forall k' c s2, release z s k' c = Ok s2 -> get s2 k = get s k).
  { intros k' c s2 HR. unfold release in HR. apply bind_ok in HR. destruct HR as (u & _ & HR).
    apply bind_ok in HR. destruct HR as (h & _ & HR). inversion HR. apply get_with_heap. }
  destruct a; [discriminate| |]; cbn [step] in H; apply bind_ok in H; destruct H as (u & _ & H).
  - eapply R. exact H.
  - destruct (get s (o, f)); [inversion H; reflexivity|]. eapply R. exact H.
Qed.

Lemma run_get : forall z l s s', no_alloc l = true -> run z l s = Ok s' -> forall k, get s' k = get s k.
Proof.
  intros z. induction l as [|a l IH]; intros s s' HN H k.
  - cbn in H. inversion H. reflexivity.
  - cbn [no_alloc forallb] in HN. apply andb_prop in HN. destruct HN as [HA HN]. cbn [run] in H.
    apply bind_ok in H. destruct H as (s1 & E1 & E2). rewrite (IH s1 s' HN E2 k). eapply step_get; eassumption.
Qed.

Lemma drop_incl : forall k l e, In e (drop k l) -> In e l.
Proof.
  intros k. induction l as [|[k' d] l IH]; cbn; intros e H; [destruct H|].
  destruct (key_eqb k k'); [right; exact H|]. destruct H as [H|H]; [left; exact H|right; apply IH; exact H].
Qed.

Lemma check_incl : forall l g g', no_alloc l = true -> check l g = Some g' -> forall e, In e (own g') -> In e (own g).
Proof.
  induction l as [|a l IH]; intros g g' HN H e He.
  - cbn in H. inversion H; subst. exact He.
  - cbn [no_alloc forallb] in HN. apply andb_prop in HN. destruct HN as [HA HN].
    cbn [check] in H. destruct (check_step a g) as [g1|] eqn:E; [|discriminate].
    assert (He1 := IH g1 g' HN H e He).
    destruct a; [discriminate| |]; cbn [check_step] in E; destruct (obj_ok g o); try discriminate;
    destruct (owned (o, f) (own g)) as [d|]; destruct (_ : bool) in E; try discriminate; inversion E; subst g1; cbn [own] in He1;
    try exact He1; eapply drop_incl; exact He1.
Qed.

Lemma NoDup_app_disjoint : forall (A : Type) (l1 l2 : list A) x, NoDup (l1 ++ l2) -> In x l1 -> In x l2 -> False.
Proof.
  intros A. induction l1 as [|a l1 IH]; intros l2 x ND H1 H2; [destruct H1|].
  cbn in ND. inversion ND as [|? ? HN ND']; subst. destruct H1 as [->|H1].
  - apply HN. apply in_or_app. right. exact H2.
  - eapply IH; eassumption.
Qed.

Lemma fields_lemma : forall z h l1 l2 g1 g2, good_heap h -> check l1 g0 = Some g1 -> map fst (own g1) = dom g1 ->
  no_alloc l2 = true -> check l2 g1 = Some g2 ->
  exists s s1, run z l1 (create h) = Ok s /\ run z l2 s = Ok s1 /\ is_live (hp s1) (ctx s1) = true /\
    forall k, get s k <> Null -> (is_live (hp s1) (get s k) = true <-> In k (map fst (own g2))).
Proof.
  intros z h l1 l2 g1 g2 G C1 HD HN C2.
  destruct (check_sound _ z h _ _ _ (create_inv z h G) C1) as (s & E1 & I1).
  destruct (check_sound _ z h _ _ _ I1 C2) as (s1 & E2 & I2).
  exists s, s1. split; [exact E1|]. split; [exact E2|].
  assert (HG := run_get z l2 s s1 HN E2).
  destruct (i_ctx _ _ _ _ I2) as (c2 & EC2 & _ & P2).
  split.
  { rewrite EC2. apply is_live_spec. eapply Permutation_in; [symmetry; exact P2|]. left. reflexivity. }
  intros k HK. destruct (get s k) as [|b cap rows] eqn:EG; [congruence|]. rewrite is_live_spec.
  split.
  - intros HL. destruct (mem k (map fst (own g2))) eqn:EM2; [apply mem_spec; exact EM2|exfalso].
    assert (HI : ~ In k (map fst (own g2))) by (intros Q; apply mem_spec in Q; congruence).
    assert (HKD : In k (map fst (own g1))).
    { rewrite HD. destruct (mem k (dom g1)) eqn:EM; [apply mem_spec; exact EM|].
      exfalso. assert (get s k = Null). { apply (i_null _ _ _ _ I1). intros Q. apply mem_spec in Q. congruence. } congruence. }
    apply in_map_iff in HKD. destruct HKD as ([k' d] & Ek & Hin). cbn in Ek. subst k'.
    apply in_split in Hin. destruct Hin as (la & lb & EO).
    destruct (i_ctx _ _ _ _ I1) as (c1 & EC1 & _ & P1).
    assert (ND := Permutation_NoDup P1 (proj1 (i_good _ _ _ _ I1))).
    assert (Hsub : forall e, In e (own g2) -> In e (la ++ lb)).
    { intros e He. assert (H1 := check_incl _ _ _ HN C2 e He). rewrite EO in H1. apply in_app_or in H1.
      apply in_or_app. destruct H1 as [H1|[H1|H1]]; [left; exact H1| |right; exact H1].
      exfalso. apply HI. apply in_map_iff. exists e. split; [subst e; reflexivity|exact He]. }
    assert (PO : Permutation (held s (own g1)) (blocks (get s k) ++ held s (la ++ lb))).
    { assert (PP : Permutation (own g1) ((k, d) :: la ++ lb)) by (rewrite EO; symmetry; apply Permutation_middle).
      exact (held_perm s _ _ PP). }
    rewrite EG in PO.
    assert (ND2 : NoDup (blocks (Blk b cap rows) ++ (c1 :: held s (la ++ lb) ++ live h))).
    { eapply Permutation_NoDup; [|exact ND]. rewrite PO. rewrite <- app_assoc. apply Permutation_middle. }
    apply (NoDup_app_disjoint _ _ _ b ND2); [left; reflexivity|].
    assert (HL2 := Permutation_in _ P2 HL). destruct HL2 as [HL2|HL2].
    + left. assert (ctx s1 = ctx s).
      { clear -HN E2. revert s E2. induction l2 as [|a l2 IH]; intros s E2.
        - cbn in E2. inversion E2. reflexivity.
        - cbn [no_alloc forallb] in HN. apply andb_prop in HN. destruct HN as [HA HN]. cbn [run] in E2.
          apply bind_ok in E2. destruct E2 as (s2 & E & E2). rewrite (IH HN s2 E2).
          assert (R : forall k' c s3, release z s k' c = Ok s3 -> ctx s3 = ctx s).
          { intros k' c s3 HR. unfold release in HR. apply bind_ok in HR. destruct HR as (u & _ & HR).
            apply bind_ok in HR. destruct HR as (h & _ & HR). inversion HR. reflexivity. }
          destruct a; [discriminate| |]; cbn [step] in E; apply bind_ok in E; destruct E as (u & _ & E).
          + eapply R. exact E.
          + destruct (get s (o, f)); [inversion E; reflexivity|]. eapply R. exact E. }
      congruence.
    + right. apply in_app_or in HL2. apply in_or_app. destruct HL2 as [HL2|HL2]; [left|right; exact HL2].
      unfold held in HL2. apply in_flat_map in HL2. destruct HL2 as (e & He & Hb). rewrite HG in Hb.
      unfold held. apply in_flat_map. exists e. split; [apply Hsub; exact He|exact Hb].
  - intros HI. apply in_map_iff in HI. destruct HI as ([k' d] & Ek & Hin). cbn in Ek. subst k'.
    eapply Permutation_in; [symmetry; exact P2|]. right. apply in_or_app. left.
    eapply in_held; [exact Hin|]. rewrite HG, EG. left. reflexivity.
Qed.

Lemma mpfao_fields_proof : forall md m z h, md <> RichardsDAE -> good_heap h ->
  exists s s1, run z (setup_mpfao md m) (create h) = Ok s /\ run z mpfao_frees s = Ok s1 /\
    forall k, get s k <> Null -> (is_live (hp s1) (get s k) = true <-> In k (left_fields m)).
Proof.
  intros md m z h HM G. destruct (mpfao_case md m HM) as (g1 & g2 & C1 & HD & C2 & HO).
  assert (NA : no_alloc mpfao_frees = true) by reflexivity.
  destruct (fields_lemma z h _ _ g1 g2 G C1 HD NA C2) as (s & s1 & E1 & E2 & _ & HF).
  exists s, s1. split; [exact E1|]. split; [exact E2|]. intros k HK. rewrite (HF k HK), HO.
  unfold left_entries, left_fields. destruct m as [[] ? ? ? ? []]; cbn; tauto.
Qed.

(** ** Destroying before the setup *)
Lemma context_frees_null : check context_frees g0 = Some g0.
Proof. vm_compute. reflexivity. Qed.

Lemma before_setup_proof : forall z h, good_heap h -> destroy_mpfao z (create h) = UB.
Proof.
  intros z h G. destruct (check_sound _ z h _ _ _ (create_inv z h G) context_frees_null) as (s & E & I).
  unfold destroy_mpfao, mpfao_frees. rewrite run_app, E. cbn [bind]. 
  assert (R : reach s Mesh = UB).
  { unfold reach. destruct (is_live (hp s) (ctx s)); [|reflexivity].
    rewrite (i_null _ _ _ _ I (Ctx, "mesh")); [reflexivity|intros []]. }
  unfold mesh_frees. cbn [app run step]. rewrite R. reflexivity.
Qed.

Lemma dae_proof : forall m z h, good_heap h -> life_mpfao RichardsDAE m z h = UB.
Proof. intros m z h G. unfold life_mpfao. cbn [setup_mpfao run bind]. apply before_setup_proof. exact G. Qed.

(** ** FV-TPF *)
Lemma all_fvtpf : forallb (fun m => case_ok (setup_fvtpf m) fvtpf_frees (fun l =>
    forallb (fun e : entry => match fst (fst e) with Mesh => true
       | Ctx => negb (existsb (String.eqb (snd (fst e))) released_fvtpf) end) l
    && match check (setup_fvtpf m) g0 with
       | Some g1 => forallb (fun e : entry => mem (fst e) (map fst l) ||
            match fst (fst e) with Mesh => false | Ctx => existsb (String.eqb (snd (fst e))) released_fvtpf end) (own g1)
       | None => false end)) all_materials = true.
Proof. vm_compute. reflexivity. Qed.

Lemma fvtpf_fields_proof : forall m z h, good_heap h ->
  exists s s1, run z (setup_fvtpf m) (create h) = Ok s /\ run z fvtpf_frees s = Ok s1
    /\ is_live (hp s1) (ctx s1) = true /\
    forall k, get s k <> Null ->
      (is_live (hp s1) (get s k) = false <-> fst k = Ctx /\ In (snd k) released_fvtpf).
Proof.
  intros m z h G. assert (H := all_fvtpf). rewrite forallb_forall in H. specialize (H m (in_all_materials m)).
  apply case_ok_inv in H. destruct H as (g1 & g2 & C1 & HD & C2 & H). rewrite C1 in H.
  apply andb_prop in H. destruct H as [HA HB]. rewrite forallb_forall in HA, HB.
  assert (NA : no_alloc fvtpf_frees = true) by reflexivity.
  destruct (fields_lemma z h _ _ g1 g2 G C1 HD NA C2) as (s & s1 & E1 & E2 & LC & HF).
  exists s, s1. split; [exact E1|]. split; [exact E2|]. split; [exact LC|]. intros k HK.
  specialize (HF k HK).
  assert (HS : forall f, existsb (String.eqb f) released_fvtpf = true <-> In f released_fvtpf).
  { intros f. rewrite existsb_exists. split.
    - intros (x & Hx & E). apply String.eqb_eq in E. subst. exact Hx.
    - intros Hf. exists f. split; [exact Hf|apply String.eqb_refl]. }
  split.
  - intros HL. 
    assert (HN : ~ In k (map fst (own g2))) by (intros Q; apply HF in Q; congruence).
    assert (HKD : In k (map fst (own g1))).
    { rewrite HD. destruct (mem k (dom g1)) eqn:EM; [apply mem_spec; exact EM|exfalso].
      destruct (check_sound _ z h _ _ _ (create_inv z h G) C1) as (s' & E1' & I1).
      rewrite E1 in E1'. inversion E1'; subst s'. apply HK. apply (i_null _ _ _ _ I1).
      intros Q. apply mem_spec in Q. congruence. }
    apply in_map_iff in HKD. destruct HKD as (e & Ee & Hin). specialize (HB e Hin). rewrite Ee in HB.
    apply orb_prop in HB. destruct HB as [HB|HB]; [apply mem_spec in HB; contradiction|].
    destruct k as [[] f]; cbn [fst snd] in *; [|discriminate]. split; [reflexivity|]. apply HS. exact HB.
  - intros [HC HR]. destruct (is_live (hp s1) (get s k)) eqn:EL; [exfalso|reflexivity].
    assert (HI := proj1 HF eq_refl). apply in_map_iff in HI. destruct HI as (e & Ee & Hin).
    specialize (HA e Hin). rewrite Ee in HA. rewrite HC in HA. apply HS in HR. rewrite HR in HA. discriminate.
Qed.

Lemma fvtpf_before_setup_proof : forall z h, good_heap h ->
  exists h', destroy_fvtpf z (create h) = Ok h' /\ leaves 1 h h'.
Proof.
  intros z h G. destruct (keep_sound z h (create h) fvtpf_frees g0 (create_inv z h G)) as (s1 & E & L).
  { vm_compute. reflexivity. }
  exists (hp s1). unfold destroy_fvtpf. rewrite E. split; [reflexivity|]. exact L.
Qed.

(** ** Witness: one hexahedron *)
Definition one_hex : sizes := mkSizes 1 6 12 8 6 8 12 6 6 1 3 3 1 2 4 4.
Definition bare : materials := mkMaterials false false false false false false.
Lemma not_all_released_proof : ~ (forall md m z h, md <> RichardsDAE -> good_heap h ->
  exists h', life_mpfao md m z h = Ok h' /\ Permutation (live h') (live h)).
Proof.
  intros H. assert (G : good_heap (mkHeap [] 0)) by (split; [constructor|intros b []]).
  destruct (H Richards bare one_hex (mkHeap [] 0) ltac:(discriminate) G) as (h1 & E1 & P1).
  destruct (life_left_proof Richards bare one_hex (mkHeap [] 0) ltac:(discriminate) G) as (h2 & E2 & L2).
  rewrite E1 in E2. inversion E2; subst h2. destruct L2 as (_ & _ & extra & P2 & L2 & _).
  rewrite P1 in P2. cbn [live] in P2. apply Permutation_length in P2. rewrite app_length, L2 in P2.
  vm_compute in P2. discriminate.
Qed.
