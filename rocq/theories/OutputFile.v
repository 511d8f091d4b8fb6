(** The files of a run. *)
From Coq Require Import List Arith ZArith Lia Bool String Permutation Reals Lra.
From Verif Require Import Prelude Arrays UGrid Scatter Output SpecOutput OutputProofs OutputWrite.
Import ListNotations.
Local Open Scope nat_scope.

(** ** Well-formedness *)
Lemma content_app a b : content a -> content b -> content (a ++ b).
Proof.
  intros Ha Hb. induction Ha as [|i l Hl IH|g i inner l H1 IH1 H2 IH2]; simpl.
  - exact Hb.
  - constructor. exact IH.
  - rewrite <- app_assoc. simpl. constructor; assumption.
Qed.
Lemma content_elem g i inner : content inner -> content (element g i inner).
Proof. intro H. unfold element. apply (content_element g i inner []); [exact H|constructor]. Qed.
Lemma content_one i : content [TText i].
Proof. repeat constructor. Qed.
Lemma attribute_content name t n : content (XMFAttribute name t n).
Proof.
  unfold XMFAttribute. apply content_elem, content_elem, content_app; apply content_elem; apply content_one.
Qed.

Definition opens (l : list token) : nat := List.length (filter (fun k => match k with TOpen _ _ => true | _ => false end) l).
Definition closes (l : list token) : nat := List.length (filter (fun k => match k with TClose _ => true | _ => false end) l).
Lemma opens_app a b : opens (a ++ b) = opens a + opens b.
Proof. unfold opens. rewrite filter_app, app_length. reflexivity. Qed.
Lemma closes_app a b : closes (a ++ b) = closes a + closes b.
Proof. unfold closes. rewrite filter_app, app_length. reflexivity. Qed.
Lemma content_balanced l : content l -> opens l = closes l.
Proof.
  induction 1 as [|i l _ IH|g i inner l _ IH1 _ IH2]; [reflexivity|exact IH|].
  change (TOpen g i :: inner ++ TClose g :: l) with ([TOpen g i] ++ inner ++ [TClose g] ++ l).
  rewrite !opens_app, !closes_app, IH1, IH2. change (opens [TOpen g i]) with 1. change (opens [TClose g]) with 0.
  change (closes [TOpen g i]) with 0. change (closes [TClose g]) with 1. lia.
Qed.
Lemma document_content l : document l -> content l.
Proof. intros [g [i [inner [-> H]]]]. apply (content_element g i inner []); [exact H|constructor]. Qed.
Lemma document_balanced l : document l -> opens l = closes l.
Proof. intro H. apply content_balanced, document_content, H. Qed.

(** The part of the header inside the grid, and before it. *)
Definition head_items (numCell dim numVert numCorner : Z) : list token :=
  element DataItem (Dims [numCell; numCorner]) [TText (Named "/viz/topology/cells")]
  ++ element DataItem (Dims [numVert; dim]) [TText (Named "/geometry/vertices")].
Definition head_grid (shape : string) (numCell dim : Z) : list token :=
  element Topology (Elements shape numCell) (element DataItem NoInfo [TText (Named "cells")])
  ++ element Geometry (Named (if (2 <? dim)%Z then "XYZ" else "XY")) (element DataItem NoInfo [TText (Named "vertices")]).
Lemma header_form numCell dim numVert numCorner hd : XMFHeader numCell dim numVert numCorner = Ok hd ->
  exists shape, cellMap (dim * numCorner) = Ok shape /\
  hd = TOpen Xdmf NoInfo :: TOpen Domain (Named "domain") :: head_items numCell dim numVert numCorner
       ++ TOpen Grid (Named "domain") :: head_grid shape numCell dim.
Proof.
  unfold XMFHeader. destruct (cellMap _) as [shape| |]; try discriminate. cbn [bind]. intro E. injection E as <-.
  exists shape. split; reflexivity.
Qed.
Lemma items_content a b c d : content (head_items a b c d).
Proof. apply content_app; apply content_elem, content_one. Qed.
Lemma grid_content s a b : content (head_grid s a b).
Proof. apply content_app; apply content_elem, content_elem, content_one. Qed.
Lemma closed_document numCell dim numVert numCorner hd mid : XMFHeader numCell dim numVert numCorner = Ok hd -> content mid ->
  document (hd ++ mid ++ XMFFooter).
Proof.
  intros E Hm. destruct (header_form _ _ _ _ _ E) as [shape [_ ->]].
  exists Xdmf, NoInfo, (TOpen Domain (Named "domain") :: (head_items numCell dim numVert numCorner
       ++ TOpen Grid (Named "domain") :: (head_grid shape numCell dim ++ mid) ++ TClose Grid :: []) ++ TClose Domain :: []).
  split.
  - unfold XMFFooter. simpl. repeat (rewrite <- ?app_assoc; simpl). reflexivity.
  - apply content_element; [|constructor]. apply content_app; [apply items_content|].
    apply content_element; [|constructor]. apply content_app; [apply grid_content|exact Hm].
Qed.
Lemma unbalanced numCell dim numVert numCorner hd : XMFHeader numCell dim numVert numCorner = Ok hd -> opens hd = closes hd + 3.
Proof.
  intro E. destruct (header_form _ _ _ _ _ E) as [shape [_ ->]].
  pose proof (content_balanced _ (items_content numCell dim numVert numCorner)) as H1.
  pose proof (content_balanced _ (grid_content shape numCell dim)) as H2.
  change (TOpen Xdmf NoInfo :: TOpen Domain (Named "domain") :: head_items numCell dim numVert numCorner ++ TOpen Grid (Named "domain") :: head_grid shape numCell dim)
   with ([TOpen Xdmf NoInfo; TOpen Domain (Named "domain")] ++ head_items numCell dim numVert numCorner ++ [TOpen Grid (Named "domain")] ++ head_grid shape numCell dim).
  rewrite !opens_app, !closes_app, H1, H2. cbn. lia.
Qed.

(** ** Runs *)
Section runs.
Context {A : Type} (zero : A) (pr : processes) (m : mesh) (ndof : nat) (ao : list Z).

Lemma run_app cs1 cs2 s : run zero pr m ndof ao (cs1 ++ cs2) s = bind (run zero pr m ndof ao cs1 s) (run zero pr m ndof ao cs2).
Proof.
  revert s; induction cs1 as [|c cs1 IH]; intro s; simpl; [reflexivity|].
  destruct (exec zero pr m ndof ao c s); cbn [bind]; auto.
Qed.

Definition is_write (c : call A) : Prop := match c with CWrite _ _ _ => True | _ => False end.
Definition not_hdf5 (c : call A) : Prop := match c with CSetMode HDF5Format => False | _ => True end.
(** What a sequence of outputs should list. *)
Definition outputs (cs : list (call A)) : list (printed * string) :=
  flat_map (fun c => match c with CWrite t _ _ => [(t, name_pressure); (t, name_saturation)] | _ => [] end) cs.

Lemma write_fmt t p diag (s s' : io A) vs : WriteVec zero pr ndof ao t p diag s = Ok (s', vs) ->
  fmt s' = fmt s /\ (fmt s <> HDF5Format -> s' = s) /\
  (fmt s = HDF5Format -> exists pn sn, vs = [(name_pressure, pn); (name_saturation, sn)] /\
     xmf s' = append (append (xmf s) (XMFAttribute name_pressure t (Z.of_nat (List.length pn)))) (XMFAttribute name_saturation t (Z.of_nat (List.length sn))) /\
     h5 s' = store t name_saturation sn (store t name_pressure pn (h5 s))).
Proof.
  unfold WriteVec. intro E. destruct (GetLiquidSaturation _ _ _ _ _ _) as [sat| |]; try discriminate. cbn [bind] in E.
  destruct (fmt s) eqn:Ef; try discriminate.
  - destruct (ascii_name t name_pressure); try discriminate. cbn [bind] in E.
    destruct (ascii_name t name_saturation); try discriminate. cbn [bind] in E. injection E as <- <-.
    split; [exact Ef|]. split; [reflexivity|discriminate].
  - injection E as <- <-. split; [exact Ef|]. split; [reflexivity|discriminate].
  - destruct (GlobalToNatural pr ndof ao p _) as [pn| |]; try discriminate. cbn [bind] in E.
    destruct (GlobalToNatural pr ndof ao sat _) as [sn| |]; try discriminate. cbn [bind] in E.
    rewrite hdf5_var in E. cbn [bind] in E. rewrite hdf5_var in E. cbn [bind fmt xmf h5] in E. injection E as <- <-.
    cbn [fmt xmf h5]. split; [exact Ef|]. split; [congruence|]. intros _. exists pn, sn. auto.
Qed.

Lemma listed_app a b : listed (a ++ b) = listed a ++ listed b.
Proof. unfold listed. apply flat_map_app. Qed.
Lemma listed_attribute name t n : listed (XMFAttribute name t n) = [(t, name)].
Proof. reflexivity. Qed.

Lemma writes_xmf ws : Forall is_write ws -> forall (s s' : io A) l, fmt s = HDF5Format -> xmf s = Some l ->
  run zero pr m ndof ao ws s = Ok s' -> exists mid, xmf s' = Some (l ++ mid) /\ content mid /\ listed mid = outputs ws.
Proof.
  induction 1 as [|c ws Hc _ IH]; intros s s' l Ef Ex E; simpl in E.
  - injection E as <-. exists []. rewrite app_nil_r. repeat split; [exact Ex|constructor].
  - destruct c as [f|t p diag]; [destruct Hc|]. cbn [exec] in E.
    destruct (WriteVec zero pr ndof ao t p diag s) as [[s1 vs]| |] eqn:Ew; try discriminate. cbn [bind fst] in E.
    destruct (write_fmt _ _ _ _ _ _ Ew) as [F1 [_ F2]]. destruct (F2 Ef) as [pn [sn [_ [Ex1 _]]]].
    rewrite Ex in Ex1. unfold append in Ex1.
    destruct (IH s1 s' _ ltac:(congruence) Ex1 E) as [mid [E1 [E2 E3]]].
    exists (XMFAttribute name_pressure t (Z.of_nat (List.length pn)) ++ XMFAttribute name_saturation t (Z.of_nat (List.length sn)) ++ mid).
    split; [rewrite E1, <- !app_assoc; reflexivity|]. split.
    + apply content_app; [apply attribute_content|]. apply content_app; [apply attribute_content|exact E2].
    + rewrite !listed_app, !listed_attribute, E3. reflexivity.
Qed.

Lemma header_listed numCell dim numVert numCorner hd : XMFHeader numCell dim numVert numCorner = Ok hd -> listed hd = [].
Proof. intro E. destruct (header_form _ _ _ _ _ E) as [shape [_ ->]]. reflexivity. Qed.

Lemma set_hdf5 (s s' : io A) : SetMode m (List.length ao * ndof) HDF5Format s = Ok s' ->
  exists hd, XMFHeader (Z.of_nat (List.length ao * ndof)) (Z.of_nat (mdim m)) (Z.of_nat (height_count m 3)) (NumberOfCellVertices m) = Ok hd /\
  s' = Io HDF5Format (Some hd) [].
Proof.
  unfold SetMode. destruct (XMFHeader _ _ _ _) as [hd| |]; try discriminate. cbn [bind]. intro E. injection E as <-. exists hd. auto.
Qed.

Lemma run_document cs ws old (s : io A) : Forall is_write ws -> run zero pr m ndof ao (cs ++ CSetMode HDF5Format :: ws) (Create old) = Ok s ->
  exists l, Destroy 1 (xmf s) = Some l /\ document l /\ listed l = outputs ws.
Proof.
  intros Hw E. rewrite run_app in E. destruct (run zero pr m ndof ao cs (Create old)) as [s1| |]; try discriminate. cbn [bind] in E.
  cbn [run] in E. change (exec zero pr m ndof ao (CSetMode HDF5Format) s1) with (SetMode m (List.length ao * ndof) HDF5Format s1) in E.
  destruct (SetMode m (List.length ao * ndof) HDF5Format s1) as [s2| |] eqn:Es; try discriminate. cbn [bind] in E.
  destruct (set_hdf5 _ _ Es) as [hd [Eh ->]].
  destruct (writes_xmf ws Hw (Io HDF5Format (Some hd) []) s hd eq_refl eq_refl E) as [mid [E1 [E2 E3]]].
  exists (hd ++ mid ++ XMFFooter). split; [cbn [Destroy]; rewrite E1; unfold append; rewrite <- app_assoc; reflexivity|].
  split; [apply (closed_document _ _ _ _ hd mid Eh E2)|].
  rewrite !listed_app, (header_listed _ _ _ _ _ Eh), E3. cbn. rewrite app_nil_r. reflexivity.
Qed.

Lemma destroy_balance np : forall f l, Destroy np f = Some l -> 
  exists l0, l = l0 ++ List.concat (repeat XMFFooter np) /\ (f = Some l0 \/ f = None /\ l0 = []).
Proof.
  induction np as [|np IH]; intros f l E; simpl in E.
  - exists l. simpl. rewrite app_nil_r. auto.
  - destruct (IH _ _ E) as [l1 [-> [E1|[E1 _]]]]; [|discriminate]. unfold append in E1. injection E1 as <-.
    destruct f as [l0|]; [exists l0|exists []]; (split; [simpl; rewrite <- ?app_assoc; reflexivity|auto]).
Qed.
Lemma footers np : opens (List.concat (repeat XMFFooter np)) = 0 /\ closes (List.concat (repeat XMFFooter np)) = 3 * np.
Proof. induction np as [|np [H1 H2]]; [split; reflexivity|]. cbn [repeat List.concat]. rewrite opens_app, closes_app, H1, H2. cbn. lia. Qed.
Lemma run_unbalanced cs ws old (s : io A) np l : 1 < np -> Forall is_write ws ->
  run zero pr m ndof ao (cs ++ CSetMode HDF5Format :: ws) (Create old) = Ok s -> Destroy np (xmf s) = Some l -> ~ document l.
Proof.
  intros Hnp Hw E Ed D. apply document_balanced in D. rewrite run_app in E.
  destruct (run zero pr m ndof ao cs (Create old)) as [s1| |]; try discriminate. cbn [bind] in E.
  cbn [run] in E. change (exec zero pr m ndof ao (CSetMode HDF5Format) s1) with (SetMode m (List.length ao * ndof) HDF5Format s1) in E.
  destruct (SetMode m (List.length ao * ndof) HDF5Format s1) as [s2| |] eqn:Es; try discriminate. cbn [bind] in E.
  destruct (set_hdf5 _ _ Es) as [hd [Eh ->]].
  destruct (writes_xmf ws Hw (Io HDF5Format (Some hd) []) s hd eq_refl eq_refl E) as [mid [E1 [E2 E3]]]. rewrite E1 in Ed.
  destruct (destroy_balance _ _ _ Ed) as [l0 [-> [E0|[E0 _]]]]; [|discriminate]. injection E0 as <-.
  rewrite !opens_app, !closes_app, (unbalanced _ _ _ _ _ Eh), (content_balanced _ E2) in D.
  destruct (footers np) as [F1 F2]. rewrite F1, F2 in D. lia.
Qed.

Lemma run_untouched cs : Forall not_hdf5 cs -> forall (s s' : io A), fmt s <> HDF5Format -> run zero pr m ndof ao cs s = Ok s' ->
  xmf s' = xmf s.
Proof.
  induction 1 as [|c cs Hc _ IH]; intros s s' Ef E; simpl in E; [injection E as <-; reflexivity|].
  destruct c as [f|t p diag].
  - destruct f; try (destruct Hc; fail); cbn [exec SetMode bind] in E;
      (transitivity (xmf (Io f (xmf s) (h5 s))); [|reflexivity]) || idtac; apply IH in E; cbn [fmt xmf] in *; try discriminate; exact E.
  - cbn [exec] in E. destruct (WriteVec zero pr ndof ao t p diag s) as [[s1 vs]| |] eqn:Ew; try discriminate. cbn [bind fst] in E.
    destruct (write_fmt _ _ _ _ _ _ Ew) as [F1 [F2 _]]. rewrite (F2 Ef) in E. apply (IH s s' Ef E).
Qed.
Lemma run_no_hdf5 cs old (s : io A) np l : 0 < np -> Forall not_hdf5 cs -> (forall l0, old = Some l0 -> document l0) ->
  run zero pr m ndof ao cs (Create old) = Ok s -> Destroy np (xmf s) = Some l -> ~ document l.
Proof.
  intros Hnp Hc Hold E Ed D. apply document_balanced in D.
  assert (Hf : fmt (@Create A old) <> HDF5Format) by discriminate.
  rewrite (run_untouched cs Hc (Create old) s Hf E) in Ed. cbn [Create xmf] in Ed.
  destruct (destroy_balance _ _ _ Ed) as [l0 [-> E0]]. destruct (footers np) as [F1 F2].
  rewrite opens_app, closes_app, F1, F2 in D. destruct E0 as [E0|[_ ->]].
  - rewrite (document_balanced _ (Hold _ E0)) in D. lia.
  - cbn in D. lia.
Qed.
End runs.

(** ** Stored datasets *)
Lemma printed_eqb_eq a b : printed_eqb a b = true <-> a = b.
Proof.
  unfold printed_eqb. destruct a as [n1 d1 e1], b as [n2 d2 e2]. cbn. rewrite !andb_true_iff, eqb_true_iff, !Z.eqb_eq.
  split; [intros [[-> ->] ->]; reflexivity|intro E; injection E as -> -> ->; auto].
Qed.
Lemma same_entry_eq {A} t name (e : printed * string * list A) : same_entry t name e = true <-> fst e = (t, name).
Proof.
  unfold same_entry. rewrite andb_true_iff, printed_eqb_eq, String.eqb_eq. destruct e as [[a b] v]. cbn. split; [intros [-> ->]; reflexivity|].
  intro E. injection E as -> ->. auto.
Qed.
Lemma fetch_store_same {A} t name (v : list A) f : fetch t name (store t name v f) = Some v.
Proof.
  unfold fetch, store. induction f as [|e f IH]; simpl.
  - unfold same_entry. cbn. rewrite (proj2 (printed_eqb_eq t t) eq_refl), String.eqb_refl. reflexivity.
  - destruct (same_entry t name e) eqn:E; simpl; [exact IH|]. rewrite E. exact IH.
Qed.
Lemma fetch_store_other {A} t name t' name' (v : list A) f : (t, name) <> (t', name') -> fetch t name (store t' name' v f) = fetch t name f.
Proof.
  intro N. unfold fetch, store. induction f as [|e f IH]; simpl.
  - destruct (same_entry t name (t', name', v)) eqn:E; [|reflexivity]. apply same_entry_eq in E. cbn in E. congruence.
  - destruct (same_entry t' name' e) eqn:E; simpl.
    + rewrite IH. destruct (same_entry t name e) eqn:E2; [|reflexivity]. apply same_entry_eq in E, E2. congruence.
    + destruct (same_entry t name e); [reflexivity|exact IH].
Qed.
Lemma names_differ : name_pressure <> name_saturation.
Proof. discriminate. Qed.

Section stored.
Context {A : Type} (zero : A) (pr : processes) (m : mesh) (ndof : nat) (ao : list Z).
Definition time_of (c : call A) : option printed := match c with CWrite t _ _ => Some t | _ => None end.

Lemma later_writes ws : Forall is_write ws -> forall (s s' : io A) t name, fmt s = HDF5Format -> ~ In (Some t) (map time_of ws) ->
  run zero pr m ndof ao ws s = Ok s' -> fetch t name (h5 s') = fetch t name (h5 s).
Proof.
  induction 1 as [|c ws Hc _ IH]; intros s s' t name Ef Nt E; simpl in E; [injection E as <-; reflexivity|].
  destruct c as [f|t1 p diag]; [destruct Hc|]. cbn [exec] in E.
  destruct (WriteVec zero pr ndof ao t1 p diag s) as [[s1 vs]| |] eqn:Ew; try discriminate. cbn [bind fst] in E.
  destruct (write_fmt _ _ _ _ _ _ _ _ _ _ Ew) as [F1 [_ F2]]. destruct (F2 Ef) as [pn [sn [_ [_ Eh]]]].
  cbn [map time_of] in Nt. rewrite (IH s1 s' t name ltac:(congruence) ltac:(intro H; apply Nt; right; exact H) E), Eh.
  assert (t <> t1) by (intros ->; apply Nt; left; reflexivity).
  rewrite !fetch_store_other by congruence. reflexivity.
Qed.
End stored.

(** Every variable of the document refers to its own dataset, which exists. *)
Section references.
Context {A : Type} (zero : A) (pr : processes) (m : mesh) (ndof : nat) (ao : list Z).
Lemma referenced_app a b : referenced (a ++ b) = referenced a ++ referenced b.
Proof. unfold referenced. apply flat_map_app. Qed.
Lemma referenced_attribute name t n : referenced (XMFAttribute name t n) = [(t, name)].
Proof. reflexivity. Qed.
Lemma fetch_kept (f : list (printed * string * list A)) t name t' name' v x : fetch t name f = Some x -> exists y, fetch t name (store t' name' v f) = Some y.
Proof.
  intro E. destruct (printed_eqb t t' && String.eqb name name')%bool eqn:Q.
  - apply andb_true_iff in Q. destruct Q as [Q1 Q2]. apply printed_eqb_eq in Q1. apply String.eqb_eq in Q2. subst. exists v. apply fetch_store_same.
  - exists x. rewrite fetch_store_other; [exact E|]. intro K. injection K as -> ->. rewrite (proj2 (printed_eqb_eq t' t') eq_refl), String.eqb_refl in Q. discriminate.
Qed.
Lemma writes_kept ws : Forall is_write ws -> forall (s s' : io A) t name x, fmt s = HDF5Format -> fetch t name (h5 s) = Some x ->
  run zero pr m ndof ao ws s = Ok s' -> exists y, fetch t name (h5 s') = Some y.
Proof.
  induction 1 as [|c ws Hc _ IH]; intros s s' t name x Ef Ex E; simpl in E; [injection E as <-; eauto|].
  destruct c as [f|t1 p diag]; [destruct Hc|]. cbn [exec] in E.
  destruct (WriteVec zero pr ndof ao t1 p diag s) as [[s1 vs]| |] eqn:Ew; try discriminate. cbn [bind fst] in E.
  destruct (write_fmt _ _ _ _ _ _ _ _ _ _ Ew) as [F1 [_ F2]]. destruct (F2 Ef) as [pn [sn [_ [_ Eh]]]].
  destruct (fetch_kept (h5 s) t name t1 name_pressure pn x Ex) as [y Ey].
  destruct (fetch_kept _ t name t1 name_saturation sn y Ey) as [z Ez]. rewrite <- Eh in Ez.
  exact (IH s1 s' t name z ltac:(congruence) Ez E).
Qed.
Lemma writes_refer ws : Forall is_write ws -> forall (s s' : io A) l, fmt s = HDF5Format -> xmf s = Some l ->
  run zero pr m ndof ao ws s = Ok s' -> exists mid, xmf s' = Some (l ++ mid) /\ referenced mid = outputs ws
    /\ forall t name, In (t, name) (outputs ws) -> exists v, fetch t name (h5 s') = Some v.
Proof.
  induction 1 as [|c ws Hc Hw IH]; intros s s' l Ef Ex E; simpl in E.
  - injection E as <-. exists []. rewrite app_nil_r. split; [exact Ex|]. split; [reflexivity|intros t name []].
  - destruct c as [f|t p diag]; [destruct Hc|]. cbn [exec] in E.
    destruct (WriteVec zero pr ndof ao t p diag s) as [[s1 vs]| |] eqn:Ew; try discriminate. cbn [bind fst] in E.
    destruct (write_fmt _ _ _ _ _ _ _ _ _ _ Ew) as [F1 [_ F2]]. destruct (F2 Ef) as [pn [sn [_ [Ex1 Eh]]]].
    rewrite Ex in Ex1. unfold append in Ex1.
    destruct (IH s1 s' _ ltac:(congruence) Ex1 E) as [mid [E1 [E2 E3]]].
    exists (XMFAttribute name_pressure t (Z.of_nat (List.length pn)) ++ XMFAttribute name_saturation t (Z.of_nat (List.length sn)) ++ mid).
    split; [rewrite E1, <- !app_assoc; reflexivity|]. split; [rewrite !referenced_app, !referenced_attribute, E2; reflexivity|].
    intros t' name [K|[K|K]]; [| |exact (E3 t' name K)]; injection K as <- <-.
    + destruct (fetch_kept _ t name_pressure t name_saturation sn pn (fetch_store_same t name_pressure pn (h5 s))) as [y Ey]. rewrite <- Eh in Ey.
      exact (writes_kept ws Hw s1 s' t name_pressure y ltac:(congruence) Ey E).
    + apply (writes_kept ws Hw s1 s' t name_saturation sn ltac:(congruence)); [|exact E]. rewrite Eh. apply fetch_store_same.
Qed.
Lemma run_refer cs ws old (s : io A) l : Forall is_write ws -> run zero pr m ndof ao (cs ++ CSetMode HDF5Format :: ws) (Create old) = Ok s ->
  Destroy 1 (xmf s) = Some l -> referenced l = outputs ws /\ forall t name, In (t, name) (referenced l) -> exists v, fetch t name (h5 s) = Some v.
Proof.
  intros Hw E D. rewrite run_app in E. destruct (run zero pr m ndof ao cs (Create old)) as [s1| |]; try discriminate. cbn [bind] in E.
  cbn [run] in E. change (exec zero pr m ndof ao (CSetMode HDF5Format) s1) with (SetMode m (List.length ao * ndof) HDF5Format s1) in E.
  destruct (SetMode m (List.length ao * ndof) HDF5Format s1) as [s2| |] eqn:Es; try discriminate. cbn [bind] in E.
  destruct (set_hdf5 _ _ _ _ _ Es) as [hd [Eh ->]].
  destruct (writes_refer ws Hw (Io HDF5Format (Some hd) []) s hd eq_refl eq_refl E) as [mid [E1 [E2 E3]]].
  cbn [Destroy] in D. rewrite E1 in D. unfold append in D. injection D as <-.
  assert (R : referenced ((hd ++ mid) ++ XMFFooter) = outputs ws).
  { rewrite !referenced_app, E2. destruct (header_form _ _ _ _ _ Eh) as [shape [_ ->]]. cbn. rewrite app_nil_r. reflexivity. }
  rewrite R. split; [reflexivity|exact E3].
Qed.
End references.

(** Every output of a run stays in the file if the printed times differ. *)
Lemma kept {A} (zero : A) pr m ao ws1 ws2 t p diag sat (s0 s : io A) : layout pr ao -> Forall is_write ws1 -> Forall is_write ws2 ->
  List.length p = List.length ao -> field diag DIAG_LIQUID_SATURATION sat -> List.length sat = List.length ao ->
  ~ In (Some t) (map time_of ws2) ->
  run zero pr m 1 ao (CSetMode HDF5Format :: ws1 ++ CWrite t p diag :: ws2) s0 = Ok s ->
  exists v, fetch t name_pressure (h5 s) = Some v /\ in_natural_order ao p v.
Proof.
  intros HL H1 H2 Hp Hf Hs Nt E. cbn [run] in E.
  change (exec zero pr m 1 ao (CSetMode HDF5Format) s0) with (SetMode m (List.length ao * 1) HDF5Format s0) in E.
  destruct (SetMode m (List.length ao * 1) HDF5Format s0) as [s2| |] eqn:Es; try discriminate. cbn [bind] in E.
  destruct (set_hdf5 _ _ _ _ _ Es) as [hd [Eh ->]]. rewrite run_app in E.
  assert (Hfmt : forall ws (a b : io A), Forall is_write ws -> run zero pr m 1 ao ws a = Ok b -> fmt b = fmt a).
  { clear. intros ws a b H. revert a. induction H as [|c ws Hc _ IH]; intros a E; simpl in E; [injection E as <-; reflexivity|].
    destruct c as [f|t1 p diag]; [destruct Hc|]. cbn [exec] in E.
    destruct (WriteVec zero pr 1 ao t1 p diag a) as [[s1 vs]| |] eqn:Ew; try discriminate. cbn [bind fst] in E.
    rewrite (IH _ E). apply (write_fmt _ _ _ _ _ _ _ _ _ _ Ew). }
  destruct (run zero pr m 1 ao ws1 _) as [s3| |] eqn:E3; try discriminate. cbn [bind run exec] in E.
  pose proof (Hfmt _ _ _ H1 E3) as F3. cbn [fmt] in F3.
  destruct (write_hdf5 zero pr ao HL t p diag sat s3 F3 Hp Hf Hs) as [pn [tmp [sn [s4 [Ew [F4 [_ [Eh4 [Np _]]]]]]]]].
  rewrite Ew in E. cbn [bind fst] in E. exists pn. split; [|exact Np].
  rewrite (later_writes zero pr m 1 ao ws2 H2 s4 s t name_pressure F4 Nt E), Eh4.
  rewrite fetch_store_other by (intro H; injection H as H; discriminate). apply fetch_store_same.
Qed.

(** ** Printed times *)
Local Open Scope R_scope.
Lemma prints_close t1 t2 p : prints t1 p -> prints t2 p -> Rabs (t1 - t2) <= powerRZ 10 (pexp p - 5).
Proof.
  assert (Hpos : 0 < powerRZ 10 (pexp p - 5)) by (apply powerRZ_lt; lra).
  intros [[-> E1]|[P1 [_ [D1 H1]]]] [[-> E2]|[P2 [_ [D2 H2]]]].
  - rewrite Rminus_0_r, Rabs_R0. lra.
  - subst p. cbn [pdigits] in D2; lia.
  - subst p. cbn [pdigits] in D1; lia.
  - revert H1 H2. unfold Rabs. repeat destruct (Rcase_abs _); lra.
Qed.
