(** C66-C68: the Wheeler-Yotov method. *)
From Coq Require Import Reals List ZArith Arith Bool Lia Lra.
From Verif Require Import Prelude Arrays SpecFvtpf SpecHdiv Mpfao Wy SpecWy WyProofs.
Import ListNotations.
Local Open Scope R_scope.

(** ** C66 *)

(** Patch test around any vertex, in any dimension, for any number of cells that are
    images of the cube under affine maps, with any permeability tensors: if the
    pressure is linear in every cell, agrees at the centres of the faces and has
    equal normal fluxes there, and the boundary faces have its values, then the system
    can be assembled and the recovered velocities are the Darcy velocities. *)
Theorem C66_patch_test : forall m star v st P (DF DFinv K : nat -> list R) (J : nat -> R) (xc g N xf : nat -> nat -> R) (pi u : nat -> R),
  (0 < dim m)%nat -> good_star m star v st -> (forall c, In c (cells_of m star) -> (c < length P)%nat) ->
  (forall c, In c (cells_of m star) -> parallelepiped m st c (DF c) (DFinv c) (K c) (J c) (xc c) N xf) ->
  (forall c d, In c (cells_of m star) -> (d < dim m)%nat -> linear (dim m) (nth c P 0) (g c) (xc c) (xf (dir_face st c d)) = pi (dir_face st c d)) ->
  (forall c d, In c (cells_of m star) -> (d < dim m)%nat -> darcy (dim m) (K c) (g c) (N (dir_face st c d)) = u (dir_face st c d)) ->
  (forall f, In f (faces_of m star) -> inner_face m star st f \/ outer_face m star st f (pi f)) ->
  exists A F, velocity_system m P star v = Ok (A, F)
    /\ solves_with (length (faces_of m star)) A (fun i => nth i F 0) (fun i => u (nth i (faces_of m star) O))
    /\ forall Y, solves_with (length (faces_of m star)) A (fun i => nth i F 0) Y ->
         forall i f, nth_error (faces_of m star) i = Some f -> Y i = u f.
Proof. exact patch_test. Qed.
Print Assumptions C66_patch_test.

(** Two squares of side 2 above the boundary y = 0, with their common vertex in the
    origin; the right one is twice as permeable.  Face 2 is between them, 3 and 4 lie
    on the boundary. *)
Definition two_squares : mesh :=
  mkMesh 2 [mkElement [7; 9; 6; 8]%nat [5; 3; 2; 3; 5; 6; 2; 6]%Z (fun _ => [1; 0; 0; 1]);
            mkElement [9; 11; 8; 10]%nat [-2; 4; 12; 4; -2; 13; 12; 13]%Z (fun _ => [1/2; 0; 0; 1/2])] 2 5
    [4; 4; 2; 2; 2] (fun f => match f with 3%nat => Some (-1) | 4%nat => Some 2 | _ => None end).
Definition two_star : star_data :=
  mkStar (fun c => match c with O => 1%nat | _ => O end)
         (fun c d => match c, d with O, O => 2%nat | O, _ => 3%nat | _, O => 2%nat | _, _ => 4%nat end)
         (fun c d => match c, d with O, _ => 1 | _, O => -1 | _, _ => 1 end).
Lemma two_good : good_star two_squares [9; 2; 3; 4; 0; 1]%nat 9 two_star.
Proof.
  constructor.
  - simpl. repeat constructor; simpl; intuition discriminate.
  - simpl. repeat constructor; simpl; intuition discriminate.
  - intros c Hc. simpl in Hc. destruct Hc as [<-|[<-|[]]]; eexists; (split; [reflexivity|]);
      (split; [simpl; repeat constructor; simpl; intuition discriminate|]); (split; [reflexivity|]); (split; [reflexivity|]);
      intros [|[|d]] Hd; simpl in Hd; try lia; eexists; (split; [reflexivity|]); (split; [discriminate|]); split; reflexivity.
  - intros c d Hc Hd. simpl in Hc, Hd. destruct Hc as [<-|[<-|[]]]; destruct d as [|[|d]]; try lia; (split; [simpl; auto|]); eexists; (split; [reflexivity|lra]).
  - intros f Hf. simpl in Hf. destruct Hf as [<-|[<-|[<-|[]]]]; [exists O, O|exists O, 1%nat|exists 1%nat, 1%nat]; simpl; repeat split; auto; lia.
  - reflexivity.
Qed.
Definition pressure_at (f : nat) : R := match f with 2%nat => 2 | 3%nat => -1 | _ => 2 end.
Lemma two_faces : forall f, In f (faces_of two_squares [9; 2; 3; 4; 0; 1]%nat) ->
  inner_face two_squares [9; 2; 3; 4; 0; 1]%nat two_star f \/ outer_face two_squares [9; 2; 3; 4; 0; 1]%nat two_star f (pressure_at f).
Proof.
  intros f Hf. simpl in Hf. destruct Hf as [<-|[<-|[<-|[]]]].
  - left. split; [reflexivity|]. simpl. ring.
  - right. split; [reflexivity|]. exists O, 1%nat. split; [simpl; auto|]. split; [reflexivity|].
    intros c' d' H E. simpl in H. repeat (destruct H as [H|H]; [injection H as <- <-; simpl in E; try discriminate; auto|]). contradiction.
  - right. split; [reflexivity|]. exists 1%nat, 1%nat. split; [simpl; auto|]. split; [reflexivity|].
    intros c' d' H E. simpl in H. repeat (destruct H as [H|H]; [injection H as <- <-; simpl in E; try discriminate; auto|]). contradiction.
Qed.
Definition square_K (c : nat) : list R := match c with O => [1; 0; 0; 1] | _ => [2; 0; 0; 2] end.
Definition square_centre (c k : nat) : R := match c, k with O, O => -1 | _, _ => 1 end.
Definition square_normal (f k : nat) : R := match f, k with 2%nat, O => 1 | 2%nat, _ => 0 | _, O => 0 | _, _ => -1 end.
Definition square_face (f k : nat) : R := match f, k with 2%nat, O => 0 | 2%nat, _ => 1 | 3%nat, O => -1 | _, O => 1 | _, _ => 0 end.
Definition square_gradient (c k : nat) : R := match c, k with O, O => 2 | _, _ => 1 end.
Ltac crunch := cbv -[Rplus Ropp Rminus Rmult Rinv Rdiv IZR Rlt Rle]; try lra; try field; try lra.
Lemma square_positive : forall c, symmetric 2 (square_K c) /\ positive_definite 2 (square_K c).
Proof.
  intros c. split.
  - intros [|[|i]] [|[|j]] Hi Hj; try lia; destruct c; crunch.
  - intros w [i [Hi Hw]].
    assert (H : 0 < w 0%nat * w 0%nat + w 1%nat * w 1%nat).
    { pose proof (Rle_0_sqr (w 0%nat)) as H0. pose proof (Rle_0_sqr (w 1%nat)) as H1. pose proof (Rlt_0_sqr _ Hw) as H2. unfold Rsqr in *.
      destruct i as [|[|i]]; [lra|lra|lia]. }
    destruct c; simpl; unfold el_of; simpl; lra.
Qed.
Lemma square_shape : forall c, In c [0; 1]%nat -> parallelepiped two_squares two_star c [1; 0; 0; 1] [1; 0; 0; 1] (square_K c) 1 (square_centre c) square_normal square_face.
Proof.
  intros c Hc. constructor.
  - split; destruct c; reflexivity.
  - split; intros [|[|i]] [|[|j]] Hi Hj; simpl in Hi, Hj; try lia; crunch.
  - lra.
  - apply square_positive.
  - intros el He. destruct Hc as [<-|[<-|[]]]; simpl in He; injection He as <-; simpl; (split; [reflexivity|]); split;
      intros [|[|i]] [|[|j]] Hi Hj; try lia; crunch.
  - intros d k a Hd Hk Ha. simpl in Hd, Hk. destruct Hc as [<-|[<-|[]]]; destruct d as [|[|d]]; try lia; destruct k as [|[|k]]; try lia;
      simpl in Ha; injection Ha as <-; crunch.
  - intros d k Hd Hk. simpl in Hd, Hk. destruct Hc as [<-|[<-|[]]]; destruct d as [|[|d]]; try lia; destruct k as [|[|k]]; try lia; crunch.
Qed.
(** Pressure 2x + y + 1 on the left and x + y + 1 on the right: twice the gradient in
    the less permeable square. *)
Example C66_example : exists A F, velocity_system two_squares [0; 3] [9; 2; 3; 4; 0; 1]%nat 9 = Ok (A, F)
  /\ forall Y, solves_with 3 A (fun i => nth i F 0) Y -> Y 0%nat = -2 /\ Y 1%nat = 1 /\ Y 2%nat = 2.
Proof.
  destruct (C66_patch_test two_squares [9; 2; 3; 4; 0; 1]%nat 9 two_star [0; 3] (fun _ => [1; 0; 0; 1]) (fun _ => [1; 0; 0; 1]) square_K (fun _ => 1)
    square_centre square_gradient square_normal square_face pressure_at (fun f => match f with 2%nat => -2 | 3%nat => 1 | _ => 2 end)) as [A [F [E [_ H]]]].
  - simpl. lia.
  - exact two_good.
  - intros c Hc. simpl in *. destruct Hc as [<-|[<-|[]]]; lia.
  - intros c Hc. apply square_shape. exact Hc.
  - intros c d Hc Hd. simpl in Hc, Hd. destruct Hc as [<-|[<-|[]]]; destruct d as [|[|d]]; try lia; crunch.
  - intros c d Hc Hd. simpl in Hc, Hd. destruct Hc as [<-|[<-|[]]]; destruct d as [|[|d]]; try lia; crunch.
  - exact two_faces.
  - exists A, F. split; [exact E|]. intros Y HY. split; [|split]; [apply (H Y HY 0%nat 2%nat)|apply (H Y HY 1%nat 3%nat)|apply (H Y HY 2%nat 4%nat)]; reflexivity.
Qed.

(** ** C67 *)

(** The stencil around a vertex can always be assembled; it is symmetric and positive
    semidefinite. *)
Theorem C67_symmetric : forall m star v st, good_star m star v st ->
  (forall c, In c (cells_of m star) -> exists DFinv K J, regular_element m st c DFinv K J) ->
  (exists s, vertex_system m star v = Ok s)
  /\ forall s X Y C D, vertex_system m star v = Ok s -> FormStencil (length (faces_of m star)) (length (cells_of m star)) s X Y C D ->
     (forall i j, (i < length (cells_of m star))%nat -> (j < length (cells_of m star))%nat -> C i j = C j i)
     /\ (forall p : nat -> R, 0 <= total (fun i => total (fun j => p i * C i j * p j) (length (cells_of m star))) (length (cells_of m star))).
Proof. exact stencil_facts. Qed.
Print Assumptions C67_symmetric.

(** For all pressures, what the stencil contributes to the balance of a cell is the
    outflow of the velocities recovered from the same pressures, through its parts of
    the faces. *)
Theorem C67_flow : forall m star v st P s X Y C D A F Z slot, good_star m star v st ->
  (forall c, In c (cells_of m star) -> exists DFinv K J, regular_element m st c DFinv K J) ->
  (forall f, In f (faces_of m star) -> inner_face m star st f \/ exists p, outer_face m star st f p) ->
  (forall c, In c (cells_of m star) -> (c < length P)%nat) ->
  vertex_system m star v = Ok s -> FormStencil (length (faces_of m star)) (length (cells_of m star)) s X Y C D ->
  velocity_system m P star v = Ok (A, F) -> solves_with (length (faces_of m star)) A (fun i => nth i F 0) Z ->
  (forall f, In f (faces_of m star) -> nth_error (faces_of m star) (slot f) = Some f) ->
  forall i c, nth_error (cells_of m star) i = Some c ->
    total (fun j => C i j * nth (nth j (cells_of m star) O) P 0) (length (cells_of m star)) - D i
    = total (fun d => dir_sign st c d * (nth (dir_face st c d) (V m) 0 / 2 ^ (dim m - 1)) * Z (slot (dir_face st c d))) (dim m).
Proof. exact stencil_flow. Qed.
Print Assumptions C67_flow.

(** Uniform pressure, inside and on the boundary, drives no flow. *)
Theorem C67_uniform : forall m star v st s X Y C D p, good_star m star v st ->
  (forall c, In c (cells_of m star) -> exists DFinv K J, regular_element m st c DFinv K J) ->
  (forall f, In f (faces_of m star) -> inner_face m star st f \/ outer_face m star st f p) ->
  vertex_system m star v = Ok s -> FormStencil (length (faces_of m star)) (length (cells_of m star)) s X Y C D ->
  forall i, (i < length (cells_of m star))%nat -> total (fun j => C i j * p) (length (cells_of m star)) = D i.
Proof. exact uniform_pressure. Qed.
Print Assumptions C67_uniform.

(** Away from the boundary, what leaves one cell enters the others. *)
Theorem C67_conserves : forall m star v st s X Y C D, good_star m star v st ->
  (forall c, In c (cells_of m star) -> exists DFinv K J, regular_element m st c DFinv K J) ->
  (forall f, In f (faces_of m star) -> inner_face m star st f) ->
  vertex_system m star v = Ok s -> FormStencil (length (faces_of m star)) (length (cells_of m star)) s X Y C D ->
  (forall i, D i = 0) /\
  forall p : nat -> R, total (fun i => total (fun j => C i j * p j) (length (cells_of m star))) (length (cells_of m star)) = 0.
Proof. exact no_loss. Qed.
Print Assumptions C67_conserves.

(** The stencil of the two squares, whose local system can be solved by hand. *)
Example C67_example : exists s X Y C D, vertex_system two_squares [9; 2; 3; 4; 0; 1]%nat 9 = Ok s /\ FormStencil 3 2 s X Y C D
  /\ C 0%nat 0%nat = 5/3 /\ C 0%nat 1%nat = -(2/3) /\ C 1%nat 0%nat = -(2/3) /\ C 1%nat 1%nat = 8/3 /\ D 0%nat = -1 /\ D 1%nat = 4.
Proof.
  assert (HR : forall c, In c (cells_of two_squares [9; 2; 3; 4; 0; 1]%nat) -> exists DFinv K J, regular_element two_squares two_star c DFinv K J).
  { intros c Hc. exists [1; 0; 0; 1], (square_K c), 1. eapply parallelepiped_regular. apply square_shape. exact Hc. }
  destruct (C67_symmetric two_squares [9; 2; 3; 4; 0; 1]%nat 9 two_star two_good HR) as [[s E] _].
  exists s, (fun k j => match k, j with O, O => 2/3 | O, _ => -(2/3) | 1%nat, O => 1 | 2%nat, 1%nat => 2 | _, _ => 0 end),
    (fun k => match k with O => 0 | 1%nat => -1 | _ => 4 end).
  exists (fun i j => acc (fun k => m_el (sB s) k i * (match k, j with O, O => 2/3 | O, _ => -(2/3) | 1%nat, O => 1 | 2%nat, 1%nat => 2 | _, _ => 0 end)) 3),
    (fun i => acc (fun k => m_el (sB s) k i * (match k with O => 0 | 1%nat => -1 | _ => 4 end)) 3).
  split; [exact E|]. unfold FormStencil, solves_with.
  cbv -[Rplus Ropp Rminus Rmult Rinv Rdiv IZR Rlt Rle pow lt] in E. injection E as <-. cbn [sA sB sG].
  split; [split; [|split; [|split]]|].
  - intros [|[|j]] Hj; try lia; intros [|[|[|i]]] Hi; try lia; cbv -[Rplus Ropp Rminus Rmult Rinv Rdiv IZR]; field.
  - intros [|[|[|i]]] Hi; try lia; cbv -[Rplus Ropp Rminus Rmult Rinv Rdiv IZR]; field.
  - reflexivity.
  - reflexivity.
  - repeat split; cbv -[Rplus Ropp Rminus Rmult Rinv Rdiv IZR]; field.
Qed.

(** ** C68 *)

(** The sum of the residuals over all cells is what leaves through the boundary, plus
    the sum of the storage terms, less the sources: nothing is lost between cells. *)
Theorem C68_conservation : forall n g first last nfv vel cells boundary dp_dt,
  good_mesh n g first last nfv vel cells -> NoDup boundary -> (length cells <= length dp_dt)%nat ->
  (forall f, (first <= f < last)%nat -> In f boundary -> on_boundary n g cells f) ->
  (forall f, (first <= f < last)%nat -> ~ In f boundary -> between_cells n g cells f) ->
  (forall f, In f boundary -> (first <= f < last)%nat) ->
  exists r, (forall c, (c < length cells)%nat -> residual n g first nfv vel cells dp_dt c = Ok (r c))
    /\ total r (length cells) = rsum (face_flow g first nfv vel) boundary
         + total (fun c => match nth_error cells c with Some x => c_porosity x * c_dS_dP x * nth c dp_dt 0 - c_force x | None => 0 end) (length cells).
Proof. exact (fun n g first last nfv vel cells boundary dp_dt HM => balance n g first last nfv vel cells HM boundary dp_dt). Qed.
Print Assumptions C68_conservation.

(** The divergence in the residual of a cell is the flow through its faces, outward
    flow counted positive. *)
Theorem C68_outflow : forall n g first last nfv vel cells c x,
  good_mesh n g first last nfv vel cells -> nth_error cells c = Some x ->
  (forall f, In f (c_cone x) -> away n g c f \/ towards n g c f) ->
  exists s : nat -> R, (forall f, In f (c_cone x) -> away n g c f /\ s f = 1 \/ towards n g c f /\ s f = -1)
    /\ divergence n g first nfv vel c (c_cone x) = Ok (rsum (fun f => s f * face_flow g first nfv vel f) (c_cone x)).
Proof. exact divergence_value. Qed.
Print Assumptions C68_outflow.

(** The residual is the imbalance of the cell if the cell has volume one. *)
Theorem C68_unit_cells_partial : forall n g first last nfv vel cells dp_dt c x,
  good_mesh n g first last nfv vel cells -> nth_error cells c = Some x -> (c < length dp_dt)%nat ->
  exists out, divergence n g first nfv vel c (c_cone x) = Ok out
    /\ residual n g first nfv vel cells dp_dt c = Ok (imbalance 1 (c_porosity x) (c_dS_dP x) (nth c dp_dt 0) out (c_force x)).
Proof. exact unit_cells. Qed.
Print Assumptions C68_unit_cells_partial.

(** In general it is not: the storage term is not multiplied by the volume.  A cell of
    volume two loses water through one face at the rate the residual accounts for, but
    its content falls twice as fast. *)
Definition one_cell : geometry := mkGeometry [2; 1; 1] (fun p _ => match p with O => 0 | 1%nat => -1 | _ => 1 end) (fun p _ => match p with 1%nat => -1 | _ => 1 end).
Lemma one_cell_good : good_mesh 1 one_cell 1 3 1 [1; 0] [mkCell [1; 2]%nat (1/2) 1 0]
  /\ on_boundary 1 one_cell [mkCell [1; 2]%nat (1/2) 1 0] 1 /\ on_boundary 1 one_cell [mkCell [1; 2]%nat (1/2) 1 0] 2.
Proof.
  split; [constructor|split].
  - lia.
  - intros [|c] x f Hx Hf; simpl in Hx; [injection Hx as <-|destruct c; discriminate]. simpl in Hf. lia.
  - reflexivity.
  - simpl. lia.
  - exists O. split; [reflexivity|]. unfold away. simpl. lra.
  - exists O. split; [reflexivity|]. unfold away. simpl. lra.
Qed.
(** A cell of volume 2 that loses water through its boundary: the residual is zero although the balance of the cell is not. *)
Theorem C68_volume_refuted : exists n g first last nfv vel cells dp_dt x out, good_mesh n g first last nfv vel cells
  /\ nth_error cells 0 = Some x /\ (forall f, (first <= f < last)%nat -> on_boundary n g cells f)
  /\ divergence n g first nfv vel 0 (c_cone x) = Ok out
  /\ residual n g first nfv vel cells dp_dt 0 = Ok 0
  /\ imbalance (nth 0 (g_V g) 0) (c_porosity x) (c_dS_dP x) (nth 0 dp_dt 0) out (c_force x) <> 0.
Proof.
  exists 1%nat, one_cell, 1%nat, 3%nat, 1%nat, [1; 0], [mkCell [1; 2]%nat (1/2) 1 0], [-2], (mkCell [1; 2]%nat (1/2) 1 0), 1.
  destruct one_cell_good as [HM [H1 H2]].
  assert (E : divergence 1 one_cell 1 1 [1; 0] 0 [1; 2]%nat = Ok 1).
  { etransitivity; [apply (divergence_ok 1 one_cell 1 3 1 [1; 0] _ HM); simpl; lia|]. f_equal. simpl.
    rewrite !sign_away by (unfold away; simpl; lra). unfold face_flow. simpl. field. }
  split; [exact HM|]. split; [reflexivity|]. split; [|split; [exact E|split]].
  - intros f Hf. assert (f = 1%nat \/ f = 2%nat) as [->| ->] by lia; assumption.
  - unfold residual. cbn [rd nth_error bind c_cone]. rewrite E. cbn. f_equal. lra.
  - unfold imbalance. simpl. lra.
Qed.
Print Assumptions C68_volume_refuted.

(** Two cells in a row: the flow between them cancels. *)
Definition two_cells : geometry := mkGeometry [2; 2; 1; 1; 1]
  (fun p _ => match p with O => -1 | 1%nat => 1 | 2%nat => 0 | 3%nat => -2 | _ => 2 end) (fun p _ => match p with 3%nat => -1 | _ => 1 end).
Example C68_example : exists r,
  (forall c, (c < 2)%nat -> residual 1 two_cells 2 1 [7; -3; 5] [mkCell [2; 3]%nat (1/2) 1 1; mkCell [2; 4]%nat (1/4) 1 0] [4; 8] c = Ok (r c))
  /\ r 0%nat + r 1%nat = 5.
Proof.
  destruct (C68_conservation 1 two_cells 2 5 1 [7; -3; 5] [mkCell [2; 3]%nat (1/2) 1 1; mkCell [2; 4]%nat (1/4) 1 0] [3; 4]%nat [4; 8]) as [r [H E]].
  - constructor; [lia| |reflexivity|simpl; lia].
    intros [|[|c]] x f Hx Hf; simpl in Hx; [injection Hx as <-|injection Hx as <-|destruct c; discriminate]; simpl in Hf; lia.
  - repeat constructor; simpl; intuition discriminate.
  - simpl. lia.
  - intros f Hf [<-|[<-|[]]]; [exists O|exists 1%nat]; (split; [reflexivity|]); unfold away; simpl; lra.
  - intros f Hf Hn. assert (f = 2%nat) as -> by (simpl in Hn; lia). exists O, 1%nat. split; [reflexivity|]. left. split; [unfold away|unfold towards]; simpl; lra.
  - intros f [<-|[<-|[]]]; lia.
  - exists r. split; [exact H|]. simpl in E. unfold face_flow in E. simpl in E. lra.
Qed.
