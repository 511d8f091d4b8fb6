(** C65: the basis functions of the mixed finite element discretisations. *)
From Coq Require Import Reals List Arith Lia Lra.
From Coquelicot Require Import Coquelicot.
From Verif Require Import Prelude Arrays SpecFvtpf Hdiv SpecHdiv HdivProofs.
Import ListNotations.
Local Open Scope R_scope.

(** ** C65 *)

(** On quadrilaterals: at every point and for every map of the reference cell, the
    array is filled completely; function (v,d) carries no water through any face but
    the one of corner v normal to d, and there it is the corner function of v; its
    divergence is constant, with unit total outflow from the cell. *)
Theorem C65_quadrilateral : forall DF J, length DF = 4%nat -> J <> 0 -> exists basis : list R -> list R,
  (forall x, length x = 2%nat -> HdivBasisQuad x DF J = Ok (map Some (basis x)) /\ length (basis x) = 16%nat)
  /\ (forall x, length x = 2%nat -> right_fluxes 2 x DF J (basis x))
  /\ (forall x DFinv v d, length x = 2%nat -> inverse_of 2 DFinv DF -> (v < 4)%nat -> (d < 2)%nat ->
        divergence 2 basis x DFinv v d (1 / (4 * J))).
Proof. exact quad_basis. Qed.
Print Assumptions C65_quadrilateral.

(** The same on hexahedra. *)
Theorem C65_hexahedron : forall DF J, length DF = 9%nat -> J <> 0 -> exists basis : list R -> list R,
  (forall x, length x = 3%nat -> HdivBasisHex x DF J = Ok (map Some (basis x)) /\ length (basis x) = 72%nat)
  /\ (forall x, length x = 3%nat -> right_fluxes 3 x DF J (basis x))
  /\ (forall x DFinv v d, length x = 3%nat -> inverse_of 3 DFinv DF -> (v < 8)%nat -> (d < 3)%nat ->
        divergence 3 basis x DFinv v d (1 / (8 * J))).
Proof. exact hex_basis. Qed.
Print Assumptions C65_hexahedron.

(** The lumped quadrature evaluates at the corners, numbered as the basis functions
    are, all with weight one. *)
Theorem C65_quadrature : forall dim, dim = 1%nat \/ dim = 2%nat \/ dim = 3%nat ->
  length (quadrature_points dim) = (2 ^ dim * dim)%nat /\ length (quadrature_weights dim) = (2 ^ dim)%nat
  /\ (forall q d, (q < 2 ^ dim)%nat -> (d < dim)%nat -> nth (q * dim + d) (quadrature_points dim) 0 = side q d)
  /\ (forall f : nat -> R, total (fun q => nth q (quadrature_weights dim) 0 * f q) (2 ^ dim) = total f (2 ^ dim)).
Proof. exact quadrature_ok. Qed.
Print Assumptions C65_quadrature.

(** Halfway along the lower edge of a cell stretched by two in the first direction,
    half of the function of corner 0 points down. *)
Example C65_example : forall B, HdivBasisQuad [0; -1] [2; 0; 0; 1] 2 = Ok (map Some B) ->
  vector_area 2 [2; 0; 0; 1] 2 1 (-1) (fun k => if (k =? 1)%nat then -2 else 0)
  /\ component 2 B 0 1 1 = -(1/4) /\ component 2 B 3 0 1 = 0.
Proof.
  intros B H. split.
  - intros i Hi. destruct i as [|[|i]]; [| |lia]; simpl; ring.
  - unfold HdivBasisQuad in H. cbn [rd nth_error bind] in H. rewrite transform_ok in H; [|reflexivity|reflexivity|lra].
    assert (E : B = mapped_all 2 8 [2; 0; 0; 1] 2 (quad_reference 0 (-1))).
    { revert H. generalize (mapped_all 2 8 [2; 0; 0; 1] 2 (quad_reference 0 (-1))). intros l H.
      assert (H' : map Some l = map Some B) by congruence. clear H. revert B H'.
      induction l as [|a l IH]; intros [|b B] H; simpl in H; try discriminate H; [reflexivity|]. injection H as Ha Hl.
      f_equal; [symmetry; exact Ha|apply IH; exact Hl]. }
    subst B. unfold component. rewrite !(nth_mapped_all 2 8 _ _ _ _ 1) by lia. unfold mapped, quad_reference, total. simpl.
    split; field.
Qed.
