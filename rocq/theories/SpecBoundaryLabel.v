(** The boundary of a mesh, independent of the model's functions. *)
From Coq Require Import List ZArith.
From Verif Require Import BoundaryLabel.
Local Open Scope Z_scope.

Definition face (m : plex) (p : Z) : Prop := fStart m <= p < fEnd m.
Definition boundary_face (m : plex) (f : Z) : Prop := face m f /\ supportSize m f = 1%nat.
(** Every point is in its closure, and closures are transitive. *)
Definition closed (m : plex) : Prop :=
  (forall p, In p (closure m p)) /\ (forall p q r, In q (closure m p) -> In r (closure m q) -> In r (closure m p)).
