(** Theorems of properties C89 and C90 (see properties.jsonl). *)
From Coq Require Import Reals Lra List ZArith Bool Lia Permutation.
From Verif Require Import Prelude Arrays Mesh Geom SpecGeom UGrid FaceGeo SpecFaceGeo FaceGeoProofs.
Import ListNotations.
Local Open Scope R_scope.

(** ** C89: orientation of faces *)

(** Whatever the geometry, the two cells and the vertices are only rearranged, and
    the outside of a boundary face comes first. *)
Theorem C89_rearranged : forall coords cents f f' a b,
  orient_face coords cents f = Ok f' -> g_cells f = (a, b) ->
  (0 <= a)%Z /\ (g_cells f' = (a, b) \/ g_cells f' = (b, a)) /\ ((b < 0)%Z -> g_cells f' = (b, a)) /\
  Permutation (g_verts f) (g_verts f').
Proof. exact cells_oriented. Qed.
Print Assumptions C89_rearranged.

(** Faces are treated one by one. *)
Theorem C89_each : forall coords cents fs fs', orient_faces coords cents fs = Ok fs' ->
  Forall2 (fun f f' => orient_face coords cents f = Ok f') fs fs'.
Proof. intros coords cents fs fs'. exact (mapM_each (orient_face coords cents) fs fs'). Qed.
Print Assumptions C89_each.

(** A face between two cells: the vertices are stored counter-clockwise as seen from
    where the stored unit normal points to, and it points from the first cell to the
    second.  Missing: vertices in an order in which a diagonal comes first, and faces
    that are not flat. *)
Theorem C89_inner_partial : forall coords cents f pts n a b ca cb,
  located coords (g_verts f) pts -> nearly n pts ->
  g_cells f = (a, b) -> at_ cents a ca -> at_ cents b cb ->
  height n (g_cen f) ca * height n (g_cen f) cb < 0 ->
  exists f' up dn pts', orient_face coords cents f = Ok f' /\
    Permutation (g_verts f) (g_verts f') /\ located coords (g_verts f') pts' /\ polygon n pts' /\
    g_normal f' = Some n /\ g_cen f' = g_cen f /\ g_area f' = g_area f /\
    (g_cells f' = (a, b) /\ up = ca /\ dn = cb \/ g_cells f' = (b, a) /\ up = cb /\ dn = ca) /\
    height n (g_cen f) up < 0 < height n (g_cen f) dn.
Proof. exact inner_oriented. Qed.
Print Assumptions C89_inner_partial.

(** A boundary face: the unit normal points into the domain.  Missing: as above. *)
Theorem C89_boundary_partial : forall coords cents f pts n a b ca,
  located coords (g_verts f) pts -> nearly n pts ->
  g_cells f = (a, b) -> at_ cents a ca -> (b < 0)%Z -> height n (g_cen f) ca <> 0 ->
  exists f' m pts', orient_face coords cents f = Ok f' /\
    Permutation (g_verts f) (g_verts f') /\ located coords (g_verts f') pts' /\ polygon m pts' /\
    g_normal f' = Some m /\ g_cen f' = g_cen f /\ g_area f' = g_area f /\
    g_cells f' = (b, a) /\ (m = n \/ m = opp n) /\ 0 < height m (g_cen f) ca.
Proof. exact boundary_oriented. Qed.
Print Assumptions C89_boundary_partial.

(** The corners of the unit square in an order in which the first two are opposite to
    each other: the order is not repaired and the normal is not a number. *)
Theorem C89_diagonal_refuted :
  exists f', orient_face square [V3 (1/2) (1/2) (-1)] bowtie = Ok f' /\ g_verts f' = [3; 1; 2; 0]%Z /\ g_normal f' = None.
Proof. exact bowtie_lost. Qed.
Print Assumptions C89_diagonal_refuted.

(** A warped face: the normal has length 1/3. *)
Theorem C89_warped_refuted :
  exists f', orient_face saddle [V3 0 0 (-3); V3 0 0 3] warped = Ok f' /\ g_normal f' = Some (V3 0 0 (1 / 3)).
Proof. exact warped_short. Qed.
Print Assumptions C89_warped_refuted.

(** The unit square between two cubes, with two corners and the cells in the wrong
    order. *)
Definition ex_cents : list v3 := [V3 (1/2) (1/2) (-1/2); V3 (1/2) (1/2) (1/2)].
Definition ex_face (cells : Z * Z) : gface := mkGface cells [0; 1; 3; 2]%Z (V3 (1/2) (1/2) 0) None 1.
Example C89_example : forall cells,
  located square (g_verts (ex_face cells)) [V3 0 0 0; V3 1 0 0; V3 0 1 0; V3 1 1 0] /\
  nearly (V3 0 0 1) [V3 0 0 0; V3 1 0 0; V3 0 1 0; V3 1 1 0] /\
  at_ ex_cents 1 (V3 (1/2) (1/2) (1/2)) /\ at_ ex_cents 0 (V3 (1/2) (1/2) (-1/2)) /\
  height (V3 0 0 1) (g_cen (ex_face cells)) (V3 (1/2) (1/2) (1/2)) = 1 / 2 /\
  height (V3 0 0 1) (g_cen (ex_face cells)) (V3 (1/2) (1/2) (-1/2)) = - (1 / 2) /\
  (forall p, List.In p [V3 0 0 0; V3 1 0 0; V3 0 1 0; V3 1 1 0] -> height (V3 0 0 1) (g_cen (ex_face cells)) p = 0).
Proof.
  intro cells. split; [do 4 (apply Forall2_cons; [split; [lia|reflexivity]|]); apply Forall2_nil|].
  split.
  { right. split; [unfold unit, dot; cbn; ring|].
    split; [exists 1|split; [exists 1|split; exists 1]]; (split; [lra|]); unfold cross, vsub, vscale; cbn; f_equal; ring. }
  do 2 (split; [split; [lia|reflexivity]|]).
  do 2 (split; [unfold height, dot, vsub; cbn; lra|]).
  intros p [<-|[<-|[<-|[<-|[]]]]]; unfold height, dot, vsub; cbn; lra.
Qed.

(** ** C90: distances and projected areas *)

(** A face between two cells: the distances are those from the cells to the point
    where the line between them meets the face; they add up to the distance between
    the cells; the weight is the share of the first; the projected area is the area
    times the cosine of the angle between that line and the normal, which is
    positive.  Missing: as in C89, and the room to store it (C90_store_refuted). *)
Theorem C90_inner_partial : forall coords cents f pts n a b ca cb,
  located coords (g_verts f) pts -> nearly n pts -> (forall p, List.In p pts -> height n (g_cen f) p = 0) ->
  g_cells f = (a, b) -> at_ cents a ca -> at_ cents b cb ->
  height n (g_cen f) ca * height n (g_cen f) cb < 0 ->
  exists f' up dn r w, orient_face coords cents f = Ok f' /\
    (g_cells f' = (a, b) /\ up = ca /\ dn = cb \/ g_cells f' = (b, a) /\ up = cb /\ dn = ca) /\
    face_attrs coords cents f' = Ok (Some (mkAttrs r (Some w) (Some (g_area f * dot (r_u r) n)))) /\
    0 < r_up r /\ 0 < r_dn r /\ r_up r + r_dn r = length3 (vsub dn up) /\
    unit (r_u r) /\ dn = vadd up (vscale (r_up r + r_dn r) (r_u r)) /\
    height n (g_cen f) (vadd up (vscale (r_up r) (r_u r))) = 0 /\
    w * (r_up r + r_dn r) = r_up r /\ 0 < w < 1 /\ 0 < dot (r_u r) n <= 1.
Proof. exact inner_face. Qed.
Print Assumptions C90_inner_partial.

(** A boundary face: the distance from the cell to the plane of the face, the normal
    that points inwards, the weight 0 and the whole area.  Missing: as above. *)
Theorem C90_boundary_partial : forall coords cents f pts n a b c,
  located coords (g_verts f) pts -> nearly n pts -> (forall p, List.In p pts -> height n (g_cen f) p = 0) ->
  g_cells f = (a, b) -> at_ cents a c -> (b < 0)%Z -> height n (g_cen f) c <> 0 ->
  exists f' m, orient_face coords cents f = Ok f' /\ g_cells f' = (b, a) /\ g_normal f' = Some m /\ (m = n \/ m = opp n) /\
    face_attrs coords cents f' = Ok (Some (mkAttrs (mkReach 0 (Rabs (height n (g_cen f) c)) m) (Some 0) (Some (g_area f)))).
Proof. exact boundary_face. Qed.
Print Assumptions C90_boundary_partial.

(** Given rows with room for three numbers, the attributes of every face are stored
    in its own row. *)
Theorem C90_store_partial : forall coords cents fs t,
  length (a_dist t) = length fs -> length (a_unit t) = length fs -> length (a_wt t) = length fs -> length (a_area t) = length fs ->
  (forall row, List.In row (a_dist t) -> (2 <= length row)%nat) -> (forall row, List.In row (a_unit t) -> (3 <= length row)%nat) ->
  (forall f, List.In f fs -> exists a, face_attrs coords cents f = Ok (Some a)) ->
  exists t', attrs_of_faces coords cents fs t = Ok t' /\
    forall k f a, nth_error fs k = Some f -> face_attrs coords cents f = Ok (Some a) ->
      (exists row, nth_error (a_dist t') k = Some row /\ nth_error row 0 = Some (r_up (t_reach a)) /\ nth_error row 1 = Some (r_dn (t_reach a))) /\
      (exists row, nth_error (a_unit t') k = Some row /\ nth_error row 0 = Some (vx (r_u (t_reach a))) /\
         nth_error row 1 = Some (vy (r_u (t_reach a))) /\ nth_error row 2 = Some (vz (r_u (t_reach a)))) /\
      nth_error (a_wt t') k = Some (t_wt a) /\ nth_error (a_area t') k = Some (t_area a).
Proof. exact attrs_stored. Qed.
Print Assumptions C90_store_partial.

(** AllocateFaces gives the rows of unit_vec_up_dn two numbers, and three are
    written: every mesh whose first face is well-formed writes outside of its array. *)
Theorem C90_store_refuted : forall coords cents fs f a,
  nth_error fs 0 = Some f -> face_attrs coords cents f = Ok (Some a) ->
  attrs_of_faces coords cents fs (allocate_tables (length fs)) = UB.
Proof. exact attrs_no_room. Qed.
Print Assumptions C90_store_refuted.

(** The square on the boundary of a cube: the cell is 1/2 away. *)
Example C90_example :
  exists f' m, orient_face square ex_cents (ex_face (0, -1)%Z) = Ok f' /\ g_cells f' = (-1, 0)%Z /\
    face_attrs square ex_cents f' = Ok (Some (mkAttrs (mkReach 0 (1 / 2) m) (Some 0) (Some 1))) /\
    attrs_of_faces square ex_cents [f'] (allocate_tables 1) = UB.
Proof.
  destruct (C89_example (0, -1)%Z) as [HL [HN [A1 [A0 [H1 [H0 Hf]]]]]].
  destruct (C90_boundary_partial square ex_cents (ex_face (0, -1)%Z) _ (V3 0 0 1) 0 (-1) (V3 (1/2) (1/2) (-1/2)) HL HN Hf) as [f' [m [E [Hc [Hn [_ Ha]]]]]];
    [reflexivity|exact A0|lia|rewrite H0; lra|].
  exists f', m. split; [exact E|]. split; [exact Hc|].
  rewrite H0 in Ha. rewrite (Rabs_left (- (1 / 2))) in Ha by lra. rewrite Ropp_involutive in Ha. split; [exact Ha|].
  apply (C90_store_refuted square ex_cents [f'] f' _ eq_refl Ha).
Qed.
