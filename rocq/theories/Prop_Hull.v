(** Property theorems about polygons made by b2_polygon_shape_set, over exact reals. *)
From Coq Require Import ZArith Reals Lra Lia Bool List Arith.
From Verif Require Import Base Num Math Collision ShapeModel GeomSpec ShapeSpec HullSpec RTac ShapeExamples HullProofs HullSet HullMass HullInertia HullRegion HullExamples.
Import ListNotations.

(** ** C66 *)
Theorem C66_outcome : forall (self : polygon R) (vs : list (vec2 R)), (3 <= length vs <= B2_MAX_POLYGON_VERTICES)%nat ->
  exists ps, thinned (B2_LINEAR_SLOP / 2) vs ps /\
    (collinear ps -> polygon_set self vs = Panic) /\
    (~ collinear ps -> exists hs, hull_of ps hs /\
       ((shoelace hs <= B2_EPSILON)%R -> polygon_set self vs = Panic) /\
       ((B2_EPSILON < shoelace hs)%R -> exists po, polygon_set self vs = Ok po /\ used_vertices po = hs /\ proper po /\
          po_centroid po = centroid_of hs /\ po_radius po = po_radius self)).
Proof. exact polygon_set_outcome. Qed.
Print Assumptions C66_outcome.
Theorem C66_hull : forall (self : polygon R) (vs : list (vec2 R)) (po : polygon R), polygon_set self vs = Ok po ->
  proper po /\ po_centroid po = centroid_of (used_vertices po) /\ (B2_EPSILON < shoelace (used_vertices po))%R /\
  exists ps, thinned (B2_LINEAR_SLOP / 2) vs ps /\ hull_of ps (used_vertices po).
Proof. exact polygon_set_hull. Qed.
Print Assumptions C66_hull.
Example C66_ex : exists po, polygon_set (@box1 R _) hull_points = Ok po /\ used_vertices po = hull_square.
Proof. exact (set_points (@box1 R _)). Qed.
Example C66_collinear_ex : collinear flat_points /\ (3 <= length flat_points <= B2_MAX_POLYGON_VERTICES)%nat.
Proof. exact (conj flat_collinear flat_count). Qed.
Theorem C66_boxes : forall (self : polygon R) (hx hy : R) (center : vec2 R) (angle : R), (0 < hx)%R -> (0 < hy)%R ->
  proper (set_as_box self hx hy) /\ proper (set_as_box_angle self hx hy center angle).
Proof. exact (fun self hx hy center angle Hx Hy => conj (box_proper self hx hy Hx Hy) (angle_box_proper self hx hy center angle Hx Hy)). Qed.
Print Assumptions C66_boxes.
Theorem C66_validates : forall po : polygon R, proper po -> polygon_validate po = Ok true.
Proof. exact proper_valid. Qed.
Print Assumptions C66_validates.
Theorem C66_one_region : forall (po : polygon R) (p : vec2 R), proper po -> (inner po p <-> in_hull (used_vertices po) p).
Proof. exact proper_region. Qed.
Print Assumptions C66_one_region.
Example C66_proper_ex : proper (set_as_box (@box1 R _) 1%R 2%R).
Proof. exact (box_proper (@box1 R _) 1%R 2%R Rlt_0_1 Rlt_0_2). Qed.

(** ** C67 *)
Theorem C67_polygon_mass : forall (po : polygon R) (density : R), proper po -> (B2_EPSILON < shoelace (used_vertices po))%R ->
  polygon_mass po density = Ok (MassData (density * shoelace (used_vertices po))%R (centroid_of (used_vertices po)) (density * polar_moment (used_vertices po))%R).
Proof. exact proper_mass. Qed.
Print Assumptions C67_polygon_mass.
Theorem C67_small_panics : forall (po : polygon R) (density : R), proper po -> (shoelace (used_vertices po) <= B2_EPSILON)%R ->
  polygon_mass po density = Panic.
Proof. exact proper_mass_small. Qed.
Print Assumptions C67_small_panics.
Theorem C67_signs : forall vs : list (vec2 R), convex_ccw vs ->
  (0 < shoelace vs)%R /\ strictly_inside vs (centroid_of vs) /\
  (shoelace vs * dotp (centroid_of vs) (centroid_of vs) < polar_moment vs)%R.
Proof. exact (fun vs C => conj (convex_area_pos vs C) (conj (convex_centroid_inside vs C) (convex_inertia_pos vs C))). Qed.
Print Assumptions C67_signs.
Example C67_ex : exists po, polygon_set (@box1 R _) hull_points = Ok po /\ proper po /\ (B2_EPSILON < shoelace (used_vertices po))%R.
Proof. exact (let (po, H) := set_points (@box1 R _) in let Q := polygon_set_hull _ _ _ (proj1 H) in ex_intro _ po (conj (proj1 H) (conj (proj1 Q) (proj1 (proj2 (proj2 Q)))))). Qed.
Example C67_convex_ex : convex_ccw hull_square.
Proof. exact square_convex. Qed.
