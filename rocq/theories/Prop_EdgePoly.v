(** Property theorems about b2_collide_edge_and_polygon, over exact reals; refutations in single precision.
    The words are defined in EdgePolySpec.v: [xf] is where the polygon is in the frame of the edge ([seen]), [apt] is what is asked of the two shapes. *)
From Coq Require Import ZArith Reals Bool List Arith.
From Verif Require Import Base Num Math Collision Manifold MathSpec GeomSpec ShapeModel ShapeSpec HullSpec CollideModel CollideSpec EdgePolySpec EdgePoly ShapeExamples CollideExamples EdgePolyExamples.
Import ListNotations.

(** ** C97 the call returns, and shapes that are apart get no point *)
Theorem C97_returns : forall (m : manifold R) (e : edge R) (xa : xform R) (po : polygon R) (xb xf : xform R), apt e xa po xb xf -> length (mf_points m) = 2%nat ->
  exists m', b2_collide_edge_and_polygon m e xa po xb = Ok m' /\ (mf_count m' <= 2)%nat /\
    (apart_side e po xf (po_radius po + ed_radius e)%R \/ apart_face e po xf (po_radius po + ed_radius e)%R \/ (ed_one_sided e = true /\ behind e po xf) -> mf_count m' = 0%nat).
Proof. exact edge_polygon_returns. Qed.
Print Assumptions C97_returns.
Theorem C97_apart_far : forall (e : edge R) (xa : xform R) (po : polygon R) (xb xf : xform R) (r : R) (p q : vec2 R), proper po -> unit_rot (xq xa) -> seen xa xb xf -> (0 <= r)%R ->
  apart_side e po xf r \/ apart_face e po xf r -> on_segment (place xa (ed_v1 e)) (place xa (ed_v2 e)) p -> in_polygon po xb q -> (r * r < dist2 p q)%R.
Proof. exact edge_apart_far. Qed.
Print Assumptions C97_apart_far.
Theorem C97_seen : forall xa xb : xform R, unit_rot (xq xa) -> unit_rot (xq xb) -> exists xf, seen xa xb xf.
Proof. exact seen_exists. Qed.
Print Assumptions C97_seen.
Example C97_apart_ex : forall one : bool, apt (floor one) xf_id (@box1 R _) (at_xy 2 (-2)) (at_xy 2 (-2)) /\ apart_side (floor one) (@box1 R _) (at_xy 2 (-2)) (po_radius (@box1 R _) + ed_radius (floor one))%R.
Proof. exact hung_far. Qed.
Example C97_behind_ex : apt (floor true) xf_id (@box1 R _) (at_xy 2 1) (at_xy 2 1) /\ behind (floor true) (@box1 R _) (at_xy 2 1).
Proof. exact hung_behind. Qed.

(** ** C98 what the points are *)
Theorem C98_points : forall (m : manifold R) (e : edge R) (xa : xform R) (po : polygon R) (xb xf : xform R), apt e xa po xb xf -> length (mf_points m) = 2%nat ->
  forall m', b2_collide_edge_and_polygon m e xa po xb = Ok m' -> (0 < mf_count m')%nat ->
  ~ apart_side e po xf (po_radius po + ed_radius e)%R /\ ~ apart_face e po xf (po_radius po + ed_radius e)%R /\
  ((mf_type m' = MFaceA /\ points_on_side e po xf (po_radius po + ed_radius e)%R m') \/ (mf_type m' = MFaceB /\ points_on_face e po xf (po_radius po + ed_radius e)%R m')).
Proof. exact edge_polygon_points. Qed.
Print Assumptions C98_points.
Example C98_ex : forall one : bool, apt (floor one) xf_id (@box1 R _) hung hung /\ length (mf_points (@mf0 R _)) = 2%nat /\
  exists m', b2_collide_edge_and_polygon mf0 (floor one) xf_id (@box1 R _) hung = Ok m' /\ (0 < mf_count m')%nat /\ mf_type m' = MFaceA /\ right_of (floor one) (V2 0 (-1))%R /\ mostly_front (floor one) (@box1 R _) hung (V2 0 (-1))%R.
Proof. exact hung_ex. Qed.

(** ** C99 when there is no point *)
(* what is missing: the function can give no point for an edge inside the polygon (C99_overlap_refuted); then one of the last three cases holds *)
Theorem C99_missed_partial : forall (m : manifold R) (e : edge R) (xa : xform R) (po : polygon R) (xb xf : xform R), apt e xa po xb xf -> length (mf_points m) = 2%nat ->
  forall m', b2_collide_edge_and_polygon m e xa po xb = Ok m' -> mf_count m' = 0%nat ->
  let r := (po_radius po + ed_radius e)%R in apart_side e po xf r \/ apart_face e po xf r \/ beside_side e po xf r \/ beside_face e po xf r \/ dropped e po xf r.
Proof. exact edge_polygon_missed. Qed.
Print Assumptions C99_missed_partial.
Theorem C99_overlap_refuted : exists (vs : list (vec2 f32)) (po : polygon f32) (e : edge f32) (m' : manifold f32),
  polygon_set polygon_default vs = Ok po /\ e = set_two_sided edge_default (V2 (nofZ 0) (nofZ 0)) (V2 (nofZ 1) (nofZ 0)) /\
  polygon_test_point po xf_id (ed_v1 e) = Ok true /\ polygon_test_point po xf_id (ed_v2 e) = Ok true /\ b2_collide_edge_and_polygon mf0 e xf_id po xf_id = Ok m' /\ mf_count m' = 0%nat.
Proof. exact bar_missed. Qed.
Print Assumptions C99_overlap_refuted.
Example C99_ex : forall one : bool, ~ apart_side (floor one) (@box1 R _) hung (1 / 50)%R /\ ~ apart_face (floor one) (@box1 R _) hung (1 / 50)%R /\
  ~ beside_side (floor one) (@box1 R _) hung (1 / 50)%R /\ ~ beside_face (floor one) (@box1 R _) hung (1 / 50)%R /\ ~ dropped (floor one) (@box1 R _) hung (1 / 50)%R.
Proof. exact hung_not. Qed.

(** ** C100 to which side a polygon is pushed *)
Theorem C100_front : forall (m : manifold R) (e : edge R) (xa : xform R) (po : polygon R) (xb xf : xform R), apt e xa po xb xf -> length (mf_points m) = 2%nat ->
  forall (m' : manifold R) (n : vec2 R), b2_collide_edge_and_polygon m e xa po xb = Ok m' -> (0 < mf_count m')%nat -> mf_type m' = MFaceA -> right_of e n -> mostly_front e po xf n -> mf_local_normal m' = n.
Proof. exact edge_polygon_front. Qed.
Print Assumptions C100_front.
(* a one-sided edge can push a polygon to the back although its centre is in front *)
Theorem C100_one_sided_refuted : exists (vs : list (vec2 f32)) (po : polygon f32) (e : edge f32) (m' : manifold f32), let n := V2 (vy (vsub (ed_v2 e) (ed_v1 e))) (nneg (vx (vsub (ed_v2 e) (ed_v1 e)))) in
  polygon_set polygon_default vs = Ok po /\ ed_one_sided e = true /\ nlt (nofZ 0) (b2_dot n (vsub (po_centroid po) (ed_v1 e))) = true /\
  b2_collide_edge_and_polygon mf0 e xf_id po xf_id = Ok m' /\ mf_count m' = 2%nat /\ mf_type m' = MFaceA /\ nlt (b2_dot n (mf_local_normal m')) (nofZ 0) = true.
Proof. exact plank_back. Qed.
Print Assumptions C100_one_sided_refuted.
Example C100_ex : apt (floor true) xf_id (@box1 R _) hung hung /\ length (mf_points (@mf0 R _)) = 2%nat /\
  exists m', b2_collide_edge_and_polygon mf0 (floor true) xf_id (@box1 R _) hung = Ok m' /\ (0 < mf_count m')%nat /\ mf_type m' = MFaceA /\ right_of (floor true) (V2 0 (-1))%R /\ mostly_front (floor true) (@box1 R _) hung (V2 0 (-1))%R.
Proof. exact (hung_ex true). Qed.
