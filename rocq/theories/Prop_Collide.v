(** Property theorems about the manifolds of circles, edges and polygons, over exact reals (the refutation: f32). *)
From Coq Require Import ZArith Reals Lra Lia Bool List Arith.
From Verif Require Import Base Num Math Collision Manifold ShapeModel CollideModel MathSpec GeomSpec ShapeSpec HullSpec CollideSpec ShapeExamples PolyCircle EdgeCircle PolyPoly CollideExamples.
Import ListNotations.

(** ** C68 polygon and circle *)
Theorem C68_touch : forall po : polygon R, proper po -> forall xf : xform R, unit_rot (xq xf) -> forall (m : manifold R) (ci : circle R) (xf_b : xform R),
  length (mf_points m) = 2%nat -> (0 <= po_radius po + ci_radius ci)%R ->
  exists m', b2_collide_polygon_and_circle m po xf ci xf_b = Ok m' /\ (mf_count m' = 0%nat \/ mf_count m' = 1%nat) /\
    (reaches po xf (place xf_b (ci_p ci)) (po_radius po + ci_radius ci) -> mf_count m' = 1%nat) /\
    (mf_count m' = 1%nat -> reaches po xf (place xf_b (ci_p ci)) (po_radius po + ci_radius ci) \/ grazes po xf (place xf_b (ci_p ci))).
Proof. exact circle_touch. Qed.
Print Assumptions C68_touch.
Theorem C68_nearest : forall po : polygon R, proper po -> forall xf : xform R, unit_rot (xq xf) -> forall (m : manifold R) (ci : circle R) (xf_b : xform R),
  length (mf_points m) = 2%nat -> (0 <= po_radius po + ci_radius ci)%R ->
  forall m', b2_collide_polygon_and_circle m po xf ci xf_b = Ok m' -> mf_count m' = 1%nat -> ~ grazes po xf (place xf_b (ci_p ci)) ->
  let n := turned (xq xf) (mf_local_normal m') in
  exists q d, nearest_in po xf (place xf_b (ci_p ci)) q /\ minus (place xf_b (ci_p ci)) q = scaled d n /\ unit_vec n /\
    (B2_EPSILON <= d <= po_radius po + ci_radius ci)%R /\ dotp n (minus (place xf_b (ci_p ci)) (place xf (mf_local_point m'))) = d.
Proof. exact circle_nearest. Qed.
Print Assumptions C68_nearest.
Theorem C68_deep : forall po : polygon R, proper po -> forall xf : xform R, unit_rot (xq xf) -> forall (m : manifold R) (ci : circle R) (xf_b : xform R),
  length (mf_points m) = 2%nat -> (0 <= po_radius po + ci_radius ci)%R ->
  forall m', b2_collide_polygon_and_circle m po xf ci xf_b = Ok m' -> in_polygon po xf (place xf_b (ci_p ci)) ->
  (exists p, ~ in_polygon po xf p /\ (dist2 (place xf_b (ci_p ci)) p < B2_MAX_FLOAT * B2_MAX_FLOAT)%R) ->
  let n := turned (xq xf) (mf_local_normal m') in
  exists d, (0 <= d)%R /\ unit_vec n /\ dotp n (minus (place xf_b (ci_p ci)) (place xf (mf_local_point m'))) = (- d)%R /\ mf_count m' = 1%nat /\
    (forall p, (dist2 (place xf_b (ci_p ci)) p < d * d)%R -> in_polygon po xf p) /\
    (forall e, (d < e)%R -> ~ in_polygon po xf (V2 (vx (place xf_b (ci_p ci)) + e * vx n) (vy (place xf_b (ci_p ci)) + e * vy n))%R).
Proof. exact circle_deep. Qed.
Print Assumptions C68_deep.
Theorem C68_point : forall po : polygon R, proper po -> forall (xf : xform R) (m : manifold R) (ci : circle R) (xf_b : xform R),
  length (mf_points m) = 2%nat -> (0 <= po_radius po + ci_radius ci)%R ->
  forall m', b2_collide_polygon_and_circle m po xf ci xf_b = Ok m' -> mf_count m' = 1%nat ->
  mf_type m' = MFaceA /\ exists p, nth_error (mf_points m') 0 = Some p /\ mp_local p = ci_p ci.
Proof. exact circle_point. Qed.
Print Assumptions C68_point.
Example C68_ex : proper (@box1 R _) /\ unit_rot (xq (@xf_id R _)) /\ length (mf_points (@mf0 R _)) = 2%nat /\ (0 <= po_radius (@box1 R _) + ci_radius (ball 1 (3/2) 0))%R /\
  reaches box1 xf_id (place xf_id (ci_p (ball 1 (3/2) 0))) (po_radius (@box1 R _) + ci_radius (ball 1 (3/2) 0)) /\ ~ grazes box1 xf_id (place xf_id (ci_p (ball 1 (3/2) 0))).
Proof. exact circle_ex. Qed.
Example C68_deep_ex : proper (@box1 R _) /\ in_polygon (@box1 R _) xf_id (place xf_id (ci_p (ball 1 (1/2) 0))) /\
  (exists p, ~ in_polygon box1 xf_id p /\ (dist2 (place xf_id (ci_p (ball 1 (1/2) 0))) p < B2_MAX_FLOAT * B2_MAX_FLOAT)%R).
Proof. exact deep_ex. Qed.

(** ** C69 edge and circle *)
Theorem C69_touch : forall xf : xform R, unit_rot (xq xf) -> forall (m : manifold R) (ed : edge R) (ci : circle R) (xf_b : xform R), length (mf_points m) = 2%nat ->
  let a := place xf (ed_v1 ed) in let b := place xf (ed_v2 ed) in let v0 := place xf (ed_v0 ed) in let v3 := place xf (ed_v3 ed) in
  let c := place xf_b (ci_p ci) in let r := (ed_radius ed + ci_radius ci)%R in
  exists m', b2_collide_edge_and_circle m ed xf ci xf_b = Ok m' /\ (mf_count m' = 0%nat \/ mf_count m' = 1%nat) /\
    (mf_count m' = 1%nat -> segment_reaches a b c r) /\
    (mf_count m' = 1%nat -> ed_one_sided ed = true -> in_front a b c /\ ~ hidden_by a b v0 c /\ (ed_v1 ed <> ed_v2 ed -> ~ hidden_by b a v3 c)) /\
    (segment_reaches a b c r -> (ed_one_sided ed = true -> in_front a b c /\ ~ hidden_by a b v0 c /\ ~ hidden_by b a v3 c) -> mf_count m' = 1%nat).
Proof. exact edge_touch. Qed.
Print Assumptions C69_touch.
Theorem C69_manifold : forall xf : xform R, unit_rot (xq xf) -> forall (m : manifold R) (ed : edge R) (ci : circle R) (xf_b : xform R), length (mf_points m) = 2%nat ->
  let a := place xf (ed_v1 ed) in let b := place xf (ed_v2 ed) in let c := place xf_b (ci_p ci) in let r := (ed_radius ed + ci_radius ci)%R in
  forall m', b2_collide_edge_and_circle m ed xf ci xf_b = Ok m' -> mf_count m' = 1%nat ->
  (exists p, nth_error (mf_points m') 0 = Some p /\ mp_local p = ci_p ci) /\
  exists q, nearest_on a b c q /\ (dist2 c q <= r * r)%R /\
    ((mf_type m' = MCircles /\ q = place xf (mf_local_point m') /\ (q = a \/ q = b)) \/
     (mf_type m' = MFaceA /\ place xf (mf_local_point m') = a /\
      ((B2_EPSILON <= sqrt (dist2 b a))%R -> let n := turned (xq xf) (mf_local_normal m') in
         unit_vec n /\ dotp n (minus b a) = 0%R /\ exists d, (0 <= d)%R /\ minus c q = scaled d n))).
Proof. exact edge_manifold. Qed.
Print Assumptions C69_manifold.
Theorem C69_loop : forall xf : xform R, unit_rot (xq xf) -> forall (c0 ch : chain R) (vs : list (vec2 R)) (m : manifold R) (ci : circle R) (xf_b : xform R) (i : nat) (e : edge R),
  create_loop c0 vs = Ok ch -> length (mf_points m) = 2%nat -> get_child_edge ch i = Ok e ->
  let c := place xf_b (ci_p ci) in
  (exists q, on_segment (place xf (ed_v1 e)) (place xf (ed_v2 e)) q /\
     (forall j e' p, get_child_edge ch j = Ok e' -> on_segment (place xf (ed_v1 e')) (place xf (ed_v2 e')) p -> (dist2 c q <= dist2 c p)%R) /\
     (dist2 c q <= (ch_radius ch + ci_radius ci) * (ch_radius ch + ci_radius ci))%R) ->
  in_front (place xf (ed_v1 e)) (place xf (ed_v2 e)) c ->
  exists m', b2_collide_edge_and_circle m e xf ci xf_b = Ok m' /\ mf_count m' = 1%nat.
Proof. exact loop_contact. Qed.
Print Assumptions C69_loop.
Example C69_ex : forall one : bool, length (mf_points (@mf0 R _)) = 2%nat /\ unit_rot (xq (@xf_id R _)) /\
  let c := place xf_id (ci_p (ball 1 1 (-1/2))) in let e := ground one in
  segment_reaches (place xf_id (ed_v1 e)) (place xf_id (ed_v2 e)) c (ed_radius e + 1) /\
  in_front (place xf_id (ed_v1 e)) (place xf_id (ed_v2 e)) c /\
  ~ hidden_by (place xf_id (ed_v1 e)) (place xf_id (ed_v2 e)) (place xf_id (ed_v0 e)) c /\
  ~ hidden_by (place xf_id (ed_v2 e)) (place xf_id (ed_v1 e)) (place xf_id (ed_v3 e)) c.
Proof. exact edge_ex. Qed.
Example C69_loop_ex : create_loop chain1 fence = Ok fenced /\ length (mf_points (@mf0 R _)) = 2%nat /\ exists e, get_child_edge fenced 0 = Ok e /\
  let c := place xf_id (ci_p (ball 1 1 (-1/2))) in
  (exists q, on_segment (place xf_id (ed_v1 e)) (place xf_id (ed_v2 e)) q /\
     (forall j e' p, get_child_edge fenced j = Ok e' -> on_segment (place xf_id (ed_v1 e')) (place xf_id (ed_v2 e')) p -> (dist2 c q <= dist2 c p)%R) /\
     (dist2 c q <= (ch_radius fenced + ci_radius (ball 1 1 (-1/2))) * (ch_radius fenced + ci_radius (ball 1 1 (-1/2))))%R) /\
  in_front (place xf_id (ed_v1 e)) (place xf_id (ed_v2 e)) c.
Proof. exact loop_ex. Qed.

(** ** C70 two polygons *)
Theorem C70_returns : forall (m : manifold R) (a b : polygon R) (xa xb : xform R), proper a -> proper b -> unit_rot (xq xa) -> unit_rot (xq xb) ->
  edges_long a B2_EPSILON -> edges_long b B2_EPSILON -> length (mf_points m) = 2%nat -> (0 <= po_radius a + po_radius b < B2_MAX_FLOAT)%R ->
  exists m', b2_collide_polygons m a xa b xb = Ok m' /\ (mf_count m' <= 2)%nat /\
    (apart a xa b xb (po_radius a + po_radius b) \/ apart b xb a xa (po_radius a + po_radius b) -> mf_count m' = 0%nat).
Proof. exact polygons_return. Qed.
Print Assumptions C70_returns.
Theorem C70_apart_far : forall (p1 p2 : polygon R) (x1 x2 : xform R) (r : R) (u v : vec2 R), proper p1 -> proper p2 -> unit_rot (xq x1) -> unit_rot (xq x2) -> (0 <= r)%R ->
  apart p1 x1 p2 x2 r -> in_polygon p1 x1 u -> in_polygon p2 x2 v -> (r * r < dist2 u v)%R.
Proof. exact apart_far. Qed.
Print Assumptions C70_apart_far.
Theorem C70_points : forall (m : manifold R) (a b : polygon R) (xa xb : xform R), proper a -> proper b -> unit_rot (xq xa) -> unit_rot (xq xb) ->
  edges_long a B2_EPSILON -> edges_long b B2_EPSILON -> length (mf_points m) = 2%nat -> (0 <= po_radius a + po_radius b < B2_MAX_FLOAT)%R ->
  forall m', b2_collide_polygons m a xa b xb = Ok m' -> (0 < mf_count m')%nat ->
  ~ apart a xa b xb (po_radius a + po_radius b) /\ ~ apart b xb a xa (po_radius a + po_radius b) /\
  ((mf_type m' = MFaceA /\ contact_points a xa b xb (po_radius a + po_radius b) m') \/
   (mf_type m' = MFaceB /\ contact_points b xb a xa (po_radius a + po_radius b) m')).
Proof. exact polygons_points. Qed.
Print Assumptions C70_points.
(* what is missing: the function can give no point for polygons that overlap (C70_overlap_refuted); then one of the last two cases holds *)
Theorem C70_missed_partial : forall (m : manifold R) (a b : polygon R) (xa xb : xform R), proper a -> proper b -> unit_rot (xq xa) -> unit_rot (xq xb) ->
  edges_long a B2_EPSILON -> edges_long b B2_EPSILON -> length (mf_points m) = 2%nat -> (0 <= po_radius a + po_radius b < B2_MAX_FLOAT)%R ->
  forall m', b2_collide_polygons m a xa b xb = Ok m' -> mf_count m' = 0%nat ->
  apart a xa b xb (po_radius a + po_radius b) \/ apart b xb a xa (po_radius a + po_radius b) \/
  beside a xa b xb (po_radius a + po_radius b) (1 / 10 * B2_LINEAR_SLOP) \/ beside b xb a xa (po_radius a + po_radius b) (1 / 10 * B2_LINEAR_SLOP).
Proof. exact polygons_missed. Qed.
Print Assumptions C70_missed_partial.
Theorem C70_overlap_refuted : exists (vs : list (vec2 f32)) (a b : polygon f32) (p : vec2 f32) (m' : manifold f32),
  a = set_as_box polygon_default (nofZ 1) (nofZ 1) /\ polygon_set a vs = Ok b /\
  polygon_test_point a xf_id p = Ok true /\ polygon_test_point b xf_id p = Ok true /\
  b2_collide_polygons mf0 a xf_id b xf_id = Ok m' /\ mf_count m' = 0%nat.
Proof. exact overlap_missed. Qed.
Print Assumptions C70_overlap_refuted.
Theorem C70_edges_long : (forall (self : polygon R) (vs : list (vec2 R)) (po : polygon R), polygon_set self vs = Ok po -> edges_long po B2_EPSILON) /\
  (forall (self : polygon R) (hx hy : R), (0 < hx)%R -> (0 < hy)%R -> (B2_EPSILON <= 2 * hx)%R -> (B2_EPSILON <= 2 * hy)%R -> edges_long (set_as_box self hx hy) B2_EPSILON).
Proof. exact (conj set_long box_long). Qed.
Print Assumptions C70_edges_long.
Example C70_ex : forall x : R, proper (@box1 R _) /\ unit_rot (xq xf_id) /\ unit_rot (xq (at_x x)) /\ edges_long (@box1 R _) B2_EPSILON /\ length (mf_points (@mf0 R _)) = 2%nat /\
  (0 <= po_radius (@box1 R _) + po_radius (@box1 R _) < B2_MAX_FLOAT)%R.
Proof. exact boxes_ex. Qed.
Example C70_apart_ex : apart (@box1 R _) xf_id (@box1 R _) (at_x 3) (po_radius (@box1 R _) + po_radius (@box1 R _))%R.
Proof. exact boxes_apart_ex. Qed.
