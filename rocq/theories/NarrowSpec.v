(** When two placed shapes of a world surely meet, and when they are surely clear of each other. *)
From Coq Require Import List ZArith Bool Arith Reals.
From Verif Require Import Base Num Math Collision Manifold Filter MathSpec GeomSpec ShapeModel ShapeSpec HullSpec CollideSpec EdgePolySpec TreeModel BroadModel DynModel WorldModel WorldClaims WorldCalls CoverSpec PairSpec.
Import ListNotations.
Local Open Scope R_scope.

(* the fixture [f] is on body [i], has the shape, no sensor, and the body is enabled and placed at [xf] *)
Definition stands (w : WorldModel.world R) (f i : nat) (s : shape R) (xf : xform R) : Prop :=
  exists x b, w_fixtures w f = Some x /\ f_body x = Some i /\ w_bodies w i = Some b /\ f_shape x = s /\ b_xf b = xf /\ is_enabled b = true /\ f_sensor x = false.

(* the same, whether it is a sensor or not *)
Definition sits (w : WorldModel.world R) (f i : nat) (s : shape R) (xf : xform R) : Prop :=
  exists x b, w_fixtures w f = Some x /\ f_body x = Some i /\ w_bodies w i = Some b /\ f_shape x = s /\ b_xf b = xf /\ is_enabled b = true.

(* the one-sided edge faces the point, and no neighbour of the edge is nearer *)
Definition facing (xf : xform R) (e : edge R) (c : vec2 R) : Prop :=
  let a := place xf (ed_v1 e) in let b := place xf (ed_v2 e) in
  ed_one_sided e = true -> in_front a b c /\ ~ hidden_by a b (place xf (ed_v0 e)) c /\ ~ hidden_by b a (place xf (ed_v3 e)) c.
(* the edge and the polygon have the point p in common, and none of the cases of C99, where the narrow phase fails *)
Definition share (e : edge R) (xa : xform R) (po : polygon R) (xb xf : xform R) (p : vec2 R) : Prop :=
  let r := po_radius po + ed_radius e in
  apt e xa po xb xf /\ 0 <= ed_radius e /\ 0 <= po_radius po /\ on_segment (place xa (ed_v1 e)) (place xa (ed_v2 e)) p /\ in_polygon po xb p /\
  ~ beside_side e po xf r /\ ~ beside_face e po xf r /\ ~ dropped e po xf r.
(* they are further apart than the radii, or the polygon is behind the edge *)
Definition apart_edge (e : edge R) (xa : xform R) (po : polygon R) (xb xf : xform R) : Prop :=
  let r := po_radius po + ed_radius e in
  apt e xa po xb xf /\ (apart_side e po xf r \/ apart_face e po xf r \/ (ed_one_sided e = true /\ behind e po xf)).
(* child [k] of the first shape and child [l] of the second, where the transforms put them, meet *)
Inductive meets : shape R -> nat -> xform R -> shape R -> nat -> xform R -> Prop :=
| meets_circles a xa b xb : 0 <= ci_radius a -> 0 <= ci_radius b -> sqrt (dist2 (place xa (ci_p a)) (place xb (ci_p b))) <= ci_radius a + ci_radius b ->
    meets (ShCircle a) 0 xa (ShCircle b) 0 xb
| meets_polygon_circle a xa b xb : proper a -> 0 <= po_radius a -> 0 <= ci_radius b -> reaches a xa (place xb (ci_p b)) (po_radius a + ci_radius b) ->
    meets (ShPolygon a) 0 xa (ShCircle b) 0 xb
| meets_edge_circle e xa b xb : 0 <= ed_radius e -> 0 <= ci_radius b -> segment_reaches (place xa (ed_v1 e)) (place xa (ed_v2 e)) (place xb (ci_p b)) (ed_radius e + ci_radius b) ->
    facing xa e (place xb (ci_p b)) -> meets (ShEdge e) 0 xa (ShCircle b) 0 xb
| meets_chain_circle ch k e xa b xb : get_child_edge ch k = Ok e -> 0 <= ed_radius e -> 0 <= ci_radius b ->
    segment_reaches (place xa (ed_v1 e)) (place xa (ed_v2 e)) (place xb (ci_p b)) (ed_radius e + ci_radius b) ->
    facing xa e (place xb (ci_p b)) -> meets (ShChain ch) k xa (ShCircle b) 0 xb
| meets_polygons a xa b xb p : proper a -> proper b -> edges_long a B2_EPSILON -> edges_long b B2_EPSILON -> 0 <= po_radius a -> 0 <= po_radius b -> po_radius a + po_radius b < B2_MAX_FLOAT ->
    in_polygon a xa p -> in_polygon b xb p ->
    (* the case where the narrow phase fails, C70 *)
    ~ beside a xa b xb (po_radius a + po_radius b) (1 / 10 * B2_LINEAR_SLOP) -> ~ beside b xb a xa (po_radius a + po_radius b) (1 / 10 * B2_LINEAR_SLOP) ->
    meets (ShPolygon a) 0 xa (ShPolygon b) 0 xb
| meets_edge_polygon e xa b xb xf p : share e xa b xb xf p -> meets (ShEdge e) 0 xa (ShPolygon b) 0 xb
| meets_chain_polygon ch k e xa b xb xf p : get_child_edge ch k = Ok e -> share e xa b xb xf p -> meets (ShChain ch) k xa (ShPolygon b) 0 xb.
Inductive clear : shape R -> nat -> xform R -> shape R -> nat -> xform R -> Prop :=
| clear_circles a xa b xb : 0 <= ci_radius a -> 0 <= ci_radius b -> ci_radius a + ci_radius b < sqrt (dist2 (place xa (ci_p a)) (place xb (ci_p b))) ->
    clear (ShCircle a) 0 xa (ShCircle b) 0 xb
| clear_polygon_circle a xa b xb : proper a -> 0 <= po_radius a + ci_radius b -> ~ reaches a xa (place xb (ci_p b)) (po_radius a + ci_radius b) -> ~ grazes a xa (place xb (ci_p b)) ->
    clear (ShPolygon a) 0 xa (ShCircle b) 0 xb
| clear_edge_circle e xa b xb : ~ segment_reaches (place xa (ed_v1 e)) (place xa (ed_v2 e)) (place xb (ci_p b)) (ed_radius e + ci_radius b) ->
    clear (ShEdge e) 0 xa (ShCircle b) 0 xb
| clear_chain_circle ch k e xa b xb : get_child_edge ch k = Ok e -> ~ segment_reaches (place xa (ed_v1 e)) (place xa (ed_v2 e)) (place xb (ci_p b)) (ed_radius e + ci_radius b) ->
    clear (ShChain ch) k xa (ShCircle b) 0 xb
| clear_polygons a xa b xb : proper a -> proper b -> edges_long a B2_EPSILON -> edges_long b B2_EPSILON -> 0 <= po_radius a + po_radius b < B2_MAX_FLOAT ->
    apart a xa b xb (po_radius a + po_radius b) \/ apart b xb a xa (po_radius a + po_radius b) ->
    clear (ShPolygon a) 0 xa (ShPolygon b) 0 xb
| clear_edge_polygon e xa b xb xf : apart_edge e xa b xb xf -> clear (ShEdge e) 0 xa (ShPolygon b) 0 xb
| clear_chain_polygon ch k e xa b xb xf : get_child_edge ch k = Ok e -> apart_edge e xa b xb xf -> clear (ShChain ch) k xa (ShPolygon b) 0 xb.

(* the contact is for the two children, in either order *)
Definition between (x : contact R) (f k g l : nat) : Prop := pair_key x = ((f, k), (g, l)) \/ pair_key x = ((g, l), (f, k)).
(* the search for pairs is up to date: it is about to run, or it ran at the end of the last step *)
Definition pairs_due (E : env R) (w : WorldModel.world R) : Prop :=
  w_new_contacts w = true \/ exists v dt, preach E v /\ w_step_complete v = true /\ 0 < dt /\ wrun E (WStep dt) v = Ok w.
