(** What a manifold of a polygon and a circle or of two polygons should say, over exact reals. *)
From Coq Require Import ZArith Reals List.
From Verif Require Import Num Math Collision Manifold ShapeModel GeomSpec ShapeSpec HullSpec.
Import ListNotations.
Local Open Scope R_scope.

(* some point of the placed polygon is within r of c *)
Definition reaches (po : polygon R) (xf : xform R) (c : vec2 R) (r : R) : Prop :=
  exists p, in_polygon po xf p /\ dist2 c p <= r * r.
(* the point lies less than epsilon in front of every edge of the placed polygon *)
Definition grazes (po : polygon R) (xf : xform R) (c : vec2 R) : Prop :=
  exists a, c = place xf a /\
    forall i n v, (i < po_count po)%nat -> nth_error (po_normals po) i = Some n -> nth_error (po_vertices po) i = Some v ->
      dotp n (minus a v) < B2_EPSILON.
(* q is the point of the placed polygon nearest to c *)
Definition nearest_in (po : polygon R) (xf : xform R) (c q : vec2 R) : Prop :=
  in_polygon po xf q /\ forall p, in_polygon po xf p -> dist2 c q <= dist2 c p.
(* a vector of length d in the direction n *)
Definition scaled (d : R) (n : vec2 R) : vec2 R := V2 (d * vx n) (d * vy n).
(* the point of the segment from a to b nearest to c *)
Definition nearest_on (a b c q : vec2 R) : Prop := on_segment a b q /\ forall p, on_segment a b p -> dist2 c q <= dist2 c p.
Definition segment_reaches (a b c : vec2 R) (r : R) : Prop := exists p, on_segment a b p /\ dist2 c p <= r * r.
(* on the right of the line from a to b, or on it *)
Definition in_front (a b c : vec2 R) : Prop := turn a b c <= 0.
(* of the edge from a to b the end a is nearest to c, but the neighbour edge from a to g comes nearer *)
Definition hidden_by (a b g c : vec2 R) : Prop :=
  nearest_on a b c a /\ exists p, on_segment a g p /\ dist2 c p < dist2 c a.

(** ** faces and corners of placed polygons *)
(* face i of the placed polygon: outward normal n, from corner p to corner p' *)
Definition face (po : polygon R) (xf : xform R) (i : nat) (n p p' : vec2 R) : Prop :=
  (i < po_count po)%nat /\ exists m a b, nth_error (po_normals po) i = Some m /\ nth_error (po_vertices po) i = Some a /\
    nth_error (po_vertices po) (after (po_count po) i) = Some b /\ n = turned (xq xf) m /\ p = place xf a /\ p' = place xf b.
Definition corner (po : polygon R) (xf : xform R) (w : vec2 R) : Prop :=
  exists j v, (j < po_count po)%nat /\ nth_error (po_vertices po) j = Some v /\ w = place xf v.
(* the corner that lies deepest against the direction n *)
Definition deepest (po : polygon R) (xf : xform R) (n w : vec2 R) : Prop :=
  corner po xf w /\ forall w', corner po xf w' -> dotp n w <= dotp n w'.
(* all corners of the second polygon lie more than r in front of some face of the first *)
Definition apart (po1 : polygon R) (xf1 : xform R) (po2 : polygon R) (xf2 : xform R) (r : R) : Prop :=
  exists i n p p', face po1 xf1 i n p p' /\ forall w, corner po2 xf2 w -> r < dotp n (minus w p).
(* w lies strictly between the ends of the face from p to p', each moved outwards by r; t is the direction of the face *)
Definition face_dir (n : vec2 R) : vec2 R := V2 (- vy n) (vx n).
Definition over_face (n p p' : vec2 R) (r : R) (w : vec2 R) : Prop :=
  dotp (face_dir n) p - r < dotp (face_dir n) w < dotp (face_dir n) p' + r.
(* every edge is at least d long *)
Definition edges_long (po : polygon R) (d : R) : Prop :=
  forall i a b, (i < po_count po)%nat -> nth_error (po_vertices po) i = Some a -> nth_error (po_vertices po) (after (po_count po) i) = Some b -> d * d <= dist2 b a.
(* what the points of a manifold with reference face on the first polygon should be: points of one edge of the second
   polygon, at most r in front of the face and at most r beside it; the manifold has the face's normal and middle *)
Definition contact_points (po1 : polygon R) (xf1 : xform R) (po2 : polygon R) (xf2 : xform R) (r : R) (m : manifold R) : Prop :=
  exists k n p p' i n' q q', face po1 xf1 k n p p' /\ face po2 xf2 i n' q q' /\
    turned (xq xf1) (mf_local_normal m) = n /\ place xf1 (mf_local_point m) = along p p' (1 / 2) /\
    forall h, (h < mf_count m)%nat -> exists c, nth_error (mf_points m) h = Some c /\ let v := place xf2 (mp_local c) in
      on_segment q q' v /\ dotp n (minus v p) <= r /\ dotp (face_dir n) p - r <= dotp (face_dir n) v <= dotp (face_dir n) p' + r.
(* no face of the first polygon has all corners of the second one more than g in front of it (or the gap is beyond all numbers) *)
Definition no_better (po1 : polygon R) (xf1 : xform R) (po2 : polygon R) (xf2 : xform R) (g slack : R) : Prop :=
  forall i n p p', face po1 xf1 i n p p' -> exists w, corner po2 xf2 w /\ (dotp n (minus w p) <= g + slack \/ dotp n (minus w p) <= - B2_MAX_FLOAT + slack).
(* the deepest corner of the second polygon against a face of least overlap of the first lies beside that face *)
Definition beside (po1 : polygon R) (xf1 : xform R) (po2 : polygon R) (xf2 : xform R) (r slack : R) : Prop :=
  exists k n p p' w, face po1 xf1 k n p p' /\ deepest po2 xf2 n w /\ ~ over_face n p p' r w /\
    no_better po1 xf1 po2 xf2 (dotp n (minus w p)) slack /\ no_better po2 xf2 po1 xf1 (dotp n (minus w p)) slack.
