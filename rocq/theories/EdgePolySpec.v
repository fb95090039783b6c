(** What a manifold of an edge and a polygon should say, over exact reals. Everything is seen from the edge: [xf] is where the polygon is in the frame of the edge. *)
From Coq Require Import ZArith Reals List.
From Verif Require Import Num Math Collision Manifold ShapeModel MathSpec GeomSpec ShapeSpec HullSpec CollideSpec.
Import ListNotations.
Local Open Scope R_scope.

Definition seen (xa xb xf : xform R) : Prop := unit_rot (xq xf) /\ forall v, place xa (place xf v) = place xb v.
Definition opposite (n : vec2 R) : vec2 R := V2 (- vx n) (- vy n).
(* the unit normal on the right of the edge; the two sides *)
Definition right_along (a b n : vec2 R) : Prop := unit_vec n /\ exists k, 0 < k /\ vx b - vx a = - k * vy n /\ vy b - vy a = k * vx n.
Definition right_of (e : edge R) (n : vec2 R) : Prop := right_along (ed_v1 e) (ed_v2 e) n.
Definition side_of (e : edge R) (n : vec2 R) : Prop := right_of e n \/ right_of e (opposite n).
(* the polygon is more than r away on one side of the line of the edge *)
Definition apart_side (e : edge R) (po : polygon R) (xf : xform R) (r : R) : Prop :=
  exists n, side_of e n /\ forall w, corner po xf w -> r < dotp n (minus w (ed_v1 e)).
(* both ends of the edge are more than r in front of a face of the polygon *)
Definition apart_face (e : edge R) (po : polygon R) (xf : xform R) (r : R) : Prop :=
  exists i n p p', face po xf i n p p' /\ r < dotp n (minus (ed_v1 e) p) /\ r < dotp n (minus (ed_v2 e) p).
(* the polygon is nearer than the greatest number *)
Definition within_numbers (e : edge R) (po : polygon R) (xf : xform R) : Prop :=
  forall w, corner po xf w -> dist2 w (ed_v1 e) < B2_MAX_FLOAT * B2_MAX_FLOAT /\ dist2 w (ed_v2 e) < B2_MAX_FLOAT * B2_MAX_FLOAT.
Definition over_edge (e : edge R) (w : vec2 R) : Prop :=
  let d := minus (ed_v2 e) (ed_v1 e) in dotp d (ed_v1 e) < dotp d w < dotp d (ed_v2 e).
Definition in_strip (d a b w : vec2 R) : Prop := dotp d a <= dotp d w <= dotp d b.
(* the end of the edge that is deepest against the direction n *)
Definition deep_end (e : edge R) (n w : vec2 R) : Prop := (w = ed_v1 e \/ w = ed_v2 e) /\ dotp n w <= dotp n (ed_v1 e) /\ dotp n w <= dotp n (ed_v2 e).
(* a face is only preferred to a side if its gap is better than this *)
Definition preferred (r g : R) : R := r + 98 / 100 * (g - r) + 1 / 1000.

(* the side n of the edge, with the deepest corner w against it, is no worse than the other side *)
Definition best_side (e : edge R) (po : polygon R) (xf : xform R) (n w : vec2 R) : Prop :=
  side_of e n /\ deepest po xf n w /\
  forall n', side_of e n' -> exists w', corner po xf w' /\ dotp n' (minus w' (ed_v1 e)) <= dotp n (minus w (ed_v1 e)).

(* no face is preferred to it *)
Definition face_worse (e : edge R) (po : polygon R) (xf : xform R) (r : R) (n w : vec2 R) : Prop :=
  forall i n' p p', face po xf i n' p p' -> Rmin (dotp n' (minus (ed_v1 e) p)) (dotp n' (minus (ed_v2 e) p)) <= preferred r (dotp n (minus w (ed_v1 e))).
(* face i, with the deepest end w of the edge against it, is no worse than the other faces and better than both sides *)
Definition best_face (e : edge R) (po : polygon R) (xf : xform R) (r : R) (i : nat) (n p p' w : vec2 R) : Prop :=
  face po xf i n p p' /\ deep_end e n w /\
  (forall j n' q q', face po xf j n' q q' -> Rmin (dotp n' (minus (ed_v1 e) q)) (dotp n' (minus (ed_v2 e) q)) <= dotp n (minus w p)) /\
  forall n', side_of e n' -> exists w', corner po xf w' /\ preferred r (dotp n' (minus w' (ed_v1 e))) < dotp n (minus w p).

(* the points when the edge is the reference: points of one edge of the polygon, at most r in front of a side of the edge and between its ends *)
Definition points_on_side (e : edge R) (po : polygon R) (xf : xform R) (r : R) (m : manifold R) : Prop :=
  exists n w i n' q q', best_side e po xf n w /\ face po xf i n' q q' /\ mf_local_normal m = n /\ mf_local_point m = ed_v1 e /\
    forall h, (h < mf_count m)%nat -> exists c, nth_error (mf_points m) h = Some c /\ let v := place xf (mp_local c) in
      on_segment q q' v /\ dotp n (minus v (ed_v1 e)) <= r /\ in_strip (minus (ed_v2 e) (ed_v1 e)) (ed_v1 e) (ed_v2 e) v.
(* the points when a face of the polygon is the reference: points of the edge, at most r in front of the face and between its ends *)
Definition points_on_face (e : edge R) (po : polygon R) (xf : xform R) (r : R) (m : manifold R) : Prop :=
  exists i n p p' w, best_face e po xf r i n p p' w /\ turned (xq xf) (mf_local_normal m) = n /\ place xf (mf_local_point m) = p /\
    forall h, (h < mf_count m)%nat -> exists c, nth_error (mf_points m) h = Some c /\ let v := mp_local c in
      on_segment (ed_v1 e) (ed_v2 e) v /\ dotp n (minus v p) <= r /\ in_strip (face_dir n) p p' v.

(* the deepest corner against the chosen side lies beside the edge *)
Definition side_missed (e : edge R) (po : polygon R) (xf : xform R) (n w : vec2 R) : Prop :=
  best_side e po xf n w /\ ~ over_edge e w.
Definition beside_side (e : edge R) (po : polygon R) (xf : xform R) (r : R) : Prop :=
  exists n w, side_missed e po xf n w /\ face_worse e po xf r n w.
(* the deepest end of the edge against the chosen face lies beside the face *)
Definition beside_face (e : edge R) (po : polygon R) (xf : xform R) (r : R) : Prop :=
  exists i n p p' w, best_face e po xf r i n p p' w /\ ~ (dotp (face_dir n) p < dotp (face_dir n) w < dotp (face_dir n) p').

(** one-sided edges: the neighbours are v0 and v3 *)
Definition behind (e : edge R) (po : polygon R) (xf : xform R) : Prop := exists n, right_of e n /\ dotp n (minus (place xf (po_centroid po)) (ed_v1 e)) < 0.
(* the direction of contact: the better side, or against a face that is preferred to it *)
Definition direction_of (e : edge R) (po : polygon R) (xf : xform R) (r : R) (n : vec2 R) : Prop :=
  (exists w, best_side e po xf n w /\ face_worse e po xf r n w) \/ exists i f p p' w, best_face e po xf r i f p p' w /\ n = opposite f.
Definition crossp (a b : vec2 R) : R := vx a * vy b - vy a * vx b.
(* the direction belongs to a neighbour across a convex corner *)
Definition of_neighbour (e : edge R) (n : vec2 R) : Prop :=
  let d := minus (ed_v2 e) (ed_v1 e) in
  (dotp n d <= 0 /\ 0 <= crossp (minus (ed_v1 e) (ed_v0 e)) d /\ exists m, right_along (ed_v0 e) (ed_v1 e) m /\ 1 / 10 < crossp n m) \/
  (0 < dotp n d /\ 0 <= crossp d (minus (ed_v3 e) (ed_v2 e)) /\ exists m, right_along (ed_v2 e) (ed_v3 e) m /\ 1 / 10 < crossp m n).
(* what is asked of the edge and the polygon: the edge and its neighbours are not too short, the polygon is proper and not beyond all numbers *)
Definition long_neighbours (e : edge R) : Prop := ed_one_sided e = true -> B2_EPSILON * B2_EPSILON <= dist2 (ed_v1 e) (ed_v0 e) /\ B2_EPSILON * B2_EPSILON <= dist2 (ed_v3 e) (ed_v2 e).
Definition apt (e : edge R) (xa : xform R) (po : polygon R) (xb xf : xform R) : Prop :=
  unit_rot (xq xa) /\ unit_rot (xq xb) /\ seen xa xb xf /\ proper po /\ B2_EPSILON * B2_EPSILON <= dist2 (ed_v2 e) (ed_v1 e) /\ long_neighbours e /\ within_numbers e po xf.
(* reasons why a one-sided edge drops a polygon *)
Definition dropped (e : edge R) (po : polygon R) (xf : xform R) (r : R) : Prop :=
  ed_one_sided e = true /\ (behind e po xf \/ (exists n, direction_of e po xf r n /\ of_neighbour e n) \/ exists n w, side_missed e po xf n w).
(* the polygon reaches further in front of the edge than behind it *)
Definition mostly_front (e : edge R) (po : polygon R) (xf : xform R) (n : vec2 R) : Prop :=
  exists h, corner po xf h /\ forall w, corner po xf w -> - dotp n (minus w (ed_v1 e)) < dotp n (minus h (ed_v1 e)).
