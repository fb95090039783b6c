(** Small specification of convex polygons over exact reals, independent of the modelled functions. *)
From Coq Require Import ZArith Reals List Arith.
From Verif Require Import Num Math Collision ShapeModel GeomSpec ShapeSpec.
Import ListNotations.
Local Open Scope R_scope.

(* twice the signed area of the triangle a b c: positive when c lies to the left of the line from a to b *)
Definition turn (a b c : vec2 R) : R := (vx b - vx a) * (vy c - vy a) - (vy b - vy a) * (vx c - vx a).
(* the index after i on a ring of n *)
Definition after (n i : nat) : nat := if Nat.ltb (S i) n then S i else 0%nat.
(* a strictly convex polygon listed counter-clockwise: every other vertex lies strictly to the left of each edge *)
Definition convex_ccw (vs : list (vec2 R)) : Prop :=
  (3 <= length vs)%nat /\
  forall i j a b c, j <> i -> j <> after (length vs) i ->
    nth_error vs i = Some a -> nth_error vs (after (length vs) i) = Some b -> nth_error vs j = Some c -> 0 < turn a b c.
(* the closed polygon: to the left of, or on, every edge *)
Definition inside (vs : list (vec2 R)) (p : vec2 R) : Prop :=
  forall i a b, nth_error vs i = Some a -> nth_error vs (after (length vs) i) = Some b -> 0 <= turn a b p.
Definition collinear (ps : list (vec2 R)) : Prop :=
  forall a b c, In a ps -> In b ps -> In c ps -> turn a b c = 0.

(* no two of the points are closer than d *)
Definition spaced (d : R) (ps : list (vec2 R)) : Prop :=
  forall i j p q, i <> j -> nth_error ps i = Some p -> nth_error ps j = Some q -> d * d <= dist2 p q.
(* [ps] thins [vs] out: its points are points of [vs], they are spaced, and every point of [vs] is closer than d to one of them *)
Definition thinned (d : R) (vs ps : list (vec2 R)) : Prop :=
  incl ps vs /\ spaced d ps /\ (forall v, In v vs -> exists p, In p ps /\ dist2 v p < d * d).

(* the edges of a closed ring of points *)
Definition ring_edges (vs : list (vec2 R)) : list (vec2 R * vec2 R) := List.combine vs (tl vs ++ firstn 1 vs).
Definition cross2 (e : vec2 R * vec2 R) : R := vx (fst e) * vy (snd e) - vy (fst e) * vx (snd e).
Definition sum_of {A} (f : A -> R) (l : list A) : R := fold_right (fun a s => f a + s) 0 l.
(* signed area by the shoelace formula *)
Definition shoelace (vs : list (vec2 R)) : R := sum_of cross2 (ring_edges vs) / 2.
(* first and second moments of area about the origin by the same formula *)
Definition moment_x (vs : list (vec2 R)) : R := sum_of (fun e => cross2 e * (vx (fst e) + vx (snd e))) (ring_edges vs) / 6.
Definition moment_y (vs : list (vec2 R)) : R := sum_of (fun e => cross2 e * (vy (fst e) + vy (snd e))) (ring_edges vs) / 6.
Definition polar_moment (vs : list (vec2 R)) : R :=
  sum_of (fun e => cross2 e * (dotp (fst e) (fst e) + dotp (fst e) (snd e) + dotp (snd e) (snd e))) (ring_edges vs) / 12.

(* the normal stored for every edge has length one, is perpendicular to the edge, and points away from the polygon *)
Definition right_normals (vs ns : list (vec2 R)) : Prop :=
  length ns = length vs /\
  forall i a b n, nth_error vs i = Some a -> nth_error vs (after (length vs) i) = Some b -> nth_error ns i = Some n ->
    unit_vec n /\ dotp n (minus b a) = 0 /\ forall p, 0 < turn a b p <-> dotp n (minus p a) < 0.
Definition used_normals {T} (po : polygon T) : list (vec2 T) := firstn (po_count po) (po_normals po).
(* a polygon as the collision code expects it *)
Definition proper (po : polygon R) : Prop :=
  poly_sized po /\ convex_ccw (used_vertices po) /\ right_normals (used_vertices po) (used_normals po).
(* [hs] is the convex hull of [ps]: its vertices are points of [ps], it is strictly convex, and it holds every point of [ps] *)
Definition hull_of (ps hs : list (vec2 R)) : Prop :=
  convex_ccw hs /\ incl hs ps /\ forall p, In p ps -> inside hs p.
(* centre of area *)
Definition centroid_of (vs : list (vec2 R)) : vec2 R := V2 (moment_x vs / shoelace vs) (moment_y vs / shoelace vs).
(* strictly to the left of every edge *)
Definition strictly_inside (vs : list (vec2 R)) (p : vec2 R) : Prop :=
  forall i a b, nth_error vs i = Some a -> nth_error vs (after (length vs) i) = Some b -> 0 < turn a b p.
