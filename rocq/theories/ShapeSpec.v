(** Small specifications for shapes over exact reals, independent of the modelled functions. *)
From Coq Require Import ZArith Reals List.
From Verif Require Import Num Math Collision ShapeModel GeomSpec.
Import ListNotations.
Local Open Scope R_scope.

(* a local point carried to the world by a pose *)
Definition place (xf : xform R) (v : vec2 R) : vec2 R :=
  V2 (rc (xq xf) * vx v - rs (xq xf) * vy v + vx (xp xf)) (rs (xq xf) * vx v + rc (xq xf) * vy v + vy (xp xf)).
(* a direction turned by a rotation *)
Definition turned (q : rot R) (v : vec2 R) : vec2 R := V2 (rc q * vx v - rs q * vy v) (rs q * vx v + rc q * vy v).
Definition dotp (a b : vec2 R) : R := vx a * vx b + vy a * vy b.
Definition minus (a b : vec2 R) : vec2 R := V2 (vx a - vx b) (vy a - vy b).

(* weighted sum of points *)
Fixpoint comb (ws : list R) (vs : list (vec2 R)) : vec2 R :=
  match ws, vs with
  | w :: ws', v :: vs' => V2 (w * vx v + vx (comb ws' vs')) (w * vy v + vy (comb ws' vs'))
  | _, _ => V2 0 0
  end.
Definition sumR (ws : list R) : R := fold_right Rplus 0 ws.
(* convex hull of a list of points *)
Definition in_hull (vs : list (vec2 R)) (p : vec2 R) : Prop :=
  exists ws, length ws = length vs /\ (forall w, In w ws -> 0 <= w) /\ sumR ws = 1 /\ p = comb ws vs.
(* p is within distance r of the placed set *)
Definition near (xf : xform R) (s : vec2 R -> Prop) (r : R) (p : vec2 R) : Prop :=
  exists a, s a /\ dist2 p (place xf a) <= r * r.

(* the part of the arrays in use *)
Definition used_vertices {T} (po : polygon T) : list (vec2 T) := firstn (po_count po) (po_vertices po).
Definition poly_sized {T} (po : polygon T) : Prop :=
  (0 < po_count po)%nat /\ (po_count po <= length (po_vertices po))%nat /\ (po_count po <= length (po_normals po))%nat.
(* local point in the inner half plane of every edge *)
Definition inner (po : polygon R) (p : vec2 R) : Prop :=
  forall i n v, (i < po_count po)%nat -> nth_error (po_normals po) i = Some n -> nth_error (po_vertices po) i = Some v ->
    dotp n (minus p v) <= 0.
(* world point of the placed polygon *)
Definition in_polygon (po : polygon R) (xf : xform R) (p : vec2 R) : Prop := exists a, p = place xf a /\ inner po a.
(* the ray crosses edge i at fraction f, coming from outside *)
Definition crosses_edge (po : polygon R) (xf : xform R) (p1 p2 : vec2 R) (f : R) (normal : vec2 R) : Prop :=
  exists i n v, (i < po_count po)%nat /\ nth_error (po_normals po) i = Some n /\ nth_error (po_vertices po) i = Some v /\
    normal = turned (xq xf) n /\ dotp normal (minus (along p1 p2 f) (place xf v)) = 0 /\ dotp normal (minus p2 p1) < 0.
