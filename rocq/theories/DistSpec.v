(** What the closest point of a simplex and the distance of two point sets are, independent of the code. *)
From Coq Require Import List ZArith Bool Arith Reals.
From Verif Require Import Base Num Math ShapeModel DynModel DistModel GeomSpec.
Import ListNotations.
Local Open Scope R_scope.

(** ** convex combinations *)
Fixpoint total (ws : list R) : R := match ws with [] => 0 | w :: ws => w + total ws end.
Fixpoint mix (ws : list R) (ps : list (vec2 R)) : vec2 R :=
  match ws, ps with
  | w :: ws, p :: ps => V2 (w * vx p + vx (mix ws ps)) (w * vy p + vy (mix ws ps))
  | _, _ => V2 0 0
  end.
Definition convex (ws : list R) : Prop := Forall (fun w => 0 <= w) ws /\ total ws = 1.
(* the convex hull of a list of points *)
Definition hull (ps : list (vec2 R)) (q : vec2 R) : Prop := exists ws, length ws = length ps /\ convex ws /\ q = mix ws ps.
Definition origin : vec2 R := V2 0 0.
(* the point of a hull closest to the origin *)
Definition closest (ps : list (vec2 R)) (q : vec2 R) : Prop := hull ps q /\ forall q', hull ps q' -> dist2 q origin <= dist2 q' origin.
Definition dist (p q : vec2 R) : R := sqrt (dist2 p q).

(** ** what a simplex says *)
Definition used {T} (s : simplex T) : list (svertex T) := firstn (sx_count s) [sx_0 s; sx_1 s; sx_2 s].
Definition corners (s : simplex R) : list (vec2 R) := map sv_w (used s).
Definition weights (s : simplex R) : list R := map sv_a (used s).
(* a vertex up to its weight *)
Definition same_vertex {T} (u v : svertex T) : Prop :=
  sv_wa u = sv_wa v /\ sv_wb u = sv_wb v /\ sv_w u = sv_w v /\ sv_ia u = sv_ia v /\ sv_ib u = sv_ib v.

(** ** point sets *)
(* the place of a local point *)
Definition place (x : xform R) (v : vec2 R) : vec2 R :=
  V2 (rc (xq x) * vx v - rs (xq x) * vy v + vx (xp x)) (rs (xq x) * vx v + rc (xq x) * vy v + vy (xp x)).
Definition cloud (p : dproxy R) (x : xform R) : list (vec2 R) := map (place x) (dp_vertices p).
(* a cache that names vertices of both proxies; what a fresh cache and every call leave *)
Definition cache_fits {T} (c : scache T) (pa pb : dproxy T) : Prop :=
  (sc_count c <= 3)%nat /\ length (sc_a c) = 3%nat /\ length (sc_b c) = 3%nat /\
  (forall i, (i < sc_count c)%nat -> (nth i (sc_a c) 0 < length (dp_vertices pa))%nat /\ (nth i (sc_b c) 0 < length (dp_vertices pb))%nat).
(* differences of points of the two sets are equal or at least epsilon apart *)
Definition spread (la lb : list (vec2 R)) : Prop :=
  forall a b a' b', In a la -> In b lb -> In a' la -> In b' lb ->
  let e := V2 ((vx b - vx a) - (vx b' - vx a')) ((vy b - vy a) - (vy b' - vy a')) in
  e = origin \/ B2_EPSILON * B2_EPSILON <= dist2 e origin.

(** ** shape cast *)
(* the place of a point after a part of the translation *)
Definition moved (r q : vec2 R) (m : R) : vec2 R := V2 (vx q + m * vx r) (vy q + m * vy r).
(* the distance of the point sets at which two shapes count as touching: the radii, less one polygon radius *)
Definition cast_gap (pa pb : dproxy R) : R :=
  Rmax B2_POLYGON_RADIUS (Rmax (dp_radius pa) B2_POLYGON_RADIUS + Rmax (dp_radius pb) B2_POLYGON_RADIUS - B2_POLYGON_RADIUS).
