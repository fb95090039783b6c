(** When two shapes are near each other, and which searches for the distance end in time. *)
From Coq Require Import List ZArith Bool Arith Reals.
From Verif Require WorldModel.
From Verif Require Import Base Num Math ShapeModel DynModel DistModel GeomSpec DistSpec.
Import ListNotations.
Local Open Scope R_scope.

(* two points of the sets are less than [d] apart *)
Definition nearer (la lb : list (vec2 R)) (d : R) : Prop := exists qa qb, hull la qa /\ hull lb qb /\ dist qa qb < d.
(* a search from a fresh cache does not use up its 20 iterations *)
Definition settles (pa pb : dproxy R) (xa xb : xform R) : Prop :=
  forall o c, distance_fn cache_zero (DInput pa pb xa xb true) = Ok (o, c) -> (do_iterations o < 20)%nat.
(* child [k] of the shape as a set of points with a radius *)
Inductive sensed : shape R -> nat -> list (vec2 R) -> R -> Prop :=
| sensed_circle c : sensed (ShCircle c) 0 [ci_p c] (ci_radius c)
| sensed_edge e : sensed (ShEdge e) 0 [ed_v1 e; ed_v2 e] (ed_radius e)
| sensed_polygon p : (0 < po_count p)%nat -> (po_count p <= length (po_vertices p))%nat -> (po_count p <= length (po_normals p))%nat -> sensed (ShPolygon p) 0 (firstn (po_count p) (po_vertices p)) (po_radius p)
| sensed_chain c k v v' : nth_error (ch_vertices c) k = Some v -> nth_error (ch_vertices c) (S k) = Some v' -> sensed (ShChain c) k [v; v'] (ch_radius c).
(* one of the two fixtures is a sensor *)
Definition either_sensor (w : WorldModel.world R) (f g : nat) : Prop := exists h x, (h = f \/ h = g) /\ WorldModel.w_fixtures w h = Some x /\ f_sensor x = true.
