(** Feature ids of the points of a manifold. *)
From Coq Require Import ZArith List Arith.
From Verif Require Import Num Math Collision Manifold ShapeModel DynModel.
Import ListNotations.

(* the two points of the manifold have different ids *)
Definition distinct_ids {T} (m : manifold T) : Prop :=
  forall p q, mf_count m = 2 -> nth_error (mf_points m) 0 = Some p -> nth_error (mf_points m) 1 = Some q -> mp_id p <> mp_id q.
(* a polygon with at least two and at most eight vertices *)
Definition counted {T} (po : polygon T) : Prop := 2 <= po_count po <= 8.
Definition counted_shape {T} (s : shape T) : Prop := match s with ShPolygon po => counted po | _ => True end.
(* the reference is a face of the polygon, whose number is the first, the second or the last one *)
Definition early_face {T} (m : manifold T) (po : polygon T) : Prop :=
  mf_type m = MFaceB /\ exists p k, nth_error (mf_points m) 0 = Some p /\ index_a (mp_id p) = Z.of_nat k /\ (k = 0 \/ k = 1 \/ S k = po_count po).
(* every point of [old] has its impulses in the point of [m'] in the same place *)
Definition same_impulses {T} (old m' : manifold T) : Prop :=
  forall h p, h < mf_count old -> nth_error (mf_points old) h = Some p ->
    exists p', nth_error (mf_points m') h = Some p' /\ mp_normal_impulse p' = mp_normal_impulse p /\ mp_tangent_impulse p' = mp_tangent_impulse p.
(* [m] has the points of [old], in the same order *)
Definition same_points {T} (old m : manifold T) : Prop :=
  mf_count m = mf_count old /\ forall h p q, h < mf_count old -> nth_error (mf_points old) h = Some p -> nth_error (mf_points m) h = Some q -> mp_id q = mp_id p.
