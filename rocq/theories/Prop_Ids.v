(** Property theorems about the feature ids of contact points, for any numbers; refutations in single precision. *)
From Coq Require Import ZArith List Arith.
From Verif Require Import Base Num Math Collision Manifold ShapeModel CollideModel DynModel WorldModel NarrowModel ShapeExamples IdSpec IdProofs IdExamples.
Import ListNotations.

(** ** C101 the two points of a contact have different ids, and each gets its own impulses back *)
Theorem C101_distinct_partial : forall (T : Type) (NT : Num T) (sa : shape T) (ia : nat) (xa : xform T) (sb : shape T) (xb : xform T) (m : manifold T),
  counted_shape sa -> counted_shape sb -> evaluate_shapes sa ia xa sb xb = Ok m ->
  distinct_ids m \/ exists po, sb = ShPolygon po /\ (forall p, sa <> ShPolygon p) /\ early_face m po.
Proof. exact @shapes_ids. Qed.
Print Assumptions C101_distinct_partial.
Theorem C101_polygons : forall (T : Type) (NT : Num T) (m : manifold T) (a : polygon T) (xa : xform T) (b : polygon T) (xb : xform T) (m' : manifold T),
  counted a -> counted b -> b2_collide_polygons m a xa b xb = Ok m' -> distinct_ids m'.
Proof. exact @polygons_ids. Qed.
Print Assumptions C101_polygons.
Theorem C101_impulses : forall (T : Type) (NT : Num T) (old m m' : manifold T), mf_count old <= 2 -> distinct_ids old -> same_points old m -> carry old m = Ok m' -> same_impulses old m'.
Proof. exact @carry_same. Qed.
Print Assumptions C101_impulses.
(* the end of the edge and the point cut off at a corner of the polygon *)
Theorem C101_equal_refuted : exists (m : manifold f32) p q, evaluate_shapes (ShEdge lip) 0 xf_id (ShPolygon (@box1 f32 _)) xf_id = Ok m /\ counted (@box1 f32 _) /\
  mf_count m = 2 /\ nth_error (mf_points m) 0 = Some p /\ nth_error (mf_points m) 1 = Some q /\ mp_id p = mp_id q.
Proof. exact lip_equal. Qed.
Print Assumptions C101_equal_refuted.
Theorem C101_impulses_refuted : exists m old m' : manifold f32, evaluate_shapes (ShEdge lip) 0 xf_id (ShPolygon (@box1 f32 _)) xf_id = Ok m /\ mf_count old = 2 /\ same_points old m /\
  carry old m = Ok m' /\ ~ same_impulses old m'.
Proof. exact lip_mixed. Qed.
Print Assumptions C101_impulses_refuted.
Example C101_polygons_ex : exists m : manifold f32, evaluate_shapes (ShPolygon (@box1 f32 _)) 0 xf_id (ShPolygon (@box1 f32 _)) beside = Ok m /\ mf_count m = 2 /\ counted (@box1 f32 _).
Proof. exact beside_two. Qed.
Example C101_edge_ex : exists m : manifold f32, evaluate_shapes (ShEdge shelf) 0 xf_id (ShPolygon (@box1 f32 _)) xf_id = Ok m /\ mf_count m = 2 /\ mf_type m = MFaceA /\ counted (@box1 f32 _).
Proof. exact shelf_two. Qed.
Example C101_impulses_ex : exists m old m' : manifold f32, evaluate_shapes (ShPolygon (@box1 f32 _)) 0 xf_id (ShPolygon (@box1 f32 _)) beside = Ok m /\ mf_count old = 2 /\ distinct_ids old /\ same_points old m /\ carry old m = Ok m'.
Proof. exact beside_carried. Qed.
