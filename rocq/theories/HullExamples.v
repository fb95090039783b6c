(** Concrete polygons for the examples. *)
From Coq Require Import ZArith Reals Lra Lia Bool List Arith Psatz.
From Flocq Require Import Core.
From Verif Require Import Base Num NumLaws Math Collision ShapeModel MathSpec GeomSpec ShapeSpec HullSpec RTac ShapeExamples HullProofs HullSet HullMass HullInertia HullRegion.
Import ListNotations.
Local Open Scope R_scope.
Ltac rred := cbn [andb orb negb existsb app vx vy bind get nth_error fold_left Nat.sub length for_from Nat.eqb fst snd].
Ltac rdec := rred; repeat (match goal with
  | |- context [Rlt_bool ?a ?b] => first [rewrite (Rlt_bool_true a b) by lra | rewrite (Rlt_bool_false a b) by lra]
  | |- context [Req_bool ?a ?b] => first [rewrite (Req_bool_true a b) by lra | rewrite (Req_bool_false a b) by lra]
  | |- context [Rle_bool ?a ?b] => first [rewrite (Rle_bool_true a b) by lra | rewrite (Rle_bool_false a b) by lra]
  end; rred).
Definition hull_points : list (vec2 R) := [V2 0 0; V2 1 1; V2 (1/2) (1/2); V2 1 0; V2 (1/1000) 0; V2 0 1].
Definition hull_square : list (vec2 R) := [V2 1 0; V2 1 1; V2 0 1; V2 0 0].
Lemma slop_val : (B2_LINEAR_SLOP : R) = 1 / 200.
Proof. unfold B2_LINEAR_SLOP, B2_LENGTH_UNITS_PER_METER, nlit. cbn. lra. Qed.
Lemma weld_points : weld hull_points = [V2 0 0; V2 1 1; V2 (1/2) (1/2); V2 1 0; V2 0 1].
Proof.
  unfold weld, hull_points. cbn [fold_left]. rewrite slop_val. unfold b2_distance_vec2_squared. rmathc. rdec. reflexivity.
Qed.
Lemma rightmost_points : rightmost [V2 0 0; V2 1 1; V2 (1/2) (1/2); V2 1 0; V2 0 1] = Ok 3%nat.
Proof. unfold rightmost, for_range. rmathc. rdec. reflexivity. Qed.
Lemma wrap_points : wrap 9 [V2 0 0; V2 1 1; V2 (1/2) (1/2); V2 1 0; V2 0 1] 3 [] 3 = Ok [3;1;4;0]%nat.
Proof. unfold wrap, next_hull, for_range, b2_assert. rmathc. rdec. cbn [Nat.ltb Nat.leb B2_MAX_POLYGON_VERTICES]. rdec. reflexivity. Qed.
Lemma square_normal i a b : nth_error hull_square i = Some a -> nth_error hull_square (after 4 i) = Some b -> exists n, edge_normal hull_square i = Ok n.
Proof.
  intros Ha Hb. destruct (edge_normal_ok hull_square i a b Ha Hb) as (n & E & _); [|eauto].
  assert (D : dist2 b a = 1).
  { destruct i as [|[|[|[|i]]]]; [| | | |destruct i; discriminate]; cbn in Ha, Hb; injection Ha as <-; injection Hb as <-; unfold dist2; cbn; lra. }
  rewrite D. unfold B2_EPSILON, nlit. cbn. lra.
Qed.
Lemma square_area : shoelace hull_square = 1.
Proof. unfold shoelace, hull_square, ring_edges, cross2. cbn. lra. Qed.
Lemma set_points (self : polygon R) : exists po, polygon_set self hull_points = Ok po /\ used_vertices po = hull_square.
Proof.
  unfold polygon_set. cbv zeta. rewrite weld_points, rightmost_points. cbn [length hull_points Nat.leb andb b2_assert bind B2_MAX_POLYGON_VERTICES].
  change (S B2_MAX_POLYGON_VERTICES) with 9%nat. rewrite wrap_points. cbn [length Nat.leb b2_assert bind map_res get nth_error]. fold hull_square.
  destruct (square_normal 0 _ _ eq_refl eq_refl) as (n0 & E0). destruct (square_normal 1 _ _ eq_refl eq_refl) as (n1 & E1).
  destruct (square_normal 2 _ _ eq_refl eq_refl) as (n2 & E2). destruct (square_normal 3 _ _ eq_refl eq_refl) as (n3 & E3).
  change (length hull_square) with 4%nat. cbn [seq map_res]. rewrite E0, E1, E2, E3. cbn [bind].
  rewrite (centroid_eq hull_square) by (cbn; lia). rewrite square_area. rewrite Rlt_bool_true by (unfold B2_EPSILON, nlit; cbn; lra). cbn [bind].
  eexists; split; [reflexivity|]. reflexivity.
Qed.
Lemma square_convex : convex_ccw hull_square.
Proof.
  destruct (set_points (Polygon 0 (V2 0 0) [] [] 0)) as (po & E & U). rewrite <- U.
  apply (polygon_set_hull _ _ _ E).
Qed.
Definition flat_points : list (vec2 R) := [V2 0 0; V2 1 0; V2 2 0].
Lemma flat_collinear : collinear flat_points.
Proof.
  intros a b c Ha Hb Hc. assert (Y : forall p, In p flat_points -> vy p = 0) by (intros p [<-|[<-|[<-|[]]]]; reflexivity).
  unfold turn. rewrite (Y a Ha), (Y b Hb), (Y c Hc). ring.
Qed.
Lemma flat_count : (3 <= length flat_points <= B2_MAX_POLYGON_VERTICES)%nat.
Proof. unfold B2_MAX_POLYGON_VERTICES; cbn; lia. Qed.
