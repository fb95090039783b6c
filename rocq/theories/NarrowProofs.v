(** The narrow phase answers for shapes that meet and for shapes that are clear of each other; boxes of shapes that meet overlap. *)
From Coq Require Import List ZArith Bool Arith Lia Reals Lra.
From Verif Require HullRegion.
From Verif Require Import Base ListFacts Num NumLaws RTac Math Collision Manifold Filter MathSpec GeomSpec ShapeModel ShapeSpec HullSpec CollideSpec CollideModel ShapeProofs PolyCircle EdgeCircle PolyPoly EdgePolySpec EdgePoly TreeModel TreeSpec BroadModel DynModel WorldModel WorldClaims WorldCalls CoverSpec NarrowModel PairSpec FrontSpec NarrowSpec.
Import ListNotations.
Local Open Scope R_scope.

Lemma default_two : length (mf_points (manifold_default (T := R))) = 2%nat.
Proof. reflexivity. Qed.
Lemma one_pos n : n = 1%nat -> Nat.ltb 0 n = true.
Proof. intros ->. reflexivity. Qed.
Lemma circles_sure a xa b xb m : 0 <= ci_radius a -> 0 <= ci_radius b -> b2_collide_circles manifold_default a xa b xb = Ok m -> sqrt (dist2 (place xa (ci_p a)) (place xb (ci_p b))) <= ci_radius a + ci_radius b -> Nat.ltb 0 (mf_count m) = true.
Proof. intros A B E H. destruct (collide_circles_ok manifold_default a xa b xb default_two A B) as (m' & E' & K & _). rewrite E in E'. injection E' as <-. now apply one_pos, K. Qed.
Lemma circles_clear a xa b xb m : 0 <= ci_radius a -> 0 <= ci_radius b -> b2_collide_circles manifold_default a xa b xb = Ok m -> ci_radius a + ci_radius b < sqrt (dist2 (place xa (ci_p a)) (place xb (ci_p b))) -> Nat.ltb 0 (mf_count m) = false.
Proof. intros A B E H. destruct (collide_circles_ok manifold_default a xa b xb default_two A B) as (m' & E' & _ & K). rewrite E in E'. injection E' as <-. apply K in H. now rewrite H. Qed.
Lemma dist2_sym a b : dist2 a b = dist2 b a.
Proof. unfold dist2. ring. Qed.
Lemma edge_sure e xa b xb m : unit_rot (xq xa) -> b2_collide_edge_and_circle manifold_default e xa b xb = Ok m -> segment_reaches (place xa (ed_v1 e)) (place xa (ed_v2 e)) (place xb (ci_p b)) (ed_radius e + ci_radius b) -> facing xa e (place xb (ci_p b)) -> Nat.ltb 0 (mf_count m) = true.
Proof. intros U E S F. destruct (edge_touch xa U manifold_default e b xb default_two) as (m' & E' & _ & _ & _ & K). rewrite E in E'. injection E' as <-. apply one_pos, K; auto. Qed.
Lemma edge_clear e xa b xb m : unit_rot (xq xa) -> b2_collide_edge_and_circle manifold_default e xa b xb = Ok m -> ~ segment_reaches (place xa (ed_v1 e)) (place xa (ed_v2 e)) (place xb (ci_p b)) (ed_radius e + ci_radius b) -> Nat.ltb 0 (mf_count m) = false.
Proof. intros U E S. destruct (edge_touch xa U manifold_default e b xb default_two) as (m' & E' & CC & K & _). rewrite E in E'. injection E' as <-. destruct CC as [C|C]; [now rewrite C|]. destruct S. auto. Qed.
Lemma polygons_sure a xa b xb p m : proper a -> proper b -> edges_long a B2_EPSILON -> edges_long b B2_EPSILON -> 0 <= po_radius a -> 0 <= po_radius b -> po_radius a + po_radius b < B2_MAX_FLOAT -> unit_rot (xq xa) -> unit_rot (xq xb) ->
  in_polygon a xa p -> in_polygon b xb p -> ~ beside a xa b xb (po_radius a + po_radius b) (1 / 10 * B2_LINEAR_SLOP) -> ~ beside b xb a xa (po_radius a + po_radius b) (1 / 10 * B2_LINEAR_SLOP) ->
  b2_collide_polygons manifold_default a xa b xb = Ok m -> Nat.ltb 0 (mf_count m) = true.
Proof.
  intros Pa Pb La Lb Ra Rb Rm Ua Ub Ia Ib Na Nb E. destruct (mf_count m) as [|n] eqn:C; [|reflexivity]. exfalso.
  assert (Z : dist2 p p = 0) by (unfold dist2; ring). assert (Rs : 0 <= po_radius a + po_radius b < B2_MAX_FLOAT) by lra. assert (Q : 0 <= (po_radius a + po_radius b) * (po_radius a + po_radius b)) by (apply Rmult_le_pos; lra).
  destruct (polygons_missed manifold_default a b xa xb Pa Pb Ua Ub La Lb default_two Rs m E C) as [K|[K|[K|K]]]; auto.
  - pose proof (apart_far a b xa xb (po_radius a + po_radius b) p p Pa Pb Ua Ub ltac:(lra) K Ia Ib). lra.
  - pose proof (apart_far b a xb xa (po_radius a + po_radius b) p p Pb Pa Ub Ua ltac:(lra) K Ib Ia). lra.
Qed.
Definition says (b : bool) (r : res (manifold R)) : Prop := exists m, r = Ok m /\ Nat.ltb 0 (mf_count m) = b.
Lemma share_sure e xa b xb xf p : share e xa b xb xf p -> says true (b2_collide_edge_and_polygon manifold_default e xa b xb).
Proof.
  intros (Ap & Re & Rb & Sg & Ip & N1 & N2 & N3). destruct (edge_polygon_returns manifold_default e xa b xb xf Ap default_two) as (m & E & _). exists m. split; [exact E|]. destruct (mf_count m) as [|n] eqn:C; [exfalso|reflexivity].
  assert (Far : ~ (apart_side e b xf (po_radius b + ed_radius e) \/ apart_face e b xf (po_radius b + ed_radius e))).
  { intros A. pose proof (edge_apart_far e xa b xb xf (po_radius b + ed_radius e) p p (proj1 (proj2 (proj2 (proj2 Ap)))) (proj1 Ap) (proj1 (proj2 (proj2 Ap))) ltac:(lra) A Sg Ip) as D. assert (0 <= (po_radius b + ed_radius e) * (po_radius b + ed_radius e)) by (apply Rmult_le_pos; lra). unfold dist2 in D. lra. }
  pose proof (edge_polygon_missed manifold_default e xa b xb xf Ap default_two m E C). tauto.
Qed.
Lemma apart_edge_clear e xa b xb xf : apart_edge e xa b xb xf -> says false (b2_collide_edge_and_polygon manifold_default e xa b xb).
Proof. intros (Ap & K). destruct (edge_polygon_returns manifold_default e xa b xb xf Ap default_two) as (m & E & _ & H). exists m. split; [exact E|]. now rewrite (H K). Qed.
Theorem meets_touch sa k xa sb l xb : meets sa k xa sb l xb -> unit_rot (xq xa) -> unit_rot (xq xb) ->
  says true (evaluate_shapes sa k xa sb xb) /\ (class_pair sb sa -> says true (evaluate_shapes sb l xb sa xa)).
Proof.
  intros H Ua Ub. destruct H as [a xa b xb Ra Rb D|a xa b xb Pr Ra Rb Re|e xa b xb Re Rb Sg Fa|ch k e xa b xb Ge Re Rb Sg Fa|a xa b xb p Pa Pb La Lb Ra Rb Rm Ia Ib Na Nb|e xa b xb xf p Sh|ch k e xa b xb xf p Ge Sh]; cbn [evaluate_shapes class_pair]; (split; [|intros []]).
  - destruct (collide_circles_ok manifold_default a xa b xb default_two Ra Rb) as (m & E & _). exists m. split; [exact E|]. now apply (circles_sure a xa b xb).
  - destruct (collide_circles_ok manifold_default b xb a xa default_two Rb Ra) as (m & E & _). exists m. split; [exact E|]. apply (circles_sure b xb a xa); auto. rewrite dist2_sym. lra.
  - destruct (circle_touch a Pr xa Ua manifold_default b xb default_two ltac:(lra)) as (m & E & _ & K & _). exists m. split; [exact E|]. now apply one_pos, K.
  - destruct (edge_touch xa Ua manifold_default e b xb default_two) as (m & E & _). exists m. split; [exact E|]. now apply (edge_sure e xa b xb).
  - rewrite Ge. destruct (edge_touch xa Ua manifold_default e b xb default_two) as (m & E & _). exists m. split; [exact E|]. now apply (edge_sure e xa b xb).
  - destruct (polygons_return manifold_default a b xa xb Pa Pb Ua Ub La Lb default_two ltac:(lra)) as (m & E & _). exists m. split; [exact E|]. now apply (polygons_sure a xa b xb p).
  - destruct (polygons_return manifold_default b a xb xa Pb Pa Ub Ua Lb La default_two ltac:(lra)) as (m & E & _). exists m. split; [exact E|]. rewrite Rplus_comm in Na, Nb. apply (polygons_sure b xb a xa p); auto. lra.
  - exact (share_sure e xa b xb xf p Sh).
  - rewrite Ge. exact (share_sure e xa b xb xf p Sh).
Qed.
Theorem clear_apart sa k xa sb l xb : clear sa k xa sb l xb -> unit_rot (xq xa) -> unit_rot (xq xb) ->
  says false (evaluate_shapes sa k xa sb xb) /\ (class_pair sb sa -> says false (evaluate_shapes sb l xb sa xa)).
Proof.
  intros H Ua Ub. destruct H as [a xa b xb Ra Rb D|a xa b xb Pr R Nr Ng|e xa b xb Sg|ch k e xa b xb Ge Sg|a xa b xb Pa Pb La Lb R Ap|e xa b xb xf Ae|ch k e xa b xb xf Ge Ae]; cbn [evaluate_shapes class_pair]; (split; [|intros []]).
  - destruct (collide_circles_ok manifold_default a xa b xb default_two Ra Rb) as (m & E & _). exists m. split; [exact E|]. now apply (circles_clear a xa b xb).
  - destruct (collide_circles_ok manifold_default b xb a xa default_two Rb Ra) as (m & E & _). exists m. split; [exact E|]. apply (circles_clear b xb a xa); auto. rewrite dist2_sym. lra.
  - destruct (circle_touch a Pr xa Ua manifold_default b xb default_two R) as (m & E & C & _ & K). exists m. split; [exact E|]. destruct C as [C|C]; [now rewrite C|]. destruct (K C); contradiction.
  - destruct (edge_touch xa Ua manifold_default e b xb default_two) as (m & E & _). exists m. split; [exact E|]. now apply (edge_clear e xa b xb).
  - rewrite Ge. destruct (edge_touch xa Ua manifold_default e b xb default_two) as (m & E & _). exists m. split; [exact E|]. now apply (edge_clear e xa b xb).
  - destruct (polygons_return manifold_default a b xa xb Pa Pb Ua Ub La Lb default_two R) as (m & E & _ & K). exists m. split; [exact E|]. now rewrite (K Ap).
  - destruct (polygons_return manifold_default b a xb xa Pb Pa Ub Ua Lb La default_two ltac:(lra)) as (m & E & _ & K). exists m. split; [exact E|]. rewrite K; [reflexivity|]. rewrite Rplus_comm. tauto.
  - exact (apart_edge_clear e xa b xb xf Ae).
  - rewrite Ge. exact (apart_edge_clear e xa b xb xf Ae).
Qed.

(** ** boxes *)
Lemma split_point p c r s : 0 <= r -> 0 <= s -> dist2 c p <= (r + s) * (r + s) -> exists q, dist2 q p <= r * r /\ dist2 q c <= s * s.
Proof.
  intros Hr Hs H. destruct (Req_dec (r + s) 0) as [Z|Z].
  - exists p. assert (r = 0) by lra. assert (s = 0) by lra. subst. rewrite (dist2_sym p c). replace (dist2 p p) with 0 by (unfold dist2; ring). lra.
  - exists (V2 (vx p + r / (r + s) * (vx c - vx p)) (vy p + r / (r + s) * (vy c - vy p))). assert (P : 0 < r + s) by lra.
    assert (E1 : forall t, dist2 (V2 (vx p + t * (vx c - vx p)) (vy p + t * (vy c - vy p))) p = t * t * dist2 c p) by (intros t; unfold dist2; cbn; ring).
    assert (E2 : forall t, dist2 (V2 (vx p + t * (vx c - vx p)) (vy p + t * (vy c - vy p))) c = (1 - t) * (1 - t) * dist2 c p) by (intros t; unfold dist2; cbn; ring).
    rewrite E1, E2. replace (1 - r / (r + s)) with (s / (r + s)) by (field; lra).
    assert (G : forall u, u / (r + s) * (u / (r + s)) * dist2 c p <= u * u).
    { intros u. replace (u * u) with (u / (r + s) * (u / (r + s)) * ((r + s) * (r + s))) by (field; lra). apply Rmult_le_compat_l; [apply Rle_0_sqr|exact H]. }
    auto.
Qed.
Lemma shared_point (a b : aabb R) p : in_box a p -> in_box b p -> ~ separated a b.
Proof. unfold in_box, separated. cbn. rewrite !Rlt_bool_true'. lra. Qed.
Lemma place_seg xf a b p : on_segment (place xf a) (place xf b) p -> exists q, on_segment a b q /\ p = place xf q.
Proof. intros (t & Ht & ->). exists (along a b t). split; [exists t; auto|]. unfold place, along. cbn. f_equal; ring. Qed.
Lemma edge_box_chain ch k e xf : get_child_edge ch k = Ok e -> shape_aabb (ShChain ch) xf k = Ok (edge_aabb e xf).
Proof.
  unfold get_child_edge. intros H. apply bind_ok in H as (n1 & H1 & H). apply bind_ok in H as (u & H2 & H). apply bind_ok in H as (v1 & H3 & H). apply bind_ok in H as (v2 & H4 & H). apply bind_ok in H as (v0 & _ & H). apply bind_ok in H as (n2 & _ & H). apply bind_ok in H as (v3 & _ & H). injection H as <-.
  cbn [shape_aabb]. unfold chain_aabb, chain_ends, edge_aabb. unfold usize_sub in H1. destruct (length (ch_vertices ch)) as [|n] eqn:L; [discriminate|]. cbn in H1. injection H1 as <-. unfold b2_assert in H2. destruct (Nat.ltb_spec k (n - 0)); [|discriminate].
  destruct (Nat.ltb_spec k (S n)); [|lia]. cbn [b2_assert bind]. destruct (Nat.eqb_spec (k + 1) (S n)); [lia|]. rewrite H3, H4. reflexivity.
Qed.
Lemma share_boxes e xa b xb xf p : share e xa b xb xf p -> exists bb, polygon_aabb b xb = Ok bb /\ ~ separated (edge_aabb e xa) bb.
Proof.
  intros (Ap & Re & Rb & Sg & Ip & _). pose proof (proj1 (proj2 (proj2 (proj2 Ap)))) as Pr. destruct (polygon_aabb_ok b xb (proj1 Pr) Rb) as (bb & Eb & Kb). exists bb. split; [exact Eb|].
  assert (Z : forall u, dist2 u u = 0) by (intros u; unfold dist2; ring). apply (shared_point _ _ p).
  - apply place_seg in Sg as (z & Sz & ->). apply segment_aabb_ok; auto. eexists; split; eauto. rewrite Z. apply Rmult_le_pos; auto.
  - apply Kb. destruct Ip as (z & -> & Iz). exists z. split; [now apply HullRegion.proper_region|]. rewrite Z. apply Rmult_le_pos; auto.
Qed.
Theorem meets_boxes sa k xa sb l xb : meets sa k xa sb l xb -> exists a b, shape_aabb sa xa k = Ok a /\ shape_aabb sb xb l = Ok b /\ ~ separated a b.
Proof.
  intros H. destruct H as [a xa b xb Ra Rb D|a xa b xb Pr Ra Rb Re|e xa b xb Re Rb Sg Fa|ch k e xa b xb Ge Re Rb Sg Fa|a xa b xb p Pa Pb La Lb Ra Rb Rm Ia Ib Na Nb|e xa b xb xf p Sh|ch k e xa b xb xf p Ge Sh].
  - exists (circle_aabb a xa), (circle_aabb b xb). split; [reflexivity|]. split; [reflexivity|].
    destruct (split_point (place xa (ci_p a)) (place xb (ci_p b)) (ci_radius a) (ci_radius b) Ra Rb) as (q & Q1 & Q2).
    { rewrite dist2_sym. pose proof (sqrt_pos (dist2 (place xa (ci_p a)) (place xb (ci_p b)))) as P. assert (N : 0 <= dist2 (place xa (ci_p a)) (place xb (ci_p b))) by (unfold dist2; apply Rplus_le_le_0_compat; apply Rle_0_sqr). rewrite <- (sqrt_sqrt _ N). apply Rmult_le_compat; lra. }
    apply (shared_point _ _ q); apply circle_aabb_ok; auto; eexists; split; eauto.
  - destruct (polygon_aabb_ok a xa (proj1 Pr) Ra) as (bx & Eb & K). exists bx, (circle_aabb b xb). split; [exact Eb|]. split; [reflexivity|]. destruct Re as (p & (z & -> & Iz) & D).
    destruct (split_point (place xa z) (place xb (ci_p b)) (po_radius a) (ci_radius b) Ra Rb D) as (q & Q1 & Q2). apply (shared_point _ _ q).
    + apply K. exists z. split; [now apply HullRegion.proper_region|exact Q1].
    + apply circle_aabb_ok; auto. eexists; split; eauto.
  - exists (edge_aabb e xa), (circle_aabb b xb). split; [reflexivity|]. split; [reflexivity|]. destruct Sg as (p & Sg & D). apply place_seg in Sg as (z & Sz & ->).
    destruct (split_point (place xa z) (place xb (ci_p b)) (ed_radius e) (ci_radius b) Re Rb D) as (q & Q1 & Q2). apply (shared_point _ _ q); [apply segment_aabb_ok; auto|apply circle_aabb_ok; auto]; eexists; split; eauto.
  - exists (edge_aabb e xa), (circle_aabb b xb). split; [now apply edge_box_chain|]. split; [reflexivity|]. destruct Sg as (p & Sg & D). apply place_seg in Sg as (z & Sz & ->).
    destruct (split_point (place xa z) (place xb (ci_p b)) (ed_radius e) (ci_radius b) Re Rb D) as (q & Q1 & Q2). apply (shared_point _ _ q); [apply segment_aabb_ok; auto|apply circle_aabb_ok; auto]; eexists; split; eauto.
  - destruct (polygon_aabb_ok a xa (proj1 Pa) Ra) as (ba & Ea & Ka). destruct (polygon_aabb_ok b xb (proj1 Pb) Rb) as (bb & Eb & Kb). exists ba, bb. split; [exact Ea|]. split; [exact Eb|].
    assert (Z : forall u, dist2 u u = 0) by (intros u; unfold dist2; ring). apply (shared_point _ _ p).
    + apply Ka. destruct Ia as (z & -> & Iz). exists z. split; [now apply HullRegion.proper_region|]. rewrite Z. apply Rmult_le_pos; auto.
    + apply Kb. destruct Ib as (z & -> & Iz). exists z. split; [now apply HullRegion.proper_region|]. rewrite Z. apply Rmult_le_pos; auto.
  - destruct (share_boxes e xa b xb xf p Sh) as (bb & Eb & K). exists (edge_aabb e xa), bb. split; [reflexivity|]. split; [exact Eb|exact K].
  - destruct (share_boxes e xa b xb xf p Sh) as (bb & Eb & K). exists (edge_aabb e xa), bb. split; [now apply edge_box_chain|]. split; [exact Eb|exact K].
Qed.
