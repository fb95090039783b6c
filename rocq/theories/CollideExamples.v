(** Concrete cases for Prop_Collide. *)
From Coq Require Import ZArith Reals Lra Lia Bool List Arith Psatz.
From Flocq Require Import Core.
From Verif Require Import Base Num NumLaws Math Collision Manifold ShapeModel CollideModel MathSpec GeomSpec ShapeSpec HullSpec CollideSpec RTac ListFacts
  ShapeProofs ShapeExamples HullProofs HullSet HullMass HullExamples PolyCircle EdgeCircle PolyPoly.
Import ListNotations.

Definition mp0 {T} `{Num T} : mpoint T := MP vzero (nofZ 0) (nofZ 0) cid_default.
Definition mf0 {T} `{Num T} : manifold T := MF [mp0; mp0] vzero vzero MCircles 2.

(** ** two polygons with a common point and no contact *)
Definition bent_points : list (vec2 f32) :=
  [V2 (nlit 211 10000) (nlit 82 100); V2 (nlit 1021 1000) (nlit 8 10); V2 (nofZ 3) (nlit 8 10); V2 (nofZ 3) (nofZ 3); V2 (nlit 211 10000) (nofZ 3)].
Definition bent : polygon f32 := match polygon_set (@box1 f32 _) bent_points with Ok po => po | _ => box1 end.
Definition common : vec2 f32 := V2 (nlit 95 100) (nlit 95 100).
Definition count_mf {T} (r : res (manifold T)) : option nat := match r with Ok m => Some (mf_count m) | _ => None end.
Definition ok_res {A} (r : res A) : bool := match r with Ok _ => true | _ => false end.
Lemma bent_set : polygon_set (@box1 f32 _) bent_points = Ok bent.
Proof.
  assert (E : ok_res (polygon_set (@box1 f32 _) bent_points) = true) by (vm_compute; reflexivity). unfold bent.
  destruct (polygon_set (@box1 f32 _) bent_points); try discriminate. reflexivity.
Qed.
Lemma bent_missed : is_true_res (polygon_test_point (@box1 f32 _) xf_id common) = true /\ is_true_res (polygon_test_point bent xf_id common) = true /\
  count_mf (b2_collide_polygons mf0 (@box1 f32 _) xf_id bent xf_id) = Some 0%nat.
Proof. split; [vm_compute; reflexivity|]. split; [vm_compute; reflexivity|]. vm_compute; reflexivity. Qed.
Lemma count_mf_some {T} (r : res (manifold T)) n : count_mf r = Some n -> exists m, r = Ok m /\ mf_count m = n.
Proof. destruct r; try discriminate. intros [= <-]. eauto. Qed.
Lemma overlap_missed : exists (vs : list (vec2 f32)) (a b : polygon f32) (p : vec2 f32) (m' : manifold f32),
  a = set_as_box polygon_default (nofZ 1) (nofZ 1) /\ polygon_set a vs = Ok b /\
  polygon_test_point a xf_id p = Ok true /\ polygon_test_point b xf_id p = Ok true /\
  b2_collide_polygons mf0 a xf_id b xf_id = Ok m' /\ mf_count m' = 0%nat.
Proof.
  destruct bent_missed as (A & B & C). exists bent_points, box1, bent, common.
  apply count_mf_some in C as (m' & C1 & C2). exists m'.
  split; [reflexivity|]. split; [exact bent_set|]. split; [apply is_true_eq, A|]. split; [apply is_true_eq, B|]. split; [exact C1|exact C2].
Qed.

Local Open Scope R_scope.
(** ** edges of usable polygons are long enough *)
Lemma spaced_edges po d ps : proper po -> spaced d ps -> incl (used_vertices po) ps -> edges_long po d.
Proof.
  intros Pr Sp Ic i a b Hi Ea Eb. destruct (edge_facts po Pr i Hi) as (Ui & q & Qp & Ex & Ey & _). pose proof (af_lt po Pr i) as Ha.
  rewrite <- used_nth in Ea by exact Hi. rewrite <- used_nth in Eb by exact Ha.
  pose proof Ea as Ea'. pose proof Eb as Eb'. rewrite (vs_nth po Pr i Hi) in Ea'. rewrite (vs_nth po Pr _ Ha) in Eb'. injection Ea' as Ea'. injection Eb' as Eb'. rewrite Ea', Eb' in *.
  apply nth_error_In, Ic, In_nth_error in Ea as (x & Ea). apply nth_error_In, Ic, In_nth_error in Eb as (y & Eb).
  apply (Sp y x b a); [|exact Eb|exact Ea]. intros ->. rewrite Ea in Eb. injection Eb as <-. unfold unit_vec in Ui. nra.
Qed.
Lemma set_long self vs po : polygon_set self vs = Ok po -> edges_long po B2_EPSILON.
Proof.
  intros E. destruct (polygon_set_hull _ _ _ E) as (Pr & _ & _ & ps & (_ & Sp & _) & _ & Ic & _). pose proof (spaced_edges po _ ps Pr Sp Ic) as H.
  intros i a b Hi Ea Eb. specialize (H i a b Hi Ea Eb). pose proof eps_small as E1. unfold weld_slop in E1. lra.
Qed.
Lemma box_long self hx hy : 0 < hx -> 0 < hy -> B2_EPSILON <= 2 * hx -> B2_EPSILON <= 2 * hy -> edges_long (set_as_box self hx hy) B2_EPSILON.
Proof.
  intros Hx Hy Ex Ey i a b Hi Ea Eb. pose proof eps_pos as Ep. unfold set_as_box, put, box_vertices in *. cbn [po_count po_vertices app] in *.
  destruct i as [|[|[|[|i]]]]; [| | | |lia]; cbn in Ea, Eb; injection Ea as <-; injection Eb as <-; unfold dist2; cbn [vx vy]; rops; nra.
Qed.

(** ** circle and box *)
Definition ball (r x y : R) : circle R := Circle r (V2 x y).
Lemma box1_proper : proper (@box1 R _).
Proof. apply box_proper; cbn; lra. Qed.
Lemma radius_val : (B2_POLYGON_RADIUS : R) = 1 / 100.
Proof. unfold B2_POLYGON_RADIUS, B2_LINEAR_SLOP, B2_LENGTH_UNITS_PER_METER, nlit; cbn; lra. Qed.
Lemma box1_radius : po_radius (@box1 R _) = 1 / 100.
Proof. exact radius_val. Qed.
Lemma place_id v : place xf_id v = v.
Proof. apply vec2_ext; unfold place, xf_id; cbn; ring. Qed.
Lemma circle_ex : proper (@box1 R _) /\ unit_rot (xq (@xf_id R _)) /\ length (mf_points (@mf0 R _)) = 2%nat /\ 0 <= po_radius (@box1 R _) + ci_radius (ball 1 (3/2) 0) /\
  reaches box1 xf_id (place xf_id (ci_p (ball 1 (3/2) 0))) (po_radius (@box1 R _) + ci_radius (ball 1 (3/2) 0)) /\ ~ grazes box1 xf_id (place xf_id (ci_p (ball 1 (3/2) 0))).
Proof.
  split; [exact box1_proper|]. split; [exact xf_id_unit|]. split; [reflexivity|]. rewrite box1_radius, place_id. cbn [ball ci_radius ci_p]. split; [lra|]. split.
  - exists (V2 1 0). split; [apply box_in; cbn; lra|]. unfold dist2; cbn. lra.
  - intros (a & E & G). rewrite place_id in E. subst a. specialize (G 1%nat (V2 1 0) (V2 1 (-1))). unfold box1, set_as_box, put, box_vertices, box_normals in G. cbn [po_count po_vertices po_normals app] in G.
    assert (X : dotp (V2 1 0) (minus (V2 (3 / 2) 0) (V2 1 (-1))) < B2_EPSILON).
    { apply G; [lia| |]; cbn; repeat f_equal; lra. }
    unfold dotp, minus, B2_EPSILON, nlit in X. cbn in X. lra.
Qed.
Lemma deep_ex : proper (@box1 R _) /\ in_polygon (@box1 R _) xf_id (place xf_id (ci_p (ball 1 (1/2) 0))) /\
  (exists p, ~ in_polygon box1 xf_id p /\ dist2 (place xf_id (ci_p (ball 1 (1/2) 0))) p < B2_MAX_FLOAT * B2_MAX_FLOAT).
Proof.
  split; [exact box1_proper|]. rewrite place_id. cbn [ball ci_p]. split; [apply box_in; cbn; lra|]. exists (V2 2 0). split; [rewrite box_in; cbn; lra|].
  assert (2 <= (B2_MAX_FLOAT : R)) by (unfold B2_MAX_FLOAT; cbn; lra). unfold dist2; cbn [vx vy]. nra.
Qed.
(** ** circle and edge *)
Definition ground (one : bool) : edge R := Edge (1 / 100) (V2 (-1) 1) (V2 0 0) (V2 2 0) (V2 3 1) one.
Lemma ground_nearest : nearest_on (V2 0 0) (V2 2 0) (V2 1 (-1/2)) (V2 1 0).
Proof.
  split; [exists (1/2); split; [lra|apply vec2_ext; unfold along; cbn; lra]|]. intros p (t & Ht & ->). unfold dist2, along; cbn [vx vy]. assert (0 <= (1 - (0 + t * (2 - 0))) * (1 - (0 + t * (2 - 0)))) by apply Rle_0_sqr. lra.
Qed.
Lemma edge_ex one : length (mf_points (@mf0 R _)) = 2%nat /\ unit_rot (xq (@xf_id R _)) /\
  let c := place xf_id (ci_p (ball 1 1 (-1/2))) in let e := ground one in
  segment_reaches (place xf_id (ed_v1 e)) (place xf_id (ed_v2 e)) c (ed_radius e + 1) /\
  in_front (place xf_id (ed_v1 e)) (place xf_id (ed_v2 e)) c /\
  ~ hidden_by (place xf_id (ed_v1 e)) (place xf_id (ed_v2 e)) (place xf_id (ed_v0 e)) c /\
  ~ hidden_by (place xf_id (ed_v2 e)) (place xf_id (ed_v1 e)) (place xf_id (ed_v3 e)) c.
Proof.
  split; [reflexivity|]. split; [exact xf_id_unit|]. cbv zeta. rewrite !place_id. cbn [ground ball ed_v0 ed_v1 ed_v2 ed_v3 ed_radius ci_p].
  split; [exists (V2 1 0); split; [apply ground_nearest|unfold dist2; cbn; lra]|]. split; [unfold in_front, turn; cbn; lra|].
  split; intros ((_ & H) & _); specialize (H (V2 1 0)).
  - assert (X : on_segment (V2 0 0) (V2 2 0) (V2 1 0)) by apply ground_nearest. specialize (H X). unfold dist2 in H; cbn in H. lra.
  - assert (X : on_segment (V2 2 0) (V2 0 0) (V2 1 0)) by (exists (1/2); split; [lra|apply vec2_ext; unfold along; cbn; lra]). specialize (H X). unfold dist2 in H; cbn in H. lra.
Qed.
(** ** two boxes *)
Definition at_x (x : R) : xform R := Xf (V2 x 0) (Rot 0 1).
Lemma boxes_ex x : proper (@box1 R _) /\ unit_rot (xq xf_id) /\ unit_rot (xq (at_x x)) /\ edges_long (@box1 R _) B2_EPSILON /\ length (mf_points (@mf0 R _)) = 2%nat /\
  0 <= po_radius (@box1 R _) + po_radius (@box1 R _) < B2_MAX_FLOAT.
Proof.
  split; [exact box1_proper|]. split; [exact xf_id_unit|]. split; [unfold unit_rot; cbn; lra|]. split.
  - apply box_long; cbn; try lra; unfold B2_EPSILON, nlit; cbn; lra.
  - split; [reflexivity|]. rewrite box1_radius. assert (2 <= (B2_MAX_FLOAT : R)) by (unfold B2_MAX_FLOAT; cbn; lra). lra.
Qed.
Lemma boxes_apart_ex : apart (@box1 R _) xf_id (@box1 R _) (at_x 3) (po_radius (@box1 R _) + po_radius (@box1 R _)).
Proof.
  rewrite box1_radius. exists 1%nat, (V2 1 0), (V2 1 (-1)), (V2 1 1). split.
  - unfold face, box1, set_as_box, put, box_vertices, box_normals. cbn [po_count po_vertices po_normals app]. split; [lia|]. exists (V2 1 0), (V2 1 (-1)), (V2 1 1).
    rewrite !place_id. cbn. repeat split; try (repeat f_equal; lra). apply vec2_ext; unfold turned; cbn; lra.
  - intros w (j & v & Hj & Ev & ->). unfold box1, set_as_box, put, box_vertices in *. cbn [po_count po_vertices app] in *.
    destruct j as [|[|[|[|j]]]]; [| | | |lia]; cbn in Ev; injection Ev as <-; unfold dotp, minus, place, at_x; cbn; lra.
Qed.
(** ** a closed chain *)
Definition fence : list (vec2 R) := [V2 0 0; V2 2 0; V2 2 2; V2 0 2].
Definition chain1 : ShapeModel.chain R := Chain (1 / 100) [] (V2 0 0) (V2 0 0).
Definition fenced : ShapeModel.chain R := Chain (1 / 100) (fence ++ [V2 0 0]) (V2 0 2) (V2 2 0).
Lemma fence_loop : create_loop chain1 fence = Ok fenced.
Proof.
  unfold create_loop, fence, chain1. cbn [length ch_vertices Nat.eqb Nat.leb b2_assert bind]. unfold ShapeModel.spaced, for_range, b2_distance_vec2_squared. rewrite slop_val. rmathc. rdec. cbn [b2_assert bind]. rdec. reflexivity.
Qed.
Lemma fence_child : get_child_edge fenced 0 = Ok (Edge (1 / 100) (V2 0 2) (V2 0 0) (V2 2 0) (V2 2 2) true).
Proof. reflexivity. Qed.
Lemma fence_nearest j e p : get_child_edge fenced j = Ok e -> on_segment (place xf_id (ed_v1 e)) (place xf_id (ed_v2 e)) p -> 0 <= vy p.
Proof.
  intros E (t & Ht & ->). rewrite !place_id. destruct j as [|[|[|[|j]]]]; cbn in E; try (injection E as <-; unfold along; cbn; nra).
  exfalso. unfold get_child_edge in E. cbn in E. discriminate.
Qed.
Lemma loop_ex : create_loop chain1 fence = Ok fenced /\ length (mf_points (@mf0 R _)) = 2%nat /\ exists e, get_child_edge fenced 0 = Ok e /\
  let c := place xf_id (ci_p (ball 1 1 (-1/2))) in
  (exists q, on_segment (place xf_id (ed_v1 e)) (place xf_id (ed_v2 e)) q /\
     (forall j e' p, get_child_edge fenced j = Ok e' -> on_segment (place xf_id (ed_v1 e')) (place xf_id (ed_v2 e')) p -> dist2 c q <= dist2 c p) /\
     dist2 c q <= (ch_radius fenced + ci_radius (ball 1 1 (-1/2))) * (ch_radius fenced + ci_radius (ball 1 1 (-1/2)))) /\
  in_front (place xf_id (ed_v1 e)) (place xf_id (ed_v2 e)) c.
Proof.
  split; [exact fence_loop|]. split; [reflexivity|]. eexists. split; [exact fence_child|]. cbv zeta. split.
  - exists (V2 1 0). split; [rewrite !place_id; apply ground_nearest|]. split.
    + intros j e' p Ge On. pose proof (fence_nearest j e' p Ge On) as Y. rewrite place_id. unfold dist2; cbn [ball ci_p vx vy].
      assert (0 <= (1 - vx p) * (1 - vx p)) by apply Rle_0_sqr. nra.
    + rewrite place_id. unfold dist2. cbn. lra.
  - rewrite !place_id. unfold in_front, turn. cbn. lra.
Qed.
