(** Concrete cases for Prop_EdgePoly. *)
From Coq Require Import ZArith Reals Lra Lia Bool List Arith Psatz.
From Flocq Require Import Core.
From Verif Require Import Base Num NumLaws Math Collision Manifold ShapeModel CollideModel MathSpec GeomSpec ShapeSpec HullSpec CollideSpec EdgePolySpec RTac ListFacts
  ShapeProofs ShapeExamples HullProofs HullSet HullMass HullExamples PolyCircle EdgeCircle PolyPoly CollideExamples EdgePoly.
Import ListNotations.

(** ** a polygon deep over the end of an edge without a contact *)
Definition keel_points : list (vec2 f32) :=
  [V2 (nlit 1001 1000) (nneg (nofZ 1)); V2 (nofZ 3) (nneg (nlit 95 100)); V2 (nofZ 3) (nofZ 2); V2 (nneg (nofZ 4)) (nofZ 2); V2 (nneg (nofZ 4)) (nneg (nlit 12 100))].
Definition keel : polygon f32 := match polygon_set polygon_default keel_points with Ok po => po | _ => box1 end.
Definition bar : edge f32 := set_two_sided edge_default (V2 (nofZ 0) (nofZ 0)) (V2 (nofZ 1) (nofZ 0)).
Lemma keel_set : polygon_set polygon_default keel_points = Ok keel.
Proof.
  assert (E : ok_res (polygon_set polygon_default keel_points) = true) by (vm_compute; reflexivity). unfold keel.
  destruct (polygon_set polygon_default keel_points); try discriminate. reflexivity.
Qed.
Lemma keel_facts : is_true_res (polygon_test_point keel xf_id (ed_v1 bar)) = true /\ is_true_res (polygon_test_point keel xf_id (ed_v2 bar)) = true /\ count_mf (b2_collide_edge_and_polygon mf0 bar xf_id keel xf_id) = Some 0%nat.
Proof. split; [vm_compute; reflexivity|]. split; [vm_compute; reflexivity|]. vm_compute; reflexivity. Qed.
Lemma bar_missed : exists (vs : list (vec2 f32)) (po : polygon f32) (e : edge f32) (m' : manifold f32),
  polygon_set polygon_default vs = Ok po /\ e = set_two_sided edge_default (V2 (nofZ 0) (nofZ 0)) (V2 (nofZ 1) (nofZ 0)) /\
  polygon_test_point po xf_id (ed_v1 e) = Ok true /\ polygon_test_point po xf_id (ed_v2 e) = Ok true /\ b2_collide_edge_and_polygon mf0 e xf_id po xf_id = Ok m' /\ mf_count m' = 0%nat.
Proof.
  destruct keel_facts as (A & B & C). exists keel_points, keel, bar. apply count_mf_some in C as (m' & C1 & C2). exists m'.
  split; [exact keel_set|]. split; [reflexivity|]. split; [apply is_true_eq, A|]. split; [apply is_true_eq, B|]. split; [exact C1|exact C2].
Qed.
(** ** a one-sided edge pushes a polygon whose centre is in front of it to the back *)
Definition tip_points : list (vec2 f32) := [V2 (nneg (nofZ 1)) (nlit 11 10); V2 (nofZ 0) (nneg (nlit 15 10)); V2 (nofZ 1) (nlit 11 10)].
Definition plank : edge f32 := set_one_sided edge_default (V2 (nofZ 4) (nofZ 0)) (V2 (nofZ 2) (nofZ 0)) (V2 (nneg (nofZ 2)) (nofZ 0)) (V2 (nneg (nofZ 4)) (nofZ 0)).
Definition pushes_back (r : res (manifold f32)) (n : vec2 f32) : bool :=
  match r with Ok m => Nat.eqb (mf_count m) 2 && match mf_type m with MFaceA => true | _ => false end && nlt (b2_dot n (mf_local_normal m)) (nofZ 0) | _ => false end.
Definition right_side (e : edge f32) : vec2 f32 := let d := vsub (ed_v2 e) (ed_v1 e) in V2 (vy d) (nneg (vx d)).
Definition tip : polygon f32 := match polygon_set polygon_default tip_points with Ok po => po | _ => box1 end.
Lemma tip_set : polygon_set polygon_default tip_points = Ok tip.
Proof.
  assert (E : ok_res (polygon_set polygon_default tip_points) = true) by (vm_compute; reflexivity). unfold tip.
  destruct (polygon_set polygon_default tip_points); try discriminate. reflexivity.
Qed.
Lemma tip_facts : nlt (nofZ 0) (b2_dot (right_side plank) (vsub (po_centroid tip) (ed_v1 plank))) = true /\ pushes_back (b2_collide_edge_and_polygon mf0 plank xf_id tip xf_id) (right_side plank) = true.
Proof. split; vm_compute; reflexivity. Qed.
Lemma pushes_some r n : pushes_back r n = true -> exists m, r = Ok m /\ mf_count m = 2%nat /\ mf_type m = MFaceA /\ nlt (b2_dot n (mf_local_normal m)) (nofZ 0) = true.
Proof.
  unfold pushes_back. destruct r as [m| |]; try discriminate. intros B. exists m. apply andb_prop in B as (B & B3). apply andb_prop in B as (B1 & B2). apply Nat.eqb_eq in B1. split; [reflexivity|]. split; [exact B1|]. split; [|exact B3]. destruct (mf_type m); try discriminate; reflexivity.
Qed.
Lemma plank_back : exists (vs : list (vec2 f32)) (po : polygon f32) (e : edge f32) (m' : manifold f32), let n := V2 (vy (vsub (ed_v2 e) (ed_v1 e))) (nneg (vx (vsub (ed_v2 e) (ed_v1 e)))) in
  polygon_set polygon_default vs = Ok po /\ ed_one_sided e = true /\ nlt (nofZ 0) (b2_dot n (vsub (po_centroid po) (ed_v1 e))) = true /\
  b2_collide_edge_and_polygon mf0 e xf_id po xf_id = Ok m' /\ mf_count m' = 2%nat /\ mf_type m' = MFaceA /\ nlt (b2_dot n (mf_local_normal m')) (nofZ 0) = true.
Proof.
  destruct tip_facts as (A & B). exists tip_points, tip, plank. apply pushes_some in B as (m' & B1 & B2 & B3 & B4). exists m'. cbv zeta.
  split; [exact tip_set|]. split; [reflexivity|]. split; [exact A|]. split; [exact B1|]. split; [exact B2|]. split; [exact B3|exact B4].
Qed.

Local Open Scope R_scope.
(** ** a box that hangs under an edge; the front of the edge is below *)
Definition floor (one : bool) : edge R := Edge (1 / 100) (V2 (-1) 0) (V2 0 0) (V2 4 0) (V2 5 0) one.
Definition at_xy (x y : R) : xform R := Xf (V2 x y) (Rot 0 1).
Definition hung : xform R := at_xy 2 (-1).
Lemma box1_corner x y w : corner (@box1 R _) (at_xy x y) w -> (vx w = x - 1 \/ vx w = x + 1) /\ (vy w = y - 1 \/ vy w = y + 1).
Proof.
  intros (j & v & Hj & Ev & ->). unfold box1, set_as_box, put, box_vertices in *. cbn [po_count po_vertices app] in *.
  destruct j as [|[|[|[|j]]]]; [| | | |lia]; cbn in Ev; injection Ev as <-; unfold place, at_xy; cbn; split; lra.
Qed.
Lemma box1_corners x y a b : (a = -1 \/ a = 1) -> (b = -1 \/ b = 1) -> corner (@box1 R _) (at_xy x y) (V2 (x + a) (y + b)).
Proof.
  assert (K : forall j v, (j < 4)%nat -> nth_error (box_vertices (T := R) (nofZ 1) (nofZ 1)) j = Some v -> corner (@box1 R _) (at_xy x y) (place (at_xy x y) v)).
  { intros j v Hj E. exists j, v. unfold box1, set_as_box, put. cbn [po_count po_vertices]. split; [exact Hj|]. split; [|reflexivity]. rewrite nth_error_app1; [exact E|]. exact Hj. }
  assert (G : forall j v w, (j < 4)%nat -> nth_error (box_vertices (T := R) (nofZ 1) (nofZ 1)) j = Some v -> place (at_xy x y) v = w -> corner (@box1 R _) (at_xy x y) w) by (intros j v w Hj E <-; eauto).
  intros [->| ->] [->| ->]; [apply (G 0%nat (V2 (-1) (-1)))|apply (G 3%nat (V2 (-1) 1))|apply (G 1%nat (V2 1 (-1)))|apply (G 2%nat (V2 1 1))]; try lia; try (cbn; repeat f_equal; lra); unfold place, at_xy; cbn; f_equal; ring.
Qed.
Lemma box1_face x y i n p p' : face (@box1 R _) (at_xy x y) i n p p' ->
  (n = V2 0 (-1) /\ p = V2 (x - 1) (y - 1) /\ p' = V2 (x + 1) (y - 1)) \/ (n = V2 1 0 /\ p = V2 (x + 1) (y - 1) /\ p' = V2 (x + 1) (y + 1)) \/
  (n = V2 0 1 /\ p = V2 (x + 1) (y + 1) /\ p' = V2 (x - 1) (y + 1)) \/ (n = V2 (-1) 0 /\ p = V2 (x - 1) (y + 1) /\ p' = V2 (x - 1) (y - 1)).
Proof.
  intros (Hi & m & a & b & Em & Ea & Eb & -> & -> & ->). unfold box1, set_as_box, put, box_vertices, box_normals in *. cbn [po_count po_vertices po_normals app] in *.
  destruct i as [|[|[|[|i]]]]; [left|right; left|right; right; left|right; right; right|lia]; cbn in Em, Ea, Eb; injection Em as <-; injection Ea as <-; injection Eb as <-; unfold turned, place, at_xy; cbn; repeat split; f_equal; lra.
Qed.
Lemma max_big : 100 <= (B2_MAX_FLOAT : R).
Proof. unfold B2_MAX_FLOAT; cbn; lra. Qed.
Lemma eps_val : (B2_EPSILON : R) * B2_EPSILON <= 1.
Proof. unfold B2_EPSILON, nlit; cbn; lra. Qed.
Lemma floor_right one n : right_of (floor one) n <-> n = V2 0 (-1).
Proof.
  unfold right_of, right_along, unit_vec, floor. cbn [ed_v1 ed_v2 vx vy]. split.
  - intros (U & k & K & X & Y). destruct n as [a b]; cbn [vx vy] in *. assert (a = 0) by nra. subst a. assert (b = -1) by nra. now subst.
  - intros ->. cbn [vx vy]. split; [lra|]. exists 4. lra.
Qed.
Lemma floor_side one n : side_of (floor one) n <-> n = V2 0 (-1) \/ n = V2 0 1.
Proof.
  unfold side_of. rewrite !floor_right. unfold opposite. destruct n as [a b]; cbn [vx vy]. split.
  - intros [H|H]; injection H as A B; [left|right]; f_equal; lra.
  - intros [H|H]; injection H as A B; [left|right]; f_equal; lra.
Qed.
Lemma floor_apt one y : -2 <= y <= 2 -> apt (floor one) xf_id (@box1 R _) (at_xy 2 y) (at_xy 2 y).
Proof.
  intros Hy. pose proof eps_val as Ev. pose proof max_big as Mb. split; [exact xf_id_unit|]. split; [unfold unit_rot; cbn; lra|]. split; [split; [unfold unit_rot; cbn; lra|intros v; now rewrite place_id]|]. split; [exact box1_proper|].
  split; [unfold dist2, floor; cbn [ed_v1 ed_v2 vx vy]; lra|]. split; [intros _; unfold dist2, floor; cbn [ed_v0 ed_v1 ed_v2 ed_v3 vx vy]; lra|].
  intros w Cw. apply box1_corner in Cw. unfold dist2, floor; cbn [ed_v1 ed_v2 vx vy]. assert (10000 <= (B2_MAX_FLOAT : R) * B2_MAX_FLOAT) by nra. assert (-3 <= vy w <= 3) by lra. assert (1 <= vx w <= 3) by lra. split; nra.
Qed.
Lemma hung_gap one i n p p' : face (@box1 R _) hung i n p p' -> Rmin (dotp n (minus (ed_v1 (floor one)) p)) (dotp n (minus (ed_v2 (floor one)) p)) <= 0.
Proof.
  intros F. apply box1_face in F. unfold floor. cbn [ed_v1 ed_v2]. destruct F as [(-> & -> & _)|[(-> & -> & _)|[(-> & -> & _)|(-> & -> & _)]]]; unfold dotp, minus; cbn [vx vy]; unfold Rmin; destruct (Rle_dec _ _); lra.
Qed.
Lemma hung_side one n w : best_side (floor one) (@box1 R _) hung n w -> n = V2 0 (-1) /\ over_edge (floor one) w.
Proof.
  intros (Hs & (Cw & Dw) & Be). apply box1_corner in Cw as Cx. unfold over_edge, floor in *. cbn [ed_v1 ed_v2] in *. apply (floor_side one) in Hs as [->| ->].
  - split; [reflexivity|]. unfold dotp, minus; cbn [vx vy]. lra.
  - exfalso. destruct (Be (V2 0 (-1))) as (w' & Cw' & L); [apply (floor_side one); now left|]. pose proof (Dw _ (box1_corners 2 (-1) 1 (-1) ltac:(lra) ltac:(lra))) as D. apply box1_corner in Cw'. unfold dotp, minus in *; cbn [vx vy] in *. lra.
Qed.
Lemma hung_face one i n p p' w : ~ best_face (floor one) (@box1 R _) hung (1 / 50) i n p p' w.
Proof.
  intros (F & (_ & D1 & D2) & _ & Be). destruct (Be (V2 0 (-1))) as (w' & Cw' & L); [apply floor_side; now left|]. apply (hung_gap one) in F. apply box1_corner in Cw'. unfold preferred, Rmin in *. destruct (Rle_dec _ _); unfold dotp, minus, floor in *; cbn [ed_v1 ed_v2 vx vy] in *; lra.
Qed.
Lemma hung_not one : ~ apart_side (floor one) (@box1 R _) hung (1 / 50) /\ ~ apart_face (floor one) (@box1 R _) hung (1 / 50) /\ ~ beside_side (floor one) (@box1 R _) hung (1 / 50) /\ ~ beside_face (floor one) (@box1 R _) hung (1 / 50) /\ ~ dropped (floor one) (@box1 R _) hung (1 / 50).
Proof.
  split; [|split; [|split; [|split]]].
  - intros (n & Hs & H). apply floor_side in Hs as [->| ->].
    + specialize (H _ (box1_corners 2 (-1) 1 1 ltac:(lra) ltac:(lra))). unfold dotp, minus in H; cbn [vx vy floor ed_v1] in H. lra.
    + specialize (H _ (box1_corners 2 (-1) 1 (-1) ltac:(lra) ltac:(lra))). unfold dotp, minus in H; cbn [vx vy floor ed_v1] in H. lra.
  - intros (i & n & p & p' & F & A & B). apply (hung_gap one) in F. unfold Rmin in F. destruct (Rle_dec _ _); lra.
  - intros (n & w & (Be & No) & _). apply hung_side in Be as (_ & Ov). contradiction.
  - intros (i & n & p & p' & w & Be & _). exact (hung_face _ _ _ _ _ _ Be).
  - intros (_ & [(n & Hn & B)|[(n & Di & Ne)|(n & w & Be & No)]]).
    + apply floor_right in Hn as ->. unfold dotp, minus, place, hung, at_xy, floor in B; cbn in B. lra.
    + destruct Di as [(w & Be & _)|(i & f & p & p' & w & Be & _)]; [|exact (hung_face _ _ _ _ _ _ Be)]. apply hung_side in Be as (-> & _).
      destruct Ne as [(_ & _ & m & Hm & C)|(C & _)]; [|unfold dotp, minus, floor in C; cbn in C; lra]. unfold right_along, unit_vec, floor in Hm. cbn [ed_v0 ed_v1 vx vy] in Hm. destruct Hm as (U & k & K & X & Y). assert (vx m = 0) by nra. unfold crossp in C; cbn [vx vy] in C. lra.
    + apply hung_side in Be as (_ & Ov). contradiction.
Qed.
Lemma hung_radius one : po_radius (@box1 R _) + ed_radius (floor one) = 1 / 50.
Proof. rewrite box1_radius. cbn. lra. Qed.
Lemma hung_ex one : apt (floor one) xf_id (@box1 R _) hung hung /\ length (mf_points (@mf0 R _)) = 2%nat /\
  exists m', b2_collide_edge_and_polygon mf0 (floor one) xf_id (@box1 R _) hung = Ok m' /\ (0 < mf_count m')%nat /\ mf_type m' = MFaceA /\ right_of (floor one) (V2 0 (-1)) /\ mostly_front (floor one) (@box1 R _) hung (V2 0 (-1)).
Proof.
  assert (Ap : apt (floor one) xf_id (@box1 R _) hung hung) by (apply floor_apt; lra). split; [exact Ap|]. split; [reflexivity|]. destruct (edge_polygon_returns (@mf0 R _) _ _ _ _ _ Ap eq_refl) as (m' & E & _). exists m'. split; [exact E|].
  destruct (hung_not one) as (N1 & N2 & N3 & N4 & N5).
  assert (C : (0 < mf_count m')%nat). { destruct (mf_count m') eqn:C; [exfalso|lia]. pose proof (edge_polygon_missed (@mf0 R _) _ _ _ _ _ Ap eq_refl m' E C) as K. rewrite hung_radius in K. tauto. }
  split; [exact C|]. split.
  - destruct (edge_polygon_points (@mf0 R _) _ _ _ _ _ Ap eq_refl m' E C) as (_ & _ & [(T & _)|(_ & P)]); [exact T|]. destruct P as (i & n & p & p' & w & Be & _). rewrite hung_radius in Be. destruct (hung_face _ _ _ _ _ _ Be).
  - split; [now apply floor_right|]. exists (V2 (2 + 1) (-1 + -1)). split; [apply box1_corners; lra|]. intros w Cw. apply box1_corner in Cw. unfold dotp, minus, floor; cbn [ed_v1 vx vy]. lra.
Qed.
(* further below it is apart *)
Lemma hung_far one : apt (floor one) xf_id (@box1 R _) (at_xy 2 (-2)) (at_xy 2 (-2)) /\ apart_side (floor one) (@box1 R _) (at_xy 2 (-2)) (po_radius (@box1 R _) + ed_radius (floor one)).
Proof.
  split; [apply floor_apt; lra|]. rewrite hung_radius. exists (V2 0 (-1)). split; [apply floor_side; now left|]. intros w Cw. apply box1_corner in Cw. unfold dotp, minus, floor; cbn [ed_v1 vx vy]. lra.
Qed.
(* above it is behind *)
Lemma hung_behind : apt (floor true) xf_id (@box1 R _) (at_xy 2 1) (at_xy 2 1) /\ behind (floor true) (@box1 R _) (at_xy 2 1).
Proof.
  split; [apply floor_apt; lra|]. exists (V2 0 (-1)). split; [now apply floor_right|]. unfold dotp, minus, place, at_xy, floor; cbn. lra.
Qed.
