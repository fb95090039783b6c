(** Property theorems: shapes and circle contacts. *)
From Coq Require Import ZArith Reals Lra Lia Bool List Arith.
From Verif Require Import Base Num NumLaws Math Collision Manifold MathSpec GeomSpec ShapeModel CollideModel ShapeSpec ShapeProofs ShapeExamples.
Import ListNotations.

(** ** C41: exact real arithmetic *)
(* partial: entries at fractions up to 0.032 are missed (see the refutation); above 0.032 the cast is exact.
   The polygon is the intersection of the inner half planes of its edges. *)
Theorem C41_polygon_ray_cast_partial : forall (po : polygon R) (inp : ray_input R) (xf : xform R),
  let p1 := ray_p1 inp in let p2 := ray_p2 inp in
  poly_sized po -> unit_rot (xq xf) ->
  exists o, polygon_ray_cast po inp xf = Ok o /\
  match o with
  | Some out => let f := ray_fraction out in
      (32 / 1000 < f <= ray_max inp)%R /\ in_polygon po xf (along p1 p2 f) /\ (forall t, (t < f)%R -> ~ in_polygon po xf (along p1 p2 t)) /\
      crosses_edge po xf p1 p2 f (ray_normal out)
  | None => forall f, (32 / 1000 < f <= ray_max inp)%R -> in_polygon po xf (along p1 p2 f) ->
      exists t, (0 <= t < f)%R /\ in_polygon po xf (along p1 p2 t)
  end.
Proof. exact polygon_ray_ok. Qed.
Print Assumptions C41_polygon_ray_cast_partial.
Example C41_ex : exists out, polygon_ray_cast box1 (RayIn (V2 (-3) 0)%R (V2 1 0)%R 1%R) xf_id = Ok (Some out) /\ (ray_fraction out = 1 / 2)%R.
Proof. exact polygon_ray_ex. Qed.
(* single precision: start outside, end inside, no hit reported *)
Theorem C41_polygon_ray_cast_refuted : exists (po : polygon f32) (inp : ray_input f32) (xf : xform f32),
  polygon_test_point po xf (ray_p1 inp) = Ok false /\ polygon_test_point po xf (ray_p2 inp) = Ok true /\ ray_max inp = nofZ 1 /\
  polygon_ray_cast po inp xf = Ok None.
Proof. exact short_entry_refutes. Qed.
Print Assumptions C41_polygon_ray_cast_refuted.
(* the same over exact reals: the ray enters at 1/101 and no hit is reported *)
Theorem C41_polygon_ray_cast_exact_refuted : exists (po : polygon R) (inp : ray_input R) (xf : xform R) (f : R),
  poly_sized po /\ unit_rot (xq xf) /\ (0 <= f <= ray_max inp)%R /\ in_polygon po xf (along (ray_p1 inp) (ray_p2 inp) f) /\
  (forall t, (t < f)%R -> ~ in_polygon po xf (along (ray_p1 inp) (ray_p2 inp) t)) /\ polygon_ray_cast po inp xf = Ok None.
Proof. exact short_entry_refutes_R. Qed.
Print Assumptions C41_polygon_ray_cast_exact_refuted.

(** ** C42: exact real arithmetic *)
(* partial: the radius and the squared ray length are at least B2_EPSILON *)
Theorem C42_circle_ray_cast_partial : forall (c : circle R) (inp : ray_input R) (xf : xform R),
  let p1 := ray_p1 inp in let p2 := ray_p2 inp in let center := place xf (ci_p c) in let r := ci_radius c in
  (B2_EPSILON <= r -> B2_EPSILON <= dist2 p2 p1 ->
  match circle_ray_cast c inp xf with
  | Some out => let f := ray_fraction out in let n := ray_normal out in
      0 <= f <= ray_max inp /\ dist2 (along p1 p2 f) center = r * r /\
      (forall t, t < f -> r * r < dist2 (along p1 p2 t) center) /\
      unit_vec n /\ minus (along p1 p2 f) center = V2 (r * vx n) (r * vy n) /\ dotp n (minus p2 p1) <= 0
  | None => r * r < dist2 p1 center -> forall t, 0 <= t <= ray_max inp -> r * r < dist2 (along p1 p2 t) center
  end)%R.
Proof. exact circle_ray_ok. Qed.
Print Assumptions C42_circle_ray_cast_partial.
Example C42_circle_ex : exists out, circle_ray_cast (Circle 1 (V2 0 0))%R (RayIn (V2 (-3) 0)%R (V2 1 0)%R 1%R) xf_id = Some out /\ (ray_fraction out = 1 / 2)%R.
Proof. exact circle_ray_ex. Qed.
(* partial: the edge is at least B2_EPSILON long; the normal faces the ray unless the ray starts on the line of the edge *)
Theorem C42_edge_ray_cast_partial : forall (e : edge R) (inp : ray_input R) (xf : xform R) (out : ray_output R),
  let p1 := ray_p1 inp in let p2 := ray_p2 inp in
  (unit_rot (xq xf) -> B2_EPSILON <= sqrt (dist2 (ed_v2 e) (ed_v1 e)) ->
  edge_ray_cast e inp xf = Some out ->
  0 <= ray_fraction out <= ray_max inp /\ on_segment (place xf (ed_v1 e)) (place xf (ed_v2 e)) (along p1 p2 (ray_fraction out)) /\
  unit_vec (ray_normal out) /\ dotp (ray_normal out) (minus (place xf (ed_v2 e)) (place xf (ed_v1 e))) = 0 /\
  (dotp (ray_normal out) (minus p1 (place xf (ed_v1 e))) <> 0 -> dotp (ray_normal out) (minus p2 p1) < 0))%R.
Proof. exact edge_ray_sound. Qed.
Print Assumptions C42_edge_ray_cast_partial.
(* a two-sided edge misses no crossing of a ray that is not parallel to it *)
Theorem C42_edge_ray_cast_complete : forall (e : edge R) (inp : ray_input R) (xf : xform R) (f : R),
  let p1 := ray_p1 inp in let p2 := ray_p2 inp in
  (unit_rot (xq xf) -> B2_EPSILON <= sqrt (dist2 (ed_v2 e) (ed_v1 e)) -> ed_one_sided e = false ->
  (vx p2 - vx p1) * (vy (place xf (ed_v2 e)) - vy (place xf (ed_v1 e))) - (vy p2 - vy p1) * (vx (place xf (ed_v2 e)) - vx (place xf (ed_v1 e))) <> 0 ->
  0 <= f <= ray_max inp -> on_segment (place xf (ed_v1 e)) (place xf (ed_v2 e)) (along p1 p2 f) ->
  exists out, edge_ray_cast e inp xf = Some out /\ ray_fraction out = f)%R.
Proof. exact edge_ray_complete. Qed.
Print Assumptions C42_edge_ray_cast_complete.
Example C42_edge_ex : exists out, edge_ray_cast edge01 (RayIn (V2 (1 / 2) 1)%R (V2 (1 / 2) (-1))%R 1%R) xf_id = Some out /\ (ray_fraction out = 1 / 2)%R.
Proof. exact edge_ray_ex. Qed.
(* single precision: a short ray into a small circle is not reported *)
Theorem C42_short_ray_refuted : exists (c : circle f32) (inp : ray_input f32) (xf : xform f32),
  circle_test_point c xf (ray_p1 inp) = false /\ circle_test_point c xf (ray_p2 inp) = true /\ ray_max inp = nofZ 1 /\
  circle_ray_cast c inp xf = None.
Proof. exact tiny_ray_refutes. Qed.
Print Assumptions C42_short_ray_refuted.
(* single precision: a ray that starts on the edge gets a normal that points along the ray *)
Theorem C42_start_on_edge_refuted : exists (e : edge f32) (inp : ray_input f32) (xf : xform f32) (out : ray_output f32),
  edge_ray_cast e inp xf = Some out /\ nlt (nofZ 0) (b2_dot (ray_normal out) (vsub (ray_p2 inp) (ray_p1 inp))) = true.
Proof. exact on_edge_refutes. Qed.
Print Assumptions C42_start_on_edge_refuted.

(** ** C43: exact real arithmetic *)
Theorem C43_circle_box : forall (c : circle R) (xf : xform R) (p : vec2 R), (0 <= ci_radius c)%R ->
  near xf (fun a => a = ci_p c) (ci_radius c) p -> in_box (circle_aabb c xf) p.
Proof. exact circle_aabb_ok. Qed.
Print Assumptions C43_circle_box.
Theorem C43_edge_box : forall (e : edge R) (xf : xform R) (p : vec2 R), (0 <= ed_radius e)%R ->
  near xf (on_segment (ed_v1 e) (ed_v2 e)) (ed_radius e) p -> in_box (edge_aabb e xf) p.
Proof. exact (fun e xf p => segment_aabb_ok (ed_radius e) xf (ed_v1 e) (ed_v2 e) p). Qed.
Print Assumptions C43_edge_box.
Theorem C43_polygon_box : forall (po : polygon R) (xf : xform R), poly_sized po -> (0 <= po_radius po)%R ->
  exists b, polygon_aabb po xf = Ok b /\ forall p, near xf (in_hull (used_vertices po)) (po_radius po) p -> in_box b p.
Proof. exact polygon_aabb_ok. Qed.
Print Assumptions C43_polygon_box.
Theorem C43_chain_box : forall (c : chain R) (xf : xform R) (i : nat) (a b : vec2 R), (0 <= ch_radius c)%R ->
  nth_error (ch_vertices c) i = Some a -> nth_error (ch_vertices c) (S i) = Some b ->
  exists bx, chain_aabb c xf i = Ok bx /\ forall p, near xf (on_segment a b) (ch_radius c) p -> in_box bx p.
Proof. exact chain_aabb_ok. Qed.
Print Assumptions C43_chain_box.
Example C43_ex : near xf_id (in_hull (used_vertices (@box1 R _))) (1 / 100)%R (V2 (1 + 1 / 100) 0)%R.
Proof. exact polygon_aabb_ex. Qed.

(** ** C44: exact real arithmetic *)
Theorem C44_circle_test_point : forall (c : circle R) (xf : xform R) (p : vec2 R), (0 <= ci_radius c)%R ->
  (circle_test_point c xf p = true <-> (sqrt (dist2 p (place xf (ci_p c))) <= ci_radius c)%R).
Proof. exact circle_test_ok. Qed.
Print Assumptions C44_circle_test_point.
Theorem C44_polygon_test_point : forall (po : polygon R) (xf : xform R) (p : vec2 R), poly_sized po -> unit_rot (xq xf) ->
  exists b, polygon_test_point po xf p = Ok b /\ (b = true <-> in_polygon po xf p).
Proof. exact polygon_test_ok. Qed.
Print Assumptions C44_polygon_test_point.
Theorem C44_box_test_point : forall (po : polygon R) (hx hy : R) (xf : xform R) (p : vec2 R), unit_rot (xq xf) ->
  exists b, polygon_test_point (set_as_box po hx hy) xf p = Ok b /\
    (b = true <-> exists a, p = place xf a /\ (- hx <= vx a <= hx)%R /\ (- hy <= vy a <= hy)%R).
Proof. exact box_test_ok. Qed.
Print Assumptions C44_box_test_point.
Example C44_ex : poly_sized (@box1 R _) /\ in_polygon box1 xf_id (V2 1 0)%R /\ ~ in_polygon box1 xf_id (V2 2 0)%R.
Proof. exact in_box_ex. Qed.

(** ** C45: exact real arithmetic *)
Theorem C45_circles_touch : forall (m : manifold R) (a : circle R) (xf_a : xform R) (b : circle R) (xf_b : xform R),
  length (mf_points m) = 2%nat -> (0 <= ci_radius a)%R -> (0 <= ci_radius b)%R ->
  exists m', b2_collide_circles m a xf_a b xf_b = Ok m' /\
    (mf_count m' = 1%nat <-> (sqrt (dist2 (place xf_a (ci_p a)) (place xf_b (ci_p b))) <= ci_radius a + ci_radius b)%R) /\
    (mf_count m' = 0%nat <-> (ci_radius a + ci_radius b < sqrt (dist2 (place xf_a (ci_p a)) (place xf_b (ci_p b))))%R).
Proof. exact collide_circles_ok. Qed.
Print Assumptions C45_circles_touch.
Theorem C45_circles_symmetric : forall (m : manifold R) (a : circle R) (xf_a : xform R) (b : circle R) (xf_b : xform R),
  length (mf_points m) = 2%nat -> (0 <= ci_radius a)%R -> (0 <= ci_radius b)%R ->
  exists m1 m2, b2_collide_circles m a xf_a b xf_b = Ok m1 /\ b2_collide_circles m b xf_b a xf_a = Ok m2 /\ mf_count m1 = mf_count m2.
Proof. exact collide_circles_sym. Qed.
Print Assumptions C45_circles_symmetric.
Example C45_ex : length (mf_points (@manifold_default R _)) = 2%nat /\
  (sqrt (dist2 (place xf_id (V2 0 0)) (place xf_id (V2 2 0))) <= 1 + 1)%R.
Proof. exact touch_ex. Qed.

(** ** C51: any numbers *)
Theorem C51_chain_children : forall (T : Type) (NT : Num T) (c : chain T) (vs : list (vec2 T)) (p n : vec2 T),
  ch_vertices c = [] -> 2 <= length vs ->
  (forall i a b, nth_error vs i = Some a -> nth_error vs (S i) = Some b ->
    nlt (nmul B2_LINEAR_SLOP B2_LINEAR_SLOP) (b2_distance_vec2_squared a b) = true) ->
  exists c', create_chain c vs p n = Ok c' /\ chain_child_count c' = Ok (length vs - 1) /\
    forall i, i < length vs - 1 -> exists e, get_child_edge c' i = Ok e /\ ed_one_sided e = true /\
      nth_error vs i = Some (ed_v1 e) /\ nth_error vs (S i) = Some (ed_v2 e) /\
      match i with O => ed_v0 e = p | S j => nth_error vs j = Some (ed_v0 e) end /\
      match nth_error vs (S (S i)) with Some v => ed_v3 e = v | None => ed_v3 e = n end.
Proof. exact @chain_ok. Qed.
Print Assumptions C51_chain_children.
Theorem C51_loop_children : forall (T : Type) (NT : Num T) (c : chain T) (vs : list (vec2 T)),
  ch_vertices c = [] -> 3 <= length vs ->
  (forall i a b, nth_error vs i = Some a -> nth_error vs (S i) = Some b ->
    nlt (nmul B2_LINEAR_SLOP B2_LINEAR_SLOP) (b2_distance_vec2_squared a b) = true) ->
  let n := length vs in
  exists c', create_loop c vs = Ok c' /\ chain_child_count c' = Ok n /\
    forall i, i < n -> exists e, get_child_edge c' i = Ok e /\ ed_one_sided e = true /\
      nth_error vs i = Some (ed_v1 e) /\ nth_error vs ((i + 1) mod n) = Some (ed_v2 e) /\
      nth_error vs ((i + n - 1) mod n) = Some (ed_v0 e) /\ nth_error vs ((i + 2) mod n) = Some (ed_v3 e).
Proof. exact @loop_ok. Qed.
Print Assumptions C51_loop_children.
Theorem C51_child_access : forall (T : Type) (NT : Num T) (c : chain T) (inp : ray_input T) (xf : xform T) (i : nat),
  i < length (ch_vertices c) -> (exists o, chain_ray_cast c inp xf i = Ok o) /\ (exists b, chain_aabb c xf i = Ok b).
Proof. exact @chain_access. Qed.
Print Assumptions C51_child_access.
Example C51_ex : (forall i a b, nth_error (@zig f32 _) i = Some a -> nth_error zig (S i) = Some b ->
    nlt (nmul B2_LINEAR_SLOP B2_LINEAR_SLOP) (b2_distance_vec2_squared a b) = true) /\
  count_is (create_chain chain0 zig vzero vzero) 2 = true /\ count_is (create_loop chain0 zig) 3 = true.
Proof. exact (conj zig_spaced chains_ex). Qed.

(** ** C52: exact real arithmetic *)
Theorem C52_circle_mass : forall (c : circle R) (rho : R), let m := circle_mass c rho in let r := ci_radius c in
  (md_mass m = rho * (PI * (r * r)) /\ md_center m = ci_p c /\
  md_i m = md_mass m * (r * r) / 2 + md_mass m * dotp (ci_p c) (ci_p c))%R.
Proof. exact circle_mass_ok. Qed.
Print Assumptions C52_circle_mass.
Theorem C52_box_mass : forall (po : polygon R) (hx hy rho : R), (B2_EPSILON < 4 * (hx * hy))%R ->
  exists m, polygon_mass (set_as_box po hx hy) rho = Ok m /\
    (md_mass m = 4 * rho * (hx * hy) /\ md_center m = V2 0 0 /\ md_i m = 4 / 3 * rho * (hx * hy) * (hx * hx + hy * hy))%R.
Proof. exact box_mass_ok. Qed.
Print Assumptions C52_box_mass.
Example C52_ex : (B2_EPSILON < 4 * (1 / 2 * 3))%R.
Proof. exact mass_ex. Qed.
