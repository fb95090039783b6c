(** Property theorems: filters, clipping, boxes, math helpers. *)
From Coq Require Import ZArith Reals Lra Lia Bool List Arith.
From Verif Require Import Base Num NumLaws Math Collision Manifold Filter MathSpec GeomSpec RTac MathProofs ManifoldProofs MathExamples.
Import ListNotations.

(** ** C16 *)
Theorem C16_filter_symmetric : forall a b : filter, should_collide a b = should_collide b a.
Proof. exact filter_sym. Qed.
Print Assumptions C16_filter_symmetric.
Theorem C16_filter_group : forall a b : filter, group_index a = group_index b -> group_index a <> 0%Z ->
  (should_collide a b = true <-> (0 < group_index a)%Z).
Proof. exact filter_group. Qed.
Print Assumptions C16_filter_group.
Theorem C16_filter_bits : forall a b : filter,
  (group_index a <> group_index b \/ group_index a = 0%Z) -> (0 <= mask_bits a)%Z -> (0 <= category_bits a)%Z ->
  (should_collide a b = true <-> common_bit (mask_bits a) (category_bits b) /\ common_bit (category_bits a) (mask_bits b)).
Proof. exact filter_mask. Qed.
Print Assumptions C16_filter_bits.
Example C16_ex : should_collide filter_default (Filter 2 5 0) = true /\ should_collide filter_default (Filter 2 4 0) = false /\
  should_collide (Filter 1 65535 (-3)) (Filter 1 65535 (-3)) = false /\ should_collide (Filter 1 0 7) (Filter 1 0 7) = true.
Proof. repeat split. Qed.

(** ** C46: exact real arithmetic *)
Theorem C46_clip_is_exact : forall (v0 v1 : clip_vertex R) (n : vec2 R) (offset : R) (ia : nat),
  exists out, b2_clip_segment_to_line v0 v1 n offset ia = Ok out /\
    forall p, spanned (map cv_v out) p <-> (on_segment (cv_v v0) (cv_v v1) p /\ half_plane n offset p).
Proof. exact clip_ok. Qed.
Print Assumptions C46_clip_is_exact.
Theorem C46_clip_keeps_inside : forall (v0 v1 : clip_vertex R) (n : vec2 R) (offset : R) (ia : nat),
  half_plane n offset (cv_v v0) -> half_plane n offset (cv_v v1) -> b2_clip_segment_to_line v0 v1 n offset ia = Ok [v0; v1].
Proof. exact clip_keeps. Qed.
Print Assumptions C46_clip_keeps_inside.
Theorem C46_clip_output : forall (v0 v1 : clip_vertex R) (n : vec2 R) (offset : R) (ia : nat) (out : list (clip_vertex R)),
  b2_clip_segment_to_line v0 v1 n offset ia = Ok out ->
  (length out <= 2)%nat /\ forall v, In v out -> v = v0 \/ v = v1 \/
    (cv_id v = CId (as_u8 ia) (index_b (cv_id v0)) EVertex EFace /\ (vx n * vx (cv_v v) + vy n * vy (cv_v v))%R = offset).
Proof. exact clip_in_pair. Qed.
Print Assumptions C46_clip_output.
Example C46_ex : exists v0 v1 n offset, half_plane n offset (cv_v v0) /\ ~ half_plane n offset (cv_v v1) /\
  b2_clip_segment_to_line v0 v1 n offset 3 = Ok [v0; CV (V2 2 0)%R (CId 3 0 EVertex EFace)].
Proof. exact clip_ex. Qed.

(** ** C47: exact real arithmetic *)
(* partial: each component of the direction is 0 or at least the constant B2_EPSILON in absolute value, and the
   fraction limit is at most f32::MAX *)
Theorem C47_box_ray_cast_partial : forall (b : aabb R) (inp : ray_input R),
  let d := vsub (ray_p2 inp) (ray_p1 inp) in
  (vx (lo b) <= vx (hi b) -> vy (lo b) <= vy (hi b) ->
  (vx d = 0 \/ B2_EPSILON <= Rabs (vx d)) -> (vy d = 0 \/ B2_EPSILON <= Rabs (vy d)) -> ray_max inp <= B2_MAX_FLOAT ->
  match aabb_ray_cast b inp with
  | None => forall f, 0 <= f <= ray_max inp -> ~ enters b (ray_p1 inp) (ray_p2 inp) f
  | Some out => 0 <= ray_fraction out <= ray_max inp /\ enters b (ray_p1 inp) (ray_p2 inp) (ray_fraction out) /\
      unit_vec (ray_normal out) /\
      (vx (lo b) < vx (hi b) -> vy (lo b) < vy (hi b) -> vx (ray_normal out) * vx d + vy (ray_normal out) * vy d < 0)
  end)%R.
Proof. exact box_ray_ok. Qed.
Print Assumptions C47_box_ray_cast_partial.
Example C47_ex : (enters (AABB (V2 1 1) (V2 2 3)) (V2 0 0) (V2 4 4) (1 / 4))%R.
Proof. exact box_ray_ex. Qed.
(* a ray that is nearly parallel to an axis is treated as parallel and misses a box it enters *)
Theorem C47_nearly_parallel_refuted : exists (b : aabb R) (inp : ray_input R) (f : R),
  (vx (lo b) < vx (hi b) /\ vy (lo b) < vy (hi b) /\ ray_max inp <= B2_MAX_FLOAT /\ 0 <= f <= ray_max inp /\
   enters b (ray_p1 inp) (ray_p2 inp) f /\ aabb_ray_cast b inp = None)%R.
Proof. exact box_ray_refuted. Qed.
Print Assumptions C47_nearly_parallel_refuted.

(** ** C53: exact real arithmetic *)
Theorem C53_transform_algebra : forall (a b c : xform R) (v w : vec2 R) (q : rot R),
  unit_rot (xq a) -> unit_rot q ->
  b2_mul_t_transform a (b2_mul_transform a b) = b /\
  xfv_t a (xfv a v) = v /\ xfv a (xfv_t a v) = v /\
  b2_mul_transform a (b2_mul_transform b c) = b2_mul_transform (b2_mul_transform a b) c /\
  xfv (b2_mul_transform a b) v = xfv a (xfv b v) /\ xfv (b2_mul_t_transform a b) v = xfv_t a (xfv b v) /\
  b2_dot (rotv q v) (rotv q w) = b2_dot v w /\ rotv_t q (rotv q v) = v /\ rotv q (rotv_t q v) = v /\
  unit_rot (b2_mul_rot q (xq a)) /\ unit_rot (b2_mul_t_rot q (xq a)).
Proof. exact transform_algebra. Qed.
Print Assumptions C53_transform_algebra.
Theorem C53_angles_give_rotations : forall a : R, unit_rot (rot_of a).
Proof. exact rot_of_unit. Qed.
Print Assumptions C53_angles_give_rotations.
Theorem C53_solve22 : forall (m : mat22 R) (b : vec2 R),
  let '(a11, a12, a21, a22) := (vx (m2x m), vx (m2y m), vy (m2x m), vy (m2y m)) in
  (det2 a11 a12 a21 a22 <> 0%R -> solves2 a11 a12 a21 a22 (m22_solve m b) b /\
     solves2 a11 a12 a21 a22 (m2x (m22_inverse m)) (V2 1 0)%R /\ solves2 a11 a12 a21 a22 (m2y (m22_inverse m)) (V2 0 1)%R) /\
  (det2 a11 a12 a21 a22 = 0%R -> m22_solve m b = V2 0%R 0%R /\ m22_inverse m = M22 (V2 0 0)%R (V2 0 0)%R).
Proof. exact solve_mat22. Qed.
Print Assumptions C53_solve22.
Theorem C53_solve33 : forall (m : mat33 R) (b : vec3 R),
  (det3 m <> 0%R -> solves3 m (solve33 m b) b) /\ (det3 m = 0%R -> solve33 m b = V3 0 0 0)%R /\
  (symmetric3 m -> det3 m <> 0%R -> let i := get_sym_inverse33 m in
     solves3 m (m3x i) (V3 1 0 0)%R /\ solves3 m (m3y i) (V3 0 1 0)%R /\ solves3 m (m3z i) (V3 0 0 1)%R) /\
  (det3 m = 0%R -> get_sym_inverse33 m = M33 (V3 0 0 0) (V3 0 0 0) (V3 0 0 0))%R.
Proof. exact solve_mat33. Qed.
Print Assumptions C53_solve33.
Theorem C53_solve22_of_33 : forall (m : mat33 R) (b : vec2 R),
  let '(a11, a12, a21, a22) := (v3x (m3x m), v3x (m3y m), v3y (m3x m), v3y (m3y m)) in
  let i := get_inverse22 m in
  (det2 a11 a12 a21 a22 <> 0%R -> solves2 a11 a12 a21 a22 (solve22 m b) b /\
     solves2 a11 a12 a21 a22 (V2 (v3x (m3x i)) (v3y (m3x i))) (V2 1 0)%R /\
     solves2 a11 a12 a21 a22 (V2 (v3x (m3y i)) (v3y (m3y i))) (V2 0 1)%R /\
     v3z (m3x i) = 0%R /\ v3z (m3y i) = 0%R /\ m3z i = V3 0%R 0%R 0%R) /\
  (det2 a11 a12 a21 a22 = 0%R -> solve22 m b = V2 0%R 0%R /\ i = M33 (V3 0 0 0)%R (V3 0 0 0)%R (V3 0 0 0)%R).
Proof. exact solve_mat22_of_33. Qed.
Print Assumptions C53_solve22_of_33.
Theorem C53_sweep_end_poses : forall s : sweep R,
  pose_at (sw_local_center s) (sw_c0 s) (sw_a0 s) (sweep_get_transform s 0%R) /\
  pose_at (sw_local_center s) (sw_c s) (sw_a s) (sweep_get_transform s 1%R).
Proof. exact (fun s => conj (sweep_pose0 s) (sweep_pose1 s)). Qed.
Print Assumptions C53_sweep_end_poses.
Theorem C53_sweep_advance : forall (s : sweep R) (alpha : R), (sw_alpha0 s < 1)%R ->
  exists s', sweep_advance s alpha = Ok s' /\ sw_alpha0 s' = alpha /\
    sw_c s' = sw_c s /\ sw_a s' = sw_a s /\ sw_local_center s' = sw_local_center s /\
    forall t, sweep_get_transform s' t =
      sweep_get_transform s ((1 - t) * ((alpha - sw_alpha0 s) / (1 - sw_alpha0 s)) + t)%R.
Proof. exact sweep_advance_ok. Qed.
Print Assumptions C53_sweep_advance.
(* normalising the angles changes no pose *)
Theorem C53_sweep_normalize : forall s : sweep R,
  let s' := sweep_normalize s in
  (0 <= sw_a0 s' < 2 * PI)%R /\ (sw_a s' - sw_a0 s' = sw_a s - sw_a0 s)%R /\ forall t, sweep_get_transform s' t = sweep_get_transform s t.
Proof. exact sweep_normalize_ok. Qed.
Print Assumptions C53_sweep_normalize.
Example C53_ex : det3 (M33 (V3 2 1 0) (V3 1 2 0) (V3 0 0 1))%R = 3%R /\ symmetric3 (M33 (V3 2 1 0) (V3 1 2 0) (V3 0 0 1))%R /\
  unit_rot (Rot (3 / 5) (4 / 5))%R.
Proof. exact c53_ex. Qed.

(** ** C54 *)
Theorem C54_clamp_partial : forall (T : Type) (NT : Num T) (NO : NumOrd T) (a low high : T), nok a -> nle low high = true ->
  nle low (b2_clamp a low high) = true /\ nle (b2_clamp a low high) high = true /\
  (nle low a = true -> nle a high = true -> nle (b2_clamp a low high) a = true /\ nle a (b2_clamp a low high) = true).
Proof. exact @clamp_ok. Qed.
Print Assumptions C54_clamp_partial.
Example C54_ex : nle (b2_clamp (nofZ 7) (nofZ 1) (nofZ 5)) (nofZ 5 : f32) = true /\ nok (nofZ 7 : f32).
Proof. split; vm_compute; reflexivity. Qed.
(* the vector version never looks at the upper bound from above *)
Theorem C54_clamp_vec2_refuted : exists a low high : vec2 f32,
  nle (vx low) (vx high) = true /\ nle (vy low) (vy high) = true /\ nle (vx (b2_clamp_vec2 a low high)) (vx high) = false.
Proof. exact clamp_vec2_refuted. Qed.
Print Assumptions C54_clamp_vec2_refuted.

(** ** C55: exact real arithmetic *)
Theorem C55_mixing : forall a b : R, (0 <= a)%R -> (0 <= b)%R ->
  (b2_mix_friction a b * b2_mix_friction a b = a * b)%R /\ b2_mix_friction a b = b2_mix_friction b a /\
  (Rmin a b <= b2_mix_friction a b <= Rmax a b)%R /\
  b2_mix_restitution a b = Rmax a b /\ b2_mix_restitution_threshold a b = Rmin a b.
Proof. exact mixing. Qed.
Print Assumptions C55_mixing.
Example C55_ex : b2_mix_friction 4%R 9%R = 6%R.
Proof. exact mixing_ex. Qed.

(** ** C56 *)
Theorem C56_is_power_of_two : forall x : Z, (0 <= x)%Z -> (b2_is_power_of_two x = true <-> pow2 x).
Proof. exact is_pow2_ok. Qed.
Print Assumptions C56_is_power_of_two.
Theorem C56_next_power_of_two_partial : forall v : Z, (0 <= v < 2 ^ 31)%Z -> exists x, b2_next_power_of_two v = Ok x /\ least_pow2_above v x.
Proof. exact next_pow2_ok. Qed.
Print Assumptions C56_next_power_of_two_partial.
Example C56_ex : b2_next_power_of_two 100 = Ok 128%Z /\ b2_next_power_of_two 64 = Ok 128%Z /\ b2_next_power_of_two 0 = Ok 1%Z /\ b2_is_power_of_two 100 = false.
Proof. repeat split. Qed.
(* every u32 from 2^31 on overflows *)
Theorem C56_next_power_of_two_refuted : (exists v : Z, (0 <= v < 2 ^ 32)%Z /\ b2_next_power_of_two v = Panic) /\
  forall v : Z, (2 ^ 31 <= v < 2 ^ 32)%Z -> b2_next_power_of_two v = Panic.
Proof. exact next_pow2_refuted. Qed.
Print Assumptions C56_next_power_of_two_refuted.

(** ** C57 *)
Theorem C57_point_states : forall (T : Type) (m1 m2 : manifold T),
  length (mf_points m1) = 2 -> mf_count m1 <= 2 -> length (mf_points m2) = 2 -> mf_count m2 <= 2 ->
  exists s1 s2, b2_get_point_states m1 m2 = Ok (s1, s2) /\ states_right m1 m2 RemoveState s1 /\ states_right m2 m1 AddState s2.
Proof. exact @point_states_ok. Qed.
Print Assumptions C57_point_states.
Example C57_ex : b2_get_point_states states_m1 states_m2 = Ok ([PersistState; RemoveState], [PersistState; NullState]).
Proof. reflexivity. Qed.
