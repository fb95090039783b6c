(** Examples and counterexamples for Prop_Math. *)
From Coq Require Import ZArith Reals Lra Lia Bool List Arith.
From Flocq Require Import Core.
From Verif Require Import Base Num NumLaws Math Collision Manifold Filter MathSpec GeomSpec RTac MathProofs ManifoldProofs.
Import ListNotations.

Lemma transform_algebra (a b c : xform R) (v w : vec2 R) (q : rot R) :
  unit_rot (xq a) -> unit_rot q ->
  b2_mul_t_transform a (b2_mul_transform a b) = b /\
  xfv_t a (xfv a v) = v /\ xfv a (xfv_t a v) = v /\
  b2_mul_transform a (b2_mul_transform b c) = b2_mul_transform (b2_mul_transform a b) c /\
  xfv (b2_mul_transform a b) v = xfv a (xfv b v) /\ xfv (b2_mul_t_transform a b) v = xfv_t a (xfv b v) /\
  b2_dot (rotv q v) (rotv q w) = b2_dot v w /\ rotv_t q (rotv q v) = v /\ rotv q (rotv_t q v) = v /\
  unit_rot (b2_mul_rot q (xq a)) /\ unit_rot (b2_mul_t_rot q (xq a)).
Proof.
  intros Ha Hq. repeat split.
  now apply mul_t_transform_undo. now apply xfv_t_xfv. now apply xfv_xfv_t. apply mul_transform_assoc. apply mul_transform_apply.
  apply mul_t_transform_apply. now apply rotv_dot. now apply rotv_t_rotv. now apply rotv_rotv_t. now apply mul_rot_unit. now apply mul_t_rot_unit.
Qed.
Lemma solve_mat22 (m : mat22 R) (b : vec2 R) :
  let '(a11, a12, a21, a22) := (vx (m2x m), vx (m2y m), vy (m2x m), vy (m2y m)) in
  (det2 a11 a12 a21 a22 <> 0%R -> solves2 a11 a12 a21 a22 (m22_solve m b) b /\
     solves2 a11 a12 a21 a22 (m2x (m22_inverse m)) (V2 1 0)%R /\ solves2 a11 a12 a21 a22 (m2y (m22_inverse m)) (V2 0 1)%R) /\
  (det2 a11 a12 a21 a22 = 0%R -> m22_solve m b = V2 0%R 0%R /\ m22_inverse m = M22 (V2 0 0)%R (V2 0 0)%R).
Proof.
  split; intros H; split; try now apply m22_solve_ok. now apply m22_inverse_ok. now apply m22_solve_singular. now apply m22_inverse_singular.
Qed.
Lemma solve_mat33 (m : mat33 R) (b : vec3 R) :
  (det3 m <> 0%R -> solves3 m (solve33 m b) b) /\ (det3 m = 0%R -> solve33 m b = V3 0 0 0)%R /\
  (symmetric3 m -> det3 m <> 0%R -> let i := get_sym_inverse33 m in
     solves3 m (m3x i) (V3 1 0 0)%R /\ solves3 m (m3y i) (V3 0 1 0)%R /\ solves3 m (m3z i) (V3 0 0 1)%R) /\
  (det3 m = 0%R -> get_sym_inverse33 m = M33 (V3 0 0 0) (V3 0 0 0) (V3 0 0 0))%R.
Proof.
  split; [apply solve33_ok|]. split; [apply solve33_singular|]. split; [apply sym_inverse33_ok|apply sym_inverse33_singular].
Qed.
Lemma solve_mat22_of_33 (m : mat33 R) (b : vec2 R) :
  let '(a11, a12, a21, a22) := (v3x (m3x m), v3x (m3y m), v3y (m3x m), v3y (m3y m)) in
  let i := get_inverse22 m in
  (det2 a11 a12 a21 a22 <> 0%R -> solves2 a11 a12 a21 a22 (solve22 m b) b /\
     solves2 a11 a12 a21 a22 (V2 (v3x (m3x i)) (v3y (m3x i))) (V2 1 0)%R /\
     solves2 a11 a12 a21 a22 (V2 (v3x (m3y i)) (v3y (m3y i))) (V2 0 1)%R /\
     v3z (m3x i) = 0%R /\ v3z (m3y i) = 0%R /\ m3z i = V3 0%R 0%R 0%R) /\
  (det2 a11 a12 a21 a22 = 0%R -> solve22 m b = V2 0%R 0%R /\ i = M33 (V3 0 0 0)%R (V3 0 0 0)%R (V3 0 0 0)%R).
Proof.
  split; intros H; split. now apply solve22_ok. now apply inverse22_ok. now apply solve22_singular. now apply inverse22_singular.
Qed.
Lemma mixing (a b : R) : (0 <= a)%R -> (0 <= b)%R ->
  (b2_mix_friction a b * b2_mix_friction a b = a * b)%R /\ b2_mix_friction a b = b2_mix_friction b a /\
  (Rmin a b <= b2_mix_friction a b <= Rmax a b)%R /\
  b2_mix_restitution a b = Rmax a b /\ b2_mix_restitution_threshold a b = Rmin a b.
Proof.
  intros Ha Hb. split; [|split; [|split; [|split]]].
  - unfold b2_mix_friction. rops. apply sqrt_sqrt. nra.
  - unfold b2_mix_friction. rops. f_equal. ring.
  - unfold b2_mix_friction. rops. unfold Rmin, Rmax. destruct (Rle_dec a b); [now apply mix_geo|]. rewrite Rmult_comm. apply mix_geo; lra.
  - apply b2_max_R.
  - apply b2_min_R.
Qed.
Lemma mixing_ex : b2_mix_friction 4%R 9%R = 6%R.
Proof. unfold b2_mix_friction. rops. replace (4 * 9)%R with (6 * 6)%R by ring. apply sqrt_square. lra. Qed.
Lemma next_pow2_refuted : (exists v : Z, (0 <= v < 2 ^ 32)%Z /\ b2_next_power_of_two v = Panic) /\
  forall v : Z, (2 ^ 31 <= v < 2 ^ 32)%Z -> b2_next_power_of_two v = Panic.
Proof. split; [exists (2 ^ 31)%Z; split; [lia|reflexivity]|exact next_pow2_overflow]. Qed.

Lemma clamp_vec2_refuted : exists a low high : vec2 f32,
  nle (vx low) (vx high) = true /\ nle (vy low) (vy high) = true /\ nle (vx (b2_clamp_vec2 a low high)) (vx high) = false.
Proof.
  exists (V2 (nofZ 5) (nofZ 5)), (V2 (nofZ 0) (nofZ 0)), (V2 (nofZ 1) (nofZ 1)). repeat split; vm_compute; reflexivity.
Qed.

Definition states_m1 : manifold Z := MF [MP (V2 0 0) 0 0 (CId 1 0 0 1); MP (V2 0 0) 0 0 (CId 2 0 0 1)]%Z (V2 0 0)%Z (V2 0 0)%Z MFaceA 2.
Definition states_m2 : manifold Z := MF [MP (V2 5 0) 0 0 (CId 1 0 0 1); MP (V2 0 0) 0 0 (CId 2 0 0 1)]%Z (V2 0 0)%Z (V2 0 0)%Z MFaceA 1.

Local Open Scope R_scope.
Lemma clip_ex : exists v0 v1 n offset, half_plane n offset (cv_v v0) /\ ~ half_plane n offset (cv_v v1) /\
  b2_clip_segment_to_line v0 v1 n offset 3 = Ok [v0; CV (V2 2 0) (CId 3 0 EVertex EFace)].
Proof.
  exists (CV (V2 0 0) cid_default), (CV (V2 4 0) cid_default), (V2 1 0), 2. unfold half_plane. cbn [cv_v vx vy].
  split; [lra|]. split; [lra|]. unfold b2_clip_segment_to_line. rmathc. cbn [cv_v vx vy].
  rewrite Rle_bool_true, Rle_bool_false, Rlt_bool_true by lra. cbn [app length Nat.eqb b2_assert bind]. do 3 f_equal.
  f_equal. apply vec2_ext; rops; field.
Qed.
Lemma box_ray_ex : (enters (AABB (V2 1 1) (V2 2 3)) (V2 0 0) (V2 4 4) (1 / 4)).
Proof. unfold enters, in_box, along. cbn. split; [lra|]. intros t Ht. lra. Qed.
Lemma box_ray_refuted : exists (b : aabb R) (inp : ray_input R) (f : R),
  (vx (lo b) < vx (hi b) /\ vy (lo b) < vy (hi b) /\ ray_max inp <= B2_MAX_FLOAT /\ 0 <= f <= ray_max inp /\
   enters b (ray_p1 inp) (ray_p2 inp) f /\ aabb_ray_cast b inp = None).
Proof.
  exists (AABB (V2 1 (-1)) (V2 2 1)), (RayIn (V2 0 0) (V2 (/ 10000000) 0) 20000000), 10000000. cbn [ray_p1 ray_p2 ray_max].
  assert (M : 20000000 <= (B2_MAX_FLOAT : R)) by (unfold B2_MAX_FLOAT; rops; apply IZR_le; vm_compute; discriminate).
  repeat split; try (cbn; lra); try exact M.
  - intros t Ht [K _]. revert K. unfold along. cbn. lra.
  - unfold aabb_ray_cast, ray_axis. cbn [ray_p1 ray_p2 lo hi]. rmathc.
    rewrite Rlt_bool_true. 2:{ unfold B2_EPSILON, nlit; rops. rewrite Rabs_pos_eq by lra. lra. }
    rewrite Rlt_bool_true by lra. reflexivity.
Qed.
Lemma c53_ex : det3 (M33 (V3 2 1 0) (V3 1 2 0) (V3 0 0 1)) = 3 /\ symmetric3 (M33 (V3 2 1 0) (V3 1 2 0) (V3 0 0 1)) /\
  unit_rot (Rot (3 / 5) (4 / 5)).
Proof. unfold det3, symmetric3, unit_rot. cbn. repeat split; lra. Qed.
