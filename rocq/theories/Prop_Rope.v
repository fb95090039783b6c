(** Properties of ropes. *)
From Coq Require Import List ZArith Reals Bool.
From Verif Require Import Base Num NumLaws Math SolverModel RopeModel RopeSpec RopeTotal RopeReal RopeLinks RopeBend RopeRest RopeExamples.
Import ListNotations.
Local Open Scope R_scope.

(** C81: no program of rope calls panics, with any numbers and any tuning, and the constraints join neighbours *)
Theorem C81_rope_runs : forall (T : Type) (NT : Num T) (RT : NumRope T) (cs : list (call T)), Forall fair cs -> exists r, calls cs rope_default = Ok r /\ strung r.
Proof. intros T NT RT. exact rope_calls. Qed.
Print Assumptions C81_rope_runs.
Theorem C81_three_vertices : forall (T : Type) (NT : Num T) (d : rope_def T) r, (length (rd_vertices d) < 3)%nat -> create d r = Panic.
Proof. exact @few_vertices. Qed.
Print Assumptions C81_three_vertices.
Example C81_ex : Forall fair [Create fix_d; SetTuning xp_tuning; Step (nlit 1 64) 8 (f32v 1 0); Create fold_d; Reset (f32v 0 0); Step (f32_ofZ 0) 8 (f32v 0 0)].
Proof. exact fair_ex. Qed.

(** C82: the points without mass go where the rope is put *)
Theorem C82_fixed_follow : forall r dt n pos r', reached r -> 0 < dt -> step dt n pos r = Ok r' -> Forall (fun q => rp_im q = 0 -> rp_p q = plus (rp_bind q) pos) (ro_points r').
Proof. exact fixed_follow. Qed.
Print Assumptions C82_fixed_follow.
(** in f32, three neighbours without mass and the default tuning: every position is NaN after one step that does not move the rope *)
Theorem C82_fixed_f32_refuted : exists d dt, forall RT : NumRope f32, exact_at_0 RT -> exists r r', create d rope_default = Ok r /\ tu_bending (ro_tuning r) = PbdAngleBending /\ step dt 1 (rd_position d) r = Ok r' /\
  Forall (fun q => neqb (rp_im q) (nofZ 0) = true) (ro_points r') /\ Forall not_a_number (ro_points r') /\ length (ro_points r') = 3%nat.
Proof. exact fix_refutes. Qed.
Print Assumptions C82_fixed_f32_refuted.
Example C82_ex : forall n, exists r r', reached r /\ create hung_d rope_default = Ok r /\ step 1 n (V2 5 0) r = Ok r' /\ map rp_im (ro_points r) = [0; 1; 1] /\ length (ro_points r') = 3%nat.
Proof. exact hung_runs. Qed.

(** C83: constraints are internal forces: only gravity and damping change the momentum of a rope without fixed points *)
Theorem C83_momentum : forall r dt n pos r', reached r -> all_heavy r -> proper_heights r -> 0 < dt -> step dt n pos r = Ok r' ->
  momentum (ro_points r') = plus (times (exp (- (dt * tu_damping (ro_tuning r)))) (momentum (ro_points r))) (times (dt * weight (ro_points r)) (ro_gravity r)).
Proof. exact momentum_step. Qed.
Print Assumptions C83_momentum.
(** the heights are proper if no vertex was put at the place of one of the next two *)
Theorem C83_heights : forall cs r, Forall fair cs -> Forall apart_call cs -> calls cs rope_default = Ok r -> proper_heights r.
Proof. exact apart_proper. Qed.
Print Assumptions C83_heights.
(** otherwise the height model pulls the middle vertex to the origin of the world *)
Theorem C83_folded_refuted : exists d r r', create d rope_default = Ok r /\ step 1 1 (rd_position d) r = Ok r' /\ all_heavy r /\ ro_gravity r = V2 0 0 /\ momentum (ro_points r) = V2 0 0 /\ momentum (ro_points r') = V2 (-2) 0 /\
  map rp_p (ro_points r) = [V2 1 0; V2 2 0; V2 1 0] /\ map rp_p (ro_points r') = [V2 1 0; V2 0 0; V2 1 0].
Proof. exact bent_refutes. Qed.
Print Assumptions C83_folded_refuted.
Example C83_ex : exists r r', reached r /\ all_heavy r /\ proper_heights r /\ tu_stretching (ro_tuning r) = PbdStretching /\ step 1 1 (V2 0 0) r = Ok r'.
Proof. exact tri_heavy. Qed.
Example C83_ex_apart : apart [(V2 0 0, 1); (V2 1 0, 1); (V2 3 0, 1)].
Proof. exact apart_line. Qed.

(** C84: a pass brings the length of a link (or of two, in the distance model) towards the rest length, by the stiffness *)
Theorem C84_link_pass : forall t c qs c' qs' q1 q2, (st_i1 c < st_i2 c)%nat -> nth_error qs (st_i1 c) = Some q1 -> nth_error qs (st_i2 c) = Some q2 -> st_m1 c + st_m2 c <> 0 -> B2_EPSILON <= size (minus (rp_p q2) (rp_p q1)) -> stretch_pbd t c qs = Ok (c', qs') ->
  exists q1' q2', nth_error qs' (st_i1 c) = Some q1' /\ nth_error qs' (st_i2 c) = Some q2' /\
    (let l := size (minus (rp_p q2) (rp_p q1)) in size (minus (rp_p q2') (rp_p q1')) = Rabs (l + tu_stretch_stiffness t * (st_l c - l))).
Proof. exact link_pass. Qed.
Print Assumptions C84_link_pass.
Theorem C84_span_pass : forall t c qs c' qs' q1 q3, (be_i1 c < be_i3 c)%nat -> nth_error qs (be_i1 c) = Some q1 -> nth_error qs (be_i3 c) = Some q3 -> be_m1 c + be_m3 c <> 0 -> B2_EPSILON <= size (minus (rp_p q3) (rp_p q1)) -> bend_pbd_distance t c qs = Ok (c', qs') ->
  exists q1' q3', nth_error qs' (be_i1 c) = Some q1' /\ nth_error qs' (be_i3 c) = Some q3' /\
    (let l := size (minus (rp_p q3) (rp_p q1)) in size (minus (rp_p q3') (rp_p q1')) = Rabs (l + tu_bend_stiffness t * (be_l1 c + be_l2 c - l))).
Proof. exact span_pass. Qed.
Print Assumptions C84_span_pass.
(** with full stiffness the last link has, after any step, the length it was made with *)
Theorem C84_last_link : forall r dt n pos r' q1 q2, reached r -> 0 < dt -> tu_stretching (ro_tuning r) = PbdStretching -> tu_stretch_stiffness (ro_tuning r) = 1 -> step dt (S n) pos r = Ok r' ->
  let N := length (ro_points r') in nth_error (ro_points r') (N - 2) = Some q1 -> nth_error (ro_points r') (N - 1) = Some q2 -> (2 <= N)%nat -> rp_im q1 + rp_im q2 <> 0 ->
  let len := size (minus (rp_bind q2) (rp_bind q1)) in let now := size (minus (rp_p q2) (rp_p q1)) in now = len \/ now < (1 + len) * B2_EPSILON.
Proof. exact last_link. Qed.
Print Assumptions C84_last_link.
Example C84_ex : forall n, exists r r', reached r /\ create hung_d rope_default = Ok r /\ step 1 n (V2 5 0) r = Ok r' /\ map rp_im (ro_points r) = [0; 1; 1] /\ length (ro_points r') = 3%nat.
Proof. exact hung_runs. Qed.

(** C85: the angle is the angle *)
Theorem C85_angle : forall y x, let r := sqrt (x * x + y * y) in r * cos (angle_of y x) = x /\ r * sin (angle_of y x) = y.
Proof. exact angle_right. Qed.
Print Assumptions C85_angle.
Theorem C85_angle_range : forall y x, - PI < angle_of y x <= PI.
Proof. exact angle_range. Qed.
Print Assumptions C85_angle_range.
(** the pass of the angle model moves the points so that, to first order, the angle goes to 0 by the stiffness *)
Theorem C85_angle_pass : forall t c qs q1 q2 q3, (be_i1 c < be_i2 c < be_i3 c)%nat -> nth_error qs (be_i1 c) = Some q1 -> nth_error qs (be_i2 c) = Some q2 -> nth_error qs (be_i3 c) = Some q3 -> tu_isometric t = false -> tu_fixed_mass t = false -> open_at (rp_p q1) (rp_p q2) (rp_p q3) -> light c ->
  forall c' qs', bend_pbd_angle t c qs = Ok (c', qs') ->
  exists q1' q2' q3', nth_error qs' (be_i1 c) = Some q1' /\ nth_error qs' (be_i2 c) = Some q2' /\ nth_error qs' (be_i3 c) = Some q3' /\
    turns (rp_p q1) (rp_p q2) (rp_p q3) (minus (rp_p q1') (rp_p q1)) (minus (rp_p q2') (rp_p q2)) (minus (rp_p q3') (rp_p q3)) (- (tu_bend_stiffness t * angle_at (rp_p q1) (rp_p q2) (rp_p q3))).
Proof. exact angle_pass. Qed.
Print Assumptions C85_angle_pass.
(** the spring model changes the angular velocity as a damped spring of the given frequency and damping ratio *)
Theorem C85_angle_spring : forall t c qs q1 q2 q3, (be_i1 c < be_i2 c < be_i3 c)%nat -> nth_error qs (be_i1 c) = Some q1 -> nth_error qs (be_i2 c) = Some q2 -> nth_error qs (be_i3 c) = Some q3 -> tu_isometric t = false -> tu_fixed_mass t = false -> open_at (rp_p q1) (rp_p q2) (rp_p q3) -> light c ->
  forall dt c' qs' rate, bend_force dt t c qs = Ok (c', qs') -> turns (rp_p q1) (rp_p q2) (rp_p q3) (rp_v q1) (rp_v q2) (rp_v q3) rate ->
  exists q1' q2' q3', nth_error qs' (be_i1 c) = Some q1' /\ nth_error qs' (be_i2 c) = Some q2' /\ nth_error qs' (be_i3 c) = Some q3' /\
    (let omega := 2 * B2_PI * tu_bend_hertz t in
     turns (rp_p q1) (rp_p q2) (rp_p q3) (minus (rp_v q1') (rp_v q1)) (minus (rp_v q2') (rp_v q2)) (minus (rp_v q3') (rp_v q3)) (- dt * (omega * omega * angle_at (rp_p q1) (rp_p q2) (rp_p q3) + 2 * tu_bend_damping t * omega * rate))).
Proof. exact angle_spring. Qed.
Print Assumptions C85_angle_spring.
(** the height and the triangle model shrink their distances *)
Theorem C85_height_pass : forall t c qs c' qs' q1 q2 q3, (be_i1 c < be_i2 c < be_i3 c)%nat -> nth_error qs (be_i1 c) = Some q1 -> nth_error qs (be_i2 c) = Some q2 -> nth_error qs (be_i3 c) = Some q3 -> be_m1 c * be_a1 c * be_a1 c + be_m2 c + be_m3 c * be_a2 c * be_a2 c <> 0 -> bend_pbd_height t c qs = Ok (c', qs') ->
  let gap (a b d : rpoint R) := minus (plus (times (be_a1 c) (rp_p a)) (times (be_a2 c) (rp_p d))) (rp_p b) in
  exists q1' q2' q3', nth_error qs' (be_i1 c) = Some q1' /\ nth_error qs' (be_i2 c) = Some q2' /\ nth_error qs' (be_i3 c) = Some q3' /\ gap q1' q2' q3' = times (1 - tu_bend_stiffness t) (gap q1 q2 q3).
Proof. exact height_pass. Qed.
Print Assumptions C85_height_pass.
Theorem C85_triangle_pass : forall t c qs c' qs' q1 q2 q3, (be_i1 c < be_i2 c < be_i3 c)%nat -> nth_error qs (be_i1 c) = Some q1 -> nth_error qs (be_i2 c) = Some q2 -> nth_error qs (be_i3 c) = Some q3 -> light c -> bend_pbd_triangle t c qs = Ok (c', qs') ->
  let gap (a b d : rpoint R) := minus (rp_p b) (times (1 / 3) (plus (plus (rp_p a) (rp_p b)) (rp_p d))) in
  exists q1' q2' q3' th, nth_error qs' (be_i1 c) = Some q1' /\ nth_error qs' (be_i2 c) = Some q2' /\ nth_error qs' (be_i3 c) = Some q3' /\ 2 / 3 <= th <= 4 / 3 /\ gap q1' q2' q3' = times (1 - tu_bend_stiffness t * th) (gap q1 q2 q3).
Proof. exact triangle_pass. Qed.
Print Assumptions C85_triangle_pass.
(* a right angle *)
Example C85_ex : open_at (V2 0 0) (V2 1 0) (V2 1 1) /\ light corner_c /\ angle_at (V2 0 0) (V2 1 0) (V2 1 1) = PI / 2 /\ map rp_p corner = [V2 0 0; V2 1 0; V2 1 1].
Proof. exact corner_all. Qed.

(** C86: in the XPBD models the multiplier is that of an implicit damped spring: exactly so along a link *)
Theorem C86_stretch_spring : forall dt c qs c' qs' q1 q2, 0 < dt -> (st_i1 c < st_i2 c)%nat -> nth_error qs (st_i1 c) = Some q1 -> nth_error qs (st_i2 c) = Some q2 -> 0 < st_m1 c + st_m2 c -> 0 < st_spring c -> 0 <= st_damper c -> B2_EPSILON <= size (minus (rp_p q2) (rp_p q1)) -> stretch_xpbd dt c qs = Ok (c', qs') ->
  exists q1' q2' u, nth_error qs' (st_i1 c) = Some q1' /\ nth_error qs' (st_i2 c) = Some q2' /\ size u = 1 /\ minus (rp_p q2) (rp_p q1) = times (size (minus (rp_p q2) (rp_p q1))) u /\
    let l := dot u (minus (rp_p q2') (rp_p q1')) in minus (rp_p q2') (rp_p q1') = times l u /\
    st_lambda c' = spring_lambda dt (st_spring c) (st_damper c) (l - st_l c) (dot u (minus (minus (rp_p q2') (rp_p0 q2)) (minus (rp_p q1') (rp_p0 q1)))).
Proof. exact stretch_spring. Qed.
Print Assumptions C86_stretch_spring.
(** to first order for the angle *)
Theorem C86_angle_spring : forall t c qs q1 q2 q3, (be_i1 c < be_i2 c < be_i3 c)%nat -> nth_error qs (be_i1 c) = Some q1 -> nth_error qs (be_i2 c) = Some q2 -> nth_error qs (be_i3 c) = Some q3 -> tu_isometric t = false -> tu_fixed_mass t = false -> open_at (rp_p q1) (rp_p q2) (rp_p q3) -> light c ->
  forall dt c' qs', 0 < dt -> 0 < be_spring c -> 0 <= be_damper c -> bend_xpbd_angle dt t c qs = Ok (c', qs') ->
  exists q1' q2' q3', nth_error qs' (be_i1 c) = Some q1' /\ nth_error qs' (be_i2 c) = Some q2' /\ nth_error qs' (be_i3 c) = Some q3' /\
    forall change moved, turns (rp_p q1) (rp_p q2) (rp_p q3) (minus (rp_p q1') (rp_p q1)) (minus (rp_p q2') (rp_p q2)) (minus (rp_p q3') (rp_p q3)) change ->
      turns (rp_p q1) (rp_p q2) (rp_p q3) (minus (rp_p q1') (rp_p0 q1)) (minus (rp_p q2') (rp_p0 q2)) (minus (rp_p q3') (rp_p0 q3)) moved ->
      be_lambda c' = spring_lambda dt (be_spring c) (be_damper c) (angle_at (rp_p q1) (rp_p q2) (rp_p q3) + change) moved.
Proof. exact angle_xpbd. Qed.
Print Assumptions C86_angle_spring.
(** the constants are those of the frequency and the damping ratio *)
Theorem C86_constants : forall t (c : stretch R), 0 < st_m1 c + st_m2 c -> let c' := tune_stretch t c in let omega := 2 * B2_PI * tu_stretch_hertz t in
  (st_m1 c + st_m2 c) * st_spring c' = omega * omega /\ (st_m1 c + st_m2 c) * st_damper c' = 2 * tu_stretch_damping t * omega.
Proof. exact tuned_stretch. Qed.
Print Assumptions C86_constants.
Theorem C86_bend_constants : forall t (c : bend R), 0 < be_l1 c -> 0 < be_l2 c -> 0 <= be_m1 c -> 0 <= be_m2 c -> 0 <= be_m3 c -> 0 < be_m1 c + be_m2 c + be_m3 c ->
  let c' := tune_bend t c in let omega := 2 * B2_PI * tu_bend_hertz t in
  let sum := be_m1 c * Rsqr (1 / be_l1 c) + be_m2 c * Rsqr (1 / be_l1 c + 1 / be_l2 c) + be_m3 c * Rsqr (1 / be_l2 c) in
  sum * be_spring c' = omega * omega /\ sum * be_damper c' = 2 * tu_bend_damping t * omega.
Proof. exact tuned_bend. Qed.
Print Assumptions C86_bend_constants.
(** in f32, XPBD stretching with the default stretch_hertz makes every position NaN *)
Theorem C86_default_hertz_f32_refuted : exists d dt, tu_stretch_hertz (rd_tuning d) = tu_stretch_hertz (T := f32) default_tuning /\ forall RT : NumRope f32, exact_at_0 RT -> exists r r', create d rope_default = Ok r /\ step dt 1 (rd_position d) r = Ok r' /\ Forall not_a_number (ro_points r') /\ length (ro_points r') = 3%nat.
Proof. exact xp_refutes. Qed.
Print Assumptions C86_default_hertz_f32_refuted.
Example C86_ex : open_at (V2 0 0) (V2 1 0) (V2 1 1) /\ light corner_c /\ 0 < be_spring corner_c /\ 0 <= be_damper corner_c.
Proof. exact corner_spring. Qed.

(** C87: a straight rope without gravity stays as it is, whatever tuning it is given, except in the triangle model *)
Theorem C87_rest : forall d r0 r1 t pos dt n, straight (map fst (rd_vertices d)) -> rd_gravity d = V2 0 0 -> create d r0 = Ok r1 -> tu_bending t <> PbdTriangleBending -> 0 <= dt ->
  let r := set_tuning t (reset pos r1) in step dt n pos r = Ok r.
Proof. exact rest. Qed.
Print Assumptions C87_rest.
Theorem C87_rest_created : forall d r0 r dt n, straight (map fst (rd_vertices d)) -> rd_gravity d = V2 0 0 -> create d r0 = Ok r -> tu_bending (rd_tuning d) <> PbdTriangleBending -> 0 <= dt -> step dt n (rd_position d) r = Ok r.
Proof. exact rest_created. Qed.
Print Assumptions C87_rest_created.
(** the triangle model wants links of the same length *)
Theorem C87_triangle_refuted : exists d r r', straight (map fst (rd_vertices d)) /\ rd_gravity d = V2 0 0 /\ create d rope_default = Ok r /\ step 1 1 (rd_position d) r = Ok r' /\
  map rp_p (ro_points r) = [V2 0 0; V2 1 0; V2 3 0] /\ map rp_p (ro_points r') = [V2 (- (1 / 6)) 0; V2 (4 / 3) 0; V2 (17 / 6) 0].
Proof. exact tri_refutes. Qed.
Print Assumptions C87_triangle_refuted.
Example C87_ex : straight [V2 0 0; V2 1 0; V2 3 0].
Proof. exact tri_straight. Qed.

(** C88: a step does not depend on where the rope is *)
Theorem C88_shift : forall o dt n pos r, proper_heights r -> step dt n (plus pos o) (move_rope o r) = ok_map (move_rope o) (step dt n pos r).
Proof. exact step_mv. Qed.
Print Assumptions C88_shift.
(** nor does a new rope on the rope that was there before *)
Theorem C88_create_forgets : forall d r1 r2, apart (rd_vertices d) -> create d r1 = create d r2.
Proof. exact create_forgets. Qed.
Print Assumptions C88_create_forgets.
(** unless vertices coincide: the heights of the old rope are kept *)
Theorem C88_stale_refuted : exists d0 d (r0 r1 r2 : rope f32), create d0 rope_default = Ok r0 /\ create d rope_default = Ok r1 /\ create d r0 = Ok r2 /\ map (fun c => neqb (be_a1 c) (nofZ 0)) (ro_bend r1) = [true] /\ map (fun c => neqb (be_a1 c) (nlit 1 2)) (ro_bend r2) = [true] /\ r1 <> r2.
Proof. exact stale_refutes. Qed.
Print Assumptions C88_stale_refuted.
Example C88_ex : exists r r', reached r /\ all_heavy r /\ proper_heights r /\ tu_stretching (ro_tuning r) = PbdStretching /\ step 1 1 (V2 0 0) r = Ok r'.
Proof. exact tri_heavy. Qed.
