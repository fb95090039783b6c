(** Properties of making, asking and changing joints. *)
From Coq Require Import List ZArith Reals Bool.
From Verif Require Import Base Num NumLaws Math Manifold DynModel SolverModel IslandModel SolverSpec JointModel JointSpec JointDefModel JointDefSpec JointFresh JointFresh2 JointSpeed JointReact JointSpring JointShift JointRope JointSet JointDefExamples.
Import ListNotations.
Local Open Scope R_scope.

(** C74: a joint made by initialize and new has its anchors at the given points *)
Theorem C74_anchors : forall a b c d k p q, in_place a -> in_place b -> fresh a b c d k p q -> get_anchor_a k a = p /\ get_anchor_b k b = q.
Proof. exact fresh_anchors. Qed.
Print Assumptions C74_anchors.
(** and nothing to do: bodies at rest stay at rest, where they are, whatever joints of all ten kinds are made between them *)
Theorem C74_satisfied : forall step n js poss vels, 0 <= ts_dt step -> 0 <= ts_inv_dt step -> Forall (set_up poss) js -> Forall at_rest vels -> length vels = length poss ->
  exists js', joint_phase step n js poss vels = Ok (js', vels) /\ Forall (fun x => joint_pos (ji_joint x) poss = Ok (poss, true)) js' /\ length js' = length js.
Proof. exact set_up_phase. Qed.
Print Assumptions C74_satisfied.
(** a gear joint goes on with the bodies of its definition, not with those of its two joints: if they differ, it pulls at once *)
Theorem C74_gear_of_other_body_refuted : exists k1 k2 ratio k a a' b c d poss, gea_new k1 k2 c a d b ratio = Ok k /\
  Forall (fun b => in_place b /\ zget poss (b_island_index b) = Ok (where_is b) /\ 0 <= b_inv_mass b /\ 0 <= b_inv_i b) [a; a'; b; c; d] /\
  joint_pos (Jnt k (com_of a b) (com_of c d)) poss = Ok (poss, true) /\
  joint_pos (Jnt k (com_of a' b) (com_of c d)) poss <> Ok (poss, true).
Proof. exact gear_body_refutes. Qed.
Print Assumptions C74_gear_of_other_body_refuted.
(* a revolute, a distance, a weld and a mouse joint between two bodies *)
Example C74_ex : Forall (set_up st_poss) (map st_in [st_rev; st_dis; st_wel; st_mou]).
Proof. exact st_set_up. Qed.

(** C75: the reported speeds are the derivatives of the reported translation and angles, as the bodies move *)
Theorem C75_translation_speed : forall la lb lx a b t, derivable_pt_lim (fun t => translation_of la lb lx (drift t a) (drift t b)) t (linear_speed_of la lb lx (drift t a) (drift t b)).
Proof. exact translation_speed. Qed.
Print Assumptions C75_translation_speed.
Theorem C75_angle_speed : forall r a b t, derivable_pt_lim (fun t => rev_joint_angle r (drift t a) (drift t b)) t (rev_joint_speed (drift t a) (drift t b)).
Proof. exact angle_speed. Qed.
Print Assumptions C75_angle_speed.
Theorem C75_wheel_angle_speed : forall a b t, derivable_pt_lim (fun t => whe_joint_angle (drift t a) (drift t b)) t (whe_angular_speed (drift t a) (drift t b)).
Proof. exact wheel_angle_speed. Qed.
Print Assumptions C75_wheel_angle_speed.
(** every body whose transform is up to date starts such a motion *)
Theorem C75_now : forall b, in_place b -> drift 0 b = b.
Proof. exact drift_0. Qed.
Print Assumptions C75_now.
Example C75_ex : in_place (stone 0 (V2 3 4) 1 1 1).
Proof. exact (stone_in_place _ _ _ _ _). Qed.

(** C76: the reported force and torque, over the time step, are what the joint does to its body b; the opposite force acts on body a *)
Theorem C76_reactions : forall step n k a b pa pb va vb k' va' vb', plain k -> warm_enough step k -> ts_dt step * ts_inv_dt step = 1 -> one_joint step n k a b pa pb va vb k' va' vb' ->
  let F := get_reaction_force k' (ts_inv_dt step) in let L := get_reaction_torque k' (ts_inv_dt step) in
  driven b (ts_dt step) (arm b pb (anchor_b k)) F L vb vb' /\
  v_v va' = V2 (vx (v_v va) - b_inv_mass a * (ts_dt step * vx F)) (vy (v_v va) - b_inv_mass a * (ts_dt step * vy F)).
Proof. exact reactions. Qed.
Print Assumptions C76_reactions.
(** a mouse joint first slows the rotation of its body a little, and leaves body a alone *)
Theorem C76_mouse : forall step n d i f a b pa pb va vb k' va' vb', ts_dt step * ts_inv_dt step = 1 -> one_joint step n (JMouse d i f) a b pa pb va vb k' va' vb' ->
  driven b (ts_dt step) (arm b pb (ms_lb d)) (get_reaction_force k' (ts_inv_dt step)) (get_reaction_torque k' (ts_inv_dt step)) (Vel (v_v vb) (v_w vb * (98 / 100))) vb' /\ va' = va.
Proof. exact mouse_reaction. Qed.
Print Assumptions C76_mouse.
(** not so for a pulley, whose reported force leaves out the ratio and has the wrong sign *)
Theorem C76_pulley_refuted : exists step k a b pa pb va vb k' va' vb', ts_dt step * ts_inv_dt step = 1 /\ ts_warm step = true /\ (exists d i f, k = JPulley d i f) /\ one_joint step 1 k a b pa pb va vb k' va' vb' /\
  ~ driven b (ts_dt step) (arm b pb (anchor_b k)) (get_reaction_force k' (ts_inv_dt step)) (get_reaction_torque k' (ts_inv_dt step)) vb vb'.
Proof. exact pulley_refutes. Qed.
Print Assumptions C76_pulley_refuted.
(** nor for a gear joint, which reports what it does to body a *)
Theorem C76_gear_refuted : exists step k a b pa pb va vb k' va' vb', ts_dt step * ts_inv_dt step = 1 /\ ts_warm step = true /\ (exists d i f, k = JGear d i f) /\ one_joint step 1 k a b pa pb va vb k' va' vb' /\
  ~ driven b (ts_dt step) (arm b pb (anchor_b k)) (get_reaction_force k' (ts_inv_dt step)) (get_reaction_torque k' (ts_inv_dt step)) vb vb'.
Proof. exact gear_refutes. Qed.
Print Assumptions C76_gear_refuted.
Example C76_ex : let step := TStep (1 / 60) 60 1 8 3 false in exists k' va' vb', plain st_rev /\ warm_enough step st_rev /\ ts_dt step * ts_inv_dt step = 1 /\
  one_joint step 8 st_rev st_a st_b (where_is st_a) (where_is st_b) (Vel (V2 1 2) 3) (Vel (V2 4 5) 6) k' va' vb'.
Proof. exact pulled_apart. Qed.

(** C77: the soft constraints are springs with dampers, integrated implicitly: after one pass the impulse is that of the spring and damper at the end of the step *)
Theorem C77_distance : forall step a b pa pb, 0 < ts_dt step -> 0 <= b_inv_mass a -> 0 <= b_inv_mass b -> 0 <= b_inv_i a -> 0 <= b_inv_i b -> forall d i s i' s',
  let ra := arm a pa (di_la d) in let rb := arm b pb (di_lb d) in let u := minus (at_arm pb rb) (at_arm pa ra) in
  0 < di_stiff d -> 0 <= di_damp d -> di_min d < di_max d -> B2_LINEAR_SLOP < size u -> dis_spring (com_of a b) (dis_frame step d (com_of a b) pa pb) (i, s) = (i', s') ->
  di_i i' = spring_impulse (di_stiff d) (di_damp d) (ts_dt step) (size u - di_length d) (dot u (minus (speed_at (vel_b s') rb) (speed_at (vel_a s') ra)) / size u).
Proof. exact dis_spring_R. Qed.
Print Assumptions C77_distance.
Theorem C77_wheel : forall step a b pa pb, 0 < ts_dt step -> 0 <= b_inv_i a -> 0 <= b_inv_i b -> forall d f0 i s i' s',
  let ra := arm a pa (wh_la d) in let rb := arm b pb (wh_lb d) in let u := minus (at_arm pb rb) (at_arm pa ra) in let ax := turned (p_a pa) (wh_lx d) in
  0 < wh_stiff d -> 0 <= wh_damp d -> dot (wh_lx d) (wh_lx d) = 1 -> 0 < b_inv_mass a + b_inv_mass b -> whe_spring (com_of a b) (whe_frame step d (com_of a b) f0 pa pb) (i, s) = (i', s') ->
  wh_is i' = spring_impulse (wh_stiff d) (wh_damp d) (ts_dt step) (dot ax u) (seen_along ax ra rb u (vel_a s') (vel_b s')).
Proof. exact whe_spring_R. Qed.
Print Assumptions C77_wheel.
Theorem C77_weld : forall step a b pa pb, 0 < ts_dt step -> 0 <= b_inv_i a -> 0 <= b_inv_i b -> forall d i s i' s',
  0 < we_stiff d -> 0 <= we_damp d -> wel_soft (com_of a b) (wel_frame step d (com_of a b) pa pb) (i, s) = (i', s') ->
  let s1 := jspin (com_of a b) (v3z i' - v3z i) s in
  v3z i' = spring_impulse (we_stiff d) (we_damp d) (ts_dt step) (p_a pb - p_a pa - we_ref d) (s_wb s1 - s_wa s1).
Proof. exact wel_spring_R. Qed.
Print Assumptions C77_weld.
Theorem C77_mouse : forall step a b pb, 0 < ts_dt step -> 0 <= b_inv_mass b -> 0 <= b_inv_i b -> forall d i v i' v',
  let rb := arm b pb (ms_lb d) in let e := minus (at_arm pb rb) (ms_target d) in
  0 < ms_stiff d -> 0 <= ms_damp d -> mou_solve step d (com_of a b) (mou_frame step d (com_of a b) pb) (i, v) = (i', v') ->
  dot i' i' < (ts_dt step * ms_force d) * (ts_dt step * ms_force d) ->
  i' = V2 (spring_impulse (ms_stiff d) (ms_damp d) (ts_dt step) (vx e) (vx (speed_at v' rb))) (spring_impulse (ms_stiff d) (ms_damp d) (ts_dt step) (vy e) (vy (speed_at v' rb))).
Proof. exact mouse_spring_R. Qed.
Print Assumptions C77_mouse.
(** b2_linear_stiffness gives the spring and damper of a mass with this frequency and damping ratio: w^2 = stiffness / m and 2 * ratio * w = damping / m, for the reduced mass m of the bodies *)
Theorem C77_stiffness : forall hertz ratio a b, exists m, swings (b_mass a) (b_mass b) m /\
  let w := 2 * PI * hertz in linear_stiffness hertz ratio a b = (m * (w * w), 2 * ratio * m * w).
Proof. exact linear_stiffness_R. Qed.
Print Assumptions C77_stiffness.
Example C77_ex : let step := TStep (1 / 60) 60 1 8 3 true in let u := minus (at_arm rs_pb (arm rs_b rs_pb (di_lb sp_d))) (at_arm rs_pa (arm rs_a rs_pa (di_la sp_d))) in
  0 < ts_dt step /\ 0 <= b_inv_mass rs_a /\ 0 <= b_inv_mass rs_b /\ 0 <= b_inv_i rs_a /\ 0 <= b_inv_i rs_b /\ 0 < di_stiff sp_d /\ 0 <= di_damp sp_d /\ di_min sp_d < di_max sp_d /\ B2_LINEAR_SLOP < size u /\ 0 < size u - di_length sp_d.
Proof. exact stretched. Qed.

(** C78: a distance joint without a spring is a rope and a rod: it pulls with its upper impulse and pushes with its lower one, and it pulls only so much that the anchors separate up to the maximum length *)
Theorem C78_rope : forall step n d i f a b pa pb va vb k' va' vb', let ra := arm a pa (di_la d) in let rb := arm b pb (di_lb d) in let u := minus (at_arm pb rb) (at_arm pa ra) in
  0 <= b_inv_mass a -> 0 <= b_inv_mass b -> 0 <= b_inv_i a -> 0 <= b_inv_i b -> 0 < b_inv_mass a + b_inv_mass b ->
  ts_warm step = true -> (0 < n)%nat -> di_stiff d <= 0 -> di_min d < di_max d -> B2_LINEAR_SLOP < size u -> di_i i = 0 ->
  one_joint step n (JDistance d i f) a b pa pb va vb k' va' vb' ->
  exists i' f', k' = JDistance d i' f' /\ 0 <= di_il i' /\ 0 <= di_iu i' /\
    v_v vb' = V2 (vx (v_v vb) + b_inv_mass b * ((di_il i' - di_iu i') * (vx u / size u))) (vy (v_v vb) + b_inv_mass b * ((di_il i' - di_iu i') * (vy u / size u))) /\
    (0 < di_iu i' -> dot u (minus (speed_at vb' rb) (speed_at va' ra)) / size u = Rmax 0 (di_max d - size u) * ts_inv_dt step).
Proof. exact rope. Qed.
Print Assumptions C78_rope.
(** not without warm starting: the impulses of the limits are kept from the last step, and giving them back pushes the bodies apart, though the joint reports no force *)
Theorem C78_without_warm_starting_refuted : exists step d i1 f1 i2 f2 a b pa pb va vb vb',
  ts_warm step = false /\ ts_dt step * ts_inv_dt step = 1 /\ 0 <= b_inv_mass a /\ 0 < b_inv_mass b /\ di_stiff d <= 0 /\ di_min d < di_max d /\
  (exists i0 f0 va0 vb0 va1 vb1, di_i i0 = 0 /\ di_il i0 = 0 /\ di_iu i0 = 0 /\ one_joint step 1 (JDistance d i0 f0) a b pa pb va0 vb0 (JDistance d i1 f1) va1 vb1) /\
  one_joint step 1 (JDistance d i1 f1) a b pa pb va vb (JDistance d i2 f2) va vb' /\
  di_i i2 = 0 /\ di_il i2 = 0 /\ get_reaction_force (JDistance d i2 f2) (ts_inv_dt step) = V2 0 0 /\
  let u := minus (at_arm pb (arm b pb (di_lb d))) (at_arm pa (arm a pa (di_la d))) in dot u (v_v vb) < dot u (v_v vb').
Proof. exact cold_rope_refutes. Qed.
Print Assumptions C78_without_warm_starting_refuted.
Example C78_ex : let u := minus (at_arm rs_pb (arm rs_b rs_pb (di_lb rs_d))) (at_arm rs_pa (arm rs_a rs_pa (di_la rs_d))) in
  di_stiff rs_d <= 0 /\ di_min rs_d < di_max rs_d /\ B2_LINEAR_SLOP < size u /\ exists k' va' vb', one_joint (TStep 1 1 1 8 3 true) 8 (rs_k 0) rs_a rs_b rs_pa rs_pb (rs_v 0) (rs_v 1) k' va' vb'.
Proof. exact rs_rope. Qed.

(** C79: whatever lengths are asked for, a distance joint has a positive minimum, at most the maximum, and a positive length *)
Theorem C79_lengths : forall d cs, exists d' i f, dis_new d = JDistance d' i f /\ lengths_ok (fst (fold_left (fun s c => set_lengths c s) cs (d', i))).
Proof. exact lengths_always. Qed.
Print Assumptions C79_lengths.
(** set_limits accepts only limits in order, and sets them *)
Theorem C79_revolute_limits : forall lower upper d i d' i', rev_set_limits lower upper d i = Ok (d', i') -> lower <= upper /\ rv_lower d' = lower /\ rv_upper d' = upper.
Proof. exact rev_limits_set. Qed.
Print Assumptions C79_revolute_limits.
Theorem C79_prismatic_limits : forall lower upper d i d' i', pri_set_limits lower upper d i = Ok (d', i') -> lower <= upper /\ pr_lower d' = lower /\ pr_upper d' = upper.
Proof. exact pri_limits_set. Qed.
Print Assumptions C79_prismatic_limits.
Theorem C79_wheel_limits : forall lower upper d i d' i', whe_set_limits lower upper d i = Ok (d', i') -> lower <= upper /\ wh_lower d' = lower /\ wh_upper d' = upper.
Proof. exact whe_limits_set. Qed.
Print Assumptions C79_wheel_limits.
(** so does making a prismatic joint *)
Theorem C79_prismatic_new : forall d d' i f, pri_new d = Ok (JPrismatic d' i f) -> pr_lower d' <= pr_upper d'.
Proof. exact pri_new_ordered. Qed.
Print Assumptions C79_prismatic_new.
(** but not making a revolute or wheel joint: limits that set_limits refuses are taken *)
Theorem C79_new_limits_refuted : exists (lower upper : R) rd wd rd' ri rf wd' wi wf, (forall i, rev_set_limits lower upper rd i = Panic) /\ (forall i, whe_set_limits lower upper wd i = Panic) /\
  rev_new rd = JRevolute rd' ri rf /\ rv_lower rd' = lower /\ rv_upper rd' = upper /\ whe_new wd = JWheel wd' wi wf /\ wh_lower wd' = lower /\ wh_upper wd' = upper.
Proof. exact new_limits_refute. Qed.
Print Assumptions C79_new_limits_refuted.
Example C79_ex : exists d i, rev_set_limits (-1) 1 (RevDef (V2 0 0) (V2 0 0) 0 true 0 0 true 0 1) (RevImp (V2 0 0) 0 0 0) = Ok (d, i).
Proof. exact limits_can_be_set. Qed.

(** C80: shifting the origin: the joints of a world moved by [o] compute the same velocities *)
Theorem C80_velocities : forall o step n js poss vels,
  joint_phase step n (map (move_jin o) js) (map (move_pos o) poss) vels = (r <- joint_phase step n js poss vels ;; Ok (map (move_jin o) (fst r), snd r)).
Proof. exact joint_phase_mv. Qed.
Print Assumptions C80_velocities.
(** and the moved positions *)
Theorem C80_positions : forall o j poss, joint_pos (move_joint o j) (map (move_pos o) poss) = (r <- joint_pos j poss ;; Ok (map (move_pos o) (fst r), snd r)).
Proof. exact joint_pos_mv. Qed.
Print Assumptions C80_positions.
Example C80_ex : move_joint (V2 1 2) (Jnt st_mou (com_of st_a st_b) (com_of st_a st_b)) <> Jnt st_mou (com_of st_a st_b) (com_of st_a st_b).
Proof. exact mouse_moves. Qed.
