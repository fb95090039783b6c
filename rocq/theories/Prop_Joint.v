(** Properties of the joint solvers. *)
From Coq Require Import List ZArith Reals Bool.
From Verif Require Import Base Num NumLaws Math Manifold DynModel SolverModel IslandModel SolverSpec SolverProofs SolverExamples JointModel JointSpec JointProofs JointTotal JointReal JointHeld JointLimit JointExamples.
Import ListNotations.

(** C37: after any positive number of iterations, from any state, every motor impulse is within the time step times the maximum torque or force, if that bound is a number and not negative. *)
Theorem C37_motors_f32 : forall (TT : NumTrig f32) (step : tstep f32) (n : nat) (js : list (jin f32)) (poss : list (pos f32)) (vels : list (vel f32)) js' vels',
  joint_phase step (S n) js poss vels = Ok (js', vels') -> Forall (fun x => strong step (ji_joint x)) js'.
Proof. exact (fun TT => @phase_strong f32 _ TT _ opp_le_f32). Qed.
Print Assumptions C37_motors_f32.
(** the friction, motor and mouse joints too, whose impulse is a vector: in exact arithmetic *)
Theorem C37_strength : forall (TT : NumTrig R) (step : tstep R) (n : nat) (js : list (jin R)) (poss : list (pos R)) (vels : list (vel R)) js' vels',
  joint_phase step (S n) js poss vels = Ok (js', vels') -> Forall (fun x => within_strength step (ji_joint x)) js'.
Proof. exact (fun TT => @phase_within TT). Qed.
Print Assumptions C37_strength.
(** the joint phase returns if the bodies of the joints are in the island *)
Theorem C37_returns : forall (T : Type) (NT : Num T) (TT : NumTrig T) (step : tstep T) (n : nat) (js : list (jin T)) (poss : list (pos T)) (vels : list (vel T)),
  length poss = length vels -> Forall (jointed (length vels)) js -> exists js' vels', joint_phase step n js poss vels = Ok (js', vels') /\ length js' = length js /\ length vels' = length vels.
Proof. exact (fun T NT TT => @joints_return T NT TT). Qed.
Print Assumptions C37_returns.
(* motors of each kind that reach their limit; all joints together *)
Example C37_ex : forallb (fun k => ran works [k]) [ex_rev (nlit 1 2) (nofZ 1) (nofZ 1); ex_pri (nofZ 1) (nofZ 2) (nofZ 1); ex_whe (nofZ 1) (nofZ 2) (nofZ 1); ex_fri (nofZ 1); ex_mot (nofZ 1)] = true /\
  Forall (jointed 2) (ex_joints (T := R) 2%R ex_move).
Proof. exact (conj works_ok (ex_jointed _ _)). Qed.

(** C38: no limit impulse is ever negative, NaN or not. *)
Theorem C38_limits_f32 : forall (TT : NumTrig f32) (step : tstep f32) (n : nat) (js : list (jin f32)) (poss : list (pos f32)) (vels : list (vel f32)) js' vels',
  not_negative (ts_ratio step) -> Forall (fun x => only_pushes (ji_joint x)) js -> joint_phase step n js poss vels = Ok (js', vels') -> Forall (fun x => only_pushes (ji_joint x)) js'.
Proof. exact (fun TT => @phase_pushes f32 _ TT _ mul_not_negative_f32). Qed.
Print Assumptions C38_limits_f32.
Theorem C38_limits : forall (TT : NumTrig R) (step : tstep R) (n : nat) (js : list (jin R)) (poss : list (pos R)) (vels : list (vel R)) js' vels',
  not_negative (ts_ratio step) -> Forall (fun x => only_pushes (ji_joint x)) js -> joint_phase step n js poss vels = Ok (js', vels') -> Forall (fun x => only_pushes (ji_joint x)) js'.
Proof. exact (fun TT => @phase_pushes R _ TT _ mul_not_negative_R). Qed.
Print Assumptions C38_limits.
(** after an iteration, from any state, the impulses of limits in use are numbers and not negative *)
Theorem C38_limiting : forall (T : Type) (NT : Num T) (TT : NumTrig T) (OT : NumOrd T) (step : tstep T) (n : nat) (js : list (jin T)) (poss : list (pos T)) (vels : list (vel T)) js' vels',
  joint_phase step (S n) js poss vels = Ok (js', vels') -> Forall (fun x => limiting (ji_joint x) = true -> Forall nonneg (limit_impulses (j_kind (ji_joint x)))) js'.
Proof. exact (fun T NT TT OT => @phase_limiting T NT TT OT). Qed.
Print Assumptions C38_limiting.
(* limits of each kind that push; the hypotheses *)
Example C38_ex : forallb (fun k => ran pushes [k]) [ex_rev (nofZ (-2)) (nofZ (-1)) (nofZ 1); ex_pri (nofZ 1) (nofZ 2) (nofZ 1); ex_whe (nofZ 1) (nofZ 2) (nofZ 1); ex_dis (nofZ 1) (nofZ 2)] = true /\
  Forall (fun x => only_pushes (ji_joint x)) (ex_joints (T := f32) (nofZ 2) (V2 (nofZ 0) (nofZ (-3)))) /\ not_negative (ts_ratio (T := f32) (ex_step 8)).
Proof. exact (conj pushes_ok ex_only_pushes). Qed.

(** C39: the joint phase (warm starting and any number of iterations) keeps the momentum of any list of bodies. *)
Theorem C39_linear : forall (TT : NumTrig R) (step : tstep R) (n : nat) (bs : list (body R)) (js : list (jin R)) (vels : list (vel R)) js' vels',
  Forall (connects heavy bs) js -> joint_phase step n js (map body_pos bs) vels = Ok (js', vels') ->
  momentum_x bs vels' = momentum_x bs vels /\ momentum_y bs vels' = momentum_y bs vels.
Proof. exact (fun TT => @joints_linear TT). Qed.
Print Assumptions C39_linear.
Theorem C39_angular : forall (TT : NumTrig R) (step : tstep R) (n : nat) (bs : list (body R)) (js : list (jin R)) (vels : list (vel R)) js' vels' (ox oy : R),
  Forall (fun x => connects finite_mass bs x /\ anchors_meet x) js -> joint_phase step n js (map body_pos bs) vels = Ok (js', vels') ->
  angular_momentum ox oy bs vels' = angular_momentum ox oy bs vels.
Proof. exact (fun TT => @joints_angular TT). Qed.
Print Assumptions C39_angular.
(* seven joints between two bodies *)
Example C39_ex : Forall (connects heavy (ex_pair 2%R ex_move)) (map (ex_held 2%R ex_move) ex_kinds) /\ Forall (fun x => connects finite_mass (ex_pair 2%R ex_move) x /\ anchors_meet x) (map (ex_held 2%R ex_move) ex_kinds) /\
  exists js vels, joint_phase (ex_step 8) 8 (map (ex_held 2%R ex_move) ex_kinds) (map body_pos (ex_pair 2%R ex_move)) (map body_vel (ex_pair 2%R ex_move)) = Ok (js, vels).
Proof. exact (conj ex_connects (conj ex_meet ex_kinds_run)). Qed.

(** C40: right after a joint was solved, whatever impulses it had by then and whatever the velocities, its velocity constraint holds. *)
Theorem C40_held : forall (step : tstep R) (j0 : jnt R) (a b c d : body R) (poss : list (pos R)) (vels0 : list (vel R)) (j1 : jnt R) (vels1 : list (vel R)) (j : jnt R) (vels : list (vel R)) (j2 : jnt R) (vels2 : list (vel R)) pa pb va vb,
  joint_init step j0 a b c d poss vels0 = Ok (j1, vels1) -> same_joint j1 j -> joint_vel step j vels = Ok (j2, vels2) ->
  b_island_index a <> b_island_index b -> zget poss (b_island_index a) = Ok pa -> zget poss (b_island_index b) = Ok pb ->
  zget vels2 (b_island_index a) = Ok va -> zget vels2 (b_island_index b) = Ok vb ->
  invertible (j_kind j0) a b pa pb -> holds (j_kind j0) a b pa pb va vb.
Proof. exact (joint_held unit_trig_R). Qed.
Print Assumptions C40_held.
(** so the last joint of an island holds at the end of the phase *)
Theorem C40_last : forall (step : tstep R) (n : nat) (js : list (jin R)) (x : jin R) (poss : list (pos R)) (vels : list (vel R)) js' vels' pa pb va vb,
  joint_phase step (S n) (js ++ [x]) poss vels = Ok (js', vels') ->
  b_island_index (ji_a x) <> b_island_index (ji_b x) -> zget poss (b_island_index (ji_a x)) = Ok pa -> zget poss (b_island_index (ji_b x)) = Ok pb ->
  zget vels' (b_island_index (ji_a x)) = Ok va -> zget vels' (b_island_index (ji_b x)) = Ok vb ->
  invertible (j_kind (ji_joint x)) (ji_a x) (ji_b x) pa pb -> holds (j_kind (ji_joint x)) (ji_a x) (ji_b x) pa pb va vb.
Proof. exact (last_held unit_trig_R). Qed.
Print Assumptions C40_last.
(** the effective mass is invertible if one of the bodies has a mass and the joint has a direction *)
Theorem C40_invertible : forall (k : jkind R) (a b : body R) (pa pb : pos R), can_move a b -> has_direction k a b pa pb -> invertible k a b pa pb.
Proof. exact masses_invertible. Qed.
Print Assumptions C40_invertible.
Example C40_ex : (forall k, can_move (ji_a (ex_held 2%R ex_move k)) (ji_b (ex_held 2%R ex_move k))) /\
  Forall (fun k => has_direction k (ji_a (ex_held 2%R ex_move k)) (ji_b (ex_held 2%R ex_move k)) pa0 pb0) ex_rigid /\
  Forall (fun k => exists js vels, joint_phase (ex_step 8) 8 ([ex_held 2%R ex_move ex_wel] ++ [ex_held 2%R ex_move k]) (map body_pos (ex_pair 2%R ex_move)) (map body_vel (ex_pair 2%R ex_move)) = Ok (js, vels)) ex_rigid.
Proof. exact (conj (fun k => piece_moves _ _ _ _ _ _) (conj ex_direction ex_rigid_run)). Qed.

(** C61: false. With both limits at 1 the joint reports convergence at 0; at 1, where it should stay, the correction takes it to 0. *)
Theorem C61_prismatic_refuted : exists (a b : body R) (pa pb pa' pb' : pos R), can_move a b /\ proper_axes (pin_pri 1) /\ slide_limits (pin_pri 1) = Some (1, 1)%R /\ corrected (pin_pri 1) a b pa pb pa' pb' true /\ slide (pin_pri 1) a b pa pb = 0%R.
Proof. exact (pin_converges pin_pri (or_introl eq_refl)). Qed.
Print Assumptions C61_prismatic_refuted.
Theorem C61_wheel_refuted : exists (a b : body R) (pa pb pa' pb' : pos R), can_move a b /\ proper_axes (pin_whe 1) /\ slide_limits (pin_whe 1) = Some (1, 1)%R /\ corrected (pin_whe 1) a b pa pb pa' pb' true /\ slide (pin_whe 1) a b pa pb = 0%R.
Proof. exact (pin_converges pin_whe (or_intror eq_refl)). Qed.
Print Assumptions C61_wheel_refuted.
Theorem C61_prismatic_leaves_refuted : exists (a b : body R) (pa pb pa' pb' : pos R) okay, can_move a b /\ proper_axes (pin_pri 1) /\ slide_limits (pin_pri 1) = Some (1, 1)%R /\ corrected (pin_pri 1) a b pa pb pa' pb' okay /\ slide (pin_pri 1) a b pa pb = 1%R /\ slide (pin_pri 1) a b pa' pb' = 0%R.
Proof. exact (pin_leaves pin_pri (or_introl eq_refl)). Qed.
Print Assumptions C61_prismatic_leaves_refuted.
Theorem C61_wheel_leaves_refuted : exists (a b : body R) (pa pb pa' pb' : pos R) okay, can_move a b /\ proper_axes (pin_whe 1) /\ slide_limits (pin_whe 1) = Some (1, 1)%R /\ corrected (pin_whe 1) a b pa pb pa' pb' okay /\ slide (pin_whe 1) a b pa pb = 1%R /\ slide (pin_whe 1) a b pa' pb' = 0%R.
Proof. exact (pin_leaves pin_whe (or_intror eq_refl)). Qed.
Print Assumptions C61_wheel_leaves_refuted.
(** What it does for every L, and every pair of nearly equal limits: it takes the joint to 0, not to L. This is right for L = 0 only.
    It converges near 0 *)
Theorem C61_converged_partial : forall (k : jkind R) (a b : body R) (pa pb pa' pb' : pos R) lo hi, slide_limits k = Some (lo, hi) -> (Rabs (hi - lo) < 2 * B2_LINEAR_SLOP)%R ->
  corrected k a b pa pb pa' pb' true -> (Rabs (slide k a b pa pb) <= B2_LINEAR_SLOP)%R.
Proof. exact okay_equal. Qed.
Print Assumptions C61_converged_partial.
(** bodies that cannot turn are taken to 0 at once *)
Theorem C61_fixed_partial : forall (k : jkind R) (a b : body R) (pa pb pa' pb' : pos R) lo hi okay, can_move a b -> proper_axes k -> slide_limits k = Some (lo, hi) -> (Rabs (hi - lo) < 2 * B2_LINEAR_SLOP)%R ->
  b_inv_i a = 0%R -> b_inv_i b = 0%R -> corrected k a b pa pb pa' pb' okay -> slide k a b pa' pb' = 0%R.
Proof. exact fixed_equal. Qed.
Print Assumptions C61_fixed_partial.
(** a prismatic joint between any bodies: along the straight way to the corrected positions the translation starts to move to 0, at the rate of its distance *)
Theorem C61_drives_partial : forall d i f (a b : body R) (pa pb pa' pb' : pos R) okay, let k := JPrismatic d i f in can_move a b -> proper_axes k -> pr_limit d = true -> (Rabs (pr_upper d - pr_lower d) < 2 * B2_LINEAR_SLOP)%R ->
  corrected k a b pa pb pa' pb' okay -> slide k a b pa pb <> 0%R -> derivable_pt_lim (fun t => slide k a b (toward t pa pa') (toward t pb pb')) 0%R (0 - slide k a b pa pb)%R.
Proof. exact drives_equal. Qed.
Print Assumptions C61_drives_partial.
Example C61_ex : can_move (ex_stiff 0) (ex_stiff 1) /\ (forall l, proper_axes (pin_pri l) /\ proper_axes (pin_whe l)) /\ (forall k l x, pins k -> exists pa' pb' okay, corrected (k l) (ex_stiff 0) (ex_stiff 1) (px 0) (px x) pa' pb' okay) /\
  (forall k, pins k -> exists pa' pb', corrected (k 0%R) (ex_stiff 0) (ex_stiff 1) (px 0) (px 0) pa' pb' true).
Proof. exact (conj stiff_moves (conj pin_axes (conj pin_run pin_zero))). Qed.
(** Limits that are not nearly equal are respected: convergence is only reported within the slop of the allowed range *)
Theorem C61_range_converged : forall (k : jkind R) (a b : body R) (pa pb pa' pb' : pos R) lo hi, slide_limits k = Some (lo, hi) -> (2 * B2_LINEAR_SLOP <= Rabs (hi - lo))%R ->
  corrected k a b pa pb pa' pb' true -> (lo <= hi)%R -> (lo - B2_LINEAR_SLOP <= slide k a b pa pb <= hi + B2_LINEAR_SLOP)%R.
Proof. exact okay_unequal. Qed.
Print Assumptions C61_range_converged.
(** and bodies that cannot turn are taken to the nearest allowed place *)
Theorem C61_range_fixed : forall (k : jkind R) (a b : body R) (pa pb pa' pb' : pos R) lo hi okay, can_move a b -> proper_axes k -> slide_limits k = Some (lo, hi) -> (2 * B2_LINEAR_SLOP <= hi - lo)%R ->
  b_inv_i a = 0%R -> b_inv_i b = 0%R -> corrected k a b pa pb pa' pb' okay -> slide k a b pa' pb' = Rmax lo (Rmin hi (slide k a b pa pb)).
Proof. exact fixed_unequal. Qed.
Print Assumptions C61_range_fixed.
(** and a prismatic joint between any bodies starts to move to the violated limit *)
Theorem C61_range_drives : forall d i f (a b : body R) (pa pb pa' pb' : pos R) okay, let k := JPrismatic d i f in can_move a b -> proper_axes k -> pr_limit d = true -> (2 * B2_LINEAR_SLOP <= pr_upper d - pr_lower d)%R ->
  corrected k a b pa pb pa' pb' okay ->
  ((slide k a b pa pb < pr_lower d)%R -> derivable_pt_lim (fun t => slide k a b (toward t pa pa') (toward t pb pb')) 0%R (pr_lower d - slide k a b pa pb)%R) /\
  ((pr_upper d < slide k a b pa pb)%R -> derivable_pt_lim (fun t => slide k a b (toward t pa pa') (toward t pb pb')) 0%R (pr_upper d - slide k a b pa pb)%R).
Proof. exact drives_range. Qed.
Print Assumptions C61_range_drives.
Example C61_range_ex : can_move (ex_stiff 0) (ex_stiff 1) /\ proper_axes range_pri /\ slide_limits range_pri = Some (1, 2)%R /\ slide range_pri (ex_stiff 0) (ex_stiff 1) (px 0) (px 3) = 3%R /\ exists pa' pb' okay, corrected range_pri (ex_stiff 0) (ex_stiff 1) (px 0) (px 3) pa' pb' okay.
Proof. exact range_ex. Qed.
