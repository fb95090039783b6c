(** Properties of the contact solver and of islands. *)
From Coq Require Import List ZArith Reals Bool.
From Verif Require Import Base Num NumLaws Math Manifold DynModel SolverModel IslandModel SolverSpec SolverProofs SolverReal SolverLcp SolverPos SolverTotal IslandProofs SolverExamples.
Import ListNotations.

(** C34: after any positive number of iterations, from any state, no normal impulse is negative or NaN. *)
Theorem C34_pushes : forall (T : Type) (NT : Num T) (OT : NumOrd T) (block : bool) (n : nat) (cs : list (vcon T)) (vels : list (vel T)) cs' vels',
  iterations block (S n) cs vels = Ok (cs', vels') -> Forall pushing cs'.
Proof. exact (fun T NT OT => @iterations_push T NT OT). Qed.
Print Assumptions C34_pushes.
Theorem C34_pushes_f32 : forall (block : bool) (n : nat) (cs : list (vcon f32)) (vels : list (vel f32)) cs' vels',
  iterations block (S n) cs vels = Ok (cs', vels') -> Forall pushing cs'.
Proof. exact (C34_pushes f32 _ _). Qed.
Print Assumptions C34_pushes_f32.
(** the whole contact phase of a step returns, without a failed assertion *)
Theorem C34_returns : forall (T : Type) (NT : Num T) (TT : NumTrig T) (OT : NumOrd T) (block : bool) (step : tstep T) (bs : list (body T)) (cins : list (cinput T)) (vels : list (vel T)),
  length vels = length bs -> Forall (solvable (length bs) step) cins ->
  exists cs' vels', contact_phase block step bs cins vels = Ok (cs', vels') /\ length vels' = length bs /\ Forall (fun c => wired (length bs) c /\ pushing c) cs'.
Proof. exact (fun T NT TT OT => @phase_returns T NT TT OT). Qed.
Print Assumptions C34_returns.
Example C34_returns_ex : Forall (solvable (T := f32) 2 (ex_step 8)) [ex_input (nlit 1 2) (nofZ 1) (nofZ 2) (V2 (nofZ 0) (nofZ (-3)))] /\ falls = true.
Proof. exact (conj (Forall_cons _ solvable_ex (Forall_nil _)) falls_ok). Qed.
(** each iteration leaves every friction impulse in the cone of the normal impulse it started with, if the width of the cone is a number.
    Missing: the width friction * impulse is NaN. *)
Theorem C34_cone_partial : forall (block : bool) (cs : list (vcon f32)) (vels : list (vel f32)) cs' vels',
  solve_velocities block cs vels = Ok (cs', vels') -> Forall2 (fun c d => Forall2 (in_cone (vc_friction c)) (active c) (active d)) cs cs'.
Proof. exact (velocities_cone opp_le_f32). Qed.
Print Assumptions C34_cone_partial.
(** and then it can be wrong: no friction, a normal impulse that overflows, and the friction impulse is NaN after two iterations *)
Theorem C34_cone_refuted : exists (step : tstep f32) (bs : list (body f32)) (cins : list (cinput f32)) (vels : list (vel f32)) cs' vels' c p,
  Forall (solvable (length bs) step) cins /\ Forall (fun ci => c_friction (ci_contact ci) = nofZ 0) cins /\
  @contact_phase f32 _ flat_trig false step bs cins vels = Ok (cs', vels') /\ In c cs' /\ In p (active c) /\ nle (vp_ti p) (vp_ti p) = false.
Proof. exact crash_refutes. Qed.
Print Assumptions C34_cone_refuted.

(** C35: the contact phase (warm starting and any number of iterations) keeps the momentum of any list of bodies. *)
Theorem C35_linear : forall (TT : NumTrig R) (block : bool) (step : tstep R) (bs : list (body R)) (cins : list (cinput R)) (vels : list (vel R)) cs' vels',
  Forall (touches heavy bs) cins -> contact_phase block step bs cins vels = Ok (cs', vels') ->
  momentum_x bs vels' = momentum_x bs vels /\ momentum_y bs vels' = momentum_y bs vels.
Proof. exact (fun TT => @phase_linear TT). Qed.
Print Assumptions C35_linear.
Theorem C35_angular : forall (TT : NumTrig R) (block : bool) (step : tstep R) (bs : list (body R)) (cins : list (cinput R)) (vels : list (vel R)) cs' vels' (ox oy : R),
  Forall (touches finite_mass bs) cins -> contact_phase block step bs cins vels = Ok (cs', vels') -> angular_momentum ox oy bs vels' = angular_momentum ox oy bs vels.
Proof. exact (fun TT => @phase_angular TT). Qed.
Print Assumptions C35_angular.
Example C35_ex : forall (TT : NumTrig R), Forall (touches finite_mass (ex_pair 2%R (V2 0 (-3))%R)) [ex_input (1 / 2) 1 2 (V2 0 (-3))]%R /\
  exists cs vels, contact_phase true (ex_step 8) (ex_pair 2%R (V2 0 (-3))%R) [ex_input (1 / 2) 1 2 (V2 0 (-3))]%R (map body_vel (ex_pair 2%R (V2 0 (-3))%R)) = Ok (cs, vels).
Proof. exact (fun TT => conj (Forall_cons _ (piece_touches _ _ piece_finite) (Forall_nil _)) (real_run _)). Qed.
(** a body of infinite mass keeps its velocity *)
Theorem C35_immovable : forall (TT : NumTrig R) (block : bool) (step : tstep R) (bs : list (body R)) (cins : list (cinput R)) (vels : list (vel R)) cs' vels' i b,
  nth_error bs i = Some b -> infinite_mass b -> Forall (touches (fun _ => True) bs) cins -> contact_phase block step bs cins vels = Ok (cs', vels') -> nth_error vels' i = nth_error vels i.
Proof. exact (fun TT => @phase_still TT). Qed.
Print Assumptions C35_immovable.
Example C35_immovable_ex : forall (TT : NumTrig R), nth_error ground_pair 0 = Some (ex_piece StaticBody 0 0 0 vzero 0 0)%R /\ infinite_mass (ex_piece StaticBody 0 0 0 vzero 0 0)%R /\ touches (fun _ => True) ground_pair ground_input /\
  exists cs vels, contact_phase true (ex_step 8) ground_pair [ground_input] (map body_vel ground_pair) = Ok (cs, vels).
Proof. exact (fun TT => conj eq_refl (conj ground_heavy (conj ground_touches ground_run))). Qed.

(** C36: the two-point solver: with a positive definite matrix one case applies, and it solves the problem. *)
Theorem C36_block : forall (c : vcon R) (p1 p2 : vpoint R) (r : list (vpoint R)) (s : pair R), unit_normal (vc_normal c) -> prepared c p1 p2 -> positive_definite c p1 p2 -> (0 <= vp_ni p1)%R -> (0 <= vp_ni p2)%R ->
  exists q1 q2 s', block_solve c (p1 :: p2 :: r) s = Ok (q1 :: q2 :: r, s') /\ solved c s' q1 /\ solved c s' q2.
Proof. exact block_lcp. Qed.
Print Assumptions C36_block.
(** for every constraint made from a contact, whatever impulses it has by now: both points are solved for the new velocities of the two bodies *)
Theorem C36_contact : forall (poss : list (pos R)) (vels0 : list (vel R)) (m : manifold R) (pc : pcon R) (c0 c d : vcon R) (vels : list (vel R)) d' vels',
  (mf_type m <> MCircles -> unit_normal (mf_local_normal m)) -> no_negative_mass c0 -> init_constraint true poss vels0 m pc c0 = Ok c -> same_frame c d -> vc_count d = 2%nat -> pushing d ->
  (vc_a d >= 0 /\ vc_b d >= 0 /\ vc_a d <> vc_b d)%Z -> solve_constraint true d vels = Ok (d', vels') -> solved_in d' vels'.
Proof. exact contact_two_points. Qed.
Print Assumptions C36_contact.
Theorem C36_ready : forall (c : vcon R) (vels : list (vel R)) c' vels', ready c -> vc_count c = 2%nat -> pushing c -> (vc_a c >= 0 /\ vc_b c >= 0 /\ vc_a c <> vc_b c)%Z -> solve_constraint true c vels = Ok (c', vels') -> solved_in c' vels'.
Proof. exact two_points_lcp. Qed.
Print Assumptions C36_ready.
Example C36_ex : ready ex_con /\ vc_count ex_con = 2%nat /\ pushing ex_con /\ exists c vels, solve_constraint true ex_con [Vel vzero 0; Vel (V2 1 (-3)) 1]%R = Ok (c, vels).
Proof. exact (conj ex_con_ready (conj eq_refl (conj ex_con_pushing ex_con_runs))). Qed.
(** one point *)
Theorem C36_one_point : forall (block : bool) (poss : list (pos R)) (vels0 : list (vel R)) (m : manifold R) (pc : pcon R) (c0 c d : vcon R) (vels : list (vel R)) d' vels',
  (mf_type m <> MCircles -> unit_normal (mf_local_normal m)) -> no_negative_mass c0 -> (0 < vc_ma c0 + vc_mb c0)%R -> init_constraint block poss vels0 m pc c0 = Ok c -> same_frame c d -> vc_count d = 1%nat ->
  (vc_a d >= 0 /\ vc_b d >= 0 /\ vc_a d <> vc_b d)%Z -> solve_constraint block d vels = Ok (d', vels') -> solved_in d' vels'.
Proof. exact contact_one_point. Qed.
Print Assumptions C36_one_point.

(** C60: the correction of one point opens the contact, by at most B2_MAX_LINEAR_CORRECTION. *)
Theorem C60_bounded : forall (k ma mb ia ib : R) (pc : pcon R) (j : nat) (mn : R) (pa pb : pos R) mn' pa' pb' n point sep,
  psm_initialize pc (center_xf (p_c pa) (p_a pa) (pc_ca pc)) (center_xf (p_c pb) (p_a pb) (pc_cb pc)) j = Ok (n, point, sep) ->
  position_point k ma mb ia ib pc j (mn, pa, pb) = Ok (mn', pa', pb') -> (pc_type pc <> MCircles -> unit_normal (pc_lnormal pc)) -> (0 <= ma -> 0 <= mb -> 0 <= ia -> 0 <= ib ->
  0 <= opening n point pa pb pa' pb' <= B2_MAX_LINEAR_CORRECTION)%R.
Proof. exact correction_bounded. Qed.
Print Assumptions C60_bounded.
Example C60_bounded_ex : psm_initialize (ex_pc 1%R) (center_xf (V2 0 0) 0 vzero)%R (center_xf (V2 1 0) 0 vzero)%R 0 = Ok (V2 1 0, V2 1 0, 1 - 1 - 1)%R /\ exists r, position_point (T := R) B2_BAUMGARTE 1%R 1%R 1%R 1%R (ex_pc 1) 0 (0, Pos (V2 0 0) 0, Pos (V2 1 0) 0)%R = Ok r.
Proof. exact (conj (ex_psm 1) ex_correct). Qed.
(** a point that overlaps by at most the slop moves nothing *)
Theorem C60_point_untouched : forall (TT : NumTrig R) (k ma mb ia ib : R) (pc : pcon R) (j : nat) (mn : R) (pa pb : pos R) mn' pa' pb' n point sep,
  psm_initialize pc (center_xf (p_c pa) (p_a pa) (pc_ca pc)) (center_xf (p_c pb) (p_a pb) (pc_cb pc)) j = Ok (n, point, sep) ->
  position_point k ma mb ia ib pc j (mn, pa, pb) = Ok (mn', pa', pb') -> (0 <= k)%R -> (- B2_LINEAR_SLOP <= sep)%R -> pa' = pa /\ pb' = pb /\ mn' = Rmin mn sep.
Proof. exact (fun TT => @point_rest TT). Qed.
Print Assumptions C60_point_untouched.
(** contacts that overlap by at most the slop do not move anything *)
Theorem C60_untouched : forall (TT : NumTrig R) (pcs : list (pcon R)) (poss : list (pos R)), Forall (resting poss) pcs -> solve_positions pcs poss = Ok (poss, true).
Proof. exact (fun TT => @positions_rest TT). Qed.
Print Assumptions C60_untouched.
Example C60_untouched_ex : Forall (resting ex_near) [ex_pc (1 / 2)]%R.
Proof. exact (Forall_cons _ ex_resting (Forall_nil _)). Qed.

(** C32: the integration moves and turns a body only so far, for every velocity and every step. *)
Theorem C32_capped : forall (h : R) (p : pos R) (v : vel R), let p' := fst (integrate_position h p v) in
  (sqrt ((vx (p_c p') - vx (p_c p)) * (vx (p_c p') - vx (p_c p)) + (vy (p_c p') - vy (p_c p)) * (vy (p_c p') - vy (p_c p))) <= B2_MAX_TRANSLATION /\ Rabs (p_a p' - p_a p) <= B2_MAX_ROTATION)%R.
Proof. exact motion_capped. Qed.
Print Assumptions C32_capped.

(** C31: a step that puts a body to sleep: sleeping is allowed, the positions are solved, every body of the island is static, or may sleep, is under both tolerances and has
    a sleep timer of at least B2_TIME_TO_SLEEP; and then all bodies of the island sleep. In single precision, when the velocities and timers are numbers. *)
Theorem C31_all_rested_partial : forall (h : f32) (allow solved : bool) (bs : list (body f32)) i b b', Forall (measurable h) bs -> nth_error bs i = Some b -> nth_error (island_sleep h allow solved bs) i = Some b' ->
  fl_awake (b_flags b) = true -> fl_awake (b_flags b') = false -> allow = true /\ solved = true /\ Forall (rested h) bs /\ Forall asleep (island_sleep h allow solved bs).
Proof. exact (sleep_only_rested (proj2 (proj2 f32_sleep)) (proj1 f32_sleep) (proj1 (proj2 f32_sleep))). Qed.
Print Assumptions C31_all_rested_partial.
Example C31_all_rested_ex : flags_of (island_sleep (nlit 1 64) true true [ex_rest (nlit 1 2) (nlit 1 1000); ex_rest (nofZ 3) (nofZ 0)]) = [false; false] /\
  flags_of (island_sleep (nlit 1 64) true true [ex_rest (nlit 1 10) (nlit 1 1000); ex_rest (nofZ 3) (nofZ 0)]) = [true; true] /\
  flags_of (island_sleep (nlit 1 64) true true [ex_rest (nlit 1 2) (nofZ 1); ex_rest (nofZ 3) (nofZ 0)]) = [true; true].
Proof. exact ex_sleep. Qed.
Theorem C31_all_rested_real : forall (h : R) (allow solved : bool) (bs : list (body R)) i b b', nth_error bs i = Some b -> nth_error (island_sleep h allow solved bs) i = Some b' ->
  fl_awake (b_flags b) = true -> fl_awake (b_flags b') = false -> allow = true /\ solved = true /\ Forall (rested h) bs /\ Forall asleep (island_sleep h allow solved bs).
Proof. exact (fun h allow solved bs i b b' => sleep_only_rested (proj2 (proj2 real_sleep)) (proj1 real_sleep) (proj1 (proj2 real_sleep)) h allow solved bs i b b' (proj2 (Forall_forall _ _) (fun _ _ => conj I (conj I I)))). Qed.
Print Assumptions C31_all_rested_real.
(** the timer of a quiet body is the time of its last steps, in all of which it was quiet *)
Theorem C31_timer_partial : forall (l : list (f32 * body f32)) (h : f32) (b : body f32), history ((h, b) :: l) -> Forall (fun hb => measurable (fst hb) (snd hb)) ((h, b) :: l) -> quiet b ->
  exists recent older, (h, b) :: l = recent ++ older /\ recent <> [] /\ Forall (fun hb => quiet (snd hb)) recent /\ nadd (b_sleep_time b) h = elapsed recent.
Proof. exact (timer_history (proj2 (proj2 f32_sleep))). Qed.
Print Assumptions C31_timer_partial.
Theorem C31_timer_real : forall (l : list (R * body R)) (h : R) (b : body R), history ((h, b) :: l) -> quiet b ->
  exists recent older, (h, b) :: l = recent ++ older /\ recent <> [] /\ Forall (fun hb => quiet (snd hb)) recent /\ (b_sleep_time b + h = elapsed recent)%R.
Proof. exact (fun l h b H => timer_history (proj2 (proj2 real_sleep)) l h b H (proj2 (Forall_forall _ _) (fun _ _ => conj I (conj I I)))). Qed.
Print Assumptions C31_timer_real.
(** a body whose velocity is NaN is not under the tolerance, but it is put to sleep *)
Theorem C31_nan_refuted : exists (h : f32) (b : body f32), flags_of [b] = [true] /\ flags_of (island_sleep h true true [b]) = [false] /\
  nle (b2_dot (b_lv b) (b_lv b)) (nmul B2_LINEAR_SLEEP_TOLERANCE B2_LINEAR_SLEEP_TOLERANCE) = false.
Proof. exists (nlit 1 64), (ex_rest (nlit 1 2) nan32). exact (conj (proj1 (proj2 ex_nan_sleeps)) (conj (proj2 (proj2 ex_nan_sleeps)) (proj1 ex_nan_sleeps))). Qed.
Print Assumptions C31_nan_refuted.
