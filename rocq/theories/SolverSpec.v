(** What the contact solver has to respect. *)
From Coq Require Import List ZArith Bool Arith Reals.
From Verif Require Import Base Num NumLaws Math Manifold DynModel SolverModel IslandModel.
Import ListNotations.

Section Cone.
  Local Open Scope num_scope.
  Context {T : Type} `{NT : Num T}.
  (* not negative and not NaN *)
  Definition nonneg (x : T) : Prop := nle #0 x = true.
  Definition between (l x u : T) : Prop := nle l x = true /\ nle x u = true.
  (* the points the solver works on *)
  Definition active (c : vcon T) : list (vpoint T) := firstn (vc_count c) (vc_points c).
  (* contacts only push *)
  Definition pushing (c : vcon T) : Prop := Forall (fun p => nonneg (vp_ni p)) (active c).
  (* the friction impulse of the new point is in the cone of the normal impulse of the old point, if the cone is a number *)
  Definition in_cone (friction : T) (old new : vpoint T) : Prop :=
    nonneg (friction * vp_ni old) -> between (- (friction * vp_ni old)) (vp_ti new) (friction * vp_ni old).
  (* a constraint whose solving cannot fail among [n] bodies *)
  Definition wired (n : nat) (c : vcon T) : Prop :=
    (0 <= vc_a c < Z.of_nat n)%Z /\ (0 <= vc_b c < Z.of_nat n)%Z /\ length (vc_points c) = 2%nat /\ (vc_count c = 1 \/ vc_count c = 2)%nat.
  (* everything but the impulses is the same *)
  Definition same_place (p q : vpoint T) : Prop := vp_ra q = vp_ra p /\ vp_rb q = vp_rb p /\ vp_nm q = vp_nm p /\ vp_tm q = vp_tm p /\ vp_bias q = vp_bias p.
  Definition same_frame (c d : vcon T) : Prop := exists ps, d = set_vc_points ps c /\ Forall2 same_place (vc_points c) ps.
  (* what the solver may be given for a contact between two of n bodies *)
  Definition solvable (n : nat) (step : tstep T) (ci : cinput T) : Prop :=
    let m := c_manifold (ci_contact ci) in
    (0 <= b_island_index (ci_a ci) < Z.of_nat n)%Z /\ (0 <= b_island_index (ci_b ci) < Z.of_nat n)%Z /\ (mf_count m = 1 \/ mf_count m = 2)%nat /\ length (mf_points m) = 2%nat /\
    (ts_warm step = true -> Forall (fun p => nonneg (ts_ratio step * mp_normal_impulse p)) (firstn (mf_count m) (mf_points m))).
End Cone.

(** ** momentum, in exact real arithmetic *)
Section Momentum.
  Local Open Scope R_scope.
  Fixpoint total {A} (f : A -> R) (l : list A) : R := match l with [] => 0 | a :: r => f a + total f r end.
  Definition weighted (bs : list (body R)) (vs : list (vel R)) (f : body R -> vel R -> R) : R := total (fun bv => f (fst bv) (snd bv)) (combine bs vs).
  Definition momentum_x bs vs : R := weighted bs vs (fun b v => b_mass b * vx (v_v v)).
  Definition momentum_y bs vs : R := weighted bs vs (fun b v => b_mass b * vy (v_v v)).
  (* about the point (ox, oy): the orbital and the spin part *)
  Definition angular_momentum (ox oy : R) bs vs : R :=
    weighted bs vs (fun b v => b_mass b * ((vx (sw_c (b_sweep b)) - ox) * vy (v_v v) - (vy (sw_c (b_sweep b)) - oy) * vx (v_v v)) + b_i b * v_w v).
  (* a body with finite mass and rotational inertia *)
  Definition finite_mass (b : body R) : Prop := b_mass b * b_inv_mass b = 1 /\ b_i b * b_inv_i b = 1.
  Definition infinite_mass (b : body R) : Prop := b_inv_mass b = 0 /\ b_inv_i b = 0.
  (* the constraint is between two different bodies of the list, both as [P] says, and uses their masses *)
  Definition joins (P : body R -> Prop) (bs : list (body R)) (c : vcon R) : Prop := exists a b ba bb,
    vc_a c = Z.of_nat a /\ vc_b c = Z.of_nat b /\ a <> b /\ nth_error bs a = Some ba /\ nth_error bs b = Some bb /\ P ba /\ P bb /\
    vc_ma c = b_inv_mass ba /\ vc_ia c = b_inv_i ba /\ vc_mb c = b_inv_mass bb /\ vc_ib c = b_inv_i bb.
  (* both arms of every point end in the same place *)
  Definition common_point (bs : list (body R)) (c : vcon R) : Prop := forall a b ba bb, vc_a c = Z.of_nat a -> vc_b c = Z.of_nat b -> nth_error bs a = Some ba -> nth_error bs b = Some bb ->
    Forall (fun p => vx (sw_c (b_sweep ba)) + vx (vp_ra p) = vx (sw_c (b_sweep bb)) + vx (vp_rb p) /\
                     vy (sw_c (b_sweep ba)) + vy (vp_ra p) = vy (sw_c (b_sweep bb)) + vy (vp_rb p)) (active c).
  (* what the solver is given about a contact between two bodies of the list *)
  Definition touches (P : body R -> Prop) (bs : list (body R)) (ci : cinput R) : Prop := exists a b,
    nth_error bs a = Some (ci_a ci) /\ nth_error bs b = Some (ci_b ci) /\ a <> b /\ b_island_index (ci_a ci) = Z.of_nat a /\ b_island_index (ci_b ci) = Z.of_nat b /\ P (ci_a ci) /\ P (ci_b ci).
  Definition heavy (b : body R) : Prop := b_mass b * b_inv_mass b = 1.
End Momentum.

(* n iterations of the contact solver *)
Definition iterations {T} {NT : Num T} (block : bool) (n : nat) (cs : list (vcon T)) (vels : list (vel T)) : res (list (vcon T) * list (vel T)) :=
  for_range 0 n (fun _ st => solve_velocities block (fst st) (snd st)) (cs, vels).
(* everything the contact solver does to the velocities [vels] of the bodies [bs]: make the constraints, prepare them, apply the impulses of the last step, iterate *)
Definition contact_phase {T} {NT : Num T} {TT : NumTrig T} (block : bool) (step : tstep T) (bs : list (body T)) (cins : list (cinput T)) (vels : list (vel T)) : res (list (vcon T) * list (vel T)) :=
  '(cs, pcs) <- make_constraints step cins ;;
  cs <- init_constraints block (map body_pos bs) vels cins pcs cs ;;
  '(cs, vels) <- (if ts_warm step then warm_start cs vels else Ok (cs, vels)) ;;
  iterations block (ts_vel_iters step) cs vels.

(** ** the two-point solver, in exact real arithmetic *)
Section Lcp.
  Local Open Scope R_scope.
  (* the velocity of body b relative to body a at the point, along the normal: v_b + w_b x r_b - v_a - w_a x r_a *)
  Definition approach (c : vcon R) (p : vpoint R) (s : pair R) : R :=
    vx (vc_normal c) * ((vx (s_vb s) - s_wb s * vy (vp_rb p)) - (vx (s_va s) - s_wa s * vy (vp_ra p))) +
    vy (vc_normal c) * ((vy (s_vb s) + s_wb s * vx (vp_rb p)) - (vy (s_va s) + s_wa s * vx (vp_ra p))).
  (* an impulse x and a velocity u: both not negative, one of them zero *)
  Definition complementary (x u : R) : Prop := 0 <= x /\ 0 <= u /\ x * u = 0.
  Definition arm (n r : vec2 R) : R := vx r * vy n - vy r * vx n.
  Definition eff (c : vcon R) (p q : vpoint R) : R :=
    vc_ma c + vc_mb c + vc_ia c * arm (vc_normal c) (vp_ra p) * arm (vc_normal c) (vp_ra q) + vc_ib c * arm (vc_normal c) (vp_rb p) * arm (vc_normal c) (vp_rb q).
  Definition unit_normal (n : vec2 R) : Prop := vx n * vx n + vy n * vy n = 1.
  (* the matrix of the effective mass and its inverse *)
  Definition prepared (c : vcon R) (p1 p2 : vpoint R) : Prop :=
    let det := eff c p1 p1 * eff c p2 p2 - eff c p1 p2 * eff c p1 p2 in
    vc_k c = M22 (V2 (eff c p1 p1) (eff c p1 p2)) (V2 (eff c p1 p2) (eff c p2 p2)) /\
    vc_nmass c = M22 (V2 (eff c p2 p2 / det) (- eff c p1 p2 / det)) (V2 (- eff c p1 p2 / det) (eff c p1 p1 / det)) /\
    vp_nm p1 = 1 / eff c p1 p1 /\ vp_nm p2 = 1 / eff c p2 p2.
  Definition positive_definite (c : vcon R) (p1 p2 : vpoint R) : Prop := 0 < eff c p1 p1 /\ 0 < eff c p1 p1 * eff c p2 p2 - eff c p1 p2 * eff c p1 p2.
  Definition solved (c : vcon R) (s : pair R) (p : vpoint R) : Prop := complementary (vp_ni p) (approach c p s - vp_bias p).
  Definition no_negative_mass (c : vcon R) : Prop := 0 <= vc_ma c /\ 0 <= vc_mb c /\ 0 <= vc_ia c /\ 0 <= vc_ib c.
End Lcp.

(** ** position correction, in exact real arithmetic *)
Section Correction.
  Local Open Scope R_scope.
  (* how far the point moves away from body a with body b, along n, to first order in the angles, when the bodies move from pa, pb to pa', pb' *)
  Definition opening (n point : vec2 R) (pa pb pa' pb' : pos R) : R :=
    let ra := V2 (vx point - vx (p_c pa)) (vy point - vy (p_c pa)) in
    let rb := V2 (vx point - vx (p_c pb)) (vy point - vy (p_c pb)) in
    let da := p_a pa' - p_a pa in
    let db := p_a pb' - p_a pb in
    vx n * ((vx (p_c pb') - vx (p_c pb) - db * vy rb) - (vx (p_c pa') - vx (p_c pa) - da * vy ra)) +
    vy n * ((vy (p_c pb') - vy (p_c pb) + db * vx rb) - (vy (p_c pa') - vy (p_c pa) + da * vx ra)).
End Correction.
(* a constraint with two points whose solving always succeeds *)
Definition ready (c : vcon R) : Prop := unit_normal (vc_normal c) /\ (vc_count c = 2%nat -> exists p1 p2 r, vc_points c = p1 :: p2 :: r /\ prepared c p1 p2 /\ positive_definite c p1 p2).
(* the inverse effective mass of every point that can be moved *)
Definition measured (c : vcon R) : Prop := Forall (fun p => (0 < eff c p p -> vp_nm p = 1 / eff c p p)%R) (active c).
(* the points of the constraint are solved for the velocities of the two bodies in the list *)
Definition solved_in (c : vcon R) (vels : list (vel R)) : Prop := forall va vb, zget vels (vc_a c) = Ok va -> zget vels (vc_b c) = Ok vb ->
  Forall (solved c (Pair (v_v va) (v_w va) (v_v vb) (v_w vb))) (active c).

(** ** sleeping *)
Section Sleep.
  Local Open Scope num_scope.
  Context {T : Type} {NT : Num T}.
  (* a body that may sleep and is under both tolerances (the squares are compared) *)
  Definition quiet (b : body T) : Prop :=
    fl_auto_sleep (b_flags b) = true /\
    nle (b_av b * b_av b) (B2_ANGULAR_SLEEP_TOLERANCE * B2_ANGULAR_SLEEP_TOLERANCE) = true /\
    nle (b2_dot (b_lv b) (b_lv b)) (B2_LINEAR_SLEEP_TOLERANCE * B2_LINEAR_SLEEP_TOLERANCE) = true.
  (* what has to hold of a body when a step of length h puts its island to sleep *)
  Definition rested (h : T) (b : body T) : Prop := is_static b = true \/ (quiet b /\ nle B2_TIME_TO_SLEEP (b_sleep_time b + h) = true).
  Definition asleep (b : body T) : Prop := is_static b = true \/ fl_awake (b_flags b) = false.
  (* the steps a body took part in: the length of the step and the body when its sleep timer is updated; the last step comes first.
     Between two steps the timer is kept or set back to zero; at the start it is zero. *)
  Inductive history : list (T * body T) -> Prop :=
  | h_first h b : b_sleep_time b = #0 -> history [(h, b)]
  | h_reset h b l : b_sleep_time b = #0 -> history l -> history ((h, b) :: l)
  | h_kept h b h' b' l : b_sleep_time b = (if restless b' then #0 else b_sleep_time b' + h') -> history ((h', b') :: l) -> history ((h, b) :: (h', b') :: l).
  (* the time of the steps, the last one added last *)
  (* no NaN in what the sleep test looks at *)
  Definition measurable {OT : NumOrd T} (h : T) (b : body T) : Prop := nok (b_sleep_time b + h) /\ nok (b_av b * b_av b) /\ nok (b2_dot (b_lv b) (b_lv b)).
  Fixpoint elapsed (l : list (T * body T)) : T := match l with [] => #0 | (h, _) :: r => elapsed r + h end.
End Sleep.
