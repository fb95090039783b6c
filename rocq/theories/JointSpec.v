(** What the joint solvers have to respect. *)
From Coq Require Import List ZArith Bool Arith Reals.
From Verif Require Import Base Num NumLaws Math Manifold DynModel SolverModel IslandModel SolverSpec JointModel.
Import ListNotations.

Section Limits.
  Local Open Scope num_scope.
  Context {T : Type} `{NT : Num T} `{TT : NumTrig T}.
  (* everything that happens to the velocities [vels] because of joints in a step: each joint is prepared (with warm starting), then [n] iterations *)
  Definition joint_phase (step : tstep T) (n : nat) (js : list (jin T)) (poss : list (pos T)) (vels : list (vel T)) : res (list (jin T) * list (vel T)) :=
    '(js, (poss, vels)) <- each_item (fun j st =>
      '(j, poss, vels) <- js_init joint_solver step j (fst st) (snd st) ;;
      Ok (j, (poss, vels))) js (poss, vels) ;;
    for_range 0 n (fun _ st => each_item (js_vel joint_solver step) (fst st) (snd st)) (js, vels).

  (* the bodies that a joint looks at are in an island of n bodies *)
  Definition in_island (n : nat) (b : body T) : Prop := (0 <= b_island_index b < Z.of_nat n)%Z.
  Definition jointed (n : nat) (x : jin T) : Prop := in_island n (ji_a x) /\ in_island n (ji_b x) /\ match j_kind (ji_joint x) with JGear _ _ _ => in_island n (ji_c x) /\ in_island n (ji_d x) | _ => True end.

  (* between -b and b, if b is a number and not negative *)
  Definition limited (b x : T) : Prop := nonneg b -> between (- b) x b.
  (* the motor impulses: at most the time step times the maximum force or torque. A motor that is off has no impulse to speak of. *)
  Definition strong (step : tstep T) (j : jnt T) : Prop :=
    match j_kind j with
    | JRevolute d i _ => rv_motor d = true -> (jc_ia (j_com j) + jc_ib (j_com j) =? #0) = false -> limited (ts_dt step * rv_torque d) (rv_im i)
    | JPrismatic d i _ => pr_motor d = true -> limited (ts_dt step * pr_force d) (pr_im i)
    | JWheel d i _ => limited (ts_dt step * wh_torque d) (wh_im i)
    | JFriction d i _ => limited (ts_dt step * fr_torque d) (li_a i)
    | JMotor d i _ => limited (ts_dt step * mo_torque d) (li_a i)
    | _ => True
    end.

  (* not negative, or NaN *)
  Definition not_negative (x : T) : Prop := nlt x #0 = false.
  (* the two limit impulses of a joint *)
  Definition limit_impulses (k : jkind T) : list T :=
    match k with
    | JRevolute _ i _ => [rv_il i; rv_iu i]
    | JPrismatic _ i _ => [pr_il i; pr_iu i]
    | JDistance _ i _ => [di_il i; di_iu i]
    | JWheel _ i _ => [wh_il i; wh_iu i]
    | _ => []
    end.
  Definition only_pushes (j : jnt T) : Prop := Forall not_negative (limit_impulses (j_kind j)).
  (* the limits of a revolute, prismatic or wheel joint are used *)
  Definition limiting (j : jnt T) : bool :=
    match j_kind j with
    | JRevolute d _ _ => rv_limit d && negb (jc_ia (j_com j) + jc_ib (j_com j) =? #0)
    | JPrismatic d _ _ => pr_limit d
    | JWheel d _ _ => wh_limit d
    | _ => false
    end.
End Limits.

(** ** exact real arithmetic *)
Section Exact.
  Local Open Scope R_scope.
  Definition size (v : vec2 R) : R := sqrt (vx v * vx v + vy v * vy v).
  (* every motor impulse is at most the time step times the configured maximum *)
  Definition within_strength (step : tstep R) (j : jnt R) : Prop :=
    match j_kind j with
    | JRevolute d i _ => 0 <= ts_dt step * rv_torque d -> Rabs (rv_im i) <= ts_dt step * rv_torque d
    | JPrismatic d i _ => 0 <= ts_dt step * pr_force d -> Rabs (pr_im i) <= ts_dt step * pr_force d
    | JWheel d i _ => 0 <= ts_dt step * wh_torque d -> Rabs (wh_im i) <= ts_dt step * wh_torque d
    | JFriction d i _ => (0 <= ts_dt step * fr_torque d -> Rabs (li_a i) <= ts_dt step * fr_torque d) /\ (0 <= ts_dt step * fr_force d -> size (li_l i) <= ts_dt step * fr_force d)
    | JMotor d i _ => (0 <= ts_dt step * mo_torque d -> Rabs (li_a i) <= ts_dt step * mo_torque d) /\ (0 <= ts_dt step * mo_force d -> size (li_l i) <= ts_dt step * mo_force d)
    | JMouse d i _ => 0 <= ts_dt step * ms_force d -> size i <= ts_dt step * ms_force d
    | _ => True
    end.

  (** ** momentum *)
  (* the point of the body at [p] given in local coordinates *)
  Definition place {TT : NumTrig R} (b : body R) (l : vec2 R) : vec2 R :=
    let a := sw_a (b_sweep b) in
    let x := vx l - vx (sw_local_center (b_sweep b)) in
    let y := vy l - vy (sw_local_center (b_sweep b)) in
    V2 (vx (sw_c (b_sweep b)) + (ncos a * x - nsin a * y)) (vy (sw_c (b_sweep b)) + (nsin a * x + ncos a * y)).
  (* a joint between two bodies of the list, both as [P] says; not a mouse, pulley or gear joint *)
  Definition two_bodies (k : jkind R) : bool := match k with JMouse _ _ _ | JPulley _ _ _ | JGear _ _ _ => false | _ => true end.
  Definition connects (P : body R -> Prop) (bs : list (body R)) (x : jin R) : Prop := exists a b,
    nth_error bs a = Some (ji_a x) /\ nth_error bs b = Some (ji_b x) /\ a <> b /\ b_island_index (ji_a x) = Z.of_nat a /\ b_island_index (ji_b x) = Z.of_nat b /\
    P (ji_a x) /\ P (ji_b x) /\ two_bodies (j_kind (ji_joint x)) = true.
  (* the joints that pull two anchors together do so at one place *)
  Definition anchors_meet {TT : NumTrig R} (x : jin R) : Prop :=
    match j_kind (ji_joint x) with
    | JRevolute d _ _ => place (ji_a x) (rv_la d) = place (ji_b x) (rv_lb d)
    | JWeld d _ _ => place (ji_a x) (we_la d) = place (ji_b x) (we_lb d)
    | JFriction d _ _ => place (ji_a x) (fr_la d) = place (ji_b x) (fr_lb d)
    | JMotor d _ _ => place (ji_a x) (mo_linear d) = place (ji_b x) (V2 0 0)
    | _ => True
    end.

  (** ** what a joint holds *)
  Section Held.
    Context {TT : NumTrig R}.
    Definition turned (a : R) (v : vec2 R) : vec2 R := V2 (ncos a * vx v - nsin a * vy v) (nsin a * vx v + ncos a * vy v).
    (* from the center of the body at [p] to the point with local coordinates [l] *)
    Definition arm (b : body R) (p : pos R) (l : vec2 R) : vec2 R := turned (p_a p) (V2 (vx l - vx (sw_local_center (b_sweep b))) (vy l - vy (sw_local_center (b_sweep b)))).
    Definition at_arm (p : pos R) (r : vec2 R) : vec2 R := V2 (vx (p_c p) + vx r) (vy (p_c p) + vy r).
    (* the velocity of that point *)
    Definition speed_at (v : vel R) (r : vec2 R) : vec2 R := V2 (vx (v_v v) - v_w v * vy r) (vy (v_v v) + v_w v * vx r).
    Definition minus (p q : vec2 R) : vec2 R := V2 (vx p - vx q) (vy p - vy q).
    Definition plus (p q : vec2 R) : vec2 R := V2 (vx p + vx q) (vy p + vy q).
    Definition dot (p q : vec2 R) : R := vx p * vx q + vy p * vy q.
    Definition cross (p q : vec2 R) : R := vx p * vy q - vy p * vx q.
    (* the speed, along [u], of a point of body b at the arm [rb], as seen from body a; [d] leads from the anchor of a to that of b *)
    Definition seen_along (u ra rb d : vec2 R) (va vb : vel R) : R := dot u (minus (speed_at vb rb) (speed_at va (plus ra d))).
    (* the anchors' velocities, distance and so on after solve_velocity_constraints; positions from before *)
    Definition holds (k : jkind R) (a b : body R) (pa pb : pos R) (va vb : vel R) : Prop :=
      match k with
      | JRevolute d _ _ => speed_at va (arm a pa (rv_la d)) = speed_at vb (arm b pb (rv_lb d))
      | JWeld d _ _ => speed_at va (arm a pa (we_la d)) = speed_at vb (arm b pb (we_lb d)) /\
        (we_stiff d <= 0 -> b_inv_i a + b_inv_i b <> 0 -> v_w va = v_w vb)
      | JDistance d _ _ =>
        let ra := arm a pa (di_la d) in
        let rb := arm b pb (di_lb d) in
        di_max d <= di_min d -> dot (minus (at_arm pb rb) (at_arm pa ra)) (minus (speed_at vb rb) (speed_at va ra)) = 0
      | JPrismatic d _ _ =>
        let ra := arm a pa (pr_la d) in
        let rb := arm b pb (pr_lb d) in
        seen_along (turned (p_a pa) (pr_ly d)) ra rb (minus (at_arm pb rb) (at_arm pa ra)) va vb = 0 /\
        (b_inv_i a + b_inv_i b <> 0 -> v_w va = v_w vb)
      | JWheel d _ _ =>
        let ra := arm a pa (wh_la d) in
        let rb := arm b pb (wh_lb d) in
        seen_along (turned (p_a pa) (wh_ly d)) ra rb (minus (at_arm pb rb) (at_arm pa ra)) va vb = 0
      | JPulley d _ _ =>
        let ra := arm a pa (pu_la d) in
        let rb := arm b pb (pu_lb d) in
        let ua := minus (at_arm pa ra) (pu_ga d) in
        let ub := minus (at_arm pb rb) (pu_gb d) in
        dot ua (speed_at va ra) / size ua + pu_ratio d * (dot ub (speed_at vb rb) / size ub) = 0
      | _ => True
      end.
    (* the effective mass can be inverted, and the joint has a direction *)
    Definition invertible (k : jkind R) (a b : body R) (pa pb : pos R) : Prop :=
      let m := b_inv_mass a + b_inv_mass b in
      let ia := b_inv_i a in
      let ib := b_inv_i b in
      let point ra rb := m * m + m * (ia * dot ra ra + ib * dot rb rb) + ia * ib * (cross ra rb * cross ra rb) <> 0 in
      match k with
      | JRevolute d _ _ => point (arm a pa (rv_la d)) (arm b pb (rv_lb d))
      | JWeld d _ _ =>
        let ra := arm a pa (we_la d) in
        let rb := arm b pb (we_lb d) in
        (0 < we_stiff d \/ ia + ib = 0 -> point ra rb) /\ (ia + ib <> 0 -> m * m * (ia + ib) + m * (ia * ib * dot (minus ra rb) (minus ra rb)) <> 0)
      | JDistance d _ _ =>
        let ra := arm a pa (di_la d) in
        let rb := arm b pb (di_lb d) in
        let u := minus (at_arm pb rb) (at_arm pa ra) in
        B2_LINEAR_SLOP < size u /\ m * dot u u + ia * (cross ra u * cross ra u) + ib * (cross rb u * cross rb u) <> 0
      | JPrismatic d _ _ =>
        let ra := arm a pa (pr_la d) in
        let rb := arm b pb (pr_lb d) in
        let u := turned (p_a pa) (pr_ly d) in
        let s1 := cross (plus ra (minus (at_arm pb rb) (at_arm pa ra))) u in
        let s2 := cross rb u in
        dot (pr_ly d) (pr_ly d) = 1 /\ (ia + ib = 0 -> m + ia * s1 * s1 + ib * s2 * s2 - (ia * s1 + ib * s2) * (ia * s1 + ib * s2) <> 0) /\
        (ia + ib <> 0 -> m * (ia + ib) + ia * ib * ((s1 - s2) * (s1 - s2)) <> 0)
      | JWheel d _ _ =>
        let ra := arm a pa (wh_la d) in
        let rb := arm b pb (wh_lb d) in
        let u := turned (p_a pa) (wh_ly d) in
        let s1 := cross (plus ra (minus (at_arm pb rb) (at_arm pa ra))) u in
        let s2 := cross rb u in
        dot (wh_ly d) (wh_ly d) = 1 /\ 0 < m + ia * s1 * s1 + ib * s2 * s2
      | JPulley d _ _ =>
        let ra := arm a pa (pu_la d) in
        let rb := arm b pb (pu_lb d) in
        let ua := minus (at_arm pa ra) (pu_ga d) in
        let ub := minus (at_arm pb rb) (pu_gb d) in
        10 * B2_LINEAR_SLOP < size ua /\ 10 * B2_LINEAR_SLOP < size ub /\
        0 < b_inv_mass a + ia * (cross ra ua * cross ra ua) / (size ua * size ua) + pu_ratio d * pu_ratio d * (b_inv_mass b + ib * (cross rb ub * cross rb ub) / (size ub * size ub))
      | _ => True
      end.
    (* the same joint after some iterations: only the accumulated impulses can differ *)
    Definition same_joint (j j' : jnt R) : Prop := j_com j' = j_com j /\ j_com2 j' = j_com2 j /\
      match j_kind j, j_kind j' with
      | JRevolute d _ f, JRevolute d' _ f' => d' = d /\ f' = f
      | JPrismatic d _ f, JPrismatic d' _ f' => d' = d /\ f' = f
      | JDistance d _ f, JDistance d' _ f' => d' = d /\ f' = f
      | JWeld d _ f, JWeld d' _ f' => d' = d /\ f' = f
      | JWheel d _ f, JWheel d' _ f' => d' = d /\ f' = f
      | JFriction d _ f, JFriction d' _ f' => d' = d /\ f' = f
      | JMotor d _ f, JMotor d' _ f' => d' = d /\ f' = f
      | JMouse d _ f, JMouse d' _ f' => d' = d /\ f' = f
      | JPulley d _ f, JPulley d' _ f' => d' = d /\ f' = f
      | JGear d _ f, JGear d' _ f' => d' = d /\ f' = f
      | _, _ => False
      end.
    (* masses as those of bodies *)
    Definition can_move (a b : body R) : Prop := 0 <= b_inv_mass a /\ 0 <= b_inv_mass b /\ 0 <= b_inv_i a /\ 0 <= b_inv_i b /\ 0 < b_inv_mass a + b_inv_mass b.
    (* the joint has a direction: its length is not tiny, its axis is a unit vector *)
    Definition has_direction (k : jkind R) (a b : body R) (pa pb : pos R) : Prop :=
      match k with
      | JDistance d _ _ => B2_LINEAR_SLOP < size (minus (at_arm pb (arm b pb (di_lb d))) (at_arm pa (arm a pa (di_la d))))
      | JPrismatic d _ _ => dot (pr_ly d) (pr_ly d) = 1
      | JWheel d _ _ => dot (wh_ly d) (wh_ly d) = 1
      | JPulley d _ _ => 10 * B2_LINEAR_SLOP < size (minus (at_arm pa (arm a pa (pu_la d))) (pu_ga d)) /\ 10 * B2_LINEAR_SLOP < size (minus (at_arm pb (arm b pb (pu_lb d))) (pu_gb d)) /\ pu_ratio d <> 0
      | _ => True
      end.
  End Held.

  (** ** the limits of prismatic and wheel joints *)
  Section Slide.
    Context {TT : NumTrig R}.
    (* how far the anchor of b is from that of a along the axis *)
    Definition slide_along (la lb lx : vec2 R) (a b : body R) (pa pb : pos R) : R := dot (turned (p_a pa) lx) (minus (at_arm pb (arm b pb lb)) (at_arm pa (arm a pa la))).
    Definition slide (k : jkind R) (a b : body R) (pa pb : pos R) : R :=
      match k with
      | JPrismatic d _ _ => slide_along (pr_la d) (pr_lb d) (pr_lx d) a b pa pb
      | JWheel d _ _ => slide_along (wh_la d) (wh_lb d) (wh_lx d) a b pa pb
      | _ => 0
      end.
    (* the limits are on *)
    Definition slide_limits (k : jkind R) : option (R * R) :=
      match k with
      | JPrismatic d _ _ => if pr_limit d then Some (pr_lower d, pr_upper d) else None
      | JWheel d _ _ => if wh_limit d then Some (wh_lower d, wh_upper d) else None
      | _ => None
      end.
    (* the second axis is the first one turned by a quarter, of length 1 *)
    Definition proper_axes (k : jkind R) : Prop :=
      match k with
      | JPrismatic d _ _ => dot (pr_lx d) (pr_lx d) = 1 /\ pr_ly d = V2 (- vy (pr_lx d)) (vx (pr_lx d))
      | JWheel d _ _ => dot (wh_lx d) (wh_lx d) = 1 /\ wh_ly d = V2 (- vy (wh_lx d)) (vx (wh_lx d))
      | _ => False
      end.
    (* the straight way from [p] to [q] *)
    Definition toward (t : R) (p q : pos R) : pos R := Pos (V2 (vx (p_c p) + t * (vx (p_c q) - vx (p_c p))) (vy (p_c p) + t * (vy (p_c q) - vy (p_c p)))) (p_a p + t * (p_a q - p_a p)).
    (* the positions after solve_position_constraints, and what it reports *)
    Definition corrected (k : jkind R) (a b : body R) (pa pb pa' pb' : pos R) (okay : bool) : Prop := exists c2 poss poss',
      b_island_index a <> b_island_index b /\ zget poss (b_island_index a) = Ok pa /\ zget poss (b_island_index b) = Ok pb /\
      joint_pos (Jnt k (com_of a b) c2) poss = Ok (poss', okay) /\ zget poss' (b_island_index a) = Ok pa' /\ zget poss' (b_island_index b) = Ok pb'.
  End Slide.
End Exact.
