(** Solving one island.
    Model of src/private/dynamics/b2_island_private.rs (islp): solve and solve_toi.
    The joints are any solvers with a state ([jsolver]). The buffers of positions and velocities have the length of the list of bodies; in the code
    they have the capacity of the island, which is not smaller. An island index outside the island is a panic here.
    The calls of the listener (report) are in WorldModel.v. *)
From Coq Require Import List ZArith Bool Arith.
From Verif Require Import Base Num Math Manifold DynModel SolverModel.
Import ListNotations.

(* b2_joint.rs: init_velocity_constraints, solve_velocity_constraints, solve_position_constraints *)
Record jsolver (T J : Type) := JSolver {
  js_init : tstep T -> J -> list (pos T) -> list (vel T) -> res (J * list (pos T) * list (vel T));
  js_vel : tstep T -> J -> list (vel T) -> res (J * list (vel T));
  js_pos : tstep T -> J -> list (pos T) -> res (J * list (pos T) * bool) }.
Arguments JSolver {T J} _ _ _.
Arguments js_init {T J} _.
Arguments js_vel {T J} _.
Arguments js_pos {T J} _.

(* what is left of an island after solve: the bodies, the manifolds of the contacts, the joints *)
Record iresult (T J : Type) := IResult { ir_bodies : list (body T); ir_manifolds : list (manifold T); ir_joints : list J; ir_solved : bool }.
Arguments IResult {T J} _ _ _ _.
Arguments ir_bodies {T J} _.
Arguments ir_manifolds {T J} _.
Arguments ir_joints {T J} _.
Arguments ir_solved {T J} _.

Section Island.
  Local Open Scope num_scope.
  Context {T : Type} `{NT : Num T} `{TT : NumTrig T} {J : Type} (js : jsolver T J).

  (* islp:135-170 the new velocity of a body *)
  Definition integrate_velocity (h : T) (gravity : vec2 T) (b : body T) : vel T :=
    if is_dynamic b then
      let v := vadd (b_lv b) (vscale (h * b_inv_mass b) (vadd (vscale (b_gravity_scale b * b_mass b) gravity) (b_force b))) in
      let w := b_av b + h * b_inv_i b * b_torque b in
      Vel (vmuls v (#1 / (#1 + h * b_linear_damping b))) (w * (#1 / (#1 + h * b_angular_damping b)))
    else Vel (b_lv b) (b_av b).
  Definition body_pos (b : body T) : pos T := Pos (sw_c (b_sweep b)) (sw_a (b_sweep b)).
  Definition body_vel (b : body T) : vel T := Vel (b_lv b) (b_av b).

  (* islp:221-252 and 416-449: large velocities are cut, then the position moves *)
  Definition cap_velocity (h : T) (v : vel T) : vel T :=
    let translation := vscale h (v_v v) in
    let lv := if b2_dot translation translation >? B2_MAX_TRANSLATION_SQUARED
              then vmuls (v_v v) (B2_MAX_TRANSLATION / vlen translation) else v_v v in
    let rotation := h * v_w v in
    let av := if rotation * rotation >? B2_MAX_ROTATION_SQUARED
              then v_w v * (B2_MAX_ROTATION / nabs rotation) else v_w v in
    Vel lv av.
  Definition move (h : T) (p : pos T) (v : vel T) : pos T := Pos (vadd (p_c p) (vscale h (v_v v))) (p_a p + h * v_w v).
  Definition integrate_position (h : T) (p : pos T) (v : vel T) : pos T * vel T := let v := cap_velocity h v in (move h p v, v).
  Definition integrate_positions (h : T) (poss : list (pos T)) (vels : list (vel T)) : list (pos T * vel T) :=
    map (fun pv => integrate_position h (fst pv) (snd pv)) (combine poss vels).

  (* islp:206-215 one velocity iteration: the joints, then the contacts *)
  Definition velocity_iteration (block : bool) (step : tstep T) (st : list J * list (vcon T) * list (vel T)) : res (list J * list (vcon T) * list (vel T)) :=
    let '(jl, cs, vels) := st in
    '(jl, vels) <- each_item (js_vel js step) jl vels ;;
    '(cs, vels) <- solve_velocities block cs vels ;;
    Ok (jl, cs, vels).
  (* islp:254-274 position iterations, until all errors are small *)
  Fixpoint position_iterations (n : nat) (step : tstep T) (pcs : list (pcon T)) (jl : list J) (poss : list (pos T)) : res (list J * list (pos T) * bool) :=
    match n with
    | O => Ok (jl, poss, false)
    | S n =>
      '(poss, contacts_okay) <- solve_positions pcs poss ;;
      '(jl, (poss, joints_okay)) <- each_item (fun j st =>
        '(j, poss, okay) <- js_pos js step j (fst st) ;;
        Ok (j, (poss, snd st && okay))) jl (poss, true) ;;
      if contacts_okay && joints_okay then Ok (jl, poss, true)
      else position_iterations n step pcs jl poss
    end.
  (* islp:181-197 the constraints of the contacts *)
  Definition make_constraints (step : tstep T) (cins : list (cinput T)) : res (list (vcon T) * list (pcon T)) :=
    l <- map_res (new_constraint step) cins ;;
    Ok (map fst l, map snd l).
  Definition init_constraints (block : bool) (poss : list (pos T)) (vels : list (vel T)) (cins : list (cinput T)) (pcs : list (pcon T)) (cs : list (vcon T)) : res (list (vcon T)) :=
    zip_res (fun ci pc_c => init_constraint block poss vels (c_manifold (ci_contact ci)) (fst pc_c) (snd pc_c)) cins (combine pcs cs).

  (* islp:276-285 copy the state back; c0 and a0 were stored before (islp:145-147) *)
  Definition write_back (b : body T) (pv : pos T * vel T) : body T :=
    let b := set_sw (fun sw => Sweep (sw_local_center sw) (sw_c sw) (p_c (fst pv)) (sw_a sw) (p_a (fst pv)) (sw_alpha0 sw)) b in
    synchronize_transform (set_b_av (v_w (snd pv)) (set_b_lv (v_v (snd pv)) b)).

  (* islp:129-289 solve, up to the sleep test *)
  Definition island_solve (block : bool) (step : tstep T) (gravity : vec2 T) (bodies : list (body T)) (cins : list (cinput T)) (jl : list J) : res (iresult T J) :=
    let h := ts_dt step in
    let poss := map body_pos bodies in
    let vels := map (integrate_velocity h gravity) bodies in
    '(cs, pcs) <- make_constraints step cins ;;
    cs <- init_constraints block poss vels cins pcs cs ;;
    '(cs, vels) <- (if ts_warm step then warm_start cs vels else Ok (cs, vels)) ;;
    '(jl, (poss, vels)) <- each_item (fun j st =>
      '(j, poss, vels) <- js_init js step j (fst st) (snd st) ;;
      Ok (j, (poss, vels))) jl (poss, vels) ;;
    '(jl, cs, vels) <- for_range 0 (ts_vel_iters step) (fun _ st => velocity_iteration block step st) (jl, cs, vels) ;;
    ms <- zip_res (fun c ci => store_impulses c (c_manifold (ci_contact ci))) cs cins ;;
    let pv := integrate_positions h poss vels in
    '(jl, poss, solved) <- position_iterations (ts_pos_iters step) step pcs jl (map fst pv) ;;
    Ok (IResult (map (fun bp => write_back (fst bp) (snd bp)) (combine bodies (combine poss (map snd pv)))) ms jl solved).

  (** ** sleep *)
  (* islp:306-308 a body that is too fast or must stay awake *)
  Definition restless (b : body T) : bool :=
    negb (fl_auto_sleep (b_flags b)) ||
    (b_av b * b_av b >? B2_ANGULAR_SLEEP_TOLERANCE * B2_ANGULAR_SLEEP_TOLERANCE) ||
    (b2_dot (b_lv b) (b_lv b) >? B2_LINEAR_SLEEP_TOLERANCE * B2_LINEAR_SLEEP_TOLERANCE).
  Definition sleep_time (h : T) (b : body T) : T := if restless b then #0 else b_sleep_time b + h.
  (* islp:293-318 *)
  Definition sleep_body (h : T) (b : body T) (min_time : T) : body T * T :=
    if is_static b then (b, min_time)
    else if restless b then (set_b_sleep_time #0 b, #0)
    else (set_b_sleep_time (b_sleep_time b + h) b, b2_min min_time (b_sleep_time b + h)).
  Fixpoint sleep_bodies (h : T) (bodies : list (body T)) (min_time : T) : list (body T) * T :=
    match bodies with
    | [] => ([], min_time)
    | b :: r =>
      let '(b, min_time) := sleep_body h b min_time in
      let '(r, min_time) := sleep_bodies h r min_time in
      (b :: r, min_time)
    end.
  (* islp:291-327 *)
  Definition island_sleep (h : T) (allow_sleep solved : bool) (bodies : list (body T)) : list (body T) :=
    if allow_sleep then
      let '(bodies, min_time) := sleep_bodies h bodies B2_MAX_FLOAT in
      if (min_time >=? B2_TIME_TO_SLEEP) && solved then map (set_awake false) bodies else bodies
    else bodies.

  (** ** the island of an impact *)
  Fixpoint toi_iterations (n : nat) (ta tb : Z) (pcs : list (pcon T)) (poss : list (pos T)) : res (list (pos T)) :=
    match n with
    | O => Ok poss
    | S n =>
      '(poss, okay) <- solve_toi_positions ta tb pcs poss ;;
      if okay then Ok poss else toi_iterations n ta tb pcs poss
    end.
  (* islp:395-399 the two bodies of the impact start from their new positions *)
  Definition leap (poss : list (pos T)) (i : Z) (bodies : list (body T)) : res (list (body T)) :=
    b <- zget bodies i ;;
    p <- zget poss i ;;
    zset bodies i (set_sw (fun sw => Sweep (sw_local_center sw) (p_c p) (sw_c sw) (p_a p) (sw_a sw) (sw_alpha0 sw)) b).
  Definition write_toi (b : body T) (pv : pos T * vel T) : body T :=
    let b := set_sw (fun sw => Sweep (sw_local_center sw) (sw_c0 sw) (p_c (fst pv)) (sw_a0 sw) (p_a (fst pv)) (sw_alpha0 sw)) b in
    synchronize_transform (set_b_av (v_w (snd pv)) (set_b_lv (v_v (snd pv)) b)).
  (* islp:330-458 solve_toi *)
  Definition island_solve_toi (block : bool) (step : tstep T) (ta tb : Z) (bodies : list (body T)) (cins : list (cinput T)) : res (list (body T)) :=
    let poss := map body_pos bodies in
    let vels := map body_vel bodies in
    '(cs, pcs) <- make_constraints step cins ;;
    poss <- toi_iterations (ts_pos_iters step) ta tb pcs poss ;;
    bodies <- leap poss ta bodies ;;
    bodies <- leap poss tb bodies ;;
    cs <- init_constraints block poss vels cins pcs cs ;;
    '(cs, vels) <- for_range 0 (ts_vel_iters step) (fun _ st => solve_velocities block (fst st) (snd st)) (cs, vels) ;;
    Ok (map (fun bp => write_toi (fst bp) (snd bp)) (combine bodies (integrate_positions (ts_dt step) poss vels))).
End Island.
