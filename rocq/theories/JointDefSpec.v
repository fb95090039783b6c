(** What making a joint, its getters and its setters are supposed to do. Exact real arithmetic. *)
From Coq Require Import List ZArith Bool Arith Reals.
From Verif Require Import Base Num NumLaws Math Manifold DynModel SolverModel IslandModel SolverSpec JointModel JointSpec JointDefModel.
Import ListNotations.
Local Open Scope R_scope.

(* the transform of the body agrees with its center and angle *)
Definition in_place (b : body R) : Prop :=
  let s := b_sweep b in
  let l := turned (sw_a s) (sw_local_center s) in
  b_xf b = Xf (V2 (vx (sw_c s) - vx l) (vy (sw_c s) - vy l)) (Rot (sin (sw_a s)) (cos (sw_a s))).
(* where the solver finds it *)
Definition where_is (b : body R) : pos R := Pos (sw_c (b_sweep b)) (sw_a (b_sweep b)).

(** ** fresh joints *)
(* the joints that initialize and new make between a and b, at the points p and q of the world. A gear joint is between joint 1 of bodies c and a and joint 2 of bodies d and b. *)
Inductive fresh (a b c d : body R) : jkind R -> vec2 R -> vec2 R -> Prop :=
| fresh_revolute j p : fresh a b c d (rev_new (rev_initialize a b p j)) p p
| fresh_prismatic j p u k : pri_new (pri_initialize a b p u j) = Ok k -> fresh a b c d k p p
| fresh_distance j p q : fresh a b c d (dis_new (dis_initialize a b p q j)) p q
| fresh_weld j p : fresh a b c d (wel_new (wel_initialize a b p j)) p p
| fresh_wheel j p u : fresh a b c d (whe_new (whe_initialize a b p u j)) p p
| fresh_friction j p : fresh a b c d (fri_new (fri_initialize a b p j)) p p
| fresh_motor j : fresh a b c d (mot_new (mot_initialize a b j)) (xp (b_xf a)) (xp (b_xf b))
| fresh_mouse j : fresh a b c d (mou_new b j) (ms_target j) (ms_target j)
| fresh_pulley ga gb p q ratio s k : pul_initialize a b ga gb p q ratio = Ok s -> pul_new s = Ok k -> fresh a b c d k p q
| fresh_gear k1 k2 ratio k : gea_new k1 k2 c a d b ratio = Ok k -> fresh a b c d k (get_anchor_b k1 a) (get_anchor_b k2 b).
(* nothing drives it: limits around 0, no motor speed, two points for a distance joint *)
Definition around_0 (on : bool) (lower upper : R) : Prop := on = true -> lower <= 0 <= upper.
Definition undriven (k : jkind R) (p q : vec2 R) : Prop :=
  match k with
  | JRevolute d _ _ => around_0 (rv_limit d) (rv_lower d) (rv_upper d) /\ (rv_limit d = true -> rv_upper d - rv_lower d < 2 * B2_ANGULAR_SLOP -> rv_lower d = 0) /\ (rv_motor d = true -> rv_speed d = 0) /\ 0 <= rv_torque d
  | JPrismatic d _ _ => around_0 (pr_limit d) (pr_lower d) (pr_upper d) /\ (pr_motor d = true -> pr_speed d = 0) /\ 0 <= pr_force d
  | JDistance _ _ _ => B2_LINEAR_SLOP <= size (minus q p)
  | JWheel d _ _ => around_0 (wh_limit d) (wh_lower d) (wh_upper d) /\ (wh_motor d = true -> wh_speed d = 0) /\ 0 <= wh_torque d
  | JFriction d _ _ => 0 <= fr_force d /\ 0 <= fr_torque d
  | JMotor d _ _ => 0 <= mo_force d /\ 0 <= mo_torque d
  | _ => True
  end.
(* a fresh joint of an island with the positions poss *)
Definition set_up (poss : list (pos R)) (x : jin R) : Prop := exists p q,
  let found b := in_place b /\ zget poss (b_island_index b) = Ok (where_is b) /\ 0 <= b_inv_mass b /\ 0 <= b_inv_i b in
  found (ji_a x) /\ found (ji_b x) /\ found (ji_c x) /\ found (ji_d x) /\
  fresh (ji_a x) (ji_b x) (ji_c x) (ji_d x) (j_kind (ji_joint x)) p q /\ undriven (j_kind (ji_joint x)) p q.
Definition at_rest (v : vel R) : Prop := v = Vel (V2 0 0) 0.

(** ** speeds *)
(* the body after moving for the time t with its velocity *)
Definition drift (t : R) (b : body R) : body R :=
  let s := b_sweep b in
  let c := V2 (vx (sw_c s) + t * vx (b_lv b)) (vy (sw_c s) + t * vy (b_lv b)) in
  let a := sw_a s + t * b_av b in
  let l := turned a (sw_local_center s) in
  set_b_xf (Xf (V2 (vx c - vx l) (vy c - vy l)) (Rot (sin a) (cos a))) (set_b_sweep (Sweep (sw_local_center s) (sw_c0 s) c (sw_a0 s) a (sw_alpha0 s)) b).

(** ** reactions *)
(* where the joint holds body b *)
Definition anchor_b (k : jkind R) : vec2 R :=
  match k with
  | JRevolute d _ _ => rv_lb d
  | JPrismatic d _ _ => pr_lb d
  | JDistance d _ _ => di_lb d
  | JWeld d _ _ => we_lb d
  | JWheel d _ _ => wh_lb d
  | JFriction d _ _ => fr_lb d
  | JMotor d _ _ => V2 0 0
  | JMouse d _ _ => ms_lb d
  | JPulley d _ _ => pu_lb d
  | JGear d _ _ => ge_lb d
  end.
(* the force F and torque L, for the time dt, at the arm r, take the velocity v of body b to v' *)
Definition driven (b : body R) (dt : R) (r F : vec2 R) (L : R) (v v' : vel R) : Prop :=
  v_v v' = V2 (vx (v_v v) + b_inv_mass b * (dt * vx F)) (vy (v_v v) + b_inv_mass b * (dt * vy F)) /\
  v_w v' = v_w v + b_inv_i b * (dt * (cross r F + L)).
(* the velocities of the two bodies of the only joint before and after preparing and n iterations, and the joint afterwards *)
Definition one_joint (step : tstep R) (n : nat) (k : jkind R) (a b : body R) (pa pb : pos R) (va vb : vel R) (k' : jkind R) (va' vb' : vel R) : Prop :=
  exists c d c1 c2 poss vels x' vels',
    b_island_index a <> b_island_index b /\ zget poss (b_island_index a) = Ok pa /\ zget poss (b_island_index b) = Ok pb /\
    zget vels (b_island_index a) = Ok va /\ zget vels (b_island_index b) = Ok vb /\
    joint_phase step n [JIn (Jnt k c1 c2) a b c d] poss vels = Ok ([x'], vels') /\ j_kind (ji_joint x') = k' /\
    zget vels' (b_island_index a) = Ok va' /\ zget vels' (b_island_index b) = Ok vb'.

(* the kinds that act on both bodies alike *)
Definition plain (k : jkind R) : Prop := match k with JMouse _ _ _ | JPulley _ _ _ | JGear _ _ _ => False | _ => True end.
(* a distance joint does not forget the impulses of its limits when warm starting is off *)
Definition warm_enough (step : tstep R) (k : jkind R) : Prop := match k with JDistance _ _ _ => ts_warm step = true | _ => True end.

(** ** springs *)
(* the impulse of a spring and damper over dt, taken at the end of the step: its stretch then is c + dt * speed *)
Definition spring_impulse (stiff damp dt c speed : R) : R := - (dt * (stiff * (c + dt * speed) + damp * speed)).
(* the mass of two bodies that swing against each other; a body without mass does not move *)
Definition swings (ma mb m : R) : Prop := (0 < ma -> 0 < mb -> / m = / ma + / mb) /\ (0 < ma -> mb <= 0 -> m = ma) /\ (ma <= 0 -> m = mb).

(** ** shifting the origin *)
Definition move_pos (o : vec2 R) (p : pos R) : pos R := Pos (minus (p_c p) o) (p_a p).
Definition move_joint (o : vec2 R) (j : jnt R) : jnt R := Jnt (shift_origin o (j_kind j)) (j_com j) (j_com2 j).
Definition move_jin (o : vec2 R) (x : jin R) : jin R := JIn (move_joint o (ji_joint x)) (ji_a x) (ji_b x) (ji_c x) (ji_d x).

(** ** setters *)
Inductive length_call := SetLength (x : R) | SetMinLength (x : R) | SetMaxLength (x : R).
Definition set_lengths (c : length_call) (di : dis_def R * dis_imp R) : dis_def R * dis_imp R :=
  match c with
  | SetLength x => dis_set_length x (fst di) (snd di)
  | SetMinLength x => dis_set_min_length x (fst di) (snd di)
  | SetMaxLength x => dis_set_max_length x (fst di) (snd di)
  end.
Definition lengths_ok (d : dis_def R) : Prop := B2_LINEAR_SLOP <= di_min d /\ di_min d <= di_max d /\ B2_LINEAR_SLOP <= di_length d.
