(** The joint solvers.
    Model of src/private/dynamics/joints/b2_{revolute,prismatic,distance,weld,wheel,friction,motor,mouse,pulley,gear}_joint.rs, called rev, pri, dis, wel, whe, fri, mot, mou, pul, gea
    below: init_velocity_constraints, solve_velocity_constraints, solve_position_constraints.
    The fields of a joint are split into three records: what the user sets (..def), the accumulated impulses (..imp) and what
    init_velocity_constraints computes (..fr). The indices, centers and inverse masses of the two bodies, which every joint copies, are in [jcom].
    Getters, setters and the making of joints are in JointDefModel.v; drawing is left out. *)
From Coq Require Import List ZArith Bool Arith.
From Verif Require Import Base Num Math Manifold DynModel SolverModel IslandModel.
Import ListNotations.

Local Set Implicit Arguments.
(* m_index_a/b, m_local_center_a/b, m_inv_mass_a/b, m_inv_ia/b *)
Record jcom (T : Type) := JCom { jc_a : Z; jc_b : Z; jc_lca : vec2 T; jc_lcb : vec2 T; jc_ma : T; jc_mb : T; jc_ia : T; jc_ib : T }.

(* joints/b2_revolute_joint.rs B2revoluteJoint *)
Record rev_def (T : Type) := RevDef { rv_la : vec2 T; rv_lb : vec2 T; rv_ref : T; rv_limit : bool; rv_lower : T; rv_upper : T; rv_motor : bool; rv_speed : T; rv_torque : T }.
Record rev_imp (T : Type) := RevImp { rv_i : vec2 T; rv_im : T; rv_il : T; rv_iu : T }.
Record rev_fr (T : Type) := RevFr { rv_ra : vec2 T; rv_rb : vec2 T; rv_k : mat22 T; rv_angle : T; rv_axial : T }.
(* joints/b2_prismatic_joint.rs B2prismaticJoint *)
Record pri_def (T : Type) := PriDef { pr_la : vec2 T; pr_lb : vec2 T; pr_lx : vec2 T; pr_ly : vec2 T; pr_ref : T; pr_limit : bool; pr_lower : T; pr_upper : T; pr_motor : bool; pr_speed : T; pr_force : T }.
Record pri_imp (T : Type) := PriImp { pr_i : vec2 T; pr_im : T; pr_il : T; pr_iu : T }.
Record pri_fr (T : Type) := PriFr { pr_axis : vec2 T; pr_perp : vec2 T; pr_s1 : T; pr_s2 : T; pr_a1 : T; pr_a2 : T; pr_k : mat22 T; pr_trans : T; pr_axial : T }.
(* joints/b2_distance_joint.rs B2distanceJoint *)
Record dis_def (T : Type) := DisDef { di_la : vec2 T; di_lb : vec2 T; di_length : T; di_min : T; di_max : T; di_stiff : T; di_damp : T }.
Record dis_imp (T : Type) := DisImp { di_i : T; di_il : T; di_iu : T }.
Record dis_fr (T : Type) := DisFr { di_u : vec2 T; di_ra : vec2 T; di_rb : vec2 T; di_cur : T; di_mass : T; di_soft : T; di_gamma : T; di_bias : T }.
(* joints/b2_weld_joint.rs B2weldJoint *)
Record wel_def (T : Type) := WelDef { we_la : vec2 T; we_lb : vec2 T; we_ref : T; we_stiff : T; we_damp : T }.
Record wel_fr (T : Type) := WelFr { we_ra : vec2 T; we_rb : vec2 T; we_mass : mat33 T; we_gamma : T; we_bias : T }.
(* joints/b2_wheel_joint.rs B2wheelJoint *)
Record whe_def (T : Type) := WheDef { wh_la : vec2 T; wh_lb : vec2 T; wh_lx : vec2 T; wh_ly : vec2 T; wh_limit : bool; wh_lower : T; wh_upper : T; wh_motor : bool; wh_speed : T; wh_torque : T; wh_stiff : T; wh_damp : T }.
Record whe_imp (T : Type) := WheImp { wh_i : T; wh_im : T; wh_is : T; wh_il : T; wh_iu : T }.
Record whe_fr (T : Type) := WheFr { wh_ax : vec2 T; wh_ay : vec2 T; wh_sax : T; wh_sbx : T; wh_say : T; wh_sby : T; wh_mass : T; wh_mmass : T; wh_amass : T; wh_smass : T; wh_bias : T; wh_gamma : T; wh_trans : T }.
(* joints/b2_friction_joint.rs B2frictionJoint *)
Record fri_def (T : Type) := FriDef { fr_la : vec2 T; fr_lb : vec2 T; fr_force : T; fr_torque : T }.
(* the impulses of the friction and the motor joint *)
Record lin_imp (T : Type) := LinImp { li_l : vec2 T; li_a : T }.
Record fri_fr (T : Type) := FriFr { fr_ra : vec2 T; fr_rb : vec2 T; fr_lmass : mat22 T; fr_amass : T }.
(* joints/b2_motor_joint.rs B2motorJoint *)
Record mot_def (T : Type) := MotDef { mo_linear : vec2 T; mo_angular : T; mo_force : T; mo_torque : T; mo_factor : T }.
Record mot_fr (T : Type) := MotFr { mo_ra : vec2 T; mo_rb : vec2 T; mo_lerr : vec2 T; mo_aerr : T; mo_lmass : mat22 T; mo_amass : T }.
(* joints/b2_mouse_joint.rs B2mouseJoint *)
Record mou_def (T : Type) := MouDef { ms_lb : vec2 T; ms_target : vec2 T; ms_stiff : T; ms_damp : T; ms_force : T }.
Record mou_fr (T : Type) := MouFr { ms_rb : vec2 T; ms_mass : mat22 T; ms_c : vec2 T; ms_gamma : T }.
(* joints/b2_pulley_joint.rs B2pulleyJoint *)
Record pul_def (T : Type) := PulDef { pu_ga : vec2 T; pu_gb : vec2 T; pu_la : vec2 T; pu_lb : vec2 T; pu_const : T; pu_ratio : T }.
Record pul_fr (T : Type) := PulFr { pu_ua : vec2 T; pu_ub : vec2 T; pu_ra : vec2 T; pu_rb : vec2 T; pu_mass : T }.
(* joints/b2_gear_joint.rs B2gearJoint; [ge_reva], [ge_revb]: m_type_a/b is a revolute joint, otherwise a prismatic joint *)
Record gea_def (T : Type) := GeaDef { ge_reva : bool; ge_revb : bool; ge_la : vec2 T; ge_lb : vec2 T; ge_lc : vec2 T; ge_ld : vec2 T; ge_axc : vec2 T; ge_axd : vec2 T; ge_refa : T; ge_refb : T; ge_const : T; ge_ratio : T }.
Record gea_fr (T : Type) := GeaFr { ge_jvac : vec2 T; ge_jvbd : vec2 T; ge_jwa : T; ge_jwb : T; ge_jwc : T; ge_jwd : T; ge_mass : T }.
Unset Implicit Arguments.

(* a joint of each kind: the definition, the impulses, what was computed *)
Inductive jkind (T : Type) :=
| JRevolute (d : rev_def T) (i : rev_imp T) (f : rev_fr T)
| JPrismatic (d : pri_def T) (i : pri_imp T) (f : pri_fr T)
| JDistance (d : dis_def T) (i : dis_imp T) (f : dis_fr T)
| JWeld (d : wel_def T) (i : vec3 T) (f : wel_fr T)
| JWheel (d : whe_def T) (i : whe_imp T) (f : whe_fr T)
| JFriction (d : fri_def T) (i : lin_imp T) (f : fri_fr T)
| JMotor (d : mot_def T) (i : lin_imp T) (f : mot_fr T)
| JMouse (d : mou_def T) (i : vec2 T) (f : mou_fr T)
| JPulley (d : pul_def T) (i : T) (f : pul_fr T)
| JGear (d : gea_def T) (i : T) (f : gea_fr T).
Arguments JRevolute {T} d i f.
Arguments JPrismatic {T} d i f.
Arguments JDistance {T} d i f.
Arguments JWeld {T} d i f.
Arguments JWheel {T} d i f.
Arguments JFriction {T} d i f.
Arguments JMotor {T} d i f.
Arguments JMouse {T} d i f.
Arguments JPulley {T} d i f.
Arguments JGear {T} d i f.
(* [j_com] is about bodies a and b, [j_com2] about bodies c and d of a gear joint (otherwise unused) *)
Record jnt (T : Type) := Jnt { j_kind : jkind T; j_com : jcom T; j_com2 : jcom T }.
Arguments Jnt {T} _ _ _.
Arguments j_kind {T} _.
Arguments j_com {T} _.
Arguments j_com2 {T} _.

(* the joints of an island, with the four bodies a joint looks at *)
Record jin (T : Type) := JIn { ji_joint : jnt T; ji_a : body T; ji_b : body T; ji_c : body T; ji_d : body T }.
Arguments JIn {T} _ _ _ _ _.
Arguments ji_joint {T} _.
Arguments ji_a {T} _.
Arguments ji_b {T} _.
Arguments ji_c {T} _.
Arguments ji_d {T} _.

Section Joint.
  Local Open Scope num_scope.
  Context {T : Type} `{NT : Num T} `{TT : NumTrig T}.

  (* what every joint copies from its bodies, e.g. rev:27-36 *)
  Definition com_of (a b : body T) : jcom T :=
    JCom (b_island_index a) (b_island_index b) (sw_local_center (b_sweep a)) (sw_local_center (b_sweep b)) (b_inv_mass a) (b_inv_mass b) (b_inv_i a) (b_inv_i b).
  (* the impulses on the two bodies: p and the angular parts la, lb *)
  Definition jpush (c : jcom T) (p : vec2 T) (la lb : T) (s : pair T) : pair T :=
    Pair (vsub (s_va s) (vscale (jc_ma c) p)) (s_wa s - jc_ia c * la) (vadd (s_vb s) (vscale (jc_mb c) p)) (s_wb s + jc_ib c * lb).
  (* the same with the signs of the upper limits, e.g. pri:300-303 *)
  Definition jpull (c : jcom T) (p : vec2 T) (la lb : T) (s : pair T) : pair T :=
    Pair (vadd (s_va s) (vscale (jc_ma c) p)) (s_wa s + jc_ia c * la) (vsub (s_vb s) (vscale (jc_mb c) p)) (s_wb s - jc_ib c * lb).
  Definition jspin (c : jcom T) (l : T) (s : pair T) : pair T := Pair (s_va s) (s_wa s - jc_ia c * l) (s_vb s) (s_wb s + jc_ib c * l).
  Definition junspin (c : jcom T) (l : T) (s : pair T) : pair T := Pair (s_va s) (s_wa s + jc_ia c * l) (s_vb s) (s_wb s - jc_ib c * l).
  Definition jpoint (c : jcom T) (ra rb p : vec2 T) (s : pair T) : pair T := jpush c p (b2_cross ra p) (b2_cross rb p) s.
  (* v_b + w_b x r_b - v_a - w_a x r_a, e.g. rev:189-190 *)
  Definition anchor_vel (ra rb : vec2 T) (s : pair T) : vec2 T :=
    vsub (vsub (vadd (s_vb s) (b2_cross_sv (s_wb s) rb)) (s_va s)) (b2_cross_sv (s_wa s) ra).
  Definition arm_of (q : rot T) (local center : vec2 T) : vec2 T := rotv q (vsub local center).
  (* the limit impulse of rev:160-165 and the like: returns the new impulse and the change *)
  Definition limit_impulse (mass cdot c inv_dt old : T) : T * T :=
    let impulse := (- mass) * (cdot + b2_max c #0 * inv_dt) in
    let new := b2_max (old + impulse) #0 in (new, new - old).
  (* the clamped impulse of rev:148-151 *)
  Definition motor_impulse (impulse max old : T) : T * T :=
    let new := b2_clamp (old + impulse) (- max) max in (new, new - old).
  (* fri:133-144 and mot:165-176 *)
  Definition cap_impulse (max : T) (l : vec2 T) : vec2 T :=
    if vlen2 l >? max * max then vmuls (snd (vnormalize l)) max else l.
  (* 1 / m if m > 0, e.g. pri:165-168 *)
  Definition inv_pos (m : T) : T := if m >? #0 then #1 / m else m.
  (* 1 / m if m != 0, otherwise 0, e.g. dis:131 *)
  Definition inv_or0 (m : T) : T := if negb (m =? #0) then #1 / m else #0.

  (** ** revolute *)
  (* rev:38-81 *)
  Definition rev_frame (d : rev_def T) (c : jcom T) (pa pb : pos T) : rev_fr T :=
    let ra := arm_of (rot_of (p_a pa)) (rv_la d) (jc_lca c) in
    let rb := arm_of (rot_of (p_a pb)) (rv_lb d) (jc_lcb c) in
    let ma := jc_ma c in let mb := jc_mb c in let ia := jc_ia c in let ib := jc_ib c in
    let kxx := ma + mb + vy ra * vy ra * ia + vy rb * vy rb * ib in
    let kyx := (- vy ra) * vx ra * ia - vy rb * vx rb * ib in
    let kyy := ma + mb + vx ra * vx ra * ia + vx rb * vx rb * ib in
    RevFr ra rb (M22 (V2 kxx kyx) (V2 kyx kyy)) (p_a pb - p_a pa - rv_ref d) (inv_pos (ia + ib)).
  (* rev:82-113 *)
  Definition rev_warm (step : tstep T) (d : rev_def T) (c : jcom T) (f : rev_fr T) (i : rev_imp T) (s : pair T) : rev_imp T * pair T :=
    let fixed := negb (jc_ia c + jc_ib c >? #0) in
    let i := if negb (rv_limit d) || fixed then RevImp (rv_i i) (rv_im i) #0 #0 else i in
    let i := if negb (rv_motor d) || fixed then RevImp (rv_i i) #0 (rv_il i) (rv_iu i) else i in
    if ts_warm step then
      let i := RevImp (vmuls (rv_i i) (ts_ratio step)) (rv_im i * ts_ratio step) (rv_il i * ts_ratio step) (rv_iu i * ts_ratio step) in
      let axial := rv_im i + rv_il i - rv_iu i in
      let p := rv_i i in
      (i, jpush c p (b2_cross (rv_ra f) p + axial) (b2_cross (rv_rb f) p + axial) s)
    else (RevImp vzero #0 #0 #0, s).
  (* rev:145-155 *)
  Definition rev_motor (step : tstep T) (d : rev_def T) (c : jcom T) (f : rev_fr T) (is : rev_imp T * pair T) : rev_imp T * pair T :=
    let '(i, s) := is in
    let cdot := s_wb s - s_wa s - rv_speed d in
    let '(im, l) := motor_impulse ((- rv_axial f) * cdot) (ts_dt step * rv_torque d) (rv_im i) in
    (RevImp (rv_i i) im (rv_il i) (rv_iu i), jspin c l s).
  (* rev:157-185 *)
  Definition rev_limits (step : tstep T) (d : rev_def T) (c : jcom T) (f : rev_fr T) (is : rev_imp T * pair T) : rev_imp T * pair T :=
    let '(i, s) := is in
    let '(il, l) := limit_impulse (rv_axial f) (s_wb s - s_wa s) (rv_angle f - rv_lower d) (ts_inv_dt step) (rv_il i) in
    let s := jspin c l s in
    let '(iu, l) := limit_impulse (rv_axial f) (s_wa s - s_wb s) (rv_upper d - rv_angle f) (ts_inv_dt step) (rv_iu i) in
    (RevImp (rv_i i) (rv_im i) il iu, junspin c l s).
  (* rev:187-201 *)
  Definition rev_point (c : jcom T) (f : rev_fr T) (is : rev_imp T * pair T) : rev_imp T * pair T :=
    let '(i, s) := is in
    let impulse := m22_solve (rv_k f) (vneg (anchor_vel (rv_ra f) (rv_rb f) s)) in
    (RevImp (vadd (rv_i i) impulse) (rv_im i) (rv_il i) (rv_iu i), jpoint c (rv_ra f) (rv_rb f) impulse s).
  (* rev:119-206 *)
  Definition rev_solve (step : tstep T) (d : rev_def T) (c : jcom T) (f : rev_fr T) (is : rev_imp T * pair T) : rev_imp T * pair T :=
    let fixed := jc_ia c + jc_ib c =? #0 in
    let is := if rv_motor d && negb fixed then rev_motor step d c f is else is in
    let is := if rv_limit d && negb fixed then rev_limits step d c f is else is in
    rev_point c f is.
  (* m_k of a point-to-point position constraint, rev:275-279 *)
  Definition point_k (c : jcom T) (ra rb : vec2 T) : mat22 T :=
    let ma := jc_ma c in let mb := jc_mb c in let ia := jc_ia c in let ib := jc_ib c in
    let kxx := ma + mb + ia * vy ra * vy ra + ib * vy rb * vy rb in
    let kxy := (- ia) * vx ra * vy ra - ib * vx rb * vy rb in
    let kyy := ma + mb + ia * vx ra * vx ra + ib * vx rb * vx rb in
    M22 (V2 kxx kxy) (V2 kxy kyy).
  (* moves the two positions, e.g. rev:283-287 *)
  Definition jmove (c : jcom T) (p : vec2 T) (la lb : T) (pp : pos T * pos T) : pos T * pos T :=
    (Pos (vsub (p_c (fst pp)) (vscale (jc_ma c) p)) (p_a (fst pp) - jc_ia c * la), Pos (vadd (p_c (snd pp)) (vscale (jc_mb c) p)) (p_a (snd pp) + jc_ib c * lb)).
  (* rev:230-261: the positions and the angular error *)
  Definition rev_angle_error (d : rev_def T) (pp : pos T * pos T) : T :=
    let angle := p_a (snd pp) - p_a (fst pp) - rv_ref d in
    if nabs (rv_upper d - rv_lower d) <? #2 * B2_ANGULAR_SLOP then b2_clamp (angle - rv_lower d) (- B2_MAX_ANGULAR_CORRECTION) B2_MAX_ANGULAR_CORRECTION
    else if angle <=? rv_lower d then b2_clamp (angle - rv_lower d + B2_ANGULAR_SLOP) (- B2_MAX_ANGULAR_CORRECTION) #0
    else if angle >=? rv_upper d then b2_clamp (angle - rv_upper d - B2_ANGULAR_SLOP) #0 B2_MAX_ANGULAR_CORRECTION
    else #0.
  (* rev:208-292 *)
  Definition rev_pos (d : rev_def T) (c : jcom T) (f : rev_fr T) (pp : pos T * pos T) : (pos T * pos T) * bool :=
    let '(pp, angular_error) :=
      if rv_limit d && negb (jc_ia c + jc_ib c =? #0) then
        let e := rev_angle_error d pp in
        let l := (- rv_axial f) * e in
        ((Pos (p_c (fst pp)) (p_a (fst pp) - jc_ia c * l), Pos (p_c (snd pp)) (p_a (snd pp) + jc_ib c * l)), nabs e)
      else (pp, #0) in
    let ra := arm_of (rot_of (p_a (fst pp))) (rv_la d) (jc_lca c) in
    let rb := arm_of (rot_of (p_a (snd pp))) (rv_lb d) (jc_lcb c) in
    let e := vsub (vsub (vadd (p_c (snd pp)) rb) (p_c (fst pp))) ra in
    let p := vneg (m22_solve (point_k c ra rb) e) in
    (jmove c p (b2_cross ra p) (b2_cross rb p) pp, (vlen e <=? B2_LINEAR_SLOP) && (angular_error <=? B2_ANGULAR_SLOP)).

  (** ** prismatic *)
  (* pri:137-191; the translation is kept if there is no limit *)
  Definition pri_frame (d : pri_def T) (c : jcom T) (old : pri_fr T) (pa pb : pos T) : pri_fr T :=
    let qa := rot_of (p_a pa) in
    let ra := arm_of qa (pr_la d) (jc_lca c) in
    let rb := arm_of (rot_of (p_a pb)) (pr_lb d) (jc_lcb c) in
    let dd := vsub (vadd (vsub (p_c pb) (p_c pa)) rb) ra in
    let ma := jc_ma c in let mb := jc_mb c in let ia := jc_ia c in let ib := jc_ib c in
    let axis := rotv qa (pr_lx d) in
    let a1 := b2_cross (vadd dd ra) axis in
    let a2 := b2_cross rb axis in
    let perp := rotv qa (pr_ly d) in
    let s1 := b2_cross (vadd dd ra) perp in
    let s2 := b2_cross rb perp in
    let k11 := ma + mb + ia * s1 * s1 + ib * s2 * s2 in
    let k12 := ia * s1 + ib * s2 in
    let k22 := ia + ib in
    let k22 := if k22 =? #0 then #1 else k22 in
    PriFr axis perp s1 s2 a1 a2 (M22 (V2 k11 k12) (V2 k12 k22)) (if pr_limit d then b2_dot axis dd else pr_trans old) (inv_pos (ma + mb + ia * a1 * a1 + ib * a2 * a2)).
  (* pri:190-223 *)
  Definition pri_warm (step : tstep T) (d : pri_def T) (c : jcom T) (f : pri_fr T) (i : pri_imp T) (s : pair T) : pri_imp T * pair T :=
    let i := if pr_limit d then i else PriImp (pr_i i) (pr_im i) #0 #0 in
    let i := if pr_motor d then i else PriImp (pr_i i) #0 (pr_il i) (pr_iu i) in
    if ts_warm step then
      let i := PriImp (vmuls (pr_i i) (ts_ratio step)) (pr_im i * ts_ratio step) (pr_il i * ts_ratio step) (pr_iu i * ts_ratio step) in
      let axial := pr_im i + pr_il i - pr_iu i in
      let p := vadd (vscale (vx (pr_i i)) (pr_perp f)) (vscale axial (pr_axis f)) in
      let la := vx (pr_i i) * pr_s1 f + vy (pr_i i) + axial * pr_a1 f in
      let lb := vx (pr_i i) * pr_s2 f + vy (pr_i i) + axial * pr_a2 f in
      (i, jpush c p la lb s)
    else (PriImp vzero #0 #0 #0, s).
  (* pri:248 *)
  Definition axis_vel (axis : vec2 T) (a1 a2 : T) (s : pair T) : T := b2_dot axis (vsub (s_vb s) (s_va s)) + a2 * s_wb s - a1 * s_wa s.
  (* pri:290 *)
  Definition axis_vel_up (axis : vec2 T) (a1 a2 : T) (s : pair T) : T := b2_dot axis (vsub (s_va s) (s_vb s)) + a1 * s_wa s - a2 * s_wb s.
  (* pri:246-263 *)
  Definition pri_motor (step : tstep T) (d : pri_def T) (c : jcom T) (f : pri_fr T) (is : pri_imp T * pair T) : pri_imp T * pair T :=
    let '(i, s) := is in
    let cdot := axis_vel (pr_axis f) (pr_a1 f) (pr_a2 f) s in
    let '(im, l) := motor_impulse (pr_axial f * (pr_speed d - cdot)) (ts_dt step * pr_force d) (pr_im i) in
    (PriImp (pr_i i) im (pr_il i) (pr_iu i), jpush c (vscale l (pr_axis f)) (l * pr_a1 f) (l * pr_a2 f) s).
  (* pri:265-305 *)
  Definition pri_limits (step : tstep T) (d : pri_def T) (c : jcom T) (f : pri_fr T) (is : pri_imp T * pair T) : pri_imp T * pair T :=
    let '(i, s) := is in
    let '(il, l) := limit_impulse (pr_axial f) (axis_vel (pr_axis f) (pr_a1 f) (pr_a2 f) s) (pr_trans f - pr_lower d) (ts_inv_dt step) (pr_il i) in
    let s := jpush c (vscale l (pr_axis f)) (l * pr_a1 f) (l * pr_a2 f) s in
    let '(iu, l) := limit_impulse (pr_axial f) (axis_vel_up (pr_axis f) (pr_a1 f) (pr_a2 f) s) (pr_upper d - pr_trans f) (ts_inv_dt step) (pr_iu i) in
    (PriImp (pr_i i) (pr_im i) il iu, jpull c (vscale l (pr_axis f)) (l * pr_a1 f) (l * pr_a2 f) s).
  (* pri:307-326 *)
  Definition pri_block (c : jcom T) (f : pri_fr T) (is : pri_imp T * pair T) : pri_imp T * pair T :=
    let '(i, s) := is in
    let cdot := V2 (axis_vel (pr_perp f) (pr_s1 f) (pr_s2 f) s) (s_wb s - s_wa s) in
    let df := m22_solve (pr_k f) (vneg cdot) in
    (PriImp (vadd (pr_i i) df) (pr_im i) (pr_il i) (pr_iu i), jpush c (vscale (vx df) (pr_perp f)) (vx df * pr_s1 f + vy df) (vx df * pr_s2 f + vy df) s).
  (* pri:231-332 *)
  Definition pri_solve (step : tstep T) (d : pri_def T) (c : jcom T) (f : pri_fr T) (is : pri_imp T * pair T) : pri_imp T * pair T :=
    let is := if pr_motor d then pri_motor step d c f is else is in
    let is := if pr_limit d then pri_limits step d c f is else is in
    pri_block c f is.
  (* pri:380-397: is the limit active, its error and the linear error *)
  Definition pri_limit_error (d : pri_def T) (translation linear_error : T) : bool * T * T :=
    if pr_limit d then
      if nabs (pr_upper d - pr_lower d) <? #2 * B2_LINEAR_SLOP then (true, translation, b2_max linear_error (nabs translation))
      else if translation <=? pr_lower d then (true, b2_min (translation - pr_lower d) #0, b2_max linear_error (pr_lower d - translation))
      else if translation >=? pr_upper d then (true, b2_max (translation - pr_upper d) #0, b2_max linear_error (translation - pr_upper d))
      else (false, #0, linear_error)
    else (false, #0, linear_error).
  (* pri:341-460 *)
  Definition pri_pos (d : pri_def T) (c : jcom T) (pp : pos T * pos T) : (pos T * pos T) * bool :=
    let '(pa, pb) := pp in
    let qa := rot_of (p_a pa) in
    let ra := arm_of qa (pr_la d) (jc_lca c) in
    let rb := arm_of (rot_of (p_a pb)) (pr_lb d) (jc_lcb c) in
    let dd := vsub (vsub (vadd (p_c pb) rb) (p_c pa)) ra in
    let ma := jc_ma c in let mb := jc_mb c in let ia := jc_ia c in let ib := jc_ib c in
    let axis := rotv qa (pr_lx d) in
    let a1 := b2_cross (vadd dd ra) axis in
    let a2 := b2_cross rb axis in
    let perp := rotv qa (pr_ly d) in
    let s1 := b2_cross (vadd dd ra) perp in
    let s2 := b2_cross rb perp in
    let c1 := V2 (b2_dot perp dd) (p_a pb - p_a pa - pr_ref d) in
    let '(active, c2, linear_error) := pri_limit_error d (b2_dot axis dd) (nabs (vx c1)) in
    let k11 := ma + mb + ia * s1 * s1 + ib * s2 * s2 in
    let k12 := ia * s1 + ib * s2 in
    let k22 := ia + ib in
    let k22 := if k22 =? #0 then #1 else k22 in
    let impulse :=
      if active then
        let k13 := ia * s1 * a1 + ib * s2 * a2 in
        let k23 := ia * a1 + ib * a2 in
        let k33 := ma + mb + ia * a1 * a1 + ib * a2 * a2 in
        solve33 (M33 (V3 k11 k12 k13) (V3 k12 k22 k23) (V3 k13 k23 k33)) (v3neg (V3 (vx c1) (vy c1) c2))
      else let i1 := m22_solve (M22 (V2 k11 k12) (V2 k12 k22)) (vneg c1) in V3 (vx i1) (vy i1) #0 in
    let p := vadd (vscale (v3x impulse) perp) (vscale (v3z impulse) axis) in
    let la := v3x impulse * s1 + v3y impulse + v3z impulse * a1 in
    let lb := v3x impulse * s2 + v3y impulse + v3z impulse * a2 in
    (jmove c p la lb pp, (linear_error <=? B2_LINEAR_SLOP) && (nabs (vy c1) <=? B2_ANGULAR_SLOP)).

  (** ** distance *)
  (* dis:96-160 *)
  Definition dis_frame (step : tstep T) (d : dis_def T) (c : jcom T) (pa pb : pos T) : dis_fr T :=
    let ra := arm_of (rot_of (p_a pa)) (di_la d) (jc_lca c) in
    let rb := arm_of (rot_of (p_a pb)) (di_lb d) (jc_lcb c) in
    let u := vsub (vsub (vadd (p_c pb) rb) (p_c pa)) ra in
    let cur := vlen u in
    let u := if cur >? B2_LINEAR_SLOP then vmuls u (#1 / cur) else vzero in
    let crau := b2_cross ra u in
    let crbu := b2_cross rb u in
    let inv_mass := jc_ma c + jc_ia c * crau * crau + jc_mb c + jc_ib c * crbu * crbu in
    let mass := inv_or0 inv_mass in
    if (di_stiff d >? #0) && (di_min d <? di_max d) then
      let e := cur - di_length d in
      let h := ts_dt step in
      let gamma := inv_or0 (h * (di_damp d + h * di_stiff d)) in
      DisFr u ra rb cur mass (inv_or0 (inv_mass + gamma)) gamma (e * h * di_stiff d * gamma)
    else DisFr u ra rb cur mass mass #0 #0.
  (* dis:114-122 and 162-175 *)
  Definition dis_warm (step : tstep T) (c : jcom T) (f : dis_fr T) (i : dis_imp T) (s : pair T) : dis_imp T * pair T :=
    let i := if di_cur f >? B2_LINEAR_SLOP then i else DisImp #0 #0 #0 in
    if ts_warm step then
      let i := DisImp (di_i i * ts_ratio step) (di_il i * ts_ratio step) (di_iu i * ts_ratio step) in
      (i, jpoint c (di_ra f) (di_rb f) (vscale (di_i i + di_il i - di_iu i) (di_u f)) s)
    else (DisImp #0 (di_il i) (di_iu i), s).
  (* dis:196-198 *)
  Definition dis_vel (f : dis_fr T) (s : pair T) : T :=
    let vpa := vadd (s_va s) (b2_cross_sv (s_wa s) (di_ra f)) in
    let vpb := vadd (s_vb s) (b2_cross_sv (s_wb s) (di_rb f)) in
    b2_dot (di_u f) (vsub vpb vpa).
  (* dis:237-239 *)
  Definition dis_vel_up (f : dis_fr T) (s : pair T) : T :=
    let vpa := vadd (s_va s) (b2_cross_sv (s_wa s) (di_ra f)) in
    let vpb := vadd (s_vb s) (b2_cross_sv (s_wb s) (di_rb f)) in
    b2_dot (di_u f) (vsub vpa vpb).
  (* dis:214-223: here the maximum has its arguments the other way round *)
  Definition dis_limit (mass cdot c inv_dt old : T) : T * T :=
    let impulse := (- mass) * (cdot + b2_max #0 c * inv_dt) in
    let new := b2_max #0 (old + impulse) in (new, new - old).
  (* dis:194-209 *)
  Definition dis_spring (c : jcom T) (f : dis_fr T) (is : dis_imp T * pair T) : dis_imp T * pair T :=
    let '(i, s) := is in
    let impulse := (- di_soft f) * (dis_vel f s + di_bias f + di_gamma f * di_i i) in
    (DisImp (di_i i + impulse) (di_il i) (di_iu i), jpoint c (di_ra f) (di_rb f) (vscale impulse (di_u f)) s).
  (* dis:211-251 *)
  Definition dis_limits (step : tstep T) (d : dis_def T) (c : jcom T) (f : dis_fr T) (is : dis_imp T * pair T) : dis_imp T * pair T :=
    let '(i, s) := is in
    let '(il, l) := dis_limit (di_mass f) (dis_vel f s) (di_cur f - di_min d) (ts_inv_dt step) (di_il i) in
    let s := jpoint c (di_ra f) (di_rb f) (vscale l (di_u f)) s in
    let '(iu, l) := dis_limit (di_mass f) (dis_vel_up f s) (di_max d - di_cur f) (ts_inv_dt step) (di_iu i) in
    (DisImp (di_i i) il iu, jpoint c (di_ra f) (di_rb f) (vscale (- l) (di_u f)) s).
  (* dis:252-268 *)
  Definition dis_rigid (c : jcom T) (f : dis_fr T) (is : dis_imp T * pair T) : dis_imp T * pair T :=
    let '(i, s) := is in
    let impulse := (- di_mass f) * dis_vel f s in
    (DisImp (di_i i + impulse) (di_il i) (di_iu i), jpoint c (di_ra f) (di_rb f) (vscale impulse (di_u f)) s).
  (* dis:183-274 *)
  Definition dis_solve (step : tstep T) (d : dis_def T) (c : jcom T) (f : dis_fr T) (is : dis_imp T * pair T) : dis_imp T * pair T :=
    if di_min d <? di_max d then
      let is := if di_stiff d >? #0 then dis_spring c f is else is in
      dis_limits step d c f is
    else dis_rigid c f is.
  (* dis:276-319 *)
  Definition dis_pos (d : dis_def T) (c : jcom T) (f : dis_fr T) (pp : pos T * pos T) : (pos T * pos T) * bool :=
    let '(pa, pb) := pp in
    let ra := arm_of (rot_of (p_a pa)) (di_la d) (jc_lca c) in
    let rb := arm_of (rot_of (p_a pb)) (di_lb d) (jc_lcb c) in
    let u := vsub (vsub (vadd (p_c pb) rb) (p_c pa)) ra in
    let '(length, u) := vnormalize u in
    let finish e :=
      let p := vscale ((- di_mass f) * e) u in
      (jmove c p (b2_cross ra p) (b2_cross rb p) pp, nabs e <? B2_LINEAR_SLOP) in
    if di_min d =? di_max d then finish (length - di_min d)
    else if length <? di_min d then finish (length - di_min d)
    else if di_max d <? length then finish (length - di_max d)
    else (pp, true).

  (** ** weld *)
  (* wel:70-79 *)
  Definition weld_k (c : jcom T) (ra rb : vec2 T) : mat33 T :=
    let ma := jc_ma c in let mb := jc_mb c in let ia := jc_ia c in let ib := jc_ib c in
    let kxx := ma + mb + vy ra * vy ra * ia + vy rb * vy rb * ib in
    let kyx := (- vy ra) * vx ra * ia - vy rb * vx rb * ib in
    let kzx := (- vy ra) * ia - vy rb * ib in
    let kyy := ma + mb + vx ra * vx ra * ia + vx rb * vx rb * ib in
    let kzy := vx ra * ia + vx rb * ib in
    M33 (V3 kxx kyx kzx) (V3 kyx kyy kzy) (V3 kzx kzy (ia + ib)).
  (* wel:38-114 *)
  Definition wel_frame (step : tstep T) (d : wel_def T) (c : jcom T) (pa pb : pos T) : wel_fr T :=
    let ra := arm_of (rot_of (p_a pa)) (we_la d) (jc_lca c) in
    let rb := arm_of (rot_of (p_a pb)) (we_lb d) (jc_lcb c) in
    let k := weld_k c ra rb in
    if we_stiff d >? #0 then
      let m := get_inverse22 k in
      let e := p_a pb - p_a pa - we_ref d in
      let h := ts_dt step in
      let gamma := inv_or0 (h * (we_damp d + h * we_stiff d)) in
      let inv_m := jc_ia c + jc_ib c + gamma in
      WelFr ra rb (M33 (m3x m) (m3y m) (V3 (v3x (m3z m)) (v3y (m3z m)) (inv_or0 inv_m))) gamma (e * h * we_stiff d * gamma)
    else if v3z (m3z k) =? #0 then WelFr ra rb (get_inverse22 k) #0 #0
    else WelFr ra rb (get_sym_inverse33 k) #0 #0.
  Definition v3muls (a : vec3 T) (s : T) : vec3 T := V3 (v3x a * s) (v3y a * s) (v3z a * s).
  (* wel:116-129 *)
  Definition wel_warm (step : tstep T) (c : jcom T) (f : wel_fr T) (i : vec3 T) (s : pair T) : vec3 T * pair T :=
    if ts_warm step then
      let i := v3muls i (ts_ratio step) in
      let p := V2 (v3x i) (v3y i) in
      (i, jpush c p (b2_cross (we_ra f) p + v3z i) (b2_cross (we_rb f) p + v3z i) s)
    else (V3 #0 #0 #0, s).
  (* wel:158-182 *)
  Definition wel_soft (c : jcom T) (f : wel_fr T) (is : vec3 T * pair T) : vec3 T * pair T :=
    let '(i, s) := is in
    let i2 := (- v3z (m3z (we_mass f))) * (s_wb s - s_wa s + we_bias f + we_gamma f * v3z i) in
    let s := jspin c i2 s in
    let i1 := vneg (b2_mul22 (we_mass f) (anchor_vel (we_ra f) (we_rb f) s)) in
    (V3 (v3x i + vx i1) (v3y i + vy i1) (v3z i + i2), jpoint c (we_ra f) (we_rb f) i1 s).
  (* wel:183-198 *)
  Definition wel_rigid (c : jcom T) (f : wel_fr T) (is : vec3 T * pair T) : vec3 T * pair T :=
    let '(i, s) := is in
    let cdot1 := anchor_vel (we_ra f) (we_rb f) s in
    let impulse := v3neg (b2_mul_mat33 (we_mass f) (V3 (vx cdot1) (vy cdot1) (s_wb s - s_wa s))) in
    let p := V2 (v3x impulse) (v3y impulse) in
    (v3add i impulse, jpush c p (b2_cross (we_ra f) p + v3z impulse) (b2_cross (we_rb f) p + v3z impulse) s).
  (* wel:135-202 *)
  Definition wel_solve (d : wel_def T) (c : jcom T) (f : wel_fr T) (is : vec3 T * pair T) : vec3 T * pair T :=
    if we_stiff d >? #0 then wel_soft c f is else wel_rigid c f is.
  (* wel:204-288 *)
  Definition wel_pos (d : wel_def T) (c : jcom T) (pp : pos T * pos T) : (pos T * pos T) * bool :=
    let '(pa, pb) := pp in
    let ra := arm_of (rot_of (p_a pa)) (we_la d) (jc_lca c) in
    let rb := arm_of (rot_of (p_a pb)) (we_lb d) (jc_lcb c) in
    let k := weld_k c ra rb in
    let c1 := vsub (vsub (vadd (p_c pb) rb) (p_c pa)) ra in
    if we_stiff d >? #0 then
      let p := vneg (solve22 k c1) in
      (jmove c p (b2_cross ra p) (b2_cross rb p) pp, (vlen c1 <=? B2_LINEAR_SLOP) && (#0 <=? B2_ANGULAR_SLOP))
    else
      let c2 := p_a pb - p_a pa - we_ref d in
      let impulse :=
        if v3z (m3z k) >? #0 then v3neg (solve33 k (V3 (vx c1) (vy c1) c2))
        else let i := vneg (solve22 k c1) in V3 (vx i) (vy i) #0 in
      let p := V2 (v3x impulse) (v3y impulse) in
      (jmove c p (b2_cross ra p + v3z impulse) (b2_cross rb p + v3z impulse) pp, (vlen c1 <=? B2_LINEAR_SLOP) && (nabs c2 <=? B2_ANGULAR_SLOP)).

  (** ** wheel *)
  (* whe:49-134; the translation is kept if there is no limit *)
  Definition whe_frame (step : tstep T) (d : whe_def T) (c : jcom T) (old : whe_fr T) (pa pb : pos T) : whe_fr T :=
    let qa := rot_of (p_a pa) in
    let ra := arm_of qa (wh_la d) (jc_lca c) in
    let rb := arm_of (rot_of (p_a pb)) (wh_lb d) (jc_lcb c) in
    let dd := vsub (vsub (vadd (p_c pb) rb) (p_c pa)) ra in
    let ma := jc_ma c in let mb := jc_mb c in let ia := jc_ia c in let ib := jc_ib c in
    let ay := rotv qa (wh_ly d) in
    let say := b2_cross (vadd dd ra) ay in
    let sby := b2_cross rb ay in
    let mass := inv_pos (ma + mb + ia * say * say + ib * sby * sby) in
    let ax := rotv qa (wh_lx d) in
    let sax := b2_cross (vadd dd ra) ax in
    let sbx := b2_cross rb ax in
    let inv_mass := ma + mb + ia * sax * sax + ib * sbx * sbx in
    let amass := if inv_mass >? #0 then #1 / inv_mass else #0 in
    let h := ts_dt step in
    let '(smass, bias, gamma) :=
      if (wh_stiff d >? #0) && (inv_mass >? #0) then
        let gamma := inv_pos (h * (wh_damp d + h * wh_stiff d)) in
        (inv_pos (inv_mass + gamma), b2_dot dd ax * h * wh_stiff d * gamma, gamma)
      else (#0, #0, #0) in
    let mmass := if wh_motor d then inv_pos (ia + ib) else #0 in
    WheFr ax ay sax sbx say sby mass mmass amass smass bias gamma (if wh_limit d then b2_dot ax dd else wh_trans old).
  (* whe:115-158; the impulses of the limits are not scaled, as in the source *)
  Definition whe_warm (step : tstep T) (d : whe_def T) (c : jcom T) (f : whe_fr T) (i : whe_imp T) (s : pair T) : whe_imp T * pair T :=
    let inv_mass := jc_ma c + jc_mb c + jc_ia c * wh_sax f * wh_sax f + jc_ib c * wh_sbx f * wh_sbx f in
    let i := if (wh_stiff d >? #0) && (inv_mass >? #0) then i else WheImp (wh_i i) (wh_im i) #0 (wh_il i) (wh_iu i) in
    let i := if wh_limit d then i else WheImp (wh_i i) (wh_im i) (wh_is i) #0 #0 in
    let i := if wh_motor d then i else WheImp (wh_i i) #0 (wh_is i) (wh_il i) (wh_iu i) in
    if ts_warm step then
      let i := WheImp (wh_i i * ts_ratio step) (wh_im i * ts_ratio step) (wh_is i * ts_ratio step) (wh_il i) (wh_iu i) in
      let axial := wh_is i + wh_il i - wh_iu i in
      let p := vadd (vscale (wh_i i) (wh_ay f)) (vscale axial (wh_ax f)) in
      let la := wh_i i * wh_say f + axial * wh_sax f + wh_im i in
      let lb := wh_i i * wh_sby f + axial * wh_sbx f + wh_im i in
      (i, jpush c p la lb s)
    else (WheImp #0 #0 #0 #0 #0, s).
  (* whe:179-195 *)
  Definition whe_spring (c : jcom T) (f : whe_fr T) (is : whe_imp T * pair T) : whe_imp T * pair T :=
    let '(i, s) := is in
    let impulse := (- wh_smass f) * (axis_vel (wh_ax f) (wh_sax f) (wh_sbx f) s + wh_bias f + wh_gamma f * wh_is i) in
    (WheImp (wh_i i) (wh_im i) (wh_is i + impulse) (wh_il i) (wh_iu i), jpush c (vscale impulse (wh_ax f)) (impulse * wh_sax f) (impulse * wh_sbx f) s).
  (* whe:197-209 *)
  Definition whe_motor (step : tstep T) (d : whe_def T) (c : jcom T) (f : whe_fr T) (is : whe_imp T * pair T) : whe_imp T * pair T :=
    let '(i, s) := is in
    let cdot := s_wb s - s_wa s - wh_speed d in
    let '(im, l) := motor_impulse ((- wh_mmass f) * cdot) (ts_dt step * wh_torque d) (wh_im i) in
    (WheImp (wh_i i) im (wh_is i) (wh_il i) (wh_iu i), jspin c l s).
  (* whe:211-251 *)
  Definition whe_limits (step : tstep T) (d : whe_def T) (c : jcom T) (f : whe_fr T) (is : whe_imp T * pair T) : whe_imp T * pair T :=
    let '(i, s) := is in
    let '(il, l) := limit_impulse (wh_amass f) (axis_vel (wh_ax f) (wh_sax f) (wh_sbx f) s) (wh_trans f - wh_lower d) (ts_inv_dt step) (wh_il i) in
    let s := jpush c (vscale l (wh_ax f)) (l * wh_sax f) (l * wh_sbx f) s in
    let '(iu, l) := limit_impulse (wh_amass f) (axis_vel_up (wh_ax f) (wh_sax f) (wh_sbx f) s) (wh_upper d - wh_trans f) (ts_inv_dt step) (wh_iu i) in
    (WheImp (wh_i i) (wh_im i) (wh_is i) il iu, jpull c (vscale l (wh_ax f)) (l * wh_sax f) (l * wh_sbx f) s).
  (* whe:253-268 *)
  Definition whe_line (c : jcom T) (f : whe_fr T) (is : whe_imp T * pair T) : whe_imp T * pair T :=
    let '(i, s) := is in
    let impulse := (- wh_mass f) * axis_vel (wh_ay f) (wh_say f) (wh_sby f) s in
    (WheImp (wh_i i + impulse) (wh_im i) (wh_is i) (wh_il i) (wh_iu i), jpush c (vscale impulse (wh_ay f)) (impulse * wh_say f) (impulse * wh_sby f) s).
  (* whe:164-272 *)
  Definition whe_solve (step : tstep T) (d : whe_def T) (c : jcom T) (f : whe_fr T) (is : whe_imp T * pair T) : whe_imp T * pair T :=
    let is := whe_motor step d c f (whe_spring c f is) in
    let is := if wh_limit d then whe_limits step d c f is else is in
    whe_line c f is.
  (* whe:301-309 *)
  Definition whe_limit_error (d : whe_def T) (translation : T) : T :=
    if nabs (wh_upper d - wh_lower d) <? #2 * B2_LINEAR_SLOP then translation
    else if translation <=? wh_lower d then b2_min (translation - wh_lower d) #0
    else if translation >=? wh_upper d then b2_max (translation - wh_upper d) #0
    else #0.
  (* whe:290-332; the arms use the axis of init_velocity_constraints, as in the source *)
  Definition whe_pos_limit (d : whe_def T) (c : jcom T) (f : whe_fr T) (pp : pos T * pos T) : (pos T * pos T) * T :=
    let '(pa, pb) := pp in
    let qa := rot_of (p_a pa) in
    let ra := arm_of qa (wh_la d) (jc_lca c) in
    let rb := arm_of (rot_of (p_a pb)) (wh_lb d) (jc_lcb c) in
    let dd := vsub (vadd (vsub (p_c pb) (p_c pa)) rb) ra in
    let ax := rotv qa (wh_lx d) in
    let sax := b2_cross (vadd dd ra) (wh_ax f) in
    let sbx := b2_cross rb (wh_ax f) in
    let e := whe_limit_error d (b2_dot ax dd) in
    if negb (e =? #0) then
      let inv_mass := jc_ma c + jc_mb c + jc_ia c * sax * sax + jc_ib c * sbx * sbx in
      let impulse := if negb (inv_mass =? #0) then (- e) / inv_mass else #0 in
      (jmove c (vscale impulse ax) (impulse * sax) (impulse * sbx) pp, nabs e)
    else (pp, #0).
  (* whe:274-375 *)
  Definition whe_pos (d : whe_def T) (c : jcom T) (f : whe_fr T) (pp : pos T * pos T) : (pos T * pos T) * bool :=
    let '(pp, linear_error) := if wh_limit d then whe_pos_limit d c f pp else (pp, #0) in
    let '(pa, pb) := pp in
    let qa := rot_of (p_a pa) in
    let ra := arm_of qa (wh_la d) (jc_lca c) in
    let rb := arm_of (rot_of (p_a pb)) (wh_lb d) (jc_lcb c) in
    let dd := vsub (vadd (vsub (p_c pb) (p_c pa)) rb) ra in
    let ay := rotv qa (wh_ly d) in
    let say := b2_cross (vadd dd ra) ay in
    let sby := b2_cross rb ay in
    let e := b2_dot dd ay in
    let inv_mass := jc_ma c + jc_mb c + jc_ia c * wh_say f * wh_say f + jc_ib c * wh_sby f * wh_sby f in
    let impulse := if negb (inv_mass =? #0) then (- e) / inv_mass else #0 in
    (jmove c (vscale impulse ay) (impulse * say) (impulse * sby) pp, b2_max linear_error (nabs e) <=? B2_LINEAR_SLOP).

  (** ** friction and motor *)
  (* fri:34-73 *)
  Definition fri_frame (d : fri_def T) (c : jcom T) (pa pb : pos T) : fri_fr T :=
    let ra := arm_of (rot_of (p_a pa)) (fr_la d) (jc_lca c) in
    let rb := arm_of (rot_of (p_a pb)) (fr_lb d) (jc_lcb c) in
    FriFr ra rb (m22_inverse (point_k c ra rb)) (inv_pos (jc_ia c + jc_ib c)).
  (* fri:75-88, mot:87-100 *)
  Definition lin_warm (step : tstep T) (c : jcom T) (ra rb : vec2 T) (i : lin_imp T) (s : pair T) : lin_imp T * pair T :=
    if ts_warm step then
      let i := LinImp (vmuls (li_l i) (ts_ratio step)) (li_a i * ts_ratio step) in
      let p := li_l i in
      (i, jpush c p (b2_cross ra p + li_a i) (b2_cross rb p + li_a i) s)
    else (LinImp vzero #0, s).
  (* fri:111-151 *)
  Definition fri_solve (step : tstep T) (d : fri_def T) (c : jcom T) (f : fri_fr T) (is : lin_imp T * pair T) : lin_imp T * pair T :=
    let '(i, s) := is in
    let '(ia, l) := motor_impulse ((- fr_amass f) * (s_wb s - s_wa s)) (ts_dt step * fr_torque d) (li_a i) in
    let s := jspin c l s in
    let impulse := vneg (b2_mul (fr_lmass f) (anchor_vel (fr_ra f) (fr_rb f) s)) in
    let il := cap_impulse (ts_dt step * fr_force d) (vadd (li_l i) impulse) in
    (LinImp il ia, jpoint c (fr_ra f) (fr_rb f) (vsub il (li_l i)) s).
  (* mot:41-85 *)
  Definition mot_frame (d : mot_def T) (c : jcom T) (pa pb : pos T) : mot_fr T :=
    let ra := arm_of (rot_of (p_a pa)) (mo_linear d) (jc_lca c) in
    let rb := rotv (rot_of (p_a pb)) (vneg (jc_lcb c)) in
    MotFr ra rb (vsub (vsub (vadd (p_c pb) rb) (p_c pa)) ra) (p_a pb - p_a pa - mo_angular d) (m22_inverse (point_k c ra rb)) (inv_pos (jc_ia c + jc_ib c)).
  (* mot:141-183 *)
  Definition mot_solve (step : tstep T) (d : mot_def T) (c : jcom T) (f : mot_fr T) (is : lin_imp T * pair T) : lin_imp T * pair T :=
    let '(i, s) := is in
    let cdot := s_wb s - s_wa s + ts_inv_dt step * mo_factor d * mo_aerr f in
    let '(ia, l) := motor_impulse ((- mo_amass f) * cdot) (ts_dt step * mo_torque d) (li_a i) in
    let s := jspin c l s in
    let cdot := vadd (anchor_vel (mo_ra f) (mo_rb f) s) (vscale (ts_inv_dt step * mo_factor d) (mo_lerr f)) in
    let impulse := vneg (b2_mul (mo_lmass f) cdot) in
    let il := cap_impulse (ts_dt step * mo_force d) (vadd (li_l i) impulse) in
    (LinImp il ia, jpoint c (mo_ra f) (mo_rb f) (vsub il (li_l i)) s).

  (** ** mouse: body b only *)
  Definition kick_b (c : jcom T) (rb p : vec2 T) (v : vel T) : vel T := Vel (vadd (v_v v) (vscale (jc_mb c) p)) (v_w v + jc_ib c * b2_cross rb p).
  (* mou:32-61 *)
  Definition mou_frame (step : tstep T) (d : mou_def T) (c : jcom T) (pb : pos T) : mou_fr T :=
    let h := ts_dt step in
    let gamma := h * (ms_damp d + h * ms_stiff d) in
    let gamma := if negb (gamma =? #0) then #1 / gamma else gamma in
    let beta := h * ms_stiff d * gamma in
    let rb := arm_of (rot_of (p_a pb)) (ms_lb d) (jc_lcb c) in
    let kxx := jc_mb c + jc_ib c * vy rb * vy rb + gamma in
    let kxy := (- jc_ib c) * vx rb * vy rb in
    let kyy := jc_mb c + jc_ib c * vx rb * vx rb + gamma in
    MouFr rb (m22_inverse (M22 (V2 kxx kxy) (V2 kxy kyy))) (vmuls (vsub (vadd (p_c pb) rb) (ms_target d)) beta) gamma.
  (* mou:63-75 *)
  Definition mou_warm (step : tstep T) (c : jcom T) (f : mou_fr T) (i : vec2 T) (v : vel T) : vec2 T * vel T :=
    let v := Vel (v_v v) (v_w v * nlit 98 100) in
    if ts_warm step then let i := vmuls i (ts_ratio step) in (i, kick_b c (ms_rb f) i v)
    else (vzero, v).
  (* mou:81-104 *)
  Definition mou_solve (step : tstep T) (d : mou_def T) (c : jcom T) (f : mou_fr T) (iv : vec2 T * vel T) : vec2 T * vel T :=
    let '(i, v) := iv in
    let cdot := vadd (v_v v) (b2_cross_sv (v_w v) (ms_rb f)) in
    let impulse := b2_mul (ms_mass f) (vneg (vadd (vadd cdot (ms_c f)) (vscale (ms_gamma f) i))) in
    let i' := vadd i impulse in
    let max := ts_dt step * ms_force d in
    let i' := if vlen2 i' >? max * max then vmuls i' (max / vlen i') else i' in
    (i', kick_b c (ms_rb f) (vsub i' i) v).

  (** ** pulley *)
  (* pul:102-142 and 218-253 *)
  Definition pulley_axis (u : vec2 T) : vec2 T := let length := vlen u in if length >? #10 * B2_LINEAR_SLOP then vmuls u (#1 / length) else vzero.
  Definition pul_frame (d : pul_def T) (c : jcom T) (pa pb : pos T) : pul_fr T :=
    let ra := arm_of (rot_of (p_a pa)) (pu_la d) (jc_lca c) in
    let rb := arm_of (rot_of (p_a pb)) (pu_lb d) (jc_lcb c) in
    let ua := pulley_axis (vsub (vadd (p_c pa) ra) (pu_ga d)) in
    let ub := pulley_axis (vsub (vadd (p_c pb) rb) (pu_gb d)) in
    let rua := b2_cross ra ua in
    let rub := b2_cross rb ub in
    let ma := jc_ma c + jc_ia c * rua * rua in
    let mb := jc_mb c + jc_ib c * rub * rub in
    PulFr ua ub ra rb (inv_pos (ma + pu_ratio d * pu_ratio d * mb)).
  Definition pul_kick (c : jcom T) (ra rb pa pb : vec2 T) (s : pair T) : pair T :=
    Pair (vadd (s_va s) (vscale (jc_ma c) pa)) (s_wa s + jc_ia c * b2_cross ra pa) (vadd (s_vb s) (vscale (jc_mb c) pb)) (s_wb s + jc_ib c * b2_cross rb pb).
  (* pul:144-161 *)
  Definition pul_warm (step : tstep T) (d : pul_def T) (c : jcom T) (f : pul_fr T) (i : T) (s : pair T) : T * pair T :=
    if ts_warm step then
      let i := i * ts_ratio step in
      (i, pul_kick c (pu_ra f) (pu_rb f) (vscale (- i) (pu_ua f)) (vscale ((- pu_ratio d) * i) (pu_ub f)) s)
    else (#0, s).
  (* pul:182-185 *)
  Definition pul_vel (d : pul_def T) (f : pul_fr T) (s : pair T) : T :=
    let vpa := vadd (s_va s) (b2_cross_sv (s_wa s) (pu_ra f)) in
    let vpb := vadd (s_vb s) (b2_cross_sv (s_wb s) (pu_rb f)) in
    (- b2_dot (pu_ua f) vpa) - pu_ratio d * b2_dot (pu_ub f) vpb.
  (* pul:167-198 *)
  Definition pul_solve (d : pul_def T) (c : jcom T) (f : pul_fr T) (is : T * pair T) : T * pair T :=
    let '(i, s) := is in
    let impulse := (- pu_mass f) * pul_vel d f s in
    (i + impulse, pul_kick c (pu_ra f) (pu_rb f) (vscale (- impulse) (pu_ua f)) (vscale ((- pu_ratio d) * impulse) (pu_ub f)) s).
  (* pul:200-276 *)
  Definition pul_pos (d : pul_def T) (c : jcom T) (pp : pos T * pos T) : (pos T * pos T) * bool :=
    let '(pa, pb) := pp in
    let f := pul_frame d c pa pb in
    let la := vlen (vsub (vadd (p_c pa) (pu_ra f)) (pu_ga d)) in
    let lb := vlen (vsub (vadd (p_c pb) (pu_rb f)) (pu_gb d)) in
    let e := pu_const d - la - pu_ratio d * lb in
    let impulse := (- pu_mass f) * e in
    let s := pul_kick c (pu_ra f) (pu_rb f) (vscale (- impulse) (pu_ua f)) (vscale ((- pu_ratio d) * impulse) (pu_ub f)) (Pair (p_c pa) (p_a pa) (p_c pb) (p_a pb)) in
    ((Pos (s_va s) (s_wa s), Pos (s_vb s) (s_wb s)), nabs e <? B2_LINEAR_SLOP).

  (** ** gear: the pair of bodies a and b, and the pair of bodies c and d *)
  (* one side of gea:231-247: axis in body c, arms in c and a *)
  Definition gear_side (axis lc lcc la lca : vec2 T) (pa pc : pos T) : vec2 T * T * T :=
    let qc := rot_of (p_a pc) in
    let u := rotv qc axis in
    let rc := arm_of qc lc lcc in
    let ra := arm_of (rot_of (p_a pa)) la lca in
    (u, b2_cross rc u, b2_cross ra u).
  (* gea:229-269; [ca] is about a and b, [cc] about c and d; the last number is the sum of which the mass is the inverse *)
  Definition gea_jac (d : gea_def T) (ca cc : jcom T) (pa pb pc pd : pos T) : vec2 T * vec2 T * T * T * T * T * T :=
    let mass := #0 in
    let '(jvac, jwa, jwc, mass) :=
      if ge_reva d then (vzero, #1, #1, mass + (jc_ia ca + jc_ia cc))
      else let '(u, jwc, jwa) := gear_side (ge_axc d) (ge_lc d) (jc_lca cc) (ge_la d) (jc_lca ca) pa pc in
           (u, jwa, jwc, mass + (jc_ma cc + jc_ma ca + jc_ia cc * jwc * jwc + jc_ia ca * jwa * jwa)) in
    let r := ge_ratio d in
    let '(jvbd, jwb, jwd, mass) :=
      if ge_revb d then (vzero, r, r, mass + r * r * (jc_ib ca + jc_ib cc))
      else let '(u, jwd, jwb) := gear_side (ge_axd d) (ge_ld d) (jc_lcb cc) (ge_lb d) (jc_lcb ca) pb pd in
           let jwd := r * jwd in let jwb := r * jwb in
           (vscale r u, jwb, jwd, mass + (r * r * (jc_mb cc + jc_mb ca) + jc_ib cc * jwd * jwd + jc_ib ca * jwb * jwb)) in
    (jvac, jvbd, jwa, jwb, jwc, jwd, mass).
  Definition gea_frame (d : gea_def T) (ca cc : jcom T) (pa pb pc pd : pos T) : gea_fr T :=
    let '(jvac, jvbd, jwa, jwb, jwc, jwd, mass) := gea_jac d ca cc pa pb pc pd in
    GeaFr jvac jvbd jwa jwb jwc jwd (if mass >? #0 then #1 / mass else #0).
  (* gea:273-280 and 315-322: (m * impulse) * jv, m_i * impulse * jw *)
  Definition gea_kick (ca cc : jcom T) (f : gea_fr T) (i : T) (sab scd : pair T) : pair T * pair T :=
    (Pair (vadd (s_va sab) (vscale (jc_ma ca * i) (ge_jvac f))) (s_wa sab + jc_ia ca * i * ge_jwa f)
          (vadd (s_vb sab) (vscale (jc_mb ca * i) (ge_jvbd f))) (s_wb sab + jc_ib ca * i * ge_jwb f),
     Pair (vsub (s_va scd) (vscale (jc_ma cc * i) (ge_jvac f))) (s_wa scd - jc_ia cc * i * ge_jwc f)
          (vsub (s_vb scd) (vscale (jc_mb cc * i) (ge_jvbd f))) (s_wb scd - jc_ib cc * i * ge_jwd f)).
  (* gea:271-285: the impulse is not scaled, as in the source *)
  Definition gea_warm (step : tstep T) (ca cc : jcom T) (f : gea_fr T) (i : T) (sab scd : pair T) : T * (pair T * pair T) :=
    if ts_warm step then (i, gea_kick ca cc f i sab scd) else (#0, (sab, scd)).
  (* gea:309-310 *)
  Definition gea_vel (f : gea_fr T) (sab scd : pair T) : T :=
    b2_dot (ge_jvac f) (vsub (s_va sab) (s_va scd)) + b2_dot (ge_jvbd f) (vsub (s_vb sab) (s_vb scd)) +
    ((ge_jwa f * s_wa sab - ge_jwc f * s_wa scd) + (ge_jwb f * s_wb sab - ge_jwd f * s_wb scd)).
  (* gea:297-332 *)
  Definition gea_solve (ca cc : jcom T) (f : gea_fr T) (i : T) (sab scd : pair T) : T * (pair T * pair T) :=
    let impulse := (- ge_mass f) * gea_vel f sab scd in
    (i + impulse, gea_kick ca cc f impulse sab scd).
  (* gea:380-382 *)
  Definition gear_coord (axis lc lcc la lca : vec2 T) (pa pc : pos T) : T :=
    let qc := rot_of (p_a pc) in
    let ra := arm_of (rot_of (p_a pa)) la lca in
    let pc0 := vsub lc lcc in
    let pa0 := rotv_t qc (vadd ra (vsub (p_c pa) (p_c pc))) in
    b2_dot (vsub pa0 pc0) axis.
  (* gea:334-436; the error is never computed, as in the source *)
  Definition gea_pos (d : gea_def T) (ca cc : jcom T) (pa pb pc pd : pos T) : (pair T * pair T) * bool :=
    let '(jvac, jvbd, jwa, jwb, jwc, jwd, mass) := gea_jac d ca cc pa pb pc pd in
    let xa := if ge_reva d then p_a pa - p_a pc - ge_refa d else gear_coord (ge_axc d) (ge_lc d) (jc_lca cc) (ge_la d) (jc_lca ca) pa pc in
    let xb := if ge_revb d then p_a pb - p_a pd - ge_refb d else gear_coord (ge_axd d) (ge_ld d) (jc_lcb cc) (ge_lb d) (jc_lcb ca) pb pd in
    let e := (xa + ge_ratio d * xb) - ge_const d in
    let impulse := if mass >? #0 then (- e) / mass else #0 in
    (gea_kick ca cc (GeaFr jvac jvbd jwa jwb jwc jwd mass) impulse (Pair (p_c pa) (p_a pa) (p_c pb) (p_a pb)) (Pair (p_c pc) (p_a pc) (p_c pd) (p_a pd)),
     (#0 : T) <? B2_LINEAR_SLOP).

  (** ** the three functions of a joint, on the buffers of the island *)
  Definition vpair (va vb : vel T) : pair T := Pair (v_v va) (v_w va) (v_v vb) (v_w vb).
  Definition vel_a (s : pair T) : vel T := Vel (s_va s) (s_wa s).
  Definition vel_b (s : pair T) : vel T := Vel (s_vb s) (s_wb s).
  (* a joint that acts on two bodies *)
  Definition on_pair {A} (c : jcom T) (f : pair T -> A * pair T) (vels : list (vel T)) : res (A * list (vel T)) :=
    va <- zget vels (jc_a c) ;;
    vb <- zget vels (jc_b c) ;;
    let '(x, s) := f (vpair va vb) in
    vels <- zset vels (jc_a c) (vel_a s) ;;
    vels <- zset vels (jc_b c) (vel_b s) ;;
    Ok (x, vels).
  (* one that acts on body b *)
  Definition on_b {A} (c : jcom T) (f : vel T -> A * vel T) (vels : list (vel T)) : res (A * list (vel T)) :=
    vb <- zget vels (jc_b c) ;;
    let '(x, v) := f vb in
    vels <- zset vels (jc_b c) v ;;
    Ok (x, vels).
  (* one that acts on four bodies; they are written in the order a, b, c, d *)
  Definition on_four {A} (ca cc : jcom T) (f : pair T -> pair T -> A * (pair T * pair T)) (vels : list (vel T)) : res (A * list (vel T)) :=
    va <- zget vels (jc_a ca) ;;
    vb <- zget vels (jc_b ca) ;;
    vc <- zget vels (jc_a cc) ;;
    vd <- zget vels (jc_b cc) ;;
    let '(x, (sab, scd)) := f (vpair va vb) (vpair vc vd) in
    vels <- zset vels (jc_a ca) (vel_a sab) ;;
    vels <- zset vels (jc_b ca) (vel_b sab) ;;
    vels <- zset vels (jc_a cc) (vel_a scd) ;;
    vels <- zset vels (jc_b cc) (vel_b scd) ;;
    Ok (x, vels).

  (* init_velocity_constraints; the positions are only read *)
  Definition kind_init (step : tstep T) (k : jkind T) (c c2 : jcom T) (poss : list (pos T)) (vels : list (vel T)) : res (jkind T * list (vel T)) :=
    match k with
    | JMouse d i f =>
      pb <- zget poss (jc_b c) ;;
      let f := mou_frame step d c pb in
      '(i, vels) <- on_b c (mou_warm step c f i) vels ;;
      Ok (JMouse d i f, vels)
    | JGear d i f =>
      pa <- zget poss (jc_a c) ;;
      pb <- zget poss (jc_b c) ;;
      pc <- zget poss (jc_a c2) ;;
      pd <- zget poss (jc_b c2) ;;
      let f := gea_frame d c c2 pa pb pc pd in
      '(i, vels) <- on_four c c2 (gea_warm step c c2 f i) vels ;;
      Ok (JGear d i f, vels)
    | _ =>
      pa <- zget poss (jc_a c) ;;
      pb <- zget poss (jc_b c) ;;
      match k with
      | JRevolute d i f =>
        let f := rev_frame d c pa pb in
        '(i, vels) <- on_pair c (rev_warm step d c f i) vels ;;
        Ok (JRevolute d i f, vels)
      | JPrismatic d i f =>
        let f := pri_frame d c f pa pb in
        '(i, vels) <- on_pair c (pri_warm step d c f i) vels ;;
        Ok (JPrismatic d i f, vels)
      | JDistance d i f =>
        let f := dis_frame step d c pa pb in
        '(i, vels) <- on_pair c (dis_warm step c f i) vels ;;
        Ok (JDistance d i f, vels)
      | JWeld d i f =>
        let f := wel_frame step d c pa pb in
        '(i, vels) <- on_pair c (wel_warm step c f i) vels ;;
        Ok (JWeld d i f, vels)
      | JWheel d i f =>
        let f := whe_frame step d c f pa pb in
        '(i, vels) <- on_pair c (whe_warm step d c f i) vels ;;
        Ok (JWheel d i f, vels)
      | JFriction d i f =>
        let f := fri_frame d c pa pb in
        '(i, vels) <- on_pair c (lin_warm step c (fr_ra f) (fr_rb f) i) vels ;;
        Ok (JFriction d i f, vels)
      | JMotor d i f =>
        let f := mot_frame d c pa pb in
        '(i, vels) <- on_pair c (lin_warm step c (mo_ra f) (mo_rb f) i) vels ;;
        Ok (JMotor d i f, vels)
      | JPulley d i f =>
        let f := pul_frame d c pa pb in
        '(i, vels) <- on_pair c (pul_warm step d c f i) vels ;;
        Ok (JPulley d i f, vels)
      | _ => Panic
      end
    end.
  (* the joint copies the data of its bodies first; [a], [b] are the bodies of the joint, [c], [d] those of a gear joint *)
  Definition joint_init (step : tstep T) (j : jnt T) (a b c d : body T) (poss : list (pos T)) (vels : list (vel T)) : res (jnt T * list (vel T)) :=
    '(k, vels) <- kind_init step (j_kind j) (com_of a b) (com_of c d) poss vels ;;
    Ok (Jnt k (com_of a b) (com_of c d), vels).
  (* solve_velocity_constraints *)
  Definition kind_vel (step : tstep T) (k : jkind T) (c c2 : jcom T) (vels : list (vel T)) : res (jkind T * list (vel T)) :=
    match k with
    | JRevolute d i f => '(i, vels) <- on_pair c (fun s => rev_solve step d c f (i, s)) vels ;; Ok (JRevolute d i f, vels)
    | JPrismatic d i f => '(i, vels) <- on_pair c (fun s => pri_solve step d c f (i, s)) vels ;; Ok (JPrismatic d i f, vels)
    | JDistance d i f => '(i, vels) <- on_pair c (fun s => dis_solve step d c f (i, s)) vels ;; Ok (JDistance d i f, vels)
    | JWeld d i f => '(i, vels) <- on_pair c (fun s => wel_solve d c f (i, s)) vels ;; Ok (JWeld d i f, vels)
    | JWheel d i f => '(i, vels) <- on_pair c (fun s => whe_solve step d c f (i, s)) vels ;; Ok (JWheel d i f, vels)
    | JFriction d i f => '(i, vels) <- on_pair c (fun s => fri_solve step d c f (i, s)) vels ;; Ok (JFriction d i f, vels)
    | JMotor d i f => '(i, vels) <- on_pair c (fun s => mot_solve step d c f (i, s)) vels ;; Ok (JMotor d i f, vels)
    | JPulley d i f => '(i, vels) <- on_pair c (fun s => pul_solve d c f (i, s)) vels ;; Ok (JPulley d i f, vels)
    | JMouse d i f => '(i, vels) <- on_b c (fun v => mou_solve step d c f (i, v)) vels ;; Ok (JMouse d i f, vels)
    | JGear d i f => '(i, vels) <- on_four c c2 (gea_solve c c2 f i) vels ;; Ok (JGear d i f, vels)
    end.
  Definition joint_vel (step : tstep T) (j : jnt T) (vels : list (vel T)) : res (jnt T * list (vel T)) :=
    '(k, vels) <- kind_vel step (j_kind j) (j_com j) (j_com2 j) vels ;;
    Ok (Jnt k (j_com j) (j_com2 j), vels).
  (* solve_position_constraints; the joint is not changed *)
  Definition on_pos (c : jcom T) (f : pos T * pos T -> (pos T * pos T) * bool) (poss : list (pos T)) : res (list (pos T) * bool) :=
    pa <- zget poss (jc_a c) ;;
    pb <- zget poss (jc_b c) ;;
    let '((pa, pb), okay) := f (pa, pb) in
    poss <- zset poss (jc_a c) pa ;;
    poss <- zset poss (jc_b c) pb ;;
    Ok (poss, okay).
  Definition joint_pos (j : jnt T) (poss : list (pos T)) : res (list (pos T) * bool) :=
    let c := j_com j in
    let c2 := j_com2 j in
    match j_kind j with
    | JRevolute d i f => on_pos c (rev_pos d c f) poss
    | JPrismatic d i f => on_pos c (pri_pos d c) poss
    | JDistance d i f => on_pos c (dis_pos d c f) poss
    | JWeld d i f => on_pos c (wel_pos d c) poss
    | JWheel d i f => on_pos c (whe_pos d c f) poss
    | JPulley d i f => on_pos c (pul_pos d c) poss
    | JFriction _ _ _ | JMotor _ _ _ | JMouse _ _ _ => Ok (poss, true)
    | JGear d i f =>
      pa <- zget poss (jc_a c) ;;
      pb <- zget poss (jc_b c) ;;
      pc <- zget poss (jc_a c2) ;;
      pd <- zget poss (jc_b c2) ;;
      let '((sab, scd), okay) := gea_pos d c c2 pa pb pc pd in
      poss <- zset poss (jc_a c) (Pos (s_va sab) (s_wa sab)) ;;
      poss <- zset poss (jc_b c) (Pos (s_vb sab) (s_wb sab)) ;;
      poss <- zset poss (jc_a c2) (Pos (s_va scd) (s_wa scd)) ;;
      poss <- zset poss (jc_b c2) (Pos (s_vb scd) (s_wb scd)) ;;
      Ok (poss, okay)
    end.

  Definition with_joint (x : jin T) (j : jnt T) : jin T := JIn j (ji_a x) (ji_b x) (ji_c x) (ji_d x).
  Definition joint_solver : jsolver T (jin T) := JSolver
    (fun step x poss vels => '(j, vels) <- joint_init step (ji_joint x) (ji_a x) (ji_b x) (ji_c x) (ji_d x) poss vels ;; Ok (with_joint x j, poss, vels))
    (fun step x vels => '(j, vels) <- joint_vel step (ji_joint x) vels ;; Ok (with_joint x j, vels))
    (fun step x poss => '(poss, okay) <- joint_pos (ji_joint x) poss ;; Ok (x, poss, okay)).
End Joint.
