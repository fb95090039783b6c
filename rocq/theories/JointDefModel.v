(** Definitions, construction and getters of joints.
    Model of src/joints/b2_*_joint.rs (called Rev, Pri, Dis, Wel, Whe, Fri, Mot, Mou, Pul, Gea), of the rest of
    src/private/dynamics/joints/b2_*_joint.rs (rev, pri, ... as in JointModel.v) and of private/dynamics/b2_joint.rs:22-69.
    A definition of the user is a record as in JointModel.v, with the fields that [new] computes unused; [initialize] is called with the
    definition so far. The bodies a joint refers to are arguments. Waking up of bodies by setters is left out. *)
From Coq Require Import List ZArith Bool Arith.
From Verif Require Import Base Num Math Manifold DynModel SolverModel IslandModel JointModel.
Import ListNotations.

Local Set Implicit Arguments.
(* joints/b2_pulley_joint.rs:33-55 B2pulleyJointDef *)
Record pul_spec (T : Type) := PulSpec { ps_ga : vec2 T; ps_gb : vec2 T; ps_la : vec2 T; ps_lb : vec2 T; ps_lena : T; ps_lenb : T; ps_ratio : T }.
Unset Implicit Arguments.

Section JointDef.
  Local Open Scope num_scope.
  Context {T : Type} `{NT : Num T} `{TT : NumTrig T} `{VT : NumValid T}.

  (* b2_body.rs:656-662 get_position, get_angle, 724-738 get_world_vector, get_local_vector *)
  Definition get_angle (b : body T) : T := sw_a (b_sweep b).
  Definition get_position (b : body T) : vec2 T := xp (b_xf b).
  Definition get_world_vector (v : vec2 T) (b : body T) : vec2 T := rotv (xq (b_xf b)) v.
  Definition get_local_vector (v : vec2 T) (b : body T) : vec2 T := rotv_t (xq (b_xf b)) v.
  (* b2_body.rs:704-711 *)
  Definition get_mass (b : body T) : T := b_mass b.
  Definition get_inertia (b : body T) : T := b_i b + b_mass b * b2_dot (sw_local_center (b_sweep b)) (sw_local_center (b_sweep b)).

  (** ** initialize and new *)
  Definition m22_zero : mat22 T := M22 vzero vzero.
  Definition v3zero : vec3 T := V3 #0 #0 #0.
  (* Rev:76-82 *)
  Definition rev_initialize (a b : body T) (anchor : vec2 T) (d : rev_def T) : rev_def T :=
    RevDef (get_local_point anchor a) (get_local_point anchor b) (get_angle b - get_angle a) (rv_limit d) (rv_lower d) (rv_upper d) (rv_motor d) (rv_speed d) (rv_torque d).
  (* Rev:253-287 *)
  Definition rev_new (d : rev_def T) : jkind T := JRevolute d (RevImp vzero #0 #0 #0) (RevFr vzero vzero m22_zero #0 #0).
  (* Pri:75-88 *)
  Definition pri_initialize (a b : body T) (anchor axis : vec2 T) (d : pri_def T) : pri_def T :=
    PriDef (get_local_point anchor a) (get_local_point anchor b) (get_local_vector axis a) (pr_ly d) (get_angle b - get_angle a) (pr_limit d) (pr_lower d) (pr_upper d) (pr_motor d) (pr_speed d) (pr_force d).
  (* pri:54-125 *)
  Definition pri_new (d : pri_def T) : res (jkind T) :=
    let x := snd (vnormalize (pr_lx d)) in
    b2_assert (pr_lower d <=? pr_upper d) ;;;
    Ok (JPrismatic (PriDef (pr_la d) (pr_lb d) x (b2_cross_sv #1 x) (pr_ref d) (pr_limit d) (pr_lower d) (pr_upper d) (pr_motor d) (pr_speed d) (pr_force d))
      (PriImp vzero #0 #0 #0) (PriFr vzero vzero #0 #0 #0 #0 m22_zero #0 #0)).
  (* dis:25-41 *)
  Definition dis_initialize (a b : body T) (anchor_a anchor_b : vec2 T) (d : dis_def T) : dis_def T :=
    let length := b2_max (vlen (vsub anchor_b anchor_a)) B2_LINEAR_SLOP in
    DisDef (get_local_point anchor_a a) (get_local_point anchor_b b) length length length (di_stiff d) (di_damp d).
  (* dis:43-77 *)
  Definition dis_new (d : dis_def T) : jkind T :=
    let min := b2_max (di_min d) B2_LINEAR_SLOP in
    JDistance (DisDef (di_la d) (di_lb d) (b2_max (di_length d) B2_LINEAR_SLOP) min (b2_max (di_max d) min) (di_stiff d) (di_damp d))
      (DisImp #0 #0 #0) (DisFr vzero vzero vzero #0 #0 #0 #0 #0).
  (* Wel:54-60 *)
  Definition wel_initialize (a b : body T) (anchor : vec2 T) (d : wel_def T) : wel_def T :=
    WelDef (get_local_point anchor a) (get_local_point anchor b) (get_angle b - get_angle a) (we_stiff d) (we_damp d).
  (* Wel:126-155 *)
  Definition wel_new (d : wel_def T) : jkind T := JWeld d v3zero (WelFr vzero vzero (M33 v3zero v3zero v3zero) #0 #0).
  (* Whe:79-91 *)
  Definition whe_initialize (a b : body T) (anchor axis : vec2 T) (d : whe_def T) : whe_def T :=
    WheDef (get_local_point anchor a) (get_local_point anchor b) (get_local_vector axis a) (wh_ly d) (wh_limit d) (wh_lower d) (wh_upper d) (wh_motor d) (wh_speed d) (wh_torque d) (wh_stiff d) (wh_damp d).
  (* Whe:329-381; the axis is not normalized, as in the source *)
  Definition whe_new (d : whe_def T) : jkind T :=
    JWheel (WheDef (wh_la d) (wh_lb d) (wh_lx d) (b2_cross_sv #1 (wh_lx d)) (wh_limit d) (wh_lower d) (wh_upper d) (wh_motor d) (wh_speed d) (wh_torque d) (wh_stiff d) (wh_damp d))
      (WheImp #0 #0 #0 #0 #0) (WheFr vzero vzero #0 #0 #0 #0 #0 #0 #0 #0 #0 #0 #0).
  (* Fri:44-49, 120-146 *)
  Definition fri_initialize (a b : body T) (anchor : vec2 T) (d : fri_def T) : fri_def T :=
    FriDef (get_local_point anchor a) (get_local_point anchor b) (fr_force d) (fr_torque d).
  Definition fri_new (d : fri_def T) : jkind T := JFriction d (LinImp vzero #0) (FriFr vzero vzero m22_zero #0).
  (* Mot:48-59, 175-204 *)
  Definition mot_initialize (a b : body T) (d : mot_def T) : mot_def T :=
    MotDef (get_local_point (get_position b) a) (get_angle b - get_angle a) (mo_force d) (mo_torque d) (mo_factor d).
  Definition mot_new (d : mot_def T) : jkind T := JMotor d (LinImp vzero #0) (MotFr vzero vzero vzero #0 m22_zero #0).
  (* Mou:141-167; there is no initialize, the anchor is computed here *)
  Definition mou_new (b : body T) (d : mou_def T) : jkind T :=
    JMouse (MouDef (xfv_t (b_xf b) (ms_target d)) (ms_target d) (ms_stiff d) (ms_damp d) (ms_force d)) vzero (MouFr vzero m22_zero vzero #0).
  (* Pul:59-82 *)
  Definition pul_initialize (a b : body T) (ga gb anchor_a anchor_b : vec2 T) (ratio : T) : res (pul_spec T) :=
    b2_assert (ratio >? B2_EPSILON) ;;;
    Ok (PulSpec ga gb (get_local_point anchor_a a) (get_local_point anchor_b b) (vlen (vsub anchor_a ga)) (vlen (vsub anchor_b gb)) ratio).
  (* pul:20-63; the lengths are kept for get_length_a and get_length_b only *)
  Definition pul_new (s : pul_spec T) : res (jkind T) :=
    b2_assert (negb (ps_ratio s =? #0)) ;;;
    Ok (JPulley (PulDef (ps_ga s) (ps_gb s) (ps_la s) (ps_lb s) (ps_lena s + ps_ratio s * ps_lenb s) (ps_ratio s)) #0 (PulFr vzero vzero vzero vzero #0)).
  (* one half of gea:30-185: joint [k] connects body [c] to body [a]: is it revolute, the anchors in c and a, the axis, the reference angle, the coordinate *)
  Definition gear_half (k : jkind T) (c a : body T) : res (bool * vec2 T * vec2 T * vec2 T * T * T) :=
    match k with
    | JRevolute d _ _ =>
      b2_assert (match b_type a with DynamicBody => true | _ => false end) ;;;
      Ok (true, rv_la d, rv_lb d, vzero, rv_ref d, get_angle a - get_angle c - rv_ref d)
    | JPrismatic d _ _ =>
      b2_assert (match b_type a with DynamicBody => true | _ => false end) ;;;
      let pa := rotv_t (xq (b_xf c)) (vadd (rotv (xq (b_xf a)) (pr_lb d)) (vsub (xp (b_xf a)) (xp (b_xf c)))) in
      Ok (false, pr_la d, pr_lb d, pr_lx d, pr_ref d, b2_dot (vsub pa (pr_la d)) (pr_lx d))
    | _ => Panic
    end.
  (* gea:30-185: joint 1 connects c to a, joint 2 connects d to b. These bodies a and b are not necessarily those of the definition, with which the joint goes on. *)
  Definition gea_new (k1 k2 : jkind T) (c a d b : body T) (ratio : T) : res (jkind T) :=
    '(reva, lc, la, axc, refa, xa) <- gear_half k1 c a ;;
    '(revb, ld, lb, axd, refb, xb) <- gear_half k2 d b ;;
    Ok (JGear (GeaDef reva revb la lb lc ld axc axd refa refb (xa + ratio * xb) ratio) #0 (GeaFr vzero vzero #0 #0 #0 #0 #0)).

  (** ** getters *)
  (* get_anchor_a, get_anchor_b: Rev:302-315, Pri:270-283, dis:321-335, Wel:164-177, Whe:390-403, Fri:155-168, Mot:77-82, Mou:61-70, Pul:101-114, Gea:58-71 *)
  Definition get_anchor_a (k : jkind T) (a : body T) : vec2 T :=
    match k with
    | JRevolute d _ _ => get_world_point (rv_la d) a
    | JPrismatic d _ _ => get_world_point (pr_la d) a
    | JDistance d _ _ => get_world_point (di_la d) a
    | JWeld d _ _ => get_world_point (we_la d) a
    | JWheel d _ _ => get_world_point (wh_la d) a
    | JFriction d _ _ => get_world_point (fr_la d) a
    | JMotor d _ _ => get_position a
    | JMouse d _ _ => ms_target d
    | JPulley d _ _ => get_world_point (pu_la d) a
    | JGear d _ _ => get_world_point (ge_la d) a
    end.
  Definition get_anchor_b (k : jkind T) (b : body T) : vec2 T :=
    match k with
    | JRevolute d _ _ => get_world_point (rv_lb d) b
    | JPrismatic d _ _ => get_world_point (pr_lb d) b
    | JDistance d _ _ => get_world_point (di_lb d) b
    | JWeld d _ _ => get_world_point (we_lb d) b
    | JWheel d _ _ => get_world_point (wh_lb d) b
    | JFriction d _ _ => get_world_point (fr_lb d) b
    | JMotor d _ _ => get_position b
    | JMouse d _ _ => get_world_point (ms_lb d) b
    | JPulley d _ _ => get_world_point (pu_lb d) b
    | JGear d _ _ => get_world_point (ge_lb d) b
    end.
  (* get_reaction_force: Rev:319-322, Pri:287-291, dis:337-344, Wel:181-184, Whe:407-409, Fri:172-174, Mot:86-88, Mou:74-76, Pul:118-121, Gea:75-78 *)
  Definition get_reaction_force (k : jkind T) (inv_dt : T) : vec2 T :=
    match k with
    | JRevolute _ i _ => vscale inv_dt (rv_i i)
    | JPrismatic _ i f => vscale inv_dt (vadd (vscale (vx (pr_i i)) (pr_perp f)) (vscale (pr_im i + pr_il i - pr_iu i) (pr_axis f)))
    | JDistance _ i f => vscale (inv_dt * (di_i i + di_il i - di_iu i)) (di_u f)
    | JWeld _ i _ => vscale inv_dt (V2 (v3x i) (v3y i))
    | JWheel _ i f => vscale inv_dt (vadd (vscale (wh_i i) (wh_ay f)) (vscale (wh_is i + wh_il i - wh_iu i) (wh_ax f)))
    | JFriction _ i _ => vscale inv_dt (li_l i)
    | JMotor _ i _ => vscale inv_dt (li_l i)
    | JMouse _ i _ => vscale inv_dt i
    | JPulley _ i f => vscale inv_dt (vscale i (pu_ub f))
    | JGear _ i f => vscale inv_dt (vscale i (ge_jvac f))
    end.
  (* get_reaction_torque: Rev:325-327, Pri:293-295, dis:346-349, Wel:186-188, Whe:411-413, Fri:176-178, Mot:90-92, Mou:80-82, Pul:123-126, Gea:80-83 *)
  Definition get_reaction_torque (k : jkind T) (inv_dt : T) : T :=
    match k with
    | JRevolute _ i _ => inv_dt * (rv_im i + rv_il i - rv_iu i)
    | JPrismatic _ i _ => inv_dt * vy (pr_i i)
    | JDistance _ _ _ => #0
    | JWeld _ i _ => inv_dt * v3z i
    | JWheel _ i _ => inv_dt * wh_im i
    | JFriction _ i _ => inv_dt * li_a i
    | JMotor _ i _ => inv_dt * li_a i
    | JMouse _ _ _ => inv_dt * #0
    | JPulley _ _ _ => #0
    | JGear _ i f => inv_dt * (i * ge_jwa f)
    end.
  (* pri:462-482, Whe:177-186 *)
  Definition translation_of (la lb lx : vec2 T) (a b : body T) : T := b2_dot (vsub (get_world_point lb b) (get_world_point la a)) (get_world_vector lx a).
  (* pri:484-508, Whe:189-213 *)
  Definition linear_speed_of (la lb lx : vec2 T) (a b : body T) : T :=
    let ra := rotv (xq (b_xf a)) (vsub la (sw_local_center (b_sweep a))) in
    let rb := rotv (xq (b_xf b)) (vsub lb (sw_local_center (b_sweep b))) in
    let d := vsub (vadd (sw_c (b_sweep b)) rb) (vadd (sw_c (b_sweep a)) ra) in
    let axis := rotv (xq (b_xf a)) lx in
    b2_dot d (b2_cross_sv (b_av a) axis) +
    b2_dot axis (vsub (vsub (vadd (b_lv b) (b2_cross_sv (b_av b) rb)) (b_lv a)) (b2_cross_sv (b_av a) ra)).
  Definition pri_translation (d : pri_def T) (a b : body T) : T := translation_of (pr_la d) (pr_lb d) (pr_lx d) a b.
  Definition pri_speed (d : pri_def T) (a b : body T) : T := linear_speed_of (pr_la d) (pr_lb d) (pr_lx d) a b.
  Definition whe_translation (d : whe_def T) (a b : body T) : T := translation_of (wh_la d) (wh_lb d) (wh_lx d) a b.
  Definition whe_linear_speed (d : whe_def T) (a b : body T) : T := linear_speed_of (wh_la d) (wh_lb d) (wh_lx d) a b.
  (* Rev:153-164, Whe:216-227 *)
  Definition rev_joint_angle (d : rev_def T) (a b : body T) : T := sw_a (b_sweep b) - sw_a (b_sweep a) - rv_ref d.
  Definition rev_joint_speed (a b : body T) : T := b_av b - b_av a.
  Definition whe_joint_angle (a b : body T) : T := sw_a (b_sweep b) - sw_a (b_sweep a).
  Definition whe_angular_speed (a b : body T) : T := b_av b - b_av a.
  (* dis:369-382, Pul:196-216 *)
  Definition dis_current_length (d : dis_def T) (a b : body T) : T := vlen (vsub (get_world_point (di_lb d) b) (get_world_point (di_la d) a)).
  Definition pul_current_length_a (d : pul_def T) (a : body T) : T := vlen (vsub (get_world_point (pu_la d) a) (pu_ga d)).
  Definition pul_current_length_b (d : pul_def T) (b : body T) : T := vlen (vsub (get_world_point (pu_lb d) b) (pu_gb d)).

  (** ** setters *)
  (* dis:351-367 *)
  Definition dis_set_length (x : T) (d : dis_def T) (i : dis_imp T) : dis_def T * dis_imp T :=
    (DisDef (di_la d) (di_lb d) (b2_max B2_LINEAR_SLOP x) (di_min d) (di_max d) (di_stiff d) (di_damp d), DisImp #0 (di_il i) (di_iu i)).
  Definition dis_set_min_length (x : T) (d : dis_def T) (i : dis_imp T) : dis_def T * dis_imp T :=
    (DisDef (di_la d) (di_lb d) (di_length d) (b2_clamp x B2_LINEAR_SLOP (di_max d)) (di_max d) (di_stiff d) (di_damp d), DisImp (di_i i) #0 (di_iu i)).
  Definition dis_set_max_length (x : T) (d : dis_def T) (i : dis_imp T) : dis_def T * dis_imp T :=
    (DisDef (di_la d) (di_lb d) (di_length d) (di_min d) (b2_max x (di_min d)) (di_stiff d) (di_damp d), DisImp (di_i i) (di_il i) #0).
  (* Rev:194-205 *)
  Definition rev_set_limits (lower upper : T) (d : rev_def T) (i : rev_imp T) : res (rev_def T * rev_imp T) :=
    b2_assert (lower <=? upper) ;;;
    if negb (lower =? rv_lower d) || negb (upper =? rv_upper d) then
      Ok (RevDef (rv_la d) (rv_lb d) (rv_ref d) (rv_limit d) lower upper (rv_motor d) (rv_speed d) (rv_torque d), RevImp (rv_i i) (rv_im i) #0 #0)
    else Ok (d, i).
  (* Pri:201-211 *)
  Definition pri_set_limits (lower upper : T) (d : pri_def T) (i : pri_imp T) : res (pri_def T * pri_imp T) :=
    b2_assert (lower <=? upper) ;;;
    if negb (lower =? pr_lower d) || negb (upper =? pr_upper d) then
      Ok (PriDef (pr_la d) (pr_lb d) (pr_lx d) (pr_ly d) (pr_ref d) (pr_limit d) lower upper (pr_motor d) (pr_speed d) (pr_force d), PriImp (pr_i i) (pr_im i) #0 #0)
    else Ok (d, i).
  (* Whe:256-266 *)
  Definition whe_set_limits (lower upper : T) (d : whe_def T) (i : whe_imp T) : res (whe_def T * whe_imp T) :=
    b2_assert (lower <=? upper) ;;;
    if negb (lower =? wh_lower d) || negb (upper =? wh_upper d) then
      Ok (WheDef (wh_la d) (wh_lb d) (wh_lx d) (wh_ly d) (wh_limit d) lower upper (wh_motor d) (wh_speed d) (wh_torque d) (wh_stiff d) (wh_damp d), WheImp (wh_i i) (wh_im i) (wh_is i) #0 #0)
    else Ok (d, i).
  (* Gea:131-134 *)
  Definition gea_set_ratio (ratio : T) (d : gea_def T) : res (gea_def T) :=
    b2_assert (b2_is_valid ratio) ;;;
    Ok (GeaDef (ge_reva d) (ge_revb d) (ge_la d) (ge_lb d) (ge_lc d) (ge_ld d) (ge_axc d) (ge_axd d) (ge_refa d) (ge_refb d) (ge_const d) ratio).
  (* Pul:151-154, Mou:108-110; b2_joint.rs:259 does nothing for the others *)
  Definition shift_origin (o : vec2 T) (k : jkind T) : jkind T :=
    match k with
    | JMouse d i f => JMouse (MouDef (ms_lb d) (vsub (ms_target d) o) (ms_stiff d) (ms_damp d) (ms_force d)) i f
    | JPulley d i f => JPulley (PulDef (vsub (pu_ga d) o) (vsub (pu_gb d) o) (pu_la d) (pu_lb d) (pu_const d) (pu_ratio d)) i f
    | _ => k
    end.

  (** ** private/dynamics/b2_joint.rs:22-69 *)
  Definition shared_mass (ma mb : T) : T :=
    if (ma >? #0) && (mb >? #0) then ma * mb / (ma + mb) else if ma >? #0 then ma else mb.
  Definition linear_stiffness (hertz ratio : T) (a b : body T) : T * T :=
    let mass := shared_mass (get_mass a) (get_mass b) in
    let omega := #2 * B2_PI * hertz in
    (mass * omega * omega, #2 * mass * ratio * omega).
  Definition angular_stiffness (hertz ratio : T) (a b : body T) : T * T :=
    let i := shared_mass (get_inertia a) (get_inertia b) in
    let omega := #2 * B2_PI * hertz in
    (i * omega * omega, #2 * i * ratio * omega).
End JointDef.
