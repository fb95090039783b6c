(** Fresh joints. *)
From Coq Require Import List ZArith Reals Lra Lia Bool Arith.
From Flocq Require Import Core.
From Verif Require Import Base Num NumLaws Math RTac ListFacts Manifold Filter DynModel SolverModel IslandModel SolverSpec JointModel JointSpec JointDefModel JointDefSpec.
Import ListNotations.
Local Open Scope R_scope.

Lemma sc1 a : sin a * sin a + cos a * cos a = 1.
Proof. generalize (sin2_cos2 a). unfold Rsqr. auto. Qed.
Lemma unit_c (s c x y : R) : s * s + c * c = 1 -> c * (c * x + s * y) - s * (- s * x + c * y) = x.
Proof. intros H. transitivity ((s * s + c * c) * x); [ring|rewrite H; ring]. Qed.
Lemma unit_s (s c x y : R) : s * s + c * c = 1 -> s * (c * x + s * y) + c * (- s * x + c * y) = y.
Proof. intros H. transitivity ((s * s + c * c) * y); [ring|rewrite H; ring]. Qed.

Lemma world_local b p : in_place b -> get_world_point (get_local_point p b) b = p.
Proof.
  intros H. unfold get_world_point, get_local_point, in_place in *. cbv zeta in H. rewrite H. apply vec2_ext; rmathc; rewrite ?unit_c, ?unit_s by apply sc1; ring.
Qed.
Lemma world_local_vec b v : in_place b -> rotv (rot_of (sw_a (b_sweep b))) (get_local_vector v b) = v.
Proof.
  intros H. unfold get_local_vector, in_place in *. cbv zeta in H. rewrite H. unfold rot_of. apply vec2_ext; rmathc; rewrite ?unit_c, ?unit_s by apply sc1; ring.
Qed.
(* the arm to a point of the world *)
Lemma arm_world b p : in_place b -> arm_of (rot_of (sw_a (b_sweep b))) (get_local_point p b) (sw_local_center (b_sweep b)) = vsub p (sw_c (b_sweep b)).
Proof.
  intros H. unfold arm_of, get_local_point, in_place, turned, rot_of in *. cbv zeta in H. rewrite H. cbn [vx vy nsin ncos R_Trig].
  set (s := b_sweep b). generalize (sc1 (sw_a s)). generalize (sin (sw_a s)) (cos (sw_a s)). intros sn cs E.
  apply vec2_ext; rmathc.
  - transitivity ((sn * sn + cs * cs) * (vx p - vx (sw_c s)) + (cs * (cs * (cs * vx (sw_local_center s) - sn * vy (sw_local_center s)) + sn * (sn * vx (sw_local_center s) + cs * vy (sw_local_center s))) - sn * (- sn * (cs * vx (sw_local_center s) - sn * vy (sw_local_center s)) + cs * (sn * vx (sw_local_center s) + cs * vy (sw_local_center s)))) - (cs * vx (sw_local_center s) - sn * vy (sw_local_center s))); [ring|].
    rewrite unit_c by exact E. rewrite E. ring.
  - transitivity ((sn * sn + cs * cs) * (vy p - vy (sw_c s)) + (sn * (cs * (cs * vx (sw_local_center s) - sn * vy (sw_local_center s)) + sn * (sn * vx (sw_local_center s) + cs * vy (sw_local_center s))) + cs * (- sn * (cs * vx (sw_local_center s) - sn * vy (sw_local_center s)) + cs * (sn * vx (sw_local_center s) + cs * vy (sw_local_center s)))) - (sn * vx (sw_local_center s) + cs * vy (sw_local_center s))); [ring|].
    rewrite unit_s by exact E. rewrite E. ring.
Qed.
(* the arm to the origin of the body *)
Lemma arm_origin b : in_place b -> rotv (rot_of (sw_a (b_sweep b))) (vneg (sw_local_center (b_sweep b))) = vsub (xp (b_xf b)) (sw_c (b_sweep b)).
Proof. intros H. unfold in_place, turned in H. cbv zeta in H. rewrite H. unfold rot_of. apply vec2_ext; rmathc; ring. Qed.

Lemma fresh_anchors a b c d k p q : in_place a -> in_place b -> fresh a b c d k p q -> get_anchor_a k a = p /\ get_anchor_b k b = q.
Proof.
  intros A B F. destruct F; cbn [get_anchor_a get_anchor_b rev_new rev_initialize dis_new dis_initialize wel_new wel_initialize whe_new whe_initialize fri_new fri_initialize mot_new mot_initialize mou_new rv_la rv_lb di_la di_lb we_la we_lb wh_la wh_lb fr_la fr_lb ms_target ms_lb];
    rewrite ?world_local by assumption; auto.
  - unfold pri_new in H. destruct (nle _ _) in H; [|discriminate]. injection H as <-. cbn [get_anchor_a get_anchor_b pri_initialize pr_la pr_lb]. rewrite !world_local by assumption. auto.
  - split; [reflexivity|]. apply (world_local b). assumption.
  - unfold pul_initialize in H. destruct (nlt _ _) in H; [|discriminate]. injection H as <-. unfold pul_new in H0. destruct (negb _) in H0; [|discriminate]. injection H0 as <-. cbn. rewrite !world_local by assumption. auto.
  - unfold gea_new in H. apply bind_ok in H. destruct H as ([[[[[reva lc] la] axc] refa] xa] & H1 & H). apply bind_ok in H. destruct H as ([[[[[revb ld] lb] axd] refb] xb] & H2 & H). injection H as <-. cbn [get_anchor_a get_anchor_b ge_la ge_lb].
    split.
    + destruct k1; try discriminate H1; unfold gear_half in H1; destruct (b_type a); try discriminate H1; cbn [b2_assert bind] in H1; injection H1; intros; subst; reflexivity.
    + destruct k2; try discriminate H2; unfold gear_half in H2; destruct (b_type b); try discriminate H2; cbn [b2_assert bind] in H2; injection H2; intros; subst; reflexivity.
Qed.

(** ** nothing times something *)
Notation vz := (V2 0 0 : vec2 R).
Notation sz := (Pair (V2 0 0) 0 (V2 0 0) 0 : pair R).
Lemma vzero_R : (vzero : vec2 R) = vz. Proof. reflexivity. Qed.
Lemma m22_solve_0 (k : mat22 R) : m22_solve k vz = vz.
Proof. unfold m22_solve. apply vec2_ext; rmathc; ring. Qed.
Lemma solve22_0 (k : mat33 R) : solve22 k vz = vz.
Proof. unfold solve22. apply vec2_ext; rmathc; ring. Qed.
Lemma solve33_0 (k : mat33 R) : solve33 k (V3 0 0 0) = V3 0 0 0.
Proof. unfold solve33. apply vec3_ext; rmathc; ring. Qed.
Lemma b2_mul_0 (m : mat22 R) : b2_mul m vz = vz.
Proof. apply vec2_ext; rmathc; ring. Qed.
Lemma b2_mul22_0 (m : mat33 R) : b2_mul22 m vz = vz.
Proof. apply vec2_ext; rmathc; ring. Qed.
Lemma b2_mul33_0 (m : mat33 R) : b2_mul_mat33 m (V3 0 0 0) = V3 0 0 0.
Proof. apply vec3_ext; rmathc; ring. Qed.
Lemma v3neg_0 : v3neg (V3 0 0 0 : vec3 R) = V3 0 0 0.
Proof. apply vec3_ext; rmathc; ring. Qed.
Lemma v3add_0 : v3add (V3 0 0 0 : vec3 R) (V3 0 0 0) = V3 0 0 0.
Proof. apply vec3_ext; rmathc; ring. Qed.
Lemma vneg_0 : vneg vz = vz. Proof. apply vec2_ext; rmathc; ring. Qed.
Lemma vadd_0 : vadd vz vz = vz. Proof. apply vec2_ext; rmathc; ring. Qed.
Lemma vsub_0 : vsub vz vz = vz. Proof. apply vec2_ext; rmathc; ring. Qed.
Lemma vscale_0 s : vscale s vz = vz. Proof. apply vec2_ext; rmathc; ring. Qed.
Lemma vscale_00 v : vscale 0 v = (vz : vec2 R). Proof. apply vec2_ext; rmathc; ring. Qed.
Lemma vmuls_0 s : vmuls vz s = vz. Proof. apply vec2_ext; rmathc; ring. Qed.
Lemma cross_0 r : b2_cross r vz = 0. Proof. rmathc; ring. Qed.
Lemma dot_0 r : b2_dot r vz = 0. Proof. rmathc; ring. Qed.
Lemma dot_00 r : b2_dot vz r = 0. Proof. rmathc; ring. Qed.
Lemma anchor_vel_0 ra rb : anchor_vel ra rb sz = vz.
Proof. unfold anchor_vel. apply vec2_ext; rmathc; cbn; ring. Qed.
Lemma axis_vel_0 u a1 a2 : axis_vel u a1 a2 sz = 0.
Proof. unfold axis_vel. rmathc; cbn; ring. Qed.
Lemma axis_vel_up_0 u a1 a2 : axis_vel_up u a1 a2 sz = 0.
Proof. unfold axis_vel_up. rmathc; cbn; ring. Qed.
Lemma jpush_0 c : jpush c vz 0 0 sz = sz.
Proof. unfold jpush. cbn. f_equal; try (apply vec2_ext); rmathc; ring. Qed.
Lemma jpull_0 c : jpull c vz 0 0 sz = sz.
Proof. unfold jpull. cbn. f_equal; try (apply vec2_ext); rmathc; ring. Qed.
Lemma jspin_0 c : jspin c 0 sz = sz.
Proof. unfold jspin. cbn. f_equal; rmathc; ring. Qed.
Lemma junspin_0 c : junspin c 0 sz = sz.
Proof. unfold junspin. cbn. f_equal; rmathc; ring. Qed.
Lemma jpoint_0 c ra rb : jpoint c ra rb vz sz = sz.
Proof. unfold jpoint. rewrite !cross_0. apply jpush_0. Qed.
Lemma jmove_0 c (pp : pos R * pos R) : jmove c vz 0 0 pp = pp.
Proof. destruct pp as [[[cax cay] aa] [[cbx cby] ab]]. unfold jmove. cbn [fst snd p_c p_a]. f_equal; f_equal; try apply vec2_ext; rmathc; ring. Qed.
Lemma limit_0 m c inv : 0 <= m -> 0 <= c -> 0 <= inv -> limit_impulse m 0 c inv 0 = (0, 0 : R).
Proof.
  intros M C I. unfold limit_impulse. rewrite !b2_max_R. rops. rewrite (Rmax_left c 0) by lra. pose proof (Rmult_le_pos _ _ C I). pose proof (Rmult_le_pos _ _ M H).
  rewrite Rmax_right by nra. f_equal. lra.
Qed.
Lemma motor_0 m : 0 <= m -> motor_impulse 0 m 0 = (0, 0 : R).
Proof. intros M. unfold motor_impulse, b2_clamp. rewrite b2_max_R, b2_min_R. rops. rewrite Rplus_0_l. rewrite Rmin_left by lra. rewrite Rmax_right by lra. f_equal. lra. Qed.
Lemma cap_0 m : cap_impulse m vz = vz.
Proof. unfold cap_impulse. rmathc. rcase; [|reflexivity]. exfalso. generalize (Rle_0_sqr m). unfold Rsqr. intros. lra. Qed.
Lemma zset_same {A} (l : list A) i x : zget l i = Ok x -> zset l i x = Ok l.
Proof.
  unfold zget, zset. destruct (i <? 0)%Z; [discriminate|]. unfold get, set. generalize (Z.to_nat i). intros n. destruct (nth_error l n) eqn:E; [|discriminate]. intros H. injection H as ->.
  assert (L : (n < length l)%nat) by (apply nth_error_Some; congruence). apply Nat.ltb_lt in L. rewrite L. f_equal. clear L. revert l E. induction n; destruct l; cbn; intros; try discriminate; [congruence|]. f_equal. auto.
Qed.

(** ** joints that do nothing *)
Notation rest := (Vel (V2 0 0) 0 : vel R).
Definition quiet (k : jkind R) : Prop :=
  match k with
  | JRevolute d i f => i = RevImp vz 0 0 0 /\ 0 <= rv_axial f /\ rv_angle f = 0 /\ around_0 (rv_limit d) (rv_lower d) (rv_upper d) /\ (rv_motor d = true -> rv_speed d = 0) /\ 0 <= rv_torque d
  | JPrismatic d i f => i = PriImp vz 0 0 0 /\ 0 <= pr_axial f /\ (pr_limit d = true -> pr_trans f = 0) /\ around_0 (pr_limit d) (pr_lower d) (pr_upper d) /\ (pr_motor d = true -> pr_speed d = 0) /\ 0 <= pr_force d
  | JDistance d i f => i = DisImp 0 0 0 /\ di_min d = di_max d
  | JWeld d i f => i = V3 0 0 0 /\ we_bias f = 0
  | JWheel d i f => i = WheImp 0 0 0 0 0 /\ 0 <= wh_amass f /\ wh_bias f = 0 /\ (wh_limit d = true -> wh_trans f = 0) /\ around_0 (wh_limit d) (wh_lower d) (wh_upper d) /\ wh_mmass f * wh_speed d = 0 /\ 0 <= wh_torque d
  | JFriction d i f => i = LinImp vz 0 /\ 0 <= fr_force d /\ 0 <= fr_torque d
  | JMotor d i f => i = LinImp vz 0 /\ 0 <= mo_force d /\ 0 <= mo_torque d /\ mo_lerr f = vz /\ mo_aerr f = 0
  | JMouse d i f => i = vz /\ ms_c f = vz
  | JPulley d i f => i = 0
  | JGear d i f => i = 0
  end.
Lemma on_pair_rest {A} (i : A) c f vels : zget vels (jc_a c) = Ok rest -> zget vels (jc_b c) = Ok rest -> f sz = (i, sz) -> on_pair c f vels = Ok (i, vels).
Proof.
  intros Va Vb F. unfold on_pair. rewrite Va, Vb. cbn [bind]. unfold vpair. cbn [v_v v_w]. rewrite F. unfold vel_a, vel_b. cbn [s_va s_wa s_vb s_wb].
  rewrite (zset_same _ _ _ Va). cbn [bind]. rewrite (zset_same _ _ _ Vb). reflexivity.
Qed.

Section Vel.
  Variables (step : tstep R) (c c2 : jcom R).
  Hypotheses (DT : 0 <= ts_dt step) (INV : 0 <= ts_inv_dt step).
  Lemma quiet_rev d i f : quiet (JRevolute d i f) -> rev_solve step d c f (i, sz) = (i, sz).
  Proof.
    intros (-> & AX & AN & LI & MO & TO). unfold rev_solve. cbv zeta.
    assert (M : rev_motor step d c f (RevImp vz 0 0 0, sz) = (RevImp vz 0 0 0, sz) \/ rv_motor d = false).
    { destruct (rv_motor d) eqn:E; [left|now right]. unfold rev_motor. cbn [s_wb s_wa rv_im rv_i rv_il rv_iu]. rewrite (MO eq_refl). rops. replace (- rv_axial f * (0 - 0 - 0)) with 0 by ring. rewrite motor_0 by (apply Rmult_le_pos; assumption). rewrite jspin_0. reflexivity. }
    assert (L : rev_limits step d c f (RevImp vz 0 0 0, sz) = (RevImp vz 0 0 0, sz) \/ rv_limit d = false).
    { destruct (rv_limit d) eqn:E; [left|now right]. specialize (LI eq_refl). unfold rev_limits. cbn [s_wb s_wa rv_im rv_i rv_il rv_iu]. rewrite AN. rops. replace (0 - 0) with 0 by ring. rewrite limit_0 by lra. rewrite jspin_0. cbn [s_wb s_wa]. rops. replace (0 - 0) with 0 by ring. rewrite limit_0 by lra. rewrite junspin_0. reflexivity. }
    assert (P : rev_point c f (RevImp vz 0 0 0, sz) = (RevImp vz 0 0 0, sz)).
    { unfold rev_point. rewrite anchor_vel_0, vneg_0, m22_solve_0, jpoint_0. cbn [rv_i rv_im rv_il rv_iu]. rewrite vadd_0. reflexivity. }
    destruct M as [M|M], L as [L|L]; rewrite ?M, ?L; cbn [andb]; repeat match goal with |- context [if ?b then _ else _] => destruct b end; rewrite ?M, ?L; exact P.
  Qed.
  Lemma quiet_pri d i f : quiet (JPrismatic d i f) -> pri_solve step d c f (i, sz) = (i, sz).
  Proof.
    intros (-> & AX & TR & LI & MO & TO). unfold pri_solve. cbv zeta.
    assert (M : pri_motor step d c f (PriImp vz 0 0 0, sz) = (PriImp vz 0 0 0, sz) \/ pr_motor d = false).
    { destruct (pr_motor d) eqn:E; [left|now right]. unfold pri_motor. rewrite axis_vel_0, (MO eq_refl). cbn [pr_im pr_i pr_il pr_iu]. rops. replace (pr_axial f * (0 - 0)) with 0 by ring. rewrite motor_0 by (apply Rmult_le_pos; assumption). rewrite vscale_00, !Rmult_0_l, jpush_0. reflexivity. }
    assert (L : pri_limits step d c f (PriImp vz 0 0 0, sz) = (PriImp vz 0 0 0, sz) \/ pr_limit d = false).
    { destruct (pr_limit d) eqn:E; [left|now right]. specialize (LI eq_refl). specialize (TR eq_refl). unfold pri_limits. rewrite axis_vel_0. cbn [pr_im pr_i pr_il pr_iu]. rewrite TR. rops. rewrite limit_0 by lra. rewrite vscale_00, !Rmult_0_l, jpush_0, axis_vel_up_0. rewrite limit_0 by lra. rewrite vscale_00, !Rmult_0_l, jpull_0. reflexivity. }
    assert (P : pri_block c f (PriImp vz 0 0 0, sz) = (PriImp vz 0 0 0, sz)).
    { unfold pri_block. rewrite axis_vel_0. cbn [s_wb s_wa]. rops. replace (0 - 0) with 0 by ring. rewrite vneg_0, m22_solve_0. cbn [vx vy pr_i pr_im pr_il pr_iu]. rewrite vadd_0, vscale_00, !Rmult_0_l, !Rplus_0_l, jpush_0. reflexivity. }
    destruct M as [M|M], L as [L|L]; rewrite ?M, ?L; repeat match goal with |- context [if ?b then _ else _] => destruct b end; rewrite ?M, ?L; exact P.
  Qed.
  Lemma quiet_dis d i f : quiet (JDistance d i f) -> dis_solve step d c f (i, sz) = (i, sz).
  Proof.
    intros (-> & E). unfold dis_solve. rewrite E. rops. rewrite Rlt_bool_false by lra. unfold dis_rigid.
    replace (dis_vel f sz) with 0 by (unfold dis_vel; rmathc; cbn; ring). cbn [di_i di_il di_iu]. rops. rewrite Rmult_0_r, vscale_00, jpoint_0. f_equal. f_equal. ring.
  Qed.
  Lemma quiet_wel d i f : quiet (JWeld d i f) -> wel_solve d c f (i, sz) = (i, sz).
  Proof.
    intros (-> & E). unfold wel_solve. destruct (nlt _ _).
    - unfold wel_soft. rewrite E. cbn [s_wb s_wa v3x v3y v3z]. rops. replace (- v3z (m3z (we_mass f)) * (0 - 0 + 0 + we_gamma f * 0)) with 0 by ring.
      rewrite jspin_0, anchor_vel_0, b2_mul22_0, vneg_0, jpoint_0. cbn [vx vy]. f_equal. apply vec3_ext; cbn; ring.
    - unfold wel_rigid. rewrite anchor_vel_0. cbn [s_wb s_wa vx vy]. rops. replace (0 - 0) with 0 by ring. rewrite b2_mul33_0, v3neg_0, v3add_0. cbn [v3x v3y v3z]. rewrite !cross_0, Rplus_0_l, jpush_0. reflexivity.
  Qed.
  Lemma quiet_whe d i f : quiet (JWheel d i f) -> whe_solve step d c f (i, sz) = (i, sz).
  Proof.
    intros (-> & AX & BI & TR & LI & MO & TO). unfold whe_solve. cbv zeta.
    assert (S : whe_spring c f (WheImp 0 0 0 0 0, sz) = (WheImp 0 0 0 0 0, sz)).
    { unfold whe_spring. rewrite axis_vel_0, BI. cbn [wh_i wh_im wh_is wh_il wh_iu]. rops. replace (- wh_smass f * (0 + 0 + wh_gamma f * 0)) with 0 by ring. rewrite vscale_00, !Rmult_0_l, jpush_0. f_equal. f_equal. ring. }
    assert (M : whe_motor step d c f (WheImp 0 0 0 0 0, sz) = (WheImp 0 0 0 0 0, sz)).
    { unfold whe_motor. cbn [s_wb s_wa wh_i wh_im wh_is wh_il wh_iu]. rops. replace (- wh_mmass f * (0 - 0 - wh_speed d)) with (wh_mmass f * wh_speed d) by ring. rewrite MO. rewrite motor_0 by (apply Rmult_le_pos; assumption). rewrite jspin_0. reflexivity. }
    rewrite S, M.
    assert (L : whe_limits step d c f (WheImp 0 0 0 0 0, sz) = (WheImp 0 0 0 0 0, sz) \/ wh_limit d = false).
    { destruct (wh_limit d) eqn:E; [left|now right]. specialize (LI eq_refl). specialize (TR eq_refl). unfold whe_limits. rewrite axis_vel_0. cbn [wh_i wh_im wh_is wh_il wh_iu]. rewrite TR. rops. rewrite limit_0 by lra. rewrite vscale_00, !Rmult_0_l, jpush_0, axis_vel_up_0. rewrite limit_0 by lra. rewrite vscale_00, !Rmult_0_l, jpull_0. reflexivity. }
    assert (P : whe_line c f (WheImp 0 0 0 0 0, sz) = (WheImp 0 0 0 0 0, sz)).
    { unfold whe_line. rewrite axis_vel_0. cbn [wh_i wh_im wh_is wh_il wh_iu]. rops. rewrite Rmult_0_r, vscale_00, !Rmult_0_l, jpush_0, Rplus_0_l. reflexivity. }
    destruct L as [L|L]; rewrite L; repeat match goal with |- context [if ?b then _ else _] => destruct b end; exact P.
  Qed.
  Lemma quiet_fri d i f : quiet (JFriction d i f) -> fri_solve step d c f (i, sz) = (i, sz).
  Proof.
    intros (-> & FO & TO). unfold fri_solve. cbn [s_wb s_wa li_l li_a]. rops. replace (- fr_amass f * (0 - 0)) with 0 by ring. rewrite motor_0 by (apply Rmult_le_pos; assumption).
    rewrite jspin_0, anchor_vel_0, b2_mul_0, vneg_0, vadd_0, cap_0, vsub_0, jpoint_0. reflexivity.
  Qed.
  Lemma quiet_mot d i f : quiet (JMotor d i f) -> mot_solve step d c f (i, sz) = (i, sz).
  Proof.
    intros (-> & FO & TO & LE & AE). unfold mot_solve. rewrite LE, AE. cbn [s_wb s_wa li_l li_a]. rops. replace (- mo_amass f * (0 - 0 + ts_inv_dt step * mo_factor d * 0)) with 0 by ring. rewrite motor_0 by (apply Rmult_le_pos; assumption).
    rewrite jspin_0, anchor_vel_0, vscale_0, vadd_0, b2_mul_0, vneg_0, vadd_0, cap_0, vsub_0, jpoint_0. reflexivity.
  Qed.
  Lemma quiet_mou d i f : quiet (JMouse d i f) -> mou_solve step d c f (i, rest) = (i, rest).
  Proof.
    intros (-> & E). unfold mou_solve. rewrite E. cbn [v_v v_w]. replace (vadd vz (b2_cross_sv 0 (ms_rb f))) with vz by (apply vec2_ext; rmathc; ring).
    rewrite vscale_0, !vadd_0, vneg_0, b2_mul_0, vadd_0. assert (V : vlen2 vz = 0) by (rmathc; ring). rewrite V. rops. rewrite Rlt_bool_false.
    2: { generalize (Rle_0_sqr (ts_dt step * ms_force d)). unfold Rsqr. lra. }
    rewrite vsub_0. f_equal. unfold kick_b. rewrite cross_0, vscale_0. cbn [v_v v_w]. rewrite vadd_0. f_equal. rops. ring.
  Qed.
  Lemma pul_kick_0 ra rb : pul_kick c ra rb vz vz sz = sz.
  Proof. unfold pul_kick. rewrite !cross_0, !vscale_0. cbn. f_equal; try (apply vec2_ext); rmathc; ring. Qed.
  Lemma quiet_pul d i f : quiet (JPulley d i f) -> pul_solve d c f (i, sz) = (i, sz).
  Proof.
    intros ->. unfold pul_solve. assert (V : pul_vel d f sz = 0) by (unfold pul_vel; rmathc; cbn; ring). rewrite V. rops. rewrite !Rmult_0_r. rewrite Ropp_0, !vscale_00, pul_kick_0, Rplus_0_l. reflexivity.
  Qed.
  Lemma gea_kick_0 f : gea_kick c c2 f 0 sz sz = (sz, sz).
  Proof. unfold gea_kick. cbn [s_va s_vb s_wa s_wb]. rops. rewrite !Rmult_0_r, !Rmult_0_l, !vscale_00, vadd_0, vsub_0. f_equal; f_equal; ring. Qed.
  Lemma quiet_gea d i f : quiet (JGear d i f) -> gea_solve c c2 f i sz sz = (i, (sz, sz)).
  Proof.
    intros ->. unfold gea_solve. assert (V : gea_vel f sz sz = 0) by (unfold gea_vel; rmathc; cbn; ring). rewrite V. rops. rewrite Rmult_0_r, gea_kick_0, Rplus_0_l. reflexivity.
  Qed.
  Lemma quiet_vel k vels : quiet k -> zget vels (jc_a c) = Ok rest -> zget vels (jc_b c) = Ok rest -> zget vels (jc_a c2) = Ok rest -> zget vels (jc_b c2) = Ok rest ->
    kind_vel step k c c2 vels = Ok (k, vels).
  Proof.
    intros Q Va Vb Vc Vd. destruct k; unfold kind_vel.
    1: rewrite (on_pair_rest i) by (try assumption; apply quiet_rev; assumption); reflexivity.
    1: rewrite (on_pair_rest i) by (try assumption; apply quiet_pri; assumption); reflexivity.
    1: rewrite (on_pair_rest i) by (try assumption; apply quiet_dis; assumption); reflexivity.
    1: rewrite (on_pair_rest i) by (try assumption; apply quiet_wel; assumption); reflexivity.
    1: rewrite (on_pair_rest i) by (try assumption; apply quiet_whe; assumption); reflexivity.
    1: rewrite (on_pair_rest i) by (try assumption; apply quiet_fri; assumption); reflexivity.
    1: rewrite (on_pair_rest i) by (try assumption; apply quiet_mot; assumption); reflexivity.
    - unfold on_b. rewrite Vb. cbn [bind]. rewrite (quiet_mou d i f Q). rewrite (zset_same _ _ _ Vb). reflexivity.
    - rewrite (on_pair_rest i) by (try assumption; apply quiet_pul; assumption); reflexivity.
    - unfold on_four. rewrite Va, Vb, Vc, Vd. cbn [bind]. unfold vpair. cbn [v_v v_w]. rewrite (quiet_gea d i f Q). unfold vel_a, vel_b. cbn [s_va s_wa s_vb s_wb].
      rewrite (zset_same _ _ _ Va). cbn [bind]. rewrite (zset_same _ _ _ Vb). cbn [bind]. rewrite (zset_same _ _ _ Vc). cbn [bind]. rewrite (zset_same _ _ _ Vd). reflexivity.
  Qed.
End Vel.
