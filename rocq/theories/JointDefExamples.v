(** Examples and counterexamples for Prop_JointDef. *)
From Coq Require Import List ZArith Reals Lra Lia Bool Arith.
From Flocq Require Import Core.
From Verif Require Import Base Num NumLaws Math RTac ListFacts Manifold Filter DynModel SolverModel IslandModel SolverSpec JointModel JointSpec JointDefModel JointDefSpec JointProofs JointReal JointHeld JointReact JointSpring JointRope JointSet JointTotal.
Import ListNotations.
Local Open Scope R_scope.

(* a body with its center at p *)
Definition stone (i : Z) (p : vec2 R) (a im ii : R) : body R :=
  Body DynamicBody (BFlags true true true false false true false) i (Xf p (Rot (sin a) (cos a))) (Sweep (V2 0 0) p p a a 0) (V2 0 0) 0 (V2 0 0) 0 [] 0 [] [] (/ im) im (/ ii) ii 0 0 1 0.
Lemma stone_in_place i p a im ii : in_place (stone i p a im ii).
Proof. unfold in_place, stone, turned. cbn. f_equal. destruct p. apply vec2_ext; cbn; ring. Qed.

Lemma one_joint_1 step k a b c d poss vels k1 v1 k2 v2 pa pb va vb va' vb' : b_island_index a <> b_island_index b -> zget poss (b_island_index a) = Ok pa -> zget poss (b_island_index b) = Ok pb ->
  zget vels (b_island_index a) = Ok va -> zget vels (b_island_index b) = Ok vb ->
  kind_init step k (com_of a b) (com_of c d) poss vels = Ok (k1, v1) -> kind_vel step k1 (com_of a b) (com_of c d) v1 = Ok (k2, v2) ->
  zget v2 (b_island_index a) = Ok va' -> zget v2 (b_island_index b) = Ok vb' -> one_joint step 1 k a b pa pb va vb k2 va' vb'.
Proof.
  intros N Pa Pb Va Vb I1 S1 Va' Vb'. exists c, d, (com_of a b), (com_of c d), poss, vels, (JIn (Jnt k2 (com_of a b) (com_of c d)) a b c d), v2. repeat (split; [assumption|]). split; [|split; [reflexivity|split; assumption]].
  unfold joint_phase. cbn [each_item fst snd]. unfold joint_solver at 1. cbn [js_init ji_joint ji_a ji_b ji_c ji_d]. unfold joint_init. cbn [j_kind]. rewrite I1. cbn [bind]. unfold for_range. cbn [Nat.sub for_from fst snd each_item]. unfold joint_solver. cbn [js_vel with_joint ji_joint ji_a ji_b ji_c ji_d]. unfold joint_vel. cbn [j_kind j_com j_com2]. rewrite S1. reflexivity.
Qed.

(** C76, C78: a distance joint without warm starting *)
Definition rs_a : body R := stone 0 (V2 0 0) 0 0 0.
Definition rs_b : body R := stone 1 (V2 2 0) 0 1 0.
Definition rs_d : dis_def R := DisDef (V2 0 0) (V2 0 0) 1 (1 / 2) 2 0 0.
Definition rs_cold : tstep R := TStep 1 1 1 1 1 false.
Definition rs_f : dis_fr R := DisFr (V2 1 0) (V2 0 0) (V2 0 0) 2 1 1 0 0.
Definition rs_pa : pos R := Pos (V2 0 0) 0.
Definition rs_pb : pos R := Pos (V2 2 0) 0.
Lemma rs_size : size (V2 2 0) = 2.
Proof. unfold size. cbn [vx vy]. replace (2 * 2 + 0 * 0) with (2 * 2) by ring. apply sqrt_square. lra. Qed.
Lemma rs_frame step : dis_frame step rs_d (com_of rs_a rs_b) rs_pa rs_pb = rs_f.
Proof.
  unfold dis_frame. cbv zeta. cbn [rs_d di_la di_lb di_stiff com_of jc_lca jc_lcb rs_a rs_b stone b_sweep sw_local_center rs_pa rs_pb p_a p_c].
  set (z := arm_of _ _ _). assert (Z : z = V2 0 0) by (unfold z, arm_of; apply vec2_ext; rmathc; ring). rewrite Z. clear Z z. set (u := vsub _ _). assert (U : u = V2 2 0) by (unfold u; apply vec2_ext; rmathc; ring). rewrite U. clear U u.
  change (vlen (V2 2 0)) with (size (V2 2 0)). rewrite rs_size. rops. rewrite (Rlt_bool_true B2_LINEAR_SLOP 2) by (unfold B2_LINEAR_SLOP, B2_LENGTH_UNITS_PER_METER, nlit; cbn; lra). rewrite (Rlt_bool_false 0 0) by lra. cbn [andb]. cbn [jc_ma jc_mb jc_ia jc_ib b_inv_mass b_inv_i].
  set (n := vmuls _ _). assert (N : n = V2 1 0) by (unfold n; apply vec2_ext; rmathc; field). rewrite N. unfold rs_f. set (m := inv_or0 _). assert (M : m = 1).
  { unfold m. transitivity (inv_or0 1); [f_equal; unfold b2_cross; cbn; ring|rewrite inv_or0_R by lra; apply Rinv_1]. }
  rewrite M. reflexivity.
Qed.
Definition rs_k (iu : R) : jkind R := JDistance rs_d (DisImp 0 0 iu) rs_f.
Definition rs_v (x : R) : vel R := Vel (V2 x 0) 0.
Lemma on_pair_01 {A} (c : jcom R) (f : pair R -> A * pair R) va vb : jc_a c = 0%Z -> jc_b c = 1%Z -> on_pair c f [va; vb] = Ok (fst (f (vpair va vb)), [vel_a (snd (f (vpair va vb))); vel_b (snd (f (vpair va vb)))]).
Proof. intros Ja Jb. unfold on_pair. rewrite Ja, Jb. change (zget [va; vb] 0) with (Ok va). change (zget [va; vb] 1) with (Ok vb). cbn [bind]. destruct (f (vpair va vb)) as [x s]. reflexivity. Qed.
Lemma rs_init iu v : kind_init rs_cold (rs_k iu) (com_of rs_a rs_b) (com_of rs_a rs_b) [rs_pa; rs_pb] [rs_v 0; rs_v v] = Ok (rs_k iu, [rs_v 0; rs_v v]).
Proof.
  unfold rs_k. cbn [kind_init]. change (zget [rs_pa; rs_pb] (jc_a (com_of rs_a rs_b))) with (Ok rs_pa). change (zget [rs_pa; rs_pb] (jc_b (com_of rs_a rs_b))) with (Ok rs_pb). cbn [bind]. rewrite rs_frame. rewrite on_pair_01 by reflexivity. cbn [bind].
  unfold dis_warm. cbn [rs_cold ts_warm fst snd]. cbn [rs_f di_cur]. rops. rewrite (Rlt_bool_true B2_LINEAR_SLOP 2) by (unfold B2_LINEAR_SLOP, B2_LENGTH_UNITS_PER_METER, nlit; cbn; lra). reflexivity.
Qed.
Lemma rs_run iu v iu' : - (3 / 2) <= v -> iu' = Rmax 0 (iu + v) -> one_joint rs_cold 1 (rs_k iu) rs_a rs_b rs_pa rs_pb (rs_v 0) (rs_v v) (rs_k iu') (rs_v 0) (rs_v (v + iu - iu')).
Proof.
  intros V I. refine (one_joint_1 rs_cold (rs_k iu) rs_a rs_b rs_a rs_b [rs_pa; rs_pb] [rs_v 0; rs_v v] (rs_k iu) [rs_v 0; rs_v v] (rs_k iu') [rs_v 0; rs_v (v + iu - iu')] _ _ _ _ _ _ _ eq_refl eq_refl eq_refl eq_refl (rs_init iu v) _ eq_refl eq_refl); [discriminate|].
  unfold rs_k. cbn [kind_vel]. rewrite on_pair_01 by reflexivity. cbn [bind]. set (is := dis_solve _ _ _ _ _).
  assert (E : is = (DisImp 0 0 iu', Pair (V2 0 0) 0 (V2 (v + iu - iu') 0) 0)).
  { unfold is, dis_solve. cbn [rs_d di_min di_max di_stiff]. rops. rewrite (Rlt_bool_true (1 / 2) 2) by lra. rewrite (Rlt_bool_false 0 0) by lra. unfold dis_limits. cbn [rs_cold ts_inv_dt rs_f di_mass di_cur di_il di_iu di_i di_min di_max di_ra di_rb di_u].
    set (v1 := dis_vel _ _). assert (V1 : v1 = v) by (unfold v1, dis_vel, vpair, rs_v; cbn; ring). rewrite V1.
    assert (D1 : dis_limit 1 v (2 - 1 / 2) 1 0 = (0, 0)).
    { unfold dis_limit. rewrite !b2_max_R. rops. rewrite (Rmax_right 0 (2 - 1 / 2)) by lra. rewrite Rmax_left by lra. f_equal. ring. }
    change (nsub 2 (di_min rs_d)) with (2 - 1 / 2). rewrite D1. set (s1 := jpoint _ _ _ _ _). assert (S1 : s1 = Pair (V2 0 0) 0 (V2 v 0) 0) by (unfold s1, jpoint, jpush, vpair, rs_v; cbn; f_equal; try apply vec2_ext; cbn; ring). rewrite S1. set (v2 := dis_vel_up _ _). assert (V2' : v2 = - v) by (unfold v2, dis_vel_up; cbn; ring). rewrite V2'.
    assert (D2 : dis_limit 1 (- v) (2 - 2) 1 iu = (iu', iu' - iu)).
    { unfold dis_limit. rewrite !b2_max_R. rops. rewrite (Rmax_left 0 (2 - 2)) by lra. rewrite I. replace (iu + - (1) * (- v + 0 * 1)) with (iu + v) by ring. reflexivity. }
    change (nsub (di_max rs_d) 2) with (2 - 2). rewrite D2.
    f_equal. unfold jpoint, jpush. cbn. f_equal; try apply vec2_ext; cbn; ring. }
  rewrite E. reflexivity.
Qed.
Lemma cold_rope : one_joint rs_cold 1 (rs_k 0) rs_a rs_b rs_pa rs_pb (rs_v 0) (rs_v 1) (rs_k 1) (rs_v 0) (rs_v 0) /\
  one_joint rs_cold 1 (rs_k 1) rs_a rs_b rs_pa rs_pb (rs_v 0) (rs_v (-1)) (rs_k 0) (rs_v 0) (rs_v 0).
Proof.
  assert (G : forall iu v iu' v', - (3 / 2) <= v -> iu' = Rmax 0 (iu + v) -> v' = v + iu - iu' -> one_joint rs_cold 1 (rs_k iu) rs_a rs_b rs_pa rs_pb (rs_v 0) (rs_v v) (rs_k iu') (rs_v 0) (rs_v v')) by (intros iu v iu' v' A B ->; apply rs_run; assumption).
  split; apply G; try lra; [rewrite Rmax_right|rewrite Rmax_left]; lra.
Qed.
Lemma cold_rope_refutes : exists step d i1 f1 i2 f2 a b pa pb va vb vb',
  ts_warm step = false /\ ts_dt step * ts_inv_dt step = 1 /\ 0 <= b_inv_mass a /\ 0 < b_inv_mass b /\ di_stiff d <= 0 /\ di_min d < di_max d /\
  (exists i0 f0 va0 vb0 va1 vb1, di_i i0 = 0 /\ di_il i0 = 0 /\ di_iu i0 = 0 /\ one_joint step 1 (JDistance d i0 f0) a b pa pb va0 vb0 (JDistance d i1 f1) va1 vb1) /\
  one_joint step 1 (JDistance d i1 f1) a b pa pb va vb (JDistance d i2 f2) va vb' /\
  di_i i2 = 0 /\ di_il i2 = 0 /\ get_reaction_force (JDistance d i2 f2) (ts_inv_dt step) = V2 0 0 /\
  let u := minus (at_arm pb (arm b pb (di_lb d))) (at_arm pa (arm a pa (di_la d))) in dot u (v_v vb) < dot u (v_v vb').
Proof.
  destruct cold_rope as [E1 E2]. exists rs_cold, rs_d, (DisImp 0 0 1), rs_f, (DisImp 0 0 0), rs_f, rs_a, rs_b, rs_pa, rs_pb, (rs_v 0), (rs_v (-1)), (rs_v 0). cbn [ts_warm ts_dt ts_inv_dt rs_cold rs_a rs_b stone b_inv_mass rs_d di_stiff di_min di_max]. repeat (split; [try reflexivity; lra|]).
  split; [exists (DisImp 0 0 0), rs_f, (rs_v 0), (rs_v 1), (rs_v 0), (rs_v 0); repeat (split; [reflexivity|]); exact E1|]. split; [exact E2|]. split; [reflexivity|]. split; [reflexivity|]. split.
  - cbn [get_reaction_force di_i di_il di_iu rs_f di_u]. apply vec2_ext; rmathc; ring.
  - unfold dot, minus, at_arm, arm, turned, rs_v, rs_pa, rs_pb. cbn. lra.
Qed.

(** C76: a pulley and a gear *)
Definition pl_b : body R := stone 1 (V2 2 0) 0 1 0.
Definition pl_d : pul_def R := PulDef (V2 0 1) (V2 2 1) (V2 0 0) (V2 0 0) 3 2.
Definition pl_f : pul_fr R := PulFr (V2 0 (-1)) (V2 0 (-1)) (V2 0 0) (V2 0 0) (1 / 4).
Definition pl_k (i : R) : jkind R := JPulley pl_d i pl_f.
Definition pl_v (y : R) : vel R := Vel (V2 0 y) 0.
Lemma pl_size : vlen (V2 0 (-1) : vec2 R) = 1.
Proof. unfold vlen. rops. cbn [vx vy]. replace (0 * 0 + -1 * -1) with (1 * 1) by ring. apply sqrt_square. lra. Qed.
Lemma pl_axis : pulley_axis (V2 0 (-1) : vec2 R) = V2 0 (-1).
Proof. unfold pulley_axis. rewrite pl_size. rops. rewrite Rlt_bool_true by (unfold B2_LINEAR_SLOP, B2_LENGTH_UNITS_PER_METER, nlit; cbn; lra). apply vec2_ext; rmathc; field. Qed.
Lemma pl_frame : pul_frame pl_d (com_of rs_a pl_b) rs_pa rs_pb = pl_f.
Proof.
  unfold pul_frame. cbv zeta. cbn [pl_d pu_la pu_lb pu_ga pu_gb pu_ratio com_of jc_lca jc_lcb rs_a pl_b stone b_sweep sw_local_center rs_pa rs_pb p_a p_c jc_ma jc_mb jc_ia jc_ib b_inv_mass b_inv_i].
  set (z := arm_of _ _ _). assert (Z : z = V2 0 0) by (unfold z, arm_of; apply vec2_ext; rmathc; ring). rewrite Z. clear Z z.
  assert (A1 : vsub (vadd (V2 0 0) (V2 0 0)) (V2 0 1) = V2 0 (-1) :> vec2 R) by (apply vec2_ext; rmathc; ring). assert (A2 : vsub (vadd (V2 2 0) (V2 0 0)) (V2 2 1) = V2 0 (-1) :> vec2 R) by (apply vec2_ext; rmathc; ring). rewrite A1, A2, pl_axis.
  unfold pl_f. set (m := inv_pos _). assert (M : m = 1 / 4). { unfold m. transitivity (inv_pos 4); [f_equal; unfold b2_cross; cbn; ring|rewrite inv_pos_R by lra; lra]. } rewrite M. reflexivity.
Qed.
Lemma pulley_run : one_joint (TStep 1 1 1 1 1 true) 1 (pl_k 0) rs_a pl_b rs_pa rs_pb (pl_v 0) (pl_v (-1)) (pl_k (1 / 2)) (pl_v 0) (pl_v 0).
Proof.
  refine (one_joint_1 _ _ rs_a pl_b rs_a pl_b [rs_pa; rs_pb] [pl_v 0; pl_v (-1)] (pl_k 0) [pl_v 0; pl_v (-1)] (pl_k (1 / 2)) [pl_v 0; pl_v 0] _ _ _ _ _ _ _ eq_refl eq_refl eq_refl eq_refl _ _ eq_refl eq_refl); [discriminate| |].
  - unfold pl_k. cbn [kind_init]. change (zget [rs_pa; rs_pb] (jc_a (com_of rs_a pl_b))) with (Ok rs_pa). change (zget [rs_pa; rs_pb] (jc_b (com_of rs_a pl_b))) with (Ok rs_pb). cbn [bind]. rewrite pl_frame. rewrite on_pair_01 by reflexivity. cbn [bind].
    assert (E : forall c, pul_warm (TStep 1 1 1 1 1 true) pl_d c pl_f 0 (vpair (pl_v 0) (pl_v (-1))) = (0, vpair (pl_v 0) (pl_v (-1)))) by (intros c; unfold pul_warm; cbn [ts_warm]; unfold pul_kick, vpair, pl_v; cbn; f_equal; [ring|]; f_equal; try apply vec2_ext; cbn; ring).
    rewrite E. reflexivity.
  - unfold pl_k. cbn [kind_vel]. rewrite on_pair_01 by reflexivity. cbn [bind]. 
    assert (E : pul_solve pl_d (com_of rs_a pl_b) pl_f (0, vpair (pl_v 0) (pl_v (-1))) = (1 / 2, vpair (pl_v 0) (pl_v 0))) by (unfold pul_solve, pul_kick, pul_vel, vpair, pl_v; cbn; f_equal; [field|]; f_equal; try apply vec2_ext; cbn; field).
    rewrite E. reflexivity.
Qed.
Lemma pulley_refutes : exists step k a b pa pb va vb k' va' vb', ts_dt step * ts_inv_dt step = 1 /\ ts_warm step = true /\ (exists d i f, k = JPulley d i f) /\ one_joint step 1 k a b pa pb va vb k' va' vb' /\
  ~ driven b (ts_dt step) (arm b pb (anchor_b k)) (get_reaction_force k' (ts_inv_dt step)) (get_reaction_torque k' (ts_inv_dt step)) vb vb'.
Proof.
  exists (TStep 1 1 1 1 1 true), (pl_k 0), rs_a, pl_b, rs_pa, rs_pb, (pl_v 0), (pl_v (-1)), (pl_k (1 / 2)), (pl_v 0), (pl_v 0). split; [cbn; ring|]. split; [reflexivity|]. split; [unfold pl_k; eauto|]. split; [exact pulley_run|].
  unfold driven. intros [E _]. apply (f_equal vy) in E. cbn in E. lra.
Qed.
Definition gr (i : Z) (ii : R) : body R := stone i (V2 0 0) 0 0 ii.
Definition gr_d : gea_def R := GeaDef true true (V2 0 0) (V2 0 0) (V2 0 0) (V2 0 0) (V2 0 0) (V2 0 0) 0 0 0 2.
Definition gr_f : gea_fr R := GeaFr (V2 0 0) (V2 0 0) 1 2 1 2 (1 / 5).
Definition gr_k (i : R) : jkind R := JGear gr_d i gr_f.
Definition gr_p : pos R := Pos (V2 0 0) 0.
Definition gr_v (w : R) : vel R := Vel (V2 0 0) w.
Lemma on_four_03 {A} (c c2 : jcom R) (f : pair R -> pair R -> A * (pair R * pair R)) va vb vc vd x sab scd : jc_a c = 0%Z -> jc_b c = 1%Z -> jc_a c2 = 2%Z -> jc_b c2 = 3%Z -> f (vpair va vb) (vpair vc vd) = (x, (sab, scd)) ->
  on_four c c2 f [va; vb; vc; vd] = Ok (x, [vel_a sab; vel_b sab; vel_a scd; vel_b scd]).
Proof. intros A1 A2 A3 A4 E. unfold on_four. rewrite A1, A2, A3, A4. change (zget [va; vb; vc; vd] 0) with (Ok va). change (zget [va; vb; vc; vd] 1) with (Ok vb). change (zget [va; vb; vc; vd] 2) with (Ok vc). change (zget [va; vb; vc; vd] 3) with (Ok vd). cbn [bind]. rewrite E. reflexivity. Qed.
Lemma gr_frame pa pb pc pd : gea_frame gr_d (com_of (gr 0 1) (gr 1 1)) (com_of (gr 2 0) (gr 3 0)) pa pb pc pd = gr_f.
Proof.
  unfold gea_frame, gea_jac. cbn [gr_d ge_reva ge_revb ge_ratio com_of jc_ia jc_ib gr stone b_inv_i]. unfold gr_f. rops. rewrite Rlt_bool_true by lra. f_equal. lra.
Qed.
Lemma gear_run : one_joint (TStep 1 1 1 1 1 true) 1 (gr_k 0) (gr 0 1) (gr 1 1) gr_p gr_p (gr_v 1) (gr_v 0) (gr_k (- (1 / 5))) (gr_v (4 / 5)) (gr_v (- (2 / 5))).
Proof.
  refine (one_joint_1 _ _ (gr 0 1) (gr 1 1) (gr 2 0) (gr 3 0) [gr_p; gr_p; gr_p; gr_p] [gr_v 1; gr_v 0; gr_v 0; gr_v 0] (gr_k 0) [gr_v 1; gr_v 0; gr_v 0; gr_v 0] (gr_k (- (1 / 5))) [gr_v (4 / 5); gr_v (- (2 / 5)); gr_v 0; gr_v 0] _ _ _ _ _ _ _ eq_refl eq_refl eq_refl eq_refl _ _ eq_refl eq_refl); [discriminate| |].
  - unfold gr_k. cbn [kind_init]. change (zget [gr_p; gr_p; gr_p; gr_p] _) with (Ok gr_p). cbn [bind]. rewrite gr_frame.
    rewrite (on_four_03 _ _ _ (gr_v 1) (gr_v 0) (gr_v 0) (gr_v 0) 0 (vpair (gr_v 1) (gr_v 0)) (vpair (gr_v 0) (gr_v 0))); try reflexivity. unfold gea_warm. cbn [ts_warm]. unfold gea_kick, vpair, gr_v. cbn. f_equal. f_equal; f_equal; try apply vec2_ext; cbn; ring.
  - unfold gr_k. cbn [kind_vel].
    rewrite (on_four_03 _ _ _ (gr_v 1) (gr_v 0) (gr_v 0) (gr_v 0) (- (1 / 5)) (vpair (gr_v (4 / 5)) (gr_v (- (2 / 5)))) (vpair (gr_v 0) (gr_v 0))); try reflexivity. unfold gea_solve, gea_vel, gea_kick, vpair, gr_v. cbn. f_equal; [field|]. f_equal; f_equal; try apply vec2_ext; cbn; field.
Qed.
Lemma gear_refutes : exists step k a b pa pb va vb k' va' vb', ts_dt step * ts_inv_dt step = 1 /\ ts_warm step = true /\ (exists d i f, k = JGear d i f) /\ one_joint step 1 k a b pa pb va vb k' va' vb' /\
  ~ driven b (ts_dt step) (arm b pb (anchor_b k)) (get_reaction_force k' (ts_inv_dt step)) (get_reaction_torque k' (ts_inv_dt step)) vb vb'.
Proof.
  exists (TStep 1 1 1 1 1 true), (gr_k 0), (gr 0 1), (gr 1 1), gr_p, gr_p, (gr_v 1), (gr_v 0), (gr_k (- (1 / 5))), (gr_v (4 / 5)), (gr_v (- (2 / 5))). split; [cbn; ring|]. split; [reflexivity|]. split; [unfold gr_k; eauto|]. split; [exact gear_run|].
  unfold driven. intros [_ E]. revert E. cbn [gr_k get_reaction_force get_reaction_torque gr_f ge_jvac ge_jwa ts_inv_dt ts_dt gr_v v_w gr stone b_inv_i]. unfold arm, turned, cross, vscale. cbn. lra.
Qed.

(** C74: a gear joint whose definition names another body than its first joint *)
Definition gh_rev : jkind R := JRevolute (RevDef (V2 0 0) (V2 0 0) 0 false 0 0 false 0 0) (RevImp (V2 0 0) 0 0 0) (RevFr (V2 0 0) (V2 0 0) (M22 (V2 0 0) (V2 0 0)) 0 0).
Definition gh_other : body R := stone 0 (V2 0 0) 1 0 1.
Definition gh_poss : list (pos R) := [Pos (V2 0 0) 1; gr_p; gr_p; gr_p; gr_p].
Lemma gear_body_refutes : exists k1 k2 ratio k a a' b c d poss, gea_new k1 k2 c a d b ratio = Ok k /\
  Forall (fun b => in_place b /\ zget poss (b_island_index b) = Ok (where_is b) /\ 0 <= b_inv_mass b /\ 0 <= b_inv_i b) [a; a'; b; c; d] /\
  joint_pos (Jnt k (com_of a b) (com_of c d)) poss = Ok (poss, true) /\
  joint_pos (Jnt k (com_of a' b) (com_of c d)) poss <> Ok (poss, true).
Proof.
  exists gh_rev, gh_rev, 2. eexists. exists (gr 4 1), gh_other, (gr 1 1), (gr 2 0), (gr 3 0), gh_poss. split; [reflexivity|]. split; [|split].
  - repeat constructor; try apply stone_in_place; cbn; lra.
  - unfold joint_pos. cbn [j_kind j_com j_com2]. change (zget gh_poss (jc_a (com_of (gr 4 1) (gr 1 1)))) with (Ok gr_p). change (zget gh_poss (jc_b (com_of (gr 4 1) (gr 1 1)))) with (Ok gr_p). change (zget gh_poss (jc_a (com_of (gr 2 0) (gr 3 0)))) with (Ok gr_p). change (zget gh_poss (jc_b (com_of (gr 2 0) (gr 3 0)))) with (Ok gr_p). cbn [bind].
    assert (E : gea_pos (GeaDef true true (V2 0 0) (V2 0 0) (V2 0 0) (V2 0 0) vzero vzero 0 0 ((get_angle (gr 4 1) - get_angle (gr 2 0) - 0) + 2 * (get_angle (gr 1 1) - get_angle (gr 3 0) - 0))%num 2) (com_of (gr 4 1) (gr 1 1)) (com_of (gr 2 0) (gr 3 0)) gr_p gr_p gr_p gr_p = ((Pair (V2 0 0) 0 (V2 0 0) 0, Pair (V2 0 0) 0 (V2 0 0) 0), true)).
    { unfold gea_pos, gea_jac. cbn [ge_reva ge_revb ge_ratio ge_refa ge_refb ge_const]. unfold gea_kick. cbn. rewrite !Rlt_bool_true by lra. f_equal. f_equal; f_equal; try apply vec2_ext; cbn; field. }
    cbn [gh_rev rv_la rv_lb rv_ref] in *. rewrite E. reflexivity.
  - unfold joint_pos. cbn [j_kind j_com j_com2]. change (zget gh_poss (jc_a (com_of gh_other (gr 1 1)))) with (Ok (Pos (V2 0 0 : vec2 R) 1)). change (zget gh_poss (jc_b (com_of gh_other (gr 1 1)))) with (Ok gr_p). change (zget gh_poss (jc_a (com_of (gr 2 0) (gr 3 0)))) with (Ok gr_p). change (zget gh_poss (jc_b (com_of (gr 2 0) (gr 3 0)))) with (Ok gr_p). cbn [bind].
    destruct (gea_pos _ _ _ _ _ _ _) as [[sab scd] okay] eqn:E. assert (W : s_wa sab = 4 / 5).
    { revert E. unfold gea_pos, gea_jac. cbn [ge_reva ge_revb ge_ratio ge_refa ge_refb ge_const]. unfold gea_kick. intros E. injection E as <- _ _. cbn. rewrite !Rlt_bool_true by lra. field. }
    cbn [jc_a jc_b com_of gh_other gr stone b_island_index gh_poss]. unfold zset. cbn [Z.ltb Z.compare]. change (Z.to_nat 0) with 0%nat. change (Z.to_nat 1) with 1%nat. change (Z.to_nat 2) with 2%nat. change (Z.to_nat 3) with 3%nat. cbn. intros X. apply (f_equal (fun r : res (list (pos R) * bool) => match r with Ok (p :: _, _) => p_a p | _ => 0 end)) in X. cbn in X. lra.
Qed.

(** one joint between two stones always runs *)
Lemma one_joint_runs step n k a b pa pb va vb : b_island_index a = 0%Z -> b_island_index b = 1%Z -> exists k' va' vb', one_joint step n k a b pa pb va vb k' va' vb'.
Proof.
  intros A B. destruct (joints_return step n [JIn (Jnt k (com_of a b) (com_of a b)) a b a b] [pa; pb] [va; vb] eq_refl) as (js & vels & E & L & M).
  - constructor; [|constructor]. assert (X : in_island 2 a /\ in_island 2 b) by (unfold in_island; rewrite A, B; cbn; lia). destruct X as [X Y]. split; [exact X|]. split; [exact Y|]. cbn. destruct k; try exact Logic.I. split; assumption.
  - destruct js as [|x' [|]]; try discriminate. destruct vels as [|va' [|vb' [|]]]; try discriminate. exists (j_kind (ji_joint x')), va', vb', a, b, (com_of a b), (com_of a b), [pa; pb], [va; vb], x', [va'; vb']. rewrite A, B. repeat (split; [try reflexivity; try discriminate; exact E|]). reflexivity.
Qed.

(** C74 *)
Definition st_a : body R := stone 0 (V2 0 0) 0 1 1.
Definition st_b : body R := stone 1 (V2 2 0) 0 1 1.
Definition st_poss : list (pos R) := [Pos (V2 0 0) 0; Pos (V2 2 0) 0].
Definition st_in (k : jkind R) : jin R := JIn (Jnt k (com_of st_a st_b) (com_of st_a st_b)) st_a st_b st_a st_b.
Definition st_rev : jkind R := rev_new (rev_initialize st_a st_b (V2 1 0) (RevDef (V2 0 0) (V2 0 0) 0 true (-1) 1 true 0 1)).
Definition st_dis : jkind R := dis_new (dis_initialize st_a st_b (V2 0 0) (V2 2 0) (DisDef (V2 0 0) (V2 0 0) 0 0 0 0 0)).
Definition st_wel : jkind R := wel_new (wel_initialize st_a st_b (V2 1 0) (WelDef (V2 0 0) (V2 0 0) 0 0 0)).
Definition st_mou : jkind R := mou_new st_b (MouDef (V2 0 0) (V2 2 1) 1 1 10).
Lemma st_set_up : Forall (set_up st_poss) (map st_in [st_rev; st_dis; st_wel; st_mou]).
Proof.
  assert (F : forall b, b = st_a \/ b = st_b -> in_place b /\ zget st_poss (b_island_index b) = Ok (where_is b) /\ 0 <= b_inv_mass b /\ 0 <= b_inv_i b).
  { intros b [-> | ->]; (split; [apply stone_in_place|split; [reflexivity|cbn; lra]]). }
  assert (G : forall k p q, fresh st_a st_b st_a st_b k p q -> undriven k p q -> set_up st_poss (st_in k)).
  { intros k p q H U. exists p, q. cbn [st_in ji_a ji_b ji_c ji_d ji_joint j_kind]. repeat (split; [apply F; auto|]). split; assumption. }
  repeat constructor.
  - apply (G _ (V2 1 0) (V2 1 0)); [apply fresh_revolute|]. unfold st_rev, rev_new, rev_initialize, undriven, around_0. cbn [rv_limit rv_lower rv_upper rv_motor rv_speed rv_torque]. repeat split; intros; try lra. exfalso. unfold B2_ANGULAR_SLOP, B2_PI, nlit in *. cbn in *. generalize PI_4. lra.
  - apply (G _ (V2 0 0) (V2 2 0)); [apply fresh_distance|]. unfold st_dis, dis_new, undriven, size, minus. cbn [vx vy]. replace ((2 - 0) * (2 - 0) + (0 - 0) * (0 - 0)) with (2 * 2) by ring. rops. rewrite sqrt_square by lra. unfold B2_LINEAR_SLOP, B2_LENGTH_UNITS_PER_METER, nlit. cbn. lra.
  - apply (G _ (V2 1 0) (V2 1 0)); [apply fresh_weld|exact Logic.I].
  - apply (G _ (V2 2 1) (V2 2 1)); [apply (fresh_mouse _ _ _ _ (MouDef (V2 0 0) (V2 2 1) 1 1 10))|exact Logic.I].
Qed.
(** C78: a rope that is taut *)
Lemma rs_rope : let u := minus (at_arm rs_pb (arm rs_b rs_pb (di_lb rs_d))) (at_arm rs_pa (arm rs_a rs_pa (di_la rs_d))) in
  di_stiff rs_d <= 0 /\ di_min rs_d < di_max rs_d /\ B2_LINEAR_SLOP < size u /\ exists k' va' vb', one_joint (TStep 1 1 1 8 3 true) 8 (rs_k 0) rs_a rs_b rs_pa rs_pb (rs_v 0) (rs_v 1) k' va' vb'.
Proof.
  intros u. assert (U : u = V2 2 0) by (unfold u, minus, at_arm, arm, turned; apply vec2_ext; cbn; ring). split; [cbn; lra|]. split; [cbn; lra|]. split; [rewrite U, rs_size; unfold B2_LINEAR_SLOP, B2_LENGTH_UNITS_PER_METER, nlit; cbn; lra|]. apply one_joint_runs; reflexivity.
Qed.
(** C79 *)
Lemma new_limits_refute : exists (lower upper : R) rd wd rd' ri rf wd' wi wf, (forall i, rev_set_limits lower upper rd i = Panic) /\ (forall i, whe_set_limits lower upper wd i = Panic) /\
  rev_new rd = JRevolute rd' ri rf /\ rv_lower rd' = lower /\ rv_upper rd' = upper /\ whe_new wd = JWheel wd' wi wf /\ wh_lower wd' = lower /\ wh_upper wd' = upper.
Proof.
  exists 1, 0, (RevDef (V2 0 0) (V2 0 0) 0 true 1 0 true 0 1), (WheDef (V2 0 0) (V2 0 0) (V2 1 0) (V2 0 1) true 1 0 false 0 0 1 1). destruct (set_limits_fail 1 0 ltac:(lra)) as (A & _ & B). eexists _, _, _, _, _, _. split; [intros i; apply A|]. split; [intros i; apply B|]. repeat split; reflexivity.
Qed.
Lemma limits_can_be_set : exists d i, rev_set_limits (-1) 1 (RevDef (V2 0 0) (V2 0 0) 0 true 0 0 true 0 1) (RevImp (V2 0 0) 0 0 0) = Ok (d, i).
Proof. unfold rev_set_limits. rops. rewrite Rle_bool_true by lra. cbn [b2_assert bind]. destruct (_ || _); eauto. Qed.
(** C80 *)
Lemma mouse_moves : move_joint (V2 1 2) (Jnt st_mou (com_of st_a st_b) (com_of st_a st_b)) <> Jnt st_mou (com_of st_a st_b) (com_of st_a st_b).
Proof. intros E. apply (f_equal (fun j => match j_kind j with JMouse d _ _ => vx (ms_target d) | _ => 0 end)) in E. cbn in E. lra. Qed.
(** C76: a revolute joint whose bodies move apart *)
Lemma pulled_apart : let step := TStep (1 / 60) 60 1 8 3 false in exists k' va' vb', plain st_rev /\ warm_enough step st_rev /\ ts_dt step * ts_inv_dt step = 1 /\
  one_joint step 8 st_rev st_a st_b (where_is st_a) (where_is st_b) (Vel (V2 1 2) 3) (Vel (V2 4 5) 6) k' va' vb'.
Proof.
  intros step. destruct (one_joint_runs step 8 st_rev st_a st_b (where_is st_a) (where_is st_b) (Vel (V2 1 2) 3) (Vel (V2 4 5) 6) eq_refl eq_refl) as (k & va & vb & H).
  exists k, va, vb. split; [exact Logic.I|]. split; [exact Logic.I|]. split; [cbn; field|exact H].
Qed.
(** C77: the rope above as a spring that is stretched *)
Definition sp_d : dis_def R := DisDef (V2 0 0) (V2 0 0) 1 (1 / 2) 2 10 1.
Lemma stretched : let step := TStep (1 / 60) 60 1 8 3 true in let u := minus (at_arm rs_pb (arm rs_b rs_pb (di_lb sp_d))) (at_arm rs_pa (arm rs_a rs_pa (di_la sp_d))) in
  0 < ts_dt step /\ 0 <= b_inv_mass rs_a /\ 0 <= b_inv_mass rs_b /\ 0 <= b_inv_i rs_a /\ 0 <= b_inv_i rs_b /\ 0 < di_stiff sp_d /\ 0 <= di_damp sp_d /\ di_min sp_d < di_max sp_d /\ B2_LINEAR_SLOP < size u /\ 0 < size u - di_length sp_d.
Proof.
  intros step u. assert (U : u = V2 2 0) by (unfold u, minus, at_arm, arm, turned; apply vec2_ext; cbn; ring). rewrite U, rs_size. unfold B2_LINEAR_SLOP, B2_LENGTH_UNITS_PER_METER, nlit. cbn. lra.
Qed.
