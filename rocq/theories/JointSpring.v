(** The soft constraints are springs and dampers, and b2_linear_stiffness tunes them. *)
From Coq Require Import List ZArith Reals Lra Lia Bool Arith.
From Flocq Require Import Core.
From Verif Require Import Base Num NumLaws Math RTac ListFacts Manifold Filter DynModel SolverModel IslandModel SolverSpec JointModel JointSpec JointDefModel JointDefSpec JointProofs JointReal JointHeld.
Import ListNotations.
Local Open Scope R_scope.

(* the soft constraint: after it is solved, speed + bias + gamma * impulse is 0 *)
Lemma soft_spring (h k d c v gamma i : R) : gamma = / (h * (d + h * k)) -> h * (d + h * k) <> 0 -> v + c * h * k * gamma + gamma * i = 0 -> i = spring_impulse k d h c v.
Proof.
  intros G N E. unfold spring_impulse. set (m := h * (d + h * k)) in *. assert (X : m * (v + c * h * k * gamma + gamma * i) = 0) by (rewrite E; ring).
  replace (m * (v + c * h * k * gamma + gamma * i)) with (m * v + (m * gamma) * (c * h * k) + (m * gamma) * i) in X by ring. replace (m * gamma) with 1 in X by (rewrite G; field; exact N). unfold m in X. lra.
Qed.
Lemma inv_or0_R (m : R) : m <> 0 -> inv_or0 m = / m.
Proof. intros N. unfold inv_or0. rops. rewrite Req_bool_false by exact N. cbn [negb]. unfold Rdiv. ring. Qed.
Lemma inv_pos_R (m : R) : 0 < m -> inv_pos m = / m.
Proof. intros N. unfold inv_pos. rops. rewrite Rlt_bool_true by exact N. unfold Rdiv. ring. Qed.

Section Springs.
  Variables (step : tstep R) (a b : body R) (pa pb : pos R).
  Hypotheses (DT : 0 < ts_dt step) (Ma : 0 <= b_inv_mass a) (Mb : 0 <= b_inv_mass b) (Ia : 0 <= b_inv_i a) (Ib : 0 <= b_inv_i b).
  Let c := com_of a b.
  Ltac fields := cbn [s_va s_wa s_vb s_wb jc_ma jc_mb jc_ia jc_ib jc_lca jc_lcb jc_a jc_b com_of v_v v_w p_c p_a vel_a vel_b].
  Lemma sq_pos m x : 0 <= m -> 0 <= m * x * x.
  Proof. intros M. rewrite Rmult_assoc. apply Rmult_le_pos; [exact M|]. generalize (Rle_0_sqr x). unfold Rsqr. auto. Qed.
  Lemma dis_spring_R d i s i' s' : let ra := arm a pa (di_la d) in let rb := arm b pb (di_lb d) in let u := minus (at_arm pb rb) (at_arm pa ra) in
    0 < di_stiff d -> 0 <= di_damp d -> di_min d < di_max d -> B2_LINEAR_SLOP < size u ->
    dis_spring c (dis_frame step d c pa pb) (i, s) = (i', s') ->
    di_i i' = spring_impulse (di_stiff d) (di_damp d) (ts_dt step) (size u - di_length d) (dot u (minus (speed_at (vel_b s') rb) (speed_at (vel_a s') ra)) / size u).
  Proof.
    intros ra rb u K D MM SL E.
    assert (SZ : vlen u = size u) by reflexivity. assert (S0 : 0 < size u) by (unfold B2_LINEAR_SLOP, B2_LENGTH_UNITS_PER_METER, nlit in SL; cbn in SL; lra).
    assert (SS : size u * size u = dot u u) by (rewrite <- SZ; unfold vlen, dot; rops; apply sqrt_sqrt; generalize (Rle_0_sqr (vx u)) (Rle_0_sqr (vy u)); unfold Rsqr; lra).
    set (n := V2 (vx u / size u) (vy u / size u)). set (ca := cross ra n). set (cb := cross rb n). set (im := b_inv_mass a + b_inv_i a * ca * ca + b_inv_mass b + b_inv_i b * cb * cb).
    set (h := ts_dt step) in *. assert (GP : 0 < h * (di_damp d + h * di_stiff d)) by (apply Rmult_lt_0_compat; [exact DT|]; assert (0 < h * di_stiff d) by (apply Rmult_lt_0_compat; assumption); lra).
    set (gamma := / (h * (di_damp d + h * di_stiff d))). assert (G0 : 0 < gamma) by (apply Rinv_0_lt_compat; exact GP).
    assert (IM : 0 <= im) by (unfold im; generalize (sq_pos _ ca Ia) (sq_pos _ cb Ib); lra).
    assert (FR : dis_frame step d c pa pb = DisFr n ra rb (size u) (inv_or0 im) (/ (im + gamma)) gamma ((size u - di_length d) * h * di_stiff d * gamma)).
    { unfold dis_frame. cbv zeta. fold c. assert (RA : arm_of (rot_of (p_a pa)) (di_la d) (jc_lca c) = ra) by apply arm_is. assert (RB : arm_of (rot_of (p_a pb)) (di_lb d) (jc_lcb c) = rb) by apply arm_is. rewrite RA, RB, <- between_arms. fold u. rewrite SZ. rops.
      rewrite !Rlt_bool_true by assumption. cbn [andb]. assert (NN : vmuls u (1 / size u) = n) by (unfold n; apply vec2_ext; rmathc; unfold Rdiv; ring). rewrite NN. fold h. change (b2_cross ra n) with ca. change (b2_cross rb n) with cb. cbn [c com_of jc_ma jc_mb jc_ia jc_ib].
      change (b_inv_mass a + b_inv_i a * ca * ca + b_inv_mass b + b_inv_i b * cb * cb) with im. rewrite (inv_or0_R (h * _)) by lra. fold gamma. rewrite (inv_or0_R (im + gamma)) by lra. reflexivity. }
    rewrite FR in E. unfold dis_spring in E. cbn [di_soft di_bias di_gamma di_ra di_rb di_u] in E. set (f := DisFr _ _ _ _ _ _ _ _) in *. set (l := nmul _ _) in E. injection E as <- <-. cbn [di_i].
    apply (soft_spring _ _ _ _ _ gamma); [reflexivity|lra|]. fold h. clear FR SL. clearbody u ra rb.
    assert (V : forall s, dis_vel f s = dot u (minus (speed_at (vel_b s) rb) (speed_at (vel_a s) ra)) / size u).
    { intros [[s1 s2] s3 [s4 s5] s6]. unfold dis_vel, f, n. cbn [di_u di_ra di_rb]. fields. unfold dot, minus, speed_at. unfold vel_a, vel_b; fields. rmathc. generalize dependent (size u). intros z. intros. field. lra. }
    rewrite <- V. assert (V1 : dis_vel f (jpoint c ra rb (vscale l n) s) = dis_vel f s + im * l).
    { assert (NN : vx n * vx n + vy n * vy n = 1) by (unfold n; cbn [vx vy]; transitivity (dot u u / (size u * size u)); [unfold dot; field; lra|rewrite SS; field; rewrite <- SS; nra]).
      destruct s as [[s1 s2] s3 [s4 s5] s6]. unfold dis_vel, f. cbn [di_u di_ra di_rb]. unfold jpoint, jpush, c. fields. unfold im, ca, cb, cross. destruct n as [nx ny]. cbn [vx vy] in NN. rmathc.
      transitivity (nx * (s4 + - s6 * vy rb - (s1 + - s3 * vy ra)) + ny * (s5 + s6 * vx rb - (s2 + s3 * vx ra)) + (b_inv_mass a + b_inv_mass b) * l * (nx * nx + ny * ny) + (b_inv_i a * (vx ra * ny - vy ra * nx) * (vx ra * ny - vy ra * nx) + b_inv_i b * (vx rb * ny - vy rb * nx) * (vx rb * ny - vy rb * nx)) * l); [ring|rewrite NN; ring]. }
    rewrite V1. unfold l. rops. set (v := dis_vel f s). clearbody v. field. lra.
  Qed.
  Lemma whe_spring_R d f0 i s i' s' : let ra := arm a pa (wh_la d) in let rb := arm b pb (wh_lb d) in let u := minus (at_arm pb rb) (at_arm pa ra) in let ax := turned (p_a pa) (wh_lx d) in
    0 < wh_stiff d -> 0 <= wh_damp d -> dot (wh_lx d) (wh_lx d) = 1 -> 0 < b_inv_mass a + b_inv_mass b ->
    whe_spring c (whe_frame step d c f0 pa pb) (i, s) = (i', s') ->
    wh_is i' = spring_impulse (wh_stiff d) (wh_damp d) (ts_dt step) (dot ax u) (seen_along ax ra rb u (vel_a s') (vel_b s')).
  Proof.
    intros ra rb u ax K D UN MM E.
    set (ca := cross (plus ra u) ax). set (cb := cross rb ax). set (im := b_inv_mass a + b_inv_mass b + b_inv_i a * ca * ca + b_inv_i b * cb * cb).
    set (h := ts_dt step) in *. assert (GP : 0 < h * (wh_damp d + h * wh_stiff d)) by (apply Rmult_lt_0_compat; [exact DT|]; assert (0 < h * wh_stiff d) by (apply Rmult_lt_0_compat; assumption); lra).
    set (gamma := / (h * (wh_damp d + h * wh_stiff d))). assert (G0 : 0 < gamma) by (apply Rinv_0_lt_compat; exact GP).
    assert (IM : 0 < im) by (unfold im; generalize (sq_pos _ ca Ia) (sq_pos _ cb Ib); lra).
    assert (UX : dot ax ax = 1) by (apply turned_unit; [intros z; generalize (sin2_cos2 z); unfold Rsqr; auto|exact UN]).
    set (f := whe_frame step d c f0 pa pb) in *.
    assert (FR : wh_ax f = ax /\ wh_sax f = ca /\ wh_sbx f = cb /\ wh_smass f = / (im + gamma) /\ wh_bias f = dot ax u * h * wh_stiff d * gamma /\ wh_gamma f = gamma).
    { unfold f, whe_frame. cbv zeta. assert (RA : arm_of (rot_of (p_a pa)) (wh_la d) (jc_lca c) = ra) by apply arm_is. assert (RB : arm_of (rot_of (p_a pb)) (wh_lb d) (jc_lcb c) = rb) by apply arm_is. rewrite RA, RB, <- between_arms. fold u. rewrite !turned_is. fold ax.
      assert (CA : b2_cross (vadd u ra) ax = ca) by (unfold ca, cross, plus; rmathc; ring). rewrite CA. change (b2_cross rb ax) with cb. cbn [c com_of jc_ma jc_mb jc_ia jc_ib]. rops.
      change (b_inv_mass a + b_inv_mass b + b_inv_i a * ca * ca + b_inv_i b * cb * cb) with im. fold h. rewrite (Rlt_bool_true 0 (wh_stiff d)), (Rlt_bool_true 0 im) by assumption. cbn [andb wh_ax wh_sax wh_sbx wh_smass wh_bias wh_gamma]. rewrite (inv_pos_R (h * _)) by lra. fold gamma. rewrite (inv_pos_R (im + gamma)) by lra.
      repeat split; try reflexivity. assert (DC : b2_dot u ax = dot ax u) by (unfold dot; rmathc; ring). rewrite DC. ring. }
    destruct FR as (F1 & F2 & F3 & F4 & F5 & F6). clearbody f. unfold whe_spring in E. rewrite F1, F2, F3, F4, F5, F6 in E. set (l := nmul _ _) in E. injection E as <- <-. cbn [wh_is].
    apply (soft_spring _ _ _ _ _ gamma); [reflexivity|lra|]. fold h. rewrite <- seen_is. fold ca cb. clearbody ca cb.
    assert (V1 : axis_vel ax ca cb (jpush c (vscale l ax) (l * ca) (l * cb) s) = axis_vel ax ca cb s + im * l).
    { destruct s as [[s1 s2] s3 [s4 s5] s6]. unfold axis_vel, jpush, c. fields. unfold im, dot in *. destruct ax as [nx ny]. cbn [vx vy] in UX. rmathc.
      transitivity (nx * (s4 - s1) + ny * (s5 - s2) + cb * s6 - ca * s3 + (b_inv_mass a + b_inv_mass b) * l * (nx * nx + ny * ny) + (b_inv_i a * ca * ca + b_inv_i b * cb * cb) * l); [ring|rewrite UX; ring]. }
    rops. rewrite V1. unfold l. rops. set (v := axis_vel ax ca cb s). clearbody v. field. lra.
  Qed.
  (* the spring of a weld joint acts on the angles, before the point is held *)
  Lemma wel_spring_R d i s i' s' : 0 < we_stiff d -> 0 <= we_damp d -> wel_soft c (wel_frame step d c pa pb) (i, s) = (i', s') ->
    let s1 := jspin c (v3z i' - v3z i) s in
    v3z i' = spring_impulse (we_stiff d) (we_damp d) (ts_dt step) (p_a pb - p_a pa - we_ref d) (s_wb s1 - s_wa s1).
  Proof.
    intros K D E s1. set (h := ts_dt step) in *. assert (GP : 0 < h * (we_damp d + h * we_stiff d)) by (apply Rmult_lt_0_compat; [exact DT|]; assert (0 < h * we_stiff d) by (apply Rmult_lt_0_compat; assumption); lra).
    set (gamma := / (h * (we_damp d + h * we_stiff d))). assert (G0 : 0 < gamma) by (apply Rinv_0_lt_compat; exact GP).
    set (f := wel_frame step d c pa pb) in *. set (im := b_inv_i a + b_inv_i b).
    assert (FR : v3z (m3z (we_mass f)) = / (im + gamma) /\ we_bias f = (p_a pb - p_a pa - we_ref d) * h * we_stiff d * gamma /\ we_gamma f = gamma).
    { unfold f, wel_frame. cbv zeta. rops. rewrite Rlt_bool_true by assumption. cbn [we_mass we_bias we_gamma m3z v3z]. fold h. rewrite (inv_or0_R (h * _)) by lra. fold gamma. cbn [c com_of jc_ia jc_ib]. fold im. rewrite inv_or0_R by (unfold im; lra). repeat split; ring. }
    destruct FR as (F1 & F2 & F3). clearbody f. unfold wel_soft in E. rewrite F1, F2, F3 in E. set (l := nmul _ _) in E. injection E as <- <-. cbn [v3z] in *.
    apply (soft_spring _ _ _ _ _ gamma); [reflexivity|lra|]. fold h. unfold s1, jspin, c. fields. rops. replace (v3z i + l - v3z i) with l by ring. unfold l. rops. unfold im. field. unfold im in *. lra.
  Qed.
  Lemma mouse_spring_R d i v i' v' : let rb := arm b pb (ms_lb d) in let e := minus (at_arm pb rb) (ms_target d) in
    0 < ms_stiff d -> 0 <= ms_damp d -> mou_solve step d c (mou_frame step d c pb) (i, v) = (i', v') ->
    dot i' i' < (ts_dt step * ms_force d) * (ts_dt step * ms_force d) ->
    i' = V2 (spring_impulse (ms_stiff d) (ms_damp d) (ts_dt step) (vx e) (vx (speed_at v' rb))) (spring_impulse (ms_stiff d) (ms_damp d) (ts_dt step) (vy e) (vy (speed_at v' rb))).
  Proof.
    intros rb e K D E CAP. set (h := ts_dt step) in *. assert (GP : 0 < h * (ms_damp d + h * ms_stiff d)) by (apply Rmult_lt_0_compat; [exact DT|]; assert (0 < h * ms_stiff d) by (apply Rmult_lt_0_compat; assumption); lra).
    set (gamma := / (h * (ms_damp d + h * ms_stiff d))). assert (G0 : 0 < gamma) by (apply Rinv_0_lt_compat; exact GP).
    set (f := mou_frame step d c pb) in *. set (mb := b_inv_mass b) in *. set (ib := b_inv_i b) in *.
    set (kxx := mb + ib * vy rb * vy rb + gamma). set (kxy := - ib * vx rb * vy rb). set (kyy := mb + ib * vx rb * vx rb + gamma).
    assert (FR : ms_rb f = rb /\ ms_mass f = m22_inverse (M22 (V2 kxx kxy) (V2 kxy kyy)) /\ ms_c f = V2 (vx e * h * ms_stiff d * gamma) (vy e * h * ms_stiff d * gamma) /\ ms_gamma f = gamma).
    { unfold f, mou_frame. cbv zeta. rops. fold h. rewrite Req_bool_false by lra. cbn [negb]. assert (RB : arm_of (rot_of (p_a pb)) (ms_lb d) (jc_lcb c) = rb) by apply arm_is. rewrite RB. replace (1 / (h * (ms_damp d + h * ms_stiff d))) with gamma by (unfold gamma, Rdiv; symmetry; apply Rmult_1_l).
      cbn [ms_rb ms_mass ms_c ms_gamma c com_of jc_mb jc_ib]. repeat split. unfold e, at_arm, minus. apply vec2_ext; rmathc; ring. }
    destruct FR as (F1 & F2 & F3 & F4). clearbody f. unfold mou_solve in E. rewrite F1, F2, F3, F4 in E. fold h in E.
    assert (DET : 0 < kxx * kyy - kxy * kxy).
    { unfold kxx, kyy, kxy. replace ((mb + ib * vy rb * vy rb + gamma) * (mb + ib * vx rb * vx rb + gamma) - - ib * vx rb * vy rb * (- ib * vx rb * vy rb)) with ((mb + gamma) * (mb + gamma) + (mb + gamma) * (ib * vx rb * vx rb + ib * vy rb * vy rb)) by ring.
      generalize (sq_pos _ (vx rb) Ib) (sq_pos _ (vy rb) Ib). fold ib. intros X Y. assert (0 < (mb + gamma) * (mb + gamma)) by (apply Rmult_lt_0_compat; lra). assert (0 <= (mb + gamma) * (ib * vx rb * vx rb + ib * vy rb * vy rb)) by (apply Rmult_le_pos; lra). lra. }
    set (q := vadd (vadd (vadd (v_v v) (b2_cross_sv (v_w v) rb)) _) (vscale gamma i)) in E. set (p := b2_mul _ (vneg q)) in E.
    assert (SOL : kxx * vx p + kxy * vy p = - vx q /\ kxy * vx p + kyy * vy p = - vy q).
    { unfold p, m22_inverse. cbn [m2x m2y vx vy]. rops. replace (Req_bool _ 0) with false by (symmetry; apply Req_bool_false; lra). cbn [negb]. unfold b2_mul, vneg. cbn [m2x m2y vx vy]. rops. split; field; lra. }
    clearbody p.
    assert (I' : i' = vadd i p /\ v' = kick_b c rb p v).
    { destruct (nlt _ (vlen2 _)) eqn:CP in E.
      - exfalso. set (w := vadd i p) in *. clearbody w.
        assert (W : vlen w * vlen w = vlen2 w) by (unfold vlen, vlen2; rops; apply sqrt_sqrt; generalize (Rle_0_sqr (vx w)) (Rle_0_sqr (vy w)); unfold Rsqr; lra).
        assert (W2 : vlen2 w = vx w * vx w + vy w * vy w) by reflexivity. set (l := vlen w) in *. clearbody l. set (l2 := vlen2 w) in *. clearbody l2.
        revert CP. rops. destruct (Rlt_bool_spec (h * ms_force d * (h * ms_force d)) l2) as [CP|]; [intros _|discriminate]. injection E as <- _. revert CAP. unfold vmuls, dot. cbn [vx vy]. rops.
        assert (W0 : l <> 0). { intros ->. generalize (Rle_0_sqr (h * ms_force d)). unfold Rsqr. lra. }
        replace (vx w * (h * ms_force d / l) * (vx w * (h * ms_force d / l)) + vy w * (h * ms_force d / l) * (vy w * (h * ms_force d / l))) with (h * ms_force d * (h * ms_force d) * ((vx w * vx w + vy w * vy w) / (l * l))) by (field; exact W0).
        rewrite <- W2, <- W. replace (l * l / (l * l)) with 1 by (field; exact W0). lra.
      - injection E as <- <-. split; [reflexivity|]. f_equal. apply vec2_ext; rmathc; ring. }
    destruct I' as [-> ->]. destruct SOL as [S1 S2].
    apply vec2_ext; cbn [vx vy]; (apply (soft_spring _ _ _ _ _ gamma); [reflexivity|lra|]); unfold kick_b, speed_at; cbn [v_v v_w c com_of jc_mb jc_ib].
    - revert S1. unfold q, kxx, kxy. rmathc. fold mb ib h. intros S1. lra.
    - revert S2. unfold q, kyy, kxy. rmathc. fold mb ib h. intros S2. lra.
  Qed.
End Springs.

Lemma shared_mass_R (ma mb : R) : swings ma mb (shared_mass ma mb).
Proof.
  unfold swings, shared_mass. rops. repeat split; intros A; try intros B.
  - rewrite !Rlt_bool_true by assumption. cbn [andb]. field. lra.
  - rewrite Rlt_bool_true by assumption. rewrite Rlt_bool_false by assumption. reflexivity.
  - rewrite (Rlt_bool_false 0 ma) by assumption. reflexivity.
Qed.
Lemma linear_stiffness_R hertz ratio a b : exists m, swings (b_mass a) (b_mass b) m /\
  let w := 2 * PI * hertz in linear_stiffness hertz ratio a b = (m * (w * w), 2 * ratio * m * w).
Proof. exists (shared_mass (b_mass a) (b_mass b)). split; [apply shared_mass_R|]. unfold linear_stiffness, get_mass, B2_PI. rops. cbv zeta. f_equal; ring. Qed.
