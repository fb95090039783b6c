(** Fresh joints: preparing them and the position solver. *)
From Coq Require Import List ZArith Reals Lra Lia Bool Arith.
From Flocq Require Import Core.
From Verif Require Import Base Num NumLaws Math RTac ListFacts Manifold Filter DynModel SolverModel IslandModel SolverSpec JointModel JointSpec JointDefModel JointDefSpec JointProofs JointFresh.
Import ListNotations.
Local Open Scope R_scope.

Notation vz := (V2 0 0 : vec2 R).
Notation sz := (Pair (V2 0 0) 0 (V2 0 0) 0 : pair R).
Notation rest := (Vel (V2 0 0) 0 : vel R).
Lemma inv_pos_nonneg (m : R) : 0 <= m -> 0 <= inv_pos m.
Proof. intros M. unfold inv_pos. rops. rcase; [|lra]. apply Rlt_le, Rdiv_lt_0_compat; lra. Qed.
Lemma slop_pos : 0 < (B2_LINEAR_SLOP : R).
Proof. unfold B2_LINEAR_SLOP, B2_LENGTH_UNITS_PER_METER, nlit. cbn. lra. Qed.
Lemma aslop_pos : 0 < (B2_ANGULAR_SLOP : R).
Proof. unfold B2_ANGULAR_SLOP, B2_PI, nlit. cbn. generalize PI_RGT_0. lra. Qed.
Lemma vlen_0 : vlen vz = 0.
Proof. unfold vlen. cbn. rewrite Rmult_0_l, Rplus_0_l. apply sqrt_0. Qed.
(* both arms lead to one point *)
Lemma meet (p ca cb : vec2 R) : vsub (vsub (vadd cb (vsub p cb)) ca) (vsub p ca) = vz.
Proof. apply vec2_ext; rmathc; ring. Qed.
Lemma meet' (p ca cb : vec2 R) : vsub (vadd (vsub cb ca) (vsub p cb)) (vsub p ca) = vz.
Proof. apply vec2_ext; rmathc; ring. Qed.
Lemma vmuls_z s : vmuls vz s = vz. Proof. apply vec2_ext; rmathc; ring. Qed.

Lemma pos_same (p : pos R) x : x = p_a p -> Pos (p_c p) x = p. Proof. intros ->. destruct p; reflexivity. Qed.

Definition vpos (p q : pos R) : pair R := Pair (p_c p) (p_a p) (p_c q) (p_a q).

Section Kinds.
  Variables (step : tstep R) (a b : body R).
  Hypotheses (A : in_place a) (B : in_place b) (Ma : 0 <= b_inv_mass a) (Mb : 0 <= b_inv_mass b) (Ia : 0 <= b_inv_i a) (Ib : 0 <= b_inv_i b).
  Let c := com_of a b.
  Let pa := where_is a.
  Let pb := where_is b.
  Ltac arms := cbn [p_a p_c where_is jc_lca jc_lcb com_of]; rewrite ?arm_world by assumption.
  Lemma fresh_rev p j : let d := rev_initialize a b p j in let f := rev_frame d c pa pb in undriven (rev_new d) p p ->
    quiet (JRevolute d (RevImp vz 0 0 0) f) /\ rev_warm step d c f (RevImp vz 0 0 0) sz = (RevImp vz 0 0 0, sz) /\ rev_pos d c f (pa, pb) = ((pa, pb), true).
  Proof.
    intros d f (LI & EQ & MO & TO). assert (AN : rv_angle f = 0) by (unfold f, d; cbn [rev_frame rv_angle rev_initialize rv_ref p_a pa pb where_is get_angle]; rops; unfold get_angle; ring).
    repeat split; try assumption.
    - unfold f, rev_frame. cbn [rv_axial]. apply inv_pos_nonneg. cbn [c com_of jc_ia jc_ib]. rops. lra.
    - apply LI; assumption.
    - apply LI; assumption.
    - unfold rev_warm. cbv zeta. cbn [rv_i rv_im rv_il rv_iu]. rops. rewrite !Tauto.if_same. destruct (ts_warm step); [|reflexivity]. cbn [rv_i rv_im rv_il rv_iu]. rewrite vmuls_z, !Rmult_0_l, !cross_0. replace (0 + (0 + 0 - 0)) with 0 by ring. rewrite jpush_0. reflexivity.
    - unfold rev_pos. assert (E : rev_angle_error d (pa, pb) = 0 \/ rv_limit d = false).
      { assert (OR : rv_limit d = true \/ rv_limit d = false) by (destruct (rv_limit d); tauto). destruct OR as [EL|EL]; [left|now right]. unfold rev_angle_error. cbn [fst snd pa pb where_is p_a d rev_initialize rv_ref rv_lower rv_upper]. specialize (LI EL). specialize (EQ EL). cbn [d rev_new rev_initialize rv_lower rv_upper] in LI, EQ. pose proof aslop_pos as SL.
        unfold get_angle. rops. replace (sw_a (b_sweep b) - sw_a (b_sweep a) - (sw_a (b_sweep b) - sw_a (b_sweep a))) with 0 by ring.
        assert (MX : 0 < (B2_MAX_ANGULAR_CORRECTION : R)) by (unfold B2_MAX_ANGULAR_CORRECTION, B2_PI, nlit; cbn; generalize PI_RGT_0; lra).
        unfold b2_clamp. rewrite ?b2_max_R, ?b2_min_R. rops.
        destruct (Rlt_bool_spec (Rabs (rv_upper j - rv_lower j)) (2 * B2_ANGULAR_SLOP)).
        - rewrite EQ by (rewrite Rabs_right in H; lra). rewrite Rmin_left by lra. rewrite Rmax_right by lra. lra.
        - destruct (Rle_bool_spec 0 (rv_lower j)).
          + assert (rv_lower j = 0) as -> by lra. rewrite Rmin_right by lra. rewrite Rmax_right by lra. reflexivity.
          + destruct (Rle_bool_spec (rv_upper j) 0); [|reflexivity]. assert (rv_upper j = 0) as -> by lra. rewrite Rmin_left by lra. rewrite Rmax_left by lra. reflexivity. }
      set (lim := if rv_limit d && negb (neqb (nadd (jc_ia c) (jc_ib c)) (nofZ 0)) then _ else _).
      assert (L : lim = ((pa, pb), 0)).
      { unfold lim. destruct E as [E|E].
        - rewrite E. destruct (rv_limit d && _); [|reflexivity]. cbn [fst snd]. rops. rewrite Rmult_0_r, !Rmult_0_r, Rabs_R0. f_equal. f_equal; apply pos_same; ring.
        - rewrite E. reflexivity. }
      rewrite L. cbn [fst snd]. unfold d, pa, pb, c, rev_initialize. cbn [rv_la rv_lb]. arms. rewrite meet, m22_solve_0, vneg_0, !cross_0, jmove_0, vlen_0. rops.
      rewrite !Rle_bool_true by (generalize slop_pos aslop_pos; lra). reflexivity.
  Qed.
  Lemma fresh_wel p j : let d := wel_initialize a b p j in let f := wel_frame step d c pa pb in
    quiet (JWeld d (V3 0 0 0) f) /\ wel_warm step c f (V3 0 0 0) sz = (V3 0 0 0, sz) /\ wel_pos d c (pa, pb) = ((pa, pb), true).
  Proof.
    intros d f. assert (E : p_a pb - p_a pa - we_ref d = 0) by (cbn [pa pb where_is p_a d wel_initialize we_ref]; unfold get_angle; rops; ring).
    split; [|split].
    - split; [reflexivity|]. unfold f, wel_frame. cbv zeta. rops. rewrite E. repeat match goal with |- context [if ?x then _ else _] => destruct x end; cbn [we_bias]; rops; ring.
    - unfold wel_warm. cbv zeta. destruct (ts_warm step); [|reflexivity]. unfold v3muls. cbn [v3x v3y v3z]. rops. rewrite !Rmult_0_l, !cross_0, Rplus_0_l, jpush_0. reflexivity.
    - unfold wel_pos. unfold d, pa, pb, c, wel_initialize in *. cbn [we_la we_lb we_ref we_stiff] in *. arms. cbn [p_a where_is] in E. rops. rewrite E. rewrite meet, solve22_0, vneg_0. cbn [vx vy]. rewrite solve33_0, v3neg_0, vlen_0, Rabs_R0.
      rewrite !(Rle_bool_true 0) by (generalize slop_pos aslop_pos; lra).
      repeat match goal with |- context [if ?x then _ else _] => destruct x end; cbn [v3x v3y v3z andb]; rewrite !cross_0; rewrite ?Rplus_0_l; rewrite jmove_0; reflexivity.
  Qed.
  Lemma fresh_fri p j : let d := fri_initialize a b p j in let f := fri_frame d c pa pb in undriven (fri_new d) p p ->
    quiet (JFriction d (LinImp vz 0) f) /\ lin_warm step c (fr_ra f) (fr_rb f) (LinImp vz 0) sz = (LinImp vz 0, sz).
  Proof.
    intros d f (FO & TO). split; [repeat split; assumption|]. unfold lin_warm. cbv zeta. destruct (ts_warm step); [|reflexivity]. cbn [li_l li_a]. rewrite vmuls_z. rops. rewrite Rmult_0_l, !cross_0, Rplus_0_l, jpush_0. reflexivity.
  Qed.
  Lemma fresh_mot j : let d := mot_initialize a b j in let f := mot_frame d c pa pb in undriven (mot_new d) vz vz ->
    quiet (JMotor d (LinImp vz 0) f) /\ lin_warm step c (mo_ra f) (mo_rb f) (LinImp vz 0) sz = (LinImp vz 0, sz).
  Proof.
    intros d f (FO & TO). split; [repeat split; try assumption|].
    - unfold f, mot_frame, d, mot_initialize, c, pa, pb. cbn [mo_lerr mo_linear]. arms. rewrite arm_origin by assumption. unfold get_position. apply meet.
    - unfold f, mot_frame, d, mot_initialize, c, pa, pb, get_angle. cbn [mo_aerr mo_angular where_is p_a]. rops. ring.
    - unfold lin_warm. cbv zeta. destruct (ts_warm step); [|reflexivity]. cbn [li_l li_a]. rewrite vmuls_z. rops. rewrite Rmult_0_l, !cross_0, Rplus_0_l, jpush_0. reflexivity.
  Qed.
  Lemma fresh_mou j d : d = MouDef (xfv_t (b_xf b) (ms_target j)) (ms_target j) (ms_stiff j) (ms_damp j) (ms_force j) -> let f := mou_frame step d c pb in
    quiet (JMouse d vz f) /\ mou_warm step c f vz rest = (vz, rest).
  Proof.
    intros -> f. split; [split; [reflexivity|]|].
    - unfold f, mou_frame, c, pb. cbn [ms_c ms_lb ms_target]. fold (get_local_point (ms_target j) b). arms. apply vec2_ext; rmathc; ring.
    - unfold mou_warm. cbv zeta. cbn [v_v v_w]. rops. rewrite Rmult_0_l. destruct (ts_warm step); [|reflexivity]. rewrite vmuls_z. unfold kick_b. rewrite cross_0, vscale_0. cbn [v_v v_w]. rewrite vadd_0. f_equal. f_equal. rops. ring.
  Qed.
  Lemma fresh_dis p q j : let d := dis_initialize a b p q j in undriven (dis_new d) p q -> exists d', dis_new d = JDistance d' (DisImp 0 0 0) (DisFr vzero vzero vzero 0 0 0 0 0) /\ let f := dis_frame step d' c pa pb in
    quiet (JDistance d' (DisImp 0 0 0) f) /\ dis_warm step c f (DisImp 0 0 0) sz = (DisImp 0 0 0, sz) /\ dis_pos d' c f (pa, pb) = ((pa, pb), true).
  Proof.
    intros d U. cbn [undriven dis_new] in U. assert (SZ : vlen (vsub q p) = size (minus q p)) by reflexivity.
    assert (M : forall x, (B2_LINEAR_SLOP : R) <= x -> b2_max x B2_LINEAR_SLOP = x) by (intros x Hx; rewrite b2_max_R; apply Rmax_left; assumption).
    assert (MM : forall x : R, b2_max x x = x) by (intros x; rewrite b2_max_R; apply Rmax_left; lra).
    unfold d, dis_new, dis_initialize. cbn [di_la di_lb di_length di_min di_max di_stiff di_damp]. rewrite SZ, !M by (rewrite ?M; assumption). rewrite MM.
    eexists. split; [reflexivity|]. set (d' := DisDef _ _ _ _ _ _ _). set (f := dis_frame _ _ _ _ _). split; [split; reflexivity|]. split.
    - unfold dis_warm. cbv zeta. rewrite Tauto.if_same. destruct (ts_warm step); [|reflexivity]. cbn [di_i di_il di_iu]. rops. rewrite !Rmult_0_l. replace (0 + 0 - 0) with 0 by ring. rewrite vscale_00, jpoint_0. reflexivity.
    - unfold dis_pos. unfold d', pa, pb, c. cbn [di_la di_lb di_length di_min di_max]. arms.
      assert (W : forall ca cb, vsub (vsub (vadd cb (vsub q cb)) ca) (vsub p ca) = vsub q p) by (intros; apply vec2_ext; rmathc; ring). rewrite W.
      unfold vnormalize. rewrite SZ. rops. rewrite Rlt_bool_false.
      2: { assert (H : (B2_EPSILON : R) <= B2_LINEAR_SLOP) by (unfold B2_EPSILON, B2_LINEAR_SLOP, B2_LENGTH_UNITS_PER_METER, nlit; cbn; lra). lra. }
      rewrite Req_bool_true by reflexivity. rops. replace (size (minus q p) - size (minus q p)) with 0 by ring. rewrite Rmult_0_r, vscale_00, !cross_0, jmove_0, Rabs_R0. rewrite Rlt_bool_true by apply slop_pos. reflexivity.
  Qed.
  (* the angle between the bodies is the reference angle *)
  Lemma ref_0 : p_a pb - p_a pa - (get_angle b - get_angle a) = 0.
  Proof. unfold pa, pb, get_angle. cbn [where_is p_a]. ring. Qed.
  Lemma fresh_pri p u j k : pri_new (pri_initialize a b p u j) = Ok k -> undriven k p p -> exists d f0, k = JPrismatic d (PriImp vz 0 0 0) f0 /\ let f := pri_frame d c f0 pa pb in
    quiet (JPrismatic d (PriImp vz 0 0 0) f) /\ pri_warm step d c f (PriImp vz 0 0 0) sz = (PriImp vz 0 0 0, sz) /\ pri_pos d c (pa, pb) = ((pa, pb), true).
  Proof.
    unfold pri_new. destruct (nle _ _) eqn:LE; [|discriminate]. cbn [b2_assert bind]. intros [= <-]. set (d := PriDef _ _ _ _ _ _ _ _ _ _ _). intros (LI & MO & TO).
    eexists d, _. split; [reflexivity|]. set (f := pri_frame _ _ _ _ _).
    assert (LA : arm_of (rot_of (p_a pa)) (pr_la d) (jc_lca c) = vsub p (p_c pa)) by (unfold pa, c, d, pri_initialize; cbn [pr_la]; arms; reflexivity).
    assert (LB : arm_of (rot_of (p_a pb)) (pr_lb d) (jc_lcb c) = vsub p (p_c pb)) by (unfold pb, c, d, pri_initialize; cbn [pr_lb]; arms; reflexivity).
    assert (RF : p_a pb - p_a pa - pr_ref d = 0) by exact ref_0.
    split; [split; [reflexivity|split; [|split; [|split; [|split]]]]|split]; try assumption.
    - unfold f, pri_frame. cbv zeta. cbn [pr_axial]. apply inv_pos_nonneg. rewrite LA, LB. cbn [c com_of jc_ma jc_mb jc_ia jc_ib]. rops.
      set (x := b2_cross (vadd _ _) _). set (y := b2_cross (vsub p (p_c pb)) _). generalize (Rle_0_sqr x) (Rle_0_sqr y). unfold Rsqr. intros X Y. generalize (Rmult_le_pos _ _ Ia X) (Rmult_le_pos _ _ Ib Y). lra.
    - intros L. unfold f, pri_frame. cbv zeta. cbn [pr_trans]. rewrite L, LA, LB, meet', dot_0. reflexivity.
    - unfold pri_warm. cbv zeta. cbn [pr_i pr_im pr_il pr_iu]. rops. rewrite !Tauto.if_same. destruct (ts_warm step); [|reflexivity]. cbn [pr_i pr_im pr_il pr_iu]. rewrite vmuls_z, !Rmult_0_l. cbn [vx vy]. replace (0 + 0 - 0) with 0 by ring. rewrite !vscale_00, !Rmult_0_l, vadd_0. replace (0 + 0 + 0) with 0 by ring. rewrite jpush_0. reflexivity.
    - unfold pri_pos. cbv zeta. rewrite LA, LB, meet, dot_0. rops. rewrite RF. cbn [vx vy]. rewrite !dot_0, Rabs_R0.
      set (axis := rotv _ _). assert (E : pri_limit_error d 0 0 = (fst (fst (pri_limit_error d 0 0)), 0, 0)).
      { unfold pri_limit_error. destruct (pr_limit d) eqn:EL; [|reflexivity]. specialize (LI eq_refl). rops. rewrite Rabs_R0, !b2_max_R, b2_min_R. unfold d in *. cbn [pr_lower pr_upper] in *.
        destruct (Rlt_bool_spec (Rabs (pr_upper j - pr_lower j)) (2 * B2_LINEAR_SLOP)); [cbn [fst]; rewrite Rmax_left by lra; reflexivity|].
        destruct (Rle_bool_spec 0 (pr_lower j)).
        + cbn [fst]. rewrite Rmin_right, Rmax_left by lra. reflexivity.
        + destruct (Rle_bool_spec (pr_upper j) 0); [|reflexivity]. cbn [fst]. rewrite (Rmax_right (0 - pr_upper j) 0), (Rmax_left 0 (0 - pr_upper j)) by lra. reflexivity. }
      rewrite E. change (V2 0 0) with vz. rewrite vneg_0, m22_solve_0, v3neg_0, solve33_0. cbn [vx vy]. rewrite Tauto.if_same. cbn [v3x v3y v3z]. rewrite !vscale_00, vadd_0, !Rmult_0_l, !Rplus_0_l, jmove_0.
      rewrite !Rle_bool_true by (generalize slop_pos aslop_pos; lra). reflexivity.
  Qed.
  Lemma fresh_whe p u j : let d := whe_initialize a b p u j in undriven (whe_new d) p p -> exists d' f0, whe_new d = JWheel d' (WheImp 0 0 0 0 0) f0 /\ let f := whe_frame step d' c f0 pa pb in
    quiet (JWheel d' (WheImp 0 0 0 0 0) f) /\ whe_warm step d' c f (WheImp 0 0 0 0 0) sz = (WheImp 0 0 0 0 0, sz) /\ whe_pos d' c f (pa, pb) = ((pa, pb), true).
  Proof.
    intros d0. unfold whe_new. set (d := WheDef _ _ _ _ _ _ _ _ _ _ _ _). intros (LI & MO & TO). eexists d, _. split; [reflexivity|]. set (f := whe_frame _ _ _ _ _ _).
    assert (LA : arm_of (rot_of (p_a pa)) (wh_la d) (jc_lca c) = vsub p (p_c pa)) by (unfold pa, c, d, d0, whe_initialize; cbn [wh_la]; arms; reflexivity).
    assert (LB : arm_of (rot_of (p_a pb)) (wh_lb d) (jc_lcb c) = vsub p (p_c pb)) by (unfold pb, c, d, d0, whe_initialize; cbn [wh_lb]; arms; reflexivity).
    split; [split; [reflexivity|split; [|split; [|split; [|split; [|split]]]]]|split]; try assumption.
    - unfold f, whe_frame. cbv zeta. destruct (_ && _); cbn [wh_amass]; rops; rcase; try lra; apply Rlt_le, Rdiv_lt_0_compat; lra.
    - unfold f, whe_frame. cbv zeta. rewrite LA, LB, meet, !dot_00. destruct (_ && _); cbn [wh_bias]; rops; ring.
    - intros L. unfold f, whe_frame. cbv zeta. rewrite LA, LB, meet, !dot_0. destruct (_ && _); cbn [wh_trans]; rewrite L; reflexivity.
    - unfold f, whe_frame. cbv zeta. destruct (_ && _); cbn [wh_mmass]; (destruct (wh_motor d) eqn:EM; [rewrite MO by reflexivity; rops; ring|rops; ring]).
    - unfold whe_warm. cbv zeta. cbn [wh_i wh_im wh_is wh_il wh_iu]. rops. rewrite !Tauto.if_same. destruct (ts_warm step); [|reflexivity]. cbn [wh_i wh_im wh_is wh_il wh_iu]. rewrite !Rmult_0_l. replace (0 + 0 - 0) with 0 by ring. rewrite !vscale_00, !Rmult_0_l, vadd_0. replace (0 + 0 + 0) with 0 by ring. rewrite jpush_0. reflexivity.
    - unfold whe_pos. assert (E : wh_limit d = true -> whe_limit_error d 0 = 0).
      { intros L. specialize (LI L). unfold whe_limit_error. rops. rewrite b2_max_R, b2_min_R. unfold d in *. cbn [wh_lower wh_upper] in *.
        destruct (Rlt_bool_spec (Rabs (wh_upper d0 - wh_lower d0)) (2 * B2_LINEAR_SLOP)); [reflexivity|].
        destruct (Rle_bool_spec 0 (wh_lower d0)); [rewrite Rmin_right by lra; reflexivity|].
        destruct (Rle_bool_spec (wh_upper d0) 0); [rewrite Rmax_right by lra|]; reflexivity. }
      assert (L : (if wh_limit d then whe_pos_limit d c f (pa, pb) else ((pa, pb), nofZ 0)) = ((pa, pb), 0)).
      { destruct (wh_limit d) eqn:EL; [|reflexivity]. unfold whe_pos_limit. cbv zeta. rewrite LA, LB, meet', dot_0, (E eq_refl). rops. rewrite Req_bool_true by reflexivity. reflexivity. }
      rewrite L. cbv zeta. rewrite LA, LB, meet', dot_00. rops. rewrite Ropp_0. match goal with |- context [if ?x then 0 / ?y else 0] => replace (if x then 0 / y else 0) with 0 by (destruct x; [unfold Rdiv; ring|reflexivity]) end.
      rewrite vscale_00, !Rmult_0_l, jmove_0, Rabs_R0, b2_max_R, Rmax_left by lra. rewrite Rle_bool_true by (generalize slop_pos; lra). reflexivity.
  Qed.
  Lemma fresh_pul ga gb p q ratio s k : pul_initialize a b ga gb p q ratio = Ok s -> pul_new s = Ok k -> exists d f0, k = JPulley d 0 f0 /\
    let f := pul_frame d c pa pb in pul_warm step d c f 0 sz = (0, sz) /\ pul_pos d c (pa, pb) = ((pa, pb), true).
  Proof.
    unfold pul_initialize. destruct (nlt _ _); [|discriminate]. cbn [b2_assert bind]. intros [= <-]. unfold pul_new. destruct (negb _); [|discriminate]. cbn [b2_assert bind ps_ga ps_gb ps_la ps_lb ps_lena ps_lenb ps_ratio]. intros [= <-].
    eexists _, _. split; [reflexivity|]. set (d := PulDef _ _ _ _ _ _). set (f := pul_frame _ _ _ _). split.
    - unfold pul_warm. cbv zeta. destruct (ts_warm step); [|reflexivity]. rops. rewrite !Rmult_0_l, Rmult_0_r, Ropp_0, !vscale_00, pul_kick_0. reflexivity.
    - unfold pul_pos. cbv zeta.
      assert (LA : pu_ra f = vsub p (p_c pa)) by (unfold f, pul_frame, pa, c, d; cbv zeta; cbn [pu_ra pu_la]; arms; reflexivity).
      assert (LB : pu_rb f = vsub q (p_c pb)) by (unfold f, pul_frame, pb, c, d; cbv zeta; cbn [pu_rb pu_lb]; arms; reflexivity).
      fold f. rewrite LA, LB. assert (W : forall x y : vec2 R, vadd x (vsub y x) = y) by (intros; apply vec2_ext; rmathc; ring). rewrite !W. cbn [d pu_ga pu_gb pu_const pu_ratio]. rops.
      match goal with |- context [Rabs ?x] => replace x with 0 by (unfold vlen; rmathc; ring) end. rewrite !Rmult_0_r, Ropp_0, !vscale_00. unfold pul_kick. cbn [s_va s_wa s_vb s_wb]. rewrite !cross_0, !vscale_0. rops. rewrite !Rmult_0_r, !Rplus_0_r.
      assert (V0 : forall x : vec2 R, vadd x vz = x) by (intros; apply vec2_ext; rmathc; ring). rewrite !V0, Rabs_R0. rewrite Rlt_bool_true by apply slop_pos. f_equal; f_equal; destruct pa, pb; reflexivity.
  Qed.
End Kinds.


(** ** gear joints *)
Lemma gear_coord_half (c a : body R) lc la axis : in_place c -> in_place a ->
  gear_coord axis lc (sw_local_center (b_sweep c)) la (sw_local_center (b_sweep a)) (where_is a) (where_is c) =
  b2_dot (vsub (rotv_t (xq (b_xf c)) (vadd (rotv (xq (b_xf a)) la) (vsub (xp (b_xf a)) (xp (b_xf c))))) lc) axis.
Proof.
  intros C A. unfold gear_coord. cbv zeta. cbn [where_is p_a p_c].
  unfold in_place in C, A. cbv zeta in C, A. rewrite C, A. cbn [xq xp]. f_equal.
  generalize (sc1 (sw_a (b_sweep c))). unfold arm_of, rot_of. cbn [nsin ncos R_Trig].
  set (s := sin (sw_a (b_sweep c))). set (k := cos (sw_a (b_sweep c))). intros U. unfold turned. cbn [vx vy].
  destruct (sw_local_center (b_sweep c)) as [cx cy]. destruct (sw_local_center (b_sweep a)) as [ax ay]. destruct (sw_c (b_sweep c)) as [px py]. destruct (sw_c (b_sweep a)) as [qx qy]. destruct la as [lx ly], lc as [mx my].
  set (s2 := sin _). set (k2 := cos _). apply vec2_ext; rmathc; cbn [vx vy rs rc].
  - fold s k; fold s2 k2. apply Rminus_diag_uniq. transitivity ((1 - (s * s + k * k)) * cx); [ring|rewrite U; ring].
  - fold s k; fold s2 k2. apply Rminus_diag_uniq. transitivity ((1 - (s * s + k * k)) * cy); [ring|rewrite U; ring].
Qed.
Lemma gea_kick_00 c c2 f s t : gea_kick c c2 f 0 s t = (s, t).
Proof. unfold gea_kick. rops. rewrite !Rmult_0_r, !Rmult_0_l, !vscale_00. destruct s as [[s1 s2] s3 [s4 s5] s6], t as [[t1 t2] t3 [t4 t5] t6]. cbn [s_va s_vb s_wa s_wb]. f_equal; f_equal; try (apply vec2_ext; rmathc); rops; ring. Qed.
Lemma gear_half_coord k (c a : body R) rev lc la axis ref x : in_place c -> in_place a -> gear_half k c a = Ok (rev, lc, la, axis, ref, x) ->
  (if rev then p_a (where_is a) - p_a (where_is c) - ref else gear_coord axis lc (sw_local_center (b_sweep c)) la (sw_local_center (b_sweep a)) (where_is a) (where_is c)) = x.
Proof.
  intros C A E. unfold gear_half in E. destruct k; try discriminate; destruct (b_type a); try discriminate; cbn [b2_assert bind] in E; injection E as <- <- <- <- <- <-.
  - reflexivity.
  - apply gear_coord_half; assumption.
Qed.
Lemma fresh_gea step a b c d k1 k2 ratio k : in_place a -> in_place b -> in_place c -> in_place d -> gea_new k1 k2 c a d b ratio = Ok k ->
  let ca := com_of a b in let cc := com_of c d in
  exists g f0, k = JGear g 0 f0 /\ (forall f, gea_warm step ca cc f 0 sz sz = (0, (sz, sz))) /\
  gea_pos g ca cc (where_is a) (where_is b) (where_is c) (where_is d) = ((vpos (where_is a) (where_is b), vpos (where_is c) (where_is d)), true).
Proof.
  intros A B C D E ca cc. unfold gea_new in E. destruct (gear_half k1 c a) as [[[[[[r1 lc] la] axc] refa] xa]| |] eqn:E1; try discriminate. cbn [bind] in E.
  destruct (gear_half k2 d b) as [[[[[[r2 ld] lb] axd] refb] xb]| |] eqn:E2; try discriminate. cbn [bind] in E. injection E as <-.
  apply gear_half_coord in E1; try assumption. apply gear_half_coord in E2; try assumption.
  eexists _, _. split; [reflexivity|]. split.
  - intros f. unfold gea_warm. destruct (ts_warm step); [|reflexivity]. rewrite gea_kick_0. reflexivity.
  - unfold gea_pos. set (g := GeaDef _ _ _ _ _ _ _ _ _ _ _ _). destruct (gea_jac g ca cc _ _ _ _) as [[[[[[jvac jvbd] jwa] jwb] jwc] jwd] mass].
    cbn [g ge_reva ge_revb ge_refa ge_refb ge_axc ge_axd ge_lc ge_ld ge_la ge_lb ge_ratio ge_const ca cc com_of jc_lca jc_lcb] in *. cbv zeta. rops. fold ca cc. rewrite E1, E2. rops.
    match goal with |- context [(- ?e) / _] => replace (- e) with 0 by ring end.
    match goal with |- context [if ?x then 0 / ?y else 0] => replace (if x then 0 / y else 0) with 0 by (destruct x; [unfold Rdiv; ring|reflexivity]) end.
    rewrite gea_kick_00. rewrite Rlt_bool_true by apply slop_pos. reflexivity.
Qed.

(** ** all kinds *)
Lemma on_pos_rest (c : jcom R) f poss pa pb : zget poss (jc_a c) = Ok pa -> zget poss (jc_b c) = Ok pb -> f (pa, pb) = ((pa, pb), true) -> on_pos c f poss = Ok (poss, true).
Proof. intros A B F. unfold on_pos. rewrite A, B. cbn [bind]. rewrite F. rewrite (zset_same _ _ _ A). cbn [bind]. rewrite (zset_same _ _ _ B). reflexivity. Qed.
Lemma all_rest vels i (p : pos R) poss : Forall at_rest vels -> length vels = length poss -> zget poss i = Ok p -> zget vels i = Ok rest.
Proof.
  intros F L E. unfold zget, get in *. destruct (i <? 0)%Z; [discriminate|]. destruct (nth_error poss (Z.to_nat i)) eqn:N; [|discriminate].
  destruct (nth_error vels (Z.to_nat i)) eqn:M.
  - f_equal. apply nth_error_In in M. rewrite Forall_forall in F. apply (F _ M).
  - apply nth_error_None in M. assert (Z.to_nat i < length poss)%nat by (apply nth_error_Some; congruence). lia.
Qed.
Lemma set_up_init step x poss vels : set_up poss x -> Forall at_rest vels -> length vels = length poss ->
  exists j', joint_init step (ji_joint x) (ji_a x) (ji_b x) (ji_c x) (ji_d x) poss vels = Ok (j', vels) /\ quiet (j_kind j') /\ j_com j' = com_of (ji_a x) (ji_b x) /\ j_com2 j' = com_of (ji_c x) (ji_d x) /\ joint_pos j' poss = Ok (poss, true).
Proof.
  intros (p & q & (Aa & Za & Ma & Ia) & (Ab & Zb & Mb & Ib) & (Ac & Zc & Mc & Ic) & (Ad & Zd & Md & Id) & FR & UN) REST LEN.
  pose proof (all_rest _ _ _ _ REST LEN Za) as Va. pose proof (all_rest _ _ _ _ REST LEN Zb) as Vb. pose proof (all_rest _ _ _ _ REST LEN Zc) as Vc. pose proof (all_rest _ _ _ _ REST LEN Zd) as Vd.
  destruct x as [[k c1 c2] a b c d]. cbn [ji_joint ji_a ji_b ji_c ji_d j_kind] in *. set (ca := com_of a b). set (cc := com_of c d).
  assert (GO : forall k', kind_init step k ca cc poss vels = Ok (k', vels) -> quiet k' -> joint_pos (Jnt k' ca cc) poss = Ok (poss, true) ->
    exists j', joint_init step (Jnt k c1 c2) a b c d poss vels = Ok (j', vels) /\ quiet (j_kind j') /\ j_com j' = ca /\ j_com2 j' = cc /\ joint_pos j' poss = Ok (poss, true)).
  { intros k' E Q P. exists (Jnt k' ca cc). unfold joint_init. cbn [j_kind]. fold ca cc. rewrite E. cbn [bind]. auto. }
  inversion FR as [j p0 | j p0 u k0 NEW | j p0 q0 | j p0 | j p0 u | j p0 | j | j | ga gb p0 q0 ratio s k0 NEW NEW2 | k1 k2 ratio k0 NEW]; subst.
  - destruct (fresh_rev step a b Aa Ab Ia Ib q j UN) as (Q & W & P).
    eapply GO; [|exact Q|]; unfold kind_init, joint_pos; cbn [rev_new ca com_of jc_a jc_b j_com j_kind]; rewrite ?Za, ?Zb; cbn [bind]; fold ca.
    + rewrite (on_pair_rest (RevImp vz 0 0 0)); [reflexivity|exact Va|exact Vb|exact W].
    + eapply on_pos_rest; [exact Za|exact Zb|exact P].
  - destruct (fresh_pri step a b Aa Ab Ma Mb Ia Ib _ _ _ _ NEW UN) as (d' & f0 & -> & Q & W & P).
    eapply GO; [|exact Q|]; unfold kind_init, joint_pos; cbn [ca com_of jc_a jc_b j_com j_kind]; rewrite ?Za, ?Zb; cbn [bind]; fold ca.
    + rewrite (on_pair_rest (PriImp vz 0 0 0)); [reflexivity|exact Va|exact Vb|exact W].
    + eapply on_pos_rest; [exact Za|exact Zb|exact P].
  - destruct (fresh_dis step a b Aa Ab p q j UN) as (d' & KE & Q & W & P). rewrite KE in GO |- *.
    eapply GO; [|exact Q|]; unfold kind_init, joint_pos; cbn [ca com_of jc_a jc_b j_com j_kind]; rewrite ?Za, ?Zb; cbn [bind]; fold ca.
    + rewrite (on_pair_rest (DisImp 0 0 0)); [reflexivity|exact Va|exact Vb|exact W].
    + eapply on_pos_rest; [exact Za|exact Zb|exact P].
  - destruct (fresh_wel step a b Aa Ab q j) as (Q & W & P).
    eapply GO; [|exact Q|]; unfold kind_init, joint_pos; cbn [wel_new ca com_of jc_a jc_b j_com j_kind]; rewrite ?Za, ?Zb; cbn [bind]; fold ca.
    + rewrite (on_pair_rest (V3 0 0 0)); [reflexivity|exact Va|exact Vb|exact W].
    + eapply on_pos_rest; [exact Za|exact Zb|exact P].
  - destruct (fresh_whe step a b Aa Ab _ _ _ UN) as (d' & f0 & KE & Q & W & P). rewrite KE in GO |- *.
    eapply GO; [|exact Q|]; unfold kind_init, joint_pos; cbn [ca com_of jc_a jc_b j_com j_kind]; rewrite ?Za, ?Zb; cbn [bind]; fold ca.
    + rewrite (on_pair_rest (WheImp 0 0 0 0 0)); [reflexivity|exact Va|exact Vb|exact W].
    + eapply on_pos_rest; [exact Za|exact Zb|exact P].
  - destruct (fresh_fri step a b q j UN) as (Q & W).
    eapply GO; [|exact Q|]; unfold kind_init, joint_pos; cbn [fri_new ca com_of jc_a jc_b j_com j_kind]; rewrite ?Za, ?Zb; cbn [bind]; fold ca; [|reflexivity].
    rewrite (on_pair_rest (LinImp vz 0)); [reflexivity|exact Va|exact Vb|exact W].
  - destruct (fresh_mot step a b Aa Ab j UN) as (Q & W).
    eapply GO; [|exact Q|]; unfold kind_init, joint_pos; cbn [mot_new ca com_of jc_a jc_b j_com j_kind]; rewrite ?Za, ?Zb; cbn [bind]; fold ca; [|reflexivity].
    rewrite (on_pair_rest (LinImp vz 0)); [reflexivity|exact Va|exact Vb|exact W].
  - destruct (fresh_mou step a b Ab j _ eq_refl) as (Q & W).
    eapply GO; [|exact Q|]; unfold kind_init, joint_pos; cbn [mou_new ca com_of jc_a jc_b j_com j_kind]; rewrite ?Za, ?Zb; cbn [bind]; fold ca; [|reflexivity].
    unfold on_b. cbn [ca com_of jc_b]. rewrite Vb. cbn [bind]. fold ca. change (vzero : vec2 R) with vz. fold ca in W. rewrite W. rewrite (zset_same _ _ _ Vb). reflexivity.
  - destruct (fresh_pul step a b Aa Ab _ _ _ _ _ _ _ NEW NEW2) as (d' & f0 & -> & W & P).
    eapply GO; unfold kind_init, joint_pos; cbn [ca com_of jc_a jc_b j_com j_kind]; rewrite ?Za, ?Zb; cbn [bind]; fold ca.
    + rewrite (on_pair_rest 0); [reflexivity|exact Va|exact Vb|exact W].
    + reflexivity.
    + eapply on_pos_rest; [exact Za|exact Zb|exact P].
  - destruct (fresh_gea step a b c d _ _ _ _ Aa Ab Ac Ad NEW) as (g & f0 & -> & W & P).
    change (zget poss (jc_a ca) = Ok (where_is a)) in Za. change (zget poss (jc_b ca) = Ok (where_is b)) in Zb. change (zget poss (jc_a cc) = Ok (where_is c)) in Zc. change (zget poss (jc_b cc) = Ok (where_is d)) in Zd.
    change (zget vels (jc_a ca) = Ok rest) in Va. change (zget vels (jc_b ca) = Ok rest) in Vb. change (zget vels (jc_a cc) = Ok rest) in Vc. change (zget vels (jc_b cc) = Ok rest) in Vd.
    eapply GO; unfold kind_init, joint_pos; cbn [j_com j_com2 j_kind]; rewrite ?Za, ?Zb, ?Zc, ?Zd; cbn [bind].
    + unfold on_four. rewrite Va, Vb, Vc, Vd. cbn [bind]. unfold vpair. cbn [v_v v_w]. rewrite (W _). unfold vel_a, vel_b. cbn [s_va s_wa s_vb s_wb].
      rewrite (zset_same _ _ _ Va). cbn [bind]. rewrite (zset_same _ _ _ Vb). cbn [bind]. rewrite (zset_same _ _ _ Vc). cbn [bind]. rewrite (zset_same _ _ _ Vd). reflexivity.
    + reflexivity.
    + fold ca cc in P. cbv iota. rewrite P. unfold vpos, where_is. cbn [s_va s_wa s_vb s_wb p_a p_c]. fold (where_is a) (where_is b) (where_is c) (where_is d).
      rewrite (zset_same _ _ _ Za). cbn [bind]. rewrite (zset_same _ _ _ Zb). cbn [bind]. rewrite (zset_same _ _ _ Zc). cbn [bind]. rewrite (zset_same _ _ _ Zd). reflexivity.
Qed.

(** ** the whole phase *)
Definition set_quiet (poss : list (pos R)) (x : jin R) : Prop :=
  quiet (j_kind (ji_joint x)) /\ (exists pa, zget poss (jc_a (j_com (ji_joint x))) = Ok pa) /\ (exists pb, zget poss (jc_b (j_com (ji_joint x))) = Ok pb) /\
  (exists pc, zget poss (jc_a (j_com2 (ji_joint x))) = Ok pc) /\ (exists pd, zget poss (jc_b (j_com2 (ji_joint x))) = Ok pd) /\ joint_pos (ji_joint x) poss = Ok (poss, true).
Lemma set_up_phase step n js poss vels : 0 <= ts_dt step -> 0 <= ts_inv_dt step -> Forall (set_up poss) js -> Forall at_rest vels -> length vels = length poss ->
  exists js', joint_phase step n js poss vels = Ok (js', vels) /\ Forall (fun x => joint_pos (ji_joint x) poss = Ok (poss, true)) js' /\ length js' = length js.
Proof.
  intros DT INV F REST LEN. unfold joint_phase. fold (init_one step).
  assert (I : exists js1, each_item (init_one step) js (poss, vels) = Ok (js1, (poss, vels)) /\ Forall (set_quiet poss) js1 /\ length js1 = length js).
  { induction js as [|x js IH]; cbn [each_item]; [exists []; auto|]. inversion F as [|? ? F1 F2]; subst.
    destruct (set_up_init step x poss vels F1 REST LEN) as (j' & E & Q & C1 & C2 & P). assert (ONE : init_one step x (poss, vels) = Ok (with_joint x j', (poss, vels))) by (unfold init_one; cbn [fst snd js_init joint_solver]; rewrite E; reflexivity). rewrite ONE. cbn [bind].
    destruct (IH F2) as (js1 & E1 & Q1 & L1). rewrite E1. cbn [bind]. eexists. split; [reflexivity|]. split; [|cbn; lia]. constructor; [|exact Q1].
    destruct F1 as (p & q & (_ & Za & _) & (_ & Zb & _) & (_ & Zc & _) & (_ & Zd & _) & _). unfold set_quiet. cbn [with_joint ji_joint]. rewrite C1, C2. cbn [com_of jc_a jc_b]. eauto 10. }
  destruct I as (js1 & -> & Q1 & L1). cbn [bind]. exists js1. split; [|split; [|exact L1]].
  2: { eapply Forall_impl; [|exact Q1]. intros x Q. apply Q. }
  unfold for_range. clear F L1. generalize (n - 0)%nat. generalize 0%nat. intros lo m. revert lo. induction m as [|m IH]; intros lo; cbn [for_from]; [reflexivity|]. cbn [fst snd].
  assert (V : each_item (js_vel joint_solver step) js1 vels = Ok (js1, vels)).
  { clear IH. induction js1 as [|x js1 IH]; cbn [each_item]; [reflexivity|]. inversion Q1 as [|? ? (Q & (pa & Za) & (pb & Zb) & (pc & Zc) & (pd & Zd) & P) Q2]; subst.
    assert (ONE : js_vel joint_solver step x vels = Ok (x, vels)).
    { cbn [js_vel joint_solver]. unfold joint_vel. rewrite (quiet_vel step _ _ DT INV _ vels Q) by (eapply all_rest; eassumption). cbn [bind]. destruct x as [[? ? ?] ? ? ? ?]. reflexivity. }
    rewrite ONE. cbn [bind]. rewrite (IH Q2). reflexivity. }
  rewrite V. cbn [bind]. apply IH.
Qed.
