(** What a joint holds right after its velocity constraints are solved, in exact real arithmetic. *)
From Coq Require Import List ZArith Bool Arith Reals Lia Lra.
From Flocq Require Import Core.
From Verif Require Import Base Num NumLaws Math RTac MathSpec MathProofs Manifold ListFacts DynModel SolverModel IslandModel SolverSpec SolverProofs SolverReal JointModel JointSpec JointProofs JointReal SolverPos.
Import ListNotations.
Local Open Scope R_scope.

Section Held.
  Context {TT : NumTrig R}.
  Ltac fields := cbn [s_va s_wa s_vb s_wb jc_ma jc_mb jc_ia jc_ib jc_lca jc_lcb jc_a jc_b com_of v_v v_w p_c p_a].

  (* what an impulse changes *)
  Lemma anchor_push c ra rb p z s : anchor_vel ra rb (jpush c p (b2_cross ra p + z) (b2_cross rb p + z) s) =
    vadd (anchor_vel ra rb s) (V2
      ((jc_ma c + jc_mb c + vy ra * vy ra * jc_ia c + vy rb * vy rb * jc_ib c) * vx p + (- vy ra * vx ra * jc_ia c - vy rb * vx rb * jc_ib c) * vy p + (- vy ra * jc_ia c - vy rb * jc_ib c) * z)
      ((- vy ra * vx ra * jc_ia c - vy rb * vx rb * jc_ib c) * vx p + (jc_ma c + jc_mb c + vx ra * vx ra * jc_ia c + vx rb * vx rb * jc_ib c) * vy p + (vx ra * jc_ia c + vx rb * jc_ib c) * z)).
  Proof. unfold anchor_vel, jpush. fields. apply vec2_ext; rmathc; ring. Qed.
  Lemma anchor_point c ra rb p s : anchor_vel ra rb (jpoint c ra rb p s) =
    vadd (anchor_vel ra rb s) (V2
      ((jc_ma c + jc_mb c + vy ra * vy ra * jc_ia c + vy rb * vy rb * jc_ib c) * vx p + (- vy ra * vx ra * jc_ia c - vy rb * vx rb * jc_ib c) * vy p)
      ((- vy ra * vx ra * jc_ia c - vy rb * vx rb * jc_ib c) * vx p + (jc_ma c + jc_mb c + vx ra * vx ra * jc_ia c + vx rb * vx rb * jc_ib c) * vy p)).
  Proof. unfold anchor_vel, jpoint, jpush. fields. apply vec2_ext; rmathc; ring. Qed.
  Lemma axis_push c u s1 s2 x l s : axis_vel u s1 s2 (jpush c (vscale x u) (x * s1 + l) (x * s2 + l) s) =
    axis_vel u s1 s2 s + ((jc_ma c + jc_mb c) * dot u u + jc_ia c * s1 * s1 + jc_ib c * s2 * s2) * x + (jc_ia c * s1 + jc_ib c * s2) * l.
  Proof. unfold axis_vel, jpush, dot. fields. rmathc. ring. Qed.

  Definition point_det (c : jcom R) (ra rb : vec2 R) : R :=
    let m := jc_ma c + jc_mb c in m * m + m * (jc_ia c * dot ra ra + jc_ib c * dot rb rb) + jc_ia c * jc_ib c * (cross ra rb * cross ra rb).
  Lemma point_det_ok (c : jcom R) (ra rb : vec2 R) :
    det2 (jc_ma c + jc_mb c + vy ra * vy ra * jc_ia c + vy rb * vy rb * jc_ib c) (- vy ra * vx ra * jc_ia c - vy rb * vx rb * jc_ib c)
      (- vy ra * vx ra * jc_ia c - vy rb * vx rb * jc_ib c) (jc_ma c + jc_mb c + vx ra * vx ra * jc_ia c + vx rb * vx rb * jc_ib c) = point_det c ra rb.
  Proof. unfold det2, point_det, dot, cross. ring. Qed.

  Lemma rev_held step d c pa pb i s : let f := rev_frame d c pa pb in point_det c (rv_ra f) (rv_rb f) <> 0 -> anchor_vel (rv_ra f) (rv_rb f) (snd (rev_solve step d c f (i, s))) = V2 0 0.
  Proof.
    intros f D. unfold rev_solve. destruct (if rv_limit d && _ then _ else _) as [i1 s1]. cbn [rev_point snd]. rewrite anchor_point.
    pose proof (m22_solve_ok (rv_k f) (vneg (anchor_vel (rv_ra f) (rv_rb f) s1))) as H. rewrite <- point_det_ok in D. specialize (H D). destruct H as [H1 H2].
    set (p := m22_solve _ _) in *. apply vec2_ext.
    - transitivity (vx (anchor_vel (rv_ra f) (rv_rb f) s1) + vx (vneg (anchor_vel (rv_ra f) (rv_rb f) s1))); [rewrite <- H1; reflexivity|rmathc; ring].
    - transitivity (vy (anchor_vel (rv_ra f) (rv_rb f) s1) + vy (vneg (anchor_vel (rv_ra f) (rv_rb f) s1))); [rewrite <- H2; reflexivity|rmathc; ring].
  Qed.

  Lemma inverse22_mul (m : mat33 R) (b : vec2 R) : det2 (v3x (m3x m)) (v3x (m3y m)) (v3y (m3x m)) (v3y (m3y m)) <> 0 ->
    solves2 (v3x (m3x m)) (v3x (m3y m)) (v3y (m3x m)) (v3y (m3y m)) (b2_mul22 (get_inverse22 m) b) b.
  Proof.
    intros H. destruct (inverse22_ok m H) as ([A B] & [C D] & _). unfold solves2, b2_mul22 in *. rops. split.
    - transitivity ((v3x (m3x m) * v3x (m3x (get_inverse22 m)) + v3x (m3y m) * v3y (m3x (get_inverse22 m))) * vx b + (v3x (m3x m) * v3x (m3y (get_inverse22 m)) + v3x (m3y m) * v3y (m3y (get_inverse22 m))) * vy b); [ring|]. rewrite A, C. ring.
    - transitivity ((v3y (m3x m) * v3x (m3x (get_inverse22 m)) + v3y (m3y m) * v3y (m3x (get_inverse22 m))) * vx b + (v3y (m3x m) * v3x (m3y (get_inverse22 m)) + v3y (m3y m) * v3y (m3y (get_inverse22 m))) * vy b); [ring|]. rewrite B, D. ring.
  Qed.
  Lemma inverse33_mul (m : mat33 R) (b : vec3 R) : symmetric3 m -> det3 m <> 0 -> solves3 m (b2_mul_mat33 (get_sym_inverse33 m) b) b.
  Proof.
    intros S H. destruct (sym_inverse33_ok m S H) as ((A1 & A2 & A3) & (B1 & B2 & B3) & (C1 & C2 & C3)). unfold solves3 in *. rmathc. set (i := get_sym_inverse33 m) in *.
    refine (conj _ (conj _ _)).
    - transitivity (v3x b * (v3x (m3x m) * v3x (m3x i) + v3x (m3y m) * v3y (m3x i) + v3x (m3z m) * v3z (m3x i)) + v3y b * (v3x (m3x m) * v3x (m3y i) + v3x (m3y m) * v3y (m3y i) + v3x (m3z m) * v3z (m3y i)) + v3z b * (v3x (m3x m) * v3x (m3z i) + v3x (m3y m) * v3y (m3z i) + v3x (m3z m) * v3z (m3z i))); [ring|]. rewrite A1, B1, C1. rops. ring.
    - transitivity (v3x b * (v3y (m3x m) * v3x (m3x i) + v3y (m3y m) * v3y (m3x i) + v3y (m3z m) * v3z (m3x i)) + v3y b * (v3y (m3x m) * v3x (m3y i) + v3y (m3y m) * v3y (m3y i) + v3y (m3z m) * v3z (m3y i)) + v3z b * (v3y (m3x m) * v3x (m3z i) + v3y (m3y m) * v3y (m3z i) + v3y (m3z m) * v3z (m3z i))); [ring|]. rewrite A2, B2, C2. rops. ring.
    - transitivity (v3x b * (v3z (m3x m) * v3x (m3x i) + v3z (m3y m) * v3y (m3x i) + v3z (m3z m) * v3z (m3x i)) + v3y b * (v3z (m3x m) * v3x (m3y i) + v3z (m3y m) * v3y (m3y i) + v3z (m3z m) * v3z (m3y i)) + v3z b * (v3z (m3x m) * v3x (m3z i) + v3z (m3y m) * v3y (m3z i) + v3z (m3z m) * v3z (m3z i))); [ring|]. rewrite A3, B3, C3. rops. ring.
  Qed.

  Definition weld_det (c : jcom R) (ra rb : vec2 R) : R :=
    let m := jc_ma c + jc_mb c in m * m * (jc_ia c + jc_ib c) + m * (jc_ia c * jc_ib c * dot (minus ra rb) (minus ra rb)).
  Lemma weld_det_ok (c : jcom R) (ra rb : vec2 R) : det3 (weld_k c ra rb) = weld_det c ra rb.
  Proof. unfold det3, weld_k, weld_det, dot, minus. rmathc. ring. Qed.
  Lemma weld_det2_ok (c : jcom R) (ra rb : vec2 R) : let k := weld_k c ra rb in det2 (v3x (m3x k)) (v3x (m3y k)) (v3y (m3x k)) (v3y (m3y k)) = point_det c ra rb.
  Proof. cbv zeta. rewrite <- point_det_ok. unfold weld_k. rops. reflexivity. Qed.
  Lemma wel_arms step d c pa pb : let f := wel_frame step d c pa pb in we_ra f = arm_of (rot_of (p_a pa)) (we_la d) (jc_lca c) /\ we_rb f = arm_of (rot_of (p_a pb)) (we_lb d) (jc_lcb c).
  Proof. cbv zeta. unfold wel_frame. rops. destruct (Rlt_bool _ _); [|destruct (Req_bool _ _)]; split; reflexivity. Qed.
  (* solving with the inverse of the matrix cancels the velocity *)
  Lemma cancel2 ra rb c s p : solves2 (v3x (m3x (weld_k c ra rb))) (v3x (m3y (weld_k c ra rb))) (v3y (m3x (weld_k c ra rb))) (v3y (m3y (weld_k c ra rb))) p (anchor_vel ra rb s) ->
    anchor_vel ra rb (jpoint c ra rb (vneg p) s) = V2 0 0.
  Proof.
    intros [H1 H2]. rewrite anchor_point. unfold weld_k in *. rops. apply vec2_ext; cbn [vadd vx vy].
    - transitivity (vx (anchor_vel ra rb s) - vx (anchor_vel ra rb s)); [rewrite <- H1 at 3; rmathc; ring|ring].
    - transitivity (vy (anchor_vel ra rb s) - vy (anchor_vel ra rb s)); [rewrite <- H2 at 3; rmathc; ring|ring].
  Qed.
  Lemma wel_held step d c pa pb i s : let f := wel_frame step d c pa pb in let s' := snd (wel_solve d c f (i, s)) in
    (0 < we_stiff d \/ jc_ia c + jc_ib c = 0 -> point_det c (we_ra f) (we_rb f) <> 0) -> (jc_ia c + jc_ib c <> 0 -> weld_det c (we_ra f) (we_rb f) <> 0) ->
    anchor_vel (we_ra f) (we_rb f) s' = V2 0 0 /\ (we_stiff d <= 0 -> jc_ia c + jc_ib c <> 0 -> s_wa s' = s_wb s').
  Proof.
    cbv zeta. destruct (wel_arms step d c pa pb) as [Ea Eb]. rewrite Ea, Eb. set (ra := arm_of _ (we_la d) _) in *. set (rb := arm_of _ (we_lb d) _) in *. intros D2 D3. unfold wel_solve. rops.
    destruct (Rlt_bool_spec 0 (we_stiff d)) as [St|St].
    - split; [|intros; lra]. cbn [wel_soft snd]. rewrite Ea, Eb. apply cancel2.
      pose proof (inverse22_mul (weld_k c ra rb) (anchor_vel ra rb (jspin c (- v3z (m3z (we_mass (wel_frame step d c pa pb))) * (s_wb s - s_wa s + we_bias (wel_frame step d c pa pb) + we_gamma (wel_frame step d c pa pb) * v3z i)) s))) as H.
      rewrite weld_det2_ok in H. specialize (H (D2 (or_introl St))). replace (b2_mul22 (we_mass (wel_frame step d c pa pb))) with (b2_mul22 (get_inverse22 (weld_k c ra rb))); [exact H|].
      unfold wel_frame. rops. rewrite Rlt_bool_true by auto. reflexivity.
    - cbn [wel_rigid snd]. rewrite Ea, Eb. destruct (Req_dec (jc_ia c + jc_ib c) 0) as [Z|Z].
      + split; [|intros _ Q; now elim Q]. pose proof (inverse22_mul (weld_k c ra rb) (anchor_vel ra rb s)) as H. rewrite weld_det2_ok in H. specialize (H (D2 (or_intror Z))).
        assert (M : we_mass (wel_frame step d c pa pb) = get_inverse22 (weld_k c ra rb)). { unfold wel_frame. rops. rewrite Rlt_bool_false by auto. fold ra rb. unfold weld_k at 1. rops. rewrite Req_bool_true by auto. reflexivity. }
        rewrite M. apply cancel2 in H. rewrite <- H. unfold jpoint. f_equal. unfold jpush. cbn [v3z v3neg b2_mul_mat33 v3add v3scale get_inverse22 m3x m3y m3z v3x v3y]. unfold b2_mul22. cbn [v3z v3neg b2_mul_mat33 v3add v3scale get_inverse22 m3x m3y m3z v3x v3y]. apply pair_ext; fields; rmathc; ring.
      + specialize (D3 Z). rewrite <- weld_det_ok in D3. pose proof (inverse33_mul (weld_k c ra rb) (V3 (vx (anchor_vel ra rb s)) (vy (anchor_vel ra rb s)) (s_wb s - s_wa s))) as H.
        assert (M : we_mass (wel_frame step d c pa pb) = get_sym_inverse33 (weld_k c ra rb)). { unfold wel_frame. rops. rewrite Rlt_bool_false by auto. fold ra rb. unfold weld_k at 1. rops. rewrite Req_bool_false by auto. reflexivity. }
        rewrite M. destruct H as (H1 & H2 & H3); [unfold symmetric3, weld_k; rops; auto|exact D3|]. set (q := b2_mul_mat33 _ _) in *. clearbody q. split.
        * rewrite anchor_push. unfold weld_k in H1, H2. rops. apply vec2_ext; cbn [vadd vx vy].
          -- transitivity (vx (anchor_vel ra rb s) - vx (anchor_vel ra rb s)); [rewrite <- H1 at 3; rmathc; ring|ring].
          -- transitivity (vy (anchor_vel ra rb s) - vy (anchor_vel ra rb s)); [rewrite <- H2 at 3; rmathc; ring|ring].
        * intros _ _. unfold jpush. fields. unfold weld_k in H3. rops. clear - H3. rmath. lra.
  Qed.

  Lemma dis_held step d c pa pb i s : let f := dis_frame step d c pa pb in let ra := di_ra f in let rb := di_rb f in
    let u := vsub (vsub (vadd (p_c pb) rb) (p_c pa)) ra in
    B2_LINEAR_SLOP < size u -> (jc_ma c + jc_mb c) * dot u u + jc_ia c * (cross ra u * cross ra u) + jc_ib c * (cross rb u * cross rb u) <> 0 -> di_max d <= di_min d ->
    b2_dot u (anchor_vel ra rb (snd (dis_solve step d c f (i, s)))) = 0.
  Proof.
    intros f ra rb u L K M. unfold dis_solve. rops. rewrite Rlt_bool_false by lra. cbn [dis_rigid snd]. fold ra rb.
    assert (Ra : ra = arm_of (rot_of (p_a pa)) (di_la d) (jc_lca c)) by (unfold ra, f, dis_frame; destruct (_ && _); reflexivity).
    assert (Rb : rb = arm_of (rot_of (p_a pb)) (di_lb d) (jc_lcb c)) by (unfold rb, f, dis_frame; destruct (_ && _); reflexivity).
    assert (S0 : (0 : R) < size u). { eapply Rlt_trans; [exact slop_pos|exact L]. }
    assert (U : di_u f = vmuls u (1 / size u)).
    { unfold f, dis_frame. rewrite <- Ra, <- Rb. fold u. change (vlen u) with (size u). rops. rewrite (Rlt_bool_true B2_LINEAR_SLOP (size u)) by exact L. destruct (_ && _); reflexivity. }
    set (k := (jc_ma c + jc_mb c) * dot u u + jc_ia c * (cross ra u * cross ra u) + jc_ib c * (cross rb u * cross rb u)) in *.
    assert (SS : dot u u = size u * size u) by (rewrite size_sq; reflexivity).
    assert (MM : di_mass f = size u * size u / k).
    { transitivity (inv_or0 (jc_ma c + jc_ia c * b2_cross ra (di_u f) * b2_cross ra (di_u f) + jc_mb c + jc_ib c * b2_cross rb (di_u f) * b2_cross rb (di_u f))).
      - rewrite U. unfold f, dis_frame. rewrite <- Ra, <- Rb. fold u. change (vlen u) with (size u). rops. rewrite (Rlt_bool_true B2_LINEAR_SLOP (size u)) by exact L. destruct (_ && _); reflexivity.
      - rewrite U. match goal with |- inv_or0 ?x = _ => assert (X : x = k / (size u * size u)) end.
        { unfold k. rewrite SS. unfold cross. rmathc. field. lra. }
        rewrite X. unfold inv_or0. rops. rewrite Req_bool_false. { cbn [negb]. field. split; auto; lra. } intros Q. apply (f_equal (fun z => z * (size u * size u))) in Q. apply K. replace (k / (size u * size u) * (size u * size u)) with k in Q by (field; lra). lra. }
    rewrite anchor_point. rewrite U, MM.
    assert (V : dis_vel f s = b2_dot u (anchor_vel ra rb s) / size u). { unfold dis_vel. rewrite U. fold ra rb. unfold anchor_vel. rmathc. field. lra. }
    rewrite V. set (A := b2_dot u (anchor_vel ra rb s)).
    transitivity (A - A); [|ring]. set (av := anchor_vel ra rb s) in *. clearbody av. unfold A. rmathc.
    transitivity (vx u * vx av + vy u * vy av - k * ((vx u * vx av + vy u * vy av) / k)); [|field; auto].
    assert (KK : k = (jc_ma c + jc_mb c) * (vx u * vx u + vy u * vy u) + jc_ia c * ((vx ra * vy u - vy ra * vx u) * (vx ra * vy u - vy ra * vx u)) + jc_ib c * ((vx rb * vy u - vy rb * vx u) * (vx rb * vy u - vy rb * vx u))) by reflexivity.
    clearbody k. replace (k * ((vx u * vx av + vy u * vy av) / k)) with (((jc_ma c + jc_mb c) * (vx u * vx u + vy u * vy u) + jc_ia c * ((vx ra * vy u - vy ra * vx u) * (vx ra * vy u - vy ra * vx u)) + jc_ib c * ((vx rb * vy u - vy rb * vx u) * (vx rb * vy u - vy rb * vx u))) * ((vx u * vx av + vy u * vy av) / k)) by (rewrite <- KK; reflexivity).
    clear KK. clearbody ra rb u. field. split; [exact K|lra].
  Qed.

  (* one-dimensional constraints along a unit vector *)
  Lemma pri_held step d c old pa pb i s : let f := pri_frame d c old pa pb in let s' := snd (pri_solve step d c f (i, s)) in
    dot (pr_perp f) (pr_perp f) = 1 ->
    (jc_ia c + jc_ib c = 0 -> jc_ma c + jc_mb c + jc_ia c * pr_s1 f * pr_s1 f + jc_ib c * pr_s2 f * pr_s2 f - (jc_ia c * pr_s1 f + jc_ib c * pr_s2 f) * (jc_ia c * pr_s1 f + jc_ib c * pr_s2 f) <> 0) ->
    (jc_ia c + jc_ib c <> 0 -> (jc_ma c + jc_mb c) * (jc_ia c + jc_ib c) + jc_ia c * jc_ib c * ((pr_s1 f - pr_s2 f) * (pr_s1 f - pr_s2 f)) <> 0) ->
    axis_vel (pr_perp f) (pr_s1 f) (pr_s2 f) s' = 0 /\ (jc_ia c + jc_ib c <> 0 -> s_wa s' = s_wb s').
  Proof.
    intros f s' U D1 D2. unfold s', pri_solve. destruct (if pr_limit d then _ else _) as [i1 s1]. cbn [pri_block snd]. rewrite axis_push, U.
    pose proof (m22_solve_ok (pr_k f) (vneg (V2 (axis_vel (pr_perp f) (pr_s1 f) (pr_s2 f) s1) (s_wb s1 - s_wa s1)))) as H. change (nsub (s_wb s1) (s_wa s1)) with (s_wb s1 - s_wa s1).
    set (q := m22_solve _ _) in *. clearbody q.
    assert (Kf : pr_k f = M22 (V2 (jc_ma c + jc_mb c + jc_ia c * pr_s1 f * pr_s1 f + jc_ib c * pr_s2 f * pr_s2 f) (jc_ia c * pr_s1 f + jc_ib c * pr_s2 f)) (V2 (jc_ia c * pr_s1 f + jc_ib c * pr_s2 f) (if Req_bool (jc_ia c + jc_ib c) 0 then 1 else jc_ia c + jc_ib c))) by reflexivity.
    rewrite Kf in H. clear Kf. unfold det2, solves2 in H. cbn [m2x m2y vx vy] in H.
    assert (Q : forall x y, x = 0 -> y = 0 -> x + y = 0) by (intros; lra).
    destruct (Req_bool_spec (jc_ia c + jc_ib c) 0) as [Z|Z].
    - destruct H as [H1 H2]; [specialize (D1 Z); intros E; apply D1; lra|]. split; [|intros E; now elim E]. cbn [vneg vx vy nneg R_Num] in H1. lra.
    - destruct H as [H1 H2]; [specialize (D2 Z); intros E; apply D2; lra|]. cbn [vneg vx vy nneg R_Num] in H1, H2. split; [lra|]. intros _. unfold jpush. fields. cbn [nadd nsub nmul R_Num]. lra.
  Qed.
  Lemma whe_held step d c old pa pb i s : let f := whe_frame step d c old pa pb in
    dot (wh_ay f) (wh_ay f) = 1 -> 0 < jc_ma c + jc_mb c + jc_ia c * wh_say f * wh_say f + jc_ib c * wh_sby f * wh_sby f ->
    axis_vel (wh_ay f) (wh_say f) (wh_sby f) (snd (whe_solve step d c f (i, s))) = 0.
  Proof.
    intros f U D. unfold whe_solve. destruct (if wh_limit d then _ else _) as [i1 s1]. cbn [whe_line snd].
    assert (M : wh_mass f = / (jc_ma c + jc_mb c + jc_ia c * wh_say f * wh_say f + jc_ib c * wh_sby f * wh_sby f)).
    { transitivity (inv_pos (jc_ma c + jc_mb c + jc_ia c * wh_say f * wh_say f + jc_ib c * wh_sby f * wh_sby f)).
      - unfold f, whe_frame. destruct (if _ && _ then _ else _) as [[? ?] ?]. reflexivity.
      - unfold inv_pos. rops. rewrite Rlt_bool_true by exact D. field. lra. }
    rewrite M. set (k := jc_ma c + jc_mb c + jc_ia c * wh_say f * wh_say f + jc_ib c * wh_sby f * wh_sby f) in *.
    set (x := nmul (nneg (/ k)) (axis_vel (wh_ay f) (wh_say f) (wh_sby f) s1)).
    pose proof (axis_push c (wh_ay f) (wh_say f) (wh_sby f) x 0 s1) as H. rewrite U, Rmult_0_r, !Rplus_0_r in H. transitivity (axis_vel (wh_ay f) (wh_say f) (wh_sby f) s1 + k * x).
    - unfold k. etransitivity; [exact H|ring].
    - unfold x. rops. field. lra.
  Qed.
  Lemma pulley_axis_long (u : vec2 R) : 10 * B2_LINEAR_SLOP < size u -> pulley_axis u = vmuls u (1 / size u).
  Proof. intros H. unfold pulley_axis. change (vlen u) with (size u). rops. rewrite Rlt_bool_true by exact H. reflexivity. Qed.
  Lemma pul_held d c pa pb i s : let f := pul_frame d c pa pb in let ra := pu_ra f in let rb := pu_rb f in
    let ua := vsub (vadd (p_c pa) ra) (pu_ga d) in let ub := vsub (vadd (p_c pb) rb) (pu_gb d) in let s' := snd (pul_solve d c f (i, s)) in
    10 * B2_LINEAR_SLOP < size ua -> 10 * B2_LINEAR_SLOP < size ub ->
    0 < jc_ma c + jc_ia c * (cross ra ua * cross ra ua) / (size ua * size ua) + pu_ratio d * pu_ratio d * (jc_mb c + jc_ib c * (cross rb ub * cross rb ub) / (size ub * size ub)) ->
    b2_dot ua (vadd (s_va s') (b2_cross_sv (s_wa s') ra)) / size ua + pu_ratio d * (b2_dot ub (vadd (s_vb s') (b2_cross_sv (s_wb s') rb)) / size ub) = 0.
  Proof.
    intros f ra rb ua ub s' La Lb D. pose proof slop_pos as SP.
    assert (Ua : pu_ua f = vmuls ua (1 / size ua)) by (apply pulley_axis_long; exact La).
    assert (Ub : pu_ub f = vmuls ub (1 / size ub)) by (apply pulley_axis_long; exact Lb).
    assert (Sa : vx ua * vx ua + vy ua * vy ua = size ua * size ua) by (rewrite size_sq; reflexivity).
    assert (Sb : vx ub * vx ub + vy ub * vy ub = size ub * size ub) by (rewrite size_sq; reflexivity).
    set (k := jc_ma c + jc_ia c * (cross ra ua * cross ra ua) / (size ua * size ua) + pu_ratio d * pu_ratio d * (jc_mb c + jc_ib c * (cross rb ub * cross rb ub) / (size ub * size ub))) in *.
    assert (M : pu_mass f = / k).
    { transitivity (inv_pos (jc_ma c + jc_ia c * b2_cross ra (pu_ua f) * b2_cross ra (pu_ua f) + pu_ratio d * pu_ratio d * (jc_mb c + jc_ib c * b2_cross rb (pu_ub f) * b2_cross rb (pu_ub f)))); [reflexivity|].
      rewrite Ua, Ub. match goal with |- inv_pos ?x = _ => assert (X : x = k) end. { unfold k, cross. rmathc. field. lra. }
      rewrite X. unfold inv_pos. rops. rewrite Rlt_bool_true by exact D. field. lra. }
    unfold s'. cbn [pul_solve snd]. fold ra rb.
    assert (V : pul_vel d f s = - (b2_dot ua (vadd (s_va s) (b2_cross_sv (s_wa s) ra)) / size ua + pu_ratio d * (b2_dot ub (vadd (s_vb s) (b2_cross_sv (s_wb s) rb)) / size ub))).
    { unfold pul_vel. rewrite Ua, Ub. fold ra rb. rmathc. field. lra. }
    set (x := nmul (nneg (pu_mass f)) (pul_vel d f s)).
    assert (X : x = (b2_dot ua (vadd (s_va s) (b2_cross_sv (s_wa s) ra)) / size ua + pu_ratio d * (b2_dot ub (vadd (s_vb s) (b2_cross_sv (s_wb s) rb)) / size ub)) / k). { unfold x. rewrite V, M. rops. field. lra. }
    transitivity (b2_dot ua (vadd (s_va s) (b2_cross_sv (s_wa s) ra)) / size ua + pu_ratio d * (b2_dot ub (vadd (s_vb s) (b2_cross_sv (s_wb s) rb)) / size ub) - k * x).
    2:{ rewrite X. field. lra. }
    clearbody x. clear X V M. unfold pul_kick. fields. rewrite Ua, Ub.
    transitivity (b2_dot ua (vadd (s_va s) (b2_cross_sv (s_wa s) ra)) / size ua + pu_ratio d * (b2_dot ub (vadd (s_vb s) (b2_cross_sv (s_wb s) rb)) / size ub) -
      x * (jc_ma c * ((vx ua * vx ua + vy ua * vy ua) / (size ua * size ua)) + jc_ia c * (cross ra ua * cross ra ua) / (size ua * size ua) +
        pu_ratio d * pu_ratio d * (jc_mb c * ((vx ub * vx ub + vy ub * vy ub) / (size ub * size ub)) + jc_ib c * (cross rb ub * cross rb ub) / (size ub * size ub)))).
    - unfold cross. clear D k. rmathc. field. lra.
    - rewrite Sa, Sb. unfold k. field. lra.
  Qed.
End Held.

Lemma zget_inv {A} (l : list A) z x : zget l z = Ok x -> exists n, z = Z.of_nat n /\ nth_error l n = Some x.
Proof. unfold zget. destruct (z <? 0)%Z eqn:E; try discriminate. apply Z.ltb_ge in E. intros H. apply get_inv in H. exists (Z.to_nat z). split; [now rewrite Z2Nat.id|exact H]. Qed.
Lemma zset_pair {A} (l l' : list A) a b x y p q : zget l a = Ok p -> zget l b = Ok q -> a <> b -> (v <- zset l a x ;; zset v b y) = Ok l' -> zget l' a = Ok x /\ zget l' b = Ok y.
Proof.
  intros Ga Gb N E. apply zget_inv in Ga, Gb. destruct Ga as (n & -> & Ga), Gb as (m & -> & Gb). assert (NM : n <> m) by congruence. rewrite zset_nat in E. destruct (set l n x) as [v1| |] eqn:S1; try discriminate. cbn [bind] in E. rewrite zset_nat in E.
  apply set_inv in S1, E. destruct S1 as [L1 ->], E as [L2 ->]. rewrite !zget_nat. unfold get. rewrite nth_upd_ne by auto. rewrite !nth_upd_eq by auto. auto.
Qed.

Section Held2.
  Context {TT : NumTrig R}.
  Ltac fields := cbn [s_va s_wa s_vb s_wb jc_ma jc_mb jc_ia jc_ib jc_lca jc_lcb jc_a jc_b com_of v_v v_w p_c p_a vel_a vel_b].
  Lemma arm_is (b : body R) p l : arm_of (rot_of (p_a p)) l (sw_local_center (b_sweep b)) = arm b p l.
  Proof. unfold arm, turned, arm_of, rot_of. apply vec2_ext; rmathc; ring. Qed.
  Lemma turned_is (a : R) v : rotv (rot_of a) v = turned a v.
  Proof. unfold turned, rot_of. apply vec2_ext; rmathc; ring. Qed.
  Lemma speed_is (v : vec2 R) w r : vadd v (b2_cross_sv w r) = speed_at (Vel v w) r.
  Proof. unfold speed_at. apply vec2_ext; rmathc; cbn [v_v v_w]; ring. Qed.
  Lemma speeds ra rb (s : pair R) : anchor_vel ra rb s = minus (speed_at (vel_b s) rb) (speed_at (vel_a s) ra).
  Proof. unfold anchor_vel, minus, speed_at. fields. apply vec2_ext; rmathc; ring. Qed.
  Lemma speeds_eq ra rb (s : pair R) : anchor_vel ra rb s = V2 0 0 -> speed_at (vel_a s) ra = speed_at (vel_b s) rb.
  Proof. rewrite speeds. intros H. pose proof (f_equal vx H) as X. pose proof (f_equal vy H) as Y. cbn [minus vx vy] in X, Y. apply vec2_ext; cbn [speed_at vx vy] in *; lra. Qed.
  Lemma seen_is u ra rb d (s : pair R) : axis_vel u (cross (plus ra d) u) (cross rb u) s = seen_along u ra rb d (vel_a s) (vel_b s).
  Proof. unfold axis_vel, seen_along, cross, plus, minus, dot, speed_at. fields. rmathc. ring. Qed.
  Lemma between_arms (pa pb : pos R) ra rb : minus (at_arm pb rb) (at_arm pa ra) = vsub (vsub (vadd (p_c pb) rb) (p_c pa)) ra.
  Proof. unfold minus, at_arm. apply vec2_ext; rmathc; ring. Qed.
  Lemma between_arms' (pa pb : pos R) ra rb : minus (at_arm pb rb) (at_arm pa ra) = vsub (vadd (vsub (p_c pb) (p_c pa)) rb) ra.
  Proof. unfold minus, at_arm. apply vec2_ext; rmathc; ring. Qed.
  Hypothesis unit_trig : forall a : R, nsin a * nsin a + ncos a * ncos a = 1.
  Lemma turned_unit a v : dot v v = 1 -> dot (turned a v) (turned a v) = 1.
  Proof. unfold dot, turned. cbn [vx vy]. intros H. transitivity ((nsin a * nsin a + ncos a * ncos a) * (vx v * vx v + vy v * vy v)); [ring|]. rewrite unit_trig, H. ring. Qed.

  Theorem joint_held step j0 a b c d poss vels0 j1 vels1 j vels j2 vels2 pa pb va vb :
    joint_init step j0 a b c d poss vels0 = Ok (j1, vels1) -> same_joint j1 j -> joint_vel step j vels = Ok (j2, vels2) ->
    b_island_index a <> b_island_index b -> zget poss (b_island_index a) = Ok pa -> zget poss (b_island_index b) = Ok pb ->
    zget vels2 (b_island_index a) = Ok va -> zget vels2 (b_island_index b) = Ok vb ->
    invertible (j_kind j0) a b pa pb -> holds (j_kind j0) a b pa pb va vb.
  Proof.
    intros E0 (Ec & _ & EQ) E1 N Pa Pb Va Vb Iv. unfold joint_init in E0. destruct (kind_init _ _ _ _ _ _) as [[k v]| |] eqn:K0; try discriminate. cbn [bind] in E0. injection E0 as <- <-. cbn [j_com j_kind] in *.
    unfold joint_vel in E1. rewrite Ec in E1. destruct (kind_vel _ _ _ _ _) as [[k2 v2]| |] eqn:K1; try discriminate. cbn [bind] in E1. injection E1 as <- <-.
    destruct (j_kind j0) as [d0 i0 f0|d0 i0 f0|d0 i0 f0|d0 i0 f0|d0 i0 f0|d0 i0 f0|d0 i0 f0|d0 i0 f0|d0 i0 f0|d0 i0 f0] eqn:KK; try exact I; cbn [kind_init] in K0; cbn [jc_a jc_b com_of] in K0; rewrite Pa, Pb in K0; cbn [bind] in K0;
      (match type of K0 with context [on_pair ?c ?f ?v] => destruct (on_pair c f v) as [[ii vv]| |]; try discriminate K0; cbn [bind] in K0; injection K0 as <- <- end);
      (destruct (j_kind j) as [d1 i1 f1|d1 i1 f1|d1 i1 f1|d1 i1 f1|d1 i1 f1|d1 i1 f1|d1 i1 f1|d1 i1 f1|d1 i1 f1|d1 i1 f1]; try contradiction EQ; try exact I; destruct EQ as [-> ->]; cbn [kind_vel] in K1;
       match type of K1 with context [on_pair ?c ?f ?v] => destruct (on_pair c f v) as [[i2 v3]| |] eqn:G; try discriminate K1; cbn [bind] in K1; injection K1 as <- <- end;
       apply on_pair_inv in G; destruct G as (va0 & vb0 & s' & Ga & Gb & F & Z); destruct (zset_pair _ _ _ _ _ _ _ _ Ga Gb N Z) as [Za Zb]; cbn [jc_a jc_b com_of] in Za, Zb;
       rewrite Va in Za; rewrite Vb in Zb; injection Za as ->; injection Zb as ->; apply (f_equal snd) in F; cbn [snd] in F; subst s'; cbn [holds]; cbn [invertible] in Iv; rewrite <- !arm_is in *).
    - apply speeds_eq. apply (rev_held step d0 (com_of a b) pa pb). exact Iv.
    - destruct Iv as (U & D1 & D2). pose proof (pri_held step d0 (com_of a b) f0 pa pb i1 (vpair va0 vb0)) as H. cbv zeta in H. cbn [pri_frame pr_perp pr_s1 pr_s2] in H. fields. cbn [jc_ma jc_mb jc_ia jc_ib jc_lca jc_lcb com_of] in H. rewrite turned_is in H.
      set (ra := arm_of _ (pr_la d0) _) in *. set (rb := arm_of _ (pr_lb d0) _) in *. rewrite <- between_arms' in H. replace (vadd (minus (at_arm pb rb) (at_arm pa ra)) ra) with (plus ra (minus (at_arm pb rb) (at_arm pa ra))) in H by (unfold plus; apply vec2_ext; rmathc; ring).
      specialize (H (turned_unit _ _ U) D1 D2). destruct H as [H1 H2]. split; [|exact H2]. rewrite <- seen_is. exact H1.
    - intros M. destruct Iv as [L K]. pose proof (dis_held step d0 (com_of a b) pa pb i1 (vpair va0 vb0)) as H. cbv zeta in H.
      assert (Ra : di_ra (dis_frame step d0 (com_of a b) pa pb) = arm_of (rot_of (p_a pa)) (di_la d0) (sw_local_center (b_sweep a))) by (unfold dis_frame; destruct (_ && _); reflexivity).
      assert (Rb : di_rb (dis_frame step d0 (com_of a b) pa pb) = arm_of (rot_of (p_a pb)) (di_lb d0) (sw_local_center (b_sweep b))) by (unfold dis_frame; destruct (_ && _); reflexivity).
      rewrite Ra, Rb in H. rewrite <- between_arms in H. specialize (H L K M). rewrite speeds in H. exact H.
    - destruct Iv as [D2 D3]. pose proof (wel_held step d0 (com_of a b) pa pb i1 (vpair va0 vb0)) as H. cbv zeta in H. destruct (wel_arms step d0 (com_of a b) pa pb) as [Ra Rb]. cbv zeta in Ra, Rb. rewrite Ra, Rb in H. destruct (H D2 D3) as [H1 H2]. split; [apply speeds_eq; exact H1|exact H2].
    - destruct Iv as [U D]. pose proof (whe_held step d0 (com_of a b) f0 pa pb i1 (vpair va0 vb0)) as H. cbv zeta in H.
      set (ra := arm_of _ (wh_la d0) _) in *. set (rb := arm_of _ (wh_lb d0) _) in *. set (f := whe_frame step d0 (com_of a b) f0 pa pb) in *.
      assert (A : wh_ay f = turned (p_a pa) (wh_ly d0)). { rewrite <- turned_is. unfold f, whe_frame. destruct (if _ && _ then _ else _) as [[? ?] ?]. reflexivity. }
      assert (S1 : wh_say f = cross (plus ra (minus (at_arm pb rb) (at_arm pa ra))) (wh_ay f)). { unfold f, whe_frame. destruct (if _ && _ then _ else _) as [[? ?] ?]. cbn [wh_say wh_ay jc_lca jc_lcb com_of]. fold ra rb. rewrite <- between_arms. unfold cross, plus. rmathc. ring. }
      assert (S2 : wh_sby f = cross rb (wh_ay f)). { unfold f, whe_frame. destruct (if _ && _ then _ else _) as [[? ?] ?]. reflexivity. }
      rewrite S1, S2, A in H. specialize (H (turned_unit _ _ U) D). rewrite seen_is in H. exact H.
    - destruct Iv as (La & Lb & D). pose proof (pul_held d0 (com_of a b) pa pb i1 (vpair va0 vb0)) as H. cbv zeta in H. rewrite !speed_is in H. exact (H La Lb D).
  Qed.

  (* the masses of bodies can be inverted *)
  Theorem masses_invertible k a b pa pb : can_move a b -> has_direction k a b pa pb -> invertible k a b pa pb.
  Proof.
    intros (Ma & Mb & Ia & Ib & M). unfold invertible, has_direction. set (m := b_inv_mass a + b_inv_mass b) in *. set (ia := b_inv_i a) in *. set (ib := b_inv_i b) in *.
    assert (SQ : forall x : R, 0 <= x * x) by (intros; nra). assert (DD : forall v, 0 <= dot v v) by (intros v; unfold dot; pose proof (SQ (vx v)); pose proof (SQ (vy v)); lra).
    assert (P : forall ra rb, m * m + m * (ia * dot ra ra + ib * dot rb rb) + ia * ib * (cross ra rb * cross ra rb) <> 0).
    { intros ra rb. assert (0 < m * m) by nra. assert (0 <= ia * dot ra ra) by (apply Rmult_le_pos; auto). assert (0 <= ib * dot rb rb) by (apply Rmult_le_pos; auto).
      assert (0 <= m * (ia * dot ra ra + ib * dot rb rb)) by (apply Rmult_le_pos; lra). assert (0 <= ia * ib * (cross ra rb * cross ra rb)) by (apply Rmult_le_pos; auto; apply Rmult_le_pos; auto). lra. }
    assert (Q : forall i s, 0 <= i -> 0 <= i * s * s) by (intros i s Hi; rewrite Rmult_assoc; apply Rmult_le_pos; auto).
    destruct k as [d i f|d i f|d i f|d i f|d i f|d i f|d i f|d i f|d i f|d i f]; intros H; auto.
    - refine (conj H (conj _ _)); intros Z.
      + assert (ia = 0 /\ ib = 0) as [-> ->] by lra. lra.
      + set (s1 := cross _ _). set (s2 := cross _ _). assert (0 < m * (ia + ib)) by (apply Rmult_lt_0_compat; lra). assert (0 <= ia * ib * ((s1 - s2) * (s1 - s2))) by (apply Rmult_le_pos; auto; apply Rmult_le_pos; auto). lra.
    - split; [exact H|]. set (u := minus _ _) in *. set (ra := arm a pa _). set (rb := arm b pb _). assert (0 < dot u u). { pose proof slop_pos. pose proof (size_sq u) as S. change (vlen2 u) with (dot u u) in S. rewrite <- S. apply Rmult_lt_0_compat; lra. }
      assert (0 < m * dot u u) by (apply Rmult_lt_0_compat; lra). assert (0 <= ia * (cross ra u * cross ra u)) by (apply Rmult_le_pos; auto). assert (0 <= ib * (cross rb u * cross rb u)) by (apply Rmult_le_pos; auto). lra.
    - split; [intros _; apply P|]. intros Z. set (r := minus _ _). assert (0 < m * m * (ia + ib)) by (apply Rmult_lt_0_compat; [nra|lra]). assert (0 <= m * (ia * ib * dot r r)). { apply Rmult_le_pos; [lra|]. apply Rmult_le_pos; auto. apply Rmult_le_pos; auto. } lra.
    - split; [exact H|]. set (s1 := cross _ _). set (s2 := cross _ _). pose proof (Q ia s1 Ia). pose proof (Q ib s2 Ib). lra.
    - destruct H as (La & Lb & Rr). refine (conj La (conj Lb _)). set (ua := minus _ _) in *. set (ub := minus _ (pu_gb d)) in *. set (ra := arm a pa _). set (rb := arm b pb _). pose proof slop_pos.
      assert (IA : 0 < / (size ua * size ua)) by (apply Rinv_0_lt_compat, Rmult_lt_0_compat; lra). assert (IB : 0 < / (size ub * size ub)) by (apply Rinv_0_lt_compat, Rmult_lt_0_compat; lra).
      assert (0 <= ia * (cross ra ua * cross ra ua) / (size ua * size ua)) by (apply Rmult_le_pos; [apply Rmult_le_pos; auto|lra]). assert (B : 0 <= ib * (cross rb ub * cross rb ub) / (size ub * size ub)) by (apply Rmult_le_pos; [apply Rmult_le_pos; auto|lra]).
      assert (0 < pu_ratio d * pu_ratio d) by (destruct (Rdichotomy _ _ Rr); nra).
      destruct (Rle_lt_or_eq_dec _ _ Ma) as [X|X].
      + assert (0 <= pu_ratio d * pu_ratio d * (b_inv_mass b + ib * (cross rb ub * cross rb ub) / (size ub * size ub))) by (apply Rmult_le_pos; lra). lra.
      + unfold m in M. assert (0 < pu_ratio d * pu_ratio d * (b_inv_mass b + ib * (cross rb ub * cross rb ub) / (size ub * size ub))) by (apply Rmult_lt_0_compat; lra). lra.
  Qed.

  (* iterations change nothing but the impulses *)
  Lemma same_joint_refl j : same_joint j j.
  Proof. unfold same_joint. destruct (j_kind j); auto. Qed.
  Lemma same_joint_vel step j1 j vels j2 vels2 : same_joint j1 j -> joint_vel step j vels = Ok (j2, vels2) -> same_joint j1 j2.
  Proof.
    intros (E1 & E2 & E3) E. unfold joint_vel in E. destruct (kind_vel _ _ _ _ _) as [[k v]| |] eqn:K; try discriminate. cbn [bind] in E. injection E as <- <-. refine (conj E1 (conj E2 _)). cbn [j_kind].
    destruct (j_kind j1), (j_kind j); try contradiction E3; cbn [kind_vel] in K;
      (match type of K with context [on_pair ?c ?f ?v] => destruct (on_pair c f v) as [[? ?]| |]; try discriminate K; cbn [bind] in K; injection K as <- <-
       | context [on_b ?c ?f ?v] => destruct (on_b c f v) as [[? ?]| |]; try discriminate K; cbn [bind] in K; injection K as <- <-
       | context [on_four ?c ?c2 ?f ?v] => destruct (on_four c c2 f v) as [[? ?]| |]; try discriminate K; cbn [bind] in K; injection K as <- <- end); exact E3.
  Qed.
End Held2.

(* the last joint of an island holds at the end of the phase *)
Section Last.
  Context {TT : NumTrig R}.
  Hypothesis unit_trig : forall a : R, nsin a * nsin a + ncos a * ncos a = 1.
  Definition prepared (step : tstep R) (x : jin R) (poss : list (pos R)) (y : jin R) : Prop := ji_a y = ji_a x /\ ji_b y = ji_b x /\
    exists vels0 j1 vels1, joint_init step (ji_joint x) (ji_a x) (ji_b x) (ji_c x) (ji_d x) poss vels0 = Ok (j1, vels1) /\ same_joint j1 (ji_joint y).
  Lemma each_item_last {C S} (P Q : C -> Prop) (J : C -> S -> Prop) (f : C -> S -> res (C * S)) : forall l x s l' s', P x -> (forall s x' s', f x s = Ok (x', s') -> Q x' /\ J x' s') -> each_item f (l ++ [x]) s = Ok (l', s') -> exists l1 x', l' = l1 ++ [x'] /\ Q x' /\ J x' s'.
  Proof.
    induction l as [|c l IH]; intros x s l' s' Px H E; cbn [each_item app] in E.
    - destruct (f x s) as [[x1 s1]| |] eqn:F; try discriminate. cbn [bind] in E. assert (l' = [x1] /\ s' = s1) as [-> ->] by (split; congruence). exists [], x1. destruct (H _ _ _ F). auto.
    - destruct (f c s) as [[c1 s1]| |] eqn:F; try discriminate. cbn [bind] in E. destruct (each_item f (l ++ [x]) s1) as [[l1 s2]| |] eqn:G; try discriminate. cbn [bind] in E. assert (l' = c1 :: l1 /\ s' = s2) as [-> ->] by (split; congruence).
      destruct (IH _ _ _ _ Px H G) as (l2 & x2 & -> & A & B). exists (c1 :: l2), x2. auto.
  Qed.
  Theorem last_held step n js x poss vels js' vels' pa pb va vb :
    joint_phase step (S n) (js ++ [x]) poss vels = Ok (js', vels') ->
    b_island_index (ji_a x) <> b_island_index (ji_b x) -> zget poss (b_island_index (ji_a x)) = Ok pa -> zget poss (b_island_index (ji_b x)) = Ok pb ->
    zget vels' (b_island_index (ji_a x)) = Ok va -> zget vels' (b_island_index (ji_b x)) = Ok vb ->
    invertible (j_kind (ji_joint x)) (ji_a x) (ji_b x) pa pb -> holds (j_kind (ji_joint x)) (ji_a x) (ji_b x) pa pb va vb.
  Proof.
    intros E N Pa Pb Va Vb Iv. unfold joint_phase in E. fold (init_one step) in E. destruct (each_item (init_one step) (js ++ [x]) (poss, vels)) as [[js1 [poss1 vels1]]| |] eqn:G; try discriminate. cbn [bind] in E.
    assert (X : exists l y, js1 = l ++ [y] /\ prepared step x poss y).
    { clear E. revert G. generalize js1. generalize vels. clear - x. induction js as [|c l IH]; intros v js1 G; cbn [each_item app] in G.
      - destruct (init_one step x (poss, v)) as [[y st]| |] eqn:I1; try discriminate. cbn [bind] in G. exists [], y. split; [cbn; congruence|]. unfold init_one, joint_solver in I1. cbn [js_init fst snd] in I1. destruct (joint_init _ _ _ _ _ _ _ _) as [[j1 v1]| |] eqn:J; try discriminate. cbn [bind] in I1.
        assert (y = with_joint x j1) as -> by congruence. split; [reflexivity|]. split; [reflexivity|]. exists v, j1, v1. split; [exact J|apply same_joint_refl].
      - destruct (init_one step c (poss, v)) as [[c1 st]| |] eqn:I1; try discriminate. cbn [bind] in G. apply init_one_inv in I1. destruct I1 as (k & v2 & _ & -> & _). destruct (each_item _ (l ++ [x]) _) as [[l1 s2]| |] eqn:K; try discriminate. cbn [bind] in G.
        assert (s2 = (poss1, vels1)) as -> by congruence. destruct (IH _ _ K) as (l2 & y & -> & P). exists (c1 :: l2), y. split; [cbn; congruence|exact P]. }
    destruct X as (l & y & -> & P). unfold for_range in E. rewrite Nat.sub_0_r in E. clear G.
    assert (Hv : forall y s y' s', prepared step x poss y -> js_vel joint_solver step y s = Ok (y', s') -> prepared step x poss y' /\ (forall va vb, zget s' (b_island_index (ji_a x)) = Ok va -> zget s' (b_island_index (ji_b x)) = Ok vb -> holds (j_kind (ji_joint x)) (ji_a x) (ji_b x) pa pb va vb)).
    { clear - Pa Pb N Iv unit_trig. intros y s y' s' (Ea & Eb & v0 & j1 & v1 & J & S) E. unfold joint_solver in E. cbn [js_vel] in E. destruct (joint_vel step (ji_joint y) s) as [[j2 s2]| |] eqn:V; try discriminate. cbn [bind] in E. assert (y' = with_joint y j2 /\ s' = s2) as [-> ->] by (split; congruence). split.
      - split; [exact Ea|]. split; [exact Eb|]. exists v0, j1, v1. split; [exact J|]. cbn [with_joint ji_joint]. eapply same_joint_vel; eauto.
      - intros va vb Va Vb. eapply (joint_held unit_trig); eauto. }
    assert (L : exists l' y', js' = l' ++ [y'] /\ prepared step x poss y' /\ (forall va vb, zget vels' (b_island_index (ji_a x)) = Ok va -> zget vels' (b_island_index (ji_b x)) = Ok vb -> holds (j_kind (ji_joint x)) (ji_a x) (ji_b x) pa pb va vb)).
    { apply (for_range_last (fun st => exists l y, fst st = l ++ [y] /\ prepared step x poss y) (fun st => exists l' y', fst st = l' ++ [y'] /\ prepared step x poss y' /\ (forall va vb, zget (snd st) (b_island_index (ji_a x)) = Ok va -> zget (snd st) (b_island_index (ji_b x)) = Ok vb -> holds (j_kind (ji_joint x)) (ji_a x) (ji_b x) pa pb va vb)) ) in E; [exact E| |exists l, y; auto].
      intros i [a b] [a' b'] (l0 & y0 & E0 & P0) E1. cbn [fst snd] in *. subst a.
      destruct (each_item_last (prepared step x poss) (prepared step x poss) (fun _ s' => forall va vb, zget s' (b_island_index (ji_a x)) = Ok va -> zget s' (b_island_index (ji_b x)) = Ok vb -> holds (j_kind (ji_joint x)) (ji_a x) (ji_b x) pa pb va vb) _ _ _ _ _ _ P0 (fun s x' s' H => Hv y0 s x' s' P0 H) E1) as (l2 & y2 & -> & A & B).
      split; exists l2, y2; auto. }
    destruct L as (l' & y' & _ & _ & L). now apply L.
  Qed.
End Last.
