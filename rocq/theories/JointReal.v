(** The joint solvers in exact real arithmetic: strength and momentum. *)
From Coq Require Import List ZArith Bool Arith Reals Lia Lra.
From Flocq Require Import Core IEEE754.BinarySingleNaN.
From Verif Require Import Base Num NumLaws Math RTac Manifold ListFacts DynModel SolverModel IslandModel SolverSpec SolverProofs SolverReal JointModel JointSpec JointProofs.
Import ListNotations.
Local Open Scope R_scope.

(** ** products of numbers that are not negative *)
Lemma mul_not_negative_f32 (x y : f32) : not_negative x -> not_negative y -> not_negative (nmul x y).
Proof.
  unfold not_negative. change (nofZ 0 : f32) with (B754_zero false : f32). cbn [nlt nmul F32_Num].
  destruct x as [sx|sx| |sx mx ex Bx], y as [sy|sy| |sy my ey By]; try destruct sx; try destruct sy; intros Hx Hy; try reflexivity; try discriminate Hx; try discriminate Hy.
  generalize (Bmult_correct 24 128 _ _ mode_NE (B754_finite false mx ex Bx) (B754_finite false my ey By)). destruct (Rlt_bool _ _).
  - intros (E & F & _). cbn [is_finite andb] in F. rewrite (Bltb_correct 24 128 _ (B754_zero false)) by easy. apply Rlt_bool_false'. rewrite E. cbn [B2R].
    apply round_ge_generic; try typeclasses eauto. apply generic_format_0. apply Rmult_le_pos; apply F2R_ge_0; cbn; lia.
  - intros E. unfold Bltb. rewrite E. reflexivity.
Qed.
Lemma mul_not_negative_R (x y : R) : not_negative x -> not_negative y -> not_negative (nmul x y).
Proof. unfold not_negative. rops. rewrite !Rlt_bool_false'. apply Rmult_le_pos. Qed.
Lemma opp_le_R (m : R) : nonneg m -> nle (nneg m) m = true.
Proof. unfold nonneg. rops. rewrite !Rle_bool_true'. lra. Qed.

(** ** strength *)
Lemma size_scale (v : vec2 R) k : size (vmuls v k) = Rabs k * size v.
Proof.
  unfold size. rmathc. replace (vx v * k * (vx v * k) + vy v * k * (vy v * k)) with (k * k * (vx v * vx v + vy v * vy v)) by ring.
  rewrite sqrt_mult_alt by nra. f_equal. apply sqrt_Rsqr_abs.
Qed.
Lemma size_pos (v : vec2 R) : 0 <= size v.
Proof. apply sqrt_pos. Qed.
Lemma size_sq (v : vec2 R) : size v * size v = vlen2 v.
Proof. unfold size. rmathc. apply sqrt_sqrt. nra. Qed.
Lemma size_normalize (v : vec2 R) : size (snd (vnormalize v)) <= 1.
Proof.
  unfold vnormalize. change (vlen v) with (size v). rops. rcase.
  - cbn [snd]. unfold B2_EPSILON, nlit in H. rops. lra.
  - cbn [snd]. pose proof eps_pos. change (V2 (vx v * (1 / size v)) (vy v * (1 / size v))) with (vmuls v (1 / size v)). rewrite size_scale.
    rewrite Rabs_pos_eq by (apply Rlt_le, Rdiv_lt_0_compat; lra). right. field. lra.
Qed.
Lemma size_le (v : vec2 R) m : 0 <= m -> vlen2 v <= m * m -> size v <= m.
Proof. intros M H. rewrite <- size_sq in H. pose proof (size_pos v). nra. Qed.
Lemma cap_size (m : R) (l : vec2 R) : 0 <= m -> size (cap_impulse m l) <= m.
Proof.
  intros M. unfold cap_impulse. rops. rcase.
  - rewrite size_scale, Rabs_pos_eq by lra. pose proof (size_normalize l). nra.
  - apply size_le; auto.
Qed.
Lemma mouse_size (m : R) (l : vec2 R) : 0 <= m -> size (if nlt (nmul m m) (vlen2 l) then vmuls l (m / size l) else l) <= m.
Proof.
  intros M. rops. rcase.
  - rewrite size_scale. pose proof (size_pos l). rewrite <- size_sq in H. assert (0 < size l) by nra. rewrite Rabs_pos_eq by (apply Rmult_le_pos; [lra|apply Rlt_le, Rinv_0_lt_compat; lra]). right. field. lra.
  - apply size_le; auto.
Qed.

Section Phase.
  Context {TT : NumTrig R}.
  Ltac onpair E := match type of E with
    | context [on_pair ?c ?f ?v] => let G := fresh "G" in destruct (on_pair c f v) as [[? ?]| |] eqn:G; try discriminate E; cbn [bind] in E; apply on_pair_inv in G; destruct G as (? & ? & ? & ? & ? & G & ?)
    | context [on_b ?c ?f ?v] => let G := fresh "G" in destruct (on_b c f v) as [[? ?]| |] eqn:G; try discriminate E; cbn [bind] in E; apply on_b_inv in G; destruct G as (? & ? & ? & G & ?)
    end.

  (* the motor is off *)
  Definition motor_rest (j : jnt R) : Prop :=
    match j_kind j with
    | JRevolute d i _ => rv_motor d = false \/ jc_ia (j_com j) + jc_ib (j_com j) = 0 -> rv_im i = 0
    | JPrismatic d i _ => pr_motor d = false -> pr_im i = 0
    | _ => True
    end.
  Lemma init_rest step k c c2 poss vels k' vels' : kind_init step k c c2 poss vels = Ok (k', vels') -> motor_rest (Jnt k' c c2).
  Proof.
    intros E. destruct k; cbn [kind_init] in E;
      repeat match type of E with context [zget ?l ?i] => destruct (zget l i) as [?| |]; try discriminate E; cbn [bind] in E end;
      try (onpair E; injection E as <- <-; match goal with G : _ = (_, _) |- _ => apply (f_equal fst) in G; cbn [fst] in G; subst end);
      try (destruct (on_four _ _ _ _) as [[? ?]| |]; try discriminate; cbn [bind] in E; injection E as <- <-); unfold motor_rest; cbn [j_kind j_com]; auto.
    - intros Hm. unfold rev_warm. destruct (ts_warm step); [|reflexivity]. rops.
      assert (Q : negb (rv_motor d) || negb (Rlt_bool 0 (jc_ia c + jc_ib c)) = true).
      { destruct Hm as [-> | ->]; [reflexivity|]. rewrite Rlt_bool_false by lra. apply orb_true_r. }
      rewrite Q. cbn [rv_im fst]. ring.
    - intros Hm. unfold pri_warm. destruct (ts_warm step); [|reflexivity]. rewrite Hm. destruct (pr_limit d); cbn [pr_im fst]; rops; ring.
  Qed.
  Lemma vel_rest step k c c2 vels k' vels' : kind_vel step k c c2 vels = Ok (k', vels') -> motor_rest (Jnt k c c2) -> motor_rest (Jnt k' c c2).
  Proof.
    intros E. destruct k; cbn [kind_vel] in E; try (onpair E; injection E as <- <-; match goal with G : _ = (_, _) |- _ => apply (f_equal fst) in G; cbn [fst] in G; subst end);
      try (destruct (on_four _ _ _ _) as [[? ?]| |]; try discriminate; cbn [bind] in E; injection E as <- <-); unfold motor_rest; cbn [j_kind j_com]; auto.
    - intros Hm Q. specialize (Hm Q). unfold rev_solve. rops. rewrite rev_point_im.
      assert (M : rv_motor d && negb (Req_bool (jc_ia c + jc_ib c) 0) = false). { destruct Q as [-> | Q]; [reflexivity|]. rewrite Req_bool_true by auto. apply andb_false_r. }
      rewrite M. destruct (rv_limit d && _); [rewrite rev_limits_im|]; exact Hm.
    - intros Hm Q. specialize (Hm Q). unfold pri_solve. rewrite Q, pri_block_im. destruct (pr_limit d); [rewrite pri_limits_im|]; exact Hm.
  Qed.

  (* the friction and mouse impulses are cut to length *)
  Definition cut (step : tstep R) (j : jnt R) : Prop :=
    match j_kind j with
    | JFriction d i _ => 0 <= ts_dt step * fr_force d -> size (li_l i) <= ts_dt step * fr_force d
    | JMotor d i _ => 0 <= ts_dt step * mo_force d -> size (li_l i) <= ts_dt step * mo_force d
    | JMouse d i _ => 0 <= ts_dt step * ms_force d -> size i <= ts_dt step * ms_force d
    | _ => True
    end.
  Lemma kind_cut step k c c2 vels k' vels' : kind_vel step k c c2 vels = Ok (k', vels') -> cut step (Jnt k' c c2).
  Proof.
    intros E. destruct k; cbn [kind_vel] in E; try (onpair E; injection E as <- <-; match goal with G : _ = (_, _) |- _ => apply (f_equal fst) in G; cbn [fst] in G; subst end);
      try (destruct (on_four _ _ _ _) as [[? ?]| |]; try discriminate; cbn [bind] in E; injection E as <- <-); unfold cut; cbn [j_kind j_com]; auto; intros Hm.
    - apply cap_size. exact Hm.
    - apply cap_size. exact Hm.
    - unfold mou_solve. cbv zeta. cbn [fst]. apply mouse_size. exact Hm.
  Qed.
  Lemma limited_abs (b x : R) : limited b x -> 0 <= b -> Rabs x <= b.
  Proof. unfold limited, nonneg, between. rops. rewrite !Rle_bool_true'. intros H P. destruct (H P). apply Rabs_le. lra. Qed.
  Lemma strong_within step j : strong step j -> cut step j -> motor_rest j -> within_strength step j.
  Proof.
    destruct j as [k c c2]. unfold strong, cut, motor_rest, within_strength. cbn [j_kind j_com]. destruct k; intros S C M; auto.
    - intros P. destruct (rv_motor d); [|rewrite M, Rabs_R0 by auto; exact P]. rops. destruct (Req_bool_spec (jc_ia c + jc_ib c) 0) as [Q|Q]; [rewrite M, Rabs_R0 by auto; exact P|]. apply limited_abs; auto.
    - intros P. destruct (pr_motor d); [|rewrite M, Rabs_R0 by auto; exact P]. apply limited_abs; auto.
    - apply limited_abs; auto.
    - split; [|exact C]. apply limited_abs; auto.
    - split; [|exact C]. apply limited_abs; auto.
  Qed.
  Theorem phase_within step n js poss vels js' vels' : joint_phase step (S n) js poss vels = Ok (js', vels') -> Forall (fun x => within_strength step (ji_joint x)) js'.
  Proof.
    intros E. pose proof E as E1. pose proof E as E2. apply (phase_strong opp_le_R) in E1.
    apply (phase_last (fun x => cut step (ji_joint x))) in E2. 2:{ intros x v x' v' H. apply vel_one_inv in H. destruct H as (k & H & ->). cbn [with_joint ji_joint]. eapply kind_cut; eauto. }
    assert (M : Forall (fun x => motor_rest (ji_joint x)) js').
    { apply (phase_keeps (fun _ => True) (fun x => motor_rest (ji_joint x)) (fun _ => True) step (S n) js poss vels js' vels'); [| |apply Forall_forall; auto|exact I|exact E].
      - intros x v x' v' _ _ H. split; [|exact I]. apply init_one_inv in H. destruct H as (k & v2 & H & _ & ->). cbn [with_joint ji_joint]. eapply init_rest; eauto.
      - intros x v x' v' P _ H. split; [|exact I]. apply vel_one_inv in H. destruct H as (k & H & ->). cbn [with_joint ji_joint]. eapply vel_rest; eauto. }
    rewrite Forall_forall in *. intros x H. apply strong_within; auto.
  Qed.

  (** ** momentum *)
  Lemma pair_ext (s t : pair R) : vx (s_va s) = vx (s_va t) -> vy (s_va s) = vy (s_va t) -> s_wa s = s_wa t -> vx (s_vb s) = vx (s_vb t) -> vy (s_vb s) = vy (s_vb t) -> s_wb s = s_wb t -> s = t.
  Proof. destruct s as [[] ? [] ?], t as [[] ? [] ?]. cbn. congruence. Qed.

  Section Pushed.
    Variables (ba bb : body R) (bal : Prop).
    Let c := com_of ba bb.
    Let Ca := sw_c (b_sweep ba).
    Let Cb := sw_c (b_sweep bb).
    Definition balanced (p : vec2 R) (la lb : R) : Prop := b2_cross Ca p + la = b2_cross Cb p + lb.
    (* the velocities are changed by equal and opposite impulses, which have no moment if [bal] *)
    Definition pushed (s s' : pair R) : Prop := exists p la lb, s' = jpush c p la lb s /\ (bal -> balanced p la lb).
    Lemma pushed_refl s : pushed s s.
    Proof. exists (V2 0 0), 0, 0. split; [|intros _; unfold balanced; rmathc; ring]. apply pair_ext; unfold jpush; cbn [s_va s_wa s_vb s_wb]; rmathc; ring. Qed.
    Lemma pushed_trans s t u : pushed s t -> pushed t u -> pushed s u.
    Proof.
      intros (p & la & lb & -> & B1) (q & ma & mb & -> & B2). exists (vadd p q), (la + ma), (lb + mb). split.
      - apply pair_ext; unfold jpush; cbn [s_va s_wa s_vb s_wb]; rmathc; ring.
      - intros B. specialize (B1 B). specialize (B2 B). unfold balanced in *. rmath. lra.
    Qed.
    Lemma pushed_push p la lb s : (bal -> balanced p la lb) -> pushed s (jpush c p la lb s).
    Proof. intros H. exists p, la, lb. auto. Qed.
    Lemma pushed_pull p la lb s : (bal -> balanced p la lb) -> pushed s (jpull c p la lb s).
    Proof.
      intros H. exists (vneg p), (- la), (- lb). split.
      - apply pair_ext; unfold jpush, jpull; cbn [s_va s_wa s_vb s_wb]; rmathc; ring.
      - intros B. specialize (H B). unfold balanced in *. rmath. lra.
    Qed.
    Lemma pushed_spin l s : pushed s (jspin c l s).
    Proof.
      exists (V2 0 0), l, l. split; [|intros _; unfold balanced; rmathc; ring]. apply pair_ext; unfold jpush, jspin; cbn [s_va s_wa s_vb s_wb]; rmathc; ring.
    Qed.
    Lemma pushed_unspin l s : pushed s (junspin c l s).
    Proof.
      exists (V2 0 0), (- l), (- l). split; [|intros _; unfold balanced; rmathc; ring]. apply pair_ext; unfold jpush, junspin; cbn [s_va s_wa s_vb s_wb]; rmathc; ring.
    Qed.
    Definition meet (ra rb : vec2 R) : Prop := vadd Ca ra = vadd Cb rb.
    Lemma meet_balanced ra rb p l : meet ra rb -> balanced p (b2_cross ra p + l) (b2_cross rb p + l).
    Proof.
      unfold meet, balanced. intros H. pose proof (f_equal vx H) as X. pose proof (f_equal vy H) as Y. rmath. replace (vx rb) with (vx Ca + vx ra - vx Cb) by lra. replace (vy rb) with (vy Ca + vy ra - vy Cb) by lra. ring.
    Qed.
    Lemma pushed_point ra rb p s : (bal -> meet ra rb) -> pushed s (jpoint c ra rb p s).
    Proof. intros H. apply pushed_push. intros B. pose proof (meet_balanced ra rb p 0 (H B)) as M. unfold balanced in *. lra. Qed.
    (* along the line between the anchors *)
    Definition along (ra rb u : vec2 R) : Prop := b2_cross (vsub (vadd Cb rb) (vadd Ca ra)) u = 0.
    Lemma pushed_along ra rb u k s : (bal -> along ra rb u) -> pushed s (jpoint c ra rb (vscale k u) s).
    Proof.
      intros H. apply pushed_push. intros B. specialize (H B). unfold along, balanced in *. rmath.
      match type of H with ?X = 0 => assert (Q : k * X = 0) by (rewrite H; ring) end. lra.
    Qed.
    (* the arms of body a reach to the anchor of body b *)
    Definition reaches (rb u : vec2 R) (s1 s2 : R) : Prop := s1 = b2_cross (vsub (vadd Cb rb) Ca) u /\ s2 = b2_cross rb u.
    Lemma reaches_balanced rb u s1 s2 k : reaches rb u s1 s2 -> balanced (vscale k u) (k * s1) (k * s2).
    Proof. intros [-> ->]. unfold balanced. rmathc. ring. Qed.
    Lemma balanced_add p q la lb ma mb : balanced p la lb -> balanced q ma mb -> balanced (vadd p q) (la + ma) (lb + mb).
    Proof. unfold balanced. intros. rmath. lra. Qed.
    Lemma balanced_spin p la lb l : balanced p la lb -> balanced p (la + l) (lb + l).
    Proof. unfold balanced. intros. lra. Qed.

    (* what the frames have to satisfy if [bal] *)
    Definition frame_fits (k : jkind R) : Prop :=
      match k with
      | JRevolute _ _ f => meet (rv_ra f) (rv_rb f)
      | JWeld _ _ f => meet (we_ra f) (we_rb f)
      | JFriction _ _ f => meet (fr_ra f) (fr_rb f)
      | JMotor _ _ f => meet (mo_ra f) (mo_rb f)
      | JDistance _ _ f => along (di_ra f) (di_rb f) (di_u f)
      | JPrismatic _ _ f => exists rb, reaches rb (pr_perp f) (pr_s1 f) (pr_s2 f) /\ reaches rb (pr_axis f) (pr_a1 f) (pr_a2 f)
      | JWheel _ _ f => exists rb, reaches rb (wh_ay f) (wh_say f) (wh_sby f) /\ reaches rb (wh_ax f) (wh_sax f) (wh_sbx f)
      | _ => True
      end.

    Ltac pp := repeat first [apply pushed_refl | apply pushed_spin | apply pushed_unspin].
    Lemma rev_solve_pushed step d f i s : (bal -> meet (rv_ra f) (rv_rb f)) -> pushed s (snd (rev_solve step d c f (i, s))).
    Proof.
      intros H. unfold rev_solve. apply pushed_trans with (snd (if rv_limit d && negb (jc_ia c + jc_ib c =? nofZ 0)%num then rev_limits step d c f (if rv_motor d && negb (jc_ia c + jc_ib c =? nofZ 0)%num then rev_motor step d c f (i, s) else (i, s)) else (if rv_motor d && negb (jc_ia c + jc_ib c =? nofZ 0)%num then rev_motor step d c f (i, s) else (i, s)))).
      2:{ destruct (if rv_limit d && _ then _ else _) as [i1 s1]. cbn [snd rev_point]. now apply pushed_point. }
      apply pushed_trans with (snd (if rv_motor d && negb (jc_ia c + jc_ib c =? nofZ 0)%num then rev_motor step d c f (i, s) else (i, s))).
      - destruct (rv_motor d && _); [|apply pushed_refl]. apply pushed_spin.
      - destruct (rv_limit d && _); [|apply pushed_refl]. destruct (if rv_motor d && _ then _ else _) as [i1 s1]. cbn [snd]. eapply pushed_trans; [apply pushed_spin|apply pushed_unspin].
    Qed.
    Lemma pri_solve_pushed step d f i s : (bal -> exists rb, reaches rb (pr_perp f) (pr_s1 f) (pr_s2 f) /\ reaches rb (pr_axis f) (pr_a1 f) (pr_a2 f)) -> pushed s (snd (pri_solve step d c f (i, s))).
    Proof.
      intros H. assert (HA : forall k, bal -> balanced (vscale k (pr_axis f)) (k * pr_a1 f) (k * pr_a2 f)). { intros k B. destruct (H B) as (rb & _ & H2). eapply reaches_balanced; eauto. }
      assert (HP : forall k l, bal -> balanced (vscale k (pr_perp f)) (k * pr_s1 f + l) (k * pr_s2 f + l)). { intros k l B. destruct (H B) as (rb & H1 & _). apply balanced_spin. eapply reaches_balanced; eauto. }
      unfold pri_solve. apply pushed_trans with (snd (if pr_limit d then pri_limits step d c f (if pr_motor d then pri_motor step d c f (i, s) else (i, s)) else (if pr_motor d then pri_motor step d c f (i, s) else (i, s)))).
      2:{ destruct (if pr_limit d then _ else _) as [i1 s1]. cbn [snd pri_block]. apply pushed_push. exact (HP _ _). }
      apply pushed_trans with (snd (if pr_motor d then pri_motor step d c f (i, s) else (i, s))).
      - destruct (pr_motor d); [|apply pushed_refl]. cbn [pri_motor motor_impulse snd]. apply pushed_push. exact (HA _).
      - destruct (pr_limit d); [|apply pushed_refl]. destruct (if pr_motor d then _ else _) as [i1 s1]. cbn [snd pri_limits limit_impulse]. eapply pushed_trans; [apply pushed_push|apply pushed_pull]; exact (HA _).
    Qed.
    Lemma whe_solve_pushed step d f i s : (bal -> exists rb, reaches rb (wh_ay f) (wh_say f) (wh_sby f) /\ reaches rb (wh_ax f) (wh_sax f) (wh_sbx f)) -> pushed s (snd (whe_solve step d c f (i, s))).
    Proof.
      intros H. assert (HA : forall k, bal -> balanced (vscale k (wh_ax f)) (k * wh_sax f) (k * wh_sbx f)). { intros k B. destruct (H B) as (rb & _ & H2). eapply reaches_balanced; eauto. }
      assert (HP : forall k, bal -> balanced (vscale k (wh_ay f)) (k * wh_say f) (k * wh_sby f)). { intros k B. destruct (H B) as (rb & H1 & _). eapply reaches_balanced; eauto. }
      unfold whe_solve. apply pushed_trans with (snd (if wh_limit d then whe_limits step d c f (whe_motor step d c f (whe_spring c f (i, s))) else whe_motor step d c f (whe_spring c f (i, s)))).
      2:{ destruct (if wh_limit d then _ else _) as [i1 s1]. cbn [snd whe_line]. apply pushed_push. exact (HP _). }
      apply pushed_trans with (snd (whe_motor step d c f (whe_spring c f (i, s)))).
      - cbn [whe_spring whe_motor motor_impulse snd]. eapply pushed_trans; [|apply pushed_spin]. apply pushed_push. exact (HA _).
      - destruct (wh_limit d); [|apply pushed_refl]. destruct (whe_motor _ _ _ _ _) as [i1 s1]. cbn [snd whe_limits limit_impulse]. eapply pushed_trans; [apply pushed_push|apply pushed_pull]; exact (HA _).
    Qed.
    Lemma dis_solve_pushed step d f i s : (bal -> along (di_ra f) (di_rb f) (di_u f)) -> pushed s (snd (dis_solve step d c f (i, s))).
    Proof.
      intros H. unfold dis_solve. destruct (_ <? _)%num.
      - apply pushed_trans with (snd (if (nofZ 0 <? di_stiff d)%num then dis_spring c f (i, s) else (i, s))).
        + destruct (_ <? _)%num; [|apply pushed_refl]. cbn [dis_spring snd]. now apply pushed_along.
        + destruct (if (_ <? _)%num then _ else _) as [i1 s1]. cbn [dis_limits dis_limit snd]. eapply pushed_trans; apply pushed_along; auto.
      - cbn [dis_rigid snd]. now apply pushed_along.
    Qed.
    Lemma wel_solve_pushed d f i s : (bal -> meet (we_ra f) (we_rb f)) -> pushed s (snd (wel_solve d c f (i, s))).
    Proof.
      intros H. unfold wel_solve. destruct (_ <? _)%num.
      - cbn [wel_soft snd]. eapply pushed_trans; [apply pushed_spin|]. now apply pushed_point.
      - cbn [wel_rigid snd]. apply pushed_push. intros B. apply meet_balanced. auto.
    Qed.
    Lemma fri_solve_pushed step d f i s : (bal -> meet (fr_ra f) (fr_rb f)) -> pushed s (snd (fri_solve step d c f (i, s))).
    Proof. intros H. cbn [fri_solve motor_impulse snd]. eapply pushed_trans; [apply pushed_spin|]. now apply pushed_point. Qed.
    Lemma mot_solve_pushed step d f i s : (bal -> meet (mo_ra f) (mo_rb f)) -> pushed s (snd (mot_solve step d c f (i, s))).
    Proof. intros H. cbn [mot_solve motor_impulse snd]. eapply pushed_trans; [apply pushed_spin|]. now apply pushed_point. Qed.

    (* warm starting *)
    Lemma rev_warm_pushed step d f i s : (bal -> meet (rv_ra f) (rv_rb f)) -> pushed s (snd (rev_warm step d c f i s)).
    Proof. intros H. unfold rev_warm. destruct (ts_warm step); [|apply pushed_refl]. cbn [snd]. apply pushed_push. intros B. apply meet_balanced. auto. Qed.
    Lemma pri_warm_pushed step d f i s : (bal -> exists rb, reaches rb (pr_perp f) (pr_s1 f) (pr_s2 f) /\ reaches rb (pr_axis f) (pr_a1 f) (pr_a2 f)) -> pushed s (snd (pri_warm step d c f i s)).
    Proof.
      intros H. unfold pri_warm. destruct (ts_warm step); [|apply pushed_refl]. cbn [snd]. apply pushed_push. intros B. destruct (H B) as (rb & H1 & H2).
      exact (balanced_add _ _ _ _ _ _ (balanced_spin _ _ _ _ (reaches_balanced rb _ _ _ _ H1)) (reaches_balanced rb _ _ _ _ H2)).
    Qed.
    Lemma whe_warm_pushed step d f i s : (bal -> exists rb, reaches rb (wh_ay f) (wh_say f) (wh_sby f) /\ reaches rb (wh_ax f) (wh_sax f) (wh_sbx f)) -> pushed s (snd (whe_warm step d c f i s)).
    Proof.
      intros H. unfold whe_warm. destruct (ts_warm step); [|apply pushed_refl]. cbn [snd]. apply pushed_push. intros B. destruct (H B) as (rb & H1 & H2).
      exact (balanced_spin _ _ _ _ (balanced_add _ _ _ _ _ _ (reaches_balanced rb _ _ _ _ H1) (reaches_balanced rb _ _ _ _ H2))).
    Qed.
    Lemma dis_warm_pushed step f i s : (bal -> along (di_ra f) (di_rb f) (di_u f)) -> pushed s (snd (dis_warm step c f i s)).
    Proof. intros H. unfold dis_warm. destruct (ts_warm step); [|apply pushed_refl]. cbn [snd]. now apply pushed_along. Qed.
    Lemma wel_warm_pushed step f i s : (bal -> meet (we_ra f) (we_rb f)) -> pushed s (snd (wel_warm step c f i s)).
    Proof. intros H. unfold wel_warm. destruct (ts_warm step); [|apply pushed_refl]. cbn [snd]. apply pushed_push. intros B. apply meet_balanced. auto. Qed.
    Lemma lin_warm_pushed step ra rb i s : (bal -> meet ra rb) -> pushed s (snd (lin_warm step c ra rb i s)).
    Proof. intros H. unfold lin_warm. destruct (ts_warm step); [|apply pushed_refl]. cbn [snd]. apply pushed_push. intros B. apply meet_balanced. auto. Qed.

    (* what a pass of one joint does to the list of velocities *)
    Definition list_pushed (vels vels' : list (vel R)) : Prop := exists va vb s',
      zget vels (jc_a c) = Ok va /\ zget vels (jc_b c) = Ok vb /\ pushed (vpair va vb) s' /\ (v <- zset vels (jc_a c) (vel_a s') ;; zset v (jc_b c) (vel_b s')) = Ok vels'.
    Lemma on_pair_pushed {A} (f : pair R -> A * pair R) vels x vels' : (forall s, pushed s (snd (f s))) -> on_pair c f vels = Ok (x, vels') -> list_pushed vels vels'.
    Proof.
      intros H E. apply on_pair_inv in E. destruct E as (va & vb & s' & A1 & A2 & F & Z). exists va, vb, s'. repeat split; auto. specialize (H (vpair va vb)). now rewrite F in H.
    Qed.
    Ltac done E := match type of E with
      | context [on_pair ?c ?f ?v] => let G := fresh "G" in destruct (on_pair c f v) as [[? ?]| |] eqn:G; try discriminate E; cbn [bind] in E; injection E as <- <-; split; [|split; [reflexivity|]; eapply on_pair_pushed; [|exact G]; intros ?; cbn [frame_fits] in *]
      end.
    Lemma vel_pushed step k c2 vels k' vels' : two_bodies k = true -> (bal -> frame_fits k) -> kind_vel step k c c2 vels = Ok (k', vels') -> (bal -> frame_fits k') /\ two_bodies k' = true /\ list_pushed vels vels'.
    Proof.
      intros TB H E. destruct k; try discriminate TB; cbn [kind_vel] in E; done E; auto.
      - now apply rev_solve_pushed.
      - now apply pri_solve_pushed.
      - now apply dis_solve_pushed.
      - now apply wel_solve_pushed.
      - now apply whe_solve_pushed.
      - now apply fri_solve_pushed.
      - now apply mot_solve_pushed.
    Qed.
  End Pushed.

  (* the frames made by init_velocity_constraints *)
  Lemma place_arm (b : body R) l : place b l = vadd (sw_c (b_sweep b)) (arm_of (rot_of (sw_a (b_sweep b))) l (sw_local_center (b_sweep b))).
  Proof. unfold place, arm_of, rot_of. apply vec2_ext; rmathc; ring. Qed.
  Lemma init_pushed (bal : Prop) step x poss vels k' vels' : let ba := ji_a x in let bb := ji_b x in
    zget poss (b_island_index ba) = Ok (body_pos ba) -> zget poss (b_island_index bb) = Ok (body_pos bb) -> two_bodies (j_kind (ji_joint x)) = true -> (bal -> anchors_meet x) ->
    kind_init step (j_kind (ji_joint x)) (com_of ba bb) (com_of (ji_c x) (ji_d x)) poss vels = Ok (k', vels') -> (bal -> frame_fits ba bb k') /\ two_bodies k' = true /\ list_pushed ba bb bal vels vels'.
  Proof.
    intros ba bb Za Zb TB H E. unfold anchors_meet in H. fold ba bb in H. destruct (j_kind (ji_joint x)); try discriminate TB; cbn [kind_init] in E; cbn [jc_a jc_b com_of] in E; rewrite Za, Zb in E; cbn [bind] in E;
      (match type of E with context [on_pair ?c ?f ?v] => destruct (on_pair c f v) as [[? ?]| |] eqn:G; try discriminate E; cbn [bind] in E; injection E as <- <- end);
      (match goal with |- (bal -> ?F) /\ _ => assert (Q : bal -> F) end; [|split; [exact Q|split; [reflexivity|]]; eapply on_pair_pushed; [|exact G]; intros ?; cbn [frame_fits] in Q]).
    - intros B. specialize (H B). rewrite !place_arm in H. exact H.
    - now apply rev_warm_pushed.
    - intros _. cbn [frame_fits pri_frame pr_perp pr_s1 pr_s2 pr_axis pr_a1 pr_a2]. exists (arm_of (rot_of (p_a (body_pos bb))) (pr_lb d) (jc_lcb (com_of ba bb))). unfold reaches.
      split; (split; [|reflexivity]); unfold body_pos; cbn [p_c p_a]; rmathc; ring.
    - now apply pri_warm_pushed.
    - intros _. cbn [frame_fits]. unfold dis_frame. rops. unfold along. destruct (_ && _); cbn [di_ra di_rb di_u]; (destruct (Rlt_bool _ _); [|rmathc; ring]); unfold body_pos; cbn [p_c p_a]; rmathc; ring.
    - now apply dis_warm_pushed.
    - intros B. specialize (H B). rewrite !place_arm in H. cbn [frame_fits]. unfold wel_frame. rops. destruct (Rlt_bool _ _); [exact H|]. destruct (Req_bool _ _); exact H.
    - now apply wel_warm_pushed.
    - intros _. cbn [frame_fits]. unfold whe_frame. destruct (if _ && _ then _ else _) as [[? ?] ?]. cbn [wh_ay wh_say wh_sby wh_ax wh_sax wh_sbx]. exists (arm_of (rot_of (p_a (body_pos bb))) (wh_lb d) (jc_lcb (com_of ba bb))). unfold reaches.
      split; (split; [|reflexivity]); unfold body_pos; cbn [p_c p_a]; rmathc; ring.
    - now apply whe_warm_pushed.
    - intros B. specialize (H B). rewrite !place_arm in H. exact H.
    - now apply lin_warm_pushed.
    - intros B. specialize (H B). rewrite !place_arm in H. cbn [frame_fits]. unfold meet. transitivity (vadd (sw_c (b_sweep bb)) (arm_of (rot_of (sw_a (b_sweep bb))) (V2 0 0) (sw_local_center (b_sweep bb)))); [exact H|].
      unfold mot_frame, arm_of, body_pos. cbn [mo_rb p_a jc_lcb com_of]. f_equal. f_equal. apply vec2_ext; rmathc; ring.
    - now apply lin_warm_pushed.
  Qed.

  (* sums over the list of bodies *)
  Lemma list_pushed_weighted ba bb bal bs vels vels' f a b : nth_error bs a = Some ba -> nth_error bs b = Some bb -> a <> b -> b_island_index ba = Z.of_nat a -> b_island_index bb = Z.of_nat b ->
    (forall s s', pushed ba bb bal s s' -> pair_sum ba bb f s' = pair_sum ba bb f s) -> list_pushed ba bb bal vels vels' -> weighted bs vels' f = weighted bs vels f.
  Proof.
    intros Na Nb N Ia Ib H (va & vb & s' & Ga & Gb & P & Z). cbn [jc_a jc_b com_of] in *. rewrite Ia in *. rewrite Ib in *. rewrite zget_nat in Ga, Gb. apply get_inv in Ga, Gb. rewrite zset_nat in Z.
    destruct (set vels a _) as [v1| |] eqn:S1; try discriminate. cbn [bind] in Z. rewrite zset_nat in Z. apply set_inv in S1, Z. destruct S1 as [_ ->], Z as [_ ->]. apply H in P. unfold pair_sum in P. cbn [s_va s_wa s_vb s_wb vpair] in P. rewrite !vel_eta in P.
    rewrite (weighted_upd f bs _ b bb vb) by (auto; rewrite nth_upd_ne; auto). rewrite (weighted_upd f bs vels a ba va) by auto. unfold vel_a, vel_b. lra.
  Qed.
  Lemma pushed_linear ba bb bal s s' : heavy ba -> heavy bb -> pushed ba bb bal s s' -> pair_sum ba bb f_x s' = pair_sum ba bb f_x s /\ pair_sum ba bb f_y s' = pair_sum ba bb f_y s.
  Proof.
    intros A B (p & la & lb & -> & _). unfold heavy in *. unfold pair_sum, f_x, f_y, jpush, com_of. cbn [s_va s_wa s_vb s_wb v_v v_w jc_ma jc_mb jc_ia jc_ib]. rmathc. split.
    - transitivity (b_mass ba * vx (s_va s) - (b_mass ba * b_inv_mass ba) * vx p + (b_mass bb * vx (s_vb s) + (b_mass bb * b_inv_mass bb) * vx p)); [ring|]. rewrite A, B. ring.
    - transitivity (b_mass ba * vy (s_va s) - (b_mass ba * b_inv_mass ba) * vy p + (b_mass bb * vy (s_vb s) + (b_mass bb * b_inv_mass bb) * vy p)); [ring|]. rewrite A, B. ring.
  Qed.
  Lemma pushed_angular ba bb s s' ox oy : finite_mass ba -> finite_mass bb -> pushed ba bb True s s' -> pair_sum ba bb (f_a ox oy) s' = pair_sum ba bb (f_a ox oy) s.
  Proof.
    intros [A A'] [B B'] (p & la & lb & -> & Q). specialize (Q I). unfold balanced in Q. unfold pair_sum, f_a, jpush, com_of. cbn [s_va s_wa s_vb s_wb v_v v_w jc_ma jc_mb jc_ia jc_ib]. rmath.
    set (X := vx (sw_c (b_sweep ba))) in *. set (Y := vy (sw_c (b_sweep ba))) in *. set (U := vx (sw_c (b_sweep bb))) in *. set (V := vy (sw_c (b_sweep bb))) in *.
    transitivity (b_mass ba * ((X - ox) * vy (s_va s) - (Y - oy) * vx (s_va s)) - (b_mass ba * b_inv_mass ba) * ((X - ox) * vy p - (Y - oy) * vx p) + b_i ba * s_wa s - (b_i ba * b_inv_i ba) * la +
      (b_mass bb * ((U - ox) * vy (s_vb s) - (V - oy) * vx (s_vb s)) + (b_mass bb * b_inv_mass bb) * ((U - ox) * vy p - (V - oy) * vx p) + b_i bb * s_wb s + (b_i bb * b_inv_i bb) * lb)); [ring|]. rewrite A, A', B, B'.
    lra.
  Qed.

  Definition held_together (P : body R -> Prop) (bal : Prop) (bs : list (body R)) (x : jin R) : Prop :=
    connects P bs x /\ j_com (ji_joint x) = com_of (ji_a x) (ji_b x) /\ (bal -> frame_fits (ji_a x) (ji_b x) (j_kind (ji_joint x))).
  Lemma connects_with P bs x k c c2 : two_bodies k = true -> connects P bs x -> connects P bs (with_joint x (Jnt k c c2)).
  Proof. intros TB (a & b & H1 & H2 & H3 & H4 & H5 & H6 & H7 & _). exists a, b. cbn [with_joint ji_a ji_b ji_joint j_kind]. auto 10. Qed.
  Theorem phase_weighted (P : body R -> Prop) (bal : Prop) bs step n js vels js' vels' f :
    (forall ba bb s s', P ba -> P bb -> pushed ba bb bal s s' -> pair_sum ba bb f s' = pair_sum ba bb f s) ->
    Forall (fun x => connects P bs x /\ (bal -> anchors_meet x)) js -> joint_phase step n js (map body_pos bs) vels = Ok (js', vels') -> weighted bs vels' f = weighted bs vels f.
  Proof.
    intros H F E. apply (phase_keeps (fun x => connects P bs x /\ (bal -> anchors_meet x)) (held_together P bal bs) (fun v => weighted bs v f = weighted bs vels f)) in E; [tauto| | |exact F|reflexivity].
    - intros x v x' v' [C M] I1 E1. apply init_one_inv in E1. destruct E1 as (k & v2 & E1 & Ev & ->). injection Ev as <-. pose proof C as (a & b & Na & Nb & N & Ia & Ib & Pa & Pb & TB).
      destruct (init_pushed bal step x (map body_pos bs) v k v' ) as (Q1 & Q2 & Q3); auto.
      + rewrite Ia, zget_nat. unfold get. now rewrite nth_error_map, Na.
      + rewrite Ib, zget_nat. unfold get. now rewrite nth_error_map, Nb.
      + split; [split; [now apply connects_with|now split]|]. rewrite <- I1. eapply (list_pushed_weighted (ji_a x) (ji_b x) bal bs); [exact Na|exact Nb|exact N|exact Ia|exact Ib| |exact Q3]. intros; now apply H.
    - intros x v x' v' (C & Ec & M) I1 E1. apply vel_one_inv in E1. destruct E1 as (k & E1 & ->). pose proof C as (a & b & Na & Nb & N & Ia & Ib & Pa & Pb & TB). rewrite Ec in *.
      destruct (vel_pushed (ji_a x) (ji_b x) bal step _ _ _ _ _ TB M E1) as (Q1 & Q2 & Q3). split; [split; [now apply connects_with|now split]|]. rewrite <- I1. eapply (list_pushed_weighted (ji_a x) (ji_b x) bal bs); [exact Na|exact Nb|exact N|exact Ia|exact Ib| |exact Q3]. intros; now apply H.
  Qed.
  Theorem joints_linear step n bs js vels js' vels' : Forall (connects heavy bs) js -> joint_phase step n js (map body_pos bs) vels = Ok (js', vels') ->
    momentum_x bs vels' = momentum_x bs vels /\ momentum_y bs vels' = momentum_y bs vels.
  Proof.
    intros F E. assert (F' : Forall (fun x => connects heavy bs x /\ (False -> anchors_meet x)) js) by (eapply Forall_impl; [|exact F]; cbn; tauto).
    split; (eapply (phase_weighted heavy False); [|exact F'|exact E]); intros ba bb s s' A B Q; now apply (pushed_linear ba bb False s s' A B Q).
  Qed.
  Theorem joints_angular step n bs js vels js' vels' ox oy : Forall (fun x => connects finite_mass bs x /\ anchors_meet x) js -> joint_phase step n js (map body_pos bs) vels = Ok (js', vels') ->
    angular_momentum ox oy bs vels' = angular_momentum ox oy bs vels.
  Proof.
    intros F E. assert (F' : Forall (fun x => connects finite_mass bs x /\ (True -> anchors_meet x)) js) by (eapply Forall_impl; [|exact F]; cbn; tauto).
    eapply (phase_weighted finite_mass True); [|exact F'|exact E]. intros ba bb s s' A B Q. now apply pushed_angular.
  Qed.
End Phase.
