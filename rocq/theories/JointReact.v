(** The forces and torques that joints report are those they exert. *)
From Coq Require Import List ZArith Reals Lra Lia Bool Arith.
From Flocq Require Import Core.
From Verif Require Import Base Num NumLaws Math RTac ListFacts Manifold Filter DynModel SolverModel IslandModel SolverSpec JointModel JointSpec JointDefModel JointDefSpec JointProofs JointReal JointHeld.
Import ListNotations.
Local Open Scope R_scope.

(* an impulse on the pair: on body b p and lb, on body a the opposite of p and la *)
Record push := Push { u_p : vec2 R; u_a : R; u_b : R }.
Definition no_push : push := Push (V2 0 0) 0 0.
Definition push_add (x y : push) : push := Push (vadd (u_p x) (u_p y)) (u_a x + u_a y) (u_b x + u_b y).
Definition pushed (c : jcom R) (x : push) (s : pair R) : pair R := jpush c (u_p x) (u_a x) (u_b x) s.
Lemma pushed_0 c s : pushed c no_push s = s.
Proof. destruct s as [[s1 s2] s3 [s4 s5] s6]. unfold pushed, jpush, no_push. cbn [u_p u_a u_b s_va s_wa s_vb s_wb]. rops. f_equal; try (apply vec2_ext; rmathc); ring. Qed.
Lemma pushed_add c x y s : pushed c y (pushed c x s) = pushed c (push_add x y) s.
Proof. destruct s as [[s1 s2] s3 [s4 s5] s6], x as [[x1 x2] x3 x4], y as [[y1 y2] y3 y4]. unfold pushed, jpush, push_add. cbn [u_p u_a u_b s_va s_wa s_vb s_wb]. rops. f_equal; try (apply vec2_ext; rmathc); ring. Qed.
Lemma push_eq (x y : push) : vx (u_p x) = vx (u_p y) -> vy (u_p x) = vy (u_p y) -> u_a x = u_a y -> u_b x = u_b y -> x = y.
Proof. destruct x as [[x1 x2] x3 x4], y as [[y1 y2] y3 y4]. cbn. congruence. Qed.
Lemma jspin_push c l s : jspin c l s = pushed c (Push (V2 0 0) l l) s.
Proof. destruct s as [[s1 s2] s3 [s4 s5] s6]. unfold jspin, pushed, jpush. cbn [u_p u_a u_b s_va s_wa s_vb s_wb]. rops. f_equal; try (apply vec2_ext; rmathc); ring. Qed.
Lemma junspin_push c l s : junspin c l s = pushed c (Push (V2 0 0) (- l) (- l)) s.
Proof. destruct s as [[s1 s2] s3 [s4 s5] s6]. unfold junspin, pushed, jpush. cbn [u_p u_a u_b s_va s_wa s_vb s_wb]. rops. f_equal; try (apply vec2_ext; rmathc); ring. Qed.
Lemma jpull_push c p la lb s : jpull c p la lb s = pushed c (Push (vneg p) (- la) (- lb)) s.
Proof. destruct s as [[s1 s2] s3 [s4 s5] s6], p as [p1 p2]. unfold jpull, pushed, jpush. cbn [u_p u_a u_b s_va s_wa s_vb s_wb]. rops. f_equal; try (apply vec2_ext; rmathc); ring. Qed.
Lemma jpush_push c p la lb s : jpush c p la lb s = pushed c (Push p la lb) s. Proof. reflexivity. Qed.
Lemma jpoint_push c ra rb p s : jpoint c ra rb p s = pushed c (Push p (b2_cross ra p) (b2_cross rb p)) s. Proof. reflexivity. Qed.

(* what a joint with these accumulated impulses has done *)
Definition done (k : jkind R) : push :=
  match k with
  | JRevolute d i f => let l := rv_im i + rv_il i - rv_iu i in Push (rv_i i) (b2_cross (rv_ra f) (rv_i i) + l) (b2_cross (rv_rb f) (rv_i i) + l)
  | JPrismatic d i f => let l := pr_im i + pr_il i - pr_iu i in Push (vadd (vscale (vx (pr_i i)) (pr_perp f)) (vscale l (pr_axis f))) (vx (pr_i i) * pr_s1 f + vy (pr_i i) + l * pr_a1 f) (vx (pr_i i) * pr_s2 f + vy (pr_i i) + l * pr_a2 f)
  | JDistance d i f => let p := vscale (di_i i + di_il i - di_iu i) (di_u f) in Push p (b2_cross (di_ra f) p) (b2_cross (di_rb f) p)
  | JWeld d i f => let p := V2 (v3x i) (v3y i) in Push p (b2_cross (we_ra f) p + v3z i) (b2_cross (we_rb f) p + v3z i)
  | JWheel d i f => let l := wh_is i + wh_il i - wh_iu i in Push (vadd (vscale (wh_i i) (wh_ay f)) (vscale l (wh_ax f))) (wh_i i * wh_say f + l * wh_sax f + wh_im i) (wh_i i * wh_sby f + l * wh_sbx f + wh_im i)
  | JFriction d i f => Push (li_l i) (b2_cross (fr_ra f) (li_l i) + li_a i) (b2_cross (fr_rb f) (li_l i) + li_a i)
  | JMotor d i f => Push (li_l i) (b2_cross (mo_ra f) (li_l i) + li_a i) (b2_cross (mo_rb f) (li_l i) + li_a i)
  | _ => no_push
  end.
(* after f, the impulses i of the joint [k i] have been applied to s0 *)
Definition tells {I} (c : jcom R) (k : I -> jkind R) (s0 : pair R) (is : I * pair R) : Prop := snd is = pushed c (done (k (fst is))) s0.
Ltac told := unfold tells in *; cbn [fst snd] in *; subst; rewrite ?jspin_push, ?junspin_push, ?jpull_push, ?jpush_push, ?jpoint_push, ?pushed_add; f_equal; apply push_eq;
  cbn [push_add done u_p u_a u_b rv_i rv_im rv_il rv_iu pr_i pr_im pr_il pr_iu di_i di_il di_iu wh_i wh_im wh_is wh_il wh_iu li_l li_a v3x v3y v3z]; rmathc; ring.

Section Solve.
  Variables (step : tstep R) (c : jcom R) (s0 : pair R).
  Lemma rev_tells d f is : tells c (fun i => JRevolute d i f) s0 is -> tells c (fun i => JRevolute d i f) s0 (rev_solve step d c f is).
  Proof.
    intros H. unfold rev_solve.
    assert (A : forall is, tells c (fun i => JRevolute d i f) s0 is -> tells c (fun i => JRevolute d i f) s0 (rev_motor step d c f is)).
    { intros [i s] T. unfold rev_motor, motor_impulse. set (new := b2_clamp _ _ _). clearbody new. told. }
    assert (B : forall is, tells c (fun i => JRevolute d i f) s0 is -> tells c (fun i => JRevolute d i f) s0 (rev_limits step d c f is)).
    { intros [i s] T. unfold rev_limits, limit_impulse. set (new := b2_max (nadd (rv_il i) _) _). clearbody new. set (new2 := b2_max (nadd (rv_iu i) _) _). clearbody new2. told. }
    assert (C : forall is, tells c (fun i => JRevolute d i f) s0 is -> tells c (fun i => JRevolute d i f) s0 (rev_point c f is)).
    { intros [i s] T. unfold rev_point. set (p := m22_solve _ _). clearbody p. told. }
    apply C. repeat match goal with |- context [if ?x then _ else _] => destruct x end; auto.
  Qed.
  Lemma pri_tells d f is : tells c (fun i => JPrismatic d i f) s0 is -> tells c (fun i => JPrismatic d i f) s0 (pri_solve step d c f is).
  Proof.
    intros H. unfold pri_solve.
    assert (A : forall is, tells c (fun i => JPrismatic d i f) s0 is -> tells c (fun i => JPrismatic d i f) s0 (pri_motor step d c f is)).
    { intros [i s] T. unfold pri_motor, motor_impulse. set (new := b2_clamp _ _ _). clearbody new. told. }
    assert (B : forall is, tells c (fun i => JPrismatic d i f) s0 is -> tells c (fun i => JPrismatic d i f) s0 (pri_limits step d c f is)).
    { intros [i s] T. unfold pri_limits, limit_impulse. set (new := b2_max (nadd (pr_il i) _) _). clearbody new. set (new2 := b2_max (nadd (pr_iu i) _) _). clearbody new2. told. }
    assert (C : forall is, tells c (fun i => JPrismatic d i f) s0 is -> tells c (fun i => JPrismatic d i f) s0 (pri_block c f is)).
    { intros [i s] T. unfold pri_block. set (p := m22_solve _ _). clearbody p. told. }
    apply C. repeat match goal with |- context [if ?x then _ else _] => destruct x end; auto.
  Qed.
  Lemma dis_tells d f is : tells c (fun i => JDistance d i f) s0 is -> tells c (fun i => JDistance d i f) s0 (dis_solve step d c f is).
  Proof.
    intros H. unfold dis_solve.
    assert (A : forall is, tells c (fun i => JDistance d i f) s0 is -> tells c (fun i => JDistance d i f) s0 (dis_spring c f is)).
    { intros [i s] T. unfold dis_spring. set (l := nmul _ (nadd (nadd _ _) _)). clearbody l. told. }
    assert (B : forall is, tells c (fun i => JDistance d i f) s0 is -> tells c (fun i => JDistance d i f) s0 (dis_limits step d c f is)).
    { intros [i s] T. unfold dis_limits, dis_limit. set (new := b2_max _ (nadd (di_il i) _)). clearbody new. set (new2 := b2_max _ (nadd (di_iu i) _)). clearbody new2. told. }
    assert (C : forall is, tells c (fun i => JDistance d i f) s0 is -> tells c (fun i => JDistance d i f) s0 (dis_rigid c f is)).
    { intros [i s] T. unfold dis_rigid. set (l := nmul _ _). clearbody l. told. }
    repeat match goal with |- context [if ?x then _ else _] => destruct x end; auto.
  Qed.
  Lemma wel_tells d f is : tells c (fun i => JWeld d i f) s0 is -> tells c (fun i => JWeld d i f) s0 (wel_solve d c f is).
  Proof.
    intros H. unfold wel_solve. destruct (nlt _ _); destruct is as [i s].
    - unfold wel_soft. set (l := nmul _ (nadd (nadd _ _) _)). clearbody l. set (p := vneg _). clearbody p. told.
    - unfold wel_rigid. set (p := v3neg _). clearbody p. told.
  Qed.
  Lemma whe_tells d f is : tells c (fun i => JWheel d i f) s0 is -> tells c (fun i => JWheel d i f) s0 (whe_solve step d c f is).
  Proof.
    intros H. unfold whe_solve.
    assert (S : forall is, tells c (fun i => JWheel d i f) s0 is -> tells c (fun i => JWheel d i f) s0 (whe_spring c f is)).
    { intros [i s] T. unfold whe_spring. set (l := nmul _ (nadd (nadd _ _) _)). clearbody l. told. }
    assert (A : forall is, tells c (fun i => JWheel d i f) s0 is -> tells c (fun i => JWheel d i f) s0 (whe_motor step d c f is)).
    { intros [i s] T. unfold whe_motor, motor_impulse. set (new := b2_clamp _ _ _). clearbody new. told. }
    assert (B : forall is, tells c (fun i => JWheel d i f) s0 is -> tells c (fun i => JWheel d i f) s0 (whe_limits step d c f is)).
    { intros [i s] T. unfold whe_limits, limit_impulse. set (new := b2_max (nadd (wh_il i) _) _). clearbody new. set (new2 := b2_max (nadd (wh_iu i) _) _). clearbody new2. told. }
    assert (C : forall is, tells c (fun i => JWheel d i f) s0 is -> tells c (fun i => JWheel d i f) s0 (whe_line c f is)).
    { intros [i s] T. unfold whe_line. set (l := nmul _ _). clearbody l. told. }
    apply C. destruct (wh_limit d); auto.
  Qed.
  Lemma fri_tells d f is : tells c (fun i => JFriction d i f) s0 is -> tells c (fun i => JFriction d i f) s0 (fri_solve step d c f is).
  Proof. intros H. destruct is as [i s]. unfold fri_solve, motor_impulse. set (new := b2_clamp _ _ _). clearbody new. set (p := cap_impulse _ _). clearbody p. told. Qed.
  Lemma mot_tells d f is : tells c (fun i => JMotor d i f) s0 is -> tells c (fun i => JMotor d i f) s0 (mot_solve step d c f is).
  Proof. intros H. destruct is as [i s]. unfold mot_solve, motor_impulse. set (new := b2_clamp _ _ _). clearbody new. set (p := cap_impulse _ _). clearbody p. told. Qed.
  (* warm starting *)
  Ltac none := unfold tells; cbn [fst snd]; rewrite <- (pushed_0 c s0) at 1; f_equal; apply push_eq; cbn [done no_push u_p u_a u_b rv_i rv_im rv_il rv_iu pr_i pr_im pr_il pr_iu di_i di_il di_iu wh_i wh_im wh_is wh_il wh_iu li_l li_a v3x v3y v3z]; rmathc; ring.
  Lemma rev_warm_tells d f i : tells c (fun i => JRevolute d i f) s0 (rev_warm step d c f i s0).
  Proof. unfold rev_warm. cbv zeta. destruct (ts_warm step); [reflexivity|none]. Qed.
  Lemma pri_warm_tells d f i : tells c (fun i => JPrismatic d i f) s0 (pri_warm step d c f i s0).
  Proof. unfold pri_warm. cbv zeta. destruct (ts_warm step); [reflexivity|none]. Qed.
  Lemma dis_warm_tells d f i : ts_warm step = true -> tells c (fun i => JDistance d i f) s0 (dis_warm step c f i s0).
  Proof. intros W. unfold dis_warm. cbv zeta. rewrite W. reflexivity. Qed.
  Lemma wel_warm_tells d f i : tells c (fun i => JWeld d i f) s0 (wel_warm step c f i s0).
  Proof. unfold wel_warm. cbv zeta. destruct (ts_warm step); [reflexivity|none]. Qed.
  Lemma whe_warm_tells d f i : tells c (fun i => JWheel d i f) s0 (whe_warm step d c f i s0).
  Proof. unfold whe_warm. cbv zeta. destruct (ts_warm step); [reflexivity|none]. Qed.
  Lemma fri_warm_tells d f i : tells c (fun i => JFriction d i f) s0 (lin_warm step c (fr_ra f) (fr_rb f) i s0).
  Proof. unfold lin_warm. cbv zeta. destruct (ts_warm step); [reflexivity|none]. Qed.
  Lemma mot_warm_tells d f i : tells c (fun i => JMotor d i f) s0 (lin_warm step c (mo_ra f) (mo_rb f) i s0).
  Proof. unfold lin_warm. cbv zeta. destruct (ts_warm step); [reflexivity|none]. Qed.
End Solve.

(** ** the phase *)
(* the arm of body b in the frame of the joint *)
Definition framed (rb : vec2 R) (k : jkind R) : Prop :=
  match k with
  | JRevolute d i f => rv_rb f = rb
  | JPrismatic d i f => pr_s2 f = b2_cross rb (pr_perp f) /\ pr_a2 f = b2_cross rb (pr_axis f)
  | JDistance d i f => di_rb f = rb
  | JWeld d i f => we_rb f = rb
  | JWheel d i f => wh_sby f = b2_cross rb (wh_ay f) /\ wh_sbx f = b2_cross rb (wh_ax f)
  | JFriction d i f => fr_rb f = rb
  | JMotor d i f => mo_rb f = rb
  | _ => True
  end.
Lemma done_reports rb k h : plain k -> framed rb k -> get_reaction_force k h = vscale h (u_p (done k)) /\ get_reaction_torque k h = h * (u_b (done k) - b2_cross rb (u_p (done k))).
Proof.
  destruct k; intros P F; try contradiction; cbn [framed] in F; cbn [get_reaction_force get_reaction_torque done u_p u_b]; (split; [try reflexivity; apply vec2_ext; rmathc; ring|]).
  1,3,4,6,7: subst rb; rmathc; ring.
  - destruct F as [-> ->]. rmathc. ring.
  - destruct F as [-> ->]. rmathc. ring.
Qed.
Definition kept (c : jcom R) (s0 : pair R) (rb l : vec2 R) (k : jkind R) (vels : list (vel R)) : Prop :=
  plain k /\ framed rb k /\ anchor_b k = l /\ exists s, zget vels (jc_a c) = Ok (vel_a s) /\ zget vels (jc_b c) = Ok (vel_b s) /\ s = pushed c (done k) s0.
Lemma on_pair_told {I} (c : jcom R) (f : pair R -> I * pair R) vels x vels' s : jc_a c <> jc_b c -> zget vels (jc_a c) = Ok (vel_a s) -> zget vels (jc_b c) = Ok (vel_b s) -> on_pair c f vels = Ok (x, vels') ->
  exists s', f s = (x, s') /\ zget vels' (jc_a c) = Ok (vel_a s') /\ zget vels' (jc_b c) = Ok (vel_b s').
Proof.
  intros N A B E. apply on_pair_inv in E. destruct E as (va & vb & s' & Ga & Gb & F & Z). rewrite A in Ga. rewrite B in Gb. injection Ga as <-. injection Gb as <-. exists s'. split.
  - rewrite <- F. f_equal. destruct s; reflexivity.
  - eapply zset_pair; eauto.
Qed.
Lemma vel_kept step c c2 s0 rb l k vels k' vels' : jc_a c <> jc_b c -> kept c s0 rb l k vels -> kind_vel step k c c2 vels = Ok (k', vels') -> kept c s0 rb l k' vels'.
Proof.
  intros N (P & F & L & s & A & B & E) K. destruct k; try contradiction P; cbn [kind_vel] in K;
    (match type of K with context [on_pair ?c ?f ?v] => destruct (on_pair c f v) as [[i2 v2]| |] eqn:G; try discriminate K end; cbn [bind] in K; injection K as <- <-;
     destruct (on_pair_told _ _ _ _ _ _ N A B G) as (s' & Fs & A' & B'); split; [exact I|split; [exact F|split; [exact L|exists s'; split; [exact A'|split; [exact B'|]]]]]).
  - pose proof (rev_tells step c s0 d f (i, s) E) as H. rewrite Fs in H. exact H.
  - pose proof (pri_tells step c s0 d f (i, s) E) as H. rewrite Fs in H. exact H.
  - pose proof (dis_tells step c s0 d f (i, s) E) as H. rewrite Fs in H. exact H.
  - pose proof (wel_tells c s0 d f (i, s) E) as H. rewrite Fs in H. exact H.
  - pose proof (whe_tells step c s0 d f (i, s) E) as H. rewrite Fs in H. exact H.
  - pose proof (fri_tells step c s0 d f (i, s) E) as H. rewrite Fs in H. exact H.
  - pose proof (mot_tells step c s0 d f (i, s) E) as H. rewrite Fs in H. exact H.
Qed.
Lemma init_kept step c c2 k poss vels k' vels' pa pb s0 : jc_a c <> jc_b c -> plain k -> warm_enough step k -> zget poss (jc_a c) = Ok pa -> zget poss (jc_b c) = Ok pb -> zget vels (jc_a c) = Ok (vel_a s0) -> zget vels (jc_b c) = Ok (vel_b s0) ->
  kind_init step k c c2 poss vels = Ok (k', vels') -> kept c s0 (arm_of (rot_of (p_a pb)) (anchor_b k) (jc_lcb c)) (anchor_b k) k' vels'.
Proof.
  intros N P W Za Zb A B K. destruct k; try contradiction P; cbn [kind_init] in K; rewrite Za, Zb in K; cbn [bind] in K;
    (match type of K with context [on_pair ?c ?f ?v] => destruct (on_pair c f v) as [[i2 v2]| |] eqn:G; try discriminate K end; cbn [bind] in K; injection K as <- <-;
     destruct (on_pair_told _ _ _ _ _ _ N A B G) as (s' & Fs & A' & B'); split; [exact I|split; [|split; [reflexivity|exists s'; split; [exact A'|split; [exact B'|]]]]]).
  - reflexivity.
  - pose proof (rev_warm_tells step c s0 d (rev_frame d c pa pb) i) as H. rewrite Fs in H. exact H.
  - split; reflexivity.
  - pose proof (pri_warm_tells step c s0 d (pri_frame d c f pa pb) i) as H. rewrite Fs in H. exact H.
  - unfold dis_frame. cbv zeta. destruct (_ && _); reflexivity.
  - pose proof (dis_warm_tells step c s0 d (dis_frame step d c pa pb) i W) as H. rewrite Fs in H. exact H.
  - unfold wel_frame. cbv zeta. destruct (nlt _ _); [reflexivity|]. destruct (neqb _ _); reflexivity.
  - pose proof (wel_warm_tells step c s0 d (wel_frame step d c pa pb) i) as H. rewrite Fs in H. exact H.
  - unfold whe_frame. cbv zeta. destruct (_ && _); split; reflexivity.
  - pose proof (whe_warm_tells step c s0 d (whe_frame step d c f pa pb) i) as H. rewrite Fs in H. exact H.
  - reflexivity.
  - pose proof (fri_warm_tells step c s0 d (fri_frame d c pa pb) i) as H. rewrite Fs in H. exact H.
  - cbn. unfold arm_of. f_equal. apply vec2_ext; rmathc; ring.
  - pose proof (mot_warm_tells step c s0 d (mot_frame d c pa pb) i) as H. rewrite Fs in H. exact H.
Qed.

(* a phase with one joint *)
Lemma one_phase (I : jkind R -> list (vel R) -> Prop) step n k c1 c2 a b c d poss vels x' vels' :
  (forall k' v', kind_init step k (com_of a b) (com_of c d) poss vels = Ok (k', v') -> I k' v') ->
  (forall k v k' v', I k v -> kind_vel step k (com_of a b) (com_of c d) v = Ok (k', v') -> I k' v') ->
  joint_phase step n [JIn (Jnt k c1 c2) a b c d] poss vels = Ok ([x'], vels') -> I (j_kind (ji_joint x')) vels'.
Proof.
  intros H1 H2 E. unfold joint_phase in E. fold (init_one step) in E. cbn [each_item] in E.
  destruct (init_one step _ _) as [[x1 [p1 v1]]| |] eqn:E1; try discriminate. cbn [bind] in E.
  assert (B : x1 = JIn (Jnt (j_kind (ji_joint x1)) (com_of a b) (com_of c d)) a b c d /\ I (j_kind (ji_joint x1)) v1).
  { unfold init_one, joint_solver, joint_init in E1. cbn [js_init fst snd ji_joint ji_a ji_b ji_c ji_d j_kind] in E1. destruct (kind_init _ _ _ _ _ _) as [[k1 w]| |] eqn:K; try discriminate. cbn [bind] in E1. injection E1 as <- <- <-. split; [reflexivity|]. now apply H1. }
  clear E1. destruct B as [Bx Bi].
  unfold for_range in E. revert E. generalize (n - 0)%nat. generalize 0%nat. intros lo m. revert lo x1 v1 Bx Bi. induction m as [|m IH]; intros lo x1 v1 Bx Bi E; cbn [for_from] in E.
  - injection E as <- <-. exact Bi.
  - cbn [fst snd each_item] in E. destruct (js_vel joint_solver step x1 v1) as [[x2 v2]| |] eqn:E2; try discriminate. cbn [bind] in E. apply (IH (S lo) x2 v2); [| |exact E].
    + cbn [js_vel joint_solver] in E2. unfold joint_vel in E2. destruct (kind_vel _ _ _ _ _) as [[k2 w]| |]; try discriminate. cbn [bind] in E2. injection E2 as <- <-. rewrite Bx. reflexivity.
    + cbn [js_vel joint_solver] in E2. unfold joint_vel in E2. rewrite Bx in E2. cbn [ji_joint j_kind j_com j_com2] in E2. destruct (kind_vel _ _ _ _ _) as [[k2 w]| |] eqn:K; try discriminate. cbn [bind] in E2. injection E2 as <- <-. cbn [with_joint ji_joint j_kind]. eapply H2; eauto.
Qed.
Lemma pair_of va vb : exists s : pair R, va = vel_a s /\ vb = vel_b s.
Proof. exists (vpair va vb). destruct va, vb. split; reflexivity. Qed.
Lemma one_joint_kept step n k a b pa pb va vb k' va' vb' : plain k -> warm_enough step k -> one_joint step n k a b pa pb va vb k' va' vb' ->
  plain k' /\ framed (arm b pb (anchor_b k)) k' /\ vpair va' vb' = pushed (com_of a b) (done k') (vpair va vb).
Proof.
  intros P W (c & d & c1 & c2 & poss & vels & x' & vels' & N & Pa & Pb & Va & Vb & E & <- & Va' & Vb').
  assert (K : kept (com_of a b) (vpair va vb) (arm b pb (anchor_b k)) (anchor_b k) (j_kind (ji_joint x')) vels').
  { eapply (one_phase (kept (com_of a b) (vpair va vb) (arm b pb (anchor_b k)) (anchor_b k))); [| |exact E].
    - intros k' v' K. rewrite <- arm_is. eapply (init_kept step (com_of a b)); cbn [com_of jc_a jc_b]; eauto; [rewrite Va|rewrite Vb]; f_equal; [destruct va|destruct vb]; reflexivity.
    - intros k0 v0 k1 v1 H K. eapply vel_kept; eauto. }
  destruct K as (Pk & F & _ & s & A & B & Es). split; [exact Pk|]. split; [exact F|]. cbn [com_of jc_a jc_b] in A, B. rewrite Va' in A. rewrite Vb' in B. injection A as ->. injection B as ->. rewrite <- Es. destruct s; reflexivity.
Qed.
Lemma reactions step n k a b pa pb va vb k' va' vb' : plain k -> warm_enough step k -> ts_dt step * ts_inv_dt step = 1 -> one_joint step n k a b pa pb va vb k' va' vb' ->
  let F := get_reaction_force k' (ts_inv_dt step) in let L := get_reaction_torque k' (ts_inv_dt step) in
  driven b (ts_dt step) (arm b pb (anchor_b k)) F L vb vb' /\
  v_v va' = V2 (vx (v_v va) - b_inv_mass a * (ts_dt step * vx F)) (vy (v_v va) - b_inv_mass a * (ts_dt step * vy F)).
Proof.
  intros P W DT O F L. destruct (one_joint_kept _ _ _ _ _ _ _ _ _ _ _ _ P W O) as (P' & Fr & E).
  destruct (done_reports (arm b pb (anchor_b k)) k' (ts_inv_dt step) P' Fr) as [RF RL]. unfold F, L. rewrite RF, RL. clear F L RF RL. set (x := done k') in *. set (r := arm b pb (anchor_b k)) in *. clearbody x r.
  destruct va' as [[a1 a2] a3], vb' as [[b1 b2] b3], va as [[c1 c2] c3], vb as [[d1 d2] d3], x as [[x1 x2] x3 x4], r as [r1 r2]. unfold pushed, jpush, vpair in E. cbn in E. injection E as -> -> -> -> -> ->.
  unfold driven. cbn [v_v v_w vx vy u_p u_a u_b]. set (h := ts_dt step) in *. set (i := ts_inv_dt step) in *.
  assert (S : forall y, h * (i * y) = y) by (intros y; rewrite <- Rmult_assoc, DT; ring). unfold vscale, cross. rops. cbn [vx vy]. rewrite !S. repeat split.
  unfold b2_cross. rops. cbn [vx vy]. replace (h * (r1 * (i * x2) - r2 * (i * x1) + i * (x4 - (r1 * x2 - r2 * x1)))) with (h * i * x4) by ring. rewrite DT. ring.
Qed.

(** ** a mouse joint *)
Definition mou_kept (a b : body R) (pb : pos R) (v0 : vel R) (l : vec2 R) (k : jkind R) (vels : list (vel R)) : Prop :=
  exists d i f, k = JMouse d i f /\ ms_rb f = arm b pb l /\ zget vels (b_island_index b) = Ok (kick_b (com_of a b) (arm b pb l) i v0).
Lemma zget_zset_other {A} (l l' : list A) i j x y : i <> j -> zset l j y = Ok l' -> zget l i = Ok x -> zget l' i = Ok x.
Proof.
  unfold zset, zget. intros N. destruct (Z.ltb_spec j 0); [discriminate|]. destruct (Z.ltb_spec i 0); [discriminate|]. intros H1. apply set_inv in H1. destruct H1 as [L ->]. unfold get. rewrite nth_upd_ne by lia. auto.
Qed.
Lemma kick_b_add c r (p q : vec2 R) v : kick_b c r q (kick_b c r p v) = kick_b c r (vadd p q) v.
Proof. unfold kick_b. destruct v as [[v1 v2] v3], p, q, r. cbn [v_v v_w]. f_equal; [apply vec2_ext|]; rmathc; ring. Qed.
Lemma zset_zget {A} (l l' : list A) i x : zset l i x = Ok l' -> zget l' i = Ok x.
Proof.
  unfold zset, zget. destruct (i <? 0)%Z; [discriminate|]. generalize (Z.to_nat i). intros n H. apply set_inv in H. destruct H as [L ->]. unfold get. now rewrite nth_upd_eq.
Qed.
Lemma mouse_reaction step n d i f a b pa pb va vb k' va' vb' : ts_dt step * ts_inv_dt step = 1 -> one_joint step n (JMouse d i f) a b pa pb va vb k' va' vb' ->
  driven b (ts_dt step) (arm b pb (ms_lb d)) (get_reaction_force k' (ts_inv_dt step)) (get_reaction_torque k' (ts_inv_dt step)) (Vel (v_v vb) (v_w vb * (98 / 100))) vb' /\ va' = va.
Proof.
  intros DT (c & d0 & c1 & c2 & poss & vels & x' & vels' & N & Pa & Pb & Va & Vb & E & <- & Va' & Vb').
  set (v0 := Vel (v_v vb) (v_w vb * (98 / 100))).
  assert (K : mou_kept a b pb v0 (ms_lb d) (j_kind (ji_joint x')) vels' /\ zget vels' (b_island_index a) = Ok va).
  { eapply (one_phase (fun k v => mou_kept a b pb v0 (ms_lb d) k v /\ zget v (b_island_index a) = Ok va)); [| |exact E].
    - intros k' v' K. cbn [kind_init com_of jc_b] in K. rewrite Pb in K. cbn [bind] in K. fold (com_of a b) in K. set (f1 := mou_frame step d (com_of a b) pb) in K. destruct (on_b _ _ _) as [[i1 v1]| |] eqn:G; try discriminate. cbn [bind] in K. injection K as <- <-.
      apply on_b_inv in G. destruct G as (w & w' & Gw & Fw & Z). cbn [com_of jc_b] in Gw, Z. rewrite Vb in Gw. injection Gw as <-. split.
      + exists d, i1, f1. split; [reflexivity|]. split; [apply arm_is|]. rewrite (zset_zget _ _ _ _ Z). f_equal. unfold mou_warm in Fw. fold v0 in Fw. cbv zeta in Fw. change (nlit 98 100) with (98 / 100) in Fw.
        assert (R1 : ms_rb f1 = arm b pb (ms_lb d)) by apply arm_is. rewrite R1 in Fw. destruct (ts_warm step); injection Fw as <- <-; [reflexivity|]. unfold kick_b, v0. cbn [v_v v_w]. f_equal; [apply vec2_ext|]; rmathc; ring.
      + eapply zget_zset_other; [exact N|exact Z|exact Va].
    - intros k v k1 v1 ((d1 & i1 & f1 & -> & R1 & Z1) & A1) K. cbn [kind_vel] in K. destruct (on_b _ _ _) as [[i2 v2]| |] eqn:G; try discriminate. cbn [bind] in K. injection K as <- <-.
      apply on_b_inv in G. destruct G as (w & w' & Gw & Fw & Z). cbn [com_of jc_b] in Gw, Z. rewrite Z1 in Gw. injection Gw as <-. split.
      + exists d1, i2, f1. split; [reflexivity|]. split; [exact R1|]. rewrite (zset_zget _ _ _ _ Z). f_equal. unfold mou_solve in Fw. rewrite R1 in Fw. match type of Fw with (?x, _) = _ => assert (X : x = i2) by congruence; rewrite X in Fw; clear X end.
        injection Fw as <-. rewrite kick_b_add. f_equal. apply vec2_ext; rmathc; ring.
      + eapply zget_zset_other; [exact N|exact Z|exact A1]. }
  destruct K as ((d1 & i1 & f1 & -> & R1 & Z1) & A1). split; [|congruence]. rewrite Vb' in Z1. injection Z1 as ->. unfold driven, kick_b, cross. cbn [get_reaction_force get_reaction_torque v_v v_w com_of jc_mb jc_ib]. set (r := arm b pb (ms_lb d)). clearbody r v0.
  assert (S : forall y, ts_dt step * (ts_inv_dt step * y) = y) by (intros y; rewrite <- Rmult_assoc, DT; ring).
  split; [apply vec2_ext; rmathc; rewrite !S; ring|]. rmathc. replace (ts_dt step * (vx r * (ts_inv_dt step * vy i1) - vy r * (ts_inv_dt step * vx i1) + ts_inv_dt step * 0)) with (vx r * (ts_dt step * (ts_inv_dt step * vy i1)) - vy r * (ts_dt step * (ts_inv_dt step * vx i1))) by ring. rewrite !S. ring.
Qed.
