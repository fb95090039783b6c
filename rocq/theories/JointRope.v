(** A distance joint with limits and without a spring: it pushes at the minimum and pulls at the maximum. *)
From Coq Require Import List ZArith Reals Lra Lia Bool Arith.
From Flocq Require Import Core.
From Verif Require Import Base Num NumLaws Math RTac ListFacts Manifold Filter DynModel SolverModel IslandModel SolverSpec JointModel JointSpec JointDefModel JointDefSpec JointProofs JointReal JointHeld JointReact JointSpring.
Import ListNotations.
Local Open Scope R_scope.

(* one_phase with something that holds after at least one iteration *)
Lemma one_phase_1 (I J : jkind R -> list (vel R) -> Prop) step n k c1 c2 a b c d poss vels x' vels' : (0 < n)%nat ->
  (forall k' v', kind_init step k (com_of a b) (com_of c d) poss vels = Ok (k', v') -> I k' v') ->
  (forall k v k' v', I k v -> kind_vel step k (com_of a b) (com_of c d) v = Ok (k', v') -> J k' v') ->
  (forall k v, J k v -> I k v) ->
  joint_phase step n [JIn (Jnt k c1 c2) a b c d] poss vels = Ok ([x'], vels') -> J (j_kind (ji_joint x')) vels'.
Proof.
  intros N H1 H2 H3 E. unfold joint_phase in E. fold (init_one step) in E. cbn [each_item] in E.
  destruct (init_one step _ _) as [[x1 [p1 v1]]| |] eqn:E1; try discriminate. cbn [bind] in E.
  assert (B : x1 = JIn (Jnt (j_kind (ji_joint x1)) (com_of a b) (com_of c d)) a b c d /\ I (j_kind (ji_joint x1)) v1).
  { unfold init_one, joint_solver, joint_init in E1. cbn [js_init fst snd ji_joint ji_a ji_b ji_c ji_d j_kind] in E1. destruct (kind_init _ _ _ _ _ _) as [[k1 w]| |] eqn:K; try discriminate. cbn [bind] in E1. injection E1 as <- <- <-. split; [reflexivity|]. now apply H1. }
  clear E1. destruct B as [Bx Bi].
  assert (ST : forall x v x2 v2, x = JIn (Jnt (j_kind (ji_joint x)) (com_of a b) (com_of c d)) a b c d -> I (j_kind (ji_joint x)) v -> js_vel joint_solver step x v = Ok (x2, v2) ->
    x2 = JIn (Jnt (j_kind (ji_joint x2)) (com_of a b) (com_of c d)) a b c d /\ J (j_kind (ji_joint x2)) v2).
  { intros x v x2 v2 X Ix E2. cbn [js_vel joint_solver] in E2. unfold joint_vel in E2. rewrite X in E2. cbn [ji_joint j_kind j_com j_com2] in E2. destruct (kind_vel _ _ _ _ _) as [[k2 w]| |] eqn:K; try discriminate. cbn [bind] in E2. injection E2 as <- <-. split; [rewrite X; reflexivity|]. cbn [with_joint ji_joint j_kind]. eapply H2; eauto. }
  unfold for_range in E. destruct n as [|n]; [lia|]. rewrite Nat.sub_0_r in E. cbn [for_from fst snd each_item] in E.
  destruct (js_vel joint_solver step x1 v1) as [[x2 v2]| |] eqn:E2; try discriminate. cbn [bind] in E. destruct (ST _ _ _ _ Bx Bi E2) as [B2 J2]. clear E2 Bx Bi x1 v1 H1 N.
  revert E. generalize 1%nat. intros lo. revert lo x2 v2 B2 J2. induction n as [|m IH]; intros lo x1 v1 Bx Bi E; cbn [for_from] in E.
  - injection E as <- <-. exact Bi.
  - cbn [fst snd each_item] in E. destruct (js_vel joint_solver step x1 v1) as [[x2 v2]| |] eqn:E2; try discriminate. cbn [bind] in E. destruct (ST _ _ _ _ Bx (H3 _ _ Bi) E2) as [B2 J2]. eapply IH; eauto.
Qed.

Section Rope.
  Variables (step : tstep R) (a b : body R) (pa pb : pos R) (d : dis_def R).
  Let c := com_of a b.
  Let ra := arm a pa (di_la d).
  Let rb := arm b pb (di_lb d).
  Let u := minus (at_arm pb rb) (at_arm pa ra).
  Hypotheses (Ma : 0 <= b_inv_mass a) (Mb : 0 <= b_inv_mass b) (Ia : 0 <= b_inv_i a) (Ib : 0 <= b_inv_i b) (MM : 0 < b_inv_mass a + b_inv_mass b).
  Hypotheses (W : ts_warm step = true) (ST : di_stiff d <= 0) (LI : di_min d < di_max d) (SL : B2_LINEAR_SLOP < size u).
  Let f := dis_frame step d c pa pb.
  Let apart (s : pair R) : R := dot u (minus (speed_at (vel_b s) rb) (speed_at (vel_a s) ra)) / size u.
  Ltac fields := cbn [s_va s_wa s_vb s_wb jc_ma jc_mb jc_ia jc_ib jc_lca jc_lcb jc_a jc_b com_of v_v v_w p_c p_a vel_a vel_b].
  Let n := V2 (vx u / size u) (vy u / size u).
  Let ca := cross ra n.
  Let cb := cross rb n.
  Let im := b_inv_mass a + b_inv_i a * ca * ca + b_inv_mass b + b_inv_i b * cb * cb.
  Lemma size_pos : 0 < size u.
  Proof using SL. unfold B2_LINEAR_SLOP, B2_LENGTH_UNITS_PER_METER, nlit in SL; cbn in SL; lra. Qed.
  Lemma im_pos : 0 < im.
  Proof using Ia Ib MM. unfold im. generalize (sq_pos (b_inv_i a) ca Ia) (sq_pos (b_inv_i b) cb Ib). lra. Qed.
  Lemma unit_n : vx n * vx n + vy n * vy n = 1.
  Proof using SL.
    generalize size_pos. intros S0. assert (SS : size u * size u = dot u u) by (change (size u) with (vlen u); unfold vlen, dot; rops; apply sqrt_sqrt; generalize (Rle_0_sqr (vx u)) (Rle_0_sqr (vy u)); unfold Rsqr; lra).
    unfold n. cbn [vx vy]. transitivity (dot u u / (size u * size u)); [unfold dot; field; lra|rewrite <- SS; field; lra].
  Qed.
  Lemma rope_frame : f = DisFr n ra rb (size u) (/ im) (/ im) 0 0.
  Proof using SL ST Ia Ib MM.
    generalize size_pos im_pos. intros S0 I0. unfold f, dis_frame. cbv zeta. fold c. assert (RA : arm_of (rot_of (p_a pa)) (di_la d) (jc_lca c) = ra) by apply arm_is. assert (RB : arm_of (rot_of (p_a pb)) (di_lb d) (jc_lcb c) = rb) by apply arm_is. rewrite RA, RB, <- between_arms. fold u. change (vlen u) with (size u). rops.
    rewrite (Rlt_bool_true B2_LINEAR_SLOP (size u)) by assumption. rewrite (Rlt_bool_false 0 (di_stiff d)) by assumption. cbn [andb]. assert (NN : vmuls u (1 / size u) = n) by (unfold n; apply vec2_ext; rmathc; unfold Rdiv; ring). rewrite NN. change (b2_cross ra n) with ca. change (b2_cross rb n) with cb. cbn [c com_of jc_ma jc_mb jc_ia jc_ib].
    change (b_inv_mass a + b_inv_i a * ca * ca + b_inv_mass b + b_inv_i b * cb * cb) with im. rewrite (inv_or0_R im) by lra. reflexivity.
  Qed.
  Lemma apart_is s : dis_vel f s = apart s.
  Proof using SL ST Ia Ib MM.
    generalize size_pos. intros S0. rewrite rope_frame. destruct s as [[s1 s2] s3 [s4 s5] s6]. unfold dis_vel, apart, n. cbn [di_u di_ra di_rb]. unfold dot, minus, speed_at, vel_a, vel_b. fields. clearbody u ra rb. rmathc. generalize dependent (size u). intros z. intros. field. lra.
  Qed.
  Lemma apart_up s : dis_vel_up f s = - apart s.
  Proof using SL ST Ia Ib MM. rewrite <- apart_is. unfold dis_vel_up, dis_vel. rmathc. ring. Qed.
  Lemma apart_pushed l s : apart (jpoint c (di_ra f) (di_rb f) (vscale l (di_u f)) s) = apart s + im * l.
  Proof using SL ST Ia Ib MM.
    generalize unit_n. intros NN. rewrite <- !apart_is. rewrite rope_frame. cbn [di_ra di_rb di_u]. unfold im, ca, cb. clearbody n ra rb. destruct s as [[s1 s2] s3 [s4 s5] s6]. unfold dis_vel. cbn [di_u di_ra di_rb]. unfold jpoint, jpush, c. fields. unfold cross. destruct n as [nx ny]. cbn [vx vy] in NN. rmathc.
    transitivity (nx * (s4 + - s6 * vy rb - (s1 + - s3 * vy ra)) + ny * (s5 + s6 * vx rb - (s2 + s3 * vx ra)) + (b_inv_mass a + b_inv_mass b) * l * (nx * nx + ny * ny) + (b_inv_i a * (vx ra * ny - vy ra * nx) * (vx ra * ny - vy ra * nx) + b_inv_i b * (vx rb * ny - vy rb * nx) * (vx rb * ny - vy rb * nx)) * l); [ring|rewrite NN; ring].
  Qed.
  Definition taut (s : pair R) (i : dis_imp R) : Prop := di_i i = 0 /\ 0 <= di_il i /\ 0 <= di_iu i /\ (0 < di_iu i -> apart s = Rmax 0 (di_max d - size u) * ts_inv_dt step).
  Lemma solve_taut i s i' s' : di_i i = 0 -> dis_solve step d c f (i, s) = (i', s') -> taut s' i'.
  Proof using SL ST Ia Ib MM LI.
    intros I0 E. unfold dis_solve in E. revert E. rops. rewrite (Rlt_bool_true (di_min d)) by exact LI. rewrite (Rlt_bool_false 0 (di_stiff d)) by exact ST. intros E. unfold dis_limits, dis_limit in E.
    rewrite apart_is in E. set (l1 := b2_max _ (nadd (di_il i) _)) in E. set (s1 := jpoint c _ _ (vscale (nsub l1 _) _) s) in E. rewrite apart_up in E. set (l2 := b2_max _ (nadd (di_iu i) _)) in E. injection E as <- <-. unfold taut. cbn [di_i di_il di_iu].
    assert (L1 : 0 <= l1) by (unfold l1; rewrite b2_max_R; rops; apply Rmax_l). split; [exact I0|]. split; [exact L1|]. split; [unfold l2; rewrite b2_max_R; rops; apply Rmax_l|]. intros P.
    rewrite apart_pushed. revert P. unfold l2. rewrite !b2_max_R. assert (MF : di_mass f = / im) by (rewrite rope_frame; reflexivity). assert (CF : di_cur f = size u) by (rewrite rope_frame; reflexivity). rewrite MF, CF. rops. set (m := Rmax 0 (di_max d - size u) * ts_inv_dt step). unfold Rmax at 1. destruct (Rle_dec 0 _) as [Q|Q]; [|intros X; exfalso; lra]. intros _. rewrite Rmax_right by exact Q. generalize im_pos. intros IP. set (v := apart s1). clearbody v. field. lra.
  Qed.
End Rope.

Lemma rope step n d i f a b pa pb va vb k' va' vb' : let ra := arm a pa (di_la d) in let rb := arm b pb (di_lb d) in let u := minus (at_arm pb rb) (at_arm pa ra) in
  0 <= b_inv_mass a -> 0 <= b_inv_mass b -> 0 <= b_inv_i a -> 0 <= b_inv_i b -> 0 < b_inv_mass a + b_inv_mass b ->
  ts_warm step = true -> (0 < n)%nat -> di_stiff d <= 0 -> di_min d < di_max d -> B2_LINEAR_SLOP < size u -> di_i i = 0 ->
  one_joint step n (JDistance d i f) a b pa pb va vb k' va' vb' ->
  exists i' f', k' = JDistance d i' f' /\ 0 <= di_il i' /\ 0 <= di_iu i' /\
    v_v vb' = V2 (vx (v_v vb) + b_inv_mass b * ((di_il i' - di_iu i') * (vx u / size u))) (vy (v_v vb) + b_inv_mass b * ((di_il i' - di_iu i') * (vy u / size u))) /\
    (0 < di_iu i' -> dot u (minus (speed_at vb' rb) (speed_at va' ra)) / size u = Rmax 0 (di_max d - size u) * ts_inv_dt step).
Proof.
  intros ra rb u Ma Mb Ia Ib MM W N ST LI SL I0 O. pose proof O as O1. apply one_joint_kept in O1; [|exact I|exact W]. destruct O1 as (_ & _ & EV).
  destruct O as (c & d0 & c1 & c2 & poss & vels & x' & vels' & NE & Pa & Pb & Va & Vb & E & <- & Va' & Vb').
  set (fr := dis_frame step d (com_of a b) pa pb).
  set (G := fun (k : jkind R) (v : list (vel R)) (P : pair R -> dis_imp R -> Prop) => exists i s, k = JDistance d i fr /\ zget v (b_island_index a) = Ok (vel_a s) /\ zget v (b_island_index b) = Ok (vel_b s) /\ di_i i = 0 /\ P s i).
  assert (J : G (j_kind (ji_joint x')) vels' (taut step a b pa pb d)).
  { eapply (one_phase_1 (fun k v => G k v (fun _ _ => True)) (fun k v => G k v (taut step a b pa pb d)) step n (JDistance d i f) c1 c2 a b c d0 poss vels); [exact N| | | |exact E].
    - intros k' v' K. cbn [kind_init com_of jc_a jc_b] in K. rewrite Pa, Pb in K. cbn [bind] in K. fold (com_of a b) in K. fold fr in K. destruct (on_pair _ _ _) as [[i1 v1]| |] eqn:Q; try discriminate. cbn [bind] in K. injection K as <- <-.
      destruct (on_pair_told (com_of a b) _ _ _ _ (vpair va vb) NE ltac:(cbn [com_of jc_a]; rewrite Va; destruct va; reflexivity) ltac:(cbn [com_of jc_b]; rewrite Vb; destruct vb; reflexivity) Q) as (s' & Fs & A' & B').
      exists i1, s'. split; [reflexivity|]. split; [exact A'|]. split; [exact B'|]. split; [|exact Logic.I]. unfold dis_warm in Fs. rewrite W in Fs. revert Fs. destruct (nlt _ (di_cur fr)); intros Fs; injection Fs as <- _; cbn [di_i]; rops; [rewrite I0|]; ring.
    - intros k v k' v' (i1 & s & -> & A & B & Z & _) K. cbn [kind_vel] in K. destruct (on_pair _ _ _) as [[i2 v2]| |] eqn:Q; try discriminate. cbn [bind] in K. injection K as <- <-.
      destruct (on_pair_told (com_of a b) _ _ _ _ s NE A B Q) as (s' & Fs & A' & B'). exists i2, s'. pose proof (solve_taut step a b pa pb d Ia Ib MM ST LI SL i1 s i2 s' Z Fs) as T. split; [reflexivity|]. split; [exact A'|]. split; [exact B'|]. split; [apply T|exact T].
    - intros k v (i1 & s & Ek & A & B & Z & _). exists i1, s. repeat split; assumption. }
  destruct J as (i1 & s & EK & A & B & _ & (Z & L & U & P)). rewrite EK in EV. assert (FR : di_u fr = V2 (vx u / size u) (vy u / size u)) by (unfold fr; rewrite rope_frame by assumption; reflexivity).
  exists i1, fr. split; [exact EK|]. split; [exact L|]. split; [exact U|]. rewrite Va' in A. rewrite Vb' in B. injection A as ->. injection B as ->. split; [|exact P].
  cbn [done] in EV. rewrite FR, Z in EV. replace (0 + di_il i1 - di_iu i1) with (di_il i1 - di_iu i1) in EV by ring. set (p := vscale _ _) in EV. assert (EB : v_v (vel_b s) = vadd (v_v vb) (vscale (b_inv_mass b) p)) by (destruct s as [s1 s2 s3 s4]; unfold vpair, vel_a, vel_b, pushed, jpush in EV; cbn [v_v v_w s_va s_wa s_vb s_wb u_p u_a u_b] in EV; injection EV as _ _ EV _; exact EV).
  rewrite EB. unfold p. clearbody u. apply vec2_ext; rmathc; ring.
Qed.
