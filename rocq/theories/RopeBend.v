(** Bending: the angle, its derivatives, and what the passes do to it. *)
From Coq Require Import List ZArith Reals Lra Lia Bool Arith.
From Coquelicot Require Import Coquelicot.
From Flocq Require Import Core.
From Verif Require Import Base Num NumLaws Math RTac ListFacts SolverModel RopeModel RopeSpec RopeTotal RopeReal RopeLinks.
Import ListNotations.
Local Open Scope R_scope.

(** ** the angle *)
Lemma radius2 x y : sqrt (x * x + y * y) * sqrt (x * x + y * y) = x * x + y * y.
Proof. apply sqrt_sqrt. generalize (Rle_0_sqr x) (Rle_0_sqr y). unfold Rsqr. lra. Qed.
Lemma radius_ge x y : - x <= sqrt (x * x + y * y).
Proof.
  destruct (Rle_or_lt 0 x) as [L|L]; [generalize (sqrt_pos (x * x + y * y)); lra|]. replace (- x) with (sqrt (x * x)); [apply sqrt_le_1_alt; generalize (Rle_0_sqr y); unfold Rsqr; lra|].
  replace (x * x) with ((- x) * (- x)) by ring. apply sqrt_square. lra.
Qed.
Lemma angle_range y x : - PI < angle_of y x <= PI.
Proof.
  assert (P := PI_RGT_0). unfold angle_of. cbv zeta. destruct (Req_EM_T _ 0); [destruct (Req_EM_T _ 0); lra|]. generalize (atan_bound (y / (sqrt (x * x + y * y) + x))). lra.
Qed.
Lemma angle_right y x : let r := sqrt (x * x + y * y) in r * cos (angle_of y x) = x /\ r * sin (angle_of y x) = y.
Proof.
  intros r. assert (R2 := radius2 x y). assert (G := radius_ge x y). fold r in R2, G. unfold angle_of. fold r. cbv zeta. destruct (Req_EM_T (r + x) 0) as [Z|Z].
  - assert (y = 0) by (apply Rsqr_eq_0; unfold Rsqr; replace x with (- r) in R2 by lra; lra). destruct (Req_EM_T r 0) as [Z0|Z0]; [rewrite cos_0, sin_0; lra|rewrite cos_PI, sin_PI; lra].
  - set (t := y / (r + x)). rewrite cos_2a, sin_2a, cos_atan, sin_atan. assert (D : 0 < 1 + Rsqr t) by (generalize (Rle_0_sqr t); lra). assert (S := sqrt_sqrt (1 + Rsqr t) ltac:(lra)). assert (S0 := sqrt_lt_R0 _ D). set (w := sqrt (1 + Rsqr t)) in *. clearbody w.
    assert (W : w * w = 2 * r / (r + x)). { rewrite S. unfold Rsqr, t. apply (Rmult_eq_reg_r ((r + x) * (r + x))); [|apply Rmult_integral_contrapositive_currified; exact Z]. replace ((1 + y / (r + x) * (y / (r + x))) * ((r + x) * (r + x))) with ((r + x) * (r + x) + y * y) by (field; exact Z). replace (2 * r / (r + x) * ((r + x) * (r + x))) with (2 * r * (r + x)) by (field; exact Z). lra. }
    assert (r <> 0) by (intros Z0; rewrite Z0 in W; assert (w * w = 0) by (rewrite W; field; lra); nra). split.
    + replace (r * (1 / w * (1 / w) - t / w * (t / w))) with (r * (1 - t * t) / (w * w)) by (field; lra). rewrite W. replace (t * t) with (w * w - 1) by (unfold Rsqr in S; lra). rewrite W. replace (r * (1 - (2 * r / (r + x) - 1)) / (2 * r / (r + x))) with x; [reflexivity|]. field. auto.
    + replace (r * (2 * (t / w) * (1 / w))) with (2 * r * t / (w * w)) by (field; lra). rewrite W. unfold t. field. auto.
Qed.
Lemma angle_is_0 y x : 0 < x -> y = 0 -> angle_of y x = 0.
Proof.
  intros L ->. unfold angle_of. cbv zeta. assert (P := sqrt_pos (x * x + 0 * 0)). destruct (Req_EM_T _ 0); [exfalso; lra|]. unfold Rdiv. rewrite Rmult_0_l, atan_0. ring.
Qed.

(** ** its derivative *)
Lemma angle_derive (x y : R -> R) x' y' : is_derive x 0 x' -> is_derive y 0 y' -> sqrt (x 0 * x 0 + y 0 * y 0) + x 0 <> 0 ->
  is_derive (fun s => angle_of (y s) (x s)) 0 ((x 0 * y' - y 0 * x') / (x 0 * x 0 + y 0 * y 0)).
Proof.
  intros Dx Dy Z. assert (R2 := radius2 (x 0) (y 0)). assert (G := radius_ge (x 0) (y 0)). assert (R0 := sqrt_pos (x 0 * x 0 + y 0 * y 0)). set (r := sqrt (x 0 * x 0 + y 0 * y 0)) in *.
  assert (Q : 0 < x 0 * x 0 + y 0 * y 0). { destruct (Rle_lt_or_eq_dec 0 (x 0 * x 0 + y 0 * y 0)) as [L|L]; [generalize (Rle_0_sqr (x 0)) (Rle_0_sqr (y 0)); unfold Rsqr; lra|exact L|]. exfalso. assert (x 0 = 0) by (apply Rsqr_eq_0; generalize (Rle_0_sqr (x 0)) (Rle_0_sqr (y 0)); unfold Rsqr; lra). assert (r = 0) by (unfold r; rewrite <- L; apply sqrt_0). lra. }
  assert (Rp : 0 < r) by (apply sqrt_lt_R0, Q).
  assert (Cx : continuous x 0) by (apply (@ex_derive_continuous R_AbsRing R_NormedModule x 0); now exists x'). assert (Cy : continuous y 0) by (apply (@ex_derive_continuous R_AbsRing R_NormedModule y 0); now exists y').
  assert (C : continuous (fun s => sqrt (x s * x s + y s * y s) + x s) 0).
  { apply (continuous_plus (fun s => sqrt (x s * x s + y s * y s)) x); [|exact Cx]. apply (continuous_comp (fun s => x s * x s + y s * y s) sqrt); [|apply continuous_sqrt]. apply (continuous_plus (fun s => x s * x s) (fun s => y s * y s)); [apply (continuous_mult x x)|apply (continuous_mult y y)]; assumption. }
  assert (Loc : locally 0 (fun s => sqrt (x s * x s + y s * y s) + x s <> 0)).
  { apply (C (fun v => v <> 0)). apply (open_neq 0). exact Z. }
  apply (is_derive_ext_loc (fun s => 2 * atan (y s / (sqrt (x s * x s + y s * y s) + x s)))).
  - revert Loc. apply filter_imp. intros s Hs. unfold angle_of. cbv zeta. destruct (Req_EM_T _ 0); [contradiction|reflexivity].
  - auto_derive; fold r.
    + repeat split; try (now exists x'); try (now exists y'); try assumption.
    + assert (Ux := is_derive_unique _ _ _ Dx : Derive (fun s => x s) 0 = x'). assert (Uy := is_derive_unique _ _ _ Dy : Derive (fun s => y s) 0 = y'). rewrite Ux, Uy. fold r. rewrite <- R2. clear Ux Uy Loc C Cx Cy Dx Dy. clearbody r. generalize dependent (x 0). generalize dependent (y 0). intros b a Z R2 G Q. cbn in x', y'. set (w := r + a) in *. assert (Ea : a = w - r) by (unfold w; ring). assert (Eb : b * b = 2 * r * w - w * w) by (rewrite Ea in R2; lra). clearbody w. subst a.
      replace (1 + b * / w * (b * / w * 1)) with (2 * r * / w) by (replace (1 + b * / w * (b * / w * 1)) with ((w * w + b * b) * / (w * w)) by (field; lra); rewrite Eb; field; lra).
      transitivity ((y' * (r * w - b * b) - b * x' * w) / (r * r * w)); [field; lra|]. rewrite Eb. field. lra.
Qed.

(* along a curve of points *)
Lemma open_radius p1 p2 p3 : open_at p1 p2 p3 -> let x := dot (minus p2 p1) (minus p3 p2) in let y := cross (minus p2 p1) (minus p3 p2) in sqrt (x * x + y * y) + x <> 0 /\ 0 < dot (minus p2 p1) (minus p2 p1) /\ 0 < dot (minus p3 p2) (minus p3 p2).
Proof.
  intros (O1 & O2 & O3). set (a := minus p2 p1) in *. set (b := minus p3 p2) in *. clearbody a b. intros x y.
  assert (Pa : 0 < dot a a). { unfold dot. destruct (Rle_lt_or_eq_dec 0 (vx a * vx a + vy a * vy a)) as [L|L]; [generalize (Rle_0_sqr (vx a)) (Rle_0_sqr (vy a)); unfold Rsqr; lra|exact L|]. destruct O1. apply vec2_ext; cbn; apply Rsqr_eq_0; generalize (Rle_0_sqr (vx a)) (Rle_0_sqr (vy a)); unfold Rsqr; lra. }
  assert (Pb : 0 < dot b b). { unfold dot. destruct (Rle_lt_or_eq_dec 0 (vx b * vx b + vy b * vy b)) as [L|L]; [generalize (Rle_0_sqr (vx b)) (Rle_0_sqr (vy b)); unfold Rsqr; lra|exact L|]. destruct O2. apply vec2_ext; cbn; apply Rsqr_eq_0; generalize (Rle_0_sqr (vx b)) (Rle_0_sqr (vy b)); unfold Rsqr; lra. }
  split; [|auto]. intros Z. assert (R2 := radius2 x y). set (r := sqrt _) in *. assert (r = - x) as Er by lra. rewrite Er in R2. assert (y = 0) by (apply Rsqr_eq_0; unfold Rsqr; lra). assert (0 <= r) by apply sqrt_pos.
  assert (L : dot a a * dot b b = x * x + y * y) by (unfold x, y, dot, cross; ring). assert (x <> 0) by (intros Z0; rewrite Z0, H in L; assert (X := Rmult_lt_0_compat _ _ Pa Pb); lra).
  apply (O3 (- x / dot a a)); [apply Rdiv_lt_0_compat; lra|]. unfold times. apply vec2_ext; cbn [vx vy].
  - apply (Rmult_eq_reg_r (dot a a)); [|lra]. replace (- (- x / dot a a) * vx a * dot a a) with (x * vx a) by (field; lra). replace (vx b * dot a a) with (x * vx a - y * vy a) by (unfold x, y, dot, cross; ring). rewrite H. ring.
  - apply (Rmult_eq_reg_r (dot a a)); [|lra]. replace (- (- x / dot a a) * vy a * dot a a) with (x * vy a) by (field; lra). replace (vy b * dot a a) with (x * vy a + y * vx a) by (unfold x, y, dot, cross; ring). rewrite H. ring.
Qed.
Definition jacobian (p1 p2 p3 : vec2 R) := bend_jacobian (vlen2 (vsub p2 p1)) (vlen2 (vsub p3 p2)) p1 p2 p3.
Definition along (j : vec2 R * vec2 R * vec2 R) (h1 h2 h3 : vec2 R) : R := let '(j1, j2, j3) := j in dot j1 h1 + dot j2 h2 + dot j3 h3.
Theorem angle_slope p1 p2 p3 h1 h2 h3 : open_at p1 p2 p3 -> turns p1 p2 p3 h1 h2 h3 (along (jacobian p1 p2 p3) h1 h2 h3).
Proof.
  intros O. destruct (open_radius p1 p2 p3 O) as (Z & L1 & L2). apply is_derive_Reals.
  set (x := fun s : R => dot (minus (plus p2 (times s h2)) (plus p1 (times s h1))) (minus (plus p3 (times s h3)) (plus p2 (times s h2)))).
  set (y := fun s : R => cross (minus (plus p2 (times s h2)) (plus p1 (times s h1))) (minus (plus p3 (times s h3)) (plus p2 (times s h2)))).
  set (x' := dot (minus h2 h1) (minus p3 p2) + dot (minus p2 p1) (minus h3 h2)). set (y' := cross (minus h2 h1) (minus p3 p2) + cross (minus p2 p1) (minus h3 h2)).
  assert (Dx : is_derive x 0 x') by (unfold x, x', dot, minus, plus, times; cbn [vx vy]; auto_derive; [exact Logic.I|ring]).
  assert (Dy : is_derive y 0 y') by (unfold y, y', cross, minus, plus, times; cbn [vx vy]; auto_derive; [exact Logic.I|ring]).
  assert (X0 : x 0 = dot (minus p2 p1) (minus p3 p2)) by (unfold x, dot, minus, plus, times; cbn [vx vy]; ring). assert (Y0 : y 0 = cross (minus p2 p1) (minus p3 p2)) by (unfold y, cross, minus, plus, times; cbn [vx vy]; ring).
  assert (D := angle_derive x y x' y' Dx Dy). rewrite X0, Y0 in D. specialize (D Z). change (is_derive (fun s => angle_of (y s) (x s)) 0 (along (jacobian p1 p2 p3) h1 h2 h3)). revert D. match goal with |- is_derive _ _ ?a -> is_derive _ _ ?b => replace b with a; [intros D; exact D|] end.
  replace (dot (minus p2 p1) (minus p3 p2) * dot (minus p2 p1) (minus p3 p2) + cross (minus p2 p1) (minus p3 p2) * cross (minus p2 p1) (minus p3 p2)) with (dot (minus p2 p1) (minus p2 p1) * dot (minus p3 p2) (minus p3 p2)) by (unfold dot, cross; ring).
  unfold along, jacobian, bend_jacobian. change (vlen2 (vsub p2 p1)) with (dot (minus p2 p1) (minus p2 p1)). change (vlen2 (vsub p3 p2)) with (dot (minus p3 p2) (minus p3 p2)). unfold x', y'. clear - L1 L2. 
  destruct p1 as [a1 b1], p2 as [a2 b2], p3 as [a3 b3], h1 as [c1 d1], h2 as [c2 d2], h3 as [c3 d3]. unfold dot, cross, minus in *. cbn in *. rmathc. field. lra.
Qed.

(** ** the passes *)
Lemma on3_inv {C} (c : C) i1 i2 i3 f (qs : list pt) q1 q2 q3 c' qs' : (i1 < i2 < i3)%nat -> nth_error qs i1 = Some q1 -> nth_error qs i2 = Some q2 -> nth_error qs i3 = Some q3 -> on3 c i1 i2 i3 f qs = Ok (c', qs') ->
  (f q1 q2 q3 = None /\ c' = c /\ qs' = qs) \/ exists q1' q2' q3', f q1 q2 q3 = Some (c', q1', q2', q3') /\ nth_error qs' i1 = Some q1' /\ nth_error qs' i2 = Some q2' /\ nth_error qs' i3 = Some q3'.
Proof.
  intros I N1 N2 N3 E. unfold on3 in E. rewrite (get_ok _ _ _ N1), (get_ok _ _ _ N2), (get_ok _ _ _ N3) in E. cbn [bind] in E. destruct (f q1 q2 q3) as [[[[c2 a1] a2] a3]|]; [|left; inversion E; auto]. right.
  destruct (set qs i1 a1) as [s1| |] eqn:S1; try discriminate. cbn [bind] in E. destruct (set s1 i2 a2) as [s2| |] eqn:S2; try discriminate. cbn [bind] in E. destruct (set s2 i3 a3) as [s3| |] eqn:S3; try discriminate. cbn [bind] in E. inversion E; subst. apply set_inv in S1, S2, S3. destruct S1 as [L1 ->], S2 as [L2 ->], S3 as [L3 ->].
  exists a1, a2, a3. repeat rewrite length_upd in *. split; [reflexivity|]. repeat split.
  - rewrite !nth_upd_ne by lia. now apply nth_upd_eq.
  - rewrite nth_upd_ne by lia. apply nth_upd_eq. now rewrite length_upd.
  - apply nth_upd_eq. now rewrite !length_upd.
Qed.
Lemma on2_inv {C} (c : C) i1 i2 f (qs : list pt) q1 q2 c' qs' : (i1 < i2)%nat -> nth_error qs i1 = Some q1 -> nth_error qs i2 = Some q2 -> on2 c i1 i2 f qs = Ok (c', qs') ->
  (f q1 q2 = None /\ c' = c /\ qs' = qs) \/ exists q1' q2', f q1 q2 = Some (c', q1', q2') /\ nth_error qs' i1 = Some q1' /\ nth_error qs' i2 = Some q2'.
Proof.
  intros I N1 N2 E. unfold on2 in E. rewrite (get_ok _ _ _ N1), (get_ok _ _ _ N2) in E. cbn [bind] in E. destruct (f q1 q2) as [[[c2 a1] a2]|]; [|left; inversion E; auto]. right.
  destruct (set qs i1 a1) as [s1| |] eqn:S1; try discriminate. cbn [bind] in E. destruct (set s1 i2 a2) as [s2| |] eqn:S2; try discriminate. cbn [bind] in E. inversion E; subst. apply set_inv in S1, S2. destruct S1 as [L1 ->], S2 as [L2 ->].
  exists a1, a2. repeat rewrite length_upd in *. split; [reflexivity|]. split; [rewrite nth_upd_ne by lia; now apply nth_upd_eq|apply nth_upd_eq; now rewrite length_upd].
Qed.
(* the inverse mass seen by the angle *)
Definition angle_mass (m1 m2 m3 : R) (p1 p2 p3 : vec2 R) : R := let '(j1, j2, j3) := jacobian p1 p2 p3 in m1 * dot j1 j1 + m2 * dot j2 j2 + m3 * dot j3 j3.
Lemma angle_mass_pos m1 m2 m3 p1 p2 p3 : open_at p1 p2 p3 -> 0 <= m1 -> 0 <= m2 -> 0 <= m3 -> 0 < m1 + m2 + m3 -> 0 < angle_mass m1 m2 m3 p1 p2 p3.
Proof.
  intros O M1 M2 M3 M. destruct (open_radius p1 p2 p3 O) as (_ & L1 & L2). destruct O as (_ & _ & O3).
  assert (L3 : 0 < dot (minus p3 p1) (minus p3 p1)). { unfold dot. set (a := minus p3 p1). destruct (Rle_lt_or_eq_dec 0 (vx a * vx a + vy a * vy a)) as [L|L]; [generalize (Rle_0_sqr (vx a)) (Rle_0_sqr (vy a)); unfold Rsqr; lra|exact L|]. exfalso. apply (O3 1 Rlt_0_1). assert (vx a = 0) by (apply Rsqr_eq_0; generalize (Rle_0_sqr (vx a)) (Rle_0_sqr (vy a)); unfold Rsqr; lra). assert (vy a = 0) by (apply Rsqr_eq_0; generalize (Rle_0_sqr (vx a)) (Rle_0_sqr (vy a)); unfold Rsqr; lra). unfold a in *. cbn in *. apply vec2_ext; cbn; lra. }
  unfold angle_mass, jacobian, bend_jacobian. change (vlen2 (vsub p2 p1)) with (dot (minus p2 p1) (minus p2 p1)). change (vlen2 (vsub p3 p2)) with (dot (minus p3 p2) (minus p3 p2)).
  match goal with |- 0 < ?a => replace a with ((m1 * dot (minus p3 p2) (minus p3 p2) + m2 * dot (minus p3 p1) (minus p3 p1) + m3 * dot (minus p2 p1) (minus p2 p1)) / (dot (minus p2 p1) (minus p2 p1) * dot (minus p3 p2) (minus p3 p2))) end.
  - apply Rdiv_lt_0_compat; [|now apply Rmult_lt_0_compat]. assert (A := Rmult_le_pos _ _ M1 (Rlt_le _ _ L2)). assert (B := Rmult_le_pos _ _ M2 (Rlt_le _ _ L3)). assert (C := Rmult_le_pos _ _ M3 (Rlt_le _ _ L1)).
    destruct (Rle_lt_or_eq_dec _ _ M1) as [X|X]; [assert (Y := Rmult_lt_0_compat _ _ X L2); lra|]. destruct (Rle_lt_or_eq_dec _ _ M2) as [X2|X2]; [assert (Y := Rmult_lt_0_compat _ _ X2 L3); lra|]. assert (X3 : 0 < m3) by lra. assert (Y := Rmult_lt_0_compat _ _ X3 L1). lra.
  - destruct p1 as [a1 b1], p2 as [a2 b2], p3 as [a3 b3]. unfold dot, minus in *. cbn in *. rmathc. field. lra.
Qed.
Lemma bend_angle_is p1 p2 p3 : bend_angle p1 p2 p3 = angle_at p1 p2 p3.
Proof. reflexivity. Qed.
Lemma lengths_open t c p1 p2 p3 : tu_isometric t = false -> open_at p1 p2 p3 -> bend_lengths t c p1 p2 p3 = (vlen2 (vsub p2 p1), vlen2 (vsub p3 p2)) /\ neqb (nmul (vlen2 (vsub p2 p1)) (vlen2 (vsub p3 p2))) (nofZ 0) = false.
Proof.
  intros I O. destruct (open_radius p1 p2 p3 O) as (_ & L1 & L2). unfold bend_lengths. rewrite I. split; [reflexivity|]. change (vlen2 (vsub p2 p1)) with (dot (minus p2 p1) (minus p2 p1)). change (vlen2 (vsub p3 p2)) with (dot (minus p3 p2) (minus p3 p2)). rops. apply Req_bool_false. assert (X := Rmult_lt_0_compat _ _ L1 L2). lra.
Qed.
Lemma along_move j1 j2 j3 (c : bend R) k : along (j1, j2, j3) (times (be_m1 c * k) j1) (times (be_m2 c * k) j2) (times (be_m3 c * k) j3) = k * (be_m1 c * dot j1 j1 + be_m2 c * dot j2 j2 + be_m3 c * dot j3 j3).
Proof. unfold along, times, dot. cbn [vx vy]. ring. Qed.
Lemma minus_add (p h : vec2 R) : minus (vadd p h) p = h.
Proof. apply vec2_ext; cbn; ring. Qed.

Lemma xpbd_solves dt k d m err cdot lam : 0 < dt -> 0 < k -> 0 <= d -> 0 < m -> let i := xpbd_impulse dt k d m err cdot lam in lam + i = spring_lambda dt k d (err + m * i) (cdot + m * i).
Proof.
  intros D K Dp M. cbv zeta. unfold xpbd_impulse, spring_lambda. rops. assert (P : 0 < k * dt * dt) by (repeat apply Rmult_lt_0_compat; assumption).
  assert (S : 0 < (1 + 1 / (k * dt * dt) * (dt * dt * d) / dt) * m + 1 / (k * dt * dt)).
  { assert (A : 0 < 1 / (k * dt * dt)) by (apply Rdiv_lt_0_compat; lra). assert (B : 0 <= 1 / (k * dt * dt) * (dt * dt * d) / dt) by (apply Rmult_le_pos; [apply Rmult_le_pos; [lra|apply Rmult_le_pos; nra]|apply Rlt_le, Rinv_0_lt_compat, D]). assert (0 <= 1 / (k * dt * dt) * (dt * dt * d) / dt * m) by (apply Rmult_le_pos; lra). lra. }
  replace ((1 + 1 / (k * dt * dt) * (dt * dt * d) / dt) * m + 1 / (k * dt * dt)) with (((k * dt + d) * dt * m + 1) / (k * dt * dt)) in * by (field; lra). assert (S2 : 0 < (k * dt + d) * dt * m + 1) by (assert (0 <= (k * dt + d) * dt * m) by (repeat apply Rmult_le_pos; try lra; nra); lra). field. repeat split; lra.
Qed.
Section Angle.
  Variables (t : tuning R) (c : bend R) (qs : list pt) (q1 q2 q3 : pt).
  Let p1 := rp_p q1.
  Let p2 := rp_p q2.
  Let p3 := rp_p q3.
  Hypothesis I : (be_i1 c < be_i2 c < be_i3 c)%nat.
  Hypothesis N1 : nth_error qs (be_i1 c) = Some q1.
  Hypothesis N2 : nth_error qs (be_i2 c) = Some q2.
  Hypothesis N3 : nth_error qs (be_i3 c) = Some q3.
  Hypothesis TI : tu_isometric t = false.
  Hypothesis TF : tu_fixed_mass t = false.
  Hypothesis O : open_at p1 p2 p3.
  Hypothesis L : light c.
  Lemma sum_is j1 j2 j3 : bend_jacobian (vlen2 (vsub p2 p1)) (vlen2 (vsub p3 p2)) p1 p2 p3 = (j1, j2, j3) -> bend_sum t c j1 j2 j3 = angle_mass (be_m1 c) (be_m2 c) (be_m3 c) p1 p2 p3.
  Proof. intros J. unfold bend_sum, angle_mass, jacobian. rewrite TF, J. reflexivity. Qed.
  Lemma mass_pos : 0 < angle_mass (be_m1 c) (be_m2 c) (be_m3 c) p1 p2 p3.
  Proof. destruct L as (A & B & D & E). now apply angle_mass_pos. Qed.

  Theorem angle_pass c' qs' : bend_pbd_angle t c qs = Ok (c', qs') ->
    exists q1' q2' q3', nth_error qs' (be_i1 c) = Some q1' /\ nth_error qs' (be_i2 c) = Some q2' /\ nth_error qs' (be_i3 c) = Some q3' /\
      turns p1 p2 p3 (minus (rp_p q1') p1) (minus (rp_p q2') p2) (minus (rp_p q3') p3) (- (tu_bend_stiffness t * angle_at p1 p2 p3)).
  Proof.
    intros E. unfold bend_pbd_angle in E. apply (on3_inv _ _ _ _ _ _ q1 q2 q3) in E; auto. destruct (lengths_open t c _ _ _ TI O) as [El Ez]. fold p1 p2 p3 in E. rewrite El, Ez in E. destruct (bend_jacobian _ _ p1 p2 p3) as [[j1 j2] j3] eqn:J. rewrite (sum_is _ _ _ J) in E. assert (M := mass_pos). set (m := angle_mass _ _ _ p1 p2 p3) in *.
    assert (Z : neqb m (nofZ 0) = false) by (rops; apply Req_bool_false; lra). rewrite Z in E. destruct E as [(E & _)|(q1' & q2' & q3' & E & A1 & A2 & A3)]; [discriminate|]. exists q1', q2', q3'. split; [exact A1|]. split; [exact A2|]. split; [exact A3|].
    unfold bend_move in E. set (k := ndiv _ _) in E. assert (Ek : k = ndiv (nmul (nneg (tu_bend_stiffness t)) (angle_at p1 p2 p3)) m) by reflexivity. clearbody k. injection E as <- <- <- <-. cbn [with_p rp_p]. fold p1 p2 p3. rewrite !minus_add. assert (S := angle_slope p1 p2 p3 (vscale (nmul (be_m1 c) k) j1) (vscale (nmul (be_m2 c) k) j2) (vscale (nmul (be_m3 c) k) j3) O).
    unfold jacobian in S. rewrite J in S. match type of S with turns _ _ _ _ _ _ ?a => replace (- (tu_bend_stiffness t * angle_at p1 p2 p3)) with a; [exact S|] end. transitivity (k * (be_m1 c * dot j1 j1 + be_m2 c * dot j2 j2 + be_m3 c * dot j3 j3)); [exact (along_move j1 j2 j3 c k)|].
    replace (be_m1 c * dot j1 j1 + be_m2 c * dot j2 j2 + be_m3 c * dot j3 j3) with m by (unfold m, angle_mass, jacobian; now rewrite J). rewrite Ek. rewrite ?bend_angle_is. generalize (angle_at p1 p2 p3). intros th. clearbody m. clear - M. rops. field. lra.
  Qed.
  Theorem angle_spring dt c' qs' rate : bend_force dt t c qs = Ok (c', qs') -> turns p1 p2 p3 (rp_v q1) (rp_v q2) (rp_v q3) rate ->
    exists q1' q2' q3', nth_error qs' (be_i1 c) = Some q1' /\ nth_error qs' (be_i2 c) = Some q2' /\ nth_error qs' (be_i3 c) = Some q3' /\
      (let omega := 2 * B2_PI * tu_bend_hertz t in
       turns p1 p2 p3 (minus (rp_v q1') (rp_v q1)) (minus (rp_v q2') (rp_v q2)) (minus (rp_v q3') (rp_v q3)) (- dt * (omega * omega * angle_at p1 p2 p3 + 2 * tu_bend_damping t * omega * rate))).
  Proof.
    intros E Tr. assert (Er : rate = along (jacobian p1 p2 p3) (rp_v q1) (rp_v q2) (rp_v q3)) by (eapply uniqueness_limite; [exact Tr|apply angle_slope; exact O]).
    unfold bend_force in E. apply (on3_inv _ _ _ _ _ _ q1 q2 q3) in E; auto. destruct (lengths_open t c _ _ _ TI O) as [El Ez]. fold p1 p2 p3 in E. rewrite El, Ez in E. unfold jacobian in Er. destruct (bend_jacobian _ _ p1 p2 p3) as [[j1 j2] j3] eqn:J. rewrite (sum_is _ _ _ J) in E. assert (M := mass_pos). set (m := angle_mass _ _ _ p1 p2 p3) in *.
    assert (Z : neqb m (nofZ 0) = false) by (rops; apply Req_bool_false; lra). rewrite Z in E. destruct E as [(E & _)|(q1' & q2' & q3' & E & A1 & A2 & A3)]; [discriminate|]. exists q1', q2', q3'. split; [exact A1|]. split; [exact A2|]. split; [exact A3|]. intros omega.
    set (k := nmul (nneg dt) _) in E. match type of E with Some (_, _, _, _) = _ => assert (Ek := eq_refl k); unfold k at 2 in Ek end. clearbody k. injection E as <- <- <- <-. cbn [with_v rp_v]. rewrite !minus_add. assert (S := angle_slope p1 p2 p3 (vscale (nmul (be_m1 c) k) j1) (vscale (nmul (be_m2 c) k) j2) (vscale (nmul (be_m3 c) k) j3) O).
    unfold jacobian in S. rewrite J in S. match type of S with turns _ _ _ _ _ _ ?a => match goal with |- turns _ _ _ _ _ _ ?b => replace b with a; [exact S|] end end. transitivity (k * (be_m1 c * dot j1 j1 + be_m2 c * dot j2 j2 + be_m3 c * dot j3 j3)); [exact (along_move j1 j2 j3 c k)|].
    replace (be_m1 c * dot j1 j1 + be_m2 c * dot j2 j2 + be_m3 c * dot j3 j3) with m by (unfold m, angle_mass, jacobian; now rewrite J). rewrite Ek, Er. unfold along. rewrite bend_angle_is. clearbody m. change (b2_dot j1 (rp_v q1)) with (dot j1 (rp_v q1)). change (b2_dot j2 (rp_v q2)) with (dot j2 (rp_v q2)). change (b2_dot j3 (rp_v q3)) with (dot j3 (rp_v q3)). unfold omega. generalize (B2_PI (T := R)) (angle_at p1 p2 p3) (dot j1 (rp_v q1)) (dot j2 (rp_v q2)) (dot j3 (rp_v q3)). intros pi th a1 a2 a3. clear - M. rops. field. lra.
  Qed.
  Theorem angle_xpbd dt c' qs' : 0 < dt -> 0 < be_spring c -> 0 <= be_damper c -> bend_xpbd_angle dt t c qs = Ok (c', qs') ->
    exists q1' q2' q3', nth_error qs' (be_i1 c) = Some q1' /\ nth_error qs' (be_i2 c) = Some q2' /\ nth_error qs' (be_i3 c) = Some q3' /\
      forall change moved, turns p1 p2 p3 (minus (rp_p q1') p1) (minus (rp_p q2') p2) (minus (rp_p q3') p3) change ->
        turns p1 p2 p3 (minus (rp_p q1') (rp_p0 q1)) (minus (rp_p q2') (rp_p0 q2)) (minus (rp_p q3') (rp_p0 q3)) moved ->
        be_lambda c' = spring_lambda dt (be_spring c) (be_damper c) (angle_at p1 p2 p3 + change) moved.
  Proof.
    intros D Ks Kd E. unfold bend_xpbd_angle in E. apply (on3_inv _ _ _ _ _ _ q1 q2 q3) in E; auto. destruct (lengths_open t c _ _ _ TI O) as [El Ez]. fold p1 p2 p3 in E. rewrite El, Ez in E. destruct (bend_jacobian _ _ p1 p2 p3) as [[j1 j2] j3] eqn:J. rewrite (sum_is _ _ _ J) in E. assert (M := mass_pos).
    assert (Em : angle_mass (be_m1 c) (be_m2 c) (be_m3 c) p1 p2 p3 = be_m1 c * dot j1 j1 + be_m2 c * dot j2 j2 + be_m3 c * dot j3 j3) by (unfold angle_mass, jacobian; now rewrite J). set (m := angle_mass _ _ _ p1 p2 p3) in *. clearbody m.
    assert (Z : neqb m (nofZ 0) = false) by (rops; apply Req_bool_false; lra). rewrite Z in E. destruct E as [(E & _)|(q1' & q2' & q3' & E & A1 & A2 & A3)]; [discriminate|]. exists q1', q2', q3'. split; [exact A1|]. split; [exact A2|]. split; [exact A3|]. intros ch mv T1 T2.
    assert (E1 := uniqueness_limite _ _ _ _ T1 (angle_slope _ _ _ _ _ _ O)). assert (E2 := uniqueness_limite _ _ _ _ T2 (angle_slope _ _ _ _ _ _ O)). clear T1 T2. unfold jacobian in E1, E2. rewrite J in E1, E2. unfold bend_move in E. set (i := xpbd_impulse _ _ _ _ _ _ _) in *. assert (X := xpbd_solves dt (be_spring c) (be_damper c) m (angle_at p1 p2 p3) (nadd (nadd (dot j1 (minus p1 (rp_p0 q1))) (dot j2 (minus p2 (rp_p0 q2)))) (dot j3 (minus p3 (rp_p0 q3)))) (be_lambda c) D Ks Kd M). cbv zeta in X. change (xpbd_impulse dt (be_spring c) (be_damper c) m (angle_at p1 p2 p3) _ (be_lambda c)) with i in X. clearbody i. injection E as <- <- <- <-. cbn [be_with_lambda be_lambda]. cbn [with_p rp_p] in E1, E2. fold p1 p2 p3 in E1, E2.
    rewrite E1, E2. etransitivity; [exact X|]. f_equal; rewrite Em; unfold along, minus, dot, vadd, vscale; cbn [vx vy]; rops; ring.
  Qed.
End Angle.

(** ** the other bending models *)
Lemma size_0 a : size a = 0 -> a = V2 0 0.
Proof. intros Z. assert (S2 := size_2 a). rewrite Z in S2. unfold dot in S2. apply vec2_ext; cbn; apply Rsqr_eq_0; generalize (Rle_0_sqr (vx a)) (Rle_0_sqr (vy a)); unfold Rsqr; lra. Qed.
Theorem height_pass t c qs c' qs' q1 q2 q3 : (be_i1 c < be_i2 c < be_i3 c)%nat -> nth_error qs (be_i1 c) = Some q1 -> nth_error qs (be_i2 c) = Some q2 -> nth_error qs (be_i3 c) = Some q3 -> be_m1 c * be_a1 c * be_a1 c + be_m2 c + be_m3 c * be_a2 c * be_a2 c <> 0 -> bend_pbd_height t c qs = Ok (c', qs') ->
  let gap (a b d : pt) := minus (plus (times (be_a1 c) (rp_p a)) (times (be_a2 c) (rp_p d))) (rp_p b) in
  exists q1' q2' q3', nth_error qs' (be_i1 c) = Some q1' /\ nth_error qs' (be_i2 c) = Some q2' /\ nth_error qs' (be_i3 c) = Some q3' /\ gap q1' q2' q3' = times (1 - tu_bend_stiffness t) (gap q1 q2 q3).
Proof.
  intros I N1 N2 N3 M E gap. unfold bend_pbd_height in E. apply (on3_inv _ _ _ _ _ _ q1 q2 q3) in E; auto. change (vsub (vadd (vscale (be_a1 c) (rp_p q1)) (vscale (be_a2 c) (rp_p q3))) (rp_p q2)) with (gap q1 q2 q3) in E. cbv zeta in E. change (vlen (gap q1 q2 q3)) with (size (gap q1 q2 q3)) in E.
  set (g := gap q1 q2 q3) in *. destruct (Req_dec (size g) 0) as [Z|Z].
  - assert (G0 : g = V2 0 0) by (apply size_0, Z).
    assert (Zb : neqb (size g) (nofZ 0) = true) by (rops; apply Req_bool_true, Z). rewrite Zb in E. destruct E as [(_ & _ & ->)|(? & ? & ? & E & _)]; [|discriminate]. exists q1, q2, q3. repeat (split; [assumption|]). fold g. rewrite G0. apply vec2_ext; cbn; ring.
  - assert (Zb : neqb (size g) (nofZ 0) = false) by (rops; apply Req_bool_false, Z). rewrite Zb in E.
    match type of E with context [neqb ?m (nofZ 0)] => assert (Mb : neqb m (nofZ 0) = false) by (rops; apply Req_bool_false, M) end. rewrite Mb in E. destruct E as [(E & _)|(q1' & q2' & q3' & E & A1 & A2 & A3)]; [discriminate|]. exists q1', q2', q3'. repeat (split; [assumption|]).
    unfold bend_move in E. set (n := size g) in *. clearbody n. clear A1 A2 A3 Zb Mb N1 N2 N3. assert (Gx : vx g = be_a1 c * vx (rp_p q1) + be_a2 c * vx (rp_p q3) - vx (rp_p q2)) by reflexivity. assert (Gy : vy g = be_a1 c * vy (rp_p q1) + be_a2 c * vy (rp_p q3) - vy (rp_p q2)) by reflexivity. clearbody g. injection E as _ <- <- <-. unfold gap. cbn [with_p rp_p]. rmathc.
    apply vec2_ext; cbn [minus plus times vx vy vadd vscale vneg]; rops; rewrite ?Gx, ?Gy; field; auto.
Qed.
Theorem triangle_pass t c qs c' qs' q1 q2 q3 : (be_i1 c < be_i2 c < be_i3 c)%nat -> nth_error qs (be_i1 c) = Some q1 -> nth_error qs (be_i2 c) = Some q2 -> nth_error qs (be_i3 c) = Some q3 -> light c -> bend_pbd_triangle t c qs = Ok (c', qs') ->
  let gap (a b d : pt) := minus (rp_p b) (times (1 / 3) (plus (plus (rp_p a) (rp_p b)) (rp_p d))) in
  exists q1' q2' q3' th, nth_error qs' (be_i1 c) = Some q1' /\ nth_error qs' (be_i2 c) = Some q2' /\ nth_error qs' (be_i3 c) = Some q3' /\ 2 / 3 <= th <= 4 / 3 /\ gap q1' q2' q3' = times (1 - tu_bend_stiffness t * th) (gap q1 q2 q3).
Proof.
  intros I N1 N2 N3 (M1 & M2 & M3 & M) E gap. unfold bend_pbd_triangle in E. apply (on3_inv _ _ _ _ _ _ q1 q2 q3) in E; auto. cbv zeta in E. destruct E as [(E & _)|(q1' & q2' & q3' & E & A1 & A2 & A3)]; [discriminate|].
  exists q1', q2', q3', (2 / 3 * ((be_m1 c + be_m3 c + 4 * be_m2 c) / (be_m1 c + be_m3 c + 2 * be_m2 c))). repeat (split; [assumption|]). set (w := be_m1 c + be_m3 c + 2 * be_m2 c). assert (W : 0 < w) by (unfold w; lra). split.
  - assert (1 <= (be_m1 c + be_m3 c + 4 * be_m2 c) / w <= 2); [|lra]. split; [apply (Rmult_le_reg_r w)|apply (Rmult_le_reg_r w)]; try exact W; unfold Rdiv; rewrite Rmult_assoc, Rinv_l, Rmult_1_r by lra; unfold w; lra.
  - clear A1 A2 A3 N1 N2 N3. injection E as _ <- <- <-. unfold gap. cbn [with_p rp_p]. apply vec2_ext; cbn [minus plus times vx vy vadd vscale vsub]; rops; unfold w in *; field; lra.
Qed.
(** ** the spring along a link *)
Theorem stretch_spring dt c qs c' qs' q1 q2 : 0 < dt -> (st_i1 c < st_i2 c)%nat -> nth_error qs (st_i1 c) = Some q1 -> nth_error qs (st_i2 c) = Some q2 -> 0 < st_m1 c + st_m2 c -> 0 < st_spring c -> 0 <= st_damper c -> B2_EPSILON <= size (minus (rp_p q2) (rp_p q1)) -> stretch_xpbd dt c qs = Ok (c', qs') ->
  exists q1' q2' u, nth_error qs' (st_i1 c) = Some q1' /\ nth_error qs' (st_i2 c) = Some q2' /\ size u = 1 /\ minus (rp_p q2) (rp_p q1) = times (size (minus (rp_p q2) (rp_p q1))) u /\
    let l := dot u (minus (rp_p q2') (rp_p q1')) in minus (rp_p q2') (rp_p q1') = times l u /\
    st_lambda c' = spring_lambda dt (st_spring c) (st_damper c) (l - st_l c) (dot u (minus (minus (rp_p q2') (rp_p0 q2)) (minus (rp_p q1') (rp_p0 q1)))).
Proof.
  intros D I N1 N2 M Ks Kd L E. unfold stretch_xpbd in E. apply (on2_inv _ _ _ _ _ q1 q2) in E; auto. cbv zeta in E. change (vsub (rp_p q2) (rp_p q1)) with (minus (rp_p q2) (rp_p q1)) in E. destruct (normalize_big _ L) as [N U]. rewrite N in E. set (n := size (minus (rp_p q2) (rp_p q1))) in *. set (u := times (/ n) _) in *.
  assert (Eu : minus (rp_p q2) (rp_p q1) = times n u) by (assert (X := eps_pos); unfold u; apply vec2_ext; cbn; field; lra). clearbody u. assert (U2 := size_2 u). rewrite U in U2.
  match type of E with context [neqb ?m (nofZ 0)] => assert (Mb : neqb m (nofZ 0) = false) by (rops; apply Req_bool_false; lra) end. rewrite Mb in E. destruct E as [(E & _)|(q1' & q2' & E & A1 & A2)]; [discriminate|]. exists q1', q2', u. repeat (split; [assumption|]). clear A1 A2 Mb N. clearbody n.
  match type of E with context [xpbd_impulse ?a ?b ?d ?e ?f ?g ?h] => assert (X := xpbd_solves a b d e f g h D Ks Kd M); set (i := xpbd_impulse a b d e f g h) in * end. cbv zeta in X. fold i in X. clearbody i. injection E as <- <- <-. cbn [with_p rp_p st_with_lambda st_lambda]. cbv zeta.
  assert (Ex := f_equal vx Eu). assert (Ey := f_equal vy Eu). cbn in Ex, Ey. unfold dot in U2.
  assert (Ed : minus (vadd (rp_p q2) (vscale (st_m2 c * i) u)) (vadd (rp_p q1) (vscale (st_m1 c * i) (vneg u))) = times (n + (st_m1 c + st_m2 c) * i) u).
  { apply vec2_ext; cbn [minus plus times vx vy vadd vscale vsub vneg]; rops; [replace (vx (rp_p q2)) with (vx (rp_p q1) + n * vx u) by lra|replace (vy (rp_p q2)) with (vy (rp_p q1) + n * vy u) by lra]; ring. }
  assert (El : dot u (times (n + (st_m1 c + st_m2 c) * i) u) = n + (st_m1 c + st_m2 c) * i) by (unfold dot, times; cbn [vx vy]; replace (vx u * ((n + (st_m1 c + st_m2 c) * i) * vx u) + vy u * ((n + (st_m1 c + st_m2 c) * i) * vy u)) with ((n + (st_m1 c + st_m2 c) * i) * (vx u * vx u + vy u * vy u)) by ring; rewrite <- U2; ring).
  rewrite Ed, El. split; [reflexivity|]. etransitivity; [exact X|]. f_equal; [rops; ring|]. unfold dot, b2_dot, minus, vadd, vscale, vsub, vneg. cbn [vx vy]. rops. clear - U2.
  transitivity (vx u * (vx (rp_p q2) - vx (rp_p0 q2) - (vx (rp_p q1) - vx (rp_p0 q1))) + vy u * (vy (rp_p q2) - vy (rp_p0 q2) - (vy (rp_p q1) - vy (rp_p0 q1))) + (st_m1 c + st_m2 c) * i * (vx u * vx u + vy u * vy u)); [rewrite <- U2; ring|ring].
Qed.
