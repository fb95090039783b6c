(** Ropes at rest, heights, and moving a rope as a whole. *)
From Coq Require Import List ZArith Reals Lra Lia Bool Arith.
From Flocq Require Import Core.
From Verif Require Import Base Num NumLaws Math RTac ListFacts SolverModel RopeModel RopeSpec RopeTotal RopeReal RopeLinks RopeBend.
Import ListNotations.
Local Open Scope R_scope.

(** ** the heights of a created rope *)
Definition heights (r : rope R) : Prop := Forall (fun c => be_a1 c + be_a2 c = 1) (ro_bend r).
Lemma dot_pos a : a <> V2 0 0 -> 0 < dot a a.
Proof.
  intros N. unfold dot. destruct (Rle_lt_or_eq_dec 0 (vx a * vx a + vy a * vy a)) as [L|L]; [generalize (Rle_0_sqr (vx a)) (Rle_0_sqr (vy a)); unfold Rsqr; lra|exact L|]. destruct N. apply vec2_ext; cbn; apply Rsqr_eq_0; generalize (Rle_0_sqr (vx a)) (Rle_0_sqr (vy a)); unfold Rsqr; lra.
Qed.
Lemma minus_ne a b : a <> b -> minus b a <> V2 0 0.
Proof. intros N E. apply N. assert (X := f_equal vx E). assert (Y := f_equal vy E). cbn in X, Y. apply vec2_ext; lra. Qed.
Lemma tune_bend_parts t (c : bend R) : exists k d, tune_bend t c = be_with_spring c k d.
Proof. unfold tune_bend. cbv zeta. destruct (neqb _ _); [eauto|]. destruct (neqb _ _); eauto. Qed.
Lemma tune_stretch_parts t (c : stretch R) : exists k d, tune_stretch t c = st_with_spring c k d.
Proof. unfold tune_stretch. cbv zeta. destruct (neqb _ _); [exists (st_spring c), (st_damper c); destruct c; reflexivity|eexists; eexists; reflexivity]. Qed.
(* the constraint made at a place *)
Lemma bend_made vs pos i (c c' : bend R) : new_bend (map (new_point pos) vs) i c = Ok c' -> exists v1 v2 v3, nth_error vs i = Some v1 /\ nth_error vs (i + 1) = Some v2 /\ nth_error vs (i + 2) = Some v3 /\
  (let e1 := minus (fst v2) (fst v1) in let e2 := minus (fst v3) (fst v2) in let r := minus (fst v3) (fst v1) in
   be_i1 c' = i /\ be_i2 c' = (i + 1)%nat /\ be_i3 c' = (i + 2)%nat /\ be_lambda c' = 0 /\ be_l1 c' = size e1 /\ be_l2 c' = size e2 /\
   (0 < dot e1 e1 -> 0 < dot e2 e2 -> 0 < dot r r -> be_a1 c' = dot e2 r / dot r r /\ be_a2 c' = dot e1 r / dot r r)).
Proof.
  intros E. unfold new_bend in E. destruct (get _ i) as [q1| |] eqn:G1; try discriminate. cbn [bind] in E. destruct (get _ (i + 1)) as [q2| |] eqn:G2; try discriminate. cbn [bind] in E. destruct (get _ (i + 2)) as [q3| |] eqn:G3; try discriminate. cbn [bind] in E. apply get_inv in G1, G2, G3. rewrite nth_error_map in G1, G2, G3.
  destruct (nth_error vs i) as [v1|] eqn:N1; [|discriminate]. destruct (nth_error vs (i + 1)) as [v2|] eqn:N2; [|discriminate]. destruct (nth_error vs (i + 2)) as [v3|] eqn:N3; [|discriminate]. exists v1, v2, v3. split; [reflexivity|]. split; [reflexivity|]. split; [reflexivity|]. intros e1 e2 r. cbn in G1, G2, G3. injection G1 as <-. injection G2 as <-. injection G3 as <-. cbn [new_point rp_p] in E.
  assert (S1 : b2_distance_vec2 (vadd (fst v1) pos) (vadd (fst v2) pos) = size e1). { transitivity (size (times (-1) e1)); [transitivity (size (vsub (vadd (fst v1) pos) (vadd (fst v2) pos))); [reflexivity|f_equal; apply vec2_ext; cbn; ring]|]. rewrite size_times, Rabs_left by lra. ring. }
  assert (S2 : b2_distance_vec2 (vadd (fst v2) pos) (vadd (fst v3) pos) = size e2). { transitivity (size (times (-1) e2)); [transitivity (size (vsub (vadd (fst v2) pos) (vadd (fst v3) pos))); [reflexivity|f_equal; apply vec2_ext; cbn; ring]|]. rewrite size_times, Rabs_left by lra. ring. }
  assert (V1 : vsub (vadd (fst v2) pos) (vadd (fst v1) pos) = e1) by (apply vec2_ext; cbn; ring). assert (V2 : vsub (vadd (fst v3) pos) (vadd (fst v2) pos) = e2) by (apply vec2_ext; cbn; ring). assert (V3 : vsub (vadd (fst v3) pos) (vadd (fst v1) pos) = r) by (apply vec2_ext; cbn; ring).
  rewrite V1, V2, V3, S1, S2 in E. change (vlen2 e1) with (dot e1 e1) in E. change (vlen2 e2) with (dot e2 e2) in E. change (vlen2 r) with (dot r r) in E. change (b2_dot e1 r) with (dot e1 r) in E. change (b2_dot e2 r) with (dot e2 r) in E. clear V1 V2 V3 S1 S2. cbv zeta in E.
  destruct (neqb (nmul (dot e1 e1) (dot e2 e2)) (nofZ 0)) eqn:Z1.
  - injection E as <-. cbn. repeat split; auto; exfalso; rops; destruct (Req_bool_spec (dot e1 e1 * dot e2 e2) 0) as [Z|]; try discriminate; match goal with A : 0 < dot e1 e1, B : 0 < dot e2 e2 |- _ => assert (X := Rmult_lt_0_compat _ _ A B); lra end.
  - destruct (neqb (dot r r) (nofZ 0)) eqn:Z2; injection E as <-; cbn; repeat split; auto; exfalso; rops; destruct (Req_bool_spec (dot r r) 0) as [Z|]; try discriminate; lra.
Qed.
Lemma call_heights c r r' : fair c -> apart_call c -> wf r -> heights r -> do_call c r = Ok r' -> heights r'.
Proof.
  intros F A W H E. unfold heights in *. destruct c as [d|t|dt n p|p]; cbn [do_call fair apart_call] in *.
  - destruct (create_parts d r r' E) as (ss & bs & _ & _ & Eb & ->). cbn [set_tuning ro_bend]. apply Forall_map, Forall_forall. intros c Hc. apply In_nth_error in Hc. destruct Hc as [i N]. destruct (each_place_nth _ _ _ _ Eb i c N) as (x & _ & G). cbn [Nat.add] in G. destruct (tune_bend_parts (rd_tuning d) c) as (k & dm & ->). cbn [be_with_spring be_a1 be_a2].
    destruct (bend_made _ _ _ _ _ G) as (v1 & v2 & v3 & N1 & N2 & N3 & X). cbv zeta in X. destruct X as (_ & _ & _ & _ & _ & _ & X). destruct (A _ _ _ _ N1 N2 N3) as (A1 & A2 & A3). assert (P3 := dot_pos _ (minus_ne _ _ A3)). destruct (X (dot_pos _ (minus_ne _ _ A1)) (dot_pos _ (minus_ne _ _ A2)) P3) as [-> ->]. apply (Rmult_eq_reg_r (dot (minus (fst v3) (fst v1)) (minus (fst v3) (fst v1)))); [|lra]. unfold Rdiv. rewrite Rmult_plus_distr_r, !Rmult_assoc, Rinv_l, !Rmult_1_r, Rmult_1_l by lra. unfold dot, minus. cbn [vx vy]. ring.
  - injection E as <-. cbn [set_tuning ro_bend]. apply Forall_map. eapply Forall_impl; [|exact H]. intros c Hc. destruct (tune_bend_parts t c) as (k & dm & ->). exact Hc.
  - rops. destruct (Req_bool_spec dt 0) as [Z|Z]; [apply step_0 in E; [now subst|exact Z]|]. destruct F as [F|F]; [discriminate|]. assert (D' : nlt (nofZ 0) dt = true) by (rops; exact F). assert (Z' : neqb dt (nofZ 0) = false) by (rops; now apply Req_bool_false).
    destruct (step_parts dt n p r D' W Z') as (q1 & ss' & bs' & qs' & _ & _ & Ws & Wb & _ & E2). assert (r' = Rope (ro_position r) (map (settle (ndiv (nofZ 1) dt)) qs') ss' bs' (ro_gravity r) (ro_tuning r)) as -> by congruence. cbn [ro_bend]. revert Wb H. apply twins_good. intros x y (l & ->). auto.
  - injection E as <-. cbn [reset ro_bend]. apply Forall_map. eapply Forall_impl; [|exact H]. auto.
Qed.
Theorem calls_heights cs r : Forall fair cs -> Forall apart_call cs -> calls cs rope_default = Ok r -> heights r.
Proof.
  intros F A. assert (X : forall r0, wf r0 -> heights r0 -> calls cs r0 = Ok r -> heights r); [|intros E; apply (X rope_default); auto; [apply default_wf|constructor]].
  induction F as [|c cs Fc F IH]; intros r0 W H E; cbn [calls] in E; [injection E as <-; auto|]. inversion A; subst. destruct (do_call c r0) as [r1| |] eqn:C; try discriminate. cbn [bind] in E. apply (IH ltac:(assumption) r1); auto; [now apply (call_wf c r0)|now apply (call_heights c r0)].
Qed.

(** ** rest *)
Lemma set_same {A} (l : list A) i a : nth_error l i = Some a -> set l i a = Ok l.
Proof. intros N. rewrite set_ok by (eapply nth_lt; exact N). f_equal. revert i N. induction l as [|b l IH]; intros [|i] N; cbn in *; try discriminate; [congruence|]. f_equal. now apply IH. Qed.
Lemma on3_still {C} (c : C) i1 i2 i3 f (qs : list pt) q1 q2 q3 : nth_error qs i1 = Some q1 -> nth_error qs i2 = Some q2 -> nth_error qs i3 = Some q3 -> f q1 q2 q3 = None \/ f q1 q2 q3 = Some (c, q1, q2, q3) -> on3 c i1 i2 i3 f qs = Ok (c, qs).
Proof.
  intros N1 N2 N3 E. unfold on3. rewrite (get_ok _ _ _ N1), (get_ok _ _ _ N2), (get_ok _ _ _ N3). cbn [bind]. destruct E as [-> | ->]; [reflexivity|]. rewrite (set_same _ _ _ N1). cbn [bind]. rewrite (set_same _ _ _ N2). cbn [bind]. now rewrite (set_same _ _ _ N3).
Qed.
Lemma on2_still {C} (c : C) i1 i2 f (qs : list pt) q1 q2 : nth_error qs i1 = Some q1 -> nth_error qs i2 = Some q2 -> f q1 q2 = None \/ f q1 q2 = Some (c, q1, q2) -> on2 c i1 i2 f qs = Ok (c, qs).
Proof.
  intros N1 N2 E. unfold on2. rewrite (get_ok _ _ _ N1), (get_ok _ _ _ N2). cbn [bind]. destruct E as [-> | ->]; [reflexivity|]. rewrite (set_same _ _ _ N1). cbn [bind]. now rewrite (set_same _ _ _ N2).
Qed.
Lemma each_still {C S} (f : C -> S -> res (C * S)) l s : Forall (fun c => f c s = Ok (c, s)) l -> each_item f l s = Ok (l, s).
Proof. intros F. induction F as [|c l E F IH]; cbn [each_item]; [reflexivity|]. rewrite E. cbn [bind]. now rewrite IH. Qed.
Lemma vadd_0 (p h : vec2 R) : vx h = 0 -> vy h = 0 -> vadd p h = p.
Proof. intros X Y. apply vec2_ext; cbn; rewrite ?X, ?Y; ring. Qed.
Lemma with_p_same (q : pt) p : p = rp_p q -> with_p q p = q.
Proof. intros ->. destruct q; reflexivity. Qed.
Lemma with_v_same (q : pt) v : v = rp_v q -> with_v q v = q.
Proof. intros ->. destruct q; reflexivity. Qed.
Definition calm (q : pt) : Prop := rp_p0 q = rp_p q /\ rp_v q = V2 0 0.
Definition slack (qs : list pt) (c : stretch R) : Prop := exists q1 q2, nth_error qs (st_i1 c) = Some q1 /\ nth_error qs (st_i2 c) = Some q2 /\ calm q1 /\ calm q2 /\ B2_EPSILON <= size (minus (rp_p q2) (rp_p q1)) /\ st_l c = size (minus (rp_p q2) (rp_p q1)) /\ st_lambda c = 0.
Definition flat (qs : list pt) (c : bend R) : Prop := exists q1 q2 q3 k, nth_error qs (be_i1 c) = Some q1 /\ nth_error qs (be_i2 c) = Some q2 /\ nth_error qs (be_i3 c) = Some q3 /\ calm q1 /\ calm q2 /\ calm q3 /\
  0 < k /\ B2_EPSILON <= size (minus (rp_p q2) (rp_p q1)) /\ minus (rp_p q3) (rp_p q2) = times k (minus (rp_p q2) (rp_p q1)) /\ be_l1 c = size (minus (rp_p q2) (rp_p q1)) /\ be_l2 c = size (minus (rp_p q3) (rp_p q2)) /\ be_lambda c = 0 /\ be_a1 c = k / (1 + k) /\ be_a2 c = 1 / (1 + k).
Lemma xpbd_0 dt k d m : xpbd_impulse dt k d m 0 0 0 = 0.
Proof. unfold xpbd_impulse. rops. unfold Rdiv. ring. Qed.
Lemma pull_still {C} k m1 m2 len (c : C) (q1 q2 : pt) : B2_EPSILON <= size (minus (rp_p q2) (rp_p q1)) -> len = size (minus (rp_p q2) (rp_p q1)) -> pbd_pull k m1 m2 len c q1 q2 = None \/ pbd_pull k m1 m2 len c q1 q2 = Some (c, q1, q2).
Proof.
  intros L ->. unfold pbd_pull. change (vsub (rp_p q2) (rp_p q1)) with (minus (rp_p q2) (rp_p q1)). destruct (normalize_big _ L) as [-> _]. cbv zeta. destruct (neqb _ _); [now left|right]. set (n := size _). clearbody n. f_equal. f_equal; [f_equal|]; apply with_p_same; apply vec2_ext; cbn; rops; ring.
Qed.
Lemma stretch_still dt t qs c : slack qs c -> stretch_pbd t c qs = Ok (c, qs) /\ stretch_xpbd dt c qs = Ok (c, qs).
Proof.
  intros (q1 & q2 & N1 & N2 & (C1 & _) & (C2 & _) & L & Ll & La). split.
  - apply (on2_still _ _ _ _ _ _ _ N1 N2). now apply pull_still.
  - apply (on2_still _ _ _ _ _ _ _ N1 N2). cbv zeta. change (vsub (rp_p q2) (rp_p q1)) with (minus (rp_p q2) (rp_p q1)). destruct (normalize_big _ L) as [-> _]. destruct (neqb _ _); [now left|right]. rewrite C1, C2, Ll, La. set (u := times _ _). set (n := size _). clearbody u n.
    match goal with |- context [xpbd_impulse ?a ?b ?d ?e ?f ?g ?h] => assert (X : xpbd_impulse a b d e f g h = 0); [replace f with 0 by (rops; ring); replace g with 0 by (cbn; rops; ring); apply xpbd_0|rewrite X] end.
    f_equal. f_equal; [f_equal|]; try (apply with_p_same; apply vec2_ext; cbn; rops; ring). destruct c; unfold st_with_lambda; cbn in *. f_equal. rops. lra.
Qed.
Lemma flat_angle (p1 p2 p3 : vec2 R) k : 0 < k -> B2_EPSILON <= size (minus p2 p1) -> minus p3 p2 = times k (minus p2 p1) -> bend_angle p1 p2 p3 = 0.
Proof.
  intros K L E. rewrite bend_angle_is. unfold angle_at. rewrite E. assert (P : 0 < dot (minus p2 p1) (minus p2 p1)) by (rewrite <- size_2; assert (X := eps_pos); apply Rmult_lt_0_compat; lra). apply angle_is_0; [replace (dot (minus p2 p1) (times k (minus p2 p1))) with (k * dot (minus p2 p1) (minus p2 p1)) by (unfold dot, times; cbn [vx vy]; ring); now apply Rmult_lt_0_compat|unfold cross, times; cbn [vx vy]; ring].
Qed.
Lemma bend_still dt t qs c : flat qs c -> bend_force dt t c qs = Ok (c, qs) /\ bend_pbd_angle t c qs = Ok (c, qs) /\ bend_xpbd_angle dt t c qs = Ok (c, qs) /\ bend_pbd_distance t c qs = Ok (c, qs) /\ bend_pbd_height t c qs = Ok (c, qs).
Proof.
  intros (q1 & q2 & q3 & k & N1 & N2 & N3 & (C1 & W1) & (C2 & W2) & (C3 & W3) & K & L & E & L1 & L2 & La & A1 & A2). assert (An := flat_angle _ _ _ _ K L E). repeat split.
  - apply (on3_still _ _ _ _ _ _ _ _ _ N1 N2 N3). cbv zeta. destruct (bend_lengths _ _ _ _ _) as [l1 l2]. destruct (neqb _ _); [now left|]. destruct (bend_jacobian _ _ _ _ _) as [[j1 j2] j3]. destruct (neqb _ _); [now left|right]. rewrite An, W1, W2, W3. match goal with |- context [nmul (nneg dt) ?a] => replace (nmul (nneg dt) a) with 0 by (cbn; rops; ring) end. f_equal. f_equal; [f_equal; [f_equal|]|]; apply with_v_same; rewrite ?W1, ?W2, ?W3; apply vec2_ext; cbn; rops; ring.
  - apply (on3_still _ _ _ _ _ _ _ _ _ N1 N2 N3). cbv zeta. destruct (bend_lengths _ _ _ _ _) as [l1 l2]. destruct (neqb _ _); [now left|]. destruct (bend_jacobian _ _ _ _ _) as [[j1 j2] j3]. right. rewrite An. unfold bend_move. match goal with |- context [ndiv (nmul (nneg (tu_bend_stiffness t)) 0) ?a] => replace (ndiv (nmul (nneg (tu_bend_stiffness t)) 0) a) with 0 by (rops; unfold Rdiv; ring) end. f_equal. f_equal; [f_equal; [f_equal|]|]; apply with_p_same; apply vec2_ext; cbn; rops; ring.
  - apply (on3_still _ _ _ _ _ _ _ _ _ N1 N2 N3). cbv zeta. destruct (bend_lengths _ _ _ _ _) as [l1 l2]. destruct (neqb _ _); [now left|]. destruct (bend_jacobian _ _ _ _ _) as [[j1 j2] j3]. destruct (neqb _ _); [now left|right]. rewrite An, C1, C2, C3, La. unfold bend_move.
    match goal with |- context [xpbd_impulse ?a ?b ?d ?e ?f ?g ?h] => assert (X : xpbd_impulse a b d e f g h = 0); [replace g with 0 by (cbn; rops; ring); apply xpbd_0|rewrite X] end. f_equal. f_equal; [f_equal; [f_equal|]|]; try (apply with_p_same; apply vec2_ext; cbn; rops; ring). destruct c; unfold be_with_lambda; cbn in *. f_equal. rops. lra.
  - apply (on2_still _ _ _ _ _ _ _ N1 N3). assert (E3 : minus (rp_p q3) (rp_p q1) = times (1 + k) (minus (rp_p q2) (rp_p q1))) by (assert (X := f_equal vx E); assert (Y := f_equal vy E); cbn in X, Y; apply vec2_ext; cbn; lra). assert (P := eps_pos).
    apply pull_still; rewrite E3, size_times, Rabs_right by lra; [|rewrite L1, L2, E, size_times, Rabs_right by lra; rops; ring]. set (s := size _) in *. clearbody s. nra.
  - apply (on3_still _ _ _ _ _ _ _ _ _ N1 N2 N3). cbv zeta. left. match goal with |- context [vlen ?d] => assert (D0 : d = V2 0 0) end.
    { rewrite A1, A2. assert (X := f_equal vx E). assert (Y := f_equal vy E). cbn in X, Y. apply vec2_ext; cbn; [replace (vx (rp_p q3)) with (vx (rp_p q2) + k * (vx (rp_p q2) - vx (rp_p q1))) by lra|replace (vy (rp_p q3)) with (vy (rp_p q2) + k * (vy (rp_p q2) - vy (rp_p q1))) by lra]; field; lra. }
    rewrite D0. assert (Z : neqb (vlen (V2 0 0)) (nofZ 0) = true); [|now rewrite Z]. change (vlen (V2 0 0)) with (size (V2 0 0)). unfold size, dot. cbn [vx vy]. rops. replace (0 * 0 + 0 * 0) with 0 by ring. rewrite sqrt_0. now apply Req_bool_true.
Qed.
Lemma straight_nth l : straight l -> forall i a b, nth_error l i = Some a -> nth_error l (i + 1) = Some b -> B2_EPSILON <= size (minus b a) /\ forall c, nth_error l (i + 2) = Some c -> in_line a b c.
Proof.
  induction l as [|x l IH]; intros S [|i] a b N1 N2; cbn in N1; try discriminate.
  - destruct l as [|y l]; [discriminate|]. cbn in N2. injection N1 as ->. injection N2 as ->. cbn [straight] in S. destruct S as (L & S & _). split; [exact L|]. intros c N3. cbn in N3. destruct l as [|z l]; [discriminate|]. cbn in N3. injection N3 as ->. exact S.
  - assert (S' : straight l) by (destruct l as [|y l]; [exact Logic.I|cbn [straight] in S; apply S]). cbn in N2. destruct (IH S' i a b N1 N2) as [L X]. split; [exact L|]. intros c N3. cbn in N3. auto.
Qed.
Lemma each_stay {S} (f : S -> res S) s : f s = Ok s -> forall n lo, for_from n lo (fun _ => f) s = Ok s.
Proof. intros E n. induction n as [|n IH]; intros lo; cbn [for_from]; [reflexivity|]. rewrite E. cbn [bind]. apply IH. Qed.
Theorem rest d r0 r1 t pos dt n : straight (map fst (rd_vertices d)) -> rd_gravity d = V2 0 0 -> create d r0 = Ok r1 -> tu_bending t <> PbdTriangleBending -> 0 <= dt ->
  let r := set_tuning t (reset pos r1) in step dt n pos r = Ok r.
Proof.
  intros S G E TB D r. unfold step. destruct (Req_dec dt 0) as [Z|Z]; [assert (Zb : neqb dt (nofZ 0) = true) by (rops; apply Req_bool_true, Z); now rewrite Zb|]. assert (Zb : neqb dt (nofZ 0) = false) by (rops; apply Req_bool_false, Z). rewrite Zb. assert (Db : nlt (nofZ 0) dt = true) by (rops; apply Rlt_bool_true; lra).
  destruct (create_parts d r0 r1 E) as (ss & bs & _ & Es & Eb & ->). assert (Gr : ro_gravity r = V2 0 0) by exact G. assert (Tr : ro_tuning r = t) by reflexivity.
  assert (Q : forall i q, nth_error (ro_points r) i = Some q -> exists v, nth_error (rd_vertices d) i = Some v /\ rp_bind q = fst v /\ rp_p q = plus (fst v) pos /\ calm q).
  { intros i q N. unfold r in N. cbn [set_tuning reset ro_points] in N. rewrite map_map, nth_error_map in N. destruct (nth_error (rd_vertices d) i) as [v|]; [|discriminate]. cbn in N. injection N as <-. exists v. repeat split. }
  assert (Qi : forall i v, nth_error (rd_vertices d) i = Some v -> exists q, nth_error (ro_points r) i = Some q).
  { intros i v N. unfold r. cbn [set_tuning reset ro_points]. rewrite map_map, nth_error_map, N. cbn. eauto. }
  assert (Sn : forall i v1 v2, nth_error (rd_vertices d) i = Some v1 -> nth_error (rd_vertices d) (i + 1) = Some v2 -> B2_EPSILON <= size (minus (fst v2) (fst v1)) /\ forall v3, nth_error (rd_vertices d) (i + 2) = Some v3 -> in_line (fst v1) (fst v2) (fst v3)).
  { intros i v1 v2 M1 M2. destruct (straight_nth _ S i (fst v1) (fst v2)) as [A B]; [rewrite nth_error_map, M1; reflexivity|rewrite nth_error_map, M2; reflexivity|]. split; [exact A|]. intros v3 M3. apply B. rewrite nth_error_map, M3. reflexivity. }
  assert (Mp : forall a b, minus (plus a pos) (plus b pos) = minus a b) by (intros; apply vec2_ext; cbn; ring).
  assert (Fs : Forall (slack (ro_points r)) (ro_stretch r)).
  { apply Forall_forall. intros c Hc. unfold r in Hc. cbn [set_tuning reset ro_stretch] in Hc. rewrite !map_map in Hc. apply in_map_iff in Hc. destruct Hc as (c0 & <- & Hc). apply In_nth_error in Hc. destruct Hc as [i N]. destruct (each_place_nth _ _ _ _ Es i c0 N) as (x & _ & X). cbn [Nat.add] in X.
    destruct (tune_stretch_parts (rd_tuning d) c0) as (k1 & e1 & ->). match goal with |- slack _ (tune_stretch t ?c) => destruct (tune_stretch_parts t c) as (k2 & e2 & ->) end.
    unfold new_stretch in X. destruct (get _ i) as [a1| |] eqn:G1; try discriminate. cbn [bind] in X. destruct (get _ (i + 1)) as [a2| |] eqn:G2; try discriminate. cbn [bind] in X. injection X as <-. apply get_inv in G1, G2. rewrite nth_error_map in G1, G2. destruct (nth_error (rd_vertices d) i) as [v1|] eqn:M1; [|discriminate]. destruct (nth_error (rd_vertices d) (i + 1)) as [v2|] eqn:M2; [|discriminate]. cbn in G1, G2. injection G1 as <-. injection G2 as <-.
    destruct (Qi _ _ M1) as (q1 & P1). destruct (Qi _ _ M2) as (q2 & P2). destruct (Q _ _ P1) as (w1 & O1 & _ & Pp1 & K1). destruct (Q _ _ P2) as (w2 & O2 & _ & Pp2 & K2). assert (w1 = v1) as -> by congruence. assert (w2 = v2) as -> by congruence. destruct (Sn _ _ _ M1 M2) as [L _].
    exists q1, q2. cbn [st_with_spring st_with_lambda st_i1 st_i2 st_l st_lambda]. rewrite Pp1, Pp2, Mp. repeat (split; [assumption|]). split; [|reflexivity]. cbn [new_point rp_p].
    transitivity (size (times (-1) (minus (fst v2) (fst v1)))); [transitivity (size (vsub (vadd (fst v1) (rd_position d)) (vadd (fst v2) (rd_position d)))); [reflexivity|f_equal; apply vec2_ext; cbn; ring]|]. rewrite size_times, Rabs_left by lra. ring. }
  assert (Fb : Forall (flat (ro_points r)) (ro_bend r)).
  { apply Forall_forall. intros c Hc. unfold r in Hc. cbn [set_tuning reset ro_bend] in Hc. rewrite !map_map in Hc. apply in_map_iff in Hc. destruct Hc as (c0 & <- & Hc). apply In_nth_error in Hc. destruct Hc as [i N]. destruct (each_place_nth _ _ _ _ Eb i c0 N) as (x & _ & X). cbn [Nat.add] in X.
    destruct (tune_bend_parts (rd_tuning d) c0) as (k1 & e1 & ->). match goal with |- flat _ (tune_bend t ?c) => destruct (tune_bend_parts t c) as (k2 & e2 & ->) end. destruct (bend_made _ _ _ _ _ X) as (v1 & v2 & v3 & M1 & M2 & M3 & Y). cbv zeta in Y. destruct Y as (I1 & I2 & I3 & La & L1 & L2 & Al).
    destruct (Qi _ _ M1) as (q1 & P1). destruct (Qi _ _ M2) as (q2 & P2). destruct (Qi _ _ M3) as (q3 & P3). destruct (Q _ _ P1) as (w1 & O1 & _ & Pp1 & K1). destruct (Q _ _ P2) as (w2 & O2 & _ & Pp2 & K2). destruct (Q _ _ P3) as (w3 & O3 & _ & Pp3 & K3). assert (w1 = v1) as -> by congruence. assert (w2 = v2) as -> by congruence. assert (w3 = v3) as -> by congruence.
    destruct (Sn _ _ _ M1 M2) as [L X3]. destruct (X3 _ M3) as (k & K & El). exists q1, q2, q3, k. cbn [be_with_spring be_with_lambda be_i1 be_i2 be_i3 be_l1 be_l2 be_lambda be_a1 be_a2]. rewrite I1, I2, I3, Pp1, Pp2, Pp3, !Mp. repeat (split; [assumption|]). split; [reflexivity|].
    set (e := minus (fst v2) (fst v1)) in *. assert (Er : minus (fst v3) (fst v1) = times (1 + k) e) by (assert (A := f_equal vx El); assert (B := f_equal vy El); unfold e in *; cbn in A, B; apply vec2_ext; cbn; lra). rewrite El, Er in Al. assert (Pe : 0 < dot e e) by (rewrite <- size_2; assert (Ep := eps_pos); apply Rmult_lt_0_compat; lra). clearbody e.
    assert (T2 : forall a b, dot (times a e) (times b e) = a * b * dot e e) by (intros; unfold dot, times; cbn [vx vy]; ring). assert (T1 : forall b, dot e (times b e) = b * dot e e) by (intros; unfold dot, times; cbn [vx vy]; ring). rewrite !T2, T1 in Al. destruct Al as [-> ->]; [exact Pe|repeat apply Rmult_lt_0_compat; lra|repeat apply Rmult_lt_0_compat; lra|]. split; field; lra. }
  assert (Dr : map (drive dt (ro_gravity r) pos (tu_damping (ro_tuning r))) (ro_points r) = ro_points r).
  { rewrite <- (map_id (ro_points r)) at 2. apply map_ext_in. intros q Hq. apply In_nth_error in Hq. destruct Hq as [i N]. destruct (Q i q N) as (v & _ & B & P & (C & V)). rewrite Gr. unfold drive. cbv zeta. destruct (nlt (nofZ 0) (rp_im q)); apply with_v_same; rewrite ?C, ?B, ?P, V; apply vec2_ext; cbn; rops; ring. }
  rewrite Dr. assert (Bf : match tu_bending (ro_tuning r) with SpringAngleBending => each_item (bend_force dt (ro_tuning r)) (ro_bend r) (ro_points r) | _ => Ok (ro_bend r, ro_points r) end = Ok (ro_bend r, ro_points r)).
  { destruct (tu_bending (ro_tuning r)); try reflexivity. apply each_still. eapply Forall_impl; [|exact Fb]. intros c Hc. now apply bend_still. }
  rewrite Bf. cbn [bind]. assert (Ml : map (fun c => be_with_lambda c (nofZ 0)) (ro_bend r) = ro_bend r). { rewrite <- (map_id (ro_bend r)) at 2. apply map_ext_in. intros c Hc. assert (X := proj1 (Forall_forall _ _) Fb c Hc). destruct X as (? & ? & ? & ? & X). assert (be_lambda c = 0) by apply X. destruct c; cbn in *. unfold be_with_lambda. cbn. now f_equal. }
  assert (Ms : map (fun c => st_with_lambda c (nofZ 0)) (ro_stretch r) = ro_stretch r). { rewrite <- (map_id (ro_stretch r)) at 2. apply map_ext_in. intros c Hc. assert (X := proj1 (Forall_forall _ _) Fs c Hc). destruct X as (? & ? & X). assert (st_lambda c = 0) by apply X. destruct c; cbn in *. unfold st_with_lambda. cbn. now f_equal. }
  assert (Mg : map (go dt) (ro_points r) = ro_points r). { rewrite <- (map_id (ro_points r)) at 2. apply map_ext_in. intros q Hq. apply In_nth_error in Hq. destruct Hq as [i N]. destruct (Q i q N) as (v & _ & _ & _ & (C & V)). unfold go. apply with_p_same. rewrite V. apply vec2_ext; cbn; rops; ring. }
  rewrite Ml, Ms, Mg. assert (Pa : rope_pass dt (ro_tuning r) (ro_stretch r, ro_bend r, ro_points r) = Ok (ro_stretch r, ro_bend r, ro_points r)).
  { unfold rope_pass. assert (X : solve_bends dt (ro_tuning r) (ro_bend r) (ro_points r) = Ok (ro_bend r, ro_points r)).
    { unfold solve_bends. rewrite Tr. destruct (tu_bending t) eqn:Bt; try congruence; try rewrite Db; unfold b2_assert; cbn [bind]; apply each_still; (eapply Forall_impl; [|exact Fb]); intros c Hc; now apply (bend_still dt). }
    rewrite X. cbn [bind]. assert (Y : solve_stretches dt (ro_tuning r) (ro_stretch r) (ro_points r) = Ok (ro_stretch r, ro_points r)); [|now rewrite Y].
    unfold solve_stretches. destruct (tu_stretching _); try rewrite Db; unfold b2_assert; cbn [bind]; apply each_still; (eapply Forall_impl; [|exact Fs]); intros c Hc; now apply (stretch_still dt). }
  unfold for_range. rewrite (each_stay _ _ Pa). cbn [bind]. assert (Mt : map (settle (ndiv (nofZ 1) dt)) (ro_points r) = ro_points r). { rewrite <- (map_id (ro_points r)) at 2. apply map_ext_in. intros q Hq. apply In_nth_error in Hq. destruct Hq as [i N]. destruct (Q i q N) as (v & _ & _ & _ & (C & V)). unfold settle. rewrite C. destruct q as [b p p0 v' m]. cbn in *. subst. f_equal. apply vec2_ext; cbn; rops; ring. }
  rewrite Mt. destruct r; reflexivity.
Qed.
Lemma created_reset d r0 r1 : create d r0 = Ok r1 -> reset (rd_position d) r1 = r1.
Proof.
  intros E. destruct (create_parts d r0 r1 E) as (ss & bs & _ & Es & Eb & ->). unfold reset. cbn [set_tuning ro_position ro_points ro_stretch ro_bend ro_gravity ro_tuning]. unfold set_tuning. cbn [ro_position ro_points ro_stretch ro_bend ro_gravity ro_tuning]. f_equal.
  - rewrite map_map. apply map_ext. reflexivity.
  - rewrite map_map. apply map_ext_in. intros c Hc. apply In_nth_error in Hc. destruct Hc as [i N]. destruct (each_place_nth _ _ _ _ Es i c N) as (x & _ & X). destruct (tune_stretch_parts (rd_tuning d) c) as (k & e & ->). unfold new_stretch in X. destruct (get _ _); try discriminate. cbn [bind] in X. destruct (get _ _); try discriminate. cbn [bind] in X. injection X as <-. reflexivity.
  - rewrite map_map. apply map_ext_in. intros c Hc. apply In_nth_error in Hc. destruct Hc as [i N]. destruct (each_place_nth _ _ _ _ Eb i c N) as (x & _ & X). destruct (tune_bend_parts (rd_tuning d) c) as (k & e & ->). destruct (bend_made _ _ _ _ _ X) as (? & ? & ? & _ & _ & _ & Y). cbv zeta in Y. assert (La : be_lambda c = 0) by apply Y. destruct c. cbn in La |- *. subst. reflexivity.
Qed.
Lemma retune d r0 r1 : create d r0 = Ok r1 -> set_tuning (rd_tuning d) r1 = r1.
Proof.
  intros E. destruct (create_parts d r0 r1 E) as (ss & bs & _ & _ & _ & ->). unfold set_tuning. cbn [ro_position ro_points ro_stretch ro_bend ro_gravity ro_tuning]. rewrite !map_map. f_equal; apply map_ext; intros c.
  - unfold tune_stretch. cbv zeta. destruct (neqb (nadd (st_m1 c) (st_m2 c)) (nofZ 0)) eqn:Z; cbn [st_with_spring st_m1 st_m2]; rewrite Z; reflexivity.
  - unfold tune_bend. cbv zeta. match goal with |- context [if neqb ?a ?b then be_with_spring c _ _ else _] => destruct (neqb a b) eqn:Z end; [cbn [be_with_spring be_l1 be_l2]; rewrite Z; reflexivity|]. match goal with |- context [if neqb ?a ?b then be_with_spring c _ _ else _] => destruct (neqb a b) eqn:Z2 end; cbn [be_with_spring be_l1 be_l2 be_m1 be_m2 be_m3]; rewrite Z, Z2; reflexivity.
Qed.
Theorem rest_created d r0 r dt n : straight (map fst (rd_vertices d)) -> rd_gravity d = V2 0 0 -> create d r0 = Ok r -> tu_bending (rd_tuning d) <> PbdTriangleBending -> 0 <= dt -> step dt n (rd_position d) r = Ok r.
Proof.
  intros S G E TB D. assert (X := rest d r0 r (rd_tuning d) (rd_position d) dt n S G E TB D). cbv zeta in X. now rewrite (created_reset _ _ _ E), (retune _ _ _ E) in X.
Qed.

(** ** moving the rope *)
Section Move.
  Variable o : vec2 R.
  Let mv := move_point o.
  Let both {C} : C * list pt -> C * list pt := fun x => (fst x, map mv (snd x)).
  Lemma get_mv qs i : get (map mv qs) i = ok_map mv (get qs i).
  Proof. unfold get. rewrite nth_error_map. destruct (nth_error qs i); reflexivity. Qed.
  Lemma upd_mv qs i q : upd (map mv qs) i (mv q) = map mv (upd qs i q).
  Proof. revert i. induction qs as [|a qs IH]; intros [|i]; cbn; [reflexivity|reflexivity|reflexivity|]. f_equal. apply IH. Qed.
  Lemma set_mv qs i q : set (map mv qs) i (mv q) = ok_map (map mv) (set qs i q).
  Proof. unfold set. rewrite map_length. destruct (i <? length qs)%nat; [|reflexivity]. cbn. now rewrite upd_mv. Qed.
  Lemma on2_mv {C} (c : C) i1 i2 f qs : (forall q1 q2, f (mv q1) (mv q2) = option_map (fun '(c, a, b) => (c, mv a, mv b)) (f q1 q2)) -> on2 c i1 i2 f (map mv qs) = ok_map both (on2 c i1 i2 f qs).
  Proof.
    intros F. unfold on2. rewrite !get_mv. destruct (get qs i1) as [q1| |]; try reflexivity. cbn [ok_map bind]. destruct (get qs i2) as [q2| |]; try reflexivity. cbn [ok_map bind]. rewrite F. destruct (f q1 q2) as [[[c' a] b]|]; [|reflexivity]. cbn [option_map]. rewrite set_mv. destruct (set qs i1 a) as [s| |]; try reflexivity. cbn [ok_map bind]. rewrite set_mv. destruct (set s i2 b); reflexivity.
  Qed.
  Lemma on3_mv {C} (c : C) i1 i2 i3 f qs : (forall q1 q2 q3, f (mv q1) (mv q2) (mv q3) = option_map (fun '(c, a, b, d) => (c, mv a, mv b, mv d)) (f q1 q2 q3)) -> on3 c i1 i2 i3 f (map mv qs) = ok_map both (on3 c i1 i2 i3 f qs).
  Proof.
    intros F. unfold on3. rewrite !get_mv. destruct (get qs i1) as [q1| |]; try reflexivity. cbn [ok_map bind]. destruct (get qs i2) as [q2| |]; try reflexivity. cbn [ok_map bind]. destruct (get qs i3) as [q3| |]; try reflexivity. cbn [ok_map bind]. rewrite F. destruct (f q1 q2 q3) as [[[[c' a] b] d]|]; [|reflexivity]. cbn [option_map]. rewrite set_mv. destruct (set qs i1 a) as [s| |]; try reflexivity. cbn [ok_map bind]. rewrite set_mv. destruct (set s i2 b) as [s2| |]; try reflexivity. cbn [ok_map bind]. rewrite set_mv. destruct (set s2 i3 d); reflexivity.
  Qed.
  Lemma each_mv {C} (P : C -> Prop) (f : C -> list pt -> res (C * list pt)) : (forall c qs, P c -> f c (map mv qs) = ok_map both (f c qs)) -> forall l qs, Forall P l -> each_item f l (map mv qs) = ok_map both (each_item f l qs).
  Proof.
    intros F l. induction l as [|c l IH]; intros qs G; cbn [each_item]; [reflexivity|]. inversion G; subst. rewrite F by assumption. destruct (f c qs) as [[c' qs']| |]; try reflexivity. unfold both at 1. cbn [ok_map bind fst snd]. rewrite IH by assumption. destruct (each_item f l qs') as [[l' qs'']| |]; reflexivity.
  Qed.
  Lemma mv_diff (q1 q2 : pt) : vsub (rp_p (mv q2)) (rp_p (mv q1)) = vsub (rp_p q2) (rp_p q1).
  Proof. apply vec2_ext; cbn; ring. Qed.
  Lemma mv_step (q : pt) : vsub (rp_p (mv q)) (rp_p0 (mv q)) = vsub (rp_p q) (rp_p0 q).
  Proof. apply vec2_ext; cbn; ring. Qed.
  Lemma mv_add (q : pt) h : with_p (mv q) (vadd (rp_p (mv q)) h) = mv (with_p q (vadd (rp_p q) h)).
  Proof. unfold mv, move_point, with_p. cbn. f_equal. apply vec2_ext; cbn; ring. Qed.
  Lemma mv_sub (q : pt) h : with_p (mv q) (vsub (rp_p (mv q)) h) = mv (with_p q (vsub (rp_p q) h)).
  Proof. unfold mv, move_point, with_p. cbn. f_equal. apply vec2_ext; cbn; ring. Qed.
  Lemma mv_v (q : pt) h : with_v (mv q) (vadd (rp_v (mv q)) h) = mv (with_v q (vadd (rp_v q) h)).
  Proof. reflexivity. Qed.
  Lemma pull_mv {C} k m1 m2 len (c : C) q1 q2 : pbd_pull k m1 m2 len c (mv q1) (mv q2) = option_map (fun '(c, a, b) => (c, mv a, mv b)) (pbd_pull k m1 m2 len c q1 q2).
  Proof. unfold pbd_pull. rewrite mv_diff. destruct (vnormalize _) as [l d]. cbv zeta. destruct (neqb _ _); [reflexivity|]. cbn [option_map]. now rewrite mv_add, mv_sub. Qed.
  Lemma stretch_pbd_mv t c qs : stretch_pbd t c (map mv qs) = ok_map both (stretch_pbd t c qs).
  Proof. apply on2_mv. intros. apply pull_mv. Qed.
  Lemma stretch_xpbd_mv dt c qs : stretch_xpbd dt c (map mv qs) = ok_map both (stretch_xpbd dt c qs).
  Proof. apply on2_mv. intros q1 q2. cbv zeta. rewrite mv_diff, !mv_step. destruct (vnormalize _) as [l d]. destruct (neqb _ _); [reflexivity|]. cbn [option_map]. now rewrite !mv_add. Qed.
  Lemma lengths_mv t c q1 q2 q3 : bend_lengths t c (rp_p (mv q1)) (rp_p (mv q2)) (rp_p (mv q3)) = bend_lengths t c (rp_p q1) (rp_p q2) (rp_p q3).
  Proof. unfold bend_lengths. now rewrite !mv_diff. Qed.
  Lemma angle_mv q1 q2 q3 : bend_angle (rp_p (mv q1)) (rp_p (mv q2)) (rp_p (mv q3)) = bend_angle (rp_p q1) (rp_p q2) (rp_p q3).
  Proof. unfold bend_angle. now rewrite !mv_diff. Qed.
  Lemma jacobian_mv a b q1 q2 q3 : bend_jacobian a b (rp_p (mv q1)) (rp_p (mv q2)) (rp_p (mv q3)) = bend_jacobian a b (rp_p q1) (rp_p q2) (rp_p q3).
  Proof. unfold bend_jacobian. now rewrite !mv_diff. Qed.
  Lemma move_mv c c' i j1 j2 j3 q1 q2 q3 : bend_move c c' i j1 j2 j3 (mv q1) (mv q2) (mv q3) = option_map (fun '(c, a, b, d) => (c, mv a, mv b, mv d)) (bend_move c c' i j1 j2 j3 q1 q2 q3).
  Proof. unfold bend_move. cbn [option_map]. now rewrite !mv_add. Qed.
  Lemma bend_mv dt t c qs : (tu_bending t = PbdHeightBending -> be_a1 c + be_a2 c = 1) -> bend_force dt t c (map mv qs) = ok_map both (bend_force dt t c qs) /\ bend_pbd_angle t c (map mv qs) = ok_map both (bend_pbd_angle t c qs) /\ bend_xpbd_angle dt t c (map mv qs) = ok_map both (bend_xpbd_angle dt t c qs) /\ bend_pbd_distance t c (map mv qs) = ok_map both (bend_pbd_distance t c qs) /\
    (tu_bending t = PbdHeightBending -> bend_pbd_height t c (map mv qs) = ok_map both (bend_pbd_height t c qs)) /\ bend_pbd_triangle t c (map mv qs) = ok_map both (bend_pbd_triangle t c qs).
  Proof.
    intros H. repeat split.
    - apply on3_mv. intros q1 q2 q3. rewrite lengths_mv. destruct (bend_lengths _ _ _ _ _) as [l1 l2]. destruct (neqb _ _); [reflexivity|]. rewrite angle_mv, jacobian_mv. destruct (bend_jacobian _ _ _ _ _) as [[j1 j2] j3]. cbv zeta. destruct (neqb _ _); reflexivity.
    - apply on3_mv. intros q1 q2 q3. cbv zeta. rewrite lengths_mv. destruct (bend_lengths _ _ _ _ _) as [l1 l2]. destruct (neqb _ _); [reflexivity|]. rewrite angle_mv, jacobian_mv. destruct (bend_jacobian _ _ _ _ _) as [[j1 j2] j3]. apply move_mv.
    - apply on3_mv. intros q1 q2 q3. cbv zeta. rewrite !mv_step, lengths_mv. destruct (bend_lengths _ _ _ _ _) as [l1 l2]. destruct (neqb _ _); [reflexivity|]. rewrite angle_mv, jacobian_mv. destruct (bend_jacobian _ _ _ _ _) as [[j1 j2] j3]. destruct (neqb _ _); [reflexivity|]. apply move_mv.
    - apply on2_mv. intros. apply pull_mv.
    - intros B. apply on3_mv. intros q1 q2 q3. cbv zeta. specialize (H B). replace (vsub (vadd (vscale (be_a1 c) (rp_p (mv q1))) (vscale (be_a2 c) (rp_p (mv q3)))) (rp_p (mv q2))) with (vsub (vadd (vscale (be_a1 c) (rp_p q1)) (vscale (be_a2 c) (rp_p q3))) (rp_p q2)); [destruct (neqb _ _); [reflexivity|]; destruct (neqb _ _); [reflexivity|]; apply move_mv|].
      replace (be_a2 c) with (1 - be_a1 c) by lra. apply vec2_ext; cbn; ring.
    - apply on3_mv. intros q1 q2 q3. cbv zeta. replace (vsub (rp_p (mv q2)) (vscale (ndiv (nofZ 1) (nofZ 3)) (vadd (vadd (rp_p (mv q1)) (rp_p (mv q2))) (rp_p (mv q3))))) with (vsub (rp_p q2) (vscale (ndiv (nofZ 1) (nofZ 3)) (vadd (vadd (rp_p q1) (rp_p q2)) (rp_p q3)))) by (apply vec2_ext; cbn; rops; field). cbn [option_map]. now rewrite !mv_add.
  Qed.
  Definition level (t : tuning R) (c : bend R) : Prop := tu_bending t = PbdHeightBending -> be_a1 c + be_a2 c = 1.
  Lemma solve_bends_mv dt t bs qs : Forall (level t) bs -> solve_bends dt t bs (map mv qs) = ok_map both (solve_bends dt t bs qs).
  Proof.
    intros F. unfold solve_bends. destruct (tu_bending t) eqn:B; try (apply (each_mv (level t)); [intros c q Hc; now apply (bend_mv dt t c q)|exact F]).
    - reflexivity.
    - unfold b2_assert. destruct (nlt _ _); [|reflexivity]. cbn [bind]. apply (each_mv (level t)); [intros c q Hc; now apply (bend_mv dt t c q)|exact F].
  Qed.
  Lemma solve_stretches_mv dt t ss qs : solve_stretches dt t ss (map mv qs) = ok_map both (solve_stretches dt t ss qs).
  Proof.
    unfold solve_stretches. assert (F : Forall (fun _ : stretch R => True) ss) by (apply Forall_forall; auto). destruct (tu_stretching t).
    - apply (each_mv (fun _ => True)); [|exact F]. intros. apply stretch_pbd_mv.
    - unfold b2_assert. destruct (nlt _ _); [|reflexivity]. cbn [bind]. apply (each_mv (fun _ => True)); [|exact F]. intros. apply stretch_xpbd_mv.
  Qed.
  Lemma on3_c {C} (c : C) i1 i2 i3 f (qs : list pt) c' qs' : on3 c i1 i2 i3 f qs = Ok (c', qs') -> c' = c \/ exists q1 q2 q3 a b d, f q1 q2 q3 = Some (c', a, b, d).
  Proof.
    intros E. unfold on3 in E. destruct (get qs i1) as [q1| |]; try discriminate. cbn [bind] in E. destruct (get qs i2) as [q2| |]; try discriminate. cbn [bind] in E. destruct (get qs i3) as [q3| |]; try discriminate. cbn [bind] in E. destruct (f q1 q2 q3) as [[[[c2 a] b] d]|] eqn:F; [|left; congruence]. right. exists q1, q2, q3, a, b, d. rewrite F.
    destruct (set qs i1 a) as [s| |]; try discriminate. cbn [bind] in E. destruct (set s i2 b) as [s2| |]; try discriminate. cbn [bind] in E. destruct (set s2 i3 d) as [s3| |]; try discriminate. cbn [bind] in E. congruence.
  Qed.
  Lemma xpbd_twin dt t c qs c' qs' : bend_xpbd_angle dt t c qs = Ok (c', qs') -> btwin c c'.
  Proof.
    intros E. apply on3_c in E. destruct E as [-> |(q1 & q2 & q3 & a & b & d & E)]; [exists (be_lambda c); destruct c; reflexivity|]. cbv zeta in E. destruct (bend_lengths _ _ _ _ _) as [l1 l2]. destruct (neqb _ _); [discriminate|]. destruct (bend_jacobian _ _ _ _ _) as [[j1 j2] j3]. destruct (neqb _ _); [discriminate|]. unfold bend_move in E. eexists. injection E as <- _ _ _. reflexivity.
  Qed.
  Lemma same_twin (c : bend R) : btwin c c.
  Proof. exists (be_lambda c). destruct c; reflexivity. Qed.
  Lemma each_twin (f : bend R -> list pt -> res (bend R * list pt)) : (forall c qs c' qs', f c qs = Ok (c', qs') -> btwin c c') -> forall l qs l' qs', each_item f l qs = Ok (l', qs') -> Forall2 btwin l l'.
  Proof.
    intros F l. induction l as [|c l IH]; intros qs l' qs' E; cbn [each_item] in E; [injection E as <- _; constructor|]. destruct (f c qs) as [[c1 q1]| |] eqn:G; try discriminate. cbn [bind] in E. destruct (each_item f l q1) as [[l1 q2]| |] eqn:H; try discriminate. cbn [bind] in E. injection E as <- _. constructor; eauto.
  Qed.
  Lemma solve_bends_twin dt t bs qs bs' qs' : solve_bends dt t bs qs = Ok (bs', qs') -> Forall2 btwin bs bs'.
  Proof.
    intros E. unfold solve_bends in E. destruct (tu_bending t).
    - injection E as <- _. clear. induction bs; constructor; auto using same_twin.
    - revert E. apply each_twin. intros c q c' q' E. apply on3_c in E. destruct E as [-> |(q1 & q2 & q3 & a & b & d & E)]; [apply same_twin|]. cbv zeta in E. destruct (bend_lengths _ _ _ _ _) as [l1 l2]. destruct (neqb _ _); [discriminate|]. destruct (bend_jacobian _ _ _ _ _) as [[j1 j2] j3]. unfold bend_move in E. injection E as <- _ _ _. apply same_twin.
    - unfold b2_assert in E. destruct (nlt _ _); [|discriminate]. cbn [bind] in E. revert E. apply each_twin. intros. eapply xpbd_twin; eassumption.
    - revert E. apply each_twin. intros c q c' q' E. unfold bend_pbd_distance, on2 in E. destruct (get _ _); try discriminate. cbn [bind] in E. destruct (get _ _); try discriminate. cbn [bind] in E. unfold pbd_pull in E. destruct (vnormalize _). cbv zeta in E. destruct (neqb _ _); [injection E as <- _; apply same_twin|]. destruct (set _ _ _); try discriminate. cbn [bind] in E. destruct (set _ _ _); try discriminate. cbn [bind] in E. injection E as <- _. apply same_twin.
    - revert E. apply each_twin. intros c q c' q' E. apply on3_c in E. destruct E as [-> |(q1 & q2 & q3 & a & b & d & E)]; [apply same_twin|]. cbv zeta in E. destruct (neqb _ _); [discriminate|]. destruct (neqb _ _); [discriminate|]. unfold bend_move in E. injection E as <- _ _ _. apply same_twin.
    - revert E. apply each_twin. intros c q c' q' E. apply on3_c in E. destruct E as [-> |(q1 & q2 & q3 & a & b & d & E)]; [apply same_twin|]. cbv zeta in E. injection E as <- _ _ _. apply same_twin.
  Qed.
  Lemma twin_level t bs bs' : Forall2 btwin bs bs' -> Forall (level t) bs -> Forall (level t) bs'.
  Proof. apply twins_good. intros c c' (x & ->). auto. Qed.
  Let three : list (stretch R) * list (bend R) * list pt -> list (stretch R) * list (bend R) * list pt := fun x => (fst x, map mv (snd x)).
  Lemma passes_mv dt t : forall n lo ss bs qs, Forall (level t) bs -> for_from n lo (fun _ => rope_pass dt t) (ss, bs, map mv qs) = ok_map three (for_from n lo (fun _ => rope_pass dt t) (ss, bs, qs)).
  Proof.
    induction n as [|n IH]; intros lo ss bs qs F; cbn [for_from]; [reflexivity|]. unfold rope_pass at 1 3. rewrite solve_bends_mv by exact F. destruct (solve_bends dt t bs qs) as [[bs' qs']| |] eqn:E; try reflexivity. unfold both at 1. cbn [ok_map bind fst snd]. rewrite solve_stretches_mv. destruct (solve_stretches dt t ss qs') as [[ss' qs'']| |]; try reflexivity. unfold both at 1. cbn [ok_map bind fst snd]. apply IH. eapply twin_level; [eapply solve_bends_twin; exact E|exact F].
  Qed.
  Theorem step_mv dt n pos r : proper_heights r -> step dt n (plus pos o) (move_rope o r) = ok_map (move_rope o) (step dt n pos r).
  Proof.
    intros H. unfold step. destruct (neqb dt (nofZ 0)); [reflexivity|]. change (ro_tuning (move_rope o r)) with (ro_tuning r). change (ro_gravity (move_rope o r)) with (ro_gravity r). change (ro_bend (move_rope o r)) with (ro_bend r). change (ro_stretch (move_rope o r)) with (ro_stretch r). change (ro_position (move_rope o r)) with (ro_position r). change (ro_points (move_rope o r)) with (map mv (ro_points r)). set (t := ro_tuning r).
    replace (map (drive dt (ro_gravity r) (plus pos o) (tu_damping t)) (map mv (ro_points r))) with (map mv (map (drive dt (ro_gravity r) pos (tu_damping t)) (ro_points r))).
    2:{ rewrite !map_map. apply map_ext. intros q. unfold drive. cbv zeta. change (rp_im (mv q)) with (rp_im q). destruct (nlt _ _); [reflexivity|]. unfold mv, move_point, with_v. cbn. f_equal. apply vec2_ext; cbn; ring. }
    set (qs := map (drive _ _ _ _) _). assert (L : Forall (level t) (ro_bend r)) by (apply Forall_forall; intros c Hc B; exact (proj1 (Forall_forall _ _) (H B) c Hc)).
    assert (X : match tu_bending t with SpringAngleBending => each_item (bend_force dt t) (ro_bend r) (map mv qs) | _ => Ok (ro_bend r, map mv qs) end = ok_map both (match tu_bending t with SpringAngleBending => each_item (bend_force dt t) (ro_bend r) qs | _ => Ok (ro_bend r, qs) end)).
    { destruct (tu_bending t) eqn:B; try reflexivity. apply (each_mv (level t)); [intros c q Hc; now apply (bend_mv dt t c q)|exact L]. }
    rewrite X. clear X. assert (Tw : forall bs q, match tu_bending t with SpringAngleBending => each_item (bend_force dt t) (ro_bend r) qs | _ => Ok (ro_bend r, qs) end = Ok (bs, q) -> Forall (level t) bs).
    { intros bs q E. destruct (tu_bending t) eqn:B; try (injection E as <- _; exact L). apply Forall_forall. intros c _ B2. congruence. }
    destruct (match tu_bending t with SpringAngleBending => each_item (bend_force dt t) (ro_bend r) qs | _ => Ok (ro_bend r, qs) end) as [[bs q]| |]; try reflexivity. specialize (Tw bs q eq_refl). unfold both at 1. cbn [ok_map bind fst snd].
    replace (map (go dt) (map mv q)) with (map mv (map (go dt) q)) by (rewrite !map_map; apply map_ext; intros a; symmetry; exact (mv_add a _)). unfold for_range. rewrite passes_mv.
    2:{ apply Forall_map. eapply Forall_impl; [|exact Tw]. intros c Hc. exact Hc. }
    destruct (for_from _ _ _ _) as [[[ss' bs'] qs']| |]; try reflexivity. unfold three. cbn [ok_map bind fst snd]. f_equal. unfold move_rope. cbn [ro_position ro_points ro_stretch ro_bend ro_gravity ro_tuning]. f_equal. rewrite !map_map. apply map_ext. intros a. unfold settle, mv, move_point. cbn. f_equal. apply vec2_ext; cbn; ring.
  Qed.
End Move.

(** ** making the rope anew *)
Lemma each_place_forget {A} (f : nat -> A -> res A) (g : A -> A) : (forall i x y, ok_map g (f i x) = ok_map g (f i y)) -> forall l l2 i, length l = length l2 -> ok_map (map g) (each_place f i l) = ok_map (map g) (each_place f i l2).
Proof.
  intros F l. induction l as [|x l IH]; intros [|y l2] i L; cbn in L; try discriminate; [reflexivity|]. cbn [each_place]. assert (X := F i x y). destruct (f i x) as [a| |], (f i y) as [b| |]; cbn in X; try discriminate; try reflexivity. cbn [bind].
  assert (Y := IH l2 (S i) ltac:(lia)). destruct (each_place f (S i) l) as [a'| |], (each_place f (S i) l2) as [b'| |]; cbn in Y; try discriminate; try reflexivity. cbn. congruence.
Qed.
Lemma tune_forgets t (b : bend R) x y : tune_bend t (be_with_spring b x y) = tune_bend t b.
Proof. unfold tune_bend. cbv zeta. cbn [be_with_spring be_l1 be_l2 be_m1 be_m2 be_m3]. destruct (neqb _ _); [reflexivity|]. destruct (neqb _ _); reflexivity. Qed.
Lemma new_bend_forgets vs pos t i c1 c2 : apart vs -> ok_map (tune_bend t) (new_bend (map (new_point pos) vs) i c1) = ok_map (tune_bend t) (new_bend (map (new_point pos) vs) i c2).
Proof.
  intros A. unfold new_bend. destruct (get (map (new_point pos) vs) i) as [q1| |] eqn:G1; try reflexivity. destruct (get _ (i + 1)) as [q2| |] eqn:G2; try reflexivity. destruct (get _ (i + 2)) as [q3| |] eqn:G3; try reflexivity. cbn [bind]. apply get_inv in G1, G2, G3. rewrite nth_error_map in G1, G2, G3.
  destruct (nth_error vs i) as [v1|] eqn:N1; [|discriminate]. destruct (nth_error vs (i + 1)) as [v2|] eqn:N2; [|discriminate]. destruct (nth_error vs (i + 2)) as [v3|] eqn:N3; [|discriminate]. destruct (A _ _ _ _ N1 N2 N3) as (A1 & A2 & A3). cbn in G1, G2, G3. injection G1 as <-. injection G2 as <-. injection G3 as <-. cbn [new_point rp_p rp_im].
  assert (V1 : vsub (vadd (fst v2) pos) (vadd (fst v1) pos) = minus (fst v2) (fst v1)) by (apply vec2_ext; cbn; ring). assert (V2 : vsub (vadd (fst v3) pos) (vadd (fst v2) pos) = minus (fst v3) (fst v2)) by (apply vec2_ext; cbn; ring). assert (V3 : vsub (vadd (fst v3) pos) (vadd (fst v1) pos) = minus (fst v3) (fst v1)) by (apply vec2_ext; cbn; ring).
  rewrite V1, V2, V3. assert (P1 := dot_pos _ (minus_ne _ _ A1)). assert (P2 := dot_pos _ (minus_ne _ _ A2)). assert (P3 := dot_pos _ (minus_ne _ _ A3)). change (vlen2 (minus (fst v2) (fst v1))) with (dot (minus (fst v2) (fst v1)) (minus (fst v2) (fst v1))). change (vlen2 (minus (fst v3) (fst v2))) with (dot (minus (fst v3) (fst v2)) (minus (fst v3) (fst v2))). change (vlen2 (minus (fst v3) (fst v1))) with (dot (minus (fst v3) (fst v1)) (minus (fst v3) (fst v1))).
  match goal with |- context [if neqb (nmul ?a ?b) ?z then _ else _] => assert (Z1 : neqb (nmul a b) z = false) by (assert (X := Rmult_lt_0_compat _ _ P1 P2); rops; apply Req_bool_false; lra) end. rewrite Z1. cbv zeta. match goal with |- context [if neqb ?a ?z then _ else _] => assert (Z2 : neqb a z = false) by (rops; apply Req_bool_false; lra) end. rewrite Z2. cbn [ok_map]. f_equal.
Qed.
Theorem create_forgets d r1 r2 : apart (rd_vertices d) -> create d r1 = create d r2.
Proof.
  intros A. unfold create. cbv zeta. unfold b2_assert. destruct (3 <=? _)%nat; [|reflexivity]. cbn [bind]. set (qs := map (new_point (rd_position d)) (rd_vertices d)). set (n := length (rd_vertices d)).
  assert (S : each_place (fun i _ => new_stretch qs i) 0 (resize (n - 1) stretch_default (ro_stretch r1)) = each_place (fun i _ => new_stretch qs i) 0 (resize (n - 1) stretch_default (ro_stretch r2))).
  { assert (X := each_place_forget (fun i (_ : stretch R) => new_stretch qs i) (fun c => c) ltac:(reflexivity) (resize (n - 1) stretch_default (ro_stretch r1)) (resize (n - 1) stretch_default (ro_stretch r2)) 0%nat ltac:(now rewrite !resize_length)). destruct (each_place _ _ (resize _ _ (ro_stretch r1))), (each_place _ _ (resize _ _ (ro_stretch r2))); cbn in X; try discriminate; rewrite ?map_id in X; congruence. }
  rewrite S. destruct (each_place _ 0 (resize _ _ (ro_stretch r2))) as [ss| |]; try reflexivity. cbn [bind].
  assert (B := each_place_forget (new_bend qs) (tune_bend (rd_tuning d)) (fun i x y => new_bend_forgets _ _ _ i x y A) (resize (n - 2) bend_default (ro_bend r1)) (resize (n - 2) bend_default (ro_bend r2)) 0%nat ltac:(now rewrite !resize_length)).
  destruct (each_place (new_bend qs) 0 (resize _ _ (ro_bend r1))) as [b1| |], (each_place (new_bend qs) 0 (resize _ _ (ro_bend r2))) as [b2| |]; cbn in B; try discriminate; try reflexivity. cbn [bind]. unfold set_tuning. cbn [ro_position ro_points ro_stretch ro_bend ro_gravity]. do 2 f_equal. congruence.
Qed.
(** ** the spring constants *)
Theorem tuned_stretch t (c : stretch R) : 0 < st_m1 c + st_m2 c -> let c' := tune_stretch t c in let omega := 2 * B2_PI * tu_stretch_hertz t in
  (st_m1 c + st_m2 c) * st_spring c' = omega * omega /\ (st_m1 c + st_m2 c) * st_damper c' = 2 * tu_stretch_damping t * omega.
Proof.
  intros M c' omega. unfold c', tune_stretch. cbv zeta. assert (Z : neqb (nadd (st_m1 c) (st_m2 c)) (nofZ 0) = false) by (rops; apply Req_bool_false; lra). rewrite Z. cbn [st_with_spring st_spring st_damper]. unfold omega. generalize (B2_PI (T := R)). intros pi. rops. split; field; lra.
Qed.
Theorem tuned_bend t (c : bend R) : 0 < be_l1 c -> 0 < be_l2 c -> 0 <= be_m1 c -> 0 <= be_m2 c -> 0 <= be_m3 c -> 0 < be_m1 c + be_m2 c + be_m3 c ->
  let c' := tune_bend t c in let omega := 2 * B2_PI * tu_bend_hertz t in
  let sum := be_m1 c * Rsqr (1 / be_l1 c) + be_m2 c * Rsqr (1 / be_l1 c + 1 / be_l2 c) + be_m3 c * Rsqr (1 / be_l2 c) in
  sum * be_spring c' = omega * omega /\ sum * be_damper c' = 2 * tu_bend_damping t * omega.
Proof.
  intros L1 L2 M1 M2 M3 M. unfold tune_bend. rops. assert (A : 0 < 1 / be_l1 c) by (apply Rdiv_lt_0_compat; lra). assert (B : 0 < 1 / be_l2 c) by (apply Rdiv_lt_0_compat; lra).
  assert (Z : 0 < be_l1 c * be_l1 c * (be_l2 c * be_l2 c)) by (repeat apply Rmult_lt_0_compat; lra).
  rewrite Req_bool_false by (rops; lra).
  set (s := be_m1 c / (be_l1 c * be_l1 c) + be_m2 c * (1 / be_l1 c + 1 / be_l2 c) * (1 / be_l1 c + 1 / be_l2 c) + be_m3 c / (be_l2 c * be_l2 c)).
  assert (Q : be_m1 c * Rsqr (1 / be_l1 c) + be_m2 c * Rsqr (1 / be_l1 c + 1 / be_l2 c) + be_m3 c * Rsqr (1 / be_l2 c) = s) by (unfold s, Rsqr; field; lra).
  assert (P : 0 < s). { rewrite <- Q. assert (0 < Rsqr (1 / be_l1 c)) by (apply Rsqr_pos_lt; lra). assert (0 < Rsqr (1 / be_l2 c)) by (apply Rsqr_pos_lt; lra). assert (0 < Rsqr (1 / be_l1 c + 1 / be_l2 c)) by (apply Rsqr_pos_lt; lra). destruct (Rle_lt_or_eq_dec _ _ M1), (Rle_lt_or_eq_dec _ _ M2), (Rle_lt_or_eq_dec _ _ M3); nra. }
  rewrite Q. change (IZR 1) with 1. fold s. rewrite Req_bool_false by lra. cbn [be_spring be_damper be_with_spring]. clearbody s. split; field; lra.
Qed.
(** ** one pass of a link *)
Theorem link_pass t c qs c' qs' q1 q2 : (st_i1 c < st_i2 c)%nat -> nth_error qs (st_i1 c) = Some q1 -> nth_error qs (st_i2 c) = Some q2 -> st_m1 c + st_m2 c <> 0 -> B2_EPSILON <= size (minus (rp_p q2) (rp_p q1)) -> stretch_pbd t c qs = Ok (c', qs') ->
  exists q1' q2', nth_error qs' (st_i1 c) = Some q1' /\ nth_error qs' (st_i2 c) = Some q2' /\
    (let l := size (minus (rp_p q2) (rp_p q1)) in size (minus (rp_p q2') (rp_p q1')) = Rabs (l + tu_stretch_stiffness t * (st_l c - l))).
Proof.
  intros I N1 N2 M L E. unfold stretch_pbd in E. apply (on2_inv _ _ _ _ _ q1 q2) in E; auto. destruct E as [(E & _)|(q1' & q2' & E & A & B)]; [exfalso|exists q1', q2'; repeat (split; [assumption|]); now apply (pull_length _ _ _ _ _ _ _ _ _ _ E)].
  unfold pbd_pull in E. destruct (vnormalize _) as [l d]. cbv zeta in E. destruct (neqb (nadd (st_m1 c) (st_m2 c)) (nofZ 0)) eqn:Z; [|discriminate]. rops. destruct (Req_bool_spec (st_m1 c + st_m2 c) 0); [contradiction|discriminate].
Qed.
Theorem span_pass t c qs c' qs' q1 q3 : (be_i1 c < be_i3 c)%nat -> nth_error qs (be_i1 c) = Some q1 -> nth_error qs (be_i3 c) = Some q3 -> be_m1 c + be_m3 c <> 0 -> B2_EPSILON <= size (minus (rp_p q3) (rp_p q1)) -> bend_pbd_distance t c qs = Ok (c', qs') ->
  exists q1' q3', nth_error qs' (be_i1 c) = Some q1' /\ nth_error qs' (be_i3 c) = Some q3' /\
    (let l := size (minus (rp_p q3) (rp_p q1)) in size (minus (rp_p q3') (rp_p q1')) = Rabs (l + tu_bend_stiffness t * (be_l1 c + be_l2 c - l))).
Proof.
  intros I N1 N2 M L E. unfold bend_pbd_distance in E. apply (on2_inv _ _ _ _ _ q1 q3) in E; auto. destruct E as [(E & _)|(q1' & q2' & E & A & B)]; [exfalso|exists q1', q2'; repeat (split; [assumption|]); now apply (pull_length _ _ _ _ _ _ _ _ _ _ E)].
  unfold pbd_pull in E. destruct (vnormalize _) as [l d]. cbv zeta in E. destruct (neqb (nadd (be_m1 c) (be_m3 c)) (nofZ 0)) eqn:Z; [|discriminate]. rops. destruct (Req_bool_spec (be_m1 c + be_m3 c) 0); [contradiction|discriminate].
Qed.
