(** The two-point solver and the position correction, in exact real arithmetic. *)
From Coq Require Import List ZArith Bool Arith Reals Lia Lra.
From Flocq Require Import Core.
From Verif Require Import Base Num NumLaws Math RTac Manifold ListFacts DynModel SolverModel IslandModel SolverSpec SolverProofs SolverReal.
Import ListNotations.
Local Open Scope R_scope.

(** ** the linear complementarity problem *)
(* the four cases, for K = (k1 k; k k2) *)
Section Cases.
  Variables k1 k k2 b1 b2 : R.
  Hypothesis K1 : 0 < k1.
  Hypothesis D : 0 < k1 * k2 - k * k.
  Lemma k2_pos : 0 < k2.
  Proof. destruct (Rle_or_lt k2 0); auto. assert (k1 * k2 <= 0) by nra. assert (0 <= k * k) by nra. lra. Qed.
  Lemma some_case : (0 <= - (k2 * b1 - k * b2) /\ 0 <= - (k1 * b2 - k * b1)) \/ (0 <= - b1 /\ 0 <= k1 * b2 - k * b1) \/ (0 <= - b2 /\ 0 <= k2 * b1 - k * b2) \/ (0 <= b1 /\ 0 <= b2).
  Proof.
    pose proof k2_pos as K2.
    destruct (Rle_or_lt 0 (- b1)) as [N1|P1]; destruct (Rle_or_lt 0 (- b2)) as [N2|P2].
    - destruct (Rle_or_lt 0 (k1 * b2 - k * b1)); [tauto|]. destruct (Rle_or_lt 0 (k2 * b1 - k * b2)); [tauto|]. left. lra.
    - destruct (Rle_or_lt 0 (k1 * b2 - k * b1)) as [|Q1]; [tauto|]. destruct (Rle_or_lt 0 (- (k2 * b1 - k * b2))) as [|Q2]; [left; lra|]. exfalso.
      assert (k < 0) by (destruct (Rle_or_lt 0 k); auto; assert (k * b1 <= 0) by nra; nra). assert (H1 : k * (k2 * b1 - k * b2) < 0) by nra. assert (H2 : k2 * (k1 * b2 - k * b1) < 0) by nra. assert (0 < (k1 * k2 - k * k) * b2) by nra. lra.
    - destruct (Rle_or_lt 0 (k2 * b1 - k * b2)) as [|Q2]; [tauto|]. destruct (Rle_or_lt 0 (- (k1 * b2 - k * b1))) as [|Q1]; [left; lra|]. exfalso.
      assert (k < 0) by (destruct (Rle_or_lt 0 k); auto; assert (k * b2 <= 0) by nra; nra). assert (H1 : k * (k1 * b2 - k * b1) < 0) by nra. assert (H2 : k1 * (k2 * b1 - k * b2) < 0) by nra. assert (0 < (k1 * k2 - k * k) * b1) by nra. lra.
    - right. right. right. lra.
  Qed.
End Cases.
Definition solves (k1 k k2 b1 b2 : R) (x : vec2 R) : Prop := complementary (vx x) (k1 * vx x + k * vy x + b1) /\ complementary (vy x) (k * vx x + k2 * vy x + b2).
Lemma rge (a : R) : nle (nofZ 0) a = Rle_bool 0 a.
Proof. reflexivity. Qed.
Lemma case_solves c p1 p2 b x : prepared c p1 p2 -> positive_definite c p1 p2 -> block_case c p1 p2 b = Some x -> solves (eff c p1 p1) (eff c p1 p2) (eff c p2 p2) (vx b) (vy b) x.
Proof.
  intros (A & B & C & E) [K1 D]. pose proof (k2_pos _ _ _ K1 D) as K2. unfold block_case. rewrite A, B, C, E. clear A B C E. set (k1 := eff c p1 p1) in *. set (k2 := eff c p2 p2) in *. set (k := eff c p1 p2) in *. destruct b as [b1 b2]. rmathc. unfold solves, complementary.
  assert (ND : k1 * k2 - k * k <> 0) by lra. assert (N1 : k1 <> 0) by lra. assert (N2 : k2 <> 0) by lra.
  set (y1 := - (_ + _)). set (y2 := - (_ + _)). assert (Y1 : k1 * y1 + k * y2 + b1 = 0) by (subst y1 y2; field; auto). assert (Y2 : k * y1 + k2 * y2 + b2 = 0) by (subst y1 y2; field; auto). clearbody y1 y2.
  destruct (Rle_bool_spec 0 y1) as [P1|P1]; destruct (Rle_bool_spec 0 y2) as [P2|P2]; cbn [andb]; [intros H; injection H as <-; cbn; rewrite Y1, Y2; repeat split; try lra| | |];
  (set (x1 := - (1 / k1) * b1); assert (X1 : k1 * x1 + b1 = 0) by (subst x1; field; auto); clearbody x1; destruct (Rle_bool_spec 0 x1) as [P3|P3]; destruct (Rle_bool_spec 0 (k * x1 + b2)) as [P4|P4]; cbn [andb]; [intros H; injection H as <-; cbn; replace (k1 * x1 + k * 0 + b1) with 0 by lra; repeat split; lra| | |];
  (set (x2 := - (1 / k2) * b2); assert (X2 : k2 * x2 + b2 = 0) by (subst x2; field; auto); clearbody x2; destruct (Rle_bool_spec 0 x2) as [P5|P5]; destruct (Rle_bool_spec 0 (k * x2 + b1)) as [P6|P6]; cbn [andb]; [intros H; injection H as <-; cbn; replace (k * 0 + k2 * x2 + b2) with 0 by lra; repeat split; lra| | |];
   (destruct (Rle_bool_spec 0 b1) as [P7|P7]; destruct (Rle_bool_spec 0 b2) as [P8|P8]; cbn [andb]; [intros H; injection H as <-; cbn; repeat split; lra|discriminate..]))).
Qed.
Lemma case_found c p1 p2 b : prepared c p1 p2 -> positive_definite c p1 p2 -> exists x, block_case c p1 p2 b = Some x.
Proof.
  intros (A & B & C & E) [K1 D]. pose proof (k2_pos _ _ _ K1 D) as K2. unfold block_case. rewrite A, B, C, E. clear A B C E. set (k1 := eff c p1 p1) in *. set (k2 := eff c p2 p2) in *. set (k := eff c p1 p2) in *. destruct b as [b1 b2]. rmathc.
  set (d := k1 * k2 - k * k) in *. assert (I : 0 < / d) by now apply Rinv_0_lt_compat. assert (I1 : 0 < / k1) by now apply Rinv_0_lt_compat. assert (I2 : 0 < / k2) by now apply Rinv_0_lt_compat.
  destruct (some_case k1 k k2 b1 b2 K1 D) as [[H1 H2]|[[H1 H2]|[[H1 H2]|[H1 H2]]]].
  - rewrite (Rle_bool_true 0 (- (k2 / d * b1 + - k / d * b2))) by (replace (- (k2 / d * b1 + - k / d * b2)) with (- (k2 * b1 - k * b2) * / d) by (unfold Rdiv; ring); apply Rmult_le_pos; lra).
    rewrite (Rle_bool_true 0 (- (- k / d * b1 + k1 / d * b2))) by (replace (- (- k / d * b1 + k1 / d * b2)) with (- (k1 * b2 - k * b1) * / d) by (unfold Rdiv; ring); apply Rmult_le_pos; lra). cbn. eauto.
  - destruct (_ && _); [eauto|]. rewrite (Rle_bool_true 0 (- (1 / k1) * b1)) by (replace (- (1 / k1) * b1) with (- b1 * / k1) by (unfold Rdiv; ring); apply Rmult_le_pos; lra).
    rewrite (Rle_bool_true 0 (k * (- (1 / k1) * b1) + b2)) by (replace (k * (- (1 / k1) * b1) + b2) with ((k1 * b2 - k * b1) * / k1) by (field; lra); apply Rmult_le_pos; lra). cbn. eauto.
  - destruct (_ && _); [eauto|]. destruct (_ && _); [eauto|]. rewrite (Rle_bool_true 0 (- (1 / k2) * b2)) by (replace (- (1 / k2) * b2) with (- b2 * / k2) by (unfold Rdiv; ring); apply Rmult_le_pos; lra).
    rewrite (Rle_bool_true 0 (k * (- (1 / k2) * b2) + b1)) by (replace (k * (- (1 / k2) * b2) + b1) with ((k2 * b1 - k * b2) * / k2) by (field; lra); apply Rmult_le_pos; lra). cbn. eauto.
  - do 3 (destruct (_ && _); [eauto|]). rewrite !Rle_bool_true by auto. cbn. eauto.
Qed.
(* the velocities after the impulses *)
Lemma approach_b c p1 p2 s : prepared c p1 p2 -> block_b c p1 p2 s = V2 (approach c p1 s - vp_bias p1 - (eff c p1 p1 * vp_ni p1 + eff c p1 p2 * vp_ni p2)) (approach c p2 s - vp_bias p2 - (eff c p1 p2 * vp_ni p1 + eff c p2 p2 * vp_ni p2)).
Proof. intros (A & _). unfold block_b, rel_vel. rewrite A. rmathc. unfold approach. f_equal; ring. Qed.
Lemma approach_apply c p1 p2 x s : unit_normal (vc_normal c) -> let s' := snd (block_apply c p1 p2 x s) in
  approach c p1 s' = approach c p1 s + eff c p1 p1 * (vx x - vp_ni p1) + eff c p1 p2 * (vy x - vp_ni p2) /\
  approach c p2 s' = approach c p2 s + eff c p1 p2 * (vx x - vp_ni p1) + eff c p2 p2 * (vy x - vp_ni p2).
Proof.
  intros U. cbv zeta. revert U. unfold unit_normal, block_apply, approach, eff, arm. destruct (vc_normal c) as [nx ny]. cbv zeta. rmathc. cbn [s_va s_wa s_vb s_wb]. rmathc. intros U.
  split.
  - match goal with |- ?l = ?r => assert (E : l - r = (nx * nx + ny * ny - 1) * ((vc_ma c + vc_mb c) * (vx x - vp_ni p1 + (vy x - vp_ni p2)))) by ring end. rewrite U in E. lra.
  - match goal with |- ?l = ?r => assert (E : l - r = (nx * nx + ny * ny - 1) * ((vc_ma c + vc_mb c) * (vx x - vp_ni p1 + (vy x - vp_ni p2)))) by ring end. rewrite U in E. lra.
Qed.
Theorem block_lcp c p1 p2 r s : unit_normal (vc_normal c) -> prepared c p1 p2 -> positive_definite c p1 p2 -> 0 <= vp_ni p1 -> 0 <= vp_ni p2 ->
  exists q1 q2 s', block_solve c (p1 :: p2 :: r) s = Ok (q1 :: q2 :: r, s') /\ solved c s' q1 /\ solved c s' q2.
Proof.
  intros U P D I1 I2. unfold block_solve. rewrite !rge, !Rle_bool_true by auto. cbn [andb b2_assert bind]. destruct (case_found c p1 p2 (block_b c p1 p2 s) P D) as (x & X). rewrite X. pose proof (case_solves c p1 p2 _ x P D X) as S.
  rewrite (approach_b c p1 p2 s P) in S. pose proof (approach_apply c p1 p2 x s U) as V. destruct (block_apply c p1 p2 x s) as [[q1 q2] s'] eqn:A. cbn [snd] in V. injection A as E1 E2 _. exists q1, q2, s'. split; [reflexivity|].
  assert (G1 : approach c q1 s' = approach c p1 s') by (now rewrite <- E1). assert (G2 : approach c q2 s' = approach c p2 s') by (now rewrite <- E2). destruct V as [V1 V2], S as [S1 S2]. unfold solved. rewrite G1, G2, V1, V2, <- E1, <- E2. cbn [vp_ni vp_bias set_vp_ni]. cbn [vx vy] in *. split.
  - replace (approach c p1 s + eff c p1 p1 * (vx x - vp_ni p1) + eff c p1 p2 * (vy x - vp_ni p2) - vp_bias p1) with (eff c p1 p1 * vx x + eff c p1 p2 * vy x + (approach c p1 s - vp_bias p1 - (eff c p1 p1 * vp_ni p1 + eff c p1 p2 * vp_ni p2))) by ring. exact S1.
  - replace (approach c p2 s + eff c p1 p2 * (vx x - vp_ni p1) + eff c p2 p2 * (vy x - vp_ni p2) - vp_bias p2) with (eff c p1 p2 * vx x + eff c p2 p2 * vy x + (approach c p2 s - vp_bias p2 - (eff c p1 p2 * vp_ni p1 + eff c p2 p2 * vp_ni p2))) by ring. exact S2.
Qed.

(** ** the solver prepares the matrix *)
Lemma prepared_place c ps p1 p2 q1 q2 : same_place p1 q1 -> same_place p2 q2 -> prepared c p1 p2 -> positive_definite c p1 p2 -> prepared (set_vc_points ps c) q1 q2 /\ positive_definite (set_vc_points ps c) q1 q2.
Proof.
  intros (A1 & B1 & C1 & _) (A2 & B2 & C2 & _) P D.
  assert (E : forall p q p' q', vp_ra p' = vp_ra p -> vp_rb p' = vp_rb p -> vp_ra q' = vp_ra q -> vp_rb q' = vp_rb q -> eff (set_vc_points ps c) p' q' = eff c p q) by (intros p q p' q' H1 H2 H3 H4; unfold eff; cbn; now rewrite H1, H2, H3, H4).
  unfold prepared, positive_definite in *. rewrite !(E p1 p1 q1 q1), !(E p2 p2 q2 q2), !(E p1 p2 q1 q2), C1, C2 by auto. cbn [vc_k vc_nmass set_vc_points]. auto.
Qed.
Lemma frame_ready c d : same_frame c d -> ready c -> ready d.
Proof.
  intros (ps & -> & F) [U H]. split; [exact U|]. cbn [vc_count vc_points set_vc_points]. intros N. destruct (H N) as (p1 & p2 & r & E & P & D). rewrite E in F. inversion F as [|? q1 ? ? F1 F']; subst. inversion F' as [|? q2 ? r' F2 F'']; subst. exists q1, q2, r'. split; [reflexivity|]. eapply prepared_place; eauto.
Qed.
Lemma eff_keff c p q : eff c p q = keff c (b2_cross (vp_ra p) (vc_normal c)) (b2_cross (vp_ra q) (vc_normal c)) (b2_cross (vp_rb p) (vc_normal c)) (b2_cross (vp_rb q) (vc_normal c)).
Proof. unfold eff, keff, arm. rmathc. ring. Qed.
Lemma eff_sum c p : no_negative_mass c -> 0 <= eff c p p.
Proof.
  intros (A & B & C & D). unfold eff. rewrite !Rmult_assoc. assert (forall x, 0 <= x * x) by (intros; nra). assert (forall m x, 0 <= m -> 0 <= m * (x * x)) by (intros; apply Rmult_le_pos; auto).
  pose proof (H0 (vc_ia c) (arm (vc_normal c) (vp_ra p)) C). pose proof (H0 (vc_ib c) (arm (vc_normal c) (vp_rb p)) D). lra.
Qed.
Lemma init_block_ready (c d : vcon R) p1 p2 r : no_negative_mass c -> unit_normal (vc_normal c) -> vc_points c = p1 :: p2 :: r -> (vc_count c = 2%nat) ->
  vp_nm p1 = (if nlt (nofZ 0) (eff c p1 p1) then ndiv (nofZ 1) (eff c p1 p1) else nofZ 0) -> vp_nm p2 = (if nlt (nofZ 0) (eff c p2 p2) then ndiv (nofZ 1) (eff c p2 p2) else nofZ 0) -> init_block true c = Ok d -> ready d.
Proof.
  intros M U E N N1 N2 H. split.
  - unfold init_block in H. rewrite N, E in H. cbn [Nat.eqb andb get nth_error bind] in H. clear N1 N2. revert H. destruct (nlt _ _); intros H; injection H as <-; exact U.
  - unfold init_block in H. rewrite N, E in H. cbn [Nat.eqb andb get nth_error bind] in H. rewrite <- !eff_keff in H.
    revert N1 N2. revert H. destruct (nlt (nmul (eff c p1 p1) _) _) eqn:L; intros H; injection H as <-; [intros N1 N2 _|intros; discriminate]. exists p1, p2, r. split; [exact E|].
    assert (L' : eff c p1 p1 * eff c p1 p1 < 1000 * (eff c p1 p1 * eff c p2 p2 - eff c p1 p2 * eff c p1 p2)) by (revert L; rops; match goal with |- context [Rlt_bool ?a ?b] => destruct (Rlt_bool_spec a b) end; [auto|discriminate]).
    pose proof (eff_sum c p1 M) as S1. pose proof (eff_sum c p2 M) as S2. assert (D : 0 < eff c p1 p1 * eff c p2 p2 - eff c p1 p2 * eff c p1 p2) by nra. assert (K1 : 0 < eff c p1 p1) by (destruct S1 as [|S1]; auto; rewrite <- S1 in D; nra).
    pose proof (k2_pos _ _ _ K1 D) as K2. split; [|exact (conj K1 D)].
    unfold prepared. change (eff (set_vc_block _ _ c)) with (eff c). cbv zeta. rewrite N1, N2. cbn [nlt R_Num nofZ ndiv]. rewrite !Rlt_bool_true by auto. cbn [vc_k vc_nmass set_vc_block]. split; [reflexivity|]. split; [|auto].
    unfold m22_inverse. rmathc. destruct (Req_bool_spec (eff c p1 p1 * eff c p2 p2 - eff c p1 p2 * eff c p1 p2) 0) as [Z|_]; [lra|]. cbn [negb]. f_equal; f_equal; field; lra.
Qed.
Section Prepare.
  Context {TT : NumTrig R}.
  (* the normal the solver uses has length one *)
  Lemma init_ready poss vels m pc (c d : vcon R) : no_negative_mass c -> init_constraint true poss vels m pc c = Ok d -> unit_normal (vc_normal d) -> ready d.
  Proof.
    intros M. unfold init_constraint. destruct (zget poss (vc_a c)) as [pa| |]; try discriminate. cbn [bind]. destruct (zget vels (vc_a c)) as [va| |]; try discriminate. cbn [bind]. destruct (zget poss (vc_b c)) as [pb| |]; try discriminate. cbn [bind]. destruct (zget vels (vc_b c)) as [vb| |]; try discriminate. cbn [bind].
    destruct (b2_assert _); try discriminate. cbn [bind]. destruct (world_manifold_initialize _ _ _ _ _) as [wm| |]; try discriminate. cbn [bind]. destruct wm as [[n wps]|]; try discriminate. cbn [unwrap bind].
    destruct (each_point _ _ _ _) as [[ps k]| |] eqn:E; try discriminate. cbn [bind]. intros H U.
    assert (U' : unit_normal n). { revert U H. unfold init_block. destruct (_ && _); [|intros U H; injection H as <-; exact U]. destruct (get _ 0); try discriminate. cbn [bind]. destruct (get _ 1); try discriminate. cbn [bind]. destruct (nlt _ _); intros U H; injection H as <-; exact U. }
    cbn [vc_count vc_points set_vc_normal] in E. destruct (Nat.eq_dec (vc_count c) 2) as [N|N].
    - rewrite N in E. destruct (vc_points c) as [|p1 [|p2 r]]; try discriminate. cbn [each_point bind] in E. injection E as <- _.
      refine (init_block_ready _ _ _ _ _ _ _ _ _ _ _ H); [exact M|exact U'|reflexivity|exact N| |]; unfold init_point at 1; cbn [vp_nm]; rewrite eff_keff; reflexivity.
    - split; [exact U|]. intros N'. exfalso. unfold init_block in H. cbn [vc_count set_vc_points set_vc_normal] in H. destruct (Nat.eqb_spec (vc_count c) 2) as [N2|_]; [contradiction|]. cbn [andb] in H. injection H as <-. apply N. exact N'.
  Qed.
End Prepare.

(** ** solving a constraint *)
Lemma solve_two (c : vcon R) s ps s' : ready c -> vc_count c = 2%nat -> pushing c -> solve_points true c s = Ok (ps, s') -> Forall (solved c s') (firstn 2 ps).
Proof.
  intros [U H] N P. destruct (H N) as (p1 & p2 & r & E & Pr & D). unfold pushing, active in P. rewrite N, E in P. cbn [firstn] in P. inversion P as [|? ? P1 P']; subst. inversion P' as [|? ? P2 _]; subst.
  unfold solve_points. rewrite N, E. cbn [Nat.eqb orb negb b2_assert bind]. cbn [each_point]. destruct (tangent_point c p1 s) as [q1 s1] eqn:T1. destruct (tangent_point c p2 s1) as [q2 s2] eqn:T2. cbn [bind].
  assert (Q1 : q1 = fst (tangent_point c p1 s)) by now rewrite T1. assert (Q2 : q2 = fst (tangent_point c p2 s1)) by now rewrite T2.
  assert (S1 : same_place p1 q1) by (rewrite Q1; apply tangent_place). assert (S2 : same_place p2 q2) by (rewrite Q2; apply tangent_place).
  destruct (prepared_place c (vc_points c) p1 p2 q1 q2 S1 S2 Pr D) as [Pr' D']. change (prepared c q1 q2) in Pr'. change (positive_definite c q1 q2) in D'.
  assert (I1 : 0 <= vp_ni q1) by (rewrite Q1; revert P1; unfold nonneg; rewrite rge; cbn; destruct (Rle_bool_spec 0 (vp_ni p1)); [auto|discriminate]).
  assert (I2 : 0 <= vp_ni q2) by (rewrite Q2; revert P2; unfold nonneg; rewrite rge; cbn; destruct (Rle_bool_spec 0 (vp_ni p2)); [auto|discriminate]).
  destruct (block_lcp c q1 q2 r s2 U Pr' D' I1 I2) as (t1 & t2 & s3 & B & L1 & L2). rewrite B. intros X. assert (ps = t1 :: t2 :: r) as -> by congruence. assert (s' = s3) as -> by congruence. cbn [firstn]. auto.
Qed.
Lemma normal_solved (c : vcon R) p s : unit_normal (vc_normal c) -> 0 < eff c p p -> vp_nm p = 1 / eff c p p -> solved c (snd (normal_point c p s)) (fst (normal_point c p s)).
Proof.
  intros U K M. set (f := normal_point c p s). assert (F : f = normal_point c p s) by reflexivity. unfold normal_point in F. cbv zeta in F.
  assert (A : b2_dot (rel_vel (vp_ra p) (vp_rb p) s) (vc_normal c) = approach c p s) by (unfold rel_vel, approach; rmathc; ring). rewrite A, M in F. set (x := b2_max _ _) in F.
  assert (V : forall d, approach c p (push c (vp_ra p) (vp_rb p) (vscale d (vc_normal c)) s) = approach c p s + eff c p p * d).
  { intros d. revert U. unfold unit_normal, push, approach, eff, arm. destruct (vc_normal c) as [nx ny]. rmathc. cbn [s_va s_wa s_vb s_wb]. rmathc. intros U.
    match goal with |- ?l = ?r => assert (E : l - r = (nx * nx + ny * ny - 1) * ((vc_ma c + vc_mb c) * d)) by ring end. rewrite U in E. lra. }
  unfold solved. rewrite F. cbn [fst snd vp_ni vp_bias set_vp_ni]. change (approach c (set_vp_ni x p)) with (approach c p). rewrite V. subst x. rewrite b2_max_R. rops. set (k := eff c p p) in *. set (u := approach c p s). set (y := vp_ni p + _). assert (Y : k * (y - vp_ni p) = - (u - vp_bias p)) by (subst y; field; lra). unfold complementary, Rmax. destruct (Rle_dec y 0) as [L|L].
  - assert (k * (y - vp_ni p) <= k * (0 - vp_ni p)) by (apply Rmult_le_compat_l; lra). repeat split; lra.
  - rewrite Y. replace (u + - (u - vp_bias p) - vp_bias p) with 0 by ring. repeat split; lra.
Qed.
Lemma solve_one block (c : vcon R) s ps s' : unit_normal (vc_normal c) -> vc_count c = 1%nat -> Forall (fun p => 0 < eff c p p /\ vp_nm p = 1 / eff c p p) (active c) -> solve_points block c s = Ok (ps, s') -> Forall (solved c s') (firstn 1 ps).
Proof.
  intros U N H. unfold active in H. rewrite N in H. unfold solve_points. rewrite N. cbn [Nat.eqb orb negb b2_assert bind]. destruct (vc_points c) as [|p r]; [discriminate|]. cbn [firstn] in H. inversion H as [|? ? [K M] _]; subst. cbn [each_point].
  destruct (tangent_point c p s) as [q s1] eqn:T1. cbn [bind each_point]. assert (Q1 : q = fst (tangent_point c p s)) by now rewrite T1. pose proof (normal_solved c q s1 U) as V. destruct (normal_point c q s1) as [t s2]. cbn [bind fst snd] in *. intros X. assert (ps = t :: r) as -> by congruence. assert (s' = s2) as -> by congruence. cbn [firstn]. constructor; [|constructor]. subst q. apply V; assumption.
Qed.
Lemma pair_solved (c : vcon R) g vels c' vels' a b : vc_a c = Z.of_nat a -> vc_b c = Z.of_nat b -> a <> b -> (forall s ps s', g s = Ok (ps, s') -> Forall (solved c s') (firstn (vc_count c) ps)) -> with_pair c g vels = Ok (c', vels') -> solved_in c' vels'.
Proof.
  intros Ea Eb N H Q. destruct (with_pair_steps c g vels c' vels' a b Ea Eb N Q) as (va & vb & ps & s' & Ga & Gb & F & -> & ->). apply H in F. intros wa wb. cbn [vc_a vc_b set_vc_points]. rewrite Ea, Eb, !zget_nat. unfold get. rewrite !nth_upd2 by auto.
  assert (La : (a < length vels)%nat) by (apply nth_error_Some; congruence). assert (Lb : (b < length vels)%nat) by (apply nth_error_Some; congruence). rewrite Nat.eqb_refl. destruct (Nat.eqb_spec a b); [contradiction|]. rewrite Nat.eqb_refl. destruct (Nat.ltb_spec b (length vels)); [|lia]. destruct (Nat.ltb_spec a (length vels)); [|lia].
  intros E1 E2. injection E1 as <-. injection E2 as <-. cbn [v_v v_w]. destruct s' as [x1 x2 x3 x4]. exact F.
Qed.
Theorem two_points_lcp (c : vcon R) vels c' vels' : ready c -> vc_count c = 2%nat -> pushing c -> (vc_a c >= 0 /\ vc_b c >= 0 /\ vc_a c <> vc_b c)%Z -> solve_constraint true c vels = Ok (c', vels') -> solved_in c' vels'.
Proof.
  intros R N P (A & B & D) H. apply (pair_solved c (solve_points true c) vels c' vels' (Z.to_nat (vc_a c)) (Z.to_nat (vc_b c))); auto; try lia. intros s ps s' E. rewrite N. eapply solve_two; eauto.
Qed.
Theorem one_point_lcp block (c : vcon R) vels c' vels' : unit_normal (vc_normal c) -> measured c -> vc_count c = 1%nat -> Forall (fun p => 0 < eff c p p) (active c) -> (vc_a c >= 0 /\ vc_b c >= 0 /\ vc_a c <> vc_b c)%Z -> solve_constraint block c vels = Ok (c', vels') -> solved_in c' vels'.
Proof.
  intros U M N P (A & B & D) H. apply (pair_solved c (solve_points block c) vels c' vels' (Z.to_nat (vc_a c)) (Z.to_nat (vc_b c))); auto; try lia. intros s ps s' E. rewrite N. eapply solve_one; eauto. unfold measured in M. rewrite Forall_forall in *. auto.
Qed.
Lemma frame_measured c d : same_frame c d -> measured c -> measured d.
Proof.
  intros (ps & -> & F) H. unfold measured, active in *. cbn [vc_count vc_points set_vc_points]. eapply (same_place_all (fun p => 0 < eff c p p -> vp_nm p = 1 / eff c p p)); [|exact F|exact H].
  intros p q (A & B & C & _) Q. unfold eff in *. rewrite A, B, C. exact Q.
Qed.

(** ** the normal *)
Definition good_rot (q : rot R) : Prop := rs q * rs q + rc q * rc q = 1.
Lemma rot_unit q n : good_rot q -> unit_normal n -> unit_normal (rotv q n).
Proof. unfold good_rot, unit_normal. destruct q as [s c], n as [x y]. rmathc. intros A B. replace ((c * x - s * y) * (c * x - s * y) + (s * x + c * y) * (s * x + c * y)) with ((s * s + c * c) * (x * x + y * y)) by ring. rewrite A, B. ring. Qed.
Lemma normalize_one (a : vec2 R) : B2_EPSILON * B2_EPSILON < b2_dot a a -> unit_normal (snd (vnormalize a)).
Proof.
  intros H. pose proof eps_pos as E. unfold vnormalize, vlen. unfold b2_dot in H. rops. set (d := vx a * vx a + vy a * vy a) in *. assert (D : 0 < d) by nra. assert (S : sqrt d * sqrt d = d) by (apply sqrt_sqrt; lra). assert (P : 0 < sqrt d) by (apply sqrt_lt_R0; lra).
  destruct (Rlt_bool_spec (sqrt d) B2_EPSILON) as [L|L]; [exfalso; assert (sqrt d * sqrt d < B2_EPSILON * B2_EPSILON) by nra; lra|]. cbn [snd]. unfold unit_normal. rops.
  replace (vx a * (1 / sqrt d) * (vx a * (1 / sqrt d)) + vy a * (1 / sqrt d) * (vy a * (1 / sqrt d))) with (d / (sqrt d * sqrt d)) by (subst d; field; lra). rewrite S. field. lra.
Qed.
Lemma world_normal_unit (m : manifold R) xa ra xb rb n wps : good_rot (xq xa) -> good_rot (xq xb) -> (mf_type m <> MCircles -> unit_normal (mf_local_normal m)) -> world_manifold_initialize m xa ra xb rb = Ok (Some (n, wps)) -> unit_normal n.
Proof.
  intros A B U. unfold world_manifold_initialize. destruct (Nat.eqb _ _); [discriminate|]. destruct (mf_type m).
  - destruct (get _ _) as [p0| |]; try discriminate. cbn [bind]. intros H. injection H as <- _. match goal with |- unit_normal (if ?b then _ else _) => destruct b eqn:L end; [|unfold unit_normal; rmathc; ring]. apply normalize_one. revert L. unfold b2_distance_vec2_squared. rmathc. rcase; [intros _|discriminate]. eapply Rlt_le_trans; [eassumption|]. right. ring.
  - destruct (for_range _ _ _ _) as [pts| |]; try discriminate. cbn [bind]. intros H. injection H as <- _. apply rot_unit; auto. apply U. discriminate.
  - destruct (for_range _ _ _ _) as [pts| |]; try discriminate. cbn [bind]. intros H. injection H as <- _. assert (Q : unit_normal (rotv (xq xb) (mf_local_normal m))) by (apply rot_unit; auto; apply U; discriminate). revert Q. unfold unit_normal. rmathc. nra.
Qed.
Lemma rot_of_good (a : R) : good_rot (rot_of a).
Proof. unfold good_rot, rot_of. rops. pose proof (sin2_cos2 a) as H. unfold Rsqr in H. exact H. Qed.
Lemma init_normal block poss vels m pc (c d : vcon R) : (mf_type m <> MCircles -> unit_normal (mf_local_normal m)) -> init_constraint block poss vels m pc c = Ok d -> unit_normal (vc_normal d).
Proof.
  intros U. unfold init_constraint. destruct (zget poss (vc_a c)) as [pa| |]; try discriminate. cbn [bind]. destruct (zget vels (vc_a c)) as [va| |]; try discriminate. cbn [bind]. destruct (zget poss (vc_b c)) as [pb| |]; try discriminate. cbn [bind]. destruct (zget vels (vc_b c)) as [vb| |]; try discriminate. cbn [bind].
  destruct (b2_assert _); try discriminate. cbn [bind]. destruct (world_manifold_initialize _ _ _ _ _) as [wm| |] eqn:W; try discriminate. cbn [bind]. destruct wm as [[n wps]|]; try discriminate. cbn [unwrap bind]. apply world_normal_unit in W; auto; [|apply rot_of_good..].
  destruct (each_point _ _ _ _) as [[ps k]| |] eqn:E; try discriminate. cbn [bind]. unfold init_block. destruct (_ && _); [|intros H; injection H as <-; exact W]. destruct (get _ 0); try discriminate. cbn [bind]. destruct (get _ 1); try discriminate. cbn [bind]. clear E. destruct (nlt _ _); intros H; injection H as <-; exact W.
Qed.
Lemma init_measured block poss vels m pc (c d : vcon R) : init_constraint block poss vels m pc c = Ok d -> measured d.
Proof.
  unfold init_constraint. destruct (zget poss (vc_a c)) as [pa| |]; try discriminate. cbn [bind]. destruct (zget vels (vc_a c)) as [va| |]; try discriminate. cbn [bind]. destruct (zget poss (vc_b c)) as [pb| |]; try discriminate. cbn [bind]. destruct (zget vels (vc_b c)) as [vb| |]; try discriminate. cbn [bind].
  destruct (b2_assert _); try discriminate. cbn [bind]. destruct (world_manifold_initialize _ _ _ _ _) as [wm| |] eqn:W; try discriminate. cbn [bind]. destruct wm as [[n wps]|]; try discriminate. cbn [unwrap bind].
  destruct (each_point _ _ _ _) as [[ps k]| |] eqn:E; try discriminate. cbn [bind]. set (c1 := set_vc_normal n c) in *. set (c2 := set_vc_points ps c1). intros H.
  apply (each_point_inv (fun _ q => 0 < eff c2 q q -> vp_nm q = 1 / eff c2 q q)) in E.
  - destruct E as (_ & _ & E & _). apply (Forall2_right _ (fun q => 0 < eff c2 q q -> vp_nm q = 1 / eff c2 q q)) in E; [|auto]. assert (X : eff d = eff c2 /\ vc_points d = ps /\ (vc_count d <= vc_count c1)%nat).
    { clear E. revert H. unfold init_block. destruct (_ && _) eqn:B; [|intros H; injection H as <-; repeat split; auto]. apply andb_prop in B. destruct B as [B _]. apply Nat.eqb_eq in B. destruct (get _ 0); try discriminate. cbn [bind]. destruct (get _ 1); try discriminate. cbn [bind]. destruct (nlt _ _); intros H; injection H as <-; repeat split; auto. cbn. cbn in B. lia. }
    destruct X as (X1 & X2 & X3). unfold measured, active. rewrite X1, X2. eapply firstn_le; [exact X3|exact E].
  - intros p j. cbn [fst]. unfold init_point at 1. cbn [vp_nm]. intros K. change (eff c2) with (eff c1) in *. rewrite eff_keff in *. unfold init_point in *. cbn [vp_ra vp_rb] in *. revert K. rops. rcase; [auto|lra].
Qed.

(** ** from the contact to the solved constraint *)
Lemma init_no_negative block poss vels m pc (c d : vcon R) : init_constraint block poss vels m pc c = Ok d -> no_negative_mass c -> no_negative_mass d.
Proof. intros H (A & B & C & D). apply init_masses in H. destruct H as (_ & _ & E1 & E2 & E3 & E4). unfold no_negative_mass. rewrite E1, E2, E3, E4. auto. Qed.
Theorem contact_two_points poss vels0 m pc (c0 c d : vcon R) vels d' vels' : (mf_type m <> MCircles -> unit_normal (mf_local_normal m)) -> no_negative_mass c0 -> init_constraint true poss vels0 m pc c0 = Ok c -> same_frame c d -> vc_count d = 2%nat -> pushing d ->
  (vc_a d >= 0 /\ vc_b d >= 0 /\ vc_a d <> vc_b d)%Z -> solve_constraint true d vels = Ok (d', vels') -> solved_in d' vels'.
Proof.
  intros U M I F N P D H. apply (two_points_lcp d vels d' vels'); auto. apply (frame_ready c d F). eapply init_ready; eauto. eapply init_normal; eauto.
Qed.
Theorem contact_one_point block poss vels0 m pc (c0 c d : vcon R) vels d' vels' : (mf_type m <> MCircles -> unit_normal (mf_local_normal m)) -> no_negative_mass c0 -> 0 < vc_ma c0 + vc_mb c0 -> init_constraint block poss vels0 m pc c0 = Ok c -> same_frame c d -> vc_count d = 1%nat ->
  (vc_a d >= 0 /\ vc_b d >= 0 /\ vc_a d <> vc_b d)%Z -> solve_constraint block d vels = Ok (d', vels') -> solved_in d' vels'.
Proof.
  intros U M S I F N D H. pose proof (init_no_negative _ _ _ _ _ _ _ I M) as M1. pose proof (init_masses _ _ _ _ _ _ _ I) as (_ & _ & E1 & E2 & _). pose proof (init_normal _ _ _ _ _ _ _ U I) as Un.
  assert (Ud : unit_normal (vc_normal d)) by (destruct F as (ps & -> & _); exact Un). assert (Md : no_negative_mass d) by (destruct F as (ps & -> & _); exact M1). assert (Sd : 0 < vc_ma d + vc_mb d) by (destruct F as (ps & -> & _); cbn; rewrite E1, E2; exact S).
  apply (one_point_lcp block d vels d' vels'); auto.
  - apply (frame_measured c d F). eapply init_measured; eauto.
  - apply Forall_forall. intros p _. destruct Md as (A & B & C & E). unfold eff. rewrite !Rmult_assoc. assert (forall m x, 0 <= m -> 0 <= m * (x * x)) by (intros; apply Rmult_le_pos; [auto|apply Rle_0_sqr]). pose proof (H0 (vc_ia d) (arm (vc_normal d) (vp_ra p)) C). pose proof (H0 (vc_ib d) (arm (vc_normal d) (vp_rb p)) E). lra.
Qed.
