(** The contact solver in exact real arithmetic: momentum, the block solver, position correction. *)
From Coq Require Import List ZArith Bool Arith Reals Lia Lra.
From Verif Require Import Base Num NumLaws Math Manifold ListFacts DynModel SolverModel IslandModel SolverSpec SolverProofs.
Import ListNotations.
Local Open Scope R_scope.

(** ** sums *)
Lemma weighted_upd f : forall bs vs a ba va v, nth_error bs a = Some ba -> nth_error vs a = Some va -> weighted bs (upd vs a v) f = weighted bs vs f - f ba va + f ba v.
Proof.
  unfold weighted. induction bs as [|b0 bs IH]; intros vs a ba va v H1 H2; [now destruct a|]. destruct vs as [|v0 vs]; [now destruct a|]. destruct a as [|a]; cbn in *.
  - injection H1 as ->. injection H2 as ->. lra.
  - rewrite (IH vs a ba va v H1 H2). lra.
Qed.
Lemma zget_nat {A} (l : list A) i : zget l (Z.of_nat i) = get l i.
Proof. unfold zget. destruct (Z.ltb_spec (Z.of_nat i) 0); [lia|]. now rewrite Nat2Z.id. Qed.
Lemma zset_nat {A} (l : list A) i a : zset l (Z.of_nat i) a = set l i a.
Proof. unfold zset. destruct (Z.ltb_spec (Z.of_nat i) 0); [lia|]. now rewrite Nat2Z.id. Qed.

(* what with_pair reads and writes *)
Lemma with_pair_steps (c : vcon R) f vels c' vels' a b : vc_a c = Z.of_nat a -> vc_b c = Z.of_nat b -> a <> b -> with_pair c f vels = Ok (c', vels') -> exists va vb ps s',
  nth_error vels a = Some va /\ nth_error vels b = Some vb /\ f (Pair (v_v va) (v_w va) (v_v vb) (v_w vb)) = Ok (ps, s') /\ c' = set_vc_points ps c /\
  vels' = upd (upd vels a (Vel (s_va s') (s_wa s'))) b (Vel (s_vb s') (s_wb s')).
Proof.
  intros Ea Eb N. unfold with_pair. rewrite Ea, Eb, !zget_nat. destruct (get vels a) as [va| |] eqn:Ga; try discriminate. cbn [bind]. destruct (get vels b) as [vb| |] eqn:Gb; try discriminate. cbn [bind]. intros H.
  destruct (f _) as [[ps s']| |] eqn:F; try discriminate. cbn [bind] in H. rewrite !zset_nat in H. destruct (set vels a _) as [v1| |] eqn:S1; try discriminate. cbn [bind] in H. rewrite zset_nat in H. destruct (set v1 b _) as [v2| |] eqn:S2; try discriminate. cbn [bind] in H.
  apply set_inv in S1, S2. destruct S1 as [_ ->], S2 as [_ ->]. exists va, vb, ps, s'. repeat split; auto using get_inv; congruence.
Qed.
Lemma vel_eta (v : vel R) : Vel (v_v v) (v_w v) = v.
Proof. now destruct v. Qed.

Lemma tangent_place (c : vcon R) p s : same_place p (fst (tangent_point c p s)).
Proof. apply (conj eq_refl (conj eq_refl (conj eq_refl (conj eq_refl eq_refl)))). Qed.

Section Pair.
  Variables (ba bb : body R).
  Definition pair_sum (f : body R -> vel R -> R) (s : pair R) : R := f ba (Vel (s_va s) (s_wa s)) + f bb (Vel (s_vb s) (s_wb s)).
  Lemma pair_weighted f bs vels c g c' vels' a b : vc_a c = Z.of_nat a -> vc_b c = Z.of_nat b -> a <> b -> nth_error bs a = Some ba -> nth_error bs b = Some bb ->
    (forall s ps s', g s = Ok (ps, s') -> pair_sum f s' = pair_sum f s) -> with_pair c g vels = Ok (c', vels') -> weighted bs vels' f = weighted bs vels f.
  Proof.
    intros Ea Eb N Na Nb H Q. destruct (with_pair_steps c g vels c' vels' a b Ea Eb N Q) as (va & vb & ps & s' & Ga & Gb & F & _ & ->). apply H in F. unfold pair_sum in F. cbn [s_va s_wa s_vb s_wb] in F. rewrite !vel_eta in F.
    rewrite (weighted_upd f bs _ b bb vb) by (auto; rewrite nth_upd_ne; auto). rewrite (weighted_upd f bs vels a ba va) by auto. lra.
  Qed.

  (* the three momenta *)
  Definition f_x (b : body R) (v : vel R) := b_mass b * vx (v_v v).
  Definition f_y (b : body R) (v : vel R) := b_mass b * vy (v_v v).
  Definition f_a (ox oy : R) (b : body R) (v : vel R) := b_mass b * ((vx (sw_c (b_sweep b)) - ox) * vy (v_v v) - (vy (sw_c (b_sweep b)) - oy) * vx (v_v v)) + b_i b * v_w v.
  Variables (c : vcon R) (ox oy : R).
  Hypothesis (Ma : vc_ma c = b_inv_mass ba) (Mb : vc_mb c = b_inv_mass bb) (Ia : vc_ia c = b_inv_i ba) (Ib : vc_ib c = b_inv_i bb) (Ha : heavy ba) (Hb : heavy bb).
  Definition meets (p : vpoint R) : Prop := vx (sw_c (b_sweep ba)) + vx (vp_ra p) = vx (sw_c (b_sweep bb)) + vx (vp_rb p) /\ vy (sw_c (b_sweep ba)) + vy (vp_ra p) = vy (sw_c (b_sweep bb)) + vy (vp_rb p).
  Definition conserved (s s' : pair R) : Prop := pair_sum f_x s' = pair_sum f_x s /\ pair_sum f_y s' = pair_sum f_y s.
  Definition conserved_a (s s' : pair R) : Prop := pair_sum (f_a ox oy) s' = pair_sum (f_a ox oy) s.

  Lemma push_conserved ra rb p s : conserved s (push c ra rb p s).
  Proof.
    unfold conserved, pair_sum, f_x, f_y, push, vsub, vadd, vscale. cbn. rewrite Ma, Mb. unfold heavy in Ha, Hb. pose proof Ha as A. pose proof Hb as B.
    split; [replace (b_mass ba * (vx (s_va s) - b_inv_mass ba * vx p)) with (b_mass ba * vx (s_va s) - b_mass ba * b_inv_mass ba * vx p) by ring|replace (b_mass ba * (vy (s_va s) - b_inv_mass ba * vy p)) with (b_mass ba * vy (s_va s) - b_mass ba * b_inv_mass ba * vy p) by ring];
      [replace (b_mass bb * (vx (s_vb s) + b_inv_mass bb * vx p)) with (b_mass bb * vx (s_vb s) + b_mass bb * b_inv_mass bb * vx p) by ring|replace (b_mass bb * (vy (s_vb s) + b_inv_mass bb * vy p)) with (b_mass bb * vy (s_vb s) + b_mass bb * b_inv_mass bb * vy p) by ring]; rewrite A, B; ring.
  Qed.
  Lemma push_conserved_a q p s : finite_mass ba -> finite_mass bb -> meets q -> conserved_a s (push c (vp_ra q) (vp_rb q) p s).
  Proof.
    intros Fa Fb [Hx Hy]. unfold conserved_a, pair_sum, f_a, push, vsub, vadd, vscale, b2_cross. cbn. rewrite Ma, Mb, Ia, Ib. destruct Fa as [A A'], Fb as [B B'].
    set (X := vx (sw_c (b_sweep ba)) - ox). set (Y := vy (sw_c (b_sweep ba)) - oy). set (U := vx (sw_c (b_sweep bb)) - ox). set (V := vy (sw_c (b_sweep bb)) - oy).
    assert (Qx : vx (vp_rb q) = X + vx (vp_ra q) - U) by (subst X U; lra). assert (Qy : vy (vp_rb q) = Y + vy (vp_ra q) - V) by (subst Y V; lra).
    transitivity (b_mass ba * (X * vy (s_va s) - Y * vx (s_va s)) - (b_mass ba * b_inv_mass ba) * (X * vy p - Y * vx p) + b_i ba * s_wa s - (b_i ba * b_inv_i ba) * (vx (vp_ra q) * vy p - vy (vp_ra q) * vx p) +
      (b_mass bb * (U * vy (s_vb s) - V * vx (s_vb s)) + (b_mass bb * b_inv_mass bb) * (U * vy p - V * vx p) + b_i bb * s_wb s + (b_i bb * b_inv_i bb) * (vx (vp_rb q) * vy p - vy (vp_rb q) * vx p))); [ring|]. rewrite A, A', B, B', Qx, Qy. ring.
  Qed.
  Lemma block_push p1 p2 x s : block_apply c p1 p2 x s = (set_vp_ni (vx x) p1, set_vp_ni (vy x) p2,
    push c (vp_ra p2) (vp_rb p2) (vscale (vy x - vp_ni p2) (vc_normal c)) (push c (vp_ra p1) (vp_rb p1) (vscale (vx x - vp_ni p1) (vc_normal c)) s)).
  Proof. unfold block_apply, push, vsub, vadd, vscale, b2_cross. cbn. f_equal. f_equal; try (f_equal; ring); ring. Qed.
  Lemma conserved_trans s t u : conserved s t -> conserved t u -> conserved s u.
  Proof. unfold conserved. intros [? ?] [? ?]. split; congruence. Qed.
  Lemma meets_place p q : same_place p q -> meets p -> meets q.
  Proof. intros (A & B & _) [H1 H2]. unfold meets. now rewrite A, B. Qed.

  (* any relation that impulses at the points keep *)
  Variables (I : pair R -> Prop) (K : vpoint R -> Prop).
  Hypothesis (HK : forall p q, same_place p q -> K p -> K q) (HI : forall q p s, K q -> I s -> I (push c (vp_ra q) (vp_rb q) p s)).
  Lemma same_place_all ps ps' n : Forall2 same_place ps ps' -> Forall K (firstn n ps) -> Forall K (firstn n ps').
  Proof. intros H. revert n. induction H; intros [|n] Q; cbn in *; try constructor; inversion Q; subst; eauto. Qed.
  Lemma warm_keeps s ps s' : Forall K (active c) -> I s -> each_point (vc_count c) (warm_point c) (vc_points c) s = Ok (ps, s') -> I s'.
  Proof. intros Ks Is H. eapply (each_point_state I K); [|exact Ks|exact Is|exact H]. intros p t Kp It. cbn [snd warm_point]. now apply HI. Qed.
  Lemma solve_keeps block s ps s' : Forall K (active c) -> I s -> solve_points block c s = Ok (ps, s') -> I s'.
  Proof.
    intros Ks Is. unfold solve_points. destruct (_ || _) eqn:N; cbn [b2_assert bind]; try discriminate. destruct (each_point _ (tangent_point c) _ _) as [[ps1 s1]| |] eqn:E1; try discriminate. cbn [bind].
    pose proof (each_point_place _ _ _ _ _ _ (tangent_place c) E1) as P1. pose proof (same_place_all _ _ (vc_count c) P1 Ks) as K1.
    apply (each_point_state I K) in E1; auto; [|intros p t Kp It; cbn [snd tangent_point]; now apply HI]. destruct (Nat.eqb (vc_count c) 1 || negb block) eqn:B; intros H.
    - eapply (each_point_state I K); [|exact K1|exact E1|exact H]. intros p t Kp It. cbn [snd normal_point]. now apply HI.
    - apply orb_false_iff in B. destruct B as [B _]. assert (N2 : vc_count c = 2%nat) by (rewrite B in N; now apply Nat.eqb_eq in N). rewrite N2 in K1. unfold block_solve in H. destruct ps1 as [|p1 [|p2 r]]; try discriminate. destruct (b2_assert _); try discriminate. cbn [bind] in H.
      cbn [firstn] in K1. inversion K1 as [|? ? Q1 Q']; subst. inversion Q' as [|? ? Q2 _]; subst.
      destruct (block_case c p1 p2 _) as [x|]; [|now assert (s' = s1) as -> by congruence]. rewrite block_push in H. assert (s' = push c (vp_ra p2) (vp_rb p2) (vscale (vy x - vp_ni p2) (vc_normal c)) (push c (vp_ra p1) (vp_rb p1) (vscale (vx x - vp_ni p1) (vc_normal c)) s1)) as -> by congruence. auto.
  Qed.
End Pair.

(** ** momentum of a list of bodies *)
Definition ops_point (c : vcon R) (g : pair R -> res (list (vpoint R) * pair R)) : Prop :=
  (exists block, g = solve_points block c) \/ g = each_point (vc_count c) (warm_point c) (vc_points c).
Lemma ops_keeps c g (I : pair R -> Prop) (K : vpoint R -> Prop) s ps s' : ops_point c g -> (forall p q, same_place p q -> K p -> K q) -> (forall q p s, K q -> I s -> I (push c (vp_ra q) (vp_rb q) p s)) -> Forall K (active c) -> I s -> g s = Ok (ps, s') -> I s'.
Proof. intros [(block & ->)| ->] A B C D H; [eapply solve_keeps; eauto|eapply warm_keeps; eauto]. Qed.
Lemma one_linear bs c g vels c' vels' : joins heavy bs c -> ops_point c g -> with_pair c g vels = Ok (c', vels') -> momentum_x bs vels' = momentum_x bs vels /\ momentum_y bs vels' = momentum_y bs vels.
Proof.
  intros (a & b & ba & bb & Ea & Eb & N & Na & Nb & Fa & Fb & Ma & Ia & Mb & Ib) O H.
  assert (G : forall s ps s', g s = Ok (ps, s') -> conserved ba bb s s').
  { intros s ps s' Q. eapply (ops_keeps c g (fun t => conserved ba bb s t) (fun _ => True)); eauto; [|now apply Forall_forall|split; reflexivity]. intros q p t _ X. eapply conserved_trans; [exact X|]. apply push_conserved; auto. }
  split; [apply (pair_weighted ba bb (f_x) bs vels c g c' vels' a b)|apply (pair_weighted ba bb (f_y) bs vels c g c' vels' a b)]; auto; intros; now apply (G s ps s').
Qed.
Lemma one_angular bs c g vels c' vels' ox oy : joins finite_mass bs c -> common_point bs c -> ops_point c g -> with_pair c g vels = Ok (c', vels') -> angular_momentum ox oy bs vels' = angular_momentum ox oy bs vels.
Proof.
  intros (a & b & ba & bb & Ea & Eb & N & Na & Nb & Fa & Fb & Ma & Ia & Mb & Ib) CP O H. specialize (CP a b ba bb Ea Eb Na Nb).
  apply (pair_weighted ba bb (f_a ox oy) bs vels c g c' vels' a b); auto. intros s ps s' Q.
  eapply (ops_keeps c g (fun t => conserved_a ba bb ox oy s t) (meets ba bb)); eauto; [apply meets_place| |reflexivity]. intros q p t Mq X. unfold conserved_a in *. rewrite <- X. apply (push_conserved_a ba bb c ox oy); auto.
Qed.
(* a body of infinite mass is not moved *)
Lemma push_still (c : vcon R) ra rb p s : (vc_ma c = 0 -> vc_ia c = 0 -> s_va (push c ra rb p s) = s_va s /\ s_wa (push c ra rb p s) = s_wa s) /\ (vc_mb c = 0 -> vc_ib c = 0 -> s_vb (push c ra rb p s) = s_vb s /\ s_wb (push c ra rb p s) = s_wb s).
Proof. unfold push, vsub, vadd, vscale. cbn. split; intros -> ->; destruct s as [[] ? [] ?]; cbn; (split; [f_equal|]; ring). Qed.
Lemma nth_upd2 {A} (l : list A) a b x y i : a <> b -> nth_error (upd (upd l a x) b y) i = if Nat.eqb i b then (if Nat.ltb b (length l) then Some y else None) else if Nat.eqb i a then (if Nat.ltb a (length l) then Some x else None) else nth_error l i.
Proof.
  intros N. destruct (Nat.eqb_spec i b) as [->|Nb].
  - destruct (Nat.ltb_spec b (length l)) as [L|L]; [apply nth_upd_eq; now rewrite length_upd|]. apply nth_error_None. rewrite !length_upd. lia.
  - rewrite nth_upd_ne by auto. destruct (Nat.eqb_spec i a) as [->|Na]; [|now rewrite nth_upd_ne by auto]. destruct (Nat.ltb_spec a (length l)) as [L|L]; [now apply nth_upd_eq|]. apply nth_error_None. rewrite length_upd. lia.
Qed.
Lemma one_still bs c g vels c' vels' i bi : joins (fun _ => True) bs c -> nth_error bs i = Some bi -> infinite_mass bi -> ops_point c g -> with_pair c g vels = Ok (c', vels') -> nth_error vels' i = nth_error vels i.
Proof.
  intros (a & b & ba & bb & Ea & Eb & N & Na & Nb & _ & _ & Ma & Ia & Mb & Ib) Ni [Z1 Z2] O H. destruct (with_pair_steps c g vels c' vels' a b Ea Eb N H) as (va & vb & ps & s' & Ga & Gb & F & _ & ->).
  rewrite nth_upd2 by auto. assert (La : (a < length vels)%nat) by (apply nth_error_Some; congruence). assert (Lb : (b < length vels)%nat) by (apply nth_error_Some; congruence).
  destruct (Nat.eqb_spec i b) as [->|Xb].
  - destruct (Nat.ltb_spec b (length vels)); [|lia]. rewrite Gb. f_equal. rewrite <- (vel_eta vb). assert (bi = bb) as -> by congruence.
    assert (Q : s_vb s' = v_v vb /\ s_wb s' = v_w vb); [|destruct Q as [-> ->]; reflexivity].
    eapply (ops_keeps c g (fun t => s_vb t = v_v vb /\ s_wb t = v_w vb) (fun _ => True)); eauto; [|now apply Forall_forall|now split]. intros q p t _ [T1 T2]. destruct (push_still c (vp_ra q) (vp_rb q) p t) as [_ PS]. destruct PS as [-> ->]; auto; congruence.
  - destruct (Nat.eqb_spec i a) as [->|Xa]; auto. destruct (Nat.ltb_spec a (length vels)); [|lia]. rewrite Ga. f_equal. rewrite <- (vel_eta va). assert (bi = ba) as -> by congruence.
    assert (Q : s_va s' = v_v va /\ s_wa s' = v_w va); [|destruct Q as [-> ->]; reflexivity].
    eapply (ops_keeps c g (fun t => s_va t = v_v va /\ s_wa t = v_w va) (fun _ => True)); eauto; [|now apply Forall_forall|now split]. intros q p t _ [T1 T2]. destruct (push_still c (vp_ra q) (vp_rb q) p t) as [PS _]. destruct PS as [-> ->]; auto; congruence.
Qed.
(* the frame of a constraint decides *)
Lemma frame_joins P bs c d : same_frame c d -> joins P bs c -> joins P bs d.
Proof. intros (ps & -> & _) H. exact H. Qed.
Lemma frame_common bs c d : same_frame c d -> common_point bs c -> common_point bs d.
Proof.
  intros (ps & -> & F) H a b ba bb Ea Eb Na Nb. specialize (H a b ba bb Ea Eb Na Nb). unfold active in *. cbn [vc_count vc_points set_vc_points].
  eapply (same_place_all (meets ba bb)); [intros; eapply meets_place; eauto|exact F|exact H].
Qed.
Lemma warm_frame (c : vcon R) vels c' vels' : warm_constraint c vels = Ok (c', vels') -> same_frame c c'.
Proof. intros H. apply with_pair_inv in H. destruct H as (s & ps & s' & H & ->). exists ps. split; auto. eapply each_point_place; [|exact H]. intros. apply same_place_refl. Qed.

(* a step of the solver on all constraints *)
Section Lift.
  Variables (Q : vcon R -> Prop) (I : list (vel R) -> Prop).
  Hypothesis HQ : forall c d, same_frame c d -> Q c -> Q d.
  Hypothesis HI : forall c g vels c' vels', Q c -> ops_point c g -> I vels -> with_pair c g vels = Ok (c', vels') -> I vels'.
  Lemma lift_solve block cs vels cs' vels' : Forall Q cs -> I vels -> solve_velocities block cs vels = Ok (cs', vels') -> I vels' /\ Forall Q cs'.
  Proof.
    intros HF Iv H. rewrite Forall_forall in HF. split.
    - eapply (each_item_state I); [|exact Iv|exact H]. intros c s c' s' Ic Is E. eapply HI; [eauto| |exact Is|exact E]. left. eauto.
    - apply (each_item_inv (fun c d => In c cs /\ same_frame c d)) in H.
      + revert H. apply Forall2_right. intros x y [X Y]. eauto.
      + intros c s c' s' Ic E. split; auto. eapply solve_frame; eauto.
  Qed.
  Lemma lift_warm cs vels cs' vels' : Forall Q cs -> I vels -> warm_start cs vels = Ok (cs', vels') -> I vels' /\ Forall Q cs'.
  Proof.
    intros HF Iv H. rewrite Forall_forall in HF. split.
    - eapply (each_item_state I); [|exact Iv|exact H]. intros c s c' s' Ic Is E. eapply HI; [eauto| |exact Is|exact E]. now right.
    - apply (each_item_inv (fun c d => In c cs /\ same_frame c d)) in H.
      + revert H. apply Forall2_right. intros x y [X Y]. eauto.
      + intros c s c' s' Ic E. split; auto. eapply warm_frame; eauto.
  Qed.
  Lemma lift_iterations block n cs vels cs' vels' : Forall Q cs -> I vels -> iterations block n cs vels = Ok (cs', vels') -> I vels' /\ Forall Q cs'.
  Proof.
    unfold iterations, for_range. rewrite Nat.sub_0_r. generalize 0%nat. intros k H1 H2 H3. revert H1 H2 H3. revert k. revert cs vels. induction n as [|n IH]; intros cs vels k HF Iv H; cbn [for_from] in H.
    - assert (cs' = cs) as -> by congruence. now assert (vels' = vels) as -> by congruence.
    - cbn [fst snd] in H. destruct (solve_velocities block cs vels) as [[cs1 v1]| |] eqn:E; try discriminate. cbn [bind] in H. apply lift_solve in E; auto. destruct E as [I1 Q1]. eapply IH; eauto.
  Qed.
End Lift.

(** ** conservation *)
Theorem iterations_linear bs block n cs vels cs' vels' : Forall (joins heavy bs) cs -> iterations block n cs vels = Ok (cs', vels') -> momentum_x bs vels' = momentum_x bs vels /\ momentum_y bs vels' = momentum_y bs vels.
Proof.
  intros H E. eapply (lift_iterations (joins heavy bs) (fun v => momentum_x bs v = momentum_x bs vels /\ momentum_y bs v = momentum_y bs vels)); [apply frame_joins| |exact H|now split|exact E].
  intros c g v c' v' J O [I1 I2] W. destruct (one_linear bs c g v c' v' J O W) as [-> ->]. auto.
Qed.
Theorem warm_linear bs cs vels cs' vels' : Forall (joins heavy bs) cs -> warm_start cs vels = Ok (cs', vels') -> (momentum_x bs vels' = momentum_x bs vels /\ momentum_y bs vels' = momentum_y bs vels) /\ Forall (joins heavy bs) cs'.
Proof.
  intros H E. eapply (lift_warm (joins heavy bs) (fun v => momentum_x bs v = momentum_x bs vels /\ momentum_y bs v = momentum_y bs vels)); [apply frame_joins| |exact H|now split|exact E].
  intros c g v c' v' J O [I1 I2] W. destruct (one_linear bs c g v c' v' J O W) as [-> ->]. auto.
Qed.
Definition turnable (bs : list (body R)) (c : vcon R) : Prop := joins finite_mass bs c /\ common_point bs c.
Lemma frame_turnable bs c d : same_frame c d -> turnable bs c -> turnable bs d.
Proof. intros F [A B]. split; [eapply frame_joins|eapply frame_common]; eauto. Qed.
Theorem iterations_angular bs block n cs vels cs' vels' ox oy : Forall (turnable bs) cs -> iterations block n cs vels = Ok (cs', vels') -> angular_momentum ox oy bs vels' = angular_momentum ox oy bs vels.
Proof.
  intros H E. eapply (lift_iterations (turnable bs) (fun v => angular_momentum ox oy bs v = angular_momentum ox oy bs vels)); [apply frame_turnable| |exact H|reflexivity|exact E].
  intros c g v c' v' [J1 J2] O I1 W. rewrite (one_angular bs c g v c' v' ox oy J1 J2 O W). auto.
Qed.
Theorem warm_angular bs cs vels cs' vels' ox oy : Forall (turnable bs) cs -> warm_start cs vels = Ok (cs', vels') -> angular_momentum ox oy bs vels' = angular_momentum ox oy bs vels /\ Forall (turnable bs) cs'.
Proof.
  intros H E. eapply (lift_warm (turnable bs) (fun v => angular_momentum ox oy bs v = angular_momentum ox oy bs vels)); [apply frame_turnable| |exact H|reflexivity|exact E].
  intros c g v c' v' [J1 J2] O I1 W. rewrite (one_angular bs c g v c' v' ox oy J1 J2 O W). auto.
Qed.
Theorem iterations_still bs block n cs vels cs' vels' i bi : nth_error bs i = Some bi -> infinite_mass bi -> Forall (joins (fun _ => True) bs) cs -> iterations block n cs vels = Ok (cs', vels') -> nth_error vels' i = nth_error vels i.
Proof.
  intros Ni Z H E. eapply (lift_iterations (joins (fun _ => True) bs) (fun v => nth_error v i = nth_error vels i)); [apply frame_joins| |exact H|reflexivity|exact E].
  intros c g v c' v' J O I1 W. rewrite (one_still bs c g v c' v' i bi J Ni Z O W). auto.
Qed.
Theorem warm_still bs cs vels cs' vels' i bi : nth_error bs i = Some bi -> infinite_mass bi -> Forall (joins (fun _ => True) bs) cs -> warm_start cs vels = Ok (cs', vels') -> nth_error vels' i = nth_error vels i /\ Forall (joins (fun _ => True) bs) cs'.
Proof.
  intros Ni Z H E. eapply (lift_warm (joins (fun _ => True) bs) (fun v => nth_error v i = nth_error vels i)); [apply frame_joins| |exact H|reflexivity|exact E].
  intros c g v c' v' J O I1 W. rewrite (one_still bs c g v c' v' i bi J Ni Z O W). auto.
Qed.

(** ** the constraints the solver makes *)
Lemma map_res_inv {A B} (f : A -> res B) : forall l r, map_res f l = Ok r -> Forall2 (fun a b => f a = Ok b) l r.
Proof. induction l as [|a l IH]; intros r H; cbn [map_res] in H; [assert (r = []) as -> by congruence; constructor|]. destruct (f a) as [b| |] eqn:F; try discriminate. cbn [bind] in H. destruct (map_res f l) as [r1| |] eqn:G; try discriminate. cbn [bind] in H. assert (r = b :: r1) as -> by congruence. constructor; auto. Qed.
Lemma zip_res_inv {A B C} (f : A -> B -> res C) : forall l m r c, zip_res f l m = Ok r -> In c r -> exists a b, In a l /\ In b m /\ f a b = Ok c.
Proof.
  induction l as [|a l IH]; intros m r c H I; cbn [zip_res] in H; [assert (r = []) as -> by congruence; destruct I|]. destruct m as [|b m]; try discriminate. destruct (f a b) as [c1| |] eqn:F; try discriminate. cbn [bind] in H. destruct (zip_res f l m) as [r1| |] eqn:G; try discriminate. cbn [bind] in H. assert (r = c1 :: r1) as -> by congruence.
  destruct I as [->|I]; [exists a, b; repeat split; auto; now left|]. destruct (IH _ _ _ G I) as (a1 & b1 & X & Y & Z). exists a1, b1. repeat split; auto; now right.
Qed.
Definition same_masses (c d : vcon R) : Prop := vc_a d = vc_a c /\ vc_b d = vc_b c /\ vc_ma d = vc_ma c /\ vc_mb d = vc_mb c /\ vc_ia d = vc_ia c /\ vc_ib d = vc_ib c.
Lemma new_joins P bs step ci c pc : touches P bs ci -> new_constraint step ci = Ok (c, pc) -> joins P bs c.
Proof.
  intros (a & b & Na & Nb & N & Ea & Eb & Pa & Pb) H. unfold new_constraint in H. destruct (b2_assert _); try discriminate. cbn [bind] in H. destruct (for_range _ _ _ _) as [ps| |]; try discriminate. cbn [bind] in H. injection H as <- _.
  exists a, b, (ci_a ci), (ci_b ci). cbn. repeat split; auto.
Qed.
Lemma masses_joins P bs c d : same_masses c d -> joins P bs c -> joins P bs d.
Proof. intros (A & B & C & D & E & F) (a & b & ba & bb & H). exists a, b, ba, bb. rewrite A, B, C, D, E, F. exact H. Qed.
Lemma block_masses block (c d : vcon R) : init_block block c = Ok d -> same_masses c d /\ vc_points d = vc_points c /\ (vc_count d <= vc_count c)%nat.
Proof.
  unfold init_block. destruct (_ && _) eqn:B.
  - apply andb_prop in B. destruct B as [B _]. apply Nat.eqb_eq in B. destruct (get _ 0); try discriminate. cbn [bind]. destruct (get _ 1); try discriminate. cbn [bind]. destruct (nlt _ _); intros H.
    + injection H as <-. unfold same_masses. cbn. auto 10.
    + injection H as <-. unfold same_masses. cbn. rewrite B. repeat split; auto.
  - intros H. injection H as <-. unfold same_masses. auto 10.
Qed.
Lemma firstn_le {A} (P : A -> Prop) m n (l : list A) : (m <= n)%nat -> Forall P (firstn n l) -> Forall P (firstn m l).
Proof. intros L H. replace m with (Nat.min m n) by lia. rewrite <- firstn_firstn. rewrite <- (firstn_skipn m (firstn n l)) in H. now apply Forall_app in H. Qed.
Section Init.
  Context {TT : NumTrig R}.
Lemma init_masses block poss vels m pc (c d : vcon R) : init_constraint block poss vels m pc c = Ok d -> same_masses c d.
Proof.
  unfold init_constraint. destruct (zget poss (vc_a c)) as [pa| |]; try discriminate. cbn [bind]. destruct (zget vels (vc_a c)) as [va| |]; try discriminate. cbn [bind]. destruct (zget poss (vc_b c)) as [pb| |]; try discriminate. cbn [bind]. destruct (zget vels (vc_b c)) as [vb| |]; try discriminate. cbn [bind].
  destruct (b2_assert _); try discriminate. cbn [bind]. destruct (world_manifold_initialize _ _ _ _ _) as [wm| |]; try discriminate. cbn [bind]. destruct wm as [[n wps]|]; try discriminate. cbn [unwrap bind].
  destruct (each_point _ _ _ _) as [[ps k]| |]; try discriminate. cbn [bind]. intros H. apply block_masses in H. destruct H as (H & _). exact H.
Qed.
Lemma init_common block bs vels m pc (c d : vcon R) : init_constraint block (map body_pos bs) vels m pc c = Ok d -> common_point bs d.
Proof.
  intros H a b ba bb Ea Eb Na Nb. pose proof (init_masses _ _ _ _ _ _ _ H) as (Qa & Qb & _). rewrite Qa in Ea. rewrite Qb in Eb. revert H.
  unfold init_constraint. rewrite Ea, Eb, !zget_nat. unfold get. rewrite !nth_error_map, Na, Nb. cbn [option_map bind]. destruct (nth_error vels a) as [va|]; try discriminate. cbn [bind]. destruct (nth_error vels b) as [vb|]; try discriminate. cbn [bind].
  destruct (b2_assert _); try discriminate. cbn [bind]. destruct (world_manifold_initialize _ _ _ _ _) as [wm| |]; try discriminate. cbn [bind]. destruct wm as [[n wps]|]; try discriminate. cbn [unwrap bind].
  destruct (each_point _ _ _ _) as [[ps k]| |] eqn:E; try discriminate. cbn [bind]. intros H. apply block_masses in H. destruct H as (_ & Hp & Hc). cbn [vc_points vc_count set_vc_points set_vc_normal] in *.
  apply (each_point_inv (fun _ q => meets ba bb q)) in E.
  - destruct E as (_ & _ & E & _). apply (Forall2_right _ (meets ba bb)) in E; auto. unfold active. rewrite Hp. eapply firstn_le; [exact Hc|exact E].
  - intros p j. unfold meets, init_point, vsub, body_pos. cbn. split; ring.
Qed.
Lemma phase_constraints P block step bs cins vels cs pcs cs' : Forall (touches P bs) cins -> make_constraints step cins = Ok (cs, pcs) -> init_constraints block (map body_pos bs) vels cins pcs cs = Ok cs' -> Forall (joins P bs) cs' /\ Forall (common_point bs) cs'.
Proof.
  intros H M I. unfold make_constraints in M. destruct (map_res _ _) as [l| |] eqn:E; try discriminate. cbn [bind] in M. injection M as <- <-. apply map_res_inv in E.
  assert (J : forall c, In c (map fst l) -> joins P bs c).
  { intros c Ic. apply in_map_iff in Ic. destruct Ic as ([c0 pc] & <- & Ic). clear - E H Ic. induction E as [|ci x cins l E0 E IH]; [destruct Ic|]. inversion H; subst. destruct Ic as [->|Ic]; [eapply new_joins; eauto|auto]. }
  split; apply Forall_forall; intros c Ic; destruct (zip_res_inv _ _ _ _ _ I Ic) as (ci & [pc c0] & _ & Ib & F); cbn [fst snd] in F.
  - eapply masses_joins; [eapply init_masses; eauto|]. apply J. eapply in_combine_r; eauto.
  - eapply init_common; eauto.
Qed.
Theorem phase_linear block step bs cins vels cs' vels' : Forall (touches heavy bs) cins -> contact_phase block step bs cins vels = Ok (cs', vels') -> momentum_x bs vels' = momentum_x bs vels /\ momentum_y bs vels' = momentum_y bs vels.
Proof.
  intros H. unfold contact_phase. destruct (make_constraints step cins) as [[cs pcs]| |] eqn:M; try discriminate. cbn [bind]. destruct (init_constraints _ _ _ _ _ _) as [cs1| |] eqn:I; try discriminate. cbn [bind]. destruct (phase_constraints _ _ _ _ _ _ _ _ _ H M I) as [J _].
  destruct (ts_warm step).
  - destruct (warm_start cs1 vels) as [[cs2 v2]| |] eqn:W; try discriminate. cbn [bind]. intros E. apply warm_linear with (bs := bs) in W; auto. destruct W as [[W1 W2] J2]. apply iterations_linear with (bs := bs) in E; auto. rewrite <- W1, <- W2. exact E.
  - cbn [bind]. intros E. eapply iterations_linear; eauto.
Qed.
Theorem phase_angular block step bs cins vels cs' vels' ox oy : Forall (touches finite_mass bs) cins -> contact_phase block step bs cins vels = Ok (cs', vels') -> angular_momentum ox oy bs vels' = angular_momentum ox oy bs vels.
Proof.
  intros H. unfold contact_phase. destruct (make_constraints step cins) as [[cs pcs]| |] eqn:M; try discriminate. cbn [bind]. destruct (init_constraints _ _ _ _ _ _) as [cs1| |] eqn:I; try discriminate. cbn [bind]. destruct (phase_constraints _ _ _ _ _ _ _ _ _ H M I) as [J1 J2].
  assert (J : Forall (turnable bs) cs1) by (rewrite Forall_forall in *; split; auto). destruct (ts_warm step).
  - destruct (warm_start cs1 vels) as [[cs2 v2]| |] eqn:W; try discriminate. cbn [bind]. intros E. apply warm_angular with (bs := bs) (ox := ox) (oy := oy) in W; auto. destruct W as [W J3]. apply iterations_angular with (bs := bs) (ox := ox) (oy := oy) in E; auto. now rewrite <- W.
  - cbn [bind]. intros E. eapply iterations_angular; eauto.
Qed.
Theorem phase_still block step bs cins vels cs' vels' i bi : nth_error bs i = Some bi -> infinite_mass bi -> Forall (touches (fun _ => True) bs) cins -> contact_phase block step bs cins vels = Ok (cs', vels') -> nth_error vels' i = nth_error vels i.
Proof.
  intros Ni Z H. unfold contact_phase. destruct (make_constraints step cins) as [[cs pcs]| |] eqn:M; try discriminate. cbn [bind]. destruct (init_constraints _ _ _ _ _ _) as [cs1| |] eqn:I; try discriminate. cbn [bind]. destruct (phase_constraints _ _ _ _ _ _ _ _ _ H M I) as [J _].
  destruct (ts_warm step).
  - destruct (warm_start cs1 vels) as [[cs2 v2]| |] eqn:W; try discriminate. cbn [bind]. intros E. apply warm_still with (bs := bs) (i := i) (bi := bi) in W; auto. destruct W as [W J2]. rewrite <- W. eapply iterations_still; eauto.
  - cbn [bind]. intros E. eapply iterations_still; eauto.
Qed.
End Init.
