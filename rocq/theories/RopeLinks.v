(** The links of a rope: their lengths after the projection. *)
From Coq Require Import List ZArith Reals Lra Lia Bool Arith.
From Flocq Require Import Core.
From Verif Require Import Base Num NumLaws Math RTac ListFacts SolverModel RopeModel RopeSpec RopeTotal RopeReal.
Import ListNotations.
Local Open Scope R_scope.

Lemma vlen_size (a : vec2 R) : vlen a = size a.
Proof. reflexivity. Qed.
Lemma size_times k a : size (times k a) = Rabs k * size a.
Proof.
  unfold size, dot, times. cbn [vx vy]. replace (k * vx a * (k * vx a) + k * vy a * (k * vy a)) with (Rsqr k * (vx a * vx a + vy a * vy a)) by (unfold Rsqr; ring). rewrite sqrt_mult; [|apply Rle_0_sqr|generalize (Rle_0_sqr (vx a)) (Rle_0_sqr (vy a)); unfold Rsqr; lra].
  now rewrite sqrt_Rsqr_abs.
Qed.
Lemma size_pos a : 0 <= size a.
Proof. apply sqrt_pos. Qed.
Lemma size_2 a : size a * size a = dot a a.
Proof. unfold size. apply sqrt_sqrt. unfold dot. generalize (Rle_0_sqr (vx a)) (Rle_0_sqr (vy a)). unfold Rsqr. lra. Qed.
Lemma normalize_big (a : vec2 R) : B2_EPSILON <= size a -> vnormalize a = (size a, times (/ size a) a) /\ size (times (/ size a) a) = 1.
Proof.
  intros L. assert (E := eps_pos). unfold vnormalize. cbv zeta. rewrite vlen_size. rops. rewrite Rlt_bool_false by exact L. split; [f_equal; apply vec2_ext; cbn; field; lra|]. rewrite size_times, Rabs_right by (apply Rle_ge, Rlt_le, Rinv_0_lt_compat; lra). field. lra.
Qed.
Lemma normalize_small (a : vec2 R) : size a < B2_EPSILON -> vnormalize a = (0, a).
Proof. intros L. unfold vnormalize. cbv zeta. rewrite vlen_size. rops. now rewrite Rlt_bool_true by exact L. Qed.
Lemma pull_length {C} k m1 m2 len (c : C) q1 q2 c' q1' q2' : pbd_pull k m1 m2 len c q1 q2 = Some (c', q1', q2') ->
  let l := size (minus (rp_p q2) (rp_p q1)) in
  (B2_EPSILON <= l -> size (minus (rp_p q2') (rp_p q1')) = Rabs (l + k * (len - l))) /\
  (l < B2_EPSILON -> size (minus (rp_p q2') (rp_p q1')) = Rabs (1 + k * len) * l).
Proof.
  intros E l. unfold pbd_pull in E. change (vsub (rp_p q2) (rp_p q1)) with (minus (rp_p q2) (rp_p q1)) in E. split; intros L; cbv zeta in E.
  - destruct (normalize_big _ L) as [N U]. rewrite N in E. fold l in E, U. set (u := times (/ l) _) in *. assert (Eu : minus (rp_p q2) (rp_p q1) = times l u) by (assert (X := eps_pos); unfold u; apply vec2_ext; cbn; field; lra).
    clearbody u. destruct (neqb (nadd m1 m2) (nofZ 0)) eqn:Z; [discriminate|]. rops. assert (S : m1 + m2 <> 0) by (destruct (Req_bool_spec (m1 + m2) 0); [discriminate|assumption]). inversion E; subst. cbn [with_p rp_p].
    transitivity (size (times (l + k * (len - l)) u)); [|rewrite size_times, U; ring]. f_equal.
    assert (Ex := f_equal vx Eu). assert (Ey := f_equal vy Eu). cbn in Ex, Ey. apply vec2_ext; cbn.
    + replace (vx (rp_p q2) + _ - _) with ((vx (rp_p q2) - vx (rp_p q1)) + k * (len - l) * vx u * ((m1 + m2) / (m1 + m2))) by (field; exact S). rewrite Ex. field. exact S.
    + replace (vy (rp_p q2) + _ - _) with ((vy (rp_p q2) - vy (rp_p q1)) + k * (len - l) * vy u * ((m1 + m2) / (m1 + m2))) by (field; exact S). rewrite Ey. field. exact S.
  - rewrite (normalize_small _ L) in E. destruct (neqb (nadd m1 m2) (nofZ 0)) eqn:Z; [discriminate|]. rops. assert (S : m1 + m2 <> 0) by (destruct (Req_bool_spec (m1 + m2) 0); [discriminate|assumption]). inversion E; subst. cbn [with_p rp_p].
    unfold l. rewrite <- size_times. f_equal. apply vec2_ext; cbn; field; exact S.
Qed.

(** ** the lengths are those of the binding positions *)
Definition cut (r : rope R) : Prop := Forall (fun c => forall q1 q2, nth_error (ro_points r) (st_i1 c) = Some q1 -> nth_error (ro_points r) (st_i2 c) = Some q2 -> st_l c = size (minus (rp_bind q2) (rp_bind q1))) (ro_stretch r).
Lemma same_nth (qs qs' : list pt) i q' : same_points qs qs' -> nth_error qs' i = Some q' -> exists q, nth_error qs i = Some q /\ rp_bind q' = rp_bind q.
Proof. intros F N. destruct (Forall2_nth _ _ _ _ _ F N) as (q & Nq & B & _). eauto. Qed.
Lemma cut_like (r r' : rope R) : same_points (ro_points r) (ro_points r') -> Forall2 stwin (ro_stretch r) (ro_stretch r') -> cut r -> cut r'.
Proof.
  intros P S H. unfold cut in *. revert H. induction S as [|c c' l l' W S IH]; intros H; [constructor|]. inversion H as [|? ? Hc Hl]; subst. constructor; [|now apply IH].
  intros q1' q2' N1 N2. destruct W as (x & ->). cbn in N1, N2 |- *. destruct (same_nth _ _ _ _ P N1) as (q1 & M1 & ->). destruct (same_nth _ _ _ _ P N2) as (q2 & M2 & ->). auto.
Qed.
Lemma call_cut c r r' : fair c -> wf r -> cut r -> do_call c r = Ok r' -> cut r'.
Proof.
  intros F W S E. destruct c as [d|t|dt n p|p]; cbn [do_call fair] in *.
  - destruct (create_parts d r r' E) as (ss & bs & _ & Es & _ & ->). unfold cut. cbn [set_tuning ro_points ro_stretch]. apply Forall_map, Forall_forall. intros c Hc. apply In_nth_error in Hc. destruct Hc as [i N]. destruct (each_place_nth _ _ _ _ Es i c N) as (x & _ & G). cbn [Nat.add] in G.
    intros q1 q2 N1 N2. assert (X : forall c, st_i1 (tune_stretch (rd_tuning d) c) = st_i1 c /\ st_i2 (tune_stretch (rd_tuning d) c) = st_i2 c /\ st_l (tune_stretch (rd_tuning d) c) = st_l c) by (intros y; unfold tune_stretch; cbv zeta; destruct (neqb _ _); auto).
    destruct (X c) as (X1 & X2 & X3). rewrite X1 in N1. rewrite X2 in N2. rewrite X3. set (qs := map _ _) in *. unfold new_stretch in G. destruct (get qs i) as [a| |] eqn:G1; try discriminate. destruct (get qs (i + 1)) as [b| |] eqn:G2; try discriminate. apply get_inv in G1, G2. cbn [bind] in G. inversion G; subst. cbn in N1, N2 |- *.
    assert (a = q1) as -> by congruence. assert (b = q2) as -> by congruence. unfold qs in G1, G2. rewrite nth_error_map in G1, G2. destruct (nth_error (rd_vertices d) i) as [v1|]; [|discriminate]. destruct (nth_error (rd_vertices d) (i + 1)) as [v2|]; [|discriminate]. cbn in G1, G2. inversion G1; subst. inversion G2; subst. cbn.
    transitivity (size (vsub (vadd (fst v1) (rd_position d)) (vadd (fst v2) (rd_position d)))); [reflexivity|]. replace (minus (fst v2) (fst v1)) with (times (-1) (vsub (vadd (fst v1) (rd_position d)) (vadd (fst v2) (rd_position d)))) by (apply vec2_ext; cbn; ring). rewrite size_times, Rabs_left by lra. ring.
  - inversion E; subst. unfold cut. cbn [set_tuning ro_points ro_stretch]. apply Forall_map. eapply Forall_impl; [|exact S]. intros c H. unfold tune_stretch. cbv zeta. destruct (neqb _ _); exact H.
  - rops. destruct (Req_bool_spec dt 0) as [Z|Z]; [apply step_0 in E; [now subst|exact Z]|]. destruct F as [F|F]; [discriminate|].
    assert (D' : nlt (nofZ 0) dt = true) by (rops; exact F). assert (Z' : neqb dt (nofZ 0) = false) by (rops; now apply Req_bool_false). destruct (step_parts dt n p r D' W Z') as (q1 & ss' & bs' & qs' & _ & _ & Ws & Wb & P & E2). assert (r' = Rope (ro_position r) (map (settle (ndiv (nofZ 1) dt)) qs') ss' bs' (ro_gravity r) (ro_tuning r)) as -> by congruence.
    apply (cut_like r); auto. cbn [ro_points]. apply (same_trans _ qs'); [exact P|]. apply same_map. intros q. split; reflexivity.
  - inversion E; subst. apply (cut_like r); auto; cbn [reset ro_points ro_stretch].
    + apply same_map. intros q. split; reflexivity.
    + apply Forall2_map_r. intros c. eexists; reflexivity.
Qed.
Lemma calls_cut cs : Forall fair cs -> forall r r', wf r -> cut r -> calls cs r = Ok r' -> cut r'.
Proof.
  intros F. induction F as [|c cs Fc F IH]; intros r r' W S E; cbn [calls] in E; [inversion E; subst; auto|]. destruct (do_call c r) as [r1| |] eqn:C; try discriminate. cbn [bind] in E.
  apply (IH r1 r'); [now apply (call_wf c r)|now apply (call_cut c r r1)|exact E].
Qed.

(** ** the last link *)
Lemma each_item_app {C S} (f : C -> S -> res (C * S)) : forall l1 l2 s l s', each_item f (l1 ++ l2) s = Ok (l, s') -> exists l1' l2' s1, each_item f l1 s = Ok (l1', s1) /\ each_item f l2 s1 = Ok (l2', s') /\ l = l1' ++ l2'.
Proof.
  induction l1 as [|c l1 IH]; intros l2 s l s' E; cbn [app each_item] in E; [exists [], l, s; auto|]. destruct (f c s) as [[c1 s1]| |] eqn:F; try discriminate. cbn [bind] in E. destruct (each_item f (l1 ++ l2) s1) as [[r s2]| |] eqn:G; try discriminate. cbn [bind] in E. inversion E; subst.
  destruct (IH _ _ _ _ G) as (a & b & s3 & A & B & ->). exists (c1 :: a), b, s3. cbn [each_item]. rewrite F. cbn [bind]. rewrite A. auto.
Qed.
Lemma for_from_last {S} (f : S -> res S) : forall n lo s s', for_from (Datatypes.S n) lo (fun _ => f) s = Ok s' -> exists s1, for_from n lo (fun _ => f) s = Ok s1 /\ f s1 = Ok s'.
Proof.
  induction n as [|n IH]; intros lo s s' E; [cbn [for_from] in *; exists s; destruct (f s); [cbn [bind] in E; auto|discriminate|discriminate]|].
  change (bind (f s) (for_from (Datatypes.S n) (Datatypes.S lo) (fun _ => f)) = Ok s') in E. destruct (f s) as [s1| |] eqn:F; try discriminate. cbn [bind] in E. destruct (IH _ _ _ E) as (s2 & A & B). exists s2. cbn [for_from]. rewrite F. auto.
Qed.
Theorem last_link r dt n pos r' q1 q2 : reached r -> 0 < dt -> tu_stretching (ro_tuning r) = PbdStretching -> tu_stretch_stiffness (ro_tuning r) = 1 -> step dt (S n) pos r = Ok r' ->
  let N := length (ro_points r') in nth_error (ro_points r') (N - 2) = Some q1 -> nth_error (ro_points r') (N - 1) = Some q2 -> (2 <= N)%nat -> rp_im q1 + rp_im q2 <> 0 ->
  let len := size (minus (rp_bind q2) (rp_bind q1)) in let now := size (minus (rp_p q2) (rp_p q1)) in now = len \/ now < (1 + len) * B2_EPSILON.
Proof.
  intros (cs & Fcs & Ecs) D TS TK E N N1 N2 HN Sm len now. assert (W : wf r) by (destruct (calls_total cs Fcs _ default_wf) as (r2 & E2 & W2); assert (r2 = r) as -> by congruence; exact W2).
  assert (Cr' : cut r'). { apply (call_cut (Step dt (S n) pos) r); auto; [right; rops; now apply Rlt_bool_true|]. apply (calls_cut cs Fcs rope_default); auto; [apply default_wf|constructor]. }
  assert (Wr' : wf r') by (apply (call_wf (Step dt (S n) pos) r); auto; right; rops; now apply Rlt_bool_true).
  assert (D' : nlt (nofZ 0) dt = true) by (rops; now apply Rlt_bool_true). assert (Z' : neqb dt (nofZ 0) = false) by (rops; apply Req_bool_false; lra).
  destruct (step_parts dt (S n) pos r D' W Z') as (qa & ss' & bs' & qs' & _ & P & Ws & Wb & F & E2). set (t := ro_tuning r) in *.
  assert (r' = Rope (ro_position r) (map (settle (ndiv (nofZ 1) dt)) qs') ss' bs' (ro_gravity r) t) as -> by congruence. clear E E2. cbn [ro_points ro_stretch] in *.
  unfold for_range in P. rewrite Nat.sub_0_r in P. apply for_from_last in P. destruct P as ([[s1 b1] p1] & _ & P). unfold rope_pass in P. destruct (solve_bends dt t b1 p1) as [[b2 p2]| |]; try discriminate. cbn [bind] in P. destruct (solve_stretches dt t s1 p2) as [[s2 p3]| |] eqn:Q; try discriminate. cbn [bind] in P. assert (s2 = ss' /\ p3 = qs') as [-> ->] by (split; congruence). clear P Wb.
  unfold solve_stretches in Q. rewrite TS in Q. destruct Wr' as ((St & _) & _ & _). unfold strung in St. cbn [ro_points ro_stretch] in St. assert (LN : N = length qs') by (unfold N; apply map_length). clearbody N. rewrite map_length in St. rewrite <- LN in St.
  (* the last constraint *)
  assert (exists s0 c, s1 = s0 ++ [c]) as (s0 & c & ->).
  { destruct s1 as [|c s1] using rev_ind; [|eauto]. exfalso. cbn in Q. assert (ss' = []) as -> by congruence. cbn in St. assert (X := f_equal (@length _) St). rewrite map_length, seq_length in X. cbn in X. lia. }
  apply each_item_app in Q. destruct Q as (sa & sb & pm & _ & Q & ->). cbn [each_item] in Q. destruct (stretch_pbd t c pm) as [[c' pe]| |] eqn:G; try discriminate. cbn [bind] in Q. assert (sb = [c'] /\ pe = qs') as [-> ->] by (split; congruence). clear Q.
  assert (Ic : (st_i1 c' = N - 2 /\ st_i2 c' = N - 1)%nat).
  { assert (X : length (map (fun c : stretch R => (st_i1 c, st_i2 c)) (sa ++ [c'])) = (N - 1)%nat) by (rewrite St, map_length, seq_length; reflexivity). rewrite map_length, app_length in X. cbn in X.
    assert (Y : nth_error (map (fun c : stretch R => (st_i1 c, st_i2 c)) (sa ++ [c'])) (length sa) = Some (st_i1 c', st_i2 c')) by (rewrite nth_error_map, nth_error_app2, Nat.sub_diag by lia; reflexivity). rewrite St in Y. apply nth_map_seq in Y. inversion Y. lia. }
  assert (Lc : st_l c' = len). { unfold cut in Cr'. cbn [ro_points ro_stretch] in Cr'. assert (X := proj1 (Forall_forall _ _) Cr' c' ltac:(apply in_or_app; right; left; reflexivity)). cbn beta in X. destruct Ic as [J1 J2]. apply X; [rewrite J1|rewrite J2]; assumption. }
  destruct Ic as [I1 I2]. unfold stretch_pbd, on2 in G. destruct (get pm (st_i1 c)) as [a1| |] eqn:G1; try discriminate. destruct (get pm (st_i2 c)) as [a2| |] eqn:G2; try discriminate. cbn [bind] in G.
  apply get_inv in G1, G2. rewrite nth_error_map in N1, N2. destruct (nth_error qs' (N - 2)) as [e1|] eqn:M1; [|discriminate]. destruct (nth_error qs' (N - 1)) as [e2|] eqn:M2; [|discriminate]. cbn in N1, N2. inversion N1; subst q1. inversion N2; subst q2. clear N1 N2. cbn [settle rp_im rp_p rp_bind] in *.
  assert (Hm : wf r) by exact W. destruct (pbd_pull _ _ _ _ c a1 a2) as [[[c2 e1'] e2']|] eqn:Pl.
  - assert (X := pull_length _ _ _ _ _ _ _ _ _ _ Pl). cbv zeta in X. assert (Y := Pl). unfold pbd_pull in Y. destruct (vnormalize _) as [l0 d0]. cbv zeta in Y. destruct (neqb _ _) in Y; [discriminate|]. injection Y as Y1 _ _. subst c2. clear l0 d0.
    destruct (set pm (st_i1 c) e1') as [pm1| |] eqn:S1; try discriminate. cbn [bind] in G. destruct (set pm1 (st_i2 c) e2') as [pm2| |] eqn:S2; try discriminate. cbn [bind] in G. assert (c = c' /\ pm2 = qs') as [-> ->] by (split; congruence). clear G.
    apply set_inv in S1, S2. destruct S1 as [L1 ->]. destruct S2 as [L2 ->]. rewrite length_upd in L2. rewrite I1, I2 in *. assert (e2' = e2) by (rewrite nth_upd_eq in M2 by (rewrite length_upd; lia); congruence).
    assert (e1' = e1) by (rewrite nth_upd_ne in M1 by lia; rewrite nth_upd_eq in M1 by lia; congruence). subst e1' e2'. destruct X as [X1 X2]. unfold now. rewrite Lc, TK in X1, X2. set (l := size (minus (rp_p a2) (rp_p a1))) in *. assert (P1 := size_pos (minus (rp_bind e2) (rp_bind e1))). fold len in P1. change (rp_bind (settle _ ?a)) with (rp_bind a) in *.
    destruct (Rlt_or_le l B2_EPSILON) as [L|L].
    + right. rewrite (X2 L). rewrite Rabs_right by lra. replace (1 + 1 * len) with (1 + len) by ring. apply Rmult_lt_compat_l; lra.
    + left. rewrite (X1 L). replace (l + 1 * (len - l)) with len by ring. apply Rabs_right. lra.
  - exfalso. inversion G; subst c' qs'. unfold pbd_pull in Pl. destruct (vnormalize _) as [l0 d0]. cbv zeta in Pl. destruct (neqb (nadd (st_m1 c) (st_m2 c)) (nofZ 0)) eqn:Z; [|discriminate]. rops. destruct (Req_bool_spec (st_m1 c + st_m2 c) 0) as [Z0|]; [|discriminate]. apply Sm. rewrite <- Z0.
    (* masses agree *)
    assert (Gd : Forall (good_s (ims pm)) (sa ++ [c])).
    { destruct W as (_ & Gs & _). rewrite (same_ims _ _ F). revert Ws Gs. apply twins_good. intros x y Wt. now apply stwin_good. }
    apply Forall_app in Gd. destruct Gd as [_ Gd]. inversion Gd as [|? ? (_ & Gm1 & Gm2) _]; subst. rewrite I1 in Gm1. rewrite I2 in Gm2. unfold ims in Gm1, Gm2. rewrite nth_error_map, M1 in Gm1. rewrite nth_error_map, M2 in Gm2. cbn in Gm1, Gm2. congruence.
Qed.
