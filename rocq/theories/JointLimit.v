(** The limits of prismatic and wheel joints in the position solver, in exact real arithmetic. *)
From Coq Require Import List ZArith Bool Arith Reals Lia Lra.
From Flocq Require Import Core.
From Verif Require Import Base Num NumLaws Math RTac MathSpec MathProofs Manifold ListFacts DynModel SolverModel IslandModel SolverSpec SolverProofs SolverReal JointModel JointSpec JointProofs JointReal SolverPos JointHeld.
Import ListNotations.
Local Open Scope R_scope.

(** ** derivatives at 0 *)
Lemma D_const (c : R) : derivable_pt_lim (fun _ => c) 0 0.
Proof. exact (derivable_pt_lim_const c 0). Qed.
Lemma D_line (p q : R) : derivable_pt_lim (fun t => p + t * q) 0 q.
Proof. intros e He. exists (mkposreal _ He). intros h Hh _. replace ((p + (0 + h) * q - (p + 0 * q)) / h - q) with 0 by (field; auto). rewrite Rabs_R0. exact He. Qed.
Lemma D_add f g l m : derivable_pt_lim f 0 l -> derivable_pt_lim g 0 m -> derivable_pt_lim (fun t => f t + g t) 0 (l + m).
Proof. exact (derivable_pt_lim_plus f g 0 l m). Qed.
Lemma D_sub f g l m : derivable_pt_lim f 0 l -> derivable_pt_lim g 0 m -> derivable_pt_lim (fun t => f t - g t) 0 (l - m).
Proof. exact (derivable_pt_lim_minus f g 0 l m). Qed.
Lemma D_mul f g l m : derivable_pt_lim f 0 l -> derivable_pt_lim g 0 m -> derivable_pt_lim (fun t => f t * g t) 0 (l * g 0 + f 0 * m).
Proof. exact (derivable_pt_lim_mult f g 0 l m). Qed.
Lemma D_sin p q : derivable_pt_lim (fun t => sin (p + t * q)) 0 (cos p * q).
Proof.
  pose proof (derivable_pt_lim_comp (fun t => p + t * q) sin 0 q (cos (p + 0 * q)) (D_line p q) (derivable_pt_lim_sin _)) as H. unfold comp in H. replace (p + 0 * q) with p in H by ring. exact H.
Qed.
Lemma D_cos p q : derivable_pt_lim (fun t => cos (p + t * q)) 0 (- sin p * q).
Proof.
  pose proof (derivable_pt_lim_comp (fun t => p + t * q) cos 0 q (- sin (p + 0 * q)) (D_line p q) (derivable_pt_lim_cos _)) as H. unfold comp in H. replace (p + 0 * q) with p in H by ring. exact H.
Qed.
Lemma D_eq f l m : derivable_pt_lim f 0 l -> l = m -> derivable_pt_lim f 0 m.
Proof. now intros H <-. Qed.

Lemma slide_rate la lb lx (a b : body R) pa pb pa' pb' :
  let ax := turned (p_a pa) lx in let ra := arm a pa la in let rb := arm b pb lb in let dd := minus (at_arm pb rb) (at_arm pa ra) in
  derivable_pt_lim (fun t => slide_along la lb lx a b (toward t pa pa') (toward t pb pb')) 0
    (dot ax (minus (minus (p_c pb') (p_c pb)) (minus (p_c pa') (p_c pa))) + cross rb ax * (p_a pb' - p_a pb) - cross (plus ra dd) ax * (p_a pa' - p_a pa)).
Proof.
  cbv zeta. unfold slide_along, toward, dot, minus, at_arm, arm, turned, cross, plus. cbn [vx vy p_c p_a nsin ncos R_Trig].
  set (A := p_a pa). set (B := p_a pb).
  eapply D_eq; [repeat (first [apply D_sin | apply D_cos | apply D_line | apply D_const | apply D_sub | apply D_add | apply D_mul])|].
  cbn beta. replace (A + 0 * (p_a pa' - A)) with A by ring. replace (B + 0 * (p_a pb' - B)) with B by ring. ring.
Qed.

(** ** the correction *)
Section Limit.
  Lemma corrected_pair (f : pos R * pos R -> (pos R * pos R) * bool) (a b : body R) poss poss' okay pa pb pa' pb' :
    b_island_index a <> b_island_index b -> zget poss (b_island_index a) = Ok pa -> zget poss (b_island_index b) = Ok pb -> on_pos (com_of a b) f poss = Ok (poss', okay) ->
    zget poss' (b_island_index a) = Ok pa' -> zget poss' (b_island_index b) = Ok pb' -> f (pa, pb) = ((pa', pb'), okay).
  Proof.
    intros N Pa Pb E Pa' Pb'. unfold on_pos in E. cbn [jc_a jc_b com_of] in E. rewrite Pa, Pb in E. cbn [bind] in E. destruct (f (pa, pb)) as [[xa xb] o]. destruct (v <- zset poss (b_island_index a) xa ;; zset v (b_island_index b) xb) as [v| |] eqn:Z.
    - destruct (zset_pair _ _ _ _ _ _ _ _ Pa Pb N Z) as [Za Zb]. destruct (zset poss _ xa) as [v1| |]; try discriminate. cbn [bind] in E, Z. rewrite Z in E. cbn [bind] in E. congruence.
    - destruct (zset poss _ xa) as [v1| |]; try discriminate. cbn [bind] in E, Z. rewrite Z in E. discriminate.
    - destruct (zset poss _ xa) as [v1| |]; try discriminate. cbn [bind] in E, Z. rewrite Z in E. discriminate.
  Qed.
  Lemma corrected_pri d i f a b pa pb pa' pb' okay : corrected (JPrismatic d i f) a b pa pb pa' pb' okay -> pri_pos d (com_of a b) (pa, pb) = ((pa', pb'), okay).
  Proof. intros (c2 & poss & poss' & N & Pa & Pb & E & Pa' & Pb'). cbn [joint_pos j_kind j_com] in E. eapply corrected_pair; eauto. Qed.
  Lemma corrected_whe d i f a b pa pb pa' pb' okay : corrected (JWheel d i f) a b pa pb pa' pb' okay -> whe_pos d (com_of a b) f (pa, pb) = ((pa', pb'), okay).
  Proof. intros (c2 & poss & poss' & N & Pa & Pb & E & Pa' & Pb'). cbn [joint_pos j_kind j_com] in E. eapply corrected_pair; eauto. Qed.

  (* the error that the solvers work with *)
  Definition limit_error (lo hi x : R) : R := if Rlt_bool (Rabs (hi - lo)) (2 * B2_LINEAR_SLOP) then x else if Rle_bool x lo then Rmin (x - lo) 0 else if Rle_bool hi x then Rmax (x - hi) 0 else 0.
  Lemma max_le_r (x y z : R) : b2_max x y <= z -> y <= z.
  Proof. rewrite b2_max_R. intros H. pose proof (Rmax_r x y). lra. Qed.
  Lemma max_le_l (x y z : R) : b2_max x y <= z -> x <= z.
  Proof. rewrite b2_max_R. intros H. pose proof (Rmax_l x y). lra. Qed.
  Lemma pri_error_ok d x e : pr_limit d = true -> let '(active, c2, le) := pri_limit_error d x e in
    (active = true -> c2 = limit_error (pr_lower d) (pr_upper d) x) /\ (active = false -> limit_error (pr_lower d) (pr_upper d) x = 0) /\ (le <= B2_LINEAR_SLOP -> Rabs (limit_error (pr_lower d) (pr_upper d) x) <= B2_LINEAR_SLOP).
  Proof.
    intros L. unfold pri_limit_error. rewrite L. unfold limit_error. rops. pose proof slop_pos as SP. destruct (Rlt_bool _ _).
    - refine (conj _ (conj _ _)); auto; [discriminate|]. apply max_le_r.
    - destruct (Rle_bool_spec x (pr_lower d)).
      + refine (conj _ (conj _ _)); [intros _; apply b2_min_R|discriminate|]. intros Q. apply max_le_r in Q. rewrite Rmin_left, Rabs_left1; lra.
      + destruct (Rle_bool_spec (pr_upper d) x).
        * refine (conj _ (conj _ _)); [intros _; apply b2_max_R|discriminate|]. intros Q. apply max_le_r in Q. rewrite Rmax_left, Rabs_pos_eq; lra.
        * refine (conj _ (conj _ _)); [discriminate|auto|]. intros _. rewrite Rabs_R0. lra.
  Qed.
  Lemma whe_error_ok d x : whe_limit_error d x = limit_error (wh_lower d) (wh_upper d) x.
  Proof. unfold whe_limit_error, limit_error. rops. destruct (Rlt_bool _ _); auto. destruct (Rle_bool _ _); [apply b2_min_R|]. destruct (Rle_bool _ _); [apply b2_max_R|reflexivity]. Qed.

  (* what is reported *)
  Lemma pri_slide d i f a b pa pb : let ra := arm_of (rot_of (p_a pa)) (pr_la d) (sw_local_center (b_sweep a)) in let rb := arm_of (rot_of (p_a pb)) (pr_lb d) (sw_local_center (b_sweep b)) in
    b2_dot (rotv (rot_of (p_a pa)) (pr_lx d)) (vsub (vsub (vadd (p_c pb) rb) (p_c pa)) ra) = slide (JPrismatic d i f) a b pa pb.
  Proof. cbv zeta. cbn [slide]. unfold slide_along. rewrite <- !arm_is, <- turned_is, between_arms. reflexivity. Qed.
  Lemma whe_slide d i f a b pa pb : let ra := arm_of (rot_of (p_a pa)) (wh_la d) (sw_local_center (b_sweep a)) in let rb := arm_of (rot_of (p_a pb)) (wh_lb d) (sw_local_center (b_sweep b)) in
    b2_dot (rotv (rot_of (p_a pa)) (wh_lx d)) (vsub (vadd (vsub (p_c pb) (p_c pa)) rb) ra) = slide (JWheel d i f) a b pa pb.
  Proof. cbv zeta. cbn [slide]. unfold slide_along. rewrite <- !arm_is, <- turned_is, between_arms'. reflexivity. Qed.
  Lemma okay_error k a b pa pb pa' pb' lo hi : slide_limits k = Some (lo, hi) -> corrected k a b pa pb pa' pb' true -> Rabs (limit_error lo hi (slide k a b pa pb)) <= B2_LINEAR_SLOP.
  Proof.
    intros SL C. destruct k; try discriminate SL; cbn [slide_limits] in SL.
    - destruct (pr_limit d) eqn:L; try discriminate. injection SL as <- <-. apply corrected_pri in C. unfold pri_pos in C. cbn [jc_lca jc_lcb com_of] in C. rewrite (pri_slide d i f a b pa pb) in C.
      match type of C with context [pri_limit_error d ?x ?e] => pose proof (pri_error_ok d x e L) as Q; destruct (pri_limit_error d x e) as [[act c2] le] end. destruct Q as (_ & _ & Q). apply Q.
      apply (f_equal snd) in C. cbn [snd] in C. apply andb_prop in C. destruct C as [C _]. rops. now apply Rle_bool_true' in C.
    - destruct (wh_limit d) eqn:L; try discriminate. injection SL as <- <-. apply corrected_whe in C. unfold whe_pos in C. rewrite L in C. unfold whe_pos_limit in C. cbn [jc_lca jc_lcb com_of] in C. rewrite (whe_slide d i f a b pa pb), whe_error_ok in C.
      set (e := limit_error _ _ _) in *. rops. destruct (Req_bool_spec e 0) as [Z|Z]; cbn [negb] in C.
      + rewrite Z, Rabs_R0. pose proof slop_pos. lra.
      + destruct (jmove _ _ _ _ (pa, pb)) as [pa1 pb1]. apply (f_equal snd) in C. cbn [snd] in C. apply Rle_bool_true' in C. now apply max_le_l in C.
  Qed.
  Theorem okay_unequal k a b pa pb pa' pb' lo hi : slide_limits k = Some (lo, hi) -> 2 * B2_LINEAR_SLOP <= Rabs (hi - lo) -> corrected k a b pa pb pa' pb' true -> lo <= hi ->
    lo - B2_LINEAR_SLOP <= slide k a b pa pb <= hi + B2_LINEAR_SLOP.
  Proof.
    intros SL W C LH. pose proof (okay_error _ _ _ _ _ _ _ _ _ SL C) as E. unfold limit_error in E. pose proof slop_pos as SP. rewrite Rlt_bool_false in E by exact W. destruct (Rle_bool_spec (slide k a b pa pb) lo).
    - rewrite Rmin_left, Rabs_left1 in E by lra. split; lra.
    - destruct (Rle_bool_spec hi (slide k a b pa pb)).
      + rewrite Rmax_left, Rabs_pos_eq in E by lra. split; lra.
      + split; lra.
  Qed.
  Theorem okay_equal k a b pa pb pa' pb' lo hi : slide_limits k = Some (lo, hi) -> Rabs (hi - lo) < 2 * B2_LINEAR_SLOP -> corrected k a b pa pb pa' pb' true -> Rabs (slide k a b pa pb) <= B2_LINEAR_SLOP.
  Proof. intros SL W C. pose proof (okay_error _ _ _ _ _ _ _ _ _ SL C) as E. unfold limit_error in E. rewrite Rlt_bool_true in E by exact W. exact E. Qed.

  (* the determinant of the prismatic joint with an active limit *)
  Lemma pri_det (m ia ib k22 s1 s2 a1 a2 : R) : 0 < m -> 0 <= ia -> 0 <= ib -> (ia + ib = 0 -> k22 = 1) -> (ia + ib <> 0 -> k22 = ia + ib) ->
    det3 (M33 (V3 (m + ia * s1 * s1 + ib * s2 * s2) (ia * s1 + ib * s2) (ia * s1 * a1 + ib * s2 * a2)) (V3 (ia * s1 + ib * s2) k22 (ia * a1 + ib * a2)) (V3 (ia * s1 * a1 + ib * s2 * a2) (ia * a1 + ib * a2) (m + ia * a1 * a1 + ib * a2 * a2))) <> 0.
  Proof.
    intros M A B K1 K2. destruct (Req_dec (ia + ib) 0) as [Z|Z].
    - rewrite (K1 Z). assert (ia = 0 /\ ib = 0) as [-> ->] by lra. unfold det3. cbn [m3x m3y m3z v3x v3y v3z]. nra.
    - rewrite (K2 Z). assert (P : 0 < ia + ib) by lra.
      match goal with |- ?x <> 0 => replace x with (m * m * (ia + ib) + m * (ia * ib * ((s1 - s2) * (s1 - s2) + (a1 - a2) * (a1 - a2)))) by (unfold det3; cbn [m3x m3y m3z v3x v3y v3z]; ring) end.
      assert (0 < m * m * (ia + ib)) by (apply Rmult_lt_0_compat; [nra|lra]). assert (0 <= ia * ib) by (apply Rmult_le_pos; lra). assert (0 <= (s1 - s2) * (s1 - s2) + (a1 - a2) * (a1 - a2)) by (pose proof (Rle_0_sqr (s1 - s2)); pose proof (Rle_0_sqr (a1 - a2)); unfold Rsqr in *; lra).
      assert (0 <= m * (ia * ib * ((s1 - s2) * (s1 - s2) + (a1 - a2) * (a1 - a2)))) by (apply Rmult_le_pos; [lra|]; apply Rmult_le_pos; lra). lra.
  Qed.
  Lemma unit_trig_R (a : R) : nsin a * nsin a + ncos a * ncos a = 1.
  Proof. rops. pose proof (sin2_cos2 a) as H. unfold Rsqr in H. lra. Qed.
  Lemma turned_dot a (v w : vec2 R) : dot (turned a v) (turned a w) = dot v w.
  Proof. unfold dot, turned. cbn [vx vy]. transitivity ((nsin a * nsin a + ncos a * ncos a) * (vx v * vx w + vy v * vy w)); [ring|]. rewrite unit_trig_R. ring. Qed.

  (* the prismatic joint: to first order the correction removes the error *)
  Theorem pri_drives d i f a b pa pb pa' pb' okay : let k := JPrismatic d i f in can_move a b -> proper_axes k -> pr_limit d = true -> corrected k a b pa pb pa' pb' okay -> limit_error (pr_lower d) (pr_upper d) (slide k a b pa pb) <> 0 ->
    derivable_pt_lim (fun t => slide k a b (toward t pa pa') (toward t pb pb')) 0 (- limit_error (pr_lower d) (pr_upper d) (slide k a b pa pb)).
  Proof.
    intros k (Ma & Mb & Ia & Ib & M) [U UY] L C NZ. unfold k in *. apply corrected_pri in C. unfold pri_pos in C. cbn [jc_lca jc_lcb jc_ma jc_mb jc_ia jc_ib com_of] in C. rewrite (pri_slide d i f a b pa pb) in C.
    eapply D_eq; [apply slide_rate|].
    match type of C with context [pri_limit_error d ?x ?e] => pose proof (pri_error_ok d x e L) as Q; destruct (pri_limit_error d x e) as [[act c2] le] end. destruct Q as (Q1 & Q2 & _).
    destruct act; [|now rewrite Q2 in NZ by auto]. rewrite <- Q1 by auto. clear Q1 Q2 NZ.
    rewrite <- between_arms, !arm_is, !turned_is in C. set (ax := turned (p_a pa) (pr_lx d)) in *. set (ay := turned (p_a pa) (pr_ly d)) in *. set (ra := arm a pa (pr_la d)) in *. set (rb := arm b pb (pr_lb d)) in *. set (dd := minus (at_arm pb rb) (at_arm pa ra)) in *.
    assert (XX : dot ax ax = 1) by (unfold ax; now rewrite turned_dot). assert (XY : dot ax ay = 0) by (unfold ax, ay; rewrite turned_dot, UY; unfold dot; cbn [vx vy]; ring).
    replace (b2_cross (vadd dd ra) ay) with (cross (plus ra dd) ay) in C by (unfold cross, plus; rmathc; ring). replace (b2_cross (vadd dd ra) ax) with (cross (plus ra dd) ax) in C by (unfold cross, plus; rmathc; ring).
    change (b2_cross rb ax) with (cross rb ax) in C. change (b2_cross rb ay) with (cross rb ay) in C. set (a1 := cross (plus ra dd) ax) in *. set (a2 := cross rb ax) in *. set (s1 := cross (plus ra dd) ay) in *. set (s2 := cross rb ay) in *. set (ma := b_inv_mass a) in *. set (mb := b_inv_mass b) in *. set (ia := b_inv_i a) in *. set (ib := b_inv_i b) in *.
    match type of C with context [solve33 ?m ?v] => pose proof (solve33_ok m v) as S; set (x := solve33 m v) in C, S end.
    clearbody x. apply (f_equal fst) in C. cbn [fst] in C. unfold jmove in C. cbn [fst snd jc_ma jc_mb jc_ia jc_ib com_of] in C. injection C as <- <-. cbn [p_c p_a].
    destruct S as (_ & _ & S3).
    { change (det3 (M33 (V3 (ma + mb + ia * s1 * s1 + ib * s2 * s2) (ia * s1 + ib * s2) (ia * s1 * a1 + ib * s2 * a2)) (V3 (ia * s1 + ib * s2) (if Req_bool (ia + ib) 0 then 1 else ia + ib) (ia * a1 + ib * a2)) (V3 (ia * s1 * a1 + ib * s2 * a2) (ia * a1 + ib * a2) (ma + mb + ia * a1 * a1 + ib * a2 * a2))) <> 0).
      apply pri_det; auto; [intros Z; now rewrite Req_bool_true|intros Z; now rewrite Req_bool_false]. }
    fold ma mb ia ib. cbn [m3x m3y m3z v3x v3y v3z v3neg nadd nmul nneg R_Num] in S3. unfold dot, minus in *. cbn [vx vy vadd vsub vscale nadd nsub nmul R_Num] in *.
    transitivity ((ma + mb) * (v3x x * (vx ax * vx ay + vy ax * vy ay) + v3z x * (vx ax * vx ax + vy ax * vy ax)) + a2 * (ib * (v3x x * s2 + v3y x + v3z x * a2)) + a1 * (ia * (v3x x * s1 + v3y x + v3z x * a1))); [ring|].
    rewrite XX, XY. lra.
  Qed.
  (* bodies that cannot turn: the correction removes the error *)
  Lemma slide_shift la lb lx a b pa pb pa' pb' : p_a pa' = p_a pa -> p_a pb' = p_a pb ->
    slide_along la lb lx a b pa' pb' = slide_along la lb lx a b pa pb + dot (turned (p_a pa) lx) (minus (minus (p_c pb') (p_c pb)) (minus (p_c pa') (p_c pa))).
  Proof. intros A B. unfold slide_along, arm. rewrite A, B. unfold dot, minus, at_arm. cbn [vx vy]. ring. Qed.
  Lemma pri_fixed d i f a b pa pb pa' pb' okay : let k := JPrismatic d i f in can_move a b -> proper_axes k -> pr_limit d = true -> b_inv_i a = 0 -> b_inv_i b = 0 -> corrected k a b pa pb pa' pb' okay ->
    slide k a b pa' pb' = slide k a b pa pb - limit_error (pr_lower d) (pr_upper d) (slide k a b pa pb).
  Proof.
    intros k (Ma & Mb & _ & _ & M) [U UY] L Ia Ib C. unfold k in *. apply corrected_pri in C. unfold pri_pos in C. cbn [jc_lca jc_lcb jc_ma jc_mb jc_ia jc_ib com_of] in C. rewrite (pri_slide d i f a b pa pb) in C. rewrite Ia, Ib in C.
    match type of C with context [pri_limit_error d ?x ?e] => pose proof (pri_error_ok d x e L) as Q; destruct (pri_limit_error d x e) as [[act c2] le] end. destruct Q as (Q1 & Q2 & _).
    cbn [slide] in *. set (e := limit_error _ _ _) in *. clearbody e. rewrite !turned_is in C.
    set (imp := if act then _ else _) in C.
    assert (V : (b_inv_mass a + b_inv_mass b) * v3z imp = - e).
    { unfold imp. destruct act.
      - rewrite <- Q1 by auto. match goal with |- context [solve33 ?m ?v] => pose proof (solve33_ok m v) as S; set (x := solve33 m v) in S |- * end. clearbody x. destruct S as (_ & _ & S3).
        + cbv [det3 m3x m3y m3z v3x v3y v3z]. rops. rewrite Req_bool_true by lra. assert (0 < (b_inv_mass a + b_inv_mass b) * (b_inv_mass a + b_inv_mass b)) by (apply Rmult_lt_0_compat; assumption). lra.
        + cbn [m3x m3y m3z v3x v3y v3z v3neg nadd nmul nneg nofZ R_Num] in S3. lra.
      - cbn [v3z]. rewrite Q2 by auto. rmathc. ring. }
    clearbody imp. apply (f_equal fst) in C. cbn [fst] in C. unfold jmove in C. cbn [fst snd jc_ma jc_mb jc_ia jc_ib com_of] in C. rewrite Ia, Ib in C. injection C as <- <-.
    rewrite (slide_shift _ _ _ a b pa pb) by (cbn [p_a]; rmathc; ring). cbn [p_c]. set (ax := turned (p_a pa) (pr_lx d)) in *. set (ay := turned (p_a pa) (pr_ly d)) in *.
    assert (XX : dot ax ax = 1) by (unfold ax; now rewrite turned_dot). assert (XY : dot ax ay = 0) by (unfold ax, ay; rewrite turned_dot, UY; unfold dot; cbn [vx vy]; ring).
    unfold Rminus. f_equal. rewrite <- V. unfold dot, minus in *. cbn [vx vy vadd vsub vscale nadd nsub nmul R_Num] in *.
    transitivity ((b_inv_mass a + b_inv_mass b) * (v3x imp * (vx ax * vx ay + vy ax * vy ay) + v3z imp * (vx ax * vx ax + vy ax * vy ax))); [ring|]. rewrite XX, XY. ring.
  Qed.
  Lemma whe_fixed d i f a b pa pb pa' pb' okay : let k := JWheel d i f in can_move a b -> proper_axes k -> wh_limit d = true -> b_inv_i a = 0 -> b_inv_i b = 0 -> corrected k a b pa pb pa' pb' okay ->
    slide k a b pa' pb' = slide k a b pa pb - limit_error (wh_lower d) (wh_upper d) (slide k a b pa pb).
  Proof.
    intros k (Ma & Mb & _ & _ & M) [U UY] L Ia Ib C. unfold k in *. apply corrected_whe in C. unfold whe_pos in C. rewrite L in C. unfold whe_pos_limit in C. cbn [jc_lca jc_lcb jc_ma jc_mb jc_ia jc_ib com_of] in C. rewrite (whe_slide d i f a b pa pb), whe_error_ok in C.
    cbn [slide] in *. set (e := limit_error _ _ _) in *. clearbody e. rewrite Ia, Ib in C.
    match type of C with (let '(_, _) := ?m in _) = _ => set (mid := m) in C end.
    set (ax := turned (p_a pa) (wh_lx d)) in *. set (ay := turned (p_a pa) (wh_ly d)) in *.
    assert (XX : dot ax ax = 1) by (unfold ax; now rewrite turned_dot). assert (XY : dot ax ay = 0) by (unfold ax, ay; rewrite turned_dot, UY; unfold dot; cbn [vx vy]; ring).
    assert (H : let '((pa1, pb1), _) := mid in p_a pa1 = p_a pa /\ p_a pb1 = p_a pb /\ slide_along (wh_la d) (wh_lb d) (wh_lx d) a b pa1 pb1 = slide_along (wh_la d) (wh_lb d) (wh_lx d) a b pa pb - e).
    { unfold mid. rops. destruct (Req_bool_spec e 0) as [Z|Z]; cbn [negb].
      - rewrite Z. refine (conj eq_refl (conj eq_refl _)). lra.
      - rewrite Req_bool_false by lra. cbn [negb]. unfold jmove. cbn [fst snd jc_ma jc_mb jc_ia jc_ib com_of]. rewrite Ia, Ib. refine (conj _ (conj _ _)); [cbn [p_a]; rmathc; ring|cbn [p_a]; rmathc; ring|].
        rewrite (slide_shift _ _ _ a b pa pb) by (cbn [p_a]; rmathc; ring). cbn [p_c]. rewrite turned_is. fold ax. unfold Rminus. f_equal. unfold dot, minus in *. cbn [vx vy vadd vsub vscale nadd nsub nmul R_Num] in *.
        match goal with |- context [?x * vx ax] => set (imp := x) end. transitivity ((b_inv_mass a + b_inv_mass b) * imp * (vx ax * vx ax + vy ax * vy ax)); [ring|]. rewrite XX. unfold imp. field. lra. }
    clearbody mid. destruct mid as [[pa1 pb1] le]. destruct H as (A1 & B1 & S1). rewrite <- S1. clear S1. apply (f_equal fst) in C. cbn [fst] in C. rewrite !turned_is, A1 in C. fold ax ay in C.
    match type of C with jmove _ (vscale ?x _) _ _ _ = _ => set (imp := x) in C; clearbody imp end.
    unfold jmove in C. cbn [fst snd jc_ma jc_mb jc_ia jc_ib com_of] in C. rewrite Ia, Ib in C. injection C as <- <-.
    rewrite (slide_shift _ _ _ a b pa1 pb1) by (cbn [p_a]; rmathc; ring). cbn [p_c]. rewrite A1. fold ax. match goal with |- _ + ?x = _ => enough (x = 0) by lra end. unfold dot, minus in *. cbn [vx vy vadd vsub vscale nadd nsub nmul R_Num] in *.
    transitivity ((b_inv_mass a + b_inv_mass b) * imp * (vx ax * vx ay + vy ax * vy ay)); [ring|]. rewrite XY. ring.
  Qed.
  Lemma slide_fixed k a b pa pb pa' pb' lo hi okay : can_move a b -> proper_axes k -> slide_limits k = Some (lo, hi) -> b_inv_i a = 0 -> b_inv_i b = 0 -> corrected k a b pa pb pa' pb' okay -> slide k a b pa' pb' = slide k a b pa pb - limit_error lo hi (slide k a b pa pb).
  Proof.
    intros M P SL Ia Ib C. destruct k; try discriminate SL; cbn [slide_limits] in SL.
    - destruct (pr_limit d) eqn:L; try discriminate. injection SL as <- <-. eapply pri_fixed; eauto.
    - destruct (wh_limit d) eqn:L; try discriminate. injection SL as <- <-. eapply whe_fixed; eauto.
  Qed.
  Theorem fixed_unequal k a b pa pb pa' pb' lo hi okay : can_move a b -> proper_axes k -> slide_limits k = Some (lo, hi) -> 2 * B2_LINEAR_SLOP <= hi - lo -> b_inv_i a = 0 -> b_inv_i b = 0 -> corrected k a b pa pb pa' pb' okay ->
    slide k a b pa' pb' = Rmax lo (Rmin hi (slide k a b pa pb)).
  Proof.
    intros M P SL W Ia Ib C. rewrite (slide_fixed _ _ _ _ _ _ _ _ _ _ M P SL Ia Ib C). pose proof slop_pos as SP. set (x := slide k a b pa pb). unfold limit_error. rewrite Rlt_bool_false by (rewrite Rabs_pos_eq; lra). destruct (Rle_bool_spec x lo).
    - rewrite Rmin_left by lra. rewrite Rmax_left; [lra|]. pose proof (Rmin_r hi x). lra.
    - destruct (Rle_bool_spec hi x).
      + rewrite (Rmax_left (x - hi)) by lra. rewrite (Rmin_left hi) by lra. rewrite Rmax_right; lra.
      + rewrite Rmin_right by lra. rewrite Rmax_right; lra.
  Qed.
  Theorem fixed_equal k a b pa pb pa' pb' lo hi okay : can_move a b -> proper_axes k -> slide_limits k = Some (lo, hi) -> Rabs (hi - lo) < 2 * B2_LINEAR_SLOP -> b_inv_i a = 0 -> b_inv_i b = 0 -> corrected k a b pa pb pa' pb' okay -> slide k a b pa' pb' = 0.
  Proof. intros M P SL W Ia Ib C. rewrite (slide_fixed _ _ _ _ _ _ _ _ _ _ M P SL Ia Ib C). unfold limit_error. rewrite Rlt_bool_true by exact W. ring. Qed.
  Theorem drives_equal d i f a b pa pb pa' pb' okay : let k := JPrismatic d i f in can_move a b -> proper_axes k -> pr_limit d = true -> Rabs (pr_upper d - pr_lower d) < 2 * B2_LINEAR_SLOP -> corrected k a b pa pb pa' pb' okay -> slide k a b pa pb <> 0 ->
    derivable_pt_lim (fun t => slide k a b (toward t pa pa') (toward t pb pb')) 0 (0 - slide k a b pa pb).
  Proof.
    intros k M P L W C NZ. pose proof (pri_drives d i f a b pa pb pa' pb' okay M P L C) as D. unfold limit_error in D. rewrite Rlt_bool_true in D by exact W. fold k in D. unfold Rminus. rewrite Rplus_0_l. now apply D.
  Qed.
  Theorem drives_range d i f a b pa pb pa' pb' okay : let k := JPrismatic d i f in can_move a b -> proper_axes k -> pr_limit d = true -> 2 * B2_LINEAR_SLOP <= pr_upper d - pr_lower d -> corrected k a b pa pb pa' pb' okay ->
    (slide k a b pa pb < pr_lower d -> derivable_pt_lim (fun t => slide k a b (toward t pa pa') (toward t pb pb')) 0 (pr_lower d - slide k a b pa pb)) /\
    (pr_upper d < slide k a b pa pb -> derivable_pt_lim (fun t => slide k a b (toward t pa pa') (toward t pb pb')) 0 (pr_upper d - slide k a b pa pb)).
  Proof.
    intros k M P L W C. pose proof (pri_drives d i f a b pa pb pa' pb' okay M P L C) as D. pose proof slop_pos as SP. unfold limit_error in D. rewrite Rlt_bool_false in D by (rewrite Rabs_pos_eq; lra). fold k in D. split; intros Q.
    - rewrite Rle_bool_true in D by lra. rewrite Rmin_left in D by lra. replace (pr_lower d - _) with (- (slide k a b pa pb - pr_lower d)) by ring. apply D. lra.
    - rewrite Rle_bool_false in D by lra. rewrite Rle_bool_true in D by lra. rewrite Rmax_left in D by lra. replace (pr_upper d - _) with (- (slide k a b pa pb - pr_upper d)) by ring. apply D. lra.
  Qed.
End Limit.
