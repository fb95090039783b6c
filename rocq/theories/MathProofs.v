(** Proofs about the math helpers. *)
From Coq Require Import ZArith Reals Lra Lia Bool List.
From Flocq Require Import Core.
From Verif Require Import Base Num NumLaws Math MathSpec RTac.
Local Open Scope R_scope.

(** ** rotations and transforms *)
Lemma rot_of_unit (a : R) : unit_rot (rot_of a).
Proof. unfold unit_rot, rot_of. rops. pose proof (sin2_cos2 a). unfold Rsqr in *. lra. Qed.
Lemma mul_rot_unit (q r : rot R) : unit_rot q -> unit_rot r -> unit_rot (b2_mul_rot q r).
Proof.
  unfold unit_rot. rmathc. intros Hq Hr.
  replace (_ + _) with ((rs q * rs q + rc q * rc q) * (rs r * rs r + rc r * rc r)) by ring. rewrite Hq, Hr. ring.
Qed.
Lemma mul_t_rot_unit (q r : rot R) : unit_rot q -> unit_rot r -> unit_rot (b2_mul_t_rot q r).
Proof.
  unfold unit_rot. rmathc. intros Hq Hr.
  replace (_ + _) with ((rs q * rs q + rc q * rc q) * (rs r * rs r + rc r * rc r)) by ring. rewrite Hq, Hr. ring.
Qed.
Lemma rotv_len (q : rot R) (v : vec2 R) : unit_rot q -> b2_dot (rotv q v) (rotv q v) = b2_dot v v.
Proof.
  unfold unit_rot. rmathc. intros Hq.
  replace (_ + _) with ((rs q * rs q + rc q * rc q) * (vx v * vx v + vy v * vy v)) by ring. rewrite Hq. ring.
Qed.
Lemma rotv_dot (q : rot R) (v w : vec2 R) : unit_rot q -> b2_dot (rotv q v) (rotv q w) = b2_dot v w.
Proof.
  unfold unit_rot. rmathc. intros Hq.
  replace (_ + _) with ((rs q * rs q + rc q * rc q) * (vx v * vx w + vy v * vy w)) by ring. rewrite Hq. ring.
Qed.
Lemma rotv_t_rotv (q : rot R) (v : vec2 R) : unit_rot q -> rotv_t q (rotv q v) = v.
Proof.
  unfold unit_rot. intros Hq. apply vec2_ext; rmathc.
  - replace (_ + _) with ((rs q * rs q + rc q * rc q) * vx v) by ring. rewrite Hq. ring.
  - replace (_ + _) with ((rs q * rs q + rc q * rc q) * vy v) by ring. rewrite Hq. ring.
Qed.
Lemma rotv_rotv_t (q : rot R) (v : vec2 R) : unit_rot q -> rotv q (rotv_t q v) = v.
Proof.
  unfold unit_rot. intros Hq. apply vec2_ext; rmathc.
  - replace (_ - _) with ((rs q * rs q + rc q * rc q) * vx v) by ring. rewrite Hq. ring.
  - replace (_ + _) with ((rs q * rs q + rc q * rc q) * vy v) by ring. rewrite Hq. ring.
Qed.
Lemma xfv_t_xfv (t : xform R) (v : vec2 R) : unit_rot (xq t) -> xfv_t t (xfv t v) = v.
Proof.
  unfold unit_rot. intros Hq. apply vec2_ext; rmathc.
  - replace (_ + _) with ((rs (xq t) * rs (xq t) + rc (xq t) * rc (xq t)) * vx v) by ring. rewrite Hq. ring.
  - replace (_ + _) with ((rs (xq t) * rs (xq t) + rc (xq t) * rc (xq t)) * vy v) by ring. rewrite Hq. ring.
Qed.
Lemma xfv_xfv_t (t : xform R) (v : vec2 R) : unit_rot (xq t) -> xfv t (xfv_t t v) = v.
Proof.
  unfold unit_rot. intros Hq. apply vec2_ext; rmathc.
  - replace (_ + vx (xp t)) with ((rs (xq t) * rs (xq t) + rc (xq t) * rc (xq t)) * (vx v - vx (xp t)) + vx (xp t)) by ring. rewrite Hq. ring.
  - replace (_ + vy (xp t)) with ((rs (xq t) * rs (xq t) + rc (xq t) * rc (xq t)) * (vy v - vy (xp t)) + vy (xp t)) by ring. rewrite Hq. ring.
Qed.
Lemma mul_transform_apply (a b : xform R) (v : vec2 R) : xfv (b2_mul_transform a b) v = xfv a (xfv b v).
Proof. apply vec2_ext; rmathc; ring. Qed.
Lemma mul_transform_assoc (a b c : xform R) :
  b2_mul_transform a (b2_mul_transform b c) = b2_mul_transform (b2_mul_transform a b) c.
Proof. apply xform_ext; [apply vec2_ext|apply rot_ext]; rmathc; ring. Qed.
Lemma mul_t_rot_undo (q r : rot R) : unit_rot q -> b2_mul_t_rot q (b2_mul_rot q r) = r.
Proof.
  unfold unit_rot. intros Hq. apply rot_ext; rmathc.
  - replace (_ - _) with ((rs q * rs q + rc q * rc q) * rs r) by ring. rewrite Hq. ring.
  - replace (_ + _) with ((rs q * rs q + rc q * rc q) * rc r) by ring. rewrite Hq. ring.
Qed.
Lemma mul_t_transform_undo (a b : xform R) : unit_rot (xq a) -> b2_mul_t_transform a (b2_mul_transform a b) = b.
Proof.
  intros Hq. apply xform_ext.
  - transitivity (rotv_t (xq a) (rotv (xq a) (xp b))); [|now apply rotv_t_rotv].
    apply vec2_ext; rmathc; ring.
  - now apply mul_t_rot_undo.
Qed.
Lemma mul_t_transform_apply (a b : xform R) (v : vec2 R) : xfv (b2_mul_t_transform a b) v = xfv_t a (xfv b v).
Proof. apply vec2_ext; rmathc; ring. Qed.

(** ** matrices *)
Lemma m22_solve_ok (m : mat22 R) (b : vec2 R) :
  det2 (vx (m2x m)) (vx (m2y m)) (vy (m2x m)) (vy (m2y m)) <> 0 ->
  solves2 (vx (m2x m)) (vx (m2y m)) (vy (m2x m)) (vy (m2y m)) (m22_solve m b) b.
Proof.
  unfold det2, solves2, m22_solve. intros H. rops. rcase; [contradiction|]. cbn [negb].
  split; field; exact H.
Qed.
Lemma m22_solve_singular (m : mat22 R) (b : vec2 R) :
  det2 (vx (m2x m)) (vx (m2y m)) (vy (m2x m)) (vy (m2y m)) = 0 -> m22_solve m b = V2 0 0.
Proof.
  unfold det2, m22_solve. intros H. rops. rewrite H. rcase; [|contradiction]. cbn [negb].
  apply vec2_ext; rops; ring.
Qed.
Lemma solve22_ok (m : mat33 R) (b : vec2 R) :
  det2 (v3x (m3x m)) (v3x (m3y m)) (v3y (m3x m)) (v3y (m3y m)) <> 0 ->
  solves2 (v3x (m3x m)) (v3x (m3y m)) (v3y (m3x m)) (v3y (m3y m)) (solve22 m b) b.
Proof.
  unfold det2, solves2, solve22. intros H. rops. rcase; [contradiction|]. cbn [negb].
  split; field; exact H.
Qed.
Lemma solve22_singular (m : mat33 R) (b : vec2 R) :
  det2 (v3x (m3x m)) (v3x (m3y m)) (v3y (m3x m)) (v3y (m3y m)) = 0 -> solve22 m b = V2 0 0.
Proof.
  unfold det2, solve22. intros H. rops. rewrite H. rcase; [|contradiction]. cbn [negb].
  apply vec2_ext; rops; ring.
Qed.
Lemma det3_triple (m : mat33 R) : b2_dot_vec3 (m3x m) (b2_cross_vec3 (m3y m) (m3z m)) = det3 m.
Proof. unfold det3. rmathc. ring. Qed.
Lemma solve33_ok (m : mat33 R) (b : vec3 R) : det3 m <> 0 -> solves3 m (solve33 m b) b.
Proof.
  intros H. unfold solve33. rewrite det3_triple. rops. rcase; [contradiction|]. cbn [negb].
  unfold solves3. rmathc. unfold det3 in *. repeat split; field; exact H.
Qed.
Lemma solve33_singular (m : mat33 R) (b : vec3 R) : det3 m = 0 -> solve33 m b = V3 0 0 0.
Proof.
  intros H. unfold solve33. rewrite det3_triple, H. rops. rcase; [|contradiction]. cbn [negb].
  apply vec3_ext; rops; ring.
Qed.
(* an inverse is a matrix whose columns solve for the unit vectors *)
Lemma m22_inverse_ok (m : mat22 R) :
  det2 (vx (m2x m)) (vx (m2y m)) (vy (m2x m)) (vy (m2y m)) <> 0 ->
  solves2 (vx (m2x m)) (vx (m2y m)) (vy (m2x m)) (vy (m2y m)) (m2x (m22_inverse m)) (V2 1 0) /\
  solves2 (vx (m2x m)) (vx (m2y m)) (vy (m2x m)) (vy (m2y m)) (m2y (m22_inverse m)) (V2 0 1).
Proof.
  unfold det2, solves2, m22_inverse. intros H. rops. rcase; [contradiction|]. cbn [negb].
  repeat split; field; exact H.
Qed.
Lemma m22_inverse_singular (m : mat22 R) :
  det2 (vx (m2x m)) (vx (m2y m)) (vy (m2x m)) (vy (m2y m)) = 0 -> m22_inverse m = M22 (V2 0 0) (V2 0 0).
Proof.
  unfold det2, m22_inverse. intros H. rops. rewrite H. rcase; [|contradiction]. cbn [negb].
  f_equal; apply vec2_ext; rops; ring.
Qed.
Lemma inverse22_ok (m : mat33 R) :
  det2 (v3x (m3x m)) (v3x (m3y m)) (v3y (m3x m)) (v3y (m3y m)) <> 0 ->
  let i := get_inverse22 m in
  solves2 (v3x (m3x m)) (v3x (m3y m)) (v3y (m3x m)) (v3y (m3y m)) (V2 (v3x (m3x i)) (v3y (m3x i))) (V2 1 0) /\
  solves2 (v3x (m3x m)) (v3x (m3y m)) (v3y (m3x m)) (v3y (m3y m)) (V2 (v3x (m3y i)) (v3y (m3y i))) (V2 0 1) /\
  v3z (m3x i) = 0 /\ v3z (m3y i) = 0 /\ m3z i = V3 0 0 0.
Proof.
  unfold det2, solves2, get_inverse22. intros H. rops. rcase; [contradiction|]. cbn [negb].
  repeat split; field; exact H.
Qed.
Lemma inverse22_singular (m : mat33 R) :
  det2 (v3x (m3x m)) (v3x (m3y m)) (v3y (m3x m)) (v3y (m3y m)) = 0 -> get_inverse22 m = M33 (V3 0 0 0) (V3 0 0 0) (V3 0 0 0).
Proof.
  unfold det2, get_inverse22. intros H. rops. rewrite H. rcase; [|contradiction]. cbn [negb].
  f_equal; apply vec3_ext; rops; ring.
Qed.
Lemma sym_inverse33_ok (m : mat33 R) : symmetric3 m -> det3 m <> 0 ->
  let i := get_sym_inverse33 m in
  solves3 m (m3x i) (V3 1 0 0) /\ solves3 m (m3y i) (V3 0 1 0) /\ solves3 m (m3z i) (V3 0 0 1).
Proof.
  intros (S1 & S2 & S3) H. unfold get_sym_inverse33. rewrite det3_triple. rops. rcase; [contradiction|]. cbn [negb].
  unfold solves3. rops. unfold det3 in *. rewrite S1, S2, S3 in *. repeat split; field; exact H.
Qed.
Lemma sym_inverse33_singular (m : mat33 R) : det3 m = 0 -> get_sym_inverse33 m = M33 (V3 0 0 0) (V3 0 0 0) (V3 0 0 0).
Proof.
  intros H. unfold get_sym_inverse33. rewrite det3_triple, H. rops. rcase; [|contradiction]. cbn [negb].
  f_equal; apply vec3_ext; rops; ring.
Qed.

(** ** sweeps *)
Lemma sweep_pose (s : sweep R) (beta : R) :
  pose_at (sw_local_center s) (V2 ((1 - beta) * vx (sw_c0 s) + beta * vx (sw_c s)) ((1 - beta) * vy (sw_c0 s) + beta * vy (sw_c s)))
    ((1 - beta) * sw_a0 s + beta * sw_a s) (sweep_get_transform s beta).
Proof. unfold pose_at, sweep_get_transform, rot_of. rmathc. split; [reflexivity|]. split; ring. Qed.
Lemma pose_fun lc c a x c' a' : pose_at lc c a x -> c = c' -> a = a' -> pose_at lc c' a' x.
Proof. intros; now subst. Qed.
Lemma sweep_pose0 (s : sweep R) : pose_at (sw_local_center s) (sw_c0 s) (sw_a0 s) (sweep_get_transform s 0).
Proof. eapply pose_fun; [apply sweep_pose| |ring]. apply vec2_ext; rops; ring. Qed.
Lemma sweep_pose1 (s : sweep R) : pose_at (sw_local_center s) (sw_c s) (sw_a s) (sweep_get_transform s 1).
Proof. eapply pose_fun; [apply sweep_pose| |ring]. apply vec2_ext; rops; ring. Qed.
Lemma sweep_advance_ok (s : sweep R) (alpha : R) : sw_alpha0 s < 1 ->
  exists s', sweep_advance s alpha = Ok s' /\ sw_alpha0 s' = alpha /\
    sw_c s' = sw_c s /\ sw_a s' = sw_a s /\ sw_local_center s' = sw_local_center s /\
    forall t, sweep_get_transform s' t =
      sweep_get_transform s ((1 - t) * ((alpha - sw_alpha0 s) / (1 - sw_alpha0 s)) + t).
Proof.
  intros H. unfold sweep_advance. rops. rewrite Rlt_bool_true by exact H. cbn [b2_assert bind].
  eexists. split; [reflexivity|]. rops. repeat split; try reflexivity.
  intros t. unfold sweep_get_transform, rot_of. rmathc.
  set (b := (alpha - sw_alpha0 s) / (1 - sw_alpha0 s)).
  assert (E : (1 - t) * (sw_a0 s + b * (sw_a s - sw_a0 s)) + t * sw_a s = (1 - ((1 - t) * b + t)) * sw_a0 s + ((1 - t) * b + t) * sw_a s) by ring.
  rewrite E. f_equal. apply vec2_ext; rops; ring.
Qed.
Lemma sweep_advance_panics (s : sweep R) (alpha : R) : 1 <= sw_alpha0 s -> sweep_advance s alpha = Panic.
Proof. intros H. unfold sweep_advance. rops. now rewrite Rlt_bool_false by exact H. Qed.

Lemma sin_shift x (k : Z) : sin (x - 2 * PI * IZR k) = sin x /\ cos (x - 2 * PI * IZR k) = cos x.
Proof.
  assert (P : forall n y, sin (y + 2 * INR n * PI) = sin y /\ cos (y + 2 * INR n * PI) = cos y) by (intros; split; [apply sin_period|apply cos_period]).
  destruct (Z_le_gt_dec 0 k) as [Hk|Hk].
  - destruct (P (Z.to_nat k) (x - 2 * PI * IZR k)) as [A B]. rewrite INR_IZR_INZ, Z2Nat.id in A, B by lia.
    replace (x - 2 * PI * IZR k + 2 * IZR k * PI) with x in A, B by ring. now split.
  - destruct (P (Z.to_nat (- k)) x) as [A B]. rewrite INR_IZR_INZ, Z2Nat.id, opp_IZR in A, B by lia.
    replace (x + 2 * - IZR k * PI) with (x - 2 * PI * IZR k) in A, B by ring. now split.
Qed.
Lemma sweep_normalize_ok (s : sweep R) :
  let s' := sweep_normalize s in
  0 <= sw_a0 s' < 2 * PI /\ sw_a s' - sw_a0 s' = sw_a s - sw_a0 s /\ forall t, sweep_get_transform s' t = sweep_get_transform s t.
Proof.
  unfold sweep_normalize, B2_PI. rops. set (k := Zfloor (sw_a0 s / (2 * PI))).
  pose proof PI_RGT_0 as Hpi.
  assert (Hk : IZR k <= sw_a0 s / (2 * PI) < IZR k + 1). { split; [apply Zfloor_lb|apply Zfloor_ub]. }
  assert (Hd : sw_a0 s = sw_a0 s / (2 * PI) * (2 * PI)) by (field; lra).
  split; [|split; [ring|]].
  - split; [|]; rewrite Hd at 1; nra.
  - intros t. unfold sweep_get_transform, rot_of. rmathc.
    replace ((1 - t) * (sw_a0 s - 2 * PI * IZR k) + t * (sw_a s - 2 * PI * IZR k)) with ((1 - t) * sw_a0 s + t * sw_a s - 2 * PI * IZR k) by ring.
    destruct (sin_shift ((1 - t) * sw_a0 s + t * sw_a s) k) as [-> ->]. reflexivity.
Qed.

(** ** clamp *)
Section Clamp.
  Context {T : Type} `{NO : NumOrd T}.
  Lemma clamp_ok (a low high : T) : nok a -> nle low high = true ->
    nle low (b2_clamp a low high) = true /\ nle (b2_clamp a low high) high = true /\
    (nle low a = true -> nle a high = true -> nle (b2_clamp a low high) a = true /\ nle a (b2_clamp a low high) = true).
  Proof.
    intros Ha Hlh. destruct (nle_ok _ _ Hlh) as [Hl Hh]. unfold b2_clamp, b2_max, b2_min.
    destruct (nlt a high) eqn:E1.
    - assert (L1 : nle a high = true). { rewrite nlt_nle in E1 by auto. apply negb_true_iff in E1. destruct (nle_total a high Ha Hh); congruence. }
      destruct (nlt a low) eqn:E2.
      + rewrite nlt_nle in E2 by auto. apply negb_true_iff in E2. split; [now apply nle_refl|]. split; [exact Hlh|congruence].
      + rewrite nlt_nle in E2 by auto. apply negb_false_iff in E2. repeat split; auto using nle_refl.
    - rewrite nlt_nle in E1 by auto. apply negb_false_iff in E1.
      assert (E2 : nlt high low = false). { rewrite nlt_nle by auto. now rewrite Hlh. }
      rewrite E2. repeat split; auto using nle_refl.
  Qed.
End Clamp.

(** ** mixing laws *)
Lemma mix_geo a b : 0 <= a -> 0 <= b -> a <= b -> a <= sqrt (a * b) <= b.
Proof.
  intros Ha Hb Hab. split.
  - rewrite <- (sqrt_square a) at 1 by exact Ha. apply sqrt_le_1_alt. nra.
  - rewrite <- (sqrt_square b) at 2 by exact Hb. apply sqrt_le_1_alt. nra.
Qed.

(** ** powers of two *)
Local Open Scope Z_scope.
Definition has (v : Z) (n : Z) (x : Z) : Prop := forall i, 0 <= i -> (Z.testbit x i = true <-> exists j, 0 <= j < n /\ Z.testbit v (i + j) = true).
Lemma has_fold v n x : 0 < n -> has v n x -> has v (n + n) (Z.lor x (Z.shiftr x n)).
Proof.
  intros Hn H i Hi. rewrite Z.lor_spec, Z.shiftr_spec, orb_true_iff by lia. rewrite (H i Hi), (H (i + n)) by lia. split.
  - intros [(j & Hj & E)|(j & Hj & E)]; [exists j|exists (n + j)]; (split; [lia|]); [exact E|]. now replace (i + (n + j)) with (i + n + j) by lia.
  - intros (j & Hj & E). destruct (Z_lt_ge_dec j n).
    + left. exists j. split; [lia|exact E].
    + right. exists (j - n). split; [lia|]. now replace (i + n + (j - n)) with (i + j) by lia.
Qed.
Lemma fold_bits v : 0 <= v < 2 ^ 32 ->
  let x := v in
  let x := Z.lor x (Z.shiftr x 1) in
  let x := Z.lor x (Z.shiftr x 2) in
  let x := Z.lor x (Z.shiftr x 4) in
  let x := Z.lor x (Z.shiftr x 8) in
  let x := Z.lor x (Z.shiftr x 16) in
  has v 32 x.
Proof.
  intros Hv. cbv zeta. apply (has_fold v 16); [lia|]. apply (has_fold v 8); [lia|]. apply (has_fold v 4); [lia|].
  apply (has_fold v 2); [lia|]. apply (has_fold v 1); [lia|].
  intros i Hi. split. intros E; exists 0; split; [lia|]; now rewrite Z.add_0_r.
  intros (j & Hj & E). now replace (i + j) with i in E by lia.
Qed.
Lemma has_ones v x : 0 < v < 2 ^ 32 -> 0 <= x -> has v 32 x -> x = Z.ones (Z.log2 v + 1).
Proof.
  intros Hv Hx H. assert (L : 0 <= Z.log2 v < 32). { split; [apply Z.log2_nonneg|]. apply Z.log2_lt_pow2; lia. }
  apply Z.bits_inj'. intros i Hi. rewrite Z.testbit_ones_nonneg by lia.
  destruct (Z.ltb_spec i (Z.log2 v + 1)).
  - apply H; [exact Hi|]. exists (Z.log2 v - i). split; [lia|]. replace (i + (Z.log2 v - i)) with (Z.log2 v) by lia. apply Z.bit_log2. lia.
  - destruct (Z.testbit x i) eqn:E; [|reflexivity]. apply (H i Hi) in E. destruct E as (j & Hj & E).
    rewrite Z.bits_above_log2 in E; [discriminate|lia|lia].
Qed.
Lemma fold_nonneg x s : 0 <= x -> 0 <= Z.lor x (Z.shiftr x s).
Proof. intros. apply Z.lor_nonneg. split; [lia|]. now apply Z.shiftr_nonneg. Qed.
Lemma next_pow2_value v : 0 <= v < 2 ^ 31 -> exists x, b2_next_power_of_two v = Ok x /\ x = if v =? 0 then 1 else 2 ^ (Z.log2 v + 1).
Proof.
  intros Hv. destruct (Z.eqb_spec v 0) as [->|Hz]; [exists 1; now split|].
  unfold b2_next_power_of_two. cbv zeta.
  rewrite (has_ones v (Z.lor _ (Z.shiftr _ 16))); [|lia|repeat apply fold_nonneg; lia|apply fold_bits; lia].
  rewrite Z.ones_equiv. replace (Z.pred (2 ^ (Z.log2 v + 1)) + 1) with (2 ^ (Z.log2 v + 1)) by lia.
  assert (2 ^ (Z.log2 v + 1) < 2 ^ 32). { apply Z.pow_lt_mono_r; try lia. assert (Z.log2 v < 31); [apply Z.log2_lt_pow2; lia|lia]. }
  destruct (Z.ltb_spec (2 ^ (Z.log2 v + 1)) (2 ^ 32)); [|lia]. eexists. split; reflexivity.
Qed.
Lemma next_pow2_ok v : 0 <= v < 2 ^ 31 -> exists x, b2_next_power_of_two v = Ok x /\ least_pow2_above v x.
Proof.
  intros Hv. destruct (next_pow2_value v Hv) as (x & E & Hx). exists x. split; [exact E|]. clear E.
  destruct (Z.eqb_spec v 0) as [->|Hz].
  - subst x. split; [exists 0; split; [lia|reflexivity]|]. split; [lia|]. intros; lia.
  - subst x. pose proof (Z.log2_nonneg v). destruct (Z.log2_spec v ltac:(lia)) as [L1 L2]. split; [exists (Z.log2 v + 1); split; [lia|reflexivity]|]. split; [exact L2|].
    intros y (k & Hk & ->) Hvy. apply Z.pow_le_mono_r; [lia|]. assert (Z.log2 v < k); [|lia]. apply Z.log2_lt_pow2; lia.
Qed.
Lemma next_pow2_overflow v : 2 ^ 31 <= v < 2 ^ 32 -> b2_next_power_of_two v = Panic.
Proof.
  intros Hv. unfold b2_next_power_of_two. cbv zeta.
  rewrite (has_ones v (Z.lor _ (Z.shiftr _ 16))); [|lia|repeat apply fold_nonneg; lia|apply fold_bits; lia].
  replace (Z.log2 v) with 31; [reflexivity|]. symmetry. apply Z.log2_unique; lia.
Qed.
Lemma is_pow2_ok x : 0 <= x -> (b2_is_power_of_two x = true <-> pow2 x).
Proof.
  intros Hx. unfold b2_is_power_of_two. rewrite andb_true_iff, Z.ltb_lt, Z.eqb_eq. split.
  - intros [H0 HL]. exists (Z.log2 x). split; [apply Z.log2_nonneg|]. destruct (Z.log2_spec x H0) as [L1 L2].
    destruct (Z.eq_dec x (2 ^ Z.log2 x)) as [E|E]; [exact E|exfalso].
    assert (B : Z.testbit (Z.land x (x - 1)) (Z.log2 x) = true); [|rewrite HL, Z.bits_0 in B; discriminate].
    rewrite Z.land_spec, Z.bit_log2 by lia. cbn [andb]. replace (Z.log2 x) with (Z.log2 (x - 1)); [apply Z.bit_log2; pose proof (Z.pow_pos_nonneg 2 (Z.log2 x)); pose proof (Z.log2_nonneg x); lia|].
    apply Z.log2_unique; [apply Z.log2_nonneg|]. rewrite Z.pow_succ_r in L2 by apply Z.log2_nonneg. rewrite Z.pow_succ_r by apply Z.log2_nonneg. lia.
  - intros (k & Hk & ->). split; [apply Z.pow_pos_nonneg; lia|].
    replace (2 ^ k - 1) with (Z.ones k) by (rewrite Z.ones_equiv; lia). rewrite Z.land_ones by lia. apply Z.mod_same. assert (0 < 2 ^ k) by (apply Z.pow_pos_nonneg; lia). lia.
Qed.
