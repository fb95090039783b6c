(** Examples and counterexamples for Prop_Joint. *)
From Coq Require Import List ZArith Reals Lra Lia Bool Arith.
From Flocq Require Import Core.
From Verif Require Import Base Num NumLaws Math RTac Manifold Filter DynModel SolverModel IslandModel SolverSpec SolverProofs SolverReal SolverPos SolverExamples JointModel JointSpec JointProofs JointTotal JointReal JointHeld JointLimit.
Import ListNotations.

Section Ex.
  Context {T : Type} {NT : Num T}.
  Definition z2 : vec2 T := vzero.
  Definition zm : mat22 T := M22 z2 z2.
  Definition z0 : T := nofZ 0.
  Definition ex_below : vec2 T := V2 z0 (nlit (-1) 2).
  Definition ex_above : vec2 T := V2 z0 (nlit 1 2).
  Definition ex_right : vec2 T := V2 (nofZ 1) z0.
  Definition ex_up : vec2 T := V2 z0 (nofZ 1).
  (* the joints between the two bodies of ex_pair; all of them start without impulses *)
  Definition ex_rev (lower upper torque : T) : jkind T := JRevolute (RevDef ex_above ex_below z0 true lower upper true (nofZ 9) torque) (RevImp z2 z0 z0 z0) (RevFr z2 z2 zm z0 z0).
  Definition ex_pri (lower upper force : T) : jkind T := JPrismatic (PriDef ex_above ex_below ex_right ex_up z0 true lower upper true (nofZ 9) force) (PriImp z2 z0 z0 z0) (PriFr z2 z2 z0 z0 z0 z0 zm z0 z0).
  Definition ex_whe (lower upper torque : T) : jkind T := JWheel (WheDef ex_above ex_below ex_right ex_up true lower upper true (nofZ 9) torque (nofZ 1) (nofZ 1)) (WheImp z0 z0 z0 z0 z0) (WheFr z2 z2 z0 z0 z0 z0 z0 z0 z0 z0 z0 z0 z0).
  Definition ex_dis (short long : T) : jkind T := JDistance (DisDef z2 z2 (nofZ 1) short long z0 z0) (DisImp z0 z0 z0) (DisFr z2 z2 z2 z0 z0 z0 z0 z0).
  Definition ex_wel : jkind T := JWeld (WelDef ex_above ex_below z0 z0 z0) (V3 z0 z0 z0) (WelFr z2 z2 (M33 (V3 z0 z0 z0) (V3 z0 z0 z0) (V3 z0 z0 z0)) z0 z0).
  Definition ex_fri (most : T) : jkind T := JFriction (FriDef ex_above ex_below most most) (LinImp z2 z0) (FriFr z2 z2 zm z0).
  Definition ex_mot (most : T) : jkind T := JMotor (MotDef ex_up z0 most most (nlit 1 2)) (LinImp z2 z0) (MotFr z2 z2 z2 z0 zm z0).
  Definition ex_mou (most : T) : jkind T := JMouse (MouDef ex_above ex_right (nofZ 1) (nofZ 1) most) z2 (MouFr z2 zm z2 z0).
  Definition ex_held (m : T) (v : vec2 T) (k : jkind T) : jin T :=
    let a := ex_piece DynamicBody 0 (nofZ 0) m (V2 (nofZ 1) (nofZ 0)) (nofZ 0) (nofZ 0) in
    let b := ex_piece DynamicBody 1 (nofZ 1) m v (nofZ 1) (nofZ 0) in
    JIn (Jnt k (com_of a b) (com_of a b)) a b a b.
  Definition ex_joints (m : T) (v : vec2 T) : list (jin T) := map (ex_held m v)
    [ex_rev (nlit 1 2) (nofZ 1) (nofZ 1); ex_pri (nofZ 1) (nofZ 2) (nofZ 1); ex_whe (nofZ 1) (nofZ 2) (nofZ 1); ex_dis (nlit 1 2) (nlit 3 4); ex_wel; ex_fri (nofZ 1); ex_mot (nofZ 1); ex_mou (nofZ 1)].
  Lemma ex_jointed m v : Forall (jointed 2) (ex_joints m v).
  Proof. repeat constructor; unfold in_island; cbn; lia. Qed.
End Ex.

(** C37: a motor and a friction joint at their limit *)
Definition near_limit (most x : f32) : bool := nle (nmul (nlit 1 60) most) (nabs x).
Definition ex_run (ks : list (jkind f32)) : res (list (jin f32) * list (vel f32)) :=
  @joint_phase f32 _ flat_trig (ex_step 8) 8 (map (ex_held (nofZ 2) (V2 (nofZ 0) (nofZ (-3)))) ks) (map body_pos (ex_pair (nofZ 2) (V2 (nofZ 0) (nofZ (-3))))) (map body_vel (ex_pair (nofZ 2) (V2 (nofZ 0) (nofZ (-3))))).
Definition ran (f : jkind f32 -> bool) (ks : list (jkind f32)) : bool := match ex_run ks with Ok (js, _) => forallb (fun x => f (j_kind (ji_joint x))) js | _ => false end.
Definition works (k : jkind f32) : bool := match k with
  | JRevolute d i _ => near_limit (rv_torque d) (rv_im i)
  | JPrismatic d i _ => near_limit (pr_force d) (pr_im i)
  | JWheel d i _ => near_limit (wh_torque d) (wh_im i)
  | JFriction d i _ => near_limit (fr_torque d) (li_a i)
  | JMotor d i _ => near_limit (mo_torque d) (li_a i)
  | _ => false end.
Lemma works_ok : forallb (fun k => ran works [k]) [ex_rev (nlit 1 2) (nofZ 1) (nofZ 1); ex_pri (nofZ 1) (nofZ 2) (nofZ 1); ex_whe (nofZ 1) (nofZ 2) (nofZ 1); ex_fri (nofZ 1); ex_mot (nofZ 1)] = true.
Proof. vm_compute. reflexivity. Qed.
(** C38: limits that push *)
Definition pushes (k : jkind f32) : bool := existsb (fun x => nlt (nofZ 0) x) (limit_impulses k).
Lemma pushes_ok : forallb (fun k => ran pushes [k]) [ex_rev (nofZ (-2)) (nofZ (-1)) (nofZ 1); ex_pri (nofZ 1) (nofZ 2) (nofZ 1); ex_whe (nofZ 1) (nofZ 2) (nofZ 1); ex_dis (nofZ 1) (nofZ 2)] = true.
Proof. vm_compute. reflexivity. Qed.
Lemma ex_only_pushes : Forall (fun x => only_pushes (ji_joint x)) (ex_joints (T := f32) (nofZ 2) (V2 (nofZ 0) (nofZ (-3)))) /\ not_negative (ts_ratio (T := f32) (ex_step 8)).
Proof. split; [|reflexivity]. repeat constructor. Qed.

(** real numbers *)
Local Open Scope R_scope.
Definition ex_move : vec2 R := V2 0 (-3).
Lemma real_joints {TT : NumTrig R} ks : Forall (jointed 2) (map (ex_held 2 ex_move) ks) -> exists js vels, joint_phase (ex_step 8) 8 (map (ex_held 2 ex_move) ks) (map body_pos (ex_pair 2 ex_move)) (map body_vel (ex_pair 2 ex_move)) = Ok (js, vels).
Proof. intros F. destruct (joints_return (ex_step 8) 8 (map (ex_held 2 ex_move) ks) (map body_pos (ex_pair 2 ex_move)) (map body_vel (ex_pair 2 ex_move)) eq_refl F) as (js & vels & E & _). eauto. Qed.
Definition ex_kinds : list (jkind R) := [ex_rev (1 / 2) 1 1; ex_pri 1 2 1; ex_whe 1 2 1; ex_dis (1 / 2) (3 / 4); ex_wel; ex_fri 1; ex_mot 1].
Lemma ex_kinds_run {TT : NumTrig R} : exists js vels, joint_phase (ex_step 8) 8 (map (ex_held 2 ex_move) ex_kinds) (map body_pos (ex_pair 2 ex_move)) (map body_vel (ex_pair 2 ex_move)) = Ok (js, vels).
Proof. apply real_joints. repeat constructor; unfold in_island; cbn; lia. Qed.
Lemma held_connects (P : body R -> Prop) k : (forall ty i y v w t, P (ex_piece ty i y 2 v w t)) -> two_bodies k = true -> connects P (ex_pair 2 ex_move) (ex_held 2 ex_move k).
Proof. intros H K. exists 0%nat, 1%nat. repeat split; try reflexivity; try discriminate; try apply H. exact K. Qed.
Lemma ex_connects : Forall (connects heavy (ex_pair 2 ex_move)) (map (ex_held 2 ex_move) ex_kinds).
Proof. repeat constructor; apply held_connects; auto; intros; apply piece_finite. Qed.
Lemma ex_meet : Forall (fun x => connects finite_mass (ex_pair 2 ex_move) x /\ anchors_meet x) (map (ex_held 2 ex_move) ex_kinds).
Proof.
  repeat constructor; try (apply held_connects; auto; intros; apply piece_finite); unfold anchors_meet, ex_held, ex_rev, ex_wel, ex_fri, ex_mot, place, ex_piece, ex_above, ex_below, ex_up, z0, nlit; cbn; rewrite sin_0, cos_0; f_equal; lra.
Qed.
(** C40 *)
Definition ex_rigid : list (jkind R) := [ex_rev (1 / 2) 1 1; ex_wel; ex_dis 1 1; ex_pri 1 2 1; ex_whe 1 2 1].
Lemma piece_moves v w t v' w' t' : can_move (ex_piece (T := R) DynamicBody 0 0 2 v w t) (ex_piece DynamicBody 1 1 2 v' w' t').
Proof. unfold can_move, ex_piece. cbn. destruct (Req_bool_spec 2 0); lra. Qed.
Definition pa0 : pos R := Pos (V2 0 0) 0.
Definition pb0 : pos R := Pos (V2 0 1) 0.
Lemma slop_small : (B2_LINEAR_SLOP : R) < 1.
Proof. unfold B2_LINEAR_SLOP, B2_LINEAR_SLOP, nlit. cbn. lra. Qed.
Lemma ex_direction : Forall (fun k => has_direction k (ji_a (ex_held 2 ex_move k)) (ji_b (ex_held 2 ex_move k)) pa0 pb0) ex_rigid.
Proof.
  assert (U : dot (ex_up (T := R)) ex_up = 1) by (unfold dot, ex_up, z0; cbn; ring).
  apply Forall_cons; [exact I|]. apply Forall_cons; [exact I|]. apply Forall_cons; [|apply Forall_cons; [exact U|apply Forall_cons; [exact U|constructor]]].
  cbn [has_direction ex_dis]. match goal with |- _ < ?x => replace x with 1; [apply slop_small|] end. unfold size, minus, at_arm, arm, turned, ex_piece, ex_held, z2, pa0, pb0. cbn. rewrite sin_0, cos_0. rmathc. match goal with |- 1 = sqrt ?x => replace x with 1 by ring end. symmetry. apply sqrt_1.
Qed.
Lemma ex_rigid_run : Forall (fun k => exists js vels, joint_phase (ex_step 8) 8 ([ex_held 2 ex_move ex_wel] ++ [ex_held 2 ex_move k]) (map body_pos (ex_pair 2 ex_move)) (map body_vel (ex_pair 2 ex_move)) = Ok (js, vels)) ex_rigid.
Proof. repeat constructor; match goal with |- exists js vels, joint_phase _ _ ([_] ++ [ex_held 2 ex_move ?k]) _ _ = _ => apply (real_joints [ex_wel; k]) end; repeat constructor; unfold in_island; cbn; lia. Qed.

(** C61 *)
Lemma on_pos_pair (f : pos R * pos R -> (pos R * pos R) * bool) c pa pb qa qb o : jc_a c = 0%Z -> jc_b c = 1%Z -> f (pa, pb) = ((qa, qb), o) -> on_pos c f [pa; pb] = Ok ([qa; qb], o).
Proof. intros A B E. unfold on_pos. rewrite A, B. change (zget [pa; pb] 0%Z) with (Ok pa). change (zget [pa; pb] 1%Z) with (Ok pb). cbn [bind]. rewrite E. reflexivity. Qed.
Lemma corrected_runs k a b pa pb : b_island_index a = 0%Z -> b_island_index b = 1%Z -> (match k with JPrismatic _ _ _ | JWheel _ _ _ => True | _ => False end) -> exists pa' pb' okay, corrected k a b pa pb pa' pb' okay.
Proof.
  intros A B K. destruct k; try contradiction.
  - destruct (pri_pos d (com_of a b) (pa, pb)) as [[qa qb] o] eqn:E. exists qa, qb, o, (com_of a b), [pa; pb], [qa; qb]. rewrite A, B. split; [discriminate|]. split; [reflexivity|]. split; [reflexivity|]. split; [|auto]. apply on_pos_pair; auto.
  - destruct (whe_pos d (com_of a b) f (pa, pb)) as [[qa qb] o] eqn:E. exists qa, qb, o, (com_of a b), [pa; pb], [qa; qb]. rewrite A, B. split; [discriminate|]. split; [reflexivity|]. split; [reflexivity|]. split; [|auto]. apply on_pos_pair; auto.
Qed.
(* a body that cannot turn *)
Definition ex_stiff (i : Z) : body R :=
  Body DynamicBody (BFlags true true true false true true false) i (Xf vzero (Rot 0 1)) (Sweep vzero vzero vzero 0 0 0) vzero 0 vzero 0 [] 0 [] [] 1 1 0 0 0 0 1 0.
Lemma stiff_moves : can_move (ex_stiff 0) (ex_stiff 1).
Proof. unfold can_move. cbn. repeat split; lra. Qed.
(* a joint with both limits at l, its anchors at the centers *)
Definition pin_pri (l : R) : jkind R := JPrismatic (PriDef vzero vzero (V2 1 0) (V2 0 1) 0 true l l false 0 0) (PriImp z2 0 0 0) (PriFr z2 z2 0 0 0 0 zm 0 0).
Definition pin_whe (l : R) : jkind R := JWheel (WheDef vzero vzero (V2 1 0) (V2 0 1) true l l false 0 0 0 0) (WheImp 0 0 0 0 0) (WheFr z2 z2 0 0 0 0 0 0 0 0 0 0 0).
Definition px (x : R) : pos R := Pos (V2 x 0) 0.
Lemma pin_axes l : proper_axes (pin_pri l) /\ proper_axes (pin_whe l).
Proof. unfold proper_axes, pin_pri, pin_whe, dot. cbn. repeat split; try lra; f_equal; lra. Qed.
Lemma pin_slide l x k : k = pin_pri l \/ k = pin_whe l -> slide k (ex_stiff 0) (ex_stiff 1) (px 0) (px x) = x.
Proof. intros [-> | ->]; unfold slide, slide_along, dot, turned, minus, at_arm, arm, turned, px; cbn; rewrite sin_0, cos_0; ring. Qed.
Lemma pin_okay l k pa' pb' okay : k = pin_pri l \/ k = pin_whe l -> corrected k (ex_stiff 0) (ex_stiff 1) (px 0) (px 0) pa' pb' okay -> okay = true.
Proof.
  pose proof slop_pos as SP. assert (AS : 0 < (B2_ANGULAR_SLOP : R)) by (unfold B2_ANGULAR_SLOP, B2_PI, nlit; cbn; pose proof PI_RGT_0; lra).
  assert (Z : Rabs (l - l) < 2 * B2_LINEAR_SLOP) by (replace (l - l) with 0 by ring; rewrite Rabs_R0; lra).
  intros K C. pose proof (pin_slide l 0 k K) as S. destruct K as [-> | ->].
  - apply corrected_pri in C. unfold pri_pos in C. cbn [jc_lca jc_lcb com_of] in C.
    match type of C with context [pri_limit_error ?d ?x ?e] => assert (X : x = 0) by (exact (eq_trans (pri_slide d (PriImp z2 0 0 0) (PriFr z2 z2 0 0 0 0 zm 0 0) (ex_stiff 0) (ex_stiff 1) (px 0) (px 0)) S)); assert (Q : e = 0) by (rmathc; cbn; rewrite ?sin_0, ?cos_0; match goal with |- Rabs ?y = 0 => replace y with 0 by ring; apply Rabs_R0 end); rewrite X, Q in C; clear X Q end.
    unfold pri_limit_error in C. cbn [pr_limit pr_upper pr_lower] in C. rops. rewrite Rlt_bool_true in C by exact Z.
    apply (f_equal snd) in C. cbn [snd vy] in C. rewrite <- C. rops. rewrite b2_max_R, Rabs_R0, Rmax_left by lra. unfold px. cbn [p_a pr_ref]. replace (0 - 0 - 0) with 0 by ring. rewrite Rabs_R0. apply andb_true_intro. split; apply Rle_bool_true; lra.
  - apply corrected_whe in C. unfold whe_pos in C. cbn [wh_limit] in C. unfold whe_pos_limit in C. cbn [jc_lca jc_lcb com_of] in C.
    match type of C with context [whe_limit_error ?d ?x] => assert (X : x = 0) by (exact (eq_trans (whe_slide d (WheImp 0 0 0 0 0) (WheFr z2 z2 0 0 0 0 0 0 0 0 0 0 0) (ex_stiff 0) (ex_stiff 1) (px 0) (px 0)) S)); rewrite X in C; clear X end.
    rewrite whe_error_ok in C. unfold limit_error in C. cbn [wh_lower wh_upper] in C. rewrite Rlt_bool_true in C by exact Z. rops. rewrite Req_bool_true in C by reflexivity. cbn [negb] in C.
    apply (f_equal snd) in C. cbn [snd] in C. rewrite <- C. apply Rle_bool_true. rewrite b2_max_R. rmathc. cbn. rewrite ?sin_0, ?cos_0. match goal with |- Rmax 0 (Rabs ?y) <= _ => replace y with 0 by ring end. rewrite Rabs_R0, Rmax_left; lra.
Qed.
Lemma pin_limits l : slide_limits (pin_pri l) = Some (l, l) /\ slide_limits (pin_whe l) = Some (l, l).
Proof. auto. Qed.
Lemma pin_equal (l : R) : Rabs (l - l) < 2 * B2_LINEAR_SLOP.
Proof. pose proof slop_pos. replace (l - l) with 0 by ring. rewrite Rabs_R0. lra. Qed.
Definition pins (k : R -> jkind R) : Prop := k = pin_pri \/ k = pin_whe.
Lemma pin_either k l : pins k -> proper_axes (k l) /\ slide_limits (k l) = Some (l, l) /\ (k l = pin_pri l \/ k l = pin_whe l) /\ (match k l with JPrismatic _ _ _ | JWheel _ _ _ => True | _ => False end).
Proof. destruct (pin_axes l), (pin_limits l). intros [-> | ->]; (split; [assumption|split; [assumption|split; [auto|exact I]]]). Qed.
Lemma pin_converges k : pins k -> exists a b pa pb pa' pb', can_move a b /\ proper_axes (k 1) /\ slide_limits (k 1) = Some (1, 1) /\ corrected (k 1) a b pa pb pa' pb' true /\ slide (k 1) a b pa pb = 0.
Proof.
  intros K. destruct (pin_either k 1 K) as (A & L & E & Ty). destruct (corrected_runs (k 1) (ex_stiff 0) (ex_stiff 1) (px 0) (px 0) eq_refl eq_refl Ty) as (pa' & pb' & o & C). pose proof (pin_okay 1 (k 1) pa' pb' o E C) as ->.
  exists (ex_stiff 0), (ex_stiff 1), (px 0), (px 0), pa', pb'. refine (conj stiff_moves (conj A (conj L (conj C _)))). now apply (pin_slide 1).
Qed.
Lemma pin_leaves k : pins k -> exists a b pa pb pa' pb' okay, can_move a b /\ proper_axes (k 1) /\ slide_limits (k 1) = Some (1, 1) /\ corrected (k 1) a b pa pb pa' pb' okay /\ slide (k 1) a b pa pb = 1 /\ slide (k 1) a b pa' pb' = 0.
Proof.
  intros K. destruct (pin_either k 1 K) as (A & L & E & Ty). destruct (corrected_runs (k 1) (ex_stiff 0) (ex_stiff 1) (px 0) (px 1) eq_refl eq_refl Ty) as (pa' & pb' & o & C).
  exists (ex_stiff 0), (ex_stiff 1), (px 0), (px 1), pa', pb', o. refine (conj stiff_moves (conj A (conj L (conj C (conj _ _))))); [now apply (pin_slide 1)|]. eapply fixed_equal; eauto using stiff_moves, pin_equal.
Qed.
Lemma pin_run k l x : pins k -> exists pa' pb' okay, corrected (k l) (ex_stiff 0) (ex_stiff 1) (px 0) (px x) pa' pb' okay.
Proof. intros K. destruct (pin_either k l K) as (_ & _ & _ & Ty). now apply corrected_runs. Qed.
Lemma pin_zero k : pins k -> exists pa' pb', corrected (k 0) (ex_stiff 0) (ex_stiff 1) (px 0) (px 0) pa' pb' true.
Proof. intros K. destruct (pin_run k 0 0 K) as (pa' & pb' & o & C). destruct (pin_either k 0 K) as (_ & _ & E & _). pose proof (pin_okay 0 (k 0) pa' pb' o E C) as ->. eauto. Qed.
Definition range_pri : jkind R := JPrismatic (PriDef vzero vzero (V2 1 0) (V2 0 1) 0 true 1 2 false 0 0) (PriImp z2 0 0 0) (PriFr z2 z2 0 0 0 0 zm 0 0).
Lemma range_ex : can_move (ex_stiff 0) (ex_stiff 1) /\ proper_axes range_pri /\ slide_limits range_pri = Some (1, 2) /\ slide range_pri (ex_stiff 0) (ex_stiff 1) (px 0) (px 3) = 3 /\ exists pa' pb' okay, corrected range_pri (ex_stiff 0) (ex_stiff 1) (px 0) (px 3) pa' pb' okay.
Proof.
  refine (conj stiff_moves (conj _ (conj eq_refl (conj _ _)))).
  - exact (proj1 (pin_axes 1)).
  - exact (pin_slide 1 3 _ (or_introl eq_refl)).
  - apply corrected_runs; auto. exact I.
Qed.
