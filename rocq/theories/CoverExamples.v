(** Concrete programs for the boxes of the broad phase and the queries: two balls in exact arithmetic, and a static body
    with a velocity in single precision. *)
From Coq Require Import List ZArith Bool Arith Lia Reals Lra.
From Flocq Require Import Core.Raux.
From Verif Require Import Base Num NumLaws RTac Math Collision Manifold Filter GeomSpec ShapeModel ShapeSpec ShapeProofs ListFacts TreeModel TreeSpec BroadModel BroadSpec BroadFinal DynModel WorldModel WorldGraph WorldInv WorldClaims WorldCalls WorldHist WorldReach WorldExamples QueryModel CoverSpec CoverLogic CoverOps CoverToi QuerySpec QueryProofs RayProofs.
Import ListNotations.
Local Open Scope R_scope.

(** ** an environment over the reals: nothing collides, nothing moves *)
Definition r_idle (w : WorldModel.world R) (i : nat) : solved R :=
  match w_bodies w i with
  | Some b => let s := b_sweep b in Solved (sw_c s) (sw_a s) (sw_c s) (sw_a s) (b_lv b) (b_av b) 0
  | None => Solved (V2 0 0) 0 (V2 0 0) 0 (V2 0 0) 0 0
  end.
Definition r_solution (w : WorldModel.world R) : solution R := Solution (r_idle w) (fun _ => []) false.
Definition r_env : env R :=
  Env (fun _ _ _ => true) (fun w e c => CEdit (cf_enabled (c_flags c)) (c_friction c) (c_restitution c) (c_threshold c) (c_tangent_speed c) (c_manifold c))
      (fun _ _ => Panic) (fun _ _ => Panic) (fun _ _ => Panic) (fun w _ _ => Ok (r_solution w)) (fun w _ _ _ _ => Ok (r_solution w)).
Lemma r_answers : answers r_env.
Proof. refine (conj _ (conj _ (conj _ (conj _ _)))); discriminate. Qed.
Lemma r_holds : holds_static r_env.
Proof.
  split; cbn; intros; match goal with K : Ok _ = Ok _ |- _ => injection K as <- end; cbn; unfold r_idle;
    match goal with Hb : w_bodies _ _ = Some _, K : settled _ |- _ => rewrite Hb; destruct K as (K1 & K2 & K3 & K4) end; cbn; unfold stays; cbn; auto 10.
Qed.

(** ** two balls of radius 1, at 0 and at 10 *)
Definition r_body (ty : btype) (x : R) : body_def R := BodyDef ty (V2 x 0) 0 (V2 0 0) 0 0 0 true true false false true 1.
Definition r_circle : shape R := ShCircle (Circle 1 (V2 0 0)).
Definition r_ball : fixture_def R := FixtureDef r_circle (2/10) 0 1 0 false filter_default.
Lemma r_ball_box : box_shape r_circle.
Proof.
  intros xf k a. unfold r_circle, shape_aabb. cbn [bind]. unfold circle_aabb. cbv zeta. intros H. injection H as <-. unfold box_valid. cbn. lra.
Qed.
(* a ball of the world: its body is on, at x *)
Definition r_ball_at (w : WorldModel.world R) (f i : nat) (x : R) : Prop :=
  exists y b, w_fixtures w f = Some y /\ f_body y = Some i /\ f_shape y = r_circle /\ w_bodies w i = Some b /\ is_enabled b = true /\ b_xf b = Xf (V2 x 0) (rot_of 0).
Lemma r_make_body w ty x : w_locked w = false -> exists w', wrun r_env (WCreateBody (r_body ty x)) w = Ok w' /\ w_locked w' = false /\
  w_next_body w' = S (w_next_body w) /\ w_next_fixture w' = w_next_fixture w /\ w_fixtures w' = w_fixtures w /\
  (forall i, i <> w_next_body w -> w_bodies w' i = w_bodies w i) /\
  exists b, w_bodies w' (w_next_body w) = Some b /\ is_enabled b = true /\ b_xf b = Xf (V2 x 0) (rot_of 0).
Proof.
  intros HL. assert (A : Rle_bool 0 0 = true) by (apply Rle_bool_true; lra).
  unfold wrun, create_body. rewrite HL. cbn [negb b2_assert bind]. unfold body_new, r_body.
  cbn [bd_position bd_lv bd_angle bd_av bd_angular_damping bd_linear_damping bd_type bd_awake bd_allow_sleep bd_bullet bd_fixed_rotation bd_enabled bd_gravity_scale].
  replace (vec_valid (V2 x 0)) with true by reflexivity. replace (vec_valid (V2 0 0)) with true by reflexivity. replace (b2_is_valid 0) with true by reflexivity.
  unfold nle, R_Num; cbn [nle nofZ]. rewrite A. cbn [andb b2_assert bind fst]. eexists. split; [reflexivity|].
  cbn. repeat apply conj; auto.
  - intros i Hi. unfold put. destruct (Nat.eqb_spec i (w_next_body w)); congruence.
  - unfold put. rewrite Nat.eqb_refl. eexists. repeat split.
Qed.
Lemma r_make_ball w i : treach r_env w -> w_locked w = false -> (exists b, w_bodies w i = Some b /\ is_enabled b = true) ->
  exists w', wrun r_env (WCreateFixture i r_ball) w = Ok w' /\ w_locked w' = false /\ w_next_body w' = w_next_body w /\ w_next_fixture w' = S (w_next_fixture w) /\
  (forall f, f <> w_next_fixture w -> w_fixtures w' f = w_fixtures w f) /\
  (exists y, w_fixtures w' (w_next_fixture w) = Some y /\ f_body y = Some i /\ f_shape y = r_circle) /\
  (forall k b, w_bodies w k = Some b -> exists b', w_bodies w' k = Some b' /\ is_enabled b' = is_enabled b /\ b_xf b' = b_xf b).
Proof.
  intros H HL (b & Hb & En). pose proof (treach_J _ _ r_answers r_holds H) as (_ & (m & pw & n & B & _) & _). destruct (calls_any _ _ _ _ _ B) as (HC & _).
  assert (D0 : Rlt_bool 0 0 = false) by (apply Rlt_bool_false; lra).
  unfold wrun, create_fixture. rewrite HL. cbn [negb b2_assert bind]. unfold get_body. rewrite Hb. cbn [unwrap bind]. unfold fixture_new. cbn [fd_shape r_ball r_circle shape_child_count bind].
  rewrite En. unfold create_proxies, get_fixture. cbn [w_fixtures set_w_next_fixture put_fixture set_w_fixtures]. unfold put at 1. rewrite Nat.eqb_refl. cbn [unwrap bind f_proxy_count Nat.eqb b2_assert f_shape shape_child_count f_proxies repeat].
  unfold for_range. unfold r_circle. cbn [shape_child_count bind Nat.sub for_from get nth_error shape_aabb w_bp set_w_next_fixture put_fixture set_w_fixtures].
  edestruct HC as (bp' & id & -> & _). cbn [bind set length Nat.ltb Nat.leb upd].
  unfold mod_body, get_body. cbn [w_bodies set_w_bp put_fixture set_w_fixtures set_w_next_fixture]. rewrite Hb. cbn [unwrap bind].
  cbn [fd_density r_ball]. cbn [nlt nofZ R_Num]. rewrite D0. cbn [fst bind]. eexists. split; [reflexivity|]. cbn. repeat apply conj; auto.
  - intros f Hf. unfold put. destruct (Nat.eqb_spec f (w_next_fixture w)); congruence.
  - unfold put. rewrite Nat.eqb_refl. eexists. repeat split.
  - intros k b0 Hk. unfold put. destruct (Nat.eqb_spec k i) as [->|]; [|eauto]. rewrite Hb in Hk. injection Hk as <-. eexists. repeat split.
Qed.

Definition r_two (w : WorldModel.world R) : Prop :=
  treach r_env w /\ r_ball_at w 0 0 0 /\ r_ball_at w 1 1 10 /\ (forall f x, w_fixtures w f = Some x -> f_shape x = r_circle /\ (f = 0%nat \/ f = 1%nat)).
Lemma r_world : exists w, r_two w.
Proof.
  destruct (world_new true true) as [w0| |] eqn:Q0; [|discriminate|discriminate].
  assert (T0 : treach r_env w0) by (eapply treach_new; eauto).
  assert (Q : w_locked w0 = false /\ w_next_body w0 = 0%nat /\ w_next_fixture w0 = 0%nat /\ forall f, w_fixtures w0 f = None).
  { unfold world_new in Q0. destruct bp_new as [bp| |]; try discriminate. cbn [bind] in Q0. injection Q0 as <-. cbn. auto. }
  destruct Q as (L0 & N0 & M0 & F0).
  destruct (r_make_body w0 StaticBody 0 L0) as (w1 & R1 & L1 & N1 & M1 & F1 & B1 & (b & Hb1 & En1 & X1)). rewrite N0 in *.
  assert (T1 : treach r_env w1) by (eapply treach_call; [exact T0| |exact R1]; cbn; auto).
  destruct (r_make_ball w1 0 T1 L1 ltac:(eauto)) as (w2 & R2 & L2 & N2 & M2 & F2 & (y0 & Y0 & Yb0 & Ys0) & B2). rewrite M1, M0 in *.
  assert (T2 : treach r_env w2) by (eapply treach_call; [exact T1| |exact R2]; exact r_ball_box).
  destruct (r_make_body w2 DynamicBody 10 L2) as (w3 & R3 & L3 & N3 & M3 & F3 & B3 & (b3 & Hb3 & En3 & X3)). rewrite N2, N1 in *.
  assert (T3 : treach r_env w3) by (eapply treach_call; [exact T2| |exact R3]; cbn; discriminate).
  destruct (r_make_ball w3 1 T3 L3 ltac:(eauto)) as (w4 & R4 & L4 & N4 & M4 & F4 & (y1 & Y1 & Yb1 & Ys1) & B4). rewrite M3, M2 in *.
  assert (T4 : treach r_env w4) by (eapply treach_call; [exact T3| |exact R4]; exact r_ball_box).
  destruct (B2 _ _ Hb1) as (c2 & C2 & Ec2 & Xc2). rewrite <- (B3 0%nat) in C2 by discriminate.
  destruct (B4 _ _ C2) as (c4 & C4 & Ec4 & Xc4). destruct (B4 _ _ Hb3) as (d4 & D4 & Ed4 & Xd4).
  exists w4. refine (conj T4 (conj _ (conj _ _))).
  - exists y0, c4. rewrite F4 by discriminate. rewrite F3, Y0. repeat split; auto; congruence.
  - exists y1, d4. repeat split; auto; congruence.
  - intros f x Hx. destruct (Nat.eq_dec f 1) as [->|Ne]; [split; [congruence|auto]|]. rewrite F4, F3 in Hx by auto. destruct (Nat.eq_dec f 0) as [->|Ne0]; [split; [congruence|auto]|]. rewrite F2, F1, F0 in Hx by auto. discriminate.
Qed.
Lemma r_sound w : r_two w -> sound_shapes w.
Proof. intros (_ & _ & _ & H) f x Hx. rewrite (proj1 (H f x Hx)). cbn. unfold B2_EPSILON, nlit. rops. lra. Qed.
Lemma r_child w f i x : r_ball_at w f i x -> child_box w f 0 (AABB (V2 (x - 1) (-1)) (V2 (x + 1) 1)).
Proof.
  intros (y & b & Hy & Hi & Hs & Hb & En & X). exists y, i, b. repeat apply conj; auto.
  - unfold children. rewrite Hy, Hs. cbn. lia.
  - rewrite Hs, X. unfold r_circle, shape_aabb, circle_aabb. cbv zeta. cbn. do 2 f_equal; apply vec2_ext; cbn; ring.
Qed.
(* the ray from -5 to 15 hits the ball at x *)
Lemma r_hit w f i x : 0 <= x <= 10 -> r_ball_at w f i x -> exists out, hit w (V2 (-5) 0) (V2 15 0) 1 f 0 out /\ ray_fraction out = (x + 4) / 20.
Proof.
  intros Hx (y & b & Hy & Hi & Hs & Hb & En & X). set (xf := b_xf b).
  pose proof (circle_ray_ok (Circle 1 (V2 0 0)) (RayIn (V2 (-5) 0) (V2 15 0) 1) xf) as H. cbv zeta in H. cbn [ray_p1 ray_p2 ray_max ci_radius ci_p] in H.
  assert (P : place xf (V2 0 0) = V2 x 0) by (unfold xf; rewrite X; apply vec2_ext; unfold place; cbn; ring). rewrite P in H.
  assert (D : forall t, dist2 (along (V2 (-5) 0) (V2 15 0) t) (V2 x 0) = (20 * t - 5 - x) * (20 * t - 5 - x)) by (intros; unfold dist2, along; cbn; ring).
  assert (C : forall out, circle_ray_cast (Circle 1 (V2 0 0)) (RayIn (V2 (-5) 0) (V2 15 0) 1) xf = Some out -> hit w (V2 (-5) 0) (V2 15 0) 1 f 0 out).
  { intros out Ho. exists y, i, b. repeat apply conj; auto; [unfold children; rewrite Hy, Hs; cbn; lia|]. rewrite Hs. unfold r_circle, shape_ray_cast. fold xf. now rewrite Ho. }
  assert (Pe : B2_EPSILON <= 1) by (unfold B2_EPSILON, nlit; rops; lra).
  assert (Pd : B2_EPSILON <= dist2 (V2 15 0) (V2 (-5) 0)) by (unfold dist2, B2_EPSILON, nlit; rops; lra).
  destruct (circle_ray_cast _ _ _) as [out|].
  - exists out. split; [auto|]. destruct H as (F & A & B & _); auto.
    rewrite D in A. destruct (Rlt_or_le ((x + 4) / 20) (ray_fraction out)) as [L|L].
    + specialize (B ((x + 4) / 20) L). rewrite D in B. field_simplify ((20 * ((x + 4) / 20) - 5 - x)) in B. lra.
    + nra.
  - exfalso. assert (K : 1 * 1 < dist2 (along (V2 (-5) 0) (V2 15 0) ((x + 4) / 20)) (V2 x 0)).
    { apply H; auto; [unfold dist2; cbn; nra|lra]. }
    rewrite D in K. field_simplify ((20 * ((x + 4) / 20) - 5 - x)) in K. lra.
Qed.

(** ** a static body with a velocity, in single precision *)
(* every body of an island moves with its velocity, whatever its type: b2_island_private.rs:219-251 *)
Definition fly_solved (w : fworld) (dt : f32) (i : nat) : solved f32 :=
  match w_bodies w i with
  | Some b => let s := b_sweep b in Solved (sw_c s) (sw_a s) (vadd (sw_c s) (vscale dt (b_lv b))) (sw_a s) (b_lv b) (b_av b) (nofZ 0)
  | None => Solved vzero (nofZ 0) vzero (nofZ 0) vzero (nofZ 0) (nofZ 0)
  end.
Definition fly_solution (w : fworld) (dt : f32) : solution f32 := Solution (fly_solved w dt) (fun _ => [ex_point; ex_point]) false.
Definition fly_env : env f32 :=
  Env ex_filter ex_listen ex_evaluate (fun _ _ => Ok true) (fun w _ => Ok (false, nofZ 1)) (fun w _ dt => Ok (fly_solution w dt)) (fun w _ _ _ dt => Ok (fly_solution w dt)).
Lemma fly_answers : answers fly_env.
Proof. destruct (ex_answers None) as (A & _). refine (conj A (conj _ (conj _ (conj _ _)))); discriminate. Qed.
(* the static ball at 0 is pushed into the dynamic ball at 0.4 *)
Definition fly_calls : list (wcall f32) :=
  [WCreateBody (ex_bodydef StaticBody (nofZ 0) (nofZ 1) false); WCreateFixture 0 ball;
   WCreateBody (ex_bodydef DynamicBody (nlit 4 10) (nofZ 0) false); WCreateFixture 1 ball; tick].
(* the box of child 0 of fixture 0 ends to the right of its box in the broad phase *)
Definition uncovered (w : fworld) : bool :=
  match w_fixtures w 0 with
  | Some x =>
    match f_body x with
    | Some i =>
      match w_bodies w i with
      | Some b =>
        match shape_aabb (f_shape x) (b_xf b) 0, nth_error (f_proxies x) 0 with
        | Ok a, Some q =>
          match fp_id q with
          | Some id => match get_fat_aabb (bp_tree (w_bp w)) id with
                       | Ok fat => is_enabled b && Nat.ltb 0 (children w 0) && negb (nle (vx (hi a)) (vx (hi fat)))
                       | _ => false
                       end
          | None => false
          end
        | _, _ => false
        end
      | None => false
      end
    | None => false
    end
  | None => false
  end.
Lemma uncovered_ok w : uncovered w = true -> ~ covered w.
Proof.
  unfold uncovered. destruct (w_fixtures w 0) as [x|] eqn:Hx; [|discriminate]. destruct (f_body x) as [i|] eqn:Hi; [|discriminate]. destruct (w_bodies w i) as [b|] eqn:Hb; [|discriminate].
  destruct (shape_aabb _ _ _) as [a| |] eqn:Ha; try discriminate. destruct (nth_error (f_proxies x) 0) as [q|] eqn:Hq; [|discriminate]. destruct (fp_id q) as [id|] eqn:Hid; [|discriminate].
  destruct (get_fat_aabb _ _) as [fat| |] eqn:Hf; try discriminate. intros P. apply andb_prop in P. destruct P as [P P3]. apply andb_prop in P. destruct P as [P1 P2]. apply Nat.ltb_lt in P2. apply negb_true_iff in P3.
  intros C. destruct (C 0%nat 0%nat a) as (id' & fat' & (x' & q' & Hx' & Hq' & Hid') & Hf' & In).
  { exists x, i, b. repeat apply conj; auto. }
  rewrite Hx in Hx'. injection Hx' as <-. rewrite Hq in Hq'. injection Hq' as <-. rewrite Hid in Hid'. injection Hid' as <-. rewrite Hf in Hf'. injection Hf' as <-.
  unfold inside in In. decompose [and] In. congruence.
Qed.
Lemma fly_refuted : exists w, answers fly_env /\ wreach fly_env w /\ ~ covered w.
Proof.
  destruct (ex_checked fly_env fly_calls uncovered) as (w & R & P); [vm_compute; reflexivity|]. exists w. exact (conj fly_answers (conj R (uncovered_ok w P))).
Qed.

(** ** the examples as they stand beside the theorems *)
Lemma cover_ex : exists w, answers r_env /\ holds_static r_env /\ treach r_env w /\
  child_box w 0 0 (AABB (V2 (0 - 1) (-1)) (V2 (0 + 1) 1)) /\ child_box w 1 0 (AABB (V2 (10 - 1) (-1)) (V2 (10 + 1) 1)).
Proof. destruct r_world as (w & H). exists w. refine (conj r_answers (conj r_holds (conj (proj1 H) (conj _ _)))); eapply r_child; apply H. Qed.
(* the box meets the first ball, not the second: not even its box in the broad phase *)
Definition r_box : aabb R := AABB (V2 (-3) (-3)) (V2 3 3).
Lemma query_ex : exists w, answers r_env /\ holds_static r_env /\ treach r_env w /\ (exists a, child_box w 0 0 a /\ ~ separated a r_box) /\ (exists a, child_box w 1 0 a /\ separated a r_box).
Proof.
  destruct r_world as (w & H). exists w. refine (conj r_answers (conj r_holds (conj (proj1 H) (conj _ _)))).
  - eexists. split; [eapply r_child; apply H|]. unfold separated. cbn. intros K. rewrite !(Rlt_bool_false) in K by lra. intuition discriminate.
  - eexists. split; [eapply r_child; apply H|]. unfold separated. cbn. right; right; left. apply Rlt_bool_true. lra.
Qed.
Lemma ray_ex : exists w out1 out2, answers r_env /\ holds_static r_env /\ treach r_env w /\ sound_shapes w /\ V2 (-5) 0 <> V2 15 0 /\
  hit w (V2 (-5) 0) (V2 15 0) 1 0 0 out1 /\ ray_fraction out1 = 1 / 5 /\ hit w (V2 (-5) 0) (V2 15 0) 1 1 0 out2 /\ ray_fraction out2 = 7 / 10.
Proof.
  destruct r_world as (w & H). destruct (r_hit w 0 0 0) as (o1 & H1 & F1); [lra|apply H|]. destruct (r_hit w 1 1 10) as (o2 & H2 & F2); [lra|apply H|].
  exists w, o1, o2. refine (conj r_answers (conj r_holds (conj (proj1 H) (conj (r_sound w H) (conj _ (conj H1 (conj _ (conj H2 _)))))))); [|lra|lra]. intros K. injection K. lra.
Qed.
(* the nearest ball is the one that is reported *)
Lemma nearest_ex : exists w p n, treach r_env w /\ world_ray_cast w nearest None (V2 (-5) 0) (V2 15 0) = Ok (Some (0%nat, p, n, 1 / 5)).
Proof.
  destruct r_world as (w & H). destruct (r_hit w 0 0 0) as (o1 & H1 & F1); [lra|apply H|].
  assert (Np : V2 (-5) 0 <> V2 15 0) by (intros K; injection K; lra).
  destruct (nearest_ok _ r_answers r_holds w (proj1 H) (r_sound w H) _ _ Np) as (r & E & Hr). destruct r as [[[[f p] n] t]|]; [|exfalso; eapply Hr; eauto].
  destruct Hr as ((k & out & Hh & -> & -> & ->) & Hm). pose proof (Hm _ _ _ H1) as L. rewrite F1 in L.
  destruct (r_hit w 1 1 10) as (o2 & H2 & F2); [lra|apply H|].
  assert (D : forall f k o o', hit w (V2 (-5) 0) (V2 15 0) 1 f k o -> hit w (V2 (-5) 0) (V2 15 0) 1 f k o' -> o = o').
  { intros f' k' o o' (x & i & b & Hx & Hi & Hb & _ & _ & Hc) (x' & i' & b' & Hx' & Hi' & Hb' & _ & _ & Hc'). rewrite Hx in Hx'. injection Hx' as <-. rewrite Hi in Hi'. injection Hi' as <-. rewrite Hb in Hb'. injection Hb' as <-.
    rewrite Hc in Hc'. now injection Hc' as <-. }
  assert (Hk : k = 0%nat /\ (f = 0%nat \/ f = 1%nat)).
  { destruct Hh as (x & i & b & Hx & _ & _ & _ & Hk & _). destruct (proj2 (proj2 (proj2 H)) f x Hx) as (Hs & Hf). unfold children in Hk. rewrite Hx, Hs in Hk. cbn in Hk. split; [lia|auto]. }
  destruct Hk as (-> & [->| ->]).
  - rewrite (D _ _ _ _ Hh H1) in *. exists w. do 2 eexists. split; [apply H|]. replace (ray_fraction o1) with (1 / 5) in E by lra. exact E.
  - exfalso. rewrite (D _ _ _ _ Hh H2), F2 in L. lra.
Qed.
