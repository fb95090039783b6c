(** Concrete programs for the contacts after colliding: two balls in exact arithmetic, with the narrow phase of the code. *)
From Coq Require Import List ZArith Bool Arith Lia Reals Lra.
From Flocq Require Import Core.Raux.
From Verif Require ShapeExamples CollideExamples EdgePolyExamples.
From Verif Require Import Base Num NumLaws RTac Math Collision Manifold Filter MathSpec GeomSpec ShapeModel ListFacts TreeModel TreeSpec BroadModel BroadSpec BroadFinal DynModel WorldModel WorldGraph WorldInv WorldClaims WorldCalls WorldHist WorldReach WorldExamples SafeSpec WorldSafe QueryModel CoverSpec CoverLogic CoverOps CoverToi QueryProofs CoverExamples PairSpec PairLogic PairOps PairStep PairCalls PairExamples FrontSpec FrontProofs OrderProofs NarrowModel NarrowSpec NarrowFacts NarrowProofs FrontReal SenseModel.
Import ListNotations.
Local Open Scope R_scope.

(* where the code of the narrow phase panics the answer is: no points, no overlap *)
Definition n_env : env R :=
  Env p_filter (fun w e c => CEdit (cf_enabled (c_flags c)) (c_friction c) (c_restitution c) (c_threshold c) (c_tangent_speed c) (c_manifold c))
      (fun w i => match evaluate w i with Ok m => Ok m | _ => Ok manifold_default end) (fun w i => match overlap w i with Ok b => Ok b | _ => Ok false end) (fun _ _ => Ok (false, 1)) (fun w _ _ => Ok (p_solution w)) (fun w _ _ _ _ => Ok (p_solution w)).
Lemma n_plain : plain_filter n_env.
Proof. intros w f g x y Hx Hy. cbn. unfold p_filter. now rewrite Hx, Hy. Qed.
Lemma n_answers : answers n_env.
Proof. refine (conj _ (conj _ (conj _ (conj _ _)))); try discriminate; intros w i; cbn; [destruct (evaluate w i)|destruct (overlap w i)]; discriminate. Qed.
Lemma n_holds : holds_static n_env.
Proof.
  split; cbn; intros; match goal with K : Ok _ = Ok _ |- _ => injection K as <- end; cbn; unfold r_idle;
    match goal with Hb : w_bodies _ _ = Some _, K : settled _ |- _ => rewrite Hb; destruct K as (K1 & K2 & K3 & K4) end; cbn; unfold CoverSpec.stays; cbn; auto 10.
Qed.
Lemma n_sound : sound_env n_env.
Proof.
  refine (conj _ (conj _ (conj _ (conj _ (conj _ _))))); cbn; intros; try (eexists; reflexivity); try assumption.
  - destruct (evaluate w i) as [m| |] eqn:Em; eexists; (split; [reflexivity|]); [exact (contact_two w i m Em)|split; cbn; lia..].
  - destruct (overlap w i); eexists; reflexivity.
  - eexists. split; [reflexivity|]. reflexivity.
Qed.
Lemma n_narrow : narrow n_env.
Proof. intros w i m H. cbn. now rewrite H. Qed.

(** ** two balls of radius 1, the static one at the origin, the dynamic one at [p], awake *)
Definition n_body (ty : btype) (p : vec2 R) : body_def R := BodyDef ty p 0 (V2 0 0) 0 0 0 true true false false true 1.
Definition n_ok (w : WorldModel.world R) : Prop :=
  preach n_env w /\ treach n_env w /\ careful n_env w /\ w_locked w = false /\ w_step_complete w = true /\ (forall c, w_contacts w c = None) /\ (forall j, w_joints w j = None) /\
  (forall f x, w_fixtures w f = Some x -> f_shape x = r_circle) /\ w_listener w = true.
Lemma n_call w c w' : n_ok w -> frank w c -> tame w c -> safe w c -> wrun n_env c w = Ok w' -> w_locked w' = false -> w_step_complete w' = true -> w_contacts w' = w_contacts w -> w_joints w' = w_joints w ->
  (forall f x, w_fixtures w' f = Some x -> f_shape x = r_circle) -> w_listener w' = true -> n_ok w'.
Proof.
  intros (A & B & C & _ & _ & D & F & _) Fr Ta Sa R L S Ec Ej G Li. unfold n_ok. rewrite Ec, Ej. refine (conj _ (conj _ (conj _ (conj L (conj S (conj D (conj F (conj G Li)))))))); [eapply preach_call|eapply treach_call|eapply careful_call]; eauto.
Qed.
Definition n_bodies (w : WorldModel.world R) (i : nat) (ty : btype) (x : vec2 R) : Prop := exists b, w_bodies w i = Some b /\ b_type b = ty /\ is_enabled b = true /\ b_xf b = Xf x (rot_of 0) /\ (ty <> StaticBody -> is_awake b = true).
Definition n_ball (w : WorldModel.world R) (f i : nat) : Prop := exists y, w_fixtures w f = Some y /\ f_body y = Some i /\ f_shape y = r_circle /\ f_filter y = filter_default /\ f_sensor y = false.
Lemma n_new : exists w, n_ok w /\ w_next_body w = 0%nat /\ w_next_fixture w = 0%nat /\ w_fixtures w = (fun _ => None) /\ w_bodies w = (fun _ => None) /\ w_body_count w = 0%nat.
Proof.
  destruct (world_new true true) as [w0| |] eqn:Q0; [|discriminate|discriminate]. exists w0.
  assert (Q : w_locked w0 = false /\ w_step_complete w0 = true /\ w_next_body w0 = 0%nat /\ w_next_fixture w0 = 0%nat /\ w_fixtures w0 = (fun _ => None) /\ w_bodies w0 = (fun _ => None) /\ w_body_count w0 = 0%nat /\ (forall c, w_contacts w0 c = None) /\ (forall j, w_joints w0 j = None) /\ w_listener w0 = true).
  { clear -Q0. unfold world_new in Q0. destruct bp_new as [bp| |]; try discriminate. cbn [bind] in Q0. injection Q0 as <-. cbn. auto 12. }
  destruct Q as (L & S & N & M & F & B & K & C & J & Li). split; [|auto]. unfold n_ok. rewrite F. refine (conj _ (conj _ (conj _ (conj L (conj S (conj C (conj J (conj _ Li)))))))); [eapply preach_new|eapply treach_new|eapply careful_new|discriminate]; eauto.
Qed.
Lemma n_make_body w ty x : n_ok w -> exists w', wrun n_env (WCreateBody (n_body ty x)) w = Ok w' /\ n_ok w' /\ w_fixtures w' = w_fixtures w /\ w_next_fixture w' = w_next_fixture w /\
  w_next_body w' = S (w_next_body w) /\ w_body_count w' = S (w_body_count w) /\ n_bodies w' (w_next_body w) ty x /\ (forall i, i <> w_next_body w -> w_bodies w' i = w_bodies w i).
Proof.
  intros H. pose proof H as (P & T & C & HL & S & Ec & Ej & G & Li). assert (A : Rle_bool 0 0 = true) by (apply Rle_bool_true; lra).
  assert (Eb : exists b, body_new (n_body ty x) = Ok b /\ b_type b = ty /\ is_enabled b = true /\ b_xf b = Xf x (rot_of 0) /\ (ty <> StaticBody -> is_awake b = true)).
  { unfold body_new, n_body. cbn [bd_position bd_lv bd_angle bd_av bd_angular_damping bd_linear_damping bd_type bd_awake bd_allow_sleep bd_bullet bd_fixed_rotation bd_enabled bd_gravity_scale].
    replace (vec_valid x) with true by reflexivity. replace (vec_valid (V2 0 0)) with true by reflexivity. replace (b2_is_valid 0) with true by reflexivity.
    unfold nle, R_Num; cbn [nle nofZ]. rewrite A. cbn [andb b2_assert bind]. eexists. split; [reflexivity|]. split; [reflexivity|]. split; [reflexivity|]. split; [reflexivity|]. intros Ne. destruct ty; reflexivity || now destruct Ne. }
  destruct Eb as (b & Eb & Ty & En & X & Aw).
  assert (R : exists w', wrun n_env (WCreateBody (n_body ty x)) w = Ok w' /\ w_locked w' = false /\ w_step_complete w' = true /\ w_contacts w' = w_contacts w /\ w_joints w' = w_joints w /\ w_fixtures w' = w_fixtures w /\
    w_next_fixture w' = w_next_fixture w /\ w_next_body w' = Datatypes.S (w_next_body w) /\ w_body_count w' = Datatypes.S (w_body_count w) /\ w_bodies w' = put (w_bodies w) (w_next_body w) (Some b) /\ w_listener w' = true).
  { unfold wrun, create_body. rewrite HL. cbn [negb b2_assert bind]. rewrite Eb. cbn [bind fst]. eexists. split; [reflexivity|]. cbn. auto 12. }
  destruct R as (w' & R & L' & S' & C' & J' & F' & N1 & N2 & N3 & B' & Li'). exists w'. split; [exact R|]. split; [|repeat (split; [assumption|]); split].
  - refine (n_call _ (WCreateBody (n_body ty x)) _ H Logic.I _ _ R L' S' C' J' _ Li'); [cbn; auto|exists b; exact Eb|now rewrite F'].
  - exists b. rewrite B'. unfold put. rewrite Nat.eqb_refl. auto.
  - intros i Hi. rewrite B'. unfold put. destruct (Nat.eqb_spec i (w_next_body w)); congruence.
Qed.
Lemma n_make_ball w i ty x : n_ok w -> n_bodies w i ty x -> exists w', wrun n_env (WCreateFixture i r_ball) w = Ok w' /\ n_ok w' /\ w_next_fixture w' = S (w_next_fixture w) /\
  w_next_body w' = w_next_body w /\ w_body_count w' = w_body_count w /\ n_ball w' (w_next_fixture w) i /\ (forall f, f <> w_next_fixture w -> w_fixtures w' f = w_fixtures w f) /\
  (forall k ty x, n_bodies w k ty x -> n_bodies w' k ty x) /\ (forall k, w_bodies w k = None -> w_bodies w' k = None) /\ w_new_contacts w' = true.
Proof.
  intros H (b & Hb & Ty & En & X & Aw). pose proof H as (P & T & C & HL & S & Ec & Ej & G & Li). pose proof (treach_J _ _ n_answers n_holds T) as (_ & (m & pw & n & B & _) & _). destruct (calls_any _ _ _ _ _ B) as (HC & _).
  assert (D0 : Rlt_bool 0 0 = false) by (apply Rlt_bool_false; lra).
  assert (R : exists w', wrun n_env (WCreateFixture i r_ball) w = Ok w' /\ w_locked w' = false /\ w_step_complete w' = true /\ w_contacts w' = w_contacts w /\ w_joints w' = w_joints w /\
    w_next_fixture w' = Datatypes.S (w_next_fixture w) /\ w_next_body w' = w_next_body w /\ w_body_count w' = w_body_count w /\ n_ball w' (w_next_fixture w) i /\ (forall f, f <> w_next_fixture w -> w_fixtures w' f = w_fixtures w f) /\
    (forall k ty x, n_bodies w k ty x -> n_bodies w' k ty x) /\ (forall k, w_bodies w k = None -> w_bodies w' k = None) /\ w_new_contacts w' = true /\ w_listener w' = true).
  { unfold wrun, create_fixture. rewrite HL. cbn [negb b2_assert bind]. unfold get_body. rewrite Hb. cbn [unwrap bind]. unfold fixture_new. cbn [fd_shape r_ball r_circle shape_child_count bind].
    rewrite En. unfold create_proxies, get_fixture. cbn [w_fixtures set_w_next_fixture put_fixture set_w_fixtures]. unfold put at 1. rewrite Nat.eqb_refl. cbn [unwrap bind f_proxy_count Nat.eqb b2_assert f_shape shape_child_count f_proxies repeat].
    unfold for_range. unfold r_circle. cbn [shape_child_count bind Nat.sub for_from get nth_error shape_aabb w_bp set_w_next_fixture put_fixture set_w_fixtures].
    edestruct HC as (bp' & id & -> & _). cbn [bind set length Nat.ltb Nat.leb upd].
    unfold mod_body, get_body. cbn [w_bodies set_w_bp put_fixture set_w_fixtures set_w_next_fixture]. rewrite Hb. cbn [unwrap bind].
    cbn [fd_density r_ball]. cbn [nlt nofZ R_Num]. rewrite D0. cbn [fst bind]. eexists. split; [reflexivity|]. cbn. repeat (split; [solve [auto]|]).
    split; [unfold n_ball; cbn; unfold put; rewrite Nat.eqb_refl; eexists; repeat split|]. split; [intros f Hf; unfold put; destruct (Nat.eqb_spec f (w_next_fixture w)); congruence|]. split.
    - intros k ty0 x0 (b0 & Hk & K). unfold n_bodies. cbn. unfold put. destruct (Nat.eqb_spec k i) as [->|]; [|exists b0; auto]. rewrite Hb in Hk. injection Hk as <-. eexists. split; [reflexivity|]. exact K.
    - split; [|auto]. intros k Hk. unfold put. destruct (Nat.eqb_spec k i) as [->|]; [congruence|exact Hk]. }
  destruct R as (w' & R & L' & S' & C' & J' & N1 & N2 & N3 & Ba & Fo & Bo & Bn & Nc & Li'). exists w'. split; [exact R|]. split; [|auto 12].
  refine (n_call _ (WCreateFixture i r_ball) _ H Logic.I r_ball_box _ R L' S' C' J' _ Li').
  - exists b. split; [exact Hb|]. split; [|cbn; rewrite D0; discriminate]. exists 1%nat. split; [reflexivity|]. intros xf k _. eexists. reflexivity.
  - intros f y Hf. destruct (Nat.eq_dec f (w_next_fixture w)) as [->|Ne]; [destruct Ba as (y' & Hy & _ & Sy & _); congruence|]. rewrite Fo in Hf by exact Ne. eauto.
Qed.
Definition n_two (p : vec2 R) (w : WorldModel.world R) : Prop :=
  n_ok w /\ n_bodies w 0 StaticBody (V2 0 0) /\ n_bodies w 1 DynamicBody p /\ n_ball w 0 0 /\ n_ball w 1 1 /\ w_new_contacts w = true /\ w_body_count w = 2%nat.
Lemma n_world p : exists w, n_two p w.
Proof.
  destruct n_new as (w0 & H0 & N0 & M0 & F0 & B0 & K0).
  destruct (n_make_body w0 StaticBody (V2 0 0) H0) as (w1 & _ & H1 & F1 & M1 & N1 & K1 & Q1 & O1). rewrite N0 in *. rewrite B0 in O1.
  destruct (n_make_ball w1 0 _ _ H1 Q1) as (w2 & _ & H2 & M2 & N2 & K2 & A2 & O2 & P2 & Z2 & _). rewrite M1, M0 in *.
  destruct (n_make_body w2 DynamicBody p H2) as (w3 & _ & H3 & F3 & M3 & N3 & K3 & Q3 & O3). rewrite N2, N1 in *.
  destruct (n_make_ball w3 1 _ _ H3 Q3) as (w4 & _ & H4 & M4 & N4 & K4 & A4 & O4 & P4 & Z4 & W4). rewrite M3, M2 in *.
  exists w4. refine (conj H4 (conj _ (conj (P4 _ _ _ Q3) (conj _ (conj A4 (conj W4 _)))))).
  - apply P4. unfold n_bodies. rewrite O3 by discriminate. apply P2, Q1.
  - destruct A2 as (y & Hy & R). exists y. rewrite O4 by discriminate. rewrite F3. auto.
  - now rewrite K4, K3, K2, K1, K0.
Qed.
Lemma n_may p w : n_two p w -> may_touch w 0 1.
Proof.
  intros ((_ & _ & _ & _ & _ & _ & J & _) & _ & (b & Hb & Ty & _) & (x & Hx & Bx & _ & Fx & _) & (y & Hy & By & _ & Fy & _) & _). exists x, y, 0%nat, 1%nat. repeat (split; [solve [auto]|]). split; [right; exists b; auto|]. split; [|rewrite Fx, Fy; reflexivity]. intros (j & z & Hz & _). rewrite J in Hz. discriminate.
Qed.
Lemma n_stands w f i ty p : n_ball w f i -> n_bodies w i ty p -> stands w f i r_circle (Xf p (rot_of 0)).
Proof. intros (y & Hy & Hi & Hs & _ & Ns) (b & Hb & _ & En & X & _). exists y, b. auto 10. Qed.
Lemma n_unit : unit_rot (rot_of 0).
Proof. unfold unit_rot, rot_of. cbn. rewrite sin_0, cos_0. ring. Qed.
Lemma n_place p : ShapeSpec.place (Xf p (rot_of 0)) (V2 0 0) = p.
Proof. destruct p. unfold ShapeSpec.place, rot_of. cbn. rewrite sin_0, cos_0. apply vec2_ext; cbn; ring. Qed.
Lemma n_box p : shape_aabb r_circle (Xf p (rot_of 0)) 0 = Ok (AABB (V2 (vx p - 1) (vy p - 1)) (V2 (vx p + 1) (vy p + 1))).
Proof. unfold r_circle, shape_aabb, circle_aabb. cbv zeta. cbn. do 2 f_equal; apply vec2_ext; cbn; ring. Qed.
Lemma n_child : exists n, shape_child_count r_circle = Ok n /\ (0 < n)%nat.
Proof. exists 1%nat. split; [reflexivity|lia]. Qed.
(* the ball at (1, 0) meets the first one; the one at (3/2, 3/2) is clear of it, though the boxes overlap *)
Lemma n_meets : meets r_circle 0 (Xf (V2 0 0) (rot_of 0)) r_circle 0 (Xf (V2 1 0) (rot_of 0)).
Proof. apply meets_circles; cbn [ci_radius ci_p]; try lra. rewrite !n_place. unfold dist2. cbn. apply Rsqr_incr_0_var; [|lra]. rewrite Rsqr_sqrt by nra. unfold Rsqr. lra. Qed.
Lemma n_clear : clear r_circle 0 (Xf (V2 0 0) (rot_of 0)) r_circle 0 (Xf (V2 (3/2) (3/2)) (rot_of 0)).
Proof. apply clear_circles; cbn [ci_radius ci_p]; try lra. rewrite !n_place. unfold dist2. cbn. apply Rsqr_incrst_0; [|lra|apply sqrt_pos]. rewrite Rsqr_sqrt by nra. unfold Rsqr. lra. Qed.
Lemma n_step p : -2 <= vx p <= 2 -> -2 <= vy p <= 2 -> exists w w2 w' c x, preach n_env w /\ treach n_env w /\ pairs_due n_env w /\ w_step_complete w = true /\ w_listener w = true /\ step_front n_env w = Ok w2 /\ wrun n_env (WStep 1) w = Ok w' /\
  stands w 0 0 r_circle (Xf (V2 0 0) (rot_of 0)) /\ stands w 1 1 r_circle (Xf p (rot_of 0)) /\ may_touch w 0 1 /\ at_work w 1 /\ w_contacts w2 c = Some x /\ between x 0 0 1 0.
Proof.
  intros Hx Hy. destruct (n_world p) as (w & H). pose proof (n_may p w H) as Mt. destruct H as (H & X0 & X1 & A0 & A1 & Nc & Bc). destruct H as (P & T & C & HL & S & Ec & Ej & G & Li).
  assert (Sf : safe w (WStep 1)). { split; [|left; rewrite Bc; lia]. intros f g x y a b Hf Hg _ _ _ _. rewrite (G f x Hf), (G g y Hg). discriminate. }
  destruct (careful_returns n_env n_sound ordered_R w (WStep 1) C Sf) as (w' & Rn & _). pose proof Rn as R'. cbn in R'. rewrite r_step_parts in R'. apply bind_ok in R' as (w2 & R2 & _).
  pose proof (n_stands _ _ _ _ _ A0 X0) as S0. pose proof (n_stands _ _ _ _ _ A1 X1) as S1. assert (Du : pairs_due n_env w) by now left.
  destruct (front_contact n_env n_answers n_plain n_holds w w2 0 0 0 r_circle _ _ 1 0 1 r_circle _ _ P T Du R2 (stands_sits _ _ _ _ _ S0) (stands_sits _ _ _ _ _ S1) Mt n_child n_child (n_box _) (n_box _))%nat as (c & x & Hc & Bt).
  { unfold separated. cbn. rewrite !Rlt_bool_true'. lra. }
  exists w, w2, w', c, x. repeat (split; [assumption|]). split; [|auto]. destruct X1 as (b & Hb & Ty & _ & _ & Aw). exists b. rewrite Ty in *. split; [exact Hb|]. split; [now apply Aw|discriminate].
Qed.
(* the contact of the two balls after colliding, for the property theorems *)
Lemma n_front_ex : exists w w2 w' c x, answers n_env /\ wreach n_env w /\ w_step_complete w = true /\ w_listener w = true /\ step_front n_env w = Ok w2 /\ wrun n_env (WStep 1) w = Ok w' /\
  w_contacts w2 c = Some x /\ busy w w2 x /\ sensor_contact w2 x = false /\ cf_touching (c_flags x) = true.
Proof.
  destruct (n_step (V2 1 0)) as (w & w2 & w' & c & x & P & T & Du & Sc & Li & R2 & Rn & S0 & S1 & Mt & Wk & Hx & Bt); cbn; try lra. pose proof (preach_wreach _ _ P) as H. exists w, w2, w', c, x.
  refine (conj n_answers (conj H (conj Sc (conj Li (conj R2 (conj Rn (conj Hx _))))))).
  pose proof (front_touch n_env n_answers n_narrow w w2 c x _ _ _ _ _ _ _ _ _ _ H R2 Hx Bt S0 S1 (or_intror Wk) n_unit n_unit) as (To & _). specialize (To n_meets).
  assert (busy w w2 x /\ sensor_contact w2 x = false) as (Bu & Ns); [|auto]. destruct Bt as [K|K]; eapply front_busy; eauto using n_answers.
Qed.
Lemma n_touch_ex : exists w w2 w' c x, answers n_env /\ narrow n_env /\ wreach n_env w /\ step_front n_env w = Ok w2 /\ wrun n_env (WStep 1) w = Ok w' /\ w_contacts w2 c = Some x /\ between x 0 0 1 0 /\
  stands w 0 0 r_circle (Xf (V2 0 0) (rot_of 0)) /\ stands w 1 1 r_circle (Xf (V2 1 0) (rot_of 0)) /\ at_work w 1 /\ unit_rot (rot_of 0) /\ meets r_circle 0 (Xf (V2 0 0) (rot_of 0)) r_circle 0 (Xf (V2 1 0) (rot_of 0)).
Proof.
  destruct (n_step (V2 1 0)) as (w & w2 & w' & c & x & P & T & Du & Sc & Li & R2 & Rn & S0 & S1 & Mt & Wk & Hx & Bt); cbn; try lra. exists w, w2, w', c, x.
  exact (conj n_answers (conj n_narrow (conj (preach_wreach _ _ P) (conj R2 (conj Rn (conj Hx (conj Bt (conj S0 (conj S1 (conj Wk (conj n_unit n_meets))))))))))).
Qed.
Lemma n_clear_ex : exists w w2 w' c x, answers n_env /\ narrow n_env /\ wreach n_env w /\ step_front n_env w = Ok w2 /\ wrun n_env (WStep 1) w = Ok w' /\ w_contacts w2 c = Some x /\ between x 0 0 1 0 /\
  stands w 0 0 r_circle (Xf (V2 0 0) (rot_of 0)) /\ stands w 1 1 r_circle (Xf (V2 (3/2) (3/2)) (rot_of 0)) /\ at_work w 1 /\ unit_rot (rot_of 0) /\ clear r_circle 0 (Xf (V2 0 0) (rot_of 0)) r_circle 0 (Xf (V2 (3/2) (3/2)) (rot_of 0)).
Proof.
  destruct (n_step (V2 (3/2) (3/2))) as (w & w2 & w' & c & x & P & T & Du & Sc & Li & R2 & Rn & S0 & S1 & Mt & Wk & Hx & Bt); cbn; try lra. exists w, w2, w', c, x.
  exact (conj n_answers (conj n_narrow (conj (preach_wreach _ _ P) (conj R2 (conj Rn (conj Hx (conj Bt (conj S0 (conj S1 (conj Wk (conj n_unit n_clear))))))))))).
Qed.
Lemma n_missed_ex : exists w w', answers n_env /\ narrow n_env /\ plain_filter n_env /\ holds_static n_env /\ preach n_env w /\ treach n_env w /\ pairs_due n_env w /\ w_step_complete w = true /\ w_listener w = true /\ wrun n_env (WStep 1) w = Ok w' /\
  stands w 0 0 r_circle (Xf (V2 0 0) (rot_of 0)) /\ stands w 1 1 r_circle (Xf (V2 1 0) (rot_of 0)) /\ may_touch w 0 1 /\ at_work w 1 /\ meets r_circle 0 (Xf (V2 0 0) (rot_of 0)) r_circle 0 (Xf (V2 1 0) (rot_of 0)).
Proof.
  destruct (n_step (V2 1 0)) as (w & w2 & w' & c & x & P & T & Du & Sc & Li & R2 & Rn & S0 & S1 & Mt & Wk & Hx & Bt); cbn; try lra. exists w, w'.
  exact (conj n_answers (conj n_narrow (conj n_plain (conj n_holds (conj P (conj T (conj Du (conj Sc (conj Li (conj Rn (conj S0 (conj S1 (conj Mt (conj Wk n_meets)))))))))))))).
Qed.
Lemma n_class_ex : exists (w : fworld) c x, answers (ex_env None) /\ wreach (ex_env None) w /\ w_contacts w c = Some x.
Proof.
  destruct sleep_ex as (w & w' & A & H & _ & _ & _ & O & _). unfold one_touches in O. destruct (w_contact_list w) as [|c [|]]; try discriminate. destruct (w_contacts w c) as [x|] eqn:Hx; [|discriminate]. exists w, c, x. auto.
Qed.
Lemma n_points_ex : exists w c m, wreach n_env w /\ (exists w2, step_front n_env w = Ok w2 /\ evaluate w2 c = Ok m) /\ (0 < mf_count m)%nat.
Proof.
  destruct (n_step (V2 1 0)) as (w & w2 & w' & c & x & P & T & Du & Sc & Li & R2 & Rn & S0 & S1 & Mt & Wk & Hx & Bt); cbn; try lra. pose proof (preach_wreach _ _ P) as H.
  destruct (meets_touch _ _ _ _ _ _ n_meets n_unit n_unit) as (Q1 & Q2).
  assert (Si : same_sight w2 w2 c x) by (split; [reflexivity|split; [reflexivity|now rewrite Hx]]).
  assert (says true (evaluate w2 c)) as (m & Em & Cm); [|exists w, c, m; split; [exact H|]; split; [eauto|now apply Nat.ltb_lt in Cm]].
  destruct Bt as [K|K].
  - now rewrite (front_answer n_env n_answers w w2 w2 c x _ _ _ _ _ _ _ _ _ _ H R2 Si K S0 S1).
  - rewrite (front_answer n_env n_answers w w2 w2 c x _ _ _ _ _ _ _ _ _ _ H R2 Si K S1 S0). apply Q2. exact Logic.I.
Qed.
(** ** an edge and a polygon that meet, and that are clear of each other *)
Lemma edge_meets_ex one : meets (ShEdge (EdgePolyExamples.floor one)) 0 ShapeExamples.xf_id (ShPolygon (@ShapeExamples.box1 R _)) 0 EdgePolyExamples.hung /\
  clear (ShEdge (EdgePolyExamples.floor one)) 0 ShapeExamples.xf_id (ShPolygon (@ShapeExamples.box1 R _)) 0 (EdgePolyExamples.at_xy 2 (-2)).
Proof.
  split.
  - apply (meets_edge_polygon _ _ _ _ EdgePolyExamples.hung (V2 2 0)). unfold share. cbv zeta. rewrite EdgePolyExamples.hung_radius. destruct (EdgePolyExamples.hung_ex one) as (Ap & _). destruct (EdgePolyExamples.hung_not one) as (_ & _ & N3 & N4 & N5).
    split; [exact Ap|]. split; [cbn; lra|]. split; [rewrite CollideExamples.box1_radius; lra|]. rewrite !CollideExamples.place_id. split; [exists (1 / 2); split; [lra|unfold along, EdgePolyExamples.floor; cbn [ed_v1 ed_v2 vx vy]; f_equal; lra]|]. split; [|auto].
    exists (V2 0 1). split; [unfold ShapeSpec.place, EdgePolyExamples.hung, EdgePolyExamples.at_xy; cbn; f_equal; ring|].
    intros i n v Hi En Ev. unfold ShapeExamples.box1, set_as_box, put, box_vertices, box_normals in *. cbn [po_count po_vertices po_normals app] in *.
    destruct i as [|[|[|[|i]]]]; [| | | |lia]; cbn in En, Ev; injection En as <-; injection Ev as <-; unfold ShapeSpec.dotp, ShapeSpec.minus; cbn; lra.
  - apply (clear_edge_polygon _ _ _ _ (EdgePolyExamples.at_xy 2 (-2))). destruct (EdgePolyExamples.hung_far one) as (A & B). split; [exact A|]. now left.
Qed.
