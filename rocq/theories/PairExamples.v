(** Concrete programs for the pairs of the broad phase and for worlds at rest: two balls in exact arithmetic, and small programs in single precision. *)
From Coq Require Import List ZArith Bool Arith Lia Reals Lra.
From Flocq Require Import Core.Raux.
From Verif Require Import Base Num NumLaws RTac Math Collision Manifold Filter GeomSpec ShapeModel ListFacts TreeModel TreeSpec BroadModel BroadSpec BroadFinal DynModel WorldModel WorldGraph WorldInv WorldClaims WorldCalls WorldHist WorldReach WorldExamples SafeSpec WorldSafe QueryModel CoverSpec CoverLogic CoverOps CoverToi QueryProofs CoverExamples PairSpec PairLogic PairOps PairStep PairCalls SleepSpec SleepProofs.
Import ListNotations.
Local Open Scope R_scope.

(** ** an environment over the reals: the default filter, contacts never touch, nothing moves *)
Definition p_filter {T} (w : WorldModel.world T) (f g : nat) : bool :=
  match w_fixtures w f, w_fixtures w g with Some x, Some y => should_collide (f_filter x) (f_filter y) | _, _ => false end.
Definition p_point : mpoint R := MP (V2 0 0) 0 0 cid_default.
Definition p_solution (w : WorldModel.world R) : solution R := Solution (r_idle w) (fun _ => [p_point; p_point]) false.
Definition p_env : env R :=
  Env p_filter (fun w e c => CEdit (cf_enabled (c_flags c)) (c_friction c) (c_restitution c) (c_threshold c) (c_tangent_speed c) (c_manifold c))
      (fun _ _ => Ok (MF [p_point; p_point] (V2 0 0) (V2 0 0) MCircles 0)) (fun _ _ => Ok false) (fun _ _ => Ok (false, 1)) (fun w _ _ => Ok (p_solution w)) (fun w _ _ _ _ => Ok (p_solution w)).
Lemma p_plain : plain_filter p_env.
Proof. intros w f g x y Hx Hy. cbn. unfold p_filter. now rewrite Hx, Hy. Qed.
Lemma p_answers : answers p_env.
Proof. refine (conj _ (conj _ (conj _ (conj _ _)))); discriminate. Qed.
Lemma p_holds : holds_static p_env.
Proof.
  split; cbn; intros; match goal with K : Ok _ = Ok _ |- _ => injection K as <- end; cbn; unfold r_idle;
    match goal with Hb : w_bodies _ _ = Some _, K : settled _ |- _ => rewrite Hb; destruct K as (K1 & K2 & K3 & K4) end; cbn; unfold stays; cbn; auto 10.
Qed.
Lemma p_sound : sound_env p_env.
Proof.
  refine (conj _ (conj _ (conj _ (conj _ (conj _ _))))); cbn; intros; try (eexists; reflexivity); try assumption.
  - eexists. split; [reflexivity|]. split; cbn; lia.
  - eexists. split; [reflexivity|]. reflexivity.
Qed.
Lemma ordered_R : ordered R.
Proof. split; [apply Rlt_bool_true; rops; lra|]. intros a b c. cbn. rewrite !Rlt_bool_true'. lra. Qed.

(** ** two balls of radius 1, the static one at 0, the dynamic one at 1, asleep *)
Definition p_ok (w : WorldModel.world R) : Prop :=
  preach p_env w /\ treach p_env w /\ careful p_env w /\ w_locked w = false /\ w_step_complete w = true /\ (forall c, w_contacts w c = None) /\ (forall j, w_joints w j = None) /\
  (forall f x, w_fixtures w f = Some x -> f_shape x = r_circle).
Lemma p_call w c w' : p_ok w -> frank w c -> tame w c -> safe w c -> wrun p_env c w = Ok w' -> w_locked w' = false -> w_step_complete w' = true -> w_contacts w' = w_contacts w -> w_joints w' = w_joints w ->
  (forall f x, w_fixtures w' f = Some x -> f_shape x = r_circle) -> p_ok w'.
Proof.
  intros (A & B & C & _ & _ & D & F & _) Fr Ta Sa R L S Ec Ej G. unfold p_ok. rewrite Ec, Ej. refine (conj _ (conj _ (conj _ (conj L (conj S (conj D (conj F G))))))); [eapply preach_call|eapply treach_call|eapply careful_call]; eauto.
Qed.
Definition p_bodies (w : WorldModel.world R) (i : nat) (ty : btype) (x : R) : Prop := exists b, w_bodies w i = Some b /\ b_type b = ty /\ is_enabled b = true /\ b_xf b = Xf (V2 x 0) (rot_of 0).
Definition p_ball (w : WorldModel.world R) (f i : nat) : Prop := exists y, w_fixtures w f = Some y /\ f_body y = Some i /\ f_shape y = r_circle /\ f_filter y = filter_default.
Lemma p_new : exists w, p_ok w /\ w_next_body w = 0%nat /\ w_next_fixture w = 0%nat /\ w_fixtures w = (fun _ => None) /\ w_bodies w = (fun _ => None) /\ w_body_count w = 0%nat.
Proof.
  destruct (world_new true true) as [w0| |] eqn:Q0; [|discriminate|discriminate]. exists w0.
  assert (Q : w_locked w0 = false /\ w_step_complete w0 = true /\ w_next_body w0 = 0%nat /\ w_next_fixture w0 = 0%nat /\ w_fixtures w0 = (fun _ => None) /\ w_bodies w0 = (fun _ => None) /\ w_body_count w0 = 0%nat /\ (forall c, w_contacts w0 c = None) /\ (forall j, w_joints w0 j = None)).
  { clear -Q0. unfold world_new in Q0. destruct bp_new as [bp| |]; try discriminate. cbn [bind] in Q0. injection Q0 as <-. cbn. auto 12. }
  destruct Q as (L & S & N & M & F & B & K & C & J). split; [|auto]. unfold p_ok. rewrite F. refine (conj _ (conj _ (conj _ (conj L (conj S (conj C (conj J _))))))); [eapply preach_new|eapply treach_new|eapply careful_new|discriminate]; eauto.
Qed.
Lemma p_make_body w ty x : p_ok w -> exists w', wrun p_env (WCreateBody (r_body ty x)) w = Ok w' /\ p_ok w' /\ w_fixtures w' = w_fixtures w /\ w_next_fixture w' = w_next_fixture w /\
  w_next_body w' = S (w_next_body w) /\ w_body_count w' = S (w_body_count w) /\ p_bodies w' (w_next_body w) ty x /\ (forall i, i <> w_next_body w -> w_bodies w' i = w_bodies w i).
Proof.
  intros H. pose proof H as (P & T & C & HL & S & Ec & Ej & G). assert (A : Rle_bool 0 0 = true) by (apply Rle_bool_true; lra).
  assert (Eb : exists b, body_new (r_body ty x) = Ok b /\ b_type b = ty /\ is_enabled b = true /\ b_xf b = Xf (V2 x 0) (rot_of 0)).
  { unfold body_new, r_body. cbn [bd_position bd_lv bd_angle bd_av bd_angular_damping bd_linear_damping bd_type bd_awake bd_allow_sleep bd_bullet bd_fixed_rotation bd_enabled bd_gravity_scale].
    replace (vec_valid (V2 x 0)) with true by reflexivity. replace (vec_valid (V2 0 0)) with true by reflexivity. replace (b2_is_valid 0) with true by reflexivity.
    unfold nle, R_Num; cbn [nle nofZ]. rewrite A. cbn [andb b2_assert bind]. eexists. split; [reflexivity|]. repeat split. }
  destruct Eb as (b & Eb & Ty & En & X).
  assert (R : exists w', wrun p_env (WCreateBody (r_body ty x)) w = Ok w' /\ w_locked w' = false /\ w_step_complete w' = true /\ w_contacts w' = w_contacts w /\ w_joints w' = w_joints w /\ w_fixtures w' = w_fixtures w /\
    w_next_fixture w' = w_next_fixture w /\ w_next_body w' = Datatypes.S (w_next_body w) /\ w_body_count w' = Datatypes.S (w_body_count w) /\ w_bodies w' = put (w_bodies w) (w_next_body w) (Some b)).
  { unfold wrun, create_body. rewrite HL. cbn [negb b2_assert bind]. rewrite Eb. cbn [bind fst]. eexists. split; [reflexivity|]. cbn. auto 12. }
  destruct R as (w' & R & L' & S' & C' & J' & F' & N1 & N2 & N3 & B'). exists w'. split; [exact R|]. split; [|repeat (split; [assumption|]); split].
  - refine (p_call _ (WCreateBody (r_body ty x)) _ H Logic.I _ _ R L' S' C' J' _); [cbn; auto|exists b; exact Eb|now rewrite F'].
  - exists b. rewrite B'. unfold put. rewrite Nat.eqb_refl. auto.
  - intros i Hi. rewrite B'. unfold put. destruct (Nat.eqb_spec i (w_next_body w)); congruence.
Qed.
Lemma p_make_ball w i ty x : p_ok w -> p_bodies w i ty x -> exists w', wrun p_env (WCreateFixture i r_ball) w = Ok w' /\ p_ok w' /\ w_next_fixture w' = S (w_next_fixture w) /\
  w_next_body w' = w_next_body w /\ w_body_count w' = w_body_count w /\ p_ball w' (w_next_fixture w) i /\ (forall f, f <> w_next_fixture w -> w_fixtures w' f = w_fixtures w f) /\
  (forall k ty x, p_bodies w k ty x -> p_bodies w' k ty x) /\ (forall k, w_bodies w k = None -> w_bodies w' k = None).
Proof.
  intros H (b & Hb & Ty & En & X). pose proof H as (P & T & C & HL & S & Ec & Ej & G). pose proof (treach_J _ _ p_answers p_holds T) as (_ & (m & pw & n & B & _) & _). destruct (calls_any _ _ _ _ _ B) as (HC & _).
  assert (D0 : Rlt_bool 0 0 = false) by (apply Rlt_bool_false; lra).
  assert (R : exists w', wrun p_env (WCreateFixture i r_ball) w = Ok w' /\ w_locked w' = false /\ w_step_complete w' = true /\ w_contacts w' = w_contacts w /\ w_joints w' = w_joints w /\
    w_next_fixture w' = Datatypes.S (w_next_fixture w) /\ w_next_body w' = w_next_body w /\ w_body_count w' = w_body_count w /\ p_ball w' (w_next_fixture w) i /\ (forall f, f <> w_next_fixture w -> w_fixtures w' f = w_fixtures w f) /\
    (forall k ty x, p_bodies w k ty x -> p_bodies w' k ty x) /\ (forall k, w_bodies w k = None -> w_bodies w' k = None)).
  { unfold wrun, create_fixture. rewrite HL. cbn [negb b2_assert bind]. unfold get_body. rewrite Hb. cbn [unwrap bind]. unfold fixture_new. cbn [fd_shape r_ball r_circle shape_child_count bind].
    rewrite En. unfold create_proxies, get_fixture. cbn [w_fixtures set_w_next_fixture put_fixture set_w_fixtures]. unfold put at 1. rewrite Nat.eqb_refl. cbn [unwrap bind f_proxy_count Nat.eqb b2_assert f_shape shape_child_count f_proxies repeat].
    unfold for_range. unfold r_circle. cbn [shape_child_count bind Nat.sub for_from get nth_error shape_aabb w_bp set_w_next_fixture put_fixture set_w_fixtures].
    edestruct HC as (bp' & id & -> & _). cbn [bind set length Nat.ltb Nat.leb upd].
    unfold mod_body, get_body. cbn [w_bodies set_w_bp put_fixture set_w_fixtures set_w_next_fixture]. rewrite Hb. cbn [unwrap bind].
    cbn [fd_density r_ball]. cbn [nlt nofZ R_Num]. rewrite D0. cbn [fst bind]. eexists. split; [reflexivity|]. cbn. repeat (split; [solve [auto]|]).
    split; [unfold p_ball; cbn; unfold put; rewrite Nat.eqb_refl; eexists; repeat split|]. split; [intros f Hf; unfold put; destruct (Nat.eqb_spec f (w_next_fixture w)); congruence|]. split.
    - intros k ty0 x0 (b0 & Hk & K). unfold p_bodies. cbn. unfold put. destruct (Nat.eqb_spec k i) as [->|]; [|exists b0; auto]. rewrite Hb in Hk. injection Hk as <-. eexists. split; [reflexivity|]. exact K.
    - intros k Hk. unfold put. destruct (Nat.eqb_spec k i) as [->|]; [congruence|exact Hk]. }
  destruct R as (w' & R & L' & S' & C' & J' & N1 & N2 & N3 & Ba & Fo & Bo & Bn). exists w'. split; [exact R|]. split; [|auto 10].
  refine (p_call _ (WCreateFixture i r_ball) _ H Logic.I r_ball_box _ R L' S' C' J' _).
  - exists b. split; [exact Hb|]. split; [|cbn; rewrite D0; discriminate]. exists 1%nat. split; [reflexivity|]. intros xf k _. eexists. reflexivity.
  - intros f y Hf. destruct (Nat.eq_dec f (w_next_fixture w)) as [->|Ne]; [destruct Ba as (y' & Hy & _ & Sy & _); congruence|]. rewrite Fo in Hf by exact Ne. eauto.
Qed.
(* the dynamic body sleeps *)
Definition p_two (w : WorldModel.world R) : Prop :=
  p_ok w /\ p_bodies w 0 StaticBody 0 /\ p_bodies w 1 DynamicBody 1 /\ p_ball w 0 0 /\ p_ball w 1 1 /\ resting w /\ (w_body_count w <= 64)%nat /\ (forall i b, w_bodies w i = Some b -> b_type b <> KinematicBody).
Lemma p_world : exists w, p_two w.
Proof.
  destruct p_new as (w0 & H0 & N0 & M0 & F0 & B0 & K0).
  destruct (p_make_body w0 StaticBody 0 H0) as (w1 & _ & H1 & F1 & M1 & N1 & K1 & Q1 & O1). rewrite N0 in *. rewrite B0 in O1.
  destruct (p_make_ball w1 0 _ _ H1 Q1) as (w2 & _ & H2 & M2 & N2 & K2 & A2 & O2 & P2 & Z2). rewrite M1, M0 in *.
  destruct (p_make_body w2 DynamicBody 1 H2) as (w3 & _ & H3 & F3 & M3 & N3 & K3 & Q3 & O3). rewrite N2, N1 in *.
  destruct (p_make_ball w3 1 _ _ H3 Q3) as (w4 & _ & H4 & M4 & N4 & K4 & A4 & O4 & P4 & Z4). rewrite M3, M2 in *.
  assert (X4 : p_bodies w4 0 StaticBody 0). { apply P4. unfold p_bodies. rewrite O3 by discriminate. apply P2, Q1. } pose proof (P4 _ _ _ Q3) as Y4.
  assert (Z : forall k, k <> 0%nat -> k <> 1%nat -> w_bodies w4 k = None). { intros k U0 U1. apply Z4. rewrite O3 by exact U1. apply Z2. now rewrite O1. }
  assert (A0 : p_ball w4 0 0). { destruct A2 as (y & Hy & R). exists y. rewrite O4 by discriminate. rewrite F3. auto. }
  clear -H4 X4 Y4 Z A0 A4 K4 K3 K2 K1 K0. destruct Y4 as (b & Hb & Ty & En & X). pose proof H4 as (_ & _ & _ & HL & S & _ & _ & G).
  assert (R : wrun p_env (WBody 1 (BAwake false)) w4 = Ok (put_body 1 (set_awake false b) w4)) by (cbn; unfold mod_body, get_body; rewrite Hb; reflexivity).
  exists (put_body 1 (set_awake false b) w4). assert (Ts : b_type (set_awake false b) = b_type b /\ is_awake (set_awake false b) = false /\ is_enabled (set_awake false b) = is_enabled b /\ b_xf (set_awake false b) = b_xf b) by (unfold set_awake, is_static; rewrite Ty; cbn; auto).
  destruct Ts as (T1 & T2 & T3 & T4). split; [|split; [|split; [|split; [exact A0|split; [exact A4|split; [|split]]]]]].
  - refine (p_call _ (WBody 1 (BAwake false)) _ H4 Logic.I Logic.I _ R HL S eq_refl eq_refl G). cbn. congruence.
  - destruct X4 as (c & Hc & K). exists c. cbn. unfold put. auto.
  - exists (set_awake false b). cbn. unfold put. cbn [Nat.eqb]. rewrite T1, T3, T4. auto.
  - intros i c. cbn. unfold put. destruct (Nat.eqb_spec i 1) as [->|U1]; [intros Q; injection Q as <-; now left|]. destruct (Nat.eq_dec i 0) as [->|U0]; [|rewrite Z by auto; discriminate]. intros Q. right. destruct X4 as (d & Hd & Td & _). congruence.
  - cbn. rewrite K4, K3, K2, K1, K0. lia.
  - intros i c. cbn. unfold put. destruct (Nat.eqb_spec i 1) as [->|U1]; [intros Q; injection Q as <-; congruence|]. destruct (Nat.eq_dec i 0) as [->|U0]; [|rewrite Z by auto; discriminate]. destruct X4 as (d & Hd & Td & _). intros Q. congruence.
Qed.
Lemma p_child w f i ty x : p_ball w f i -> p_bodies w i ty x -> child_box w f 0 (AABB (V2 (x - 1) (-1)) (V2 (x + 1) 1)).
Proof. intros (y & Hy & Hi & Hs & _) (b & Hb & _ & En & X). apply (r_child w f i x). exists y, b. auto 10. Qed.
Lemma p_fat w f i ty x : covered w -> p_ball w f i -> p_bodies w i ty x -> exists a, fat_box w f 0 a /\ inside (AABB (V2 (x - 1) (-1)) (V2 (x + 1) 1)) a.
Proof.
  intros C Hf Hb. destruct (C f 0%nat _ (p_child _ _ _ _ _ Hf Hb)) as (id & fat & P & G & In). exists fat. split; [|exact In]. destruct Hf as (y & Hy & Hi & Hs & _), Hb as (b & Hb & _ & En & _). split; [|split; [|eauto]].
  - exists i. split; [unfold body_of; now rewrite Hy|]. exists b. auto.
  - unfold children. rewrite Hy, Hs. cbn. lia.
Qed.
Lemma p_meet (a b : aabb R) : inside (AABB (V2 (0 - 1) (-1)) (V2 (0 + 1) 1)) a -> inside (AABB (V2 (1 - 1) (-1)) (V2 (1 + 1) 1)) b -> ~ separated a b.
Proof. unfold inside, separated. cbn. rewrite !Rle_bool_true', !Rlt_bool_true'. lra. Qed.
Lemma p_may w : p_bodies w 0 StaticBody 0 -> p_bodies w 1 DynamicBody 1 -> p_ball w 0 0 -> p_ball w 1 1 -> (forall j, w_joints w j = None) -> may_touch w 0 1.
Proof.
  intros _ (b & Hb & Ty & _) (x & Hx & Bx & _ & Fx) (y & Hy & By & _ & Fy) J. exists x, y, 0%nat, 1%nat. repeat (split; [solve [auto]|]). split; [right; exists b; auto|]. split; [|rewrite Fx, Fy; reflexivity]. intros (j & z & Hz & _). rewrite J in Hz. discriminate.
Qed.
Lemma p_step : exists w w' a b a' b', answers p_env /\ plain_filter p_env /\ holds_static p_env /\ preach p_env w /\ treach p_env w /\ w_step_complete w = true /\ wrun p_env (WStep 1) w = Ok w' /\ treach p_env w' /\
  fat_box w 0 0 a /\ fat_box w 1 0 b /\ ~ separated a b /\ may_touch w 0 1 /\ ~ has_contact w 0 0 1 0 /\
  fat_box w' 0 0 a' /\ fat_box w' 1 0 b' /\ ~ separated a' b' /\ may_touch w' 0 1 /\ has_contact w' 0 0 1 0 /\ resting w /\ filtered w /\ tame w (WStep 1) /\ p_bodies w' 0 StaticBody 0 /\ p_bodies w' 1 DynamicBody 1 /\ p_ball w' 0 0 /\ p_ball w' 1 1.
Proof.
  destruct p_world as (w & H & X0 & X1 & A0 & A1 & R & K & Nk). pose proof H as (P & T & C & HL & S & Ec & Ej & G).
  assert (Sf : safe w (WStep 1)). { split; [|now left]. intros f g x y a b Hx Hy _ _ _ _. rewrite (G f x Hx), (G g y Hy). discriminate. }
  destruct (careful_returns p_env p_sound ordered_R w (WStep 1) C Sf) as (w' & Rn & _). pose proof (treach_covered p_env w p_answers p_holds T) as Cw.
  assert (Tm : tame w (WStep 1)) by (cbn; intros _; exact Nk). assert (T' : treach p_env w') by (eapply treach_call; eauto).
  pose proof (treach_covered p_env w' p_answers p_holds T') as Cw'.
  assert (Fi : filtered w) by (intros c x Hc; rewrite Ec in Hc; discriminate).
  destruct (step_at_rest p_env w 1 w' (preach_wreach p_env w P) R Fi S p_answers Rn) as (B' & F' & _ & _ & J' & _).
  assert (Tb : forall i ty x, p_bodies w i ty x -> p_bodies w' i ty x).
  { intros i ty x (b & Hb & K1 & K2 & K3). specialize (B' i). rewrite Hb in B'. destruct (w_bodies w' i) as [b'|] eqn:Eb; [|easy]. cbn [option_map] in B'. assert (Q : core b' = core b) by congruence. exists b'. split; [exact Eb|].
    change (b_type (core b') = ty /\ is_enabled (core b') = true /\ b_xf (core b') = Xf (V2 x 0) (rot_of 0)). rewrite Q. auto. }
  assert (Tf : forall f i, p_ball w f i -> p_ball w' f i) by (intros f i (y & Hy & Ky); exists y; rewrite F'; auto).
  assert (Ej' : forall j, w_joints w' j = None) by (intros j; specialize (J' j); rewrite Ej in J'; now destruct (w_joints w' j)).
  destruct (p_fat w 0 0 _ _ Cw A0 X0) as (a & Fa & Ia). destruct (p_fat w 1 1 _ _ Cw A1 X1) as (b & Fb & Ib). destruct (p_fat w' 0 0 _ _ Cw' (Tf _ _ A0) (Tb _ _ _ X0)) as (a' & Fa' & Ia'). destruct (p_fat w' 1 1 _ _ Cw' (Tf _ _ A1) (Tb _ _ _ X1)) as (b' & Fb' & Ib').
  assert (Mt : may_touch w 0 1) by (apply p_may; auto). assert (Mt' : may_touch w' 0 1) by (apply p_may; auto).
  exists w, w', a, b, a', b'. refine (conj p_answers (conj p_plain (conj p_holds (conj P (conj T (conj S (conj Rn (conj T' (conj Fa (conj Fb (conj (p_meet a b Ia Ib) (conj Mt (conj _ (conj Fa' (conj Fb' (conj (p_meet a' b' Ia' Ib') (conj Mt' (conj _ (conj R (conj Fi (conj Tm (conj (Tb _ _ _ X0) (conj (Tb _ _ _ X1) (conj (Tf _ _ A0) (Tf _ _ A1))))))))))))))))))))))))).
  - intros (c & x & Hc & _). rewrite Ec in Hc. discriminate.
  - apply (pairs_after_step p_env p_answers p_plain w 1 w' P S ltac:(lra) Rn 0 0 1 0 a' b')%nat; auto. now apply p_meet.
Qed.

(* before the step the pair waits and has no contact; the step makes the contact *)
Lemma pair_ex : exists w w' a b a' b', answers p_env /\ plain_filter p_env /\ holds_static p_env /\ preach p_env w /\ treach p_env w /\ w_step_complete w = true /\ wrun p_env (WStep 1) w = Ok w' /\ treach p_env w' /\
  fat_box w 0 0 a /\ fat_box w 1 0 b /\ ~ separated a b /\ may_touch w 0 1 /\ ~ has_contact w 0 0 1 0 /\
  fat_box w' 0 0 a' /\ fat_box w' 1 0 b' /\ ~ separated a' b' /\ may_touch w' 0 1 /\ has_contact w' 0 0 1 0 /\ resting w /\ filtered w.
Proof.
  destruct p_step as (w & w' & a & b & a' & b' & H1 & H2 & H3 & H4 & H5 & H6 & H7 & H8 & H9 & H10 & H11 & H12 & H13 & H14 & H15 & H16 & H17 & H18 & H19 & H20 & _). exists w, w', a, b, a', b'.
  exact (conj H1 (conj H2 (conj H3 (conj H4 (conj H5 (conj H6 (conj H7 (conj H8 (conj H9 (conj H10 (conj H11 (conj H12 (conj H13 (conj H14 (conj H15 (conj H16 (conj H17 (conj H18 (conj H19 H20))))))))))))))))))).
Qed.
Lemma boxes_ex : exists w w', answers p_env /\ plain_filter p_env /\ holds_static p_env /\ preach p_env w /\ treach p_env w /\ tame w (WStep 1) /\ w_step_complete w = true /\ wrun p_env (WStep 1) w = Ok w' /\
  child_box w' 0 0 (AABB (V2 (0 - 1) (-1)) (V2 (0 + 1) 1)) /\ child_box w' 1 0 (AABB (V2 (1 - 1) (-1)) (V2 (1 + 1) 1)) /\ may_touch w' 0 1.
Proof.
  destruct p_step as (w & w' & a & b & a' & b' & H1 & H2 & H3 & H4 & H5 & H6 & H7 & _ & _ & _ & _ & _ & _ & _ & _ & _ & H8 & _ & _ & _ & H9 & X0 & X1 & A0 & A1). exists w, w'.
  refine (conj H1 (conj H2 (conj H3 (conj H4 (conj H5 (conj H9 (conj H6 (conj H7 (conj _ (conj _ H8)))))))))); eapply p_child; eauto.
Qed.

(** ** single precision: pairs without a contact *)
Lemma ex_plain impact : plain_filter (ex_env impact).
Proof. intros w f g x y Hx Hy. cbn. unfold ex_filter. now rewrite Hx, Hy. Qed.
Definition fat_of (w : fworld) (f : nat) : option (aabb f32) :=
  match w_fixtures w f with
  | Some x =>
    match f_body x with
    | Some i =>
      match w_bodies w i, nth_error (f_proxies x) 0 with
      | Some b, Some q =>
        match fp_id q with
        | Some id => match get_fat_aabb (bp_tree (w_bp w)) id with Ok a => if is_enabled b && Nat.ltb 0 (children w f) then Some a else None | _ => None end
        | None => None
        end
      | _, _ => None
      end
    | None => None
    end
  | None => None
  end.
Lemma fat_of_ok w f a : fat_of w f = Some a -> fat_box w f 0 a.
Proof.
  unfold fat_of. destruct (w_fixtures w f) as [x|] eqn:Hx; [|discriminate]. destruct (f_body x) as [i|] eqn:Hi; [|discriminate]. destruct (w_bodies w i) as [b|] eqn:Hb; [|discriminate]. destruct (nth_error (f_proxies x) 0) as [q|] eqn:Hq; [|discriminate].
  destruct (fp_id q) as [id|] eqn:Hid; [|discriminate]. destruct (get_fat_aabb _ _) as [a'| |] eqn:Hg; try discriminate. destruct (_ && _) eqn:P; [|discriminate]. intros Q. injection Q as <-. apply andb_prop in P as [P1 P2]. apply Nat.ltb_lt in P2.
  split; [exists i; split; [unfold body_of; now rewrite Hx|exists b; auto]|]. split; [exact P2|]. exists id. split; [exists x, q; auto|exact Hg].
Qed.
Definition apart (a b : aabb f32) : bool := nlt (vx (hi a)) (vx (lo b)) || nlt (vy (hi a)) (vy (lo b)) || nlt (vx (hi b)) (vx (lo a)) || nlt (vy (hi b)) (vy (lo a)).
Lemma apart_ok a b : apart a b = false -> ~ separated a b.
Proof. unfold apart, separated. rewrite !orb_false_iff. intros [[[A B] C] D]. intuition congruence. Qed.
Definition may_of (w : fworld) (f g : nat) : bool :=
  match w_fixtures w f, w_fixtures w g with
  | Some x, Some y =>
    match f_body x, f_body y with
    | Some a, Some b => negb (Nat.eqb a b) && (match w_bodies w a with Some c => btype_eqb (b_type c) DynamicBody | None => false end) && should_collide (f_filter x) (f_filter y)
    | _, _ => false
    end
  | _, _ => false
  end.
Lemma may_of_ok w f g : may_of w f g = true -> (forall j, w_joints w j = None) -> may_touch w f g.
Proof.
  unfold may_of. destruct (w_fixtures w f) as [x|] eqn:Hx; [|discriminate]. destruct (w_fixtures w g) as [y|] eqn:Hy; [|discriminate]. destruct (f_body x) as [a|] eqn:Ha; [|discriminate]. destruct (f_body y) as [b|] eqn:Hb; [|discriminate].
  intros H J. apply andb_prop in H as [H F]. apply andb_prop in H as [H D]. apply negb_true_iff, Nat.eqb_neq in H. destruct (w_bodies w a) as [c|] eqn:Hc; [|discriminate].
  exists x, y, a, b. repeat (split; [solve [auto]|]). split; [left; exists c; split; [exact Hc|]; now destruct (b_type c)|]. split; [|exact F]. intros (j & z & Hz & _). rewrite J in Hz. discriminate.
Qed.
(* the balls 0 and 1: their boxes overlap, they may touch, there is no contact and no joint at all *)
Definition unpaired (w : fworld) : bool :=
  match fat_of w 0, fat_of w 1, w_contact_list w, w_joint_list w with Some a, Some b, [], [] => negb (apart a b) && may_of w 0 1 | _, _, _, _ => false end.
Lemma no_items impact w : wreach (ex_env impact) w -> (w_contact_list w = [] -> forall c, w_contacts w c = None) /\ (w_joint_list w = [] -> forall j, w_joints w j = None).
Proof.
  intros H. pose proof (reach_W _ (ex_answers impact) w H) as HW. destruct (W_graph _ _ _ HW) as (_ & _ & ((_ & C & _) & _) & ((_ & J & _) & _)). split.
  - intros E c. specialize (C c). cbn in C. rewrite E in C. destruct (w_contacts w c); [|reflexivity]. exfalso. destruct C as [_ C]. now apply C.
  - intros E j. specialize (J j). cbn in J. rewrite E in J. destruct (w_joints w j); [|reflexivity]. exfalso. destruct J as [_ J]. now apply J.
Qed.
Lemma unpaired_ok impact w : wreach (ex_env impact) w -> unpaired w = true -> ~ all_pairs w.
Proof.
  unfold unpaired. intros R. destruct (no_items impact w R) as [C J]. destruct (fat_of w 0) as [a|] eqn:Fa; [|discriminate]. destruct (fat_of w 1) as [b|] eqn:Fb; [|discriminate]. destruct (w_contact_list w); [|discriminate]. destruct (w_joint_list w); [|discriminate].
  intros H K. apply andb_prop in H as [A M]. apply negb_true_iff in A. destruct (K 0 0 1 0 a b (fat_of_ok _ _ _ Fa) (fat_of_ok _ _ _ Fb) (apart_ok _ _ A) (may_of_ok _ _ _ M (J eq_refl)))%nat as (c & x & Hc & _). rewrite (C eq_refl) in Hc. discriminate.
Qed.
(* two balls that overlap are joined, stepped, and released again *)
Definition joined : list (wcall f32) :=
  [WCreateBody (ex_bodydef DynamicBody (nofZ 0) (nofZ 0) false); WCreateFixture 0 ball; WCreateBody (ex_bodydef DynamicBody (nlit 4 10) (nofZ 0) false); WCreateFixture 1 ball;
   WCreateJoint 0 1 false; tick; WDestroyJoint 0].
(* two balls that are a unit apart and sleep, far from the new origin *)
Definition shifted : list (wcall f32) :=
  [WCreateBody (ex_bodydef DynamicBody (nofZ 0) (nofZ 0) false); WCreateFixture 0 ball; WCreateBody (ex_bodydef DynamicBody (nofZ 1) (nofZ 0) false); WCreateFixture 1 ball;
   tick; WBody 0 (BAwake false); WBody 1 (BAwake false); WShift (at_x (nofZ (-16777216)))].
Definition unpaired_after (cs : list (wcall f32)) : bool := ex_check E0 cs (fun w => w_step_complete w && match wrun E0 tick w with Ok w' => unpaired w' | _ => false end).
Lemma unpaired_after_ok cs : unpaired_after cs = true -> exists w w', wreach E0 w /\ w_step_complete w = true /\ wrun E0 tick w = Ok w' /\ ~ all_pairs w'.
Proof.
  intros H. destruct (ex_checked _ _ _ H) as (w & R & P). apply andb_prop in P as [S P]. destruct (wrun E0 tick w) as [w'| |] eqn:Q; try discriminate. exists w, w'. repeat (split; [assumption|]). eapply unpaired_ok; [|exact P]. eapply wreach_call; eauto.
Qed.
Lemma joined_refuted : exists w w', answers E0 /\ plain_filter E0 /\ wreach E0 w /\ w_step_complete w = true /\ wrun E0 tick w = Ok w' /\ ~ all_pairs w'.
Proof. destruct (unpaired_after_ok joined) as (w & w' & R); [vm_compute; reflexivity|]. exists w, w'. exact (conj (ex_answers None) (conj (ex_plain None) R)). Qed.
(* programs without WDestroyJoint *)
Definition no_release (c : wcall f32) : bool := match c with WDestroyJoint _ => false | _ => true end.
Lemma run_preach cs : forallb no_release cs = true -> forall w w', preach E0 w -> wruns E0 cs w = Ok w' -> preach E0 w'.
Proof.
  induction cs as [|c cs IH]; intros F w w' H R; cbn [wruns forallb] in *; [now injection R as <-|]. apply andb_prop in F as [F1 F2]. destruct (wrun E0 c w) as [w1| |] eqn:R1; try discriminate. cbn [bind] in R. apply (IH F2 w1 w'); [|exact R].
  apply (preach_call E0 w c w1 H); [|exact R1]. now destruct c.
Qed.
Lemma unpaired_kept cs : forallb no_release cs = true -> unpaired_after cs = true -> exists w w', preach E0 w /\ w_step_complete w = true /\ wrun E0 tick w = Ok w' /\ ~ all_pairs w'.
Proof.
  intros F H. unfold unpaired_after, ex_check in H. destruct (ex_run E0 cs) as [w| |] eqn:Q; try discriminate. apply andb_prop in H as [S P]. destruct (wrun E0 tick w) as [w'| |] eqn:Q'; try discriminate.
  exists w, w'. refine (conj _ (conj S (conj Q' _))).
  - unfold ex_run in Q. destruct (world_new true true) as [w0| |] eqn:Q0; try discriminate. cbn [bind] in Q. apply (run_preach cs F w0 w); [eapply preach_new; exact Q0|exact Q].
  - eapply (unpaired_ok None); [|exact P]. eapply wreach_call; [|exact Q']. eapply ex_run_reach; eauto.
Qed.
Lemma shifted_refuted : exists w w', answers E0 /\ plain_filter E0 /\ preach E0 w /\ w_step_complete w = true /\ wrun E0 tick w = Ok w' /\ ~ all_pairs w'.
Proof. destruct (unpaired_kept shifted) as (w & w' & R); [reflexivity|vm_compute; reflexivity|]. exists w, w'. exact (conj (ex_answers None) (conj (ex_plain None) R)). Qed.

(** ** single precision: a world that sleeps, and what wakes it *)
(* the two balls touch and sleep *)
Definition asleep : list (wcall f32) :=
  [WCreateBody (ex_bodydef DynamicBody (nofZ 0) (nofZ 0) false); WCreateFixture 0 ball; WCreateBody (ex_bodydef DynamicBody (nlit 4 10) (nofZ 0) false); WCreateFixture 1 ball; tick; WBody 0 (BAwake false); WBody 1 (BAwake false)].
Definition sleeps (w : fworld) (i : nat) : bool := match w_bodies w i with Some b => negb (is_awake b) | None => false end.
Definition all_sleep (w : fworld) : bool := forallb (sleeps w) (w_body_list w).
Definition no_flag (w : fworld) : bool := forallb (fun c => match w_contacts w c with Some x => negb (cf_filter (c_flags x)) | None => false end) (w_contact_list w).
Definition one_touches (w : fworld) : bool := match w_contact_list w with [c] => match w_contacts w c with Some x => cf_touching (c_flags x) | None => false end | _ => false end.
Lemma all_sleep_ok w : wreach E0 w -> all_sleep w = true -> resting w.
Proof.
  intros H A i b Hb. left. pose proof (reach_W _ (ex_answers None) w H) as HW. destruct (W_graph _ _ _ HW) as ((_ & C & _) & _). specialize (C i). cbn in C. rewrite Hb in C. unfold all_sleep in A. rewrite forallb_forall in A. assert (Hi : In i (w_body_list w)) by (apply C; discriminate).
  specialize (A i Hi). unfold sleeps in A. rewrite Hb in A. now apply negb_true_iff in A.
Qed.
Lemma no_flag_ok w : wreach E0 w -> no_flag w = true -> filtered w.
Proof.
  intros H A c x Hc. pose proof (reach_W _ (ex_answers None) w H) as HW. destruct (W_graph _ _ _ HW) as (_ & _ & ((_ & C & _) & _) & _). specialize (C c). cbn in C. rewrite Hc in C. unfold no_flag in A. rewrite forallb_forall in A. assert (Hi : In c (w_contact_list w)) by (apply C; discriminate).
  specialize (A c Hi). rewrite Hc in A. now apply negb_true_iff in A.
Qed.
Lemma sleep_ex : exists w w', answers E0 /\ wreach E0 w /\ resting w /\ filtered w /\ w_step_complete w = true /\ one_touches w = true /\ wrun E0 tick w = Ok w'.
Proof.
  destruct (ex_checked E0 asleep (fun w => all_sleep w && no_flag w && w_step_complete w && one_touches w && is_ok (wrun E0 tick w))) as (w & R & P); [vm_compute; reflexivity|].
  apply andb_prop in P as [P P5]. apply andb_prop in P as [P P4]. apply andb_prop in P as [P P3]. apply andb_prop in P as [P1 P2]. destruct (wrun E0 tick w) as [w'| |] eqn:Q; try discriminate.
  exists w, w'. exact (conj (ex_answers None) (conj R (conj (all_sleep_ok w R P1) (conj (no_flag_ok w R P2) (conj P3 (conj P4 Q)))))).
Qed.
(* a joint that forbids the contact wakes them, in the step *)
Lemma sleep_refuted : exists w w', answers E0 /\ wreach E0 w /\ resting w /\ w_step_complete w = true /\ wrun E0 tick w = Ok w' /\ ~ undisturbed w w'.
Proof.
  destruct (ex_checked E0 (asleep ++ [WCreateJoint 0 1 false]) (fun w => all_sleep w && w_step_complete w && sleeps w 0 && match wrun E0 tick w with Ok w' => negb (sleeps w' 0) | _ => false end)) as (w & R & P); [vm_compute; reflexivity|].
  apply andb_prop in P as [P P4]. apply andb_prop in P as [P P3]. apply andb_prop in P as [P1 P2]. destruct (wrun E0 tick w) as [w'| |] eqn:Q; try discriminate.
  exists w, w'. refine (conj (ex_answers None) (conj R (conj (all_sleep_ok w R P1) (conj P2 (conj Q _))))). intros (U & _). specialize (U 0%nat). unfold sleeps in P3, P4. destruct (w_bodies w 0) as [b|]; [|discriminate]. destruct (w_bodies w' 0) as [b'|]; [|discriminate]. cbn [option_map] in U.
  assert (K : is_awake (core b') = is_awake (core b)) by congruence. change (is_awake (core b')) with (is_awake b') in K. change (is_awake (core b)) with (is_awake b) in K. rewrite K, P3 in P4. discriminate.
Qed.
