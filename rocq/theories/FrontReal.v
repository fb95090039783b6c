(** Shapes that meet have a touching contact once the step has collided the fixtures. *)
From Coq Require Import List ZArith Bool Arith Lia Reals Lra.
From Verif Require Import Base ListFacts Num NumLaws RTac Math Collision Manifold Filter MathSpec GeomSpec ShapeModel TreeModel TreeSpec BroadModel DynModel DynSpec WorldModel WorldGraph WorldClaims WorldLogic WorldPhys WorldContact WorldInv WorldSolve WorldToi WorldStep WorldCalls WorldHist WorldFinal WorldAfter WorldNews WorldReach CoverSpec CoverLogic CoverOps CoverStep CoverWorld CoverToi QueryProofs PairSpec PairLogic PairOps PairStep PairCalls PairFinal FrontSpec FrontProofs OrderProofs NarrowModel NarrowSpec NarrowProofs.
Import ListNotations.
Local Open Scope R_scope.
Implicit Types w v : WorldModel.world R.

Section FrontReal.
  Variable E : env R.
  Hypothesis EA : answers E.
  Hypothesis EN : narrow E.

  Lemma front_order w w2 c x : wreach E w -> step_front E w = Ok w2 -> w_contacts w2 c = Some x -> rightly w (pair_key x).
  Proof.
    intros H R Hx. assert (O0 : O w w) by (apply O_refl, (reach_order E w EA H)). unfold step_front in R. apply bind_ok in R as (w1 & Q1 & R).
    assert (O1 : O w w1). { destruct (w_new_contacts w); [|now injection Q1 as <-]. apply bind_ok in Q1 as (v & Qv & Q1). injection Q1 as <-. exact (O_find E w w O0 v Qv). }
    destruct (O_collide E w (set_w_locked true w1) O1 w2 R) as (_ & B). eauto.
  Qed.
  (* what the environment answers for the contact *)
  Lemma front_answer w w2 v c x f k i sa xa g l j sb xb : wreach E w -> step_front E w = Ok w2 -> same_sight w2 v c x -> pair_key x = ((f, k), (g, l)) -> stands w f i sa xa -> stands w g j sb xb ->
    evaluate v c = evaluate_shapes sa k xa sb xb.
  Proof.
    intros H R (Vf & Vx & Vc) K (y & a & Hy & Ya & Ha & Sy & Xa & _) (z & b & Hz & Zb & Hb & Sz & Xb & _). destruct (front_same E _ w w2 (env_any E EA) (reach_W E EA w H) R) as (F & _ & B).
    assert (Bx : forall n d, w_bodies w n = Some d -> exists d', w_bodies v n = Some d' /\ b_xf d' = b_xf d).
    { intros n d Hd. specialize (Vx n). specialize (B n). rewrite Hd in B. destruct (w_bodies w2 n) as [d2|]; [|discriminate]. destruct (w_bodies v n) as [d'|]; [|discriminate]. cbn in Vx, B. unfold posture in B. exists d'. split; [reflexivity|]. congruence. }
    destruct (Bx i a Ha) as (a' & Ha' & Xa'), (Bx j b Hb) as (b' & Hb' & Xb'). unfold evaluate, contact_ends, get_contact, get_fixture, get_body. destruct (w_contacts v c) as [t|]; [|discriminate]. cbn in Vc. unfold pair_key in Vc, K. injection Vc as V1 V2 V3 V4. injection K as K1 K2 K3 K4.
    cbn [unwrap bind]. rewrite Vf, F, V1, V3, K1, K3, Hy, Hz. cbn [unwrap bind]. rewrite Ya, Zb. cbn [unwrap bind]. rewrite Ha', Hb'. cbn [unwrap bind]. congruence.
  Qed.
  Lemma front_busy w w2 x f k i sa xa g l j sb xb : wreach E w -> step_front E w = Ok w2 -> pair_key x = ((f, k), (g, l)) -> stands w f i sa xa -> stands w g j sb xb -> at_work w i \/ at_work w j ->
    busy w w2 x /\ sensor_contact w2 x = false.
  Proof.
    intros H R K (y & a & Hy & Ya & _ & _ & _ & _ & Ns) (z & b & Hz & Zb & _ & _ & _ & _ & Ns') Wk. destruct (front_same E _ w w2 (env_any E EA) (reach_W E EA w H) R) as (F & _ & _). injection K as K1 K2 K3 K4. split.
    - exists i, j. split; [|exact Wk]. unfold WorldClaims.bodies_of, body_of. rewrite F, K1, K3, Hy, Hz, Ya, Zb. reflexivity.
    - unfold sensor_contact. rewrite F, K1, K3, Hy, Hz, Ns, Ns'. reflexivity.
  Qed.
  Lemma rightly_class w f k g l sa xa i sb xb j : rightly w ((f, k), (g, l)) -> stands w f i sa xa -> stands w g j sb xb -> class_pair sa sb.
  Proof.
    intros (y & z & Hy & Hz & R) (y' & a & Hy' & _ & _ & Sy & _) (z' & b & Hz' & _ & _ & Sz & _). cbn in Hy, Hz. rewrite Hy in Hy'. rewrite Hz in Hz'. injection Hy' as <-. injection Hz' as <-. rewrite Sy, Sz in R. destruct sa, sb; cbn in R; try discriminate R; exact Logic.I.
  Qed.
  Lemma front_flag w w2 c x f k i sa xa g l j sb xb b : wreach E w -> step_front E w = Ok w2 -> w_contacts w2 c = Some x -> pair_key x = ((f, k), (g, l)) -> stands w f i sa xa -> stands w g j sb xb -> at_work w i \/ at_work w j ->
    says b (evaluate_shapes sa k xa sb xb) -> cf_touching (c_flags x) = b.
  Proof.
    intros H R Hx K Sa Sb Wk (m & Em & Cm). destruct (front_busy _ _ _ _ _ _ _ _ _ _ _ _ _ H R K Sa Sb Wk) as (Bu & Ns). destruct (reach_front E EA w w2 H R c x Hx Bu) as ((v & Vs & An) & _). rewrite Ns in An. destruct An as (m' & Em' & ->).
    rewrite <- (front_answer w w2 v c x _ _ _ _ _ _ _ _ _ _ H R Vs K Sa Sb) in Em. apply EN in Em. congruence.
  Qed.
  Theorem front_touch w w2 c x f k i sa xa g l j sb xb : wreach E w -> step_front E w = Ok w2 -> w_contacts w2 c = Some x -> between x f k g l -> stands w f i sa xa -> stands w g j sb xb -> at_work w i \/ at_work w j ->
    unit_rot (xq xa) -> unit_rot (xq xb) -> (meets sa k xa sb l xb -> cf_touching (c_flags x) = true) /\ (clear sa k xa sb l xb -> cf_touching (c_flags x) = false).
  Proof.
    intros H R Hx Bt Sa Sb Wk Ua Ub. pose proof (front_order _ _ _ _ H R Hx) as Ro. destruct Bt as [K|K]; rewrite K in Ro; split; intros M.
    - eapply (front_flag w w2 c x f k i sa xa g l j sb xb); eauto. now apply (meets_touch sa k xa sb l xb).
    - eapply (front_flag w w2 c x f k i sa xa g l j sb xb); eauto. now apply (clear_apart sa k xa sb l xb).
    - eapply (front_flag w w2 c x g l j sb xb f k i sa xa); eauto; [tauto|]. apply (meets_touch sa k xa sb l xb); auto. eapply rightly_class; eauto.
    - eapply (front_flag w w2 c x g l j sb xb f k i sa xa); eauto; [tauto|]. apply (clear_apart sa k xa sb l xb); auto. eapply rightly_class; eauto.
  Qed.

  Hypothesis EF : plain_filter E.
  Hypothesis EH : holds_static E.
  Lemma meets_child sa k xa sb l xb : meets sa k xa sb l xb -> (exists n, shape_child_count sa = Ok n /\ (k < n)%nat) /\ (exists n, shape_child_count sb = Ok n /\ (l < n)%nat).
  Proof.
    intros []; (split; [|exists 1%nat; split; [reflexivity|lia]]); try (exists 1%nat; split; [reflexivity|lia]).
    all: unfold get_child_edge in H; apply bind_ok in H as (n & Hn & H); apply bind_ok in H as (u & Hu & _); exists n; split; [exact Hn|]; unfold b2_assert in Hu; match type of Hu with context [Nat.ltb ?a ?b] => destruct (Nat.ltb_spec a b); [assumption|discriminate] end.
  Qed.
  Lemma front_world w w2 : preach E w -> treach E w -> pairs_due E w -> step_front E w = Ok w2 -> WorldInv.W True any w2 /\ M false none w2 /\ covered w2.
  Proof.
    intros Pw Tw Du R. pose proof (preach_wreach E w Pw) as H. pose proof (reach_W E EA w H) as HW. destruct (front_fresh E _ w w2 (env_any E EA) HW R) as (w1 & _ & W1 & _ & Rc). destruct (sat_true _ _ (sat_collide True any E (env_any E EA) w1 W1) _ Rc) as (W2 & _).
    split; [exact W2|]. clear w1 W1 Rc. pose proof (treach_J E w EA EH Tw) as Jw. pose proof (own_W _ _ _ HW) as Ow.
    assert (S0 : St w none w) by (split; [eapply J_weak; [exact Jw|intros f []]|apply kin_refl]). pose proof (preach_P E EA EF w Pw) as P0.
    unfold step_front in R. apply bind_ok in R as (w1 & Q1 & R).
    assert (St w none w1 /\ P false w1) as (S1 & P1).
    { destruct (w_new_contacts w) eqn:Nc.
      - apply bind_ok in Q1 as (v & Qv & Q1). injection Q1 as <-. split; [exact (St_find E w none w Ow S0 v Qv)|]. exact (proj1 (P_find E EF w P0 v Qv)).
      - injection Q1 as <-. split; [exact S0|]. destruct Du as [Du|(v & dt & Pv & Sv & Hd & Rv)]; [congruence|]. exact (proj2 (P_step E EF dt v (preach_P E EA EF v Pv) w Rv) Sv Hd). }
    assert (S1' : St w none (set_w_locked true w1)) by exact S1. assert (P1' : P false (set_w_locked true w1)) by exact P1. split.
    - exact (proj1 (proj1 (P_collide E EF false _ P1' w2 R))).
    - pose proof (St_frame _ _ _ _ S1' (ok_collide E _ _ (frame_refl _) w2 R)) as (J2 & _). destruct (atlas_ok w2 W2) as (m & A); [|eapply atlas_covered; eauto]. eapply J_weak; [exact J2|]. intros f (x & i & _ & _ & []).
  Qed.
  Lemma turned w i b : treach E w -> w_bodies w i = Some b -> unit_rot (xq (b_xf b)).
  Proof. intros Tw Hb. destruct (J_bodies _ _ (treach_J E w EA EH Tw) i b Hb) as (Po & _). destruct Po as (P1 & P2 & _). unfold unit_rot. rewrite P1, P2. pose proof (sin2_cos2 (sw_a (b_sweep b))) as Q. unfold Rsqr in Q. exact Q. Qed.
  (* fixtures whose tight boxes overlap have a contact once the step has collided *)
  Lemma stands_sits w f i s xf : stands w f i s xf -> sits w f i s xf.
  Proof. intros (x & b & A). exists x, b. tauto. Qed.
  Theorem front_contact w w2 f k i sa xa ba g l j sb xb bb : preach E w -> treach E w -> pairs_due E w -> step_front E w = Ok w2 -> sits w f i sa xa -> sits w g j sb xb -> may_touch w f g ->
    (exists n, shape_child_count sa = Ok n /\ (k < n)%nat) -> (exists n, shape_child_count sb = Ok n /\ (l < n)%nat) -> shape_aabb sa xa k = Ok ba -> shape_aabb sb xb l = Ok bb -> ~ separated ba bb ->
    exists c x, w_contacts w2 c = Some x /\ between x f k g l.
  Proof.
    intros Pw Tw Du R2 Sa Sb Mt Ka Kb Ea Eb Sp. pose proof (preach_wreach E w Pw) as H. destruct (front_world w w2 Pw Tw Du R2) as (W2 & M2 & Cv).
    destruct (front_same E _ w w2 (env_any E EA) (reach_W E EA w H) R2) as (F & Jn & B).
    assert (Bx : forall n d, w_bodies w n = Some d -> exists d', w_bodies w2 n = Some d' /\ b_xf d' = b_xf d /\ is_enabled d' = is_enabled d).
    { intros n d Hd. specialize (B n). rewrite Hd in B. destruct (w_bodies w2 n) as [d2|]; [|discriminate]. cbn in B. unfold posture in B. exists d2. split; [reflexivity|]. split; congruence. }
    assert (Cb : forall f i s xf k a, sits w f i s xf -> shape_aabb s xf k = Ok a -> (exists n, shape_child_count s = Ok n /\ (k < n)%nat) -> child_box w2 f k a).
    { intros h n s xf o bx (y & b & Hy & Yb & Hb & <- & <- & En) Eo (nc & Nc & Lt). destruct (Bx n b Hb) as (b' & Hb' & Xb & Eb'). exists y, n, b'. unfold children. rewrite F, Hy, Nc, Xb, Eb'. auto 10. }
    destruct (child_fat _ _ _ _ Cv (Cb _ _ _ _ _ _ Sa Ea Ka)) as (fa & Fa & Ia). destruct (child_fat _ _ _ _ Cv (Cb _ _ _ _ _ _ Sb Eb Kb)) as (fb & Fb & Ib).
    assert (Mt2 : may_touch w2 f g).
    { destruct Mt as (y & z & a & b & Hy & Hz & Ha & Hb & Ne & Dy & Nf & Sh). exists y, z, a, b. rewrite F. refine (conj Hy (conj Hz (conj Ha (conj Hb (conj Ne (conj _ (conj _ Sh))))))).
      - assert (Q : forall n, dynamic w n -> dynamic w2 n). { intros n (d & Hd & Td). specialize (B n). rewrite Hd in B. destruct (w_bodies w2 n) as [d2|] eqn:E2; [|discriminate]. cbn in B. unfold posture in B. exists d2. split; [exact E2|congruence]. } destruct Dy; auto.
      - unfold joint_forbids. rewrite Jn. exact Nf. }
    destruct (M_pairs false w2 W2 M2 f k g l fa fb Fa Fb (meet_inside _ _ _ _ Ia Ib Sp) Mt2) as [(Z & _)|(c & x & Hx & Bt)]; [discriminate|]. exists c, x. auto.
  Qed.
  Theorem none_missed w dt w' f k i sa xa g l j sb xb : preach E w -> treach E w -> pairs_due E w -> w_step_complete w = true -> wrun E (WStep dt) w = Ok w' ->
    stands w f i sa xa -> stands w g j sb xb -> may_touch w f g -> at_work w i \/ at_work w j -> meets sa k xa sb l xb ->
    exists w2 c x, step_front E w = Ok w2 /\ w_contacts w2 c = Some x /\ between x f k g l /\ cf_touching (c_flags x) = true /\ (w_listener w = true -> exists n, news w w' n /\ In (EvPre c) n).
  Proof.
    intros Pw Tw Du Sc R Sa Sb Mt Wk M. cbn in R. pose proof R as R'. rewrite r_step_parts in R'. apply bind_ok in R' as (w2 & R2 & _). pose proof (preach_wreach E w Pw) as H.
    destruct (meets_boxes _ _ _ _ _ _ M) as (ba & bb & Ea & Eb & Sp). destruct (meets_child _ _ _ _ _ _ M) as (Ka & Kb).
    destruct (front_contact w w2 f k i sa xa ba g l j sb xb bb Pw Tw Du R2 (stands_sits _ _ _ _ _ Sa) (stands_sits _ _ _ _ _ Sb) Mt Ka Kb Ea Eb Sp) as (c & x & Hx & Bt). exists w2, c, x. refine (conj R2 (conj Hx (conj Bt _))).
    assert (Un : forall h n s xf, stands w h n s xf -> unit_rot (xq xf)) by (intros h n s xf (y & b & _ & _ & Hb & _ & <- & _); eapply turned; eauto).
    pose proof (proj1 (front_touch w w2 c x _ _ _ _ _ _ _ _ _ _ H R2 Hx Bt Sa Sb Wk (Un _ _ _ _ Sa) (Un _ _ _ _ Sb)) M) as To. split; [exact To|]. intros Li.
    assert (busy w w2 x /\ sensor_contact w2 x = false) as (Bu & Ns). { destruct Bt as [K|K]; [eapply (front_busy w w2 x f k i sa xa g l j sb xb)|eapply (front_busy w w2 x g l j sb xb f k i sa xa)]; eauto. tauto. }
    exact (reach_announced E EA w dt w2 w' H Sc R2 R c x Hx Bu Li Ns To).
  Qed.
End FrontReal.
