(** Concrete programs for Prop_Sense: the two balls of FrontExamples, the second one a sensor. *)
From Coq Require Import List ZArith Bool Arith Lia Reals Lra.
From Flocq Require Import Core.Raux.
From Verif Require DistSpec DistExamples DistModel SenseSpec SenseBox.
From Verif Require Import Base Num NumLaws RTac Math Collision Manifold Filter MathSpec GeomSpec ShapeModel ListFacts TreeModel TreeSpec BroadModel DynModel WorldModel WorldGraph WorldInv WorldClaims WorldCalls WorldHist WorldReach WorldExamples SafeSpec WorldSafe QueryModel CoverSpec CoverOps CoverToi QueryProofs CoverExamples PairSpec PairLogic PairOps PairStep PairCalls PairExamples FrontSpec FrontProofs OrderProofs NarrowModel NarrowSpec FrontReal FrontExamples SenseModel SenseProofs SenseFinal.
Import ListNotations.
Local Open Scope R_scope.

Lemma n_senses : senses n_env.
Proof. intros w i b H. cbn. now rewrite H. Qed.
Definition at_p (p : vec2 R) : xform R := Xf p (rot_of 0).
Definition ball0 : list (vec2 R) := [V2 0 0].
Lemma ball_sensed : SenseSpec.sensed r_circle 0 ball0 1.
Proof. apply (SenseSpec.sensed_circle (Circle 1 (V2 0 0))). Qed.
Lemma at_place p : map (DistSpec.place (at_p p)) ball0 = [p].
Proof. cbn. f_equal. exact (n_place p). Qed.
Lemma ball_settles p q : SenseSpec.settles (DistModel.DProxy ball0 1) (DistModel.DProxy ball0 1) (at_p p) (at_p q).
Proof. apply few_settle; try discriminate. cbn. lia. Qed.
Lemma one_spread p q : DistSpec.spread [p] [q].
Proof. intros a b a' b' [<-|[]] [<-|[]] [<-|[]] [<-|[]]. left. unfold DistSpec.origin. f_equal; ring. Qed.
Lemma one_hull p : DistSpec.hull [p] p.
Proof. exists [1]. split; [reflexivity|]. split; [split; [repeat constructor; lra|cbn; ring]|]. destruct p; cbn. f_equal; ring. Qed.
Lemma one_hull_inv p q : DistSpec.hull [p] q -> q = p.
Proof. intros ([|w [|]] & L & (_ & T) & ->); try discriminate. cbn in *. assert (w = 1) by lra. subst w. destruct p; cbn. f_equal; ring. Qed.

Definition s_two (p : vec2 R) (w : WorldModel.world R) : Prop :=
  n_ok w /\ n_bodies w 0 StaticBody (V2 0 0) /\ n_bodies w 1 DynamicBody p /\ n_ball w 0 0 /\
  (exists y, w_fixtures w 1%nat = Some y /\ f_body y = Some 1%nat /\ f_shape y = r_circle /\ f_filter y = filter_default /\ f_sensor y = true) /\ w_new_contacts w = true /\ w_body_count w = 2%nat.
Lemma s_world p : exists w, s_two p w.
Proof.
  destruct (n_world p) as (w & H & (b0 & B0 & K0) & (b1 & B1 & T1 & E1 & X1 & A1) & (y0 & F0 & L0) & (y & Fy & By & Sy & Fi & Ns) & Nc & Bc).
  set (w1 := put_fixture 1 (set_f_sensor true y) (put_body 1 (set_awake true b1) w)).
  assert (R : wrun n_env (WSensor 1 true) w = Ok w1).
  { unfold wrun, set_sensor, get_fixture. rewrite Fy. cbn [unwrap bind]. rewrite Ns. cbn [Bool.eqb]. rewrite By. cbn [unwrap bind]. unfold mod_body, get_body. rewrite B1. reflexivity. }
  pose proof H as (P & T & C & HL & S & Ec & Ej & G & Li).
  exists w1. split; [|split; [|split; [|split; [|split; [|split]]]]].
  - refine (n_call w (WSensor 1 true) w1 H Logic.I Logic.I _ R HL S eq_refl eq_refl _ Li); [cbn; congruence|].
    intros f x. unfold w1, put_fixture, put_body. cbn [w_fixtures set_w_fixtures set_w_bodies]. unfold put. destruct (Nat.eqb f 1); [intros [= <-]; exact Sy|apply G].
  - exists b0. split; [exact B0|exact K0].
  - exists (set_awake true b1). split; [reflexivity|]. unfold set_awake, is_static. rewrite T1. cbn. auto 10.
  - exists y0. split; [exact F0|exact L0].
  - exists (set_f_sensor true y). split; [reflexivity|]. cbn. auto.
  - exact Nc.
  - exact Bc.
Qed.
Lemma s_step p : -2 <= vx p <= 2 -> -2 <= vy p <= 2 -> exists w w2 w' c x, preach n_env w /\ treach n_env w /\ pairs_due n_env w /\ w_step_complete w = true /\ step_front n_env w = Ok w2 /\ wrun n_env (WStep 1) w = Ok w' /\
  sits w 0 0 r_circle (at_p (V2 0 0)) /\ sits w 1 1 r_circle (at_p p) /\ SenseSpec.either_sensor w 0 1 /\ may_touch w 0 1 /\ at_work w 1 /\ w_contacts w2 c = Some x /\ between x 0 0 1 0 /\ sensor_contact w2 x = true.
Proof.
  intros Hx Hy. destruct (s_world p) as (w & H & (b0 & B0 & T0 & E0 & X0 & A0) & (b1 & B1 & T1 & E1 & X1 & A1) & (y0 & F0 & L0 & S0 & G0 & N0) & (y1 & F1 & L1 & S1 & G1 & N1) & Nc & Bc). destruct H as (P & T & C & HL & S & Ec & Ej & G & Li).
  assert (Sf : safe w (WStep 1)). { split; [|left; rewrite Bc; lia]. intros f g x y a b Hf Hg _ _ _ _. rewrite (G f x Hf), (G g y Hg). discriminate. }
  destruct (careful_returns n_env n_sound ordered_R w (WStep 1) C Sf) as (w' & Rn & _). pose proof Rn as R'. cbn in R'. rewrite r_step_parts in R'. apply bind_ok in R' as (w2 & R2 & _).
  assert (Z0 : sits w 0 0 r_circle (at_p (V2 0 0))) by (exists y0, b0; auto 10). assert (Z1 : sits w 1 1 r_circle (at_p p)) by (exists y1, b1; auto 10).
  assert (Se : SenseSpec.either_sensor w 0 1) by (exists 1%nat, y1; auto). assert (Du : pairs_due n_env w) by now left.
  assert (Mt : may_touch w 0 1). { exists y0, y1, 0%nat, 1%nat. repeat (split; [solve [auto]|]). split; [right; exists b1; auto|]. split; [|rewrite G0, G1; reflexivity]. intros (j & z & Hz & _). rewrite Ej in Hz. discriminate. }
  destruct (front_contact n_env n_answers n_plain n_holds w w2 0 0 0 r_circle _ _ 1 0 1 r_circle _ _ P T Du R2 Z0 Z1 Mt n_child n_child (n_box _) (n_box _))%nat as (c & x & Hc & Bt).
  { unfold separated. cbn. rewrite !Rlt_bool_true'. lra. }
  exists w, w2, w', c, x. repeat (split; [assumption|]). split; [exists b1; rewrite T1 in *; split; [exact B1|]; split; [now apply A1|discriminate]|]. split; [exact Hc|]. split; [exact Bt|].
  exact (front_is_sensor n_env n_answers w w2 x 0 0 0 r_circle _ 1 0 1 r_circle _ (preach_wreach _ _ P) R2 Bt Z0 Z1 Se)%nat.
Qed.
Lemma s_near : exists qa qb, DistSpec.hull (map (DistSpec.place (at_p (V2 0 0))) ball0) qa /\ DistSpec.hull (map (DistSpec.place (at_p (V2 1 0))) ball0) qb /\ DistSpec.dist qa qb <= 1 + 1.
Proof.
  rewrite !at_place. exists (V2 0 0), (V2 1 0). split; [apply one_hull|]. split; [apply one_hull|]. unfold DistSpec.dist, dist2. cbn. apply Rsqr_incr_0_var; [|lra]. rewrite Rsqr_sqrt by lra. unfold Rsqr. lra.
Qed.
Lemma eps_small : 10 * (B2_EPSILON : R) <= 1 / 10.
Proof. unfold B2_EPSILON, nlit. cbn. lra. Qed.
Lemma s_far : ~ SenseSpec.nearer (map (DistSpec.place (at_p (V2 0 0))) ball0) (map (DistSpec.place (at_p (V2 (3/2) (3/2)))) ball0) (1 + 1 + 10 * B2_EPSILON).
Proof.
  rewrite !at_place. intros (qa & qb & A & B & D). apply one_hull_inv in A, B. subst. unfold DistSpec.dist, dist2 in D. cbn [vx vy] in D. pose proof eps_small as Ep.
  assert (L : sqrt ((0 - 3 / 2) * (0 - 3 / 2) + (0 - 3 / 2) * (0 - 3 / 2)) < 21 / 10) by lra. apply Rsqr_incrst_1 in L; [|apply sqrt_pos|lra]. rewrite Rsqr_sqrt in L by lra. unfold Rsqr in L. lra.
Qed.
Lemma s_found_ex : exists w w2, answers n_env /\ senses n_env /\ plain_filter n_env /\ holds_static n_env /\ preach n_env w /\ treach n_env w /\ pairs_due n_env w /\ step_front n_env w = Ok w2 /\
  sits w 0 0 r_circle (at_p (V2 0 0)) /\ sits w 1 1 r_circle (at_p (V2 1 0)) /\ SenseSpec.either_sensor w 0 1 /\ may_touch w 0 1 /\ at_work w 1 /\ SenseSpec.sensed r_circle 0 ball0 1 /\
  DistSpec.spread (map (DistSpec.place (at_p (V2 0 0))) ball0) (map (DistSpec.place (at_p (V2 1 0))) ball0) /\ (forall p q, SenseSpec.settles (DistModel.DProxy ball0 1) (DistModel.DProxy ball0 1) (at_p p) (at_p q)) /\
  exists qa qb, DistSpec.hull (map (DistSpec.place (at_p (V2 0 0))) ball0) qa /\ DistSpec.hull (map (DistSpec.place (at_p (V2 1 0))) ball0) qb /\ DistSpec.dist qa qb <= 1 + 1.
Proof.
  destruct (s_step (V2 1 0)) as (w & w2 & w' & c & x & P & T & Du & Sc & R2 & Rn & Z0 & Z1 & Se & Mt & Wk & Hx & Bt & Sx); cbn; try lra. exists w, w2. pose proof (one_spread (V2 0 0) (V2 1 0)) as Sp. rewrite <- (at_place (V2 0 0)), <- (at_place (V2 1 0)) in Sp.
  exact (conj n_answers (conj n_senses (conj n_plain (conj n_holds (conj P (conj T (conj Du (conj R2 (conj Z0 (conj Z1 (conj Se (conj Mt (conj Wk (conj ball_sensed (conj Sp (conj ball_settles s_near)))))))))))))))).
Qed.
Lemma s_clear_ex : exists w w2 c x, wreach n_env w /\ step_front n_env w = Ok w2 /\ w_contacts w2 c = Some x /\ between x 0 0 1 0 /\ sensor_contact w2 x = true /\
  sits w 0 0 r_circle (at_p (V2 0 0)) /\ sits w 1 1 r_circle (at_p (V2 (3/2) (3/2))) /\ at_work w 1 /\ ~ SenseSpec.nearer (map (DistSpec.place (at_p (V2 0 0))) ball0) (map (DistSpec.place (at_p (V2 (3/2) (3/2)))) ball0) (1 + 1 + 10 * B2_EPSILON).
Proof.
  destruct (s_step (V2 (3/2) (3/2))) as (w & w2 & w' & c & x & P & T & Du & Sc & R2 & Rn & Z0 & Z1 & Se & Mt & Wk & Hx & Bt & Sx); cbn; try lra. exists w, w2, c, x.
  exact (conj (preach_wreach _ _ P) (conj R2 (conj Hx (conj Bt (conj Sx (conj Z0 (conj Z1 (conj Wk s_far)))))))).
Qed.

(* a ball standing on an edge *)
Definition rim : edge R := Edge 0 (V2 0 0) (V2 (-1) 0) (V2 1 0) (V2 0 0) false.
Ltac rim_tac := unfold DistSpec.place, at_p, rot_of; cbn; rewrite sin_0, cos_0; f_equal; ring.
Lemma rim_spread : DistSpec.spread (map (DistSpec.place (at_p (V2 0 0))) [V2 (-1) 0; V2 1 0]) (map (DistSpec.place (at_p (V2 0 1))) ball0).
Proof.
  pose proof eps_small as Ep. assert (P : 0 < (B2_EPSILON : R)) by apply RTac.eps_pos. assert (Q : (B2_EPSILON : R) * B2_EPSILON <= 1) by nra.
  rewrite at_place. cbn [map]. replace (DistSpec.place (at_p (V2 0 0)) (V2 (-1) 0)) with (V2 (-1) 0) by (rim_tac).
  replace (DistSpec.place (at_p (V2 0 0)) (V2 1 0)) with (V2 1 0) by (rim_tac).
  intros a b a' b' Ha Hb Ha' Hb'. destruct Hb as [<-|[]], Hb' as [<-|[]]. unfold DistSpec.origin, dist2. cbn [vx vy].
  destruct Ha as [<-|[<-|[]]], Ha' as [<-|[<-|[]]]; cbn [vx vy]; [left; f_equal; ring|right; lra|right; lra|left; f_equal; ring].
Qed.
Lemma rim_ex : SenseSpec.sensed (ShEdge rim) 0 [V2 (-1) 0; V2 1 0] 0 /\ SenseSpec.sensed r_circle 0 ball0 1 /\ 0 <= 0 + 1 /\
  DistSpec.spread (map (DistSpec.place (at_p (V2 0 0))) [V2 (-1) 0; V2 1 0]) (map (DistSpec.place (at_p (V2 0 1))) ball0) /\
  SenseSpec.settles (DistModel.DProxy [V2 (-1) 0; V2 1 0] 0) (DistModel.DProxy ball0 1) (at_p (V2 0 0)) (at_p (V2 0 1)).
Proof.
  split; [exact (SenseSpec.sensed_edge rim)|]. split; [exact ball_sensed|]. split; [lra|]. split; [exact rim_spread|]. apply few_settle; try discriminate. cbn. lia.
Qed.
