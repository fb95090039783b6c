(** Shapes near a sensor have a touching contact once the step has collided the fixtures. *)
From Coq Require Import List ZArith Bool Arith Lia Reals Lra.
From Verif Require SenseBox.
From Verif Require Import Base ListFacts Num NumLaws RTac Math ShapeModel DynModel DistModel GeomSpec DistSpec DistProofs GjkProofs GjkReal WorldModel NarrowModel SenseModel SenseSpec SenseProofs WorldClaims WorldCalls WorldHist WorldReach WorldInv WorldAfter CoverSpec PairSpec PairCalls PairFinal FrontSpec FrontProofs NarrowSpec FrontReal.
Import ListNotations.
Local Open Scope R_scope.

Lemma spread_sym la lb : spread la lb -> spread lb la.
Proof.
  intros S b a b' a' Hb Ha Hb' Ha'. destruct (S a b a' b' Ha Hb Ha' Hb') as [E|E]; [left|right].
  - unfold origin in *. injection E as E1 E2. f_equal; lra.
  - revert E. unfold dist2, origin. cbn [vx vy]. intros E. lra.
Qed.
Lemma nearer_sym la lb d : nearer la lb d -> nearer lb la d.
Proof. intros (a & b & A & B & D). exists b, a. split; [exact B|]. split; [exact A|]. replace (dist b a) with (dist a b); [exact D|]. unfold dist, dist2. f_equal. ring. Qed.

Section Final.
  Variable E : env R.
  Hypothesis EA : answers E.
  Hypothesis ES : senses E.
  Hypothesis EF : plain_filter E.
  Hypothesis EH : holds_static E.
  Implicit Types w v : WorldModel.world R.

  Lemma front_is_sensor w w2 x f k i sa xa g l j sb xb : wreach E w -> step_front E w = Ok w2 -> between x f k g l -> sits w f i sa xa -> sits w g j sb xb -> either_sensor w f g -> sensor_contact w2 x = true.
  Proof.
    intros H R Bt (y & a & Hy & _) (z & b & Hz & _) (h & u & Hh & Hu & Se). destruct (front_same E _ w w2 (env_any E EA) (reach_W E EA w H) R) as (F & _ & _).
    unfold sensor_contact. rewrite F. destruct Bt as [K|K]; injection K as K1 K2 K3 K4; rewrite K1, K3, Hy, Hz; destruct Hh as [->| ->]; rewrite Hu in *; [injection Hy as <-|injection Hz as <-|injection Hy as <-|injection Hz as <-]; rewrite Se; auto using orb_true_r.
  Qed.
  Theorem sensor_found w w2 f k i sa la ra xa g l j sb lb rb xb : preach E w -> treach E w -> pairs_due E w -> step_front E w = Ok w2 ->
    sits w f i sa xa -> sits w g j sb xb -> either_sensor w f g -> may_touch w f g -> at_work w i \/ at_work w j -> sensed sa k la ra -> sensed sb l lb rb -> 0 <= ra -> 0 <= rb ->
    spread (map (place xa) la) (map (place xb) lb) -> settles (DProxy la ra) (DProxy lb rb) xa xb -> settles (DProxy lb rb) (DProxy la ra) xb xa ->
    (exists qa qb, hull (map (place xa) la) qa /\ hull (map (place xb) lb) qb /\ dist qa qb <= ra + rb) ->
    exists c x, w_contacts w2 c = Some x /\ between x f k g l /\ sensor_contact w2 x = true /\ cf_touching (c_flags x) = true.
  Proof.
    intros Pw Tw Du R Sa Sb Se Mt Wk Ga Gb Ha Hb Sp St St' Nr. pose proof (preach_wreach E w Pw) as H.
    destruct (SenseBox.near_boxes sa k la ra xa sb l lb rb xb Ga Gb Ha Hb Nr) as (ba & bb & Ea & Eb & Nb).
    destruct (front_contact E EA EF EH w w2 f k i sa xa ba g l j sb xb bb Pw Tw Du R Sa Sb Mt (SenseBox.sensed_child _ _ _ _ Ga) (SenseBox.sensed_child _ _ _ _ Gb) Ea Eb Nb) as (c & x & Hx & Bt).
    pose proof (front_is_sensor w w2 x f k i sa xa g l j sb xb H R Bt Sa Sb Se) as Sx. exists c, x. split; [exact Hx|]. split; [exact Bt|]. split; [exact Sx|].
    assert (N : nearer (map (place xa) la) (map (place xb) lb) (ra + rb + 10 * B2_EPSILON)). { destruct Nr as (qa & qb & A & B & D). exists qa, qb. pose proof eps_pos. split; [exact A|]. split; [exact B|lra]. }
    destruct Bt as [K|K].
    - apply (front_sensor E EA ES w w2 c x f k i sa la ra xa g l j sb lb rb xb H R Hx K Sx Sa Sb Wk Ga Gb ltac:(lra) Sp St). exact N.
    - apply (front_sensor E EA ES w w2 c x g l j sb lb rb xb f k i sa la ra xa H R Hx K Sx Sb Sa ltac:(tauto) Gb Ga ltac:(lra) (spread_sym _ _ Sp) St'). rewrite (Rplus_comm rb ra). apply nearer_sym, N.
  Qed.
End Final.
