(** Children whose boxes overlap, where the bodies are, have a contact. *)
From Coq Require Import List ZArith Bool Arith Lia Reals Lra.
From Verif Require Import Base Num NumLaws RTac Math Collision Manifold Filter ShapeModel TreeModel TreeSpec BroadModel DynModel WorldModel WorldClaims WorldCalls CoverSpec CoverLogic CoverToi QueryProofs PairSpec PairLogic PairOps PairStep PairCalls.
Import ListNotations.
Implicit Types w : WorldModel.world R.

Lemma meet_inside (a b c d : aabb R) : inside a c -> inside b d -> ~ separated a b -> ~ separated c d.
Proof. unfold inside, separated. cbn. rewrite !Rle_bool_true', !Rlt_bool_true'. lra. Qed.
Lemma child_fat w f k a : covered w -> child_box w f k a -> exists fat, fat_box w f k fat /\ inside a fat.
Proof.
  intros C H. destruct (C f k a H) as (id & fat & P & G & In). exists fat. split; [|exact In]. destruct H as (x & i & b & Hx & Hi & Hb & En & Hk & _). split; [|split; [exact Hk|eauto]]. exists i. split; [unfold body_of; now rewrite Hx|]. exists b. auto.
Qed.
Theorem boxes_after_step (E : env R) : answers E -> plain_filter E -> holds_static E -> forall w dt w', preach E w -> treach E w -> tame w (WStep dt) -> w_step_complete w = true -> (0 < dt)%R -> wrun E (WStep dt) w = Ok w' ->
  forall f k g l a b, child_box w' f k a -> child_box w' g l b -> ~ separated a b -> may_touch w' f g -> has_contact w' f k g l.
Proof.
  intros EA EF EH w dt w' P T Tm Sc Hd R f k g l a b Ha Hb Sp Mt. assert (T' : treach E w') by (eapply treach_call; eauto). pose proof (treach_covered E w' EA EH T') as C.
  destruct (child_fat _ _ _ _ C Ha) as (a' & Fa & Ia). destruct (child_fat _ _ _ _ C Hb) as (b' & Fb & Ib). eapply (pairs_after_step E EA EF w dt w'); eauto. eapply meet_inside; eauto.
Qed.
