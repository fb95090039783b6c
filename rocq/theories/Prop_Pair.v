(** Property theorems about the contacts a step makes (exact reals; the refutations: f32) and about steps of worlds at rest (any numbers).
    The words used are defined in PairSpec.v, CoverSpec.v and SleepSpec.v. *)
From Coq Require Import ZArith Reals Bool List Arith.
From Verif Require Import Base Num Math Collision Filter ShapeModel TreeModel TreeSpec BroadModel DynModel WorldModel WorldClaims WorldCalls WorldExamples CoverSpec PairSpec PairCalls PairFinal SleepSpec SleepProofs PairExamples.
Import ListNotations.

(** ** C89 every pair that may touch gets its contact *)
(* Partial: the programs do not destroy a joint that forbids contacts, except with its body; the contact filter is the default one. *)
Theorem C89_pairs_partial : forall E : env R, answers E -> plain_filter E -> forall (w : WorldModel.world R) (dt : R) (w' : WorldModel.world R),
  preach E w -> w_step_complete w = true -> (0 < dt)%R -> wrun E (WStep dt) w = Ok w' -> all_pairs w'.
Proof. exact pairs_after_step. Qed.
Print Assumptions C89_pairs_partial.
(* between the steps, what is missing waits in the buffer of the broad phase *)
Theorem C89_waiting_partial : forall E : env R, answers E -> plain_filter E -> forall w : WorldModel.world R, preach E w -> all_pairs_but w.
Proof. exact pairs_always. Qed.
Print Assumptions C89_waiting_partial.
Example C89_ex : exists w w' a b a' b', answers p_env /\ plain_filter p_env /\ holds_static p_env /\ preach p_env w /\ treach p_env w /\ w_step_complete w = true /\ wrun p_env (WStep 1%R) w = Ok w' /\ treach p_env w' /\
  fat_box w 0 0 a /\ fat_box w 1 0 b /\ ~ separated a b /\ may_touch w 0 1 /\ ~ has_contact w 0 0 1 0 /\
  fat_box w' 0 0 a' /\ fat_box w' 1 0 b' /\ ~ separated a' b' /\ may_touch w' 0 1 /\ has_contact w' 0 0 1 0 /\ resting w /\ filtered w.
Proof. exact pair_ex. Qed.
(* a joint that forbids contacts is destroyed: the contact it prevented is not made *)
Theorem C89_joint_refuted : exists w w' : fworld, answers (ex_env None) /\ plain_filter (ex_env None) /\ wreach (ex_env None) w /\ w_step_complete w = true /\ wrun (ex_env None) tick w = Ok w' /\ ~ all_pairs w'.
Proof. exact joined_refuted. Qed.
Print Assumptions C89_joint_refuted.
(* in single precision, a shift of the origin can make boxes overlap that did not *)
Theorem C89_single_refuted : exists w w' : fworld, answers (ex_env None) /\ plain_filter (ex_env None) /\ preach (ex_env None) w /\ w_step_complete w = true /\ wrun (ex_env None) tick w = Ok w' /\ ~ all_pairs w'.
Proof. exact shifted_refuted. Qed.
Print Assumptions C89_single_refuted.

(** ** C90 children whose boxes overlap, where the bodies are, have a contact after the step *)
(* Partial: the programs of C71 and of C89. *)
Theorem C90_boxes_partial : forall E : env R, answers E -> plain_filter E -> holds_static E -> forall (w : WorldModel.world R) (dt : R) (w' : WorldModel.world R),
  preach E w -> treach E w -> tame w (WStep dt) -> w_step_complete w = true -> (0 < dt)%R -> wrun E (WStep dt) w = Ok w' ->
  forall f k g l a b, child_box w' f k a -> child_box w' g l b -> ~ separated a b -> may_touch w' f g -> has_contact w' f k g l.
Proof. exact boxes_after_step. Qed.
Print Assumptions C90_boxes_partial.
Example C90_ex : exists w w', answers p_env /\ plain_filter p_env /\ holds_static p_env /\ preach p_env w /\ treach p_env w /\ tame w (WStep 1%R) /\ w_step_complete w = true /\ wrun p_env (WStep 1%R) w = Ok w' /\
  child_box w' 0 0 (AABB (V2 (0 - 1) (-1)) (V2 (0 + 1) 1))%R /\ child_box w' 1 0 (AABB (V2 (1 - 1) (-1)) (V2 (1 + 1) 1))%R /\ may_touch w' 0 1.
Proof. exact boxes_ex. Qed.

(** ** C91 a step leaves a world at rest alone *)
Theorem C91_rest : forall (T : Type) (NT : Num T) (TT : NumTrig T) (VT : NumValid T) (E : env T) (w : WorldModel.world T) (dt : T) (w' : WorldModel.world T),
  wreach E w -> resting w -> filtered w -> w_step_complete w = true -> answers E -> wrun E (WStep dt) w = Ok w' -> undisturbed w w'.
Proof. exact @step_at_rest. Qed.
Print Assumptions C91_rest.
Example C91_ex : exists w w' : fworld, answers (ex_env None) /\ wreach (ex_env None) w /\ resting w /\ filtered w /\ w_step_complete w = true /\ one_touches w = true /\ wrun (ex_env None) tick w = Ok w'.
Proof. exact sleep_ex. Qed.
(* a contact that waits to be filtered again can wake bodies *)
Theorem C91_refilter_refuted : exists w w' : fworld, answers (ex_env None) /\ wreach (ex_env None) w /\ resting w /\ w_step_complete w = true /\ wrun (ex_env None) tick w = Ok w' /\ ~ undisturbed w w'.
Proof. exact sleep_refuted. Qed.
Print Assumptions C91_refilter_refuted.
