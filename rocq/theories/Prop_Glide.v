(** Property theorem about kinematic bodies in a step. *)
From Coq Require Import List ZArith Arith Reals.
From Verif Require NarrowSpec.
From Verif Require Import Base Num NumLaws Math DynModel SolverModel IslandModel WorldModel WorldClaims WorldCalls WorldReach SafeSpec SolverSpec SolveModel CrashSpec FirmSpec FirmExamples FrontExamples StillSpec StillExamples GlideSpec GlideProofs GlideExamples.
Import ListNotations.
Local Open Scope R_scope.

(** ** C110 kinematic bodies move with their own velocity, once in every step, whatever they touch *)
Theorem C110_step : forall (TT : NumTrig R) (VT : NumValid R) (J : Type) (su : setup R J) (E : env R), answers E -> forall i, spared su i ->
  forall h w w' b, wreach (with_code su E) w -> w_continuous w = false -> w_step_complete w = true -> 0 < h -> w_bodies w i = Some b -> gliding b -> wrun (with_code su E) (WStep h) w = Ok w' ->
  exists b', w_bodies w' i = Some b' /\ glides h b b'.
Proof. exact @glide_step. Qed.
Print Assumptions C110_step.
(* the body moves into a ball that it touches in the step *)
Example C110_step_case : spared m_su 0 /\ exists w w2 w' b k x, answers n_env /\ wreach (with_code m_su n_env) w /\ w_continuous w = false /\ w_step_complete w = true /\ w_bodies w 0 = Some b /\ gliding b /\ b_lv b = V2 1 0 /\
  step_front (with_code m_su n_env) w = Ok w2 /\ w_contacts w2 k = Some x /\ NarrowSpec.between x 0 0 1 0 /\ cf_touching (c_flags x) = true /\ wrun (with_code m_su n_env) (WStep 1) w = Ok w'.
Proof. exact (conj (s_spared 0) k_step). Qed.
