(** Property theorems about static and kinematic bodies at rest. *)
From Coq Require Import List ZArith Arith Reals.
From Verif Require NarrowSpec.
From Verif Require Import Base Num NumLaws Math DynModel SolverModel IslandModel WorldModel WorldClaims WorldCalls WorldReach SafeSpec SolverSpec SolveModel CrashSpec FirmSpec FirmExamples FrontExamples StillSpec StillProofs StillExamples.
Import ListNotations.
Local Open Scope R_scope.

(** ** C109 static and kinematic bodies at rest stay where they are *)
(* in one step *)
Theorem C109_step : forall (TT : NumTrig R) (VT : NumValid R) (J : Type) (su : setup R J) (E : env R), answers E -> forall i, spared su i ->
  forall h w w' b, wreach (with_code su E) w -> w_continuous w = false -> w_bodies w i = Some b -> resting b -> wrun (with_code su E) (WStep h) w = Ok w' ->
  w_continuous w' = false /\ exists b', w_bodies w' i = Some b' /\ stays b b'.
Proof. exact @still_step. Qed.
Print Assumptions C109_step.
(* in any number of steps *)
Theorem C109_steps : forall (TT : NumTrig R) (VT : NumValid R) (J : Type) (su : setup R J) (E : env R), answers E -> forall i, spared su i ->
  forall w w' b, wreach (with_code su E) w -> w_continuous w = false -> w_bodies w i = Some b -> resting b -> ticks (with_code su E) w w' -> exists b', w_bodies w' i = Some b' /\ stays b b'.
Proof. exact @still_steps. Qed.
Print Assumptions C109_steps.
(* a ball overlaps the static one and touches it in the step *)
Example C109_step_case : spared m_su 0 /\ exists w w2 w' b k x, answers n_env /\ wreach (with_code m_su n_env) w /\ w_continuous w = false /\ w_bodies w 0 = Some b /\ resting b /\ b_type b = StaticBody /\
  step_front (with_code m_su n_env) w = Ok w2 /\ w_contacts w2 k = Some x /\ NarrowSpec.between x 0 0 1 0 /\ cf_touching (c_flags x) = true /\ wrun (with_code m_su n_env) (WStep 1) w = Ok w'.
Proof. exact (conj (s_spared 0) s_step). Qed.
