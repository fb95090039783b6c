(** Property theorem about steps that take no time. *)
From Coq Require Import List ZArith Arith.
From Verif Require Import Base Num NumLaws Math DynModel WorldModel WorldClaims WorldCalls WorldExamples IdleSpec IdleProofs IdleExamples.
Import ListNotations.

(** ** C111 a step whose size is not above zero moves no body *)
Theorem C111_step : forall (T : Type) (NT : Num T) (TT : NumTrig T) (VT : NumValid T) (E : env T) dt w w', nlt (nofZ 0) dt = false -> wrun E (WStep dt) w = Ok w' -> frozen w w'.
Proof. exact @idle_step. Qed.
Print Assumptions C111_step.
(* balls that overlap, one of them moving; the step finds the contacts; its size is not a number, or negative *)
Example C111_step_case : nlt (nofZ 0) f32_nan = false /\ nlt (nofZ 0) (nofZ (-1) : f32) = false /\
  (exists w w', wreach E0 w /\ wrun E0 (WStep f32_nan) w = Ok w' /\ ex_contacts w = [] /\ ex_contacts w' = ex_four) /\
  (exists w w', wreach E0 w /\ wrun E0 (WStep (nofZ (-1))) w = Ok w' /\ ex_contacts w = [] /\ ex_contacts w' = ex_four).
Proof. exact (conj eq_refl (conj eq_refl (conj i_nan i_back))). Qed.
