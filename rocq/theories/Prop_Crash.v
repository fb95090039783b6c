(** Property theorems about the island solver inside the step: when it panics. *)
From Coq Require Import List ZArith Bool Arith.
From Verif Require Import Base Num NumLaws Math DynModel WorldModel WorldClaims WorldCalls WorldExamples SafeSpec SolverSpec SolveModel WorldStep WorldAfter CrashSpec CrashWorld CrashExamples.
Import ListNotations.

(** ** C104 the island solver returns *)
(* a careful program, the solver of the code: the step returns if no contact to be solved is without points when the solver starts *)
Theorem C104_returns_partial : forall (T : Type) (NT : Num T) (OT : NumOrd T) (TT : NumTrig T) (VT : NumValid T) (J : Type) (su : setup T J) E good dt w,
  joints_return su good -> sound_env E -> answers E -> ordered T -> careful (with_code su E) w -> safe w (WStep dt) ->
  (forall w2, step_front E w = Ok w2 -> forall c, workable su dt w2 c) -> exists w', wrun (with_code su E) (WStep dt) w = Ok w' /\ careful (with_code su E) w'.
Proof. exact (@step_returns). Qed.
Print Assumptions C104_returns_partial.
Theorem C104_other_calls : forall (T : Type) (NT : Num T) (TT : NumTrig T) (VT : NumValid T) (J : Type) (su : setup T J) E c w,
  sound_env E -> ordered T -> careful (with_code su E) w -> safe w c -> (forall dt, c <> WStep dt) -> exists w', wrun (with_code su E) c w = Ok w' /\ careful (with_code su E) w'.
Proof. exact (@call_returns). Qed.
Print Assumptions C104_other_calls.
(* then a step with the code is a step with any solver that agrees with the code where the code returns *)
Theorem C104_same : forall (T : Type) (NT : Num T) (OT : NumOrd T) (TT : NumTrig T) (VT : NumValid T) (J : Type) (su : setup T J) E good dt w w2,
  joints_return su good -> answers E -> solves_as_code su E -> wreach E w -> step_front E w = Ok w2 -> (forall c, workable su dt w2 c) ->
  wrun (with_code su E) (WStep dt) w = wrun E (WStep dt) w.
Proof. exact (@step_same). Qed.
Print Assumptions C104_same.
(* without the condition on the contacts it is false: a sensor becomes solid and is put to sleep with its neighbour *)
Theorem C104_refuted : exists w, joints_return k_su (fun _ _ => True) /\ sound_env E0 /\ answers E0 /\ ordered f32 /\ careful k_code w /\ safe w tick /\ wrun k_code tick w = Panic.
Proof. exact ex_panics. Qed.
Print Assumptions C104_refuted.
Example C104_returns_case : exists w w2, joints_return k_su (fun _ _ => True) /\ sound_env E0 /\ answers E0 /\ ordered f32 /\ careful k_code w /\ safe w tick /\ step_front E0 w = Ok w2 /\
  (forall c, workable k_su k_dt w2 c) /\ existsb (solid_touching w2) (w_contact_list w2) = true.
Proof. exact ex_works. Qed.
Example C104_same_case : solves_as_code k_su (backed k_su E0) /\ answers (backed k_su E0).
Proof. exact (conj (backed_solves k_su E0) (backed_answers k_su E0 (ex_answers None))). Qed.
