(** Property theorems about bodies that nothing touches, over the reals, with the solver of the code. *)
From Coq Require Import List Arith Reals.
From Verif Require Import Base Num NumLaws Math DynModel WorldModel WorldClaims WorldCalls SolveModel FlightSpec FlightFinal FlightExamples.
Import ListNotations.
Local Open Scope R_scope.

(** ** C103 a body that nothing touches moves by gravity, its force and damping alone *)
(* a body with no contacts and no joints when the solver starts; only the discrete phase *)
Theorem C103_lone : forall E (J : Type) (su : setup R J) i h, solves_as_code su E -> answers E -> 0 < h ->
  forall w w2 w' b, wreach E w -> w_step_complete w = true -> w_continuous w = false -> step_front E w = Ok w2 -> w_bodies w2 i = Some b -> moving b -> b_contacts b = [] -> b_joints b = [] ->
  wrun E (WStep h) w = Ok w' -> exists b', w_bodies w' i = Some b' /\ flies (su_gravity su) h b b'.
Proof. exact lone_flies. Qed.
Print Assumptions C103_lone.
(* a body without fixtures, also with the continuous phase *)
Theorem C103_bare : forall E (J : Type) (su : setup R J) i h, solves_as_code su E -> answers E -> 0 < h ->
  forall w w' b, wreach E w -> w_sub_stepping w = false -> w_step_complete w = true -> w_bodies w i = Some b -> moving b -> no_fixture w i -> b_joints b = [] ->
  wrun E (WStep h) w = Ok w' -> exists b', w_bodies w' i = Some b' /\ flies (su_gravity su) h b b'.
Proof. exact bare_flies. Qed.
Print Assumptions C103_bare.
(* its whole way *)
Theorem C103_fall : forall E (J : Type) (su : setup R J) i h, solves_as_code su E -> answers E -> 0 < h ->
  forall n w w' b, wreach E w -> w_sub_stepping w = false -> w_step_complete w = true -> w_bodies w i = Some b -> moving b -> b_type b = DynamicBody -> no_fixture w i -> b_joints b = [] ->
  fl_auto_sleep (b_flags b) = false -> free_fall (su_gravity su) h n b -> steps E h n w w' -> exists b', w_bodies w' i = Some b' /\ fallen (su_gravity su) h b n b'.
Proof. exact bare_falls. Qed.
Print Assumptions C103_fall.
Example C103_lone_case : exists w w2 w' b, solves_as_code f_su f_env /\ answers f_env /\ wreach f_env w /\ w_step_complete w = true /\ w_continuous w = false /\ step_front f_env w = Ok w2 /\ w_bodies w2 0 = Some b /\ moving b /\ b_contacts b = [] /\ b_joints b = [] /\
  wrun f_env (WStep (1/10)) w = Ok w' /\ b_lv b = V2 1 0 /\ sw_c (b_sweep b) = V2 0 5 /\ pull b = 1.
Proof. exact f_lone_ex. Qed.
Example C103_fall_case : exists w w' b, solves_as_code f_su f_env /\ answers f_env /\ wreach f_env w /\ w_sub_stepping w = false /\ w_step_complete w = true /\ w_bodies w 0 = Some b /\ moving b /\ b_type b = DynamicBody /\ no_fixture w 0 /\ b_joints b = [] /\
  fl_auto_sleep (b_flags b) = false /\ free_fall (su_gravity f_su) (1/10) 10 b /\ steps f_env (1/10) 10 w w' /\ b_lv b = V2 1 0 /\ sw_c (b_sweep b) = V2 0 5 /\ pull b = 1.
Proof. exact f_fall_ex. Qed.
Example C103_fallen_case : exists w w' b b', steps f_env (1/10) 10 w w' /\ w_bodies w 0 = Some b /\ w_bodies w' 0 = Some b' /\ b_lv b' = V2 1 (-10) /\ sw_c (b_sweep b') = V2 1 (-1/2).
Proof. exact f_fallen. Qed.
