(** Property theorems about touching contacts: they have points, so the island solver never panics in a gentle program. *)
From Coq Require Import List ZArith Bool Arith Reals.
From Verif Require Import Base Num NumLaws Math Manifold ShapeModel DynModel WorldModel WorldClaims WorldCalls WorldExamples SafeSpec SafeExamples SolverSpec SolveModel CrashSpec CrashWorld CrashExamples TouchSpec TouchFinal TouchExamples.
Import ListNotations.

(** ** C105 touching contacts between solid fixtures have points *)
(* after any program that makes no sensor solid while it touches, with any routines and any solver *)
Theorem C105_points : forall (T : Type) (NT : Num T) (TT : NumTrig T) (VT : NumValid T) (E : env T) w, answers E -> hands_off E -> gentle_reach E w -> touching_solids w.
Proof. exact (@gentle_points). Qed.
Print Assumptions C105_points.
(* also with the island solver of the code, which may panic *)
Theorem C105_code_points : forall (T : Type) (NT : Num T) (TT : NumTrig T) (VT : NumValid T) (J : Type) (su : setup T J) (E : env T) w, answers E -> hands_off E -> gentle_reach (with_code su E) w -> touching_solids w.
Proof. exact (@code_points). Qed.
Print Assumptions C105_code_points.
(* so with the solver of the code every call of a gentle and careful program returns *)
Theorem C105_returns : forall (T : Type) (NT : Num T) (OT : NumOrd T) (TT : NumTrig T) (VT : NumValid T) (J : Type) (su : setup T J) (E : env T),
  hands_off E -> answers E -> (1 <= su_vel_iters su)%nat -> warm_safe su -> sound_env E -> ordered T ->
  forall good w c, joints_return su good -> gentle_careful (with_code su E) w -> gentle w c -> safe w c -> exists w', wrun (with_code su E) c w = Ok w' /\ gentle_careful (with_code su E) w'.
Proof. exact (@gentle_returns). Qed.
Print Assumptions C105_returns.
(* the condition on the impulses of the last step holds in exact arithmetic *)
Theorem C105_real : forall (J : Type) (su : setup R J), warm_safe su.
Proof. exact (@warm_real). Qed.
Print Assumptions C105_real.
(* without the condition on sensors the first is false *)
Theorem C105_gentle_needed : exists w, careful k_code w /\ ~ touching_solids w.
Proof. exact ex_pointless. Qed.
Print Assumptions C105_gentle_needed.
Example C105_points_case : exists w, answers (backed t_su E0) /\ hands_off (backed t_su E0) /\ gentle_reach (backed t_su E0) w /\ existsb (solid_touching w) (w_contact_list w) = true.
Proof. destruct t_world as (w & C & _ & S). exists w. exact (conj (backed_answers t_su E0 (ex_answers None)) (conj t_hands (conj (gentle_backs t_su E0 w (gentle_reaches _ w C)) S))). Qed.
Example C105_returns_case : hands_off E0 /\ answers E0 /\ (1 <= su_vel_iters t_su)%nat /\ warm_safe t_su /\ sound_env E0 /\ ordered f32 /\ joints_return t_su (fun _ _ => True) /\
  exists w, gentle_careful t_code w /\ gentle w tick /\ safe w tick /\ existsb (solid_touching w) (w_contact_list w) = true.
Proof.
  refine (conj t_hands (conj (ex_answers None) (conj _ (conj t_warm (conj (ex_sound None) (conj ordered_f32 (conj t_joints _))))))); [cbn; auto with arith|].
  destruct t_world as (w & C & S & P). exists w. exact (conj C (conj (t_gentle tick w eq_refl) (conj S P))).
Qed.
