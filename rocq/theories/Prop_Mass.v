(** Property theorems about the masses of static and kinematic bodies. *)
From Coq Require Import List ZArith Arith Reals.
From Verif Require Import Base Num NumLaws Math DynModel SolverModel IslandModel WorldModel WorldClaims WorldCalls WorldReach WorldExamples SafeSpec SolverSpec SolveModel CrashSpec CrashExamples FirmSpec FirmExamples MassSpec MassProofs MassExamples.
Import ListNotations.

(** ** C108 static and kinematic bodies have no mass *)
Theorem C108_massless : forall (T : Type) (NT : Num T) (TT : NumTrig T) (VT : NumValid T) (E : env T) w, wreach E w -> forall i b, w_bodies w i = Some b -> b_type b <> DynamicBody -> b_inv_mass b = nofZ 0 /\ b_inv_i b = nofZ 0.
Proof. exact @reach_masses. Qed.
Print Assumptions C108_massless.
Example C108_massless_case : exists w, wreach k_code w /\ kinds_now w = true.
Proof. exact ex_kinds. Qed.
(* a static body can still move in a step: it keeps the velocity it is made with, and moves with it while an awake body touches it *)
Theorem C108_static_stays_refuted : exists (w w' : WorldModel.world f32) i b b', careful k_code w /\ safe w tick /\ wrun k_code tick w = Ok w' /\ w_bodies w i = Some b /\ w_bodies w' i = Some b' /\
  b_type b = StaticBody /\ b_type b' = StaticBody /\ nlt (vx (sw_c (b_sweep b))) (vx (sw_c (b_sweep b'))) = true.
Proof. destruct ex_drifts as (w & w' & b & b' & H). exact (ex_intro _ w (ex_intro _ w' (ex_intro _ 0%nat (ex_intro _ b (ex_intro _ b' H))))). Qed.
Print Assumptions C108_static_stays_refuted.
