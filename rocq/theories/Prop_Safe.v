(** Property theorems of careful programs (C62, and what a careful program gets of C22, C30 and C33). The words used are defined in SafeSpec.v.
    The model of the world is WorldModel.v; the public calls are listed in WorldCalls.v. *)
From Coq Require Import List ZArith Bool Arith.
From Verif Require Import Base Num Math Collision Manifold Filter ShapeModel DynModel WorldModel WorldClaims WorldCalls WorldLock SafeSpec WorldSafe WorldExamples SafeExamples.
Import ListNotations.

(** ** C62 *)
(* the next call of a careful program returns, whatever was called before *)
Theorem C62_careful_returns : forall (T : Type) (NT : Num T) (TT : NumTrig T) (VT : NumValid T) (E : env T) (w : world T) (c : wcall T),
  sound_env E -> ordered T -> careful E w -> safe w c -> exists w', wrun E c w = Ok w' /\ careful E w'.
Proof. exact (fun T NT TT VT E w c SE OT => careful_returns E SE OT w c). Qed.
Print Assumptions C62_careful_returns.
Theorem C62_new_returns : forall (T : Type) (NT : Num T) listener goodbye, exists w : world T, world_new listener goodbye = Ok w.
Proof. exact (fun T NT listener goodbye => new_returns listener goodbye). Qed.
Print Assumptions C62_new_returns.
(* between two public calls the world is never locked, whatever the routines and callbacks do *)
Theorem C62_never_left_locked : forall (T : Type) (NT : Num T) (TT : NumTrig T) (VT : NumValid T) (E : env T) (w : world T),
  wreach E w -> w_locked w = false.
Proof. exact (fun T NT TT VT E w => reach_free E w). Qed.
Print Assumptions C62_never_left_locked.
Theorem C62_single_precision : ordered f32.
Proof. exact ordered_f32. Qed.
Print Assumptions C62_single_precision.
Example C62_case : exists w, sound_env (ex_env None) /\ ordered f32 /\ careful (ex_env None) w /\ ex_contacts w = safe_last /\ safe w tick.
Proof. exact ex_careful. Qed.

(** ** C22: when the two shapes of any two fixtures that could meet have a contact class, no step panics *)
Theorem C22_with_classes_partial : forall (T : Type) (NT : Num T) (TT : NumTrig T) (VT : NumValid T) (E : env T) (w : world T) (dt : T),
  sound_env E -> ordered T -> careful E w -> has_classes w -> w_body_count w <= 64 -> exists w', wrun E (WStep dt) w = Ok w'.
Proof. exact (fun T NT TT VT E w dt SE OT C H L => match careful_returns E SE OT w (WStep dt) C (conj H (or_introl L)) with ex_intro _ w' (conj R _) => ex_intro _ w' R end). Qed.
Print Assumptions C22_with_classes_partial.

(** ** C30: the islands of a discrete step never overrun what they reserve, for any number of bodies *)
Theorem C30_capacity : forall (T : Type) (NT : Num T) (TT : NumTrig T) (VT : NumValid T) (E : env T) (w : world T) (dt : T),
  sound_env E -> ordered T -> careful E w -> has_classes w -> w_continuous w = false -> exists w', wrun E (WStep dt) w = Ok w'.
Proof. exact (fun T NT TT VT E w dt SE OT C H L => match careful_returns E SE OT w (WStep dt) C (conj H (or_intror L)) with ex_intro _ w' (conj R _) => ex_intro _ w' R end). Qed.
Print Assumptions C30_capacity.
Example C30_case_capacity : exists w, sound_env (ex_env None) /\ ordered f32 /\ careful (ex_env None) w /\ w_body_count w = 70 /\ w_continuous w = false /\ has_classes w.
Proof. exact ex_many. Qed.

(** ** C33: with no more than 64 bodies no impact island overruns what it reserves *)
Theorem C33_few_bodies_partial : forall (T : Type) (NT : Num T) (TT : NumTrig T) (VT : NumValid T) (E : env T) (w : world T) (dt : T),
  sound_env E -> ordered T -> careful E w -> has_classes w -> w_body_count w <= 64 -> exists w', wrun E (WStep dt) w = Ok w'.
Proof. exact (fun T NT TT VT E w dt SE OT C H L => match careful_returns E SE OT w (WStep dt) C (conj H (or_introl L)) with ex_intro _ w' (conj R _) => ex_intro _ w' R end). Qed.
Print Assumptions C33_few_bodies_partial.
