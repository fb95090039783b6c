(** A static body that is made with a velocity drifts when something touches it, in single precision. *)
From Coq Require Import List ZArith Bool Arith.
From Verif Require Import Base Num NumLaws Math DynModel WorldModel WorldClaims WorldCalls WorldHist WorldReach WorldExamples SafeSpec WorldSafe SafeExamples SolverSpec SolveModel CrashSpec CrashWorld CrashExamples MassSpec.
Import ListNotations.

(* a static ball that is made with a velocity, and a ball that rests on it *)
Definition d_calls : list (wcall f32) :=
  [WCreateBody (ex_bodydef StaticBody (nofZ 0) (nofZ 1) false); WCreateFixture 0 ball;
   WCreateBody (ex_bodydef DynamicBody (nlit 4 10) (nofZ 0) false); WCreateFixture 1 ball; WContinuous false; tick].
Definition drifts_now (w : fworld) : bool := ex_safe w tick && match wrun k_code tick w, w_bodies w 0 with
  | Ok w', Some b => match w_bodies w' 0 with Some b' => is_static b && is_static b' && nlt (vx (sw_c (b_sweep b))) (vx (sw_c (b_sweep b'))) | None => false end
  | _, _ => false end.
Lemma ex_drifts : exists w w' b b', careful k_code w /\ safe w tick /\ wrun k_code tick w = Ok w' /\ w_bodies w 0 = Some b /\ w_bodies w' 0 = Some b' /\ b_type b = StaticBody /\ b_type b' = StaticBody /\ nlt (vx (sw_c (b_sweep b))) (vx (sw_c (b_sweep b'))) = true.
Proof.
  destruct (k_checked d_calls drifts_now) as (w & C & P); [vm_compute; reflexivity|]. unfold drifts_now in P. apply andb_prop in P. destruct P as [P1 P]. exists w. destruct (wrun k_code tick w) as [w'| |]; try discriminate. destruct (w_bodies w 0) as [b|]; try discriminate. destruct (w_bodies w' 0) as [b'|] eqn:Q; try discriminate.
  apply andb_prop in P. destruct P as [P P4]. apply andb_prop in P. destruct P as [P2 P3]. exists w', b, b'. refine (conj C (conj (k_safe w tick C P1) (conj eq_refl (conj eq_refl (conj Q (conj _ (conj _ P4))))))); unfold is_static in *; [destruct (b_type b)|destruct (b_type b')]; easy.
Qed.

(* a world with a static, a kinematic and a dynamic body that has mass *)
Definition p_calls : list (wcall f32) :=
  [WCreateBody (ex_bodydef StaticBody (nofZ 0) (nofZ 0) false); WCreateFixture 0 ball;
   WCreateBody (ex_bodydef KinematicBody (nofZ 2) (nofZ 0) false); WCreateFixture 1 ball;
   WCreateBody (ex_bodydef DynamicBody (nlit 4 10) (nofZ 0) false); WCreateFixture 2 ball;
   WCreateBody (ex_bodydef DynamicBody (nofZ 5) (nofZ 0) false); WCreateFixture 3 ball; WType 3 StaticBody; tick].
Definition kinds_now (w : fworld) : bool := match w_bodies w 0, w_bodies w 1, w_bodies w 2, w_bodies w 3 with
  | Some a, Some b, Some c, Some d => is_static a && btype_eqb (b_type b) KinematicBody && is_dynamic c && nlt (nofZ 0) (b_inv_mass c) && is_static d && Nat.ltb 0 (length (b_fixtures d))
  | _, _, _, _ => false end.
Lemma ex_kinds : exists w, wreach k_code w /\ kinds_now w = true.
Proof. destruct (k_checked p_calls kinds_now) as (w & C & P); [vm_compute; reflexivity|]. exists w. split; auto. now apply careful_reach. Qed.
