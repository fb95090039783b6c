(** Static and kinematic bodies at rest, over whole steps. *)
From Coq Require Import List ZArith Bool Arith Reals.
From Verif Require Import Base Num Math DynModel SolverModel IslandModel WorldModel WorldCalls SolveModel CrashSpec FirmSpec.
Import ListNotations.

(* the solvers of the joints of an island leave body i alone *)
Definition spared {TT : NumTrig R} {J : Type} (su : setup R J) (i : nat) : Prop := forall (w : WorldModel.world R) is n,
  nth_error (is_bodies is) n = Some i -> indexed w is -> exists good, joints_spare (su_js su) n good /\ forall j, In j (is_joints is) -> good (su_joint su w j).
(* a static or kinematic body that does not move *)
Definition resting (b : body R) : Prop := b_type b <> DynamicBody /\ at_rest b.
(* it is still there *)
Definition stays (b b' : body R) : Prop := b_type b' = b_type b /\ at_rest b' /\ sw_c (b_sweep b') = sw_c (b_sweep b) /\ sw_a (b_sweep b') = sw_a (b_sweep b).
(* any number of steps of any sizes *)
Inductive ticks {TT : NumTrig R} {VT : NumValid R} (E : env R) : WorldModel.world R -> WorldModel.world R -> Prop :=
| ticks_0 w : ticks E w w
| ticks_S w v w' h : ticks E w v -> wrun E (WStep h) v = Ok w' -> ticks E w w'.
