(** Balls that overlap, and a step whose size is not a number or negative. *)
From Coq Require Import List ZArith Bool Arith Lia.
From Verif Require Import Base Num NumLaws Math Collision Manifold Filter ShapeModel DynModel WorldModel WorldClaims WorldCalls WorldExamples.
Import ListNotations.

Definition i_calls : list (wcall f32) := ex_build ++ [WBody 0 (BLinear (V2 (nofZ 1) (nofZ 0)))].
Lemma i_nan : exists w w', wreach E0 w /\ wrun E0 (WStep f32_nan) w = Ok w' /\ ex_contacts w = [] /\ ex_contacts w' = ex_four.
Proof. apply (ex_called E0 i_calls). vm_compute. reflexivity. Qed.
Lemma i_back : exists w w', wreach E0 w /\ wrun E0 (WStep (nofZ (-1))) w = Ok w' /\ ex_contacts w = [] /\ ex_contacts w' = ex_four.
Proof. apply (ex_called E0 i_calls). vm_compute. reflexivity. Qed.
