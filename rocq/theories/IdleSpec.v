(** Steps that take no time. *)
From Coq Require Import List ZArith Bool Arith.
From Verif Require Import Base Num Math DynModel WorldModel.

Section Spec.
  Context {T : Type} `{NT : Num T}.
  (* where the body is, how it moves, what it weighs and what is attached to it *)
  Definition unmoved (b b' : body T) : Prop :=
    b_type b' = b_type b /\ b_xf b' = b_xf b /\ b_sweep b' = b_sweep b /\ b_lv b' = b_lv b /\ b_av b' = b_av b /\
    b_mass b' = b_mass b /\ b_inv_mass b' = b_inv_mass b /\ b_i b' = b_i b /\ b_inv_i b' = b_inv_i b /\ b_fixtures b' = b_fixtures b /\ b_joints b' = b_joints b.
  (* the same bodies, and none has moved *)
  Definition frozen (w w' : world T) : Prop := forall i,
    match w_bodies w i, w_bodies w' i with Some b, Some b' => unmoved b b' | None, None => True | _, _ => False end.
End Spec.
