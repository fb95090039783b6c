(** Model of the collision filter and the mixing laws. *)
From Coq Require Import ZArith Bool.
From Verif Require Import Base Num.

(* /repo/src/b2_fixture.rs:30-42 B2filter: u16, u16, i16 *)
Record filter := Filter { category_bits : Z; mask_bits : Z; group_index : Z }.
(* :17-25 Default *)
Definition filter_default : filter := Filter 1 65535 0.

(* /repo/src/private/dynamics/b2_world_callbacks.rs:6-18 should_collide *)
Definition should_collide (a b : filter) : bool :=
  if (group_index a =? group_index b)%Z && negb (group_index a =? 0)%Z then (0 <? group_index a)%Z
  else negb (Z.land (mask_bits a) (category_bits b) =? 0)%Z && negb (Z.land (category_bits a) (mask_bits b) =? 0)%Z.

Section Mix.
  Context {T : Type} `{NT : Num T}.
  Local Open Scope num_scope.
  (* /repo/src/b2_contact.rs:29, :35, :44 *)
  Definition b2_mix_friction (a b : T) : T := nsqrt (a * b).
  Definition b2_mix_restitution (a b : T) : T := if a >? b then a else b.
  Definition b2_mix_restitution_threshold (a b : T) : T := if a <? b then a else b.
End Mix.
