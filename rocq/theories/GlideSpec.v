(** Kinematic bodies move with their own velocity, over whole steps. *)
From Coq Require Import List ZArith Bool Arith Reals.
From Verif Require Import Base Num Math DynModel FlightSpec FirmSpec.
Local Open Scope R_scope.

(* a kinematic body that takes part in the steps *)
Definition gliding (b : body R) : Prop := b_type b = KinematicBody /\ is_awake b = true /\ is_enabled b = true.
(* it has moved with its velocity, cut if it was too large; it keeps that velocity or is put to sleep *)
Definition glides (h : R) (b b' : body R) : Prop := b_type b' = KinematicBody /\ exists v om,
  carried h b (sw_c (b_sweep b')) (sw_a (b_sweep b')) v om /\ ((b_lv b' = v /\ b_av b' = om) \/ (b_lv b' = V2 0 0 /\ b_av b' = 0)).
