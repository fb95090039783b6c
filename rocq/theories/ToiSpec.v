(** What an answer of the time-of-impact search means, for any distance and any separation function. *)
From Coq Require Import List ZArith Bool Arith Reals.
From Verif Require Import Base Num Math DistModel ToiModel.
Import ListNotations.

Section Spec.
  Local Open Scope num_scope.
  Context {T : Type} {NT : Num T} {C F : Type}.
  Variables (distance : T -> C -> res (T * C)) (initialize : C -> T -> res F).
  Variables (find_min : F -> T -> res (Z * Z * T)) (evaluate : F -> Z -> Z -> T -> res T).

  (* all four functions return *)
  Definition all_return : Prop :=
    (forall t c, exists r, distance t c = Ok r) /\ (forall c t, exists f, initialize c t = Ok f) /\
    (forall f t, exists r, find_min f t = Ok r) /\ (forall f ia ib t, exists s, evaluate f ia ib t = Ok s).
  (* the shapes are within the tolerance of the target at [t]: by their distance, or by the separation of two witness
     points on an axis found at [t] *)
  Definition touches (target tolerance t : T) : Prop :=
    exists c d c', distance t c = Ok (d, c') /\ (d <=? #0) = false /\
      ((d <? target + tolerance) = true \/
       exists f t2 ia ib s2 s, initialize c' t = Ok f /\ find_min f t2 = Ok (ia, ib, s2) /\ evaluate f ia ib t = Ok s /\
         (s <? target - tolerance) = false /\ (s <=? target + tolerance) = true).
  (* the shapes are separated on an axis at [t] *)
  Definition separates (target tolerance t : T) : Prop :=
    exists c t1 f ia ib s, initialize c t1 = Ok f /\ find_min f t = Ok (ia, ib, s) /\ (s >? target + tolerance) = true.
  (* the search for the deepest points finds the least separation *)
  Definition min_is_least : Prop :=
    forall f t t' ia ib s s' i, find_min f t' = Ok (ia, ib, s') -> find_min f t = Ok (i, s) -> forall r, evaluate f ia ib t = Ok r -> (r <? s) = false.
End Spec.
