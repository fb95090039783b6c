(** What a stack is supposed to do. *)
From Coq Require Import List.
From Verif Require Import Base StackModel.
Import ListNotations.

(* calls on a stack and the answers they give *)
Inductive sop (A : Type) := SPush (x : A) | SPop.
Arguments SPush {A} x.
Arguments SPop {A}.

(* run the model; the popped values in order *)
Fixpoint grun {A} (N : nat) (s : gstack A) (ops : list (sop A)) : res (gstack A * list A) :=
  match ops with
  | [] => Ok (s, [])
  | SPush x :: r => s <- gs_push N s x ;; grun N s r
  | SPop :: r => '(s, x) <- gs_pop s ;; '(s, out) <- grun N s r ;; Ok (s, x :: out)
  end.

(* specification: a list with its head as the top; None = pop of an empty list *)
Fixpoint lrun {A} (l : list A) (ops : list (sop A)) : option (list A * list A) :=
  match ops with
  | [] => Some (l, [])
  | SPush x :: r => lrun (x :: l) r
  | SPop :: r =>
    match l with
    | [] => None
    | x :: l => match lrun l r with Some (l, out) => Some (l, x :: out) | None => None end
    end
  end.

