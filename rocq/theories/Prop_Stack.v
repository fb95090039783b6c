(** Property theorems of the growable stack (C01). *)
From Coq Require Import List Arith.
From Verif Require Import Base StackModel StackSpec StackProofs.
Import ListNotations.

(* Any sequence of pushes and pops on a new stack with any inline capacity gives the answers of a list, and
   panics exactly if the list runs empty. *)
Theorem C01_stack_is_a_list : forall (A : Type) (N : nat) (d : A) (ops : list (sop A)),
  match lrun [] ops with
  | Some (l, out) => exists s, grun N (gs_new d N) ops = Ok (s, out) /\ gs_count s = length l
  | None => grun N (gs_new d N) ops = Panic
  end.
Proof. exact c01. Qed.
Print Assumptions C01_stack_is_a_list.

(* inline capacity 2: the fourth push is beyond the move to the heap *)
Example C01_stack_is_a_list_ex :
  lrun [] [SPush 1; SPush 2; SPush 3; SPush 4; SPop; SPop; SPush 5; SPop; SPop; SPop] = Some ([], [4; 3; 5; 2; 1]) /\
  (exists s, grun 2 (gs_new 0 2) [SPush 1; SPush 2; SPush 3; SPush 4; SPop; SPop; SPush 5; SPop; SPop; SPop] = Ok (s, [4; 3; 5; 2; 1])) /\
  grun 2 (gs_new 0 2) [SPush 1; SPop; SPop] = Panic.
Proof. repeat split. eexists. vm_compute. reflexivity. Qed.
