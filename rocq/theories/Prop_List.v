(** C02: the intrusive lists. The words used are defined in ListSpec.v; [lrun] is the specification. *)
From Coq Require Import List Arith.
From Verif Require Import Base ListModel ListSpec ListProofs.
Import ListNotations.

(* any pool of links (stale links included) and any legal sequence of calls on an empty list *)
Theorem C02_double_list : forall h ops xs, lrun (length h) [] ops = Some xs ->
  exists l, irun dll_push dll_remove (IList None h) ops = Ok l /\
    list_iter l = Ok xs /\ NoDup xs /\ il_head l = hd_error xs /\ linked (il_pool l) None xs /\
    walk_back (S (length (il_pool l))) (il_pool l) (hd_error (rev xs)) = Ok (rev xs) /\
    exists l', drain_all dll_remove l = Ok (l', xs) /\ list_iter l' = Ok [].
Proof. exact c02_dll. Qed.
Print Assumptions C02_double_list.
Theorem C02_single_list : forall h ops xs, lrun (length h) [] ops = Some xs ->
  exists l, irun sll_push sll_remove (IList None h) ops = Ok l /\
    list_iter l = Ok xs /\ NoDup xs /\ (forall i, ~ In i xs -> sll_remove l i = Panic) /\
    exists l', drain_all sll_remove l = Ok (l', xs) /\ list_iter l' = Ok [].
Proof. exact c02_sll. Qed.
Print Assumptions C02_single_list.
Example C02_ex : let h := repeat (Link (Some 3) (Some 2)) 6 in
  lrun 6 [] [LPush 0; LPush 1; LPush 4; LPush 5; LRemove 1; LRemove 5; LPush 1; LPush 2; LRemove 0] = Some [2; 1; 4] /\
  lrun 6 [] [LPush 0; LPush 1; LRemoveAll; LPush 1; LClear; LPush 5; LPush 0] = Some [0; 5] /\
  (exists l, irun dll_push dll_remove (IList None h) [LPush 0; LPush 1; LPush 4; LRemove 1] = Ok l /\ list_iter l = Ok [4; 0]).
Proof. vm_compute. split; [reflexivity|]. split; [reflexivity|]. eexists. split; reflexivity. Qed.

(* beyond C02: the double list does not notice the removal of an element that it does not hold; removing 1 twice
   takes 2 out of the list as well *)
Theorem C02_double_remove_refuted : exists h ops, exists l l', irun dll_push dll_remove (IList None h) ops = Ok l /\
  list_iter l = Ok [4; 2; 0] /\ dll_remove l 1 = Ok l' /\ list_iter l' = Ok [4; 0].
Proof.
  exists (repeat (Link None None) 6), [LPush 0; LPush 1; LPush 4; LRemove 1; LRemove 4; LPush 2; LPush 4].
  eexists. eexists. vm_compute. repeat split; reflexivity.
Qed.
Print Assumptions C02_double_remove_refuted.
