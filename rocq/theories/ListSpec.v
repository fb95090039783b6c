(** What the intrusive lists are supposed to do. *)
From Coq Require Import List Arith.
From Verif Require Import Base ListModel.
Import ListNotations.

(* calls *)
Inductive lop := LPush (i : nat) | LRemove (i : nat) | LRemoveAll | LClear.

Definition ldrop (i : nat) (xs : list nat) : list nat := filter (fun j => negb (Nat.eqb j i)) xs.

(* specification: a list of ids without repetition, newest first; None: an element is pushed that is in the list
   (or does not exist), or one is removed that is not *)
Fixpoint lrun (N : nat) (xs : list nat) (ops : list lop) : option (list nat) :=
  match ops with
  | [] => Some xs
  | LPush i :: r => if in_dec Nat.eq_dec i xs then None else if Nat.ltb i N then lrun N (i :: xs) r else None
  | LRemove i :: r => if in_dec Nat.eq_dec i xs then lrun N (ldrop i xs) r else None
  | LRemoveAll :: r | LClear :: r => lrun N [] r
  end.

(* the model run *)
Fixpoint irun (push remove : ilist -> nat -> res ilist) (l : ilist) (ops : list lop) : res ilist :=
  match ops with
  | [] => Ok l
  | LPush i :: r => l <- push l i ;; irun push remove l r
  | LRemove i :: r => l <- remove l i ;; irun push remove l r
  | LRemoveAll :: r => l <- remove_all l ;; irun push remove l r
  | LClear :: r => irun push remove (list_clear l) r
  end.

(* the links of consecutive elements point at each other, the ends point nowhere *)
Fixpoint linked (h : list link) (before : option nat) (xs : list nat) : Prop :=
  match xs with
  | [] => True
  | i :: r => exists x, nth_error h i = Some x /\ l_prev x = before /\ l_next x = hd_error r /\ linked h (Some i) r
  end.

(* going from the last element along the prev links *)
Fixpoint walk_back (fuel : nat) (h : list link) (cur : option nat) : res (list nat) :=
  match cur with
  | None => Ok []
  | Some i =>
    match fuel with
    | O => Fuel
    | S fuel => x <- get h i ;; r <- walk_back fuel h (l_prev x) ;; Ok (i :: r)
    end
  end.
