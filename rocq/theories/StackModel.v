(** Model of /repo/src/b2_growable_stack.rs. *)
From Coq Require Import List Arith Bool.
From Verif Require Import Base.
Import ListNotations.

(* :24-28 enum B2rsStackOrVec, :18-22 the inline array with its count; [length arr] is N *)
Inductive gstack (A : Type) : Type :=
| GStack (arr : list A) (count : nat)
| GVec (v : list A).            (* Vec, bottom of the stack first *)
Arguments GStack {A} arr count.
Arguments GVec {A} v.

(* :30-37 new: [T::default(); N] *)
Definition gs_new {A} (default : A) (N : nat) : gstack A := GStack (repeat default N) 0.

(* :39-57 push *)
Definition gs_push {A} (N : nat) (s : gstack A) (e : A) : res (gstack A) :=
  match s with
  | GStack arr count =>
    if N <=? count then Ok (GVec (arr ++ [e]))         (* extend_from_slice(&m_array); push *)
    else arr' <- set arr count e ;; Ok (GStack arr' (count + 1))
  | GVec v => Ok (GVec (v ++ [e]))
  end.

(* :59-72 pop *)
Definition gs_pop {A} (s : gstack A) : res (gstack A * A) :=
  match s with
  | GStack arr count =>
    b2_assert (0 <? count) ;;;
    e <- get arr (count - 1) ;; Ok (GStack arr (count - 1), e)
  | GVec v =>
    b2_assert (0 <? length v) ;;;
    e <- unwrap (nth_error v (length v - 1)) ;; Ok (GVec (firstn (length v - 1) v), e)
  end.

(* :74-84 get_count *)
Definition gs_count {A} (s : gstack A) : nat :=
  match s with GStack _ count => count | GVec v => length v end.
