(** Result monad used by every model file.

    [Ok a]   normal return of the Rust function,
    [Panic]  the Rust function panics (b2_assert in /repo/src/b2_common.rs:13, slice index out of
             bounds, [unwrap] on None, RefCell borrow error),
    [Fuel]   the loop bound of the model was exhausted; theorems conclude [Ok] or [Panic], never [Fuel],
             so that termination is part of what they state. *)
From Coq Require Import List ZArith Lia Bool Arith.
Import ListNotations.

Inductive res (A : Type) : Type :=
| Ok (a : A)
| Panic
| Fuel.
Arguments Ok {A} a.
Arguments Panic {A}.
Arguments Fuel {A}.

Definition bind {A B} (m : res A) (f : A -> res B) : res B :=
  match m with Ok a => f a | Panic => Panic | Fuel => Fuel end.

Declare Scope res_scope.
Delimit Scope res_scope with res.
Notation "x <- m ;; f" := (bind m (fun x => f))
  (at level 100, m at next level, right associativity) : res_scope.
Notation "' p <- m ;; f" := (bind m (fun x => match x with p => f end))
  (at level 100, p pattern, m at next level, right associativity) : res_scope.
Notation "m ;;; f" := (bind m (fun _ => f))
  (at level 100, right associativity) : res_scope.
Open Scope res_scope.

(* /repo/src/b2_common.rs:13-15  b2_assert *)
Definition b2_assert (b : bool) : res unit := if b then Ok tt else Panic.

(* slice / Vec indexing: out of bounds panics *)
Definition get {A} (l : list A) (i : nat) : res A :=
  match nth_error l i with Some a => Ok a | None => Panic end.

(* [l[i] = a]: out of bounds panics *)
Fixpoint upd {A} (l : list A) (i : nat) (a : A) : list A :=
  match l, i with
  | [], _ => []
  | _ :: r, O => a :: r
  | x :: r, S j => x :: upd r j a
  end.

Definition set {A} (l : list A) (i : nat) (a : A) : res (list A) :=
  if Nat.ltb i (length l) then Ok (upd l i a) else Panic.

(* Option::unwrap *)
Definition unwrap {A} (o : option A) : res A :=
  match o with Some a => Ok a | None => Panic end.

Definition is_ok {A} (m : res A) : bool := match m with Ok _ => true | _ => false end.
Definition is_panic {A} (m : res A) : bool := match m with Panic => true | _ => false end.

(* [for i in lo .. lo + n { s = f(i, s) }] *)
Fixpoint for_from {S : Type} (n : nat) (lo : nat) (f : nat -> S -> res S) (s : S) : res S :=
  match n with
  | O => Ok s
  | Datatypes.S k => bind (f lo s) (for_from k (Datatypes.S lo) f)
  end.
(* [for i in lo .. hi] *)
Definition for_range {S : Type} (lo hi : nat) (f : nat -> S -> res S) (s : S) : res S := for_from (hi - lo) lo f s.

(* a search loop: [for j in lo .. lo + n { if p(j) { found = true; break } }] *)
Fixpoint any_from (n : nat) (lo : nat) (p : nat -> res bool) : res bool :=
  match n with
  | O => Ok false
  | S k => bind (p lo) (fun b => if b then Ok true else any_from k (S lo) p)
  end.
Definition any_range (lo hi : nat) (p : nat -> res bool) : res bool := any_from (hi - lo) lo p.
