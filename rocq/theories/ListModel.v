(** Model of /repo/src/b2rs_double_linked_list.rs ("dll") and /repo/src/b2rs_linked_list.rs ("sll").

    A node is an id into a pool of links; Rc/Weak/RefCell are not modelled (upgrading a [Weak] of a node that is
    in a list cannot fail, because the head and the next links own the nodes). *)
From Coq Require Import List Arith Bool.
From Verif Require Import Base.
Import ListNotations.

(* the next and prev fields of a list node (traits LinkedListNode, DoubleLinkedListNode) *)
Record link := Link { l_next : option nat; l_prev : option nat }.

Definition set_next (x : link) n : link := Link n (l_prev x).
Definition set_prev (x : link) p : link := Link (l_next x) p.
Definition mod_link (h : list link) (i : nat) (f : link -> link) : res (list link) :=
  x <- get h i ;; set h i (f x).

(* a list is its head; the pool of links is shared *)
Record ilist := IList { il_head : option nat; il_pool : list link }.

(* dll:76-81 and sll:55-60 remove_all; take_next leaves None *)
Fixpoint take_all (fuel : nat) (h : list link) (cur : option nat) : res (list link) :=
  match cur with
  | None => Ok h
  | Some i =>
    match fuel with
    | O => Fuel
    | S fuel => x <- get h i ;; h <- set h i (set_next x None) ;; take_all fuel h (l_next x)
    end
  end.
Definition remove_all (l : ilist) : res ilist :=
  h <- take_all (S (length (il_pool l))) (il_pool l) (il_head l) ;; Ok (IList None h).

(* dll:221-223 and sll:111-113 clear *)
Definition list_clear (l : ilist) : ilist := IList None (il_pool l).

Definition is_head (l : ilist) (i : nat) : bool := match il_head l with Some j => Nat.eqb j i | None => false end.

(* dll:82-123 remove *)
Definition dll_remove (l : ilist) (i : nat) : res ilist :=
  x <- get (il_pool l) i ;;
  h <- (match l_prev x with
        | Some p => mod_link (il_pool l) p (fun y => set_next y (l_next x))
        | None => Ok (il_pool l)
        end) ;;
  h <- (match l_next x with
        | Some n => mod_link h n (fun y => set_prev y (l_prev x))
        | None => Ok h
        end) ;;
  match il_head l with
  | Some j =>
    if Nat.eqb j i then y <- get h j ;; Ok (IList (l_next y) h)
    else Ok (IList (il_head l) h)
  | None => Panic                                     (* assert!(false) *)
  end.

(* dll:200-219 push_front *)
Definition dll_push (l : ilist) (i : nat) : res ilist :=
  h <- (match il_head l with
        | Some j => mod_link (il_pool l) j (fun y => set_prev y (Some i))
        | None => Ok (il_pool l)
        end) ;;
  h <- mod_link h i (fun y => set_next (set_prev y None) (il_head l)) ;;
  Ok (IList (Some i) h).

(* dll:224-248 and sll:114-138 iter: the ids in the order of the next links *)
Fixpoint walk (fuel : nat) (h : list link) (cur : option nat) : res (list nat) :=
  match cur with
  | None => Ok []
  | Some i =>
    match fuel with
    | O => Fuel
    | S fuel => x <- get h i ;; r <- walk fuel h (l_next x) ;; Ok (i :: r)
    end
  end.
Definition list_iter (l : ilist) : res (list nat) := walk (S (length (il_pool l))) (il_pool l) (il_head l).

(* sll:62-97 remove: [unlink] is the inner loop, [cur] the variable node *)
Fixpoint unlink (fuel : nat) (h : list link) (cur i : nat) : res (option (list link)) :=
  match fuel with
  | O => Fuel
  | S fuel =>
    x <- get h cur ;;
    match l_next x with
    | Some n =>
      if Nat.eqb n i then
        y <- get h i ;; h <- set h cur (set_next x (l_next y)) ;; Ok (Some h)
      else unlink fuel h n i
    | None => Ok None
    end
  end.
Definition sll_remove (l : ilist) (i : nat) : res ilist :=
  match il_head l with
  | Some j =>
    if Nat.eqb j i then x <- get (il_pool l) j ;; Ok (IList (l_next x) (il_pool l))
    else
      r <- unlink (S (length (il_pool l))) (il_pool l) j i ;;
      h <- unwrap r ;;                                (* assert!(found) *)
      Ok (IList (il_head l) h)
  | None => Panic                                     (* assert!(found) *)
  end.

(* sll:99-102 push_front *)
Definition sll_push (l : ilist) (i : nat) : res ilist :=
  h <- mod_link (il_pool l) i (fun y => set_next y (il_head l)) ;; Ok (IList (Some i) h).

(* the loop [for x in list.iter() { list.remove(x) }] of destroy_body, reset, ...: the iterator reads the next
   link before it hands out the node *)
Fixpoint drain (rm : ilist -> nat -> res ilist) (fuel : nat) (l : ilist) (cur : option nat) : res (ilist * list nat) :=
  match cur with
  | None => Ok (l, [])
  | Some i =>
    match fuel with
    | O => Fuel
    | S fuel =>
      x <- get (il_pool l) i ;;
      l' <- rm l i ;;
      '(l'', r) <- drain rm fuel l' (l_next x) ;;
      Ok (l'', i :: r)
    end
  end.
Definition drain_all rm (l : ilist) : res (ilist * list nat) := drain rm (S (length (il_pool l))) l (il_head l).
