(** What the dynamic tree is supposed to do, stated on the raw node pool and on the public calls.
    Nothing here refers to the proof vocabulary (shapes, zippers, ...). *)
From Coq Require Import List ZArith Permutation Arith Reals.
From Flocq Require Import Core.Raux.
From Verif Require Import Base Num NumLaws Math Collision TreeModel.
Import ListNotations.

(** ** Well-formed pool *)
Section WF.
  Context {T U : Type}.
  Notation node := (node T U).
  Notation tree := (tree T U).
  (* what is demanded of an internal box and the boxes of the two children *)
  Variable Ub : aabb T -> aabb T -> aabb T -> Prop.

  (* [subtree ns p i h is ls]: the node [i] with parent [p] is the root of a binary tree of height [h]
     made of the nodes [is], with the leaves [ls] *)
  Inductive subtree (ns : list node) : option nat -> nat -> Z -> list nat -> list nat -> Prop :=
  | sub_leaf p i n :
      nth_error ns i = Some n -> n_parent n = p -> n_child1 n = None -> n_child2 n = None -> n_height n = 0%Z ->
      subtree ns p i 0 [i] [i]
  | sub_node p i n l r nl nr hl hr il ir ll lr :
      nth_error ns i = Some n -> n_parent n = p -> n_child1 n = Some l -> n_child2 n = Some r ->
      nth_error ns l = Some nl -> nth_error ns r = Some nr -> Ub (n_aabb n) (n_aabb nl) (n_aabb nr) ->
      n_height n = (1 + Z.max hl hr)%Z ->
      subtree ns (Some i) l hl il ll -> subtree ns (Some i) r hr ir lr ->
      subtree ns p i (1 + Z.max hl hr) (i :: il ++ ir) (ll ++ lr).

  (* the free list: linked through the parent field, heights -1 *)
  Fixpoint free_list (ns : list node) (p : option nat) (F : list nat) : Prop :=
    match F with
    | [] => p = None
    | i :: r => p = Some i /\ exists n, nth_error ns i = Some n /\ n_height n = (-1)%Z /\ free_list ns (n_parent n) r
    end.

  Definition well_formed (t : tree) (live : nat -> Prop) : Prop :=
    exists is ls F,
      match t_root t with
      | None => is = [] /\ ls = []
      | Some r => exists h, subtree (t_nodes t) None r h is ls
      end /\
      free_list (t_nodes t) (t_free t) F /\
      t_cap t = length (t_nodes t) /\ t_count t = length is /\
      Permutation (is ++ F) (seq 0 (t_cap t)) /\       (* the pool, each node once *)
      forall j, In j ls <-> live j.
End WF.

(* no demand on boxes *)
Definition any_box {T} (n x y : aabb T) : Prop := True.

(** ** Boxes that are unions *)
Section Union.
  Context {T : Type} `{NO : NumOrd T}.
  Definition least (n x y : T) : Prop :=
    nle n x = true /\ nle n y = true /\ (nle x n = true \/ nle y n = true).
  Definition greatest (n x y : T) : Prop :=
    nle x n = true /\ nle y n = true /\ (nle n x = true \/ nle n y = true).
  Definition union_box (n x y : aabb T) : Prop :=
    least (vx (lo n)) (vx (lo x)) (vx (lo y)) /\ least (vy (lo n)) (vy (lo x)) (vy (lo y)) /\
    greatest (vx (hi n)) (vx (hi x)) (vx (hi y)) /\ greatest (vy (hi n)) (vy (hi x)) (vy (hi y)).
  (* no coordinate is NaN *)
  Definition box_ok (b : aabb T) : Prop := nok (vx (lo b)) /\ nok (vy (lo b)) /\ nok (vx (hi b)) /\ nok (vy (hi b)).
  Definition vec_fin (v : vec2 T) : Prop := nfin (vx v) /\ nfin (vy v).
  (* all coordinates within [-2^124, 2^124] *)
  Definition in_range (x : T) : Prop := nle (nofZ (-2^124)) x = true /\ nle x (nofZ (2^124)) = true.
  Definition box_in_range (b : aabb T) : Prop :=
    in_range (vx (lo b)) /\ in_range (vy (lo b)) /\ in_range (vx (hi b)) /\ in_range (vy (hi b)).
End Union.

(** ** Histories: the tree together with what the user knows *)
Section Reach.
  Context {T : Type} `{NT : Num T} {U : Type}.
  Notation tree := (tree T U).

  (* a live proxy: stored box, user data, moved flag *)
  Definition entry : Type := (aabb T * option U * bool)%type.
  Definition pmap : Type := nat -> option entry.
  Definition pempty : pmap := fun _ => None.
  Definition pset (m : pmap) (id : nat) (e : option entry) : pmap := fun j => if Nat.eqb j id then e else m j.
  Definition pshift (o : vec2 T) (m : pmap) : pmap := fun j =>
    match m j with
    | Some (b, u, f) => Some (AABB (vsub (lo b) o) (vsub (hi b) o), u, f)
    | None => None
    end.

  (* origins that may be given to shift_origin *)
  Variable oks : vec2 T -> Prop.

  (* [reach t m]: some sequence of public calls on live proxies, starting with a new tree, led to [t], and
     [m] records what was created, moved, cleared, shifted and not destroyed *)
  Inductive reach : tree -> pmap -> Prop :=
  | reach_new t : tree_new = Ok t -> reach t pempty
  | reach_create t m b u t' id : reach t m -> create_proxy t b u = Ok (t', id) ->
      reach t' (pset m id (Some (fatten b, Some u, true)))
  | reach_destroy t m id e t' : reach t m -> m id = Some e -> destroy_proxy t id = Ok t' ->
      reach t' (pset m id None)
  | reach_move_kept t m id e b d t' : reach t m -> m id = Some e -> move_proxy t id b d = Ok (t', false) ->
      reach t' m
  | reach_move t m id fb u f b d t' : reach t m -> m id = Some (fb, u, f) -> move_proxy t id b d = Ok (t', true) ->
      reach t' (pset m id (Some (predict b d, u, true)))
  | reach_clear t m id fb u f t' : reach t m -> m id = Some (fb, u, f) -> clear_moved t id = Ok t' ->
      reach t' (pset m id (Some (fb, u, false)))
  | reach_shift t m o : reach t m -> oks o -> reach (shift_origin t o) (pshift o m)
  | reach_rebuild t m t' : reach t m -> rebuild_bottom_up t = Ok t' -> reach t' m.

  Definition live (m : pmap) (j : nat) : Prop := m j <> None.
End Reach.

(** ** Relations between boxes *)
Section Boxes.
  Context {T : Type} `{NO : NumOrd T} {U : Type}.
  (* [x] lies within [n] *)
  Definition inside (x n : aabb T) : Prop :=
    nle (vx (lo n)) (vx (lo x)) = true /\ nle (vy (lo n)) (vy (lo x)) = true /\
    nle (vx (hi x)) (vx (hi n)) = true /\ nle (vy (hi x)) (vy (hi n)) = true.
  (* a strict gap on some axis *)
  Definition separated (a b : aabb T) : Prop :=
    nlt (vx (hi a)) (vx (lo b)) = true \/ nlt (vy (hi a)) (vy (lo b)) = true \/
    nlt (vx (hi b)) (vx (lo a)) = true \/ nlt (vy (hi b)) (vy (lo a)) = true.
  Definition box_fin (b : aabb T) : Prop := nfin (vx (lo b)) /\ nfin (vy (lo b)) /\ nfin (vx (hi b)) /\ nfin (vy (hi b)).
  Definition all_boxes (P : aabb T -> Prop) (m : @pmap T U) : Prop := forall id b u f, m id = Some (b, u, f) -> P b.
End Boxes.

(** ** Sequences of public calls *)
Section Cmd.
  Context {T : Type} `{NT : Num T} {U : Type}.
  Notation tree := (tree T U).
  Notation pmap := (@pmap T U).

  Inductive cmd :=
  | CCreate (b : aabb T) (u : U)
  | CDestroy (id : nat)
  | CMove (id : nat) (b : aabb T) (d : vec2 T)
  | CClear (id : nat)
  | CShift (o : vec2 T)
  | CRebuild.

  (* one public call; None: the id is not live (illegal), or the call did not return normally *)
  Definition exec1 (c : cmd) (t : tree) (m : pmap) : option (tree * pmap) :=
    match c with
    | CCreate b u => match create_proxy t b u with Ok (t', id) => Some (t', pset m id (Some (fatten b, Some u, true))) | _ => None end
    | CDestroy id => match m id with
                     | Some _ => match destroy_proxy t id with Ok t' => Some (t', pset m id None) | _ => None end
                     | None => None end
    | CMove id b d => match m id with
                      | Some (fb, u, f) => match move_proxy t id b d with
                                           | Ok (t', true) => Some (t', pset m id (Some (predict b d, u, true)))
                                           | Ok (t', false) => Some (t', m)
                                           | _ => None end
                      | None => None end
    | CClear id => match m id with
                   | Some (fb, u, f) => match clear_moved t id with Ok t' => Some (t', pset m id (Some (fb, u, false))) | _ => None end
                   | None => None end
    | CShift o => Some (shift_origin t o, pshift o m)
    | CRebuild => match rebuild_bottom_up t with Ok t' => Some (t', m) | _ => None end
    end.
  Fixpoint exec (cs : list cmd) (t : tree) (m : pmap) : option (tree * pmap) :=
    match cs with
    | [] => Some (t, m)
    | c :: r => match exec1 c t m with Some (t', m') => exec r t' m' | None => None end
    end.

  Definition shifts_ok (oks : vec2 T -> Prop) (c : cmd) : Prop := match c with CShift o => oks o | _ => True end.
  (* which commands touch proxy [id] *)
  Definition destroys (id : nat) (c : cmd) : Prop := match c with CDestroy j => j = id | _ => False end.
  Definition changes_box (id : nat) (c : cmd) : Prop :=
    match c with CDestroy j => j = id | CMove j _ _ => j = id | CShift _ => True | _ => False end.

  (* a callback of query that also records the ids it was given and its answers *)
  Definition record {S} (cb : S -> nat -> S * bool) (st : S * list (nat * bool)) (i : nat) : (S * list (nat * bool)) * bool :=
    let '(s, tr) := st in let '(s', go) := cb s i in ((s', tr ++ [(i, go)]), go).

End Cmd.

(** ** Rays *)
Section Rays.
  Local Open Scope R_scope.
  (* some point p1 + t (p2 - p1) with 0 <= t <= M lies in the box *)
  Definition touches (p1 p2 : vec2 R) (M : R) (b : aabb R) : Prop :=
    exists t, 0 <= t <= M /\
      vx (lo b) <= vx p1 + t * (vx p2 - vx p1) <= vx (hi b) /\
      vy (lo b) <= vy p1 + t * (vy p2 - vy p1) <= vy (hi b).
  Definition box_valid (b : aabb R) : Prop := vx (lo b) <= vx (hi b) /\ vy (lo b) <= vy (hi b).

  (* a callback is any function of the calls made so far, the clipped ray and the proxy;
     the history of a ray cast lists the proxies reported with the values answered *)
  Definition ray_calls := list (nat * R).
  Definition history (cb : ray_calls -> ray_input R -> nat -> R) (h : ray_calls) (inp : ray_input R) (i : nat) : ray_calls * R :=
    let v := cb h inp i in (h ++ [(i, v)], v).
  (* the fraction left after the given answers: positive answers clip *)
  Definition clipped (M : R) (calls : ray_calls) : R :=
    fold_left (fun M c => if Rlt_bool 0 (snd c) then snd c else M) calls M.
End Rays.
