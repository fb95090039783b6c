(** What the boxes of the broad phase are supposed to cover, and which programs are considered.
    Exact real arithmetic where not said otherwise. *)
From Coq Require Import List ZArith Bool Arith Reals.
From Verif Require Import Base Num NumLaws Math Collision ShapeModel TreeModel TreeSpec BroadModel DynModel WorldModel WorldClaims WorldCalls QueryModel.
Import ListNotations.
Local Open Scope R_scope.

(** ** the boxes, in any arithmetic *)
Section Boxes.
  Context {T : Type} `{NT : Num T}.
  (* child [k] of the fixture [f] of an enabled body has the box [a] where its body is now *)
  Definition child_box (w : world T) (f k : nat) (a : aabb T) : Prop :=
    exists x i b, w_fixtures w f = Some x /\ f_body x = Some i /\ w_bodies w i = Some b /\ is_enabled b = true /\
      (k < children w f)%nat /\ shape_aabb (f_shape x) (b_xf b) k = Ok a.
  (* the box the broad phase has for the child contains it *)
  Definition covered (w : world T) : Prop := forall f k a, child_box w f k a ->
    exists id fat, proxy_is w f k id /\ get_fat_aabb (bp_tree (w_bp w)) id = Ok fat /\ inside a fat.
End Boxes.

(** ** what is asked of the solver: a static body at rest stays *)
Definition settled (b : body R) : Prop :=
  sw_c0 (b_sweep b) = sw_c (b_sweep b) /\ sw_a0 (b_sweep b) = sw_a (b_sweep b) /\ b_lv b = V2 0 0 /\ b_av b = 0.
Definition stays (b : body R) (s : solved R) : Prop :=
  so_c0 s = sw_c (b_sweep b) /\ so_c s = sw_c (b_sweep b) /\ so_a0 s = sw_a (b_sweep b) /\ so_a s = sw_a (b_sweep b) /\ so_lv s = V2 0 0 /\ so_av s = 0.
Definition holds_static (E : env R) : Prop :=
  (forall w is dt s i b, e_solve E w is dt = Ok s -> In i (is_bodies is) -> w_bodies w i = Some b -> b_type b = StaticBody -> settled b -> stays b (so_body s i)) /\
  (forall w is ia ib dt s i b, e_solve_toi E w is ia ib dt = Ok s -> In i (is_bodies is) -> w_bodies w i = Some b -> b_type b = StaticBody -> settled b -> stays b (so_body s i)).

(** ** what is asked of the program *)
(* every child of the shape has a proper box *)
Definition box_shape (s : shape R) : Prop := forall xf k a, shape_aabb s xf k = Ok a -> box_valid a.
Definition tame (w : world R) (c : wcall R) : Prop :=
  match c with
  | WCreateBody d => bd_type d = StaticBody -> bd_lv d = V2 0 0 /\ bd_av d = 0
  | WCreateFixture _ d => box_shape (fd_shape d)
  | WStep _ => w_continuous w = true -> forall i b, w_bodies w i = Some b -> b_type b <> KinematicBody
  | _ => True
  end.
Inductive treach (E : env R) : world R -> Prop :=
| treach_new listener goodbye w : world_new listener goodbye = Ok w -> treach E w
| treach_call w c w' : treach E w -> tame w c -> wrun E c w = Ok w' -> treach E w'.
