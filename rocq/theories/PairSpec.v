(** Which pairs of fixture children are supposed to have a contact, and which programs are considered. *)
From Coq Require Import List ZArith Bool Arith.
From Verif Require Import Base Num Math Collision Filter ShapeModel TreeModel TreeSpec BroadModel DynModel WorldModel WorldClaims WorldCalls.
Import ListNotations.

Section Pairs.
  Context {T : Type} `{NT : Num T} `{TT : NumTrig T} `{VT : NumValid T}.
  Notation world := (world T).
  Implicit Types w : world.

  (* there is a contact for the two children, in either order *)
  Definition has_contact w (f k g l : nat) : Prop :=
    exists c x, w_contacts w c = Some x /\ (pair_key x = ((f, k), (g, l)) \/ pair_key x = ((g, l), (f, k))).
  (* nothing forbids contacts between the two fixtures: different bodies, one of them dynamic, no joint, the filters *)
  Definition may_touch w (f g : nat) : Prop :=
    exists x y a b, w_fixtures w f = Some x /\ w_fixtures w g = Some y /\ f_body x = Some a /\ f_body y = Some b /\ a <> b /\
      (dynamic w a \/ dynamic w b) /\ ~ joint_forbids w a b /\ should_collide (f_filter x) (f_filter y) = true.
  (* the box of the broad phase for child [k] of the fixture [f] of an enabled body *)
  Definition fat_box w (f k : nat) (a : aabb T) : Prop :=
    on_enabled w f /\ k < children w f /\ exists id, proxy_is w f k id /\ get_fat_aabb (bp_tree (w_bp w)) id = Ok a.
  (* the child is in the buffer of the next update of the pairs *)
  Definition waiting w (f k : nat) : Prop :=
    exists id, proxy_is w f k id /\ In (Some id) (firstn (bp_move_count (w_bp w)) (bp_moves (w_bp w))).

  (* every pair that overlaps and may touch has its contact *)
  Definition all_pairs w : Prop := forall f k g l a b, fat_box w f k a -> fat_box w g l b -> ~ separated a b -> may_touch w f g -> has_contact w f k g l.
  (* ... unless one of the two is still to be looked at *)
  Definition all_pairs_but w : Prop := forall f k g l a b, fat_box w f k a -> fat_box w g l b -> ~ separated a b -> may_touch w f g ->
    waiting w f k \/ waiting w g l \/ has_contact w f k g l.

  (* the filter the library has by default *)
  Definition plain_filter (E : env T) : Prop := forall w f g x y, w_fixtures w f = Some x -> w_fixtures w g = Some y -> e_filter E w f g = should_collide (f_filter x) (f_filter y).
  (* the program does not destroy joints that forbid contacts, except with a body *)
  Definition frank w (c : wcall T) : Prop :=
    match c with WDestroyJoint j => forall x, w_joints w j = Some x -> j_collide x = true | _ => True end.
  Inductive preach (E : env T) : world -> Prop :=
  | preach_new listener goodbye w : world_new listener goodbye = Ok w -> preach E w
  | preach_call w c w' : preach E w -> frank w c -> wrun E c w = Ok w' -> preach E w'.
End Pairs.
