(** What the contacts say once a step has collided the fixtures. *)
From Coq Require Import List ZArith Bool Arith.
From Verif Require Import Base Num Math Collision Manifold Filter ShapeModel TreeModel BroadModel DynModel WorldModel WorldClaims WorldCalls.
Import ListNotations.

Section Front.
  Context {T : Type} `{NT : Num T} `{TT : NumTrig T} `{VT : NumValid T}.
  Notation world := (world T).
  Implicit Types w v : world.

  (* the body is awake and not static *)
  Definition at_work w (i : nat) : Prop := exists b, w_bodies w i = Some b /\ is_awake b = true /\ b_type b <> StaticBody.
  (* the narrow phase sees the same contact at the same places *)
  Definition same_sight w v (c : nat) (x : contact T) : Prop :=
    w_fixtures v = w_fixtures w /\ (forall i, option_map b_xf (w_bodies v i) = option_map b_xf (w_bodies w i)) /\ option_map pair_key (w_contacts v c) = Some (pair_key x).
  (* the boxes of the two children overlap in the broad phase *)
  Definition boxes_meet w (x : contact T) : Prop :=
    exists p q a b, proxy_is w (c_fa x) (c_ia x) p /\ proxy_is w (c_fb x) (c_ib x) q /\
      get_fat_aabb (bp_tree (w_bp w)) p = Ok a /\ get_fat_aabb (bp_tree (w_bp w)) q = Ok b /\ test_overlap a b = true.
  (* the flag is the answer of the narrow phase *)
  Definition up_to_date (E : env T) w (c : nat) (x : contact T) : Prop :=
    exists v, same_sight w v c x /\
      if sensor_contact w x then e_overlap E v c = Ok (cf_touching (c_flags x))
      else exists m, e_evaluate E v c = Ok m /\ cf_touching (c_flags x) = Nat.ltb 0 (mf_count m).
  (* one of the two bodies of the contact is at work in [w0] *)
  Definition busy w0 w (x : contact T) : Prop := exists a b, bodies_of w x = Some (a, b) /\ (at_work w0 a \/ at_work w0 b).
  (* pre_solve is told of solid contacts that touch *)
  Definition announced w w' (c : nat) (x : contact T) : Prop :=
    w_listener w = true -> sensor_contact w' x = false -> cf_touching (c_flags x) = true -> exists l, news w w' l /\ In (EvPre c) l.
  (* the pairs of shapes that have a contact class, in the order of the class *)
  Definition class_pair (a b : shape T) : Prop :=
    match a, b with
    | ShCircle _, ShCircle _ | ShPolygon _, ShCircle _ | ShPolygon _, ShPolygon _ | ShEdge _, ShCircle _ | ShEdge _, ShPolygon _ | ShChain _, ShCircle _ | ShChain _, ShPolygon _ => True
    | _, _ => False
    end.
  (* the two fixtures of the contact exist, have the two children, and are in the order of a class *)
  Definition in_class w (x : contact T) : Prop :=
    exists xa xb, w_fixtures w (c_fa x) = Some xa /\ w_fixtures w (c_fb x) = Some xb /\ c_ia x < children w (c_fa x) /\ c_ib x < children w (c_fb x) /\ class_pair (f_shape xa) (f_shape xb).
End Front.
