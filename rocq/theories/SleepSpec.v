(** A world in which nothing is awake, and what a step may change in it. *)
From Coq Require Import List ZArith Bool Arith.
From Verif Require Import Base Num Math Collision Manifold Filter ShapeModel TreeModel BroadModel DynModel WorldModel WorldClaims WorldCalls.
Import ListNotations.

Section Sleep.
  Context {T : Type} `{NT : Num T}.
  Notation world := (world T).
  Implicit Types w : world.

  (* every body sleeps or is static *)
  Definition resting w : Prop := forall i b, w_bodies w i = Some b -> is_awake b = false \/ b_type b = StaticBody.
  (* no contact waits to be filtered again *)
  Definition filtered w : Prop := forall c x, w_contacts w c = Some x -> cf_filter (c_flags x) = false.

  (* a body without what a step uses for itself: the contacts, the force and torque, the mark of the islands, the time of the sweep *)
  Definition core (b : body T) : body T :=
    set_b_contacts [] (set_b_torque (nofZ 0) (set_b_force vzero (set_b_sweep (with_alpha0 (nofZ 0) (b_sweep b)) (set_b_flags (set_fl_island false (b_flags b)) b)))).
  (* a contact without the marks of the step and the time of impact *)
  Definition ccore (c : contact T) : contact T :=
    set_c_toi (nofZ 0) (set_c_toi_count 0%Z (set_c_flags (set_cf_island false (set_cf_toi false (c_flags c))) c)).

  (* nothing happened: bodies, fixtures, contacts and joints stay; a new contact does not touch; only the contact filter was asked *)
  Definition undisturbed w w' : Prop :=
    (forall i, option_map core (w_bodies w' i) = option_map core (w_bodies w i)) /\
    w_fixtures w' = w_fixtures w /\
    (forall c x, w_contacts w c = Some x -> option_map ccore (w_contacts w' c) = Some (ccore x)) /\
    (forall c y, w_contacts w c = None -> w_contacts w' c = Some y -> cf_touching (c_flags y) = false /\ mf_count (c_manifold y) = 0) /\
    (forall j, option_map (set_j_island false) (w_joints w' j) = option_map (set_j_island false) (w_joints w j)) /\
    exists new, w_log w' = new ++ w_log w /\ Forall (fun e => exists f g, e = EvFilter f g) new.
End Sleep.
