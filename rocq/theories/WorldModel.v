(** Model of the world: bodies, fixtures, contacts and joints, their links and the time step.
    Sources: /repo/src/private/dynamics/b2_world.rs ("world"), b2_contact_manager.rs ("cm"), b2_contact.rs ("pcon"),
    b2_contact_registers.rs ("reg"), b2_body.rs ("pbody"), b2_fixture.rs ("pfix"), b2_island.rs ("isl"),
    b2_island_private.rs ("islp") in the same directory, /repo/src/b2_contact.rs ("con").

    Simplifications:
    - Objects are numbered by creation and kept in tables [nat -> option _]; an object that is destroyed leaves its
      table (a Weak to it can no longer be upgraded, looking it up is a panic). Handles the user keeps to destroyed
      objects are not modelled.
    - The linked lists are plain lists (theorems of property C02), looping over one while removing the current element visits what was
      in it before (drain_ok); removing something that is not in the list is a panic here.
    - A RefCell is only visible in [refilter], see there.
    - What the world calls is an environment [env] that may answer anything: the user's filter and listener, the
      narrow phase (evaluate, test_overlap_shapes, time_of_impact) and the constraint solver of an island. The
      answers may depend on the whole world, including the log of what happened before. Callbacks only touch the
      contact they are given. The island solver only writes sweep, velocities, transform and sleep time of the
      bodies of the island and the points of its contacts.
    - [w_log] records callbacks and the islands (newest first); it does not exist in the code.
    - Timers, gravity, debug draw, profile are left out. *)
From Coq Require Import List ZArith Bool Arith.
From Verif Require Import Base Num Math Collision Manifold Filter ShapeModel TreeModel BroadModel DynModel.
Import ListNotations.

Inductive event :=
| EvFilter (fa fb : nat)
| EvBegin (c : nat) | EvEnd (c : nat) | EvPre (c : nat) | EvPost (c : nat)
| EvNarrow (c : nat) | EvToi (c : nat)
| EvByeJoint (j : nat) | EvByeFixture (f : nat)
| EvIsland (bodies contacts joints : list nat).

(* isl: B2island, the members *)
Record island := Island { is_bodies : list nat; is_contacts : list nat; is_joints : list nat }.

Record world (T : Type) := World {
  w_bodies : nat -> option (body T);
  w_fixtures : nat -> option (fixture T);
  w_contacts : nat -> option (contact T);
  w_joints : nat -> option joint;
  w_next_body : nat;
  w_next_fixture : nat;
  w_next_contact : nat;
  w_next_joint : nat;
  w_body_list : list nat;
  w_contact_list : list nat;
  w_joint_list : list nat;
  w_body_count : nat;
  w_contact_count : nat;
  w_joint_count : nat;
  w_bp : broad T (nat * nat);
  w_new_contacts : bool;
  w_locked : bool;
  w_step_complete : bool;
  w_allow_sleep : bool;
  w_continuous : bool;
  w_sub_stepping : bool;
  w_clear_forces : bool;
  w_listener : bool;
  w_goodbye : bool;
  w_inv_dt0 : T;
  w_log : list event }.
Arguments World {T} _ _ _ _ _ _ _ _ _ _ _ _ _ _ _ _ _ _ _ _ _ _ _ _ _ _.
Arguments w_bodies {T} _.
Arguments w_fixtures {T} _.
Arguments w_contacts {T} _.
Arguments w_joints {T} _.
Arguments w_next_body {T} _.
Arguments w_next_fixture {T} _.
Arguments w_next_contact {T} _.
Arguments w_next_joint {T} _.
Arguments w_body_list {T} _.
Arguments w_contact_list {T} _.
Arguments w_joint_list {T} _.
Arguments w_body_count {T} _.
Arguments w_contact_count {T} _.
Arguments w_joint_count {T} _.
Arguments w_bp {T} _.
Arguments w_new_contacts {T} _.
Arguments w_locked {T} _.
Arguments w_step_complete {T} _.
Arguments w_allow_sleep {T} _.
Arguments w_continuous {T} _.
Arguments w_sub_stepping {T} _.
Arguments w_clear_forces {T} _.
Arguments w_listener {T} _.
Arguments w_goodbye {T} _.
Arguments w_inv_dt0 {T} _.
Arguments w_log {T} _.
Definition set_w_bodies {T} (v : nat -> option (body T)) (r : world T) : world T := World v (w_fixtures r) (w_contacts r) (w_joints r) (w_next_body r) (w_next_fixture r) (w_next_contact r) (w_next_joint r) (w_body_list r) (w_contact_list r) (w_joint_list r) (w_body_count r) (w_contact_count r) (w_joint_count r) (w_bp r) (w_new_contacts r) (w_locked r) (w_step_complete r) (w_allow_sleep r) (w_continuous r) (w_sub_stepping r) (w_clear_forces r) (w_listener r) (w_goodbye r) (w_inv_dt0 r) (w_log r).
Definition set_w_fixtures {T} (v : nat -> option (fixture T)) (r : world T) : world T := World (w_bodies r) v (w_contacts r) (w_joints r) (w_next_body r) (w_next_fixture r) (w_next_contact r) (w_next_joint r) (w_body_list r) (w_contact_list r) (w_joint_list r) (w_body_count r) (w_contact_count r) (w_joint_count r) (w_bp r) (w_new_contacts r) (w_locked r) (w_step_complete r) (w_allow_sleep r) (w_continuous r) (w_sub_stepping r) (w_clear_forces r) (w_listener r) (w_goodbye r) (w_inv_dt0 r) (w_log r).
Definition set_w_contacts {T} (v : nat -> option (contact T)) (r : world T) : world T := World (w_bodies r) (w_fixtures r) v (w_joints r) (w_next_body r) (w_next_fixture r) (w_next_contact r) (w_next_joint r) (w_body_list r) (w_contact_list r) (w_joint_list r) (w_body_count r) (w_contact_count r) (w_joint_count r) (w_bp r) (w_new_contacts r) (w_locked r) (w_step_complete r) (w_allow_sleep r) (w_continuous r) (w_sub_stepping r) (w_clear_forces r) (w_listener r) (w_goodbye r) (w_inv_dt0 r) (w_log r).
Definition set_w_joints {T} (v : nat -> option joint) (r : world T) : world T := World (w_bodies r) (w_fixtures r) (w_contacts r) v (w_next_body r) (w_next_fixture r) (w_next_contact r) (w_next_joint r) (w_body_list r) (w_contact_list r) (w_joint_list r) (w_body_count r) (w_contact_count r) (w_joint_count r) (w_bp r) (w_new_contacts r) (w_locked r) (w_step_complete r) (w_allow_sleep r) (w_continuous r) (w_sub_stepping r) (w_clear_forces r) (w_listener r) (w_goodbye r) (w_inv_dt0 r) (w_log r).
Definition set_w_next_body {T} (v : nat) (r : world T) : world T := World (w_bodies r) (w_fixtures r) (w_contacts r) (w_joints r) v (w_next_fixture r) (w_next_contact r) (w_next_joint r) (w_body_list r) (w_contact_list r) (w_joint_list r) (w_body_count r) (w_contact_count r) (w_joint_count r) (w_bp r) (w_new_contacts r) (w_locked r) (w_step_complete r) (w_allow_sleep r) (w_continuous r) (w_sub_stepping r) (w_clear_forces r) (w_listener r) (w_goodbye r) (w_inv_dt0 r) (w_log r).
Definition set_w_next_fixture {T} (v : nat) (r : world T) : world T := World (w_bodies r) (w_fixtures r) (w_contacts r) (w_joints r) (w_next_body r) v (w_next_contact r) (w_next_joint r) (w_body_list r) (w_contact_list r) (w_joint_list r) (w_body_count r) (w_contact_count r) (w_joint_count r) (w_bp r) (w_new_contacts r) (w_locked r) (w_step_complete r) (w_allow_sleep r) (w_continuous r) (w_sub_stepping r) (w_clear_forces r) (w_listener r) (w_goodbye r) (w_inv_dt0 r) (w_log r).
Definition set_w_next_contact {T} (v : nat) (r : world T) : world T := World (w_bodies r) (w_fixtures r) (w_contacts r) (w_joints r) (w_next_body r) (w_next_fixture r) v (w_next_joint r) (w_body_list r) (w_contact_list r) (w_joint_list r) (w_body_count r) (w_contact_count r) (w_joint_count r) (w_bp r) (w_new_contacts r) (w_locked r) (w_step_complete r) (w_allow_sleep r) (w_continuous r) (w_sub_stepping r) (w_clear_forces r) (w_listener r) (w_goodbye r) (w_inv_dt0 r) (w_log r).
Definition set_w_next_joint {T} (v : nat) (r : world T) : world T := World (w_bodies r) (w_fixtures r) (w_contacts r) (w_joints r) (w_next_body r) (w_next_fixture r) (w_next_contact r) v (w_body_list r) (w_contact_list r) (w_joint_list r) (w_body_count r) (w_contact_count r) (w_joint_count r) (w_bp r) (w_new_contacts r) (w_locked r) (w_step_complete r) (w_allow_sleep r) (w_continuous r) (w_sub_stepping r) (w_clear_forces r) (w_listener r) (w_goodbye r) (w_inv_dt0 r) (w_log r).
Definition set_w_body_list {T} (v : list nat) (r : world T) : world T := World (w_bodies r) (w_fixtures r) (w_contacts r) (w_joints r) (w_next_body r) (w_next_fixture r) (w_next_contact r) (w_next_joint r) v (w_contact_list r) (w_joint_list r) (w_body_count r) (w_contact_count r) (w_joint_count r) (w_bp r) (w_new_contacts r) (w_locked r) (w_step_complete r) (w_allow_sleep r) (w_continuous r) (w_sub_stepping r) (w_clear_forces r) (w_listener r) (w_goodbye r) (w_inv_dt0 r) (w_log r).
Definition set_w_contact_list {T} (v : list nat) (r : world T) : world T := World (w_bodies r) (w_fixtures r) (w_contacts r) (w_joints r) (w_next_body r) (w_next_fixture r) (w_next_contact r) (w_next_joint r) (w_body_list r) v (w_joint_list r) (w_body_count r) (w_contact_count r) (w_joint_count r) (w_bp r) (w_new_contacts r) (w_locked r) (w_step_complete r) (w_allow_sleep r) (w_continuous r) (w_sub_stepping r) (w_clear_forces r) (w_listener r) (w_goodbye r) (w_inv_dt0 r) (w_log r).
Definition set_w_joint_list {T} (v : list nat) (r : world T) : world T := World (w_bodies r) (w_fixtures r) (w_contacts r) (w_joints r) (w_next_body r) (w_next_fixture r) (w_next_contact r) (w_next_joint r) (w_body_list r) (w_contact_list r) v (w_body_count r) (w_contact_count r) (w_joint_count r) (w_bp r) (w_new_contacts r) (w_locked r) (w_step_complete r) (w_allow_sleep r) (w_continuous r) (w_sub_stepping r) (w_clear_forces r) (w_listener r) (w_goodbye r) (w_inv_dt0 r) (w_log r).
Definition set_w_body_count {T} (v : nat) (r : world T) : world T := World (w_bodies r) (w_fixtures r) (w_contacts r) (w_joints r) (w_next_body r) (w_next_fixture r) (w_next_contact r) (w_next_joint r) (w_body_list r) (w_contact_list r) (w_joint_list r) v (w_contact_count r) (w_joint_count r) (w_bp r) (w_new_contacts r) (w_locked r) (w_step_complete r) (w_allow_sleep r) (w_continuous r) (w_sub_stepping r) (w_clear_forces r) (w_listener r) (w_goodbye r) (w_inv_dt0 r) (w_log r).
Definition set_w_contact_count {T} (v : nat) (r : world T) : world T := World (w_bodies r) (w_fixtures r) (w_contacts r) (w_joints r) (w_next_body r) (w_next_fixture r) (w_next_contact r) (w_next_joint r) (w_body_list r) (w_contact_list r) (w_joint_list r) (w_body_count r) v (w_joint_count r) (w_bp r) (w_new_contacts r) (w_locked r) (w_step_complete r) (w_allow_sleep r) (w_continuous r) (w_sub_stepping r) (w_clear_forces r) (w_listener r) (w_goodbye r) (w_inv_dt0 r) (w_log r).
Definition set_w_joint_count {T} (v : nat) (r : world T) : world T := World (w_bodies r) (w_fixtures r) (w_contacts r) (w_joints r) (w_next_body r) (w_next_fixture r) (w_next_contact r) (w_next_joint r) (w_body_list r) (w_contact_list r) (w_joint_list r) (w_body_count r) (w_contact_count r) v (w_bp r) (w_new_contacts r) (w_locked r) (w_step_complete r) (w_allow_sleep r) (w_continuous r) (w_sub_stepping r) (w_clear_forces r) (w_listener r) (w_goodbye r) (w_inv_dt0 r) (w_log r).
Definition set_w_bp {T} (v : broad T (nat * nat)) (r : world T) : world T := World (w_bodies r) (w_fixtures r) (w_contacts r) (w_joints r) (w_next_body r) (w_next_fixture r) (w_next_contact r) (w_next_joint r) (w_body_list r) (w_contact_list r) (w_joint_list r) (w_body_count r) (w_contact_count r) (w_joint_count r) v (w_new_contacts r) (w_locked r) (w_step_complete r) (w_allow_sleep r) (w_continuous r) (w_sub_stepping r) (w_clear_forces r) (w_listener r) (w_goodbye r) (w_inv_dt0 r) (w_log r).
Definition set_w_new_contacts {T} (v : bool) (r : world T) : world T := World (w_bodies r) (w_fixtures r) (w_contacts r) (w_joints r) (w_next_body r) (w_next_fixture r) (w_next_contact r) (w_next_joint r) (w_body_list r) (w_contact_list r) (w_joint_list r) (w_body_count r) (w_contact_count r) (w_joint_count r) (w_bp r) v (w_locked r) (w_step_complete r) (w_allow_sleep r) (w_continuous r) (w_sub_stepping r) (w_clear_forces r) (w_listener r) (w_goodbye r) (w_inv_dt0 r) (w_log r).
Definition set_w_locked {T} (v : bool) (r : world T) : world T := World (w_bodies r) (w_fixtures r) (w_contacts r) (w_joints r) (w_next_body r) (w_next_fixture r) (w_next_contact r) (w_next_joint r) (w_body_list r) (w_contact_list r) (w_joint_list r) (w_body_count r) (w_contact_count r) (w_joint_count r) (w_bp r) (w_new_contacts r) v (w_step_complete r) (w_allow_sleep r) (w_continuous r) (w_sub_stepping r) (w_clear_forces r) (w_listener r) (w_goodbye r) (w_inv_dt0 r) (w_log r).
Definition set_w_step_complete {T} (v : bool) (r : world T) : world T := World (w_bodies r) (w_fixtures r) (w_contacts r) (w_joints r) (w_next_body r) (w_next_fixture r) (w_next_contact r) (w_next_joint r) (w_body_list r) (w_contact_list r) (w_joint_list r) (w_body_count r) (w_contact_count r) (w_joint_count r) (w_bp r) (w_new_contacts r) (w_locked r) v (w_allow_sleep r) (w_continuous r) (w_sub_stepping r) (w_clear_forces r) (w_listener r) (w_goodbye r) (w_inv_dt0 r) (w_log r).
Definition set_w_allow_sleep {T} (v : bool) (r : world T) : world T := World (w_bodies r) (w_fixtures r) (w_contacts r) (w_joints r) (w_next_body r) (w_next_fixture r) (w_next_contact r) (w_next_joint r) (w_body_list r) (w_contact_list r) (w_joint_list r) (w_body_count r) (w_contact_count r) (w_joint_count r) (w_bp r) (w_new_contacts r) (w_locked r) (w_step_complete r) v (w_continuous r) (w_sub_stepping r) (w_clear_forces r) (w_listener r) (w_goodbye r) (w_inv_dt0 r) (w_log r).
Definition set_w_continuous {T} (v : bool) (r : world T) : world T := World (w_bodies r) (w_fixtures r) (w_contacts r) (w_joints r) (w_next_body r) (w_next_fixture r) (w_next_contact r) (w_next_joint r) (w_body_list r) (w_contact_list r) (w_joint_list r) (w_body_count r) (w_contact_count r) (w_joint_count r) (w_bp r) (w_new_contacts r) (w_locked r) (w_step_complete r) (w_allow_sleep r) v (w_sub_stepping r) (w_clear_forces r) (w_listener r) (w_goodbye r) (w_inv_dt0 r) (w_log r).
Definition set_w_sub_stepping {T} (v : bool) (r : world T) : world T := World (w_bodies r) (w_fixtures r) (w_contacts r) (w_joints r) (w_next_body r) (w_next_fixture r) (w_next_contact r) (w_next_joint r) (w_body_list r) (w_contact_list r) (w_joint_list r) (w_body_count r) (w_contact_count r) (w_joint_count r) (w_bp r) (w_new_contacts r) (w_locked r) (w_step_complete r) (w_allow_sleep r) (w_continuous r) v (w_clear_forces r) (w_listener r) (w_goodbye r) (w_inv_dt0 r) (w_log r).
Definition set_w_clear_forces {T} (v : bool) (r : world T) : world T := World (w_bodies r) (w_fixtures r) (w_contacts r) (w_joints r) (w_next_body r) (w_next_fixture r) (w_next_contact r) (w_next_joint r) (w_body_list r) (w_contact_list r) (w_joint_list r) (w_body_count r) (w_contact_count r) (w_joint_count r) (w_bp r) (w_new_contacts r) (w_locked r) (w_step_complete r) (w_allow_sleep r) (w_continuous r) (w_sub_stepping r) v (w_listener r) (w_goodbye r) (w_inv_dt0 r) (w_log r).
Definition set_w_listener {T} (v : bool) (r : world T) : world T := World (w_bodies r) (w_fixtures r) (w_contacts r) (w_joints r) (w_next_body r) (w_next_fixture r) (w_next_contact r) (w_next_joint r) (w_body_list r) (w_contact_list r) (w_joint_list r) (w_body_count r) (w_contact_count r) (w_joint_count r) (w_bp r) (w_new_contacts r) (w_locked r) (w_step_complete r) (w_allow_sleep r) (w_continuous r) (w_sub_stepping r) (w_clear_forces r) v (w_goodbye r) (w_inv_dt0 r) (w_log r).
Definition set_w_goodbye {T} (v : bool) (r : world T) : world T := World (w_bodies r) (w_fixtures r) (w_contacts r) (w_joints r) (w_next_body r) (w_next_fixture r) (w_next_contact r) (w_next_joint r) (w_body_list r) (w_contact_list r) (w_joint_list r) (w_body_count r) (w_contact_count r) (w_joint_count r) (w_bp r) (w_new_contacts r) (w_locked r) (w_step_complete r) (w_allow_sleep r) (w_continuous r) (w_sub_stepping r) (w_clear_forces r) (w_listener r) v (w_inv_dt0 r) (w_log r).
Definition set_w_inv_dt0 {T} (v : T) (r : world T) : world T := World (w_bodies r) (w_fixtures r) (w_contacts r) (w_joints r) (w_next_body r) (w_next_fixture r) (w_next_contact r) (w_next_joint r) (w_body_list r) (w_contact_list r) (w_joint_list r) (w_body_count r) (w_contact_count r) (w_joint_count r) (w_bp r) (w_new_contacts r) (w_locked r) (w_step_complete r) (w_allow_sleep r) (w_continuous r) (w_sub_stepping r) (w_clear_forces r) (w_listener r) (w_goodbye r) v (w_log r).
Definition set_w_log {T} (v : list event) (r : world T) : world T := World (w_bodies r) (w_fixtures r) (w_contacts r) (w_joints r) (w_next_body r) (w_next_fixture r) (w_next_contact r) (w_next_joint r) (w_body_list r) (w_contact_list r) (w_joint_list r) (w_body_count r) (w_contact_count r) (w_joint_count r) (w_bp r) (w_new_contacts r) (w_locked r) (w_step_complete r) (w_allow_sleep r) (w_continuous r) (w_sub_stepping r) (w_clear_forces r) (w_listener r) (w_goodbye r) (w_inv_dt0 r) v.

(* what a listener may do to the contact it is given (con:129-250, the public setters) *)
Record cedit (T : Type) := CEdit {
  ce_enabled : bool; ce_friction : T; ce_restitution : T; ce_threshold : T; ce_tangent_speed : T; ce_manifold : manifold T }.
Arguments CEdit {T} _ _ _ _ _ _.
Arguments ce_enabled {T} _.
Arguments ce_friction {T} _.
Arguments ce_restitution {T} _.
Arguments ce_threshold {T} _.
Arguments ce_tangent_speed {T} _.
Arguments ce_manifold {T} _.

(* what the solver of an island computes for one body, and for the island *)
Record solved (T : Type) := Solved { so_c0 : vec2 T; so_a0 : T; so_c : vec2 T; so_a : T; so_lv : vec2 T; so_av : T; so_time : T }.
Arguments Solved {T} _ _ _ _ _ _ _.
Arguments so_c0 {T} _.
Arguments so_a0 {T} _.
Arguments so_c {T} _.
Arguments so_a {T} _.
Arguments so_lv {T} _.
Arguments so_av {T} _.
Arguments so_time {T} _.
Record solution (T : Type) := Solution { so_body : nat -> solved T; so_points : nat -> list (mpoint T); so_sleep : bool }.
Arguments Solution {T} _ _ _.
Arguments so_body {T} _.
Arguments so_points {T} _.
Arguments so_sleep {T} _.

Record env (T : Type) := Env {
  e_filter : world T -> nat -> nat -> bool;
  e_listen : world T -> event -> contact T -> cedit T;
  e_evaluate : world T -> nat -> res (manifold T);
  e_overlap : world T -> nat -> res bool;
  e_toi : world T -> nat -> res (bool * T);
  e_solve : world T -> island -> T -> res (solution T);
  e_solve_toi : world T -> island -> nat -> nat -> T -> res (solution T) }.
Arguments Env {T} _ _ _ _ _ _ _.
Arguments e_filter {T} _.
Arguments e_listen {T} _.
Arguments e_evaluate {T} _.
Arguments e_overlap {T} _.
Arguments e_toi {T} _.
Arguments e_solve {T} _.
Arguments e_solve_toi {T} _.

(* table write *)
Definition put {A} (m : nat -> option A) (i : nat) (x : option A) : nat -> option A := fun j => if Nat.eqb j i then x else m j.
(* [for x in l.iter()] *)
Fixpoint each {A S} (f : A -> S -> res S) (l : list A) (s : S) : res S :=
  match l with [] => Ok s | x :: r => s <- f x s ;; each f r s end.
(* list removal *)
Definition remove_id (i : nat) (l : list nat) : res (list nat) :=
  if existsb (Nat.eqb i) l then Ok (List.filter (fun j => negb (Nat.eqb j i)) l) else Panic.
Definition edge_eqb (c : nat) (side : bool) (e : gedge) : bool := Nat.eqb (ge_item e) c && Bool.eqb (ge_side e) side.
Definition remove_edge (c : nat) (side : bool) (l : list gedge) : res (list gedge) :=
  if existsb (edge_eqb c side) l then Ok (List.filter (fun e => negb (edge_eqb c side e)) l) else Panic.

(* b2_common.rs: B2_MAX_TOICONTACTS, B2_MAX_SUB_STEPS *)
Definition B2_MAX_TOICONTACTS : nat := 32.
Definition B2_MAX_SUB_STEPS : Z := 8.

(* reg:67-103 initialize_registers: Some primary when the pair of shape types has a contact class *)
Definition register (t1 t2 : nat) : option bool :=
  match t1, t2 with
  | 0, 0 => Some true
  | 2, 0 => Some true | 0, 2 => Some false
  | 2, 2 => Some true
  | 1, 0 => Some true | 0, 1 => Some false
  | 1, 2 => Some true | 2, 1 => Some false
  | 3, 0 => Some true | 0, 3 => Some false
  | 3, 2 => Some true | 2, 3 => Some false
  | _, _ => None
  end.

Section World.
  Context {T : Type} `{NT : Num T} `{TT : NumTrig T} `{VT : NumValid T}.
  Notation world := (world T).
  Local Open Scope num_scope.

  (** ** tables *)
  Definition get_body (w : world) (i : nat) : res (body T) := unwrap (w_bodies w i).
  Definition get_fixture (w : world) (i : nat) : res (fixture T) := unwrap (w_fixtures w i).
  Definition get_contact (w : world) (i : nat) : res (contact T) := unwrap (w_contacts w i).
  Definition get_joint (w : world) (i : nat) : res joint := unwrap (w_joints w i).
  Definition put_body (i : nat) (b : body T) (w : world) : world := set_w_bodies (put (w_bodies w) i (Some b)) w.
  Definition put_fixture (i : nat) (f : fixture T) (w : world) : world := set_w_fixtures (put (w_fixtures w) i (Some f)) w.
  Definition put_contact (i : nat) (c : contact T) (w : world) : world := set_w_contacts (put (w_contacts w) i (Some c)) w.
  Definition put_joint (i : nat) (j : joint) (w : world) : world := set_w_joints (put (w_joints w) i (Some j)) w.
  Definition mod_body (i : nat) (f : body T -> body T) (w : world) : res world := b <- get_body w i ;; Ok (put_body i (f b) w).
  Definition mod_contact (i : nat) (f : contact T -> contact T) (w : world) : res world := c <- get_contact w i ;; Ok (put_contact i (f c) w).
  Definition mod_joint (i : nat) (f : joint -> joint) (w : world) : res world := j <- get_joint w i ;; Ok (put_joint i (f j) w).
  Definition mod_cflags (f : cflags -> cflags) (c : contact T) : contact T := set_c_flags (f (c_flags c)) c.
  Definition log (e : event) (w : world) : world := set_w_log (e :: w_log w) w.
  (* fixture.get_body() *)
  Definition fixture_body (w : world) (f : nat) : res nat := x <- get_fixture w f ;; unwrap (f_body x).
  Fixpoint get_all {A} (get1 : nat -> res A) (l : list nat) : res (list A) :=
    match l with [] => Ok [] | i :: r => x <- get1 i ;; xs <- get_all get1 r ;; Ok (x :: xs) end.

  (* world:24-58 new; [listener] and [goodbye]: the callbacks the user sets before anything else *)
  Definition world_new (listener goodbye : bool) : res world :=
    bp <- bp_new ;;
    Ok (World (fun _ => None) (fun _ => None) (fun _ => None) (fun _ => None) 0 0 0 0 [] [] [] 0 0 0 bp
          false false true true true false true listener goodbye #0 []).

  (** ** proxies of a fixture *)
  (* pfix:113-136 create_proxies *)
  Definition create_proxies (f : nat) (xf : xform T) (w : world) : res world :=
    x <- get_fixture w f ;;
    b2_assert (Nat.eqb (f_proxy_count x) 0) ;;;
    n <- shape_child_count (f_shape x) ;;
    '(ps, bp) <- for_range 0 n (fun i st =>
        let '(ps, bp) := st in
        p <- get ps i ;;
        box <- shape_aabb (f_shape x) xf i ;;
        '(bp, id) <- bp_create bp box (f, i) ;;
        ps <- set ps i (FProxy box (Some f) i (Some id)) ;;
        Ok (ps, bp)) (f_proxies x, w_bp w) ;;
    Ok (put_fixture f (set_f_proxies ps (set_f_proxy_count n x)) (set_w_bp bp w)).

  (* pfix:138-148 destroy_proxies; a null id (-1) given to the broad phase is a panic *)
  Definition destroy_proxies (f : nat) (w : world) : res world :=
    x <- get_fixture w f ;;
    '(ps, bp) <- for_range 0 (f_proxy_count x) (fun i st =>
        let '(ps, bp) := st in
        p <- get ps i ;;
        id <- unwrap (fp_id p) ;;
        bp <- bp_destroy bp id ;;
        ps <- set ps i (set_fp_id None p) ;;
        Ok (ps, bp)) (f_proxies x, w_bp w) ;;
    Ok (put_fixture f (set_f_proxies ps (set_f_proxy_count 0 x)) (set_w_bp bp w)).

  (* pfix:150-177 synchronize *)
  Definition synchronize (f : nat) (xf1 xf2 : xform T) (w : world) : res world :=
    x <- get_fixture w f ;;
    if Nat.eqb (f_proxy_count x) 0 then Ok w
    else
      '(ps, bp) <- for_range 0 (f_proxy_count x) (fun i st =>
          let '(ps, bp) := st in
          p <- get ps i ;;
          aabb1 <- shape_aabb (f_shape x) xf1 (fp_child p) ;;
          aabb2 <- shape_aabb (f_shape x) xf2 (fp_child p) ;;
          let box := combine aabb1 aabb2 in
          let displacement := vsub (aabb_center aabb2) (aabb_center aabb1) in
          id <- unwrap (fp_id p) ;;
          bp <- bp_move bp id box displacement ;;
          ps <- set ps i (set_fp_aabb box p) ;;
          Ok (ps, bp)) (f_proxies x, w_bp w) ;;
      Ok (put_fixture f (set_f_proxies ps x) (set_w_bp bp w)).

  (* pfix:210-214 and pbody:146-151 the loop that touches all proxies *)
  Definition touch_proxies (f : nat) (w : world) : res world :=
    x <- get_fixture w f ;;
    bp <- for_range 0 (f_proxy_count x) (fun i bp =>
        p <- get (f_proxies x) i ;;
        id <- unwrap (fp_id p) ;;
        bp_touch bp id) (w_bp w) ;;
    Ok (set_w_bp bp w).

  (* pbody:454-475 synchronize_fixtures_internal *)
  Definition synchronize_fixtures (i : nat) (w : world) : res world :=
    b <- get_body w i ;;
    let xf1 := if is_awake b then sweep_start b else b_xf b in
    each (fun f => synchronize f xf1 (b_xf b)) (b_fixtures b) w.

  (** ** contacts *)
  Variable E : env T.

  (* a listener call *)
  Definition apply_edit (e : cedit T) (c : contact T) : contact T :=
    set_c_manifold (ce_manifold e) (set_c_tangent_speed (ce_tangent_speed e) (set_c_threshold (ce_threshold e)
      (set_c_restitution (ce_restitution e) (set_c_friction (ce_friction e) (mod_cflags (set_cf_enabled (ce_enabled e)) c))))).
  Definition listen (e : event) (i : nat) (w : world) : res world :=
    c <- get_contact w i ;;
    Ok (log e (put_contact i (apply_edit (e_listen E w e c) c) w)).

  (* pcon:32-46 b2_contact_destroy *)
  Definition wake_touching (c : contact T) (w : world) : res world :=
    fa <- get_fixture w (c_fa c) ;;
    fb <- get_fixture w (c_fb c) ;;
    if Nat.ltb 0 (mf_count (c_manifold c)) && negb (f_sensor fa) && negb (f_sensor fb) then
      a <- unwrap (f_body fa) ;;
      w <- mod_body a (set_awake true) w ;;
      b <- unwrap (f_body fb) ;;
      mod_body b (set_awake true) w
    else Ok w.

  (* cm:24-78 destroy *)
  Definition destroy_contact (i : nat) (w : world) : res world :=
    c <- get_contact w i ;;
    a <- fixture_body w (c_fa c) ;;
    b <- fixture_body w (c_fb c) ;;
    w <- (if w_listener w && cf_touching (c_flags c) then listen (EvEnd i) i w else Ok w) ;;
    l <- remove_id i (w_contact_list w) ;;
    let w := set_w_contact_list l w in
    ba <- get_body w a ;;
    la <- remove_edge i true (b_contacts ba) ;;
    let w := put_body a (set_b_contacts la ba) w in
    bb <- get_body w b ;;
    lb <- remove_edge i false (b_contacts bb) ;;
    let w := put_body b (set_b_contacts lb bb) w in
    c <- get_contact w i ;;
    w <- wake_touching c w ;;
    n <- usize_sub (w_contact_count w) 1 ;;
    Ok (set_w_contacts (put (w_contacts w) i None) (set_w_contact_count n w)).

  (* pcon:150-173 the impulses of the points that were there before *)
  Fixpoint old_impulse (id : cid) (ps : list (mpoint T)) (n : nat) : T * T :=
    match n, ps with
    | S k, p :: r => if cid_eqb (mp_id p) id then (mp_normal_impulse p, mp_tangent_impulse p) else old_impulse id r k
    | _, _ => (#0, #0)
    end.
  Definition carry (old : manifold T) (m : manifold T) : res (manifold T) :=
    ps <- for_range 0 (mf_count m) (fun i ps =>
        p <- get ps i ;;
        let '(n, t) := old_impulse (mp_id p) (mf_points old) (mf_count old) in
        set ps i (MP (mp_local p) n t (mp_id p))) (mf_points m) ;;
    Ok (MF ps (mf_local_normal m) (mf_local_point m) (mf_type m) (mf_count m)).
  Definition no_points (m : manifold T) : manifold T := MF (mf_points m) (mf_local_normal m) (mf_local_point m) (mf_type m) 0.

  (* pcon:100-210 b2_contact_update; reading an old point past the array cannot happen: C21 *)
  Definition update_contact (i : nat) (w : world) : res world :=
    w <- mod_contact i (mod_cflags (set_cf_enabled true)) w ;;
    c <- get_contact w i ;;
    let old := c_manifold c in
    let was := cf_touching (c_flags c) in
    fa <- get_fixture w (c_fa c) ;;
    fb <- get_fixture w (c_fb c) ;;
    let sensor := f_sensor fa || f_sensor fb in
    a <- unwrap (f_body fa) ;;
    b <- unwrap (f_body fb) ;;
    ba <- get_body w a ;;
    bb <- get_body w b ;;
    '(w, touching) <-
      (if sensor then
         touching <- e_overlap E w i ;;
         w <- mod_contact i (fun c => set_c_manifold (no_points (c_manifold c)) c) (log (EvNarrow i) w) ;;
         Ok (w, touching)
       else
         m <- e_evaluate E w i ;;
         let touching := Nat.ltb 0 (mf_count m) in
         m <- carry old m ;;
         w <- mod_contact i (set_c_manifold m) (log (EvNarrow i) w) ;;
         w <- (if Bool.eqb touching was then Ok w
               else w <- mod_body a (set_awake true) w ;; mod_body b (set_awake true) w) ;;
         Ok (w, touching)) ;;
    w <- mod_contact i (mod_cflags (set_cf_touching touching)) w ;;
    if w_listener w then
      w <- (if negb was && touching then listen (EvBegin i) i w else Ok w) ;;
      w <- (if was && negb touching then listen (EvEnd i) i w else Ok w) ;;
      if negb sensor && touching then listen (EvPre i) i w else Ok w
    else Ok w.

  (* pbody:391-416 should_collide *)
  Definition joint_blocks (w : world) (other : nat) (e : gedge) : res bool :=
    if Nat.eqb (ge_other e) other then j <- get_joint w (ge_item e) ;; Ok (negb (j_collide j)) else Ok false.
  Fixpoint any_blocks (w : world) (other : nat) (l : list gedge) : res bool :=
    match l with
    | [] => Ok false
    | e :: r => x <- joint_blocks w other e ;; if (x : bool) then Ok true else any_blocks w other r
    end.
  Definition bodies_collide (w : world) (self other : nat) : res bool :=
    b <- get_body w self ;;
    o <- get_body w other ;;
    if negb (is_dynamic b) && negb (is_dynamic o) then Ok false
    else x <- any_blocks w other (b_joints b) ;; Ok (negb x).

  (* cm:205-236 is there already a contact for the pair? *)
  Definition same_pair (c : contact T) (fa ia fb ib : nat) : bool :=
    (Nat.eqb (c_fa c) fa && Nat.eqb (c_fb c) fb && Nat.eqb (c_ia c) ia && Nat.eqb (c_ib c) ib) ||
    (Nat.eqb (c_fa c) fb && Nat.eqb (c_fb c) fa && Nat.eqb (c_ia c) ib && Nat.eqb (c_ib c) ia).
  Fixpoint pair_exists (w : world) (body_a fa ia fb ib : nat) (l : list gedge) : res bool :=
    match l with
    | [] => Ok false
    | e :: r =>
      if Nat.eqb (ge_other e) body_a then
        c <- get_contact w (ge_item e) ;;
        if same_pair c fa ia fb ib then Ok true else pair_exists w body_a fa ia fb ib r
      else pair_exists w body_a fa ia fb ib r
    end.

  (* pcon:48-96 b2_contact_new; point and normal of the default manifold are zero, its type is e_circles *)
  Definition mpoint_default : mpoint T := MP vzero #0 #0 cid_default.
  Definition manifold_default : manifold T := MF [mpoint_default; mpoint_default] vzero vzero MCircles 0.
  Definition contact_new (xa xb : fixture T) (fa ia fb ib : nat) : contact T :=
    Contact (CFlags false false true false false false) fa fb ia ib manifold_default 0 #0
      (b2_mix_friction (f_friction xa) (f_friction xb)) (b2_mix_restitution (f_restitution xa) (f_restitution xb))
      (b2_mix_restitution_threshold (f_threshold xa) (f_threshold xb)) #0.
  (* pcon:11-31 b2_contact_create *)
  Definition contact_create (w : world) (fa ia fb ib : nat) : res (contact T) :=
    xa <- get_fixture w fa ;;
    xb <- get_fixture w fb ;;
    primary <- unwrap (register (shape_type (f_shape xa)) (shape_type (f_shape xb))) ;;
    Ok (if (primary : bool) then contact_new xa xb fa ia fb ib else contact_new xb xa fb ib fa ia).

  (* cm:260-298 insert the new contact everywhere *)
  Definition link_contact (c : contact T) (w : world) : res world :=
    let i := w_next_contact w in
    let w := set_w_next_contact (S i) (put_contact i c w) in
    a <- fixture_body w (c_fa c) ;;
    b <- fixture_body w (c_fb c) ;;
    let w := set_w_contact_list (i :: w_contact_list w) w in
    w <- mod_body a (fun x => set_b_contacts (GEdge i true b :: b_contacts x) x) w ;;
    w <- mod_body b (fun x => set_b_contacts (GEdge i false a :: b_contacts x) x) w ;;
    Ok (set_w_contact_count (S (w_contact_count w)) w).

  (* cm:178-298 add_pair; the user data of a proxy is (fixture, number of the proxy) *)
  Definition proxy_data (w : world) (u : option (nat * nat)) : res (nat * nat) :=
    '(f, k) <- unwrap u ;;
    x <- get_fixture w f ;;
    p <- get (f_proxies x) k ;;
    f <- unwrap (fp_fixture p) ;;
    Ok (f, fp_child p).
  Definition add_pair (w : world) (ua ub : option (nat * nat)) : res world :=
    '(fa, ia) <- proxy_data w ua ;;
    '(fb, ib) <- proxy_data w ub ;;
    a <- fixture_body w fa ;;
    b <- fixture_body w fb ;;
    if Nat.eqb a b then Ok w
    else
      bb <- get_body w b ;;
      known <- pair_exists w a fa ia fb ib (b_contacts bb) ;;
      if (known : bool) then Ok w
      else
        may <- bodies_collide w b a ;;
        if negb may then Ok w
        else
          let allowed := e_filter E w fa fb in
          let w := log (EvFilter fa fb) w in
          if negb allowed then Ok w
          else
            c <- contact_create w fa ia fb ib ;;
            link_contact c w.

  (* cm:173-176 find_new_contacts *)
  Definition find_new_contacts (w : world) : res world :=
    '(bp, w) <- update_pairs (w_bp w) add_pair w ;;
    Ok (set_w_bp bp w).

  (* cm:83-171 collide; the contacts to destroy are collected *)
  Definition proxy_id (w : world) (f k : nat) : res nat :=
    x <- get_fixture w f ;; p <- get (f_proxies x) k ;; unwrap (fp_id p).
  Definition active (b : body T) : bool := is_awake b && negb (is_static b).
  Definition collide1 (i : nat) (st : world * list nat) : res (world * list nat) :=
    let '(w, dead) := st in
    c <- get_contact w i ;;
    a <- fixture_body w (c_fa c) ;;
    b <- fixture_body w (c_fb c) ;;
    '(w, keep) <-
      (if cf_filter (c_flags c) then
         may <- bodies_collide w b a ;;
         if negb may then Ok (w, false)
         else
           let allowed := e_filter E w (c_fa c) (c_fb c) in
           let w := log (EvFilter (c_fa c) (c_fb c)) w in
           if negb allowed then Ok (w, false)
           else w <- mod_contact i (mod_cflags (set_cf_filter false)) w ;; Ok (w, true)
       else Ok (w, true)) ;;
    if negb (keep : bool) then Ok (w, dead ++ [i])
    else
      ba <- get_body w a ;;
      bb <- get_body w b ;;
      if negb (active ba) && negb (active bb) then Ok (w, dead)
      else
        ida <- proxy_id w (c_fa c) (c_ia c) ;;
        idb <- proxy_id w (c_fb c) (c_ib c) ;;
        overlap <- bp_test_overlap (w_bp w) ida idb ;;
        if negb (overlap : bool) then Ok (w, dead ++ [i])
        else w <- update_contact i w ;; Ok (w, dead).
  Definition collide (w : world) : res world :=
    '(w, dead) <- each collide1 (w_contact_list w) (w, []) ;;
    each destroy_contact dead w.

  (** ** joints *)
  (* con:396 flag_for_filtering; world:262-274, 323-337 the contacts between the two bodies of a joint *)
  Definition flag_contacts (a b : nat) (w : world) : res world :=
    bb <- get_body w b ;;
    each (fun e w => if Nat.eqb (ge_other e) a then mod_contact (ge_item e) (mod_cflags (set_cf_filter true)) w else Ok w)
      (b_contacts bb) w.
  (* world:156-276 create_joint, b2_joint.rs:88-110 new: only the part all joints share *)
  Definition create_joint (a b : nat) (collide_connected : bool) (w : world) : res (world * nat) :=
    b2_assert (negb (w_locked w)) ;;;
    b2_assert (negb (Nat.eqb a b)) ;;;
    let i := w_next_joint w in
    let w := set_w_next_joint (S i) (put_joint i (Joint a b false collide_connected) w) in
    let w := set_w_joint_count (S (w_joint_count w)) (set_w_joint_list (i :: w_joint_list w) w) in
    w <- mod_body a (fun x => set_b_joints (GEdge i true b :: b_joints x) x) w ;;
    w <- mod_body b (fun x => set_b_joints (GEdge i false a :: b_joints x) x) w ;;
    w <- (if collide_connected then Ok w else flag_contacts a b w) ;;
    Ok (w, i).
  (* world:278-339 destroy_joint *)
  Definition destroy_joint (i : nat) (w : world) : res world :=
    b2_assert (negb (w_locked w)) ;;;
    j <- get_joint w i ;;
    l <- remove_id i (w_joint_list w) ;;
    let w := set_w_joint_list l w in
    w <- mod_body (j_a j) (set_awake true) w ;;
    w <- mod_body (j_b j) (set_awake true) w ;;
    ba <- get_body w (j_a j) ;;
    la <- remove_edge i true (b_joints ba) ;;
    let w := put_body (j_a j) (set_b_joints la ba) w in
    bb <- get_body w (j_b j) ;;
    lb <- remove_edge i false (b_joints bb) ;;
    let w := put_body (j_b j) (set_b_joints lb bb) w in
    b2_assert (Nat.ltb 0 (w_joint_count w)) ;;;
    n <- usize_sub (w_joint_count w) 1 ;;
    let w := set_w_joint_count n w in
    w <- (if j_collide j then Ok w else flag_contacts (j_a j) (j_b j) w) ;;
    Ok (set_w_joints (put (w_joints w) i None) w).

  (** ** fixtures *)
  Definition reset_mass (i : nat) (w : world) : res world :=
    b <- get_body w i ;;
    fs <- get_all (get_fixture w) (b_fixtures b) ;;
    b <- reset_mass_data fs b ;;
    Ok (put_body i b w).
  (* pfix:28-61 b2_fixture_create *)
  Definition fproxy_default : fproxy T := FProxy (AABB vzero vzero) None 0 None.
  Definition fixture_new (d : fixture_def T) (i : nat) : res (fixture T) :=
    n <- shape_child_count (fd_shape d) ;;
    Ok (Fixture (fd_density d) (Some i) (fd_shape d) (fd_friction d) (fd_restitution d) (fd_threshold d)
          (repeat fproxy_default n) 0 (fd_filter d) (fd_sensor d)).
  (* pbody:155-201 create_fixture *)
  Definition create_fixture (i : nat) (d : fixture_def T) (w : world) : res (world * nat) :=
    b2_assert (negb (w_locked w)) ;;;
    b <- get_body w i ;;
    x <- fixture_new d i ;;
    let f := w_next_fixture w in
    let w := set_w_next_fixture (S f) (put_fixture f x w) in
    w <- (if is_enabled b then create_proxies f (b_xf b) w else Ok w) ;;
    w <- mod_body i (fun b => set_b_fixture_count (S (b_fixture_count b)) (set_b_fixtures (f :: b_fixtures b) b)) w ;;
    w <- (if fd_density d >? #0 then reset_mass i w else Ok w) ;;
    Ok (set_w_new_contacts true w, f).
  (* pbody:214-290 destroy_fixture *)
  Definition destroy_fixture (i f : nat) (w : world) : res world :=
    b2_assert (negb (w_locked w)) ;;;
    b <- get_body w i ;;
    owner <- fixture_body w f ;;
    b2_assert (Nat.eqb owner i) ;;;
    b2_assert (Nat.ltb 0 (b_fixture_count b)) ;;;
    l <- remove_id f (b_fixtures b) ;;
    let w := put_body i (set_b_fixtures l b) w in
    w <- each (fun e w =>
           c <- get_contact w (ge_item e) ;;
           if Nat.eqb f (c_fa c) || Nat.eqb f (c_fb c) then destroy_contact (ge_item e) w else Ok w) (b_contacts b) w ;;
    b <- get_body w i ;;
    w <- (if is_enabled b then destroy_proxies f w else Ok w) ;;
    let w := set_w_fixtures (put (w_fixtures w) f None) w in
    b <- get_body w i ;;
    n <- usize_sub (b_fixture_count b) 1 ;;
    reset_mass i (put_body i (set_b_fixture_count n b) w).
  (* pfix:179-214 set_filter_data and refilter. The fixture is mutably borrowed by the call: borrowing it again to
     compare its address (ptr::eq(&*fixture_a.borrow(), self_)) is a panic. *)
  Definition refilter (f : nat) (w : world) : res world :=
    x <- get_fixture w f ;;
    match f_body x with
    | None => Ok w
    | Some i =>
      b <- get_body w i ;;
      each (fun e (_ : unit) =>
              c <- get_contact w (ge_item e) ;;
              if Nat.eqb (c_fa c) f then Panic
              else if Nat.eqb (c_fb c) f then Panic
              else Ok tt) (b_contacts b) tt ;;;
      touch_proxies f w
    end.
  Definition set_filter_data (f : nat) (d : filter) (w : world) : res world :=
    x <- get_fixture w f ;;
    refilter f (put_fixture f (set_f_filter d x) w).
  (* pfix:216-222 set_sensor *)
  Definition set_sensor (f : nat) (sensor : bool) (w : world) : res world :=
    x <- get_fixture w f ;;
    if Bool.eqb sensor (f_sensor x) then Ok w
    else
      i <- unwrap (f_body x) ;;
      w <- mod_body i (set_awake true) w ;;
      Ok (put_fixture f (set_f_sensor sensor x) w).

  (** ** bodies *)
  (* world:83-98 create_body *)
  Definition create_body (d : body_def T) (w : world) : res (world * nat) :=
    b2_assert (negb (w_locked w)) ;;;
    b <- body_new d ;;
    let i := w_next_body w in
    let w := set_w_next_body (S i) (put_body i b w) in
    Ok (set_w_body_count (S (w_body_count w)) (set_w_body_list (i :: w_body_list w) w), i).
  (* destroy the contacts at the edges [l], then clear the list of body [i] *)
  Definition destroy_contacts (i : nat) (l : list gedge) (w : world) : res world :=
    w <- each (fun e => destroy_contact (ge_item e)) l w ;;
    mod_body i (set_b_contacts []) w.
  (* world:100-154 destroy_body *)
  Definition destroy_body (i : nat) (w : world) : res world :=
    b2_assert (Nat.ltb 0 (w_body_count w)) ;;;
    b2_assert (negb (w_locked w)) ;;;
    b <- get_body w i ;;
    w <- each (fun e w =>
           let w := if w_goodbye w then log (EvByeJoint (ge_item e)) w else w in
           destroy_joint (ge_item e) w) (b_joints b) w ;;
    w <- mod_body i (set_b_joints []) w ;;
    b <- get_body w i ;;
    w <- destroy_contacts i (b_contacts b) w ;;
    b <- get_body w i ;;
    w <- each (fun f w =>
           let w := if w_goodbye w then log (EvByeFixture f) w else w in
           w <- destroy_proxies f w ;;
           b <- get_body w i ;;
           n <- usize_sub (b_fixture_count b) 1 ;;
           Ok (set_w_fixtures (put (w_fixtures w) f None) (put_body i (set_b_fixture_count n b) w))) (b_fixtures b) w ;;
    l <- remove_id i (w_body_list w) ;;
    n <- usize_sub (w_body_count w) 1 ;;
    Ok (set_w_bodies (put (w_bodies w) i None) (set_w_body_count n (set_w_body_list l w))).
  (* pbody:91-153 set_type *)
  Definition set_type (i : nat) (ty : btype) (w : world) : res world :=
    b2_assert (negb (w_locked w)) ;;;
    b <- get_body w i ;;
    if btype_eqb (b_type b) ty then Ok w
    else
      fs <- get_all (get_fixture w) (b_fixtures b) ;;
      b' <- type_body ty fs b ;;
      let w := put_body i b' w in
      w <- (if is_static b' then synchronize_fixtures i w else Ok w) ;;
      w <- mod_body i calm_body w ;;
      w <- destroy_contacts i (b_contacts b) w ;;
      each touch_proxies (b_fixtures b) w.
  (* pbody:477-527 set_enabled *)
  Definition set_enabled (i : nat) (flag : bool) (w : world) : res world :=
    b2_assert (negb (w_locked w)) ;;;
    w <- mod_body i (mod_flags (set_fl_enabled flag)) w ;;
    b <- get_body w i ;;
    if flag then
      w <- each (fun f => create_proxies f (b_xf b)) (b_fixtures b) w ;;
      Ok (set_w_new_contacts true w)
    else
      w <- each destroy_proxies (b_fixtures b) w ;;
      destroy_contacts i (b_contacts b) w.
  (* pbody:418-443 set_transform *)
  Definition set_transform (i : nat) (position : vec2 T) (angle : T) (w : world) : res world :=
    b2_assert (negb (w_locked w)) ;;;
    b <- get_body w i ;;
    let b := place_body position angle b in
    w <- each (fun f => synchronize f (b_xf b) (b_xf b)) (b_fixtures b) (put_body i b w) ;;
    Ok (set_w_new_contacts true w).
  (* world:341-354 set_allow_sleeping *)
  Definition set_allow_sleeping (flag : bool) (w : world) : res world :=
    if Bool.eqb flag (w_allow_sleep w) then Ok w
    else
      let w := set_w_allow_sleep flag w in
      if flag then Ok w else each (fun i => mod_body i (set_awake true)) (w_body_list w) w.
  (* world:1278-1299 shift_origin; the anchors of the joints are not modelled *)
  Definition shift_body (o : vec2 T) (b : body T) : body T :=
    let b := set_b_xf (Xf (vsub (xp (b_xf b)) o) (xq (b_xf b))) b in
    let b := set_sw (with_c0 (vsub (sw_c0 (b_sweep b)) o)) b in
    set_sw (with_c (vsub (sw_c (b_sweep b)) o)) b.
  Definition world_shift (o : vec2 T) (w : world) : res world :=
    b2_assert (negb (w_locked w)) ;;;
    w <- each (fun i => mod_body i (shift_body o)) (w_body_list w) w ;;
    Ok (set_w_bp (bp_shift (w_bp w) o) w).

  (** ** the discrete solver *)
  (* islp:254-264 copy the state back *)
  Definition apply_solved (s : solved T) (b : body T) : body T :=
    let b := set_sw (fun sw => Sweep (sw_local_center sw) (so_c0 s) (so_c s) (so_a0 s) (so_a s) (sw_alpha0 sw)) b in
    synchronize_transform (set_b_av (so_av s) (set_b_lv (so_lv s) b)).
  Definition with_points (ps : list (mpoint T)) (m : manifold T) : manifold T :=
    MF ps (mf_local_normal m) (mf_local_point m) (mf_type m) (mf_count m).
  (* islp:442-472 report *)
  Definition report (cs : list nat) (w : world) : res world :=
    if w_listener w then each (fun c => listen (EvPost c) c) cs w else Ok w.
  (* islp:129-332 solve: the impulses are stored (:219), the bodies written (:254-264), then the sleep times *)
  Definition solve_island (is : island) (dt : T) (w : world) : res world :=
    s <- e_solve E w is dt ;;
    let w := log (EvIsland (is_bodies is) (is_contacts is) (is_joints is)) w in
    w <- each (fun c => mod_contact c (fun x => set_c_manifold (with_points (so_points s c) (c_manifold x)) x)) (is_contacts is) w ;;
    w <- each (fun i => mod_body i (apply_solved (so_body s i))) (is_bodies is) w ;;
    w <- report (is_contacts is) w ;;
    if w_allow_sleep w then
      w <- each (fun i => mod_body i (fun b => if is_static b then b else set_b_sleep_time (so_time (so_body s i)) b)) (is_bodies is) w ;;
      if so_sleep s then each (fun i => mod_body i (set_awake false)) (is_bodies is) w else Ok w
    else Ok w.

  (* world:409-489 one contact edge, one joint edge, one body of the depth first search *)
  Definition dstate := (world * island * list nat)%type.
  Definition visit_other (o : nat) (st : dstate) : res dstate :=
    let '(w, is, stack) := st in
    x <- get_body w o ;;
    if fl_island (b_flags x) then Ok st
    else Ok (put_body o (mod_flags (set_fl_island true) x) w, is, o :: stack).
  Definition visit_contact (e : gedge) (st : dstate) : res dstate :=
    let '(w, is, stack) := st in
    c <- get_contact w (ge_item e) ;;
    if cf_island (c_flags c) then Ok st
    else if negb (cf_enabled (c_flags c)) || negb (cf_touching (c_flags c)) then Ok st
    else
      fa <- get_fixture w (c_fa c) ;;
      fb <- get_fixture w (c_fb c) ;;
      if f_sensor fa || f_sensor fb then Ok st
      else
        visit_other (ge_other e)
          (put_contact (ge_item e) (mod_cflags (set_cf_island true) c) w,
           Island (is_bodies is) (is_contacts is ++ [ge_item e]) (is_joints is), stack).
  Definition visit_joint (e : gedge) (st : dstate) : res dstate :=
    let '(w, is, stack) := st in
    j <- get_joint w (ge_item e) ;;
    if j_island j then Ok st
    else
      o <- get_body w (ge_other e) ;;
      if negb (is_enabled o) then Ok st
      else
        visit_other (ge_other e)
          (put_joint (ge_item e) (set_j_island true j) w,
           Island (is_bodies is) (is_contacts is) (is_joints is ++ [ge_item e]), stack).
  (* isl:52-55 add_body *)
  Definition add_body (i : nat) (b : body T) (is : island) (w : world) : world * island :=
    (put_body i (set_b_island_index (Z.of_nat (length (is_bodies is))) b) w,
     Island (is_bodies is ++ [i]) (is_contacts is) (is_joints is)).
  Definition dfs1 (i : nat) (st : dstate) : res dstate :=
    let '(w, is, stack) := st in
    b <- get_body w i ;;
    b2_assert (is_enabled b) ;;;
    let '(w, is) := add_body i b is w in
    if is_static b then Ok (w, is, stack)
    else
      w <- mod_body i (mod_flags (set_fl_awake true)) w ;;
      st <- each visit_contact (b_contacts b) (w, is, stack) ;;
      each visit_joint (b_joints b) st.
  (* world:402-490 the loop; [fuel]: C30_solve_returns *)
  Fixpoint dfs (fuel : nat) (st : dstate) : res dstate :=
    let '(w, is, stack) := st in
    match stack with
    | [] => Ok st
    | i :: stack =>
      match fuel with
      | O => Fuel
      | S fuel => st <- dfs1 i (w, is, stack) ;; dfs fuel st
      end
    end.
  (* world:381-508 one seed. The island has room for [cap] bodies: islp:136-170 writes their positions *)
  Definition solve_seed (cap : nat) (dt : T) (seed : nat) (w : world) : res world :=
    b <- get_body w seed ;;
    if fl_island (b_flags b) then Ok w
    else if negb (is_awake b) || negb (is_enabled b) then Ok w
    else if is_static b then Ok w
    else
      let w := put_body seed (mod_flags (set_fl_island true) b) w in
      '(w, is, _) <- dfs (S (w_body_count w)) (w, Island [] [] [], [seed]) ;;
      b2_assert (Nat.leb (length (is_bodies is)) cap) ;;;
      w <- solve_island is dt w ;;
      each (fun i => mod_body i (fun b => if is_static b then mod_flags (set_fl_island false) b else b)) (is_bodies is) w.
  (* world:377-388 *)
  Definition clear_island_flags (w : world) : res world :=
    w <- each (fun i => mod_body i (mod_flags (set_fl_island false))) (w_body_list w) w ;;
    w <- each (fun c => mod_contact c (mod_cflags (set_cf_island false))) (w_contact_list w) w ;;
    each (fun j => mod_joint j (set_j_island false)) (w_joint_list w) w.
  (* world:510-530 *)
  Definition sync_moved (w : world) : res world :=
    each (fun i w =>
      b <- get_body w i ;;
      if negb (fl_island (b_flags b)) then Ok w
      else if is_static b then Ok w
      else synchronize_fixtures i w) (w_body_list w) w.
  (* world:356-531 solve *)
  Definition solve (dt : T) (w : world) : res world :=
    let cap := w_body_count w in
    w <- clear_island_flags w ;;
    w <- each (solve_seed cap dt) (w_body_list w) w ;;
    w <- sync_moved w ;;
    find_new_contacts w.

  (** ** continuous collision *)
  (* world:558-567 *)
  Definition toi_reset (w : world) : res world :=
    w <- each (fun i => mod_body i (fun b => set_sw (with_alpha0 #0) (mod_flags (set_fl_island false) b))) (w_body_list w) w ;;
    each (fun c => mod_contact c (fun x =>
            set_c_toi #1 (set_c_toi_count 0 (mod_cflags (fun f => set_cf_island false (set_cf_toi false f)) x)))) (w_contact_list w) w.
  (* world:575-679 one contact of the search for the first impact: the best contact so far and its alpha *)
  Definition toi_scan1 (i : nat) (st : world * option nat * T) : res (world * option nat * T) :=
    let '(w, best, best_alpha) := st in
    let better (w : world) (alpha : T) := Ok (if alpha <? best_alpha then (w, Some i, alpha) else (w, best, best_alpha)) in
    c <- get_contact w i ;;
    if negb (cf_enabled (c_flags c)) then Ok st
    else if (B2_MAX_SUB_STEPS <? c_toi_count c)%Z then Ok st
    else if cf_toi (c_flags c) then better w (c_toi c)
    else
      fa <- get_fixture w (c_fa c) ;;
      fb <- get_fixture w (c_fb c) ;;
      if f_sensor fa || f_sensor fb then Ok st
      else
        a <- unwrap (f_body fa) ;;
        b <- unwrap (f_body fb) ;;
        ba <- get_body w a ;;
        bb <- get_body w b ;;
        b2_assert (is_dynamic ba || is_dynamic bb) ;;;
        if negb (active ba) && negb (active bb) then Ok st
        else if negb (is_bullet ba || negb (is_dynamic ba)) && negb (is_bullet bb || negb (is_dynamic bb)) then Ok st
        else
          let aa := sw_alpha0 (b_sweep ba) in
          let ab := sw_alpha0 (b_sweep bb) in
          '(w, alpha0) <-
            (if aa <? ab then
               s <- sweep_advance (b_sweep ba) ab ;; Ok (put_body a (set_b_sweep s ba) w, ab)
             else if ab <? aa then
               s <- sweep_advance (b_sweep bb) aa ;; Ok (put_body b (set_b_sweep s bb) w, aa)
             else Ok (w, aa)) ;;
          b2_assert (alpha0 <? #1) ;;;
          '(touching, beta) <- e_toi E w i ;;
          let w := log (EvToi i) w in
          let alpha := if (touching : bool) then b2_min (alpha0 + (#1 - alpha0) * beta) #1 else #1 in
          w <- mod_contact i (fun x => set_c_toi alpha (mod_cflags (set_cf_toi true) x)) w ;;
          better w alpha.

  (* world:747-851 one contact of the two bodies *)
  Definition toi_join (body_i : nat) (min_alpha : T) (e : gedge) (st : world * island) : res (world * island) :=
    let '(w, is) := st in
    let ci := ge_item e in
    let oi := ge_other e in
    c <- get_contact w ci ;;
    if cf_island (c_flags c) then Ok st
    else
      o <- get_body w oi ;;
      b <- get_body w body_i ;;
      if is_dynamic o && negb (is_bullet b) && negb (is_bullet o) then Ok st
      else
        fa <- get_fixture w (c_fa c) ;;
        fb <- get_fixture w (c_fb c) ;;
        if f_sensor fa || f_sensor fb then Ok st
        else
          let backup := b_sweep o in
          w <- (if fl_island (b_flags o) then Ok w else o' <- body_advance min_alpha o ;; Ok (put_body oi o' w)) ;;
          w <- update_contact ci w ;;
          c <- get_contact w ci ;;
          if negb (cf_enabled (c_flags c)) || negb (cf_touching (c_flags c)) then
            w <- mod_body oi (fun o => synchronize_transform (set_b_sweep backup o)) w ;;
            Ok (w, is)
          else
            let w := put_contact ci (mod_cflags (set_cf_island true) c) w in
            let is := Island (is_bodies is) (is_contacts is ++ [ci]) (is_joints is) in
            o <- get_body w oi ;;
            if fl_island (b_flags o) then Ok (w, is)
            else
              let o := mod_flags (set_fl_island true) o in
              let o := if is_static o then o else set_awake true o in
              Ok (add_body oi o is w).
  Definition toi_grow (body_i : nat) (min_alpha : T) (st : world * island) : res (world * island) :=
    let '(w, is) := st in
    b <- get_body w body_i ;;
    if is_dynamic b then each (toi_join body_i min_alpha) (b_contacts b) st else Ok st.
  (* islp:334-440 solve_toi: an array of 2 * B2_MAX_TOICONTACTS positions is indexed by the bodies of the island *)
  Definition solve_toi_island (is : island) (ia ib : Z) (dt : T) (w : world) : res world :=
    b2_assert (Nat.leb (length (is_bodies is)) (2 * B2_MAX_TOICONTACTS)%nat) ;;;
    b2_assert ((0 <=? ia)%Z && (0 <=? ib)%Z) ;;;
    get (is_bodies is) (Z.to_nat ia) ;;;
    get (is_bodies is) (Z.to_nat ib) ;;;
    s <- e_solve_toi E w is (Z.to_nat ia) (Z.to_nat ib) dt ;;
    let w := log (EvIsland (is_bodies is) (is_contacts is) []) w in
    w <- each (fun i => mod_body i (apply_solved (so_body s i))) (is_bodies is) w ;;
    report (is_contacts is) w.
  (* world:868-893 *)
  Definition toi_release (i : nat) (w : world) : res world :=
    w <- mod_body i (mod_flags (set_fl_island false)) w ;;
    b <- get_body w i ;;
    if negb (is_dynamic b) then Ok w
    else
      w <- synchronize_fixtures i w ;;
      each (fun e => mod_contact (ge_item e) (mod_cflags (fun f => set_cf_island false (set_cf_toi false f)))) (b_contacts b) w.
  (* world:689-893 one impact; the result tells whether the contact was solid *)
  Definition toi_event (mc : nat) (min_alpha : T) (dt : T) (w : world) : res (world * bool) :=
    c <- get_contact w mc ;;
    a <- fixture_body w (c_fa c) ;;
    b <- fixture_body w (c_fb c) ;;
    ba <- get_body w a ;;
    bb <- get_body w b ;;
    let backup1 := b_sweep ba in
    let backup2 := b_sweep bb in
    ba' <- body_advance min_alpha ba ;;
    let w := put_body a ba' w in
    bb <- get_body w b ;;
    bb' <- body_advance min_alpha bb ;;
    let w := put_body b bb' w in
    w <- update_contact mc w ;;
    w <- mod_contact mc (fun c => set_c_toi_count (c_toi_count c + 1)%Z (mod_cflags (set_cf_toi false) c)) w ;;
    c <- get_contact w mc ;;
    if negb (cf_enabled (c_flags c)) || negb (cf_touching (c_flags c)) then
      w <- mod_contact mc (mod_cflags (set_cf_enabled false)) w ;;
      w <- mod_body a (set_b_sweep backup1) w ;;
      w <- mod_body b (set_b_sweep backup2) w ;;
      w <- mod_body a synchronize_transform w ;;
      w <- mod_body b synchronize_transform w ;;
      Ok (w, false)
    else
      w <- mod_body a (set_awake true) w ;;
      w <- mod_body b (set_awake true) w ;;
      ba <- get_body w a ;;
      let '(w, is) := add_body a ba (Island [] [] []) w in
      bb <- get_body w b ;;
      let '(w, is) := add_body b bb is w in
      let is := Island (is_bodies is) [mc] [] in
      w <- mod_body a (mod_flags (set_fl_island true)) w ;;
      w <- mod_body b (mod_flags (set_fl_island true)) w ;;
      w <- mod_contact mc (mod_cflags (set_cf_island true)) w ;;
      st <- toi_grow a min_alpha (w, is) ;;
      '(w, is) <- toi_grow b min_alpha st ;;
      ba <- get_body w a ;;
      bb <- get_body w b ;;
      w <- solve_toi_island is (b_island_index ba) (b_island_index bb) ((#1 - min_alpha) * dt) w ;;
      w <- each toi_release (is_bodies is) w ;;
      w <- find_new_contacts w ;;
      Ok (w, true).
  (* world:570-901 the loop; [fuel]: C33_toi_terminates *)
  Fixpoint toi_loop (fuel : nat) (dt : T) (w : world) : res world :=
    match fuel with
    | O => Fuel
    | S fuel =>
      '(w, best, min_alpha) <- each toi_scan1 (w_contact_list w) (w, None, #1) ;;
      match best with
      | None => Ok (set_w_step_complete true w)
      | Some mc =>
        if #1 - nlit 10 1 * B2_EPSILON <? min_alpha then Ok (set_w_step_complete true w)
        else
          '(w, solid) <- toi_event mc min_alpha dt w ;;
          if (solid : bool) && w_sub_stepping w then Ok (set_w_step_complete false w)
          else toi_loop fuel dt w
      end
    end.
  (* world:534-901 solve_toi *)
  Definition toi_fuel (w : world) : nat := let k := Z.to_nat (bp_proxies (w_bp w)) in S (9 * (k * k))%nat.
  Definition solve_toi (dt : T) (w : world) : res world :=
    w <- (if w_step_complete w then toi_reset w else Ok w) ;;
    toi_loop (toi_fuel w) dt w.

  (* world:961-967 clear_forces *)
  Definition clear_forces (w : world) : res world :=
    each (fun i => mod_body i (fun b => set_b_torque #0 (set_b_force vzero b))) (w_body_list w) w.
  (* world:903-959 step *)
  Definition step (dt : T) (w : world) : res world :=
    w <- (if w_new_contacts w then w <- find_new_contacts w ;; Ok (set_w_new_contacts false w) else Ok w) ;;
    let w := set_w_locked true w in
    w <- collide w ;;
    w <- (if w_step_complete w && (dt >? #0) then solve dt w else Ok w) ;;
    w <- (if w_continuous w && (dt >? #0) then solve_toi dt w else Ok w) ;;
    let w := if dt >? #0 then set_w_inv_dt0 (#1 / dt) w else w in
    w <- (if w_clear_forces w then clear_forces w else Ok w) ;;
    Ok (set_w_locked false w).
End World.
