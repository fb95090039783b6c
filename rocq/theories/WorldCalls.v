(** Histories of a world: every public call that changes it, in any order, with any arguments. A call with the number
    of an object that does not exist panics, so it never yields a world. *)
From Coq Require Import List ZArith Bool Arith.
From Verif Require Import Base Num Math Collision Filter ShapeModel DynModel DynSpec WorldModel.
Import ListNotations.

(* the setters of a fixture that only change numbers *)
Inductive fixture_set (T : Type) := FDensity (x : T) | FFriction (x : T) | FRestitution (x : T) | FThreshold (x : T).
Arguments FDensity {T}.
Arguments FFriction {T}.
Arguments FRestitution {T}.
Arguments FThreshold {T}.
(* the setters of a contact *)
Inductive contact_set (T : Type) := KEnabled (f : bool) | KFriction (x : T) | KRestitution (x : T) | KThreshold (x : T) | KTangentSpeed (x : T).
Arguments KEnabled {T}.
Arguments KFriction {T}.
Arguments KRestitution {T}.
Arguments KThreshold {T}.
Arguments KTangentSpeed {T}.
(* the setters of a body that only change numbers and flags *)
Inductive body_set (T : Type) :=
| BAwake (f : bool) | BSleepAllowed (f : bool) | BBullet (f : bool) | BLinear (v : vec2 T) | BAngular (a : T) | BPush (q : push T) (wake : bool)
| BLinearDamping (x : T) | BAngularDamping (x : T) | BGravityScale (x : T).
Arguments BAwake {T}.
Arguments BSleepAllowed {T}.
Arguments BBullet {T}.
Arguments BLinear {T}.
Arguments BAngular {T}.
Arguments BPush {T}.
Arguments BLinearDamping {T}.
Arguments BAngularDamping {T}.
Arguments BGravityScale {T}.

Inductive wcall (T : Type) :=
| WCreateBody (d : body_def T) | WDestroyBody (i : nat)
| WCreateFixture (i : nat) (d : fixture_def T) | WDestroyFixture (i f : nat)
| WCreateJoint (a b : nat) (collide_connected : bool) | WDestroyJoint (j : nat)
| WType (i : nat) (ty : btype) | WEnabled (i : nat) (f : bool) | WTransform (i : nat) (pos : vec2 T) (angle : T)
| WBody (i : nat) (s : body_set T) | WMass (i : nat) (d : mass_data T) | WResetMass (i : nat) | WFixedRotation (i : nat) (f : bool)
| WFilter (f : nat) (d : filter) | WRefilter (f : nat) | WSensor (f : nat) (s : bool) | WFixture (f : nat) (s : fixture_set T)
| WContact (c : nat) (s : contact_set T)
| WAllowSleeping (f : bool) | WContinuous (f : bool) | WSubStepping (f : bool) | WAutoClear (f : bool) | WClearForces
| WShift (o : vec2 T) | WStep (dt : T).
Arguments WCreateBody {T}.
Arguments WDestroyBody {T}.
Arguments WCreateFixture {T}.
Arguments WDestroyFixture {T}.
Arguments WCreateJoint {T}.
Arguments WDestroyJoint {T}.
Arguments WType {T}.
Arguments WEnabled {T}.
Arguments WTransform {T}.
Arguments WBody {T}.
Arguments WMass {T}.
Arguments WResetMass {T}.
Arguments WFixedRotation {T}.
Arguments WFilter {T}.
Arguments WRefilter {T}.
Arguments WSensor {T}.
Arguments WFixture {T}.
Arguments WContact {T}.
Arguments WAllowSleeping {T}.
Arguments WContinuous {T}.
Arguments WSubStepping {T}.
Arguments WAutoClear {T}.
Arguments WClearForces {T}.
Arguments WShift {T}.
Arguments WStep {T}.

Section Calls.
  Context {T : Type} `{NT : Num T} `{TT : NumTrig T} `{VT : NumValid T}.
  Notation world := (world T).
  Variable E : env T.

  (* fix:370-403; the assertions of set_density are left out *)
  Definition fixture_setter (s : fixture_set T) : fixture T -> fixture T :=
    match s with FDensity x => set_f_density x | FFriction x => set_f_friction x | FRestitution x => set_f_restitution x | FThreshold x => set_f_threshold x end.
  (* con:370-455 *)
  Definition contact_setter (s : contact_set T) : contact T -> contact T :=
    match s with KEnabled f => mod_cflags (set_cf_enabled f) | KFriction x => set_c_friction x | KRestitution x => set_c_restitution x
    | KThreshold x => set_c_threshold x | KTangentSpeed x => set_c_tangent_speed x end.
  (* body:672-830, 869-972 *)
  Definition body_setter (s : body_set T) : body T -> body T :=
    match s with
    | BAwake f => set_awake f | BSleepAllowed f => set_sleeping_allowed f | BBullet f => mod_flags (set_fl_bullet f)
    | BLinear v => set_linear_velocity v | BAngular a => set_angular_velocity a | BPush q wake => apply_push q wake
    | BLinearDamping x => set_b_linear_damping x | BAngularDamping x => set_b_angular_damping x | BGravityScale x => set_b_gravity_scale x
    end.

  Definition wrun (c : wcall T) (w : world) : res world :=
    match c with
    | WCreateBody d => '(w, _) <- create_body d w ;; Ok w
    | WDestroyBody i => destroy_body E i w
    | WCreateFixture i d => '(w, _) <- create_fixture i d w ;; Ok w
    | WDestroyFixture i f => destroy_fixture E i f w
    | WCreateJoint a b cc => '(w, _) <- create_joint a b cc w ;; Ok w
    | WDestroyJoint j => destroy_joint j w
    | WType i ty => set_type E i ty w
    | WEnabled i f => set_enabled E i f w
    | WTransform i pos a => set_transform i pos a w
    | WBody i s => mod_body i (body_setter s) w
    | WMass i d => b2_assert (negb (w_locked w)) ;;; b <- get_body w i ;; b <- set_mass_data d b ;; Ok (put_body i b w)
    | WResetMass i => reset_mass i w
    | WFixedRotation i f => b <- get_body w i ;; fs <- get_all (get_fixture w) (b_fixtures b) ;; b <- set_fixed_rotation f fs b ;; Ok (put_body i b w)
    | WFilter f d => set_filter_data f d w
    | WRefilter f => refilter f w
    | WSensor f s => set_sensor f s w
    | WFixture f s => x <- get_fixture w f ;; Ok (put_fixture f (fixture_setter s x) w)
    | WContact c s => mod_contact c (contact_setter s) w
    | WAllowSleeping f => set_allow_sleeping f w
    | WContinuous f => Ok (set_w_continuous f w)
    | WSubStepping f => Ok (set_w_sub_stepping f w)
    | WAutoClear f => Ok (set_w_clear_forces f w)
    | WClearForces => clear_forces w
    | WShift o => world_shift o w
    | WStep dt => step E dt w
    end.

  (* the worlds a program can get *)
  Inductive wreach : world -> Prop :=
  | wreach_new listener goodbye w : world_new listener goodbye = Ok w -> wreach w
  | wreach_call w c w' : wreach w -> wrun c w = Ok w' -> wreach w'.

  (* running a list of calls *)
  Fixpoint wruns (cs : list (wcall T)) (w : world) : res world :=
    match cs with [] => Ok w | c :: r => w <- wrun c w ;; wruns r w end.

  (* the routines given by the environment return or panic: running out of fuel is no behaviour of the code *)
  Definition answers : Prop :=
    (forall w i, e_evaluate E w i <> Fuel) /\ (forall w i, e_overlap E w i <> Fuel) /\ (forall w i, e_toi E w i <> Fuel) /\
    (forall w is dt, e_solve E w is dt <> Fuel) /\ (forall w is a b dt, e_solve_toi E w is a b dt <> Fuel).
End Calls.
