(** When a public call must not panic: what the caller has to respect, and what the routines and callbacks have to respect. *)
From Coq Require Import List ZArith Bool Arith.
From Verif Require Import Base Num Math Collision Manifold Filter ShapeModel TreeModel BroadModel DynModel WorldModel WorldClaims WorldCalls.
Import ListNotations.

Section Safe.
  Local Open Scope num_scope.
  Context {T : Type} `{NT : Num T} `{TT : NumTrig T} `{VT : NumValid T}.
  Notation world := (world T).
  Implicit Types w : world.

  Definition returns {A} (m : res A) : Prop := exists a, m = Ok a.

  (** ** the caller *)
  (* the density and the shape of the fixtures, in the order of the list of a body *)
  Definition loads w (l : list nat) : list (option (T * shape T)) := map (fun f => option_map (fun x => (f_density x, f_shape x)) (w_fixtures w f)) l.
  (* the mass of a body of this type with these fixtures can be computed *)
  Definition settles (ws : list (option (T * shape T))) (ty : btype) : Prop :=
    forall fs b, map (fun x => Some (f_density x, f_shape x)) fs = ws -> b_type b = ty -> returns (reset_mass_data fs b).
  (* every child of the shape has a box *)
  Definition good_shape (s : shape T) : Prop := exists n, shape_child_count s = Ok n /\ forall xf k, k < n -> returns (shape_aabb s xf k).
  (* any two fixtures that could meet have a contact class *)
  Definition has_classes w : Prop := forall f g x y a b, w_fixtures w f = Some x -> w_fixtures w g = Some y -> f_body x = Some a -> f_body y = Some b -> a <> b ->
    dynamic w a \/ dynamic w b -> register (shape_type (f_shape x)) (shape_type (f_shape y)) <> None.
  Definition at_body w i (P : body T -> Prop) : Prop := exists b, w_bodies w i = Some b /\ P b.
  Definition no_contact w (f : nat) : Prop := forall c x, w_contacts w c = Some x -> c_fa x <> f /\ c_fb x <> f.

  Definition safe w (c : wcall T) : Prop :=
    match c with
    | WCreateBody d => returns (body_new d)
    | WDestroyBody i | WTransform i _ _ | WBody i _ => w_bodies w i <> None
    | WCreateFixture i d => at_body w i (fun b => good_shape (fd_shape d) /\
        ((fd_density d >? #0) = true -> settles (Some (fd_density d, fd_shape d) :: loads w (b_fixtures b)) (b_type b)))
    | WDestroyFixture i f => at_body w i (fun b => In f (b_fixtures b) /\ settles (loads w (List.filter (fun g => negb (Nat.eqb g f)) (b_fixtures b))) (b_type b))
    | WCreateJoint a b _ => a <> b /\ w_bodies w a <> None /\ w_bodies w b <> None
    | WDestroyJoint j => w_joints w j <> None
    | WType i ty => at_body w i (fun b => b_type b = ty \/ settles (loads w (b_fixtures b)) ty)
    | WEnabled i f => at_body w i (fun b => f = true -> is_enabled b = false)
    | WMass i d => at_body w i (fun b => returns (set_mass_data d b))
    | WResetMass i | WFixedRotation i _ => at_body w i (fun b => settles (loads w (b_fixtures b)) (b_type b))
    | WFilter f _ | WRefilter f => w_fixtures w f <> None /\ no_contact w f
    | WSensor f _ | WFixture f _ => w_fixtures w f <> None
    | WContact c _ => w_contacts w c <> None
    | WStep _ => has_classes w /\ ((w_body_count w <= 64)%nat \/ w_continuous w = false)
    | WAllowSleeping _ | WContinuous _ | WSubStepping _ | WAutoClear _ | WClearForces | WShift _ => True
    end.

  (** ** the routines and the callbacks *)
  (* a manifold has room for two points *)
  Definition two_points (m : manifold T) : Prop := length (mf_points m) = 2 /\ (mf_count m <= 2)%nat.
  (* the contact is between fixtures of two bodies of the world *)
  Definition placed w (i : nat) : Prop := exists c a b, w_contacts w i = Some c /\ two_points (c_manifold c) /\ bodies_of w c = Some (a, b) /\ a <> b /\ w_bodies w a <> None /\ w_bodies w b <> None.
  Definition island_placed w (is : island) : Prop := (forall i, In i (is_bodies is) -> w_bodies w i <> None) /\ (forall i, In i (is_contacts is) -> placed w i).
  Definition sound_env (E : env T) : Prop :=
    (forall w i, placed w i -> exists m, e_evaluate E w i = Ok m /\ two_points m) /\
    (forall w i, placed w i -> returns (e_overlap E w i)) /\
    (forall w i, placed w i -> returns (e_toi E w i)) /\
    (forall w is dt, island_placed w is -> exists s, e_solve E w is dt = Ok s /\ forall c, length (so_points s c) = 2) /\
    (forall w is a b dt, island_placed w is -> returns (e_solve_toi E w is a b dt)) /\
    (forall w e c, two_points (c_manifold c) -> two_points (ce_manifold (e_listen E w e c))).
  (* the numbers: 0 < 1 and the order is transitive *)
  Definition ordered (U : Type) `{Num U} : Prop := ((#0 : U) <? #1) = true /\ forall a b c : U, (a <? b) = true -> (b <? c) = true -> (a <? c) = true.

  (* the worlds a careful program can get *)
  Inductive careful (E : env T) : world -> Prop :=
  | careful_new listener goodbye w : world_new listener goodbye = Ok w -> careful E w
  | careful_call w c w' : careful E w -> safe w c -> wrun E c w = Ok w' -> careful E w'.
End Safe.
