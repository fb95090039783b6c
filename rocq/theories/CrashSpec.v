(** The world with the island solver of the code in it, panics included, and what the solver needs to return. *)
From Coq Require Import List ZArith Bool Arith.
From Verif Require Import Base Num Math Manifold ShapeModel DynModel SolverModel IslandModel WorldModel WorldClaims SolverSpec SolveModel.
Import ListNotations.

(* the environment with another solver of islands *)
Definition with_solver {T} (E : env T) (f : world T -> island -> T -> res (solution T)) : env T :=
  Env (e_filter E) (e_listen E) (e_evaluate E) (e_overlap E) (e_toi E) f (e_solve_toi E).

Section Crash.
  Local Open Scope num_scope.
  Context {T : Type} `{NT : Num T} `{TT : NumTrig T} `{VT : NumValid T} {J : Type} (su : setup T J).
  Implicit Types w : world T.

  Definition with_code (E : env T) : env T := with_solver E (code_solve su).

  (* the manifold of a contact that is to be solved: one or two points in an array of two places, and if the impulses of the last step
     are used again, none of them pulls *)
  Definition workable (dt : T) w (c : nat) : Prop := forall x fa fb,
    w_contacts w c = Some x -> cf_touching (c_flags x) = true -> cf_enabled (c_flags x) = true ->
    w_fixtures w (c_fa x) = Some fa -> w_fixtures w (c_fb x) = Some fb -> f_sensor fa = false -> f_sensor fb = false ->
    (mf_count (c_manifold x) = 1 \/ mf_count (c_manifold x) = 2)%nat /\ length (mf_points (c_manifold x)) = 2%nat /\
    (su_warm su = true -> Forall (fun p => nonneg ((w_inv_dt0 w * dt) * mp_normal_impulse p)) (firstn (mf_count (c_manifold x)) (mf_points (c_manifold x)))).

  (** ** joints *)
  (* each body of the island knows its place in it *)
  Definition indexed w (is : island) : Prop := forall n i, nth_error (is_bodies is) n = Some i -> exists b, w_bodies w i = Some b /\ b_island_index b = Z.of_nat n.
  Definition joint_inside w (is : island) (j : nat) : Prop := exists x, w_joints w j = Some x /\ In (j_a x) (is_bodies is) /\ In (j_b x) (is_bodies is).
  (* the solver of a joint of an island of n bodies returns, and keeps the numbers of positions and velocities *)
  Record joints_return (good : nat -> J -> Prop) : Prop := {
    jr_init : forall n st j ps vs, good n j -> length ps = n -> length vs = n -> exists j' ps' vs', js_init (su_js su) st j ps vs = Ok (j', ps', vs') /\ good n j' /\ length ps' = n /\ length vs' = n;
    jr_vel : forall n st j vs, good n j -> length vs = n -> exists j' vs', js_vel (su_js su) st j vs = Ok (j', vs') /\ good n j' /\ length vs' = n;
    jr_pos : forall n st j ps, good n j -> length ps = n -> exists j' ps' okay, js_pos (su_js su) st j ps = Ok (j', ps', okay) /\ good n j' /\ length ps' = n;
    jr_start : forall w is j, indexed w is -> In j (is_joints is) -> joint_inside w is j -> good (length (is_bodies is)) (su_joint su w j) }.
End Crash.
