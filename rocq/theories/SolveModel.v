(** Model of how the world calls the solver of an island: /repo/src/private/dynamics/b2_world.rs:903-959 (step), :381-508 (solve) and
    /repo/src/private/dynamics/b2_island_private.rs:129-332 (solve), which is in IslandModel.v. The world model takes this
    function from its environment; [solves_as_code] says that the environment is the code. The joints of an island are any solvers
    with any state; gravity, the numbers of iterations and warm starting are the ones of the world and of the call of step. *)
From Coq Require Import ZArith Bool List Arith.
From Verif Require Import Base Num Math Manifold ShapeModel DynModel SolverModel IslandModel WorldModel NarrowModel.
Import ListNotations.

(* b2_world.rs: m_gravity, m_warm_starting; the arguments of step; G_BLOCK_SOLVE; the joints *)
Record setup (T J : Type) := Setup {
  su_gravity : vec2 T; su_warm : bool; su_vel_iters : nat; su_pos_iters : nat; su_block : bool; su_js : jsolver T J; su_joint : world T -> nat -> J }.
Arguments Setup {T J} _ _ _ _ _ _ _.
Arguments su_gravity {T J} _.
Arguments su_warm {T J} _.
Arguments su_vel_iters {T J} _.
Arguments su_pos_iters {T J} _.
Arguments su_block {T J} _.
Arguments su_js {T J} _.
Arguments su_joint {T J} _.

(* the value with the same place in the other list *)
Fixpoint alongside {A} (i : nat) (l : list nat) (m : list A) (d : A) : A :=
  match l, m with
  | j :: l, a :: m => if Nat.eqb i j then a else alongside i l m d
  | _, _ => d
  end.

Section Solve.
  Local Open Scope num_scope.
  Context {T : Type} `{NT : Num T} `{TT : NumTrig T} `{VT : NumValid T} {J : Type} (su : setup T J).

  (* b2_world.rs:918-926 *)
  Definition the_step (dt : T) (w : world T) : tstep T :=
    TStep dt (if dt >? #0 then #1 / dt else #0) (w_inv_dt0 w * dt) (su_vel_iters su) (su_pos_iters su) (su_warm su).
  (* b2_contact_solver_private.rs:25-60 what the solver reads of a contact *)
  Definition contact_input (w : world T) (c : nat) : res (cinput T) :=
    '(x, fa, fb, ba, bb) <- contact_ends w c ;;
    Ok (CIn x (shape_radius (f_shape fa)) (shape_radius (f_shape fb)) ba bb).
  Definition solved_of (b : body T) (time : T) : solved T :=
    Solved (sw_c0 (b_sweep b)) (sw_a0 (b_sweep b)) (sw_c (b_sweep b)) (sw_a (b_sweep b)) (b_lv b) (b_av b) time.
  Definition solved_zero : solved T := Solved vzero #0 vzero #0 vzero #0 #0.
  (* b2_island_private.rs:129-332; the solution tells for each body and contact what is written to it *)
  Definition code_solve (w : world T) (is : island) (dt : T) : res (solution T) :=
    bodies <- map_res (get_body w) (is_bodies is) ;;
    cins <- map_res (contact_input w) (is_contacts is) ;;
    r <- island_solve (su_js su) (su_block su) (the_step dt w) (su_gravity su) bodies cins (map (su_joint su w) (is_joints is)) ;;
    let '(slept, min_time) := sleep_bodies dt (ir_bodies r) B2_MAX_FLOAT in
    Ok (Solution (fun i => alongside i (is_bodies is) (map (fun b => solved_of b (b_sleep_time b)) slept) solved_zero)
                 (fun c => alongside c (is_contacts is) (map mf_points (ir_manifolds r)) (mf_points manifold_default))
                 ((min_time >=? B2_TIME_TO_SLEEP) && ir_solved r)).
  (* where the code panics nothing is said *)
  Definition solves_as_code (E : env T) : Prop := forall w is dt s, code_solve w is dt = Ok s -> e_solve E w is dt = Ok s.
End Solve.
