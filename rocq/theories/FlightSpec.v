(** How a body moves in one step when nothing touches it: the velocity changes by gravity, the force and damping, it is cut if it is
    too large, and the body moves with the new velocity. *)
From Coq Require Import List ZArith Bool Reals.
From Verif Require Import Base Num Math DynModel WorldModel WorldCalls.
Import ListNotations.
Local Open Scope R_scope.

Definition free_velocity (g : vec2 R) (h : R) (b : body R) (v : vec2 R) (om : R) : Prop :=
  match b_type b with
  | DynamicBody =>
    vx v = (vx (b_lv b) + h * b_inv_mass b * (b_gravity_scale b * b_mass b * vx g + vx (b_force b))) / (1 + h * b_linear_damping b) /\
    vy v = (vy (b_lv b) + h * b_inv_mass b * (b_gravity_scale b * b_mass b * vy g + vy (b_force b))) / (1 + h * b_linear_damping b) /\
    om = (b_av b + h * b_inv_i b * b_torque b) / (1 + h * b_angular_damping b)
  | _ => v = b_lv b /\ om = b_av b
  end.
(* at most 2 metres, at most the largest rotation in one step *)
Definition way (h : R) (v : vec2 R) : R := (h * vx v) * (h * vx v) + (h * vy v) * (h * vy v).
Definition cut_v (h : R) (v v' : vec2 R) : Prop :=
  (way h v <= 4 -> v' = v) /\ (4 < way h v -> exists k, 0 < k /\ v' = V2 (k * vx v) (k * vy v) /\ way h v' = 4).
Definition cut_w (h : R) (om om' : R) : Prop :=
  (Rabs (h * om) <= B2_MAX_ROTATION -> om' = om) /\ (B2_MAX_ROTATION < Rabs (h * om) -> exists k, 0 < k /\ om' = k * om /\ Rabs (h * om') = B2_MAX_ROTATION).
Definition flies (g : vec2 R) (h : R) (b b' : body R) : Prop := exists v om v' om',
  free_velocity g h b v om /\ cut_v h v v' /\ cut_w h om om' /\
  sw_c (b_sweep b') = V2 (vx (sw_c (b_sweep b)) + h * vx v') (vy (sw_c (b_sweep b)) + h * vy v') /\ sw_a (b_sweep b') = sw_a (b_sweep b) + h * om' /\
  (is_awake b' = true -> b_lv b' = v' /\ b_av b' = om').

(* a body that the solver moves: awake, enabled, not static *)
Definition moving (b : body R) : Prop := is_awake b = true /\ is_enabled b = true /\ b_type b <> StaticBody.
Definition no_fixture (w : WorldModel.world R) (i : nat) : Prop := forall f x, w_fixtures w f = Some x -> f_body x <> Some i.

(** ** many steps of size [h] with nothing but gravity *)
Inductive steps (E : env R) (h : R) : nat -> WorldModel.world R -> WorldModel.world R -> Prop :=
| steps_0 w : steps E h 0 w w
| steps_S n w v w' : steps E h n w v -> wrun E (WStep h) v = Ok w' -> steps E h (S n) w w'.
(* how much gravity counts: the scale, and nothing for a body without mass *)
Definition pull (b : body R) : R := b_gravity_scale b * (b_inv_mass b * b_mass b).
(* the velocity after [n] steps *)
Definition falling_v (g : vec2 R) (h : R) (b : body R) (n : nat) : vec2 R :=
  V2 (vx (b_lv b) + INR n * (h * pull b * vx g)) (vy (b_lv b) + INR n * (h * pull b * vy g)).
(* no damping, no force, and the body is too slow to be cut during [n] steps *)
Definition free_fall (g : vec2 R) (h : R) (n : nat) (b : body R) : Prop :=
  b_linear_damping b = 0 /\ b_angular_damping b = 0 /\ b_force b = V2 0 0 /\ b_torque b = 0 /\
  (forall k, (k <= n)%nat -> way h (falling_v g h b k) <= 4) /\ Rabs (h * b_av b) <= B2_MAX_ROTATION.
(* where it is: the sum of the first [n] velocities *)
Definition fallen (g : vec2 R) (h : R) (b : body R) (n : nat) (b' : body R) : Prop :=
  b_lv b' = falling_v g h b n /\ b_av b' = b_av b /\
  sw_c (b_sweep b') = V2 (vx (sw_c (b_sweep b)) + INR n * h * vx (b_lv b) + h * h * pull b * vx g * (INR n * (INR n + 1) / 2))
                         (vy (sw_c (b_sweep b)) + INR n * h * vy (b_lv b) + h * h * pull b * vy g * (INR n * (INR n + 1) / 2)) /\
  sw_a (b_sweep b') = sw_a (b_sweep b) + INR n * h * b_av b.
