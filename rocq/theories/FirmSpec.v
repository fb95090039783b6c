(** Static and kinematic bodies: nothing pushes them. *)
From Coq Require Import List ZArith Bool Arith Reals.
From Verif Require Import Base Num Math DynModel SolverModel IslandModel WorldModel SolverSpec FlightSpec.
Import ListNotations.
Local Open Scope R_scope.

(* static or kinematic: neither a push nor a turn moves it *)
Definition firm (b : body R) : Prop := b_type b <> DynamicBody /\ infinite_mass b.
(* it moves with its own velocity, which is cut if it is too large *)
Definition carried (h : R) (b : body R) (c : vec2 R) (a : R) (v : vec2 R) (om : R) : Prop :=
  cut_v h (b_lv b) v /\ cut_w h (b_av b) om /\
  c = V2 (vx (sw_c (b_sweep b)) + h * vx v) (vy (sw_c (b_sweep b)) + h * vy v) /\ a = sw_a (b_sweep b) + h * om.
Definition at_rest (b : body R) : Prop := b_lv b = V2 0 0 /\ b_av b = 0.

(* the joints of the island do not move body i either *)
Record joints_spare {J : Type} (js : jsolver R J) (i : nat) (good : J -> Prop) : Prop := {
  sp_init : forall st j ps vs j' ps' vs', good j -> js_init js st j ps vs = Ok (j', ps', vs') -> good j' /\ nth_error ps' i = nth_error ps i /\ nth_error vs' i = nth_error vs i;
  sp_vel : forall st j vs j' vs', good j -> js_vel js st j vs = Ok (j', vs') -> good j' /\ nth_error vs' i = nth_error vs i;
  sp_pos : forall st j ps j' ps' okay, good j -> js_pos js st j ps = Ok (j', ps', okay) -> good j' /\ nth_error ps' i = nth_error ps i }.

(* the island of a contact holds its two bodies, and they are different *)
Definition between (w : WorldModel.world R) (is : island) (c : nat) : Prop := exists x fa fb a b,
  w_contacts w c = Some x /\ w_fixtures w (c_fa x) = Some fa /\ w_fixtures w (c_fb x) = Some fb /\ f_body fa = Some a /\ f_body fb = Some b /\ In a (is_bodies is) /\ In b (is_bodies is) /\ a <> b.
