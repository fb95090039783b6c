(** Specification side for one body (C27, C28, C29): what a push is supposed to do, what total mass, center and
    inertia are, and histories of calls on one body. *)
From Coq Require Import List ZArith Reals Bool.
From Verif Require Import Base Num Math Collision Manifold Filter ShapeModel DynModel.
Import ListNotations.

(** ** C27 *)
(* the six ways to push a body *)
Inductive push (T : Type) :=
| PForce (force point : vec2 T)
| PForceCenter (force : vec2 T)
| PTorque (torque : T)
| PImpulse (impulse point : vec2 T)
| PImpulseCenter (impulse : vec2 T)
| PAngularImpulse (impulse : T).
Arguments PForce {T}.
Arguments PForceCenter {T}.
Arguments PTorque {T}.
Arguments PImpulse {T}.
Arguments PImpulseCenter {T}.
Arguments PAngularImpulse {T}.

Section Push.
  Context {T : Type} `{NT : Num T}.
  Definition apply_push (p : push T) (wake : bool) (b : body T) : body T :=
    match p with
    | PForce f q => apply_force f q wake b
    | PForceCenter f => apply_force_to_center f wake b
    | PTorque t => apply_torque t wake b
    | PImpulse i q => apply_linear_impulse i q wake b
    | PImpulseCenter i => apply_linear_impulse_to_center i wake b
    | PAngularImpulse i => apply_angular_impulse i wake b
    end.
  (* what it adds up: force, torque, linear and angular velocity *)
  Definition pushed (p : push T) (b : body T) : vec2 T * T * vec2 T * T :=
    let arm q := vsub q (sw_c (b_sweep b)) in
    match p with
    | PForce f q => (vadd (b_force b) f, nadd (b_torque b) (b2_cross (arm q) f), b_lv b, b_av b)
    | PForceCenter f => (vadd (b_force b) f, b_torque b, b_lv b, b_av b)
    | PTorque t => (b_force b, nadd (b_torque b) t, b_lv b, b_av b)
    | PImpulse i q => (b_force b, b_torque b, vadd (b_lv b) (vscale (b_inv_mass b) i),
                       nadd (b_av b) (nmul (b_inv_i b) (b2_cross (arm q) i)))
    | PImpulseCenter i => (b_force b, b_torque b, vadd (b_lv b) (vscale (b_inv_mass b) i), b_av b)
    | PAngularImpulse i => (b_force b, b_torque b, b_lv b, nadd (b_av b) (nmul (b_inv_i b) i))
    end.
  (* everything except flags, sleep timer, velocities and accumulated force *)
  Definition frame (b : body T) :=
    (b_type b, b_island_index b, b_xf b, b_sweep b, (b_fixtures b, b_fixture_count b, b_joints b, b_contacts b),
     (b_mass b, b_inv_mass b, b_i b, b_inv_i b), (b_linear_damping b, b_angular_damping b, b_gravity_scale b)).
  Definition at_rest (b : body T) : Prop :=
    b_lv b = vzero /\ b_av b = nofZ 0 /\ b_force b = vzero /\ b_torque b = nofZ 0.
  (* the flags except the awake flag *)
  Definition other_flags (f : bflags) := (fl_island f, fl_auto_sleep f, fl_bullet f, fl_fixed_rotation f, fl_enabled f, fl_toi f).
End Push.

(** ** histories of calls on one body *)
Inductive bcall (T : Type) :=
| CAwake (flag : bool)
| CSleepAllowed (flag : bool)
| CLinear (v : vec2 T)
| CAngular (w : T)
| CPush (p : push T) (wake : bool)
| CResetMass (fs : list (fixture T))
| CSetMass (d : mass_data T)
| CFixedRotation (flag : bool) (fs : list (fixture T))
| CPlace (p : vec2 T) (angle : T)
| CSync
| CAdvance (alpha : T)
| CType (ty : btype) (fs : list (fixture T)).
Arguments CAwake {T}.
Arguments CSleepAllowed {T}.
Arguments CLinear {T}.
Arguments CAngular {T}.
Arguments CPush {T}.
Arguments CResetMass {T}.
Arguments CSetMass {T}.
Arguments CFixedRotation {T}.
Arguments CPlace {T}.
Arguments CSync {T}.
Arguments CAdvance {T}.
Arguments CType {T}.

Section Calls.
  Context {T : Type} `{NT : Num T} `{TT : NumTrig T}.
  Definition bcall_run (b : body T) (c : bcall T) : res (body T) :=
    match c with
    | CAwake f => Ok (set_awake f b)
    | CSleepAllowed f => Ok (set_sleeping_allowed f b)
    | CLinear v => Ok (set_linear_velocity v b)
    | CAngular w => Ok (set_angular_velocity w b)
    | CPush p wake => Ok (apply_push p wake b)
    | CResetMass fs => reset_mass_data fs b
    | CSetMass d => set_mass_data d b
    | CFixedRotation f fs => set_fixed_rotation f fs b
    | CPlace p a => Ok (place_body p a b)
    | CSync => Ok (synchronize_transform b)
    | CAdvance alpha => body_advance alpha b
    | CType ty fs => if btype_eqb (b_type b) ty then Ok b else b' <- type_body ty fs b ;; Ok (calm_body b')
    end.
  Fixpoint bcalls (b : body T) (cs : list (bcall T)) : res (body T) :=
    match cs with [] => Ok b | c :: r => b' <- bcall_run b c ;; bcalls b' r end.
End Calls.

Local Open Scope R_scope.
(** ** C28: total mass of a list of fixtures *)
Definition no_mass : mass_data R := MassData 0 (V2 0 0) 0.
Definition masses (fs : list (fixture R)) (ms : list (mass_data R)) : Prop :=
  Forall2 (fun f d => (f_density f = 0 /\ d = no_mass) \/ (f_density f <> 0 /\ shape_mass (f_shape f) (f_density f) = Ok d)) fs ms.
Definition total (g : mass_data R -> R) (ms : list (mass_data R)) : R := fold_right (fun d s => g d + s) 0 ms.
Definition total_mass := total md_mass.
Definition total_x := total (fun d => md_mass d * vx (md_center d)).
Definition total_y := total (fun d => md_mass d * vy (md_center d)).
Definition total_i := total md_i.
Definition len_sq (v : vec2 R) : R := vx v * vx v + vy v * vy v.
(* the inertia about the origin is at least that of a point mass at the center, and more if there is mass at all *)
Definition proper_mass (d : mass_data R) : Prop :=
  0 <= md_mass d /\ md_mass d * len_sq (md_center d) <= md_i d /\ (0 < md_mass d -> md_mass d * len_sq (md_center d) < md_i d).
(* shapes for which [proper_mass] is proved *)
Definition massive_shape (s : shape R) : Prop :=
  match s with
  | ShCircle c => 0 < ci_radius c
  | ShEdge _ | ShChain _ => True
  | ShPolygon p => (3 <= po_count p <= length (po_vertices p))%nat /\
      exists s, nth_error (po_vertices p) 0 = Some s /\
      (forall i a b, (S i < po_count p)%nat -> nth_error (po_vertices p) i = Some a -> nth_error (po_vertices p) (S i) = Some b ->
        0 <= (vx a - vx s) * (vy b - vy s) - (vy a - vy s) * (vx b - vx s)) /\
      exists a b, nth_error (po_vertices p) 1 = Some a /\ nth_error (po_vertices p) 2 = Some b /\
        2 * B2_EPSILON < (vx a - vx s) * (vy b - vy s) - (vy a - vy s) * (vx b - vx s)
  end.
(* velocity of the point [p] moving with the body *)
Definition point_velocity (b : body R) (p : vec2 R) : vec2 R :=
  V2 (vx (b_lv b) - b_av b * (vy p - vy (sw_c (b_sweep b)))) (vy (b_lv b) + b_av b * (vx p - vx (sw_c (b_sweep b)))).

(** ** C29 *)
Definition turn (a : R) (v : vec2 R) : vec2 R := V2 (cos a * vx v - sin a * vy v) (sin a * vx v + cos a * vy v).
(* the transform of the body is the one of its sweep *)
Definition posed (b : body R) : Prop :=
  let s := b_sweep b in
  rs (xq (b_xf b)) = sin (sw_a s) /\ rc (xq (b_xf b)) = cos (sw_a s) /\
  vx (sw_c s) = vx (xp (b_xf b)) + vx (turn (sw_a s) (sw_local_center s)) /\
  vy (sw_c s) = vy (xp (b_xf b)) + vy (turn (sw_a s) (sw_local_center s)).
