(** Property theorems of a single body (C27, C28, C29). The words used are defined in DynSpec.v. *)
From Coq Require Import List ZArith Reals Bool.
From Verif Require Import Base Num NumLaws Math Collision Manifold Filter ShapeModel DynModel DynSpec DynProofs DynExamples.
Import ListNotations.

(** ** C27 *)
Theorem C27_sleep : forall (T : Type) (NT : Num T) (b : body T), b_type b <> StaticBody ->
  let b' := set_awake false b in
  at_rest b' /\ is_awake b' = false /\ b_sleep_time b' = nofZ 0 /\ frame b' = frame b /\
  other_flags (b_flags b') = other_flags (b_flags b).
Proof. exact @sleep_ok. Qed.
Print Assumptions C27_sleep.
Theorem C27_wake : forall (T : Type) (NT : Num T) (b : body T), b_type b <> StaticBody ->
  let b' := set_awake true b in
  is_awake b' = true /\ b_sleep_time b' = nofZ 0 /\ frame b' = frame b /\ other_flags (b_flags b') = other_flags (b_flags b) /\
  b_lv b' = b_lv b /\ b_av b' = b_av b /\ b_force b' = b_force b /\ b_torque b' = b_torque b.
Proof. exact @wake_ok. Qed.
Print Assumptions C27_wake.
Theorem C27_static : forall (T : Type) (NT : Num T) (b : body T), b_type b = StaticBody ->
  (forall f, set_awake f b = b) /\ (forall v, set_linear_velocity v b = b) /\ (forall w, set_angular_velocity w b = b).
Proof. exact @static_ok. Qed.
Print Assumptions C27_static.
Theorem C27_push_ignored : forall (T : Type) (NT : Num T) (p : push T) (wake : bool) (b : body T),
  b_type b <> DynamicBody \/ (wake = false /\ is_awake b = false) -> apply_push p wake b = b.
Proof. exact @push_idle. Qed.
Print Assumptions C27_push_ignored.
Theorem C27_push : forall (T : Type) (NT : Num T) (p : push T) (wake : bool) (b : body T),
  b_type b = DynamicBody -> wake = true \/ is_awake b = true ->
  let b' := apply_push p wake b in
  is_awake b' = true /\ b_sleep_time b' = (if is_awake b then b_sleep_time b else nofZ 0) /\ frame b' = frame b /\
  other_flags (b_flags b') = other_flags (b_flags b) /\ (b_force b', b_torque b', b_lv b', b_av b') = pushed p b.
Proof. exact @push_ok. Qed.
Print Assumptions C27_push.
Theorem C27_velocity : forall (T : Type) (NT : Num T) (b : body T), b_type b <> StaticBody ->
  (forall v, let b' := set_linear_velocity v b in
    b_lv b' = v /\ b_av b' = b_av b /\ frame b' = frame b /\ is_awake b' = is_awake b || nlt (nofZ 0) (b2_dot v v)) /\
  (forall w, let b' := set_angular_velocity w b in
    b_av b' = w /\ b_lv b' = b_lv b /\ frame b' = frame b /\ is_awake b' = is_awake b || nlt (nofZ 0) (nmul w w)).
Proof. exact (fun T NT b H => conj (fun v => linear_ok v b H) (fun w => angular_ok w b H)). Qed.
Print Assumptions C27_velocity.
(* exact arithmetic: whatever is called, a body that sleeps is at rest *)
Theorem C27_asleep_at_rest : forall (bd : body_def R) (cs : list (bcall R)) (b0 b : body R),
  body_new bd = Ok b0 -> (bd_awake bd = false -> bd_lv bd = vzero /\ bd_av bd = 0%R) -> bcalls b0 cs = Ok b ->
  b_type b <> StaticBody -> is_awake b = false -> at_rest b.
Proof. exact (fun bd cs b0 b H0 Hd H => rest_history cs b0 b (new_restful bd b0 H0 Hd) H). Qed.
Print Assumptions C27_asleep_at_rest.
(* in single precision the square of a small velocity is 0: the body gets the velocity and keeps sleeping *)
Theorem C27_asleep_at_rest_refuted : exists (b : body f32) (v : vec2 f32),
  let b' := set_linear_velocity v (set_awake false b) in is_awake b' = false /\ nlt (nofZ 0) (vx (b_lv b')) = true.
Proof. exact (ex_intro _ _ (ex_intro _ tiny asleep_moving)). Qed.
Print Assumptions C27_asleep_at_rest_refuted.
Example C27_case : exists b', bcalls (ex_body (T := R) DynamicBody true vzero 0%R)
    [CPlace (V2 1 1)%R 2%R; CResetMass ex_fixtures; CLinear (V2 3 0)%R; CAwake false; CPush (PForceCenter (V2 1 0)%R) false] = Ok b' /\
  is_awake b' = false /\ vx (b_lv b') = 0%R /\ posed b'.
Proof. exact ex_calls. Qed.

(** ** C28 *)
Theorem C28_reset : forall (b b' : body R) (fs : list (fixture R)), b_type b = DynamicBody -> reset_mass_data fs b = Ok b' ->
  (exists ms, masses fs ms /\
    let M := total_mass ms in let lc := sw_local_center (b_sweep b') in
    b_mass b' = M /\
    (0 < M -> b_inv_mass b' * M = 1 /\ M * vx lc = total_x ms /\ M * vy lc = total_y ms) /\
    (M <= 0 -> b_inv_mass b' = 0) /\
    (0 < total_i ms -> fl_fixed_rotation (b_flags b) = false ->
      b_i b' + M * len_sq lc = total_i ms /\ 0 < b_i b' /\ b_inv_i b' * b_i b' = 1) /\
    (total_i ms <= 0 \/ fl_fixed_rotation (b_flags b) = true -> b_i b' = 0 /\ b_inv_i b' = 0) /\
    (forall p, point_velocity b' p = point_velocity b p))%R.
Proof. exact reset_mass_ok. Qed.
Print Assumptions C28_reset.
Theorem C28_reset_total : forall (b : body R) (fs : list (fixture R)),
  Forall (fun f => massive_shape (f_shape f) /\ (0 <= f_density f)%R) fs -> exists b', reset_mass_data fs b = Ok b'.
Proof. exact reset_massive. Qed.
Print Assumptions C28_reset_total.
Theorem C28_not_dynamic : forall (b b' : body R) (fs : list (fixture R)), b_type b <> DynamicBody -> reset_mass_data fs b = Ok b' ->
  (b_mass b' = 0 /\ b_inv_mass b' = 0 /\ b_i b' = 0 /\ b_inv_i b' = 0 /\ sw_c (b_sweep b') = xp (b_xf b) /\
  sw_local_center (b_sweep b') = V2 0 0 /\ b_lv b' = b_lv b /\ b_av b' = b_av b)%R.
Proof. exact reset_static. Qed.
Print Assumptions C28_not_dynamic.
Theorem C28_set : forall (b b' : body R) (d : mass_data R), b_type b = DynamicBody -> set_mass_data d b = Ok b' ->
  (0 < b_mass b' /\ b_inv_mass b' * b_mass b' = 1 /\ (0 < md_mass d -> b_mass b' = md_mass d) /\ (md_mass d <= 0 -> b_mass b' = 1) /\
  sw_local_center (b_sweep b') = md_center d /\
  (0 < md_i d -> fl_fixed_rotation (b_flags b) = false ->
     b_i b' + b_mass b' * len_sq (md_center d) = md_i d /\ 0 < b_i b' /\ b_inv_i b' * b_i b' = 1) /\
  (md_i d <= 0 \/ fl_fixed_rotation (b_flags b) = true -> b_i b' = 0 /\ b_inv_i b' = 0) /\
  (forall p, point_velocity b' p = point_velocity b p))%R.
Proof. exact set_mass_ok. Qed.
Print Assumptions C28_set.
(* the documentation promises mass 1 for a dynamic body without mass; it gets mass 0 *)
Theorem C28_positive_mass_refuted : exists (b : body R) (fs : list (fixture R)), b_type b = DynamicBody /\
  exists b', reset_mass_data fs b = Ok b' /\ b_mass b' = 0%R /\ b_inv_mass b' = 0%R.
Proof. exact (ex_intro _ (ex_body DynamicBody true vzero 0%R) (ex_intro _ [] (conj eq_refl (proj2 empty_massless)))). Qed.
Print Assumptions C28_positive_mass_refuted.
(* in single precision the assertion on the centered inertia fails for a small disc away from the body origin *)
Theorem C28_reset_total_refuted : exists f : fixture f32,
  match f_shape f with ShCircle c => nlt (nofZ 0) (ci_radius c) = true | _ => False end /\ nlt (nofZ 0) (f_density f) = true /\
  forall b : body f32, b_type b = DynamicBody -> fl_fixed_rotation (b_flags b) = false -> reset_mass_data [f] b = Panic.
Proof. exact (ex_intro _ small_disc (conj (proj2 small_disc_positive) (conj (proj1 small_disc_positive) small_disc_panics))). Qed.
Print Assumptions C28_reset_total_refuted.
Example C28_case : Forall (fun f => massive_shape (f_shape f) /\ (0 <= f_density f)%R) ex_fixtures /\
  exists b', reset_mass_data ex_fixtures (ex_body DynamicBody true (V2 1 0)%R 2%R) = Ok b' /\
  (b_mass b' = 1 + 2 * PI /\ point_velocity b' (V2 1 2) = V2 1 0 /\ 0 < b_i b')%R.
Proof. exact (conj ex_massive ex_mass). Qed.

(** ** C29 *)
Theorem C29_set_transform : forall (p : vec2 R) (a : R) (b : body R), posed (place_body p a b).
Proof. exact posed_place. Qed.
Print Assumptions C29_set_transform.
Theorem C29_synchronize_transform : forall b : body R, posed (synchronize_transform b).
Proof. exact posed_sync. Qed.
Print Assumptions C29_synchronize_transform.
Theorem C29_advance : forall (alpha : R) (b b' : body R), body_advance alpha b = Ok b' -> posed b' /\
  sw_c (b_sweep b') = sw_c0 (b_sweep b') /\ sw_a (b_sweep b') = sw_a0 (b_sweep b') /\ sw_alpha0 (b_sweep b') = alpha.
Proof. exact posed_advance. Qed.
Print Assumptions C29_advance.
(* every public call on a body keeps transform and sweep together *)
Theorem C29_history : forall (bd : body_def R) (cs : list (bcall R)) (b0 b : body R),
  body_new bd = Ok b0 -> bcalls b0 cs = Ok b -> posed b.
Proof. exact (fun bd cs b0 b H0 H => posed_history cs b0 b (posed_new bd b0 H0) H). Qed.
Print Assumptions C29_history.
Example C29_case : exists b', bcalls (ex_body (T := R) DynamicBody true vzero 0%R)
    [CPlace (V2 1 1)%R 2%R; CResetMass ex_fixtures; CLinear (V2 3 0)%R; CAwake false; CPush (PForceCenter (V2 1 0)%R) false] = Ok b' /\
  is_awake b' = false /\ vx (b_lv b') = 0%R /\ posed b'.
Proof. exact ex_calls. Qed.
