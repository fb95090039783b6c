(** Examples and counterexamples for Prop_Solver. *)
From Coq Require Import List ZArith Reals Lra Lia Bool Arith.
From Flocq Require Import Core.
From Verif Require Import Base Num NumLaws Math RTac Manifold Filter DynModel SolverModel IslandModel SolverSpec SolverProofs SolverReal SolverLcp SolverPos SolverTotal IslandProofs.
Import ListNotations.

(* right at the angle 0 *)
Definition flat_trig {T} {NT : Num T} : NumTrig T := {| nsin := fun x => x; ncos := fun _ => nofZ 1; nfloor := fun x => x |}.
Section Ex.
  Context {T : Type} {NT : Num T}.
  (* a body of mass m and inertia m at height y *)
  Definition ex_piece (ty : btype) (i : Z) (y m : T) (v : vec2 T) (w : T) (still : T) : body T :=
    Body ty (BFlags true true true false false true false) i (Xf (V2 (nofZ 0) y) (Rot (nofZ 0) (nofZ 1)))
      (Sweep vzero (V2 (nofZ 0) y) (V2 (nofZ 0) y) (nofZ 0) (nofZ 0) (nofZ 0)) v w vzero (nofZ 0) [] 0 [] []
      m (if neqb m (nofZ 0) then nofZ 0 else ndiv (nofZ 1) m) m (if neqb m (nofZ 0) then nofZ 0 else ndiv (nofZ 1) m) (nofZ 0) (nofZ 0) (nofZ 1) still.
  Definition ex_id : cid := CId 0 0 0 0.
  (* the bottom of the second body on top of the first, two points one unit apart *)
  Definition ex_manifold (impulse : T) : manifold T :=
    MF [MP (V2 (nlit (-1) 2) (nlit (-1) 2)) impulse (nofZ 0) ex_id; MP (V2 (nlit 1 2) (nlit (-1) 2)) impulse (nofZ 0) ex_id] (V2 (nofZ 0) (nofZ 1)) (V2 (nofZ 0) (nlit 1 2)) MFaceA 2.
  Definition ex_touch (friction impulse : T) : contact T := Contact (CFlags false true true false false false) 0 1 0 0 (ex_manifold impulse) 0 (nofZ 0) friction (nofZ 0) (nofZ 1) (nofZ 0).
  Definition ex_pair (m : T) (v : vec2 T) : list (body T) := [ex_piece DynamicBody 0 (nofZ 0) m (V2 (nofZ 1) (nofZ 0)) (nofZ 0) (nofZ 0); ex_piece DynamicBody 1 (nofZ 1) m v (nofZ 1) (nofZ 0)].
  Definition ex_input (friction impulse m : T) (v : vec2 T) : cinput T := CIn (ex_touch friction impulse) (nlit 1 100) (nlit 1 100)
    (ex_piece DynamicBody 0 (nofZ 0) m (V2 (nofZ 1) (nofZ 0)) (nofZ 0) (nofZ 0)) (ex_piece DynamicBody 1 (nofZ 1) m v (nofZ 1) (nofZ 0)).
  Definition ex_step (n : nat) : tstep T := TStep (nlit 1 60) (nofZ 60) (nofZ 1) n 3 true.
End Ex.

(** C34 *)
Definition rows (l : list (vcon f32)) : list (list (f32 * f32)) := map (fun c => map (fun p => (vp_ni p, vp_ti p)) (active c)) l.
Definition ex_fall : res (list (vcon f32) * list (vel f32)) :=
  @contact_phase f32 _ flat_trig true (ex_step 8) (ex_pair (nofZ 2) (V2 (nofZ 0) (nofZ (-3)))) [ex_input (nlit 1 2) (nofZ 1) (nofZ 2) (V2 (nofZ 0) (nofZ (-3)))] (map body_vel (ex_pair (nofZ 2) (V2 (nofZ 0) (nofZ (-3))))).
(* the second body falls on the first: after eight iterations there are positive impulses and friction at both points *)
Definition falls : bool := match ex_fall with
  | Ok (cs, _) => forallb (fun r => Nat.eqb (length r) 2 && forallb (fun x => nlt (nofZ 0) (fst x) && negb (neqb (snd x) (nofZ 0))) r) (rows cs)
  | _ => false end.
Lemma falls_ok : falls = true.
Proof. vm_compute. reflexivity. Qed.
Lemma solvable_ex : solvable (T := f32) 2 (ex_step 8) (ex_input (nlit 1 2) (nofZ 1) (nofZ 2) (V2 (nofZ 0) (nofZ (-3)))).
Proof. unfold solvable. cbn -[nle nmul]. refine (conj _ (conj _ (conj _ (conj _ _)))); [lia|lia|auto|reflexivity|]. intros _. repeat constructor. Qed.
(* without friction, but so fast and heavy that the normal impulse overflows *)
Definition fast : vec2 f32 := V2 (nofZ 0) (nofZ (- 3 * 10 ^ 38)).
Definition crashes (r : res (list (vcon f32) * list (vel f32))) : bool := match r with
  | Ok (cs, _) => existsb (fun c => existsb (fun p => negb (nle (vp_ti p) (vp_ti p))) (active c)) cs
  | _ => false end.
Lemma crashes_nan r : crashes r = true -> exists cs vels c p, r = Ok (cs, vels) /\ In c cs /\ In p (active c) /\ nle (vp_ti p) (vp_ti p) = false.
Proof.
  unfold crashes. destruct r as [[cs vels]| |]; try discriminate. intros H. apply existsb_exists in H. destruct H as (c & I & H). apply existsb_exists in H. destruct H as (p & J & H). apply negb_true_iff in H. exists cs, vels, c, p. auto.
Qed.
Lemma crashes_ok : crashes (@contact_phase f32 _ flat_trig false (ex_step 2) (ex_pair (nofZ 10) fast) [ex_input (nofZ 0) (nofZ 0) (nofZ 10) fast] (map body_vel (ex_pair (nofZ 10) fast))) = true.
Proof. vm_compute. reflexivity. Qed.
Lemma crash_solvable : solvable (T := f32) 2 (ex_step 2) (ex_input (nofZ 0) (nofZ 0) (nofZ 10) fast).
Proof. unfold solvable. cbn -[nle nmul]. refine (conj _ (conj _ (conj _ (conj _ _)))); [lia|lia|auto|reflexivity|]. intros _. repeat constructor. Qed.
Lemma crash_refutes : exists (step : tstep f32) (bs : list (body f32)) (cins : list (cinput f32)) (vels : list (vel f32)) cs' vels' c p,
  Forall (solvable (length bs) step) cins /\ Forall (fun ci => c_friction (ci_contact ci) = nofZ 0) cins /\
  @contact_phase f32 _ flat_trig false step bs cins vels = Ok (cs', vels') /\ In c cs' /\ In p (active c) /\ nle (vp_ti p) (vp_ti p) = false.
Proof.
  destruct (crashes_nan _ crashes_ok) as (cs & vels & c & p & H & Q). exists (ex_step 2), (ex_pair (nofZ 10) fast), [ex_input (nofZ 0) (nofZ 0) (nofZ 10) fast], (map body_vel (ex_pair (nofZ 10) fast)), cs, vels, c, p.
  refine (conj _ (conj _ (conj H Q))).
  - constructor; [apply crash_solvable|constructor].
  - constructor; [reflexivity|constructor].
Qed.

(** the real examples *)
Local Open Scope R_scope.
Lemma piece_finite ty i y v w t : finite_mass (ex_piece (T := R) ty i y 2 v w t).
Proof. unfold finite_mass, ex_piece. cbn. destruct (Req_bool_spec 2 0); [lra|]. split; lra. Qed.
Lemma piece_touches (P : body R -> Prop) (v : vec2 R) : (forall ty i y v w t, P (ex_piece ty i y 2 v w t)) -> touches P (ex_pair 2 v) (ex_input (1 / 2) 1 2 v).
Proof. intros H. exists 0%nat, 1%nat. repeat split; try reflexivity; try discriminate; apply H. Qed.
Lemma real_solvable (v : vec2 R) : solvable 2 (ex_step 8) (ex_input (1 / 2) 1 2 v).
Proof. unfold solvable. cbn -[nle nmul]. refine (conj _ (conj _ (conj _ (conj _ _)))); [lia|lia|auto|reflexivity|]. intros _. repeat constructor; unfold nonneg; cbn; apply Rle_bool_true; lra. Qed.
(* the solver runs on it *)
Lemma real_run {TT : NumTrig R} (v : vec2 R) : exists cs vels, contact_phase true (ex_step 8) (ex_pair 2 v) [ex_input (1 / 2) 1 2 v] (map body_vel (ex_pair 2 v)) = Ok (cs, vels).
Proof. destruct (phase_returns true (ex_step 8) (ex_pair 2 v) [ex_input (1 / 2) 1 2 v] (map body_vel (ex_pair 2 v)) eq_refl) as (cs & vels & E & _); [constructor; [apply real_solvable|constructor]|eauto]. Qed.
(* on the ground *)
Definition ground_pair : list (body R) := [ex_piece StaticBody 0 0 0 vzero 0 0; ex_piece DynamicBody 1 1 2 (V2 0 (-3)) 0 0].
Definition ground_input : cinput R := CIn (ex_touch (1 / 2) 1) (1 / 100) (1 / 100) (ex_piece StaticBody 0 0 0 vzero 0 0) (ex_piece DynamicBody 1 1 2 (V2 0 (-3)) 0 0).
Lemma ground_touches : touches (fun _ => True) ground_pair ground_input.
Proof. exists 0%nat, 1%nat. repeat split; try reflexivity; discriminate. Qed.
Lemma ground_heavy : infinite_mass (ex_piece (T := R) StaticBody 0 0 0 vzero 0 0).
Proof. unfold infinite_mass, ex_piece. cbn. destruct (Req_bool_spec 0 0); [auto|lra]. Qed.
Lemma ground_run {TT : NumTrig R} : exists cs vels, contact_phase true (ex_step 8) ground_pair [ground_input] (map body_vel ground_pair) = Ok (cs, vels).
Proof.
  destruct (phase_returns true (ex_step 8) ground_pair [ground_input] (map body_vel ground_pair) eq_refl) as (cs & vels & E & _); [|eauto]. constructor; [|constructor]. unfold solvable. cbn -[nle nmul]. refine (conj _ (conj _ (conj _ (conj _ _)))); [lia|lia|auto|reflexivity|]. intros _. repeat constructor; unfold nonneg; cbn; apply Rle_bool_true; lra.
Qed.

(** C36: two points one unit apart on a body of mass 1 and inertia 1, the other body fixed *)
Definition ex_point (x u : R) : vpoint R := VPoint (V2 x 0) (V2 x (-1)) u 0 (1 / (1 + x * x)) 1 0.
Definition ex_con : vcon R := VCon [ex_point 1 0; ex_point (-1) 0] (V2 0 1) (M22 (V2 (1 / 2) 0) (V2 0 (1 / 2))) (M22 (V2 2 0) (V2 0 2)) 0 1 0 1 0 1 (1 / 2) 0 1 0 2.
Lemma ex_con_eff x y u t : eff ex_con (ex_point x u) (ex_point y t) = 1 + x * y.
Proof. unfold eff, arm, ex_point, ex_con. cbn. ring. Qed.
Lemma ex_con_ready : ready ex_con.
Proof.
  split; [unfold unit_normal, ex_con; cbn; ring|]. intros _. exists (ex_point 1 0), (ex_point (-1) 0), []. split; [reflexivity|]. unfold prepared, positive_definite. rewrite !ex_con_eff. cbv zeta. unfold ex_con, ex_point. cbn. repeat split; try lra; repeat (f_equal; try lra).
Qed.
Lemma ex_con_pushing : pushing ex_con.
Proof. unfold pushing, active, ex_con, ex_point. cbn. repeat constructor; unfold nonneg; cbn; apply Rle_bool_true; lra. Qed.
Lemma ex_con_runs : exists c vels, solve_constraint true ex_con [Vel vzero 0; Vel (V2 1 (-3)) 1] = Ok (c, vels).
Proof.
  destruct (velocities_total true [ex_con] [Vel vzero 0; Vel (V2 1 (-3)) 1]) as (cs & vels & E & _).
  - repeat constructor; unfold ex_con; cbn; lia.
  - constructor; [apply ex_con_pushing|constructor].
  - cbn [solve_velocities each_item] in E. unfold solve_velocities in E. cbn [each_item] in E. destruct (solve_constraint true ex_con _) as [[c v]| |]; try discriminate. eauto.
Qed.

(** C60: two discs of radius 1 whose centres are 1 apart *)
Definition ex_pc (ra : R) : pcon R := PCon [vzero; vzero] (V2 1 0) vzero 0 1 1 1 vzero vzero 1 1 MFaceA ra ra 1.
Definition ex_near : list (pos R) := [Pos (V2 0 0) 0; Pos (V2 1 0) 0].
Lemma ex_psm ra : psm_initialize (ex_pc ra) (center_xf (V2 0 0) 0 vzero) (center_xf (V2 1 0) 0 vzero) 0 = Ok (V2 1 0, V2 1 0, 1 - ra - ra).
Proof. unfold psm_initialize, center_xf, rot_of, ex_pc. cbn. rmathc. rewrite cos_0, sin_0. do 2 f_equal; [f_equal|]; try f_equal; ring. Qed.
Lemma ex_correct : exists r, position_point B2_BAUMGARTE 1 1 1 1 (ex_pc 1) 0 (0, Pos (V2 0 0) 0, Pos (V2 1 0) 0) = Ok r.
Proof. apply (point_runs _ _ _ _ _ _ _ _ _ _ (V2 1 0) (V2 1 0) (1 - 1 - 1)). apply (ex_psm 1). Qed.
Lemma ex_resting : resting ex_near (ex_pc (1 / 2)).
Proof. exists (Pos (V2 0 0) 0), (Pos (V2 1 0) 0). split; [reflexivity|]. split; [reflexivity|]. intros j L. cbn in L. assert (j = 0%nat) as -> by lia. eexists _, _, _. split; [apply (ex_psm (1 / 2))|]. pose proof slop_pos. lra. Qed.

(** C31 *)
Definition ex_rest (t : f32) (v : f32) : body f32 := ex_piece DynamicBody 0 (nofZ 0) (nofZ 1) (V2 v (nofZ 0)) (nofZ 0) t.
Definition flags_of (l : list (body f32)) : list bool := map (fun b => fl_awake (b_flags b)) l.
(* half a second: both sleep; one of them only for a tenth of a second: both stay awake *)
Lemma ex_sleep : flags_of (island_sleep (nlit 1 64) true true [ex_rest (nlit 1 2) (nlit 1 1000); ex_rest (nofZ 3) (nofZ 0)]) = [false; false] /\
  flags_of (island_sleep (nlit 1 64) true true [ex_rest (nlit 1 10) (nlit 1 1000); ex_rest (nofZ 3) (nofZ 0)]) = [true; true] /\
  flags_of (island_sleep (nlit 1 64) true true [ex_rest (nlit 1 2) (nofZ 1); ex_rest (nofZ 3) (nofZ 0)]) = [true; true].
Proof. vm_compute. repeat split. Qed.
Definition nan32 : f32 := ndiv (nofZ 0) (nofZ 0).
(* a body whose velocity is not a number counts as slow *)
Lemma ex_nan_sleeps : nle (b2_dot (b_lv (ex_rest (nlit 1 2) nan32)) (b_lv (ex_rest (nlit 1 2) nan32))) (nmul B2_LINEAR_SLEEP_TOLERANCE B2_LINEAR_SLEEP_TOLERANCE) = false /\
  flags_of [ex_rest (nlit 1 2) nan32] = [true] /\ flags_of (island_sleep (nlit 1 64) true true [ex_rest (nlit 1 2) nan32]) = [false].
Proof. vm_compute. repeat split. Qed.
Lemma f32_sleep : (nle B2_TIME_TO_SLEEP (nofZ 0 : f32) = false) /\ nok (B2_MAX_FLOAT : f32) /\ nok (nmul B2_ANGULAR_SLEEP_TOLERANCE B2_ANGULAR_SLEEP_TOLERANCE : f32) /\ nok (nmul B2_LINEAR_SLEEP_TOLERANCE B2_LINEAR_SLEEP_TOLERANCE : f32).
Proof. repeat split; vm_compute; reflexivity. Qed.
Lemma real_sleep : (nle B2_TIME_TO_SLEEP (nofZ 0 : R) = false) /\ nok (B2_MAX_FLOAT : R) /\ nok (nmul B2_ANGULAR_SLEEP_TOLERANCE B2_ANGULAR_SLEEP_TOLERANCE : R) /\ nok (nmul B2_LINEAR_SLEEP_TOLERANCE B2_LINEAR_SLEEP_TOLERANCE : R).
Proof. repeat split. unfold B2_TIME_TO_SLEEP, nlit. cbn. apply Rle_bool_false. lra. Qed.
