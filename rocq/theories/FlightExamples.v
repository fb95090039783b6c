(** A ball thrown in exact arithmetic, with the solver of the code. *)
From Coq Require Import List ZArith Bool Arith Lia Reals Lra.
From Flocq Require Import Core.Raux.
From Verif Require Import Base Num NumLaws RTac Math Collision Manifold Filter ShapeModel ListFacts TreeModel BroadModel DynModel SolverModel IslandModel WorldModel WorldGraph WorldLogic WorldPhys WorldContact WorldInv WorldSolve WorldToi WorldStep WorldClaims WorldCalls WorldHist WorldFinal WorldAfter WorldReach SafeSpec WorldSafe CoverLogic CoverSpec CoverExamples PairSpec PairExamples FrontExamples NarrowModel NarrowFacts SolveModel FlightSpec FlightProofs FlightFinal.
Import ListNotations.
Local Open Scope R_scope.

(* no joints *)
Definition f_js : jsolver R unit := JSolver (fun _ j ps vs => Ok (j, ps, vs)) (fun _ j vs => Ok (j, vs)) (fun _ j ps => Ok (j, ps, true)).
Definition f_su : setup R unit := Setup (V2 0 (-10)) true 8 3 true f_js (fun _ _ => tt).
Definition f_env : env R :=
  Env (e_filter n_env) (e_listen n_env) (e_evaluate n_env) (e_overlap n_env) (e_toi n_env)
      (fun w is dt => match code_solve f_su w is dt with Ok s => Ok s | _ => Ok (p_solution w) end) (e_solve_toi n_env).
Lemma f_solves : solves_as_code f_su f_env.
Proof. intros w is dt s H. cbn. now rewrite H. Qed.
Lemma f_answers : answers f_env.
Proof. destruct n_answers as (A & B & C & _ & D). refine (conj A (conj B (conj C (conj _ D)))). intros w is dt. cbn. destruct (code_solve f_su w is dt); discriminate. Qed.

(** ** the solution has two points for every contact *)
Lemma for_from_ok {S} (Q : S -> Prop) (f : nat -> S -> res S) : (forall j s s', Q s -> f j s = Ok s' -> Q s') -> forall n lo s s', Q s -> for_from n lo f s = Ok s' -> Q s'.
Proof. intros St. induction n as [|n IH]; intros lo s s' H; cbn [for_from]; [now intros [= <-]|]. intros R. apply bind_ok in R as (s1 & R1 & R2). eauto. Qed.
Lemma store_length (c : vcon R) m m' : store_impulses c m = Ok m' -> length (mf_points m') = length (mf_points m).
Proof.
  unfold store_impulses. intros R. apply bind_ok in R as (ps & R & [= <-]). cbn. unfold for_range in R. refine (for_from_ok (fun l => length l = length (mf_points m)) _ _ _ _ _ _ eq_refl R). clear.
  intros j s s' H R. apply bind_ok in R as (q & _ & R). apply bind_ok in R as (p & _ & R). unfold set in R. destruct (Nat.ltb _ _); [|discriminate]. injection R as <-. now rewrite length_upd.
Qed.
Lemma zip_points (cins : list (cinput R)) : Forall (fun ci => length (mf_points (c_manifold (ci_contact ci))) = 2%nat) cins ->
  forall cs ms, zip_res (fun c ci => store_impulses c (c_manifold (ci_contact ci))) cs cins = Ok ms -> Forall (fun m => length (mf_points m) = 2%nat) ms.
Proof.
  induction 1 as [|ci cins H _ IH]; intros [|c cs] ms; cbn [zip_res]; try (now intros [= <-]). intros R. apply bind_ok in R as (m & R1 & R). apply bind_ok in R as (r & R2 & [= <-]). constructor; [|eauto]. now rewrite (store_length _ _ _ R1).
Qed.
Lemma island_points block st g bodies cins jl r : Forall (fun ci => length (mf_points (c_manifold (ci_contact ci))) = 2%nat) cins -> island_solve f_js block st g bodies cins jl = Ok r -> Forall (fun m => length (mf_points m) = 2%nat) (ir_manifolds r).
Proof.
  intros H R. unfold island_solve in R. apply bind_ok in R as ([cs pcs] & _ & R). apply bind_ok in R as (cs1 & _ & R). apply bind_ok in R as ([cs2 vels] & _ & R). apply bind_ok in R as ([jl1 [ps vs]] & _ & R). apply bind_ok in R as ([[jl2 cs3] vs2] & _ & R).
  apply bind_ok in R as (ms & Rm & R). apply bind_ok in R as ([[jl3 ps3] okay] & _ & [= <-]). cbn [ir_manifolds]. eapply zip_points; eauto.
Qed.
Lemma alongside_ok {A} (Q : A -> Prop) i l m d : Q d -> Forall Q m -> Q (alongside i l m d).
Proof. intros Hd. revert m. induction l as [|j l IH]; intros [|a m] H; cbn; auto. inversion H; subst. destruct (Nat.eqb i j); auto. Qed.
Lemma inputs_ok (w : WorldModel.world R) cs cins : (forall c, In c cs -> placed w c) -> map_res (contact_input w) cs = Ok cins -> Forall (fun ci => length (mf_points (c_manifold (ci_contact ci))) = 2%nat) cins.
Proof.
  revert cins. induction cs as [|c cs IH]; intros cins H; cbn [map_res]; [now intros [= <-]|]. intros R. apply bind_ok in R as (ci & R1 & R). apply bind_ok in R as (r & R2 & [= <-]). constructor; [|apply IH; auto; intros k Hk; apply H; now right].
  destruct (H c (or_introl eq_refl)) as (x & a & b & Hx & (Tp & _) & _). unfold contact_input, contact_ends, get_contact in R1. rewrite Hx in R1. cbn [unwrap bind] in R1. apply bind_ok in R1 as ([[[[x' fa] fb] ba] bb] & R1 & [= <-]). cbn [ci_contact].
  apply bind_ok in R1 as (? & _ & R1). apply bind_ok in R1 as (? & _ & R1). apply bind_ok in R1 as (? & _ & R1). apply bind_ok in R1 as (? & _ & R1). apply bind_ok in R1 as (? & _ & R1). apply bind_ok in R1 as (? & _ & R1). injection R1 as <- _ _ _ _. exact Tp.
Qed.
Lemma f_sound : sound_env f_env.
Proof.
  destruct n_sound as (A & B & C & _ & D & F). refine (conj A (conj B (conj C (conj _ (conj D F))))). intros w is dt (_ & Hc). cbn. destruct (code_solve f_su w is dt) as [s| |] eqn:R; eexists; (split; [reflexivity|]); intros c; try reflexivity.
  unfold code_solve in R. apply bind_ok in R as (bodies & _ & R). apply bind_ok in R as (cins & Rc & R). apply bind_ok in R as (r & Rr & R). destruct (sleep_bodies _ _ _) as [slept mt]. injection R as <-. cbn [so_points].
  apply (alongside_ok (fun l => length l = 2%nat)); [reflexivity|]. apply Forall_map. eapply island_points; [|exact Rr]. eapply inputs_ok; eauto.
Qed.

(** ** a body without fixtures, thrown to the right from (0, 5) *)
Definition f_thrown : body_def R := BodyDef DynamicBody (V2 0 5) 0 (V2 1 0) 0 0 0 false true false false true 1.
Definition f_world (w : WorldModel.world R) (b : body R) : Prop :=
  careful f_env w /\ w_bodies w 0 = Some b /\ (forall f, w_fixtures w f = None) /\ w_continuous w = false /\ w_sub_stepping w = false /\ w_step_complete w = true /\
  moving b /\ b_type b = DynamicBody /\ b_joints b = [] /\ fl_auto_sleep (b_flags b) = false /\ b_lv b = V2 1 0 /\ b_av b = 0 /\ sw_c (b_sweep b) = V2 0 5 /\ b_linear_damping b = 0 /\ b_angular_damping b = 0 /\
  pull b = 1 /\ b_force b = V2 0 0 /\ b_torque b = 0.
Lemma f_massive : exists b0 b, body_new f_thrown = Ok b0 /\ set_mass_data (MassData 2 (V2 0 0) 0) b0 = Ok b /\ moving b /\ b_type b = DynamicBody /\ b_joints b = [] /\ fl_auto_sleep (b_flags b) = false /\ b_lv b = V2 1 0 /\ b_av b = 0 /\ sw_c (b_sweep b) = V2 0 5 /\ b_linear_damping b = 0 /\ b_angular_damping b = 0 /\
    pull b = 1 /\ b_force b = V2 0 0 /\ b_torque b = 0.
Proof.
  assert (A : Rle_bool 0 0 = true) by (apply Rle_bool_true; lra).
  unfold body_new, f_thrown. cbn [bd_position bd_lv bd_angle bd_av bd_angular_damping bd_linear_damping bd_type bd_awake bd_allow_sleep bd_bullet bd_fixed_rotation bd_enabled bd_gravity_scale].
    replace (vec_valid (V2 0 5)) with true by reflexivity. replace (vec_valid (V2 1 0)) with true by reflexivity. replace (b2_is_valid 0) with true by reflexivity.
    unfold nle, R_Num; cbn [nle nofZ]. rewrite A. cbn [andb b2_assert bind]. eexists. eexists. split; [reflexivity|]. unfold set_mass_data. cbn [is_dynamic b_type btype_eqb negb md_mass md_i md_center]. cbv zeta. cbn [set_b_mass set_b_inv_mass set_b_i set_b_inv_i b_mass]. rops.
    rewrite (Rle_bool_false 2 0) by lra. rewrite (Rlt_bool_false 0 0) by lra. cbn [andb bind]. split; [reflexivity|]. unfold moving, pull, move_center, rot_of. cbn. rewrite sin_0, cos_0. repeat split; try discriminate; try apply vec2_ext; cbn [vx vy]; try field; rmathc; ring.
Qed.
Lemma f_start : exists w b, f_world w b.
Proof.
  destruct (world_new true true) as [w0| |] eqn:Q0; [|discriminate|discriminate].
  assert (C0 : careful f_env w0) by (eapply careful_new; eauto).
  assert (Q : w_locked w0 = false /\ w_step_complete w0 = true /\ w_next_body w0 = 0%nat /\ (forall f, w_fixtures w0 f = None) /\ w_sub_stepping w0 = false).
  { clear -Q0. unfold world_new in Q0. destruct bp_new as [bp| |]; try discriminate. cbn [bind] in Q0. injection Q0 as <-. cbn. auto 12. }
  destruct Q as (L & S & N & F & Ss). assert (A : Rle_bool 0 0 = true) by (apply Rle_bool_true; lra).
  destruct f_massive as (b0 & b & Eb & Em & Mv & Eb').
  assert (R : exists w1, wrun f_env (WCreateBody f_thrown) w0 = Ok w1 /\ w_bodies w1 0 = Some b0 /\ (forall f, w_fixtures w1 f = None) /\ w_sub_stepping w1 = false /\ w_step_complete w1 = true /\ w_locked w1 = false).
  { unfold wrun, create_body. rewrite L. cbn [negb b2_assert bind]. rewrite Eb. cbn [bind fst]. eexists. split; [reflexivity|]. cbn. rewrite N. cbn. auto 10. }
  destruct R as (w1 & R & B1 & F1 & S1 & C1 & L1). exists (set_w_continuous false (put_body 0 b w1)), b. split; [|split; [reflexivity|split; [exact F1|split; [reflexivity|split; [exact S1|split; [exact C1|split; [exact Mv|exact Eb']]]]]]].
  apply (careful_call f_env (put_body 0 b w1) (WContinuous false)); [|exact Logic.I|reflexivity]. apply (careful_call f_env w1 (WMass 0 (MassData 2 (V2 0 0) 0))).
  - eapply careful_call; [exact C0| |exact R]. exists b0. exact Eb.
  - exists b0. split; [exact B1|]. exists b. exact Em.
  - unfold wrun. rewrite L1. cbn [negb b2_assert bind]. unfold get_body. rewrite B1. cbn [unwrap bind]. rewrite Em. reflexivity.
Qed.
Lemma f_next w h : careful f_env w -> (forall f, w_fixtures w f = None) -> w_continuous w = false -> exists w', wrun f_env (WStep h) w = Ok w' /\ careful f_env w' /\ (forall f, w_fixtures w' f = None) /\ w_continuous w' = false.
Proof.
  intros C F Cn. assert (Sf : safe w (WStep h)) by (split; [intros f g x y a b Hf; now rewrite F in Hf|now right]). destruct (careful_returns f_env f_sound ordered_R w (WStep h) C Sf) as (w' & R & C'). exists w'. split; [exact R|]. split; [exact C'|].
  pose proof (reach_W f_env f_answers w (careful_reach f_env w C)) as W0. destruct (done _ _ _ (sat_step True any f_env (env_any f_env f_answers) (or_introl Logic.I) (or_introl Logic.I) h w W0 (CT w) (or_introl Logic.I)) R) as (_ & (Q1 & Q2 & _) & _).
  split; [intros f; specialize (Q2 f); rewrite F in Q2; now destruct (w_fixtures w' f)|]. unfold settings in Q1. congruence.
Qed.
Lemma f_steps h n w : careful f_env w -> (forall f, w_fixtures w f = None) -> w_continuous w = false -> exists w', steps f_env h n w w'.
Proof.
  intros C F Cn. enough (X : exists w', steps f_env h n w w' /\ careful f_env w' /\ (forall f, w_fixtures w' f = None) /\ w_continuous w' = false) by (destruct X as (w' & X & _); now exists w').
  induction n as [|n (v & S & Cv & Fv & Nv)]; [exists w; split; [constructor|auto]|]. destruct (f_next v h Cv Fv Nv) as (w' & R & X). exists w'. split; [econstructor; eauto|exact X].
Qed.
Lemma f_fall_ex : exists w w' b, solves_as_code f_su f_env /\ answers f_env /\ wreach f_env w /\ w_sub_stepping w = false /\ w_step_complete w = true /\ w_bodies w 0 = Some b /\ moving b /\ b_type b = DynamicBody /\ no_fixture w 0 /\ b_joints b = [] /\
  fl_auto_sleep (b_flags b) = false /\ free_fall (su_gravity f_su) (1/10) 10 b /\ steps f_env (1/10) 10 w w' /\ b_lv b = V2 1 0 /\ sw_c (b_sweep b) = V2 0 5 /\ pull b = 1.
Proof.
  destruct f_start as (w & b & C & Hb & F & Cn & Ss & Sc & Mv & Ty & Jo & Au & Lv & Av & Ce & D1 & D2 & Gs & Fo & To). destruct (f_steps (1/10) 10 w C F Cn) as (w' & St). exists w, w', b.
  refine (conj f_solves (conj f_answers (conj (careful_reach _ _ C) (conj Ss (conj Sc (conj Hb (conj Mv (conj Ty (conj _ (conj Jo (conj Au (conj _ (conj St (conj Lv (conj Ce Gs)))))))))))))));
  [intros f x Hf; now rewrite F in Hf|]. repeat (split; [assumption|]). split.
  - intros k Hk. unfold way, falling_v. rewrite Lv, Gs. cbn [vx vy su_gravity f_su]. apply le_INR in Hk. change (INR 10) with (INR 10) in Hk. replace (INR 10) with 10 in Hk by (cbn; ring). pose proof (pos_INR k). nra.
  - rewrite Av, Rmult_0_r, Rabs_R0. unfold B2_MAX_ROTATION, nlit. rops. pose proof PI_RGT_0. lra.
Qed.
(* after ten steps *)
Lemma f_fallen : exists w w' b b', steps f_env (1/10) 10 w w' /\ w_bodies w 0 = Some b /\ w_bodies w' 0 = Some b' /\ b_lv b' = V2 1 (-10) /\ sw_c (b_sweep b') = V2 1 (-1/2).
Proof.
  destruct f_fall_ex as (w & w' & b & A1 & A2 & A3 & A4 & A5 & A6 & A7 & A8 & A9 & A10 & A11 & A12 & A13 & A14 & A15 & A16). destruct (bare_falls f_env unit f_su 0 (1/10) A1 A2 ltac:(lra) 10 w w' b A3 A4 A5 A6 A7 A8 A9 A10 A11 A12 A13) as (b' & Hb' & Fv & _ & Fc & _).
  exists w, w', b, b'. repeat (split; [assumption|]). unfold falling_v in Fv. rewrite A14, A16 in Fv. rewrite A14, A15, A16 in Fc. rewrite Fv, Fc. cbn [vx vy su_gravity f_su]. replace (INR 10) with 10 by (cbn; ring). split; apply vec2_ext; cbn [vx vy]; field.
Qed.
Lemma f_lone_ex : exists w w2 w' b, solves_as_code f_su f_env /\ answers f_env /\ wreach f_env w /\ w_step_complete w = true /\ w_continuous w = false /\ step_front f_env w = Ok w2 /\ w_bodies w2 0 = Some b /\ moving b /\ b_contacts b = [] /\ b_joints b = [] /\
  wrun f_env (WStep (1/10)) w = Ok w' /\ b_lv b = V2 1 0 /\ sw_c (b_sweep b) = V2 0 5 /\ pull b = 1.
Proof.
  destruct f_start as (w & b & C & Hb & F & Cn & Ss & Sc & Mv & Ty & Jo & Au & Lv & Av & Ce & D1 & D2 & Gs & Fo & To). destruct (f_next w (1/10) C F Cn) as (w' & R & _). pose proof R as R'. cbn in R'. rewrite r_step_parts in R'. apply bind_ok in R' as (w2 & R2 & _).
  assert (Nf : bare 0 w) by (intros f x Hf; now rewrite F in Hf). destruct (bare_K f_env 0 f_answers w b (careful_reach _ _ C) Ss Sc Hb Nf Jo) as (Kb & Co). pose proof (K_front f_env 0 True Logic.I b w Kb w2 R2) as (Hb2 & _).
  exists w, w2, w', b. exact (conj f_solves (conj f_answers (conj (careful_reach _ _ C) (conj Sc (conj Cn (conj R2 (conj Hb2 (conj Mv (conj Co (conj Jo (conj R (conj Lv (conj Ce Gs))))))))))))).
Qed.
