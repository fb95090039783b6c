(** A program whose step panics in the solver, and one whose steps do not, in single precision. *)
From Coq Require Import List ZArith Bool Arith Lia.
From Verif Require Import Base Num NumLaws Math Collision Manifold Filter ShapeModel CollideModel TreeModel BroadModel DynModel SolverModel IslandModel WorldModel WorldClaims WorldCalls WorldHist WorldReach WorldExamples SafeSpec WorldSafe SafeExamples NarrowModel DistModel SenseModel SolverSpec SolveModel WorldGraph WorldSpec WorldLogic WorldInv WorldLife WorldSet WorldStep WorldAfter CrashSpec CrashWorld.
Import ListNotations.

(* no joints, no gravity *)
Definition k_js : jsolver f32 unit := JSolver (fun _ j ps vs => Ok (j, ps, vs)) (fun _ j vs => Ok (j, vs)) (fun _ j ps => Ok (j, ps, true)).
Definition k_su : setup f32 unit := Setup vzero true 8 3 true k_js (fun _ _ => tt).
Definition k_code : env f32 := with_code k_su E0.
(* three balls in a row; the first is a sensor until it is asleep *)
Definition k_calls : list (wcall f32) :=
  [WCreateBody (ex_bodydef DynamicBody (nofZ 0) (nofZ 0) false); WCreateFixture 0 sensor_ball;
   WCreateBody (ex_bodydef DynamicBody (nlit 4 10) (nofZ 0) false); WCreateFixture 1 ball;
   WCreateBody (ex_bodydef DynamicBody (nlit 8 10) (nofZ 0) false); WCreateFixture 2 ball; WContinuous false;
   tick; WSensor 0 false; WBody 0 (BAwake false); WBody 1 (BAwake false)].
Definition panics_now (w : fworld) : bool := ex_safe w tick && match wrun k_code tick w with Panic => true | _ => false end.

Lemma k_joints : joints_return k_su (fun _ _ => True).
Proof.
  split; cbn [su_js k_su k_js js_init js_vel js_pos].
  - intros n st j ps vs _ A B. exists j, ps, vs. auto.
  - intros n st j vs _ A. exists j, vs. auto.
  - intros n st j ps _ A. exists j, ps, true. auto.
  - exact (fun _ _ _ _ _ _ => I).
Qed.
(* the calls checked to be safe make a careful program, whatever the solver does *)
Lemma k_runs cs : forall w w', careful k_code w -> safe_runs k_code cs w = Some w' -> careful k_code w'.
Proof.
  induction cs as [|c cs IH]; intros w w' H R; cbn [safe_runs] in R; [now injection R as <-|]. destruct (ex_safe w c) eqn:S; [|discriminate]. destruct (wrun k_code c w) as [w1| |] eqn:R1; try discriminate.
  eapply IH; [|exact R]. eapply careful_call; eauto. apply (ex_safe_ok (backed k_su E0) w c (backed_answers k_su E0 (ex_answers None))); [|exact S]. apply careful_reach. now apply careful_agree.
Qed.
Lemma k_checked cs p : safe_check k_code cs p = true -> exists w, careful k_code w /\ p w = true.
Proof.
  unfold safe_check. destruct (world_new true true) as [w0| |] eqn:Q; try discriminate. destruct (safe_runs k_code cs w0) as [w|] eqn:R; try discriminate. intros P. exists w. split; auto. eapply k_runs; [|exact R]. eapply careful_new; eauto.
Qed.
Lemma k_safe w c : careful k_code w -> ex_safe w c = true -> safe w c.
Proof. intros H S. apply (ex_safe_ok (backed k_su E0) w c (backed_answers k_su E0 (ex_answers None))); [|exact S]. apply careful_reach. now apply careful_agree. Qed.

(* a program every call of which keeps the conditions: the last step panics *)
Lemma ex_panics : exists w, joints_return k_su (fun _ _ => True) /\ sound_env E0 /\ answers E0 /\ ordered f32 /\ careful k_code w /\ safe w tick /\ wrun k_code tick w = Panic.
Proof.
  destruct (k_checked k_calls panics_now) as (w & C & P); [vm_compute; reflexivity|]. unfold panics_now in P. apply andb_prop in P. destruct P as [P1 P2]. exists w.
  refine (conj k_joints (conj (ex_sound None) (conj (ex_answers None) (conj ordered_f32 (conj C (conj (k_safe w tick C P1) _)))))). now destruct (wrun k_code tick w).
Qed.

(** ** the step of a world with a touching contact returns *)
Definition k_dt : f32 := match tick with WStep dt => dt | _ => nofZ 0 end.
Definition work_check (w : fworld) (c : nat) : bool :=
  match w_contacts w c with
  | Some x => match w_fixtures w (c_fa x), w_fixtures w (c_fb x) with
    | Some fa, Some fb => negb (cf_touching (c_flags x)) || negb (cf_enabled (c_flags x)) || f_sensor fa || f_sensor fb ||
        ((Nat.eqb (mf_count (c_manifold x)) 1 || Nat.eqb (mf_count (c_manifold x)) 2) && Nat.eqb (length (mf_points (c_manifold x))) 2 && forallb (fun p => nle (nofZ 0) ((w_inv_dt0 w * k_dt) * mp_normal_impulse p)%num) (firstn (mf_count (c_manifold x)) (mf_points (c_manifold x))))
    | _, _ => true end
  | None => true end.
Definition solid_touching (w : fworld) (c : nat) : bool :=
  match w_contacts w c with
  | Some x => match w_fixtures w (c_fa x), w_fixtures w (c_fb x) with Some fa, Some fb => cf_touching (c_flags x) && cf_enabled (c_flags x) && negb (f_sensor fa) && negb (f_sensor fb) | _, _ => false end
  | None => false end.
Definition works_now (w : fworld) : bool := ex_safe w tick && match step_front E0 w with Ok w2 => forallb (work_check w2) (w_contact_list w2) && existsb (solid_touching w2) (w_contact_list w2) | _ => false end.
Lemma work_checked w c : work_check w c = true -> workable k_su k_dt w c.
Proof.
  unfold work_check, workable. intros H x fa fb Hx Ht He Hfa Hfb Sa Sb. rewrite Hx, Hfa, Hfb, Ht, He, Sa, Sb in H. cbn [negb orb] in H. apply andb_prop in H. destruct H as [H H3]. apply andb_prop in H. destruct H as [H1 H2].
  apply Nat.eqb_eq in H2. split; [|split; [exact H2|]].
  - apply orb_prop in H1. destruct H1 as [H1|H1]; apply Nat.eqb_eq in H1; auto.
  - intros _. apply Forall_forall. intros p Hp. exact (proj1 (forallb_forall _ _) H3 p Hp).
Qed.
Lemma ex_works : exists w w2, joints_return k_su (fun _ _ => True) /\ sound_env E0 /\ answers E0 /\ ordered f32 /\ careful k_code w /\ safe w tick /\ step_front E0 w = Ok w2 /\
  (forall c, workable k_su k_dt w2 c) /\ existsb (solid_touching w2) (w_contact_list w2) = true.
Proof.
  destruct (k_checked (firstn 8 k_calls) works_now) as (w & C & P); [vm_compute; reflexivity|]. unfold works_now in P. apply andb_prop in P. destruct P as [P1 P2]. destruct (step_front E0 w) as [w2| |] eqn:R; try discriminate. apply andb_prop in P2. destruct P2 as [P2 P3]. exists w, w2.
  refine (conj k_joints (conj (ex_sound None) (conj (ex_answers None) (conj ordered_f32 (conj C (conj (k_safe w tick C P1) (conj R (conj _ P3)))))))).
  intros c. apply work_checked. unfold work_check. destruct (w_contacts w2 c) as [x|] eqn:Hc; [|reflexivity].
  pose proof (front_checks True any (backed k_su E0) w (env_any _ (backed_answers k_su E0 (ex_answers None))) (reach_W _ (backed_answers k_su E0 (ex_answers None)) w (careful_reach _ w (careful_agree k_su E0 w C))) (CT w)) as Q.
  change (step_front (backed k_su E0) w) with (step_front E0 w) in Q. rewrite R in Q. cbn [sat] in Q. destruct Q as (Q & _). destruct (W_graph _ _ _ Q) as (_ & _ & ((_ & Ic & _) & _) & _). cbn in Ic.
  assert (In c (w_contact_list w2)) as Hi by (apply Ic; now rewrite Hc). pose proof (proj1 (forallb_forall _ _) P2 c Hi) as K. unfold work_check in K. now rewrite Hc in K.
Qed.
