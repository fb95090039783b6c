(** Gentle programs with touching contacts, in single precision, and a program that is not gentle. *)
From Coq Require Import List ZArith Bool Arith Lia Reals Lra.
From Verif Require Import Base Num NumLaws Math RTac Collision Manifold Filter ShapeModel CollideModel TreeModel BroadModel DynModel SolverModel IslandModel WorldModel WorldClaims WorldCalls WorldHist WorldReach WorldExamples SafeSpec WorldSafe SafeExamples NarrowModel DistModel SenseModel SolverSpec SolveModel WorldGraph WorldSpec WorldLogic WorldInv WorldLife WorldSet WorldStep WorldAfter CrashSpec CrashWorld CrashExamples TouchSpec TouchFinal.
Import ListNotations.

(* as k_su, without warm starting *)
Definition t_su : setup f32 unit := Setup vzero false 8 3 true k_js (fun _ _ => tt).
Definition t_code : env f32 := with_code t_su E0.
Definition t_calls : list (wcall f32) := firstn 8 k_calls ++ [tick; WBody 1 (BAwake false); tick].
Definition calm_call (c : wcall f32) : bool := match c with WSensor _ false => false | _ => true end.

Lemma t_joints : joints_return t_su (fun _ _ => True).
Proof.
  split; cbn [su_js t_su k_js js_init js_vel js_pos].
  - intros n st j ps vs _ A B. exists j, ps, vs. auto.
  - intros n st j vs _ A. exists j, vs. auto.
  - intros n st j ps _ A. exists j, ps, true. auto.
  - exact (fun _ _ _ _ _ _ => I).
Qed.
Lemma t_hands : hands_off E0.
Proof. intros w e c. reflexivity. Qed.
Lemma t_warm : warm_safe t_su.
Proof. now left. Qed.
Lemma t_gentle (c : wcall f32) w : calm_call c = true -> gentle w c.
Proof. destruct c as [| | | | | | | | | | | | | | |f [|]| | | | | | | | |]; cbn; auto. discriminate. Qed.
Lemma t_safe w c : careful t_code w -> ex_safe w c = true -> safe w c.
Proof. intros H S. apply (ex_safe_ok (backed t_su E0) w c (backed_answers t_su E0 (ex_answers None))); [|exact S]. apply careful_reach. now apply careful_agree. Qed.
Lemma t_runs cs : forall w w', forallb calm_call cs = true -> gentle_careful t_code w -> safe_runs t_code cs w = Some w' -> gentle_careful t_code w'.
Proof.
  induction cs as [|c cs IH]; intros w w' F H R; cbn [safe_runs] in R; [now injection R as <-|]. cbn [forallb] in F. apply andb_prop in F. destruct F as [F1 F2]. destruct (ex_safe w c) eqn:S; [|discriminate]. destruct (wrun t_code c w) as [w1| |] eqn:R1; try discriminate.
  eapply IH; [exact F2| |exact R]. eapply careful_on; eauto; [now apply t_gentle|]. apply t_safe; auto. now apply gentle_is_careful.
Qed.
Definition t_now (w : fworld) : bool := ex_safe w tick && existsb (solid_touching w) (w_contact_list w).
Lemma t_world : exists w, gentle_careful t_code w /\ safe w tick /\ existsb (solid_touching w) (w_contact_list w) = true.
Proof.
  assert (Q : safe_check t_code t_calls t_now = true) by (vm_compute; reflexivity). unfold safe_check in Q. destruct (world_new true true) as [w0| |] eqn:Q0; try discriminate. destruct (safe_runs t_code t_calls w0) as [w|] eqn:R; try discriminate.
  unfold t_now in Q. apply andb_prop in Q. destruct Q as [Q1 Q2]. assert (C : gentle_careful t_code w) by (eapply t_runs; [|eapply careful_from; exact Q0|exact R]; reflexivity). exists w. refine (conj C (conj _ Q2)). apply t_safe; auto. now apply gentle_is_careful.
Qed.
Lemma gentle_reaches {T} `{NT : Num T} `{TT : NumTrig T} `{VT : NumValid T} (E : env T) w : gentle_careful E w -> gentle_reach E w.
Proof. induction 1; [eapply gentle_new; eauto|eapply gentle_call; eauto]. Qed.
(* a sensor that becomes solid while it touches: the contact touches, both are solid, and there is no point *)
Definition pointless (w : fworld) (c : nat) : bool := solid_touching w c && match w_contacts w c with Some x => Nat.eqb (mf_count (c_manifold x)) 0 | None => false end.
Lemma ex_pointless : exists w, careful k_code w /\ ~ touching_solids w.
Proof.
  destruct (k_checked (firstn 9 k_calls) (fun w => existsb (pointless w) (w_contact_list w))) as (w & C & P); [vm_compute; reflexivity|]. exists w. split; [exact C|]. intros H. apply existsb_exists in P as (c & _ & P). unfold pointless, solid_touching in P.
  destruct (w_contacts w c) as [x|] eqn:Hx; [|discriminate]. destruct (w_fixtures w (c_fa x)) as [fa|] eqn:Ha; [|discriminate]. destruct (w_fixtures w (c_fb x)) as [fb|] eqn:Hb; [|discriminate].
  apply andb_prop in P. destruct P as [P Z]. apply andb_prop in P. destruct P as [P Sb]. apply andb_prop in P. destruct P as [P Sa]. apply andb_prop in P. destruct P as [P _]. apply Nat.eqb_eq in Z. apply negb_true_iff in Sa, Sb.
  assert (1 <= mf_count (c_manifold x)) by (apply (H c x Hx P); [now exists fa|now exists fb]). lia.
Qed.

(* in exact arithmetic the impulses of the last step can always be used again *)
Lemma warm_real {J} (su : setup R J) : warm_safe su.
Proof.
  right. unfold nonneg. split.
  - intros a b Ha Hb. rops. destruct (Raux.Rle_bool_spec 0 a); [|discriminate]. destruct (Raux.Rle_bool_spec 0 b); [|discriminate]. apply Raux.Rle_bool_true. now apply Rmult_le_pos.
  - intros a Ha. rops. destruct (Raux.Rlt_bool_spec 0 a) as [P|]; [|discriminate]. split; apply Raux.Rle_bool_true; [lra|]. apply Rlt_le, Rdiv_lt_0_compat; lra.
Qed.
