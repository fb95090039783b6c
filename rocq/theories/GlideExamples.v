(** A kinematic ball moves into another one, in exact arithmetic, with the island solver of the code. *)
From Coq Require Import List ZArith Bool Arith Lia Reals Lra.
From Flocq Require Import Core.Raux.
From Verif Require Import Base Num NumLaws RTac Math Collision Manifold Filter ShapeModel ListFacts TreeModel BroadModel DynModel SolverModel IslandModel WorldModel WorldClaims WorldCalls WorldReach SafeSpec WorldSafe CoverExamples PairExamples FrontExamples SolverSpec SolveModel CrashSpec CrashWorld FirmSpec FirmExamples TouchSpec TouchFinal TouchExamples StillSpec StillExamples GlideSpec.
From Verif Require TreeSpec GeomSpec CoverSpec CoverLogic PairSpec PairLogic PairStep PairCalls FrontSpec FrontProofs FrontReal NarrowModel NarrowSpec NarrowProofs.
Import ListNotations.
Local Open Scope R_scope.

Definition k_two (w : WorldModel.world R) : Prop :=
  n_ok w /\ n_bodies w 0 KinematicBody (V2 0 0) /\ n_bodies w 1 DynamicBody (V2 1 0) /\ n_ball w 0 0 /\ n_ball w 1 1 /\ w_new_contacts w = true /\ w_body_count w = 2%nat.
Lemma k_may w : k_two w -> PairSpec.may_touch w 0 1.
Proof.
  intros ((_ & _ & _ & _ & _ & _ & J & _) & _ & (b & Hb & Ty & _) & (x & Hx & Bx & _ & Fx & _) & (y & Hy & By & _ & Fy & _) & _). exists x, y, 0%nat, 1%nat. repeat (split; [solve [auto]|]). split; [right; exists b; auto|]. split; [|rewrite Fx, Fy; reflexivity]. intros (j & z & Hz & _). rewrite J in Hz. discriminate.
Qed.
(* a kinematic ball at the origin with velocity (1, 0) and a dynamic one at (1, 0) that overlaps it *)
Lemma k_world : exists w b, gentle_careful s_env w /\ w_continuous w = false /\ k_two w /\ w_bodies w 0 = Some b /\ gliding b /\ b_lv b = V2 1 0.
Proof.
  destruct s_new as (w0 & S0 & H0 & N0 & M0 & B0 & K0).
  destruct (n_make_body w0 KinematicBody (V2 0 0) H0) as (w1 & R1 & H1 & F1 & M1 & N1 & K1 & Q1 & O1). pose proof (s_body _ _ _ _ S0 R1) as S1. rewrite N0 in *. rewrite B0 in O1.
  destruct (n_make_ball w1 0 _ _ H1 Q1) as (w2 & R2 & H2 & M2 & N2 & K2 & A2 & O2 & P2 & Z2 & _). pose proof (s_ball _ _ _ _ _ S1 Q1 R2) as S2. rewrite M1, M0 in *.
  destruct (n_make_body w2 DynamicBody (V2 1 0) H2) as (w3 & R3 & H3 & F3 & M3 & N3 & K3 & Q3 & O3). pose proof (s_body _ _ _ _ S2 R3) as S3. rewrite N2, N1 in *.
  destruct (n_make_ball w3 1 _ _ H3 Q3) as (w4 & R4 & H4 & M4 & N4 & K4 & A4 & O4 & P4 & Z4 & W4). pose proof (s_ball _ _ _ _ _ S3 Q3 R4) as S4. rewrite M3, M2 in *.
  assert (X0 : n_bodies w4 0 KinematicBody (V2 0 0)). { apply P4. unfold n_bodies. rewrite O3 by discriminate. apply P2, Q1. }
  assert (Y0 : n_ball w4 0 0). { destruct A2 as (y & Hy & R). exists y. rewrite O4 by discriminate. rewrite F3. auto. }
  pose proof X0 as (b & Hb & Ty & En & Xf0 & Aw). destruct S4 as (C4 & _). specialize (Aw ltac:(discriminate)).
  set (b' := set_linear_velocity (V2 1 0) b). set (w5 := put_body 0 b' w4).
  assert (Eb' : b_type b' = KinematicBody /\ is_enabled b' = true /\ b_xf b' = b_xf b /\ is_awake b' = true /\ b_lv b' = V2 1 0).
  { unfold b', set_linear_velocity. assert (is_static b = false) as Es by (unfold is_static; now rewrite Ty). rewrite Es. cbv zeta. unfold set_awake. rewrite Es. destruct (nlt _ _); cbn; auto. }
  destruct Eb' as (T' & E' & X' & A' & V').
  assert (R5 : wrun s_env (WBody 0 (BLinear (V2 1 0))) w4 = Ok w5). { cbn [wrun]. unfold mod_body, get_body. rewrite Hb. reflexivity. }
  assert (Sf : safe w4 (WBody 0 (BLinear (V2 1 0)))) by (cbn; rewrite Hb; discriminate).
  assert (C5 : gentle_careful s_env w5) by (apply (careful_on s_env w4 (WBody 0 (BLinear (V2 1 0)))); [exact C4|exact Logic.I|exact Sf|exact R5]).
  assert (H5 : n_ok w5) by (apply (n_call w4 (WBody 0 (BLinear (V2 1 0)))); auto; try exact Logic.I; apply H4).
  assert (X5 : n_bodies w5 0 KinematicBody (V2 0 0)) by (exists b'; split; [reflexivity|]; repeat split; auto; congruence).
  exists (set_w_continuous false w5), b'.
  refine (conj _ (conj eq_refl (conj _ (conj eq_refl (conj (conj T' (conj A' E')) V'))))).
  - apply (careful_on s_env w5 (WContinuous false)); [exact C5|exact Logic.I|exact Logic.I|reflexivity].
  - refine (conj _ (conj X5 (conj (P4 _ _ _ Q3) (conj Y0 (conj A4 (conj W4 _)))))).
    + apply (n_call w5 (WContinuous false)); auto; try exact Logic.I; try reflexivity; apply H5.
    + cbn. now rewrite K4, K3, K2, K1, K0.
Qed.
(* they touch in the step, which returns *)
Lemma k_step : exists w w2 w' b k x, answers n_env /\ wreach s_env w /\ w_continuous w = false /\ w_step_complete w = true /\ w_bodies w 0 = Some b /\ gliding b /\ b_lv b = V2 1 0 /\ step_front s_env w = Ok w2 /\ w_contacts w2 k = Some x /\ NarrowSpec.between x 0 0 1 0 /\ cf_touching (c_flags x) = true /\ wrun s_env (WStep 1) w = Ok w'.
Proof.
  destruct k_world as (w & b & C & Cn & H & Hb & Gl & Lv). pose proof (k_may w H) as Mt. destruct H as (H & X0 & X1 & A0 & A1 & Nc & Bc). destruct H as (P & Tr & Ca & HL & S & Ec & Ej & G & Li).
  assert (Sf : safe w (WStep 1)). { split; [|left; rewrite Bc; lia]. intros f g x y a d Hf Hg _ _ _ _. rewrite (G f x Hf), (G g y Hg). discriminate. }
  destruct (gentle_returns m_su n_env s_hands n_answers ltac:(cbn; lia) (warm_real m_su) n_sound ordered_R (fun _ _ => True) w (WStep 1) m_joints C Logic.I Sf) as (w' & Rn & _).
  pose proof Rn as R'. cbn [wrun] in R'. rewrite r_step_parts in R'. apply bind_ok in R' as (w2 & R2 & _). change (step_front n_env w = Ok w2) in R2.
  pose proof (n_stands _ _ _ _ _ A0 X0) as S0. pose proof (n_stands _ _ _ _ _ A1 X1) as S1. assert (Du : NarrowSpec.pairs_due n_env w) by now left.
  destruct (FrontReal.front_contact n_env n_answers n_plain n_holds w w2 0 0 0 r_circle _ _ 1 0 1 r_circle _ _ P Tr Du R2 (FrontReal.stands_sits _ _ _ _ _ S0) (FrontReal.stands_sits _ _ _ _ _ S1) Mt n_child n_child (n_box _) (n_box _))%nat as (c & x & Hc & Bt).
  { unfold TreeSpec.separated. cbn. rewrite !Rlt_bool_true'. lra. }
  assert (Wk : FrontSpec.at_work w 1). { destruct X1 as (d & Hd & Td & _ & _ & Aw). exists d. rewrite Td in *. split; [exact Hd|]. split; [now apply Aw|discriminate]. }
  pose proof (FrontReal.front_touch n_env n_answers n_narrow w w2 c x _ _ _ _ _ _ _ _ _ _ (PairCalls.preach_wreach _ _ P) R2 Hc Bt S0 S1 (or_intror Wk) n_unit n_unit) as (To & _). specialize (To n_meets).
  assert (Rw : wreach s_env w). { clear -C. induction C as [l g w H|w c w' _ IH _ _ R]; [eapply wreach_new; eauto|eapply wreach_call; eauto]. }
  exists w, w2, w', b, c, x. exact (conj n_answers (conj Rw (conj Cn (conj S (conj Hb (conj Gl (conj Lv (conj R2 (conj Hc (conj Bt (conj To Rn))))))))))).
Qed.
