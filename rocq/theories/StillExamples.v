(** A ball falls on a static one, in exact arithmetic, with the island solver of the code. *)
From Coq Require Import List ZArith Bool Arith Lia Reals Lra.
From Flocq Require Import Core.Raux.
From Verif Require Import Base Num NumLaws RTac Math Collision Manifold Filter ShapeModel ListFacts TreeModel BroadModel DynModel SolverModel IslandModel WorldModel WorldClaims WorldCalls WorldReach SafeSpec WorldSafe CoverExamples PairExamples FrontExamples SolverSpec SolveModel CrashSpec CrashWorld FirmSpec FirmExamples TouchSpec TouchFinal TouchExamples StillSpec.
From Verif Require TreeSpec GeomSpec CoverSpec CoverLogic PairSpec PairLogic PairStep PairCalls FrontSpec FrontProofs FrontReal NarrowModel NarrowSpec NarrowProofs.
Import ListNotations.
Local Open Scope R_scope.

Definition s_env : env R := with_code m_su n_env.
Definition s_ok (w : WorldModel.world R) : Prop := gentle_careful s_env w /\ forall i b, w_bodies w i = Some b -> at_rest b.
Lemma s_hands : hands_off n_env.
Proof. intros w e c. reflexivity. Qed.
Lemma s_spared i : spared m_su i.
Proof. intros w is n _ _. exists (fun _ => True). split; [exact (m_spare n)|auto]. Qed.
Lemma s_body w ty p w' : s_ok w -> wrun n_env (WCreateBody (n_body ty p)) w = Ok w' -> s_ok w'.
Proof.
  intros (C & A) R. pose proof R as R'. cbn [wrun] in R'. apply bind_ok in R' as ([v n] & R1 & [= <-]). unfold create_body in R1. apply bind_ok in R1 as (? & _ & R1). apply bind_ok in R1 as (b & Eb & [= <- _]).
  split; [apply (careful_on s_env w (WCreateBody (n_body ty p))); [exact C|exact Logic.I|exists b; exact Eb|exact R]|]. intros i c. cbn. unfold put. destruct (Nat.eqb i _); [|apply A]. intros [= <-]. unfold body_new in Eb. do 6 (apply bind_ok in Eb as (? & _ & Eb)). injection Eb as <-. split; reflexivity.
Qed.
Lemma s_ball w i ty x w' : s_ok w -> n_bodies w i ty x -> wrun n_env (WCreateFixture i r_ball) w = Ok w' -> s_ok w'.
Proof.
  intros (C & A) (b & Hb & _) R. assert (D0 : Rlt_bool 0 0 = false) by (apply Rlt_bool_false; lra). split.
  - apply (careful_on s_env w (WCreateFixture i r_ball)); [exact C|exact Logic.I| |exact R]. exists b. split; [exact Hb|]. split; [|cbn; rewrite D0; discriminate]. exists 1%nat. split; [reflexivity|]. intros xf k _. eexists. reflexivity.
  - cbn [wrun] in R. apply bind_ok in R as ([v n] & R & [= <-]). unfold create_fixture in R. apply bind_ok in R as (? & _ & R). apply bind_ok in R as (b1 & Hb1 & R). apply bind_ok in R as (y & _ & R). cbv zeta in R. apply bind_ok in R as (w1 & R1 & R). apply bind_ok in R as (w2 & R2 & R). apply bind_ok in R as (w3 & R3 & [= <- _]).
    assert (B1 : w_bodies w1 = w_bodies w). { destruct (is_enabled b1); [|injection R1 as <-; reflexivity]. unfold create_proxies in R1. do 3 (apply bind_ok in R1 as (? & _ & R1)). apply bind_ok in R1 as ([ps bp] & _ & [= <-]). reflexivity. }
    cbn [fd_density r_ball nlt nofZ R_Num] in R3. rewrite D0 in R3. injection R3 as <-. unfold mod_body in R2. apply bind_ok in R2 as (b2 & Hb2 & [= <-]). unfold get_body in Hb2. rewrite B1, Hb in Hb2. injection Hb2 as <-.
    intros k c. cbn. unfold put. rewrite B1. destruct (Nat.eqb k i); [|apply A]. intros [= <-]. exact (A i b Hb).
Qed.
Lemma s_new : exists w, s_ok w /\ n_ok w /\ w_next_body w = 0%nat /\ w_next_fixture w = 0%nat /\ w_bodies w = (fun _ => None) /\ w_body_count w = 0%nat.
Proof.
  destruct (world_new true true) as [w0| |] eqn:Q0; [|discriminate|discriminate]. exists w0.
  assert (Q : w_locked w0 = false /\ w_step_complete w0 = true /\ w_next_body w0 = 0%nat /\ w_next_fixture w0 = 0%nat /\ w_fixtures w0 = (fun _ => None) /\ w_bodies w0 = (fun _ => None) /\ w_body_count w0 = 0%nat /\ (forall c, w_contacts w0 c = None) /\ (forall j, w_joints w0 j = None) /\ w_listener w0 = true).
  { clear -Q0. unfold world_new in Q0. destruct bp_new as [bp| |]; try discriminate. cbn [bind] in Q0. injection Q0 as <-. cbn. auto 12. }
  destruct Q as (L & S & N & M & F & B & K & C & J & Li). split; [split; [eapply careful_from; eauto|rewrite B; discriminate]|]. split; [|auto]. unfold n_ok. rewrite F. refine (conj _ (conj _ (conj _ (conj L (conj S (conj C (conj J (conj _ Li)))))))); [eapply PairSpec.preach_new|eapply CoverSpec.treach_new|eapply careful_new|discriminate]; eauto.
Qed.
(* a static ball at the origin and a dynamic one at (1, 0) that overlaps it; both are made at rest *)
Lemma s_world : exists w b, gentle_careful s_env w /\ w_continuous w = false /\ n_two (V2 1 0) w /\ w_bodies w 0 = Some b /\ b_type b = StaticBody /\ at_rest b.
Proof.
  destruct s_new as (w0 & S0 & H0 & N0 & M0 & B0 & K0).
  destruct (n_make_body w0 StaticBody (V2 0 0) H0) as (w1 & R1 & H1 & F1 & M1 & N1 & K1 & Q1 & O1). pose proof (s_body _ _ _ _ S0 R1) as S1. rewrite N0 in *. rewrite B0 in O1.
  destruct (n_make_ball w1 0 _ _ H1 Q1) as (w2 & R2 & H2 & M2 & N2 & K2 & A2 & O2 & P2 & Z2 & _). pose proof (s_ball _ _ _ _ _ S1 Q1 R2) as S2. rewrite M1, M0 in *.
  destruct (n_make_body w2 DynamicBody (V2 1 0) H2) as (w3 & R3 & H3 & F3 & M3 & N3 & K3 & Q3 & O3). pose proof (s_body _ _ _ _ S2 R3) as S3. rewrite N2, N1 in *.
  destruct (n_make_ball w3 1 _ _ H3 Q3) as (w4 & R4 & H4 & M4 & N4 & K4 & A4 & O4 & P4 & Z4 & W4). pose proof (s_ball _ _ _ _ _ S3 Q3 R4) as S4. rewrite M3, M2 in *.
  assert (X0 : n_bodies w4 0 StaticBody (V2 0 0)). { apply P4. unfold n_bodies. rewrite O3 by discriminate. apply P2, Q1. }
  assert (Y0 : n_ball w4 0 0). { destruct A2 as (y & Hy & R). exists y. rewrite O4 by discriminate. rewrite F3. auto. }
  pose proof X0 as (b & Hb & Ty & _). exists (set_w_continuous false w4), b. destruct S4 as (C4 & Ar).
  refine (conj _ (conj eq_refl (conj _ (conj Hb (conj Ty (Ar _ _ Hb)))))).
  - apply (careful_on s_env w4 (WContinuous false)); [exact C4|exact Logic.I|exact Logic.I|reflexivity].
  - refine (conj _ (conj X0 (conj (P4 _ _ _ Q3) (conj Y0 (conj A4 (conj W4 _)))))).
    + apply (n_call w4 (WContinuous false)); auto; try exact Logic.I; try reflexivity; apply H4.
    + cbn. now rewrite K4, K3, K2, K1, K0.
Qed.
(* they touch in the step, which returns *)
Lemma s_step : exists w w2 w' b k x, answers n_env /\ wreach s_env w /\ w_continuous w = false /\ w_bodies w 0 = Some b /\ resting b /\ b_type b = StaticBody /\ step_front s_env w = Ok w2 /\ w_contacts w2 k = Some x /\ NarrowSpec.between x 0 0 1 0 /\ cf_touching (c_flags x) = true /\ wrun s_env (WStep 1) w = Ok w'.
Proof.
  destruct s_world as (w & b & C & Cn & H & Hb & Ty & Re). pose proof (n_may _ w H) as Mt. destruct H as (H & X0 & X1 & A0 & A1 & Nc & Bc). destruct H as (P & Tr & Ca & HL & S & Ec & Ej & G & Li).
  assert (Sf : safe w (WStep 1)). { split; [|left; rewrite Bc; lia]. intros f g x y a d Hf Hg _ _ _ _. rewrite (G f x Hf), (G g y Hg). discriminate. }
  destruct (gentle_returns m_su n_env s_hands n_answers ltac:(cbn; lia) (warm_real m_su) n_sound ordered_R (fun _ _ => True) w (WStep 1) m_joints C Logic.I Sf) as (w' & Rn & _).
  pose proof Rn as R'. cbn [wrun] in R'. rewrite r_step_parts in R'. apply bind_ok in R' as (w2 & R2 & _). change (step_front n_env w = Ok w2) in R2.
  pose proof (n_stands _ _ _ _ _ A0 X0) as S0. pose proof (n_stands _ _ _ _ _ A1 X1) as S1. assert (Du : NarrowSpec.pairs_due n_env w) by now left.
  destruct (FrontReal.front_contact n_env n_answers n_plain n_holds w w2 0 0 0 r_circle _ _ 1 0 1 r_circle _ _ P Tr Du R2 (FrontReal.stands_sits _ _ _ _ _ S0) (FrontReal.stands_sits _ _ _ _ _ S1) Mt n_child n_child (n_box _) (n_box _))%nat as (c & x & Hc & Bt).
  { unfold TreeSpec.separated. cbn. rewrite !Rlt_bool_true'. lra. }
  assert (Wk : FrontSpec.at_work w 1). { destruct X1 as (d & Hd & Td & _ & _ & Aw). exists d. rewrite Td in *. split; [exact Hd|]. split; [now apply Aw|discriminate]. }
  pose proof (FrontReal.front_touch n_env n_answers n_narrow w w2 c x _ _ _ _ _ _ _ _ _ _ (PairCalls.preach_wreach _ _ P) R2 Hc Bt S0 S1 (or_intror Wk) n_unit n_unit) as (To & _). specialize (To n_meets).
  assert (Rw : wreach s_env w). { clear -C. induction C as [l g w H|w c w' _ IH _ _ R]; [eapply wreach_new; eauto|eapply wreach_call; eauto]. }
  exists w, w2, w', b, c, x. refine (conj n_answers (conj Rw (conj Cn (conj Hb (conj (conj _ Re) (conj Ty (conj R2 (conj Hc (conj Bt (conj To Rn)))))))))). rewrite Ty. discriminate.
Qed.
