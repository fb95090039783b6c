(** A box falls on a moving platform, in exact arithmetic. *)
From Coq Require Import List ZArith Bool Arith Lia Reals Lra.
From Flocq Require Import Core.Raux.
From Verif Require Import Base Num NumLaws RTac Math Manifold Filter ShapeModel TreeModel BroadModel DynModel SolverModel IslandModel WorldModel SolverSpec SolverExamples CrashProofs CrashWorld NarrowModel SolveModel CrashSpec FlightSpec FirmSpec FirmProofs FirmReturn.
Import ListNotations.
Local Open Scope R_scope.

(* no joints *)
Definition m_js : jsolver R unit := JSolver (fun _ j ps vs => Ok (j, ps, vs)) (fun _ j vs => Ok (j, vs)) (fun _ j ps => Ok (j, ps, true)).
Definition m_su : setup R unit := Setup (V2 0 (-10)) true 8 3 true m_js (fun _ _ => tt).
Lemma m_spare i : joints_spare m_js i (fun _ => True).
Proof. split; cbn; [intros st j ps vs j' ps' vs' _ [= <- <- <-]|intros st j vs j' vs' _ [= <- <-]|intros st j ps j' ps' okay _ [= <- <- <-]]; auto. Qed.
Lemma m_joints : joints_return m_su (fun _ _ => True).
Proof.
  split; cbn [su_js m_su m_js js_init js_vel js_pos].
  - intros n st j ps vs _ A B. exists j, ps, vs. auto.
  - intros n st j vs _ A. exists j, vs. auto.
  - intros n st j ps _ A. exists j, ps, true. auto.
  - exact (fun _ _ _ _ _ _ => I).
Qed.
Definition platform : body R := ex_piece KinematicBody 0 0 0 (V2 3 0) 1 0.
Definition box : body R := ex_piece DynamicBody 1 1 2 (V2 0 (-3)) 0 0.
Definition m_input : cinput R := CIn (ex_touch (1 / 2) 1) (1 / 100) (1 / 100) platform box.
Lemma platform_firm : firm platform.
Proof. split; [discriminate|]. unfold infinite_mass, platform, ex_piece. cbn. destruct (Req_bool_spec 0 0); [auto|lra]. Qed.
Lemma m_touches : touches (fun _ => True) [platform; box] m_input.
Proof. exists 0%nat, 1%nat. repeat split; try reflexivity; discriminate. Qed.
Lemma m_solvable : solvable 2 (ex_step 8) m_input.
Proof. unfold solvable. cbn -[nle nmul]. refine (conj _ (conj _ (conj _ (conj _ _)))); [lia|lia|auto|reflexivity|]. intros _. repeat constructor; unfold nonneg; cbn; apply Rle_bool_true; lra. Qed.
Lemma m_island {TT : NumTrig R} : exists r, island_solve m_js true (ex_step 8) (V2 0 (-10)) [platform; box] [m_input] [] = Ok r.
Proof.
  destruct (island_returns m_js (fun _ _ => True) (jr_init m_su _ m_joints) (jr_vel m_su _ m_joints) (jr_pos m_su _ m_joints) true (ex_step 8) (V2 0 (-10)) [platform; box] [m_input] []) as (r & R & _); [|constructor|eauto]. constructor; [exact m_solvable|constructor].
Qed.
Lemma m_impact {TT : NumTrig R} : exists r, island_solve_toi true (ex_step 8) 0 1 [platform; box] [m_input] = Ok r.
Proof. apply toi_returns; [constructor; [exact m_solvable|constructor]|cbn; lia|cbn; lia]. Qed.

(** ** the same in a world *)
Definition m_fixture (i : nat) : fixture R := Fixture 1 (Some i) (ShCircle (Circle (1 / 100) vzero)) (1 / 2) 0 1 [] 0 filter_default false.
Definition two {A} (x y : A) (i : nat) : option A := match i with 0%nat => Some x | 1%nat => Some y | _ => None end.
Definition m_world (bp : broad R (nat * nat)) : WorldModel.world R :=
  World (two platform box) (two (m_fixture 0) (m_fixture 1)) (fun c => match c with 0%nat => Some (ex_touch (1 / 2) 1) | _ => None end) (fun _ => None) 2 2 1 0 [0; 1]%nat [0%nat] [] 2 1 0 bp
    false false true true true false true false false 60 [].
Definition m_is : island := Island [0; 1]%nat [0%nat] [].
Lemma m_indexed bp : indexed (m_world bp) m_is.
Proof. intros [|[|n]] i; cbn; try (destruct n; discriminate); intros [= <-]; eexists; split; reflexivity. Qed.
Lemma m_between bp c : In c (is_contacts m_is) -> between (m_world bp) m_is c.
Proof. intros [<-|[]]. exists (ex_touch (1 / 2) 1), (m_fixture 0), (m_fixture 1), 0%nat, 1%nat. repeat split; try reflexivity; cbn; auto. Qed.
Lemma m_code {TT : NumTrig R} {VT : NumValid R} bp : exists s, code_solve m_su (m_world bp) m_is (1 / 60) = Ok s.
Proof.
  apply (code_returns m_su _ m_joints).
  - intros i [<-|[<-|[]]]; discriminate.
  - apply m_indexed.
  - intros j [].
  - intros c [<-|[]]. exists (ex_touch (1 / 2) 1), (m_fixture 0), (m_fixture 1), 0%nat, 1%nat. cbn -[nle nmul]. refine (conj eq_refl (conj eq_refl (conj eq_refl (conj eq_refl (conj eq_refl (conj _ (conj _ (conj _ (conj eq_refl _))))))))); auto.
    intros _. repeat constructor; unfold nonneg; cbn; apply Rle_bool_true; lra.
Qed.
(* where the platform is after the step *)
Lemma platform_goes c a v om : carried (1 / 60) platform c a v om -> c = V2 (1 / 20) 0 /\ a = 1 / 60 /\ v = V2 3 0 /\ om = 1.
Proof.
  intros ((Cv & _) & (Cw & _) & -> & ->). assert (v = V2 3 0) as ->. { apply Cv. unfold way, platform, ex_piece. cbn. lra. }
  assert (om = 1) as ->. { apply Cw. unfold platform, ex_piece, B2_MAX_ROTATION, nlit. cbn [b_av]. rops. rewrite Rabs_pos_eq by lra. pose proof PI2_1. unfold PI2 in *. lra. }
  unfold platform, ex_piece. cbn. repeat split; [f_equal; lra|lra].
Qed.
