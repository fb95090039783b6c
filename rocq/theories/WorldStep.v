(** The whole step keeps the invariant; what it never touches. *)
From Coq Require Import List ZArith Bool Arith Lia Permutation.
From Verif Require Import Base Num Math Collision Manifold Filter ShapeModel ListFacts ManifoldProofs TreeModel TreeSpec TreeHist BroadModel BroadSpec BroadProofs BroadFinal DynModel DynSpec DynProofs WorldModel WorldGraph WorldSpec WorldGops WorldLogic WorldPhys WorldContact WorldInv WorldOps WorldFix WorldBody WorldLife WorldIsland WorldSolve WorldToi.
Import ListNotations.

Section Step.
  Local Open Scope num_scope.
  Context {T : Type} `{NT : Num T} `{TT : NumTrig T} `{VT : NumValid T}.
  Notation world := (world T).
  Implicit Types w : world.
  Variable p : Prop.
  Variable oks : vec2 T -> Prop.
  Variable E : env T.
  Hypothesis EO : env_ok p E.
  Hypothesis Z01 : p \/ ((#0 : T) <? #1) = true.
  Hypothesis LT : p \/ forall a b c : T, (a <? b) = true -> (b <? c) = true -> (a <? c) = true.
  Notation W := (W p oks).

  Definition settings w := (w_allow_sleep w, w_continuous w, w_sub_stepping w, w_clear_forces w, w_listener w, w_goodbye w).
  Definition stepped w w' : Prop :=
    settings w' = settings w /\ (forall f, option_map view_fx (w_fixtures w' f) = option_map view_fx (w_fixtures w f)) /\
    (forall i, option_map kind (g_b (graph_of w') i) = option_map kind (g_b (graph_of w) i)) /\
    (forall j, g_j (graph_of w') j = g_j (graph_of w) j).
  Lemma stepped_alike w w' : stepped w w' -> alike w w'.
  Proof. intros (_ & Q). exact Q. Qed.
  Lemma admitted_frame w w' w'' : w_contacts w'' = w_contacts w' -> admitted E w w' -> admitted E w w''.
  Proof. intros Q A c x. rewrite Q. apply A. Qed.
  Lemma stepped_refl w : stepped w w.
  Proof. repeat split. Qed.
  Lemma stepped_trans w w' w'' : stepped w w' -> stepped w' w'' -> stepped w w''.
  Proof. intros (A & B & C & D) (A' & B' & C' & D'). refine (conj _ (conj _ (conj _ _))); intros; congruence. Qed.
  Lemma stepped_still w w' : still w w' -> stepped w w'.
  Proof. intros (A & B & C & D). refine (conj _ (conj B (conj C D))). unfold switches in A. unfold settings. congruence. Qed.
  Lemma stepped_frame w w' : w_bodies w' = w_bodies w -> w_fixtures w' = w_fixtures w -> w_joints w' = w_joints w -> settings w' = settings w -> stepped w w'.
  Proof. intros A B C D. refine (conj D (conj _ (conj _ _))); intros; cbn; now rewrite ?A, ?B, ?C. Qed.
  Lemma stepped_classes w w' : stepped w w' -> classes_ok p w -> classes_ok p w'.
  Proof.
    intros (_ & F & K & J) C. unfold classes_ok in *. intros f f' x x' a b K1 K2 K3 K4 K5 K6.
    pose proof (F f) as F1. pose proof (F f') as F2. rewrite K1 in F1. rewrite K2 in F2.
    destruct (w_fixtures w f) as [y|] eqn:Ey; [|easy]. destruct (w_fixtures w f') as [y'|] eqn:Ey'; [|easy]. cbn in F1, F2. unfold view_fx, view_f in F1, F2.
    assert (D : forall i, dynamic_at w' i -> dynamic_at w i).
    { intros i (z & Q & Qt). pose proof (K i) as Ki. cbn in Ki. rewrite Q in Ki. cbn in Ki. destruct (w_bodies w i) as [y0|] eqn:Ei; [|easy]. exists y0. split; auto. unfold kind in Ki. cbn in Ki. congruence. }
    replace (f_shape x) with (f_shape y) by congruence. replace (f_shape x') with (f_shape y') by congruence.
    eapply (C f f' y y' a b); eauto; try congruence. destruct K6; [left|right]; auto.
  Qed.

  Lemma sat_clear_forces w : W w -> sat p (clear_forces w) (phys p oks w).
  Proof.
    intros H. destruct (W_graph _ _ _ H) as ((_ & Ib & _) & _). cbn in Ib. unfold clear_forces. apply sat_each with (I := phys p oks w).
    { intros i v Hi Pv. apply Ib in Hi. apply (t_body p oks w); [exact Pv|now destruct (w_bodies w i)|]. intros b Bb. split; [reflexivity|]. exact Bb. }
    now apply phys_self.
  Qed.

  (* what a step does: contacts are checked, the islands are solved, then the continuous phase runs *)
  Definition step_result (dt : T) w w' : Prop :=
    W w' /\ stepped w w' /\ admitted E w w' /\ w_locked w' = false /\
    exists w1 w2, W w1 /\ stepped w w1 /\ collided p oks E w1 w2 /\
      (w_step_complete w = true -> (dt >? #0) = true -> exists w3, W w3 /\ still w2 w3 /\ solved_islands w2 w3).
  Lemma sat_step dt w : W w -> classes_ok p w -> p \/ (w_body_count w <= 64)%nat \/ w_continuous w = false -> sat p (step E dt w) (step_result dt w).
  Proof.
    intros H CO Cap. unfold step. apply sat_bind.
    apply (sat_mono _ (fun w1 => W w1 /\ stepped w w1 /\ admitted E w w1 /\ w_step_complete w1 = w_step_complete w /\ w_continuous w1 = w_continuous w)).
    { destruct (w_new_contacts w); [|apply sat_ok; refine (conj H (conj (stepped_refl w) (conj (admitted_refl E w) (conj eq_refl eq_refl))))]. apply sat_bind. eapply sat_mono; [exact (sat_find p oks E w H CO)|]. intros w1 (H1 & G1 & A1). apply sat_ok.
      pose proof (still_grow _ _ G1) as S1. refine (conj _ (conj _ (conj _ (conj _ _)))).
      - eapply W_frame0; eauto.
      - eapply stepped_trans; [exact (stepped_still _ _ S1)|]. now apply stepped_frame.
      - exact A1.
      - destruct S1 as (Q & _). unfold switches in Q. cbn. congruence.
      - destruct S1 as (Q & _). unfold switches in Q. cbn. congruence.
    }
    intros w1 (H1 & S1 & A1 & C1 & D1). set (w1' := set_w_locked true w1).
    assert (H1' : W w1') by (eapply W_frame0; eauto). assert (S1' : stepped w w1') by (eapply stepped_trans; [exact S1|now apply stepped_frame]). assert (A1' : admitted E w w1') by exact A1. assert (C1' : w_step_complete w1' = w_step_complete w) by exact C1. assert (D1' : w_continuous w1' = w_continuous w) by exact D1. clearbody w1'. clear w1 H1 S1 A1 C1 D1.
    apply sat_bind. eapply sat_mono; [exact (sat_collide p oks E EO w1' H1')|]. intros w2 X2. pose proof X2 as (H2 & S2 & K2). pose proof (stepped_trans _ _ _ S1' (stepped_still _ _ S2)) as T2.
    assert (A2 : admitted E w w2). { apply (admitted_trans E w w1'); auto; [now apply stepped_alike|]. apply admitted_kept. intros c x Hx. destruct (K2 c x Hx) as (_ & x0 & Q & V & _). eauto. }
    assert (C2 : w_step_complete w2 = w_step_complete w) by (destruct S2 as (Q & _); unfold switches in Q; congruence).
    apply sat_bind. apply (sat_mono _ (fun w3 => W w3 /\ still w2 w3 /\ admitted E w2 w3 /\ (w_step_complete w = true -> (dt >? #0) = true -> solved_islands w2 w3))).
    { destruct (w_step_complete w2 && (dt >? #0)) eqn:Q.
      - eapply sat_mono; [apply (sat_solve p oks E EO w2 H2 dt); auto; eapply stepped_classes; eauto|]. intros w3 (A & B & C & D). auto.
      - apply sat_ok. refine (conj H2 (conj (still_refl _) (conj (admitted_refl E _) _))). intros A B. rewrite C2, A, B in Q. easy. }
    intros w3 (H3 & S3 & A3 & I3). pose proof (stepped_trans _ _ _ T2 (stepped_still _ _ S3)) as T3.
    assert (D3 : w_continuous w3 = w_continuous w) by (destruct S2 as (Q & _); destruct S3 as (Q' & _); unfold switches in Q, Q'; congruence).
    assert (Cap3 : w_continuous w3 = true -> p \/ (w_body_count w3 <= 64)%nat).
    { intros Co. destruct Cap as [?|[Cap|?]]; [now left|right|congruence]. revert Cap. enough (w_body_count w3 = w_body_count w) as -> by auto.
      destruct (W_graph _ _ _ H) as ((Nb & Ib & Lb & _) & _). destruct (W_graph _ _ _ H3) as ((Nb3 & Ib3 & Lb3 & _) & _). cbn in Lb, Lb3. rewrite Lb, Lb3. cbn in Ib, Ib3, Nb, Nb3.
      destruct T3 as (_ & _ & Kb & _). apply Nat.le_antisymm; apply NoDup_incl_length; auto; intros i Hi; [apply Ib|apply Ib3]; [apply Ib3 in Hi|apply Ib in Hi]; specialize (Kb i); cbn in Kb; destruct (w_bodies w3 i), (w_bodies w i); cbn in *; congruence. }
    apply sat_bind. apply (sat_mono _ (fun w4 => W w4 /\ stepped w3 w4 /\ admitted E w3 w4)).
    { destruct (w_continuous w3 && (dt >? #0)) eqn:Co; [apply andb_true_iff in Co; destruct Co as [Co _]|apply sat_ok; refine (conj H3 (conj (stepped_refl w3) (admitted_refl E w3)))]. eapply sat_mono; [apply (sat_solve_toi p oks E EO Z01 LT dt w3); auto; eapply stepped_classes; eauto|].
      intros w4 (H4 & v & f & Sv & Av & ->). split; auto. split; [|exact Av]. eapply stepped_trans; [exact (stepped_still _ _ Sv)|]. now apply stepped_frame. }
    intros w4 (H4 & S4 & A4). set (w5 := if dt >? #0 then _ else w4).
    assert (H5 : W w5) by (unfold w5; destruct (dt >? #0); auto; eapply W_frame0; eauto). assert (S5 : stepped w w5). { eapply stepped_trans; [exact T3|]. eapply stepped_trans; [exact S4|]. unfold w5; destruct (dt >? #0); [now apply stepped_frame|apply stepped_refl]. }
    assert (A5 : admitted E w w5). { apply (admitted_frame w w4); [unfold w5; now destruct (dt >? #0)|]. apply (admitted_trans E w w3); [now apply stepped_alike| |exact A4]. apply (admitted_trans E w w2); auto. now apply stepped_alike. }
    clearbody w5. apply sat_bind. apply (sat_mono _ (phys p oks w5)). { destruct (w_clear_forces w5); [now apply sat_clear_forces|now apply phys_self]. }
    intros w6 P6. apply sat_ok. pose proof (W_phys _ _ _ _ H5 P6) as H6. refine (conj _ (conj _ (conj _ (conj eq_refl _)))).
    - eapply W_frame0; eauto.
    - eapply stepped_trans; [exact S5|]. eapply stepped_trans; [exact (stepped_still _ _ (still_links _ _ (proj1 P6)))|]. now apply stepped_frame.
    - apply (admitted_frame w w6); auto. apply (admitted_trans E w w5); [now apply stepped_alike|exact A5|]. apply admitted_links, P6.
    - exists w1', w2. refine (conj H1' (conj S1' (conj X2 _))). intros A B. exists w3. auto.
  Qed.
End Step.
