(** A step of the world and the pairs of the broad phase. *)
From Coq Require Import List ZArith Bool Arith Lia Reals Lra.
From Flocq Require Import Core.Raux.
From Verif Require Import Base Num NumLaws RTac Math Collision Manifold Filter ShapeModel ListFacts ManifoldProofs TreeModel TreeSpec TreeHist BroadModel BroadSpec BroadProofs BroadFinal DynModel DynSpec DynProofs WorldModel WorldGraph WorldLogic WorldInv WorldFix WorldClaims WorldCalls CoverLogic CoverOps PairSpec PairLogic PairOps.
Import ListNotations.
Implicit Types w : world.

Notation kq := (kp false lose_none).
Lemma kq_put w0 w i b b' : kq w0 w -> w_bodies w i = Some b -> quiet b b' -> kq w0 (put_body i b' w).
Proof. apply kp_put. Qed.
Lemma kq_put_contact w0 w i c c' : kq w0 w -> w_contacts w i = Some c -> pair_key c' = pair_key c -> kq w0 (put_contact i c' w).
Proof. intros [A B] H K. split; [exact A|]. eapply fr_contact; eauto. Qed.
Lemma kq_put_joint w0 w i c c' : kq w0 w -> w_joints w i = Some c -> view_j c' = view_j c -> kq w0 (put_joint i c' w).
Proof. intros [A B] H K. split; [exact A|]. eapply fr_joint; eauto. Qed.
Lemma quiet_advance al (b b' : body R) : body_advance al b = Ok b' -> quiet b b'.
Proof. unfold body_advance. intros H. apply bind_ok in H as (s & _ & H). injection H as <-. split; reflexivity. Qed.
Lemma bodies_of w i b : get_body w i = Ok b -> w_bodies w i = Some b.
Proof. unfold get_body. destruct (w_bodies w i); [|easy]. cbn. congruence. Qed.

Section Step.
  Variable E : env R.
  Hypothesis EF : plain_filter E.

  (** ** the discrete solver *)
  Definition DQ w0 (st : dstate (T := R)) : Prop := kq w0 (fst (fst st)).
  Lemma DQ_visit w0 o st : DQ w0 st -> ok (visit_other o st) (DQ w0).
  Proof.
    destruct st as [[w is] stack]. unfold DQ. cbn [fst]. intros H. unfold visit_other. apply ok_bind, ok_unwrap. intros x Hx. destruct (fl_island _); apply ok_ok; cbn [fst]; [exact H|]. eapply kq_put; [exact H|exact Hx|split; reflexivity].
  Qed.
  Lemma DQ_contact w0 e st : DQ w0 st -> ok (visit_contact e st) (DQ w0).
  Proof.
    destruct st as [[w is] stack]. intros H. unfold visit_contact. apply ok_bind, ok_unwrap. intros c Hc. destruct (cf_island _); [now apply ok_ok|]. destruct (_ || _); [now apply ok_ok|].
    apply ok_bind, ok_any. intros fa. apply ok_bind, ok_any. intros fb. destruct (_ || _); [now apply ok_ok|]. apply DQ_visit. unfold DQ in *. cbn [fst] in *. eapply kq_put_contact; [exact H|exact Hc|reflexivity].
  Qed.
  Lemma DQ_joint w0 e st : DQ w0 st -> ok (visit_joint e st) (DQ w0).
  Proof.
    destruct st as [[w is] stack]. intros H. unfold visit_joint. apply ok_bind, ok_unwrap. intros c Hc. destruct (j_island _); [now apply ok_ok|].
    apply ok_bind, ok_any. intros o. destruct (negb _); [now apply ok_ok|]. apply DQ_visit. unfold DQ in *. cbn [fst] in *. eapply kq_put_joint; [exact H|exact Hc|reflexivity].
  Qed.
  Lemma DQ_dfs w0 fuel : forall st, DQ w0 st -> ok (dfs fuel st) (DQ w0).
  Proof.
    induction fuel as [|fuel IH]; intros [[w is] stack] H; (destruct stack as [|i stack]; cbn [dfs]; [now apply ok_ok|]); [intros a Q; discriminate Q|].
    apply ok_bind. eapply ok_mono; [|exact IH]. unfold dfs1. apply ok_bind, ok_unwrap. intros b Hb. apply ok_bind, ok_any. intros _. unfold add_body. unfold DQ in H. cbn [fst] in H.
    set (w1 := put_body i _ w). assert (H1 : kq w0 w1) by (eapply kq_put; [exact H|exact Hb|split; reflexivity]). clearbody w1.
    destruct (is_static b); [apply ok_ok; exact H1|]. apply ok_bind. eapply ok_mono; [apply (kp_body false lose_none w0); [exact H1|split; reflexivity]|]. intros w2 H2.
    apply ok_bind. eapply ok_mono; [apply (ok_each (DQ w0)); [intros e s _; apply DQ_contact|exact H2]|].
    intros s Hs. apply (ok_each (DQ w0)); [intros e s' _; apply DQ_joint|exact Hs].
  Qed.
  Lemma kq_report w0 l w : kq w0 w -> ok (report E l w) (kq w0).
  Proof. intros H. unfold report. destruct (w_listener w); [|now apply ok_ok]. apply (ok_each (kq w0)); [|exact H]. intros c s _ Hs. now apply kp_listen. Qed.
  Lemma quiet_solved s (b : body R) : quiet b (apply_solved s b).
  Proof. split; reflexivity. Qed.
  Lemma kq_island w0 is dt w : kq w0 w -> ok (solve_island E is dt w) (kq w0).
  Proof.
    intros H. unfold solve_island. apply ok_bind, ok_any. intros s. cbv zeta. apply ok_bind.
    eapply ok_mono; [apply (kp_each_contact false lose_none w0 (fun c x => set_c_manifold (with_points (so_points s c) (c_manifold x)) x)); [exact H|reflexivity]|]. intros w1 H1.
    apply ok_bind. eapply ok_mono; [apply (kp_each_body false lose_none w0 (fun i => apply_solved (so_body s i))); [exact H1|intros; apply quiet_solved]|]. intros w2 H2.
    apply ok_bind. eapply ok_mono; [apply kq_report; exact H2|]. intros w3 H3. destruct (w_allow_sleep w3); [|now apply ok_ok]. apply ok_bind.
    eapply ok_mono; [apply (kp_each_body false lose_none w0 (fun i b => if is_static b then b else set_b_sleep_time (so_time (so_body s i)) b)); [exact H3|]|].
    { intros i b. destruct (is_static b); split; reflexivity. }
    intros w4 H4. destruct (so_sleep s); [|now apply ok_ok]. apply (kp_each_body false lose_none w0 (fun _ => set_awake false)); [exact H4|]. intros i b. apply quiet_awake.
  Qed.
  Lemma kq_seed w0 cap dt seed w : kq w0 w -> ok (solve_seed E cap dt seed w) (kq w0).
  Proof.
    intros H. unfold solve_seed. apply ok_bind, ok_unwrap. intros b Hb. destruct (fl_island _); [now apply ok_ok|]. destruct (_ || _); [now apply ok_ok|]. destruct (is_static b); [now apply ok_ok|]. cbv zeta.
    set (w1 := put_body seed _ w). assert (H1 : kq w0 w1) by (eapply kq_put; [exact H|exact Hb|split; reflexivity]). clearbody w1.
    apply ok_bind. eapply ok_mono; [apply (DQ_dfs w0); exact H1|]. intros [[w2 is] stack] H2. unfold DQ in H2. cbn [fst] in H2. apply ok_bind, ok_any. intros _. apply ok_bind. eapply ok_mono; [apply kq_island; exact H2|].
    intros w3 H3. apply (kp_each_body false lose_none w0 (fun _ b => if is_static b then mod_flags (set_fl_island false) b else b)); [exact H3|]. intros i c. destruct (is_static c); split; reflexivity.
  Qed.
  Lemma kq_clear w0 w : kq w0 w -> ok (clear_island_flags w) (kq w0).
  Proof.
    intros H. unfold clear_island_flags. apply ok_bind. eapply ok_mono; [apply (kp_each_body false lose_none w0 (fun _ => mod_flags (set_fl_island false))); [exact H|split; reflexivity]|].
    intros w1 H1. apply ok_bind. eapply ok_mono; [apply (kp_each_contact false lose_none w0 (fun _ => mod_cflags (set_cf_island false))); [exact H1|reflexivity]|].
    intros w2 H2. apply (ok_each (kq w0)); [|exact H2]. intros i s _ Hs. apply kp_joint; [exact Hs|reflexivity].
  Qed.
  Lemma P_next w z : P true w -> M true none z -> fr false lose_none w z -> P true z.
  Proof. intros (A & B & C) Hz F. split; [exact Hz|]. split; [eapply fr_links; eauto|]. destruct F as (_ & _ & _ & (K & _) & _). auto. Qed.
  Lemma P_sync w i : P true w -> ok (synchronize_fixtures i w) (P true).
  Proof. intros H. eapply ok_mono; [apply (M_sync none); apply H|]. intros z [A B]. eapply P_next; eauto. Qed.
  Lemma P_sync_moved w : P true w -> ok (sync_moved w) (P true).
  Proof.
    intros H. unfold sync_moved. apply (ok_each (P true)); [|exact H]. intros i s _ Hs. apply ok_bind, ok_any. intros b. destruct (negb _); [now apply ok_ok|]. destruct (is_static b); [now apply ok_ok|]. now apply P_sync.
  Qed.
  Lemma P_found w : P true w -> ok (find_new_contacts E w) (P false).
  Proof. intros H. eapply ok_mono; [apply (P_find E EF); exact H|]. intros z [A _]. exact A. Qed.
  Lemma P_solve dt w : P true w -> ok (solve E dt w) (P false).
  Proof.
    intros H. unfold solve. cbv zeta. apply ok_bind. eapply ok_mono; [apply (kq_clear w), kp_refl|]. intros w1 H1. apply ok_bind.
    eapply ok_mono; [apply (ok_each (kq w)); [intros i s _; apply kq_seed|exact H1]|]. intros w2 H2. apply ok_bind. eapply ok_mono; [apply P_sync_moved; eapply P_kp; eauto|]. intros w3 H3. now apply P_found.
  Qed.

  (** ** continuous collision *)
  Lemma kq_join w0 bi al e st : kq w0 (fst st) -> ok (toi_join E bi al e st) (fun st => kq w0 (fst st)).
  Proof.
    destruct st as [w is]. cbn [fst]. intros H. unfold toi_join. cbv zeta. apply ok_bind, ok_any. intros c. destruct (cf_island _); [apply ok_ok; exact H|].
    apply ok_bind, ok_unwrap. intros o Ho. apply ok_bind, ok_any. intros b. destruct (_ && _); [apply ok_ok; exact H|]. apply ok_bind, ok_any. intros fa. apply ok_bind, ok_any. intros fb. destruct (_ || _); [apply ok_ok; exact H|].
    apply ok_bind. apply (ok_mono _ (kq w0)).
    { destruct (fl_island (b_flags o)); [now apply ok_ok|]. apply ok_bind, ok_eq. intros o' Eo. apply ok_ok. eapply kq_put; [exact H|exact Ho|eapply quiet_advance; eauto]. }
    intros w1 H1. apply ok_bind. eapply ok_mono; [apply (kp_update E false lose_none w0); exact H1|]. intros w2 H2. apply ok_bind, ok_unwrap. intros c2 Hc2. destruct (_ || _).
    - apply ok_bind. eapply ok_mono; [apply (kp_body false lose_none w0); [exact H2|split; reflexivity]|]. intros w3 H3. apply ok_ok. exact H3.
    - set (w3 := put_contact _ _ w2). assert (H3 : kq w0 w3) by (eapply kq_put_contact; [exact H2|exact Hc2|reflexivity]). clearbody w3. apply ok_bind, ok_unwrap. intros o2 Ho2. destruct (fl_island _); [apply ok_ok; exact H3|].
      apply ok_ok. unfold add_body. cbn [fst]. eapply kq_put; [exact H3|exact Ho2|]. destruct (is_static _); [split; reflexivity|]. destruct (quiet_awake true (mod_flags (set_fl_island true) o2)) as [Q1 Q2]. split; [exact Q1|exact Q2].
  Qed.
  Lemma kq_grow w0 bi al st : kq w0 (fst st) -> ok (toi_grow E bi al st) (fun st => kq w0 (fst st)).
  Proof.
    destruct st as [w is]. intros H. unfold toi_grow. apply ok_bind, ok_any. intros b. destruct (is_dynamic b); [|apply ok_ok; exact H].
    apply (ok_each (fun st => kq w0 (fst st))); [|exact H]. intros e s _. apply kq_join.
  Qed.
  Lemma kq_solve w0 is ia ib dt w : kq w0 w -> ok (solve_toi_island E is ia ib dt w) (kq w0).
  Proof.
    intros H. unfold solve_toi_island. apply ok_bind, ok_any. intros _. apply ok_bind, ok_any. intros _. apply ok_bind, ok_any. intros _. apply ok_bind, ok_any. intros _. apply ok_bind, ok_any. intros s. cbv zeta.
    apply ok_bind. eapply ok_mono; [apply (kp_each_body false lose_none w0 (fun i => apply_solved (so_body s i))); [exact H|intros; apply quiet_solved]|]. intros w1 H1. now apply kq_report.
  Qed.
  Lemma P_release l : forall w, P true w -> ok (each toi_release l w) (P true).
  Proof.
    intros w H. apply (ok_each (P true)); [|exact H]. clear w H. intros i w _ H. unfold toi_release. apply ok_bind. eapply ok_mono; [apply (kp_body false lose_none w w i); [apply kp_refl|split; reflexivity]|]. intros w1 K1. pose proof (P_kp _ _ _ H K1) as H1. clear w K1 H.
    apply ok_bind, ok_any. intros b. destruct (negb _); [now apply ok_ok|]. apply ok_bind. eapply ok_mono; [apply P_sync; exact H1|]. intros w2 H2.
    eapply ok_mono; [apply (ok_each (kq w2)); [|apply kp_refl]|intros w3 K3; eapply P_kp; eauto]. intros e s _ Hs. apply kp_contact; [exact Hs|reflexivity].
  Qed.
  Lemma P_event q mc al dt w : P q w -> ok (toi_event E mc al dt w) (fun p => P q (fst p)).
  Proof.
    intros H. unfold toi_event. apply ok_bind, ok_any. intros c. apply ok_bind, ok_any. intros a. apply ok_bind, ok_any. intros b. apply ok_bind, ok_unwrap. intros ba Ha. apply ok_bind, ok_any. intros bb. cbv zeta.
    apply ok_bind, ok_eq. intros ba' Ea. set (w1 := put_body a ba' w). assert (H1 : kq w w1) by (eapply kq_put; [apply kp_refl|exact Ha|eapply quiet_advance; eauto]). clearbody w1.
    apply ok_bind, ok_unwrap. intros bb1 Hb1. apply ok_bind, ok_eq. intros bb' Eb. set (w2 := put_body b bb' w1). assert (H2 : kq w w2) by (eapply kq_put; [exact H1|exact Hb1|eapply quiet_advance; eauto]). clearbody w2.
    apply ok_bind. eapply ok_mono; [apply (kp_update E false lose_none w); exact H2|]. intros w3 H3.
    apply ok_bind. eapply ok_mono; [apply (kp_contact false lose_none w); [exact H3|reflexivity]|]. intros w4 H4. apply ok_bind, ok_any. intros c4. destruct (_ || _).
    - apply ok_bind. eapply ok_mono; [apply (kp_contact false lose_none w); [exact H4|reflexivity]|]. intros w5 H5.
      apply ok_bind. eapply ok_mono; [apply (kp_body false lose_none w); [exact H5|split; reflexivity]|]. intros w6 H6. apply ok_bind. eapply ok_mono; [apply (kp_body false lose_none w); [exact H6|split; reflexivity]|]. intros w7 H7.
      apply ok_bind. eapply ok_mono; [apply (kp_body false lose_none w); [exact H7|split; reflexivity]|]. intros w8 H8. apply ok_bind. eapply ok_mono; [apply (kp_body false lose_none w); [exact H8|split; reflexivity]|]. intros w9 H9.
      apply ok_ok. cbn [fst]. eapply P_kp; eauto.
    - apply ok_bind. eapply ok_mono; [apply (kp_wake false lose_none w); exact H4|]. intros w5 H5. apply ok_bind. eapply ok_mono; [apply (kp_wake false lose_none w); exact H5|]. intros w6 H6. apply ok_bind, ok_unwrap. intros xa Hxa. unfold add_body. cbn [is_bodies is_contacts is_joints length].
      set (w7 := put_body a _ w6). assert (H7 : kq w w7) by (eapply kq_put; [exact H6|exact Hxa|split; reflexivity]). clearbody w7.
      apply ok_bind, ok_unwrap. intros xb Hxb. set (w8 := put_body b _ w7). assert (H8 : kq w w8) by (eapply kq_put; [exact H7|exact Hxb|split; reflexivity]). clearbody w8.
      apply ok_bind. eapply ok_mono; [apply (kp_body false lose_none w); [exact H8|split; reflexivity]|]. intros w9 H9. apply ok_bind. eapply ok_mono; [apply (kp_body false lose_none w); [exact H9|split; reflexivity]|]. intros w10 H10.
      apply ok_bind. eapply ok_mono; [apply (kp_contact false lose_none w); [exact H10|reflexivity]|]. intros w11 H11.
      apply ok_bind. eapply ok_mono; [apply (kq_grow w); exact H11|]. intros st H12. apply ok_bind. eapply ok_mono; [apply (kq_grow w); exact H12|]. intros [w13 is] H13. cbn [fst] in H13.
      apply ok_bind, ok_any. intros ya. apply ok_bind, ok_any. intros yb. apply ok_bind. eapply ok_mono; [apply kq_solve; exact H13|]. intros w14 H14. apply ok_bind. eapply ok_mono; [apply P_release; eapply P_true, P_kp; eauto|].
      intros w15 H15. apply ok_bind. eapply ok_mono; [apply P_found; exact H15|]. intros w16 H16. apply ok_ok. cbn [fst]. now apply P_false.
  Qed.
  Lemma kq_scan w0 i st : kq w0 (fst (fst st)) -> ok (toi_scan1 E i st) (fun st => kq w0 (fst (fst st))).
  Proof.
    destruct st as [[w best] ba]. cbn [fst]. intros H. unfold toi_scan1. cbv zeta. apply ok_bind, ok_any. intros c. destruct (negb _); [apply ok_ok; exact H|]. destruct (Z.ltb _ _); [apply ok_ok; exact H|].
    destruct (cf_toi _); [apply ok_ok; destruct (nlt _ _); exact H|]. apply ok_bind, ok_any. intros fa. apply ok_bind, ok_any. intros fb. destruct (_ || _); [apply ok_ok; exact H|].
    apply ok_bind, ok_any. intros a. apply ok_bind, ok_any. intros b. apply ok_bind, ok_unwrap. intros xa Ha. apply ok_bind, ok_unwrap. intros xb Hb. apply ok_bind, ok_any. intros _.
    destruct (_ && _); [apply ok_ok; exact H|]. destruct (_ && _); [apply ok_ok; exact H|].
    apply ok_bind. apply (ok_mono _ (fun p => kq w0 (fst p))).
    { destruct (nlt _ _); [|destruct (nlt _ _)]; [apply ok_bind, ok_any; intros s; apply ok_ok; cbn [fst]..|apply ok_ok; exact H].
      - eapply kq_put; [exact H|exact Ha|split; reflexivity].
      - eapply kq_put; [exact H|exact Hb|split; reflexivity]. }
    intros [w1 al0] H1. cbn [fst] in H1. apply ok_bind, ok_any. intros _. apply ok_bind, ok_any. intros [touching beta]. apply ok_bind. eapply ok_mono; [apply (kp_contact false lose_none w0); [exact H1|reflexivity]|]. intros w2 H2. apply ok_ok. destruct (nlt _ _); exact H2.
  Qed.
  Lemma P_loop q dt fuel : forall w, P q w -> ok (toi_loop E fuel dt w) (P q).
  Proof.
    induction fuel as [|fuel IH]; intros w H; cbn [toi_loop]; [intros a Q; discriminate Q|]. apply ok_bind.
    eapply ok_mono; [apply (ok_each (fun st => kq w (fst (fst st)))); [intros i s _; apply kq_scan|apply kp_refl]|]. intros [[w1 best] al] K1. cbn [fst] in K1. pose proof (P_kp _ _ _ H K1) as H1. clear K1 H w. destruct best as [mc|]; [|apply ok_ok; exact H1].
    destruct (nlt _ _); [apply ok_ok; exact H1|]. apply ok_bind. eapply ok_mono; [apply P_event; exact H1|]. intros [w2 solid] H2. cbn [fst] in H2. destruct (_ && _); [apply ok_ok; exact H2|]. now apply IH.
  Qed.
  Lemma P_toi q dt w : P q w -> ok (solve_toi E dt w) (P q).
  Proof.
    intros H. unfold solve_toi. apply ok_bind. eapply ok_mono; [|intros w1 H1; apply P_loop; exact H1]. destruct (w_step_complete w); [|now apply ok_ok]. unfold toi_reset. apply ok_bind.
    eapply ok_mono; [apply (kp_each_body false lose_none w (fun _ b => set_sw (with_alpha0 (#0)%num) (mod_flags (set_fl_island false) b))); [apply kp_refl|split; reflexivity]|]. intros w1 H1.
    eapply ok_mono; [apply (kp_each_contact false lose_none w (fun _ x => set_c_toi (#1)%num (set_c_toi_count 0 (mod_cflags (fun f => set_cf_island false (set_cf_toi false f)) x)))); [exact H1|reflexivity]|]. intros w2 H2. eapply P_kp; eauto.
  Qed.
  Lemma P_step dt w : P true w -> ok (step E dt w) (fun z => P true z /\ (w_step_complete w = true -> (0 < dt)%R -> P false z)).
  Proof.
    intros H. unfold step. apply ok_bind. apply (ok_mono _ (fun z => P true z /\ w_step_complete z = w_step_complete w)).
    { destruct (w_new_contacts w); [|now apply ok_ok]. apply ok_bind. eapply ok_mono; [apply (P_find E EF); exact H|]. intros z [Hz Sz]. apply ok_ok. split; [apply (P_false true z); exact Hz|exact Sz]. }
    intros w1 [H1 S1]. cbv zeta. set (w2 := set_w_locked true w1). assert (H2 : P true w2) by exact H1. assert (S2 : w_step_complete w2 = w_step_complete w) by exact S1. clearbody w2. clear w1 H1 S1.
    apply ok_bind. eapply ok_mono; [apply (P_collide E EF true); exact H2|]. intros w3 [H3 S3]. rewrite S2 in S3. clear w2 H2 S2.
    apply ok_bind. apply (ok_mono _ (fun z => P true z /\ (w_step_complete w = true -> (0 < dt)%R -> P false z))).
    { rewrite S3. destruct (w_step_complete w) eqn:Sc; cbn [andb]; [|apply ok_ok; split; [exact H3|discriminate]]. destruct (nlt (#0)%num dt) eqn:Ed.
      - eapply ok_mono; [apply P_solve; exact H3|]. intros z Hz. split; [now apply (P_false true)|auto].
      - apply ok_ok. split; [exact H3|]. intros _ Q. revert Ed. rops. rewrite Rlt_bool_true; [discriminate|exact Q]. }
    intros w4 [H4 L4]. apply ok_bind. apply (ok_mono _ (fun z => P true z /\ (w_step_complete w = true -> (0 < dt)%R -> P false z))).
    { destruct (_ && _); [|now apply ok_ok]. intros z Hz. split; [exact (P_toi true dt w4 H4 z Hz)|]. intros Q1 Q2. exact (P_toi false dt w4 (L4 Q1 Q2) z Hz). }
    intros w5 [H5 L5]. apply ok_bind. apply (ok_mono _ (fun z => P true z /\ (w_step_complete w = true -> (0 < dt)%R -> P false z))).
    { set (w6 := if nlt _ _ then _ else _). assert (H6 : P true w6) by (unfold w6; destruct (nlt _ _); exact H5). assert (L6 : w_step_complete w = true -> (0 < dt)%R -> P false w6) by (unfold w6; destruct (nlt _ _); exact L5). clearbody w6.
      destruct (w_clear_forces w6); [|now apply ok_ok]. unfold clear_forces.
      eapply ok_mono; [apply (kp_each_body false lose_none w6 (fun _ b => set_b_torque (#0)%num (set_b_force vzero b))); [apply kp_refl|split; reflexivity]|]. intros z Kz. split; [eapply P_kp; eauto|]. intros Q1 Q2. eapply P_kp; [now apply L6|exact Kz]. }
    intros w7 H7. apply ok_ok. exact H7.
  Qed.
End Step.
