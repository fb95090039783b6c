(** Flight, for every world a program can get; in exact arithmetic. *)
From Coq Require Import List ZArith Bool Arith Lia Reals Lra.
From Flocq Require Import Core.Raux.
From Verif Require Import Base ListFacts Num NumLaws RTac Math Collision Manifold Filter ShapeModel TreeModel BroadModel DynModel SolverModel IslandModel WorldModel WorldClaims WorldLogic WorldPhys WorldContact WorldInv WorldOps WorldFix WorldBody WorldLife WorldIsland WorldSolve WorldToi WorldStep WorldCalls WorldReach WorldHist WorldFinal WorldAfter CoverLogic SleepProofs NarrowModel SolveModel FlightSpec FlightProofs.
Import ListNotations.

Section Links.
  Context {T : Type} `{NT : Num T} `{TT : NumTrig T} `{VT : NumValid T}.
  Notation world := (world T).
  Implicit Types w v : world.
  Variable E : env T.
  Variable i : nat.
  Lemma edge_seen (l : list gedge) e it s o : In e l -> once l it s o -> ge_item e = it -> e = GEdge it s o.
  Proof. intros A B C. assert (Q : In e (List.filter (edge_here it) l)) by (apply filter_In; split; [exact A|]; unfold edge_here; now apply Nat.eqb_eq). rewrite B in Q. destruct Q as [Q|[]]; congruence. Qed.
  Lemma edge_nowhere (l : list gedge) e : In e l -> ~ nowhere l (ge_item e).
  Proof. intros A B. assert (Q : In e (List.filter (edge_here (ge_item e)) l)) by (apply filter_In; split; [exact A|]; unfold edge_here; apply Nat.eqb_refl). rewrite B in Q. exact Q. Qed.
  Lemma empty_once it s o : ~ once [] it s o.
  Proof. unfold once. discriminate. Qed.
  Lemma unlinked w b : contact_graph w -> joint_graph w -> w_bodies w i = Some b -> b_contacts b = [] -> b_joints b = [] -> apart i w.
  Proof.
    intros (_ & CG & CN) (_ & JG & JN) Hb Hc Hj o x e Hx [He|He] Eo.
    - destruct (w_contacts w (ge_item e)) as [c|] eqn:Ec; [|exact (edge_nowhere _ _ He (CN _ _ _ Ec Hx))]. destruct (CG _ _ Ec) as (a & a' & ba & bb & _ & _ & Ha & Ha' & O1 & O2 & No).
      destruct (Nat.eq_dec o a) as [->|N1]; [|destruct (Nat.eq_dec o a') as [->|N2]; [|exact (edge_nowhere _ _ He (No o x Hx N1 N2))]].
      + assert (x = ba) by congruence. subst x. pose proof (edge_seen _ _ _ _ _ He O1 eq_refl) as Q. rewrite Q in Eo. cbn in Eo. subst a'. assert (bb = b) by congruence. subst bb. rewrite Hc in O2. exact (empty_once _ _ _ O2).
      + assert (x = bb) by congruence. subst x. pose proof (edge_seen _ _ _ _ _ He O2 eq_refl) as Q. rewrite Q in Eo. cbn in Eo. subst a. assert (ba = b) by congruence. subst ba. rewrite Hc in O1. exact (empty_once _ _ _ O1).
    - destruct (w_joints w (ge_item e)) as [c|] eqn:Ec; [|exact (edge_nowhere _ _ He (JN _ _ _ Ec Hx))]. destruct (JG _ _ Ec) as (ba & bb & _ & Ha & Ha' & O1 & O2 & No).
      destruct (Nat.eq_dec o (j_a c)) as [->|N1]; [|destruct (Nat.eq_dec o (j_b c)) as [->|N2]; [|exact (edge_nowhere _ _ He (No o x Hx N1 N2))]].
      + assert (x = ba) by congruence. subst x. pose proof (edge_seen _ _ _ _ _ He O1 eq_refl) as Q. rewrite Q in Eo. cbn in Eo. rewrite Eo in Ha'. assert (bb = b) by congruence. subst bb. rewrite Hj in O2. exact (empty_once _ _ _ O2).
      + assert (x = bb) by congruence. subst x. pose proof (edge_seen _ _ _ _ _ He O2 eq_refl) as Q. rewrite Q in Eo. cbn in Eo. rewrite Eo in Ha. assert (ba = b) by congruence. subst ba. rewrite Hj in O1. exact (empty_once _ _ _ O1).
  Qed.
  Lemma bare_contacts w b : contact_graph w -> w_bodies w i = Some b -> bare i w -> b_contacts b = [].
  Proof.
    intros (_ & CG & CN) Hb Br. destruct (b_contacts b) as [|e l] eqn:Hl; [reflexivity|exfalso]. assert (He : In e (b_contacts b)) by (rewrite Hl; now left).
    destruct (w_contacts w (ge_item e)) as [c|] eqn:Ec; [|exact (edge_nowhere _ _ He (CN _ _ _ Ec Hb))]. destruct (CG _ _ Ec) as (a & a' & ba & bb & Bo & _ & Ha & Ha' & O1 & O2 & No).
    unfold bodies_of, body_of in Bo. destruct (w_fixtures w (c_fa c)) as [fa|] eqn:Hfa; [|discriminate]. destruct (w_fixtures w (c_fb c)) as [fb|] eqn:Hfb; [|now destruct (f_body fa)].
    destruct (f_body fa) as [p|] eqn:Pa; [|discriminate]. destruct (f_body fb) as [q|] eqn:Pb; [|discriminate]. injection Bo as -> ->.
    destruct (Nat.eq_dec i a) as [->|N1]; [exact (Br _ _ Hfa Pa)|]. destruct (Nat.eq_dec i a') as [->|N2]; [exact (Br _ _ Hfb Pb)|]. exact (edge_nowhere _ _ He (No i b Hb N1 N2)).
  Qed.
  Lemma in_list w b : fixture_graph w -> w_bodies w i = Some b -> In i (w_body_list w).
  Proof. intros ((_ & L & _) & _) Hb. apply L. congruence. Qed.

  (** ** a body with fixtures but no contacts *)
  Definition drift (b : body T) w : Prop := exists l, w_bodies w i = Some (set_b_contacts l b).
  Lemma drift_link b w c : drift b w -> ok (link_contact c w) (drift b).
  Proof.
    intros H. unfold link_contact. cbv zeta. apply ok_bind, ok_any. intros a. apply ok_bind, ok_any. intros o.
    assert (A : forall k e v, drift b v -> ok (mod_body k (fun x => set_b_contacts (e :: b_contacts x) x) v) (drift b)).
    { intros k e v (l & Hv). unfold mod_body. apply ok_bind, ok_eq. intros x Hx. apply get_in in Hx. apply ok_ok. unfold drift. cbn. unfold WorldModel.put. destruct (Nat.eqb_spec i k) as [<-|]; [|eauto].
      replace x with (set_b_contacts l b) by congruence. exists (e :: l). reflexivity. }
    apply ok_bind. eapply ok_mono; [apply A; exact H|]. intros w1 H1. apply ok_bind. eapply ok_mono; [apply A; exact H1|]. intros w2 H2. apply ok_ok. exact H2.
  Qed.
  Lemma drift_pair b w (u u' : option (nat * nat)) : drift b w -> ok (add_pair E w u u') (drift b).
  Proof.
    intros H. unfold add_pair. apply ok_bind, ok_any. intros [fa ia]. apply ok_bind, ok_any. intros [fb ib]. apply ok_bind, ok_any. intros a. apply ok_bind, ok_any. intros o. destruct (Nat.eqb a o); [now apply ok_ok|].
    apply ok_bind, ok_any. intros bb. apply ok_bind, ok_any. intros known. destruct known; [now apply ok_ok|]. apply ok_bind, ok_any. intros may. destruct (negb may); [now apply ok_ok|]. cbv zeta. destruct (negb _); [now apply ok_ok|].
    apply ok_bind, ok_any. intros c. now apply drift_link.
  Qed.
  Lemma drift_find b w : drift b w -> ok (find_new_contacts E w) (drift b).
  Proof. intros H. unfold find_new_contacts. apply ok_bind. eapply ok_mono; [apply (ok_pairs _ _ _ (drift b)); [exact H|intros s u v; apply drift_pair]|]. intros [bp w1] H1. now apply ok_ok. Qed.
  Lemma forces_own b w : w_bodies w i = Some b -> ok (clear_forces w) (fun w' => exists b', w_bodies w' i = Some b' /\ (b' = b \/ b' = set_b_torque #0 (set_b_force vzero b))%num).
  Proof.
    intros H. unfold clear_forces. apply (ok_each (fun v => exists b', w_bodies v i = Some b' /\ (b' = b \/ b' = set_b_torque #0 (set_b_force vzero b))%num)); [|exists b; auto].
    intros o v _ (b' & Hv & Cb). unfold mod_body. apply ok_bind, ok_eq. intros x Hx. apply get_in in Hx. apply ok_ok. cbn. unfold WorldModel.put. destruct (Nat.eqb_spec i o) as [<-|]; [|eauto]. assert (x = b') by congruence. subst x. eexists. split; [reflexivity|]. right. destruct Cb as [-> | ->]; reflexivity.
  Qed.
  Context {J : Type} (su : setup T J).
  Hypothesis CS : solves_as_code su E.
  Hypothesis EA : answers E.
  Lemma lone_solve b dt w : K i False b w -> ready b -> ok (solve E dt w) (fun w' => exists b', w_bodies w' i = Some b' /\ flown su dt b b').
  Proof.
    intros H Rd. unfold solve. cbv zeta. apply ok_bind. eapply ok_mono; [exact (K_clear i False b w H)|]. intros w3 H3. apply ok_bind. eapply ok_mono; [apply (K_seeds E i False su CS (mod_flags (set_fl_island false) b) _ dt w3 H3); [exact Rd|reflexivity]|]. intros w4 (b' & H4 & F4 & C4).
    apply ok_bind. eapply ok_mono; [exact (K_moved i False b' w4 H4)|]. intros w5 H5. eapply ok_mono; [apply (drift_find b'); exists []; rewrite (proj1 H5); destruct b'; cbn in *; subst; reflexivity|].
    intros w6 (l & H6). eexists. split; [exact H6|]. exact F4.
  Qed.
  Lemma front_switches w w2 : wreach E w -> step_front E w = Ok w2 -> W True any w2 /\ w_step_complete w2 = w_step_complete w /\ w_continuous w2 = w_continuous w.
  Proof.
    intros H. pose proof (reach_W E EA w H) as H0. unfold step_front. intros R. apply bind_ok in R as (w1 & R1 & R2).
    assert (X : W True any w1 /\ w_step_complete w1 = w_step_complete w /\ w_continuous w1 = w_continuous w).
    { destruct (w_new_contacts w); [|injection R1 as <-; auto]. apply bind_ok in R1 as (w0 & R0 & [= <-]). destruct (done _ _ _ (sat_find True any E w H0 (CT w)) R0) as (H1 & G1 & _). apply still_grow in G1. destruct G1 as (Q & _). unfold switches in Q. split; [eapply W_frame0; eauto|]. cbn. split; congruence. }
    destruct X as (H1 & X1 & X2). assert (H1' : W True any (set_w_locked true w1)) by (eapply W_frame0; eauto). destruct (done _ _ _ (sat_collide True any E (env_any E EA) _ H1') R2) as (H2 & (Q & _) & _). unfold switches in Q. cbn in Q. split; [exact H2|]. split; congruence.
  Qed.
  Theorem lone_step dt w w2 w' b : wreach E w -> w_step_complete w = true -> w_continuous w = false -> nlt (nofZ 0) dt = true -> step_front E w = Ok w2 -> w_bodies w2 i = Some b -> ready b -> wrun E (WStep dt) w = Ok w' ->
    exists b', w_bodies w' i = Some b' /\ flown su dt b b'.
  Proof.
    intros H Sc Cn Pd Rf Hb Rd R. cbn in R. rewrite r_step_parts, Rf in R. cbn [bind] in R. unfold step_back in R. destruct (front_switches w w2 H Rf) as (H2 & S2 & C2). rewrite Pd, S2, Sc in R. cbn [andb] in R. apply bind_ok in R as (w3 & R3 & R).
    destruct (done _ _ _ (sat_solve True any E (env_any E EA) w2 H2 dt (CT w2)) R3) as (_ & (Q & _) & _). unfold switches in Q. assert (C3 : w_continuous w3 = false) by congruence. rewrite C3 in R. cbn [andb bind] in R.
    assert (K2 : K i False b w2). { split; [exact Hb|]. split; [|split; [intros []|split; [|intros []]]]. - eapply unlinked; [exact (contact_graph_ok True any w2 H2)|exact (joint_graph_ok True any w2 H2)|exact Hb|apply Rd|apply Rd]. - eapply in_list; [exact (fixture_graph_ok True any w2 H2)|exact Hb]. }
    destruct (lone_solve b dt w2 K2 Rd w3 R3) as (b' & H3 & F3). cbv zeta in R. apply bind_ok in R as (w4 & R4 & [= <-]). destruct (w_clear_forces _); [|injection R4 as <-; exists b'; now split].
    assert (H3' : w_bodies (set_w_inv_dt0 (ndiv (nofZ 1) dt) w3) i = Some b') by exact H3. destruct (forces_own b' _ H3' w4 R4) as (b'' & H4 & Cb). exists b''. split; [exact H4|]. eapply flown_forces; eauto.
  Qed.
  (** ** many steps *)
  Lemma bare_K w b : wreach E w -> w_sub_stepping w = false -> w_step_complete w = true -> w_bodies w i = Some b -> bare i w -> b_joints b = [] -> K i True b w /\ b_contacts b = [].
  Proof.
    intros H Ss Sc Hb Br Jo. pose proof (bare_contacts w b (r_contact_graph E EA w H) Hb Br) as Co. split; [|exact Co]. split; [exact Hb|]. split; [eapply unlinked; [exact (r_contact_graph E EA w H)|exact (r_joint_graph E EA w H)|exact Hb|exact Co|exact Jo]|].
    split; [auto|]. split; [exact (in_list w b (r_fixture_graph E EA w H) Hb)|auto].
  Qed.
End Links.

Local Open Scope R_scope.
Lemma flown_flies {J} (su : setup R J) dt b b' : flown su dt b b' -> flies (su_gravity su) dt b b'.
Proof.
  intros (_ & Hc & Ha & Hv & _ & _). unfold next_pos, move in Hc, Ha. cbn [p_c p_a body_pos] in Hc, Ha. unfold next_vel in *. set (u := integrate_velocity dt (su_gravity su) b) in *. exists (v_v u), (v_w u), (v_v (cap_velocity dt u)), (v_w (cap_velocity dt u)).
  split; [|split; [|split; [|split; [exact Hc|split; [exact Ha|exact Hv]]]]].
  - unfold free_velocity. subst u. unfold integrate_velocity, is_dynamic. destruct (b_type b); cbn [btype_eqb]; [split; reflexivity|split; reflexivity|]. cbv zeta. cbn [v_v v_w]. rmathc. unfold Rdiv. rewrite !Rmult_1_l. auto.
  - clearbody u. clear. unfold cap_velocity. cbv zeta. cbn [v_v]. destruct u as [[x y] om]. cbn [v_v v_w]. unfold cut_v, way. cbn [vx vy]. unfold B2_MAX_TRANSLATION_SQUARED, B2_MAX_TRANSLATION, B2_LENGTH_UNITS_PER_METER, vlen. rmathc.
    set (t := dt * x * (dt * x) + dt * y * (dt * y)). replace (2 * 1 * (2 * 1)) with 4 by ring. replace (2 * 1) with 2 by ring. split.
    + intros L. now rewrite Rlt_bool_false by lra.
    + intros L. rewrite Rlt_bool_true by lra. assert (P : 0 < sqrt t) by (apply sqrt_lt_R0; lra). assert (S : sqrt t * sqrt t = t) by (apply sqrt_sqrt; lra). exists (2 / sqrt t). split; [apply Rdiv_lt_0_compat; lra|]. split; [apply vec2_ext; cbn [vx vy]; ring|]. cbn [vx vy].
      transitivity (t / (sqrt t * sqrt t) * 4); [subst t; field; lra|]. rewrite S. field. lra.
  - clearbody u. clear. unfold cap_velocity. cbv zeta. cbn [v_w]. destruct u as [v om]. cbn [v_v v_w]. unfold cut_w. assert (M : 0 < (B2_MAX_ROTATION : R)) by (unfold B2_MAX_ROTATION, nlit; rops; pose proof PI_RGT_0; lra). unfold B2_MAX_ROTATION_SQUARED. set (mx := B2_MAX_ROTATION) in *. clearbody mx. rops. set (r := dt * om).
    assert (Q : Rabs r * Rabs r = r * r) by (rewrite <- Rabs_mult, Rabs_pos_eq; nra). pose proof (Rabs_pos r). split.
    + intros L. rewrite Rlt_bool_false; [reflexivity|]. nra.
    + intros L. rewrite Rlt_bool_true by nra. exists (mx / Rabs r). split; [apply Rdiv_lt_0_compat; lra|]. split; [ring|]. replace (dt * (om * (mx / Rabs r))) with (r * (mx / Rabs r)) by (subst r; ring). rewrite Rabs_mult, (Rabs_pos_eq (mx / Rabs r)) by (apply Rlt_le, Rdiv_lt_0_compat; lra). field. lra.
Qed.
Lemma pos_R (x : R) : 0 < x -> nlt (nofZ 0) x = true.
Proof. intros H. rops. now apply Rlt_bool_true. Qed.
(* nothing but gravity acts on the body, and it is never cut *)
Section Fall.
  Variables (E : env R) (J : Type) (su : setup R J) (i : nat) (h : R).
  Hypothesis (CS : solves_as_code su E) (EA : answers E) (Hh : 0 < h).
  Theorem lone_flies w w2 w' b : wreach E w -> w_step_complete w = true -> w_continuous w = false -> step_front E w = Ok w2 -> w_bodies w2 i = Some b -> moving b -> b_contacts b = [] -> b_joints b = [] -> wrun E (WStep h) w = Ok w' ->
    exists b', w_bodies w' i = Some b' /\ flies (su_gravity su) h b b'.
  Proof. intros H Sc Cn Rf Hb (Aw & En & St) Co Jo R. destruct (lone_step E i su CS EA h w w2 w' b H Sc Cn (pos_R h Hh) Rf Hb) as (b' & Hb' & F); auto; [|exists b'; split; [exact Hb'|exact (flown_flies su h b b' F)]]. repeat split; auto. unfold is_static. now destruct (b_type b). Qed.
  Theorem bare_flies w w' b : wreach E w -> w_sub_stepping w = false -> w_step_complete w = true -> w_bodies w i = Some b -> moving b -> no_fixture w i -> b_joints b = [] -> wrun E (WStep h) w = Ok w' ->
    exists b', w_bodies w' i = Some b' /\ flies (su_gravity su) h b b'.
  Proof.
    intros H Ss Sc Hb (Aw & En & St) Nf Jo R. destruct (bare_K E i EA w b H Ss Sc Hb Nf Jo) as (Kb & Co). destruct (bare_step E i True su CS Logic.I b h w w' Kb) as (b' & K' & F & _); auto using pos_R; [|exists b'; split; [exact (proj1 K')|exact (flown_flies su h b b' F)]]. repeat split; auto. unfold is_static. now destruct (b_type b).
  Qed.
  Lemma not_yet : ((nofZ 0 : R) >=? B2_TIME_TO_SLEEP)%num = false.
  Proof. unfold B2_TIME_TO_SLEEP, nlit. rops. apply Rle_bool_false. lra. Qed.
  Definition at_fall (b0 : body R) (n : nat) (b : body R) : Prop :=
    lasting b = lasting b0 /\ is_awake b = true /\ b_force b = V2 0 0 /\ b_torque b = 0 /\ b_contacts b = [] /\ fallen (su_gravity su) h b0 n b.
  Lemma fall_next b0 n b b' : b_type b0 = DynamicBody -> free_fall (su_gravity su) h (S n) b0 -> at_fall b0 n b -> flown su h b b' -> b_contacts b' = [] -> fl_auto_sleep (b_flags b0) = false -> at_fall b0 (S n) b'.
  Proof.
    intros Ty (Li & Ag & F0 & T0 & Sp & Ro) (L & Aw & Fo & To & Co & (Fv & Fw & Fc & Fa)) (L' & Hc & Ha & Hv & (U1 & U2) & Aw') Co' Au.
    assert (Aw2 : is_awake b' = true) by (apply Aw'; [unfold lasting in L; congruence|exact not_yet]). destruct (Hv Aw2) as (Hv1 & Hv2).
    assert (Ty' : b_type b = DynamicBody) by (unfold lasting in L; congruence). assert (E1 : b_inv_mass b = b_inv_mass b0) by (unfold lasting in L; congruence). assert (E2 : b_mass b = b_mass b0) by (unfold lasting in L; congruence). assert (E3 : b_linear_damping b = 0) by (unfold lasting in L; congruence).
    assert (E4 : b_angular_damping b = 0) by (unfold lasting in L; congruence). assert (E5 : b_gravity_scale b = b_gravity_scale b0) by (unfold lasting in L; congruence).
    assert (V : integrate_velocity h (su_gravity su) b = Vel (falling_v (su_gravity su) h b0 (S n)) (b_av b0)).
    { unfold integrate_velocity, is_dynamic. rewrite Ty', E1, E2, E3, E4, E5, Fo, To, Fv, Fw. cbn [btype_eqb]. cbv zeta. unfold falling_v. rewrite S_INR. f_equal.
      - unfold pull. apply vec2_ext; rmathc; field.
      - rops. field. }
    assert (Cap : cap_velocity h (Vel (falling_v (su_gravity su) h b0 (S n)) (b_av b0)) = Vel (falling_v (su_gravity su) h b0 (S n)) (b_av b0)).
    { unfold cap_velocity. cbv zeta. cbn [v_v v_w]. pose proof (Sp (S n) (le_n _)) as Wy. unfold way in Wy. unfold B2_MAX_TRANSLATION_SQUARED, B2_MAX_TRANSLATION, B2_LENGTH_UNITS_PER_METER. set (fv := falling_v _ _ _ _) in *. clearbody fv. rmathc. rewrite Rlt_bool_false by lra.
      assert (M : 0 < (B2_MAX_ROTATION : R)) by (unfold B2_MAX_ROTATION, nlit; rops; pose proof PI_RGT_0; lra). unfold B2_MAX_ROTATION_SQUARED. rops. set (mx := B2_MAX_ROTATION) in *. clearbody mx. set (r := h * b_av b0) in *. assert (Q : Rabs r * Rabs r = r * r) by (rewrite <- Rabs_mult, Rabs_pos_eq; nra). pose proof (Rabs_pos r). rewrite Rlt_bool_false by nra. reflexivity. }
    unfold next_pos, next_vel in *. rewrite V, Cap in *. cbn [v_v v_w move p_c p_a body_pos] in *.
    split; [congruence|]. split; [exact Aw2|]. split; [destruct U1 as [-> | ->]; [exact Fo|reflexivity]|]. split; [destruct U2 as [-> | ->]; [exact To|reflexivity]|]. split; [exact Co'|].
    split; [exact Hv1|]. split; [exact Hv2|]. rewrite Hc, Ha, Fc, Fa, S_INR. split; [|rops; ring]. unfold falling_v. rewrite S_INR. apply vec2_ext; rmathc; field.
  Qed.
  Theorem bare_falls n w w' b : wreach E w -> w_sub_stepping w = false -> w_step_complete w = true -> w_bodies w i = Some b -> moving b -> b_type b = DynamicBody -> no_fixture w i -> b_joints b = [] -> fl_auto_sleep (b_flags b) = false ->
    free_fall (su_gravity su) h n b -> steps E h n w w' -> exists b', w_bodies w' i = Some b' /\ fallen (su_gravity su) h b n b'.
  Proof.
    intros H Ss Sc Hb (Aw & En & St) Ty Nf Jo Au Ff St'. destruct (bare_K E i EA w b H Ss Sc Hb Nf Jo) as (Kb & Co).
    assert (X : exists b', K i True b' w' /\ at_fall b n b'); [|destruct X as (b' & K' & A); exists b'; split; [apply K'|apply A]].
    clear H Ss Sc Hb Nf. induction St' as [w|n w v w' St' IH R].
    - exists b. split; [exact Kb|]. destruct Ff as (Li & Ag & F0 & T0 & Sp & Ro). repeat (split; [assumption || reflexivity|]). unfold fallen, falling_v. change (INR 0) with 0. split; [apply vec2_ext; cbn [vx vy]; ring|]. split; [reflexivity|]. split; [apply vec2_ext; cbn [vx vy]; field|ring].
    - destruct IH as (b1 & K1 & A1); auto. { destruct Ff as (Li & Ag & F0 & T0 & Sp & Ro). repeat (split; [assumption|]). split; [|assumption]. intros k Hk. apply Sp. lia. }
      assert (L1 : lasting b1 = lasting b) by apply A1. assert (Rd : ready b1).
      { split; [apply A1|]. unfold lasting in L1. split; [unfold is_enabled in *; congruence|]. split; [unfold is_static; replace (b_type b1) with (b_type b) by congruence; now rewrite Ty|]. split; [apply A1|congruence]. }
      destruct (bare_step E i True su CS Logic.I b1 h v w' K1 Rd (pos_R h Hh) R) as (b' & K' & F & Co'). exists b'. split; [exact K'|]. eapply fall_next; eauto.
  Qed.
End Fall.
