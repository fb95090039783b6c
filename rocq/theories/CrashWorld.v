(** The step with the island solver of the code is the step with any solver that agrees with it where it returns. *)
From Coq Require Import List ZArith Bool Arith Lia.
From Verif Require Import Base Num NumLaws Math Collision Manifold Filter ShapeModel ListFacts TreeModel BroadModel DynModel SolverModel IslandModel WorldModel WorldGraph WorldSpec WorldLogic WorldPhys WorldContact WorldInv WorldIsland WorldSolve WorldToi WorldStep WorldClaims WorldCalls WorldHist WorldFinal WorldAfter WorldReach SafeSpec WorldSafe NarrowModel SolverSpec SolverProofs SolverTotal SolveModel CrashSpec CrashProofs.
Import ListNotations.

Lemma each_same {A S} (I : list A -> S -> Prop) (f g : A -> S -> res S) l : (forall d x r s, l = d ++ x :: r -> I d s -> f x s = g x s /\ okp (g x s) (I (d ++ [x]))) -> forall s, I [] s -> each f l s = each g l s.
Proof.
  intros H. assert (G : forall r d s, l = d ++ r -> I d s -> each f r s = each g r s).
  { induction r as [|x r IH]; intros d s E Is; cbn [each]; auto. destruct (H d x r s E Is) as [-> K]. destruct (g x s) as [s1| |] eqn:R; cbn [bind]; auto. apply (IH (d ++ [x])); [now rewrite <- app_assoc|]. now apply K. }
  intros s Is. now apply (G l []).
Qed.
Lemma each_agree {A S} (f g : A -> S -> res S) : (forall x s s', f x s = Ok s' -> g x s = Ok s') -> forall l s s', each f l s = Ok s' -> each g l s = Ok s'.
Proof. intros H. induction l as [|x l IH]; intros s s'; cbn [each]; auto. intros R. apply bind_ok in R as (s1 & R1 & R). rewrite (H _ _ _ R1). cbn [bind]. auto. Qed.

Section Seed.
  Context {T : Type} `{NT : Num T} `{TT : NumTrig T} `{VT : NumValid T}.
  Notation world := (world T).
  Implicit Types w : world.
  Notation p := True.
  Notation oks := any.
  Variable w0 : world.
  Hypothesis W0 : W p oks w0.
  Notation phys := (phys p oks w0).
  Notation seeds := (seeds p oks w0).
  Notation island_ends := (island_ends w0).
  Notation island_jends := (island_jends w0).

  (* the island that was found is the one of the claim C30 *)
  Lemma seed_island ini iss d w1 seed b w2 is : seeds ini iss d w1 -> w_bodies w1 seed = Some b -> is_awake b = true -> is_enabled b = true -> is_static b = false -> fl_island (b_flags b) = false ->
    D w1 (fun _ => False) seed w2 is [] -> island_from w0 seed is.
  Proof.
    intros H Hb Eaw Een Est Ef D2. pose proof (se_phys _ _ _ _ _ _ _ H) as P1. pose proof P1 as (L1 & _).
    assert (Mb : moving w0 seed = true) by (rewrite <- (moving_links _ _ _ L1); unfold moving; now rewrite Hb, Est).
    assert (Eb : enabled_at w0 seed = is_enabled b) by (rewrite <- (enabled_links _ _ _ L1); unfold enabled_at; now rewrite Hb).
    assert (Fb : bflag w1 seed = fl_island (b_flags b)) by (unfold bflag; now rewrite Hb).
    assert (Ab : awake_at w1 seed = is_awake b) by (unfold awake_at; now rewrite Hb).
    assert (Mw : awake_at w0 seed = is_awake b) by (rewrite <- Ab; symmetry; apply (se_awake _ _ _ _ _ _ _ H); congruence).
    (* the island in terms of the first world *)
    assert (So1 : forall c, solid w1 c = true -> cflag w1 c = false -> solid w0 c = true) by (intros c A B; now rewrite <- (se_solid _ _ _ _ _ _ _ H c B)).
    assert (So2 : forall c, solid w1 c = true -> solid w0 c = true).
    { intros c A. destruct (cflag w1 c) eqn:B; auto. apply (se_cflag _ _ _ _ _ _ _ H) in B. destruct B as (is0 & I0 & I0'). destruct (se_spec _ _ _ _ _ _ _ H is0 I0) as (s0 & F0). now apply (if_contacts _ _ _ F0) in I0'. }
    assert (In1 : forall i, In i (is_bodies is) -> bflag w1 i = false /\ enabled_at w0 i = true /\ conn w1 seed i).
    { intros i Hi. destruct (D_in _ _ _ _ _ _ D2 i) as (A & B & Z); [apply in_app_iff; auto|]. rewrite (enabled_links _ _ _ L1) in B. auto. }
    assert (Out : forall i is0, moving w0 i = true -> In is0 iss -> In i (is_bodies is0) -> bflag w1 i = true) by (intros i is0 A B Z; apply (se_flag _ _ _ _ _ _ _ H); eauto).
    assert (Cn1 : forall i, conn w1 seed i -> conn w0 seed i).
    { induction 1 as [|i o _ IH Mi Lk]; [constructor|]. rewrite (moving_links _ _ _ L1) in Mi. apply (conn_step w0 seed i); auto. destruct Lk as [(c & s & A & B & Z)|(j & s & A & B & Z)].
      - left. exists c, s. rewrite !(cbody_links _ _ _ _ L1) in *. auto.
      - right. exists j, s. rewrite !(jbody_links _ _ _ _ L1), (enabled_links _ _ _ L1) in *. auto. }
    (* solid contacts and joints of a moving member are in the island *)
    assert (Cin : forall i c s, In i (is_bodies is) -> moving w0 i = true -> cbody (graph_of w0) c s = Some i -> solid w0 c = true -> In c (is_contacts is)).
    { intros i c s Ii Mi Ci Sc. destruct (In1 i Ii) as (F1 & _ & _). assert (cflag w1 c = false) as Fc.
      { destruct (cflag w1 c) eqn:Q; auto. apply (se_cflag _ _ _ _ _ _ _ H) in Q. destruct Q as (is0 & I0 & I0'). destruct (se_spec _ _ _ _ _ _ _ H is0 I0) as (s0 & F0). pose proof (island_ends _ _ _ _ _ F0 I0' Ci) as K. pose proof (Out i is0 Mi I0 K). congruence. }
      pose proof (D_cclosed _ _ _ _ _ _ D2 i c s Ii (fun x => x)) as K. rewrite (moving_links _ _ _ L1), (cbody_links _ _ _ _ L1), (se_solid _ _ _ _ _ _ _ H c Fc) in K. specialize (K Mi Ci Sc). apply (D_cflag _ _ _ _ _ _ D2) in K. destruct K; congruence. }
    assert (Jin : forall i j s o, In i (is_bodies is) -> moving w0 i = true -> jbody (graph_of w0) j s = Some i -> jbody (graph_of w0) j (negb s) = Some o -> enabled_at w0 o = true -> In j (is_joints is)).
    { intros i c s o Ii Mi Ci Co Eo. destruct (In1 i Ii) as (F1 & _ & _). assert (jflag w1 c = false) as Fc.
      { destruct (jflag w1 c) eqn:Q; auto. apply (se_jflag _ _ _ _ _ _ _ H) in Q. destruct Q as (is0 & I0 & I0'). destruct (se_spec _ _ _ _ _ _ _ H is0 I0) as (s0 & F0). pose proof (island_jends _ _ _ _ _ F0 I0' Ci) as K. pose proof (Out i is0 Mi I0 K). congruence. }
      pose proof (D_jclosed _ _ _ _ _ _ D2 i c s o Ii (fun x => x)) as K. rewrite (moving_links _ _ _ L1), !(jbody_links _ _ _ _ L1), (enabled_links _ _ _ L1) in K. specialize (K Mi Ci Co Eo). apply (D_jflag _ _ _ _ _ _ D2) in K. destruct K; congruence. }
    assert (Bex : forall k, bflag w2 k = true -> (forall is0, In is0 iss -> moving w0 k = true -> In k (is_bodies is0) -> False) -> In k (is_bodies is)).
    { intros k K1 K2. apply (D_flag _ _ _ _ _ _ D2) in K1. rewrite app_nil_r in K1. destruct K1 as [K1|K1]; auto. apply (se_flag _ _ _ _ _ _ _ H) in K1. destruct K1 as (M & is0 & I0 & I0'). exfalso. eauto. }
    split.
      - refine (conj Mb (conj _ _)); [congruence|]. congruence.
      - refine (conj _ (conj (D_cnodup _ _ _ _ _ _ D2) (D_jnodup _ _ _ _ _ _ D2))). pose proof (D_nodup _ _ _ _ _ _ D2) as Q. now rewrite app_nil_r in Q.
      - intros i. split; [intros Hi; apply Cn1; now apply In1|]. induction 1 as [|i o _ IH Mi Lk]; [pose proof (D_seed _ _ _ _ _ _ D2) as Q; now rewrite app_nil_r in Q|].
        destruct (In1 i IH) as (F1 & Ei & _). destruct Lk as [(c & s & A & B & Z)|(j & s & A & B & Z)].
        + pose proof (Cin i c s IH Mi B A) as K. destruct (D_cin _ _ _ _ _ _ D2 c K) as (_ & _ & Q). apply Bex; [apply (Q (negb s)); now rewrite (cbody_links _ _ _ _ L1)|].
          intros is0 I0 Mo Io. destruct (se_spec _ _ _ _ _ _ _ H is0 I0) as (s0 & F0). assert (In i (is_bodies is0)) as K0; [|pose proof (Out i is0 Mi I0 K0); congruence].
          apply (if_bodies _ _ _ F0). apply (conn_step w0 s0 o); auto; [now apply (if_bodies _ _ _ F0)|]. left. exists c, (negb s). rewrite negb_involutive. auto.
        + pose proof (Jin i j s o IH Mi A B Z) as K. destruct (D_jin _ _ _ _ _ _ D2 j K) as (_ & _ & Q). apply Bex; [apply (Q (negb s)); now rewrite (jbody_links _ _ _ _ L1)|].
          intros is0 I0 Mo Io. destruct (se_spec _ _ _ _ _ _ _ H is0 I0) as (s0 & F0). assert (In i (is_bodies is0)) as K0; [|pose proof (Out i is0 Mi I0 K0); congruence].
          apply (if_bodies _ _ _ F0). apply (conn_step w0 s0 o); auto; [now apply (if_bodies _ _ _ F0)|]. right. exists j, (negb s). rewrite negb_involutive. auto.
      - intros i Hi. now apply In1.
      - intros c. split.
        + intros Hc. destruct (D_cin _ _ _ _ _ _ D2 c Hc) as (_ & So & _). split; auto. destruct (D_cend _ _ _ _ _ _ D2 c Hc) as (s & i & A & B & Z). exists s, i. rewrite (cbody_links _ _ _ _ L1) in A. rewrite (moving_links _ _ _ L1) in B. auto.
        + intros (So & s & i & A & B & Z). eauto.
      - intros j. split.
        + intros Hj. destruct (D_jin _ _ _ _ _ _ D2 j Hj) as (_ & Lj & So). destruct (D_jend _ _ _ _ _ _ D2 j Hj) as (s & i & A & B & Z). rewrite (jbody_links _ _ _ _ L1) in A. rewrite (moving_links _ _ _ L1) in B.
          assert (exists o, jbody (graph_of w0) j (negb s) = Some o) as (o & Ho). { unfold jbody in A |- *. destruct (g_j (graph_of w0) j); [|easy]. destruct s; cbn; eauto. }
          exists s, i, o. refine (conj A (conj B (conj Z (conj Ho _)))). rewrite <- (enabled_links _ _ _ L1). apply (So (negb s)). now rewrite (jbody_links _ _ _ _ L1).
        + intros (s & i & o & A & B & Z & K1 & K2). eauto.
  Qed.
End Seed.

(** ** what the step keeps until the island of a contact is solved *)
Section Keep.
  Context {T : Type} `{NT : Num T} `{TT : NumTrig T} `{VT : NumValid T}.
  Notation world := (world T).
  Implicit Types w : world.
  Definition rate w w' : Prop := w_inv_dt0 w' = w_inv_dt0 w.
  Lemma rate_body i f w : okp (mod_body i f w) (rate w).
  Proof. unfold mod_body. apply okp_skip. intros b. now apply okp_ok. Qed.
  Lemma rate_contact i f w : okp (mod_contact i f w) (rate w).
  Proof. unfold mod_contact. apply okp_skip. intros b. now apply okp_ok. Qed.
  Lemma rate_joint i f w : okp (mod_joint i f w) (rate w).
  Proof. unfold mod_joint. apply okp_skip. intros b. now apply okp_ok. Qed.
  Lemma rate_each {A} (f : A -> world -> res world) : (forall x w, okp (f x w) (rate w)) -> forall l w, okp (each f l w) (rate w).
  Proof. intros H l w. apply (okp_each (rate w)); [|reflexivity]. intros x s Q s' R. apply H in R. unfold rate in *. congruence. Qed.
  Lemma rate_bind (m : res world) (f : world -> res world) w : okp m (rate w) -> (forall v, okp (f v) (rate v)) -> okp (bind m f) (rate w).
  Proof. intros H K. apply okp_bind. intros v R. apply H in R. intros v' R'. apply K in R'. unfold rate in *. congruence. Qed.
  Lemma rate_clear w : okp (clear_island_flags w) (rate w).
  Proof. unfold clear_island_flags. apply rate_bind; [apply rate_each; intros; apply rate_body|]. intros v. apply rate_bind; [apply rate_each; intros; apply rate_contact|]. intros u. apply rate_each. intros. apply rate_joint. Qed.
  Lemma rate_island E is dt w : okp (solve_island E is dt w) (rate w).
  Proof.
    unfold solve_island. apply okp_skip. intros s. cbv zeta. assert (K : forall m, okp m (rate (log (EvIsland (is_bodies is) (is_contacts is) (is_joints is)) w)) -> okp m (rate w)) by (intros m H v R; exact (H v R)). apply K.
    apply rate_bind; [apply rate_each; intros; apply rate_contact|]. intros v. apply rate_bind; [apply rate_each; intros; apply rate_body|]. intros v1. apply rate_bind.
    { unfold report. destruct (w_listener v1); [|now apply okp_ok]. apply rate_each. intros c u. unfold listen. apply okp_skip. intros x. now apply okp_ok. }
    intros v2. destruct (w_allow_sleep v2); [|now apply okp_ok]. apply rate_bind; [apply rate_each; intros; apply rate_body|]. intros v3. destruct (so_sleep s); [|now apply okp_ok]. apply rate_each. intros. apply rate_body.
  Qed.
  Lemma contacts_each {A} (f : A -> nat) (g : A -> body T -> body T) l w : okp (each (fun x => mod_body (f x) (g x)) l w) (fun w' => w_contacts w' = w_contacts w).
  Proof. apply (okp_each (fun w' => w_contacts w' = w_contacts w)); [|reflexivity]. intros x s Q. unfold mod_body. apply okp_skip. intros b. now apply okp_ok. Qed.
End Keep.

(** ** the solver returns for the islands of the step *)
Section Same.
  Local Open Scope num_scope.
  Context {T : Type} {NT : Num T} {OT : NumOrd T} {TT : NumTrig T} {VT : NumValid T} {J : Type} (su : setup T J) (good : nat -> J -> Prop).
  Notation world := (world T).
  Implicit Types w : world.
  Hypothesis JR : joints_return su good.
  Variable E : env T.
  Hypothesis EA : answers E.
  Hypothesis SC : solves_as_code su E.
  Notation EO := (env_any E EA).

  Lemma code_returns w is dt : (forall i, In i (is_bodies is) -> w_bodies w i <> None) -> indexed w is -> (forall j, In j (is_joints is) -> joint_inside w is j) ->
    (forall c, In c (is_contacts is) -> exists x fa fb a b, w_contacts w c = Some x /\ w_fixtures w (c_fa x) = Some fa /\ w_fixtures w (c_fb x) = Some fb /\ f_body fa = Some a /\ f_body fb = Some b /\ In a (is_bodies is) /\ In b (is_bodies is) /\
      (mf_count (c_manifold x) = 1 \/ mf_count (c_manifold x) = 2)%nat /\ length (mf_points (c_manifold x)) = 2%nat /\
      (su_warm su = true -> Forall (fun p => nonneg ((w_inv_dt0 w * dt) * mp_normal_impulse p)) (firstn (mf_count (c_manifold x)) (mf_points (c_manifold x))))) ->
    exists s, code_solve su w is dt = Ok s.
  Proof.
    intros Lb Ix Ji Co. unfold code_solve.
    destruct (map_res_total (fun i => In i (is_bodies is)) (fun _ => True) (get_body w) (is_bodies is)) as (bodies & Rb & _ & Ln); [|apply Forall_forall; auto|].
    { intros i Hi. apply Lb in Hi. unfold get_body. destruct (w_bodies w i) as [b|]; [|easy]. exists b. auto. }
    rewrite Rb. cbn [bind].
    assert (Id : forall a ba, In a (is_bodies is) -> w_bodies w a = Some ba -> (0 <= b_island_index ba < Z.of_nat (length bodies))%Z).
    { intros a ba Ha Hba. destruct (In_nth_error _ _ Ha) as (n & Hn). destruct (Ix n a Hn) as (b' & Hb' & Q). assert (b' = ba) by congruence. subst b'. assert (n < length (is_bodies is)) by (apply nth_error_Some; congruence). lia. }
    destruct (map_res_total (fun c => In c (is_contacts is)) (solvable (length bodies) (the_step su dt w)) (contact_input w) (is_contacts is)) as (cins & -> & Fc & _); [|apply Forall_forall; auto|].
    { intros c Hc. destruct (Co c Hc) as (x & fa & fb & a & b & Hx & Hfa & Hfb & Ha & Hb & Ia & Ib & Mc & Ml & Mn). unfold contact_input, contact_ends, get_contact, get_fixture, get_body. rewrite Hx. cbn [unwrap bind]. rewrite Hfa, Hfb. cbn [unwrap bind]. rewrite Ha, Hb. cbn [unwrap bind].
      pose proof (Lb a Ia) as La. pose proof (Lb b Ib) as Lb'. destruct (w_bodies w a) as [ba|] eqn:Hba; [|easy]. destruct (w_bodies w b) as [bb|] eqn:Hbb; [|easy]. cbn [unwrap bind]. eexists. split; [reflexivity|].
      unfold solvable. cbn [ci_a ci_b ci_contact]. refine (conj (Id a ba Ia Hba) (conj (Id b bb Ib Hbb) (conj Mc (conj Ml _)))). exact Mn. }
    cbn [bind].
    destruct (island_returns (su_js su) good (jr_init su good JR) (jr_vel su good JR) (jr_pos su good JR) (su_block su) (the_step su dt w) (su_gravity su) bodies cins (map (su_joint su w) (is_joints is)) Fc) as (r & -> & _).
    { rewrite Ln. apply Forall_map, Forall_forall. intros j Hj. apply (jr_start su good JR); auto. }
    cbn [bind]. destruct (sleep_bodies _ _ _) as [slept mt]. eauto.
  Qed.

  Variable w0 : world.
  Hypothesis W0 : W True any w0.
  Variable dt : T.
  Hypothesis WK : forall c, workable su dt w0 c.
  Notation seeds := (seeds True any w0).
  Definition kept w : Prop := rate w0 w /\ forall c, cflag w c = false -> option_map (cstrip (T:=T)) (w_contacts w c) = option_map cstrip (w_contacts w0 c).

  Lemma found_returns ini iss d w1 seed b w2 is : seeds ini iss d w1 -> kept w1 -> w_bodies w1 seed = Some b -> is_awake b = true -> is_enabled b = true -> is_static b = false -> fl_island (b_flags b) = false ->
    D w1 (fun _ => False) seed w2 is [] -> exists s, code_solve su w2 is dt = Ok s.
  Proof.
    intros H (Rt & Kc) Hb Aw En St Fl D2. pose proof (se_phys _ _ _ _ _ _ _ H) as P1. pose proof P1 as (L1 & _).
    pose proof (seed_island w0 _ _ _ _ _ _ _ _ H Hb Aw En St Fl D2) as Is. pose proof (D_phys True any w0 _ _ _ _ _ _ P1 D2) as P2. pose proof P2 as (L2 & _). pose proof (W_phys _ _ _ _ W0 P2) as W2.
    apply code_returns.
    - intros i Hi. destruct (In_nth_error _ _ Hi) as (n & Hn). destruct (D_index _ _ _ _ _ _ D2 n i Hn) as (x & Hx & _). congruence.
    - intros n i Hn. exact (D_index _ _ _ _ _ _ D2 n i Hn).
    - intros j Hj. destruct (D_jin _ _ _ _ _ _ D2 j Hj) as (_ & Lj & _). pose proof (D_joints _ _ _ _ _ _ D2 j) as Q. destruct (w_joints w2 j) as [x|] eqn:Ex; [|destruct (w_joints w1 j); easy]. exists x. refine (conj Ex _).
      assert (Jb : forall s, jbody (graph_of w0) j s = Some (if s then j_a x else j_b x)). { intros s. rewrite <- (jbody_links _ _ _ _ L2). unfold jbody. cbn. rewrite Ex. now destruct s. }
      split; [apply (island_jends w0 seed is j true)|apply (island_jends w0 seed is j false)]; auto; apply Jb.
    - intros c Hc. destruct (D_cin _ _ _ _ _ _ D2 c Hc) as (Fc & So & _). specialize (Kc c Fc). pose proof (D_contacts _ _ _ _ _ _ D2 c) as Q. destruct (w_contacts w2 c) as [x|] eqn:Ex; [|unfold solid in So; destruct (w_contacts w1 c); easy].
      destruct (w_contacts w1 c) as [x1|] eqn:Ex1; [|easy]. destruct (w_contacts w0 c) as [x0|] eqn:Ex0; [|easy]. cbn [option_map] in Q, Kc. assert (Sx : cstrip x = cstrip x0) by congruence.
      destruct (cstrip_view _ _ Sx) as (_ & En' & To & Fa & Fb & Mf & _).
      pose proof (proj1 (if_contacts _ _ _ Is c) Hc) as (So0 & _).
      destruct (W_graph _ _ _ W2) as (_ & _ & (_ & (_ & _ & Ends) & _) & _). destruct (Ends c) as (a & b' & Ha & Hb' & _); [cbn; now rewrite Ex|].
      assert (Ia : In a (is_bodies is)) by (apply (island_ends w0 seed is c true a Is Hc); now rewrite <- (cbody_links _ _ _ _ L2)).
      assert (Ib : In b' (is_bodies is)) by (apply (island_ends w0 seed is c false b' Is Hc); now rewrite <- (cbody_links _ _ _ _ L2)).
      unfold cbody, owner in Ha, Hb'. cbn in Ha, Hb'. rewrite Ex in Ha, Hb'. cbn in Ha, Hb'.
      destruct (w_fixtures w2 (c_fa x)) as [fa|] eqn:Hfa; [|discriminate]. destruct (w_fixtures w2 (c_fb x)) as [fb|] eqn:Hfb; [|discriminate]. cbn in Ha, Hb'.
      pose proof (sensor_links _ _ (c_fa x) L2) as Sa. pose proof (sensor_links _ _ (c_fb x) L2) as Sb. rewrite Hfa in Sa. rewrite Hfb in Sb.
      destruct (w_fixtures w0 (c_fa x)) as [ga|] eqn:Hga; [|discriminate]. destruct (w_fixtures w0 (c_fb x)) as [gb|] eqn:Hgb; [|discriminate].
      unfold solid in So0. rewrite Ex0 in So0. rewrite <- Fa, <- Fb, Hga, Hgb in So0.
      assert (Rt2 : w_inv_dt0 w2 = w_inv_dt0 w0) by (rewrite (D_frame _ _ _ _ _ _ D2); exact Rt).
      apply andb_prop in So0. destruct So0 as [So0 Sn]. apply andb_prop in So0. destruct So0 as [Sen Sto]. apply negb_true_iff, orb_false_iff in Sn. destruct Sn as [Sn1 Sn2].
      exists x, fa, fb, a, b'. rewrite Rt2, Mf. repeat (split; [assumption || reflexivity|]). apply (WK c x0 ga gb); auto; congruence.
  Qed.

  Notation Ec := (with_code su E).
  Lemma island_same is w s : code_solve su w is dt = Ok s -> solve_island Ec is dt w = solve_island E is dt w.
  Proof. intros R. unfold solve_island. cbn [e_solve with_code with_solver]. rewrite R, (SC _ _ _ _ R). reflexivity. Qed.

  Lemma seed_kept ini iss d w1 seed cap : seeds ini iss d w1 -> kept w1 -> w_bodies w0 seed <> None ->
    solve_seed Ec cap dt seed w1 = solve_seed E cap dt seed w1 /\ okp (solve_seed E cap dt seed w1) kept.
  Proof.
    intros H K Ls. pose proof (se_phys _ _ _ _ _ _ _ H) as P1. pose proof P1 as (L1 & _). pose proof (W_phys _ _ _ _ W0 P1) as W1. unfold solve_seed, get_body.
    destruct (w_bodies w1 seed) as [b|] eqn:Hb; cbn [unwrap bind]; [|split; [reflexivity|easy]].
    destruct (fl_island (b_flags b)) eqn:Ef; [split; [reflexivity|now apply okp_ok]|]. destruct (is_awake b) eqn:Eaw; cbn [negb orb]; [|split; [reflexivity|now apply okp_ok]].
    destruct (is_enabled b) eqn:Een; cbn [negb]; [|split; [reflexivity|now apply okp_ok]]. destruct (is_static b) eqn:Est; [split; [reflexivity|now apply okp_ok]|].
    pose proof (D_start w1 seed b Hb Ef Een) as D1.
    assert (S : sat True (dfs (Datatypes.S (w_body_count (put_body seed (mod_flags (set_fl_island true) b) w1))) (put_body seed (mod_flags (set_fl_island true) b) w1, Island [] [] [], [seed]))
      (fun q => let '(w', is', st') := q in D w1 (fun _ => False) seed w' is' [] /\ st' = [])).
    { eapply (dfs_ok True w1 (W_graph _ _ _ W1) (W_enabled _ _ _ W1) seed); [exact D1|cbn; lia]. }
    destruct (dfs _ _) as [[[w2 is] st]| |] eqn:Rd; cbn [bind]; [|split; [reflexivity|easy]|easy]. cbn [sat] in S. destruct S as [D2 ->].
    destruct (Nat.leb (length (is_bodies is)) cap); cbn [b2_assert bind]; [|split; [reflexivity|easy]].
    destruct (found_returns _ _ _ _ _ _ _ _ H K Hb Eaw Een Est Ef D2) as (s & Rs). rewrite (island_same is w2 s Rs). split; [reflexivity|].
    assert (P2 : phys True any w0 w2) by (eapply D_phys; eauto). pose proof P2 as (L2 & _).
    assert (Lb : forall i, In i (is_bodies is) -> w_bodies w0 i <> None).
    { intros i Hi. destruct (D_in _ _ _ _ _ _ D2 i) as (_ & En & _); [apply in_app_iff; auto|]. rewrite (enabled_links _ _ _ L1) in En. unfold enabled_at in En. now destruct (w_bodies w0 i). }
    assert (Lc : forall c, In c (is_contacts is) -> w_contacts w0 c <> None).
    { intros c Hc. destruct (D_cin _ _ _ _ _ _ D2 c Hc) as (_ & So & _). apply (links_contact w0 w1 c); auto. unfold solid in So. now destruct (w_contacts w1 c). }
    pose proof (solve_island_ok True any E EO w0 W0 is dt w2 P2 Lb Lc) as Si. apply okp_bind. intros w3 R3. rewrite R3 in Si. cbn [sat] in Si. pose proof (rate_island E is dt w2 w3 R3) as Rt3.
    intros w4 R4. pose proof (contacts_each (fun i => i) (fun _ b => if is_static b then mod_flags (set_fl_island false) b else b) _ _ _ R4) as C4.
    pose proof (rate_each (fun i => mod_body i (fun b => if is_static b then mod_flags (set_fl_island false) b else b)) (fun i w => rate_body i _ w) _ _ _ R4) as Rt4. destruct K as (Rt1 & Kc).
    split.
    - unfold rate in *. rewrite Rt4, Rt3, (D_frame _ _ _ _ _ _ D2). exact Rt1.
    - intros c Fc. rewrite C4. assert (F3 : cflag w2 c = false). { rewrite <- Fc. unfold cflag at 2. rewrite C4. symmetry. exact (in_cflag _ _ _ _ _ _ Si c). }
      assert (Nc : ~ In c (is_contacts is)). { intros Q. assert (cflag w2 c = true) by (apply (D_cflag _ _ _ _ _ _ D2); auto). congruence. }
      rewrite (in_contacts _ _ _ _ _ _ Si c Nc). cbn [log set_w_log w_contacts]. rewrite (D_contacts _ _ _ _ _ _ D2 c). apply Kc. destruct (cflag w1 c) eqn:Q; auto. assert (cflag w2 c = true) by (apply (D_cflag _ _ _ _ _ _ D2); auto). congruence.
  Qed.
  Theorem solve_same : solve Ec dt w0 = solve E dt w0.
  Proof.
    destruct (W_graph _ _ _ W0) as ((Tb & Ib & _) & IF & ((Tc & Ic & _) & _) & ((Tj & Ij & _) & _)). cbn in Ib, Ic, Ij. unfold solve. cbv zeta.
    pose proof (sat_clear True any w0 W0) as Sc. destruct (clear_island_flags w0) as [w1| |] eqn:R1; cbn [bind]; [|reflexivity|reflexivity]. cbn [sat] in Sc. destruct Sc as (P1 & Lg1 & B1 & C1 & Fb & Fc & Fj). pose proof P1 as (L1 & _).
    assert (Bf : forall i, bflag w1 i = false). { intros i. destruct (w_bodies w0 i) as [x|] eqn:Ex; [apply Fb, Ib; cbn; now rewrite Ex|]. unfold bflag. specialize (B1 i). rewrite Ex in B1. now destruct (w_bodies w1 i). }
    assert (Cf : forall i, cflag w1 i = false). { intros i. destruct (w_contacts w0 i) as [x|] eqn:Ex; [apply Fc, Ic; cbn; now rewrite Ex|]. unfold cflag. specialize (C1 i). rewrite Ex in C1. now destruct (w_contacts w1 i). }
    assert (Jf : forall i, jflag w1 i = false). { intros i. destruct (w_joints w0 i) as [x|] eqn:Ex; [apply Fj, Ij; cbn; now rewrite Ex|]. unfold jflag. pose proof L1 as (_ & _ & _ & _ & _ & Q). specialize (Q i). rewrite Ex in Q. now destruct (w_joints w1 i). }
    assert (S1 : seeds w1 [] [] w1).
    { split; auto; try easy.
      - intros i. rewrite Bf. split; [easy|]. now intros (_ & is & [] & _).
      - intros i. rewrite Cf. split; [easy|]. now intros (is & [] & _).
      - intros i. rewrite Jf. split; [easy|]. now intros (is & [] & _).
      - constructor.
      - intros c _. apply solid_eq; auto. intros x x' K1 K2. specialize (C1 c). rewrite K1, K2 in C1. cbn [option_map] in C1. assert (cstrip x' = cstrip x) as Q by congruence. destruct (cstrip_view _ _ Q) as (_ & A & B & _). auto.
      - intros i _ _. unfold awake_at. specialize (B1 i). destruct (w_bodies w1 i) as [x|], (w_bodies w0 i) as [y|]; cbn [option_map] in B1; try easy. assert (mod_flags (set_fl_island false) x = mod_flags (set_fl_island false) y) as Q by congruence. destruct x as [? []], y as [? []]. unfold mod_flags in Q. cbn in Q. unfold is_awake. cbn. now inversion Q. }
    assert (El : w_body_list w1 = w_body_list w0) by (destruct L1 as (Q & _); unfold tables in Q; congruence). rewrite El.
    assert (Q : each (solve_seed Ec (w_body_count w0) dt) (w_body_list w0) w1 = each (solve_seed E (w_body_count w0) dt) (w_body_list w0) w1).
    { apply (each_same (fun d w => (exists iss, seeds w1 iss d w) /\ kept w)).
      - intros d i r w Ed ((iss & S) & K). assert (Li : w_bodies w0 i <> None). { assert (In i (w_body_list w0)) as Hi by (rewrite Ed; apply in_app_iff; cbn; auto). apply Ib in Hi. cbn in Hi. now destruct (w_bodies w0 i). }
        destruct (seed_kept w1 iss d w i (w_body_count w0) S K Li) as (Q1 & Q2). split; [exact Q1|]. intros w' R. split; [|now apply Q2]. pose proof (seed_ok True any E EO w0 W0 w1 iss d w i dt S Li) as So. rewrite R in So. exact So.
      - split; [eauto|]. split; [exact (rate_clear w0 w1 R1)|]. intros c _. exact (C1 c). }
    rewrite Q. reflexivity.
  Qed.
End Same.

(** ** the whole step, and a program *)
Section Whole.
  Local Open Scope num_scope.
  Context {T : Type} {NT : Num T} {OT : NumOrd T} {TT : NumTrig T} {VT : NumValid T} {J : Type} (su : setup T J).
  Notation world := (world T).
  Implicit Types w : world.

  Lemma front_code E w : step_front (with_code su E) w = step_front E w.
  Proof. reflexivity. Qed.
  Lemma toi_code E dt w : solve_toi (with_code su E) dt w = solve_toi E dt w.
  Proof. reflexivity. Qed.
  Theorem step_same E good dt w w2 : joints_return su good -> answers E -> solves_as_code su E -> wreach E w -> step_front E w = Ok w2 -> (forall c, workable su dt w2 c) ->
    wrun (with_code su E) (WStep dt) w = wrun E (WStep dt) w.
  Proof.
    intros JR EA SC Hw Rf WK. cbn [wrun]. rewrite !r_step_parts, front_code, Rf. cbn [bind].
    assert (W2 : W True any w2). { pose proof (front_checks True any E w (env_any E EA) (reach_W E EA w Hw) (CT w)) as Q. rewrite Rf in Q. apply Q. }
    unfold step_back. rewrite (solve_same su good JR E EA SC w2 W2 dt WK). destruct (if w_step_complete w2 && nlt (nofZ 0) dt then solve E dt w2 else Ok w2) as [w3| |]; cbn [bind]; [|reflexivity|reflexivity]. now rewrite toi_code.
  Qed.

  (** ** a solver that always answers and agrees with the code *)
  Definition code_or (w : world) (is : island) (dt : T) : res (solution T) :=
    match code_solve su w is dt with Ok s => Ok s | _ => Ok (Solution (fun _ => solved_zero) (fun _ => mf_points manifold_default) false) end.
  Definition backed (E : env T) : env T := with_solver E code_or.
  Lemma backed_code E : with_code su (backed E) = with_code su E.
  Proof. reflexivity. Qed.
  Lemma backed_solves E : solves_as_code su (backed E).
  Proof. intros w is dt s H. cbn. unfold code_or. now rewrite H. Qed.
  Lemma backed_answers E : answers E -> answers (backed E).
  Proof. intros (A & B & C & _ & D). refine (conj A (conj B (conj C (conj _ D)))). intros w is dt. cbn. unfold code_or. now destruct (code_solve su w is dt). Qed.
  Lemma for_from_ok {A} (Q : A -> Prop) (f : nat -> A -> res A) : (forall j s s', Q s -> f j s = Ok s' -> Q s') -> forall n lo s s', Q s -> for_from n lo f s = Ok s' -> Q s'.
  Proof. intros St. induction n as [|n IH]; intros lo s s' H; cbn [for_from]; [now intros [= <-]|]. intros R. apply bind_ok in R as (s1 & R1 & R2). eauto. Qed.
  Lemma store_length (c : vcon T) m m' : store_impulses c m = Ok m' -> length (mf_points m') = length (mf_points m).
  Proof.
    unfold store_impulses. intros R. apply bind_ok in R as (ps & R & [= <-]). cbn. unfold for_range in R. refine (for_from_ok (fun l => length l = length (mf_points m)) _ _ _ _ _ _ eq_refl R). clear.
    intros j s s' H R. apply bind_ok in R as (q & _ & R). apply bind_ok in R as (p & _ & R). unfold set in R. destruct (Nat.ltb _ _); [|discriminate]. injection R as <-. now rewrite length_upd.
  Qed.
  Lemma zip_points (cins : list (cinput T)) : Forall (fun ci => length (mf_points (c_manifold (ci_contact ci))) = 2%nat) cins ->
    forall cs ms, zip_res (fun c ci => store_impulses c (c_manifold (ci_contact ci))) cs cins = Ok ms -> Forall (fun m => length (mf_points m) = 2%nat) ms.
  Proof.
    induction 1 as [|ci cins H _ IH]; intros [|c cs] ms; cbn [zip_res]; try (now intros [= <-]). intros R. apply bind_ok in R as (m & R1 & R). apply bind_ok in R as (r & R2 & [= <-]). constructor; [|eauto]. now rewrite (store_length _ _ _ R1).
  Qed.
  Lemma alongside_ok {A} (Q : A -> Prop) i l m d : Q d -> Forall Q m -> Q (alongside i l m d).
  Proof. intros Hd. revert m. induction l as [|j l IH]; intros [|a m] H; cbn; auto. inversion H; subst. destruct (Nat.eqb i j); auto. Qed.
  Lemma inputs_two w cs cins : (forall c, In c cs -> placed w c) -> map_res (contact_input w) cs = Ok cins -> Forall (fun ci => length (mf_points (c_manifold (ci_contact ci))) = 2%nat) cins.
  Proof.
    revert cins. induction cs as [|c cs IH]; intros cins H; cbn [map_res]; [now intros [= <-]|]. intros R. apply bind_ok in R as (ci & R1 & R). apply bind_ok in R as (r & R2 & [= <-]). constructor; [|apply IH; auto; intros k Hk; apply H; now right].
    destruct (H c (or_introl eq_refl)) as (x & a & b & Hx & (Tp & _) & _). unfold contact_input, contact_ends, get_contact in R1. rewrite Hx in R1. cbn [unwrap bind] in R1. apply bind_ok in R1 as ([[[[x' fa] fb] ba] bb] & R1 & [= <-]). cbn [ci_contact].
    apply bind_ok in R1 as (? & _ & R1). apply bind_ok in R1 as (? & _ & R1). apply bind_ok in R1 as (? & _ & R1). apply bind_ok in R1 as (? & _ & R1). apply bind_ok in R1 as (? & _ & R1). apply bind_ok in R1 as (? & _ & R1). injection R1 as <- _ _ _ _. exact Tp.
  Qed.
  Lemma backed_sound E : sound_env E -> sound_env (backed E).
  Proof.
    intros (A & B & C & _ & D & F). refine (conj A (conj B (conj C (conj _ (conj D F))))). intros w is dt (_ & Hc). cbn. unfold code_or. destruct (code_solve su w is dt) as [s| |] eqn:R; eexists; (split; [reflexivity|]); intros c; try reflexivity.
    unfold code_solve in R. apply bind_ok in R as (bodies & _ & R). apply bind_ok in R as (cins & Rc & R). apply bind_ok in R as (r & Rr & R). destruct (sleep_bodies _ _ _) as [slept mt]. injection R as <-. cbn [so_points].
    apply (alongside_ok (fun l => length l = 2%nat)); [reflexivity|]. apply Forall_map. apply (inputs_two w _ _ Hc) in Rc. unfold island_solve in Rr. apply bind_ok in Rr as ([cs pcs] & _ & Rr). apply bind_ok in Rr as (cs1 & _ & Rr). apply bind_ok in Rr as ([cs2 vels] & _ & Rr).
    apply bind_ok in Rr as ([jl1 [ps vs]] & _ & Rr). apply bind_ok in Rr as ([[jl2 cs3] vs2] & _ & Rr). apply bind_ok in Rr as (ms & Rm & Rr). apply bind_ok in Rr as ([[jl3 ps3] okay] & _ & [= <-]). cbn [ir_manifolds]. eapply zip_points; eauto.
  Qed.

  (* what returns with the code returns the same with the backed solver *)
  Lemma seed_agree E cap dt i w w' : solve_seed (with_code su E) cap dt i w = Ok w' -> solve_seed (backed E) cap dt i w = Ok w'.
  Proof.
    unfold solve_seed. intros R. apply bind_ok in R as (b & -> & R). cbn [bind]. destruct (fl_island _); [exact R|]. destruct (_ || _); [exact R|]. destruct (is_static b); [exact R|]. cbv zeta in *. apply bind_ok in R as ([[w1 is] st] & -> & R). cbn [bind].
    apply bind_ok in R as ([] & -> & R). cbn [bind]. apply bind_ok in R as (w2 & R2 & R). replace (solve_island (backed E) is dt w1) with (Ok w2); [exact R|]. symmetry. unfold solve_island in *. cbn [e_solve with_code with_solver backed] in *. unfold code_or.
    destruct (code_solve su w1 is dt) as [s| |]; [|discriminate|discriminate]. exact R2.
  Qed.
  Lemma run_agree E c w w' : wrun (with_code su E) c w = Ok w' -> wrun (backed E) c w = Ok w'.
  Proof.
    destruct c; try (intros R; exact R). cbn [wrun]. rewrite !r_step_parts. intros R. apply bind_ok in R as (w2 & R2 & R). change (step_front (with_code su E) w = Ok w2) with (step_front (backed E) w = Ok w2) in R2. rewrite R2. cbn [bind].
    unfold step_back in *. apply bind_ok in R as (w3 & R3 & R). replace (if w_step_complete w2 && nlt (nofZ 0) dt then solve (backed E) dt w2 else Ok w2) with (Ok w3); [exact R|]. symmetry. destruct (_ && _); [|exact R3].
    unfold solve in *. cbv zeta in *. apply bind_ok in R3 as (v1 & -> & R3). cbn [bind]. apply bind_ok in R3 as (v2 & Q & R3). rewrite (each_agree _ _ (fun i s s' => seed_agree E (w_body_count w2) dt i s s') _ _ _ Q). exact R3.
  Qed.
  Lemma careful_agree E w : careful (with_code su E) w -> careful (backed E) w.
  Proof. induction 1 as [l g w H|w c w' Hw IH Hs R]; [eapply careful_new; eauto|]. eapply careful_call; [exact IH|exact Hs|]. now apply run_agree. Qed.
  (* a careful program whose contacts can be worked on: the step returns *)
  Theorem step_returns E good dt w : joints_return su good -> sound_env E -> answers E -> ordered T -> careful (with_code su E) w -> safe w (WStep dt) ->
    (forall w2, step_front E w = Ok w2 -> forall c, workable su dt w2 c) -> exists w', wrun (with_code su E) (WStep dt) w = Ok w' /\ careful (with_code su E) w'.
  Proof.
    intros JR SE EA OR C S WK. pose proof (careful_agree E w C) as Cb. destruct (careful_returns (backed E) (backed_sound E SE) OR w (WStep dt) Cb S) as (w' & R & _). exists w'.
    assert (Q : wrun (with_code su E) (WStep dt) w = Ok w'); [|split; [exact Q|eapply careful_call; eauto]]. rewrite <- R. cbn [wrun] in R. rewrite r_step_parts in R. apply bind_ok in R as (w2 & Rf & _).
    rewrite <- (step_same (backed E) good dt w w2 JR (backed_answers E EA) (backed_solves E) (careful_reach _ w Cb) Rf (WK w2 Rf)). reflexivity.
  Qed.
  (* every other call returns as it does without the solver *)
  Theorem call_returns E c w : sound_env E -> ordered T -> careful (with_code su E) w -> safe w c -> (forall dt, c <> WStep dt) -> exists w', wrun (with_code su E) c w = Ok w' /\ careful (with_code su E) w'.
  Proof.
    intros SE OR C S N. destruct (careful_returns (backed E) (backed_sound E SE) OR w c (careful_agree E w C) S) as (w' & R & _). exists w'. assert (Q : wrun (with_code su E) c w = Ok w').
    { rewrite <- R. destruct c; try reflexivity. now contradiction (N dt). }
    split; [exact Q|]. eapply careful_call; eauto.
  Qed.
End Whole.
