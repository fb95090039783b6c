(** The claims, for every world a program can get. *)
From Coq Require Import List ZArith Bool Arith Lia.
From Verif Require Import Base Num Math Collision Manifold Filter ShapeModel TreeModel TreeSpec BroadModel BroadSpec DynModel DynSpec DynProofs WorldModel WorldGraph WorldSpec WorldClaims WorldLogic WorldPhys WorldContact WorldInv WorldSolve WorldStep WorldCalls WorldHist WorldFinal WorldAfter WorldNews.
Import ListNotations.

Section Reach.
  Local Open Scope num_scope.
  Context {T : Type} `{NT : Num T} `{TT : NumTrig T} `{VT : NumValid T}.
  Notation world := (world T).
  Implicit Types w : world.
  Variable E : env T.
  Hypothesis EA : answers E.
  Notation W := (W True any).
  Let RW w : wreach E w -> W w := reach_W E EA w.
  Let EO : env_ok True E := env_any E EA.
  Lemma CT w : classes_ok True w.
  Proof. unfold classes_ok. intros. now left. Qed.
  Lemma done {A} (m : res A) Q a : sat True m Q -> m = Ok a -> Q a.
  Proof. intros S ->. exact S. Qed.
  Lemma unlocked {A} w (m : res A) a : (b2_assert (negb (w_locked w)) ;;; m) = Ok a -> w_locked w = false /\ m = Ok a.
  Proof. destruct (w_locked w); cbn; [discriminate|auto]. Qed.
  Lemma there {A B} (o : option A) (m : A -> res B) a : bind (unwrap o) m = Ok a -> o <> None.
  Proof. destruct o; [discriminate|discriminate]. Qed.

  Theorem r_one w c c' x y : wreach E w -> w_contacts w c = Some x -> w_contacts w c' = Some y -> same_children x y -> c = c'.
  Proof. intros H. exact (one_per_pair True any w c c' x y (RW w H)). Qed.
  Theorem r_contact_now w c x : wreach E w -> w_contacts w c = Some x -> exists a b, bodies_of w x = Some (a, b) /\ a <> b /\ (dynamic w a \/ dynamic w b) /\
    turned_on w a /\ turned_on w b /\ (joint_forbids w a b -> cf_filter (c_flags x) = true).
  Proof. intros H. exact (contact_now True any w c x (RW w H)). Qed.
  Theorem r_created w k w' c x : wreach E w -> wrun E k w = Ok w' -> w_contacts w' c = Some x ->
    (exists y, w_contacts w c = Some y /\ pair_key y = pair_key x) \/ (exists dt v, k = WStep dt /\ same_rules w v /\ may_meet E v x).
  Proof.
    intros H R Hx. destruct (done _ _ _ (W_call E EA k w (RW w H)) R) as [_ K]. unfold is_step in K.
    assert (A : kept_contacts w w' -> exists y, w_contacts w c = Some y /\ pair_key y = pair_key x).
    { intros Q. destruct (Q c x Hx) as (y & Hy & V). exists y. split; auto. unfold view_c in V. unfold pair_key. congruence. }
    destruct k; try (left; exact (A K)). destruct (K c x Hx) as [(y & Hy & V)|(v & a & b & S & El)].
    - left. exists y. split; auto. unfold view_c in V. unfold pair_key. congruence.
    - right. exists dt, v. split; auto. split; [now apply alike_rules|]. eapply eligible_meet; eauto.
  Qed.
  Theorem r_front w w2 : wreach E w -> step_front E w = Ok w2 -> same_rules w w2 /\ forall c x, w_contacts w2 c = Some x ->
      cf_filter (c_flags x) = false /\
      (exists a b, bodies_of w2 x = Some (a, b) /\ a <> b /\ (dynamic w2 a \/ dynamic w2 b) /\ ~ joint_forbids w2 a b) /\
      ((exists x0, w_contacts w c = Some x0 /\ pair_key x0 = pair_key x /\ filtered_again E w x0) \/ (exists v, same_rules w v /\ may_meet E v x)).
  Proof. intros H R. exact (proj2 (done _ _ _ (front_checks True any E w EO (RW w H) (CT w)) R)). Qed.
  Theorem r_retype w w' i ty b : wreach E w -> w_bodies w i = Some b -> b_type b <> ty -> wrun E (WType i ty) w = Ok w' ->
    (forall c, contact_on w' i c = false) /\ (forall c, option_map pair_key (w_contacts w' c) = if contact_on w i c then None else option_map pair_key (w_contacts w c)).
  Proof.
    intros H Hb Ht R. assert (L : w_locked w = false). { cbn [wrun] in R. unfold set_type in R. now apply unlocked in R. }
    exact (proj2 (done _ _ _ (set_type_contacts True any E w i ty b (fun fs b _ _ => noF_reset fs b) EO (RW w H) L Hb Ht) R)).
  Qed.
  Theorem r_contact_graph w : wreach E w -> contact_graph w.
  Proof. intros H. exact (contact_graph_ok True any w (RW w H)). Qed.
  Theorem r_destroy_contact w c w' : wreach E w -> destroy_contact E c w = Ok w' -> contact_graph w' /\ contact_removed c w w'.
  Proof.
    intros H R. assert (L : w_contacts w c <> None). { unfold destroy_contact, get_contact in R. now apply there in R. }
    destruct (done _ _ _ (destroy_contact_all True any E w c EO (RW w H) L) R) as [W' K]. split; [exact (contact_graph_ok True any _ W')|exact K].
  Qed.
  Theorem r_events w c : wreach E w -> w_listener w = true -> follow false (told w c) = Some (is_touching w c).
  Proof. intros H. exact (begin_end True any w c (RW w H)). Qed.
  Theorem r_destroy_body w i w' : wreach E w -> wrun E (WDestroyBody i) w = Ok w' -> body_removed i w w' /\ counts_drop i w w'.
  Proof.
    intros H R. cbn [wrun] in R. assert (L : w_locked w = false /\ w_bodies w i <> None).
    { unfold destroy_body in R. destruct (Nat.ltb 0 (w_body_count w)); [|discriminate]. apply unlocked in R. destruct R as [L R]. split; auto. unfold get_body in R. now apply there in R. }
    exact (proj2 (done _ _ _ (destroy_body_all True any E w i (or_introl I) (RW w H) (proj1 L) (proj2 L)) R)).
  Qed.
  Theorem r_joint_graph w : wreach E w -> joint_graph w.
  Proof. intros H. exact (joint_graph_ok True any w (RW w H)). Qed.
  Theorem r_fixture_graph w : wreach E w -> fixture_graph w.
  Proof. intros H. exact (fixture_graph_ok True any w (RW w H)). Qed.
  Theorem r_destroy_joint w j w' : wreach E w -> wrun E (WDestroyJoint j) w = Ok w' -> joint_removed j w w'.
  Proof.
    intros H R. cbn [wrun] in R. assert (L : w_locked w = false /\ w_joints w j <> None).
    { unfold destroy_joint in R. apply unlocked in R. destruct R as [L R]. split; auto. unfold get_joint in R. now apply there in R. }
    exact (proj2 (done _ _ _ (destroy_joint_all True any w j (RW w H) (proj1 L) (proj2 L)) R)).
  Qed.
  Theorem r_no_joint_contact w k w' c x a b : wreach E w -> wrun E k w = Ok w' -> w_contacts w' c = Some x -> bodies_of w' x = Some (a, b) -> joint_forbids w' a b ->
    exists y, w_contacts w c = Some y /\ pair_key y = pair_key x /\ cf_filter (c_flags x) = true.
  Proof.
    intros H R Hx Hb J. destruct (contact_now True any w' c x (RW w' (wreach_call E w k w' H R)) Hx) as (a' & b' & Hb' & _ & _ & _ & _ & F). rewrite Hb in Hb'. injection Hb' as <- <-. specialize (F J).
    destruct (r_created w k w' c x H R Hx) as [(y & Hy & V)|(dt & v & -> & S & M)]; [eauto|]. exfalso.
    destruct M as (a' & b' & Hv & _ & _ & N & _). pose proof (done _ _ _ (sat_step True any E EO (or_introl I) (or_introl I) dt w (RW w H) (CT w) (or_introl I)) R) as (_ & St & _). apply stepped_alike, alike_rules in St.
    destruct St as (S1 & _ & S3). destruct S as (Q1 & _ & Q3).
    assert (X : forall f, body_of v f = body_of w' f). { intros f. unfold body_of. specialize (S1 f). specialize (Q1 f). rewrite <- S1 in Q1. destruct (w_fixtures v f), (w_fixtures w' f); cbn in *; try easy; congruence. }
    unfold bodies_of in Hb, Hv. rewrite !X in Hv. rewrite Hb in Hv. injection Hv as <- <-. apply N. destruct J as (j & z & Hj & Hc & He). specialize (S3 j). specialize (Q3 j). rewrite <- S3, Hj in Q3.
    destruct (w_joints v j) as [z'|] eqn:Ez; [|easy]. cbn in Q3. injection Q3 as K1 K2 K3. exists j, z'. rewrite K1, K2, K3. auto.
  Qed.
  Theorem r_proxy_count w : wreach E w -> bp_proxies (w_bp w) = Z.of_nat (enabled_children w).
  Proof. intros H. exact (proxy_count True any w (RW w H)). Qed.
  Theorem r_mirrored w : wreach E w -> mirrored w.
  Proof. intros H. exact (mirrored_ok True any w (RW w H)). Qed.
  (* C25 *)
  Theorem r_disable_again w i b : wreach E w -> w_locked w = false -> w_bodies w i = Some b -> is_enabled b = false -> exists w', wrun E (WEnabled i false) w = Ok w' /\ same_world w w'.
  Proof. intros H. exact (disable_again True any E w i b (RW w H)). Qed.
  Theorem r_enable_on w i b f r : wreach E w -> w_bodies w i = Some b -> is_enabled b = true -> b_fixtures b = f :: r -> (0 < children w f)%nat -> w_locked w = false -> wrun E (WEnabled i true) w = Panic.
  Proof. intros H Hb He Hf Hc L. exact (enable_on True any E w i b f r (RW w H) L Hb He Hf Hc). Qed.
  Theorem r_enable_off w i b w' : wreach E w -> w_bodies w i = Some b -> is_enabled b = false -> wrun E (WEnabled i true) w = Ok w' ->
    turned_on w' i /\ (forall f, fixture_on w i f = true -> proxies_of w' f = children w' f) /\ w_contacts w' = w_contacts w /\ w_log w' = w_log w /\ w_joints w' = w_joints w /\
    (forall f, fixture_on w i f = false -> w_fixtures w' f = w_fixtures w f) /\ (forall f, children w' f = children w f).
  Proof.
    intros H Hb He R. cbn [wrun] in R. assert (L : w_locked w = false). { unfold set_enabled in R. now apply unlocked in R. }
    exact (proj2 (done _ _ _ (enable_off True any E w i b (RW w H) L Hb He) R)).
  Qed.
  Theorem r_disable w i w' : wreach E w -> wrun E (WEnabled i false) w = Ok w' ->
    ~ turned_on w' i /\ (forall f, fixture_on w i f = true -> proxies_of w' f = 0%nat) /\
    (forall c, option_map pair_key (w_contacts w' c) = if contact_on w i c then None else option_map pair_key (w_contacts w c)) /\
    (forall f, fixture_on w i f = false -> w_fixtures w' f = w_fixtures w f) /\ (forall f, children w' f = children w f).
  Proof.
    intros H R. cbn [wrun] in R. assert (L : w_locked w = false /\ w_bodies w i <> None).
    { unfold set_enabled in R. apply unlocked in R. destruct R as [L R]. split; auto. unfold mod_body, get_body in R. intros Q. now rewrite Q in R. }
    destruct L as [L Li]. destruct (w_bodies w i) as [b|] eqn:Hb; [|easy]. exact (proj2 (done _ _ _ (disable_any True any E w i b (RW w H) L Hb) R)).
  Qed.
  (* C59 *)
  Theorem r_refilter_panics w f d c x : wreach E w -> w_fixtures w f <> None -> w_contacts w c = Some x -> c_fa x = f \/ c_fb x = f -> wrun E (WFilter f d) w = Panic.
  Proof. intros H. exact (refilter_panics any w f d c x (RW w H)). Qed.
  Theorem r_refilter_free w f d w' : wreach E w -> wrun E (WFilter f d) w = Ok w' ->
    (forall c x, w_contacts w c = Some x -> c_fa x <> f /\ c_fb x <> f) /\ option_map (@f_filter T) (w_fixtures w' f) = Some d /\ (forall c, option_map pair_key (w_contacts w' c) = option_map pair_key (w_contacts w c)).
  Proof.
    intros H R. assert (L : w_fixtures w f <> None). { cbn [wrun] in R. unfold set_filter_data, get_fixture in R. now apply there in R. }
    assert (N : forall c x, w_contacts w c = Some x -> c_fa x <> f /\ c_fb x <> f).
    { intros c x Hx. destruct (Nat.eq_dec (c_fa x) f) as [e|n]; [pose proof (r_refilter_panics w f d c x H L Hx (or_introl e)); congruence|]. split; auto. intros e. pose proof (r_refilter_panics w f d c x H L Hx (or_intror e)). congruence. }
    split; auto. exact (proj2 (done _ _ _ (refilter_free True any w f d (RW w H) L N) R)).
  Qed.
  (* C30 *)
  Theorem r_step_parts dt w : step E dt w = bind (step_front E w) (step_back E dt).
  Proof. unfold step, step_front, step_back. destruct (w_new_contacts w); cbn [bind]; auto. now destruct (find_new_contacts E w). Qed.
  Theorem r_islands dt w w2 w3 : wreach E w -> step_front E w = Ok w2 -> solve E dt w2 = Ok w3 -> exists l, islands (w_log w3) = rev l ++ islands (w_log w2) /\ partition w2 l.
  Proof.
    intros H R1 R2. destruct (done _ _ _ (front_checks True any E w EO (RW w H) (CT w)) R1) as [W2 _].
    exact (proj2 (done _ _ _ (solve_parts True any E dt w2 EO W2 (CT w2)) R2)).
  Qed.
  Theorem r_ends w c : wreach E w -> wrun E c w <> Fuel.
  Proof. exact (reach_ends E EA w c). Qed.
  (* C21 *)
  Theorem r_sensor_news dt w w' : wreach E w -> w_step_complete w = true -> wrun E (WStep dt) w = Ok w' ->
    exists l, news w w' l /\ forall c x, w_contacts w' c = Some x -> sensor_contact w' x = true -> existsb (solves c) l = false.
  Proof. intros H C R. exact (step_news E any dt w EO (RW w H) C w' R). Qed.
End Reach.
