(** A careful program never panics. *)
From Coq Require Import List ZArith Bool Arith Lia Permutation.
From Verif Require Import Base Num Math Collision Manifold Filter ShapeModel ListFacts ManifoldProofs TreeModel TreeSpec TreeHist BroadModel BroadSpec BroadProofs BroadFinal DynModel DynSpec DynProofs WorldModel WorldGraph WorldSpec WorldGops WorldLogic WorldPhys WorldContact WorldInv WorldOps WorldFix WorldBody WorldLife WorldSet WorldIsland WorldSolve WorldToi WorldStep WorldCalls WorldClaims WorldLock WorldHist SafeSpec.
Import ListNotations.

Section Safe.
  Local Open Scope num_scope.
  Context {T : Type} `{NT : Num T} `{TT : NumTrig T} `{VT : NumValid T}.
  Notation world := (world T).
  Implicit Types w : world.
  Notation W := (W False any).
  Variable E : env T.
  Hypothesis SE : sound_env E.
  Hypothesis OT : ordered T.

  Lemma sat_returns {A} (m : res A) : returns m -> sat False m (fun _ => True).
  Proof. intros (a & ->). exact I. Qed.
  Lemma returns_sat {A} (m : res A) Q : sat False m Q -> exists a, m = Ok a /\ Q a.
  Proof. destruct m as [a| |]; cbn; try easy. eauto. Qed.
  Lemma mok_two (m : manifold T) : mok False m <-> two_points m.
  Proof. unfold mok, two_points. tauto. Qed.
  Lemma placed_ok w i c : contacts_ok (graph_of w) -> w_contacts w i = Some c -> mok False (c_manifold c) -> placed w i.
  Proof.
    intros C Hc M. destruct (contact_parts w i c C Hc) as (fa & fb & a & b & ba & bb & Efa & Efb & Ea & Eb & Hab & Eba & Ebb & _). exists c, a, b. rewrite mok_two in M. refine (conj Hc (conj M (conj _ (conj Hab (conj _ _))))); try congruence.
    unfold bodies_of, body_of. now rewrite Efa, Efb, Ea, Eb.
  Qed.
  Lemma placed_ready w i : ready False w -> w_contacts w i <> None -> placed w i.
  Proof. intros [C [_ N]] L. destruct (w_contacts w i) as [c|] eqn:Hc; [|easy]. apply (placed_ok w i c C Hc). apply (N i c Hc). Qed.
  Lemma env_safe : env_ok False E.
  Proof.
    destruct SE as (A & B & C & D & F & G). refine (conj _ (conj _ (conj _ (conj _ (conj _ _))))).
    - intros w i R L. destruct (A w i (placed_ready w i R L)) as (m & -> & M). cbn. now apply mok_two.
    - intros w i R L. apply sat_returns, B. now apply placed_ready.
    - intros w i R L. apply sat_returns, C. now apply placed_ready.
    - intros w is dt (R & L1 & L2). destruct (D w is dt) as (s & -> & M); [split; auto; intros; now apply placed_ready; auto|]. cbn. auto.
    - intros w is a b dt (R & L1 & L2). apply sat_returns, F. split; auto. intros. now apply placed_ready; auto.
    - intros w e c M. apply mok_two, G. now apply mok_two.
  Qed.

  Lemma S_new listener goodbye w : world_new listener goodbye = Ok w -> W w.
  Proof.
    intros H. destruct (W_new listener goodbye w H) as [A B C D F G K]. unfold world_new in H. destruct (@bp_new T NT (nat * nat)) as [bp| |]; cbn [bind] in H; try discriminate. injection H as <-. split; auto.
    - split; intros i x; discriminate.
    - intros f x. discriminate.
  Qed.
  Lemma S_body w i b b' : W w -> w_bodies w i = Some b -> view_b b' = view_b b -> bok False b' -> W (put_body i b' w).
  Proof. intros H Hb Hv K. apply (W_phys _ _ w); auto. apply (phys_body False any w w i b b'); auto. now apply phys_self. Qed.
  Lemma body_setter_sweep s (b : body T) : b_sweep (body_setter s b) = b_sweep b.
  Proof.
    assert (A : forall f (b : body T), b_sweep (set_awake f b) = b_sweep b). { intros f c. unfold set_awake. destruct (is_static c); auto. destruct f; reflexivity. }
    destruct s as [f|f|f|v|v|q wake|x|x|x]; cbn [body_setter]; auto; try reflexivity.
    - unfold set_sleeping_allowed. destruct f; auto. now rewrite A.
    - unfold set_linear_velocity. destruct (is_static b); auto. destruct (_ >? _); cbn; [|reflexivity]. exact (A true b).
    - unfold set_angular_velocity. destruct (is_static b); auto. destruct (_ >? _); cbn; [|reflexivity]. exact (A true b).
    - assert (A' : forall (b : body T), b_sweep (wake_if wake b) = b_sweep b) by (intros c; unfold wake_if; destruct (_ && _); auto).
      destruct q; cbn [apply_push]; unfold apply_force, apply_force_to_center, apply_torque, apply_linear_impulse, apply_linear_impulse_to_center, apply_angular_impulse;
        (destruct (negb (is_dynamic b)); [reflexivity|]; cbv zeta; destruct (is_awake _); [exact (A' b)|exact (A' b)]).
  Qed.
  Lemma S_contact w c x s : W w -> w_contacts w c = Some x -> W (put_contact c (contact_setter s x) w).
  Proof.
    intros H Hc. apply (W_phys _ _ w); auto. apply (phys_contact False any w w c x); auto.
    - now apply phys_self.
    - now destruct s.
    - destruct (W_nums _ _ _ H) as [_ N]. destruct (N _ _ Hc) as [N1 N2]. destruct s; split; auto.
    - now destruct s.
  Qed.
  Lemma settles_light ws ty : settles ws ty -> light False ws ty.
  Proof. intros H fs b Q1 Q2. apply sat_returns, H; auto. Qed.
  Lemma classes_safe w : has_classes w -> classes_ok False w.
  Proof.
    intros H f f' x x' a b Hx Hx' Ha Hb Hab D. right. apply (H f f' x x' a b); auto.
  Qed.

  Theorem S_call c w : W w -> w_locked w = false -> safe w c -> sat False (wrun E c w) W.
  Proof.
    intros H L S. pose proof env_safe as EO. assert (Z : False \/ (#1 >? (#0 : T)) = true) by (right; apply OT).
    assert (Lf : forall i b f, w_bodies w i = Some b -> In f (b_fixtures b) -> w_fixtures w f <> None).
    { intros i b f Hb Hf. destruct (W_graph _ _ _ H) as (_ & (_ & _ & F3 & _) & _). assert (In f (fixtures_of (graph_of w) i)) as K by (unfold fixtures_of; cbn; now rewrite Hb). apply F3 in K. unfold owner in K. cbn in K. now destruct (w_fixtures w f). }
    assert (P1 : forall (A : Type) (m : res world) (Q : world -> Prop), sat False m (fun w' => W w' /\ Q w') -> sat False m W) by (intros A m Q K; eapply sat_mono; [exact K|]; intros w' [K1 _]; exact K1).
    assert (P2 : forall (m : res (world * nat)) (Q : world -> nat -> Prop), sat False m (fun q => let '(w', i) := q in W w' /\ Q w' i) -> sat False ('(w, _) <- m ;; Ok w) W).
    { intros m Q K. apply sat_bind. eapply sat_mono; [exact K|]. intros [w' i] [K1 _]. exact K1. }
    assert (NC : forall f, no_contact w f -> forall c, on_fix w f c = false).
    { intros f N k. unfold on_fix. destruct (w_contacts w k) as [x|] eqn:Ek; auto. destruct (N k x Ek) as [N1 N2]. apply orb_false_iff. split; apply Nat.eqb_neq; congruence. }
    destruct c as [d|i|i d|i f|a b cc|j|i ty|i f|i pos a|i s|i d|i|i f|f d|f|f s|f s|c s|f|f|f|f| |o|dt]; cbn [wrun safe] in *.
    - eapply P2. apply (sat_create_body False any Z w d H L). now apply sat_returns.
    - apply (P1 nat) with (1 := sat_destroy_body False any E Z w i H L S).
    - destruct S as (b & Hb & (n & Hn & Hk) & S). eapply P2. apply (sat_create_fixture False any w i d H L); [congruence| |].
      + unfold def_fine. rewrite Hn. cbn. intros xf k K. apply sat_returns. auto.
      + intros b' Hb' D. assert (b' = b) as -> by congruence. now apply settles_light, S.
    - destruct S as (b & Hb & Hf & S). apply (P1 nat) with (Q := cut i f w). apply (sat_destroy_fixture False any E w i f H L).
      + destruct (W_graph _ _ _ H) as (_ & (_ & _ & F3 & _) & _). apply F3. unfold fixtures_of. cbn. now rewrite Hb.
      + intros b' Hb'. assert (b' = b) as -> by congruence. now apply settles_light.
    - destruct S as (Nab & La & Lb). apply sat_bind. eapply sat_mono; [exact (sat_create_joint False any w a b cc H L Nab La Lb)|]. intros [w' i] (_ & K & _). exact K.
    - apply (P1 nat) with (1 := sat_destroy_joint False any w j H L S).
    - destruct S as (b & Hb & S). destruct (btype_eqb (b_type b) ty) eqn:Et.
      + unfold set_type. rewrite L. cbn [negb b2_assert bind]. unfold get_body. rewrite Hb. cbn [unwrap bind]. rewrite Et. exact H.
      + eapply (P1 nat). apply (sat_set_type False any E w i ty b H L Hb). apply settles_light. destruct S as [S|S]; auto. subst ty. now destruct (b_type b).
    - destruct S as (b & Hb & S). eapply (P1 nat). apply (sat_set_enabled False any E w i b f H L Hb). right. destruct f; auto.
    - apply (P1 nat) with (1 := sat_set_transform False any w i pos a H L S).
    - unfold mod_body, get_body. destruct (w_bodies w i) as [b|] eqn:Hb; [|easy]. cbn. apply (S_body w i b); auto; [apply body_setter_view|]. unfold bok. rewrite body_setter_sweep. destruct (W_nums _ _ _ H) as [N _]. exact (N i b Hb).
    - destruct S as (b & Hb & (b' & Q)). rewrite L. cbn [negb b2_assert bind]. unfold get_body. rewrite Hb. cbn [unwrap bind]. rewrite Q. cbn [bind sat]. destruct (set_mass_run _ _ _ Q) as (K & _). destruct (kept_view False _ _ K) as [K1 K2]. apply (S_body w i b); auto. apply K2. destruct (W_nums _ _ _ H) as [N _]. exact (N i b Hb).
    - destruct S as (b & Hb & S). eapply sat_mono; [apply (sat_reset_mass False w i b Hb); [intros f; now apply (Lf i b)|now apply settles_light]|]. intros w' K. eapply calm_W; eauto.
    - destruct S as (b & Hb & S). unfold get_body. rewrite Hb. cbn [unwrap bind]. apply sat_bind. eapply sat_mono; [apply (sat_fixtures False w (b_fixtures b)); intros g Kg; eapply Lf; eauto|]. intros fs Hfs. apply sat_bind.
      assert (exists b', set_fixed_rotation f fs b = Ok b') as (b' & Q).
      { unfold set_fixed_rotation. cbv zeta. destruct (Bool.eqb _ _); [eexists; reflexivity|]. apply (S fs); [exact Hfs|reflexivity]. }
      rewrite Q. cbn [sat]. assert (view_b b' = view_b b /\ (bok False b -> bok False b')) as [V1 V2].
      { revert Q. unfold set_fixed_rotation. cbv zeta. destruct (Bool.eqb _ _); [now intros [= <-]|]. intros Q. destruct (reset_run _ _ _ Q) as (K & _). destruct (kept_view False _ _ K) as [K1 K2]. split; [now rewrite K1|exact K2]. }
      apply (S_body w i b); auto. apply V2. destruct (W_nums _ _ _ H) as [N _]. exact (N i b Hb).
    - destruct S as (Hf & S). eapply (P1 nat). apply (sat_set_filter_data False any w f d H Hf). right. auto.
    - destruct S as (Hf & S). eapply (P1 nat). apply (sat_refilter False any w f H Hf). right. auto.
    - eapply (P1 nat). apply (sat_set_sensor False any w f s H S).
    - unfold get_fixture. destruct (w_fixtures w f) as [x|] eqn:Hx; [|easy]. cbn. apply (W_put_fixture False any w f x); auto. now destruct s.
    - unfold mod_contact, get_contact. destruct (w_contacts w c) as [x|] eqn:Hx; [|easy]. cbn. now apply S_contact.
    - eapply (P1 nat). apply (sat_set_allow_sleeping False any w f H).
    - apply sat_ok. eapply W_frame0; eauto.
    - apply sat_ok. eapply W_frame0; eauto.
    - apply sat_ok. eapply W_frame0; eauto.
    - eapply sat_mono; [apply (sat_clear_forces False any w H)|]. intros w' P. eapply W_phys; eauto.
    - eapply (P1 nat). apply (sat_world_shift False any w o H L I).
    - destruct S as [S1 S2]. eapply (P1 nat). apply (sat_step False any E EO Z (or_intror (proj2 OT)) dt w H (classes_safe w S1) (or_intror S2)).
  Qed.
  Lemma careful_reach w : careful E w -> wreach E w.
  Proof. induction 1; [eapply wreach_new; eauto|eapply wreach_call; eauto]. Qed.
  Lemma careful_W w : careful E w -> W w.
  Proof.
    induction 1 as [l g w Hn|w c w' Hw IH Hs Hc]; [eapply S_new; eauto|]. pose proof (S_call c w IH (reach_free E w (careful_reach w Hw)) Hs) as K. rewrite Hc in K. exact K.
  Qed.
  (* a careful call of a careful program returns *)
  Theorem careful_returns w c : careful E w -> safe w c -> exists w', wrun E c w = Ok w' /\ careful E w'.
  Proof.
    intros Hw Hs. pose proof (S_call c w (careful_W w Hw) (reach_free E w (careful_reach w Hw)) Hs) as K. destruct (wrun E c w) as [w'| |] eqn:R; try easy. exists w'. split; auto. eapply careful_call; eauto.
  Qed.
  Theorem new_returns listener goodbye : exists w, world_new (T := T) listener goodbye = Ok w.
  Proof. eexists. reflexivity. Qed.
End Safe.
