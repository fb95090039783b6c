(** Every world a program can get satisfies the invariant. *)
From Coq Require Import List ZArith Bool Arith Lia Permutation.
From Verif Require Import Base Num Math Collision Manifold Filter ShapeModel ListFacts ManifoldProofs TreeModel TreeSpec TreeHist BroadModel BroadSpec BroadProofs BroadFinal DynModel DynSpec DynProofs WorldModel WorldGraph WorldSpec WorldGops WorldLogic WorldPhys WorldContact WorldInv WorldOps WorldFix WorldBody WorldLife WorldSet WorldIsland WorldSolve WorldToi WorldStep WorldCalls.
Import ListNotations.

(** ** nothing runs out of fuel *)
Definition noF {A} (m : res A) : Prop := sat True m (fun _ => True).
Lemma noF_bind {A B} (m : res A) (f : A -> res B) : noF m -> (forall a, noF (f a)) -> noF (bind m f).
Proof. intros H K. apply sat_bind. eapply sat_mono; [exact H|]. intros a _. apply K. Qed.
Lemma noF_ok {A} (a : A) : noF (Ok a).
Proof. exact I. Qed.
Lemma noF_assert b : noF (b2_assert b).
Proof. destruct b; exact I. Qed.
Lemma noF_get {A} (l : list A) i : noF (get l i).
Proof. unfold get. destruct (nth_error l i); exact I. Qed.
Lemma noF_sub a b : noF (usize_sub a b).
Proof. unfold usize_sub. destruct (_ <=? _); exact I. Qed.
Lemma noF_for {S} lo hi (f : nat -> S -> res S) s : (forall i s, noF (f i s)) -> noF (for_range lo hi f s).
Proof.
  intros H. unfold for_range. generalize (hi - lo). intros n. revert lo s. induction n as [|n IH]; intros lo s; cbn [for_from]; [exact I|]. apply noF_bind; auto.
Qed.
Ltac noF := repeat first [apply noF_ok | apply noF_assert | apply noF_get | apply noF_sub | apply noF_bind; intros | apply noF_for; intros
  | match goal with |- noF (let '_ := ?x in _) => destruct x end | match goal with |- noF (if ?b then _ else _) => destruct b end ].
Lemma noF_sat {A} (m : res A) : noF m -> sat True m (fun _ => True).
Proof. auto. Qed.

Section Hist.
  Local Open Scope num_scope.
  Context {T : Type} `{NT : Num T} `{TT : NumTrig T} `{VT : NumValid T}.
  Notation world := (world T).
  Implicit Types w : world.

  Lemma noF_reset fs (b : body T) : noF (reset_mass_data fs b).
  Proof.
    unfold reset_mass_data. cbv zeta. destruct (b_type _); try exact I. apply noF_bind.
    - match goal with |- noF (mass_loop fs ?a) => generalize a end. induction fs as [|f fs IH]; intros [[m c] i]; cbn [mass_loop]; [exact I|]. destruct (f_density f =? #0); auto. apply noF_bind; [|intros; apply IH].
      unfold fixture_mass, shape_mass. destruct (f_shape f) as [s|s|s|s]; try exact I. unfold polygon_mass. noF.
    - intros [[m c] i]. destruct (_ >? #0); cbv zeta; noF.
  Qed.
  Lemma noF_aabb (s : shape T) xf k : noF (shape_aabb s xf k).
  Proof. destruct s as [s|s|s|s]; cbn [shape_aabb]; try exact I; [unfold chain_aabb|unfold polygon_aabb]; cbv zeta; noF. Qed.
  Lemma noF_count (s : shape T) : noF (shape_child_count s).
  Proof. destruct s as [s|s|s|s]; cbn [shape_child_count]; try exact I. unfold chain_child_count. noF. Qed.

  Definition any (_ : vec2 T) : Prop := True.
  Notation W := (W True any).
  Variable E : env T.
  Hypothesis EA : answers E.
  Lemma env_any : env_ok True E.
  Proof.
    destruct EA as (A & B & C & D & F). assert (N : forall {X} (m : res X) (Q : X -> Prop), m <> Fuel -> (forall a, Q a) -> sat True m Q) by (intros X m Q H K; destruct m; cbn; auto; congruence).
    refine (conj _ (conj _ (conj _ (conj _ (conj _ _))))); intros; try (apply N; auto; intros; now left); try now left.
  Qed.

  Lemma W_new listener goodbye w : world_new listener goodbye = Ok w -> W w.
  Proof.
    unfold world_new. destruct (@bp_new T NT (nat * nat)) as [bp| |] eqn:Eb; cbn [bind]; try discriminate. intros H. injection H as <-. split.
    - assert (TO : forall {A}, table_ok (fun _ : nat => @None A) 0 [] 0). { intros A. refine (conj (NoDup_nil _) (conj _ (conj eq_refl _))); auto. intros i. cbn. tauto. }
      refine (conj (TO _) (conj _ (conj (conj (TO _) (conj _ _)) (conj (TO _) (conj _ _))))).
      + refine (conj _ (conj _ (conj _ (conj _ _)))); try easy. intros i. apply NoDup_nil.
      + refine (conj _ (conj _ _)); try easy. intros i. apply NoDup_nil. 
      + easy.
      + refine (conj _ (conj _ _)); try easy. intros i. apply NoDup_nil.
      + easy.
    - refine (conj _ (conj _ _)); easy.
    - split; easy.
    - intros _ c. apply alt_nil.
    - split; [easy|]. exists pempty, no_pending, 0%Z. split; [now apply breach_new|]. split; easy.
    - intros f x. easy.
    - intros c x a b. easy.
  Qed.

  Lemma W_fixture w f x x' : W w -> w_fixtures w f = Some x -> view_f x' = view_f x -> W (put_fixture f x' w).
  Proof.
    intros H Hf Hv. apply (W_frame True any w); auto; try apply H.
    - refine (conj _ (conj _ (conj _ (conj _ (conj _ (conj _ _)))))); auto. intros i. cbn. unfold put. destruct (Nat.eqb_spec i f) as [->|]; auto. rewrite Hf. cbn. now rewrite Hv.
    - eapply fits_ext; [|apply (W_fits _ _ _ H)]. intros i. cbn. unfold put. destruct (Nat.eqb_spec i f) as [->|]; auto. rewrite Hf. cbn. now rewrite Hv.
  Qed.
  Lemma body_setter_view s (b : body T) : view_b (body_setter s b) = view_b b.
  Proof.
    assert (A : forall f (b : body T), view_b (set_awake f b) = view_b b). { intros f c. unfold set_awake. destruct (is_static c); auto. destruct f; reflexivity. }
    destruct s as [f|f|f|v|v|q wake|x|x|x]; cbn [body_setter]; auto; try reflexivity.
    - unfold set_sleeping_allowed. destruct f; auto. now rewrite A.
    - unfold set_linear_velocity. destruct (is_static b); auto. destruct (_ >? _); cbn; [|reflexivity]. exact (A true b).
    - unfold set_angular_velocity. destruct (is_static b); auto. destruct (_ >? _); cbn; [|reflexivity]. exact (A true b).
    - assert (A' : forall (b : body T), view_b (wake_if wake b) = view_b b) by (intros c; unfold wake_if; destruct (_ && _); auto).
      destruct q; cbn [apply_push]; unfold apply_force, apply_force_to_center, apply_torque, apply_linear_impulse, apply_linear_impulse_to_center, apply_angular_impulse;
        (destruct (negb (is_dynamic b)); [reflexivity|]; cbv zeta; destruct (is_awake _); [exact (A' b)|exact (A' b)]).
  Qed.
  Lemma W_body w i b b' : W w -> w_bodies w i = Some b -> view_b b' = view_b b -> W (put_body i b' w).
  Proof. intros H Hb Hv. apply (W_phys _ _ w); auto. apply (phys_body True any w w i b b'); auto; [now apply phys_self|]. now left. Qed.
  Lemma W_contact w c x s : W w -> w_contacts w c = Some x -> W (put_contact c (contact_setter s x) w).
  Proof.
    intros H Hc. apply (W_phys _ _ w); auto. apply (phys_contact True any w w c x); auto.
    - now apply phys_self.
    - now destruct s.
    - destruct (W_nums _ _ _ H) as [_ N]. destruct (N _ _ Hc) as [_ N2]. split; [now left|]. destruct s; exact N2.
    - now destruct s.
  Qed.
  Lemma sat_mod {A} (o : option A) (m : A -> res world) Q : (forall x, o = Some x -> sat True (m x) Q) -> sat True (bind (unwrap o) m) Q.
  Proof. intros H. destruct o; cbn; auto. Qed.
  Lemma sat_unlocked w (m : res world) Q : (w_locked w = false -> sat True m Q) -> sat True (b2_assert (negb (w_locked w)) ;;; m) Q.
  Proof. destruct (w_locked w); cbn; auto. Qed.

  Lemma kept_eq w w' : w_contacts w' = w_contacts w -> kept_contacts w w'.
  Proof. intros Q c x. rewrite Q. eauto. Qed.
  Lemma kept_g w w' : (forall c, g_c (graph_of w') c = g_c (graph_of w) c) -> kept_contacts w w'.
  Proof. intros Q c x Hx. specialize (Q c). cbn in Q. rewrite Hx in Q. destruct (w_contacts w c) as [y|]; [|easy]. exists y. split; auto. cbn in Q. congruence. Qed.
  Lemma kept_g' w w' : (forall c, g_c (graph_of w') c = None \/ g_c (graph_of w') c = g_c (graph_of w) c) -> kept_contacts w w'.
  Proof. intros Q c x Hx. specialize (Q c). cbn in Q. rewrite Hx in Q. destruct Q as [Q|Q]; [easy|]. destruct (w_contacts w c) as [y|]; [|easy]. exists y. split; auto. cbn in Q. congruence. Qed.
  Lemma kept_cf w w' : (forall c, option_map view_cf (w_contacts w' c) = None \/ option_map view_cf (w_contacts w' c) = option_map view_cf (w_contacts w c)) -> kept_contacts w w'.
  Proof. intros Q c x Hx. specialize (Q c). rewrite Hx in Q. destruct Q as [Q|Q]; [easy|]. destruct (w_contacts w c) as [y|]; [|easy]. exists y. split; auto. cbn in Q. unfold view_cf in Q. congruence. Qed.
  Lemma kept_links w w' : links w w' -> kept_contacts w w'.
  Proof. intros L. apply kept_g. pose proof (links_geq _ _ L) as (_ & _ & Gc & _). exact Gc. Qed.
  Lemma kept_put w c x x' : w_contacts w c = Some x -> view_c x' = view_c x -> kept_contacts w (put_contact c x' w).
  Proof. intros Hx V k y. cbn. unfold put. destruct (Nat.eqb_spec k c) as [->|]; [|eauto]. intros Q. injection Q as <-. eauto. Qed.

  Definition is_step (c : wcall T) : bool := match c with WStep _ => true | _ => false end.
  Definition called (c : wcall T) w w' : Prop := W w' /\ (if is_step c then admitted E w w' else kept_contacts w w').
  Theorem W_call c w : W w -> sat True (wrun E c w) (called c w).
  Proof.
    intros H. pose proof env_any as EO. assert (Z : True \/ (#1 >? (#0 : T)) = true) by now left.
    assert (RM : forall ws ty, light (T:=T) True ws ty) by (intros ws ty fs b _ _; apply noF_reset).
    assert (CO : classes_ok True w) by (unfold classes_ok; intros; now left).
    assert (Lf : forall i b f, w_bodies w i = Some b -> In f (b_fixtures b) -> w_fixtures w f <> None).
    { intros i b f Hb Hf. destruct (W_graph _ _ _ H) as (_ & (_ & _ & F3 & _) & _). assert (In f (fixtures_of (graph_of w) i)) as K by (unfold fixtures_of; cbn; now rewrite Hb). apply F3 in K. unfold owner in K. cbn in K. now destruct (w_fixtures w f). }
    destruct c as [d|i|i d|i f|a b cc|j|i ty|i f|i pos a|i s|i d|i|i f|f d|f|f s|f s|c s|f|f|f|f| |o|dt]; cbn [wrun].
    - destruct (w_locked w) eqn:L; [unfold create_body; rewrite L; exact I|]. apply sat_bind. eapply sat_mono; [apply (sat_create_body True any Z w d H L)|].
      + unfold body_new. cbv zeta. noF.
      + intros [w' i] (H' & _ & _ & _ & _ & Q). split; [exact H'|]. apply kept_eq. rewrite Q. reflexivity.
    - destruct (w_locked w) eqn:L; [unfold destroy_body; rewrite L; destruct (Nat.ltb 0 _); exact I|]. destruct (w_bodies w i) as [b|] eqn:Eb; [|unfold destroy_body, get_body; rewrite L, Eb; destruct (Nat.ltb 0 _); exact I].
      eapply sat_mono; [apply (sat_destroy_body True any E Z w i H L); congruence|]. intros w' (H' & _ & _ & _ & _ & _ & _ & Q & _). split; [exact H'|]. apply kept_g'. intros c. rewrite (Q c). destruct (member _ _); auto.
    - destruct (w_locked w) eqn:L; [unfold create_fixture; rewrite L; exact I|]. destruct (w_bodies w i) as [b|] eqn:Eb; [|unfold create_fixture, get_body; rewrite L, Eb; exact I].
      apply sat_bind. eapply sat_mono; [apply (sat_create_fixture True any w i d H L); [congruence| |intros; apply RM]|].
      + unfold def_fine. eapply sat_mono; [apply noF_count|]. intros n _ xf k _. apply noF_aabb.
      + intros [w' f] (H' & _ & _ & _ & _ & Q & _). split; [exact H'|]. now apply kept_eq.
    - destruct (w_locked w) eqn:L; [unfold destroy_fixture; rewrite L; exact I|]. destruct (w_bodies w i) as [b|] eqn:Eb; [|unfold destroy_fixture, get_body; rewrite L, Eb; exact I].
      destruct (w_fixtures w f) as [x|] eqn:Ef; [|unfold destroy_fixture, fixture_body, get_fixture, get_body; rewrite L, Eb; cbn; rewrite Ef; exact I].
      destruct (f_body x) as [o|] eqn:Eo; [|unfold destroy_fixture, fixture_body, get_fixture, get_body; rewrite L, Eb; cbn; rewrite Ef; cbn; rewrite Eo; exact I].
      destruct (Nat.eqb_spec o i) as [->|No]; [|apply Nat.eqb_neq in No; unfold destroy_fixture, fixture_body, get_fixture, get_body; rewrite L, Eb; cbn; rewrite Ef; cbn; rewrite Eo; cbn; rewrite No; exact I].
      eapply sat_mono; [apply (sat_destroy_fixture True any E w i f H L); [|intros; apply RM]|].
      + unfold owner. cbn. now rewrite Ef.
      + intros w' (H' & _ & _ & _ & Q1 & Q2). split; [exact H'|]. apply kept_cf. intros c. destruct (on_fix w f c) eqn:Q; [left; now rewrite Q1|right; auto].
    - destruct (w_locked w) eqn:L; [unfold create_joint; rewrite L; exact I|]. destruct (Nat.eqb_spec a b) as [->|Nab]; [unfold create_joint; rewrite L, Nat.eqb_refl; exact I|].
      destruct (w_bodies w a) as [ba|] eqn:Ea; [|apply Nat.eqb_neq in Nab; unfold create_joint, mod_body, get_body; rewrite L, Nab; cbn; rewrite Ea; exact I].
      destruct (w_bodies w b) as [bb|] eqn:Eb.
      2:{ pose proof Nab as Q. apply Nat.eqb_neq in Nab. unfold create_joint, mod_body, get_body; rewrite L, Nab; cbn; rewrite Ea; cbn. rewrite put_ne, Eb by auto. exact I. }
      apply sat_bind. eapply sat_mono; [apply (sat_create_joint True any w a b cc H L Nab); congruence|]. intros [w' i] (_ & H' & Q & _). split; [exact H'|]. apply kept_g. destruct Q as (_ & _ & Q & _). exact Q.
    - destruct (w_locked w) eqn:L; [unfold destroy_joint; rewrite L; exact I|]. destruct (w_joints w j) as [x|] eqn:Ej; [|unfold destroy_joint, get_joint; rewrite L, Ej; exact I].
      eapply sat_mono; [apply (sat_destroy_joint True any w j H L); congruence|]. intros w' (H' & Q & _). split; [exact H'|]. apply kept_g. destruct Q as (_ & _ & Q & _). exact Q.
    - destruct (w_locked w) eqn:L; [unfold set_type; rewrite L; exact I|]. destruct (w_bodies w i) as [b|] eqn:Eb; [|unfold set_type, get_body; rewrite L, Eb; exact I].
      eapply sat_mono; [apply (sat_set_type True any E w i ty b H L Eb (RM _ _))|]. intros w' (H' & Q). split; [exact H'|]. destruct (btype_eqb _ _); [subst; now apply kept_eq|]. destruct Q as (_ & _ & _ & Q). apply kept_cf. intros c. rewrite Q. destruct (member _ _); auto.
    - destruct (w_locked w) eqn:L; [unfold set_enabled; rewrite L; exact I|]. destruct (w_bodies w i) as [b|] eqn:Eb; [|unfold set_enabled, mod_body, get_body; rewrite L, Eb; exact I].
      eapply sat_mono; [apply (sat_set_enabled True any E w i b f H L Eb); now left|]. intros w' (H' & Q). split; [exact H'|]. destruct f; [destruct Q as (_ & _ & _ & _ & Q & _); now apply kept_eq|]. destruct Q as (_ & _ & _ & Q & _). apply kept_cf. intros c. rewrite Q. destruct (member _ _); auto.
    - destruct (w_locked w) eqn:L; [unfold set_transform; rewrite L; exact I|]. destruct (w_bodies w i) as [b|] eqn:Eb; [|unfold set_transform, get_body; rewrite L, Eb; exact I].
      eapply sat_mono; [apply (sat_set_transform True any w i pos a H L); congruence|]. intros w' (H' & Q). split; [exact H'|]. apply kept_links in Q. exact Q.
    - apply sat_mod. intros b Hb. apply sat_ok. split; [|now apply kept_eq]. apply (W_body w i b); auto. apply body_setter_view.
    - apply sat_unlocked. intros L. apply sat_mod. intros b Hb. apply sat_bind. assert (noF (set_mass_data d b)) as N by (unfold set_mass_data; cbv zeta; noF).
      eapply sat_mono; [apply sat_eq, N|]. intros b' (Q & _). apply sat_ok. destruct (set_mass_run _ _ _ Q) as (K & _). destruct (kept_view True _ _ K) as [K1 _]. split; [|now apply kept_eq]. eapply W_body; eauto.
    - destruct (w_bodies w i) as [b|] eqn:Eb; [|unfold reset_mass, get_body; rewrite Eb; exact I]. eapply sat_mono; [apply (sat_reset_mass True w i b Eb); [|apply RM]|].
      + intros f. now apply (Lf i b).
      + intros w' K. split; [eapply calm_W; eauto|]. apply kept_links. eapply calm_links; eauto.
    - apply sat_mod. intros b Hb. apply sat_bind. eapply sat_mono; [apply sat_get_all; intros g Kg; apply sat_fixture; auto; eapply Lf; eauto|]. intros fs _. apply sat_bind.
      assert (noF (set_fixed_rotation f fs b)) as N by (unfold set_fixed_rotation; cbv zeta; destruct (Bool.eqb _ _); [exact I|apply noF_reset]).
      eapply sat_mono; [apply sat_eq, N|]. intros b' (Q & _). apply sat_ok. split; [|now apply kept_eq]. apply (W_body w i b); auto. revert Q. unfold set_fixed_rotation. cbv zeta. destruct (Bool.eqb _ _); [now intros [= <-]|].
      intros Q. destruct (reset_run _ _ _ Q) as (K & _). destruct (kept_view True _ _ K) as [K1 _]. now rewrite K1.
    - destruct (w_fixtures w f) as [x|] eqn:Ef; [|unfold set_filter_data, get_fixture; rewrite Ef; exact I]. eapply sat_mono; [apply (sat_set_filter_data True any w f d H); [congruence|now left]|]. intros w' (H' & Q & _). split; [exact H'|]. apply kept_g. destruct Q as (_ & _ & Q & _). exact Q.
    - destruct (w_fixtures w f) as [x|] eqn:Ef; [|unfold refilter, get_fixture; rewrite Ef; exact I]. eapply sat_mono; [apply (sat_refilter True any w f H); [congruence|now left]|]. intros w' (H' & _ & Q). split; [exact H'|]. now apply kept_links.
    - destruct (w_fixtures w f) as [x|] eqn:Ef; [|unfold set_sensor, get_fixture; rewrite Ef; exact I]. eapply sat_mono; [apply (sat_set_sensor True any w f s H); congruence|]. intros w' (H' & _ & _ & _ & Q & _). split; [exact H'|]. now apply kept_eq.
    - apply sat_mod. intros x Hx. apply sat_ok. split; [|now apply kept_eq]. apply (W_fixture w f x); auto. now destruct s.
    - apply sat_mod. intros x Hx. apply sat_ok. split; [now apply W_contact|]. apply (kept_put w c x); auto. now destruct s.
    - eapply sat_mono; [apply (sat_set_allow_sleeping True any w f H)|]. intros w' (H' & Q). split; [exact H'|]. apply kept_g. destruct Q as (_ & _ & Q & _). exact Q.
    - apply sat_ok. split; [|now apply kept_eq]. eapply W_frame0; eauto.
    - apply sat_ok. split; [|now apply kept_eq]. eapply W_frame0; eauto.
    - apply sat_ok. split; [|now apply kept_eq]. eapply W_frame0; eauto.
    - eapply sat_mono; [apply (sat_clear_forces True any w H)|]. intros w' P. split; [eapply W_phys; eauto|]. apply kept_links, P.
    - destruct (w_locked w) eqn:L; [unfold world_shift; rewrite L; exact I|]. eapply sat_mono; [apply (sat_world_shift True any w o H L I)|]. intros w' (H' & Q). split; [exact H'|]. apply kept_g. destruct Q as (_ & _ & Q & _). exact Q.
    - eapply sat_mono; [apply (sat_step True any E EO (or_introl I) (or_introl I) dt w H CO (or_introl I))|]. intros w' (H' & _ & Q & _). split; [exact H'|exact Q].
  Qed.
  Theorem reach_W w : wreach E w -> W w.
  Proof.
    induction 1 as [l g w Hn|w c w' _ IH Hc]; [eapply W_new; eauto|]. exact (proj1 (sat_true _ _ (W_call c w IH) _ Hc)).
  Qed.
  (* no call runs out of fuel: every public call of a reachable world returns or panics *)
  Theorem reach_ends w c : wreach E w -> wrun E c w <> Fuel.
  Proof. intros H. pose proof (W_call c w (reach_W w H)) as K. destruct (wrun E c w); easy. Qed.
End Hist.
