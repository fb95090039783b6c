(** Creating and destroying contacts. *)
From Coq Require Import List ZArith Bool Arith Lia.
From Verif Require Import Base Num Math Collision Manifold Filter ShapeModel ListFacts ManifoldProofs TreeModel TreeSpec BroadModel BroadSpec BroadFinal DynModel WorldModel WorldGraph WorldGops WorldLogic WorldPhys.
Import ListNotations.

Lemma filter_all {A} (f : A -> bool) l : (forall x, In x l -> f x = true) -> List.filter f l = l.
Proof. induction l as [|x l IH]; intros H; cbn; auto. rewrite (H x) by (cbn; auto). f_equal. apply IH. intros y Hy. apply H. now right. Qed.
Lemma sat_remove_edge p c s l (Q : list gedge -> Prop) : (exists o, In (GEdge c s o) l) -> (forall e, In e l -> ge_item e = c -> ge_side e = s) -> Q (without_edge c l) -> sat p (remove_edge c s l) Q.
Proof.
  intros (o & H) K HQ. unfold remove_edge. replace (existsb (edge_eqb c s) l) with true.
  - cbn. replace (List.filter (fun e => negb (edge_eqb c s e)) l) with (without_edge c l); auto. apply filter_ext_in. intros e He. unfold edge_eqb.
    destruct (Nat.eqb_spec (ge_item e) c) as [E|]; auto. rewrite (K e He E). cbn. now destruct s.
  - symmetry. apply existsb_exists. exists (GEdge c s o). split; auto. unfold edge_eqb. cbn. rewrite Nat.eqb_refl. now destruct s.
Qed.

Section Contact.
  Context {T : Type} `{NT : Num T} `{TT : NumTrig T} `{VT : NumValid T}.
  Notation world := (world T).
  Local Open Scope num_scope.
  Implicit Types w : world.
  Variable p : Prop.
  Variable oks : vec2 T -> Prop.
  Variable E : env T.
  Hypothesis EO : env_ok p E.
  Notation bok := (bok p).
  Notation nums := (nums p).

  (* only bodies changed, and only in what is not linked *)
  Definition calm w w' : Prop :=
    w' = set_w_bodies (w_bodies w') w /\ (forall j, option_map view_b (w_bodies w' j) = option_map view_b (w_bodies w j)) /\
    ((forall j b, w_bodies w j = Some b -> bok b) -> forall j b, w_bodies w' j = Some b -> bok b).
  Lemma world_eta w : w = set_w_bodies (w_bodies w) w.
  Proof. now destruct w. Qed.
  Lemma calm_refl w : calm w w.
  Proof. refine (conj (world_eta w) (conj _ _)); auto. Qed.
  Lemma calm_trans w w' w'' : calm w w' -> calm w' w'' -> calm w w''.
  Proof.
    intros (A & B & C) (A' & B' & C'). refine (conj _ (conj _ _)).
    - rewrite A' at 1. rewrite A. reflexivity.
    - intros j. congruence.
    - intros H. apply C', C, H.
  Qed.
  Lemma calm_body w i f : w_bodies w i <> None -> (forall b, bok b -> bok (f b)) -> (forall b, view_b (f b) = view_b b) -> sat p (mod_body i f w) (calm w).
  Proof.
    intros H Hk Hv. unfold mod_body. apply sat_bind, sat_body; auto. intros b Hb. cbn. refine (conj eq_refl (conj _ _)).
    - intros j. cbn. unfold put. destruct (Nat.eqb_spec j i) as [->|]; auto. rewrite Hb. cbn. now rewrite Hv.
    - intros K j b'. cbn. unfold put. destruct (Nat.eqb_spec j i) as [->|]; [|apply K]. intros Q. injection Q as <-. eauto.
  Qed.
  Lemma calm_live w w' i : calm w w' -> (w_bodies w' i <> None <-> w_bodies w i <> None).
  Proof. intros (_ & B & _). eapply map_live. apply B. Qed.

  Lemma sat_wake_touching w c fa fb a b : w_fixtures w (c_fa c) = Some fa -> w_fixtures w (c_fb c) = Some fb -> f_body fa = Some a -> f_body fb = Some b ->
    w_bodies w a <> None -> w_bodies w b <> None -> sat p (wake_touching c w) (calm w).
  Proof.
    intros Ea Eb Ba Bb La Lb. unfold wake_touching. apply sat_bind, sat_fixture; [congruence|]. intros x Hx. replace x with fa by congruence. clear x Hx.
    apply sat_bind, sat_fixture; [congruence|]. intros x Hx. replace x with fb by congruence. clear x Hx. destruct (_ && _ && _); [|apply calm_refl].
    rewrite Ba. cbn [unwrap bind]. apply sat_bind. eapply sat_mono; [apply calm_body; auto using bok_awake; intros; apply view_awake|]. intros w1 C1. rewrite Bb. cbn [unwrap bind].
    eapply sat_mono; [apply calm_body; auto using bok_awake; [now apply (calm_live w w1)|intros; apply view_awake]|]. intros w2 C2. eapply calm_trans; eauto.
  Qed.

  (* what is not touched by the destruction of a contact *)
  Definition outer w w' : Prop := switches w' = switches w /\ (forall f, w_fixtures w' f = w_fixtures w f) /\ w_bp w' = w_bp w.
  Lemma outer_refl w : outer w w.
  Proof. repeat split. Qed.
  Lemma outer_trans w w' w'' : outer w w' -> outer w' w'' -> outer w w''.
  Proof. intros (A & B & C) (A' & B' & C'). refine (conj _ (conj _ _)); intros; congruence. Qed.
  Lemma outer_fits w w' : outer w w' -> bfits oks w -> bfits oks w'.
  Proof. intros (A & B & C) F. unfold bfits. rewrite C. eapply fits_ext; [|exact F]. intros f. cbn. now rewrite B. Qed.
  Definition destroyed (i : nat) w w' : Prop :=
    geq (graph_of w') (drop_contact i (graph_of w)) /\ outer w w' /\ nums w' /\ ev_ok w' /\
    (forall c, c <> i -> option_map view_cf (w_contacts w' c) = option_map view_cf (w_contacts w c)).

  Lemma sat_destroy w i : contacts_ok (graph_of w) -> nums w -> ev_ok w -> w_contacts w i <> None -> sat p (destroy_contact E i w) (destroyed i w).
  Proof.
    intros HC [N1 N2] V Hi. unfold destroy_contact. apply sat_bind, sat_contact; auto. intros c Hc.
    destruct (contact_parts w i c HC Hc) as (fa & fb & a & b & ba & bb & Efa & Efb & Ea & Eb & Hab & Eba & Ebb & Ia & Ib & _).
    unfold fixture_body at 1. unfold get_fixture at 1. rewrite Efa. cbn [unwrap bind]. rewrite Ea. cbn [unwrap bind].
    unfold fixture_body at 1. unfold get_fixture at 1. rewrite Efb. cbn [unwrap bind]. rewrite Eb. cbn [unwrap bind].
    (* the callback *)
    apply sat_bind. apply (sat_mono _ (fun w1 => w1 = set_w_log (w_log w1) (set_w_contacts (w_contacts w1) w) /\ (exists c1, w_contacts w1 i = Some c1 /\ view_cf c1 = view_cf c) /\
      (forall j, j <> i -> w_contacts w1 j = w_contacts w j) /\
      (w_listener w = true -> forall j, alt (if Nat.eqb j i then false else touches w j) (talk j (w_log w1))))).
    { destruct (w_listener w) eqn:HL; [|cbn [andb sat]; refine (conj _ (conj _ (conj _ _))); [now destruct w|eauto|auto|easy]].
      destruct (cf_touching (c_flags c)) eqn:Ht; cbn [andb].
      - unfold listen, get_contact. rewrite Hc. cbn [unwrap bind sat]. refine (conj _ (conj _ (conj _ _))).
        + reflexivity.
        + eexists. split; [cbn; now rewrite put_eq|]. reflexivity.
        + intros j Hj. cbn. now rewrite put_ne.
        + intros _ j. change (w_log (log ?e ?x)) with (e :: w_log x). rewrite talk_log. specialize (V HL j). cbn. destruct (Nat.eqb_spec j i) as [->|Hj].
          * rewrite Nat.eqb_refl. unfold touches in V. rewrite Hc, Ht in V. now constructor.
          * rewrite Nat.eqb_sym. apply Nat.eqb_neq in Hj. rewrite Hj. exact V.
      - cbn [sat]. refine (conj _ (conj _ (conj _ _))); [now destruct w|eauto|auto|]. intros _ j. specialize (V HL j). destruct (Nat.eqb_spec j i) as [->|Hj]; auto.
        unfold touches in V. now rewrite Hc, Ht in V. }
    intros w1 (W1 & (c1 & Hc1 & Vc1) & O1 & V1). apply sat_bind.
    pose proof HC as (C1 & (E1 & E2 & E3) & C3 & C4). assert (Kc : g_c (graph_of w) i <> None) by (cbn; now rewrite Hc).
    assert (Cl : w_contact_list w1 = w_contact_list w) by (rewrite W1; reflexivity). rewrite Cl.
    assert (Bd : forall j, w_bodies w1 j = w_bodies w j) by (rewrite W1; reflexivity).
    apply sat_remove_id; [now apply C1|]. cbv zeta.
    assert (Sa : forall s o, In (GEdge i s o) (b_contacts ba) -> s = true).
    { intros s o K. assert (In (GEdge i s o) (contacts_of (graph_of w) a)) as K' by (unfold contacts_of; cbn; now rewrite Eba). apply E2 in K'. destruct s; auto. exfalso.
      assert (In (GEdge i false a) (contacts_of (graph_of w) b)) as Kb by (unfold contacts_of; cbn; now rewrite Ebb). apply E2 in Kb. destruct Kb, K'. congruence. }
    assert (Sb : forall s o, In (GEdge i s o) (b_contacts bb) -> s = false).
    { intros s o K. assert (In (GEdge i s o) (contacts_of (graph_of w) b)) as K' by (unfold contacts_of; cbn; now rewrite Ebb). apply E2 in K'. destruct s; auto. exfalso.
      assert (In (GEdge i true b) (contacts_of (graph_of w) a)) as Ka by (unfold contacts_of; cbn; now rewrite Eba). apply E2 in Ka. destruct Ka, K'. congruence. }
    assert (So : forall j v s o, j <> a -> j <> b -> w_bodies w j = Some v -> ~ In (GEdge i s o) (b_contacts v)).
    { intros j v s o Ja Jb Hv K. assert (In (GEdge i s o) (contacts_of (graph_of w) j)) as K' by (unfold contacts_of; cbn; now rewrite Hv). apply E2 in K'. destruct K' as [K1 K2].
      assert (In (GEdge i true b) (contacts_of (graph_of w) a)) as Ka by (unfold contacts_of; cbn; now rewrite Eba). apply E2 in Ka. destruct Ka. destruct s; cbn in *; congruence. }
    apply sat_bind. unfold get_body at 1. cbn [set_w_contact_list w_bodies]. rewrite Bd, Eba. cbn [unwrap sat].
    apply sat_bind, sat_remove_edge; [eauto|intros [x s o] He <-; cbn in *; eauto|].
    apply sat_bind. unfold get_body at 1. cbn [put_body set_w_bodies set_w_contact_list w_bodies]. rewrite put_ne by auto. rewrite Bd, Ebb. cbn [unwrap sat].
    apply sat_bind, sat_remove_edge; [eauto|intros [x s o] He <-; cbn in *; eauto|].
    set (w2 := put_body b (set_b_contacts (without_edge i (b_contacts bb)) bb) (put_body a (set_b_contacts (without_edge i (b_contacts ba)) ba) (set_w_contact_list (without i (w_contact_list w)) w1))).
    apply sat_bind. assert (G2 : get_contact w2 i = Ok c1) by (unfold get_contact; subst w2; cbn; now rewrite Hc1). rewrite G2. cbn [sat]. clear G2.
    assert (F2 : forall f, w_fixtures w2 f = w_fixtures w f) by (subst w2; rewrite W1; reflexivity).
    assert (B2 : forall j, w_bodies w2 j = if Nat.eqb j b then Some (set_b_contacts (without_edge i (b_contacts bb)) bb) else if Nat.eqb j a then Some (set_b_contacts (without_edge i (b_contacts ba)) ba) else w_bodies w j).
    { intros j. subst w2. cbn. unfold put. now rewrite Bd. }
    assert (Vc : c_fa c1 = c_fa c /\ c_fb c1 = c_fb c) by (unfold view_cf, view_c in Vc1; split; congruence). destruct Vc as [Vfa Vfb].
    apply sat_bind. eapply sat_mono; [apply (sat_wake_touching w2 c1 fa fb a b)|].
    { now rewrite F2, Vfa. } { now rewrite F2, Vfb. } { exact Ea. } { exact Eb. }
    { rewrite B2. destruct (Nat.eqb a b); [easy|]. now rewrite Nat.eqb_refl. } { rewrite B2. now rewrite Nat.eqb_refl. }
    intros w3 (W3 & B3 & K3). apply sat_bind.
    assert (Cn : w_contact_count w3 = w_contact_count w) by (rewrite W3; subst w2; rewrite W1; reflexivity). rewrite Cn.
    assert (Pos : 1 <= w_contact_count w). { destruct C1 as (_ & Q1 & Q2 & _). cbn in Q2. rewrite Q2. assert (In i (w_contact_list w)) as Hin by now apply Q1. destruct (w_contact_list w); [easy|cbn; lia]. }
    apply sat_sub; auto.
    assert (Ct : forall j, w_contacts w3 j = w_contacts w1 j) by (rewrite W3; reflexivity).
    assert (Fx : forall f, w_fixtures w3 f = w_fixtures w f) by (rewrite W3; exact F2).
    assert (R1 : switches w3 = switches w) by (rewrite W3; subst w2; rewrite W1; reflexivity). assert (R2 : w_bp w3 = w_bp w) by (rewrite W3; subst w2; rewrite W1; reflexivity).
    assert (R3 : w_log w3 = w_log w1) by (rewrite W3; reflexivity). assert (R4 : w_listener w3 = w_listener w) by (rewrite W3; subst w2; rewrite W1; reflexivity).
    assert (Bv : forall j, option_map view_b (w_bodies w3 j) = option_map (on_contacts (without_edge i)) (option_map view_b (w_bodies w j))).
    { intros j. rewrite B3, B2. destruct (Nat.eqb_spec j b) as [->|Jb]; [now rewrite Ebb|]. destruct (Nat.eqb_spec j a) as [->|Ja]; [now rewrite Eba|].
      destruct (w_bodies w j) as [v|] eqn:Ev; auto. cbn. unfold on_contacts. cbn. f_equal. unfold view_b. f_equal. unfold without_edge. symmetry. apply filter_all. intros [x s o] He. cbn. destruct (Nat.eqb_spec x i) as [->|]; auto. exfalso. exact (So j v s o Ja Jb Ev He). }
    refine (conj _ (conj _ (conj _ (conj _ _)))).
    - unfold geq. refine (conj Bv (conj _ (conj _ (conj _ _)))).
      + intros f. cbn. now rewrite Fx.
      + intros j. cbn. unfold put. destruct (Nat.eqb_spec j i) as [->|Hj]; auto. now rewrite Ct, O1.
      + intros j. rewrite W3. subst w2. rewrite W1. reflexivity.
      + rewrite W3. subst w2. rewrite W1. repeat split.
    - refine (conj _ (conj Fx R2)). rewrite <- R1. reflexivity.
    - split.
      + intros j x Hx. cbn in Hx. refine (K3 _ j x Hx). intros k y. rewrite B2. destruct (Nat.eqb_spec k b) as [->|Kb]; [intros Q; injection Q as <-; exact (N1 b bb Ebb)|].
        destruct (Nat.eqb_spec k a) as [->|Ka]; [intros Q; injection Q as <-; exact (N1 a ba Eba)|apply N1].
      + intros j x. cbn. unfold put. destruct (Nat.eqb_spec j i) as [->|Hj]; [easy|]. rewrite Ct, O1 by auto. apply N2.
    - intros HL j. cbn in HL. rewrite R4 in HL. pose proof (V1 HL j) as X. unfold touches at 1. change (w_log (set_w_contacts ?a (set_w_contact_count ?b ?x))) with (w_log x). rewrite R3. cbn [set_w_contacts w_contacts]. unfold put. destruct (Nat.eqb_spec j i) as [Q|Hj]; [exact X|]. unfold touches in X. rewrite Ct, O1 by auto. exact X.
    - intros j Hj. cbn. rewrite put_ne by auto. now rewrite Ct, O1.
  Qed.

  (** ** new contacts *)
  (* a joint between the two bodies that forbids collision *)
  Definition barred (g : graph T) (a b : nat) : Prop :=
    exists j s v, g_j g j = Some v /\ v_collide v = false /\ jbody g j s = Some a /\ jbody g j (negb s) = Some b.
  Lemma barred_sym g a b : barred g a b -> barred g b a.
  Proof. intros (j & s & v & H1 & H2 & H3 & H4). exists j, (negb s), v. now rewrite negb_involutive. Qed.
  Definition dynamic_at w i : Prop := exists b, w_bodies w i = Some b /\ b_type b = DynamicBody.

  Lemma sat_any_blocks w o l : (forall e, In e l -> w_joints w (ge_item e) <> None) ->
    sat p (any_blocks w o l) (fun r => r = true <-> exists e j, In e l /\ ge_other e = o /\ w_joints w (ge_item e) = Some j /\ j_collide j = false).
  Proof.
    induction l as [|e l IH]; intros H; cbn [any_blocks].
    - cbn. split; [easy|]. now intros (e & j & K & _).
    - assert (IH' : sat p (any_blocks w o l) (fun r => r = true <-> exists e j, In e l /\ ge_other e = o /\ w_joints w (ge_item e) = Some j /\ j_collide j = false)).
      { apply IH. intros e' He'. apply H. now right. }
      clear IH. apply sat_bind. unfold joint_blocks. destruct (Nat.eqb_spec (ge_other e) o) as [Eo|Eo].
      + apply sat_bind, sat_joint; [apply H; now left|]. intros j Hj. cbn [sat]. destruct (j_collide j) eqn:Ec; cbn [negb].
        * eapply sat_mono; [apply IH'|]. intros r Hr. rewrite Hr. split; intros (e' & j' & K1 & K2); [exists e', j'; split; auto; now right|].
          destruct K1 as [<-|K1]; [|exists e', j'; auto]. destruct K2 as (_ & K3 & K4). congruence.
        * cbn. split; auto. intros _. exists e, j. cbn. auto.
      + cbn [sat]. eapply sat_mono; [apply IH'|]. intros r Hr. rewrite Hr. split; intros (e' & j' & K1 & K2); exists e', j'; [split; auto; now right|].
        destruct K1 as [<-|K1]; [|auto]. now destruct K2.
  Qed.
  Lemma sat_bodies_collide w a b : joints_ok (graph_of w) -> w_bodies w a <> None -> w_bodies w b <> None ->
    sat p (bodies_collide w a b) (fun r => r = true <-> (dynamic_at w a \/ dynamic_at w b) /\ ~ barred (graph_of w) a b).
  Proof.
    intros (J1 & (E1 & E2 & E3) & J3) Ha Hb. unfold bodies_collide. apply sat_bind, sat_body; auto. intros x Hx. apply sat_bind, sat_body; auto. intros y Hy.
    assert (Dx : is_dynamic x = true <-> dynamic_at w a).
    { unfold is_dynamic, dynamic_at. split; [intros K; exists x; split; auto; now destruct (b_type x)|]. intros (z & Hz & K). replace x with z by congruence. now rewrite K. }
    assert (Dy : is_dynamic y = true <-> dynamic_at w b).
    { unfold is_dynamic, dynamic_at. split; [intros K; exists y; split; auto; now destruct (b_type y)|]. intros (z & Hz & K). replace y with z by congruence. now rewrite K. }
    destruct (negb (is_dynamic x) && negb (is_dynamic y)) eqn:En.
    - cbn. apply andb_true_iff in En. rewrite !negb_true_iff in En. destruct En. split; [easy|]. rewrite <- Dx, <- Dy. intros [[K|K] _]; congruence.
    - assert (Dn : dynamic_at w a \/ dynamic_at w b). { rewrite <- Dx, <- Dy. destruct (is_dynamic x), (is_dynamic y); cbn in En; auto. }
      assert (Je : forall j s o, In (GEdge j s o) (b_joints x) <-> jbody (graph_of w) j s = Some a /\ jbody (graph_of w) j (negb s) = Some o).
      { intros j s o. rewrite <- E2. unfold joints_of. cbn. now rewrite Hx. }
      apply sat_bind. eapply sat_mono; [apply sat_any_blocks|].
      + intros [j s o] He. cbn. apply Je in He. destruct He as [He _]. unfold jbody in He. cbn in He. now destruct (w_joints w j).
      + intros r Hr. cbn. rewrite negb_true_iff. rewrite <- not_true_iff_false, Hr. split.
        * intros K. split; auto. intros (j & s & v & K1 & K2 & K3 & K4). apply K. assert (In (GEdge j s b) (b_joints x)) as Hin by now apply Je.
          cbn in K1. destruct (w_joints w j) as [jj|] eqn:Ej; [|easy]. exists (GEdge j s b), jj. cbn. injection K1 as <-. auto.
        * intros [_ K] ([j s o] & jj & K1 & K2 & K3 & K4). cbn in *. subst o. apply K. apply Je in K1. exists j, s, (view_j jj). cbn. rewrite K3. auto.
  Qed.

  Lemma same_pair_spec (c : contact T) fa ia fb ib : same_pair c fa ia fb ib = true <-> pair_of (CView fa ia fb ib) (view_c c).
  Proof.
    unfold same_pair, pair_of, view_c. cbn. rewrite orb_true_iff, !andb_true_iff, !Nat.eqb_eq. split.
    - intros [[[[-> ->] ->] ->]|[[[-> ->] ->] ->]]; auto.
    - intros [K|K]; injection K as -> -> -> ->; auto.
  Qed.
  Lemma sat_pair_exists w a fa ia fb ib l : (forall e, In e l -> w_contacts w (ge_item e) <> None) ->
    sat p (pair_exists w a fa ia fb ib l) (fun r => r = true <-> exists e c, In e l /\ ge_other e = a /\ w_contacts w (ge_item e) = Some c /\ pair_of (CView fa ia fb ib) (view_c c)).
  Proof.
    induction l as [|e l IH]; intros H; cbn [pair_exists].
    - cbn. split; [easy|]. now intros (e & j & K & _).
    - assert (IH' : sat p (pair_exists w a fa ia fb ib l) (fun r => r = true <-> exists e c, In e l /\ ge_other e = a /\ w_contacts w (ge_item e) = Some c /\ pair_of (CView fa ia fb ib) (view_c c))).
      { apply IH. intros e' He'. apply H. now right. }
      clear IH. destruct (Nat.eqb_spec (ge_other e) a) as [Eo|Eo].
      + apply sat_bind, sat_contact; [apply H; now left|]. intros c Hc. pose proof (same_pair_spec c fa ia fb ib) as SP. destruct (same_pair c fa ia fb ib).
        * cbn. split; auto. intros _. exists e, c. cbn. repeat split; auto. now apply SP.
        * eapply sat_mono; [apply IH'|]. intros r Hr. rewrite Hr. split; intros (e' & c' & K1 & K2); [exists e', c'; split; auto; now right|].
          destruct K1 as [<-|K1]; [|exists e', c'; auto]. destruct K2 as (_ & K3 & K4). exfalso. replace c' with c in K4 by congruence. apply SP in K4. easy.
      + eapply sat_mono; [apply IH'|]. intros r Hr. rewrite Hr. split; intros (e' & c' & K1 & K2); exists e', c'; [split; auto; now right|].
        destruct K1 as [<-|K1]; [|auto]. now destruct K2.
  Qed.

  Definition fresh_contact (x : contact T) : Prop :=
    cf_filter (c_flags x) = false /\ cf_touching (c_flags x) = false /\ c_toi_count x = 0%Z /\ mf_count (c_manifold x) = 0 /\ length (mf_points (c_manifold x)) = 2.
  Definition bare (b : body T) : body T := set_b_contacts [] b.
  (* contacts were added, nothing else happened *)
  Definition grow w w' : Prop :=
    switches w' = switches w /\ (forall f, w_fixtures w' f = w_fixtures w f) /\ (forall j, w_joints w' j = w_joints w j) /\
    (forall i, option_map bare (w_bodies w' i) = option_map bare (w_bodies w i)) /\
    w_next_contact w <= w_next_contact w' /\
    (forall c, c < w_next_contact w -> w_contacts w' c = w_contacts w c) /\
    (forall c x, w_next_contact w <= c -> w_contacts w' c = Some x -> fresh_contact x).
  Lemma grow_refl w : (forall c, w_next_contact w <= c -> w_contacts w c = None) -> grow w w.
  Proof. intros H. refine (conj eq_refl (conj _ (conj _ (conj _ (conj _ (conj _ _)))))); auto. intros c x K1 K2. rewrite H in K2 by auto. easy. Qed.
  Lemma grow_trans w w' w'' : grow w w' -> grow w' w'' -> grow w w''.
  Proof.
    intros (A & B & C & D & F & G & H) (A' & B' & C' & D' & F' & G' & H'). refine (conj _ (conj _ (conj _ (conj _ (conj _ (conj _ _)))))); try congruence; try (intros; congruence); try lia.
    - intros c Hc. rewrite G' by lia. auto.
    - intros c x Hc Hx. destruct (Nat.lt_ge_cases c (w_next_contact w')) as [K|K]; [rewrite G' in Hx by auto; eauto|eauto].
  Qed.

  (* the contact is new: between different bodies, one of them dynamic, no joint forbids it, the filter agreed *)
  Definition eligible w (v : cview) (a b : nat) : Prop :=
    owner (graph_of w) (v_fa v) = Some a /\ owner (graph_of w) (v_fb v) = Some b /\ a <> b /\ (dynamic_at w a \/ dynamic_at w b) /\
    ~ barred (graph_of w) a b /\ (e_filter E w (v_fa v) (v_fb v) = true \/ e_filter E w (v_fb v) (v_fa v) = true) /\
    (forall c v', g_c (graph_of w) c = Some v' -> ~ pair_of v v').
  Definition linked (v : cview) (a b : nat) w w' : Prop :=
    geq (graph_of w') (add_contact v a b (graph_of w)) /\ grow w w' /\ w_bp w' = w_bp w /\ nums w' /\ ev_ok w'.
  Lemma sat_link w (x : contact T) a b xa xb : owner (graph_of w) (c_fa x) = Some a -> owner (graph_of w) (c_fb x) = Some b -> w_bodies w a = Some xa -> w_bodies w b = Some xb -> a <> b ->
    (forall c, w_next_contact w <= c -> w_contacts w c = None) -> nums w -> ev_ok w -> fresh_contact x ->
    sat p (link_contact x w) (linked (view_c x) a b w).
  Proof.
    intros Oa Ob Ha Hb Hab Fr [N1 N2] V Fx. unfold link_contact. cbv zeta.
    assert (Ka : forall w', (forall f, w_fixtures w' f = w_fixtures w f) -> forall f i, owner (graph_of w) f = Some i -> fixture_body w' f = Ok i).
    { intros w' Hw f i Ho. unfold fixture_body, get_fixture. rewrite Hw. unfold owner in Ho. cbn in Ho. destruct (w_fixtures w f) as [y|]; [|easy]. cbn in *. now rewrite Ho. }
    rewrite (Ka (set_w_next_contact (S (w_next_contact w)) (put_contact (w_next_contact w) x w)) (fun f => eq_refl) _ _ Oa), (Ka (set_w_next_contact (S (w_next_contact w)) (put_contact (w_next_contact w) x w)) (fun f => eq_refl) _ _ Ob). cbn [bind].
    unfold mod_body at 1. unfold get_body. cbn [set_w_contact_list set_w_next_contact put_contact set_w_contacts w_bodies]. rewrite Ha. cbn [unwrap bind].
    unfold mod_body. unfold get_body. cbn [set_w_contact_list set_w_next_contact put_contact put_body set_w_bodies set_w_contacts w_bodies]. rewrite put_ne by auto. rewrite Hb. cbn [unwrap bind sat].
    destruct Fx as (X1 & X2 & X3 & X4 & X5). refine (conj _ (conj _ (conj eq_refl (conj (conj _ _) _)))).
    - unfold geq. cbn. refine (conj _ (conj _ (conj _ (conj _ _)))); auto.
      + intros i. unfold put. destruct (Nat.eqb_spec i b) as [->|].
        * apply Nat.eqb_neq in Hab. rewrite Nat.eqb_sym, Hab, Hb. reflexivity.
        * destruct (Nat.eqb_spec i a) as [->|]; [now rewrite Ha|]. reflexivity.
      + intros c. unfold put. now destruct (Nat.eqb c (w_next_contact w)).
    - refine (conj eq_refl (conj _ (conj _ (conj _ (conj _ (conj _ _)))))); cbn; auto.
      + intros i. unfold put. destruct (Nat.eqb_spec i b) as [->|]; [now rewrite Hb|]. destruct (Nat.eqb_spec i a) as [->|]; [now rewrite Ha|]. reflexivity.
      + intros c Hc. rewrite put_ne by lia. reflexivity.
      + intros c y Hc. unfold put. destruct (Nat.eqb c (w_next_contact w)); [intros Q; injection Q as <-; repeat split; auto|]. rewrite Fr by auto. easy.
    - intros i y. cbn. unfold put. destruct (Nat.eqb_spec i b) as [->|]; [intros Q; injection Q as <-; exact (N1 b xb Hb)|].
      destruct (Nat.eqb_spec i a) as [->|]; [intros Q; injection Q as <-; exact (N1 a xa Ha)|apply N1].
    - intros c y. cbn. unfold put. destruct (Nat.eqb_spec c (w_next_contact w)) as [->|]; [intros Q; injection Q as <-; split; [right; lia|lia]|apply N2].
    - intros HL c. specialize (V HL c). change (w_log _) with (w_log w). unfold touches in *. cbn. unfold put. destruct (Nat.eqb_spec c (w_next_contact w)) as [->|]; auto.
      rewrite Fr in V by auto. now rewrite X2.
  Qed.

  (* shapes of different bodies, one of them dynamic, have a contact class *)
  Definition classes_ok w : Prop := forall f f' x x' a b, w_fixtures w f = Some x -> w_fixtures w f' = Some x' -> f_body x = Some a -> f_body x' = Some b -> a <> b ->
    dynamic_at w a \/ dynamic_at w b -> p \/ register (shape_type (f_shape x)) (shape_type (f_shape x')) <> None.

  Definition added w w' : Prop :=
    w' = w \/ (exists fa fb, w' = log (EvFilter fa fb) w) \/
    exists v a b fa fb, eligible w v a b /\ linked v a b (log (EvFilter fa fb) w) w' /\
      (exists k k', slot (g_f (graph_of w)) (v_fa v) (v_ia v) = Some k /\ slot (g_f (graph_of w)) (v_fb v) (v_ib v) = Some k').

  Lemma slot_parts w f k id : proxies_ok (g_f (graph_of w)) -> slot (g_f (graph_of w)) f k = Some id -> exists x pr,
    w_fixtures w f = Some x /\ nth_error (f_proxies x) k = Some pr /\ view_p pr = (Some f, k, Some id) /\ k < f_proxy_count x.
  Proof.
    intros PO H. unfold slot in H. cbn in H. destruct (w_fixtures w f) as [x|] eqn:Ex; [|easy]. cbn in H. exists x.
    destruct (PO f (view_f x)) as [_ K]; [cbn; now rewrite Ex|]. change (match f_proxy_count x with 0 => false | S m' => (k <=? m')%nat end) with (Nat.ltb k (f_proxy_count x)) in H.
    destruct (Nat.ltb_spec k (f_proxy_count x)) as [L|L]; [|easy].
    destruct (K k L) as (id' & E'). cbn in E'. rewrite nth_error_map in *. destruct (nth_error (f_proxies x) k) as [pr|] eqn:Ep; [|easy]. exists pr. cbn in *.
    injection E' as E1 E2 E3. rewrite E3 in H. injection H as <-. unfold view_p. rewrite E1, E2, E3. auto.
  Qed.
  Lemma sat_proxy_data w f k id (Q : nat * nat -> Prop) : proxies_ok (g_f (graph_of w)) -> slot (g_f (graph_of w)) f k = Some id -> Q (f, k) -> sat p (proxy_data w (Some (f, k))) Q.
  Proof.
    intros PO H HQ. destruct (slot_parts w f k id PO H) as (x & pr & Ex & Ep & Ev & _). unfold view_p in Ev. injection Ev as E1 E2 E3.
    unfold proxy_data, get_fixture, get. cbn [unwrap bind]. rewrite Ex. cbn [unwrap bind]. rewrite Ep. cbn [bind]. rewrite E1. cbn [unwrap bind sat]. now rewrite E2.
  Qed.

  Lemma sat_add_pair w fa ia fb ib ka kb : ginv (graph_of w) -> nums w -> ev_ok w -> proxies_ok (g_f (graph_of w)) -> classes_ok w ->
    slot (g_f (graph_of w)) fa ia = Some ka -> slot (g_f (graph_of w)) fb ib = Some kb ->
    sat p (add_pair E w (Some (fa, ia)) (Some (fb, ib))) (added w).
  Proof.
    intros (IB & IF & IC & IJ) N V PO CO Sa Sb. unfold add_pair. apply sat_bind, (sat_proxy_data w fa ia ka); auto. apply sat_bind, (sat_proxy_data w fb ib kb); auto.
    destruct (slot_parts w fa ia ka PO Sa) as (xa & pra & Exa & Epa & Eva & La). destruct (slot_parts w fb ib kb PO Sb) as (xb & prb & Exb & Epb & Evb & Lb).
    pose proof IF as (F1 & F2 & F3 & F4 & F5).
    assert (exists a, f_body xa = Some a) as (a & Ba). { specialize (F4 fa). unfold owner in F4. cbn in F4. rewrite Exa in F4. cbn in F4. destruct (f_body xa); [eauto|]. exfalso. now apply F4. }
    assert (exists b, f_body xb = Some b) as (b & Bb). { specialize (F4 fb). unfold owner in F4. cbn in F4. rewrite Exb in F4. cbn in F4. destruct (f_body xb); [eauto|]. exfalso. now apply F4. }
    assert (Oa : owner (graph_of w) fa = Some a) by (unfold owner; cbn; now rewrite Exa).
    assert (Ob : owner (graph_of w) fb = Some b) by (unfold owner; cbn; now rewrite Exb).
    assert (exists ba, w_bodies w a = Some ba) as (ba & Eba). { pose proof (owner_live _ _ _ IF Oa) as K. cbn in K. destruct (w_bodies w a); [eauto|easy]. }
    assert (exists bb, w_bodies w b = Some bb) as (bb & Ebb). { pose proof (owner_live _ _ _ IF Ob) as K. cbn in K. destruct (w_bodies w b); [eauto|easy]. }
    unfold fixture_body at 1. unfold get_fixture at 1. rewrite Exa. cbn [unwrap bind]. rewrite Ba. cbn [unwrap bind].
    unfold fixture_body at 1. unfold get_fixture at 1. rewrite Exb. cbn [unwrap bind]. rewrite Bb. cbn [unwrap bind].
    destruct (Nat.eqb_spec a b) as [->|Hab]; [now left|]. unfold get_body at 1. rewrite Ebb. cbn [unwrap bind].
    pose proof IC as (C1 & (E1 & E2 & E3) & C3 & C4).
    assert (Ce : forall c s o, In (GEdge c s o) (b_contacts bb) <-> cbody (graph_of w) c s = Some b /\ cbody (graph_of w) c (negb s) = Some o).
    { intros c s o. rewrite <- E2. unfold contacts_of. cbn. now rewrite Ebb. }
    apply sat_bind. eapply sat_mono; [apply sat_pair_exists|].
    { intros [c s o] He. cbn. apply Ce in He. destruct He as [He _]. unfold cbody in He. cbn in He. now destruct (w_contacts w c). }
    intros known Hk. destruct known; [now left|].
    assert (New : forall c v', g_c (graph_of w) c = Some v' -> ~ pair_of (CView fa ia fb ib) v').
    { intros c v' Hc Hp. assert (false = true); [|easy]. apply Hk. cbn in Hc. destruct (w_contacts w c) as [x|] eqn:Ex; [|easy]. injection Hc as <-. destruct Hp as [Hp|Hp].
      - exists (GEdge c false a), x. cbn. repeat split; auto; [|left; auto]. apply Ce. unfold view_c in Hp. injection Hp as -> -> -> ->. unfold cbody. cbn. rewrite Ex. cbn. auto.
      - exists (GEdge c true a), x. cbn. repeat split; auto; [|right; auto]. apply Ce. unfold view_c in Hp. cbn in Hp. injection Hp as -> -> -> ->. unfold cbody. cbn. rewrite Ex. cbn. auto. }
    apply sat_bind. eapply sat_mono; [apply (sat_bodies_collide w b a)|]; [auto|congruence|congruence|]. intros may Hm. destruct may; cbn [negb]; [|now left].
    destruct (proj1 Hm eq_refl) as [Dy Nb]. cbv zeta. destruct (e_filter E w fa fb) eqn:Ef; cbn [negb]; [|right; left; eauto].
    assert (Reg : p \/ register (shape_type (f_shape xa)) (shape_type (f_shape xb)) <> None). { eapply CO; eauto. tauto. }
    apply sat_bind. unfold contact_create. unfold get_fixture. cbn [log set_w_log w_fixtures]. rewrite Exa, Exb. cbn [unwrap bind].
    destruct (register (shape_type (f_shape xa)) (shape_type (f_shape xb))) as [prim|]; [|cbn; destruct Reg; [auto|congruence]]. cbn [unwrap bind sat].
    assert (Fr : forall c, w_next_contact w <= c -> w_contacts w c = None). { intros c Hc. destruct C1 as (_ & _ & _ & Q). specialize (Q c Hc). cbn in Q. now destruct (w_contacts w c). }
    assert (Vl : forall e, quiet e -> ev_ok (log e w)). { intros e Q HL c. specialize (V HL c). destruct e; try easy; exact V. }
    destruct prim.
    - eapply sat_mono; [apply (sat_link (log (EvFilter fa fb) w) (contact_new xa xb fa ia fb ib) a b ba bb)|]; auto; try (now apply Vl); try (repeat split; fail).
      intros w' HL. right. right. exists (CView fa ia fb ib), a, b, fa, fb. split; [|split; [exact HL|eauto]]. repeat split; auto; [tauto|]. intros K. now apply Nb, barred_sym.
    - eapply sat_mono; [apply (sat_link (log (EvFilter fa fb) w) (contact_new xb xa fb ib fa ia) b a bb ba)|]; auto; try (now apply Vl); try (repeat split; fail).
      intros w' HL. right. right. exists (CView fb ib fa ia), b, a, fa, fb. split; [|split; [exact HL|eauto]]. repeat split; auto.
      intros c v' Hc Hp. apply (New c v' Hc). destruct Hp as [Hp|Hp]; [right; subst v'; reflexivity|left]. destruct v'. cbn in Hp. injection Hp as -> -> -> ->. reflexivity.
  Qed.
End Contact.
