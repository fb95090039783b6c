(** Joints, fixtures and bodies: the public calls keep the invariant. *)
From Coq Require Import List ZArith Bool Arith Lia.
From Verif Require Import Base Num Math Collision Manifold Filter ShapeModel ListFacts ManifoldProofs TreeModel TreeSpec TreeHist BroadModel BroadSpec BroadProofs BroadFinal DynModel WorldModel WorldGraph WorldGops WorldLogic WorldPhys WorldContact WorldInv.
Import ListNotations.

Section Joints.
  Context {T : Type} `{NT : Num T} `{TT : NumTrig T} `{VT : NumValid T}.
  Notation world := (world T).
  Local Open Scope num_scope.
  Implicit Types w : world.
  Variable p : Prop.
  Variable oks : vec2 T -> Prop.
  Variable E : env T.
  Notation bok := (bok p).
  Notation nums := (nums p).
  Notation bfits := (bfits oks).
  Notation shapes_ok := (shapes_ok p).
  Notation W := (W p oks).
  Notation calm := (calm p).

  Definition hit (a : nat) (l : list gedge) (c : nat) : bool := existsb (fun e => Nat.eqb (ge_item e) c && Nat.eqb (ge_other e) a) l.
  Definition flag (x : contact T) : contact T := mod_cflags (set_cf_filter true) x.
  Lemma sat_flag w a b bb : w_bodies w b = Some bb -> (forall e, In e (b_contacts bb) -> w_contacts w (ge_item e) <> None) ->
    sat p (flag_contacts a b w) (fun w' => w' = set_w_contacts (w_contacts w') w /\
      forall c, w_contacts w' c = if hit a (b_contacts bb) c then option_map flag (w_contacts w c) else w_contacts w c).
  Proof.
    intros Hb HL. unfold flag_contacts, get_body. rewrite Hb. cbn [unwrap bind].
    apply (sat_each_done (fun d w' => w' = set_w_contacts (w_contacts w') w /\ forall c, w_contacts w' c = if hit a d c then option_map flag (w_contacts w c) else w_contacts w c)).
    - intros d e r w1 El (Q & K). assert (He : w_contacts w (ge_item e) <> None) by (apply HL; rewrite El, in_app_iff; cbn; auto).
      assert (Hh : forall c, hit a (d ++ [e]) c = hit a d c || (Nat.eqb (ge_item e) c && Nat.eqb (ge_other e) a)). { intros c. unfold hit. rewrite existsb_app. cbn. now rewrite orb_false_r. }
      destruct (Nat.eqb_spec (ge_other e) a) as [Ho|Ho].
      + unfold mod_contact. apply sat_bind, sat_contact. { rewrite K. destruct (hit _ _ _); auto. rewrite map_none. exact He. }
        intros x Hx. cbn [sat]. split; [rewrite Q; reflexivity|]. intros c. rewrite Hh. cbn. unfold put. rewrite andb_true_r, Nat.eqb_sym. destruct (Nat.eqb_spec (ge_item e) c) as [<-|]; [|rewrite orb_false_r; apply K].
        rewrite orb_true_r. rewrite K in Hx. destruct (w_contacts w (ge_item e)) as [y|]; [|easy]. cbn in *. destruct (hit _ _ _); injection Hx as <-; reflexivity.
      + cbn [sat]. split; auto. intros c. rewrite Hh, andb_false_r, orb_false_r. apply K.
    - split; [now destruct w|]. reflexivity.
  Qed.
  Lemma hit_spec w a b bb c : contacts_ok (graph_of w) -> w_bodies w b = Some bb -> hit a (b_contacts bb) c = true <->
    exists s, cbody (graph_of w) c s = Some b /\ cbody (graph_of w) c (negb s) = Some a.
  Proof.
    intros (C1 & (E1 & E2 & E3) & _) Hb. unfold hit. rewrite existsb_exists. assert (Q : contacts_of (graph_of w) b = b_contacts bb) by (unfold contacts_of; cbn; now rewrite Hb). split.
    - intros ([x s o] & He & K). cbn in K. apply andb_true_iff in K. rewrite !Nat.eqb_eq in K. destruct K as [-> ->]. exists s. apply E2. now rewrite Q.
    - intros (s & K). apply E2 in K. rewrite Q in K. exists (GEdge c s a). split; auto. cbn. now rewrite !Nat.eqb_refl.
  Qed.
  (* marking contacts changes nothing else *)
  Lemma flag_frame w w' (h : nat -> bool) : w' = set_w_contacts (w_contacts w') w -> (forall c, w_contacts w' c = if h c then option_map flag (w_contacts w c) else w_contacts w c) ->
    geq (graph_of w') (graph_of w) /\ (nums w -> nums w') /\ (ev_ok w -> ev_ok w') /\ still w w' /\ w_bp w' = w_bp w.
  Proof.
    intros Q K. assert (G : forall c, option_map view_c (w_contacts w' c) = option_map view_c (w_contacts w c)). { intros c. rewrite K. destruct (h c); auto. now destruct (w_contacts w c). }
    rewrite Q. refine (conj _ (conj _ (conj _ (conj _ eq_refl)))).
    - refine (conj (fun i => eq_refl) (conj (fun i => eq_refl) (conj G (conj (fun i => eq_refl) (conj eq_refl (conj eq_refl eq_refl)))))).
    - intros [N1 N2]. split; [exact N1|]. intros c x. cbn. rewrite K. destruct (h c); [|apply N2]. destruct (w_contacts w c) as [y|] eqn:Ey; [|easy]. cbn. intros Z. injection Z as <-. exact (N2 c y Ey).
    - intros V HL c. specialize (V HL c). unfold touches in *. cbn. rewrite K. destruct (h c); [|exact V]. destruct (w_contacts w c); exact V.
    - repeat split.
  Qed.

  (** ** create_joint *)
  Definition joined (v : jview) w w' : Prop := geq (graph_of w') (add_joint v (graph_of w)) /\ outer w w' /\ still (set_w_joints (w_joints w') w) w'.
  Lemma sat_create_joint w a b cc : W w -> w_locked w = false -> a <> b -> w_bodies w a <> None -> w_bodies w b <> None ->
    sat p (create_joint a b cc w) (fun q => let '(w', i) := q in i = w_next_joint w /\ W w' /\ joined (JView a b cc) w w').
  Proof.
    intros H HL Hab Ha Hb. unfold create_joint. rewrite HL. cbn [negb b2_assert bind]. apply Nat.eqb_neq in Hab as Hab'. rewrite Hab'. cbn [negb b2_assert bind].
    destruct (w_bodies w a) as [xa|] eqn:Ea; [|easy]. destruct (w_bodies w b) as [xb|] eqn:Eb; [|easy]. cbv zeta.
    unfold mod_body at 1, get_body at 1. cbn [set_w_joint_count set_w_joint_list set_w_next_joint put_joint set_w_joints w_bodies]. rewrite Ea. cbn [unwrap bind].
    unfold mod_body at 1, get_body at 1. cbn [put_body set_w_bodies set_w_joint_count set_w_joint_list set_w_next_joint put_joint set_w_joints w_bodies]. rewrite put_ne by auto. rewrite Eb. cbn [unwrap bind].
    set (w1 := put_body b _ _). set (j := w_next_joint w) in *.
    assert (B1 : forall i, w_bodies w1 i = if Nat.eqb i b then Some (set_b_joints (GEdge j false a :: b_joints xb) xb) else if Nat.eqb i a then Some (set_b_joints (GEdge j true b :: b_joints xa) xa) else w_bodies w i) by reflexivity.
    assert (G1 : geq (graph_of w1) (add_joint (JView a b cc) (graph_of w))).
    { refine (conj _ (conj (fun i => eq_refl) (conj (fun i => eq_refl) (conj _ (conj eq_refl (conj eq_refl eq_refl)))))).
      - intros i. unfold add_joint. rewrite cons_at_b by auto. change (g_b (graph_of w1) i) with (option_map view_b (w_bodies w1 i)). rewrite B1. cbn. destruct (Nat.eqb_spec i b) as [->|].
        + rewrite Nat.eqb_sym, Hab', Eb. reflexivity.
        + destruct (Nat.eqb_spec i a) as [->|]; [now rewrite Ea|reflexivity].
      - intros i. cbn. unfold put. fold j. now destruct (Nat.eqb i j). }
    assert (C1 : forall c, w_contacts w1 c = w_contacts w c) by reflexivity.
    assert (I1 : ginv (graph_of w1)). { eapply ginv_ext; [apply geq_sym, G1|]. apply add_joint_inv; cbn; auto; [apply H|now rewrite Ea|now rewrite Eb]. }
    assert (K1 : forall i, option_map kind (g_b (graph_of w1) i) = option_map kind (g_b (graph_of w) i)).
    { intros i. destruct G1 as (Gb & _). rewrite Gb. symmetry. unfold add_joint. rewrite <- cons_at_keep; auto. }
    assert (Cb : forall c s, cbody (graph_of w1) c s = cbody (graph_of w) c s) by reflexivity.
    assert (En : enabled_ok (graph_of w1)). { eapply enabled_frame; [exact K1|reflexivity| |apply (W_enabled _ _ _ H)]. auto. }
    assert (N1 : nums w1).
    { destruct (W_nums _ _ _ H) as [N1 N2]. split; [|exact N2]. intros i y. rewrite B1. destruct (Nat.eqb_spec i b) as [->|]; [intros Q; injection Q as <-; exact (N1 b xb Eb)|].
      destruct (Nat.eqb_spec i a) as [->|]; [intros Q; injection Q as <-; exact (N1 a xa Ea)|apply N1]. }
    assert (Nc : forall x y, barred (graph_of w1) x y -> barred (graph_of w) x y \/ (cc = false /\ ((x = a /\ y = b) \/ (x = b /\ y = a)))).
    { intros x y (k & s & v & X1 & X2 & X3 & X4). destruct G1 as (_ & _ & _ & Gj & _). unfold jbody in X3, X4. rewrite Gj in X1, X3, X4. cbn in X1, X3, X4. unfold put in *. destruct (Nat.eqb k (w_next_joint w)).
      - right. injection X1 as <-. cbn in *. split; auto. destruct s; cbn in *; [left|right]; split; congruence.
      - left. exists k, s, v. auto. }
    assert (O1 : outer w w1) by (repeat split).
    assert (S1 : still (set_w_joints (w_joints w1) w) w1) by (refine (conj eq_refl (conj (fun i => eq_refl) (conj K1 (fun i => eq_refl))))).
    assert (V1 : ev_ok w1) by exact (W_ev _ _ _ H). assert (Ft1 : bfits w1) by exact (W_fits _ _ _ H). assert (Sh1 : shapes_ok w1) by exact (W_shapes _ _ _ H). clearbody w1.
    destruct cc.
    - cbn [bind sat]. refine (conj eq_refl (conj _ (conj G1 (conj O1 S1)))). split; auto.
      intros c x i k X1 X2 X3 X4. apply Nc in X4. destruct X4 as [X4|(X4 & _)]; [|easy]. rewrite C1 in X1. rewrite Cb in X2, X3. eapply (W_flags _ _ _ H); eauto.
    - apply sat_bind. eapply sat_mono; [apply (sat_flag w1 a b (set_b_joints (GEdge j false a :: b_joints xb) xb))|].
      + rewrite B1. now rewrite Nat.eqb_refl.
      + intros [c s o] He. cbn in *. rewrite C1. destruct (W_contacts _ _ _ H) as (_ & (_ & E2 & _) & _). assert (In (GEdge c s o) (contacts_of (graph_of w) b)) as K by (unfold contacts_of; cbn; now rewrite Eb).
        apply E2 in K. destruct K as [K _]. unfold cbody in K. cbn in K. now destruct (w_contacts w c).
      + intros w2 (Q2 & K2). destruct (flag_frame w1 w2 _ Q2 K2) as (G2 & N2 & V2 & S2 & P2). cbn. refine (conj eq_refl (conj _ (conj (geq_trans _ _ _ G2 G1) (conj _ _)))).
        * pose proof (geq_sym _ _ G2) as G2'. split; auto.
          -- eapply ginv_ext; eauto.
          -- eapply enabled_ext; eauto.
          -- unfold WorldLogic.bfits. rewrite P2. eapply fits_ext; [|exact Ft1]. intros f. destruct G2' as (_ & Gf & _). apply Gf.
          -- eapply shapes_frame; [|exact Sh1]. intros f. rewrite Q2. reflexivity.
          -- intros c x i k X1 X2 X3 X4. rewrite (cbody_ext _ _ G2), Cb in X2, X3. assert (X5 : barred (graph_of w1) i k) by (eapply barred_frame; [|exact X4]; apply G2). apply Nc in X5.
             rewrite K2 in X1. rewrite C1 in X1. match type of X1 with context [hit ?u ?v ?z] => destruct (hit u v z) eqn:Eh end.
             ++ destruct (w_contacts w c) as [y|]; [|easy]. injection X1 as <-. reflexivity.
             ++ destruct X5 as [X5|(_ & X5)]; [eapply (W_flags _ _ _ H); eauto|]. exfalso. assert (hit a (b_contacts xb) c = true) as Hh; [|change (hit a (b_contacts xb) c = false) in Eh; congruence].
                apply (hit_spec w a b xb c); [apply (W_contacts _ _ _ H)|exact Eb|]. destruct X5 as [[-> ->]|[-> ->]]; [exists false|exists true]; auto.
        * rewrite Q2. exact O1.
        * rewrite Q2. exact S1.
  Qed.

  (** ** destroy_joint *)
  Definition unjoined (i : nat) w w' : Prop := geq (graph_of w') (drop_joint i (graph_of w)) /\ outer w w'.
  Lemma drop_joint_kind (c : nat) (g : graph T) i : option_map kind (g_b (drop_joint c g) i) = option_map kind (g_b g i).
  Proof. cbn. now destruct (g_b g i). Qed.
  Lemma barred_drop i (g : graph T) x y : barred (drop_joint i g) x y -> barred g x y.
  Proof.
    intros (k & s & v & X1 & X2 & X3 & X4). exists k, s, v. unfold jbody in *. cbn in X1, X3, X4. unfold put in *. destruct (Nat.eqb k i); [easy|]. auto.
  Qed.
  Lemma sat_destroy_joint w i : W w -> w_locked w = false -> w_joints w i <> None -> sat p (destroy_joint i w) (fun w' => W w' /\ unjoined i w w').
  Proof.
    intros H HL Hi. unfold destroy_joint. rewrite HL. cbn [negb b2_assert bind]. apply sat_bind, sat_joint; auto. intros j Hj.
    pose proof (W_graph _ _ _ H) as (_ & _ & HC & HJ). pose proof HJ as (J1 & (E1 & E2 & E3) & J3). assert (Hg : g_j (graph_of w) i = Some (view_j j)) by (cbn; now rewrite Hj).
    assert (Ja : jbody (graph_of w) i true = Some (j_a j)) by (unfold jbody; now rewrite Hg). assert (Jb : jbody (graph_of w) i false = Some (j_b j)) by (unfold jbody; now rewrite Hg).
    assert (Hab : j_a j <> j_b j). { destruct (E3 i) as (a & b & Ka & Kb & Hab); congruence. }
    set (a := j_a j) in *. set (b := j_b j) in *.
    assert (La : w_bodies w a <> None). { pose proof (J3 i true a Ja) as Q. cbn in Q. now destruct (w_bodies w a). }
    assert (Lb : w_bodies w b <> None). { pose proof (J3 i false b Jb) as Q. cbn in Q. now destruct (w_bodies w b). }
    apply sat_bind, sat_remove_id; [apply J1; congruence|]. cbv zeta. set (w1 := set_w_joint_list _ w).
    apply sat_bind. eapply sat_mono; [apply (calm_body p w1 a); [exact La|apply bok_awake|intros; apply view_awake]|]. intros w2 C2.
    apply sat_bind. eapply sat_mono; [apply (calm_body p w2 b); [now apply (calm_live p w1 w2)|apply bok_awake|intros; apply view_awake]|]. intros w3 C3.
    pose proof (calm_trans p _ _ _ C2 C3) as C. clear C2 C3 w2. pose proof C as (Q3 & V3 & K3).
    assert (Je : forall k x, w_bodies w3 k = Some x -> joints_of (graph_of w) k = b_joints x).
    { intros k x Hx. specialize (V3 k). rewrite Hx in V3. change (w_bodies w1 k) with (w_bodies w k) in V3. unfold joints_of. cbn. rewrite <- V3. reflexivity. }
    assert (exists xa, w_bodies w3 a = Some xa) as (xa & Ea). { destruct (w_bodies w3 a) eqn:Q; [eauto|]. exfalso. revert Q. now apply (calm_live p w1 w3). }
    assert (exists xb, w_bodies w3 b = Some xb) as (xb & Eb). { destruct (w_bodies w3 b) eqn:Q; [eauto|]. exfalso. revert Q. now apply (calm_live p w1 w3). }
    unfold get_body at 1. rewrite Ea. cbn [unwrap bind]. apply sat_bind, sat_remove_edge.
    { exists b. rewrite <- (Je a xa Ea). now apply E2. }
    { intros [k s o] He <-. cbn. rewrite <- (Je a xa Ea) in He. apply E2 in He. destruct s; auto. destruct He. cbn in *. congruence. }
    unfold get_body at 1. cbn [put_body set_w_bodies w_bodies]. rewrite put_ne by auto. rewrite Eb. cbn [unwrap bind]. apply sat_bind, sat_remove_edge.
    { exists a. rewrite <- (Je b xb Eb). now apply E2. }
    { intros [k s o] He <-. cbn. rewrite <- (Je b xb Eb) in He. apply E2 in He. destruct s; auto. destruct He. cbn in *. congruence. }
    set (w4 := put_body b _ _). assert (Jn : w_joint_count w4 = w_joint_count w). { unfold w4. cbn [put_body set_w_bodies w_joint_count]. rewrite Q3. reflexivity. }
    assert (Pos : 1 <= w_joint_count w). { destruct J1 as (_ & X1 & X2 & _). cbn in X2. rewrite X2. assert (In i (w_joint_list w)) as Hin by (apply X1; congruence). destruct (w_joint_list w); [easy|cbn; lia]. }
    rewrite Jn. replace (Nat.ltb 0 (w_joint_count w)) with true by (symmetry; apply Nat.ltb_lt; lia). cbn [b2_assert bind]. apply sat_bind, sat_sub; auto.
    set (w5 := set_w_joint_count _ w4).
    assert (B5 : forall k, w_bodies w5 k = if Nat.eqb k b then Some (set_b_joints (without_edge i (b_joints xb)) xb) else if Nat.eqb k a then Some (set_b_joints (without_edge i (b_joints xa)) xa) else w_bodies w3 k) by reflexivity.
    assert (Gb5 : forall k, option_map view_b (w_bodies w5 k) = option_map (on_joints (without_edge i)) (g_b (graph_of w) k)).
    { intros k. rewrite B5. specialize (V3 k). change (w_bodies w1 k) with (w_bodies w k) in V3. cbn [graph_of g_b]. rewrite <- V3. destruct (Nat.eqb_spec k b) as [->|Hb]; [rewrite Eb; reflexivity|].
      destruct (Nat.eqb_spec k a) as [->|Ha]; [rewrite Ea; reflexivity|]. destruct (w_bodies w3 k) as [x|] eqn:Ex; [|reflexivity]. cbn. unfold on_joints. cbn. f_equal. unfold view_b. f_equal. symmetry. apply filter_all.
      intros [c s o] He. rewrite <- (Je k x Ex) in He. apply E2 in He. cbn. destruct (Nat.eqb_spec c i) as [->|]; auto. destruct He as [He _]. destruct s; congruence. }
    assert (Ct5 : forall c, w_contacts w5 c = w_contacts w c) by (intros c; unfold w5, w4; cbn; rewrite Q3; reflexivity).
    assert (N5 : nums w5).
    { destruct (W_nums _ _ _ H) as [N1 N2]. specialize (K3 N1). split; [|intros c x; rewrite Ct5; apply N2]. intros k y. rewrite B5.
      destruct (Nat.eqb_spec k b) as [->|]; [intros Q; injection Q as <-; exact (K3 b xb Eb)|]. destruct (Nat.eqb_spec k a) as [->|]; [intros Q; injection Q as <-; exact (K3 a xa Ea)|apply K3]. }
    assert (Q5 : w5 = set_w_bodies (w_bodies w5) (set_w_joint_count (w_joint_count w - 1) (set_w_joint_list (without i (w_joint_list w)) w))).
    { unfold w5, w4. cbn. rewrite Q3. reflexivity. }
    assert (Hcc : exists bb, w_bodies w5 b = Some bb /\ b_contacts bb = contacts_of (graph_of w) b).
    { rewrite B5, Nat.eqb_refl. eexists. split; [reflexivity|]. cbn. unfold contacts_of. cbn. specialize (V3 b). change (w_bodies w1 b) with (w_bodies w b) in V3. rewrite <- V3, Eb. reflexivity. }
    clearbody w5. clear w4 Jn. apply sat_bind.
    apply (sat_mono _ (fun w6 => exists h : nat -> bool, w6 = set_w_contacts (w_contacts w6) w5 /\ forall c, w_contacts w6 c = if h c then option_map flag (w_contacts w5 c) else w_contacts w5 c)).
    { destruct (j_collide j).
      - cbn. exists (fun _ => false). split; [now destruct w5|reflexivity].
      - destruct Hcc as (bb & Hbb & Hcb). eapply sat_mono; [apply (sat_flag w5 a b bb Hbb)|intros w6 Q; eexists; exact Q]. intros [c s o] He. cbn. rewrite Ct5. rewrite Hcb in He.
        destruct HC as (_ & (_ & F2 & _) & _). apply F2 in He. destruct He as [He _]. unfold cbody in He. cbn in He. now destruct (w_contacts w c). }
    intros w6 (h & Q6 & K6). destruct (flag_frame w5 w6 h Q6 K6) as (G6 & N6 & V6 & S6 & P6). cbn [sat]. set (w7 := set_w_joints _ w6).
    assert (G7 : geq (graph_of w7) (drop_joint i (graph_of w))).
    { unfold w7. rewrite Q6, Q5. refine (conj _ (conj (fun i => eq_refl) (conj _ (conj _ (conj eq_refl (conj eq_refl eq_refl)))))).
      - intros k. exact (Gb5 k).
      - intros c. cbn. rewrite K6, Ct5. destruct (h c); auto. now destruct (w_contacts w c).
      - intros k. cbn. unfold put. now destruct (Nat.eqb k i). }
    assert (O7 : outer w w7). { unfold w7. rewrite Q6, Q5. repeat split. }
    split; [|split; auto]. pose proof (geq_sym _ _ G7) as G7'. split.
    - eapply ginv_ext; [exact G7'|]. apply drop_joint_inv; [apply H|congruence].
    - eapply enabled_ext; [exact G7'|]. eapply enabled_frame; [intros k; apply drop_joint_kind|reflexivity| |apply (W_enabled _ _ _ H)]. auto.
    - exact (N6 N5).
    - assert (V5 : ev_ok w5). { intros Hl c. pose proof (W_ev _ _ _ H) as V. rewrite Q5 in Hl |- *. exact (V Hl c). } exact (V6 V5).
    - eapply outer_fits; [exact O7|apply H].
    - eapply shapes_frame; [|exact (W_shapes _ _ _ H)]. intros f. apply G7.
    - intros c x u v X1 X2 X3 X4. rewrite (cbody_ext _ _ G7) in X2, X3. assert (X5 : barred (graph_of w) u v). { apply (barred_drop i). eapply barred_frame; [|exact X4]. apply G7. }
      change (w_contacts w7 c) with (w_contacts w6 c) in X1. rewrite K6, Ct5 in X1. destruct (h c).
      + destruct (w_contacts w c); [|easy]. injection X1 as <-. reflexivity.
      + eapply (W_flags _ _ _ H); eauto.
  Qed.
End Joints.
