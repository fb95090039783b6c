(** Islands: the depth first search. *)
From Coq Require Import List ZArith Bool Arith Lia.
From Verif Require Import Base Num Math Collision Manifold Filter ShapeModel ListFacts ManifoldProofs TreeModel TreeSpec TreeHist BroadModel BroadSpec BroadProofs BroadFinal DynModel DynSpec DynProofs WorldModel WorldGraph WorldSpec WorldGops WorldLogic WorldPhys WorldContact WorldInv WorldOps WorldFix WorldBody WorldLife.
Import ListNotations.

Section Island.
  Context {T : Type} `{NT : Num T} `{TT : NumTrig T} `{VT : NumValid T}.
  Notation world := (world T).
  Implicit Types w : world.
  Variable p : Prop.

  (** ** the flags *)
  Definition bflag w i : bool := match w_bodies w i with Some b => fl_island (b_flags b) | None => false end.
  Definition cflag w c : bool := match w_contacts w c with Some x => cf_island (c_flags x) | None => false end.
  Definition jflag w j : bool := match w_joints w j with Some x => j_island x | None => false end.
  (* what the search does not change *)
  Definition bstrip (b : body T) : body T := set_b_island_index 0%Z (mod_flags (fun f => set_fl_island false (set_fl_awake false f)) b).
  Definition cstrip (c : contact T) : contact T := mod_cflags (set_cf_island false) c.
  Definition jstrip (j : joint) : joint := set_j_island false j.

  Variable w1 : world.
  Notation g1 := (graph_of w1).
  Hypothesis GI : ginv g1.
  Hypothesis EN : enabled_ok g1.

  Record D (X : nat -> Prop) (seed : nat) (w : world) (is : island) (stack : list nat) : Prop := {
    D_frame : w = set_w_joints (w_joints w) (set_w_contacts (w_contacts w) (set_w_bodies (w_bodies w) w1));
    D_bodies : forall i, option_map bstrip (w_bodies w i) = option_map bstrip (w_bodies w1 i);
    D_contacts : forall c, option_map cstrip (w_contacts w c) = option_map cstrip (w_contacts w1 c);
    D_joints : forall j, option_map jstrip (w_joints w j) = option_map jstrip (w_joints w1 j);
    D_nodup : NoDup (is_bodies is ++ stack);
    D_flag : forall i, bflag w i = true <-> bflag w1 i = true \/ In i (is_bodies is ++ stack);
    D_in : forall i, In i (is_bodies is ++ stack) -> bflag w1 i = false /\ enabled_at w1 i = true /\ conn w1 seed i;
    D_seed : In seed (is_bodies is ++ stack);
    D_cflag : forall c, cflag w c = true <-> cflag w1 c = true \/ In c (is_contacts is);
    D_cin : forall c, In c (is_contacts is) -> cflag w1 c = false /\ solid w1 c = true /\ forall s k, cbody g1 c s = Some k -> bflag w k = true;
    D_cend : forall c, In c (is_contacts is) -> exists s i, cbody g1 c s = Some i /\ moving w1 i = true /\ In i (is_bodies is);
    D_cnodup : NoDup (is_contacts is);
    D_jflag : forall j, jflag w j = true <-> jflag w1 j = true \/ In j (is_joints is);
    D_jin : forall j, In j (is_joints is) -> jflag w1 j = false /\ w_joints w1 j <> None /\ forall s k, jbody g1 j s = Some k -> bflag w k = true /\ (enabled_at w1 k = true);
    D_jend : forall j, In j (is_joints is) -> exists s i, jbody g1 j s = Some i /\ moving w1 i = true /\ In i (is_bodies is);
    D_jnodup : NoDup (is_joints is);
    D_cclosed : forall i c s, In i (is_bodies is) -> ~ X i -> moving w1 i = true -> cbody g1 c s = Some i -> solid w1 c = true -> cflag w c = true;
    D_jclosed : forall i j s o, In i (is_bodies is) -> ~ X i -> moving w1 i = true -> jbody g1 j s = Some i -> jbody g1 j (negb s) = Some o -> enabled_at w1 o = true -> jflag w j = true;
    D_awake : forall i, ~ In i (is_bodies is) -> awake_at w i = awake_at w1 i;
    D_index : forall n i, nth_error (is_bodies is) n = Some i -> exists b, w_bodies w i = Some b /\ b_island_index b = Z.of_nat n }.

  Lemma bstrip_view (b b' : body T) : bstrip b = bstrip b' -> view_b b = view_b b' /\ b_sweep b = b_sweep b' /\ is_static b = is_static b' /\ is_enabled b = is_enabled b' /\ b_contacts b = b_contacts b' /\ b_joints b = b_joints b'.
  Proof. destruct b as [? []], b' as [? []]. unfold bstrip. cbn. intros H. injection H as -> -> -> -> -> -> -> -> -> -> -> -> -> -> -> -> -> -> -> -> -> ->. repeat split. Qed.
  Lemma D_view X seed w is st i b : D X seed w is st -> w_bodies w i = Some b -> exists b1, w_bodies w1 i = Some b1 /\ view_b b = view_b b1 /\ b_sweep b = b_sweep b1 /\ is_static b = is_static b1 /\ is_enabled b = is_enabled b1 /\ b_contacts b = b_contacts b1 /\ b_joints b = b_joints b1.
  Proof. intros H K. pose proof (D_bodies _ _ _ _ _ H i) as Q. rewrite K in Q. destruct (w_bodies w1 i) as [b1|]; [|easy]. cbn [option_map] in Q. assert (E : bstrip b = bstrip b1) by congruence. exists b1. split; auto. now apply bstrip_view. Qed.
  Lemma D_live X seed w is st i : D X seed w is st -> (w_bodies w i <> None <-> w_bodies w1 i <> None).
  Proof. intros H. eapply map_live. apply (D_bodies _ _ _ _ _ H). Qed.
  Lemma D_contact X seed w is st c x : D X seed w is st -> w_contacts w c = Some x -> exists x1, w_contacts w1 c = Some x1 /\ cstrip x = cstrip x1.
  Proof. intros H K. pose proof (D_contacts _ _ _ _ _ H c) as Q. rewrite K in Q. destruct (w_contacts w1 c) as [x1|]; [|easy]. cbn [option_map] in Q. exists x1. split; auto. congruence. Qed.
  Lemma cstrip_view (x y : contact T) : cstrip x = cstrip y -> view_cf x = view_cf y /\ cf_enabled (c_flags x) = cf_enabled (c_flags y) /\ cf_touching (c_flags x) = cf_touching (c_flags y) /\ c_fa x = c_fa y /\ c_fb x = c_fb y /\ c_manifold x = c_manifold y /\ c_toi_count x = c_toi_count y.
  Proof. destruct x as [[]], y as [[]]. unfold cstrip, view_cf. cbn. intros H. injection H. intros. subst. repeat split. Qed.
  Lemma D_fixtures X seed w is st : D X seed w is st -> w_fixtures w = w_fixtures w1.
  Proof. intros H. rewrite (D_frame _ _ _ _ _ H). reflexivity. Qed.

  Lemma D_push X seed w is st o x : D X seed w is st -> w_bodies w o = Some x -> fl_island (b_flags x) = false -> enabled_at w1 o = true -> conn w1 seed o ->
    D X seed (put_body o (mod_flags (set_fl_island true) x) w) is (o :: st).
  Proof.
    intros H Hx Fx En C. assert (B0 : bflag w o = false) by (unfold bflag; now rewrite Hx).
    assert (Nin : ~ In o (is_bodies is ++ st)). { intros K. assert (bflag w o = true) by (apply (D_flag _ _ _ _ _ H); auto). congruence. }
    assert (N1 : bflag w1 o = false). { destruct (bflag w1 o) eqn:Q; auto. assert (bflag w o = true) by (apply (D_flag _ _ _ _ _ H); auto). congruence. }
    assert (In' : forall i, In i (is_bodies is ++ o :: st) <-> i = o \/ In i (is_bodies is ++ st)) by (intros i; rewrite !in_app_iff; cbn; intuition).
    assert (BF : forall i, bflag (put_body o (mod_flags (set_fl_island true) x) w) i = if Nat.eqb i o then true else bflag w i). { intros i. unfold bflag. cbn. unfold put. destruct (Nat.eqb i o); auto; now destruct x as [? []]. }
    assert (BF' : forall i, bflag w i = true -> bflag (put_body o (mod_flags (set_fl_island true) x) w) i = true) by (intros i K; rewrite BF; now destruct (Nat.eqb i o)).
    split.
    - rewrite (D_frame _ _ _ _ _ H). reflexivity.
    - intros i. rewrite <- (D_bodies _ _ _ _ _ H). cbn. unfold put. destruct (Nat.eqb_spec i o) as [->|]; auto. rewrite Hx. cbn. now destruct x as [? []].
    - apply (D_contacts _ _ _ _ _ H).
    - apply (D_joints _ _ _ _ _ H).
    - apply NoDup_Add with (a := o) (l := is_bodies is ++ st); [|split; auto; apply (D_nodup _ _ _ _ _ H)]. apply Add_app.
    - intros i. rewrite BF, In'. destruct (Nat.eqb_spec i o) as [->|Hi]; [tauto|]. rewrite (D_flag _ _ _ _ _ H). tauto.
    - intros i K. apply In' in K. destruct K as [->|K]; auto. now apply (D_in _ _ _ _ _ H).
    - apply In'. right. apply (D_seed _ _ _ _ _ H).
    - apply (D_cflag _ _ _ _ _ H).
    - intros c K. destruct (D_cin _ _ _ _ _ H c K) as (A & B & Z). eauto.
    - apply (D_cend _ _ _ _ _ H).
    - apply (D_cnodup _ _ _ _ _ H).
    - apply (D_jflag _ _ _ _ _ H).
    - intros c K. destruct (D_jin _ _ _ _ _ H c K) as (A & B & Z). refine (conj A (conj B _)). intros s k Q. destruct (Z s k Q). auto.
    - apply (D_jend _ _ _ _ _ H).
    - apply (D_jnodup _ _ _ _ _ H).
    - apply (D_cclosed _ _ _ _ _ H).
    - apply (D_jclosed _ _ _ _ _ H).
    - intros i K. rewrite <- (D_awake _ _ _ _ _ H i K). unfold awake_at. cbn. unfold put. destruct (Nat.eqb_spec i o) as [->|]; auto. rewrite Hx. now destruct x as [? []].
    - intros n i K. destruct (D_index _ _ _ _ _ H n i K) as (b & A & B). assert (i <> o). { intros ->. apply Nin, in_app_iff. left. now apply nth_error_In in K. }
      exists b. cbn. rewrite put_ne by auto. auto.
  Qed.
  Lemma NoDup_snoc {A} (l : list A) c : NoDup l -> ~ In c l -> NoDup (l ++ [c]).
  Proof. intros H K. apply NoDup_Add with (a := c) (l := l); [|auto]. rewrite <- (app_nil_r l) at 1. apply Add_app. Qed.
  Lemma D_mark X seed w is st c x : D X seed w is st -> w_contacts w c = Some x -> cf_island (c_flags x) = false -> solid w1 c = true -> (forall s k, cbody g1 c s = Some k -> bflag w k = true) -> (exists s i, cbody g1 c s = Some i /\ moving w1 i = true /\ In i (is_bodies is)) ->
    D X seed (put_contact c (mod_cflags (set_cf_island true) x) w) (Island (is_bodies is) (is_contacts is ++ [c]) (is_joints is)) st.
  Proof.
    intros H Hx Fx So Ends Mv. assert (B0 : cflag w c = false) by (unfold cflag; now rewrite Hx).
    assert (Nin : ~ In c (is_contacts is)). { intros K. assert (cflag w c = true) by (apply (D_cflag _ _ _ _ _ H); auto). congruence. }
    assert (N1 : cflag w1 c = false). { destruct (cflag w1 c) eqn:Q; auto. assert (cflag w c = true) by (apply (D_cflag _ _ _ _ _ H); auto). congruence. }
    assert (CF : forall i, cflag (put_contact c (mod_cflags (set_cf_island true) x) w) i = if Nat.eqb i c then true else cflag w i). { intros i. unfold cflag. cbn. unfold put. destruct (Nat.eqb i c); auto; now destruct x as [[]]. }
    assert (CF' : forall i, cflag w i = true -> cflag (put_contact c (mod_cflags (set_cf_island true) x) w) i = true) by (intros i K; rewrite CF; now destruct (Nat.eqb i c)).
    split; cbn [is_bodies is_contacts is_joints].
    - rewrite (D_frame _ _ _ _ _ H). reflexivity.
    - apply (D_bodies _ _ _ _ _ H).
    - intros i. rewrite <- (D_contacts _ _ _ _ _ H). cbn. unfold put. destruct (Nat.eqb_spec i c) as [->|]; auto. rewrite Hx. cbn. now destruct x as [[]].
    - apply (D_joints _ _ _ _ _ H).
    - apply (D_nodup _ _ _ _ _ H).
    - apply (D_flag _ _ _ _ _ H).
    - apply (D_in _ _ _ _ _ H).
    - apply (D_seed _ _ _ _ _ H).
    - intros i. rewrite CF, in_app_iff. cbn. destruct (Nat.eqb_spec i c) as [->|Hi]; [tauto|]. rewrite (D_cflag _ _ _ _ _ H). split; [tauto|]. intros [K|[K|[K|[]]]]; auto; congruence.
    - intros i K. apply in_app_iff in K. destruct K as [K|[<-|[]]]; [apply (D_cin _ _ _ _ _ H i K)|]. auto.
    - intros i K. apply in_app_iff in K. destruct K as [K|[<-|[]]]; [apply (D_cend _ _ _ _ _ H i K)|]. auto.
    - apply NoDup_snoc; auto. apply (D_cnodup _ _ _ _ _ H).
    - apply (D_jflag _ _ _ _ _ H).
    - apply (D_jin _ _ _ _ _ H).
    - apply (D_jend _ _ _ _ _ H).
    - apply (D_jnodup _ _ _ _ _ H).
    - intros. eapply CF', (D_cclosed _ _ _ _ _ H); eauto.
    - apply (D_jclosed _ _ _ _ _ H).
    - apply (D_awake _ _ _ _ _ H).
    - apply (D_index _ _ _ _ _ H).
  Qed.
  Lemma D_markj X seed w is st c x : D X seed w is st -> w_joints w c = Some x -> j_island x = false -> (forall s k, jbody g1 c s = Some k -> bflag w k = true /\ enabled_at w1 k = true) -> (exists s i, jbody g1 c s = Some i /\ moving w1 i = true /\ In i (is_bodies is)) ->
    D X seed (put_joint c (set_j_island true x) w) (Island (is_bodies is) (is_contacts is) (is_joints is ++ [c])) st.
  Proof.
    intros H Hx Fx Ends Mv. assert (B0 : jflag w c = false) by (unfold jflag; now rewrite Hx).
    assert (Nin : ~ In c (is_joints is)). { intros K. assert (jflag w c = true) by (apply (D_jflag _ _ _ _ _ H); auto). congruence. }
    assert (N1 : jflag w1 c = false). { destruct (jflag w1 c) eqn:Q; auto. assert (jflag w c = true) by (apply (D_jflag _ _ _ _ _ H); auto). congruence. }
    assert (CF : forall i, jflag (put_joint c (set_j_island true x) w) i = if Nat.eqb i c then true else jflag w i). { intros i. unfold jflag. cbn. unfold put. destruct (Nat.eqb i c); auto. }
    assert (CF' : forall i, jflag w i = true -> jflag (put_joint c (set_j_island true x) w) i = true) by (intros i K; rewrite CF; now destruct (Nat.eqb i c)).
    split; cbn [is_bodies is_contacts is_joints].
    - rewrite (D_frame _ _ _ _ _ H). reflexivity.
    - apply (D_bodies _ _ _ _ _ H).
    - apply (D_contacts _ _ _ _ _ H).
    - intros i. rewrite <- (D_joints _ _ _ _ _ H). cbn. unfold put. destruct (Nat.eqb_spec i c) as [->|]; auto. now rewrite Hx.
    - apply (D_nodup _ _ _ _ _ H).
    - apply (D_flag _ _ _ _ _ H).
    - apply (D_in _ _ _ _ _ H).
    - apply (D_seed _ _ _ _ _ H).
    - apply (D_cflag _ _ _ _ _ H).
    - apply (D_cin _ _ _ _ _ H).
    - apply (D_cend _ _ _ _ _ H).
    - apply (D_cnodup _ _ _ _ _ H).
    - intros i. rewrite CF, in_app_iff. cbn. destruct (Nat.eqb_spec i c) as [->|Hi]; [tauto|]. rewrite (D_jflag _ _ _ _ _ H). split; [tauto|]. intros [K|[K|[K|[]]]]; auto; congruence.
    - intros i K. apply in_app_iff in K. destruct K as [K|[<-|[]]]; [apply (D_jin _ _ _ _ _ H i K)|]. refine (conj N1 (conj _ Ends)). rewrite <- (map_none jstrip), <- (D_joints _ _ _ _ _ H), map_none. congruence.
    - intros i K. apply in_app_iff in K. destruct K as [K|[<-|[]]]; [apply (D_jend _ _ _ _ _ H i K)|]. auto.
    - apply NoDup_snoc; auto. apply (D_jnodup _ _ _ _ _ H).
    - apply (D_cclosed _ _ _ _ _ H).
    - intros. eapply CF', (D_jclosed _ _ _ _ _ H); eauto.
    - apply (D_awake _ _ _ _ _ H).
    - apply (D_index _ _ _ _ _ H).
  Qed.

  (* one edge *)
  Lemma visit_other_ok X seed w is st o : D X seed w is st -> w_bodies w1 o <> None -> enabled_at w1 o = true -> conn w1 seed o ->
    sat p (visit_other o (w, is, st)) (fun q => exists w' st', q = (w', is, st') /\ D X seed w' is st' /\ bflag w' o = true /\ w_contacts w' = w_contacts w /\ w_joints w' = w_joints w /\ (forall k, bflag w k = true -> bflag w' k = true) /\
       ((w' = w /\ st' = st) \/ exists x, w_bodies w o = Some x /\ w' = put_body o (mod_flags (set_fl_island true) x) w /\ st' = o :: st)).
  Proof.
    intros H L En C. unfold visit_other. apply sat_bind, sat_body; [now apply (D_live _ _ _ _ _ o H)|]. intros x Hx. destruct (fl_island (b_flags x)) eqn:Fx; cbn [sat].
    - exists w, st. refine (conj eq_refl (conj H (conj _ (conj eq_refl (conj eq_refl (conj _ _)))))); auto. unfold bflag. now rewrite Hx.
    - exists (put_body o (mod_flags (set_fl_island true) x) w), (o :: st). refine (conj eq_refl (conj _ (conj _ (conj eq_refl (conj eq_refl (conj _ _)))))).
      + apply D_push; auto.
      + unfold bflag. cbn. rewrite put_eq. now destruct x as [? []].
      + intros k K. unfold bflag in *. cbn. unfold put. destruct (Nat.eqb k o); auto; now destruct x as [? []].
      + right. eauto.
  Qed.
  Definition edge_done (w : world) (e : gedge) : Prop := solid w1 (ge_item e) = true -> cflag w (ge_item e) = true.
  Definition jedge_done (w : world) (e : gedge) : Prop := enabled_at w1 (ge_other e) = true -> jflag w (ge_item e) = true.
  Definition later (w w' : world) : Prop := (forall c, cflag w c = true -> cflag w' c = true) /\ (forall c, jflag w c = true -> jflag w' c = true).
  Lemma visit_contact_ok X seed w is st i e : D X seed w is st -> In i (is_bodies is) -> moving w1 i = true -> In e (contacts_of g1 i) ->
    sat p (visit_contact e (w, is, st)) (fun q => let '(w', is', st') := q in D X seed w' is' st' /\ is_bodies is' = is_bodies is /\ later w w' /\ edge_done w' e).
  Proof.
    intros H Hi Mi He. destruct e as [c s o]. unfold visit_contact, edge_done, later. cbn [ge_item ge_other]. destruct GI as (_ & IF & IC & _). pose proof IC as (_ & (E1 & E2 & E3) & _). apply E2 in He. destruct He as [Hs Ho].
    assert (Lc : w_contacts w1 c <> None). { unfold cbody in Hs. cbn in Hs. now destruct (w_contacts w1 c). }
    assert (Lcw : w_contacts w c <> None). { rewrite <- (map_none cstrip), (D_contacts _ _ _ _ _ H), map_none. exact Lc. }
    apply sat_bind, sat_contact; auto. intros x Hx. destruct (D_contact _ _ _ _ _ _ _ H Hx) as (x1 & Hx1 & St). destruct (cstrip_view _ _ St) as (_ & Een & Eto & Efa & Efb & _).
    assert (Sol : solid w1 c = cf_enabled (c_flags x) && cf_touching (c_flags x) && match w_fixtures w1 (c_fa x), w_fixtures w1 (c_fb x) with Some a, Some b => negb (f_sensor a || f_sensor b) | _, _ => false end) by (unfold solid; now rewrite Hx1, Een, Eto, Efa, Efb).
    destruct (cf_island (c_flags x)) eqn:Fx; cbn [sat].
    { refine (conj H (conj eq_refl (conj (conj _ _) _))); auto. intros _. unfold cflag. now rewrite Hx. }
    destruct (cf_enabled (c_flags x)); cbn [negb orb andb] in *; [|cbn [sat]; refine (conj H (conj eq_refl (conj (conj _ _) _))); auto; congruence].
    destruct (cf_touching (c_flags x)); cbn [negb orb andb] in *; [|cbn [sat]; refine (conj H (conj eq_refl (conj (conj _ _) _))); auto; congruence].
    pose proof (contact_parts _ _ _ IC Hx1) as (fa & fb & a & b & ba & bb & Ha & Hb & _). rewrite <- Efa in Ha. rewrite <- Efb in Hb. rewrite Ha, Hb in Sol. unfold get_fixture. rewrite (D_fixtures _ _ _ _ _ H), Ha, Hb. cbn [unwrap bind].
    destruct (f_sensor fa || f_sensor fb) eqn:Se; cbn [negb] in Sol.
    { cbn [sat]. refine (conj H (conj eq_refl (conj (conj _ _) _))); auto. congruence. }
    assert (Lo : w_bodies w1 o <> None). { pose proof (contact_bodies_live g1 c (negb s) o IC Ho) as Z. cbn in Z. now destruct (w_bodies w1 o). }
    assert (Eo : enabled_at w1 o = true). { unfold enabled_at. destruct (w_bodies w1 o) as [y|] eqn:Ey; [|easy]. destruct EN as (_ & B & _). apply (B c (negb s) o (view_b y)); auto. cbn. now rewrite Ey. }
    assert (Co : conn w1 seed o). { eapply (conn_step w1 seed i); auto. { apply (D_in _ _ _ _ _ H). apply in_app_iff. auto. } left. exists c, s. auto. }
    (* push first, then mark *)
    assert (Bi : bflag w i = true) by (apply (D_flag _ _ _ _ _ H); right; apply in_app_iff; auto).
    assert (Mv : exists s0 k, cbody g1 c s0 = Some k /\ moving w1 k = true /\ In k (is_bodies is)) by (exists s, i; auto).
    assert (Ends : forall w', bflag w' i = true -> bflag w' o = true -> forall s0 k, cbody g1 c s0 = Some k -> bflag w' k = true).
    { intros w' B1 B2 s0 k K. destruct s, s0; cbn in Ho; congruence. }
    unfold visit_other. apply sat_bind, sat_body; [now apply (D_live _ _ _ _ _ o H)|]. intros y Hy. cbn in Hy.
    destruct (fl_island (b_flags y)) eqn:Fy; cbn [sat].
    - assert (bflag w o = true) as Bo by (unfold bflag; now rewrite Hy). refine (conj (D_mark X seed w is st c x H Hx Fx Sol (Ends w Bi Bo) Mv) (conj eq_refl (conj (conj _ _) _))); auto.
      + intros k K. unfold cflag in *. cbn. unfold put. destruct (Nat.eqb k c); auto; now destruct x as [[]].
      + intros _. unfold cflag. cbn. rewrite put_eq. now destruct x as [[]].
    - pose proof (D_push X seed w is st o y H Hy Fy Eo Co) as H2. set (w2 := put_body o (mod_flags (set_fl_island true) y) w) in *.
      assert (Bi2 : bflag w2 i = true) by (unfold bflag, w2 in *; cbn; unfold put; destruct (Nat.eqb i o); auto; now destruct y as [? []]).
      assert (Bo2 : bflag w2 o = true) by (unfold bflag, w2 in *; cbn; rewrite put_eq; now destruct y as [? []]).
      refine (conj (D_mark X seed w2 is (o :: st) c x H2 Hx Fx Sol (Ends w2 Bi2 Bo2) Mv) (conj eq_refl (conj (conj _ _) _))); auto.
      + intros k K. unfold cflag in *. cbn. unfold put. destruct (Nat.eqb k c); auto; now destruct x as [[]].
      + intros _. unfold cflag. cbn. rewrite put_eq. now destruct x as [[]].
  Qed.
  Lemma visit_joint_ok X seed w is st i e : D X seed w is st -> In i (is_bodies is) -> moving w1 i = true -> In e (joints_of g1 i) ->
    sat p (visit_joint e (w, is, st)) (fun q => let '(w', is', st') := q in D X seed w' is' st' /\ is_bodies is' = is_bodies is /\ later w w' /\ jedge_done w' e).
  Proof.
    intros H Hi Mi He. destruct e as [c s o]. unfold visit_joint, jedge_done, later. cbn [ge_item ge_other]. destruct GI as (_ & IF & _ & IJ). pose proof IJ as (_ & (E1 & E2 & E3) & JL). apply E2 in He. destruct He as [Hs Ho].
    assert (Lc : w_joints w1 c <> None). { unfold jbody in Hs. cbn in Hs. now destruct (w_joints w1 c). }
    assert (Lcw : w_joints w c <> None). { rewrite <- (map_none jstrip), (D_joints _ _ _ _ _ H), map_none. exact Lc. }
    apply sat_bind, sat_joint; auto. intros x Hx. destruct (j_island x) eqn:Fx; cbn [sat].
    { refine (conj H (conj eq_refl (conj (conj _ _) _))); auto. intros _. unfold jflag. now rewrite Hx. }
    assert (Lo : w_bodies w1 o <> None). { pose proof (JL c (negb s) o Ho) as Z. cbn in Z. now destruct (w_bodies w1 o). }
    apply sat_bind, sat_body; [now apply (D_live _ _ _ _ _ o H)|]. intros y0 Hy0. destruct (D_view _ _ _ _ _ _ _ H Hy0) as (y1 & Hy1 & _ & _ & _ & Eny & _).
    assert (Eo : enabled_at w1 o = is_enabled y0) by (unfold enabled_at; rewrite Hy1; auto). destruct (is_enabled y0); cbn [negb].
    2:{ cbn [sat]. refine (conj H (conj eq_refl (conj (conj _ _) _))); auto. congruence. }
    assert (Co : conn w1 seed o). { eapply (conn_step w1 seed i); auto. { apply (D_in _ _ _ _ _ H). apply in_app_iff. auto. } right. exists c, s. auto. }
    assert (Bi : bflag w i = true) by (apply (D_flag _ _ _ _ _ H); right; apply in_app_iff; auto).
    assert (Mv : exists s0 k, jbody g1 c s0 = Some k /\ moving w1 k = true /\ In k (is_bodies is)) by (exists s, i; auto).
    assert (Ei : enabled_at w1 i = true). { apply (D_in _ _ _ _ _ H). apply in_app_iff. auto. }
    assert (Ends : forall w', bflag w' i = true -> bflag w' o = true -> forall s0 k, jbody g1 c s0 = Some k -> bflag w' k = true /\ enabled_at w1 k = true).
    { intros w' B1 B2 s0 k K. destruct s, s0; cbn in Ho; split; congruence. }
    unfold visit_other. apply sat_bind, sat_body; [now apply (D_live _ _ _ _ _ o H)|]. intros y Hy. cbn in Hy.
    destruct (fl_island (b_flags y)) eqn:Fy; cbn [sat].
    - assert (bflag w o = true) as Bo by (unfold bflag; now rewrite Hy). refine (conj (D_markj X seed w is st c x H Hx Fx (Ends w Bi Bo) Mv) (conj eq_refl (conj (conj _ _) _))); auto.
      + intros k K. unfold jflag in *. cbn. unfold put. destruct (Nat.eqb k c); auto.
      + intros _. unfold jflag. cbn. now rewrite put_eq.
    - pose proof (D_push X seed w is st o y H Hy Fy Eo Co) as H2. set (w2 := put_body o (mod_flags (set_fl_island true) y) w) in *.
      assert (Bi2 : bflag w2 i = true) by (unfold bflag, w2 in *; cbn; unfold put; destruct (Nat.eqb i o); auto; now destruct y as [? []]).
      assert (Bo2 : bflag w2 o = true) by (unfold bflag, w2 in *; cbn; rewrite put_eq; now destruct y as [? []]).
      refine (conj (D_markj X seed w2 is (o :: st) c x H2 Hx Fx (Ends w2 Bi2 Bo2) Mv) (conj eq_refl (conj (conj _ _) _))); auto.
      + intros k K. unfold jflag in *. cbn. unfold put. destruct (Nat.eqb k c); auto.
      + intros _. unfold jflag. cbn. now rewrite put_eq.
  Qed.

  (* one body *)
  Lemma D_add seed w is st i b : D (fun _ => False) seed w is (i :: st) -> w_bodies w i = Some b -> forall b', bstrip b' = bstrip b -> fl_island (b_flags b') = true -> b_island_index b' = Z.of_nat (length (is_bodies is)) ->
    D (eq i) seed (put_body i b' w) (Island (is_bodies is ++ [i]) (is_contacts is) (is_joints is)) st.
  Proof.
    intros H Hb b' Sb Fb Ib. assert (Ins : forall k, In k ((is_bodies is ++ [i]) ++ st) <-> In k (is_bodies is ++ i :: st)) by (intros k; rewrite <- app_assoc; reflexivity).
    assert (BF : forall k, bflag (put_body i b' w) k = bflag w k).
    { intros k. unfold bflag. cbn. unfold put. destruct (Nat.eqb_spec k i) as [->|]; auto. rewrite Hb, Fb. symmetry. assert (bflag w i = true) as Q. { apply (D_flag _ _ _ _ _ H). right. apply in_app_iff. cbn. auto. } unfold bflag in Q. now rewrite Hb in Q. }
    assert (Ni : ~ In i (is_bodies is)). { pose proof (D_nodup _ _ _ _ _ H) as Q. apply NoDup_remove_2 in Q. rewrite in_app_iff in Q. tauto. }
    split; cbn [is_bodies is_contacts is_joints].
    - rewrite (D_frame _ _ _ _ _ H). reflexivity.
    - intros k. rewrite <- (D_bodies _ _ _ _ _ H). cbn. unfold put. destruct (Nat.eqb_spec k i) as [->|]; auto. rewrite Hb. cbn. now rewrite Sb.
    - apply (D_contacts _ _ _ _ _ H).
    - apply (D_joints _ _ _ _ _ H).
    - rewrite <- app_assoc. apply (D_nodup _ _ _ _ _ H).
    - intros k. rewrite BF, Ins. apply (D_flag _ _ _ _ _ H).
    - intros k K. apply Ins in K. now apply (D_in _ _ _ _ _ H).
    - apply Ins. apply (D_seed _ _ _ _ _ H).
    - apply (D_cflag _ _ _ _ _ H).
    - intros c K. destruct (D_cin _ _ _ _ _ H c K) as (A & B & Z). refine (conj A (conj B _)). intros s k Q. rewrite BF. eauto.
    - intros c K. destruct (D_cend _ _ _ _ _ H c K) as (s & k & A & B & Z). exists s, k. rewrite in_app_iff. auto.
    - apply (D_cnodup _ _ _ _ _ H).
    - apply (D_jflag _ _ _ _ _ H).
    - intros c K. destruct (D_jin _ _ _ _ _ H c K) as (A & B & Z). refine (conj A (conj B _)). intros s k Q. rewrite BF. eauto.
    - intros c K. destruct (D_jend _ _ _ _ _ H c K) as (s & k & A & B & Z). exists s, k. rewrite in_app_iff. auto.
    - apply (D_jnodup _ _ _ _ _ H).
    - intros k c s K1 K2. apply in_app_iff in K1. destruct K1 as [K1|[K1|[]]]; [|congruence]. apply (D_cclosed _ _ _ _ _ H k c s); auto.
    - intros k c s o K1 K2. apply in_app_iff in K1. destruct K1 as [K1|[K1|[]]]; [|congruence]. apply (D_jclosed _ _ _ _ _ H k c s); auto.
    - intros k K. rewrite in_app_iff in K. cbn in K. rewrite <- (D_awake _ _ _ _ _ H k) by tauto. unfold awake_at. cbn. rewrite put_ne; auto.
    - intros n k K. destruct (Nat.eq_dec k i) as [->|Hk].
      + exists b'. cbn. rewrite put_eq. split; auto. rewrite Ib. f_equal. destruct (Nat.lt_ge_cases n (length (is_bodies is))) as [L|L].
        * rewrite nth_error_app1 in K by auto. apply nth_error_In in K. now apply Ni in K.
        * rewrite nth_error_app2 in K by auto. destruct (n - length (is_bodies is)) as [|m] eqn:Q; [lia|]. cbn in K. now destruct m.
      + destruct (Nat.lt_ge_cases n (length (is_bodies is))) as [L|L].
        * rewrite nth_error_app1 in K by auto. destruct (D_index _ _ _ _ _ H n k K) as (y & A & B). exists y. cbn. rewrite put_ne by auto. auto.
        * rewrite nth_error_app2 in K by auto. destruct (n - length (is_bodies is)) as [|m]; cbn in K; [congruence|now destruct m].
  Qed.
  Lemma D_close seed w is st i : D (eq i) seed w is st -> (moving w1 i = true -> (forall e, In e (contacts_of g1 i) -> edge_done w e) /\ (forall e, In e (joints_of g1 i) -> jedge_done w e)) -> D (fun _ => False) seed w is st.
  Proof.
    intros H Hc. destruct GI as (_ & _ & (_ & (_ & C2 & C3) & _) & (_ & (_ & J2 & J3) & _)).
    split; try apply H.
    - intros k c s K1 _ K2 K3 K4. destruct (Nat.eq_dec i k) as [<-|Hk]; [|apply (D_cclosed _ _ _ _ _ H k c s); auto]. destruct (Hc K2) as [A _].
      destruct (C3 c) as (a & b & Ea & Eb & _). { unfold cbody in K3. now destruct (g_c g1 c). } assert (exists o, cbody g1 c (negb s) = Some o) as (o & Ho) by (destruct s; cbn; eauto).
      apply (A (GEdge c s o)); auto. apply C2. auto.
    - intros k c s o K1 _ K2 K3 K4 K5. destruct (Nat.eq_dec i k) as [<-|Hk]; [|apply (D_jclosed _ _ _ _ _ H k c s o); auto]. destruct (Hc K2) as [_ A].
      apply (A (GEdge c s o)); auto. apply J2. auto.
  Qed.
  Lemma dfs1_ok seed w is st i : D (fun _ => False) seed w is (i :: st) ->
    sat p (dfs1 i (w, is, st)) (fun q => let '(w', is', st') := q in D (fun _ => False) seed w' is' st' /\ is_bodies is' = is_bodies is ++ [i]).
  Proof.
    intros H. unfold dfs1. destruct (D_in _ _ _ _ _ H i) as (F1 & En & _). { apply in_app_iff. cbn. auto. }
    assert (Li : w_bodies w1 i <> None) by (unfold enabled_at in En; now destruct (w_bodies w1 i)).
    apply sat_bind, sat_body; [now apply (D_live _ _ _ _ _ i H)|]. intros b Hb. destruct (D_view _ _ _ _ _ _ _ H Hb) as (b1 & Hb1 & Vb & _ & Sb & Eb & Cb & Jb).
    apply sat_bind, sat_assert; [right; unfold enabled_at in En; rewrite Hb1 in En; congruence|]. intros _. unfold add_body. cbv zeta.
    assert (Fb : fl_island (b_flags b) = true). { assert (bflag w i = true) as Q. { apply (D_flag _ _ _ _ _ H). right. apply in_app_iff. cbn. auto. } unfold bflag in Q. now rewrite Hb in Q. }
    set (is' := Island (is_bodies is ++ [i]) (is_contacts is) (is_joints is)).
    assert (Mi : moving w1 i = negb (is_static b)) by (unfold moving; now rewrite Hb1, Sb).
    destruct (is_static b) eqn:Es.
    - cbn [sat]. split; [|reflexivity]. apply (D_close _ _ _ _ i).
      + apply (D_add seed w is st i b H Hb); [now destruct b as [? []]|exact Fb|now destruct b].
      + intros K. rewrite Mi in K. discriminate.
    - unfold mod_body, get_body. cbn [w_bodies put_body set_w_bodies]. rewrite put_eq. cbn [unwrap bind].
      set (b' := mod_flags (set_fl_awake true) (set_b_island_index (Z.of_nat (length (is_bodies is))) b)). set (wx := put_body i b' _).
      assert (H2 : D (eq i) seed wx is' st).
      { pose proof (D_add seed w is st i b H Hb b') as Z. assert (D (eq i) seed (put_body i b' w) is' st) as Y. { apply Z; [now destruct b as [? []]|subst b'; now destruct b as [? []]|now destruct b]. }
        assert (forall k, w_bodies wx k = w_bodies (put_body i b' w) k) as Q by (intros k; subst wx; cbn; unfold put; now destruct (Nat.eqb k i)).
        assert (B : forall k, bflag wx k = bflag (put_body i b' w) k) by (intros k; unfold bflag; now rewrite Q).
        destruct Y. split; auto.
        - subst wx. cbn. rewrite (D_frame _ _ _ _ _ H). reflexivity.
        - intros k. rewrite Q. auto.
        - intros k. rewrite B. auto.
        - intros c K. destruct (D_cin0 c K) as (A1 & A2 & A3). refine (conj A1 (conj A2 _)). intros s k L. rewrite B. eauto.
        - intros c K. destruct (D_jin0 c K) as (A1 & A2 & A3). refine (conj A1 (conj A2 _)). intros s k L. rewrite B. eauto.
        - intros k K. unfold awake_at. rewrite Q. exact (D_awake0 k K).
        - intros n k K. rewrite Q. exact (D_index0 n k K). }
      clearbody wx. cbn [negb] in Mi. assert (Hin : forall is0, is_bodies is0 = is_bodies is' -> In i (is_bodies is0)) by (intros is0 ->; subst is'; cbn; apply in_app_iff; cbn; auto).
      apply sat_bind. eapply sat_mono; [apply (sat_each_done (fun d q => let '(w', is0, st') := q in D (eq i) seed w' is0 st' /\ is_bodies is0 = is_bodies is' /\ forall e, In e d -> edge_done w' e))|].
      { intros d e r [[w2 is2] st2] El (A & B & Z). eapply sat_mono; [apply (visit_contact_ok (eq i) seed w2 is2 st2 i e A); auto|].
        - unfold contacts_of. cbn. rewrite Hb1. cbn. rewrite <- Cb, El. apply in_app_iff. cbn. auto.
        - intros [[w3 is3] st3] (A3 & B3 & L3 & E3). refine (conj A3 (conj _ _)); [congruence|]. intros e' K. apply in_app_iff in K. destruct K as [K|[<-|[]]]; auto. intros So. apply L3. now apply Z. }
      { refine (conj H2 (conj eq_refl _)). easy. }
      intros [[w2 is2] st2] (A2 & B2 & Z2). eapply sat_mono; [apply (sat_each_done (fun d q => let '(w', is0, st') := q in D (eq i) seed w' is0 st' /\ is_bodies is0 = is_bodies is' /\ (forall e, In e (b_contacts b) -> edge_done w' e) /\ forall e, In e d -> jedge_done w' e))|].
      { intros d e r [[w3 is3] st3] El (A & B & Z & Y). eapply sat_mono; [apply (visit_joint_ok (eq i) seed w3 is3 st3 i e A); auto|].
        - unfold joints_of. cbn. rewrite Hb1. cbn. rewrite <- Jb, El. apply in_app_iff. cbn. auto.
        - intros [[w4 is4] st4] (A4 & B4 & (L4 & L4') & E4). refine (conj A4 (conj _ (conj _ _))); [congruence| |].
          + intros e' K So. apply L4. now apply Z.
          + intros e' K. apply in_app_iff in K. destruct K as [K|[<-|[]]]; auto. intros So. apply L4'. now apply Y. }
      { refine (conj A2 (conj B2 (conj Z2 _))). easy. }
      intros [[w3 is3] st3] (A3 & B3 & Z3 & Y3). split; [|exact B3]. apply (D_close _ _ _ _ i A3). intros _. split.
      + intros e K. apply Z3. rewrite Cb. unfold contacts_of in K. cbn in K. rewrite Hb1 in K. exact K.
      + intros e K. apply Y3. rewrite Jb. unfold joints_of in K. cbn in K. rewrite Hb1 in K. exact K.
  Qed.
  Lemma D_size X seed w is st : D X seed w is st -> length (is_bodies is) + length st <= w_body_count w1.
  Proof.
    intros H. destruct GI as ((A & B & N & _) & _). cbn in A, B, N. rewrite <- app_length. replace (w_body_count w1) with (length (w_body_list w1)) by lia. apply NoDup_incl_length; [apply (D_nodup _ _ _ _ _ H)|].
    intros i Hi. apply B. destruct (D_in _ _ _ _ _ H i Hi) as (_ & En & _). unfold enabled_at in En. now destruct (w_bodies w1 i).
  Qed.
  Lemma dfs_ok seed : forall fuel w is st, D (fun _ => False) seed w is st -> w_body_count w1 - length (is_bodies is) < fuel ->
    sat p (dfs fuel (w, is, st)) (fun q => let '(w', is', st') := q in D (fun _ => False) seed w' is' [] /\ st' = []).
  Proof.
    induction fuel as [|fuel IH]; intros w is st H L; [lia|]. cbn [dfs]. destruct st as [|i st]; [now cbn|]. apply sat_bind. eapply sat_mono; [apply dfs1_ok; exact H|].
    intros [[w2 is2] st2] (H2 & E2). apply IH; auto. pose proof (D_size _ _ _ _ _ H) as S. cbn in S. rewrite E2, app_length. cbn. lia.
  Qed.
  Lemma D_start seed b : w_bodies w1 seed = Some b -> fl_island (b_flags b) = false -> is_enabled b = true -> D (fun _ => False) seed (put_body seed (mod_flags (set_fl_island true) b) w1) (Island [] [] []) [seed].
  Proof.
    intros Hb Fb Eb. split; cbn [is_bodies is_contacts is_joints app]; try easy; auto; try (now constructor); try (intros c; split; auto; intros [K|[]]; auto; fail).
    - intros i. cbn. unfold put. destruct (Nat.eqb_spec i seed) as [->|]; auto. rewrite Hb. cbn. now destruct b as [? []].
    - constructor; [easy|constructor].
    - intros i. unfold bflag. cbn. unfold put. destruct (Nat.eqb_spec i seed) as [->|Hi].
      + split; auto; intros _; now destruct b as [? []].
      + split; [auto|]. intros [K|[K|[]]]; auto; congruence.
    - intros i [<-|[]]. unfold bflag, enabled_at. rewrite Hb. refine (conj Fb (conj Eb _)). constructor.
    - intros i _. unfold awake_at. cbn. unfold put. destruct (Nat.eqb_spec i seed) as [->|]; auto. rewrite Hb. now destruct b as [? []].
    - intros n i K. now destruct n.
  Qed.
End Island.
