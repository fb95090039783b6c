(** Creating and destroying bodies. *)
From Coq Require Import List ZArith Bool Arith Lia.
From Verif Require Import Base Num Math Collision Manifold Filter ShapeModel ListFacts ManifoldProofs TreeModel TreeSpec TreeHist BroadModel BroadSpec BroadProofs BroadFinal DynModel DynProofs WorldModel WorldGraph WorldGops WorldLogic WorldPhys WorldContact WorldInv WorldOps WorldFix WorldBody.
Import ListNotations.

Section Graphs.
  Context {T : Type}.
  Implicit Types g h : graph T.

  Definition member (l : list nat) (c : nat) : bool := existsb (Nat.eqb c) l.
  Lemma member_in l c : member l c = true <-> In c l.
  Proof. apply existsb_eq. Qed.

  (** ** many contacts, many joints *)
  Lemma filter_filter {A} (f k : A -> bool) l : List.filter f (List.filter k l) = List.filter (fun x => k x && f x) l.
  Proof. induction l as [|x l IH]; cbn; auto. destruct (k x) eqn:Ek; cbn; [destruct (f x); now rewrite IH|exact IH]. Qed.
  Lemma drops_cl cs : forall g, g_cl (drops cs g) = List.filter (fun c => negb (member cs c)) (g_cl g).
  Proof.
    induction cs as [|c cs IH]; intros g; [cbn; now rewrite filter_all|]. change (drops (c :: cs) g) with (drops cs (drop_contact c g)). rewrite IH. cbn. unfold without. rewrite filter_filter. apply filter_ext. intros x. now rewrite negb_orb.
  Qed.
  Lemma drops_contacts_of cs : forall g i, contacts_of (drops cs g) i = List.filter (fun e => negb (member cs (ge_item e))) (contacts_of g i).
  Proof.
    induction cs as [|c cs IH]; intros g i; [cbn; now rewrite filter_all|]. change (drops (c :: cs) g) with (drops cs (drop_contact c g)). rewrite IH. unfold contacts_of. cbn. destruct (g_b g i) as [v|]; [|reflexivity].
    cbn. unfold without_edge. rewrite filter_filter. apply filter_ext. intros x. now rewrite negb_orb.
  Qed.

  Definition jdrops (js : list nat) g : graph T := fold_left (fun g c => drop_joint c g) js g.
  Lemma jdrops_app js c g : jdrops (js ++ [c]) g = drop_joint c (jdrops js g).
  Proof. unfold jdrops. now rewrite fold_left_app. Qed.
  Lemma jdrop_geq c g h : geq g h -> geq (drop_joint c g) (drop_joint c h).
  Proof.
    intros (A & B & C & D & F & G & H). injection F as F1 F2 F3 F4. injection G as G1 G2 G3. injection H as H1 H2 H3.
    refine (conj _ (conj B (conj C (conj _ (conj _ (conj _ _)))))).
    - intros i. cbn. now rewrite A.
    - intros i. cbn. unfold put. now rewrite D.
    - cbn. congruence.
    - cbn. congruence.
    - cbn. congruence.
  Qed.
  Lemma jdrops_f js : forall g, g_f (jdrops js g) = g_f g.
  Proof. induction js as [|c js IH]; intros g; [reflexivity|]. exact (IH (drop_joint c g)). Qed.
  Lemma jdrops_c js : forall g, g_c (jdrops js g) = g_c g.
  Proof. induction js as [|c js IH]; intros g; [reflexivity|]. exact (IH (drop_joint c g)). Qed.
  Lemma jdrops_j js : forall g c, g_j (jdrops js g) c = if member js c then None else g_j g c.
  Proof.
    induction js as [|c js IH]; intros g c'; [reflexivity|]. change (jdrops (c :: js) g) with (jdrops js (drop_joint c g)). rewrite IH. cbn. unfold put. destruct (Nat.eqb c' c); cbn; [now destruct (member _ _)|reflexivity].
  Qed.
  Lemma jdrops_b {A} (k : bview -> A) js : (forall f v, k (on_joints f v) = k v) -> forall g i, option_map k (g_b (jdrops js g) i) = option_map k (g_b g i).
  Proof.
    intros Hk. induction js as [|c js IH]; intros g i; [reflexivity|]. change (jdrops (c :: js) g) with (jdrops js (drop_joint c g)). rewrite IH. cbn. destruct (g_b g i); cbn; now rewrite ?Hk.
  Qed.
  Lemma jdrops_jl js : forall g, g_jl (jdrops js g) = List.filter (fun c => negb (member js c)) (g_jl g).
  Proof.
    induction js as [|c js IH]; intros g; [cbn; now rewrite filter_all|]. change (jdrops (c :: js) g) with (jdrops js (drop_joint c g)). rewrite IH. cbn. unfold without. rewrite filter_filter. apply filter_ext. intros x. now rewrite negb_orb.
  Qed.
  Lemma jdrops_joints_of js : forall g i, joints_of (jdrops js g) i = List.filter (fun e => negb (member js (ge_item e))) (joints_of g i).
  Proof.
    induction js as [|c js IH]; intros g i; [cbn; now rewrite filter_all|]. change (jdrops (c :: js) g) with (jdrops js (drop_joint c g)). rewrite IH. unfold joints_of. cbn. destruct (g_b g i) as [v|]; [|reflexivity].
    cbn. unfold without_edge. rewrite filter_filter. apply filter_ext. intros x. now rewrite negb_orb.
  Qed.
  Lemma jdrops_rest js : forall g, (g_nb (jdrops js g), g_nf (jdrops js g), g_nc (jdrops js g), g_nj (jdrops js g), g_bl (jdrops js g), g_cl (jdrops js g), g_bn (jdrops js g), g_cn (jdrops js g)) =
    (g_nb g, g_nf g, g_nc g, g_nj g, g_bl g, g_cl g, g_bn g, g_cn g).
  Proof. induction js as [|c js IH]; intros g; [reflexivity|]. exact (IH (drop_joint c g)). Qed.

  Lemma filter_none (js : list nat) (l : list gedge) : (forall e, In e l -> In (ge_item e) js) -> List.filter (fun e => negb (member js (ge_item e))) l = [].
  Proof.
    induction l as [|e l IH]; intros H; cbn; auto. replace (member js (ge_item e)) with true; [apply IH; intros x Hx; apply H; now right|]. symmetry. apply member_in, H. now left.
  Qed.

  (** ** a body goes with all its fixtures *)
  Definition owned g (i f : nat) : bool := match owner g f with Some j => Nat.eqb j i | None => false end.
  Lemma owned_spec g i f : owned g i f = true <-> owner g f = Some i.
  Proof. unfold owned. destruct (owner g f) as [j|]; [rewrite Nat.eqb_eq; split; congruence|split; easy]. Qed.
  Lemma gone_inv g h i : ginv g -> g_b g i <> None -> (forall c s, cbody g c s <> Some i) -> (forall c s, jbody g c s <> Some i) ->
    (forall j, g_b h j = put (g_b g) i None j) -> (forall f, g_f h f = if owned g i f then None else g_f g f) -> (forall c, g_c h c = g_c g c) -> (forall j, g_j h j = g_j g j) ->
    (g_nb h, g_nf h, g_nc h, g_nj h) = (g_nb g, g_nf g, g_nc g, g_nj g) -> (g_bl h, g_cl h, g_jl h) = (without i (g_bl g), g_cl g, g_jl g) -> (g_bn h, g_cn h, g_jn h) = (g_bn g - 1, g_cn g, g_jn g) -> ginv h.
  Proof.
    intros (IB & IF & IC & IJ) Hi NC NJ Hb Hf Hc Hj Hn Hl Hk. injection Hn as N1 N2 N3 N4. injection Hl as L1 L2 L3. injection Hk as K1 K2 K3.
    assert (Ow : forall f, owner h f = if owned g i f then None else owner g f) by (intros f; unfold owner; rewrite Hf; destruct (owned g i f); auto).
    assert (Fo : forall j, fixtures_of h j = if Nat.eqb j i then [] else fixtures_of g j) by (intros j; unfold fixtures_of; rewrite Hb; unfold put; destruct (Nat.eqb j i); auto).
    assert (Cb : forall c s, cbody h c s = cbody g c s).
    { intros c s. unfold cbody. rewrite Hc. destruct (g_c g c) as [v|] eqn:Ec; auto. rewrite Ow. destruct (owned g i (if s then v_fa v else v_fb v)) eqn:Q; auto. apply owned_spec in Q. exfalso. apply (NC c s). unfold cbody. now rewrite Ec. }
    assert (Jb : forall c s, jbody h c s = jbody g c s) by (intros c s; unfold jbody; now rewrite Hj).
    assert (Co : forall j, contacts_of g j = contacts_of h j).
    { intros j. unfold contacts_of at 2. rewrite Hb. unfold put. destruct (Nat.eqb_spec j i) as [->|]; auto. destruct (contacts_of g i) as [|[c s o] r] eqn:Q; auto. exfalso. apply (NC c s). destruct IC as (_ & (_ & E2 & _) & _). assert (In (GEdge c s o) (contacts_of g i)) as Z by (rewrite Q; now left). now apply E2 in Z. }
    assert (Jo : forall j, joints_of g j = joints_of h j).
    { intros j. unfold joints_of at 2. rewrite Hb. unfold put. destruct (Nat.eqb_spec j i) as [->|]; auto. destruct (joints_of g i) as [|[c s o] r] eqn:Q; auto. exfalso. apply (NJ c s). destruct IJ as (_ & (_ & E2 & _) & _). assert (In (GEdge c s o) (joints_of g i)) as Z by (rewrite Q; now left). now apply E2 in Z. }
    refine (conj _ (conj _ (conj _ _))).
    - unfold bodies_ok. rewrite N1, L1, K1. eapply table_ext; [intros j; symmetry; apply Hb|]. now apply table_drop.
    - destruct IF as (F1 & F2 & F3 & F4 & F5). refine (conj _ (conj _ (conj _ (conj _ _)))).
      + intros j. rewrite Fo. destruct (Nat.eqb j i); [constructor|auto].
      + intros j v. rewrite Hb. unfold put. destruct (Nat.eqb j i); [easy|apply F2].
      + intros j f. rewrite Fo, Ow. destruct (Nat.eqb_spec j i) as [->|Hj'].
        * split; [easy|]. destruct (owned g i f) eqn:Q; [easy|]. intros Z. apply owned_spec in Z. congruence.
        * rewrite F3. destruct (owned g i f) eqn:Q; [|tauto]. apply owned_spec in Q. rewrite Q. split; [|easy]. intros Z. congruence.
      + intros f. rewrite Hf, Ow. destruct (owned g i f); [easy|auto].
      + intros f. rewrite N2, Hf. intros Q. rewrite F5 by auto. now destruct (owned g i f).
    - refine (contacts_frame g h Co _ _ _ _ _ _ IC); auto. intros c v Q. destruct IC as (_ & _ & C3 & _). destruct (C3 c v Q) as (fa & fb & Ea & Eb & R). exists fa, fb. rewrite !Hf.
      destruct (owned g i (v_fa v)) eqn:Qa; [apply owned_spec in Qa; exfalso; apply (NC c true); unfold cbody; now rewrite Q|]. destruct (owned g i (v_fb v)) eqn:Qb; [apply owned_spec in Qb; exfalso; apply (NC c false); unfold cbody; now rewrite Q|]. auto.
    - destruct IJ as (J1 & J2 & J3). refine (conj _ (conj _ _)).
      + rewrite N4, L3, K3. eapply table_ext; [|exact J1]. auto.
      + eapply edges_ext; [| | |exact J2]; auto.
      + intros j s k. rewrite Jb. intros Q. rewrite Hb. unfold put. destruct (Nat.eqb_spec k i) as [->|]; [now apply NJ in Q|eauto].
  Qed.
End Graphs.

Section Life.
  Context {T : Type} `{NT : Num T} `{TT : NumTrig T} `{VT : NumValid T}.
  Notation world := (world T).
  Local Open Scope num_scope.
  Implicit Types w : world.
  Variable p : Prop.
  Variable oks : vec2 T -> Prop.
  Variable E : env T.
  Notation bok := (bok p).
  Notation nums := (nums p).
  Notation bfits := (bfits oks).
  Notation W := (W p oks).
  Hypothesis Z01 : p \/ (#0 <? #1) = true.

  (** ** create *)
  Definition born (i : nat) (d : body_def T) w w' : Prop :=
    i = w_next_body w /\ geq (graph_of w') (new_body (BView (bd_type d) (bd_enabled d) [] 0 [] []) (graph_of w)) /\
    body_new d = unwrap (w_bodies w' i) /\ (forall j, j <> i -> w_bodies w' j = w_bodies w j) /\
    w' = set_w_bodies (w_bodies w') (set_w_next_body (S i) (set_w_body_count (S (w_body_count w)) (set_w_body_list (i :: w_body_list w) w))).
  Lemma sat_create_body w d : W w -> w_locked w = false -> sat p (body_new d) (fun _ => True) -> sat p (create_body d w) (fun q => let '(w', i) := q in W w' /\ born i d w w').
  Proof.
    intros H HL HD. unfold create_body. rewrite HL. cbn [negb b2_assert bind]. apply sat_bind. eapply sat_mono; [apply sat_eq, HD|]. intros b (Eb & _). cbn [sat]. cbv zeta.
    assert (Hv : view_b b = BView (bd_type d) (bd_enabled d) [] 0 [] [] /\ bok b).
    { unfold body_new in Eb. repeat (match type of Eb with bind (b2_assert ?x) _ = _ => destruct x; cbn [b2_assert bind] in Eb; [|discriminate] end). injection Eb as <-. split; [reflexivity|exact Z01]. }
    destruct Hv as [Hv Hk]. set (i := w_next_body w). set (w' := set_w_body_count _ _).
    assert (G : geq (graph_of w') (new_body (BView (bd_type d) (bd_enabled d) [] 0 [] []) (graph_of w))).
    { refine (conj _ _); [|repeat split]. intros j. subst w'. cbn. unfold put. fold i. destruct (Nat.eqb j i); auto. cbn. now rewrite Hv. }
    pose proof (W_graph _ _ _ H) as GI. assert (Fr : forall j v, g_b (graph_of w') j = Some v -> j <> i -> g_b (graph_of w) j = Some v).
    { intros j v Q K. destruct G as (Gb & _). rewrite Gb in Q. cbn in Q. fold i in Q. rewrite put_ne in Q by auto. exact Q. }
    assert (Ni : g_b (graph_of w) i = None) by (apply GI; cbn; auto).
    assert (No : forall f, owner (graph_of w) f <> Some i) by (intros f Q; revert Ni; eapply owner_live; eauto; apply GI).
    assert (Nc : forall c s, cbody (graph_of w) c s <> Some i) by (intros c s Q; revert Ni; eapply contact_bodies_live; eauto; apply GI).
    assert (N' : nums w'). { destruct (W_nums _ _ _ H) as [N1 N2]. split; [|exact N2]. intros j y. subst w'. cbn. unfold put. fold i. destruct (Nat.eqb j i); [intros Q; injection Q as <-; exact Hk|apply N1]. }
    split.
    - destruct (W_enabled _ _ _ H) as (A & B & C). pose proof (geq_sym _ _ G) as G'. split; auto.
      + apply (ginv_ext _ _ G'). now apply new_body_inv.
      + refine (conj _ (conj _ _)).
        * intros f x j v K1 K2 K3. apply (A f x j v K1 K2). apply Fr; auto. intros ->. apply (No f). unfold owner. change (g_f (graph_of w') f) with (g_f (graph_of w) f) in K1. now rewrite K1.
        * intros c s j v K1 K2. apply (B c s j v K1). apply Fr; auto. intros ->. exact (Nc c s K1).
        * intros c j j' v v' K1 K2 K3 K4. apply (C c j j' v v' K1 K2); apply Fr; auto; intros ->; [exact (Nc c true K1)|exact (Nc c false K2)].
      + exact (W_ev _ _ _ H).
      + exact (W_fits _ _ _ H).
      + exact (W_shapes _ _ _ H).
      + exact (W_flags _ _ _ H).
    - refine (conj eq_refl (conj G (conj _ (conj _ _)))).
      + subst w'. cbn. fold i. now rewrite put_eq.
      + intros j Hj. subst w'. cbn. fold i. now rewrite put_ne.
      + reflexivity.
  Qed.

  (** ** destroy *)
  Definition items (l : list gedge) : list nat := map ge_item l.
  Definition removed (i : nat) w w' : Prop :=
    let g := graph_of w in let g' := graph_of w' in
    let cs := items (contacts_of g i) in let js := items (joints_of g i) in
    g_bl g' = without i (g_bl g) /\
    g_cl g' = List.filter (fun c => negb (member cs c)) (g_cl g) /\
    g_jl g' = List.filter (fun j => negb (member js j)) (g_jl g) /\
    g_b g' i = None /\
    (forall j, j <> i -> option_map kind (g_b g' j) = option_map kind (g_b g j) /\ fixtures_of g' j = fixtures_of g j /\
       contacts_of g' j = List.filter (fun e => negb (member cs (ge_item e))) (contacts_of g j) /\
       joints_of g' j = List.filter (fun e => negb (member js (ge_item e))) (joints_of g j)) /\
    (forall f, w_fixtures w' f = if owned g i f then None else w_fixtures w f) /\
    (forall c, g_c g' c = if member cs c then None else g_c g c) /\
    (forall j, g_j g' j = if member js j then None else g_j g j) /\
    switches w' = switches w.
  Lemma sat_destroy_body w i : W w -> w_locked w = false -> w_bodies w i <> None -> sat p (destroy_body E i w) (fun w' => W w' /\ removed i w w').
  Proof.
    intros H HL Hi. pose proof (W_graph _ _ _ H) as (IB & IF & IC & IJ). destruct (w_bodies w i) as [b|] eqn:Hb; [|easy]. clear Hi.
    assert (Hin : In i (w_body_list w)). { destruct IB as (_ & B2 & _). apply B2. cbn. now rewrite Hb. }
    assert (Cn : w_body_count w = length (w_body_list w)) by apply IB.
    assert (Lt : Nat.ltb 0 (w_body_count w) = true). { apply Nat.ltb_lt. rewrite Cn. destruct (w_body_list w); [easy|cbn; lia]. }
    unfold destroy_body. rewrite Lt, HL. cbn [negb b2_assert bind]. unfold get_body at 1. rewrite Hb. cbn [unwrap bind].
    assert (Ej : joints_of (graph_of w) i = b_joints b) by (unfold joints_of; cbn; now rewrite Hb).
    assert (Ecs : contacts_of (graph_of w) i = b_contacts b) by (unfold contacts_of; cbn; now rewrite Hb).
    assert (Efs : fixtures_of (graph_of w) i = b_fixtures b) by (unfold fixtures_of; cbn; now rewrite Hb).
    assert (ND : NoDup (items (b_joints b))) by (rewrite <- Ej; now apply joint_items).
    (* joints *)
    apply sat_bind. eapply sat_mono; [apply (sat_each_done (fun d w' => W w' /\ geq (graph_of w') (jdrops (items d) (graph_of w)) /\ outer w w'))|].
    { intros d e r w1 El (W1 & G1 & O1). set (w2 := if w_goodbye w1 then _ else w1). assert (W2 : W w2) by (subst w2; destruct (w_goodbye w1); auto; apply W_log; auto; exact I).
      assert (G2 : geq (graph_of w2) (jdrops (items d) (graph_of w))) by (subst w2; destruct (w_goodbye w1); exact G1).
      assert (O2 : outer w w2) by (subst w2; destruct (w_goodbye w1); exact O1). clearbody w2. eapply sat_mono; [apply (sat_destroy_joint p oks)|].
      - exact W2.
      - destruct O2 as (S & _). unfold switches in S. injection S as _ -> _. exact HL.
      - destruct G2 as (_ & _ & _ & Gj & _). specialize (Gj (ge_item e)). rewrite jdrops_j in Gj. rewrite <- (map_none view_j). cbn in Gj. rewrite Gj.
        replace (member (items d) (ge_item e)) with false.
        + apply (joint_item_live (graph_of w) i e IJ). rewrite Ej, El, in_app_iff. cbn. auto.
        + symmetry. apply not_true_iff_false. rewrite member_in. rewrite El in ND. unfold items in *. rewrite map_app in ND. cbn in ND. apply NoDup_remove_2 in ND. rewrite in_app_iff in ND. tauto.
      - intros w3 (W3 & G3 & O3). refine (conj W3 (conj _ (outer_trans _ _ _ O2 O3))). unfold items. rewrite map_app. cbn [map]. rewrite jdrops_app. eapply geq_trans; [exact G3|]. now apply jdrop_geq. }
    { refine (conj H (conj (geq_refl _) (outer_refl w))). }
    intros w1 (W1 & G1 & O1). set (js := items (b_joints b)) in *.
    assert (J1 : joints_of (graph_of w1) i = []). { rewrite (joints_of_ext _ _ G1), jdrops_joints_of, Ej. apply filter_none. intros e He. now apply in_map. }
    assert (K1 : forall A (k : bview -> A), (forall f v, k (on_joints f v) = k v) -> forall j, option_map k (g_b (graph_of w1) j) = option_map k (g_b (graph_of w) j)).
    { intros A k Hk j. destruct G1 as (Gb & _). rewrite Gb. now apply jdrops_b. }
    assert (exists b1, w_bodies w1 i = Some b1 /\ b_joints b1 = [] /\ b_contacts b1 = b_contacts b /\ b_fixtures b1 = b_fixtures b) as (b1 & Hb1 & Jb1 & Cb1 & Fb1).
    { pose proof (K1 _ (fun v => (v_contacts v, v_fixtures v)) (fun f v => eq_refl) i) as Q. cbn in Q. rewrite Hb in Q. unfold joints_of in J1. cbn in J1. destruct (w_bodies w1 i) as [b1|]; [|easy]. cbn in Q, J1. injection Q as Q1 Q2. exists b1. auto. }
    (* the list is empty already *)
    unfold mod_body at 1, get_body at 1. rewrite Hb1. cbn [unwrap bind]. set (b1' := set_b_joints [] b1). set (w1' := put_body i b1' w1).
    assert (K1' : calm p w1 w1').
    { refine (conj eq_refl (conj _ _)).
      - intros j. subst w1'. cbn. unfold put. destruct (Nat.eqb_spec j i) as [->|]; auto. rewrite Hb1. cbn. unfold view_b. cbn. now rewrite Jb1.
      - intros N j x. subst w1'. cbn. unfold put. destruct (Nat.eqb_spec j i) as [->|]; [|apply N]. intros Q. injection Q as <-. exact (N i b1 Hb1). }
    assert (Hb1' : w_bodies w1' i = Some b1') by (subst w1'; cbn; apply put_eq).
    pose proof (calm_W p oks w1 w1' W1 K1') as W1'.
    assert (G1' : geq (graph_of w1') (jdrops js (graph_of w))). { eapply geq_trans; [|exact G1]. apply links_geq. eapply calm_links; eauto. }
    assert (O1' : outer w w1'). { eapply outer_trans; [exact O1|]. destruct K1' as (Q & _). rewrite Q. repeat split. }
    clear K1'. clearbody w1'. assert (Cb1' : contacts_of (graph_of w1') i = b_contacts b) by (unfold contacts_of; cbn; rewrite Hb1'; exact Cb1).
    unfold get_body at 1. rewrite Hb1'. cbn [unwrap bind].
    (* contacts *)
    apply sat_bind. eapply sat_mono; [apply (sat_destroy_contacts p E w1' i (b_contacts b1')); try apply W1'|].
    { rewrite Hb1'. easy. }
    { rewrite Cb1'. exact (eq_sym Cb1). }
    intros w2 ((G2 & O2 & N2 & V2 & C2 & D2 & D2') & Nc2). assert (Eb1 : b_contacts b1' = b_contacts b) by exact Cb1. rewrite Eb1 in G2, D2, D2'. clear Eb1. set (cs := items (b_contacts b)) in *.
    assert (Gi2 : ginv (graph_of w2)).
    { apply (ginv_ext _ _ (geq_sym _ _ G2)). apply drops_inv; [apply W1'| |].
      - change cs with (items (b_contacts b)). rewrite <- Cb1'. apply contact_items. apply W1'.
      - intros c Hc. unfold cs, items in Hc. apply in_map_iff in Hc. destruct Hc as (e & <- & He). rewrite <- Cb1' in He. apply (contact_item_live _ i); auto. apply W1'. }
    assert (W2 : W w2).
    { pose proof G2 as (Gb & Gf & Gc & Gj & _). eapply (W_sub p oks w1'); eauto.
      - intros j v K. pose proof (drops_b kind cs (fun f v => eq_refl) (graph_of w1') j) as Q. rewrite Gb in K. unfold items in cs. fold cs in K. rewrite K in Q. destruct (g_b (graph_of w1') j) as [v0|]; [|easy]. cbn in Q. exists v0. split; auto. unfold kind in Q. split; try left; congruence.
      - intros f x. rewrite Gf, drops_f. auto.
      - intros c x K. destruct (in_dec Nat.eq_dec c cs) as [Q|Q]; [rewrite D2 in K by exact Q; easy|]. specialize (D2' c Q). rewrite K in D2'. destruct (w_contacts w1' c) as [x0|]; [|easy]. cbn in D2'. exists x0. split; auto. congruence.
      - intros j v. rewrite Gj, drops_j. auto.
      - eapply outer_fits; [exact O2|]. apply W1'. }
    assert (G2' : geq (graph_of w2) (drops cs (jdrops js (graph_of w)))). { eapply geq_trans; [exact G2|]. apply drops_geq. exact G1'. }
    assert (Nj2 : forall c s, jbody (graph_of w2) c s <> Some i).
    { assert (joints_of (graph_of w2) i = []) as Q. { pose proof (drops_b v_joints cs (fun f v => eq_refl) (graph_of w1') i) as Z. destruct G2 as (Gb & _). unfold joints_of. rewrite Gb. unfold items in cs. fold cs. cbn in Z. rewrite Hb1' in Z. destruct (g_b (drops cs (graph_of w1')) i); auto. cbn in Z. change (b_joints b1') with (@nil gedge) in Z. congruence. }
      intros c s K. destruct Gi2 as (_ & _ & _ & (_ & (E1 & E2 & E3) & _)). destruct (E3 c) as (x & y & Kx & Ky & _); [unfold jbody in K; now destruct (g_j (graph_of w2) c)|].
      assert (exists o, jbody (graph_of w2) c (negb s) = Some o) as (o & Ho) by (destruct s; cbn; eauto). assert (In (GEdge c s o) (joints_of (graph_of w2) i)) as Z by (apply E2; auto). now rewrite Q in Z. }
    assert (O02 : outer w w2) by (eapply outer_trans; eauto).
    assert (exists b2, w_bodies w2 i = Some b2 /\ b_fixtures b2 = b_fixtures b) as (b2 & Hb2 & Fb2).
    { pose proof (drops_b v_fixtures cs (fun f v => eq_refl) (graph_of w1') i) as Z. destruct G2 as (Gb & _). specialize (Gb i). unfold items in cs. fold cs in Gb. rewrite <- Gb in Z. cbn in Z. rewrite Hb1' in Z. destruct (w_bodies w2 i) as [b2|]; [|easy]. cbn in Z. change (b_fixtures b1') with (b_fixtures b1) in Z. exists b2. split; auto. congruence. }
    unfold get_body at 1. rewrite Hb2. cbn [unwrap bind]. rewrite Fb2. pose proof Gi2 as (IB2 & (F1 & F2 & F3 & F4 & F5) & IC2 & IJ2).
    assert (Efs2 : fixtures_of (graph_of w2) i = b_fixtures b) by (unfold fixtures_of; cbn; rewrite Hb2; exact Fb2).
    assert (Cn2 : b_fixture_count b2 = length (b_fixtures b)). { rewrite <- Fb2. apply (F2 i (view_b b2)). cbn. now rewrite Hb2. }
    assert (NDf : NoDup (b_fixtures b)) by (rewrite <- Efs2; apply F1).
    assert (Lv : forall f, In f (b_fixtures b) -> w_fixtures w2 f <> None). { intros f Hf. rewrite <- Efs2 in Hf. apply F3 in Hf. unfold owner in Hf. cbn in Hf. now destruct (w_fixtures w2 f). }
    (* fixtures *)
    apply sat_bind. eapply sat_mono; [apply (sat_each_done (fun d w' => w' = set_w_bodies (w_bodies w') (set_w_fixtures (w_fixtures w') (set_w_bp (w_bp w') (set_w_log (w_log w') w2))) /\
        (forall j, j <> i -> w_bodies w' j = w_bodies w2 j) /\ w_bodies w' i = Some (set_b_fixture_count (length (b_fixtures b) - length d) b2) /\
        (forall f, w_fixtures w' f = if member d f then None else w_fixtures w2 f) /\ ev_ok w' /\ bfits w'))|].
    { intros d f r w3 El (E3 & B3 & B3i & X3 & V3 & F3'). set (w4 := if w_goodbye w3 then _ else w3).
      assert (E4 : w4 = set_w_bodies (w_bodies w4) (set_w_fixtures (w_fixtures w4) (set_w_bp (w_bp w4) (set_w_log (w_log w4) w2)))) by (subst w4; destruct (w_goodbye w3); [rewrite E3; reflexivity|exact E3]).
      assert (V4 : ev_ok w4). { subst w4. destruct (w_goodbye w3); [|exact V3]. intros Z c. specialize (V3 Z c). exact V3. }
      assert (Q4 : w_bodies w4 = w_bodies w3 /\ w_fixtures w4 = w_fixtures w3 /\ bfits w4) by (subst w4; destruct (w_goodbye w3); exact (conj eq_refl (conj eq_refl F3'))).
      destruct Q4 as (Q1 & Q2 & F4'). clearbody w4. rewrite <- Q1 in B3, B3i. rewrite <- Q2 in X3. clear Q1 Q2 E3 V3 F3' w3.
      assert (Nf : ~ In f d) by (rewrite El in NDf; apply NoDup_remove_2 in NDf; rewrite in_app_iff in NDf; tauto).
      assert (Mf : member d f = false) by (apply not_true_iff_false; now rewrite member_in).
      assert (exists x, w_fixtures w4 f = Some x) as (x & Hx). { rewrite X3, Mf. destruct (w_fixtures w2 f) eqn:Q; [eauto|]. exfalso. apply (Lv f); auto. rewrite El, in_app_iff. cbn. auto. }
      apply sat_bind. eapply sat_mono; [apply (sat_destroy_proxies p oks w4 f x Hx F4')|]. intros w5 (ps & bp & -> & L5 & B5). unfold get_body. cbn [w_bodies put_fixture set_w_fixtures set_w_bp]. rewrite B3i. cbn [unwrap bind].
      apply sat_bind, sat_sub; [cbn; rewrite El, app_length; cbn; lia|]. cbn [sat]. refine (conj _ (conj _ (conj _ (conj _ (conj _ _))))).
      - rewrite E4. reflexivity.
      - intros j Hj. cbn. rewrite put_ne by auto. auto.
      - cbn. rewrite put_eq. f_equal. rewrite app_length. cbn. unfold set_b_fixture_count. cbn. f_equal. lia.
      - intros k. cbn. unfold member. rewrite existsb_app. cbn. rewrite orb_false_r. unfold put. destruct (Nat.eqb k f) eqn:Q; [now rewrite orb_true_r|]. rewrite orb_false_r. apply X3.
      - exact V4.
      - unfold WorldLogic.bfits in *. eapply fits_ext; [|apply (fits_put oks _ _ f None B5)].
        + intros k. cbn. unfold put. now destruct (Nat.eqb k f).
        + eapply slot_zero; [cbn; rewrite put_eq; reflexivity|reflexivity].
        + easy. }
    { refine (conj _ (conj _ (conj _ (conj _ (conj V2 (W_fits _ _ _ W2)))))); auto.
      - now destruct w2.
      - rewrite Hb2. f_equal. rewrite Nat.sub_0_r, <- Cn2. now destruct b2. }
    intros w3 (E3 & B3 & B3i & X3 & V3 & F3'). rewrite Nat.sub_diag in B3i.
    assert (Own : forall f, member (b_fixtures b) f = owned (graph_of w) i f).
    { intros f. assert (member (b_fixtures b) f = true <-> owned (graph_of w) i f = true) as Q.
      { rewrite member_in, owned_spec, <- Efs. destruct IF as (_ & _ & Z & _). apply Z. }
      destruct (member _ _), (owned _ _ _); auto; [symmetry; now apply Q|now apply Q]. }
    assert (Own2 : forall f, owned (graph_of w2) i f = owned (graph_of w) i f).
    { intros f. unfold owned, owner. cbn. destruct O02 as (_ & Q & _). now rewrite Q. }
    assert (Lists : w_body_list w3 = w_body_list w /\ w_body_count w3 = w_body_count w).
    { rewrite E3. cbn. destruct G2' as (_ & _ & _ & _ & _ & A & B). cbn in A, B. injection A as A _ _. injection B as B _ _.
      pose proof (drops_rest cs (jdrops js (graph_of w))) as R1. pose proof (jdrops_rest js (graph_of w)) as R2. cbn in R1, R2. injection R1 as _ _ _ _ R1 _ R1' _. injection R2 as _ _ _ _ R2 _ R2' _. split; congruence. }
    destruct Lists as [L1 L2]. rewrite L1, L2. apply sat_bind, sat_remove_id; auto. apply sat_bind, sat_sub; [apply Nat.ltb_lt in Lt; lia|]. cbn [sat]. set (w' := set_w_bodies _ _).
    assert (GB : forall j, g_b (graph_of w') j = put (g_b (graph_of w2)) i None j).
    { intros j. subst w'. cbn. unfold put. destruct (Nat.eqb_spec j i) as [->|]; auto. now rewrite B3. }
    assert (GF : forall f, g_f (graph_of w') f = if owned (graph_of w2) i f then None else g_f (graph_of w2) f).
    { intros f. subst w'. cbn. rewrite X3, Own, <- Own2. cbn. now destruct (owned _ _ _). }
    assert (GC : w_contacts w' = w_contacts w2) by (subst w'; rewrite E3; reflexivity).
    assert (GJ : w_joints w' = w_joints w2) by (subst w'; rewrite E3; reflexivity).
    assert (N' : nums w').
    { destruct N2 as [X1 X2]. split; [|rewrite GC; exact X2]. intros j z. subst w'. cbn. unfold put. destruct (Nat.eqb_spec j i) as [->|Hj]; [easy|]. rewrite B3 by auto. apply X1. }
    assert (V' : ev_ok w') by exact V3. assert (F' : bfits w') by exact F3'.
    assert (S' : switches w' = switches w) by (subst w'; rewrite E3; apply O02).
    assert (T' : (w_next_body w', w_next_fixture w', w_next_contact w', w_next_joint w') = (w_next_body w2, w_next_fixture w2, w_next_contact w2, w_next_joint w2)) by (subst w'; rewrite E3; reflexivity).
    assert (Q' : (w_body_list w', w_contact_list w', w_joint_list w') = (without i (w_body_list w2), w_contact_list w2, w_joint_list w2)) by (subst w'; cbn; rewrite <- L1, E3; reflexivity).
    assert (R' : (w_body_count w', w_contact_count w', w_joint_count w') = (w_body_count w2 - 1, w_contact_count w2, w_joint_count w2)%nat) by (subst w'; cbn; rewrite <- L2, E3; reflexivity).
    assert (X' : forall f, w_fixtures w' f = if owned (graph_of w) i f then None else w_fixtures w f).
    { intros f. subst w'. cbn. rewrite X3, Own. destruct O02 as (_ & Q & _). now rewrite Q. }
    clearbody w'. assert (Gi' : ginv (graph_of w')). { apply (gone_inv (graph_of w2) (graph_of w') i Gi2); auto; try (cbn; congruence); try (intros c; cbn; congruence). cbn. now rewrite Hb2. }
    split.
    - eapply (W_sub p oks w2); eauto.
      + intros j v K. rewrite GB in K. unfold put in K. destruct (Nat.eqb j i); [easy|]. exists v. auto.
      + intros f x K. rewrite GF in K. destruct (owned _ _ _); [easy|auto].
      + intros c x K. rewrite GC in K. eauto.
      + intros j v K. cbn in K. rewrite GJ in K. exact K.
    - unfold removed. rewrite Ecs, Ej. fold cs js. pose proof G2' as (Hb' & _ & Hc' & Hj' & _ & Hl' & _). injection Q' as Q1 Q2 Q3.
      pose proof (drops_rest cs (jdrops js (graph_of w))) as R1. pose proof (jdrops_rest js (graph_of w)) as R2. injection R1 as _ _ _ _ R1 R1j _ _. injection R2 as _ _ _ _ R2 R2c _ _.
      injection Hl' as Hl1 Hl2 Hl3. refine (conj _ (conj _ (conj _ (conj _ (conj _ (conj X' (conj _ (conj _ S')))))))).
      + cbn. rewrite Q1. f_equal. cbn in R2. congruence.
      + cbn. rewrite Q2, Hl2, drops_cl. cbn in R2c. now rewrite R2c.
      + cbn. rewrite Q3, Hl3, R1j. now rewrite jdrops_jl.
      + rewrite GB. apply put_eq.
      + intros j Hj. assert (g_b (graph_of w') j = g_b (drops cs (jdrops js (graph_of w))) j) as Z by (rewrite GB, put_ne by auto; apply Hb'). rewrite Z. refine (conj _ (conj _ (conj _ _))).
        * rewrite (drops_b kind cs) by reflexivity. now rewrite (jdrops_b kind js) by reflexivity.
        * unfold fixtures_of. rewrite Z. pose proof (drops_b v_fixtures cs (fun f v => eq_refl) (jdrops js (graph_of w)) j) as Y. rewrite (jdrops_b v_fixtures js) in Y by reflexivity.
          destruct (g_b (drops cs (jdrops js (graph_of w))) j), (g_b (graph_of w) j); cbn in Y; congruence.
        * assert (contacts_of (graph_of w') j = contacts_of (drops cs (jdrops js (graph_of w))) j) as -> by (unfold contacts_of; now rewrite Z). rewrite drops_contacts_of. f_equal.
          pose proof (jdrops_b v_contacts js (fun f v => eq_refl) (graph_of w) j) as Y. unfold contacts_of. destruct (g_b (jdrops js (graph_of w)) j), (g_b (graph_of w) j); cbn in Y; congruence.
        * rewrite <- jdrops_joints_of. unfold joints_of. rewrite Z. pose proof (drops_b v_joints cs (fun f v => eq_refl) (jdrops js (graph_of w)) j) as Y. destruct (g_b (drops cs (jdrops js (graph_of w))) j), (g_b (jdrops js (graph_of w)) j); cbn in Y; congruence.
      + intros c. cbn. rewrite GC. specialize (Hc' c). cbn in Hc'. rewrite Hc', drops_c, jdrops_c. reflexivity.
      + intros j. cbn. rewrite GJ. specialize (Hj' j). cbn in Hj'. rewrite Hj', drops_j, jdrops_j. reflexivity.
  Qed.
End Life.
