(** Changing the type, the state and the place of a body, and other calls. *)
From Coq Require Import List ZArith Bool Arith Lia.
From Verif Require Import Base Num Math Collision Manifold Filter ShapeModel ListFacts ManifoldProofs TreeModel TreeSpec TreeHist BroadModel BroadSpec BroadProofs BroadFinal DynModel DynSpec DynProofs WorldModel WorldGraph WorldGops WorldLogic WorldPhys WorldContact WorldInv WorldOps WorldFix WorldBody WorldLife.
Import ListNotations.

Section Setters.
  Context {T : Type} `{NT : Num T} `{TT : NumTrig T} `{VT : NumValid T}.
  Notation world := (world T).
  Local Open Scope num_scope.
  Implicit Types w : world.
  Variable p : Prop.
  Variable oks : vec2 T -> Prop.
  Variable E : env T.
  Notation bok := (bok p).
  Notation nums := (nums p).
  Notation bfits := (bfits oks).
  Notation shapes_ok := (shapes_ok p).
  Notation W := (W p oks).
  Notation calm := (calm p).
  Notation phys := (phys p oks).

  (** ** a new view of the fixtures *)
  Definition fsize (x : fview T) := (v_body x, length (v_proxies x)).
  Lemma reproxy_inv (g h : graph T) : (forall i, g_b h i = g_b g i) -> (forall f, option_map fsize (g_f h f) = option_map fsize (g_f g f)) ->
    (forall c, g_c h c = g_c g c) -> (forall j, g_j h j = g_j g j) -> (g_nb h, g_nf h, g_nc h, g_nj h) = (g_nb g, g_nf g, g_nc g, g_nj g) ->
    (g_bl h, g_cl h, g_jl h) = (g_bl g, g_cl g, g_jl g) -> (g_bn h, g_cn h, g_jn h) = (g_bn g, g_cn g, g_jn g) -> ginv g -> ginv h.
  Proof.
    intros Hb Hf Hc Hj Hn Hl Hk (IB & IF & IC & IJ). injection Hn as N1 N2 N3 N4. injection Hl as L1 L2 L3. injection Hk as K1 K2 K3.
    assert (Ow : forall f, owner g f = owner h f). { intros f. unfold owner. specialize (Hf f). destruct (g_f h f), (g_f g f); cbn in Hf; unfold fsize in Hf; congruence. }
    assert (Cb : forall c s, cbody g c s = cbody h c s). { intros c s. unfold cbody. rewrite Hc. destruct (g_c g c); auto. }
    refine (conj _ (conj _ (conj _ _))).
    - eapply (bodies_frame (fun v => v)); [| | | |exact IB]; auto. intros i. now rewrite Hb.
    - eapply fixtures_frame; [| | | |exact IF]; auto.
      + intros i. now rewrite Hb.
      + intros f. specialize (Hf f). destruct (g_f h f), (g_f g f); cbn in Hf; split; congruence.
    - refine (contacts_frame g h _ _ _ _ _ _ _ IC); auto.
      + intros i. unfold contacts_of. now rewrite Hb.
      + intros c v Q. destruct IC as (_ & _ & C3 & _). destruct (C3 c v Q) as (fa & fb & Ea & Eb & La & Lb). pose proof (Hf (v_fa v)) as Fa. pose proof (Hf (v_fb v)) as Fb. rewrite Ea in Fa. rewrite Eb in Fb.
        destruct (g_f h (v_fa v)) as [ya|]; [|easy]. destruct (g_f h (v_fb v)) as [yb|]; [|easy]. cbn in Fa, Fb. unfold fsize in Fa, Fb. exists ya, yb. refine (conj eq_refl (conj eq_refl _)). replace (length (v_proxies ya)) with (length (v_proxies fa)) by congruence. replace (length (v_proxies yb)) with (length (v_proxies fb)) by congruence. auto.
    - eapply joints_frame; [| | | | |exact IJ]; auto. intros i. now rewrite Hb.
  Qed.

  Definition fkey (x : fixture T) := (f_body x, f_shape x, length (f_proxies x)).
  Lemma W_build w w' : W w -> ginv (graph_of w') -> enabled_ok (graph_of w') ->
    (forall f, option_map fkey (w_fixtures w' f) = option_map fkey (w_fixtures w f)) ->
    (forall c x, w_contacts w' c = Some x -> exists x0, w_contacts w c = Some x0 /\ view_cf x = view_cf x0) ->
    (forall j, g_j (graph_of w') j = g_j (graph_of w) j) ->
    nums w' -> ev_ok w' -> bfits w' -> W w'.
  Proof.
    intros H G En Hf Hc Hj N V F.
    assert (Ow : forall f, owner (graph_of w') f = owner (graph_of w) f).
    { intros f. unfold owner. cbn. specialize (Hf f). destruct (w_fixtures w' f), (w_fixtures w f); cbn in Hf; unfold fkey in Hf; cbn; congruence. }
    assert (Cb : forall c s i, cbody (graph_of w') c s = Some i -> cbody (graph_of w) c s = Some i).
    { intros c s i K. unfold cbody in *. cbn in *. destruct (w_contacts w' c) as [x|] eqn:Ex; [|easy]. destruct (Hc c x Ex) as (x0 & Ex0 & Vx). rewrite Ex0. cbn in *. unfold view_cf, view_c in Vx. injection Vx as V1 V2 V3 V4 _. rewrite <- V1, <- V3, <- Ow. exact K. }
    split; auto.
    - intros f x K. specialize (Hf f). rewrite K in Hf. destruct (w_fixtures w f) as [y|] eqn:Ey; [|easy]. cbn in Hf. unfold fkey in Hf. injection Hf as _ -> ->. exact (W_shapes _ _ _ H f y Ey).
    - intros c x a b K1 K2 K3 K4. destruct (Hc c x K1) as (x0 & Ex0 & Vx). replace (cf_filter (c_flags x)) with (cf_filter (c_flags x0)) by (unfold view_cf in Vx; congruence).
      apply (W_flags _ _ _ H c x0 a b); auto. eapply barred_frame; eauto.
  Qed.

  (* the world with one fixture of the same size and shape *)
  Lemma W_put_fixture w f x x' : W w -> w_fixtures w f = Some x -> view_f x' = view_f x -> W (put_fixture f x' w).
  Proof.
    intros H Hx Hv. eapply (W_frame p oks w); eauto; try apply H.
    - refine (conj (fun _ => eq_refl) (conj _ (conj (fun _ => eq_refl) (conj (fun _ => eq_refl) (conj eq_refl (conj eq_refl eq_refl)))))). intros k. cbn. unfold put. destruct (Nat.eqb_spec k f) as [->|]; auto. rewrite Hx. cbn. now rewrite Hv.
    - unfold WorldLogic.bfits. eapply fits_ext; [|apply H]. intros k. cbn. unfold put. destruct (Nat.eqb_spec k f) as [->|]; auto. rewrite Hx. cbn. now rewrite Hv.
  Qed.
  Lemma W_switch w w' : W w -> graph_of w' = graph_of w -> w_bodies w' = w_bodies w -> w_contacts w' = w_contacts w -> w_log w' = w_log w -> w_listener w' = w_listener w -> w_bp w' = w_bp w -> W w'.
  Proof.
    intros H G B C L LS BP. eapply (W_frame p oks w); eauto.
    - rewrite G. apply geq_refl.
    - intros c. now rewrite C.
    - unfold WorldLogic.nums. rewrite B, C. apply H.
    - unfold ev_ok, touches. rewrite LS, C, L. apply H.
    - unfold WorldLogic.bfits. rewrite G, BP. apply H.
  Qed.

  (** ** set_type *)
  Definition retyped (i : nat) (ty : btype) w w' : Prop :=
    geq (graph_of w') (drops (items (contacts_of (graph_of w) i)) (at_b i (with_type ty) (graph_of w))) /\ switches w' = switches w /\
    (forall f, option_map view_fx (w_fixtures w' f) = option_map view_fx (w_fixtures w f)) /\
    (forall c, option_map view_cf (w_contacts w' c) = if member (items (contacts_of (graph_of w) i)) c then None else option_map view_cf (w_contacts w c)).
  Lemma type_body_view ty fs (b b' : body T) : type_body ty fs b = Ok b' -> view_b b' = with_type ty (view_b b) /\ (bok b -> bok b').
  Proof.
    unfold type_body. destruct (reset_mass_data fs (set_b_type ty b)) as [b1| |] eqn:E1; cbn [bind]; try discriminate. destruct (reset_run _ _ _ E1) as (K & _). destruct (kept_view p _ _ K) as [K1 K2].
    assert (A : view_b (set_b_type ty b) = with_type ty (view_b b)) by (destruct b; reflexivity). assert (B : bok b -> bok (set_b_type ty b)) by (destruct b; auto).
    destruct (is_static b1); intros Q; injection Q as <-.
    - split; [rewrite <- A, <- K1; destruct b1 as [? [] ? ? []]; reflexivity|]. intros Z. apply B, K2 in Z. destruct b1 as [? ? ? ? []]. exact Z.
    - split; [now rewrite K1|auto].
  Qed.
  Lemma calm_body_view (b : body T) : view_b (DynModel.calm_body b) = view_b b /\ (bok b -> bok (DynModel.calm_body b)).
  Proof.
    unfold DynModel.calm_body. split; [rewrite <- (view_awake true b); now destruct (set_awake true b)|]. intros H. apply (bok_awake p true) in H. now destruct (set_awake true b).
  Qed.
  Lemma sat_set_type w i ty b : W w -> w_locked w = false -> w_bodies w i = Some b -> light p (map (weights w) (b_fixtures b)) ty ->
    sat p (set_type E i ty w) (fun w' => W w' /\ (if btype_eqb (b_type b) ty then w' = w else retyped i ty w w')).
  Proof.
    intros H HL Hb RM. unfold set_type. rewrite HL. cbn [negb b2_assert bind]. unfold get_body at 1. rewrite Hb. cbn [unwrap bind]. destruct (btype_eqb (b_type b) ty); [now cbn|].
    pose proof (W_graph _ _ _ H) as (IB & IF & IC & IJ). assert (Lf : forall f, In f (b_fixtures b) -> w_fixtures w f <> None).
    { intros f Hf. destruct IF as (_ & _ & F3 & _). assert (owner (graph_of w) f = Some i) as Q by (apply F3; unfold fixtures_of; cbn; now rewrite Hb). unfold owner in Q. cbn in Q. now destruct (w_fixtures w f). }
    apply sat_bind. eapply sat_mono; [apply (sat_fixtures p w (b_fixtures b) Lf)|]. intros fs Hfs. apply sat_bind.
    assert (sat p (type_body ty fs b) (fun b' => view_b b' = with_type ty (view_b b) /\ bok b')) as S0.
    { assert (sat p (type_body ty fs b) (fun _ => True)) as S. { unfold type_body. apply sat_bind. eapply sat_mono; [apply (RM fs (set_b_type ty b) Hfs); reflexivity|]. intros b1 _. destruct (is_static b1); exact I. }
      eapply sat_mono; [apply sat_eq, S|]. intros b' (Eb & _). destruct (type_body_view _ _ _ _ Eb) as [A B]. split; auto. apply B. destruct (W_nums _ _ _ H) as [N1 _]. eauto. }
    eapply sat_mono; [exact S0|]. clear S0. intros b1 (Vb1 & Ok1). set (w1 := put_body i b1 w).
    assert (G1 : geq (graph_of w1) (at_b i (with_type ty) (graph_of w))).
    { refine (conj _ _); [|repeat split]. intros j. subst w1. cbn. unfold put. destruct (Nat.eqb_spec j i) as [->|]; auto. rewrite Hb. cbn. now rewrite Vb1. }
    assert (I1 : ginv (graph_of w1)). { apply (ginv_ext _ _ (geq_sym _ _ G1)). apply at_b_inv; [|apply H]. intros v. repeat split. }
    assert (N1 : nums w1). { destruct (W_nums _ _ _ H) as [X1 X2]. split; [|exact X2]. intros j y. subst w1. cbn. unfold put. destruct (Nat.eqb j i); [intros Q; injection Q as <-; exact Ok1|apply X1]. }
    assert (P1 : phys w1 w1) by (refine (conj (links_refl w1) (conj N1 (conj _ _))); apply H).
    assert (Hb1 : w_bodies w1 i = Some b1) by (subst w1; cbn; apply put_eq).
    assert (X1 : w_fixtures w1 = w_fixtures w /\ w_contacts w1 = w_contacts w /\ switches w1 = switches w /\ w_joints w1 = w_joints w) by (repeat split). destruct X1 as (Ef & Ec & Es & Ejj). assert (Sh1 : shapes_ok w1) by (unfold WorldPhys.shapes_ok; rewrite Ef; apply H).
    assert (EC1 : contacts_of (graph_of w1) i = b_contacts b). { unfold contacts_of. cbn. rewrite Nat.eqb_refl || idtac. subst w1. cbn. rewrite put_eq. cbn. change (b_contacts b1) with (v_contacts (view_b b1)). rewrite Vb1. reflexivity. }
    clearbody w1. apply sat_bind.
    assert (sat p (if is_static b1 then synchronize_fixtures i w1 else Ok w1) (phys w1)) as S2.
    { destruct (is_static b1); [|exact P1]. apply sat_sync_fixtures; auto; try apply I1. congruence. }
    eapply sat_mono; [exact S2|]. clear S2. intros w2 P2. apply sat_bind. eapply sat_mono; [apply (sat_mod_body p oks w1 w2 i DynModel.calm_body P2)|].
    { apply (links_body w1); [apply P2|congruence]. }
    { intros y _ Hy. destruct (calm_body_view y) as [A B]. auto. }
    clear w2 P2. intros w3 P3. pose proof P3 as (L3 & N3 & V3 & F3). apply sat_bind. pose proof (links_geq _ _ L3) as G3. assert (I3 : ginv (graph_of w3)) by (apply (ginv_ext _ _ (geq_sym _ _ G3)); auto).
    eapply sat_mono; [apply (sat_destroy_contacts p E w3 i (b_contacts b)); auto|].
    { apply I3. }
    { apply (links_body w1); [apply P3|congruence]. }
    { rewrite <- EC1. apply contacts_of_ext. exact G3. }
    intros w4 ((G4 & O4 & N4 & V4 & C4 & D4 & D4') & Nc4).
    assert (P4 : phys w4 w4) by (refine (conj (links_refl w4) (conj N4 (conj V4 _))); eapply outer_fits; eauto).
    eapply sat_mono; [apply (sat_each (phys w4) touch_proxies); [|exact P4]|].
    { intros f w5 Hf P5. apply (sat_touch p oks w4 w5 f P5). destruct O4 as (_ & O4 & _). rewrite O4. apply (links_fixture w1); auto. rewrite Ef. auto. }
    intros w5 (L5 & N5 & V5 & F5). cbn [sat]. pose proof (links_geq _ _ L5) as G5. set (cs := items (contacts_of (graph_of w) i)). assert (Ecs : map ge_item (b_contacts b) = cs). { unfold cs, contacts_of. cbn. now rewrite Hb. }
    rewrite Ecs in *. assert (GG : geq (graph_of w5) (drops cs (at_b i (with_type ty) (graph_of w)))).
    { eapply geq_trans; [exact G5|]. eapply geq_trans; [exact G4|]. apply drops_geq. eapply geq_trans; eauto. }
    assert (FX : forall f, option_map view_fx (w_fixtures w5 f) = option_map view_fx (w_fixtures w f)).
    { intros f. destruct L5 as (_ & _ & _ & Q5 & _). rewrite Q5. destruct O4 as (_ & O4 & _). rewrite O4. destruct L3 as (_ & _ & _ & Q3 & _). rewrite Q3. now rewrite Ef. }
    assert (CX : forall c, option_map view_cf (w_contacts w5 c) = if member cs c then None else option_map view_cf (w_contacts w c)).
    { intros c. destruct L5 as (_ & _ & _ & _ & Q5 & _). rewrite Q5. destruct (member cs c) eqn:M.
      - apply member_in in M. now rewrite D4.
      - rewrite D4' by (rewrite <- member_in; congruence). destruct L3 as (_ & _ & _ & _ & Q3 & _). rewrite Q3. now rewrite Ec. }
    assert (I5 : ginv (graph_of w5)).
    { apply (ginv_ext _ _ (geq_sym _ _ GG)). apply drops_inv.
      - apply at_b_inv; [|apply H]. intros v. repeat split.
      - unfold cs. now apply contact_items.
      - intros c Hc. unfold cs, items in Hc. apply in_map_iff in Hc. destruct Hc as (e & <- & He). apply (contact_item_live (graph_of w) i e IC He). }
    assert (Nc5 : forall c s, cbody (graph_of w5) c s <> Some i) by (intros c s; rewrite (cbody_ext _ _ G5); auto).
    split.
    - apply (W_sub p oks w w5 H I5); auto.
      + intros j v K. destruct GG as (Gb & _). pose proof (Gb j) as Q. rewrite K in Q. pose proof (drops_b kind cs (fun f v => eq_refl) (at_b i (with_type ty) (graph_of w)) j) as Z. rewrite <- Q in Z. cbn in Z.
        destruct (w_bodies w j) as [y|] eqn:Ey; [|now destruct (Nat.eqb j i)]. exists (view_b y). cbn. rewrite Ey. split; auto. destruct (Nat.eqb_spec j i) as [->|]; cbn in Z; unfold kind in Z; cbn in Z; split; try congruence; auto. left. congruence.
      + intros f x K. specialize (FX f). cbn in K |- *. destruct (w_fixtures w5 f) as [y|]; [|easy]. destruct (w_fixtures w f) as [y0|]; [|easy]. cbn in *. unfold view_fx in FX. congruence.
      + intros c x K. specialize (CX c). rewrite K in CX. destruct (member cs c); [easy|]. destruct (w_contacts w c) as [x0|]; [|easy]. cbn in CX. exists x0. split; congruence.
      + intros j v K. destruct GG as (_ & _ & _ & Gj & _). rewrite Gj, drops_j in K. exact K.
    - refine (conj GG (conj _ (conj FX CX))). destruct L5 as (_ & -> & _). destruct O4 as (-> & _). destruct L3 as (_ & -> & _). exact Es.
  Qed.

  (** ** set_enabled *)
  (* the loops over the fixtures of a body *)
  Definition reproxied (l : list nat) (full : bool) w w' : Prop :=
    w' = set_w_fixtures (w_fixtures w') (set_w_bp (w_bp w') w) /\ bfits w' /\
    (forall f, ~ In f l -> w_fixtures w' f = w_fixtures w f) /\
    (forall f, In f l -> exists x ps, w_fixtures w f = Some x /\ w_fixtures w' f = Some (refit x ps (if full then length ps else 0%nat)) /\ length ps = length (f_proxies x)).
  Lemma reproxied_key l full w w' : reproxied l full w w' -> forall f, option_map fkey (w_fixtures w' f) = option_map fkey (w_fixtures w f).
  Proof.
    intros (_ & _ & A & B) f. destruct (in_dec Nat.eq_dec f l) as [K|K]; [|now rewrite A]. destruct (B f K) as (x & ps & -> & -> & L). cbn. unfold fkey, refit. cbn. now rewrite L.
  Qed.
  Lemma reproxied_inv l full w w' : reproxied l full w w' -> ginv (graph_of w) -> ginv (graph_of w').
  Proof.
    intros R. pose proof (reproxied_key _ _ _ _ R) as K. destruct R as (Q & _). apply reproxy_inv; try (rewrite Q; reflexivity). intros f. specialize (K f). cbn. destruct (w_fixtures w' f), (w_fixtures w f); cbn in *; try easy. unfold fkey in K. unfold fsize. cbn. rewrite !map_length. congruence.
  Qed.
  Lemma sat_reproxy (op : nat -> world -> res world) (full : bool) l w : NoDup l -> bfits w -> (forall f, In f l -> w_fixtures w f <> None) ->
    (forall w' f x, In f l -> w_fixtures w f = Some x -> w_fixtures w' f = Some x -> bfits w' -> sat p (op f w') (fun w'' => exists ps bp, w'' = put_fixture f (refit x ps (if full then length ps else 0%nat)) (set_w_bp bp w') /\ length ps = length (f_proxies x) /\ bfits w'')) ->
    sat p (each op l w) (reproxied l full w).
  Proof.
    intros ND F Lv Hop. apply (sat_each_done (fun d w' => reproxied d full w w') op l).
    - intros d f r w1 El (Q & F1 & A & B). assert (Nf : ~ In f d) by (rewrite El in ND; apply NoDup_remove_2 in ND; rewrite in_app_iff in ND; tauto).
      assert (In f l) as Hf by (rewrite El, in_app_iff; cbn; auto). destruct (w_fixtures w f) as [x|] eqn:Ex; [|now apply Lv in Hf]. assert (w_fixtures w1 f = Some x) as Ex1 by (rewrite A; auto).
      eapply sat_mono; [apply (Hop w1 f x); auto|]. intros w2 (ps & bp & -> & Lp & F2). refine (conj _ (conj F2 (conj _ _))).
      + rewrite Q. reflexivity.
      + intros k Hk. rewrite in_app_iff in Hk. cbn in *. rewrite put_ne by (intros ->; tauto). apply A. tauto.
      + intros k Hk. rewrite in_app_iff in Hk. destruct (Nat.eq_dec k f) as [->|Hne].
        * exists x, ps. cbn. rewrite put_eq. auto.
        * destruct Hk as [Hk|[<-|[]]]; [|easy]. destruct (B k Hk) as (y & qs & Y1 & Y2 & Y3). exists y, qs. cbn. rewrite put_ne by auto. auto.
    - refine (conj _ (conj F (conj _ _))); auto; [now destruct w|easy].
  Qed.

  Definition with_flag (flag : bool) (b : body T) : body T := mod_flags (set_fl_enabled flag) b.
  Lemma with_flag_view flag (b : body T) : view_b (with_flag flag b) = with_enabled flag (view_b b) /\ (bok b -> bok (with_flag flag b)).
  Proof. destruct b as [? [] ? ? []]. split; [reflexivity|]. auto. Qed.

  Definition enabled (i : nat) w w' : Prop :=
    (forall j, g_b (graph_of w') j = g_b (at_b i (with_enabled true) (graph_of w)) j) /\
    (forall f, option_map fkey (w_fixtures w' f) = option_map fkey (w_fixtures w f)) /\
    (forall f, owner (graph_of w) f <> Some i -> w_fixtures w' f = w_fixtures w f) /\
    w_new_contacts w' = true /\ w_contacts w' = w_contacts w /\ w_joints w' = w_joints w /\ w_log w' = w_log w.
  Definition disabled (i : nat) w w' : Prop :=
    let cs := items (contacts_of (graph_of w) i) in
    (forall j, g_b (graph_of w') j = g_b (drops cs (at_b i (with_enabled false) (graph_of w))) j) /\
    (forall f, option_map fkey (w_fixtures w' f) = option_map fkey (w_fixtures w f)) /\
    (forall f, owner (graph_of w) f <> Some i -> w_fixtures w' f = w_fixtures w f) /\
    (forall c, option_map view_cf (w_contacts w' c) = if member cs c then None else option_map view_cf (w_contacts w c)) /\
    (forall j, g_j (graph_of w') j = g_j (graph_of w) j) /\ switches w' = switches w.
  Lemma sat_set_enabled w i b flag : W w -> w_locked w = false -> w_bodies w i = Some b -> p \/ flag = false \/ is_enabled b = false ->
    sat p (set_enabled E i flag w) (fun w' => W w' /\ if flag then enabled i w w' else disabled i w w').
  Proof.
    intros H HL Hb HE. pose proof (W_graph _ _ _ H) as (IB & IF & IC & IJ). unfold set_enabled. rewrite HL. cbn [negb b2_assert bind]. unfold mod_body at 1, get_body at 1. rewrite Hb. cbn [unwrap bind].
    set (b1 := mod_flags (set_fl_enabled flag) b). destruct (with_flag_view flag b) as [Vb1 Ob1]. change (with_flag flag b) with b1 in Vb1, Ob1. set (w1 := put_body i b1 w).
    assert (G1 : geq (graph_of w1) (at_b i (with_enabled flag) (graph_of w))).
    { refine (conj _ _); [|repeat split]. intros j. subst w1. cbn. unfold put. destruct (Nat.eqb_spec j i) as [->|]; auto. rewrite Hb. cbn. now rewrite <- Vb1. }
    assert (I1 : ginv (graph_of w1)). { apply (ginv_ext _ _ (geq_sym _ _ G1)). apply at_b_inv; [|apply H]. intros v. repeat split. }
    assert (N1 : nums w1). { destruct (W_nums _ _ _ H) as [X1 X2]. split; [|exact X2]. intros j y. subst w1. cbn. unfold put. destruct (Nat.eqb j i); [intros Q; injection Q as <-; eauto|apply X1]. }
    assert (Hb1 : w_bodies w1 i = Some b1) by (subst w1; cbn; apply put_eq).
    assert (X1 : w_fixtures w1 = w_fixtures w /\ w_contacts w1 = w_contacts w /\ switches w1 = switches w /\ w_joints w1 = w_joints w /\ w_bp w1 = w_bp w /\ w_log w1 = w_log w) by (repeat split).
    destruct X1 as (Ef & Ec & Es & Ejj & Ebp & Elog). assert (F1 : bfits w1) by exact (W_fits _ _ _ H). assert (V1 : ev_ok w1) by exact (W_ev _ _ _ H).
    assert (Efs : b_fixtures b1 = b_fixtures b) by (change (b_fixtures b1) with (v_fixtures (view_b b1)); now rewrite Vb1).
    assert (Ecs : b_contacts b1 = b_contacts b) by (change (b_contacts b1) with (v_contacts (view_b b1)); now rewrite Vb1).
    assert (EC : contacts_of (graph_of w) i = b_contacts b) by (unfold contacts_of; cbn; now rewrite Hb).
    assert (EF : fixtures_of (graph_of w) i = b_fixtures b) by (unfold fixtures_of; cbn; now rewrite Hb).
    clearbody b1. clearbody w1. unfold get_body at 1. rewrite Hb1. cbn [unwrap bind]. rewrite Efs.
    destruct IF as (Fn & Fc & Fo & Fl & Fx). assert (ND : NoDup (b_fixtures b)) by (rewrite <- EF; apply Fn).
    assert (Own : forall f, In f (b_fixtures b) <-> owner (graph_of w) f = Some i) by (intros f; rewrite <- EF; apply Fo).
    assert (Lv : forall f, In f (b_fixtures b) -> w_fixtures w1 f <> None). { intros f Hf. apply Own in Hf. rewrite Ef. unfold owner in Hf. cbn in Hf. now destruct (w_fixtures w f). }
    assert (En : forall f x, In f (b_fixtures b) -> w_fixtures w f = Some x -> f_proxy_count x = if is_enabled b then length (f_proxies x) else 0%nat).
    { intros f x Hf Hx. destruct (W_enabled _ _ _ H) as (A & _). specialize (A f (view_f x) i (view_b b)). cbn in A. rewrite Hx, Hb, map_length in A. apply A; auto. apply Own in Hf. unfold owner in Hf. cbn in Hf. now rewrite Hx in Hf. }
    destruct flag.
    - apply sat_bind. eapply sat_mono; [apply (sat_reproxy (fun f => create_proxies f (b_xf b1)) true (b_fixtures b) w1 ND F1 Lv)|].
      { intros w' f x Hf Hx Hx' F'. rewrite Ef in Hx. eapply sat_mono; [apply (sat_create_proxies p oks w' f x (b_xf b1) Hx')|].
        - exact (W_shapes _ _ _ H f x Hx).
        - destruct HE as [HE|[HE|HE]]; auto; [easy|]. right. rewrite (En f x Hf Hx). now rewrite HE.
        - exact F'.
        - intros w'' (ps & bp & Q1 & Q2 & Q3 & _). eauto. }
      intros w2 R. cbn [sat]. pose proof (reproxied_key _ _ _ _ R) as K. pose proof (reproxied_inv _ _ _ _ R I1) as I2. destruct R as (Q & F2 & A & B). rewrite Ef in K.
      set (w' := set_w_new_contacts true w2).
      assert (GB : forall j, g_b (graph_of w') j = g_b (at_b i (with_enabled true) (graph_of w)) j). { intros j. destruct G1 as (Gb & _). rewrite <- Gb. subst w'. rewrite Q. reflexivity. }
      assert (W w').
      { apply (W_build w w' H); auto.
        - destruct (W_enabled _ _ _ H) as (A1 & A2 & A3). refine (conj _ (conj _ _)).
          + intros f x j v K1 K2 K3. subst w'. cbn in K1. destruct (in_dec Nat.eq_dec f (b_fixtures b)) as [Hf|Hf].
            * destruct (B f Hf) as (y & ps & Y1 & Y2 & Y3). rewrite Y2 in K1. injection K1 as <-. cbn in K2 |- *. rewrite map_length. rewrite Ef in Y1. apply Own in Hf. unfold owner in Hf. cbn in Hf. rewrite Y1 in Hf. cbn in Hf. replace j with i in K3 by congruence.
              rewrite GB in K3. cbn in K3. rewrite Nat.eqb_refl, Hb in K3. injection K3 as <-. reflexivity.
            * rewrite A, Ef in K1 by auto. assert (j <> i) as Hj. { intros ->. apply Hf, Own. unfold owner. cbn. now rewrite K1. }
              rewrite GB in K3. cbn in K3. replace (Nat.eqb j i) with false in K3 by (symmetry; now apply Nat.eqb_neq). apply (A1 f x j v); auto.
          + intros c s j v K1 K2. assert (cbody (graph_of w) c s = Some j) as K1'. { rewrite <- K1. unfold cbody. subst w'. rewrite Q. cbn. rewrite Ec. destruct (w_contacts w c) as [x|]; auto. cbn. unfold owner. cbn. specialize (K (if s then c_fa x else c_fb x)). destruct (w_fixtures w2 _), (w_fixtures w _); cbn in *; try easy. unfold fkey in K. congruence. }
            rewrite GB in K2. cbn in K2. destruct (Nat.eqb_spec j i) as [->|]; [|eapply A2; eauto]. rewrite Hb in K2. injection K2 as <-. reflexivity.
          + intros c j j' v v' K1 K1' K2 K2'. assert (forall s k, cbody (graph_of w') c s = Some k -> cbody (graph_of w) c s = Some k) as Z. { intros s k Z. rewrite <- Z. unfold cbody. subst w'. rewrite Q. cbn. rewrite Ec. destruct (w_contacts w c) as [x|]; auto. cbn. unfold owner. cbn. specialize (K (if s then c_fa x else c_fb x)). destruct (w_fixtures w2 _), (w_fixtures w _); cbn in *; try easy. unfold fkey in K. congruence. }
            rewrite GB in K2, K2'. cbn in K2, K2'.
            assert (forall k (u : bview), (if Nat.eqb k i then option_map (with_enabled true) (option_map view_b (w_bodies w k)) else option_map view_b (w_bodies w k)) = Some u -> exists u0, g_b (graph_of w) k = Some u0 /\ v_type u0 = v_type u) as Y.
            { intros k u. cbn. destruct (Nat.eqb k i); [|eauto]. destruct (w_bodies w k); cbn; [|easy]. intros U. injection U as <-. eauto. }
            destruct (Y j v K2) as (u & U1 & <-). destruct (Y j' v' K2') as (u' & U1' & <-). eapply A3; eauto.
        - subst w'. rewrite Q. cbn. rewrite Ec. eauto.
        - intros j. subst w'. rewrite Q. cbn. now rewrite Ejj.
        - subst w'. rewrite Q. destruct N1 as [X1 X2]. split; auto.
        - subst w'. rewrite Q. exact V1. }
      split; auto. refine (conj GB (conj K (conj _ _))); [|subst w'; rewrite Q; cbn; auto]. intros f Hf. subst w'. cbn. rewrite <- Ef. apply A. rewrite Own. exact Hf.
    - apply sat_bind. eapply sat_mono; [apply (sat_reproxy destroy_proxies false (b_fixtures b) w1 ND F1 Lv)|].
      { intros w' f x Hf Hx Hx' F'. apply (sat_destroy_proxies p oks w' f x Hx' F'). }
      intros w2 R. cbn [sat]. pose proof (reproxied_key _ _ _ _ R) as K. pose proof (reproxied_inv _ _ _ _ R I1) as I2. destruct R as (Q & F2 & A & B). rewrite Ef in K. rewrite Ecs.
      assert (GB2 : forall j, g_b (graph_of w2) j = g_b (at_b i (with_enabled false) (graph_of w)) j). { intros j. destruct G1 as (Gb & _). rewrite <- Gb. rewrite Q. reflexivity. }
      assert (C2 : w_contacts w2 = w_contacts w) by (rewrite Q; exact Ec). assert (J2 : w_joints w2 = w_joints w) by (rewrite Q; exact Ejj).
      assert (S2 : switches w2 = switches w) by (rewrite Q; exact Es). assert (N2 : nums w2) by (rewrite Q; exact N1). assert (V2 : ev_ok w2) by (rewrite Q; exact V1).
      eapply sat_mono; [apply (sat_destroy_contacts p E w2 i (b_contacts b)); auto|].
      { apply I2. }
      { rewrite Q. cbn. rewrite Hb1. easy. }
      { unfold contacts_of. rewrite GB2. cbn. rewrite Nat.eqb_refl, Hb. reflexivity. }
      clear Q. intros w' ((G3 & O3 & N3 & V3 & C3 & D3 & D3') & Nc3). unfold disabled. cbv zeta. rewrite EC. set (cs := items (b_contacts b)) in *. change (map ge_item (b_contacts b)) with cs in *.
      assert (I3 : ginv (graph_of w')).
      { apply (ginv_ext _ _ (geq_sym _ _ G3)). apply drops_inv; auto.
        - unfold cs, items. rewrite <- EC. now apply contact_items.
        - intros c Hc. unfold cs, items in Hc. apply in_map_iff in Hc. destruct Hc as (e & <- & He). rewrite <- EC in He. pose proof (contact_item_live (graph_of w) i e IC He) as Z. cbn in Z |- *. now rewrite C2. }
      assert (GB : forall j, g_b (graph_of w') j = g_b (drops cs (at_b i (with_enabled false) (graph_of w))) j).
      { intros j. destruct G3 as (Gb & _). rewrite Gb. clear - GB2. revert GB2. generalize (graph_of w2), (at_b i (with_enabled false) (graph_of w)). intros g h Q. revert g h Q j. induction cs as [|c cs IH]; intros g h Q j; [apply Q|]. apply (IH (drop_contact c g) (drop_contact c h)). intros k. cbn. now rewrite Q. }
      assert (FX : forall f, w_fixtures w' f = w_fixtures w2 f) by apply O3.
      assert (K' : forall f, option_map fkey (w_fixtures w' f) = option_map fkey (w_fixtures w f)) by (intros f; rewrite FX; apply K).
      assert (CX : forall c, option_map view_cf (w_contacts w' c) = if member cs c then None else option_map view_cf (w_contacts w c)).
      { intros c. destruct (member cs c) eqn:M; [apply member_in in M; now rewrite D3|]. rewrite D3' by (rewrite <- member_in; congruence). now rewrite C2. }
      assert (JX : forall j, g_j (graph_of w') j = g_j (graph_of w) j) by (intros j; destruct G3 as (_ & _ & _ & Gj & _); rewrite Gj, drops_j; cbn; now rewrite J2).
      split; [|refine (conj GB (conj K' (conj _ (conj CX (conj JX _)))))].
      + apply (W_build w w' H); auto.
        * destruct (W_enabled _ _ _ H) as (A1 & A2 & A3).
          assert (Z : forall c s k, cbody (graph_of w') c s = Some k -> cbody (graph_of w) c s = Some k).
          { intros c s k Z. rewrite <- Z. unfold cbody. cbn. specialize (CX c). unfold cbody in Z. cbn in Z. destruct (w_contacts w' c) as [x|]; [|easy]. destruct (member cs c); [easy|]. destruct (w_contacts w c) as [x0|]; [|easy]. cbn in *. unfold view_cf, view_c in CX. injection CX as X1 X2 X3 X4 _. rewrite X1, X3. unfold owner. cbn.
            specialize (K' (if s then c_fa x0 else c_fb x0)). destruct (w_fixtures w' _), (w_fixtures w _); cbn in *; try easy. unfold fkey in K'. congruence. }
          assert (Y : forall k u, g_b (graph_of w') k = Some u -> exists u0, g_b (graph_of w) k = Some u0 /\ v_type u = v_type u0 /\ v_enabled u = if Nat.eqb k i then false else v_enabled u0).
          { intros k u U. pose proof (drops_b kind cs (fun f v => eq_refl) (at_b i (with_enabled false) (graph_of w)) k) as Y. rewrite <- GB, U in Y. cbn in Y. cbn. destruct (w_bodies w k) as [u0|]; [|now destruct (Nat.eqb k i)]. exists (view_b u0). split; auto. destruct (Nat.eqb k i); cbn in Y; unfold kind in Y; cbn in Y; split; cbn; congruence. }
          refine (conj _ (conj _ _)).
          -- intros f x j v K1 K2 K3. cbn in K1. rewrite FX in K1. destruct (Y j v K3) as (u0 & U1 & _ & U2). rewrite U2. destruct (in_dec Nat.eq_dec f (b_fixtures b)) as [Hf|Hf].
             ++ destruct (B f Hf) as (y & ps & Y1 & Y2 & Y3). rewrite Y2 in K1. injection K1 as <-. cbn in K2 |- *. apply Own in Hf. unfold owner in Hf. cbn in Hf. rewrite Ef in Y1. rewrite Y1 in Hf. cbn in Hf. replace j with i by congruence. now rewrite Nat.eqb_refl.
             ++ rewrite A, Ef in K1 by auto. assert (j <> i) as Hj. { intros ->. apply Hf, Own. unfold owner. cbn. now rewrite K1. }
                replace (Nat.eqb j i) with false by (symmetry; now apply Nat.eqb_neq). apply (A1 f x j u0); auto.
          -- intros c s j v K1 K2. destruct (Y j v K2) as (u0 & U1 & _ & ->). destruct (Nat.eqb_spec j i) as [->|]; [now apply Nc3 in K1|]. eapply A2; eauto.
          -- intros c j j' v v' K1 K1' K2 K2'. destruct (Y j v K2) as (u & U1 & -> & _). destruct (Y j' v' K2') as (u' & U1' & -> & _). eapply A3; eauto.
        * intros c x Kx. specialize (CX c). rewrite Kx in CX. destruct (member cs c); [easy|]. destruct (w_contacts w c) as [x0|]; [|easy]. exists x0. cbn in CX. split; congruence.
        * eapply outer_fits; eauto.
      + intros f Hf. rewrite FX, A, Ef; auto. rewrite Own. exact Hf.
      + destruct O3 as (-> & _). exact S2.
  Qed.

  (** ** set_transform *)
  Lemma sat_set_transform w i pos a : W w -> w_locked w = false -> w_bodies w i <> None -> sat p (set_transform i pos a w) (fun w' => W w' /\ links (set_w_new_contacts true w) w').
  Proof.
    intros H HL Hi. unfold set_transform. rewrite HL. cbn [negb b2_assert bind]. apply sat_bind, sat_body; auto. intros b Hb. cbv zeta. set (b1 := place_body pos a b).
    assert (Vb : view_b b1 = view_b b /\ (bok b -> bok b1)) by (subst b1; destruct b as [? ? ? ? []]; split; [reflexivity|auto]). destruct Vb as [Vb Ob]. clearbody b1.
    assert (P1 : phys w (put_body i b1 w)). { apply (phys_body p oks w w i b b1); auto; [now apply phys_self|]. apply Ob. eapply (proj1 (W_nums _ _ _ H)); eauto. }
    apply sat_bind. eapply sat_mono; [apply (sat_each (phys w)); [|exact P1]|].
    { intros f w' Hf P'. apply sat_synchronize; auto; try apply H. destruct (W_graph _ _ _ H) as (_ & (_ & _ & F3 & _) & _). assert (owner (graph_of w) f = Some i) as Q.
      { apply F3. unfold fixtures_of. cbn. rewrite Hb. cbn. change (b_fixtures b) with (v_fixtures (view_b b)). rewrite <- Vb. exact Hf. }
      unfold owner in Q. cbn in Q. now destruct (w_fixtures w f). }
    intros w' P'. cbn [sat]. split.
    - apply (W_switch w'); auto. apply (W_phys p oks w); auto.
    - destruct P' as ((A & B & C & D & F & G) & _). unfold switches in B. injection B as B1 B2 B3 B4 B5 B6 B7 B8 B9. refine (conj A (conj _ (conj C (conj D (conj F G))))). unfold switches. cbn. congruence.
  Qed.

  (** ** fixtures *)
  Definition resensed (f : nat) (sensor : bool) w w' : Prop :=
    geq (graph_of w') (graph_of w) /\ (exists x, w_fixtures w f = Some x /\ w_fixtures w' f = Some (set_f_sensor sensor x)) /\ (forall k, k <> f -> w_fixtures w' k = w_fixtures w k) /\
    w_contacts w' = w_contacts w /\ w_log w' = w_log w.
  Lemma sat_set_sensor w f s : W w -> w_fixtures w f <> None -> sat p (set_sensor f s w) (fun w' => W w' /\ resensed f s w w').
  Proof.
    intros H Hf. unfold set_sensor. apply sat_bind, sat_fixture; auto. intros x Hx. destruct (Bool.eqb_spec s (f_sensor x)) as [Q|Q].
    { cbn [sat]. split; auto. refine (conj (geq_refl _) (conj _ (conj _ (conj eq_refl eq_refl)))); auto. exists x. split; auto. rewrite Hx, Q. now destruct x. }
    destruct (W_graph _ _ _ H) as (_ & IF & _). destruct (owner (graph_of w) f) as [i|] eqn:Eo.
    2:{ destruct IF as (_ & _ & _ & F4 & _). exfalso. apply (F4 f); [|exact Eo]. cbn. now rewrite Hx. }
    assert (Eb : f_body x = Some i) by (unfold owner in Eo; cbn in Eo; now rewrite Hx in Eo). rewrite Eb. cbn [unwrap bind]. apply sat_bind.
    assert (Li : w_bodies w i <> None). { pose proof (owner_live _ _ _ IF Eo) as Z. cbn in Z. now destruct (w_bodies w i). }
    eapply sat_mono; [apply (calm_body p w i (set_awake true) Li); [intros b; apply bok_awake|intros b; apply view_awake]|]. intros w1 K. cbn [sat]. pose proof (calm_W p oks w w1 H K) as W1. pose proof (calm_links p w w1 K) as L1. destruct K as (K & _).
    assert (Hx1 : w_fixtures w1 f = Some x) by (rewrite K; exact Hx). split; [apply (W_put_fixture w1 f x); auto|]. refine (conj _ (conj _ (conj _ (conj _ _)))).
    - eapply geq_trans; [|apply links_geq; exact L1]. refine (conj (fun _ => eq_refl) (conj _ (conj (fun _ => eq_refl) (conj (fun _ => eq_refl) (conj eq_refl (conj eq_refl eq_refl)))))). intros k. cbn. unfold put. destruct (Nat.eqb_spec k f) as [->|]; auto. now rewrite Hx1.
    - exists x. cbn. rewrite put_eq. auto.
    - intros k Hk. cbn. rewrite put_ne by auto. rewrite K. reflexivity.
    - cbn. rewrite K. reflexivity.
    - cbn. rewrite K. reflexivity.
  Qed.
  Lemma sat_refilter w f : W w -> w_fixtures w f <> None -> p \/ (forall c, on_fix w f c = false) -> sat p (refilter f w) (fun w' => W w' /\ (forall c, on_fix w f c = false) /\ links w w').
  Proof.
    intros H Hf HC. unfold refilter. apply sat_bind, sat_fixture; auto. intros x Hx. destruct (W_graph _ _ _ H) as (_ & IF & IC & _). destruct (f_body x) as [i|] eqn:Eb.
    2:{ destruct IF as (_ & _ & _ & F4 & _). exfalso. apply (F4 f); [cbn; now rewrite Hx|]. unfold owner. cbn. now rewrite Hx. }
    assert (Eo : owner (graph_of w) f = Some i) by (unfold owner; cbn; now rewrite Hx).
    assert (Li : w_bodies w i <> None). { pose proof (owner_live _ _ _ IF Eo) as Z. cbn in Z. now destruct (w_bodies w i). }
    apply sat_bind, sat_body; auto. intros b Hb. apply sat_bind. assert (EC : contacts_of (graph_of w) i = b_contacts b) by (unfold contacts_of; cbn; now rewrite Hb).
    eapply sat_mono; [apply (sat_each_done (fun d (_ : unit) => forall e, In e d -> on_fix w f (ge_item e) = false))|].
    { intros d e r [] El Hd. assert (w_contacts w (ge_item e) <> None) as Lc. { pose proof (contact_item_live (graph_of w) i e IC) as Z. cbn in Z. rewrite EC, El, in_app_iff in Z. specialize (Z (or_intror (or_introl eq_refl))). now destruct (w_contacts w (ge_item e)). }
      apply sat_bind, sat_contact; auto. intros c Hc.
      assert (sat p (if Nat.eqb (c_fa c) f then Panic else if Nat.eqb (c_fb c) f then Panic else Ok tt) (fun _ => on_fix w f (ge_item e) = false)) as S.
      { unfold on_fix. rewrite Hc, !(Nat.eqb_sym f). destruct HC as [HC|HC].
        - destruct (Nat.eqb (c_fa c) f); [exact HC|]. destruct (Nat.eqb (c_fb c) f); [exact HC|]. reflexivity.
        - specialize (HC (ge_item e)). unfold on_fix in HC. rewrite Hc, !(Nat.eqb_sym f) in HC. apply orb_false_iff in HC. destruct HC as [-> ->]. reflexivity. }
      eapply sat_mono; [exact S|]. intros [] Q e' He'. apply in_app_iff in He'. destruct He' as [He'|[<-|[]]]; auto. }
    { easy. }
    intros [] Q. eapply sat_mono; [apply (sat_touch p oks w w f (phys_self p oks w H) Hf)|]. intros w' P'. split; [apply (W_phys p oks w w' H P')|]. split; [|apply P'].
    intros c. destruct (on_fix w f c) eqn:Z; auto. pose proof (on_fix_owner p oks w f c i H Eo Z) as Y. apply in_map_iff in Y. destruct Y as (e & <- & He). rewrite EC in He. rewrite (Q e He) in Z. discriminate.
  Qed.
  Definition refiltered (f : nat) (d : filter) w w' : Prop :=
    geq (graph_of w') (graph_of w) /\ (forall c, on_fix w f c = false) /\
    (exists x x', w_fixtures w f = Some x /\ w_fixtures w' f = Some x' /\ view_fx x' = view_fx (set_f_filter d x)) /\
    (forall k, k <> f -> option_map view_fx (w_fixtures w' k) = option_map view_fx (w_fixtures w k)) /\
    (forall c, option_map view_cf (w_contacts w' c) = option_map view_cf (w_contacts w c)).
  Lemma sat_set_filter_data w f d : W w -> w_fixtures w f <> None -> p \/ (forall c, on_fix w f c = false) -> sat p (set_filter_data f d w) (fun w' => W w' /\ refiltered f d w w').
  Proof.
    intros H Hf HC. unfold set_filter_data. apply sat_bind, sat_fixture; auto. intros x Hx. set (w1 := put_fixture f (set_f_filter d x) w).
    assert (W1 : W w1) by (apply (W_put_fixture w f x); auto). assert (Hx1 : w_fixtures w1 f = Some (set_f_filter d x)) by (subst w1; cbn; apply put_eq).
    eapply sat_mono; [apply (sat_refilter w1 f W1)|].
    { congruence. }
    { exact HC. }
    intros w' (W' & Q & L). split; auto. pose proof (links_geq _ _ L) as G. destruct L as (_ & _ & _ & LF & LC & _). refine (conj _ (conj Q (conj _ (conj _ _)))).
    - eapply geq_trans; [exact G|]. refine (conj (fun _ => eq_refl) (conj _ (conj (fun _ => eq_refl) (conj (fun _ => eq_refl) (conj eq_refl (conj eq_refl eq_refl)))))). intros k. subst w1. cbn. unfold put. destruct (Nat.eqb_spec k f) as [->|]; auto. now rewrite Hx.
    - specialize (LF f). rewrite Hx1 in LF. destruct (w_fixtures w' f) as [x'|]; [|easy]. exists x, x'. cbn in LF. split; auto. split; auto. congruence.
    - intros k Hk. rewrite LF. subst w1. cbn. now rewrite put_ne.
    - intros c. rewrite LC. reflexivity.
  Qed.

  (** ** the world *)
  Lemma sat_set_allow_sleeping w flag : W w -> sat p (set_allow_sleeping flag w) (fun w' => W w' /\ geq (graph_of w') (graph_of w)).
  Proof.
    intros H. unfold set_allow_sleeping. destruct (Bool.eqb flag (w_allow_sleep w)); [split; auto; apply geq_refl|]. cbv zeta. set (w1 := set_w_allow_sleep flag w). assert (W1 : W w1) by (apply (W_switch w); auto).
    destruct flag; [split; auto; apply geq_refl|]. eapply sat_mono; [apply (sat_each (calm w1)); [|apply calm_refl]|].
    - intros i w2 Hi K. assert (w_bodies w2 i <> None) as Li. { apply (calm_live p w1 w2 i K). destruct (W_graph _ _ _ W1) as ((_ & B2 & _) & _). apply B2 in Hi. cbn in Hi. cbn. now destruct (w_bodies w i). }
      eapply sat_mono; [apply (calm_body p w2 i (set_awake true) Li); [intros b; apply bok_awake|intros b; apply view_awake]|]. intros w3 K3. eapply calm_trans; eauto.
    - intros w2 K. split; [apply (calm_W p oks w1); auto|]. eapply geq_trans; [apply links_geq; eapply calm_links; eauto|]. apply geq_refl.
  Qed.
  Lemma fits_shift b (vf : nat -> option (fview T)) o : fits oks b vf -> oks o -> fits oks (bp_shift b o) vf.
  Proof.
    intros (PO & m & pw & k & B & P1 & P2) Ho. split; auto. exists (pshift o m), pw, k. split; [now apply breach_shift|]. unfold pshift. split.
    - intros f j id Q. destruct (P1 f j id Q) as (box & fl & Em). rewrite Em. eauto.
    - intros id box u fl Q. destruct (m id) as [[[x y] z]|] eqn:Em; [|easy]. destruct (P2 id x y z Em) as (f & j & -> & Z). exists f, j. split; auto. congruence.
  Qed.
  Lemma sat_world_shift w o : W w -> w_locked w = false -> oks o -> sat p (world_shift o w) (fun w' => W w' /\ geq (graph_of w') (graph_of w)).
  Proof.
    intros H HL Ho. unfold world_shift. rewrite HL. cbn [negb b2_assert bind]. apply sat_bind. eapply sat_mono; [apply (sat_each (calm w)); [|apply calm_refl]|].
    - intros i w2 Hi K. assert (w_bodies w2 i <> None) as Li. { apply (calm_live p w w2 i K). destruct (W_graph _ _ _ H) as ((_ & B2 & _) & _). apply B2 in Hi. cbn in Hi. now destruct (w_bodies w i). }
      eapply sat_mono; [apply (calm_body p w2 i (shift_body o) Li)|].
      + intros b. destruct b as [? ? ? [] []]. exact (fun z => z).
      + intros b. destruct b as [? ? ? [] []]. reflexivity.
      + intros w3 K3. eapply calm_trans; eauto.
    - intros w2 K. cbn [sat]. pose proof (calm_W p oks w w2 H K) as W2. assert (G : geq (graph_of w2) (graph_of w)) by (apply links_geq; eapply calm_links; eauto). split; [|exact G].
      eapply (W_frame p oks w2); eauto; try apply W2. { apply geq_refl. } unfold WorldLogic.bfits. cbn. apply fits_shift; auto. apply W2.
  Qed.
End Setters.
