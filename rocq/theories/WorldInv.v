(** The invariant of a world, and finding, updating and removing contacts. *)
From Coq Require Import List ZArith Bool Arith Lia.
From Verif Require Import Base Num Math Collision Manifold Filter ShapeModel ListFacts ManifoldProofs TreeModel TreeSpec TreeHist BroadModel BroadSpec BroadProofs BroadFinal DynModel WorldModel WorldGraph WorldGops WorldLogic WorldPhys WorldContact.
Import ListNotations.

Section GraphFacts.
  Context {T : Type}.
  Implicit Types g h : graph T.

  Definition kind (v : bview) := (v_type v, v_enabled v).
  Lemma enabled_frame g h : (forall i, option_map kind (g_b h i) = option_map kind (g_b g i)) -> (forall f, g_f h f = g_f g f) ->
    (forall c s i, cbody h c s = Some i -> cbody g c s = Some i) -> enabled_ok g -> enabled_ok h.
  Proof.
    intros Hb Hf Hc (A & B & C). refine (conj _ (conj _ _)).
    - intros f x i b K1 K2 K3. rewrite Hf in K1. specialize (Hb i). rewrite K3 in Hb. destruct (g_b g i) as [b'|] eqn:Eb; [|easy]. cbn in Hb. unfold kind in Hb. injection Hb as _ Hb. rewrite Hb. eauto.
    - intros c s i b K1 K3. specialize (Hb i). rewrite K3 in Hb. destruct (g_b g i) as [b'|] eqn:Eb; [|easy]. cbn in Hb. unfold kind in Hb. injection Hb as _ Hb. rewrite Hb. eauto.
    - intros c i j a b K1 K2 K3 K4. pose proof (Hb i) as Hi. pose proof (Hb j) as Hj. rewrite K3 in Hi. rewrite K4 in Hj. destruct (g_b g i) as [a'|] eqn:Ea; [|easy]. destruct (g_b g j) as [b'|] eqn:Eb; [|easy].
      cbn in Hi, Hj. unfold kind in Hi, Hj. injection Hi as Hi _. injection Hj as Hj _. rewrite Hi, Hj. eauto.
  Qed.
  Lemma barred_frame g h a b : (forall j, g_j g j = g_j h j) -> barred g a b -> barred h a b.
  Proof. intros H (j & s & v & K1 & K2 & K3 & K4). exists j, s, v. unfold jbody in *. rewrite <- H. auto. Qed.
  Lemma cbody_drop c g c' s : cbody (drop_contact c g) c' s = if Nat.eqb c' c then None else cbody g c' s.
  Proof. unfold cbody. cbn. unfold put. now destruct (Nat.eqb c' c). Qed.
  Lemma drop_contact_kind c g i : option_map kind (g_b (drop_contact c g) i) = option_map kind (g_b g i).
  Proof. cbn. now destruct (g_b g i). Qed.
End GraphFacts.

Section Inv.
  Context {T : Type} `{NT : Num T} `{TT : NumTrig T} `{VT : NumValid T}.
  Notation world := (world T).
  Local Open Scope num_scope.
  Implicit Types w : world.
  Variable p : Prop.
  Variable oks : vec2 T -> Prop.
  Variable E : env T.
  Hypothesis EO : env_ok p E.
  Notation bok := (bok p).
  Notation nums := (nums p).
  Notation bfits := (bfits oks).
  Notation shapes_ok := (shapes_ok p).

  (* contacts that a joint forbids are marked for the filter *)
  Definition flagged_ok w : Prop := forall c x a b, w_contacts w c = Some x -> cbody (graph_of w) c true = Some a -> cbody (graph_of w) c false = Some b ->
    barred (graph_of w) a b -> cf_filter (c_flags x) = true.
  Record W w : Prop := {
    W_graph : ginv (graph_of w);
    W_enabled : enabled_ok (graph_of w);
    W_nums : nums w;
    W_ev : ev_ok w;
    W_fits : bfits w;
    W_shapes : shapes_ok w;
    W_flags : flagged_ok w }.

  Lemma shapes_frame w w' : (forall f, option_map view_f (w_fixtures w' f) = option_map view_f (w_fixtures w f)) -> shapes_ok w -> shapes_ok w'.
  Proof.
    intros H S f x K. specialize (H f). rewrite K in H. destruct (w_fixtures w f) as [y|] eqn:Ey; [|easy]. cbn in H. unfold view_f in H. injection H as _ H1 _ H2.
    specialize (S f y Ey). rewrite H1. replace (length (f_proxies x)) with (length (f_proxies y)); auto. rewrite <- (map_length view_p), <- H2. apply map_length.
  Qed.
  Lemma flagged_frame w w' : geq (graph_of w') (graph_of w) -> (forall c, option_map view_cf (w_contacts w' c) = option_map view_cf (w_contacts w c)) -> flagged_ok w -> flagged_ok w'.
  Proof.
    intros G H F c x a b K1 K2 K3 K4. rewrite (cbody_ext _ _ G) in K2, K3. specialize (H c). rewrite K1 in H. destruct (w_contacts w c) as [y|] eqn:Ey; [|easy]. cbn in H.
    replace (cf_filter (c_flags x)) with (cf_filter (c_flags y)) by (unfold view_cf in H; congruence). eapply F; eauto. eapply barred_frame; [|exact K4]. apply G.
  Qed.
  Lemma W_frame w w' : W w -> geq (graph_of w') (graph_of w) -> (forall c, option_map view_cf (w_contacts w' c) = option_map view_cf (w_contacts w c)) ->
    nums w' -> ev_ok w' -> bfits w' -> W w'.
  Proof.
    intros [A B C D F G H] Q K N V X. pose proof (geq_sym _ _ Q) as Q'. split; auto.
    - eapply ginv_ext; eauto.
    - eapply enabled_ext; eauto.
    - eapply shapes_frame; [|exact G]. intros f. apply Q.
    - eapply flagged_frame; eauto.
  Qed.
  Lemma W_phys w0 w : W w0 -> phys p oks w0 w -> W w.
  Proof. intros H (L & N & V & F). eapply W_frame; eauto; [now apply links_geq|]. apply L. Qed.
  Lemma phys_self w : W w -> phys p oks w w.
  Proof. intros H. refine (conj (links_refl w) (conj _ (conj _ _))); apply H. Qed.
  Lemma W_contacts w : W w -> contacts_ok (graph_of w).
  Proof. intros H. apply (W_graph _ H). Qed.
  Lemma W_log w e : W w -> quiet e -> W (log e w).
  Proof. intros H Q. eapply W_phys; [exact H|]. apply phys_log; auto. now apply phys_self. Qed.

  (** ** the proxies of a world *)
  Lemma slot_inv vf (f k id : nat) : slot (T:=T) vf f k = Some id -> exists x, vf f = Some x /\ k < v_count x.
  Proof. unfold slot. destruct (vf f) as [x|]; [|easy]. destruct (Nat.ltb_spec k (v_count x)); [eauto|easy]. Qed.
  Lemma slot_enabled w f k id a : W w -> slot (g_f (graph_of w)) f k = Some id -> owner (graph_of w) f = Some a ->
    exists b, g_b (graph_of w) a = Some b /\ v_enabled b = true.
  Proof.
    intros H S O. destruct (slot_inv _ _ _ _ S) as (x & Ex & Lx). destruct (g_b (graph_of w) a) as [b|] eqn:Eb; [|exfalso; revert Eb; eapply owner_live; eauto; apply (W_graph _ H)].
    exists b. split; auto. destruct (W_enabled _ H) as (A & _). unfold owner in O. rewrite Ex in O. specialize (A f x a b Ex O Eb). destruct (v_enabled b); auto. lia.
  Qed.

  (** ** new contacts *)
  Lemma added_W w w' : W w -> added p E w w' -> W w' /\ grow w w' /\ w_bp w' = w_bp w.
  Proof.
    intros H HA. assert (Fr : forall c, w_next_contact w <= c -> w_contacts w c = None).
    { intros c Hc. destruct (W_contacts _ H) as ((_ & _ & _ & Q) & _). specialize (Q c Hc). cbn in Q. now destruct (w_contacts w c). }
    destruct HA as [->|[(fa & fb & ->)|(v & a & b & fa & fb & EL & (G & GR & BP & N & V) & (k & k' & Sa & Sb))]].
    - refine (conj H (conj _ eq_refl)). now apply grow_refl.
    - refine (conj _ (conj _ eq_refl)); [now apply W_log|]. now apply (grow_refl (log (EvFilter fa fb) w)).
    - destruct EL as (Oa & Ob & Hab & Dy & Nb & _ & New). refine (conj _ (conj GR BP)).
      set (g := graph_of w) in *. change (graph_of (log (EvFilter fa fb) w)) with g in G. pose proof (geq_sym _ _ G) as G'.
      assert (Hk : forall i, option_map kind (g_b (graph_of w') i) = option_map kind (g_b g i)).
      { intros i. destruct G as (Gb & _). rewrite Gb. symmetry. unfold add_contact. rewrite <- cons_at_keep; auto. }
      assert (Gf : forall f, g_f (graph_of w') f = g_f g f) by (destruct G as (_ & Gf & _); exact Gf).
      assert (Cb : forall c s, cbody (graph_of w') c s = if Nat.eqb c (g_nc g) then Some (if s then a else b) else cbody g c s).
      { intros c s. rewrite (cbody_ext _ _ G). unfold cbody. cbn. unfold put. destruct (Nat.eqb c (w_next_contact w)); auto. destruct s; auto. }
      assert (Gj : forall j, g_j (graph_of w') j = g_j g j) by (destruct G as (_ & _ & _ & Gj & _); exact Gj).
      assert (Sub : forall f k id x, slot (g_f g) f k = Some id -> g_f g f = Some x -> k < length (v_proxies x)).
      { intros f k0 id x S K. destruct (slot_inv _ _ _ _ S) as (y & Ey & Ly). replace y with x in * by congruence. destruct (proj1 (W_fits _ H) f x K) as [[Q|Q] _]; lia. }
      split; auto.
      + apply (ginv_ext _ _ G'). apply add_contact_inv; auto; [apply H|intros x K; eapply Sub; eauto|intros x K; eapply Sub; eauto].
      + destruct (W_enabled _ H) as (A & B & C). refine (conj _ (conj _ _)).
        * intros f x i bv K1 K2 K3. rewrite Gf in K1. specialize (Hk i). rewrite K3 in Hk. destruct (g_b g i) as [b'|] eqn:Eb; [|easy]. cbn in Hk. unfold kind in Hk. injection Hk as _ Hk. rewrite Hk. eauto.
        * intros c s i bv K1 K3. rewrite Cb in K1. specialize (Hk i). rewrite K3 in Hk. destruct (g_b g i) as [b'|] eqn:Eb; [|easy]. cbn in Hk. unfold kind in Hk. injection Hk as _ Hk. rewrite Hk.
          destruct (Nat.eqb c (g_nc g)); [|eauto]. destruct s; injection K1 as <-.
          -- destruct (slot_enabled w _ _ _ _ H Sa Oa) as (bx & K4 & K5). fold g in K4. congruence.
          -- destruct (slot_enabled w _ _ _ _ H Sb Ob) as (bx & K4 & K5). fold g in K4. congruence.
        * intros c i j av bv K1 K2 K3 K4. rewrite Cb in K1, K2. pose proof (Hk i) as Hi. pose proof (Hk j) as Hj. rewrite K3 in Hi. rewrite K4 in Hj.
          destruct (g_b g i) as [a'|] eqn:Ea; [|easy]. destruct (g_b g j) as [b'|] eqn:Eb; [|easy]. cbn in Hi, Hj. unfold kind in Hi, Hj. injection Hi as Hi _. injection Hj as Hj _. rewrite Hi, Hj.
          destruct (Nat.eqb c (g_nc g)); [|eauto]. injection K1 as <-. injection K2 as <-. destruct Dy as [(x & X1 & X2)|(x & X1 & X2)].
          -- left. unfold g in Ea. cbn in Ea. rewrite X1 in Ea. injection Ea as <-. exact X2.
          -- right. unfold g in Eb. cbn in Eb. rewrite X1 in Eb. injection Eb as <-. exact X2.
      + unfold WorldLogic.bfits. rewrite BP. eapply fits_ext; [|exact (W_fits _ H)]. intros f. now rewrite Gf.
      + eapply shapes_frame; [|exact (W_shapes _ H)]. exact Gf.
      + destruct GR as (_ & _ & _ & _ & _ & G6 & G7). intros c x i j K1 K2 K3 K4. rewrite Cb in K2, K3. assert (Kb : barred g i j) by (eapply barred_frame; eauto).
        destruct (Nat.eqb_spec c (g_nc g)) as [->|Hc]; [injection K2 as <-; injection K3 as <-; easy|]. destruct (Nat.lt_ge_cases c (w_next_contact w)) as [L|L].
        * rewrite (G6 c L) in K1. change (w_contacts (log _ w) c) with (w_contacts w c) in K1. exact (W_flags _ H c x i j K1 K2 K3 Kb).
        * exfalso. unfold cbody, g in K2. cbn in K2. rewrite Fr in K2 by auto. easy.
  Qed.

  Lemma classes_grow w w' : grow w w' -> classes_ok p w -> classes_ok p w'.
  Proof.
    intros (_ & F & _ & B & _) C f f' x x' a b K1 K2 K3 K4 K5 K6. rewrite F in K1, K2. eapply C; eauto. assert (D : forall i, dynamic_at w' i -> dynamic_at w i).
    { intros i (y & Hy & Ty). specialize (B i). rewrite Hy in B. destruct (w_bodies w i) as [z|] eqn:Ez; [|easy]. exists z. split; auto. cbn in B. injection B as B. congruence. }
    destruct K6; auto.
  Qed.
  Lemma unmoved_pm (m : @pmap T (nat * nat)) s : pm_ok m s -> pm_ok (unmoved m) s.
  Proof.
    intros [A B]. unfold unmoved. split.
    - intros f k id K. destruct (A f k id K) as (box & fl & Em). rewrite Em. eauto.
    - intros id box u fl K. destruct (m id) as [[[b0 u0] f0]|] eqn:Em; [|easy]. injection K as <- <- <-. eauto.
  Qed.
  (* fixtures, body types, joints and switches are kept *)
  Definition still w w' : Prop :=
    switches w' = switches w /\ (forall f, option_map view_fx (w_fixtures w' f) = option_map view_fx (w_fixtures w f)) /\
    (forall i, option_map kind (g_b (graph_of w') i) = option_map kind (g_b (graph_of w) i)) /\
    (forall j, g_j (graph_of w') j = g_j (graph_of w) j).
  Lemma still_refl w : still w w.
  Proof. repeat split. Qed.
  Lemma still_trans w w' w'' : still w w' -> still w' w'' -> still w w''.
  Proof. intros (A & B & C & D) (A' & B' & C' & D'). refine (conj _ (conj _ (conj _ _))); intros; congruence. Qed.
  Lemma still_links w w' : links w w' -> still w w'.
  Proof.
    intros L. pose proof (links_geq _ _ L) as (Gb & Gf & Gc & Gj & _). destruct L as (A & B & C & D & F & G). refine (conj B (conj D (conj _ Gj))). intros i. now rewrite Gb.
  Qed.
  Lemma still_grow w w' : grow w w' -> still w w'.
  Proof.
    intros (A & B & C & D & _). refine (conj A (conj _ (conj _ _))).
    - intros f. now rewrite B.
    - intros i. specialize (D i). cbn. destruct (w_bodies w' i) as [x|], (w_bodies w i) as [y|]; cbn in *; try easy. injection D as D. f_equal. unfold kind. cbn. unfold is_enabled. congruence.
    - intros j. cbn. now rewrite C.
  Qed.
  Lemma still_f w w' f : still w w' -> g_f (graph_of w') f = g_f (graph_of w) f.
  Proof. intros (_ & B & _). specialize (B f). cbn. apply (map_comp view_fx (fun v => fst (fst (fst (fst (fst (fst v))))))) in B. exact B. Qed.
  Lemma still_dynamic w w' i : still w w' -> dynamic_at w' i -> dynamic_at w i.
  Proof.
    intros (_ & _ & C & _) (x & Hx & Tx). specialize (C i). cbn in C. rewrite Hx in C. destruct (w_bodies w i) as [y|] eqn:Ey; [|easy]. cbn in C. unfold kind in C. cbn in C. exists y. split; auto. congruence.
  Qed.
  Lemma still_classes w w' : still w w' -> classes_ok p w -> classes_ok p w'.
  Proof.
    intros S C f f' x x' a b K1 K2 K3 K4 K5 K6. pose proof (still_f w w' f S) as F1. pose proof (still_f w w' f' S) as F2. cbn in F1, F2. rewrite K1 in F1. rewrite K2 in F2.
    destruct (w_fixtures w f) as [y|] eqn:Ey; [|easy]. destruct (w_fixtures w f') as [y'|] eqn:Ey'; [|easy]. cbn in F1, F2. unfold view_f in F1, F2. injection F1 as F1 F3 _ _. injection F2 as F2 F4 _ _.
    rewrite F3, F4. eapply (C f f' y y' a b); eauto; try congruence. destruct K6; [left|right]; eapply still_dynamic; eauto.
  Qed.

  (* the same without the switches *)
  Definition alike w w' : Prop :=
    (forall f, option_map view_fx (w_fixtures w' f) = option_map view_fx (w_fixtures w f)) /\
    (forall i, option_map kind (g_b (graph_of w') i) = option_map kind (g_b (graph_of w) i)) /\
    (forall j, g_j (graph_of w') j = g_j (graph_of w) j).
  Lemma alike_refl w : alike w w.
  Proof. repeat split. Qed.
  Lemma alike_trans w w' w'' : alike w w' -> alike w' w'' -> alike w w''.
  Proof. intros (B & C & D) (B' & C' & D'). refine (conj _ (conj _ _)); intros; congruence. Qed.
  Lemma alike_still w w' : still w w' -> alike w w'.
  Proof. intros (_ & Q). exact Q. Qed.
  (* every contact was there before, or its fixtures were eligible at some moment in between *)
  Definition admitted w w' : Prop := forall c x, w_contacts w' c = Some x ->
    (exists x0, w_contacts w c = Some x0 /\ view_c x = view_c x0) \/ exists v a b, alike w v /\ eligible E v (view_c x) a b.
  Definition kept_contacts w w' : Prop := forall c x, w_contacts w' c = Some x -> exists x0, w_contacts w c = Some x0 /\ view_c x = view_c x0.
  Lemma admitted_kept w w' : kept_contacts w w' -> admitted w w'.
  Proof. intros H c x Hx. left. eauto. Qed.
  Lemma admitted_refl w : admitted w w.
  Proof. intros c x Hx. left. eauto. Qed.
  Lemma admitted_trans w w' w'' : alike w w' -> admitted w w' -> admitted w' w'' -> admitted w w''.
  Proof.
    intros S A B c x Hx. destruct (B c x Hx) as [(x0 & H0 & V)|(v & a & b & Sv & El)].
    - rewrite V. eauto.
    - right. exists v, a, b. split; auto. eapply alike_trans; eauto.
  Qed.
  Lemma admitted_links w w' : links w w' -> admitted w w'.
  Proof.
    intros L. apply admitted_kept. intros c x Hx. pose proof (links_geq _ _ L) as (_ & _ & Gc & _). specialize (Gc c). cbn in Gc. rewrite Hx in Gc. destruct (w_contacts w c) as [y|]; [|easy]. exists y. split; auto. cbn in Gc. congruence.
  Qed.
  Lemma admitted_added w w' : (forall c, w_next_contact w <= c -> w_contacts w c = None) -> added p E w w' -> admitted w w'.
  Proof.
    intros Fr [->|[(fa & fb & ->)|(v & a & b & fa & fb & El & (G & GR & _) & _)]]; [apply admitted_refl|intros c x Hx; left; eauto|].
    intros c x Hx. destruct (Nat.eq_dec c (w_next_contact w)) as [->|Hc].
    - right. exists w, a, b. split; [apply alike_refl|]. destruct G as (_ & _ & Gc & _). specialize (Gc (w_next_contact w)). cbn in Gc. rewrite put_eq, Hx in Gc. cbn in Gc. injection Gc as Gc. now rewrite Gc.
    - left. destruct G as (_ & _ & Gc & _). specialize (Gc c). cbn in Gc. rewrite put_ne, Hx in Gc by auto. destruct (w_contacts w c) as [y|]; [|easy]. exists y. split; auto. cbn in Gc. congruence.
  Qed.

  Definition found w w' : Prop := W w' /\ grow w w' /\ admitted w w'.
  Lemma sat_find w : W w -> classes_ok p w -> sat p (find_new_contacts E w) (found w).
  Proof.
    intros H CO. destruct (W_fits _ H) as (PO & m & pw & k & B & PM). unfold find_new_contacts. destruct (update_any _ _ _ _ _ B) as (b' & P & U1 & U2 & _). rewrite U1. apply sat_bind.
    assert (U0 : breach oks b' (unmoved m) no_pending k).
    { eapply (breach_update oks _ m pw k unit (fun s _ _ => Ok s) tt b' tt B). rewrite U1. replace (fold_left _ P (Ok tt)) with (Ok tt); [reflexivity|]. clear. induction P; auto. }
    clear U1. apply sat_bind. eapply sat_mono with (Q := fun w' => W w' /\ grow w w' /\ w_bp w' = w_bp w /\ admitted w w').
    - assert (U3 : forall i j, In (i, j) P -> exists f k f' k', user_of m i = Some (f, k) /\ user_of m j = Some (f', k') /\ slot (g_f (graph_of w)) f k = Some i /\ slot (g_f (graph_of w)) f' k' = Some j).
      { intros i j Hin. destruct (U2 i j Hin) as (_ & Li & Lj & _). unfold live in *. unfold user_of. destruct (m i) as [[[bi ui] fi]|] eqn:Ei; [|easy]. destruct (m j) as [[[bj uj] fj]|] eqn:Ej; [|easy].
        destruct (proj2 PM _ _ _ _ Ei) as (f & k0 & -> & S1). destruct (proj2 PM _ _ _ _ Ej) as (f' & k1 & -> & S2). exists f, k0, f', k1. auto. }
      clear U2 U0. assert (Hr : sat p (Ok w) (fun w' => W w' /\ grow w w' /\ w_bp w' = w_bp w /\ admitted w w')).
      { cbn. refine (conj H (conj _ (conj eq_refl (admitted_refl w)))). apply grow_refl. intros c Hc. destruct (W_contacts _ H) as ((_ & _ & _ & Q) & _). specialize (Q c Hc). cbn in Q. now destruct (w_contacts w c). }
      revert Hr. generalize (Ok w : res world). induction P as [|[i j] P IH]; intros r Hr; [exact Hr|]. cbn [fold_left]. apply IH; [intros; apply U3; now right|].
      apply sat_bind. eapply sat_mono; [exact Hr|]. intros w1 (H1 & G1 & B1 & A1). cbn [fst snd]. destruct (U3 i j) as (f & k0 & f' & k1 & -> & -> & S1 & S2); [now left|].
      assert (GF : forall f, g_f (graph_of w1) f = g_f (graph_of w) f). { intros z. cbn. destruct G1 as (_ & Q & _). now rewrite Q. }
      eapply sat_mono; [apply (sat_add_pair p E w1 f k0 f' k1 i j)|].
      + apply H1. + apply H1. + apply H1. + apply (W_fits _ H1). + eapply classes_grow; eauto.
      + now rewrite (slot_ext _ _ GF). + now rewrite (slot_ext _ _ GF).
      + intros w2 HA. destruct (added_W w1 w2 H1 HA) as (H2 & G2 & B2). refine (conj H2 (conj _ (conj _ _))); [eapply grow_trans; eauto|congruence|]. apply (admitted_trans w w1); [apply alike_still, still_grow, G1|exact A1|]. apply admitted_added; auto. intros c Hc. destruct (W_contacts _ H1) as ((_ & _ & _ & Q) & _). specialize (Q c Hc). cbn in Q. now destruct (w_contacts w1 c).
    - intros w' (H' & G' & B' & A'). cbn. refine (conj _ (conj G' A')). eapply W_frame; [exact H'|apply geq_refl|reflexivity|apply H'|apply H'|].
      assert (GF : forall f, g_f (graph_of w') f = g_f (graph_of w) f). { intros z. cbn. destruct G' as (_ & Q & _). now rewrite Q. }
      change (fits oks b' (g_f (graph_of w'))). eapply fits_ext; [intros f; symmetry; apply GF|]. split; auto. exists (unmoved m), no_pending, k. split; auto. now apply unmoved_pm.
  Qed.

  (** ** destroying contacts *)
  Definition lost (l : list nat) w w' : Prop :=
    still w w' /\ (forall c x, w_contacts w' c = Some x -> ~ In c l /\ exists y, w_contacts w c = Some y /\ view_cf x = view_cf y) /\
    (forall c, ~ In c l -> option_map view_cf (w_contacts w' c) = option_map view_cf (w_contacts w c)).
  Lemma destroyed_W w c w' : W w -> w_contacts w c <> None -> destroyed p c w w' -> W w' /\ lost [c] w w'.
  Proof.
    intros H Hc (G & O & N & V & F). pose proof (geq_sym _ _ G) as G'. assert (Lc : g_c (graph_of w) c <> None) by (cbn; now destruct (w_contacts w c)).
    assert (Gc : w_contacts w' c = None). { destruct G as (_ & _ & Gc & _). specialize (Gc c). cbn in Gc. rewrite put_eq in Gc. now destruct (w_contacts w' c). }
    assert (Gj : forall j, g_j (graph_of w') j = g_j (graph_of w) j) by (destruct G as (_ & _ & _ & Gj & _); exact Gj).
    assert (Gf : forall j, g_f (graph_of w') j = g_f (graph_of w) j) by (destruct G as (_ & Gf & _); exact Gf).
    split; [split; auto|].
    - apply (ginv_ext _ _ G'). apply drop_contact_inv; auto. apply H.
    - apply (enabled_ext _ _ G'). eapply enabled_frame; [| | |apply (W_enabled _ H)]; [intros i; apply drop_contact_kind|reflexivity|]. intros c' s i. rewrite cbody_drop. now destruct (Nat.eqb c' c).
    - eapply outer_fits; eauto. apply H.
    - eapply shapes_frame; [|apply (W_shapes _ H)]. exact Gf.
    - intros c' x a b K1 K2 K3 K4. rewrite (cbody_ext _ _ G), cbody_drop in K2, K3. destruct (Nat.eqb_spec c' c) as [->|Hne]; [easy|]. specialize (F c' Hne). rewrite K1 in F.
      destruct (w_contacts w c') as [y|] eqn:Ey; [|easy]. cbn in F. replace (cf_filter (c_flags x)) with (cf_filter (c_flags y)) by (unfold view_cf in F; congruence).
      eapply (W_flags _ H); eauto. eapply barred_frame; eauto.
    - refine (conj (conj _ (conj _ (conj _ Gj))) (conj _ _)).
      + apply O.
      + intros f. destruct O as (_ & O2 & _). now rewrite O2.
      + intros i. destruct G as (Gb & _). rewrite Gb. apply drop_contact_kind.
      + intros c' x K. destruct (Nat.eq_dec c' c) as [->|Hne]; [congruence|]. split; [intros [Q|[]]; congruence|]. specialize (F c' Hne). rewrite K in F. destruct (w_contacts w c') as [y|]; [|easy]. exists y. split; auto. cbn in F. congruence.
      + intros c' K. apply F. intros ->. apply K. now left.
  Qed.
  Lemma lost_refl w : lost [] w w.
  Proof. refine (conj (still_refl w) (conj _ _)); auto. intros c x K. split; [easy|eauto]. Qed.
  Lemma lost_trans w w' w'' l l' : lost l w w' -> lost l' w' w'' -> lost (l ++ l') w w''.
  Proof.
    intros (A & B & C) (A' & B' & C'). refine (conj (still_trans _ _ _ A A') (conj _ _)).
    - intros c x K. destruct (B' c x K) as (N & y & Hy & Vy). destruct (B c y Hy) as (N' & z & Hz & Vz). split; [|exists z; split; auto; congruence]. rewrite in_app_iff. tauto.
    - intros c K. rewrite in_app_iff in K. rewrite C' by tauto. apply C. tauto.
  Qed.
  Lemma sat_destroys w l : W w -> NoDup l -> (forall c, In c l -> w_contacts w c <> None) -> sat p (each (destroy_contact E) l w) (fun w' => W w' /\ lost l w w').
  Proof.
    intros H ND HL. apply (sat_each_done (fun d w' => W w' /\ lost d w w')); [|split; auto using lost_refl].
    intros d c r w1 El (H1 & L1). assert (Hc : w_contacts w1 c <> None).
    { destruct L1 as (_ & _ & C). rewrite <- (map_none view_cf). rewrite C; [rewrite map_none; apply HL; rewrite El, in_app_iff; cbn; auto|].
      rewrite El in ND. apply NoDup_remove_2 in ND. rewrite in_app_iff in ND. tauto. }
    eapply sat_mono; [apply (sat_destroy p E); auto; apply H1|]. intros w2 D. destruct (destroyed_W w1 c w2 H1 Hc D) as (H2 & L2). split; auto. eapply lost_trans; eauto.
  Qed.

  (** ** collide *)
  Lemma fits_overlap b (vf : nat -> option (fview T)) f k f' k' i j : fits oks b vf -> slot vf f k = Some i -> slot vf f' k' = Some j -> exists r, bp_test_overlap b i j = Ok r.
  Proof.
    intros (_ & m & pw & n & B & P & _) H1 H2. destruct (P _ _ _ H1) as (x & fx & E1). destruct (P _ _ _ H2) as (y & fy & E2). apply breach_binv in B. destruct B as (R & _).
    pose proof (reach'_sim _ _ _ R) as S. unfold bp_test_overlap. destruct (sim_get _ _ _ _ _ _ S E1) as (-> & _). destruct (sim_get _ _ _ _ _ _ S E2) as (-> & _). cbn. eauto.
  Qed.
  (* the proxies of a contact *)
  Lemma contact_slots w c x : W w -> w_contacts w c = Some x -> exists i j,
    slot (g_f (graph_of w)) (c_fa x) (c_ia x) = Some i /\ slot (g_f (graph_of w)) (c_fb x) (c_ib x) = Some j /\
    proxy_id w (c_fa x) (c_ia x) = Ok i /\ proxy_id w (c_fb x) (c_ib x) = Ok j.
  Proof.
    intros H Hc. pose proof (W_contacts _ H) as HC. pose proof HC as (C1 & (E1 & E2 & E3) & C3 & C4). assert (Hg : g_c (graph_of w) c = Some (view_c x)) by (cbn; now rewrite Hc).
    destruct (C3 c _ Hg) as (fa & fb & Ea & Eb & La & Lb). cbn in Ea, Eb, La, Lb. destruct (E3 c) as (a & b & Ka & Kb & Hab); [congruence|].
    assert (G : forall s f k fv i, cbody (graph_of w) c s = Some i -> (if s then c_fa x else c_fb x) = f -> g_f (graph_of w) f = Some fv -> k < length (v_proxies fv) ->
      exists id, slot (g_f (graph_of w)) f k = Some id /\ proxy_id w f k = Ok id).
    { intros s f k fv i K1 K2 K3 K4. pose proof (contact_bodies_live _ c s i HC K1) as Lb'. destruct (g_b (graph_of w) i) as [bv|] eqn:Eb'; [|easy]. destruct (W_enabled _ H) as (A & B & _).
      assert (Ko : v_body fv = Some i). { unfold cbody in K1. rewrite Hg in K1. cbn [view_c v_fa v_fb] in K1. rewrite K2 in K1. unfold owner in K1. now rewrite K3 in K1. }
      pose proof (A f fv i bv K3 Ko Eb') as Cn. rewrite (B c s i bv K1 Eb') in Cn. destruct (proj1 (W_fits _ H) f fv K3) as [_ Q]. destruct (Q k) as (id & Hid); [lia|]. exists id. split.
      - unfold slot. rewrite K3, Cn. destruct (Nat.ltb_spec k (length (v_proxies fv))); [|lia]. now rewrite Hid.
      - unfold proxy_id, get_fixture, get. cbn in K3. destruct (w_fixtures w f) as [y|]; [|easy]. injection K3 as <-. cbn [unwrap bind]. cbn in Hid. rewrite nth_error_map in Hid.
        destruct (nth_error (f_proxies y) k) as [pr|]; [|easy]. cbn in Hid. unfold view_p in Hid. injection Hid as _ _ Hid. cbn. rewrite Hid. reflexivity. }
    destruct (G true (c_fa x) (c_ia x) fa a Ka eq_refl) as (i & S1 & P1); auto. 
    destruct (G false (c_fb x) (c_ib x) fb b Kb eq_refl) as (j & S2 & P2); auto.  exists i, j. auto.
  Qed.

  (* what the filter was asked about the contacts that stay *)
  Definition asked w0 (c : nat) (x0 : contact T) : Prop :=
    cf_filter (c_flags x0) = true -> exists w, still w0 w /\ e_filter E w (c_fa x0) (c_fb x0) = true.
  Definition coll w0 (d : list nat) (st : world * list nat) : Prop :=
    let '(w, dead) := st in
    W w /\ still w0 w /\ geq (graph_of w) (graph_of w0) /\ NoDup dead /\ incl dead d /\
    (forall c x, In c d -> ~ In c dead -> w_contacts w c = Some x -> cf_filter (c_flags x) = false /\ forall x0, w_contacts w0 c = Some x0 -> asked w0 c x0) /\
    (forall c, ~ In c d -> option_map view_cf (w_contacts w c) = option_map view_cf (w_contacts w0 c)).

  Lemma coll_phys w0 d w w' dead : coll w0 d (w, dead) -> phys p oks w w' -> coll w0 d (w', dead).
  Proof.
    intros (H & S & G & ND & I & F & K) P. refine (conj (W_phys _ _ H P) (conj _ (conj _ (conj ND (conj I (conj _ _)))))).
    - eapply still_trans; [exact S|]. apply still_links, P.
    - eapply geq_trans; [apply links_geq, P|exact G].
    - intros c x Hd Hn Hx. destruct P as ((_ & _ & _ & _ & L & _) & _). specialize (L c). rewrite Hx in L. destruct (w_contacts w c) as [y|] eqn:Ey; [|easy].
      destruct (F c y Hd Hn Ey) as (F1 & F2). split; auto. cbn in L. unfold view_cf in L. congruence.
    - intros c Hd. rewrite <- K by auto. apply P.
  Qed.
  Lemma fixture_body_ok w f i : owner (graph_of w) f = Some i -> fixture_body w f = Ok i.
  Proof. unfold owner, fixture_body, get_fixture. cbn. destruct (w_fixtures w f) as [x|]; [|easy]. cbn. now intros ->. Qed.

  Lemma W_unflag w c x a b : W w -> w_contacts w c = Some x -> cbody (graph_of w) c true = Some a -> cbody (graph_of w) c false = Some b -> ~ barred (graph_of w) a b ->
    W (put_contact c (mod_cflags (set_cf_filter false) x) w).
  Proof.
    intros H Hx Ka Kb Nb. set (w' := put_contact c _ w).
    assert (G : geq (graph_of w') (graph_of w)).
    { refine (conj (fun i => eq_refl) (conj (fun i => eq_refl) (conj _ (conj (fun i => eq_refl) (conj eq_refl (conj eq_refl eq_refl)))))). intros i. subst w'. cbn. unfold put. destruct (Nat.eqb_spec i c) as [->|]; auto. now rewrite Hx. }
    pose proof (geq_sym _ _ G) as G'. split.
    - eapply ginv_ext; [exact G'|apply H].
    - eapply enabled_ext; [exact G'|apply H].
    - destruct (W_nums _ H) as [N1 N2]. split; [exact N1|]. intros i y. subst w'. cbn. unfold put. destruct (Nat.eqb_spec i c) as [->|]; [|apply N2]. intros Q. injection Q as <-. exact (N2 c x Hx).
    - intros HL i. unfold w'. rewrite touches_put. pose proof (W_ev _ H HL i) as V. destruct (Nat.eqb_spec i c) as [->|]; [|exact V]. unfold touches in V. rewrite Hx in V. exact V.
    - exact (W_fits _ H).
    - eapply shapes_frame; [|apply (W_shapes _ H)]. reflexivity.
    - intros z y i j K1 K2 K3 K4. rewrite (cbody_ext _ _ G) in K2, K3. assert (K5 : barred (graph_of w) i j) by (eapply barred_frame; [|exact K4]; reflexivity).
      subst w'. cbn in K1. unfold put in K1. destruct (Nat.eqb_spec z c) as [->|]; [|eapply (W_flags _ H); eauto]. exfalso. replace i with a in K5 by congruence. replace j with b in K5 by congruence. easy.
  Qed.
  Lemma NoDup_app_one (l : list nat) c : NoDup l -> ~ In c l -> NoDup (l ++ [c]).
  Proof. intros H K. induction H as [|y l Hy _ IH]; cbn; [repeat constructor; auto|]. constructor; [|apply IH; intros Q; apply K; now right]. rewrite in_app_iff. intros [Q|[Q|[]]]; [easy|]. apply K. now left. Qed.
  Lemma sat_collide1 w0 d c r st : NoDup (d ++ c :: r) -> w_contacts w0 c <> None -> coll w0 d st -> sat p (collide1 E c st) (coll w0 (d ++ [c])).
  Proof.
    intros ND0 Hc0 HI. destruct st as [w dead]. pose proof HI as (H & S & G & ND & I & F & K).
    assert (Hnd : ~ In c d) by (apply NoDup_remove_2 in ND0; rewrite in_app_iff in ND0; tauto).
    assert (Lc : w_contacts w c <> None) by (rewrite <- (map_none view_cf), K, map_none; auto).
    unfold collide1. apply sat_bind, sat_contact; auto. intros x Hx.
    pose proof (W_contacts _ H) as HC. pose proof HC as (C1 & (E1 & E2 & E3) & C3 & C4). assert (Hg : g_c (graph_of w) c = Some (view_c x)) by (cbn; now rewrite Hx).
    destruct (E3 c) as (a & b & Ka & Kb & Hab); [congruence|].
    assert (Oa : owner (graph_of w) (c_fa x) = Some a) by (unfold cbody in Ka; now rewrite Hg in Ka).
    assert (Ob : owner (graph_of w) (c_fb x) = Some b) by (unfold cbody in Kb; now rewrite Hg in Kb).
    rewrite (fixture_body_ok _ _ _ Oa), (fixture_body_ok _ _ _ Ob). cbn [bind].
    assert (La : w_bodies w a <> None). { pose proof (contact_bodies_live _ c true a HC Ka) as Q. cbn in Q. now destruct (w_bodies w a). }
    assert (Lb : w_bodies w b <> None). { pose proof (contact_bodies_live _ c false b HC Kb) as Q. cbn in Q. now destruct (w_bodies w b). }
    destruct (w_contacts w0 c) as [x0|] eqn:Ex0; [|easy]. assert (Vx : view_cf x = view_cf x0). { specialize (K c Hnd). rewrite Hx, Ex0 in K. cbn in K. congruence. }
    (* what is left to do if the contact dies *)
    assert (Dead : forall w1, coll w0 d (w1, dead) -> coll w0 (d ++ [c]) (w1, dead ++ [c])).
    { intros w1 (H1 & S1 & G1 & ND1 & I1 & F1 & K1). refine (conj H1 (conj S1 (conj G1 (conj _ (conj _ (conj _ _)))))).
      - apply NoDup_app_one; auto.
      - intros z. rewrite !in_app_iff. intros [Q|Q]; auto.
      - intros z y Hz Hn. rewrite in_app_iff in Hz, Hn. destruct Hz as [Hz|[<-|[]]]; [apply F1; auto|]. exfalso. apply Hn. right. now left.
      - intros z Hz. rewrite in_app_iff in Hz. apply K1. tauto. }
    assert (Dead' : forall w1, coll w0 (d ++ [c]) (w1, dead) -> coll w0 (d ++ [c]) (w1, dead ++ [c])).
    { intros w1 (H1 & S1 & G1 & ND1 & I1 & F1 & K1). refine (conj H1 (conj S1 (conj G1 (conj _ (conj _ (conj _ _)))))); auto.
      - apply NoDup_app_one; auto.
      - intros z. rewrite !in_app_iff. intros [Q|Q]. { left. now apply I. } right. exact Q.
      - intros z y Hz Hn. rewrite in_app_iff in Hn. apply F1; auto. }
    apply sat_bind. apply (sat_mono _ (fun q => let '(w1, keep) := q in (exists x1, w_contacts w1 c = Some x1 /\ view_c x1 = view_c x) /\ coll w0 (if (keep : bool) then d ++ [c] else d) (w1, dead))).
    { destruct (cf_filter (c_flags x)) eqn:Ef.
      - apply sat_bind. eapply sat_mono; [apply (sat_bodies_collide p w b a); auto; apply H|]. intros may Hm. destruct may; cbn [negb]; [|cbn; split; [eauto|exact HI]]. cbv zeta.
        destruct (e_filter E w (c_fa x) (c_fb x)) eqn:Ea; cbn [negb]; [|cbn [sat]; split; [eauto|]; apply (coll_phys w0 d w); auto; apply phys_log; [now apply phys_self|easy]].
        unfold mod_contact, get_contact. cbn [log set_w_log w_contacts]. rewrite Hx. cbn [unwrap bind sat]. split; [eexists; split; [cbn; apply put_eq|reflexivity]|].
        destruct (proj1 Hm eq_refl) as (_ & Nb). assert (Nb' : ~ barred (graph_of w) a b) by (intros Q; now apply Nb, barred_sym).
        pose proof (W_unflag (log (EvFilter (c_fa x) (c_fb x)) w) c x a b (W_log w (EvFilter (c_fa x) (c_fb x)) H Logic.I) Hx Ka Kb Nb') as HU. set (w1 := put_contact _ _ _) in *. 
        refine (conj HU (conj _ (conj _ (conj ND (conj _ (conj _ _)))))).
        + exact S.
        + eapply geq_trans; [|exact G]. refine (conj (fun i => eq_refl) (conj (fun i => eq_refl) (conj _ (conj (fun i => eq_refl) (conj eq_refl (conj eq_refl eq_refl)))))).
          intros i. subst w1. cbn. unfold put. destruct (Nat.eqb_spec i c) as [->|]; rewrite ?Hx; auto.
        + intros z Hz. rewrite in_app_iff. left. now apply I.
        + intros z y Hz Hn Hy. rewrite in_app_iff in Hz. destruct (Nat.eq_dec z c) as [->|Hne].
          * subst w1. cbn in Hy. rewrite put_eq in Hy. injection Hy as <-. split; [reflexivity|]. intros y0 Hy0 _. exists w. split; auto. replace y0 with x0 by congruence.
            replace (c_fa x0) with (c_fa x) by (unfold view_cf, view_c in Vx; congruence). replace (c_fb x0) with (c_fb x) by (unfold view_cf, view_c in Vx; congruence). auto.
          * subst w1. cbn in Hy. rewrite put_ne in Hy by auto. destruct Hz as [Hz|[Hz|[]]]; [|congruence]. eapply F; eauto.
        + intros z Hz. rewrite in_app_iff in Hz. subst w1. cbn. rewrite put_ne; [apply K; tauto|]. intros ->. apply Hz. right. now left.
      - cbn [sat]. split; [eauto|]. refine (conj H (conj S (conj G (conj ND (conj _ (conj _ _)))))).
        + intros z Hz. rewrite in_app_iff. left. now apply I.
        + intros z y Hz Hn Hy. rewrite in_app_iff in Hz. destruct Hz as [Hz|[<-|[]]]; [eapply F; eauto|]. replace y with x by congruence. split; auto. intros y0 Hy0 Q. replace y0 with x0 in Q by congruence.
          unfold view_cf in Vx. congruence.
        + intros z Hz. rewrite in_app_iff in Hz. apply K. tauto. }
    intros [w1 keep] ((x1 & Hx1 & Vx1) & HI1). destruct keep; cbn [negb]; [|cbn; now apply Dead].
    pose proof HI1 as (H1 & S1 & G1 & _). assert (G1' : geq (graph_of w1) (graph_of w)) by (eapply geq_trans; [exact G1|now apply geq_sym]).
    assert (Lb1 : forall i, w_bodies w i <> None -> w_bodies w1 i <> None). { intros i Hi. destruct G1' as (Gb & _). specialize (Gb i). cbn in Gb. destruct (w_bodies w1 i), (w_bodies w i); easy. }
    apply sat_bind, sat_body; auto. intros ba Hba. apply sat_bind, sat_body; auto. intros bb Hbb. destruct (negb (active ba) && negb (active bb)); [exact HI1|].
    destruct (contact_slots w1 c x1 H1 Hx1) as (i & j & Si & Sj & Pi & Pj). assert (X : c_fa x1 = c_fa x /\ c_ia x1 = c_ia x /\ c_fb x1 = c_fb x /\ c_ib x1 = c_ib x) by (unfold view_c in Vx1; repeat split; congruence).
    destruct X as (X1 & X2 & X3 & X4). rewrite X1, X2 in Pi, Si. rewrite X3, X4 in Pj, Sj. rewrite Pi, Pj. cbn [bind]. destruct (fits_overlap _ _ _ _ _ _ _ _ (W_fits _ H1) Si Sj) as (ov & ->). cbn [bind].
    destruct ov; cbn [negb]; [|cbn; now apply Dead']. apply sat_bind. eapply sat_mono; [apply (sat_update p oks E EO w1 (W_contacts _ H1)); [now apply phys_self|congruence]|].
    intros w2 P2. cbn. eapply coll_phys; eauto.
  Qed.

  (* after collide no contact is marked; those that were marked were allowed *)
  Definition collided w w' : Prop :=
    W w' /\ still w w' /\ forall c x, w_contacts w' c = Some x -> cf_filter (c_flags x) = false /\ exists x0, w_contacts w c = Some x0 /\ view_c x = view_c x0 /\ asked w c x0.
  Lemma sat_collide w : W w -> sat p (collide E w) (collided w).
  Proof.
    intros H. pose proof (W_contacts _ H) as ((T1 & T2 & _) & _). unfold collide. apply sat_bind. eapply sat_mono; [apply (sat_each_done (coll w))|].
    - intros d c r st El HI. eapply sat_collide1; eauto; [rewrite <- El; exact T1|]. assert (In c (w_contact_list w)) as Hin by (rewrite El, in_app_iff; cbn; auto). apply T2 in Hin. cbn in Hin. now destruct (w_contacts w c).
    - refine (conj H (conj (still_refl w) (conj (geq_refl _) (conj (NoDup_nil _) (conj _ (conj _ _)))))); [easy|easy|auto].
    - intros [w1 dead] (H1 & S1 & G1 & ND & I & F & K). assert (Lw : forall c, w_contacts w1 c <> None <-> In c (w_contact_list w)).
      { intros c. rewrite (T2 c). cbn. rewrite map_none. destruct G1 as (_ & _ & Gc & _). specialize (Gc c). cbn in Gc. now rewrite (map_live _ _ _ Gc). }
      eapply sat_mono; [apply sat_destroys; auto; intros c Hc; apply Lw, I, Hc|]. intros w2 (H2 & S2 & L2 & _). refine (conj H2 (conj (still_trans _ _ _ S1 S2) _)).
      intros c x Hx. destruct (L2 c x Hx) as (Hn & y & Hy & Vy). assert (Hin : In c (w_contact_list w)) by (apply Lw; congruence). destruct (F c y Hin Hn Hy) as (F1 & F2).
      split; [unfold view_cf in Vy; congruence|]. destruct G1 as (_ & _ & Gc & _). specialize (Gc c). cbn in Gc. rewrite Hy in Gc. destruct (w_contacts w c) as [x0|] eqn:E0; [|easy]. exists x0. cbn in Gc.
      refine (conj eq_refl (conj _ (F2 x0 eq_refl))). unfold view_cf in Vy. congruence.
  Qed.
End Inv.
