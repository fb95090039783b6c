(** Destroying the contacts of a fixture or a body, and the calls that do it. *)
From Coq Require Import List ZArith Bool Arith Lia.
From Verif Require Import Base Num Math Collision Manifold Filter ShapeModel ListFacts ManifoldProofs TreeModel TreeSpec TreeHist BroadModel BroadSpec BroadProofs BroadFinal DynModel DynProofs WorldModel WorldGraph WorldGops WorldLogic WorldPhys WorldContact WorldInv WorldOps WorldFix.
Import ListNotations.

Section Drops.
  Context {T : Type}.
  Implicit Types g h : graph T.
  Definition drops (cs : list nat) g : graph T := fold_left (fun g c => drop_contact c g) cs g.
  Lemma drops_app cs c g : drops (cs ++ [c]) g = drop_contact c (drops cs g).
  Proof. unfold drops. now rewrite fold_left_app. Qed.
  Lemma contacts_ext g h : geq g h -> contacts_ok g -> contacts_ok h.
  Proof.
    intros Q C. pose proof Q as (A1 & A2 & A3 & A4 & A5 & A6 & A7). injection A5 as _ _ A5 _. injection A6 as _ A6 _. injection A7 as _ A7 _.
    refine (contacts_frame g h _ A3 _ _ A5 A6 A7 C).
    - intros i. now apply contacts_of_ext.
    - intros c s. now apply cbody_ext.
    - intros c v Hc. destruct C as (_ & _ & C3 & _). destruct (C3 c v Hc) as (fa & fb & K). exists fa, fb. now rewrite <- !A2.
  Qed.
  Lemma drop_geq c g h : geq g h -> geq (drop_contact c g) (drop_contact c h).
  Proof.
    intros (A & B & C & D & F & G & H). injection F as F1 F2 F3 F4. injection G as G1 G2 G3. injection H as H1 H2 H3.
    refine (conj _ (conj B (conj _ (conj D (conj _ (conj _ _)))))).
    - intros i. cbn. now rewrite A.
    - intros i. cbn. unfold put. now rewrite C.
    - cbn. congruence.
    - cbn. congruence.
    - cbn. congruence.
  Qed.
  Lemma drops_geq cs : forall g h, geq g h -> geq (drops cs g) (drops cs h).
  Proof. induction cs as [|c cs IH]; intros g h H; [exact H|]. apply (IH (drop_contact c g)). now apply drop_geq. Qed.
  Lemma drops_f cs : forall g, g_f (drops cs g) = g_f g.
  Proof. induction cs as [|c cs IH]; intros g; [reflexivity|]. exact (IH (drop_contact c g)). Qed.
  Lemma drops_j cs : forall g, g_j (drops cs g) = g_j g.
  Proof. induction cs as [|c cs IH]; intros g; [reflexivity|]. exact (IH (drop_contact c g)). Qed.
  Lemma drops_c cs : forall g c, g_c (drops cs g) c = if existsb (Nat.eqb c) cs then None else g_c g c.
  Proof.
    induction cs as [|c cs IH]; intros g c'; [reflexivity|]. change (drops (c :: cs) g) with (drops cs (drop_contact c g)). rewrite IH. cbn. unfold put. destruct (Nat.eqb c' c); cbn; [now destruct (existsb _ _)|reflexivity].
  Qed.
  Lemma drops_b {A} (k : bview -> A) cs : (forall f v, k (on_contacts f v) = k v) -> forall g i, option_map k (g_b (drops cs g) i) = option_map k (g_b g i).
  Proof.
    intros Hk. induction cs as [|c cs IH]; intros g i; [reflexivity|]. change (drops (c :: cs) g) with (drops cs (drop_contact c g)). rewrite IH. cbn. destruct (g_b g i); cbn; now rewrite ?Hk.
  Qed.
  Lemma drops_cbody cs g c s : cbody (drops cs g) c s = if existsb (Nat.eqb c) cs then None else cbody g c s.
  Proof. unfold cbody. rewrite drops_c. destruct (existsb _ _); auto. destruct (g_c g c); auto. unfold owner. now rewrite drops_f. Qed.
  Lemma drops_inv cs : forall g, ginv g -> NoDup cs -> (forall c, In c cs -> g_c g c <> None) -> ginv (drops cs g).
  Proof.
    induction cs as [|c cs IH]; intros g H ND L; [exact H|]. inversion ND; subst. apply (IH (drop_contact c g)); auto.
    - apply drop_contact_inv; auto. apply L. now left.
    - intros c' Hc'. cbn. rewrite put_ne; [apply L; now right|]. now intros ->.
  Qed.
  Lemma drops_at cs i f : (forall k v, f (on_contacts k v) = on_contacts k (f v)) -> forall g, geq (drops cs (at_b i f g)) (at_b i f (drops cs g)).
  Proof.
    intros Hf. induction cs as [|c cs IH]; intros g; [apply geq_refl|]. change (drops (c :: cs) ?x) with (drops cs (drop_contact c x)). eapply geq_trans; [apply drops_geq|apply IH].
    refine (conj _ (conj (fun i => eq_refl) (conj (fun i => eq_refl) (conj (fun i => eq_refl) (conj eq_refl (conj eq_refl eq_refl)))))). intros j. cbn. destruct (Nat.eqb j i); auto. destruct (g_b g j); cbn; auto. now rewrite Hf.
  Qed.
  Lemma drops_rest cs : forall g, (g_nb (drops cs g), g_nf (drops cs g), g_nc (drops cs g), g_nj (drops cs g), g_bl (drops cs g), g_jl (drops cs g), g_bn (drops cs g), g_jn (drops cs g)) =
    (g_nb g, g_nf g, g_nc g, g_nj g, g_bl g, g_jl g, g_bn g, g_jn g).
  Proof. induction cs as [|c cs IH]; intros g; [reflexivity|]. exact (IH (drop_contact c g)). Qed.

  (* the edges of a body belong to different items *)
  Lemma edges_items {A} (t : nat -> option A) ends edges i : edges_ok t ends edges -> (forall c s, ends c s <> None -> t c <> None) -> NoDup (map ge_item (edges i)).
  Proof.
    intros (E1 & E2 & E3) Ht. assert (U : forall e e', In e (edges i) -> In e' (edges i) -> ge_item e = ge_item e' -> e = e').
    { intros [c s o] [c' s' o'] H H' Q. cbn in Q. subst c'. apply E2 in H. apply E2 in H'. destruct H as [H1 H2], H' as [H3 H4]. destruct (E3 c) as (a & b & Ka & Kb & Hab); [apply (Ht c s); congruence|].
      destruct s, s'; cbn in *; congruence. }
    specialize (E1 i). revert E1 U. generalize (edges i). intros l. induction l as [|e l IH]; intros N U; cbn; [constructor|]. inversion N; subst. constructor.
    - intros K. apply in_map_iff in K. destruct K as (e' & Q & K). replace e with e' in *; auto. symmetry. apply U; cbn; auto.
    - apply IH; auto. intros x y Hx Hy. apply U; cbn; auto.
  Qed.
  Lemma contact_items g i : contacts_ok g -> NoDup (map ge_item (contacts_of g i)).
  Proof. intros (_ & H & _). eapply edges_items; [exact H|]. intros c s K. unfold cbody in K. now destruct (g_c g c). Qed.
  Lemma joint_items g i : joints_ok g -> NoDup (map ge_item (joints_of g i)).
  Proof. intros (_ & H & _). eapply edges_items; [exact H|]. intros c s K. unfold jbody in K. now destruct (g_j g c). Qed.
  Lemma contact_item_live g i e : contacts_ok g -> In e (contacts_of g i) -> g_c g (ge_item e) <> None.
  Proof. intros (_ & (_ & E2 & _) & _) H. destruct e as [c s o]. apply E2 in H. destruct H as [H _]. unfold cbody in H. cbn. now destruct (g_c g c). Qed.
  Lemma joint_item_live g i e : joints_ok g -> In e (joints_of g i) -> g_j g (ge_item e) <> None.
  Proof. intros (_ & (_ & E2 & _) & _) H. destruct e as [c s o]. apply E2 in H. destruct H as [H _]. unfold jbody in H. cbn. now destruct (g_j g c). Qed.
End Drops.

Section Body.
  Context {T : Type} `{NT : Num T} `{TT : NumTrig T} `{VT : NumValid T}.
  Notation world := (world T).
  Local Open Scope num_scope.
  Implicit Types w : world.
  Variable p : Prop.
  Variable oks : vec2 T -> Prop.
  Variable E : env T.
  Notation bok := (bok p).
  Notation nums := (nums p).
  Notation bfits := (bfits oks).
  Notation shapes_ok := (shapes_ok p).
  Notation W := (W p oks).
  Notation calm := (calm p).

  Definition gone (cs : list nat) w w' : Prop :=
    geq (graph_of w') (drops cs (graph_of w)) /\ outer w w' /\ nums w' /\ ev_ok w' /\ contacts_ok (graph_of w') /\
    (forall c, In c cs -> w_contacts w' c = None) /\ (forall c, ~ In c cs -> option_map view_cf (w_contacts w' c) = option_map view_cf (w_contacts w c)).
  Lemma gone_refl w : contacts_ok (graph_of w) -> nums w -> ev_ok w -> gone [] w w.
  Proof. intros C N V. refine (conj (geq_refl _) (conj (outer_refl w) (conj N (conj V (conj C (conj _ _)))))); auto. easy. Qed.
  Lemma gone_step cs c w w' : gone cs w w' -> w_contacts w' c <> None -> sat p (destroy_contact E c w') (gone (cs ++ [c]) w).
  Proof.
    intros (G & O & N & V & C & K1 & K2) Hc. eapply sat_mono; [apply (sat_destroy p E w' c C N V Hc)|]. intros w2 (G2 & O2 & N2 & V2 & F2).
    assert (G3 : geq (graph_of w2) (drops (cs ++ [c]) (graph_of w))). { rewrite drops_app. eapply geq_trans; [exact G2|]. now apply drop_geq. }
    assert (Lc : g_c (graph_of w') c <> None) by (cbn; now destruct (w_contacts w' c)).
    refine (conj G3 (conj (outer_trans _ _ _ O O2) (conj N2 (conj V2 (conj _ (conj _ _)))))).
    - exact (contacts_ext _ _ (geq_sym _ _ G2) (drop_contact_ok _ c C Lc)).
    - intros c' Hin. rewrite in_app_iff in Hin. destruct G3 as (_ & _ & Gc & _). specialize (Gc c'). rewrite drops_c in Gc. replace (existsb (Nat.eqb c') (cs ++ [c])) with true in Gc; [cbn in Gc; now destruct (w_contacts w2 c')|].
      symmetry. apply existsb_eq. now rewrite in_app_iff.
    - intros c' Hn. rewrite in_app_iff in Hn. rewrite F2, K2; auto. intros ->. apply Hn. right. now left.
  Qed.
  Lemma gone_live cs w w' c : gone cs w w' -> ~ In c cs -> w_contacts w c <> None -> w_contacts w' c <> None.
  Proof. intros (_ & _ & _ & _ & _ & _ & K) H L. rewrite <- (map_none view_cf), K, map_none; auto. Qed.

  (* all contacts of a body *)
  Lemma sat_destroy_contacts w i l : contacts_ok (graph_of w) -> nums w -> ev_ok w -> w_bodies w i <> None -> contacts_of (graph_of w) i = l ->
    sat p (destroy_contacts E i l w) (fun w' => gone (map ge_item l) w w' /\ forall c s, cbody (graph_of w') c s <> Some i).
  Proof.
    intros C N V Hi <-. unfold destroy_contacts. apply sat_bind. set (l := contacts_of (graph_of w) i) in *. pose proof (contact_items _ i C) as ND. fold l in ND.
    eapply sat_mono; [apply (sat_each_done (fun d w' => gone (map ge_item d) w w'))|].
    - intros d e r w1 El G1. rewrite map_app. apply (gone_step (map ge_item d)); auto. apply (gone_live _ _ _ _ G1).
      + rewrite El, map_app in ND. cbn in ND. apply NoDup_remove_2 in ND. rewrite in_app_iff in ND. tauto.
      + pose proof (contact_item_live (graph_of w) i e C) as Q. cbn in Q. fold l in Q. rewrite El in Q. rewrite map_none in Q. apply Q. rewrite in_app_iff. cbn. auto.
    - now apply gone_refl.
    - intros w1 (G & O & N1 & V1 & C1 & K1 & K2). assert (Li : w_bodies w1 i <> None).
      { destruct G as (Gb & _). specialize (Gb i). cbn in Gb. rewrite <- (map_none view_b), Gb. rewrite <- (map_none (fun _ => tt)), (drops_b (fun _ => tt)), map_none by auto. cbn. now rewrite map_none. }
      assert (Em : forall c s, cbody (graph_of w1) c s <> Some i).
      { intros c s K. assert (Hg : g_c (graph_of w1) c <> None) by (unfold cbody in K; now destruct (g_c (graph_of w1) c)). rewrite (cbody_ext _ _ G), drops_cbody in K.
        destruct (existsb (Nat.eqb c) (map ge_item l)) eqn:Ex; [easy|]. assert (In c (map ge_item l)) as Hin; [|apply existsb_eq in Hin; congruence].
        destruct C as (_ & (_ & E2 & E3) & _). assert (exists o, cbody (graph_of w) c (negb s) = Some o) as (o & Ho).
        { destruct (E3 c) as (a & b & Ka & Kb & _); [unfold cbody in K; now destruct (g_c (graph_of w) c)|]. destruct s; cbn; eauto. }
        apply in_map_iff. exists (GEdge c s o). split; auto. apply E2. auto. }
      unfold mod_body. apply sat_bind, sat_body; auto. intros b Hb. cbn [sat]. assert (Eb : b_contacts b = []).
      { destruct (b_contacts b) as [|[c s o] r] eqn:Q; auto. exfalso. apply (Em c s). destruct C1 as (_ & (_ & E2 & _) & _). assert (In (GEdge c s o) (contacts_of (graph_of w1) i)) as Hin by (unfold contacts_of; cbn; rewrite Hb; cbn; rewrite Q; now left).
        now apply E2 in Hin. }
      assert (Q : put_body i (set_b_contacts [] b) w1 = set_w_bodies (put (w_bodies w1) i (Some (set_b_contacts [] b))) w1) by reflexivity.
      assert (Gq : geq (graph_of (put_body i (set_b_contacts [] b) w1)) (graph_of w1)).
      { refine (conj _ (conj (fun i => eq_refl) (conj (fun i => eq_refl) (conj (fun i => eq_refl) (conj eq_refl (conj eq_refl eq_refl)))))). intros j. cbn. unfold put. destruct (Nat.eqb_spec j i) as [->|]; auto.
        rewrite Hb. cbn. unfold view_b. cbn. now rewrite Eb. }
      split; [|intros c s; rewrite (cbody_ext _ _ Gq); apply Em]. refine (conj (geq_trans _ _ _ Gq G) (conj O (conj _ (conj V1 (conj _ (conj K1 K2)))))).
      + destruct N1 as [X1 X2]. split; [|exact X2]. intros j y. cbn. unfold put. destruct (Nat.eqb_spec j i) as [->|]; [|apply X1]. intros Z. injection Z as <-. exact (X1 i b Hb).
      + exact (contacts_ext _ _ (geq_sym _ _ Gq) C1).
  Qed.

  (** ** when the world lost something and nothing came *)
  Lemma W_sub w w' : W w -> ginv (graph_of w') ->
    (forall i v, g_b (graph_of w') i = Some v -> exists v0, g_b (graph_of w) i = Some v0 /\ v_enabled v = v_enabled v0 /\ (v_type v = v_type v0 \/ forall c s, cbody (graph_of w') c s <> Some i)) ->
    (forall f x, g_f (graph_of w') f = Some x -> g_f (graph_of w) f = Some x) ->
    (forall c x, w_contacts w' c = Some x -> exists x0, w_contacts w c = Some x0 /\ view_cf x = view_cf x0) ->
    (forall j v, g_j (graph_of w') j = Some v -> g_j (graph_of w) j = Some v) ->
    nums w' -> ev_ok w' -> bfits w' -> W w'.
  Proof.
    intros H G Hb Hf Hc Hj N V F.
    assert (Cb : forall c s i, cbody (graph_of w') c s = Some i -> cbody (graph_of w) c s = Some i).
    { intros c s i K. unfold cbody in *. cbn in *. destruct (w_contacts w' c) as [x|] eqn:Ex; [|easy]. destruct (Hc c x Ex) as (x0 & Ex0 & Vx). rewrite Ex0. cbn in *. unfold view_cf, view_c in Vx. injection Vx as V1 V2 V3 V4 _. rewrite <- V1, <- V3.
      unfold owner in *. cbn in *. specialize (Hf (if s then c_fa x else c_fb x)). destruct (option_map view_f (w_fixtures w' (if s then c_fa x else c_fb x))) as [y|]; [|easy]. now rewrite (Hf y eq_refl). }
    assert (Br : forall a b, barred (graph_of w') a b -> barred (graph_of w) a b).
    { intros a b (j & s & v & K1 & K2 & K3 & K4). exists j, s, v. unfold jbody in *. rewrite K1 in K3, K4. rewrite (Hj j v K1). auto. }
    destruct (W_enabled _ _ _ H) as (A & B & C). split; auto.
    - refine (conj _ (conj _ _)).
      + intros f x i b K1 K2 K3. destruct (Hb i b K3) as (v0 & K4 & K5 & _). rewrite K5. eauto.
      + intros c s i b K1 K3. destruct (Hb i b K3) as (v0 & K4 & K5 & _). rewrite K5. eauto.
      + intros c i j a b K1 K2 K3 K4. destruct (Hb i a K3) as (a0 & X1 & _ & [X2|X2]); [|now apply X2 in K1]. destruct (Hb j b K4) as (b0 & Y1 & _ & [Y2|Y2]); [|now apply Y2 in K2]. rewrite X2, Y2. eauto.
    - intros f x K. destruct (w_fixtures w f) as [y|] eqn:Ey.
      + assert (Some (view_f y) = Some (view_f x)) as Q. { specialize (Hf f (view_f x)). cbn in Hf. rewrite K, Ey in Hf. now apply Hf. }
        injection Q as _ Q1 _ Q2. pose proof (W_shapes _ _ _ H f y Ey) as Z. rewrite Q1 in Z. replace (length (f_proxies x)) with (length (f_proxies y)); auto. rewrite <- (map_length view_p), Q2. apply map_length.
      + specialize (Hf f (view_f x)). cbn in Hf. rewrite K, Ey in Hf. now specialize (Hf eq_refl).
    - intros c x a b K1 K2 K3 K4. destruct (Hc c x K1) as (x0 & Ex0 & Vx). replace (cf_filter (c_flags x)) with (cf_filter (c_flags x0)) by (unfold view_cf in Vx; congruence).
      eapply (W_flags _ _ _ H); eauto.
  Qed.

  (** ** mass *)
  (* what a mass reset reads: the density and the shape of the fixtures and the type of the body *)
  Definition weight (x : fixture T) := (f_density x, f_shape x).
  Definition weights w f := option_map weight (w_fixtures w f).
  Definition light (ws : list (option (T * shape T))) (ty : btype) : Prop :=
    forall fs b, map (fun x => Some (weight x)) fs = ws -> b_type b = ty -> sat p (reset_mass_data fs b) (fun _ => True).
  Lemma sat_fixtures w l : (forall f, In f l -> w_fixtures w f <> None) -> sat p (get_all (get_fixture w) l) (fun fs => map (fun x => Some (weight x)) fs = map (weights w) l).
  Proof.
    induction l as [|i l IH]; intros H; cbn [get_all]; [exact eq_refl|]. apply sat_bind, sat_fixture; [apply H; now left|]. intros x Hx. apply sat_bind. eapply sat_mono; [apply IH; intros; apply H; now right|].
    intros fs Hfs. cbn. unfold weights at 1. rewrite Hx. cbn. now rewrite Hfs.
  Qed.
  Lemma sat_get_all {A} (k : nat -> res A) l : (forall i, In i l -> sat p (k i) (fun _ => True)) -> sat p (get_all k l) (fun _ => True).
  Proof.
    induction l as [|i l IH]; intros H; cbn [get_all]; [exact I|]. apply sat_bind. eapply sat_mono; [apply H; now left|]. intros x _. apply sat_bind. eapply sat_mono; [apply IH; intros; apply H; now right|]. now intros.
  Qed.
  Lemma kept_view (b b' : body T) : kept b' = kept b -> view_b b' = view_b b /\ (bok b -> bok b').
  Proof. unfold kept. intros H. injection H. intros. split; [unfold view_b, is_enabled; congruence|]. unfold WorldLogic.bok. intros [K|K]; [now left|right; congruence]. Qed.
  Lemma sat_reset_mass w i b : w_bodies w i = Some b -> (forall f, In f (b_fixtures b) -> w_fixtures w f <> None) -> light (map (weights w) (b_fixtures b)) (b_type b) -> sat p (reset_mass i w) (calm w).
  Proof.
    intros Hb Hf RM. unfold reset_mass, get_body. rewrite Hb. cbn [unwrap bind]. apply sat_bind. eapply sat_mono; [apply (sat_fixtures w (b_fixtures b) Hf)|]. intros fs Hfs. apply sat_bind.
    eapply sat_mono; [apply sat_eq, (RM fs b Hfs eq_refl)|]. intros b' (Eb & _). cbn [sat]. destruct (reset_run _ _ _ Eb) as (K & _). destruct (kept_view _ _ K) as [K1 K2]. refine (conj eq_refl (conj _ _)).
    - intros j. cbn. unfold put. destruct (Nat.eqb_spec j i) as [->|]; auto. rewrite Hb. cbn. now rewrite K1.
    - intros N j x. cbn. unfold put. destruct (Nat.eqb_spec j i) as [->|]; [|apply N]. intros Q. injection Q as <-. eauto.
  Qed.
  (* only bodies changed, and not their links *)
  Lemma calm_links w w' : calm w w' -> links w w'.
  Proof. intros (A & B & _). rewrite A. repeat split; auto. Qed.
  Lemma calm_phys w0 w w' : phys p oks w0 w -> calm w w' -> phys p oks w0 w'.
  Proof.
    intros (L & N & V & F) K. refine (conj (links_trans _ _ _ L (calm_links _ _ K)) _). destruct K as (A & B & C). rewrite A. refine (conj _ (conj V F)). destruct N as [N1 N2]. split; [exact (C N1)|exact N2].
  Qed.
  Lemma calm_W w w' : W w -> calm w w' -> W w'.
  Proof. intros H K. eapply W_phys; eauto. eapply calm_phys; eauto. now apply phys_self. Qed.

  (** ** create a fixture *)
  Lemma fits_put bp vf f (x : option (fview T)) : fits oks bp vf -> (forall k, slot vf f k = None) -> (forall y, x = Some y -> v_count y = 0%nat) -> fits oks bp (put vf f x).
  Proof.
    intros (PO & m & pw & k & B & P) H0 H1. split.
    - intros f' y. unfold put. destruct (Nat.eqb_spec f' f) as [->|]; [|apply PO]. intros K. specialize (H1 y K). split; [now left|]. intros q. lia.
    - exists m, pw, k. split; auto. eapply pm_ok_ext; [|exact P]. intros f' q. unfold slot, put. destruct (Nat.eqb_spec f' f) as [->|]; auto. specialize (H0 q). unfold slot in H0. rewrite H0. destruct x as [y|]; auto. now rewrite (H1 y eq_refl).
  Qed.
  Lemma slot_zero vf f x : vf f = Some x -> v_count x = 0%nat -> forall k, slot (T:=T) vf f k = None.
  Proof. intros H K k. unfold slot. rewrite H, K. reflexivity. Qed.
  Lemma slot_none vf f : vf f = None -> forall k, slot (T:=T) vf f k = None.
  Proof. intros H k. unfold slot. now rewrite H. Qed.

  Definition def_fine (d : fixture_def T) : Prop := sat p (shape_child_count (fd_shape d)) (fun n => forall xf k, k < n -> sat p (shape_aabb (fd_shape d) xf k) (fun _ => True)).
  Definition made (i f : nat) (d : fixture_def T) w w' : Prop :=
    f = w_next_fixture w /\ (exists x, geq (graph_of w') (new_fixture i x (graph_of w)) /\ v_body x = Some i /\ v_shape x = fd_shape d) /\
    w_new_contacts w' = true /\ (forall k, k <> f -> w_fixtures w' k = w_fixtures w k) /\ w_contacts w' = w_contacts w /\ w_joints w' = w_joints w /\ w_log w' = w_log w /\
    (exists x, w_fixtures w' f = Some x /\ f_shape x = fd_shape d /\ f_density x = fd_density d /\ f_friction x = fd_friction d /\ f_restitution x = fd_restitution d /\
       f_threshold x = fd_threshold d /\ f_filter x = fd_filter d /\ f_sensor x = fd_sensor d).
  Lemma vf_none w f : w_fixtures w f = None -> g_f (graph_of w) f = None.
  Proof. cbn. now intros ->. Qed.
  Lemma sat_create_fixture w i d : W w -> w_locked w = false -> w_bodies w i <> None -> def_fine d ->
    (forall b, w_bodies w i = Some b -> (fd_density d >? #0) = true -> light (Some (fd_density d, fd_shape d) :: map (weights w) (b_fixtures b)) (b_type b)) ->
    sat p (create_fixture i d w) (fun q => let '(w', f) := q in W w' /\ made i f d w w').
  Proof.
    intros H HL Hi HD RM. unfold create_fixture. rewrite HL. cbn [negb b2_assert bind]. apply sat_bind, sat_body; auto. intros b Hb. unfold fixture_new. apply sat_bind, sat_bind.
    eapply sat_mono; [apply sat_eq, HD|]. intros n (En & Hn). cbn [sat]. cbv zeta. set (f := w_next_fixture w). set (x0 := Fixture _ _ _ _ _ _ _ _ _ _).
    pose proof (W_graph _ _ _ H) as (IB & IF & IC & IJ). pose proof IF as (F1 & F2 & F3 & F4 & F5).
    assert (Fr : w_fixtures w f = None). { specialize (F5 f (le_n _)). cbn in F5. now destruct (w_fixtures w f). }
    set (w1 := set_w_next_fixture (S f) (put_fixture f x0 w)).
    assert (X1 : w_fixtures w1 f = Some x0) by (subst w1; cbn; now rewrite put_eq).
    assert (B1 : bfits w1).
    { unfold WorldLogic.bfits. eapply fits_ext; [|apply (fits_put (w_bp w) (g_f (graph_of w)) f (Some (view_f x0)) (W_fits _ _ _ H))].
      - intros k. subst w1. cbn. unfold put. now destruct (Nat.eqb k f).
      - apply slot_none. now apply vf_none.
      - intros y Q. injection Q as <-. reflexivity. }
    assert (Sh : shape_fine p (f_shape x0) (length (f_proxies x0))). { split; [cbn; rewrite repeat_length; exact En|]. cbn. rewrite repeat_length. exact Hn. }
    apply sat_bind. apply (sat_mono _ (fun w2 => w2 = set_w_fixtures (w_fixtures w2) (set_w_bp (w_bp w2) w1) /\ (forall k, k <> f -> w_fixtures w2 k = w_fixtures w k) /\ bfits w2 /\
      exists ps, w_fixtures w2 f = Some (refit x0 ps (if is_enabled b then length ps else 0)) /\ length ps = length (f_proxies x0))).
    { destruct (is_enabled b).
      - eapply sat_mono; [apply (sat_create_proxies p oks w1 f x0 (b_xf b) X1 Sh); auto|]. intros w2 (ps & bp & -> & Q2 & Q3 & _). refine (conj eq_refl (conj _ (conj Q3 _))).
        + intros k Hk. subst w1. cbn. now rewrite !put_ne.
        + exists ps. split; auto. cbn. now rewrite put_eq.
      - cbn [sat]. refine (conj _ (conj _ (conj B1 _))); [subst w1; reflexivity| |].
        + intros k Hk. subst w1. cbn. now rewrite !put_ne.
        + exists (f_proxies x0). split; auto. }
    intros w2 (E2 & O2 & B2 & ps & X2 & L2). set (x2 := refit _ _ _) in *. assert (V2 : view_fx x2 = view_fx x2) by reflexivity.
    unfold mod_body at 1. apply sat_bind, sat_bind, sat_body; [rewrite E2; subst w1; cbn; congruence|]. intros b' Hb'. assert (b' = b) as -> by (rewrite E2 in Hb'; subst w1; cbn in Hb'; congruence). cbn [sat].
    set (b3 := set_b_fixture_count _ _). set (w3 := put_body i b3 w2).
    assert (G3 : geq (graph_of w3) (new_fixture i (view_f x2) (graph_of w))).
    { refine (conj _ (conj _ _)); [| |subst w3; rewrite E2; subst w1; cbn; repeat split].
      - intros j. subst w3. cbn. unfold put. destruct (Nat.eqb_spec j i) as [->|]; [rewrite Hb; reflexivity|]. rewrite E2. reflexivity.
      - intros k. subst w3. cbn. unfold put. destruct (Nat.eqb_spec k (w_next_fixture w)) as [->|Hk]; [fold f; now rewrite X2|]. now rewrite O2. }
    assert (N3 : nums w3).
    { destruct (W_nums _ _ _ H) as [N1 N2]. split.
      - intros j y. subst w3. cbn. unfold put. destruct (Nat.eqb_spec j i) as [->|]; [intros Q; injection Q as <-; exact (N1 i b Hb)|]. rewrite E2. subst w1. cbn. apply N1.
      - subst w3. rewrite E2. subst w1. exact N2. }
    assert (V3 : ev_ok w3) by (subst w3; rewrite E2; subst w1; exact (W_ev _ _ _ H)).
    assert (B3 : bfits w3) by exact B2.
    assert (C3 : w_contacts w3 = w_contacts w) by (subst w3; rewrite E2; reflexivity).
    assert (J3 : w_joints w3 = w_joints w) by (subst w3; rewrite E2; reflexivity).
    assert (M3 : w_log w3 = w_log w) by (subst w3; rewrite E2; reflexivity).
    assert (F3' : w_fixtures w3 = w_fixtures w2) by reflexivity.
    assert (Gi : ginv (new_fixture i (view_f x2) (graph_of w))). { apply new_fixture_inv; [apply H| |reflexivity]. cbn. rewrite Hb. easy. }
    assert (Bi : w_bodies w3 i = Some b3) by (subst w3; cbn; apply put_eq).
    clearbody w3.
    assert (W3 : W w3).
    { pose proof (geq_sym _ _ G3) as G3'. destruct (W_enabled _ _ _ H) as (A1 & A2 & A3). split; auto.
      - eapply ginv_ext; eauto.
      - apply (enabled_ext _ _ G3'). 
        assert (Kd : forall j v, g_b (new_fixture i (view_f x2) (graph_of w)) j = Some v -> exists v0, g_b (graph_of w) j = Some v0 /\ kind v = kind v0).
        { intros j v. cbn. destruct (Nat.eqb_spec j i) as [->|]; [rewrite Hb; cbn; intros Q; injection Q as <-; eexists; split; [reflexivity|reflexivity]|]. eauto. }
        assert (Cb : forall c s j, cbody (new_fixture i (view_f x2) (graph_of w)) c s = Some j -> cbody (graph_of w) c s = Some j).
        { intros c s j. unfold cbody. cbn. destruct (w_contacts w c) as [y|] eqn:Ey; [|easy]. cbn. unfold owner. cbn. unfold put. destruct (Nat.eqb_spec (if s then c_fa y else c_fb y) (w_next_fixture w)) as [Q|]; auto.
          destruct (contact_parts w c y IC Ey) as (fa & fb & a & b0 & ba & bb & Efa & Efb & _). fold f in Q. destruct s; congruence. }
        refine (conj _ (conj _ _)).
        + intros k y j v K1 K2 K3. destruct (Kd j v K3) as (v0 & K4 & K5). unfold kind in K5. injection K5 as _ K5. rewrite K5. cbn in K1. unfold put in K1. destruct (Nat.eqb_spec k (w_next_fixture w)) as [->|]; [|exact (A1 k y j v0 K1 K2 K4)].
          injection K1 as <-. cbn in K2. injection K2 as <-. cbn in K4. rewrite Hb in K4. injection K4 as <-. cbn. now rewrite map_length.
        + intros c s j v K1 K3. destruct (Kd j v K3) as (v0 & K4 & K5). unfold kind in K5. injection K5 as _ K5. rewrite K5. eapply A2; eauto.
        + intros c j j' v v' K1 K2 K3 K4. destruct (Kd j v K3) as (v0 & K5 & K6). destruct (Kd j' v' K4) as (v1 & K7 & K8). unfold kind in K6, K8. injection K6 as K6 _. injection K8 as K8 _. rewrite K6, K8. eapply A3; eauto.
      - intros k y. rewrite F3'. destruct (Nat.eq_dec k f) as [->|Hk]; [rewrite X2; intros Q; injection Q as <-|rewrite O2 by auto; apply (W_shapes _ _ _ H)]. subst x2. cbn. rewrite L2. exact Sh.
      - intros c y a a' K1 K2 K3 K4. rewrite C3 in K1. eapply (W_flags _ _ _ H); eauto.
        + rewrite <- K2. unfold cbody. cbn. rewrite C3, K1. cbn. unfold owner. cbn. rewrite F3'. rewrite O2; auto. destruct (contact_parts w c y IC K1) as (fa & fb & aa & b0 & ba & bb & Efa & Efb & _). congruence.
        + rewrite <- K3. unfold cbody. cbn. rewrite C3, K1. cbn. unfold owner. cbn. rewrite F3'. rewrite O2; auto. destruct (contact_parts w c y IC K1) as (fa & fb & aa & b0 & ba & bb & Efa & Efb & _). congruence.
        + eapply barred_frame; [|exact K4]. intros j. cbn. now rewrite J3. }
    assert (Lf : forall k, In k (b_fixtures b3) -> w_fixtures w3 k <> None).
    { intros k Hk. pose proof (W_graph _ _ _ W3) as (_ & (_ & _ & G4 & _) & _). assert (owner (graph_of w3) k = Some i) as Q. { apply G4. unfold fixtures_of. cbn. rewrite Bi. exact Hk. }
      unfold owner in Q. cbn in Q. now destruct (w_fixtures w3 k). }
    assert (Res : forall w4, calm w3 w4 -> W (set_w_new_contacts true w4) /\ made i f d w (set_w_new_contacts true w4)).
    { intros w4 K. split.
      - pose proof (calm_W _ _ W3 K) as W4. eapply (W_frame _ _ w4); eauto; try apply W4. apply geq_refl.
      - destruct K as (Q & Vb & _). refine (conj eq_refl (conj _ (conj eq_refl (conj _ (conj _ (conj _ (conj _ _))))))).
        + exists (view_f x2). refine (conj _ (conj eq_refl eq_refl)). eapply geq_trans; [|exact G3]. rewrite Q. refine (conj Vb _). repeat split.
        + intros k Hk. rewrite Q. cbn. rewrite F3'. auto.
        + rewrite Q. exact C3.
        + rewrite Q. exact J3.
        + rewrite Q. exact M3.
        + exists x2. split; [rewrite Q; cbn; rewrite F3'; exact X2|]. repeat split. }
    apply sat_bind. destruct (fd_density d >? #0) eqn:Dd.
    - eapply sat_mono; [apply (sat_reset_mass w3 i b3 Bi Lf)|].
      { replace (map (weights w3) (b_fixtures b3)) with (Some (fd_density d, fd_shape d) :: map (weights w) (b_fixtures b)); [exact (RM b Hb eq_refl)|]. subst b3. cbn [b_fixtures set_b_fixture_count set_b_fixtures map]. f_equal.
        - unfold weights. rewrite F3'. fold f. now rewrite X2.
        - apply map_ext_in. intros k Hk. unfold weights. rewrite F3', O2; auto. intros ->. assert (owner (graph_of w) f = Some i) as Q. { apply F3. unfold fixtures_of. cbn. rewrite Hb. exact Hk. } unfold owner in Q. cbn in Q. now rewrite Fr in Q. } intros w4 K. apply Res, K.
    - apply Res, calm_refl.
  Qed.

  (** ** destroy a fixture *)
  Definition on_fix w (f c : nat) : bool := match w_contacts w c with Some x => Nat.eqb f (c_fa x) || Nat.eqb f (c_fb x) | None => false end.
  Definition cut (i f : nat) w w' : Prop :=
    geq (graph_of w') (drop_fixture i f (drops (List.filter (on_fix w f) (map ge_item (contacts_of (graph_of w) i))) (graph_of w))) /\
    switches w' = switches w /\ (forall k, k <> f -> w_fixtures w' k = w_fixtures w k) /\
    (forall c, on_fix w f c = true -> w_contacts w' c = None) /\ (forall c, on_fix w f c = false -> option_map view_cf (w_contacts w' c) = option_map view_cf (w_contacts w c)).
  Lemma on_fix_owner w f c i : W w -> owner (graph_of w) f = Some i -> on_fix w f c = true -> In c (map ge_item (contacts_of (graph_of w) i)).
  Proof.
    intros H O K. unfold on_fix in K. destruct (w_contacts w c) as [x|] eqn:Ex; [|easy]. destruct (contact_parts w c x (W_contacts _ _ _ H) Ex) as (fa & fb & a & b & ba & bb & Efa & Efb & Ea & Eb & Hab & Eba & Ebb & Ia & Ib & _).
    unfold owner in O. cbn in O. apply orb_true_iff in K. rewrite !Nat.eqb_eq in K. apply in_map_iff. destruct K as [-> | ->].
    - rewrite Efa in O. cbn in O. replace i with a by congruence. exists (GEdge c true b). split; auto. unfold contacts_of. cbn. now rewrite Eba.
    - rewrite Efb in O. cbn in O. replace i with b by congruence. exists (GEdge c false a). split; auto. unfold contacts_of. cbn. now rewrite Ebb.
  Qed.
  Lemma sat_destroy_fixture w i f : W w -> w_locked w = false -> owner (graph_of w) f = Some i -> (forall b, w_bodies w i = Some b -> light (map (weights w) (without f (b_fixtures b))) (b_type b)) -> sat p (destroy_fixture E i f w) (fun w' => W w' /\ cut i f w w').
  Proof.
    intros H HL O RM. pose proof (W_graph _ _ _ H) as (IB & IF & IC & IJ). pose proof IF as (F1 & F2 & F3 & F4 & F5).
    unfold destroy_fixture. rewrite HL. cbn [negb b2_assert bind]. assert (Hin : In f (fixtures_of (graph_of w) i)) by now apply F3.
    assert (exists b, w_bodies w i = Some b) as (b & Hb). { unfold fixtures_of in Hin. cbn in Hin. destruct (w_bodies w i); [eauto|easy]. }
    unfold get_body at 1. rewrite Hb. cbn [unwrap bind]. rewrite (fixture_body_ok _ _ _ O). cbn [bind]. rewrite Nat.eqb_refl. cbn [b2_assert bind].
    assert (Hfb : In f (b_fixtures b)) by (unfold fixtures_of in Hin; cbn in Hin; rewrite Hb in Hin; exact Hin).
    assert (Cn : b_fixture_count b = length (b_fixtures b)). { apply (F2 i (view_b b)). cbn. now rewrite Hb. }
    assert (Lt : Nat.ltb 0 (b_fixture_count b) = true). { apply Nat.ltb_lt. rewrite Cn. destruct (b_fixtures b); [easy|cbn; lia]. }
    rewrite Lt. cbn [b2_assert bind]. apply sat_bind, sat_remove_id; auto. cbv zeta.
    destruct (w_fixtures w f) as [x|] eqn:Ex; [|unfold owner in O; cbn in O; now rewrite Ex in O].
    set (b1 := set_b_fixtures (without f (b_fixtures b)) b). set (w1 := put_body i b1 w).
    set (k1 := fun v => on_fixtures (without f) (v_fcount v) v).
    assert (G1 : geq (graph_of w1) (at_b i k1 (graph_of w))).
    { refine (conj _ _); [|repeat split]. intros j. subst w1. cbn. unfold put. destruct (Nat.eqb_spec j i) as [->|]; auto. now rewrite Hb. }
    assert (C1 : contacts_ok (graph_of w1)).
    { apply (contacts_ext _ _ (geq_sym _ _ G1)). refine (contacts_frame (graph_of w) (at_b i k1 (graph_of w)) _ (fun c => eq_refl) (fun c s => eq_refl) _ eq_refl eq_refl eq_refl IC); [|apply IC].
      intros j. unfold contacts_of. cbn. destruct (Nat.eqb j i); auto. now destruct (w_bodies w j). }
    assert (N1 : nums w1). { destruct (W_nums _ _ _ H) as [X1 X2]. split; [|exact X2]. intros j y. subst w1. cbn. unfold put. destruct (Nat.eqb_spec j i) as [->|]; [intros Q; injection Q as <-; exact (X1 i b Hb)|apply X1]. }
    assert (V1 : ev_ok w1) by exact (W_ev _ _ _ H).
    assert (Ec : contacts_of (graph_of w) i = b_contacts b) by (unfold contacts_of; cbn; now rewrite Hb).
    set (sel := fun d => List.filter (on_fix w f) (map ge_item d)).
    assert (ND : NoDup (map ge_item (b_contacts b))) by (rewrite <- Ec; apply contact_items; exact IC).
    assert (CL : forall e, In e (b_contacts b) -> w_contacts w (ge_item e) <> None). { intros e He. rewrite <- Ec in He. apply (contact_item_live _ _ _ IC) in He. cbn in He. now rewrite map_none in He. }
    assert (Cw : w_contacts w1 = w_contacts w) by reflexivity.
    apply sat_bind. eapply sat_mono; [apply (sat_each_done (fun d w' => gone (sel d) w1 w'))|].
    { intros d e r w' El G'. assert (Hn : ~ In (ge_item e) (sel d)). { unfold sel. rewrite filter_In. intros [K _]. rewrite El, map_app in ND. cbn in ND. apply NoDup_remove_2 in ND. apply ND. rewrite in_app_iff. tauto. }
      assert (Lc : w_contacts w (ge_item e) <> None) by (apply CL; rewrite El, in_app_iff; cbn; auto).
      assert (Lc' : w_contacts w' (ge_item e) <> None) by (eapply gone_live; eauto).
      apply sat_bind, sat_contact; auto. intros c Hc. assert (on_fix w f (ge_item e) = (Nat.eqb f (c_fa c) || Nat.eqb f (c_fb c))) as Q.
      { destruct G' as (_ & _ & _ & _ & _ & _ & K). specialize (K _ Hn). rewrite Hc, Cw in K. unfold on_fix. destruct (w_contacts w (ge_item e)) as [y|]; [|easy]. cbn in K. unfold view_cf, view_c in K. injection K as K1 _ K2 _ _. now rewrite K1, K2. }
      rewrite <- Q. unfold sel. rewrite map_app, filter_app. cbn [map List.filter]. destruct (on_fix w f (ge_item e)).
      - now apply gone_step.
      - rewrite app_nil_r. exact G'. }
    { now apply gone_refl. }
    intros w2 G2. pose proof G2 as (G2g & (O2s & O2f & O2b) & N2 & V2 & C2 & K2 & K2'). set (cs := sel (b_contacts b)) in *.
    assert (Hcs : forall c, In c cs <-> on_fix w f c = true).
    { intros c. unfold cs, sel. rewrite filter_In, <- Ec. split; [tauto|]. intros K. split; auto. eapply on_fix_owner; eauto. }
    assert (G2' : geq (graph_of w2) (at_b i k1 (drops cs (graph_of w)))).
    { eapply geq_trans; [exact G2g|]. eapply geq_trans; [apply drops_geq, G1|]. apply drops_at. reflexivity. }
    assert (Gd : ginv (drops cs (graph_of w))).
    { apply drops_inv; [apply H| |].
      - unfold cs, sel. apply NoDup_filter. exact ND.
      - intros c Hc. apply Hcs in Hc. unfold on_fix in Hc. cbn. now destruct (w_contacts w c). }
    assert (Nc : forall c v, g_c (drops cs (graph_of w)) c = Some v -> v_fa v <> f /\ v_fb v <> f).
    { intros c v. rewrite drops_c. destruct (existsb (Nat.eqb c) cs) eqn:Exc; [easy|]. cbn. intros K. assert (on_fix w f c = false) as Q.
      { destruct (on_fix w f c) eqn:Q; auto. apply Hcs in Q. apply existsb_eq in Q. congruence. }
      unfold on_fix in Q. destruct (w_contacts w c) as [y|]; [|easy]. cbn in K. injection K as <-. cbn. apply orb_false_iff in Q. rewrite !Nat.eqb_neq in Q. split; intros Z; destruct Q as [Q1 Q2]; [apply Q1|apply Q2]; now symmetry. }
    assert (Bi : exists v, g_b (drops cs (graph_of w)) i = Some v /\ kind v = kind (view_b b)).
    { pose proof (drops_b kind cs (fun f v => eq_refl) (graph_of w) i) as Q. cbn in Q. rewrite Hb in Q. destruct (g_b (drops cs (graph_of w)) i) as [v|]; [|easy]. cbn in Q. exists v. split; auto. congruence. }
    destruct Bi as (vi & Bi & Ki).
    assert (B2 : exists b2, w_bodies w2 i = Some b2 /\ view_b b2 = k1 vi).
    { destruct G2' as (Gb & _). specialize (Gb i). cbn in Gb. rewrite Nat.eqb_refl, Bi in Gb. destruct (w_bodies w2 i) as [b2|]; [|easy]. cbn in Gb. exists b2. split; auto. congruence. }
    destruct B2 as (b2 & Hb2 & Vb2). unfold get_body at 1. rewrite Hb2. cbn [unwrap bind].
    assert (En : is_enabled b2 = is_enabled b). { unfold kind in Ki. cbn in Ki. assert (v_enabled (view_b b2) = v_enabled vi) as Z by (rewrite Vb2; reflexivity). cbn in Z. congruence. }
    assert (Xf2 : w_fixtures w2 f = Some x) by (rewrite O2f; exact Ex).
    assert (B2f : bfits w2). { eapply outer_fits; [exact (conj O2s (conj O2f O2b))|]. exact (W_fits _ _ _ H). }
    apply sat_bind. apply (sat_mono _ (fun w3 => w3 = set_w_fixtures (w_fixtures w3) (set_w_bp (w_bp w3) w2) /\ (forall k, k <> f -> w_fixtures w3 k = w_fixtures w k) /\ bfits w3 /\
      exists y, w_fixtures w3 f = Some y /\ f_proxy_count y = 0%nat)).
    { rewrite En. destruct (is_enabled b) eqn:Enb.
      - eapply sat_mono; [apply (sat_destroy_proxies p oks w2 f x Xf2 B2f)|]. intros w3 (ps & bp & -> & L3 & B3). refine (conj eq_refl (conj _ (conj B3 _))).
        + intros k Hk. cbn. rewrite put_ne by auto. apply O2f.
        + eexists. split; [cbn; now rewrite put_eq|reflexivity].
      - cbn [sat]. refine (conj _ (conj _ (conj B2f _))); [now destruct w2|intros k _; apply O2f|]. exists x. split; auto. destruct (W_enabled _ _ _ H) as (A & _).
        specialize (A f (view_f x) i (view_b b)). cbn in A. rewrite Ex, Hb, Enb in A. apply A; auto. unfold owner in O. cbn in O. now rewrite Ex in O. }
    intros w3 (E3 & O3 & B3 & y & Xf3 & Y0). unfold get_body. assert (w_bodies w3 i = Some b2) as Hb3 by (rewrite E3; exact Hb2). cbn [w_bodies set_w_fixtures]. rewrite Hb3. cbn [unwrap bind].
    assert (Cn2 : b_fixture_count b2 = b_fixture_count b).
    { assert (b_fixture_count b2 = v_fcount vi) as -> by (change (b_fixture_count b2) with (v_fcount (view_b b2)); rewrite Vb2; reflexivity).
      pose proof (drops_b v_fcount cs (fun f v => eq_refl) (graph_of w) i) as Q. rewrite Bi in Q. cbn in Q. rewrite Hb in Q. cbn in Q. congruence. }
    apply sat_bind, sat_sub; [apply Nat.ltb_lt in Lt; lia|]. set (b4 := set_b_fixture_count (b_fixture_count b2 - 1) b2). set (w4 := put_body i b4 _).
    assert (G4 : geq (graph_of w4) (drop_fixture i f (drops cs (graph_of w)))).
    { pose proof G2' as (Gb & Gf & Gr). refine (conj _ (conj _ _)).
      - intros j. subst w4. cbn. unfold put. destruct (Nat.eqb_spec j i) as [->|Hj].
        + rewrite Bi. cbn. f_equal. subst b4. unfold view_b. cbn. change (is_enabled (set_b_fixture_count (b_fixture_count b2 - 1) b2)) with (is_enabled b2).
          unfold view_b in Vb2. unfold k1, on_fixtures in *. injection Vb2 as R1 R2 R3 R4 R5 R6. now rewrite R1, R2, R3, R4, R5, R6.
        + rewrite E3. cbn. specialize (Gb j). cbn in Gb. apply Nat.eqb_neq in Hj. now rewrite Hj in Gb.
      - intros k. subst w4. cbn. unfold put. destruct (Nat.eqb_spec k f) as [->|Hk]; auto. rewrite O3 by auto. now rewrite drops_f.
      - subst w4. rewrite E3. exact Gr. }
    assert (Gi : ginv (graph_of w4)).
    { apply (ginv_ext _ _ (geq_sym _ _ G4)). apply drop_fixture_inv; auto. unfold owner. rewrite drops_f. exact O. }
    assert (C4 : w_contacts w4 = w_contacts w2) by (subst w4; rewrite E3; reflexivity).
    assert (S4 : switches w4 = switches w) by (subst w4; rewrite E3; exact O2s).
    assert (F4' : forall k, k <> f -> w_fixtures w4 k = w_fixtures w k). { intros k Hk. subst w4. cbn. rewrite put_ne; auto. }
    assert (N4 : nums w4).
    { destruct N2 as [X1 X2]. split; [|rewrite C4; exact X2]. intros j z. subst w4. cbn. unfold put. destruct (Nat.eqb_spec j i) as [->|]; [intros Q; injection Q as <-; exact (X1 i b2 Hb2)|]. rewrite E3. apply X1. }
    assert (V4 : ev_ok w4) by (subst w4; rewrite E3; exact V2).
    assert (B4 : bfits w4).
    { unfold WorldLogic.bfits. eapply fits_ext; [|apply (fits_put (w_bp w3) (g_f (graph_of w3)) f None B3)].
      - intros k. subst w4. cbn. unfold put. now destruct (Nat.eqb k f).
      - eapply slot_zero; [cbn; rewrite Xf3; reflexivity|exact Y0].
      - easy. }
    assert (Bb4 : w_bodies w4 i = Some b4) by (subst w4; cbn; now rewrite put_eq). clearbody w4.
    assert (W4 : W w4).
    { pose proof G4 as (Gb & Gf & Gc & Gj & _). eapply (W_sub w); eauto.
      - intros j v K. rewrite Gb in K. cbn in K. destruct (g_b (drops cs (graph_of w)) j) as [v1|] eqn:E1; [|now destruct (Nat.eqb j i)].
        pose proof (drops_b kind cs (fun f v => eq_refl) (graph_of w) j) as Q. rewrite E1 in Q. destruct (g_b (graph_of w) j) as [v0|] eqn:E0; [|easy]. cbn in Q. exists v0. split; auto. unfold kind in Q.
        destruct (Nat.eqb j i); cbn in K; injection K as <-; cbn; split; try left; congruence.
      - intros k z K. rewrite Gf in K. cbn in K. unfold put in K. destruct (Nat.eqb k f); [easy|]. rewrite drops_f in K. exact K.
      - intros c z K. rewrite C4 in K. destruct (in_dec Nat.eq_dec c cs) as [Q|Q]; [rewrite K2 in K by auto; easy|]. specialize (K2' c Q). rewrite K, Cw in K2'. destruct (w_contacts w c) as [z0|]; [|easy]. cbn in K2'. exists z0. split; auto. congruence.
      - intros j v K. rewrite Gj in K. cbn in K. now rewrite drops_j in K. }
    assert (Lf : forall k, In k (b_fixtures b4) -> w_fixtures w4 k <> None).
    { intros k Hk. destruct Gi as (_ & (_ & _ & G5 & _) & _). assert (owner (graph_of w4) k = Some i) as Q. { apply G5. unfold fixtures_of. cbn. rewrite Bb4. exact Hk. }
      unfold owner in Q. cbn in Q. now destruct (w_fixtures w4 k). }
    assert (L4 : light (map (weights w4) (b_fixtures b4)) (b_type b4)).
    { assert (b_fixtures b4 = without f (b_fixtures b) /\ b_type b4 = b_type b) as [Q1 Q2].
      { pose proof (drops_b (fun v => (v_fixtures v, v_type v)) cs (fun f v => eq_refl) (graph_of w) i) as Q. rewrite Bi in Q. cbn in Q. rewrite Hb in Q. cbn in Q. injection Q as Q3 Q4. unfold view_b, k1, on_fixtures in Vb2. subst b4. cbn. injection Vb2. intros. split; congruence. }
      rewrite Q1, Q2. replace (map (weights w4) (without f (b_fixtures b))) with (map (weights w) (without f (b_fixtures b))); [exact (RM b Hb)|]. apply map_ext_in. intros k Hk. unfold weights. rewrite F4'; auto. intros ->. unfold without in Hk. apply filter_In in Hk. rewrite Nat.eqb_refl in Hk. now destruct Hk. }
    eapply sat_mono; [apply (sat_reset_mass w4 i b4 Bb4 Lf L4)|]. intros w5 K5. split; [now apply (calm_W w4)|]. destruct K5 as (E5 & Vb5 & _). unfold cut. rewrite Ec. change (List.filter (on_fix w f) (map ge_item (b_contacts b))) with cs.
    refine (conj _ (conj _ (conj _ (conj _ _)))).
    - eapply geq_trans; [|exact G4]. rewrite E5. refine (conj Vb5 _). repeat split.
    - rewrite E5. exact S4.
    - intros k Hk. rewrite E5. cbn. auto.
    - intros c Hc. rewrite E5. cbn. rewrite C4. apply K2. now apply Hcs.
    - intros c Hc. rewrite E5. cbn. rewrite C4. rewrite K2'; [now rewrite Cw|]. rewrite Hcs. congruence.
  Qed.
End Body.
