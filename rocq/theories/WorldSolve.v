(** The discrete solver: the islands are a partition and the world invariant is kept. *)
From Coq Require Import List ZArith Bool Arith Lia.
From Verif Require Import Base Num Math Collision Manifold Filter ShapeModel ListFacts ManifoldProofs TreeModel TreeSpec TreeHist BroadModel BroadSpec BroadProofs BroadFinal DynModel DynSpec DynProofs WorldModel WorldGraph WorldSpec WorldGops WorldLogic WorldPhys WorldContact WorldInv WorldOps WorldFix WorldBody WorldLife WorldIsland.
Import ListNotations.

(** ** what a successful call does to the event log *)
Definition okp {A} (m : res A) (Q : A -> Prop) : Prop := forall a, m = Ok a -> Q a.
Lemma okp_bind {A B} (m : res A) (f : A -> res B) Q : okp m (fun a => okp (f a) Q) -> okp (bind m f) Q.
Proof. intros H a. destruct m as [x| |]; cbn; try easy. now apply H. Qed.
Lemma okp_any {A} (m : res A) (Q : A -> Prop) : (forall a, Q a) -> okp m Q.
Proof. intros H a _. apply H. Qed.
Lemma okp_ok {A} (a : A) (Q : A -> Prop) : Q a -> okp (Ok a) Q.
Proof. intros H x E. now injection E as <-. Qed.
Lemma okp_skip {A B} (m : res A) (f : A -> res B) Q : (forall a, okp (f a) Q) -> okp (bind m f) Q.
Proof. intros H. apply okp_bind, okp_any, H. Qed.
Lemma okp_assert {B} b (f : unit -> res B) Q : okp (f tt) Q -> okp (bind (b2_assert b) f) Q.
Proof. intros H. apply okp_skip. now intros []. Qed.
Lemma okp_each {A S} (I : S -> Prop) (f : A -> S -> res S) l : (forall x s, I s -> okp (f x s) I) -> forall s, I s -> okp (each f l s) I.
Proof. intros H. induction l as [|x l IH]; intros s Is; cbn [each]; [now apply okp_ok|]. apply okp_bind. intros s' E. apply IH. exact (H x s Is s' E). Qed.
Lemma okp_for {S} (I : S -> Prop) (f : nat -> S -> res S) : (forall x s, I s -> okp (f x s) I) -> forall n lo s, I s -> okp (for_from n lo f s) I.
Proof. intros H. induction n as [|n IH]; intros lo s Is; cbn [for_from]; [now apply okp_ok|]. apply okp_bind. intros s' E. apply IH. exact (H lo s Is s' E). Qed.
Lemma okp_range {S} (I : S -> Prop) (f : nat -> S -> res S) lo hi : (forall x s, I s -> okp (f x s) I) -> forall s, I s -> okp (for_range lo hi f s) I.
Proof. intros H s Is. unfold for_range. now apply okp_for. Qed.
Lemma sat_okp {A} p (m : res A) (Q R : A -> Prop) : sat p m Q -> okp m R -> sat p m (fun a => Q a /\ R a).
Proof. intros H K. destruct m as [a| |]; cbn in *; auto. Qed.

Section Hush.
  Context {T : Type} `{NT : Num T} `{TT : NumTrig T} `{VT : NumValid T}.
  Notation world := (world T).
  Implicit Types w : world.
  Variable E : env T.
  Lemma log_synchronize f a b w : okp (synchronize f a b w) (fun w' => w_log w' = w_log w).
  Proof. unfold synchronize. apply okp_skip. intros x. destruct (Nat.eqb (f_proxy_count x) 0); [now apply okp_ok|]. apply okp_skip. intros [ps bp]. now apply okp_ok. Qed.
  Lemma log_sync_fixtures i w : okp (synchronize_fixtures i w) (fun w' => w_log w' = w_log w).
  Proof. unfold synchronize_fixtures. apply okp_skip. intros b. cbv zeta. apply (okp_each (fun w' => w_log w' = w_log w)); auto. intros x s H s' Q. apply log_synchronize in Q. congruence. Qed.
  Lemma log_mod_body i f w : okp (mod_body i f w) (fun w' => w_log w' = w_log w).
  Proof. unfold mod_body. apply okp_skip. intros b. now apply okp_ok. Qed.
  Lemma log_link c w : okp (link_contact c w) (fun w' => w_log w' = w_log w).
  Proof.
    unfold link_contact. cbv zeta. apply okp_skip. intros a. apply okp_skip. intros b. apply okp_bind. intros w1 Q1. apply log_mod_body in Q1. apply okp_bind. intros w2 Q2. apply log_mod_body in Q2. apply okp_ok. cbn in *. congruence.
  Qed.
  Lemma log_add_pair w u v : okp (add_pair E w u v) (fun w' => islands (w_log w') = islands (w_log w)).
  Proof.
    unfold add_pair. apply okp_skip. intros [fa ia]. apply okp_skip. intros [fb ib]. apply okp_skip. intros a. apply okp_skip. intros b. destruct (Nat.eqb a b); [now apply okp_ok|].
    apply okp_skip. intros bb. apply okp_skip. intros [|]; [now apply okp_ok|]. apply okp_skip. intros may. destruct (negb may); [now apply okp_ok|]. cbv zeta. destruct (negb (e_filter E w fa fb)); [now apply okp_ok|].
    apply okp_skip. intros c w' Q. apply log_link in Q. rewrite Q. reflexivity.
  Qed.
  Lemma log_find w : okp (find_new_contacts E w) (fun w' => islands (w_log w') = islands (w_log w)).
  Proof.
    unfold find_new_contacts, update_pairs. cbv zeta. apply okp_bind. apply okp_skip. intros ps. apply okp_bind. intros w1 Q1. apply okp_skip. intros t. apply okp_ok. apply okp_ok. cbn.
    revert w1 Q1. apply (okp_range (fun w' => islands (w_log w') = islands (w_log w))); auto. intros x s H. apply okp_skip. intros q. apply okp_skip. intros ua. apply okp_skip. intros ub w' Q. apply log_add_pair in Q. congruence.
  Qed.
  Lemma log_sync_moved w : okp (sync_moved w) (fun w' => w_log w' = w_log w).
  Proof.
    unfold sync_moved. apply (okp_each (fun w' => w_log w' = w_log w)); auto. intros i s H. apply okp_skip. intros b. destruct (negb (fl_island (b_flags b))); [now apply okp_ok|]. destruct (is_static b); [now apply okp_ok|]. intros w' Q. apply log_sync_fixtures in Q. congruence.
  Qed.
End Hush.

Section Solve.
  Context {T : Type} `{NT : Num T} `{TT : NumTrig T} `{VT : NumValid T}.
  Notation world := (world T).
  Implicit Types w : world.
  Variable p : Prop.
  Variable oks : vec2 T -> Prop.
  Variable E : env T.
  Hypothesis EO : env_ok p E.
  Variable w0 : world.
  Hypothesis W0 : W p oks w0.
  Notation phys := (phys p oks w0).
  Notation bok := (bok p).
  Notation cok := (cok p).

  (** ** the reads through a [phys] step *)
  Lemma moving_links w w' i : links w w' -> moving w' i = moving w i.
  Proof. intros (_ & _ & H & _). specialize (H i). unfold moving. destruct (w_bodies w' i) as [b'|], (w_bodies w i) as [b|]; cbn in H; try easy. unfold is_static. replace (b_type b') with (b_type b) by (unfold view_b in H; congruence). reflexivity. Qed.
  Lemma enabled_links w w' i : links w w' -> enabled_at w' i = enabled_at w i.
  Proof. intros (_ & _ & H & _). specialize (H i). unfold enabled_at. destruct (w_bodies w' i) as [b'|], (w_bodies w i) as [b|]; cbn in H; try easy. unfold view_b in H. congruence. Qed.
  Lemma cbody_links w w' c s : links w w' -> cbody (graph_of w') c s = cbody (graph_of w) c s.
  Proof. intros H. destruct (links_geq _ _ H) as (_ & B & Z & _). unfold cbody, owner. rewrite Z. destruct (g_c (graph_of w) c); auto. now rewrite B. Qed.
  Lemma jbody_links w w' c s : links w w' -> jbody (graph_of w') c s = jbody (graph_of w) c s.
  Proof. intros H. destruct (links_geq _ _ H) as (_ & _ & _ & Z & _). unfold jbody. now rewrite Z. Qed.
  Lemma sensor_links w w' f : links w w' -> option_map (@f_sensor T) (w_fixtures w' f) = option_map (@f_sensor T) (w_fixtures w f).
  Proof. intros (_ & _ & _ & H & _). specialize (H f). destruct (w_fixtures w' f) as [b'|], (w_fixtures w f) as [b|]; cbn in *; try easy. unfold view_fx in H. congruence. Qed.
  Lemma solid_eq w w' c : links w w' -> (forall x x', w_contacts w c = Some x -> w_contacts w' c = Some x' -> cf_enabled (c_flags x') = cf_enabled (c_flags x) /\ cf_touching (c_flags x') = cf_touching (c_flags x)) -> solid w' c = solid w c.
  Proof.
    intros L K. pose proof L as (_ & _ & _ & _ & H & _). specialize (H c). unfold solid. destruct (w_contacts w' c) as [x'|], (w_contacts w c) as [x|]; cbn in H; try easy. destruct (K x x') as [-> ->]; auto.
    unfold view_cf, view_c in H. injection H as H1 _ H2 _ _. rewrite H1, H2. f_equal. pose proof (sensor_links w w' (c_fa x) L) as A. pose proof (sensor_links w w' (c_fb x) L) as B.
    destruct (w_fixtures w' (c_fa x)), (w_fixtures w (c_fa x)), (w_fixtures w' (c_fb x)), (w_fixtures w (c_fb x)); cbn in *; try easy. congruence.
  Qed.

  (** ** one island is solved *)
  Record inner (is : island) w w' : Prop := {
    in_phys : phys w';
    in_bodies : forall i, ~ In i (is_bodies is) -> w_bodies w' i = w_bodies w i;
    in_contacts : forall c, ~ In c (is_contacts is) -> w_contacts w' c = w_contacts w c;
    in_joints : w_joints w' = w_joints w;
    in_bflag : forall i, bflag w' i = bflag w i;
    in_cflag : forall c, cflag w' c = cflag w c;
    in_log : islands (w_log w') = islands (w_log w) }.
  Lemma inner_refl is w : phys w -> inner is w w.
  Proof. intros H. now split. Qed.
  Lemma inner_body is w w1 i f : inner is w w1 -> In i (is_bodies is) -> w_bodies w0 i <> None -> (forall b, bok b -> view_b (f b) = view_b b /\ bok (f b)) -> (forall b, fl_island (b_flags (f b)) = fl_island (b_flags b)) ->
    sat p (mod_body i f w1) (inner is w).
  Proof.
    intros H Hi L Hf Hl. assert (L1 : w_bodies w1 i <> None) by (apply (links_body w0 w1 i); auto; apply (in_phys _ _ _ H)).
    unfold mod_body. apply sat_bind, sat_body; auto. intros b Hb. cbn [sat]. split.
    - pose proof (in_phys _ _ _ H) as P. assert (bok b) as Bb by (destruct P as (_ & N & _); now apply N in Hb). destruct (Hf b Bb). eapply phys_body; eauto.
    - intros k K. cbn. rewrite put_ne; [now apply (in_bodies _ _ _ H)|]. congruence.
    - apply (in_contacts _ _ _ H).
    - apply (in_joints _ _ _ H).
    - intros k. rewrite <- (in_bflag _ _ _ H). unfold bflag. cbn. unfold put. destruct (Nat.eqb_spec k i) as [->|]; auto. now rewrite Hb, Hl.
    - apply (in_cflag _ _ _ H).
    - apply (in_log _ _ _ H).
  Qed.
  Lemma inner_contact is w w1 i f : inner is w w1 -> In i (is_contacts is) -> w_contacts w0 i <> None ->
    (forall c, cok c -> view_cf (f c) = view_cf c /\ cok (f c) /\ cf_touching (c_flags (f c)) = cf_touching (c_flags c)) -> (forall b, cf_island (c_flags (f b)) = cf_island (c_flags b)) ->
    sat p (mod_contact i f w1) (inner is w).
  Proof.
    intros H Hi L Hf Hl. assert (L1 : w_contacts w1 i <> None) by (apply (links_contact w0 w1 i); auto; apply (in_phys _ _ _ H)).
    unfold mod_contact. apply sat_bind, sat_contact; auto. intros b Hb. cbn [sat]. split.
    - pose proof (in_phys _ _ _ H) as P. assert (cok b) as Bb by (destruct P as (_ & N & _); now apply N in Hb). destruct (Hf b Bb) as (? & ? & ?). eapply phys_contact; eauto.
    - apply (in_bodies _ _ _ H).
    - intros k K. cbn. rewrite put_ne; [now apply (in_contacts _ _ _ H)|]. congruence.
    - apply (in_joints _ _ _ H).
    - apply (in_bflag _ _ _ H).
    - intros k. rewrite <- (in_cflag _ _ _ H). unfold cflag. cbn. unfold put. destruct (Nat.eqb_spec k i) as [->|]; auto. now rewrite Hb, Hl.
    - apply (in_log _ _ _ H).
  Qed.
  Lemma inner_post is w w1 i : inner is w w1 -> In i (is_contacts is) -> w_contacts w0 i <> None -> sat p (listen E (EvPost i) i w1) (inner is w).
  Proof.
    intros H Hi L. assert (L1 : w_contacts w1 i <> None) by (apply (links_contact w0 w1 i); auto; apply (in_phys _ _ _ H)).
    unfold listen. apply sat_bind, sat_contact; auto. intros b Hb. cbn [sat]. set (e := e_listen E w1 (EvPost i) b).
    assert (Me : mok p (ce_manifold e)). { apply EO. destruct (in_phys _ _ _ H) as (_ & [_ N] & _). apply (N i b Hb). } split.
    - pose proof (in_phys _ _ _ H) as P. assert (cok b) as Bb by (destruct P as (_ & N & _); now apply N in Hb). destruct (edit_ok p e b Me Bb) as (? & ? & ?). apply phys_log; [|exact I]. eapply phys_contact; eauto.
    - apply (in_bodies _ _ _ H).
    - intros k K. cbn. rewrite put_ne; [now apply (in_contacts _ _ _ H)|]. congruence.
    - apply (in_joints _ _ _ H).
    - apply (in_bflag _ _ _ H).
    - intros k. rewrite <- (in_cflag _ _ _ H). unfold cflag. cbn. unfold put. destruct (Nat.eqb_spec k i) as [->|]; auto. now rewrite Hb.
    - apply (in_log _ _ _ H).
  Qed.
  Lemma solve_island_ok is dt w : phys w -> (forall i, In i (is_bodies is) -> w_bodies w0 i <> None) -> (forall i, In i (is_contacts is) -> w_contacts w0 i <> None) ->
    sat p (solve_island E is dt w) (fun w' => inner is (log (EvIsland (is_bodies is) (is_contacts is) (is_joints is)) w) w').
  Proof.
    intros P Lb Lc. unfold solve_island. apply sat_bind.
    assert (Iw : in_world p w is). { refine (conj (conj (contacts_now w0 (W_contacts _ _ _ W0) w (proj1 P)) (proj1 (proj2 P))) (conj _ _)); intros i Hi; [apply (links_body _ _ _ (proj1 P))|apply (links_contact _ _ _ (proj1 P))]; auto. }
    eapply sat_mono; [apply EO, Iw|]. intros s Hs. cbv beta zeta in *. set (w1 := log _ w).
    assert (I1 : inner is w1 w1) by (apply inner_refl, phys_log; auto; exact I). clearbody w1.
    apply sat_bind. eapply sat_mono; [apply sat_each with (I := inner is w1)|].
    { intros c v Hc Hv. apply inner_contact; auto. intros x [M C]. repeat split; auto. unfold mok. destruct (Hs c) as [Hp|Hl]; [auto|]. destruct M as [Hp|[_ M]]; auto. }
    { exact I1. }
    intros w2 I2. cbv beta in I2. apply sat_bind. eapply sat_mono; [apply sat_each with (I := inner is w1)|].
    { intros c v Hc Hv. apply inner_body; auto. }
    { exact I2. }
    intros w3 I3. cbv beta in I3. apply sat_bind. eapply sat_mono with (Q := inner is w1).
    { unfold report. destruct (w_listener w3); [|exact I3]. apply sat_each with (I := inner is w1); auto. intros c v Hc Hv. apply inner_post; auto. }
    intros w4 I4. destruct (w_allow_sleep w4); [|exact I4]. apply sat_bind. eapply sat_mono; [apply sat_each with (I := inner is w1)|].
    { intros c v Hc Hv. apply inner_body; auto; intros b; destruct (is_static b); auto. }
    { exact I4. }
    intros w5 I5. cbv beta in I5. destruct (so_sleep s); [|exact I5]. apply sat_each with (I := inner is w1); auto. intros c v Hc Hv. apply inner_body; auto.
    - intros b Bb. split; [apply view_awake|now apply bok_awake].
    - intros b. unfold set_awake. destruct (is_static b); auto; now destruct b as [? []].
  Qed.

  (** ** all seeds *)
  Record seeds (ini : world) (iss : list island) (d : list nat) w : Prop := {
    se_phys : phys w;
    se_log : islands (w_log w) = rev iss ++ islands (w_log ini);
    se_flag : forall i, bflag w i = true <-> moving w0 i = true /\ exists is, In is iss /\ In i (is_bodies is);
    se_cflag : forall c, cflag w c = true <-> exists is, In is iss /\ In c (is_contacts is);
    se_jflag : forall j, jflag w j = true <-> exists is, In is iss /\ In j (is_joints is);
    se_spec : forall is, In is iss -> exists seed, island_from w0 seed is;
    se_apart : ForallOrdPairs (apart w0) iss;
    se_solid : forall c, cflag w c = false -> solid w c = solid w0 c;
    se_awake : forall i, moving w0 i = true -> bflag w i = false -> awake_at w i = awake_at w0 i;
    se_done : forall i, In i d -> moving w0 i = true -> enabled_at w0 i = true -> awake_at w0 i = true -> bflag w i = true }.
  Lemma apart_snoc (l : list island) x : ForallOrdPairs (apart w0) l -> (forall y, In y l -> apart w0 y x) -> ForallOrdPairs (apart w0) (l ++ [x]).
  Proof.
    induction 1 as [|a l F H IH]; intros K; cbn; [repeat constructor|]. constructor.
    - apply Forall_app. split; auto. constructor; [|constructor]. apply K. now left.
    - apply IH. intros y Hy. apply K. now right.
  Qed.
  Lemma D_phys X w1 seed w is st : phys w1 -> D w1 X seed w is st -> phys w.
  Proof.
    intros (L & (N1 & N2) & V & F) H. assert (Sl : forall c, option_map view_cf (w_contacts w c) = option_map view_cf (w_contacts w1 c)).
    { intros c. pose proof (D_contacts _ _ _ _ _ _ H c) as Q. destruct (w_contacts w c) as [x|] eqn:Ex, (w_contacts w1 c) as [y|] eqn:Ey; cbn [option_map] in *; try easy. f_equal. apply cstrip_view. congruence. }
    assert (Sb : forall c, option_map view_b (w_bodies w c) = option_map view_b (w_bodies w1 c)).
    { intros c. pose proof (D_bodies _ _ _ _ _ _ H c) as Q. destruct (w_bodies w c) as [x|] eqn:Ex, (w_bodies w1 c) as [y|] eqn:Ey; cbn [option_map] in *; try easy. f_equal. apply bstrip_view. congruence. }
    assert (Sj : forall c, option_map view_j (w_joints w c) = option_map view_j (w_joints w1 c)).
    { intros c. pose proof (D_joints _ _ _ _ _ _ H c) as Q. destruct (w_joints w c) as [x|] eqn:Ex, (w_joints w1 c) as [y|] eqn:Ey; cbn [option_map] in *; try easy. f_equal. assert (jstrip x = jstrip y) as Z by congruence. destruct x, y. unfold jstrip in Z. cbn in Z. unfold view_j. cbn. now inversion Z. }
    assert (Fr : forall {A} (f : world -> A), (forall a b c v, f (set_w_joints a (set_w_contacts b (set_w_bodies c v))) = f v) -> f w = f w1).
    { intros A f Hf. rewrite (D_frame _ _ _ _ _ _ H). apply Hf. }
    assert (Ft : w_fixtures w = w_fixtures w1) by (apply (Fr _ (@w_fixtures T)); reflexivity). assert (Bp : w_bp w = w_bp w1) by (apply (Fr _ (@w_bp T)); reflexivity).
    assert (Lg : w_log w = w_log w1) by (apply (Fr _ (@w_log T)); reflexivity). assert (Ls : w_listener w = w_listener w1) by (apply (Fr _ (@w_listener T)); reflexivity).
    split; [|split; [|split]].
    - apply (links_trans _ w1); auto. refine (conj _ (conj _ (conj Sb (conj _ (conj Sl Sj))))); [apply Fr; reflexivity|apply Fr; reflexivity|]. intros i. now rewrite Ft.
    - split.
      + intros i b Hb. destruct (D_view _ _ _ _ _ _ _ _ H Hb) as (b1 & K & _ & Sw & _). unfold WorldLogic.bok. rewrite Sw. exact (N1 i b1 K).
      + intros i c Hc. destruct (D_contact _ _ _ _ _ _ _ _ H Hc) as (x1 & K & St). destruct (cstrip_view _ _ St) as (_ & _ & _ & _ & _ & Mf & Tc). unfold WorldLogic.cok. rewrite Mf, Tc. exact (N2 i x1 K).
    - unfold ev_ok in *. rewrite Ls, Lg. intros Hl c. specialize (V Hl c). replace (touches w c) with (touches w1 c); auto. unfold touches.
      pose proof (D_contacts _ _ _ _ _ _ H c) as Q. destruct (w_contacts w c) as [x|], (w_contacts w1 c) as [y|]; cbn [option_map] in *; try easy. assert (cstrip x = cstrip y) as Z by congruence. symmetry. apply (cstrip_view _ _ Z).
    - unfold bfits in *. rewrite Bp. eapply fits_ext; [|exact F]. intros f. cbn. now rewrite Ft.
  Qed.
  (* a contact of an earlier island has both its bodies in it *)
  Lemma island_ends seed is c s k : island_from w0 seed is -> In c (is_contacts is) -> cbody (graph_of w0) c s = Some k -> In k (is_bodies is).
  Proof.
    intros H Hc Hk. apply (if_contacts _ _ _ H) in Hc. destruct Hc as (So & s' & i & Hi & Mi & Ii). destruct (Bool.bool_dec s s') as [->|Ne]; [congruence|]. replace s with (negb s') in Hk by (now destruct s, s').
    apply (if_bodies _ _ _ H). apply (conn_step w0 seed i); auto; [now apply (if_bodies _ _ _ H)|]. left. exists c, s'. auto.
  Qed.
  Lemma island_jends seed is c s k : island_from w0 seed is -> In c (is_joints is) -> jbody (graph_of w0) c s = Some k -> In k (is_bodies is).
  Proof.
    intros H Hc Hk. apply (if_joints _ _ _ H) in Hc. destruct Hc as (s' & i & o & Hi & Mi & Ii & Ho & Eo). destruct (Bool.bool_dec s s') as [->|Ne]; [congruence|]. replace s with (negb s') in Hk by (now destruct s, s').
    assert (k = o) as -> by congruence. apply (if_bodies _ _ _ H). apply (conn_step w0 seed i); auto; [now apply (if_bodies _ _ _ H)|]. right. exists c, s'. auto.
  Qed.
  Lemma seed_ok ini iss d w1 seed dt : seeds ini iss d w1 -> w_bodies w0 seed <> None ->
    sat p (solve_seed E (w_body_count w0) dt seed w1) (fun w' => exists iss', seeds ini iss' (d ++ [seed]) w').
  Proof.
    intros H Ls. pose proof (se_phys _ _ _ _ H) as P1. pose proof P1 as (L1 & _). pose proof (W_phys _ _ _ _ W0 P1) as W1.
    unfold solve_seed. apply sat_bind, sat_body; [now apply (links_body _ _ _ L1)|]. intros b Hb.
    assert (Mb : moving w0 seed = negb (is_static b)) by (rewrite <- (moving_links _ _ _ L1); unfold moving; now rewrite Hb).
    assert (Eb : enabled_at w0 seed = is_enabled b) by (rewrite <- (enabled_links _ _ _ L1); unfold enabled_at; now rewrite Hb).
    assert (Fb : bflag w1 seed = fl_island (b_flags b)) by (unfold bflag; now rewrite Hb).
    assert (Ab : awake_at w1 seed = is_awake b) by (unfold awake_at; now rewrite Hb).
    assert (Skip : (moving w0 seed = true -> enabled_at w0 seed = true -> awake_at w0 seed = true -> bflag w1 seed = true) -> exists iss', seeds ini iss' (d ++ [seed]) w1).
    { intros K. exists iss. destruct H. split; auto. intros i Hi. apply in_app_iff in Hi. destruct Hi as [Hi|[<-|[]]]; auto. }
    destruct (fl_island (b_flags b)) eqn:Ef; [cbn [sat]; apply Skip; auto|].
    assert (Mw : moving w0 seed = true -> awake_at w0 seed = is_awake b) by (intros K; rewrite <- Ab; symmetry; now apply (se_awake _ _ _ _ H)).
    destruct (is_awake b) eqn:Eaw; cbn [negb orb]; [|cbn [sat]; apply Skip; intros K1 _ K2; rewrite Mw in K2; easy].
    destruct (is_enabled b) eqn:Een; cbn [negb orb]; [|cbn [sat]; apply Skip; congruence].
    destruct (is_static b) eqn:Est; cbn [negb] in Mb; [cbn [sat]; apply Skip; congruence|]. specialize (Mw Mb).
    (* the search *)
    apply sat_bind. pose proof (D_start w1 seed b Hb Ef Een) as D1. eapply sat_mono; [eapply (dfs_ok p w1 (W_graph _ _ _ W1) (W_enabled _ _ _ W1) seed); [exact D1|cbn; lia]|].
    intros [[w2 is] st] [D2 ->]. cbv beta iota in D2 |- *.
    assert (Cnt : w_body_count w1 = w_body_count w0) by (destruct L1 as (Q & _); unfold tables in Q; congruence).
    apply sat_bind, sat_assert. { right. apply Nat.leb_le. pose proof (D_size w1 (W_graph _ _ _ W1) _ _ _ _ _ D2) as Q. cbn in Q. lia. } intros _.
    assert (P2 : phys w2) by (eapply D_phys; eauto). pose proof P2 as (L2 & _).
    assert (Lb : forall i, In i (is_bodies is) -> w_bodies w0 i <> None).
    { intros i Hi. destruct (D_in _ _ _ _ _ _ D2 i) as (_ & En & _); [apply in_app_iff; auto|]. rewrite (enabled_links _ _ _ L1) in En. unfold enabled_at in En. now destruct (w_bodies w0 i). }
    assert (Lc : forall c, In c (is_contacts is) -> w_contacts w0 c <> None).
    { intros c Hc. destruct (D_cin _ _ _ _ _ _ D2 c Hc) as (_ & So & _). apply (links_contact w0 w1 c); auto. unfold solid in So. now destruct (w_contacts w1 c). }
    (* the island in terms of the first world *)
    assert (So1 : forall c, solid w1 c = true -> cflag w1 c = false -> solid w0 c = true) by (intros c A B; now rewrite <- (se_solid _ _ _ _ H c B)).
    assert (So2 : forall c, solid w1 c = true -> solid w0 c = true).
    { intros c A. destruct (cflag w1 c) eqn:B; auto. apply (se_cflag _ _ _ _ H) in B. destruct B as (is0 & I0 & I0'). destruct (se_spec _ _ _ _ H is0 I0) as (s0 & F0). now apply (if_contacts _ _ _ F0) in I0'. }
    assert (In1 : forall i, In i (is_bodies is) -> bflag w1 i = false /\ enabled_at w0 i = true /\ conn w1 seed i).
    { intros i Hi. destruct (D_in _ _ _ _ _ _ D2 i) as (A & B & Z); [apply in_app_iff; auto|]. rewrite (enabled_links _ _ _ L1) in B. auto. }
    assert (Out : forall i is0, moving w0 i = true -> In is0 iss -> In i (is_bodies is0) -> bflag w1 i = true) by (intros i is0 A B Z; apply (se_flag _ _ _ _ H); eauto).
    assert (Cn1 : forall i, conn w1 seed i -> conn w0 seed i).
    { induction 1 as [|i o _ IH Mi Lk]; [constructor|]. rewrite (moving_links _ _ _ L1) in Mi. apply (conn_step w0 seed i); auto. destruct Lk as [(c & s & A & B & Z)|(j & s & A & B & Z)].
      - left. exists c, s. rewrite !(cbody_links _ _ _ _ L1) in *. auto.
      - right. exists j, s. rewrite !(jbody_links _ _ _ _ L1), (enabled_links _ _ _ L1) in *. auto. }
    (* solid contacts and joints of a moving member are in the island *)
    assert (Cin : forall i c s, In i (is_bodies is) -> moving w0 i = true -> cbody (graph_of w0) c s = Some i -> solid w0 c = true -> In c (is_contacts is)).
    { intros i c s Ii Mi Ci Sc. destruct (In1 i Ii) as (F1 & _ & _). assert (cflag w1 c = false) as Fc.
      { destruct (cflag w1 c) eqn:Q; auto. apply (se_cflag _ _ _ _ H) in Q. destruct Q as (is0 & I0 & I0'). destruct (se_spec _ _ _ _ H is0 I0) as (s0 & F0). pose proof (island_ends _ _ _ _ _ F0 I0' Ci) as K. pose proof (Out i is0 Mi I0 K). congruence. }
      pose proof (D_cclosed _ _ _ _ _ _ D2 i c s Ii (fun x => x)) as K. rewrite (moving_links _ _ _ L1), (cbody_links _ _ _ _ L1), (se_solid _ _ _ _ H c Fc) in K. specialize (K Mi Ci Sc). apply (D_cflag _ _ _ _ _ _ D2) in K. destruct K; congruence. }
    assert (Jin : forall i j s o, In i (is_bodies is) -> moving w0 i = true -> jbody (graph_of w0) j s = Some i -> jbody (graph_of w0) j (negb s) = Some o -> enabled_at w0 o = true -> In j (is_joints is)).
    { intros i c s o Ii Mi Ci Co Eo. destruct (In1 i Ii) as (F1 & _ & _). assert (jflag w1 c = false) as Fc.
      { destruct (jflag w1 c) eqn:Q; auto. apply (se_jflag _ _ _ _ H) in Q. destruct Q as (is0 & I0 & I0'). destruct (se_spec _ _ _ _ H is0 I0) as (s0 & F0). pose proof (island_jends _ _ _ _ _ F0 I0' Ci) as K. pose proof (Out i is0 Mi I0 K). congruence. }
      pose proof (D_jclosed _ _ _ _ _ _ D2 i c s o Ii (fun x => x)) as K. rewrite (moving_links _ _ _ L1), !(jbody_links _ _ _ _ L1), (enabled_links _ _ _ L1) in K. specialize (K Mi Ci Co Eo). apply (D_jflag _ _ _ _ _ _ D2) in K. destruct K; congruence. }
    assert (Bex : forall k, bflag w2 k = true -> (forall is0, In is0 iss -> moving w0 k = true -> In k (is_bodies is0) -> False) -> In k (is_bodies is)).
    { intros k K1 K2. apply (D_flag _ _ _ _ _ _ D2) in K1. rewrite app_nil_r in K1. destruct K1 as [K1|K1]; auto. apply (se_flag _ _ _ _ H) in K1. destruct K1 as (M & is0 & I0 & I0'). exfalso. eauto. }
    assert (Is : island_from w0 seed is).
    { split.
      - refine (conj Mb (conj _ _)); [congruence|]. congruence.
      - refine (conj _ (conj (D_cnodup _ _ _ _ _ _ D2) (D_jnodup _ _ _ _ _ _ D2))). pose proof (D_nodup _ _ _ _ _ _ D2) as Q. now rewrite app_nil_r in Q.
      - intros i. split; [intros Hi; apply Cn1; now apply In1|]. induction 1 as [|i o _ IH Mi Lk]; [pose proof (D_seed _ _ _ _ _ _ D2) as Q; now rewrite app_nil_r in Q|].
        destruct (In1 i IH) as (F1 & Ei & _). destruct Lk as [(c & s & A & B & Z)|(j & s & A & B & Z)].
        + pose proof (Cin i c s IH Mi B A) as K. destruct (D_cin _ _ _ _ _ _ D2 c K) as (_ & _ & Q). apply Bex; [apply (Q (negb s)); now rewrite (cbody_links _ _ _ _ L1)|].
          intros is0 I0 Mo Io. destruct (se_spec _ _ _ _ H is0 I0) as (s0 & F0). assert (In i (is_bodies is0)) as K0; [|pose proof (Out i is0 Mi I0 K0); congruence].
          apply (if_bodies _ _ _ F0). apply (conn_step w0 s0 o); auto; [now apply (if_bodies _ _ _ F0)|]. left. exists c, (negb s). rewrite negb_involutive. auto.
        + pose proof (Jin i j s o IH Mi A B Z) as K. destruct (D_jin _ _ _ _ _ _ D2 j K) as (_ & _ & Q). apply Bex; [apply (Q (negb s)); now rewrite (jbody_links _ _ _ _ L1)|].
          intros is0 I0 Mo Io. destruct (se_spec _ _ _ _ H is0 I0) as (s0 & F0). assert (In i (is_bodies is0)) as K0; [|pose proof (Out i is0 Mi I0 K0); congruence].
          apply (if_bodies _ _ _ F0). apply (conn_step w0 s0 o); auto; [now apply (if_bodies _ _ _ F0)|]. right. exists j, (negb s). rewrite negb_involutive. auto.
      - intros i Hi. now apply In1.
      - intros c. split.
        + intros Hc. destruct (D_cin _ _ _ _ _ _ D2 c Hc) as (_ & So & _). split; auto. destruct (D_cend _ _ _ _ _ _ D2 c Hc) as (s & i & A & B & Z). exists s, i. rewrite (cbody_links _ _ _ _ L1) in A. rewrite (moving_links _ _ _ L1) in B. auto.
        + intros (So & s & i & A & B & Z). eauto.
      - intros j. split.
        + intros Hj. destruct (D_jin _ _ _ _ _ _ D2 j Hj) as (_ & Lj & So). destruct (D_jend _ _ _ _ _ _ D2 j Hj) as (s & i & A & B & Z). rewrite (jbody_links _ _ _ _ L1) in A. rewrite (moving_links _ _ _ L1) in B.
          assert (exists o, jbody (graph_of w0) j (negb s) = Some o) as (o & Ho). { unfold jbody in A |- *. destruct (g_j (graph_of w0) j); [|easy]. destruct s; cbn; eauto. }
          exists s, i, o. refine (conj A (conj B (conj Z (conj Ho _)))). rewrite <- (enabled_links _ _ _ L1). apply (So (negb s)). now rewrite (jbody_links _ _ _ _ L1).
        + intros (s & i & o & A & B & Z & K1 & K2). eauto. }
    apply sat_bind. eapply sat_mono; [apply solve_island_ok; eauto|]. intros w3 I3. cbv beta in I3.
    (* static members are released *)
    pose proof (in_phys _ _ _ I3) as P3.
    set (rel := fun dn w => phys w /\ (forall i, option_map (mod_flags (T:=T) (set_fl_island false)) (w_bodies w i) = option_map (mod_flags (set_fl_island false)) (w_bodies w3 i)) /\
      w_contacts w = w_contacts w3 /\ w_joints w = w_joints w3 /\ w_log w = w_log w3 /\ forall i, bflag w i = bflag w3 i && (moving w0 i || negb (existsb (Nat.eqb i) dn))).
    apply (sat_mono _ (rel (is_bodies is))).
    { apply (sat_each_done rel).
      - intros dn i r w El (Pw & Bw & Cw & Jw & Lw & Fw). assert (Li : w_bodies w0 i <> None) by (apply Lb; rewrite El; apply in_app_iff; cbn; auto). pose proof Pw as (Lkw & _).
        unfold mod_body. apply sat_bind, sat_body; [now apply (links_body _ _ _ Lkw)|]. intros x Hx. cbn [sat].
        assert (Mx : moving w0 i = negb (is_static x)) by (rewrite <- (moving_links _ _ _ Lkw); unfold moving; now rewrite Hx).
        assert (Xb : bok x) by (destruct Pw as (_ & N & _); now apply N in Hx).
        refine (conj _ (conj _ (conj Cw (conj Jw (conj Lw _))))).
        + eapply phys_body; eauto; destruct (is_static x); auto; now destruct x as [? []].
        + intros k. cbn. unfold put. destruct (Nat.eqb_spec k i) as [->|]; auto. rewrite <- Bw, Hx. cbn. destruct (is_static x); auto; now destruct x as [? []].
        + intros k. rewrite existsb_app. cbn [existsb]. rewrite orb_false_r. destruct (Nat.eqb_spec k i) as [->|Hk].
          * rewrite Mx. unfold bflag at 1. cbn. rewrite put_eq. rewrite orb_true_r. cbn. rewrite orb_false_r. destruct (is_static x) eqn:Q; cbn; [rewrite andb_false_r; now destruct x as [? []]|]. pose proof (Fw i) as Z. rewrite Mx in Z. cbn in Z. unfold bflag in Z at 1. now rewrite Hx in Z.
          * rewrite orb_false_r, <- Fw. unfold bflag. cbn. now rewrite put_ne.
      - refine (conj P3 (conj (fun _ => eq_refl) (conj eq_refl (conj eq_refl (conj eq_refl _))))). intros i. cbn. now rewrite orb_true_r, andb_true_r. }
    intros w4 (P4 & B4 & C4 & J4 & Lg4 & F4). pose proof P4 as (L4 & _).
    assert (F2 : forall i, bflag w3 i = bflag w2 i) by (intros i; exact (in_bflag _ _ _ I3 i)).
    assert (CF : forall c, cflag w4 c = cflag w2 c) by (intros c; unfold cflag at 1; rewrite C4; exact (in_cflag _ _ _ I3 c)).
    assert (JF : forall c, jflag w4 c = jflag w2 c) by (intros c; unfold jflag at 1; rewrite J4, (in_joints _ _ _ I3); reflexivity).
    assert (F4' : forall i, bflag w4 i = true <-> moving w0 i = true /\ (bflag w1 i = true \/ In i (is_bodies is))).
    { intros i. rewrite F4, F2, andb_true_iff, orb_true_iff, negb_true_iff, (D_flag _ _ _ _ _ _ D2), app_nil_r. split.
      - intros [[A|A] B]; [split; [now apply (se_flag _ _ _ _ H) in A|auto]|]. destruct B as [B|B]; auto. exfalso. assert (existsb (Nat.eqb i) (is_bodies is) = true) by (now apply existsb_eq). congruence.
      - tauto. }
    exists (iss ++ [is]). split.
    - exact P4.
    - rewrite Lg4, (in_log _ _ _ I3). cbn [log w_log set_w_log islands flat_map app]. rewrite rev_app_distr. cbn. f_equal; [now destruct is|]. rewrite <- (se_log _ _ _ _ H). f_equal. rewrite (D_frame _ _ _ _ _ _ D2). reflexivity.
    - intros i. rewrite F4', (se_flag _ _ _ _ H). split.
      + intros [M [[_ (is0 & A & B)]|A]]; split; auto; [exists is0|exists is]; rewrite in_app_iff; cbn; auto.
      + intros (M & is0 & A & B). split; auto. apply in_app_iff in A. destruct A as [A|[<-|[]]]; eauto.
    - intros c. rewrite CF, (D_cflag _ _ _ _ _ _ D2), (se_cflag _ _ _ _ H). split.
      + intros [(is0 & A & B)|A]; [exists is0|exists is]; rewrite in_app_iff; cbn; auto.
      + intros (is0 & A & B). apply in_app_iff in A. destruct A as [A|[<-|[]]]; eauto.
    - intros c. rewrite JF, (D_jflag _ _ _ _ _ _ D2), (se_jflag _ _ _ _ H). split.
      + intros [(is0 & A & B)|A]; [exists is0|exists is]; rewrite in_app_iff; cbn; auto.
      + intros (is0 & A & B). apply in_app_iff in A. destruct A as [A|[<-|[]]]; eauto.
    - intros is0 A. apply in_app_iff in A. destruct A as [A|[<-|[]]]; [now apply (se_spec _ _ _ _ H)|eauto].
    - apply apart_snoc; [apply (se_apart _ _ _ _ H)|]. intros y Hy. split; [|split].
      + intros i M A B. destruct (In1 i B) as (K & _). rewrite (Out i y M Hy A) in K. discriminate.
      + intros c A B. destruct (D_cin _ _ _ _ _ _ D2 c B) as (K & _). assert (cflag w1 c = true) by (apply (se_cflag _ _ _ _ H); eauto). congruence.
      + intros c A B. destruct (D_jin _ _ _ _ _ _ D2 c B) as (K & _). assert (jflag w1 c = true) by (apply (se_jflag _ _ _ _ H); eauto). congruence.
    - intros c Hc. rewrite CF in Hc. assert (Nc : ~ In c (is_contacts is)). { intros K. assert (cflag w2 c = true) by (apply (D_cflag _ _ _ _ _ _ D2); auto). congruence. }
      assert (Nc1 : cflag w1 c = false). { destruct (cflag w1 c) eqn:Q; auto. assert (cflag w2 c = true) by (apply (D_cflag _ _ _ _ _ _ D2); auto). congruence. }
      rewrite <- (se_solid _ _ _ _ H c Nc1). transitivity (solid w2 c).
      + assert (L24 : links w2 w4). { apply (links_trans _ w0); auto. destruct L2 as (A1 & A2 & A3 & A4 & A5 & A6). refine (conj (eq_sym A1) (conj (eq_sym A2) (conj (fun i => eq_sym (A3 i)) (conj (fun i => eq_sym (A4 i)) (conj (fun i => eq_sym (A5 i)) (fun i => eq_sym (A6 i))))))). }
        apply solid_eq; auto. intros x x' Q1 Q2. rewrite C4, (in_contacts _ _ _ I3 c Nc) in Q2. cbn in Q2. rewrite Q1 in Q2. injection Q2 as ->. auto.
      + unfold solid. rewrite (D_fixtures _ _ _ _ _ _ D2). pose proof (D_contacts _ _ _ _ _ _ D2 c) as Q. destruct (w_contacts w2 c) as [x|], (w_contacts w1 c) as [y|]; cbn [option_map] in Q; try easy. assert (cstrip x = cstrip y) as St by congruence. destruct (cstrip_view _ _ St) as (_ & -> & -> & -> & -> & _). reflexivity.
    - intros i M Fi. assert (Ni : ~ In i (is_bodies is)). { intros K. assert (bflag w4 i = true) by (apply F4'; auto). congruence. }
      assert (Ni1 : bflag w1 i = false). { destruct (bflag w1 i) eqn:Q; auto. assert (bflag w4 i = true) by (apply F4'; auto). congruence. }
      rewrite <- (se_awake _ _ _ _ H i M Ni1), <- (D_awake _ _ _ _ _ _ D2 i Ni). unfold awake_at. specialize (B4 i). rewrite (in_bodies _ _ _ I3 i Ni) in B4. cbn [log w_bodies set_w_log] in B4.
      destruct (w_bodies w4 i) as [x|], (w_bodies w2 i) as [y|]; cbn [option_map] in B4; try easy. assert (mod_flags (set_fl_island false) x = mod_flags (set_fl_island false) y) as Q by congruence. destruct x as [? []], y as [? []]. unfold mod_flags in Q. cbn in Q. unfold is_awake. cbn. now inversion Q.
    - intros i Hi M En Aw. apply F4'. split; auto. apply in_app_iff in Hi. destruct Hi as [Hi|[<-|[]]]; [left; now apply (se_done _ _ _ _ H)|]. right. apply (if_bodies _ _ _ Is). constructor.
  Qed.

  (* the flags are cleared *)
  Definition cleared (db dc dj : list nat) w : Prop :=
    phys w /\ w_log w = w_log w0 /\
    (forall i, option_map (mod_flags (T:=T) (set_fl_island false)) (w_bodies w i) = option_map (mod_flags (set_fl_island false)) (w_bodies w0 i)) /\
    (forall c, option_map (cstrip (T:=T)) (w_contacts w c) = option_map cstrip (w_contacts w0 c)) /\
    (forall i, In i db -> bflag w i = false) /\ (forall c, In c dc -> cflag w c = false) /\ (forall j, In j dj -> jflag w j = false).
  Lemma sat_clear : sat p (clear_island_flags w0) (cleared (w_body_list w0) (w_contact_list w0) (w_joint_list w0)).
  Proof.
    destruct (W_graph _ _ _ W0) as ((Tb & Ib & _) & IF & ((Tc & Ic & _) & _) & ((Tj & Ij & _) & _)). cbn in Ib, Ic, Ij.
    assert (lists : forall w, cleared (w_body_list w0) [] [] w -> w_contact_list w = w_contact_list w0 /\ w_joint_list w = w_joint_list w0).
    { intros w (((Q & _) & _) & _). unfold tables in Q. split; congruence. }
    unfold clear_island_flags. apply sat_bind. apply (sat_mono _ (cleared (w_body_list w0) [] [])).
    { apply (sat_each_done (fun d => cleared d [] [])); [|refine (conj (phys_self _ _ _ W0) (conj eq_refl (conj (fun _ => eq_refl) (conj (fun _ => eq_refl) _)))); easy].
      intros d i r w El (P & Lg & B & C & Fb & Fc & Fj). pose proof P as (L & N & _). assert (Li : w_bodies w0 i <> None). { assert (In i (w_body_list w0)) as K by (rewrite El; apply in_app_iff; cbn; auto). apply Ib in K. cbn in K. now destruct (w_bodies w0 i). }
      unfold mod_body. apply sat_bind, sat_body; [now apply (links_body _ _ _ L)|]. intros x Hx. cbn [sat]. assert (Xb : bok x) by (now apply N in Hx). refine (conj _ (conj Lg (conj _ (conj C (conj _ (conj Fc Fj)))))).
      - eapply phys_body; eauto.
      - intros k. rewrite <- B. cbn. unfold put. destruct (Nat.eqb_spec k i) as [->|]; auto. rewrite Hx. now destruct x as [? []].
      - intros k Hk. unfold bflag. cbn. unfold put. destruct (Nat.eqb_spec k i) as [->|Ne]; [now destruct x as [? []]|]. apply in_app_iff in Hk. destruct Hk as [Hk|[Hk|[]]]; [now apply Fb|congruence]. }
    intros w1 C1. destruct (lists _ C1) as [-> El2]. apply sat_bind. apply (sat_mono _ (fun w => cleared (w_body_list w0) (w_contact_list w0) [] w /\ w_joint_list w = w_joint_list w0)).
    { apply (sat_each_done (fun d w => cleared (w_body_list w0) d [] w /\ w_joint_list w = w_joint_list w0)); [|auto].
      intros d i r w El ((P & Lg & B & C & Fb & Fc & Fj) & Ej). pose proof P as (L & N & _). assert (Li : w_contacts w0 i <> None). { assert (In i (w_contact_list w0)) as K by (rewrite El; apply in_app_iff; cbn; auto). apply Ic in K. cbn in K. now destruct (w_contacts w0 i). }
      unfold mod_contact. apply sat_bind, sat_contact; [now apply (links_contact _ _ _ L)|]. intros x Hx. cbn [sat]. assert (Xb : cok x) by (now apply N in Hx). split; [|exact Ej]. refine (conj _ (conj Lg (conj B (conj _ (conj Fb (conj _ Fj)))))).
      - eapply phys_contact; eauto.
      - intros k. rewrite <- C. cbn. unfold put. destruct (Nat.eqb_spec k i) as [->|]; auto. rewrite Hx. now destruct x as [[]].
      - intros k Hk. unfold cflag. cbn. unfold put. destruct (Nat.eqb_spec k i) as [->|Ne]; [now destruct x as [[]]|]. apply in_app_iff in Hk. destruct Hk as [Hk|[Hk|[]]]; [now apply Fc|congruence]. }
    intros w2 [C2 ->]. apply (sat_each_done (fun d => cleared (w_body_list w0) (w_contact_list w0) d)); [|auto].
    intros d i r w El (P & Lg & B & C & Fb & Fc & Fj). pose proof P as (L & N & _). assert (Li : w_joints w0 i <> None). { assert (In i (w_joint_list w0)) as K by (rewrite El; apply in_app_iff; cbn; auto). apply Ij in K. cbn in K. now destruct (w_joints w0 i). }
    unfold mod_joint. apply sat_bind, sat_joint; [now apply (links_joint _ _ _ L)|]. intros x Hx. cbn [sat]. refine (conj _ (conj Lg (conj B (conj C (conj Fb (conj Fc _)))))).
    - eapply phys_joint; eauto.
    - intros k Hk. unfold jflag. cbn. unfold put. destruct (Nat.eqb_spec k i) as [->|Ne]; [reflexivity|]. apply in_app_iff in Hk. destruct Hk as [Hk|[Hk|[]]]; [now apply Fj|congruence].
  Qed.
  Definition solved_islands w w' : Prop := exists iss, islands (w_log w') = rev iss ++ islands (w_log w) /\ partition w iss.
  Lemma sat_sync_moved w : phys w -> sat p (sync_moved w) phys.
  Proof.
    intros P. pose proof P as (L & _). assert (El : w_body_list w = w_body_list w0) by (destruct L as (Q & _); unfold tables in Q; congruence).
    destruct (W_graph _ _ _ W0) as ((_ & Ib & _) & IF & _). cbn in Ib.
    unfold sync_moved. rewrite El. apply sat_each with (I := phys); auto. intros i v Hi Pv. pose proof Pv as (Lv & _).
    assert (Li : w_bodies w0 i <> None). { apply Ib in Hi. cbn in Hi. now destruct (w_bodies w0 i). } apply sat_bind, sat_body; [now apply (links_body _ _ _ Lv)|]. intros b Hb.
    destruct (negb (fl_island (b_flags b))); [exact Pv|]. destruct (is_static b); [exact Pv|]. apply (sat_sync_fixtures p oks w0); auto. apply (W_shapes _ _ _ W0).
  Qed.
  Lemma sat_solve dt : classes_ok p w0 -> sat p (solve E dt w0) (fun w' => W p oks w' /\ still w0 w' /\ admitted E w0 w' /\ solved_islands w0 w').
  Proof.
    intros CO. destruct (W_graph _ _ _ W0) as ((Tb & Ib & _) & IF & ((Tc & Ic & _) & _) & ((Tj & Ij & _) & _)). cbn in Ib, Ic, Ij.
    unfold solve. cbv zeta. apply sat_bind. eapply sat_mono; [apply sat_clear|]. intros w1 (P1 & Lg1 & B1 & C1 & Fb & Fc & Fj). pose proof P1 as (L1 & _).
    assert (Bf : forall i, bflag w1 i = false). { intros i. destruct (w_bodies w0 i) as [x|] eqn:Ex; [apply Fb, Ib; cbn; now rewrite Ex|]. unfold bflag. specialize (B1 i). rewrite Ex in B1. now destruct (w_bodies w1 i). }
    assert (Cf : forall i, cflag w1 i = false). { intros i. destruct (w_contacts w0 i) as [x|] eqn:Ex; [apply Fc, Ic; cbn; now rewrite Ex|]. unfold cflag. specialize (C1 i). rewrite Ex in C1. now destruct (w_contacts w1 i). }
    assert (Jf : forall i, jflag w1 i = false). { intros i. destruct (w_joints w0 i) as [x|] eqn:Ex; [apply Fj, Ij; cbn; now rewrite Ex|]. unfold jflag. pose proof L1 as (_ & _ & _ & _ & _ & Q). specialize (Q i). rewrite Ex in Q. now destruct (w_joints w1 i). }
    assert (S1 : seeds w1 [] [] w1).
    { split; auto; try easy.
      - intros i. rewrite Bf. split; [easy|]. now intros (_ & is & [] & _).
      - intros i. rewrite Cf. split; [easy|]. now intros (is & [] & _).
      - intros i. rewrite Jf. split; [easy|]. now intros (is & [] & _).
      - constructor.
      - intros c _. apply solid_eq; auto. intros x x' K1 K2. specialize (C1 c). rewrite K1, K2 in C1. cbn [option_map] in C1. assert (cstrip x' = cstrip x) as Q by congruence. destruct (cstrip_view _ _ Q) as (_ & A & B & _). auto.
      - intros i _ _. unfold awake_at. specialize (B1 i). destruct (w_bodies w1 i) as [x|], (w_bodies w0 i) as [y|]; cbn [option_map] in B1; try easy. assert (mod_flags (set_fl_island false) x = mod_flags (set_fl_island false) y) as Q by congruence. destruct x as [? []], y as [? []]. unfold mod_flags in Q. cbn in Q. unfold is_awake. cbn. now inversion Q. }
    assert (El : w_body_list w1 = w_body_list w0) by (destruct L1 as (Q & _); unfold tables in Q; congruence).
    apply sat_bind. rewrite El. eapply sat_mono; [apply (sat_each_done (fun d w => exists iss, seeds w1 iss d w))|].
    { intros d i r w Ed (iss & S). apply (seed_ok w1 iss d w i dt S). assert (In i (w_body_list w0)) as K by (rewrite Ed; apply in_app_iff; cbn; auto). apply Ib in K. cbn in K. now destruct (w_bodies w0 i). }
    { eauto. }
    intros w2 (iss & S2). pose proof (se_phys _ _ _ _ S2) as P2.
    apply sat_bind. eapply sat_mono; [apply sat_okp; [apply (sat_sync_moved w2 P2)|apply log_sync_moved]|]. intros w3 [P3 Lg3]. cbv beta in P3. pose proof (W_phys _ _ _ _ W0 P3) as W3. pose proof P3 as (L3 & _). pose proof (still_links _ _ L3) as St3.
    eapply sat_mono; [apply sat_okp; [apply (sat_find p oks E w3 W3); eapply still_classes; eauto|apply log_find]|]. intros w4 [(W4 & G4 & A4) Lg4]. refine (conj W4 (conj (still_trans _ _ _ St3 (still_grow _ _ G4)) (conj (admitted_trans E _ _ _ (alike_still _ _ St3) (admitted_links E _ _ L3) A4) _))).
    exists iss. split.
    - rewrite Lg4, Lg3, (se_log _ _ _ _ S2), Lg1. reflexivity.
    - split; [apply (se_spec _ _ _ _ S2)|split; [|apply (se_apart _ _ _ _ S2)]]. intros i M En Aw. assert (In i (w_body_list w0)) as Hi. { apply Ib. cbn. unfold moving in M. now destruct (w_bodies w0 i). }
      pose proof (se_done _ _ _ _ S2 i Hi M En Aw) as K. apply (se_flag _ _ _ _ S2) in K. destruct K as (_ & is & A & B). eauto.
  Qed.
End Solve.
