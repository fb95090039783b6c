(** The boxes of the broad phase under the operations on bodies, fixtures and contacts. *)
From Coq Require Import List ZArith Bool Arith Lia Reals Lra.
From Verif Require Import Base Num NumLaws RTac Math Collision Manifold Filter ShapeModel ListFacts ManifoldProofs TreeModel TreeSpec TreeHist BroadModel BroadSpec DynModel DynSpec DynProofs WorldModel WorldGraph WorldLogic WorldFix WorldClaims WorldCalls CoverSpec CoverLogic.
Import ListNotations.
Notation world := (world R).
Implicit Types w : world.

(** ** the invariant; [D]: fixtures whose boxes may be out of date *)
Definition good (b : body R) : Prop := posed b /\ (b_type b = StaticBody -> settled b).
Definition Cov (D : nat -> Prop) w (f k : nat) (bx : aabb R) : Prop := box_valid bx /\
  (~ D f -> forall x i b a, w_fixtures w f = Some x -> f_body x = Some i -> w_bodies w i = Some b -> shape_aabb (f_shape x) (b_xf b) k = Ok a -> inside a bx).
Definition J (D : nat -> Prop) w : Prop :=
  proxies_ok (g_f (graph_of w)) /\ bcov (w_bp w) (slot (g_f (graph_of w))) (Cov D w) /\
  (forall i b, w_bodies w i = Some b -> good b) /\ (forall f x, w_fixtures w f = Some x -> box_shape (f_shape x) /\ shape_child_count (f_shape x) = Ok (length (f_proxies x))).
Lemma J_bodies D w : J D w -> forall i b, w_bodies w i = Some b -> good b.
Proof. intros H. apply H. Qed.
Definition own w : Prop :=
  (forall f x i b, w_fixtures w f = Some x -> w_bodies w i = Some b -> (f_body x = Some i <-> In f (b_fixtures b))) /\
  (forall i, w_bodies w i <> None -> In i (w_body_list w)).
Definition none (_ : nat) : Prop := False.

(* what only few calls change *)
Definition fixed w := (w_body_list w, w_continuous w).
(* the fixtures look the same *)
Definition same_f w0 w : Prop := forall f, g_f (graph_of w) f = g_f (graph_of w0) f.
Lemma same_f_fix w0 w f x : same_f w0 w -> w_fixtures w f = Some x -> exists y, w_fixtures w0 f = Some y /\ view_f x = view_f y.
Proof. intros H K. specialize (H f). cbn in H. rewrite K in H. cbn in H. destruct (w_fixtures w0 f) as [y|]; [|easy]. exists y. cbn in H. split; congruence. Qed.
Lemma view_f_inv (x y : fixture R) : view_f x = view_f y -> f_body x = f_body y /\ f_shape x = f_shape y /\ f_proxy_count x = f_proxy_count y /\ map view_p (f_proxies x) = map view_p (f_proxies y).
Proof. unfold view_f. intros H. injection H as H1 H2 H3 H4. auto. Qed.
Lemma view_f_len (x y : fixture R) : view_f x = view_f y -> length (f_proxies x) = length (f_proxies y).
Proof. intros H. apply view_f_inv in H as (_ & _ & _ & H). rewrite <- (map_length view_p), H. apply map_length. Qed.
Lemma J_moved (D D' : nat -> Prop) w0 w : J D w0 -> w_bp w = w_bp w0 -> same_f w0 w -> (forall f, D f -> D' f) ->
  (forall i b', w_bodies w i = Some b' -> good b') ->
  (forall f x i b', w_fixtures w f = Some x -> f_body x = Some i -> w_bodies w i = Some b' -> D' f \/ exists b, w_bodies w0 i = Some b /\ b_xf b' = b_xf b) ->
  J D' w.
Proof.
  intros (A & B & C & S) Hb Hf HD HG HM. split; [|split; [|split]].
  - intros f x. rewrite Hf. apply A.
  - rewrite Hb. eapply bcov_mono; [exact B| |].
    + intros f k. apply slot_ext. intros i. now rewrite Hf.
    + intros f k bx _ [V K]. split; [exact V|]. intros ND x i b' a Hx Hi Hi' Ha. destruct (HM f x i b' Hx Hi Hi') as [?|(b & Hb0 & Exf)]; [contradiction|].
      destruct (same_f_fix w0 w f x Hf Hx) as (y & Hy & V'). apply view_f_inv in V' as (V1 & V2 & _). rewrite V1 in Hi. rewrite V2, Exf in Ha. eapply K; eauto.
  - exact HG.
  - intros f x Hx. destruct (same_f_fix w0 w f x Hf Hx) as (y & Hy & V). rewrite (view_f_len _ _ V). apply view_f_inv in V as (_ & -> & _). eauto.
Qed.
Lemma J_weak (D D' : nat -> Prop) w : J D w -> (forall f, D f -> D' f) -> J D' w.
Proof. intros H K. apply (J_moved D D' w w); auto; [intros f; reflexivity|apply H|]. intros. right. eauto. Qed.

(** ** operations that leave bodies where they are *)
Definition still (b b' : body R) : Prop :=
  b_type b' = b_type b /\ (b_fixtures b', is_enabled b', fl_island (b_flags b')) = (b_fixtures b, is_enabled b, fl_island (b_flags b)) /\ b_xf b' = b_xf b /\ b_sweep b' = b_sweep b /\ (b_type b = StaticBody -> b_lv b' = b_lv b /\ b_av b' = b_av b).
Lemma still_refl b : still b b.
Proof. repeat split. Qed.
Lemma still_trans b b' b'' : still b b' -> still b' b'' -> still b b''.
Proof. intros (A & B & C & D & F) (A' & B' & C' & D' & F'). split; [congruence|]. split; [congruence|]. split; [congruence|]. split; [congruence|]. intros K. destruct (F K), (F' ltac:(congruence)). split; congruence. Qed.
Lemma still_good b b' : still b b' -> good b -> good b'.
Proof.
  intros (A & B & C & D & F) [P Q]. split.
  - eapply posed_frame; eauto.
  - intros K. rewrite A in K. specialize (Q K). destruct (F K) as [F1 F2]. unfold settled in *. rewrite D, F1, F2. exact Q.
Qed.
Lemma still_fix b b' : still b b' -> b_fixtures b' = b_fixtures b /\ is_enabled b' = is_enabled b /\ fl_island (b_flags b') = fl_island (b_flags b).
Proof. intros (_ & H & _). repeat split; congruence. Qed.
Definition frame w0 w : Prop :=
  w_bp w = w_bp w0 /\ same_f w0 w /\ fixed w = fixed w0 /\
  forall i b', w_bodies w i = Some b' -> exists b, w_bodies w0 i = Some b /\ still b b'.
Lemma frame_refl w : frame w w.
Proof. split; [reflexivity|]. split; [intros f; reflexivity|]. split; [reflexivity|]. intros i b H. exists b. split; auto using still_refl. Qed.
Lemma frame_trans w0 w1 w2 : frame w0 w1 -> frame w1 w2 -> frame w0 w2.
Proof.
  intros (A & B & L & C) (A' & B' & L' & C'). split; [congruence|]. split; [|split; [congruence|]].
  - intros f. etransitivity; [apply B'|apply B].
  - intros i b H. destruct (C' i b H) as (b1 & H1 & S1). destruct (C i b1 H1) as (b0 & H0 & S0). exists b0. split; auto. eapply still_trans; eauto.
Qed.
Lemma J_frame D w0 w : J D w0 -> frame w0 w -> J D w.
Proof.
  intros H (A & B & L & C). apply (J_moved D D w0 w); auto.
  - intros i b' K. destruct (C i b' K) as (b & Hb & S). eapply still_good; eauto. eapply J_bodies; eauto.
  - intros f x i b' _ _ K. destruct (C i b' K) as (b & Hb & S). right. exists b. split; auto. apply S.
Qed.
Lemma own_frame w0 w : own w0 -> frame w0 w -> own w.
Proof.
  intros [O1 O2] (A & B & L & C). split.
  - intros f x i b Hx Hb. destruct (same_f_fix w0 w f x B Hx) as (y & Hy & V). apply view_f_inv in V as (V1 & _). destruct (C i b Hb) as (b0 & H0 & S). rewrite (proj1 (still_fix _ _ S)). rewrite V1. now apply O1.
  - intros i Hi. replace (w_body_list w) with (w_body_list w0) by (unfold fixed in L; congruence). apply O2. destruct (w_bodies w i) as [b|] eqn:Eb; [|easy]. destruct (C i b Eb) as (b0 & -> & _). discriminate.
Qed.
Lemma frame_put w0 w i b b' : frame w0 w -> w_bodies w i = Some b -> still b b' -> frame w0 (put_body i b' w).
Proof.
  intros H Hb S. eapply frame_trans; [exact H|]. split; [reflexivity|]. split; [intros f; reflexivity|]. split; [reflexivity|]. intros j c. cbn. unfold put. destruct (Nat.eqb_spec j i) as [->|]; [|eauto using still_refl].
  intros K. injection K as <-. eauto.
Qed.
Lemma ok_body w0 w i g : frame w0 w -> (forall b, w_bodies w i = Some b -> still b (g b)) -> ok (mod_body i g w) (frame w0).
Proof. intros H S. unfold mod_body, get_body. apply ok_bind, ok_unwrap. intros b Hb. apply ok_ok. eapply frame_put; eauto. Qed.
Lemma ok_contact w0 w i g : frame w0 w -> ok (mod_contact i g w) (frame w0).
Proof. intros H. unfold mod_contact. apply ok_bind, ok_any. intros c. apply ok_ok. exact H. Qed.
Lemma still_awake f (b : body R) : still b (set_awake f b).
Proof. unfold set_awake, is_static. destruct (btype_eqb_spec (b_type b) StaticBody); [apply still_refl|]. destruct f; repeat split; contradiction. Qed.
Lemma still_flags g (b : body R) : fl_enabled (g (b_flags b)) = fl_enabled (b_flags b) -> fl_island (g (b_flags b)) = fl_island (b_flags b) -> still b (mod_flags g b).
Proof. intros H K. repeat split. unfold is_enabled. cbn. now rewrite H, K. Qed.
Lemma ok_wake w0 w i f : frame w0 w -> ok (mod_body i (set_awake f) w) (frame w0).
Proof. intros H. apply ok_body; auto using still_awake. Qed.
Tactic Notation "go" uconstr(L) := apply ok_bind; eapply ok_mono; [eapply L|].

Section Ops.
  Variable E : env R.
  Lemma ok_listen w0 w e i : frame w0 w -> ok (listen E e i w) (frame w0).
  Proof. intros H. unfold listen. apply ok_bind, ok_any. intros c. apply ok_ok. exact H. Qed.
  Lemma ok_wake_touching w0 w c : frame w0 w -> ok (wake_touching c w) (frame w0).
  Proof.
    intros H. unfold wake_touching. apply ok_bind, ok_any. intros fa. apply ok_bind, ok_any. intros fb. destruct (_ && _); [|now apply ok_ok].
    apply ok_bind, ok_any. intros a. go ok_wake; [exact H|]. intros w1 H1. apply ok_bind, ok_any. intros b. now apply ok_wake.
  Qed.
  Lemma ok_destroy_contact w0 w i : frame w0 w -> ok (destroy_contact E i w) (frame w0).
  Proof.
    intros H. unfold destroy_contact. apply ok_bind, ok_any. intros c. apply ok_bind, ok_any. intros a. apply ok_bind, ok_any. intros b.
    apply ok_bind. apply (ok_mono _ (frame w0)). { destruct (_ && _); [now apply ok_listen|now apply ok_ok]. } clear w H. intros w H.
    apply ok_bind, ok_any. intros l. cbv zeta. set (w1 := set_w_contact_list l w). assert (H1 : frame w0 w1) by exact H. clearbody w1.
    apply ok_bind, ok_unwrap. intros ba Hba. apply ok_bind, ok_any. intros la. set (w2 := put_body a _ w1). assert (H2 : frame w0 w2) by (eapply frame_put; [exact H1|exact Hba|repeat split]). clearbody w2.
    apply ok_bind, ok_unwrap. intros bb Hbb. apply ok_bind, ok_any. intros lb. set (w3 := put_body b _ w2). assert (H3 : frame w0 w3) by (eapply frame_put; [exact H2|exact Hbb|repeat split]). clearbody w3.
    apply ok_bind, ok_any. intros c'. go ok_wake_touching; [exact H3|]. intros w4 H4. apply ok_bind, ok_any. intros n. apply ok_ok. exact H4.
  Qed.
  Lemma ok_destroy_contacts w0 w i l : frame w0 w -> ok (destroy_contacts E i l w) (frame w0).
  Proof.
    intros H. unfold destroy_contacts. apply ok_bind. eapply ok_mono; [apply (ok_each (frame w0)); [|exact H]|]; [intros e s _ Hs; now apply ok_destroy_contact|].
    intros w1 H1. apply ok_body; [exact H1|]. repeat split.
  Qed.
  Lemma ok_update w0 w i : frame w0 w -> ok (update_contact E i w) (frame w0).
  Proof.
    intros H. unfold update_contact. go ok_contact; [exact H|]. clear w H. intros w H. apply ok_bind, ok_any. intros c. cbv zeta.
    apply ok_bind, ok_any. intros fa. apply ok_bind, ok_any. intros fb. apply ok_bind, ok_any. intros a. apply ok_bind, ok_any. intros b. apply ok_bind, ok_any. intros ba. apply ok_bind, ok_any. intros bb.
    apply ok_bind. apply (ok_mono _ (fun p => frame w0 (fst p))).
    - destruct (_ || _).
      + apply ok_bind, ok_any. intros t. go ok_contact; [exact H|]. intros w1 H1. apply ok_ok. exact H1.
      + apply ok_bind, ok_any. intros m. apply ok_bind, ok_any. intros m'. go ok_contact; [exact H|]. intros w1 H1. apply ok_bind. apply (ok_mono _ (frame w0)).
        * destruct (Bool.eqb _ _); [now apply ok_ok|]. go ok_wake; [exact H1|]. intros w2 H2. now apply ok_wake.
        * intros w2 H2. apply ok_ok. exact H2.
    - intros [w1 t] H1. cbn [fst] in H1. go ok_contact; [exact H1|]. intros w2 H2. destruct (w_listener w2); [|now apply ok_ok].
      apply ok_bind. apply (ok_mono _ (frame w0)). { destruct (_ && _); [now apply ok_listen|now apply ok_ok]. } intros w3 H3.
      apply ok_bind. apply (ok_mono _ (frame w0)). { destruct (_ && _); [now apply ok_listen|now apply ok_ok]. } intros w4 H4.
      destruct (_ && _); [now apply ok_listen|now apply ok_ok].
  Qed.
  Lemma ok_link w0 w c : frame w0 w -> ok (link_contact c w) (frame w0).
  Proof.
    intros H. unfold link_contact. cbv zeta. apply ok_bind, ok_any. intros a. apply ok_bind, ok_any. intros b.
    go ok_body; [exact H|repeat split|]. intros w1 H1. go ok_body; [exact H1|repeat split|]. intros w2 H2. apply ok_ok. exact H2.
  Qed.
  Lemma ok_add_pair w0 w ua ub : frame w0 w -> ok (add_pair E w ua ub) (frame w0).
  Proof.
    intros H. unfold add_pair. apply ok_bind, ok_any. intros [fa ia]. apply ok_bind, ok_any. intros [fb ib]. apply ok_bind, ok_any. intros a. apply ok_bind, ok_any. intros b.
    destruct (Nat.eqb a b); [now apply ok_ok|]. apply ok_bind, ok_any. intros bb. apply ok_bind, ok_any. intros known. destruct known; [now apply ok_ok|].
    apply ok_bind, ok_any. intros may. destruct (negb may); [now apply ok_ok|]. cbv zeta. destruct (negb _); [now apply ok_ok|]. apply ok_bind, ok_any. intros c. apply ok_link. exact H.
  Qed.
  Lemma ok_update_pairs {S} (b : broad R (nat * nat)) (cb : S -> option (nat * nat) -> option (nat * nat) -> res S) s (I : S -> Prop) : I s -> (forall s u v, I s -> ok (cb s u v) I) ->
    ok (update_pairs b cb s) (fun p => I (snd p)).
  Proof.
    intros Hs Hc. unfold update_pairs. cbv zeta. apply ok_bind, ok_any. intros ps. apply ok_bind. eapply ok_mono; [apply (ok_for (fun _ => I)); [exact Hs|]|].
    - intros i s' _ H. apply ok_bind, ok_any. intros p. apply ok_bind, ok_any. intros ua. apply ok_bind, ok_any. intros ub. now apply Hc.
    - intros s' H. apply ok_bind, ok_any. intros t. apply ok_ok. exact H.
  Qed.
  (* new contacts: only the flags of the proxies change *)
  Lemma ok_find D w : J D w -> own w -> ok (find_new_contacts E w) (fun w' => J D w' /\ own w' /\ same_f w w' /\ fixed w' = fixed w /\
    forall i b', w_bodies w' i = Some b' -> exists b, w_bodies w i = Some b /\ still b b').
  Proof.
    intros H O. unfold find_new_contacts. apply ok_bind. apply ok_eq. intros [bp w1] Eq.
    assert (F : frame w w1). { refine (ok_update_pairs _ _ _ (frame w) (frame_refl w) _ _ Eq). intros s u v. apply ok_add_pair. }
    apply ok_ok. pose proof (J_frame D w w1 H F) as H1. pose proof (own_frame w w1 O F) as O1. split; [|split; [exact O1|split; apply F]].
    destruct H1 as (A1 & B1 & C1 & S1). split; [exact A1|]. split; [|split; [exact C1|exact S1]]. cbn [w_bp set_w_bp]. change (graph_of (set_w_bp bp w1)) with (graph_of w1).
    rewrite (proj1 F) in B1. apply (bcov_update _ _ _ _ _ _ _ B1 Eq).
  Qed.
  Lemma ok_collide w0 w : frame w0 w -> ok (collide E w) (frame w0).
  Proof.
    intros H. unfold collide. apply ok_bind. apply (ok_mono _ (fun p => frame w0 (fst p))).
    - apply ok_each; [|exact H]. intros i [w1 dead] _ H1. cbn [fst] in H1. unfold collide1. apply ok_bind, ok_any. intros c. apply ok_bind, ok_any. intros a. apply ok_bind, ok_any. intros b.
      apply ok_bind. apply (ok_mono _ (fun p => frame w0 (fst p))).
      + destruct (cf_filter _); [|now apply ok_ok]. apply ok_bind, ok_any. intros may. destruct (negb may); [now apply ok_ok|]. cbv zeta. destruct (negb _); [apply ok_ok; exact H1|].
        go ok_contact; [exact H1|]. intros w2 H2. apply ok_ok. exact H2.
      + intros [w2 keep] H2. cbn [fst] in H2. destruct (negb keep); [now apply ok_ok|]. apply ok_bind, ok_any. intros ba. apply ok_bind, ok_any. intros bb.
        destruct (_ && _); [now apply ok_ok|]. apply ok_bind, ok_any. intros ida. apply ok_bind, ok_any. intros idb. apply ok_bind, ok_any. intros ov. destruct (negb ov); [now apply ok_ok|].
        go ok_update; [exact H2|]. intros w3 H3. apply ok_ok. exact H3.
    - intros [w1 dead] H1. apply ok_each; [|exact H1]. intros i s _ Hs. now apply ok_destroy_contact.
  Qed.
End Ops.

(** ** joints *)
Lemma ok_flag_contacts w0 w a b : frame w0 w -> ok (flag_contacts a b w) (frame w0).
Proof. intros H. unfold flag_contacts. apply ok_bind, ok_any. intros bb. apply ok_each; [|exact H]. intros e s _ Hs. destruct (Nat.eqb _ _); [now apply ok_contact|now apply ok_ok]. Qed.
Lemma ok_create_joint w0 w a b c : frame w0 w -> ok (create_joint a b c w) (fun p => frame w0 (fst p)).
Proof.
  intros H. unfold create_joint. apply ok_bind, ok_any. intros _. apply ok_bind, ok_any. intros _. cbv zeta. go ok_body; [exact H|repeat split|]. intros w1 H1. go ok_body; [exact H1|repeat split|]. intros w2 H2.
  apply ok_bind. apply (ok_mono _ (frame w0)). { destruct c; [now apply ok_ok|now apply ok_flag_contacts]. } intros w3 H3. apply ok_ok. exact H3.
Qed.
Lemma ok_destroy_joint w0 w i : frame w0 w -> ok (destroy_joint i w) (frame w0).
Proof.
  intros H. unfold destroy_joint. apply ok_bind, ok_any. intros _. apply ok_bind, ok_any. intros j. apply ok_bind, ok_any. intros l. cbv zeta.
  go ok_wake; [exact H|]. intros w1 H1. go ok_wake; [exact H1|]. intros w2 H2. apply ok_bind, ok_unwrap. intros ba Hba. apply ok_bind, ok_any. intros la.
  set (w3 := put_body _ _ w2). assert (H3 : frame w0 w3) by (eapply frame_put; [exact H2|exact Hba|repeat split]). clearbody w3.
  apply ok_bind, ok_unwrap. intros bb Hbb. apply ok_bind, ok_any. intros lb. set (w4 := put_body _ _ w3). assert (H4 : frame w0 w4) by (eapply frame_put; [exact H3|exact Hbb|repeat split]). clearbody w4.
  apply ok_bind, ok_any. intros _. apply ok_bind, ok_any. intros n. apply ok_bind. apply (ok_mono _ (frame w0)). { destruct (j_collide j); [apply ok_ok; exact H4|apply ok_flag_contacts; exact H4]. }
  intros w5 H5. apply ok_ok. exact H5.
Qed.

(** ** the proxies of a fixture *)
(* nothing but the broad phase and the boxes of proxies *)
Definition beside w0 w : Prop := same_f w0 w /\ w_bodies w = w_bodies w0 /\ fixed w = fixed w0.
Lemma beside_refl w : beside w w.
Proof. repeat split. Qed.
Lemma beside_trans w0 w1 w2 : beside w0 w1 -> beside w1 w2 -> beside w0 w2.
Proof. intros (A & B & C) (A' & B' & C'). split; [intros f; etransitivity; [apply A'|apply A]|split; congruence]. Qed.
Lemma beside_own w0 w : own w0 -> beside w0 w -> own w.
Proof.
  intros [O1 O2] (A & B & C). split; [|intros i; rewrite B; replace (w_body_list w) with (w_body_list w0) by (unfold fixed in C; congruence); apply O2]. intros f x i b Hx Hb. destruct (same_f_fix w0 w f x A Hx) as (y & Hy & V). apply view_f_inv in V as (V1 & _).
  rewrite B in Hb. rewrite V1. now apply O1.
Qed.
Lemma slot_at w f x k id : w_fixtures w f = Some x -> k < f_proxy_count x -> option_map view_p (nth_error (f_proxies x) k) = Some (Some f, k, Some id) -> slot (g_f (graph_of w)) f k = Some id.
Proof.
  intros Hx Hk Hp. unfold slot. replace (g_f (graph_of w) f) with (Some (view_f x)) by (cbn; now rewrite Hx). unfold view_f. cbn [v_count v_proxies].
  apply Nat.ltb_lt in Hk. rewrite Hk, nth_error_map, Hp. reflexivity.
Qed.
Lemma upd_map {A B} (g : A -> B) l i x y : nth_error l i = Some y -> g x = g y -> map g (upd l i x) = map g l.
Proof. revert i. induction l as [|z l IH]; intros [|i]; cbn; intros H K; try discriminate; [injection H as ->; now rewrite K|]. f_equal. eauto. Qed.
Lemma nth_map_eq {A B} (g : A -> B) l l' i : map g l = map g l' -> option_map g (nth_error l i) = option_map g (nth_error l' i).
Proof. intros H. now rewrite <- !nth_error_map, H. Qed.

Lemma J_synchronize D w f xf1 xf2 : J D w -> (forall x i b, w_fixtures w f = Some x -> f_body x = Some i -> w_bodies w i = Some b -> xf2 = b_xf b) ->
  ok (synchronize f xf1 xf2 w) (fun w' => J (fun g => D g /\ g <> f) w' /\ beside w w').
Proof.
  intros H Hxf. pose proof H as (A & B & C & S). unfold synchronize. apply ok_bind, ok_unwrap. intros x Hx.
  assert (Hg : g_f (graph_of w) f = Some (view_f x)) by (cbn; now rewrite Hx). destruct (A f _ Hg) as [Hn Hp]. cbn [view_f v_count v_proxies] in Hn, Hp. rewrite map_length in Hn.
  destruct (Nat.eqb_spec (f_proxy_count x) 0) as [Z0|Z0].
  - apply ok_ok. split; [|apply beside_refl]. split; [exact A|]. split; [|split; [exact C|exact S]]. eapply bcov_mono; [exact B|reflexivity|]. intros g k bx (id & Hs) [V K]. split; [exact V|]. intros ND y i b a Hy Hi Hb Ha.
    eapply K; eauto. intros Dg. apply ND. split; [exact Dg|]. intros ->. unfold slot in Hs. rewrite Hg in Hs. cbn [view_f v_count] in Hs. rewrite Z0 in Hs. cbn in Hs. easy.
  - set (n := f_proxy_count x) in *. set (s := slot (g_f (graph_of w))) in *.
    set (CI := fun i (g k : nat) (bx : aabb R) => Cov D w g k bx /\ (g = f -> k < i -> forall a, shape_aabb (f_shape x) xf2 k = Ok a -> inside a bx)).
    apply ok_bind. apply (ok_mono _ (fun st => map view_p (fst st) = map view_p (f_proxies x) /\ bcov (snd st) s (CI n))).
    + apply (ok_for (fun i st => map view_p (fst st) = map view_p (f_proxies x) /\ bcov (snd st) s (CI i))).
      * split; [reflexivity|]. eapply bcov_mono; [exact B|reflexivity|]. intros g k bx _ K. split; [exact K|]. lia.
      * intros i [ps bp] Hi (Mp & BI). cbn [fst snd] in *. apply ok_bind, ok_get. intros p Hpi. destruct (Hp i Hi) as (id & Hid). rewrite nth_error_map in Hid.
        assert (Vp : view_p p = (Some f, i, Some id)). { pose proof (nth_map_eq view_p ps (f_proxies x) i Mp) as Q. rewrite Hpi, Hid in Q. cbn in Q. congruence. }
        unfold view_p in Vp. injection Vp as Vp1 Vp2 Vp3. rewrite Vp2, Vp3. apply ok_bind, ok_any. intros a1. apply ok_bind, ok_eq. intros a2 Ha2. cbv zeta. cbn [unwrap bind].
        apply ok_bind, ok_eq. intros bp' Eb. apply ok_bind, ok_set. intros Lp. apply ok_ok. cbn [fst snd]. split.
        { erewrite upd_map; [exact Mp|exact Hpi|reflexivity]. }
        apply (bcov_move bp s (CI i) (CI (Datatypes.S i)) f i id (combine a1 a2) (vsub (aabb_center a2) (aabb_center a1)) bp' BI); [|exact Eb| |].
        { unfold s. apply (slot_at w f x i id Hx Hi Hid). }
        { intros g k bx Ne [K1 K2]. split; [exact K1|]. intros -> Hk. apply K2; auto. assert (k <> i) by congruence. lia. }
        { intros bx _ Hin. assert (In2 : inside a2 bx) by (eapply inside_trans; [apply inside_combine_r|exact Hin]). split.
          - split; [eapply inside_valid; [|exact In2]; eapply (proj1 (S f x Hx)); eauto|]. intros _ y j b a Hy Hj Hb Ha. replace y with x in * by congruence. rewrite (Hxf x j b Hx Hj Hb) in Ha2. congruence.
          - intros _ Hk a Ha. destruct (Nat.eq_dec i i); congruence. }
    + intros [ps bp] (Mp & BI). cbn [fst snd] in *. apply ok_ok. set (x' := set_f_proxies ps x). assert (Vx : view_f x' = view_f x) by (unfold view_f, x'; cbn; now rewrite Mp).
      assert (SF : same_f w (put_fixture f x' (set_w_bp bp w))). { intros g. cbn. unfold put. destruct (Nat.eqb_spec g f) as [->|]; [|reflexivity]. rewrite Hx. cbn [option_map]. now rewrite Vx. }
      split; [|split; [exact SF|split; reflexivity]]. split; [|split; [|split]].
      * intros g y. rewrite SF. apply A.
      * cbn [w_bp put_fixture set_w_fixtures set_w_bp]. eapply bcov_mono; [exact BI| |].
        { intros g k. unfold s. apply slot_ext. intros g'. now rewrite SF. }
        { intros g k bx (id & Hs) [[V K1] K2]. split; [exact V|]. intros ND y i b a Hy Hi Hb Ha. change (w_bodies _ i) with (w_bodies w i) in Hb.
          destruct (same_f_fix _ _ g y SF Hy) as (y0 & Hy0 & V0). apply view_f_inv in V0 as (V1 & V2 & _). rewrite V1 in Hi. rewrite V2 in Ha.
          destruct (Nat.eq_dec g f) as [->|Ne].
          - replace y0 with x in * by congruence. apply K2; auto; [|now rewrite (Hxf x i b Hx Hi Hb)]. unfold s, slot in Hs. rewrite Hg in Hs. cbn [view_f v_count] in Hs. fold n in Hs. destruct (Nat.ltb_spec k n); [auto|easy].
          - eapply K1; eauto. }
      * exact C.
      * intros g y Hy. destruct (same_f_fix _ _ g y SF Hy) as (y0 & Hy0 & V0). rewrite (view_f_len _ _ V0). apply view_f_inv in V0 as (_ & -> & _). eauto.
Qed.

Lemma J_sync_list D w i b xf1 l : J D w -> w_bodies w i = Some b -> (forall f x, In f l -> w_fixtures w f = Some x -> f_body x = Some i) ->
  ok (each (fun f => synchronize f xf1 (b_xf b)) l w) (fun w' => J (fun g => D g /\ ~ In g l) w' /\ beside w w').
Proof.
  intros H Hb. revert D w H Hb. induction l as [|f l IH]; intros D w H Hb HO; cbn [each].
  - apply ok_ok. split; [|apply beside_refl]. eapply J_weak; [exact H|]. cbn. tauto.
  - apply ok_bind. eapply ok_mono; [apply (J_synchronize D); [exact H|]|].
    + intros x j c Hx Hj Hc. rewrite (HO f x (or_introl eq_refl) Hx) in Hj. injection Hj as <-. congruence.
    + intros w1 [H1 B1]. eapply ok_mono; [apply (IH _ w1 H1)|].
      * destruct B1 as (_ & -> & _). exact Hb.
      * intros g x Hg Hx. destruct B1 as (B1 & _). destruct (same_f_fix _ _ g x B1 Hx) as (y & Hy & V). apply view_f_inv in V as (-> & _). eapply HO; eauto. now right.
      * intros w2 [H2 B2]. split; [|eapply beside_trans; eauto]. eapply J_weak; [exact H2|]. cbn. intros g [[Dg Ng] Nl]. split; [exact Dg|]. intros [->|K]; contradiction.
Qed.
