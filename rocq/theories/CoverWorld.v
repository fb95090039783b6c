(** Every call of a world, except its step, leaves the boxes of the broad phase around the shapes. *)
From Coq Require Import List ZArith Bool Arith Lia Reals Lra.
From Verif Require Import Base Num NumLaws RTac Math Collision Manifold Filter ShapeModel ListFacts ManifoldProofs TreeModel TreeSpec TreeHist BroadModel BroadSpec DynModel DynSpec DynProofs WorldModel WorldGraph WorldGops WorldLogic WorldInv WorldFix WorldClaims WorldCalls WorldHist CoverSpec CoverLogic CoverOps CoverCalls.
Import ListNotations.
Implicit Types w : world.
Notation still := CoverOps.still.

Lemma own_W p oks w : W p oks w -> own w.
Proof.
  intros H. destruct (W_graph _ _ _ H) as ((_ & BT & _) & (_ & _ & FO & _) & _). split.
  - intros f x i b Hx Hb. specialize (FO i f). unfold fixtures_of, owner in FO. cbn in FO. rewrite Hb, Hx in FO. cbn in FO. tauto.
  - intros i Hi. apply BT. cbn. destruct (w_bodies w i); [discriminate|easy].
Qed.
Lemma live_W p oks w f x i : W p oks w -> w_fixtures w f = Some x -> f_body x = Some i -> w_bodies w i <> None.
Proof.
  intros H Hx Hi. destruct (W_graph _ _ _ H) as (_ & FO & _). assert (K : owner (graph_of w) f = Some i) by (unfold owner; cbn; now rewrite Hx).
  apply (owner_live _ _ _ FO) in K. cbn in K. destruct (w_bodies w i); [discriminate|easy].
Qed.
Lemma list_W p oks w : W p oks w -> NoDup (w_body_list w) /\ forall i, In i (w_body_list w) <-> w_bodies w i <> None.
Proof.
  intros H. destruct (W_graph _ _ _ H) as ((ND & BT & _) & _). split; [exact ND|]. intros i. specialize (BT i). cbn in BT. rewrite BT. destruct (w_bodies w i); cbn; intuition discriminate.
Qed.
Lemma fresh_W p oks w : W p oks w -> w_bodies w (w_next_body w) = None /\ w_fixtures w (w_next_fixture w) = None.
Proof.
  intros H. destruct (W_graph _ _ _ H) as ((_ & _ & _ & B) & (_ & _ & _ & _ & F) & _). specialize (B (w_next_body w) (le_n _)). specialize (F (w_next_fixture w) (le_n _)). cbn in B, F.
  destruct (w_bodies w _); [easy|]. destruct (w_fixtures w _); easy.
Qed.
Lemma bare_W p oks w f x i b : W p oks w -> w_fixtures w f = Some x -> f_body x = Some i -> w_bodies w i = Some b -> is_enabled b = false -> bare w f.
Proof.
  intros H Hx Hi Hb He k. destruct (W_enabled _ _ _ H) as (EN & _). specialize (EN f (view_f x) i (view_b b)). cbn in EN. rewrite Hx, Hb in EN. specialize (EN eq_refl Hi eq_refl).
  cbn in EN. change (f_proxy_count x = if is_enabled b then length (map view_p (f_proxies x)) else 0) in EN. rewrite He in EN. unfold slot. cbn. rewrite Hx. cbn. now rewrite EN.
Qed.
Lemma bare_same w w' f : same_f w w' -> bare w f -> bare w' f.
Proof. intros H B k. specialize (B k). unfold slot in *. now rewrite H. Qed.

(** ** moving the origin *)
Local Open Scope R_scope.
Lemma xfv_shift p o q (v : vec2 R) : xfv (Xf (vsub p o) q) v = vsub (xfv (Xf p q) v) o.
Proof. apply vec2_ext; rmathc; ring. Qed.
Lemma min_shift (a b o : vec2 R) : b2_min_vec2 (vsub a o) (vsub b o) = vsub (b2_min_vec2 a b) o.
Proof. unfold b2_min_vec2. apply vec2_ext; cbn [vx vy vsub]; rewrite !b2_min_R; rops; unfold Rmin; repeat destruct (Rle_dec _ _); lra. Qed.
Lemma max_shift (a b o : vec2 R) : b2_max_vec2 (vsub a o) (vsub b o) = vsub (b2_max_vec2 a b) o.
Proof. unfold b2_max_vec2. apply vec2_ext; cbn [vx vy vsub]; rewrite !b2_max_R; rops; unfold Rmax; repeat destruct (Rle_dec _ _); lra. Qed.
Lemma segment_shift r p o q (u v : vec2 R) : ShapeModel.segment_aabb r (Xf (vsub p o) q) u v = moved_box o (ShapeModel.segment_aabb r (Xf p q) u v).
Proof.
  unfold ShapeModel.segment_aabb, moved_box. cbv zeta. rewrite !xfv_shift, min_shift, max_shift. generalize (b2_min_vec2 (xfv (Xf p q) u) (xfv (Xf p q) v)), (b2_max_vec2 (xfv (Xf p q) u) (xfv (Xf p q) v)). intros a b. cbn [lo hi].
  f_equal; apply vec2_ext; rmathc; ring.
Qed.
Lemma for_map {S S'} (g : S -> S') (f : nat -> S -> res S) (f' : nat -> S' -> res S') : (forall i s, f' i (g s) = match f i s with Ok x => Ok (g x) | Panic => Panic | Fuel => Fuel end) ->
  forall n lo s, for_from n lo f' (g s) = match for_from n lo f s with Ok x => Ok (g x) | Panic => Panic | Fuel => Fuel end.
Proof. intros H n. induction n as [|n IH]; intros lo s; cbn [for_from]; [reflexivity|]. rewrite H. destruct (f lo s); cbn [bind]; auto. Qed.
Lemma polygon_shift self p o q (a : aabb R) : polygon_aabb self (Xf (vsub p o) q) = Ok a -> exists a0, polygon_aabb self (Xf p q) = Ok a0 /\ a = moved_box o a0.
Proof.
  unfold polygon_aabb. destruct (get (po_vertices self) 0) as [v0| |]; cbn [bind]; try easy. cbv zeta. unfold for_range.
  set (g := fun st : vec2 R * vec2 R => (vsub (fst st) o, vsub (snd st) o)).
  rewrite xfv_shift. change (vsub (xfv (Xf p q) v0) o, vsub (xfv (Xf p q) v0) o) with (g (xfv (Xf p q) v0, xfv (Xf p q) v0)).
  rewrite (for_map g (fun i st => let '(lower, upper) := st in v <- get (po_vertices self) i ;; Ok (b2_min_vec2 lower (xfv (Xf p q) v), b2_max_vec2 upper (xfv (Xf p q) v)))).
  - destruct (for_from _ _ _ _) as [[l u]| |]; cbn [bind]; try easy. intros H. injection H as <-. eexists. split; [reflexivity|]. unfold moved_box, g. cbn [lo hi fst snd]. f_equal; apply vec2_ext; rmathc; ring.
  - intros i [l u]. unfold g. cbn [fst snd]. destruct (get (po_vertices self) i) as [v| |]; cbn [bind]; try reflexivity. now rewrite xfv_shift, min_shift, max_shift.
Qed.
Lemma aabb_shift s p o q k (a : aabb R) : shape_aabb s (Xf (vsub p o) q) k = Ok a -> exists a0, shape_aabb s (Xf p q) k = Ok a0 /\ a = moved_box o a0.
Proof.
  destruct s; cbn [shape_aabb].
  - intros H. injection H as <-. eexists. split; [reflexivity|]. unfold circle_aabb, moved_box. cbv zeta. cbn [lo hi]. f_equal; apply vec2_ext; rmathc; ring.
  - intros H. injection H as <-. eexists. split; [reflexivity|]. apply segment_shift.
  - apply polygon_shift.
  - unfold chain_aabb. destruct (chain_ends _ k) as [[u v]| |]; cbn [bind]; try easy. intros H. injection H as <-. eexists. split; [reflexivity|]. apply segment_shift.
Qed.
Lemma inside_moved o (a b : aabb R) : inside a b -> inside (moved_box o a) (moved_box o b).
Proof. rewrite !inside_R. unfold moved_box. cbn [lo hi]. rmathc. lra. Qed.
Lemma valid_moved o (a : aabb R) : box_valid a -> box_valid (moved_box o a).
Proof. unfold box_valid, moved_box. cbn [lo hi]. rmathc. rewrite ?Rle_iff. lra. Qed.
Lemma good_shift o (b : body R) : good b -> good (shift_body o b) /\ b_xf (shift_body o b) = Xf (vsub (xp (b_xf b)) o) (xq (b_xf b)).
Proof.
  intros [(P1 & P2 & P3 & P4) S]. destruct b as [ty fl ii xf sw]. destruct sw as [lc c0 c a0 a al]. split; [|reflexivity]. split.
  - unfold posed. cbn in *. rmath. repeat split; lra.
  - cbn in *. intros Q. destruct (S Q) as (S1 & S2 & S3 & S4). unfold settled in *. cbn in *. rewrite S1. auto.
Qed.
Lemma J_shift o w w' : W True any w -> J none w -> world_shift o w = Ok w' -> J none w'.
Proof.
  intros HW H. destruct (list_W _ _ _ HW) as [ND HL]. revert w'. change (ok (world_shift o w) (J none)). unfold world_shift. apply ok_bind, ok_any. intros _. apply ok_bind.
  assert (K : forall l done s, NoDup (done ++ l) -> (forall i, In i (done ++ l) <-> w_bodies w i <> None) ->
    w_bp s = w_bp w /\ w_fixtures s = w_fixtures w /\ (forall i, w_bodies s i = if in_dec Nat.eq_dec i done then option_map (shift_body o) (w_bodies w i) else w_bodies w i) ->
    ok (each (fun i => mod_body i (shift_body o)) l s) (fun s => w_bp s = w_bp w /\ w_fixtures s = w_fixtures w /\ forall i, w_bodies s i = option_map (shift_body o) (w_bodies w i))).
  { induction l as [|i l IH]; intros done s N L (S1 & S2 & S3); cbn [each].
    - apply ok_ok. split; [exact S1|]. split; [exact S2|]. intros i. rewrite S3. destruct (in_dec Nat.eq_dec i done) as [|n]; [reflexivity|]. rewrite app_nil_r in L. specialize (L i). destruct (w_bodies w i); [|reflexivity]. destruct n. now apply L.
    - unfold mod_body. apply ok_bind, ok_bind, ok_unwrap. intros b Hb. apply ok_ok. apply (IH (done ++ [i])).
      + now rewrite <- app_assoc.
      + intros j. rewrite <- app_assoc. apply L.
      + split; [exact S1|]. split; [exact S2|]. intros j. cbn. unfold put. destruct (Nat.eqb_spec j i) as [->|Ne].
        * destruct (in_dec Nat.eq_dec i (done ++ [i])) as [_|n]; [|destruct n; apply in_or_app; right; now left]. rewrite S3 in Hb. destruct (in_dec Nat.eq_dec i done) as [Q|_].
          { apply NoDup_remove_2 in N. destruct N. apply in_or_app. now left. }
          now rewrite Hb.
        * rewrite S3. destruct (in_dec Nat.eq_dec j done) as [Q|Q]; destruct (in_dec Nat.eq_dec j (done ++ [i])) as [Q'|Q']; try reflexivity.
          { destruct Q'. apply in_or_app. now left. }
          { apply in_app_or in Q' as [Q'|[Q'|[]]]; [contradiction|congruence]. } }
  eapply ok_mono; [apply (K (w_body_list w) [] w ND HL)|].
  { split; [reflexivity|]. split; [reflexivity|]. intros i. now destruct (in_dec Nat.eq_dec i []). }
  clear K. intros s (S1 & S2 & S3). apply ok_ok. destruct H as (A & B & C & F).
  assert (G : forall f, g_f (graph_of (set_w_bp (bp_shift (w_bp s) o) s)) f = g_f (graph_of w) f) by (intros f; cbn; now rewrite S2).
  split; [|split; [|split]].
  - intros f x. rewrite G. apply A.
  - cbn [w_bp set_w_bp]. rewrite S1. eapply bcov_mono; [apply (bcov_shift _ _ _ (Cov none (set_w_bp (bp_shift (w_bp s) o) s)) o B)| |auto].
    + intros f k x [V Q]. split; [now apply valid_moved|]. intros Nd y i b' a Hy Hi Hb Ha. cbn in Hy, Hb. rewrite S2 in Hy. rewrite S3 in Hb. destruct (w_bodies w i) as [b|] eqn:Eb; [|easy]. injection Hb as <-.
      destruct (good_shift o b (C i b Eb)) as [_ X]. rewrite X in Ha. apply aabb_shift in Ha as (a0 & Ha & ->). apply inside_moved. eapply Q; eauto.
    + intros f k. apply slot_ext. intros i. now rewrite G.
  - intros i b'. cbn. rewrite S3. destruct (w_bodies w i) as [b|] eqn:Eb; [|easy]. intros Q. injection Q as <-. apply (good_shift o b (C i b Eb)).
  - intros f x. cbn. rewrite S2. apply F.
Qed.
Local Close Scope R_scope.

Section Calls.
  Variable E : env R.
  Hypothesis EA : answers E.

  Lemma J_new l g w : world_new l g = Ok w -> J none w.
  Proof.
    unfold world_new. intros H. apply bind_ok in H as (bp & H0 & H). injection H as <-. split; [intros f x Q; discriminate Q|]. split; [|split; [intros i b Q; discriminate Q|intros f x Q; discriminate Q]].
    exists pempty, no_pending, 0%Z. split; [now apply breach_new|]. split; [|intros id box f k fl Q; discriminate Q]. split; [intros f k id Q; discriminate Q|intros id box u fl Q; discriminate Q].
  Qed.
  Lemma J_create_body d w w' i : W True any w -> J none w -> (bd_type d = StaticBody -> bd_lv d = V2 0%R 0%R /\ bd_av d = 0%R) -> create_body d w = Ok (w', i) -> J none w'.
  Proof.
    intros HW H Hd Q. unfold create_body in Q. apply bind_ok in Q as (_ & _ & Q). apply bind_ok in Q as (b & Hb & Q). injection Q as <- _.
    assert (G : good b).
    { split; [eapply posed_new; eauto|]. intros St. unfold body_new in Hb. repeat (apply bind_ok in Hb as (? & _ & Hb)). injection Hb as <-. cbn in St. destruct (Hd St). repeat split; cbn; assumption. }
    destruct (fresh_W _ _ _ HW) as [FB _].
    apply (J_moved none none w); auto; [intros f; reflexivity| |].
    - intros j c. cbn. unfold put. destruct (Nat.eqb_spec j (w_next_body w)) as [->|]; [intros K; injection K as <-; exact G|]. apply (J_bodies _ _ H).
    - intros f x j c Hx Hj. cbn in Hx. cbn. unfold put. destruct (Nat.eqb_spec j (w_next_body w)) as [->|]; [destruct (live_W _ _ _ _ _ _ HW Hx Hj FB)|]. intros K. right. eauto.
  Qed.
  Lemma J_destroy_body i w : J none w -> ok (destroy_body E i w) (J none).
  Proof.
    intros H. unfold destroy_body. apply ok_bind, ok_any. intros _. apply ok_bind, ok_any. intros _. apply ok_bind, ok_any. intros b0.
    apply ok_bind. eapply ok_mono; [apply (ok_each (frame w)); [|apply frame_refl]|].
    { intros e s _ Hs. cbv beta zeta. apply ok_destroy_joint. destruct (w_goodbye s); exact Hs. }
    intros w1 F1. apply ok_bind. eapply ok_mono; [apply (ok_body w); [exact F1|repeat split]|]. intros w2 F2. apply ok_bind, ok_any. intros b2. apply ok_bind. eapply ok_mono; [apply (ok_destroy_contacts E w); exact F2|].
    intros w3 F3. pose proof (J_frame _ _ _ H F3) as J3. apply ok_bind, ok_any. intros b3. apply ok_bind.
    eapply ok_mono; [apply (ok_each (J none)); [|exact J3]|].
    { intros f s _ Hs. cbv beta zeta. set (s1 := if w_goodbye s then _ else _). assert (Hs1 : J none s1) by (unfold s1; destruct (w_goodbye s); exact Hs). clearbody s1.
      apply ok_bind. eapply ok_mono; [apply (J_destroy_proxies none); exact Hs1|]. intros s2 (J2 & B2 & _). apply ok_bind, ok_unwrap. intros b Hb. apply ok_bind, ok_any. intros n. apply ok_ok.
      apply (J_bare none (put_body i (set_b_fixture_count n b) s2) f None); [|exact B2|exact I]. eapply J_body; [exact J2|exact Hb|reflexivity|]. destruct (J_bodies _ _ J2 i b Hb) as [P S]. split; [exact P|exact S]. }
    intros w4 J4. apply ok_bind, ok_any. intros l. apply ok_bind, ok_any. intros n. apply ok_ok.
    apply (J_moved none none w4); auto; [intros f; reflexivity| |]; cbn; unfold put.
    - intros j c. destruct (Nat.eqb_spec j i); [discriminate|]. apply (J_bodies _ _ J4).
    - intros f x j c _ _. destruct (Nat.eqb_spec j i); [discriminate|]. eauto.
  Qed.
  Lemma J_reset_mass D i w : J D w -> ok (reset_mass i w) (J D).
  Proof.
    intros H. unfold reset_mass. apply ok_bind, ok_unwrap. intros b Hb. apply ok_bind, ok_any. intros fs. apply ok_bind, ok_eq. intros b' Eb. apply ok_ok.
    destruct (good_reset fs b b' (J_bodies _ _ H i b Hb) Eb) as (G & X & _). eapply J_body; eauto.
  Qed.
  Lemma J_create_fixture i d w w' f : W True any w -> J none w -> box_shape (fd_shape d) -> create_fixture i d w = Ok (w', f) -> J none w'.
  Proof.
    intros HW H Hd. revert w' f. enough (Q : ok (create_fixture i d w) (fun p => J none (fst p))) by (intros w' f Eq; exact (Q _ Eq)).
    unfold create_fixture. apply ok_bind, ok_any. intros _. apply ok_bind, ok_unwrap. intros b Hb. apply ok_bind, ok_eq. intros x Hx. cbv zeta.
    unfold fixture_new in Hx. apply bind_ok in Hx as (n & Hn & Hx). injection Hx as Hx. destruct (fresh_W _ _ _ HW) as [_ FF]. set (f := w_next_fixture w) in *.
    assert (J1 : J none (set_w_next_fixture (S f) (put_fixture f x w))).
    { apply (J_bare none w f (Some x)); [exact H| |]; [intros k; unfold slot; cbn; now rewrite FF|]. rewrite <- Hx. cbn. rewrite repeat_length. auto. }
    set (w1 := set_w_next_fixture (S f) (put_fixture f x w)) in *.
    apply ok_bind. apply (ok_mono _ (J none)).
    { destruct (is_enabled b); [|apply ok_ok; exact J1]. eapply ok_mono; [apply (J_create_proxies none); [exact J1|]|intros s Q; apply Q].
      intros y j c Hy Hj Hc. cbn in Hy. unfold put in Hy. rewrite Nat.eqb_refl in Hy. injection Hy as <-. rewrite <- Hx in Hj. cbn in Hj. injection Hj as <-. cbn in Hc. congruence. }
    intros w2 J2. apply ok_bind. eapply ok_mono; [apply (ok_J_body none); [exact J2|]|].
    { intros c _ [P S]. split; [reflexivity|]. split; [exact P|exact S]. }
    intros w3 J3. apply ok_bind. apply (ok_mono _ (J none)). { destruct (nlt _ _); [apply J_reset_mass; exact J3|apply ok_ok; exact J3]. }
    intros w4 J4. apply ok_ok. exact J4.
  Qed.
  Lemma J_destroy_fixture i f w : W True any w -> J none w -> ok (destroy_fixture E i f w) (J none).
  Proof.
    intros HW H. unfold destroy_fixture. apply ok_bind, ok_any. intros _. apply ok_bind, ok_unwrap. intros b Hb. apply ok_bind, ok_eq. intros o Ho. apply ok_bind, ok_assert. intros Eo. apply Nat.eqb_eq in Eo. subst o.
    unfold fixture_body in Ho. apply bind_ok in Ho as (x & Hx & Ho). unfold get_fixture in Hx. destruct (w_fixtures w f) as [x'|] eqn:Ef; [|easy]. injection Hx as ->. destruct (f_body x) as [o|] eqn:Eo; [|easy]. injection Ho as ->.
    apply ok_bind, ok_any. intros _. apply ok_bind, ok_any. intros l. cbv zeta. set (w1 := put_body i (set_b_fixtures l b) w).
    assert (J1 : J none w1). { eapply J_body; [exact H|exact Hb|reflexivity|]. destruct (J_bodies _ _ H i b Hb) as [P S]. split; [exact P|exact S]. }
    apply ok_bind. eapply ok_mono; [apply (ok_each (frame w1)); [|apply frame_refl]|].
    { intros e s _ Hs. cbv beta. apply ok_bind, ok_any. intros c. destruct (_ || _); [now apply ok_destroy_contact|now apply ok_ok]. }
    intros w2 F2. pose proof (J_frame _ _ _ J1 F2) as J2. apply ok_bind, ok_unwrap. intros b2 Hb2. apply ok_bind.
    apply (ok_mono _ (fun s => J none s /\ bare s f)).
    { destruct (is_enabled b2) eqn:E2; [eapply ok_mono; [apply (J_destroy_proxies none); exact J2|intros s Q; split; apply Q]|]. apply ok_ok. split; [exact J2|].
      destruct F2 as (_ & SF & _ & FB). destruct (FB i b2 Hb2) as (b1 & Hb1 & S1). cbn in Hb1. unfold put in Hb1. rewrite Nat.eqb_refl in Hb1. injection Hb1 as <-. apply still_fix in S1 as (_ & S1 & _). rewrite E2 in S1.
      apply (bare_same w1 w2 f SF). apply (bare_W _ _ w f x i b HW Ef Eo Hb). now symmetry. }
    intros w3 [J3 B3]. apply ok_bind, ok_unwrap. intros b3 Hb3. apply ok_bind, ok_any. intros n. apply J_reset_mass.
    pose proof (J_bare none w3 f None J3 B3 I) as J4. eapply J_body; [exact J4|exact Hb3|reflexivity|]. destruct (J_bodies _ _ J3 i b3 Hb3) as [P S]. split; [exact P|exact S].
  Qed.
  Lemma J_each_touch D l w : J D w -> ok (each touch_proxies l w) (J D).
  Proof. intros H. apply (ok_each (J D)); [|exact H]. intros f s _ Hs. eapply ok_mono; [apply (J_touch D); exact Hs|]. intros s' Q. apply Q. Qed.
  Lemma still_calm (b : body R) : still b (calm_body b).
  Proof. unfold calm_body. destruct (still_awake true b) as (A & B & C & D & F). split; [exact A|]. split; [exact B|]. split; [exact C|]. split; [exact D|exact F]. Qed.
  Lemma J_set_type i ty w : W True any w -> J none w -> ok (set_type E i ty w) (J none).
  Proof.
    intros HW H. unfold set_type. apply ok_bind, ok_any. intros _. apply ok_bind, ok_unwrap. intros b Hb. destruct (btype_eqb (b_type b) ty); [now apply ok_ok|].
    apply ok_bind, ok_any. intros fs. apply ok_bind, ok_eq. intros b' Eb. cbv zeta. destruct (good_type ty fs b b' (J_bodies _ _ H i b Hb) Eb) as (G & X & Fx & _).
    pose proof (J_body none w i b b' H Hb X G) as J1. set (w1 := put_body i b' w) in *.
    apply ok_bind. apply (ok_mono _ (J none)).
    { destruct (is_static b'); [|apply ok_ok; exact J1]. unfold synchronize_fixtures. apply ok_bind, ok_unwrap. intros c Hc.
      eapply ok_mono; [apply (J_sync_list none w1 i c); [exact J1|exact Hc|]|].
      - intros f x Hf Hx. cbn in Hc. unfold put in Hc. rewrite Nat.eqb_refl in Hc. injection Hc as <-. rewrite Fx in Hf. destruct (own_W _ _ _ HW) as [O _]. apply (O f x i b Hx Hb). exact Hf.
      - intros w2 [Q _]. eapply J_weak; [exact Q|]. intros g [Q1 _]. exact Q1. }
    intros w2 J2. apply ok_bind. eapply ok_mono; [apply (ok_body w2); [apply frame_refl|intros; apply still_calm]|]. intros w3 F3. apply ok_bind. eapply ok_mono; [apply (ok_destroy_contacts E w2); exact F3|].
    intros w4 F4. apply J_each_touch. eapply J_frame; eauto.
  Qed.
  Lemma J_set_enabled i flag w : W True any w -> J none w -> ok (set_enabled E i flag w) (J none).
  Proof.
    intros HW H. unfold set_enabled. apply ok_bind, ok_any. intros _. apply ok_bind. unfold mod_body at 1. apply ok_bind, ok_unwrap. intros b Hb. apply ok_ok.
    set (b1 := mod_flags (set_fl_enabled flag) b). assert (J1 : J none (put_body i b1 w)). { eapply J_body; [exact H|exact Hb|reflexivity|]. destruct (J_bodies _ _ H i b Hb) as [P S]. split; [exact P|exact S]. }
    set (w1 := put_body i b1 w) in *. apply ok_bind, ok_unwrap. intros c Hc. assert (c = b1) as -> by (cbn in Hc; unfold put in Hc; rewrite Nat.eqb_refl in Hc; congruence).
    destruct flag.
    - apply ok_bind. eapply ok_mono; [apply (ok_each (fun s => J none s /\ w_bodies s = w_bodies w1 /\ forall f x, w_fixtures s f = Some x -> exists y, w_fixtures w1 f = Some y /\ f_body x = f_body y))|].
      + intros f s Hf (Js & Bs & Fs). eapply ok_mono; [apply (J_create_proxies none); [exact Js|]|].
        * intros x j d Hx Hj Hd. rewrite Bs in Hd. destruct (Fs f x Hx) as (y & Hy & Eo). rewrite Hj in Eo. destruct (own_W _ _ _ HW) as [O _].
          assert (Q : f_body y = Some i) by (apply (O f y i b Hy Hb); exact Hf). rewrite Q in Eo. injection Eo as ->. congruence.
        * intros s' (Js' & Bs' & _ & Fs'). split; [exact Js'|]. split; [congruence|]. intros g x Hg. destruct (Fs' g x Hg) as (y & Hy & ->). apply Fs. exact Hy.
      + split; [exact J1|]. split; [reflexivity|]. eauto.
      + intros s (Js & _). apply ok_ok. exact Js.
    - apply ok_bind. eapply ok_mono; [apply (ok_each (J none)); [|exact J1]|].
      { intros f s _ Hs. eapply ok_mono; [apply (J_destroy_proxies none); exact Hs|]. intros s' Q. apply Q. }
      intros s Js. eapply ok_mono; [apply (ok_destroy_contacts E s); apply frame_refl|]. intros s' F. eapply J_frame; eauto.
  Qed.
  Lemma good_place p a (b : body R) : good b -> good (place_body p a b).
  Proof.
    intros [P S]. split; [apply posed_place|]. intros Q. assert (Q' : b_type b = StaticBody) by exact Q. destruct (S Q') as (_ & _ & S3 & S4). split; [|split; [|split; [exact S3|exact S4]]]; destruct b as [ty fl ii xf sw]; destruct sw; reflexivity.
  Qed.
  Lemma J_set_transform i p a w : W True any w -> J none w -> ok (set_transform i p a w) (J none).
  Proof.
    intros HW H. unfold set_transform. apply ok_bind, ok_any. intros _. apply ok_bind, ok_unwrap. intros b Hb. cbv zeta. set (b1 := place_body p a b).
    destruct (own_W _ _ _ HW) as [O _].
    assert (J1 : J (fun f => In f (b_fixtures b)) (put_body i b1 w)).
    { apply (J_moved none _ w); auto; [intros f; reflexivity|intros f []| |]; cbn; unfold put.
      - intros j c. destruct (Nat.eqb_spec j i) as [->|]; [intros K; injection K as <-; apply good_place; eapply J_bodies; eauto|]. apply (J_bodies _ _ H).
      - intros f x j c Hx Hj. destruct (Nat.eqb_spec j i) as [->|]; [intros _; left; now apply (O f x i b Hx Hb)|]. intros K. right. eauto. }
    apply ok_bind. eapply ok_mono; [apply (J_sync_list (fun f => In f (b_fixtures b)) (put_body i b1 w) i b1 (b_xf b1) (b_fixtures b1)); [exact J1| |]|].
    - cbn. unfold put. now rewrite Nat.eqb_refl.
    - intros f x Hf Hx. apply (O f x i b Hx Hb). exact Hf.
    - intros s [Q _]. apply ok_ok. apply (J_weak _ none) in Q; [exact Q|]. intros g [Q1 Q2]. destruct (Q2 Q1).
  Qed.
  Lemma J_refilter f w : J none w -> ok (refilter f w) (J none).
  Proof.
    intros H. unfold refilter. apply ok_bind, ok_any. intros x. destruct (f_body x); [|now apply ok_ok]. apply ok_bind, ok_any. intros b. apply ok_bind, ok_any. intros _.
    eapply ok_mono; [apply (J_touch none); exact H|]. intros s Q. apply Q.
  Qed.
  Lemma frame_each w g l : (forall (b : body R), still b (g b)) -> ok (each (fun i => mod_body i g) l w) (frame w).
  Proof. intros H. apply (ok_each (frame w)); [|apply frame_refl]. intros i s _ Hs. apply ok_body; auto. Qed.
  Lemma J_run c w w' : W True any w -> J none w -> tame w c -> (forall dt, c <> WStep dt) -> wrun E c w = Ok w' -> J none w'.
  Proof.
    intros HW H Ht Hs. destruct c; cbn [wrun tame] in *.
    - intros Q. apply bind_ok in Q as ([w1 i] & Q & K). injection K as <-. eapply J_create_body; eauto.
    - exact (J_destroy_body i w H w').
    - intros Q. apply bind_ok in Q as ([w1 j] & Q & K). injection K as <-. eapply J_create_fixture; eauto.
    - exact (J_destroy_fixture i f w HW H w').
    - intros Q. apply bind_ok in Q as ([w1 j] & Q & K). injection K as <-. exact (J_frame _ _ _ H (ok_create_joint w w a b collide_connected (frame_refl w) _ Q)).
    - intros Q. exact (J_frame _ _ _ H (ok_destroy_joint w w j (frame_refl w) _ Q)).
    - exact (J_set_type i ty w HW H w').
    - exact (J_set_enabled i f w HW H w').
    - exact (J_set_transform i pos angle w HW H w').
    - intros Q. refine (J_frame _ _ _ H (ok_body w w i (body_setter s) (frame_refl w) _ _ Q)). intros b _. apply still_setter.
    - revert w'. change (ok (b2_assert (negb (w_locked w)) ;;; b <- get_body w i ;; b <- set_mass_data d b ;; Ok (put_body i b w)) (J none)).
      apply ok_bind, ok_any. intros _. apply ok_bind, ok_unwrap. intros b Hb. apply ok_bind, ok_eq. intros b' Eb. apply ok_ok. destruct (good_mass d b b' (J_bodies _ _ H i b Hb) Eb). eapply J_body; eauto.
    - exact (J_reset_mass none i w H w').
    - revert w'. change (ok (b <- get_body w i ;; fs <- get_all (get_fixture w) (b_fixtures b) ;; b <- set_fixed_rotation f fs b ;; Ok (put_body i b w)) (J none)).
      apply ok_bind, ok_unwrap. intros b Hb. apply ok_bind, ok_any. intros fs. apply ok_bind, ok_eq. intros b' Eb. apply ok_ok. destruct (good_fixed f fs b b' (J_bodies _ _ H i b Hb) Eb). eapply J_body; eauto.
    - revert w'. change (ok (set_filter_data f d w) (J none)). unfold set_filter_data. apply ok_bind, ok_unwrap. intros x Hx. apply J_refilter. eapply J_fixture; [exact H|exact Hx|reflexivity].
    - exact (J_refilter f w H w').
    - revert w'. change (ok (set_sensor f s w) (J none)). unfold set_sensor. apply ok_bind, ok_unwrap. intros x Hx. destruct (Bool.eqb s (f_sensor x)); [now apply ok_ok|]. apply ok_bind, ok_any. intros i.
      apply ok_bind. unfold mod_body. apply ok_bind, ok_unwrap. intros b Hb. apply ok_ok. apply ok_ok. eapply J_fixture; [|exact Hx|reflexivity]. eapply J_frame; [exact H|]. eapply frame_put; [apply frame_refl|exact Hb|apply still_awake].
    - revert w'. change (ok (x <- get_fixture w f ;; Ok (put_fixture f (fixture_setter s x) w)) (J none)). apply ok_bind, ok_unwrap. intros x Hx. apply ok_ok. eapply J_fixture; [exact H|exact Hx|]. now destruct s.
    - intros Q. exact (J_frame _ _ _ H (ok_contact w w c (contact_setter s) (frame_refl w) _ Q)).
    - intros Q. apply (J_frame _ _ _ H). revert w' Q. change (ok (set_allow_sleeping f w) (frame w)). unfold set_allow_sleeping. destruct (Bool.eqb _ _); [apply ok_ok, frame_refl|]. cbv zeta. destruct f; [apply ok_ok; exact (frame_refl w)|].
      apply (ok_each (frame w)); [|exact (frame_refl w)]. intros i s _ F. now apply ok_wake.
    - intros Q. injection Q as <-. exact H.
    - intros Q. injection Q as <-. exact H.
    - intros Q. injection Q as <-. exact H.
    - intros Q. apply (J_frame _ _ _ H). refine (frame_each w _ _ _ _ Q). repeat split.
    - apply J_shift; assumption.
    - destruct (Hs dt eq_refl).
  Qed.
End Calls.
