(** collide brings the contacts of awake bodies up to date. *)
From Coq Require Import List ZArith Bool Arith Lia.
From Verif Require Import Base ListFacts Num NumLaws Math Collision Manifold Filter ShapeModel TreeModel TreeSpec BroadModel DynModel WorldModel WorldGraph WorldClaims WorldLogic WorldPhys WorldContact WorldInv WorldSolve WorldToi WorldStep WorldCalls WorldHist WorldFinal WorldAfter WorldNews WorldReach CoverLogic SleepProofs FrontSpec.
Import ListNotations.

Section FrontProofs.
  Context {T : Type} `{NT : Num T} `{TT : NumTrig T} `{VT : NumValid T}.
  Notation world := (world T).
  Implicit Types w v : world.
  Variable E : env T.

  (* what of a body stays as it is *)
  Definition posture (b : body T) := (b_xf b, b_type b, is_enabled b, b_joints b).
  Definition keeps w0 w : Prop :=
    (w_fixtures w = w_fixtures w0 /\ w_joints w = w_joints w0) /\ (forall i, option_map posture (w_bodies w i) = option_map posture (w_bodies w0 i)) /\
    (forall i b0, w_bodies w0 i = Some b0 -> active b0 = true -> exists b, w_bodies w i = Some b /\ active b = true) /\
    (forall c x, w_contacts w c = Some x -> option_map pair_key (w_contacts w0 c) = Some (pair_key x)) /\
    w_listener w = w_listener w0 /\ w_bp w = w_bp w0 /\ (exists l, w_log w = l ++ w_log w0).
  Lemma keeps_refl w : keeps w w.
  Proof. refine (conj (conj eq_refl eq_refl) (conj (fun _ => eq_refl) (conj _ (conj _ (conj eq_refl (conj eq_refl _)))))); [eauto|intros c x ->; reflexivity|now exists []]. Qed.
  Lemma keeps_body w0 w i b b' : keeps w0 w -> w_bodies w i = Some b -> posture b' = posture b -> (active b = true -> active b' = true) -> keeps w0 (put_body i b' w).
  Proof.
    intros (F & X & A & C & L & B & G) Hb Q K. refine (conj F (conj _ (conj _ (conj C (conj L (conj B G)))))).
    - intros j. cbn. unfold put. destruct (Nat.eqb_spec j i) as [->|]; [|apply X]. rewrite <- X, Hb. cbn. congruence.
    - intros j b0 H0 Ha. destruct (A j b0 H0 Ha) as (b1 & H1 & K1). cbn. unfold put. destruct (Nat.eqb_spec j i) as [->|]; [|eauto]. exists b'. split; [reflexivity|]. apply K. congruence.
  Qed.
  Lemma keeps_mod w0 w i g : keeps w0 w -> (forall b, posture (g b) = posture b /\ (active b = true -> active (g b) = true)) -> ok (mod_body i g w) (keeps w0).
  Proof. intros H K. unfold mod_body. apply ok_bind, ok_unwrap. intros b Hb. apply ok_ok. destruct (K b). eapply keeps_body; eauto. Qed.
  Lemma keeps_awake w0 w i : keeps w0 w -> ok (mod_body i (set_awake true) w) (keeps w0).
  Proof. intros H. apply keeps_mod; [exact H|]. intros b. unfold set_awake, active. destruct (is_static b) eqn:S; [rewrite S; auto|]. split; [reflexivity|]. intros _. unfold is_static, is_awake in *. cbn in *. now rewrite S. Qed.
  Lemma keeps_contact w0 w i c c' : keeps w0 w -> w_contacts w i = Some c -> pair_key c' = pair_key c -> keeps w0 (put_contact i c' w).
  Proof.
    intros (F & X & A & C & L & B & G) Hc Q. refine (conj F (conj X (conj A (conj _ (conj L (conj B G)))))). intros j x. cbn. unfold put. destruct (Nat.eqb_spec j i) as [->|]; [|apply C]. intros K. injection K as <-. rewrite Q. now apply C.
  Qed.
  Lemma keeps_log w0 w e : keeps w0 w -> keeps w0 (log e w).
  Proof. intros (F & X & A & C & L & B & (l & G)). refine (conj F (conj X (conj A (conj C (conj L (conj B _)))))). exists (e :: l). cbn. now rewrite G. Qed.
  Lemma keeps_gone w0 w i : keeps w0 w -> keeps w0 (set_w_contacts (put (w_contacts w) i None) w).
  Proof. intros (F & X & A & C & L & B & G). refine (conj F (conj X (conj A (conj _ (conj L (conj B G)))))). intros j x. cbn. unfold put. destruct (Nat.eqb_spec j i); [discriminate|apply C]. Qed.
  Lemma keeps_same w0 w w' : keeps w0 w -> w_fixtures w' = w_fixtures w -> w_joints w' = w_joints w -> w_bodies w' = w_bodies w -> w_contacts w' = w_contacts w -> w_listener w' = w_listener w -> w_bp w' = w_bp w -> w_log w' = w_log w -> keeps w0 w'.
  Proof. intros H A J B C D G F. unfold keeps. rewrite A, B, C, D, F, G, J. exact H. Qed.

  Lemma post_xf (a b : option (body T)) : option_map posture a = option_map posture b -> option_map b_xf a = option_map b_xf b.
  Proof. destruct a, b; cbn; unfold posture; congruence. Qed.

  (* contact [i] has been judged, in a world that looks the same *)
  Definition judged w0 w (i : nat) (x : contact T) : Prop :=
    (exists v, keeps w0 v /\ option_map pair_key (w_contacts v i) = Some (pair_key x) /\
      if sensor_contact w0 x then e_overlap E v i = Ok (cf_touching (c_flags x)) else exists m, e_evaluate E v i = Ok m /\ cf_touching (c_flags x) = Nat.ltb 0 (mf_count m)) /\
    (w_listener w0 = true -> sensor_contact w0 x = false -> cf_touching (c_flags x) = true -> exists l, w_log w = l ++ w_log w0 /\ In (EvPre i) l).
  Lemma judged_more w0 w w' i x : judged w0 w i x -> (exists l, w_log w' = l ++ w_log w) -> judged w0 w' i x.
  Proof. intros [A B] (l & G). split; [exact A|]. intros P Q R. destruct (B P Q R) as (k & H & I). exists (l ++ k). rewrite G, H, app_assoc. split; [reflexivity|]. apply in_or_app. auto. Qed.
  (* one step of the proof: the contacts but one stay, the log grows *)
  Definition only (i : nat) w w' : Prop := (forall j, j <> i -> w_contacts w' j = w_contacts w j) /\ exists l, w_log w' = l ++ w_log w.
  Lemma only_refl i w : only i w w.
  Proof. split; [auto|now exists []]. Qed.
  Lemma only_trans i w1 w2 w3 : only i w1 w2 -> only i w2 w3 -> only i w1 w3.
  Proof. intros [A (l & B)] [C (k & D)]. split; [intros j N; now rewrite C, A|]. exists (k ++ l). now rewrite D, B, app_assoc. Qed.
  Lemma only_put_contact i c w : only i w (put_contact i c w).
  Proof. split; [|now exists []]. intros j N. cbn. unfold put. now destruct (Nat.eqb_spec j i). Qed.
  Lemma only_mod i g w : ok (mod_contact i g w) (only i w).
  Proof. unfold mod_contact. apply ok_bind, ok_any. intros c. apply ok_ok, only_put_contact. Qed.
  Lemma only_body i j g w : ok (mod_body j g w) (only i w).
  Proof. unfold mod_body. apply ok_bind, ok_any. intros c. apply ok_ok. split; [reflexivity|now exists []]. Qed.
  Lemma only_listen i e w : ok (listen E e i w) (only i w).
  Proof. unfold listen. apply ok_bind, ok_any. intros c. apply ok_ok. split; [|now exists [e]]. intros j N. cbn. unfold put. now destruct (Nat.eqb_spec j i). Qed.

  (* the state of the judged contact while the listener is told *)
  Definition K w0 w1 i (t : bool) w : Prop := keeps w0 w /\ only i w1 w /\ exists x, w_contacts w i = Some x /\ cf_touching (c_flags x) = t.
  Lemma K_listen w0 w1 i t e w : K w0 w1 i t w -> ok (listen E e i w) (fun w' => K w0 w1 i t w' /\ w_log w' = e :: w_log w).
  Proof.
    intros (A & B & x & Hx & Q). apply ok_eq. intros w' R. pose proof (only_listen i e w w' R) as O. unfold listen, get_contact in R. rewrite Hx in R. cbn [unwrap bind] in R. injection R as <-. split; [|reflexivity].
    refine (conj _ (conj _ _)); [apply keeps_log; now apply (keeps_contact w0 w i x)|eapply only_trans; eauto|]. exists (apply_edit (e_listen E w e x) x). cbn. unfold put. now rewrite Nat.eqb_refl.
  Qed.
  Lemma update_judges w0 w i : keeps w0 w -> ok (update_contact E i w) (fun w' => keeps w0 w' /\ only i w w' /\ forall x, w_contacts w' i = Some x -> judged w0 w' i x).
  Proof.
    intros H. unfold update_contact. apply ok_bind, ok_eq. intros w1 R1. pose proof (only_mod i _ w w1 R1) as O1. unfold mod_contact, get_contact in R1. destruct (w_contacts w i) as [c0|] eqn:E0; [|discriminate]. cbn [unwrap bind] in R1. injection R1 as R1.
    assert (H1 : keeps w0 w1) by (rewrite <- R1; now apply (keeps_contact w0 w i c0)). assert (E1 : w_contacts w1 i = Some (mod_cflags (set_cf_enabled true) c0)) by (rewrite <- R1; cbn; unfold put; now rewrite Nat.eqb_refl). clear R1. set (c := mod_cflags (set_cf_enabled true) c0) in *.
    unfold get_contact at 1. rewrite E1. cbn [unwrap bind]. cbv zeta. apply ok_bind, ok_unwrap. intros fa Hfa. apply ok_bind, ok_unwrap. intros fb Hfb. apply ok_bind, ok_any. intros a. apply ok_bind, ok_any. intros b. apply ok_bind, ok_any. intros ba. apply ok_bind, ok_any. intros bb.
    assert (Sn : forall x, pair_key x = pair_key c -> sensor_contact w0 x = f_sensor fa || f_sensor fb).
    { intros x Q. unfold pair_key in Q. unfold sensor_contact. rewrite <- (proj1 (proj1 H1)). replace (c_fa x) with (c_fa c) by congruence. replace (c_fb x) with (c_fb c) by congruence. now rewrite Hfa, Hfb. }
    set (good := fun t : bool => if f_sensor fa || f_sensor fb then e_overlap E w1 i = Ok t else exists m, e_evaluate E w1 i = Ok m /\ t = Nat.ltb 0 (mf_count m)).
    apply ok_bind. apply (ok_mono _ (fun p => keeps w0 (fst p) /\ only i w1 (fst p) /\ (exists x, w_contacts (fst p) i = Some x) /\ good (snd p))).
    - unfold good. destruct (f_sensor fa || f_sensor fb).
      + apply ok_bind, ok_eq. intros t Ht. apply ok_bind, ok_eq. intros w2 R2. apply ok_ok. cbn [fst snd]. unfold mod_contact, get_contact in R2. cbn [w_contacts log set_w_log] in R2. rewrite E1 in R2. cbn [unwrap bind] in R2. injection R2 as <-.
        refine (conj _ (conj _ (conj _ Ht))); [apply (keeps_contact w0 _ i c); [now apply keeps_log|exact E1|reflexivity]| |eexists; cbn; unfold put; now rewrite Nat.eqb_refl].
        split; [|now exists [EvNarrow i]]. intros j N. cbn. unfold put. now destruct (Nat.eqb_spec j i).
      + apply ok_bind, ok_eq. intros m Hm. apply ok_bind, ok_eq. intros m' Hm'. apply ok_bind, ok_eq. intros w2 R2. unfold mod_contact, get_contact in R2. cbn [w_contacts log set_w_log] in R2. rewrite E1 in R2. cbn [unwrap bind] in R2. injection R2 as R2.
        assert (H2 : keeps w0 w2 /\ only i w1 w2 /\ exists x, w_contacts w2 i = Some x).
        { rewrite <- R2. refine (conj _ (conj _ _)); [apply (keeps_contact w0 _ i c); [now apply keeps_log|exact E1|reflexivity]| |eexists; cbn; unfold put; now rewrite Nat.eqb_refl].
          split; [|now exists [EvNarrow i]]. intros j N. cbn. unfold put. now destruct (Nat.eqb_spec j i). }
        clear R2. apply ok_bind. apply (ok_mono _ (fun w3 => keeps w0 w3 /\ only i w1 w3 /\ exists x, w_contacts w3 i = Some x)).
        * destruct (Bool.eqb _ _); [now apply ok_ok|]. destruct H2 as (A & B & x & Hx). apply ok_bind. apply ok_eq. intros w3 R3. pose proof (keeps_awake w0 w2 a A w3 R3) as A3. pose proof (only_body i a _ w2 w3 R3) as B3. assert (X3 : w_contacts w3 = w_contacts w2) by (unfold mod_body in R3; apply bind_ok in R3 as (? & _ & R3); now injection R3 as <-).
          apply ok_eq. intros w4 R4. pose proof (keeps_awake w0 w3 b A3 w4 R4) as A4. pose proof (only_body i b _ w3 w4 R4) as B4. assert (X4 : w_contacts w4 = w_contacts w3) by (unfold mod_body in R4; apply bind_ok in R4 as (? & _ & R4); now injection R4 as <-).
          refine (conj A4 (conj _ _)); [eapply only_trans; [|exact B4]; eapply only_trans; eauto|]. exists x. now rewrite X4, X3.
        * intros w3 (A & B & C). apply ok_ok. cbn [fst snd]. refine (conj A (conj B (conj C _))). exists m. auto.
    - intros [w2 t] (A & B & (x & Hx) & G). cbn [fst snd] in *. apply ok_bind, ok_eq. intros w3 R3. unfold mod_contact, get_contact in R3. rewrite Hx in R3. cbn [unwrap bind] in R3. injection R3 as R3.
      assert (K3 : K w0 w i t w3).
      { rewrite <- R3. refine (conj _ (conj _ _)); [now apply (keeps_contact w0 w2 i x)| |eexists; split; [cbn; unfold put; now rewrite Nat.eqb_refl|reflexivity]]. eapply only_trans; [exact O1|]. eapply only_trans; [exact B|apply only_put_contact]. }
      clear R3. assert (Kc : option_map pair_key (w_contacts w0 i) = Some (pair_key c)) by (apply H1; exact E1).
      assert (Fin : forall w', K w0 w i t w' -> (w_listener w0 = true -> f_sensor fa || f_sensor fb = false -> t = true -> exists l, w_log w' = (EvPre i :: l) ++ w_log w) -> keeps w0 w' /\ only i w w' /\ forall x, w_contacts w' i = Some x -> judged w0 w' i x).
      { intros w' (A' & B' & y & Hy & Qy) An. refine (conj A' (conj B' _)). intros z Hz. replace z with y by congruence. assert (Ky : pair_key y = pair_key c) by (destruct A' as (_ & _ & _ & C' & _); specialize (C' i y Hy); congruence).
        split.
        - exists w1. refine (conj H1 (conj _ _)); [rewrite E1; cbn; now rewrite Ky|]. rewrite (Sn y Ky), Qy. exact G.
        - rewrite (Sn y Ky), Qy. intros P1 P2 P3. destruct (An P1 P2 P3) as (l & Hl). destruct H as (_ & _ & _ & _ & _ & _ & (k & Hk)). exists ((EvPre i :: l) ++ k). rewrite Hl, Hk, app_assoc. split; [reflexivity|now left]. }
      assert (Ls : forall w', keeps w0 w' -> w_listener w' = w_listener w0) by (intros w' Q; apply Q).
      destruct (w_listener w3) eqn:EL; [|apply ok_ok, Fin; [exact K3|]; rewrite <- (Ls w3 (proj1 K3)), EL; discriminate].
      apply ok_bind. apply (ok_mono _ (K w0 w i t)); [destruct (_ && _); [eapply ok_mono; [apply K_listen; exact K3|intros ? [Q _]; exact Q]|now apply ok_ok]|]. intros w4 K4.
      apply ok_bind. apply (ok_mono _ (K w0 w i t)); [destruct (_ && _); [eapply ok_mono; [apply K_listen; exact K4|intros ? [Q _]; exact Q]|now apply ok_ok]|]. intros w5 K5.
      destruct (f_sensor fa || f_sensor fb) eqn:ES; [apply ok_ok, Fin; [exact K5|discriminate]|]. destruct t; [|apply ok_ok, Fin; [exact K5|discriminate]]. cbn [negb andb].
      eapply ok_mono; [apply K_listen; exact K5|]. intros w6 [K6 L6]. apply Fin; [exact K6|]. intros _ _ _. destruct K5 as (_ & [_ (k & Hk)] & _). exists k. rewrite L6, Hk. reflexivity.
  Qed.

  (** ** the contacts that were handled *)
  Lemma keeps_off w0 w i : keeps w0 w -> forall b, w_bodies w i = Some b -> active b = false -> ~ at_work w0 i.
  Proof.
    intros (_ & _ & A & _) b Hb N (b0 & H0 & Aw & St). destruct (A i b0 H0) as (b1 & H1 & K1); [|congruence]. unfold active. rewrite Aw. unfold is_static. destruct (b_type b0); auto; congruence.
  Qed.
  Lemma keeps_bodies w0 w x y : keeps w0 w -> pair_key x = pair_key y -> bodies_of w x = bodies_of w0 y.
  Proof. intros ((F & _) & _) Q. unfold bodies_of, body_of. rewrite F. unfold pair_key in Q. replace (c_fa y) with (c_fa x) by congruence. now replace (c_fb y) with (c_fb x) by congruence. Qed.
  Definition fresh w0 w i x : Prop := ~ busy w0 w0 x \/ (judged w0 w i x /\ boxes_meet w0 x).
  Lemma fresh_more w0 w w' i x : fresh w0 w i x -> (exists l, w_log w' = l ++ w_log w) -> fresh w0 w' i x.
  Proof. intros [H|[H K]] G; [now left|right]. split; [eapply judged_more; eauto|exact K]. Qed.
  Definition Iv w0 (r : list nat) (st : world * list nat) : Prop :=
    keeps w0 (fst st) /\ forall c x, w_contacts (fst st) c = Some x -> In c r \/ In c (snd st) \/ fresh w0 (fst st) c x.
  Lemma Iv_next w0 i r w dead w' dead' : Iv w0 (i :: r) (w, dead) -> keeps w0 w' -> only i w w' -> (forall c, In c dead -> In c dead') -> (forall x, w_contacts w' i = Some x -> In i dead' \/ fresh w0 w' i x) -> Iv w0 r (w', dead').
  Proof.
    intros [_ H] K [O G] D F. split; [exact K|]. cbn [fst snd] in *. intros c x Hx. destruct (Nat.eq_dec c i) as [->|N]; [right; auto|]. rewrite (O c N) in Hx. destruct (H c x Hx) as [[->|]|[|]]; auto; [congruence|]. right; right. eapply fresh_more; eauto.
  Qed.
  Lemma Iv_collide1 w0 i r st : Iv w0 (i :: r) st -> ok (collide1 E i st) (Iv w0 r).
  Proof.
    destruct st as [w dead]. intros H. pose proof (proj1 H) as HK. cbn [fst] in HK. unfold collide1. apply ok_bind, ok_unwrap. intros c Hc. apply ok_bind, ok_eq. intros a Ha. apply ok_bind, ok_eq. intros b Hb.
    assert (Bo : forall x, pair_key x = pair_key c -> bodies_of w0 x = Some (a, b)).
    { intros x Q. rewrite <- (keeps_bodies w0 w c x HK (eq_sym Q)). unfold bodies_of, body_of. unfold fixture_body, get_fixture in Ha, Hb. destruct (w_fixtures w (c_fa c)); [|discriminate]. destruct (w_fixtures w (c_fb c)); [|discriminate]. cbn in Ha, Hb. destruct (f_body f); [|discriminate]. destruct (f_body f0); [|discriminate]. cbn in Ha, Hb. congruence. }
    apply ok_bind. apply (ok_mono _ (fun p => keeps w0 (fst p) /\ only i w (fst p) /\ exists x, w_contacts (fst p) i = Some x)).
    { assert (Hl : forall e, only i w (log e w)) by (intros e; split; [reflexivity|now exists [e]]).
      destruct (cf_filter (c_flags c)).
      - apply ok_bind, ok_any. intros may. destruct (negb may); [apply ok_ok; eauto using only_refl|]. cbv zeta. destruct (negb _); [apply ok_ok; cbn [fst]; eauto using keeps_log|]. apply ok_bind, ok_eq. intros w1 R. apply ok_ok. cbn [fst]. pose proof (only_mod i _ _ w1 R) as O1. unfold mod_contact, get_contact in R. cbn [w_contacts log set_w_log] in R. rewrite Hc in R. cbn [unwrap bind] in R. injection R as <-.
        refine (conj _ (conj (only_trans _ _ _ _ (Hl _) O1) _)); [apply (keeps_contact w0 _ i c); [now apply keeps_log|exact Hc|reflexivity]|]. eexists. cbn. unfold put. now rewrite Nat.eqb_refl.
      - apply ok_ok. eauto using only_refl. }
    intros [w1 keep] (K1 & O1 & (c1 & Hc1)). cbn [fst] in *. assert (Kc : pair_key c1 = pair_key c) by (destruct K1 as (_ & _ & _ & C & _); specialize (C i c1 Hc1); destruct HK as (_ & _ & _ & C' & _); specialize (C' i c Hc); congruence).
    destruct (negb keep); [apply ok_ok; apply (Iv_next w0 i r w dead); auto; [intros; apply in_or_app; auto|intros; left; apply in_or_app; right; now left]|].
    apply ok_bind, ok_unwrap. intros ba Hba. apply ok_bind, ok_unwrap. intros bb Hbb. destruct (negb (active ba) && negb (active bb)) eqn:Ac.
    { apply ok_ok. apply (Iv_next w0 i r w dead); auto. intros x Hx. right. left. intros (a' & b' & Q & D). apply andb_prop in Ac as [A1 A2]. rewrite negb_true_iff in A1, A2. assert (x = c1) by congruence. subst x. rewrite (Bo c1 Kc) in Q. injection Q as <- <-. destruct D as [D|D]; revert D; [apply (keeps_off w0 w1 a K1 ba Hba A1)|apply (keeps_off w0 w1 b K1 bb Hbb A2)]. }
    apply ok_bind, ok_eq. intros ida Hia. apply ok_bind, ok_eq. intros idb Hib. apply ok_bind, ok_eq. intros ov Hov. destruct ov; cbn [negb]; [|apply ok_ok; apply (Iv_next w0 i r w dead); auto; [intros; apply in_or_app; auto|intros; left; apply in_or_app; right; now left]].
    apply ok_bind. eapply ok_mono; [apply (update_judges w0 w1 i K1)|]. intros w2 (K2 & O2 & J). apply ok_ok. apply (Iv_next w0 i r w dead); eauto using only_trans. intros x Hx. right. right. split; [now apply J|].
    assert (Kx : pair_key x = pair_key c) by (destruct K2 as (_ & _ & _ & C & _); specialize (C i x Hx); destruct HK as (_ & _ & _ & C' & _); specialize (C' i c Hc); congruence). unfold pair_key in Kx.
    assert (PI : forall f k id, proxy_id w1 f k = Ok id -> proxy_is w0 f k id).
    { intros f k id R. unfold proxy_id in R. apply bind_ok in R as (y & Hy & R). apply bind_ok in R as (q & Hq & R). unfold get_fixture in Hy. rewrite (proj1 (proj1 K1)) in Hy. exists y, q. destruct (w_fixtures w0 f) as [y0|] eqn:Ey; [|discriminate]. cbn in Hy. assert (y0 = y) by congruence. subst y0. unfold get in Hq. destruct (nth_error (f_proxies y) k) as [q0|] eqn:En; [|discriminate]. assert (q0 = q) by congruence. subst q0. destruct (fp_id q) as [id0|] eqn:Eid; [|discriminate]. cbn in R. assert (id0 = id) by congruence. subst id0. auto. }
    unfold bp_test_overlap in Hov. replace (w_bp w1) with (w_bp w0) in Hov by (symmetry; apply K1). apply bind_ok in Hov as (A & HA & Hov). apply bind_ok in Hov as (B & HB & Hov). injection Hov as Hov.
    exists ida, idb, A, B. replace (c_fa x) with (c_fa c) by congruence. replace (c_ia x) with (c_ia c) by congruence. replace (c_fb x) with (c_fb c) by congruence. replace (c_ib x) with (c_ib c) by congruence. auto.
  Qed.
  Definition Jv w0 (r : list nat) w : Prop := keeps w0 w /\ forall c x, w_contacts w c = Some x -> In c r \/ fresh w0 w c x.
  Lemma Jv_destroy w0 i r w : Jv w0 (i :: r) w -> ok (destroy_contact E i w) (Jv w0 r).
  Proof.
    intros H. enough (ok (destroy_contact E i w) (fun w' => keeps w0 w' /\ only i w w' /\ w_contacts w' i = None)) as G.
    { eapply ok_mono; [exact G|]. intros w' (K' & [O L] & N). split; [exact K'|]. intros c x Hx. destruct (Nat.eq_dec c i) as [->|Ne]; [congruence|]. rewrite (O c Ne) in Hx. destruct H as [_ H]. destruct (H c x Hx) as [[->|]|]; auto; [congruence|]. right. eapply fresh_more; eauto. }
    destruct H as [H _]. unfold destroy_contact. apply ok_bind, ok_unwrap. intros c Hc. apply ok_bind, ok_any. intros a. apply ok_bind, ok_any. intros b. apply ok_bind. apply (ok_mono _ (fun v => keeps w0 v /\ only i w v)).
    { destruct (_ && _); [|apply ok_ok; auto using only_refl]. apply ok_eq. intros v R. pose proof (only_listen i _ w v R) as O. split; [|exact O]. unfold listen, get_contact in R. rewrite Hc in R. cbn [unwrap bind] in R. injection R as <-. apply keeps_log. now apply (keeps_contact w0 w i c). }
    intros w1 [K1 O1]. apply ok_bind, ok_any. intros l. cbv zeta. apply ok_bind, ok_unwrap. intros ba Hba. apply ok_bind, ok_any. intros la. apply ok_bind, ok_unwrap. intros bb Hbb. apply ok_bind, ok_any. intros lb. apply ok_bind, ok_any. intros c1.
    match type of Hbb with w_bodies ?W _ = _ => set (w2 := W) in * end. assert (K2 : keeps w0 w2) by (unfold w2; apply (keeps_body w0 _ a ba); [now apply (keeps_same w0 w1)|exact Hba|reflexivity|auto]). assert (O2 : only i w w2) by (eapply only_trans; [exact O1|]; split; [reflexivity|now exists []]).
    set (w3 := put_body b _ w2). assert (K3 : keeps w0 w3) by (unfold w3; apply (keeps_body w0 _ b bb); [exact K2|exact Hbb|reflexivity|auto]). assert (O3 : only i w w3) by (eapply only_trans; [exact O2|]; split; [reflexivity|now exists []]). clearbody w3. clear w2 Hbb K2 O2.
    apply ok_bind. apply (ok_mono _ (fun v => keeps w0 v /\ only i w v)).
    { unfold wake_touching. apply ok_bind, ok_any. intros fa. apply ok_bind, ok_any. intros fb. destruct (_ && _); [|apply ok_ok; auto]. apply ok_bind, ok_any. intros a'. apply ok_bind, ok_eq. intros v1 R1. pose proof (keeps_awake w0 w3 a' K3 v1 R1) as Q1. pose proof (only_body i a' _ _ v1 R1) as P1. apply ok_bind, ok_any. intros b'. apply ok_eq. intros v2 R2. split; [apply (keeps_awake w0 v1 b' Q1 v2 R2)|]. eapply only_trans; [exact O3|]. eapply only_trans; [exact P1|]. apply (only_body i b' _ _ v2 R2). }
    intros w4 [K4 O4]. apply ok_bind, ok_any. intros n. apply ok_ok. refine (conj _ (conj _ _)).
    - apply (keeps_gone w0 (set_w_contact_count n w4)). now apply (keeps_same w0 w4).
    - destruct O4 as [O L]. split; [|exact L]. intros j N. cbn. unfold put. destruct (Nat.eqb_spec j i); [contradiction|]. now apply O.
    - cbn. unfold put. now rewrite Nat.eqb_refl.
  Qed.
  Lemma collide_fresh w : (forall c x, w_contacts w c = Some x -> In c (w_contact_list w)) -> ok (collide E w) (Jv w []).
  Proof.
    intros L. unfold collide. apply ok_bind. eapply ok_mono; [apply (ok_each_pos (Iv w)); [intros i r st; apply Iv_collide1|]|].
    - split; [apply keeps_refl|]. intros c x Hx. left. eapply L; eauto.
    - intros [w1 dead] [K1 H1]. apply (ok_each_pos (Jv w)); [intros i r v; apply Jv_destroy|]. split; [exact K1|]. intros c x Hx. destruct (H1 c x Hx) as [[]|[|]]; auto.
  Qed.

  (** ** the search for new contacts *)
  Definition stays w0 w : Prop :=
    (w_fixtures w = w_fixtures w0 /\ w_joints w = w_joints w0 /\ forall i, option_map (fun b => (b_flags b, posture b)) (w_bodies w i) = option_map (fun b => (b_flags b, posture b)) (w_bodies w0 i)) /\
    w_listener w = w_listener w0 /\ w_step_complete w = w_step_complete w0 /\ (exists l, w_log w = l ++ w_log w0).
  Lemma stays_refl w : stays w w.
  Proof. refine (conj (conj eq_refl (conj eq_refl (fun _ => eq_refl))) (conj eq_refl (conj eq_refl _))). now exists []. Qed.
  Lemma stays_mod w0 w i l : stays w0 w -> ok (mod_body i (fun x => set_b_contacts (l x) x) w) (stays w0).
  Proof.
    intros ((F & J & A) & L & S & G). unfold mod_body. apply ok_bind, ok_unwrap. intros b Hb. apply ok_ok. refine (conj (conj F (conj J _)) (conj L (conj S G))). intros j. cbn. unfold put. destruct (Nat.eqb_spec j i) as [->|]; [|apply A]. rewrite <- A, Hb. reflexivity.
  Qed.
  Lemma stays_body w0 w i b0 : stays w0 w -> w_bodies w0 i = Some b0 -> exists b, w_bodies w i = Some b /\ b_flags b = b_flags b0 /\ b_type b = b_type b0.
  Proof. intros ((_ & _ & A) & _) H. specialize (A i). rewrite H in A. destruct (w_bodies w i) as [b|]; [|discriminate]. cbn in A. unfold posture in A. exists b. split; [reflexivity|]. split; congruence. Qed.
  Lemma stays_pair w0 w (u u' : option (nat * nat)) : stays w0 w -> ok (add_pair E w u u') (stays w0).
  Proof.
    intros H. unfold add_pair. apply ok_bind, ok_any. intros [fa ia]. apply ok_bind, ok_any. intros [fb ib]. apply ok_bind, ok_any. intros a. apply ok_bind, ok_any. intros b. destruct (Nat.eqb a b); [now apply ok_ok|]. apply ok_bind, ok_any. intros bb. apply ok_bind, ok_any. intros kn. destruct kn; [now apply ok_ok|]. apply ok_bind, ok_any. intros may. destruct (negb may); [now apply ok_ok|]. cbv zeta.
    assert (H1 : stays w0 (log (EvFilter fa fb) w)). { destruct H as (A & L & S & (l & G)). refine (conj A (conj L (conj S _))). exists (EvFilter fa fb :: l). cbn. now rewrite G. }
    destruct (negb _); [now apply ok_ok|]. apply ok_bind, ok_any. intros c. unfold link_contact. cbv zeta. apply ok_bind, ok_any. intros a'. apply ok_bind, ok_any. intros b'. apply ok_bind. eapply ok_mono; [apply (stays_mod w0); exact H1|]. intros w2 H2. apply ok_bind. eapply ok_mono; [apply (stays_mod w0); exact H2|]. intros w3 H3. apply ok_ok. exact H3.
  Qed.
  Lemma stays_find w : ok (find_new_contacts E w) (stays w).
  Proof. unfold find_new_contacts. apply ok_bind. eapply ok_mono; [apply (ok_pairs _ _ _ (stays w)); [apply stays_refl|intros s u v; apply stays_pair]|]. intros [bp w1] H1. now apply ok_ok. Qed.

  Lemma front_fresh oks w w2 : env_ok True E -> W True oks w -> step_front E w = Ok w2 -> exists w1, stays w w1 /\ W True oks w1 /\ Jv w1 [] w2 /\ collide E w1 = Ok w2.
  Proof.
    intros EO H R. assert (CO : forall v : world, classes_ok True v) by (intros v; unfold classes_ok; intros; now left). unfold step_front in R. apply bind_ok in R as (w1 & Q1 & R). exists (set_w_locked true w1).
    assert (stays w w1 /\ W True oks w1) as [S1 W1].
    { destruct (w_new_contacts w); [|injection Q1 as <-; split; [apply stays_refl|exact H]]. apply bind_ok in Q1 as (v & Ef & Q1). injection Q1 as <-. destruct (sat_true _ _ (sat_find True oks E w H (CO w)) _ Ef) as (Wv & Gv & _). split; [exact (stays_find w v Ef)|]. eapply W_frame0; eauto. }
    assert (W1' : W True oks (set_w_locked true w1)) by (eapply W_frame0; eauto). refine (conj S1 (conj W1' (conj _ R))). apply (collide_fresh (set_w_locked true w1)); [|exact R]. intros c x Hx. destruct (W_contacts _ _ _ W1') as ((_ & Ic & _) & _). apply Ic. cbn in *. now rewrite Hx.
  Qed.

  (* what the front of the step leaves alone *)
  Lemma front_same oks w w2 : env_ok True E -> W True oks w -> step_front E w = Ok w2 -> w_fixtures w2 = w_fixtures w /\ w_joints w2 = w_joints w /\ forall i, option_map posture (w_bodies w2 i) = option_map posture (w_bodies w i).
  Proof.
    intros EO H R. destruct (front_fresh oks w w2 EO H R) as (w1 & ((F & J & A) & _) & _ & (((F' & J') & A' & _) & _) & _). refine (conj _ (conj _ _)); [congruence|congruence|]. intros i. rewrite A'. specialize (A i). destruct (w_bodies w1 i), (w_bodies w i); cbn in *; congruence.
  Qed.
  Theorem front_up_to_date oks w w2 : env_ok True E -> W True oks w -> step_front E w = Ok w2 -> forall c x, w_contacts w2 c = Some x -> busy w w2 x -> up_to_date E w2 c x /\ boxes_meet w2 x /\ announced w w2 c x.
  Proof.
    intros EO H R c x Hx (a & b & Hab & Bu). destruct (front_fresh oks w w2 EO H R) as (w1 & S1 & _ & (K2 & F2) & _).
    destruct (F2 c x Hx) as [[]|[N|[[(v & Kv & Kc & An) Pre] Bx]]].
    - destruct N. exists a, b. rewrite (keeps_bodies w1 w2 x x K2 eq_refl) in Hab. split; [exact Hab|].
      assert (Q : forall i, at_work w i -> at_work w1 i). { intros i (b0 & H0 & A0 & T0). destruct (stays_body w w1 i b0 S1 H0) as (b1 & H1 & F1 & T1). exists b1. unfold is_awake in *. rewrite F1, T1. auto. }
      destruct Bu; auto.
    - pose proof Kv as ((V1 & _) & V2 & _). pose proof K2 as ((U1 & _) & U2 & _ & _ & _ & U6 & _). assert (Se : sensor_contact w2 x = sensor_contact w1 x) by (unfold sensor_contact; now rewrite U1). refine (conj _ (conj _ _)).
      + exists v. rewrite Se. split; [|exact An]. refine (conj _ (conj _ Kc)); [congruence|]. intros i. apply post_xf. now rewrite V2, U2.
      + destruct Bx as (p & q & A & B & P1 & P2 & G1 & G2 & O). exists p, q, A, B. unfold proxy_is. rewrite U1, U6. auto.
      + intros L Ns Tc. rewrite Se in Ns. destruct S1 as (_ & L1 & _ & (l & G)). destruct (Pre ltac:(congruence) Ns Tc) as (k & Hk & Ik). exists (k ++ l). unfold news. rewrite Hk, G, app_assoc. split; [reflexivity|]. apply in_or_app. auto.
  Qed.
  (* the rest of the step only adds to the log *)
  Lemma back_log oks dt w2 w' : env_ok True E -> W True oks w2 -> w_step_complete w2 = true -> step_back E dt w2 = Ok w' -> exists l, w_log w' = l ++ w_log w2.
  Proof.
    intros EO W2 S2 R. assert (CO : forall v : world, classes_ok True v) by (intros v; unfold classes_ok; intros; now left).
    enough (Hd w2 false [] w') as (_ & _ & (l & L & _) & _) by (exists l; exact L).
    assert (Hd w2 false [] w2) as H2. { refine (conj (fun _ => eq_refl) (conj _ (conj _ (conj _ _)))); try easy; [|now exists []]. intros c Hc. destruct (W_contacts _ _ _ W2) as ((_ & _ & _ & Fr) & _). cbn in Fr. destruct (Nat.lt_ge_cases c (w_next_contact w2)) as [|Q]; auto. apply Fr in Q. now destruct (w_contacts w2 c). }
    unfold step_back in R. apply bind_ok in R as (w3 & Q3 & R). assert (Hd w2 false [] w3 /\ W True oks w3 /\ w_step_complete w3 = true) as (H3 & W3 & S3).
    { destruct (w_step_complete w2 && nlt (nofZ 0) dt); [|injection Q3 as <-; auto]. destruct (sat_true _ _ (sat_solve True oks E EO w2 W2 dt (CO w2)) _ Q3) as (W3 & St3 & _). apply (Hd_solve E w2 false) in Q3; auto. refine (conj Q3 (conj W3 _)). destruct St3 as (Q & _). unfold switches in Q. congruence. }
    clear Q3. apply bind_ok in R as (w4 & Q4 & R). assert (Hd w2 false [] w4) as H4.
    { destruct (w_continuous w3 && nlt (nofZ 0) dt); [|now injection Q4 as <-]. unfold solve_toi in Q4. rewrite S3 in Q4. apply bind_ok in Q4 as (v & Qv & Q4).
      assert (Hd w2 true [] v) as Hv. { apply (reset_tois w2 w3 H3); [|exact Qv]. intros c Hc. destruct (W_contacts _ _ _ W3) as ((_ & Ic & _) & _). cbn in Ic. apply Ic. now destruct (w_contacts w3 c). }
      pose proof (Hd_loop E w2 _ _ _ Hv _ Q4) as Hv'. eapply Hd_less; eauto; easy. }
    set (w5 := if nlt (nofZ 0) dt then _ else w4) in R. assert (Hd w2 false [] w5) as H5 by (unfold w5; destruct (nlt (nofZ 0) dt); auto; eapply Hd_same; eauto; intros f; reflexivity). clearbody w5. cbv zeta in R. apply bind_ok in R as (w6 & Q6 & R). assert (Hd w2 false [] w6) as H6.
    { clear R. destruct (w_clear_forces w5); [|now injection Q6 as <-]. revert w6 Q6. unfold clear_forces. apply Hd_each; auto. intros i v Hv. now apply Hd_body. }
    injection R as <-. eapply Hd_same; eauto. intros f. reflexivity.
  Qed.
  Hypothesis EA : answers E.
  Theorem reach_front w w2 : wreach E w -> step_front E w = Ok w2 -> forall c x, w_contacts w2 c = Some x -> busy w w2 x -> up_to_date E w2 c x /\ boxes_meet w2 x /\ announced w w2 c x.
  Proof. intros H. exact (front_up_to_date _ w w2 (env_any E EA) (reach_W E EA w H)). Qed.
  Theorem reach_announced w dt w2 w' : wreach E w -> w_step_complete w = true -> step_front E w = Ok w2 -> step E dt w = Ok w' -> forall c x, w_contacts w2 c = Some x -> busy w w2 x ->
    w_listener w = true -> sensor_contact w2 x = false -> cf_touching (c_flags x) = true -> exists l, news w w' l /\ In (EvPre c) l.
  Proof.
    intros H Sc Rf R c x Hx Bu Li Ns To. destruct (reach_front w w2 H Rf c x Hx Bu) as (_ & _ & An). destruct (An Li Ns To) as (l & L1 & L2). rewrite r_step_parts, Rf in R. cbn [bind] in R.
    destruct (front_fresh _ w w2 (env_any E EA) (reach_W E EA w H) Rf) as (w1 & S1 & W1 & _ & Rc). destruct (sat_true _ _ (sat_collide True any E (env_any E EA) w1 W1) _ Rc) as (W2 & St2 & _).
    assert (S2 : w_step_complete w2 = true). { destruct S1 as (_ & _ & S1 & _). destruct St2 as (Q & _). unfold switches in Q. congruence. }
    destruct (back_log _ dt w2 w' (env_any E EA) W2 S2 R) as (k & K). exists (k ++ l). unfold news in *. rewrite K, L1, app_assoc. split; [reflexivity|]. apply in_or_app. auto.
  Qed.
End FrontProofs.
