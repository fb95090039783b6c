(** What the time step keeps: callbacks, contact updates, the motion of proxies. *)
From Coq Require Import List ZArith Bool Arith Lia.
From Verif Require Import Base Num Math Collision Manifold Filter ShapeModel ListFacts ManifoldProofs TreeModel TreeSpec BroadModel BroadSpec BroadFinal DynModel WorldModel WorldGraph WorldGops WorldLogic.
Import ListNotations.

(** ** calls of the broad phase *)
Section Calls.
  Context {T : Type} `{NT : Num T}.
  Variable oks : vec2 T -> Prop.
  Implicit Types vf : nat -> option (fview T).
  Implicit Types m : @pmap T (nat * nat).

  Lemma pm_same m s id fb u f x y : pm_ok m s -> m id = Some (fb, u, f) -> pm_ok (pset m id (Some (x, u, y))) s.
  Proof.
    intros [A B] H. unfold pset. split.
    - intros f' k id' K. destruct (Nat.eqb_spec id' id) as [->|]; [|now apply A]. destruct (A _ _ _ K) as (b & l & E). rewrite H in E. injection E as _ -> _. eauto.
    - intros id' box u' fl. destruct (Nat.eqb_spec id' id) as [->|]; [|apply B]. intros E. injection E as <- <- <-. eapply B; eauto.
  Qed.
  Lemma fits_move b vf f k id box d : fits oks b vf -> slot vf f k = Some id -> exists b', bp_move b id box d = Ok b' /\ fits oks b' vf.
  Proof.
    intros (A & m & pw & n & B & P) H. destruct (proj1 P _ _ _ H) as (fb & fl & Em). assert (Hl : live m id) by (unfold live; congruence).
    destruct (calls_any oks b m pw n B) as (_ & _ & Hm & _). destruct (Hm id box d Hl) as (b' & Eb). exists b'. split; auto. split; auto.
    destruct (keep_box fb box (predict box d)) eqn:Ek.
    - exists m, pw, n. split; auto. eapply breach_move_kept; eauto.
    - eexists _, _, n. split; [eapply breach_move; eauto|]. eapply pm_same; eauto.
  Qed.
  Lemma fits_touch b vf f k id : fits oks b vf -> slot vf f k = Some id -> exists b', bp_touch b id = Ok b' /\ fits oks b' vf.
  Proof.
    intros (A & m & pw & n & B & P) H. destruct (proj1 P _ _ _ H) as (fb & fl & Em). assert (Hl : live m id) by (unfold live; congruence).
    destruct (calls_any oks b m pw n B) as (_ & _ & _ & Hm). destruct (Hm id Hl) as (b' & Eb). exists b'. split; auto. split; auto.
    eexists m, _, n. split; [eapply breach_touch; eauto|auto].
  Qed.
End Calls.

Section Phys.
  Context {T : Type} `{NT : Num T} `{TT : NumTrig T} `{VT : NumValid T}.
  Notation world := (world T).
  Local Open Scope num_scope.
  Implicit Types w : world.
  Variable p : Prop.
  Variable oks : vec2 T -> Prop.
  Variable E : env T.

  (* what is needed of the environment: if [p], nothing but that it returns or panics; the routines are called only with contacts and islands of the world *)
  Definition ready w : Prop := contacts_ok (graph_of w) /\ nums p w.
  Definition in_world w (is : island) : Prop :=
    ready w /\ (forall i, In i (is_bodies is) -> w_bodies w i <> None) /\ (forall i, In i (is_contacts is) -> w_contacts w i <> None).
  Definition env_ok : Prop :=
    (forall w i, ready w -> w_contacts w i <> None -> sat p (e_evaluate E w i) (mok p)) /\
    (forall w i, ready w -> w_contacts w i <> None -> sat p (e_overlap E w i) (fun _ => True)) /\
    (forall w i, ready w -> w_contacts w i <> None -> sat p (e_toi E w i) (fun _ => True)) /\
    (forall w is dt, in_world w is -> sat p (e_solve E w is dt) (fun s => forall c, p \/ length (so_points s c) = 2)) /\
    (forall w is a b dt, in_world w is -> sat p (e_solve_toi E w is a b dt) (fun _ => True)) /\
    (forall w e c, mok p (c_manifold c) -> mok p (ce_manifold (e_listen E w e c))).
  Hypothesis EO : env_ok.

  Variable w0 : world.
  Hypothesis C0 : contacts_ok (graph_of w0).
  Notation phys := (phys p oks w0).
  Notation cok := (cok p).
  Notation bok := (bok p).

  Lemma contacts_now w : links w0 w -> contacts_ok (graph_of w).
  Proof.
    intros L. pose proof (geq_sym _ _ (links_geq _ _ L)) as Q. destruct Q as (Eb & Ef & Ec & Ej & En & El & Ek).
    injection En as N1 N2 N3 N4. injection El as L1 L2 L3. injection Ek as K1 K2 K3.
    refine (contacts_frame (graph_of w0) _ _ Ec _ _ N3 L2 K2 C0).
    - intros i. unfold contacts_of. now rewrite Eb.
    - intros c s. apply cbody_ext. apply geq_sym. now apply links_geq.
    - intros c v Hc. destruct C0 as (_ & _ & C3 & _). destruct (C3 c v Hc) as (fa & fb & Ha & Hb & H). exists fa, fb. rewrite <- !Ef. auto.
  Qed.

  Definition physh (tt : nat -> bool) w : Prop := phys w /\ forall c, touches w c = tt c.
  Lemma phys_h w : phys w -> physh (touches w) w.
  Proof. split; auto. Qed.
  Lemma h_body tt w i f : physh tt w -> w_bodies w0 i <> None -> (forall b, bok b -> view_b (f b) = view_b b /\ bok (f b)) -> sat p (mod_body i f w) (physh tt).
  Proof.
    intros [P H] Hi Hf. apply sat_and.
    - apply sat_mod_body; auto. apply (links_body w0); auto. apply P.
    - unfold mod_body. apply sat_bind. apply sat_body; [apply (links_body w0); auto; apply P|]. intros b Hb. exact H.
  Qed.
  Lemma h_contact tt w i f : physh tt w -> w_contacts w0 i <> None ->
    (forall c, cok c -> view_cf (f c) = view_cf c /\ cok (f c) /\ cf_touching (c_flags (f c)) = cf_touching (c_flags c)) ->
    sat p (mod_contact i f w) (physh tt).
  Proof.
    intros [P H] Hi Hf. assert (Li : w_contacts w i <> None) by (apply (links_contact w0); auto; apply P). apply sat_and.
    - apply sat_mod_contact; auto.
    - unfold mod_contact. apply sat_bind. apply sat_contact; auto. intros b Hb. cbn. intros c. rewrite <- H. unfold touches. cbn. unfold put.
      destruct (Nat.eqb_spec c i) as [->|]; auto. rewrite Hb. apply Hf. destruct P as (_ & [_ N] & _). eauto.
  Qed.
  Lemma h_log tt w e : physh tt w -> quiet e -> physh tt (log e w).
  Proof. intros [P H] Hq. split; [now apply phys_log|exact H]. Qed.

  Lemma edit_ok (e : cedit T) (c : contact T) : mok p (ce_manifold e) -> cok c -> view_cf (apply_edit e c) = view_cf c /\ cok (apply_edit e c) /\ cf_touching (c_flags (apply_edit e c)) = cf_touching (c_flags c).
  Proof. intros H [K1 K2]. repeat split; auto. Qed.
  Lemma sat_listen w e i : phys w -> w_contacts w0 i <> None -> quiet e -> sat p (listen E e i w) phys.
  Proof.
    intros P Hi Hq. unfold listen. apply sat_bind. assert (Li : w_contacts w i <> None) by (apply (links_contact w0); auto; apply P).
    apply sat_contact; auto. intros c Hc. cbn. apply phys_log; auto. destruct EO as (_ & _ & _ & _ & _ & EL).
    destruct P as (L & [N1 N2] & R). destruct (edit_ok (e_listen E w e c) c (EL w e c (proj1 (N2 i c Hc))) (N2 i c Hc)) as (A1 & A2 & A3).
    eapply phys_contact; eauto. split; auto. split; auto. split; auto.
  Qed.

  (** between the change of the touching flag and the callback *)
  Definition mid (i : nat) (t : bool) w : Prop :=
    links w0 w /\ nums p w /\ bfits oks w /\ touches w i = t /\
    (w_listener w = true -> (forall c, c <> i -> alt (touches w c) (talk c (w_log w))) /\ alt (negb t) (talk i (w_log w))).
  Arguments talk _ _ : simpl never.
  Lemma talk_log c e l : talk c (e :: l) = talk1 c e ++ talk c l.
  Proof. reflexivity. Qed.
  Lemma touches_put w i c j : touches (put_contact i c w) j = if Nat.eqb j i then cf_touching (c_flags c) else touches w j.
  Proof. unfold touches. cbn. unfold put. destruct (Nat.eqb j i); reflexivity. Qed.
  Lemma mid_listen i t w : mid i t w -> w_contacts w0 i <> None -> sat p (listen E (if t then EvBegin i else EvEnd i) i w) phys.
  Proof.
    intros (L & [N1 N2] & F & Ht & V) Hi. assert (Li : w_contacts w i <> None) by (apply (links_contact w0); auto).
    unfold listen. apply sat_bind. apply sat_contact; auto. intros c Hc. destruct EO as (_ & _ & _ & _ & _ & EL).
    destruct (edit_ok (e_listen E w (if t then EvBegin i else EvEnd i) c) c (EL w _ c (proj1 (N2 i c Hc))) (N2 i c Hc)) as (A1 & A2 & A3). cbn.
    refine (conj _ (conj (conj N1 _) (conj _ F))).
    - destruct L as (B1 & B2 & B3 & B4 & B5 & B6). refine (conj B1 (conj B2 (conj B3 (conj B4 (conj _ B6))))). intros j. cbn. unfold put.
      destruct (Nat.eqb_spec j i) as [->|]; auto. rewrite <- B5, Hc. cbn [option_map]. now rewrite A1.
    - intros j x. cbn. unfold put. destruct (Nat.eqb_spec j i) as [->|]; [intros K; injection K as <-; auto|apply N2].
    - intros HL j. specialize (V HL). destruct V as [V1 V2]. change (w_log (log ?e ?x)) with (e :: w_log x). rewrite talk_log.
      change (touches (log ?e ?x) j) with (touches x j). rewrite touches_put. destruct (Nat.eqb_spec j i) as [->|Hj].
      + rewrite A3. unfold touches in Ht. rewrite Hc in Ht. rewrite Ht. destruct t; cbn; rewrite Nat.eqb_refl; constructor; exact V2.
      + replace (talk1 j (if t then EvBegin i else EvEnd i)) with (@nil bool); [apply (V1 j Hj)|].
        destruct t; cbn; apply Nat.eqb_neq in Hj; rewrite Nat.eqb_sym, Hj; reflexivity.
  Qed.
  Lemma mid_set i t w : phys w -> touches w i = negb t -> w_contacts w0 i <> None -> sat p (mod_contact i (mod_cflags (set_cf_touching t)) w) (mid i t).
  Proof.
    intros (L & [N1 N2] & V & F) Ht Hi. assert (Li : w_contacts w i <> None) by (apply (links_contact w0); auto). unfold mod_contact. apply sat_bind. apply sat_contact; auto.
    intros c Hc. cbn. refine (conj _ (conj (conj N1 _) (conj F (conj _ _)))).
    - destruct L as (B1 & B2 & B3 & B4 & B5 & B6). refine (conj B1 (conj B2 (conj B3 (conj B4 (conj _ B6))))). intros j. cbn. unfold put.
      destruct (Nat.eqb_spec j i) as [->|]; auto. rewrite <- B5, Hc. reflexivity.
    - intros j x. cbn. unfold put. destruct (Nat.eqb_spec j i) as [->|]; [intros K; injection K as <-|apply N2]. destruct (N2 i c Hc). split; auto.
    - unfold touches. cbn. unfold put. now rewrite Nat.eqb_refl.
    - intros HL. specialize (V HL). split.
      + intros j Hj. specialize (V j). unfold touches in *. cbn. unfold put. apply Nat.eqb_neq in Hj. now rewrite Hj.
      + rewrite <- Ht. apply V.
  Qed.
  Lemma mid_mute i t w : mid i t w -> w_listener w = false -> phys w.
  Proof. intros (L & N & F & _ & V) H. refine (conj L (conj N (conj _ F))). intros K. congruence. Qed.

  Lemma sat_carry old m : mok p m -> sat p (carry old m) (mok p).
  Proof.
    intros Hm. unfold carry. apply sat_bind. eapply sat_mono.
    - apply (sat_for (fun _ ps => length ps = length (mf_points m))); [reflexivity|]. intros i ps Hi Hps.
      destruct (Nat.ltb_spec i (length ps)) as [Hlt|Hge].
      + apply sat_bind. apply sat_get; auto. intros x _. destruct (old_impulse _ _ _). apply sat_set; auto. now rewrite length_upd.
      + destruct Hm as [Hp|[H1 H2]]; [|lia]. apply sat_bind. unfold get. destruct (nth_error ps i) eqn:En; [|exact Hp]. apply nth_error_None in Hge. congruence.
    - intros ps Hps. cbn. unfold mok in *. cbn. rewrite Hps. exact Hm.
  Qed.

  Lemma switches_listener w w' : switches w' = switches w -> w_listener w' = w_listener w.
  Proof. unfold switches. intros H. now injection H. Qed.

  Lemma sat_update w i : phys w -> w_contacts w0 i <> None -> sat p (update_contact E i w) phys.
  Proof.
    intros P Hi. pose proof EO as (EV & EW & ET & ES & EU & EL). unfold update_contact. apply sat_bind.
    eapply sat_mono; [apply (h_contact (touches w) w i _ (phys_h w P) Hi)|].
    { intros c [K1 K2]. repeat split; auto. }
    intros w1 [P1 H1]. apply sat_bind. assert (L1 : w_contacts w1 i <> None) by (apply (links_contact w0); auto; apply P1).
    apply sat_contact; auto. intros c Hc. assert (Ht : touches w1 i = cf_touching (c_flags c)) by (unfold touches; now rewrite Hc).
    destruct (contact_parts w1 i c (contacts_now w1 (proj1 P1)) Hc) as (fa & fb & a & b & ba & bb & Efa & Efb & Ea & Eb & Hab & Eba & Ebb & _).
    assert (La : w_bodies w0 a <> None) by (apply (links_body w0 w1); [apply P1|congruence]).
    assert (Lb : w_bodies w0 b <> None) by (apply (links_body w0 w1); [apply P1|congruence]).
    cbv zeta. apply sat_bind, sat_fixture; [congruence|]. intros xa Hxa. replace xa with fa in * by congruence. clear xa Hxa.
    apply sat_bind, sat_fixture; [congruence|]. intros xb Hxb. replace xb with fb in * by congruence. clear xb Hxb.
    rewrite Ea, Eb. cbn [unwrap bind]. apply sat_bind, sat_body; [congruence|]. intros xa Hxa. apply sat_bind, sat_body; [congruence|]. intros xb Hxb.
    apply sat_bind. set (was := cf_touching (c_flags c)) in *.
    clearbody was.
    assert (Hwas : forall w', physh (touches w1) w' -> touches w' i = was) by (intros w' [_ Q]; rewrite Q; exact Ht).
    apply (sat_mono _ (fun r => physh (touches w1) (fst r))).
    { destruct (f_sensor fa || f_sensor fb).
      - apply sat_bind. eapply sat_mono; [apply (EW w1 i (conj (contacts_now w1 (proj1 P1)) (proj1 (proj2 P1))) L1)|]. intros t _. apply sat_bind. eapply sat_mono; [apply (h_contact (touches w1))|].
        + apply h_log; [split; auto|exact I].
        + auto.
        + intros x [[K1|K1] K2]; repeat split; auto; [now left|right]. cbn. split; [apply K1|lia].
        + intros w2 H2. exact H2.
      - apply sat_bind. eapply sat_mono; [apply (EV w1 i (conj (contacts_now w1 (proj1 P1)) (proj1 (proj2 P1))) L1)|]. intros m Hm. apply sat_bind. eapply sat_mono; [apply sat_carry, Hm|]. intros m' Hm'.
        apply sat_bind. eapply sat_mono; [apply (h_contact (touches w1))|].
        + apply h_log; [split; auto|exact I].
        + auto.
        + intros x [K1 K2]; repeat split; auto.
        + intros w2 H2. apply sat_bind. apply (sat_mono _ (physh (touches w1))); [|intros w3 H3; exact H3]. destruct (Bool.eqb _ _); [exact H2|]. apply sat_bind.
          assert (Wk : forall x w, physh (touches w1) w -> w_bodies w0 x <> None -> sat p (mod_body x (set_awake true) w) (physh (touches w1))).
          { intros x w' Hw' Hx. apply h_body; auto. intros y Hy. split; auto using view_awake, bok_awake. }
          eapply sat_mono; [apply (Wk a w2 H2 La)|]. intros w3 H3. now apply Wk. }
    intros [w2 touching] H2. cbn [fst] in H2. pose proof (Hwas w2 H2) as Hw2. destruct H2 as [P2 _]. apply sat_bind.
    destruct (Bool.bool_dec touching was) as [Et|Et].
    - eapply sat_mono; [apply (sat_mod_contact p oks w0 w2 i _ P2)|].
      + apply (links_contact w0); auto. apply P2.
      + intros x Hx Kx. repeat split; try apply Kx. cbn. unfold touches in Hw2. rewrite Hx in Hw2. congruence.
      + intros w3 P3. destruct (w_listener w3) eqn:HL; [|exact P3]. apply sat_bind.
        replace (negb was && touching) with false by (subst touching; now destruct was). cbn [sat]. apply sat_bind.
        replace (was && negb touching) with false by (subst touching; now destruct was). cbn [sat].
        destruct (negb (f_sensor fa || f_sensor fb) && touching); [|exact P3]. apply sat_listen; auto. exact I.
    - eapply sat_mono; [apply (mid_set i touching w2 P2)|].
      + rewrite Hw2. destruct was, touching; cbn; congruence.
      + auto.
      + intros w3 M3. destruct (w_listener w3) eqn:HL; [|eapply mid_mute; eauto]. apply sat_bind. destruct touching.
        * assert (Ew : was = false) by (destruct was; congruence); rewrite Ew. cbn [negb andb]. eapply sat_mono; [apply (mid_listen i true w3 M3 Hi)|]. intros w4 P4. cbn [sat bind].
          destruct (negb (f_sensor fa || f_sensor fb) && true); [|exact P4]. apply sat_listen; auto. exact I.
        * assert (Ew : was = true) by (destruct was; congruence); rewrite Ew. cbn [negb andb sat]. apply sat_bind. eapply sat_mono; [apply (mid_listen i false w3 M3 Hi)|]. intros w4 P4.
          rewrite andb_false_r. exact P4.
  Qed.

  (** ** motion of the proxies *)
  Definition shape_fine (s : shape T) (n : nat) : Prop :=
    shape_child_count s = Ok n /\ forall xf k, k < n -> sat p (shape_aabb s xf k) (fun _ => True).
  Definition shapes_ok w : Prop := forall f x, w_fixtures w f = Some x -> shape_fine (f_shape x) (length (f_proxies x)).

  Lemma phys_fixture w f x x' bp : phys w -> w_fixtures w f = Some x -> view_fx x' = view_fx x -> fits oks bp (g_f (graph_of w)) -> phys (put_fixture f x' (set_w_bp bp w)).
  Proof.
    intros (L & N & V & F) Hb Hv Hf. refine (conj _ (conj N (conj V _))).
    - destruct L as (A & B & C & D & G). refine (conj A (conj B (conj C (conj _ G)))). intros j. cbn. unfold put. destruct (Nat.eqb_spec j f) as [->|]; auto.
      rewrite <- D, Hb. cbn. now rewrite Hv.
    - unfold bfits. eapply fits_ext; [|exact Hf]. intros j. cbn. unfold put. destruct (Nat.eqb_spec j f) as [->|]; auto. rewrite Hb. cbn. unfold view_fx in Hv. congruence.
  Qed.

  Lemma sat_synchronize w f xf1 xf2 : phys w -> w_fixtures w0 f <> None -> shapes_ok w0 -> sat p (synchronize f xf1 xf2 w) phys.
  Proof.
    intros P Hi HS. assert (Li : w_fixtures w f <> None) by (apply (links_fixture w0); auto; apply P). unfold synchronize. apply sat_bind, sat_fixture; auto. intros x Hx.
    destruct (Nat.eqb_spec (f_proxy_count x) 0); [exact P|]. apply sat_bind.
    assert (Hg : g_f (graph_of w) f = Some (view_f x)) by (cbn; now rewrite Hx).
    pose proof P as (L & _ & _ & F). pose proof F as (PO & _). destruct (PO f _ Hg) as [Hc Hp]. cbn in Hc, Hp. rewrite map_length in Hc.
    assert (Hs : forall xf k, k < length (f_proxies x) -> sat p (shape_aabb (f_shape x) xf k) (fun _ => True)).
    { pose proof (proj1 (proj2 (proj2 (proj2 L))) f) as Q. rewrite Hx in Q. destruct (w_fixtures w0 f) as [x0|] eqn:E0; [|easy].
      specialize (HS f x0 E0). cbn in Q. unfold view_fx, view_f in Q. injection Q as _ Q2 _ Q4 _ _ _ _ _ _. rewrite Q2.
      assert (length (f_proxies x) = length (f_proxies x0)) as -> by (rewrite <- (map_length view_p), Q4, map_length; reflexivity). apply HS. }
    apply (sat_mono _ (fun st => map view_p (fst st) = map view_p (f_proxies x) /\ fits oks (snd st) (g_f (graph_of w)))).
    - apply (sat_for (fun _ st => map view_p (fst st) = map view_p (f_proxies x) /\ fits oks (snd st) (g_f (graph_of w)))); [split; auto; exact F|].
      intros i [ps bp] Hk [Hps Hbp]. cbn [fst snd] in *. destruct (Hp i Hk) as (id & Hid).
      assert (Lp : length ps = length (f_proxies x)) by (rewrite <- (map_length view_p), Hps, map_length; reflexivity).
      apply sat_bind, sat_get; [lia|]. intros pr Hpr. assert (view_p pr = (Some f, i, Some id)) as Hv.
      { rewrite <- Hps, nth_error_map, Hpr in Hid. cbn [option_map] in Hid. congruence. }
      unfold view_p in Hv. injection Hv as Hv1 Hv2 Hv3. rewrite Hv2. apply sat_bind. eapply sat_mono; [apply Hs; lia|]. intros b1 _. apply sat_bind. eapply sat_mono; [apply Hs; lia|]. intros b2 _.
      cbv zeta. rewrite Hv3. cbn [unwrap bind]. assert (Hsl : slot (g_f (graph_of w)) f i = Some id).
      { unfold slot. rewrite Hg. unfold view_f. cbn [v_count v_proxies]. apply Nat.ltb_lt in Hk. rewrite Hk, <- Hps, nth_error_map, Hpr. cbn. unfold view_p. now rewrite Hv3. }
      destruct (fits_move oks bp _ f i id (combine b1 b2) (vsub (aabb_center b2) (aabb_center b1)) Hbp Hsl) as (bp' & -> & Hbp'). cbn [bind].
      apply sat_bind, sat_set; [lia|]. split; auto. cbn [fst]. rewrite <- Hps. clear -Hpr. revert i Hpr. induction ps as [|q ps IH]; intros [|i] H; cbn in *; try easy.
      + injection H as ->. reflexivity.
      + now rewrite IH.
    - intros [ps bp] [Hps Hbp]. cbn [fst snd] in *. cbn [sat]. eapply phys_fixture; eauto. unfold view_fx, view_f. cbn. now rewrite Hps.
  Qed.

  (** a body and its fixtures *)
  Lemma sat_sync_fixtures w i : phys w -> shapes_ok w0 -> fixtures_ok (graph_of w0) -> w_bodies w0 i <> None -> sat p (synchronize_fixtures i w) phys.
  Proof.
    intros P HS HF Hi. unfold synchronize_fixtures. apply sat_bind, sat_body; [apply (links_body w0); auto; apply P|]. intros b Hb. apply sat_each; auto.
    intros f w' Hf P'. apply sat_synchronize; auto. pose proof (proj1 (proj2 (proj2 (proj1 P))) i) as Q. rewrite Hb in Q. destruct (w_bodies w0 i) as [b0|] eqn:E0; [|easy].
    cbn in Q. unfold view_b in Q. injection Q as _ _ Q _ _ _. rewrite Q in Hf. destruct HF as (_ & _ & F3 & _). assert (owner (graph_of w0) f = Some i) as Ho.
    { apply F3. unfold fixtures_of. cbn. now rewrite E0. }
    unfold owner in Ho. cbn in Ho. now destruct (w_fixtures w0 f).
  Qed.
End Phys.
