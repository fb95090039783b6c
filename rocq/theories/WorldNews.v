(** What a contact update leaves behind, and which contacts the listener hears about during a step. *)
From Coq Require Import List ZArith Bool Arith Lia.
From Verif Require Import Base Num Math Collision Manifold Filter ShapeModel ListFacts ManifoldProofs TreeModel TreeSpec TreeHist BroadModel BroadSpec BroadProofs BroadFinal DynModel DynSpec DynProofs WorldModel WorldGraph WorldSpec WorldClaims WorldGops WorldLogic WorldPhys WorldContact WorldInv WorldOps WorldFix WorldBody WorldLife WorldSet WorldIsland WorldSolve WorldToi WorldStep WorldCalls WorldHist WorldFinal WorldAfter.
Import ListNotations.

Section News.
  Local Open Scope num_scope.
  Context {T : Type} `{NT : Num T} `{TT : NumTrig T} `{VT : NumValid T}.
  Notation world := (world T).
  Implicit Types w : world.
  Variable E : env T.

  (** ** C21: one update *)
  (* no listener, or one that leaves the manifold alone *)
  Definition mild w : Prop := w_listener w = false \/ forall v e c, ce_manifold (e_listen E v e c) = c_manifold c.
  Definition shows (l : bool) (i : nat) (m : manifold T) w : Prop := w_listener w = l /\ exists x, w_contacts w i = Some x /\ c_manifold x = m.
  Lemma shows_body l i m a f w : shows l i m w -> okp (mod_body a f w) (shows l i m).
  Proof. intros H. unfold mod_body. apply okp_skip. intros b. now apply okp_ok. Qed.
  Lemma shows_contact l i m f w : shows l i m w -> (forall x, c_manifold (f x) = c_manifold x) -> okp (mod_contact i f w) (shows l i m).
  Proof. intros (A & x & Hx & Hm) Hf. unfold mod_contact, get_contact. rewrite Hx. cbn. apply okp_ok. split; auto. exists (f x). cbn. rewrite put_eq, Hf. auto. Qed.
  Lemma shows_listen l i m e w : shows l i m w -> l = true -> mild w -> okp (listen E e i w) (shows l i m).
  Proof.
    intros (A & x & Hx & Hm) El Mi. unfold listen, get_contact. rewrite Hx. cbn. apply okp_ok. split; auto. exists (apply_edit (e_listen E w e x) x). cbn. rewrite put_eq. split; auto. destruct Mi as [Mi|Mi]; [congruence|]. now rewrite Mi.
  Qed.
  Theorem update_kept i w x fa fb : w_contacts w i = Some x -> w_fixtures w (c_fa x) = Some fa -> w_fixtures w (c_fb x) = Some fb -> mild w ->
    okp (update_contact E i w) (fun w' => exists x', w_contacts w' i = Some x' /\
      if f_sensor fa || f_sensor fb then mf_count (c_manifold x') = 0%nat
      else exists v m, e_evaluate E v i = Ok m /\ impulses_kept (c_manifold x) m (c_manifold x')).
  Proof.
    intros Hx Ha Hb Mi. set (l := w_listener w).
    enough (okp (update_contact E i w) (fun w' => exists M, shows l i M w' /\ if f_sensor fa || f_sensor fb then mf_count M = 0%nat else exists v m, e_evaluate E v i = Ok m /\ impulses_kept (c_manifold x) m M)) as K.
    { intros w' R. destruct (K w' R) as (M & (_ & x' & Hx' & <-) & Q). eauto. }
    unfold update_contact. unfold mod_contact at 1, get_contact at 1. rewrite Hx. cbn [unwrap bind]. set (x1 := mod_cflags (set_cf_enabled true) x). set (w1 := put_contact i x1 w).
    assert (Hx1 : w_contacts w1 i = Some x1) by apply put_eq. assert (X1 : c_fa x1 = c_fa x /\ c_fb x1 = c_fb x /\ c_manifold x1 = c_manifold x) by (now destruct x). destruct X1 as (X1 & X2 & X3).
    assert (Ha1 : w_fixtures w1 = w_fixtures w) by reflexivity. assert (Hl1 : w_listener w1 = l) by reflexivity. assert (Mi1 : mild w1) by exact Mi. clearbody x1. clearbody w1. unfold get_contact at 1. rewrite Hx1. cbn [unwrap bind]. cbv zeta. unfold get_fixture. rewrite Ha1, X1, X2, Ha, Hb, X3. cbn [unwrap bind].
    set (was := cf_touching (c_flags x1)). apply okp_skip. intros a. apply okp_skip. intros b. apply okp_skip. intros _. apply okp_skip. intros _. set (sensor := f_sensor fa || f_sensor fb) in *.
    apply okp_bind. intros [w2 t] R2.
    assert (exists M, shows l i M w2 /\ if sensor then mf_count M = 0%nat else exists v m, e_evaluate E v i = Ok m /\ impulses_kept (c_manifold x) m M) as (M & S2 & K2).
    { destruct sensor.
      - revert R2. apply (okp_skip (e_overlap E w1 i) _ (fun st => exists M, shows l i M (fst st) /\ mf_count M = 0%nat)). intros u. unfold mod_contact, get_contact. cbn. rewrite Hx1. cbn. apply okp_ok. cbn. exists (no_points (c_manifold x1)). split; [|reflexivity]. split; [exact Hl1|]. eexists. cbn. rewrite put_eq. split; reflexivity.
      - destruct (e_evaluate E w1 i) as [m| |] eqn:Ev; cbn [bind] in R2; try easy. destruct (carry (c_manifold x) m) as [r| |] eqn:Ec; cbn [bind] in R2; try easy. apply carry_kept in Ec. exists r. split; [|now exists w1, m].
        revert R2. unfold mod_contact at 1, get_contact at 1. cbn [w_contacts log set_w_log]. rewrite Hx1. cbn [unwrap bind]. set (wz := put_contact _ _ _). assert (shows l i r wz) as Sz. { split; [exact Hl1|]. eexists. unfold wz. cbn. rewrite put_eq. split; reflexivity. } clearbody wz.
        match goal with |- bind ?m _ = Ok _ -> _ => assert (okp m (shows l i r)) as Q end.
        { destruct (Bool.eqb _ was); [now apply okp_ok|]. apply okp_bind. intros v Hv. apply shows_body. exact (shows_body _ _ _ _ _ _ Sz v Hv). }
        match goal with |- bind ?m _ = Ok _ -> _ => destruct m as [v| |] eqn:Em end; cbn [bind]; try easy. intros R2. injection R2 as <- _. now apply Q. }
    clear R2. apply okp_bind. intros w3 R3. apply (shows_contact l i M) in R3; auto. assert (Mi3 : mild w3) by (destruct Mi1 as [Mi1|Mi1]; [left; destruct R3; congruence|now right]).
    enough (okp (if w_listener w3 then (w0 <- (if negb was && t then listen E (EvBegin i) i w3 else Ok w3) ;; w0 <- (if was && negb t then listen E (EvEnd i) i w0 else Ok w0) ;; if negb sensor && t then listen E (EvPre i) i w0 else Ok w0) else Ok w3) (shows l i M)) as K3.
    { intros w' R. exists M. split; auto. }
    destruct (w_listener w3) eqn:L3; [|now apply okp_ok]. assert (El : l = true) by (destruct R3; congruence).
    assert (St : forall (c : bool) e v, shows l i M v -> okp (if c then listen E e i v else Ok v) (shows l i M)).
    { intros c e v Sv. destruct c; [|now apply okp_ok]. apply shows_listen; auto. destruct Mi3 as [Mi3|Mi3]; [congruence|now right]. }
    apply okp_bind. intros w4 R4. apply St in R4; auto. apply okp_bind. intros w5 R5. apply St in R5; auto.
  Qed.

  (** ** no solver call about a sensor during a step *)
  Definition plain w c : Prop := forall x, w_contacts w c = Some x -> sensor_contact w x = false.
  Definition tois w : Prop := forall c x, w_contacts w c = Some x -> cf_toi (c_flags x) = true -> sensor_contact w x = false.
  Section From.
    Variable w0 : world.
    Definition Hd (t : bool) (cs : list nat) w : Prop :=
      (forall f, option_map (@f_sensor T) (w_fixtures w f) = option_map (@f_sensor T) (w_fixtures w0 f)) /\
      (forall c, w_contacts w c <> None -> (c < w_next_contact w)%nat) /\
      (exists l, w_log w = l ++ w_log w0 /\ forall c e, In e l -> solves c e = true -> (c < w_next_contact w)%nat /\ plain w c) /\
      (forall c, In c cs -> w_contacts w c <> None /\ plain w c) /\
      (t = true -> tois w).
    Definition kin w w' : Prop := forall c x', w_contacts w' c = Some x' ->
      (exists x, w_contacts w c = Some x /\ c_fa x' = c_fa x /\ c_fb x' = c_fb x /\ (cf_toi (c_flags x') = true -> cf_toi (c_flags x) = true)) \/
      ((w_next_contact w <= c < w_next_contact w')%nat /\ cf_toi (c_flags x') = false).
    Definition sens w w' : Prop := forall f, option_map (@f_sensor T) (w_fixtures w' f) = option_map (@f_sensor T) (w_fixtures w f).
    Lemma sens_contact w w' (x x' : contact T) : sens w w' -> c_fa x' = c_fa x -> c_fb x' = c_fb x -> sensor_contact w' x' = sensor_contact w x.
    Proof. intros S A B. unfold sensor_contact. rewrite A, B. pose proof (S (c_fa x)) as S1. pose proof (S (c_fb x)) as S2. destruct (w_fixtures w' (c_fa x)), (w_fixtures w (c_fa x)), (w_fixtures w' (c_fb x)), (w_fixtures w (c_fb x)); cbn in *; congruence. Qed.
    Lemma plain_kin w w' c : sens w w' -> kin w w' -> (c < w_next_contact w)%nat -> plain w c -> plain w' c.
    Proof. intros S K L P x' Hx'. destruct (K c x' Hx') as [(x & Hx & A & B & _)|[? _]]; [|lia]. rewrite (sens_contact w w' x x') by auto. now apply P. Qed.
    (* [l]: what was added to the log *)
    Lemma Hd_frame l t cs w w' : Hd t cs w -> sens w w' -> (w_next_contact w <= w_next_contact w')%nat -> kin w w' -> (forall c, In c cs -> w_contacts w c <> None -> w_contacts w' c <> None) ->
      w_log w' = l ++ w_log w -> (forall c e, In e l -> solves c e = true -> In c cs) -> Hd t cs w'.
    Proof.
      intros (A & B & (l0 & C1 & C2) & D & F) S N K Kc L Le. refine (conj _ (conj _ (conj _ (conj _ _)))).
      - intros f. now rewrite S.
      - intros c Hc. destruct (w_contacts w' c) as [x'|] eqn:Ex; [|easy]. destruct (K c x' Ex) as [(x & Hx & _)|[? _]]; [|lia]. assert (c < w_next_contact w)%nat; [|lia]. apply B. congruence.
      - exists (l ++ l0). split; [now rewrite L, C1, app_assoc|]. intros c e He Hs. apply in_app_or in He. destruct He as [He|He].
        + destruct (D c (Le c e He Hs)) as [D1 D2]. pose proof (B c D1). split; [lia|]. now apply (plain_kin w w').
        + destruct (C2 c e He Hs) as [C3 C4]. split; [lia|]. now apply (plain_kin w w').
      - intros c Hc. destruct (D c Hc) as [D1 D2]. split; auto. apply (plain_kin w w'); auto.
      - intros Ht c x' Hx' Hf. destruct (K c x' Hx') as [(x & Hx & Q1 & Q2 & Q3)|[_ Q]]; [|congruence]. rewrite (sens_contact w w' x x') by auto. apply (F Ht c x); auto.
    Qed.
    Lemma kin_same w w' : w_contacts w' = w_contacts w -> kin w w'.
    Proof. intros Q c x Hx. left. exists x. rewrite Q in Hx. auto. Qed.
    Lemma Hd_same t cs w w' : Hd t cs w -> w_contacts w' = w_contacts w -> sens w w' -> w_next_contact w' = w_next_contact w -> w_log w' = w_log w -> Hd t cs w'.
    Proof. intros H C S N L. apply (Hd_frame [] t cs w w' H); auto; try easy; [lia|now apply kin_same|now rewrite C]. Qed.
    Lemma Hd_less t t' cs cs' w : Hd t cs w -> incl cs' cs -> (t' = true -> t = true) -> Hd t' cs' w.
    Proof. intros (A & B & C & D & F) I It. refine (conj A (conj B (conj C (conj _ _)))); auto. Qed.
    Lemma Hd_more t cs c w : Hd t cs w -> w_contacts w c <> None -> plain w c -> Hd t (c :: cs) w.
    Proof. intros (A & B & C & D & F) H1 H2. refine (conj A (conj B (conj C (conj _ F)))). intros k [<-|Hk]; auto. Qed.
    Lemma Hd_put t cs w i b : Hd t cs w -> Hd t cs (put_body i b w).
    Proof. intros H. eapply Hd_same; eauto. intros f. reflexivity. Qed.
    Lemma Hd_body t cs i f w : Hd t cs w -> okp (mod_body i f w) (Hd t cs).
    Proof. intros H. unfold mod_body. apply okp_skip. intros b. apply okp_ok. now apply Hd_put. Qed.
    Lemma Hd_put_contact t cs w i x x' : Hd t cs w -> w_contacts w i = Some x -> c_fa x' = c_fa x -> c_fb x' = c_fb x -> (cf_toi (c_flags x') = true -> cf_toi (c_flags x) = true) -> Hd t cs (put_contact i x' w).
    Proof.
      intros H Hx A B F. apply (Hd_frame [] t cs w _ H); auto; try easy.
      - intros c y. cbn. unfold put. destruct (Nat.eqb_spec c i) as [->|]; [intros Q; injection Q as <-|]; left; eauto 6.
      - intros c _. cbn. unfold put. now destruct (Nat.eqb c i).
    Qed.
    Lemma Hd_contact t cs i f w : Hd t cs w -> (forall x, c_fa (f x) = c_fa x /\ c_fb (f x) = c_fb x /\ (cf_toi (c_flags (f x)) = true -> cf_toi (c_flags x) = true)) -> okp (mod_contact i f w) (Hd t cs).
    Proof. intros H Hf. unfold mod_contact, get_contact. destruct (w_contacts w i) as [x|] eqn:Ex; [|easy]. cbn. apply okp_ok. destruct (Hf x) as (A & B & C). now apply (Hd_put_contact t cs w i x). Qed.
    Lemma Hd_joint t cs i f w : Hd t cs w -> okp (mod_joint i f w) (Hd t cs).
    Proof. intros H. unfold mod_joint. apply okp_skip. intros b. apply okp_ok. eapply Hd_same; eauto. intros g. reflexivity. Qed.
    Lemma Hd_log t cs e w : Hd t cs w -> (forall c, solves c e = true -> In c cs) -> Hd t cs (log e w).
    Proof. intros H He. apply (Hd_frame [e] t cs w _ H); auto; try easy; [now apply kin_same|]. intros c e' [<-|[]]. apply He. Qed.
    Lemma Hd_listen t cs e i w : Hd t cs w -> (forall c, solves c e = true -> In c cs) -> okp (listen E e i w) (Hd t cs).
    Proof.
      intros H He. unfold listen, get_contact. destruct (w_contacts w i) as [x|] eqn:Ex; [|easy]. cbn. apply okp_ok. apply Hd_log; auto. now apply (Hd_put_contact t cs w i x).
    Qed.
    Lemma Hd_each {A} t cs (f : A -> world -> res world) l w : (forall x w, Hd t cs w -> okp (f x w) (Hd t cs)) -> Hd t cs w -> okp (each f l w) (Hd t cs).
    Proof. intros Hf H. now apply okp_each. Qed.
    Lemma Hd_sync t cs f a b w : Hd t cs w -> okp (synchronize f a b w) (Hd t cs).
    Proof.
      intros H. unfold synchronize, get_fixture. destruct (w_fixtures w f) as [x|] eqn:Ex; [|easy]. cbn [unwrap bind]. destruct (Nat.eqb (f_proxy_count x) 0); [now apply okp_ok|]. apply okp_skip. intros [ps bp]. apply okp_ok. eapply Hd_same; eauto.
      intros g. cbn. unfold put. destruct (Nat.eqb_spec g f) as [->|]; auto. now rewrite Ex.
    Qed.
    Lemma Hd_syncs t cs i w : Hd t cs w -> okp (synchronize_fixtures i w) (Hd t cs).
    Proof. intros H. unfold synchronize_fixtures. apply okp_skip. intros b. cbv zeta. apply Hd_each; auto. intros f v Hv. now apply Hd_sync. Qed.
    Lemma Hd_link t cs x w : Hd t cs w -> cf_toi (c_flags x) = false -> okp (link_contact x w) (Hd t cs).
    Proof.
      intros H Hx. unfold link_contact. cbv zeta. set (w1 := set_w_next_contact _ _). assert (Hd t cs w1) as H1.
      { pose proof H as (_ & Fr & _). apply (Hd_frame [] t cs w w1 H); auto; try easy.
        - subst w1. cbn. lia.
        - intros c y. subst w1. cbn. unfold put. destruct (Nat.eqb_spec c (w_next_contact w)) as [->|]; intros Q; [injection Q as <-; right; split; auto; lia|left; eauto 6].
        - intros c _. subst w1. cbn. unfold put. now destruct (Nat.eqb c _). }
      clearbody w1. apply okp_skip. intros a. apply okp_skip. intros b. set (w2 := set_w_contact_list _ w1). assert (Hd t cs w2) as H2 by (eapply Hd_same; eauto; intros f; reflexivity). clearbody w2.
      apply okp_bind. intros w3 H3. apply (Hd_body t cs) in H3; auto. apply okp_bind. intros w4 H4. apply (Hd_body t cs) in H4; auto. apply okp_ok. eapply Hd_same; eauto. intros f; reflexivity.
    Qed.
    Lemma Hd_add_pair t cs u v w : Hd t cs w -> okp (add_pair E w u v) (Hd t cs).
    Proof.
      intros H. unfold add_pair. apply okp_skip. intros [fa ia]. apply okp_skip. intros [fb ib]. apply okp_skip. intros a. apply okp_skip. intros b. destruct (Nat.eqb a b); [now apply okp_ok|].
      apply okp_skip. intros bb. apply okp_skip. intros [|]; [now apply okp_ok|]. apply okp_skip. intros may. destruct (negb may); [now apply okp_ok|]. cbv zeta. assert (Hd t cs (log (EvFilter fa fb) w)) as H1 by (now apply Hd_log). destruct (negb (e_filter E w fa fb)); [now apply okp_ok|].
      apply okp_bind. unfold contact_create. apply okp_skip. intros xa. apply okp_skip. intros xb. apply okp_skip. intros pr. apply okp_ok. apply Hd_link; auto. now destruct pr.
    Qed.
    Lemma Hd_find t cs w : Hd t cs w -> okp (find_new_contacts E w) (Hd t cs).
    Proof.
      intros H. unfold find_new_contacts, update_pairs. cbv zeta. apply okp_bind. apply okp_skip. intros ps. apply okp_bind. intros w1 Q1. apply okp_skip. intros tr. apply okp_ok. apply okp_ok. enough (Hd t cs w1) as H1 by (eapply Hd_same; eauto; intros f; reflexivity).
      revert w1 Q1. apply (okp_range (Hd t cs)); auto. intros x s Hs. apply okp_skip. intros q. apply okp_skip. intros ua. apply okp_skip. intros ub. now apply Hd_add_pair.
    Qed.
    Lemma Hd_destroy t i w : Hd t [] w -> okp (destroy_contact E i w) (Hd t []).
    Proof.
      intros H. unfold destroy_contact. apply okp_skip. intros x. apply okp_skip. intros a. apply okp_skip. intros b. apply okp_bind. intros w1 Q1. assert (Hd t [] w1) as H1.
      { revert w1 Q1. destruct (w_listener w && cf_touching (c_flags x)); [|now apply okp_ok]. apply Hd_listen; auto. easy. }
      clear Q1 H w. apply okp_skip. intros l. set (w2 := set_w_contact_list l w1). assert (Hd t [] w2) as H2 by (eapply Hd_same; eauto; intros f; reflexivity). clearbody w2. apply okp_skip. intros ba. apply okp_skip. intros la.
      set (w3 := put_body a _ w2). assert (Hd t [] w3) as H3 by (now apply Hd_put). clearbody w3. apply okp_skip. intros bb. apply okp_skip. intros lb. set (w4 := put_body b _ w3). assert (Hd t [] w4) as H4 by (now apply Hd_put). clearbody w4. apply okp_skip. intros c'.
      apply okp_bind. intros w5 Q5. assert (Hd t [] w5) as H5.
      { revert w5 Q5. unfold wake_touching. apply okp_skip. intros fa. apply okp_skip. intros fb. destruct (_ && _ && _); [|now apply okp_ok]. apply okp_skip. intros a'. apply okp_bind. intros w6 Q6. apply (Hd_body t []) in Q6; auto. apply okp_skip. intros b'. now apply Hd_body. }
      apply okp_skip. intros n. apply okp_ok. apply (Hd_frame [] t [] w5 _ H5); try easy. intros c y. cbn. unfold put. destruct (Nat.eqb c i); [easy|]. left. eauto 6.
    Qed.
    Lemma sensor_at w i x fa fb : w_contacts w i = Some x -> w_fixtures w (c_fa x) = Some fa -> w_fixtures w (c_fb x) = Some fb -> f_sensor fa || f_sensor fb = false -> plain w i.
    Proof. intros Hx A B S y Hy. assert (y = x) as -> by congruence. unfold sensor_contact. now rewrite A, B. Qed.
    Lemma Hd_update t cs i w : Hd t cs w -> okp (update_contact E i w) (Hd t cs).
    Proof.
      intros H. unfold update_contact. apply okp_bind. intros w1 Q1. apply (Hd_contact t cs) in Q1; [|auto|auto]. clear H w. unfold get_contact. destruct (w_contacts w1 i) as [x|] eqn:Ex; [|easy]. cbn [unwrap bind]. cbv zeta. unfold get_fixture. destruct (w_fixtures w1 (c_fa x)) as [fa|] eqn:Ea; [|easy]. cbn [unwrap bind]. destruct (w_fixtures w1 (c_fb x)) as [fb|] eqn:Eb; [|easy]. cbn [unwrap bind].
      set (sensor := f_sensor fa || f_sensor fb). set (ds := if sensor then cs else i :: cs). assert (H1 : Hd t ds w1). { unfold ds. destruct sensor eqn:Es; auto. apply Hd_more; auto; [congruence|]. eapply sensor_at; eauto. }
      assert (Back : forall v, Hd t ds v -> Hd t cs v). { intros v Hv. unfold ds in Hv. destruct sensor; auto. eapply Hd_less; eauto. intros k Hk. now right. }
      intros w' R. apply Back. revert w' R. apply okp_skip. intros a. apply okp_skip. intros b. apply okp_skip. intros ba. apply okp_skip. intros bb. apply okp_bind. intros [w2 touching] Q2. assert (Hd t ds w2) as H2.
      { refine (_ : Hd t ds (fst (w2, touching))). revert Q2. generalize (w2, touching). fold (okp (A := world * bool)). change (okp (if sensor then touching <- e_overlap E w1 i ;; w <- mod_contact i (fun c => set_c_manifold (no_points (c_manifold c)) c) (log (EvNarrow i) w1) ;; Ok (w, touching) else m <- e_evaluate E w1 i ;; let touching := Nat.ltb 0 (mf_count m) in m <- carry (c_manifold x) m ;; w <- mod_contact i (set_c_manifold m) (log (EvNarrow i) w1) ;; w <- (if Bool.eqb touching (cf_touching (c_flags x)) then Ok w else w <- mod_body a (set_awake true) w ;; mod_body b (set_awake true) w) ;; Ok (w, touching)) (fun st => Hd t ds (fst st))).
        assert (Hd t ds (log (EvNarrow i) w1)) as HL by (now apply Hd_log). destruct sensor.
        - apply okp_skip. intros u. apply okp_bind. intros v Qv. apply (Hd_contact t ds) in Qv; auto. now apply okp_ok.
        - apply okp_skip. intros m. apply okp_skip. intros m'. apply okp_bind. intros v Qv. apply (Hd_contact t ds) in Qv; auto. apply okp_bind. intros v' Qv'. apply okp_ok. cbn [fst]. revert v' Qv'. destruct (Bool.eqb _ _); [now apply okp_ok|]. apply okp_bind. intros v1 Qv1. apply (Hd_body t ds) in Qv1; auto. now apply Hd_body. }
      apply okp_bind. intros w3 Q3. apply (Hd_contact t ds) in Q3; auto. destruct (w_listener w3); [|now apply okp_ok]. apply okp_bind. intros w4 Q4. assert (Hd t ds w4) as H4 by (revert w4 Q4; destruct (negb _ && touching); [apply Hd_listen; auto; easy|now apply okp_ok]).
      apply okp_bind. intros w5 Q5. assert (Hd t ds w5) as H5 by (revert w5 Q5; destruct (_ && negb touching); [apply Hd_listen; auto; easy|now apply okp_ok]). unfold ds in *. destruct sensor; cbn [negb andb]; [now apply okp_ok|]. destruct touching; [|now apply okp_ok]. apply Hd_listen; auto. intros c Hc. cbn in Hc. apply Nat.eqb_eq in Hc. subst. now left.
    Qed.
    Lemma Hd_collide t w : Hd t [] w -> okp (collide E w) (Hd t []).
    Proof.
      intros H. unfold collide. apply okp_bind. apply (okp_mono _ (fun st => Hd t [] (fst st))).
      - apply (okp_each (fun st => Hd t [] (fst st))); auto. intros i [v dead] Hv. cbn [fst] in Hv. unfold collide1. apply okp_skip. intros x. apply okp_skip. intros a. apply okp_skip. intros b. apply okp_bind. apply (okp_mono _ (fun st => Hd t [] (fst st))).
        + destruct (cf_filter (c_flags x)); [|now apply okp_ok]. apply okp_skip. intros may. destruct (negb may); [now apply okp_ok|]. cbv zeta. assert (Hd t [] (log (EvFilter (c_fa x) (c_fb x)) v)) as HL by (now apply Hd_log). destruct (negb (e_filter E v _ _)); [now apply okp_ok|].
          apply okp_bind. intros v' Qv'. apply (Hd_contact t []) in Qv'; auto. now apply okp_ok.
        + intros [v1 keep] H1. cbn [fst] in H1. destruct (negb keep); [now apply okp_ok|]. apply okp_skip. intros ba. apply okp_skip. intros bb. destruct (_ && _); [now apply okp_ok|]. apply okp_skip. intros ida. apply okp_skip. intros idb. apply okp_skip. intros ov. destruct (negb ov); [now apply okp_ok|].
          apply okp_bind. intros v2 Q2. apply (Hd_update t []) in Q2; auto. now apply okp_ok.
      - intros [v dead] Hv. cbn [fst] in Hv. apply Hd_each; auto. intros c v' Hv'. now apply Hd_destroy.
    Qed.

    (** the islands *)
    Lemma Hd_report t cs l w : Hd t cs w -> incl l cs -> okp (report E l w) (Hd t cs).
    Proof.
      intros H Il. unfold report. destruct (w_listener w); [|now apply okp_ok]. revert w H Il. induction l as [|c l IH]; intros w H Il; cbn [each]; [now apply okp_ok|]. apply okp_bind. intros v Qv. apply IH; [|intros k Hk; apply Il; now right].
      revert v Qv. apply Hd_listen; auto. intros k Hk. cbn in Hk. apply Nat.eqb_eq in Hk. subst. apply Il. now left.
    Qed.
    Lemma Hd_solve_island t cs is dt w : Hd t cs w -> incl (is_contacts is) cs -> okp (solve_island E is dt w) (Hd t cs).
    Proof.
      intros H Il. unfold solve_island. apply okp_skip. intros s. set (w1 := log _ w). assert (Hd t cs w1) as H1 by (now apply Hd_log). clearbody w1. apply okp_bind. intros w2 Q2. apply (Hd_each t cs) in Q2; auto; [|intros c v Hv; now apply Hd_contact].
      apply okp_bind. intros w3 Q3. apply (Hd_each t cs) in Q3; auto; [|intros c v Hv; now apply Hd_body]. apply okp_bind. intros w4 Q4. apply (Hd_report t cs) in Q4; auto. destruct (w_allow_sleep w4); [|now apply okp_ok].
      apply okp_bind. intros w5 Q5. apply (Hd_each t cs) in Q5; auto; [|intros c v Hv; now apply Hd_body]. destruct (so_sleep s); [|now apply okp_ok]. apply Hd_each; auto. intros c v Hv. now apply Hd_body.
    Qed.
    Definition Dd t (st : dstate (T := T)) : Prop := Hd t (is_contacts (snd (fst st))) (fst (fst st)).
    Lemma Dd_other t o st : Dd t st -> okp (visit_other o st) (Dd t).
    Proof. destruct st as [[w is] stack]. unfold Dd. cbn [fst snd]. intros H. unfold visit_other. apply okp_skip. intros x. destruct (fl_island (b_flags x)); apply okp_ok; cbn [fst snd]; auto; now apply Hd_put. Qed.
    Lemma Dd_contact t e st : Dd t st -> okp (visit_contact e st) (Dd t).
    Proof.
      destruct st as [[w is] stack]. intros H. unfold visit_contact, get_contact. destruct (w_contacts w (ge_item e)) as [x|] eqn:Ex; [|easy]. cbn [unwrap bind]. destruct (cf_island (c_flags x)); [now apply okp_ok|]. destruct (_ || _); [now apply okp_ok|].
      unfold get_fixture. destruct (w_fixtures w (c_fa x)) as [fa|] eqn:Ea; [|easy]. cbn [unwrap bind]. destruct (w_fixtures w (c_fb x)) as [fb|] eqn:Eb; [|easy]. cbn [unwrap bind]. destruct (f_sensor fa || f_sensor fb) eqn:Es; [now apply okp_ok|].
      apply Dd_other. unfold Dd in *. cbn [fst snd is_contacts] in *. apply (Hd_put_contact _ _ w (ge_item e) x); auto. apply (Hd_less t t (ge_item e :: is_contacts is)); auto; [|intros c Hc; apply in_app_or in Hc; destruct Hc as [Hc|[<-|[]]]; [now right|now left]].
      apply Hd_more; auto; [congruence|]. eapply sensor_at; eauto.
    Qed.
    Lemma Dd_joint t e st : Dd t st -> okp (visit_joint e st) (Dd t).
    Proof.
      destruct st as [[w is] stack]. intros H. unfold visit_joint. apply okp_skip. intros j. destruct (j_island j); [now apply okp_ok|]. apply okp_skip. intros o. destruct (negb (is_enabled o)); [now apply okp_ok|]. apply Dd_other. unfold Dd in *. cbn [fst snd is_contacts] in *. eapply Hd_same; eauto. intros f. reflexivity.
    Qed.
    Lemma Dd_dfs1 t i st : Dd t st -> okp (dfs1 i st) (Dd t).
    Proof.
      destruct st as [[w is] stack]. intros H. unfold dfs1. apply okp_skip. intros b. apply okp_skip. intros _. unfold add_body. set (w1 := put_body i _ w). assert (Dd t (w1, Island (is_bodies is ++ [i]) (is_contacts is) (is_joints is), stack)) as H1. { unfold Dd in *. cbn [fst snd is_contacts] in *. now apply Hd_put. } clearbody w1. destruct (is_static b); [now apply okp_ok|].
      apply okp_bind. intros w2 Q2. assert (Dd t (w2, Island (is_bodies is ++ [i]) (is_contacts is) (is_joints is), stack)) as H2. { unfold Dd in *. cbn [fst snd is_contacts] in *. revert w2 Q2. now apply Hd_body. }
      apply okp_bind. apply (okp_mono _ (Dd t)); [apply okp_each; auto; intros e st Hst; now apply Dd_contact|]. intros st Hst. apply okp_each; auto. intros e st' Hst'. now apply Dd_joint.
    Qed.
    Lemma Dd_dfs t : forall fuel st, Dd t st -> okp (dfs fuel st) (Dd t).
    Proof.
      induction fuel as [|fuel IH]; intros [[w is] [|i stack]] H; cbn [dfs]; try (now apply okp_ok); try easy. apply okp_bind. apply (okp_mono _ (Dd t)); [|auto]. apply Dd_dfs1. exact H.
    Qed.
    Lemma Hd_seed t cap dt seed w : Hd t [] w -> okp (solve_seed E cap dt seed w) (Hd t []).
    Proof.
      intros H. unfold solve_seed. apply okp_skip. intros b. destruct (fl_island (b_flags b)); [now apply okp_ok|]. destruct (_ || _); [now apply okp_ok|]. destruct (is_static b); [now apply okp_ok|]. cbv zeta. apply okp_bind. apply (okp_mono _ (Dd t)); [apply Dd_dfs; unfold Dd; cbn [fst snd is_contacts]; now apply Hd_put|].
      intros [[w1 is] st] H1. unfold Dd in H1. cbn [fst snd] in H1. apply okp_skip. intros _. apply okp_bind. intros w2 Q2. apply (Hd_solve_island t (is_contacts is)) in Q2; auto; [|apply incl_refl]. apply (Hd_less t t _ []) in Q2; auto; [|easy]. apply Hd_each; auto. intros i v Hv. now apply Hd_body.
    Qed.
    Lemma Hd_solve t dt w : Hd t [] w -> okp (solve E dt w) (Hd t []).
    Proof.
      intros H. unfold solve. cbv zeta. apply okp_bind. intros w1 Q1. assert (Hd t [] w1) as H1.
      { revert w1 Q1. unfold clear_island_flags. apply okp_bind. intros v1 Q1. apply (Hd_each t []) in Q1; auto; [|intros c v Hv; now apply Hd_body]. apply okp_bind. intros v2 Q2. apply (Hd_each t []) in Q2; auto; [|intros c v Hv; now apply Hd_contact]. apply Hd_each; auto. intros c v Hv. now apply Hd_joint. }
      apply okp_bind. intros w2 Q2. apply (Hd_each t []) in Q2; auto; [|intros c v Hv; now apply Hd_seed]. apply okp_bind. intros w3 Q3. assert (Hd t [] w3) as H3. { revert w3 Q3. unfold sync_moved. apply Hd_each; auto. intros i v Hv. apply okp_skip. intros b. destruct (negb _); [now apply okp_ok|]. destruct (is_static b); [now apply okp_ok|]. now apply Hd_syncs. }
      now apply Hd_find.
    Qed.

    (** the continuous phase *)
    Definition Sd (st : world * option nat * T) : Prop := Hd true (match snd (fst st) with Some c => [c] | None => [] end) (fst (fst st)).
    Lemma Hd_scan i st : Sd st -> okp (toi_scan1 E i st) Sd.
    Proof.
      destruct st as [[w best] al]. unfold Sd at 1. cbn [fst snd]. set (cs := match best with Some c => [c] | None => [] end). intros H. unfold toi_scan1. unfold get_contact. destruct (w_contacts w i) as [x|] eqn:Ex; [|easy]. cbn [unwrap bind].
      assert (Bt : forall v a, Hd true cs v -> w_contacts v i <> None -> plain v i -> okp (Ok (if a <? al then (v, Some i, a) else (v, best, al))) Sd).
      { intros v a Hv Lv Pv. apply okp_ok. destruct (a <? al); unfold Sd; cbn [fst snd]; auto. apply (Hd_less true true (i :: cs)); [now apply Hd_more| |auto]. intros k [<-|[]]. now left. }
      destruct (negb (cf_enabled (c_flags x))); [now apply okp_ok|]. destruct (_ <? _)%Z; [now apply okp_ok|]. destruct (cf_toi (c_flags x)) eqn:Et.
      - apply Bt; auto; [congruence|]. intros y Hy. assert (y = x) as -> by congruence. destruct H as (_ & _ & _ & _ & F). apply (F eq_refl i x); auto.
      - unfold get_fixture. destruct (w_fixtures w (c_fa x)) as [fa|] eqn:Ea; [|easy]. cbn [unwrap bind]. destruct (w_fixtures w (c_fb x)) as [fb|] eqn:Eb; [|easy]. cbn [unwrap bind]. destruct (f_sensor fa || f_sensor fb) eqn:Es; [now apply okp_ok|].
        assert (plain w i) as Pi by (eapply sensor_at; eauto). apply okp_skip. intros a. apply okp_skip. intros b. apply okp_skip. intros ba. apply okp_skip. intros bb. apply okp_skip. intros _. destruct (_ && _); [now apply okp_ok|]. destruct (_ && _); [now apply okp_ok|]. cbv zeta.
        apply okp_bind. apply (okp_mono _ (fun q => Hd true (i :: cs) (fst q))).
        { assert (Hd true (i :: cs) w) as H' by (apply Hd_more; auto; congruence). destruct (_ <? _); [apply okp_skip; intros s; apply okp_ok; now apply Hd_put|]. destruct (_ <? _); [apply okp_skip; intros s; apply okp_ok; now apply Hd_put|]. now apply okp_ok. }
        intros [w1 a0] H1. cbn [fst] in H1. apply okp_skip. intros _. apply okp_skip. intros [tc beta]. set (al1 := if tc then _ else _). set (w2 := log (EvToi i) w1). assert (Hd true (i :: cs) w2) as H2 by (now apply Hd_log). clearbody w2. unfold mod_contact, get_contact. destruct (w_contacts w2 i) as [y|] eqn:Ey; [|easy]. cbn [unwrap bind].
        assert (Py : plain w2 i) by (destruct H2 as (_ & _ & _ & D & _); apply D; now left). set (y' := set_c_toi al1 _). assert (Y : c_fa y' = c_fa y /\ c_fb y' = c_fb y) by (now destruct y). destruct Y as [Ya Yb]. clearbody y'.
        assert (P3 : plain (put_contact i y' w2) i). { intros z. cbn. rewrite put_eq. intros Q. injection Q as <-. rewrite (sens_contact w2 _ y y'); auto. intros f. reflexivity. }
        assert (Hd true cs (put_contact i y' w2)) as H3.
        { destruct H2 as (A & B & (l & C1 & C2) & D & F). assert (Pk : forall c, plain w2 c -> plain (put_contact i y' w2) c). { intros c Pc. destruct (Nat.eq_dec c i) as [->|Ne]; auto. intros z. cbn. rewrite put_ne by auto. intros Hz. rewrite (sens_contact w2 _ z z); auto. intros f. reflexivity. }
          refine (conj A (conj _ (conj _ (conj _ _)))).
          - intros c. cbn. unfold put. destruct (Nat.eqb_spec c i) as [->|]; auto. intros _. apply B. congruence.
          - exists l. split; auto. intros c e He Hs. destruct (C2 c e He Hs). auto.
          - intros c Hc. destruct (D c) as [D1 D2]; [now right|]. split; auto. cbn. unfold put. now destruct (Nat.eqb c i).
          - intros _ c z. cbn. unfold put. destruct (Nat.eqb_spec c i) as [->|Ne]; intros Hz Hf.
            + apply P3. cbn. rewrite put_eq. exact Hz.
            + rewrite (sens_contact w2 _ z z); auto; [|intros f; reflexivity]. apply (F eq_refl c z); auto. }
        apply Bt; auto. cbn. rewrite put_eq. easy.
    Qed.
    Definition Jd (st : world * island) : Prop := Hd true (is_contacts (snd st)) (fst st).
    Lemma Jd_join i al e st : Jd st -> okp (toi_join E i al e st) Jd.
    Proof.
      destruct st as [w is]. intros H. unfold toi_join. unfold get_contact at 1. destruct (w_contacts w (ge_item e)) as [x|] eqn:Ex; [|easy]. cbn [unwrap bind]. destruct (cf_island (c_flags x)); [now apply okp_ok|]. apply okp_skip. intros o. apply okp_skip. intros b. destruct (_ && _ && _); [now apply okp_ok|].
      unfold get_fixture. destruct (w_fixtures w (c_fa x)) as [fa|] eqn:Ea; [|easy]. cbn [unwrap bind]. destruct (w_fixtures w (c_fb x)) as [fb|] eqn:Eb; [|easy]. cbn [unwrap bind]. destruct (f_sensor fa || f_sensor fb) eqn:Es; [now apply okp_ok|]. cbv zeta.
      unfold Jd in H. cbn [fst snd] in H. assert (plain w (ge_item e)) as Pi by (eapply sensor_at; eauto). set (cs := ge_item e :: is_contacts is). assert (Hd true cs w) as H0 by (apply Hd_more; auto; congruence). assert (Dr : forall v, Hd true cs v -> Hd true (is_contacts is) v) by (intros v Hv; eapply Hd_less; eauto; intros k Hk; now right).
      apply okp_bind. intros w1 Q1. assert (Hd true cs w1) as H1 by (revert w1 Q1; destruct (fl_island (b_flags o)); [now apply okp_ok|]; apply okp_skip; intros o'; apply okp_ok; now apply Hd_put). apply okp_bind. intros w2 Q2. apply (Hd_update true cs) in Q2; auto. clear Q1 H H0 H1.
      unfold get_contact. destruct (w_contacts w2 (ge_item e)) as [x2|] eqn:Ex2; [|easy]. cbn [unwrap bind]. destruct (negb (cf_enabled (c_flags x2)) || _).
      - apply okp_bind. intros w3 Q3. apply (Hd_body true cs) in Q3; auto. apply okp_ok. unfold Jd. cbn [fst snd]. auto.
      - set (w3 := put_contact _ _ w2). assert (Hd true cs w3) as H3 by (now apply (Hd_put_contact true cs w2 (ge_item e) x2)). clearbody w3. assert (Jd (w3, Island (is_bodies is) (is_contacts is ++ [ge_item e]) (is_joints is))) as J3.
        { unfold Jd. cbn [fst snd is_contacts]. eapply Hd_less; [exact H3| |auto]. intros k Hk. apply in_app_or in Hk. destruct Hk as [Hk|[<-|[]]]; [now right|now left]. }
        apply okp_skip. intros o2. destruct (fl_island (b_flags o2)); [now apply okp_ok|]. apply okp_ok. unfold add_body, Jd in *. cbn [fst snd is_contacts] in *. now apply Hd_put.
    Qed.
    Lemma Jd_grow i al st : Jd st -> okp (toi_grow E i al st) Jd.
    Proof. destruct st as [w is]. intros H. unfold toi_grow. apply okp_skip. intros b. destruct (is_dynamic b); [|now apply okp_ok]. apply okp_each; auto. intros e st Hst. now apply Jd_join. Qed.
    Lemma Hd_release cs i w : Hd true cs w -> okp (toi_release i w) (Hd true cs).
    Proof.
      intros H. unfold toi_release. apply okp_bind. intros w1 Q1. apply (Hd_body true cs) in Q1; auto. apply okp_skip. intros b. destruct (negb _); [now apply okp_ok|]. apply okp_bind. intros w2 Q2. apply (Hd_syncs true cs) in Q2; auto. apply Hd_each; auto. intros e v Hv. apply Hd_contact; auto.
      intros x. refine (conj eq_refl (conj eq_refl _)). now destruct x as [[] ? ? ? ? ? ? ? ? ? ? ?].
    Qed.
    Lemma Hd_solve_toi_island cs is ia ib dt w : Hd true cs w -> incl (is_contacts is) cs -> okp (solve_toi_island E is ia ib dt w) (Hd true cs).
    Proof.
      intros H Il. unfold solve_toi_island. apply okp_skip. intros _. apply okp_skip. intros _. apply okp_skip. intros _. apply okp_skip. intros _. apply okp_skip. intros s. set (w1 := log _ w). assert (Hd true cs w1) as H1 by (now apply Hd_log). clearbody w1.
      apply okp_bind. intros w2 Q2. apply (Hd_each true cs) in Q2; auto; [|intros c v Hv; now apply Hd_body]. now apply Hd_report.
    Qed.
    Lemma Hd_event mc al dt w : Hd true [mc] w -> okp (toi_event E mc al dt w) (fun st => Hd true [] (fst st)).
    Proof.
      intros H. assert (Dr : forall cs v, Hd true cs v -> Hd true [] v) by (intros cs v Hv; eapply Hd_less; eauto; easy). unfold toi_event. apply okp_skip. intros c. apply okp_skip. intros a. apply okp_skip. intros b. apply okp_skip. intros ba. apply okp_skip. intros bb. cbv zeta. apply okp_skip. intros ba'.
      set (w1 := put_body a ba' w). assert (Hd true [mc] w1) as H1 by (now apply Hd_put). clearbody w1. apply okp_skip. intros bb1. apply okp_skip. intros bb'. set (w2 := put_body b bb' w1). assert (Hd true [mc] w2) as H2 by (now apply Hd_put). clearbody w2.
      apply okp_bind. intros w3 Q3. apply (Hd_update true [mc]) in Q3; auto. apply okp_bind. intros w4 Q4. apply (Hd_contact true [mc]) in Q4; auto; [|intros x; refine (conj eq_refl (conj eq_refl _)); now destruct x as [[] ? ? ? ? ? ? ? ? ? ? ?]]. apply okp_skip. intros c4. destruct (_ || _).
      - apply okp_bind. intros w5 Q5. apply (Hd_contact true [mc]) in Q5; auto. apply okp_bind. intros w6 Q6. apply (Hd_body true [mc]) in Q6; auto. apply okp_bind. intros w7 Q7. apply (Hd_body true [mc]) in Q7; auto. apply okp_bind. intros w8 Q8. apply (Hd_body true [mc]) in Q8; auto. apply okp_bind. intros w9 Q9. apply (Hd_body true [mc]) in Q9; auto. apply okp_ok. cbn [fst]. eauto.
      - apply okp_bind. intros w5 Q5. apply (Hd_body true [mc]) in Q5; auto. apply okp_bind. intros w6 Q6. apply (Hd_body true [mc]) in Q6; auto. apply okp_skip. intros ba2. unfold add_body. set (w7 := put_body a _ w6). assert (Hd true [mc] w7) as H7 by (now apply Hd_put). clearbody w7. apply okp_skip. intros bb2. set (w8 := put_body b _ w7). assert (Hd true [mc] w8) as H8 by (now apply Hd_put). clearbody w8. cbn [is_bodies is_contacts is_joints].
        apply okp_bind. intros w9 Q9. apply (Hd_body true [mc]) in Q9; auto. apply okp_bind. intros wa Qa. apply (Hd_body true [mc]) in Qa; auto. apply okp_bind. intros wb Qb. apply (Hd_contact true [mc]) in Qb; auto. apply okp_bind. apply (okp_mono _ Jd); [now apply Jd_grow|]. intros st Hst. apply okp_bind. apply (okp_mono _ Jd); [now apply Jd_grow|]. intros [wc is] Hc. unfold Jd in Hc. cbn [fst snd] in Hc.
        apply okp_skip. intros ba3. apply okp_skip. intros bb3. apply okp_bind. intros wd Qd. apply (Hd_solve_toi_island (is_contacts is)) in Qd; auto; [|apply incl_refl]. apply okp_bind. intros we Qe. apply (Hd_each true (is_contacts is)) in Qe; auto; [|intros i v Hv; now apply Hd_release].
        apply okp_bind. intros wf Qf. apply (Hd_find true (is_contacts is)) in Qf; auto. apply okp_ok. cbn [fst]. eauto.
    Qed.
    Lemma Hd_loop dt : forall fuel w, Hd true [] w -> okp (toi_loop E fuel dt w) (Hd true []).
    Proof.
      assert (Dr : forall cs v, Hd true cs v -> Hd true [] v) by (intros cs v Hv; eapply Hd_less; eauto; easy). assert (Sc : forall f v, Hd true [] v -> Hd true [] (set_w_step_complete f v)) by (intros f v Hv; eapply Hd_same; eauto; intros g; reflexivity).
      induction fuel as [|fuel IH]; intros w H; cbn [toi_loop]; [easy|]. apply okp_bind. apply (okp_mono _ Sd); [apply okp_each; [intros i st Hst; now apply Hd_scan|exact H]|]. intros [[w1 best] al] H1. unfold Sd in H1. cbn [fst snd] in H1. destruct best as [mc|]; [|apply okp_ok; eauto]. destruct (_ <? al); [apply okp_ok; eauto|].
      apply okp_bind. apply (okp_mono _ (fun st => Hd true [] (fst st))); [now apply Hd_event|]. intros [w2 sol] H2. cbn [fst] in H2. destruct (_ && _); [apply okp_ok; eauto|]. auto.
    Qed.
  End From.

  Definition cold (x : contact T) : contact T := set_c_toi #1 (set_c_toi_count 0 (mod_cflags (fun f => set_cf_island false (set_cf_toi false f)) x)).
  Lemma cold_off x : cf_toi (c_flags (cold x)) = false.
  Proof. now destruct x as [[] ? ? ? ? ? ? ? ? ? ? ?]. Qed.
  Lemma each_cold : forall l w, okp (each (fun c => mod_contact c cold) l w) (fun w' => forall c x, w_contacts w' c = Some x -> w_contacts w c <> None /\ (In c l \/ (forall y, w_contacts w c = Some y -> cf_toi (c_flags y) = false) -> cf_toi (c_flags x) = false)).
  Proof.
    induction l as [|i l IH]; intros w; cbn [each].
    - apply okp_ok. intros c x Hx. split; [congruence|]. intros [[]|H]. auto.
    - apply okp_bind. unfold mod_contact, get_contact. destruct (w_contacts w i) as [y|] eqn:Ey; [|easy]. cbn [unwrap bind]. apply okp_ok. intros w' R. apply IH in R. intros c x Hx. destruct (R c x Hx) as [A B]. cbn in A, B. unfold put in A, B. destruct (Nat.eqb_spec c i) as [->|Ne].
      + split; [congruence|]. intros _. apply B. right. intros z Hz. injection Hz as <-. apply cold_off.
      + split; auto. intros [[H|H]|H]; [congruence|auto|auto].
  Qed.
  Lemma reset_tois w0 w : Hd w0 false [] w -> (forall c, w_contacts w c <> None -> In c (w_contact_list w)) -> okp (toi_reset w) (Hd w0 true []).
  Proof.
    intros H L. unfold toi_reset. apply okp_bind. intros w1 Q1. assert (Hd w0 false [] w1 /\ w_contacts w1 = w_contacts w /\ w_contact_list w1 = w_contact_list w) as (H1 & C1 & L1).
    { revert w1 Q1. apply (okp_each (fun v => Hd w0 false [] v /\ w_contacts v = w_contacts w /\ w_contact_list v = w_contact_list w)); auto. intros i v (A & B & C) v' Q. split; [eapply Hd_body; eauto|]. unfold mod_body in Q. destruct (get_body v i); cbn in Q; try easy. injection Q as <-. auto. }
    intros w2 Q2. change (each (fun c => mod_contact c cold) (w_contact_list w1) w1 = Ok w2) in Q2. pose proof (each_cold _ _ _ Q2) as K. rewrite C1, L1 in K. apply (Hd_each w0 false []) in Q2; auto.
    - destruct Q2 as (A & B & C & D & _). refine (conj A (conj B (conj C (conj D _)))). intros _ c x Hx Hf. destruct (K c x Hx) as [K1 K2]. rewrite K2 in Hf; [easy|]. left. auto.
    - intros c v Hv. apply Hd_contact; auto. intros x. refine (conj eq_refl (conj eq_refl _)). now rewrite cold_off.
  Qed.
  Theorem step_news oks dt w : env_ok True E -> W True oks w -> w_step_complete w = true ->
    okp (step E dt w) (fun w' => exists l, news w w' l /\ forall c x, w_contacts w' c = Some x -> sensor_contact w' x = true -> existsb (solves c) l = false).
  Proof.
    intros EO H SC. assert (CO : forall v : world, classes_ok True v) by (intros v; unfold classes_ok; intros; now left).
    enough (okp (step E dt w) (Hd w false [])) as K.
    { intros w' R. destruct (K w' R) as (_ & _ & (l & L1 & L2) & _). exists l. split; auto. intros c x Hx Hs. apply not_true_iff_false. intros Ex. apply existsb_exists in Ex. destruct Ex as (e & He & Hc). destruct (L2 c e He Hc) as [_ P]. rewrite (P x Hx) in Hs. easy. }
    assert (Hd w false [] w) as H0. { refine (conj (fun _ => eq_refl) (conj _ (conj _ (conj _ _)))); try easy; [|now exists []]. intros c Hc. destruct (W_contacts _ _ _ H) as ((_ & _ & _ & Fr) & _). cbn in Fr. destruct (Nat.lt_ge_cases c (w_next_contact w)) as [|Q]; auto. apply Fr in Q. now destruct (w_contacts w c). }
    unfold step. apply okp_bind. intros w1 Q1. assert (Hd w false [] w1 /\ W True oks w1 /\ w_step_complete w1 = true) as (H1 & W1 & S1).
    { destruct (w_new_contacts w); [|injection Q1 as <-; auto]. destruct (find_new_contacts E w) as [v| |] eqn:Ef; cbn in Q1; try easy. injection Q1 as <-. destruct (sat_true _ _ (sat_find True oks E w H (CO w)) _ Ef) as (Wv & Gv & _). apply (Hd_find w false []) in Ef; auto. refine (conj _ (conj _ _)).
      - eapply Hd_same; eauto. intros f. reflexivity.
      - eapply W_frame0; eauto.
      - destruct (still_grow _ _ Gv) as (Q & _). unfold switches in Q. cbn. congruence. }
    clear Q1. set (w1' := set_w_locked true w1). assert (Hd w false [] w1') as H1' by (eapply Hd_same; eauto; intros f; reflexivity). assert (W True oks w1') as W1' by (eapply W_frame0; eauto). assert (S1' : w_step_complete w1' = true) by exact S1. clearbody w1'. clear w1 H1 W1 S1. rename w1' into w1.
    apply okp_bind. intros w2 Q2. destruct (sat_true _ _ (sat_collide True oks E EO w1 W1') _ Q2) as (W2 & St2 & _). apply (Hd_collide w false) in Q2; auto. assert (S2 : w_step_complete w2 = true) by (destruct St2 as (Q & _); unfold switches in Q; congruence). clear St2 W1' H1' S1' w1 H0.
    apply okp_bind. intros w3 Q3. assert (Hd w false [] w3 /\ W True oks w3 /\ w_step_complete w3 = true) as (H3 & W3 & S3).
    { destruct (w_step_complete w2 && (dt >? #0)); [|injection Q3 as <-; auto]. destruct (sat_true _ _ (sat_solve True oks E EO w2 W2 dt (CO w2)) _ Q3) as (W3 & St3 & _). apply (Hd_solve w false) in Q3; auto. refine (conj Q3 (conj W3 _)). destruct St3 as (Q & _). unfold switches in Q. congruence. }
    clear Q3 Q2 W2 S2 w2. apply okp_bind. intros w4 Q4. assert (Hd w false [] w4) as H4.
    { destruct (w_continuous w3 && (dt >? #0)); [|now injection Q4 as <-]. revert w4 Q4. unfold solve_toi. rewrite S3. apply okp_bind. apply (okp_mono _ (Hd w true [])).
      - apply reset_tois; auto. intros c Hc. destruct (W_contacts _ _ _ W3) as ((_ & Ic & _) & _). cbn in Ic. apply Ic. now destruct (w_contacts w3 c).
      - intros v Hv. apply (okp_mono _ (Hd w true [])); [now apply Hd_loop|]. intros v' Hv'. eapply Hd_less; eauto; easy. }
    set (w5 := if dt >? #0 then _ else w4). assert (Hd w false [] w5) as H5 by (unfold w5; destruct (dt >? #0); auto; eapply Hd_same; eauto; intros f; reflexivity). clearbody w5. apply okp_bind. intros w6 Q6. assert (Hd w false [] w6) as H6.
    { destruct (w_clear_forces w5); [|now injection Q6 as <-]. revert w6 Q6. unfold clear_forces. apply Hd_each; auto. intros i v Hv. now apply Hd_body. }
    apply okp_ok. eapply Hd_same; eauto. intros f. reflexivity.
  Qed.
End News.
