(** Touching contacts between solid fixtures have points in every world a gentle program can get. *)
From Coq Require Import List ZArith Bool Arith Lia.
From Verif Require Import Base Num Math Collision Manifold Filter ShapeModel ListFacts ManifoldProofs TreeModel TreeSpec TreeHist BroadModel BroadSpec BroadProofs BroadFinal DynModel DynSpec DynProofs WorldModel WorldGraph WorldSpec WorldClaims WorldGops WorldLogic WorldPhys WorldContact WorldInv WorldOps WorldFix WorldBody WorldLife WorldSet WorldIsland WorldSolve WorldToi WorldStep WorldCalls WorldHist WorldFinal WorldAfter WorldReach SafeSpec SolverModel IslandModel SolverSpec SolveModel CrashSpec TouchSpec.
Import ListNotations.

Section Touch.
  Local Open Scope num_scope.
  Context {T : Type} `{NT : Num T} `{TT : NumTrig T} `{VT : NumValid T}.
  Notation world := (world T).
  Implicit Types w : world.
  Variable B : Prop.
  Notation solidf := solid_fixture.

  Definition nnp (n : nat) (ps : list (mpoint T)) : Prop := forall k p, k < n -> nth_error ps k = Some p -> nonneg (mp_normal_impulse p).
  Definition good w (x : contact T) : Prop :=
    (cf_touching (c_flags x) = true -> solidf w (c_fa x) -> solidf w (c_fb x) -> 1 <= mf_count (c_manifold x)) /\ (B -> nnp (mf_count (c_manifold x)) (mf_points (c_manifold x))).
  Definition G w : Prop := (forall c x, w_contacts w c = Some x -> good w x) /\ (B -> nonneg (w_inv_dt0 w)).

  Variable E : env T.
  Hypothesis HO : hands_off E.
  Hypothesis N0 : B -> nonneg (#0 : T).
  Hypothesis SQ : B -> forall w is dt s c x, G w -> (#0 <? dt) = true -> e_solve E w is dt = Ok s -> In c (is_contacts is) -> w_contacts w c = Some x -> nnp (mf_count (c_manifold x)) (so_points s c).
  Hypothesis RT : B -> forall dt : T, (#0 <? dt) = true -> nonneg (#1 / dt).

  Lemma good_world w w' x : good w x -> (solidf w' (c_fa x) -> solidf w (c_fa x)) -> (solidf w' (c_fb x) -> solidf w (c_fb x)) -> good w' x.
  Proof. intros (A & C) Ha Hb. split; auto. Qed.
  Lemma good_kin w (x x' : contact T) : good w x -> c_fa x' = c_fa x -> c_fb x' = c_fb x -> cf_touching (c_flags x') = cf_touching (c_flags x) -> c_manifold x' = c_manifold x -> good w x'.
  Proof. unfold good. intros (A & C) -> -> -> ->. auto. Qed.
  Lemma G_same w w' : G w -> w_contacts w' = w_contacts w -> (forall f, solidf w' f -> solidf w f \/ forall c x, w_contacts w c = Some x -> c_fa x <> f /\ c_fb x <> f) -> w_inv_dt0 w' = w_inv_dt0 w -> G w'.
  Proof.
    intros (A & C) Q F D. split; [|now rewrite D]. rewrite Q. intros c x Hx. apply (good_world w); [eauto| |]; intros S; destruct (F _ S) as [|K]; auto; now destruct (K c x Hx).
  Qed.
  Lemma G_eq w w' : G w -> w_contacts w' = w_contacts w -> w_fixtures w' = w_fixtures w -> w_inv_dt0 w' = w_inv_dt0 w -> G w'.
  Proof. intros H Q F D. apply (G_same w); auto. intros f. unfold solid_fixture. rewrite F. auto. Qed.
  Ltac same := eapply G_eq; [eassumption|reflexivity|reflexivity|reflexivity].
  Lemma G_put w i b : G w -> G (put_body i b w).
  Proof. intros H. same. Qed.
  Lemma G_body i f w : G w -> okp (mod_body i f w) G.
  Proof. intros H. unfold mod_body. apply okp_skip. intros b. apply okp_ok. now apply G_put. Qed.
  Lemma G_joint i f w : G w -> okp (mod_joint i f w) G.
  Proof. intros H. unfold mod_joint. apply okp_skip. intros b. apply okp_ok. same. Qed.
  Lemma G_log e w : G w -> G (log e w).
  Proof. intros H. same. Qed.
  Lemma G_put_contact w i x' : G w -> good w x' -> G (put_contact i x' w).
  Proof. intros (A & C) Hx. split; auto. intros c x. cbn. unfold put. destruct (Nat.eqb c i); [intros [= <-]; exact Hx|]. intros K. exact (A c x K). Qed.
  Lemma G_set_contact w i x x' : G w -> w_contacts w i = Some x -> c_fa x' = c_fa x -> c_fb x' = c_fb x -> cf_touching (c_flags x') = cf_touching (c_flags x) -> c_manifold x' = c_manifold x -> G (put_contact i x' w).
  Proof. intros H Hx A C D F. apply G_put_contact; auto. apply (good_kin w x); auto. exact (proj1 H i x Hx). Qed.
  Lemma G_contact i f w : G w -> (forall x, c_fa (f x) = c_fa x /\ c_fb (f x) = c_fb x /\ cf_touching (c_flags (f x)) = cf_touching (c_flags x) /\ c_manifold (f x) = c_manifold x) -> okp (mod_contact i f w) G.
  Proof. intros H Hf. unfold mod_contact, get_contact. destruct (w_contacts w i) as [x|] eqn:Ex; [|easy]. cbn [unwrap bind]. apply okp_ok. destruct (Hf x) as (A & C & D & F). now apply (G_set_contact w i x). Qed.
  Lemma G_listen e i w : G w -> okp (listen E e i w) G.
  Proof. intros H. unfold listen, get_contact. destruct (w_contacts w i) as [x|] eqn:Ex; [|easy]. cbn [unwrap bind]. apply okp_ok, G_log. apply (G_set_contact w i x); auto. apply HO. Qed.
  Lemma G_each {A} (f : A -> world -> res world) l w : (forall x w, G w -> okp (f x w) G) -> G w -> okp (each f l w) G.
  Proof. intros Hf H. now apply okp_each. Qed.
  Lemma G_fixture w f x x' w' : G w -> w_fixtures w f = Some x -> f_sensor x' = f_sensor x -> w_contacts w' = w_contacts w -> w_fixtures w' = put (w_fixtures w) f (Some x') -> w_inv_dt0 w' = w_inv_dt0 w -> G w'.
  Proof.
    intros H Hx S Q F D. apply (G_same w); auto. intros g (y & Hy & Sy). left. rewrite F in Hy. unfold put in Hy. destruct (Nat.eqb_spec g f) as [->|]; [|now exists y]. injection Hy as <-. exists x. split; auto. congruence.
  Qed.
  Lemma G_gone w f w' : G w -> w_contacts w' = w_contacts w -> w_fixtures w' = put (w_fixtures w) f None -> w_inv_dt0 w' = w_inv_dt0 w -> G w'.
  Proof. intros H Q F D. apply (G_same w); auto. intros g (y & Hy & Sy). left. rewrite F in Hy. unfold put in Hy. destruct (Nat.eqb g f); [discriminate|]. now exists y. Qed.
  Lemma G_sync f a b w : G w -> okp (synchronize f a b w) G.
  Proof.
    intros H. unfold synchronize, get_fixture. destruct (w_fixtures w f) as [x|] eqn:Ex; [|easy]. cbn [unwrap bind]. destruct (Nat.eqb (f_proxy_count x) 0); [now apply okp_ok|]. apply okp_skip. intros [ps bp]. apply okp_ok. eapply (G_fixture w f x _ _ H Ex); [|reflexivity|reflexivity|reflexivity]; reflexivity.
  Qed.
  Lemma G_create_proxies f xf w : G w -> okp (create_proxies f xf w) G.
  Proof. intros H. unfold create_proxies, get_fixture. destruct (w_fixtures w f) as [x|] eqn:Ex; [|easy]. cbn [unwrap bind]. apply okp_skip. intros _. apply okp_skip. intros n. apply okp_skip. intros [ps bp]. apply okp_ok. eapply (G_fixture w f x _ _ H Ex); [|reflexivity|reflexivity|reflexivity]; reflexivity. Qed.
  Lemma G_destroy_proxies f w : G w -> okp (destroy_proxies f w) G.
  Proof. intros H. unfold destroy_proxies, get_fixture. destruct (w_fixtures w f) as [x|] eqn:Ex; [|easy]. cbn [unwrap bind]. apply okp_skip. intros [ps bp]. apply okp_ok. eapply (G_fixture w f x _ _ H Ex); [|reflexivity|reflexivity|reflexivity]; reflexivity. Qed.
  Lemma G_touch f w : G w -> okp (touch_proxies f w) G.
  Proof. intros H. unfold touch_proxies. apply okp_skip. intros x. apply okp_skip. intros bp. apply okp_ok. same. Qed.
  Lemma G_syncs i w : G w -> okp (synchronize_fixtures i w) G.
  Proof. intros H. unfold synchronize_fixtures. apply okp_skip. intros b. cbv zeta. apply G_each; auto. intros f v Hv. now apply G_sync. Qed.

  Lemma new_good w xa xb fa ia fb ib : good w (contact_new xa xb fa ia fb ib).
  Proof. split; [discriminate|]. intros _ k p Hk. cbn in Hk. lia. Qed.
  Lemma G_link x w : G w -> (forall v, good v x) -> okp (link_contact x w) G.
  Proof.
    intros H Hx. unfold link_contact. cbv zeta. set (w1 := set_w_next_contact _ _). assert (G w1) as H1 by (pose proof (G_put_contact w (w_next_contact w) x H (Hx w)); same).
    clearbody w1. apply okp_skip. intros a. apply okp_skip. intros b. set (w2 := set_w_contact_list _ w1). assert (G w2) as H2 by same. clearbody w2.
    apply okp_bind. intros w3 H3. apply G_body in H3; auto. apply okp_bind. intros w4 H4. apply G_body in H4; auto. apply okp_ok. same.
  Qed.
  Lemma G_add_pair u v w : G w -> okp (add_pair E w u v) G.
  Proof.
    intros H. unfold add_pair. apply okp_skip. intros [fa ia]. apply okp_skip. intros [fb ib]. apply okp_skip. intros a. apply okp_skip. intros b. destruct (Nat.eqb a b); [now apply okp_ok|].
    apply okp_skip. intros bb. apply okp_skip. intros [|]; [now apply okp_ok|]. apply okp_skip. intros may. destruct (negb may); [now apply okp_ok|]. cbv zeta. assert (G (log (EvFilter fa fb) w)) as H1 by (now apply G_log). destruct (negb (e_filter E w fa fb)); [now apply okp_ok|].
    apply okp_bind. unfold contact_create. apply okp_skip. intros xa. apply okp_skip. intros xb. apply okp_skip. intros pr. apply okp_ok. apply G_link; auto. intros v'. destruct pr; apply new_good.
  Qed.
  Lemma G_find w : G w -> okp (find_new_contacts E w) G.
  Proof.
    intros H. unfold find_new_contacts, update_pairs. cbv zeta. apply okp_bind. apply okp_skip. intros ps. apply okp_bind. intros w1 Q1. apply okp_skip. intros tr. apply okp_ok. apply okp_ok. enough (G w1) as H1 by same.
    revert w1 Q1. apply (okp_range G); auto. intros x s Hs. apply okp_skip. intros q. apply okp_skip. intros ua. apply okp_skip. intros ub. now apply G_add_pair.
  Qed.
  Lemma G_wake c w : G w -> okp (wake_touching c w) G.
  Proof. intros H. unfold wake_touching. apply okp_skip. intros fa. apply okp_skip. intros fb. destruct (_ && _ && _); [|now apply okp_ok]. apply okp_skip. intros a'. apply okp_bind. intros w6 Q6. apply G_body in Q6; auto. apply okp_skip. intros b'. now apply G_body. Qed.
  Lemma G_destroy i w : G w -> okp (destroy_contact E i w) G.
  Proof.
    intros H. unfold destroy_contact. apply okp_skip. intros x. apply okp_skip. intros a. apply okp_skip. intros b. apply okp_bind. intros w1 Q1. assert (G w1) as H1.
    { revert w1 Q1. destruct (w_listener w && cf_touching (c_flags x)); [|now apply okp_ok]. now apply G_listen. }
    clear Q1 H w. apply okp_skip. intros l. set (w2 := set_w_contact_list l w1). assert (G w2) as H2 by same. clearbody w2. apply okp_skip. intros ba. apply okp_skip. intros la.
    set (w3 := put_body a _ w2). assert (G w3) as H3 by (now apply G_put). clearbody w3. apply okp_skip. intros bb. apply okp_skip. intros lb. set (w4 := put_body b _ w3). assert (G w4) as H4 by (now apply G_put). clearbody w4. apply okp_skip. intros c'.
    apply okp_bind. intros w5 Q5. apply G_wake in Q5; auto. apply okp_skip. intros n. apply okp_ok. destruct Q5 as (A & C). split; auto. intros c y. cbn. unfold put. destruct (Nat.eqb c i); [easy|]. intros Hy. exact (A c y Hy).
  Qed.

  (** an update *)
  Lemma old_nn id ps n : B -> nnp n ps -> nonneg (fst (old_impulse id ps n)).
  Proof.
    intros HB. revert n. induction ps as [|p ps IH]; intros [|n] H; cbn; auto. destruct (cid_eqb (mp_id p) id); [exact (H 0 p ltac:(lia) eq_refl)|]. apply IH. intros k q Hk Hq. apply (H (S k)); [lia|exact Hq].
  Qed.
  Lemma carry_nn old m m' : B -> nnp (mf_count old) (mf_points old) -> carry old m = Ok m' -> mf_count m' = mf_count m /\ nnp (mf_count m') (mf_points m').
  Proof.
    intros HB H R. unfold carry in R. apply bind_ok in R as (ps & R & [= <-]). cbn [mf_count mf_points]. split; auto. unfold for_range in R. rewrite Nat.sub_0_r in R.
    assert (K : forall n lo l l', nnp lo l -> for_from n lo (fun i ps => p <- get ps i ;; let '(n, t) := old_impulse (mp_id p) (mf_points old) (mf_count old) in set ps i (MP (mp_local p) n t (mp_id p))) l = Ok l' -> nnp (lo + n) l').
    { induction n as [|n IH]; intros lo l l' Hl; cbn [for_from]; [intros [= <-]; now rewrite Nat.add_0_r|]. intros R1. apply bind_ok in R1 as (l1 & R1 & R2). rewrite <- Nat.add_succ_comm. apply (IH (S lo) l1); auto. clear IH R2.
      apply bind_ok in R1 as (p & Rp & R1). pose proof (old_nn (mp_id p) (mf_points old) (mf_count old) HB H) as Q. destruct (old_impulse _ _ _) as [ni ti]. cbn [fst] in Q. unfold set in R1. destruct (Nat.ltb lo (length l)) eqn:L; [|discriminate]. injection R1 as <-. apply Nat.ltb_lt in L.
      intros k q Hk Hq. destruct (Nat.eq_dec k lo) as [->|Ne]; [rewrite nth_upd_eq in Hq by auto; injection Hq as <-; exact Q|]. rewrite nth_upd_ne in Hq by auto. apply (Hl k q); [lia|exact Hq]. }
    apply (K (mf_count m) 0%nat (mf_points m)); auto. intros k p Hk. lia.
  Qed.
  Lemma carry_count (old m m' : manifold T) : carry old m = Ok m' -> mf_count m' = mf_count m.
  Proof. unfold carry. intros R. apply bind_ok in R as (ps & _ & [= <-]). reflexivity. Qed.
  (* while contact i is updated *)
  Definition Gi i (fa fb : nat) (m : manifold T) w : Prop := (forall c x, c <> i -> w_contacts w c = Some x -> good w x) /\ (B -> nonneg (w_inv_dt0 w)) /\ exists x, w_contacts w i = Some x /\ c_manifold x = m /\ c_fa x = fa /\ c_fb x = fb.
  Lemma Gi_body i fa fb m a f w : Gi i fa fb m w -> okp (mod_body a f w) (Gi i fa fb m).
  Proof. intros H. unfold mod_body. apply okp_skip. intros b. apply okp_ok. exact H. Qed.
  Lemma Gi_touch i fa fb m t w : Gi i fa fb m w -> (B -> nnp (mf_count m) (mf_points m)) -> (t = true -> solidf w fa -> solidf w fb -> 1 <= mf_count m) -> okp (mod_contact i (mod_cflags (set_cf_touching t)) w) G.
  Proof.
    intros (A & C & x & Hx & Hm & Hf & Hg) Hn Ht. unfold mod_contact, get_contact. rewrite Hx. cbn [unwrap bind]. apply okp_ok. split; [|exact C]. intros c y. cbn. unfold put. destruct (Nat.eqb_spec c i) as [->|Ne]; [intros [= <-]|intros Hy; exact (A c y Ne Hy)].
    unfold good. cbn [c_flags c_manifold c_fa c_fb mod_cflags set_c_flags cf_touching set_cf_touching]. rewrite Hm, Hf, Hg. split; auto.
  Qed.
  Lemma G_update i w : G w -> okp (update_contact E i w) G.
  Proof.
    intros H. unfold update_contact. apply okp_bind. intros w1 Q1. apply G_contact in Q1; auto. clear H w. unfold get_contact. destruct (w_contacts w1 i) as [x|] eqn:Ex; [|easy]. cbn [unwrap bind]. cbv zeta. unfold get_fixture. destruct (w_fixtures w1 (c_fa x)) as [fa|] eqn:Ea; [|easy]. cbn [unwrap bind]. destruct (w_fixtures w1 (c_fb x)) as [fb|] eqn:Eb; [|easy]. cbn [unwrap bind].
    apply okp_skip. intros a. apply okp_skip. intros b. apply okp_skip. intros ba. apply okp_skip. intros bb.
    assert (Rest : forall (t : bool) (sensor was : bool) w3, G w3 -> okp (if w_listener w3 then w <- (if negb was && t then listen E (EvBegin i) i w3 else Ok w3) ;; w <- (if was && negb t then listen E (EvEnd i) i w else Ok w) ;; (if negb sensor && t then listen E (EvPre i) i w else Ok w) else Ok w3) G).
    { intros t sensor was w3 H3. destruct (w_listener w3); [|now apply okp_ok]. apply okp_bind. intros w4 Q4. assert (G w4) as H4 by (revert w4 Q4; destruct (negb was && t); [now apply G_listen|now apply okp_ok]).
      apply okp_bind. intros w5 Q5. assert (G w5) as H5 by (revert w5 Q5; destruct (was && negb t); [now apply G_listen|now apply okp_ok]). destruct (negb sensor && t); [now apply G_listen|now apply okp_ok]. }
    assert (Fix : forall v, w_fixtures v = w_fixtures w1 -> solidf v (c_fa x) -> solidf v (c_fb x) -> f_sensor fa || f_sensor fb = false).
    { intros v Q (y & Hy & Sy) (z & Hz & Sz). rewrite Q in Hy, Hz. assert (y = fa) by congruence. assert (z = fb) by congruence. subst. now rewrite Sy, Sz. }
    pose proof (proj1 Q1 i x Ex) as (Gx & Gn).
    destruct (f_sensor fa || f_sensor fb) eqn:Es.
    - apply okp_bind. apply okp_skip. intros t. unfold mod_contact at 1, get_contact. cbn [w_contacts log set_w_log]. rewrite Ex. cbn [unwrap bind]. apply okp_ok. set (w2 := put_contact i _ _). assert (F2 : w_fixtures w2 = w_fixtures w1) by reflexivity.
      assert (K : Gi i (c_fa x) (c_fb x) (no_points (c_manifold x)) w2).
      { refine (conj _ (conj (proj2 Q1) _)); [|exists (set_c_manifold (no_points (c_manifold x)) x); refine (conj _ (conj eq_refl (conj eq_refl eq_refl))); cbn; now rewrite put_eq]. intros c y Ne. cbn. rewrite put_ne by auto. intros Hy. exact (proj1 Q1 c y Hy). }
      clearbody w2. apply okp_bind. intros w3 Q3. apply (Gi_touch _ _ _ _ _ _ K) in Q3; [now apply Rest| |].
      + intros _ k p Hk. cbn in Hk. lia.
      + intros _ Sa Sb. specialize (Fix w2 F2 Sa Sb). discriminate.
    - apply okp_bind. apply okp_skip. intros m. apply okp_bind. intros m' Rc. unfold mod_contact at 1, get_contact. cbn [w_contacts log set_w_log]. rewrite Ex. cbn [unwrap bind]. set (w2 := put_contact i _ _).
      assert (K : Gi i (c_fa x) (c_fb x) m' w2).
      { refine (conj _ (conj (proj2 Q1) _)); [|exists (set_c_manifold m' x); refine (conj _ (conj eq_refl (conj eq_refl eq_refl))); cbn; now rewrite put_eq]. intros c y Ne. cbn. rewrite put_ne by auto. intros Hy. exact (proj1 Q1 c y Hy). }
      clearbody w2. apply okp_bind. intros w3 Q3. assert (Gi i (c_fa x) (c_fb x) m' w3) as K3.
      { revert w3 Q3. destruct (Bool.eqb _ _); [now apply okp_ok|]. apply okp_bind. intros v1 Qv1. apply (Gi_body i (c_fa x) (c_fb x) m') in Qv1; auto. now apply Gi_body. }
      apply okp_ok. apply okp_bind. intros w4 Q4. apply (Gi_touch _ _ _ _ _ _ K3) in Q4; [now apply Rest| |].
      + intros HB. destruct (carry_nn (c_manifold x) m m' HB (Gn HB) Rc) as (_ & Q). exact Q.
      + intros Ht _ _. rewrite (carry_count _ _ _ Rc). now apply Nat.ltb_lt in Ht.
  Qed.
  Lemma G_collide w : G w -> okp (collide E w) G.
  Proof.
    intros H. unfold collide. apply okp_bind. apply (okp_mono _ (fun st => G (fst st))).
    - apply (okp_each (fun st => G (fst st))); auto. intros i [v dead] Hv. cbn [fst] in Hv. unfold collide1. apply okp_skip. intros x. apply okp_skip. intros a. apply okp_skip. intros b. apply okp_bind. apply (okp_mono _ (fun st => G (fst st))).
      + destruct (cf_filter (c_flags x)); [|now apply okp_ok]. apply okp_skip. intros may. destruct (negb may); [now apply okp_ok|]. cbv zeta. assert (G (log (EvFilter (c_fa x) (c_fb x)) v)) as HL by (now apply G_log). destruct (negb (e_filter E v _ _)); [now apply okp_ok|].
        apply okp_bind. intros v' Qv'. apply G_contact in Qv'; auto. now apply okp_ok.
      + intros [v1 keep] H1. cbn [fst] in H1. destruct (negb keep); [now apply okp_ok|]. apply okp_skip. intros ba. apply okp_skip. intros bb. destruct (_ && _); [now apply okp_ok|]. apply okp_skip. intros ida. apply okp_skip. intros idb. apply okp_skip. intros ov. destruct (negb ov); [now apply okp_ok|].
        apply okp_bind. intros v2 Q2. apply G_update in Q2; auto. now apply okp_ok.
    - intros [v dead] Hv. cbn [fst] in Hv. apply G_each; auto. intros c v' Hv'. now apply G_destroy.
  Qed.
  Lemma G_front w : G w -> okp (step_front E w) G.
  Proof.
    intros H. unfold step_front. apply okp_bind. intros w1 Q1. assert (G w1) as H1. { destruct (w_new_contacts w); [|now injection Q1 as <-]. apply bind_ok in Q1 as (v & Q & [= <-]). apply G_find in Q; auto. }
    apply G_collide. same.
  Qed.

  (** the islands *)
  Lemma G_report l w : G w -> okp (report E l w) G.
  Proof. intros H. unfold report. destruct (w_listener w); [|now apply okp_ok]. apply G_each; auto. intros c v Hv. now apply G_listen. Qed.
  Lemma G_points (s : solution T) : forall l w, G w -> (B -> forall c x, In c l -> w_contacts w c = Some x -> nnp (mf_count (c_manifold x)) (so_points s c)) ->
    okp (each (fun c => mod_contact c (fun x => set_c_manifold (with_points (so_points s c) (c_manifold x)) x)) l w) G.
  Proof.
    induction l as [|c l IH]; intros w H K; cbn [each]; [now apply okp_ok|]. apply okp_bind. unfold mod_contact, get_contact. destruct (w_contacts w c) as [x|] eqn:Ex; [|easy]. cbn [unwrap bind]. apply okp_ok. pose proof (proj1 H c x Ex) as (Gx & Gn). apply IH.
    - apply G_put_contact; auto. split; [exact Gx|]. intros HB. cbn. apply (K HB c x); [now left|exact Ex].
    - intros HB c' y Hc'. cbn. unfold put. destruct (Nat.eqb_spec c' c) as [->|]; [intros [= <-]; cbn; apply (K HB c x); [now left|exact Ex]|]. intros Hy. apply (K HB c' y); [now right|exact Hy].
  Qed.
  Lemma G_solve_island is dt w : G w -> (#0 <? dt) = true -> okp (solve_island E is dt w) G.
  Proof.
    intros H Hd. unfold solve_island. apply okp_bind. intros s Rs. set (w1 := log _ w). assert (G w1) as H1 by (now apply G_log). apply okp_bind. intros w2 Q2. apply G_points in Q2; auto; [|intros HB c x Hc Hx; exact (SQ HB w is dt s c x H Hd Rs Hc Hx)]. clear H1. clearbody w1.
    apply okp_bind. intros w3 Q3. apply G_each in Q3; auto; [|intros c v Hv; now apply G_body]. apply okp_bind. intros w4 Q4. apply G_report in Q4; auto. destruct (w_allow_sleep w4); [|now apply okp_ok].
    apply okp_bind. intros w5 Q5. apply G_each in Q5; auto; [|intros c v Hv; now apply G_body]. destruct (so_sleep s); [|now apply okp_ok]. apply G_each; auto. intros c v Hv. now apply G_body.
  Qed.
  Definition Dd (st : dstate (T := T)) : Prop := G (fst (fst st)).
  Lemma Dd_other o st : Dd st -> okp (visit_other o st) Dd.
  Proof. destruct st as [[w is] stack]. unfold Dd. cbn [fst snd]. intros H. unfold visit_other. apply okp_skip. intros x. destruct (fl_island (b_flags x)); apply okp_ok; cbn [fst snd]; auto; now apply G_put. Qed.
  Lemma Dd_contact e st : Dd st -> okp (visit_contact e st) Dd.
  Proof.
    destruct st as [[w is] stack]. intros H. unfold visit_contact, get_contact. destruct (w_contacts w (ge_item e)) as [x|] eqn:Ex; [|easy]. cbn [unwrap bind]. destruct (cf_island (c_flags x)); [now apply okp_ok|]. destruct (_ || _); [now apply okp_ok|].
    apply okp_skip. intros fa. apply okp_skip. intros fb. destruct (_ || _); [now apply okp_ok|]. apply Dd_other. unfold Dd in *. cbn [fst] in *. now apply (G_set_contact w (ge_item e) x).
  Qed.
  Lemma Dd_joint e st : Dd st -> okp (visit_joint e st) Dd.
  Proof. destruct st as [[w is] stack]. intros H. unfold visit_joint. apply okp_skip. intros j. destruct (j_island j); [now apply okp_ok|]. apply okp_skip. intros o. destruct (negb (is_enabled o)); [now apply okp_ok|]. apply Dd_other. unfold Dd in *. cbn [fst] in *. same. Qed.
  Lemma Dd_dfs1 i st : Dd st -> okp (dfs1 i st) Dd.
  Proof.
    destruct st as [[w is] stack]. intros H. unfold dfs1. apply okp_skip. intros b. apply okp_skip. intros _. unfold add_body. set (w1 := put_body i _ w). assert (G w1) as H1 by (now apply G_put). clearbody w1. destruct (is_static b); [now apply okp_ok|].
    apply okp_bind. intros w2 Q2. apply G_body in Q2; auto. apply okp_bind. apply (okp_mono _ Dd); [apply okp_each; auto; intros e st Hst; now apply Dd_contact|]. intros st Hst. apply okp_each; auto. intros e st' Hst'. now apply Dd_joint.
  Qed.
  Lemma Dd_dfs : forall fuel st, Dd st -> okp (dfs fuel st) Dd.
  Proof. induction fuel as [|fuel IH]; intros [[w is] [|i stack]] H; cbn [dfs]; try (now apply okp_ok); try easy. apply okp_bind. apply (okp_mono _ Dd); [|auto]. apply Dd_dfs1. exact H. Qed.
  Lemma G_seed cap dt seed w : G w -> (#0 <? dt) = true -> okp (solve_seed E cap dt seed w) G.
  Proof.
    intros H Hd. unfold solve_seed. apply okp_skip. intros b. destruct (fl_island (b_flags b)); [now apply okp_ok|]. destruct (_ || _); [now apply okp_ok|]. destruct (is_static b); [now apply okp_ok|]. cbv zeta. apply okp_bind. apply (okp_mono _ Dd); [apply Dd_dfs; unfold Dd; cbn [fst]; now apply G_put|].
    intros [[w1 is] st] H1. unfold Dd in H1. cbn [fst snd] in H1. apply okp_skip. intros _. apply okp_bind. intros w2 Q2. apply G_solve_island in Q2; auto. apply G_each; auto. intros i v Hv. now apply G_body.
  Qed.
  Lemma G_solve dt w : G w -> (#0 <? dt) = true -> okp (solve E dt w) G.
  Proof.
    intros H Hd. unfold solve. cbv zeta. apply okp_bind. intros w1 Q1. assert (G w1) as H1.
    { revert w1 Q1. unfold clear_island_flags. apply okp_bind. intros v1 Q1. apply G_each in Q1; auto; [|intros c v Hv; now apply G_body]. apply okp_bind. intros v2 Q2. apply G_each in Q2; auto; [|intros c v Hv; now apply G_contact]. apply G_each; auto. intros c v Hv. now apply G_joint. }
    apply okp_bind. intros w2 Q2. apply G_each in Q2; auto; [|intros c v Hv; now apply G_seed]. apply okp_bind. intros w3 Q3. assert (G w3) as H3. { revert w3 Q3. unfold sync_moved. apply G_each; auto. intros i v Hv. apply okp_skip. intros b. destruct (negb _); [now apply okp_ok|]. destruct (is_static b); [now apply okp_ok|]. now apply G_syncs. }
    now apply G_find.
  Qed.

  (** the continuous phase *)
  Definition Sd (st : world * option nat * T) : Prop := G (fst (fst st)).
  Lemma G_scan i st : Sd st -> okp (toi_scan1 E i st) Sd.
  Proof.
    destruct st as [[w best] al]. unfold Sd at 1. cbn [fst snd]. intros H. unfold toi_scan1.
    assert (Bt : forall v a, G v -> okp (Ok (if a <? al then (v, Some i, a) else (v, best, al))) Sd) by (intros v a Hv; apply okp_ok; now destruct (a <? al)).
    apply okp_skip. intros x. destruct (negb (cf_enabled (c_flags x))); [now apply okp_ok|]. destruct (_ <? _)%Z; [now apply okp_ok|]. destruct (cf_toi (c_flags x)); [now apply Bt|]. apply okp_skip. intros fa. apply okp_skip. intros fb. destruct (_ || _); [now apply okp_ok|].
    apply okp_skip. intros a. apply okp_skip. intros b. apply okp_skip. intros ba. apply okp_skip. intros bb. apply okp_skip. intros _. destruct (_ && _); [now apply okp_ok|]. destruct (_ && _); [now apply okp_ok|]. cbv zeta.
    apply okp_bind. apply (okp_mono _ (fun q => G (fst q))).
    { destruct (_ <? _); [apply okp_skip; intros s; apply okp_ok; now apply G_put|]. destruct (_ <? _); [apply okp_skip; intros s; apply okp_ok; now apply G_put|]. now apply okp_ok. }
    intros [w1 a0] H1. cbn [fst] in H1. apply okp_skip. intros _. apply okp_skip. intros [tc beta]. set (al1 := if tc then _ else _). assert (G (log (EvToi i) w1)) as H2 by (now apply G_log). apply okp_bind. intros w3 Q3. apply G_contact in Q3; auto.
  Qed.
  Definition Jd (st : world * island) : Prop := G (fst st).
  Lemma Jd_join i al e st : Jd st -> okp (toi_join E i al e st) Jd.
  Proof.
    destruct st as [w is]. intros H. unfold toi_join. unfold Jd in H. cbn [fst] in H. apply okp_skip. intros x. destruct (cf_island (c_flags x)); [now apply okp_ok|]. apply okp_skip. intros o. apply okp_skip. intros b. destruct (_ && _ && _); [now apply okp_ok|].
    apply okp_skip. intros fa. apply okp_skip. intros fb. destruct (_ || _); [now apply okp_ok|]. cbv zeta.
    apply okp_bind. intros w1 Q1. assert (G w1) as H1 by (revert w1 Q1; destruct (fl_island (b_flags o)); [now apply okp_ok|]; apply okp_skip; intros o'; apply okp_ok; now apply G_put). apply okp_bind. intros w2 Q2. apply G_update in Q2; auto.
    unfold get_contact. destruct (w_contacts w2 (ge_item e)) as [x2|] eqn:Ex2; [|easy]. cbn [unwrap bind]. destruct (negb (cf_enabled (c_flags x2)) || _).
    - apply okp_bind. intros w3 Q3. apply G_body in Q3; auto. now apply okp_ok.
    - set (w3 := put_contact _ _ w2). assert (G w3) as H3 by (now apply (G_set_contact w2 (ge_item e) x2)). clearbody w3. apply okp_skip. intros o2. destruct (fl_island (b_flags o2)); [now apply okp_ok|]. apply okp_ok. unfold add_body, Jd. cbn [fst]. now apply G_put.
  Qed.
  Lemma Jd_grow i al st : Jd st -> okp (toi_grow E i al st) Jd.
  Proof. destruct st as [w is]. intros H. unfold toi_grow. apply okp_skip. intros b. destruct (is_dynamic b); [|now apply okp_ok]. apply okp_each; auto. intros e st Hst. now apply Jd_join. Qed.
  Lemma G_release i w : G w -> okp (toi_release i w) G.
  Proof.
    intros H. unfold toi_release. apply okp_bind. intros w1 Q1. apply G_body in Q1; auto. apply okp_skip. intros b. destruct (negb _); [now apply okp_ok|]. apply okp_bind. intros w2 Q2. apply G_syncs in Q2; auto. apply G_each; auto. intros e v Hv. now apply G_contact.
  Qed.
  Lemma G_solve_toi_island is ia ib dt w : G w -> okp (solve_toi_island E is ia ib dt w) G.
  Proof.
    intros H. unfold solve_toi_island. apply okp_skip. intros _. apply okp_skip. intros _. apply okp_skip. intros _. apply okp_skip. intros _. apply okp_skip. intros s. set (w1 := log _ w). assert (G w1) as H1 by (now apply G_log). clearbody w1.
    apply okp_bind. intros w2 Q2. apply G_each in Q2; auto; [|intros c v Hv; now apply G_body]. now apply G_report.
  Qed.
  Lemma G_event mc al dt w : G w -> okp (toi_event E mc al dt w) (fun st => G (fst st)).
  Proof.
    intros H. unfold toi_event. apply okp_skip. intros c. apply okp_skip. intros a. apply okp_skip. intros b. apply okp_skip. intros ba. apply okp_skip. intros bb. cbv zeta. apply okp_skip. intros ba'.
    set (w1 := put_body a ba' w). assert (G w1) as H1 by (now apply G_put). clearbody w1. apply okp_skip. intros bb1. apply okp_skip. intros bb'. set (w2 := put_body b bb' w1). assert (G w2) as H2 by (now apply G_put). clearbody w2.
    apply okp_bind. intros w3 Q3. apply G_update in Q3; auto. apply okp_bind. intros w4 Q4. apply G_contact in Q4; auto. apply okp_skip. intros c4. destruct (_ || _).
    - apply okp_bind. intros w5 Q5. apply G_contact in Q5; auto. apply okp_bind. intros w6 Q6. apply G_body in Q6; auto. apply okp_bind. intros w7 Q7. apply G_body in Q7; auto. apply okp_bind. intros w8 Q8. apply G_body in Q8; auto. apply okp_bind. intros w9 Q9. apply G_body in Q9; auto. now apply okp_ok.
    - apply okp_bind. intros w5 Q5. apply G_body in Q5; auto. apply okp_bind. intros w6 Q6. apply G_body in Q6; auto. apply okp_skip. intros ba2. unfold add_body. set (w7 := put_body a _ w6). assert (G w7) as H7 by (now apply G_put). clearbody w7. apply okp_skip. intros bb2. set (w8 := put_body b _ w7). assert (G w8) as H8 by (now apply G_put). clearbody w8.
      apply okp_bind. intros w9 Q9. apply G_body in Q9; auto. apply okp_bind. intros wa Qa. apply G_body in Qa; auto. apply okp_bind. intros wb Qb. apply G_contact in Qb; auto. apply okp_bind. apply (okp_mono _ Jd); [now apply Jd_grow|]. intros st Hst. apply okp_bind. apply (okp_mono _ Jd); [now apply Jd_grow|]. intros [wc is] Hc. unfold Jd in Hc. cbn [fst snd] in Hc.
      apply okp_skip. intros ba3. apply okp_skip. intros bb3. apply okp_bind. intros wd Qd. apply G_solve_toi_island in Qd; auto. apply okp_bind. intros we Qe. apply G_each in Qe; auto; [|intros i v Hv; now apply G_release].
      apply okp_bind. intros wf Qf. apply G_find in Qf; auto. now apply okp_ok.
  Qed.
  Lemma G_loop dt : forall fuel w, G w -> okp (toi_loop E fuel dt w) G.
  Proof.
    assert (Sc : forall f v, G v -> G (set_w_step_complete f v)) by (intros f v Hv; same).
    induction fuel as [|fuel IH]; intros w H; cbn [toi_loop]; [easy|]. apply okp_bind. apply (okp_mono _ Sd); [apply okp_each; [intros i st Hst; now apply G_scan|exact H]|]. intros [[w1 best] al] H1. unfold Sd in H1. cbn [fst snd] in H1. destruct best as [mc|]; [|apply okp_ok; auto]. destruct (_ <? al); [apply okp_ok; auto|].
    apply okp_bind. apply (okp_mono _ (fun st => G (fst st))); [now apply G_event|]. intros [w2 sol] H2. cbn [fst] in H2. destruct (_ && _); [apply okp_ok; auto|]. auto.
  Qed.
  Lemma G_reset w : G w -> okp (toi_reset w) G.
  Proof. intros H. unfold toi_reset. apply okp_bind. intros w1 Q1. apply G_each in Q1; auto; [|intros i v Hv; now apply G_body]. apply G_each; auto. intros c v Hv. now apply G_contact. Qed.
  Lemma G_clear w : G w -> okp (clear_forces w) G.
  Proof. intros H. unfold clear_forces. apply G_each; auto. intros i v Hv. now apply G_body. Qed.
  Lemma G_step dt w : G w -> okp (step E dt w) G.
  Proof.
    intros H. rewrite r_step_parts. apply okp_bind. intros w2 Q2. apply G_front in Q2; auto. unfold step_back. apply okp_bind. intros w3 Q3. assert (G w3) as H3. { revert w3 Q3. destruct (w_step_complete w2); cbn [andb]; [|now apply okp_ok]. destruct (nlt (nofZ 0) dt) eqn:Hd; [now apply G_solve|now apply okp_ok]. }
    apply okp_bind. intros w4 Q4. clear Q3. assert (G w4) as H4. { revert w4 Q4. destruct (_ && _); [|now apply okp_ok]. unfold solve_toi. apply okp_bind. intros v Qv. apply G_loop. destruct (w_step_complete w3); [now apply G_reset in Qv|now injection Qv as <-]. }
    clear - H4 RT N0. set (w5 := if nlt (nofZ 0) dt then _ else w4). assert (G w5) as H5. { unfold w5. destruct (nlt (nofZ 0) dt) eqn:Hd; auto. destruct H4 as (A & C). split; [exact A|]. intros HB. exact (RT HB dt Hd). }
    clearbody w5. apply okp_bind. intros w6 Q6. apply okp_ok. enough (G w6) by same. revert w6 Q6. destruct (w_clear_forces w5); [now apply G_clear|now apply okp_ok].
  Qed.

  (** the other calls *)
  Lemma G_destroy_joint j w : G w -> okp (destroy_joint j w) G.
  Proof.
    intros H. unfold destroy_joint. apply okp_skip. intros _. apply okp_skip. intros x. apply okp_skip. intros l. set (w1 := set_w_joint_list l w). assert (G w1) as H1 by same. clearbody w1. apply okp_bind. intros w2 Q2. apply G_body in Q2; auto. apply okp_bind. intros w3 Q3. apply G_body in Q3; auto.
    apply okp_skip. intros ba. apply okp_skip. intros la. set (w4 := put_body _ _ w3). assert (G w4) as H4 by (now apply G_put). clearbody w4. apply okp_skip. intros bb. apply okp_skip. intros lb. set (w5 := put_body _ _ w4). assert (G w5) as H5 by (now apply G_put). clearbody w5. apply okp_skip. intros _. apply okp_skip. intros n.
    set (w6 := set_w_joint_count n w5). assert (G w6) as H6 by same. clearbody w6. apply okp_bind. intros w7 Q7. apply okp_ok. enough (G w7) by same. revert w7 Q7. destruct (j_collide x); [now apply okp_ok|]. unfold flag_contacts. apply okp_skip. intros b. apply G_each; auto. intros e v Hv. destruct (Nat.eqb _ _); [now apply G_contact|now apply okp_ok].
  Qed.
  Lemma G_destroy_contacts i l w : G w -> okp (destroy_contacts E i l w) G.
  Proof. intros H. unfold destroy_contacts. apply okp_bind. intros w1 Q1. apply G_each in Q1; auto; [now apply G_body|]. intros e v Hv. now apply G_destroy. Qed.
  Lemma G_reset_mass i w : G w -> okp (reset_mass i w) G.
  Proof. intros H. unfold reset_mass. apply okp_skip. intros b. apply okp_skip. intros fs. apply okp_skip. intros b'. apply okp_ok. now apply G_put. Qed.
  Lemma G_refilter f w : G w -> okp (refilter f w) G.
  Proof. intros H. unfold refilter. apply okp_skip. intros x. destruct (f_body x); [|now apply okp_ok]. apply okp_skip. intros b. apply okp_skip. intros _. now apply G_touch. Qed.
  Theorem G_call oks c w : WorldInv.W True oks w -> G w -> gentle w c -> okp (wrun E c w) G.
  Proof.
    intros HW H HG. destruct c; cbn [wrun].
    - unfold create_body. apply okp_bind. apply okp_skip. intros _. apply okp_skip. intros b. apply okp_ok. apply okp_ok. same.
    - unfold destroy_body. apply okp_skip. intros _. apply okp_skip. intros _. apply okp_skip. intros b. apply okp_bind. intros w1 Q1. apply G_each in Q1; auto; [|intros e v Hv; cbv zeta; apply G_destroy_joint; destruct (w_goodbye v); auto; now apply G_log]. apply okp_bind. intros w2 Q2. apply G_body in Q2; auto. apply okp_skip. intros b2. apply okp_bind. intros w3 Q3. apply G_destroy_contacts in Q3; auto.
      apply okp_skip. intros b3. apply okp_bind. intros w4 Q4. assert (G w4) as H4.
      { revert w4 Q4. apply G_each; auto. intros f v Hv. cbv zeta. apply okp_bind. intros v1 Qv. apply G_destroy_proxies in Qv; [|destruct (w_goodbye v); auto; now apply G_log]. apply okp_skip. intros bb. apply okp_skip. intros n. apply okp_ok. eapply (G_gone v1 f); [exact Qv|reflexivity|reflexivity|reflexivity]. }
      apply okp_skip. intros l. apply okp_skip. intros n. apply okp_ok. same.
    - unfold create_fixture. apply okp_bind. apply okp_skip. intros _. apply okp_skip. intros b. apply okp_bind. intros x Qx. cbv zeta. set (w1 := set_w_next_fixture _ _). assert (G w1) as H1.
      { apply (G_same w); auto. intros f (y & Hy & Sy). cbn in Hy. unfold put in Hy. destruct (Nat.eqb_spec f (w_next_fixture w)) as [->|]; [right|left; now exists y]. intros c z Hz. destruct (contact_parts w c z (W_contacts _ _ _ HW) Hz) as (fa & fb & a & b' & ba & bb & Efa & Efb & _). destruct (W_graph _ _ _ HW) as (_ & (_ & _ & _ & _ & Fr) & _). specialize (Fr (w_next_fixture w) (le_n _)). cbn in Fr.
        split; intros Q; rewrite Q in *; match goal with K : w_fixtures w (w_next_fixture w) = Some _ |- _ => now rewrite K in Fr end. }
      clearbody w1. apply okp_bind. intros w2 Q2. assert (G w2) as H2 by (revert w2 Q2; destruct (is_enabled b); [now apply G_create_proxies|now apply okp_ok]). apply okp_bind. intros w3 Q3. apply G_body in Q3; auto. apply okp_bind. intros w4 Q4. assert (G w4) as H4 by (revert w4 Q4; destruct (_ <? _); [now apply G_reset_mass|now apply okp_ok]). apply okp_ok. apply okp_ok. same.
    - unfold destroy_fixture. apply okp_skip. intros _. apply okp_skip. intros b. apply okp_skip. intros ow. apply okp_skip. intros _. apply okp_skip. intros _. apply okp_skip. intros l. cbv zeta. set (w1 := put_body i _ w). assert (G w1) as H1 by (now apply G_put). clearbody w1. apply okp_bind. intros w2 Q2. apply G_each in Q2; auto; [|intros e v Hv; apply okp_skip; intros c; destruct (_ || _); [now apply G_destroy|now apply okp_ok]].
      apply okp_skip. intros b2. apply okp_bind. intros w3 Q3. assert (G w3) as H3 by (revert w3 Q3; destruct (is_enabled b2); [now apply G_destroy_proxies|now apply okp_ok]). set (w4 := set_w_fixtures _ w3). assert (G w4) as H4 by (eapply (G_gone w3 f); [exact H3|reflexivity|reflexivity|reflexivity]). clearbody w4. apply okp_skip. intros b3. apply okp_skip. intros n. apply G_reset_mass. now apply G_put.
    - unfold create_joint. apply okp_bind. apply okp_skip. intros _. apply okp_skip. intros _. cbv zeta. set (w1 := set_w_joint_count _ _). assert (G w1) as H1 by same. clearbody w1. apply okp_bind. intros w2 Q2. apply G_body in Q2; auto. apply okp_bind. intros w3 Q3. apply G_body in Q3; auto. apply okp_bind. intros w4 Q4. apply okp_ok. apply okp_ok. revert w4 Q4.
      destruct collide_connected; [now apply okp_ok|]. unfold flag_contacts. apply okp_skip. intros bb. apply G_each; auto. intros e v Hv. destruct (Nat.eqb _ _); [now apply G_contact|now apply okp_ok].
    - now apply G_destroy_joint.
    - unfold set_type. apply okp_skip. intros _. apply okp_skip. intros b. destruct (btype_eqb _ _); [now apply okp_ok|]. apply okp_skip. intros fs. apply okp_skip. intros b'. cbv zeta. set (w1 := put_body i b' w). assert (G w1) as H1 by (now apply G_put). clearbody w1. apply okp_bind. intros w2 Q2. assert (G w2) as H2 by (revert w2 Q2; destruct (is_static b'); [now apply G_syncs|now apply okp_ok]).
      apply okp_bind. intros w3 Q3. apply G_body in Q3; auto. apply okp_bind. intros w4 Q4. apply G_destroy_contacts in Q4; auto. apply G_each; auto. intros f v Hv. now apply G_touch.
    - unfold set_enabled. apply okp_skip. intros _. apply okp_bind. intros w1 Q1. apply G_body in Q1; auto. apply okp_skip. intros b. destruct f.
      + apply okp_bind. intros w2 Q2. apply G_each in Q2; auto; [|intros g v Hv; now apply G_create_proxies]. apply okp_ok. same.
      + apply okp_bind. intros w2 Q2. apply G_each in Q2; auto; [|intros g v Hv; now apply G_destroy_proxies]. now apply G_destroy_contacts.
    - unfold set_transform. apply okp_skip. intros _. apply okp_skip. intros b. cbv zeta. apply okp_bind. intros w2 Q2. apply G_each in Q2; [apply okp_ok; same|intros g v Hv; now apply G_sync|now apply G_put].
    - now apply G_body.
    - apply okp_skip. intros _. apply okp_skip. intros b. apply okp_skip. intros b'. apply okp_ok. now apply G_put.
    - now apply G_reset_mass.
    - apply okp_skip. intros b. apply okp_skip. intros fs. apply okp_skip. intros b'. apply okp_ok. now apply G_put.
    - unfold set_filter_data, get_fixture. destruct (w_fixtures w f) as [x|] eqn:Ex; [|easy]. cbn [unwrap bind]. apply G_refilter. eapply (G_fixture w f x _ _ H Ex); [|reflexivity|reflexivity|reflexivity]; reflexivity.
    - now apply G_refilter.
    - unfold set_sensor, get_fixture. destruct (w_fixtures w f) as [x|] eqn:Ex; [|easy]. cbn [unwrap bind]. destruct (Bool.eqb s (f_sensor x)); [now apply okp_ok|]. apply okp_bind. apply okp_any. intros j. apply okp_bind. intros w1 Q1. unfold mod_body in Q1. apply bind_ok in Q1 as (b & _ & [= <-]). apply okp_ok. destruct H as (A & C). split; [|exact C].
      intros c y Hy. cbn in Hy. pose proof (A c y Hy) as (A1 & A2). split; [|exact A2]. intros Ht Sa Sb. destruct s.
      + assert (Q : forall g, solidf (put_fixture f (set_f_sensor true x) (put_body j (set_awake true b) w)) g -> solidf w g). { intros g (z & Hz & Sz). cbn in Hz. unfold put in Hz. destruct (Nat.eqb g f); [injection Hz as <-; discriminate|]. now exists z. } auto.
      + cbn [gentle] in HG. destruct (Nat.eq_dec (c_fa y) f) as [Qa|Na]; [rewrite (HG c y Hy (or_introl Qa)) in Ht; discriminate|]. destruct (Nat.eq_dec (c_fb y) f) as [Qb|Nb]; [rewrite (HG c y Hy (or_intror Qb)) in Ht; discriminate|].
        assert (Q : forall g, g <> f -> solidf (put_fixture f (set_f_sensor false x) (put_body j (set_awake true b) w)) g -> solidf w g). { intros g Ng (z & Hz & Sz). cbn in Hz. rewrite put_ne in Hz by auto. now exists z. } auto.
    - unfold get_fixture. destruct (w_fixtures w f) as [x|] eqn:Ex; [|easy]. cbn [unwrap bind]. apply okp_ok. eapply (G_fixture w f x _ _ H Ex); [|reflexivity|reflexivity|reflexivity]. now destruct s.
    - apply G_contact; auto. intros x. now destruct s.
    - unfold set_allow_sleeping. destruct (Bool.eqb _ _); [now apply okp_ok|]. destruct f; [apply okp_ok; same|]. apply G_each; [intros i v Hv; now apply G_body|same].
    - apply okp_ok. same.
    - apply okp_ok. same.
    - apply okp_ok. same.
    - now apply G_clear.
    - unfold world_shift. apply okp_skip. intros _. apply okp_bind. intros w1 Q1. apply G_each in Q1; auto; [|intros i v Hv; now apply G_body]. apply okp_ok. same.
    - now apply G_step.
  Qed.
  Lemma G_new listener goodbye w : world_new (T := T) listener goodbye = Ok w -> G w.
  Proof. unfold world_new. intros R. apply bind_ok in R as (bp & _ & [= <-]). split; [discriminate|exact N0]. Qed.
End Touch.
