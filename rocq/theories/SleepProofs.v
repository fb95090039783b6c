(** A step of a world in which nothing is awake. *)
From Coq Require Import List ZArith Bool Arith Lia.
From Verif Require Import Base Num Math Collision Manifold Filter ShapeModel ListFacts TreeModel BroadModel DynModel WorldModel WorldGraph WorldInv WorldClaims WorldCalls WorldHist WorldReach CoverLogic SleepSpec.
Import ListNotations.

Section Sleep.
  Context {T : Type} `{NT : Num T} `{TT : NumTrig T} `{VT : NumValid T}.
  Notation world := (world T).
  Implicit Types w : world.
  Variable E : env T.

  (* nothing happened since [w0]; the state of a contact that is not in [w0] is [new_c] *)
  Definition new_c (y : contact T) : Prop := cf_touching (c_flags y) = false /\ mf_count (c_manifold y) = 0.
  Definition U w0 w : Prop := undisturbed w0 w /\ filtered w /\ (forall c, w_next_contact w <= c -> w_contacts w c = None) /\ (forall c, w_next_contact w <= c -> w_contacts w0 c = None) /\ w_step_complete w = true.
  Lemma U_refl w : filtered w -> (forall c, w_next_contact w <= c -> w_contacts w c = None) -> w_step_complete w = true -> U w w.
  Proof. intros F N Sc. refine (conj _ (conj F (conj N (conj N Sc)))). repeat split; auto; [intros c x ->; reflexivity| | |exists []; auto]; intros; congruence. Qed.
  (* worlds that differ in nothing of interest *)
  Lemma U_same w0 w w' : U w0 w -> w_bodies w' = w_bodies w -> w_fixtures w' = w_fixtures w -> w_contacts w' = w_contacts w -> w_joints w' = w_joints w -> w_next_contact w' = w_next_contact w -> w_log w' = w_log w -> w_step_complete w' = true -> U w0 w'.
  Proof. intros (A & F & N & N0 & _) H1 H2 H3 HJ H4 H5 H6. unfold U, undisturbed, filtered. rewrite H1, H2, H3, HJ, H4, H5. auto. Qed.
  Lemma U_body w0 w i b b' : U w0 w -> w_bodies w i = Some b -> core b' = core b -> U w0 (put_body i b' w).
  Proof.
    intros ((A & B) & F & N) Hb Eb. split; [|exact (conj F N)]. split; [|exact B]. intros j. cbn. unfold put. destruct (Nat.eqb_spec j i) as [->|]; [|apply A]. rewrite <- A, Hb. cbn. now rewrite Eb.
  Qed.
  Lemma U_mod w0 w i g : U w0 w -> (forall b, core (g b) = core b) -> ok (mod_body i g w) (U w0).
  Proof. intros H Hg. unfold mod_body. apply ok_bind, ok_unwrap. intros b Hb. apply ok_ok. eapply U_body; eauto. Qed.
  Lemma ccore_parts (c d : contact T) : ccore c = ccore d -> cf_filter (c_flags c) = cf_filter (c_flags d) /\ cf_touching (c_flags c) = cf_touching (c_flags d) /\ c_manifold c = c_manifold d.
  Proof. destruct c as [fc], d as [fd], fc, fd. unfold ccore. cbn. intros H. injection H. auto. Qed.
  Lemma U_contact w0 w i c c' : U w0 w -> w_contacts w i = Some c -> ccore c' = ccore c -> U w0 (put_contact i c' w).
  Proof.
    intros ((A & B & C & D & L) & F & N & N0) Hc Ec. pose proof (ccore_parts _ _ Ec) as (E1 & E2 & E3). refine (conj (conj A (conj B (conj _ (conj _ L)))) (conj _ (conj _ N0))).
    - intros d x Hd. cbn. unfold put. destruct (Nat.eqb_spec d i) as [->|]; [|now apply C]. specialize (C i x Hd). rewrite Hc in C. cbn in *. congruence.
    - intros d y Hd. cbn. unfold put. destruct (Nat.eqb_spec d i) as [->|]; [|now apply D]. intros Q. injection Q as <-. rewrite E2, E3. now apply (D i c).
    - intros d y. cbn. unfold put. destruct (Nat.eqb_spec d i) as [->|]; [|apply F]. intros Q. injection Q as <-. rewrite E1. eapply F; eauto.
    - intros d Hd. cbn in *. unfold put. destruct (Nat.eqb_spec d i) as [->|]; [|now apply N]. rewrite N in Hc by exact Hd. discriminate.
  Qed.
  Lemma U_cmod w0 w i g : U w0 w -> (forall c, ccore (g c) = ccore c) -> ok (mod_contact i g w) (U w0).
  Proof. intros H Hg. unfold mod_contact. apply ok_bind, ok_unwrap. intros c Hc. apply ok_ok. eapply U_contact; eauto. Qed.
  Lemma U_rest w0 w i b : U w0 w -> resting w0 -> w_bodies w i = Some b -> is_awake b = false \/ b_type b = StaticBody.
  Proof.
    intros ((A & _) & _) R Hb. specialize (A i). rewrite Hb in A. destruct (w_bodies w0 i) as [b0|] eqn:E0; [|easy]. cbn [option_map] in A. assert (A0 : core b = core b0) by congruence. clear A. specialize (R i b0 E0).
    assert (Q : is_awake (core b) = is_awake (core b0) /\ b_type (core b) = b_type (core b0)) by now rewrite A0. destruct Q as [Q1 Q2]. change (is_awake (core b)) with (is_awake b) in Q1. change (is_awake (core b0)) with (is_awake b0) in Q1. change (b_type (core b)) with (b_type b) in Q2. change (b_type (core b0)) with (b_type b0) in Q2.
    destruct R as [R|R]; [left|right]; congruence.
  Qed.
  Lemma U_idle w0 w i b : U w0 w -> resting w0 -> w_bodies w i = Some b -> active b = false.
  Proof. intros H R Hb. unfold active, is_static. destruct (U_rest _ _ _ _ H R Hb) as [-> | ->]; [reflexivity|]. apply andb_false_r. Qed.
  Lemma U_filter w0 w f g : U w0 w -> U w0 (log (EvFilter f g) w).
  Proof.
    intros ((A & B & C & D & J & new & L & Fa) & F). split; [|exact F]. refine (conj A (conj B (conj C (conj D (conj J _))))). exists (EvFilter f g :: new). split; [cbn; now rewrite L|]. constructor; [eauto|exact Fa].
  Qed.

  (** ** new contacts *)
  Lemma U_link w0 w c : U w0 w -> cf_filter (c_flags c) = false -> new_c c -> ok (link_contact c w) (U w0).
  Proof.
    intros ((A & B & C & D & L) & F & N & N0 & Sc) Fc Nc. unfold link_contact. cbv zeta. apply ok_bind, ok_any. intros a. apply ok_bind, ok_any. intros b. set (i := w_next_contact w) in *. set (w1 := set_w_contact_list _ _).
    assert (H1 : U w0 w1).
    { refine (conj (conj A (conj B (conj _ (conj _ L)))) (conj _ (conj _ (conj _ Sc)))).
      - intros d x Hd. cbn. unfold put. destruct (Nat.eqb_spec d i) as [->|]; [rewrite N0 in Hd by (unfold i; lia); discriminate|now apply C].
      - intros d y Hd. cbn. unfold put. destruct (Nat.eqb_spec d i) as [->|]; [|now apply D]. intros Q. injection Q as <-. exact Nc.
      - intros d y. cbn. unfold put. destruct (Nat.eqb_spec d i) as [->|]; [|apply F]. intros Q. injection Q as <-. exact Fc.
      - intros d Hd. cbn in *. unfold put. destruct (Nat.eqb_spec d i) as [->|]; [lia|]. apply N. unfold i in Hd. lia.
      - intros d Hd. cbn in Hd. apply N0. unfold i in Hd. lia. }
    clearbody w1. apply ok_bind. eapply ok_mono; [apply U_mod; [exact H1|reflexivity]|]. intros w2 H2. apply ok_bind. eapply ok_mono; [apply U_mod; [exact H2|reflexivity]|]. intros w3 H3. apply ok_ok. apply (U_same w0 w3); auto; apply H3.
  Qed.
  Lemma U_pair w0 w ua ub : U w0 w -> ok (add_pair E w ua ub) (U w0).
  Proof.
    intros H. unfold add_pair. apply ok_bind, ok_any. intros [fa ia]. apply ok_bind, ok_any. intros [fb ib]. apply ok_bind, ok_any. intros a. apply ok_bind, ok_any. intros b.
    destruct (Nat.eqb a b); [now apply ok_ok|]. apply ok_bind, ok_any. intros bb. apply ok_bind, ok_any. intros known. destruct known; [now apply ok_ok|].
    apply ok_bind, ok_any. intros may. destruct (negb may); [now apply ok_ok|]. cbv zeta. pose proof (U_filter w0 w fa fb H) as H1. destruct (negb _); [now apply ok_ok|]. apply ok_bind, ok_eq. intros c Hc.
    unfold contact_create in Hc. apply bind_ok in Hc as (xa & _ & Hc). apply bind_ok in Hc as (xb & _ & Hc). apply bind_ok in Hc as (p & _ & Hc). injection Hc as <-. apply U_link; [exact H1| |]; destruct p; try reflexivity; split; reflexivity.
  Qed.
  Lemma ok_pairs {S} (b : broad T (nat * nat)) (cb : S -> option (nat * nat) -> option (nat * nat) -> res S) s (I : S -> Prop) : I s -> (forall s u v, I s -> ok (cb s u v) I) -> ok (update_pairs b cb s) (fun p => I (snd p)).
  Proof.
    intros Hs Hc. unfold update_pairs. cbv zeta. apply ok_bind, ok_any. intros ps. apply ok_bind. eapply ok_mono; [apply (ok_for (fun _ => I)); [exact Hs|]|].
    - intros i s' _ H. apply ok_bind, ok_any. intros p. apply ok_bind, ok_any. intros ua. apply ok_bind, ok_any. intros ub. now apply Hc.
    - intros s' H. apply ok_bind, ok_any. intros t. apply ok_ok. exact H.
  Qed.
  Lemma U_find w0 w : U w0 w -> ok (find_new_contacts E w) (U w0).
  Proof.
    intros H. unfold find_new_contacts. apply ok_bind. eapply ok_mono; [apply (ok_pairs _ _ _ (U w0)); [exact H|intros s u v; apply U_pair]|]. intros [bp w1] H1. apply ok_ok. apply (U_same w0 w1); auto; apply H1.
  Qed.

  (** ** the parts of a step *)
  Lemma U_collide w0 w : resting w0 -> U w0 w -> ok (collide E w) (U w0).
  Proof.
    intros R H. unfold collide. apply ok_bind. apply (ok_mono _ (fun p => U w0 (fst p) /\ snd p = [])).
    - apply ok_each; [|cbn; auto]. intros i [w1 dead] _ [H1 Hd]. cbn [fst snd] in H1, Hd. subst dead. unfold collide1. apply ok_bind, ok_unwrap. intros c Hc. apply ok_bind, ok_any. intros a. apply ok_bind, ok_any. intros b.
      replace (cf_filter (c_flags c)) with false by (symmetry; eapply (proj1 (proj2 H1)); eauto). cbn [bind negb].
      apply ok_bind, ok_unwrap. intros ba Ha. apply ok_bind, ok_unwrap. intros bb Hb. rewrite (U_idle _ _ _ _ H1 R Ha), (U_idle _ _ _ _ H1 R Hb). apply ok_ok. cbn. auto.
    - intros [w1 dead] [H1 Q]. cbn [fst snd] in *. subst dead. now apply ok_ok.
  Qed.
  (* what [each] does to the bodies of a list, to the contacts of a list *)
  Lemma U_bodies w0 g l (P : body T -> Prop) : (forall b, core (g b) = core b) -> (forall b, P (g b)) -> forall w, U w0 w ->
    ok (each (fun i => mod_body i g) l w) (fun w' => U w0 w' /\ (forall i b, In i l \/ (exists b0, w_bodies w i = Some b0 /\ P b0) -> w_bodies w' i = Some b -> P b) /\
      w_body_list w' = w_body_list w /\ w_contact_list w' = w_contact_list w /\ w_joint_list w' = w_joint_list w).
  Proof.
    intros Hg HP. induction l as [|i l IH]; intros w H; cbn [each].
    - apply ok_ok. split; [exact H|]. split; [|auto]. intros j b [[]|(b0 & Q & Pb)] Hb. congruence.
    - apply ok_bind. unfold mod_body at 1. apply ok_bind, ok_unwrap. intros b Hb. apply ok_ok. eapply ok_mono; [apply IH; eapply U_body; [exact H|exact Hb|apply Hg]|]. intros w' (H' & M & L1 & L2 & L3). split; [exact H'|]. split; [|auto].
      intros j c Q. apply M. destruct (Nat.eq_dec j i) as [->|Ne]; [right; exists (g b); split; [cbn; unfold put; now rewrite Nat.eqb_refl|apply HP]|]. destruct Q as [[Q|Q]|(b0 & Q & Pb)]; [congruence|now left|]. right. exists b0. split; [|exact Pb]. cbn. unfold put. apply Nat.eqb_neq in Ne. now rewrite Ne.
  Qed.
  Lemma U_contacts w0 g l (P : contact T -> Prop) : (forall c, ccore (g c) = ccore c) -> (forall c, P (g c)) -> forall w, U w0 w ->
    ok (each (fun i => mod_contact i g) l w) (fun w' => U w0 w' /\ (forall i b, In i l \/ (exists b0, w_contacts w i = Some b0 /\ P b0) -> w_contacts w' i = Some b -> P b) /\
      w_bodies w' = w_bodies w /\ w_body_list w' = w_body_list w /\ w_contact_list w' = w_contact_list w).
  Proof.
    intros Hg HP. induction l as [|i l IH]; intros w H; cbn [each].
    - apply ok_ok. split; [exact H|]. split; [|auto]. intros j b [[]|(b0 & Q & Pb)] Hb. congruence.
    - apply ok_bind. unfold mod_contact at 1. apply ok_bind, ok_unwrap. intros b Hb. apply ok_ok. eapply ok_mono; [apply IH; eapply U_contact; [exact H|exact Hb|apply Hg]|]. intros w' (H' & M & L1 & L2 & L3). split; [exact H'|]. split; [|auto].
      intros j c Q. apply M. destruct (Nat.eq_dec j i) as [->|Ne]; [right; exists (g b); split; [cbn; unfold put; now rewrite Nat.eqb_refl|apply HP]|]. destruct Q as [[Q|Q]|(b0 & Q & Pb)]; [congruence|now left|]. right. exists b0. split; [|exact Pb]. cbn. unfold put. apply Nat.eqb_neq in Ne. now rewrite Ne.
  Qed.
  Lemma core_flags (b : body T) : core (mod_flags (set_fl_island false) b) = core b.
  Proof. destruct b. reflexivity. Qed.
  Lemma U_solve w0 dt w : resting w0 -> U w0 w -> ok (solve E dt w) (U w0).
  Proof.
    intros R H. unfold solve, clear_island_flags. cbv zeta. apply ok_bind, ok_bind.
    eapply ok_mono; [apply (U_bodies w0 (mod_flags (set_fl_island false)) (w_body_list w) (fun b => fl_island (b_flags b) = false)); [exact core_flags|reflexivity|exact H]|].
    intros w1 (H1 & M1 & L1 & _). apply ok_bind. eapply ok_mono; [apply (U_contacts w0 (mod_cflags (set_cf_island false)) _ (fun _ => True)); [reflexivity|auto|exact H1]|].
    intros w2 (H2 & _ & B2 & L2 & _). rewrite <- B2 in M1. rewrite <- L1, <- L2 in M1. clear w1 H1 L1 B2 L2.
    apply (ok_mono _ (fun s => U w0 s /\ w_bodies s = w_bodies w2 /\ w_body_list s = w_body_list w2)).
    { apply (ok_each (fun s => U w0 s /\ w_bodies s = w_bodies w2 /\ w_body_list s = w_body_list w2)); [|auto]. intros j s _ (Hs & S1 & S2). unfold mod_joint. apply ok_bind, ok_unwrap. intros x Hx. apply ok_ok. split; [|auto]. destruct Hs as ((A & B & C & D & J & L) & F). split; [|exact F]. refine (conj A (conj B (conj C (conj D (conj _ L))))).
      intros k. cbn. unfold put. destruct (Nat.eqb_spec k j) as [->|]; [|apply J]. rewrite <- J, Hx. now destruct x. }
    intros w3 (H3 & B3 & L3). rewrite <- B3, <- L3 in M1. clear w2 H2 B3 L3.
    apply ok_bind. apply (ok_mono _ (fun s => s = w3)).
    { apply (ok_each (fun s => s = w3)); [|reflexivity]. intros i s _ ->. unfold solve_seed. apply ok_bind, ok_unwrap. intros b Hb. destruct (fl_island _); [now apply ok_ok|].
      destruct (U_rest _ _ _ _ H3 R Hb) as [Q|Q]; [rewrite Q; cbn [negb orb]; now apply ok_ok|]. destruct (_ || _); [now apply ok_ok|]. unfold is_static. rewrite Q. now apply ok_ok. }
    intros s ->. apply ok_bind. apply (ok_mono _ (fun s => s = w3)).
    { unfold sync_moved. apply (ok_each (fun s => s = w3)); [|reflexivity]. intros i s Hi ->. apply ok_bind, ok_unwrap. intros b Hb. rewrite (M1 i b (or_introl Hi) Hb). now apply ok_ok. }
    intros s ->. now apply U_find.
  Qed.
  Lemma core_reset (b : body T) : core (set_sw (with_alpha0 (#0)%num) (mod_flags (set_fl_island false) b)) = core b.
  Proof. destruct b. reflexivity. Qed.
  Lemma U_toi w0 dt w : resting w0 -> U w0 w -> ok (solve_toi E dt w) (U w0).
  Proof.
    intros R H. assert (Sc : w_step_complete w = true) by apply H. unfold solve_toi. rewrite Sc. apply ok_bind. unfold toi_reset. apply ok_bind.
    eapply ok_mono; [apply (U_bodies w0 _ (w_body_list w) (fun _ => True)); [exact core_reset|auto|exact H]|]. intros w1 (H1 & _).
    eapply ok_mono; [apply (U_contacts w0 _ (w_contact_list w1) (fun c => cf_toi (c_flags c) = false)); [|reflexivity|exact H1]|]; [intros c; reflexivity|]. intros w2 (H2 & M & _ & _ & L2). rewrite <- L2 in M.
    unfold toi_fuel. cbv zeta. cbn [toi_loop]. apply ok_bind. apply (ok_mono _ (fun s => s = (w2, None, (#1)%num))).
    { apply (ok_each (fun s => s = (w2, None, (#1)%num))); [|reflexivity]. intros i s Hi ->. unfold toi_scan1. cbv zeta. apply ok_bind, ok_unwrap. intros c Hc. destruct (negb _); [now apply ok_ok|]. destruct (_ <? _)%Z; [now apply ok_ok|].
      rewrite (M i c (or_introl Hi) Hc). apply ok_bind, ok_any. intros fa. apply ok_bind, ok_any. intros fb. destruct (_ || _); [now apply ok_ok|]. apply ok_bind, ok_any. intros a. apply ok_bind, ok_any. intros b.
      apply ok_bind, ok_unwrap. intros ba Ha. apply ok_bind, ok_unwrap. intros bb Hb. apply ok_bind, ok_any. intros _. rewrite (U_idle _ _ _ _ H2 R Ha), (U_idle _ _ _ _ H2 R Hb). now apply ok_ok. }
    intros s ->. apply ok_ok. now apply (U_same w0 w2).
  Qed.
  Lemma step_at_rest w dt w' : wreach E w -> resting w -> filtered w -> w_step_complete w = true -> answers E -> wrun E (WStep dt) w = Ok w' -> undisturbed w w'.
  Proof.
    intros HR R F Sc EA. pose proof (reach_W E EA w HR) as HW. cbn [wrun]. revert w'.
    assert (N : forall c, w_next_contact w <= c -> w_contacts w c = None). { destruct (W_graph _ _ _ HW) as (_ & _ & ((_ & _ & _ & Fr) & _) & _). intros c Hc. specialize (Fr c Hc). cbn in Fr. now destruct (w_contacts w c). }
    pose proof (U_refl w F N Sc) as H. enough (Q : ok (step E dt w) (U w)) by (intros w' Eq; apply (Q w' Eq)).
    unfold step. apply ok_bind. apply (ok_mono _ (U w)).
    { destruct (w_new_contacts w); [|now apply ok_ok]. apply ok_bind. eapply ok_mono; [apply (U_find w w H)|]. intros s Hs. apply ok_ok. apply (U_same w s); auto; apply Hs. }
    intros w1 H1. cbv zeta. apply ok_bind. eapply ok_mono; [apply (U_collide w); [exact R|apply (U_same w w1); auto; apply H1]|]. intros w2 H2. apply ok_bind. apply (ok_mono _ (U w)).
    { destruct (_ && _); [now apply U_solve|now apply ok_ok]. }
    intros w3 H3. apply ok_bind. apply (ok_mono _ (U w)). { destruct (_ && _); [now apply U_toi|now apply ok_ok]. }
    intros w4 H4. match goal with |- context [w_clear_forces ?x] => set (w5 := x) end. assert (H5 : U w w5) by (unfold w5; destruct (nlt _ _); [apply (U_same w w4); auto; apply H4|exact H4]). clearbody w5.
    apply ok_bind. apply (ok_mono _ (U w)). { destruct (w_clear_forces w5); [|now apply ok_ok]. unfold clear_forces. eapply ok_mono; [apply (U_bodies w _ (w_body_list w5) (fun _ => True)); [|auto|exact H5]|]; [intros b; destruct b; reflexivity|]. intros s Hs. apply Hs. }
    intros w6 H6. apply ok_ok. apply (U_same w w6); auto; apply H6.
  Qed.
End Sleep.
