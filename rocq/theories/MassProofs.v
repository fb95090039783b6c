(** Static and kinematic bodies have no mass. *)
From Coq Require Import List ZArith Bool Arith Lia.
From Verif Require Import Base Num Math Collision Manifold Filter ShapeModel ListFacts TreeModel BroadModel DynModel DynSpec WorldModel WorldClaims WorldLogic WorldPhys WorldSolve WorldToi WorldStep WorldCalls WorldReach MassSpec.
Import ListNotations.

Section Mass.
  Local Open Scope num_scope.
  Context {T : Type} `{NT : Num T} `{TT : NumTrig T} `{VT : NumValid T}.
  Notation world := (world T).
  Implicit Types w : world.
  Variable E : env T.

  Definition L (b : body T) : Prop := b_type b <> DynamicBody -> massless b.
  Definition G w : Prop := forall i b, w_bodies w i = Some b -> L b.
  Lemma G_eq w w' : G w -> w_bodies w' = w_bodies w -> G w'.
  Proof. intros H Q i b. rewrite Q. apply H. Qed.
  Lemma G_put w i b : G w -> L b -> G (put_body i b w).
  Proof. intros H Hb j c. cbn. unfold put. destruct (Nat.eqb j i); [intros [= <-]; exact Hb|apply H]. Qed.
  Lemma okp_get {A} w i (f : body T -> res A) Q : G w -> (forall b, L b -> okp (f b) Q) -> okp (bind (get_body w i) f) Q.
  Proof. intros H K. unfold get_body. destruct (w_bodies w i) as [b|] eqn:Hb; [|easy]. cbn [unwrap bind]. apply K. exact (H i b Hb). Qed.
  Lemma okp_seq {A} (m : res world) (f : world -> res A) Q : okp m G -> (forall v, G v -> okp (f v) Q) -> okp (bind m f) Q.
  Proof. intros H K. apply okp_bind. intros v R. apply K. now apply H. Qed.
  Lemma okp_seq1 {A B} (m : res (world * A)) (f : world * A -> res B) Q : okp m (fun st => G (fst st)) -> (forall v, G (fst v) -> okp (f v) Q) -> okp (bind m f) Q.
  Proof. intros H K. apply okp_bind. intros v R. apply K. now apply H. Qed.
  Lemma okp_seq2 {A B C} (m : res (world * A * B)) (f : world * A * B -> res C) Q : okp m (fun st => G (fst (fst st))) -> (forall v, G (fst (fst v)) -> okp (f v) Q) -> okp (bind m f) Q.
  Proof. intros H K. apply okp_bind. intros v R. apply K. now apply H. Qed.
  Lemma okp_made {A} (m : res (body T)) (f : body T -> res A) Q : okp m L -> (forall b, L b -> okp (f b) Q) -> okp (bind m f) Q.
  Proof. intros H K. apply okp_bind. intros v R. apply K. now apply H. Qed.
  Lemma G_body i f w : G w -> (forall b, L b -> L (f b)) -> okp (mod_body i f w) G.
  Proof. intros H K. unfold mod_body. apply okp_get; auto. intros b Hb. apply okp_ok. apply G_put; auto. Qed.
  Lemma G_each {A} (f : A -> world -> res world) l w : (forall x w, G w -> okp (f x w) G) -> G w -> okp (each f l w) G.
  Proof. intros Hf H. now apply okp_each. Qed.

  (** bodies *)
  Lemma L_reset fs b : okp (reset_mass_data fs b) L.
  Proof.
    unfold reset_mass_data. cbv zeta. cbn [b_type]. intros b' R D. assert (Ty : b_type b' = b_type b).
    { destruct (b_type b) eqn:Q; cbn in R; rewrite Q in R; [injection R as <-; cbn; exact Q|injection R as <-; cbn; exact Q|]. apply bind_ok in R as ([[m c] i] & _ & R). destruct (_ >? _) in R; apply bind_ok in R as (b1 & R1 & [= <-]); destruct (_ && _) in R1; try (apply bind_ok in R1 as (_ & _ & R1)); injection R1 as <-; cbn; exact Q. }
    rewrite Ty in D. destruct (b_type b) eqn:Q; [| |now contradict D]; cbn in R; rewrite Q in R; injection R as <-; split; reflexivity.
  Qed.
  Lemma L_set d b : L b -> okp (set_mass_data d b) L.
  Proof.
    intros H b' R D. unfold set_mass_data in R. unfold is_dynamic in R. destruct (b_type b) eqn:Q; cbn [btype_eqb negb] in R; [injection R as <-; apply H; congruence|injection R as <-; apply H; congruence|]. exfalso. apply D. clear - R Q.
    cbv zeta in R. apply bind_ok in R as (b1 & R1 & [= <-]). destruct (_ && _) in R1; [apply bind_ok in R1 as (_ & _ & R1)|]; injection R1 as <-; cbn; destruct (_ <=? _); exact Q.
  Qed.
  Lemma L_fixed f fs b : L b -> okp (set_fixed_rotation f fs b) L.
  Proof. intros H. unfold set_fixed_rotation. destruct (Bool.eqb _ _); [now apply okp_ok|]. apply L_reset. Qed.
  Lemma L_type ty fs b : okp (type_body ty fs b) L.
  Proof. unfold type_body. apply okp_made; [apply L_reset|]. intros b1 H1. destruct (is_static b1); apply okp_ok; exact H1. Qed.
  Lemma L_new d : okp (body_new d) L.
  Proof. unfold body_new. do 6 (apply okp_skip; intros _). apply okp_ok. intros _. split; reflexivity. Qed.
  Lemma L_advance a b : L b -> okp (body_advance a b) L.
  Proof. intros H. unfold body_advance. apply okp_skip. intros s. apply okp_ok. exact H. Qed.
  Lemma L_awake f b : L b -> L (set_awake f b).
  Proof. intros H. unfold set_awake. destruct (is_static b); [exact H|]. destruct f; exact H. Qed.
  Lemma L_wake f b : L b -> L (wake_if f b).
  Proof. intros H. unfold wake_if. destruct (_ && _); [now apply L_awake|exact H]. Qed.
  Lemma L_frame b b' : L b -> b_type b' = b_type b -> b_inv_mass b' = b_inv_mass b -> b_inv_i b' = b_inv_i b -> L b'.
  Proof. unfold L, massless. intros H -> -> ->. exact H. Qed.
  Ltac keep := intros; repeat match goal with
    | |- L (set_awake _ _) => apply L_awake
    | |- L (if ?c then _ else _) => destruct c
    | H : L _ |- L _ => exact H
    end.
  Lemma L_push q wake b : L b -> L (apply_push q wake b).
  Proof.
    intros H. pose proof (L_wake wake b H) as H1. destruct q; cbn [apply_push]; unfold apply_force, apply_force_to_center, apply_torque, apply_linear_impulse, apply_linear_impulse_to_center, apply_angular_impulse; cbv zeta; set (c := wake_if wake b) in *; clearbody c;
    (destruct (negb (is_dynamic b)); [exact H|]; destruct (is_awake c); exact H1).
  Qed.
  Lemma L_setter s b : L b -> L (body_setter s b).
  Proof.
    intros H. pose proof (L_awake true b H) as H1. destruct s; cbn [body_setter]; try exact H; try (now apply L_awake); try (now apply L_push).
    - unfold set_sleeping_allowed. cbv zeta. destruct f; [exact H|]. apply L_awake. exact H.
    - unfold set_linear_velocity. destruct (is_static b); [exact H|]. cbv zeta. destruct (_ >? _); [exact H1|exact H].
    - unfold set_angular_velocity. destruct (is_static b); [exact H|]. cbv zeta. destruct (_ >? _); [exact H1|exact H].
  Qed.

  (** worlds *)
  Ltac gw := match goal with
    | |- G (put_body _ _ _) => apply G_put; [gw|keep]
    | H : G ?w |- G ?w => exact H
    | H : G ?w |- G ?w' => refine (G_eq w w' H _); reflexivity
    | |- G ?v => match v with context [put_body ?i ?b ?w] => refine (G_eq (put_body i b w) v _ eq_refl); gw end
    end.
  Ltac walk1 := match goal with
    | |- okp (let _ := _ in _) _ => cbv zeta
    | |- okp (Ok _) _ => apply okp_ok; cbn [fst snd]; try gw
    | H : G ?w |- okp (bind (get_body ?v _) _) _ => apply (okp_get v); [gw|intros ? ?]
    | |- okp (bind (mod_body _ _ _) _) _ => apply okp_seq; [apply G_body; [gw|keep]|intros ? ?]
    | |- okp (mod_body _ _ _) _ => apply G_body; [gw|keep]
    | |- okp (mod_contact _ _ _) _ => unfold mod_contact
    | |- okp (mod_joint _ _ _) _ => unfold mod_joint
    | |- okp (if ?c then _ else _) _ => destruct c
    | |- okp (each _ _ _) G => apply G_each; [intros ? ? ?|gw]
    | |- okp (@bind _ _ ?m _) _ => match type of m with
        | res (WorldModel.world _) => apply okp_seq; [|intros ? ?]
        | res (WorldModel.world _ * _ * _) => apply okp_seq2; [|intros [[? ?] ?] ?; cbn [fst snd] in *]
        | res (WorldModel.world _ * _) => apply okp_seq1; [|intros [? ?] ?; cbn [fst snd] in *]
        | res (body _) => apply okp_made; [|intros ? ?]
        | res (_ * _) => apply okp_skip; intros [? ?]
        | _ => apply okp_skip; intros ?
        end
    end.
  Ltac walk := repeat walk1.
  Lemma G_listen e i w : G w -> okp (listen E e i w) G.
  Proof. intros H. unfold listen. walk. Qed.
  Lemma G_sync f a b w : G w -> okp (synchronize f a b w) G.
  Proof. intros H. unfold synchronize. walk. Qed.
  Lemma G_create_proxies f xf w : G w -> okp (create_proxies f xf w) G.
  Proof. intros H. unfold create_proxies. walk. Qed.
  Lemma G_destroy_proxies f w : G w -> okp (destroy_proxies f w) G.
  Proof. intros H. unfold destroy_proxies. walk. Qed.
  Lemma G_touch f w : G w -> okp (touch_proxies f w) G.
  Proof. intros H. unfold touch_proxies. walk. Qed.
  Lemma G_syncs i w : G w -> okp (synchronize_fixtures i w) G.
  Proof. intros H. unfold synchronize_fixtures. walk. now apply G_sync. Qed.
  Lemma G_link x w : G w -> okp (link_contact x w) G.
  Proof. intros H. unfold link_contact. walk. Qed.
  Lemma G_add_pair u v w : G w -> okp (add_pair E w u v) G.
  Proof. intros H. unfold add_pair. walk. apply G_link. gw. Qed.
  Lemma G_find w : G w -> okp (find_new_contacts E w) G.
  Proof.
    intros H. unfold find_new_contacts, update_pairs. cbv zeta. apply okp_bind. apply okp_skip. intros ps. apply okp_bind. intros w1 Q1. apply okp_skip. intros tr. apply okp_ok. apply okp_ok. enough (G w1) as H1 by gw.
    revert w1 Q1. apply (okp_range G); auto. intros x s Hs. apply okp_skip. intros q. apply okp_skip. intros ua. apply okp_skip. intros ub. now apply G_add_pair.
  Qed.
  Lemma G_wake c w : G w -> okp (wake_touching c w) G.
  Proof. intros H. unfold wake_touching. walk. Qed.
  Lemma G_destroy i w : G w -> okp (destroy_contact E i w) G.
  Proof. intros H. unfold destroy_contact. walk; try (now apply G_listen). apply G_wake. gw. Qed.
  Lemma G_update i w : G w -> okp (update_contact E i w) G.
  Proof.
    intros H. unfold update_contact. cbv zeta. apply okp_seq; [walk|]. intros w1 H1. do 7 (apply okp_skip; intros ?).
    match goal with |- okp (bind ?m _) _ => assert (K : okp m (fun st => G (fst st))) by (destruct (_ || _); repeat walk1) end.
    apply okp_seq1; [exact K|]. intros [v t] Hv. cbn [fst] in Hv. walk; now apply G_listen.
  Qed.
  Lemma G_collide w : G w -> okp (collide E w) G.
  Proof.
    intros H. unfold collide. apply okp_seq1; [|intros [v dead] Hv; apply G_each; auto; intros c v' Hv'; now apply G_destroy].
    apply (okp_each (fun st => G (fst st))); auto. intros i [v dead] Hv. cbn [fst] in Hv. unfold collide1. walk. now apply G_update.
  Qed.
  Lemma G_report l w : G w -> okp (report E l w) G.
  Proof. intros H. unfold report. walk. now apply G_listen. Qed.
  Lemma G_solve_island is dt w : G w -> okp (solve_island E is dt w) G.
  Proof. intros H. unfold solve_island. walk; try (now apply G_report). Qed.
  Definition Dd (st : dstate (T := T)) : Prop := G (fst (fst st)).
  Lemma Dd_other o st : Dd st -> okp (visit_other o st) Dd.
  Proof. destruct st as [[w is] stack]. unfold Dd. cbn [fst snd]. intros H. unfold visit_other. walk. Qed.
  Lemma Dd_contact e st : Dd st -> okp (visit_contact e st) Dd.
  Proof. destruct st as [[w is] stack]. intros H. unfold visit_contact. unfold Dd in H. cbn [fst] in H. walk; try exact H. apply Dd_other. unfold Dd. cbn [fst]. gw. Qed.
  Lemma Dd_joint e st : Dd st -> okp (visit_joint e st) Dd.
  Proof. destruct st as [[w is] stack]. intros H. unfold visit_joint. unfold Dd in H. cbn [fst] in H. walk; try exact H. apply Dd_other. unfold Dd. cbn [fst]. gw. Qed.
  Lemma Dd_dfs1 i st : Dd st -> okp (dfs1 i st) Dd.
  Proof.
    destruct st as [[w is] stack]. intros H. unfold Dd in H. cbn [fst] in H. unfold dfs1. apply okp_get; auto. intros b Lb. apply okp_skip. intros _. unfold add_body. set (w1 := put_body i _ w). assert (G w1) as H1 by (apply G_put; [exact H|exact Lb]). clearbody w1. destruct (is_static b); [now apply okp_ok|].
    apply okp_seq; [apply G_body; [exact H1|keep]|]. intros w2 H2. apply okp_bind. apply (okp_mono _ Dd); [apply okp_each; auto; intros e st Hst; now apply Dd_contact|]. intros st Hst. apply okp_each; auto. intros e st' Hst'. now apply Dd_joint.
  Qed.
  Lemma Dd_dfs : forall fuel st, Dd st -> okp (dfs fuel st) Dd.
  Proof. induction fuel as [|fuel IH]; intros [[w is] [|i stack]] H; cbn [dfs]; try (now apply okp_ok); try easy. apply okp_bind. apply (okp_mono _ Dd); [|auto]. apply Dd_dfs1. exact H. Qed.
  Lemma G_seed cap dt seed w : G w -> okp (solve_seed E cap dt seed w) G.
  Proof.
    intros H. unfold solve_seed. apply okp_get; auto. intros b Lb. destruct (fl_island (b_flags b)); [now apply okp_ok|]. destruct (_ || _); [now apply okp_ok|]. destruct (is_static b); [now apply okp_ok|]. cbv zeta. apply okp_bind. apply (okp_mono _ Dd); [apply Dd_dfs; unfold Dd; cbn [fst]; now apply G_put|].
    intros [[w1 is] st] H1. unfold Dd in H1. cbn [fst snd] in H1. apply okp_skip. intros _. apply okp_seq; [now apply G_solve_island|]. intros w2 H2. walk.
  Qed.
  Lemma G_solve dt w : G w -> okp (solve E dt w) G.
  Proof.
    intros H. unfold solve. cbv zeta. apply okp_seq; [unfold clear_island_flags; walk|]. intros w1 H1. apply okp_seq; [apply G_each; auto; intros c v Hv; now apply G_seed|]. intros w2 H2. apply okp_seq; [unfold sync_moved; walk; now apply G_syncs|]. intros w3 H3. now apply G_find.
  Qed.
  Definition Sd (st : world * option nat * T) : Prop := G (fst (fst st)).
  Lemma G_scan i st : Sd st -> okp (toi_scan1 E i st) Sd.
  Proof.
    destruct st as [[w best] al]. unfold Sd at 1. cbn [fst snd]. intros H. unfold toi_scan1.
    assert (Bt : forall v a, G v -> okp (Ok (if a <? al then (v, Some i, a) else (v, best, al))) Sd) by (intros v a Hv; apply okp_ok; now destruct (a <? al)).
    apply okp_skip. intros x. destruct (negb (cf_enabled (c_flags x))); [now apply okp_ok|]. destruct (_ <? _)%Z; [now apply okp_ok|]. destruct (cf_toi (c_flags x)); [now apply Bt|]. apply okp_skip. intros fa. apply okp_skip. intros fb. destruct (_ || _); [now apply okp_ok|].
    apply okp_skip. intros a. apply okp_skip. intros b. apply okp_get; auto. intros ba La. apply okp_get; auto. intros bb Lb. apply okp_skip. intros _. destruct (_ && _); [now apply okp_ok|]. destruct (_ && _); [now apply okp_ok|]. cbv zeta.
    apply okp_seq1. { destruct (_ <? _); [apply okp_skip; intros s; apply okp_ok; now apply G_put|]. destruct (_ <? _); [apply okp_skip; intros s; apply okp_ok; now apply G_put|]. now apply okp_ok. }
    intros [w1 a0] H1. cbn [fst] in H1. apply okp_skip. intros _. apply okp_skip. intros [tc beta]. set (al1 := if tc then _ else _). apply okp_seq; [unfold mod_contact; walk|]. auto.
  Qed.
  Definition Jd (st : world * island) : Prop := G (fst st).
  Lemma Jd_join i al e st : Jd st -> okp (toi_join E i al e st) Jd.
  Proof.
    destruct st as [w is]. intros H. unfold toi_join. unfold Jd in H. cbn [fst] in H. apply okp_skip. intros x. destruct (cf_island (c_flags x)); [now apply okp_ok|]. apply okp_get; auto. intros o Lo. apply okp_get; auto. intros b Lb. destruct (_ && _ && _); [now apply okp_ok|].
    apply okp_skip. intros fa. apply okp_skip. intros fb. destruct (_ || _); [now apply okp_ok|]. cbv zeta.
    apply okp_seq. { destruct (fl_island (b_flags o)); [now apply okp_ok|]. apply okp_made; [now apply L_advance|]. intros o' Lo'. apply okp_ok. now apply G_put. }
    intros w1 H1. apply okp_seq; [now apply G_update|]. intros w2 H2. apply okp_skip. intros x2. destruct (negb (cf_enabled (c_flags x2)) || _).
    - walk. assumption.
    - set (w3 := put_contact _ _ w2). assert (G w3) as H3 by gw. clearbody w3. apply okp_get; auto. intros o2 L2. destruct (fl_island (b_flags o2)); [now apply okp_ok|]. apply okp_ok. unfold add_body, Jd. cbn [fst]. apply G_put; [exact H3|]. pose proof (L_awake true (mod_flags (set_fl_island true) o2) L2) as L3. destruct (is_static (mod_flags (set_fl_island true) o2)); [exact L2|exact L3].
  Qed.
  Lemma Jd_grow i al st : Jd st -> okp (toi_grow E i al st) Jd.
  Proof. destruct st as [w is]. intros H. unfold toi_grow. apply okp_skip. intros b. destruct (is_dynamic b); [|now apply okp_ok]. apply okp_each; auto. intros e st Hst. now apply Jd_join. Qed.
  Lemma G_release i w : G w -> okp (toi_release i w) G.
  Proof. intros H. unfold toi_release. walk. now apply G_syncs. Qed.
  Lemma G_solve_toi_island is ia ib dt w : G w -> okp (solve_toi_island E is ia ib dt w) G.
  Proof. intros H. unfold solve_toi_island. do 5 (apply okp_skip; intros ?). cbv zeta. apply okp_seq; [apply G_each; [intros; apply G_body; [assumption|keep]|gw]|]. intros w2 H2. now apply G_report. Qed.
  Lemma G_event mc al dt w : G w -> okp (toi_event E mc al dt w) (fun st => G (fst st)).
  Proof.
    intros H. unfold toi_event. apply okp_skip. intros c. apply okp_skip. intros a. apply okp_skip. intros b. apply okp_get; auto. intros ba La. apply okp_get; auto. intros bb Lb. cbv zeta. apply okp_made; [now apply L_advance|]. intros ba' La'.
    set (w1 := put_body a ba' w). assert (G w1) as H1 by (now apply G_put). clearbody w1. apply okp_get; auto. intros bb1 Lb1. apply okp_made; [now apply L_advance|]. intros bb' Lb'. set (w2 := put_body b bb' w1). assert (G w2) as H2 by (now apply G_put). clearbody w2.
    apply okp_seq; [now apply G_update|]. intros w3 H3. apply okp_seq; [walk|]. intros w4 H4. apply okp_skip. intros c4. destruct (_ || _).
    - walk.
    - apply okp_seq; [walk|]. intros w5 H5. apply okp_seq; [walk|]. intros w6 H6. apply okp_get; auto. intros ba2 La2. unfold add_body. set (w7 := put_body a _ w6). assert (G w7) as H7 by (now apply G_put). clearbody w7. apply okp_get; auto. intros bb2 Lb2. set (w8 := put_body b _ w7). assert (G w8) as H8 by (now apply G_put). clearbody w8.
      apply okp_seq; [walk|]. intros w9 H9. apply okp_seq; [walk|]. intros wa Ha. apply okp_seq; [walk|]. intros wb Hb. apply okp_bind. apply (okp_mono _ Jd); [now apply Jd_grow|]. intros st Hst. apply okp_bind. apply (okp_mono _ Jd); [now apply Jd_grow|]. intros [wc is] Hc. unfold Jd in Hc. cbn [fst snd] in Hc.
      apply okp_skip. intros ba3. apply okp_skip. intros bb3. apply okp_seq; [now apply G_solve_toi_island|]. intros wd Hd. apply okp_seq; [apply G_each; auto; intros i v Hv; now apply G_release|]. intros we He. apply okp_seq; [now apply G_find|]. intros wf Hf. now apply okp_ok.
  Qed.
  Lemma G_loop dt : forall fuel w, G w -> okp (toi_loop E fuel dt w) G.
  Proof.
    induction fuel as [|fuel IH]; intros w H; cbn [toi_loop]; [easy|]. apply okp_bind. apply (okp_mono _ Sd); [apply okp_each; [intros i st Hst; now apply G_scan|exact H]|]. intros [[w1 best] al] H1. unfold Sd in H1. cbn [fst snd] in H1. destruct best as [mc|]; [|apply okp_ok; gw]. destruct (_ <? al); [apply okp_ok; gw|].
    apply okp_seq1; [now apply G_event|]. intros [w2 sol] H2. cbn [fst] in H2. destruct (_ && _); [apply okp_ok; gw|]. auto.
  Qed.
  Lemma G_clear w : G w -> okp (clear_forces w) G.
  Proof. intros H. unfold clear_forces. walk. Qed.
  Lemma G_step dt w : G w -> okp (step E dt w) G.
  Proof.
    intros H. rewrite r_step_parts. apply okp_seq.
    { unfold step_front. apply okp_seq; [destruct (w_new_contacts w); [apply okp_seq; [now apply G_find|intros v Hv; walk]|now apply okp_ok]|]. intros w1 H1. apply G_collide. gw. }
    intros w2 H2. unfold step_back. apply okp_seq; [destruct (_ && _); [now apply G_solve|now apply okp_ok]|]. intros w3 H3.
    apply okp_seq. { destruct (_ && _); [|now apply okp_ok]. unfold solve_toi. apply okp_seq; [|intros v Hv; now apply G_loop]. destruct (w_step_complete w3); [unfold toi_reset; walk|now apply okp_ok]. }
    intros w4 H4. set (w5 := if nlt (nofZ 0) dt then _ else w4). assert (G w5) as H5 by (unfold w5; destruct (nlt (nofZ 0) dt); gw). clearbody w5. apply okp_seq; [destruct (w_clear_forces w5); [now apply G_clear|now apply okp_ok]|]. intros w6 H6. apply okp_ok. gw.
  Qed.
  Lemma G_flag i j w : G w -> okp (flag_contacts i j w) G.
  Proof. intros H. unfold flag_contacts. walk. Qed.
  Lemma G_destroy_joint j w : G w -> okp (destroy_joint j w) G.
  Proof. intros H. unfold destroy_joint. walk; try (now apply G_flag); try (apply G_flag; gw). Qed.
  Lemma G_destroy_contacts i l w : G w -> okp (destroy_contacts E i l w) G.
  Proof. intros H. unfold destroy_contacts. walk. now apply G_destroy. Qed.
  Lemma G_reset_mass i w : G w -> okp (reset_mass i w) G.
  Proof. intros H. unfold reset_mass. walk. apply L_reset. Qed.
  Lemma G_refilter f w : G w -> okp (refilter f w) G.
  Proof. intros H. unfold refilter. apply okp_skip. intros x. destruct (f_body x); [|now apply okp_ok]. apply okp_skip. intros b. apply okp_skip. intros _. now apply G_touch. Qed.
  Theorem G_call c w : G w -> okp (wrun E c w) G.
  Proof.
    intros H. destruct c; cbn [wrun].
    - unfold create_body. apply okp_seq1; [|intros [v n] Hv; now apply okp_ok]. apply okp_skip. intros _. apply okp_made; [apply L_new|]. intros b Lb. apply okp_ok. cbn [fst]. pose proof (G_put w (w_next_body w) b H Lb) as H1. gw.
    - unfold destroy_body. apply okp_skip. intros _. apply okp_skip. intros _. apply okp_get; auto. intros b Lb. apply okp_seq; [apply G_each; auto; intros e v Hv; cbv zeta; apply G_destroy_joint; destruct (w_goodbye v); gw|]. intros w1 H1. apply okp_seq; [walk|]. intros w2 H2. apply okp_get; auto. intros b2 Lb2. apply okp_seq; [now apply G_destroy_contacts|]. intros w3 H3.
      apply okp_get; auto. intros b3 Lb3. apply okp_seq.
      { apply G_each; auto. intros f v Hv. cbv zeta. apply okp_seq; [apply G_destroy_proxies; destruct (w_goodbye v); gw|]. intros v1 Hv1. apply okp_get; auto. intros bb Lbb. apply okp_skip. intros n. apply okp_ok. pose proof (G_put v1 i (set_b_fixture_count n bb) Hv1 Lbb) as H5. gw. }
      intros w4 H4. apply okp_skip. intros l. apply okp_skip. intros n. apply okp_ok. intros k c. cbn. unfold put. destruct (Nat.eqb k i); [easy|apply H4].
    - unfold create_fixture. apply okp_seq1; [|intros [v n] Hv; now apply okp_ok]. apply okp_skip. intros _. apply okp_get; auto. intros b Lb. apply okp_skip. intros x. cbv zeta. apply okp_seq; [destruct (is_enabled b); [apply G_create_proxies; gw|apply okp_ok; gw]|]. intros w2 H2. apply okp_seq; [walk|]. intros w3 H3. apply okp_seq; [destruct (_ >? _); [now apply G_reset_mass|now apply okp_ok]|]. intros w4 H4. apply okp_ok. cbn [fst]. gw.
    - unfold destroy_fixture. apply okp_skip. intros _. apply okp_get; auto. intros b Lb. apply okp_skip. intros ow. apply okp_skip. intros _. apply okp_skip. intros _. apply okp_skip. intros l. cbv zeta. set (w1 := put_body i _ w). assert (G w1) as H1 by (now apply G_put). clearbody w1. apply okp_seq; [apply G_each; auto; intros e v Hv; apply okp_skip; intros c; destruct (_ || _); [now apply G_destroy|now apply okp_ok]|]. intros w2 H2.
      apply okp_get; auto. intros b2 Lb2. apply okp_seq; [destruct (is_enabled b2); [now apply G_destroy_proxies|now apply okp_ok]|]. intros w3 H3. set (w4 := set_w_fixtures _ w3). assert (G w4) as H4 by gw. clearbody w4. apply okp_get; auto. intros b3 Lb3. apply okp_skip. intros n. apply G_reset_mass. now apply G_put.
    - unfold create_joint. apply okp_seq1; [|intros [v n] Hv; now apply okp_ok]. apply okp_skip. intros _. apply okp_skip. intros _. cbv zeta. apply okp_seq; [walk|]. intros w2 H2. apply okp_seq; [walk|]. intros w3 H3. apply okp_seq; [destruct collide_connected; [now apply okp_ok|now apply G_flag]|]. intros w4 H4. now apply okp_ok.
    - now apply G_destroy_joint.
    - unfold set_type. apply okp_skip. intros _. apply okp_get; auto. intros b Lb. destruct (btype_eqb _ _); [now apply okp_ok|]. apply okp_skip. intros fs. apply okp_made; [apply L_type|]. intros b' Lb'. cbv zeta. set (w1 := put_body i b' w). assert (G w1) as H1 by (now apply G_put). clearbody w1. apply okp_seq; [destruct (is_static b'); [now apply G_syncs|now apply okp_ok]|]. intros w2 H2.
      apply okp_seq; [apply G_body; auto; intros x Lx; exact (L_awake true x Lx)|]. intros w3 H3. apply okp_seq; [now apply G_destroy_contacts|]. intros w4 H4. apply G_each; auto. intros f v Hv. now apply G_touch.
    - unfold set_enabled. apply okp_skip. intros _. apply okp_seq; [walk|]. intros w1 H1. apply okp_get; auto. intros b Lb. destruct f.
      + apply okp_seq; [apply G_each; auto; intros g v Hv; now apply G_create_proxies|]. intros w2 H2. apply okp_ok. gw.
      + apply okp_seq; [apply G_each; auto; intros g v Hv; now apply G_destroy_proxies|]. intros w2 H2. now apply G_destroy_contacts.
    - unfold set_transform. apply okp_skip. intros _. apply okp_get; auto. intros b Lb. cbv zeta. apply okp_seq; [apply G_each; [intros g v Hv; now apply G_sync|now apply G_put]|]. intros w2 H2. apply okp_ok. gw.
    - apply G_body; auto. intros b Lb. now apply L_setter.
    - apply okp_skip. intros _. apply okp_get; auto. intros b Lb. apply okp_made; [now apply L_set|]. intros b' Lb'. apply okp_ok. now apply G_put.
    - now apply G_reset_mass.
    - apply okp_get; auto. intros b Lb. apply okp_skip. intros fs. apply okp_made; [now apply L_fixed|]. intros b' Lb'. apply okp_ok. now apply G_put.
    - unfold set_filter_data. apply okp_skip. intros x. apply G_refilter. gw.
    - now apply G_refilter.
    - unfold set_sensor. walk.
    - walk.
    - walk.
    - unfold set_allow_sleeping. cbv zeta. destruct (Bool.eqb _ _); [now apply okp_ok|]. destruct f; [apply okp_ok; gw|]. walk.
    - walk.
    - walk.
    - walk.
    - now apply G_clear.
    - unfold world_shift. walk.
    - now apply G_step.
  Qed.
  Theorem reach_masses w : wreach E w -> fixed_masses w.
  Proof.
    intros H. enough (K : G w) by (intros i b Hb; exact (K i b Hb)). induction H as [li gb w R|w c w' _ IH R].
    - unfold world_new in R. apply bind_ok in R as (bp & _ & [= <-]). discriminate.
    - exact (G_call c w IH w' R).
  Qed.
End Mass.
