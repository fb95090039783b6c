(** A kinematic body moves with its own velocity in a step with the island solver of the code. *)
From Coq Require Import List ZArith Bool Arith Lia Reals Lra.
From Flocq Require Import Core.Raux.
From Verif Require Import Base Num NumLaws Math Collision Manifold Filter ShapeModel ListFacts TreeModel BroadModel DynModel DynSpec SolverModel IslandModel WorldModel WorldGraph WorldSpec WorldLogic WorldPhys WorldContact WorldInv WorldIsland WorldSolve WorldToi WorldStep WorldClaims WorldCalls WorldHist WorldFinal WorldAfter WorldReach NarrowModel SolverSpec SolveModel CrashSpec CrashWorld FlightSpec FirmSpec FirmProofs MassSpec MassProofs StillSpec StillProofs GlideSpec.
Import ListNotations.

(** ** what the parts of a step that are not the solver keep of one body *)
Section Frame.
  Context {TT : NumTrig R} {VT : NumValid R}.
  Notation T := R.
  Notation world := (world R).
  Implicit Types w : world.
  Variable E : env R.
  Variable me : nat.
  Variable Q : body R -> Prop.
  Definition key (b : body R) := (b_type b, b_lv b, b_av b, sw_c (b_sweep b), sw_a (b_sweep b), b_inv_mass b, b_inv_i b, b_flags b).
  Definition framed : Prop := forall b b', key b' = key b -> Q b -> Q b'.
  Hypothesis QF : framed.
  Hypothesis QW : forall b, Q b -> Q (set_awake true b).

  Definition L (j : nat) (b : body R) : Prop := j = me -> Q b.
  Definition G w : Prop := (exists b, w_bodies w me = Some b /\ Q b) /\ w_continuous w = false /\ w_step_complete w = true.
  Lemma G_eq w w' : G w -> w_bodies w' = w_bodies w -> w_continuous w' = w_continuous w -> w_step_complete w' = w_step_complete w -> G w'.
  Proof. unfold G. intros H -> -> ->. exact H. Qed.
  Lemma G_put w j b : G w -> L j b -> G (put_body j b w).
  Proof. intros (H & C) Hb. split; [|exact C]. cbn. unfold put. destruct (Nat.eqb me j) eqn:Ej; [|exact H]. apply Nat.eqb_eq in Ej. exists b. split; [reflexivity|]. now apply Hb. Qed.
  Lemma G_get w j b : G w -> w_bodies w j = Some b -> L j b.
  Proof. intros ((c & Hc & Qc) & _) H ->. congruence. Qed.
  Lemma okp_get {A} w j (f : body T -> res A) P : G w -> (forall b, L j b -> okp (f b) P) -> okp (bind (get_body w j) f) P.
  Proof. intros H K. unfold get_body. destruct (w_bodies w j) as [b|] eqn:Hb; [|easy]. cbn [unwrap bind]. apply K. exact (G_get w j b H Hb). Qed.
  Lemma okp_seq {A} (m : res world) (f : world -> res A) P : okp m G -> (forall v, G v -> okp (f v) P) -> okp (bind m f) P.
  Proof. intros H K. apply okp_bind. intros v R. apply K. now apply H. Qed.
  Lemma okp_seq1 {A B} (m : res (world * A)) (f : world * A -> res B) P : okp m (fun st => G (fst st)) -> (forall v, G (fst v) -> okp (f v) P) -> okp (bind m f) P.
  Proof. intros H K. apply okp_bind. intros v R. apply K. now apply H. Qed.
  Lemma okp_seq2 {A B C} (m : res (world * A * B)) (f : world * A * B -> res C) P : okp m (fun st => G (fst (fst st))) -> (forall v, G (fst (fst v)) -> okp (f v) P) -> okp (bind m f) P.
  Proof. intros H K. apply okp_bind. intros v R. apply K. now apply H. Qed.
  Lemma G_body j f w : G w -> (forall b, L j b -> L j (f b)) -> okp (mod_body j f w) G.
  Proof. intros H K. unfold mod_body. apply okp_get; auto. intros b Hb. apply okp_ok. apply G_put; auto. Qed.
  Lemma G_each {A} (f : A -> world -> res world) l w : (forall x w, G w -> okp (f x w) G) -> G w -> okp (each f l w) G.
  Proof. intros Hf H. now apply okp_each. Qed.
  Lemma G_in (f : nat -> body R -> body R) l w : (forall j, In j l -> forall b, L j b -> L j (f j b)) -> G w -> okp (each (fun j => mod_body j (f j)) l w) G.
  Proof. intros K H. apply (each_okp (fun _ => G)); [|exact H]. intros d x r s El Hs. apply G_body; [exact Hs|]. apply K. rewrite El. apply in_app_iff. cbn. auto. Qed.
  Lemma L_awake j b : L j b -> L j (set_awake true b).
  Proof. intros H e. apply QW. now apply H. Qed.
  Ltac keep := intros; repeat match goal with
    | |- L _ (set_awake true _) => apply L_awake
    | |- L _ (if ?c then _ else _) => destruct c
    | H : L ?j ?b |- L ?j ?b => exact H
    | H : L ?j ?b |- L ?j ?c => exact (fun e => QF b c eq_refl (H e))
    end.

  (** worlds *)
  Ltac gw := match goal with
    | |- G (put_body _ _ _) => apply G_put; [gw|keep]
    | H : G ?w |- G ?w => exact H
    | H : G ?w |- G ?w' => refine (G_eq w w' H _ _ _); reflexivity
    | |- G ?v => match v with context [put_body ?i ?b ?w] => refine (G_eq (put_body i b w) v _ eq_refl eq_refl eq_refl); gw end
    end.
  Ltac walk1 := match goal with
    | |- okp (let _ := _ in _) _ => cbv zeta
    | |- okp (Ok _) _ => apply okp_ok; cbn [fst snd]; try gw
    | H : G ?w |- okp (bind (get_body ?v _) _) _ => apply (okp_get v); [gw|intros ? ?]
    | |- okp (bind (mod_body _ _ _) _) _ => apply okp_seq; [apply G_body; [gw|keep]|intros ? ?]
    | |- okp (mod_body _ _ _) _ => apply G_body; [gw|keep]
    | |- okp (mod_contact _ _ _) _ => unfold mod_contact
    | |- okp (mod_joint _ _ _) _ => unfold mod_joint
    | |- okp (if ?c then _ else _) _ => destruct c
    | |- okp (each _ _ _) G => apply G_each; [intros ? ? ?|gw]
    | |- okp (@bind _ _ ?m _) _ => match type of m with
        | res (WorldModel.world _) => apply okp_seq; [|intros ? ?]
        | res (WorldModel.world _ * _ * _) => apply okp_seq2; [|intros [[? ?] ?] ?; cbn [fst snd] in *]
        | res (WorldModel.world _ * _) => apply okp_seq1; [|intros [? ?] ?; cbn [fst snd] in *]
        | res (body _) => apply okp_made; [|intros ? ?]
        | res (_ * _) => apply okp_skip; intros [? ?]
        | _ => apply okp_skip; intros ?
        end
    end.
  Ltac walk := repeat walk1.
  Lemma G_listen e i w : G w -> okp (listen E e i w) G.
  Proof. intros H. unfold listen. walk. Qed.
  Lemma G_sync f a b w : G w -> okp (synchronize f a b w) G.
  Proof. intros H. unfold synchronize. walk. Qed.
  Lemma G_syncs i w : G w -> okp (synchronize_fixtures i w) G.
  Proof. intros H. unfold synchronize_fixtures. walk. now apply G_sync. Qed.
  Lemma G_link x w : G w -> okp (link_contact x w) G.
  Proof. intros H. unfold link_contact. walk. Qed.
  Lemma G_add_pair u v w : G w -> okp (add_pair E w u v) G.
  Proof. intros H. unfold add_pair. walk. apply G_link. gw. Qed.
  Lemma G_find w : G w -> okp (find_new_contacts E w) G.
  Proof.
    intros H. unfold find_new_contacts, update_pairs. cbv zeta. apply okp_bind. apply okp_skip. intros ps. apply okp_bind. intros w1 Q1. apply okp_skip. intros tr. apply okp_ok. apply okp_ok. enough (G w1) as H1 by gw.
    revert w1 Q1. apply (okp_range G); auto. intros x s Hs. apply okp_skip. intros q. apply okp_skip. intros ua. apply okp_skip. intros ub. now apply G_add_pair.
  Qed.
  Lemma G_wake c w : G w -> okp (wake_touching c w) G.
  Proof. intros H. unfold wake_touching. walk. Qed.
  Lemma G_destroy i w : G w -> okp (destroy_contact E i w) G.
  Proof. intros H. unfold destroy_contact. walk; try (now apply G_listen). apply G_wake. gw. Qed.
  Lemma G_update i w : G w -> okp (update_contact E i w) G.
  Proof.
    intros H. unfold update_contact. cbv zeta. apply okp_seq; [walk|]. intros w1 H1. do 7 (apply okp_skip; intros ?).
    match goal with |- okp (bind ?m _) _ => assert (K : okp m (fun st => G (fst st))) by (destruct (_ || _); repeat walk1) end.
    apply okp_seq1; [exact K|]. intros [v t] Hv. cbn [fst] in Hv. walk; now apply G_listen.
  Qed.
  Lemma G_collide w : G w -> okp (collide E w) G.
  Proof.
    intros H. unfold collide. apply okp_seq1; [|intros [v dead] Hv; apply G_each; auto; intros c v' Hv'; now apply G_destroy].
    apply (okp_each (fun st => G (fst st))); auto. intros i [v dead] Hv. cbn [fst] in Hv. unfold collide1. walk. now apply G_update.
  Qed.
  Lemma G_report l w : G w -> okp (report E l w) G.
  Proof. intros H. unfold report. walk. now apply G_listen. Qed.
  Lemma G_clear w : G w -> okp (clear_forces w) G.
  Proof. intros H. unfold clear_forces. walk. Qed.
  Lemma G_front w : G w -> okp (step_front E w) G.
  Proof. intros H. unfold step_front. apply okp_seq; [destruct (w_new_contacts w); [apply okp_seq; [now apply G_find|intros v Hv; walk]|now apply okp_ok]|]. intros w1 H1. apply G_collide. gw. Qed.
  Lemma G_after w : G w -> okp (w1 <- sync_moved w ;; find_new_contacts E w1) G.
  Proof. intros H. apply okp_seq; [unfold sync_moved; walk; now apply G_syncs|]. intros w1 H1. now apply G_find. Qed.
  Lemma G_end dt w : G w -> okp (let w3 := if nlt (nofZ 0) dt then set_w_inv_dt0 (ndiv (nofZ 1) dt) w else w in w4 <- (if w_clear_forces w3 then clear_forces w3 else Ok w3) ;; Ok (set_w_locked false w4)) G.
  Proof.
    intros H. cbv zeta. set (w5 := if nlt (nofZ 0) dt then _ else w). assert (G w5) as H5 by (unfold w5; destruct (nlt (nofZ 0) dt); gw). clearbody w5. apply okp_seq; [destruct (w_clear_forces w5); [now apply G_clear|now apply okp_ok]|]. intros w6 H6. apply okp_ok. gw.
  Qed.
  (* the islands the body is not in *)
  Lemma G_outside is dt w : ~ In me (is_bodies is) -> G w -> okp (solve_island E is dt w) G.
  Proof.
    intros N H. assert (K : forall f j, In j (is_bodies is) -> forall b, L j b -> L j (f j b)) by (intros f j Hj b _ ->; contradiction).
    unfold solve_island. apply okp_skip. intros s. cbv zeta. apply okp_seq; [walk|]. intros w1 H1. apply okp_seq; [apply (G_in (fun j => apply_solved (so_body s j))); [apply K|exact H1]|]. intros w2 H2. apply okp_seq; [now apply G_report|]. intros w3 H3. destruct (w_allow_sleep w3); [|now apply okp_ok].
    apply okp_seq; [apply (G_in (fun j b => if is_static b then b else set_b_sleep_time (so_time (so_body s j)) b)); [apply K|exact H3]|]. intros w4 H4. destruct (so_sleep s); [|now apply okp_ok]. apply (G_in (fun _ => set_awake false)); [apply K|exact H4].
  Qed.
End Frame.

Section Solve.
  Context {TT : NumTrig R} {VT : NumValid R} {J : Type} (su : setup R J).
  Notation world := (world R).
  Implicit Types w : world.
  Variable E0 : env R.
  Hypothesis EA : answers E0.
  Notation E := (with_code su E0).
  Notation Eb := (backed su E0).
  Variable me : nat.
  Hypothesis SP : spared su me.
  Variable b0 : body R.
  Variable h : R.

  Definition K1 (b : body R) : Prop := b_lv b = b_lv b0 /\ b_av b = b_av b0 /\ sw_c (b_sweep b) = sw_c (b_sweep b0) /\ sw_a (b_sweep b) = sw_a (b_sweep b0) /\ infinite_mass b.
  Definition QF (b : body R) : Prop := b_type b = KinematicBody /\ K1 b /\ is_awake b = true /\ is_enabled b = true.
  Definition QK (b : body R) : Prop := b_type b = KinematicBody /\ K1 b.
  Definition Q2 (b : body R) : Prop := glides h b0 b.
  Definition QJ (b : body R) : Prop := b_type b = KinematicBody /\ (fl_island (b_flags b) = false -> K1 b) /\ (fl_island (b_flags b) = true -> Q2 b).
  Definition Q3 (b : body R) : Prop := fl_island (b_flags b) = true /\ Q2 b.
  Lemma K1_key b b' : b_lv b' = b_lv b -> b_av b' = b_av b -> sw_c (b_sweep b') = sw_c (b_sweep b) -> sw_a (b_sweep b') = sw_a (b_sweep b) -> b_inv_mass b' = b_inv_mass b -> b_inv_i b' = b_inv_i b -> K1 b -> K1 b'.
  Proof. unfold K1, infinite_mass. intros -> -> -> -> -> -> H. exact H. Qed.
  Lemma Q2_key b b' : b_type b' = b_type b -> b_lv b' = b_lv b -> b_av b' = b_av b -> sw_c (b_sweep b') = sw_c (b_sweep b) -> sw_a (b_sweep b') = sw_a (b_sweep b) -> Q2 b -> Q2 b'.
  Proof. unfold Q2, glides. intros -> -> -> -> -> H. exact H. Qed.
  Lemma key_inv b b' : key b' = key b -> b_type b' = b_type b /\ b_lv b' = b_lv b /\ b_av b' = b_av b /\ sw_c (b_sweep b') = sw_c (b_sweep b) /\ sw_a (b_sweep b') = sw_a (b_sweep b) /\ b_inv_mass b' = b_inv_mass b /\ b_inv_i b' = b_inv_i b /\ b_flags b' = b_flags b.
  Proof. unfold key. intros K. injection K as -> -> -> -> -> -> -> ->. auto 10. Qed.
  Lemma wake_key b : b_type (set_awake true b) = b_type b /\ b_lv (set_awake true b) = b_lv b /\ b_av (set_awake true b) = b_av b /\ b_sweep (set_awake true b) = b_sweep b /\ b_inv_mass (set_awake true b) = b_inv_mass b /\ b_inv_i (set_awake true b) = b_inv_i b /\
    fl_island (b_flags (set_awake true b)) = fl_island (b_flags b) /\ is_enabled (set_awake true b) = is_enabled b /\ (is_awake b = true -> is_awake (set_awake true b) = true).
  Proof. unfold set_awake. destruct (is_static b); cbn; auto 12. Qed.
  Lemma QF_framed : framed QF.
  Proof. intros b b' K (A & B & C & D). apply key_inv in K as (K1' & K2 & K3 & K4 & K5 & K6 & K7 & K8). unfold QF, is_awake, is_enabled in *. rewrite K1', K8. refine (conj A (conj _ (conj C D))). exact (K1_key b b' K2 K3 K4 K5 K6 K7 B). Qed.
  Lemma QF_wake b : QF b -> QF (set_awake true b).
  Proof. intros (A & B & C & D). destruct (wake_key b) as (W1 & W2 & W3 & W4 & W5 & W6 & W7 & W8 & W9). unfold QF. rewrite W1, W8. refine (conj A (conj _ (conj (W9 C) D))). apply (K1_key b); congruence. Qed.
  Lemma QJ_framed : framed QJ.
  Proof. intros b b' K (A & B & C). apply key_inv in K as (K1' & K2 & K3 & K4 & K5 & K6 & K7 & K8). unfold QJ. rewrite K1', K8. refine (conj A (conj _ _)); intros F; [exact (K1_key b b' K2 K3 K4 K5 K6 K7 (B F))|exact (Q2_key b b' K1' K2 K3 K4 K5 (C F))]. Qed.
  Lemma QJ_wake b : QJ b -> QJ (set_awake true b).
  Proof. intros (A & B & C). destruct (wake_key b) as (W1 & W2 & W3 & W4 & W5 & W6 & W7 & W8 & W9). unfold QJ. rewrite W1, W7. refine (conj A (conj _ _)); intros F; [apply (K1_key b); try congruence; auto|apply (Q2_key b); try congruence; auto]. Qed.
  Lemma Q3_framed : framed Q3.
  Proof. intros b b' K (A & B). apply key_inv in K as (K1' & K2 & K3 & K4 & K5 & K6 & K7 & K8). unfold Q3. rewrite K8. split; [exact A|exact (Q2_key b b' K1' K2 K3 K4 K5 B)]. Qed.
  Lemma Q3_wake b : Q3 b -> Q3 (set_awake true b).
  Proof. intros (A & B). destruct (wake_key b) as (W1 & W2 & W3 & W4 & W5 & W6 & W7 & W8 & W9). unfold Q3. rewrite W7. split; [exact A|apply (Q2_key b); try congruence; auto]. Qed.
  Lemma Q2_framed : framed Q2.
  Proof. intros b b' K B. apply key_inv in K as (K1' & K2 & K3 & K4 & K5 & K6 & K7 & K8). exact (Q2_key b b' K1' K2 K3 K4 K5 B). Qed.
  Lemma Q2_wake b : Q2 b -> Q2 (set_awake true b).
  Proof. intros B. destruct (wake_key b) as (W1 & W2 & W3 & W4 & W5 & W6 & W7 & W8 & W9). apply (Q2_key b); try congruence; auto. Qed.
  Lemma Q3_sleep b : Q3 b -> Q3 (set_awake false b).
  Proof.
    intros (A & Ty & v & om & C & _). unfold set_awake. assert (is_static b = false) as -> by (unfold is_static; now rewrite Ty). split; [exact A|]. split; [exact Ty|]. exists v, om. split; [exact C|]. right. split; reflexivity.
  Qed.
  Lemma bstrip_key (b b' : body R) : bstrip b = bstrip b' -> b_type b = b_type b' /\ b_lv b = b_lv b' /\ b_av b = b_av b' /\ b_sweep b = b_sweep b' /\ b_inv_mass b = b_inv_mass b' /\ b_inv_i b = b_inv_i b'.
  Proof. destruct b as [? []], b' as [? []]. unfold bstrip. cbn. intros H. injection H as -> -> -> -> -> -> -> -> -> -> -> -> -> -> -> -> -> -> -> -> -> ->. repeat split. Qed.

  (* the island the body is in *)
  Lemma G_inside is w : In me (is_bodies is) -> G me (fun b => fl_island (b_flags b) = true /\ QK b) w ->
    (forall s, code_solve su w is h = Ok s -> carried h b0 (so_c (so_body s me)) (so_a (so_body s me)) (so_lv (so_body s me)) (so_av (so_body s me))) -> okp (solve_island E is h w) (G me Q3).
  Proof.
    intros Hi H K. unfold solve_island. apply okp_bind. intros s Rs. cbn [e_solve with_code with_solver] in Rs. specialize (K s Rs). cbv zeta. set (P := fun b => fl_island (b_flags b) = true /\ QK b) in *.
    assert (SQ : forall (m : res world) Q Q' (f : world -> res world), okp m (G me Q) -> (forall v, G me Q v -> okp (f v) (G me Q')) -> okp (bind m f) (G me Q')) by (intros m Q Q' f A B; apply okp_bind; intros v R; apply B, A, R).
    apply (SQ _ P). { apply okp_each; [|exact H]. intros c v Hv. unfold mod_contact. apply okp_skip. intros x. apply okp_ok. exact Hv. }
    intros w1 H1. apply (SQ _ Q3).
    { apply (okp_mono _ (fun v => (w_continuous v = false /\ w_step_complete v = true) /\ exists b, w_bodies v me = Some b /\ fl_island (b_flags b) = true /\ b_type b = KinematicBody /\ (In me (is_bodies is) -> Q2 b))).
      2: { intros v (C & b & Hb & F & _ & Z). split; [|exact C]. exists b. split; [exact Hb|]. split; [exact F|now apply Z]. }
      apply (each_okp (fun d v => (w_continuous v = false /\ w_step_complete v = true) /\ exists b, w_bodies v me = Some b /\ fl_island (b_flags b) = true /\ b_type b = KinematicBody /\ (In me d -> Q2 b))).
      2: { destruct H1 as ((b & Hb & F & Ty & _) & C). split; [exact C|]. exists b. repeat split; auto; easy. }
      intros d j r v El (C & b & Hb & F & Ty & Z). unfold mod_body, get_body. destruct (w_bodies v j) as [bj|] eqn:Hj; [|easy]. cbn [unwrap bind]. apply okp_ok. split; [exact C|]. cbn. unfold put. destruct (Nat.eqb_spec me j) as [<-|Ne].
      - rewrite Hb in Hj. injection Hj as <-. eexists. split; [reflexivity|]. split; [exact F|]. split; [exact Ty|]. intros _. split; [exact Ty|]. exists (so_lv (so_body s me)), (so_av (so_body s me)). split; [exact K|]. left. split; reflexivity.
      - exists b. refine (conj Hb (conj F (conj Ty _))). intros X. apply Z. apply in_app_iff in X as [X|[X|[]]]; [exact X|]. now destruct Ne. }
    intros w2 H2. apply (SQ _ Q3); [apply (G_report E me Q3); exact H2|]. intros w3 H3. destruct (w_allow_sleep w3); [|now apply okp_ok].
    apply (SQ _ Q3).
    { apply (okp_each (G me Q3)); [|exact H3]. intros j v Hv. apply G_body; [exact Hv|]. intros b Lb e. specialize (Lb e). destruct (is_static b); exact Lb. }
    intros w4 H4. destruct (so_sleep s); [|now apply okp_ok]. apply (okp_each (G me Q3)); [|exact H4]. intros j v Hv. apply G_body; [exact Hv|]. intros b Lb e. apply Q3_sleep. exact (Lb e).
  Qed.

  Variable w0 : world.
  Hypothesis W0 : W True any w0.
  Notation seeds := (seeds True any w0).
  Lemma J_seed ini iss d w1 seed cap : seeds ini iss d w1 -> G me QJ w1 -> okp (solve_seed E cap h seed w1) (G me QJ).
  Proof.
    intros H Hg. pose proof (se_phys _ _ _ _ _ _ _ H) as P1. pose proof P1 as (L1 & _). pose proof (W_phys _ _ _ _ W0 P1) as W1. unfold solve_seed, get_body.
    destruct (w_bodies w1 seed) as [b|] eqn:Hb; cbn [unwrap bind]; [|easy].
    destruct (fl_island (b_flags b)) eqn:Ef; [now apply okp_ok|]. destruct (is_awake b) eqn:Eaw; cbn [negb orb]; [|now apply okp_ok].
    destruct (is_enabled b) eqn:Een; cbn [negb]; [|now apply okp_ok]. destruct (is_static b) eqn:Est; [now apply okp_ok|]. cbv zeta.
    pose proof (D_start w1 seed b Hb Ef Een) as D1.
    assert (S : sat True (dfs (Datatypes.S (w_body_count (put_body seed (mod_flags (set_fl_island true) b) w1))) (put_body seed (mod_flags (set_fl_island true) b) w1, Island [] [] [], [seed]))
      (fun q => let '(w', is', st') := q in D w1 (fun _ => False) seed w' is' [] /\ st' = [])).
    { eapply (dfs_ok True w1 (W_graph _ _ _ W1) (W_enabled _ _ _ W1) seed); [exact D1|cbn; lia]. }
    destruct (dfs _ _) as [[[w2 is] st]| |]; cbn [bind]; [|easy|easy]. cbn [sat] in S. destruct S as [D2 ->].
    apply okp_skip. intros _. destruct Hg as ((b1 & Hb1 & Ty & Z0 & Z1) & Cn & Sc).
    assert (Fr : w_continuous w2 = false /\ w_step_complete w2 = true) by (rewrite (D_frame _ _ _ _ _ _ D2); split; assumption).
    pose proof (D_bodies _ _ _ _ _ _ D2 me) as Bs. rewrite Hb1 in Bs. destruct (w_bodies w2 me) as [b2|] eqn:Hb2; [|discriminate]. cbn [option_map] in Bs. assert (Bk : bstrip b2 = bstrip b1) by congruence.
    destruct (bstrip_key _ _ Bk) as (B1 & B2 & B3 & B4 & B5 & B6). pose proof (D_flag _ _ _ _ _ _ D2 me) as Fl. rewrite app_nil_r in Fl. unfold bflag in Fl. rewrite Hb1, Hb2 in Fl.
    assert (Rel : forall (l : list nat) (Q : body R -> Prop) (v : world), (forall b, Q b -> b_type b = KinematicBody) -> G me Q v -> okp (each (fun j => mod_body j (fun b => if is_static b then mod_flags (set_fl_island false) b else b)) l v) (G me Q)).
    { intros l Q v QT Hv. apply okp_each; [|exact Hv]. intros j u Hu. apply G_body; [exact Hu|]. intros c Lc e. specialize (Lc e). unfold is_static. rewrite (QT c Lc). exact Lc. }
    destruct (in_dec Nat.eq_dec me (is_bodies is)) as [Hi|No].
    - destruct (D_in _ _ _ _ _ _ D2 me) as (F1 & _); [now rewrite app_nil_r|]. unfold bflag in F1. rewrite Hb1 in F1. specialize (Z0 F1). assert (F2 : fl_island (b_flags b2) = true) by (apply Fl; now right).
      assert (K2 : K1 b2) by (apply (K1_key b1); congruence).
      assert (Si : okp (solve_island E is h w2) (G me Q3)).
      { apply G_inside; [exact Hi|split; [|exact Fr]; exists b2; repeat split; try assumption; try apply K2; congruence|]. intros s Rs. destruct (In_nth_error _ _ Hi) as (n & Hn).
        assert (Ix : indexed w2 is) by (intros m k Hm; exact (D_index _ _ _ _ _ _ D2 m k Hm)). destruct (SP w2 is n Hn Ix) as (good & Js & Gj). destruct K2 as (X1 & X2 & X3 & X4 & X5).
        destruct (code_firm su good w2 is h s n me b2 Js Gj Ix (found_between w0 W0 _ _ _ _ _ _ _ _ H Hb Eaw Een Est Ef D2) Hn Hb2) as (Ca & _); [split; [rewrite B1, Ty; discriminate|exact X5]|exact Rs|].
        unfold carried in *. rewrite X1, X2, X3, X4 in Ca. exact Ca. }
      apply okp_bind. intros w3 R3. apply (okp_mono _ (G me Q3)); [apply Rel; [intros c (_ & T & _); exact T|exact (Si w3 R3)]|].
      intros v ((c & Hc & F & Q) & C). split; [|exact C]. exists c. split; [exact Hc|]. split; [apply Q|]. split; [congruence|now intros _].
    - assert (F2 : fl_island (b_flags b2) = fl_island (b_flags b1)). { destruct (fl_island (b_flags b2)), (fl_island (b_flags b1)); auto; [destruct (proj1 Fl eq_refl) as [X|X]; [discriminate|contradiction]|exact (proj2 Fl (or_introl eq_refl))]. }
      assert (J2 : G me QJ w2). { split; [|exact Fr]. exists b2. split; [exact Hb2|]. unfold QJ. rewrite F2. split; [congruence|]. split; intros F; [apply (K1_key b1); try congruence; auto|apply (Q2_key b1); try congruence; auto]. }
      apply okp_bind. intros w3 R3. apply Rel; [intros c (T & _); exact T|]. exact (G_outside E me QJ is h w2 No J2 w3 R3).
  Qed.
  Theorem J_solve : G me QF w0 -> okp (solve E h w0) (G me Q2).
  Proof.
    intros Hg. destruct (W_graph _ _ _ W0) as ((Tb & Ib & _) & IF & ((Tc & Ic & _) & _) & ((Tj & Ij & _) & _)). cbn in Ib, Ic, Ij. unfold solve. cbv zeta.
    pose proof (sat_clear True any w0 W0) as Sc. assert (Gc : okp (clear_island_flags w0) (G me QK)).
    { assert (G me QK w0) as Hk. { destruct Hg as ((b & Hb & T & K & _) & C). split; [|exact C]. exists b. repeat split; auto; apply K. }
      unfold clear_island_flags. apply okp_bind. apply (okp_mono _ (G me QK)); [apply okp_each; [|exact Hk]; intros j v Hv; apply G_body; [exact Hv|]; intros b Lb e; exact (Lb e)|].
      intros v1 V1. apply okp_bind. apply (okp_mono _ (G me QK)); [apply okp_each; [|exact V1]; intros j v Hv; unfold mod_contact; apply okp_skip; intros x; apply okp_ok; exact Hv|].
      intros v2 V2. apply okp_each; [|exact V2]; intros j v Hv; unfold mod_joint; apply okp_skip; intros x; apply okp_ok; exact Hv. }
    destruct (clear_island_flags w0) as [w1| |] eqn:R1; cbn [bind]; [|easy|easy]. specialize (Gc _ eq_refl). cbn [sat] in Sc. destruct Sc as (P1 & Lg1 & B1 & C1 & Fb & Fc & Fj). pose proof P1 as (L1 & _).
    assert (Bf : forall me, bflag w1 me = false). { intros k. destruct (w_bodies w0 k) as [x|] eqn:Ex; [apply Fb, Ib; cbn; now rewrite Ex|]. unfold bflag. specialize (B1 k). rewrite Ex in B1. now destruct (w_bodies w1 k). }
    assert (Cf : forall me, cflag w1 me = false). { intros k. destruct (w_contacts w0 k) as [x|] eqn:Ex; [apply Fc, Ic; cbn; now rewrite Ex|]. unfold cflag. specialize (C1 k). rewrite Ex in C1. now destruct (w_contacts w1 k). }
    assert (Jf : forall me, jflag w1 me = false). { intros k. destruct (w_joints w0 k) as [x|] eqn:Ex; [apply Fj, Ij; cbn; now rewrite Ex|]. unfold jflag. pose proof L1 as (_ & _ & _ & _ & _ & K). specialize (K k). rewrite Ex in K. now destruct (w_joints w1 k). }
    assert (S1 : seeds w1 [] [] w1).
    { split; auto; try easy.
      - intros k. rewrite Bf. split; [easy|]. now intros (_ & is & [] & _).
      - intros k. rewrite Cf. split; [easy|]. now intros (is & [] & _).
      - intros k. rewrite Jf. split; [easy|]. now intros (is & [] & _).
      - constructor.
      - intros c _. apply solid_eq; auto. intros x x' K1 K2. specialize (C1 c). rewrite K1, K2 in C1. cbn [option_map] in C1. assert (cstrip x' = cstrip x) as K by congruence. destruct (cstrip_view _ _ K) as (_ & A & B & _). auto.
      - intros k _ _. unfold awake_at. specialize (B1 k). destruct (w_bodies w1 k) as [x|], (w_bodies w0 k) as [y|]; cbn [option_map] in B1; try easy. assert (mod_flags (set_fl_island false) x = mod_flags (set_fl_island false) y) as K by congruence. destruct x as [? []], y as [? []]. unfold mod_flags in K. cbn in K. unfold is_awake. cbn. now inversion K. }
    assert (El : w_body_list w1 = w_body_list w0) by (destruct L1 as (K & _); unfold tables in K; congruence). rewrite El.
    assert (J1 : G me QJ w1). { destruct Gc as ((b & Hb & T & K) & C). split; [|exact C]. exists b. split; [exact Hb|]. specialize (Bf me). unfold bflag in Bf. rewrite Hb in Bf. split; [exact T|]. split; [now intros _|congruence]. }
    apply okp_bind. apply (okp_mono _ (G me Q2)); [|intros w2 H2; exact (G_after E me Q2 Q2_framed w2 H2)].
    apply (okp_mono _ (fun w => (exists iss, seeds w1 iss (w_body_list w0) w) /\ G me QJ w)).
    2: { intros w ((iss & S) & ((b & Hb & T & _ & Z) & C)). split; [|exact C]. exists b. split; [exact Hb|]. apply Z. destruct Hg as ((c & Hc & Tc' & _ & Aw & En) & _).
      assert (X : bflag w me = true).
      { apply (se_done _ _ _ _ _ _ _ S); [apply Ib; cbn; now rewrite Hc|unfold WorldSpec.moving|unfold enabled_at|unfold awake_at]; rewrite Hc; auto. unfold is_static. now rewrite Tc'. }
      unfold bflag in X. now rewrite Hb in X. }
    apply (each_okp (fun d w => (exists iss, seeds w1 iss d w) /\ G me QJ w)); [|split; [eauto|exact J1]].
    intros d k r w Ed ((iss & S) & K) w' R. split; [|exact (J_seed _ _ _ _ _ _ S K w' R)]. assert (Li : w_bodies w0 k <> None). { assert (In k (w_body_list w0)) as Hk by (rewrite Ed; apply in_app_iff; cbn; auto). apply Ib in Hk. cbn in Hk. now destruct (w_bodies w0 k). }
    pose proof (seed_ok True any Eb (env_any Eb (backed_answers su E0 EA)) w0 W0 w1 iss d w k h S Li) as So. rewrite (seed_agree su E0 (w_body_count w0) h k w w' R) in So. exact So.
  Qed.
End Solve.

Section Steps.
  Context {TT : NumTrig R} {VT : NumValid R} {J : Type} (su : setup R J).
  Notation world := (world R).
  Implicit Types w : world.
  Variable E0 : env R.
  Hypothesis EA : answers E0.
  Notation E := (with_code su E0).
  Notation Eb := (backed su E0).
  Theorem glide_step i : spared su i -> forall h w w' b, wreach E w -> w_continuous w = false -> w_step_complete w = true -> (0 < h)%R -> w_bodies w i = Some b -> gliding b -> wrun E (WStep h) w = Ok w' ->
    exists b', w_bodies w' i = Some b' /\ glides h b b'.
  Proof.
    intros SP h w w' b Hw Cn Sc Hh Hb (Ty & Aw & En) R. assert (K : G i (QF b) w).
    { split; [|split; assumption]. exists b. split; [exact Hb|]. split; [exact Ty|]. split; [|split; assumption]. repeat split; apply (reach_masses E w Hw i b Hb); rewrite Ty; discriminate. }
    cbn [wrun] in R. rewrite r_step_parts in R. apply bind_ok in R as (w2 & Rf & R).
    assert (W2 : W True any w2). { pose proof (front_checks True any Eb w (env_any Eb (backed_answers su E0 EA)) (reach_W Eb (backed_answers su E0 EA) w (reach_agree su E0 w Hw)) (CT w)) as Q. change (step_front E w = Ok w2) with (step_front Eb w = Ok w2) in Rf. rewrite Rf in Q. apply Q. }
    assert (K2 : G i (QF b) w2) by (exact (G_front E i (QF b) (QF_framed b) (QF_wake b) w K w2 Rf)).
    unfold step_back in R. pose proof K2 as (_ & C2 & S2). rewrite S2 in R. assert (nlt (nofZ 0) h = true) as L0 by (cbn; now apply Rlt_bool_true). rewrite L0 in R. cbn [andb] in R.
    apply bind_ok in R as (w3 & R3 & R). pose proof (J_solve su E0 EA i SP b h w2 W2 K2 w3 R3) as K3. pose proof K3 as (_ & C3 & _). rewrite C3 in R. cbn [andb bind] in R.
    pose proof (G_end i (Q2 b h) (Q2_framed b h) h w3 K3 w') as K4. cbv zeta in K4. rewrite L0 in K4. destruct (K4 R) as ((b' & Hb' & Q) & _). eauto.
  Qed.
End Steps.
