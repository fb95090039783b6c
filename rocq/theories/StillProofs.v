(** A static or kinematic body at rest stays where it is in a step with the island solver of the code. *)
From Coq Require Import List ZArith Bool Arith Lia Reals Lra.
From Verif Require Import Base Num NumLaws Math Collision Manifold Filter ShapeModel ListFacts TreeModel BroadModel DynModel DynSpec SolverModel IslandModel WorldModel WorldGraph WorldSpec WorldLogic WorldPhys WorldContact WorldInv WorldIsland WorldSolve WorldToi WorldStep WorldClaims WorldCalls WorldHist WorldFinal WorldAfter WorldReach NarrowModel SolverSpec SolveModel CrashSpec CrashWorld FlightSpec FirmSpec FirmProofs MassSpec MassProofs StillSpec.
Import ListNotations.

Lemma each_okp {A S} (I : list A -> S -> Prop) (g : A -> S -> res S) l : (forall d x r s, l = d ++ x :: r -> I d s -> okp (g x s) (I (d ++ [x]))) -> forall s, I [] s -> okp (each g l s) (I l).
Proof.
  intros H. assert (K : forall r d s, l = d ++ r -> I d s -> okp (each g r s) (I l)).
  { induction r as [|x r IH]; intros d s E Is; cbn [each]; [apply okp_ok; now rewrite E, app_nil_r|]. apply okp_bind. intros s1 R1. apply (IH (d ++ [x])); [now rewrite <- app_assoc|]. exact (H d x r s E Is s1 R1). }
  intros s Is. now apply (K l []).
Qed.

Section Still.
  Context {TT : NumTrig R} {VT : NumValid R} {J : Type} (su : setup R J).
  Notation T := R.
  Notation world := (world R).
  Implicit Types w : world.
  Variable E0 : env R.
  Hypothesis EA : answers E0.
  Notation E := (with_code su E0).
  Notation Eb := (backed su E0).
  Variable me : nat.
  Hypothesis SP : spared su me.
  Variable b0 : body R.
  Hypothesis Ty0 : b_type b0 <> DynamicBody.

  Definition Q (b : body R) : Prop := stays b0 b /\ infinite_mass b.
  Definition L (j : nat) (b : body R) : Prop := j = me -> Q b.
  Definition G w : Prop := (exists b, w_bodies w me = Some b /\ Q b) /\ w_continuous w = false.
  Lemma G_eq w w' : G w -> w_bodies w' = w_bodies w -> w_continuous w' = w_continuous w -> G w'.
  Proof. unfold G. intros H -> ->. exact H. Qed.
  Lemma G_put w j b : G w -> L j b -> G (put_body j b w).
  Proof. intros (H & C) Hb. split; [|exact C]. cbn. unfold put. destruct (Nat.eqb me j) eqn:Ej; [|exact H]. apply Nat.eqb_eq in Ej. exists b. split; [reflexivity|]. now apply Hb. Qed.
  Lemma G_get w j b : G w -> w_bodies w j = Some b -> L j b.
  Proof. intros ((c & Hc & Qc) & _) H ->. congruence. Qed.
  Lemma okp_get {A} w j (f : body T -> res A) P : G w -> (forall b, L j b -> okp (f b) P) -> okp (bind (get_body w j) f) P.
  Proof. intros H K. unfold get_body. destruct (w_bodies w j) as [b|] eqn:Hb; [|easy]. cbn [unwrap bind]. apply K. exact (G_get w j b H Hb). Qed.
  Lemma okp_seq {A} (m : res world) (f : world -> res A) P : okp m G -> (forall v, G v -> okp (f v) P) -> okp (bind m f) P.
  Proof. intros H K. apply okp_bind. intros v R. apply K. now apply H. Qed.
  Lemma okp_seq1 {A B} (m : res (world * A)) (f : world * A -> res B) P : okp m (fun st => G (fst st)) -> (forall v, G (fst v) -> okp (f v) P) -> okp (bind m f) P.
  Proof. intros H K. apply okp_bind. intros v R. apply K. now apply H. Qed.
  Lemma okp_seq2 {A B C} (m : res (world * A * B)) (f : world * A * B -> res C) P : okp m (fun st => G (fst (fst st))) -> (forall v, G (fst (fst v)) -> okp (f v) P) -> okp (bind m f) P.
  Proof. intros H K. apply okp_bind. intros v R. apply K. now apply H. Qed.
  Lemma G_body j f w : G w -> (forall b, L j b -> L j (f b)) -> okp (mod_body j f w) G.
  Proof. intros H K. unfold mod_body. apply okp_get; auto. intros b Hb. apply okp_ok. apply G_put; auto. Qed.
  Lemma G_each {A} (f : A -> world -> res world) l w : (forall x w, G w -> okp (f x w) G) -> G w -> okp (each f l w) G.
  Proof. intros Hf H. now apply okp_each. Qed.
  Lemma L_awake j f b : L j b -> L j (set_awake f b).
  Proof. intros H. unfold set_awake. destruct (is_static b); [exact H|]. destruct f; [exact H|]. intros e. destruct (H e) as ((A & B & C) & D). split; [|exact D]. split; [exact A|]. split; [split; reflexivity|exact C]. Qed.
  Ltac keep := intros; repeat match goal with
    | |- L _ (set_awake _ _) => apply L_awake
    | |- L _ (if ?c then _ else _) => destruct c
    | H : L _ _ |- L _ _ => exact H
    end.

  (** worlds *)
  Ltac gw := match goal with
    | |- G (put_body _ _ _) => apply G_put; [gw|keep]
    | H : G ?w |- G ?w => exact H
    | H : G ?w |- G ?w' => refine (G_eq w w' H _ _); reflexivity
    | |- G ?v => match v with context [put_body ?i ?b ?w] => refine (G_eq (put_body i b w) v _ eq_refl eq_refl); gw end
    end.
  Ltac walk1 := match goal with
    | |- okp (let _ := _ in _) _ => cbv zeta
    | |- okp (Ok _) _ => apply okp_ok; cbn [fst snd]; try gw
    | H : G ?w |- okp (bind (get_body ?v _) _) _ => apply (okp_get v); [gw|intros ? ?]
    | |- okp (bind (mod_body _ _ _) _) _ => apply okp_seq; [apply G_body; [gw|keep]|intros ? ?]
    | |- okp (mod_body _ _ _) _ => apply G_body; [gw|keep]
    | |- okp (mod_contact _ _ _) _ => unfold mod_contact
    | |- okp (mod_joint _ _ _) _ => unfold mod_joint
    | |- okp (if ?c then _ else _) _ => destruct c
    | |- okp (each _ _ _) G => apply G_each; [intros ? ? ?|gw]
    | |- okp (@bind _ _ ?m _) _ => match type of m with
        | res (WorldModel.world _) => apply okp_seq; [|intros ? ?]
        | res (WorldModel.world _ * _ * _) => apply okp_seq2; [|intros [[? ?] ?] ?; cbn [fst snd] in *]
        | res (WorldModel.world _ * _) => apply okp_seq1; [|intros [? ?] ?; cbn [fst snd] in *]
        | res (body _) => apply okp_made; [|intros ? ?]
        | res (_ * _) => apply okp_skip; intros [? ?]
        | _ => apply okp_skip; intros ?
        end
    end.
  Ltac walk := repeat walk1.
  Lemma G_listen e i w : G w -> okp (listen E e i w) G.
  Proof. intros H. unfold listen. walk. Qed.
  Lemma G_sync f a b w : G w -> okp (synchronize f a b w) G.
  Proof. intros H. unfold synchronize. walk. Qed.
  Lemma G_syncs i w : G w -> okp (synchronize_fixtures i w) G.
  Proof. intros H. unfold synchronize_fixtures. walk. now apply G_sync. Qed.
  Lemma G_link x w : G w -> okp (link_contact x w) G.
  Proof. intros H. unfold link_contact. walk. Qed.
  Lemma G_add_pair u v w : G w -> okp (add_pair E w u v) G.
  Proof. intros H. unfold add_pair. walk. apply G_link. gw. Qed.
  Lemma G_find w : G w -> okp (find_new_contacts E w) G.
  Proof.
    intros H. unfold find_new_contacts, update_pairs. cbv zeta. apply okp_bind. apply okp_skip. intros ps. apply okp_bind. intros w1 Q1. apply okp_skip. intros tr. apply okp_ok. apply okp_ok. enough (G w1) as H1 by gw.
    revert w1 Q1. apply (okp_range G); auto. intros x s Hs. apply okp_skip. intros q. apply okp_skip. intros ua. apply okp_skip. intros ub. now apply G_add_pair.
  Qed.
  Lemma G_wake c w : G w -> okp (wake_touching c w) G.
  Proof. intros H. unfold wake_touching. walk. Qed.
  Lemma G_destroy i w : G w -> okp (destroy_contact E i w) G.
  Proof. intros H. unfold destroy_contact. walk; try (now apply G_listen). apply G_wake. gw. Qed.
  Lemma G_update i w : G w -> okp (update_contact E i w) G.
  Proof.
    intros H. unfold update_contact. cbv zeta. apply okp_seq; [walk|]. intros w1 H1. do 7 (apply okp_skip; intros ?).
    match goal with |- okp (bind ?m _) _ => assert (K : okp m (fun st => G (fst st))) by (destruct (_ || _); repeat walk1) end.
    apply okp_seq1; [exact K|]. intros [v t] Hv. cbn [fst] in Hv. walk; now apply G_listen.
  Qed.
  Lemma G_collide w : G w -> okp (collide E w) G.
  Proof.
    intros H. unfold collide. apply okp_seq1; [|intros [v dead] Hv; apply G_each; auto; intros c v' Hv'; now apply G_destroy].
    apply (okp_each (fun st => G (fst st))); auto. intros i [v dead] Hv. cbn [fst] in Hv. unfold collide1. walk. now apply G_update.
  Qed.
  Lemma G_report l w : G w -> okp (report E l w) G.
  Proof. intros H. unfold report. walk. now apply G_listen. Qed.
  Definition Dd (st : world * island * list nat) : Prop := G (fst (fst st)).
  Lemma Dd_other o st : Dd st -> okp (visit_other o st) Dd.
  Proof. destruct st as [[w is] stack]. unfold Dd. cbn [fst snd]. intros H. unfold visit_other. walk. Qed.
  Lemma Dd_contact e st : Dd st -> okp (visit_contact e st) Dd.
  Proof. destruct st as [[w is] stack]. intros H. unfold visit_contact. unfold Dd in H. cbn [fst] in H. walk; try exact H. apply Dd_other. unfold Dd. cbn [fst]. gw. Qed.
  Lemma Dd_joint e st : Dd st -> okp (visit_joint e st) Dd.
  Proof. destruct st as [[w is] stack]. intros H. unfold visit_joint. unfold Dd in H. cbn [fst] in H. walk; try exact H. apply Dd_other. unfold Dd. cbn [fst]. gw. Qed.
  Lemma Dd_dfs1 i st : Dd st -> okp (dfs1 i st) Dd.
  Proof.
    destruct st as [[w is] stack]. intros H. unfold Dd in H. cbn [fst] in H. unfold dfs1. apply okp_get; auto. intros b Lb. apply okp_skip. intros _. unfold add_body. set (w1 := put_body i _ w). assert (G w1) as H1 by (apply G_put; [exact H|exact Lb]). clearbody w1. destruct (is_static b); [now apply okp_ok|].
    apply okp_seq; [apply G_body; [exact H1|keep]|]. intros w2 H2. apply okp_bind. apply (okp_mono _ Dd); [apply okp_each; auto; intros e st Hst; now apply Dd_contact|]. intros st Hst. apply okp_each; auto. intros e st' Hst'. now apply Dd_joint.
  Qed.
  Lemma Dd_dfs : forall fuel st, Dd st -> okp (dfs fuel st) Dd.
  Proof. induction fuel as [|fuel IH]; intros [[w is] [|i stack]] H; cbn [dfs]; try (now apply okp_ok); try easy. apply okp_bind. apply (okp_mono _ Dd); [|auto]. apply Dd_dfs1. exact H. Qed.

  Lemma G_clear w : G w -> okp (clear_forces w) G.
  Proof. intros H. unfold clear_forces. walk. Qed.
  Lemma G_front w : G w -> okp (step_front E w) G.
  Proof. intros H. unfold step_front. apply okp_seq; [destruct (w_new_contacts w); [apply okp_seq; [now apply G_find|intros v Hv; walk]|now apply okp_ok]|]. intros w1 H1. apply G_collide. gw. Qed.
  Lemma G_back dt w : G w -> okp (solve E dt w) G -> okp (step_back E dt w) G.
  Proof.
    intros H K. unfold step_back. apply okp_seq; [destruct (_ && _); [exact K|now apply okp_ok]|]. intros w3 H3. pose proof H3 as (_ & Cn). rewrite Cn. cbn [andb]. apply okp_seq; [now apply okp_ok|].
    intros w4 H4. set (w5 := if nlt (nofZ 0) dt then _ else w4). assert (G w5) as H5 by (unfold w5; destruct (nlt (nofZ 0) dt); gw). clearbody w5. apply okp_seq; [destruct (w_clear_forces w5); [now apply G_clear|now apply okp_ok]|]. intros w6 H6. apply okp_ok. gw.
  Qed.

  (** ** the solver *)
  Definition kept_there (s : WorldModel.solved R) : Prop := so_lv s = V2 0%R 0%R /\ so_av s = 0%R /\ so_c s = sw_c (b_sweep b0) /\ so_a s = sw_a (b_sweep b0).
  Lemma G_solve_island is dt w : G w -> (forall s, code_solve su w is dt = Ok s -> In me (is_bodies is) -> kept_there (so_body s me)) -> okp (solve_island E is dt w) G.
  Proof.
    intros H K. unfold solve_island. apply okp_bind. intros s Rs. cbn [e_solve with_code with_solver] in Rs. specialize (K s Rs). cbv zeta.
    apply okp_seq; [walk|]. intros w1 H1. apply okp_seq.
    { apply (each_okp (fun _ => G)); [|exact H1]. intros d j r v El Hv. apply G_body; [exact Hv|]. intros b Lb e. subst j. destruct (Lb eq_refl) as ((A & _ & _) & D). destruct K as (K1 & K2 & K3 & K4); [rewrite El; apply in_app_iff; cbn; auto|].
      split; [|exact D]. split; [exact A|]. split; [split; assumption|]. split; assumption. }
    intros w2 H2. apply okp_seq; [now apply G_report|]. intros w3 H3. walk.
  Qed.

  Variable w0 : world.
  Hypothesis W0 : W True any w0.
  Notation seeds := (seeds True any w0).
  Lemma found_between ini iss d w1 seed b w2 is : seeds ini iss d w1 -> w_bodies w1 seed = Some b -> is_awake b = true -> is_enabled b = true -> is_static b = false -> fl_island (b_flags b) = false ->
    D w1 (fun _ => False) seed w2 is [] -> forall c, In c (is_contacts is) -> between w2 is c.
  Proof.
    intros H Hb Aw En St Fl D2 c Hc. pose proof (se_phys _ _ _ _ _ _ _ H) as P1. pose proof P1 as (L1 & _).
    pose proof (seed_island w0 _ _ _ _ _ _ _ _ H Hb Aw En St Fl D2) as Is. pose proof (D_phys True any w0 _ _ _ _ _ _ P1 D2) as P2. pose proof P2 as (L2 & _). pose proof (W_phys _ _ _ _ W0 P2) as W2.
    destruct (D_cin _ _ _ _ _ _ D2 c Hc) as (Fc & So & _). pose proof (D_contacts _ _ _ _ _ _ D2 c) as Qc. destruct (w_contacts w2 c) as [x|] eqn:Ex; [|unfold solid in So; destruct (w_contacts w1 c); easy].
    destruct (W_graph _ _ _ W2) as (_ & _ & (_ & (_ & _ & Ends) & _) & _). destruct (Ends c) as (a & b' & Ha & Hb' & Ne); [cbn; now rewrite Ex|].
    assert (Ia : In a (is_bodies is)) by (apply (island_ends w0 seed is c true a Is Hc); now rewrite <- (cbody_links _ _ _ _ L2)).
    assert (Ib : In b' (is_bodies is)) by (apply (island_ends w0 seed is c false b' Is Hc); now rewrite <- (cbody_links _ _ _ _ L2)).
    unfold cbody, owner in Ha, Hb'. cbn in Ha, Hb'. rewrite Ex in Ha, Hb'. cbn in Ha, Hb'.
    destruct (w_fixtures w2 (c_fa x)) as [fa|] eqn:Hfa; [|discriminate]. destruct (w_fixtures w2 (c_fb x)) as [fb|] eqn:Hfb; [|discriminate]. cbn in Ha, Hb'.
    exists x, fa, fb, a, b'. auto 10.
  Qed.
  Lemma G_seed ini iss d w1 seed cap dt : seeds ini iss d w1 -> G w1 -> okp (solve_seed E cap dt seed w1) G.
  Proof.
    intros H Hg. pose proof (se_phys _ _ _ _ _ _ _ H) as P1. pose proof P1 as (L1 & _). pose proof (W_phys _ _ _ _ W0 P1) as W1. unfold solve_seed, get_body.
    destruct (w_bodies w1 seed) as [b|] eqn:Hb; cbn [unwrap bind]; [|easy].
    destruct (fl_island (b_flags b)) eqn:Ef; [now apply okp_ok|]. destruct (is_awake b) eqn:Eaw; cbn [negb orb]; [|now apply okp_ok].
    destruct (is_enabled b) eqn:Een; cbn [negb]; [|now apply okp_ok]. destruct (is_static b) eqn:Est; [now apply okp_ok|]. cbv zeta.
    pose proof (D_start w1 seed b Hb Ef Een) as D1.
    assert (S : sat True (dfs (Datatypes.S (w_body_count (put_body seed (mod_flags (set_fl_island true) b) w1))) (put_body seed (mod_flags (set_fl_island true) b) w1, Island [] [] [], [seed]))
      (fun q => let '(w', is', st') := q in D w1 (fun _ => False) seed w' is' [] /\ st' = [])).
    { eapply (dfs_ok True w1 (W_graph _ _ _ W1) (W_enabled _ _ _ W1) seed); [exact D1|cbn; lia]. }
    assert (Hd : okp (dfs (Datatypes.S (w_body_count (put_body seed (mod_flags (set_fl_island true) b) w1))) (put_body seed (mod_flags (set_fl_island true) b) w1, Island [] [] [], [seed])) Dd).
    { apply Dd_dfs. unfold Dd. cbn [fst]. apply G_put; [exact Hg|]. exact (G_get w1 seed b Hg Hb). }
    destruct (dfs _ _) as [[[w2 is] st]| |]; cbn [bind]; [|easy|easy]. cbn [sat] in S. destruct S as [D2 ->]. specialize (Hd _ eq_refl). unfold Dd in Hd. cbn [fst] in Hd.
    apply okp_skip. intros _. apply okp_seq; [|intros w3 H3; walk]. apply G_solve_island; [exact Hd|]. intros s Rs Hi. destruct (In_nth_error _ _ Hi) as (n & Hn).
    assert (Ix : indexed w2 is) by (intros m k Hm; exact (D_index _ _ _ _ _ _ D2 m k Hm)). destruct (SP w2 is n Hn Ix) as (good & Js & Gj). destruct Hd as ((bi & Hbi & (A & B & C & D) & F) & _).
    destruct (code_firm su good w2 is dt s n me bi Js Gj Ix (found_between _ _ _ _ _ _ _ _ H Hb Eaw Een Est Ef D2) Hn Hbi) as (Ca & _); [split; [congruence|exact F]|exact Rs|].
    destruct (rest_stays dt bi _ _ _ _ B Ca) as (R1 & R2 & R3 & R4). unfold kept_there. rewrite <- C, <- D. auto.
  Qed.
  Theorem G_solve dt : G w0 -> okp (solve E dt w0) G.
  Proof.
    intros Hg. destruct (W_graph _ _ _ W0) as ((Tb & Ib & _) & IF & ((Tc & Ic & _) & _) & ((Tj & Ij & _) & _)). cbn in Ib, Ic, Ij. unfold solve. cbv zeta.
    pose proof (sat_clear True any w0 W0) as Sc. assert (Gc : okp (clear_island_flags w0) G) by (unfold clear_island_flags; walk). destruct (clear_island_flags w0) as [w1| |] eqn:R1; cbn [bind]; [|easy|easy]. specialize (Gc _ eq_refl). cbn [sat] in Sc. destruct Sc as (P1 & Lg1 & B1 & C1 & Fb & Fc & Fj). pose proof P1 as (L1 & _).
    assert (Bf : forall me, bflag w1 me = false). { intros k. destruct (w_bodies w0 k) as [x|] eqn:Ex; [apply Fb, Ib; cbn; now rewrite Ex|]. unfold bflag. specialize (B1 k). rewrite Ex in B1. now destruct (w_bodies w1 k). }
    assert (Cf : forall me, cflag w1 me = false). { intros k. destruct (w_contacts w0 k) as [x|] eqn:Ex; [apply Fc, Ic; cbn; now rewrite Ex|]. unfold cflag. specialize (C1 k). rewrite Ex in C1. now destruct (w_contacts w1 k). }
    assert (Jf : forall me, jflag w1 me = false). { intros k. destruct (w_joints w0 k) as [x|] eqn:Ex; [apply Fj, Ij; cbn; now rewrite Ex|]. unfold jflag. pose proof L1 as (_ & _ & _ & _ & _ & K). specialize (K k). rewrite Ex in K. now destruct (w_joints w1 k). }
    assert (S1 : seeds w1 [] [] w1).
    { split; auto; try easy.
      - intros k. rewrite Bf. split; [easy|]. now intros (_ & is & [] & _).
      - intros k. rewrite Cf. split; [easy|]. now intros (is & [] & _).
      - intros k. rewrite Jf. split; [easy|]. now intros (is & [] & _).
      - constructor.
      - intros c _. apply solid_eq; auto. intros x x' K1 K2. specialize (C1 c). rewrite K1, K2 in C1. cbn [option_map] in C1. assert (cstrip x' = cstrip x) as K by congruence. destruct (cstrip_view _ _ K) as (_ & A & B & _). auto.
      - intros k _ _. unfold awake_at. specialize (B1 k). destruct (w_bodies w1 k) as [x|], (w_bodies w0 k) as [y|]; cbn [option_map] in B1; try easy. assert (mod_flags (set_fl_island false) x = mod_flags (set_fl_island false) y) as K by congruence. destruct x as [? []], y as [? []]. unfold mod_flags in K. cbn in K. unfold is_awake. cbn. now inversion K. }
    assert (El : w_body_list w1 = w_body_list w0) by (destruct L1 as (K & _); unfold tables in K; congruence). rewrite El.
    apply okp_seq; [|intros w2 H2; apply okp_seq; [unfold sync_moved; walk; now apply G_syncs|intros w3 H3; now apply G_find]].
    apply (okp_mono _ (fun w => (exists iss, seeds w1 iss (w_body_list w0) w) /\ G w)); [|now intros w (_ & K)].
    apply (each_okp (fun d w => (exists iss, seeds w1 iss d w) /\ G w)); [|split; [eauto|exact Gc]].
    intros d k r w Ed ((iss & S) & K) w' R. split; [|exact (G_seed _ _ _ _ _ _ _ S K w' R)]. assert (Li : w_bodies w0 k <> None). { assert (In k (w_body_list w0)) as Hk by (rewrite Ed; apply in_app_iff; cbn; auto). apply Ib in Hk. cbn in Hk. now destruct (w_bodies w0 k). }
    pose proof (seed_ok True any Eb (env_any Eb (backed_answers su E0 EA)) w0 W0 w1 iss d w k dt S Li) as So. rewrite (seed_agree su E0 (w_body_count w0) dt k w w' R) in So. exact So.
  Qed.
End Still.

Section Steps.
  Context {TT : NumTrig R} {VT : NumValid R} {J : Type} (su : setup R J).
  Notation world := (world R).
  Implicit Types w : world.
  Variable E0 : env R.
  Hypothesis EA : answers E0.
  Notation E := (with_code su E0).
  Notation Eb := (backed su E0).
  Lemma reach_agree w : wreach E w -> wreach Eb w.
  Proof. induction 1 as [l g w H|w c w' Hw IH R]; [eapply wreach_new; eauto|]. eapply wreach_call; [exact IH|]. apply run_agree. exact R. Qed.
  Theorem still_step i : spared su i -> forall h w w' b, wreach E w -> w_continuous w = false -> w_bodies w i = Some b -> resting b -> wrun E (WStep h) w = Ok w' ->
    w_continuous w' = false /\ exists b', w_bodies w' i = Some b' /\ stays b b'.
  Proof.
    intros SP h w w' b Hw Cn Hb (Ty & Re) R. assert (K : G i b w).
    { split; [|exact Cn]. exists b. split; [exact Hb|]. split; [repeat split; apply Re|]. exact (reach_masses E w Hw i b Hb Ty). }
    cbn [wrun] in R. rewrite r_step_parts in R. apply bind_ok in R as (w2 & Rf & R).
    assert (W2 : W True any w2). { pose proof (front_checks True any Eb w (env_any Eb (backed_answers su E0 EA)) (reach_W Eb (backed_answers su E0 EA) w (reach_agree w Hw)) (CT w)) as Q. change (step_front E w = Ok w2) with (step_front Eb w = Ok w2) in Rf. rewrite Rf in Q. apply Q. }
    assert (K2 : G i b w2) by (exact (G_front su E0 i b w K w2 Rf)).
    assert (K3 : G i b w'). { refine (G_back su E0 i b h w2 K2 _ w' R). exact (G_solve su E0 EA i SP b Ty w2 W2 h K2). }
    destruct K3 as ((b' & Hb' & S & _) & C). eauto.
  Qed.
  Theorem still_steps i : spared su i -> forall w w' b, wreach E w -> w_continuous w = false -> w_bodies w i = Some b -> resting b -> ticks E w w' -> exists b', w_bodies w' i = Some b' /\ stays b b'.
  Proof.
    intros SP w w' b Hw Cn Hb Re St. enough (K : wreach E w' /\ w_continuous w' = false /\ exists b', w_bodies w' i = Some b' /\ stays b b') by apply K. revert Hw Cn Hb.
    induction St as [w|w v w' h St IH R]; intros Hw Cn Hb; [split; [exact Hw|]; split; [exact Cn|]; exists b; split; [exact Hb|]; repeat split; apply Re|].
    destruct (IH Hw Cn Hb) as (Hv & Cv & b1 & Hb1 & S1). destruct S1 as (A1 & A2 & A3 & A4). destruct (still_step i SP h v w' b1 Hv Cv Hb1) as (C' & b' & Hb' & B1 & B2 & B3 & B4); [split; [rewrite A1; apply Re|exact A2]|exact R|].
    split; [eapply wreach_call; eauto|]. split; [exact C'|]. exists b'. split; [exact Hb'|]. split; [congruence|]. split; [exact B2|]. split; congruence.
  Qed.
End Steps.
