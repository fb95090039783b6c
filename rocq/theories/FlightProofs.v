(** A body without contacts and joints: what one step does to it. *)
From Coq Require Import List ZArith Bool Arith Lia.
From Verif Require Import Base ListFacts Num NumLaws Math Collision Manifold Filter ShapeModel TreeModel BroadModel DynModel SolverModel IslandModel WorldModel WorldClaims CoverLogic SleepProofs NarrowModel SolveModel WorldReach.
Import ListNotations.

Section Alone.
  Context {T : Type} `{NT : Num T} `{TT : NumTrig T} `{VT : NumValid T} {J : Type} (su : setup T J).
  Local Open Scope num_scope.

  (** ** an island of one body *)
  Definition next_vel (h : T) (b : body T) : vel T := cap_velocity h (integrate_velocity h (su_gravity su) b).
  Definition next_pos (h : T) (b : body T) : pos T := move h (body_pos b) (next_vel h b).
  Lemma no_velocity_work block step vels n : forall lo, for_from n lo (fun _ st => velocity_iteration (su_js su) block step st) ([], [], vels) = Ok ([], [], vels).
  Proof. induction n as [|n IH]; intros lo; cbn [for_from]; [reflexivity|]. unfold velocity_iteration at 1. cbn. apply IH. Qed.
  Lemma no_position_work step poss n : exists ok, position_iterations (su_js su) n step [] [] poss = Ok ([], poss, ok).
  Proof. induction n as [|n IH]; cbn; [eauto|]. destruct (_ && _); eauto. Qed.
  Lemma alone w i b dt : w_bodies w i = Some b -> exists s, code_solve su w (Island [i] [] []) dt = Ok s /\
    exists time, so_body s i = Solved (sw_c (b_sweep b)) (sw_a (b_sweep b)) (p_c (next_pos dt b)) (p_a (next_pos dt b)) (v_v (next_vel dt b)) (v_w (next_vel dt b)) time /\
      (fl_auto_sleep (b_flags b) = false -> is_static b = false -> ((#0 : T) >=? B2_TIME_TO_SLEEP) = false -> so_sleep s = false).
  Proof.
    intros Hb. unfold code_solve. cbn [is_bodies is_contacts is_joints map_res map]. unfold get_body. rewrite Hb. cbn [unwrap bind]. unfold island_solve. cbn [map make_constraints map_res bind]. unfold init_constraints. cbn [zip_res bind].
    assert (Wm : forall vels : list (vel T), (if ts_warm (the_step su dt w) then warm_start [] vels else Ok ([], vels)) = Ok ([], vels)) by (intros vels; now destruct (ts_warm _)).
    rewrite Wm. cbn [bind each_item]. unfold for_range. rewrite no_velocity_work. cbn [bind zip_res]. unfold integrate_positions. cbn [List.combine map fst snd].
    match goal with |- context [position_iterations _ ?n ?st [] [] ?p] => destruct (no_position_work st p n) as (okay & Eq) end.
    rewrite Eq. cbn [bind List.combine map fst snd ir_bodies ir_manifolds ir_solved sleep_bodies].
    match goal with |- context [sleep_body dt ?x B2_MAX_FLOAT] => set (b' := x) end. destruct (sleep_body dt b' B2_MAX_FLOAT) as [b2 m] eqn:Es. cbn [map]. eexists. split; [reflexivity|]. cbn [so_body alongside]. rewrite Nat.eqb_refl.
    assert (K : b_sweep b2 = b_sweep b' /\ b_lv b2 = b_lv b' /\ b_av b2 = b_av b'). { revert Es. unfold sleep_body. destruct (is_static b'); [|destruct (restless b')]; intros [= <- _]; auto. }
    destruct K as (K1 & K2 & K3). exists (b_sleep_time b2). split; [unfold solved_of; rewrite K1, K2, K3; reflexivity|]. intros Au St Z. cbn [so_sleep].
    replace m with (#0 : T); [now rewrite Z|]. revert Es. unfold sleep_body, restless. replace (is_static b') with (is_static b) by reflexivity. replace (fl_auto_sleep (b_flags b')) with (fl_auto_sleep (b_flags b)) by reflexivity. rewrite Au, St. cbn [negb orb]. now intros [= _ <-].
  Qed.
End Alone.

(** ** what the rest of the step does to body [i]; with [P] no fixture is on it *)
Section Rest.
  Context {T : Type} `{NT : Num T} `{TT : NumTrig T} `{VT : NumValid T}.
  Notation world := (world T).
  Implicit Types w v : world.
  Variable E : env T.
  Variables (i : nat) (P : Prop).

  Definition apart w : Prop := forall o x e, w_bodies w o = Some x -> In e (b_contacts x) \/ In e (b_joints x) -> ge_other e <> i.
  Definition bare w : Prop := forall f x, w_fixtures w f = Some x -> f_body x <> Some i.
  Definition K (b : body T) w : Prop := w_bodies w i = Some b /\ apart w /\ (P -> bare w) /\ In i (w_body_list w) /\ (P -> w_sub_stepping w = false /\ w_step_complete w = true).
  Definition fewer (x x' : body T) : Prop := forall e, In e (b_contacts x') \/ In e (b_joints x') -> ge_other e <> i \/ In e (b_contacts x) \/ In e (b_joints x).
  Lemma fewer_same x x' : b_contacts x' = b_contacts x -> b_joints x' = b_joints x -> fewer x x'.
  Proof. intros A B e. rewrite A, B. auto. Qed.
  Lemma K_put b w o x x' : K b w -> o <> i -> w_bodies w o = Some x -> fewer x x' -> K b (put_body o x' w).
  Proof.
    intros (A & B & C) Ne Hx F. split; [|split; [|exact C]].
    - cbn. unfold put. destruct (Nat.eqb_spec i o); [congruence|exact A].
    - intros k y e. cbn. unfold put. destruct (Nat.eqb_spec k o) as [->|]; [|apply B]. intros Q He. injection Q as <-. destruct (F e He) as [G|G]; [exact G|]. exact (B o x e Hx G).
  Qed.
  Lemma K_mod b w o g : K b w -> o <> i -> (forall x, b_contacts (g x) = b_contacts x) -> (forall x, b_joints (g x) = b_joints x) -> ok (mod_body o g w) (K b).
  Proof. intros H Ne A B. unfold mod_body. apply ok_bind, ok_unwrap. intros x Hx. apply ok_ok. eapply K_put; eauto. now apply fewer_same. Qed.
  Lemma K_fixture b w f x x' : K b w -> w_fixtures w f = Some x -> f_body x' = f_body x -> K b (put_fixture f x' w).
  Proof. intros (A & B & C & D) Hx Q. split; [exact A|]. split; [exact B|]. split; [|exact D]. intros p g y. cbn. unfold put. destruct (Nat.eqb_spec g f) as [->|]; [|now apply C]. intros S. injection S as <-. rewrite Q. eapply C; eauto. Qed.
  Lemma K_listen b w e c : K b w -> ok (listen E e c w) (K b).
  Proof. intros H. unfold listen. apply ok_bind, ok_any. intros x. apply ok_ok. exact H. Qed.
  Lemma K_contact b w c g : K b w -> ok (mod_contact c g w) (K b).
  Proof. intros H. unfold mod_contact. apply ok_bind, ok_any. intros x. apply ok_ok. exact H. Qed.
  Lemma K_joint b w c g : K b w -> ok (mod_joint c g w) (K b).
  Proof. intros H. unfold mod_joint. apply ok_bind, ok_any. intros x. apply ok_ok. exact H. Qed.
  Lemma K_other b w f o : P -> K b w -> fixture_body w f = Ok o -> o <> i.
  Proof. intros p (_ & _ & C & _) H ->. unfold fixture_body, get_fixture in H. destruct (w_fixtures w f) as [x|] eqn:Hx; [|discriminate]. cbn in H. destruct (f_body x) eqn:Hf; [|discriminate]. cbn in H. apply (C p f x Hx). congruence. Qed.
  Lemma K_other2 b w f x o : P -> K b w -> get_fixture w f = Ok x -> unwrap (f_body x) = Ok o -> o <> i.
  Proof. intros p H Q R. apply (K_other b w f o p H). unfold fixture_body. rewrite Q. exact R. Qed.

  Lemma get_in w o x : get_body w o = Ok x -> w_bodies w o = Some x.
  Proof. unfold get_body. destruct (w_bodies w o); cbn; congruence. Qed.
  Lemma got w f x : get_fixture w f = Ok x -> w_fixtures w f = Some x.
  Proof. unfold get_fixture. destruct (w_fixtures w f); cbn; congruence. Qed.
  Lemma awake_contacts f (b : body T) : b_contacts (set_awake f b) = b_contacts b.
  Proof. unfold set_awake. destruct (is_static b); [reflexivity|]. destruct f; reflexivity. Qed.
  Lemma awake_joints f (b : body T) : b_joints (set_awake f b) = b_joints b.
  Proof. unfold set_awake. destruct (is_static b); [reflexivity|]. destruct f; reflexivity. Qed.

  Ltac lists := intros; first [reflexivity | apply awake_contacts | apply awake_joints | now (match goal with |- context [if ?b then _ else _] => destruct b end)].
  Ltac noti := first [assumption | match goal with p : P, H : K ?b ?v, Q : fixture_body ?v ?f = Ok ?o |- ?o <> _ => exact (K_other b v f o p H Q)
    | p : P, H : K ?b ?v, Q : get_fixture ?v ?f = Ok ?x, R : unwrap (f_body ?x) = Ok ?o |- ?o <> _ => exact (K_other2 b v f x o p H Q R) end].
  Ltac leaf := cbn [fst snd]; first [assumption | exact Logic.I | match goal with H : K ?b _ |- K ?b _ => exact H end
    | match goal with H : K ?b ?v, Q : get_body ?v ?o = Ok ?x |- K ?b (put_body ?o _ _) => eapply (K_put b v o x); [exact H|noti|exact (get_in _ _ _ Q)|apply fewer_same; lists] end
    | match goal with H : K ?b ?v, Q : get_fixture ?v ?f = Ok ?x |- K ?b _ => eapply (K_fixture b v f x); [exact H|exact (got _ _ _ Q)|reflexivity] end ].
  Ltac prim := first [ apply K_mod; [leaf|noti|lists|lists] | apply K_joint; leaf | apply K_contact; leaf | apply K_listen; leaf ].
  Ltac walk1 b := cbv zeta; match goal with
    | |- ok (Ok _) _ => apply ok_ok; leaf
    | |- ok Panic _ => let a := fresh in let H := fresh in intros a H; discriminate H
    | |- ok Fuel _ => let a := fresh in let H := fresh in intros a H; discriminate H
    | |- ok (if ?c then _ else _) _ => destruct c
    | |- ok (match ?p with Datatypes.pair _ _ => _ end) _ => destruct p; cbn [fst snd] in *
    | |- ok (bind ?m _) _ => apply ok_bind;
        lazymatch type of m with
        | res (WorldModel.world T) => apply (ok_mono _ (K b)); [|let z := fresh "w" in let H := fresh "H" in intros z H]
        | res (WorldModel.world T * _)%type => apply (ok_mono _ (fun p => K b (fst p))); [|let z := fresh "w" in let r := fresh "r" in let H := fresh "H" in intros [z r] H; cbn [fst] in H]
        | res (WorldModel.world T * _ * _)%type => apply (ok_mono _ (fun p => K b (fst (fst p)))); [|let z := fresh "w" in let r := fresh "r" in let s := fresh "s" in let H := fresh "H" in intros [[z r] s] H; cbn [fst] in H]
        | _ => apply ok_eq; let a := fresh "a" in let H := fresh "Q" in intros a H
        end
    | |- ok (each _ _ _) (K b) => apply (ok_each (K b)); [let x := fresh "x" in let z := fresh "w" in let H := fresh "H" in intros x z _ H|leaf]
    | |- ok (each _ _ _) (fun p => K b (fst p)) => apply (ok_each (fun p => K b (fst p))); [let x := fresh "x" in let z := fresh "w" in let r := fresh "r" in let H := fresh "H" in intros x [z r] _ H; cbn [fst] in H|leaf]
    | |- ok (each _ _ _) (fun p => K b (fst (fst p))) => apply (ok_each (fun p => K b (fst (fst p)))); [let x := fresh "x" in let z := fresh "w" in let r := fresh "r" in let s := fresh "s" in let H := fresh "H" in intros x [[z r] s] _ H; cbn [fst] in H|leaf]
    | _ => prim
    end.
  Tactic Notation "walk" constr(b) := repeat (walk1 b).
  Tactic Notation "walk" constr(b) "by" tactic3(t) := repeat (first [t | walk1 b]).

  Lemma K_synchronize b w f xf1 xf2 : K b w -> ok (synchronize f xf1 xf2 w) (K b).
  Proof. intros H. unfold synchronize. walk b. Qed.
  Lemma K_sync b w o : K b w -> ok (synchronize_fixtures o w) (K b).
  Proof. intros H. unfold synchronize_fixtures. walk b. now apply K_synchronize. Qed.

  (** ** the islands of the others *)
  Definition D b (st : WorldModel.world T * island * list nat) : Prop := K b (fst (fst st)) /\ ~ In i (is_bodies (snd (fst st))) /\ ~ In i (snd st).
  Lemma D_other b o st : o <> i -> D b st -> ok (visit_other o st) (D b).
  Proof.
    destruct st as [[w is] l]. intros Ne (H & A & B). cbn in H, A, B. unfold visit_other. apply ok_bind, ok_eq. intros x Hx. destruct (fl_island _); apply ok_ok; [easy|]. split; [|split]; cbn; auto.
    - eapply K_put; eauto using get_in. now apply fewer_same.
    - intros [Q|Q]; auto.
  Qed.
  Lemma D_contact b e st : ge_other e <> i -> D b st -> ok (visit_contact e st) (D b).
  Proof.
    destruct st as [[w is] l]. intros Ne (H & A & B). cbn in H, A, B. unfold visit_contact. apply ok_bind, ok_any. intros c. destruct (cf_island _); [now apply ok_ok|]. destruct (_ || _); [now apply ok_ok|].
    apply ok_bind, ok_any. intros fa. apply ok_bind, ok_any. intros fb. destruct (_ || _); [now apply ok_ok|]. apply D_other; auto. now split.
  Qed.
  Lemma D_joint b e st : ge_other e <> i -> D b st -> ok (visit_joint e st) (D b).
  Proof.
    destruct st as [[w is] l]. intros Ne (H & A & B). cbn in H, A, B. unfold visit_joint. apply ok_bind, ok_any. intros c. destruct (j_island _); [now apply ok_ok|].
    apply ok_bind, ok_any. intros fa. destruct (negb _); [now apply ok_ok|]. apply D_other; auto. now split.
  Qed.
  Lemma D_one b o w is l : D b (w, is, o :: l) -> ok (dfs1 o (w, is, l)) (D b).
  Proof.
    intros (H & A & B). cbn in H, A, B. assert (Ne : o <> i) by (intros ->; apply B; now left). unfold dfs1. apply ok_bind, ok_eq. intros x Hx. apply ok_bind, ok_any. intros _. unfold add_body.
    assert (H1 : K b (put_body o (set_b_island_index (Z.of_nat (length (is_bodies is))) x) w)) by (eapply K_put; eauto using get_in; now apply fewer_same).
    assert (A1 : ~ In i (is_bodies is ++ [o])) by (rewrite in_app_iff; cbn; intuition).
    assert (Ed : forall e, In e (b_contacts x) \/ In e (b_joints x) -> ge_other e <> i) by (intros e He; exact (proj1 (proj2 H) o x e (get_in _ _ _ Hx) He)).
    destruct (is_static x); [apply ok_ok; split; [exact H1|split; [exact A1|cbn; tauto]]|]. apply ok_bind. eapply ok_mono; [apply K_mod with (b := b); [exact H1|exact Ne|lists|lists]|]. intros w1 H2.
    apply ok_bind. eapply ok_mono; [apply (ok_each (D b)); [intros e st He; apply D_contact; auto|split; [exact H2|split; [exact A1|cbn; tauto]]]|].
    intros st Hst. apply (ok_each (D b)); [intros e s He; apply D_joint; auto|exact Hst].
  Qed.
  Lemma D_dfs b n : forall st, D b st -> ok (dfs n st) (D b).
  Proof.
    induction n as [|n IH]; intros [[w is] l] H; cbn [dfs]; destruct l as [|o l]; try (now apply ok_ok); [intros a Q; discriminate|]. apply ok_bind. eapply ok_mono; [apply D_one, H|]. intros st Hst. now apply IH.
  Qed.
  Lemma K_bodies b l (g : nat -> body T -> body T) w : ~ In i l -> (forall o x, b_contacts (g o x) = b_contacts x) -> (forall o x, b_joints (g o x) = b_joints x) -> K b w ->
    ok (each (fun o => mod_body o (g o)) l w) (K b).
  Proof. intros N A B H. apply (ok_each (K b)); [|exact H]. intros o v Ho Hv. apply K_mod; auto. intros ->. contradiction. Qed.
  Lemma K_report b cs w : K b w -> ok (report E cs w) (K b).
  Proof. intros H. unfold report. walk b. Qed.
  Lemma K_island b is dt w : ~ In i (is_bodies is) -> K b w -> ok (solve_island E is dt w) (K b).
  Proof.
    intros N H. unfold solve_island. apply ok_bind, ok_any. intros s. cbv zeta. walk1 b; [walk b|]. walk1 b; [apply K_bodies; auto; lists|]. walk1 b; [now apply K_report|]. destruct (w_allow_sleep w2); [|now apply ok_ok].
    walk1 b; [apply (K_bodies b _ (fun o x => if is_static x then x else set_b_sleep_time (so_time (so_body s o)) x)); auto; lists|]. destruct (so_sleep s); [|now apply ok_ok]. apply (K_bodies b _ (fun o => set_awake false)); auto; lists.
  Qed.
  Lemma K_seed b cap dt o w : o <> i -> K b w -> ok (solve_seed E cap dt o w) (K b).
  Proof.
    intros Ne H. unfold solve_seed. apply ok_bind, ok_eq. intros x Hx. destruct (fl_island _); [now apply ok_ok|]. destruct (_ || _); [now apply ok_ok|]. destruct (is_static x); [now apply ok_ok|]. cbv zeta.
    assert (H1 : K b (put_body o (mod_flags (set_fl_island true) x) w)) by (eapply K_put; eauto using get_in; now apply fewer_same).
    apply ok_bind. eapply ok_mono; [apply (D_dfs b); split; [exact H1|split; cbn; intuition]|]. intros [[w2 is] l] (H2 & N & _). cbn in H2, N. apply ok_bind, ok_any. intros _. walk1 b; [now apply K_island|].
    apply (K_bodies b _ (fun o x => if is_static x then mod_flags (set_fl_island false) x else x)); auto; lists.
  Qed.

  (** ** its own island *)
  Context {J : Type} (su : setup T J).
  Hypothesis CS : solves_as_code su E.
  Definition lasting (b : body T) := (b_type b, b_mass b, b_inv_mass b, b_inv_i b, b_linear_damping b, b_angular_damping b, b_gravity_scale b, sw_local_center (b_sweep b), fl_enabled (b_flags b), fl_auto_sleep (b_flags b), b_joints b).
  Definition unpushed (b b' : body T) : Prop := (b_force b' = b_force b \/ b_force b' = vzero) /\ (b_torque b' = b_torque b \/ b_torque b' = (#0)%num).
  Definition flown dt (b b' : body T) : Prop :=
    lasting b' = lasting b /\ sw_c (b_sweep b') = p_c (next_pos su dt b) /\ sw_a (b_sweep b') = p_a (next_pos su dt b) /\
    (is_awake b' = true -> b_lv b' = v_v (next_vel su dt b) /\ b_av b' = v_w (next_vel su dt b)) /\ unpushed b b' /\
    (fl_auto_sleep (b_flags b) = false -> ((#0 : T) >=? B2_TIME_TO_SLEEP)%num = false -> is_awake b' = true).
  Lemma K_self b w b' : K b w -> fewer b b' -> K b' (put_body i b' w).
  Proof.
    intros (A & B & C) F. split; [|split; [|exact C]].
    - cbn. unfold WorldModel.put. now rewrite Nat.eqb_refl.
    - intros k y e. cbn. unfold WorldModel.put. destruct (Nat.eqb_spec k i) as [->|]; [|apply B]. intros Q He. injection Q as <-. destruct (F e He) as [G|G]; [exact G|]. exact (B i b e A G).
  Qed.
  Lemma K_own b g w : K b w -> b_contacts (g b) = b_contacts b -> b_joints (g b) = b_joints b -> ok (mod_body i g w) (K (g b)).
  Proof. intros H A B. unfold mod_body. apply ok_bind, ok_eq. intros x Hx. apply get_in in Hx. destruct H as (H & H'). assert (x = b) by congruence. subst x. apply ok_ok. apply (K_self b); [now split|]. now apply fewer_same. Qed.
  Lemma one_each {S} (f : nat -> S -> res S) s : each f [i] s = f i s.
  Proof. cbn. now destruct (f i s). Qed.
  Lemma no_each {S} (f : nat -> S -> res S) s : each f [] s = Ok s.
  Proof. reflexivity. Qed.
  Lemma own_dfs b n w : K b w -> is_enabled b = true -> is_static b = false -> b_contacts b = [] -> b_joints b = [] ->
    ok (dfs (S n) (w, Island [] [] [], [i])) (fun st => snd (fst st) = Island [i] [] [] /\ K (mod_flags (set_fl_awake true) (set_b_island_index 0 b)) (fst (fst st))).
  Proof.
    intros H En St Co Jo. cbn [dfs]. unfold dfs1, get_body. rewrite (proj1 H). cbn [unwrap bind]. rewrite En. cbn [b2_assert bind add_body is_bodies length Z.of_nat app]. rewrite St, Co, Jo. apply ok_bind, ok_bind.
    assert (H1 : K (set_b_island_index 0 b) (put_body i (set_b_island_index 0 b) w)) by (apply (K_self b); [exact H|now apply fewer_same]).
    eapply ok_mono; [exact (K_own _ (mod_flags (set_fl_awake true)) _ H1 eq_refl eq_refl)|]. intros w2 H2. cbn [each bind]. apply ok_ok. destruct n; apply ok_ok; now split.
  Qed.
  Lemma own_seed b cap dt w : K b w -> is_awake b = true -> is_enabled b = true -> is_static b = false -> b_contacts b = [] -> b_joints b = [] -> fl_island (b_flags b) = false ->
    ok (solve_seed E cap dt i w) (fun w' => exists b', K b' w' /\ flown dt b b' /\ fl_island (b_flags b') = true /\ b_contacts b' = []).
  Proof.
    intros H Aw En St Co Jo Fi. unfold solve_seed, get_body. rewrite (proj1 H). cbn [unwrap bind]. rewrite Fi, Aw, En, St. cbn [negb orb]. cbv zeta. set (b0 := mod_flags (set_fl_island true) b).
    assert (H0 : K b0 (put_body i b0 w)) by (apply (K_self b); [exact H|now apply fewer_same]). apply ok_bind. eapply ok_mono; [exact (own_dfs b0 _ _ H0 En St Co Jo)|].
    intros [[w1 is] st] (Ei & H1). cbn [fst snd] in Ei, H1. subst is. cbn [is_bodies]. apply ok_bind, ok_any. intros _. set (b1 := mod_flags _ _) in H1. clear st.
    assert (X : ok (solve_island E (Island [i] [] []) dt w1) (fun w' => exists b', K b' w' /\ flown dt b b' /\ fl_island (b_flags b') = true /\ b_contacts b' = [])).
    { unfold solve_island. destruct (alone su w1 i b1 dt (proj1 H1)) as (s & Es & time & Eb & Ez). rewrite (CS _ _ _ _ Es). cbn [bind is_bodies is_contacts is_joints]. cbv zeta. rewrite no_each. cbn [bind]. rewrite one_each. rewrite Eb. set (sol := Solved _ _ _ _ _ _ _).
      apply ok_bind. eapply ok_mono; [eapply (K_own b1 (apply_solved sol)); [exact H1|reflexivity|reflexivity]|]. intros w2 H2. set (b2 := apply_solved sol b1) in H2.
      apply ok_bind. eapply ok_mono; [apply (K_report b2); exact H2|]. intros w3 H3.
      assert (F2 : flown dt b b2) by (split; [reflexivity|]; split; [reflexivity|]; split; [reflexivity|]; split; [now split|]; split; [now split; left|now intros]).
      destruct (w_allow_sleep w3); [|apply ok_ok; exists b2; exact (conj H3 (conj F2 (conj eq_refl Co)))]. rewrite one_each. set (g := fun x => if is_static x then x else _).
      assert (G : g b2 = set_b_sleep_time (so_time (so_body s i)) b2) by (unfold g; change (is_static b2) with (is_static b); now rewrite St).
      apply ok_bind. eapply ok_mono; [eapply (K_own b2 g); [exact H3|now rewrite G|now rewrite G]|]. rewrite G. intros w4 H4. set (b3 := set_b_sleep_time _ _) in H4. assert (F3 : flown dt b b3) by exact F2.
      destruct (so_sleep s) eqn:Sl; [|apply ok_ok; exists b3; exact (conj H4 (conj F3 (conj eq_refl Co)))]. rewrite one_each. eapply ok_mono; [eapply (K_own b3 (set_awake false)); [exact H4|apply awake_contacts|apply awake_joints]|].
      intros w5 H5. exists (set_awake false b3). split; [exact H5|]. assert (Q : forall A (f : body T -> A), f (set_awake false b3) = f (set_b_torque #0 (set_b_force vzero (set_b_av #0 (set_b_lv vzero (set_b_sleep_time #0 (mod_flags (set_fl_awake false) b3))))))%num) by (intros A f; unfold set_awake; change (is_static b3) with (is_static b); now rewrite St).
      unfold flown, unpushed, lasting, is_awake. rewrite !Q. repeat split; try discriminate; try (now right); try exact Co. intros Au Z. specialize (Ez Au St Z). congruence. }
    apply ok_bind. eapply ok_mono; [exact X|]. intros w2 (b' & H2 & F & I2 & C2). rewrite one_each. assert (St' : is_static b' = false) by (destruct F as (L & _); unfold is_static in *; injection L as L0; now rewrite L0).
    set (g := fun x => if is_static x then _ else x). assert (G : g b' = b') by (unfold g; now rewrite St').
    eapply ok_mono; [eapply (K_own b' g); [exact H2|now rewrite G|now rewrite G]|]. rewrite G. intros w3 H3. exists b'. auto.
  Qed.
  Lemma K_clear b w : K b w -> ok (clear_island_flags w) (K (mod_flags (set_fl_island false) b)).
  Proof.
    intros H. unfold clear_island_flags. set (b0 := mod_flags (set_fl_island false) b). apply ok_bind.
    apply (ok_mono _ (fun v => exists x, K (mod_flags (set_fl_island x) b) v /\ (In i [] \/ x = false))).
    - apply (ok_each_pos (fun l v => exists x, K (mod_flags (set_fl_island x) b) v /\ (In i l \/ x = false))).
      + intros o r v (x & Hv & Ho). destruct (Nat.eq_dec o i) as [->|Ne].
        * eapply ok_mono; [eapply (K_own _ (mod_flags (set_fl_island false))); [exact Hv|reflexivity|reflexivity]|]. intros v' Hv'. exists false. split; [exact Hv'|auto].
        * eapply ok_mono; [eapply (K_mod _ v o (mod_flags (set_fl_island false))); [exact Hv|exact Ne|lists|lists]|]. intros v' Hv'. exists x. split; [exact Hv'|]. destruct Ho as [[->|Ho]|Ho]; auto. congruence.
      + exists (fl_island (b_flags b)). split; [|left; exact (proj1 (proj2 (proj2 (proj2 H))))]. replace (mod_flags _ b) with b; [exact H|]. destruct b as [? []]; reflexivity.
    - intros v (x & Hv & [[]| ->]). fold b0 in Hv. walk b0.
  Qed.
  Definition ready (b : body T) : Prop := is_awake b = true /\ is_enabled b = true /\ is_static b = false /\ b_contacts b = [] /\ b_joints b = [].
  Lemma K_seeds b cap dt w : K b w -> ready b -> fl_island (b_flags b) = false ->
    ok (each (solve_seed E cap dt) (w_body_list w) w) (fun w' => exists b', K b' w' /\ flown dt b b' /\ b_contacts b' = []).
  Proof.
    intros H (Aw & En & St & Co & Jo) Fi.
    apply (ok_mono _ (fun v => (K b v /\ In i []) \/ exists b', K b' v /\ flown dt b b' /\ fl_island (b_flags b') = true /\ b_contacts b' = [])).
    - apply (ok_each_pos (fun l v => (K b v /\ In i l) \/ exists b', K b' v /\ flown dt b b' /\ fl_island (b_flags b') = true /\ b_contacts b' = [])).
      + intros o r v [(Hv & Ho)|(b' & Hv & F & I2 & C2)].
        * destruct (Nat.eq_dec o i) as [->|Ne]; [eapply ok_mono; [now apply own_seed with (b := b)|]; auto|]. eapply ok_mono; [now apply K_seed with (b := b)|]. intros v' Hv'. left. split; [exact Hv'|]. destruct Ho; [congruence|assumption].
        * destruct (Nat.eq_dec o i) as [->|Ne]; [unfold solve_seed, get_body; rewrite (proj1 Hv); cbn [unwrap bind]; rewrite I2; apply ok_ok; right; eauto|]. eapply ok_mono; [now apply K_seed with (b := b')|]. intros v' Hv'. right. eauto.
      + left. split; [exact H|exact (proj1 (proj2 (proj2 (proj2 H))))].
    - intros v [(_ & [])|(b' & Hv & F & _ & C2)]. eauto.
  Qed.
  Lemma K_moved b w : K b w -> ok (sync_moved w) (K b).
  Proof. intros H. unfold sync_moved. walk b. now apply K_sync. Qed.

  (** ** no fixture on the body *)
  Section Bare.
    Variable p : P.
    Lemma K_wake b w c : K b w -> ok (wake_touching c w) (K b).
    Proof. intros H. unfold wake_touching. walk b. Qed.
    Lemma K_edges b w o x s c l : K b w -> o <> i -> get_body w o = Ok x -> remove_edge c s (b_contacts x) = Ok l -> K b (put_body o (set_b_contacts l x) w).
    Proof.
      intros H Ne Q R. eapply K_put; eauto using get_in. unfold remove_edge in R. destruct (existsb _ _); [|discriminate]. injection R as <-. intros e [Q1|Q1]; [|auto]. apply filter_In in Q1 as (Q1 & _). auto.
    Qed.
    Lemma K_destroy b w c : K b w -> ok (destroy_contact E c w) (K b).
    Proof.
      intros H. unfold destroy_contact. walk1 b. walk1 b. walk1 b. walk1 b; [walk b|]. walk1 b. cbv zeta.
      assert (Na : a0 <> i) by noti. assert (Nb : a1 <> i) by noti. apply ok_bind, ok_eq. intros x Hx. apply ok_bind, ok_eq. intros la Hl.
      assert (H1 : K b (put_body a0 (set_b_contacts la x) (set_w_contact_list a2 w0))) by (eapply K_edges; eauto; exact H0). revert H1. generalize (put_body a0 (set_b_contacts la x) (set_w_contact_list a2 w0)). intros w1 H1.
      apply ok_bind, ok_eq. intros y Hy. apply ok_bind, ok_eq. intros lb Hl'. assert (H2 : K b (put_body a1 (set_b_contacts lb y) w1)) by (eapply K_edges; eauto). revert H2. generalize (put_body a1 (set_b_contacts lb y) w1). intros w2 H2.
      walk b by (apply K_wake; leaf).
    Qed.
    Lemma K_update b w c : K b w -> ok (update_contact E c w) (K b).
    Proof. intros H. unfold update_contact. walk b. Qed.
    Lemma K_link b w c : K b w -> ok (link_contact c w) (K b).
    Proof.
      intros H. unfold link_contact. cbv zeta. apply ok_bind, ok_eq. intros a Ha. apply ok_bind, ok_eq. intros o Ho.
      assert (Na : a <> i) by (eapply K_other; [exact p| |exact Ha]; exact H). assert (No : o <> i) by (eapply K_other; [exact p| |exact Ho]; exact H).
      assert (A : forall k s c' v, k <> i -> K b v -> forall t, t <> i -> ok (mod_body t (fun x => set_b_contacts (GEdge c' s k :: b_contacts x) x) v) (K b)).
      { intros k s c' v Nk Hv t Nt. unfold mod_body. apply ok_bind, ok_eq. intros x Hx. apply ok_ok. eapply K_put; eauto using get_in. intros e [[<-|Q]|Q]; auto. }
      apply ok_bind. eapply ok_mono; [apply A; [exact No|exact H|exact Na]|]. intros w1 H1. apply ok_bind. eapply ok_mono; [apply A; [exact Na|exact H1|exact No]|]. intros w2 H2. apply ok_ok. exact H2.
    Qed.
    Lemma K_pair b w (u u' : option (nat * nat)) : K b w -> ok (add_pair E w u u') (K b).
    Proof. intros H. unfold add_pair. walk b by (apply K_link; leaf). Qed.
    Lemma K_find b w : K b w -> ok (find_new_contacts E w) (K b).
    Proof. intros H. unfold find_new_contacts. apply ok_bind. eapply ok_mono; [apply (ok_pairs _ _ _ (K b)); [exact H|intros s u v; apply K_pair]|]. intros [bp w1] H1. now apply ok_ok. Qed.
    Lemma K_collide b w : K b w -> ok (collide E w) (K b).
    Proof. intros H. unfold collide. walk b by (apply K_destroy; leaf). unfold collide1. walk b by (apply K_update; leaf). Qed.
    Lemma K_front b w : K b w -> ok (step_front E w) (K b).
    Proof. intros H. unfold step_front. walk b by (first [apply K_find; leaf | apply K_collide; leaf]). Qed.
    (** ** the continuous phase *)
    Lemma advance_lists al (x x' : body T) : body_advance al x = Ok x' -> b_contacts x' = b_contacts x /\ b_joints x' = b_joints x.
    Proof. unfold body_advance. destruct (sweep_advance _ _); [|easy|easy]. cbn [bind]. intros [= <-]. now split. Qed.
    Lemma K_advance b w o x x' al : K b w -> o <> i -> get_body w o = Ok x -> body_advance al x = Ok x' -> K b (put_body o x' w).
    Proof. intros H Ne Q R. destruct (advance_lists _ _ _ R). eapply K_put; eauto using get_in. now apply fewer_same. Qed.
    Lemma K_scan b c w best al : K b w -> ok (toi_scan1 E c (w, best, al)) (fun q => K b (fst (fst q))).
    Proof. intros H. unfold toi_scan1. walk b by (idtac; match goal with |- ok (Ok (if ?c then _ else _)) _ => destruct c; apply ok_ok; leaf end). Qed.
    Definition KI b (q : WorldModel.world T * island) : Prop := K b (fst q) /\ ~ In i (is_bodies (snd q)).
    Lemma KI_join b o al e q : ge_other e <> i -> KI b q -> ok (toi_join E o al e q) (KI b).
    Proof.
      destruct q as [w is]. intros Ne (H & N). cbn in H, N. unfold toi_join. cbv zeta. apply ok_bind, ok_any. intros c. destruct (cf_island _); [now apply ok_ok|]. apply ok_bind, ok_eq. intros x Hx. apply ok_bind, ok_any. intros y.
      destruct (_ && _); [now apply ok_ok|]. apply ok_bind, ok_any. intros fa. apply ok_bind, ok_any. intros fb. destruct (_ || _); [now apply ok_ok|].
      walk1 b. { destruct (fl_island _); [now apply ok_ok|]. apply ok_bind, ok_eq. intros x' Hx'. apply ok_ok. eapply K_advance; eauto. }
      walk1 b; [now apply K_update|]. apply ok_bind, ok_any. intros c'. destruct (_ || _). { walk1 b; [apply K_mod; auto|]. apply ok_ok. now split. }
      apply ok_bind, ok_eq. intros o' Ho'. destruct (fl_island _); apply ok_ok; [now split|]. split; [|cbn; rewrite in_app_iff; cbn; intuition].
      apply get_in in Ho'. cbn in Ho'. eapply (K_put b (put_contact (ge_item e) _ w1) _ o'); [exact H1|exact Ne|exact Ho'|]. apply fewer_same; cbn [set_b_island_index b_contacts b_joints]; destruct (is_static _); rewrite ?awake_contacts, ?awake_joints; reflexivity.
    Qed.
    Lemma KI_grow b o al q : KI b q -> ok (toi_grow E o al q) (KI b).
    Proof.
      destruct q as [w is]. intros H. unfold toi_grow. apply ok_bind, ok_eq. intros x Hx. destruct (is_dynamic x); [|now apply ok_ok]. apply (ok_each (KI b)); [|exact H].
      intros e q He. apply KI_join. exact (proj1 (proj2 (proj1 H)) o x e (get_in _ _ _ Hx) (or_introl He)).
    Qed.
    Lemma K_toi_island b is ia ib dt w : ~ In i (is_bodies is) -> K b w -> ok (solve_toi_island E is ia ib dt w) (K b).
    Proof.
      intros N H. unfold solve_toi_island. do 4 (apply ok_bind, ok_any; intros ?). apply ok_bind, ok_any. intros s. cbv zeta. walk1 b; [apply K_bodies; auto; lists|]. now apply K_report.
    Qed.
    Lemma K_release b o w : o <> i -> K b w -> ok (toi_release o w) (K b).
    Proof. intros Ne H. unfold toi_release. walk b by (apply K_sync; leaf). Qed.
    Lemma K_event b c al dt w : K b w -> ok (toi_event E c al dt w) (fun q => K b (fst q)).
    Proof.
      intros H. unfold toi_event. apply ok_bind, ok_any. intros x. apply ok_bind, ok_eq. intros o Ho. apply ok_bind, ok_eq. intros o' Ho'. assert (Na : o <> i) by noti. assert (Nb : o' <> i) by noti.
      apply ok_bind, ok_eq. intros ba Hba. apply ok_bind, ok_any. intros bb0. cbv zeta. apply ok_bind, ok_eq. intros ba' Ha. assert (H1 : K b (put_body o ba' w)) by (eapply K_advance; eauto).
      apply ok_bind, ok_eq. intros bb Hbb. apply ok_bind, ok_eq. intros bb' Hb. assert (H2 : K b (put_body o' bb' (put_body o ba' w))) by (eapply K_advance; eauto).
      walk1 b; [now apply K_update|]. walk1 b; [walk b|]. apply ok_bind, ok_any. intros x'. destruct (_ || _). { walk b. }
      walk1 b; [walk b|]. walk1 b; [walk b|]. apply ok_bind, ok_eq. intros y Hy. unfold add_body at 1. cbv beta iota zeta. cbn [is_bodies length app].
      assert (H6 : K b (put_body o (set_b_island_index (Z.of_nat 0) y) w3)) by leaf.
      apply ok_bind, ok_eq. intros z Hz. unfold add_body. cbv beta iota zeta. cbn [is_bodies is_contacts is_joints length app].
      assert (H7 : K b (put_body o' (set_b_island_index (Z.of_nat 1) z) (put_body o (set_b_island_index (Z.of_nat 0) y) w3))) by leaf.
      walk1 b; [walk b|]. walk1 b; [walk b|]. walk1 b; [walk b|]. apply ok_bind. eapply ok_mono; [apply (KI_grow b); split; [eassumption|cbn; intuition]|]. intros q Hq. apply ok_bind. eapply ok_mono; [apply (KI_grow b); exact Hq|].
      intros [v is] (Hv & N). cbn in Hv, N. apply ok_bind, ok_any. intros ?. apply ok_bind, ok_any. intros ?. walk1 b; [now apply K_toi_island|].
      walk1 b; [apply (ok_each (K b)); [|assumption]; intros k u Hk Hu; apply K_release; auto; intros ->; contradiction|]. walk1 b; [now apply K_find|]. now apply ok_ok.
    Qed.
    Lemma K_toi b dt n : forall w, K b w -> ok (toi_loop E n dt w) (K b).
    Proof.
      assert (Fin : forall v, K b v -> K b (set_w_step_complete true v)) by (intros v (A & B & C & D0 & F); split; [exact A|]; split; [exact B|]; split; [exact C|]; split; [exact D0|]; intros q; split; [exact (proj1 (F q))|reflexivity]).
      induction n as [|n IH]; intros w H; cbn [toi_loop]; [intros a Q; discriminate|]. walk1 b. { apply (ok_each (fun q => K b (fst (fst q)))); [|exact H]. intros c [[v best] al] _ Hv. now apply K_scan. }
      destruct r as [mc|]; [|apply ok_ok; auto]. destruct (nlt _ _); [apply ok_ok; auto|]. walk1 b; [now apply K_event|].
      destruct (r && w_sub_stepping _) eqn:Q; [|now apply IH]. apply andb_true_iff in Q as (_ & Q). destruct H1 as (_ & _ & _ & _ & F). destruct (F p). congruence.
    Qed.
    Definition calm (b b' : body T) : Prop := exists al x, b' = set_sw (with_alpha0 al) (mod_flags (set_fl_island x) b).
    Lemma calm_refl b : calm b b.
    Proof. exists (sw_alpha0 (b_sweep b)), (fl_island (b_flags b)). destruct b as [? [] ? ? []]. reflexivity. Qed.
    Lemma K_reset b w : K b w -> ok (toi_reset w) (fun w' => exists b', K b' w' /\ calm b b').
    Proof.
      intros H. unfold toi_reset. apply ok_bind. eapply ok_mono.
      - apply (ok_each (fun v => exists b', K b' v /\ calm b b')); [|exists b; split; [exact H|apply calm_refl]]. intros o v _ (b' & Hv & Cb). set (g := fun x => set_sw _ _). destruct (Nat.eq_dec o i) as [->|Ne].
        + eapply ok_mono; [eapply (K_own b' g); [exact Hv|reflexivity|reflexivity]|]. intros v' Hv'. exists (g b'). split; [exact Hv'|]. destruct Cb as (al & x & ->). exists (#0)%num, false. reflexivity.
        + eapply ok_mono; [eapply (K_mod b' v o g); [exact Hv|exact Ne|lists|lists]|]. intros v' Hv'. eauto.
      - intros v (b' & Hv & Cb). apply (ok_mono _ (K b')); [walk b'|]. intros v' Hv'. eauto.
    Qed.
    Lemma K_solve_toi b dt w : K b w -> ok (solve_toi E dt w) (fun w' => exists b', K b' w' /\ calm b b').
    Proof.
      intros H. unfold solve_toi. destruct H as (A & B & C & D0 & F). destruct (F p) as (_ & Fc). rewrite Fc. apply ok_bind. eapply ok_mono; [apply (K_reset b); exact (conj A (conj B (conj C (conj D0 F))))|].
      intros v (b' & Hv & Cb). eapply ok_mono; [apply (K_toi b'), Hv|]. eauto.
    Qed.
    Lemma K_forces b w : K b w -> ok (clear_forces w) (fun w' => exists b', K b' w' /\ (b' = b \/ b' = set_b_torque #0 (set_b_force vzero b))%num).
    Proof.
      intros H. unfold clear_forces. apply (ok_each (fun v => exists b', K b' v /\ (b' = b \/ b' = set_b_torque #0 (set_b_force vzero b))%num)); [|exists b; auto].
      intros o v _ (b' & Hv & Cb). set (g := fun x => set_b_torque _ _). destruct (Nat.eq_dec o i) as [->|Ne].
      - eapply ok_mono; [eapply (K_own b' g); [exact Hv|reflexivity|reflexivity]|]. intros v' Hv'. exists (g b'). split; [exact Hv'|]. right. destruct Cb as [-> | ->]; reflexivity.
      - eapply ok_mono; [eapply (K_mod b' v o g); [exact Hv|exact Ne|lists|lists]|]. intros v' Hv'. eauto.
    Qed.
    Lemma flown_calm dt b b' b'' : flown dt b b' -> calm b' b'' -> flown dt b b''.
    Proof. intros F (al & x & ->). exact F. Qed.
    Lemma flown_forces dt b b' b'' : flown dt b b' -> (b'' = b' \/ b'' = set_b_torque #0 (set_b_force vzero b'))%num -> flown dt b b''.
    Proof. intros F [-> | ->]; [exact F|]. destruct F as (A & B & C & G & U & V). repeat (split; [assumption|]). split; [split; now right|exact V]. Qed.
    Theorem bare_step b dt w w' : K b w -> ready b -> nlt (nofZ 0) dt = true -> step E dt w = Ok w' -> exists b', K b' w' /\ flown dt b b' /\ b_contacts b' = [].
    Proof.
      intros H Rd Pd. rewrite r_step_parts. apply (ok_bind _ _ (fun w' => exists b', K b' w' /\ flown dt b b' /\ b_contacts b' = [])). eapply ok_mono; [apply (K_front b), H|]. clear H. intros w2 H2. unfold step_back. rewrite Pd.
      destruct H2 as (A & B & C & D0 & F). destruct (F p) as (Fs & Fc). assert (H2 : K b w2) by exact (conj A (conj B (conj C (conj D0 F)))). rewrite Fc. cbn [andb].
      apply ok_bind. apply (ok_mono _ (fun w' => exists b', K b' w' /\ flown dt b b' /\ b_contacts b' = [])).
      { unfold solve. cbv zeta. apply ok_bind. eapply ok_mono; [apply (K_clear b), H2|]. intros w3 H3. apply ok_bind. eapply ok_mono; [apply (K_seeds (mod_flags (set_fl_island false) b) _ dt w3 H3); [exact Rd|reflexivity]|]. intros w4 (b' & H4 & F4 & C4).
        apply ok_bind. eapply ok_mono; [apply (K_moved b'), H4|]. intros w5 H5. eapply ok_mono; [apply (K_find b'), H5|]. intros w6 H6. exists b'. split; [exact H6|]. split; [exact F4|exact C4]. }
      intros w3 (b' & H3 & F3 & C3). apply ok_bind. apply (ok_mono _ (fun w' => exists b', K b' w' /\ flown dt b b' /\ b_contacts b' = [])).
      { destruct (w_continuous w3 && true); [|apply ok_ok; eauto]. eapply ok_mono; [apply (K_solve_toi b'), H3|]. intros v (b'' & Hv & Cb). exists b''. split; [exact Hv|]. split; [eapply flown_calm; eauto|]. destruct Cb as (al & x & ->). exact C3. }
      clear w3 b' H3 F3 C3. intros w3 (b' & H3 & F3 & C3). cbv zeta. apply ok_bind. apply (ok_mono _ (fun w' => exists b', K b' w' /\ flown dt b b' /\ b_contacts b' = [])).
      { destruct (w_clear_forces _); [|apply ok_ok; exists b'; split; [exact H3|now split]]. eapply ok_mono; [apply (K_forces b'); exact H3|]. intros v (b'' & Hv & Cb). exists b''. split; [exact Hv|]. split; [eapply flown_forces; eauto|]. destruct Cb as [-> | ->]; exact C3. }
      intros w4 (b2 & H4 & F4 & C4). apply ok_ok. exists b2. split; [exact H4|now split].
    Qed.
  End Bare.
End Rest.
