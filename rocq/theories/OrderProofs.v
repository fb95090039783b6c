(** Every contact has its two fixtures in the order of its contact class. *)
From Coq Require Import List ZArith Bool Arith Lia.
From Verif Require Import Base ListFacts Num NumLaws Math Collision Manifold Filter ShapeModel TreeModel TreeSpec BroadModel DynModel WorldModel WorldGraph WorldClaims WorldLogic WorldPhys WorldContact WorldInv WorldSolve WorldToi WorldStep WorldCalls WorldHist WorldFinal WorldAfter WorldNews WorldReach CoverLogic SleepProofs FrontSpec.
Import ListNotations.

Section Order.
  Context {T : Type} `{NT : Num T} `{TT : NumTrig T} `{VT : NumValid T}.
  Notation world := (world T).
  Implicit Types w v : world.
  Variable E : env T.

  Definition rightly w (k : nat * nat * (nat * nat)) : Prop :=
    exists x y, w_fixtures w (fst (fst k)) = Some x /\ w_fixtures w (fst (snd k)) = Some y /\ register (shape_type (f_shape x)) (shape_type (f_shape y)) = Some true.
  (* the fixtures have the shapes they had, the contacts are in order *)
  Definition O w0 w : Prop :=
    (forall f x, w_fixtures w f = Some x -> exists y, w_fixtures w0 f = Some y /\ f_shape y = f_shape x) /\ (forall c x, w_contacts w c = Some x -> rightly w0 (pair_key x)).
  Lemma O_contact w0 w i c c' : O w0 w -> w_contacts w i = Some c -> pair_key c' = pair_key c -> O w0 (put_contact i c' w).
  Proof. intros (A & B) Hc K. split; [exact A|]. intros j x. cbn. unfold put. destruct (Nat.eqb_spec j i) as [->|]; [|apply B]. intros Q. injection Q as <-. rewrite K. eauto. Qed.
  Lemma O_lost w0 w i : O w0 w -> O w0 (set_w_contacts (put (w_contacts w) i None) w).
  Proof. intros (A & B). split; [exact A|]. intros j x. cbn. unfold put. destruct (Nat.eqb_spec j i) as [->|]; [discriminate|apply B]. Qed.
  Lemma O_fixture w0 w f x x' : O w0 w -> w_fixtures w f = Some x -> f_shape x' = f_shape x -> O w0 (put_fixture f x' w).
  Proof. intros (A & B) Hx K. split; [|exact B]. intros j y. cbn. unfold put. destruct (Nat.eqb_spec j f) as [->|]; [|apply A]. intros Q. injection Q as <-. rewrite K. eauto. Qed.
  Lemma O_gone w0 w f : O w0 w -> O w0 (set_w_fixtures (put (w_fixtures w) f None) w).
  Proof. intros (A & B). split; [|exact B]. intros j x. cbn. unfold put. destruct (Nat.eqb_spec j f) as [->|]; [discriminate|apply A]. Qed.
  Lemma O_mod_body w0 w i g : O w0 w -> ok (mod_body i g w) (O w0).
  Proof. intros H. unfold mod_body. apply ok_bind, ok_any. intros b. apply ok_ok. exact H. Qed.
  Lemma O_mod_joint w0 w i g : O w0 w -> ok (mod_joint i g w) (O w0).
  Proof. intros H. unfold mod_joint. apply ok_bind, ok_any. intros b. apply ok_ok. exact H. Qed.
  Lemma O_mod_contact w0 w i g : O w0 w -> (forall c, pair_key (g c) = pair_key c) -> ok (mod_contact i g w) (O w0).
  Proof. intros H K. unfold mod_contact. apply ok_bind, ok_unwrap. intros c Hc. apply ok_ok. eapply O_contact; eauto. Qed.
  Lemma O_listen w0 w e i : O w0 w -> ok (listen E e i w) (O w0).
  Proof. intros H. unfold listen. apply ok_bind, ok_unwrap. intros c Hc. apply ok_ok. change (O w0 (put_contact i (apply_edit (e_listen E w e c) c) w)). eapply O_contact; eauto. Qed.

  (** ** a walk through a program: [O] holds all the way *)
  Ltac key := intros; first [reflexivity | now (match goal with |- context [if ?b then _ else _] => destruct b end)].
  Ltac leaf := cbn [fst snd]; first [assumption | exact I | match goal with H : O ?w0 _ |- O ?w0 _ => exact H end
    | match goal with H : O ?w0 ?v, K : get_contact ?v ?i = Ok ?c |- O ?w0 _ => eapply (O_contact w0 v i c); [exact H|unfold get_contact in K; destruct (w_contacts v i); cbn in K; congruence|reflexivity] end
    | match goal with H : O ?w0 ?v, K : get_fixture ?v ?i = Ok ?c |- O ?w0 _ => eapply (O_fixture w0 v i c); [exact H|unfold get_fixture in K; destruct (w_fixtures v i); cbn in K; congruence|reflexivity] end
    | match goal with H : O ?w0 ?v |- O ?w0 (set_w_contacts (put _ ?i None) _) => exact (O_lost w0 v i H) end
    | match goal with H : O ?w0 ?v |- O ?w0 (set_w_fixtures (put _ ?i None) _) => exact (O_gone w0 v i H) end ].
  Ltac prim := first
    [ apply O_mod_body; leaf | apply O_mod_joint; leaf | apply O_mod_contact; [leaf|key] | apply O_listen; leaf ].
  Ltac walk1 w0 := cbv zeta; match goal with
    | |- ok (Ok _) _ => apply ok_ok; leaf
    | |- ok Panic _ => let a := fresh in let H := fresh in intros a H; discriminate H
    | |- ok Fuel _ => let a := fresh in let H := fresh in intros a H; discriminate H
    | |- ok (if ?b then _ else _) _ => destruct b
    | |- ok (match ?p with pair _ _ => _ end) _ => destruct p; cbn [fst snd] in *
    | |- ok (bind ?m _) _ => apply ok_bind;
        lazymatch type of m with
        | res (WorldModel.world T) => apply (ok_mono _ (O w0)); [|let z := fresh "w" in let H := fresh "H" in intros z H]
        | res (WorldModel.world T * _)%type => apply (ok_mono _ (fun p => O w0 (fst p))); [|let z := fresh "w" in let r := fresh "r" in let H := fresh "H" in intros [z r] H; cbn [fst] in H]
        | res (WorldModel.world T * _ * _)%type => apply (ok_mono _ (fun p => O w0 (fst (fst p)))); [|let z := fresh "w" in let r := fresh "r" in let s := fresh "s" in let H := fresh "H" in intros [[z r] s] H; cbn [fst] in H]
        | res dstate => apply (ok_mono _ (fun p => O w0 (fst (fst p)))); [|let z := fresh "w" in let r := fresh "r" in let s := fresh "s" in let H := fresh "H" in intros [[z r] s] H; cbn [fst] in H]
        | _ => apply ok_eq; let a := fresh "a" in let H := fresh "Q" in intros a H
        end
    | |- ok (each _ _ _) (O w0) => apply (ok_each (O w0)); [let x := fresh "x" in let z := fresh "w" in let H := fresh "H" in intros x z _ H|leaf]
    | |- ok (each _ _ _) (fun p => O w0 (fst p)) => apply (ok_each (fun p => O w0 (fst p))); [let x := fresh "x" in let z := fresh "w" in let r := fresh "r" in let H := fresh "H" in intros x [z r] _ H; cbn [fst] in H|leaf]
    | |- ok (each _ _ _) (fun p => O w0 (fst (fst p))) => apply (ok_each (fun p => O w0 (fst (fst p)))); [let x := fresh "x" in let z := fresh "w" in let r := fresh "r" in let s := fresh "s" in let H := fresh "H" in intros x [[z r] s] _ H; cbn [fst] in H|leaf]
    | _ => prim
    end.
  Tactic Notation "walk" constr(w0) := repeat (walk1 w0).
  Tactic Notation "walk" constr(w0) "by" tactic3(t) := repeat (first [t | walk1 w0]).

  Lemma O_create_proxies w0 w f xf : O w0 w -> ok (create_proxies f xf w) (O w0).
  Proof. intros H. unfold create_proxies. walk w0. Qed.
  Lemma O_destroy_proxies w0 w f : O w0 w -> ok (destroy_proxies f w) (O w0).
  Proof. intros H. unfold destroy_proxies. walk w0. Qed.
  Lemma O_synchronize w0 w f xf1 xf2 : O w0 w -> ok (synchronize f xf1 xf2 w) (O w0).
  Proof. intros H. unfold synchronize. walk w0. Qed.
  Lemma O_touch w0 w f : O w0 w -> ok (touch_proxies f w) (O w0).
  Proof. intros H. unfold touch_proxies. walk w0. Qed.
  Lemma O_sync w0 w i : O w0 w -> ok (synchronize_fixtures i w) (O w0).
  Proof. intros H. unfold synchronize_fixtures. walk w0. now apply O_synchronize. Qed.
  Lemma O_wake w0 w c : O w0 w -> ok (wake_touching c w) (O w0).
  Proof. intros H. unfold wake_touching. walk w0. Qed.
  Lemma O_destroy_contact w0 w i : O w0 w -> ok (destroy_contact E i w) (O w0).
  Proof. intros H. unfold destroy_contact. walk w0 by (apply O_wake; leaf). Qed.
  Lemma O_update w0 w i : O w0 w -> ok (update_contact E i w) (O w0).
  Proof. intros H. unfold update_contact. walk w0. Qed.
  Lemma O_create w0 w fa ia fb ib c : O w0 w -> contact_create w fa ia fb ib = Ok c -> rightly w0 (pair_key c).
  Proof.
    intros (A & _) H. unfold contact_create, get_fixture in H. destruct (w_fixtures w fa) as [x|] eqn:Hx; [|discriminate]. destruct (w_fixtures w fb) as [y|] eqn:Hy; [|discriminate]. cbn [unwrap bind] in H.
    destruct (A _ _ Hx) as (x0 & X0 & X1), (A _ _ Hy) as (y0 & Y0 & Y1). destruct (register (shape_type (f_shape x)) (shape_type (f_shape y))) as [pr|] eqn:R; [|discriminate]. cbn [unwrap bind] in H. injection H as <-. destruct pr.
    - exists x0, y0. cbn. rewrite X1, Y1. auto.
    - exists y0, x0. cbn. rewrite X1, Y1. refine (conj Y0 (conj X0 _)). revert R. generalize (shape_type (f_shape x)) (shape_type (f_shape y)). intros [|[|[|[|s]]]] [|[|[|[|t]]]]; cbn; congruence.
  Qed.
  Lemma O_link w0 w c : O w0 w -> rightly w0 (pair_key c) -> ok (link_contact c w) (O w0).
  Proof.
    intros (A & B) K. assert (H : O w0 (put_contact (w_next_contact w) c w)). { split; [exact A|]. intros j x. cbn. unfold put. destruct (Nat.eqb_spec j (w_next_contact w)) as [->|]; [|apply B]. intros Q. injection Q as <-. exact K. }
    unfold link_contact. walk w0.
  Qed.
  Lemma O_pair w0 w (u u' : option (nat * nat)) : O w0 w -> ok (add_pair E w u u') (O w0).
  Proof. intros H. unfold add_pair. walk w0 by (apply O_link; [leaf|eapply O_create; [|eassumption]; leaf]). Qed.
  Lemma O_find w0 w : O w0 w -> ok (find_new_contacts E w) (O w0).
  Proof. intros H. unfold find_new_contacts. apply ok_bind. eapply ok_mono; [apply (ok_pairs _ _ _ (O w0)); [exact H|intros s u v; apply O_pair]|]. intros [bp w1] H1. now apply ok_ok. Qed.
  Lemma O_collide w0 w : O w0 w -> ok (collide E w) (O w0).
  Proof.
    intros H. unfold collide. walk w0 by (apply O_destroy_contact; leaf). unfold collide1. walk w0 by (apply O_update; leaf).
  Qed.
  Lemma O_flag w0 w a b : O w0 w -> ok (flag_contacts a b w) (O w0).
  Proof. intros H. unfold flag_contacts. walk w0. Qed.
  Lemma O_create_joint w0 w a b cc : O w0 w -> ok (create_joint a b cc w) (fun p => O w0 (fst p)).
  Proof. intros H. unfold create_joint. walk w0 by (apply O_flag; leaf). Qed.
  Lemma O_destroy_joint w0 w i : O w0 w -> ok (destroy_joint i w) (O w0).
  Proof. intros H. unfold destroy_joint. walk w0 by (apply O_flag; leaf). Qed.
  Lemma O_reset w0 w i : O w0 w -> ok (reset_mass i w) (O w0).
  Proof. intros H. unfold reset_mass. walk w0. Qed.
  Lemma O_destroy_fixture w0 w i f : O w0 w -> ok (destroy_fixture E i f w) (O w0).
  Proof. intros H. unfold destroy_fixture. walk w0 by (first [apply O_destroy_contact; leaf | apply O_destroy_proxies; leaf | apply O_reset; match goal with H : O w0 ?v |- _ => exact (O_gone w0 v f H) end]). Qed.
  Lemma O_refilter w0 w f : O w0 w -> ok (refilter f w) (O w0).
  Proof. intros H. unfold refilter. walk w0. destruct (f_body a); [|now apply ok_ok]. walk w0 by (apply O_touch; leaf). Qed.
  Lemma O_filter w0 w f d : O w0 w -> ok (set_filter_data f d w) (O w0).
  Proof. intros H. unfold set_filter_data. walk w0 by (apply O_refilter; leaf). Qed.
  Lemma O_destroys w0 w i l : O w0 w -> ok (destroy_contacts E i l w) (O w0).
  Proof. intros H. unfold destroy_contacts. walk w0 by (apply O_destroy_contact; leaf). Qed.
  Lemma O_destroy_body w0 w i : O w0 w -> ok (destroy_body E i w) (O w0).
  Proof. intros H. unfold destroy_body. walk w0 by (first [apply O_destroy_joint; destruct (w_goodbye _); leaf | apply O_destroys; leaf | apply O_destroy_proxies; destruct (w_goodbye _); leaf]). Qed.
  Lemma O_type w0 w i ty : O w0 w -> ok (set_type E i ty w) (O w0).
  Proof. intros H. unfold set_type. walk w0 by (first [apply O_sync; leaf | apply O_destroys; leaf | apply O_touch; leaf]). Qed.
  Lemma O_enabled w0 w i flag : O w0 w -> ok (set_enabled E i flag w) (O w0).
  Proof. intros H. unfold set_enabled. walk w0 by (first [apply O_create_proxies; leaf | apply O_destroys; leaf | apply O_destroy_proxies; leaf]). Qed.
  Lemma O_transform w0 w i p a : O w0 w -> ok (set_transform i p a w) (O w0).
  Proof. intros H. unfold set_transform. walk w0 by (apply O_synchronize; leaf). Qed.
  Lemma O_shift w0 w o : O w0 w -> ok (world_shift o w) (O w0).
  Proof. intros H. unfold world_shift. walk w0. Qed.
  Lemma O_sleeping w0 w f : O w0 w -> ok (set_allow_sleeping f w) (O w0).
  Proof. intros H. unfold set_allow_sleeping. walk w0. Qed.

  (** ** the step *)
  Lemma O_report w0 w cs : O w0 w -> ok (report E cs w) (O w0).
  Proof. intros H. unfold report. walk w0. Qed.
  Lemma O_island w0 w is dt : O w0 w -> ok (solve_island E is dt w) (O w0).
  Proof. intros H. unfold solve_island. walk w0 by (apply O_report; leaf). Qed.
  Definition Od w0 (st : dstate) : Prop := O w0 (fst (fst st)).
  Lemma O_visit_other w0 o st : Od w0 st -> ok (visit_other o st) (Od w0).
  Proof. destruct st as [[w is] stack]. intros H. unfold visit_other, Od in *. cbn [fst] in H. walk w0. Qed.
  Lemma O_visit_contact w0 e st : Od w0 st -> ok (visit_contact e st) (Od w0).
  Proof. destruct st as [[w is] stack]. intros H. unfold visit_contact. unfold Od in H. cbn [fst] in H. walk w0 by (apply O_visit_other; unfold Od; leaf). Qed.
  Lemma O_visit_joint w0 e st : Od w0 st -> ok (visit_joint e st) (Od w0).
  Proof. destruct st as [[w is] stack]. intros H. unfold visit_joint. unfold Od in H. cbn [fst] in H. walk w0 by (apply O_visit_other; unfold Od; leaf). Qed.
  Lemma O_dfs1 w0 i st : Od w0 st -> ok (dfs1 i st) (Od w0).
  Proof.
    destruct st as [[w is] stack]. intros H. unfold dfs1. unfold Od in H. cbn [fst] in H. apply ok_bind, ok_any. intros b. apply ok_bind, ok_any. intros _. unfold add_body. destruct (is_static b); [apply ok_ok; exact H|]. apply ok_bind. eapply ok_mono; [apply O_mod_body; exact H|]. intros w1 H1.
    apply ok_bind. apply (ok_mono _ (Od w0)); [apply (ok_each (Od w0)); [intros e s _; apply O_visit_contact|exact H1]|]. intros st H2. apply (ok_each (Od w0)); [intros e s _; apply O_visit_joint|exact H2].
  Qed.
  Lemma O_dfs w0 fuel : forall st, Od w0 st -> ok (dfs fuel st) (Od w0).
  Proof.
    induction fuel as [|fuel IH]; intros [[w is] stack] H; destruct stack as [|i stack]; cbn [dfs]; try (apply ok_ok; exact H); [intros a Q; discriminate Q|]. apply ok_bind. eapply ok_mono; [apply O_dfs1; exact H|]. exact IH.
  Qed.
  Lemma O_seed w0 w cap dt seed : O w0 w -> ok (solve_seed E cap dt seed w) (O w0).
  Proof. intros H. unfold solve_seed. walk w0 by (first [apply O_dfs; exact H | apply O_island; leaf]). Qed.
  Lemma O_solve w0 w dt : O w0 w -> ok (solve E dt w) (O w0).
  Proof. intros H. unfold solve, clear_island_flags, sync_moved. walk w0 by (first [apply O_seed; leaf | apply O_sync; leaf | apply O_find; leaf]). Qed.
  Lemma O_scan1 w0 i st : O w0 (fst (fst st)) -> ok (toi_scan1 E i st) (fun p => O w0 (fst (fst p))).
  Proof. destruct st as [[w best] al]. intros H. unfold toi_scan1. cbn [fst] in H. walk w0; apply ok_ok. all: match goal with |- context [if ?b then _ else _] => destruct b end. all: try leaf. Qed.
  Lemma O_join w0 i al e st : O w0 (fst st) -> ok (toi_join E i al e st) (fun p => O w0 (fst p)).
  Proof. destruct st as [w is]. intros H. unfold toi_join, add_body. cbn [fst] in H. walk w0 by (apply O_update; leaf). Qed.
  Lemma O_grow w0 i al st : O w0 (fst st) -> ok (toi_grow E i al st) (fun p => O w0 (fst p)).
  Proof. destruct st as [w is]. intros H. unfold toi_grow. cbn [fst] in H. apply ok_bind, ok_any. intros b. destruct (is_dynamic b); [|now apply ok_ok]. apply (ok_each (fun p => O w0 (fst p))); [intros e s _; apply O_join|exact H]. Qed.
  Lemma O_toi_island w0 w is a b dt : O w0 w -> ok (solve_toi_island E is a b dt w) (O w0).
  Proof. intros H. unfold solve_toi_island. walk w0 by (apply O_report; leaf). Qed.
  Lemma O_release w0 w i : O w0 w -> ok (toi_release i w) (O w0).
  Proof. intros H. unfold toi_release. walk w0 by (apply O_sync; leaf). Qed.
  Lemma O_event w0 w mc al dt : O w0 w -> ok (toi_event E mc al dt w) (fun p => O w0 (fst p)).
  Proof. intros H. unfold toi_event, add_body. walk w0 by (first [apply O_update; leaf | apply O_grow; leaf | apply O_toi_island; leaf | apply O_release; leaf | apply O_find; leaf]). Qed.
  Lemma O_loop w0 dt fuel : forall w, O w0 w -> ok (toi_loop E fuel dt w) (O w0).
  Proof.
    induction fuel as [|fuel IH]; intros w H; cbn [toi_loop]; [intros a Q; discriminate Q|]. apply ok_bind. apply (ok_mono _ (fun p => O w0 (fst (fst p)))); [apply (ok_each (fun p => O w0 (fst (fst p)))); [intros i s _; apply O_scan1|exact H]|].
    intros [[w1 best] al] H1. cbn [fst] in H1. destruct best as [mc|]; [|now apply ok_ok]. destruct (nlt _ _); [now apply ok_ok|]. apply ok_bind. eapply ok_mono; [apply O_event; exact H1|]. intros [w2 solid] H2. cbn [fst] in H2. destruct (_ && _); [now apply ok_ok|now apply IH].
  Qed.
  Lemma O_step w0 w dt : O w0 w -> ok (step E dt w) (O w0).
  Proof.
    intros H. unfold step, solve_toi, toi_reset, clear_forces. destruct (nlt _ dt). all: walk w0 by (first [apply O_find; leaf | apply O_collide; leaf | apply O_solve; leaf | apply O_loop; leaf]).
  Qed.

  (** ** all calls *)
  Definition in_order w : Prop := forall c x, w_contacts w c = Some x -> rightly w (pair_key x).
  Lemma O_refl w : in_order w -> O w w.
  Proof. intros H. split; [eauto|exact H]. Qed.
  Lemma O_end w0 w oks : W True oks w -> O w0 w -> in_order w.
  Proof.
    intros HW (A & B) c x Hc. destruct (B c x Hc) as (y & z & Hy & Hz & R). destruct (W_contacts _ _ _ HW) as (_ & _ & C & _).
    destruct (C c (view_c x)) as (va & vb & Ha & Hb & _); [cbn; now rewrite Hc|]. cbn in Ha, Hb. destruct (w_fixtures w (c_fa x)) as [xa|] eqn:Ea; [|discriminate]. destruct (w_fixtures w (c_fb x)) as [xb|] eqn:Eb; [|discriminate].
    exists xa, xb. cbn. refine (conj Ea (conj Eb _)). destruct (A _ _ Ea) as (y' & Hy' & Sy), (A _ _ Eb) as (z' & Hz' & Sz). cbn in Hy, Hz. rewrite <- Sy, <- Sz. congruence.
  Qed.
  Lemma O_create_fixture w oks i d : W True oks w -> in_order w -> exists w0, ok (create_fixture i d w) (fun p => O w0 (fst p)).
  Proof.
    intros HW H. destruct (W_graph _ _ _ HW) as (_ & (_ & _ & _ & _ & F) & _). specialize (F (w_next_fixture w) (le_n _)). cbn in F.
    assert (K : forall x, O (put_fixture (w_next_fixture w) x w) (put_fixture (w_next_fixture w) x w)).
    { intros x. split; [eauto|]. intros c y Hc. destruct (H c y Hc) as (a & b & Ha & Hb & R). exists a, b. cbn. unfold put. destruct (Nat.eqb_spec (c_fa y) (w_next_fixture w)) as [Q|_]; [cbn in Ha; rewrite Q in Ha; rewrite Ha in F; discriminate|]. destruct (Nat.eqb_spec (c_fb y) (w_next_fixture w)) as [Q|_]; [cbn in Hb; rewrite Q in Hb; rewrite Hb in F; discriminate|]. auto. }
    unfold create_fixture. destruct (fixture_new d i) as [x| |]; cycle 1; [exists w; walk w; discriminate..|].
    exists (put_fixture (w_next_fixture w) x w). specialize (K x). set (w0 := put_fixture (w_next_fixture w) x w) in *. apply ok_bind, ok_any. intros _. apply ok_bind, ok_any. intros b. cbn [bind]. walk w0 by (first [apply O_create_proxies; leaf | apply O_reset; leaf]).
  Qed.
  Lemma O_run w oks c w' : W True oks w -> W True oks w' -> in_order w -> wrun E c w = Ok w' -> in_order w'.
  Proof.
    intros HW HW' H R. assert (Hr : O w w) by now apply O_refl.
    assert (K : forall (m : res world), wrun E c w = m -> ok m (O w) -> in_order w') by (intros m Em Hm; apply (O_end w w' oks HW'); apply Hm; congruence).
    destruct c; cbn [wrun] in *; lazymatch type of R with context [create_fixture] => clear K | _ => eapply K; [reflexivity|]; clear K R end.
    - walk w. unfold create_body. walk w.
    - now apply O_destroy_body.
    - destruct (O_create_fixture w oks i d HW H) as (w0 & K). apply bind_ok in R as ([w1 f] & Q & R). injection R as ->. exact (O_end w0 w' oks HW' (K _ Q)).
    - now apply O_destroy_fixture.
    - walk w. now apply O_create_joint.
    - now apply O_destroy_joint.
    - now apply O_type.
    - now apply O_enabled.
    - now apply O_transform.
    - walk w.
    - walk w.
    - now apply O_reset.
    - walk w.
    - now apply O_filter.
    - now apply O_refilter.
    - unfold set_sensor. apply ok_bind, ok_unwrap. intros x Hx. destruct (Bool.eqb _ _); [now apply ok_ok|]. apply ok_bind, ok_any. intros i. apply ok_bind. unfold mod_body. apply ok_bind, ok_any. intros b. apply ok_ok. apply ok_ok. exact (O_fixture w (put_body i (set_awake true b) w) f x (set_f_sensor s x) Hr Hx eq_refl).
    - apply ok_bind, ok_unwrap. intros x Hx. apply ok_ok. eapply O_fixture; eauto. now destruct s.
    - apply O_mod_contact; [exact Hr|]. intros x. now destruct s.
    - now apply O_sleeping.
    - walk w.
    - walk w.
    - walk w.
    - unfold clear_forces. walk w.
    - now apply O_shift.
    - now apply O_step.
  Qed.
  Lemma reach_order w : answers E -> wreach E w -> in_order w.
  Proof.
    intros EA. induction 1 as [l g w H|w c w' H IH R].
    - unfold world_new in H. apply bind_ok in H as (bp & _ & H). injection H as <-. intros c x Q. discriminate Q.
    - eapply (O_run w _ c w'); eauto; apply (reach_W E EA); auto. eapply wreach_call; eauto.
  Qed.
  Theorem reach_class w : answers E -> wreach E w -> forall c x, w_contacts w c = Some x -> in_class w x.
  Proof.
    intros EA H c x Hc. destruct (reach_order w EA H c x Hc) as (xa & xb & Ha & Hb & R). cbn in Ha, Hb. pose proof (reach_W E EA w H) as HW. destruct (W_contacts _ _ _ HW) as (_ & _ & C & _). destruct (C c (view_c x)) as (va & vb & Va & Vb & La & Lb); [cbn; now rewrite Hc|].
    cbn in Va, Vb, La, Lb. rewrite Ha in Va. rewrite Hb in Vb. injection Va as <-. injection Vb as <-. cbn in La, Lb. rewrite map_length in La, Lb.
    exists xa, xb. refine (conj Ha (conj Hb (conj _ (conj _ _)))).
    - unfold children. rewrite Ha. destruct (W_shapes _ _ _ HW _ _ Ha) as (-> & _). exact La.
    - unfold children. rewrite Hb. destruct (W_shapes _ _ _ HW _ _ Hb) as (-> & _). exact Lb.
    - destruct (f_shape xa), (f_shape xb); cbn in R; try discriminate R; exact I.
  Qed.
End Order.
