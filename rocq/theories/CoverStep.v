(** The step of a world leaves the boxes of the broad phase around the shapes. *)
From Coq Require Import List ZArith Bool Arith Lia Reals Lra.
From Verif Require Import Base Num NumLaws RTac Math Collision Manifold Filter ShapeModel ListFacts ManifoldProofs TreeModel TreeSpec TreeHist BroadModel BroadSpec DynModel DynSpec DynProofs WorldModel WorldGraph WorldGops WorldLogic WorldInv WorldFix WorldClaims WorldCalls WorldHist CoverSpec CoverLogic CoverOps CoverCalls CoverWorld.
Import ListNotations.
Implicit Types w : world.

(** ** single bodies *)
Lemma posed_same (b b' : body R) : posed b -> posed b' -> sw_a (b_sweep b') = sw_a (b_sweep b) -> sw_c (b_sweep b') = sw_c (b_sweep b) ->
  sw_local_center (b_sweep b') = sw_local_center (b_sweep b) -> b_xf b' = b_xf b.
Proof.
  unfold posed. cbv zeta. intros (A & B & C & D) (A' & B' & C' & D') Ea Ec El. rewrite Ea in *. rewrite Ec, El in *. destruct (b_xf b) as [[px py] [s c]], (b_xf b') as [[px' py'] [s' c']]. cbn in *.
  f_equal; f_equal; lra.
Qed.
Lemma good_sweep (b : body R) s : good b -> sw_a s = sw_a (b_sweep b) -> sw_c s = sw_c (b_sweep b) -> sw_local_center s = sw_local_center (b_sweep b) ->
  (b_type b = StaticBody -> sw_c0 s = sw_c s /\ sw_a0 s = sw_a s) -> good (set_b_sweep s b).
Proof.
  intros [P S] Ea Ec El H. split.
  - unfold posed in *. cbv zeta in *. destruct b as [ty fl ii xf sw]. cbn in *. rewrite Ea, Ec, El. exact P.
  - intros Q. assert (Q' : b_type b = StaticBody) by exact Q. destruct (S Q') as (_ & _ & S3 & S4), (H Q') as [H1 H2]. split; [exact H1|]. split; [exact H2|]. split; [exact S3|exact S4].
Qed.
Lemma sweep_advance_R (s s' : sweep R) al : sweep_advance s al = Ok s' -> sw_a s' = sw_a s /\ sw_c s' = sw_c s /\ sw_local_center s' = sw_local_center s /\
  (sw_c0 s = sw_c s /\ sw_a0 s = sw_a s -> sw_c0 s' = sw_c s' /\ sw_a0 s' = sw_a s').
Proof.
  unfold sweep_advance. intros H. apply bind_ok in H as (? & _ & H). injection H as <-. cbn [sw_a sw_c sw_local_center sw_c0 sw_a0]. split; [reflexivity|]. split; [reflexivity|]. split; [reflexivity|]. intros [-> ->]. split; [apply vec2_ext; rmathc; ring|rops; ring].
Qed.
Lemma good_scan (b : body R) s al : good b -> sweep_advance (b_sweep b) al = Ok s -> good (set_b_sweep s b).
Proof.
  intros G E. apply sweep_advance_R in E as (A & B & C & D). apply good_sweep; auto. intros Q. destruct G as [_ S]. destruct (S Q) as (S1 & S2 & _). auto.
Qed.
Lemma good_advance (b b' : body R) al : good b -> body_advance al b = Ok b' -> good b' /\ b_type b' = b_type b /\ b_fixtures b' = b_fixtures b /\ b_flags b' = b_flags b /\
  b_lv b' = b_lv b /\ b_av b' = b_av b /\ (b_type b = StaticBody -> b_xf b' = b_xf b).
Proof.
  intros [P S] E. pose proof (posed_advance al b b' E) as (P' & Pc & Pa & _). unfold body_advance in E. apply bind_ok in E as (s & E & H). pose proof (sweep_advance_R _ _ _ E) as (A & B & C & D). clear E.
  assert (F : b_type b' = b_type b /\ b_fixtures b' = b_fixtures b /\ b_flags b' = b_flags b /\ b_lv b' = b_lv b /\ b_av b' = b_av b /\
    sw_local_center (b_sweep b') = sw_local_center s /\ sw_c (b_sweep b') = sw_c0 s /\ sw_a (b_sweep b') = sw_a0 s).
  { injection H as <-. destruct s. repeat split. }
  clear H. destruct F as (F1 & F2 & F3 & F4 & F5 & F6 & F7 & F8). split; [|repeat split; auto].
  - split; [exact P'|]. intros Q. rewrite F1 in Q. destruct (S Q) as (S1 & S2 & S3 & S4). unfold settled. rewrite F4, F5. auto.
  - intros Q. destruct (S Q) as (S1 & S2 & S3 & S4). destruct (D (conj S1 S2)) as [D1 D2]. apply posed_same; auto; congruence.
Qed.
Lemma good_solved (b : body R) s : posed b -> let b' := apply_solved s b in
  posed b' /\ b_type b' = b_type b /\ b_fixtures b' = b_fixtures b /\ b_flags b' = b_flags b /\
  sw_local_center (b_sweep b') = sw_local_center (b_sweep b) /\ sw_c (b_sweep b') = so_c s /\ sw_a (b_sweep b') = so_a s /\ sw_c0 (b_sweep b') = so_c0 s /\ sw_a0 (b_sweep b') = so_a0 s /\ b_lv b' = so_lv s /\ b_av b' = so_av s.
Proof. intros P. cbv zeta. split; [apply posed_sync|]. repeat split. Qed.

(** ** the invariant during a step that began with [w0]; [S]: bodies that moved *)
Definition kin w0 w : Prop := same_f w0 w /\ fixed w = fixed w0 /\
  forall i b', w_bodies w i = Some b' -> exists b, w_bodies w0 i = Some b /\ b_type b' = b_type b /\ b_fixtures b' = b_fixtures b.
Definition dirt w0 (S : nat -> Prop) (f : nat) : Prop := exists x i, w_fixtures w0 f = Some x /\ f_body x = Some i /\ S i.
Definition St w0 (S : nat -> Prop) w : Prop := J (dirt w0 S) w /\ kin w0 w.
Lemma kin_refl w : kin w w.
Proof. split; [intros f; reflexivity|]. split; [reflexivity|]. eauto. Qed.
Lemma kin_own w0 w : own w0 -> kin w0 w -> own w.
Proof.
  intros [O1 O2] (A & L & C). split.
  - intros f x i b Hx Hb. destruct (same_f_fix w0 w f x A Hx) as (y & Hy & V). apply view_f_inv in V as (V1 & _). destruct (C i b Hb) as (b0 & H0 & _ & ->). rewrite V1. now apply O1.
  - intros i Hi. replace (w_body_list w) with (w_body_list w0) by (unfold fixed in L; congruence). apply O2. destruct (w_bodies w i) as [b|] eqn:Eb; [|easy]. destruct (C i b Eb) as (b0 & -> & _). discriminate.
Qed.
Lemma kin_next w0 w w' : kin w0 w -> same_f w w' -> fixed w' = fixed w ->
  (forall i b', w_bodies w' i = Some b' -> exists b, w_bodies w i = Some b /\ b_type b' = b_type b /\ b_fixtures b' = b_fixtures b) -> kin w0 w'.
Proof.
  intros (A & L & C) A' L' C'. split; [intros f; etransitivity; [apply A'|apply A]|]. split; [congruence|]. intros i b' H. destruct (C' i b' H) as (b & Hb & -> & ->). auto.
Qed.
Lemma kin_frame w0 w w' : kin w0 w -> frame w w' -> kin w0 w'.
Proof. intros H (_ & A & L & C). eapply kin_next; eauto. intros i b' Hb. destruct (C i b' Hb) as (b & K & S). exists b. split; [exact K|]. split; [apply S|apply (still_fix _ _ S)]. Qed.
Lemma St_frame w0 S w w' : St w0 S w -> frame w w' -> St w0 S w'.
Proof. intros [H K] F. split; [eapply J_frame; eauto|eapply kin_frame; eauto]. Qed.
Lemma St_good w0 S w i b : St w0 S w -> w_bodies w i = Some b -> good b.
Proof. intros [H _]. apply (J_bodies _ _ H). Qed.
Lemma St_weak w0 (S S' : nat -> Prop) w : St w0 S w -> (forall i, S i -> S' i) -> St w0 S' w.
Proof. intros [H K] Q. split; [|exact K]. eapply J_weak; [exact H|]. intros f (x & i & A & B & C). exists x, i. auto. Qed.
Lemma St_put w0 (S : nat -> Prop) w i b b' : St w0 S w -> w_bodies w i = Some b -> b_type b' = b_type b -> b_fixtures b' = b_fixtures b -> good b' -> S i \/ b_xf b' = b_xf b -> St w0 S (put_body i b' w).
Proof.
  intros [H K] Hb Ty Fx G X. split.
  - apply (J_moved (dirt w0 S) (dirt w0 S) w); auto; [intros f; reflexivity| |]; cbn; unfold put.
    + intros j c. destruct (Nat.eqb_spec j i) as [->|]; [intros Q; injection Q as <-; exact G|]. apply (J_bodies _ _ H).
    + intros f x j c Hx Hj. destruct (Nat.eqb_spec j i) as [->|]; [|eauto]. intros Q. injection Q as <-. destruct X as [X|X]; [|eauto]. left. destruct K as (A & _).
      destruct (same_f_fix w0 w f x A Hx) as (y & Hy & V). apply view_f_inv in V as (V1 & _). exists y, i. rewrite <- V1. auto.
  - eapply kin_next; [exact K|intros f; reflexivity|reflexivity|]. intros j c. cbn. unfold put. destruct (Nat.eqb_spec j i) as [->|]; [intros Q; injection Q as <-; eauto|]. eauto.
Qed.
Lemma St_sync w0 S w i : own w0 -> St w0 S w -> ok (synchronize_fixtures i w) (fun w' => St w0 (fun j => S j /\ j <> i) w' /\ w_bodies w' = w_bodies w).
Proof.
  intros O [H K]. pose proof (kin_own _ _ O K) as [O1 _]. unfold synchronize_fixtures. apply ok_bind, ok_unwrap. intros b Hb. cbv zeta.
  eapply ok_mono; [apply (J_sync_list (dirt w0 S) w i b); [exact H|exact Hb|]|].
  - intros f x Hf Hx. now apply (O1 f x i b Hx Hb).
  - intros w' [H' (B1 & B2 & B3)]. split; [|exact B2]. split.
    + eapply J_weak; [exact H'|]. intros f [(x & j & Hx & Hj & Sj) Nf]. exists x, j. split; [exact Hx|]. split; [exact Hj|]. split; [exact Sj|]. intros ->. apply Nf.
      destruct K as (A & _). specialize (A f). cbn in A. rewrite Hx in A. cbn in A. destruct (w_fixtures w f) as [y|] eqn:Ey; [|easy]. injection A as A _. apply (O1 f y i b Ey Hb). congruence.
    + eapply kin_next; [exact K|exact B1|exact B3|]. rewrite B2. eauto.
Qed.
Section Step.
  Variable E : env R.
  Hypothesis HS : holds_static E.
  Lemma St_find w0 S w : own w0 -> St w0 S w -> ok (find_new_contacts E w) (St w0 S).
  Proof.
    intros O [H K]. eapply ok_mono; [apply (ok_find E (dirt w0 S)); [exact H|eapply kin_own; eauto]|]. intros w' (H' & _ & A & L & C). split; [exact H'|].
    eapply kin_next; [exact K|exact A|exact L|]. intros i b' Hb. destruct (C i b' Hb) as (b & Hb0 & Q). exists b. split; [exact Hb0|]. split; [apply Q|apply (still_fix _ _ Q)].
  Qed.
  (* writing the result of the solver back *)
  Lemma apply_loop (I : world -> Prop) ws (so : nat -> solved R) l :
    (forall i b, In i l -> w_bodies ws i = Some b -> b_type b = StaticBody -> settled b -> stays b (so i)) ->
    (forall w i b, I w -> w_bodies w i = Some b -> good b) ->
    (forall w i b b', I w -> In i l -> w_bodies w i = Some b -> good b' -> b_type b' = b_type b -> b_fixtures b' = b_fixtures b -> b_flags b' = b_flags b -> (b_type b = StaticBody -> b_xf b' = b_xf b) -> I (put_body i b' w)) ->
    forall w1, I w1 -> w_bodies w1 = w_bodies ws -> ok (each (fun i => mod_body i (apply_solved (so i))) l w1) I.
  Proof.
    intros Hst HG HP w1 H1 Hw1.
    set (anchor := fun w => forall i b', w_bodies w i = Some b' -> b_type b' = StaticBody -> exists b, w_bodies ws i = Some b /\ b_type b = StaticBody /\ settled b /\
      sw_c (b_sweep b') = sw_c (b_sweep b) /\ sw_a (b_sweep b') = sw_a (b_sweep b)).
    eapply ok_mono; [apply (ok_each (fun w => I w /\ anchor w))|intros w' [Q _]; exact Q].
    - intros i w Hi [Iw Aw]. unfold mod_body. apply ok_bind, ok_unwrap. intros b Hb. apply ok_ok. pose proof (HG w i b Iw Hb) as [P Sb]. pose proof (good_solved b (so i) P) as G. cbv zeta in G.
      destruct G as (G1 & G2 & G3 & G4 & G5 & G6 & G7 & G8 & G9 & G10 & G11). set (b' := apply_solved (so i) b) in *. clearbody b'.
      assert (St : b_type b = StaticBody -> settled b' /\ b_xf b' = b_xf b /\ sw_c (b_sweep b') = sw_c (b_sweep b) /\ sw_a (b_sweep b') = sw_a (b_sweep b)).
      { intros Q. destruct (Aw i b Hb Q) as (b0 & H0 & T0 & S0 & Ec & Ea). destruct (Hst i b0 Hi H0 T0 S0) as (T1 & T2 & T3 & T4 & T5 & T6).
        split; [unfold settled; rewrite G6, G7, G8, G9, G10, G11, T1, T2, T3, T4; auto|]. split; [|split; congruence]. apply posed_same; auto; congruence. }
      split.
      + apply (HP w i b b'); auto; [|intros Q; apply (St Q)]. split; [exact G1|]. intros Q. rewrite G2 in Q. apply (St Q).
      + intros j c. cbn. unfold put. destruct (Nat.eqb_spec j i) as [->|]; [|apply Aw]. intros Q. injection Q as <-. intros Q. rewrite G2 in Q. destruct (Aw i b Hb Q) as (b0 & H0 & T0 & S0 & Ec & Ea). destruct (St Q) as (_ & _ & E1 & E2).
        exists b0. split; [exact H0|]. split; [exact T0|]. split; [exact S0|]. split; congruence.
    - split; [exact H1|]. intros i b' Hb Q. rewrite Hw1 in Hb. exists b'. split; [exact Hb|]. split; [exact Q|]. rewrite <- Hw1 in Hb. destruct (HG w1 i b' H1 Hb) as [_ S]. auto.
  Qed.

  (** ** the discrete solver *)
  Definition flg w i : Prop := forall b, w_bodies w i = Some b -> fl_island (b_flags b) = true.
  Definition Sol w0 (S : nat -> Prop) w : Prop := St w0 S w /\ forall i, S i -> exists b, w_bodies w i = Some b /\ b_type b <> StaticBody /\ fl_island (b_flags b) = true.
  Definition SolE w0 w : Prop := exists S, Sol w0 S w.
  Definition grow (b b' : body R) : Prop := b_type b' = b_type b /\ b_fixtures b' = b_fixtures b /\ b_xf b' = b_xf b /\ (good b -> good b') /\ (fl_island (b_flags b) = true -> fl_island (b_flags b') = true).
  Lemma grow_still b b' : CoverOps.still b b' -> grow b b'.
  Proof. intros S. pose proof (still_fix _ _ S) as (A & _ & B). split; [apply S|]. split; [exact A|]. split; [apply S|]. split; [now apply still_good|congruence]. Qed.
  Lemma grow_flags g (b : body R) : (fl_island (b_flags b) = true -> fl_island (g (b_flags b)) = true) -> grow b (mod_flags g b).
  Proof. intros H. split; [reflexivity|]. split; [reflexivity|]. split; [reflexivity|]. split; [intros [P S]; split; [exact P|exact S]|exact H]. Qed.
  Lemma grow_index z (b : body R) : grow b (set_b_island_index z b).
  Proof. split; [reflexivity|]. split; [reflexivity|]. split; [reflexivity|]. split; [intros [P S]; split; [exact P|exact S]|auto]. Qed.
  Lemma SolE_grow w0 w i b b' : SolE w0 w -> w_bodies w i = Some b -> grow b b' -> SolE w0 (put_body i b' w).
  Proof.
    intros (S & H & K) Hb (A & B & C & G & F). exists S. split.
    - eapply St_put; eauto. apply G. eapply St_good; eauto.
    - intros j Sj. destruct (K j Sj) as (c & Hc & T & L). cbn. unfold put. destruct (Nat.eqb_spec j i) as [->|]; [|eauto]. exists b'. replace c with b in * by congruence. rewrite A. auto.
  Qed.
  Lemma flg_put w i b b' j : flg w j -> w_bodies w i = Some b -> (fl_island (b_flags b) = true -> fl_island (b_flags b') = true) -> flg (put_body i b' w) j.
  Proof. intros H Hb G c. cbn. unfold put. destruct (Nat.eqb_spec j i) as [->|]; [|apply H]. intros Q. injection Q as <-. auto. Qed.
  Definition DI w0 (st : dstate (T := R)) : Prop := let '(w, is, stack) := st in SolE w0 w /\ forall i, In i (is_bodies is ++ stack) -> flg w i.
  Lemma DI_visit w0 o st : DI w0 st -> ok (visit_other o st) (DI w0).
  Proof.
    destruct st as [[w is] stack]. intros [H K]. unfold visit_other. apply ok_bind, ok_unwrap. intros x Hx. destruct (fl_island (b_flags x)) eqn:Ex; [apply ok_ok; split; assumption|]. apply ok_ok. split.
    - eapply SolE_grow; [exact H|exact Hx|]. apply grow_flags. reflexivity.
    - intros i Hi. apply in_app_or in Hi. destruct (Nat.eq_dec i o) as [->|Ne].
      + intros c. cbn. unfold put. rewrite Nat.eqb_refl. intros Q. injection Q as <-. reflexivity.
      + eapply flg_put; [|exact Hx|reflexivity]. apply K. apply in_or_app. destruct Hi as [Hi|[Hi|Hi]]; auto. congruence.
  Qed.
  Lemma DI_contact w0 e st : DI w0 st -> ok (visit_contact e st) (DI w0).
  Proof.
    destruct st as [[w is] stack]. intros [H K]. unfold visit_contact. apply ok_bind, ok_any. intros c. destruct (cf_island _); [apply ok_ok; split; assumption|]. destruct (_ || _); [apply ok_ok; split; assumption|].
    apply ok_bind, ok_any. intros fa. apply ok_bind, ok_any. intros fb. destruct (_ || _); [apply ok_ok; split; assumption|]. apply DI_visit. split; [exact H|exact K].
  Qed.
  Lemma DI_joint w0 e st : DI w0 st -> ok (visit_joint e st) (DI w0).
  Proof.
    destruct st as [[w is] stack]. intros [H K]. unfold visit_joint. apply ok_bind, ok_any. intros c. destruct (j_island _); [apply ok_ok; split; assumption|].
    apply ok_bind, ok_any. intros o. destruct (negb _); [apply ok_ok; split; assumption|]. apply DI_visit. split; [exact H|exact K].
  Qed.
  Lemma DI_dfs w0 fuel : forall st, DI w0 st -> ok (dfs fuel st) (fun st' => DI w0 st').
  Proof.
    induction fuel as [|fuel IH]; intros [[w is] stack] [H K]; (destruct stack as [|i stack]; cbn [dfs]; [apply ok_ok; split; assumption|]); [intros a Q; discriminate Q|].
    apply ok_bind. eapply ok_mono; [|exact IH]. unfold dfs1. apply ok_bind, ok_unwrap. intros b Hb. apply ok_bind, ok_any. intros _. unfold add_body.
    assert (D1 : DI w0 (put_body i (set_b_island_index (Z.of_nat (length (is_bodies is))) b) w, Island (is_bodies is ++ [i]) (is_contacts is) (is_joints is), stack)).
    { split; [eapply SolE_grow; [exact H|exact Hb|apply grow_index]|]. intros j Hj. eapply flg_put; [|exact Hb|auto]. apply K. cbn [is_bodies] in Hj. rewrite <- app_assoc in Hj. exact Hj. }
    destruct (is_static b); [apply ok_ok; exact D1|]. destruct D1 as [D1 D2]. apply ok_bind. unfold mod_body. apply ok_bind, ok_unwrap. intros b2 Hb2. apply ok_ok.
    apply ok_bind. eapply ok_mono; [apply (ok_each (DI w0)); [intros e s _; apply DI_contact|]|].
    - split; [eapply SolE_grow; [exact D1|exact Hb2|apply grow_flags; auto]|]. intros j Hj. eapply flg_put; [apply D2; exact Hj|exact Hb2|auto].
    - intros s Hs. apply (ok_each (DI w0)); [intros e s' _; apply DI_joint|exact Hs].
  Qed.
  Lemma SolE_report w0 l w : SolE w0 w -> ok (report E l w) (SolE w0).
  Proof. intros H. unfold report. destruct (w_listener w); [|now apply ok_ok]. apply (ok_each (SolE w0)); [|exact H]. intros c s _ Hs. unfold listen. apply ok_bind, ok_any. intros x. apply ok_ok. exact Hs. Qed.
  Lemma SolE_each w0 g l w : SolE w0 w -> (forall i b, grow b (g i b)) -> ok (each (fun i => mod_body i (g i)) l w) (SolE w0).
  Proof. intros H G. apply (ok_each (SolE w0)); [|exact H]. intros i s _ Hs. unfold mod_body. apply ok_bind, ok_unwrap. intros b Hb. apply ok_ok. eapply SolE_grow; eauto. Qed.
  Lemma SolE_island w0 is dt w : SolE w0 w -> (forall i, In i (is_bodies is) -> flg w i) -> ok (solve_island E is dt w) (SolE w0).
  Proof.
    intros H K. unfold solve_island. apply ok_bind, ok_eq. intros s Es. cbv zeta. apply ok_bind.
    eapply ok_mono; [apply (ok_each (fun v => SolE w0 v /\ w_bodies v = w_bodies w)); [|split; [exact H|reflexivity]]|].
    { intros c v _ [Hv Bv]. unfold mod_contact. apply ok_bind, ok_any. intros x. apply ok_ok. split; [exact Hv|exact Bv]. }
    intros w1 [H1 B1]. apply ok_bind. eapply ok_mono; [apply (apply_loop (fun v => SolE w0 v /\ forall i, In i (is_bodies is) -> flg v i) w (so_body s) (is_bodies is))|].
    - intros i b Hi Hb Q1 Q2. exact (proj1 HS w is dt s i b Es Hi Hb Q1 Q2).
    - intros v i b [(S & Hv & _) _]. eapply St_good; eauto.
    - intros v i b b' [(S & Hv & Kv) Fv] Hi Hb G Ty Fx Fl Xf. split.
      + destruct (b_type b) eqn:Tb; [|exists (fun j => S j \/ j = i)..].
        * exists S. split; [eapply St_put; eauto; congruence|]. intros j Sj. destruct (Kv j Sj) as (c & Hc & T & L). cbn. unfold put. destruct (Nat.eqb_spec j i) as [->|]; [|eauto]. congruence.
        * split; [eapply St_put; [eapply St_weak; [exact Hv|]|..]; eauto; congruence|]. intros j Sj. cbn. unfold put. destruct (Nat.eqb_spec j i) as [->|Ne]; [|destruct Sj as [Sj|]; [auto|contradiction]].
          exists b'. rewrite Ty, Fl. split; [reflexivity|]. split; [discriminate|]. now apply (Fv i Hi).
        * split; [eapply St_put; [eapply St_weak; [exact Hv|]|..]; eauto; congruence|]. intros j Sj. cbn. unfold put. destruct (Nat.eqb_spec j i) as [->|Ne]; [|destruct Sj as [Sj|]; [auto|contradiction]].
          exists b'. rewrite Ty, Fl. split; [reflexivity|]. split; [discriminate|]. now apply (Fv i Hi).
      + intros j Hj. eapply flg_put; [now apply Fv|exact Hb|]. now rewrite Fl.
    - split; [exact H1|]. intros i Hi b Hb. rewrite B1 in Hb. now apply (K i Hi).
    - exact B1.
    - intros w2 [H2 _]. apply ok_bind. eapply ok_mono; [apply SolE_report; exact H2|]. intros w3 H3. destruct (w_allow_sleep w3); [|now apply ok_ok]. apply ok_bind.
      eapply ok_mono; [apply (SolE_each w0 (fun i b => if is_static b then b else set_b_sleep_time (so_time (so_body s i)) b)); [exact H3|]|].
      { intros i b. destruct (is_static b); [apply grow_still, still_refl|]. apply grow_still. repeat split. }
      intros w4 H4. destruct (so_sleep s); [|now apply ok_ok]. apply (SolE_each w0 (fun _ => set_awake false)); [exact H4|]. intros i b. apply grow_still, still_awake.
  Qed.
  Lemma SolE_seed w0 cap dt seed w : SolE w0 w -> ok (solve_seed E cap dt seed w) (SolE w0).
  Proof.
    intros H. unfold solve_seed. apply ok_bind, ok_unwrap. intros b Hb. destruct (fl_island _); [now apply ok_ok|]. destruct (_ || _); [now apply ok_ok|]. destruct (is_static b); [now apply ok_ok|]. cbv zeta.
    set (w1 := put_body seed _ w). assert (H1 : SolE w0 w1) by (eapply SolE_grow; [exact H|exact Hb|apply grow_flags; reflexivity]).
    apply ok_bind. eapply ok_mono; [apply (DI_dfs w0); split; [exact H1|]|].
    { intros i Hi. cbn in Hi. destruct Hi as [<-|[]]. intros c. cbn. unfold put. rewrite Nat.eqb_refl. intros Q. injection Q as <-. reflexivity. }
    intros [[w2 is] stack] [H2 K2]. apply ok_bind, ok_any. intros _. apply ok_bind. eapply ok_mono; [apply SolE_island; [exact H2|]|].
    { intros i Hi. apply K2. apply in_or_app. now left. }
    intros w3 H3. apply (ok_each (SolE w0)); [|exact H3]. intros i s _ (S & Hs & Ks). unfold mod_body. apply ok_bind, ok_unwrap. intros c Hc. apply ok_ok. pose proof (St_good _ _ _ _ _ Hs Hc) as G. exists S. unfold is_static in *.
    destruct (btype_eqb_spec (b_type c) StaticBody) as [Q|Q].
    - split; [eapply St_put; [exact Hs|exact Hc|reflexivity|reflexivity| |right; reflexivity]; destruct G as [G1 G2]; split; [exact G1|exact G2]|]. intros j Sj. destruct (Ks j Sj) as (d & Hd & T & L). cbn. unfold put. destruct (Nat.eqb_spec j i) as [->|]; [congruence|eauto].
    - split; [eapply St_put; [exact Hs|exact Hc|reflexivity|reflexivity|exact G|right; reflexivity]|]. intros j Sj. destruct (Ks j Sj) as (d & Hd & T & L). cbn. unfold put. destruct (Nat.eqb_spec j i) as [->|]; [|eauto]. exists d. split; [congruence|]. auto.
  Qed.
  Lemma St_clear w0 w : St w0 none w -> ok (clear_island_flags w) (St w0 none).
  Proof.
    intros H. unfold clear_island_flags. apply ok_bind. eapply ok_mono; [apply (ok_each (St w0 none)); [|exact H]|].
    { intros i s _ Hs. unfold mod_body. apply ok_bind, ok_unwrap. intros b Hb. apply ok_ok. pose proof (St_good _ _ _ _ _ Hs Hb) as [G1 G2]. eapply St_put; [exact Hs|exact Hb|reflexivity|reflexivity| |right; reflexivity]. split; [exact G1|exact G2]. }
    intros w1 H1. apply ok_bind. eapply ok_mono; [apply (ok_each (St w0 none)); [|exact H1]|].
    { intros i s _ Hs. unfold mod_contact. apply ok_bind, ok_any. intros c. apply ok_ok. exact Hs. }
    intros w2 H2. apply (ok_each (St w0 none)); [|exact H2]. intros i s _ Hs. unfold mod_joint. apply ok_bind, ok_any. intros c. apply ok_ok. exact Hs.
  Qed.
  Lemma St_sync_moved w0 w : own w0 -> SolE w0 w -> ok (sync_moved w) (St w0 none).
  Proof.
    intros O (S & H & K). unfold sync_moved.
    assert (L : forall i, S i -> In i (w_body_list w)). { intros i Si. destruct (K i Si) as (b & Hb & _). destruct H as [_ Q]. apply (kin_own _ _ O Q). congruence. }
    revert L. generalize (w_body_list w). intros l. revert S w H K. induction l as [|i l IH]; intros S w H K L; cbn [each].
    - apply ok_ok. eapply St_weak; [exact H|]. exact L.
    - apply ok_bind, ok_bind, ok_unwrap. intros b Hb.
      assert (Skip : fl_island (b_flags b) = false \/ b_type b = StaticBody -> forall j, S j -> In j l).
      { intros Q j Sj. destruct (L j Sj) as [->|]; [|assumption]. destruct (K j Sj) as (c & Hc & T & F). replace c with b in * by congruence. destruct Q as [Q|Q]; congruence. }
      destruct (fl_island (b_flags b)) eqn:Fl; cbn [negb]; [|apply ok_ok; apply (IH S); auto]. unfold is_static. destruct (btype_eqb_spec (b_type b) StaticBody) as [Q|Q]; [apply ok_ok; apply (IH S); auto|].
      eapply ok_mono; [apply (St_sync w0 S); [exact O|exact H]|]. intros w1 [H1 B1]. apply (IH _ w1 H1).
      + intros j [Sj _]. rewrite B1. auto.
      + intros j [Sj Ne]. destruct (L j Sj); [congruence|assumption].
  Qed.
  Lemma St_solve w0 dt w : own w0 -> St w0 none w -> ok (solve E dt w) (St w0 none).
  Proof.
    intros O H. unfold solve. cbv zeta. apply ok_bind. eapply ok_mono; [apply St_clear; exact H|]. intros w1 H1. apply ok_bind.
    eapply ok_mono; [apply (ok_each (SolE w0)); [intros i s _; apply SolE_seed|exists none; split; [exact H1|intros i []]]|].
    intros w2 H2. apply ok_bind. eapply ok_mono; [apply St_sync_moved; [exact O|exact H2]|]. intros w3 H3. now apply St_find.
  Qed.
End Step.
