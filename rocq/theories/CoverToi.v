(** Continuous collision leaves the boxes of the broad phase around the shapes; the whole step. *)
From Coq Require Import List ZArith Bool Arith Lia Reals Lra.
From Verif Require Import Base Num NumLaws RTac Math Collision Manifold Filter ShapeModel ListFacts ManifoldProofs TreeModel TreeSpec TreeHist BroadModel BroadSpec DynModel DynSpec DynProofs WorldModel WorldGraph WorldGops WorldLogic WorldInv WorldFix WorldClaims WorldCalls WorldHist CoverSpec CoverLogic CoverOps CoverCalls CoverWorld CoverStep.
Import ListNotations.
Implicit Types w : world.

(** ** bodies that are moved and put back; [P]: their sweep, [Q]: their transform is not what it was *)
Definition loose (b b' : body R) : Prop := b_type b' = b_type b /\ b_fixtures b' = b_fixtures b /\ b_lv b' = b_lv b /\ b_av b' = b_av b \/ CoverOps.still b b'.
Definition back w (P Q : nat -> Prop) s : Prop := w_bp s = w_bp w /\ same_f w s /\ fixed s = fixed w /\
  forall i b', w_bodies s i = Some b' -> exists b, w_bodies w i = Some b /\ b_type b' = b_type b /\ b_fixtures b' = b_fixtures b /\
    (b_type b = StaticBody -> b_lv b' = b_lv b /\ b_av b' = b_av b) /\ (b_sweep b' = b_sweep b \/ P i) /\ (b_xf b' = b_xf b \/ Q i).
Lemma back_refl w : back w none none w.
Proof. split; [reflexivity|]. split; [intros f; reflexivity|]. split; [reflexivity|]. intros i b H. exists b. auto 10. Qed.
Lemma back_weak w (P Q P' Q' : nat -> Prop) s : back w P Q s -> (forall i, P i -> P' i) -> (forall i, Q i -> Q' i) -> back w P' Q' s.
Proof. intros (A & B & L & C) HP HQ. split; [exact A|]. split; [exact B|]. split; [exact L|]. intros i b' H. destruct (C i b' H) as (b & D1 & D2 & D3 & D4 & D5 & D6). exists b. repeat (split; [solve [auto]|]). split; [destruct D5; auto|destruct D6; auto]. Qed.
Lemma back_frame w P Q s s' : back w P Q s -> frame s s' -> back w P Q s'.
Proof.
  intros (A & B & L & C) (A' & B' & L' & C'). split; [congruence|]. split; [intros f; etransitivity; [apply B'|apply B]|]. split; [congruence|].
  intros i b'' H. destruct (C' i b'' H) as (b' & H' & S). destruct (C i b' H') as (b & D1 & D2 & D3 & D4 & D5 & D6). pose proof (still_fix _ _ S) as (Fx & _). destruct S as (S1 & _ & S3 & S4 & S5).
  exists b. split; [exact D1|]. split; [congruence|]. split; [congruence|]. split; [|split; [rewrite S4; exact D5|rewrite S3; exact D6]].
  intros T. destruct (S5 ltac:(congruence)) as [-> ->]. auto.
Qed.
Lemma back_put w (P Q P' Q' : nat -> Prop) s i b b' : back w P Q s -> w_bodies s i = Some b -> b_type b' = b_type b -> b_fixtures b' = b_fixtures b -> b_lv b' = b_lv b -> b_av b' = b_av b ->
  (forall j, j <> i -> P j -> P' j) -> (forall j, j <> i -> Q j -> Q' j) ->
  (forall b0, w_bodies w i = Some b0 -> b_sweep b = b_sweep b0 \/ P i -> b_xf b = b_xf b0 \/ Q i -> (b_sweep b' = b_sweep b0 \/ P' i) /\ (b_xf b' = b_xf b0 \/ Q' i)) -> back w P' Q' (put_body i b' s).
Proof.
  intros (A & B & L & C) Hb Ty Fx Lv Av HP HQ HI. split; [exact A|]. split; [exact B|]. split; [exact L|]. intros j c. cbn. unfold put. destruct (Nat.eqb_spec j i) as [->|Ne].
  - intros K. injection K as <-. destruct (C i b Hb) as (b0 & D1 & D2 & D3 & D4 & D5 & D6). exists b0. destruct (HI b0 D1 D5 D6) as [E1 E2]. split; [exact D1|]. split; [congruence|]. split; [congruence|]. split; [|split; assumption]. rewrite Lv, Av. exact D4.
  - intros K. destruct (C j c K) as (b0 & D1 & D2 & D3 & D4 & D5 & D6). exists b0. split; [exact D1|]. split; [exact D2|]. split; [exact D3|]. split; [exact D4|]. split; [destruct D5; auto|destruct D6; auto].
Qed.
Lemma St_back w0 S w s : St w0 S w -> back w none none s -> St w0 S s.
Proof.
  intros [H K] (A & B & L & C). split.
  - apply (J_moved (dirt w0 S) (dirt w0 S) w); auto.
    + intros i b' Hb. destruct (C i b' Hb) as (b & D1 & D2 & D3 & D4 & [D5|[]] & [D6|[]]). destruct (J_bodies _ _ H i b D1) as [P Q]. split; [eapply posed_frame; eauto|].
      intros T. rewrite D2 in T. destruct (D4 T) as [E1 E2]. specialize (Q T). unfold settled in *. rewrite D5, E1, E2. exact Q.
    + intros f x i b' _ _ Hb. destruct (C i b' Hb) as (b & D1 & D2 & D3 & D4 & D5 & [D6|[]]). right. eauto.
  - eapply kin_next; [exact K|exact B|exact L|]. intros i b' Hb. destruct (C i b' Hb) as (b & D1 & D2 & D3 & _). eauto.
Qed.
(* restoring the sweep, then the transform *)
Lemma back_sweep w (P Q : nat -> Prop) s i b0 : back w P Q s -> w_bodies w i = Some b0 -> ok (mod_body i (set_b_sweep (b_sweep b0)) s) (back w (fun j => P j /\ j <> i) Q).
Proof.
  intros H H0. unfold mod_body. apply ok_bind, ok_unwrap. intros b Hb. apply ok_ok. eapply back_put; [exact H|exact Hb|reflexivity|reflexivity|reflexivity|reflexivity|auto|auto|]. intros b1 H1 _ K. replace b1 with b0 in * by congruence. split; [now left|exact K].
Qed.
Lemma back_xf w (P Q : nat -> Prop) s i : (forall b, w_bodies w i = Some b -> posed b) -> ~ P i -> back w P Q s -> ok (mod_body i synchronize_transform s) (back w P (fun j => Q j /\ j <> i)).
Proof.
  intros HP Np H. unfold mod_body. apply ok_bind, ok_unwrap. intros b Hb. apply ok_ok. eapply back_put; [exact H|exact Hb|reflexivity|reflexivity|reflexivity|reflexivity|auto|auto|]. intros b1 H1 [K|K] _; [|contradiction]. split; [now left|]. left.
  apply posed_same; [now apply HP|apply posed_sync|..]; cbn [synchronize_transform b_sweep set_b_xf]; now rewrite K.
Qed.
Lemma back_advance w (P Q : nat -> Prop) s i b b' al : back w P Q s -> good b -> w_bodies s i = Some b -> body_advance al b = Ok b' -> back w (fun j => P j \/ j = i) (fun j => Q j \/ j = i) (put_body i b' s).
Proof. intros H G Hb E. destruct (good_advance b b' al G E) as (_ & A & B & _ & C & D & _). eapply back_put; [exact H|exact Hb|exact A|exact B|exact C|exact D|auto|auto|auto]. Qed.

Section Toi.
  Variable E : env R.
  Hypothesis HS : holds_static E.
  Definition mobile w0 i : Prop := exists b, w_bodies w0 i = Some b /\ b_type b <> StaticBody.
  (* only bodies in [L] moved, none of them static *)
  Definition TS w0 (L : list nat) w : Prop := exists S, St w0 S w /\ forall i, S i -> In i L /\ mobile w0 i.
  Lemma TS_nil w0 w : TS w0 [] w -> St w0 none w.
  Proof. intros (S & H & K). eapply St_weak; [exact H|]. intros i Si. apply (K i Si). Qed.
  Lemma TS_St w0 L w : St w0 none w -> TS w0 L w.
  Proof. intros H. exists none. split; [exact H|]. intros i []. Qed.
  Lemma TS_weak w0 L L' w : TS w0 L w -> (forall i, In i L -> In i L') -> TS w0 L' w.
  Proof. intros (S & H & K) Q. exists S. split; [exact H|]. intros i Si. destruct (K i Si). auto. Qed.
  Lemma TS_frame w0 L w w' : TS w0 L w -> frame w w' -> TS w0 L w'.
  Proof. intros (S & H & K) F. exists S. split; [eapply St_frame; eauto|exact K]. Qed.
  Lemma TS_back w0 L w w' : TS w0 L w -> back w none none w' -> TS w0 L w'.
  Proof. intros (S & H & K) F. exists S. split; [eapply St_back; eauto|exact K]. Qed.
  Lemma TS_good w0 L w i b : TS w0 L w -> w_bodies w i = Some b -> good b.
  Proof. intros (S & H & _). eapply St_good; eauto. Qed.
  Lemma TS_put w0 L w i b b' : TS w0 L w -> w_bodies w i = Some b -> b_type b' = b_type b -> b_fixtures b' = b_fixtures b -> good b' ->
    (b_type b = StaticBody -> b_xf b' = b_xf b) -> In i L \/ b_xf b' = b_xf b -> TS w0 L (put_body i b' w).
  Proof.
    intros (S & H & K) Hb Ty Fx G X Q. destruct (btype_eqb_spec (b_type b) StaticBody) as [T|T].
    - exists S. split; [|exact K]. eapply St_put; eauto.
    - destruct Q as [Q|Q]; [|exists S; split; [eapply St_put; eauto|exact K]]. exists (fun j => S j \/ j = i). split; [eapply St_put; [eapply St_weak; [exact H|]|..]; eauto|].
      intros j [Sj| ->]; [auto|]. split; [exact Q|]. destruct H as [_ (_ & _ & C)]. destruct (C i b Hb) as (b0 & H0 & T0 & _). exists b0. split; congruence.
  Qed.
  Lemma TS_same w0 L w i b b' : TS w0 L w -> w_bodies w i = Some b -> b_type b' = b_type b -> b_fixtures b' = b_fixtures b -> b_xf b' = b_xf b -> (good b -> good b') -> TS w0 L (put_body i b' w).
  Proof. intros H Hb A B C G. eapply TS_put; eauto. apply G. eapply TS_good; eauto. Qed.
  Lemma TS_flags w0 L w i g : TS w0 L w -> ok (mod_body i (mod_flags g) w) (TS w0 L).
  Proof. intros H. unfold mod_body. apply ok_bind, ok_unwrap. intros b Hb. apply ok_ok. eapply TS_same; [exact H|exact Hb|reflexivity|reflexivity|reflexivity|]. intros [P S]. split; [exact P|exact S]. Qed.
  Lemma TS_contact w0 L w i g : TS w0 L w -> ok (mod_contact i g w) (TS w0 L).
  Proof. intros H. unfold mod_contact. apply ok_bind, ok_any. intros c. apply ok_ok. exact H. Qed.
  Lemma TS_wake w0 L w i f : TS w0 L w -> ok (mod_body i (set_awake f) w) (TS w0 L).
  Proof. intros H. eapply ok_mono; [apply (ok_wake w w i f), frame_refl|]. intros w' F. eapply TS_frame; eauto. Qed.

  (** ** one impact *)
  Lemma TS_join w0 bi al e st : TS w0 (is_bodies (snd st)) (fst st) -> ok (toi_join E bi al e st) (fun st => TS w0 (is_bodies (snd st)) (fst st)).
  Proof.
    destruct st as [w is]. cbn [fst snd]. intros H. unfold toi_join. cbv zeta. apply ok_bind, ok_any. intros c. destruct (cf_island _); [apply ok_ok; exact H|].
    apply ok_bind, ok_unwrap. intros o Ho. apply ok_bind, ok_any. intros b. destruct (_ && _); [apply ok_ok; exact H|]. apply ok_bind, ok_any. intros fa. apply ok_bind, ok_any. intros fb. destruct (_ || _); [apply ok_ok; exact H|].
    pose proof (TS_good _ _ _ _ _ H Ho) as Go. set (oi := ge_other e) in *.
    apply ok_bind. apply (ok_mono _ (fun w1 => back w (fun j => j = oi) (fun j => j = oi) w1 /\ TS w0 (oi :: is_bodies is) w1 /\
       (fl_island (b_flags o) = true -> TS w0 (is_bodies is) w1) /\ forall o1, w_bodies w1 oi = Some o1 -> fl_island (b_flags o1) = fl_island (b_flags o))).
    { destruct (fl_island (b_flags o)) eqn:Fo.
      - apply ok_ok. split; [eapply back_weak; [apply back_refl|intros i []|intros i []]|]. split; [eapply TS_weak; [exact H|intros i; right; assumption]|]. split; [auto|]. intros o1 H1. congruence.
      - apply ok_bind, ok_eq. intros o' Eo. apply ok_ok. pose proof (good_advance _ _ _ Go Eo) as (G1 & G2 & G3 & G4 & G5 & G6 & G7). split; [|split; [|split]].
        + eapply back_weak; [eapply back_advance; [apply back_refl|exact Go|exact Ho|exact Eo]|intros i [[]|?]; assumption|intros i [[]|?]; assumption].
        + eapply TS_put; [eapply TS_weak; [exact H|intros i; right; assumption]|exact Ho|exact G2|exact G3|exact G1|exact G7|left; now left].
        + discriminate.
        + intros o1. cbn. unfold put. rewrite Nat.eqb_refl. intros Q. injection Q as <-. now rewrite G4. }
    intros w1 (B1 & H1 & I1 & F1). apply ok_bind. eapply ok_mono; [apply (ok_update E w1 w1), frame_refl|]. intros w2 F2. pose proof (back_frame _ _ _ _ _ B1 F2) as B2. pose proof (TS_frame _ _ _ _ H1 F2) as H2.
    apply ok_bind, ok_any. intros c2. destruct (_ || _).
    - apply ok_bind. unfold mod_body. apply ok_bind, ok_unwrap. intros o2 Ho2. apply ok_ok. apply ok_ok. cbn [fst snd]. eapply TS_back; [exact H|].
      eapply (back_put w (fun j => j = oi) (fun j => j = oi)); [exact B2|exact Ho2|reflexivity|reflexivity|reflexivity|reflexivity|..]; [intros j N Q; contradiction..|].
      intros b0 H0 _ _. replace b0 with o in * by congruence. split; [now left|]. left. apply posed_same; [apply Go|apply posed_sync|reflexivity|reflexivity|reflexivity].
    - cbv zeta. apply ok_bind, ok_unwrap. intros o2 Ho2. cbn in Ho2. assert (Fl : fl_island (b_flags o2) = fl_island (b_flags o)).
      { destruct F2 as (_ & _ & _ & C2). destruct (C2 oi o2 Ho2) as (o1 & Ho1 & S1). apply still_fix in S1 as (_ & _ & S1). rewrite S1. now apply F1. }
      destruct (fl_island (b_flags o2)) eqn:Fo2.
      + apply ok_ok. cbn [fst snd]. change (TS w0 (is_bodies is) w2). eapply TS_frame; [apply I1; now symmetry|exact F2].
      + apply ok_ok. unfold add_body. cbn [fst snd is_bodies]. set (o3 := if is_static _ then _ else _).
        assert (S3 : b_type o3 = b_type o2 /\ b_fixtures o3 = b_fixtures o2 /\ b_xf o3 = b_xf o2 /\ (good o2 -> good o3)).
        { set (o2' := mod_flags (set_fl_island true) o2) in *. assert (Q : CoverOps.still o2' o3) by (unfold o3; destruct (is_static o2'); [apply still_refl|apply still_awake]). pose proof (still_fix _ _ Q) as (Q1 & _).
          split; [apply Q|]. split; [exact Q1|]. split; [apply Q|]. intros [P S]. apply (still_good _ _ Q). split; [exact P|exact S]. }
        clearbody o3. destruct S3 as (S1 & S2 & S3 & S4). eapply (TS_same w0 _ (put_contact (ge_item e) _ w2)); [|exact Ho2|exact S1|exact S2|exact S3|].
        * change (TS w0 (is_bodies is ++ [oi]) w2). eapply TS_weak; [exact H2|]. intros i [->|Q]; apply in_or_app; [right; now left|now left].
        * intros G. destruct (S4 G) as [P S]. split; [exact P|exact S].
  Qed.
  Lemma TS_grow w0 bi al st : TS w0 (is_bodies (snd st)) (fst st) -> ok (toi_grow E bi al st) (fun st => TS w0 (is_bodies (snd st)) (fst st)).
  Proof.
    destruct st as [w is]. intros H. unfold toi_grow. apply ok_bind, ok_any. intros b. destruct (is_dynamic b); [|apply ok_ok; exact H].
    apply (ok_each (fun st => TS w0 (is_bodies (snd st)) (fst st))); [|exact H]. intros e s _. apply TS_join.
  Qed.
  Lemma TS_report w0 L l w : TS w0 L w -> ok (report E l w) (TS w0 L).
  Proof. intros H. unfold report. destruct (w_listener w); [|now apply ok_ok]. apply (ok_each (TS w0 L)); [|exact H]. intros c s _ Hs. unfold listen. apply ok_bind, ok_any. intros x. apply ok_ok. exact Hs. Qed.
  Lemma TS_solve w0 is ia ib dt w : TS w0 (is_bodies is) w -> ok (solve_toi_island E is ia ib dt w) (TS w0 (is_bodies is)).
  Proof.
    intros H. unfold solve_toi_island. apply ok_bind, ok_any. intros _. apply ok_bind, ok_any. intros _. apply ok_bind, ok_any. intros _. apply ok_bind, ok_any. intros _. apply ok_bind, ok_eq. intros s Es. cbv zeta.
    apply ok_bind. eapply ok_mono; [apply (apply_loop (TS w0 (is_bodies is)) w (so_body s) (is_bodies is))|].
    - intros i b Hi Hb Q1 Q2. exact (proj2 HS w is _ _ _ s i b Es Hi Hb Q1 Q2).
    - intros v i b Hv. eapply TS_good; eauto.
    - intros v i b b' Hv Hi Hb G Ty Fx Fl Xf. eapply TS_put; eauto.
    - exact H.
    - reflexivity.
    - intros w1 H1. now apply TS_report.
  Qed.
  Lemma TS_release w0 l : own w0 -> (forall i b, w_bodies w0 i = Some b -> b_type b <> KinematicBody) -> forall w, TS w0 l w -> ok (each toi_release l w) (St w0 none).
  Proof.
    intros O NK. induction l as [|i l IH]; intros w H; cbn [each]; [apply ok_ok, TS_nil; exact H|]. apply ok_bind. eapply ok_mono; [|exact IH]. unfold toi_release. apply ok_bind.
    eapply ok_mono; [apply TS_flags; exact H|]. clear w H. intros w (S & H & K). apply ok_bind, ok_unwrap. intros b Hb. unfold is_dynamic. destruct (btype_eqb_spec (b_type b) DynamicBody) as [Q|Q]; cbn [negb].
    - apply ok_bind. eapply ok_mono; [apply (St_sync w0 S); [exact O|exact H]|]. intros w1 [H1 _].
      apply (ok_each (TS w0 l)).
      + intros e s _. apply TS_contact.
      + exists (fun j => S j /\ j <> i). split; [exact H1|]. intros j [Sj Ne]. destruct (K j Sj) as [[|] M]; [congruence|]. auto.
    - apply ok_ok. exists S. split; [exact H|]. intros j Sj. destruct (K j Sj) as [[->|Hj] M]; [|auto]. destruct M as (b0 & H0 & T0). exfalso. destruct H as [_ (_ & _ & C)]. destruct (C j b Hb) as (b1 & H1 & T1 & _). replace b1 with b0 in * by congruence.
      specialize (NK j b0 H0). rewrite T1 in Q. destruct (b_type b0); congruence.
  Qed.
  Lemma St_event w0 mc al dt w : own w0 -> (forall i b, w_bodies w0 i = Some b -> b_type b <> KinematicBody) -> St w0 none w -> ok (toi_event E mc al dt w) (fun p => St w0 none (fst p)).
  Proof.
    intros O NK H. unfold toi_event. apply ok_bind, ok_any. intros c. apply ok_bind, ok_any. intros a. apply ok_bind, ok_any. intros b. apply ok_bind, ok_unwrap. intros ba Ha. apply ok_bind, ok_unwrap. intros bb Hb. cbv zeta.
    apply ok_bind, ok_eq. intros ba' Ea. pose proof (St_good _ _ _ _ _ H Ha) as Ga. pose proof (good_advance _ _ _ Ga Ea) as (A1 & A2 & A3 & A4 & A5 & A6 & A7).
    pose proof (back_advance w none none w a ba ba' al (back_refl w) Ga Ha Ea) as B1.
    assert (T1 : TS w0 [a; b] (put_body a ba' w)) by (eapply TS_put; [apply TS_St; exact H|exact Ha|exact A2|exact A3|exact A1|exact A7|left; now left]).
    set (w1 := put_body a ba' w) in *. clearbody w1. apply ok_bind, ok_unwrap. intros bb1 Hb1. apply ok_bind, ok_eq. intros bb' Eb. pose proof (TS_good _ _ _ _ _ T1 Hb1) as Gb. pose proof (good_advance _ _ _ Gb Eb) as (C1 & C2 & C3 & C4 & C5 & C6 & C7).
    pose proof (back_advance w _ _ w1 b bb1 bb' al B1 Gb Hb1 Eb) as B2.
    assert (T2 : TS w0 [a; b] (put_body b bb' w1)) by (eapply TS_put; [exact T1|exact Hb1|exact C2|exact C3|exact C1|exact C7|left; right; now left]).
    set (w2 := put_body b bb' w1) in *. clearbody w2. apply ok_bind. eapply ok_mono; [apply (ok_update E w2 w2), frame_refl|]. intros w3 F3. pose proof (back_frame _ _ _ _ _ B2 F3) as B3. pose proof (TS_frame _ _ _ _ T2 F3) as T3.
    apply ok_bind. eapply ok_mono; [apply (ok_contact w3 w3), frame_refl|]. intros w4 F4. pose proof (back_frame _ _ _ _ _ B3 F4) as B4. pose proof (TS_frame _ _ _ _ T3 F4) as T4. apply ok_bind, ok_any. intros c4. destruct (_ || _).
    - apply ok_bind. eapply ok_mono; [apply (ok_contact w4 w4), frame_refl|]. intros w5 F5. pose proof (back_frame _ _ _ _ _ B4 F5) as B5.
      apply ok_bind. eapply ok_mono; [apply (back_sweep w _ _ w5 a ba B5 Ha)|]. intros w6 B6. apply ok_bind. eapply ok_mono; [apply (back_sweep w _ _ w6 b bb B6 Hb)|]. intros w7 B7.
      assert (P : forall i x, w_bodies w i = Some x -> posed x) by (intros i x Hx; apply (St_good _ _ _ _ _ H Hx)).
      apply ok_bind. eapply ok_mono; [eapply (back_xf w _ _ w7 a); [apply P| |exact B7]; cbn; tauto|]. intros w8 B8. apply ok_bind. eapply ok_mono; [eapply (back_xf w _ _ w8 b); [apply P| |exact B8]; cbn; tauto|]. intros w9 B9.
      apply ok_ok. cbn [fst]. eapply St_back; [exact H|]. eapply back_weak; [exact B9|cbn; tauto|cbn; tauto].
    - apply ok_bind. eapply ok_mono; [apply TS_wake; exact T4|]. intros w5 T5. apply ok_bind. eapply ok_mono; [apply TS_wake; exact T5|]. intros w6 T6. apply ok_bind, ok_unwrap. intros xa Hxa. unfold add_body. cbn [is_bodies is_contacts is_joints length].
      set (w7 := put_body a _ w6). assert (T7 : TS w0 [a; b] w7) by (eapply TS_same; [exact T6|exact Hxa|reflexivity|reflexivity|reflexivity|]; intros [P S]; split; [exact P|exact S]). clearbody w7.
      apply ok_bind, ok_unwrap. intros xb Hxb. set (w8 := put_body b _ w7). assert (T8 : TS w0 [a; b] w8) by (eapply TS_same; [exact T7|exact Hxb|reflexivity|reflexivity|reflexivity|]; intros [P S]; split; [exact P|exact S]). clearbody w8.
      apply ok_bind. eapply ok_mono; [apply TS_flags; exact T8|]. intros w9 T9. apply ok_bind. eapply ok_mono; [apply TS_flags; exact T9|]. intros w10 T10. apply ok_bind. eapply ok_mono; [apply TS_contact; exact T10|]. intros w11 T11.
      apply ok_bind. eapply ok_mono; [apply (TS_grow w0); exact T11|]. intros st T12. apply ok_bind. eapply ok_mono; [apply (TS_grow w0); exact T12|]. intros [w13 is] T13. cbn [fst snd] in T13.
      apply ok_bind, ok_any. intros ya. apply ok_bind, ok_any. intros yb. apply ok_bind. eapply ok_mono; [apply TS_solve; exact T13|]. intros w14 T14. apply ok_bind. eapply ok_mono; [apply (TS_release w0); [exact O|exact NK|exact T14]|].
      intros w15 T15. apply ok_bind. eapply ok_mono; [apply (St_find E w0); [exact O|exact T15]|]. intros w16 T16. apply ok_ok. exact T16.
  Qed.

  (** ** the loop *)
  Lemma St_scan w0 i st : St w0 none (fst (fst st)) -> ok (toi_scan1 E i st) (fun st => St w0 none (fst (fst st))).
  Proof.
    destruct st as [[w best] ba]. cbn [fst]. intros H. unfold toi_scan1. cbv zeta. apply ok_bind, ok_any. intros c. destruct (negb _); [apply ok_ok; exact H|]. destruct (Z.ltb _ _); [apply ok_ok; exact H|].
    destruct (cf_toi _); [apply ok_ok; destruct (nlt _ _); exact H|]. apply ok_bind, ok_any. intros fa. apply ok_bind, ok_any. intros fb. destruct (_ || _); [apply ok_ok; exact H|].
    apply ok_bind, ok_any. intros a. apply ok_bind, ok_any. intros b. apply ok_bind, ok_unwrap. intros xa Ha. apply ok_bind, ok_unwrap. intros xb Hb. apply ok_bind, ok_any. intros _.
    destruct (_ && _); [apply ok_ok; exact H|]. destruct (_ && _); [apply ok_ok; exact H|].
    apply ok_bind. apply (ok_mono _ (fun p => St w0 none (fst p))).
    { destruct (nlt _ _); [|destruct (nlt _ _)]; [apply ok_bind, ok_eq; intros s Es; apply ok_ok; cbn [fst]..|apply ok_ok; exact H].
      - eapply St_put; [exact H|exact Ha|reflexivity|reflexivity|eapply good_scan; [eapply St_good; eauto|exact Es]|right; reflexivity].
      - eapply St_put; [exact H|exact Hb|reflexivity|reflexivity|eapply good_scan; [eapply St_good; eauto|exact Es]|right; reflexivity]. }
    intros [w1 al0] H1. cbn [fst] in H1. apply ok_bind, ok_any. intros _. apply ok_bind, ok_any. intros [touching beta]. apply ok_bind. unfold mod_contact. apply ok_bind, ok_any. intros x. apply ok_ok. apply ok_ok. destruct (nlt _ _); exact H1.
  Qed.
  Lemma St_loop w0 dt fuel : own w0 -> (forall i b, w_bodies w0 i = Some b -> b_type b <> KinematicBody) -> forall w, St w0 none w -> ok (toi_loop E fuel dt w) (St w0 none).
  Proof.
    intros O NK. induction fuel as [|fuel IH]; intros w H; cbn [toi_loop]; [intros a Q; discriminate Q|]. apply ok_bind.
    eapply ok_mono; [apply (ok_each (fun st => St w0 none (fst (fst st)))); [intros i s _; apply St_scan|exact H]|]. intros [[w1 best] al] H1. cbn [fst] in H1. destruct best as [mc|]; [|apply ok_ok; exact H1].
    destruct (nlt _ _); [apply ok_ok; exact H1|]. apply ok_bind. eapply ok_mono; [apply (St_event w0); [exact O|exact NK|exact H1]|]. intros [w2 solid] H2. cbn [fst] in H2. destruct (_ && _); [apply ok_ok; exact H2|]. now apply IH.
  Qed.
  Lemma St_toi w0 dt w : own w0 -> (forall i b, w_bodies w0 i = Some b -> b_type b <> KinematicBody) -> St w0 none w -> ok (solve_toi E dt w) (St w0 none).
  Proof.
    intros O NK H. unfold solve_toi. apply ok_bind. eapply ok_mono; [|intros w1 H1; apply (St_loop w0); [exact O|exact NK|exact H1]]. destruct (w_step_complete w); [|now apply ok_ok]. unfold toi_reset. apply ok_bind.
    eapply ok_mono; [apply (ok_each (St w0 none)); [|exact H]|].
    - intros i s _ Hs. unfold mod_body. apply ok_bind, ok_unwrap. intros b Hb. apply ok_ok. pose proof (St_good _ _ _ _ _ Hs Hb) as [P S]. eapply St_put; [exact Hs|exact Hb|reflexivity|reflexivity| |right; reflexivity]. split; [exact P|exact S].
    - intros w1 H1. apply (ok_each (St w0 none)); [|exact H1]. intros c s _ Hs. unfold mod_contact. apply ok_bind, ok_any. intros x. apply ok_ok. exact Hs.
  Qed.
  Lemma J_step dt w : own w -> J none w -> (w_continuous w = true -> forall i b, w_bodies w i = Some b -> b_type b <> KinematicBody) -> ok (step E dt w) (J none).
  Proof.
    intros O H NK. unfold step.
    assert (H0 : St w none w). { split; [eapply J_weak; [exact H|intros f []]|apply kin_refl]. }
    apply ok_bind. apply (ok_mono _ (St w none)).
    { destruct (w_new_contacts w); [|apply ok_ok; exact H0]. apply ok_bind. eapply ok_mono; [apply (St_find E w); [exact O|exact H0]|]. intros v Hv. apply ok_ok. exact Hv. }
    intros w1 H1. cbv zeta. set (w2 := set_w_locked true w1). assert (H2 : St w none w2) by exact H1. clearbody w2. clear w1 H1.
    apply ok_bind. eapply ok_mono; [apply (ok_collide E w2 w2), frame_refl|]. intros w3 F3. pose proof (St_frame _ _ _ _ H2 F3) as H3. apply ok_bind. apply (ok_mono _ (St w none)).
    { destruct (_ && _); [|apply ok_ok; exact H3]. apply St_solve; [exact HS|exact O|exact H3]. }
    intros w4 H4. apply ok_bind. apply (ok_mono _ (St w none)).
    { destruct (w_continuous w4) eqn:C4; [|apply ok_ok; exact H4]. destruct (nlt _ _); [|apply ok_ok; exact H4]. cbn [andb]. apply St_toi; [exact O| |exact H4]. apply NK. destruct H4 as [_ (_ & L & _)]. unfold fixed in L. congruence. }
    intros w5 H5. apply ok_bind. apply (ok_mono _ (St w none)).
    { set (w6 := if nlt _ _ then _ else _). assert (H6 : St w none w6) by (unfold w6; destruct (nlt _ _); exact H5). clearbody w6. destruct (w_clear_forces w6); [|apply ok_ok; exact H6]. unfold clear_forces.
      eapply ok_mono; [apply (frame_each w6); repeat split|]. intros v F. eapply St_frame; eauto. }
    intros w7 [H7 _]. apply ok_ok. change (J none w7). eapply J_weak; [exact H7|]. intros f (x & i & _ & _ & []).
  Qed.
End Toi.

Lemma treach_wreach E w : treach E w -> wreach E w.
Proof. induction 1; [eapply wreach_new; eauto|eapply wreach_call; eauto]. Qed.
Lemma treach_J E w : answers E -> holds_static E -> treach E w -> J none w.
Proof.
  intros EA HS. induction 1 as [l g w H|w c w' H IH Ht Hr]; [eapply J_new; eauto|]. pose proof (reach_W E EA w (treach_wreach E w H)) as HW.
  assert (D : (exists dt, c = WStep dt) \/ forall dt, c <> WStep dt) by (destruct c; try (right; intros; discriminate); left; eauto). destruct D as [[dt ->]|D].
  - cbn in Hr, Ht. apply (J_step E HS dt w (own_W _ _ _ HW) IH Ht w' Hr).
  - eapply J_run; eauto.
Qed.
