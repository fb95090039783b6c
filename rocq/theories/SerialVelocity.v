(** The velocity of a loaded body. *)
From Coq Require Import List ZArith Bool Arith Lia Reals Lra.
From Verif Require Import Base Num Math RTac Collision Manifold Filter ShapeModel ListFacts DynModel WorldModel WorldClaims SerialModel SerialSpec SerialProofs SerialSave SerialFinal.
Import ListNotations.

Section Invariant.
  Local Open Scope nat_scope.
  Context {T D : Type} `{NT : Num T} `{TT : NumTrig T} `{VT : NumValid T}.
  Notation world := (world T).
  Notation sworld := (sworld T D).
  Notation file := (file T D).
  (* what holds of a new body and is kept by all that loading does to it *)
  Variable P : body_def T -> body T -> Prop.
  Hypothesis P_new : forall d b, body_new d = Ok b -> P d b.
  Hypothesis P_fixture : forall d b n l, P d b -> P d (set_b_fixture_count n (set_b_fixtures l b)).
  Hypothesis P_reset : forall d b fs b', P d b -> reset_mass_data fs b = Ok b' -> P d b'.
  Hypothesis P_joint : forall d b l, P d b -> P d (set_b_joints l b).

  Lemma fixture_keeps d i fd w w' f b : create_fixture i fd w = Ok (w', f) -> w_bodies w i = Some b -> P d b -> exists b', w_bodies w' i = Some b' /\ P d b'.
  Proof.
    unfold create_fixture. intros H Hb HP. apply bind_ok in H as (u0 & _ & H). apply bind_ok in H as (b0 & Hb0 & H). apply unwrap_ok in Hb0. rewrite Hb in Hb0. injection Hb0 as <-.
    apply bind_ok in H as (x & Hx & H). apply bind_ok in H as (w1 & E1 & H). apply bind_ok in H as (w2 & E2 & H). apply bind_ok in H as (w3 & E3 & H). injection H as <- <-.
    assert (B1 : w_bodies w1 i = Some b).
    { destruct (is_enabled b); [apply proxies_says in E1 as (_ & -> & _)|injection E1 as <-]; exact Hb. }
    unfold mod_body in E2. apply bind_ok in E2 as (b1 & Hb1 & E2). apply unwrap_ok in Hb1. rewrite B1 in Hb1. injection Hb1 as <-. injection E2 as <-.
    destruct (nlt _ _).
    - apply reset_says in E3 as (fs & b2 & b3 & B2 & Rs & ->). cbn in B2. rewrite put_same in B2. injection B2 as <-. exists b3. cbn. rewrite put_same. split; [reflexivity|].
      eapply P_reset; [|exact Rs]. apply P_fixture. exact HP.
    - injection E3 as <-. cbn. rewrite put_same. eexists. split; [reflexivity|]. apply P_fixture. exact HP.
  Qed.
  Lemma fixtures_keep d i ds : forall w w' b, each (fun d w => '(w, _) <- create_fixture i d w ;; Ok w) ds w = Ok w' -> w_bodies w i = Some b -> P d b -> exists b', w_bodies w' i = Some b' /\ P d b'.
  Proof.
    induction ds as [|x ds IH]; intros w w' b H Hb HP; cbn [each] in H; [injection H as <-; eauto|]. apply bind_ok in H as (w1 & E & H). apply bind_ok in E as ([w1' f] & E & E'). injection E' as ->.
    destruct (fixture_keeps d i x w w1 f b E Hb HP) as (b1 & B1 & P1). eapply IH; eauto.
  Qed.
  Lemma body_keeps r w w' : load_body r w = Ok w' -> exists b, w_bodies w' (w_next_body w) = Some b /\ P (fst r) b.
  Proof.
    destruct r as [d ds]. unfold load_body. intros H. apply bind_ok in H as ([w1 i] & E & H). unfold create_body in E. apply bind_ok in E as (? & _ & E).
    apply bind_ok in E as (b & Eb & E). injection E as <- <-. cbn [fst snd] in H. eapply fixtures_keep; [exact H|cbn; apply put_same|apply P_new; exact Eb].
  Qed.
  Lemma bodies_keep l : forall w w', each load_body l w = Ok w' -> forall k r, nth_error l k = Some r -> exists b, w_bodies w' (w_next_body w + k) = Some b /\ P (fst r) b.
  Proof.
    induction l as [|r l IH]; intros w w' H k q K; [destruct k; discriminate|]. cbn [each] in H. apply bind_ok in H as (w1 & E & H). pose proof (load_body_says _ _ _ E) as (P1 & _). destruct k as [|k].
    - injection K as <-. destruct (body_keeps r w w1 E) as (b & B & HP). exists b. split; [|exact HP]. apply load_bodies_says in H as (_ & _ & _ & _ & _ & _ & _ & _ & Q9 & _). rewrite Nat.add_0_r, Q9 by lia. exact B.
    - cbn in K. destruct (IH w1 w' H k q K) as (b & B & HP). exists b. split; [|exact HP]. rewrite P1 in B. now replace (w_next_body w + S k) with (S (w_next_body w) + k) by lia.
  Qed.
  Lemma load_keeps (f : file) s : load f = Ok s -> forall k r, nth_error (fi_bodies f) k = Some r -> exists b, w_bodies (s_world s) k = Some b /\ P (fst r) b.
  Proof.
    intros H k r K. unfold load in H. apply bind_ok in H as (w0 & E0 & H). apply bind_ok in H as (w1 & E1 & H). apply bind_ok in H as (s1 & E2 & H).
    unfold world_new in E0. apply bind_ok in E0 as (bp & _ & E0). injection E0 as <-. destruct (bodies_keep _ _ _ E1 k r K) as (b & B & HP). cbn in B.
    apply load_joints_says in E2 as (_ & _ & _ & _ & _ & _ & _ & _ & B9 & _). apply load_joints_says in H as (_ & _ & _ & _ & _ & _ & _ & _ & C9 & _). cbn [s_world] in *.
    destruct (B9 k b B) as (l1 & B1). destruct (C9 k _ B1) as (l2 & B2). eexists. split; [exact B2|]. auto.
  Qed.
  (* the new velocity and centre *)
  Lemma reset_moves (b : body T) fs b' : reset_mass_data fs b = Ok b' -> b_xf b' = b_xf b /\ b_av b' = b_av b /\
    ((is_dynamic b = false /\ b_lv b' = b_lv b /\ sw_c (b_sweep b') = xp (b_xf b)) \/
     (is_dynamic b' = true /\ b_lv b' = vadd (b_lv b) (b2_cross_sv (b_av b) (vsub (sw_c (b_sweep b')) (sw_c (b_sweep b)))))).
  Proof.
    unfold reset_mass_data, is_dynamic. destruct b as [ty fl ii xf sw lv av fo to fx fc js cs ms im bi ibi ld ad gs st]. cbn. destruct ty.
    - intros H. injection H as <-. cbn. split; [reflexivity|]. split; [reflexivity|]. left. repeat split.
    - intros H. injection H as <-. cbn. split; [reflexivity|]. split; [reflexivity|]. left. repeat split.
    - intros H. apply bind_ok in H as ([[m c] i] & _ & H).
      destruct (nlt (nofZ 0) m); cbn in H; destruct (nlt (nofZ 0) i && negb (fl_fixed_rotation fl)); cbn in H;
        [apply bind_ok in H as (? & H0 & H); apply bind_ok in H0 as (? & _ & H0); injection H0 as <-; injection H as <-
        |injection H as <-
        |apply bind_ok in H as (? & H0 & H); apply bind_ok in H0 as (? & _ & H0); injection H0 as <-; injection H as <-
        |injection H as <-]; cbn; (split; [reflexivity|]; split; [reflexivity|]; right; split; reflexivity).
  Qed.
End Invariant.

(** ** over the real numbers *)
Section Velocity.
  Context {D : Type} `{VT : NumValid R}.
  (* the velocity written in the file is taken as the velocity of the origin of the body *)
  Definition loaded_velocity (d : body_def R) (b : body R) : Prop :=
    b_lv b = vadd (bd_lv d) (b2_cross_sv (b_av b) (vsub (sw_c (b_sweep b)) (xp (b_xf b)))) /\ (is_dynamic b = false -> sw_c (b_sweep b) = xp (b_xf b)).
  Lemma reset_velocity d b fs b' : loaded_velocity d b -> reset_mass_data fs b = Ok b' -> loaded_velocity d b'.
  Proof.
    intros (V & C) H. apply reset_moves in H as (A1 & A2 & [(A3 & A4 & A5)|(A3 & A4)]); unfold loaded_velocity; rewrite A1, A2.
    - rewrite A4, A5, V, C by exact A3. split; reflexivity.
    - rewrite A4, V. split; [|intros H; exfalso; congruence]. destruct (xp (b_xf b)) as [px py], (sw_c (b_sweep b)) as [cx cy], (sw_c (b_sweep b')) as [dx dy], (bd_lv d) as [ux uy].
      unfold vadd, vsub, b2_cross_sv. cbn. f_equal; rops; ring.
  Qed.
  Lemma loaded_velocities (f : file R D) s : load f = Ok s -> forall k r, nth_error (fi_bodies f) k = Some r -> exists b, w_bodies (s_world s) k = Some b /\ loaded_velocity (fst r) b.
  Proof.
    intros H. refine (load_keeps loaded_velocity _ _ _ _ f s H).
    - intros d b E. unfold body_new in E. repeat (apply bind_ok in E as (? & _ & E)). injection E as <-. unfold loaded_velocity. cbn. split; [|reflexivity].
      destruct (bd_lv d), (bd_position d). unfold vadd, vsub, b2_cross_sv. cbn. f_equal; rops; ring.
    - intros d b n l (V & C). destruct b. exact (conj V C).
    - intros d b fs b'. apply reset_velocity.
    - intros d b l (V & C). destruct b. exact (conj V C).
  Qed.
  Lemma copied_velocity (s s1 s2 : sworld R D) (f : file R D) : fixture_graph (s_world s) -> joint_graph (s_world s) -> described s -> save s = Ok (s1, f) -> load f = Ok s2 ->
    forall x y b b', image s s2 x y -> w_bodies (s_world s) x = Some b -> w_bodies (s_world s2) y = Some b' ->
    b_lv b' = vadd (b_lv b) (b2_cross_sv (b_av b) (vsub (sw_c (b_sweep b')) (xp (b_xf b)))).
  Proof.
    intros FG JG DS SV LD x y b b' Im Hb Hb'. pose proof (image_place _ _ _ LD _ _ Im) as P. destruct (was_written _ _ _ FG JG DS SV) as (_ & W & _). destruct (Forall2_nth _ _ _ _ _ W P) as (r & Rr & b0 & fs & B0 & _ & ->).
    rewrite Hb in B0. injection B0 as <-. destruct (loaded_velocities f s2 LD _ _ Rr) as (b1 & B1 & V & _). rewrite Hb' in B1. injection B1 as <-. cbn in V.
    destruct (bodies_place _ _ _ _ FG JG DS SV LD _ _ P) as (_ & b1 & b1' & E1 & E2 & (_ & X2 & _ & X4 & _) & _). rewrite Hb in E1. injection E1 as <-. rewrite Hb' in E2. injection E2 as <-.
    rewrite V, X2, X4. reflexivity.
  Qed.
End Velocity.
