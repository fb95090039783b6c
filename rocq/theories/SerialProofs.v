(** Loading a world: what each call does, and the loops. *)
From Coq Require Import List ZArith Bool Arith Lia.
From Verif Require Import Base Num Math Collision Filter ShapeModel ListFacts DynModel WorldModel SerialModel.
Import ListNotations.

Lemma put_same {A} (m : nat -> option A) i x : put m i x i = x.
Proof. unfold put. now rewrite Nat.eqb_refl. Qed.
Lemma put_other {A} (m : nat -> option A) i j x : j <> i -> put m i x j = m j.
Proof. unfold put. intros H. apply Nat.eqb_neq in H. now rewrite H. Qed.
Lemma unwrap_ok {A} (o : option A) a : unwrap o = Ok a -> o = Some a.
Proof. destruct o; cbn; congruence. Qed.
Lemma assert_ok b u : b2_assert b = Ok u -> b = true.
Proof. destruct b; cbn; congruence. Qed.

Section Serial.
  Local Open Scope num_scope.
  Local Open Scope nat_scope.
  Context {T D : Type} `{NT : Num T} `{TT : NumTrig T} `{VT : NumValid T}.
  Notation world := (world T).
  Notation sworld := (sworld T D).
  Notation file := (file T D).
  Implicit Types w : world.

  (** ** one body *)
  (* what the mass of a body does not touch *)
  Definition placed_alike (b b' : body T) : Prop :=
    b_type b' = b_type b /\ b_flags b' = b_flags b /\ b_xf b' = b_xf b /\ sw_a (b_sweep b') = sw_a (b_sweep b) /\ b_av b' = b_av b /\
    b_linear_damping b' = b_linear_damping b /\ b_angular_damping b' = b_angular_damping b /\ b_gravity_scale b' = b_gravity_scale b /\
    b_joints b' = b_joints b /\ b_contacts b' = b_contacts b.
  Lemma alike_refl b : placed_alike b b.
  Proof. repeat split. Qed.
  Lemma alike_trans a b c : placed_alike a b -> placed_alike b c -> placed_alike a c.
  Proof. unfold placed_alike. intuition congruence. Qed.
  Lemma reset_alike fs b b' : reset_mass_data fs b = Ok b' -> placed_alike b b' /\ b_fixtures b' = b_fixtures b.
  Proof.
    unfold reset_mass_data. destruct b as [ty fl ii xf sw lv av fo to fx fc js cs ms im bi ibi ld ad gs st]. cbn. destruct ty.
    - intros H. injection H as <-. cbn. repeat split.
    - intros H. injection H as <-. cbn. repeat split.
    - intros H. apply bind_ok in H as ([[m c] i] & _ & H). destruct (m >? #0); cbn in H; destruct ((i >? #0) && negb (fl_fixed_rotation fl)); cbn in H;
        [apply bind_ok in H as (? & H0 & H); apply bind_ok in H0 as (? & _ & H0); injection H0 as <-; injection H as <-; cbn; repeat split
        |injection H as <-; cbn; repeat split
        |apply bind_ok in H as (? & H0 & H); apply bind_ok in H0 as (? & _ & H0); injection H0 as <-; injection H as <-; cbn; repeat split
        |injection H as <-; cbn; repeat split].
  Qed.

  (* everything but bodies, fixtures and the broad phase *)
  Definition rest_same w w' : Prop :=
    w_contacts w' = w_contacts w /\ w_joints w' = w_joints w /\ w_next_body w' = w_next_body w /\ w_next_joint w' = w_next_joint w /\
    w_body_list w' = w_body_list w /\ w_joint_list w' = w_joint_list w /\ w_locked w' = w_locked w.
  Lemma rest_refl w : rest_same w w.
  Proof. repeat split. Qed.
  Lemma rest_trans a b c : rest_same a b -> rest_same b c -> rest_same a c.
  Proof. unfold rest_same. intuition congruence. Qed.

  Lemma proxies_says f xf w w' : create_proxies f xf w = Ok w' ->
    rest_same w w' /\ w_bodies w' = w_bodies w /\ w_next_fixture w' = w_next_fixture w /\ (forall g, g <> f -> w_fixtures w' g = w_fixtures w g) /\
    exists x x', w_fixtures w f = Some x /\ w_fixtures w' f = Some x' /\ fixture_save x' = fixture_save x /\ f_body x' = f_body x.
  Proof.
    unfold create_proxies. intros H. apply bind_ok in H as (x & Hx & H). apply unwrap_ok in Hx. apply bind_ok in H as (? & _ & H). apply bind_ok in H as (n & _ & H).
    apply bind_ok in H as ([ps bp] & _ & H). injection H as <-. cbn. refine (conj _ (conj eq_refl (conj eq_refl (conj _ _)))).
    - repeat split.
    - intros g G. now apply put_other.
    - exists x, (set_f_proxies ps (set_f_proxy_count n x)). rewrite put_same. repeat split; auto.
  Qed.
  Lemma reset_says i w w' : reset_mass i w = Ok w' -> exists fs b b', w_bodies w i = Some b /\ reset_mass_data fs b = Ok b' /\ w' = put_body i b' w.
  Proof.
    unfold reset_mass. intros H. apply bind_ok in H as (b & Hb & H). apply unwrap_ok in Hb. apply bind_ok in H as (fs & _ & H). apply bind_ok in H as (b' & E & H).
    injection H as <-. eauto 8.
  Qed.
  Lemma fixture_says i d w w' f : create_fixture i d w = Ok (w', f) ->
    rest_same w w' /\ f = w_next_fixture w /\ w_next_fixture w' = S f /\ (forall j, j <> i -> w_bodies w' j = w_bodies w j) /\ (forall g, g <> f -> w_fixtures w' g = w_fixtures w g) /\
    exists b b' x, w_bodies w i = Some b /\ w_bodies w' i = Some b' /\ placed_alike b b' /\ b_fixtures b' = f :: b_fixtures b /\
      w_fixtures w' f = Some x /\ fixture_save x = d /\ f_body x = Some i.
  Proof.
    unfold create_fixture. intros H. apply bind_ok in H as (u0 & _ & H). apply bind_ok in H as (b & Hb & H). apply unwrap_ok in Hb.
    apply bind_ok in H as (x & Hx & H). apply bind_ok in H as (w1 & E1 & H). apply bind_ok in H as (w2 & E2 & H). apply bind_ok in H as (w3 & E3 & H).
    assert (Fx : fixture_save x = d /\ f_body x = Some i).
    { unfold fixture_new in Hx. apply bind_ok in Hx as (n & _ & Hx). injection Hx as <-. split; [now destruct d|reflexivity]. }
    set (f0 := w_next_fixture w) in *. set (w0 := set_w_next_fixture (S f0) (put_fixture f0 x w)) in *.
    assert (A1 : rest_same w w1 /\ w_bodies w1 = w_bodies w /\ w_next_fixture w1 = S f0 /\ (forall g, g <> f0 -> w_fixtures w1 g = w_fixtures w g) /\
              exists x', w_fixtures w1 f0 = Some x' /\ fixture_save x' = d /\ f_body x' = Some i).
    { destruct (is_enabled b).
      - apply proxies_says in E1 as (R1 & Bs & Nf & Fs & x1 & x' & X1 & X' & Sv & Bd). cbn in *. rewrite put_same in X1. injection X1 as <-.
        refine (conj _ (conj Bs (conj Nf (conj _ _)))).
        + exact R1.
        + intros g G. rewrite Fs by auto. now apply put_other.
        + exists x'. intuition congruence.
      - injection E1 as <-. refine (conj _ (conj eq_refl (conj eq_refl (conj _ _)))).
        + repeat split.
        + intros g G. cbn. now apply put_other.
        + exists x. cbn. rewrite put_same. tauto. }
    destruct A1 as (R1 & Bs & Nf & Fs & x' & X' & Sv & Bd).
    unfold mod_body in E2. apply bind_ok in E2 as (b1 & Hb1 & E2). apply unwrap_ok in Hb1. rewrite Bs, Hb in Hb1. injection Hb1 as <-. injection E2 as E2.
    set (b2 := set_b_fixture_count (S (b_fixture_count b)) (set_b_fixtures (f0 :: b_fixtures b) b)) in *.
    assert (A3 : rest_same w2 w3 /\ w_next_fixture w3 = w_next_fixture w2 /\ w_fixtures w3 = w_fixtures w2 /\ (forall j, j <> i -> w_bodies w3 j = w_bodies w2 j) /\
              exists b3, w_bodies w3 i = Some b3 /\ placed_alike b2 b3 /\ b_fixtures b3 = b_fixtures b2).
    { assert (B2 : w_bodies w2 i = Some b2) by (subst w2; cbn; apply put_same). destruct (fd_density d >? #0).
      - apply reset_says in E3 as (fs & b3 & b4 & B3 & E3 & ->). rewrite B2 in B3. injection B3 as <-. apply reset_alike in E3 as (A & F).
        refine (conj _ (conj eq_refl (conj eq_refl (conj _ _)))).
        + repeat split.
        + intros j J. cbn. now apply put_other.
        + exists b4. cbn. rewrite put_same. auto.
      - injection E3 as <-. refine (conj (rest_refl _) (conj eq_refl (conj eq_refl (conj (fun j _ => eq_refl) _)))). exists b2. split; [exact B2|]. split; [apply alike_refl|reflexivity]. }
    destruct A3 as (R3 & Nf3 & Fs3 & Bs3 & b3 & B3 & Al & Fl). injection H as <- <-.
    assert (R2 : rest_same w1 w2) by (subst w2; repeat split).
    refine (conj _ (conj eq_refl (conj _ (conj _ (conj _ _))))).
    - pose proof (rest_trans _ _ _ (rest_trans _ _ _ R1 R2) R3) as R. exact R.
    - cbn. rewrite Nf3. subst w2. exact Nf.
    - intros j J. cbn. rewrite Bs3 by auto. subst w2. cbn. rewrite put_other, Bs; auto.
    - intros g G. cbn. rewrite Fs3. subst w2. cbn. auto.
    - exists b, b3, x'. refine (conj Hb (conj _ (conj _ (conj _ (conj _ (conj Sv Bd)))))).
      + exact B3.
      + eapply alike_trans; [|exact Al]. subst b2. repeat split.
      + rewrite Fl. reflexivity.
      + cbn. rewrite Fs3. subst w2. exact X'.
  Qed.

  (* the fixtures of a body, in the order in which they were made *)
  Definition fixtures_are w (b : body T) (ds : list (fixture_def T)) : Prop :=
    exists fs, map (w_fixtures w) (rev (b_fixtures b)) = map Some fs /\ map fixture_save fs = ds /\ (forall g, In g (b_fixtures b) -> g < w_next_fixture w).
  Lemma fixtures_says i ds : forall w w' b ds0, each (fun d w => '(w, _) <- create_fixture i d w ;; Ok w) ds w = Ok w' -> w_bodies w i = Some b -> fixtures_are w b ds0 ->
    rest_same w w' /\ w_next_fixture w <= w_next_fixture w' /\ (forall j, j <> i -> w_bodies w' j = w_bodies w j) /\
    (forall g, g < w_next_fixture w -> w_fixtures w' g = w_fixtures w g) /\
    exists b', w_bodies w' i = Some b' /\ placed_alike b b' /\ fixtures_are w' b' (ds0 ++ ds).
  Proof.
    induction ds as [|d ds IH]; intros w w' b ds0 H Hb F.
    - injection H as <-. refine (conj (rest_refl _) (conj (le_n _) (conj (fun j _ => eq_refl) (conj (fun g _ => eq_refl) _)))). exists b. rewrite app_nil_r. split; [exact Hb|split; [apply alike_refl|exact F]].
    - cbn [each] in H. apply bind_ok in H as (w1 & E & H). apply bind_ok in E as ([w1' f] & E & E'). injection E' as ->.
      apply fixture_says in E as (R1 & Ef & Nf & Bs & Fs & b1 & b' & x & B1 & B' & Al & Fl & X & Sv & _). rewrite Hb in B1. injection B1 as <-.
      assert (F1 : fixtures_are w1 b' (ds0 ++ [d])).
      { destruct F as (fs & F1 & F2 & F3). exists (fs ++ [x]). rewrite Fl. cbn [rev]. rewrite !map_app, <- F1. cbn. rewrite X, Sv, F2. refine (conj _ (conj eq_refl _)).
        - f_equal. apply map_ext_in. intros g G. apply in_rev in G. apply F3 in G. apply Fs. lia.
        - intros g [<-|G]; [lia|]. apply F3 in G. lia. }
      destruct (IH _ _ _ _ H B' F1) as (R2 & L2 & Bs2 & Fs2 & b2 & B2 & Al2 & F2).
      refine (conj (rest_trans _ _ _ R1 R2) (conj _ (conj _ (conj _ _)))).
      + lia.
      + intros j J. rewrite Bs2, Bs; auto.
      + intros g G. rewrite Fs2 by lia. apply Fs. lia.
      + exists b2. split; [exact B2|]. split; [eapply alike_trans; eauto|]. now rewrite <- app_assoc in F2.
  Qed.

  (** ** the bodies *)
  (* the body was made from this definition *)
  Definition made_from (d : body_def T) (b : body T) : Prop :=
    b_type b = bd_type d /\ b_xf b = Xf (bd_position d) (rot_of (bd_angle d)) /\ sw_a (b_sweep b) = bd_angle d /\ b_av b = bd_av d /\
    b_linear_damping b = bd_linear_damping d /\ b_angular_damping b = bd_angular_damping d /\ b_gravity_scale b = bd_gravity_scale d /\
    b_flags b = BFlags false (bd_awake d && negb (btype_eqb (bd_type d) StaticBody)) (bd_allow_sleep d) (bd_bullet d) (bd_fixed_rotation d) (bd_enabled d) false.
  Lemma made_alike d b b' : made_from d b -> placed_alike b b' -> made_from d b'.
  Proof. unfold made_from, placed_alike. intuition congruence. Qed.
  Definition body_loaded w (r : body_def T * list (fixture_def T)) (b : body T) : Prop := made_from (fst r) b /\ fixtures_are w b (snd r) /\ b_contacts b = [] /\ b_joints b = [].
  Lemma load_body_says r w w' : load_body r w = Ok w' ->
    w_next_body w' = S (w_next_body w) /\ w_body_list w' = w_next_body w :: w_body_list w /\ w_contacts w' = w_contacts w /\ w_joints w' = w_joints w /\
    w_next_joint w' = w_next_joint w /\ w_joint_list w' = w_joint_list w /\ w_locked w' = w_locked w /\ w_next_fixture w <= w_next_fixture w' /\
    (forall j, j <> w_next_body w -> w_bodies w' j = w_bodies w j) /\ (forall g, g < w_next_fixture w -> w_fixtures w' g = w_fixtures w g) /\
    exists b, w_bodies w' (w_next_body w) = Some b /\ body_loaded w' r b.
  Proof.
    destruct r as [d ds]. unfold load_body. intros H. apply bind_ok in H as ([w1 i] & E & H). unfold create_body in E. apply bind_ok in E as (? & _ & E).
    apply bind_ok in E as (b & Eb & E). injection E as <- <-. cbn [fst snd] in H.
    set (i := w_next_body w) in *.
    match type of H with each _ _ ?v = _ => set (w0 := v) in * end.
    assert (B0 : w_bodies w0 i = Some b) by (subst w0; cbn; apply put_same).
    assert (Mb : made_from d b /\ b_fixtures b = [] /\ b_contacts b = [] /\ b_joints b = []).
    { unfold body_new in Eb. repeat (apply bind_ok in Eb as (? & _ & Eb)). injection Eb as <-. repeat split. }
    destruct Mb as (Mb & Mf & Mc & Mj).
    assert (F0 : fixtures_are w0 b []) by (exists []; rewrite Mf; repeat split; intros ? []).
    destruct (fixtures_says i ds w0 w' b [] H B0 F0) as ((Q1 & Q2 & Q3 & Q4 & Q5 & Q6 & Q7) & L & Bs & Fs & b' & B' & Al & F').
    subst w0. cbn in *. refine (conj Q3 (conj Q5 (conj Q1 (conj Q2 (conj Q4 (conj Q6 (conj Q7 (conj L (conj _ (conj Fs _)))))))))).
    - intros j J. rewrite Bs by auto. now apply put_other.
    - exists b'. split; [exact B'|]. split; [eapply made_alike; eauto|]. split; [exact F'|]. destruct Al as (_ & _ & _ & _ & _ & _ & _ & _ & J1 & J2). split; congruence.
  Qed.
  Lemma fixtures_later w w' b ds : fixtures_are w b ds -> w_next_fixture w <= w_next_fixture w' -> (forall g, g < w_next_fixture w -> w_fixtures w' g = w_fixtures w g) -> fixtures_are w' b ds.
  Proof.
    intros (fs & F1 & F2 & F3) L Fs. exists fs. rewrite <- F1. refine (conj _ (conj F2 _)).
    - apply map_ext_in. intros g G. apply in_rev in G. apply Fs; auto.
    - intros g G. apply F3 in G. lia.
  Qed.
  Lemma load_bodies_says l : forall w w', each load_body l w = Ok w' ->
    w_next_body w' = w_next_body w + length l /\ w_body_list w' = rev (seq (w_next_body w) (length l)) ++ w_body_list w /\ w_contacts w' = w_contacts w /\ w_joints w' = w_joints w /\
    w_next_joint w' = w_next_joint w /\ w_joint_list w' = w_joint_list w /\ w_locked w' = w_locked w /\ w_next_fixture w <= w_next_fixture w' /\
    (forall j, j < w_next_body w -> w_bodies w' j = w_bodies w j) /\ (forall g, g < w_next_fixture w -> w_fixtures w' g = w_fixtures w g) /\
    forall k r, nth_error l k = Some r -> exists b, w_bodies w' (w_next_body w + k) = Some b /\ body_loaded w' r b.
  Proof.
    induction l as [|r l IH]; intros w w' H.
    - injection H as <-. cbn. rewrite Nat.add_0_r. repeat (split; [solve [auto]|]). intros k r. destruct k; discriminate.
    - cbn [each] in H. apply bind_ok in H as (w1 & E & H). apply load_body_says in E as (P1 & P2 & P3 & P4 & P5 & P6 & P7 & P8 & P9 & P10 & b & B & BL).
      destruct (IH _ _ H) as (Q1 & Q2 & Q3 & Q4 & Q5 & Q6 & Q7 & Q8 & Q9 & Q10 & Q11). rewrite P1 in *. cbn [length].
      refine (conj _ (conj _ (conj _ (conj _ (conj _ (conj _ (conj _ (conj _ (conj _ (conj _ _)))))))))); try congruence; try lia.
      + rewrite Q2, P2. cbn [seq rev]. now rewrite <- app_assoc.
      + intros j J. rewrite Q9 by lia. apply P9. lia.
      + intros g G. rewrite Q10 by lia. auto.
      + intros [|k] r' K.
        * injection K as <-. exists b. rewrite Nat.add_0_r, Q9 by lia. split; [exact B|]. destruct BL as (X1 & X2 & X3). split; [exact X1|]. split; [|exact X3]. eapply fixtures_later; eauto.
        * cbn in K. replace (w_next_body w + S k) with (S (w_next_body w) + k) by lia. now apply Q11.
  Qed.

  (** ** the joints *)
  (* all but contacts *)
  Definition but_contacts w w' : Prop :=
    w_bodies w' = w_bodies w /\ w_fixtures w' = w_fixtures w /\ w_joints w' = w_joints w /\ w_next_body w' = w_next_body w /\ w_next_fixture w' = w_next_fixture w /\ w_next_joint w' = w_next_joint w /\ w_body_list w' = w_body_list w /\ w_joint_list w' = w_joint_list w /\ w_locked w' = w_locked w.
  Lemma but_trans a b c : but_contacts a b -> but_contacts b c -> but_contacts a c.
  Proof. unfold but_contacts. intuition congruence. Qed.
  Lemma flag_loop (l : list gedge) : forall a w w',
    each (fun e w => if Nat.eqb (ge_other e) a then mod_contact (ge_item e) (mod_cflags (set_cf_filter true)) w else Ok w) l w = Ok w' -> but_contacts w w'.
  Proof.
    induction l as [|e l IH]; intros a w w' H; cbn [each] in H.
    - injection H as <-. repeat split.
    - apply bind_ok in H as (w1 & E & H). apply IH in H. eapply but_trans; [|exact H]. destruct (Nat.eqb (ge_other e) a).
      + unfold mod_contact in E. apply bind_ok in E as (c & _ & E). injection E as <-. repeat split.
      + injection E as <-. repeat split.
  Qed.
  Lemma flag_says a b w w' : flag_contacts a b w = Ok w' -> but_contacts w w'.
  Proof. unfold flag_contacts. intros H. apply bind_ok in H as (bb & _ & H). eapply flag_loop; eauto. Qed.

  (* each body is the same, but for the list of its joints *)
  Definition bodies_kept w w' : Prop := forall i b, w_bodies w i = Some b -> exists l, w_bodies w' i = Some (set_b_joints l b).
  Lemma joint_says a b cc w w' j : create_joint a b cc w = Ok (w', j) ->
    a <> b /\ j = w_next_joint w /\ w_next_joint w' = S j /\ w_joint_list w' = j :: w_joint_list w /\ w_joints w' j = Some (Joint a b false cc) /\ (forall i, i <> j -> w_joints w' i = w_joints w i) /\ w_body_list w' = w_body_list w /\ w_next_body w' = w_next_body w /\ w_fixtures w' = w_fixtures w /\ w_next_fixture w' = w_next_fixture w /\ bodies_kept w w'.
  Proof.
    unfold create_joint. intros H. apply bind_ok in H as (u1 & _ & H). apply bind_ok in H as (u2 & Hab & H). apply assert_ok, negb_true_iff, Nat.eqb_neq in Hab.
    apply bind_ok in H as (w1 & E1 & H). apply bind_ok in H as (w2 & E2 & H). apply bind_ok in H as (w3 & E3 & H). injection H as <- <-.
    assert (K : but_contacts w2 w3) by (destruct cc; [injection E3 as <-; repeat split|eapply flag_says; eauto]).
    unfold mod_body in E1. apply bind_ok in E1 as (ba & Ha & E1). apply unwrap_ok in Ha. cbn in Ha. injection E1 as E1.
    unfold mod_body in E2. apply bind_ok in E2 as (bb & Hb & E2). apply unwrap_ok in Hb. rewrite <- E1 in Hb. cbn in Hb. rewrite put_other in Hb by auto. injection E2 as E2.
    destruct K as (K1 & K2 & K3 & K4 & K5 & K6 & K7 & K8 & K9). subst w2 w1. cbn in *.
    refine (conj Hab (conj eq_refl (conj K6 (conj K8 (conj _ (conj _ (conj K7 (conj K4 (conj K2 (conj K5 _)))))))))).
    - rewrite K3. apply put_same.
    - intros i Hi. rewrite K3. now apply put_other.
    - intros i x Hx. rewrite K1. destruct (Nat.eq_dec i b) as [->|N].
      + rewrite put_same. eexists. rewrite Hb in Hx. injection Hx as <-. reflexivity.
      + rewrite put_other by auto. destruct (Nat.eq_dec i a) as [->|N2].
        * rewrite put_same. eexists. rewrite Ha in Hx. injection Hx as <-. reflexivity.
        * rewrite put_other by auto. exists (b_joints x). rewrite Hx. now destruct x.
  Qed.
  Lemma kept_refl w : bodies_kept w w.
  Proof. intros i b H. exists (b_joints b). rewrite H. now destruct b. Qed.
  Lemma kept_trans a b c : bodies_kept a b -> bodies_kept b c -> bodies_kept a c.
  Proof. intros H K i x Hx. destruct (H i x Hx) as (l & Hl). destruct (K i _ Hl) as (l' & Hl'). exists l'. rewrite Hl'. now destruct x. Qed.

  (* the kind of joint that is made from a record *)
  Definition kind_of (joints : list nat) (r : rkind) : res jkind :=
    match r with
    | RRevolute => Ok KRevolute | RPrismatic => Ok KPrismatic | ROther => Ok KOther
    | RGear i1 i2 => j1 <- get_i32 joints i1 ;; j2 <- get_i32 joints i2 ;; Ok (KGear j1 j2)
    end.
  Definition gear_ends (s : sworld) (k : jkind) : Prop :=
    match k with KGear j1 j2 => gear_end s j1 = Ok tt /\ gear_end s j2 = Ok tt | _ => True end.
  Definition joint_loaded (bodies joints : list nat) (s : sworld) (r : jrec D) (j : nat) : Prop :=
    exists a b k, get_i32 bodies (r_a r) = Ok a /\ get_i32 bodies (r_b r) = Ok b /\ a <> b /\ kind_of joints (r_kind r) = Ok k /\ w_joints (s_world s) j = Some (Joint a b false (r_collide r)) /\ s_joints s j = Some (JInfo k (r_data r) 0%Z).
  Lemma load_joint_says bodies joints r s s' : load_joint bodies joints r s = Ok s' ->
    let w := s_world s in let w' := s_world s' in let j := w_next_joint w in
    w_next_joint w' = S j /\ w_joint_list w' = j :: w_joint_list w /\ (forall i, i <> j -> w_joints w' i = w_joints w i) /\ (forall i, i <> j -> s_joints s' i = s_joints s i) /\ w_body_list w' = w_body_list w /\ w_next_body w' = w_next_body w /\ w_fixtures w' = w_fixtures w /\ w_next_fixture w' = w_next_fixture w /\ bodies_kept w w' /\ s_gravity s' = s_gravity s /\ joint_loaded bodies joints s' r j /\ (forall k, kind_of joints (r_kind r) = Ok k -> gear_ends s k).
  Proof.
    intros H w w' j. subst w w' j. unfold load_joint in H. apply bind_ok in H as (a & Ha & H). apply bind_ok in H as (b & Hb & H). apply bind_ok in H as (k & Hk & H).
    apply bind_ok in H as ([w1 j] & E & H). injection H as <-.
    assert (Kk : kind_of joints (r_kind r) = Ok k /\ gear_ends s k).
    { destruct (r_kind r) as [i1 i2| | |]; cbn in Hk |- *; try (injection Hk as <-; split; [reflexivity|exact I]).
      apply bind_ok in Hk as (j1 & H1 & Hk). apply bind_ok in Hk as (j2 & H2 & Hk). apply bind_ok in Hk as ([] & G1 & Hk). apply bind_ok in Hk as ([] & G2 & Hk).
      injection Hk as <-. rewrite H1, H2. cbn. split; [reflexivity|split; assumption]. }
    apply joint_says in E as (Hab & -> & E2 & E3 & E4 & E5 & E6 & E7 & E8 & E9 & E10). cbn.
    refine (conj E2 (conj E3 (conj E5 (conj _ (conj E6 (conj E7 (conj E8 (conj E9 (conj E10 (conj eq_refl (conj _ _))))))))))).
    - intros i Hi. now apply put_other.
    - exists a, b, k. cbn. rewrite put_same. tauto.
    - intros k' Hk'. destruct Kk as (K1 & K2). congruence.
  Qed.
  Lemma joint_later bodies joints s s' r j :
    joint_loaded bodies joints s r j -> w_joints (s_world s') j = w_joints (s_world s) j -> s_joints s' j = s_joints s j -> joint_loaded bodies joints s' r j.
  Proof. intros (a & b & k & H1 & H2 & H3 & H4 & H5 & H6) E1 E2. exists a, b, k. intuition congruence. Qed.
  Lemma load_joints_says bodies joints l : forall s s', each (load_joint bodies joints) l s = Ok s' ->
    let w := s_world s in let w' := s_world s' in let n := w_next_joint w in
    w_next_joint w' = n + length l /\ w_joint_list w' = rev (seq n (length l)) ++ w_joint_list w /\ (forall i, i < n -> w_joints w' i = w_joints w i) /\ (forall i, i < n -> s_joints s' i = s_joints s i) /\ w_body_list w' = w_body_list w /\ w_next_body w' = w_next_body w /\ w_fixtures w' = w_fixtures w /\ w_next_fixture w' = w_next_fixture w /\ bodies_kept w w' /\ s_gravity s' = s_gravity s /\ (forall i, n + length l <= i -> w_joints w' i = w_joints w i /\ s_joints s' i = s_joints s i) /\ forall k r, nth_error l k = Some r -> joint_loaded bodies joints s' r (n + k).
  Proof.
    induction l as [|r l IH]; intros s s' H w w' n; subst w w' n.
    - injection H as <-. cbn. rewrite Nat.add_0_r. repeat (split; [solve [auto using kept_refl]|]). intros k r. destruct k; discriminate.
    - cbn [each] in H. apply bind_ok in H as (s1 & E & H). apply load_joint_says in E as (P1 & P2 & P3 & P4 & P5 & P6 & P7 & P8 & P9 & P10 & P11 & _).
      destruct (IH _ _ H) as (Q1 & Q2 & Q3 & Q4 & Q5 & Q6 & Q7 & Q8 & Q9 & Q10 & Q12 & Q11). rewrite P1 in *. cbn [length].
      refine (conj _ (conj _ (conj _ (conj _ (conj _ (conj _ (conj _ (conj _ (conj _ (conj _ (conj _ _))))))))))); try congruence; try lia.
      + rewrite Q2, P2. cbn [seq rev]. now rewrite <- app_assoc.
      + intros i Hi. rewrite Q3 by lia. apply P3. lia.
      + intros i Hi. rewrite Q4 by lia. apply P4. lia.
      + eapply kept_trans; eauto.
      + intros i Hi. destruct (Q12 i ltac:(lia)) as (X & Y). rewrite X, Y, P3, P4 by lia. split; reflexivity.
      + intros [|k] r' K.
        * injection K as <-. rewrite Nat.add_0_r. eapply joint_later; [exact P11|apply Q3; lia|apply Q4; lia].
        * cbn in K. replace (w_next_joint (s_world s) + S k) with (S (w_next_joint (s_world s)) + k) by lia. now apply Q11.
  Qed.

  (** ** the whole file *)
  Lemma kept_loaded w w' r b l : body_loaded w r b -> w_fixtures w' = w_fixtures w -> w_next_fixture w' = w_next_fixture w -> made_from (fst r) (set_b_joints l b) /\ fixtures_are w' (set_b_joints l b) (snd r).
  Proof. intros (H1 & (fs & F1 & F2 & F3) & _) E1 E2. split; [exact H1|]. exists fs. rewrite E1, E2. auto. Qed.
  Lemma load_says f s : load f = Ok s ->
    let w := s_world s in let n := length (fi_bodies f) in let m := length (fi_joints f) in let g := length (fi_gears f) in
    w_body_list w = rev (seq 0 n) /\ w_joint_list w = rev (seq 0 (m + g)) /\ s_gravity s = fi_gravity f /\ (forall k r, nth_error (fi_bodies f) k = Some r -> exists b, w_bodies w k = Some b /\ made_from (fst r) b /\ fixtures_are w b (snd r)) /\ (forall k r, nth_error (fi_joints f) k = Some r -> joint_loaded (rev (seq 0 n)) [] s r k) /\ (forall k r, nth_error (fi_gears f) k = Some r -> joint_loaded (rev (seq 0 n)) (rev (seq 0 m)) s r (m + k)) /\ (forall j, m + g <= j -> w_joints w j = None /\ s_joints s j = None).
  Proof.
    intros H w n m g. subst w n m g. unfold load in H. apply bind_ok in H as (w0 & E0 & H). apply bind_ok in H as (w1 & E1 & H). apply bind_ok in H as (s1 & E2 & H).
    unfold world_new in E0. apply bind_ok in E0 as (bp & _ & E0). injection E0 as <-.
    apply load_bodies_says in E1 as (A1 & A2 & A3 & A4 & A5 & A6 & A7 & A8 & A9 & A10 & A11). cbn in A1, A2, A4, A5, A6, A11.
    apply load_joints_says in E2 as (B1 & B2 & B3 & B4 & B5 & B6 & B7 & B8 & B9 & B10 & B12 & B11). cbn [s_world s_joints s_gravity] in *.
    rewrite A5 in *. rewrite app_nil_r in A2. rewrite A6, app_nil_r in B2. cbn [Nat.add] in *.
    apply load_joints_says in H as (C1 & C2 & C3 & C4 & C5 & C6 & C7 & C8 & C9 & C10 & C12 & C11). rewrite B1 in *. rewrite B2 in *. rewrite A2 in *.
    refine (conj _ (conj _ (conj _ (conj _ (conj _ (conj _ _)))))).
    - congruence.
    - rewrite C2. rewrite seq_app, rev_app_distr. reflexivity.
    - congruence.
    - intros k r K. destruct (A11 k r K) as (b & Hb & L). destruct (kept_trans _ _ _ B9 C9 k b Hb) as (l & Hl). exists (set_b_joints l b). split; [exact Hl|].
      eapply kept_loaded; [exact L| |]; congruence.
    - intros k r K. eapply joint_later; [exact (B11 k r K)|apply C3|apply C4]; apply nth_error_Some; congruence.
    - intros k r K. exact (C11 k r K).
    - intros j Hj. destruct (C12 j Hj) as (X & Y). destruct (B12 j ltac:(lia)) as (X' & Y'). rewrite X, X', Y, Y', A4. split; reflexivity.
  Qed.
End Serial.
