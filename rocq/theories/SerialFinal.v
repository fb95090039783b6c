(** The loaded world: a program could have made it, saving it gives the file turned round, and what became of the bodies and joints. *)
From Coq Require Import List ZArith Bool Arith Lia.
From Verif Require Import Base Num Math Collision Manifold Filter ShapeModel ListFacts DynModel WorldModel WorldClaims WorldCalls WorldReach SafeSpec SerialModel SerialSpec SerialProofs SerialSave.
Import ListNotations.

(** ** lists *)
Lemma nth_rev_seq n i : i < n -> nth_error (rev (seq 0 n)) i = Some (n - 1 - i).
Proof.
  intros H. assert (L : length (rev (seq 0 n)) = n) by now rewrite rev_length, seq_length.
  rewrite (nth_error_nth' _ 0) by lia. rewrite rev_nth by now rewrite seq_length. rewrite seq_length, seq_nth by lia. f_equal. lia.
Qed.
Lemma nth_seq n i : i < n -> nth_error (seq 0 n) i = Some i.
Proof. intros H. rewrite (nth_error_nth' _ 0) by now rewrite seq_length. now rewrite seq_nth. Qed.
Lemma get_i32_place {A} (l : list A) z a : get_i32 l z = Ok a -> exists i, z = Z.of_nat i /\ nth_error l i = Some a.
Proof.
  unfold get_i32. destruct (Z.ltb_spec z 0); [discriminate|]. unfold get. destruct (nth_error l (Z.to_nat z)) eqn:E; [|discriminate]. intros K. injection K as <-.
  exists (Z.to_nat z). split; [lia|exact E].
Qed.
Lemma place_get_i32 {A} (l : list A) i a : nth_error l i = Some a -> get_i32 l (Z.of_nat i) = Ok a.
Proof. intros H. unfold get_i32. destruct (Z.ltb_spec (Z.of_nat i) 0); [lia|]. rewrite Nat2Z.id. unfold get. now rewrite H. Qed.
Lemma Forall2_nth {A B} (P : A -> B -> Prop) l r i a : Forall2 P l r -> nth_error l i = Some a -> exists b, nth_error r i = Some b /\ P a b.
Proof. intros F. revert i. induction F as [|x y l r H F IH]; intros [|i] E; cbn in *; try discriminate; [injection E as <-; eauto|auto]. Qed.
Lemma Forall2_of_nth {A B} (P : A -> B -> Prop) l : forall r, length l = length r -> (forall i a b, nth_error l i = Some a -> nth_error r i = Some b -> P a b) -> Forall2 P l r.
Proof.
  induction l as [|x l IH]; intros [|y r] L H; try discriminate; constructor.
  - exact (H 0 x y eq_refl eq_refl).
  - apply IH; [now injection L|]. intros i a b Ha Hb. exact (H (S i) a b Ha Hb).
Qed.
Lemma nth_rev {A} (l : list A) i : i < length l -> nth_error (rev l) i = nth_error l (length l - 1 - i).
Proof.
  intros H. destruct l as [|x l]; [cbn in H; lia|]. rewrite (nth_error_nth' _ x) by now rewrite rev_length. rewrite (nth_error_nth' (x :: l) x) by lia. rewrite rev_nth by exact H. f_equal. f_equal. lia.
Qed.
Lemma filter_true {A} (f : A -> bool) l : (forall x, In x l -> f x = true) -> List.filter f l = l.
Proof. induction l as [|x l IH]; intros H; cbn; auto. rewrite (H x (or_introl eq_refl)). f_equal. apply IH. intros y Y. apply H. now right. Qed.
Lemma filter_false {A} (f : A -> bool) l : (forall x, In x l -> f x = false) -> List.filter f l = [].
Proof. induction l as [|x l IH]; intros H; cbn; auto. rewrite (H x (or_introl eq_refl)). apply IH. intros y Y. apply H. now right. Qed.
Lemma nodup_place (l : list nat) i k x : NoDup l -> nth_error l i = Some x -> nth_error l k = Some x -> i = k.
Proof. intros N A B. apply (proj1 (NoDup_nth_error l) N); [apply nth_error_Some; congruence|congruence]. Qed.

Section Final.
  Context {T D : Type} `{NT : Num T} `{TT : NumTrig T} `{VT : NumValid T}.
  Notation world := (world T).
  Notation sworld := (sworld T D).
  Notation file := (file T D).
  Implicit Types w : world.

  (** ** a program could have made it *)
  Section Reach.
    Variable E : env T.
    Lemma fixtures_reach i ds : forall w w', wreach E w -> each (fun d w => '(w, _) <- create_fixture i d w ;; Ok w) ds w = Ok w' -> wreach E w'.
    Proof.
      induction ds as [|d ds IH]; intros w w' H R; cbn [each] in R; [now injection R as <-|]. apply bind_ok in R as (w1 & E1 & R). eapply IH; [|exact R].
      eapply wreach_call with (c := WCreateFixture i d); [exact H|exact E1].
    Qed.
    Lemma bodies_reach l : forall w w', wreach E w -> each load_body l w = Ok w' -> wreach E w'.
    Proof.
      induction l as [|[d ds] l IH]; intros w w' H R; cbn [each] in R; [now injection R as <-|]. apply bind_ok in R as (w1 & E1 & R). eapply IH; [|exact R].
      unfold load_body in E1. apply bind_ok in E1 as ([w2 i] & E2 & E1). cbn [fst snd] in *. eapply fixtures_reach; [|exact E1].
      eapply wreach_call with (c := WCreateBody d); [exact H|]. cbn [wrun]. rewrite E2. reflexivity.
    Qed.
    Lemma joints_reach bodies joints l : forall (s s' : sworld), wreach E (s_world s) -> each (load_joint bodies joints) l s = Ok s' -> wreach E (s_world s').
    Proof.
      induction l as [|r l IH]; intros s s' H R; cbn [each] in R; [now injection R as <-|]. apply bind_ok in R as (s1 & E1 & R). eapply IH; [|exact R].
      unfold load_joint in E1. apply bind_ok in E1 as (a & _ & E1). apply bind_ok in E1 as (b & _ & E1). apply bind_ok in E1 as (k & _ & E1). apply bind_ok in E1 as ([w1 j] & E2 & E1).
      injection E1 as <-. cbn. eapply wreach_call with (c := WCreateJoint a b (r_collide r)); [exact H|]. cbn [wrun]. rewrite E2. reflexivity.
    Qed.
    Lemma load_reach (f : file) s : load f = Ok s -> wreach E (s_world s).
    Proof.
      unfold load. intros H. apply bind_ok in H as (w0 & E0 & H). apply bind_ok in H as (w1 & E1 & H). apply bind_ok in H as (s1 & E2 & H).
      eapply joints_reach; [|exact H]. eapply joints_reach; [|exact E2]. cbn. eapply bodies_reach; [|exact E1]. eapply wreach_new; eauto.
    Qed.
  End Reach.

  (* an environment in which nothing happens, for worlds that are not stepped *)
  Definition idle_env : env T :=
    Env (fun _ _ _ => true)
      (fun _ _ c => CEdit (cf_enabled (c_flags c)) (c_friction c) (c_restitution c) (c_threshold c) (c_tangent_speed c) (c_manifold c))
      (fun _ _ => Panic) (fun _ _ => Panic) (fun _ _ => Panic) (fun _ _ _ => Panic) (fun _ _ _ _ _ => Panic).
  Lemma idle_answers : answers idle_env.
  Proof. refine (conj _ (conj _ (conj _ (conj _ _)))); discriminate. Qed.
  Lemma load_graphs (f : file) s : load f = Ok s -> fixture_graph (s_world s) /\ joint_graph (s_world s).
  Proof. intros H. apply (load_reach idle_env) in H. split; [apply (r_fixture_graph idle_env idle_answers _ H)|apply (r_joint_graph idle_env idle_answers _ H)]. Qed.

  (** ** gears *)
  Lemma gear_info (s : sworld) j u : gear_end s j = Ok u -> exists x, s_joints s j = Some x /\ gearable (ji_kind x) = true.
  Proof.
    unfold gear_end. intros H. apply bind_ok in H as (x & Hx & H). apply unwrap_ok in Hx. apply bind_ok in H as (v & _ & H). apply bind_ok in H as (b & _ & H).
    apply bind_ok in H as (u1 & G & _). apply assert_ok in G. eauto.
  Qed.
  Lemma gears_says bodies joints l : forall (s s' : sworld), (forall j, w_next_joint (s_world s) <= j -> s_joints s j = None) -> each (load_joint bodies joints) l s = Ok s' ->
    forall k r j1 j2, nth_error l k = Some r -> kind_of joints (r_kind r) = Ok (KGear j1 j2) ->
      (exists x, s_joints s' j1 = Some x /\ gearable (ji_kind x) = true) /\ (exists x, s_joints s' j2 = Some x /\ gearable (ji_kind x) = true).
  Proof.
    induction l as [|r l IH]; intros s s' N H k r' j1 j2 K E.
    - destruct k; discriminate.
    - cbn [each] in H. apply bind_ok in H as (s1 & H1 & H). apply load_joint_says in H1 as (P1 & P2 & P3 & P4 & P5 & P6 & P7 & P8 & P9 & P10 & P11 & P12).
      pose proof H as L. apply load_joints_says in L as (Q1 & Q2 & Q3 & Q4 & _). rewrite P1 in *.
      destruct k as [|k].
      + injection K as <-. specialize (P12 _ E). cbn in P12. destruct P12 as (G1 & G2). apply gear_info in G1 as (x1 & X1 & Y1), G2 as (x2 & X2 & Y2).
        assert (B : forall j x, s_joints s j = Some x -> s_joints s' j = Some x).
        { intros j x Hx. assert (j < w_next_joint (s_world s)). { destruct (Nat.lt_ge_cases j (w_next_joint (s_world s))) as [|G]; auto. rewrite (N j G) in Hx. discriminate. }
          rewrite Q4 by lia. rewrite P4 by lia. exact Hx. }
        split; [exists x1|exists x2]; auto.
      + cbn in K. apply (IH s1 s' ltac:(intros j Hj; rewrite P4 by lia; apply N; lia) H k r' j1 j2 K E).
  Qed.
  Lemma load_gears (f : file) s : load f = Ok s -> forall k r j1 j2, nth_error (fi_gears f) k = Some r -> kind_of (rev (seq 0 (length (fi_joints f)))) (r_kind r) = Ok (KGear j1 j2) ->
      (exists x, s_joints s j1 = Some x /\ gearable (ji_kind x) = true) /\ (exists x, s_joints s j2 = Some x /\ gearable (ji_kind x) = true).
  Proof.
    unfold load. intros H. apply bind_ok in H as (w0 & E0 & H). apply bind_ok in H as (w1 & E1 & H). apply bind_ok in H as (s1 & E2 & H).
    unfold world_new in E0. apply bind_ok in E0 as (bp & _ & E0). injection E0 as <-.
    apply load_bodies_says in E1 as (A1 & A2 & A3 & A4 & A5 & A6 & _). cbn in A5, A6.
    apply load_joints_says in E2 as (B1 & B2 & B3 & B4 & B5 & B6 & B7 & B8 & B9 & B10 & B12 & B11). cbn [s_world s_joints s_gravity] in *. rewrite A5, A6, app_nil_r in *.
    rewrite B2 in H. cbn [Nat.add] in *. eapply gears_says; [|exact H]. intros j Hj. rewrite B1 in Hj. now apply B12.
  Qed.
  (* a record of the first list is never loaded as a gear *)
  Lemma plain_kind r k : kind_of [] r = Ok k -> is_gear k = false /\ is_mouse k = false.
  Proof. destruct r; cbn; [unfold get_i32; destruct (i1 <? 0)%Z; [discriminate|]; unfold get; destruct (Z.to_nat i1); discriminate| | |]; intros H; injection H as <-; auto. Qed.
  Lemma any_kind joints r k : kind_of joints r = Ok k -> is_mouse k = false.
  Proof. destruct r; cbn; intros H; [apply bind_ok in H as (? & _ & H); apply bind_ok in H as (? & _ & H)| | |]; injection H as <-; reflexivity. Qed.

  Lemma Forall2_length (A B : Type) (P : A -> B -> Prop) l r : Forall2 P l r -> length l = length r.
  Proof. induction 1; cbn; congruence. Qed.

  (** ** what is loaded is described *)
  Lemma loaded_table (f : file) s j : load f = Ok s -> let n := length (fi_joints f) + length (fi_gears f) in
    (j < n -> w_joints (s_world s) j <> None /\ s_joints s j <> None) /\ (n <= j -> w_joints (s_world s) j = None /\ s_joints s j = None).
  Proof.
    intros H n. subst n. apply load_says in H as (_ & _ & _ & _ & J & G & N). split; [|apply N]. intros L. destruct (Nat.lt_ge_cases j (length (fi_joints f))) as [L1|L1].
    - destruct (nth_error (fi_joints f) j) as [r|] eqn:R; [|apply nth_error_None in R; lia]. destruct (J j r R) as (a & b & k & _ & _ & _ & _ & X & Y). split; congruence.
    - destruct (nth_error (fi_gears f) (j - length (fi_joints f))) as [r|] eqn:R; [|apply nth_error_None in R; lia]. destruct (G _ r R) as (a & b & k & _ & _ & _ & _ & X & Y).
      replace (length (fi_joints f) + (j - length (fi_joints f))) with j in * by lia. split; congruence.
  Qed.
  Lemma loaded_plain (f : file) s j : load f = Ok s -> j < length (fi_joints f) -> exists r x, nth_error (fi_joints f) j = Some r /\ s_joints s j = Some x /\ is_gear (ji_kind x) = false /\ is_mouse (ji_kind x) = false.
  Proof.
    intros H L. apply load_says in H as (_ & _ & _ & _ & J & _ & _). destruct (nth_error (fi_joints f) j) as [r|] eqn:R; [|apply nth_error_None in R; lia].
    destruct (J j r R) as (a & b & k & _ & _ & _ & K & _ & Y). exists r, (JInfo k (r_data r) 0%Z). split; auto. split; auto. exact (plain_kind _ _ K).
  Qed.
  Lemma loaded_described (f : file) s : load f = Ok s -> described s.
  Proof.
    intros H j Hj. pose proof (loaded_table f s j H) as (T1 & T2). destruct (Nat.lt_ge_cases j (length (fi_joints f) + length (fi_gears f))) as [L|L]; [|destruct (T2 L); contradiction].
    destruct (Nat.lt_ge_cases j (length (fi_joints f))) as [L1|L1].
    - destruct (loaded_plain f s j H L1) as (r & x & _ & X & G & _). exists x. split; auto. intros j1 j2 K. rewrite K in G. discriminate.
    - destruct (nth_error (fi_gears f) (j - length (fi_joints f))) as [r|] eqn:R; [|apply nth_error_None in R; lia]. pose proof H as LS. apply load_says in LS as (_ & _ & _ & _ & _ & G & _).
      destruct (G _ r R) as (a & b & k & _ & _ & _ & K & X & Y). replace (length (fi_joints f) + (j - length (fi_joints f))) with j in * by lia. eexists. split; [exact Y|]. cbn. intros j1 j2 ->.
      destruct (load_gears f s H _ r j1 j2 R K) as (A & B).
      assert (Q : forall i, (exists x, s_joints s i = Some x /\ gearable (ji_kind x) = true) -> w_joints (s_world s) i <> None).
      { intros i (x & Hx & _). pose proof (loaded_table f s i H) as (U1 & U2). destruct (Nat.lt_ge_cases i (length (fi_joints f) + length (fi_gears f))) as [M|M]; [now apply U1|]. destruct (U2 M). congruence. }
      split; (split; [apply Q|]); assumption.
  Qed.
  Lemma loaded_lists (f : file) s : load f = Ok s -> sorted f ->
    plain_joints s = rev (seq 0 (length (fi_joints f))) /\ List.filter (fun j => kind_at s j is_gear) (w_joint_list (s_world s)) = rev (seq (length (fi_joints f)) (length (fi_gears f))) /\
    List.filter (fun j => kind_at s j (fun k => negb (is_mouse k))) (plain_joints s) = plain_joints s.
  Proof.
    intros H S. pose proof H as LS. apply load_says in LS as (_ & LJ & _ & _ & _ & G & _). set (m := length (fi_joints f)) in *. set (g := length (fi_gears f)) in *.
    assert (P1 : forall j, j < m -> kind_at s j is_gear = false /\ kind_at s j (fun k => negb (is_gear k)) = true /\ kind_at s j (fun k => negb (is_mouse k)) = true).
    { intros j L. destruct (loaded_plain f s j H L) as (r & x & _ & X & G1 & G2). unfold kind_at. rewrite X, G1, G2. auto. }
    assert (P2 : forall j, m <= j < m + g -> kind_at s j is_gear = true /\ kind_at s j (fun k => negb (is_gear k)) = false).
    { intros j L. destruct (nth_error (fi_gears f) (j - m)) as [r|] eqn:R; [|apply nth_error_None in R; subst g; lia].
      destruct (G _ r R) as (a & b & k & _ & _ & _ & K & _ & Y). replace (m + (j - m)) with j in * by lia. unfold kind_at. rewrite Y. cbn.
      pose proof (S r (nth_error_In _ _ R)) as Q. destruct (r_kind r); try contradiction. cbn in K. apply bind_ok in K as (? & _ & K). apply bind_ok in K as (? & _ & K). injection K as <-. auto. }
    assert (F : forall h, List.filter h (w_joint_list (s_world s)) = List.filter h (rev (seq m g)) ++ List.filter h (rev (seq 0 m))).
    { intros h. rewrite LJ, seq_app, rev_app_distr, filter_app. reflexivity. }
    assert (E1 : plain_joints s = rev (seq 0 m)).
    { unfold plain_joints. rewrite F. rewrite filter_false, filter_true; [reflexivity| |]; intros j Hj; apply in_rev in Hj; apply in_seq in Hj; [apply P1|apply P2]; lia. }
    split; [exact E1|]. split.
    - rewrite F, filter_true, filter_false; [apply app_nil_r| |]; intros j Hj; apply in_rev in Hj; apply in_seq in Hj; [apply P1|apply P2]; lia.
    - apply filter_true. intros j Hj. rewrite E1 in Hj. apply in_rev, in_seq in Hj. apply P1. lia.
  Qed.

  (** ** saving a loaded world gives the file turned round *)
  Lemma made_same_def d b : made_from d b -> same_def d (body_save b).
  Proof.
    intros (H1 & H2 & H3 & H4 & H5 & H6 & H7 & H8). unfold same_def, body_save. cbn. rewrite H1, H2, H3, H4, H5, H6, H7, H8. cbn. repeat split. destruct (bd_awake d), (bd_type d); reflexivity.
  Qed.
  Lemma rec_same n joints (s : sworld) r r' j : joint_loaded (rev (seq 0 n)) joints s r j -> joint_written s j r' -> w_body_list (s_world s) = rev (seq 0 n) ->
    (forall k q, kind_of joints (r_kind r) = Ok k -> kind_written s k q -> q = r_kind r) -> r' = r.
  Proof.
    intros (a & b & k & Ha & Hb & _ & K & V & X) (v & x & pa & pb & q & V' & X' & Pa & Pb & Q & ->) L KK. rewrite V in V'. injection V' as <-. rewrite X in X'. injection X' as <-. cbn in *.
    apply get_i32_place in Ha as (ia & Ea & Na), Hb as (ib & Eb & Nb). unfold at_place in *. rewrite L in Pa, Pb.
    assert (N : NoDup (rev (seq 0 n))) by apply NoDup_rev, seq_NoDup.
    rewrite (nodup_place _ pa ia a N Pa Na), (nodup_place _ pb ib b N Pb Nb), <- Ea, <- Eb, (KK k q K Q). now destruct r.
  Qed.
  Lemma kind_plain_same (s : sworld) r k q : kind_of [] r = Ok k -> kind_written s k q -> q = r.
  Proof.
    intros K. pose proof (plain_kind _ _ K) as (G & _). destruct r; cbn in K; try (injection K as <-; cbn; auto).
    apply bind_ok in K as (? & _ & K). apply bind_ok in K as (? & _ & K). injection K as <-. discriminate.
  Qed.
  Lemma kind_gear_same (s : sworld) r k q m : plain_joints s = rev (seq 0 m) -> kind_of (rev (seq 0 m)) r = Ok k -> kind_written s k q -> q = r.
  Proof.
    intros P K. destruct r; cbn in K; try (injection K as <-; cbn; auto).
    apply bind_ok in K as (j1 & E1 & K). apply bind_ok in K as (j2 & E2 & K). injection K as <-. cbn. intros (p1 & p2 & P1 & P2 & ->). rewrite P in P1, P2.
    apply get_i32_place in E1 as (q1 & -> & N1), E2 as (q2 & -> & N2). assert (N : NoDup (rev (seq 0 m))) by apply NoDup_rev, seq_NoDup.
    now rewrite (nodup_place _ p1 q1 j1 N P1 N1), (nodup_place _ p2 q2 j2 N P2 N2).
  Qed.
  Lemma recs_same (A : Type) (l r : list A) : length l = length r -> (forall i a b, nth_error l i = Some a -> nth_error r i = Some b -> a = b) -> l = r.
  Proof.
    revert r. induction l as [|x l IH]; intros [|y r] L H; try discriminate; auto. f_equal; [exact (H 0 x y eq_refl eq_refl)|]. apply IH; [now injection L|]. intros i. exact (H (S i)).
  Qed.
  Lemma nth_rev_shift m g i j : nth_error (rev (seq m g)) i = Some j -> i < g /\ j = m + (g - 1 - i).
  Proof.
    intros H. assert (L : i < g) by (rewrite <- (seq_length g m), <- rev_length; apply nth_error_Some; congruence). split; [exact L|].
    rewrite nth_rev in H by now rewrite seq_length. rewrite seq_length in H. rewrite (nth_error_nth' _ 0) in H by (rewrite seq_length; lia). rewrite seq_nth in H by lia. congruence.
  Qed.
  Lemma resave (f : file) s : load f = Ok s -> sorted f -> exists s1 f', save s = Ok (s1, f') /\ turned f f'.
  Proof.
    intros H S. destruct (load_graphs f s H) as (FG & JG). destruct (save_says s FG JG (loaded_described f s H)) as (s1 & f' & E & W1 & W2 & W3 & W4). exists s1, f'. split; [exact E|].
    destruct (loaded_lists f s H S) as (L1 & L2 & L3). rewrite L3, L1 in W3. rewrite L2 in W4. apply load_says in H as (B & _ & Gr & LB & LJ & LG & _).
    refine (conj _ (conj _ (conj _ _))).
    - congruence.
    - apply recs_same; [rewrite rev_length, <- (Forall2_length _ _ _ _ _ W3), rev_length, seq_length; reflexivity|]. intros i r' r R' R.
      assert (Li : i < length (fi_joints f)) by (rewrite <- rev_length; apply nth_error_Some; congruence). rewrite nth_rev in R by exact Li.
      pose proof (nth_rev_seq _ i Li) as Nj. destruct (Forall2_nth _ _ _ _ _ W3 Nj) as (r2 & R2 & JW). rewrite R' in R2. injection R2 as <-.
      eapply rec_same; [exact (LJ _ r R)|exact JW|exact B|]. intros k q K Q. eapply kind_plain_same; eauto.
    - apply recs_same; [rewrite rev_length, <- (Forall2_length _ _ _ _ _ W4), rev_length, seq_length; reflexivity|]. intros i r' r R' R.
      assert (Li : i < length (fi_gears f)) by (rewrite <- rev_length; apply nth_error_Some; congruence). rewrite nth_rev in R by exact Li.
      destruct (nth_error (rev (seq (length (fi_joints f)) (length (fi_gears f)))) i) as [j|] eqn:Nj; [|apply nth_error_None in Nj; rewrite rev_length, seq_length in Nj; lia].
      destruct (Forall2_nth _ _ _ _ _ W4 Nj) as (r2 & R2 & JW). rewrite R' in R2. injection R2 as <-. apply nth_rev_shift in Nj as (_ & ->).
      eapply rec_same; [exact (LG _ r R)|exact JW|exact B|]. intros k q K Q. eapply kind_gear_same; eauto.
    - rewrite B in W2. apply Forall2_of_nth; [rewrite rev_length, <- (Forall2_length _ _ _ _ _ W2), rev_length, seq_length; reflexivity|]. intros i r r' R R'.
      assert (Li : i < length (fi_bodies f)) by (rewrite <- rev_length; apply nth_error_Some; congruence). rewrite nth_rev in R by exact Li.
      pose proof (nth_rev_seq _ i Li) as Nj. destruct (Forall2_nth _ _ _ _ _ W2 Nj) as (r2 & R2 & (b & fs & Hb & Hf & E2)). rewrite R' in R2. injection R2 as <-.
      destruct (LB _ r R) as (b' & Hb' & Mb & (fs' & F1 & F2 & _)). rewrite Hb in Hb'. injection Hb' as <-. rewrite E2. cbn. split; [now apply made_same_def|].
      rewrite <- F2, <- map_rev. f_equal. rewrite map_rev, Hf, <- map_rev in F1. clear -F1. apply (f_equal (@rev _)) in F1. rewrite <- !map_rev, rev_involutive in F1.
      revert F1. generalize (rev fs'). clear. intros l. revert l. induction fs as [|x fs IH]; intros [|y l] E; cbn in E; try discriminate; auto. injection E as -> E. f_equal. auto.
  Qed.

  Lemma turned_sorted (f f' : file) : turned f f' -> sorted f -> sorted f'.
  Proof. intros (_ & _ & G & _) S r Hr. rewrite G in Hr. apply in_rev in Hr. now apply S. Qed.
  Lemma same_def_trans d1 d2 d3 : same_def (T := T) d1 d2 -> same_def d2 d3 -> same_def d1 d3.
  Proof.
    intros (A1 & A2 & A3 & A4 & A5 & A6 & A7 & A8 & A9 & A10 & A11 & A12) (B1 & B2 & B3 & B4 & B5 & B6 & B7 & B8 & B9 & B10 & B11 & B12). unfold same_def. repeat split; try congruence.
    rewrite B8, A1, A8. now destruct (btype_eqb (bd_type d1) StaticBody).
  Qed.
  Lemma Forall2_rev (A B : Type) (P : A -> B -> Prop) l r : Forall2 P l r -> Forall2 P (rev l) (rev r).
  Proof. induction 1; cbn; [constructor|]. apply Forall2_app; auto. Qed.
  Lemma turned_twice (f f' f'' : file) : turned f f' -> turned f' f'' -> same_file f f''.
  Proof.
    intros (A1 & A2 & A3 & A4) (B1 & B2 & B3 & B4). refine (conj _ (conj _ (conj _ _))); [congruence|rewrite B2, A2; apply rev_involutive|rewrite B3, A3; apply rev_involutive|].
    apply Forall2_rev in A4. rewrite rev_involutive in A4. revert A4 B4. generalize (fi_bodies f) (rev (fi_bodies f')) (fi_bodies f''). clear. intros l1 l2 l3 A. revert l3.
    induction A as [|a b l1 l2 (P1 & P2) A IH]; intros l3 B; inversion B as [|? c ? l3' (Q1 & Q2) B']; subst; constructor; auto. split; [eapply same_def_trans; eauto|]. rewrite Q2, P2. apply rev_involutive.
  Qed.

  Lemma saved_twice (f f' f'' : file) s s1 s' s1' : sorted f -> load f = Ok s -> save s = Ok (s1, f') -> load f' = Ok s' -> save s' = Ok (s1', f'') -> same_file f f''.
  Proof.
    intros S L1 S1 L2 S2. destruct (resave f s L1 S) as (t1 & g1 & E1 & T1). rewrite S1 in E1. injection E1 as <- <-. destruct (resave f' s' L2 (turned_sorted f f' T1 S)) as (t2 & g2 & E2 & T2). rewrite S2 in E2. injection E2 as <- <-.
    eapply turned_twice; eauto.
  Qed.

  (** ** what the loaded world has *)
  Section Copy.
    Variables (s s1 s2 : sworld) (f : file).
    Hypothesis FG : fixture_graph (s_world s).
    Hypothesis JG : joint_graph (s_world s).
    Hypothesis DS : described s.
    Hypothesis SV : save s = Ok (s1, f).
    Hypothesis LD : load f = Ok s2.

    Lemma was_written : written s f.
    Proof. destruct (save_says s FG JG DS) as (s1' & f' & E & W). rewrite SV in E. injection E as <- <-. exact W. Qed.
    Lemma written_sorted : sorted f.
    Proof.
      destruct was_written as (_ & _ & _ & G). intros r Hr. revert G Hr. generalize (fi_gears f). intros gs G.
      assert (Q : forall j, In j (List.filter (fun j => kind_at s j is_gear) (w_joint_list (s_world s))) -> kind_at s j is_gear = true) by (intros j Hj; apply filter_In in Hj; apply Hj).
      revert Q. induction G as [|j r' l gs W G IH]; intros Q [].
      - subst r'. pose proof (Q j (or_introl eq_refl)) as K. destruct W as (v & x & pa & pb & k & _ & X & _ & _ & KW & ->). cbn. unfold kind_at in K. rewrite X in K.
        destruct (ji_kind x); try discriminate. destruct KW as (p1 & p2 & _ & _ & ->). exact I.
      - apply IH; auto. intros i Hi. apply Q. now right.
    Qed.
    Lemma bodies_place i x : at_place (w_body_list (s_world s)) i x -> image s s2 x i /\ exists b b', w_bodies (s_world s) x = Some b /\ w_bodies (s_world s2) i = Some b' /\ same_body b b' /\ fixtures_turned (s_world s) (s_world s2) b b'.
    Proof.
      intros P. destruct was_written as (_ & W & _ & _). apply load_says in LD as (B & _ & _ & LB & _). destruct (Forall2_nth _ _ _ _ _ W P) as (r & R & b & fs & Hb & Hf & ->).
      destruct (LB i _ R) as (b' & Hb' & M & (fs' & F1 & F2 & _)). cbn [fst snd] in *. split.
      - exists i. split; [exact P|]. unfold at_place. rewrite B, rev_involutive. apply nth_seq. apply nth_error_Some. congruence.
      - exists b, b'. refine (conj Hb (conj Hb' (conj _ _))).
        + destruct M as (M1 & M2 & M3 & M4 & M5 & M6 & M7 & M8). unfold same_body. rewrite M1, M2, M3, M4, M5, M6, M7, M8. cbn. repeat split. destruct (fl_awake (b_flags b)), (b_type b); reflexivity.
        + unfold fixtures_turned. revert Hf F1 F2. generalize (b_fixtures b) (rev (b_fixtures b')). clear. intros l l'. revert fs fs' l'. induction l as [|y l IH]; intros [|z fs] fs' l' Hf F1 F2; cbn in Hf; try discriminate.
          * destruct fs'; try discriminate. destruct l'; try discriminate. constructor.
          * destruct fs' as [|z' fs']; try discriminate. destruct l' as [|y' l']; try discriminate. cbn in F1, F2. injection Hf as Hz Hf. injection F1 as Hz' F1.
            constructor; [|eapply IH; eauto; congruence]. exists z, z'. unfold fixture_save in F2. inversion F2. unfold same_fixture. auto 10.
    Qed.
    Lemma image_place x y : image s s2 x y -> at_place (w_body_list (s_world s)) y x.
    Proof.
      intros (i & P & Q). apply load_says in LD as (B & _). unfold at_place in Q. rewrite B, rev_involutive in Q. assert (L : i < length (fi_bodies f)) by (rewrite <- (seq_length (length (fi_bodies f)) 0); apply nth_error_Some; congruence).
      rewrite nth_seq in Q by exact L. now injection Q as <-.
    Qed.
    Lemma body_copied x b : w_bodies (s_world s) x = Some b -> exists y b', image s s2 x y /\ w_bodies (s_world s2) y = Some b' /\ same_body b b' /\ fixtures_turned (s_world s) (s_world s2) b b'.
    Proof.
      intros Hb. destruct FG as ((_ & LB & _) & _). assert (Hx : In x (w_body_list (s_world s))) by (apply LB; congruence). apply In_nth_error in Hx as (i & P).
      destruct (bodies_place i x P) as (Q & b0 & b' & H0 & H' & S1 & S2). rewrite Hb in H0. injection H0 as <-. eauto 8.
    Qed.
    Lemma lengths : length (w_body_list (s_world s2)) = length (w_body_list (s_world s)).
    Proof. destruct was_written as (_ & W & _ & _). apply load_says in LD as (B & _). now rewrite B, rev_length, seq_length, <- (Forall2_length _ _ _ _ _ W). Qed.
    Lemma image_inj x x' y : image s s2 x y -> image s s2 x' y -> x = x'.
    Proof. intros H1 H2. apply image_place in H1, H2. unfold at_place in *. congruence. Qed.
    Lemma image_fun x y y' : image s s2 x y -> image s s2 x y' -> y = y'.
    Proof. intros H1 H2. apply image_place in H1, H2. destruct FG as ((N & _) & _). eapply nodup_place; eauto. Qed.
    Lemma body_onto y : w_bodies (s_world s2) y <> None -> exists x b, w_bodies (s_world s) x = Some b /\ image s s2 x y.
    Proof.
      intros Hy. destruct (load_graphs f s2 LD) as (((_ & LB & _) & _) & _). apply LB in Hy. pose proof LD as L. apply load_says in L as (B & _). rewrite B in Hy. apply in_rev, in_seq in Hy.
      destruct was_written as (_ & W & _ & _). rewrite <- (Forall2_length _ _ _ _ _ W) in Hy.
      destruct (nth_error (w_body_list (s_world s)) y) as [x|] eqn:P; [|apply nth_error_None in P; lia]. destruct (bodies_place y x P) as (Q & b & b' & Hb & _). eauto.
    Qed.

    Lemma joint_place i j : at_place (saved_joints s) i j -> joint_image s s2 j i /\ exists r joints, joint_written s j r /\ joint_loaded (rev (seq 0 (length (fi_bodies f)))) joints s2 r i /\
      (kind_at s j is_gear = true -> joints = rev (seq 0 (length (fi_joints f)))).
    Proof.
      intros P. destruct was_written as (_ & _ & W & G). pose proof LD as L. apply load_says in L as (_ & LJ & _ & _ & J1 & J2 & _). unfold at_place, saved_joints in P.
      set (ps := List.filter _ (plain_joints s)) in *. set (gs := List.filter _ (w_joint_list (s_world s))) in *.
      assert (Im : i < length (fi_joints f) + length (fi_gears f) -> joint_image s s2 j i).
      { intros Li. exists i. split; [exact P|]. unfold at_place. rewrite LJ, rev_involutive. now apply nth_seq. }
      destruct (Nat.lt_ge_cases i (length ps)) as [Li|Li].
      - rewrite nth_error_app1 in P by exact Li. destruct (Forall2_nth _ _ _ _ _ W P) as (r & R & JW). split; [apply Im; rewrite <- (Forall2_length _ _ _ _ _ W); lia|]. exists r, []. split; [exact JW|]. split; [exact (J1 i r R)|].
        intros K. apply nth_error_In in P. subst ps. apply filter_In in P as (P & _). apply filter_In in P as (_ & P). unfold kind_at in *. destruct (s_joints s j); [|discriminate]. rewrite K in P. discriminate.
      - rewrite nth_error_app2 in P by exact Li. destruct (Forall2_nth _ _ _ _ _ G P) as (r & R & JW). pose proof (Forall2_length _ _ _ _ _ W) as Lp. assert (i - length ps < length (fi_gears f)) by (apply nth_error_Some; congruence).
        split; [apply Im; lia|]. exists r, (rev (seq 0 (length (fi_joints f)))). split; [exact JW|]. split; [|auto]. pose proof (J2 _ r R) as Q. rewrite <- Lp in Q. replace (length ps + (i - length ps)) with i in Q by lia. rewrite <- Lp. exact Q.
    Qed.
    Lemma joint_image_place j j' : joint_image s s2 j j' -> at_place (saved_joints s) j' j.
    Proof.
      intros (i & P & Q). pose proof LD as L. apply load_says in L as (_ & B & _). unfold at_place in Q. rewrite B, rev_involutive in Q.
      assert (Li : i < length (fi_joints f) + length (fi_gears f)) by (rewrite <- (seq_length (length (fi_joints f) + length (fi_gears f)) 0); apply nth_error_Some; congruence).
      rewrite nth_seq in Q by exact Li. now injection Q as <-.
    Qed.
    Lemma saved_place j x : w_joints (s_world s) j <> None -> s_joints s j = Some x -> is_mouse (ji_kind x) = false -> exists i, at_place (saved_joints s) i j.
    Proof.
      intros Hj X M. destruct JG as ((_ & LJ & _) & _). apply LJ in Hj. apply In_nth_error. apply in_or_app. destruct (is_gear (ji_kind x)) eqn:K.
      - right. apply filter_In. split; auto. unfold kind_at. now rewrite X.
      - left. apply filter_In. split; [apply filter_In; split; auto|]; unfold kind_at; rewrite X; [now rewrite K|now rewrite M].
    Qed.
    Lemma joint_copied j x : w_joints (s_world s) j <> None -> s_joints s j = Some x -> is_mouse (ji_kind x) = false -> exists j', joint_image s s2 j j' /\ same_joint s s2 j j'.
    Proof.
      intros Hj X M. destruct (saved_place j x Hj X M) as (i & P). exists i. destruct (joint_place i j P) as (Im & r & js & (v & x' & pa & pb & q & V & X' & _ & _ & KW & ->) & (a & b & k & _ & _ & _ & K & V2 & X2) & _).
      split; [exact Im|]. rewrite X in X'. injection X' as <-. cbn in *. exists v. eexists. exists x. eexists. split; [exact V|]. split; [exact V2|]. split; [reflexivity|]. split; [exact X|]. split; [exact X2|]. cbn. split; [reflexivity|].
      destruct (ji_kind x); cbn in KW; try (subst q; cbn in K; congruence); [contradiction|]. destruct KW as (p1 & p2 & _ & _ & ->). cbn in K. apply bind_ok in K as (? & _ & K). apply bind_ok in K as (? & _ & K). injection K as <-. reflexivity.
    Qed.
    Lemma joint_moves j j' a b a' b' : joint_image s s2 j j' -> ends s j a b -> ends s2 j' a' b' ->
      exists pa pb, at_place (w_body_list (s_world s)) pa a /\ at_place (w_body_list (s_world s2)) pa a' /\ at_place (w_body_list (s_world s)) pb b /\ at_place (w_body_list (s_world s2)) pb b'.
    Proof.
      intros Im (v & V & <- & <-) (v' & V' & <- & <-). apply joint_image_place in Im. destruct (joint_place j' j Im) as (_ & r & js & (v0 & x' & pa & pb & q & V0 & _ & Pa & Pb & _ & ->) & (a & b & k & Ga & Gb & _ & _ & V2 & _) & _).
      rewrite V in V0. injection V0 as <-. rewrite V' in V2. injection V2 as ->. cbn in *. exists pa, pb. pose proof LD as L. apply load_says in L as (B & _).
      apply get_i32_place in Ga as (ia & Ea & Na), Gb as (ib & Eb & Nb). apply Nat2Z.inj in Ea, Eb. subst ia ib. unfold at_place. rewrite B. auto.
    Qed.
    Lemma joint_moved j j' a b a' b' : joint_image s s2 j j' -> ends s j a b -> ends s2 j' a' b' -> ~ (image s s2 a a' /\ image s s2 b b').
    Proof.
      intros Im En En' (Ia & Ib). destruct (joint_moves j j' a b a' b' Im En En') as (pa & pb & Pa & Pa' & Pb & Pb'). apply image_place in Ia, Ib.
      destruct FG as ((N & _) & _). pose proof (nodup_place _ _ _ _ N Pa Ia) as Ea. pose proof (nodup_place _ _ _ _ N Pb Ib) as Eb. pose proof LD as L. apply load_says in L as (B & _). unfold at_place in *. rewrite B in Pa', Pb'.
      apply nth_rev_shift in Pa' as (La & Xa), Pb' as (Lb & Xb).
      apply joint_image_place in Im. destruct (joint_place j' j Im) as (_ & r & js & _ & (a0 & b0 & k & _ & _ & Nab & _ & V2 & _) & _). destruct En' as (v' & V' & <- & <-). rewrite V2 in V'. injection V' as <-. cbn in *. apply Nab. lia.
    Qed.
    Lemma gear_moves j j' j1 j2 : joint_image s s2 j j' -> made_of s j j1 j2 -> exists p1 p2 j1' j2', made_of s2 j' j1' j2' /\
      at_place (plain_joints s) p1 j1 /\ at_place (plain_joints s2) p1 j1' /\ at_place (plain_joints s) p2 j2 /\ at_place (plain_joints s2) p2 j2'.
    Proof.
      intros Im (x & X & K). apply joint_image_place in Im. destruct (joint_place j' j Im) as (_ & r & js & (v0 & x' & pa & pb & q & V0 & X0 & _ & _ & KW & ->) & (a & b & k & _ & _ & _ & K2 & _ & X2) & Ejs).
      rewrite X in X0. injection X0 as <-. rewrite K in KW. cbn in KW. destruct KW as (p1 & p2 & P1 & P2 & ->). cbn in K2, X2. rewrite Ejs in K2 by (unfold kind_at; now rewrite X, K).
      apply bind_ok in K2 as (j1' & G1 & K2). apply bind_ok in K2 as (j2' & G2 & K2). injection K2 as <-. exists p1, p2, j1', j2'. split; [eexists; split; [exact X2|reflexivity]|].
      destruct (loaded_lists f s2 LD written_sorted) as (-> & _). apply get_i32_place in G1 as (i1 & E1 & N1), G2 as (i2 & E2 & N2). apply Nat2Z.inj in E1, E2. subst i1 i2. unfold at_place in *. auto.
    Qed.
    (* a joint of the loaded world comes from one joint of the saved world *)
    Lemma joint_onto j' : w_joints (s_world s2) j' <> None -> exists j, w_joints (s_world s) j <> None /\ joint_image s s2 j j'.
    Proof.
      intros Hj. pose proof (loaded_table f s2 j' LD) as (_ & T2). destruct was_written as (_ & _ & W & G).
      destruct (nth_error (saved_joints s) j') as [j|] eqn:P.
      - exists j. destruct (joint_place j' j P) as (Im & r & js & (v & x & pa & pb & q & V & _) & _). split; [congruence|exact Im].
      - exfalso. apply nth_error_None in P. unfold saved_joints in P. rewrite app_length, (Forall2_length _ _ _ _ _ W), (Forall2_length _ _ _ _ _ G) in P. now destruct (T2 P).
    Qed.
  End Copy.
End Final.
