(** Files that can be loaded. *)
From Coq Require Import List ZArith Bool Arith Lia.
From Verif Require Import Base Num Math Collision Manifold Filter ShapeModel ListFacts TreeModel BroadModel DynModel WorldModel WorldClaims WorldCalls WorldReach SafeSpec WorldSafe SerialModel SerialSpec SerialProofs SerialSave SerialFinal.
Import ListNotations.

Section Load.
  Local Open Scope nat_scope.
  Context {T D : Type} `{NT : Num T} `{TT : NumTrig T} `{VT : NumValid T}.
  Notation world := (world T).
  Notation sworld := (sworld T D).
  Notation file := (file T D).
  Implicit Types w : world.

  (* routines and callbacks that always answer *)
  Definition quiet_point : mpoint T := MP vzero (nofZ 0) (nofZ 0) cid_default.
  Definition quiet_env : env T :=
    Env (fun _ _ _ => true)
      (fun _ _ c => CEdit (cf_enabled (c_flags c)) (c_friction c) (c_restitution c) (c_threshold c) (c_tangent_speed c) (c_manifold c))
      (fun _ _ => Ok (MF [quiet_point; quiet_point] vzero vzero MCircles 0)) (fun _ _ => Ok true) (fun _ _ => Ok (false, nofZ 0))
      (fun _ _ _ => Ok (Solution (fun _ => Solved vzero (nofZ 0) vzero (nofZ 0) vzero (nofZ 0) (nofZ 0)) (fun _ => [quiet_point; quiet_point]) false))
      (fun _ _ _ _ _ => Ok (Solution (fun _ => Solved vzero (nofZ 0) vzero (nofZ 0) vzero (nofZ 0) (nofZ 0)) (fun _ => [quiet_point; quiet_point]) false)).
  Lemma quiet_sound : sound_env quiet_env.
  Proof.
    refine (conj _ (conj _ (conj _ (conj _ (conj _ _))))); intros; cbn.
    - eexists. split; [reflexivity|]. split; cbn; lia.
    - eexists. reflexivity.
    - eexists. reflexivity.
    - eexists. split; [reflexivity|]. reflexivity.
    - eexists. reflexivity.
    - assumption.
  Qed.
  Hypothesis OT : ordered T.
  Notation Q := quiet_env.

  Lemma fixture_returns i d w b pre : careful Q w -> w_bodies w i = Some b -> fixtures_are w b pre -> good_shape (fd_shape d) ->
    (nlt (nofZ 0) (fd_density d) = true -> settles (map load_of (d :: rev pre)) (b_type b)) ->
    exists w' f b', create_fixture i d w = Ok (w', f) /\ careful Q w' /\ w_bodies w' i = Some b' /\ b_type b' = b_type b /\ fixtures_are w' b' (pre ++ [d]).
  Proof.
    intros C Hb F G S.
    assert (SF : safe w (WCreateFixture i d)).
    { exists b. split; [exact Hb|]. split; [exact G|]. intros Hd. specialize (S Hd). cbn [map] in S. unfold loads.
      replace (map (fun f : nat => option_map (fun x : fixture T => (f_density x, f_shape x)) (w_fixtures w f)) (b_fixtures b)) with (map load_of (rev pre)); [exact S|].
      destruct F as (fs & F1 & F2 & _). rewrite <- F2, <- map_rev, map_map. rewrite map_rev in F1. apply (f_equal (@rev _)) in F1. rewrite rev_involutive, <- map_rev in F1.
      rewrite <- (map_map (w_fixtures w) (option_map (fun x => (f_density x, f_shape x)))), F1, map_map. reflexivity. }
    destruct (careful_returns Q quiet_sound OT w _ C SF) as (w' & Rn & C'). cbn [wrun] in Rn. apply bind_ok in Rn as ([w1 f] & E & E'). injection E' as ->.
    assert (Ea : each (fun d w => '(w, _) <- create_fixture i d w ;; Ok w) [d] w = Ok w') by (cbn [each]; rewrite E; reflexivity).
    destruct (fixtures_says i [d] w w' b pre Ea Hb F) as (_ & _ & _ & _ & b' & B' & Al & F'). exists w', f, b'. destruct Al as (Ty & _). auto 8.
  Qed.
  Lemma fixtures_return i ty post : forall w b pre, careful Q w -> w_bodies w i = Some b -> b_type b = ty -> fixtures_are w b pre -> fixtures_fit ty (pre ++ post) ->
    exists w', each (fun d w => '(w, _) <- create_fixture i d w ;; Ok w) post w = Ok w' /\ careful Q w'.
  Proof.
    induction post as [|d post IH]; intros w b pre C Hb Ty F FF; cbn [each]; [eauto|].
    destruct (FF pre d post eq_refl) as (G & S). rewrite <- Ty in S. destruct (fixture_returns i d w b pre C Hb F G S) as (w' & f & b' & E & C' & B' & Ty' & F').
    rewrite E. cbn [bind]. eapply IH; eauto; [congruence|]. now rewrite <- app_assoc.
  Qed.
  Lemma body_returns r w : careful Q w -> body_fits r -> exists w', load_body r w = Ok w' /\ careful Q w'.
  Proof.
    intros C (Nw & FF). destruct (careful_returns Q quiet_sound OT w (WCreateBody (fst r)) C Nw) as (w1 & Rn & C1). cbn [wrun] in Rn. apply bind_ok in Rn as ([w1' i] & E & E'). injection E' as ->.
    unfold load_body. rewrite E. cbn [bind]. unfold create_body in E. apply bind_ok in E as (? & _ & E). apply bind_ok in E as (b & Eb & E). injection E as E1 <-.
    assert (Mb : b_type b = bd_type (fst r) /\ b_fixtures b = []) by (unfold body_new in Eb; repeat (apply bind_ok in Eb as (? & _ & Eb)); injection Eb as <-; auto). destruct Mb as (Ty & Fx).
    eapply fixtures_return with (b := b) (pre := []); eauto.
    - rewrite <- E1. cbn. apply put_same.
    - exists []. rewrite Fx. repeat split. intros ? [].
  Qed.
  Lemma bodies_return l : forall w, careful Q w -> (forall r, In r l -> body_fits r) -> exists w', each load_body l w = Ok w' /\ careful Q w'.
  Proof.
    induction l as [|r l IH]; intros w C H; cbn [each]; [eauto|]. destruct (body_returns r w C (H r (or_introl eq_refl))) as (w1 & E & C1). rewrite E. cbn [bind]. apply IH; auto. intros r' Hr. apply H. now right.
  Qed.

  Lemma range_get (n : nat) z : in_range n z -> get_i32 (rev (seq 0 n)) z = Ok (n - 1 - Z.to_nat z).
  Proof. intros H. unfold in_range in H. rewrite <- (Z2Nat.id z) at 1 by lia. apply place_get_i32. apply nth_rev_seq. lia. Qed.
  Lemma joint_returns n joints r (s : sworld) : careful Q (s_world s) -> (forall i, i < n -> w_bodies (s_world s) i <> None) -> joint_fits n r ->
    match r_kind r with RGear i1 i2 => exists j1 j2, get_i32 joints i1 = Ok j1 /\ get_i32 joints i2 = Ok j2 /\ gear_end s j1 = Ok tt /\ gear_end s j2 = Ok tt | _ => True end ->
    exists s', load_joint (rev (seq 0 n)) joints r s = Ok s' /\ careful Q (s_world s').
  Proof.
    intros C B (Ra & Rb & Nab) K. unfold load_joint. rewrite (range_get n _ Ra), (range_get n _ Rb). cbn [bind]. unfold in_range in *.
    set (a := n - 1 - Z.to_nat (r_a r)). set (b := n - 1 - Z.to_nat (r_b r)).
    assert (Hk : exists k, match r_kind r with
           | RRevolute => Ok KRevolute | RPrismatic => Ok KPrismatic | ROther => Ok KOther
           | RGear i1 i2 => j1 <- get_i32 joints i1 ;; j2 <- get_i32 joints i2 ;; gear_end s j1 ;;; gear_end s j2 ;;; Ok (KGear j1 j2) end = Ok k).
    { destruct (r_kind r); eauto. destruct K as (j1 & j2 & -> & -> & E1 & E2). cbn [bind]. rewrite E1, E2. cbn. eauto. }
    destruct Hk as (k & ->). cbn [bind].
    assert (SF : safe (s_world s) (WCreateJoint a b (r_collide r))) by (subst a b; split; [lia|split; apply B; lia]).
    destruct (careful_returns Q quiet_sound OT _ _ C SF) as (w' & Rn & C'). cbn [wrun] in Rn. apply bind_ok in Rn as ([w1 j] & E & E'). injection E' as ->. rewrite E. cbn [bind]. eexists. split; [reflexivity|exact C'].
  Qed.
  Lemma plains_return n l : forall (s : sworld), careful Q (s_world s) -> (forall i, i < n -> w_bodies (s_world s) i <> None) ->
    (forall r, In r l -> joint_fits n r /\ match r_kind r with RGear _ _ => False | _ => True end) -> exists s', each (load_joint (rev (seq 0 n)) []) l s = Ok s' /\ careful Q (s_world s').
  Proof.
    induction l as [|r l IH]; intros s C B H; cbn [each]; [eauto|]. destruct (H r (or_introl eq_refl)) as (J & K).
    destruct (joint_returns n [] r s C B J) as (s1 & E & C1); [now destruct (r_kind r)|]. rewrite E. cbn [bind]. apply IH; [exact C1| |intros r' Hr; apply H; now right].
    apply load_joint_says in E as (_ & _ & _ & _ & _ & _ & _ & _ & Kp & _). intros i Hi. destruct (w_bodies (s_world s) i) as [b|] eqn:Hb; [|now destruct (B i Hi)]. destruct (Kp i b Hb) as (l' & ->). discriminate.
  Qed.

  (* the bodies and the plain joints are there *)
  Definition loaded_so_far (f : file) (s : sworld) : Prop :=
    (forall k r, nth_error (fi_bodies f) k = Some r -> exists b, w_bodies (s_world s) k = Some b /\ b_type b = bd_type (fst r)) /\
    (forall k r, nth_error (fi_joints f) k = Some r -> joint_loaded (rev (seq 0 (length (fi_bodies f)))) [] s r k) /\ length (fi_joints f) <= w_next_joint (s_world s).
  Lemma so_far_joint (f : file) joints r (s s' : sworld) : loaded_so_far f s -> load_joint (rev (seq 0 (length (fi_bodies f)))) joints r s = Ok s' -> loaded_so_far f s'.
  Proof.
    intros (B & J & N) E. apply load_joint_says in E as (P1 & _ & P3 & P4 & _ & _ & _ & _ & Kp & _). split; [|split; [|lia]].
    - intros k q K. destruct (B k q K) as (b & Hb & Ty). destruct (Kp k b Hb) as (l & Hl). eexists. split; [exact Hl|]. now destruct b.
    - intros k q K. assert (k < length (fi_joints f)) by (apply nth_error_Some; congruence). destruct (J k q K) as (a & b & x & X1 & X2 & X3 & X4 & X5 & X6). exists a, b, x. rewrite P3, P4 by lia. auto 8.
  Qed.
  Lemma gear_there (f : file) (s : sworld) i : loaded_so_far f s -> (forall r, In r (fi_joints f) -> joint_fits (length (fi_bodies f)) r) -> geared f i ->
    exists j, get_i32 (rev (seq 0 (length (fi_joints f)))) i = Ok j /\ gear_end s j = Ok tt.
  Proof.
    intros (B & J & _) JF (I0 & q & d & Hq & Kq & Hd & Ty). set (m := length (fi_joints f)) in *. set (n := length (fi_bodies f)) in *.
    assert (Li : Z.to_nat i < m) by (subst m; rewrite <- rev_length; apply nth_error_Some; congruence). exists (m - 1 - Z.to_nat i). split; [apply range_get; unfold in_range; lia|].
    rewrite nth_rev in Hq by exact Li. fold m in Hq. destruct (J _ q Hq) as (a & b & k & _ & Gb & _ & Kk & V & X). unfold gear_end, get_info, get_joint, get_body. rewrite X, V. cbn [unwrap bind j_b ji_kind].
    destruct (JF q (nth_error_In _ _ Hq)) as (_ & Rb & _). rewrite (range_get _ _ Rb) in Gb. injection Gb as <-.
    assert (Lb : Z.to_nat (r_b q) < n) by (unfold in_range in Rb; lia). rewrite nth_rev in Hd by exact Lb. fold n in Hd. destruct (B _ d Hd) as (b & Hb & Tb). rewrite Hb. cbn [unwrap bind].
    assert (Gk : gearable k = true) by (destruct Kq as [Kq|Kq]; rewrite Kq in Kk; injection Kk as <-; reflexivity). rewrite Gk. cbn. unfold is_dynamic. rewrite Tb, Ty. reflexivity.
  Qed.
  Lemma gears_return (f : file) l : forall (s : sworld), careful Q (s_world s) -> loaded_so_far f s -> (forall r, In r (fi_joints f) -> joint_fits (length (fi_bodies f)) r) ->
    (forall r, In r l -> joint_fits (length (fi_bodies f)) r /\ match r_kind r with RGear i1 i2 => geared f i1 /\ geared f i2 | _ => True end) ->
    exists s', each (load_joint (rev (seq 0 (length (fi_bodies f)))) (rev (seq 0 (length (fi_joints f))))) l s = Ok s'.
  Proof.
    induction l as [|r l IH]; intros s C L JF H; cbn [each]; [eauto|]. destruct (H r (or_introl eq_refl)) as (J & K).
    destruct (joint_returns (length (fi_bodies f)) (rev (seq 0 (length (fi_joints f)))) r s C) as (s1 & E & C1); [|exact J| |].
    - intros i Hi. destruct L as (B & _). destruct (nth_error (fi_bodies f) i) as [q|] eqn:Eq; [|apply nth_error_None in Eq; lia]. destruct (B i q Eq) as (b & -> & _). discriminate.
    - destruct (r_kind r) as [i1 i2| | |]; auto. destruct K as (G1 & G2). destruct (gear_there f s i1 L JF G1) as (j1 & A1 & A2), (gear_there f s i2 L JF G2) as (j2 & A3 & A4). eauto 8.
    - rewrite E. cbn [bind]. apply IH; [exact C1| |exact JF|intros r' Hr; apply H; now right]. eapply so_far_joint; eauto.
  Qed.
  Lemma load_returns (f : file) : loadable f -> exists s, load f = Ok s.
  Proof.
    intros (HB & HJ & HG). unfold load. destruct (new_returns (T := T) false false) as (w0 & E0). rewrite E0. cbn [bind]. assert (C0 : careful Q w0) by (eapply careful_new; eauto).
    destruct (bodies_return (fi_bodies f) w0 C0 HB) as (w1 & E1 & C1). rewrite E1. cbn [bind].
    unfold world_new in E0. apply bind_ok in E0 as (bp & _ & E0). injection E0 as <-. apply load_bodies_says in E1 as (A1 & A2 & A3 & A4 & A5 & A6 & A7 & A8 & A9 & A10 & A11). cbn in A1, A2, A5, A6, A11. rewrite app_nil_r in A2.
    set (n := length (fi_bodies f)) in *. set (m := length (fi_joints f)) in *. rewrite A2.
    assert (B1 : forall i, i < n -> w_bodies w1 i <> None). { intros i Hi. destruct (nth_error (fi_bodies f) i) as [q|] eqn:Eq; [|apply nth_error_None in Eq; subst n; lia]. destruct (A11 i q Eq) as (b & -> & _). discriminate. }
    destruct (plains_return n (fi_joints f) (SWorld w1 (fun _ => None) (fi_gravity f)) C1 B1 HJ) as (s1 & E2 & C2). rewrite E2. cbn [bind].
    apply load_joints_says in E2 as (B2 & B3 & _ & _ & _ & _ & _ & _ & Kp & _ & _ & J). cbn [s_world s_joints s_gravity] in *. rewrite A5 in *. rewrite A6, app_nil_r in B3. rewrite B3. cbn [Nat.add] in *.
    apply gears_return; [exact C2| |intros r Hr; now apply HJ|exact HG]. split; [|split; [exact J|lia]].
    intros k r K. destruct (A11 k r K) as (b & Hb & (Mb & _)). destruct (Kp k b Hb) as (l & Hl). eexists. split; [exact Hl|]. destruct Mb as (Ty & _). now destruct b.
  Qed.
End Load.
