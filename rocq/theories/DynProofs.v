(** Proofs of C27, C28, C29. *)
From Coq Require Import List ZArith Reals Lra Lia Bool Psatz.
From Flocq Require Import Core.
From Verif Require Import Base Num NumLaws Math RTac Collision Manifold Filter ShapeModel ListFacts ManifoldProofs ShapeSpec ShapeProofs DynModel DynSpec.
Import ListNotations.

Ltac csimp := cbn [b_type b_flags b_island_index b_xf b_sweep b_lv b_av b_force b_torque b_fixtures b_fixture_count b_joints b_contacts b_mass b_inv_mass b_i b_inv_i b_linear_damping b_angular_damping b_gravity_scale b_sleep_time sw_local_center sw_c0 sw_c sw_a0 sw_a sw_alpha0].
Ltac csimp_in H := cbn [b_type b_flags b_island_index b_xf b_sweep b_lv b_av b_force b_torque b_fixtures b_fixture_count b_joints b_contacts b_mass b_inv_mass b_i b_inv_i b_linear_damping b_angular_damping b_gravity_scale b_sleep_time sw_local_center sw_c0 sw_c sw_a0 sw_a sw_alpha0] in H.
Ltac bsimp_in H := cbv beta iota zeta delta [b_type b_flags b_island_index b_xf b_sweep b_lv b_av b_force b_torque b_fixtures b_fixture_count b_joints b_contacts b_mass b_inv_mass b_i b_inv_i b_linear_damping b_angular_damping b_gravity_scale b_sleep_time set_b_type set_b_flags set_b_island_index set_b_xf set_b_sweep set_b_lv set_b_av set_b_force set_b_torque set_b_fixtures set_b_fixture_count set_b_joints set_b_contacts set_b_mass set_b_inv_mass set_b_i set_b_inv_i set_b_linear_damping set_b_angular_damping set_b_gravity_scale set_b_sleep_time set_sw with_local_center sw_local_center sw_c0 sw_c sw_a0 sw_a sw_alpha0 bind b2_assert is_dynamic btype_eqb negb] in H.

Lemma btype_eqb_spec a b : reflect (a = b) (btype_eqb a b).
Proof. destruct a, b; constructor; congruence. Qed.

Section Gen.
  Context {T : Type} `{NT : Num T}.

  Lemma sleep_ok (b : body T) : b_type b <> StaticBody ->
    let b' := set_awake false b in
    at_rest b' /\ is_awake b' = false /\ b_sleep_time b' = nofZ 0 /\ frame b' = frame b /\
    other_flags (b_flags b') = other_flags (b_flags b).
  Proof.
    intros H. unfold set_awake, is_static. destruct (btype_eqb_spec (b_type b) StaticBody) as [E|_]; [contradiction|].
    destruct b; destruct b_flags; repeat split; reflexivity.
  Qed.
  Lemma wake_ok (b : body T) : b_type b <> StaticBody ->
    let b' := set_awake true b in
    is_awake b' = true /\ b_sleep_time b' = nofZ 0 /\ frame b' = frame b /\ other_flags (b_flags b') = other_flags (b_flags b) /\
    b_lv b' = b_lv b /\ b_av b' = b_av b /\ b_force b' = b_force b /\ b_torque b' = b_torque b.
  Proof.
    intros H. unfold set_awake, is_static. destruct (btype_eqb_spec (b_type b) StaticBody) as [E|_]; [contradiction|].
    destruct b; destruct b_flags; repeat split; reflexivity.
  Qed.
  Lemma static_ok (b : body T) : b_type b = StaticBody ->
    (forall f, set_awake f b = b) /\ (forall v, set_linear_velocity v b = b) /\ (forall w, set_angular_velocity w b = b).
  Proof. intros H. unfold set_awake, set_linear_velocity, set_angular_velocity, is_static. rewrite H. repeat split; reflexivity. Qed.

  Lemma push_idle (p : push T) wake (b : body T) :
    b_type b <> DynamicBody \/ (wake = false /\ is_awake b = false) -> apply_push p wake b = b.
  Proof.
    intros H. destruct p; cbn [apply_push];
      unfold apply_force, apply_force_to_center, apply_torque, apply_linear_impulse, apply_linear_impulse_to_center, apply_angular_impulse, is_dynamic, wake_if;
      destruct (btype_eqb_spec (b_type b) DynamicBody) as [E|E]; cbn [negb]; try reflexivity;
      (destruct H as [H|(-> & H)]; [contradiction|]; cbn [andb]; rewrite H; reflexivity).
  Qed.
  Lemma push_ok (p : push T) wake (b : body T) : b_type b = DynamicBody -> wake = true \/ is_awake b = true ->
    let b' := apply_push p wake b in
    is_awake b' = true /\ b_sleep_time b' = (if is_awake b then b_sleep_time b else nofZ 0) /\ frame b' = frame b /\
    other_flags (b_flags b') = other_flags (b_flags b) /\ (b_force b', b_torque b', b_lv b', b_av b') = pushed p b.
  Proof.
    intros H A. destruct b as [ty fl]; destruct fl as [i aw]; cbn in H; subst ty.
    destruct aw.
    - destruct wake; destruct p; cbv -[nofZ nadd nsub nmul]; repeat split.
    - destruct A as [->|A]; [|discriminate A]. destruct p; cbv -[nofZ nadd nsub nmul]; repeat split.
  Qed.
  Lemma linear_ok v (b : body T) : b_type b <> StaticBody ->
    let b' := set_linear_velocity v b in
    b_lv b' = v /\ b_av b' = b_av b /\ frame b' = frame b /\ is_awake b' = is_awake b || nlt (nofZ 0) (b2_dot v v).
  Proof.
    intros H. unfold set_linear_velocity, set_awake, is_static. destruct (btype_eqb_spec (b_type b) StaticBody) as [E|_]; [contradiction|].
    destruct (nlt _ _); destruct b; destruct b_flags; cbn; rewrite ?orb_true_r, ?orb_false_r; repeat split; reflexivity.
  Qed.
  Lemma angular_ok w (b : body T) : b_type b <> StaticBody ->
    let b' := set_angular_velocity w b in
    b_av b' = w /\ b_lv b' = b_lv b /\ frame b' = frame b /\ is_awake b' = is_awake b || nlt (nofZ 0) (nmul w w).
  Proof.
    intros H. unfold set_angular_velocity, set_awake, is_static. destruct (btype_eqb_spec (b_type b) StaticBody) as [E|_]; [contradiction|].
    destruct (nlt _ _); destruct b; destruct b_flags; cbn; rewrite ?orb_true_r, ?orb_false_r; repeat split; reflexivity.
  Qed.
End Gen.

(** ** what reset_mass_data and set_mass_data do not touch *)
Section Keep.
  Context {T : Type} `{NT : Num T}.
  Definition kept (b : body T) :=
    (b_type b, b_flags b, b_island_index b, b_xf b, (sw_a (b_sweep b), sw_alpha0 (b_sweep b)), b_av b, b_force b, b_torque b, b_sleep_time b,
     (b_fixtures b, b_fixture_count b, b_joints b, b_contacts b), (b_linear_damping b, b_angular_damping b, b_gravity_scale b)).

  Definition moved (b b' : body T) : Prop :=
    let s := b_sweep b' in
    sw_c s = xfv (b_xf b) (sw_local_center s) /\ sw_c0 s = sw_c s /\ sw_a0 s = sw_a0 (b_sweep b) /\
    b_lv b' = vadd (b_lv b) (b2_cross_sv (b_av b) (vsub (sw_c s) (sw_c (b_sweep b)))).

  Lemma move_center_ok lc (b : body T) : let b' := move_center lc b in
    kept b' = kept b /\ moved b b' /\ sw_local_center (b_sweep b') = lc /\
    b_mass b' = b_mass b /\ b_inv_mass b' = b_inv_mass b /\ b_i b' = b_i b /\ b_inv_i b' = b_inv_i b.
  Proof. destruct b as [ty fl ii xf sw]. destruct sw. repeat split. Qed.
  Opaque move_center.

  Lemma kept_inv (b b' : body T) : kept b' = kept b -> b_type b' = b_type b /\ b_flags b' = b_flags b /\ b_av b' = b_av b /\
    b_force b' = b_force b /\ b_torque b' = b_torque b /\ b_xf b' = b_xf b /\ sw_a (b_sweep b') = sw_a (b_sweep b).
  Proof. unfold kept. intros H. injection H. intros. repeat split; assumption. Qed.
  Lemma reset_run fs (b b' : body T) : reset_mass_data fs b = Ok b' -> kept b' = kept b /\
    (b_type b <> DynamicBody -> sw_local_center (b_sweep b') = vzero /\ sw_c (b_sweep b') = xp (b_xf b) /\
       sw_c0 (b_sweep b') = xp (b_xf b) /\ sw_a0 (b_sweep b') = sw_a (b_sweep b) /\ b_lv b' = b_lv b /\
       b_mass b' = nofZ 0 /\ b_inv_mass b' = nofZ 0 /\ b_i b' = nofZ 0 /\ b_inv_i b' = nofZ 0) /\
    (b_type b = DynamicBody -> moved b b' /\ exists m c i, mass_loop fs (nofZ 0, vzero, nofZ 0) = Ok (m, c, i) /\
       b_mass b' = m /\
       b_inv_mass b' = (if nlt (nofZ 0) m then ndiv (nofZ 1) m else nofZ 0) /\
       sw_local_center (b_sweep b') = (if nlt (nofZ 0) m then vmuls c (ndiv (nofZ 1) m) else c) /\
       if nlt (nofZ 0) i && negb (fl_fixed_rotation (b_flags b)) then
         let lc := sw_local_center (b_sweep b') in
         b_i b' = nsub i (nmul m (b2_dot lc lc)) /\ nlt (nofZ 0) (b_i b') = true /\ b_inv_i b' = ndiv (nofZ 1) (b_i b')
       else b_i b' = nofZ 0 /\ b_inv_i b' = nofZ 0).
  Proof.
    destruct b as [ty fl ii xf sw lv av fo to fx fc jl cl ma im ri ir ld ad gs st]. destruct ty.
    - intros H. cbv -[nofZ nadd nsub nmul] in H. injection H as <-. repeat split; cbn; try discriminate; try reflexivity.
    - intros H. cbv -[nofZ nadd nsub nmul] in H. injection H as <-. repeat split; cbn; try discriminate; try reflexivity.
    - unfold reset_mass_data. intros H. bsimp_in H.
      destruct (mass_loop fs _) as [((m & c) & i)| |] eqn:E; bsimp_in H; try discriminate H.
      csimp. destruct (nlt (nofZ 0) m) eqn:Em; bsimp_in H;
      (destruct (nlt (nofZ 0) i) eqn:Ei; cbn [andb] in H; [destruct (fl_fixed_rotation fl) eqn:Ef|]); bsimp_in H;
      repeat match type of H with context [if nlt ?a ?b then _ else _] => destruct (nlt a b) eqn:Ea; bsimp_in H; [|discriminate H] end;
        injection H as <-;
        match goal with |- context [move_center ?lc ?b1] => destruct (move_center_ok lc b1) as (K & (M1 & M2 & M3 & M4) & M & X1 & X2 & X3 & X4) end;
        csimp_in M1; csimp_in M2; csimp_in M3; csimp_in M4; csimp_in X1; csimp_in X2; csimp_in X3; csimp_in X4;
        (split; [rewrite K; reflexivity|]); (split; [intros Hn; contradiction Hn; reflexivity|]); intros _;
        (split; [unfold moved; csimp; repeat split; assumption|]);
        exists m, c, i; (split; [reflexivity|]); rewrite ?X1, ?X2, ?X3, ?X4, ?M;
        rewrite ?Em, ?Ei; cbn [andb negb]; repeat split; try reflexivity; try exact Ea.
  Qed.

  Lemma set_mass_run d (b b' : body T) : set_mass_data d b = Ok b' -> kept b' = kept b /\
    (b_type b <> DynamicBody -> b' = b) /\
    (b_type b = DynamicBody -> moved b b' /\
       b_mass b' = (if nle (md_mass d) (nofZ 0) then nofZ 1 else md_mass d) /\ b_inv_mass b' = ndiv (nofZ 1) (b_mass b') /\
       sw_local_center (b_sweep b') = md_center d /\
       if nlt (nofZ 0) (md_i d) && negb (fl_fixed_rotation (b_flags b)) then
         b_i b' = nsub (md_i d) (nmul (b_mass b') (b2_dot (md_center d) (md_center d))) /\
         nlt (nofZ 0) (b_i b') = true /\ b_inv_i b' = ndiv (nofZ 1) (b_i b')
       else b_i b' = nofZ 0 /\ b_inv_i b' = nofZ 0).
  Proof.
    destruct b as [ty fl ii xf sw lv av fo to fx fc jl cl ma im ri ir ld ad gs st]. destruct ty; try (intros H; injection H as <-; repeat split; discriminate).
    unfold set_mass_data. intros H. bsimp_in H. csimp. set (mi := md_i d) in *.
      destruct (nle (md_mass d) (nofZ 0)) eqn:Em; bsimp_in H;
      (destruct (nlt (nofZ 0) mi) eqn:Ei; cbn [andb] in H; [destruct (fl_fixed_rotation fl) eqn:Ef|]); bsimp_in H;
      repeat match type of H with context [if nlt ?a ?b then _ else _] => destruct (nlt a b) eqn:Ea; bsimp_in H; [|discriminate H] end;
        injection H as <-;
        match goal with |- context [move_center ?lc ?b1] => destruct (move_center_ok lc b1) as (K & (M1 & M2 & M3 & M4) & M & X1 & X2 & X3 & X4) end;
        csimp_in M1; csimp_in M2; csimp_in M3; csimp_in M4; csimp_in X1; csimp_in X2; csimp_in X3; csimp_in X4;
        (split; [rewrite K; reflexivity|]); (split; [intros Hn; contradiction Hn; reflexivity|]); intros _;
        (split; [unfold moved; csimp; repeat split; assumption|]);
        rewrite ?X1, ?X2, ?X3, ?X4, ?M;
        cbn [andb negb]; repeat split; try reflexivity; try exact Ea.
  Qed.

  Lemma fixed_run flag fs (b b' : body T) : set_fixed_rotation flag fs b = Ok b' ->
    b' = b \/ reset_mass_data fs (set_b_av (nofZ 0) (mod_flags (set_fl_fixed_rotation flag) b)) = Ok b'.
  Proof. unfold set_fixed_rotation. destruct (Bool.eqb _ _); intros H; [injection H as <-; left; reflexivity|right; exact H]. Qed.
End Keep.



(** ** C27, exact real arithmetic: a body that sleeps is at rest *)
Section Rest.
  Local Open Scope R_scope.
  Definition restful (b : body R) : Prop := b_type b <> StaticBody -> is_awake b = false -> at_rest b.

  Lemma zero_cross (v w : vec2 R) : vadd vzero (b2_cross_sv 0 v) = vzero.
  Proof. apply vec2_ext; rmathc; ring. Qed.

  Lemma restful_reset fs (b b' : body R) : restful b -> reset_mass_data fs b = Ok b' -> restful b'.
  Proof.
    intros Hb H. apply reset_run in H as (K & N & D). apply kept_inv in K as (Kt & Kf & Ka & Ko & Kq & _). intros Hs Ha.
    unfold is_awake in *. rewrite Kf in Ha.
    destruct (Hb) as (L & A & F & Q); [congruence|exact Ha|].
    unfold at_rest. rewrite Ka, Ko, Kq, A, F, Q. repeat split; try reflexivity.
    destruct (btype_eqb_spec (b_type b) DynamicBody) as [E|E].
    - destruct (D E) as ((_ & _ & _ & Lv) & _). rewrite Lv, L, A. apply zero_cross; exact vzero.
    - destruct (N E) as (_ & _ & _ & _ & Lv & _). congruence.
  Qed.
  Lemma restful_setmass d (b b' : body R) : restful b -> set_mass_data d b = Ok b' -> restful b'.
  Proof.
    intros Hb H. apply set_mass_run in H as (K & N & D). apply kept_inv in K as (Kt & Kf & Ka & Ko & Kq & _). intros Hs Ha.
    unfold is_awake in *. rewrite Kf in Ha.
    destruct (Hb) as (L & A & F & Q); [congruence|exact Ha|].
    unfold at_rest. rewrite Ka, Ko, Kq, A, F, Q. repeat split; try reflexivity.
    destruct (btype_eqb_spec (b_type b) DynamicBody) as [E|E].
    - destruct (D E) as ((_ & _ & _ & Lv) & _). rewrite Lv, L, A. apply zero_cross; exact vzero.
    - rewrite (N E). exact L.
  Qed.
  Lemma restful_awake f (b : body R) : restful b -> restful (set_awake f b).
  Proof.
    intros Hb. destruct (btype_eqb_spec (b_type b) StaticBody) as [E|E].
    - destruct (static_ok b E) as (W & _). rewrite W. exact Hb.
    - destruct f.
      + destruct (wake_ok b E) as (W & _). intros _ Ha. congruence.
      + destruct (sleep_ok b E) as (W & _). intros _ _. exact W.
  Qed.
  Lemma restful_push p w (b : body R) : restful b -> restful (apply_push p w b).
  Proof.
    intros Hb. destruct (btype_eqb_spec (b_type b) DynamicBody) as [E|E].
    - destruct (is_awake b) eqn:Ea; [|destruct w].
      + destruct (push_ok p w b E (or_intror Ea)) as (W & _). intros _ Ha. congruence.
      + destruct (push_ok p true b E (or_introl eq_refl)) as (W & _). intros _ Ha. congruence.
      + rewrite push_idle; [exact Hb|right; split; [reflexivity|exact Ea]].
    - rewrite push_idle; [exact Hb|left; exact E].
  Qed.
  Lemma dot_zero (v : vec2 R) : nlt (nofZ 0) (b2_dot v v) = false -> v = vzero.
  Proof.
    rmathc. destruct (Rlt_bool_spec 0 (vx v * vx v + vy v * vy v)); [discriminate|]. intros _.
    apply vec2_ext; rmathc; nra.
  Qed.
  Lemma sq_zero (w : R) : nlt (nofZ 0) (nmul w w) = false -> w = 0.
  Proof. rops. destruct (Rlt_bool_spec 0 (w * w)); [discriminate|]. intros _. nra. Qed.
  Lemma linear_force v (b : body R) : b_force (set_linear_velocity v b) = b_force b /\ b_torque (set_linear_velocity v b) = b_torque b /\
    b_type (set_linear_velocity v b) = b_type b.
  Proof. unfold set_linear_velocity, set_awake. destruct (is_static b); [repeat split|]. destruct (nlt _ _); repeat split. Qed.
  Lemma angular_force v (b : body R) : b_force (set_angular_velocity v b) = b_force b /\ b_torque (set_angular_velocity v b) = b_torque b /\
    b_type (set_angular_velocity v b) = b_type b.
  Proof. unfold set_angular_velocity, set_awake. destruct (is_static b); [repeat split|]. destruct (nlt _ _); repeat split. Qed.

  Lemma restful_run (b b' : body R) c : restful b -> bcall_run b c = Ok b' -> restful b'.
  Proof.
    intros Hb. destruct c; cbn [bcall_run]; intros H; try (injection H as <-).
    - apply restful_awake, Hb.
    - unfold set_sleeping_allowed. destruct flag; [exact Hb|]. apply restful_awake. exact Hb.
    - intros Hs Ha. destruct (linear_force v b) as (F & Q & Ty). rewrite Ty in Hs. destruct (linear_ok v b Hs) as (L & A & _ & W).
      rewrite W in Ha. apply orb_false_iff in Ha as (Ha & Hv). destruct (Hb Hs Ha) as (? & ? & ? & ?).
      unfold at_rest. rewrite L, A, F, Q. repeat split; try assumption. apply dot_zero, Hv.
    - intros Hs Ha. destruct (angular_force w b) as (F & Q & Ty). rewrite Ty in Hs. destruct (angular_ok w b Hs) as (L & A & _ & W).
      rewrite W in Ha. apply orb_false_iff in Ha as (Ha & Hv). destruct (Hb Hs Ha) as (? & ? & ? & ?).
      unfold at_rest. rewrite L, A, F, Q. repeat split; try assumption. apply sq_zero, Hv.
    - apply restful_push, Hb.
    - exact (restful_reset _ _ _ Hb H).
    - exact (restful_setmass _ _ _ Hb H).
    - apply fixed_run in H as [->|H]; [exact Hb|]. refine (restful_reset _ _ _ _ H).
      intros Hs Ha. destruct (Hb Hs Ha) as (? & ? & ? & ?). repeat split; assumption.
    - exact Hb.
    - exact Hb.
    - unfold body_advance in H. destruct (sweep_advance _ _); [|discriminate H|discriminate H]. injection H as <-. exact Hb.
    - destruct (btype_eqb_spec (b_type b) ty); [injection H as <-; exact Hb|].
      apply bind_ok in H as (b1 & E & H). injection H as <-. unfold calm_body.
      intros Hs Ha. unfold set_awake in *. destruct (is_static b1) eqn:Es.
      + exfalso. apply Hs. unfold is_static in Es. destruct (btype_eqb_spec (b_type b1) StaticBody); [assumption|discriminate].
      + discriminate Ha.
  Qed.
  Lemma rest_history (cs : list (bcall R)) : forall b b', restful b -> bcalls b cs = Ok b' -> restful b'.
  Proof.
    induction cs as [|c cs IH]; cbn [bcalls]; intros b b' Hb H; [injection H as <-; exact Hb|].
    apply bind_ok in H as (b1 & E & H). exact (IH _ _ (restful_run _ _ _ Hb E) H).
  Qed.
  Lemma new_restful (bd : body_def R) b : body_new bd = Ok b ->
    (bd_awake bd = false -> bd_lv bd = vzero /\ bd_av bd = 0) -> restful b.
  Proof.
    unfold body_new. intros H Hd. repeat (apply bind_ok in H as (? & _ & H)). injection H as <-.
    intros Hs Ha. cbn in Hs, Ha. destruct (btype_eqb_spec (bd_type bd) StaticBody); [contradiction|]. cbn in Ha. rewrite andb_true_r in Ha.
    destruct (Hd Ha) as (-> & ->). repeat split.
  Qed.
End Rest.

(** ** C28 *)
Section Mass.
  Local Open Scope R_scope.

  Lemma acc_eq (a a' x x' y y' i i' : R) : a = a' -> x = x' -> y = y' -> i = i' -> (Ok (a, V2 x y, i)) = Ok (a', V2 x' y', i').
  Proof. intros -> -> -> ->. reflexivity. Qed.
  Lemma mass_loop_run fs : forall ms m c i, masses fs ms ->
    mass_loop fs (m, c, i) = Ok (m + total_mass ms, V2 (vx c + total_x ms) (vy c + total_y ms), i + total_i ms).
  Proof.
    unfold total_mass, total_x, total_y, total_i.
    induction fs as [|f fs IH]; intros ms m c i H; inversion H as [|? d ? ms' Hd Hr]; subst; cbn [mass_loop total fold_right].
    - rewrite !Rplus_0_r. destruct c; reflexivity.
    - rops. destruct Hd as [(Z & ->)|(Z & Ed)].
      + rewrite Z. rewrite Req_bool_true by reflexivity. rewrite (IH ms' _ _ _ Hr). unfold total. cbn [fold_right].
        unfold no_mass. cbn [md_mass md_center md_i vx vy]. apply acc_eq; ring.
      + rewrite Req_bool_false by exact Z. unfold fixture_mass. rewrite Ed. cbn [bind]. rewrite (IH ms' _ _ _ Hr). unfold total. cbn [fold_right].
        rmathc. apply acc_eq; ring.
  Qed.
  Lemma mass_loop_inv fs : forall m c i r, mass_loop fs (m, c, i) = Ok r -> exists ms, masses fs ms.
  Proof.
    induction fs as [|f fs IH]; intros m c i r H; cbn [mass_loop] in H; [exists []; constructor|].
    rops. destruct (Req_bool_spec (f_density f) 0) as [Z|Z].
    - destruct (IH _ _ _ _ H) as (ms & Hm). exists (no_mass :: ms). constructor; [left; split; [exact Z|reflexivity]|exact Hm].
    - apply bind_ok in H as (d & Ed & H). destruct (IH _ _ _ _ H) as (ms & Hm). exists (d :: ms). constructor; [right; split; assumption|exact Hm].
  Qed.

  Lemma velocity_moved (b b' : body R) : moved b b' -> b_av b' = b_av b ->
    forall p, point_velocity b' p = point_velocity b p.
  Proof.
    intros (_ & _ & _ & L) A p. unfold point_velocity. rewrite L, A. apply vec2_ext; rmathc; ring.
  Qed.

  Lemma reset_mass_ok (b b' : body R) fs : b_type b = DynamicBody -> reset_mass_data fs b = Ok b' ->
    exists ms, masses fs ms /\
      let M := total_mass ms in let lc := sw_local_center (b_sweep b') in
      b_mass b' = M /\
      (0 < M -> b_inv_mass b' * M = 1 /\ M * vx lc = total_x ms /\ M * vy lc = total_y ms) /\
      (M <= 0 -> b_inv_mass b' = 0) /\
      (0 < total_i ms -> fl_fixed_rotation (b_flags b) = false ->
        b_i b' + M * len_sq lc = total_i ms /\ 0 < b_i b' /\ b_inv_i b' * b_i b' = 1) /\
      (total_i ms <= 0 \/ fl_fixed_rotation (b_flags b) = true -> b_i b' = 0 /\ b_inv_i b' = 0) /\
      (forall p, point_velocity b' p = point_velocity b p).
  Proof.
    intros Hd H. apply reset_run in H as (K & _ & D). apply kept_inv in K as (_ & _ & Ka & _).
    destruct (D Hd) as (Mv & m & c & i & E & Em & Ei & El & Er). destruct (mass_loop_inv _ _ _ _ _ E) as (ms & Hm).
    rewrite (mass_loop_run _ _ _ _ _ Hm) in E. injection E as <- <- <-. exists ms. split; [exact Hm|]. cbn zeta.
    set (M := total_mass ms) in *. set (X := total_x ms) in *. set (Y := total_y ms) in *. set (I := total_i ms) in *.
    revert Em Ei El Er. unfold vzero, vmuls. rops. rewrite !Rplus_0_l. intros Em Ei El Er.
    split; [exact Em|]. split; [|split; [|split; [|split]]].
    - intros HM. rewrite Rlt_bool_true in Ei, El by exact HM. rewrite Ei, El. cbn [vx vy]. repeat split; field; lra.
    - intros HM. rewrite Rlt_bool_false in Ei by exact HM. exact Ei.
    - intros HI Hf. rewrite Hf, Rlt_bool_true in Er by exact HI. cbn [andb negb] in Er. destruct Er as (Ea & Eb & Ec).
      destruct (Rlt_bool_spec 0 (b_i b')) as [Eb'|]; [clear Eb|discriminate Eb].
      repeat split; [|exact Eb'|].
      + rewrite Ea. unfold len_sq. rmathc. ring.
      + rewrite Ec. field. lra.
    - intros [HI|Hf]; [rewrite Rlt_bool_false in Er by exact HI; exact Er|]. rewrite Hf in Er. rewrite andb_false_r in Er. exact Er.
    - apply velocity_moved; assumption.
  Qed.
  Lemma total_cons g d ms : total g (d :: ms) = g d + total g ms.
  Proof. reflexivity. Qed.

  (* mass [M], first moments [X], [Y] and inertia [I] of some bodies: the Cauchy-Schwarz inequality *)
  Definition acc_ok (M X Y I : R) : Prop :=
    0 <= M /\ (M = 0 -> X = 0 /\ Y = 0) /\
    exists Q, 0 <= Q /\ X * X + Y * Y <= M * Q /\ Q <= I /\ (0 < M -> Q < I).
  Lemma acc_zero : acc_ok 0 0 0 0.
  Proof. split; [lra|]. split; [intros; lra|]. exists 0. repeat split; try lra. Qed.
  Lemma acc_step M X Y I m x y i : acc_ok M X Y I -> 0 <= m -> m * (x * x + y * y) <= i -> (0 < m -> m * (x * x + y * y) < i) ->
    acc_ok (m + M) (m * x + X) (m * y + Y) (i + I).
  Proof.
    intros (HM & Z & Q & HQ & CS & B & BS) Hm Hq Hs.
    split; [lra|]. split.
    { intros E. assert (m = 0) by lra. assert (M = 0) by lra. destruct (Z H0) as (-> & ->). subst. split; lra. }
    exists (Q + m * (x * x + y * y)). assert (0 <= m * (x * x + y * y)) by (apply Rmult_le_pos; [exact Hm|nra]).
    split; [lra|]. split; [|split; [lra|]].
    - destruct (Req_dec M 0) as [E|NE].
      + destruct (Z E) as (EX & EY). rewrite EX, EY, E. nra.
      + assert (0 < M) by lra.
        pose proof (Rle_0_sqr (M * x - X)) as A. pose proof (Rle_0_sqr (M * y - Y)) as A'. unfold Rsqr in A, A'.
        assert (A2 : 0 <= m * (M * (x * x + y * y) * M - 2 * M * (x * X + y * Y) + M * Q)).
        { apply Rmult_le_pos; [exact Hm|]. lra. }
        apply Rmult_le_reg_l with M; [assumption|]. nra.
    - intros HMm. destruct (Rle_lt_dec M 0); [|specialize (BS r); lra]. assert (0 < m) by lra. specialize (Hs H0). lra.
  Qed.
  Lemma acc_center M X Y I : acc_ok M X Y I -> 0 < M -> (X * X + Y * Y) / M < I.
  Proof.
    intros (HM & Z & Q & HQ & CS & B & BS) HM'. specialize (BS HM').
    assert ((X * X + Y * Y) / M <= Q); [|lra].
    apply Rmult_le_reg_l with M; [lra|]. replace (M * ((X * X + Y * Y) / M)) with (X * X + Y * Y) by (field; lra). lra.
  Qed.
  Lemma proper_sums ms : Forall proper_mass ms -> acc_ok (total_mass ms) (total_x ms) (total_y ms) (total_i ms).
  Proof.
    unfold total_mass, total_x, total_y, total_i.
    induction 1 as [|d ms (Hm & Hq & Hs) _ IH]; [exact acc_zero|]. rewrite !total_cons. apply acc_step; assumption.
  Qed.

  Lemma reset_total (b : body R) fs ms : masses fs ms -> Forall proper_mass ms -> exists b', reset_mass_data fs b = Ok b'.
  Proof.
    intros Hm Hp. unfold reset_mass_data. destruct (b_type _) eqn:Et; try (eexists; reflexivity).
    change (b_mass _) with 0 at 1. change (b_i _) with 0 at 1.
    unfold vzero. rewrite (mass_loop_run _ _ _ _ _ Hm). cbn [bind]. rops. rewrite !Rplus_0_l.
    pose proof (proper_sums ms Hp) as AC.
    set (M := total_mass ms) in *. set (X := total_x ms) in *. set (Y := total_y ms) in *. set (I := total_i ms) in *.
    match goal with |- context [set_b_i I ?bb] => set (b0 := bb) end. clearbody M X Y I.
    change (b_mass (set_b_i I b0)) with M.
    destruct (Rlt_bool_spec 0 M) as [HM'|HM']; cbn zeta iota; rops.
    - change (b_i (set_b_inv_mass _ _)) with I. change (b_mass (set_b_inv_mass _ _)) with M. change (b_inv_mass (set_b_inv_mass (1 / M) _)) with (1 / M).
      destruct (Rlt_bool 0 I && _); cbn [bind]; [|eexists; reflexivity].
      rewrite Rlt_bool_true; [cbn [b2_assert bind]; eexists; reflexivity|].
      cbn [b_i set_b_i]. rmathc.
      replace (M * (X * (1 / M) * (X * (1 / M)) + Y * (1 / M) * (Y * (1 / M)))) with ((X * X + Y * Y) / M) by (field; lra).
      pose proof (acc_center _ _ _ _ AC HM'). lra.
    - destruct AC as (HM & Z & _). assert (M = 0) by lra. destruct (Z H) as (-> & ->).
      change (b_i (set_b_i I b0)) with I.
      destruct (Rlt_bool_spec 0 I); cbn [andb]; [destruct (negb _)|]; cbn [bind]; try (eexists; reflexivity).
      rewrite Rlt_bool_true; [cbn [b2_assert bind]; eexists; reflexivity|]. cbn [b_i set_b_i]. rmathc. nra.
  Qed.

  Lemma polygon_proper (p : polygon R) rho : massive_shape (ShPolygon p) -> 0 < rho ->
    exists d, polygon_mass p rho = Ok d /\ proper_mass d.
  Proof.
    intros (Hc & s & Es & Hd & a1 & b1 & E1 & E2 & Hbig) Hr. unfold polygon_mass.
    replace (Nat.leb 3 (po_count p)) with true by (symmetry; apply Nat.leb_le; lia). cbn [b2_assert bind].
    rewrite (get_ok _ _ _ Es). cbn [bind].
    unfold for_range. rewrite Nat.sub_0_r.
    loop_inv (fun k (st : vec2 R * R * R) => let '(c, ar, i) := st in acc_ok ar (vx c) (vy c) i /\ ((2 <= k)%nat -> B2_EPSILON < ar)) E H.
    - split; [exact acc_zero|]. intros; lia.
    - intros i ((c & ar) & it) Hi (Ha & Hb).
      destruct (nth_lt (po_vertices p) i) as (a & Ea); [lia|]. rewrite (get_ok _ _ _ Ea). cbn [bind].
      assert (Hv : exists b, get (po_vertices p) (if Nat.ltb (i + 1) (po_count p) then (i + 1)%nat else 0%nat) = Ok b /\
        0 <= (vx a - vx s) * (vy b - vy s) - (vy a - vy s) * (vx b - vx s) /\
        (i = 1%nat -> 2 * B2_EPSILON < (vx a - vx s) * (vy b - vy s) - (vy a - vy s) * (vx b - vx s))).
      { destruct (Nat.ltb_spec (i + 1) (po_count p)).
        - destruct (nth_lt (po_vertices p) (i + 1)) as (b & Eb); [lia|]. exists b. split; [apply get_ok, Eb|]. split.
          + apply (Hd i); [lia|exact Ea|]. rewrite <- Eb. f_equal. lia.
          + intros ->. rewrite E1 in Ea. injection Ea as <-. change (1 + 1)%nat with 2%nat in Eb. rewrite E2 in Eb. injection Eb as <-. exact Hbig.
        - exists s. split; [apply get_ok, Es|]. split; [lra|]. intros ->. lia. }
      destruct Hv as (b & Eb & Hv & Hv1). rewrite Eb. cbn [bind]. eexists. split; [reflexivity|]. rmathc.
      set (x1 := vx a - vx s) in *. set (y1 := vy a - vy s) in *. set (x2 := vx b - vx s) in *. set (y2 := vy b - vy s) in *.
      assert (ED : exists D, D = x1 * y2 - y1 * x2) by (eexists; reflexivity). destruct ED as (D & ED). rewrite <- ED in *. clearbody x1 y1 x2 y2. split.
      + pose proof (acc_step ar (vx c) (vy c) it (D / 2) ((x1 + x2) / 3) ((y1 + y2) / 3)
          (1 / 4 * (1 / 3) * D * (x1 * x1 + x2 * x1 + x2 * x2 + (y1 * y1 + y2 * y1 + y2 * y2))) Ha) as St.
        assert (S1 : D / 2 * ((x1 + x2) / 3 * ((x1 + x2) / 3) + (y1 + y2) / 3 * ((y1 + y2) / 3)) =
          1 / 4 * (1 / 3) * D * (x1 * x1 + x2 * x1 + x2 * x2 + (y1 * y1 + y2 * y1 + y2 * y2)) -
          D / 72 * ((x1 - x2) * (x1 - x2) + x1 * x1 + x2 * x2 + ((y1 - y2) * (y1 - y2) + y1 * y1 + y2 * y2))) by field.
        assert (S2 : 0 <= (x1 - x2) * (x1 - x2) + x1 * x1 + x2 * x2 + ((y1 - y2) * (y1 - y2) + y1 * y1 + y2 * y2)).
        { pose proof (Rle_0_sqr (x1 - x2)). pose proof (Rle_0_sqr (y1 - y2)). unfold Rsqr in *. nra. }
        assert (S3 : 0 < D -> 0 < (x1 - x2) * (x1 - x2) + x1 * x1 + x2 * x2 + ((y1 - y2) * (y1 - y2) + y1 * y1 + y2 * y2)).
        { intros HD. pose proof (Rle_0_sqr (x1 - x2)). pose proof (Rle_0_sqr (y1 - y2)). unfold Rsqr in *.
          destruct (Req_dec x1 0); [destruct (Req_dec y1 0)|]; [subst; lra|nra|nra]. }
        set (N := (x1 - x2) * (x1 - x2) + x1 * x1 + x2 * x2 + ((y1 - y2) * (y1 - y2) + y1 * y1 + y2 * y2)) in *.
        assert (0 <= D / 72 * N) by (apply Rmult_le_pos; lra).
        match goal with |- acc_ok ?A ?B ?C ?D0 => match type of St with _ -> _ -> _ -> acc_ok ?A' ?B' ?C' ?D' =>
          replace A with A' by field; replace B with B' by field; replace C with C' by field; replace D0 with D' by field end end.
        apply St; [lra|lra|]. intros HD. assert (0 < D / 72 * N) by (apply Rmult_lt_0_compat; [lra|apply S3; lra]). lra.
      + intros Hi2. destruct (Nat.eq_dec i 1) as [->|Hi1]; [|specialize (Hb ltac:(lia))]; [specialize (Hv1 eq_refl); destruct Ha; lra|lra].
    - rewrite E. cbn [bind]. destruct s' as ((c & ar) & it). destruct H as (Ha & Hb). specialize (Hb ltac:(lia)).
      rops. rewrite Rlt_bool_true by exact Hb. cbn [b2_assert bind]. eexists. split; [reflexivity|].
      pose proof eps_pos as EP. assert (Hp : 0 < ar) by lra. pose proof (acc_center _ _ _ _ Ha Hp) as HC.
      unfold proper_mass, len_sq. cbn [md_mass md_center md_i]. rmathc.
      assert (0 < rho * ar) by (apply Rmult_lt_0_compat; lra).
      match goal with |- _ /\ ?l <= ?r /\ _ => assert (HH : l < r) end.
      { set (cx := vx c) in *. set (cy := vy c) in *. clearbody cx cy.
        assert (E3 : rho * ar * (cx * (1 / ar) * (cx * (1 / ar)) + cy * (1 / ar) * (cy * (1 / ar))) = rho * ((cx * cx + cy * cy) / ar)) by (field; lra).
        assert (rho * ((cx * cx + cy * cy) / ar) < rho * it) by (apply Rmult_lt_compat_l; lra).
        lra. }
      split; [lra|]. split; [lra|]. intros _. exact HH.
  Qed.

  Lemma massive_proper (s : shape R) rho : massive_shape s -> 0 < rho -> exists d, shape_mass s rho = Ok d /\ proper_mass d.
  Proof.
    intros Hs Hr. destruct s as [c|e|p|c].
    - cbn [massive_shape] in Hs. cbn [shape_mass]. eexists. split; [reflexivity|].
      destruct (circle_mass_ok c rho) as (E1 & E2 & E3). unfold proper_mass, len_sq. rewrite E3, E2. unfold ShapeSpec.dotp.
      assert (0 < md_mass (circle_mass c rho)).
      { rewrite E1. pose proof PI_RGT_0. apply Rmult_lt_0_compat; [exact Hr|]. apply Rmult_lt_0_compat; [lra|]. apply Rmult_lt_0_compat; exact Hs. }
      assert (0 < md_mass (circle_mass c rho) * (ci_radius c * ci_radius c)) by (apply Rmult_lt_0_compat; [assumption|apply Rmult_lt_0_compat; exact Hs]).
      repeat split; lra.
    - eexists. split; [reflexivity|]. unfold proper_mass, len_sq, edge_mass. cbn [md_mass md_center md_i]. rops. repeat split; lra.
    - exact (polygon_proper p rho Hs Hr).
    - eexists. split; [reflexivity|]. unfold proper_mass, len_sq, chain_mass. cbn [md_mass md_center md_i]. rops. repeat split; lra.
  Qed.
  Lemma massive_masses fs : Forall (fun f => massive_shape (f_shape f) /\ 0 <= f_density f) fs ->
    exists ms, masses fs ms /\ Forall proper_mass ms.
  Proof.
    induction 1 as [|f fs (Hs & Hr) _ (ms & Hm & Hp)]; [exists []; split; constructor|].
    destruct (Req_dec (f_density f) 0) as [Z|NZ].
    - exists (no_mass :: ms). split; constructor; try assumption; [left; split; [exact Z|reflexivity]|].
      unfold proper_mass, no_mass, len_sq. cbn. repeat split; lra.
    - destruct (massive_proper _ (f_density f) Hs) as (d & Ed & Hd); [lra|].
      exists (d :: ms). split; constructor; try assumption. right. split; assumption.
  Qed.
  Lemma reset_massive (b : body R) fs : Forall (fun f => massive_shape (f_shape f) /\ 0 <= f_density f) fs ->
    exists b', reset_mass_data fs b = Ok b'.
  Proof. intros H. destruct (massive_masses fs H) as (ms & Hm & Hp). exact (reset_total b fs ms Hm Hp). Qed.

  Lemma reset_static (b b' : body R) fs : b_type b <> DynamicBody -> reset_mass_data fs b = Ok b' ->
    b_mass b' = 0 /\ b_inv_mass b' = 0 /\ b_i b' = 0 /\ b_inv_i b' = 0 /\ sw_c (b_sweep b') = xp (b_xf b) /\
    sw_local_center (b_sweep b') = V2 0 0 /\ b_lv b' = b_lv b /\ b_av b' = b_av b.
  Proof.
    intros Ht H. apply reset_run in H as (K & N & _). apply kept_inv in K as (_ & _ & Ka & _).
    destruct (N Ht) as (A1 & A2 & A3 & A4 & A5 & A6 & A7 & A8 & A9). repeat split; assumption.
  Qed.
  Lemma set_mass_ok (b b' : body R) d : b_type b = DynamicBody -> set_mass_data d b = Ok b' ->
    0 < b_mass b' /\ b_inv_mass b' * b_mass b' = 1 /\ (0 < md_mass d -> b_mass b' = md_mass d) /\ (md_mass d <= 0 -> b_mass b' = 1) /\
    sw_local_center (b_sweep b') = md_center d /\
    (0 < md_i d -> fl_fixed_rotation (b_flags b) = false ->
       b_i b' + b_mass b' * len_sq (md_center d) = md_i d /\ 0 < b_i b' /\ b_inv_i b' * b_i b' = 1) /\
    (md_i d <= 0 \/ fl_fixed_rotation (b_flags b) = true -> b_i b' = 0 /\ b_inv_i b' = 0) /\
    (forall p, point_velocity b' p = point_velocity b p).
  Proof.
    intros Ht H. apply set_mass_run in H as (K & _ & D). apply kept_inv in K as (_ & _ & Ka & _).
    destruct (D Ht) as (Mv & Em & Ei & El & Er). rops.
    assert (Hp : 0 < b_mass b') by (rewrite Em; destruct (Rle_bool_spec (md_mass d) 0); lra).
    split; [exact Hp|]. split; [rewrite Ei; field; lra|]. split; [intros; rewrite Em, Rle_bool_false by assumption; reflexivity|].
    split; [intros; rewrite Em, Rle_bool_true by assumption; reflexivity|]. split; [exact El|]. split; [|split].
    - intros HI Hf. rewrite Hf, Rlt_bool_true in Er by exact HI. cbn [andb negb] in Er. destruct Er as (Ea & Eb & Ec).
      destruct (Rlt_bool_spec 0 (b_i b')) as [Eb'|]; [clear Eb|discriminate Eb].
      repeat split; [|exact Eb'|].
      + rewrite Ea. unfold len_sq. rmathc. ring.
      + rewrite Ec. field. lra.
    - intros [HI|Hf]; [rewrite Rlt_bool_false in Er by exact HI; exact Er|]. rewrite Hf in Er. rewrite andb_false_r in Er. exact Er.
    - apply velocity_moved; assumption.
  Qed.
End Mass.

(** ** C29 *)
Section Pose.
  Local Open Scope R_scope.
  Lemma posed_xf (b : body R) : xq (b_xf b) = rot_of (sw_a (b_sweep b)) -> sw_c (b_sweep b) = xfv (b_xf b) (sw_local_center (b_sweep b)) -> posed b.
  Proof.
    intros Q C. unfold posed, turn. rewrite C. unfold xfv. rewrite Q. unfold rot_of. rmathc. repeat split; ring.
  Qed.
  Lemma posed_inv (b : body R) : posed b -> xq (b_xf b) = rot_of (sw_a (b_sweep b)) /\ sw_c (b_sweep b) = xfv (b_xf b) (sw_local_center (b_sweep b)).
  Proof.
    intros (S & C & X & Y). unfold turn in *. cbn [vx vy] in *. split.
    - apply rot_ext; unfold rot_of; rmathc; assumption.
    - apply vec2_ext; rmathc; rewrite S, C; [rewrite X|rewrite Y]; ring.
  Qed.
  Lemma posed_place p a (b : body R) : posed (place_body p a b).
  Proof. apply posed_xf; destruct b as [ty fl ii xf sw]; reflexivity. Qed.
  Lemma posed_sync (b : body R) : posed (synchronize_transform b).
  Proof. apply posed_xf; destruct b as [ty fl ii xf sw]; [reflexivity|]. unfold synchronize_transform. cbn [b_sweep b_xf set_b_xf]. generalize (rot_of (sw_a sw)). intros q. apply vec2_ext; rmathc; ring. Qed.
  Lemma posed_advance alpha (b b' : body R) : body_advance alpha b = Ok b' -> posed b' /\
    sw_c (b_sweep b') = sw_c0 (b_sweep b') /\ sw_a (b_sweep b') = sw_a0 (b_sweep b') /\ sw_alpha0 (b_sweep b') = alpha.
  Proof.
    unfold body_advance. intros H. apply bind_ok in H as (s & E & H). unfold sweep_advance in E. apply bind_ok in E as (? & _ & E).
    injection E as <-. injection H as <-. split; [|repeat split]. apply posed_xf; [reflexivity|]. unfold with_c, with_a. cbn [b_sweep b_xf set_b_xf set_sw set_b_sweep sw_a sw_a0 sw_c sw_c0 sw_local_center]. match goal with |- context [rot_of ?x] => generalize (rot_of x) end. intros q. apply vec2_ext; rmathc; ring.
  Qed.
  Lemma posed_new (bd : body_def R) b : body_new bd = Ok b -> posed b.
  Proof.
    unfold body_new. intros H. repeat (apply bind_ok in H as (? & _ & H)). injection H as <-.
    apply posed_xf; [reflexivity|]. cbn [b_sweep b_xf]. apply vec2_ext; rmathc; ring.
  Qed.
  Lemma posed_reset fs (b b' : body R) : posed b -> reset_mass_data fs b = Ok b' -> posed b'.
  Proof.
    intros P H. apply posed_inv in P as (Q & C). apply reset_run in H as (K & N & D). apply kept_inv in K as (_ & _ & _ & _ & _ & Kx & Kw).
    apply posed_xf; rewrite Kx; [rewrite Kw; exact Q|].
    destruct (btype_eqb_spec (b_type b) DynamicBody) as [E|E].
    - destruct (D E) as ((M & _) & _). exact M.
    - destruct (N E) as (L & M & _). rewrite L, M. apply vec2_ext; rmathc; ring.
  Qed.
  Lemma posed_setmass d (b b' : body R) : posed b -> set_mass_data d b = Ok b' -> posed b'.
  Proof.
    intros P H. pose proof P as P0. apply posed_inv in P as (Q & C). apply set_mass_run in H as (K & N & D). apply kept_inv in K as (_ & _ & _ & _ & _ & Kx & Kw).
    destruct (btype_eqb_spec (b_type b) DynamicBody) as [E|E]; [|rewrite (N E); exact P0].
    apply posed_xf; rewrite Kx; [rewrite Kw; exact Q|].
    destruct (D E) as ((M & _) & _). exact M.
  Qed.
  Lemma posed_frame (b b' : body R) : b_xf b' = b_xf b -> b_sweep b' = b_sweep b -> posed b -> posed b'.
  Proof. unfold posed. intros -> ->. exact (fun x => x). Qed.
  Lemma awake_frame f (b : body R) : b_xf (set_awake f b) = b_xf b /\ b_sweep (set_awake f b) = b_sweep b.
  Proof. unfold set_awake. destruct (is_static b); [split; reflexivity|]. destruct f; split; reflexivity. Qed.
  Lemma push_frame p w (b : body R) : b_xf (apply_push p w b) = b_xf b /\ b_sweep (apply_push p w b) = b_sweep b.
  Proof.
    assert (W : b_xf (wake_if w b) = b_xf b /\ b_sweep (wake_if w b) = b_sweep b).
    { unfold wake_if. destruct (_ && _); [apply awake_frame|split; reflexivity]. }
    destruct p; cbn [apply_push]; unfold apply_force, apply_force_to_center, apply_torque, apply_linear_impulse, apply_linear_impulse_to_center, apply_angular_impulse;
      (destruct (negb _); [split; reflexivity|]); (destruct (is_awake _); [exact W|exact W]).
  Qed.
  Lemma type_posed ty fs (b b' : body R) : posed b -> type_body ty fs b = Ok b' -> posed (calm_body b').
  Proof.
    unfold type_body. intros P E. apply bind_ok in E as (b2 & E & H).
    assert (P0 : posed (set_b_type ty b)) by (apply (posed_frame b); [reflexivity|reflexivity|exact P]).
    pose proof (posed_reset _ _ _ P0 E) as P2.
    assert (P1 : posed b').
    { destruct (is_static b2); injection H as <-; [|exact P2].
      destruct P2 as (A & B & C & D). split; [exact A|]. split; [exact B|]. split; [exact C|exact D]. }
    destruct (awake_frame true b') as (F1 & F2). apply (posed_frame b'); [exact F1|exact F2|exact P1].
  Qed.
  Lemma velocity_posed (b : body R) : posed b -> (forall v, posed (set_linear_velocity v b)) /\ (forall w, posed (set_angular_velocity w b)).
  Proof.
    intros P. destruct (awake_frame true b) as (F1 & F2). split; intros v.
    - unfold set_linear_velocity. destruct (is_static b); [exact P|]. destruct (nlt _ _); (apply (posed_frame b); [try reflexivity; exact F1|try reflexivity; exact F2|exact P]).
    - unfold set_angular_velocity. destruct (is_static b); [exact P|]. destruct (nlt _ _); (apply (posed_frame b); [try reflexivity; exact F1|try reflexivity; exact F2|exact P]).
  Qed.
  Lemma posed_run (b b' : body R) c : posed b -> bcall_run b c = Ok b' -> posed b'.
  Proof.
    intros P. destruct c; cbn [bcall_run]; intros H; try (injection H as <-).
    - destruct (awake_frame flag b). apply (posed_frame b); assumption.
    - unfold set_sleeping_allowed.
      assert (P0 : posed (mod_flags (set_fl_auto_sleep flag) b)) by (apply (posed_frame b); [reflexivity|reflexivity|exact P]).
      destruct flag; [exact P0|]. destruct (awake_frame true (mod_flags (set_fl_auto_sleep false) b)) as (F1 & F2).
      exact (posed_frame _ _ F1 F2 P0).
    - apply velocity_posed, P.
    - apply velocity_posed, P.
    - destruct (push_frame p wake b). apply (posed_frame b); assumption.
    - exact (posed_reset _ _ _ P H).
    - exact (posed_setmass _ _ _ P H).
    - apply fixed_run in H as [->|H]; [exact P|]. refine (posed_reset _ _ _ _ H).
      apply (posed_frame b); [reflexivity|reflexivity|exact P].
    - apply posed_place.
    - apply posed_sync.
    - apply posed_advance in H as (H & _). exact H.
    - destruct (btype_eqb (b_type b) ty); [injection H as <-; exact P|].
      apply bind_ok in H as (b1 & E & H). injection H as <-. exact (type_posed _ _ _ _ P E).
  Qed.
  Lemma posed_history (cs : list (bcall R)) : forall b b', posed b -> bcalls b cs = Ok b' -> posed b'.
  Proof.
    induction cs as [|c cs IH]; cbn [bcalls]; intros b b' Hb H; [injection H as <-; exact Hb|].
    apply bind_ok in H as (b1 & E & H). exact (IH _ _ (posed_run _ _ _ Hb E) H).
  Qed.
End Pose.
