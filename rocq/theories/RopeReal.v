(** What a step of a rope does, in exact real arithmetic: fixed points follow, the others share impulses. *)
From Coq Require Import List ZArith Reals Lra Lia Bool Arith.
From Flocq Require Import Core.
From Verif Require Import Base Num NumLaws Math RTac ListFacts SolverModel RopeModel RopeSpec RopeTotal.
Import ListNotations.
Local Open Scope R_scope.
Notation pt := (rpoint R).

(* the point [q] gets the impulse [J] *)
Definition pushed (q : pt) (J : vec2 R) : pt := with_p q (plus (rp_p q) (times (rp_im q) J)).
Definition kicked (q : pt) (J : vec2 R) : pt := with_v q (plus (rp_v q) (times (rp_im q) J)).
Definition push2 (q1 q2 q1' q2' : pt) : Prop := exists J1 J2, q1' = pushed q1 J1 /\ q2' = pushed q2 J2 /\ plus J1 J2 = V2 0 0.
Definition push3 (H : Prop) (q1 q2 q3 q1' q2' q3' : pt) : Prop := exists J1 J2 J3, q1' = pushed q1 J1 /\ q2' = pushed q2 J2 /\ q3' = pushed q3 J3 /\ (H -> plus J1 (plus J2 J3) = V2 0 0).
Definition kick3 (q1 q2 q3 q1' q2' q3' : pt) : Prop := exists J1 J2 J3, q1' = kicked q1 J1 /\ q2' = kicked q2 J2 /\ q3' = kicked q3 J3 /\ plus J1 (plus J2 J3) = V2 0 0.

Ltac cases E := repeat match type of E with
  | context [match ?x with Datatypes.pair _ _ => _ end] => destruct x as [? ?]
  | context [if ?b then _ else _] => destruct b; try discriminate E
  end.
Ltac vec := unfold pushed, kicked, with_p, with_v, plus, times, minus; try f_equal; apply vec2_ext; rmathc; unfold Rdiv; ring.

Lemma pull_push {C} k m1 m2 len (c : C) q1 q2 c' q1' q2' : rp_im q1 = m1 -> rp_im q2 = m2 -> pbd_pull k m1 m2 len c q1 q2 = Some (c', q1', q2') -> c' = c /\ push2 q1 q2 q1' q2'.
Proof.
  intros <- <-. unfold pbd_pull. destruct (vnormalize _) as [l d]. cbv zeta. intros E. destruct (neqb _ _); [discriminate|]. inversion E; subst. split; [reflexivity|].
  exists (times (- (k * / (rp_im q1 + rp_im q2) * (len - l))) d), (times (k * / (rp_im q1 + rp_im q2) * (len - l)) d). split; [vec|]. split; [vec|]. apply vec2_ext; cbn; ring.
Qed.
Lemma stretch_push dt t c q1 q2 c' q1' q2' : rp_im q1 = st_m1 c -> rp_im q2 = st_m2 c ->
  match tu_stretching t with PbdStretching => pbd_pull (tu_stretch_stiffness t) (st_m1 c) (st_m2 c) (st_l c) c q1 q2 = Some (c', q1', q2')
  | XpbdStretching => (let dp1 := vsub (rp_p q1) (rp_p0 q1) in
      let dp2 := vsub (rp_p q2) (rp_p0 q2) in
      let '(l, u) := vnormalize (vsub (rp_p q2) (rp_p q1)) in
      let j1 := vneg u in
      let j2 := u in
      let sum := nadd (st_m1 c) (st_m2 c) in
      if neqb sum (nofZ 0) then None
      else
        let impulse := xpbd_impulse dt (st_spring c) (st_damper c) sum (nsub l (st_l c)) (nadd (b2_dot j1 dp1) (b2_dot j2 dp2)) (st_lambda c) in
        Some (st_with_lambda c (nadd (st_lambda c) impulse), with_p q1 (vadd (rp_p q1) (vscale (nmul (st_m1 c) impulse) j1)), with_p q2 (vadd (rp_p q2) (vscale (nmul (st_m2 c) impulse) j2)))) = Some (c', q1', q2') end ->
  stwin c c' /\ push2 q1 q2 q1' q2'.
Proof.
  intros M1 M2 E. destruct (tu_stretching t).
  - apply (pull_push _ _ _ _ _ _ _ _ _ _ M1 M2) in E. destruct E as [-> P]. split; [apply stwin_refl|exact P].
  - destruct (vnormalize _) as [l u]. cbv zeta in E. destruct (neqb _ _); [discriminate|]. set (x := xpbd_impulse _ _ _ _ _ _ _) in E. clearbody x. inversion E; subst. split; [eexists; reflexivity|].
    rewrite <- M1, <- M2. exists (times (- x) u), (times x u). split; [vec|]. split; [vec|]. apply vec2_ext; cbn; ring.
Qed.
Lemma jacobian_0 l1 l2 (p1 p2 p3 : vec2 R) j1 j2 j3 : bend_jacobian l1 l2 p1 p2 p3 = (j1, j2, j3) -> plus j1 (plus j2 j3) = V2 0 0.
Proof. unfold bend_jacobian. intros E. inversion E; subst. apply vec2_ext; unfold plus; rmathc; unfold Rdiv; ring. Qed.
Lemma move_push c c' x (j1 j2 j3 : vec2 R) q1 q2 q3 b q1' q2' q3' : rp_im q1 = be_m1 c -> rp_im q2 = be_m2 c -> rp_im q3 = be_m3 c -> bend_move c c' x j1 j2 j3 q1 q2 q3 = Some (b, q1', q2', q3') -> forall H : Prop, (H -> plus j1 (plus j2 j3) = V2 0 0) ->
  b = c' /\ push3 H q1 q2 q3 q1' q2' q3'.
Proof.
  intros M1 M2 M3 E H J. unfold bend_move in E. inversion E; subst. split; [reflexivity|]. rewrite <- M1, <- M2, <- M3. exists (times x j1), (times x j2), (times x j3). split; [vec|]. split; [vec|]. split; [vec|]. intros h. specialize (J h).
  assert (Jx := f_equal vx J). assert (Jy := f_equal vy J). cbn in Jx, Jy. apply vec2_ext; cbn; [rewrite <- (Rmult_0_r x), <- Jx|rewrite <- (Rmult_0_r x), <- Jy]; ring.
Qed.
Lemma push3_true q1 q2 q3 q1' q2' q3' H : push3 True q1 q2 q3 q1' q2' q3' -> push3 H q1 q2 q3 q1' q2' q3'.
Proof. intros (J1 & J2 & J3 & A & B & C & D). exists J1, J2, J3. auto. Qed.

Section Solvers.
  Variables (l : list R) (I : list pt -> Prop) (H : Prop) (dt : R) (t : tuning R).
  Hypothesis Iims : forall qs, I qs -> ims qs = l.
  Hypothesis I2 : forall qs i1 i2 q1 q2 q1' q2', I qs -> i1 <> i2 -> nth_error qs i1 = Some q1 -> nth_error qs i2 = Some q2 -> push2 q1 q2 q1' q2' -> I (upd (upd qs i1 q1') i2 q2').
  Hypothesis I3 : forall qs i1 i2 i3 q1 q2 q3 q1' q2' q3', I qs -> i1 <> i2 -> i1 <> i3 -> i2 <> i3 -> nth_error qs i1 = Some q1 -> nth_error qs i2 = Some q2 -> nth_error qs i3 = Some q3 ->
    push3 H q1 q2 q3 q1' q2' q3' -> I (upd (upd (upd qs i1 q1') i2 q2') i3 q3').
  Lemma bend_solver_push c qs : good_b l c -> (H -> tu_bending t = PbdHeightBending -> be_a1 c + be_a2 c = 1) -> I qs -> exists c' qs', bsolver dt t c qs = Ok (c', qs') /\ btwin c c' /\ I qs'.
  Proof.
    intros G P F. pose proof (fun c f => keep2b l I push2 Iims I2 c f qs) as K2. pose proof (fun c f => keep3 l I (push3 H) Iims I3 c f qs) as K3. unfold bsolver. destruct (tu_bending t) eqn:TB.
    - exists c, qs. repeat split; [apply btwin_refl|exact F].
    - apply K3; [exact G|exact F|]. intros q1 q2 q3 c' q1' q2' q3' M1 M2 M3 E. cbv zeta in E. destruct (bend_lengths _ _ _ _ _) as [l1 l2]. destruct (neqb (nmul l1 l2) _); [discriminate|]. destruct (bend_jacobian _ _ _ _ _) as [[j1 j2] j3] eqn:J. apply jacobian_0 in J.
      destruct (move_push _ _ _ _ _ _ _ _ _ _ _ _ _ M1 M2 M3 E H (fun _ => J)) as [-> X]. split; [apply btwin_refl|exact X].
    - apply K3; [exact G|exact F|]. intros q1 q2 q3 c' q1' q2' q3' M1 M2 M3 E. cbv zeta in E. destruct (bend_lengths _ _ _ _ _) as [l1 l2]. destruct (neqb (nmul l1 l2) _); [discriminate|]. destruct (bend_jacobian _ _ _ _ _) as [[j1 j2] j3] eqn:J. apply jacobian_0 in J. destruct (neqb _ _); [discriminate|].
      destruct (move_push _ _ _ _ _ _ _ _ _ _ _ _ _ M1 M2 M3 E H (fun _ => J)) as [-> X]. split; [eexists; reflexivity|exact X].
    - apply K2; [exact G|exact F|]. intros q1 q2 c' q1' q2' M1 M2 E. apply (pull_push _ _ _ _ _ _ _ _ _ _ M1 M2) in E. destruct E as [-> E]. split; [apply btwin_refl|exact E].
    - apply K3; [exact G|exact F|]. intros q1 q2 q3 c' q1' q2' q3' M1 M2 M3 E. cbv zeta in E. destruct (neqb _ _); [discriminate|]. destruct (neqb _ _); [discriminate|].
      set (u := vscale (ndiv (nofZ 1) _) _) in E. clearbody u. destruct (move_push _ _ _ _ _ _ _ _ _ _ _ _ _ M1 M2 M3 E H) as [-> X]; [|split; [apply btwin_refl|exact X]].
      intros h. specialize (P h eq_refl). apply vec2_ext; unfold plus; rmathc; [replace (be_a1 c * vx u + (- vx u + be_a2 c * vx u)) with ((be_a1 c + be_a2 c - 1) * vx u) by ring|replace (be_a1 c * vy u + (- vy u + be_a2 c * vy u)) with ((be_a1 c + be_a2 c - 1) * vy u) by ring]; rewrite P; ring.
    - apply K3; [exact G|exact F|]. intros q1 q2 q3 c' q1' q2' q3' M1 M2 M3 E. cbv zeta in E. set (d := vsub (rp_p q2) _) in E. clearbody d. set (w := ndiv (tu_bend_stiffness t) _) in E. clearbody w. inversion E; subst. split; [apply btwin_refl|]. rewrite <- M1, <- M2, <- M3.
      exists (times (2 * w) d), (times (-4 * w) d), (times (2 * w) d). split; [vec|]. split; [vec|]. split; [vec|]. intros _. apply vec2_ext; cbn; ring.
  Qed.
  Lemma stretch_solver_push c qs : good_s l c -> I qs -> exists c' qs', ssolver dt t c qs = Ok (c', qs') /\ stwin c c' /\ I qs'.
  Proof.
    intros G F. pose proof (fun c f => keep2s l I push2 Iims I2 c f qs) as K2. unfold ssolver. pose proof (stretch_push dt t c) as X. destruct (tu_stretching t).
    - apply K2; [exact G|exact F|exact X].
    - apply K2; [exact G|exact F|exact X].
  Qed.
End Solvers.
Lemma force_push l (I : list pt -> Prop) dt t :
  (forall qs, I qs -> ims qs = l) ->
  (forall qs i1 i2 i3 q1 q2 q3 q1' q2' q3', I qs -> i1 <> i2 -> i1 <> i3 -> i2 <> i3 -> nth_error qs i1 = Some q1 -> nth_error qs i2 = Some q2 -> nth_error qs i3 = Some q3 -> kick3 q1 q2 q3 q1' q2' q3' -> I (upd (upd (upd qs i1 q1') i2 q2') i3 q3')) ->
  forall c qs, good_b l c -> I qs -> exists c' qs', bend_force dt t c qs = Ok (c', qs') /\ btwin c c' /\ I qs'.
Proof.
  intros Iims I3 c qs G F. apply (keep3 l I kick3 Iims I3 c); [exact G|exact F|]. intros q1 q2 q3 c' q1' q2' q3' M1 M2 M3 E. cbv zeta in E.
  destruct (bend_lengths _ _ _ _ _) as [l1 l2]. destruct (neqb (nmul l1 l2) _); [discriminate|]. destruct (bend_jacobian _ _ _ _ _) as [[j1 j2] j3] eqn:J. apply jacobian_0 in J. destruct (neqb _ _); [discriminate|].
  set (x := nmul (nneg dt) _) in E. clearbody x. inversion E; subst. split; [apply btwin_refl|]. rewrite <- M1, <- M2, <- M3. exists (times x j1), (times x j2), (times x j3). split; [vec|]. split; [vec|]. split; [vec|].
  assert (Jx := f_equal vx J). assert (Jy := f_equal vy J). cbn in Jx, Jy. apply vec2_ext; cbn; [rewrite <- (Rmult_0_r x), <- Jx|rewrite <- (Rmult_0_r x), <- Jy]; ring.
Qed.

(** ** sums over points *)
Definition msum (f : pt -> R) (qs : list pt) : R := sum (map (fun q => mass q * f q) qs).
Lemma sum_upd (f : pt -> R) : forall qs i q q', nth_error qs i = Some q -> sum (map f (upd qs i q')) = sum (map f qs) - f q + f q'.
Proof.
  induction qs as [|a qs IH]; intros i q q' N; [destruct i; discriminate|]. destruct i as [|i]; cbn [upd map nth_error] in *; [inversion N; subst; unfold sum; cbn [fold_right]; ring|]. specialize (IH i q q' N). unfold sum in *. cbn [fold_right]. rewrite IH. ring.
Qed.
Lemma msum_ext f g qs : (forall q, In q qs -> f q = g q) -> msum f qs = msum g qs.
Proof. intros E. unfold msum. f_equal. apply map_ext_in. intros q Hq. now rewrite E. Qed.
Lemma msum_map f g qs : (forall q, rp_im (g q) = rp_im q) -> msum f (map g qs) = msum (fun q => f (g q)) qs.
Proof. intros E. unfold msum. rewrite map_map. f_equal. apply map_ext. intros q. unfold mass. now rewrite E. Qed.
Lemma msum_lin a b f g qs : msum (fun q => a * f q + b * g q) qs = a * msum f qs + b * msum g qs.
Proof. unfold msum, sum in *. induction qs as [|q qs IH]; cbn [map fold_right] in *; [ring|]. rewrite IH. ring. Qed.
Lemma msum_const a qs : msum (fun _ => a) qs = a * weight qs.
Proof. unfold msum, weight, sum in *. induction qs as [|q qs IH]; cbn [map fold_right] in *; [ring|]. rewrite IH. ring. Qed.
Definition heavy (q : pt) : Prop := 0 < rp_im q.
Lemma heavy_1 q : heavy q -> forall x J, mass q * (x + rp_im q * J) = mass q * x + J.
Proof. unfold heavy, mass. intros P x J. field. lra. Qed.

(** ** the passes *)
(* [q] may only have moved, and not if it has no mass *)
Definition moved (q q' : pt) : Prop := kin q q' /\ rp_p0 q' = rp_p0 q /\ rp_v q' = rp_v q /\ (rp_im q = 0 -> rp_p q' = rp_p q).
Definition whirled (q q' : pt) : Prop := kin q q' /\ rp_p0 q' = rp_p0 q /\ rp_p q' = rp_p q /\ (rp_im q = 0 -> rp_v q' = rp_v q).
Lemma moved_refl q : moved q q.
Proof. repeat split. Qed.
Lemma whirled_refl q : whirled q q.
Proof. repeat split. Qed.
Lemma moved_pushed q0 q J : moved q0 q -> moved q0 (pushed q J).
Proof.
  intros ((B & M) & P0 & V & P). unfold moved, kin, pushed, with_p. cbn. repeat split; auto. intros Z. rewrite M, Z. rewrite (P Z). apply vec2_ext; cbn; ring.
Qed.
Lemma whirled_kicked q0 q J : whirled q0 q -> whirled q0 (kicked q J).
Proof.
  intros ((B & M) & P0 & V & P). unfold whirled, kin, kicked, with_v. cbn. repeat split; auto. intros Z. rewrite M, Z. rewrite (P Z). apply vec2_ext; cbn; ring.
Qed.
Lemma Forall2_nth {A} (R : A -> A -> Prop) : forall l l' i y, Forall2 R l l' -> nth_error l' i = Some y -> exists x, nth_error l i = Some x /\ R x y.
Proof. intros l l' i y F. revert i. induction F; intros i N; destruct i; cbn in *; try discriminate; [inversion N; subst; eauto|eauto]. Qed.
Lemma Forall2_upd {A} (R : A -> A -> Prop) : forall l l' i y y', Forall2 R l l' -> nth_error l' i = Some y -> (forall x, nth_error l i = Some x -> R x y -> R x y') -> Forall2 R l (upd l' i y').
Proof. intros l l' i y y' F. revert i. induction F as [|a b l l' K F IH]; intros i N W; destruct i as [|i]; cbn in *; try discriminate; [inversion N; subst; constructor; auto|constructor; eauto]. Qed.
Section Passes.
  Variables (H : Prop) (qs0 : list pt).
  Definition kept (qs : list pt) : Prop := Forall2 moved qs0 qs /\ (H -> Forall heavy qs0 -> msum (fun q => vx (rp_p q)) qs = msum (fun q => vx (rp_p q)) qs0 /\ msum (fun q => vy (rp_p q)) qs = msum (fun q => vy (rp_p q)) qs0).
  Lemma kept_ims qs : kept qs -> ims qs = ims qs0.
  Proof. intros [F _]. induction F as [|a b l l' [[_ M] _] F IH]; cbn; [reflexivity|]. f_equal; auto. Qed.
  Lemma heavy_nth qs i q : Forall2 moved qs0 qs -> Forall heavy qs0 -> nth_error qs i = Some q -> heavy q.
  Proof. intros F Hh N. destruct (Forall2_nth _ _ _ _ _ F N) as (x & Nx & ((_ & M) & _)). unfold heavy. rewrite M. eapply Forall_forall in Hh; [exact Hh|]. eapply nth_error_In; eauto. Qed.
  Lemma push_one qs i q J : Forall2 moved qs0 qs -> nth_error qs i = Some q -> Forall2 moved qs0 (upd qs i (pushed q J)).
  Proof. intros F N. eapply Forall2_upd; eauto. intros x _ M. now apply moved_pushed. Qed.
  Lemma kept_2 qs i1 i2 q1 q2 q1' q2' : kept qs -> i1 <> i2 -> nth_error qs i1 = Some q1 -> nth_error qs i2 = Some q2 -> push2 q1 q2 q1' q2' -> kept (upd (upd qs i1 q1') i2 q2').
  Proof.
    intros [F S] N N1 N2 (J1 & J2 & -> & -> & J). assert (N2' : nth_error (upd qs i1 (pushed q1 J1)) i2 = Some q2) by (rewrite nth_upd_ne by exact N; exact N2). split; [apply push_one; auto; now apply push_one|].
    intros h Hh. destruct (S h Hh) as [Sx Sy]. assert (W1 := heavy_nth _ _ _ F Hh N1). assert (W2 := heavy_nth _ _ _ F Hh N2). assert (Jx := f_equal vx J). assert (Jy := f_equal vy J). cbn in Jx, Jy.
    rewrite <- Sx, <- Sy. unfold msum. split; rewrite (sum_upd _ _ _ _ _ N2'), (sum_upd _ _ _ _ _ N1).
    - change (mass (pushed q1 J1)) with (mass q1). change (mass (pushed q2 J2)) with (mass q2). change (vx (rp_p (pushed q1 J1))) with (vx (rp_p q1) + rp_im q1 * vx J1). change (vx (rp_p (pushed q2 J2))) with (vx (rp_p q2) + rp_im q2 * vx J2). rewrite (heavy_1 _ W1), (heavy_1 _ W2). lra.
    - change (mass (pushed q1 J1)) with (mass q1). change (mass (pushed q2 J2)) with (mass q2). change (vy (rp_p (pushed q1 J1))) with (vy (rp_p q1) + rp_im q1 * vy J1). change (vy (rp_p (pushed q2 J2))) with (vy (rp_p q2) + rp_im q2 * vy J2). rewrite (heavy_1 _ W1), (heavy_1 _ W2). lra.
  Qed.
  Lemma kept_3 qs i1 i2 i3 q1 q2 q3 q1' q2' q3' : kept qs -> i1 <> i2 -> i1 <> i3 -> i2 <> i3 -> nth_error qs i1 = Some q1 -> nth_error qs i2 = Some q2 -> nth_error qs i3 = Some q3 -> push3 H q1 q2 q3 q1' q2' q3' -> kept (upd (upd (upd qs i1 q1') i2 q2') i3 q3').
  Proof.
    intros [F S] N N' N'' N1 N2 N3 (J1 & J2 & J3 & -> & -> & -> & J). assert (N2' : nth_error (upd qs i1 (pushed q1 J1)) i2 = Some q2) by (rewrite nth_upd_ne by exact N; exact N2).
    assert (N3' : nth_error (upd (upd qs i1 (pushed q1 J1)) i2 (pushed q2 J2)) i3 = Some q3) by (rewrite !nth_upd_ne by assumption; exact N3). split; [repeat (apply push_one; auto)|].
    intros h Hh. destruct (S h Hh) as [Sx Sy]. assert (W1 := heavy_nth _ _ _ F Hh N1). assert (W2 := heavy_nth _ _ _ F Hh N2). assert (W3 := heavy_nth _ _ _ F Hh N3). assert (Jx := f_equal vx (J h)). assert (Jy := f_equal vy (J h)). cbn in Jx, Jy.
    rewrite <- Sx, <- Sy. unfold msum. split; rewrite (sum_upd _ _ _ _ _ N3'), (sum_upd _ _ _ _ _ N2'), (sum_upd _ _ _ _ _ N1); change (mass (pushed q1 J1)) with (mass q1); change (mass (pushed q2 J2)) with (mass q2); change (mass (pushed q3 J3)) with (mass q3).
    - change (vx (rp_p (pushed q1 J1))) with (vx (rp_p q1) + rp_im q1 * vx J1). change (vx (rp_p (pushed q2 J2))) with (vx (rp_p q2) + rp_im q2 * vx J2). change (vx (rp_p (pushed q3 J3))) with (vx (rp_p q3) + rp_im q3 * vx J3). rewrite (heavy_1 _ W1), (heavy_1 _ W2), (heavy_1 _ W3). lra.
    - change (vy (rp_p (pushed q1 J1))) with (vy (rp_p q1) + rp_im q1 * vy J1). change (vy (rp_p (pushed q2 J2))) with (vy (rp_p q2) + rp_im q2 * vy J2). change (vy (rp_p (pushed q3 J3))) with (vy (rp_p q3) + rp_im q3 * vy J3). rewrite (heavy_1 _ W1), (heavy_1 _ W2), (heavy_1 _ W3). lra.
  Qed.
  Definition turned (qs : list pt) : Prop := Forall2 whirled qs0 qs /\ (Forall heavy qs0 -> msum (fun q => vx (rp_v q)) qs = msum (fun q => vx (rp_v q)) qs0 /\ msum (fun q => vy (rp_v q)) qs = msum (fun q => vy (rp_v q)) qs0).
  Lemma turned_ims qs : turned qs -> ims qs = ims qs0.
  Proof. intros [F _]. induction F as [|a b l l' [[_ M] _] F IH]; cbn; [reflexivity|]. f_equal; auto. Qed.
  Lemma heavy_nth' qs i q : Forall2 whirled qs0 qs -> Forall heavy qs0 -> nth_error qs i = Some q -> heavy q.
  Proof. intros F Hh N. destruct (Forall2_nth _ _ _ _ _ F N) as (x & Nx & ((_ & M) & _)). unfold heavy. rewrite M. eapply Forall_forall in Hh; [exact Hh|]. eapply nth_error_In; eauto. Qed.
  Lemma kick_one qs i q J : Forall2 whirled qs0 qs -> nth_error qs i = Some q -> Forall2 whirled qs0 (upd qs i (kicked q J)).
  Proof. intros F N. eapply Forall2_upd; eauto. intros x _ M. now apply whirled_kicked. Qed.
  Lemma turned_3 qs i1 i2 i3 q1 q2 q3 q1' q2' q3' : turned qs -> i1 <> i2 -> i1 <> i3 -> i2 <> i3 -> nth_error qs i1 = Some q1 -> nth_error qs i2 = Some q2 -> nth_error qs i3 = Some q3 -> kick3 q1 q2 q3 q1' q2' q3' -> turned (upd (upd (upd qs i1 q1') i2 q2') i3 q3').
  Proof.
    intros [F S] N N' N'' N1 N2 N3 (J1 & J2 & J3 & -> & -> & -> & J). assert (N2' : nth_error (upd qs i1 (kicked q1 J1)) i2 = Some q2) by (rewrite nth_upd_ne by exact N; exact N2).
    assert (N3' : nth_error (upd (upd qs i1 (kicked q1 J1)) i2 (kicked q2 J2)) i3 = Some q3) by (rewrite !nth_upd_ne by assumption; exact N3). split; [repeat (apply kick_one; auto)|].
    intros Hh. destruct (S Hh) as [Sx Sy]. assert (W1 := heavy_nth' _ _ _ F Hh N1). assert (W2 := heavy_nth' _ _ _ F Hh N2). assert (W3 := heavy_nth' _ _ _ F Hh N3). assert (Jx := f_equal vx J). assert (Jy := f_equal vy J). cbn in Jx, Jy.
    rewrite <- Sx, <- Sy. unfold msum. split; rewrite (sum_upd _ _ _ _ _ N3'), (sum_upd _ _ _ _ _ N2'), (sum_upd _ _ _ _ _ N1); change (mass (kicked q1 J1)) with (mass q1); change (mass (kicked q2 J2)) with (mass q2); change (mass (kicked q3 J3)) with (mass q3).
    - change (vx (rp_v (kicked q1 J1))) with (vx (rp_v q1) + rp_im q1 * vx J1). change (vx (rp_v (kicked q2 J2))) with (vx (rp_v q2) + rp_im q2 * vx J2). change (vx (rp_v (kicked q3 J3))) with (vx (rp_v q3) + rp_im q3 * vx J3). rewrite (heavy_1 _ W1), (heavy_1 _ W2), (heavy_1 _ W3). lra.
    - change (vy (rp_v (kicked q1 J1))) with (vy (rp_v q1) + rp_im q1 * vy J1). change (vy (rp_v (kicked q2 J2))) with (vy (rp_v q2) + rp_im q2 * vy J2). change (vy (rp_v (kicked q3 J3))) with (vy (rp_v q3) + rp_im q3 * vy J3). rewrite (heavy_1 _ W1), (heavy_1 _ W2), (heavy_1 _ W3). lra.
  Qed.
End Passes.

(** ** the step *)
Lemma drive_is (dt : R) g pos k q : rp_im (drive dt g pos k q) = rp_im q /\ rp_bind (drive dt g pos k q) = rp_bind q /\ rp_p (drive dt g pos k q) = rp_p q /\ rp_p0 (drive dt g pos k q) = rp_p0 q.
Proof. unfold drive. destruct (nlt _ _); auto. Qed.
(* the step in three parts: driven, after the bending forces, after the passes *)
Lemma step_shape dt n pos r r' : 0 < dt -> wf r -> step dt n pos r = Ok r' ->
  let t := ro_tuning r in let qs := map (drive dt (ro_gravity r) pos (tu_damping t)) (ro_points r) in
  exists qs1 qs2, turned qs qs1 /\ kept (proper_heights r) (map (go dt) qs1) qs2 /\ ro_points r' = map (settle (1 / dt)) qs2 /\ ro_tuning r' = t /\ ro_gravity r' = ro_gravity r /\
    exists ss bs ss' bs', Forall2 stwin (ro_stretch r) ss /\ Forall2 btwin (ro_bend r) bs /\ for_range 0 n (fun _ => rope_pass dt t) (ss, bs, map (go dt) qs1) = Ok (ss', bs', qs2) /\ Forall2 stwin ss ss'.
Proof.
  intros D W E t qs. assert (D' : nlt (nofZ 0) dt = true) by (rops; apply Rlt_bool_true, D). assert (Z : neqb dt (nofZ 0) = false) by (rops; apply Req_bool_false; lra).
  destruct (step_parts dt n pos r D' W Z) as (qs1 & ss' & bs' & qs2 & X & P & Ws & Wb & F & E2). fold t in X, P, E2. fold qs in X. assert (r' = Rope (ro_position r) (map (settle (1 / dt)) qs2) ss' bs' (ro_gravity r) t) as -> by (change (1 / dt) with (ndiv (nofZ 1) dt); congruence). clear E E2.
  destruct W as (St & G & Hb).
  assert (Eq : ims qs = ims (ro_points r)) by (unfold ims, qs; rewrite map_map; apply map_ext; intros q; apply drive_is).
  assert (T0 : turned qs qs) by (split; [apply Forall2_refl, whirled_refl|auto]).
  assert (T1 : turned qs qs1).
  { assert (Y : forall bs q', each_item (bend_force dt t) (ro_bend r) qs = Ok (bs, q') -> turned qs q').
    { intros bs q' Y. destruct (each_item_tot (good_b (ims qs)) btwin (turned qs) (bend_force dt t) (force_push (ims qs) (turned qs) dt t (turned_ims qs) (turned_3 qs))) with (cs := ro_bend r) (s := qs) as (b2 & q2 & Y2 & _ & T2); [now rewrite Eq|exact T0|]. assert (q2 = q') as -> by congruence. exact T2. }
    destruct (tu_bending t); try (assert (qs = qs1) as <- by congruence; exact T0). exact (Y _ _ X). }
  assert (Eq1 : ims (map (go dt) qs1) = ims (ro_points r)) by (rewrite <- Eq, <- (turned_ims _ _ T1); unfold ims; rewrite map_map; apply map_ext; reflexivity).
  exists qs1, qs2. split; [exact T1|]. split; [|split; [reflexivity|split; [reflexivity|split; [reflexivity|]]]].
  - set (q3 := map (go dt) qs1) in *.
    destruct (passes_keep (ims q3) (kept (proper_heights r) q3) dt t (fun c => proper_heights r -> tu_bending t = PbdHeightBending -> be_a1 c + be_a2 c = 1) (fun _ => True) D')
      with (n := n) (ss := map (fun c => st_with_lambda c (nofZ 0)) (ro_stretch r)) (bs := map (fun c => be_with_lambda c (nofZ 0)) (ro_bend r)) (qs := q3) as (s2 & b2 & q2 & E & _ & _ & K).
    + intros c c' (x & ->) Q. exact Q.
    + auto.
    + intros c s Gc Pc Is. exact (bend_solver_push (ims q3) (kept (proper_heights r) q3) (proper_heights r) dt t (kept_ims _ q3) (kept_2 _ q3) (kept_3 _ q3) c s Gc Pc Is).
    + intros c s Gc _ Is. exact (stretch_solver_push (ims q3) (kept (proper_heights r) q3) dt t (kept_ims _ q3) (kept_2 _ q3) c s Gc Is).
    + rewrite Eq1. apply Forall_map. eapply Forall_impl; [|exact G]. intros c Gc. split; [exact Gc|exact Logic.I].
    + rewrite Eq1. apply Forall_map. apply Forall_forall. intros c Hc. split; [exact (proj1 (Forall_forall _ _) Hb c Hc)|]. intros Hh Th. exact (proj1 (Forall_forall _ _) (Hh Th) c Hc).
    + split; [apply Forall2_refl, moved_refl|auto].
    + assert (q2 = qs2) as -> by congruence. exact K.
  - eexists _, _, ss', bs'. split; [|split; [|split; [exact P|]]].
    + apply Forall2_map_r. intros c. eexists; reflexivity.
    + apply Forall2_map_r. intros c. eexists; reflexivity.
    + clear - Ws. induction Ws as [|a b l l' (x & W) F IH]; cbn; constructor; auto. exists x. rewrite W. reflexivity.
Qed.

(* points that do not move themselves *)
Lemma step_0 (dt : R) n pos r r' : dt = 0 -> step dt n pos r = Ok r' -> r' = r.
Proof. intros ->. unfold step. rops. rewrite Req_bool_true by reflexivity. congruence. Qed.
Lemma step_settled dt n pos r r' : 0 < dt -> wf r -> step dt n pos r = Ok r' -> settled r'.
Proof. intros D W E. destruct (step_shape dt n pos r r' D W E) as (q1 & q2 & _ & _ & P & _). unfold settled. rewrite P. apply Forall_map, Forall_forall. reflexivity. Qed.
Lemma call_settled c r r' : fair c -> wf r -> settled r -> do_call c r = Ok r' -> settled r'.
Proof.
  intros F W S E. destruct c as [d|t|dt n p|p]; cbn [do_call fair] in *.
  - destruct (create_parts d r r' E) as (ss & bs & _ & _ & _ & ->). unfold settled. cbn [set_tuning ro_points]. apply Forall_map, Forall_forall. reflexivity.
  - inversion E; subst. exact S.
  - rops. destruct (Req_bool_spec dt 0) as [Z|Z].
    + apply step_0 in E; [now subst|exact Z].
    + destruct F as [F|F]; [discriminate|]. apply (step_settled dt n p r r'); auto. destruct (Rlt_bool_spec 0 dt); [assumption|discriminate].
  - inversion E; subst. unfold settled. cbn [reset ro_points]. apply Forall_map, Forall_forall. reflexivity.
Qed.
Lemma call_wf {T} `{Num T} `{NumRope T} c (r r' : rope T) : fair c -> wf r -> do_call c r = Ok r' -> wf r'.
Proof. intros F W E. destruct (call_total c r F W) as (r2 & E2 & W2). assert (r2 = r') as -> by congruence. exact W2. Qed.
Lemma calls_settled cs : Forall fair cs -> forall r r', wf r -> settled r -> calls cs r = Ok r' -> wf r' /\ settled r'.
Proof.
  intros F. induction F as [|c cs Fc F IH]; intros r r' W S E; cbn [calls] in E; [inversion E; subst; auto|]. destruct (do_call c r) as [r1| |] eqn:C; try discriminate. cbn [bind] in E.
  apply (IH r1 r'); [now apply (call_wf c r)|now apply (call_settled c r r1)|exact E].
Qed.
Lemma reached_ok r : reached r -> wf r /\ settled r.
Proof. intros (cs & F & E). apply (calls_settled cs F rope_default); auto; [apply default_wf|constructor]. Qed.

Theorem fixed_follow r dt n pos r' : reached r -> 0 < dt -> step dt n pos r = Ok r' ->
  Forall (fun q => rp_im q = 0 -> rp_p q = plus (rp_bind q) pos) (ro_points r').
Proof.
  intros Rr D E. destruct (reached_ok r Rr) as [W S]. destruct (step_shape dt n pos r r' D W E) as (q1 & q2 & [T _] & [K _] & P & _). rewrite P. apply Forall_map, Forall_forall. intros q Hq. cbn [settle rp_im rp_p rp_bind]. intros Z.
  apply In_nth_error in Hq. destruct Hq as [i N]. destruct (Forall2_nth _ _ _ _ _ K N) as (qa & Na & ((Ba & Ma) & _ & _ & Pa)). rewrite nth_error_map in Na. destruct (nth_error q1 i) as [qb|] eqn:Nb; [|discriminate]. cbn in Na. inversion Na; subst. clear Na.
  destruct (Forall2_nth _ _ _ _ _ T Nb) as (qc & Nc & ((Bc & Mc) & _ & Pc & Vc)). rewrite nth_error_map in Nc. destruct (nth_error (ro_points r) i) as [qd|] eqn:Nd; [|discriminate]. cbn in Nc. inversion Nc; subst. clear Nc.
  assert (Hd : rp_p0 qd = rp_p qd) by (eapply Forall_forall in S; [exact S|eapply nth_error_In; eauto]).
  assert (Md : rp_im qd = 0). { rewrite <- Z. cbn in Ma. rewrite Ma. rewrite Mc. symmetry. apply drive_is. }
  cbn in Ma, Ba. rewrite (Pa ltac:(cbn; congruence)). cbn [go with_p rp_p]. rewrite Ba, Bc, Pc, Vc by (rewrite (proj1 (drive_is _ _ _ _ _)); exact Md).
  unfold drive. rops. rewrite Rlt_bool_false by lra. cbn [with_v rp_bind rp_p rp_v]. rewrite Hd. apply vec2_ext; unfold plus; rmathc; field; lra.
Qed.
Theorem momentum_step r dt n pos r' : reached r -> all_heavy r -> proper_heights r -> 0 < dt -> step dt n pos r = Ok r' ->
  momentum (ro_points r') = plus (times (exp (- (dt * tu_damping (ro_tuning r)))) (momentum (ro_points r))) (times (dt * weight (ro_points r)) (ro_gravity r)).
Proof.
  intros Rr Hh Hp D E. destruct (reached_ok r Rr) as [W S]. destruct (step_shape dt n pos r r' D W E) as (q1 & q2 & [T T2] & [K K2] & P & _). rewrite P. set (dr := drive dt (ro_gravity r) pos (tu_damping (ro_tuning r))) in *.
  assert (Im : forall q, rp_im (dr q) = rp_im q) by (intros q; apply drive_is).
  assert (H0 : Forall heavy (map dr (ro_points r))) by (apply Forall_map; eapply Forall_impl; [|exact Hh]; intros q X; unfold heavy; rewrite Im; exact X).
  assert (H1 : Forall heavy (map (go dt) q1)).
  { apply Forall_map. apply Forall_forall. intros q Hq. apply In_nth_error in Hq. destruct Hq as [i N]. exact (heavy_nth' _ _ _ _ T H0 N). }
  destruct (T2 H0) as [Tx Ty]. destruct (K2 Hp H1) as [Kx Ky]. clear T2 K2.
  rewrite (msum_map _ (go dt)) in Kx by reflexivity. rewrite (msum_map _ (go dt)) in Ky by reflexivity. rewrite (msum_map _ dr) in Tx by exact Im. rewrite (msum_map _ dr) in Ty by exact Im.
  (* the start of the step *)
  assert (P0 : forall f, msum (fun q => f (rp_p0 q)) q2 = msum (fun q => f (rp_p q)) q1).
  { intros f. assert (Z : Forall2 (fun q q' => rp_p0 q' = rp_p q /\ rp_im q' = rp_im q) q1 q2).
    { clear - T K S Im. assert (S1 : Forall (fun q => rp_p0 q = rp_p q) q1).
      { clear K. apply Forall_forall. intros q Hq. apply In_nth_error in Hq. destruct Hq as [i N]. destruct (Forall2_nth _ _ _ _ _ T N) as (a & Na & (_ & P0 & Pp & _)). rewrite P0, Pp. rewrite nth_error_map in Na. destruct (nth_error (ro_points r) i) as [b|] eqn:Nb; [|discriminate]. cbn in Na. inversion Na; subst.
        assert (Hb : rp_p0 b = rp_p b) by (eapply Forall_forall in S; [exact S|eapply nth_error_In; eauto]). unfold dr. destruct (drive_is dt (ro_gravity r) pos (tu_damping (ro_tuning r)) b) as (_ & _ & X & Y). congruence. }
      clear T S Im. remember (map (go dt) q1) as q1'. revert q1 Heqq1' S1. induction K as [|a b l l' ((_ & M) & P0 & _) F IH]; intros q1 Eq S1; destruct q1 as [|c q1]; try discriminate; constructor.
      - cbn in Eq. inversion Eq; subst. inversion S1; subst. cbn in M, P0. rewrite P0, M. auto.
      - cbn in Eq. inversion Eq; subst. inversion S1; subst. apply IH; auto. }
    clear - Z. unfold msum. induction Z as [|a b l l' (A & B) F IH]; cbn; [reflexivity|]. unfold mass. rewrite A, B. f_equal. exact IH. }
  assert (Go : forall f : vec2 R -> R, (forall a b, f (vadd a (vscale dt b)) = 1 * f a + dt * f b) -> msum (fun q => f (rp_p (go dt q))) q1 = msum (fun q => f (rp_p q)) q1 + dt * msum (fun q => f (rp_v q)) q1).
  { intros f Hf. rewrite (msum_ext _ (fun q => 1 * f (rp_p q) + dt * f (rp_v q))) by (intros q _; cbn [go with_p rp_p]; apply Hf). rewrite msum_lin. ring. }
  assert (Dr : forall (f : vec2 R -> R), (forall a b c, f (vadd (vmuls a b) (vscale dt c)) = b * f a + 1 * (dt * f c)) -> msum (fun q => f (rp_v (dr q))) (ro_points r) = exp (- (dt * tu_damping (ro_tuning r))) * msum (fun q => f (rp_v q)) (ro_points r) + dt * f (ro_gravity r) * weight (ro_points r)).
  { intros f Hf. rewrite (msum_ext _ (fun q => exp (- (dt * tu_damping (ro_tuning r))) * f (rp_v q) + 1 * (dt * f (ro_gravity r)))).
    - rewrite msum_lin. rewrite msum_const. ring.
    - intros q Hq. assert (Hq' : 0 < rp_im q) by exact (proj1 (Forall_forall _ _) Hh q Hq). unfold dr, drive. rops. rewrite Rlt_bool_true by exact Hq'. cbn [with_v rp_v]. rewrite Hf. cbn [nexp R_Rope]. do 2 f_equal. f_equal. ring. }
  unfold momentum. fold (msum (fun q => vx (rp_v q)) (map (settle (1 / dt)) q2)). fold (msum (fun q => vy (rp_v q)) (map (settle (1 / dt)) q2)). fold (msum (fun q => vx (rp_v q)) (ro_points r)). fold (msum (fun q => vy (rp_v q)) (ro_points r)).
  rewrite !(msum_map _ (settle (1 / dt))) by reflexivity.
  assert (Se : forall f : vec2 R -> R, (forall k a b, f (vscale k (vsub a b)) = k * f a + (- k) * f b) -> msum (fun q => f (rp_v (settle (1 / dt) q))) q2 = / dt * (msum (fun q => f (rp_p q)) q2 - msum (fun q => f (rp_p0 q)) q2)).
  { intros f Hf. rewrite (msum_ext _ (fun q => (1 / dt) * f (rp_p q) + (- (1 / dt)) * f (rp_p0 q))) by (intros q _; cbn [settle rp_v]; apply Hf). rewrite msum_lin. field. lra. }
  apply vec2_ext; cbn [vx vy plus times].
  - rewrite (Se vx) by (intros; rmathc; ring). rewrite (P0 vx), Kx, (Go vx), Tx, (Dr vx) by (intros; rmathc; ring). field. lra.
  - rewrite (Se vy) by (intros; rmathc; ring). rewrite (P0 vy), Ky, (Go vy), Ty, (Dr vy) by (intros; rmathc; ring). field. lra.
Qed.
