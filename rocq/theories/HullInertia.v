(** Signs: the area and the rotational inertia of a convex polygon are positive and its centroid lies in it. *)
From Coq Require Import ZArith Reals Lra Lia Bool List Arith Psatz.
From Flocq Require Import Core.
From Verif Require Import Base Num NumLaws Math Collision ShapeModel MathSpec GeomSpec ShapeSpec HullSpec RTac ListFacts ManifoldProofs ShapeProofs HullProofs HullSet HullMass.
Import ListNotations.
Local Open Scope R_scope.

Lemma sum_nonneg {A} (f : A -> R) l : (forall a, In a l -> 0 <= f a) -> 0 <= sum_of f l.
Proof. induction l; intros H; rewrite ?sum_nil, ?sum_cons; [lra|]. assert (0 <= f a) by (apply H; cbn; auto). assert (0 <= sum_of f l) by (apply IHl; intros; apply H; cbn; auto). lra. Qed.
Lemma sum_pos {A} (f : A -> R) l x : (forall a, In a l -> 0 <= f a) -> In x l -> 0 < f x -> 0 < sum_of f l.
Proof.
  induction l; intros H Hx Px; [destruct Hx|]. rewrite sum_cons. assert (0 <= f a) by (apply H; cbn; auto).
  assert (0 <= sum_of f l) by (apply sum_nonneg; intros; apply H; cbn; auto).
  destruct Hx as [->|Hx]; [lra|]. assert (0 < sum_of f l) by (apply IHl; auto; intros; apply H; cbn; auto). lra.
Qed.
Lemma turn_cycle a b c : turn a b c = turn c a b.
Proof. unfold turn; ring. Qed.
Lemma turn_cycle2 a b c : turn a b c = turn b c a.
Proof. unfold turn; ring. Qed.
Lemma turn_aab a b : turn a a b = 0.
Proof. unfold turn; ring. Qed.
Lemma turn_aba a b : turn a b a = 0.
Proof. unfold turn; ring. Qed.
Lemma turn_abb a b : turn a b b = 0.
Proof. unfold turn; ring. Qed.

Section Convex.
  Variable vs : list (vec2 R).
  Hypothesis C : convex_ccw vs.
  Variable s : vec2 R.
  Hypothesis S0 : nth_error vs 0 = Some s.

  Lemma vertex_inside v : In v vs -> inside vs v.
  Proof.
    intros Hv i a b Ha Hb. apply In_nth_error in Hv as (j & Hj).
    destruct (Nat.eq_dec j i) as [->|N1]. { rewrite Ha in Hj. injection Hj as <-. rewrite turn_aba. lra. }
    destruct (Nat.eq_dec j (after (length vs) i)) as [->|N2]. { rewrite Hb in Hj. injection Hj as <-. rewrite turn_abb. lra. }
    left. destruct C as [_ C']. exact (C' i j a b v N1 N2 Ha Hb Hj).
  Qed.
  Lemma fan_nonneg e : In e (ring_edges vs) -> 0 <= turn s (fst e) (snd e).
  Proof.
    destruct e as [p q]. intros H. apply In_nth_error in H as (i & Hi). apply ring_edges_nth in Hi as [Hp Hq]. cbn [fst snd].
    rewrite turn_cycle2. apply (vertex_inside s (nth_error_In _ _ S0) i); assumption.
  Qed.
  Lemma fan_second : exists p q, In (p, q) (ring_edges vs) /\ 0 < turn s p q /\ nth_error vs 1 = Some p /\ nth_error vs 2 = Some q.
  Proof.
    destruct C as [L C']. destruct vs as [|a [|b [|c l]]] eqn:E; cbn in L; try lia. rewrite <- E in *.
    exists b, c. assert (N1 : nth_error vs 1 = Some b) by (rewrite E; reflexivity). assert (N2 : nth_error vs 2 = Some c) by (rewrite E; reflexivity).
    assert (A1 : after (length vs) 1 = 2%nat). { rewrite E. reflexivity. }
    split; [|split; [|split; assumption]].
    - eapply nth_error_In. apply (ring_edges_nth vs 1). rewrite A1. auto.
    - rewrite turn_cycle2. apply (C' 1%nat 0%nat); rewrite ?A1; auto; discriminate.
  Qed.
  Lemma area_pos : 0 < shoelace vs.
  Proof.
    rewrite <- (fan_area_sum s). destruct fan_second as (p & q & Hin & Hp & _).
    apply (sum_pos _ _ (p, q)); [|exact Hin|unfold fan_area; cbn; lra].
    intros e He. unfold fan_area. pose proof (fan_nonneg e He). lra.
  Qed.
  (* moments of a triangle with one corner s *)
  Lemma centroid_fan a b : shoelace vs * turn a b (centroid_of vs) =
    sum_of (fun e => / 6 * turn s (fst e) (snd e) * (turn a b s + turn a b (fst e) + turn a b (snd e))) (ring_edges vs).
  Proof.
    pose proof area_pos as A.
    transitivity ((vx b - vx a) * (moment_y vs - vy a * shoelace vs) - (vy b - vy a) * (moment_x vs - vx a * shoelace vs)).
    { unfold turn, centroid_of; cbn. field. lra. }
    replace (moment_y vs - vy a * shoelace vs) with ((moment_y vs - vy s * shoelace vs) + (vy s - vy a) * shoelace vs) by ring.
    replace (moment_x vs - vx a * shoelace vs) with ((moment_x vs - vx s * shoelace vs) + (vx s - vx a) * shoelace vs) by ring.
    rewrite <- (fan_x_sum s), <- (fan_y_sum s), <- (fan_area_sum s vs).
    rewrite <- !sum_scale, <- !sum_add, <- !sum_scale, <- sum_sub. apply sum_ext. intros [p q] _.
    unfold fan_x, fan_y, fan_area, turn; cbn [fst snd]. field.
  Qed.
  Lemma centroid_inside : strictly_inside vs (centroid_of vs).
  Proof.
    intros i a b Ha Hb. pose proof area_pos as A.
    assert (0 < shoelace vs * turn a b (centroid_of vs)); [|nra].
    rewrite centroid_fan. destruct fan_second as (p & q & Hin & Hp & N1 & N2).
    assert (I : forall v, In v vs -> 0 <= turn a b v) by (intros v Hv; apply (vertex_inside v Hv i); assumption).
    assert (Es : forall e, In e (ring_edges vs) -> In (fst e) vs /\ In (snd e) vs).
    { intros [x y] He. apply In_nth_error in He as (k & Hk). apply ring_edges_nth in Hk as [Hx Hy]. split; eapply nth_error_In; eauto. }
    assert (Is : In s vs) by (eapply nth_error_In; eauto).
    apply (sum_pos _ _ (p, q)); [|exact Hin|].
    - intros e He. destruct (Es e He) as [I1 I2]. pose proof (fan_nonneg e He). pose proof (I _ I1). pose proof (I _ I2). pose proof (I _ Is).
      apply Rmult_le_pos; lra.
    - cbn [fst snd]. assert (0 < turn a b s + turn a b p + turn a b q); [|nra].
      destruct (Es _ Hin) as [Ip Iq]. cbn in Ip, Iq. pose proof (I _ Is). pose proof (I _ Ip). pose proof (I _ Iq). destruct C as [_ C'].
      destruct (Nat.eq_dec 0 i) as [E0|E0].
      + subst i. assert (0 < turn a b q); [|lra]. apply (C' 0%nat 2%nat); auto.
        unfold after. destruct (Nat.ltb 1 (length vs)); discriminate.
      + destruct (Nat.eq_dec 0 (after (length vs) i)) as [E1|E1]; [|assert (0 < turn a b s); [apply (C' i 0%nat); auto|lra]].
        destruct (Nat.eq_dec 1 i) as [E2|E2].
        * subst i. exfalso. unfold after in E1. assert (2 < length vs)%nat by (apply nth_error_Some; congruence). destruct (Nat.ltb_spec 2 (length vs)); lia.
        * assert (0 < turn a b p); [|lra]. apply (C' i 1%nat); auto. rewrite <- E1. discriminate.
  Qed.
  (* rotational inertia of unit density about the centroid *)
  Lemma inertia_fan : let c := centroid_of vs in
    polar_moment vs - shoelace vs * dotp c c =
    sum_of (fun e => / 24 * turn s (fst e) (snd e) *
      (dotp (minus s c) (minus s c) + dotp (minus (fst e) c) (minus (fst e) c) + dotp (minus (snd e) c) (minus (snd e) c)
       + (vx s + vx (fst e) + vx (snd e) - 3 * vx c) * (vx s + vx (fst e) + vx (snd e) - 3 * vx c)
       + (vy s + vy (fst e) + vy (snd e) - 3 * vy c) * (vy s + vy (fst e) + vy (snd e) - 3 * vy c))) (ring_edges vs).
  Proof.
    intros c. pose proof area_pos as A.
    assert (Mx : moment_x vs = shoelace vs * vx c) by (unfold c, centroid_of; cbn; field; lra).
    assert (My : moment_y vs = shoelace vs * vy c) by (unfold c, centroid_of; cbn; field; lra).
    pose proof (fan_i_sum s vs) as Fi.
    transitivity (sum_of (fan_i s) (ring_edges vs) + 2 * (vx s - vx c) * sum_of (fan_x s) (ring_edges vs) + 2 * (vy s - vy c) * sum_of (fan_y s) (ring_edges vs)
      + dotp (minus s c) (minus s c) * sum_of (fan_area s) (ring_edges vs)).
    { rewrite Fi, fan_x_sum, fan_y_sum, fan_area_sum, Mx, My. unfold dotp, minus; cbn. ring. }
    rewrite <- !sum_scale, <- !sum_add. apply sum_ext. intros [p q] _.
    unfold fan_i, fan_x, fan_y, fan_area, turn, dotp, minus; cbn [fst snd vx vy]. field.
  Qed.
  Lemma inertia_pos : shoelace vs * dotp (centroid_of vs) (centroid_of vs) < polar_moment vs.
  Proof.
    pose proof inertia_fan as F. cbv zeta in F. set (c := centroid_of vs) in *. clearbody c.
    assert (Sq : forall x : R, 0 <= x * x) by (intros; nra).
    assert (Dq : forall v, 0 <= dotp v v) by (intros v; unfold dotp; pose proof (Sq (vx v)); pose proof (Sq (vy v)); lra).
    destruct fan_second as (p & q & Hin & Hp & _).
    assert (0 < polar_moment vs - shoelace vs * dotp c c); [|lra]. rewrite F.
    apply (sum_pos _ _ (p, q)); [|exact Hin|].
    - intros e He. pose proof (fan_nonneg e He).
      apply Rmult_le_pos; [lra|]. repeat apply Rplus_le_le_0_compat; auto.
    - cbn [fst snd]. apply Rmult_lt_0_compat; [lra|].
      match goal with |- 0 < ?a + ?b + ?d + ?e + ?f => assert (H1 : 0 <= e) by apply Sq; assert (H2 : 0 <= f) by apply Sq; assert (H3 : 0 < a + b + d); [|lra] end.
      pose proof (Dq (minus s c)) as D1. pose proof (Dq (minus p c)) as D2. pose proof (Dq (minus q c)) as D3.
      destruct (Rlt_le_dec 0 (dotp (minus s c) (minus s c) + dotp (minus p c) (minus p c))) as [L|L]; [lra|exfalso].
      assert (Z1 : dotp (minus s c) (minus s c) = 0) by lra. assert (Z2 : dotp (minus p c) (minus p c) = 0) by lra.
      assert (Zq : forall v, dotp (minus v c) (minus v c) = 0 -> v = c).
      { intros v Zv. unfold dotp, minus in Zv; cbn in Zv.
        assert (K : forall u w : R, u * u + w * w = 0 -> u = 0 /\ w = 0) by (intros u w Kz; split; nra).
        destruct (K _ _ Zv) as [K1 K2]. apply vec2_ext; lra. }
      rewrite (Zq s Z1), (Zq p Z2), turn_aab in Hp. lra.
  Qed.
End Convex.
Lemma first_vertex (vs : list (vec2 R)) : convex_ccw vs -> exists s, nth_error vs 0 = Some s.
Proof. intros [L _]. destruct vs as [|s vs]; [cbn in L; lia|]. exists s. reflexivity. Qed.
Lemma convex_area_pos vs : convex_ccw vs -> 0 < shoelace vs.
Proof. intros C. destruct (first_vertex vs C) as (s & Hs). exact (area_pos vs C s Hs). Qed.
Lemma convex_centroid_inside vs : convex_ccw vs -> strictly_inside vs (centroid_of vs).
Proof. intros C. destruct (first_vertex vs C) as (s & Hs). exact (centroid_inside vs C s Hs). Qed.
Lemma convex_inertia_pos vs : convex_ccw vs -> shoelace vs * dotp (centroid_of vs) (centroid_of vs) < polar_moment vs.
Proof. intros C. destruct (first_vertex vs C) as (s & Hs). exact (inertia_pos vs C s Hs). Qed.
Lemma proper_count po : proper po -> poly_sized po /\ (3 <= po_count po)%nat.
Proof. intros (Sz & (L & _) & _). rewrite (used_length po Sz) in L. auto. Qed.
Lemma proper_mass po density : proper po -> B2_EPSILON < shoelace (used_vertices po) ->
  polygon_mass po density = Ok (MassData (density * shoelace (used_vertices po)) (centroid_of (used_vertices po)) (density * polar_moment (used_vertices po))).
Proof. intros Pr A. destruct (proper_count po Pr). rewrite polygon_mass_eq by assumption. rewrite Rlt_bool_true by exact A. reflexivity. Qed.
Lemma proper_mass_small po density : proper po -> shoelace (used_vertices po) <= B2_EPSILON -> polygon_mass po density = Panic.
Proof. intros Pr A. destruct (proper_count po Pr). rewrite polygon_mass_eq by assumption. rewrite Rlt_bool_false by exact A. reflexivity. Qed.
