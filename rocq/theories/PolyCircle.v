(** A polygon and a circle, over exact reals. *)
From Coq Require Import ZArith Reals Lra Lia Bool List Arith Psatz.
From Flocq Require Import Core.
From Verif Require Import Base Num NumLaws Math Collision Manifold ShapeModel CollideModel MathSpec GeomSpec ShapeSpec HullSpec CollideSpec RTac ListFacts MathProofs ManifoldProofs ShapeProofs HullProofs HullSet HullMass HullInertia.
Import ListNotations.
Local Open Scope R_scope.

(** ** edges and their normals *)
Lemma normal_scale a b n : unit_vec n -> dotp n (minus b a) = 0 -> (forall p, 0 < turn a b p <-> dotp n (minus p a) < 0) ->
  exists k, 0 < k /\ vx b - vx a = - k * vy n /\ vy b - vy a = k * vx n /\ forall p, turn a b p = - k * dotp n (minus p a).
Proof.
  intros U Pe Sg. exists (vx n * (vy b - vy a) - vy n * (vx b - vx a)). unfold unit_vec, dotp, minus, turn in *; cbn [vx vy] in *.
  set (ex := vx b - vx a) in *. set (ey := vy b - vy a) in *. set (nx := vx n) in *. set (ny := vy n) in *.
  assert (X : ex = - (nx * ey - ny * ex) * ny).
  { transitivity ((nx * nx + ny * ny) * ex); [rewrite U; ring|]. transitivity (- (nx * ey - ny * ex) * ny + nx * (nx * ex + ny * ey)); [ring|rewrite Pe; ring]. }
  assert (Y : ey = (nx * ey - ny * ex) * nx).
  { transitivity ((nx * nx + ny * ny) * ey); [rewrite U; ring|]. transitivity ((nx * ey - ny * ex) * nx + ny * (nx * ex + ny * ey)); [ring|rewrite Pe; ring]. }
  split; [|split; [exact X|split; [exact Y|]]].
  - pose proof (proj2 (Sg (V2 (vx a - nx) (vy a - ny)))) as S. cbn in S. replace (nx * ey - ny * ex) with (ex * (vy a - ny - vy a) - ey * (vx a - nx - vx a)) by ring.
    apply S. replace (nx * (vx a - nx - vx a) + ny * (vy a - ny - vy a)) with (- (nx * nx + ny * ny)) by ring. rewrite U. lra.
  - intros p. transitivity (- (nx * ey - ny * ex) * ny * (vy p - vy a) - (nx * ey - ny * ex) * nx * (vx p - vx a)); [rewrite <- X, <- Y; ring|ring].
Qed.
Lemma corner_scalar C S a b : C * C + S * S = 1 -> 0 < S -> 0 < a -> b <= 0 -> C * a - S * b <= a -> 0 <= S * a + C * b.
Proof.
  intros U HS Ha Hb H. destruct (Rle_lt_dec C 0) as [K|K]; [assert (0 <= C * b) by nra; assert (0 < S * a) by nra; lra|].
  assert (C <= 1) by nra.
  assert (X : 0 <= S * (S * a + C * b)).
  { replace (S * (S * a + C * b)) with ((C * C + S * S) * a - C * (C * a - S * b)) by ring. rewrite U. assert (C * (C * a - S * b) <= C * a) by (apply Rmult_le_compat_l; lra). nra. }
  destruct (Rle_lt_dec 0 (S * a + C * b)); [assumption|exfalso; nra].
Qed.
Lemma dot_bound n u r : unit_vec n -> 0 <= r -> dotp u u <= r * r -> dotp n u <= r.
Proof.
  unfold unit_vec, dotp. intros U Hr H.
  assert ((vx n * vx u + vy n * vy u) * (vx n * vx u + vy n * vy u) <= (vx n * vx n + vy n * vy n) * (vx u * vx u + vy u * vy u)).
  { pose proof (Rle_0_sqr (vx n * vy u - vy n * vx u)) as Q. unfold Rsqr in Q. lra. }
  rewrite U in H0. nra.
Qed.

Definition before (n i : nat) : nat := match i with O => (n - 1)%nat | S j => j end.
Lemma before_lt n i : (i < n)%nat -> (before n i < n)%nat.
Proof. destruct i; cbn; lia. Qed.
Lemma after_before n i : (i < n)%nat -> after n (before n i) = i.
Proof. intros H. unfold after. destruct i; unfold before; [destruct (Nat.ltb_spec (S (n - 1)) n); lia|destruct (Nat.ltb_spec (S i) n); lia]. Qed.

Section Local.
  Variable po : polygon R.
  Hypothesis Pr : proper po.
  Let n := po_count po.
  Let vs := used_vertices po.
  Definition V (i : nat) : vec2 R := nth i (po_vertices po) (V2 0 0).
  Definition N (i : nat) : vec2 R := nth i (po_normals po) (V2 0 0).
  Lemma len_vs : length vs = n.
  Proof. apply used_length. apply Pr. Qed.
  Lemma n3 : (3 <= n)%nat.
  Proof. apply proper_count. exact Pr. Qed.
  Lemma vs_nth i : (i < n)%nat -> nth_error vs i = Some (V i).
  Proof. intros H. unfold vs. rewrite used_nth by exact H. apply nth_error_nth'. destruct Pr as ((_ & L & _) & _). unfold n in *. lia. Qed.
  Lemma get_V i : (i < n)%nat -> get (po_vertices po) i = Ok (V i).
  Proof. intros H. apply get_some. rewrite <- used_nth by exact H. apply vs_nth. exact H. Qed.
  Lemma N_nth i : (i < n)%nat -> nth_error (po_normals po) i = Some (N i).
  Proof. intros H. apply nth_error_nth'. destruct Pr as ((_ & _ & L) & _). unfold n in *. lia. Qed.
  Lemma get_N i : (i < n)%nat -> get (po_normals po) i = Ok (N i).
  Proof. intros H. apply get_some, N_nth, H. Qed.
  Lemma af_lt i : (after n i < n)%nat.
  Proof. apply (after_lt [] n i). pose proof n3. lia. Qed.
  Lemma edge_facts i : (i < n)%nat -> unit_vec (N i) /\ exists k, 0 < k /\ vx (V (after n i)) - vx (V i) = - k * vy (N i) /\
    vy (V (after n i)) - vy (V i) = k * vx (N i) /\ forall p, turn (V i) (V (after n i)) p = - k * dotp (N i) (minus p (V i)).
  Proof.
    intros H. destruct Pr as (_ & _ & (LN & RN)).
    destruct (RN i (V i) (V (after n i)) (N i)) as (U & Pe & Sg).
    - apply vs_nth. exact H.
    - fold vs. rewrite len_vs. apply vs_nth, af_lt.
    - unfold used_normals. rewrite nth_firstn by exact H. apply N_nth. exact H.
    - split; [exact U|]. apply normal_scale; assumption.
  Qed.
  Lemma inner_dot p i : inner po p -> (i < n)%nat -> dotp (N i) (minus p (V i)) <= 0.
  Proof. intros I H. apply (I i); [exact H|apply N_nth, H|]. rewrite <- used_nth by exact H. apply vs_nth, H. Qed.
  Lemma dot_inner p : (forall i, (i < n)%nat -> dotp (N i) (minus p (V i)) <= 0) -> inner po p.
  Proof.
    intros H i m v Hi Hm Hv. rewrite (N_nth i Hi) in Hm. injection Hm as <-. rewrite <- used_nth in Hv by exact Hi. fold vs in Hv. rewrite (vs_nth i Hi) in Hv. injection Hv as <-. apply H, Hi.
  Qed.
  Lemma vertex_inner i : (i < n)%nat -> inner po (V i).
  Proof.
    intros H. apply (proper_inner po _ Pr). apply vertex_inside; [apply Pr|]. eapply nth_error_In. apply vs_nth. exact H.
  Qed.
  Lemma inner_mix p q t : inner po p -> inner po q -> 0 <= t <= 1 -> inner po (along p q t).
  Proof.
    intros Ip Iq T. apply dot_inner. intros i Hi. pose proof (inner_dot p i Ip Hi). pose proof (inner_dot q i Iq Hi).
    replace (dotp (N i) (minus (along p q t) (V i))) with ((1 - t) * dotp (N i) (minus p (V i)) + t * dotp (N i) (minus q (V i))) by (unfold dotp, minus, along; cbn; ring).
    assert (0 <= (1 - t) * - dotp (N i) (minus p (V i))) by (apply Rmult_le_pos; lra).
    assert (0 <= t * - dotp (N i) (minus q (V i))) by (apply Rmult_le_pos; lra). lra.
  Qed.
  (* strict convexity at a corner *)
  Lemma corner_turn i : (i < n)%nat -> 0 < turn (V i) (V (after n i)) (V (after n (after n i))).
  Proof.
    intros H. destruct Pr as (_ & (_ & C) & _). pose proof n3. fold vs in C. rewrite len_vs in C.
    apply (C i (after n (after n i))); try (apply vs_nth; try apply af_lt; exact H).
    - unfold after. destruct (Nat.ltb_spec (S i) n) as [L|L]; [destruct (Nat.ltb_spec (S (S i)) n); lia|].
      destruct (Nat.ltb_spec 1 n); lia.
    - set (j := after n i). unfold after. destruct (Nat.ltb_spec (S j) n); [lia|]. assert (j < n)%nat by apply af_lt. lia.
  Qed.

  (** the nearest point when the circle is beyond a corner *)
  Lemma cone_nearest a b d c p : 0 < turn a b d -> 0 <= turn a b p -> 0 <= turn d a p ->
    dotp (minus c a) (minus b a) <= 0 -> dotp (minus c a) (minus d a) <= 0 -> dist2 c a <= dist2 c p.
  Proof.
    intros K H1 H2 D1 D2. set (w := minus c a) in *.
    assert (X : turn a b d * dotp w (minus p a) = turn d a p * dotp w (minus b a) + turn a b p * dotp w (minus d a)).
    { unfold turn, dotp, minus; cbn. ring. }
    assert (Y : dotp w (minus p a) <= 0).
    { assert (turn d a p * dotp w (minus b a) <= 0) by (clear X; nra). assert (turn a b p * dotp w (minus d a) <= 0) by (clear X; nra). 
      destruct (Rle_lt_dec (dotp w (minus p a)) 0) as [|L]; [assumption|exfalso]. assert (0 < turn a b d * dotp w (minus p a)) by (apply Rmult_lt_0_compat; assumption). lra. }
    assert (Z : dist2 c p = dist2 c a - 2 * dotp w (minus p a) + dist2 p a) by (unfold w, dist2, dotp, minus; cbn; ring).
    pose proof (dist2_nonneg p a). lra.
  Qed.
  Definition sep (c : vec2 R) (i : nat) : R := dotp (N i) (minus c (V i)).
  Lemma first_corner c i p : (i < n)%nat -> (forall j, (j < n)%nat -> sep c j <= sep c i) -> 0 < sep c i ->
    dotp (minus c (V i)) (minus (V (after n i)) (V i)) <= 0 -> inner po p -> dist2 c (V i) <= dist2 c p.
  Proof.
    intros Hi Mx Sp U1 Ip. set (j := before n i). assert (Hj : (j < n)%nat) by (apply before_lt; exact Hi).
    assert (Aj : after n j = i) by (apply after_before; exact Hi).
    destruct (edge_facts i Hi) as (Un & k & Kp & Ex & Ey & Tk). destruct (edge_facts j Hj) as (Un0 & k0 & Kp0 & Ex0 & Ey0 & Tk0). rewrite Aj in *.
    pose proof (corner_turn j Hj) as Ct. rewrite Aj in Ct.
    assert (Ct' : 0 < turn (V i) (V (after n i)) (V j)) by (rewrite turn_cycle; exact Ct).
    apply (cone_nearest (V i) (V (after n i)) (V j)); [exact Ct'| | |exact U1|].
    - rewrite Tk. pose proof (inner_dot p i Ip Hi). nra.
    - rewrite Tk0. pose proof (inner_dot p j Ip Hj). nra.
    - pose proof (Mx j Hj) as Mj.
      set (w := minus c (V i)) in *.
      assert (Sj : sep c j = dotp (N j) w).
      { pose proof (Tk0 (V i)) as Z. rewrite turn_abb in Z. assert (dotp (N j) (minus (V i) (V j)) = 0) by (assert (k0 * dotp (N j) (minus (V i) (V j)) = 0) by lra; apply Rmult_integral in H as [|]; lra).
        unfold sep, w. transitivity (dotp (N j) (minus c (V i)) + dotp (N j) (minus (V i) (V j))); [unfold dotp, minus; cbn; ring|lra]. }
      assert (Si : sep c i = dotp (N i) w) by reflexivity. rewrite Sj, Si in Mj. rewrite Si in Sp.
      set (a := dotp (N i) w) in *. set (b := vx (N i) * vy w - vy (N i) * vx w).
      set (Cc := dotp (N j) (N i)). set (S := vx (N j) * vy (N i) - vy (N j) * vx (N i)).
      assert (CS : Cc * Cc + S * S = 1).
      { unfold unit_vec in *. transitivity ((vx (N i) * vx (N i) + vy (N i) * vy (N i)) * (vx (N j) * vx (N j) + vy (N j) * vy (N j))); [unfold Cc, S, dotp; ring|rewrite Un, Un0; ring]. }
      assert (Sps : 0 < S).
      { assert (Z : turn (V j) (V i) (V (after n i)) = k0 * k * S).
        { unfold turn. replace (vy (V (after n i)) - vy (V j)) with ((vy (V (after n i)) - vy (V i)) + (vy (V i) - vy (V j))) by ring.
          replace (vx (V (after n i)) - vx (V j)) with ((vx (V (after n i)) - vx (V i)) + (vx (V i) - vx (V j))) by ring.
          rewrite Ex, Ey, Ex0, Ey0. unfold S. ring. }
        rewrite Z in Ct. assert (0 < k0 * k) by (apply Rmult_lt_0_compat; assumption).
        destruct (Rlt_le_dec 0 S) as [|L]; [assumption|exfalso]. assert (k0 * k * S <= 0) by nra. lra. }
      assert (Hb : b <= 0).
      { assert (Z : dotp w (minus (V (after n i)) (V i)) = k * b) by (unfold dotp, minus, b; cbn [vx vy]; rewrite Ex, Ey; ring).
        rewrite Z in U1. nra. }
      assert (Hw : dotp (N j) w = Cc * a - S * b).
      { unfold unit_vec in Un. transitivity ((vx (N i) * vx (N i) + vy (N i) * vy (N i)) * dotp (N j) w); [rewrite Un; ring|]. unfold Cc, S, a, b, dotp. ring. }
      rewrite Hw in Mj. pose proof (corner_scalar Cc S a b CS Sps Sp Hb Mj) as G.
      assert (Gw : vx (N j) * vy w - vy (N j) * vx w = S * a + Cc * b).
      { unfold unit_vec in Un. transitivity ((vx (N i) * vx (N i) + vy (N i) * vy (N i)) * (vx (N j) * vy w - vy (N j) * vx w)); [rewrite Un; ring|]. unfold Cc, S, a, b, dotp. ring. }
      replace (dotp w (minus (V j) (V i))) with (- (vx w * (vx (V i) - vx (V j)) + vy w * (vy (V i) - vy (V j)))) by (unfold dotp, minus; cbn; ring).
      rewrite Ex0, Ey0. replace (- (vx w * (- k0 * vy (N j)) + vy w * (k0 * vx (N j)))) with (- (k0 * (vx (N j) * vy w - vy (N j) * vx w))) by ring.
      rewrite Gw. assert (0 <= k0 * (S * a + Cc * b)) by (apply Rmult_le_pos; lra). lra.
  Qed.
  Lemma second_corner c i p : (i < n)%nat -> (forall j, (j < n)%nat -> sep c j <= sep c i) -> 0 < sep c i ->
    dotp (minus c (V (after n i))) (minus (V i) (V (after n i))) <= 0 -> inner po p -> dist2 c (V (after n i)) <= dist2 c p.
  Proof.
    intros Hi Mx Sp U1 Ip. set (j := after n i). assert (Hj : (j < n)%nat) by apply af_lt. fold j in U1.
    destruct (edge_facts i Hi) as (Un & k & Kp & Ex & Ey & Tk). destruct (edge_facts j Hj) as (Un0 & k0 & Kp0 & Ex0 & Ey0 & Tk0). fold j in Ex, Ey, Tk.
    pose proof (corner_turn i Hi) as Ct. fold j in Ct.
    assert (Ct' : 0 < turn (V j) (V (after n j)) (V i)) by (rewrite turn_cycle; exact Ct).
    apply (cone_nearest (V j) (V (after n j)) (V i)); [exact Ct'| | | |exact U1].
    - rewrite Tk0. pose proof (inner_dot p j Ip Hj). nra.
    - rewrite Tk. pose proof (inner_dot p i Ip Hi). nra.
    - pose proof (Mx j Hj) as Mj.
      set (w := minus c (V j)) in *.
      assert (Si : sep c i = dotp (N i) w).
      { pose proof (Tk (V j)) as Z. rewrite turn_abb in Z. assert (dotp (N i) (minus (V j) (V i)) = 0) by (assert (k * dotp (N i) (minus (V j) (V i)) = 0) by lra; apply Rmult_integral in H as [|]; lra).
        unfold sep, w. transitivity (dotp (N i) (minus c (V j)) + dotp (N i) (minus (V j) (V i))); [unfold dotp, minus; cbn; ring|lra]. }
      assert (Sj : sep c j = dotp (N j) w) by reflexivity. rewrite Sj, Si in Mj. rewrite Si in Sp.
      set (a := dotp (N i) w) in *. set (b := - (vx (N i) * vy w - vy (N i) * vx w)).
      set (Cc := dotp (N i) (N j)). set (S := vx (N i) * vy (N j) - vy (N i) * vx (N j)).
      assert (CS : Cc * Cc + S * S = 1).
      { unfold unit_vec in *. transitivity ((vx (N i) * vx (N i) + vy (N i) * vy (N i)) * (vx (N j) * vx (N j) + vy (N j) * vy (N j))); [unfold Cc, S, dotp; ring|rewrite Un, Un0; ring]. }
      assert (Sps : 0 < S).
      { assert (Z : turn (V i) (V j) (V (after n j)) = k * k0 * S).
        { unfold turn. replace (vy (V (after n j)) - vy (V i)) with ((vy (V (after n j)) - vy (V j)) + (vy (V j) - vy (V i))) by ring.
          replace (vx (V (after n j)) - vx (V i)) with ((vx (V (after n j)) - vx (V j)) + (vx (V j) - vx (V i))) by ring.
          rewrite Ex, Ey, Ex0, Ey0. unfold S. ring. }
        rewrite Z in Ct. assert (0 < k * k0) by (apply Rmult_lt_0_compat; assumption).
        destruct (Rlt_le_dec 0 S) as [|L]; [assumption|exfalso]. assert (k * k0 * S <= 0) by nra. lra. }
      assert (Hb : b <= 0).
      { assert (Z : dotp w (minus (V i) (V j)) = k * b).
        { replace (dotp w (minus (V i) (V j))) with (- (vx w * (vx (V j) - vx (V i)) + vy w * (vy (V j) - vy (V i)))) by (unfold dotp, minus; cbn; ring). rewrite Ex, Ey. unfold b. ring. }
        rewrite Z in U1. nra. }
      assert (Hw : dotp (N j) w = Cc * a - S * b).
      { unfold unit_vec in Un. transitivity ((vx (N i) * vx (N i) + vy (N i) * vy (N i)) * dotp (N j) w); [rewrite Un; ring|]. unfold Cc, S, a, b, dotp. ring. }
      rewrite Hw in Mj. pose proof (corner_scalar Cc S a b CS Sps Sp Hb Mj) as G.
      assert (Gw : - (vx (N j) * vy w - vy (N j) * vx w) = S * a + Cc * b).
      { unfold unit_vec in Un. transitivity (- ((vx (N i) * vx (N i) + vy (N i) * vy (N i)) * (vx (N j) * vy w - vy (N j) * vx w))); [rewrite Un; ring|]. unfold Cc, S, a, b, dotp. ring. }
      replace (dotp w (minus (V (after n j)) (V j))) with (vx w * (vx (V (after n j)) - vx (V j)) + vy w * (vy (V (after n j)) - vy (V j))) by (unfold dotp, minus; cbn; ring).
      rewrite Ex0, Ey0. replace (vx w * (- k0 * vy (N j)) + vy w * (k0 * vx (N j))) with (- (k0 * - (vx (N j) * vy w - vy (N j) * vx w))) by ring.
      rewrite Gw. assert (0 <= k0 * (S * a + Cc * b)) by (apply Rmult_le_pos; lra). lra.
  Qed.
  (* the foot of the perpendicular when the circle is in front of the edge *)
  Lemma face_foot c i : (i < n)%nat -> 0 <= sep c i ->
    0 < dotp (minus c (V i)) (minus (V (after n i)) (V i)) -> 0 < dotp (minus c (V (after n i))) (minus (V i) (V (after n i))) ->
    exists q, inner po q /\ minus c q = V2 (sep c i * vx (N i)) (sep c i * vy (N i)) /\ forall p, inner po p -> dist2 c q <= dist2 c p.
  Proof.
    intros Hi S0 U1 U2. destruct (edge_facts i Hi) as (Un & k & Kp & Ex & Ey & Tk). set (j := after n i) in *.
    set (q := V2 (vx c - sep c i * vx (N i)) (vy c - sep c i * vy (N i))).
    assert (E1 : dotp (minus c (V i)) (minus (V j) (V i)) = k * (vx (N i) * (vy c - vy (V i)) - vy (N i) * (vx c - vx (V i)))).
    { unfold dotp, minus; cbn [vx vy]. rewrite Ex, Ey. ring. }
    set (g := vx (N i) * (vy c - vy (V i)) - vy (N i) * (vx c - vx (V i))) in *.
    assert (E2 : dotp (minus c (V j)) (minus (V i) (V j)) = k * (k - g)).
    { transitivity (- ((vx c - vx (V i)) * (vx (V j) - vx (V i)) + (vy c - vy (V i)) * (vy (V j) - vy (V i))) + ((vx (V j) - vx (V i)) * (vx (V j) - vx (V i)) + (vy (V j) - vy (V i)) * (vy (V j) - vy (V i)))); [unfold dotp, minus; cbn; ring|].
      rewrite Ex, Ey. unfold unit_vec in Un. transitivity (k * k * (vx (N i) * vx (N i) + vy (N i) * vy (N i)) - k * g); [unfold g; ring|rewrite Un; ring]. }
    rewrite E1 in U1. rewrite E2 in U2.
    assert (G1 : 0 < g) by nra. assert (G2 : g < k) by nra.
    assert (Q : q = along (V i) (V j) (g / k)).
    { assert (Cx : vx c - vx (V i) = sep c i * vx (N i) - g * vy (N i)).
      { unfold unit_vec in Un. transitivity ((vx (N i) * vx (N i) + vy (N i) * vy (N i)) * (vx c - vx (V i))); [rewrite Un; ring|]. unfold sep, g, dotp, minus; cbn. ring. }
      assert (Cy : vy c - vy (V i) = sep c i * vy (N i) + g * vx (N i)).
      { unfold unit_vec in Un. transitivity ((vx (N i) * vx (N i) + vy (N i) * vy (N i)) * (vy c - vy (V i))); [rewrite Un; ring|]. unfold sep, g, dotp, minus; cbn. ring. }
      apply vec2_ext; unfold q, along; cbn [vx vy]; rewrite ?Ex, ?Ey.
      - replace (vx c) with (vx (V i) + (sep c i * vx (N i) - g * vy (N i))) by lra. field. lra.
      - replace (vy c) with (vy (V i) + (sep c i * vy (N i) + g * vx (N i))) by lra. field. lra. }
    exists q. split; [|split].
    - rewrite Q. apply inner_mix.
      + apply vertex_inner. exact Hi.
      + apply vertex_inner. apply af_lt.
      + split; [apply Rmult_le_pos; [lra|left; apply Rinv_0_lt_compat; lra]|]. apply (Rmult_le_reg_r k); [lra|]. replace (g / k * k) with g by (field; lra). lra.
    - unfold minus, q; cbn. f_equal; ring.
    - intros p Ip. assert (D : dist2 c q = sep c i * sep c i).
      { unfold unit_vec in Un. transitivity (sep c i * sep c i * (vx (N i) * vx (N i) + vy (N i) * vy (N i))); [unfold dist2, q; cbn; ring|rewrite Un; ring]. }
      rewrite D. assert (Z : sep c i <= dotp (N i) (minus c p)).
      { pose proof (inner_dot p i Ip Hi). unfold sep. replace (dotp (N i) (minus c (V i))) with (dotp (N i) (minus c p) + dotp (N i) (minus p (V i))) by (unfold dotp, minus; cbn; ring). lra. }
      assert (Cs : dotp (N i) (minus c p) * dotp (N i) (minus c p) <= dist2 c p).
      { unfold unit_vec in Un. replace (dist2 c p) with ((vx (N i) * vx (N i) + vy (N i) * vy (N i)) * dist2 c p) by (rewrite Un; ring).
        pose proof (Rle_0_sqr (vx (N i) * (vy c - vy p) - vy (N i) * (vx c - vx p))) as Sq. unfold Rsqr in Sq. unfold dotp, minus, dist2; cbn. lra. }
      assert (sep c i * sep c i <= dotp (N i) (minus c p) * dotp (N i) (minus c p)) by (apply Rmult_le_compat; lra). lra.
  Qed.
End Local.

(** ** the manifold *)
Lemma mf_one_ok (m : manifold R) ty nl pt lp id : length (mf_points m) = 2%nat ->
  exists m', mf_one m ty nl pt lp id = Ok m' /\ mf_count m' = 1%nat /\ mf_type m' = ty /\ mf_local_normal m' = nl /\ mf_local_point m' = pt /\
    exists p, nth_error (mf_points m') 0 = Some p /\ mp_local p = lp.
Proof.
  intros L. unfold mf_one, set_mpoint. destruct (mf_points m) as [|p0 [|p1 []]] eqn:Em; cbn in L; try lia.
  cbn. eexists. split; [reflexivity|]. cbn. repeat (split; [reflexivity|]). eexists. split; reflexivity.
Qed.
Section Manifold.
  Variable po : polygon R.
  Hypothesis Pr : proper po.
  Let n := po_count po.
  Lemma circle_search c r : exists st,
    for_range 0 (po_count po) (fun i st =>
      match st with
      | None => Ok None
      | Some (separation, normal_index) =>
        bind (get (po_normals po) i) (fun n => bind (get (po_vertices po) i) (fun v =>
        let s := b2_dot n (vsub c v) in
        if nlt r s then Ok None
        else if nlt separation s then Ok (Some (s, i)) else Ok (Some (separation, normal_index))))
      end) (Some (nneg B2_MAX_FLOAT, 0%nat)) = Ok st /\
    match st with
    | None => exists j, (j < n)%nat /\ r < sep po c j
    | Some (s, k) => (k < n)%nat /\ (forall j, (j < n)%nat -> sep po c j <= r /\ sep po c j <= s) /\ (s = sep po c k \/ s = - B2_MAX_FLOAT)
    end.
  Proof.
    pose proof (n3 po Pr) as N3. unfold for_range. rewrite Nat.sub_0_r.
    destruct (for_from_inv (fun i st => match st with
      | None => exists j, (j < n)%nat /\ r < sep po c j
      | Some (s, k) => (k < n)%nat /\ (forall j, (j < i)%nat -> sep po c j <= r /\ sep po c j <= s) /\ (s = sep po c k \/ s = - B2_MAX_FLOAT)
      end) (fun i st =>
      match st with
      | None => Ok None
      | Some (separation, normal_index) =>
        bind (get (po_normals po) i) (fun n => bind (get (po_vertices po) i) (fun v =>
        let s := b2_dot n (vsub c v) in
        if nlt r s then Ok None
        else if nlt separation s then Ok (Some (s, i)) else Ok (Some (separation, normal_index))))
      end) (po_count po) 0 (Some (nneg B2_MAX_FLOAT, 0%nat))) as (st & E & P).
    - split; [unfold n; lia|]. split; [lia|]. right. reflexivity.
    - intros i [[s k]|] Hi; [|intros H; exists None; split; [reflexivity|exact H]].
      intros (Hk & Mx & Sk). assert (Hi' : (i < po_count po)%nat) by lia. rewrite (get_N po Pr i Hi'), (get_V po Pr i Hi'). cbn [bind]. cbv zeta.
      change (b2_dot (N po i) (vsub c (V po i))) with (sep po c i). change (@nlt R R_Num) with Rlt_bool. rcase; [|rcase].
      + exists None. split; [reflexivity|]. exists i. split; assumption.
      + exists (Some (sep po c i, i)). split; [reflexivity|]. split; [exact Hi'|]. split; [|left; reflexivity].
        intros j Hj. destruct (Nat.eq_dec j i) as [->|]; [split; lra|]. destruct (Mx j) as (A & B); [lia|]. split; lra.
      + exists (Some (s, k)). split; [reflexivity|]. split; [exact Hk|]. split; [|exact Sk].
        intros j Hj. destruct (Nat.eq_dec j i) as [->|]; [split; lra|]. apply Mx. lia.
    - exists st. split; [exact E|]. exact P.
  Qed.
  Lemma beyond c r p i : inner po p -> (i < n)%nat -> 0 <= r -> r < sep po c i -> r * r < dist2 c p.
  Proof.
    intros Ip Hi Hr H. destruct (edge_facts po Pr i Hi) as (U & _). apply Rnot_le_lt. intros D.
    pose proof (dot_bound (N po i) (minus c p) r U Hr) as B. pose proof (inner_dot po Pr p i Ip Hi) as Id.
    assert (dotp (minus c p) (minus c p) <= r * r) by exact D.
    assert (sep po c i = dotp (N po i) (minus c p) + dotp (N po i) (minus p (V po i))) by (unfold sep, dotp, minus; cbn; ring).
    specialize (B H0). lra.
  Qed.
  (* the normal at a corner *)
  Lemma corner_normal c q i : (i < n)%nat -> (B2_EPSILON : R) <= sep po c i -> dotp (N po i) (minus c q) = sep po c i ->
    let d := sqrt (dist2 c q) in let nn := snd (vnormalize (vsub c q)) in
    minus c q = V2 (d * vx nn) (d * vy nn) /\ unit_vec nn /\ B2_EPSILON <= d /\ dotp nn (minus c q) = d.
  Proof.
    intros Hi S E d nn. destruct (edge_facts po Pr i Hi) as (U & _). pose proof eps_pos as Ep.
    assert (Hd : B2_EPSILON <= d).
    { unfold d. rewrite <- E in S. pose proof (dist2_nonneg c q) as D0. pose proof (dot_bound (N po i) (minus c q) (sqrt (dist2 c q)) U (sqrt_pos _)) as B.
      rewrite (sqrt_sqrt _ D0) in B. assert (dotp (minus c q) (minus c q) <= dist2 c q) by (right; reflexivity). specialize (B H). lra. }
    destruct (normalize_unit (vsub c q)) as (Un & Vn). { exact Hd. }
    fold nn in Un, Vn. change (sqrt (dotp (vsub c q) (vsub c q))) with d in Vn.
    assert (X : minus c q = V2 (d * vx nn) (d * vy nn)).
    { rewrite Vn. cbn [vx vy]. unfold minus. apply vec2_ext; cbn [vx vy vsub]; rops; field; lra. }
    split; [exact X|]. split; [exact Un|]. split; [exact Hd|]. rewrite X. unfold dotp; cbn [vx vy]. unfold unit_vec in Un.
    transitivity (d * (vx nn * vx nn + vy nn * vy nn)); [ring|rewrite Un; ring].
  Qed.

  Definition clear (c : vec2 R) (r : R) : Prop := forall p, inner po p -> r * r < dist2 c p.
  Definition shallow (c : vec2 R) (r : R) (m' : manifold R) : Prop :=
    (exists k, (k < n)%nat /\ B2_EPSILON <= sep po c k) /\
    exists q d, inner po q /\ (forall p, inner po p -> dist2 c q <= dist2 c p) /\
      minus c q = V2 (d * vx (mf_local_normal m')) (d * vy (mf_local_normal m')) /\ unit_vec (mf_local_normal m') /\ B2_EPSILON <= d <= r /\
      dotp (mf_local_normal m') (minus c (mf_local_point m')) = d.
  Definition deep (c : vec2 R) (r : R) (m' : manifold R) : Prop :=
    (forall k, (k < n)%nat -> sep po c k < B2_EPSILON /\ sep po c k <= r) /\
    exists k, (k < n)%nat /\ mf_local_normal m' = N po k /\ mf_local_point m' = along (V po k) (V po (after n k)) (1 / 2) /\
      ((forall j, (j < n)%nat -> sep po c j <= sep po c k) \/ forall j, (j < n)%nat -> sep po c j <= - B2_MAX_FLOAT).
  Lemma collide_pc (m : manifold R) xf_a ci xf_b : length (mf_points m) = 2%nat -> 0 <= po_radius po + ci_radius ci ->
    let c := xfv_t xf_a (xfv xf_b (ci_p ci)) in let r := po_radius po + ci_radius ci in
    exists m', b2_collide_polygon_and_circle m po xf_a ci xf_b = Ok m' /\
      ((mf_count m' = 0%nat /\ clear c r) \/
       (mf_count m' = 1%nat /\ mf_type m' = MFaceA /\ (exists p, nth_error (mf_points m') 0 = Some p /\ mp_local p = ci_p ci) /\ (shallow c r m' \/ deep c r m'))).
  Proof.
    intros L Hr c r. unfold b2_collide_polygon_and_circle. cbv zeta. fold c. change (po_radius po + ci_radius ci)%num with r. fold r in Hr.
    destruct (circle_search c r) as (st & E & P). unfold for_range in E |- *. 
    match goal with |- context [bind ?x _] => replace x with (@Ok (option (R * nat)) st) by (symmetry; exact E) end. clear E. cbn [bind].
    destruct st as [[s i]|].
    2:{ exists (mf_none m). split; [reflexivity|]. left. split; [reflexivity|]. destruct P as (j & Hj & Sj). intros p Ip. exact (beyond c r p j Ip Hj Hr Sj). }
    destruct P as (Hi & Mx & Sk).
    replace (if (i + 1 <? po_count po)%nat then (i + 1)%nat else 0%nat) with (after n i) by (unfold after, n; rewrite Nat.add_1_r; reflexivity).
    rewrite (get_V po Pr i Hi), (get_V po Pr (after n i) (af_lt po Pr i)), (get_N po Pr i Hi). cbn [bind].
    assert (Mid : vscale (nlit 1 2) (vadd (V po i) (V po (after n i))) = along (V po i) (V po (after n i)) (1 / 2)).
    { unfold along. apply vec2_ext; rmathc; field. }
    pose proof eps_pos as Ep. pose proof max_float_pos as Mp.
    change (@nlt R R_Num) with Rlt_bool. change (@nle R R_Num) with Rle_bool. rcase.
    - destruct (mf_one_ok m MFaceA (N po i) (vscale (nlit 1 2) (vadd (V po i) (V po (after n i)))) (ci_p ci) cid_default L) as (m' & E & C1 & Ty & Nl & Lp & Pt).
      exists m'. split; [exact E|]. right. split; [exact C1|]. split; [exact Ty|]. split; [exact Pt|]. right. split.
      + intros k Hk. destruct (Mx k Hk). split; lra.
      + exists i. split; [exact Hi|]. split; [exact Nl|]. split; [rewrite Lp; exact Mid|]. destruct Sk as [->|Sk]; [left|right]; intros j Hj; destruct (Mx j Hj); lra.
    - assert (Se : s = sep po c i) by (destruct Sk as [|Sk]; [assumption|exfalso; lra]). subst s. clear Sk.
      assert (Hs : B2_EPSILON <= sep po c i) by assumption. assert (Sp : 0 < sep po c i) by lra. assert (Mx' : forall j, (j < n)%nat -> sep po c j <= sep po c i) by (intros j Hj; apply Mx, Hj).
      set (j := after n i) in *. pose proof (af_lt po Pr i) as Hj. fold n j in Hj.
      change (b2_dot (vsub c (V po i)) (vsub (V po j) (V po i))) with (dotp (minus c (V po i)) (minus (V po j) (V po i))).
      change (b2_dot (vsub c (V po j)) (vsub (V po i) (V po j))) with (dotp (minus c (V po j)) (minus (V po i) (V po j))).
      assert (D2 : forall v, b2_distance_vec2_squared c v = dist2 c v) by (intros v; reflexivity). rewrite (D2 (V po i)), (D2 (V po j)).
      assert (Near : forall v, dist2 c v <= r * r -> sqrt (dist2 c v) <= r).
      { intros v Hv. rewrite <- (sqrt_square r Hr). apply sqrt_le_1_alt, Hv. }
      assert (Ej : dotp (N po i) (minus c (V po j)) = sep po c i).
      { destruct (edge_facts po Pr i Hi) as (_ & k & Kp & _ & _ & Tk). pose proof (Tk (V po j)) as Z. fold n j in Z. rewrite turn_abb in Z.
        assert (Z0 : dotp (N po i) (minus (V po j) (V po i)) = 0) by (assert (Q : k * dotp (N po i) (minus (V po j) (V po i)) = 0) by lra; apply Rmult_integral in Q as [|]; lra).
        transitivity (dotp (N po i) (minus c (V po j)) + dotp (N po i) (minus (V po j) (V po i))); [lra|]. unfold sep, dotp, minus; cbn; ring. }
      assert (Corner : forall v, inner po v -> dotp (N po i) (minus c v) = sep po c i -> (forall p, inner po p -> dist2 c v <= dist2 c p) ->
        exists m', (if Rlt_bool (r * r) (dist2 c v) then Ok (mf_none m) else mf_one m MFaceA (snd (vnormalize (vsub c v))) v (ci_p ci) cid_default) = Ok m' /\
          ((mf_count m' = 0%nat /\ clear c r) \/
           (mf_count m' = 1%nat /\ mf_type m' = MFaceA /\ (exists p, nth_error (mf_points m') 0 = Some p /\ mp_local p = ci_p ci) /\ (shallow c r m' \/ deep c r m')))).
      { intros v Iv Ev Nv. rcase.
        - exists (mf_none m). split; [reflexivity|]. left. split; [reflexivity|]. intros p Ip. specialize (Nv p Ip). lra.
        - destruct (mf_one_ok m MFaceA (snd (vnormalize (vsub c v))) v (ci_p ci) cid_default L) as (m' & E & C1 & Ty & Nl & Lp & Pt).
          exists m'. split; [exact E|]. right. split; [exact C1|]. split; [exact Ty|]. split; [exact Pt|]. left.
          destruct (corner_normal c v i Hi Hs Ev) as (A & B & C & D). split; [exists i; split; assumption|].
          exists v, (sqrt (dist2 c v)). rewrite Nl, Lp. split; [exact Iv|]. split; [exact Nv|]. split; [exact A|]. split; [exact B|]. split; [|exact D].
          split; [exact C|]. apply Near. assumption. }
      change (nmul r r) with (r * r). change (nofZ 0) with 0.
      destruct (Rle_bool_spec (dotp (minus c (V po i)) (minus (V po j) (V po i))) 0); [|destruct (Rle_bool_spec (dotp (minus c (V po j)) (minus (V po i) (V po j))) 0)].
      + apply Corner; [apply vertex_inner; assumption|reflexivity|]. intros p Ip. apply (first_corner po Pr c i p Hi Mx' Sp); assumption.
      + apply Corner; [apply vertex_inner; assumption|exact Ej|]. intros p Ip. apply (second_corner po Pr c i p Hi Mx' Sp); assumption.
      + destruct (face_foot po Pr c i Hi) as (q & Iq & Mq & Nq); [lra|assumption|assumption|].
        rewrite Mid. destruct (edge_facts po Pr i Hi) as (Un & _).
        assert (Sf : b2_dot (vsub c (along (V po i) (V po j) (1 / 2))) (N po i) = sep po c i).
        { transitivity ((dotp (N po i) (minus c (V po i)) + dotp (N po i) (minus c (V po j))) / 2); [unfold along, dotp, minus; rmathc; field|]. rewrite Ej. unfold sep. field. }
        rewrite Sf. rcase.
        { exfalso. destruct (Mx i Hi). lra. }
        destruct (mf_one_ok m MFaceA (N po i) (along (V po i) (V po j) (1 / 2)) (ci_p ci) cid_default L) as (m' & E & C1 & Ty & Nl & Lp & Pt).
        exists m'. split; [exact E|]. right. split; [exact C1|]. split; [exact Ty|]. split; [exact Pt|]. left. split; [exists i; split; assumption|].
        exists q, (sep po c i). rewrite Nl, Lp. split; [exact Iq|]. split; [exact Nq|]. split; [exact Mq|]. split; [exact Un|]. split; [lra|].
        rewrite <- Sf. unfold dotp, minus; rmathc; ring.
  Qed.
End Manifold.

(** ** in world coordinates *)
Section World.
  Variable po : polygon R.
  Hypothesis Pr : proper po.
  Variable xf : xform R.
  Hypothesis Un : unit_rot (xq xf).
  Lemma dist2_place a b : dist2 (place xf a) (place xf b) = dist2 a b.
  Proof.
    unfold unit_rot in Un. transitivity ((rc (xq xf) * rc (xq xf) + rs (xq xf) * rs (xq xf)) * dist2 a b); [unfold dist2, place; cbn; ring|]. rops. 
    replace (rc (xq xf) * rc (xq xf) + rs (xq xf) * rs (xq xf)) with 1 by lra. ring.
  Qed.
  Lemma dotp_turned n a b : dotp (turned (xq xf) n) (minus (place xf a) (place xf b)) = dotp n (minus a b).
  Proof.
    unfold unit_rot in Un. transitivity ((rc (xq xf) * rc (xq xf) + rs (xq xf) * rs (xq xf)) * dotp n (minus a b)); [unfold dotp, minus, place, turned; cbn; ring|]. rops. 
    replace (rc (xq xf) * rc (xq xf) + rs (xq xf) * rs (xq xf)) with 1 by lra. ring.
  Qed.
  Lemma minus_place a b : minus (place xf a) (place xf b) = turned (xq xf) (minus a b).
  Proof. unfold minus, place, turned; cbn. f_equal; ring. Qed.
  Lemma place_local p : place xf (xfv_t xf p) = p.
  Proof. rewrite <- xfv_place. apply xfv_xfv_t, Un. Qed.
  Lemma place_inj a b : place xf a = place xf b -> a = b.
  Proof. intros H. rewrite <- (xfv_t_xfv xf a Un), <- (xfv_t_xfv xf b Un), !xfv_place, H. reflexivity. Qed.
  Lemma in_place a : in_polygon po xf (place xf a) <-> inner po a.
  Proof. split; [intros (b & E & I); apply place_inj in E; subst b; exact I|intros I; exists a; split; [reflexivity|exact I]]. Qed.
  Lemma unit_turned n : unit_vec n -> unit_vec (turned (xq xf) n).
  Proof.
    unfold unit_vec, unit_rot in *. intros U. transitivity ((rc (xq xf) * rc (xq xf) + rs (xq xf) * rs (xq xf)) * (vx n * vx n + vy n * vy n)); [unfold turned; cbn; ring|]. rewrite U. lra.
  Qed.
  Lemma grazes_local a : grazes po xf (place xf a) <-> forall k, (k < po_count po)%nat -> sep po a k < B2_EPSILON.
  Proof.
    split.
    - intros (b & E & H) k Hk. apply place_inj in E. subst b. apply (H k); [exact Hk|apply N_nth; assumption|]. rewrite <- used_nth by exact Hk. apply vs_nth; assumption.
    - intros H. exists a. split; [reflexivity|]. intros i n v Hi Hn Hv. rewrite (N_nth po Pr i Hi) in Hn. injection Hn as <-.
      rewrite <- used_nth in Hv by exact Hi. rewrite (vs_nth po Pr i Hi) in Hv. injection Hv as <-. apply H, Hi.
  Qed.
  Lemma inside_grazes c : in_polygon po xf c -> grazes po xf c.
  Proof. intros (a & -> & I). apply grazes_local. intros k Hk. pose proof (inner_dot po Pr a k I Hk) as D. pose proof eps_pos. unfold sep. lra. Qed.

  Variables (m : manifold R) (ci : circle R) (xf_b : xform R).
  Hypothesis Lm : length (mf_points m) = 2%nat.
  Hypothesis Rp : 0 <= po_radius po + ci_radius ci.
  Let c := place xf_b (ci_p ci).
  Let r := po_radius po + ci_radius ci.
  Let a := xfv_t xf c.
  Lemma placed_a : place xf a = c.
  Proof. apply place_local. Qed.
  Lemma local_case m' : b2_collide_polygon_and_circle m po xf ci xf_b = Ok m' ->
    ((mf_count m' = 0%nat /\ clear po a r) \/
       (mf_count m' = 1%nat /\ mf_type m' = MFaceA /\ (exists p, nth_error (mf_points m') 0 = Some p /\ mp_local p = ci_p ci) /\ (shallow po a r m' \/ deep po a r m'))).
  Proof.
    intros E. destruct (collide_pc po Pr m xf ci xf_b Lm Rp) as (m1 & E1 & H). rewrite E in E1. injection E1 as <-. rewrite xfv_place in H. exact H.
  Qed.
  Lemma circle_touch : exists m', b2_collide_polygon_and_circle m po xf ci xf_b = Ok m' /\
    (mf_count m' = 0%nat \/ mf_count m' = 1%nat) /\ (reaches po xf c r -> mf_count m' = 1%nat) /\ (mf_count m' = 1%nat -> reaches po xf c r \/ grazes po xf c).
  Proof.
    destruct (collide_pc po Pr m xf ci xf_b Lm Rp) as (m1 & E1 & _). exists m1. split; [exact E1|].
    destruct (local_case m1 E1) as [(C0 & Cl)|(C1 & _ & _ & Sd)]; (split; [lia|]).
    - split; [|lia]. intros (p & (b & -> & Ib) & D). exfalso. specialize (Cl b Ib). rewrite <- placed_a, dist2_place in D. lra.
    - split; [lia|]. intros _. rewrite <- placed_a. destruct Sd as [(_ & q & d & Iq & _ & Mq & Uq & Dq & _)|(Gr & _)]; [left|right].
      + exists (place xf q). split; [apply in_place, Iq|]. rewrite dist2_place.
        assert (X : dist2 a q = d * d).
        { unfold unit_vec in Uq. change (dist2 a q) with (dotp (minus a q) (minus a q)). rewrite Mq. unfold dotp; cbn. transitivity (d * d * (vx (mf_local_normal m1) * vx (mf_local_normal m1) + vy (mf_local_normal m1) * vy (mf_local_normal m1))); [ring|rewrite Uq; ring]. }
        rewrite X. pose proof eps_pos. apply Rmult_le_compat; lra.
      + apply grazes_local. intros k Hk. apply Gr, Hk.
  Qed.
  Lemma circle_nearest m' : b2_collide_polygon_and_circle m po xf ci xf_b = Ok m' -> mf_count m' = 1%nat -> ~ grazes po xf c ->
    let n := turned (xq xf) (mf_local_normal m') in
    exists q d, nearest_in po xf c q /\ minus c q = scaled d n /\ unit_vec n /\ B2_EPSILON <= d <= r /\ dotp n (minus c (place xf (mf_local_point m'))) = d.
  Proof.
    intros E C1 Ng n. destruct (local_case m' E) as [(C0 & _)|(_ & _ & _ & [(_ & q & d & Iq & Nq & Mq & Uq & Dq & Eq)|(Gr & _)])]; [lia| |].
    - exists (place xf q), d. rewrite <- placed_a. split; [|split; [|split; [|split]]].
      + split; [apply in_place, Iq|]. intros p (b & -> & Ib). rewrite !dist2_place. apply Nq, Ib.
      + rewrite minus_place, Mq. unfold turned, scaled, n; cbn. f_equal; unfold turned; cbn; ring.
      + apply unit_turned, Uq.
      + exact Dq.
      + unfold n. rewrite dotp_turned. exact Eq.
    - exfalso. apply Ng. rewrite <- placed_a. apply grazes_local. intros k Hk. apply Gr, Hk.
  Qed.
  Lemma circle_point m' : b2_collide_polygon_and_circle m po xf ci xf_b = Ok m' -> mf_count m' = 1%nat ->
    mf_type m' = MFaceA /\ exists p, nth_error (mf_points m') 0 = Some p /\ mp_local p = ci_p ci.
  Proof. intros E C1. destruct (local_case m' E) as [(C0 & _)|(_ & Ty & Pt & _)]; [lia|]. split; assumption. Qed.
  Lemma circle_deep m' : b2_collide_polygon_and_circle m po xf ci xf_b = Ok m' -> in_polygon po xf c ->
    (exists p, ~ in_polygon po xf p /\ dist2 c p < B2_MAX_FLOAT * B2_MAX_FLOAT) ->
    let n := turned (xq xf) (mf_local_normal m') in
    exists d, 0 <= d /\ unit_vec n /\ dotp n (minus c (place xf (mf_local_point m'))) = - d /\ mf_count m' = 1%nat /\
      (forall p, dist2 c p < d * d -> in_polygon po xf p) /\
      (forall e, d < e -> ~ in_polygon po xf (V2 (vx c + e * vx n) (vy c + e * vy n))).
  Proof.
    intros E Ic (p0 & O0 & D0) n. assert (Ia : inner po a) by (apply in_place; rewrite placed_a; exact Ic).
    pose proof max_float_pos as Mp. pose proof eps_pos as Ep.
    destruct (local_case m' E) as [(C0 & Cl)|(C1 & _ & _ & [((k & Hk & Sk) & _)|(_ & k & Hk & Nk & Lk & Mk)])].
    - exfalso. specialize (Cl a Ia). assert (Z : dist2 a a = 0) by (unfold dist2; ring). rewrite Z in Cl. assert (0 <= r * r) by (apply Rmult_le_pos; exact Rp). lra.
    - exfalso. pose proof (inner_dot po Pr a k Ia Hk). unfold sep in Sk. lra.
    - destruct (edge_facts po Pr k Hk) as (Uk & kk & Kp & _ & _ & Tk).
      assert (Mk' : forall j, (j < po_count po)%nat -> sep po a j <= sep po a k).
      { destruct Mk as [Mk|Mk]; [exact Mk|exfalso]. apply O0. rewrite <- (place_local p0). apply in_place. apply (dot_inner po Pr). intros j Hj.
        rewrite <- placed_a, <- (place_local p0), dist2_place in D0. set (b := xfv_t xf p0) in *. specialize (Mk j Hj). destruct (edge_facts po Pr j Hj) as (Uj & _).
        pose proof (dot_bound (N po j) (minus b a) B2_MAX_FLOAT Uj) as B. specialize (B (Rlt_le _ _ Mp)). assert (dotp (minus b a) (minus b a) <= B2_MAX_FLOAT * B2_MAX_FLOAT) by (rewrite dist2_sym in D0; unfold dist2 in D0; unfold dotp, minus; cbn [vx vy]; lra).
        specialize (B H). unfold sep in Mk. replace (dotp (N po j) (minus b (V po j))) with (dotp (N po j) (minus b a) + dotp (N po j) (minus a (V po j))) by (unfold dotp, minus; cbn; ring). lra. }
      pose proof (inner_dot po Pr a k Ia Hk) as Dk. fold (sep po a k) in Dk.
      assert (Lp : dotp (N po k) (minus a (mf_local_point m')) = sep po a k).
      { rewrite Lk. pose proof (Tk (V po (after (po_count po) k))) as Z. rewrite turn_abb in Z. set (v2 := V po (after (po_count po) k)) in *.
        assert (Z0 : dotp (N po k) (minus v2 (V po k)) = 0) by (assert (Q : kk * dotp (N po k) (minus v2 (V po k)) = 0) by lra; apply Rmult_integral in Q as [|]; lra).
        transitivity (sep po a k - (1 / 2) * dotp (N po k) (minus v2 (V po k))); [unfold sep, along, dotp, minus; cbn; field|rewrite Z0; ring]. }
      exists (- sep po a k). split; [lra|]. split; [|split; [|split; [|split]]].
      + unfold n. rewrite Nk. apply unit_turned, Uk.
      + rewrite <- placed_a. unfold n. rewrite dotp_turned, Nk, Lp. ring.
      + exact C1.
      + intros p Hp. rewrite <- placed_a, <- (place_local p), dist2_place in Hp. rewrite <- (place_local p). apply in_place, (dot_inner po Pr). set (b := xfv_t xf p) in *. intros j Hj.
        destruct (edge_facts po Pr j Hj) as (Uj & _). pose proof (dot_bound (N po j) (minus b a) (- sep po a k) Uj) as B. specialize (B ltac:(lra)).
        assert (H : dotp (minus b a) (minus b a) <= - sep po a k * - sep po a k) by (rewrite dist2_sym in Hp; unfold dist2 in Hp; unfold dotp, minus; cbn [vx vy]; lra).
        specialize (B H). specialize (Mk' j Hj). unfold sep in Mk', B. replace (dotp (N po j) (minus b (V po j))) with (dotp (N po j) (minus b a) + dotp (N po j) (minus a (V po j))) by (unfold dotp, minus; cbn; ring). unfold sep in *. lra.
      + intros e He In. assert (X : V2 (vx c + e * vx n) (vy c + e * vy n) = place xf (V2 (vx a + e * vx (N po k)) (vy a + e * vy (N po k)))).
        { rewrite <- placed_a. unfold n. rewrite Nk. unfold place, turned; cbn. f_equal; ring. }
        rewrite X in In. apply in_place in In. pose proof (inner_dot po Pr _ k In Hk) as Z.
        unfold unit_vec in Uk. assert (Y : dotp (N po k) (minus (V2 (vx a + e * vx (N po k)) (vy a + e * vy (N po k))) (V po k)) = sep po a k + e * (vx (N po k) * vx (N po k) + vy (N po k) * vy (N po k))) by (unfold sep, dotp, minus; cbn; ring).
        rewrite Y, Uk in Z. lra.
  Qed.
End World.
