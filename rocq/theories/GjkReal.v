(** The answer of GJK in exact real arithmetic. *)
From Coq Require Import List ZArith Bool Arith Reals Lia Lra.
From Flocq Require Import Core.
From Verif Require Import Base Num NumLaws Math RTac ListFacts ShapeModel DynModel DistModel GeomSpec DistSpec DistProofs GjkProofs.
Import ListNotations.
Local Open Scope R_scope.

Lemma place_R x v : xfv x v = place x v.
Proof. unfold place. rmathc. apply vec2_ext; cbn; ring. Qed.

Lemma support_from_max (all l : list (vec2 R)) d i best (value : R) vb :
  nth_error all best = Some vb -> b2_dot vb d = value -> (forall j u, (j < i)%nat -> nth_error all j = Some u -> b2_dot u d <= value) ->
  (forall j, nth_error l j = nth_error all (i + j)) ->
  exists v, nth_error all (support_from l d i best value) = Some v /\ forall j u, nth_error all j = Some u -> b2_dot u d <= b2_dot v d.
Proof.
  revert i best value vb. induction l as [|v l IH]; intros i best value vb Hb Hv Hm Hl; cbn [support_from].
  - exists vb. split; [exact Hb|]. intros j u Hj. rewrite Hv. destruct (Nat.lt_ge_cases j i) as [h|h]; [eauto|].
    specialize (Hl (j - i)%nat). replace (i + (j - i))%nat with j in Hl by lia. rewrite Hj in Hl. destruct (j - i)%nat; discriminate.
  - assert (Hi : nth_error all i = Some v) by (specialize (Hl 0%nat); rewrite Nat.add_0_r in Hl; now rewrite <- Hl).
    assert (Hl' : forall j, nth_error l j = nth_error all (S i + j)) by (intros j; specialize (Hl (S j)); cbn in Hl; rewrite Hl; f_equal; lia).
    cbn [nlt R_Num]. destruct (Rlt_bool_spec value (b2_dot v d)) as [h|h].
    + apply (IH (S i) i _ v); auto. intros j u Hj E. destruct (Nat.eq_dec j i) as [-> |ne]; [rewrite Hi in E; injection E as ->; lra|].
      specialize (Hm j u ltac:(lia) E). lra.
    + apply (IH (S i) best value vb); auto. intros j u Hj E. destruct (Nat.eq_dec j i) as [-> |ne]; [rewrite Hi in E; injection E as ->; lra|].
      apply (Hm j u); [lia|exact E].
Qed.
Lemma support_max (p : dproxy R) d i : get_support p d = Ok i ->
  exists v, nth_error (dp_vertices p) i = Some v /\ forall u, In u (dp_vertices p) -> b2_dot u d <= b2_dot v d.
Proof.
  unfold get_support. destruct (dp_vertices p) as [|v0 l] eqn:E; [discriminate|]. cbn [get nth_error bind tl].
  intros H. injection H as <-.
  destruct (support_from_max (v0 :: l) l d 1 0 (b2_dot v0 d) v0) as (v & Hv & M); auto.
  - intros j u Hj. destruct j as [|j]; [|lia]. cbn. intros [= ->]. lra.
  - exists v. split; [exact Hv|]. intros u I. apply In_nth_error in I. destruct I as (j & Hj). eauto.
Qed.

Section Real.
  Variables (pa : dproxy R) (xa : xform R) (pb : dproxy R) (xb : xform R).

  Lemma at_index_R v : at_index pa xa pb xb v -> exists la lb,
    nth_error (dp_vertices pa) (sv_ia v) = Some la /\ nth_error (dp_vertices pb) (sv_ib v) = Some lb /\
    sv_wa v = place xa la /\ sv_wb v = place xb lb /\ sv_w v = V2 (vx (sv_wb v) - vx (sv_wa v)) (vy (sv_wb v) - vy (sv_wa v)).
  Proof.
    unfold at_index, vertex_at, get_vertex, get. destruct (nth_error (dp_vertices pa) (sv_ia v)) as [la|] eqn:A; cbn; try discriminate. destruct (nth_error (dp_vertices pb) (sv_ib v)) as [lb|] eqn:B; cbn; try discriminate.
    intros E. exists la, lb. rewrite !place_R in E. destruct v as [u1 u2 u3 u4 u5 u6]. cbn in *. injection E as <- <- <-. auto.
  Qed.
  Lemma at_index_clouds v : at_index pa xa pb xb v -> In (sv_wa v) (cloud pa xa) /\ In (sv_wb v) (cloud pb xb).
  Proof.
    intros A. destruct (at_index_R v A) as (la & lb & Ea & Eb & -> & -> & _). unfold cloud. split; apply in_map; eapply nth_error_In; eauto.
  Qed.

  Lemma ended_solved s' : ended pa xa pb xb s' -> exists s s1, solved s s1 /\ simplex_ok pa xa pb xb s /\ simplex_ok pa xa pb xb s1 /\ bary s' = bary s1 /\ corners s' = corners s1 /\ used s' = used s1 /\ sx_count s' = sx_count s1 /\
    (sx_count s1 = 3%nat \/ exists d, search_direction s1 = Ok d /\
      (vlen2 d < B2_EPSILON * B2_EPSILON \/ exists ia ib, get_support pa (rotv_t (xq xa) (vneg d)) = Ok ia /\ get_support pb (rotv_t (xq xb) d) = Ok ib /\ In (ia, ib) (indices s))).
  Proof.
    intros (s & s1 & O & E & C & U & H). exists s, s1.
    destruct (solve_solved s ltac:(apply O)) as (s2 & E2 & S). assert (s2 = s1) by congruence. subst s2.
    destruct (solve_ok pa xa pb xb s O) as (s2 & E3 & O1). assert (s2 = s1) by congruence. subst s2.
    refine (conj S (conj O (conj O1 (conj _ (conj _ (conj U (conj C _))))))).
    - unfold bary, weights. now rewrite C, U.
    - unfold corners. now rewrite U.
    - destruct H as [H|(d & Hd & [H|H])]; [now left|right; exists d; split; [exact Hd|left]|right; exists d; split; [exact Hd|now right]].
      cbn in H. now apply Rlt_bool_true' in H.
  Qed.

  Lemma mix_from (f : svertex R -> vec2 R) (ps : list (vec2 R)) s s1 : solved s s1 -> (forall v, In v (used s1) -> In (f v) ps) -> hull ps (mix (bary s1) (map f (used s1))).
  Proof.
    intros S H. apply hull_incl with (ps := map f (used s1)).
    - intros p I. apply in_map_iff in I. destruct I as (v & <- & I). auto.
    - exists (bary s1). refine (conj _ (conj (conj _ (so_total _ _ S)) eq_refl)).
      + destruct (so_count _ _ S) as [A B]. destruct s1 as [v0 v1 v2 c]. unfold bary, weights, used. cbn [sx_count sx_0 sx_1 sx_2] in *. destruct c as [|[|[|[|c]]]]; cbn; lia.
      + eapply Forall_impl; [|exact (so_pos _ _ S)]. intros a Ha. cbn in Ha. lra.
  Qed.
  (* mixing the differences *)
  Lemma mix_w (l : list (svertex R)) ws : Forall (at_index pa xa pb xb) l -> length ws = length l ->
    vx (mix ws (map sv_w l)) = vx (mix ws (map sv_wb l)) - vx (mix ws (map sv_wa l)) /\ vy (mix ws (map sv_w l)) = vy (mix ws (map sv_wb l)) - vy (mix ws (map sv_wa l)).
  Proof.
    intros F. revert ws. induction F as [|v l A F IH]; intros [|w ws] L; cbn in L; try discriminate; cbn.
    - lra.
    - injection L as L. destruct (IH ws L) as [-> ->]. destruct (at_index_R v A) as (_ & _ & _ & _ & _ & _ & ->). cbn. lra.
  Qed.
  Lemma bary_length s s1 : solved s s1 -> length (bary s1) = length (used s1).
  Proof. intros S. destruct (so_count _ _ S) as [A B]. destruct s1 as [v0 v1 v2 c]. unfold bary, weights, used. cbn [sx_count sx_0 sx_1 sx_2] in *. destruct c as [|[|[|[|c]]]]; cbn; lia. Qed.

  Lemma witness_R s' s1 s a b : solved s s1 -> simplex_ok pa xa pb xb s1 -> bary s' = bary s1 -> corners s' = corners s1 -> used s' = used s1 -> sx_count s' = sx_count s1 ->
    witness_points s' = Ok (a, b) -> a = mix (bary s1) (map sv_wa (used s1)) /\ b = mix (bary s1) (map sv_wb (used s1)).
  Proof.
    intros S O Eb Ec Eu En W.
    assert (In3 : sx_count s1 = 3%nat -> mix (bary s1) (map sv_wa (used s1)) = mix (bary s1) (map sv_wb (used s1))).
    { intros C. pose proof (so_inside _ _ S C) as Z. unfold corners in Z. destruct (mix_w (used s1) (bary s1) (proj2 O) (bary_length _ _ S)) as [X Y]. rewrite Z in X, Y. cbn in X, Y. apply vec2_ext; lra. }
    rewrite <- Eb, <- Eu in *. clear S O. rewrite <- En in In3.
    destruct s' as [v0 v1 v2 c]. unfold witness_points, bary, weights, used in *. cbn [sx_count sx_0 sx_1 sx_2] in *.
    destruct c as [|[|[|[|c]]]]; try discriminate; cbn [Nat.eqb firstn map mix] in *.
    - injection W as <- <-. split; apply vec2_ext; cbn; ring.
    - injection W as <- <-. unfold vadd, vscale. cbn. split; apply vec2_ext; cbn; ring.
    - specialize (In3 eq_refl). injection W as <- <-.
      assert (E : vadd (vadd (vscale (sv_a v0) (sv_wa v0)) (vscale (sv_a v1) (sv_wa v1))) (vscale (sv_a v2) (sv_wa v2)) = mix [sv_a v0; sv_a v1; sv_a v2] [sv_wa v0; sv_wa v1; sv_wa v2]).
      { unfold vadd, vscale. cbn. apply vec2_ext; cbn; ring. }
      rewrite E. split; [reflexivity|]. exact In3.
  Qed.

  Lemma ended_witness s' a b : ended pa xa pb xb s' -> witness_points s' = Ok (a, b) -> hull (cloud pa xa) a /\ hull (cloud pb xb) b.
  Proof.
    intros H W. destruct (ended_solved s' H) as (s & s1 & S & O & O1 & Eb & Ec & Eu & En & _).
    destruct (witness_R s' s1 s a b S O1 Eb Ec Eu En W) as [-> ->].
    pose proof (proj2 O1) as F. rewrite Forall_forall in F.
    split; apply mix_from with (s := s); auto; intros v I; apply (at_index_clouds v (F v I)).
  Qed.

  (* the rotation may be moved to the other side of the product *)
  Lemma dot_rot q (u d : vec2 R) : b2_dot u (rotv_t q d) = b2_dot (rotv q u) d.
  Proof. rmathc. ring. Qed.

  Lemma ended_minimal s' a b : ended pa xa pb xb s' -> witness_points s' = Ok (a, b) -> spread (cloud pa xa) (cloud pb xb) ->
    dist2 a b < B2_EPSILON * B2_EPSILON \/ forall qa qb, hull (cloud pa xa) qa -> hull (cloud pb xb) qb -> dist2 a b <= dist2 qa qb.
  Proof.
    intros H W Sp. destruct (ended_solved s' H) as (s & s1 & S & O & O1 & Eb & Ec & Eu & En & R).
    destruct (witness_R s' s1 s a b S O1 Eb Ec Eu En W) as [Ha Hb].
    destruct (mix_w (used s1) (bary s1) (proj2 O1) (bary_length _ _ S)) as [X Y]. rewrite <- Ha, <- Hb in X, Y. fold (corners s1) in X, Y.
    set (p := mix (bary s1) (corners s1)) in *.
    assert (D : dist2 a b = vx p * vx p + vy p * vy p) by (unfold dist2; rewrite X, Y; ring).
    assert (Fin : (forall la lb, In la (cloud pa xa) -> In lb (cloud pb xb) -> vx p * vx p + vy p * vy p <= vx p * (vx lb - vx la) + vy p * (vy lb - vy la)) ->
      forall qa qb, hull (cloud pa xa) qa -> hull (cloud pb xb) qb -> dist2 a b <= dist2 qa qb).
    { intros M qa qb Qa Qb.
      assert (0 <= vx p * vx qb + vy p * vy qb + (- (vx p * vx qa + vy p * vy qa) - (vx p * vx p + vy p * vy p))).
      { apply hull_affine with (ps := cloud pb xb); [|exact Qb]. intros lb Ib.
        assert (0 <= (- vx p) * vx qa + (- vy p) * vy qa + (vx p * vx lb + vy p * vy lb - (vx p * vx p + vy p * vy p))).
        { apply hull_affine with (ps := cloud pa xa); [|exact Qa]. intros la Ia. specialize (M la lb Ia Ib). lra. }
        lra. }
      rewrite D. unfold dist2. pose proof (Rle_0_sqr (vx qb - vx qa - vx p)). pose proof (Rle_0_sqr (vy qb - vy qa - vy p)). unfold Rsqr in *. nra. }
    destruct R as [C3|(d & Hd & R)].
    - right. apply Fin. pose proof (so_inside _ _ S C3) as Z. fold p in Z. rewrite Z. cbn. intros. lra.
    - (* the search direction is opposite to the point *)
      assert (Dir : (sx_count s1 = 1%nat /\ vlen2 d = vx p * vx p + vy p * vy p \/ sx_count s1 = 2%nat /\ vlen2 d = dist2 (V2 (vx (sv_w (sx_1 s1)) - vx (sv_w (sx_0 s1))) (vy (sv_w (sx_1 s1)) - vy (sv_w (sx_0 s1)))) origin) /\
        exists m, m <= 0 /\ (vlen2 d <> 0 -> vx p = m * vx d /\ vy p = m * vy d)).
      { unfold search_direction in Hd. pose proof (so_vi _ _ S) as V. pose proof (so_pos _ _ S) as P. pose proof (so_total _ _ S) as Tt. pose proof (so_from _ _ S) as Fr.
        destruct (sx_count s1) as [|[|[|c]]] eqn:C; try discriminate.
        - injection Hd as <-.
          assert (Ep : p = sv_w (sx_0 s1)). { unfold p, bary, corners, used. rewrite C. cbn. apply vec2_ext; cbn; ring. }
          rewrite Ep. split; [left; split; [reflexivity|unfold vlen2, vneg; cbn; ring]|].
          exists (-1). split; [lra|]. intros _. unfold vneg. cbn. lra.
        - set (e := vsub (sv_w (sx_1 s1)) (sv_w (sx_0 s1))) in *.
          split; [right; split; [reflexivity|]; destruct (_ >? _)%num in Hd; injection Hd as <-; unfold e; rmathc; unfold dist2, origin; cbn; ring|].
          (* the point is orthogonal to the edge *)
          unfold bary, weights, corners, used in p, P, Tt. rewrite C in P, Tt. cbn [Nat.eqb firstn map] in P, Tt.
          set (w0 := sv_w (sx_0 s1)) in *. set (w1 := sv_w (sx_1 s1)) in *. set (a0 := sv_a (sx_0 s1)) in *. set (a1 := sv_a (sx_1 s1)) in *.
          assert (Px : vx p = a0 * vx w0 + a1 * vx w1) by (unfold p; rewrite C; unfold a0, a1, w0, w1; cbn; ring).
          assert (Py : vy p = a0 * vy w0 + a1 * vy w1) by (unfold p; rewrite C; unfold a0, a1, w0, w1; cbn; ring).
          inversion P as [|? ? P0 P']; subst. inversion P' as [|? ? P1 _]; subst. cbn in Tt.
          assert (V' : forall v, In v (used s1) -> vx p * vx p + vy p * vy p <= vx p * vx (sv_w v) + vy p * vy (sv_w v)).
          { intros v I. destruct (Fr v I) as (u & Iu & (_ & _ & -> & _)). exact (V u Iu). }
          assert (V0 := V' (sx_0 s1)). assert (V1 := V' (sx_1 s1)). unfold used in V0, V1. rewrite C in V0, V1. cbn in V0, V1. specialize (V0 (or_introl eq_refl)). specialize (V1 (or_intror (or_introl eq_refl))).
          fold w0 in V0. fold w1 in V1.
          assert (Id : a0 * (vx p * vx w0 + vy p * vy w0 - (vx p * vx p + vy p * vy p)) + a1 * (vx p * vx w1 + vy p * vy w1 - (vx p * vx p + vy p * vy p)) = 0).
          { replace (a0 * (vx p * vx w0 + vy p * vy w0 - (vx p * vx p + vy p * vy p)) + a1 * (vx p * vx w1 + vy p * vy w1 - (vx p * vx p + vy p * vy p))) with (vx p * (a0 * vx w0 + a1 * vx w1) + vy p * (a0 * vy w0 + a1 * vy w1) - (a0 + a1) * (vx p * vx p + vy p * vy p)) by ring.
            rewrite <- Px, <- Py. replace (a0 + a1) with 1 by lra. ring. }
          set (k0 := vx p * vx w0 + vy p * vy w0 - (vx p * vx p + vy p * vy p)) in *. set (k1 := vx p * vx w1 + vy p * vy w1 - (vx p * vx p + vy p * vy p)) in *.
          assert (K0 : k0 = 0). { assert (0 <= a1 * k1) by (apply Rmult_le_pos; unfold k1; lra). assert (0 <= a0 * k0) by (apply Rmult_le_pos; unfold k0; lra). assert (a0 * k0 = 0) by lra. apply Rmult_integral in H2. destruct H2; lra. }
          assert (K1 : k1 = 0). { rewrite K0 in Id. assert (a1 * k1 = 0) by lra. apply Rmult_integral in H0. destruct H0; lra. }
          unfold k0 in K0. unfold k1 in K1. clear Id k0 k1.
          assert (Orth : vx p * vx e + vy p * vy e = 0) by (unfold e, vsub; cbn; lra).
          assert (Cr : forall dx dy, (dx = - vy e /\ dy = vx e) \/ (dx = vy e /\ dy = - vx e) -> dx * vx w0 + dy * vy w0 <= 0 ->
             exists m, m <= 0 /\ (dx * dx + dy * dy <> 0 -> vx p = m * dx /\ vy p = m * dy)).
          { intros dx dy Hdd Hs. destruct (Req_dec (dx * dx + dy * dy) 0) as [z|z]; [exists 0; split; [lra|intros; contradiction]|].
            assert (Or : vx p * dy = vy p * dx) by (destruct Hdd as [[-> ->]|[-> ->]]; lra).
            assert (Dp : dx * vx p + dy * vy p = dx * vx w0 + dy * vy w0).
            { assert (De : dx * vx e + dy * vy e = 0) by (destruct Hdd as [[-> ->]|[-> ->]]; ring). rewrite Px, Py.
              replace (dx * (a0 * vx w0 + a1 * vx w1) + dy * (a0 * vy w0 + a1 * vy w1)) with ((a0 + a1) * (dx * vx w0 + dy * vy w0) + a1 * (dx * vx e + dy * vy e)) by (unfold e, vsub; cbn; ring).
              rewrite De. replace (a0 + a1) with 1 by lra. ring. }
            exists ((dx * vx p + dy * vy p) / (dx * dx + dy * dy)).
            assert (0 < dx * dx + dy * dy). { pose proof (Rle_0_sqr dx). pose proof (Rle_0_sqr dy). unfold Rsqr in *. lra. }
            split.
            - rewrite Dp. unfold Rdiv. rewrite <- (Rmult_0_l (/ (dx * dx + dy * dy))). apply Rmult_le_compat_r; [left; now apply Rinv_0_lt_compat|exact Hs].
            - intros _. split.
              + apply Rmult_eq_reg_r with (dx * dx + dy * dy); [|lra]. unfold Rdiv. replace ((dx * vx p + dy * vy p) * / (dx * dx + dy * dy) * dx * (dx * dx + dy * dy)) with ((dx * vx p + dy * vy p) * dx) by (field; lra).
                replace (vx p * (dx * dx + dy * dy)) with (vx p * dx * dx + (vx p * dy) * dy) by ring. rewrite Or. ring.
              + apply Rmult_eq_reg_r with (dx * dx + dy * dy); [|lra]. unfold Rdiv. replace ((dx * vx p + dy * vy p) * / (dx * dx + dy * dy) * dy * (dx * dx + dy * dy)) with ((dx * vx p + dy * vy p) * dy) by (field; lra).
                replace (vy p * (dx * dx + dy * dy)) with ((vy p * dx) * dx + vy p * dy * dy) by ring. rewrite <- Or. ring. }
          clearbody p e w0 w1.
          cbn [nlt nofZ R_Num] in Hd. destruct (Rlt_bool_spec 0 (b2_cross e (vneg w0))) as [h|h] in Hd; injection Hd as <-.
          + unfold b2_cross, vneg in h. cbn in h.
            destruct (Cr (- vy e) (vx e)) as (m & Hm & E); [left; split; reflexivity|lra|].
            exists m. split; [exact Hm|]. unfold vlen2, b2_cross_sv. cbn. intros z. destruct E as [E1 E2]; [lra|]. split; lra.
          + unfold b2_cross, vneg in h. cbn in h.
            destruct (Cr (vy e) (- vx e)) as (m & Hm & E); [right; split; reflexivity|lra|].
            exists m. split; [exact Hm|]. unfold vlen2, b2_cross_vs. cbn. intros z. destruct E as [E1 E2]; [lra|]. split; lra. }
      destruct Dir as (Len & m & Hm & Par).
      destruct R as [Tiny|(ia & ib & Ga & Gb & I)].
      + destruct Len as [[C L]|[C L]].
        * left. rewrite D, <- L. exact Tiny.
        * exfalso. pose proof (so_apart _ _ S C) as Ne. pose proof (proj2 O1) as F. unfold used in F. rewrite C in F. cbn in F.
          inversion F as [|? ? F0 F']; subst. inversion F' as [|? ? F1 _]; subst.
          destruct (at_index_clouds _ F0) as [A0 B0]. destruct (at_index_clouds _ F1) as [A1 B1].
          destruct (at_index_R _ F0) as (_ & _ & _ & _ & _ & _ & W0). destruct (at_index_R _ F1) as (_ & _ & _ & _ & _ & _ & W1).
          rewrite W0, W1 in L. cbn [vx vy] in L.
          destruct (Sp _ _ _ _ A1 B1 A0 B0) as [Z|Z].
          -- apply Ne. rewrite W0, W1. unfold origin in Z. injection Z as Z1 Z2. apply vec2_ext; cbn; lra.
          -- rewrite L in Tiny. lra.
      + right. apply Fin. intros pa' pb' Ia Ib.
        apply in_map_iff in Ia. destruct Ia as (la & <- & Ia). apply in_map_iff in Ib. destruct Ib as (lb & <- & Ib).
        destruct (support_max pa _ ia Ga) as (va & Na & Ma). destruct (support_max pb _ ib Gb) as (vb & Nb & Mb).
        specialize (Ma la Ia). specialize (Mb lb Ib). rewrite !dot_rot in Ma, Mb.
        (* the support vertex is one of the corners *)
        unfold indices in I. apply in_map_iff in I. destruct I as (v & Ev & Iv). injection Ev as E1 E2.
        pose proof (proj2 O) as F. rewrite Forall_forall in F. destruct (at_index_R v (F v Iv)) as (ua & ub & Ua & Ub & Wa & Wb & Ww).
        rewrite E1, Na in Ua. rewrite E2, Nb in Ub. injection Ua as <-. injection Ub as <-.
        pose proof (so_vi _ _ S v Iv) as V. cbn zeta in V. fold p in V. rewrite Ww, Wa, Wb in V. cbn [vx vy] in V.
        destruct (Req_dec (vlen2 d) 0) as [z|z].
        * (* no direction: the point is the origin, or the edge is degenerate *)
          destruct Len as [[C L]|[C L]].
          -- rewrite L in z. apply zero_R in z. destruct z as [-> ->]. lra.
          -- exfalso. apply (so_apart _ _ S C). rewrite z in L. symmetry in L. unfold dist2, origin in L. cbn in L. rewrite !Rminus_0_r in L. apply zero_R in L. destruct L. apply vec2_ext; lra.
        * destruct (Par z) as [Ex Ey].
          set (A := place xa va) in *. set (B := place xb vb) in *.
          assert (Ka : vx d * vx (place xa va) + vy d * vy (place xa va) <= vx d * vx (place xa la) + vy d * vy (place xa la)).
          { unfold place. revert Ma. unfold b2_dot, vneg, rotv. cbn. intros Ma. lra. }
          assert (Kb : vx d * vx (place xb lb) + vy d * vy (place xb lb) <= vx d * vx (place xb vb) + vy d * vy (place xb vb)).
          { unfold place. revert Mb. unfold b2_dot, vneg, rotv. cbn. intros Mb. lra. }
          fold A in Ka. fold B in Kb. set (A' := place xa la) in *. set (B' := place xb lb) in *.
          assert (Q : m * (vx d * (vx B - vx A) + vy d * (vy B - vy A)) <= m * (vx d * (vx B' - vx A') + vy d * (vy B' - vy A'))).
          { apply Rmult_le_compat_neg_l; [exact Hm|lra]. }
          rewrite Ex, Ey in V |- *. lra.
  Qed.
End Real.

Lemma distance_vec_R a b : b2_distance_vec2 a b = dist a b.
Proof. unfold b2_distance_vec2, vlen, dist, dist2, vsub. cbn. reflexivity. Qed.
Lemma dist2_nonneg a b : 0 <= dist2 a b.
Proof. unfold dist2. pose proof (Rle_0_sqr (vx a - vx b)). pose proof (Rle_0_sqr (vy a - vy b)). unfold Rsqr in *. lra. Qed.
Lemma dist_sqr a b : dist a b * dist a b = dist2 a b.
Proof. apply sqrt_sqrt, dist2_nonneg. Qed.
Lemma dist_self a : dist a a = 0.
Proof. unfold dist, dist2. replace (_ + _) with 0 by ring. apply sqrt_0. Qed.
Lemma dist_nonneg a b : 0 <= dist a b.
Proof. apply sqrt_pos. Qed.

Lemma radii_R ra rb a b k : let o := apply_radii ra rb (DOutput a b (dist a b) k) in
  do_distance o = dist (do_a o) (do_b o) /\
  (0 < do_distance o -> do_distance o = dist a b - (ra + rb) /\ B2_EPSILON < dist a b).
Proof.
  unfold apply_radii. cbn [do_distance do_a do_b nadd nlt R_Num].
  destruct (Rlt_bool_spec (ra + rb) (dist a b)) as [h1|h1]; cbn [andb].
  - destruct (Rlt_bool_spec B2_EPSILON (dist a b)) as [h2|h2]; cbn [do_distance do_a do_b].
    + split; [|intros _; split; [reflexivity|exact h2]].
      assert (El : vlen (vsub b a) = dist a b). { unfold vlen, dist, dist2, vsub. cbn. f_equal. ring. }
      unfold vnormalize. rewrite El. cbn [nlt R_Num]. rewrite Rlt_bool_false by lra. cbn [snd].
      set (D := dist a b) in *. assert (PD : 0 < D) by (pose proof eps_pos; lra).
      assert (S : D * D = dist2 a b) by apply dist_sqr.
      unfold dist. cbn [nsub R_Num nadd]. rewrite <- (sqrt_Rsqr (D - (ra + rb))) by lra. f_equal. unfold dist2, Rsqr, vadd, vsub, vscale. cbn.
      match goal with |- _ = ?r => transitivity (((D - (ra + rb)) * (D - (ra + rb))) * (dist2 a b / (D * D))) end.
      * rewrite <- S. field. lra.
      * unfold dist2. field. lra.
    + split; [symmetry; apply dist_self|]. cbn. lra.
  - cbn [do_distance do_a do_b]. split; [symmetry; apply dist_self|]. cbn. lra.
Qed.

Definition nonempty (p : dproxy R) : Prop := dp_vertices p <> [].

Lemma distance_is (pa pb : dproxy R) xa xb radii c o c' : nonempty pa -> nonempty pb -> cache_fits c pa pb ->
  distance_fn c (DInput pa pb xa xb radii) = Ok (o, c') -> do_distance o = dist (do_a o) (do_b o).
Proof.
  intros Na Nb F E. destruct (distance_ok pa xa pb xb c radii Na Nb F) as (o1 & c1 & E1 & _ & _ & s & a & b & _ & _ & _ & _ & Ho).
  rewrite E in E1. injection E1 as <- <-. rewrite Ho. destruct radii.
  - rewrite distance_vec_R. apply radii_R.
  - cbn. apply distance_vec_R.
Qed.
Lemma distance_witness (pa pb : dproxy R) xa xb c o c' : nonempty pa -> nonempty pb -> cache_fits c pa pb ->
  distance_fn c (DInput pa pb xa xb false) = Ok (o, c') -> (do_iterations o < 20)%nat -> hull (cloud pa xa) (do_a o) /\ hull (cloud pb xb) (do_b o).
Proof.
  intros Na Nb F E I. destruct (distance_ok pa xa pb xb c false Na Nb F) as (o1 & c1 & E1 & _ & _ & s & a & b & O & W & Hs & _ & Ho).
  rewrite E in E1. injection E1 as <- <-. rewrite Ho. cbn. exact (ended_witness pa xa pb xb s a b (Hs I) W).
Qed.
Lemma distance_minimal (pa pb : dproxy R) xa xb radii c o c' : nonempty pa -> nonempty pb -> cache_fits c pa pb -> spread (cloud pa xa) (cloud pb xb) ->
  distance_fn c (DInput pa pb xa xb radii) = Ok (o, c') -> (do_iterations o < 20)%nat ->
  let r := if radii then dp_radius pa + dp_radius pb else 0 in
  do_distance o < B2_EPSILON \/ forall qa qb, hull (cloud pa xa) qa -> hull (cloud pb xb) qb -> do_distance o + r <= dist qa qb.
Proof.
  intros Na Nb F Sp E I r. destruct (distance_ok pa xa pb xb c radii Na Nb F) as (o1 & c1 & E1 & _ & _ & s & a & b & O & W & Hs & _ & Ho).
  rewrite E in E1. injection E1 as <- <-.
  destruct (ended_minimal pa xa pb xb s a b (Hs I) W Sp) as [L|M].
  - left. assert (D : dist a b < B2_EPSILON). { unfold dist. rewrite <- (sqrt_Rsqr B2_EPSILON) by (left; exact eps_pos). apply sqrt_lt_1; [apply dist2_nonneg|apply Rle_0_sqr|exact L]. }
    rewrite Ho. rewrite distance_vec_R. cbn zeta. destruct radii; [|cbn; exact D].
    pose proof (proj2 (radii_R (dp_radius pa) (dp_radius pb) a b (do_iterations o))) as R.
    apply Rnot_le_lt. intros h. destruct R; [pose proof eps_pos; lra|lra].
  - destruct (Rlt_dec (do_distance o) B2_EPSILON) as [h|h]; [now left|right]. intros qa qb Qa Qb.
    assert (D : dist a b <= dist qa qb) by (apply sqrt_le_1_alt; now apply M).
    revert h. rewrite Ho. rewrite distance_vec_R. cbn zeta. unfold r. destruct radii; intros h; [|cbn; lra].
    pose proof (proj2 (radii_R (dp_radius pa) (dp_radius pb) a b (do_iterations o))) as R.
    destruct R as [-> _]; [pose proof eps_pos; lra|]. lra.
Qed.
(* three corners mean that the distance is zero *)
Lemma distance_three (pa pb : dproxy R) xa xb c o c' : nonempty pa -> nonempty pb -> cache_fits c pa pb ->
  distance_fn c (DInput pa pb xa xb false) = Ok (o, c') -> (1 <= sc_count c' <= 3)%nat /\ cache_fits c' pa pb /\ (sc_count c' = 3%nat -> do_distance o = 0).
Proof.
  intros Na Nb F E. destruct (distance_ok pa xa pb xb c false Na Nb F) as (o1 & c1 & E1 & _ & F' & s & a & b & O & W & _ & Cc & Ho).
  rewrite E in E1. injection E1 as <- <-. rewrite Cc. refine (conj (proj1 O) (conj F' _)).
  intros C. rewrite Ho. cbn beta iota zeta delta [do_distance]. rewrite distance_vec_R. unfold witness_points in W. rewrite C in W. injection W as <- <-. apply dist_self.
Qed.
