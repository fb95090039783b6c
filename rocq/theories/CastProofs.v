(** The shape cast: it returns for any numbers; in exact real arithmetic it stops before the shapes meet. *)
From Coq Require Import List ZArith Bool Arith Reals Lia Lra.
From Flocq Require Import Core.
From Verif Require Import Base Num NumLaws Math RTac ListFacts ShapeModel DynModel DistModel GeomSpec DistSpec DistProofs GjkProofs GjkReal SolverPos.
Import ListNotations.

Section Total.
  Local Open Scope num_scope.
  Context {T : Type} {NT : Num T}.
  Variables (pa : dproxy T) (xa : xform T) (pb : dproxy T) (xb : xform T) (r : vec2 T) (sigma : T).
  Hypothesis (Na : dp_vertices pa <> []) (Nb : dp_vertices pb <> []).

  Lemma put_ok (s : simplex T) c v : (c <= 2)%nat -> exists s', put s c v = Ok s' /\ sx_count s' = sx_count s.
  Proof. destruct c as [|[|[|c]]]; try lia; intros; eexists; (split; [reflexivity|]); reflexivity. Qed.
  Lemma solve_counts (s : simplex T) : (1 <= sx_count s <= 3)%nat -> exists s', solve_simplex s = Ok s' /\ (1 <= sx_count s' <= 3)%nat.
  Proof.
    intros C. unfold solve_simplex. destruct (sx_count s) as [|[|[|[|c]]]] eqn:E; try lia; eexists; (split; [reflexivity|]).
    - lia.
    - unfold solve2. repeat match goal with |- context [if ?b then _ else _] => destruct b end; cbn; lia.
    - unfold solve3. repeat match goal with |- context [if ?b then _ else _] => destruct b end; cbn; lia.
  Qed.
  Lemma cast_loop_ok todo : forall iter s v n lambda, (sx_count s <= 2)%nat -> ((0 < iter)%nat -> (1 <= sx_count s)%nat) ->
    exists e, cast_loop pa xa pb xb r sigma todo iter s v n lambda = Ok e /\
      match e with CastMiss _ => True | CastLoop s' _ _ _ k => (iter <= k <= iter + todo)%nat /\ (sx_count s' <= 2)%nat /\ ((0 < k)%nat -> (1 <= sx_count s')%nat) end.
  Proof.
    induction todo as [|todo IH]; intros iter s v n lambda C P; cbn [cast_loop].
    - eexists. split; [reflexivity|]. cbn. repeat split; auto; lia.
    - match goal with |- context [negb ?b] => destruct b end; cbn [negb]; [|eexists; split; [reflexivity|]; repeat split; auto; lia].
      destruct (Nat.ltb_spec (sx_count s) 3); [|lia]. cbn [b2_assert bind].
      destruct (support_ok pa (rotv_t (xq xa) (vneg v)) Na) as (ia & -> & Ha). cbn [bind]. unfold get_vertex. destruct (get_in _ _ Ha) as (la & -> & _). cbn [bind].
      destruct (support_ok pb (rotv_t (xq xb) v) Nb) as (ib & -> & Hb). cbn [bind]. destruct (get_in _ _ Hb) as (lb & -> & _). cbn [bind].
      set (u := snd (vnormalize v)). set (vr := b2_dot u r). set (vp := b2_dot u (vsub _ _)).
      destruct ((vp - sigma >? lambda * vr) && (vr <=? #0)); [eexists; split; [reflexivity|exact I]|].
      match goal with |- context [if ?b then Ok (CastMiss _) else _] => destruct b end; [eexists; split; [reflexivity|exact I]|].
      set (clip := vp - sigma >? lambda * vr). set (lambda' := if clip then _ else lambda). set (n' := if clip then vneg u else n). set (s' := if clip then with_count s 0 else s).
      assert (C' : (sx_count s' <= 2)%nat) by (unfold s'; destruct clip; cbn; lia).
      match goal with |- context [put s' (sx_count s') ?v] => destruct (put_ok s' (sx_count s') v C') as (s1 & -> & C1) end. cbn [bind].
      destruct (solve_counts (with_count s1 (S (sx_count s1)))) as (s2 & -> & C2); [cbn; lia|]. cbn [bind].
      destruct (Nat.eqb_spec (sx_count s2) 3); [eexists; split; [reflexivity|exact I]|].
      assert (Q : exists q, closest_point s2 = Ok q) by (unfold closest_point; destruct (sx_count s2) as [|[|[|[|c]]]]; try lia; eauto). destruct Q as (q & ->). cbn [bind].
      destruct (IH (S iter) s2 q n' lambda') as (e & -> & He); [lia|lia|]. exists e. split; [reflexivity|]. destruct e; [exact I|]. destruct He as (h1 & h2 & h3). repeat split; auto; lia.
  Qed.
End Total.

(* the count of iterations only grows *)
Lemma cast_loop_after {T} {NT : Num T} (pa : dproxy T) xa pb xb r sigma todo : forall iter s v n l s' v' n' l' k, cast_loop pa xa pb xb r sigma todo iter s v n l = Ok (CastLoop s' v' n' l' k) -> (iter <= k)%nat.
Proof.
  induction todo as [|todo IH]; intros iter s v n l s' v' n' l' k; cbn [cast_loop]; [intros [= _ _ _ _ <-]; lia|].
  match goal with |- context [negb ?b] => destruct b end; cbn [negb]; [|intros [= _ _ _ _ <-]; lia].
  cbv zeta. repeat (match goal with |- context [bind ?m _] => destruct m as [?| |]; cbn [bind]; try discriminate | |- context [if ?b then Ok (CastMiss _) else _] => destruct b; try discriminate end).
  intros E. apply IH in E. lia.
Qed.

Lemma cast_ok {T} {NT : Num T} (pa : dproxy T) xa pb xb r : dp_vertices pa <> [] -> dp_vertices pb <> [] ->
  exists o, shape_cast pa xa pb xb r = Ok o /\ match o with Some c => (1 <= ca_iterations c <= 20)%nat | None => True end.
Proof.
  intros Na Nb. unfold shape_cast.
  destruct (support_ok pa (rotv_t (xq xa) (vneg r)) Na) as (ia & -> & Ha). cbn [bind]. unfold get_vertex. destruct (get_in _ _ Ha) as (la & -> & _). cbn [bind].
  destruct (support_ok pb (rotv_t (xq xb) r) Nb) as (ib & -> & Hb). cbn [bind]. destruct (get_in _ _ Hb) as (lb & -> & _). cbn [bind].
  match goal with |- context [cast_loop pa xa pb xb r ?sg 20 0 sx_zero ?v ?n ?l] => destruct (cast_loop_ok pa xa pb xb r sg Na Nb 20 0 sx_zero v n l) as (e & -> & He) end; [cbn; lia|lia|]. cbn [bind].
  destruct e as [k|s v n l k]; [eexists; split; [reflexivity|exact I]|].
  destruct (Nat.eqb_spec k 0); [eexists; split; [reflexivity|exact I]|]. destruct He as (h1 & h2 & h3).
  destruct (witness_ok s ltac:(lia)) as (a & b & ->). cbn [bind]. eexists. split; [reflexivity|]. cbn. lia.
Qed.

(** ** exact real arithmetic *)
Lemma hull_in (ps : list (vec2 R)) a : In a ps -> hull ps a.
Proof.
  intros Ia. apply hull_incl with (ps := [a]); [intros p [<-|[]]; exact Ia|].
  exists [1%R]. refine (conj _ (conj (conj _ _) _)); cbn; [reflexivity|constructor; [lra|constructor]|lra|apply vec2_ext; cbn; ring].
Qed.

Section Real.
  Local Open Scope R_scope.
  Variables (pa : dproxy R) (xa : xform R) (pb : dproxy R) (xb : xform R) (r : vec2 R) (sigma : R).
  Hypothesis (Hsig : 0 < sigma).

  Definition clear_at (m : R) : Prop := forall qa qb, hull (cloud pa xa) qa -> hull (cloud pb xb) qb -> sigma <= dist qa (moved r qb m).
  Definition clear_until (l : R) : Prop := forall m, m <= l -> clear_at m.
  (* a vertex of the cast simplex: a point of A, and a point of B moved r by l *)
  Definition cast_vertex (l : R) (u : svertex R) : Prop := exists a b, In a (cloud pa xa) /\ In b (cloud pb xb) /\ sv_wb u = a /\ sv_wa u = moved r b l /\ sv_w u = V2 (vx a - vx (moved r b l)) (vy a - vy (moved r b l)).
  Definition reached (v : vec2 R) (l : R) : Prop := exists qa qb, hull (cloud pa xa) qa /\ hull (cloud pb xb) qb /\ vx v = vx qa - vx (moved r qb l) /\ vy v = vy qa - vy (moved r qb l).

  Lemma mix_sub ws l (us : list (svertex R)) : length ws = length us -> total ws = 1 -> Forall (fun w => 0 <= w) ws -> Forall (cast_vertex l) us -> reached (mix ws (map sv_w us)) l.
  Proof.
    intros L T W F.
    assert (G : forall ws us, length ws = length us -> Forall (cast_vertex l) us -> exists la lb, length ws = length la /\ length ws = length lb /\
      (forall p, In p la -> In p (cloud pa xa)) /\ (forall p, In p lb -> In p (cloud pb xb)) /\
      vx (mix ws (map sv_w us)) = vx (mix ws la) - vx (mix ws lb) - total ws * (l * vx r) /\ vy (mix ws (map sv_w us)) = vy (mix ws la) - vy (mix ws lb) - total ws * (l * vy r)).
    { clear. induction ws as [|w ws IH]; intros [|u us] L F; cbn in L; try discriminate.
      - exists [], []. cbn. repeat split; try contradiction; ring.
      - injection L as L. inversion F as [|? ? (a & b & Ia & Ib & _ & _ & E) F']; subst. destruct (IH us L F') as (la & lb & L1 & L2 & A & B & X & Y).
        exists (a :: la), (b :: lb). cbn [length map mix total vx vy]. rewrite X, Y, E. cbn [vx vy moved].
        refine (conj _ (conj _ (conj _ (conj _ (conj _ _))))); try lia; try ring.
        + intros p [<-|I]; auto. + intros p [<-|I]; auto. }
    destruct (G ws us L F) as (la & lb & L1 & L2 & A & B & X & Y). rewrite T in X, Y.
    exists (mix ws la), (mix ws lb). refine (conj _ (conj _ (conj _ _))).
    - apply hull_incl with (ps := la); [exact A|]. exists ws. repeat split; auto.
    - apply hull_incl with (ps := lb); [exact B|]. exists ws. repeat split; auto.
    - rewrite X. cbn. ring.
    - rewrite Y. cbn. ring.
  Qed.

  (* a plane that keeps the sets apart *)
  Lemma plane_gap u vp vr m : vx u * vx u + vy u * vy u = 1 -> vr = vx u * vx r + vy u * vy r -> sigma <= vp - m * vr ->
    (forall a b, In a (cloud pa xa) -> In b (cloud pb xb) -> vp <= vx u * (vx a - vx b) + vy u * (vy a - vy b)) -> clear_at m.
  Proof.
    intros U Vr P M qa qb Qa Qb.
    assert (S : vp <= vx u * (vx qa - vx qb) + vy u * (vy qa - vy qb)).
    { assert (0 <= vx u * vx qa + vy u * vy qa + (- (vx u * vx qb + vy u * vy qb) - vp)); [|lra].
      apply hull_affine with (ps := cloud pa xa); [|exact Qa]. intros a Ia.
      assert (0 <= (- vx u) * vx qb + (- vy u) * vy qb + (vx u * vx a + vy u * vy a - vp)); [|lra].
      apply hull_affine with (ps := cloud pb xb); [|exact Qb]. intros b Ib. specialize (M a b Ia Ib). lra. }
    set (dx := vx qa - vx (moved r qb m)). set (dy := vy qa - vy (moved r qb m)).
    assert (D : sigma <= vx u * dx + vy u * dy). { unfold dx, dy. cbn. rewrite Vr in P. lra. }
    unfold dist, dist2. fold dx dy. rewrite <- (sqrt_Rsqr sigma) by lra. apply sqrt_le_1_alt. unfold Rsqr.
    (* Cauchy-Schwarz *)
    assert (CS : (vx u * dx + vy u * dy) * (vx u * dx + vy u * dy) <= dx * dx + dy * dy).
    { pose proof (Rle_0_sqr (vx u * dy - vy u * dx)) as Q. unfold Rsqr in Q.
      replace (dx * dx + dy * dy) with ((vx u * vx u + vy u * vy u) * (dx * dx + dy * dy)) by (rewrite U; ring). lra. }
    apply Rle_trans with ((vx u * dx + vy u * dy) * (vx u * dx + vy u * dy)); [|exact CS]. apply Rmult_le_compat; lra.
  Qed.
  Lemma plane_clear u vp vr l : vx u * vx u + vy u * vy u = 1 -> vr = vx u * vx r + vy u * vy r -> 0 < vr -> l = (vp - sigma) / vr ->
    (forall a b, In a (cloud pa xa) -> In b (cloud pb xb) -> vp <= vx u * (vx a - vx b) + vy u * (vy a - vy b)) -> clear_until l.
  Proof.
    intros U Vr P L M m Hm. apply (plane_gap u vp vr m U Vr); [|exact M].
    assert (Lv : l * vr = vp - sigma) by (rewrite L; field; lra).
    assert (Mv : m * vr <= l * vr) by (apply Rmult_le_compat_r; lra). lra.
  Qed.
  (* what is known when the cast gives up *)
  Definition missed : Prop := (forall m, 0 <= m <= 1 -> clear_at m) \/ reached origin 0.

  Definition cast_inv (iter : nat) (s : simplex R) (v : vec2 R) (l : R) : Prop :=
    0 <= l <= 1 /\ (l = 0 \/ clear_until l) /\ (sx_count s <= 2)%nat /\ Forall (cast_vertex l) (used s) /\ ((0 < iter)%nat -> reached v l).
  Lemma cast_loop_inv todo : forall iter s v n l e, cast_inv iter s v l -> cast_loop pa xa pb xb r sigma todo iter s v n l = Ok e ->
    match e with CastMiss _ => missed | CastLoop s' v' _ l' k => cast_inv k s' v' l' /\ ((k < iter + todo)%nat -> vlen v' - sigma <= 1 / 2 * B2_LINEAR_SLOP) end.
  Proof.
    induction todo as [|todo IH]; intros iter s v n l e H; cbn [cast_loop].
    { intros [= <-]. split; [exact H|lia]. }
    cbn [nlt nsub nmul R_Num]. unfold nlit at 1. cbn [ndiv nofZ R_Num].
    destruct (Rlt_bool_spec (1 / 2 * B2_LINEAR_SLOP) (vlen v - sigma)) as [g|g]; cbn [negb]; [|intros [= <-]; split; [exact H|intros _; exact g]].
    destruct H as (Hl & Cl & C & F & _).
    destruct (b2_assert (Nat.ltb (sx_count s) 3)) as [[]| |]; cbn [bind]; try discriminate.
    destruct (get_support pa _) as [ia| |] eqn:Ga; cbn [bind]; try discriminate. destruct (support_max pa _ ia Ga) as (la & Ea & Ma). unfold get_vertex at 1, get at 1. rewrite Ea. cbn [bind].
    destruct (get_support pb _) as [ib| |] eqn:Gb; cbn [bind]; try discriminate. destruct (support_max pb _ ib Gb) as (lb & Eb & Mb). unfold get_vertex at 1, get at 1. rewrite Eb. cbn [bind].
    assert (Ha : In (place xa la) (cloud pa xa)) by (apply in_map; eapply nth_error_In; eauto).
    assert (Hb : In (place xb lb) (cloud pb xb)) by (apply in_map; eapply nth_error_In; eauto).
    rewrite (place_R xa la), (place_R xb lb).
    (* the direction is a unit vector *)
    assert (Big : B2_EPSILON < vlen v).
    { pose proof slop_pos. assert (B2_EPSILON < 1 / 2 * (B2_LINEAR_SLOP : R)); [|lra]. unfold B2_EPSILON, B2_LINEAR_SLOP, nlit. cbn. lra. }
    set (u := snd (vnormalize v)).
    assert (U : u = V2 (vx v / vlen v) (vy v / vlen v)).
    { unfold u, vnormalize. cbn [nlt R_Num]. rewrite Rlt_bool_false by lra. cbn [snd]. rops. f_equal; field; pose proof eps_pos; lra. }
    assert (Lv : vlen v * vlen v = vx v * vx v + vy v * vy v).
    { unfold vlen. cbn. apply sqrt_sqrt. pose proof (Rle_0_sqr (vx v)). pose proof (Rle_0_sqr (vy v)). unfold Rsqr in *. lra. }
    assert (PL : 0 < vlen v) by (pose proof eps_pos; lra).
    assert (Un : vx u * vx u + vy u * vy u = 1).
    { rewrite U. cbn [vx vy]. replace (vx v / vlen v * (vx v / vlen v) + vy v / vlen v * (vy v / vlen v)) with ((vx v * vx v + vy v * vy v) / (vlen v * vlen v)) by (field; lra). rewrite Lv. apply Rinv_r. rewrite <- Lv. nra. }
    set (vp := b2_dot u (vsub (place xa la) (place xb lb))).
    assert (Pl : forall a b, In a (cloud pa xa) -> In b (cloud pb xb) -> vp <= vx u * (vx a - vx b) + vy u * (vy a - vy b)).
    { intros a b Ia Ib. apply in_map_iff in Ia. destruct Ia as (a' & <- & Ia). apply in_map_iff in Ib. destruct Ib as (b' & <- & Ib).
      specialize (Ma a' Ia). specialize (Mb b' Ib). rewrite !dot_rot in Ma, Mb.
      assert (Ka : vx v * vx (place xa la) + vy v * vy (place xa la) <= vx v * vx (place xa a') + vy v * vy (place xa a')).
      { unfold place. revert Ma. unfold b2_dot, vneg, rotv. cbn. intros Ma. lra. }
      assert (Kb : vx v * vx (place xb b') + vy v * vy (place xb b') <= vx v * vx (place xb lb) + vy v * vy (place xb lb)).
      { unfold place. revert Mb. unfold b2_dot, vneg, rotv. cbn. intros Mb. lra. }
      unfold vp, b2_dot, vsub. rewrite U. cbn [vx vy nadd nsub nmul R_Num]. unfold Rdiv.
      set (A := place xa la) in *. set (B := place xb lb) in *. set (A' := place xa a') in *. set (B' := place xb b') in *.
      replace (vx v * / vlen v * (vx A - vx B) + vy v * / vlen v * (vy A - vy B)) with ((vx v * (vx A - vx B) + vy v * (vy A - vy B)) * / vlen v) by ring.
      replace (vx v * / vlen v * (vx A' - vx B') + vy v * / vlen v * (vy A' - vy B')) with ((vx v * (vx A' - vx B') + vy v * (vy A' - vy B')) * / vlen v) by ring.
      apply Rmult_le_compat_r; [left; now apply Rinv_0_lt_compat|lra]. }
    set (vr := b2_dot u r). assert (Vr : vr = vx u * vx r + vy u * vy r) by reflexivity. clearbody vr vp.
    (* the next fraction *)
    cbn [nle nofZ R_Num].
    destruct (Rlt_bool_spec (l * vr) (vp - sigma)) as [clip|clip]; cbn [andb].
    - destruct (Rle_bool_spec vr 0) as [Pr|Pr].
      { intros [= <-]. left. intros m Hm. destruct (Rle_lt_dec m l) as [Le|Lt].
        - destruct Cl as [Z|Cl]; [|exact (Cl m Le)]. assert (m = l) by lra. subst m. apply (plane_gap u vp vr l Un Vr); [lra|exact Pl].
        - apply (plane_gap u vp vr m Un Vr); [|exact Pl]. assert (0 <= (m - l) * - vr) by (apply Rmult_le_pos; lra). lra. } cbn [ndiv R_Num].
      pose proof (plane_clear u vp vr _ Un Vr Pr eq_refl Pl) as New.
      destruct (Rlt_bool_spec 1 ((vp - sigma) / vr)) as [L1|L1]; [intros [= <-]; left; intros m Hm; apply New; lra|].
      assert (L0 : 0 <= (vp - sigma) / vr). { apply Rlt_le, Rdiv_lt_0_compat; [|exact Pr]. assert (0 <= l * vr) by (apply Rmult_le_pos; lra). lra. }
      set (l' := (vp - sigma) / vr) in *. clearbody l'.
      set (w := SV _ _ _ _ _ _). cbn [with_count sx_count put bind].
      assert (Cw : cast_vertex l' w). { exists (place xa la), (place xb lb). unfold w, moved, vadd, vscale, vsub. cbn. auto. }
      clearbody w. cbn [solve_simplex sx_count bind Nat.eqb closest_point sx_0].
      replace (iter + S todo)%nat with (S iter + todo)%nat by lia. apply IH. refine (conj (conj L0 L1) (conj (or_intror New) (conj _ (conj _ _)))); [cbn; lia|cbn; repeat constructor; exact Cw|].
      intros _. destruct Cw as (a & b & Ia & Ib & _ & _ & E). exists a, b. cbn [sx_0 with_count]. rewrite ?E. cbn [vx vy]. refine (conj _ (conj _ (conj eq_refl eq_refl))).
      + exact (hull_in _ _ Ia).
      + exact (hull_in _ _ Ib).
    - set (w := SV _ _ _ _ _ _).
      assert (Cw : cast_vertex l w). { exists (place xa la), (place xb lb). unfold w, moved, vadd, vscale, vsub. cbn. auto. }
      clearbody w. destruct (used_put s (sx_count s) w eq_refl ltac:(lia)) as (s1 & -> & C1 & _ & U1 & C2). cbn [bind]. rewrite C1.
      destruct (solve_solved (with_count s1 (S (sx_count s))) ltac:(lia)) as (s2 & -> & Sv). cbn [bind].
      assert (F2 : Forall (cast_vertex l) (used s2)).
      { apply Forall_forall. intros x Ix. destruct (so_from _ _ Sv x Ix) as (y & Iy & (E1 & E2 & E3 & _)). rewrite U1 in Iy. apply in_app_iff in Iy.
        assert (Y : cast_vertex l y). { destruct Iy as [Iy|[<-|[]]]; [|exact Cw]. rewrite Forall_forall in F. now apply F. }
        destruct Y as (a & b & Y). exists a, b. now rewrite E1, E2, E3. }
      assert (Re : reached (mix (bary s2) (corners s2)) l).
      { apply mix_sub; [exact (bary_length _ _ Sv)|exact (so_total _ _ Sv)| |exact F2]. eapply Forall_impl; [|exact (so_pos _ _ Sv)]. intros x Hx. cbn in Hx. lra. }
      destruct (Nat.eqb_spec (sx_count s2) 3) as [E3|N3].
      { intros [= <-]. right. rewrite (so_inside _ _ Sv E3) in Re. destruct Cl as [Z|Cl]; [rewrite Z in Re; exact Re|exfalso].
        destruct Re as (qa & qb & Qa & Qb & X & Y). pose proof (Cl l (Rle_refl l) qa qb Qa Qb) as D. cbn [origin vx vy] in X, Y. revert D. unfold dist, dist2. rewrite <- X, <- Y. replace (0 * 0 + 0 * 0) with 0 by ring. rewrite sqrt_0. lra. }
      rewrite (so_point _ _ Sv). cbn [bind].
      replace (iter + S todo)%nat with (S iter + todo)%nat by lia. apply IH. refine (conj Hl (conj Cl (conj _ (conj F2 (fun _ => Re))))). destruct (so_count _ _ Sv); lia.
  Qed.
End Real.

Local Open Scope R_scope.
Lemma gap_pos pa pb : 0 < cast_gap pa pb.
Proof. unfold cast_gap. assert (0 < (B2_POLYGON_RADIUS : R)) by (unfold B2_POLYGON_RADIUS; pose proof slop_pos; rops; lra). pose proof (Rmax_l B2_POLYGON_RADIUS (Rmax (dp_radius pa) B2_POLYGON_RADIUS + Rmax (dp_radius pb) B2_POLYGON_RADIUS - B2_POLYGON_RADIUS)). lra. Qed.

Lemma cast_inv_R (pa : dproxy R) xa pb xb r c : shape_cast pa xa pb xb r = Ok (Some c) ->
  exists s v, cast_inv pa xa pb xb r (cast_gap pa pb) (ca_iterations c) s v (ca_lambda c) /\ (0 < ca_iterations c)%nat /\
    ((ca_iterations c < 20)%nat -> vlen v - cast_gap pa pb <= 1 / 2 * B2_LINEAR_SLOP).
Proof.
  unfold shape_cast. rewrite !b2_max_R. cbn [nadd nsub R_Num]. fold (cast_gap pa pb).
  destruct (get_support pa _) as [ia| |]; cbn [bind]; try discriminate. destruct (get_vertex pa ia) as [la| |]; cbn [bind]; try discriminate.
  destruct (get_support pb _) as [ib| |]; cbn [bind]; try discriminate. destruct (get_vertex pb ib) as [lb| |]; cbn [bind]; try discriminate.
  set (v0 := vsub _ _). destruct (cast_loop _ _ _ _ _ _ _ _ _ _ _ _) as [e| |] eqn:E; cbn [bind]; try discriminate.
  apply (cast_loop_inv pa xa pb xb r (cast_gap pa pb) (gap_pos pa pb)) in E.
  2:{ refine (conj _ (conj _ (conj _ (conj _ _)))); cbn; [lra|now left|lia|constructor|lia]. }
  destruct e as [k|s v n l k]; [discriminate|]. destruct (Nat.eqb_spec k 0) as [|K]; [discriminate|].
  destruct (witness_points s) as [[a b]| |]; cbn [bind]; try discriminate. intros H. injection H as <-. cbn [ca_iterations ca_lambda].
  destruct E as [I V]. exists s, v. refine (conj I (conj _ _)); [lia|]. intros h. apply V. lia.
Qed.

Lemma cast_range (pa pb : dproxy R) xa xb r c : shape_cast pa xa pb xb r = Ok (Some c) -> 0 <= ca_lambda c <= 1.
Proof. intros H. destruct (cast_inv_R _ _ _ _ _ _ H) as (s & v & (A & _) & _). exact A. Qed.
Lemma cast_clear (pa pb : dproxy R) xa xb r c : shape_cast pa xa pb xb r = Ok (Some c) -> 0 < ca_lambda c ->
  forall m qa qb, m <= ca_lambda c -> hull (cloud pa xa) qa -> hull (cloud pb xb) qb -> cast_gap pa pb <= dist qa (moved r qb m).
Proof. intros H P. destruct (cast_inv_R _ _ _ _ _ _ H) as (s & v & (_ & [Z|A] & _) & _); [lra|]. intros m qa qb Hm. exact (A m Hm qa qb). Qed.
Lemma cast_meets (pa pb : dproxy R) xa xb r c : shape_cast pa xa pb xb r = Ok (Some c) -> (ca_iterations c < 20)%nat ->
  exists qa qb, hull (cloud pa xa) qa /\ hull (cloud pb xb) qb /\ dist qa (moved r qb (ca_lambda c)) <= cast_gap pa pb + B2_LINEAR_SLOP / 2.
Proof.
  intros H I. destruct (cast_inv_R _ _ _ _ _ _ H) as (s & v & (_ & _ & _ & _ & A) & P & V). destruct (A P) as (qa & qb & Qa & Qb & X & Y).
  exists qa, qb. refine (conj Qa (conj Qb _)). specialize (V I). unfold dist, dist2. rewrite <- X, <- Y.
  revert V. unfold vlen. rops. intros V. lra.
Qed.
Lemma cast_loop_zero (pa pb : dproxy R) xa xb r sigma n s v u l s' v' u' l' : cast_loop pa xa pb xb r sigma (S n) 0 s v u l = Ok (CastLoop s' v' u' l' 0) ->
  CastLoop s' v' u' l' 0 = CastLoop s v u l 0 /\ vlen v - sigma <= 1 / 2 * B2_LINEAR_SLOP.
Proof.
  cbn [cast_loop]. cbn [nlt nsub nmul R_Num]. unfold nlit at 1. cbn [ndiv nofZ R_Num].
  destruct (Rlt_bool_spec (1 / 2 * B2_LINEAR_SLOP) (vlen v - sigma)) as [g|g]; cbn [negb]; [|intros [= <- <- <- <-]; auto].
  cbv zeta. intros E. exfalso. revert E. repeat (match goal with |- context [bind ?m _] => destruct m as [?| |]; cbn [bind]; try discriminate | |- context [if ?b then Ok (CastMiss _) else _] => destruct b; try discriminate end).
  intros E. apply cast_loop_after in E. lia.
Qed.
Lemma cast_misses (pa pb : dproxy R) xa xb r : shape_cast pa xa pb xb r = Ok None ->
  (forall m qa qb, 0 <= m <= 1 -> hull (cloud pa xa) qa -> hull (cloud pb xb) qb -> cast_gap pa pb <= dist qa (moved r qb m)) \/
  exists qa qb, hull (cloud pa xa) qa /\ hull (cloud pb xb) qb /\ dist qa qb <= cast_gap pa pb + B2_LINEAR_SLOP / 2.
Proof.
  unfold shape_cast. rewrite !b2_max_R. cbn [nadd nsub R_Num]. fold (cast_gap pa pb).
  destruct (get_support pa _) as [ia| |]; cbn [bind]; try discriminate. unfold get_vertex, get. destruct (nth_error (dp_vertices pa) ia) as [la|] eqn:Ea; cbn [bind]; try discriminate.
  destruct (get_support pb _) as [ib| |]; cbn [bind]; try discriminate. destruct (nth_error (dp_vertices pb) ib) as [lb|] eqn:Eb; cbn [bind]; try discriminate.
  assert (Ha : In (place xa la) (cloud pa xa)) by (apply in_map; eapply nth_error_In; eauto).
  assert (Hb : In (place xb lb) (cloud pb xb)) by (apply in_map; eapply nth_error_In; eauto).
  rewrite (place_R xa la), (place_R xb lb). set (v0 := vsub _ _).
  pose proof (gap_pos pa pb) as G. pose proof slop_pos as SP.
  destruct (cast_loop _ _ _ _ _ _ _ _ _ _ _ _) as [e| |] eqn:E; cbn [bind]; try discriminate.
  assert (Z : e = CastLoop sx_zero v0 vzero (nofZ 0 : R) 0 /\ vlen v0 - cast_gap pa pb <= 1 / 2 * B2_LINEAR_SLOP \/ match e with CastMiss _ => missed pa xa pb xb r (cast_gap pa pb) | CastLoop _ _ _ _ k => k <> 0%nat end).
  { destruct e as [k|s v n l k].
    - right. apply (cast_loop_inv pa xa pb xb r (cast_gap pa pb) G) in E; [exact E|]. refine (conj _ (conj _ (conj _ (conj _ _)))); cbn; [lra|now left|lia|constructor|lia].
    - destruct (Nat.eq_dec k 0) as [->|N]; [left|right; exact N]. destruct (cast_loop_zero _ _ _ _ _ _ _ _ _ _ _ _ _ _ _ E) as [-> V]. auto. }
  destruct Z as [[-> V]|Z].
  - intros _. right. exists (place xa la), (place xb lb). refine (conj (hull_in _ _ Ha) (conj (hull_in _ _ Hb) _)).
    revert V. unfold v0, vlen, vsub. unfold dist, dist2. rops. intros V. lra.
  - destruct e as [k|s v n l k].
    + intros _. destruct Z as [Z|(qa & qb & Qa & Qb & X & Y)]; [left; intros m qa qb Hm; exact (Z m Hm qa qb)|].
      right. exists qa, qb. refine (conj Qa (conj Qb _)). cbn [origin moved vx vy] in X, Y. rewrite !Rmult_0_l, !Rplus_0_r in X, Y. unfold dist, dist2. rewrite <- X, <- Y. replace (0 * 0 + 0 * 0) with 0 by ring. rewrite sqrt_0. lra.
    + destruct (Nat.eqb_spec k 0); [contradiction|]. destruct (witness_points s) as [[a b]| |]; discriminate.
Qed.
