(** Contacts with a sensor touch exactly when their shapes are near. *)
From Coq Require Import List ZArith Bool Arith Lia Reals Lra.
From Flocq Require Import Core.
From Verif Require Import Base ListFacts Num NumLaws RTac Math ShapeModel DynModel DistModel GeomSpec DistSpec DistProofs GjkProofs GjkReal DistLast WorldModel NarrowModel SenseModel SenseSpec WorldClaims WorldCalls WorldHist WorldReach WorldInv FrontSpec FrontProofs NarrowSpec FrontReal.
Import ListNotations.
Local Open Scope R_scope.

Lemma zero_fits {T} {NT : Num T} (pa pb : dproxy T) : cache_fits cache_zero pa pb.
Proof. unfold cache_fits, cache_zero. cbn. repeat split; lia. Qed.
Lemma sensed_proxy s k l r : sensed s k l r -> proxy_of s k = Ok (DProxy l r) /\ l <> [].
Proof.
  destruct 1 as [c|e|p Hc Hv Hn|c k v v' Ev Ev']; cbn [proxy_of]; try (split; [reflexivity|discriminate]).
  - destruct (Nat.leb_spec (po_count p) (length (po_vertices p))); [|lia]. split; [reflexivity|]. destruct (po_vertices p), (po_count p); cbn in *; try lia; discriminate.
  - assert (k < length (ch_vertices c))%nat by (apply nth_error_Some; congruence). assert (S k < length (ch_vertices c))%nat by (apply nth_error_Some; congruence).
    destruct (Nat.ltb_spec k (length (ch_vertices c))); [|lia]. cbn [b2_assert bind]. unfold get. rewrite Ev. cbn [bind]. destruct (Nat.ltb_spec (k + 1) (length (ch_vertices c))); [|lia]. rewrite Nat.add_1_r, Ev'. split; [reflexivity|discriminate].
Qed.
Lemma overlap_near pa pb xa xb o c : nonempty pa -> nonempty pb -> 0 <= dp_radius pa + dp_radius pb -> spread (cloud pa xa) (cloud pb xb) -> settles pa pb xa xb ->
  distance_fn cache_zero (DInput pa pb xa xb true) = Ok (o, c) -> do_distance o < 10 * B2_EPSILON <-> nearer (cloud pa xa) (cloud pb xb) (dp_radius pa + dp_radius pb + 10 * B2_EPSILON).
Proof.
  intros Na Nb Hr Sp St E. pose proof (St _ _ E) as I. pose proof eps_pos as Ep. split.
  - intros L. destruct (distance_ok pa xa pb xb cache_zero true Na Nb (zero_fits _ _)) as (o1 & c1 & E1 & _ & _ & s & a & b & O & W & Hs & _ & Ho). rewrite E in E1. injection E1 as <- <-.
    destruct (ended_witness pa xa pb xb s a b (Hs I) W) as (Ha & Hb). exists a, b. split; [exact Ha|]. split; [exact Hb|].
    revert L. rewrite Ho, distance_vec_R. unfold apply_radii. cbn [do_distance do_a do_b nadd nlt R_Num].
    destruct (Rlt_bool_spec (dp_radius pa + dp_radius pb) (dist a b)) as [h1|h1]; cbn [andb do_distance]; [|lra]. destruct (Rlt_bool_spec B2_EPSILON (dist a b)) as [h2|h2]; cbn [do_distance nsub R_Num]; lra.
  - intros (qa & qb & Qa & Qb & D). destruct (distance_minimal pa pb xa xb true cache_zero o c Na Nb (zero_fits _ _) Sp E I) as [L|M]; [lra|]. specialize (M qa qb Qa Qb). cbn in M. lra.
Qed.
Theorem shapes_near sa ia la ra xa sb ib lb rb xb : sensed sa ia la ra -> sensed sb ib lb rb -> 0 <= ra + rb -> spread (map (place xa) la) (map (place xb) lb) -> settles (DProxy la ra) (DProxy lb rb) xa xb ->
  exists b, shapes_overlap sa ia sb ib xa xb = Ok b /\ (b = true <-> nearer (map (place xa) la) (map (place xb) lb) (ra + rb + 10 * B2_EPSILON)).
Proof.
  intros Sa Sb Hr Sp St. apply sensed_proxy in Sa as (Ea & Na). apply sensed_proxy in Sb as (Eb & Nb). unfold shapes_overlap. rewrite Ea, Eb. cbn [bind].
  destruct (distance_returns (DProxy la ra) (DProxy lb rb) xa xb cache_zero true Na Nb (zero_fits _ _)) as (o & c & E & _). rewrite E. cbn [bind]. eexists. split; [reflexivity|].
  rewrite <- (overlap_near (DProxy la ra) (DProxy lb rb) xa xb o c Na Nb Hr Sp St E). cbn [nlt R_Num nmul nofZ]. rewrite Rlt_bool_true'. reflexivity.
Qed.
(* with at most two pairs of vertices every search ends after two iterations *)
Lemma solve_count (s s' : simplex R) : solve_simplex s = Ok s' -> (sx_count s <= 2)%nat -> (1 <= sx_count s' <= 2)%nat.
Proof.
  unfold solve_simplex. destruct (sx_count s) as [|[|[|]]] eqn:E; try discriminate; try lia; intros [= <-] _; [lia|]. unfold solve2. destruct (nle _ _); [cbn; lia|]. destruct (nle _ _); cbn; lia.
Qed.
Theorem few_settle pa pb xa xb : nonempty pa -> nonempty pb -> (length (dp_vertices pa) * length (dp_vertices pb) <= 2)%nat -> settles pa pb xa xb.
Proof.
  intros Na Nb L o c E. unfold distance_fn in E. cbn [dn_a dn_b dn_xa dn_xb dn_radii] in E. apply bind_ok in E as (s0 & Es & E). apply bind_ok in E as ((s & k) & G & E). apply bind_ok in E as ((a & b) & _ & E). apply bind_ok in E as (c' & _ & E).
  assert (K : (k <= 2)%nat).
  2: { injection E as <- _. unfold apply_radii. destruct (_ && _); cbn; lia. }
  clear E. unfold read_cache in Es. cbn [cache_zero sc_count Nat.leb b2_assert bind for_range Nat.sub for_from with_count sx_count Nat.ltb Nat.eqb] in Es. apply bind_ok in Es as (v & Ev & Es). injection Es as <-.
  assert (Iv : sv_ia v = 0%nat /\ sv_ib v = 0%nat). { unfold vertex_at in Ev. apply bind_ok in Ev as (? & _ & Ev). apply bind_ok in Ev as (? & _ & Ev). injection Ev as <-. auto. }
  unfold nonempty in *. assert (A1 : (1 <= length (dp_vertices pa))%nat) by (destruct (dp_vertices pa); [contradiction|cbn; lia]). assert (B1 : (1 <= length (dp_vertices pb))%nat) by (destruct (dp_vertices pb); [contradiction|cbn; lia]).
  cbn [gjk solve_simplex sx_count bind Nat.eqb search_direction] in G. destruct (nlt _ _); [injection G as _ <-; lia|].
  match type of G with context [get_support pa ?d] => destruct (support_ok pa d Na) as (ia & Ea & Ha) end. match type of G with context [get_support pb ?d] => destruct (support_ok pb d Nb) as (ib & Eb & Hb) end. rewrite Ea, Eb in G. cbn [bind get nth_error] in G.
  apply bind_ok in G as (v1 & Ev1 & G). cbn [DistModel.put bind] in G.
  assert (Iv1 : sv_ia v1 = ia /\ sv_ib v1 = ib). { unfold vertex_at in Ev1. apply bind_ok in Ev1 as (? & _ & Ev1). apply bind_ok in Ev1 as (? & _ & Ev1). injection Ev1 as <-. auto. }
  destruct (existsb _ _) eqn:Ex in G; [injection G as _ <-; lia|]. cbn [with_count sx_count sx_0 sx_1 sx_2] in G.
  match type of G with context [solve_simplex ?s] => destruct (solve_simplex s) as [s1| |] eqn:E1 end; cbn [bind] in G; try discriminate. apply solve_count in E1; [|cbn; lia]. destruct (Nat.eqb_spec (sx_count s1) 3) as [|_]; [lia|].
  apply bind_ok in G as (d & _ & G). destruct (nlt _ _) in G; [injection G as _ <-; lia|].
  destruct (support_ok pa (rotv_t (xq xa) (vneg d)) Na) as (ja & Fa & Ka). destruct (support_ok pb (rotv_t (xq xb) d) Nb) as (jb & Fb & Kb). rewrite Fa, Fb in G. cbn [bind] in G. apply bind_ok in G as (old & _ & G). apply bind_ok in G as (v2 & _ & G). apply bind_ok in G as (s2 & _ & G).
  destruct (existsb _ _) eqn:Ex2 in G; [injection G as _ <-; lia|]. exfalso.
  destruct Iv as (I1 & I2), Iv1 as (I3 & I4). cbn [indices sx_count sx_0 sx_1 sx_2 firstn map existsb with_count] in Ex, Ex2. unfold DistModel.same_pair in Ex, Ex2. cbn [fst snd] in Ex, Ex2. rewrite I1, I2 in *. rewrite I3, I4 in Ex2.
  rewrite !orb_false_r in Ex, Ex2. rewrite ?orb_false_iff, ?andb_false_iff, ?Nat.eqb_neq in Ex. rewrite orb_false_iff, !andb_false_iff, !Nat.eqb_neq in Ex2.
  generalize dependent (length (dp_vertices pb)). generalize dependent (length (dp_vertices pa)). clear -Ex Ex2. intros p P1 P2 P3 q P4 P5 P6 P7. assert (p <= 2)%nat by nia. assert (q <= 2)%nat by nia. assert (p = 1 \/ q = 1)%nat by nia. lia.
Qed.

Section World.
  Variable E : env R.
  Hypothesis EA : answers E.
  Hypothesis ES : senses E.
  Implicit Types w v : WorldModel.world R.

  Lemma front_overlap w w2 v c x f k i sa xa g l j sb xb : wreach E w -> step_front E w = Ok w2 -> same_sight w2 v c x -> pair_key x = ((f, k), (g, l)) -> sits w f i sa xa -> sits w g j sb xb ->
    overlap v c = shapes_overlap sa k sb l xa xb.
  Proof.
    intros H R (Vf & Vx & Vc) K (y & a & Hy & Ya & Ha & Sy & Xa & _) (z & b & Hz & Zb & Hb & Sz & Xb & _). destruct (front_same E _ w w2 (env_any E EA) (reach_W E EA w H) R) as (F & _ & B).
    assert (Bx : forall n d, w_bodies w n = Some d -> exists d', w_bodies v n = Some d' /\ b_xf d' = b_xf d).
    { intros n d Hd. specialize (Vx n). specialize (B n). rewrite Hd in B. destruct (w_bodies w2 n) as [d2|]; [|discriminate]. destruct (w_bodies v n) as [d'|]; [|discriminate]. cbn in Vx, B. unfold posture in B. exists d'. split; [reflexivity|]. congruence. }
    destruct (Bx i a Ha) as (a' & Ha' & Xa'), (Bx j b Hb) as (b' & Hb' & Xb'). unfold overlap, contact_ends, get_contact, get_fixture, get_body. destruct (w_contacts v c) as [t|]; [|discriminate]. cbn in Vc. unfold pair_key in Vc, K. injection Vc as V1 V2 V3 V4. injection K as K1 K2 K3 K4.
    cbn [unwrap bind]. rewrite Vf, F, V1, V3, K1, K3, Hy, Hz. cbn [unwrap bind]. rewrite Ya, Zb. cbn [unwrap bind]. rewrite Ha', Hb'. cbn [unwrap bind]. congruence.
  Qed.
  Theorem front_sensor w w2 c x f k i sa la ra xa g l j sb lb rb xb : wreach E w -> step_front E w = Ok w2 -> w_contacts w2 c = Some x -> pair_key x = ((f, k), (g, l)) -> sensor_contact w2 x = true ->
    sits w f i sa xa -> sits w g j sb xb -> at_work w i \/ at_work w j -> sensed sa k la ra -> sensed sb l lb rb -> 0 <= ra + rb ->
    spread (map (place xa) la) (map (place xb) lb) -> settles (DProxy la ra) (DProxy lb rb) xa xb ->
    cf_touching (c_flags x) = true <-> nearer (map (place xa) la) (map (place xb) lb) (ra + rb + 10 * B2_EPSILON).
  Proof.
    intros H R Hx K Se Sa Sb Wk Ga Gb Hr Sp St.
    assert (Bu : busy w w2 x).
    { destruct Sa as (y & a & Hy & Ya & _), Sb as (z & b & Hz & Zb & _). destruct (front_same E _ w w2 (env_any E EA) (reach_W E EA w H) R) as (F & _ & _). pose proof K as K'. injection K' as K1 K2 K3 K4. exists i, j. split; [|exact Wk]. unfold WorldClaims.bodies_of, body_of. rewrite F, K1, K3, Hy, Hz, Ya, Zb. reflexivity. }
    destruct (reach_front E EA w w2 H R c x Hx Bu) as ((v & Vs & An) & _). rewrite Se in An.
    destruct (shapes_near sa k la ra xa sb l lb rb xb Ga Gb Hr Sp St) as (b & Eb & N). rewrite <- (front_overlap w w2 v c x _ _ _ _ _ _ _ _ _ _ H R Vs K Sa Sb) in Eb. apply ES in Eb. rewrite An in Eb. injection Eb as ->. exact N.
  Qed.
End World.
