From Coq Require Import ZArith Reals Lra Lia Bool List Arith.
From Flocq Require Import Core.
From Verif Require Import Base Num NumLaws Math Collision Manifold Filter MathSpec GeomSpec RTac MathProofs.
Import ListNotations.

(** ** loops *)
Lemma for_from_inv {S : Type} (P : nat -> S -> Prop) f n lo (s : S) :
  P lo s -> (forall i s, lo <= i < lo + n -> P i s -> exists s', f i s = Ok s' /\ P (Datatypes.S i) s') ->
  exists s', for_from n lo f s = Ok s' /\ P (lo + n) s'.
Proof.
  revert lo s; induction n; intros lo s H0 Hs; cbn [for_from].
  - exists s. rewrite Nat.add_0_r. auto.
  - destruct (Hs lo s) as (s1 & E & H1); [lia|exact H0|]. rewrite E. cbn [bind].
    destruct (IHn (Datatypes.S lo) s1 H1) as (s2 & E2 & H2). { intros i s' Hi. apply Hs. lia. }
    exists s2. split; [exact E2|]. now replace (lo + Datatypes.S n) with (Datatypes.S lo + n) by lia.
Qed.
Lemma any_from_spec (p : nat -> res bool) (q : nat -> bool) n lo :
  (forall i, lo <= i < lo + n -> p i = Ok (q i)) ->
  any_from n lo p = Ok (existsb q (seq lo n)).
Proof.
  revert lo; induction n; intros lo H; cbn [any_from seq existsb]; [reflexivity|].
  rewrite H by lia. cbn [bind]. destruct (q lo); cbn [orb]; [reflexivity|]. apply IHn. intros; apply H; lia.
Qed.

(** ** C57 *)
Lemma cid_eqb_eq a b : cid_eqb a b = true <-> a = b.
Proof.
  unfold cid_eqb. rewrite !andb_true_iff, !Z.eqb_eq. destruct a, b; cbn. split; [intros (((->&->)&->)&->); reflexivity|intros E; now injection E].
Qed.
Section States.
  Context {T : Type} `{NT : Num T}.
  Lemma mf_has_spec (m : manifold T) id : length (mf_points m) = 2 -> mf_count m <= 2 ->
    exists b, mf_has m id = Ok b /\ (b = true <-> has_id m id).
  Proof.
    intros Hl Hc. unfold mf_has, any_range. rewrite Nat.sub_0_r.
    rewrite (any_from_spec _ (fun j => match nth_error (mf_points m) j with Some p => cid_eqb (mp_id p) id | None => false end)).
    - eexists. split; [reflexivity|]. rewrite existsb_exists. split.
      + intros (j & Hj & E). apply in_seq in Hj. destruct (nth_error (mf_points m) j) eqn:En; [|discriminate].
        exists j, m0. apply cid_eqb_eq in E. repeat split; auto. lia.
      + intros (j & p & Hj & En & E). exists j. split; [apply in_seq; lia|]. rewrite En. now apply cid_eqb_eq.
    - intros i Hi. unfold get. destruct (nth_error (mf_points m) i) eqn:En; [reflexivity|]. apply nth_error_None in En. lia.
  Qed.
  Lemma upd_len {A} (l : list A) i a : length (upd l i a) = length l.
  Proof. revert i; induction l; intros [|i]; cbn; auto. Qed.
  Lemma upd_same {A} (l : list A) i a : i < length l -> nth_error (upd l i a) i = Some a.
  Proof. revert i; induction l; intros [|i]; cbn; intros; auto; try lia. apply IHl; lia. Qed.
  Lemma upd_other {A} (l : list A) i j a : i <> j -> nth_error (upd l i a) j = nth_error l j.
  Proof. revert i j; induction l; intros [|i] [|j]; cbn; intros; auto; try lia. Qed.
  Lemma states_loop_ok (m other : manifold T) missing :
    length (mf_points m) = 2 -> mf_count m <= 2 -> length (mf_points other) = 2 -> mf_count other <= 2 ->
    exists st, states_loop m other missing (repeat NullState 2) = Ok st /\ states_right m other missing st.
  Proof.
    intros Hl Hc Hl' Hc'. unfold states_loop, for_range. rewrite Nat.sub_0_r.
    destruct (for_from_inv (fun i (st : list pstate) => length st = 2 /\
      (forall j p, j < i -> nth_error (mf_points m) j = Some p ->
         (has_id other (mp_id p) -> nth_error st j = Some PersistState) /\
         (~ has_id other (mp_id p) -> nth_error st j = Some missing)) /\
      (forall j, i <= j < 2 -> nth_error st j = Some NullState))
      (fun i st => p <- get (mf_points m) i ;; st <- set st i missing ;; b <- mf_has other (mp_id p) ;;
        if b then set st i PersistState else Ok st) (mf_count m) 0 (repeat NullState 2)) as (st & E & H).
    - cbn. repeat split; intros; try lia. destruct j as [|[|]]; cbn; auto; lia.
    - intros i st Hi (L & H1 & H2). unfold get. destruct (nth_error (mf_points m) i) as [p|] eqn:En; [|apply nth_error_None in En; lia].
      cbn [bind]. unfold set at 1. rewrite (proj2 (Nat.ltb_lt _ _)) by lia. cbn [bind].
      destruct (mf_has_spec other (mp_id p) Hl' Hc') as (b & Eb & Hb). rewrite Eb. cbn [bind].
      destruct b.
      + unfold set. rewrite upd_len, (proj2 (Nat.ltb_lt _ _)) by lia. eexists. split; [reflexivity|].
        rewrite !upd_len. split; [exact L|]. split.
        * intros j q Hj Ej. destruct (Nat.eq_dec i j) as [<-|Hne].
          -- rewrite upd_same by (rewrite upd_len; lia). rewrite En in Ej. injection Ej as <-. split; [reflexivity|]. intros K; exfalso; apply K; now apply Hb.
          -- rewrite !upd_other by auto. apply H1; [lia|exact Ej].
        * intros j Hj. rewrite !upd_other by lia. apply H2; lia.
      + eexists. split; [reflexivity|]. rewrite !upd_len. split; [exact L|]. split.
        * intros j q Hj Ej. destruct (Nat.eq_dec i j) as [<-|Hne].
          -- rewrite upd_same by lia. rewrite En in Ej. injection Ej as <-. split; [|reflexivity]. intros K. apply Hb in K. discriminate.
          -- rewrite !upd_other by auto. apply H1; [lia|exact Ej].
        * intros j Hj. rewrite !upd_other by lia. apply H2; lia.
    - exists st. split; [exact E|]. exact H.
  Qed.
  Lemma point_states_ok (m1 m2 : manifold T) :
    length (mf_points m1) = 2 -> mf_count m1 <= 2 -> length (mf_points m2) = 2 -> mf_count m2 <= 2 ->
    exists s1 s2, b2_get_point_states m1 m2 = Ok (s1, s2) /\ states_right m1 m2 RemoveState s1 /\ states_right m2 m1 AddState s2.
  Proof.
    intros. unfold b2_get_point_states, B2_MAX_MANIFOLD_POINTS.
    destruct (states_loop_ok m1 m2 RemoveState) as (s1 & -> & S1); auto. cbn [bind].
    destruct (states_loop_ok m2 m1 AddState) as (s2 & -> & S2); auto. cbn [bind]. eauto.
  Qed.
End States.

(** ** C16 *)
Lemma land_common x y : (0 <= x)%Z -> (negb (Z.land x y =? 0)%Z = true <-> common_bit x y).
Proof.
  intros Hx. rewrite negb_true_iff, Z.eqb_neq. split.
  - intros H. assert (P : (0 <= Z.land x y)%Z) by (apply Z.land_nonneg; auto).
    exists (Z.log2 (Z.land x y)). split; [apply Z.log2_nonneg|].
    assert (B : Z.testbit (Z.land x y) (Z.log2 (Z.land x y)) = true) by (apply Z.bit_log2; lia).
    rewrite Z.land_spec, andb_true_iff in B. exact B.
  - intros (i & Hi & A & B) E. assert (C : Z.testbit (Z.land x y) i = true) by now rewrite Z.land_spec, A, B.
    rewrite E, Z.bits_0 in C. discriminate.
Qed.
Lemma filter_sym a b : should_collide a b = should_collide b a.
Proof.
  unfold should_collide. rewrite (Z.eqb_sym (group_index b)). destruct (Z.eqb_spec (group_index a) (group_index b)) as [E|E]; cbn [andb].
  - rewrite E. destruct (Z.eqb_spec (group_index b) 0); cbn [negb]; [|reflexivity].
    rewrite andb_comm. now rewrite (Z.land_comm (category_bits a)), (Z.land_comm (mask_bits a)).
  - rewrite andb_comm. now rewrite (Z.land_comm (category_bits a)), (Z.land_comm (mask_bits a)).
Qed.
Lemma filter_group a b : group_index a = group_index b -> group_index a <> 0%Z ->
  (should_collide a b = true <-> (0 < group_index a)%Z).
Proof.
  intros E N. unfold should_collide. rewrite <- E, Z.eqb_refl. destruct (Z.eqb_spec (group_index a) 0); [contradiction|]. cbn [negb andb]. now rewrite Z.ltb_lt.
Qed.
Lemma filter_mask a b : (group_index a <> group_index b \/ group_index a = 0%Z) -> (0 <= mask_bits a)%Z -> (0 <= category_bits a)%Z ->
  (should_collide a b = true <-> common_bit (mask_bits a) (category_bits b) /\ common_bit (category_bits a) (mask_bits b)).
Proof.
  intros H Ha Hb. unfold should_collide.
  replace ((group_index a =? group_index b)%Z && negb (group_index a =? 0)%Z) with false.
  - rewrite andb_true_iff. now rewrite !land_common.
  - symmetry. apply andb_false_iff. destruct H as [H|H]; [left; now apply Z.eqb_neq|right]. rewrite H. reflexivity.
Qed.

(** ** C46 *)
Local Open Scope R_scope.
Lemma clip_ok (v0 v1 : clip_vertex R) n offset ia :
  exists out, b2_clip_segment_to_line v0 v1 n offset ia = Ok out /\
    forall p, spanned (map cv_v out) p <-> (on_segment (cv_v v0) (cv_v v1) p /\ half_plane n offset p).
Proof.
  unfold b2_clip_segment_to_line.
  set (d0 := (b2_dot n (cv_v v0) - offset)%num). set (d1 := (b2_dot n (cv_v v1) - offset)%num).
  set (a := cv_v v0) in *. set (b := cv_v v1) in *.
  assert (HP : forall t, half_plane n offset (along a b t) <-> d0 + t * (d1 - d0) <= 0).
  { intros t. unfold half_plane, along, d0, d1. rmath. split; intros; nra. }
  assert (E0 : along a b 0 = a) by (apply vec2_ext; unfold along; rops; ring).
  assert (E1 : along a b 1 = b) by (apply vec2_ext; unfold along; rops; ring).
  clearbody d0 d1. rops.
  destruct (Rle_bool_spec d0 0) as [H0|H0], (Rle_bool_spec d1 0) as [H1|H1], (Rlt_bool_spec (d0 * d1) 0) as [HM|HM]; cbn [app length Nat.eqb b2_assert bind]; try nra;
    (eexists; split; [reflexivity|]); cbn [map spanned]; fold a b; intros p.
  - split; [|tauto]. intros (t & Ht & ->). split; [exists t; auto|]. apply HP. nra.
  - assert (HD : d0 < 0) by nra. set (i := d0 / (d0 - d1)).
    assert (Hi : i * (d0 - d1) = d0) by (unfold i; field; lra).
    assert (Hb : 0 < i < 1) by (split; nra).
    cbn [cv_v]. match goal with |- on_segment a ?c p <-> _ => replace c with (along a b i) by (apply vec2_ext; unfold along; rmathc; ring) end.
    split.
    + intros (t & Ht & ->). assert (E : along a (along a b i) t = along a b (t * i)) by (apply vec2_ext; unfold along; rops; ring).
      rewrite E. split; [exists (t * i); split; [nra|reflexivity]|]. apply HP. nra.
    + intros ((t & Ht & ->) & K). apply HP in K. assert (t <= i) by nra. exists (t / i).
      assert (Ei : t / i * i = t) by (field; lra).
      split; [split|]. apply Rmult_le_pos; [lra|]. apply Rlt_le, Rinv_0_lt_compat; lra. nra.
      transitivity (along a b (t / i * i)); [now rewrite Ei|]. apply vec2_ext; unfold along; rops; ring.
  - assert (HD : d0 = 0) by nra. subst d0. split.
    + intros ->. split; [exists 0; split; [lra|now rewrite E0]|]. rewrite <- E0. apply HP. lra.
    + intros ((t & Ht & ->) & K). apply HP in K. assert (t = 0) by nra. subst t. exact E0.
  - assert (HD : d1 < 0) by nra. set (i := d0 / (d0 - d1)).
    assert (Hi : i * (d0 - d1) = d0) by (unfold i; field; lra).
    assert (Hb : 0 < i < 1) by (split; nra).
    cbn [cv_v]. match goal with |- on_segment b ?c p <-> _ => replace c with (along a b i) by (apply vec2_ext; unfold along; rmathc; ring) end.
    split.
    + intros (t & Ht & ->). assert (E : along b (along a b i) t = along a b (1 - t * (1 - i))) by (apply vec2_ext; unfold along; rops; ring).
      rewrite E. split; [exists (1 - t * (1 - i)); split; [nra|reflexivity]|]. apply HP. nra.
    + intros ((t & Ht & ->) & K). apply HP in K. assert (i <= t) by nra. exists ((1 - t) / (1 - i)).
      assert (Ei : (1 - t) / (1 - i) * (1 - i) = 1 - t) by (field; lra).
      split; [split|]. apply Rmult_le_pos; [lra|]. apply Rlt_le, Rinv_0_lt_compat; lra. nra.
      transitivity (along a b (1 - (1 - t) / (1 - i) * (1 - i))); [rewrite Ei; f_equal; ring|]. apply vec2_ext; unfold along; rops; ring.
  - assert (HD : d1 = 0) by nra. subst d1. split.
    + intros ->. split; [exists 1; split; [lra|now rewrite E1]|]. rewrite <- E1. apply HP. lra.
    + intros ((t & Ht & ->) & K). apply HP in K. assert (t = 1) by nra. subst t. exact E1.
  - split; [tauto|]. intros ((t & Ht & ->) & K). apply HP in K. nra.
Qed.
Lemma clip_keeps (v0 v1 : clip_vertex R) n offset ia : half_plane n offset (cv_v v0) -> half_plane n offset (cv_v v1) ->
  b2_clip_segment_to_line v0 v1 n offset ia = Ok [v0; v1].
Proof.
  unfold half_plane, b2_clip_segment_to_line. intros H0 H1. rmathc.
  rewrite !Rle_bool_true by lra. rewrite Rlt_bool_false; [reflexivity|nra].
Qed.
Lemma clip_in_pair (v0 v1 : clip_vertex R) n offset ia out : b2_clip_segment_to_line v0 v1 n offset ia = Ok out ->
  (length out <= 2)%nat /\ forall v, In v out -> v = v0 \/ v = v1 \/
    (cv_id v = CId (as_u8 ia) (index_b (cv_id v0)) EVertex EFace /\ vx n * vx (cv_v v) + vy n * vy (cv_v v) = offset).
Proof.
  unfold b2_clip_segment_to_line.
  set (d0 := (b2_dot n (cv_v v0) - offset)%num). set (d1 := (b2_dot n (cv_v v1) - offset)%num).
  assert (X : d0 * d1 < 0 -> b2_dot n (vadd (cv_v v0) (vscale (d0 / (d0 - d1)) (vsub (cv_v v1) (cv_v v0)))) = offset).
  { intros Hm. assert (d0 - d1 <> 0) by nra. transitivity (offset + (d0 + d0 / (d0 - d1) * (d1 - d0))); [|field; lra].
    unfold d0, d1. rmathc. ring. }
  clearbody d0 d1. rops. destruct (Rle_bool_spec d0 0), (Rle_bool_spec d1 0), (Rlt_bool_spec (d0 * d1) 0); cbn [app length Nat.eqb b2_assert bind]; try nra; intros E; try discriminate;
    injection E as <-; (split; [cbn; lia|]); intros v Hv; cbn [In] in Hv;
    repeat match goal with H : _ \/ _ |- _ => destruct H as [<-|H] | H : False |- _ => destruct H end; auto;
    right; right; (split; [reflexivity|]); apply X; assumption.
Qed.

(** ** C47 *)
Definition slab (p d l u t : R) : Prop := l <= p + t * d <= u.
Lemma box_slabs b p1 p2 t : in_box b (along p1 p2 t) <->
  slab (vx p1) (vx p2 - vx p1) (vx (lo b)) (vx (hi b)) t /\ slab (vy p1) (vy p2 - vy p1) (vy (lo b)) (vy (hi b)) t.
Proof. reflexivity. Qed.

(* one axis of the loop, on the interval [tmin, tmax] of the fractions that are still possible *)
Lemma axis_ok p d l u mk tmin tmax nrm : l <= u -> (d = 0 \/ B2_EPSILON <= Rabs d) -> tmin <= tmax ->
  match ray_axis p d l u mk (tmin, tmax, nrm) with
  | None => forall t, tmin <= t <= tmax -> ~ slab p d l u t
  | Some (tmin', tmax', nrm') =>
      (forall t, (tmin' <= t <= tmax') <-> (tmin <= t <= tmax /\ slab p d l u t)) /\ tmin' <= tmax' /\
      ((tmin' = tmin /\ nrm' = nrm) \/
       (tmin < tmin' /\ (forall t, t < tmin' -> ~ slab p d l u t) /\
        exists s, nrm' = mk s /\ s * s = 1 /\ (l < u -> s * d < 0)))
  end.
Proof.
  intros Hlu Hd Hm. pose proof eps_pos as He. unfold ray_axis. rops.
  destruct (Rlt_bool_spec (Rabs d) B2_EPSILON) as [Hs|Hs].
  - assert (d = 0) by (destruct Hd; [auto|lra]). subst d.
    destruct (Rlt_bool_spec p l); cbn [orb]; [intros t _ [A B]; lra|].
    destruct (Rlt_bool_spec u p); [intros t _ [A B]; lra|].
    split; [|split; [exact Hm|left; auto]]. intros t. unfold slab. split; intros; repeat split; try tauto; lra.
  - assert (Hd0 : d <> 0). { intros ->. rewrite Rabs_R0 in Hs. lra. }
    unfold Rdiv. rewrite Rmult_1_l.
    assert (Hi : / d * d = 1) by (field; exact Hd0). set (inv := / d) in *.
    set (t1 := (l - p) * inv). set (t2 := (u - p) * inv).
    assert (E1 : t1 * d = l - p) by (unfold t1; rewrite Rmult_assoc, Hi; ring).
    assert (E2 : t2 * d = u - p) by (unfold t2; rewrite Rmult_assoc, Hi; ring).
    (* entry and exit fraction of the slab *)
    assert (Hx : exists a b s, (if Rlt_bool t2 t1 then (t2, t1, 1) else (t1, t2, Ropp 1)) = (a, b, s) /\ a <= b /\
      (forall t, slab p d l u t <-> a <= t <= b) /\ s * s = 1 /\ (l < u -> s * d < 0)).
    { destruct (Rlt_bool_spec t2 t1) as [Ht|Ht].
      - assert (d < 0) by (destruct (Rle_or_lt 0 d); [exfalso; nra|assumption]).
        exists t2, t1, 1. split; [reflexivity|]. split; [lra|]. split; [|split; [ring|lra]]. intros t. unfold slab. split; intros; split; nra.
      - exists t1, t2, (Ropp 1). split; [reflexivity|]. split; [lra|]. split; [|split; [ring|]].
        + intros t. unfold slab. destruct (Rle_or_lt 0 d); [split; intros; split; nra|].
          assert (t1 = t2) by nra. assert (l = u) by nra. split; intros; split; nra.
        + intros Hl. assert (0 < d) by (destruct (Rle_or_lt d 0); [exfalso; nra|assumption]). lra. }
    destruct Hx as (a & b & s & -> & Hab & Hsl & Hs2 & Hsd). rewrite b2_min_R.
    destruct (Rlt_bool_spec tmin a) as [Ha|Ha].
    + destruct (Rlt_bool_spec (Rmin tmax b) a) as [Hn|Hn].
      * intros t Ht K. apply Hsl in K. unfold Rmin in Hn. destruct (Rle_dec tmax b); lra.
      * split; [|split; [exact Hn|right]].
        { intros t. rewrite Hsl. unfold Rmin in *. destruct (Rle_dec tmax b); lra. }
        split; [exact Ha|]. split; [intros t Ht K; apply Hsl in K; lra|]. exists s. auto.
    + destruct (Rlt_bool_spec (Rmin tmax b) tmin) as [Hn|Hn].
      * intros t Ht K. apply Hsl in K. unfold Rmin in Hn. destruct (Rle_dec tmax b); lra.
      * split; [|split; [exact Hn|left; auto]].
        intros t. rewrite Hsl. unfold Rmin in *. destruct (Rle_dec tmax b); lra.
Qed.

Lemma max_float_pos : 0 < (B2_MAX_FLOAT : R).
Proof. unfold B2_MAX_FLOAT. rops. apply IZR_lt. reflexivity. Qed.
(* the ray direction is exactly axis-parallel or not nearly so *)
Lemma box_ray_ok (b : aabb R) (inp : ray_input R) :
  let d := vsub (ray_p2 inp) (ray_p1 inp) in
  vx (lo b) <= vx (hi b) -> vy (lo b) <= vy (hi b) ->
  (vx d = 0 \/ B2_EPSILON <= Rabs (vx d)) -> (vy d = 0 \/ B2_EPSILON <= Rabs (vy d)) -> ray_max inp <= B2_MAX_FLOAT ->
  match aabb_ray_cast b inp with
  | None => forall f, 0 <= f <= ray_max inp -> ~ enters b (ray_p1 inp) (ray_p2 inp) f
  | Some out => 0 <= ray_fraction out <= ray_max inp /\ enters b (ray_p1 inp) (ray_p2 inp) (ray_fraction out) /\
      unit_vec (ray_normal out) /\
      (vx (lo b) < vx (hi b) -> vy (lo b) < vy (hi b) -> vx (ray_normal out) * vx d + vy (ray_normal out) * vy d < 0)
  end.
Proof.
  intros d Hx Hy Dx Dy Hmax. pose proof max_float_pos as HM. unfold aabb_ray_cast. fold d.
  set (p1 := ray_p1 inp) in *. set (p2 := ray_p2 inp) in *.
  assert (SX : forall t, slab (vx p1) (vx d) (vx (lo b)) (vx (hi b)) t <-> vx (lo b) <= vx (along p1 p2 t) <= vx (hi b)) by (intros; unfold slab, along, d; rmathc; tauto).
  assert (SY : forall t, slab (vy p1) (vy d) (vy (lo b)) (vy (hi b)) t <-> vy (lo b) <= vy (along p1 p2 t) <= vy (hi b)) by (intros; unfold slab, along, d; rmathc; tauto).
  clearbody d. set (M := B2_MAX_FLOAT : R) in *. clearbody M.
  pose proof (axis_ok (vx p1) (vx d) (vx (lo b)) (vx (hi b)) (fun s => V2 s #0%num) (- M) M (V2 0 0) Hx Dx ltac:(lra)) as A1.
  change (nneg M) with (- M).
  change (V2 #0%num #0%num) with (V2 0 0).
  destruct (ray_axis (vx p1) (vx d) (vx (lo b)) (vx (hi b)) (fun s => V2 s #0%num) (- M, M, V2 0 0)) as [((tm1, tx1), n1)|].
  2:{ intros f Hf [[I1 I2] _]. apply (A1 f); [lra|]. now apply SX. }
  destruct A1 as (I1 & L1 & N1).
  pose proof (axis_ok (vy p1) (vy d) (vy (lo b)) (vy (hi b)) (fun s => V2 #0%num s) tm1 tx1 n1 Hy Dy L1) as A2.
  destruct (ray_axis (vy p1) (vy d) (vy (lo b)) (vy (hi b)) (fun s => V2 #0%num s) (tm1, tx1, n1)) as [((tm2, tx2), n2)|].
  2:{ intros f Hf [[K1 K2] _]. apply (A2 f); [|now apply SY]. apply I1. split; [lra|now apply SX]. }
  destruct A2 as (I2 & L2 & N2).
  assert (IB : forall t, - M <= t <= M -> (tm2 <= t <= tx2 <-> in_box b (along p1 p2 t))).
  { intros t Ht. rewrite I2, I1, SX, SY. unfold in_box. tauto. }
  assert (TM : tm2 <= tx2 <= M /\ - M <= tm2). { destruct (I2 tm2) as [J _]. destruct (I2 tx2) as [J' _]. specialize (J ltac:(lra)). specialize (J' ltac:(lra)). destruct J as [J _], J' as [J' _]. apply I1 in J. apply I1 in J'. lra. }
  rops. destruct (Rlt_bool_spec tm2 0) as [Hn|Hn]; cbn [orb].
  { intros f Hf [K1 K2]. apply (K2 (f + (Rmax tm2 (- M) - f) / 2)).
    - unfold Rmax. destruct (Rle_dec tm2 (- M)); lra.
    - apply IB; [|apply IB in K1; [|lra]]; unfold Rmax; destruct (Rle_dec tm2 (- M)); lra. }
  destruct (Rlt_bool_spec (ray_max inp) tm2) as [Hf|Hf].
  { intros f Hf' [K1 K2]. apply IB in K1; lra. }
  cbn [ray_fraction ray_normal].
  split; [lra|].
  destruct N2 as [[-> ->]|(Lt2 & F2 & s2 & -> & S2 & D2)].
  - destruct N1 as [[-> ->]|(Lt1 & F1 & s1 & -> & S1 & D1)]; [lra|].
    split; [|split].
    + split; [apply IB; lra|]. intros t Ht [K1 K2]. apply (F1 t Ht). now apply SX.
    + unfold unit_vec. rops. rewrite S1. ring.
    + intros W1 W2. rops. specialize (D1 W1). lra.
  - split; [|split].
    + split; [apply IB; lra|]. intros t Ht [K1 K2]. apply (F2 t Ht). now apply SY.
    + unfold unit_vec. rops. rewrite S2. ring.
    + intros W1 W2. rops. specialize (D2 W2). lra.
Qed.
