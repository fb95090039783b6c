(** Two polygons, over exact reals. *)
From Coq Require Import ZArith Reals Lra Lia Bool List Arith Psatz.
From Flocq Require Import Core.
From Verif Require Import Base Num NumLaws Math Collision Manifold ShapeModel CollideModel MathSpec GeomSpec ShapeSpec HullSpec CollideSpec RTac ListFacts MathProofs ManifoldProofs ShapeProofs HullProofs HullSet HullMass HullInertia PolyCircle EdgeCircle.
From Verif Require DistProofs HullRegion.
Import ListNotations.
Local Open Scope R_scope.

(** ** the incident edge has a deepest corner *)
Lemma turn_more C S a b : C * C + S * S = 1 -> 0 < S -> 0 < b -> 0 < b * C - a * S -> a < a * C + b * S.
Proof.
  intros U HS Hb H. destruct (Rle_lt_dec a 0) as [A|A].
  - assert (C <= 1) by nra. assert (0 <= a * (C - 1)) by nra. assert (0 < b * S) by nra. lra.
  - assert (0 < C) by nra. assert (C < 1) by nra.
    assert (X : 0 < C * (a * C + b * S - a)).
    { replace (C * (a * C + b * S - a)) with (S * (b * C - a * S) + a * (C * C + S * S) - a * C) by ring. rewrite U.
      assert (0 < S * (b * C - a * S)) by (apply Rmult_lt_0_compat; assumption). nra. }
    apply Rnot_le_lt. intros L. assert (C * (a * C + b * S - a) <= 0) by nra. lra.
Qed.
Section Support.
  Variable po : polygon R.
  Hypothesis Pr : proper po.
  Let n := po_count po.
  Notation N := (N po). Notation V := (V po).
  Lemma cone_id a b d w p : turn a b d * dotp w (minus p a) = turn d a p * dotp w (minus b a) + turn a b p * dotp w (minus d a).
  Proof. unfold turn, dotp, minus; cbn [vx vy]. ring. Qed.
  (* D is the direction against which the edge is sought *)
  Lemma support_edge D j p : D <> V2 0 0 -> (j < n)%nat -> (forall i, (i < n)%nat -> dotp D (N i) <= dotp D (N j)) -> inner po p ->
    dotp D p <= dotp D (V j) \/ dotp D p <= dotp D (V (after n j)).
  Proof.
    intros Dn Hj Mx Ip. set (i := after n j). assert (Hi : (i < n)%nat) by apply (af_lt po Pr).
    destruct (Rle_lt_dec (dotp D p) (dotp D (V j))) as [|Ga]; [left; assumption|]. destruct (Rle_lt_dec (dotp D p) (dotp D (V i))) as [|Gb]; [right; assumption|exfalso].
    assert (Ga' : 0 < dotp D (minus p (V j))) by (unfold dotp, minus in *; cbn [vx vy]; lra).
    assert (Gb' : 0 < dotp D (minus p (V i))) by (unfold dotp, minus in *; cbn [vx vy]; lra).
    destruct (edge_facts po Pr j Hj) as (Um & k & Kp & Ex & Ey & Tk). fold n i in Ex, Ey, Tk.
    set (m := N j) in *. set (al := dotp D m). set (be := dotp D (V2 (- vy m) (vx m))).
    unfold unit_vec in Um.
    assert (Dx : vx D = al * vx m - be * vy m) by (transitivity ((vx m * vx m + vy m * vy m) * vx D); [rewrite Um; ring|unfold al, be, dotp; cbn [vx vy]; ring]).
    assert (Dy : vy D = al * vy m + be * vx m) by (transitivity ((vx m * vx m + vy m * vy m) * vy D); [rewrite Um; ring|unfold al, be, dotp; cbn [vx vy]; ring]).
    assert (Eab : dotp D (minus (V i) (V j)) = k * be) by (unfold dotp, minus, be; cbn [vx vy]; rewrite Ex, Ey; unfold dotp; cbn [vx vy]; ring).
    (* the neighbour edges *)
    set (h := before n j). assert (Hh : (h < n)%nat) by (apply before_lt; exact Hj). assert (Ah : after n h = j) by (apply after_before; exact Hj).
    destruct (edge_facts po Pr i Hi) as (Un & k1 & Kp1 & Ex1 & Ey1 & Tk1). destruct (edge_facts po Pr h Hh) as (Un0 & k0 & Kp0 & Ex0 & Ey0 & Tk0). fold n in Ex0, Ey0, Tk0, Ex1, Ey1, Tk1. rewrite Ah in Ex0, Ey0, Tk0.
    pose proof (corner_turn po Pr j Hj) as Ct1. fold n i in Ct1. pose proof (corner_turn po Pr h Hh) as Ct0. fold n in Ct0. rewrite Ah in Ct0. fold i in Ct0.
    assert (Geo1 : let C := dotp m (N i) in let S := vx m * vy (N i) - vy m * vx (N i) in C * C + S * S = 1 /\ 0 < S /\ dotp D (N i) = al * C + be * S /\ dotp D (minus (V (after n i)) (V i)) = k1 * (be * C - al * S)).
    { cbv zeta. split; [|split; [|split]].
      - unfold unit_vec in Un. transitivity ((vx m * vx m + vy m * vy m) * (vx (N i) * vx (N i) + vy (N i) * vy (N i))); [unfold dotp; ring|rewrite Um, Un; ring].
      - assert (Z : turn (V j) (V i) (V (after n i)) = k * k1 * (vx m * vy (N i) - vy m * vx (N i))).
        { unfold turn. replace (vy (V (after n i)) - vy (V j)) with ((vy (V (after n i)) - vy (V i)) + (vy (V i) - vy (V j))) by ring.
          replace (vx (V (after n i)) - vx (V j)) with ((vx (V (after n i)) - vx (V i)) + (vx (V i) - vx (V j))) by ring. rewrite Ex, Ey, Ex1, Ey1. ring. }
        rewrite Z in Ct1. assert (0 < k * k1) by (apply Rmult_lt_0_compat; assumption). apply Rnot_le_lt. intros L. assert (k * k1 * (vx m * vy (N i) - vy m * vx (N i)) <= 0) by nra. lra.
      - unfold dotp. rewrite Dx, Dy. ring.
      - unfold dotp, minus; cbn [vx vy]. rewrite Ex1, Ey1, Dx, Dy. ring. }
    destruct (Rtotal_order be 0) as [Bn|[Bz|Bp]].
    - (* towards the start of the edge: the edge before *)
      set (C := dotp m (N h)). set (S := - (vx m * vy (N h) - vy m * vx (N h))).
      assert (CS : C * C + S * S = 1) by (unfold unit_vec in Un0; transitivity ((vx m * vx m + vy m * vy m) * (vx (N h) * vx (N h) + vy (N h) * vy (N h))); [unfold C, S, dotp; ring|rewrite Um, Un0; ring]).
      assert (Sp : 0 < S).
      { assert (Z : turn (V h) (V j) (V i) = k0 * k * S).
        { unfold turn. replace (vy (V i) - vy (V h)) with ((vy (V i) - vy (V j)) + (vy (V j) - vy (V h))) by ring.
          replace (vx (V i) - vx (V h)) with ((vx (V i) - vx (V j)) + (vx (V j) - vx (V h))) by ring. rewrite Ex, Ey, Ex0, Ey0. unfold S. ring. }
        rewrite Z in Ct0. assert (0 < k0 * k) by (apply Rmult_lt_0_compat; assumption). apply Rnot_le_lt. intros L. assert (k0 * k * S <= 0) by nra. lra. }
      assert (Dh : dotp D (N h) = al * C + (- be) * S) by (unfold dotp; rewrite Dx, Dy; unfold C, S, dotp; ring).
      assert (Dd : dotp D (minus (V h) (V j)) = k0 * ((- be) * C - al * S)).
      { replace (dotp D (minus (V h) (V j))) with (- (vx D * (vx (V j) - vx (V h)) + vy D * (vy (V j) - vy (V h)))) by (unfold dotp, minus; cbn [vx vy]; ring). rewrite Ex0, Ey0, Dx, Dy. unfold C, S, dotp. ring. }
      pose proof (cone_id (V j) (V i) (V h) D p) as Id.
      assert (T1 : 0 <= turn (V h) (V j) p) by (rewrite Tk0; pose proof (inner_dot po Pr p h Ip Hh); nra).
      assert (T2 : 0 <= turn (V j) (V i) p) by (rewrite Tk; pose proof (inner_dot po Pr p j Ip Hj); fold m in H; nra).
      assert (T3 : 0 < turn (V j) (V i) (V h)) by (rewrite turn_cycle; exact Ct0).
      rewrite Eab in Id. assert (P1 : 0 < turn (V j) (V i) (V h) * dotp D (minus p (V j))) by (apply Rmult_lt_0_compat; assumption).
      assert (P2 : turn (V h) (V j) p * (k * be) <= 0) by (assert (k * be < 0) by nra; nra).
      assert (P3 : 0 < turn (V j) (V i) p * dotp D (minus (V h) (V j))) by lra.
      assert (P4 : 0 < dotp D (minus (V h) (V j))) by (apply Rnot_le_lt; intros L; assert (turn (V j) (V i) p * dotp D (minus (V h) (V j)) <= 0) by nra; lra).
      rewrite Dd in P4. assert (P5 : 0 < (- be) * C - al * S) by nra.
      pose proof (turn_more C S al (- be) CS Sp ltac:(lra) P5) as TM. specialize (Mx h Hh). fold m al in Mx. rewrite Dh in Mx. lra.
    - (* the edge faces straight away *)
      assert (Da : dotp D (minus p (V j)) = al * dotp m (minus p (V j))) by (unfold dotp at 1; rewrite Dx, Dy, Bz; unfold dotp; ring).
      pose proof (inner_dot po Pr p j Ip Hj) as Im. fold m in Im. rewrite Da in Ga'. assert (An : al < 0) by nra.
      cbv zeta in Geo1. destruct Geo1 as (CS & Sp & Dn' & _). specialize (Mx i Hi). fold m al in Mx. rewrite Dn', Bz in Mx. set (C := dotp m (N i)) in *. assert (1 <= C) by nra. nra.
    - cbv zeta in Geo1. destruct Geo1 as (CS & Sp & Dn' & Dd). set (C := dotp m (N i)) in *. set (S := vx m * vy (N i) - vy m * vx (N i)) in *.
      pose proof (cone_id (V i) (V (after n i)) (V j) D p) as Id.
      assert (T1 : 0 <= turn (V j) (V i) p) by (rewrite Tk; pose proof (inner_dot po Pr p j Ip Hj); fold m in H; nra).
      assert (T2 : 0 <= turn (V i) (V (after n i)) p) by (rewrite Tk1; pose proof (inner_dot po Pr p i Ip Hi); nra).
      assert (T3 : 0 < turn (V i) (V (after n i)) (V j)) by (rewrite turn_cycle; exact Ct1).
      assert (Eba : dotp D (minus (V j) (V i)) = - (k * be)) by (rewrite <- Eab; unfold dotp, minus; cbn [vx vy]; ring).
      rewrite Eba in Id. assert (P1 : 0 < turn (V i) (V (after n i)) (V j) * dotp D (minus p (V i))) by (apply Rmult_lt_0_compat; assumption).
      assert (P2 : turn (V i) (V (after n i)) p * - (k * be) <= 0) by (assert (0 < k * be) by nra; nra).
      assert (P3 : 0 < turn (V j) (V i) p * dotp D (minus (V (after n i)) (V i))) by lra.
      assert (P4 : 0 < dotp D (minus (V (after n i)) (V i))) by (apply Rnot_le_lt; intros L; assert (turn (V j) (V i) p * dotp D (minus (V (after n i)) (V i)) <= 0) by nra; lra).
      rewrite Dd in P4. assert (P5 : 0 < be * C - al * S) by nra.
      pose proof (turn_more C S al be CS Sp Bp P5) as TM. specialize (Mx i Hi). fold m al in Mx. rewrite Dn' in Mx. lra.
  Qed.
End Support.

(** ** separations *)
Section Sep.
  Variables (p1 p2 : polygon R) (x1 x2 : xform R).
  Hypothesis Pr1 : proper p1. Hypothesis Pr2 : proper p2.
  Hypothesis U1 : unit_rot (xq x1). Hypothesis U2 : unit_rot (xq x2).
  Definition W (po : polygon R) (xf : xform R) (i : nat) : vec2 R := place xf (V po i).
  Definition M (po : polygon R) (xf : xform R) (i : nat) : vec2 R := turned (xq xf) (N po i).
  Definition gap (i j : nat) : R := dotp (M p1 x1 i) (minus (W p2 x2 j) (W p1 x1 i)).
  Lemma dot_back u v w : dotp (rotv_t (xq x2) u) (minus v (xfv_t x2 w)) = dotp u (minus (place x2 v) w).
  Proof.
    transitivity (dotp (turned (xq x2) (rotv_t (xq x2) u)) (minus (place x2 v) (place x2 (xfv_t x2 w)))); [symmetry; apply (dotp_turned x2 U2)|]. rewrite (place_local x2 U2). f_equal.
    unfold unit_rot in U2. unfold turned, rotv_t; cbn [vx vy]. rops.
    apply vec2_ext; cbn [vx vy].
    - transitivity ((rc (xq x2) * rc (xq x2) + rs (xq x2) * rs (xq x2)) * vx u); [ring|]. replace (rc (xq x2) * rc (xq x2) + rs (xq x2) * rs (xq x2)) with 1 by lra. ring.
    - transitivity ((rc (xq x2) * rc (xq x2) + rs (xq x2) * rs (xq x2)) * vy u); [ring|]. replace (rc (xq x2) * rc (xq x2) + rs (xq x2) * rs (xq x2)) with 1 by lra. ring.
  Qed.
  Lemma rotv_turned q v : rotv q v = turned q v.
  Proof. unfold turned. apply vec2_ext; rmathc; ring. Qed.
  Lemma gap_model i j : b2_dot (rotv (xq (b2_mul_t_transform x2 x1)) (N p1 i)) (vsub (V p2 j) (xfv (b2_mul_t_transform x2 x1) (V p1 i))) = gap i j.
  Proof.
    rewrite mul_t_transform_apply. assert (E : rotv (xq (b2_mul_t_transform x2 x1)) (N p1 i) = rotv_t (xq x2) (turned (xq x1) (N p1 i))) by (unfold turned; apply vec2_ext; rmathc; ring).
    rewrite E. change (b2_dot (rotv_t (xq x2) (turned (xq x1) (N p1 i))) (vsub (V p2 j) (xfv_t x2 (xfv x1 (V p1 i))))) with (dotp (rotv_t (xq x2) (turned (xq x1) (N p1 i))) (minus (V p2 j) (xfv_t x2 (xfv x1 (V p1 i))))).
    etransitivity; [apply dot_back|]. rewrite (xfv_place x1). reflexivity.
  Qed.
  Lemma inner_search i : (i < po_count p1)%nat -> exists si,
    for_range 0 (po_count p2) (fun j si => bind (get (po_vertices p2) j) (fun v2 =>
        let sij := b2_dot (rotv (xq (b2_mul_t_transform x2 x1)) (N p1 i)) (vsub v2 (xfv (b2_mul_t_transform x2 x1) (V p1 i))) in
        Ok (if nlt sij si then sij else si))) B2_MAX_FLOAT = Ok si /\
    (forall j, (j < po_count p2)%nat -> si <= gap i j) /\ ((exists j, (j < po_count p2)%nat /\ si = gap i j) \/ si = B2_MAX_FLOAT).
  Proof.
    intros Hi. unfold for_range. rewrite Nat.sub_0_r.
    destruct (for_from_inv (fun k (si : R) => (forall j, (j < k)%nat -> si <= gap i j) /\ ((exists j, (j < po_count p2)%nat /\ si = gap i j) \/ si = B2_MAX_FLOAT))
      (fun j si => bind (get (po_vertices p2) j) (fun v2 =>
        let sij := b2_dot (rotv (xq (b2_mul_t_transform x2 x1)) (N p1 i)) (vsub v2 (xfv (b2_mul_t_transform x2 x1) (V p1 i))) in
        Ok (if nlt sij si then sij else si))) (po_count p2) 0 B2_MAX_FLOAT) as (si & E & P).
    - split; [lia|]. right. reflexivity.
    - intros j s Hj (A & B). assert (Hj' : (j < po_count p2)%nat) by lia. rewrite (get_V p2 Pr2 j Hj'). cbn [bind]. cbv zeta. rewrite gap_model. change (@nlt R R_Num) with Rlt_bool.
      eexists. split; [reflexivity|]. destruct (Rlt_bool_spec (gap i j) s).
      + split; [|left; exists j; split; [exact Hj'|reflexivity]]. intros k Hk. destruct (Nat.eq_dec k j) as [->|]; [lra|]. specialize (A k ltac:(lia)). lra.
      + split; [|exact B]. intros k Hk. destruct (Nat.eq_dec k j) as [->|]; [lra|]. apply A. lia.
    - exists si. split; [exact E|]. exact P.
  Qed.
  Lemma max_separation : exists s k, b2_find_max_separation p1 x1 p2 x2 = Ok (s, k) /\ (k < po_count p1)%nat /\
    (forall i, (i < po_count p1)%nat -> (exists j, (j < po_count p2)%nat /\ gap i j <= s) \/ B2_MAX_FLOAT <= s) /\
    (s = - B2_MAX_FLOAT \/ forall j, (j < po_count p2)%nat -> s <= gap k j).
  Proof.
    unfold b2_find_max_separation. cbv zeta.
    pose proof (n3 p1 Pr1) as N3. unfold for_range at 1. rewrite Nat.sub_0_r.
    match goal with |- exists s k, for_from ?nn ?lo ?f ?s0 = _ /\ _ => destruct (for_from_inv (fun i (st : R * nat) => let (s, k) := st in (k < po_count p1)%nat /\
      (forall h, (h < i)%nat -> (exists j, (j < po_count p2)%nat /\ gap h j <= s) \/ B2_MAX_FLOAT <= s) /\
      (s = - B2_MAX_FLOAT \/ forall j, (j < po_count p2)%nat -> s <= gap k j)) f nn lo s0) as ((s & k) & E & P) end.
    - split; [lia|]. split; [lia|]. left. reflexivity.
    - intros i (s & k) Hi (A & B & C). assert (Hi' : (i < po_count p1)%nat) by lia. rewrite (get_N p1 Pr1 i Hi'), (get_V p1 Pr1 i Hi'). cbn [bind].
      destruct (inner_search i Hi') as (si & Es & Lo & At). 
      match goal with |- exists s', bind ?x _ = _ /\ _ => replace x with (@Ok R si) by (symmetry; exact Es) end. cbn [bind]. change (@nlt R R_Num) with Rlt_bool.
      eexists. split; [reflexivity|]. destruct (Rlt_bool_spec s si) as [G|G].
      + split; [exact Hi'|]. split; [|right; exact Lo]. intros h Hh. destruct (Nat.eq_dec h i) as [->|].
        * destruct At as [(j & Hj & ->)| ->]; [left; exists j; split; [exact Hj|lra]|right; lra].
        * destruct (B h ltac:(lia)) as [(j & Hj & L)|L]; [left; exists j; split; [exact Hj|lra]|right; lra].
      + split; [exact A|]. split; [|exact C]. intros h Hh. destruct (Nat.eq_dec h i) as [->|]; [|apply B; lia].
        destruct At as [(j & Hj & ->)| ->]; [left; exists j; split; [exact Hj|lra]|right; lra].
    - exists s, k. split; [exact E|]. destruct P as (A & B & C). split; [exact A|]. split; [|exact C]. exact B.
  Qed.
End Sep.

(** ** clipping *)
Lemma clip_two (v0 v1 : clip_vertex R) n off ia (w : vec2 R) : (w = cv_v v0 \/ w = cv_v v1) -> dotp n w < off ->
  exists c0 c1, b2_clip_segment_to_line v0 v1 n off ia = Ok [c0; c1] /\ (w = cv_v c0 \/ w = cv_v c1).
Proof.
  intros Hw Hd. unfold b2_clip_segment_to_line.
  set (d0 := (b2_dot n (cv_v v0) - off)%num). set (d1 := (b2_dot n (cv_v v1) - off)%num).
  assert (Hs : (w = cv_v v0 /\ d0 < 0) \/ (w = cv_v v1 /\ d1 < 0)).
  { unfold d0, d1. destruct Hw as [->| ->]; [left|right]; (split; [reflexivity|]); unfold dotp in Hd; rmathc; lra. }
  clearbody d0 d1. rops. destruct Hs as [(-> & H)|(-> & H)].
  - rewrite (Rle_bool_true d0 0) by lra. destruct (Rle_bool_spec d1 0) as [G|G].
    + rewrite (Rlt_bool_false (d0 * d1) 0) by nra. cbn [app]. exists v0, v1. split; [reflexivity|]. left. reflexivity.
    + rewrite (Rlt_bool_true (d0 * d1) 0) by nra. cbn [app length Nat.eqb b2_assert bind]. eexists v0, _. split; [reflexivity|]. left. reflexivity.
  - rewrite (Rle_bool_true d1 0) by lra. destruct (Rle_bool_spec d0 0) as [G|G].
    + rewrite (Rlt_bool_false (d0 * d1) 0) by nra. cbn [app]. exists v0, v1. split; [reflexivity|]. right. reflexivity.
    + rewrite (Rlt_bool_true (d0 * d1) 0) by nra. cbn [app length Nat.eqb b2_assert bind]. eexists v1, _. split; [reflexivity|]. left. reflexivity.
Qed.
Lemma keep_two (pts : list (mpoint R)) c0 c1 sp r local idf : length pts = 2%nat -> exists pts' cnt,
  keep_points pts [c0; c1] sp r local idf = Ok (pts', cnt) /\ (cnt <= 2)%nat /\ length pts' = 2%nat /\
  (forall i, (i < cnt)%nat -> exists p c, nth_error pts' i = Some p /\ (c = c0 \/ c = c1) /\ mp_local p = local (cv_v c) /\ sp (cv_v c) <= r) /\
  (forall c, c = c0 \/ c = c1 -> sp (cv_v c) <= r -> (0 < cnt)%nat).
Proof.
  intros L. destruct pts as [|q0 [|q1 []]]; cbn in L; try lia. unfold keep_points, for_range. cbn [B2_MAX_MANIFOLD_POINTS Nat.sub for_from bind get nth_error].
  change (@nle R R_Num) with Rle_bool.
  destruct (Rle_bool_spec (sp (cv_v c0)) r) as [A|A]; cbn [bind set_mpoint get set nth_error upd];
    destruct (Rle_bool_spec (sp (cv_v c1)) r) as [B|B]; cbn [bind set_mpoint get set nth_error upd length Nat.ltb Nat.leb];
    (do 2 eexists; split; [reflexivity|]; split; [lia|]; split; [reflexivity|]; split; [|intros c [->| ->]; intros; try lia; try lra]).
  - intros [|[|i]] Hi; [| |lia]; cbn [nth_error]; do 2 eexists; (split; [reflexivity|]); [split; [left; reflexivity|split; [reflexivity|exact A]]|split; [right; reflexivity|split; [reflexivity|exact B]]].
  - intros [|i] Hi; [|lia]; cbn [nth_error]; do 2 eexists; (split; [reflexivity|]); split; [left; reflexivity|split; [reflexivity|exact A]].
  - intros [|i] Hi; [|lia]; cbn [nth_error]; do 2 eexists; (split; [reflexivity|]); split; [right; reflexivity|split; [reflexivity|exact B]].
  - intros i Hi; lia.
Qed.
Lemma spanned_in (l : list (clip_vertex R)) c : (length l <= 2)%nat -> In c l -> spanned (map cv_v l) (cv_v c).
Proof.
  destruct l as [|a [|b []]]; cbn [length]; intros L; try lia; cbn [In map spanned].
  - tauto.
  - intros [->|[]]. reflexivity.
  - intros [->|[->|[]]]; [apply on_start|apply on_end].
Qed.

(** ** after the reference face is chosen *)
(* b2_collide_polygon.rs:150-225 *)
Definition poly_tail (m : manifold R) (poly1 poly2 : polygon R) (xf1 xf2 : xform R) (edge1 : nat) (ty : mtype) (flip : bool) (total_radius : R) : res (manifold R) :=
  (let m := MF (mf_points m) (mf_local_normal m) (mf_local_point m) ty 0 in
  bind (b2_find_incident_edge poly1 xf1 edge1 poly2 xf2) (fun '(c0, c1) =>
  let iv1 := edge1 in
  let iv2 := if Nat.ltb (edge1 + 1)%nat (po_count poly1) then (edge1 + 1)%nat else 0%nat in
  bind (get (po_vertices poly1) iv1) (fun v11 =>
  bind (get (po_vertices poly1) iv2) (fun v12 =>
  let local_tangent := snd (vnormalize (vsub v12 v11)) in
  let local_normal := b2_cross_vs local_tangent (nofZ 1) in
  let plane_point := vscale (nlit 1 2) (vadd v11 v12) in
  let tangent := rotv (xq xf1) local_tangent in
  let normal := b2_cross_vs tangent (nofZ 1) in
  let v11 := xfv xf1 v11 in
  let v12 := xfv xf1 v12 in
  let front_offset := b2_dot normal v11 in
  let side_offset1 := (- b2_dot tangent v11 + total_radius)%num in
  let side_offset2 := (b2_dot tangent v12 + total_radius)%num in
  bind (b2_clip_segment_to_line c0 c1 (vneg tangent) side_offset1 iv1) (fun out1 =>
  match out1 with
  | [c0; c1] =>
    bind (b2_clip_segment_to_line c0 c1 tangent side_offset2 iv2) (fun out2 =>
    if Nat.ltb (length out2) 2 then Ok m
    else
      bind (keep_points (mf_points m) out2 (fun v => b2_dot normal v - front_offset)%num total_radius
          (fun v => xfv_t xf2 v) (fun id => if flip then swap_id id else id)) (fun '(pts, count) =>
      Ok (MF pts local_normal plane_point ty count)))
  | _ => Ok m
  end))))).
Lemma polygons_unfold (m : manifold R) a xa b xb : b2_collide_polygons m a xa b xb =
  bind (b2_find_max_separation a xa b xb) (fun '(sa, ea) => if Rlt_bool (po_radius a + po_radius b) sa then Ok (mf_none m) else
  bind (b2_find_max_separation b xb a xa) (fun '(sb, eb) => if Rlt_bool (po_radius a + po_radius b) sb then Ok (mf_none m) else
    if Rlt_bool (sa + nlit 1 10 * B2_LINEAR_SLOP) sb then poly_tail m b a xb xa eb MFaceB true (po_radius a + po_radius b)
    else poly_tail m a b xa xb ea MFaceA false (po_radius a + po_radius b))).
Proof.
  unfold b2_collide_polygons. destruct (b2_find_max_separation a xa b xb) as [(sa, ea)| |]; [cbn [bind]|reflexivity|reflexivity].
  change (@nlt R R_Num) with Rlt_bool. change (po_radius a + po_radius b)%num with (po_radius a + po_radius b).
  destruct (Rlt_bool (po_radius a + po_radius b) sa); [reflexivity|]. destruct (b2_find_max_separation b xb a xa) as [(sb, eb)| |]; [cbn [bind]|reflexivity|reflexivity].
  destruct (Rlt_bool (po_radius a + po_radius b) sb); [reflexivity|]. change (sa + nlit 1 10 * B2_LINEAR_SLOP)%num with (sa + nlit 1 10 * B2_LINEAR_SLOP).
  destruct (Rlt_bool (sa + nlit 1 10 * B2_LINEAR_SLOP) sb); reflexivity.
Qed.

Lemma strip (t v a b : vec2 R) (r : R) : half_plane (vneg t) (- b2_dot t a + r)%num v -> half_plane t (b2_dot t b + r)%num v ->
  dotp t a - r <= dotp t v <= dotp t b + r.
Proof. unfold half_plane, dotp. rmathc. intros. lra. Qed.
Section Tail.
  Variables (p1 p2 : polygon R) (x1 x2 : xform R).
  Hypothesis Pr1 : proper p1. Hypothesis Pr2 : proper p2.
  Hypothesis U1 : unit_rot (xq x1). Hypothesis U2 : unit_rot (xq x2).
  Hypothesis Long : edges_long p1 B2_EPSILON.
  Lemma one_max : 1 < (B2_MAX_FLOAT : R).
  Proof. change (1 < IZR ((2 ^ 24 - 1) * 2 ^ 104)). apply IZR_lt. reflexivity. Qed.
  Lemma argmin_ok d : unit_vec d -> exists i, argmin_dot d (po_normals p2) (po_count p2) = Ok i /\ (i < po_count p2)%nat /\
    forall j, (j < po_count p2)%nat -> dotp d (N p2 i) <= dotp d (N p2 j).
  Proof.
    intros Ud. pose proof (n3 p2 Pr2) as N3. pose proof one_max as OM. unfold argmin_dot, for_range. rewrite Nat.sub_0_r.
    match goal with |- context [for_from ?nn ?lo ?f ?s0] => destruct (for_from_inv (fun i (st : R * nat) => let (s, k) := st in (k < po_count p2)%nat /\ (i = 0%nat \/ s = dotp d (N p2 k)) /\ (i = 0%nat -> s = B2_MAX_FLOAT) /\
      forall j, (j < i)%nat -> s <= dotp d (N p2 j)) f nn lo s0) as ((s & k) & E & P) end.
    - split; [lia|]. split; [left; reflexivity|]. split; [reflexivity|lia].
    - intros i (s & k) Hi (A & B & B0 & C). assert (Hi' : (i < po_count p2)%nat) by lia. rewrite (get_N p2 Pr2 i Hi'). cbn [bind]. change (@nlt R R_Num) with Rlt_bool. change (b2_dot d (N p2 i)) with (dotp d (N p2 i)).
      eexists. split; [reflexivity|]. destruct (edge_facts p2 Pr2 i Hi') as (Ui & _).
      assert (Le : dotp d (N p2 i) <= 1) by (apply dot_bound; [exact Ud|lra|unfold unit_vec in Ui; unfold dotp; lra]).
      destruct (Rlt_bool_spec (dotp d (N p2 i)) s) as [G|G].
      + split; [exact Hi'|]. split; [right; reflexivity|]. split; [lia|]. intros j Hj. destruct (Nat.eq_dec j i) as [->|]; [lra|]. specialize (C j ltac:(lia)). lra.
      + destruct B as [->|B]; [exfalso; rewrite (B0 eq_refl) in G; lra|]. split; [exact A|]. split; [right; exact B|]. split; [lia|]. intros j Hj. destruct (Nat.eq_dec j i) as [->|]; [lra|]. apply C. lia.
    - match goal with |- context [bind ?x _] => replace x with (@Ok (R * nat) (s, k)) by (symmetry; exact E) end. cbn [bind]. exists k. split; [reflexivity|]. cbn [Nat.add] in P. destruct P as (A & B & _ & C). split; [exact A|].
      intros j Hj. specialize (C j Hj). destruct B as [B|B]; [lia|]. rewrite <- B. exact C.
  Qed.
  Lemma turned_back u : turned (xq x2) (rotv_t (xq x2) u) = u.
  Proof.
    unfold unit_rot in U2. unfold turned, rotv_t; cbn [vx vy]. rops.
    apply vec2_ext; cbn [vx vy].
    - transitivity ((rc (xq x2) * rc (xq x2) + rs (xq x2) * rs (xq x2)) * vx u); [ring|]. replace (rc (xq x2) * rc (xq x2) + rs (xq x2) * rs (xq x2)) with 1 by lra. ring.
    - transitivity ((rc (xq x2) * rc (xq x2) + rs (xq x2) * rs (xq x2)) * vy u); [ring|]. replace (rc (xq x2) * rc (xq x2) + rs (xq x2) * rs (xq x2)) with 1 by lra. ring.
  Qed.
  Lemma dot_forth u v : dotp (rotv_t (xq x2) u) v = dotp u (turned (xq x2) v).
  Proof. unfold dotp, rotv_t, turned; cbn [vx vy]. rops. ring. Qed.
  Lemma unit_back u : unit_vec u -> unit_vec (rotv_t (xq x2) u).
  Proof.
    unfold unit_vec, unit_rot in *. intros U. transitivity ((rc (xq x2) * rc (xq x2) + rs (xq x2) * rs (xq x2)) * (vx u * vx u + vy u * vy u)); [unfold rotv_t; cbn [vx vy]; rops; ring|]. rewrite U. lra.
  Qed.
  Lemma incident k : (k < po_count p1)%nat -> exists i id0 id1, let c0 := W p2 x2 i in let c1 := W p2 x2 (after (po_count p2) i) in
    b2_find_incident_edge p1 x1 k p2 x2 = Ok (CV c0 id0, CV c1 id1) /\ (i < po_count p2)%nat /\
    exists w, (w = c0 \/ w = c1) /\ deepest p2 x2 (M p1 x1 k) w.
  Proof.
    intros Hk. unfold b2_find_incident_edge. destruct (Nat.ltb_spec k (po_count p1)); [|lia]. cbn [b2_assert bind]. rewrite (get_N p1 Pr1 k Hk). cbn [bind].
    rewrite rotv_turned. fold (M p1 x1 k). set (d := rotv_t (xq x2) (M p1 x1 k)).
    destruct (edge_facts p1 Pr1 k Hk) as (Uk & _). assert (UM : unit_vec (M p1 x1 k)) by (apply unit_turned; assumption). assert (Ud : unit_vec d) by (apply unit_back, UM).
    destruct (argmin_ok d Ud) as (i & -> & Hi & Mn). cbn [bind].
    replace (if Nat.ltb (i + 1) (po_count p2) then (i + 1)%nat else 0%nat) with (after (po_count p2) i) by (unfold after; rewrite Nat.add_1_r; reflexivity).
    rewrite (get_V p2 Pr2 i Hi), (get_V p2 Pr2 _ (af_lt p2 Pr2 i)). cbn [bind]. rewrite !(xfv_place x2).
    exists i. do 2 eexists. cbv zeta. split; [reflexivity|]. split; [exact Hi|].
    assert (Sup : forall v, inner p2 v -> dotp d (V p2 i) <= dotp d v \/ dotp d (V p2 (after (po_count p2) i)) <= dotp d v).
    { intros v Iv. destruct (support_edge p2 Pr2 (V2 (- vx d) (- vy d)) i v) as [G|G]; [|exact Hi| |exact Iv|left|right].
      - intros Z. unfold unit_vec in Ud. clearbody d. injection Z as Z1 Z2. assert (X0 : vx d = 0) by lra. assert (Y0 : vy d = 0) by lra. rewrite X0, Y0 in Ud. lra.
      - intros j Hj. specialize (Mn j Hj). unfold dotp in *; cbn [vx vy]. lra.
      - unfold dotp in *; cbn [vx vy] in G. lra.
      - unfold dotp in *; cbn [vx vy] in G. lra. }
    assert (Wd : forall v, dotp (M p1 x1 k) (place x2 v) = dotp d v + dotp (M p1 x1 k) (xp x2)).
    { intros v. unfold d. rewrite dot_forth. unfold dotp, place, turned; cbn [vx vy]. ring. }
    assert (Cor : forall j, (j < po_count p2)%nat -> corner p2 x2 (W p2 x2 j)).
    { intros j Hj. exists j, (V p2 j). split; [exact Hj|]. split; [|reflexivity]. rewrite <- used_nth by exact Hj. apply vs_nth; assumption. }
    assert (Inn : forall w', corner p2 x2 w' -> exists v, inner p2 v /\ w' = place x2 v).
    { intros w' (j & v & Hj & Ev & ->). exists v. split; [|reflexivity]. rewrite <- used_nth in Ev by exact Hj. rewrite (vs_nth p2 Pr2 j Hj) in Ev. injection Ev as <-. apply vertex_inner; assumption. }
    destruct (Rle_lt_dec (dotp d (V p2 i)) (dotp d (V p2 (after (po_count p2) i)))) as [G|G].
    - exists (W p2 x2 i). split; [left; reflexivity|]. split; [apply Cor, Hi|]. intros w' Cw. destruct (Inn w' Cw) as (v & Iv & ->). unfold W. rewrite !Wd. destruct (Sup v Iv); lra.
    - exists (W p2 x2 (after (po_count p2) i)). split; [right; reflexivity|]. split; [apply Cor, (af_lt p2 Pr2 i)|]. intros w' Cw. destruct (Inn w' Cw) as (v & Iv & ->). unfold W. rewrite !Wd. destruct (Sup v Iv); lra.
  Qed.
  Lemma seg_in i v : (i < po_count p2)%nat -> on_segment (W p2 x2 i) (W p2 x2 (after (po_count p2) i)) v -> in_polygon p2 x2 v.
  Proof.
    intros Hi (t & T & ->). unfold W. rewrite <- place_along. exists (along (V p2 i) (V p2 (after (po_count p2) i)) t). split; [reflexivity|]. apply inner_mix; [exact Pr2| | |exact T]; apply vertex_inner; try assumption. apply (af_lt p2 Pr2).
  Qed.
  Definition tail_says (k : nat) (r : R) (ty : mtype) (m' : manifold R) : Prop :=
    let n := M p1 x1 k in let a := W p1 x1 k in let b := W p1 x1 (after (po_count p1) k) in
    (mf_count m' <= 2)%nat /\ mf_type m' = ty /\
    ((0 < mf_count m')%nat -> mf_local_normal m' = N p1 k /\ place x1 (mf_local_point m') = along a b (1 / 2)) /\
    (exists i, (i < po_count p2)%nat /\ forall h, (h < mf_count m')%nat -> exists p, nth_error (mf_points m') h = Some p /\ let v := place x2 (mp_local p) in
      on_segment (W p2 x2 i) (W p2 x2 (after (po_count p2) i)) v /\ dotp n (minus v a) <= r /\ dotp (face_dir n) a - r <= dotp (face_dir n) v <= dotp (face_dir n) b + r) /\
    exists w, deepest p2 x2 n w /\ (dotp n (minus w a) <= r -> over_face n a b r w -> (0 < mf_count m')%nat).
  Lemma tail_ok (m : manifold R) k ty flip r : (k < po_count p1)%nat -> length (mf_points m) = 2%nat ->
    exists m', poly_tail m p1 p2 x1 x2 k ty flip r = Ok m' /\ tail_says k r ty m'.
  Proof.
    intros Hk Lm. unfold poly_tail. cbv zeta. destruct (incident k Hk) as (i & id0 & id1 & -> & Hi & w & Ww & Dw). cbn [bind].
    replace (if Nat.ltb (k + 1) (po_count p1) then (k + 1)%nat else 0%nat) with (after (po_count p1) k) by (unfold after; rewrite Nat.add_1_r; reflexivity).
    set (k' := after (po_count p1) k). assert (Hk' : (k' < po_count p1)%nat) by apply (af_lt p1 Pr1).
    rewrite (get_V p1 Pr1 k Hk), (get_V p1 Pr1 k' Hk'). cbn [bind].
    destruct (edge_facts p1 Pr1 k Hk) as (Uk & q & Qp & Ex & Ey & _). fold k' in Ex, Ey.
    assert (Tan : snd (vnormalize (vsub (V p1 k') (V p1 k))) = V2 (- vy (N p1 k)) (vx (N p1 k))).
    { assert (Lq : dist2 (V p1 k') (V p1 k) = q * q) by (unfold dist2; rewrite Ex, Ey; unfold unit_vec in Uk; transitivity (q * q * (vx (N p1 k) * vx (N p1 k) + vy (N p1 k) * vy (N p1 k))); [ring|rewrite Uk; ring]).
      assert (Sq : sqrt (dotp (vsub (V p1 k') (V p1 k)) (vsub (V p1 k') (V p1 k))) = q) by (change (dotp (vsub (V p1 k') (V p1 k)) (vsub (V p1 k') (V p1 k))) with (dist2 (V p1 k') (V p1 k)); rewrite Lq; apply sqrt_square; lra).
      destruct (normalize_unit (vsub (V p1 k') (V p1 k))) as (_ & Vn).
      { rewrite Sq. pose proof eps_pos as Ep. assert (Hl : B2_EPSILON * B2_EPSILON <= q * q).
        { rewrite <- Lq. apply (Long k); [exact Hk| |]; rewrite <- used_nth by assumption; apply vs_nth; assumption. }
        apply Rnot_lt_le. intros L. assert (q * q < B2_EPSILON * B2_EPSILON) by (apply Rmult_le_0_lt_compat; lra). lra. }
      rewrite Vn, Sq. assert (Vx : vx (vsub (V p1 k') (V p1 k)) = - q * vy (N p1 k)) by exact Ex. assert (Vy : vy (vsub (V p1 k') (V p1 k)) = q * vx (N p1 k)) by exact Ey. rewrite Vx, Vy. apply vec2_ext; cbn [vx vy]; field; lra. }
    rewrite Tan. set (n := M p1 x1 k).
    assert (Tw : rotv (xq x1) (V2 (- vy (N p1 k)) (vx (N p1 k))) = face_dir n) by (rewrite rotv_turned; unfold n, M, face_dir, turned; cbn [vx vy]; apply vec2_ext; cbn [vx vy]; ring).
    rewrite Tw.
    assert (Nw : b2_cross_vs (face_dir n) (nofZ 1) = n) by (unfold face_dir; apply vec2_ext; rmathc; ring).
    rewrite Nw, !(xfv_place x1). fold (W p1 x1 k) (W p1 x1 k'). set (a := W p1 x1 k). set (b := W p1 x1 k').
    assert (Nl : b2_cross_vs (V2 (- vy (N p1 k)) (vx (N p1 k))) (nofZ 1) = N p1 k) by (apply vec2_ext; rmathc; ring). rewrite Nl.
    assert (Mid : place x1 (vscale (nlit 1 2) (vadd (V p1 k) (V p1 k'))) = along a b (1 / 2)).
    { unfold a, b, W. rewrite <- place_along. f_equal. unfold along. apply vec2_ext; rmathc; field. }
    assert (Zero : forall ok : Prop, ok = True -> let m' := MF (mf_points m) (mf_local_normal m) (mf_local_point m) ty 0 in
      ~ over_face n a b r w -> tail_says k r ty m').
    { intros _ _ m' No. unfold tail_says. cbv zeta. fold n a k' b. cbn [mf_count mf_type m']. split; [lia|]. split; [reflexivity|]. split; [lia|]. split; [exists i; split; [exact Hi|lia]|]. exists w. split; [exact Dw|]. intros _ Ov. contradiction. }
    specialize (Zero True eq_refl). cbv zeta in Zero.
    match goal with |- context [b2_clip_segment_to_line ?v0 ?v1 ?nn ?off ?ia] => destruct (clip_ok v0 v1 nn off ia) as (out1 & E1 & S1); pose proof (clip_two v0 v1 nn off ia w Ww) as T1 end.
    assert (In1 : over_face n a b r w -> dotp (vneg (face_dir n)) w < (- b2_dot (face_dir n) a + r)%num).
    { intros (A & B). unfold dotp in *. rmathc. lra. }
    assert (L1 : (length out1 <= 2)%nat) by (apply (clip_in_pair _ _ _ _ _ _ E1)).
    rewrite E1. cbn [bind]. 
    destruct out1 as [|d0 [|d1 [|? ?]]]; [| | |cbn in L1; lia].
    1,2: (eexists; split; [reflexivity|]; apply Zero; intros Ov; destruct (T1 (In1 Ov)) as (? & ? & T & _); rewrite E1 in T; discriminate T).
    match goal with |- context [b2_clip_segment_to_line d0 d1 ?nn ?off ?ia] => destruct (clip_ok d0 d1 nn off ia) as (out2 & E2 & S2); pose proof (clip_two d0 d1 nn off ia w) as T2 end.
    assert (In2 : over_face n a b r w -> dotp (face_dir n) w < (b2_dot (face_dir n) b + r)%num).
    { intros (A & B). unfold dotp in *. rmathc. lra. }
    assert (W2 : over_face n a b r w -> exists e0 e1, out2 = [e0; e1] /\ (w = cv_v e0 \/ w = cv_v e1)).
    { intros Ov. destruct (T1 (In1 Ov)) as (f0 & f1 & T & Wf). rewrite E1 in T. injection T as <- <-. destruct (T2 Wf (In2 Ov)) as (e0 & e1 & T & We). rewrite E2 in T. injection T as ->. exists e0, e1. split; [reflexivity|exact We]. }
    assert (L2 : (length out2 <= 2)%nat) by (apply (clip_in_pair _ _ _ _ _ _ E2)).
    rewrite E2. cbn [bind].
    destruct out2 as [|e0 [|e1 [|? ?]]]; [| | |cbn in L2; lia]; cbn [length Nat.ltb Nat.leb].
    1,2: (eexists; split; [reflexivity|]; apply Zero; intros Ov; destruct (W2 Ov) as (? & ? & T & _); discriminate T).
    cbn [mf_points].
    match goal with |- context [keep_points ?pts [e0; e1] ?sp ?rr ?lc ?idf] => destruct (keep_two pts e0 e1 sp rr lc idf Lm) as (pts' & cnt & Ek & Lc & Lp' & Kp & Kw) end.
    rewrite Ek. cbn [bind]. eexists. split; [reflexivity|]. unfold tail_says. cbv zeta. fold n a k' b. cbn [mf_count mf_type mf_local_normal mf_local_point mf_points].
    assert (Spe : forall v, (b2_dot n v - b2_dot n a)%num = dotp n (minus v a)) by (intros v; unfold dotp, minus; rmathc; ring).
    split; [exact Lc|]. split; [reflexivity|]. split; [intros _; split; [reflexivity|exact Mid]|]. split.
    - exists i. split; [exact Hi|]. intros h Hh. destruct (Kp h Hh) as (p & c & Ep & Ec & El & Es). exists p. split; [exact Ep|]. rewrite El, (place_local x2 U2). rewrite Spe in Es.
      assert (Sp2 : spanned (map cv_v [e0; e1]) (cv_v c)) by (apply spanned_in; [cbn; lia|cbn; destruct Ec as [->| ->]; auto]).
      apply S2 in Sp2 as (Sg2 & H2). assert (Sp1 : spanned (map cv_v [d0; d1]) (cv_v c)) by exact Sg2. apply S1 in Sp1 as (Sg1 & H1). cbn [cv_v] in Sg1.
      split; [exact Sg1|]. split; [exact Es|]. exact (strip _ _ _ _ _ H1 H2).
    - exists w. split; [exact Dw|]. intros Sw Ov. destruct (W2 Ov) as (f0 & f1 & T & We). injection T as <- <-.
      destruct We as [-> | ->]; [apply (Kw e0)|apply (Kw e1)]; try (left; reflexivity); try (right; reflexivity); rewrite Spe; exact Sw.
  Qed.
End Tail.

(** ** the whole function *)
Lemma face_at po xf i : proper po -> (i < po_count po)%nat -> face po xf i (M po xf i) (W po xf i) (W po xf (after (po_count po) i)).
Proof.
  intros Pr Hi. split; [exact Hi|]. exists (N po i), (V po i), (V po (after (po_count po) i)). split; [apply N_nth; assumption|].
  split; [rewrite <- used_nth by exact Hi; apply vs_nth; assumption|]. pose proof (af_lt po Pr i). split; [rewrite <- used_nth by assumption; apply vs_nth; assumption|]. repeat split.
Qed.
Lemma face_inv po xf i n p p' : proper po -> face po xf i n p p' -> (i < po_count po)%nat /\ n = M po xf i /\ p = W po xf i /\ p' = W po xf (after (po_count po) i).
Proof.
  intros Pr (Hi & m & a & b & Em & Ea & Eb & -> & -> & ->). split; [exact Hi|]. pose proof (af_lt po Pr i) as Ha.
  rewrite (N_nth po Pr i Hi) in Em. rewrite <- used_nth in Ea by exact Hi. rewrite <- used_nth in Eb by exact Ha. rewrite (vs_nth po Pr i Hi) in Ea. rewrite (vs_nth po Pr _ Ha) in Eb.
  injection Em as <-. injection Ea as <-. injection Eb as <-. repeat split.
Qed.
Lemma corner_at po xf j : proper po -> (j < po_count po)%nat -> corner po xf (W po xf j).
Proof. intros Pr Hj. exists j, (V po j). split; [exact Hj|]. split; [|reflexivity]. rewrite <- used_nth by exact Hj. apply vs_nth; assumption. Qed.
Lemma corner_inv po xf w : proper po -> corner po xf w -> exists j, (j < po_count po)%nat /\ w = W po xf j.
Proof. intros Pr (j & v & Hj & Ev & ->). exists j. split; [exact Hj|]. rewrite <- used_nth in Ev by exact Hj. rewrite (vs_nth po Pr j Hj) in Ev. injection Ev as <-. reflexivity. Qed.
Lemma apart_gap p1 p2 x1 x2 r : proper p1 -> proper p2 ->
  (apart p1 x1 p2 x2 r <-> exists i, (i < po_count p1)%nat /\ forall j, (j < po_count p2)%nat -> r < gap p1 p2 x1 x2 i j).
Proof.
  intros P1 P2. split.
  - intros (i & n & p & p' & F & H). apply face_inv in F as (Hi & -> & -> & _); [|exact P1]. exists i. split; [exact Hi|]. intros j Hj. apply H, corner_at; assumption.
  - intros (i & Hi & H). exists i, (M p1 x1 i), (W p1 x1 i), (W p1 x1 (after (po_count p1) i)). split; [apply face_at; assumption|]. intros w Cw. apply corner_inv in Cw as (j & Hj & ->); [|exact P2]. apply H, Hj.
Qed.
Lemma apart_far p1 p2 x1 x2 r u v : proper p1 -> proper p2 -> unit_rot (xq x1) -> unit_rot (xq x2) -> 0 <= r -> apart p1 x1 p2 x2 r ->
  in_polygon p1 x1 u -> in_polygon p2 x2 v -> r * r < dist2 u v.
Proof.
  intros P1 P2 U1 U2 Hr (i & n & p & p' & F & H) (a & -> & Ia) (b & -> & Ib). apply face_inv in F as (Hi & -> & -> & _); [|exact P1].
  destruct (incident p1 p2 x1 x2 P1 P2 U1 U2 i Hi) as (k & id0 & id1 & _ & _ & w & _ & Cw & Dw).
  specialize (H w Cw). apply (HullRegion.proper_region p2 b P2), HullRegion.in_hull_hull in Ib.
  set (n := M p1 x1 i) in *.
  assert (Gb : dotp n w <= dotp n (place x2 b)).
  { assert (0 <= (vx n * rc (xq x2) + vy n * rs (xq x2)) * vx b + (- vx n * rs (xq x2) + vy n * rc (xq x2)) * vy b + (vx n * vx (xp x2) + vy n * vy (xp x2) - dotp n w)).
    { apply (DistProofs.hull_affine (used_vertices p2)); [|exact Ib]. intros c Ic. apply In_nth_error in Ic as (j & Ej).
      assert (Hj : (j < po_count p2)%nat). { rewrite <- (used_length p2 (proj1 P2)). apply nth_error_Some. rewrite Ej. discriminate. }
      rewrite (vs_nth p2 P2 j Hj) in Ej. injection Ej as <-. specialize (Dw _ (corner_at p2 x2 j P2 Hj)). unfold W, place in Dw. unfold dotp in *; cbn [vx vy] in *. lra. }
    unfold dotp, place in *; cbn [vx vy] in *. lra. }
  destruct (edge_facts p1 P1 i Hi) as (Ui & _). pose proof (inner_dot p1 P1 a i Ia Hi) as Da. rewrite <- (dotp_turned x1 U1) in Da. fold (M p1 x1 i) in Da. fold n in Da. fold (W p1 x1 i) in Da.
  apply Rnot_le_lt. intros D. pose proof (dot_bound n (minus (place x2 b) (place x1 a)) r) as B. specialize (B (unit_turned x1 U1 _ Ui) Hr).
  assert (X : dotp (minus (place x2 b) (place x1 a)) (minus (place x2 b) (place x1 a)) <= r * r) by (rewrite dist2_sym in D; exact D). specialize (B X).
  unfold dotp, minus in *; cbn [vx vy] in *. lra.
Qed.

Definition slack : R := nlit 1 10 * B2_LINEAR_SLOP.
Lemma slack_pos : 0 < slack.
Proof. unfold slack, B2_LINEAR_SLOP, B2_LENGTH_UNITS_PER_METER, nlit. cbn. lra. Qed.
Section Whole.
  Variables (m : manifold R) (a b : polygon R) (xa xb : xform R).
  Hypothesis Pa : proper a. Hypothesis Pb : proper b.
  Hypothesis Ua : unit_rot (xq xa). Hypothesis Ub : unit_rot (xq xb).
  Hypothesis La : edges_long a B2_EPSILON. Hypothesis Lb : edges_long b B2_EPSILON.
  Hypothesis Lm : length (mf_points m) = 2%nat.
  Let r := po_radius a + po_radius b.
  Hypothesis Hr : 0 <= r < B2_MAX_FLOAT.
  Lemma sep_over p1 p2 x1 x2 s k : proper p1 -> proper p2 ->
    (s = - B2_MAX_FLOAT \/ forall j, (j < po_count p2)%nat -> s <= gap p1 p2 x1 x2 k j) -> (k < po_count p1)%nat -> r < s -> apart p1 x1 p2 x2 r.
  Proof.
    intros P1 P2 H Hk G. apply apart_gap; [exact P1|exact P2|]. exists k. split; [exact Hk|]. intros j Hj. pose proof max_float_pos. destruct H as [H|H]; [lra|]. specialize (H j Hj). lra.
  Qed.
  Lemma sep_under p1 p2 x1 x2 s : proper p1 -> proper p2 ->
    (forall i, (i < po_count p1)%nat -> (exists j, (j < po_count p2)%nat /\ gap p1 p2 x1 x2 i j <= s) \/ B2_MAX_FLOAT <= s) -> s <= r -> ~ apart p1 x1 p2 x2 r.
  Proof.
    intros P1 P2 H G Ap. apply apart_gap in Ap as (i & Hi & Ap); [|exact P1|exact P2]. destruct (H i Hi) as [(j & Hj & L)|L]; [specialize (Ap j Hj)|]; lra.
  Qed.
  Lemma better p1 p2 x1 x2 s g : proper p1 -> proper p2 -> s <= r ->
    (forall i, (i < po_count p1)%nat -> (exists j, (j < po_count p2)%nat /\ gap p1 p2 x1 x2 i j <= s) \/ B2_MAX_FLOAT <= s) ->
    (s <= g + slack \/ s <= - B2_MAX_FLOAT + slack) -> no_better p1 x1 p2 x2 g slack.
  Proof.
    intros P1 P2 Sr H G i n p p' F. apply face_inv in F as (Hi & -> & -> & _); [|exact P1]. destruct (H i Hi) as [(j & Hj & L)|L]; [|exfalso; lra].
    exists (W p2 x2 j). split; [apply corner_at; assumption|]. fold (gap p1 p2 x1 x2 i j). destruct G; [left|right]; lra.
  Qed.
  (* the tail in terms of the specification *)
  Lemma tail_spec p1 p2 x1 x2 k s s2 m' ty : proper p1 -> proper p2 -> (k < po_count p1)%nat ->
    (forall i, (i < po_count p1)%nat -> (exists j, (j < po_count p2)%nat /\ gap p1 p2 x1 x2 i j <= s) \/ B2_MAX_FLOAT <= s) ->
    (s = - B2_MAX_FLOAT \/ forall j, (j < po_count p2)%nat -> s <= gap p1 p2 x1 x2 k j) ->
    (forall i, (i < po_count p2)%nat -> (exists j, (j < po_count p1)%nat /\ gap p2 p1 x2 x1 i j <= s2) \/ B2_MAX_FLOAT <= s2) ->
    s <= r -> s2 <= r -> s2 <= s + slack -> tail_says p1 p2 x1 x2 k r ty m' ->
    (mf_count m' <= 2)%nat /\ mf_type m' = ty /\ ((0 < mf_count m')%nat -> contact_points p1 x1 p2 x2 r m') /\ (mf_count m' = 0%nat -> beside p1 x1 p2 x2 r slack).
  Proof.
    intros P1 P2 Hk A B A2 Sr Sr2 S2 (C2 & Ty & Nl & (i & Hi & Pt) & w & Dw & Ov). split; [exact C2|]. split; [exact Ty|]. split.
    - intros C0. destruct (Nl C0) as (N1 & L1). exists k, (M p1 x1 k), (W p1 x1 k), (W p1 x1 (after (po_count p1) k)), i, (M p2 x2 i), (W p2 x2 i), (W p2 x2 (after (po_count p2) i)).
      split; [apply face_at; assumption|]. split; [apply face_at; assumption|]. split; [rewrite N1; reflexivity|]. split; [exact L1|]. exact Pt.
    - intros C0. exists k, (M p1 x1 k), (W p1 x1 k), (W p1 x1 (after (po_count p1) k)), w.
      pose proof slack_pos as Sp. pose proof max_float_pos as Mp.
      destruct (corner_inv p2 x2 w P2 (proj1 Dw)) as (jw & Hjw & Ew).
      assert (Sg : s = - B2_MAX_FLOAT \/ s <= dotp (M p1 x1 k) (minus w (W p1 x1 k))).
      { destruct B as [B|B]; [left; exact B|right]. rewrite Ew. apply (B jw Hjw). }
      assert (Gr : dotp (M p1 x1 k) (minus w (W p1 x1 k)) <= r).
      { destruct (A k Hk) as [(j & Hj & L)|L]; [|lra]. pose proof (proj2 Dw _ (corner_at p2 x2 j P2 Hj)) as Q. unfold gap in L. unfold dotp, minus in *; cbn [vx vy] in *. lra. }
      split; [apply face_at; assumption|]. split; [exact Dw|]. split; [intros O; specialize (Ov Gr O); lia|]. split.
      + apply (better p1 p2 x1 x2 s); try assumption. destruct Sg; [right|left]; lra.
      + apply (better p2 p1 x2 x1 s2); try assumption. destruct Sg; [right|left]; lra.
  Qed.
  Lemma polygons_ok : exists m', b2_collide_polygons m a xa b xb = Ok m' /\ (mf_count m' <= 2)%nat /\
    ((mf_count m' = 0%nat /\ (apart a xa b xb r \/ apart b xb a xa r)) \/
     (~ apart a xa b xb r /\ ~ apart b xb a xa r /\
      ((mf_type m' = MFaceA /\ ((0 < mf_count m')%nat -> contact_points a xa b xb r m') /\ (mf_count m' = 0%nat -> beside a xa b xb r slack)) \/
       (mf_type m' = MFaceB /\ ((0 < mf_count m')%nat -> contact_points b xb a xa r m') /\ (mf_count m' = 0%nat -> beside b xb a xa r slack))))).
  Proof.
    rewrite polygons_unfold. fold r.
    destruct (max_separation a b xa xb Pa Pb Ub) as (sa & ka & -> & Hka & Aa & Ba). cbn [bind].
    destruct (Rlt_bool_spec r sa) as [Ga|Ga].
    { exists (mf_none m). split; [reflexivity|]. split; [cbn; lia|]. left. split; [reflexivity|]. left. exact (sep_over a b xa xb sa ka Pa Pb Ba Hka Ga). }
    destruct (max_separation b a xb xa Pb Pa Ua) as (sb & kb & -> & Hkb & Ab & Bb). cbn [bind].
    destruct (Rlt_bool_spec r sb) as [Gb|Gb].
    { exists (mf_none m). split; [reflexivity|]. split; [cbn; lia|]. left. split; [reflexivity|]. right. exact (sep_over b a xb xa sb kb Pb Pa Bb Hkb Gb). }
    assert (Na : ~ apart a xa b xb r) by exact (sep_under a b xa xb sa Pa Pb Aa Ga). assert (Nb : ~ apart b xb a xa r) by exact (sep_under b a xb xa sb Pb Pa Ab Gb).
    fold slack. destruct (Rlt_bool_spec (sa + slack) sb) as [F|F].
    - destruct (tail_ok b a xb xa Pb Pa Ub Ua Lb m kb MFaceB true r Hkb Lm) as (m' & -> & T). exists m'. split; [reflexivity|]. pose proof slack_pos as Sp.
      destruct (tail_spec b a xb xa kb sb sa m' MFaceB Pb Pa Hkb Ab Bb Aa Gb Ga ltac:(lra) T) as (C2 & Ty & Cp & Bs). split; [exact C2|]. right. split; [exact Na|]. split; [exact Nb|]. right. split; [exact Ty|]. split; assumption.
    - destruct (tail_ok a b xa xb Pa Pb Ua Ub La m ka MFaceA false r Hka Lm) as (m' & -> & T). exists m'. split; [reflexivity|].
      destruct (tail_spec a b xa xb ka sa sb m' MFaceA Pa Pb Hka Aa Ba Ab Ga Gb F T) as (C2 & Ty & Cp & Bs). split; [exact C2|]. right. split; [exact Na|]. split; [exact Nb|]. left. split; [exact Ty|]. split; assumption.
  Qed.
  Lemma polygons_return : exists m', b2_collide_polygons m a xa b xb = Ok m' /\ (mf_count m' <= 2)%nat /\ (apart a xa b xb r \/ apart b xb a xa r -> mf_count m' = 0%nat).
  Proof.
    destruct polygons_ok as (m' & E & C2 & H). exists m'. split; [exact E|]. split; [exact C2|]. intros Ap. destruct H as [(C0 & _)|(Na & Nb & _)]; [exact C0|]. destruct Ap; contradiction.
  Qed.
  Lemma polygons_points m' : b2_collide_polygons m a xa b xb = Ok m' -> (0 < mf_count m')%nat ->
    ~ apart a xa b xb r /\ ~ apart b xb a xa r /\
    ((mf_type m' = MFaceA /\ contact_points a xa b xb r m') \/ (mf_type m' = MFaceB /\ contact_points b xb a xa r m')).
  Proof.
    intros E C. destruct polygons_ok as (m1 & E1 & C2 & H). rewrite E in E1. injection E1 as <-. destruct H as [(C0 & _)|(Na & Nb & H)]; [lia|]. split; [exact Na|]. split; [exact Nb|].
    destruct H as [(Ty & Cp & _)|(Ty & Cp & _)]; [left|right]; (split; [exact Ty|apply Cp, C]).
  Qed.
  Lemma polygons_missed m' : b2_collide_polygons m a xa b xb = Ok m' -> mf_count m' = 0%nat ->
    apart a xa b xb r \/ apart b xb a xa r \/ beside a xa b xb r slack \/ beside b xb a xa r slack.
  Proof.
    intros E C. destruct polygons_ok as (m1 & E1 & C2 & H). rewrite E in E1. injection E1 as <-. destruct H as [(_ & H)|(_ & _ & [(_ & _ & H)|(_ & _ & H)])]; [tauto|right; right; left; apply H, C|right; right; right; apply H, C].
  Qed.
End Whole.
