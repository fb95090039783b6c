(** An edge and a circle, over exact reals. *)
From Coq Require Import ZArith Reals Lra Lia Bool List Arith Psatz.
From Flocq Require Import Core.
From Verif Require Import Base Num NumLaws Math Collision Manifold ShapeModel CollideModel MathSpec GeomSpec ShapeSpec HullSpec CollideSpec RTac ListFacts MathProofs ManifoldProofs ShapeProofs HullProofs PolyCircle.
Import ListNotations.
Local Open Scope R_scope.

Lemma along_0 a b : along a b 0 = a.
Proof. apply vec2_ext; unfold along; cbn [vx vy]; ring. Qed.
Lemma along_1 a b : along a b 1 = b.
Proof. apply vec2_ext; unfold along; cbn [vx vy]; ring. Qed.
Lemma on_start a b : on_segment a b a.
Proof. exists 0. split; [lra|]. symmetry. apply along_0. Qed.
Lemma on_end a b : on_segment a b b.
Proof. exists 1. split; [lra|]. symmetry. apply along_1. Qed.
Lemma on_swap a b p : on_segment a b p -> on_segment b a p.
Proof. intros (t & T & ->). exists (1 - t). split; [lra|]. apply vec2_ext; unfold along; cbn [vx vy]; ring. Qed.
Lemma dist_along a b c t : dist2 c (along a b t) = dist2 c a - 2 * t * dotp (minus b a) (minus c a) + t * t * dist2 b a.
Proof. unfold dist2, along, dotp, minus; cbn [vx vy]. ring. Qed.
(* some point of the segment is nearer than its start *)
Lemma nearer a b c : (exists p, on_segment a b p /\ dist2 c p < dist2 c a) <-> 0 < dotp (minus b a) (minus c a).
Proof.
  set (g := dotp (minus b a) (minus c a)). pose proof (dist2_nonneg b a) as L0. split.
  - intros (p & (t & T & ->) & D). rewrite dist_along in D. fold g in D. set (L := dist2 b a) in *. clearbody g L.
    destruct (Rlt_le_dec 0 g) as [|G]; [assumption|exfalso]. assert (t * g <= 0) by nra. assert (0 <= t * t * L) by nra. lra.
  - intros G. set (L := dist2 b a) in *. assert (Lp : 0 < L).
    { destruct (Rle_lt_or_eq_dec 0 L L0) as [|E]; [assumption|exfalso]. unfold L, dist2 in E. unfold g, dotp, minus in G; cbn [vx vy] in G.
      symmetry in E. destruct (Rplus_sqr_eq_0 _ _ E) as (H & H0). rewrite H, H0 in G. lra. }
    destruct (Rle_lt_dec L g) as [H|H].
    + exists b. split; [apply on_end|]. rewrite <- (along_1 a b), dist_along. fold g L. lra.
    + exists (along a b (g / L)). split.
      * exists (g / L). split; [|reflexivity]. split; [apply Rmult_le_pos; [lra|left; apply Rinv_0_lt_compat; lra]|]. apply (Rmult_le_reg_r L); [lra|]. replace (g / L * L) with g by (field; lra). lra.
      * rewrite dist_along. fold g L. replace (dist2 c a - 2 * (g / L) * g + g / L * (g / L) * L) with (dist2 c a - g * (g / L)) by (field; lra).
        assert (0 < g * (g / L)) by (apply Rmult_lt_0_compat; [lra|apply Rdiv_lt_0_compat; lra]). lra.
Qed.
Lemma start_nearest a b c : nearest_on a b c a <-> dotp (minus b a) (minus c a) <= 0.
Proof.
  split.
  - intros (_ & H). apply Rnot_lt_le. intros G. apply nearer in G as (p & P & D). specialize (H p P). lra.
  - intros G. split; [apply on_start|]. intros p P. apply Rnot_lt_le. intros D. assert (0 < dotp (minus b a) (minus c a)) by (apply nearer; exists p; split; assumption). lra.
Qed.
Lemma nearest_swap a b c q : nearest_on a b c q -> nearest_on b a c q.
Proof. intros (A & B). split; [apply on_swap, A|]. intros p P. apply B, on_swap, P. Qed.
Lemma hidden_dot a b g c : hidden_by a b g c <-> dotp (minus b a) (minus c a) <= 0 /\ 0 < dotp (minus g a) (minus c a).
Proof. unfold hidden_by. rewrite start_nearest, nearer. reflexivity. Qed.

Section Local.
  Variables (m : manifold R) (ed : edge R) (ci : circle R) (xf xf_b : xform R).
  Hypothesis Lm : length (mf_points m) = 2%nat.
  Let a := ed_v1 ed. Let b := ed_v2 ed. Let v0 := ed_v0 ed. Let v3 := ed_v3 ed.
  Let r := ed_radius ed + ci_radius ci.
  Let c := xfv_t xf (xfv xf_b (ci_p ci)).
  Let one := ed_one_sided ed.

  Definition ec_made (m' : manifold R) : Prop :=
    (exists p, nth_error (mf_points m') 0 = Some p /\ mp_local p = ci_p ci) /\
    exists q, nearest_on a b c q /\ dist2 c q <= r * r /\
      ((mf_type m' = MCircles /\ q = mf_local_point m' /\ (q = a \/ q = b)) \/
       (mf_type m' = MFaceA /\ mf_local_point m' = a /\ exists d, 0 <= d /\
          (B2_EPSILON <= sqrt (dist2 b a) -> unit_vec (mf_local_normal m') /\ dotp (mf_local_normal m') (minus b a) = 0 /\ minus c q = V2 (d * vx (mf_local_normal m')) (d * vy (mf_local_normal m'))))).
  Lemma edge_circle : exists m', b2_collide_edge_and_circle m ed xf ci xf_b = Ok m' /\
    ((mf_count m' = 0%nat /\ (segment_reaches a b c r -> one = true /\ (in_front a b c -> hidden_by a b v0 c \/ hidden_by b a v3 c))) \/
     (mf_count m' = 1%nat /\ segment_reaches a b c r /\ ec_made m' /\ (one = true -> in_front a b c /\ ~ hidden_by a b v0 c /\ (a <> b -> ~ hidden_by b a v3 c)))).
  Proof.
    unfold b2_collide_edge_and_circle. cbv zeta. fold a b v0 v3 c one. change (ed_radius ed + ci_radius ci)%num with r.
    assert (Off : b2_dot (V2 (vy (vsub b a)) (- vx (vsub b a))%num) (vsub c a) = - turn a b c) by (unfold turn; rmathc; ring).
    rewrite !Off. change (@nlt R R_Num) with Rlt_bool. change (@nle R R_Num) with Rle_bool.
    change (b2_dot (vsub b a) (vsub c a)) with (dotp (minus b a) (minus c a)).
    change (b2_dot (vsub c a) (vsub c a)) with (dist2 c a). change (b2_dot (vsub c b) (vsub c b)) with (dist2 c b).
    replace (b2_dot (vsub b a) (vsub b c)) with (dotp (minus a b) (minus c b)) by (unfold dotp, minus; rmathc; ring).
    replace (b2_dot (vsub a v0) (vsub a c)) with (dotp (minus v0 a) (minus c a)) by (unfold dotp, minus; rmathc; ring).
    change (b2_dot (vsub v3 b) (vsub c b)) with (dotp (minus v3 b) (minus c b)).
    change (b2_dot (vsub b a) (vsub b a)) with (dist2 b a).
    change (nmul r r) with (r * r). change (nofZ 0) with 0. change (nofZ 1) with 1.
    destruct (one && Rlt_bool (- turn a b c) 0) eqn:Bk.
    { apply andb_true_iff in Bk as (O & T). destruct (Rlt_bool_spec (- turn a b c) 0) as [T'|]; [|discriminate].
      exists (mf_none m). split; [reflexivity|]. left. split; [reflexivity|]. intros _. split; [exact O|]. unfold in_front. intros. lra. }
    assert (Fr : one = true -> in_front a b c).
    { intros O. rewrite O in Bk. cbn [andb] in Bk. destruct (Rlt_bool_spec (- turn a b c) 0); [discriminate|]. unfold in_front. lra. }
    (* a corner *)
    assert (Corner : forall x y g id, (forall p, on_segment a b p <-> on_segment x y p) -> (x = a \/ x = b) -> dotp (minus y x) (minus c x) <= 0 ->
      (one = true -> 0 < dotp (minus g x) (minus c x) -> hidden_by a b v0 c \/ hidden_by b a v3 c) ->
      (one = true -> dotp (minus g x) (minus c x) <= 0 -> ~ hidden_by a b v0 c /\ (a <> b -> ~ hidden_by b a v3 c)) ->
      exists m', (if Rlt_bool (r * r) (dist2 c x) then Ok (mf_none m) else if one && Rlt_bool 0 (dotp (minus g x) (minus c x)) then Ok (mf_none m)
         else mf_one m MCircles vzero x (ci_p ci) id) = Ok m' /\
        ((mf_count m' = 0%nat /\ (segment_reaches a b c r -> one = true /\ (in_front a b c -> hidden_by a b v0 c \/ hidden_by b a v3 c))) \/
         (mf_count m' = 1%nat /\ segment_reaches a b c r /\ ec_made m' /\ (one = true -> in_front a b c /\ ~ hidden_by a b v0 c /\ (a <> b -> ~ hidden_by b a v3 c))))).
    { intros x y g id Sg Ex V Hh Hn. apply start_nearest in V. 
      assert (Nx : nearest_on a b c x) by (destruct V as (V1 & V2); split; [apply Sg, V1|intros p P; apply V2, Sg, P]).
      destruct (Rlt_bool_spec (r * r) (dist2 c x)) as [D|D].
      { exists (mf_none m). split; [reflexivity|]. left. split; [reflexivity|]. intros (p & P & Dp). exfalso. apply Nx in P. lra. }
      assert (Rch : segment_reaches a b c r) by (exists x; split; [apply Nx|exact D]).
      destruct (one && Rlt_bool 0 (dotp (minus g x) (minus c x))) eqn:Hd.
      - apply andb_true_iff in Hd as (O & T). destruct (Rlt_bool_spec 0 (dotp (minus g x) (minus c x))) as [T'|]; [|discriminate].
        exists (mf_none m). split; [reflexivity|]. left. split; [reflexivity|]. intros _. split; [exact O|]. intros _. apply Hh; assumption.
      - destruct (mf_one_ok m MCircles vzero x (ci_p ci) id Lm) as (m' & E & C1 & Ty & Nl & Lp & Pt).
        exists m'. split; [exact E|]. right. split; [exact C1|]. split; [exact Rch|]. split.
        + split; [exact Pt|]. exists x. split; [exact Nx|]. split; [exact D|]. left. split; [exact Ty|]. split; [symmetry; exact Lp|exact Ex].
        + intros O. split; [apply Fr, O|]. apply (Hn O). rewrite O in Hd. cbn [andb] in Hd. destruct (Rlt_bool_spec 0 (dotp (minus g x) (minus c x))); [discriminate|assumption]. }
    destruct (Rle_bool_spec (dotp (minus b a) (minus c a)) 0) as [V|V].
    { apply (Corner a b v0); [tauto|left; reflexivity|exact V| |].
      - intros _ G. left. apply hidden_dot. split; assumption.
      - intros _ G. split; [rewrite hidden_dot; lra|]. intros Nab. rewrite hidden_dot. intros (Hb & _). apply Nab.
        assert (S : dotp (minus b a) (minus c a) + dotp (minus a b) (minus c b) = dist2 b a) by (unfold dotp, minus, dist2; cbn [vx vy]; ring).
        pose proof (dist2_nonneg b a). assert (Z : dist2 b a = 0) by lra. destruct (Rplus_sqr_eq_0 _ _ Z). apply vec2_ext; lra. }
    destruct (Rle_bool_spec (dotp (minus a b) (minus c b)) 0) as [U|U].
    { apply (Corner b a v3); [intros p; split; apply on_swap|right; reflexivity|exact U| |].
      - intros _ G. right. apply hidden_dot. split; assumption.
      - intros _ G. split; [rewrite hidden_dot; lra|]. intros _. rewrite hidden_dot. lra. }
    (* the face *)
    set (v := dotp (minus b a) (minus c a)) in *. set (u := dotp (minus a b) (minus c b)) in *.
    assert (Den : u + v = dist2 b a) by (unfold u, v, dotp, minus, dist2; cbn [vx vy]; ring).
    assert (Dp : 0 < dist2 b a) by lra. set (den := dist2 b a) in *.
    rewrite (Rlt_bool_true 0 den Dp). cbn [b2_assert bind].
    set (p := vscale (ndiv 1 den) (vadd (vscale u a) (vscale v b))).
    assert (P : p = along a b (v / den)).
    { assert (Hu : u = den - v) by lra. unfold p. rewrite Hu. clear - Dp. clearbody den v a b. unfold along. apply vec2_ext; rmathc; field; lra. }
    change (b2_dot (vsub c p) (vsub c p)) with (dist2 c p).
    assert (Ex : forall x, dotp (minus b a) (minus x p) = dotp (minus b a) (minus x a) - v).
    { intros x. rewrite P. transitivity (dotp (minus b a) (minus x a) - v / den * den); [unfold den, dist2, dotp, minus, along; cbn [vx vy]; ring|field; lra]. }
    assert (Pe : dotp (minus b a) (minus c p) = 0) by (rewrite Ex; unfold v; ring).
    assert (Np : nearest_on a b c p).
    { split.
      - rewrite P. exists (v / den). split; [|reflexivity]. split; [apply Rmult_le_pos; [lra|left; apply Rinv_0_lt_compat; lra]|]. apply (Rmult_le_reg_r den); [lra|]. replace (v / den * den) with v by (field; lra). lra.
      - intros x (t & T & ->). assert (X : dist2 c (along a b t) = dist2 c p + (t - v / den) * (t - v / den) * den - 2 * (t - v / den) * dotp (minus b a) (minus c p)) by (rewrite P; unfold den, dist2, dotp, minus, along; cbn [vx vy]; ring).
        rewrite X, Pe. assert (0 <= (t - v / den) * (t - v / den) * den) by (apply Rmult_le_pos; [apply Rle_0_sqr|lra]). lra. }
    assert (Nh : ~ hidden_by a b v0 c /\ (a <> b -> ~ hidden_by b a v3 c)) by (split; [|intros _]; rewrite hidden_dot; fold u v; lra).
    destruct (Rlt_bool_spec (r * r) (dist2 c p)) as [D|D].
    { exists (mf_none m). split; [reflexivity|]. left. split; [reflexivity|]. intros (x & X & Dx). exfalso. apply Np in X. lra. }
    match goal with |- exists m', mf_one m MFaceA ?nn a (ci_p ci) ?id = Ok m' /\ _ => destruct (mf_one_ok m MFaceA nn a (ci_p ci) id Lm) as (m' & E & C1 & Ty & Nl & Lp & Pt) end.
    exists m'. split; [exact E|]. right. split; [exact C1|]. split; [exists p; split; [apply Np|exact D]|]. split; [|intros O; split; [apply Fr, O|exact Nh]].
    split; [exact Pt|]. exists p. split; [exact Np|]. split; [exact D|]. right. split; [exact Ty|]. split; [exact Lp|].
    set (len := sqrt den) in *. assert (Ll : len * len = den) by (apply sqrt_sqrt; lra). assert (Lp' : 0 < len) by (apply sqrt_lt_R0; lra).
    exists (Rabs (turn a b c) / len). split; [apply Rmult_le_pos; [apply Rabs_pos|left; apply Rinv_0_lt_compat; lra]|]. intros Hl. clear E.
    assert (Gen : forall s, s * s = 1 -> Rabs (turn a b c) = - s * turn a b c -> mf_local_normal m' = snd (vnormalize (V2 (s * (vy b - vy a)) (- s * (vx b - vx a)))) ->
      unit_vec (mf_local_normal m') /\ dotp (mf_local_normal m') (minus b a) = 0 /\
      minus c p = V2 (Rabs (turn a b c) / len * vx (mf_local_normal m')) (Rabs (turn a b c) / len * vy (mf_local_normal m'))).
    { intros s Ss Sa Nn. set (w := V2 (s * (vy b - vy a)) (- s * (vx b - vx a))) in *.
      assert (Dw : dotp w w = den) by (transitivity (s * s * den); [unfold w, dotp, den, dist2; cbn [vx vy]; ring|rewrite Ss; ring]).
      destruct (normalize_unit w) as (Uw & Vw). { rewrite Dw. exact Hl. }
      rewrite Dw in Vw. fold len in Vw. rewrite <- Nn in Uw, Vw. split; [exact Uw|]. rewrite Vw. unfold w; cbn [vx vy]. split; [unfold dotp, minus; cbn [vx vy]; field; lra|].
      rewrite Sa. rewrite P. unfold minus, along; cbn [vx vy].
      assert (K1 : den * (vx c - vx a) = v * (vx b - vx a) - turn a b c * (vy b - vy a)) by (unfold den, v, dist2, dotp, minus, turn; cbn [vx vy]; ring).
      assert (K2 : den * (vy c - vy a) = v * (vy b - vy a) + turn a b c * (vx b - vx a)) by (unfold den, v, dist2, dotp, minus, turn; cbn [vx vy]; ring).
      f_equal; apply (Rmult_eq_reg_l den); try lra.
      - transitivity (den * (vx c - vx a) - v * (vx b - vx a)); [field; lra|]. rewrite K1. transitivity (- (s * s) * turn a b c * (vy b - vy a)); [rewrite Ss; ring|]. rewrite <- Ll. field. lra.
      - transitivity (den * (vy c - vy a) - v * (vy b - vy a)); [field; lra|]. rewrite K2. transitivity ((s * s) * turn a b c * (vx b - vx a)); [rewrite Ss; ring|]. rewrite <- Ll. field. lra. }
    destruct (Rlt_bool_spec (- turn a b c) 0) as [Neg|Pos].
    - apply (Gen (-1)); [ring|rewrite Rabs_pos_eq; lra|]. rewrite Nl. do 2 f_equal. apply vec2_ext; rmathc; ring.
    - apply (Gen 1); [ring|rewrite Rabs_left1; lra|]. rewrite Nl. do 2 f_equal. apply vec2_ext; rmathc; ring.
  Qed.
End Local.

(** ** in world coordinates *)
Section World.
  Variable xf : xform R.
  Hypothesis Un : unit_rot (xq xf).
  Lemma on_place a b p : on_segment (place xf a) (place xf b) (place xf p) <-> on_segment a b p.
  Proof.
    split; intros (t & T & E); exists t; (split; [exact T|]).
    - rewrite <- place_along in E. exact (place_inj xf Un _ _ E).
    - rewrite E. apply place_along.
  Qed.
  Lemma nearest_place a b c q : nearest_on (place xf a) (place xf b) (place xf c) (place xf q) <-> nearest_on a b c q.
  Proof.
    unfold nearest_on. rewrite on_place. split; intros (A & B); (split; [exact A|]); intros p P.
    - rewrite <- (dist2_place xf Un c q), <- (dist2_place xf Un c p). apply B, on_place, P.
    - rewrite <- (place_local xf Un p) in *. rewrite !(dist2_place xf Un). apply B, on_place, P.
  Qed.
  Lemma reaches_place a b c r : segment_reaches (place xf a) (place xf b) (place xf c) r <-> segment_reaches a b c r.
  Proof.
    split; intros (p & P & D).
    - rewrite <- (place_local xf Un p) in *. exists (xfv_t xf p). split; [apply on_place, P|]. rewrite dist2_place in D by exact Un. exact D.
    - exists (place xf p). split; [apply on_place, P|]. rewrite dist2_place by exact Un. exact D.
  Qed.
  Lemma hidden_place a b g c : hidden_by (place xf a) (place xf b) (place xf g) (place xf c) <-> hidden_by a b g c.
  Proof.
    unfold hidden_by. rewrite nearest_place. split; intros (A & p & P & D); (split; [exact A|]).
    - rewrite <- (place_local xf Un p) in *. exists (xfv_t xf p). split; [apply on_place, P|]. rewrite !dist2_place in D by exact Un. exact D.
    - exists (place xf p). split; [apply on_place, P|]. rewrite !dist2_place by exact Un. exact D.
  Qed.
  Lemma front_place a b c : in_front (place xf a) (place xf b) (place xf c) <-> in_front a b c.
  Proof. unfold in_front. rewrite (HullMass.turn_place xf a b c Un). reflexivity. Qed.

  Variables (m : manifold R) (ed : edge R) (ci : circle R) (xf_b : xform R).
  Hypothesis Lm : length (mf_points m) = 2%nat.
  Let a := place xf (ed_v1 ed). Let b := place xf (ed_v2 ed). Let v0 := place xf (ed_v0 ed). Let v3 := place xf (ed_v3 ed).
  Let r := ed_radius ed + ci_radius ci.
  Let c := place xf_b (ci_p ci).
  Lemma edge_touch : exists m', b2_collide_edge_and_circle m ed xf ci xf_b = Ok m' /\ (mf_count m' = 0%nat \/ mf_count m' = 1%nat) /\
    (mf_count m' = 1%nat -> segment_reaches a b c r) /\
    (mf_count m' = 1%nat -> ed_one_sided ed = true -> in_front a b c /\ ~ hidden_by a b v0 c /\ (ed_v1 ed <> ed_v2 ed -> ~ hidden_by b a v3 c)) /\
    (segment_reaches a b c r -> (ed_one_sided ed = true -> in_front a b c /\ ~ hidden_by a b v0 c /\ ~ hidden_by b a v3 c) -> mf_count m' = 1%nat).
  Proof.
    destruct (edge_circle m ed ci xf xf_b Lm) as (m' & E & H). exists m'. split; [exact E|].
    unfold a, b, v0, v3. assert (Ec : c = place xf (xfv_t xf (xfv xf_b (ci_p ci)))) by (rewrite place_local, xfv_place by exact Un; reflexivity).
    rewrite Ec, front_place, !hidden_place, reaches_place. fold r in H. destruct H as [(C0 & H)|(C1 & Rc & _ & H)].
    - split; [left; exact C0|]. split; [lia|]. split; [lia|]. intros Rc Ok. exfalso. destruct (H Rc) as (O & H'). destruct (Ok O) as (F & H1 & H2). destruct (H' F); contradiction.
    - split; [right; exact C1|]. split; [intros _; exact Rc|]. split; [intros _ O; exact (H O)|]. intros _ _. exact C1.
  Qed.
  Lemma edge_manifold m' : b2_collide_edge_and_circle m ed xf ci xf_b = Ok m' -> mf_count m' = 1%nat ->
    (exists p, nth_error (mf_points m') 0 = Some p /\ mp_local p = ci_p ci) /\
    exists q, nearest_on a b c q /\ dist2 c q <= r * r /\
      ((mf_type m' = MCircles /\ q = place xf (mf_local_point m') /\ (q = a \/ q = b)) \/
       (mf_type m' = MFaceA /\ place xf (mf_local_point m') = a /\
        (B2_EPSILON <= sqrt (dist2 b a) -> let n := turned (xq xf) (mf_local_normal m') in
           unit_vec n /\ dotp n (minus b a) = 0 /\ exists d, 0 <= d /\ minus c q = scaled d n))).
  Proof.
    intros E C. destruct (edge_circle m ed ci xf xf_b Lm) as (m1 & E1 & H). rewrite E in E1. injection E1 as <-.
    destruct H as [(C0 & _)|(_ & _ & (Pt & q & Nq & Dq & H) & _)]; [lia|]. split; [exact Pt|].
    assert (Ec : c = place xf (xfv_t xf (xfv xf_b (ci_p ci)))) by (rewrite place_local, xfv_place by exact Un; reflexivity).
    exists (place xf q). unfold a, b. rewrite Ec. split; [apply nearest_place, Nq|]. rewrite !dist2_place by exact Un. split; [exact Dq|].
    destruct H as [(Ty & Lp & X)|(Ty & Lp & d & Hd & X)]; [left|right].
    - split; [exact Ty|]. split; [now rewrite Lp|]. destruct X as [->| ->]; [left|right]; reflexivity.
    - split; [exact Ty|]. split; [now rewrite Lp|]. intros Hl. destruct (X Hl) as (U & Pe & Mq). split; [apply unit_turned; assumption|]. rewrite dotp_turned by exact Un. split; [exact Pe|].
      exists d. split; [exact Hd|]. rewrite minus_place, Mq. unfold turned, scaled; cbn [vx vy]. f_equal; ring.
  Qed.
End World.

(** ** chains *)
Section Chain.
  Variable xf : xform R.
  Hypothesis Un : unit_rot (xq xf).
  (* the child of a closed chain that comes nearest to the circle makes the contact *)
  Lemma loop_contact (c0 ch : ShapeModel.chain R) (vs : list (vec2 R)) (m : manifold R) (ci : circle R) (xf_b : xform R) (i : nat) (e : edge R) :
    create_loop c0 vs = Ok ch -> length (mf_points m) = 2%nat ->
    get_child_edge ch i = Ok e ->
    let c := place xf_b (ci_p ci) in
    (exists q, on_segment (place xf (ed_v1 e)) (place xf (ed_v2 e)) q /\
       (forall j e' p, get_child_edge ch j = Ok e' -> on_segment (place xf (ed_v1 e')) (place xf (ed_v2 e')) p -> dist2 c q <= dist2 c p) /\
       dist2 c q <= (ch_radius ch + ci_radius ci) * (ch_radius ch + ci_radius ci)) ->
    in_front (place xf (ed_v1 e)) (place xf (ed_v2 e)) c ->
    exists m', b2_collide_edge_and_circle m e xf ci xf_b = Ok m' /\ mf_count m' = 1%nat.
  Proof.
    intros Cr Lm Ge c (q & Oq & Nq & Dq) Fr.
    assert (Re : ed_radius e = ch_radius ch).
    { unfold get_child_edge in Ge. repeat (apply bind_ok in Ge as (? & _ & Ge)). injection Ge as <-. reflexivity. }
    destruct (edge_touch xf Un m e ci xf_b Lm) as (m' & E & _ & _ & _ & H). exists m'. split; [exact E|]. apply H; [exists q; rewrite Re; split; assumption|].
    intros _. split; [exact Fr|].
    (* neighbours *)
    assert (Nb : forall x y g (Hx : nearest_on x y c x), (forall p, on_segment (place xf (ed_v1 e)) (place xf (ed_v2 e)) p -> on_segment x y p) ->
      (exists j e', get_child_edge ch j = Ok e' /\ forall p, on_segment x g p -> on_segment (place xf (ed_v1 e')) (place xf (ed_v2 e')) p) -> ~ (exists p, on_segment x g p /\ dist2 c p < dist2 c x)).
    { intros x y g Hx Sg (j & e' & Ge' & Sg') (p & P & D). specialize (Nq j e' p Ge' (Sg' p P)). pose proof (proj2 Hx q (Sg q Oq)). lra. }
    (* the children of the loop *)
    unfold create_loop in Cr. apply bind_ok in Cr as (? & _ & Cr). apply bind_ok in Cr as (? & A3 & Cr). apply bind_ok in Cr as (? & _ & Cr).
    apply bind_ok in Cr as (w0 & G0 & Cr). apply bind_ok in Cr as (pv & Gp & Cr). apply bind_ok in Cr as (nx & Gn & Cr). injection Cr as <-.
    destruct (Nat.leb_spec 3 (length vs)) as [L3|]; [|discriminate A3].
    set (ws := vs ++ [w0]) in *. assert (Lw : length ws = S (length vs)) by (unfold ws; rewrite app_length; cbn; lia).
    assert (Child : forall j, (j < length vs)%nat -> exists e', get_child_edge (Chain (ch_radius c0) ws pv nx) j = Ok e' /\ nth_error ws j = Some (ed_v1 e') /\ nth_error ws (j + 1) = Some (ed_v2 e')).
    { intros j Hj. unfold get_child_edge. cbn [ch_vertices ch_prev ch_next ch_radius]. unfold usize_sub. rewrite Lw.
      destruct (Nat.leb_spec 1 (S (length vs))); [|lia]. cbn [bind]. destruct (Nat.ltb_spec j (S (length vs) - 1)); [|lia]. cbn [b2_assert bind].
      assert (Gt : forall k, (k < S (length vs))%nat -> exists v, get ws k = Ok v /\ nth_error ws k = Some v).
      { intros k Hk. unfold get. destruct (nth_error ws k) as [v|] eqn:Ek; [exists v; split; reflexivity|]. apply nth_error_None in Ek. lia. }
      destruct (Gt j) as (v1 & -> & E1); [lia|]. destruct (Gt (j + 1)%nat) as (v2 & -> & E2); [lia|]. cbn [bind].
      destruct (Nat.leb_spec 2 (S (length vs))); [|lia].
      assert (X : exists v, (if Nat.ltb 0 j then get ws (j - 1) else Ok pv) = Ok v) by (destruct (Nat.ltb 0 j); [destruct (Gt (j - 1)%nat) as (v & -> & _); [lia|]|]; eexists; reflexivity).
      destruct X as (y0 & ->). cbn [bind].
      assert (Y : exists v, (if Nat.ltb j (S (length vs) - 2) then get ws (j + 2) else Ok nx) = Ok v).
      { destruct (Nat.ltb_spec j (S (length vs) - 2)); [destruct (Gt (j + 2)%nat) as (v & -> & _); [lia|]|]; eexists; reflexivity. }
      destruct Y as (y3 & ->). cbn [bind]. eexists. split; [reflexivity|]. cbn [ed_v1 ed_v2]. split; assumption. }
    assert (Gn' : nth_error ws (length ws - 2) = Some pv) by (unfold get in Gp; destruct (nth_error ws (length ws - 2)); [injection Gp as <-; reflexivity|discriminate]).
    assert (G1 : nth_error ws 1 = Some nx) by (unfold get in Gn; destruct (nth_error ws 1); [injection Gn as <-; reflexivity|discriminate]).
    assert (Gl : nth_error ws (length vs) = Some w0) by (unfold ws; rewrite nth_error_app2, Nat.sub_diag by lia; reflexivity).
    assert (Gf : nth_error ws 0 = Some w0).
    { unfold ws. rewrite nth_error_app1 by lia. unfold get in G0. destruct (nth_error vs 0); [injection G0 as <-; reflexivity|discriminate]. }
    (* what the child is *)
    unfold get_child_edge in Ge. cbn [ch_vertices ch_prev ch_next ch_radius] in Ge. unfold usize_sub in Ge. rewrite Lw in Ge.
    apply bind_ok in Ge as (n1 & N1 & Ge). destruct (Nat.leb_spec 1 (S (length vs))); [|lia]. injection N1 as <-.
    apply bind_ok in Ge as (? & Ai & Ge). match type of Ai with b2_assert (Nat.ltb i ?k) = _ => destruct (Nat.ltb_spec i k) as [Hi|]; [|discriminate Ai] end.
    apply bind_ok in Ge as (v1 & E1 & Ge). apply bind_ok in Ge as (v2 & E2 & Ge). apply bind_ok in Ge as (v0 & E0 & Ge). apply bind_ok in Ge as (n2 & N2 & Ge).
    destruct (Nat.leb_spec 2 (S (length vs))); [|lia]. injection N2 as <-. apply bind_ok in Ge as (v3 & E3 & Ge). injection Ge as <-. cbn [ed_v0 ed_v1 ed_v2 ed_v3 ed_radius] in *.
    assert (Gs : forall k v, get ws k = Ok v -> nth_error ws k = Some v) by (intros k v; unfold get; destruct (nth_error ws k); [intros X; injection X as <-; reflexivity|discriminate]).
    apply Gs in E1, E2. split.
    - intros (Hx & Hp). refine (Nb _ _ (place xf v0) Hx _ _ Hp); [tauto|].
      destruct i as [|i'].
      + cbn in E0. injection E0 as <-. destruct (Child (length vs - 1)%nat) as (e' & Ge' & F1 & F2); [lia|]. exists (length vs - 1)%nat, e'. split; [exact Ge'|].
        replace (length ws - 2)%nat with (length vs - 1)%nat in Gn' by lia. rewrite Gn' in F1. injection F1 as <-. replace (length vs - 1 + 1)%nat with (length vs) in F2 by lia. rewrite Gl in F2. injection F2 as <-.
        rewrite Gf in E1. injection E1 as <-. intros p. apply on_swap.
      + cbn [Nat.ltb Nat.leb] in E0. apply Gs in E0. replace (S i' - 1)%nat with i' in E0 by lia. destruct (Child i') as (e' & Ge' & F1 & F2); [lia|]. exists i', e'. split; [exact Ge'|].
        rewrite E0 in F1. injection F1 as <-. replace (i' + 1)%nat with (S i') in F2 by lia. rewrite E1 in F2. injection F2 as <-. intros p. apply on_swap.
    - intros (Hx & Hp). refine (Nb _ _ (place xf v3) Hx _ _ Hp); [intros p; apply on_swap|].
      destruct (Nat.ltb_spec i (length vs - 1)).
      + apply Gs in E3. destruct (Child (i + 1)%nat) as (e' & Ge' & F1 & F2); [lia|]. exists (i + 1)%nat, e'. split; [exact Ge'|].
        rewrite E2 in F1. injection F1 as <-. replace (i + 1 + 1)%nat with (i + 2)%nat in F2 by lia. rewrite E3 in F2. injection F2 as <-. tauto.
      + injection E3 as <-. destruct (Child 0%nat) as (e' & Ge' & F1 & F2); [lia|]. exists 0%nat, e'. split; [exact Ge'|].
        rewrite Gf in F1. injection F1 as <-. cbn [Nat.add] in F2. rewrite G1 in F2. injection F2 as <-. replace (i + 1)%nat with (length vs) in E2 by lia. rewrite Gl in E2. injection E2 as <-. tauto.
  Qed.
End Chain.
