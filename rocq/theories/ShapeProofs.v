From Coq Require Import ZArith Reals Lra Lia Bool List Arith.
From Flocq Require Import Core.
From Verif Require Import Base Num NumLaws Math Collision Manifold MathSpec GeomSpec RTac MathProofs ManifoldProofs
  ShapeModel CollideModel ShapeSpec.
Import ListNotations.
Local Open Scope R_scope.

Lemma get_ok {A} (l : list A) i a : nth_error l i = Some a -> get l i = Ok a.
Proof. unfold get. now intros ->. Qed.
Lemma nth_lt {A} (l : list A) i : (i < length l)%nat -> exists a, nth_error l i = Some a.
Proof. intros H. destruct (nth_error l i) eqn:E; eauto. apply nth_error_None in E. lia. Qed.
Lemma nth_firstn {A} (l : list A) n i : (i < n)%nat -> nth_error (firstn n l) i = nth_error l i.
Proof. revert n i; induction l; intros [|n] [|i] H; cbn; auto; try lia. apply IHl. lia. Qed.
(* apply the loop rule to the loop of the goal *)
Ltac loop_inv P E H :=
  match goal with |- context [for_from ?n ?lo ?f ?s] =>
    let s' := fresh "s'" in destruct (for_from_inv P f n lo s) as (s' & E & H) end.
Lemma xfv_place (xf : xform R) v : xfv xf v = place xf v.
Proof. apply vec2_ext; unfold place; rmathc; ring. Qed.
Lemma rotv_turned (q : rot R) v : rotv q v = turned q v.
Proof. apply vec2_ext; unfold turned; rmathc; ring. Qed.
Lemma place_rot (xf : xform R) v : vadd (xp xf) (rotv (xq xf) v) = place xf v.
Proof. apply vec2_ext; unfold place; rmathc; ring. Qed.

Lemma sq_nonneg (x : R) : 0 <= x * x.
Proof. apply Rle_0_sqr. Qed.
Lemma pos_of_mul (a x : R) : 0 < a -> 0 < a * x -> 0 < x.
Proof. intros. nra. Qed.
Lemma dist2_nonneg a b : 0 <= dist2 a b.
Proof. unfold dist2. pose proof (sq_nonneg (vx a - vx b)). pose proof (sq_nonneg (vy a - vy b)). lra. Qed.

(** ** normalize *)
Lemma normalize_unit (a : vec2 R) : (B2_EPSILON : R) <= sqrt (dotp a a) ->
  unit_vec (snd (vnormalize a)) /\ snd (vnormalize a) = V2 (vx a / sqrt (dotp a a)) (vy a / sqrt (dotp a a)).
Proof.
  intros H. pose proof eps_pos as E. unfold vnormalize, vlen. rops. unfold dotp in *.
  set (l := sqrt _) in *. assert (L : 0 < l) by lra.
  rcase; [lra|]. cbn [snd]. split.
  - unfold unit_vec; cbn. assert (S : l * l = vx a * vx a + vy a * vy a).
    { unfold l. apply sqrt_sqrt. pose proof (Rle_0_sqr (vx a)). pose proof (Rle_0_sqr (vy a)). unfold Rsqr in *. lra. }
    field_simplify; [|lra..]. replace (l ^ 2) with (vx a * vx a + vy a * vy a) by (rewrite <- S; ring). field. nra.
  - apply vec2_ext; cbn; unfold Rdiv; rewrite Rmult_1_l; ring.
Qed.

(** ** C44 *)
Lemma circle_test_ok (c : circle R) xf p : 0 <= ci_radius c ->
  (circle_test_point c xf p = true <-> sqrt (dist2 p (place xf (ci_p c))) <= ci_radius c).
Proof.
  intros Hr. unfold circle_test_point. rewrite place_rot. unfold dist2. rmathc.
  set (x := vx p - _) in *. set (y := vy p - _) in *.
  rcase; split; intros; try easy.
  - rewrite <- (sqrt_square (ci_radius c)) by lra. apply sqrt_le_1; nra.
  - exfalso. assert (sqrt (x * x + y * y) * sqrt (x * x + y * y) = x * x + y * y) by (apply sqrt_sqrt; nra).
    pose proof (sqrt_pos (x * x + y * y)). nra.
Qed.
Lemma existsb_seq_false (q : nat -> bool) lo n : existsb q (seq lo n) = false <-> forall i, (lo <= i < lo + n)%nat -> q i = false.
Proof.
  split.
  - intros H i Hi. destruct (q i) eqn:E; [|reflexivity]. exfalso.
    assert (existsb q (seq lo n) = true). { apply existsb_exists. exists i. split; [apply in_seq; lia|exact E]. } congruence.
  - intros H. destruct (existsb q (seq lo n)) eqn:E; [|reflexivity]. apply existsb_exists in E as (i & Hi & Hq).
    apply in_seq in Hi. rewrite H in Hq by lia. discriminate.
Qed.
Lemma in_polygon_local po xf p : unit_rot (xq xf) ->
  (in_polygon po xf p <-> inner po (rotv_t (xq xf) (vsub p (xp xf)))).
Proof.
  intros U. unfold in_polygon. split.
  - intros (a & -> & H). rewrite <- xfv_place. change (rotv_t (xq xf) (vsub (xfv xf a) (xp xf))) with (xfv_t xf (xfv xf a)).
    now rewrite xfv_t_xfv.
  - intros H. exists (xfv_t xf p). rewrite <- xfv_place, xfv_xfv_t by exact U. split; [reflexivity|exact H].
Qed.
Lemma polygon_test_ok (po : polygon R) xf p : poly_sized po -> unit_rot (xq xf) ->
  exists b, polygon_test_point po xf p = Ok b /\ (b = true <-> in_polygon po xf p).
Proof.
  intros (Hc & Hv & Hn) U. unfold polygon_test_point, any_range. rewrite Nat.sub_0_r.
  set (q := rotv_t (xq xf) (vsub p (xp xf))).
  rewrite (any_from_spec _ (fun i => match nth_error (po_normals po) i, nth_error (po_vertices po) i with
    | Some n, Some v => Rlt_bool 0 (dotp n (minus q v)) | _, _ => false end)).
  - cbn [bind]. eexists. split; [reflexivity|]. rewrite negb_true_iff, existsb_seq_false, in_polygon_local by exact U. fold q.
    split.
    + intros H i n v Hi En Ev. specialize (H i ltac:(lia)). rewrite En, Ev in H.
      destruct (Rlt_bool_spec 0 (dotp n (minus q v))); [discriminate|lra].
    + intros H i Hi. destruct (nth_lt (po_normals po) i) as (n & En); [lia|].
      destruct (nth_lt (po_vertices po) i) as (v & Ev); [lia|]. rewrite En, Ev.
      specialize (H i n v ltac:(lia) En Ev). destruct (Rlt_bool_spec 0 (dotp n (minus q v))); [lra|reflexivity].
  - intros i Hi. destruct (nth_lt (po_normals po) i) as (n & En); [lia|].
    destruct (nth_lt (po_vertices po) i) as (v & Ev); [lia|]. rewrite (get_ok _ _ _ En), (get_ok _ _ _ Ev), En, Ev. reflexivity.
Qed.
Lemma box_inner (po : polygon R) hx hy a : inner (set_as_box po hx hy) a <-> (- hx <= vx a <= hx /\ - hy <= vy a <= hy).
Proof.
  unfold inner, set_as_box, put, box_vertices, box_normals. cbn [po_count po_normals po_vertices app].
  split.
  - intros H. pose proof (H 0%nat _ _ ltac:(lia) eq_refl eq_refl). pose proof (H 1%nat _ _ ltac:(lia) eq_refl eq_refl).
    pose proof (H 2%nat _ _ ltac:(lia) eq_refl eq_refl). pose proof (H 3%nat _ _ ltac:(lia) eq_refl eq_refl).
    unfold dotp, minus in *. rops. lra.
  - intros H i n v Hi En Ev. destruct i as [|[|[|[|]]]]; try lia; cbn in En, Ev; injection En as <-; injection Ev as <-;
    unfold dotp, minus; rops; lra.
Qed.
Lemma box_sized {T} `{Num T} (po : polygon T) hx hy : poly_sized (set_as_box po hx hy).
Proof. unfold poly_sized, set_as_box, put. cbn [po_count po_vertices po_normals]. rewrite !app_length. cbn. lia. Qed.

(** ** C45 *)
Lemma collide_circles_ok (m : manifold R) a xf_a b xf_b : length (mf_points m) = 2%nat -> 0 <= ci_radius a -> 0 <= ci_radius b ->
  exists m', b2_collide_circles m a xf_a b xf_b = Ok m' /\
    (mf_count m' = 1%nat <-> sqrt (dist2 (place xf_a (ci_p a)) (place xf_b (ci_p b))) <= ci_radius a + ci_radius b) /\
    (mf_count m' = 0%nat <-> ci_radius a + ci_radius b < sqrt (dist2 (place xf_a (ci_p a)) (place xf_b (ci_p b)))).
Proof.
  intros Hl Ha Hb. unfold b2_collide_circles. cbv zeta. rewrite (xfv_place xf_a), (xfv_place xf_b). set (pa := place xf_a (ci_p a)). set (pb := place xf_b (ci_p b)).
  set (rr := ci_radius a + ci_radius b).
  assert (D : b2_dot (vsub pb pa) (vsub pb pa) = dist2 pa pb) by (unfold dist2; rmathc; ring).
  rewrite D. pose proof (dist2_nonneg pa pb) as N.
  assert (S : sqrt (dist2 pa pb) <= rr <-> dist2 pa pb <= rr * rr).
  { assert (R0 : 0 <= rr) by (unfold rr; lra). pose proof (sqrt_sqrt _ N). pose proof (sqrt_pos (dist2 pa pb)). split; intros; nra. }
  rops. fold rr. rcase.
  - exists (mf_none m). split; [reflexivity|]. cbn. split; split; intros; try lia; try lra.
  - unfold mf_one, set_mpoint. destruct (mf_points m) as [|p0 [|p1 []]] eqn:Em; cbn in Hl; try lia.
    cbn. eexists. split; [reflexivity|]. cbn. split; split; intros; try lia; try lra.
Qed.

(** ** C43 *)
Lemma near_coord xf s r p lo hi : 0 <= r -> near xf s r p ->
  (forall a, s a -> vx lo <= vx (place xf a) <= vx hi /\ vy lo <= vy (place xf a) <= vy hi) ->
  in_box (AABB (vsub lo (V2 r r)) (vadd hi (V2 r r))) p.
Proof.
  intros Hr (a & Ha & D) B. destruct (B a Ha) as (Bx & By). unfold dist2 in D. unfold in_box. cbn [Collision.lo Collision.hi]. rmathc.
  set (x := vx (place xf a)) in *. set (y := vy (place xf a)) in *.
  pose proof (sq_nonneg (vx p - x)). pose proof (sq_nonneg (vy p - y)).
  assert (Dx : (vx p - x) * (vx p - x) <= r * r) by lra. assert (Dy : (vy p - y) * (vy p - y) <= r * r) by lra.
  assert (- r <= vx p - x <= r) by nra. assert (- r <= vy p - y <= r) by nra. lra.
Qed.
Lemma circle_aabb_ok (c : circle R) xf p : 0 <= ci_radius c ->
  near xf (fun a => a = ci_p c) (ci_radius c) p -> in_box (circle_aabb c xf) p.
Proof.
  intros Hr H. unfold circle_aabb. rewrite place_rot.
  apply (near_coord xf _ (ci_radius c) p (place xf (ci_p c)) (place xf (ci_p c))) in H; auto.
  intros a ->. lra.
Qed.
Lemma place_along xf a b t : place xf (along a b t) = along (place xf a) (place xf b) t.
Proof. apply vec2_ext; unfold place, along; cbn; ring. Qed.
Lemma min_max_between x y t : 0 <= t <= 1 -> Rmin x y <= x + t * (y - x) <= Rmax x y.
Proof. intros. unfold Rmin, Rmax. destruct (Rle_dec x y); nra. Qed.
Lemma segment_aabb_ok r xf a b p : 0 <= r -> near xf (on_segment a b) r p -> in_box (segment_aabb r xf a b) p.
Proof.
  intros Hr H. unfold segment_aabb. rewrite !xfv_place. apply (near_coord xf _ r p) with (2 := H); [exact Hr|].
  intros q (t & Ht & ->). rewrite place_along. unfold b2_min_vec2, b2_max_vec2. cbn [vx vy]. rewrite !b2_min_R, !b2_max_R.
  unfold along; cbn [vx vy]. split; now apply min_max_between.
Qed.
Lemma place_comb xf ws vs : length ws = length vs -> sumR ws = 1 -> place xf (comb ws vs) = comb ws (map (place xf) vs).
Proof.
  intros L S. assert (G : forall ws vs, length ws = length vs ->
    comb ws (map (place xf) vs) = V2 (rc (xq xf) * vx (comb ws vs) - rs (xq xf) * vy (comb ws vs) + sumR ws * vx (xp xf))
      (rs (xq xf) * vx (comb ws vs) + rc (xq xf) * vy (comb ws vs) + sumR ws * vy (xp xf))).
  { clear. induction ws as [|w ws IH]; intros [|v vs] L; cbn in L; try lia.
    - cbn. apply vec2_ext; cbn; ring.
    - cbn [comb map]. rewrite IH by lia. unfold sumR; cbn [fold_right]; fold (sumR ws). apply vec2_ext; cbn [vx vy place]; ring. }
  rewrite G by exact L. rewrite S. apply vec2_ext; unfold place; cbn; ring.
Qed.
Lemma comb_bounds ws vs l u : length ws = length vs -> (forall w, In w ws -> 0 <= w) ->
  (forall v, In v vs -> vx l <= vx v <= vx u /\ vy l <= vy v <= vy u) ->
  sumR ws * vx l <= vx (comb ws vs) <= sumR ws * vx u /\ sumR ws * vy l <= vy (comb ws vs) <= sumR ws * vy u.
Proof.
  revert vs; induction ws as [|w ws IH]; intros [|v vs] L P B; cbn in L; try lia.
  - cbn. lra.
  - cbn [comb sumR fold_right vx vy]. fold (sumR ws). destruct (IH vs) as (A & C); [lia|intros; apply P; now right|intros; apply B; now right|].
    destruct (B v (or_introl eq_refl)) as (Bx & By). pose proof (P w (or_introl eq_refl)). nra.
Qed.
Definition minmax_upto (xf : xform R) (vs : list (vec2 R)) (l u : vec2 R) (k : nat) : Prop :=
  forall i v, (i < k)%nat -> nth_error vs i = Some v -> vx l <= vx (place xf v) <= vx u /\ vy l <= vy (place xf v) <= vy u.
Lemma polygon_aabb_ok (po : polygon R) xf : poly_sized po -> 0 <= po_radius po ->
  exists b, polygon_aabb po xf = Ok b /\ forall p, near xf (in_hull (used_vertices po)) (po_radius po) p -> in_box b p.
Proof.
  intros (Hc & Hv & Hn) Hr. unfold polygon_aabb. destruct (nth_lt (po_vertices po) 0) as (v0 & E0); [lia|]. rewrite (get_ok _ _ _ E0). cbn [bind].
  unfold for_range.
  loop_inv (fun k (st : vec2 R * vec2 R) => minmax_upto xf (po_vertices po) (fst st) (snd st) k) E H.
  - intros i v Hi Ei. assert (i = 0%nat) by lia. subst i. rewrite E0 in Ei. injection Ei as <-. cbn [fst snd]. rewrite xfv_place. lra.
  - intros i (l & u) Hi H. destruct (nth_lt (po_vertices po) i) as (v & Ev); [lia|]. rewrite (get_ok _ _ _ Ev). cbn [bind].
    eexists. split; [reflexivity|]. intros j w Hj Ej. cbn [fst snd]. unfold b2_min_vec2, b2_max_vec2. cbn [vx vy]. rewrite !b2_min_R, !b2_max_R, xfv_place.
    pose proof (Rmin_l (vx l) (vx (place xf v))). pose proof (Rmin_r (vx l) (vx (place xf v))).
    pose proof (Rmin_l (vy l) (vy (place xf v))). pose proof (Rmin_r (vy l) (vy (place xf v))).
    pose proof (Rmax_l (vx u) (vx (place xf v))). pose proof (Rmax_r (vx u) (vx (place xf v))).
    pose proof (Rmax_l (vy u) (vy (place xf v))). pose proof (Rmax_r (vy u) (vy (place xf v))).
    destruct (Nat.eq_dec j i) as [->|Ne].
    + rewrite Ev in Ej. injection Ej as <-. lra.
    + destruct (H j w ltac:(lia) Ej) as (A & B). cbn [fst snd] in A, B. lra.
  - destruct s' as (l & u). cbn [fst snd] in H. rewrite E. cbn [bind]. eexists. split; [reflexivity|]. intros p Hp. apply (near_coord xf _ (po_radius po) p l u) with (2 := Hp); [exact Hr|].
    intros a (ws & L & P & S & ->). rewrite place_comb by auto.
    destruct (comb_bounds ws (map (place xf) (used_vertices po)) l u) as (A & B).
    + now rewrite map_length.
    + exact P.
    + intros v Hin. apply in_map_iff in Hin as (w & <- & Hw). apply In_nth_error in Hw as (i & Ei).
      assert (i < length (used_vertices po))%nat by (apply nth_error_Some; congruence).
      unfold used_vertices in *. rewrite firstn_length in H0. rewrite nth_firstn in Ei by lia.
      apply (H i w); [lia|exact Ei].
    + rewrite S in A, B. lra.
Qed.

(** ** C42: circles *)
Lemma circle_ray_ok (c : circle R) (inp : ray_input R) xf :
  let p1 := ray_p1 inp in let p2 := ray_p2 inp in let center := place xf (ci_p c) in
  let r := ci_radius c in
  B2_EPSILON <= r -> B2_EPSILON <= dist2 p2 p1 ->
  match circle_ray_cast c inp xf with
  | Some out => let f := ray_fraction out in let n := ray_normal out in
      0 <= f <= ray_max inp /\ dist2 (along p1 p2 f) center = r * r /\
      (forall t, t < f -> r * r < dist2 (along p1 p2 t) center) /\
      unit_vec n /\ minus (along p1 p2 f) center = V2 (r * vx n) (r * vy n) /\ dotp n (minus p2 p1) <= 0
  | None => r * r < dist2 p1 center -> forall t, 0 <= t <= ray_max inp -> r * r < dist2 (along p1 p2 t) center
  end.
Proof.
  cbv zeta. intros Hr Hd. pose proof eps_pos as E. unfold circle_ray_cast. rewrite place_rot.
  set (p1 := ray_p1 inp) in *. set (p2 := ray_p2 inp) in *. set (ce := place xf (ci_p c)) in *. set (r := ci_radius c) in *.
  rmathc. unfold dist2 in *. set (sx := vx p1 - vx ce) in *. set (sy := vy p1 - vy ce) in *. set (dx := vx p2 - vx p1) in *. set (dy := vy p2 - vy p1) in *.
  set (b := sx * sx + sy * sy - r * r). set (cc := sx * dx + sy * dy). set (rr := dx * dx + dy * dy) in *.
  set (sigma := cc * cc - rr * b).
  assert (Q : forall t, (vx (along p1 p2 t) - vx ce) * (vx (along p1 p2 t) - vx ce) + (vy (along p1 p2 t) - vy ce) * (vy (along p1 p2 t) - vy ce)
     = r * r + (b + 2 * t * cc + t * t * rr)).
  { intros t. unfold along. cbn [vx vy]. fold dx dy.
    replace (vx p1 + t * dx - vx ce) with (sx + t * dx) by (unfold sx; ring). replace (vy p1 + t * dy - vy ce) with (sy + t * dy) by (unfold sy; ring).
    unfold b, cc, rr. ring. }
  assert (RR : 0 < rr) by lra.
  rcase; cbn [orb].
  { intros Ho t Ht. rewrite Q. assert (b * rr - cc * cc > 0) by (unfold sigma in *; lra).
    assert (X : rr * (b + 2 * t * cc + t * t * rr) = (cc + t * rr) * (cc + t * rr) + (b * rr - cc * cc)) by ring.
    pose proof (sq_nonneg (cc + t * rr)). pose proof (pos_of_mul rr (b + 2 * t * cc + t * t * rr) RR). lra. }
  rcase; cbn [orb]; [lra|].
  assert (SQ : sqrt sigma * sqrt sigma = sigma) by (apply sqrt_sqrt; lra). pose proof (sqrt_pos sigma) as SP.
  set (w := sqrt sigma) in *.
  assert (F : forall t, rr * (b + 2 * t * cc + t * t * rr) = (cc + t * rr) * (cc + t * rr) - w * w).
  { intros. rewrite SQ. unfold sigma. ring. }
  rcase; cbn [andb].
  - rcase.
    + set (f := - (cc + w) / rr) in *. cbn [ray_fraction ray_normal]. assert (Ff : f * rr = - (cc + w)) by (unfold f; field; lra).
      assert (Z : b + 2 * f * cc + f * f * rr = 0). { specialize (F f). rewrite Ff in F. assert (rr * (b + 2 * f * cc + f * f * rr) = 0) by (rewrite F; ring). nra. }
      split; [split|]. { apply Rmult_le_reg_r with rr; [lra|]. rewrite Ff. lra. } { apply Rmult_le_reg_r with rr; [lra|]. rewrite Ff. lra. }
      split. { rewrite Q, Z. ring. }
      split. { intros t Ht. rewrite Q. assert (cc + t * rr < - w) by nra. specialize (F t).
        assert (0 < rr * (b + 2 * t * cc + t * t * rr)) by (rewrite F; nra). pose proof (pos_of_mul rr (b + 2 * t * cc + t * t * rr) RR). lra. }
      pose proof (Q f) as Qf. rewrite Z, Rplus_0_r in Qf. unfold along in Qf. cbn [vx vy] in Qf. fold dx dy in Qf.
      replace (vx p1 + f * dx - vx ce) with (sx + f * dx) in Qf by (unfold sx; ring). replace (vy p1 + f * dy - vy ce) with (sy + f * dy) in Qf by (unfold sy; ring).
      destruct (normalize_unit (V2 (sx + f * dx) (sy + f * dy))) as (U & V).
      { unfold dotp. cbn [vx vy]. rewrite Qf, sqrt_square by lra. exact Hr. }
      split; [exact U|]. unfold dotp in V. cbn [vx vy] in V. rewrite Qf, sqrt_square in V by lra. rewrite V. unfold minus, along, dotp. cbn [vx vy]. fold dx dy.
      split.
      * apply vec2_ext; cbn [vx vy]; field_simplify; try lra; unfold sx, sy; ring.
      * assert (D : (sx + f * dx) * dx + (sy + f * dy) * dy = - w). { transitivity (cc + f * rr); [unfold cc, rr; ring|]. rewrite Ff. ring. }
        replace ((sx + f * dx) / r * dx + (sy + f * dy) / r * dy) with ((- w) / r) by (rewrite <- D; field; lra).
        unfold Rdiv. assert (0 < / r) by (apply Rinv_0_lt_compat; lra). nra.
    + intros Ho t Ht. rewrite Q. specialize (F t). assert (cc + t * rr < - w) by nra.
      assert (0 < rr * (b + 2 * t * cc + t * t * rr)) by (rewrite F; nra). pose proof (pos_of_mul rr (b + 2 * t * cc + t * t * rr) RR). lra.
  - intros Ho t Ht. rewrite Q. specialize (F t). assert (B : 0 < b) by (unfold b; lra).
    assert (w * w < cc * cc) by (rewrite SQ; unfold sigma; nra). assert (- w < cc) by lra.
    assert (w < cc) by nra. assert (0 <= t * rr) by nra.
    assert (0 < rr * (b + 2 * t * cc + t * t * rr)) by (rewrite F; nra). pose proof (pos_of_mul rr (b + 2 * t * cc + t * t * rr) RR). lra.
Qed.

(** ** C42: edges *)
Lemma edge_ray_sound (e : edge R) (inp : ray_input R) xf out :
  let p1 := ray_p1 inp in let p2 := ray_p2 inp in
  unit_rot (xq xf) -> B2_EPSILON <= sqrt (dist2 (ed_v2 e) (ed_v1 e)) ->
  edge_ray_cast e inp xf = Some out ->
  0 <= ray_fraction out <= ray_max inp /\ on_segment (place xf (ed_v1 e)) (place xf (ed_v2 e)) (along p1 p2 (ray_fraction out)) /\
  unit_vec (ray_normal out) /\ dotp (ray_normal out) (minus (place xf (ed_v2 e)) (place xf (ed_v1 e))) = 0 /\
  (dotp (ray_normal out) (minus p1 (place xf (ed_v1 e))) <> 0 -> dotp (ray_normal out) (minus p2 p1) < 0).
Proof.
  cbv zeta. intros U Hl. pose proof eps_pos as EP. unfold edge_ray_cast.
  set (v1 := ed_v1 e) in *. set (v2 := ed_v2 e) in *.
  set (q1 := rotv_t (xq xf) (vsub (ray_p1 inp) (xp xf))). set (q2 := rotv_t (xq xf) (vsub (ray_p2 inp) (xp xf))).
  assert (P1 : ray_p1 inp = place xf q1). { rewrite <- xfv_place. symmetry. apply (xfv_xfv_t xf (ray_p1 inp) U). }
  assert (P2 : ray_p2 inp = place xf q2). { rewrite <- xfv_place. symmetry. apply (xfv_xfv_t xf (ray_p2 inp) U). }
  rewrite P1, P2. clearbody q1 q2.
  set (ev := vsub v2 v1). set (len := sqrt (dist2 v2 v1)) in *.
  assert (LL : dotp (V2 (vy ev) (- vx ev)) (V2 (vy ev) (- vx ev)) = dist2 v2 v1) by (unfold ev, dotp, dist2; rmathc; ring).
  destruct (normalize_unit (V2 (vy ev) (- vx ev))) as (UN & VN). { rewrite LL. exact Hl. }
  rewrite LL in VN. fold len in VN. change (nneg (vx ev)) with (- vx ev). set (n := snd _) in *. clearbody n.
  destruct (ed_one_sided e && _); [discriminate|].
  assert (LP : 0 < len) by lra.
  assert (LS : len * len = dist2 v2 v1). { apply sqrt_sqrt, dist2_nonneg. }
  rops. set (num := b2_dot n (vsub v1 q1)) in *. set (den := b2_dot n (vsub q2 q1)) in *.
  ifc; [discriminate|]. ifc; [discriminate|]. ifc; [discriminate|]. ifc; [discriminate|]. ifc; [discriminate|]. ifc; [discriminate|].
  intros Eo. set (t := num / den) in *. assert (T : t * den = num) by (unfold t; field; auto).
  assert (Fr : ray_fraction out = t) by (injection Eo as <-; reflexivity).
  assert (Nn : ray_normal out = turned (xq xf) n \/ ray_normal out = vneg (turned (xq xf) n)).
  { injection Eo as <-. cbn [ray_normal]. rewrite rotv_turned. destruct (Rlt_bool 0 num); auto. }
  rewrite Fr. split; [lra|].
  assert (NE : dotp n (minus v2 v1) = 0). { rewrite VN. unfold dotp, minus, ev. rmathc. field. lra. }
  assert (NQ : dotp n (minus (along q1 q2 t) v1) = 0).
  { transitivity (t * den - num); [|lra]. unfold den, num, dotp, minus, along. rmathc. ring. }
  split.
  { rewrite <- place_along. set (q := along q1 q2 t) in *.
    set (s := dotp (minus q v1) (minus v2 v1) / dist2 v2 v1).
    assert (Es : b2_dot (vsub (vadd q1 (vscale t (vsub q2 q1))) v1) ev / b2_dot ev ev = s).
    { unfold s, q, ev, dotp, minus, along, dist2. rmathc. reflexivity. }
    rewrite Es in *. exists s. split; [lra|]. rewrite <- place_along. f_equal.
    (* q - v1 is parallel to the edge *)
    assert (X : dotp (V2 (vy ev) (- vx ev)) (minus q v1) = 0).
    { rewrite VN in NQ. unfold dotp in *. cbn [vx vy] in *. apply Rmult_eq_reg_r with (/ len); [|apply Rinv_neq_0_compat; lra]. rewrite Rmult_0_l, <- NQ. field. lra. }
    assert (D0 : dist2 v2 v1 <> 0) by nra.
    unfold dotp, minus, ev in X. unfold s, along, dotp, minus. clear - X D0. unfold dist2 in *. rmath.
    set (ax := vx v2 - vx v1) in *. set (ay := vy v2 - vy v1) in *. set (bx := vx q - vx v1) in *. set (by_ := vy q - vy v1) in *.
    apply vec2_ext; cbn [vx vy].
    - replace (vx q) with (vx v1 + bx) by (unfold bx; ring). f_equal. apply Rmult_eq_reg_r with (ax * ax + ay * ay); [|exact D0].
      field_simplify; [|exact D0]. replace (bx * ax ^ 2 + bx * ay ^ 2) with (bx * ax * ax + ay * (ay * bx)) by ring. replace (ay * bx) with (ax * by_) by lra. ring.
    - replace (vy q) with (vy v1 + by_) by (unfold by_; ring). f_equal. apply Rmult_eq_reg_r with (ax * ax + ay * ay); [|exact D0].
      field_simplify; [|exact D0]. replace (by_ * ax ^ 2 + by_ * ay ^ 2) with (ax * (ax * by_) + by_ * ay * ay) by ring. replace (ax * by_) with (ay * bx) by lra. ring. }
  assert (TU : forall a b, dotp (turned (xq xf) a) (turned (xq xf) b) = dotp a b).
  { intros a b. rewrite <- !rotv_turned. apply (rotv_dot (xq xf) a b U). }
  assert (MP : forall a b, minus (place xf a) (place xf b) = turned (xq xf) (minus a b)) by (intros; apply vec2_ext; unfold minus, place, turned; cbn; ring).
  assert (NG : forall a b, dotp (vneg a) b = - dotp a b) by (intros; unfold dotp; rmathc; ring).
  assert (UT : unit_vec (turned (xq xf) n)). { specialize (TU n n). unfold dotp, unit_vec in *. lra. }
  split. { destruct Nn as [-> | ->]; [exact UT|]. unfold unit_vec, vneg in *. rops. lra. }
  split. { rewrite MP. destruct Nn as [-> | ->]; rewrite ?NG, TU, NE; ring. }
  rewrite !MP. injection Eo as <-. cbn [ray_normal]. rewrite rotv_turned.
  assert (N1 : dotp n (minus q1 v1) = - num) by (unfold dotp, minus, num; rmathc; ring).
  assert (N2 : dotp n (minus q2 q1) = den) by (unfold dotp, minus, den; rmathc; ring).
  rcase; rewrite ?NG, !TU, N1, N2; intros; nra.
Qed.
Lemma edge_ray_complete (e : edge R) (inp : ray_input R) xf f :
  let p1 := ray_p1 inp in let p2 := ray_p2 inp in
  unit_rot (xq xf) -> B2_EPSILON <= sqrt (dist2 (ed_v2 e) (ed_v1 e)) -> ed_one_sided e = false ->
  (* not parallel *)
  (vx p2 - vx p1) * (vy (place xf (ed_v2 e)) - vy (place xf (ed_v1 e))) - (vy p2 - vy p1) * (vx (place xf (ed_v2 e)) - vx (place xf (ed_v1 e))) <> 0 ->
  0 <= f <= ray_max inp -> on_segment (place xf (ed_v1 e)) (place xf (ed_v2 e)) (along p1 p2 f) ->
  exists out, edge_ray_cast e inp xf = Some out /\ ray_fraction out = f.
Proof.
  cbv zeta. intros U Hl O Np Hf (s & Hs & Es). pose proof eps_pos as EP. unfold edge_ray_cast. rewrite O. cbn [andb].
  set (v1 := ed_v1 e) in *. set (v2 := ed_v2 e) in *.
  set (q1 := rotv_t (xq xf) (vsub (ray_p1 inp) (xp xf))). set (q2 := rotv_t (xq xf) (vsub (ray_p2 inp) (xp xf))).
  assert (P1 : ray_p1 inp = place xf q1). { rewrite <- xfv_place. symmetry. apply (xfv_xfv_t xf (ray_p1 inp) U). }
  assert (P2 : ray_p2 inp = place xf q2). { rewrite <- xfv_place. symmetry. apply (xfv_xfv_t xf (ray_p2 inp) U). }
  rewrite P1, P2 in *. clearbody q1 q2. rewrite <- !place_along in Es.
  assert (Q : along q1 q2 f = along v1 v2 s). { rewrite <- !xfv_place in Es. apply (f_equal (xfv_t xf)) in Es. now rewrite !xfv_t_xfv in Es. }
  set (ev := vsub v2 v1). set (len := sqrt (dist2 v2 v1)) in *.
  assert (LL : dotp (V2 (vy ev) (- vx ev)) (V2 (vy ev) (- vx ev)) = dist2 v2 v1) by (unfold ev, dotp, dist2; rmathc; ring).
  destruct (normalize_unit (V2 (vy ev) (- vx ev))) as (UN & VN). { rewrite LL. exact Hl. }
  rewrite LL in VN. fold len in VN. change (nneg (vx ev)) with (- vx ev). set (n := snd _) in *. clearbody n.
  assert (LP : 0 < len) by lra.
  assert (LS : len * len = dist2 v2 v1). { apply sqrt_sqrt, dist2_nonneg. }
  assert (Np' : (vx q2 - vx q1) * (vy v2 - vy v1) - (vy q2 - vy q1) * (vx v2 - vx v1) <> 0).
  { intros Z. apply Np. unfold place. cbn [vx vy]. unfold unit_rot in U. transitivity ((rs (xq xf) * rs (xq xf) + rc (xq xf) * rc (xq xf)) * ((vx q2 - vx q1) * (vy v2 - vy v1) - (vy q2 - vy q1) * (vx v2 - vx v1))); [ring|]. rewrite Z. ring. }
  set (den := b2_dot n (vsub q2 q1)). set (num := b2_dot n (vsub v1 q1)).
  assert (DD : den * len = (vx q2 - vx q1) * (vy v2 - vy v1) - (vy q2 - vy q1) * (vx v2 - vx v1)).
  { unfold den. rewrite VN. unfold ev. rmathc. field. lra. }
  assert (D0 : den <> 0) by (intros Z; rewrite Z in DD; lra).
  assert (ND : num = f * den).
  { assert (X : num - f * den = - b2_dot n (vsub (along q1 q2 f) v1)) by (unfold num, den, along; rmathc; ring).
    rewrite Q in X. assert (b2_dot n (vsub (along v1 v2 s) v1) = 0). { rewrite VN. unfold ev, along. rmathc. field. lra. } lra. }
  assert (TT : num / den = f) by (rewrite ND; field; auto).
  rops. rewrite TT. ifc; [contradiction|]. ifc; [lra|]. ifc; [lra|].
  assert (RR : b2_dot ev ev = dist2 v2 v1) by (unfold ev, dist2; rmathc; ring).
  rewrite RR. ifc; [nra|].
  assert (SS : b2_dot (vsub (vadd q1 (vscale f (vsub q2 q1))) v1) ev / dist2 v2 v1 = s).
  { change (vadd q1 (vscale f (vsub q2 q1))) with (along q1 q2 f). rewrite Q. apply Rmult_eq_reg_r with (dist2 v2 v1); [|assumption].
    replace (b2_dot (vsub (along v1 v2 s) v1) ev / dist2 v2 v1 * dist2 v2 v1) with (b2_dot (vsub (along v1 v2 s) v1) ev) by (field; assumption).
    unfold ev, along, dist2. rmathc. ring. }
  rewrite SS. ifc; [lra|]. ifc; [lra|]. eexists. split; [reflexivity|]. reflexivity.
Qed.

(** ** C41 *)
Definition f0 : R := 32 / 1000.
Definition inner_upto (po : polygon R) (k : nat) (p : vec2 R) : Prop :=
  forall i n v, (i < k)%nat -> nth_error (po_normals po) i = Some n -> nth_error (po_vertices po) i = Some v -> dotp n (minus p v) <= 0.
Definition ray_inv (po : polygon R) (q1 q2 : vec2 R) (mx : R) (k : nat) (st : option (R * R * option nat)) : Prop :=
  match st with
  | None => forall t, f0 <= t <= mx -> ~ inner_upto po k (along q1 q2 t)
  | Some (l, u, ix) => f0 <= l /\ u <= mx /\ ((0 < k)%nat -> l <= u) /\
      (forall t, f0 <= t <= mx -> (inner_upto po k (along q1 q2 t) <-> l <= t <= u)) /\
      match ix with
      | None => l = f0
      | Some i => f0 < l /\ exists n v, (i < k)%nat /\ nth_error (po_normals po) i = Some n /\ nth_error (po_vertices po) i = Some v /\
          dotp n (minus q2 q1) < 0 /\ dotp n (minus (along q1 q2 l) v) = 0
      end
  end.
Lemma inner_upto_S po k p n v : nth_error (po_normals po) k = Some n -> nth_error (po_vertices po) k = Some v ->
  (inner_upto po (S k) p <-> inner_upto po k p /\ dotp n (minus p v) <= 0).
Proof.
  intros En Ev. split.
  - intros H. split; [intros i m w Hi; apply H; lia|]. apply (H k); auto.
  - intros (H & L) i m w Hi Em Ew. destruct (Nat.eq_dec i k) as [->|Ne]; [|apply (H i); auto; lia].
    rewrite En in Em. rewrite Ev in Ew. injection Em as <-. injection Ew as <-. exact L.
Qed.
Lemma poly_ray_step_ok po q1 q2 mx k st : poly_sized po -> (k < po_count po)%nat ->
  ray_inv po q1 q2 mx k st -> exists st', poly_ray_step po q1 (vsub q2 q1) k st = Ok st' /\ ray_inv po q1 q2 mx (S k) st'.
Proof.
  intros (Hc & Hv & Hn) Hk. unfold poly_ray_step.
  destruct (nth_lt (po_normals po) k) as (n & En); [lia|]. destruct (nth_lt (po_vertices po) k) as (v & Ev); [lia|].
  destruct st as [[[l u] ix]|].
  2: { intros H. exists None. split; [reflexivity|]. intros t Ht K. apply (H t Ht). apply (inner_upto_S po k _ n v En Ev) in K. tauto. }
  intros (Hl & Hu & Hlu & Hi & Hx). rewrite (get_ok _ _ _ En), (get_ok _ _ _ Ev). cbn [bind]. rops.
  set (num := b2_dot n (vsub v q1)). set (den := b2_dot n (vsub q2 q1)).
  assert (P : forall t, dotp n (minus (along q1 q2 t) v) = t * den - num) by (intros; unfold dotp, minus, along, num, den; rmathc; ring).
  assert (IS : forall t, inner_upto po (S k) (along q1 q2 t) <-> inner_upto po k (along q1 q2 t) /\ t * den <= num).
  { intros t. rewrite (inner_upto_S po k _ n v En Ev), P. intuition lra. }
  assert (Hx' : match ix with None => l = f0 | Some i => f0 < l /\ exists n v, (i < S k)%nat /\ nth_error (po_normals po) i = Some n /\ nth_error (po_vertices po) i = Some v /\
          dotp n (minus q2 q1) < 0 /\ dotp n (minus (along q1 q2 l) v) = 0 end).
  { destruct ix as [i|]; [|exact Hx]. destruct Hx as (A & n' & v' & B & C). split; [exact A|]. exists n', v'. split; [lia|exact C]. }
  destruct (Req_bool_spec den 0) as [H|H].
  - destruct (Rlt_bool_spec num 0).
    + exists None. split; [reflexivity|]. intros t Ht K. apply IS in K as (_ & K). rewrite H in K. nra.
    + rcase; eexists; (split; [reflexivity|]).
      * intros t Ht K. apply IS in K as (K & _). apply (Hi t Ht) in K. lra.
      * split; [exact Hl|]. split; [exact Hu|]. split; [intros _; lra|]. split; [|exact Hx'].
        intros t Ht. rewrite IS, (Hi t Ht). rewrite H. intuition nra.
  - assert (Dn : num / den * den = num) by (field; auto).
    destruct (Rlt_bool_spec den 0) as [Dneg|Dpos]; cbn [andb].
    + destruct (Rlt_bool_spec num (l * den)) as [Lt|Ge]; cbn [andb].
      * set (l' := num / den) in *. assert (LL : l < l') by nra. assert (B : forall t, t * den <= num <-> l' <= t) by (intros; split; intros; nra).
        rcase; eexists; (split; [reflexivity|]).
        -- intros t Ht K. apply IS in K as (K & K2). apply (Hi t Ht) in K. apply B in K2. lra.
        -- split; [lra|]. split; [exact Hu|]. split; [intros _; lra|]. split.
           ++ intros t Ht. rewrite IS, (Hi t Ht), B. intuition lra.
           ++ split; [lra|]. exists n, v. split; [lia|]. split; [exact En|]. split; [exact Ev|]. split.
              ** unfold den in Dneg. unfold dotp, minus. rmath. lra.
              ** rewrite P. lra.
      * destruct (Rlt_bool_spec 0 den); [lra|]. cbn [andb].
        assert (B : forall t, l <= t -> t * den <= num) by (intros; nra).
        rcase; eexists; (split; [reflexivity|]).
        -- intros t Ht K. apply IS in K as (K & _). apply (Hi t Ht) in K. lra.
        -- split; [lra|]. split; [exact Hu|]. split; [intros _; lra|]. split; [|exact Hx'].
           intros t Ht. rewrite IS, (Hi t Ht). split; [tauto|]. intros K. split; [exact K|]. apply B. lra.
    + destruct (Rlt_bool_spec 0 den); [|lra]. cbn [andb].
      destruct (Rlt_bool_spec num (u * den)) as [Lt|Ge].
      * set (u' := num / den) in *. assert (UU : u' < u) by nra. assert (B : forall t, t * den <= num <-> t <= u') by (intros; split; intros; nra).
        rcase; eexists; (split; [reflexivity|]).
        -- intros t Ht K. apply IS in K as (K & K2). apply (Hi t Ht) in K. apply B in K2. lra.
        -- split; [lra|]. split; [lra|]. split; [intros _; lra|]. split; [|exact Hx'].
           intros t Ht. rewrite IS, (Hi t Ht), B. intuition lra.
      * assert (B : forall t, t <= u -> t * den <= num) by (intros; nra).
        rcase; eexists; (split; [reflexivity|]).
        -- intros t Ht K. apply IS in K as (K & _). apply (Hi t Ht) in K. lra.
        -- split; [lra|]. split; [exact Hu|]. split; [intros _; lra|]. split; [|exact Hx'].
           intros t Ht. rewrite IS, (Hi t Ht). split; [tauto|]. intros K. split; [exact K|]. apply B. lra.
Qed.
Lemma polygon_ray_ok (po : polygon R) (inp : ray_input R) xf :
  let p1 := ray_p1 inp in let p2 := ray_p2 inp in
  poly_sized po -> unit_rot (xq xf) ->
  exists o, polygon_ray_cast po inp xf = Ok o /\
  match o with
  | Some out => let f := ray_fraction out in
      f0 < f <= ray_max inp /\ in_polygon po xf (along p1 p2 f) /\ (forall t, t < f -> ~ in_polygon po xf (along p1 p2 t)) /\
      crosses_edge po xf p1 p2 f (ray_normal out)
  | None => forall f, f0 < f <= ray_max inp -> in_polygon po xf (along p1 p2 f) ->
      exists t, 0 <= t < f /\ in_polygon po xf (along p1 p2 t)
  end.
Proof.
  cbv zeta. intros S U. unfold polygon_ray_cast. pose proof S as (Hc & Hv & Hn).
  set (q1 := rotv_t (xq xf) (vsub (ray_p1 inp) (xp xf))). set (q2 := rotv_t (xq xf) (vsub (ray_p2 inp) (xp xf))).
  assert (P1 : ray_p1 inp = place xf q1). { rewrite <- xfv_place. symmetry. apply (xfv_xfv_t xf (ray_p1 inp) U). }
  assert (P2 : ray_p2 inp = place xf q2). { rewrite <- xfv_place. symmetry. apply (xfv_xfv_t xf (ray_p2 inp) U). }
  rewrite P1, P2. clearbody q1 q2.
  assert (IP : forall a, in_polygon po xf (place xf a) <-> inner po a).
  { intros a. split; [|intros; now exists a]. intros (b & E & H). rewrite <- !xfv_place in E. apply (f_equal (xfv_t xf)) in E. rewrite !xfv_t_xfv in E by exact U. now subst. }
  assert (IA : forall t, in_polygon po xf (along (place xf q1) (place xf q2) t) <-> inner_upto po (po_count po) (along q1 q2 t)).
  { intros t. rewrite <- place_along. apply IP. }
  unfold for_range. rewrite Nat.sub_0_r.
  destruct (for_from_inv (ray_inv po q1 q2 (ray_max inp)) (poly_ray_step po q1 (vsub q2 q1)) (po_count po) 0 (Some (f0, ray_max inp, None))) as (st & E & H).
  - cbn. split; [lra|]. split; [lra|]. split; [lia|]. split; [|reflexivity]. intros t Ht. split; [tauto|]. intros _ i n v Hi. lia.
  - intros i s Hi Hs. apply poly_ray_step_ok; auto. lia.
  - change (nlit 32 1000) with f0. rewrite E. cbn [bind]. rewrite Nat.add_0_l in H.
    destruct st as [[[l u] ix]|]; cbn [ray_inv] in H.
    + destruct H as (Hl & Hu & Hlu & Hi & Hx). specialize (Hlu Hc). assert (F : 0 < f0) by (unfold f0; lra).
      rops. rcase; [|lra]. cbn [andb]. rcase; [|lra]. cbn [b2_assert bind].
      destruct ix as [i|].
      * destruct Hx as (L & n & v & Hik & En & Ev & Dn & Dv). rewrite (get_ok _ _ _ En). cbn [bind]. eexists. split; [reflexivity|]. cbn [ray_fraction ray_normal].
        split; [lra|]. split. { apply IA, Hi; lra. } split.
        -- intros t Ht K. apply IA in K. specialize (K i n v Hik En Ev). unfold dotp, minus, along in *. cbn [vx vy] in *. nra.
        -- exists i, n, v. split; [exact Hik|]. split; [exact En|]. split; [exact Ev|]. rewrite rotv_turned. split; [reflexivity|].
           assert (TU : forall a b, dotp (turned (xq xf) a) (turned (xq xf) b) = dotp a b).
           { intros a b. rewrite <- !rotv_turned. apply (rotv_dot (xq xf) a b U). }
           assert (MP : forall a b, minus (place xf a) (place xf b) = turned (xq xf) (minus a b)) by (intros; apply vec2_ext; unfold minus, place, turned; cbn; ring).
           rewrite <- place_along, !MP, !TU. auto.
      * subst l. exists None. split; [reflexivity|]. intros f Hf K. apply IA in K. apply Hi in K; [|lra].
        exists f0. split; [lra|]. apply IA, Hi; lra.
    + exists None. split; [reflexivity|]. intros f Hf K. apply IA in K. exfalso. apply (H f); [lra|exact K].
Qed.

(** ** C52 *)
Lemma circle_mass_ok (c : circle R) rho : let m := circle_mass c rho in let r := ci_radius c in
  md_mass m = rho * (PI * (r * r)) /\ md_center m = ci_p c /\
  md_i m = md_mass m * (r * r) / 2 + md_mass m * dotp (ci_p c) (ci_p c).
Proof. cbn. unfold B2_PI, dotp. rmathc. repeat split; try reflexivity; field. Qed.
Lemma box_mass_ok (po : polygon R) hx hy rho : B2_EPSILON < 4 * (hx * hy) ->
  exists m, polygon_mass (set_as_box po hx hy) rho = Ok m /\
    md_mass m = 4 * rho * (hx * hy) /\ md_center m = V2 0 0 /\ md_i m = 4 / 3 * rho * (hx * hy) * (hx * hx + hy * hy).
Proof.
  intros Ha. pose proof eps_pos as EP. unfold polygon_mass, set_as_box, put, box_vertices, box_normals.
  cbn [po_count po_vertices app Nat.leb b2_assert bind get nth_error for_range Nat.sub for_from Nat.ltb Nat.add].
  rmathc. rcase; cbn [b2_assert bind].
  - eexists. split; [reflexivity|]. cbn [md_mass md_center md_i vx vy]. 
    match type of H with _ < ?a => set (ar := a) in * end. assert (AR : ar = 4 * (hx * hy)) by (unfold ar; field). clearbody ar. subst ar.
    assert (X : hx * hy <> 0) by lra. assert (hx <> 0 /\ hy <> 0) by (split; intros ->; lra).
    split; [field|]. split; [apply vec2_ext; cbn [vx vy]; field; tauto|]. field. tauto.
  - exfalso. revert H. apply Rlt_not_le. eapply Rlt_le_trans; [exact Ha|]. right. field.
Qed.

(** ** C51 *)
Section Chains.
  Context {T : Type} `{NT : Num T}.
  Local Notation spacedP vs := (forall i a b, nth_error vs i = Some a -> nth_error vs (S i) = Some b ->
    nlt (nmul B2_LINEAR_SLOP B2_LINEAR_SLOP) (b2_distance_vec2_squared a b) = true).
  Lemma spaced_ok (vs : list (vec2 T)) : spacedP vs -> spaced vs = Ok tt.
  Proof.
    intros H. unfold spaced, for_range. destruct (Nat.le_gt_cases (length vs) 1) as [L|L].
    - now replace (length vs - 1)%nat with 0%nat by lia.
    - match goal with |- for_from ?n ?lo ?f ?s = _ => destruct (for_from_inv (fun _ _ => True) f n lo s I) as ([] & E & _) end; [|exact E].
      intros i [] Hi _. exists tt. split; [|exact I].
      destruct (nth_lt vs (i - 1)) as (a & Ea); [lia|]. destruct (nth_lt vs i) as (b & Eb); [lia|].
      rewrite (get_ok _ _ _ Ea), (get_ok _ _ _ Eb). cbn [bind]. rewrite (H (i - 1)%nat a b Ea); [reflexivity|].
      replace (S (i - 1)) with i by lia. exact Eb.
  Qed.
  Lemma child_edge_ok (c : chain T) i : (S i < length (ch_vertices c))%nat ->
    exists e, get_child_edge c i = Ok e /\ ed_one_sided e = true /\ ed_radius e = ch_radius c /\
      nth_error (ch_vertices c) i = Some (ed_v1 e) /\ nth_error (ch_vertices c) (S i) = Some (ed_v2 e) /\
      match i with O => ed_v0 e = ch_prev c | S j => nth_error (ch_vertices c) j = Some (ed_v0 e) end /\
      match nth_error (ch_vertices c) (S (S i)) with Some v => ed_v3 e = v | None => ed_v3 e = ch_next c end.
  Proof.
    intros Hi. unfold get_child_edge, usize_sub. set (vs := ch_vertices c) in *.
    rewrite (proj2 (Nat.leb_le 1 (length vs))) by lia. cbn [bind]. rewrite (proj2 (Nat.ltb_lt i (length vs - 1))) by lia. cbn [b2_assert bind].
    destruct (nth_lt vs i) as (a & Ea); [lia|]. destruct (nth_lt vs (S i)) as (b & Eb); [lia|].
    rewrite (get_ok _ _ _ Ea). cbn [bind]. rewrite Nat.add_1_r, (get_ok _ _ _ Eb). cbn [bind].
    destruct (nth_lt vs (i - 1)) as (z & Ez); [lia|].
    assert (V0 : (if Nat.ltb 0 i then get vs (i - 1) else Ok (ch_prev c)) = Ok (if Nat.ltb 0 i then z else ch_prev c)).
    { destruct (Nat.ltb 0 i); [apply get_ok; exact Ez|reflexivity]. }
    rewrite V0. cbn [bind]. rewrite (proj2 (Nat.leb_le 2 (length vs))) by lia. cbn [bind].
    rewrite Nat.add_comm. cbn [Nat.add].
    destruct (Nat.ltb_spec i (length vs - 2)).
    - destruct (nth_lt vs (S (S i))) as (d & Ed); [lia|]. rewrite (get_ok _ _ _ Ed). cbn [bind]. eexists. split; [reflexivity|].
      cbn [ed_one_sided ed_radius ed_v0 ed_v1 ed_v2 ed_v3]. rewrite Ed. repeat split; auto.
      destruct i; [reflexivity|]. cbn in *. now rewrite Nat.sub_0_r in Ez.
    - cbn [bind]. eexists. split; [reflexivity|]. cbn [ed_one_sided ed_radius ed_v0 ed_v1 ed_v2 ed_v3].
      rewrite (proj2 (nth_error_None vs (S (S i)))) by lia. repeat split; auto.
      destruct i; [reflexivity|]. cbn in *. now rewrite Nat.sub_0_r in Ez.
  Qed.
  Lemma chain_ok (c : chain T) vs p n : ch_vertices c = [] -> (2 <= length vs)%nat -> spacedP vs ->
    exists c', create_chain c vs p n = Ok c' /\ chain_child_count c' = Ok (length vs - 1)%nat /\
      forall i, (i < length vs - 1)%nat -> exists e, get_child_edge c' i = Ok e /\ ed_one_sided e = true /\
        nth_error vs i = Some (ed_v1 e) /\ nth_error vs (S i) = Some (ed_v2 e) /\
        match i with O => ed_v0 e = p | S j => nth_error vs j = Some (ed_v0 e) end /\
        match nth_error vs (S (S i)) with Some v => ed_v3 e = v | None => ed_v3 e = n end.
  Proof.
    intros E0 L Sp. unfold create_chain. rewrite E0. cbn [length Nat.eqb b2_assert bind]. rewrite (proj2 (Nat.leb_le _ _)) by exact L. cbn [b2_assert bind].
    rewrite spaced_ok by exact Sp. cbn [bind]. eexists. split; [reflexivity|]. split.
    - unfold chain_child_count, usize_sub. cbn [ch_vertices]. now rewrite (proj2 (Nat.leb_le _ _)) by lia.
    - intros i Hi. destruct (child_edge_ok (Chain (ch_radius c) vs p n) i) as (e & E & A & _ & B); [cbn; lia|]. exists e. cbn [ch_vertices ch_prev ch_next] in B. auto.
  Qed.
  Lemma loop_ok (c : chain T) vs : ch_vertices c = [] -> (3 <= length vs)%nat -> spacedP vs ->
    let n := length vs in
    exists c', create_loop c vs = Ok c' /\ chain_child_count c' = Ok n /\
      forall i, (i < n)%nat -> exists e, get_child_edge c' i = Ok e /\ ed_one_sided e = true /\
        nth_error vs i = Some (ed_v1 e) /\ nth_error vs ((i + 1) mod n) = Some (ed_v2 e) /\
        nth_error vs ((i + n - 1) mod n) = Some (ed_v0 e) /\ nth_error vs ((i + 2) mod n) = Some (ed_v3 e).
  Proof.
    intros E0 L Sp n. unfold create_loop. rewrite E0. cbn [length Nat.eqb b2_assert bind]. rewrite (proj2 (Nat.leb_le _ _)) by exact L. cbn [b2_assert bind].
    rewrite spaced_ok by exact Sp. cbn [bind]. destruct (nth_lt vs 0) as (v0 & Ev0); [lia|]. rewrite (get_ok _ _ _ Ev0). cbn [bind].
    assert (LL : length (vs ++ [v0]) = S n) by (rewrite app_length; cbn; unfold n; lia). rewrite LL.
    destruct (nth_lt vs (n - 1)) as (vl & Evl); [unfold n; lia|]. destruct (nth_lt vs 1) as (v1 & Ev1); [lia|].
    assert (Low : forall i, (i < n)%nat -> nth_error (vs ++ [v0]) i = nth_error vs i) by (intros; apply nth_error_app1; exact H).
    rewrite (get_ok (vs ++ [v0]) (S n - 2) vl) by (rewrite Low by (unfold n; lia); now replace (S n - 2)%nat with (n - 1)%nat by lia). cbn [bind].
    rewrite (get_ok (vs ++ [v0]) 1 v1) by (rewrite Low by (unfold n; lia); exact Ev1). cbn [bind]. eexists. split; [reflexivity|]. split.
    - unfold chain_child_count, usize_sub. cbn [ch_vertices]. rewrite LL. rewrite (proj2 (Nat.leb_le _ _)) by lia. f_equal. lia.
    - intros i Hi. destruct (child_edge_ok (Chain (ch_radius c) (vs ++ [v0]) vl v1) i) as (e & E & A & _ & B1 & B2 & B3 & B4); [cbn [ch_vertices]; lia|]. exists e. cbn [ch_vertices ch_prev ch_next] in *.
      assert (Last : nth_error (vs ++ [v0]) n = Some v0) by (rewrite nth_error_app2 by (unfold n; lia); unfold n; now rewrite Nat.sub_diag).
      assert (N3 : (3 <= n)%nat) by exact L.
      split; [exact E|]. split; [exact A|]. split; [now rewrite <- Low|].
      split. { destruct (Nat.eq_dec i (n - 1)) as [->|Ne].
        - replace (n - 1 + 1)%nat with n by lia. rewrite Nat.mod_same by lia. replace (S (n - 1)) with n in B2 by lia. rewrite Last in B2. congruence.
        - rewrite Nat.mod_small by lia. rewrite Nat.add_1_r, <- Low by lia. exact B2. }
      split. { destruct i as [|j].
        - rewrite Nat.mod_small by lia. cbn [Nat.add]. now rewrite B3.
        - replace (S j + n - 1)%nat with (j + 1 * n)%nat by lia. rewrite Nat.mod_add, Nat.mod_small by lia. rewrite <- Low by lia. exact B3. }
      destruct (Nat.eq_dec i (n - 1)) as [->|Ne].
      + replace (n - 1 + 2)%nat with (1 + 1 * n)%nat by lia. rewrite Nat.mod_add, Nat.mod_small by lia.
        rewrite (proj2 (nth_error_None _ (S (S (n - 1))))) in B4 by lia. now rewrite B4.
      + destruct (Nat.eq_dec i (n - 2)) as [->|Ne2].
        * replace (n - 2 + 2)%nat with n by lia. rewrite Nat.mod_same by lia. replace (S (S (n - 2))) with n in B4 by lia. rewrite Last in B4. congruence.
        * rewrite Nat.mod_small by lia. rewrite Low in B4 by lia. replace (i + 2)%nat with (S (S i)) by lia. destruct (nth_error vs (S (S i))) eqn:En; [congruence|].
          apply nth_error_None in En. unfold n in *. lia.
  Qed.
  (* every in-range child access succeeds *)
  Lemma chain_access (c : chain T) (inp : ray_input T) xf i : (i < length (ch_vertices c))%nat ->
    (exists o, chain_ray_cast c inp xf i = Ok o) /\ (exists b, chain_aabb c xf i = Ok b).
  Proof.
    intros Hi. unfold chain_ray_cast, chain_aabb, chain_ends. rewrite (proj2 (Nat.ltb_lt _ _)) by exact Hi. cbn [b2_assert bind].
    destruct (nth_lt _ _ Hi) as (a & Ea). rewrite (get_ok _ _ _ Ea). cbn [bind].
    set (i2 := if Nat.eqb (i + 1) (length (ch_vertices c)) then 0%nat else (i + 1)%nat).
    destruct (nth_lt (ch_vertices c) i2) as (b & Eb). { unfold i2. destruct (Nat.eqb_spec (i + 1) (length (ch_vertices c))); lia. }
    rewrite (get_ok _ _ _ Eb). cbn [bind]. eauto.
  Qed.
End Chains.

Lemma chain_aabb_ok (c : chain R) xf i a b : 0 <= ch_radius c ->
  nth_error (ch_vertices c) i = Some a -> nth_error (ch_vertices c) (S i) = Some b ->
  exists bx, chain_aabb c xf i = Ok bx /\ forall p, near xf (on_segment a b) (ch_radius c) p -> in_box bx p.
Proof.
  intros Hr Ea Eb. unfold chain_aabb, chain_ends.
  assert (i < length (ch_vertices c))%nat by (apply nth_error_Some; congruence). assert (S i < length (ch_vertices c))%nat by (apply nth_error_Some; congruence).
  rewrite (proj2 (Nat.ltb_lt _ _)) by exact H. cbn [b2_assert bind]. rewrite (get_ok _ _ _ Ea). cbn [bind].
  rewrite (proj2 (Nat.eqb_neq _ _)) by lia. rewrite Nat.add_1_r, (get_ok _ _ _ Eb). cbn [bind]. eexists. split; [reflexivity|].
  intros p. now apply segment_aabb_ok.
Qed.
Lemma box_test_ok (po : polygon R) hx hy xf p : unit_rot (xq xf) ->
  exists b, polygon_test_point (set_as_box po hx hy) xf p = Ok b /\
    (b = true <-> exists a, p = place xf a /\ - hx <= vx a <= hx /\ - hy <= vy a <= hy).
Proof.
  intros U. destruct (polygon_test_ok (set_as_box po hx hy) xf p (box_sized po hx hy) U) as (b & E & H). exists b. split; [exact E|]. rewrite H.
  unfold in_polygon. split; intros (a & Ea & Ha); exists a; (split; [exact Ea|]); now apply (box_inner po hx hy a).
Qed.
Lemma dist2_sym a b : dist2 a b = dist2 b a.
Proof. unfold dist2. ring. Qed.
Lemma collide_circles_sym (m : manifold R) a xf_a b xf_b : length (mf_points m) = 2%nat -> 0 <= ci_radius a -> 0 <= ci_radius b ->
  exists m1 m2, b2_collide_circles m a xf_a b xf_b = Ok m1 /\ b2_collide_circles m b xf_b a xf_a = Ok m2 /\ mf_count m1 = mf_count m2.
Proof.
  intros L Ha Hb. destruct (collide_circles_ok m a xf_a b xf_b L Ha Hb) as (m1 & E1 & A1 & B1).
  destruct (collide_circles_ok m b xf_b a xf_a L Hb Ha) as (m2 & E2 & A2 & B2). exists m1, m2. split; [exact E1|]. split; [exact E2|].
  rewrite dist2_sym, Rplus_comm in A2, B2. destruct (Rle_or_lt (sqrt (dist2 (place xf_a (ci_p a)) (place xf_b (ci_p b)))) (ci_radius a + ci_radius b)).
  - rewrite (proj2 A1 H), (proj2 A2 H). reflexivity.
  - rewrite (proj2 B1 H), (proj2 B2 H). reflexivity.
Qed.
