(** Proper polygons: validation, boxes, containment, mass, over exact reals. *)
From Coq Require Import ZArith Reals Lra Lia Bool List Arith Psatz.
From Flocq Require Import Core.
From Verif Require Import Base Num NumLaws Math Collision ShapeModel MathSpec GeomSpec ShapeSpec HullSpec RTac ListFacts ManifoldProofs ShapeProofs HullProofs HullSet.
Import ListNotations.
Local Open Scope R_scope.

Lemma used_length {T} (po : polygon T) : poly_sized po -> length (used_vertices po) = po_count po.
Proof. intros (_ & L & _). unfold used_vertices. rewrite firstn_length. lia. Qed.
Lemma used_get {T} (po : polygon T) i a : poly_sized po -> nth_error (used_vertices po) i = Some a -> (i < po_count po)%nat /\ nth_error (po_vertices po) i = Some a.
Proof.
  intros Sz H. assert (L : (i < length (used_vertices po))%nat) by (apply nth_error_Some; congruence).
  rewrite used_length in L by exact Sz. split; [exact L|]. rewrite <- used_nth; assumption.
Qed.

(** ** validate *)
Lemma proper_valid po : proper po -> polygon_validate po = Ok true.
Proof.
  intros (Sz & (L3 & C) & _). pose proof (used_length po Sz) as UL. rewrite UL in *.
  unfold polygon_validate, any_range. rewrite Nat.sub_0_r. rewrite (any_from_spec _ (fun _ => false)).
  - cbn [bind]. replace (existsb (fun _ => false) _) with false; [reflexivity|]. induction (seq 0 (po_count po)); cbn; auto.
  - intros i Hi.
    assert (Ai : (if Nat.ltb i (po_count po - 1) then (i + 1)%nat else 0%nat) = after (po_count po) i).
    { unfold after. destruct (Nat.ltb_spec i (po_count po - 1)), (Nat.ltb_spec (S i) (po_count po)); lia. }
    rewrite Ai. pose proof (after_lt [] (po_count po) i ltac:(lia)) as AL.
    destruct (nth_error (used_vertices po) i) as [a|] eqn:Ea; [|apply nth_error_None in Ea; lia].
    destruct (nth_error (used_vertices po) (after (po_count po) i)) as [b|] eqn:Eb; [|apply nth_error_None in Eb; lia].
    pose proof (used_get _ _ _ Sz Ea) as [_ Ga]. pose proof (used_get _ _ _ Sz Eb) as [_ Gb].
    rewrite (get_some _ _ _ Ga), (get_some _ _ _ Gb). cbn [bind]. rewrite (any_from_spec _ (fun _ => false)).
    + f_equal. induction (seq 0 (po_count po)); cbn; auto.
    + intros j Hj. destruct (Nat.eqb_spec j i) as [->|N1]; cbn [orb]; [reflexivity|].
      destruct (Nat.eqb_spec j (after (po_count po) i)) as [->|N2]; [reflexivity|].
      destruct (nth_error (used_vertices po) j) as [c|] eqn:Ec; [|apply nth_error_None in Ec; lia].
      pose proof (used_get _ _ _ Sz Ec) as [_ Gc]. rewrite (get_some _ _ _ Gc). cbn [bind].
      pose proof (C i j a b c N1 N2 Ea Eb Ec) as T. rmathc. rewrite Rlt_bool_false; [reflexivity|]. unfold turn in T. lra.
Qed.

(** ** the half planes of the normals are the half planes of the edges *)
Lemma proper_inner po p : proper po -> (inner po p <-> inside (used_vertices po) p).
Proof.
  intros (Sz & (L3 & C) & (LN & N)). pose proof (used_length po Sz) as UL.
  assert (UN : forall i n, (i < po_count po)%nat -> nth_error (po_normals po) i = Some n -> nth_error (used_normals po) i = Some n).
  { intros i n Hi Hn. unfold used_normals. rewrite nth_firstn; assumption. }
  split.
  - intros I i a b Ha Hb. destruct (used_get _ _ _ Sz Ha) as [Hi Ga].
    destruct (nth_error (po_normals po) i) as [n|] eqn:En.
    2:{ apply nth_error_None in En. destruct Sz as (_ & _ & ?). lia. }
    pose proof (I i n a Hi En Ga) as D0. destruct (N i a b n Ha Hb (UN i n Hi En)) as (U & Per & Sg).
    destruct (Rle_lt_dec 0 (turn a b p)) as [K|K]; [exact K|exfalso].
    (* reflect p in the line of the edge *)
    set (q := V2 (2 * vx a - vx p) (2 * vy a - vy p)).
    assert (0 < turn a b q). { unfold turn, q in *; cbn. lra. }
    apply Sg in H. unfold dotp, minus, q in *; cbn in *. lra.
  - intros I i n a Hi Hn Ha. rewrite <- used_nth in Ha by exact Hi.
    destruct (nth_error (used_vertices po) (after (length (used_vertices po)) i)) as [b|] eqn:Eb.
    2:{ apply nth_error_None in Eb. pose proof (after_lt [] (length (used_vertices po)) i ltac:(lia)). lia. }
    pose proof (I i a b Ha Eb) as T. destruct (N i a b n Ha Eb (UN i n Hi Hn)) as (U & Per & Sg).
    destruct (Rle_lt_dec (dotp n (minus p a)) 0) as [K|K]; [exact K|exfalso].
    set (q := V2 (2 * vx a - vx p) (2 * vy a - vy p)).
    assert (dotp n (minus q a) < 0). { unfold dotp, minus, q in *; cbn in *. lra. }
    apply Sg in H. unfold turn, q in *; cbn in *. lra.
Qed.

(** ** boxes *)
Ltac small i := destruct i as [|[|[|[|i]]]]; [| | | |exfalso; match goal with H : nth_error _ _ = Some _ |- _ => cbn in H; try discriminate; destruct i; discriminate end].
Lemma quad_proper r c a b d e ns1 ns2 ns3 ns4 v0 n0 :
  convex_ccw [a; b; d; e] -> right_normals [a; b; d; e] [ns1; ns2; ns3; ns4] ->
  proper (Polygon r c ([a; b; d; e] ++ v0) ([ns1; ns2; ns3; ns4] ++ n0) 4).
Proof.
  intros C N. split; [|split; [exact C|exact N]]. split; [|split]; cbn; lia.
Qed.
Lemma box_convex hx hy : 0 < hx -> 0 < hy -> convex_ccw (box_vertices hx hy).
Proof.
  intros Hx Hy. split; [cbn; lia|]. assert (0 < hx * hy) by (apply Rmult_lt_0_compat; assumption).
  intros i j a b c N1 N2 Ha Hb Hc.
  destruct i as [|[|[|[|i]]]]; [| | | |destruct i; discriminate];
    (destruct j as [|[|[|[|j]]]]; [| | | |destruct j; discriminate]); cbn in *; try congruence;
    injection Ha as <-; injection Hb as <-; injection Hc as <-; unfold turn; cbn; nra.
Qed.
Lemma box_normals_right hx hy : 0 < hx -> 0 < hy -> right_normals (box_vertices hx hy) box_normals.
Proof.
  intros Hx Hy. split; [reflexivity|]. intros i a b n Ha Hb Hn.
  destruct i as [|[|[|[|i]]]]; [| | | |destruct i; discriminate]; cbn in *;
    injection Ha as <-; injection Hb as <-; injection Hn as <-; unfold unit_vec, dotp, minus, turn; cbn;
    (split; [ring|split; [ring|]]; intros p; split; intros; nra).
Qed.
Lemma box_proper self hx hy : 0 < hx -> 0 < hy -> proper (set_as_box self hx hy).
Proof. intros Hx Hy. apply quad_proper; [apply box_convex|apply box_normals_right]; assumption. Qed.

(* a rotation and a shift keep everything *)
Definition rigid (xf : xform R) : Prop := rs (xq xf) * rs (xq xf) + rc (xq xf) * rc (xq xf) = 1.
Lemma turn_place xf a b c : rigid xf -> turn (place xf a) (place xf b) (place xf c) = turn a b c.
Proof.
  unfold rigid. intros H. unfold turn, place; cbn [vx vy].
  transitivity ((rs (xq xf) * rs (xq xf) + rc (xq xf) * rc (xq xf)) * ((vx b - vx a) * (vy c - vy a) - (vy b - vy a) * (vx c - vx a))); [ring|rewrite H; ring].
Qed.
Lemma convex_place xf vs : rigid xf -> convex_ccw vs -> convex_ccw (map (place xf) vs).
Proof.
  intros Rg [L C]. split; [rewrite map_length; exact L|]. intros i j a b c N1 N2 Ha Hb Hc. rewrite map_length in N2, Hb.
  rewrite nth_error_map in Ha, Hb, Hc. destruct (nth_error vs i) eqn:E1; [|discriminate].
  destruct (nth_error vs (after (length vs) i)) eqn:E2; [|discriminate]. destruct (nth_error vs j) eqn:E3; [|discriminate].
  injection Ha as <-. injection Hb as <-. injection Hc as <-. rewrite turn_place by exact Rg. exact (C i j _ _ _ N1 N2 E1 E2 E3).
Qed.
Lemma unplace xf p : rigid xf -> exists q, p = place xf q.
Proof.
  unfold rigid. intros H. set (s := rs (xq xf)) in *. set (c := rc (xq xf)) in *. set (x := vx p - vx (xp xf)). set (y := vy p - vy (xp xf)).
  exists (V2 (c * x + s * y) (c * y - s * x)). apply vec2_ext; unfold place; cbn; fold s c.
  - transitivity ((s * s + c * c) * x + vx (xp xf)); [rewrite H; unfold x; ring|ring].
  - transitivity ((s * s + c * c) * y + vy (xp xf)); [rewrite H; unfold y; ring|ring].
Qed.
Lemma normals_place xf vs ns : rigid xf -> right_normals vs ns -> right_normals (map (place xf) vs) (map (turned (xq xf)) ns).
Proof.
  intros Rg [L N]. split; [rewrite !map_length; exact L|]. intros i a b n Ha Hb Hn. rewrite map_length in Hb.
  rewrite nth_error_map in Ha, Hb, Hn. destruct (nth_error vs i) as [a0|] eqn:E1; [|discriminate].
  destruct (nth_error vs (after (length vs) i)) as [b0|] eqn:E2; [|discriminate]. destruct (nth_error ns i) as [n0|] eqn:E3; [|discriminate].
  injection Ha as <-. injection Hb as <-. injection Hn as <-. destruct (N i a0 b0 n0 E1 E2 E3) as (U & Pe & Sg).
  assert (Dt : forall p q, dotp (turned (xq xf) n0) (minus (place xf p) (place xf q)) = dotp n0 (minus p q)).
  { intros p q. unfold rigid in Rg. unfold dotp, turned, minus, place; cbn.
    transitivity ((rs (xq xf) * rs (xq xf) + rc (xq xf) * rc (xq xf)) * (vx n0 * (vx p - vx q) + vy n0 * (vy p - vy q))); [ring|rewrite Rg; ring]. }
  split; [|split].
  - unfold unit_vec, turned, rigid in *; cbn.
    transitivity ((rs (xq xf) * rs (xq xf) + rc (xq xf) * rc (xq xf)) * (vx n0 * vx n0 + vy n0 * vy n0)); [ring|rewrite Rg, U; ring].
  - rewrite Dt. exact Pe.
  - intros p. destruct (unplace xf p Rg) as (q & ->). rewrite turn_place, Dt by exact Rg. apply Sg.
Qed.
Lemma angle_box_proper self hx hy center angle : 0 < hx -> 0 < hy -> proper (set_as_box_angle self hx hy center angle).
Proof.
  intros Hx Hy. unfold set_as_box_angle. set (xf := Xf center (rot_of angle)).
  assert (Rg : rigid xf). { unfold rigid, xf, rot_of; cbn. pose proof (sin2_cos2 angle) as S. unfold Rsqr in S. exact S. }
  assert (M1 : map (xfv xf) (box_vertices hx hy) = map (place xf) (box_vertices hx hy)).
  { apply map_ext. intros v. unfold xfv, place. rmathc. apply vec2_ext; cbn; ring. }
  assert (M2 : map (rotv (xq xf)) box_normals = map (turned (xq xf)) box_normals).
  { apply map_ext. intros v. unfold rotv, turned. rmathc. apply vec2_ext; cbn; ring. }
  rewrite M1, M2. apply quad_proper; [exact (convex_place xf (box_vertices hx hy) Rg (box_convex hx hy Hx Hy))|].
  exact (normals_place xf (box_vertices hx hy) box_normals Rg (box_normals_right hx hy Hx Hy)).
Qed.

(** ** mass *)
Definition fan_i (s : vec2 R) (e : vec2 R * vec2 R) : R :=
  let p := minus (fst e) s in let q := minus (snd e) s in
  / 12 * turn s (fst e) (snd e) * (dotp p p + dotp p q + dotp q q).
Lemma fan_i_sum s vs : sum_of (fan_i s) (ring_edges vs) =
  polar_moment vs - 2 * (vx s * (moment_x vs - vx s * shoelace vs) + vy s * (moment_y vs - vy s * shoelace vs)) - dotp s s * shoelace vs.
Proof.
  rewrite <- (fan_x_sum s), <- (fan_y_sum s), <- (fan_area_sum s vs). unfold polar_moment.
  match goal with |- _ = ?a / 12 - _ - _ => replace (a / 12) with (/ 12 * a) by lra end.
  rewrite Rmult_plus_distr_l, <- !Rmult_assoc. rewrite <- !sum_scale, <- sum_add, <- !sum_sub.
  apply (sum_telescope _ _ (fun v => / 12 * (vy s * vx v - vx s * vy v) * (dotp s s + dotp s v + dotp v v))).
  intros [p q]. unfold fan_i, fan_x, fan_y, fan_area, turn, cross2, dotp, minus; cbn [fst snd vx vy]. field.
Qed.
Definition mass_step (s : vec2 R) (st : vec2 R * R * R) (e : vec2 R * vec2 R) : vec2 R * R * R :=
  (V2 (vx (fst (fst st)) + fan_x s e) (vy (fst (fst st)) + fan_y s e), snd (fst st) + fan_area s e, snd st + fan_i s e).
Lemma mass_fold s : forall l st, fold_left (mass_step s) l st =
  (V2 (vx (fst (fst st)) + sum_of (fan_x s) l) (vy (fst (fst st)) + sum_of (fan_y s) l), snd (fst st) + sum_of (fan_area s) l, snd st + sum_of (fan_i s) l).
Proof.
  induction l as [|e l IH]; intros [[c a] i]; cbn [fold_left].
  - rewrite !sum_nil. cbn. f_equal; [f_equal; [apply vec2_ext; cbn; lra|lra]|lra].
  - rewrite IH, !sum_cons. unfold mass_step; cbn [fst snd vx vy]. f_equal; [f_equal; [apply vec2_ext; cbn; lra|lra]|lra].
Qed.
Lemma polygon_mass_eq po density : poly_sized po -> (3 <= po_count po)%nat ->
  polygon_mass po density = if Rlt_bool B2_EPSILON (shoelace (used_vertices po))
    then Ok (MassData (density * shoelace (used_vertices po)) (centroid_of (used_vertices po)) (density * polar_moment (used_vertices po)))
    else Panic.
Proof.
  intros Sz L3. pose proof (used_length po Sz) as UL. set (vs := used_vertices po) in *.
  unfold polygon_mass. destruct (Nat.leb_spec 3 (po_count po)) as [_|]; [|lia]. cbn [b2_assert bind].
  destruct (nth_error vs 0) as [s|] eqn:Es; [|apply nth_error_None in Es; lia].
  pose proof (used_get _ _ _ Sz Es) as [_ Gs]. rewrite (get_some _ _ _ Gs). cbn [bind]. unfold for_range. rewrite Nat.sub_0_r.
  assert (LL : po_count po = length (ring_edges vs)) by (rewrite ring_edges_length; lia).
  match goal with |- bind (for_from _ _ ?f _) _ = _ => replace (for_from (po_count po)) with (@for_from (vec2 R * R * R) (length (ring_edges vs))) by (rewrite <- LL; reflexivity);
    rewrite (for_list f (mass_step s)) end.
  2:{ intros i [p q] [[c a] it] Hi. apply ring_edges_nth in Hi as [Hp Hq]. cbn [plus].
      assert (Ai : (if Nat.ltb (i + 1) (po_count po) then (i + 1)%nat else 0%nat) = after (length vs) i) by (rewrite UL; unfold after; replace (i + 1)%nat with (S i) by lia; reflexivity).
      rewrite Ai. destruct (used_get _ _ _ Sz Hp) as [_ Gp]. destruct (used_get _ _ _ Sz Hq) as [_ Gq].
      rewrite (get_some _ _ _ Gp), (get_some _ _ _ Gq). cbn [bind]. unfold mass_step, fan_x, fan_y, fan_area, fan_i, turn, dotp, minus; rmathc.
      f_equal. f_equal; [f_equal; [apply vec2_ext; cbn; field|field]|field]. }
  rewrite mass_fold, fan_x_sum, fan_y_sum, fan_area_sum, fan_i_sum. cbn [bind fst snd vx vy].
  rmathc. replace (IZR 0 + shoelace vs) with (shoelace vs) by lra.
  destruct (Rlt_bool_spec B2_EPSILON (shoelace vs)) as [L|L]; cbn [b2_assert bind]; [|reflexivity].
  pose proof eps_pos. unfold centroid_of, dotp. f_equal. f_equal; [apply vec2_ext; cbn; field; lra|field; lra].
Qed.
