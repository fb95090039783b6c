(** Examples and counterexamples for Prop_Dist. *)
From Coq Require Import List ZArith Bool Arith Reals Lia Lra.
From Flocq Require Import Core.
From Verif Require Import Base Num NumLaws Math RTac ListFacts ShapeModel DynModel DistModel ToiModel ToiSpec GeomSpec DistSpec DistProofs GjkProofs GjkReal DistChain ToiProofs CastProofs SolverExamples.
Import ListNotations.

(** ** closest points *)
Definition ex_corner (x y : Z) : svertex R := SV (V2 0 0)%R (zv (x, y)) (zv (x, y)) 0%R 0 0.
Definition ex_triangle : simplex R := Simplex (ex_corner 1 1) (ex_corner (-1) 1) (ex_corner 0 3) 3.
(* the triangle lies above the origin: its closest point is inside an edge *)
Lemma ex_triangle_edge : sx_count (solve3 ex_triangle) = 2%nat /\ weights (solve3 ex_triangle) = [1 / 2; 1 / 2]%R /\ mix (weights (solve3 ex_triangle)) (corners (solve3 ex_triangle)) = V2 0%R 1%R.
Proof.
  assert (E : solve3 ex_triangle = Simplex (with_a (ex_corner 1 1) (1 / 2)%R) (with_a (ex_corner (-1) 1) (1 / 2)%R) (ex_corner 0 3) 2).
  { unfold solve3, ex_triangle, ex_corner, zv. cbn [sx_0 sx_1 sx_2 sv_w fst snd]. rmathc.
    rewrite (Rle_bool_false (- (1 * (-1 - 1) + 1 * (1 - 1))) 0) by lra. cbn [andb].
    rewrite (Rlt_bool_true 0 (-1 * (-1 - 1) + 1 * (1 - 1))) by lra. rewrite (Rlt_bool_true 0 (- (1 * (-1 - 1) + 1 * (1 - 1)))) by lra.
    rewrite Rle_bool_true by lra. cbn [andb]. f_equal; f_equal; field. }
  rewrite E. split; [reflexivity|]. split; [reflexivity|]. cbn. apply vec2_ext; cbn; field.
Qed.
Lemma ex_triangle_inside : sx_count (solve3 (Simplex (ex_corner (-1) (-1)) (ex_corner 1 (-1)) (ex_corner 0 1) 3)) = 3%nat.
Proof.
  unfold solve3, ex_corner, zv. cbn [sx_0 sx_1 sx_2 sv_w fst snd]. rmathc. rcases; try (exfalso; lra); reflexivity.
Qed.

(** ** distance *)
Lemma gjk_stop l n iter s s1 k : solve_simplex s = Ok s1 -> sx_count s1 = 1%nat -> sv_w (sx_0 s1) = zv (pt l k) ->
  (k < length l)%nat -> znext l k = k -> (1 <= zdot (pt l k) (pt l k))%Z -> existsb (same_pair (0%nat, k)) (indices s) = true ->
  gjk ca xid (cb l) xid (S n) iter s = Ok (Simplex (sx_0 s1) (sv_of l k (sv_a (sx_1 s1))) (sx_2 s1) 1, S iter).
Proof.
  intros E C W L1 L2 L3 D.
  cbn [gjk]. rewrite E. cbn [bind]. rewrite C. cbn [Nat.eqb]. unfold search_direction. rewrite C, W. cbn [bind].
  assert (T : Rlt_bool (vlen2 (vneg (zv (pt l k)))) (B2_EPSILON * B2_EPSILON) = false).
  { apply Rlt_bool_false. apply Rle_trans with (IZR 1); [left; exact eps_one|].
    replace (vlen2 (vneg (zv (pt l k)))) with (b2_dot (zv (pt l k)) (zv (pt l k))) by (unfold vlen2, vneg, b2_dot; cbn; ring). rewrite zdot_R. now apply IZR_le. }
  cbn [nlt nmul R_Num]. rewrite T. rewrite ca_support. cbn [bind]. rewrite xid_rot, cb_support by lia. cbn [bind]. rewrite L2.
  cbn [get nth_error bind]. rewrite (chain_vertex l k _ L1). cbn [bind put]. rewrite D. now rewrite C.
Qed.
Definition ex_two : list (Z * Z) := [(4, 1); (3, 0)]%Z.
(* from the first corner to the second one, which is the closest point *)
Lemma ex_two_distance : exists c, distance_fn cache_zero (DInput ca (cb ex_two) xid xid false) = Ok (DOutput (V2 0 0) (V2 3 0) 3 2, c)%R.
Proof.
  unfold distance_fn. cbn [dn_a dn_b dn_xa dn_xb dn_radii].
  assert (Rd : read_cache cache_zero ca xid (cb ex_two) xid = Ok (Simplex (sv_of ex_two 0 1%R) sv_zero sv_zero 1)).
  { unfold read_cache. cbn [cache_zero sc_count Nat.leb b2_assert bind]. unfold for_range. cbn [Nat.sub for_from bind with_count sx_zero sx_count sx_0 sx_1 sx_2 Nat.ltb Nat.leb Nat.eqb].
    rewrite (chain_vertex ex_two 0); [reflexivity|cbn; lia]. }
  rewrite Rd. cbn [bind].
  rewrite (gjk_corner ex_two 19 0 _ [(0%nat, 0%nat)] (Simplex (sv_of ex_two 0 1%R) sv_zero sv_zero 1) 0); try reflexivity.
  cbn [sx_0 sx_1 sx_2 sv_a sv_zero].
  set (s := Simplex (sv_of ex_two 0 1%R) (sv_of ex_two 1 (nofZ 0 : R)) sv_zero 2).
  assert (S : solve_simplex s = Ok (Simplex (sv_of ex_two 1 1%R) (sv_of ex_two 1 1%R) sv_zero 1)).
  { cbn [solve_simplex s sx_count]. f_equal. unfold solve2, s, sv_of, pt, ex_two, zv. cbn [sx_0 sx_1 sx_2 sv_w nth fst snd]. rmathc.
    rewrite Rle_bool_false by lra. rewrite Rle_bool_true by lra. reflexivity. }
  rewrite (gjk_stop ex_two 18 1 s _ 1 S); try reflexivity; [|cbn; lia|cbn; lia].
  cbn [bind witness_points sx_count sx_0 sx_1 sx_2 sv_of sv_wa sv_wb].
  unfold write_cache. cbn [get_metric sx_count bind]. eexists. rewrite distance_vec_R.
  replace (zv (pt ex_two 1)) with (V2 3%R 0%R) by reflexivity.
  assert (D : dist (V2 0 0)%R (V2 3 0)%R = 3%R). { unfold dist, dist2. cbn. replace ((0 - 3) * (0 - 3) + (0 - 0) * (0 - 0))%R with (3 * 3)%R by ring. apply sqrt_square. lra. }
  rewrite D. reflexivity.
Qed.
Lemma ex_two_spread : spread (cloud ca xid) (cloud (cb ex_two) xid).
Proof.
  rewrite !cloud_id. intros a b a' b' Ia Ib Ia' Ib'. cbn in Ia, Ib, Ia', Ib'.
  destruct Ia as [<-|[]]. destruct Ia' as [<-|[]]. pose proof eps_one.
  destruct Ib as [<-|[<-|[]]]; destruct Ib' as [<-|[<-|[]]]; cbn zeta; first [left; unfold origin; cbn; apply vec2_ext; cbn; lra|right; unfold dist2, origin; cbn in *; lra].
Qed.
(* two boxes one unit apart, in floats: the distance with and without the radii *)
Definition ex_box : dproxy f32 := DProxy [V2 (nofZ (-1)) (nofZ (-1)); V2 (nofZ 1) (nofZ (-1)); V2 (nofZ 1) (nofZ 1); V2 (nofZ (-1)) (nofZ 1)] (nlit 1 4).
Definition at_x (x : Z) : xform f32 := Xf (V2 (nofZ x) (nofZ 0)) (Rot (nofZ 0) (nofZ 1)).
Definition ex_boxes (radii : bool) : bool := match distance_fn cache_zero (DInput ex_box ex_box (at_x 0) (at_x 3) radii) with
  | Ok (o, c) => neqb (do_distance o) (if radii then nlit 1 2 else nofZ 1) && Nat.ltb (do_iterations o) 20 && Nat.ltb 0 (sc_count c)
  | _ => false end.
Lemma ex_boxes_ok : ex_boxes false = true /\ ex_boxes true = true.
Proof. vm_compute. auto. Qed.

(** ** time of impact *)
Definition ex_sweep {T} {NT : Num T} (x x' : Z) : sweep T := Sweep vzero (V2 (nofZ x) (nofZ 0)) (V2 (nofZ x') (nofZ 0)) (nofZ 0) (nofZ 0) (nofZ 0).
Definition toi_is (st : toi_state) (lo hi : f32) (r : res (toi_state * f32)) : bool :=
  match r, st with
  | Ok (TTouching, t), TTouching | Ok (TSeparated, t), TSeparated | Ok (TOverlapped, t), TOverlapped => nle lo t && nle t hi
  | _, _ => false end.
(* one box runs through another, which ends the run half way; or it stays away; or they overlap *)
Lemma ex_toi : toi_is TTouching (nlit 4 10) (nlit 6 10) (@time_of_impact f32 _ flat_trig ex_box ex_box (ex_sweep 0 0) (ex_sweep 8 (-4)) (nofZ 1)) = true /\
  toi_is TSeparated (nofZ 1) (nofZ 1) (@time_of_impact f32 _ flat_trig ex_box ex_box (ex_sweep 0 0) (ex_sweep 8 4) (nofZ 1)) = true /\
  toi_is TOverlapped (nofZ 0) (nofZ 0) (@time_of_impact f32 _ flat_trig ex_box ex_box (ex_sweep 0 0) (ex_sweep 1 4) (nofZ 1)) = true.
Proof. vm_compute. auto. Qed.
(* a triangle of 2^35 units around a point: the products overflow, the distance is not a number *)
Definition ex_huge : dproxy f32 := let n := (2 ^ 34)%Z in DProxy [V2 (nofZ (- n)) (nofZ (- n)); V2 (nofZ n) (nofZ (- n)); V2 (nofZ 0) (nofZ n)] (nofZ 0).
Definition ex_point : dproxy f32 := DProxy [V2 (nofZ 0) (nofZ 0)] (nofZ 0).
Lemma ex_huge_panics : @time_of_impact f32 _ flat_trig ex_huge ex_point (ex_sweep 0 0) (ex_sweep 0 0) (nofZ 1) = Panic.
Proof. vm_compute. reflexivity. Qed.
(* an interval that ends in an odd last bit: the secant step rounds beyond it *)
Definition ex_end : f32 := nlit 16604301 16777216.
Definition ex_dist (t : f32) (_ : unit) : res (f32 * unit) := Ok (if nlt ex_end t then nofZ 1 else nofZ 2, tt).
Definition ex_min (_ : unit) (t : f32) : res (Z * Z * f32) := Ok (0%Z, 0%Z, if nlt ex_end t then nofZ 1 else nofZ (-1)).
Definition ex_eval (_ : unit) (_ _ : Z) (t : f32) : res f32 := Ok (if nlt ex_end t then nofZ 1 else if nlt (nofZ 0) t then nofZ 9098028032 else nofZ 2).
Definition ex_init (_ : unit) (_ : f32) : res unit := Ok tt.
Definition ex_beyond : bool := match toi_loop ex_dist ex_init ex_min ex_eval 20 tt ex_end (nofZ 1) (nlit 1 4) (nofZ 0) with Ok (TTouching, t) => nlt ex_end t | _ => false end.
Lemma ex_beyond_ok : ex_beyond = true.
Proof. vm_compute. reflexivity. Qed.
Lemma ex_all_return : all_return ex_dist ex_init ex_min ex_eval.
Proof. unfold all_return, ex_dist, ex_init, ex_min, ex_eval. repeat split; eauto. Qed.
Lemma beyond_R (r : res (toi_state * f32)) (e : f32) : match r with Ok (TTouching, t) => nlt e t | _ => false end = true -> exists t, r = Ok (TTouching, t) /\ nlt e t = true.
Proof. destruct r as [[[] t]| |]; try discriminate. eauto. Qed.

(** ** shape cast *)
(* two points three units apart: one runs through the other, or away from it *)
Definition ex_dot : dproxy R := DProxy [V2 0 0]%R 0%R.
Definition ex_from : xform R := Xf (V2 3 0)%R (Rot 0 1)%R.
Definition ex_still : xform R := Xf (V2 0 0)%R (Rot 0 1)%R.
Lemma len_x (x : R) : vlen (V2 x 0%R) = Rabs x.
Proof. unfold vlen. rops. replace (x * x + 0 * 0)%R with (Rsqr x) by (unfold Rsqr; ring). apply sqrt_Rsqr_abs. Qed.
Lemma dot_support d : get_support ex_dot d = Ok 0%nat.
Proof. reflexivity. Qed.
Lemma still_place : xfv ex_still (V2 0 0)%R = V2 0%R 0%R.
Proof. rewrite place_R. apply vec2_ext; cbn; ring. Qed.
Lemma from_place : xfv ex_from (V2 0 0)%R = V2 3%R 0%R.
Proof. rewrite place_R. apply vec2_ext; cbn; ring. Qed.
Lemma ex_gap : cast_gap ex_dot ex_dot = (1 / 100)%R.
Proof.
  unfold cast_gap. cbn [ex_dot dp_radius]. assert (P : (B2_POLYGON_RADIUS : R) = (1 / 100)%R) by (unfold B2_POLYGON_RADIUS, B2_LINEAR_SLOP, nlit; cbn; lra).
  rewrite P. rewrite (Rmax_right 0 (1 / 100)) by lra. rewrite Rmax_left; lra.
Qed.
Lemma ex_slop : (1 / 2 * B2_LINEAR_SLOP = 1 / 400)%R.
Proof. unfold B2_LINEAR_SLOP, nlit. cbn. lra. Qed.
Lemma ex_unit : snd (vnormalize (V2 (-3)%R 0%R)) = V2 (-1)%R 0%R.
Proof.
  unfold vnormalize. rewrite len_x. replace (Rabs (-3)) with 3%R by (rewrite Rabs_left; lra). cbn [nlt R_Num].
  rewrite Rlt_bool_false by (unfold B2_EPSILON, nlit; cbn; lra). rops. apply vec2_ext; cbn; field.
Qed.
Lemma ex_first : vsub (V2 0 0)%R (V2 3 0)%R = V2 (-3)%R 0%R.
Proof. unfold vsub. rops. apply vec2_ext; cbn; ring. Qed.
Lemma ex_loop_hit n : exists s v u, cast_loop ex_dot ex_still ex_dot ex_from (V2 (-6) 0)%R (1 / 100)%R (S (S n)) 0 sx_zero (V2 (-3) 0)%R vzero 0%R = Ok (CastLoop s v u ((3 - 1 / 100) / 6)%R 1) /\ sx_count s = 1%nat.
Proof.
  cbn [cast_loop]. rewrite !dot_support. unfold get_vertex, get. cbn [ex_dot dp_vertices nth_error bind sx_zero sx_count Nat.ltb Nat.leb b2_assert]. rewrite still_place, from_place, ex_first, ex_unit, len_x.
  replace (Rabs (-3)) with 3%R by (rewrite Rabs_left; lra). cbn [nlt nsub nmul R_Num]. unfold nlit at 1. cbn [ndiv nofZ R_Num]. rewrite ex_slop.
  rewrite (Rlt_bool_true (1 / 400)) by lra. cbn [negb].
  replace (b2_dot (V2 (-1) 0)%R (V2 (-3) 0)%R) with 3%R by (unfold b2_dot; rops; ring). replace (b2_dot (V2 (-1) 0)%R (V2 (-6) 0)%R) with 6%R by (unfold b2_dot; rops; ring).
  rewrite (Rlt_bool_true (0 * 6)) by lra. cbn [nle R_Num]. rewrite (Rle_bool_false 6 0) by lra. cbn [andb]. rewrite (Rlt_bool_false 1) by lra.
  cbn [with_count sx_count put bind solve_simplex Nat.eqb closest_point sx_0 sx_1 sx_2 sv_w].
  replace (vsub (V2 0 0)%R (vadd (V2 3 0)%R (vscale ((3 - 1 / 100) / 6)%R (V2 (-6) 0)%R))) with (V2 (- (1 / 100))%R 0%R) by (unfold vsub, vadd, vscale; rops; apply vec2_ext; cbn; field).
  rewrite len_x. replace (Rabs (- (1 / 100))) with (1 / 100)%R by (rewrite Rabs_left; lra).
  rewrite (Rlt_bool_false _ (1 / 100 - 1 / 100)) by (pose proof ex_slop as H; revert H; unfold nlit; rops; lra). cbn [negb].
  eexists _, _, _. split; reflexivity.
Qed.
Lemma ex_loop_miss n : cast_loop ex_dot ex_still ex_dot ex_from (V2 6 0)%R (1 / 100)%R (S n) 0 sx_zero (V2 (-3) 0)%R vzero 0%R = Ok (CastMiss 1).
Proof.
  cbn [cast_loop]. rewrite !dot_support. unfold get_vertex, get. cbn [ex_dot dp_vertices nth_error bind sx_zero sx_count Nat.ltb Nat.leb b2_assert]. rewrite still_place, from_place, ex_first, ex_unit, len_x.
  replace (Rabs (-3)) with 3%R by (rewrite Rabs_left; lra). cbn [nlt nsub nmul R_Num]. unfold nlit at 1. cbn [ndiv nofZ R_Num]. rewrite ex_slop.
  rewrite (Rlt_bool_true (1 / 400)) by lra. cbn [negb].
  replace (b2_dot (V2 (-1) 0)%R (V2 (-3) 0)%R) with 3%R by (unfold b2_dot; rops; ring). replace (b2_dot (V2 (-1) 0)%R (V2 6 0)%R) with (-6)%R by (unfold b2_dot; rops; ring).
  rewrite (Rlt_bool_true (0 * -6)) by lra. cbn [nle R_Num]. rewrite (Rle_bool_true (-6) 0) by lra. reflexivity.
Qed.
(* the cast of the points, given its loop *)
Lemma ex_shape_cast r e : cast_loop ex_dot ex_still ex_dot ex_from r (1 / 100)%R 20 0 sx_zero (V2 (-3) 0)%R vzero 0%R = Ok e ->
  match e with CastMiss _ => shape_cast ex_dot ex_still ex_dot ex_from r = Ok None
  | CastLoop s v n l k => (0 < k)%nat -> sx_count s = 1%nat -> exists c, shape_cast ex_dot ex_still ex_dot ex_from r = Ok (Some c) /\ ca_lambda c = l /\ ca_iterations c = k end.
Proof.
  intros E. assert (G : b2_max (B2_POLYGON_RADIUS : R) (nsub (nadd (b2_max (dp_radius ex_dot) B2_POLYGON_RADIUS) (b2_max (dp_radius ex_dot) B2_POLYGON_RADIUS)) B2_POLYGON_RADIUS) = (1 / 100)%R).
  { rewrite !b2_max_R. exact ex_gap. }
  assert (V : forall r0, shape_cast ex_dot ex_still ex_dot ex_from r0 = (e <- cast_loop ex_dot ex_still ex_dot ex_from r0 (1 / 100)%R 20 0 sx_zero (V2 (-3) 0)%R vzero 0%R ;;
    match e with CastMiss _ => Ok None | CastLoop s v n lambda iter => if Nat.eqb iter 0 then Ok None else '(point_b, point_a) <- witness_points s ;;
      let n := if nlt (nofZ 0) (vlen2 v) then snd (vnormalize (vneg v)) else n in Ok (Some (Cast (vadd point_a (vscale (b2_max (dp_radius ex_dot) B2_POLYGON_RADIUS) n)) n lambda iter)) end)).
  { clear - G. intros r0. unfold shape_cast. rewrite G, !dot_support. cbn [bind]. unfold get_vertex, get. cbn [ex_dot dp_vertices nth_error bind]. rewrite still_place, from_place, ex_first. reflexivity. }
  rewrite V, E. cbn [bind]. destruct e as [k|s v n l k]; [reflexivity|]. intros K C. destruct (Nat.eqb_spec k 0); [lia|]. unfold witness_points. rewrite C. cbn [bind]. eexists. split; [reflexivity|]. auto.
Qed.
Lemma ex_cast_hit : exists c, shape_cast ex_dot ex_still ex_dot ex_from (V2 (-6) 0)%R = Ok (Some c) /\ ca_lambda c = (299 / 600)%R /\ ca_iterations c = 1%nat.
Proof.
  destruct (ex_loop_hit 18) as (s & v & u & E & C). destruct (ex_shape_cast _ _ E (Nat.lt_0_succ 0) C) as (c & H & L & K). exists c. rewrite L. refine (conj H (conj _ K)). lra.
Qed.
Lemma ex_cast_miss : shape_cast ex_dot ex_still ex_dot ex_from (V2 6 0)%R = Ok None.
Proof. exact (ex_shape_cast _ _ (ex_loop_miss 19)). Qed.
(* boxes, in floats *)
Definition cast_is (lo hi : f32) (r : res (option (cast f32))) : bool := match r with Ok (Some c) => nle lo (ca_lambda c) && nle (ca_lambda c) hi && Nat.ltb (ca_iterations c) 20 | _ => false end.
Lemma ex_cast_boxes : cast_is (nlit 54 100) (nlit 57 100) (shape_cast ex_box (at_x 0) ex_box (at_x 8) (V2 (nofZ (-10)) (nofZ 0))) = true.
Proof. vm_compute. reflexivity. Qed.

(** ** a separated answer: the points run away from each other *)
Lemma sweep_at (x x' : Z) (t : R) : sweep_get_transform (sweep_normalize (ex_sweep x x')) t = Xf (V2 ((1 - t) * IZR x + t * IZR x')%R 0%R) (Rot 0 1)%R.
Proof.
  assert (N : sweep_normalize (ex_sweep x x') = ex_sweep x x').
  { unfold sweep_normalize, ex_sweep. rops. unfold Rdiv. rewrite Rmult_0_l, Zfloor_IZR, Rmult_0_r, Rminus_0_r. reflexivity. }
  rewrite N. unfold sweep_get_transform, ex_sweep, rot_of. rops.
  replace ((1 - t) * 0 + t * 0)%R with 0%R by ring. rewrite sin_0, cos_0. unfold vsub, vadd, vscale, rotv, vzero. cbn. f_equal. apply vec2_ext; cbn; ring.
Qed.
Definition ex_at (x : R) : xform R := Xf (V2 x 0%R) (Rot 0 1)%R.
Lemma at_place x : xfv (ex_at x) (V2 0 0)%R = V2 x 0%R.
Proof. rewrite place_R. apply vec2_ext; cbn; ring. Qed.
Definition ex_pair (a : R) : svertex R := SV (V2 0 0)%R (V2 3 0)%R (V2 3 0)%R a 0 0.
Lemma dot_vertex a : vertex_at ex_dot (ex_at 0) ex_dot (ex_at 3) 0 0 a = Ok (ex_pair a).
Proof. unfold vertex_at, get_vertex, get. cbn [ex_dot dp_vertices nth_error bind]. rewrite !at_place. unfold ex_pair. do 2 f_equal. unfold vsub. rops. apply vec2_ext; cbn; ring. Qed.
Lemma dot_gjk n : exists s, gjk ex_dot (ex_at 0) ex_dot (ex_at 3) (S n) 0 (Simplex (ex_pair 1%R) sv_zero sv_zero 1) = Ok (s, 1%nat) /\ sx_count s = 1%nat /\ sx_0 s = ex_pair 1%R.
Proof.
  cbn [gjk solve_simplex sx_count bind Nat.eqb search_direction sx_0]. cbn [nlt nmul R_Num].
  rewrite Rlt_bool_false by (unfold ex_pair, vlen2, vneg, B2_EPSILON, nlit; cbn; lra).
  rewrite !dot_support. cbn [bind get nth_error sx_0 sx_1 sx_2]. rewrite dot_vertex. cbn [bind put]. eexists. split; [reflexivity|]. auto.
Qed.
Lemma dot_distance : exists c, distance_fn cache_zero (DInput ex_dot ex_dot (ex_at 0) (ex_at 3) false) = Ok (DOutput (V2 0 0) (V2 3 0) 3 1, c)%R /\ sc_count c = 1%nat /\ get (sc_a c) 0 = Ok 0%nat /\ get (sc_b c) 0 = Ok 0%nat.
Proof.
  unfold distance_fn. cbn [dn_a dn_b dn_xa dn_xb dn_radii].
  assert (Rd : read_cache cache_zero ex_dot (ex_at 0) ex_dot (ex_at 3) = Ok (Simplex (ex_pair 1%R) sv_zero sv_zero 1)).
  { unfold read_cache. cbn [cache_zero sc_count Nat.leb b2_assert bind]. unfold for_range. cbn [Nat.sub for_from bind with_count sx_zero sx_count sx_0 sx_1 sx_2 Nat.ltb Nat.leb Nat.eqb].
    rewrite dot_vertex. reflexivity. }
  rewrite Rd. cbn [bind]. destruct (dot_gjk 19) as ([v0 v1 v2 k] & -> & C & V). cbn [sx_count sx_0] in C, V. subst k v0. cbn [bind witness_points sx_count sx_0 ex_pair sv_wa sv_wb].
  unfold write_cache. cbn [get_metric sx_count bind]. eexists. rewrite distance_vec_R.
  assert (D : dist (V2 0 0)%R (V2 3 0)%R = 3%R). { unfold dist, dist2. cbn. replace ((0 - 3) * (0 - 3) + (0 - 0) * (0 - 0))%R with (3 * 3)%R by ring. apply sqrt_square. lra. }
  rewrite D. split; [reflexivity|]. repeat split.
Qed.
Lemma ex_target : toi_target ex_dot ex_dot = (5 / 1000)%R.
Proof. unfold toi_target. rewrite b2_max_R. unfold B2_LINEAR_SLOP, nlit. cbn. rewrite Rmax_left; lra. Qed.
Lemma ex_tolerance : (toi_tolerance : R) = (1 / 800)%R.
Proof. unfold toi_tolerance, B2_LINEAR_SLOP, nlit. cbn. lra. Qed.
Lemma dot_axis : snd (vnormalize (V2 3 0)%R) = V2 1%R 0%R.
Proof.
  unfold vnormalize. rewrite len_x. replace (Rabs 3) with 3%R by (rewrite Rabs_right; lra). cbn [nlt R_Num].
  rewrite Rlt_bool_false by (unfold B2_EPSILON, nlit; cbn; lra). rops. apply vec2_ext; cbn; field.
Qed.
Lemma ex_toi_loop n : toi_loop (toi_distance ex_dot ex_dot (sweep_normalize (ex_sweep 0 0)) (sweep_normalize (ex_sweep 3 4))) (sep_init ex_dot ex_dot (sweep_normalize (ex_sweep 0 0)) (sweep_normalize (ex_sweep 3 4)))
  (sep_find_min ex_dot ex_dot (sweep_normalize (ex_sweep 0 0)) (sweep_normalize (ex_sweep 3 4))) (sep_evaluate ex_dot ex_dot (sweep_normalize (ex_sweep 0 0)) (sweep_normalize (ex_sweep 3 4))) (S n) cache_zero 1%R (5 / 1000)%R (1 / 800)%R 0%R = Ok (TSeparated, 1%R).
Proof.
  assert (A : forall t, sweep_get_transform (sweep_normalize (ex_sweep 0 0)) t = ex_at 0) by (intros t; rewrite sweep_at; unfold ex_at; do 2 f_equal; ring).
  assert (B : forall t, sweep_get_transform (sweep_normalize (ex_sweep 3 4)) t = ex_at (3 + t)) by (intros t; rewrite sweep_at; unfold ex_at; do 2 f_equal; ring).
  assert (B0 : sweep_get_transform (sweep_normalize (ex_sweep 3 4)) 0%R = ex_at 3) by (rewrite B; unfold ex_at; do 2 f_equal; ring).
  cbn [toi_loop]. unfold toi_distance. rewrite A, B0. destruct dot_distance as (c & -> & C & Ca & Cb). cbn [bind do_distance nle nlt nadd nofZ R_Num].
  rewrite (Rle_bool_false 3 0) by lra. rewrite (Rlt_bool_false 3) by lra.
  unfold sep_init at 1. rewrite C, Ca, Cb, A, B0. cbn [Nat.ltb Nat.leb andb b2_assert bind Nat.eqb]. unfold get_vertex at 1 2, get. cbn [ex_dot dp_vertices nth_error bind]. rewrite !at_place.
  replace (vsub (V2 3 0)%R (V2 0 0)%R) with (V2 3%R 0%R) by (unfold vsub; rops; apply vec2_ext; cbn; ring). rewrite dot_axis.
  cbn [push_back]. unfold sep_find_min at 1. cbn [sf_kind sf_axis]. fold ex_dot. rewrite !dot_support. cbn [bind]. unfold get_vertex at 1 2, get. cbn [ex_dot dp_vertices nth_error bind]. rewrite A, B, !at_place.
  cbn [nlt nadd R_Num]. rewrite Rlt_bool_true by (unfold b2_dot, vsub; cbn; lra). reflexivity.
Qed.
Lemma ex_separated : time_of_impact ex_dot ex_dot (ex_sweep 0 0) (ex_sweep 3 4) 1%R = Ok (TSeparated, 1%R).
Proof.
  unfold time_of_impact. rewrite ex_target, ex_tolerance. cbn [nlt R_Num]. rewrite Rlt_bool_true by lra. cbn [b2_assert bind]. exact (ex_toi_loop 19).
Qed.
