(** Examples and counterexamples for Prop_Shape. *)
From Coq Require Import ZArith Reals Lra Lia Bool List Arith.
From Flocq Require Import Core.
From Verif Require Import Base Num NumLaws Math Collision Manifold MathSpec GeomSpec RTac MathProofs ManifoldProofs
  ShapeModel CollideModel ShapeSpec ShapeProofs.
Import ListNotations.

Definition xf_id {T} `{Num T} : xform T := Xf vzero (Rot (nofZ 0) (nofZ 1)).
Definition box1 {T} `{Num T} : polygon T := set_as_box polygon_default (nofZ 1) (nofZ 1).
Definition no_hit {T} (r : res (option T)) : bool := match r with Ok None => true | _ => false end.
Definition is_true_res (r : res bool) : bool := match r with Ok b => b | _ => false end.
Definition is_false_res (r : res bool) : bool := match r with Ok b => negb b | _ => false end.
Definition some_hit {T} (r : option T) : bool := match r with Some _ => true | _ => false end.

(* from (-1.01, 0) to the centre of the 2x2 box: enters at fraction 0.0099 *)
Definition short_entry : ray_input f32 := RayIn (V2 (nneg (nlit 101 100)) (nofZ 0)) (V2 (nofZ 0) (nofZ 0)) (nofZ 1).
Lemma short_entry_missed : is_false_res (polygon_test_point box1 xf_id (ray_p1 short_entry)) = true /\
  is_true_res (polygon_test_point box1 xf_id (ray_p2 short_entry)) = true /\
  no_hit (polygon_ray_cast box1 short_entry xf_id) = true.
Proof. vm_compute. auto. Qed.
(* the same over exact reals *)
Lemma box_in (a : vec2 R) : (in_polygon box1 xf_id a <-> -1 <= vx a <= 1 /\ -1 <= vy a <= 1)%R.
Proof.
  unfold in_polygon. split.
  - intros (b & -> & H). apply box_inner in H. unfold place, xf_id. cbn in *. lra.
  - intros H. exists a. split; [apply vec2_ext; unfold place, xf_id; cbn; ring|]. apply box_inner. cbn. lra.
Qed.
Lemma xf_id_unit : unit_rot (xq xf_id).
Proof. unfold unit_rot. cbn. ring. Qed.
Lemma short_entry_missed_R : let inp := RayIn (V2 (- (101 / 100)) 0)%R (V2 0 0)%R 1%R in
  polygon_ray_cast box1 inp xf_id = Ok None /\
  (0 <= 1 / 101 <= ray_max inp)%R /\ in_polygon box1 xf_id (along (ray_p1 inp) (ray_p2 inp) (1 / 101)) /\
  (forall t, t < 1 / 101 -> ~ in_polygon box1 xf_id (along (ray_p1 inp) (ray_p2 inp) t))%R.
Proof.
  cbv zeta. cbn [ray_p1 ray_p2 ray_max]. split; [|split; [lra|split]].
  - destruct (polygon_ray_ok box1 (RayIn (V2 (- (101 / 100)) 0)%R (V2 0 0)%R 1%R) xf_id (box_sized _ _ _) xf_id_unit) as (o & E & H).
    rewrite E. f_equal. destruct o as [out|]; [|reflexivity]. exfalso. destruct H as (F & _ & B & _). cbn [ray_p1 ray_p2 ray_max] in *.
    apply (B f0); [lra|]. apply box_in. unfold along, f0. cbn. lra.
  - apply box_in. unfold along. cbn. lra.
  - intros t Ht K. apply box_in in K. unfold along in K. cbn in K. lra.
Qed.
(* a hit that does satisfy the theorem *)
Lemma polygon_ray_ex : exists out, polygon_ray_cast box1 (RayIn (V2 (-3) 0)%R (V2 1 0)%R 1%R) xf_id = Ok (Some out) /\ (ray_fraction out = 1 / 2)%R.
Proof.
  destruct (polygon_ray_ok box1 (RayIn (V2 (-3) 0)%R (V2 1 0)%R 1%R) xf_id (box_sized _ _ _) xf_id_unit) as (o & E & H). destruct o as [out|].
  - exists out. split; [exact E|]. destruct H as (F & A & B & _). cbn [ray_p1 ray_p2 ray_max] in *.
    apply box_in in A. unfold along in A. cbn in A. destruct (Rle_or_lt (ray_fraction out) (1 / 2)); [lra|].
    exfalso. apply (B (1 / 2)%R); [exact H|]. apply box_in. unfold along. cbn. lra.
  - exfalso. destruct (H (1 / 2)%R) as (t & Ht & K). { unfold f0; cbn; lra. } { apply box_in. unfold along. cbn. lra. }
    apply box_in in K. unfold along in K. cbn in K. lra.
Qed.

(* a 0.2 mm ray into a circle of radius 0.1 mm is refused although its end is inside *)
Definition tiny_circle : circle f32 := Circle (nlit 1 10000) vzero.
Definition tiny_ray : ray_input f32 := RayIn (V2 (nneg (nlit 2 10000)) (nofZ 0)) (V2 (nofZ 0) (nofZ 0)) (nofZ 1).
Lemma tiny_ray_missed : circle_test_point tiny_circle xf_id (ray_p1 tiny_ray) = false /\
  circle_test_point tiny_circle xf_id (ray_p2 tiny_ray) = true /\ some_hit (circle_ray_cast tiny_circle tiny_ray xf_id) = false.
Proof. vm_compute. auto. Qed.
Lemma circle_ray_ex : exists out, circle_ray_cast (Circle 1 (V2 0 0))%R (RayIn (V2 (-3) 0)%R (V2 1 0)%R 1%R) xf_id = Some out /\ (ray_fraction out = 1 / 2)%R.
Proof.
  pose proof (circle_ray_ok (Circle 1 (V2 0 0))%R (RayIn (V2 (-3) 0)%R (V2 1 0)%R 1%R) xf_id) as H. cbv zeta in H. cbn [ray_p1 ray_p2 ray_max ci_radius ci_p] in H.
  assert (P : place xf_id (V2 0 0)%R = V2 0%R 0%R) by (apply vec2_ext; unfold place, xf_id; cbn; ring). rewrite P in H.
  assert (D : (forall t, dist2 (along (V2 (-3) 0) (V2 1 0) t) (V2 0 0) = (4 * t - 3) * (4 * t - 3))%R) by (intros; unfold dist2, along; cbn; ring).
  destruct (circle_ray_cast _ _ _) as [out|].
  - exists out. split; [reflexivity|]. destruct H as (F & A & B & _); [unfold B2_EPSILON, nlit; rops; lra|unfold dist2, B2_EPSILON, nlit; rops; lra|].
    rewrite D in A. destruct (Rlt_or_le (1 / 2) (ray_fraction out)) as [L|L].
    + specialize (B (1 / 2)%R L). rewrite D in B. lra.
    + nra.
  - exfalso. assert (K : (1 * 1 < dist2 (along (V2 (-3) 0) (V2 1 0) (1 / 2)) (V2 0 0))%R).
    { apply H; [unfold B2_EPSILON, nlit; rops; lra|unfold dist2, B2_EPSILON, nlit; rops; lra|unfold dist2; cbn; lra|lra]. }
    rewrite D in K. lra.
Qed.

(* a ray that starts on the edge: the reported normal points along the ray *)
Definition edge01 {T} `{Num T} : edge T := set_two_sided edge_default vzero (V2 (nofZ 1) (nofZ 0)).
Definition on_edge_ray : ray_input f32 := RayIn (V2 (nlit 1 2) (nofZ 0)) (V2 (nlit 1 2) (nneg (nofZ 1))) (nofZ 1).
Definition hit_along (o : option (ray_output f32)) (inp : ray_input f32) : bool :=
  match o with
  | Some out => neqb (ray_fraction out) (nofZ 0) && nlt (nofZ 0) (b2_dot (ray_normal out) (vsub (ray_p2 inp) (ray_p1 inp)))
  | None => false
  end.
Lemma on_edge_normal : hit_along (edge_ray_cast edge01 on_edge_ray xf_id) on_edge_ray = true.
Proof. vm_compute. reflexivity. Qed.
Lemma edge_ray_ex : exists out, edge_ray_cast edge01 (RayIn (V2 (1 / 2) 1)%R (V2 (1 / 2) (-1))%R 1%R) xf_id = Some out /\ (ray_fraction out = 1 / 2)%R.
Proof.
  assert (P : forall v, place xf_id v = v) by (intros; apply vec2_ext; unfold place, xf_id; cbn; ring).
  apply (edge_ray_complete edge01 (RayIn (V2 (1 / 2) 1)%R (V2 (1 / 2) (-1))%R 1%R) xf_id (1 / 2)%R); cbn [ray_p1 ray_p2 ray_max].
  - exact xf_id_unit.
  - replace (dist2 (ed_v2 edge01) (ed_v1 edge01)) with (1 * 1)%R by (unfold dist2; cbn; ring). rewrite sqrt_square by lra. unfold B2_EPSILON, nlit; rops; lra.
  - reflexivity.
  - rewrite !P. cbn. lra.
  - lra.
  - rewrite !P. exists (1 / 2)%R. split; [lra|]. apply vec2_ext; unfold along; cbn; lra.
Qed.
Lemma polygon_aabb_ex : near xf_id (in_hull (used_vertices (@box1 R _))) (1 / 100)%R (V2 (1 + 1 / 100) 0)%R.
Proof.
  exists (V2 1 0)%R. split.
  - exists [0; 1 / 2; 1 / 2; 0]%R. split; [reflexivity|]. split; [intros w [<-|[<-|[<-|[<-|[]]]]]; lra|]. split; [cbn; lra|].
    apply vec2_ext; cbn; lra.
  - unfold dist2, place, xf_id. cbn. lra.
Qed.
Definition zig {T} `{Num T} : list (vec2 T) := [V2 (nofZ 0) (nofZ 0); V2 (nofZ 1) (nofZ 0); V2 (nofZ 1) (nofZ 1)].
Definition chain0 {T} `{Num T} : chain T := Chain B2_POLYGON_RADIUS [] vzero vzero.
Definition count_is (r : res (chain f32)) (n : nat) : bool :=
  match r with Ok c => match chain_child_count c with Ok k => Nat.eqb k n | _ => false end | _ => false end.
Lemma chains_ex : count_is (create_chain chain0 zig vzero vzero) 2 = true /\ count_is (create_loop chain0 zig) 3 = true.
Proof. vm_compute. auto. Qed.
Lemma zig_spaced : forall i a b, nth_error (@zig f32 _) i = Some a -> nth_error zig (S i) = Some b ->
  nlt (nmul B2_LINEAR_SLOP B2_LINEAR_SLOP) (b2_distance_vec2_squared a b) = true.
Proof. intros [|[|[|i]]] a b Ea Eb; cbn in Ea, Eb; try discriminate; injection Ea as <-; injection Eb as <-; vm_compute; reflexivity. Qed.

Lemma no_hit_eq {A} (r : res (option A)) : no_hit r = true -> r = Ok None.
Proof. destruct r as [[]| |]; cbn; congruence. Qed.
Lemma is_false_eq r : is_false_res r = true -> r = Ok false.
Proof. destruct r as [[]| |]; cbn; congruence. Qed.
Lemma is_true_eq r : is_true_res r = true -> r = Ok true.
Proof. destruct r as [[]| |]; cbn; congruence. Qed.
Lemma some_hit_eq {A} (o : option A) : some_hit o = false -> o = None.
Proof. destruct o; cbn; congruence. Qed.
Lemma hit_along_eq o inp : hit_along o inp = true -> exists out, o = Some out /\
  nlt (nofZ 0) (b2_dot (ray_normal out) (vsub (ray_p2 inp) (ray_p1 inp))) = true.
Proof. destruct o; cbn [hit_along]; [|discriminate]. intros H. apply andb_true_iff in H. eexists. split; [reflexivity|apply H]. Qed.
Lemma short_entry_refutes : exists (po : polygon f32) (inp : ray_input f32) (xf : xform f32),
  polygon_test_point po xf (ray_p1 inp) = Ok false /\ polygon_test_point po xf (ray_p2 inp) = Ok true /\ ray_max inp = nofZ 1 /\
  polygon_ray_cast po inp xf = Ok None.
Proof.
  exists box1, short_entry, xf_id. destruct short_entry_missed as (A & B & C).
  split; [exact (is_false_eq _ A)|]. split; [exact (is_true_eq _ B)|]. split; [reflexivity|exact (no_hit_eq _ C)].
Qed.
Lemma short_entry_refutes_R : exists (po : polygon R) (inp : ray_input R) (xf : xform R) (f : R),
  poly_sized po /\ unit_rot (xq xf) /\ (0 <= f <= ray_max inp)%R /\ in_polygon po xf (along (ray_p1 inp) (ray_p2 inp) f) /\
  (forall t, (t < f)%R -> ~ in_polygon po xf (along (ray_p1 inp) (ray_p2 inp) t)) /\ polygon_ray_cast po inp xf = Ok None.
Proof.
  destruct short_entry_missed_R as (A & B & C & D). eexists _, _, _, _. split; [apply (box_sized polygon_default (nofZ 1) (nofZ 1))|].
  split; [exact xf_id_unit|]. split; [exact B|]. split; [exact C|]. split; [exact D|exact A].
Qed.
Lemma tiny_ray_refutes : exists (c : circle f32) (inp : ray_input f32) (xf : xform f32),
  circle_test_point c xf (ray_p1 inp) = false /\ circle_test_point c xf (ray_p2 inp) = true /\ ray_max inp = nofZ 1 /\
  circle_ray_cast c inp xf = None.
Proof.
  exists tiny_circle, tiny_ray, xf_id. destruct tiny_ray_missed as (A & B & C). split; [exact A|]. split; [exact B|]. split; [reflexivity|].
  exact (some_hit_eq _ C).
Qed.
Lemma on_edge_refutes : exists (e : edge f32) (inp : ray_input f32) (xf : xform f32) (out : ray_output f32),
  edge_ray_cast e inp xf = Some out /\ nlt (nofZ 0) (b2_dot (ray_normal out) (vsub (ray_p2 inp) (ray_p1 inp))) = true.
Proof.
  exists edge01, on_edge_ray, xf_id. exact (hit_along_eq _ _ on_edge_normal).
Qed.
Lemma in_box_ex : poly_sized (@box1 R _) /\ in_polygon box1 xf_id (V2 1 0)%R /\ ~ in_polygon box1 xf_id (V2 2 0)%R.
Proof. split; [apply (box_sized polygon_default)|]. rewrite !box_in. cbn. lra. Qed.
Lemma touch_ex : length (mf_points (@manifold_default R _)) = 2%nat /\
  (sqrt (dist2 (place xf_id (V2 0 0)) (place xf_id (V2 2 0))) <= 1 + 1)%R.
Proof.
  split; [reflexivity|]. replace (dist2 _ _) with (2 * 2)%R by (unfold dist2, place, xf_id; cbn; ring). rewrite sqrt_square; lra.
Qed.
Lemma mass_ex : (B2_EPSILON < 4 * (1 / 2 * 3))%R.
Proof. unfold B2_EPSILON, nlit. rops. lra. Qed.
