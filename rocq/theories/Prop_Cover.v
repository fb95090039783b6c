(** Property theorems about the boxes of the broad phase of a world and the queries of a world, over exact reals (the refutation: f32). *)
From Coq Require Import ZArith Reals Bool List Arith.
From Verif Require Import Base Num Math Collision GeomSpec ShapeModel TreeModel TreeSpec BroadModel DynModel WorldModel WorldClaims WorldCalls WorldExamples QueryModel CoverSpec QuerySpec QueryProofs RayProofs CoverExamples.
Import ListNotations.

(** ** C71 the boxes of the broad phase *)
(* Partial: the programs give static bodies no velocity, use shapes with proper boxes, and have no kinematic body in a
   step with continuous physics; the solver leaves static bodies at rest where they are. *)
Theorem C71_covered_partial : forall (E : env R) (w : WorldModel.world R), answers E -> holds_static E -> treach E w -> covered w.
Proof. exact treach_covered. Qed.
Print Assumptions C71_covered_partial.
Example C71_ex : exists w, answers r_env /\ holds_static r_env /\ treach r_env w /\
  child_box w 0 0 (AABB (V2 (0 - 1) (-1)) (V2 (0 + 1) 1))%R /\ child_box w 1 0 (AABB (V2 (10 - 1) (-1)) (V2 (10 + 1) 1))%R.
Proof. exact cover_ex. Qed.
(* without the demand on static bodies it is false: a static body made with a velocity is moved by its island, its box is not *)
Theorem C71_static_refuted : exists w : WorldModel.world f32, answers fly_env /\ wreach fly_env w /\ ~ covered w.
Proof. exact fly_refuted. Qed.
Print Assumptions C71_static_refuted.

(** ** C72 query_aabb *)
Theorem C72_query : forall (E : env R) (w : WorldModel.world R), answers E -> holds_static E -> treach E w -> forall box : aabb R, exists L : list (nat * nat),
  NoDup L /\ (forall f k, In (f, k) L <-> in_reach w box f k) /\
  (forall f k a, child_box w f k a -> ~ separated a box -> In (f, k) L) /\
  forall S (cb : S -> nat -> S * bool) (s : S), world_query w cb s box = Ok (feed cb s (map fst L)).
Proof. exact treach_query. Qed.
Print Assumptions C72_query.
Example C72_ex : exists w, answers r_env /\ holds_static r_env /\ treach r_env w /\ (exists a, child_box w 0 0 a /\ ~ separated a r_box) /\ (exists a, child_box w 1 0 a /\ separated a r_box).
Proof. exact query_ex. Qed.

(** ** C73 ray_cast *)
Theorem C73_clip : forall E : env R, answers E -> holds_static E -> forall w : WorldModel.world R, treach E w -> sound_shapes w -> forall p1 p2 : vec2 R, p1 <> p2 ->
  forall S (cb : S -> nat -> vec2 R -> vec2 R -> R -> S * R) (s : S), (forall s f p n t, (snd (cb s f p n t) <= t)%R) ->
  exists l s' vs, QuerySpec.told cb p1 p2 s l = (s', vs) /\ world_ray_cast w cb s p1 p2 = Ok s' /\ complete w p1 p2 l vs.
Proof. exact clip_ok. Qed.
Print Assumptions C73_clip.
Theorem C73_all : forall E : env R, answers E -> holds_static E -> forall w : WorldModel.world R, treach E w -> sound_shapes w -> forall p1 p2 : vec2 R, p1 <> p2 ->
  forall S (cb : S -> nat -> vec2 R -> vec2 R -> R -> S * R) (s : S), (forall s f p n t, snd (cb s f p n t) = 1%R \/ (snd (cb s f p n t) < 0)%R) ->
  exists l, NoDup (map fst l) /\ (forall f k out, In (f, k, out) l <-> hit w p1 p2 1 f k out) /\ world_ray_cast w cb s p1 p2 = Ok (fst (QuerySpec.told cb p1 p2 s l)).
Proof. exact never_ok. Qed.
Print Assumptions C73_all.
Theorem C73_nearest : forall E : env R, answers E -> holds_static E -> forall w : WorldModel.world R, treach E w -> sound_shapes w -> forall p1 p2 : vec2 R, p1 <> p2 ->
  exists r, world_ray_cast w nearest None p1 p2 = Ok r /\
    match r with
    | Some (f, p, n, t) =>
        (exists k out, hit w p1 p2 1 f k out /\ p = along p1 p2 t /\ n = ray_normal out /\ t = ray_fraction out) /\
        forall f' k' out', hit w p1 p2 1 f' k' out' -> (t <= ray_fraction out')%R
    | None => forall f k out, ~ hit w p1 p2 1 f k out
    end.
Proof. exact nearest_ok. Qed.
Print Assumptions C73_nearest.
Example C73_ex : exists w out1 out2, answers r_env /\ holds_static r_env /\ treach r_env w /\ sound_shapes w /\ V2 (-5)%R 0%R <> V2 15%R 0%R /\
  hit w (V2 (-5) 0)%R (V2 15 0)%R 1 0 0 out1 /\ (ray_fraction out1 = 1 / 5)%R /\ hit w (V2 (-5) 0)%R (V2 15 0)%R 1 1 0 out2 /\ (ray_fraction out2 = 7 / 10)%R.
Proof. exact ray_ex. Qed.
(* the nearer of the two balls is the one that is reported *)
Example C73_nearest_ex : exists w p n, treach r_env w /\ world_ray_cast w nearest None (V2 (-5) 0)%R (V2 15 0)%R = Ok (Some (0%nat, p, n, (1 / 5)%R)).
Proof. exact nearest_ex. Qed.
