(** What the queries of a world are supposed to report. Exact real arithmetic. *)
From Coq Require Import List ZArith Bool Arith Reals.
From Verif Require Import Base Num NumLaws Math Collision GeomSpec ShapeModel ShapeSpec HullSpec TreeModel TreeSpec BroadModel DynModel WorldModel WorldClaims QueryModel.
Import ListNotations.
Local Open Scope R_scope.

(** ** queries *)
(* give the elements of a list to a callback until it answers false *)
Fixpoint feed {A S} (cb : S -> A -> S * bool) (s : S) (l : list A) : S :=
  match l with
  | [] => s
  | x :: r => let '(s', go) := cb s x in if go then feed cb s' r else s'
  end.
(* the children whose boxes in the broad phase are not separated from the box *)
Definition in_reach (w : world R) (box : aabb R) (f k : nat) : Prop :=
  on_enabled w f /\ (k < children w f)%nat /\ exists id fat, proxy_is w f k id /\ get_fat_aabb (bp_tree (w_bp w)) id = Ok fat /\ ~ separated fat box.

(** ** rays *)
(* shapes that a ray cast treats exactly *)
Definition sound_shape (s : shape R) : Prop :=
  match s with
  | ShCircle c => B2_EPSILON <= ci_radius c
  | ShEdge e => 0 <= ed_radius e /\ B2_EPSILON <= sqrt (dist2 (ed_v2 e) (ed_v1 e))
  | ShPolygon po => 0 <= po_radius po /\ proper po
  | ShChain c => 0 <= ch_radius c /\ forall i a b, nth_error (ch_vertices c) i = Some a -> nth_error (ch_vertices c) (S i) = Some b -> B2_EPSILON <= sqrt (dist2 b a)
  end.
Definition sound_shapes (w : world R) : Prop := forall f x, w_fixtures w f = Some x -> sound_shape (f_shape x).
(* child [k] of the fixture [f] of an enabled body, cast alone against the ray up to the fraction [M] *)
Definition hit (w : world R) (p1 p2 : vec2 R) (M : R) (f k : nat) (out : ray_output R) : Prop :=
  exists x i b, w_fixtures w f = Some x /\ f_body x = Some i /\ w_bodies w i = Some b /\ is_enabled b = true /\
    (k < children w f)%nat /\ shape_ray_cast (f_shape x) (RayIn p1 p2 M) (b_xf b) k = Ok (Some out).
(* what is reported to the user: fixture, child, what the shape says *)
Definition shot : Type := (nat * nat * ray_output R)%type.
Definition fixture_of (r : shot) : nat := fst (fst r).
Definition fraction_of (r : shot) : R := ray_fraction (snd r).
Section Told.
  Context {S : Type} (cb : S -> nat -> vec2 R -> vec2 R -> R -> S * R) (p1 p2 : vec2 R).
  Definition tell (s : S) (r : shot) : S * R :=
    cb s (fixture_of r) (along p1 p2 (fraction_of r)) (ray_normal (snd r)) (fraction_of r).
  (* the state after the reports, and the answers *)
  Fixpoint told (s : S) (l : list shot) : S * list R :=
    match l with
    | [] => (s, [])
    | r :: l => let '(s', v) := tell s r in let '(s'', vs) := told s' l in (s'', v :: vs)
    end.
End Told.
(* the fraction that is left after an answer, and after all *)
Definition clip (M v : R) : R := if Rlt_dec 0 v then v else M.
Definition left_over (vs : list R) : R := fold_left clip vs 1.
Section Reported.
  Context (w : world R) (p1 p2 : vec2 R).
  (* every report is a hit of the ray as it is clipped then *)
  Fixpoint in_turn (M : R) (l : list shot) (vs : list R) : Prop :=
    match l, vs with
    | [], [] => True
    | r :: l, v :: vs => hit w p1 p2 M (fst (fst r)) (snd (fst r)) (snd r) /\ in_turn (clip M v) l vs
    | _, _ => False
    end.
  (* no child is reported twice; either the last answer was 0, or no hit of the ray that is left is missing *)
  Definition complete (l : list shot) (vs : list R) : Prop :=
    NoDup (map fst l) /\ in_turn 1 l vs /\
    ((exists ini, vs = ini ++ [0] /\ Forall (fun v => v <> 0) ini) \/
     (Forall (fun v => v <> 0) vs /\ forall f k out, hit w p1 p2 (left_over vs) f k out -> In (f, k, out) l)).
End Reported.
(* a callback that keeps the nearest hit, as in the test bed *)
Definition nearest (s : option (nat * vec2 R * vec2 R * R)) (f : nat) (p n : vec2 R) (t : R) : option (nat * vec2 R * vec2 R * R) * R := (Some (f, p, n, t), t).
