(** Small geometric specifications over exact reals, independent of the modelled functions. *)
From Coq Require Import ZArith Reals List.
From Verif Require Import Num Math Collision Manifold Filter.
Import ListNotations.
Local Open Scope R_scope.

(* the point a + t (b - a) *)
Definition along (a b : vec2 R) (t : R) : vec2 R := V2 (vx a + t * (vx b - vx a)) (vy a + t * (vy b - vy a)).
Definition on_segment (a b p : vec2 R) : Prop := exists t, 0 <= t <= 1 /\ p = along a b t.
Definition half_plane (n : vec2 R) (offset : R) (p : vec2 R) : Prop := vx n * vx p + vy n * vy p <= offset.
(* points spanned by at most two vertices *)
Definition spanned (l : list (vec2 R)) (p : vec2 R) : Prop :=
  match l with
  | [] => False
  | [a] => p = a
  | [a; b] => on_segment a b p
  | _ => False
  end.

Definition in_box (b : aabb R) (p : vec2 R) : Prop :=
  vx (lo b) <= vx p <= vx (hi b) /\ vy (lo b) <= vy p <= vy (hi b).
(* the ray enters the box at fraction f: it is in the box there and was outside before *)
Definition enters (b : aabb R) (p1 p2 : vec2 R) (f : R) : Prop :=
  in_box b (along p1 p2 f) /\ forall t, t < f -> ~ in_box b (along p1 p2 t).

Definition unit_vec (n : vec2 R) : Prop := vx n * vx n + vy n * vy n = 1.
(* squared distance *)
Definition dist2 (a b : vec2 R) : R := (vx a - vx b) * (vx a - vx b) + (vy a - vy b) * (vy a - vy b).

(* an id occurs among the used points of a manifold *)
Definition has_id {T} (m : manifold T) (id : cid) : Prop :=
  exists j p, (j < mf_count m)%nat /\ nth_error (mf_points m) j = Some p /\ mp_id p = id.
Definition states_right {T} (m other : manifold T) (missing : pstate) (st : list pstate) : Prop :=
  length st = 2%nat /\
  (forall i p, (i < mf_count m)%nat -> nth_error (mf_points m) i = Some p ->
     (has_id other (mp_id p) -> nth_error st i = Some PersistState) /\
     (~ has_id other (mp_id p) -> nth_error st i = Some missing)) /\
  (forall i, (mf_count m <= i < 2)%nat -> nth_error st i = Some NullState).

Definition common_bit (x y : Z) : Prop := exists i, (0 <= i)%Z /\ Z.testbit x i = true /\ Z.testbit y i = true.
