(** Model of the box parts of /repo/src/b2_collision.rs and /repo/src/private/collision/b2_collision.rs. *)
From Coq Require Import ZArith Bool List.
From Verif Require Import Base Num Math.
Import ListNotations.

(* b2_collision.rs:201 B2AABB *)
Record aabb (T : Type) := AABB { lo : vec2 T; hi : vec2 T }.
Arguments AABB {T} lo hi.
Arguments lo {T} a.
Arguments hi {T} a.

(* b2_collision.rs:185 B2rayCastInput, :194 B2rayCastOutput *)
Record ray_input (T : Type) := RayIn { ray_p1 : vec2 T; ray_p2 : vec2 T; ray_max : T }.
Arguments RayIn {T} _ _ _.
Arguments ray_p1 {T} r.
Arguments ray_p2 {T} r.
Arguments ray_max {T} r.
Record ray_output (T : Type) := RayOut { ray_normal : vec2 T; ray_fraction : T }.
Arguments RayOut {T} _ _.
Arguments ray_normal {T} r.
Arguments ray_fraction {T} r.

Section AABB.
  Context {T : Type} `{NT : Num T}.
  Local Open Scope num_scope.

  Definition aabb_default : aabb T := AABB vzero vzero.
  (* :215 get_center, :220 get_extents *)
  Definition aabb_center (a : aabb T) : vec2 T := vscale (nlit 1 2) (vadd (lo a) (hi a)).
  Definition aabb_extents (a : aabb T) : vec2 T := vscale (nlit 1 2) (vsub (hi a) (lo a)).
  (* :225-229 get_perimeter *)
  Definition perimeter (a : aabb T) : T :=
    let wx := vx (hi a) - vx (lo a) in
    let wy := vy (hi a) - vy (lo a) in
    #2 * (wx + wy).
  (* :238-241 combine_two *)
  Definition combine (a b : aabb T) : aabb T := AABB (b2_min_vec2 (lo a) (lo b)) (b2_max_vec2 (hi a) (hi b)).
  (* :244-251 contains *)
  Definition aabb_contains (self a : aabb T) : bool :=
    (vx (lo self) <=? vx (lo a)) && (vy (lo self) <=? vy (lo a)) &&
    (vx (hi a) <=? vx (hi self)) && (vy (hi a) <=? vy (hi self)).
  (* :355-368 b2_test_overlap *)
  Definition test_overlap (a b : aabb T) : bool :=
    let d1 := vsub (lo b) (hi a) in
    let d2 := vsub (lo a) (hi b) in
    if (vx d1 >? #0) || (vy d1 >? #0) then false
    else if (vx d2 >? #0) || (vy d2 >? #0) then false
    else true.

  (* private/collision/b2_collision.rs:113-168 b2_aabb_ray_cast.
     The loop over i in 0..2 is unrolled into [axis] called for x and for y;
     the state is (tmin, tmax, normal); None = return false. *)
  Definition ray_axis (p d l u : T) (mk : T -> vec2 T) (st : T * T * vec2 T) : option (T * T * vec2 T) :=
    let '(tmin, tmax, normal) := st in
    if nabs d <? B2_EPSILON then
      if (p <? l) || (u <? p) then None else Some st
    else
      let inv_d := #1 / d in
      let t1 := (l - p) * inv_d in
      let t2 := (u - p) * inv_d in
      let '(t1, t2, s) := if t1 >? t2 then (t2, t1, #1) else (t1, t2, nneg #1) in
      let '(tmin, normal) := if t1 >? tmin then (t1, mk s) else (tmin, normal) in
      let tmax := b2_min tmax t2 in
      if tmin >? tmax then None else Some (tmin, tmax, normal).

  Definition aabb_ray_cast (self : aabb T) (input : ray_input T) : option (ray_output T) :=
    let p := ray_p1 input in
    let d := vsub (ray_p2 input) (ray_p1 input) in
    match ray_axis (vx p) (vx d) (vx (lo self)) (vx (hi self)) (fun s => V2 s #0)
            (nneg B2_MAX_FLOAT, B2_MAX_FLOAT, V2 #0 #0) with
    | None => None
    | Some st =>
      match ray_axis (vy p) (vy d) (vy (lo self)) (vy (hi self)) (fun s => V2 #0 s) st with
      | None => None
      | Some (tmin, tmax, normal) =>
        if (tmin <? #0) || (ray_max input <? tmin) then None
        else Some (RayOut normal tmin)
      end
    end.
End AABB.
