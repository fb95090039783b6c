(** Model of /repo/src/b2_math.rs and /repo/src/private/common/b2_math.rs. *)
From Coq Require Import ZArith Bool.
From Verif Require Import Base Num.

(* b2_math.rs:23 B2vec2 *)
Record vec2 (T : Type) := V2 { vx : T; vy : T }.
Arguments V2 {T} vx vy.
Arguments vx {T} v.
Arguments vy {T} v.
(* b2_math.rs:143 B2Vec3 *)
Record vec3 (T : Type) := V3 { v3x : T; v3y : T; v3z : T }.
Arguments V3 {T} v3x v3y v3z.
Arguments v3x {T} v.
Arguments v3y {T} v.
Arguments v3z {T} v.
(* b2_math.rs:216 B2Mat22, column major *)
Record mat22 (T : Type) := M22 { m2x : vec2 T; m2y : vec2 T }.
Arguments M22 {T} m2x m2y.
Arguments m2x {T} m.
Arguments m2y {T} m.
(* b2_math.rs:299 B2Mat33 *)
Record mat33 (T : Type) := M33 { m3x : vec3 T; m3y : vec3 T; m3z : vec3 T }.
Arguments M33 {T} m3x m3y m3z.
Arguments m3x {T} m.
Arguments m3y {T} m.
Arguments m3z {T} m.
(* b2_math.rs:355 B2Rot *)
Record rot (T : Type) := Rot { rs : T; rc : T }.
Arguments Rot {T} rs rc.
Arguments rs {T} r.
Arguments rc {T} r.
(* b2_math.rs:404 B2Transform *)
Record xform (T : Type) := Xf { xp : vec2 T; xq : rot T }.
Arguments Xf {T} xp xq.
Arguments xp {T} x.
Arguments xq {T} x.
(* b2_math.rs:437 B2Sweep *)
Record sweep (T : Type) := Sweep {
  sw_local_center : vec2 T; sw_c0 : vec2 T; sw_c : vec2 T;
  sw_a0 : T; sw_a : T; sw_alpha0 : T }.
Arguments Sweep {T} _ _ _ _ _ _.
Arguments sw_local_center {T} s.
Arguments sw_c0 {T} s.
Arguments sw_c {T} s.
Arguments sw_a0 {T} s.
Arguments sw_a {T} s.
Arguments sw_alpha0 {T} s.

Section Math.
  Context {T : Type} `{NT : Num T}.
  Local Open Scope num_scope.

  Definition vzero : vec2 T := V2 #0 #0.                                     (* :34 *)
  Definition vadd (a b : vec2 T) : vec2 T := V2 (vx a + vx b) (vy a + vy b).  (* :503 *)
  Definition vsub (a b : vec2 T) : vec2 T := V2 (vx a - vx b) (vy a - vy b).  (* :510 *)
  Definition vscale (s : T) (a : vec2 T) : vec2 T := V2 (s * vx a) (s * vy a). (* :518 *)
  (* MulAssign :132 multiplies from the right: self.x *= s *)
  Definition vmuls (a : vec2 T) (s : T) : vec2 T := V2 (vx a * s) (vy a * s).
  Definition vneg (a : vec2 T) : vec2 T := V2 (- vx a) (- vy a).              (* :105 *)
  Definition b2_dot (a b : vec2 T) : T := vx a * vx b + vy a * vy b.          (* :470 *)
  Definition b2_cross (a b : vec2 T) : T := vx a * vy b - vy a * vx b.        (* :475 *)
  Definition b2_cross_vs (a : vec2 T) (s : T) : vec2 T := V2 (s * vy a) ((- s) * vx a). (* :481 *)
  Definition b2_cross_sv (s : T) (a : vec2 T) : vec2 T := V2 ((- s) * vy a) (s * vx a). (* :487 *)
  Definition vlen2 (a : vec2 T) : T := vx a * vx a + vy a * vy a.             (* :77 length_squared *)
  Definition vlen (a : vec2 T) : T := nsqrt (vx a * vx a + vy a * vy a).      (* :71 length *)
  Definition vskew (a : vec2 T) : vec2 T := V2 (- vy a) (vx a).               (* :100 skew *)

  (* :82-92 normalize: returns (length, new vector) *)
  Definition vnormalize (a : vec2 T) : T * vec2 T :=
    let length := vlen a in
    if length <? B2_EPSILON then (#0, a)
    else let inv := #1 / length in (length, V2 (vx a * inv) (vy a * inv)).

  (* :525 is_equal *)
  Definition v_is_equal (a b : vec2 T) : bool := (vx a =? vx b) && (vy a =? vy b).
  Definition b2_distance_vec2 (a b : vec2 T) : T := vlen (vsub a b).          (* :533 *)
  Definition b2_distance_vec2_squared (a b : vec2 T) : T :=                   (* :538 *)
    let c := vsub a b in b2_dot c c.

  (* :704-731 *)
  Definition b2_min (a b : T) : T := if a <? b then a else b.
  Definition b2_max (a b : T) : T := if a >? b then a else b.
  Definition b2_min_vec2 (a b : vec2 T) : vec2 T := V2 (b2_min (vx a) (vx b)) (b2_min (vy a) (vy b)).
  Definition b2_max_vec2 (a b : vec2 T) : vec2 T := V2 (b2_max (vx a) (vx b)) (b2_max (vy a) (vy b)).
  Definition b2_clamp (a low high : T) : T := b2_max low (b2_min a high).
  (* :733-735 (b2_max_vec2 twice, as in the source) *)
  Definition b2_clamp_vec2 (a low high : vec2 T) : vec2 T := b2_max_vec2 low (b2_max_vec2 a high).
  Definition b2_abs_vec2 (a : vec2 T) : vec2 T := V2 (nabs (vx a)) (nabs (vy a)). (* :696 *)

  (* :493 b2_mul, :499 b2_mul_t *)
  Definition b2_mul (a : mat22 T) (v : vec2 T) : vec2 T :=
    V2 (vx (m2x a) * vx v + vx (m2y a) * vy v) (vy (m2x a) * vx v + vy (m2y a) * vy v).
  Definition b2_mul_t (a : mat22 T) (v : vec2 T) : vec2 T := V2 (b2_dot v (m2x a)) (b2_dot v (m2y a)).
  (* :589 b2_mul_mat22, :594 b2_mul_t_mat22 *)
  Definition b2_mul_mat22 (a b : mat22 T) : mat22 T := M22 (b2_mul a (m2x b)) (b2_mul a (m2y b)).
  Definition b2_mul_t_mat22 (a b : mat22 T) : mat22 T :=
    M22 (V2 (b2_dot (m2x a) (m2x b)) (b2_dot (m2y a) (m2x b)))
        (V2 (b2_dot (m2x a) (m2y b)) (b2_dot (m2y a) (m2y b))).

  (* :261-274 B2Mat22::get_inverse *)
  Definition m22_inverse (m : mat22 T) : mat22 T :=
    let a := vx (m2x m) in let b := vx (m2y m) in
    let c := vy (m2x m) in let d := vy (m2y m) in
    let det := a * d - b * c in
    let det := if negb (det =? #0) then #1 / det else det in
    M22 (V2 (det * d) ((- det) * c)) (V2 ((- det) * b) (det * a)).

  (* :278-293 B2Mat22::solve *)
  Definition m22_solve (m : mat22 T) (b : vec2 T) : vec2 T :=
    let a11 := vx (m2x m) in let a12 := vx (m2y m) in
    let a21 := vy (m2x m) in let a22 := vy (m2y m) in
    let det := a11 * a22 - a12 * a21 in
    let det := if negb (det =? #0) then #1 / det else det in
    V2 (det * (a22 * vx b - a12 * vy b)) (det * (a11 * vy b - a21 * vx b)).

  Definition v3add (a b : vec3 T) : vec3 T := V3 (v3x a + v3x b) (v3y a + v3y b) (v3z a + v3z b).
  Definition v3scale (s : T) (a : vec3 T) : vec3 T := V3 (s * v3x a) (s * v3y a) (s * v3z a).
  Definition v3neg (a : vec3 T) : vec3 T := V3 (- v3x a) (- v3y a) (- v3z a).
  (* :569, :574 *)
  Definition b2_dot_vec3 (a b : vec3 T) : T := v3x a * v3x b + v3y a * v3y b + v3z a * v3z b.
  Definition b2_cross_vec3 (a b : vec3 T) : vec3 T :=
    V3 (v3y a * v3z b - v3z a * v3y b) (v3z a * v3x b - v3x a * v3z b) (v3x a * v3y b - v3y a * v3x b).
  (* :601 b2_mul_mat33, :606 b2_mul22 *)
  Definition b2_mul_mat33 (a : mat33 T) (v : vec3 T) : vec3 T :=
    v3add (v3add (v3scale (v3x v) (m3x a)) (v3scale (v3y v) (m3y a))) (v3scale (v3z v) (m3z a)).
  Definition b2_mul22 (a : mat33 T) (v : vec2 T) : vec2 T :=
    V2 (v3x (m3x a) * vx v + v3x (m3y a) * vy v) (v3y (m3x a) * vx v + v3y (m3y a) * vy v).

  (* private/common/b2_math.rs:5-16 solve33 *)
  Definition solve33 (m : mat33 T) (b : vec3 T) : vec3 T :=
    let det := b2_dot_vec3 (m3x m) (b2_cross_vec3 (m3y m) (m3z m)) in
    let det := if negb (det =? #0) then #1 / det else det in
    V3 (det * b2_dot_vec3 b (b2_cross_vec3 (m3y m) (m3z m)))
       (det * b2_dot_vec3 (m3x m) (b2_cross_vec3 b (m3z m)))
       (det * b2_dot_vec3 (m3x m) (b2_cross_vec3 (m3y m) b)).

  (* private/common/b2_math.rs:19-30 solve22 *)
  Definition solve22 (m : mat33 T) (b : vec2 T) : vec2 T :=
    let a11 := v3x (m3x m) in let a12 := v3x (m3y m) in
    let a21 := v3y (m3x m) in let a22 := v3y (m3y m) in
    let det := a11 * a22 - a12 * a21 in
    let det := if negb (det =? #0) then #1 / det else det in
    V2 (det * (a22 * vx b - a12 * vy b)) (det * (a11 * vy b - a21 * vx b)).

  (* private/common/b2_math.rs:32-48 get_inverse22 *)
  Definition get_inverse22 (s : mat33 T) : mat33 T :=
    let a := v3x (m3x s) in let b := v3x (m3y s) in
    let c := v3y (m3x s) in let d := v3y (m3y s) in
    let det := a * d - b * c in
    let det := if negb (det =? #0) then #1 / det else det in
    M33 (V3 (det * d) ((- det) * c) #0) (V3 ((- det) * b) (det * a) #0) (V3 #0 #0 #0).

  (* private/common/b2_math.rs:50-71 get_sym_inverse33 *)
  Definition get_sym_inverse33 (s : mat33 T) : mat33 T :=
    let det := b2_dot_vec3 (m3x s) (b2_cross_vec3 (m3y s) (m3z s)) in
    let det := if negb (det =? #0) then #1 / det else det in
    let a11 := v3x (m3x s) in let a12 := v3x (m3y s) in let a13 := v3x (m3z s) in
    let a22 := v3y (m3y s) in let a23 := v3y (m3z s) in
    let a33 := v3z (m3z s) in
    let exx := det * (a22 * a33 - a23 * a23) in
    let exy := det * (a13 * a23 - a12 * a33) in
    let exz := det * (a12 * a23 - a13 * a22) in
    let eyy := det * (a11 * a33 - a13 * a13) in
    let eyz := det * (a13 * a12 - a11 * a23) in
    let ezz := det * (a11 * a22 - a12 * a12) in
    M33 (V3 exx exy exz) (V3 exy eyy eyz) (V3 exz eyz ezz).

  (* :390, :395 axes *)
  Definition rot_xaxis (q : rot T) : vec2 T := V2 (rc q) (rs q).
  Definition rot_yaxis (q : rot T) : vec2 T := V2 (- rs q) (rc q).
  (* :611 b2_mul_rot, :624 b2_mul_t_rot *)
  Definition b2_mul_rot (q r : rot T) : rot T := Rot (rs q * rc r + rc q * rs r) (rc q * rc r - rs q * rs r).
  Definition b2_mul_t_rot (q r : rot T) : rot T := Rot (rc q * rs r - rs q * rc r) (rc q * rc r + rs q * rs r).
  (* :637 b2_mul_rot_by_vec2, :642 b2_mul_t_rot_by_vec2 *)
  Definition rotv (q : rot T) (v : vec2 T) : vec2 T :=
    V2 (rc q * vx v - rs q * vy v) (rs q * vx v + rc q * vy v).
  Definition rotv_t (q : rot T) (v : vec2 T) : vec2 T :=
    V2 (rc q * vx v + rs q * vy v) ((- rs q) * vx v + rc q * vy v).
  (* :646 b2_mul_transform_by_vec2, :653 b2_mul_t_transform_by_vec2 *)
  Definition xfv (t : xform T) (v : vec2 T) : vec2 T :=
    V2 ((rc (xq t) * vx v - rs (xq t) * vy v) + vx (xp t))
       ((rs (xq t) * vx v + rc (xq t) * vy v) + vy (xp t)).
  Definition xfv_t (t : xform T) (v : vec2 T) : vec2 T :=
    let px := vx v - vx (xp t) in let py := vy v - vy (xp t) in
    V2 (rc (xq t) * px + rs (xq t) * py) ((- rs (xq t)) * px + rc (xq t) * py).
  (* :664 b2_mul_transform, :674 b2_mul_t_transform *)
  Definition b2_mul_transform (a b : xform T) : xform T :=
    Xf (vadd (rotv (xq a) (xp b)) (xp a)) (b2_mul_rot (xq a) (xq b)).
  Definition b2_mul_t_transform (a b : xform T) : xform T :=
    Xf (rotv_t (xq a) (vsub (xp b) (xp a))) (b2_mul_t_rot (xq a) (xq b)).

  Context `{TT : NumTrig T}.
  (* :363 B2Rot::new, :372 set *)
  Definition rot_of (angle : T) : rot T := Rot (nsin angle) (ncos angle).
  (* :764-771 b2_sweep_get_transform *)
  Definition sweep_get_transform (s : sweep T) (beta : T) : xform T :=
    let p := vadd (vscale (#1 - beta) (sw_c0 s)) (vscale beta (sw_c s)) in
    let angle := (#1 - beta) * sw_a0 s + beta * sw_a s in
    let q := rot_of angle in
    Xf (vsub p (rotv q (sw_local_center s))) q.
  (* :773-779 b2_sweep_advance *)
  Definition sweep_advance (s : sweep T) (alpha : T) : res (sweep T) :=
    b2_assert (sw_alpha0 s <? #1) ;;;
    let beta := (alpha - sw_alpha0 s) / (#1 - sw_alpha0 s) in
    Ok (Sweep (sw_local_center s)
          (vadd (sw_c0 s) (vscale beta (vsub (sw_c s) (sw_c0 s)))) (sw_c s)
          (sw_a0 s + beta * (sw_a s - sw_a0 s)) (sw_a s) alpha).
  (* :782-787 b2_sweep_normalize *)
  Definition sweep_normalize (s : sweep T) : sweep T :=
    let two_pi := #2 * B2_PI in
    let d := two_pi * nfloor (sw_a0 s / two_pi) in
    Sweep (sw_local_center s) (sw_c0 s) (sw_c s) (sw_a0 s - d) (sw_a s - d) (sw_alpha0 s).
End Math.

(* :748-756 b2_next_power_of_two on u32; [x + 1] overflows (panic in debug builds) at 2^32 *)
Definition b2_next_power_of_two (v : Z) : res Z :=
  let x := v in
  let x := Z.lor x (Z.shiftr x 1) in
  let x := Z.lor x (Z.shiftr x 2) in
  let x := Z.lor x (Z.shiftr x 4) in
  let x := Z.lor x (Z.shiftr x 8) in
  let x := Z.lor x (Z.shiftr x 16) in
  if (x + 1 <? 2^32)%Z then Ok (x + 1)%Z else Panic.

(* :758-761 b2_is_power_of_two *)
Definition b2_is_power_of_two (x : Z) : bool := (0 <? x)%Z && (Z.land x (x - 1) =? 0)%Z.
