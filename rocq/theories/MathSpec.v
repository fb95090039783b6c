(** Small specifications for the math helpers, independent of the modelled functions. *)
From Coq Require Import ZArith Reals List.
From Verif Require Import Num Math.
Local Open Scope R_scope.

(* a rotation is a point of the unit circle *)
Definition unit_rot (q : rot R) : Prop := rs q * rs q + rc q * rc q = 1.

(* rows of A x = b; matrices are stored by columns *)
Definition solves2 (a11 a12 a21 a22 : R) (x b : vec2 R) : Prop :=
  a11 * vx x + a12 * vy x = vx b /\ a21 * vx x + a22 * vy x = vy b.
Definition det2 (a11 a12 a21 a22 : R) : R := a11 * a22 - a12 * a21.
Definition solves3 (m : mat33 R) (x b : vec3 R) : Prop :=
  v3x (m3x m) * v3x x + v3x (m3y m) * v3y x + v3x (m3z m) * v3z x = v3x b /\
  v3y (m3x m) * v3x x + v3y (m3y m) * v3y x + v3y (m3z m) * v3z x = v3y b /\
  v3z (m3x m) * v3x x + v3z (m3y m) * v3y x + v3z (m3z m) * v3z x = v3z b.
(* expansion along the first row *)
Definition det3 (m : mat33 R) : R :=
  v3x (m3x m) * (v3y (m3y m) * v3z (m3z m) - v3y (m3z m) * v3z (m3y m)) -
  v3x (m3y m) * (v3y (m3x m) * v3z (m3z m) - v3y (m3z m) * v3z (m3x m)) +
  v3x (m3z m) * (v3y (m3x m) * v3z (m3y m) - v3y (m3y m) * v3z (m3x m)).
Definition symmetric3 (m : mat33 R) : Prop :=
  v3y (m3x m) = v3x (m3y m) /\ v3z (m3x m) = v3x (m3z m) /\ v3z (m3y m) = v3y (m3z m).

(* where a body with centre [c], angle [a] and local centre [lc] has its origin *)
Definition pose_at (lc c : vec2 R) (a : R) (x : xform R) : Prop :=
  xq x = Rot (sin a) (cos a) /\
  vx (xp x) + (cos a * vx lc - sin a * vy lc) = vx c /\
  vy (xp x) + (sin a * vx lc + cos a * vy lc) = vy c.

(* powers of two *)
Definition pow2 (x : Z) : Prop := exists k, (0 <= k)%Z /\ x = (2 ^ k)%Z.
Definition least_pow2_above (v x : Z) : Prop := pow2 x /\ (v < x)%Z /\ forall y, pow2 y -> (v < y)%Z -> (x <= y)%Z.
