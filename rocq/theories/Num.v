(** Numeric interface. All f32 code of the crate is written once over the class [Num] and used at

    - [F32_Num]: IEEE-754 binary32 of Flocq (round to nearest even, a single NaN), and
    - [R_Num]:   exact real arithmetic (used for geometric statements; rounding is ignored there). *)
From Coq Require Import ZArith Reals.
From Flocq Require Import Core IEEE754.BinarySingleNaN.

Class Num (T : Type) : Type := {
  nofZ : Z -> T;                    (* float literal of an integer *)
  nadd : T -> T -> T;
  nsub : T -> T -> T;
  nmul : T -> T -> T;
  ndiv : T -> T -> T;
  nneg : T -> T;
  nabs : T -> T;                    (* f32::abs *)
  nsqrt : T -> T;                   (* f32::sqrt *)
  nlt : T -> T -> bool;             (* a < b *)
  nle : T -> T -> bool;             (* a <= b *)
  neqb : T -> T -> bool;            (* a == b *)
  npi : T;                          (* std::f32::consts::PI *)
}.

Declare Scope num_scope.
Delimit Scope num_scope with num.
Infix "+" := nadd : num_scope.
Infix "-" := nsub : num_scope.
Infix "*" := nmul : num_scope.
Infix "/" := ndiv : num_scope.
Notation "- x" := (nneg x) : num_scope.
Infix "<?" := nlt : num_scope.
Infix "<=?" := nle : num_scope.
Infix "=?" := neqb : num_scope.
Notation "a >? b" := (nlt b a) (at level 70, no associativity) : num_scope.
Notation "a >=? b" := (nle b a) (at level 70, no associativity) : num_scope.
Notation "'#' z" := (nofZ z%Z) (at level 1, z at level 0, format "# z") : num_scope.

(* decimal literal a/b; with 0 <= a, b < 2^24 the binary32 quotient is the correctly rounded literal *)
Definition nlit {T} `{Num T} (a b : Z) : T := ndiv (nofZ a) (nofZ b).

(** ** binary32 *)
Definition f32 := binary_float 24 128.

Definition f32_prec : Prec_gt_0 24 := eq_refl.
Definition f32_emax : Prec_lt_emax 24 128 := eq_refl.
#[global] Existing Instance f32_prec.
#[global] Existing Instance f32_emax.

Definition f32_ofZ (z : Z) : f32 := binary_normalize 24 128 f32_prec f32_emax mode_NE z 0 false.

#[global] Instance F32_Num : Num f32 := {
  nofZ := f32_ofZ;
  nadd := Bplus mode_NE;
  nsub := Bminus mode_NE;
  nmul := Bmult mode_NE;
  ndiv := Bdiv mode_NE;
  nneg := @Bopp 24 128;
  nabs := @Babs 24 128;
  nsqrt := Bsqrt mode_NE;
  nlt := @Bltb 24 128;
  nle := @Bleb 24 128;
  neqb := @Beqb 24 128;
  npi := Bdiv mode_NE (f32_ofZ 13176795) (f32_ofZ 4194304);
}.

Definition f32_inf : f32 := B754_infinity false.
Definition f32_nan : f32 := B754_nan.

(** ** exact reals *)
#[global] Instance R_Num : Num R := {
  nofZ := IZR;
  nadd := Rplus;
  nsub := Rminus;
  nmul := Rmult;
  ndiv := Rdiv;
  nneg := Ropp;
  nabs := Rabs;
  nsqrt := sqrt;
  nlt := Rlt_bool;
  nle := Rle_bool;
  neqb := Req_bool;
  npi := PI;
}.

(** Trigonometry (f32::sin, f32::cos, f32::floor); only the real instance is given. *)
Class NumTrig (T : Type) : Type := {
  nsin : T -> T;
  ncos : T -> T;
  nfloor : T -> T;
}.
#[global] Instance R_Trig : NumTrig R := {
  nsin := sin;
  ncos := cos;
  nfloor := fun x => IZR (Zfloor x);
}.

(** ** Constants of /repo/src/b2_common.rs *)
Section Constants.
  Context {T : Type} `{NT : Num T}.
  Local Open Scope num_scope.
  (* :17  B2_MAX_FLOAT = f32::MAX = (2^24-1) * 2^104 *)
  Definition B2_MAX_FLOAT : T := nofZ ((2^24 - 1) * 2^104).
  (* :18  B2_EPSILON = f32::EPSILON = 2^-23 *)
  Definition B2_EPSILON : T := nlit 1 8388608.
  Definition B2_PI : T := npi.                       (* :19 *)
  Definition B2_LENGTH_UNITS_PER_METER : T := #1.    (* b2_settings.rs *)
  Definition B2_AABB_EXTENSION : T := nlit 1 10 * B2_LENGTH_UNITS_PER_METER. (* :30 *)
  Definition B2_AABB_MULTIPLIER : T := #4.           (* :35 *)
  Definition B2_LINEAR_SLOP : T := nlit 5 1000 * B2_LENGTH_UNITS_PER_METER. (* :39 *)
  Definition B2_ANGULAR_SLOP : T := #2 / #180 * npi. (* :43 *)
  Definition B2_POLYGON_RADIUS : T := #2 * B2_LINEAR_SLOP. (* :48 *)
  Definition B2_MAX_LINEAR_CORRECTION : T := nlit 2 10 * B2_LENGTH_UNITS_PER_METER. (* :60 *)
  Definition B2_MAX_ANGULAR_CORRECTION : T := #8 / #180 * npi. (* :64 *)
  Definition B2_MAX_TRANSLATION : T := #2 * B2_LENGTH_UNITS_PER_METER. (* :68 *)
  Definition B2_MAX_TRANSLATION_SQUARED : T := B2_MAX_TRANSLATION * B2_MAX_TRANSLATION. (* :69 *)
  Definition B2_MAX_ROTATION : T := nlit 1 2 * npi.  (* :73 *)
  Definition B2_MAX_ROTATION_SQUARED : T := B2_MAX_ROTATION * B2_MAX_ROTATION. (* :74 *)
  Definition B2_BAUMGARTE : T := nlit 2 10.          (* :79 *)
  Definition B2_TOI_BAUMGARTE : T := nlit 75 100.    (* :80 *)
  Definition B2_TIME_TO_SLEEP : T := nlit 5 10.      (* :85 *)
  Definition B2_LINEAR_SLEEP_TOLERANCE : T := nlit 1 100 * B2_LENGTH_UNITS_PER_METER. (* :88 *)
  Definition B2_ANGULAR_SLEEP_TOLERANCE : T := #2 / #180 * npi. (* :91 *)
End Constants.
