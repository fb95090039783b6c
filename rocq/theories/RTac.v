(** Tactics for the real instance of the numeric code. *)
From Coq Require Import ZArith Reals Lra Lia Bool.
From Flocq Require Import Core.
From Verif Require Import Base Num NumLaws Math.
Local Open Scope R_scope.

Lemma vec2_ext (a b : vec2 R) : vx a = vx b -> vy a = vy b -> a = b.
Proof. destruct a, b; cbn; intros; subst; reflexivity. Qed.
Lemma vec3_ext (a b : vec3 R) : v3x a = v3x b -> v3y a = v3y b -> v3z a = v3z b -> a = b.
Proof. destruct a, b; cbn; intros; subst; reflexivity. Qed.
Lemma rot_ext (a b : rot R) : rs a = rs b -> rc a = rc b -> a = b.
Proof. destruct a, b; cbn; intros; subst; reflexivity. Qed.
Lemma xform_ext (a b : xform R) : xp a = xp b -> xq a = xq b -> a = b.
Proof. destruct a, b; cbn; intros; subst; reflexivity. Qed.

(* turn class operations at R into the operations of R *)
Ltac rops := cbn [nofZ nadd nsub nmul ndiv nneg nabs nsqrt nlt nle neqb npi R_Num nsin ncos nfloor R_Trig
  vx vy v3x v3y v3z m2x m2y m3x m3y m3z rs rc xp xq
  sw_local_center sw_c0 sw_c sw_a0 sw_a sw_alpha0 fst snd] in *.
Ltac rmath := repeat (progress (
  unfold vzero, vadd, vsub, vscale, vmuls, vneg, b2_dot, b2_cross, b2_cross_vs, b2_cross_sv, vlen2, vskew,
    b2_mul, b2_mul_t, b2_mul_mat22, b2_mul_t_mat22, v3add, v3scale, v3neg, b2_dot_vec3, b2_cross_vec3, b2_mul_mat33, b2_mul22,
    rot_xaxis, rot_yaxis, b2_mul_rot, b2_mul_t_rot, rotv, rotv_t, xfv, xfv_t, b2_mul_transform, b2_mul_t_transform, nlit,
    b2_abs_vec2, b2_min_vec2, b2_max_vec2 in *; rops)).
Ltac rmathc := repeat (progress (unfold vzero, vadd, vsub, vscale, vmuls, vneg, b2_dot, b2_cross, b2_cross_vs, b2_cross_sv, vlen2, vskew,
    b2_mul, b2_mul_t, b2_mul_mat22, b2_mul_t_mat22, v3add, v3scale, v3neg, b2_dot_vec3, b2_cross_vec3, b2_mul_mat33, b2_mul22,
    rot_xaxis, rot_yaxis, b2_mul_rot, b2_mul_t_rot, rotv, rotv_t, xfv, xfv_t, b2_mul_transform, b2_mul_t_transform, nlit,
    b2_abs_vec2, b2_min_vec2, b2_max_vec2;
   cbn [nofZ nadd nsub nmul ndiv nneg nabs nsqrt nlt nle neqb npi R_Num nsin ncos nfloor R_Trig
  vx vy v3x v3y v3z m2x m2y m3x m3y m3z rs rc xp xq
  sw_local_center sw_c0 sw_c sw_a0 sw_a sw_alpha0 fst snd])).
(* case analysis on one comparison of R *)
Ltac rcase :=
  match goal with
  | |- context [Rlt_bool ?a ?b] => destruct (Rlt_bool_spec a b)
  | |- context [Rle_bool ?a ?b] => destruct (Rle_bool_spec a b)
  | |- context [Req_bool ?a ?b] => destruct (Req_bool_spec a b)
  end.
Ltac rcases := repeat (rcase; cbn [negb andb orb]).

(* case analysis on a comparison in the outermost [if] *)
Ltac ifc :=
  match goal with |- context [if ?b then _ else _] =>
    match b with
    | context [Rlt_bool ?x ?y] => destruct (Rlt_bool_spec x y)
    | context [Rle_bool ?x ?y] => destruct (Rle_bool_spec x y)
    | context [Req_bool ?x ?y] => destruct (Req_bool_spec x y)
    end
  end; cbn [andb orb negb].

Lemma b2_min_R (a b : R) : b2_min a b = Rmin a b.
Proof. unfold b2_min, Rmin. rops. rcase; destruct (Rle_dec a b); lra. Qed.
Lemma b2_max_R (a b : R) : b2_max a b = Rmax a b.
Proof. unfold b2_max, Rmax. rops. rcase; destruct (Rle_dec a b); lra. Qed.
Lemma eps_pos : (0 < (B2_EPSILON : R)).
Proof. unfold B2_EPSILON, nlit. rops. lra. Qed.
