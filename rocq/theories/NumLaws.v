(** Order laws shared by binary32 and R. They are *proved* for both instances. *)
From Coq Require Import ZArith Reals Lra Lia Bool.
From Flocq Require Import Core IEEE754.BinarySingleNaN.
From Flocq Require Import Plus_error.
From Verif Require Import Num.
Local Open Scope num_scope.

Class NumOrd (T : Type) `{NT : Num T} : Type := {
  nok : T -> Prop;                        (* not NaN *)
  nfin : T -> Prop;                       (* finite *)
  nfin_ok : forall x, nfin x -> nok x;
  nle_ok : forall x y, nle x y = true -> nok x /\ nok y;
  nle_refl : forall x, nok x -> nle x x = true;
  nle_trans : forall x y z, nle x y = true -> nle y z = true -> nle x z = true;
  nlt_nle : forall x y, nok x -> nok y -> nlt x y = negb (nle y x);
  nlt_ok : forall x y, nlt x y = true -> nok x /\ nok y;
  nsub_pos : forall x y, nlt (nofZ 0) (nsub x y) = nlt y x;
  nfin0 : nfin (nofZ 0);
  (* adding a non-positive number to something that is below a finite number goes down *)
  nadd_down : forall x y d, nfin y -> nle x y = true -> nle d (nofZ 0) = true -> nle (nadd x d) x = true;
  nadd_up : forall x y d, nfin y -> nle y x = true -> nle (nofZ 0) d = true -> nle x (nadd x d) = true;
  nsub_down : forall x y d, nfin y -> nle x y = true -> nle (nofZ 0) d = true -> nle (nsub x d) x = true;
  nmul_ok : forall c d, nfin c -> nlt (nofZ 0) c = true -> nok d -> nok (nmul c d);
  neqb_refl : forall x, nok x -> neqb x x = true;
  neqb_total : forall x y, nok x -> nok y -> nlt x y = false -> nlt y x = false -> neqb x y = true;
  nsub_mono : forall x y o, nfin o -> nle x y = true -> nle (nsub x o) (nsub y o) = true;
  nsub_nok : forall x o, nfin o -> (nok (nsub x o) <-> nok x);
  nle_total : forall x y, nok x -> nok y -> nle x y = true \/ nle y x = true;
  (* half perimeters of boxes within +-2^124 do not overflow *)
  nsmall : forall lx ly ux uy,
    nle (nofZ (-2^124)) lx = true -> nle (nofZ (-2^124)) ly = true -> nle (nofZ (-2^124)) ux = true -> nle (nofZ (-2^124)) uy = true ->
    nle lx (nofZ (2^124)) = true -> nle ly (nofZ (2^124)) = true -> nle ux (nofZ (2^124)) = true -> nle uy (nofZ (2^124)) = true ->
    nlt (nmul (nofZ 2) (nadd (nsub ux lx) (nsub uy ly))) B2_MAX_FLOAT = true;
}.

(** ** R *)
Lemma Rlt_bool_true' x y : Rlt_bool x y = true <-> (x < y)%R.
Proof. split; intro H; [ | now apply Rlt_bool_true ]. revert H. case Rlt_bool_spec; easy. Qed.
Lemma Rle_bool_true' x y : Rle_bool x y = true <-> (x <= y)%R.
Proof. split; intro H; [ | now apply Rle_bool_true ]. revert H. case Rle_bool_spec; easy. Qed.
Lemma Req_bool_true' x y : Req_bool x y = true <-> (x = y)%R.
Proof. split; intro H; [ | now apply Req_bool_true ]. revert H. case Req_bool_spec; easy. Qed.
Lemma Rlt_bool_false' x y : Rlt_bool x y = false <-> (y <= x)%R.
Proof. split; intro H; [ | now apply Rlt_bool_false ]. revert H. case Rlt_bool_spec; easy. Qed.
Lemma Rle_bool_false' x y : Rle_bool x y = false <-> (y < x)%R.
Proof. split; intro H; [ | now apply Rle_bool_false ]. revert H. case Rle_bool_spec; easy. Qed.
Lemma Req_bool_false' x y : Req_bool x y = false <-> (x <> y)%R.
Proof. split; intro H; [ | now apply Req_bool_false ]. revert H. case Req_bool_spec; easy. Qed.

#[global] Program Instance R_NumOrd : NumOrd R := {
  nok := fun _ => True;
  nfin := fun _ => True;
}.
Next Obligation. apply Rle_bool_true. lra. Qed.
Next Obligation. rewrite Rle_bool_true' in *. lra. Qed.
Next Obligation. case Rle_bool_spec; intro; simpl.
  apply Rlt_bool_false; lra. apply Rlt_bool_true; lra. Qed.
Next Obligation. case (Rlt_bool_spec y x); intro; [apply Rlt_bool_true | apply Rlt_bool_false]; lra. Qed.
Next Obligation. rewrite Rle_bool_true' in *. lra. Qed.
Next Obligation. rewrite Rle_bool_true' in *. lra. Qed.
Next Obligation. rewrite Rle_bool_true' in *. lra. Qed.
Next Obligation. rewrite Req_bool_true'. lra. Qed.
Next Obligation. rewrite Req_bool_true'. rewrite Rlt_bool_false' in *. lra. Qed.
Next Obligation. rewrite Rle_bool_true' in *. lra. Qed.
Next Obligation. tauto. Qed.
Next Obligation. rewrite !Rle_bool_true'. destruct (Rle_or_lt x y); [left|right]; lra. Qed.
Next Obligation.
  rewrite Rle_bool_true' in *. apply Rlt_bool_true.
  change (Z.pow_pos 2 124) with 21267647932558653966460912964485513216%Z in *. lra.
Qed.

(** ** binary32 *)

(* order embedding of the non-NaN floats into R *)
Definition fval (x : f32) : R :=
  match x with
  | B754_infinity false => bpow radix2 129
  | B754_infinity true => (- bpow radix2 129)%R
  | _ => B2R x
  end.

Lemma bpow_128_129 : (bpow radix2 128 < bpow radix2 129)%R.
Proof. apply bpow_lt. lia. Qed.

Lemma fval_fin x : is_finite x = true -> fval x = B2R x.
Proof. destruct x; easy. Qed.

Lemma fval_fin_bound (x : f32) : is_finite x = true -> (Rabs (fval x) < bpow radix2 128)%R.
Proof. intro H. rewrite fval_fin by easy. apply abs_B2R_lt_emax. Qed.

Lemma Bleb_fval (x y : f32) : is_nan x = false -> is_nan y = false ->
  Bleb x y = Rle_bool (fval x) (fval y).
Proof.
  intros Hx Hy. pose proof bpow_128_129 as H129. pose proof (bpow_gt_0 radix2 128) as Hp.
  destruct (is_finite x) eqn:Fx; destruct (is_finite y) eqn:Fy.
  - rewrite Bleb_correct by easy. now rewrite !fval_fin by easy.
  - pose proof (fval_fin_bound x Fx) as B. apply Rabs_lt_inv in B.
    destruct y as [|[] | |]; try easy; cbn [fval].
    + rewrite Rle_bool_false by lra. destruct x as [|[]| |[]]; easy.
    + rewrite Rle_bool_true by lra. destruct x as [|[]| |[]]; easy.
  - pose proof (fval_fin_bound y Fy) as B. apply Rabs_lt_inv in B.
    destruct x as [|[] | |]; try easy; cbn [fval].
    + rewrite Rle_bool_true by lra. destruct y as [|[]| |[]]; easy.
    + rewrite Rle_bool_false by lra. destruct y as [|[]| |[]]; easy.
  - destruct x as [|[] | |]; try easy; destruct y as [|[] | |]; try easy; cbn [fval].
    all: first [rewrite Rle_bool_true by lra | rewrite Rle_bool_false by lra]; easy.
Qed.

Lemma Bltb_fval (x y : f32) : is_nan x = false -> is_nan y = false ->
  Bltb x y = Rlt_bool (fval x) (fval y).
Proof.
  intros Hx Hy. pose proof bpow_128_129 as H129. pose proof (bpow_gt_0 radix2 128) as Hp.
  destruct (is_finite x) eqn:Fx; destruct (is_finite y) eqn:Fy.
  - rewrite Bltb_correct by easy. now rewrite !fval_fin by easy.
  - pose proof (fval_fin_bound x Fx) as B. apply Rabs_lt_inv in B.
    destruct y as [|[] | |]; try easy; cbn [fval].
    + rewrite Rlt_bool_false by lra. destruct x as [|[]| |[]]; easy.
    + rewrite Rlt_bool_true by lra. destruct x as [|[]| |[]]; easy.
  - pose proof (fval_fin_bound y Fy) as B. apply Rabs_lt_inv in B.
    destruct x as [|[] | |]; try easy; cbn [fval].
    + rewrite Rlt_bool_true by lra. destruct y as [|[]| |[]]; easy.
    + rewrite Rlt_bool_false by lra. destruct y as [|[]| |[]]; easy.
  - destruct x as [|[] | |]; try easy; destruct y as [|[] | |]; try easy; cbn [fval].
    all: first [rewrite Rlt_bool_true by lra | rewrite Rlt_bool_false by lra]; easy.
Qed.

Lemma Bleb_nan (x y : f32) : Bleb x y = true -> is_nan x = false /\ is_nan y = false.
Proof. destruct x as [|[]| |[]], y as [|[]| |[]]; easy. Qed.
Lemma Bltb_nan (x y : f32) : Bltb x y = true -> is_nan x = false /\ is_nan y = false.
Proof. destruct x as [|[]| |[]], y as [|[]| |[]]; easy. Qed.

Lemma f32_round_id (x : f32) : round radix2 (SpecFloat.fexp 24 128) (round_mode mode_NE) (B2R x) = B2R x.
Proof. apply round_generic. apply valid_rnd_round_mode. apply generic_format_B2R. Qed.

#[global] Instance f32_vexp : Valid_exp (SpecFloat.fexp 24 128).
Proof. apply (FLT_exp_valid (SpecFloat.emin 24 128) 24). Qed.

Lemma B2SF_ovf (x : f32) s : B2SF x = binary_overflow 24 128 mode_NE s -> x = B754_infinity s.
Proof. destruct x, s; cbn; intro H; inversion H; easy. Qed.

Lemma Bsign_pos (x : f32) : (0 < B2R x)%R -> Bsign x = false.
Proof.
  destruct x as [s| | |s m e H]; cbn; try lra. destruct s; try easy.
  intro K. exfalso. revert K. apply Rle_not_lt. apply F2R_le_0. easy.
Qed.
Lemma Bsign_neg (x : f32) : (B2R x < 0)%R -> Bsign x = true.
Proof.
  destruct x as [s| | |s m e H]; cbn; try lra. destruct s; try easy.
  intro K. exfalso. revert K. apply Rle_not_lt. apply F2R_ge_0. easy.
Qed.

(* sum of two finite numbers, in terms of fval *)
Lemma Bplus_down (x d : f32) : is_finite x = true -> is_finite d = true -> (B2R d <= 0)%R ->
  is_nan (Bplus mode_NE x d) = false /\ (fval (Bplus mode_NE x d) <= fval x)%R.
Proof.
  intros Fx Fd Hd. generalize (Bplus_correct 24 128 _ _ mode_NE x d Fx Fd).
  case Rlt_bool_spec; intro Ho.
  - intros [E [F _]]. split. now destruct (Bplus mode_NE x d).
    rewrite !fval_fin by easy. rewrite E. rewrite <- (f32_round_id x) at 2.
    apply round_le; try typeclasses eauto. lra.
  - intros [E S]. apply B2SF_ovf in E. rewrite E. split. easy.
    destruct (Rle_lt_or_eq_dec _ _ Hd) as [Hd'|Hd'].
    + apply Bsign_neg in Hd'. rewrite <- S in Hd'. rewrite Hd'.
      cbn [fval]. generalize (fval_fin_bound x Fx). intro B. apply Rabs_lt_inv in B.
      pose proof bpow_128_129. lra.
    + exfalso. rewrite Hd', Rplus_0_r, f32_round_id in Ho.
      generalize (abs_B2R_lt_emax 24 128 x). lra.
Qed.

Lemma Bplus_up (x d : f32) : is_finite x = true -> is_finite d = true -> (0 <= B2R d)%R ->
  is_nan (Bplus mode_NE x d) = false /\ (fval x <= fval (Bplus mode_NE x d))%R.
Proof.
  intros Fx Fd Hd. generalize (Bplus_correct 24 128 _ _ mode_NE x d Fx Fd).
  case Rlt_bool_spec; intro Ho.
  - intros [E [F _]]. split. now destruct (Bplus mode_NE x d).
    rewrite !fval_fin by easy. rewrite E. rewrite <- (f32_round_id x) at 1.
    apply round_le; try typeclasses eauto. lra.
  - intros [E S]. apply B2SF_ovf in E. rewrite E. split. easy.
    destruct (Rle_lt_or_eq_dec _ _ Hd) as [Hd'|Hd'].
    + apply Bsign_pos in Hd'. rewrite <- S in Hd'. rewrite Hd'.
      cbn [fval]. generalize (fval_fin_bound x Fx). intro B. apply Rabs_lt_inv in B.
      pose proof bpow_128_129. lra.
    + exfalso. rewrite <- Hd', Rplus_0_r, f32_round_id in Ho.
      generalize (abs_B2R_lt_emax 24 128 x). lra.
Qed.

Lemma Bminus_Bplus (x y : f32) : Bminus mode_NE x y = Bplus mode_NE x (Bopp y).
Proof. destruct x as [|[]| |[]], y as [|[]| |[]]; reflexivity. Qed.

Lemma round0 : round radix2 (SpecFloat.fexp 24 128) (round_mode mode_NE) 0 = 0%R.
Proof. apply round_0. apply valid_rnd_round_mode. Qed.

Lemma f32_sub_pos (x y : f32) : Bltb (B754_zero false) (Bminus mode_NE x y) = Bltb y x.
Proof.
  destruct (is_finite x) eqn:Fx; destruct (is_finite y) eqn:Fy.
  2-4: destruct x as [[]|[]| |[]], y as [[]|[]| |[]]; try easy.
  rewrite (Bltb_correct 24 128 y x) by easy.
  generalize (Bminus_correct 24 128 _ _ mode_NE x y Fx Fy).
  case Rlt_bool_spec; intro Ho.
  - intros [E [F _]]. rewrite Bltb_correct by easy. rewrite E. cbn [B2R].
    destruct (Rlt_or_le (B2R y) (B2R x)) as [L|L].
    + rewrite (Rlt_bool_true (B2R y)) by easy. apply Rlt_bool_true.
      assert (G : (0 <= round radix2 (SpecFloat.fexp 24 128) (round_mode mode_NE) (B2R x - B2R y))%R).
      { rewrite <- round0. apply round_le; try typeclasses eauto. lra. }
      destruct G as [G|G]; [easy|].
      exfalso. symmetry in G.
      assert (N : round radix2 (FLT_exp (SpecFloat.emin 24 128) 24) (Znearest (fun x => negb (Z.even x))) (B2R x - B2R y) <> 0%R).
      { replace (B2R x - B2R y)%R with (B2R x + - B2R y)%R by ring.
        apply round_plus_neq_0; try typeclasses eauto.
        apply generic_format_B2R. apply generic_format_opp, generic_format_B2R. lra. }
      now apply N.
    + rewrite (Rlt_bool_false (B2R y)) by easy. apply Rlt_bool_false.
      rewrite <- round0. apply round_le; try typeclasses eauto. lra.
  - intros [E S]. apply B2SF_ovf in E. rewrite E.
    assert (K : (bpow radix2 128 <= Rabs (B2R x - B2R y))%R \/ (Rabs (B2R x - B2R y) < bpow radix2 128)%R) by lra.
    destruct (Rtotal_order (B2R x) (B2R y)) as [L|[L|L]].
    + rewrite (Rlt_bool_false (B2R y)) by lra.
      (* overflow with x < y: the sign of x is negative *)
      destruct (Bsign x) eqn:Sx; [easy|].
      exfalso. symmetry in S. apply negb_false_iff in S.
      assert (0 <= B2R x)%R. { destruct (Rlt_or_le (B2R x) 0) as [N|N]; [|easy]. apply Bsign_neg in N. congruence. }
      assert (B2R y <= 0)%R. { destruct (Rlt_or_le 0 (B2R y)) as [N|N]; [|easy]. apply Bsign_pos in N. congruence. }
      lra.
    + exfalso. rewrite L, Rminus_diag_eq, round0, Rabs_R0 in Ho by easy.
      pose proof (bpow_gt_0 radix2 128). lra.
    + rewrite (Rlt_bool_true (B2R y)) by lra.
      destruct (Bsign x) eqn:Sx; [|easy].
      exfalso. symmetry in S. apply negb_true_iff in S.
      assert (B2R x <= 0)%R. { destruct (Rlt_or_le 0 (B2R x)) as [N|N]; [|easy]. apply Bsign_pos in N. congruence. }
      assert (0 <= B2R y)%R. { destruct (Rlt_or_le (B2R y) 0) as [N|N]; [|easy]. apply Bsign_neg in N. congruence. }
      lra.
Qed.

Lemma f32_mul_nan (c d : f32) : is_finite_strict c = true -> is_nan d = false -> is_nan (Bmult mode_NE c d) = false.
Proof.
  intros Hc Hd. destruct d as [| | |]; try easy; destruct c; try easy.
  generalize (Bmult_correct 24 128 _ _ mode_NE (B754_finite s0 m0 e1 e2) (B754_finite s m e e0)).
  case Rlt_bool_spec; intros _.
  - intros [_ [F _]]. destruct (Bmult _ _ _); easy.
  - intro E. apply B2SF_ovf in E. now rewrite E.
Qed.

Lemma fval_zero s : fval (B754_zero s) = 0%R. Proof. easy. Qed.

Lemma fval_le_fin_cases (x y : f32) : is_finite y = true -> Bleb x y = true ->
  is_finite x = true \/ x = B754_infinity true.
Proof. destruct x as [|[]| |[]], y as [|[]| |[]]; try easy; auto. Qed.
Lemma fval_ge_fin_cases (x y : f32) : is_finite y = true -> Bleb y x = true ->
  is_finite x = true \/ x = B754_infinity false.
Proof. destruct x as [|[]| |[]], y as [|[]| |[]]; try easy; auto. Qed.

(* rounding with overflow to infinity, in terms of fval *)
Definition rnd32 (r : R) : R := round radix2 (SpecFloat.fexp 24 128) (round_mode mode_NE) r.
Definition sat32 (r : R) : R :=
  if Rlt_bool (Rabs (rnd32 r)) (bpow radix2 128) then rnd32 r
  else if Rlt_bool r 0 then (- bpow radix2 129)%R else bpow radix2 129.

Lemma rnd32_le x y : (x <= y)%R -> (rnd32 x <= rnd32 y)%R.
Proof. intro H. apply round_le; try typeclasses eauto. exact H. Qed.
Lemma rnd32_0 : rnd32 0 = 0%R.
Proof. apply round0. Qed.

Lemma sat32_le x y : (x <= y)%R -> (sat32 x <= sat32 y)%R.
Proof.
  intro H. pose proof (rnd32_le _ _ H) as Hr. pose proof bpow_128_129 as H129. pose proof (bpow_gt_0 radix2 128) as Hp.
  assert (Zx : (x < 0)%R -> (rnd32 x <= 0)%R) by (intro K; rewrite <- rnd32_0; apply rnd32_le; lra).
  assert (Zy : (y < 0)%R -> (rnd32 y <= 0)%R) by (intro K; rewrite <- rnd32_0; apply rnd32_le; lra).
  assert (Zx' : (0 <= x)%R -> (0 <= rnd32 x)%R) by (intro K; rewrite <- rnd32_0; apply rnd32_le; lra).
  assert (Zy' : (0 <= y)%R -> (0 <= rnd32 y)%R) by (intro K; rewrite <- rnd32_0; apply rnd32_le; lra).
  unfold sat32. case (Rlt_bool_spec (Rabs (rnd32 x))); intros Hx; case (Rlt_bool_spec (Rabs (rnd32 y))); intros Hy.
  - lra.
  - apply Rabs_lt_inv in Hx. case Rlt_bool_spec; intros K; [|lra].
    specialize (Zy K). rewrite Rabs_left1 in Hy by lra. lra.
  - apply Rabs_lt_inv in Hy. case Rlt_bool_spec; intros K; [lra|].
    specialize (Zx' K). rewrite Rabs_pos_eq in Hx by lra. lra.
  - do 2 (case Rlt_bool_spec; intros ?); lra.
Qed.

Lemma fval_minus (x y : f32) : is_finite x = true -> is_finite y = true ->
  is_nan (Bminus mode_NE x y) = false /\ fval (Bminus mode_NE x y) = sat32 (B2R x - B2R y).
Proof.
  intros Fx Fy. generalize (Bminus_correct 24 128 _ _ mode_NE x y Fx Fy). unfold sat32, rnd32.
  case Rlt_bool_spec; intro Ho.
  - intros [E [F _]]. split; [now destruct (Bminus _ _ _)|]. rewrite fval_fin by easy. exact E.
  - intros [E S]. apply B2SF_ovf in E. rewrite E. split; [easy|].
    assert (NZ : (B2R x - B2R y <> 0)%R).
    { intro K. rewrite K, round0, Rabs_R0 in Ho. pose proof (bpow_gt_0 radix2 128). lra. }
    destruct (Bsign x) eqn:Sx.
    + symmetry in S. apply negb_true_iff in S.
      assert (B2R x <= 0)%R. { destruct (Rlt_or_le 0 (B2R x)) as [N|N]; [|easy]. apply Bsign_pos in N. congruence. }
      assert (0 <= B2R y)%R. { destruct (Rlt_or_le (B2R y) 0) as [N|N]; [|easy]. apply Bsign_neg in N. congruence. }
      rewrite Rlt_bool_true by lra. easy.
    + symmetry in S. apply negb_false_iff in S.
      assert (0 <= B2R x)%R. { destruct (Rlt_or_le (B2R x) 0) as [N|N]; [|easy]. apply Bsign_neg in N. congruence. }
      assert (B2R y <= 0)%R. { destruct (Rlt_or_le 0 (B2R y)) as [N|N]; [|easy]. apply Bsign_pos in N. congruence. }
      rewrite Rlt_bool_false by lra. easy.
Qed.

Lemma f32_sub_mono (x y o : f32) : is_finite o = true -> Bleb x y = true -> Bleb (Bminus mode_NE x o) (Bminus mode_NE y o) = true.
Proof.
  intros Fo H. destruct (is_finite x) eqn:Fx; destruct (is_finite y) eqn:Fy.
  - destruct (fval_minus x o Fx Fo) as [N1 E1]. destruct (fval_minus y o Fy Fo) as [N2 E2].
    rewrite Bleb_fval by easy. rewrite E1, E2. apply Rle_bool_true. apply sat32_le.
    rewrite Bleb_correct in H by easy. rewrite Rle_bool_true' in H. lra.
  - destruct (fval_minus x o Fx Fo) as [N1 E1].
    assert (y = B754_infinity false). { destruct x as [|[]| |[]], y as [|[]| |[]]; easy. } subst.
    assert (E : Bminus mode_NE (B754_infinity false) o = B754_infinity false) by (destruct o; easy). rewrite E.
    destruct (Bminus mode_NE x o) as [|[]| |[]]; easy.
  - destruct (fval_minus y o Fy Fo) as [N1 E1].
    assert (x = B754_infinity true). { destruct x as [|[]| |[]], y as [|[]| |[]]; easy. } subst.
    assert (E : Bminus mode_NE (B754_infinity true) o = B754_infinity true) by (destruct o; easy). rewrite E.
    destruct (Bminus mode_NE y o) as [|[]| |[]]; easy.
  - destruct x as [|[]| |[]], y as [|[]| |[]]; try easy; destruct o; easy.
Qed.

Lemma f32_sub_nan (x o : f32) : is_finite o = true -> is_nan (Bminus mode_NE x o) = is_nan x.
Proof.
  intros Fo. destruct (is_finite x) eqn:Fx.
  - destruct (fval_minus x o Fx Fo) as [N1 _]. rewrite N1. now destruct x.
  - destruct x as [|[]| |], o; easy.
Qed.

Lemma f32_eq_total (x y : f32) : is_nan x = false -> is_nan y = false -> Bltb x y = false -> Bltb y x = false -> Beqb x y = true.
Proof.
  intros Nx Ny H1 H2. rewrite Bltb_fval in H1, H2 by easy. rewrite Rlt_bool_false' in *.
  assert (L1 : Bleb x y = true) by (rewrite Bleb_fval by easy; now apply Rle_bool_true).
  assert (L2 : Bltb x y = false) by (rewrite Bltb_fval by easy; now apply Rlt_bool_false).
  unfold Beqb, Bleb, Bltb, SpecFloat.SFeqb, SpecFloat.SFleb, SpecFloat.SFltb in *.
  destruct (SpecFloat.SFcompare _ _) as [[]|]; easy.
Qed.

(* magnitudes below a power of two *)
Lemma rnd32_bound r e : (-149 <= e)%Z -> (Rabs r <= bpow radix2 e)%R -> (Rabs (rnd32 r) <= bpow radix2 e)%R.
Proof.
  intros He H. apply abs_round_le_generic; try typeclasses eauto; auto.
  apply generic_format_bpow. unfold SpecFloat.fexp, SpecFloat.emin. lia.
Qed.
Lemma Bminus_bound (x y : f32) e : (-149 <= e < 127)%Z -> is_finite x = true -> is_finite y = true ->
  (Rabs (B2R x) <= bpow radix2 e)%R -> (Rabs (B2R y) <= bpow radix2 e)%R ->
  is_finite (Bminus mode_NE x y) = true /\ (Rabs (B2R (Bminus mode_NE x y)) <= bpow radix2 (e + 1))%R.
Proof.
  intros He Fx Fy Bx By. assert (B : (Rabs (B2R x - B2R y) <= bpow radix2 (e + 1))%R).
  { rewrite bpow_plus. cbn [bpow Z.pow_pos Pos.iter]. apply Rabs_le_inv in Bx, By. apply Rabs_le. simpl (IZR _). lra. }
  apply rnd32_bound in B; [|lia]. unfold rnd32 in B.
  generalize (Bminus_correct 24 128 _ _ mode_NE x y Fx Fy). rewrite Rlt_bool_true.
  - intros [E [F _]]. split; auto. now rewrite E.
  - apply Rle_lt_trans with (1 := B). apply bpow_lt. lia.
Qed.
Lemma Bplus_bound (x y : f32) e : (-149 <= e < 127)%Z -> is_finite x = true -> is_finite y = true ->
  (Rabs (B2R x) <= bpow radix2 e)%R -> (Rabs (B2R y) <= bpow radix2 e)%R ->
  is_finite (Bplus mode_NE x y) = true /\ (Rabs (B2R (Bplus mode_NE x y)) <= bpow radix2 (e + 1))%R.
Proof.
  intros He Fx Fy Bx By. assert (B : (Rabs (B2R x + B2R y) <= bpow radix2 (e + 1))%R).
  { rewrite bpow_plus. cbn [bpow Z.pow_pos Pos.iter]. apply Rabs_le_inv in Bx, By. apply Rabs_le. simpl (IZR _). lra. }
  apply rnd32_bound in B; [|lia]. unfold rnd32 in B.
  generalize (Bplus_correct 24 128 _ _ mode_NE x y Fx Fy). rewrite Rlt_bool_true.
  - intros [E [F _]]. split; auto. now rewrite E.
  - apply Rle_lt_trans with (1 := B). apply bpow_lt. lia.
Qed.
Lemma Bmult_bound (x y : f32) e f : (-149 <= e + f < 128)%Z -> is_finite x = true -> is_finite y = true ->
  (Rabs (B2R x) <= bpow radix2 e)%R -> (Rabs (B2R y) <= bpow radix2 f)%R ->
  is_finite (Bmult mode_NE x y) = true /\ (Rabs (B2R (Bmult mode_NE x y)) <= bpow radix2 (e + f))%R.
Proof.
  intros He Fx Fy Bx By. assert (B : (Rabs (B2R x * B2R y) <= bpow radix2 (e + f))%R).
  { rewrite bpow_plus, Rabs_mult. apply Rmult_le_compat; auto using Rabs_pos. }
  apply rnd32_bound in B; [|lia]. unfold rnd32 in B.
  generalize (Bmult_correct 24 128 _ _ mode_NE x y). rewrite Rlt_bool_true.
  - intros [E [F _]]. rewrite F, Fx, Fy. split; auto. now rewrite E.
  - apply Rle_lt_trans with (1 := B). apply bpow_lt. lia.
Qed.

Lemma f32_small_range (x : f32) : Bleb (f32_ofZ (-2^124)) x = true -> Bleb x (f32_ofZ (2^124)) = true ->
  is_finite x = true /\ (Rabs (B2R x) <= bpow radix2 124)%R.
Proof.
  intros H1 H2. pose proof (Bleb_nan _ _ H1) as [_ N].
  assert (F1 : is_finite (f32_ofZ (-2^124)) = true) by (vm_compute; reflexivity).
  assert (F2 : is_finite (f32_ofZ (2^124)) = true) by (vm_compute; reflexivity).
  assert (E1 : B2SF (f32_ofZ (-2^124)) = SpecFloat.S754_finite true 8388608 101) by (vm_compute; reflexivity).
  assert (E2 : B2SF (f32_ofZ (2^124)) = SpecFloat.S754_finite false 8388608 101) by (vm_compute; reflexivity).
  assert (R1 : B2R (f32_ofZ (-2^124)) = (- bpow radix2 124)%R).
  { rewrite <- SF2R_B2SF, E1. cbn [SF2R cond_Zopp]. change (Z.neg 8388608) with (Z.opp (Zpower radix2 23)). rewrite F2R_Zopp. f_equal. unfold F2R. cbn [Fnum Fexp].
    change (IZR (Z.pos 8388608)) with (IZR (Zpower radix2 23)).  rewrite IZR_Zpower by lia. rewrite <- bpow_plus. reflexivity. }
  assert (R2 : B2R (f32_ofZ (2^124)) = bpow radix2 124).
  { rewrite <- SF2R_B2SF, E2. cbn [SF2R cond_Zopp]. unfold F2R. cbn [Fnum Fexp]. change (IZR (Z.pos 8388608)) with (IZR (Zpower radix2 23)).
    rewrite IZR_Zpower by lia. rewrite <- bpow_plus. reflexivity. }
  assert (F : is_finite x = true).
  { destruct (fval_le_fin_cases _ _ F2 H2) as [F| ->]; auto. }
  split; auto. rewrite Bleb_correct in H1, H2 by easy. rewrite Rle_bool_true' in *. rewrite R1 in H1. rewrite R2 in H2. apply Rabs_le. lra.
Qed.

Lemma f32_max : is_finite (B2_MAX_FLOAT : f32) = true /\ (bpow radix2 127 < B2R (B2_MAX_FLOAT : f32))%R.
Proof.
  split; [vm_compute; reflexivity|].
  assert (E : B2SF (B2_MAX_FLOAT : f32) = SpecFloat.S754_finite false 16777215 104) by (vm_compute; reflexivity).
  rewrite <- SF2R_B2SF, E. cbn [SF2R cond_Zopp]. unfold F2R. cbn [Fnum Fexp].
  replace (bpow radix2 127) with (bpow radix2 23 * bpow radix2 104)%R by (rewrite <- bpow_plus; reflexivity).
  apply Rmult_lt_compat_r; [apply bpow_gt_0|]. rewrite <- IZR_Zpower by lia. apply IZR_lt. vm_compute. reflexivity.
Qed.

#[global] Instance F32_NumOrd : NumOrd f32.
Proof.
  refine {| nok := fun x => is_nan x = false; nfin := fun x => is_finite x = true |};
    cbn [nle nlt nofZ nadd nsub nmul F32_Num];
    change (f32_ofZ 0) with (@B754_zero 24 128 false).
  - intros x. now destruct x.
  - apply Bleb_nan.
  - intros x Hx. rewrite Bleb_fval by easy. apply Rle_bool_true. lra.
  - intros x y z H1 H2. pose proof (Bleb_nan _ _ H1) as [? ?]. pose proof (Bleb_nan _ _ H2) as [? ?].
    rewrite Bleb_fval in * by easy. rewrite Rle_bool_true' in *. lra.
  - intros x y Hx Hy. rewrite Bleb_fval, Bltb_fval by easy.
    case Rle_bool_spec; intro; simpl. apply Rlt_bool_false; lra. apply Rlt_bool_true; lra.
  - apply Bltb_nan.
  - apply f32_sub_pos.
  - easy.
  - intros x y d Fy Hxy Hd. destruct (fval_le_fin_cases _ _ Fy Hxy) as [Fx | ->].
    + pose proof (Bleb_nan _ _ Hd) as [Nd _].
      assert (F0 : is_finite (B754_zero false : f32) = true) by easy.
      destruct (fval_le_fin_cases _ _ F0 Hd) as [Fd | ->].
      * rewrite Bleb_correct in Hd by easy. rewrite Rle_bool_true' in Hd.
        destruct (Bplus_down x d Fx Fd Hd) as [N L].
        rewrite Bleb_fval by (destruct x; easy). now apply Rle_bool_true.
      * destruct x as [|[]| |[]]; easy.
    + destruct d as [|[]| |[]]; easy.
  - intros x y d Fy Hxy Hd. destruct (fval_ge_fin_cases _ _ Fy Hxy) as [Fx | ->].
    + pose proof (Bleb_nan _ _ Hd) as [_ Nd].
      assert (F0 : is_finite (B754_zero false : f32) = true) by easy.
      destruct (fval_ge_fin_cases _ _ F0 Hd) as [Fd | ->].
      * rewrite Bleb_correct in Hd by easy. rewrite Rle_bool_true' in Hd.
        destruct (Bplus_up x d Fx Fd Hd) as [N L].
        rewrite Bleb_fval by (destruct x; easy). now apply Rle_bool_true.
      * destruct x as [|[]| |[]]; easy.
    + destruct d as [|[]| |[]]; easy.
  - intros x y d Fy Hxy Hd. rewrite Bminus_Bplus. destruct (fval_le_fin_cases _ _ Fy Hxy) as [Fx | ->].
    + pose proof (Bleb_nan _ _ Hd) as [_ Nd].
      assert (F0 : is_finite (B754_zero false : f32) = true) by easy.
      destruct (fval_ge_fin_cases _ _ F0 Hd) as [Fd | ->].
      * rewrite Bleb_correct in Hd by easy. rewrite Rle_bool_true' in Hd. cbn [B2R] in Hd.
        assert (Hd' : (B2R (Bopp d) <= 0)%R) by (rewrite B2R_Bopp; lra).
        assert (Fd' : is_finite (Bopp d) = true) by (now rewrite is_finite_Bopp).
        destruct (Bplus_down x (Bopp d) Fx Fd' Hd') as [N L].
        rewrite Bleb_fval by (destruct x; easy). now apply Rle_bool_true.
      * destruct x as [|[]| |[]]; easy.
    + destruct d as [|[]| |[]]; easy.
  - intros c d Fc Hc Hd. apply f32_mul_nan; [|easy]. destruct c as [|[]| |[]]; easy.
  - intros x Hx. cbn [neqb F32_Num]. rewrite Beqb_refl. now rewrite Hx.
  - intros x y. cbn [neqb F32_Num]. apply f32_eq_total.
  - intros x y o. apply f32_sub_mono.
  - intros x o Fo. rewrite f32_sub_nan by easy. tauto.
  - intros x y Hx Hy. rewrite !Bleb_fval by easy. rewrite !Rle_bool_true'. destruct (Rle_or_lt (fval x) (fval y)); [left|right]; lra.
  - intros lx ly ux uy A1 A2 A3 A4 B1 B2 B3 B4.
    destruct (f32_small_range lx A1 B1) as [C1 D1]. destruct (f32_small_range ly A2 B2) as [C2 D2].
    destruct (f32_small_range ux A3 B3) as [C3 D3]. destruct (f32_small_range uy A4 B4) as [C4 D4].
    destruct (Bminus_bound ux lx 124 ltac:(lia) C3 C1 D3 D1) as [E1 G1].
    destruct (Bminus_bound uy ly 124 ltac:(lia) C4 C2 D4 D2) as [E2 G2].
    destruct (Bplus_bound _ _ (124 + 1) ltac:(lia) E1 E2 G1 G2) as [E3 G3].
    assert (F2 : is_finite (f32_ofZ 2) = true) by (vm_compute; reflexivity).
    assert (R2 : (Rabs (B2R (f32_ofZ 2)) <= bpow radix2 1)%R).
    { assert (K : B2SF (f32_ofZ 2) = SpecFloat.S754_finite false 8388608 (-22)) by (vm_compute; reflexivity).
      rewrite <- SF2R_B2SF, K. cbn [SF2R cond_Zopp]. unfold F2R. cbn [Fnum Fexp]. change (IZR (Z.pos 8388608)) with (IZR (Zpower radix2 23)).
      rewrite IZR_Zpower by lia. rewrite <- bpow_plus. rewrite Rabs_pos_eq by apply bpow_ge_0. apply Rle_refl. }
    destruct (Bmult_bound _ _ 1 (124 + 1 + 1) ltac:(lia) F2 E3 R2 G3) as [E4 G4].
    destruct f32_max as [E5 G5]. rewrite Bltb_correct by easy. apply Rlt_bool_true.
    apply Rabs_le_inv in G4. change (1 + (124 + 1 + 1))%Z with 127%Z in G4. exact (Rle_lt_trans _ _ _ (proj2 G4) G5).
Defined.
