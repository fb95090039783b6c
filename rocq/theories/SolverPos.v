(** Position correction and the motion of a step, in exact real arithmetic. *)
From Coq Require Import List ZArith Bool Arith Reals Lia Lra.
From Flocq Require Import Core.
From Verif Require Import Base Num NumLaws Math RTac Manifold ListFacts DynModel SolverModel IslandModel SolverSpec SolverProofs SolverReal SolverLcp.
Import ListNotations.
Local Open Scope R_scope.

Lemma correction_clamp (x : R) : 0 <= - b2_clamp x (- B2_MAX_LINEAR_CORRECTION) (nofZ 0) <= B2_MAX_LINEAR_CORRECTION /\ (0 <= x -> b2_clamp x (- B2_MAX_LINEAR_CORRECTION) (nofZ 0) = 0).
Proof.
  unfold b2_clamp. rewrite b2_max_R, b2_min_R. unfold B2_MAX_LINEAR_CORRECTION, B2_LENGTH_UNITS_PER_METER, nlit. rops. unfold Rmin, Rmax. split; [split|]; intros; repeat match goal with |- context [Rle_dec ?a ?b] => destruct (Rle_dec a b) end; try lra. destruct (Rle_dec x 0); lra.
Qed.
Section Point.
  Context {TT : NumTrig R}.
  Variables (k ma mb ia ib : R) (pc : pcon R) (j : nat) (mn : R) (pa pb : pos R) (mn' : R) (pa' pb' : pos R) (n point : vec2 R) (sep : R).
  Hypothesis Psm : psm_initialize pc (center_xf (p_c pa) (p_a pa) (pc_ca pc)) (center_xf (p_c pb) (p_a pb) (pc_cb pc)) j = Ok (n, point, sep).
  Hypothesis Run : position_point k ma mb ia ib pc j (mn, pa, pb) = Ok (mn', pa', pb').
  Lemma point_opening : 0 <= ma -> 0 <= mb -> 0 <= ia -> 0 <= ib -> vx n * vx n + vy n * vy n <= 1 -> 0 <= opening n point pa pb pa' pb' <= B2_MAX_LINEAR_CORRECTION.
  Proof.
    intros A B C D U. unfold position_point in Run. rewrite Psm in Run. cbn [bind] in Run. cbv zeta in Run. destruct (correction_clamp (k * (sep + B2_LINEAR_SLOP))) as [Cl _]. change (nadd sep B2_LINEAR_SLOP) with (sep + B2_LINEAR_SLOP) in Run. change (nmul k (sep + B2_LINEAR_SLOP)) with (k * (sep + B2_LINEAR_SLOP)) in Run.
    change (nneg B2_MAX_LINEAR_CORRECTION) with (- (B2_MAX_LINEAR_CORRECTION : R)) in Run. set (cl := b2_clamp _ _ _) in *. clearbody cl. set (ra := vsub point (p_c pa)) in *. set (rb := vsub point (p_c pb)) in *.
    set (kk := nadd _ _) in Run. set (imp := if nlt _ _ then _ else _) in Run. injection Run as _ <- <-.
    assert (O : opening n point pa pb (Pos (vsub (p_c pa) (vscale ma (vscale imp n))) (p_a pa - ia * b2_cross ra (vscale imp n))) (Pos (vadd (p_c pb) (vscale mb (vscale imp n))) (p_a pb + ib * b2_cross rb (vscale imp n))) =
      imp * ((ma + mb) * (vx n * vx n + vy n * vy n) + ia * (b2_cross ra n * b2_cross ra n) + ib * (b2_cross rb n * b2_cross rb n))). { unfold opening. cbn [p_c p_a]. subst ra rb. rmathc. ring. }
    match type of O with ?l = _ => change (0 <= l <= B2_MAX_LINEAR_CORRECTION) end. rewrite O. clear O.
    set (sa := b2_cross ra n) in *. set (sb := b2_cross rb n) in *. assert (Kk : kk = ma + mb + ia * (sa * sa) + ib * (sb * sb)) by (subst kk; rops; ring). assert (Sa : 0 <= ia * (sa * sa)) by (apply Rmult_le_pos; [auto|apply Rle_0_sqr]). assert (Sb : 0 <= ib * (sb * sb)) by (apply Rmult_le_pos; [auto|apply Rle_0_sqr]).
    set (q := vx n * vx n + vy n * vy n) in *. assert (Q : 0 <= q) by (subst q; nra). set (e := (ma + mb) * q + ia * (sa * sa) + ib * (sb * sb)). assert (E0 : 0 <= e) by (subst e; assert (0 <= (ma + mb) * q) by (apply Rmult_le_pos; lra); lra). assert (E1 : e <= kk) by (rewrite Kk; subst e; assert ((ma + mb) * q <= (ma + mb) * 1) by (apply Rmult_le_compat_l; lra); lra).
    subst imp. rops. destruct (Rlt_bool_spec 0 kk) as [L|L].
    - assert (I : 0 < / kk) by now apply Rinv_0_lt_compat. assert (0 <= - cl / kk) by (apply Rmult_le_pos; lra). split; [apply Rmult_le_pos; auto|]. apply Rle_trans with (- cl / kk * kk); [apply Rmult_le_compat_l; auto|]. replace (- cl / kk * kk) with (- cl) by (field; lra). lra.
    - rewrite Rmult_0_l. lra.
  Qed.
  Lemma point_rest : 0 <= k -> - B2_LINEAR_SLOP <= sep -> pa' = pa /\ pb' = pb /\ mn' = Rmin mn sep.
  Proof.
    intros K S. unfold position_point in Run. rewrite Psm in Run. cbn [bind] in Run. cbv zeta in Run. destruct (correction_clamp (k * (sep + B2_LINEAR_SLOP))) as [_ Cl]. change (nadd sep B2_LINEAR_SLOP) with (sep + B2_LINEAR_SLOP) in Run. change (nmul k (sep + B2_LINEAR_SLOP)) with (k * (sep + B2_LINEAR_SLOP)) in Run.
    change (nneg B2_MAX_LINEAR_CORRECTION) with (- (B2_MAX_LINEAR_CORRECTION : R)) in Run. rewrite Cl in Run by (apply Rmult_le_pos; lra). rewrite b2_min_R in Run. set (kk := nadd _ _) in Run. set (imp := if nlt _ _ then _ else _) in Run. assert (I : imp = 0) by (subst imp; rops; destruct (Rlt_bool_spec 0 kk); [field; lra|reflexivity]). injection Run as <- <- <-. rewrite I.
    split; [|split; [|reflexivity]]; [destruct pa as [[x y] a]|destruct pb as [[x y] a]]; f_equal; try apply vec2_ext; rmathc; cbn [p_c p_a]; rops; ring.
  Qed.
End Point.
(* the normal is not longer than one *)
Lemma normalize_le (a : vec2 R) : let n := snd (vnormalize a) in vx n * vx n + vy n * vy n <= 1.
Proof.
  cbv zeta. unfold vnormalize, vlen. rops. set (d := vx a * vx a + vy a * vy a) in *. assert (D : 0 <= d) by (subst d; nra). assert (S : sqrt d * sqrt d = d) by (apply sqrt_sqrt; lra). pose proof (sqrt_pos d) as P. pose proof eps_pos as E.
  destruct (Rlt_bool_spec (sqrt d) B2_EPSILON) as [L|L]; cbn [snd]; rops.
  - assert (B2_EPSILON < 1) by (unfold B2_EPSILON, nlit; rops; lra). assert (sqrt d * sqrt d <= 1) by nra. fold d. lra.
  - replace (vx a * (1 / sqrt d) * (vx a * (1 / sqrt d)) + vy a * (1 / sqrt d) * (vy a * (1 / sqrt d))) with (d / (sqrt d * sqrt d)) by (subst d; field; lra). rewrite S. right. field. nra.
Qed.
Lemma psm_normal (pc : pcon R) xa xb j n point sep : good_rot (xq xa) -> good_rot (xq xb) -> (pc_type pc <> MCircles -> unit_normal (pc_lnormal pc)) -> psm_initialize pc xa xb j = Ok (n, point, sep) -> vx n * vx n + vy n * vy n <= 1.
Proof.
  intros A B U. unfold psm_initialize. destruct (b2_assert _); try discriminate. cbn [bind]. destruct (pc_type pc).
  - destruct (get _ _) as [l| |]; try discriminate. cbn [bind]. intros H. assert (n = snd (vnormalize (vsub (xfv xb l) (xfv xa (pc_lpoint pc))))) as -> by congruence. apply normalize_le.
  - destruct (get _ _) as [l| |]; try discriminate. cbn [bind]. intros H. assert (n = rotv (xq xa) (pc_lnormal pc)) as -> by congruence. right. apply rot_unit; auto. apply U. discriminate.
  - destruct (get _ _) as [l| |]; try discriminate. cbn [bind]. intros H. assert (n = vneg (rotv (xq xb) (pc_lnormal pc))) as -> by congruence. assert (Q : unit_normal (rotv (xq xb) (pc_lnormal pc))) by (apply rot_unit; auto; apply U; discriminate). revert Q. unfold unit_normal. rmathc. intros Q. right. rewrite <- Q. ring.
Qed.

(** ** contacts that are not too deep stay where they are *)
Lemma upd_same {A} (l : list A) i a : nth_error l i = Some a -> upd l i a = l.
Proof. revert i. induction l as [|b l IH]; intros [|i] H; cbn in *; try congruence. f_equal. auto. Qed.
Lemma zset_same {A} (l : list A) i a : zget l i = Ok a -> zset l i a = Ok l.
Proof. unfold zget, zset. destruct (i <? 0)%Z; [discriminate|]. unfold get, set. destruct (nth_error l (Z.to_nat i)) as [b|] eqn:N; [|discriminate]. intros H. injection H as ->. assert (L : (Z.to_nat i < length l)%nat) by (apply nth_error_Some; congruence). apply Nat.ltb_lt in L. rewrite ?L. f_equal. now apply upd_same. Qed.
Section Rest.
  Context {TT : NumTrig R}.
  Definition resting (poss : list (pos R)) (pc : pcon R) : Prop := exists pa pb, zget poss (pc_a pc) = Ok pa /\ zget poss (pc_b pc) = Ok pb /\
    forall j, (j < pc_count pc)%nat -> exists n point sep, psm_initialize pc (center_xf (p_c pa) (p_a pa) (pc_ca pc)) (center_xf (p_c pb) (p_a pb) (pc_cb pc)) j = Ok (n, point, sep) /\ - B2_LINEAR_SLOP <= sep.
  Lemma slop_pos : 0 < (B2_LINEAR_SLOP : R).
  Proof. unfold B2_LINEAR_SLOP, B2_LENGTH_UNITS_PER_METER, nlit. rops. lra. Qed.
  Lemma point_runs k ma mb ia ib pc j mn pa pb n point sep : psm_initialize pc (center_xf (p_c pa) (p_a pa) (pc_ca pc)) (center_xf (p_c pb) (p_a pb) (pc_cb pc)) j = Ok (n, point, sep) -> exists r, position_point k ma mb ia ib pc j (mn, pa, pb) = Ok r.
  Proof. intros H. unfold position_point. rewrite H. cbn [bind]. eauto. Qed.
  Lemma constraint_rest k ma mb ia ib pc mn poss : 0 <= k -> - B2_LINEAR_SLOP <= mn -> resting poss pc -> exists mn', position_constraint k ma mb ia ib pc (mn, poss) = Ok (mn', poss) /\ - B2_LINEAR_SLOP <= mn'.
  Proof.
    intros K M (pa & pb & Ga & Gb & H). unfold position_constraint. rewrite Ga, Gb. cbn [bind].
    assert (F : forall n lo mn, (lo + n <= pc_count pc)%nat -> - B2_LINEAR_SLOP <= mn -> exists mn', for_from n lo (position_point k ma mb ia ib pc) (mn, pa, pb) = Ok (mn', pa, pb) /\ - B2_LINEAR_SLOP <= mn').
    { clear mn M. induction n as [|n IH]; intros lo mn L M; cbn [for_from]; [eauto|]. destruct (H lo) as (nn & point & sep & P & S); [lia|]. destruct (point_runs k ma mb ia ib pc lo mn pa pb nn point sep P) as ([[mn1 pa1] pb1] & E).
      destruct (point_rest k ma mb ia ib pc lo mn pa pb mn1 pa1 pb1 nn point sep P E K S) as (-> & -> & ->). rewrite E. cbn [bind]. apply IH; [lia|]. unfold Rmin. destruct (Rle_dec mn sep); lra. }
    unfold for_range. destruct (F (pc_count pc - 0)%nat 0%nat mn) as (mn' & -> & M'); [lia|auto|]. cbn [bind]. rewrite (zset_same _ _ _ Ga). cbn [bind]. rewrite (zset_same _ _ _ Gb). cbn [bind]. eauto.
  Qed.
  Theorem positions_rest pcs poss : Forall (resting poss) pcs -> solve_positions pcs poss = Ok (poss, true).
  Proof.
    intros H. unfold solve_positions.
    assert (F : forall mn, - B2_LINEAR_SLOP <= mn -> exists l mn', each_item (fun pc st => st <- position_constraint B2_BAUMGARTE (pc_ma pc) (pc_mb pc) (pc_ia pc) (pc_ib pc) pc st ;; Ok (pc, st)) pcs (mn, poss) = Ok (l, (mn', poss)) /\ - B2_LINEAR_SLOP <= mn').
    { induction H as [|pc pcs Hp H IH]; intros mn M; cbn [each_item]; [eauto|]. destruct (constraint_rest B2_BAUMGARTE (pc_ma pc) (pc_mb pc) (pc_ia pc) (pc_ib pc) pc mn poss) as (mn1 & E & M1); auto. { unfold B2_BAUMGARTE, nlit. rops. lra. }
      rewrite E. cbn [bind]. destruct (IH mn1 M1) as (l & mn' & -> & M'). cbn [bind]. eauto. }
    pose proof slop_pos as S. destruct (F 0) as (l & mn' & E & M'); [lra|]. change (nofZ 0) with 0. rewrite E. cbn [bind]. do 2 f_equal. rops. apply Rle_bool_true. lra.
  Qed.
End Rest.

(** ** the motion of one step *)
Lemma sq_le (a b : R) : 0 <= b -> a * a <= b * b -> a <= b.
Proof. intros. nra. Qed.
Theorem motion_capped (h : R) (p : pos R) (v : vel R) : let p' := fst (integrate_position h p v) in
  sqrt ((vx (p_c p') - vx (p_c p)) * (vx (p_c p') - vx (p_c p)) + (vy (p_c p') - vy (p_c p)) * (vy (p_c p') - vy (p_c p))) <= B2_MAX_TRANSLATION /\ Rabs (p_a p' - p_a p) <= B2_MAX_ROTATION.
Proof.
  cbv zeta. unfold integrate_position, cap_velocity, move. cbv zeta. cbn [fst p_c p_a v_v v_w]. destruct v as [[x y] w], p as [[cx cy] a]. cbn [v_v v_w p_c p_a]. split.
  - assert (M : 0 < (B2_MAX_TRANSLATION : R)) by (unfold B2_MAX_TRANSLATION, B2_LENGTH_UNITS_PER_METER; rops; lra). unfold B2_MAX_TRANSLATION_SQUARED, vlen. set (mx := B2_MAX_TRANSLATION) in *. clearbody mx. rmathc.
    set (t := h * x * (h * x) + h * y * (h * y)). assert (T : 0 <= t) by (subst t; nra). destruct (Rlt_bool_spec (mx * mx) t) as [L|L]; cbn [vx vy].
    + assert (S : sqrt t * sqrt t = t) by (apply sqrt_sqrt; lra). assert (P : 0 < sqrt t) by (apply sqrt_lt_R0; nra).
      match goal with |- sqrt ?e <= _ => replace e with (mx * mx) end; [rewrite sqrt_square; lra|]. transitivity (t / (sqrt t * sqrt t) * (mx * mx)); [rewrite S; field; nra|]. subst t. field. lra.
    + rewrite <- (sqrt_square mx) by lra. apply sqrt_le_1_alt. replace ((cx + h * x - cx) * (cx + h * x - cx) + (cy + h * y - cy) * (cy + h * y - cy)) with t by (subst t; ring). exact L.
  - assert (M : 0 < (B2_MAX_ROTATION : R)) by (unfold B2_MAX_ROTATION, nlit; rops; pose proof PI_RGT_0; lra). unfold B2_MAX_ROTATION_SQUARED. set (mx := B2_MAX_ROTATION) in *. clearbody mx. rops. set (r := h * w). destruct (Rlt_bool_spec (mx * mx) (r * r)) as [L|L].
    + assert (A : 0 < Rabs r) by (apply Rabs_pos_lt; intros Z; rewrite Z in L; nra). replace (a + h * (w * (mx / Rabs r)) - a) with (r * (mx / Rabs r)) by (subst r; field; lra). rewrite Rabs_mult, (Rabs_pos_eq (mx / Rabs r)) by (apply Rlt_le, Rdiv_lt_0_compat; lra). right. field. lra.
    + replace (a + h * w - a) with r by (subst r; ring). apply sq_le; [lra|]. rewrite <- Rabs_mult. rewrite Rabs_pos_eq by nra. exact L.
Qed.
Theorem correction_bounded (k ma mb ia ib : R) (pc : pcon R) (j : nat) (mn : R) (pa pb : pos R) mn' pa' pb' n point sep :
  psm_initialize pc (center_xf (p_c pa) (p_a pa) (pc_ca pc)) (center_xf (p_c pb) (p_a pb) (pc_cb pc)) j = Ok (n, point, sep) ->
  position_point k ma mb ia ib pc j (mn, pa, pb) = Ok (mn', pa', pb') -> (pc_type pc <> MCircles -> unit_normal (pc_lnormal pc)) -> 0 <= ma -> 0 <= mb -> 0 <= ia -> 0 <= ib ->
  0 <= opening n point pa pb pa' pb' <= B2_MAX_LINEAR_CORRECTION.
Proof.
  intros P H U A B C D. eapply point_opening; eauto. eapply psm_normal; [| |exact U|exact P]; apply rot_of_good.
Qed.
