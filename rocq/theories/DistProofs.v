(** The simplex solvers, in exact real arithmetic. *)
From Coq Require Import List ZArith Bool Arith Reals Lia Lra.
From Flocq Require Import Core.
From Verif Require Import Base Num NumLaws Math RTac ShapeModel DynModel DistModel GeomSpec DistSpec.
Import ListNotations.
Local Open Scope R_scope.

(** ** hulls *)
Lemma mix_linear (u v c : R) ws ps : length ws = length ps ->
  u * vx (mix ws ps) + v * vy (mix ws ps) + c * total ws = total (map (fun wp => fst wp * (u * vx (snd wp) + v * vy (snd wp) + c)) (combine ws ps)).
Proof.
  revert ps. induction ws as [|w ws IH]; intros [|p ps] L; cbn in L; try discriminate; cbn [mix total combine map fst snd vx vy].
  - ring.
  - injection L as L. rewrite <- (IH ps L). ring.
Qed.
Lemma total_nonneg l : Forall (fun x => 0 <= x) l -> 0 <= total l.
Proof. induction 1; cbn; lra. Qed.
Lemma hull_affine ps q u v c : (forall p, In p ps -> 0 <= u * vx p + v * vy p + c) -> hull ps q -> 0 <= u * vx q + v * vy q + c.
Proof.
  intros H (ws & L & (W & S) & ->).
  assert (E := mix_linear u v c ws ps L). rewrite S in E.
  assert (0 <= total (map (fun wp => fst wp * (u * vx (snd wp) + v * vy (snd wp) + c)) (combine ws ps))); [|lra].
  apply total_nonneg. clear E S. revert ps L H. induction W as [|w ws Hw W IH]; intros [|p ps] L H; cbn in L; try discriminate; cbn.
  - constructor.
  - constructor.
    + cbn. apply Rmult_le_pos; [exact Hw|apply H; now left].
    + injection L as L. apply IH; [exact L|]. intros p' I. apply H. now right.
Qed.
Lemma hull_incl ps qs q : (forall p, In p ps -> In p qs) -> hull ps q -> hull qs q.
Proof.
  intros I (ws & L & (W & S) & ->).
  assert (G : forall (ws : list R) ps, length ws = length ps -> Forall (fun w => 0 <= w) ws -> (forall p, In p ps -> In p qs) ->
    exists ws', length ws' = length qs /\ Forall (fun w => 0 <= w) ws' /\ total ws' = total ws /\ mix ws' qs = mix ws ps).
  { clear. induction ws as [|w ws IH]; intros [|p ps] L W I; cbn in L; try discriminate.
    - exists (map (fun _ => 0) qs). rewrite map_length.
      refine (conj eq_refl (conj _ (conj _ _))).
      + clear. induction qs; cbn; constructor; auto. lra.
      + clear. induction qs; cbn in *; lra.
      + clear. induction qs; cbn in *; [reflexivity|]. rewrite IHqs. apply vec2_ext; cbn; ring.
    - injection L as L. inversion W as [|? ? Hw W']; subst.
      destruct (IH ps L W' (fun p' i => I p' (or_intror i))) as (ws' & L' & W'' & T' & M').
      destruct (in_split p qs (I p (or_introl eq_refl))) as (q1 & q2 & E).
      assert (A : forall (l : list R) q1, length l = length (q1 ++ p :: q2) -> Forall (fun w => 0 <= w) l ->
        exists l', length l' = length (q1 ++ p :: q2) /\ Forall (fun w => 0 <= w) l' /\ total l' = w + total l /\
          vx (mix l' (q1 ++ p :: q2)) = w * vx p + vx (mix l (q1 ++ p :: q2)) /\ vy (mix l' (q1 ++ p :: q2)) = w * vy p + vy (mix l (q1 ++ p :: q2))).
      { clear - Hw. induction l as [|x l IHl]; intros q1 L W; [destruct q1; discriminate|].
        inversion W; subst. destruct q1 as [|y q1]; cbn in L |- *.
        - exists (w + x :: l). cbn. refine (conj _ (conj _ (conj _ (conj _ _)))); try lia; try ring. constructor; [lra|auto].
        - injection L as L. destruct (IHl q1 L H2) as (l' & L' & W' & T' & X' & Y').
          exists (x :: l'). cbn. rewrite T', X', Y'. refine (conj _ (conj _ (conj _ (conj _ _)))); try lia; try ring. constructor; auto. }
      rewrite E in L'. destruct (A ws' q1 L' W'') as (l' & L2 & W2 & T2 & X2 & Y2).
      exists l'. rewrite E. refine (conj L2 (conj W2 (conj _ _))).
      + rewrite T2, T'. cbn. reflexivity.
      + apply vec2_ext; cbn [mix vx vy]; rewrite ?X2, ?Y2, <- E, M'; reflexivity. }
  destruct (G ws ps L W I) as (ws' & L' & W' & T' & M'). exists ws'. refine (conj L' (conj (conj W' _) (eq_sym M'))). now rewrite T'.
Qed.

(* no corner is nearer in the direction of the point, so the point is the closest *)
Lemma closest_of ps q : hull ps q -> (forall p, In p ps -> vx q * vx q + vy q * vy q <= vx q * vx p + vy q * vy p) -> closest ps q.
Proof.
  intros H V. split; [exact H|]. intros q' H'.
  assert (0 <= vx q * vx q' + vy q * vy q' + - (vx q * vx q + vy q * vy q)).
  { apply hull_affine with (ps := ps); [|exact H']. intros p I. specialize (V p I). lra. }
  unfold dist2, origin. cbn.
  pose proof (Rle_0_sqr (vx q' - vx q)) as A. pose proof (Rle_0_sqr (vy q' - vy q)) as B. unfold Rsqr in *. nra.
Qed.

(** ** a solved simplex *)
Definition bary (s : simplex R) : list R := if Nat.eqb (sx_count s) 1 then [1] else weights s.
Record solved (s s' : simplex R) : Prop := {
  so_count : (1 <= sx_count s' <= 3)%nat;
  so_from : forall v, In v (used s') -> exists u, In u (used s) /\ same_vertex v u;
  so_pos : Forall (fun w => 0 < w) (bary s');
  so_total : total (bary s') = 1;
  so_vi : forall v, In v (used s) -> let p := mix (bary s') (corners s') in vx p * vx p + vy p * vy p <= vx p * vx (sv_w v) + vy p * vy (sv_w v);
  so_apart : sx_count s' = 2%nat -> sv_w (sx_0 s') <> sv_w (sx_1 s');
  so_inside : sx_count s' = 3%nat -> mix (bary s') (corners s') = origin;
  so_point : closest_point s' = Ok (mix (bary s') (corners s')) }.

Lemma solved_hull s s' : solved s s' -> hull (corners s') (mix (bary s') (corners s')).
Proof.
  intros S. exists (bary s'). refine (conj _ (conj (conj _ (so_total _ _ S)) eq_refl)).
  - destruct (so_count _ _ S) as [A B]. destruct s' as [v0 v1 v2 c]. unfold bary, corners, weights, used. cbn [sx_count sx_0 sx_1 sx_2] in *.
    destruct c as [|[|[|[|c]]]]; cbn; lia.
  - eapply Forall_impl; [|exact (so_pos _ _ S)]. intros a Ha. cbn in Ha. lra.
Qed.
Lemma solved_corners s s' : solved s s' -> forall p, In p (corners s') -> In p (corners s).
Proof.
  intros S p I. apply in_map_iff in I. destruct I as (v & <- & I). destruct (so_from _ _ S v I) as (u & I' & (_ & _ & -> & _)).
  apply in_map. exact I'.
Qed.
Lemma solved_closest s s' : solved s s' -> closest (corners s) (mix (bary s') (corners s')).
Proof.
  intros S. apply closest_of.
  - apply hull_incl with (ps := corners s'); [exact (solved_corners _ _ S)|exact (solved_hull _ _ S)].
  - intros p I. apply in_map_iff in I. destruct I as (v & <- & I). exact (so_vi _ _ S v I).
Qed.

Lemma same_refl {T} (v : svertex T) : same_vertex v v.
Proof. repeat split. Qed.
Lemma same_with {T} (v : svertex T) a : same_vertex (with_a v a) v.
Proof. repeat split. Qed.

(* the foot of the origin on a line *)
Lemma foot_R x1 y1 x2 y2 : let L := (x2 - x1) * (x2 - x1) + (y2 - y1) * (y2 - y1) in L <> 0 ->
  let c := x1 * y2 - x2 * y1 in
  let a := (x2 * (x2 - x1) + y2 * (y2 - y1)) * (1 / (x2 * (x2 - x1) + y2 * (y2 - y1) + - (x1 * (x2 - x1) + y1 * (y2 - y1)))) in
  let b := - (x1 * (x2 - x1) + y1 * (y2 - y1)) * (1 / (x2 * (x2 - x1) + y2 * (y2 - y1) + - (x1 * (x2 - x1) + y1 * (y2 - y1)))) in
  a + b = 1 /\ a * x1 + b * x2 = c * (y2 - y1) / L /\ a * y1 + b * y2 = - (c * (x2 - x1)) / L.
Proof.
  intros L N c a b.
  assert (EL : x2 * (x2 - x1) + y2 * (y2 - y1) + - (x1 * (x2 - x1) + y1 * (y2 - y1)) = L) by (unfold L; ring).
  unfold a, b. rewrite !EL. clearbody L. unfold Rdiv. rewrite !Rmult_1_l.
  refine (conj _ (conj _ _)).
  - replace ((x2 * (x2 - x1) + y2 * (y2 - y1)) * / L + - (x1 * (x2 - x1) + y1 * (y2 - y1)) * / L) with (L * / L) by (rewrite <- EL at 1; ring). now apply Rinv_r.
  - unfold c. ring.
  - unfold c. ring.
Qed.

(* the edge between two corners: both weights, the point, and a third corner that is not nearer *)
Lemma edge_R x1 y1 x2 y2 :
  let d1 := x2 * (x2 - x1) + y2 * (y2 - y1) in
  let d2 := - (x1 * (x2 - x1) + y1 * (y2 - y1)) in
  0 < d1 -> 0 < d2 ->
  let a := d1 * (1 / (d1 + d2)) in
  let b := d2 * (1 / (d1 + d2)) in
  let px := a * x1 + b * x2 in
  let py := a * y1 + b * y2 in
  0 < a /\ 0 < b /\ a + b = 1 /\ px * px + py * py = px * x1 + py * y1 /\ px * px + py * py = px * x2 + py * y2 /\ (x1 <> x2 \/ y1 <> y2) /\
  forall x3 y3, ((x2 - x1) * (y3 - y1) - (y2 - y1) * (x3 - x1)) * (x1 * y2 - y1 * x2) <= 0 -> px * px + py * py <= px * x3 + py * y3.
Proof.
  intros d1 d2 P1 P2 a b px py.
  set (L := (x2 - x1) * (x2 - x1) + (y2 - y1) * (y2 - y1)).
  assert (EL : d1 + d2 = L) by (unfold d1, d2, L; ring).
  assert (PL : 0 < L) by lra.
  destruct (foot_R x1 y1 x2 y2 ltac:(fold L; lra)) as (S & X & Y).
  fold L in X, Y. fold d1 d2 in S, X, Y. fold a b in S, X, Y. fold px in X. fold py in Y.
  assert (PI : 0 < 1 / (d1 + d2)) by (apply Rdiv_lt_0_compat; lra).
  set (c := x1 * y2 - x2 * y1) in *.
  assert (PP : px * px + py * py = c * c / L). { rewrite X, Y. unfold L. field. fold L. lra. }
  assert (Q : forall x y, px * x + py * y = c * ((y2 - y1) * x - (x2 - x1) * y) / L). { intros x y. rewrite X, Y. field. lra. }
  refine (conj _ (conj _ (conj S (conj _ (conj _ (conj _ _)))))).
  - unfold a. now apply Rmult_lt_0_compat.
  - unfold b. now apply Rmult_lt_0_compat.
  - rewrite PP, Q. f_equal. unfold c. ring.
  - rewrite PP, Q. f_equal. unfold c. ring.
  - destruct (Req_dec x1 x2) as [E|E]; [|now left]. right. intros E'. unfold L in PL. rewrite E, E' in PL. lra.
  - intros x3 y3 H. rewrite PP, Q. unfold Rdiv. apply Rmult_le_compat_r; [left; now apply Rinv_0_lt_compat|]. unfold c. unfold c in *. nra.
Qed.

Ltac slots := unfold bary, corners, weights, used in *; cbn [sx_count sx_0 sx_1 sx_2 firstn map Nat.eqb sv_a sv_w with_a] in *.
Ltac incases H := cbn [In] in H; repeat match type of H with _ \/ _ => destruct H as [H|H] end; try contradiction.

Lemma solve2_solved s : sx_count s = 2%nat -> solved s (solve2 s).
Proof.
  destruct s as [v0 v1 v2 c]. cbn. intros ->.
  unfold solve2. cbn [sx_0 sx_1 sx_2].
  destruct v0 as [wa0 wb0 w0 a0 ia0 ib0], v1 as [wa1 wb1 w1 a1 ia1 ib1].
  destruct w0 as [x1 y1], w1 as [x2 y2]. cbn [sv_w with_a sv_wa sv_wb sv_a sv_ia sv_ib].
  rmath.
  rcase; [|rcase].
  - constructor; slots; [lia|..].
    + intros v I. incases I. subst v. eexists. split; [now left|repeat split].
    + constructor; [lra|constructor].
    + cbn; lra.
    + intros v I. cbn. incases I; subst v; cbn; lra.
    + discriminate.
    + discriminate.
    + unfold closest_point. cbn. f_equal. f_equal; ring.
  - constructor; slots; [lia|..].
    + intros v I. incases I. subst v. eexists. split; [right; now left|repeat split].
    + constructor; [lra|constructor].
    + cbn; lra.
    + intros v I. cbn. incases I; subst v; cbn; lra.
    + discriminate.
    + discriminate.
    + unfold closest_point. cbn. f_equal. f_equal; ring.
  - destruct (edge_R x1 y1 x2 y2 ltac:(lra) ltac:(lra)) as (PA & PB & S & E1 & E2 & N & _).
    constructor; slots; [lia|..].
    + intros v I. incases I; subst v; eexists; (split; [|apply same_with]); cbn; auto.
    + constructor; [exact PA|constructor; [exact PB|constructor]].
    + cbn. lra.
    + intros v I. cbn. incases I; subst v; cbn; lra.
    + cbn. intros _ E. injection E as A B. now destruct N.
    + discriminate.
    + unfold closest_point. cbn. unfold vadd, vscale. cbn. f_equal. f_equal; ring.
Qed.

(* the regions of a triangle: what is left is its inside *)
Lemma inside_R (a12 a21 a13 a31 a23 a32 D1 D2 D3 q1 q2 q3 g12 g13 g23 : R) :
  a12 = g12 - q1 -> a21 = g12 - q2 -> a13 = g13 - q1 -> a31 = g13 - q3 -> a23 = g23 - q2 -> a32 = g23 - q3 ->
  0 <= q1 -> 0 <= q2 -> 0 <= q3 ->
  (q1 = 0 -> a12 = 0 /\ a13 = 0) -> (q2 = 0 -> a21 = 0 /\ a23 = 0) -> (q3 = 0 -> a31 = 0 /\ a32 = 0) ->
  D2 * a12 + D3 * a13 = - ((D1 + D2 + D3) * q1) -> D1 * a21 + D3 * a23 = - ((D1 + D2 + D3) * q2) -> D1 * a31 + D2 * a32 = - ((D1 + D2 + D3) * q3) ->
  0 <= D1 + D2 + D3 -> (D1 + D2 + D3 = 0 -> D1 = 0 /\ D2 = 0 /\ D3 = 0) ->
  ~ (0 <= a12 /\ 0 <= a13) -> ~ (a21 < 0 /\ a12 < 0 /\ D3 <= 0) -> ~ (a31 < 0 /\ a13 < 0 /\ D2 <= 0) ->
  ~ (0 <= a21 /\ 0 <= a23) -> ~ (0 <= a31 /\ 0 <= a32) -> ~ (a32 < 0 /\ a23 < 0 /\ D1 <= 0) -> 0 < D3.
Proof.
  intros A12 A21 A13 A31 A23 A32 Q1 Q2 Q3 Z1 Z2 Z3 I1 I2 I3 N Nz W1 E12 E13 W2 W3 E23.
  apply Rnot_le_lt. intros H3.
  assert (S1 : a12 < 0 \/ a13 < 0) by (destruct (Rlt_dec a12 0), (Rlt_dec a13 0); auto; exfalso; apply W1; lra).
  assert (S2 : a21 < 0 \/ a23 < 0) by (destruct (Rlt_dec a21 0), (Rlt_dec a23 0); auto; exfalso; apply W2; lra).
  assert (S3 : a31 < 0 \/ a32 < 0) by (destruct (Rlt_dec a31 0), (Rlt_dec a32 0); auto; exfalso; apply W3; lra).
  destruct (Req_dec (D1 + D2 + D3) 0) as [Z|Z].
  { destruct (Nz Z) as (z1 & z2 & z3).
    assert (F12 : 0 <= a21 \/ 0 <= a12) by (destruct (Rle_dec 0 a21), (Rle_dec 0 a12); auto; exfalso; apply E12; lra).
    assert (F13 : 0 <= a31 \/ 0 <= a13) by (destruct (Rle_dec 0 a31), (Rle_dec 0 a13); auto; exfalso; apply E13; lra).
    assert (F23 : 0 <= a32 \/ 0 <= a23) by (destruct (Rle_dec 0 a32), (Rle_dec 0 a23); auto; exfalso; apply E23; lra).
    destruct S1, S2, S3, F12, F13, F23; lra. }
  assert (P : 0 < D1 + D2 + D3) by lra.
  assert (Z1' : a12 < 0 \/ a13 < 0 -> 0 < (D1 + D2 + D3) * q1). { intros. apply Rmult_lt_0_compat; [exact P|]. destruct (Req_dec q1 0) as [e|]; [specialize (Z1 e); lra|lra]. }
  assert (Z2' : a21 < 0 \/ a23 < 0 -> 0 < (D1 + D2 + D3) * q2). { intros. apply Rmult_lt_0_compat; [exact P|]. destruct (Req_dec q2 0) as [e|]; [specialize (Z2 e); lra|lra]. }
  assert (Z3' : a31 < 0 \/ a32 < 0 -> 0 < (D1 + D2 + D3) * q3). { intros. apply Rmult_lt_0_compat; [exact P|]. destruct (Req_dec q3 0) as [e|]; [specialize (Z3 e); lra|lra]. }
  assert (pp : forall x y, 0 <= x -> 0 <= y -> 0 <= x * y) by (intros; now apply Rmult_le_pos).
  assert (nn : forall x y, x <= 0 -> y <= 0 -> 0 <= x * y) by (intros x y Hx Hy; replace (x * y) with ((- x) * (- y)) by ring; apply Rmult_le_pos; lra).
  specialize (Z1' S1). specialize (Z2' S2). specialize (Z3' S3).
  assert (K1 : forall x y, 0 <= D2 * a12 -> 0 <= D3 * a13 -> x <= y) by (intros; exfalso; lra).
  (* a corner whose edges both point the right way is excluded *)
  assert (C21 : 0 <= D1 -> 0 <= a21 -> False). { intros h1 h2. assert (a23 < 0) by lra. pose proof (pp _ _ h1 h2). pose proof (nn D3 a23 H3 ltac:(lra)). lra. }
  assert (C12 : 0 <= D2 -> 0 <= a12 -> False). { intros h1 h2. assert (a13 < 0) by lra. pose proof (pp _ _ h1 h2). pose proof (nn D3 a13 H3 ltac:(lra)). lra. }
  destruct (Rle_dec 0 D1) as [h1|h1].
  - destruct (Rlt_dec a21 0) as [h21|h21]; [|exact (C21 h1 ltac:(lra))].
    destruct (Rlt_dec a12 0) as [h12|h12]; [now apply E12|].
    destruct (Rle_dec 0 D2) as [h2|h2]; [exact (C12 h2 ltac:(lra))|].
    assert (h13 : a13 < 0) by lra. assert (h31 : 0 <= a31) by (apply Rnot_lt_le; intros h; apply E13; lra).
    assert (h32 : a32 < 0) by lra. pose proof (pp _ _ h1 h31). pose proof (nn D2 a32 ltac:(lra) ltac:(lra)). lra.
  - assert (h2 : 0 <= D2) by lra.
    destruct (Rlt_dec a12 0) as [h12|h12]; [|exact (C12 h2 ltac:(lra))].
    assert (h21 : 0 <= a21) by (apply Rnot_lt_le; intros h; apply E12; lra).
    assert (h23 : a23 < 0) by lra. assert (h32 : 0 <= a32) by (apply Rnot_lt_le; intros h; apply E23; lra).
    assert (h31 : a31 < 0) by lra. pose proof (pp _ _ h2 h32). pose proof (nn D1 a31 ltac:(lra) ltac:(lra)). lra.
Qed.

Lemma solved_corner s s' v : sx_count s' = 1%nat -> In v (used s) -> same_vertex (sx_0 s') v ->
  (forall u, In u (used s) -> vx (sv_w v) * vx (sv_w v) + vy (sv_w v) * vy (sv_w v) <= vx (sv_w v) * vx (sv_w u) + vy (sv_w v) * vy (sv_w u)) -> solved s s'.
Proof.
  destruct s' as [v0 v1 v2 c]. cbn. intros -> I S H. pose proof S as (Sa & Sb & Sw & _).
  assert (E : mix [1] [sv_w v0] = sv_w v) by (cbn; rewrite Sw; apply vec2_ext; cbn; ring).
  constructor; unfold bary, corners, weights; cbn [used sx_count sx_0 sx_1 sx_2 firstn map Nat.eqb]; try discriminate.
  - lia.
  - intros u [<-|[]]. now exists v.
  - constructor; [lra|constructor].
  - cbn; lra.
  - intros u Iu. rewrite E. exact (H u Iu).
  - rewrite E. unfold closest_point. cbn. now rewrite Sw.
Qed.
Lemma solved_edge s s' u v : sx_count s' = 2%nat -> In u (used s) -> In v (used s) ->
  let x1 := vx (sv_w u) in let y1 := vy (sv_w u) in let x2 := vx (sv_w v) in let y2 := vy (sv_w v) in
  let d1 := x2 * (x2 - x1) + y2 * (y2 - y1) in
  let d2 := - (x1 * (x2 - x1) + y1 * (y2 - y1)) in
  0 < d1 -> 0 < d2 ->
  (sx_0 s' = with_a u (d1 * (1 / (d1 + d2))) /\ sx_1 s' = with_a v (d2 * (1 / (d1 + d2))) \/
   sx_0 s' = with_a v (d2 * (1 / (d1 + d2))) /\ sx_1 s' = with_a u (d1 * (1 / (d1 + d2)))) ->
  (forall z, In z (used s) -> z = u \/ z = v \/ ((x2 - x1) * (vy (sv_w z) - y1) - (y2 - y1) * (vx (sv_w z) - x1)) * (x1 * y2 - y1 * x2) <= 0) -> solved s s'.
Proof.
  intros C Iu Iv x1 y1 x2 y2 d1 d2 P1 P2 E H.
  destruct (edge_R x1 y1 x2 y2 P1 P2) as (PA & PB & S & E1 & E2 & N & E3). fold d1 d2 in PA, PB, S, E1, E2, E3.
  set (a := d1 * (1 / (d1 + d2))) in *. set (b := d2 * (1 / (d1 + d2))) in *.
  destruct s' as [v0 v1 v2 c]. cbn in C, E. subst c.
  assert (Ne : sv_w u <> sv_w v). { intros e. unfold x1, x2, y1, y2 in N. rewrite e in N. destruct N; congruence. }
  destruct E as [[-> ->]|[-> ->]].
  all: constructor; unfold bary, corners, weights; cbn [used sx_count sx_0 sx_1 sx_2 firstn map Nat.eqb sv_a sv_w with_a mix vx vy]; fold x1 x2 y1 y2.
  all: try lia; try discriminate.
  all: try (intros z [<-|[<-|[]]]; eexists; (split; [|apply same_with]); assumption).
  all: try (constructor; [assumption|constructor; [assumption|constructor]]).
  all: try (cbn; lra).
  all: try (intros z Iz; destruct (H z Iz) as [-> |[-> |h]]; [fold x1 y1; lra|fold x2 y2; lra|apply E3 in h; lra]).
  all: try (intros _; first [exact Ne|intros e; apply Ne; now symmetry]).
  all: unfold closest_point; cbn; fold x1 x2 y1 y2; unfold vadd, vscale; cbn; fold x1 x2 y1 y2; f_equal; f_equal; ring.
Qed.

Lemma zero_R x y : x * x + y * y = 0 -> x = 0 /\ y = 0.
Proof. intros H. pose proof (Rle_0_sqr x) as A. pose proof (Rle_0_sqr y) as B. unfold Rsqr in *. split; apply Rsqr_0_uniq; unfold Rsqr; lra. Qed.

Lemma solve3_solved s : sx_count s = 3%nat -> solved s (solve3 s).
Proof.
  destruct s as [v0 v1 v2 c]. cbn [sx_count]. intros ->.
  set (s := Simplex v0 v1 v2 3).
  assert (I0 : In v0 (used s)) by (cbn; auto). assert (I1 : In v1 (used s)) by (cbn; auto). assert (I2 : In v2 (used s)) by (cbn; auto).
  assert (all : forall P : svertex R -> Prop, P v0 -> P v1 -> P v2 -> forall u, In u (used s) -> P u).
  { intros P p0 p1 p2 u Iu. cbn in Iu. destruct Iu as [<-|[<-|[<-|[]]]]; assumption. }
  unfold solve3. cbn [sx_0 sx_1 sx_2 s].
  destruct (sv_w v0) as [x1 y1] eqn:W0, (sv_w v1) as [x2 y2] eqn:W1, (sv_w v2) as [x3 y3] eqn:W2.
  rmathc.
  set (a12 := x1 * (x2 - x1) + y1 * (y2 - y1)). set (b21 := x2 * (x2 - x1) + y2 * (y2 - y1)).
  set (a13 := x1 * (x3 - x1) + y1 * (y3 - y1)). set (b31 := x3 * (x3 - x1) + y3 * (y3 - y1)).
  set (a23 := x2 * (x3 - x2) + y2 * (y3 - y2)). set (b32 := x3 * (x3 - x2) + y3 * (y3 - y2)).
  set (n := (x2 - x1) * (y3 - y1) - (y2 - y1) * (x3 - x1)).
  set (D1 := n * (x2 * y3 - y2 * x3)). set (D2 := n * (x3 * y1 - y3 * x1)). set (D3 := n * (x1 * y2 - y1 * x2)).
  destruct (Rle_bool (- a12) 0 && Rle_bool (- a13) 0) eqn:R1.
  { apply andb_true_iff in R1. destruct R1 as [r1 r2]. apply Rle_bool_true' in r1, r2.
    apply solved_corner with (v := v0); [reflexivity|exact I0|apply same_with|].
    apply all; rewrite ?W0, ?W1, ?W2; cbn [vx vy]; unfold a12, a13 in *; lra. }
  destruct (Rlt_bool 0 b21 && Rlt_bool 0 (- a12) && Rle_bool D3 0) eqn:R2.
  { apply andb_true_iff in R2. destruct R2 as [R2 r3]. apply andb_true_iff in R2. destruct R2 as [r1 r2]. apply Rlt_bool_true' in r1, r2. apply Rle_bool_true' in r3.
    apply solved_edge with (u := v0) (v := v1); rewrite ?W0, ?W1; cbn [vx vy]; try assumption; [reflexivity|left; split; reflexivity|].
    apply all; auto. rewrite W2. cbn [vx vy]. right; right. unfold D3, n in r3. lra. }
  destruct (Rlt_bool 0 b31 && Rlt_bool 0 (- a13) && Rle_bool D2 0) eqn:R3.
  { apply andb_true_iff in R3. destruct R3 as [R3 r3]. apply andb_true_iff in R3. destruct R3 as [r1 r2]. apply Rlt_bool_true' in r1, r2. apply Rle_bool_true' in r3.
    apply solved_edge with (u := v0) (v := v2); rewrite ?W0, ?W2; cbn [vx vy]; try assumption; [reflexivity|left; split; reflexivity|].
    apply all; auto. rewrite W1. cbn [vx vy]. right; right. unfold D2, n in r3. lra. }
  destruct (Rle_bool b21 0 && Rle_bool (- a23) 0) eqn:R4.
  { apply andb_true_iff in R4. destruct R4 as [r1 r2]. apply Rle_bool_true' in r1, r2.
    apply solved_corner with (v := v1); [reflexivity|exact I1|apply same_with|].
    apply all; rewrite ?W0, ?W1, ?W2; cbn [vx vy]; unfold b21, a23 in *; lra. }
  destruct (Rle_bool b31 0 && Rle_bool b32 0) eqn:R5.
  { apply andb_true_iff in R5. destruct R5 as [r1 r2]. apply Rle_bool_true' in r1, r2.
    apply solved_corner with (v := v2); [reflexivity|exact I2|apply same_with|].
    apply all; rewrite ?W0, ?W1, ?W2; cbn [vx vy]; unfold b31, b32 in *; lra. }
  destruct (Rlt_bool 0 b32 && Rlt_bool 0 (- a23) && Rle_bool D1 0) eqn:R6.
  { apply andb_true_iff in R6. destruct R6 as [R6 r3]. apply andb_true_iff in R6. destruct R6 as [r1 r2]. apply Rlt_bool_true' in r1, r2. apply Rle_bool_true' in r3.
    apply solved_edge with (u := v1) (v := v2); rewrite ?W1, ?W2; cbn [vx vy]; try assumption; [reflexivity|right; split; reflexivity|].
    apply all; auto. rewrite W0. cbn [vx vy]. right; right. unfold D1, n in r3. lra. }
  assert (nb : forall b1 b2, b1 && b2 = false -> b1 = true -> b2 = true -> False) by (intros [] []; discriminate).
  assert (N1 : ~ (0 <= a12 /\ 0 <= a13)). { intros [p q]. apply (nb _ _ R1); apply Rle_bool_true'; lra. }
  assert (N4 : ~ (0 <= - b21 /\ 0 <= a23)). { intros [p q]. apply (nb _ _ R4); apply Rle_bool_true'; lra. }
  assert (N5 : ~ (0 <= - b31 /\ 0 <= - b32)). { intros [p q]. apply (nb _ _ R5); apply Rle_bool_true'; lra. }
  assert (N2 : ~ (- b21 < 0 /\ a12 < 0 /\ D3 <= 0)). { intros (p & q & r). apply (nb _ _ R2); [apply andb_true_iff; split; apply Rlt_bool_true'; lra|apply Rle_bool_true'; lra]. }
  assert (N3 : ~ (- b31 < 0 /\ a13 < 0 /\ D2 <= 0)). { intros (p & q & r). apply (nb _ _ R3); [apply andb_true_iff; split; apply Rlt_bool_true'; lra|apply Rle_bool_true'; lra]. }
  assert (N6 : ~ (- b32 < 0 /\ a23 < 0 /\ D1 <= 0)). { intros (p & q & r). apply (nb _ _ R6); [apply andb_true_iff; split; apply Rlt_bool_true'; lra|apply Rle_bool_true'; lra]. }
  clear R1 R2 R3 R4 R5 R6 nb.
  assert (SD : D1 + D2 + D3 = n * n) by (unfold D1, D2, D3, n; ring).
  assert (Q : forall x y, 0 <= x * x + y * y). { intros x y. pose proof (Rle_0_sqr x). pose proof (Rle_0_sqr y). unfold Rsqr in *. lra. }
  assert (Sn : 0 <= D1 + D2 + D3) by (rewrite SD; apply (Rle_0_sqr n)).
  assert (Zn : D1 + D2 + D3 = 0 -> n = 0). { rewrite SD. intros e. now apply Rsqr_0_uniq. }
  assert (Z1 : D1 + D2 + D3 = 0 -> D1 = 0 /\ D2 = 0 /\ D3 = 0). { intros e. apply Zn in e. unfold D1, D2, D3. rewrite e. repeat split; ring. }
  assert (P3 : 0 < D3).
  { apply (inside_R a12 (- b21) a13 (- b31) a23 (- b32) D1 D2 D3 (x1 * x1 + y1 * y1) (x2 * x2 + y2 * y2) (x3 * x3 + y3 * y3) (x1 * x2 + y1 * y2) (x1 * x3 + y1 * y3) (x2 * x3 + y2 * y3)); auto; try (unfold a12, b21, a13, b31, a23, b32; ring).
    all: try (intros e; apply zero_R in e; destruct e as [e1 e2]; unfold a12, b21, a13, b31, a23, b32; rewrite e1, e2; split; ring).
    all: unfold D1, D2, D3, n, a12, b21, a13, b31, a23, b32; ring. }
  assert (P2 : 0 < D2).
  { apply (inside_R a13 (- b31) a12 (- b21) (- b32) a23 D1 D3 D2 (x1 * x1 + y1 * y1) (x3 * x3 + y3 * y3) (x2 * x2 + y2 * y2) (x1 * x3 + y1 * y3) (x1 * x2 + y1 * y2) (x2 * x3 + y2 * y3)); auto; try (unfold a12, b21, a13, b31, a23, b32; ring).
    all: try (intros e; apply zero_R in e; destruct e as [e1 e2]; unfold a12, b21, a13, b31, a23, b32; rewrite e1, e2; split; ring).
    all: try (unfold D1, D2, D3, n, a12, b21, a13, b31, a23, b32; ring).
    all: try lra.
    all: try (intros e; destruct (Z1 ltac:(lra)) as (? & ? & ?); auto).
    all: intros h; destruct h; first [apply N1; lra|apply N4; lra|apply N5; lra|apply N2; lra|apply N3; lra|apply N6; lra]. }
  assert (P1 : 0 < D1).
  { apply (inside_R (- b32) a23 (- b31) a13 (- b21) a12 D3 D2 D1 (x3 * x3 + y3 * y3) (x2 * x2 + y2 * y2) (x1 * x1 + y1 * y1) (x2 * x3 + y2 * y3) (x1 * x3 + y1 * y3) (x1 * x2 + y1 * y2)); auto; try (unfold a12, b21, a13, b31, a23, b32; ring).
    all: try (intros e; apply zero_R in e; destruct e as [e1 e2]; unfold a12, b21, a13, b31, a23, b32; rewrite e1, e2; split; ring).
    all: try (unfold D1, D2, D3, n, a12, b21, a13, b31, a23, b32; ring).
    all: try lra.
    all: try (intros e; destruct (Z1 ltac:(lra)) as (? & ? & ?); auto).
    all: intros h; destruct h; first [apply N1; lra|apply N4; lra|apply N5; lra|apply N2; lra|apply N3; lra|apply N6; lra]. }
  set (i := 1 / (D1 + D2 + D3)).
  assert (Pi : 0 < i) by (apply Rdiv_lt_0_compat; lra).
  assert (Zx : D1 * x1 + D2 * x2 + D3 * x3 = 0) by (unfold D1, D2, D3, n; ring).
  assert (Zy : D1 * y1 + D2 * y2 + D3 * y3 = 0) by (unfold D1, D2, D3, n; ring).
  assert (M : mix [D1 * i; D2 * i; D3 * i] [sv_w v0; sv_w v1; sv_w v2] = origin).
  { rewrite W0, W1, W2. cbn. apply vec2_ext; cbn.
    - replace (D1 * i * x1 + (D2 * i * x2 + (D3 * i * x3 + 0))) with (i * (D1 * x1 + D2 * x2 + D3 * x3)) by ring. rewrite Zx. ring.
    - replace (D1 * i * y1 + (D2 * i * y2 + (D3 * i * y3 + 0))) with (i * (D1 * y1 + D2 * y2 + D3 * y3)) by ring. rewrite Zy. ring. }
  constructor; unfold bary, corners, weights; cbn [used sx_count sx_0 sx_1 sx_2 firstn map Nat.eqb sv_a sv_w with_a].
  - lia.
  - intros z [<-|[<-|[<-|[]]]]; eexists; (split; [|apply same_with]); cbn; auto.
  - constructor; [|constructor; [|constructor; [|constructor]]]; apply Rmult_lt_0_compat; assumption.
  - cbn. replace (D1 * i + (D2 * i + (D3 * i + 0))) with ((D1 + D2 + D3) * i) by ring. unfold i. field. lra.
  - intros z Iz. rewrite M. cbn. lra.
  - discriminate.
  - intros _. exact M.
  - rewrite M. reflexivity.
Qed.

Lemma solve1_solved s : sx_count s = 1%nat -> solved s s.
Proof.
  intros C. apply solved_corner with (v := sx_0 s); [exact C| |apply same_refl|].
  - unfold used. rewrite C. now left.
  - unfold used. rewrite C. cbn. intros u [<-|[]]. lra.
Qed.
Lemma solve_solved s : (1 <= sx_count s <= 3)%nat -> exists s', solve_simplex s = Ok s' /\ solved s s'.
Proof.
  intros C. unfold solve_simplex. destruct (sx_count s) as [|[|[|[|c]]]] eqn:E; try lia; eexists; (split; [reflexivity|]).
  - now apply solve1_solved.
  - now apply solve2_solved.
  - now apply solve3_solved.
Qed.
