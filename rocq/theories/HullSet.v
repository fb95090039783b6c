(** What [polygon_set] does with any list of points, over exact reals. *)
From Coq Require Import ZArith Reals Lra Lia Bool List Arith Psatz.
From Flocq Require Import Core.
From Verif Require Import Base Num NumLaws Math Collision ShapeModel MathSpec GeomSpec ShapeSpec HullSpec RTac ListFacts ManifoldProofs ShapeProofs HullProofs.
Import ListNotations.
Local Open Scope R_scope.

(** ** rings *)
Lemma for_list {A S : Type} (f : nat -> S -> res S) (step : S -> A -> S) : forall (l : list A) lo s,
  (forall i a s, nth_error l i = Some a -> f (lo + i)%nat s = Ok (step s a)) ->
  for_from (length l) lo f s = Ok (fold_left step l s).
Proof.
  induction l as [|a l IH]; intros lo s H; cbn [length for_from fold_left]; [reflexivity|].
  rewrite <- (Nat.add_0_r lo) at 1. rewrite (H 0%nat a s eq_refl). cbn [bind]. apply IH. intros i b t Hi.
  replace (Datatypes.S lo + i)%nat with (lo + Datatypes.S i)%nat by lia. apply H. exact Hi.
Qed.
Lemma nth_error_combine {A B} : forall (l : list A) (m : list B) i a b,
  nth_error (List.combine l m) i = Some (a, b) <-> nth_error l i = Some a /\ nth_error m i = Some b.
Proof.
  induction l as [|x l IH]; intros [|y m] [|i] a b; cbn; try (split; [intros K; discriminate|intros [K1 K2]; discriminate]).
  - split; [intros E; injection E as -> ->; auto|intros [E1 E2]; congruence].
  - apply IH.
Qed.
Lemma rot_length {A} (l : list A) : length (tl l ++ firstn 1 l) = length l.
Proof. destruct l; cbn; [reflexivity|]. rewrite app_length; cbn; lia. Qed.
Lemma rot_nth {A} (l : list A) i : (i < length l)%nat -> nth_error (tl l ++ firstn 1 l) i = nth_error l (after (length l) i).
Proof.
  destruct l as [|x l]; cbn [length tl firstn]; [lia|]. intros H. unfold after. destruct (Nat.ltb_spec (S i) (S (length l))) as [L|L].
  - cbn. apply nth_error_app1. lia.
  - assert (i = length l) as -> by lia. rewrite nth_error_app2, Nat.sub_diag by lia. reflexivity.
Qed.
Lemma ring_edges_length vs : length (ring_edges vs) = length vs.
Proof. unfold ring_edges. rewrite combine_length, rot_length. lia. Qed.
Lemma ring_edges_nth vs i a b : nth_error (ring_edges vs) i = Some (a, b) <->
  nth_error vs i = Some a /\ nth_error vs (after (length vs) i) = Some b.
Proof.
  unfold ring_edges. rewrite nth_error_combine. split; intros [E1 E2]; (split; [exact E1|]).
  - rewrite <- rot_nth; [exact E2|]. apply nth_error_Some; congruence.
  - rewrite rot_nth; [exact E2|]. apply nth_error_Some; congruence.
Qed.
Lemma sum_cons {A} (f : A -> R) a l : sum_of f (a :: l) = f a + sum_of f l.
Proof. reflexivity. Qed.
Lemma sum_nil {A} (f : A -> R) : sum_of f [] = 0.
Proof. reflexivity. Qed.
Lemma sum_app {A} (f : A -> R) l m : sum_of f (l ++ m) = sum_of f l + sum_of f m.
Proof. induction l; cbn [app]; rewrite ?sum_cons, ?sum_nil, ?IHl; lra. Qed.
Lemma sum_add {A} (f g : A -> R) l : sum_of (fun a => f a + g a) l = sum_of f l + sum_of g l.
Proof. induction l; rewrite ?sum_cons, ?sum_nil, ?IHl; lra. Qed.
Lemma sum_sub {A} (f g : A -> R) l : sum_of (fun a => f a - g a) l = sum_of f l - sum_of g l.
Proof. induction l; rewrite ?sum_cons, ?sum_nil, ?IHl; lra. Qed.
Lemma sum_scale {A} (f : A -> R) k l : sum_of (fun a => k * f a) l = k * sum_of f l.
Proof. induction l; rewrite ?sum_cons, ?sum_nil, ?IHl; lra. Qed.
Lemma sum_ext {A} (f g : A -> R) l : (forall a, In a l -> f a = g a) -> sum_of f l = sum_of g l.
Proof. induction l; intros H; rewrite ?sum_cons; [reflexivity|]. rewrite IHl by (intros; apply H; cbn; auto). rewrite H by (cbn; auto). reflexivity. Qed.
Lemma sum_fst {A B} (f : A -> R) : forall (l : list A) (m : list B), length l = length m -> sum_of (fun e => f (fst e)) (List.combine l m) = sum_of f l.
Proof. induction l; intros [|b m] H; cbn [List.combine length] in *; try lia; rewrite ?sum_cons; [reflexivity|]. rewrite IHl by lia. reflexivity. Qed.
Lemma sum_snd {A B} (f : B -> R) : forall (l : list A) (m : list B), length l = length m -> sum_of (fun e => f (snd e)) (List.combine l m) = sum_of f m.
Proof. induction l; intros [|b m] H; cbn [List.combine length] in *; try lia; rewrite ?sum_cons; [reflexivity|]. rewrite IHl by lia. reflexivity. Qed.
Lemma telescope (g : vec2 R -> R) vs : sum_of (fun e => g (snd e) - g (fst e)) (ring_edges vs) = 0.
Proof.
  rewrite sum_sub. unfold ring_edges. rewrite sum_fst, sum_snd by (symmetry; apply rot_length).
  destruct vs as [|v vs]; cbn [tl firstn app]; rewrite ?sum_app, ?sum_cons, ?sum_nil; lra.
Qed.
Lemma sum_telescope (f h : vec2 R * vec2 R -> R) g vs : (forall e, f e = h e + (g (snd e) - g (fst e))) ->
  sum_of f (ring_edges vs) = sum_of h (ring_edges vs).
Proof.
  intros E. rewrite (sum_ext f (fun e => h e + (g (snd e) - g (fst e)))) by auto. rewrite sum_add, telescope. lra.
Qed.

(** ** welding *)
Definition weld_slop : R := B2_LINEAR_SLOP / 2.
Lemma weld_slop_eq : weld_slop = 1 / 400.
Proof. unfold weld_slop, B2_LINEAR_SLOP, B2_LENGTH_UNITS_PER_METER, nlit. cbn. lra. Qed.
Lemma dist2_sym a b : dist2 a b = dist2 b a.
Proof. unfold dist2; ring. Qed.
Lemma weld_step d vs0 ps v : d <> 0 -> thinned d vs0 ps ->
  thinned d (vs0 ++ [v]) (if existsb (fun p => Rlt_bool (dist2 v p) (d * d)) ps then ps else ps ++ [v]).
Proof.
  intros Dn (I1 & S1 & C1). destruct (existsb _ ps) eqn:E.
  - apply existsb_exists in E as (p & Hp & L). destruct (Rlt_bool_spec (dist2 v p) (d * d)) as [Lt|]; [|discriminate].
    split; [|split].
    + intros x Hx. apply in_or_app; left. auto.
    + exact S1.
    + intros x Hx. apply in_app_or in Hx as [Hx|[<-|[]]]; [auto|eauto].
  - assert (F : forall p, In p ps -> d * d <= dist2 v p).
    { intros p Hp. destruct (Rlt_bool_spec (dist2 v p) (d * d)) as [L|L]; [exfalso|exact L].
      assert (existsb (fun p => Rlt_bool (dist2 v p) (d * d)) ps = true) by (apply existsb_exists; exists p; split; [exact Hp|now apply Rlt_bool_true]). congruence. }
    split; [|split].
    + intros x Hx. apply in_app_or in Hx as [Hx|[<-|[]]]; apply in_or_app; cbn; auto.
    + intros i j p q N Hp Hq.
      assert (Li : (i < length (ps ++ [v]))%nat) by (apply nth_error_Some; congruence).
      assert (Lj : (j < length (ps ++ [v]))%nat) by (apply nth_error_Some; congruence).
      rewrite app_length in Li, Lj; cbn in Li, Lj.
      destruct (Nat.eq_dec i (length ps)) as [->|Ni].
      * rewrite nth_error_app2, Nat.sub_diag in Hp by lia. cbn in Hp. injection Hp as <-. rewrite nth_error_app1 in Hq by lia. apply F. eapply nth_error_In; eauto.
      * rewrite nth_error_app1 in Hp by lia. destruct (Nat.eq_dec j (length ps)) as [->|Nj].
        -- rewrite nth_error_app2, Nat.sub_diag in Hq by lia. cbn in Hq. injection Hq as <-. rewrite dist2_sym. apply F. eapply nth_error_In; eauto.
        -- rewrite nth_error_app1 in Hq by lia. exact (S1 i j p q N Hp Hq).
    + intros x Hx. apply in_app_or in Hx as [Hx|[<-|[]]].
      * destruct (C1 x Hx) as (p & Hp & L). exists p. split; [apply in_or_app; auto|exact L].
      * exists v. split; [apply in_or_app; cbn; auto|]. unfold dist2. replace _ with 0 by ring. nra.
Qed.
Lemma existsb_same {A} (f g : A -> bool) l : (forall x, f x = g x) -> existsb f l = existsb g l.
Proof. intros E. induction l; cbn; [reflexivity|]. rewrite E, IHl. reflexivity. Qed.
Lemma weld_thinned vs : thinned weld_slop vs (weld vs).
Proof.
  unfold weld.
  assert (G : forall l vs0 ps, thinned weld_slop vs0 ps -> thinned weld_slop (vs0 ++ l)
    (fold_left (fun ps v => if existsb (fun p => nlt (b2_distance_vec2_squared v p) (nlit 1 2 * B2_LINEAR_SLOP * (nlit 1 2 * B2_LINEAR_SLOP))%num) ps then ps else ps ++ [v]) l ps)).
  { induction l as [|v l IH]; intros vs0 ps H; cbn [fold_left]; [rewrite app_nil_r; exact H|].
    replace (vs0 ++ v :: l) with ((vs0 ++ [v]) ++ l) by (rewrite <- app_assoc; reflexivity). apply IH.
    assert (Q : forall p, nlt (b2_distance_vec2_squared v p) (nlit 1 2 * B2_LINEAR_SLOP * (nlit 1 2 * B2_LINEAR_SLOP))%num = Rlt_bool (dist2 v p) (weld_slop * weld_slop)).
    { intros p. unfold b2_distance_vec2_squared, weld_slop. rmathc. unfold dist2. f_equal. unfold B2_LINEAR_SLOP, nlit. cbn. lra. }
    rewrite (existsb_same _ _ ps Q).
    apply weld_step; [rewrite weld_slop_eq; lra|exact H]. }
  apply (G vs [] []). split; [|split].
  - intros x [].
  - intros [|i] j p q _ Hp; discriminate.
  - intros v [].
Qed.
Lemma weld_length vs : (length (weld vs) <= length vs)%nat.
Proof.
  unfold weld.
  assert (G : forall (g : list (vec2 R) -> vec2 R -> bool) l ps, (length (fold_left (fun ps v => if g ps v then ps else ps ++ [v]) l ps) <= length ps + length l)%nat).
  { intros g. induction l as [|v l IH]; intros ps; cbn; [lia|]. destruct (g ps v); eapply Nat.le_trans; try apply IH; [lia|rewrite app_length; cbn; lia]. }
  apply (G (fun ps v => existsb _ ps) vs []).
Qed.
Lemma spaced_distinct d ps : 0 < d -> spaced d ps -> forall i j, (i < length ps)%nat -> (j < length ps)%nat -> i <> j -> P ps i <> P ps j.
Proof.
  intros Dp Sp i j Hi Hj N E.
  pose proof (Sp i j (P ps i) (P ps j) N (nth_error_nth' ps (V2 0 0) Hi) (nth_error_nth' ps (V2 0 0) Hj)) as K.
  rewrite E in K. unfold dist2 in K. replace (_ + _) with 0 in K by ring. nra.
Qed.

(** ** the normals *)
Lemma edge_normal_ok vs i a b : nth_error vs i = Some a -> nth_error vs (after (length vs) i) = Some b ->
  B2_EPSILON * B2_EPSILON < dist2 b a ->
  exists n, edge_normal vs i = Ok n /\ unit_vec n /\ dotp n (minus b a) = 0 /\ forall p, 0 < turn a b p <-> dotp n (minus p a) < 0.
Proof.
  intros Ha Hb L. unfold edge_normal. unfold after in Hb. replace (S i) with (i + 1)%nat in Hb by lia.
  unfold get at 1 2. rewrite Ha. cbn [bind]. rewrite Hb. cbn [bind].
  set (e := vsub b a). assert (Le : vlen2 e = dist2 b a) by (unfold e; rmathc; unfold dist2; reflexivity).
  rewrite Le. cbn [nlt R_Num]. rewrite Rlt_bool_true by exact L. cbn [b2_assert bind].
  destruct (normalize_unit (b2_cross_vs e (nofZ 1))) as [U E].
  { replace (dotp _ _) with (dist2 b a) by (unfold e, dotp, dist2; rmathc; ring). pose proof eps_pos.
    rewrite <- (sqrt_square B2_EPSILON) by lra. apply sqrt_le_1_alt. lra. }
  eexists; split; [reflexivity|]. split; [exact U|]. rewrite E.
  set (w := dotp (b2_cross_vs e (nofZ 1)) (b2_cross_vs e (nofZ 1))). assert (W : w = dist2 b a) by (unfold w, e, dotp, dist2; rmathc; ring).
  assert (Wp : 0 < sqrt w). { apply sqrt_lt_R0. rewrite W. pose proof eps_pos. nra. }
  split.
  - unfold dotp, e; rmathc; unfold minus; cbn. field. lra.
  - intros p. unfold e; rmathc. unfold dotp, minus; cbn. unfold turn.
    replace (_ * _ / sqrt w * _ + _) with (- ((vx b - vx a) * (vy p - vy a) - (vy b - vy a) * (vx p - vx a)) * / sqrt w) by (field; lra).
    pose proof (Rinv_0_lt_compat _ Wp). split; intros; nra.
Qed.

(** ** the centroid *)
Lemma get_after {A} (vs : list A) i : (if Nat.ltb (i + 1) (length vs) then get vs (i + 1)%nat else get vs 0) = get vs (after (length vs) i).
Proof. unfold after. replace (i + 1)%nat with (S i) by lia. destruct (Nat.ltb (S i) (length vs)); reflexivity. Qed.
Lemma get_some {A} (l : list A) i a : nth_error l i = Some a -> get l i = Ok a.
Proof. unfold get. intros ->. reflexivity. Qed.
Definition fan_area (s : vec2 R) (e : vec2 R * vec2 R) : R := / 2 * turn s (fst e) (snd e).
Definition fan_x (s : vec2 R) (e : vec2 R * vec2 R) : R := / 6 * turn s (fst e) (snd e) * (vx (fst e) + vx (snd e) - 2 * vx s).
Definition fan_y (s : vec2 R) (e : vec2 R * vec2 R) : R := / 6 * turn s (fst e) (snd e) * (vy (fst e) + vy (snd e) - 2 * vy s).
Lemma fan_area_sum s vs : sum_of (fan_area s) (ring_edges vs) = shoelace vs.
Proof.
  unfold shoelace. replace (sum_of cross2 (ring_edges vs) / 2) with (/ 2 * sum_of cross2 (ring_edges vs)) by lra. rewrite <- sum_scale.
  apply (sum_telescope _ _ (fun v => / 2 * (vy s * vx v - vx s * vy v))). intros [p q]. unfold fan_area, turn, cross2; cbn [fst snd]. field.
Qed.
Lemma fan_x_sum s vs : sum_of (fan_x s) (ring_edges vs) = moment_x vs - vx s * shoelace vs.
Proof.
  rewrite <- (fan_area_sum s vs). unfold moment_x.
  match goal with |- _ = ?a / 6 - _ => replace (a / 6) with (/ 6 * a) by lra end. rewrite <- !sum_scale, <- sum_sub.
  apply (sum_telescope _ _ (fun v => / 6 * (vy s * vx v - vx s * vy v) * (vx s + vx v))). intros [p q]. unfold fan_x, fan_area, turn, cross2; cbn [fst snd]. field.
Qed.
Lemma fan_y_sum s vs : sum_of (fan_y s) (ring_edges vs) = moment_y vs - vy s * shoelace vs.
Proof.
  rewrite <- (fan_area_sum s vs). unfold moment_y.
  match goal with |- _ = ?a / 6 - _ => replace (a / 6) with (/ 6 * a) by lra end. rewrite <- !sum_scale, <- sum_sub.
  apply (sum_telescope _ _ (fun v => / 6 * (vy s * vx v - vx s * vy v) * (vy s + vy v))). intros [p q]. unfold fan_y, fan_area, turn, cross2; cbn [fst snd]. field.
Qed.
Definition cen_step (s : vec2 R) (st : vec2 R * R) (e : vec2 R * vec2 R) : vec2 R * R :=
  (V2 (vx (fst st) + fan_x s e) (vy (fst st) + fan_y s e), snd st + fan_area s e).
Lemma cen_fold s : forall l st, fold_left (cen_step s) l st =
  (V2 (vx (fst st) + sum_of (fan_x s) l) (vy (fst st) + sum_of (fan_y s) l), snd st + sum_of (fan_area s) l).
Proof.
  induction l as [|e l IH]; intros [c a]; cbn [fold_left].
  - cbn. f_equal; [apply vec2_ext; cbn; lra|lra].
  - rewrite IH, !sum_cons. unfold cen_step; cbn [fst snd vx vy]. f_equal; [apply vec2_ext; cbn; lra|lra].
Qed.
Lemma centroid_eq vs : (3 <= length vs)%nat ->
  compute_centroid vs = if Rlt_bool B2_EPSILON (shoelace vs) then Ok (centroid_of vs) else Panic.
Proof.
  intros L3. unfold compute_centroid. destruct (Nat.leb_spec 3 (length vs)) as [_|]; [|lia]. cbn [b2_assert bind].
  destruct vs as [|s vs'] eqn:Ev; [cbn in L3; lia|]. rewrite <- Ev in *.
  assert (G0 : get vs 0 = Ok s) by (rewrite Ev; reflexivity). rewrite G0 at 1. cbn [bind]. unfold for_range. rewrite Nat.sub_0_r.
  assert (LL : length vs = length (ring_edges vs)) by (symmetry; apply ring_edges_length).
  match goal with |- bind (for_from _ _ ?f _) _ = _ => rewrite LL at 1; rewrite (for_list f (cen_step s)) end.
  2:{ intros i [p q] [c a] Hi. apply ring_edges_nth in Hi as [Hp Hq]. cbn [plus]. rewrite get_after, G0. cbn [bind].
      rewrite (get_some _ _ _ Hp), (get_some _ _ _ Hq). cbn [bind]. unfold cen_step, fan_x, fan_y, fan_area, turn; rmathc. f_equal. f_equal; [apply vec2_ext; cbn; field|field]. }
  rewrite cen_fold, fan_x_sum, fan_y_sum, fan_area_sum. cbn [bind fst snd vx vy].
  replace (0 + shoelace vs) with (shoelace vs) by lra. rmathc. replace (IZR 0 + shoelace vs) with (shoelace vs) by lra.
  destruct (Rlt_bool_spec B2_EPSILON (shoelace vs)) as [L|L]; cbn [b2_assert bind]; [|reflexivity].
  pose proof eps_pos. unfold centroid_of. f_equal. apply vec2_ext; cbn; field; lra.
Qed.

(** ** the whole function *)
Lemma map_res_seq {B} (f : nat -> res B) (Q : nat -> B -> Prop) : forall m lo,
  (forall i, (lo <= i < lo + m)%nat -> exists b, f i = Ok b /\ Q i b) ->
  exists bs, map_res f (seq lo m) = Ok bs /\ length bs = m /\ forall i b, nth_error bs i = Some b -> Q (lo + i)%nat b.
Proof.
  induction m as [|m IH]; intros lo H; cbn [seq map_res].
  - exists []. split; [reflexivity|split; [reflexivity|]]. intros [|i] b Hb; discriminate.
  - destruct (H lo ltac:(lia)) as (b & E & Hb). rewrite E. cbn [bind].
    destruct (IH (S lo)) as (bs & E2 & L & Q2). { intros i Hi. apply H. lia. }
    rewrite E2. cbn [bind]. exists (b :: bs). split; [reflexivity|split; [cbn; lia|]].
    intros [|i] c Hc; cbn in Hc; [injection Hc as <-; rewrite Nat.add_0_r; exact Hb|].
    replace (lo + S i)%nat with (S lo + i)%nat by lia. apply Q2. exact Hc.
Qed.
Lemma put_first {T} (l old : list (vec2 T)) : firstn (length l) (put l old) = l.
Proof. unfold put. rewrite firstn_app, Nat.sub_diag, firstn_all. cbn. apply app_nil_r. Qed.
Lemma put_long {T} (l old : list (vec2 T)) : (length l <= length (put l old))%nat.
Proof. unfold put. rewrite app_length. lia. Qed.
Lemma few_collinear ps : (length ps < 3)%nat -> collinear ps.
Proof.
  intros L. destruct ps as [|p [|q [|? ?]]]; [| | |cbn in L; lia]; intros a b c Ha Hb Hc; cbn in *;
    repeat match goal with H : _ \/ _ |- _ => destruct H as [H|H] end; try contradiction; subst; unfold turn; ring.
Qed.
Lemma convex_not_collinear hs ps : convex_ccw hs -> incl hs ps -> ~ collinear ps.
Proof.
  intros [L C] I Co. destruct hs as [|a [|b [|c hs]]]; cbn in L; try lia.
  specialize (C 0%nat 2%nat a b c). cbn in C. assert (0 < turn a b c) by (apply C; auto).
  rewrite (Co a b c) in H by (apply I; cbn; auto). lra.
Qed.
Lemma eps_small : B2_EPSILON * B2_EPSILON < weld_slop * weld_slop.
Proof. rewrite weld_slop_eq. unfold B2_EPSILON, nlit. cbn. lra. Qed.
Theorem polygon_set_outcome self vs : (3 <= length vs <= B2_MAX_POLYGON_VERTICES)%nat ->
  exists ps, thinned (B2_LINEAR_SLOP / 2) vs ps /\
    (collinear ps -> polygon_set self vs = Panic) /\
    (~ collinear ps -> exists hs, hull_of ps hs /\
       (shoelace hs <= B2_EPSILON -> polygon_set self vs = Panic) /\
       (B2_EPSILON < shoelace hs -> exists po, polygon_set self vs = Ok po /\ used_vertices po = hs /\ proper po /\
          po_centroid po = centroid_of hs /\ po_radius po = po_radius self)).
Proof.
  intros L. exists (weld vs). pose proof (weld_thinned vs) as Th. split; [exact Th|].
  unfold polygon_set. destruct (Nat.leb_spec 3 (length vs)) as [_|]; [|lia]. destruct (Nat.leb_spec (length vs) B2_MAX_POLYGON_VERTICES) as [_|]; [|lia].
  cbn [andb b2_assert bind]. pose proof (weld_length vs) as WL. set (ps := weld vs) in *.
  destruct (Nat.leb_spec 3 (length ps)) as [L3|L3]; cbn [b2_assert bind].
  2:{ split; [reflexivity|]. intros NC. exfalso. apply NC, few_collinear, L3. }
  destruct Th as (_ & Sp & _).
  assert (Wp : 0 < weld_slop) by (rewrite weld_slop_eq; lra).
  pose proof (spaced_distinct _ _ Wp Sp) as Di.
  destruct (hull_ring ps Di ltac:(lia)) as (i0 & h & E0 & Eh & Rh & Nh). rewrite E0. cbn [bind]. rewrite Eh. cbn [bind].
  destruct (Nat.leb_spec 3 (length h)) as [H3|H3]; cbn [b2_assert bind].
  2:{ split; [reflexivity|]. intros NC. exfalso. apply NC. eapply ring_short; eauto. }
  pose proof (ring_convex ps h Rh H3) as Cv. pose proof (ring_incl ps h Rh) as Ic.
  split. { intros Co. exfalso. eapply convex_not_collinear; eauto. }
  intros _. exists (map (P ps) h). split. { split; [exact Cv|split; [exact Ic|]]. exact (ring_inside ps h Rh). }
  rewrite (map_P ps h) by (intros i Hi; apply Rh, Hi). cbn [bind]. set (hs := map (P ps) h) in *.
  destruct (map_res_seq (fun i => edge_normal hs i) (fun i n => forall a b, nth_error hs i = Some a -> nth_error hs (after (length hs) i) = Some b ->
    unit_vec n /\ dotp n (minus b a) = 0 /\ forall p, 0 < turn a b p <-> dotp n (minus p a) < 0) (length hs) 0) as (ns & En & Ln & Qn).
  { intros i Hi. destruct (nth_error hs i) as [a|] eqn:Ea; [|apply nth_error_None in Ea; lia].
    destruct (nth_error hs (after (length hs) i)) as [b|] eqn:Eb.
    2:{ apply nth_error_None in Eb. pose proof (after_lt [] (length hs) i ltac:(lia)). lia. }
    destruct (edge_normal_ok hs i a b Ea Eb) as (n & E & Q).
    - unfold hs in Ea, Eb. rewrite map_length in Eb. rewrite nth_error_map in Ea, Eb.
      destruct (nth_error h i) as [x|] eqn:Ex; [|discriminate]. destruct (nth_error h (after (length h) i)) as [y|] eqn:Ey; [|discriminate].
      injection Ea as <-. injection Eb as <-. destruct Rh as (_ & Al & Ed). destruct (Ed i x y Ex Ey) as (Hy & Nyx & _).
      assert (Hx : (x < length ps)%nat) by (apply Al; eapply nth_error_In; eauto).
      eapply Rlt_le_trans; [apply eps_small|]. apply (Sp y x); [exact Nyx| |]; unfold P; apply nth_error_nth'; assumption.
    - exists n. split; [exact E|]. intros a' b' Ha Hb. injection Ha as <-. injection Hb as <-. exact Q. }
  rewrite En. cbn [bind].
  assert (Lh : (3 <= length hs)%nat) by (unfold hs; rewrite map_length; exact H3).
  rewrite (centroid_eq hs Lh).
  split; intros A.
  - rewrite Rlt_bool_false by exact A. reflexivity.
  - rewrite Rlt_bool_true by exact A. cbn [bind]. eexists; split; [reflexivity|].
    assert (U1 : used_vertices (Polygon (po_radius self) (centroid_of hs) (put hs (po_vertices self)) (put ns (po_normals self)) (length hs)) = hs) by apply put_first.
    split; [exact U1|]. split; [|split; reflexivity]. unfold proper. rewrite U1. split; [|split; [exact Cv|]].
    + split; [|split]; cbn [po_count po_vertices po_normals]; [lia|apply put_long|]. rewrite <- Ln. apply put_long.
    + unfold used_normals; cbn [po_count po_normals]. replace (firstn (length hs) (put ns (po_normals self))) with ns by (rewrite <- Ln; symmetry; apply put_first). split; [exact Ln|].
      intros i a b n Ha Hb Hn. apply (Qn i n Hn a b Ha Hb).
Qed.
Lemma polygon_set_count self vs po : polygon_set self vs = Ok po -> (3 <= length vs <= B2_MAX_POLYGON_VERTICES)%nat.
Proof.
  unfold polygon_set. intros E. apply bind_ok in E as ([] & E & _). destruct (Nat.leb 3 _ && Nat.leb _ _) eqn:B; [|discriminate].
  apply andb_true_iff in B as [B1 B2]. apply Nat.leb_le in B1, B2. split; assumption.
Qed.
Theorem polygon_set_hull self vs po : polygon_set self vs = Ok po ->
  proper po /\ po_centroid po = centroid_of (used_vertices po) /\ B2_EPSILON < shoelace (used_vertices po) /\
  exists ps, thinned (B2_LINEAR_SLOP / 2) vs ps /\ hull_of ps (used_vertices po).
Proof.
  intros E. destruct (polygon_set_outcome self vs (polygon_set_count _ _ _ E)) as (ps & Th & Co & NC).
  assert (N : ~ collinear ps) by (intros K; rewrite (Co K) in E; discriminate).
  destruct (NC N) as (hs & Hh & Bad & Good). destruct (Rle_lt_dec (shoelace hs) B2_EPSILON) as [A|A]; [rewrite (Bad A) in E; discriminate|].
  destruct (Good A) as (po' & E' & U & Pr & Ce & _). rewrite E in E'. injection E' as <-. rewrite U.
  split; [exact Pr|split; [exact Ce|split; [exact A|]]]. exists ps. auto.
Qed.

(** ** what [validate] says *)
Lemma used_nth {T} (po : polygon T) i : (i < po_count po)%nat -> nth_error (used_vertices po) i = nth_error (po_vertices po) i.
Proof. intros H. unfold used_vertices. apply nth_firstn. exact H. Qed.
