(** An edge and a polygon, over exact reals. *)
From Coq Require Import ZArith Reals Lra Lia Bool List Arith Psatz.
From Flocq Require Import Core.
From Verif Require Import Base Num NumLaws Math Collision Manifold ShapeModel CollideModel MathSpec GeomSpec ShapeSpec HullSpec CollideSpec EdgePolySpec RTac ListFacts MathProofs ManifoldProofs ShapeProofs HullProofs HullSet HullMass HullInertia PolyCircle EdgeCircle PolyPoly.
Import ListNotations.
Local Open Scope R_scope.

(** ** the frame *)
Lemma seen_unique xa xb xf : unit_rot (xq xa) -> seen xa xb xf -> xf = b2_mul_t_transform xa xb.
Proof.
  intros U (_ & H). assert (E : forall v, place xf v = place (b2_mul_t_transform xa xb) v).
  { intros v. rewrite <- (xfv_place (b2_mul_t_transform xa xb)), mul_t_transform_apply, (xfv_place xb), <- H, <- (xfv_place xa). symmetry. now apply xfv_t_xfv. }
  pose proof (E (V2 0 0)) as E0. pose proof (E (V2 1 0)) as E1. destruct xf as [[px py] [s c]], (b2_mul_t_transform xa xb) as [[px' py'] [s' c']]. unfold place in *. cbn in *. injection E0 as A B. injection E1 as C D.
  assert (px = px') by lra. assert (py = py') by lra. assert (s = s') by lra. assert (c = c') by lra. now subst.
Qed.
Lemma map_res_map {A B} (f : A -> res B) g l : (forall x, In x l -> f x = Ok (g x)) -> map_res f l = Ok (map g l).
Proof. induction l as [|x l IH]; intros H; cbn; [reflexivity|]. rewrite H by (cbn; auto). cbn. rewrite IH by (intros; apply H; cbn; auto). reflexivity. Qed.
Lemma get_map {A} (g : nat -> A) n i : (i < n)%nat -> get (map g (seq 0 n)) i = Ok (g i).
Proof. intros H. apply get_some. rewrite nth_error_map, (nth_error_nth' _ 0%nat) by (rewrite seq_length; exact H). cbn. now rewrite seq_nth. Qed.

(** ** the smallest of a list *)
Lemma min_fold {A} (f : A -> R) l : forall s0, let s := fold_left (fun s v => if Rlt_bool (f v) s then f v else s) l s0 in
  s <= s0 /\ (forall v, In v l -> s <= f v) /\ (s = s0 \/ exists v, In v l /\ s = f v).
Proof.
  induction l as [|v l IH]; intros s0; cbn [fold_left]; [split; [lra|split; [intros v []|auto]]|]. destruct (IH (if Rlt_bool (f v) s0 then f v else s0)) as (A1 & B & C). destruct (Rlt_bool_spec (f v) s0) as [G|G].
  - split; [lra|]. split; [intros u [->|Hu]; [exact A1|auto]|]. destruct C as [C|(u & Hu & C)]; right; [exists v|exists u]; cbn; auto.
  - split; [exact A1|]. split; [intros u [->|Hu]; [lra|auto]|]. destruct C as [C|(u & Hu & C)]; [left; exact C|right; exists u; cbn; auto].
Qed.

(** ** clipping and keeping, common to both references *)
Definition clip_tail (m : manifold R) (cp0 cp1 : clip_vertex R) (a b nn s1 s2 : vec2 R) (r : R) (i1 i2 : nat) (fin : res (vec2 R * vec2 R)) (local : vec2 R -> vec2 R) (idf : cid -> cid) : res (manifold R) :=
  bind (b2_clip_segment_to_line cp0 cp1 s1 (b2_dot s1 a) i1) (fun out1 =>
  match out1 with
  | [c0; c1] =>
    bind (b2_clip_segment_to_line c0 c1 s2 (b2_dot s2 b) i2) (fun out2 =>
    if Nat.ltb (length out2) 2 then Ok m
    else bind fin (fun '(ln, lp) =>
      bind (keep_points (mf_points m) out2 (fun v => b2_dot nn (vsub v a)) r local idf) (fun '(pts, count) => Ok (MF pts ln lp (mf_type m) count))))
  | _ => Ok m
  end).
Lemma clip_tail_ok m cp0 cp1 t a b nn s1 s2 r i1 i2 ln lp local idf :
  length (mf_points m) = 2%nat -> mf_count m = 0%nat -> (forall v, dotp s1 v = - dotp t v) -> (forall v, dotp s2 v = dotp t v) ->
  exists m', clip_tail m cp0 cp1 a b nn s1 s2 r i1 i2 (Ok (ln, lp)) local idf = Ok m' /\ (mf_count m' <= 2)%nat /\ mf_type m' = mf_type m /\
    ((0 < mf_count m')%nat -> mf_local_normal m' = ln /\ mf_local_point m' = lp) /\
    (forall h, (h < mf_count m')%nat -> exists p v, nth_error (mf_points m') h = Some p /\ mp_local p = local v /\ on_segment (cv_v cp0) (cv_v cp1) v /\ dotp nn (minus v a) <= r /\ in_strip t a b v) /\
    (forall w, w = cv_v cp0 \/ w = cv_v cp1 -> dotp nn (minus w a) <= r -> dotp t a < dotp t w < dotp t b -> (0 < mf_count m')%nat).
Proof.
  intros Lm C0 H1 H2. unfold clip_tail.
  assert (D1 : forall v, b2_dot s1 v = - dotp t v) by exact H1. assert (D2 : forall v, b2_dot s2 v = dotp t v) by exact H2. rewrite D1, D2.
  destruct (clip_ok cp0 cp1 s1 (- dotp t a) i1) as (out1 & E1 & S1). rewrite E1. cbn [bind].
  assert (L1 : (length out1 <= 2)%nat) by (apply (clip_in_pair _ _ _ _ _ _ E1)).
  assert (T1 : forall w, w = cv_v cp0 \/ w = cv_v cp1 -> dotp t a < dotp t w < dotp t b -> exists c0 c1, out1 = [c0; c1] /\ (w = cv_v c0 \/ w = cv_v c1)).
  { intros w Hw St. destruct (clip_two cp0 cp1 s1 (- dotp t a) i1 w Hw) as (c0 & c1 & E & K); [rewrite H1; lra|]. rewrite E1 in E. injection E as ->. eauto. }
  assert (Zero : (forall w, w = cv_v cp0 \/ w = cv_v cp1 -> dotp t a < dotp t w < dotp t b -> False) -> exists m', Ok m = Ok m' /\ (mf_count m' <= 2)%nat /\ mf_type m' = mf_type m /\
    ((0 < mf_count m')%nat -> mf_local_normal m' = ln /\ mf_local_point m' = lp) /\
    (forall h, (h < mf_count m')%nat -> exists p v, nth_error (mf_points m') h = Some p /\ mp_local p = local v /\ on_segment (cv_v cp0) (cv_v cp1) v /\ dotp nn (minus v a) <= r /\ in_strip t a b v) /\
    (forall w, w = cv_v cp0 \/ w = cv_v cp1 -> dotp nn (minus w a) <= r -> dotp t a < dotp t w < dotp t b -> (0 < mf_count m')%nat)).
  { intros No. exists m. split; [reflexivity|]. rewrite C0. split; [lia|]. split; [reflexivity|]. split; [lia|]. split; [lia|]. intros w Hw _ St. destruct (No w Hw St). }
  destruct out1 as [|d0 [|d1 [|? ?]]]; [| | |cbn in L1; lia].
  1,2: apply Zero; intros w Hw St; destruct (T1 w Hw St) as (? & ? & K & _); discriminate K.
  destruct (clip_ok d0 d1 s2 (dotp t b) i2) as (out2 & E2 & S2). rewrite E2. cbn [bind].
  assert (L2 : (length out2 <= 2)%nat) by (apply (clip_in_pair _ _ _ _ _ _ E2)).
  assert (T2 : forall w, w = cv_v cp0 \/ w = cv_v cp1 -> dotp t a < dotp t w < dotp t b -> exists c0 c1, out2 = [c0; c1] /\ (w = cv_v c0 \/ w = cv_v c1)).
  { intros w Hw St. destruct (T1 w Hw St) as (? & ? & K & Wd). injection K as <- <-. destruct (clip_two d0 d1 s2 (dotp t b) i2 w Wd) as (c0 & c1 & E & K); [rewrite H2; lra|]. rewrite E2 in E. injection E as ->. eauto. }
  destruct out2 as [|e0 [|e1 [|? ?]]]; [| | |cbn in L2; lia]; cbn [length Nat.ltb Nat.leb].
  1,2: apply Zero; intros w Hw St; destruct (T2 w Hw St) as (? & ? & K & _); discriminate K.
  cbn [bind]. match goal with |- context [keep_points ?pts [e0; e1] ?sp ?rr ?lc ?idf] => destruct (keep_two pts e0 e1 sp rr lc idf Lm) as (pts' & cnt & Ek & Lc & Lp' & Kp & Kw) end.
  rewrite Ek. cbn [bind]. eexists. split; [reflexivity|]. cbn [mf_count mf_type mf_local_normal mf_local_point mf_points]. split; [exact Lc|]. split; [reflexivity|]. split; [auto|]. split.
  - intros h Hh. destruct (Kp h Hh) as (p & c & Ep & Ec & El & Es). exists p, (cv_v c). split; [exact Ep|]. split; [exact El|].
    assert (Sp2 : spanned (map cv_v [e0; e1]) (cv_v c)) by (apply spanned_in; [cbn; lia|cbn; destruct Ec as [->| ->]; auto]).
    apply S2 in Sp2 as (Sg2 & P2). assert (Sp1 : spanned (map cv_v [d0; d1]) (cv_v c)) by exact Sg2. apply S1 in Sp1 as (Sg1 & P1). split; [exact Sg1|]. split; [exact Es|].
    specialize (H1 (cv_v c)). specialize (H2 (cv_v c)). unfold half_plane in P1, P2. unfold in_strip. change (vx s1 * vx (cv_v c) + vy s1 * vy (cv_v c)) with (dotp s1 (cv_v c)) in P1. change (vx s2 * vx (cv_v c) + vy s2 * vy (cv_v c)) with (dotp s2 (cv_v c)) in P2. lra.
  - intros w Hw Sw St. destruct (T2 w Hw St) as (? & ? & K & We). injection K as <- <-. destruct We as [-> | ->]; [apply (Kw e0)|apply (Kw e1)]; auto.
Qed.

Section EdgePoly.
  Variables (e : edge R) (po : polygon R) (xf : xform R).
  Hypothesis Pr : proper po.
  Hypothesis Un : unit_rot (xq xf).
  Hypothesis Long : B2_EPSILON * B2_EPSILON <= dist2 (ed_v2 e) (ed_v1 e).
  Hypothesis Near : within_numbers e po xf.
  Let n := po_count po.
  Let v1 := ed_v1 e. Let v2 := ed_v2 e.
  Notation W := (W po xf). Notation M := (M po xf).

  Lemma normal_along a b : B2_EPSILON * B2_EPSILON <= dist2 b a -> exists u, snd (vnormalize (vsub b a)) = face_dir u /\ right_along a b u.
  Proof.
    intros L. destruct (normalize_unit (vsub b a)) as (U & E).
    { change (dotp (vsub b a) (vsub b a)) with (dist2 b a). pose proof eps_pos. rewrite <- (sqrt_square B2_EPSILON) by lra. apply sqrt_le_1_alt. exact L. }
    set (q := sqrt (dotp (vsub b a) (vsub b a))) in *. set (d := snd (vnormalize (vsub b a))) in *. assert (Q : 0 < q). { unfold q. apply sqrt_lt_R0. change (0 < dist2 b a). pose proof eps_pos. nra. }
    exists (V2 (vy d) (- vx d)). split; [unfold face_dir; apply vec2_ext; cbn [vx vy]; ring|]. split; [unfold unit_vec in *; cbn [vx vy]; lra|]. exists q. split; [exact Q|]. rewrite E. unfold face_dir. cbn [vx vy vsub]. rops. split; field; lra.
  Qed.
  Lemma along_unique a b u u' : right_along a b u -> right_along a b u' -> u = u'.
  Proof.
    intros (U & k & K & X & Y) (U' & k' & K' & X' & Y'). unfold unit_vec in *. assert (E1 : k * vy u = k' * vy u') by lra. assert (E2 : k * vx u = k' * vx u') by lra.
    assert (k * k = k' * k'). { replace (k * k) with (k * k * (vx u * vx u + vy u * vy u)) by (rewrite U; ring). replace (k' * k') with (k' * k' * (vx u' * vx u' + vy u' * vy u')) by (rewrite U'; ring).
      replace (k * k * (vx u * vx u + vy u * vy u)) with ((k * vx u) * (k * vx u) + (k * vy u) * (k * vy u)) by ring. rewrite E1, E2. ring. }
    assert (k = k') by nra. subst k'. apply vec2_ext; apply (Rmult_eq_reg_l k); lra.
  Qed.
  Lemma opposite_twice u : opposite (opposite u) = u.
  Proof. unfold opposite. cbn. apply vec2_ext; cbn [vx vy]; ring. Qed.
  Lemma side_two u s : right_of e u -> (side_of e s <-> s = u \/ s = opposite u).
  Proof.
    intros H. split.
    - intros [K|K]; [left; exact (along_unique _ _ _ _ K H)|right]. rewrite <- (along_unique _ _ _ _ K H). now rewrite opposite_twice.
    - intros [->| ->]; [now left|right]. now rewrite opposite_twice.
  Qed.
  Lemma unit_opposite u : unit_vec u -> unit_vec (opposite u).
  Proof. unfold unit_vec, opposite. cbn. lra. Qed.
  Lemma side_unit s : side_of e s -> unit_vec s.
  Proof. intros [(U & _)|(U & _)]; [exact U|]. rewrite <- (opposite_twice s). now apply unit_opposite. Qed.
  Lemma dot_near u a b : unit_vec u -> dist2 a b < B2_MAX_FLOAT * B2_MAX_FLOAT -> - B2_MAX_FLOAT < dotp u (minus a b) < B2_MAX_FLOAT.
  Proof.
    intros U D. pose proof max_float_pos as Mp. assert (Q : forall u, unit_vec u -> dotp u (minus a b) < B2_MAX_FLOAT).
    { intros x Ux. unfold unit_vec in Ux. assert (dotp x (minus a b) * dotp x (minus a b) <= dist2 a b).
      { unfold dotp, dist2, minus. cbn [vx vy]. set (p := vx a - vx b). set (q := vy a - vy b). pose proof (Rle_0_sqr (vx x * q - vy x * p)) as S. unfold Rsqr in S. replace (p * p + q * q) with ((vx x * vx x + vy x * vy x) * (p * p + q * q)) by (rewrite Ux; ring). lra. }
      apply Rnot_le_lt. intros L. assert (B2_MAX_FLOAT * B2_MAX_FLOAT <= dotp x (minus a b) * dotp x (minus a b)) by (apply Rmult_le_compat; lra). lra. }
    split; [|auto]. pose proof (Q _ (unit_opposite u U)) as K. unfold opposite, dotp in *. cbn [vx vy] in K. lra.
  Qed.
  Lemma W_corner j : (j < n)%nat -> corner po xf (W j).
  Proof. intros H. now apply corner_at. Qed.

  (** the separation of a side *)
  Definition side_sep (u : vec2 R) (s : R) : Prop := (forall j, (j < n)%nat -> s <= dotp u (minus (W j) v1)) /\ exists j, (j < n)%nat /\ s = dotp u (minus (W j) v1).
  Lemma side_fold u : unit_vec u -> side_sep u (fold_left (fun sj v => let si := b2_dot u (vsub v v1) in if nlt si sj then si else sj) (map W (seq 0 n)) B2_MAX_FLOAT) /\
    - B2_MAX_FLOAT < fold_left (fun sj v => let si := b2_dot u (vsub v v1) in if nlt si sj then si else sj) (map W (seq 0 n)) B2_MAX_FLOAT.
  Proof.
    intros U. pose proof (n3 po Pr) as N3. fold n in N3. pose proof (min_fold (fun v => dotp u (minus v v1)) (map W (seq 0 n)) B2_MAX_FLOAT) as (A & B & C).
    change (fun sj v => let si := b2_dot u (vsub v v1) in if nlt si sj then si else sj) with (fun s v => if Rlt_bool (dotp u (minus v v1)) s then dotp u (minus v v1) else s).
    set (s := fold_left _ _ _) in *. assert (Nr : forall j, (j < n)%nat -> - B2_MAX_FLOAT < dotp u (minus (W j) v1) < B2_MAX_FLOAT) by (intros j Hj; apply dot_near; [exact U|apply Near, W_corner, Hj]).
    assert (B' : forall j, (j < n)%nat -> s <= dotp u (minus (W j) v1)) by (intros j Hj; apply B, in_map, in_seq; lia).
    assert (C' : exists j, (j < n)%nat /\ s = dotp u (minus (W j) v1)).
    { destruct C as [C|(v & Hv & C)]; [specialize (B' 0%nat ltac:(lia)); specialize (Nr 0%nat ltac:(lia)); lra|]. apply in_map_iff in Hv as (j & <- & Hj). apply in_seq in Hj. exists j. split; [lia|exact C]. }
    split; [split; assumption|]. destruct C' as (j & Hj & ->). apply Nr, Hj.
  Qed.
  Lemma edge_sep u : right_of e u -> exists s s' k, b2_compute_edge_separation (map W (seq 0 n)) v1 u = EpAxis s AxEdgeA k s' /\ side_of e s /\ side_sep s s' /\
    forall t, side_of e t -> exists j, (j < n)%nat /\ dotp t (minus (W j) v1) <= s'.
  Proof.
    intros H. pose proof (proj1 H) as U. assert (Eo : vneg u = opposite u) by reflexivity. unfold b2_compute_edge_separation. cbn [fold_left fst snd]. rewrite Eo.
    destruct (side_fold u U) as (S1 & M1). destruct (side_fold (opposite u) (unit_opposite u U)) as (S2 & M2).
    match type of M1 with _ < ?x => set (f1 := x) in * end. match type of M2 with _ < ?x => set (f2 := x) in * end. clearbody f1 f2. cbn [ax_separation]. change (@nlt R R_Num) with Rlt_bool. rewrite (Rlt_bool_true (nneg B2_MAX_FLOAT) f1) by exact M1. cbn [ax_separation].
    assert (T : forall t, side_of e t -> exists j, (j < n)%nat /\ (dotp t (minus (W j) v1) <= f1 \/ dotp t (minus (W j) v1) <= f2)).
    { intros t Ht. apply (side_two u t H) in Ht as [->| ->]; [destruct S1 as (_ & j & Hj & E)|destruct S2 as (_ & j & Hj & E)]; exists j; (split; [exact Hj|]); (left; lra) || (right; lra). }
    destruct (Rlt_bool_spec f1 f2) as [G|G]; do 3 eexists; (split; [reflexivity|]).
    - split; [apply (side_two u _ H); now right|]. split; [exact S2|]. intros t Ht. destruct (T t Ht) as (j & Hj & K). exists j. split; [exact Hj|lra].
    - split; [now left|]. split; [exact S1|]. intros t Ht. destruct (T t Ht) as (j & Hj & K). exists j. split; [exact Hj|lra].
  Qed.

  (** the separation of the faces *)
  Definition fgap (i : nat) : R := Rmin (dotp (M i) (minus v1 (W i))) (dotp (M i) (minus v2 (W i))).
  Lemma min_rmin (a b : R) : b2_min a b = Rmin a b.
  Proof. unfold b2_min. rops. unfold Rmin. destruct (Rle_dec a b), (Rlt_bool_spec a b); try lra; try reflexivity. Qed.
  Lemma fgap_eq i : b2_min (b2_dot (vneg (M i)) (vsub (W i) v1)) (b2_dot (vneg (M i)) (vsub (W i) v2)) = fgap i.
  Proof. rewrite min_rmin. unfold fgap. generalize (M i) (W i). intros a b. destruct a, b, v1, v2. f_equal; unfold dotp, minus; rmathc; ring. Qed.
  Lemma M_unit i : (i < n)%nat -> unit_vec (M i).
  Proof. intros H. destruct (edge_facts po Pr i H) as (U & _). now apply unit_turned. Qed.
  Lemma fgap_near i : (i < n)%nat -> - B2_MAX_FLOAT < fgap i.
  Proof.
    intros H. pose proof (M_unit i H) as U. destruct (Near _ (W_corner i H)) as (D1 & D2). rewrite dist2_sym in D1, D2. destruct (dot_near _ _ _ U D1) as (A & _), (dot_near _ _ _ U D2) as (B & _). unfold fgap, Rmin. destruct (Rle_dec _ _); assumption.
  Qed.
  Lemma face_sep : exists k, b2_compute_polygon_separation (map W (seq 0 n)) (map M (seq 0 n)) v1 v2 = Ok (EpAxis (vneg (M k)) AxEdgeB (Some k) (fgap k)) /\ (k < n)%nat /\ forall i, (i < n)%nat -> fgap i <= fgap k.
  Proof.
    pose proof (n3 po Pr) as N3. fold n in N3. unfold b2_compute_polygon_separation, for_range. rewrite map_length, seq_length, Nat.sub_0_r.
    match goal with |- exists k, for_from ?nn ?lo ?f ?s0 = _ /\ _ => destruct (for_from_inv (fun i (ax : ep_axis) => (i = 0%nat /\ ax = s0) \/ exists k, (k < n)%nat /\ ax = EpAxis (vneg (M k)) AxEdgeB (Some k) (fgap k) /\ forall h, (h < i)%nat -> fgap h <= fgap k) f nn lo s0) as (ax & E & P) end.
    - left. auto.
    - intros i ax Hi H. assert (Hi' : (i < n)%nat) by lia. rewrite !get_map by exact Hi'. cbn [bind]. cbv zeta. rewrite fgap_eq. eexists. split; [reflexivity|]. right. change (@nlt R R_Num) with Rlt_bool. destruct H as [(-> & ->)|(k & Hk & -> & Mx)]; cbn [ax_separation].
      + rewrite (Rlt_bool_true (nneg B2_MAX_FLOAT) (fgap 0)) by (apply fgap_near, Hi'). exists 0%nat. split; [exact Hi'|]. split; [reflexivity|]. intros h Hh. replace h with 0%nat by lia. lra.
      + destruct (Rlt_bool_spec (fgap k) (fgap i)) as [G|G]; [exists i|exists k]; (split; [assumption|]); (split; [reflexivity|]); intros h Hh; (destruct (Nat.eq_dec h i) as [->|]; [lra|]); specialize (Mx h ltac:(lia)); lra.
    - destruct P as [(P & _)|(k & Hk & -> & Mx)]; [lia|]. exists k. split; [exact E|]. split; [exact Hk|]. intros i Hi. apply Mx. lia.
  Qed.

  (** the incident edge *)
  Lemma argmin0 d : exists i, argmin_from0 d (map M (seq 0 n)) = Ok i /\ (i < n)%nat /\ forall j, (j < n)%nat -> dotp d (M i) <= dotp d (M j).
  Proof.
    pose proof (n3 po Pr) as N3. fold n in N3. unfold argmin_from0. rewrite get_map by lia. cbn [bind]. unfold for_range. rewrite map_length, seq_length.
    match goal with |- context [for_from ?nn ?lo ?f ?s0] => destruct (for_from_inv (fun i (st : R * nat) => let (s, k) := st in (k < n)%nat /\ s = dotp d (M k) /\ forall j, (j < i)%nat -> s <= dotp d (M j)) f nn lo s0) as ((s & k) & E & P) end.
    - split; [lia|]. split; [reflexivity|]. intros j Hj. replace j with 0%nat by lia. unfold dotp. rmathc. lra.
    - intros i (s & k) Hi (A & B & C). assert (Hi' : (i < n)%nat) by lia. rewrite get_map by exact Hi'. cbn [bind]. eexists. split; [reflexivity|]. change (@nlt R R_Num) with Rlt_bool. change (b2_dot d (M i)) with (dotp d (M i)).
      destruct (Rlt_bool_spec (dotp d (M i)) s) as [G|G]; (split; [assumption|]); (split; [auto|]); intros j Hj; (destruct (Nat.eq_dec j i) as [->|]; [lra|]); specialize (C j ltac:(lia)); lra.
    - rewrite E. cbn [bind]. exists k. split; [reflexivity|]. destruct P as (A & B & C). split; [exact A|]. intros j Hj. rewrite <- B. apply C. lia.
  Qed.
  Lemma deep_edge d i : unit_vec d -> (i < n)%nat -> (forall j, (j < n)%nat -> dotp d (M i) <= dotp d (M j)) -> exists w, (w = W i \/ w = W (after n i)) /\ deepest po xf d w.
  Proof.
    intros Ud Hi Mn. set (d' := rotv_t (xq xf) d). assert (Df : forall v, dotp d' v = dotp d (turned (xq xf) v)) by (intros v; unfold d', dotp, rotv_t, turned; cbn [vx vy]; rops; ring).
    assert (Ud' : unit_vec d') by now apply (unit_back xf Un).
    assert (Sup : forall v, inner po v -> dotp d' (V po i) <= dotp d' v \/ dotp d' (V po (after n i)) <= dotp d' v).
    { intros v Iv. destruct (support_edge po Pr (V2 (- vx d') (- vy d')) i v) as [G|G]; [|exact Hi| |exact Iv|left|right].
      - intros Z. unfold unit_vec in Ud'. clearbody d'. injection Z as Z1 Z2. assert (X0 : vx d' = 0) by lra. assert (Y0 : vy d' = 0) by lra. rewrite X0, Y0 in Ud'. lra.
      - intros j Hj. specialize (Mn j Hj). unfold PolyPoly.M in Mn. rewrite <- !Df in Mn. unfold dotp in *; cbn [vx vy]. lra.
      - unfold dotp in *; cbn [vx vy] in G. lra.
      - unfold dotp in *; cbn [vx vy] in G. fold n in G. lra. }
    assert (Wd : forall v, dotp d (place xf v) = dotp d' v + dotp d (xp xf)) by (intros v; rewrite Df; unfold dotp, place, turned; cbn [vx vy]; ring).
    assert (Inn : forall w', corner po xf w' -> exists v, inner po v /\ w' = place xf v).
    { intros w' Cw. apply corner_inv in Cw as (j & Hj & ->); [|exact Pr]. exists (V po j). split; [now apply vertex_inner|reflexivity]. }
    destruct (Rle_lt_dec (dotp d' (V po i)) (dotp d' (V po (after n i)))) as [G|G].
    - exists (W i). split; [now left|]. split; [now apply W_corner|]. intros w' Cw. destruct (Inn w' Cw) as (v & Iv & ->). unfold PolyPoly.W. rewrite !Wd. destruct (Sup v Iv); lra.
    - exists (W (after n i)). split; [now right|]. split; [apply W_corner, (af_lt po Pr)|]. intros w' Cw. destruct (Inn w' Cw) as (v & Iv & ->). unfold PolyPoly.W. rewrite !Wd. destruct (Sup v Iv); lra.
  Qed.

  (** ** after the reference is chosen: b2_collide_edge.rs:331-475 *)
  Definition ref_tail (m : manifold R) (edge1 : vec2 R) (verts normals : list (vec2 R)) (radius : R) (primary : @ep_axis R) : res (manifold R) :=
    let is_a := is_edge_a (ax_type primary) in
    bind (if is_a then
        bind (argmin_from0 (ax_normal primary) normals) (fun i1 =>
        let i2 := if Nat.ltb (i1 + 1)%nat (length verts) then (i1 + 1)%nat else 0%nat in
        bind (get verts i1) (fun w1 => bind (get verts i2) (fun w2 =>
        Ok (CV w1 (CId 0 (as_u8 i1) EFace EVertex), CV w2 (CId 0 (as_u8 i2) EFace EVertex), (0%nat, 1%nat, v1, v2, ax_normal primary, vneg edge1, edge1)))))
      else
        bind (unwrap (ax_index primary)) (fun i1 =>
        let i2 := if Nat.ltb (i1 + 1)%nat (length verts) then (i1 + 1)%nat else 0%nat in
        bind (get verts i1) (fun w1 => bind (get verts i2) (fun w2 => bind (get normals i1) (fun n1 =>
        let side := V2 (vy n1) (nneg (vx n1)) in
        Ok (CV v2 (CId 1 (as_u8 i1) EVertex EFace), CV v1 (CId 0 (as_u8 i1) EVertex EFace), (i1, i2, w1, w2, n1, side, vneg side))))))) (fun '(cp0, cp1, rf) =>
    let '(rf_i1, rf_i2, rf_v1, rf_v2, rf_normal, side_normal1, side_normal2) := rf in
    clip_tail (MF (mf_points m) (mf_local_normal m) (mf_local_point m) (if is_a then MFaceA else MFaceB) 0) cp0 cp1 rf_v1 rf_v2 rf_normal side_normal1 side_normal2 radius rf_i1 rf_i2
      (if is_a then Ok (rf_normal, rf_v1) else bind (get (po_normals po) rf_i1) (fun n => bind (get (po_vertices po) rf_i1) (fun v => Ok (n, v))))
      (fun v => if is_a then xfv_t xf v else v) (fun id => if is_a then id else swap_id id)).
  Definition smooth (edge1 : vec2 R) (edge_axis primary : @ep_axis R) : option (@ep_axis R) :=
    if ed_one_sided e then
      let edge0 := snd (vnormalize (vsub v1 (ed_v0 e))) in
      let normal0 := V2 (vy edge0) (nneg (vx edge0)) in
      let convex1 := nle (nofZ 0) (b2_cross edge0 edge1) in
      let edge2 := snd (vnormalize (vsub (ed_v3 e) v2)) in
      let normal2 := V2 (vy edge2) (nneg (vx edge2)) in
      let convex2 := nle (nofZ 0) (b2_cross edge1 edge2) in
      let sin_tol := nlit 1 10 in
      let side1 := nle (b2_dot (ax_normal primary) edge1) (nofZ 0) in
      if side1 then if convex1 then if nlt sin_tol (b2_cross (ax_normal primary) normal0) then None else Some primary else Some edge_axis
      else if convex2 then if nlt sin_tol (b2_cross normal2 (ax_normal primary)) then None else Some primary else Some edge_axis
    else Some primary.
  Lemma edge_unfold m xa xb : xf = b2_mul_t_transform xa xb -> b2_collide_edge_and_polygon m e xa po xb =
    (let edge1 := snd (vnormalize (vsub v2 v1)) in let normal1 := V2 (vy edge1) (nneg (vx edge1)) in let r := po_radius po + ed_radius e in
    if ed_one_sided e && Rlt_bool (b2_dot normal1 (vsub (xfv xf (po_centroid po)) v1)) 0 then Ok (mf_none m) else
    let edge_axis := b2_compute_edge_separation (map W (seq 0 n)) v1 normal1 in
    if Rlt_bool r (ax_separation edge_axis) then Ok (mf_none m) else
    bind (b2_compute_polygon_separation (map W (seq 0 n)) (map M (seq 0 n)) v1 v2) (fun polygon_axis =>
    if Rlt_bool r (ax_separation polygon_axis) then Ok (mf_none m) else
    match smooth edge1 edge_axis (if Rlt_bool (98 / 100 * (ax_separation edge_axis - r) + 1 / 1000) (ax_separation polygon_axis - r) then polygon_axis else edge_axis) with
    | None => Ok (mf_none m)
    | Some primary => ref_tail m edge1 (map W (seq 0 n)) (map M (seq 0 n)) r primary
    end)).
  Proof.
    intros Hx. unfold b2_collide_edge_and_polygon. rewrite <- Hx.
    rewrite (map_res_map (fun i => bind (get (po_vertices po) i) (fun v => Ok (xfv xf v))) W (seq 0 (po_count po))).
    2:{ intros i Hi. apply in_seq in Hi. rewrite (get_V po Pr i) by lia. cbn [bind]. now rewrite (xfv_place xf). }
    rewrite (map_res_map (fun i => bind (get (po_normals po) i) (fun v => Ok (rotv (xq xf) v))) M (seq 0 (po_count po))).
    2:{ intros i Hi. apply in_seq in Hi. rewrite (get_N po Pr i) by lia. cbn [bind]. now rewrite rotv_turned. }
    reflexivity.
  Qed.
  Variable u : vec2 R.
  Hypothesis Hu : right_of e u.
  Let r := po_radius po + ed_radius e.
  Lemma side_strip s a b w : side_of e s -> (in_strip (face_dir u) a b w <-> in_strip (minus v2 v1) a b w) /\ (dotp (face_dir u) a < dotp (face_dir u) w < dotp (face_dir u) b <-> dotp (minus v2 v1) a < dotp (minus v2 v1) w < dotp (minus v2 v1) b).
  Proof.
    intros _. destruct Hu as (U & k & K & X & Y). fold v1 v2 in X, Y. assert (D : forall x, dotp (minus v2 v1) x = k * dotp (face_dir u) x) by (intros x; unfold dotp, minus, face_dir; cbn [vx vy]; rewrite X, Y; ring).
    unfold in_strip. rewrite !D. split; split; intros (A & B); split; nra.
  Qed.
  Lemma best_side_of s s' w : side_of e s -> side_sep s s' -> deepest po xf s w -> (forall t, side_of e t -> exists j, (j < n)%nat /\ dotp t (minus (W j) v1) <= s') -> best_side e po xf s w /\ dotp s (minus w v1) = s'.
  Proof.
    intros Hs Sp Dw Bt. assert (Eq : dotp s (minus w v1) = s').
    { destruct Sp as (Lo & j & Hj & ->). pose proof (proj2 Dw _ (W_corner j Hj)) as Q. destruct (corner_inv po xf w Pr (proj1 Dw)) as (jw & Hjw & Ew). specialize (Lo jw Hjw). rewrite <- Ew in Lo. unfold dotp, minus in *; cbn [vx vy] in *. lra. }
    split; [|exact Eq]. split; [exact Hs|]. split; [exact Dw|]. intros t Ht. destruct (Bt t Ht) as (j & Hj & L). exists (W j). split; [now apply W_corner|]. fold v1. lra.
  Qed.
  Lemma best_side_some s s' : side_of e s -> side_sep s s' -> (forall t, side_of e t -> exists j, (j < n)%nat /\ dotp t (minus (W j) v1) <= s') -> exists w, best_side e po xf s w /\ dotp s (minus w v1) = s'.
  Proof.
    intros Hs Sp Bt. pose proof Sp as (Lo & j & Hj & E). exists (W j). apply best_side_of; auto. split; [now apply W_corner|]. intros w Cw. apply corner_inv in Cw as (i & Hi & ->); [|exact Pr]. specialize (Lo i Hi). rewrite E in Lo. unfold dotp, minus in *; cbn [vx vy] in *. lra.
  Qed.
  Lemma best_face_some k : (k < n)%nat -> (forall i, (i < n)%nat -> fgap i <= fgap k) -> (forall t, side_of e t -> exists w, corner po xf w /\ preferred r (dotp t (minus w v1)) < fgap k) ->
    exists w, best_face e po xf r k (M k) (W k) (W (after n k)) w /\ dotp (M k) (minus w (W k)) = fgap k.
  Proof.
    intros Hk Mx Bt. assert (D : exists w, deep_end e (M k) w /\ dotp (M k) (minus w (W k)) = fgap k).
    { unfold fgap, Rmin, deep_end. fold v1 v2. destruct (Rle_dec _ _) as [L|L]; [exists v1|exists v2]; (split; [|reflexivity]); (split; [auto|]); unfold dotp, minus in L; cbn [vx vy] in L; unfold dotp; lra. }
    destruct D as (w & Dw & Ew). exists w. split; [|exact Ew]. split; [now apply face_at|]. split; [exact Dw|]. rewrite Ew. split; [|exact Bt]. intros j f q q' Fc. apply face_inv in Fc as (Hj & -> & -> & _); [|exact Pr]. exact (Mx j Hj).
  Qed.
  Lemma side_tail (m : manifold R) s k s' : length (mf_points m) = 2%nat -> side_of e s -> side_sep s s' -> s' <= r -> (forall t, side_of e t -> exists j, (j < n)%nat /\ dotp t (minus (W j) v1) <= s') ->
    exists m', ref_tail m (face_dir u) (map W (seq 0 n)) (map M (seq 0 n)) r (EpAxis s AxEdgeA k s') = Ok m' /\ (mf_count m' <= 2)%nat /\ mf_type m' = MFaceA /\
      ((0 < mf_count m')%nat -> points_on_side e po xf r m') /\ (mf_count m' = 0%nat -> exists w, side_missed e po xf s w /\ dotp s (minus w v1) = s').
  Proof.
    intros Lm Hs Sp Sr Bt. unfold ref_tail. cbn [ax_type ax_normal is_edge_a]. cbv zeta. destruct (argmin0 s) as (i & -> & Hi & Mn). cbn [bind]. rewrite map_length, seq_length.
    replace (if Nat.ltb (i + 1) n then (i + 1)%nat else 0%nat) with (after n i) by (unfold after; rewrite Nat.add_1_r; reflexivity).
    pose proof (af_lt po Pr i) as Ha. fold n in Ha. rewrite !get_map by assumption. cbn [bind].
    destruct (deep_edge s i (side_unit s Hs) Hi Mn) as (w & Ww & Dw).
    match goal with |- context [clip_tail ?m0 ?c0 ?c1 ?a ?b ?nn ?s1 ?s2 ?rr ?i1 ?i2 (Ok (?ln, ?lp)) ?lc ?idf] =>
      destruct (clip_tail_ok m0 c0 c1 (face_dir u) a b nn s1 s2 rr i1 i2 ln lp lc idf Lm eq_refl) as (m' & E & C2 & Ty & Nl & Pt & Wi) end.
    { intros v. unfold dotp, vneg; cbn [vx vy]. rops. ring. } { reflexivity. }
    destruct (best_side_of s s' w Hs Sp Dw Bt) as (Be & Eq).
    exists m'. split; [exact E|]. split; [exact C2|]. split; [exact Ty|]. cbn [cv_v] in Pt, Wi. split.
    - intros C0. destruct (Nl C0) as (N1 & L1). exists s, w, i, (M i), (W i), (W (after n i)). split; [exact Be|]. split; [now apply face_at|]. split; [exact N1|]. split; [exact L1|].
      intros h Hh. destruct (Pt h Hh) as (p & v & Ep & El & Sg & Sv & St). exists p. split; [exact Ep|]. rewrite El, (place_local xf Un). split; [exact Sg|]. split; [exact Sv|]. apply (side_strip s v1 v2 v Hs), St.
    - intros C0. exists w. split; [|exact Eq]. split; [exact Be|]. intros Ov. apply (side_strip s v1 v2 w Hs) in Ov. specialize (Wi w Ww ltac:(lra) Ov). lia.
  Qed.
  Lemma face_tail (m : manifold R) k : length (mf_points m) = 2%nat -> (k < n)%nat -> fgap k <= r -> (forall i, (i < n)%nat -> fgap i <= fgap k) ->
    (forall t, side_of e t -> exists w, corner po xf w /\ preferred r (dotp t (minus w v1)) < fgap k) ->
    exists m', ref_tail m (face_dir u) (map W (seq 0 n)) (map M (seq 0 n)) r (EpAxis (vneg (M k)) AxEdgeB (Some k) (fgap k)) = Ok m' /\ (mf_count m' <= 2)%nat /\ mf_type m' = MFaceB /\
      ((0 < mf_count m')%nat -> points_on_face e po xf r m') /\ (mf_count m' = 0%nat -> beside_face e po xf r).
  Proof.
    intros Lm Hk Fr Mx Bt. unfold ref_tail. cbn [ax_type ax_normal ax_index is_edge_a unwrap bind]. cbv zeta. rewrite map_length, seq_length.
    replace (if Nat.ltb (k + 1) n then (k + 1)%nat else 0%nat) with (after n k) by (unfold after; rewrite Nat.add_1_r; reflexivity).
    pose proof (af_lt po Pr k) as Ha. fold n in Ha. rewrite !get_map by assumption. cbn [bind]. rewrite (get_N po Pr k Hk), (get_V po Pr k Hk). cbn [bind].
    match goal with |- context [clip_tail ?m0 ?c0 ?c1 ?a ?b ?nn ?s1 ?s2 ?rr ?i1 ?i2 (Ok (?ln, ?lp)) ?lc ?idf] =>
      destruct (clip_tail_ok m0 c0 c1 (face_dir (M k)) a b nn s1 s2 rr i1 i2 ln lp lc idf Lm eq_refl) as (m' & E & C2 & Ty & Nl & Pt & Wi) end.
    { intros v. generalize (M k). intros x. unfold dotp, face_dir; cbn [vx vy]. rops. ring. } { intros v. generalize (M k). intros x. unfold dotp, face_dir, vneg; cbn [vx vy]. rops. ring. }
    destruct (best_face_some k Hk Mx Bt) as (w & Be & Ew). pose proof (proj1 (proj2 Be)) as Dw.
    exists m'. split; [exact E|]. split; [exact C2|]. split; [exact Ty|]. cbn [cv_v] in Pt, Wi. split.
    - intros C0. destruct (Nl C0) as (N1 & L1). exists k, (M k), (W k), (W (after n k)), w. split; [exact Be|]. split; [now rewrite N1|]. split; [now rewrite L1|].
      intros h Hh. destruct (Pt h Hh) as (p & v & Ep & El & Sg & Sv & St). exists p. split; [exact Ep|]. rewrite El. split; [|split; assumption]. destruct Sg as (t & T & ->). exists (1 - t). split; [lra|]. fold v1 v2. generalize v1 v2. clear. intros a b. unfold along. apply vec2_ext; cbn [vx vy]; ring.
    - intros C0. exists k, (M k), (W k), (W (after n k)), w. split; [exact Be|]. intros Ov. destruct Dw as (Ww & _). specialize (Wi w ltac:(tauto) ltac:(lra) Ov). lia.
  Qed.

  (** ** the whole function *)
  Lemma apart_side_sep s' : (forall t, side_of e t -> exists j, (j < n)%nat /\ dotp t (minus (W j) v1) <= s') -> s' <= r -> ~ apart_side e po xf r.
  Proof. intros H L (t & Ht & A). destruct (H t Ht) as (j & Hj & K). specialize (A _ (W_corner j Hj)). fold v1 in A. lra. Qed.
  Lemma face_fgap i f p p' : face po xf i f p p' -> (i < n)%nat /\ f = M i /\ p = W i /\ Rmin (dotp f (minus v1 p)) (dotp f (minus v2 p)) = fgap i.
  Proof. intros F. apply face_inv in F as (Hi & -> & -> & _); [|exact Pr]. auto. Qed.
  Lemma smooth_ok ea pa : long_neighbours e ->
    match smooth (face_dir u) ea pa with
    | None => ed_one_sided e = true /\ of_neighbour e (ax_normal pa)
    | Some x => x = pa \/ (x = ea /\ ed_one_sided e = true)
    end.
  Proof.
    intros Ln. unfold smooth. destruct (ed_one_sided e) eqn:Os; [|now left]. destruct (Ln Os) as (L0 & L2). fold v1 in L0. fold v2 in L2.
    destruct (normal_along _ _ L0) as (n0 & E0 & H0), (normal_along _ _ L2) as (n2 & E2 & H2). rewrite E0, E2. cbv zeta. destruct Hu as (U & q & Q & X & Y). fold v1 v2 in X, Y. destruct H0 as (U0 & q0 & Q0 & X0 & Y0), H2 as (U2 & q2 & Q2 & X2 & Y2).
    change (nlit 1 10) with (1 / 10). change (@nle R R_Num) with Rle_bool. change (@nlt R R_Num) with Rlt_bool. change (nofZ 0) with 0.
    assert (F : forall x, V2 (vy (face_dir x)) (nneg (vx (face_dir x))) = x) by (intros x; unfold face_dir; apply vec2_ext; cbn [vx vy]; rops; ring). rewrite !F.
    assert (Dd : dotp (ax_normal pa) (minus v2 v1) = q * b2_dot (ax_normal pa) (face_dir u)) by (unfold dotp, minus, face_dir; rmathc; rewrite X, Y; ring).
    assert (C1 : crossp (minus v1 (ed_v0 e)) (minus v2 v1) = q0 * q * b2_cross (face_dir n0) (face_dir u)) by (unfold crossp, minus, face_dir; rmathc; rewrite X, Y, X0, Y0; ring).
    assert (C2 : crossp (minus v2 v1) (minus (ed_v3 e) v2) = q * q2 * b2_cross (face_dir u) (face_dir n2)) by (unfold crossp, minus, face_dir; rmathc; rewrite X, Y, X2, Y2; ring).
    assert (0 < q0 * q) by nra. assert (0 < q * q2) by nra.
    destruct (Rle_bool_spec (b2_dot (ax_normal pa) (face_dir u)) 0) as [S1|S1].
    - destruct (Rle_bool_spec 0 (b2_cross (face_dir n0) (face_dir u))) as [K|K]; [|now right]. destruct (Rlt_bool_spec (1 / 10) (b2_cross (ax_normal pa) n0)) as [G|G]; [|now left]. split; [reflexivity|]. left. fold v1 v2. cbv zeta. split; [nra|]. split; [rewrite C1; nra|]. exists n0. split; [|exact G]. split; [exact U0|]. exists q0. auto.
    - destruct (Rle_bool_spec 0 (b2_cross (face_dir u) (face_dir n2))) as [K|K]; [|now right]. destruct (Rlt_bool_spec (1 / 10) (b2_cross n2 (ax_normal pa))) as [G|G]; [|now left]. split; [reflexivity|]. right. fold v1 v2. cbv zeta. split; [nra|]. split; [rewrite C2; nra|]. exists n2. split; [|exact G]. split; [exact U2|]. exists q2. auto.
  Qed.
  Lemma edge_polygon_ok (m : manifold R) xa xb : xf = b2_mul_t_transform xa xb -> length (mf_points m) = 2%nat -> long_neighbours e -> exists m', b2_collide_edge_and_polygon m e xa po xb = Ok m' /\ (mf_count m' <= 2)%nat /\
    ((mf_count m' = 0%nat /\ ed_one_sided e = true /\ behind e po xf) \/
     (mf_count m' = 0%nat /\ (apart_side e po xf r \/ apart_face e po xf r)) \/
     (~ apart_side e po xf r /\ ~ apart_face e po xf r /\ ~ (ed_one_sided e = true /\ behind e po xf) /\
      ((mf_count m' = 0%nat /\ ed_one_sided e = true /\ exists d, direction_of e po xf r d /\ of_neighbour e d) \/
       (mf_type m' = MFaceA /\ ((0 < mf_count m')%nat -> points_on_side e po xf r m') /\ (mf_count m' = 0%nat -> (exists d w, side_missed e po xf d w) /\ (ed_one_sided e = false -> beside_side e po xf r))) \/
       (mf_type m' = MFaceB /\ ((0 < mf_count m')%nat -> points_on_face e po xf r m') /\ (mf_count m' = 0%nat -> beside_face e po xf r))))).
  Proof.
    intros Hx Lm Ln. rewrite (edge_unfold m xa xb Hx). cbv zeta. fold r.
    destruct (normal_along v1 v2 Long) as (u' & Eu & Hu'). rewrite <- (along_unique _ _ _ _ Hu Hu') in Eu. clear u' Hu'. rewrite Eu.
    assert (F : forall x, V2 (vy (face_dir x)) (nneg (vx (face_dir x))) = x) by (intros x; unfold face_dir; apply vec2_ext; cbn [vx vy]; rops; ring). rewrite !F. rewrite (xfv_place xf).
    destruct (ed_one_sided e && Rlt_bool (b2_dot u (vsub (place xf (po_centroid po)) v1)) 0) eqn:Eb.
    { apply andb_prop in Eb as (Os & B). apply Rlt_bool_true' in B. exists (mf_none m). split; [reflexivity|]. split; [cbn; lia|]. left. split; [reflexivity|]. split; [exact Os|]. exists u. split; [exact Hu|exact B]. }
    assert (Nb : ~ (ed_one_sided e = true /\ behind e po xf)).
    { intros (Os & t & Ht & B). rewrite (along_unique _ _ _ _ Ht Hu) in B. rewrite Os in Eb. cbn [andb] in Eb. destruct (Rlt_bool_spec (b2_dot u (vsub (place xf (po_centroid po)) v1)) 0) as [G|G]; [discriminate|]. change (0 <= dotp u (minus (place xf (po_centroid po)) v1)) in G. fold v1 in B. lra. }
    destruct (edge_sep u Hu) as (s & s' & ks & -> & Hs & Ss & Bs). cbn [ax_separation].
    destruct (Rlt_bool_spec r s') as [Gs|Gs].
    { exists (mf_none m). split; [reflexivity|]. split; [cbn; lia|]. right. left. split; [reflexivity|]. left. exists s. split; [exact Hs|]. intros w Cw. apply corner_inv in Cw as (j & Hj & ->); [|exact Pr]. pose proof (proj1 Ss j Hj). fold v1. lra. }
    destruct face_sep as (k & -> & Hk & Mx). cbn [bind ax_separation].
    destruct (Rlt_bool_spec r (fgap k)) as [Gf|Gf].
    { exists (mf_none m). split; [reflexivity|]. split; [cbn; lia|]. right. left. split; [reflexivity|]. right. exists k, (M k), (W k), (W (after n k)). split; [now apply face_at|]. fold v1 v2. unfold fgap, Rmin in Gf. destruct (Rle_dec _ _); lra. }
    assert (Na : ~ apart_side e po xf r) by exact (apart_side_sep s' Bs Gs).
    assert (Nf : ~ apart_face e po xf r). { intros (i & f & p & p' & Fc & A & B). apply face_fgap in Fc as (Hi & -> & -> & Eg). specialize (Mx i Hi). rewrite <- Eg in Mx. fold v1 in A. fold v2 in B. unfold Rmin in Mx. destruct (Rle_dec _ _); lra. }
    assert (SideT : (ed_one_sided e = true \/ forall i f p p', face po xf i f p p' -> Rmin (dotp f (minus v1 p)) (dotp f (minus v2 p)) <= preferred r s') -> exists m', ref_tail m (face_dir u) (map W (seq 0 n)) (map M (seq 0 n)) r (EpAxis s AxEdgeA ks s') = Ok m' /\ (mf_count m' <= 2)%nat /\
      (mf_type m' = MFaceA /\ ((0 < mf_count m')%nat -> points_on_side e po xf r m') /\ (mf_count m' = 0%nat -> (exists d w, side_missed e po xf d w) /\ (ed_one_sided e = false -> beside_side e po xf r)))).
    { intros Bf. destruct (side_tail m s ks s' Lm Hs Ss Gs Bs) as (m' & E & C2 & Ty & Pt & Mi). exists m'. split; [exact E|]. split; [exact C2|]. split; [exact Ty|]. split; [exact Pt|]. intros C0. destruct (Mi C0) as (w & Sm & Ew). split; [eauto|]. intros Os. exists s, w. split; [exact Sm|]. destruct Bf as [Bf|Bf]; [congruence|]. unfold face_worse. fold v1 v2. rewrite Ew. exact Bf. }
    destruct (Rlt_bool_spec (98 / 100 * (s' - r) + 1 / 1000) (fgap k - r)) as [Pk|Pk].
    - assert (Bt : forall t, side_of e t -> exists w, corner po xf w /\ preferred r (dotp t (minus w v1)) < fgap k) by (intros t Ht; destruct (Bs t Ht) as (j & Hj & L); exists (W j); split; [now apply W_corner|]; unfold preferred; lra).
      assert (Di : direction_of e po xf r (ax_normal (EpAxis (vneg (M k)) AxEdgeB (Some k) (fgap k)))) by (right; destruct (best_face_some k Hk Mx Bt) as (w & Be & _); exists k, (M k), (W k), (W (after n k)), w; split; [exact Be|reflexivity]).
      pose proof (smooth_ok (EpAxis s AxEdgeA ks s') (EpAxis (vneg (M k)) AxEdgeB (Some k) (fgap k)) Ln) as Sm. destruct (smooth _ _ _) as [x|].
      + destruct Sm as [->|(-> & Os)].
        * destruct (face_tail m k Lm Hk Gf Mx Bt) as (m' & E & C2 & T).
          exists m'. split; [exact E|]. split; [exact C2|]. right. right. auto 10.
        * destruct (SideT (or_introl Os)) as (m' & E & C2 & T). exists m'. split; [exact E|]. split; [exact C2|]. right. right. auto 10.
      + destruct Sm as (Os & Nn). exists (mf_none m). split; [reflexivity|]. split; [cbn; lia|]. right. right. split; [exact Na|]. split; [exact Nf|]. split; [exact Nb|]. left. split; [reflexivity|]. split; [exact Os|]. eexists. split; [exact Di|exact Nn].
    - assert (Bf : forall i f p p', face po xf i f p p' -> Rmin (dotp f (minus v1 p)) (dotp f (minus v2 p)) <= preferred r s') by (intros i f p p' Fc; apply face_fgap in Fc as (Hi & _ & _ & ->); specialize (Mx i Hi); unfold preferred; lra).
      assert (Di : direction_of e po xf r (ax_normal (EpAxis s AxEdgeA ks s'))) by (left; destruct (best_side_some s s' Hs Ss Bs) as (w & Be & Ew); exists w; split; [exact Be|]; intros i f p p' Fc; fold v1 v2; cbn [ax_normal]; rewrite Ew; eauto).
      pose proof (smooth_ok (EpAxis s AxEdgeA ks s') (EpAxis s AxEdgeA ks s') Ln) as Sm. destruct (smooth _ _ _) as [x|].
      + assert (x = EpAxis s AxEdgeA ks s') as -> by (destruct Sm as [->|(-> & _)]; reflexivity). destruct (SideT (or_intror Bf)) as (m' & E & C2 & T). exists m'. split; [exact E|]. split; [exact C2|]. right. right. auto 10.
      + destruct Sm as (Os & Nn). exists (mf_none m). split; [reflexivity|]. split; [cbn; lia|]. right. right. split; [exact Na|]. split; [exact Nf|]. split; [exact Nb|]. left. split; [reflexivity|]. split; [exact Os|]. eexists. split; [exact Di|exact Nn].
  Qed.
End EdgePoly.

(** ** what the function does, for edges and polygons anywhere *)
Section Anywhere.
  Variables (m : manifold R) (e : edge R) (xa : xform R) (po : polygon R) (xb xf : xform R).
  Hypothesis Ap : apt e xa po xb xf.
  Hypothesis Lm : length (mf_points m) = 2%nat.
  Let r := po_radius po + ed_radius e.
  Lemma whole : exists m', b2_collide_edge_and_polygon m e xa po xb = Ok m' /\ (mf_count m' <= 2)%nat /\
    ((mf_count m' = 0%nat /\ ed_one_sided e = true /\ behind e po xf) \/
     (mf_count m' = 0%nat /\ (apart_side e po xf r \/ apart_face e po xf r)) \/
     (~ apart_side e po xf r /\ ~ apart_face e po xf r /\ ~ (ed_one_sided e = true /\ behind e po xf) /\
      ((mf_count m' = 0%nat /\ ed_one_sided e = true /\ exists d, direction_of e po xf r d /\ of_neighbour e d) \/
       (mf_type m' = MFaceA /\ ((0 < mf_count m')%nat -> points_on_side e po xf r m') /\ (mf_count m' = 0%nat -> (exists d w, side_missed e po xf d w) /\ (ed_one_sided e = false -> beside_side e po xf r))) \/
       (mf_type m' = MFaceB /\ ((0 < mf_count m')%nat -> points_on_face e po xf r m') /\ (mf_count m' = 0%nat -> beside_face e po xf r))))).
  Proof.
    destruct Ap as (Ua & Ub & Se & Pr & Lg & Ln & Nr). destruct (normal_along (ed_v1 e) (ed_v2 e) Lg) as (u & _ & Hu).
    exact (edge_polygon_ok e po xf Pr (proj1 Se) Lg Nr u Hu m xa xb (seen_unique _ _ _ Ua Se) Lm Ln).
  Qed.
  Theorem edge_polygon_returns : exists m', b2_collide_edge_and_polygon m e xa po xb = Ok m' /\ (mf_count m' <= 2)%nat /\
    (apart_side e po xf r \/ apart_face e po xf r \/ (ed_one_sided e = true /\ behind e po xf) -> mf_count m' = 0%nat).
  Proof. destruct whole as (m' & E & C & K). exists m'. split; [exact E|]. split; [exact C|]. intros H. tauto. Qed.
  Theorem edge_polygon_points m' : b2_collide_edge_and_polygon m e xa po xb = Ok m' -> (0 < mf_count m')%nat ->
    ~ apart_side e po xf r /\ ~ apart_face e po xf r /\ ((mf_type m' = MFaceA /\ points_on_side e po xf r m') \/ (mf_type m' = MFaceB /\ points_on_face e po xf r m')).
  Proof.
    intros E C. destruct whole as (m2 & E2 & _ & K). rewrite E in E2. injection E2 as <-.
    destruct K as [(Z & _)|[(Z & _)|(N1 & N2 & _ & K)]]; try lia. split; [exact N1|]. split; [exact N2|]. destruct K as [(Z & _)|[(Ty & P & _)|(Ty & P & _)]]; [lia|left|right]; auto.
  Qed.
  Theorem edge_polygon_missed m' : b2_collide_edge_and_polygon m e xa po xb = Ok m' -> mf_count m' = 0%nat ->
    apart_side e po xf r \/ apart_face e po xf r \/ beside_side e po xf r \/ beside_face e po xf r \/ dropped e po xf r.
  Proof.
    intros E C. destruct whole as (m2 & E2 & _ & K). rewrite E in E2. injection E2 as <-. unfold dropped.
    destruct K as [(_ & Os & B)|[(_ & K)|(_ & _ & _ & [(_ & Os & D)|[(_ & _ & K)|(_ & _ & K)]])]]; [tauto|tauto|tauto| |tauto].
    destruct (K C) as (D & F). destruct (ed_one_sided e); [|tauto]. tauto.
  Qed.
  Theorem edge_polygon_front m' n : b2_collide_edge_and_polygon m e xa po xb = Ok m' -> (0 < mf_count m')%nat -> mf_type m' = MFaceA -> right_of e n -> mostly_front e po xf n -> mf_local_normal m' = n.
  Proof.
    intros E C Ty Hn (h & Ch & Hh). destruct (edge_polygon_points m' E C) as (_ & _ & [(_ & P)|(T2 & _)]); [|congruence]. destruct P as (s & w & i & n' & q & q' & (Hs & (Cw & Dw) & Be) & _ & -> & _).
    destruct (Be n (or_introl Hn)) as (w' & Cw' & L). apply (side_two e n s Hn) in Hs as [->| ->]; [reflexivity|]. exfalso. pose proof (Hh _ Cw') as H1. pose proof (Dw _ Ch) as H2. unfold dotp, opposite, minus in *. cbn [vx vy] in *. lra.
  Qed.
End Anywhere.
Lemma seen_exists xa xb : unit_rot (xq xa) -> unit_rot (xq xb) -> exists xf, seen xa xb xf.
Proof.
  intros Ua Ub. exists (b2_mul_t_transform xa xb). split.
  - unfold unit_rot in *. unfold b2_mul_t_transform, b2_mul_t_rot. cbn [xq rs rc]. rops. destruct (xq xa) as [a b], (xq xb) as [c d]. cbn [rs rc] in *. transitivity ((a * a + b * b) * (c * c + d * d)); [ring|]. rewrite Ua, Ub. ring.
  - intros v. rewrite <- (xfv_place (b2_mul_t_transform xa xb)), mul_t_transform_apply, <- (xfv_place xa), (xfv_place xb). now apply xfv_xfv_t.
Qed.
(* the distance of the two shapes *)
Lemma edge_apart_far e xa po xb xf r p q : proper po -> unit_rot (xq xa) -> seen xa xb xf -> 0 <= r -> apart_side e po xf r \/ apart_face e po xf r ->
  on_segment (place xa (ed_v1 e)) (place xa (ed_v2 e)) p -> in_polygon po xb q -> r * r < dist2 p q.
Proof.
  intros Pr Ua (Un & Se) Hr A (t & Ht & ->) (b & -> & Ib). rewrite <- Se. replace (along _ _ t) with (place xa (along (ed_v1 e) (ed_v2 e) t)) by (unfold place, along; apply vec2_ext; cbn [vx vy]; ring).
  rewrite (dist2_place xa Ua). set (z := along (ed_v1 e) (ed_v2 e) t). set (y := place xf b).
  assert (G : exists n, unit_vec n /\ r < dotp n (minus y z) \/ unit_vec n /\ r < dotp n (minus z y)).
  { destruct A as [(n & Hs & K)|(i & n & p & p' & F & K1 & K2)]; exists n.
    - left. split; [exact (side_unit e n Hs)|]. assert (Z : dotp n z = dotp n (ed_v1 e)).
      { assert (Q : dotp n (ed_v2 e) = dotp n (ed_v1 e)) by (destruct Hs as [(_ & k & _ & X & Y)|(_ & k & _ & X & Y)]; unfold dotp, opposite in *; cbn [vx vy] in *; nra). unfold z, along, dotp in *; cbn [vx vy]. nra. }
      assert (Y : dotp n (ed_v1 e) + r < dotp n y).
      { apply (HullRegion.proper_region po b Pr), HullRegion.in_hull_hull in Ib.
        assert (L : exists s, r < s /\ forall w, corner po xf w -> s <= dotp n (minus w (ed_v1 e))).
        { pose proof (min_fold (fun v => dotp n (minus v (ed_v1 e))) (map (PolyPoly.W po xf) (seq 0 (po_count po))) (r + 1)) as (_ & B & C). match type of C with ?x = _ \/ _ => exists x; set (s := x) in * end. split.
          - destruct C as [->|(w & Hw & ->)]; [lra|]. apply in_map_iff in Hw as (j & <- & Hj). apply in_seq in Hj. apply K, corner_at; [exact Pr|lia].
          - intros w Cw. apply corner_inv in Cw as (j & Hj & ->); [|exact Pr]. apply B, in_map, in_seq. lia. }
        destruct L as (s & Rs & L). assert (0 <= (vx n * rc (xq xf) + vy n * rs (xq xf)) * vx b + (- vx n * rs (xq xf) + vy n * rc (xq xf)) * vy b + (vx n * vx (xp xf) + vy n * vy (xp xf) - dotp n (ed_v1 e) - s)).
        { apply (DistProofs.hull_affine (used_vertices po)); [|exact Ib]. intros c Ic. apply In_nth_error in Ic as (j & Ej).
          assert (Hj : (j < po_count po)%nat). { rewrite <- (used_length po (proj1 Pr)). apply nth_error_Some. rewrite Ej. discriminate. }
          rewrite (vs_nth po Pr j Hj) in Ej. injection Ej as <-. specialize (L _ (corner_at po xf j Pr Hj)). unfold PolyPoly.W, place in L. unfold dotp, minus in *; cbn [vx vy] in *. lra. }
        unfold y, dotp, place in *; cbn [vx vy] in *. lra. }
      unfold dotp, minus in *; cbn [vx vy] in *. lra.
    - right. apply face_inv in F as (Hi & -> & -> & _); [|exact Pr]. destruct (edge_facts po Pr i Hi) as (Ui & _). split; [exact (unit_turned xf Un _ Ui)|].
      pose proof (inner_dot po Pr b i Ib Hi) as Da. rewrite <- (dotp_turned xf Un) in Da. fold (PolyPoly.M po xf i) in Da. fold (PolyPoly.W po xf i) y in Da. set (n := PolyPoly.M po xf i) in *. set (w := PolyPoly.W po xf i) in *. clearbody n w y.
      assert (Z : dotp n (minus z w) = (1 - t) * dotp n (minus (ed_v1 e) w) + t * dotp n (minus (ed_v2 e) w)) by (unfold z, along, dotp, minus; cbn [vx vy]; ring).
      assert (Y : dotp n (minus z y) = dotp n (minus z w) - dotp n (minus y w)) by (unfold dotp, minus; cbn [vx vy]; ring). rewrite Y, Z.
      assert (0 <= (1 - t) * (dotp n (minus (ed_v1 e) w) - r)) by (apply Rmult_le_pos; lra). assert (0 <= t * (dotp n (minus (ed_v2 e) w) - r)) by (apply Rmult_le_pos; lra).
      destruct (Req_dec t 0) as [->|Nt]; [lra|]. assert (0 < t * (dotp n (minus (ed_v2 e) w) - r)) by (apply Rmult_lt_0_compat; lra). lra. }
  apply Rnot_le_lt. intros D. destruct G as (n & [(U & G)|(U & G)]).
  - pose proof (dot_bound n (minus y z) r U Hr) as B. rewrite dist2_sym in D. specialize (B D). lra.
  - pose proof (dot_bound n (minus z y) r U Hr D) as B. lra.
Qed.
