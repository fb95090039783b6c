(** The two points of a manifold have different feature ids, for any numbers. *)
From Coq Require Import ZArith List Arith Lia Bool.
From Verif Require Import Base ListFacts Num Math Collision Manifold ShapeModel CollideModel DynModel WorldModel NarrowModel IdSpec.
Import ListNotations.

Section Ids.
  Context {T : Type} `{NT : Num T}.

  Lemma u8_small n : n <= 8 -> as_u8 n = Z.of_nat n.
  Proof. intros H. unfold as_u8. apply Z.mod_small. lia. Qed.
  Lemma clip_ids (v0 v1 : clip_vertex T) n off k out : b2_clip_segment_to_line v0 v1 n off k = Ok out ->
    length out <= 2 /\ forall c0 c1, out = [c0; c1] -> (c0 = v0 /\ c1 = v1) \/ ((c0 = v0 \/ c0 = v1) /\ cv_id c1 = CId (as_u8 k) (index_b (cv_id v0)) EVertex EFace).
  Proof.
    unfold b2_clip_segment_to_line. cbv zeta. destruct (nle _ _), (nle _ _), (nlt _ _); cbn [app length Nat.eqb b2_assert bind]; try discriminate; intros [= <-]; (split; [cbn; lia|]); intros c0 c1; try discriminate; intros [= <- <-]; auto.
  Qed.
  (* ids after both cuts: [bad] says that a cut-off end gets the id of the other end *)
  Lemma clipped_ids (v0 v1 c0 c1 d0 d1 : clip_vertex T) n1 o1 k1 n2 o2 k2 : b2_clip_segment_to_line v0 v1 n1 o1 k1 = Ok [c0; c1] -> b2_clip_segment_to_line c0 c1 n2 o2 k2 = Ok [d0; d1] ->
    cv_id v0 <> cv_id v1 -> as_u8 k1 <> as_u8 k2 -> (forall v k b, v = v0 \/ v = v1 -> k = k1 \/ k = k2 -> b = index_b (cv_id v0) \/ b = index_b (cv_id v1) -> cv_id v <> CId (as_u8 k) b EVertex EFace) -> cv_id d0 <> cv_id d1.
  Proof.
    intros E1 E2 Nv Nk Nb. apply clip_ids in E1 as (_ & E1). apply clip_ids in E2 as (_ & E2). specialize (E1 _ _ eq_refl). specialize (E2 _ _ eq_refl).
    assert (Ib : index_b (cv_id c0) = index_b (cv_id v0) \/ index_b (cv_id c0) = index_b (cv_id v1)) by (destruct E1 as [(-> & ->)|([->| ->] & _)]; auto).
    assert (D : forall v, v = v0 \/ v = v1 -> cv_id v <> CId (as_u8 k2) (index_b (cv_id c0)) EVertex EFace) by (intros v Hv; apply Nb; auto).
    destruct E2 as [(-> & ->)|(K & I2)].
    - destruct E1 as [(-> & ->)|(K & I1)]; [exact Nv|]. rewrite I1. apply Nb; auto.
    - rewrite I2. destruct E1 as [(-> & ->)|(K1 & I1)].
      + destruct K as [->| ->]; apply D; auto.
      + destruct K as [->| ->].
        * apply D. exact K1.
        * rewrite I1. intros [= A]. congruence.
  Qed.
  Lemma keep_ids (pts : list (mpoint T)) out sp r local idf pts' p q : keep_points pts out sp r local idf = Ok (pts', 2) -> nth_error pts' 0 = Some p -> nth_error pts' 1 = Some q ->
    exists d0 d1 l, out = d0 :: d1 :: l /\ mp_id p = idf (cv_id d0) /\ mp_id q = idf (cv_id d1).
  Proof.
    unfold keep_points, for_range. cbn [B2_MAX_MANIFOLD_POINTS Nat.sub for_from]. intros H P Q. destruct out as [|d0 [|d1 l]]; cbn [get nth_error bind] in H; try discriminate.
    { destruct (nle _ _); cbn [bind] in H; [|discriminate]. destruct (set_mpoint pts 0 _ _); cbn [bind] in H; discriminate. }
    exists d0, d1, l. split; [reflexivity|]. destruct (nle (sp (cv_v d0)) r).
    - destruct (set_mpoint pts 0 _ _) as [p1| |] eqn:E1; cbn [bind] in H; try discriminate. destruct (nle (sp (cv_v d1)) r); cbn [bind] in H; [|discriminate].
      destruct (set_mpoint p1 1 _ _) as [p2| |] eqn:E2; cbn [bind] in H; try discriminate. injection H as ->.
      unfold set_mpoint in E1, E2. destruct pts as [|q0 [|q1 tl]]; cbn in E1; try discriminate; injection E1 as <-; cbn in E2; try discriminate; injection E2 as <-. cbn in P, Q. injection P as <-. injection Q as <-. auto.
    - cbn [bind] in H. destruct (nle (sp (cv_v d1)) r); cbn [bind] in H; [|discriminate]. destruct (set_mpoint pts 0 _ _); cbn [bind] in H; discriminate.
  Qed.
  Lemma swap_inj a b : swap_id a = swap_id b -> a = b.
  Proof. destruct a, b. unfold swap_id. cbn. intros [= -> -> -> ->]. reflexivity. Qed.
  Lemma next_ne n i : 2 <= n -> i < n -> i <> (if Nat.ltb (i + 1) n then (i + 1) else 0).
  Proof. intros H1 H2. destruct (Nat.ltb_spec (i + 1) n); lia. Qed.
  Lemma next_lt n i : 2 <= n -> (if Nat.ltb (i + 1) n then (i + 1) else 0) < n.
  Proof. intros H1. destruct (Nat.ltb_spec (i + 1) n); lia. Qed.
  Lemma argmin_lt n l cnt i : argmin_dot n l cnt = Ok i -> 0 < cnt -> i < cnt.
  Proof.
    unfold argmin_dot. intros H P. apply bind_ok in H as ((d & j) & H & E). injection E as ->.
    assert (G : forall k lo s, lo + k <= cnt -> snd s < cnt -> for_from k lo (fun i st => let '(md, ix) := st in bind (get l i) (fun kk => Ok (if nlt (b2_dot n kk) md then (b2_dot n kk, i) else (md, ix)))) s = Ok (d, i) -> i < cnt).
    { induction k as [|k IH]; intros lo (md, ix) Hl Hs; cbn [snd] in Hs; cbn [for_from].
      - intros [= _ <-]. exact Hs.
      - intros K. apply bind_ok in K as (s' & K1 & K). apply bind_ok in K1 as (kk & _ & K1). injection K1 as <-. apply IH in K; [exact K|lia|]. destruct (nlt _ _); cbn; lia. }
    unfold for_range in H. eapply G; [| |exact H]; cbn [snd]; lia.
  Qed.
  Lemma argmin0_lt n l i : argmin_from0 n l = Ok i -> i < length l.
  Proof.
    unfold argmin_from0. intros H. apply bind_ok in H as (n0 & H0 & H). apply bind_ok in H as ((d & j) & H & E). injection E as ->.
    assert (P : 0 < length l) by (destruct l; [discriminate|cbn; lia]).
    assert (G : forall k lo s, lo + k <= length l -> snd s < length l -> for_from k lo (fun i st => let '(md, ix) := st in bind (get l i) (fun kk => Ok (if nlt (b2_dot n kk) md then (b2_dot n kk, i) else (md, ix)))) s = Ok (d, i) -> i < length l).
    { induction k as [|k IH]; intros lo (md, ix) Hl Hs; cbn [snd] in Hs; cbn [for_from].
      - intros [= _ <-]. exact Hs.
      - intros K. apply bind_ok in K as (s' & K1 & K). apply bind_ok in K1 as (kk & _ & K1). injection K1 as <-. apply IH in K; [exact K|lia|]. destruct (nlt _ _); cbn; lia. }
    unfold for_range in H. eapply G; [| |exact H]; cbn [snd]; lia.
  Qed.
  Theorem polygons_ids m a xa b xb m' : counted a -> counted b -> b2_collide_polygons m a xa b xb = Ok m' -> distinct_ids m'.
  Proof.
    intros Ca Cb H p q C P Q. unfold b2_collide_polygons in H. apply bind_ok in H as ((sa & ea) & _ & H). destruct (nlt _ sa); [injection H as <-; discriminate C|]. apply bind_ok in H as ((sb & eb) & _ & H). destruct (nlt _ sb); [injection H as <-; discriminate C|].
    cbv zeta in H. set (flip := nlt _ sb) in H. clearbody flip.
    assert (K : forall p1 p2 x1 x2 e1 ty, counted p1 -> counted p2 -> (let '(poly1, poly2, xf1, xf2, edge1, ty) := (p1, p2, x1, x2, e1, ty) in
      let m := MF (mf_points m) (mf_local_normal m) (mf_local_point m) ty 0 in
      ' (c0, c1) <- b2_find_incident_edge poly1 xf1 edge1 poly2 xf2 ;;
      let iv1 := edge1 in
      let iv2 := if Nat.ltb (edge1 + 1)%nat (po_count poly1) then (edge1 + 1)%nat else 0 in
      v11 <- get (po_vertices poly1) iv1 ;;
      v12 <- get (po_vertices poly1) iv2 ;;
      let local_tangent := snd (vnormalize (vsub v12 v11)) in
      let local_normal := b2_cross_vs local_tangent (nofZ 1) in
      let plane_point := vscale (nlit 1 2) (vadd v11 v12) in
      let tangent := rotv (xq xf1) local_tangent in
      let normal := b2_cross_vs tangent (nofZ 1) in
      let v11 := xfv xf1 v11 in
      let v12 := xfv xf1 v12 in
      let front_offset := b2_dot normal v11 in
      let side_offset1 := (- b2_dot tangent v11 + (po_radius a + po_radius b))%num in
      let side_offset2 := (b2_dot tangent v12 + (po_radius a + po_radius b))%num in
      out1 <- b2_clip_segment_to_line c0 c1 (vneg tangent) side_offset1 iv1 ;;
      match out1 with
      | [c0; c1] =>
        out2 <- b2_clip_segment_to_line c0 c1 tangent side_offset2 iv2 ;;
        if Nat.ltb (length out2) 2 then Ok m
        else
          ' (pts, count) <- keep_points (mf_points m) out2 (fun v => (b2_dot normal v - front_offset)%num) (po_radius a + po_radius b)%num
              (fun v => xfv_t xf2 v) (fun id => if flip then swap_id id else id) ;;
          Ok (MF pts local_normal plane_point ty count)
      | _ => Ok m
      end) = Ok m' -> mp_id p <> mp_id q).
    { clear H. intros p1 p2 x1 x2 e1 ty C1 C2 H. cbv zeta in H. apply bind_ok in H as ((c0 & c1) & I & H). apply bind_ok in H as (v11 & _ & H). apply bind_ok in H as (v12 & _ & H). apply bind_ok in H as (out1 & O1 & H).
      destruct out1 as [|d0 [|d1 [|]]]; try (injection H as <-; discriminate C). apply bind_ok in H as (out2 & O2 & H). destruct (Nat.ltb _ 2); [injection H as <-; discriminate C|]. apply bind_ok in H as ((pts & cnt) & Kp & H). injection H as <-. cbn [mf_count mf_points] in *. subst cnt.
      destruct (keep_ids _ _ _ _ _ _ _ _ _ Kp P Q) as (f0 & f1 & l & -> & -> & ->). pose proof (proj1 (clip_ids _ _ _ _ _ _ O2)) as L. destruct l as [|]; [|cbn in L; lia].
      unfold b2_find_incident_edge in I. apply bind_ok in I as (u & As & I). unfold b2_assert in As. destruct (Nat.ltb_spec e1 (po_count p1)) as [He|]; [|discriminate]. apply bind_ok in I as (n & _ & I). cbv zeta in I. apply bind_ok in I as (i1 & Am & I). apply bind_ok in I as (w1 & _ & I). apply bind_ok in I as (w2 & _ & I). injection I as <- <-.
      unfold counted in *. apply argmin_lt in Am; [|lia].
      assert (D : cv_id f0 <> cv_id f1).
      { eapply (clipped_ids _ _ _ _ _ _ _ _ _ _ _ _ O1 O2); cbn [cv_id index_b].
        - pose proof (next_ne _ _ (proj1 C2) Am). pose proof (next_lt _ i1 (proj1 C2)). intros [= E]. rewrite !u8_small in E by lia. lia.
        - pose proof (next_ne _ _ (proj1 C1) He). pose proof (next_lt _ e1 (proj1 C1)). rewrite !u8_small by lia. lia.
        - intros v k bb [->| ->] _ _ E; discriminate E. }
      destruct flip; [|exact D]. intros E. apply swap_inj in E. contradiction. }
    destruct flip; eapply K; [ | |exact H| | |exact H]; assumption.
  Qed.
  Lemma map_res_len {A B} (f : A -> res B) l l' : map_res f l = Ok l' -> length l' = length l.
  Proof. revert l'. induction l as [|a l IH]; cbn; intros l' H; [injection H as <-; reflexivity|]. apply bind_ok in H as (b & _ & H). apply bind_ok in H as (t & H & E). injection E as <-. cbn. f_equal. apply IH, H. Qed.
  Lemma clip_index_b (v0 v1 d0 d1 : clip_vertex T) n off k b : b2_clip_segment_to_line v0 v1 n off k = Ok [d0; d1] -> index_b (cv_id v0) = b -> index_b (cv_id v1) = b -> index_b (cv_id d0) = b /\ index_b (cv_id d1) = b.
  Proof. intros E H0 H1. apply clip_ids in E as (_ & E). destruct (E _ _ eq_refl) as [(-> & ->)|([->| ->] & I)]; rewrite ?I; cbn; auto. Qed.
  Lemma get_lt {A} (l : list A) i x : get l i = Ok x -> i < length l.
  Proof. unfold get. destruct (nth_error l i) eqn:E; [|discriminate]. intros _. apply nth_error_Some. congruence. Qed.
  (* the clip points and the reference, and what the ids of the two cut points are *)
  Lemma edge_clip m po xf normals verts v1 v2 edge1 radius primary m' p q : counted po -> length verts = po_count po -> length normals = po_count po ->
    (let is_a := is_edge_a (ax_type primary) in
        ' (cp0, cp1, rf) <-
          (if is_a then
            i1 <- argmin_from0 (ax_normal primary) normals ;;
            let i2 := if Nat.ltb (i1 + 1)%nat (length verts) then (i1 + 1)%nat else 0 in
            w1 <- get verts i1 ;;
            w2 <- get verts i2 ;;
            Ok (CV w1 (CId 0 (as_u8 i1) EFace EVertex), CV w2 (CId 0 (as_u8 i2) EFace EVertex),
                (0, 1, v1, v2, ax_normal primary, vneg edge1, edge1))
          else
            i1 <- unwrap (ax_index primary) ;;
            let i2 := if Nat.ltb (i1 + 1)%nat (length verts) then (i1 + 1)%nat else 0 in
            w1 <- get verts i1 ;;
            w2 <- get verts i2 ;;
            n1 <- get normals i1 ;;
            let side := V2 (vy n1) (- vx n1)%num in
            Ok (CV v2 (CId 1 (as_u8 i1) EVertex EFace), CV v1 (CId 0 (as_u8 i1) EVertex EFace),
                (i1, i2, w1, w2, n1, side, vneg side))) ;;
        let '(rf_i1, rf_i2, rf_v1, rf_v2, rf_normal, side_normal1, side_normal2) := rf in
        let m := MF (mf_points m) (mf_local_normal m) (mf_local_point m) (if is_a then MFaceA else MFaceB) 0 in
        let side_offset1 := b2_dot side_normal1 rf_v1 in
        let side_offset2 := b2_dot side_normal2 rf_v2 in
        out1 <- b2_clip_segment_to_line cp0 cp1 side_normal1 side_offset1 rf_i1 ;;
        match out1 with
        | [c0; c1] =>
          out2 <- b2_clip_segment_to_line c0 c1 side_normal2 side_offset2 rf_i2 ;;
          if Nat.ltb (length out2) 2 then Ok m
          else
            ' (ln, lp) <- (if is_a then Ok (rf_normal, rf_v1)
                           else n <- get (po_normals po) rf_i1 ;; v <- get (po_vertices po) rf_i1 ;; Ok (n, v)) ;;
            ' (pts, count) <- keep_points (mf_points m) out2 (fun v => b2_dot rf_normal (vsub v rf_v1)) radius
                (fun v => if is_a then xfv_t xf v else v) (fun id => if is_a then id else swap_id id) ;;
            Ok (MF pts ln lp (mf_type m) count)
        | _ => Ok m
        end) = Ok m' -> mf_count m' = 2 -> nth_error (mf_points m') 0 = Some p -> nth_error (mf_points m') 1 = Some q -> mp_id p <> mp_id q \/ early_face m' po.
  Proof.
    intros C Lv Ln H Cm P Q. cbv zeta in H. apply bind_ok in H as (((cp0 & cp1) & rf) & I & H). destruct rf as ((((((i1 & i2) & rv1) & rv2) & rn) & s1) & s2). apply bind_ok in H as (out1 & O1 & H).
    destruct out1 as [|d0 [|d1 [|]]]; try (injection H as <-; discriminate Cm). apply bind_ok in H as (out2 & O2 & H). destruct (Nat.ltb _ 2); [injection H as <-; discriminate Cm|]. apply bind_ok in H as ((ln & lp) & _ & H). apply bind_ok in H as ((pts & cnt) & Kp & H). injection H as <-. cbn [mf_count mf_points mf_type] in *. subst cnt.
    destruct (keep_ids _ _ _ _ _ _ _ _ _ Kp P Q) as (f0 & f1 & l & -> & Ip & Iq). pose proof (proj1 (clip_ids _ _ _ _ _ _ O2)) as L. destruct l as [|]; [|cbn in L; lia]. unfold counted in C.
    destruct (is_edge_a (ax_type primary)).
    - left. rewrite Ip, Iq. apply bind_ok in I as (j & Am & I). apply bind_ok in I as (w1 & _ & I). apply bind_ok in I as (w2 & _ & I). injection I as <- <- <- <- _ _ _ _ _.
      apply argmin0_lt in Am. rewrite Ln in Am. rewrite Lv in *.
      eapply (clipped_ids _ _ _ _ _ _ _ _ _ _ _ _ O1 O2); cbn [cv_id index_b].
      + pose proof (next_ne _ _ (proj1 C) Am). pose proof (next_lt _ j (proj1 C)). intros [= E]. rewrite !u8_small in E by lia. lia.
      + cbn. discriminate.
      + intros v k bb [->| ->] _ _ E; discriminate E.
    - apply bind_ok in I as (j & _ & I). apply bind_ok in I as (w1 & Gj & I). apply bind_ok in I as (w2 & _ & I). apply bind_ok in I as (n1 & _ & I). injection I as <- <- <- <- _ _ _ _ _.
      apply get_lt in Gj. rewrite Lv in *.
      destruct (clip_index_b _ _ _ _ _ _ _ (as_u8 j) O1 eq_refl eq_refl) as (B0 & B1). destruct (clip_index_b _ _ _ _ _ _ _ _ O2 B0 B1) as (D0 & D1).
      destruct (Nat.eq_dec j 0) as [J0|J0]; [|destruct (Nat.eq_dec j 1) as [J1|J1]; [|destruct (Nat.eq_dec (S j) (po_count po)) as [J2|J2]]];
        try (right; split; [reflexivity|]; exists p, j; split; [exact P|]; split; [rewrite Ip; cbn [swap_id index_a]; rewrite D0; apply u8_small; lia|lia]).
      left. rewrite Ip, Iq. intros E. apply swap_inj in E. revert E.
      pose proof (next_ne _ _ (proj1 C) Gj) as N1. pose proof (next_lt _ j (proj1 C)) as N2.
      eapply (clipped_ids _ _ _ _ _ _ _ _ _ _ _ _ O1 O2); cbn [cv_id index_b].
      + discriminate.
      + rewrite !u8_small by lia. lia.
      + assert (G : forall k, k = j \/ k = (if (j + 1 <? po_count po)%nat then j + 1 else 0) -> as_u8 k <> 0%Z /\ as_u8 k <> 1%Z).
        { intros k [->| ->]; [|destruct (Nat.ltb_spec (j + 1) (po_count po))]; rewrite ?u8_small by lia; lia. }
        intros v k bb [->| ->] Hk _ E; cbn [cv_id] in E; injection E as E E'; destruct (G _ Hk); congruence.
  Qed.
  Theorem edge_ids m e xa po xb m' : counted po -> b2_collide_edge_and_polygon m e xa po xb = Ok m' -> distinct_ids m' \/ early_face m' po.
  Proof.
    intros C H. cut (forall p q, mf_count m' = 2 -> nth_error (mf_points m') 0 = Some p -> nth_error (mf_points m') 1 = Some q -> mp_id p <> mp_id q \/ early_face m' po).
    { intros K. destruct (Nat.eq_dec (mf_count m') 2) as [E|E]; [|left; intros p q E'; contradiction]. destruct (nth_error (mf_points m') 0) as [p|] eqn:P; [|left; intros p q _ P'; congruence]. destruct (nth_error (mf_points m') 1) as [q|] eqn:Q; [|left; intros p' q _ _ Q'; congruence].
      destruct (K p q E eq_refl eq_refl) as [N|N]; [left|right; exact N]. intros p' q' _ P' Q'. rewrite P in P'. rewrite Q in Q'. injection P' as <-. injection Q' as <-. exact N. }
    intros p q Cm P Q. unfold b2_collide_edge_and_polygon in H. cbv zeta in H. destruct (_ && _); [injection H as <-; discriminate Cm|]. apply bind_ok in H as (verts & Ev & H). apply bind_ok in H as (normals & En & H). apply map_res_len in Ev, En. rewrite seq_length in Ev, En.
    destruct (nlt _ _); [injection H as <-; discriminate Cm|]. apply bind_ok in H as (pa & _ & H). destruct (nlt _ _); [injection H as <-; discriminate Cm|].
    match type of H with match ?x with _ => _ end = _ => destruct x as [primary|] end; [|injection H as <-; discriminate Cm].
    eapply edge_clip; [exact C|exact Ev|exact En|exact H|exact Cm|exact P|exact Q].
  Qed.
  Lemma one_ids (m : manifold T) ty n pt l id m' : mf_one m ty n pt l id = Ok m' -> distinct_ids m'.
  Proof. unfold mf_one. intros H. apply bind_ok in H as (pts & _ & H). injection H as <-. intros p q C. discriminate C. Qed.
  Lemma none_ids (m : manifold T) : distinct_ids (mf_none m).
  Proof. intros p q C. discriminate C. Qed.
  Ltac ones := repeat first [match goal with H : bind _ _ = Ok _ |- _ => apply bind_ok in H as (? & ? & H) | H : (if ?b then _ else _) = Ok _ |- _ => destruct b | H : Ok (mf_none _) = Ok _ |- _ => injection H as <-; apply none_ids | H : mf_one _ _ _ _ _ _ = Ok _ |- _ => exact (one_ids _ _ _ _ _ _ _ H) end].
  Lemma circles_ids m a xa b xb m' : b2_collide_circles m a xa b xb = Ok m' -> distinct_ids m'.
  Proof. unfold b2_collide_circles. cbv zeta. intros H. ones. Qed.
  Lemma polygon_circle_ids m a xa b xb m' : b2_collide_polygon_and_circle m a xa b xb = Ok m' -> distinct_ids m'.
  Proof. unfold b2_collide_polygon_and_circle. cbv zeta. intros H. apply bind_ok in H as (f & _ & H). destruct f as [(s & i)|]; [|injection H as <-; apply none_ids]. ones. Qed.
  Lemma edge_circle_ids m a xa b xb m' : b2_collide_edge_and_circle m a xa b xb = Ok m' -> distinct_ids m'.
  Proof. unfold b2_collide_edge_and_circle. cbv zeta. intros H. ones. Qed.
  Theorem shapes_ids sa ia xa sb xb m : counted_shape sa -> counted_shape sb -> evaluate_shapes sa ia xa sb xb = Ok m ->
    distinct_ids m \/ exists po, sb = ShPolygon po /\ (forall p, sa <> ShPolygon p) /\ early_face m po.
  Proof.
    intros Ca Cb H. unfold evaluate_shapes in H. destruct sa, sb; try discriminate; cbn [counted_shape] in *.
    - left. eapply circles_ids, H.
    - left. eapply edge_circle_ids, H.
    - apply edge_ids in H; [|exact Cb]. destruct H as [H|H]; [left; exact H|right]. eexists. split; [reflexivity|]. split; [discriminate|exact H].
    - left. eapply polygon_circle_ids, H.
    - left. eapply polygons_ids; [| |exact H]; assumption.
    - left. apply bind_ok in H as (e & _ & H). eapply edge_circle_ids, H.
    - apply bind_ok in H as (e & _ & H). apply edge_ids in H; [|exact Cb]. destruct H as [H|H]; [left; exact H|right]. eexists. split; [reflexivity|]. split; [discriminate|exact H].
  Qed.
  Lemma cid_eqb_eq a b : cid_eqb a b = true <-> a = b.
  Proof. destruct a, b. unfold cid_eqb. cbn. rewrite !andb_true_iff, !Z.eqb_eq. split; [intros (((-> & ->) & ->) & ->); reflexivity|intros [= -> -> -> ->]; auto]. Qed.
  Theorem carry_same (old m m' : manifold T) : mf_count old <= 2 -> distinct_ids old -> same_points old m -> carry old m = Ok m' -> same_impulses old m'.
  Proof.
    intros C D (Cm & S) H h p Hh P. unfold carry in H. rewrite Cm in H. apply bind_ok in H as (ps & H & E). injection E as <-. cbn [mf_points]. unfold for_range in H.
    unfold distinct_ids in D. destruct (mf_points old) as [|o0 os] eqn:Eo; [destruct h; discriminate P|].
    destruct (mf_count old) as [|[|[|]]] eqn:En; try lia; cbn [Nat.sub for_from] in H.
    - destruct h; [|lia]. cbn in P. injection P as <-. apply bind_ok in H as (ps1 & H & E). injection E as <-. apply bind_ok in H as (q & Q & H). unfold get in Q. destruct (nth_error (mf_points m) 0) as [q'|] eqn:Q'; [|discriminate]. injection Q as ->.
      pose proof (S 0 o0 q Hh eq_refl Q') as I. cbn [old_impulse] in H. rewrite I in H. rewrite (proj2 (cid_eqb_eq _ _) eq_refl) in H. destruct (mf_points m); cbn in H; [discriminate|]. injection H as <-. cbn. eexists. split; [reflexivity|]. auto.
    - apply bind_ok in H as (ps1 & H & E). apply bind_ok in E as (ps2 & E & E'). injection E' as <-. apply bind_ok in H as (q & Q & H). unfold get in Q. destruct (nth_error (mf_points m) 0) as [q'|] eqn:Q'; [|discriminate]. injection Q as ->.
      pose proof (S 0 o0 q ltac:(lia) eq_refl Q') as I. cbn [old_impulse] in H. rewrite I in H. rewrite (proj2 (cid_eqb_eq _ _) eq_refl) in H. destruct (mf_points m) as [|m0 [|m1 ml]]; cbn in H; [discriminate| |]; injection H as <-; cbn in E; [discriminate|].
      destruct os as [|o1 os]; [|].
      { destruct h as [|h]; cbn in P; [|destruct h; discriminate]. injection P as <-. destruct (cid_eqb _ _) in E; cbn in E; injection E as <-; cbn; eexists; (split; [reflexivity|]); auto. }
      pose proof (S 1 o1 m1 ltac:(lia) eq_refl eq_refl) as I1. rewrite I1 in E. cbn [old_impulse] in E. specialize (D o0 o1 eq_refl eq_refl eq_refl). destruct (cid_eqb (mp_id o0) (mp_id o1)) eqn:Eq; [apply cid_eqb_eq in Eq; contradiction|]. rewrite (proj2 (cid_eqb_eq _ _) eq_refl) in E. cbn in E. injection E as <-.
      destruct h as [|[|]]; [| |lia]; cbn in P; injection P as <-; cbn; eexists; (split; [reflexivity|]); auto.
  Qed.
End Ids.
