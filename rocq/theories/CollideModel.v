(** Model of the narrow phase: /repo/src/private/collision/b2_collide_{circle,polygon,edge}.rs.
    A function that returns early leaves the old manifold with point_count = 0. Only the fields that the code
    writes are changed: the array entries beyond point_count and the impulses stay as they were. *)
From Coq Require Import ZArith Bool List Arith.
From Verif Require Import Base Num Math Collision Manifold ShapeModel.
Import ListNotations.

Section Collide.
  Context {T : Type} `{NT : Num T}.
  Local Open Scope num_scope.

  Definition mf_none (m : manifold T) : manifold T := MF (mf_points m) (mf_local_normal m) (mf_local_point m) (mf_type m) 0.
  Definition set_mpoint (pts : list (mpoint T)) (i : nat) (local : vec2 T) (id : cid) : res (list (mpoint T)) :=
    p <- get pts i ;;
    set pts i (MP local (mp_normal_impulse p) (mp_tangent_impulse p) id).
  Definition mf_one (m : manifold T) (ty : mtype) (normal point local : vec2 T) (id : cid) : res (manifold T) :=
    pts <- set_mpoint (mf_points m) 0 local id ;;
    Ok (MF pts normal point ty 1).

  (* b2_collide_circle.rs:7-34 b2_collide_circles *)
  Definition b2_collide_circles (m : manifold T) (a : circle T) (xf_a : xform T) (b : circle T) (xf_b : xform T) : res (manifold T) :=
    let p_a := xfv xf_a (ci_p a) in
    let p_b := xfv xf_b (ci_p b) in
    let d := vsub p_b p_a in
    let dist_sqr := b2_dot d d in
    let radius := ci_radius a + ci_radius b in
    if dist_sqr >? radius * radius then Ok (mf_none m)
    else mf_one m MCircles vzero (ci_p a) (ci_p b) cid_default.

  (* b2_collide_circle.rs:36-133 b2_collide_polygon_and_circle.
     The search loop :57-69 has the state Some (separation, normal_index), None after the early return. *)
  Definition b2_collide_polygon_and_circle (m : manifold T) (a : polygon T) (xf_a : xform T) (b : circle T) (xf_b : xform T)
    : res (manifold T) :=
    let c := xfv xf_b (ci_p b) in
    let c_local := xfv_t xf_a c in
    let radius := po_radius a + ci_radius b in
    let vertex_count := po_count a in
    found <- for_range 0 vertex_count (fun i st =>
      match st with
      | None => Ok None
      | Some (separation, normal_index) =>
        n <- get (po_normals a) i ;;
        v <- get (po_vertices a) i ;;
        let s := b2_dot n (vsub c_local v) in
        if s >? radius then Ok None
        else if s >? separation then Ok (Some (s, i)) else Ok (Some (separation, normal_index))
      end) (Some (- B2_MAX_FLOAT, 0)) ;;
    match found with
    | None => Ok (mf_none m)
    | Some (separation, i1) =>
      let i2 := if Nat.ltb (i1 + 1)%nat vertex_count then (i1 + 1)%nat else 0 in
      v1 <- get (po_vertices a) i1 ;;
      v2 <- get (po_vertices a) i2 ;;
      n1 <- get (po_normals a) i1 ;;
      if separation <? B2_EPSILON then
        mf_one m MFaceA n1 (vscale (nlit 1 2) (vadd v1 v2)) (ci_p b) cid_default
      else
        let u1 := b2_dot (vsub c_local v1) (vsub v2 v1) in
        let u2 := b2_dot (vsub c_local v2) (vsub v1 v2) in
        if u1 <=? #0 then
          if b2_distance_vec2_squared c_local v1 >? radius * radius then Ok (mf_none m)
          else mf_one m MFaceA (snd (vnormalize (vsub c_local v1))) v1 (ci_p b) cid_default
        else if u2 <=? #0 then
          if b2_distance_vec2_squared c_local v2 >? radius * radius then Ok (mf_none m)
          else mf_one m MFaceA (snd (vnormalize (vsub c_local v2))) v2 (ci_p b) cid_default
        else
          let face_center := vscale (nlit 1 2) (vadd v1 v2) in
          let s := b2_dot (vsub c_local face_center) n1 in
          if s >? radius then Ok (mf_none m)
          else mf_one m MFaceA n1 face_center (ci_p b) cid_default
    end.

  (* b2_collide_edge.rs:11-123 b2_collide_edge_and_circle *)
  Definition b2_collide_edge_and_circle (m : manifold T) (ed : edge T) (xf_a : xform T) (ci : circle T) (xf_b : xform T)
    : res (manifold T) :=
    let q := xfv_t xf_a (xfv xf_b (ci_p ci)) in
    let a := ed_v1 ed in
    let b := ed_v2 ed in
    let e := vsub b a in
    let n := V2 (vy e) (- vx e) in
    let offset := b2_dot n (vsub q a) in
    if ed_one_sided ed && (offset <? #0) then Ok (mf_none m)
    else
      let u := b2_dot e (vsub b q) in
      let v := b2_dot e (vsub q a) in
      let radius := ed_radius ed + ci_radius ci in
      if v <=? #0 then
        let d := vsub q a in
        if b2_dot d d >? radius * radius then Ok (mf_none m)
        else if ed_one_sided ed && (b2_dot (vsub a (ed_v0 ed)) (vsub a q) >? #0) then Ok (mf_none m)
        else mf_one m MCircles vzero a (ci_p ci) (CId 0 0 EVertex EVertex)
      else if u <=? #0 then
        let d := vsub q b in
        if b2_dot d d >? radius * radius then Ok (mf_none m)
        else if ed_one_sided ed && (b2_dot (vsub (ed_v3 ed) b) (vsub q b) >? #0) then Ok (mf_none m)
        else mf_one m MCircles vzero b (ci_p ci) (CId 1 0 EVertex EVertex)
      else
        let den := b2_dot e e in
        b2_assert (den >? #0) ;;;
        let p := vscale (#1 / den) (vadd (vscale u a) (vscale v b)) in
        let d := vsub q p in
        if b2_dot d d >? radius * radius then Ok (mf_none m)
        else
          let n := if offset <? #0 then V2 (- vx n) (- vy n) else n in
          let n := snd (vnormalize n) in
          mf_one m MFaceA n a (ci_p ci) (CId 0 0 EFace EVertex).

  (* b2_collide_polygon.rs:8-46 b2_find_max_separation: (separation, edge index) *)
  Definition b2_find_max_separation (poly1 : polygon T) (xf1 : xform T) (poly2 : polygon T) (xf2 : xform T) : res (T * nat) :=
    let xf := b2_mul_t_transform xf2 xf1 in
    for_range 0 (po_count poly1) (fun i st =>
      let '(max_separation, best_index) := st in
      n1 <- get (po_normals poly1) i ;;
      w1 <- get (po_vertices poly1) i ;;
      let n := rotv (xq xf) n1 in
      let v1 := xfv xf w1 in
      si <- for_range 0 (po_count poly2) (fun j si =>
        v2 <- get (po_vertices poly2) j ;;
        let sij := b2_dot n (vsub v2 v1) in
        Ok (if sij <? si then sij else si)) B2_MAX_FLOAT ;;
      Ok (if si >? max_separation then (si, i) else (max_separation, best_index))) (- B2_MAX_FLOAT, 0).

  (* index of the first smallest dot product, b2_collide_polygon.rs:67-76 *)
  Definition argmin_dot (n : vec2 T) (normals : list (vec2 T)) (count : nat) : res nat :=
    ' (_, index) <- for_range 0 count (fun i st =>
      let '(min_dot, index) := st in
      k <- get normals i ;;
      let dot := b2_dot n k in
      Ok (if dot <? min_dot then (dot, i) else (min_dot, index))) (B2_MAX_FLOAT, 0) ;;
    Ok index.

  (* b2_collide_polygon.rs:48-93 b2_find_incident_edge *)
  Definition b2_find_incident_edge (poly1 : polygon T) (xf1 : xform T) (edge1 : nat) (poly2 : polygon T) (xf2 : xform T)
    : res (clip_vertex T * clip_vertex T) :=
    b2_assert (Nat.ltb edge1 (po_count poly1)) ;;;
    n <- get (po_normals poly1) edge1 ;;
    let normal1 := rotv_t (xq xf2) (rotv (xq xf1) n) in
    i1 <- argmin_dot normal1 (po_normals poly2) (po_count poly2) ;;
    let i2 := if Nat.ltb (i1 + 1)%nat (po_count poly2) then (i1 + 1)%nat else 0 in
    w1 <- get (po_vertices poly2) i1 ;;
    w2 <- get (po_vertices poly2) i2 ;;
    Ok (CV (xfv xf2 w1) (CId (as_u8 edge1) (as_u8 i1) EFace EVertex),
        CV (xfv xf2 w2) (CId (as_u8 edge1) (as_u8 i2) EFace EVertex)).

  Definition swap_id (c : cid) : cid := CId (index_b c) (index_a c) (type_b c) (type_a c).

  (* the last loop of b2_collide_polygons :203-222 and of b2_collide_edge_and_polygon :450-472: keep the points
     with separation <= radius *)
  Definition keep_points (pts : list (mpoint T)) (clips : list (clip_vertex T)) (sep : vec2 T -> T) (radius : T)
    (local : vec2 T -> vec2 T) (idf : cid -> cid) : res (list (mpoint T) * nat) :=
    for_range 0 B2_MAX_MANIFOLD_POINTS (fun i st =>
      let '(pts, count) := st in
      c <- get clips i ;;
      if sep (cv_v c) <=? radius then
        pts <- set_mpoint pts count (local (cv_v c)) (idf (cv_id c)) ;;
        Ok (pts, S count)
      else Ok (pts, count)) (pts, 0).

  (* b2_collide_polygon.rs:102-225 b2_collide_polygons *)
  Definition b2_collide_polygons (m : manifold T) (poly_a : polygon T) (xf_a : xform T) (poly_b : polygon T) (xf_b : xform T)
    : res (manifold T) :=
    let total_radius := po_radius poly_a + po_radius poly_b in
    ' (separation_a, edge_a) <- b2_find_max_separation poly_a xf_a poly_b xf_b ;;
    if separation_a >? total_radius then Ok (mf_none m)
    else
    ' (separation_b, edge_b) <- b2_find_max_separation poly_b xf_b poly_a xf_a ;;
    if separation_b >? total_radius then Ok (mf_none m)
    else
      let k_tol := nlit 1 10 * B2_LINEAR_SLOP in
      let flip := separation_b >? separation_a + k_tol in
      let '(poly1, poly2, xf1, xf2, edge1, ty) :=
        if flip then (poly_b, poly_a, xf_b, xf_a, edge_b, MFaceB) else (poly_a, poly_b, xf_a, xf_b, edge_a, MFaceA) in
      let m := MF (mf_points m) (mf_local_normal m) (mf_local_point m) ty 0 in
      ' (c0, c1) <- b2_find_incident_edge poly1 xf1 edge1 poly2 xf2 ;;
      let iv1 := edge1 in
      let iv2 := if Nat.ltb (edge1 + 1)%nat (po_count poly1) then (edge1 + 1)%nat else 0 in
      v11 <- get (po_vertices poly1) iv1 ;;
      v12 <- get (po_vertices poly1) iv2 ;;
      let local_tangent := snd (vnormalize (vsub v12 v11)) in
      let local_normal := b2_cross_vs local_tangent #1 in
      let plane_point := vscale (nlit 1 2) (vadd v11 v12) in
      let tangent := rotv (xq xf1) local_tangent in
      let normal := b2_cross_vs tangent #1 in
      let v11 := xfv xf1 v11 in
      let v12 := xfv xf1 v12 in
      let front_offset := b2_dot normal v11 in
      let side_offset1 := - b2_dot tangent v11 + total_radius in
      let side_offset2 := b2_dot tangent v12 + total_radius in
      out1 <- b2_clip_segment_to_line c0 c1 (vneg tangent) side_offset1 iv1 ;;
      match out1 with
      | [c0; c1] =>
        out2 <- b2_clip_segment_to_line c0 c1 tangent side_offset2 iv2 ;;
        if Nat.ltb (length out2) 2 then Ok m
        else
          ' (pts, count) <- keep_points (mf_points m) out2 (fun v => b2_dot normal v - front_offset) total_radius
              (fun v => xfv_t xf2 v) (fun id => if flip then swap_id id else id) ;;
          Ok (MF pts local_normal plane_point ty count)
      | _ => Ok m
      end.

  (* b2_collide_edge.rs:125-145 B2ePAxisType and B2epaxis; index -1 is None *)
  Inductive axis_type := AxUnknown | AxEdgeA | AxEdgeB.
  Definition is_edge_a (t : axis_type) : bool := match t with AxEdgeA => true | _ => false end.
  Record ep_axis := EpAxis { ax_normal : vec2 T; ax_type : axis_type; ax_index : option nat; ax_separation : T }.

  (* :172-202 b2_compute_edge_separation *)
  Definition b2_compute_edge_separation (verts : list (vec2 T)) (v1 normal1 : vec2 T) : ep_axis :=
    fold_left (fun axis (ja : nat * vec2 T) =>
      let sj := fold_left (fun sj v => let si := b2_dot (snd ja) (vsub v v1) in if si <? sj then si else sj) verts B2_MAX_FLOAT in
      if sj >? ax_separation axis then EpAxis (snd ja) AxEdgeA (Some (fst ja)) sj else axis)
      [(0, normal1); (1, vneg normal1)] (EpAxis vzero AxEdgeA None (- B2_MAX_FLOAT)).

  (* :204-228 b2_compute_polygon_separation *)
  Definition b2_compute_polygon_separation (verts normals : list (vec2 T)) (v1 v2 : vec2 T) : res ep_axis :=
    for_range 0 (length verts) (fun i axis =>
      k <- get normals i ;;
      w <- get verts i ;;
      let n := vneg k in
      let s1 := b2_dot n (vsub w v1) in
      let s2 := b2_dot n (vsub w v2) in
      let s := b2_min s1 s2 in
      Ok (if s >? ax_separation axis then EpAxis n AxEdgeB (Some i) s else axis)) (EpAxis vzero AxUnknown None (- B2_MAX_FLOAT)).

  (* :341-350 index of the first smallest dot product, starting with entry 0 *)
  Definition argmin_from0 (n : vec2 T) (normals : list (vec2 T)) : res nat :=
    n0 <- get normals 0 ;;
    ' (_, index) <- for_range 1 (length normals) (fun i st =>
      let '(best_value, best_index) := st in
      k <- get normals i ;;
      let value := b2_dot n k in
      Ok (if value <? best_value then (value, i) else (best_value, best_index))) (b2_dot n n0, 0) ;;
    Ok index.

  (* :230-475 b2_collide_edge_and_polygon; the temporary polygon (arrays of 8) is a pair of lists of length [po_count],
     reads beyond that length do not happen: with count 0 the edge axis separates and the function returns *)
  Definition b2_collide_edge_and_polygon (m : manifold T) (ed : edge T) (xf_a : xform T) (po : polygon T) (xf_b : xform T)
    : res (manifold T) :=
    let xf := b2_mul_t_transform xf_a xf_b in
    let centroid_b := xfv xf (po_centroid po) in
    let v1 := ed_v1 ed in
    let v2 := ed_v2 ed in
    let edge1 := snd (vnormalize (vsub v2 v1)) in
    let normal1 := V2 (vy edge1) (- vx edge1) in
    let offset1 := b2_dot normal1 (vsub centroid_b v1) in
    if ed_one_sided ed && (offset1 <? #0) then Ok (mf_none m)
    else
    verts <- map_res (fun i => v <- get (po_vertices po) i ;; Ok (xfv xf v)) (seq 0 (po_count po)) ;;
    normals <- map_res (fun i => n <- get (po_normals po) i ;; Ok (rotv (xq xf) n)) (seq 0 (po_count po)) ;;
    let radius := po_radius po + ed_radius ed in
    let edge_axis := b2_compute_edge_separation verts v1 normal1 in
    if ax_separation edge_axis >? radius then Ok (mf_none m)
    else
    polygon_axis <- b2_compute_polygon_separation verts normals v1 v2 ;;
    if ax_separation polygon_axis >? radius then Ok (mf_none m)
    else
      let primary :=
        if ax_separation polygon_axis - radius >? nlit 98 100 * (ax_separation edge_axis - radius) + nlit 1 1000
        then polygon_axis else edge_axis in
      let primary :=
        if ed_one_sided ed then
          let edge0 := snd (vnormalize (vsub v1 (ed_v0 ed))) in
          let normal0 := V2 (vy edge0) (- vx edge0) in
          let convex1 := b2_cross edge0 edge1 >=? #0 in
          let edge2 := snd (vnormalize (vsub (ed_v3 ed) v2)) in
          let normal2 := V2 (vy edge2) (- vx edge2) in
          let convex2 := b2_cross edge1 edge2 >=? #0 in
          let sin_tol := nlit 1 10 in
          let side1 := b2_dot (ax_normal primary) edge1 <=? #0 in
          if side1 then
            if convex1 then
              if b2_cross (ax_normal primary) normal0 >? sin_tol then None else Some primary
            else Some edge_axis
          else
            if convex2 then
              if b2_cross normal2 (ax_normal primary) >? sin_tol then None else Some primary
            else Some edge_axis
        else Some primary in
      match primary with
      | None => Ok (mf_none m)
      | Some primary =>
        let is_a := is_edge_a (ax_type primary) in
        (* clip points, then the reference face (i1, i2, v1, v2, normal, side_normal1, side_normal2) *)
        ' (cp0, cp1, rf) <-
          (if is_a then
            i1 <- argmin_from0 (ax_normal primary) normals ;;
            let i2 := if Nat.ltb (i1 + 1)%nat (length verts) then (i1 + 1)%nat else 0 in
            w1 <- get verts i1 ;;
            w2 <- get verts i2 ;;
            Ok (CV w1 (CId 0 (as_u8 i1) EFace EVertex), CV w2 (CId 0 (as_u8 i2) EFace EVertex),
                (0, 1, v1, v2, ax_normal primary, vneg edge1, edge1))
          else
            i1 <- unwrap (ax_index primary) ;;
            let i2 := if Nat.ltb (i1 + 1)%nat (length verts) then (i1 + 1)%nat else 0 in
            w1 <- get verts i1 ;;
            w2 <- get verts i2 ;;
            n1 <- get normals i1 ;;
            let side := V2 (vy n1) (- vx n1) in
            Ok (CV v2 (CId 1 (as_u8 i1) EVertex EFace), CV v1 (CId 0 (as_u8 i1) EVertex EFace),
                (i1, i2, w1, w2, n1, side, vneg side))) ;;
        let '(rf_i1, rf_i2, rf_v1, rf_v2, rf_normal, side_normal1, side_normal2) := rf in
        let m := MF (mf_points m) (mf_local_normal m) (mf_local_point m) (if is_a then MFaceA else MFaceB) 0 in
        let side_offset1 := b2_dot side_normal1 rf_v1 in
        let side_offset2 := b2_dot side_normal2 rf_v2 in
        out1 <- b2_clip_segment_to_line cp0 cp1 side_normal1 side_offset1 rf_i1 ;;
        match out1 with
        | [c0; c1] =>
          out2 <- b2_clip_segment_to_line c0 c1 side_normal2 side_offset2 rf_i2 ;;
          if Nat.ltb (length out2) 2 then Ok m
          else
            ' (ln, lp) <- (if is_a then Ok (rf_normal, rf_v1)
                           else n <- get (po_normals po) rf_i1 ;; v <- get (po_vertices po) rf_i1 ;; Ok (n, v)) ;;
            ' (pts, count) <- keep_points (mf_points m) out2 (fun v => b2_dot rf_normal (vsub v rf_v1)) radius
                (fun v => if is_a then xfv_t xf v else v) (fun id => if is_a then id else swap_id id) ;;
            Ok (MF pts ln lp (mf_type m) count)
        | _ => Ok m
        end
      end.
End Collide.
