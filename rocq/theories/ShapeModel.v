(** Model of the shapes: /repo/src/private/collision/b2_{circle,edge,polygon,chain}_shape.rs. *)
From Coq Require Import ZArith Bool List Arith.
From Verif Require Import Base Num Math Collision.
Import ListNotations.

(* /repo/src/b2_settings.rs:11 *)
Definition B2_MAX_POLYGON_VERTICES : nat := 8.

(* /repo/src/shapes/b2_circle_shape.rs:15 B2circleShape (base.m_radius, m_p) *)
Record circle (T : Type) := Circle { ci_radius : T; ci_p : vec2 T }.
Arguments Circle {T} _ _.
Arguments ci_radius {T} c.
Arguments ci_p {T} c.
(* /repo/src/shapes/b2_edge_shape.rs:16-29 B2edgeShape *)
Record edge (T : Type) := Edge {
  ed_radius : T; ed_v0 : vec2 T; ed_v1 : vec2 T; ed_v2 : vec2 T; ed_v3 : vec2 T; ed_one_sided : bool }.
Arguments Edge {T} _ _ _ _ _ _.
Arguments ed_radius {T} e.
Arguments ed_v0 {T} e.
Arguments ed_v1 {T} e.
Arguments ed_v2 {T} e.
Arguments ed_v3 {T} e.
Arguments ed_one_sided {T} e.
(* /repo/src/shapes/b2_polygon_shape.rs:14-20 B2polygonShape; the arrays of 8 are lists of length 8 *)
Record polygon (T : Type) := Polygon {
  po_radius : T; po_centroid : vec2 T; po_vertices : list (vec2 T); po_normals : list (vec2 T); po_count : nat }.
Arguments Polygon {T} _ _ _ _ _.
Arguments po_radius {T} p.
Arguments po_centroid {T} p.
Arguments po_vertices {T} p.
Arguments po_normals {T} p.
Arguments po_count {T} p.
(* /repo/src/shapes/b2_chain_shape.rs:20-28 B2chainShape *)
Record chain (T : Type) := Chain {
  ch_radius : T; ch_vertices : list (vec2 T); ch_prev : vec2 T; ch_next : vec2 T }.
Arguments Chain {T} _ _ _ _.
Arguments ch_radius {T} c.
Arguments ch_vertices {T} c.
Arguments ch_prev {T} c.
Arguments ch_next {T} c.
(* /repo/src/b2_shape.rs:11-21 B2massData *)
Record mass_data (T : Type) := MassData { md_mass : T; md_center : vec2 T; md_i : T }.
Arguments MassData {T} _ _ _.
Arguments md_mass {T} m.
Arguments md_center {T} m.
Arguments md_i {T} m.

Section Shapes.
  Context {T : Type} `{NT : Num T}.
  Local Open Scope num_scope.

  (** ** circle: b2_circle_shape.rs *)
  (* :15-19 test_point *)
  Definition circle_test_point (self : circle T) (xf : xform T) (p : vec2 T) : bool :=
    let center := vadd (xp xf) (rotv (xq xf) (ci_p self)) in
    let d := vsub p center in
    b2_dot d d <=? ci_radius self * ci_radius self.

  (* :26-63 ray_cast *)
  Definition circle_ray_cast (self : circle T) (input : ray_input T) (xf : xform T) : option (ray_output T) :=
    let position := vadd (xp xf) (rotv (xq xf) (ci_p self)) in
    let s := vsub (ray_p1 input) position in
    let b := b2_dot s s - ci_radius self * ci_radius self in
    let r := vsub (ray_p2 input) (ray_p1 input) in
    let c := b2_dot s r in
    let rr := b2_dot r r in
    let sigma := c * c - rr * b in
    if (sigma <? #0) || (rr <? B2_EPSILON) then None
    else
      let a := - (c + nsqrt sigma) in
      if (#0 <=? a) && (a <=? ray_max input * rr) then
        let a := a / rr in
        Some (RayOut (snd (vnormalize (vadd s (vscale a r)))) a)
      else None.

  (* :64-77 compute_aabb *)
  Definition circle_aabb (self : circle T) (xf : xform T) : aabb T :=
    let p := vadd (xp xf) (rotv (xq xf) (ci_p self)) in
    AABB (V2 (vx p - ci_radius self) (vy p - ci_radius self)) (V2 (vx p + ci_radius self) (vy p + ci_radius self)).

  (* :79-86 compute_mass *)
  Definition circle_mass (self : circle T) (density : T) : mass_data T :=
    let mass := density * B2_PI * ci_radius self * ci_radius self in
    MassData mass (ci_p self) (mass * (nlit 1 2 * ci_radius self * ci_radius self + b2_dot (ci_p self) (ci_p self))).

  (** ** edge: b2_edge_shape.rs *)
  (* /repo/src/shapes/b2_edge_shape.rs:106-121 default *)
  Definition edge_default : edge T := Edge B2_POLYGON_RADIUS vzero vzero vzero vzero false.
  (* :7-13, :15-19 *)
  Definition set_one_sided (self : edge T) (v0 v1 v2 v3 : vec2 T) : edge T := Edge (ed_radius self) v0 v1 v2 v3 true.
  Definition set_two_sided (self : edge T) (v1 v2 : vec2 T) : edge T := Edge (ed_radius self) (ed_v0 self) v1 v2 (ed_v3 self) false.

  (* :35-102 ray_cast *)
  Definition edge_ray_cast (self : edge T) (input : ray_input T) (xf : xform T) : option (ray_output T) :=
    let p1 := rotv_t (xq xf) (vsub (ray_p1 input) (xp xf)) in
    let p2 := rotv_t (xq xf) (vsub (ray_p2 input) (xp xf)) in
    let d := vsub p2 p1 in
    let v1 := ed_v1 self in
    let v2 := ed_v2 self in
    let e := vsub v2 v1 in
    let normal := snd (vnormalize (V2 (vy e) (- vx e))) in
    let numerator := b2_dot normal (vsub v1 p1) in
    if ed_one_sided self && (numerator >? #0) then None
    else
      let denominator := b2_dot normal d in
      if denominator =? #0 then None
      else
        let t := numerator / denominator in
        if (t <? #0) || (ray_max input <? t) then None
        else
          let q := vadd p1 (vscale t d) in
          let r := vsub v2 v1 in
          let rr := b2_dot r r in
          if rr =? #0 then None
          else
            let s := b2_dot (vsub q v1) r / rr in
            if (s <? #0) || (#1 <? s) then None
            else Some (RayOut (if numerator >? #0 then vneg (rotv (xq xf) normal) else rotv (xq xf) normal) t).

  (* :104-124 compute_aabb *)
  Definition segment_aabb (radius : T) (xf : xform T) (a b : vec2 T) : aabb T :=
    let v1 := xfv xf a in
    let v2 := xfv xf b in
    let lower := b2_min_vec2 v1 v2 in
    let upper := b2_max_vec2 v1 v2 in
    let r := V2 radius radius in
    AABB (vsub lower r) (vadd upper r).
  Definition edge_aabb (self : edge T) (xf : xform T) : aabb T := segment_aabb (ed_radius self) xf (ed_v1 self) (ed_v2 self).

  (* :126-132 compute_mass *)
  Definition edge_mass (self : edge T) (density : T) : mass_data T :=
    MassData #0 (vscale (nlit 1 2) (vadd (ed_v1 self) (ed_v2 self))) #0.

  (** ** chain: b2_chain_shape.rs *)
  (* the loop :20-25 and :36-42 *)
  Definition spaced (vertices : list (vec2 T)) : res unit :=
    for_range 1 (length vertices) (fun i _ =>
      v1 <- get vertices (i - 1)%nat ;;
      v2 <- get vertices i ;;
      b2_assert (b2_distance_vec2_squared v1 v2 >? B2_LINEAR_SLOP * B2_LINEAR_SLOP)) tt.
  (* :12-30 create_loop; the [count < 3] branch is unreachable after the assertion *)
  Definition create_loop (self : chain T) (vertices : list (vec2 T)) : res (chain T) :=
    let count := length vertices in
    b2_assert (Nat.eqb (length (ch_vertices self)) 0) ;;;
    b2_assert (Nat.leb 3 count) ;;;
    spaced vertices ;;;
    v0 <- get vertices 0 ;;
    let vs := vertices ++ [v0] in
    prev <- get vs (length vs - 2)%nat ;;
    next <- get vs 1 ;;
    Ok (Chain (ch_radius self) vs prev next).
  (* :32-48 create_chain *)
  Definition create_chain (self : chain T) (vertices : list (vec2 T)) (prev next : vec2 T) : res (chain T) :=
    let count := length vertices in
    b2_assert (Nat.eqb (length (ch_vertices self)) 0) ;;;
    b2_assert (Nat.leb 2 count) ;;;
    spaced vertices ;;;
    Ok (Chain (ch_radius self) vertices prev next).
  (* [len - k] on usize: underflow panics *)
  Definition usize_sub (a b : nat) : res nat := if Nat.leb b a then Ok (a - b)%nat else Panic.
  (* :54-57 get_child_count *)
  Definition chain_child_count (self : chain T) : res nat := usize_sub (length (ch_vertices self)) 1.
  (* :59-79 get_child_edge *)
  Definition get_child_edge (self : chain T) (index : nat) : res (edge T) :=
    n1 <- usize_sub (length (ch_vertices self)) 1 ;;
    b2_assert (Nat.ltb index n1) ;;;
    v1 <- get (ch_vertices self) index ;;
    v2 <- get (ch_vertices self) (index + 1)%nat ;;
    v0 <- (if Nat.ltb 0 index then get (ch_vertices self) (index - 1)%nat else Ok (ch_prev self)) ;;
    n2 <- usize_sub (length (ch_vertices self)) 2 ;;
    v3 <- (if Nat.ltb index n2 then get (ch_vertices self) (index + 2)%nat else Ok (ch_next self)) ;;
    Ok (Edge (ch_radius self) v0 v1 v2 v3 true).
  Definition chain_ends (self : chain T) (child : nat) : res (vec2 T * vec2 T) :=
    b2_assert (Nat.ltb child (length (ch_vertices self))) ;;;
    let i2 := (child + 1)%nat in
    let i2 := if Nat.eqb i2 (length (ch_vertices self)) then 0 else i2 in
    v1 <- get (ch_vertices self) child ;;
    v2 <- get (ch_vertices self) i2 ;;
    Ok (v1, v2).
  (* :86-107 ray_cast *)
  Definition chain_ray_cast (self : chain T) (input : ray_input T) (xf : xform T) (child : nat) : res (option (ray_output T)) :=
    ' (v1, v2) <- chain_ends self child ;;
    Ok (edge_ray_cast (Edge B2_POLYGON_RADIUS vzero v1 v2 vzero false) input xf).
  (* :109-133 compute_aabb *)
  Definition chain_aabb (self : chain T) (xf : xform T) (child : nat) : res (aabb T) :=
    ' (v1, v2) <- chain_ends self child ;;
    Ok (segment_aabb (ch_radius self) xf v1 v2).
  Definition chain_mass (self : chain T) (density : T) : mass_data T := MassData #0 vzero #0. (* :135-141 *)

  (** ** polygon: b2_polygon_shape.rs *)
  Definition pad8 (l : list (vec2 T)) : list (vec2 T) := l ++ repeat vzero (B2_MAX_POLYGON_VERTICES - length l)%nat.
  (* /repo/src/shapes/b2_polygon_shape.rs:116-128 default *)
  Definition polygon_default : polygon T := Polygon B2_POLYGON_RADIUS vzero (repeat vzero 8) (repeat vzero 8) 0.
  (* overwrite the first entries of an array *)
  Definition put (l old : list (vec2 T)) : list (vec2 T) := l ++ skipn (length l) old.
  Definition box_vertices (hx hy : T) : list (vec2 T) := [V2 (- hx) (- hy); V2 hx (- hy); V2 hx hy; V2 (- hx) hy].
  Definition box_normals : list (vec2 T) := [V2 #0 (- #1); V2 #1 #0; V2 #0 #1; V2 (- #1) #0].
  (* :12-23 set_as_box *)
  Definition set_as_box (self : polygon T) (hx hy : T) : polygon T :=
    Polygon (po_radius self) vzero (put (box_vertices hx hy) (po_vertices self)) (put box_normals (po_normals self)) 4.

  (* :59-94 compute_centroid *)
  Definition compute_centroid (vs : list (vec2 T)) : res (vec2 T) :=
    let count := length vs in
    b2_assert (Nat.leb 3 count) ;;;
    s <- get vs 0 ;;
    ' (c, area) <- for_range 0 count (fun i st =>
      let '(c, area) := st in
      a <- get vs 0 ;; let p1 := vsub a s in
      b <- get vs i ;; let p2 := vsub b s in
      d <- (if Nat.ltb (i + 1)%nat count then get vs (i + 1)%nat else get vs 0) ;; let p3 := vsub d s in
      let e1 := vsub p2 p1 in
      let e2 := vsub p3 p1 in
      let d := b2_cross e1 e2 in
      let triangle_area := nlit 1 2 * d in
      Ok (vadd c (vscale (triangle_area * nlit 1 3) (vadd (vadd p1 p2) p3)), area + triangle_area)) (vzero, #0) ;;
    b2_assert (area >? B2_EPSILON) ;;;
    Ok (vadd (vscale (#1 / area) c) s).

  (* :96-211 b2_polygon_shape_set. [weld] is :105-125, [rightmost] :138-147, [wrap] :149-183. *)
  Definition weld (vertices : list (vec2 T)) : list (vec2 T) :=
    let slop := nlit 1 2 * B2_LINEAR_SLOP in
    fold_left (fun ps v =>
      if existsb (fun p => b2_distance_vec2_squared v p <? slop * slop) ps then ps else ps ++ [v]) vertices [].
  Definition rightmost (ps : list (vec2 T)) : res nat :=
    p0 <- get ps 0 ;;
    ' (i0, _) <- for_range 1 (length ps) (fun i st =>
      let '(i0, x0) := st in
      p <- get ps i ;;
      q <- get ps i0 ;;
      if (vx p >? x0) || ((vx p =? x0) && (vy p <? vy q)) then Ok (i, vx p) else Ok (i0, x0)) (0, vx p0) ;;
    Ok i0.
  (* the inner loop: the next hull vertex after [ih] *)
  Definition next_hull (ps : list (vec2 T)) (ih : nat) : res nat :=
    h <- get ps ih ;;
    for_range 1 (length ps) (fun j ie =>
      if Nat.eqb ie ih then Ok j
      else
        e <- get ps ie ;;
        p <- get ps j ;;
        let r := vsub e h in
        let v := vsub p h in
        let c := b2_cross r v in
        let ie := if c <? #0 then j else ie in
        Ok (if (c =? #0) && (vlen2 v >? vlen2 r) then j else ie)) 0.
  Fixpoint wrap (fuel : nat) (ps : list (vec2 T)) (i0 : nat) (hull : list nat) (ih : nat) : res (list nat) :=
    match fuel with
    | O => Fuel
    | S k =>
      b2_assert (Nat.ltb (length hull) B2_MAX_POLYGON_VERTICES) ;;;
      let hull := hull ++ [ih] in
      ie <- next_hull ps ih ;;
      if Nat.eqb ie i0 then Ok hull else wrap k ps i0 hull ie
    end.
  Fixpoint map_res {A B} (f : A -> res B) (l : list A) : res (list B) :=
    match l with
    | [] => Ok []
    | a :: r => b <- f a ;; bs <- map_res f r ;; Ok (b :: bs)
    end.
  Definition edge_normal (vs : list (vec2 T)) (i : nat) : res (vec2 T) :=
    let i2 := if Nat.ltb (i + 1)%nat (length vs) then (i + 1)%nat else 0 in
    a <- get vs i ;;
    b <- get vs i2 ;;
    let e := vsub b a in
    b2_assert (vlen2 e >? B2_EPSILON * B2_EPSILON) ;;;
    Ok (snd (vnormalize (b2_cross_vs e #1))).
  Definition polygon_set (self : polygon T) (vertices : list (vec2 T)) : res (polygon T) :=
    let count := length vertices in
    b2_assert (Nat.leb 3 count && Nat.leb count B2_MAX_POLYGON_VERTICES) ;;;
    let ps := weld vertices in
    b2_assert (Nat.leb 3 (length ps)) ;;;
    i0 <- rightmost ps ;;
    hull <- wrap (S B2_MAX_POLYGON_VERTICES) ps i0 [] i0 ;;
    b2_assert (Nat.leb 3 (length hull)) ;;;
    vs <- map_res (fun i => get ps i) hull ;;
    ns <- map_res (fun i => edge_normal vs i) (seq 0 (length vs)) ;;
    c <- compute_centroid vs ;;
    Ok (Polygon (po_radius self) c (put vs (po_vertices self)) (put ns (po_normals self)) (length vs)).

  (* :213-224 test_point *)
  Definition polygon_test_point (self : polygon T) (xf : xform T) (p : vec2 T) : res bool :=
    let p_local := rotv_t (xq xf) (vsub p (xp xf)) in
    out <- any_range 0 (po_count self) (fun i =>
      n <- get (po_normals self) i ;;
      v <- get (po_vertices self) i ;;
      Ok (b2_dot n (vsub p_local v) >? #0)) ;;
    Ok (negb out).

  (* :226-290 ray_cast; the loop state is (lower, upper, index), None once false was returned *)
  Definition poly_ray_step (self : polygon T) (p1 d : vec2 T) (i : nat) (st : option (T * T * option nat))
    : res (option (T * T * option nat)) :=
    match st with
    | None => Ok None
    | Some (lower, upper, index) =>
      n <- get (po_normals self) i ;;
      v <- get (po_vertices self) i ;;
      let numerator := b2_dot n (vsub v p1) in
      let denominator := b2_dot n d in
      let next :=
        if denominator =? #0 then if numerator <? #0 then None else Some (lower, upper, index)
        else if (denominator <? #0) && (numerator <? lower * denominator) then Some (numerator / denominator, upper, Some i)
        else if (denominator >? #0) && (numerator <? upper * denominator) then Some (lower, numerator / denominator, index)
        else Some (lower, upper, index) in
      match next with
      | None => Ok None
      | Some (lower, upper, index) => if upper <? lower then Ok None else Ok (Some (lower, upper, index))
      end
    end.
  Definition polygon_ray_cast (self : polygon T) (input : ray_input T) (xf : xform T) : res (option (ray_output T)) :=
    let p1 := rotv_t (xq xf) (vsub (ray_p1 input) (xp xf)) in
    let p2 := rotv_t (xq xf) (vsub (ray_p2 input) (xp xf)) in
    let d := vsub p2 p1 in
    st <- for_range 0 (po_count self) (poly_ray_step self p1 d) (Some (nlit 32 1000, ray_max input, None)) ;;
    match st with
    | None => Ok None
    | Some (lower, upper, index) =>
      b2_assert ((#0 <=? lower) && (lower <=? ray_max input)) ;;;
      match index with
      | Some i => n <- get (po_normals self) i ;; Ok (Some (RayOut (rotv (xq xf) n) lower))
      | None => Ok None
      end
    end.

  (* :292-312 compute_aabb *)
  Definition polygon_aabb (self : polygon T) (xf : xform T) : res (aabb T) :=
    v0 <- get (po_vertices self) 0 ;;
    let lower := xfv xf v0 in
    ' (lower, upper) <- for_range 1 (po_count self) (fun i st =>
      let '(lower, upper) := st in
      v <- get (po_vertices self) i ;;
      let v := xfv xf v in
      Ok (b2_min_vec2 lower v, b2_max_vec2 upper v)) (lower, lower) ;;
    let r := V2 (po_radius self) (po_radius self) in
    Ok (AABB (vsub lower r) (vadd upper r)).

  (* :314-390 compute_mass *)
  Definition polygon_mass (self : polygon T) (density : T) : res (mass_data T) :=
    b2_assert (Nat.leb 3 (po_count self)) ;;;
    s <- get (po_vertices self) 0 ;;
    ' (center, area, inert) <- for_range 0 (po_count self) (fun i st =>
      let '(center, area, inert) := st in
      a <- get (po_vertices self) i ;; let e1 := vsub a s in
      b <- get (po_vertices self) (if Nat.ltb (i + 1)%nat (po_count self) then (i + 1)%nat else 0) ;; let e2 := vsub b s in
      let d := b2_cross e1 e2 in
      let triangle_area := nlit 1 2 * d in
      let intx2 := vx e1 * vx e1 + vx e2 * vx e1 + vx e2 * vx e2 in
      let inty2 := vy e1 * vy e1 + vy e2 * vy e1 + vy e2 * vy e2 in
      Ok (vadd center (vscale (triangle_area * nlit 1 3) (vadd e1 e2)), area + triangle_area,
          inert + (nlit 1 4 * nlit 1 3 * d) * (intx2 + inty2))) (vzero, #0, #0) ;;
    let mass := density * area in
    b2_assert (area >? B2_EPSILON) ;;;
    let center := vmuls center (#1 / area) in
    let c := vadd center s in
    Ok (MassData mass c (density * inert + mass * (b2_dot c c - b2_dot center center))).

  (* :392-413 validate; [m_count - 1] is evaluated only inside the loop *)
  Definition polygon_validate (self : polygon T) : res bool :=
    bad <- any_range 0 (po_count self) (fun i =>
      let i2 := if Nat.ltb i (po_count self - 1)%nat then (i + 1)%nat else 0 in
      p <- get (po_vertices self) i ;;
      q <- get (po_vertices self) i2 ;;
      let e := vsub q p in
      any_range 0 (po_count self) (fun j =>
        if Nat.eqb j i || Nat.eqb j i2 then Ok false
        else v <- get (po_vertices self) j ;; Ok (b2_cross e (vsub v p) <? #0))) ;;
    Ok (negb bad).

  Context `{TT : NumTrig T}.
  (* :25-53 set_as_box_angle *)
  Definition set_as_box_angle (self : polygon T) (hx hy : T) (center : vec2 T) (angle : T) : polygon T :=
    let xf := Xf center (rot_of angle) in
    Polygon (po_radius self) center (put (map (xfv xf) (box_vertices hx hy)) (po_vertices self))
      (put (map (rotv (xq xf)) box_normals) (po_normals self)) 4.
End Shapes.
