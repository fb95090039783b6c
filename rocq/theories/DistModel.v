(** Distance between shapes (GJK): src/b2_distance.rs (dist) and src/private/collision/b2_distance.rs (priv). *)
From Coq Require Import List ZArith Bool Arith.
From Verif Require Import Base Num Math ShapeModel DynModel.
Import ListNotations.

(* dist:15-21 B2distanceProxy; the buffer is only used while a proxy is made *)
Record dproxy (T : Type) := DProxy { dp_vertices : list (vec2 T); dp_radius : T }.
Arguments DProxy {T} _ _.
Arguments dp_vertices {T} _.
Arguments dp_radius {T} _.
(* dist:58-66 B2simplexCache *)
Record scache (T : Type) := SCache { sc_metric : T; sc_count : nat; sc_a : list nat; sc_b : list nat }.
Arguments SCache {T} _ _ _ _.
Arguments sc_metric {T} _.
Arguments sc_count {T} _.
Arguments sc_a {T} _.
Arguments sc_b {T} _.
(* dist:72-78 B2distanceInput *)
Record dinput (T : Type) := DInput { dn_a : dproxy T; dn_b : dproxy T; dn_xa : xform T; dn_xb : xform T; dn_radii : bool }.
Arguments DInput {T} _ _ _ _ _.
Arguments dn_a {T} _.
Arguments dn_b {T} _.
Arguments dn_xa {T} _.
Arguments dn_xb {T} _.
Arguments dn_radii {T} _.
(* dist:82-90 B2distanceOutput *)
Record doutput (T : Type) := DOutput { do_a : vec2 T; do_b : vec2 T; do_distance : T; do_iterations : nat }.
Arguments DOutput {T} _ _ _ _.
Arguments do_a {T} _.
Arguments do_b {T} _.
Arguments do_distance {T} _.
Arguments do_iterations {T} _.
(* priv:53-66 B2simplexVertex *)
Record svertex (T : Type) := SV { sv_wa : vec2 T; sv_wb : vec2 T; sv_w : vec2 T; sv_a : T; sv_ia : nat; sv_ib : nat }.
Arguments SV {T} _ _ _ _ _ _.
Arguments sv_wa {T} _.
Arguments sv_wb {T} _.
Arguments sv_w {T} _.
Arguments sv_a {T} _.
Arguments sv_ia {T} _.
Arguments sv_ib {T} _.
(* priv:68-72 B2simplex: the array m_v as three fields *)
Record simplex (T : Type) := Simplex { sx_0 : svertex T; sx_1 : svertex T; sx_2 : svertex T; sx_count : nat }.
Arguments Simplex {T} _ _ _ _.
Arguments sx_0 {T} _.
Arguments sx_1 {T} _.
Arguments sx_2 {T} _.
Arguments sx_count {T} _.

Section Dist.
  Local Open Scope num_scope.
  Context {T : Type} {NT : Num T}.

  (* priv:13-45 set_shape; a polygon slice longer than its vertices panics *)
  Definition proxy_of (s : shape T) (index : nat) : res (dproxy T) :=
    match s with
    | ShCircle c => Ok (DProxy [ci_p c] (ci_radius c))
    | ShPolygon p => b2_assert (Nat.leb (po_count p) (length (po_vertices p))) ;;; Ok (DProxy (firstn (po_count p) (po_vertices p)) (po_radius p))
    | ShChain c =>
      b2_assert (Nat.ltb index (length (ch_vertices c))) ;;;
      v1 <- get (ch_vertices c) index ;;
      v2 <- get (ch_vertices c) (if Nat.ltb (index + 1)%nat (length (ch_vertices c)) then (index + 1)%nat else 0%nat) ;;
      Ok (DProxy [v1; v2] (ch_radius c))
    | ShEdge e => Ok (DProxy [ed_v1 e; ed_v2 e] (ed_radius e))
    end.

  (* dist:138-141 get_vertex *)
  Definition get_vertex (p : dproxy T) (i : nat) : res (vec2 T) := get (dp_vertices p) i.
  (* dist:143-155 get_support *)
  Fixpoint support_from (l : list (vec2 T)) (d : vec2 T) (i best : nat) (value : T) : nat :=
    match l with
    | [] => best
    | v :: l => let x := b2_dot v d in if x >? value then support_from l d (S i) i x else support_from l d (S i) best value
    end.
  Definition get_support (p : dproxy T) (d : vec2 T) : res nat :=
    v0 <- get (dp_vertices p) 0 ;;
    Ok (support_from (tl (dp_vertices p)) d 1 0 (b2_dot v0 d)).

  Definition with_a (v : svertex T) (a : T) : svertex T := SV (sv_wa v) (sv_wb v) (sv_w v) a (sv_ia v) (sv_ib v).
  (* the vertex of two indices: priv:92-100, 113-121, 475-479 *)
  Definition vertex_at (pa : dproxy T) (xa : xform T) (pb : dproxy T) (xb : xform T) (ia ib : nat) (a : T) : res (svertex T) :=
    la <- get_vertex pa ia ;;
    lb <- get_vertex pb ib ;;
    let wa := xfv xa la in
    let wb := xfv xb lb in
    Ok (SV wa wb (vsub wb wa) a ia ib).
  Definition put (s : simplex T) (i : nat) (v : svertex T) : res (simplex T) :=
    match i with
    | 0 => Ok (Simplex v (sx_1 s) (sx_2 s) (sx_count s))
    | 1 => Ok (Simplex (sx_0 s) v (sx_2 s) (sx_count s))
    | 2 => Ok (Simplex (sx_0 s) (sx_1 s) v (sx_count s))
    | _ => Panic
    end.
  Definition with_count (s : simplex T) (n : nat) : simplex T := Simplex (sx_0 s) (sx_1 s) (sx_2 s) n.
  Definition sv_zero : svertex T := SV vzero vzero vzero #0 0 0.
  Definition sx_zero : simplex T := Simplex sv_zero sv_zero sv_zero 0.

  (* priv:214-234 get_metric *)
  Definition get_metric (s : simplex T) : res T :=
    match sx_count s with
    | 1 => Ok #0
    | 2 => Ok (b2_distance_vec2 (sv_w (sx_0 s)) (sv_w (sx_1 s)))
    | 3 => Ok (b2_cross (vsub (sv_w (sx_1 s)) (sv_w (sx_0 s))) (vsub (sv_w (sx_2 s)) (sv_w (sx_0 s))))
    | _ => Panic
    end.
  (* priv:74-123 read_cache *)
  Definition read_cache (c : scache T) (pa : dproxy T) (xa : xform T) (pb : dproxy T) (xb : xform T) : res (simplex T) :=
    b2_assert (Nat.leb (sc_count c) 3) ;;;
    s <- for_range 0 (sc_count c) (fun i s =>
      ia <- get (sc_a c) i ;;
      ib <- get (sc_b c) i ;;
      v <- vertex_at pa xa pb xb ia ib #0 ;;
      put s i v) (with_count sx_zero (sc_count c)) ;;
    s <- (if Nat.ltb 1 (sx_count s) then
      m <- get_metric s ;;
      if (m <? nlit 1 2 * sc_metric c) || (#2 * sc_metric c <? m) || (m <? B2_EPSILON) then Ok (with_count s 0) else Ok s
    else Ok s) ;;
    if Nat.eqb (sx_count s) 0 then
      v <- vertex_at pa xa pb xb 0 0 #1 ;;
      Ok (Simplex v (sx_1 s) (sx_2 s) 1)
    else Ok s.

  (* priv:125-133 write_cache: the indices are cut to 8 bits, what is beyond the count stays *)
  Definition byte (n : nat) : nat := Nat.modulo n 256.
  Definition write_cache (s : simplex T) (c : scache T) : res (scache T) :=
    m <- get_metric s ;;
    let ids := firstn (sx_count s) [sx_0 s; sx_1 s; sx_2 s] in
    Ok (SCache m (sx_count s) (map (fun v => byte (sv_ia v)) ids ++ skipn (sx_count s) (sc_a c)) (map (fun v => byte (sv_ib v)) ids ++ skipn (sx_count s) (sc_b c))).

  (* priv:135-158 get_search_direction *)
  Definition search_direction (s : simplex T) : res (vec2 T) :=
    match sx_count s with
    | 1 => Ok (vneg (sv_w (sx_0 s)))
    | 2 =>
      let e12 := vsub (sv_w (sx_1 s)) (sv_w (sx_0 s)) in
      let sgn := b2_cross e12 (vneg (sv_w (sx_0 s))) in
      if sgn >? #0 then Ok (b2_cross_sv #1 e12) else Ok (b2_cross_vs e12 #1)
    | _ => Panic
    end.
  (* priv:160-183 get_closest_point *)
  Definition closest_point (s : simplex T) : res (vec2 T) :=
    match sx_count s with
    | 1 => Ok (sv_w (sx_0 s))
    | 2 => Ok (vadd (vscale (sv_a (sx_0 s)) (sv_w (sx_0 s))) (vscale (sv_a (sx_1 s)) (sv_w (sx_1 s))))
    | 3 => Ok vzero
    | _ => Panic
    end.
  (* priv:185-212 get_witness_points *)
  Definition witness_points (s : simplex T) : res (vec2 T * vec2 T) :=
    let '(v0, v1, v2) := (sx_0 s, sx_1 s, sx_2 s) in
    match sx_count s with
    | 1 => Ok (sv_wa v0, sv_wb v0)
    | 2 => Ok (vadd (vscale (sv_a v0) (sv_wa v0)) (vscale (sv_a v1) (sv_wa v1)), vadd (vscale (sv_a v0) (sv_wb v0)) (vscale (sv_a v1) (sv_wb v1)))
    | 3 =>
      let p := vadd (vadd (vscale (sv_a v0) (sv_wa v0)) (vscale (sv_a v1) (sv_wa v1))) (vscale (sv_a v2) (sv_wa v2)) in
      Ok (p, p)
    | _ => Panic
    end.

  (* priv:267-296 b2_simplex_solve2 *)
  Definition solve2 (s : simplex T) : simplex T :=
    let '(v0, v1) := (sx_0 s, sx_1 s) in
    let w1 := sv_w v0 in
    let w2 := sv_w v1 in
    let e12 := vsub w2 w1 in
    let d12_2 := - b2_dot w1 e12 in
    if d12_2 <=? #0 then Simplex (with_a v0 #1) v1 (sx_2 s) 1
    else
      let d12_1 := b2_dot w2 e12 in
      if d12_1 <=? #0 then Simplex (with_a v1 #1) (with_a v1 #1) (sx_2 s) 1
      else
        let inv := #1 / (d12_1 + d12_2) in
        Simplex (with_a v0 (d12_1 * inv)) (with_a v1 (d12_2 * inv)) (sx_2 s) 2.
  (* priv:303-402 b2_simplex_solve3 *)
  Definition solve3 (s : simplex T) : simplex T :=
    let '(v0, v1, v2) := (sx_0 s, sx_1 s, sx_2 s) in
    let w1 := sv_w v0 in
    let w2 := sv_w v1 in
    let w3 := sv_w v2 in
    let e12 := vsub w2 w1 in
    let d12_1 := b2_dot w2 e12 in
    let d12_2 := - b2_dot w1 e12 in
    let e13 := vsub w3 w1 in
    let d13_1 := b2_dot w3 e13 in
    let d13_2 := - b2_dot w1 e13 in
    let e23 := vsub w3 w2 in
    let d23_1 := b2_dot w3 e23 in
    let d23_2 := - b2_dot w2 e23 in
    let n123 := b2_cross e12 e13 in
    let d123_1 := n123 * b2_cross w2 w3 in
    let d123_2 := n123 * b2_cross w3 w1 in
    let d123_3 := n123 * b2_cross w1 w2 in
    if (d12_2 <=? #0) && (d13_2 <=? #0) then Simplex (with_a v0 #1) v1 v2 1
    else if (d12_1 >? #0) && (d12_2 >? #0) && (d123_3 <=? #0) then
      let inv := #1 / (d12_1 + d12_2) in
      Simplex (with_a v0 (d12_1 * inv)) (with_a v1 (d12_2 * inv)) v2 2
    else if (d13_1 >? #0) && (d13_2 >? #0) && (d123_2 <=? #0) then
      let inv := #1 / (d13_1 + d13_2) in
      Simplex (with_a v0 (d13_1 * inv)) (with_a v2 (d13_2 * inv)) (with_a v2 (d13_2 * inv)) 2
    else if (d12_1 <=? #0) && (d23_2 <=? #0) then Simplex (with_a v1 #1) (with_a v1 #1) v2 1
    else if (d13_1 <=? #0) && (d23_1 <=? #0) then Simplex (with_a v2 #1) v1 (with_a v2 #1) 1
    else if (d23_1 >? #0) && (d23_2 >? #0) && (d123_1 <=? #0) then
      let inv := #1 / (d23_1 + d23_2) in
      Simplex (with_a v2 (d23_2 * inv)) (with_a v1 (d23_1 * inv)) (with_a v2 (d23_2 * inv)) 2
    else
      let inv := #1 / (d123_1 + d123_2 + d123_3) in
      Simplex (with_a v0 (d123_1 * inv)) (with_a v1 (d123_2 * inv)) (with_a v2 (d123_3 * inv)) 3.
  (* priv:441-452, 631-642 *)
  Definition solve_simplex (s : simplex T) : res (simplex T) :=
    match sx_count s with
    | 1 => Ok s
    | 2 => Ok (solve2 s)
    | 3 => Ok (solve3 s)
    | _ => Panic
    end.
  Definition indices (s : simplex T) : list (nat * nat) := map (fun v => (sv_ia v, sv_ib v)) (firstn (sx_count s) [sx_0 s; sx_1 s; sx_2 s]).
  Definition same_pair (x y : nat * nat) : bool := Nat.eqb (fst x) (fst y) && Nat.eqb (snd x) (snd y).

  (* priv:432-501 the main loop; [n] iterations are left, [iter] were done *)
  Fixpoint gjk (pa : dproxy T) (xa : xform T) (pb : dproxy T) (xb : xform T) (n iter : nat) (s : simplex T) : res (simplex T * nat) :=
    match n with
    | 0 => Ok (s, iter)
    | S n =>
      let saved := indices s in
      s <- solve_simplex s ;;
      if Nat.eqb (sx_count s) 3 then Ok (s, iter)
      else
        d <- search_direction s ;;
        if vlen2 d <? B2_EPSILON * B2_EPSILON then Ok (s, iter)
        else
          ia <- get_support pa (rotv_t (xq xa) (vneg d)) ;;
          ib <- get_support pb (rotv_t (xq xb) d) ;;
          old <- get [sx_0 s; sx_1 s; sx_2 s] (sx_count s) ;;
          v <- vertex_at pa xa pb xb ia ib (sv_a old) ;;
          s <- put s (sx_count s) v ;;
          if existsb (same_pair (ia, ib)) saved then Ok (s, S iter)
          else gjk pa xa pb xb n (S iter) (with_count s (S (sx_count s)))
    end.

  (* priv:404-535 b2_distance_fn *)
  Definition apply_radii (ra rb : T) (o : doutput T) : doutput T :=
    if (do_distance o >? ra + rb) && (do_distance o >? B2_EPSILON) then
      let normal := snd (vnormalize (vsub (do_b o) (do_a o))) in
      DOutput (vadd (do_a o) (vscale ra normal)) (vsub (do_b o) (vscale rb normal)) (do_distance o - (ra + rb)) (do_iterations o)
    else
      let p := vscale (nlit 1 2) (vadd (do_a o) (do_b o)) in
      DOutput p p #0 (do_iterations o).
  Definition distance_fn (c : scache T) (i : dinput T) : res (doutput T * scache T) :=
    s <- read_cache c (dn_a i) (dn_xa i) (dn_b i) (dn_xb i) ;;
    '(s, iter) <- gjk (dn_a i) (dn_xa i) (dn_b i) (dn_xb i) 20 0 s ;;
    '(a, b) <- witness_points s ;;
    let o := DOutput a b (b2_distance_vec2 a b) iter in
    c <- write_cache s c ;;
    Ok (if dn_radii i then apply_radii (dp_radius (dn_a i)) (dp_radius (dn_b i)) o else o, c).

  (* private/collision/b2_collision.rs:215-243 b2_test_overlap on shapes *)
  Definition cache_zero : scache T := SCache #0 0 [0; 0; 0]%nat [0; 0; 0]%nat.
  Definition shapes_overlap (sa : shape T) (ia : nat) (sb : shape T) (ib : nat) (xa xb : xform T) : res bool :=
    pa <- proxy_of sa ia ;;
    pb <- proxy_of sb ib ;;
    '(o, _) <- distance_fn cache_zero (DInput pa pb xa xb true) ;;
    Ok (do_distance o <? nofZ 10 * B2_EPSILON).

  (** ** shape cast *)
  (* dist:115-120 B2shapeCastOutput *)
  Record cast := Cast { ca_point : vec2 T; ca_normal : vec2 T; ca_lambda : T; ca_iterations : nat }.
  Definition cast_none (n : nat) : cast := Cast vzero vzero #1 n.
  (* priv:581-649 the loop: hit (nothing yet known about it), or an early return *)
  Inductive cast_end := CastMiss (done : nat) | CastLoop (s : simplex T) (v n : vec2 T) (lambda : T) (iter : nat).
  Fixpoint cast_loop (pa : dproxy T) (xa : xform T) (pb : dproxy T) (xb : xform T) (r : vec2 T) (sigma : T) (todo iter : nat) (s : simplex T) (v n : vec2 T) (lambda : T) : res cast_end :=
    match todo with
    | 0 => Ok (CastLoop s v n lambda iter)
    | S todo =>
      if negb (vlen v - sigma >? nlit 1 2 * B2_LINEAR_SLOP) then Ok (CastLoop s v n lambda iter)
      else
        b2_assert (Nat.ltb (sx_count s) 3) ;;;
        ia <- get_support pa (rotv_t (xq xa) (vneg v)) ;;
        la <- get_vertex pa ia ;;
        let wa := xfv xa la in
        ib <- get_support pb (rotv_t (xq xb) v) ;;
        lb <- get_vertex pb ib ;;
        let wb := xfv xb lb in
        let p := vsub wa wb in
        let v := snd (vnormalize v) in
        let vp := b2_dot v p in
        let vr := b2_dot v r in
        let clip := vp - sigma >? lambda * vr in
        if clip && (vr <=? #0) then Ok (CastMiss (S iter))
        else
          let lambda' := if clip then (vp - sigma) / vr else lambda in
          if clip && (lambda' >? #1) then Ok (CastMiss (S iter))
          else
            let n := if clip then vneg v else n in
            let s := if clip then with_count s 0 else s in
            let swa := vadd wb (vscale lambda' r) in
            s <- put s (sx_count s) (SV swa wa (vsub wa swa) #1 ib ia) ;;
            s <- solve_simplex (with_count s (S (sx_count s))) ;;
            if Nat.eqb (sx_count s) 3 then Ok (CastMiss (S iter))
            else
              v <- closest_point s ;;
              cast_loop pa xa pb xb r sigma todo (S iter) s v n lambda'
    end.
  (* priv:540-673 b2_shape_cast: None is false *)
  Definition shape_cast (pa : dproxy T) (xa : xform T) (pb : dproxy T) (xb : xform T) (r : vec2 T) : res (option cast) :=
    let ra := b2_max (dp_radius pa) B2_POLYGON_RADIUS in
    let rb := b2_max (dp_radius pb) B2_POLYGON_RADIUS in
    let radius := ra + rb in
    ia <- get_support pa (rotv_t (xq xa) (vneg r)) ;;
    la <- get_vertex pa ia ;;
    ib <- get_support pb (rotv_t (xq xb) r) ;;
    lb <- get_vertex pb ib ;;
    let v := vsub (xfv xa la) (xfv xb lb) in
    let sigma := b2_max B2_POLYGON_RADIUS (radius - B2_POLYGON_RADIUS) in
    e <- cast_loop pa xa pb xb r sigma 20 0 sx_zero v vzero #0 ;;
    match e with
    | CastMiss _ => Ok None
    | CastLoop s v n lambda iter =>
      if Nat.eqb iter 0 then Ok None
      else
        '(point_b, point_a) <- witness_points s ;;
        let n := if vlen2 v >? #0 then snd (vnormalize (vneg v)) else n in
        Ok (Some (Cast (vadd point_a (vscale ra n)) n lambda iter))
    end.
End Dist.
Arguments cast : clear implicits.
Arguments cast_end : clear implicits.
