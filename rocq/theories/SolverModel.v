(** The contact solver.
    Model of src/private/dynamics/b2_contact_solver_private.rs (csp) and the types of b2_contact_solver.rs (cs) and b2_time_step.rs (ts).
    The state of the bodies is in the two lists of positions and velocities of the island; the global G_BLOCK_SOLVE is the parameter [block].
    B2_DEBUG_SOLVER is false (csp:12), so the checks it guards are left out. *)
From Coq Require Import List ZArith Bool Arith.
From Verif Require Import Base Num Math Manifold DynModel.
Import ListNotations.

(* ts:27-39 *)
Record pos (T : Type) := Pos { p_c : vec2 T; p_a : T }.
Arguments Pos {T} _ _.
Arguments p_c {T} _.
Arguments p_a {T} _.
Record vel (T : Type) := Vel { v_v : vec2 T; v_w : T }.
Arguments Vel {T} _ _.
Arguments v_v {T} _.
Arguments v_w {T} _.
(* ts:16-25; the numbers of iterations are i32 and are only used as the upper bound of a range *)
Record tstep (T : Type) := TStep { ts_dt : T; ts_inv_dt : T; ts_ratio : T; ts_vel_iters : nat; ts_pos_iters : nat; ts_warm : bool }.
Arguments TStep {T} _ _ _ _ _ _.
Arguments ts_dt {T} _.
Arguments ts_inv_dt {T} _.
Arguments ts_ratio {T} _.
Arguments ts_vel_iters {T} _.
Arguments ts_pos_iters {T} _.
Arguments ts_warm {T} _.

(* cs:10-20 B2velocityConstraintPoint *)
Record vpoint (T : Type) := VPoint { vp_ra : vec2 T; vp_rb : vec2 T; vp_ni : T; vp_ti : T; vp_nm : T; vp_tm : T; vp_bias : T }.
Arguments VPoint {T} _ _ _ _ _ _ _.
Arguments vp_ra {T} _.
Arguments vp_rb {T} _.
Arguments vp_ni {T} _.
Arguments vp_ti {T} _.
Arguments vp_nm {T} _.
Arguments vp_tm {T} _.
Arguments vp_bias {T} _.
Definition set_vp_ni {T} (x : T) (p : vpoint T) : vpoint T := VPoint (vp_ra p) (vp_rb p) x (vp_ti p) (vp_nm p) (vp_tm p) (vp_bias p).
Definition set_vp_ti {T} (x : T) (p : vpoint T) : vpoint T := VPoint (vp_ra p) (vp_rb p) (vp_ni p) x (vp_nm p) (vp_tm p) (vp_bias p).

(* cs:22-41 B2contactVelocityConstraint *)
Record vcon (T : Type) := VCon {
  vc_points : list (vpoint T);
  vc_normal : vec2 T;
  vc_nmass : mat22 T;
  vc_k : mat22 T;
  vc_a : Z; vc_b : Z;
  vc_ma : T; vc_mb : T; vc_ia : T; vc_ib : T;
  vc_friction : T; vc_restitution : T; vc_threshold : T; vc_tspeed : T;
  vc_count : nat }.
Arguments VCon {T} _ _ _ _ _ _ _ _ _ _ _ _ _ _ _.
Arguments vc_points {T} _.
Arguments vc_normal {T} _.
Arguments vc_nmass {T} _.
Arguments vc_k {T} _.
Arguments vc_a {T} _.
Arguments vc_b {T} _.
Arguments vc_ma {T} _.
Arguments vc_mb {T} _.
Arguments vc_ia {T} _.
Arguments vc_ib {T} _.
Arguments vc_friction {T} _.
Arguments vc_restitution {T} _.
Arguments vc_threshold {T} _.
Arguments vc_tspeed {T} _.
Arguments vc_count {T} _.
Definition set_vc_points {T} (l : list (vpoint T)) (c : vcon T) : vcon T :=
  VCon l (vc_normal c) (vc_nmass c) (vc_k c) (vc_a c) (vc_b c) (vc_ma c) (vc_mb c) (vc_ia c) (vc_ib c) (vc_friction c) (vc_restitution c) (vc_threshold c) (vc_tspeed c) (vc_count c).
Definition set_vc_normal {T} (n : vec2 T) (c : vcon T) : vcon T :=
  VCon (vc_points c) n (vc_nmass c) (vc_k c) (vc_a c) (vc_b c) (vc_ma c) (vc_mb c) (vc_ia c) (vc_ib c) (vc_friction c) (vc_restitution c) (vc_threshold c) (vc_tspeed c) (vc_count c).
Definition set_vc_block {T} (k m : mat22 T) (c : vcon T) : vcon T :=
  VCon (vc_points c) (vc_normal c) m k (vc_a c) (vc_b c) (vc_ma c) (vc_mb c) (vc_ia c) (vc_ib c) (vc_friction c) (vc_restitution c) (vc_threshold c) (vc_tspeed c) (vc_count c).
Definition set_vc_count {T} (n : nat) (c : vcon T) : vcon T :=
  VCon (vc_points c) (vc_normal c) (vc_nmass c) (vc_k c) (vc_a c) (vc_b c) (vc_ma c) (vc_mb c) (vc_ia c) (vc_ib c) (vc_friction c) (vc_restitution c) (vc_threshold c) (vc_tspeed c) n.

(* cs:101-119 B2contactPositionConstraint *)
Record pcon (T : Type) := PCon {
  pc_points : list (vec2 T);
  pc_lnormal : vec2 T; pc_lpoint : vec2 T;
  pc_a : Z; pc_b : Z;
  pc_ma : T; pc_mb : T; pc_ca : vec2 T; pc_cb : vec2 T; pc_ia : T; pc_ib : T;
  pc_type : mtype;
  pc_ra : T; pc_rb : T;
  pc_count : nat }.
Arguments PCon {T} _ _ _ _ _ _ _ _ _ _ _ _ _ _ _.
Arguments pc_points {T} _.
Arguments pc_lnormal {T} _.
Arguments pc_lpoint {T} _.
Arguments pc_a {T} _.
Arguments pc_b {T} _.
Arguments pc_ma {T} _.
Arguments pc_mb {T} _.
Arguments pc_ca {T} _.
Arguments pc_cb {T} _.
Arguments pc_ia {T} _.
Arguments pc_ib {T} _.
Arguments pc_type {T} _.
Arguments pc_ra {T} _.
Arguments pc_rb {T} _.
Arguments pc_count {T} _.

(* what the solver reads of a contact: the contact, the radii of the two shapes and the two bodies *)
Record cinput (T : Type) := CIn { ci_contact : contact T; ci_ra : T; ci_rb : T; ci_a : body T; ci_b : body T }.
Arguments CIn {T} _ _ _ _ _.
Arguments ci_contact {T} _.
Arguments ci_ra {T} _.
Arguments ci_rb {T} _.
Arguments ci_a {T} _.
Arguments ci_b {T} _.

(* the velocities of the two bodies while a constraint is solved *)
Record pair (T : Type) := Pair { s_va : vec2 T; s_wa : T; s_vb : vec2 T; s_wb : T }.
Arguments Pair {T} _ _ _ _.
Arguments s_va {T} _.
Arguments s_wa {T} _.
Arguments s_vb {T} _.
Arguments s_wb {T} _.

(* an i32 index: negative as usize is out of bounds *)
Definition zget {A} (l : list A) (i : Z) : res A := if (i <? 0)%Z then Panic else get l (Z.to_nat i).
Definition zset {A} (l : list A) (i : Z) (a : A) : res (list A) := if (i <? 0)%Z then Panic else set l (Z.to_nat i) a.

(* for j in 0..n over an array, with a state *)
Fixpoint each_point {P S : Type} (n : nat) (f : P -> S -> P * S) (ps : list P) (s : S) : res (list P * S) :=
  match n, ps with
  | O, _ => Ok (ps, s)
  | Datatypes.S _, [] => Panic
  | Datatypes.S n, p :: r =>
    let '(p, s) := f p s in
    '(r, s) <- each_point n f r s ;;
    Ok (p :: r, s)
  end.
(* for c in list, each item and a state changed *)
Fixpoint each_item {C S : Type} (f : C -> S -> res (C * S)) (l : list C) (s : S) : res (list C * S) :=
  match l with
  | [] => Ok ([], s)
  | c :: r =>
    '(c, s) <- f c s ;;
    '(r, s) <- each_item f r s ;;
    Ok (c :: r, s)
  end.
Fixpoint map_res {A B : Type} (f : A -> res B) (l : list A) : res (list B) :=
  match l with
  | [] => Ok []
  | a :: r => b <- f a ;; r <- map_res f r ;; Ok (b :: r)
  end.
Fixpoint zip_res {A B C : Type} (f : A -> B -> res C) (l : list A) (m : list B) : res (list C) :=
  match l, m with
  | [], _ => Ok []
  | _ :: _, [] => Panic
  | a :: l, b :: m => c <- f a b ;; r <- zip_res f l m ;; Ok (c :: r)
  end.

Section Solver.
  Local Open Scope num_scope.
  Context {T : Type} `{NT : Num T} `{TT : NumTrig T}.

  (** ** making the constraints *)
  Definition vpoint_default : vpoint T := VPoint vzero vzero #0 #0 #0 #0 #0.
  Definition mat_zero : mat22 T := M22 vzero vzero.
  (* csp:83-107 one point of a new constraint *)
  Definition new_point (step : tstep T) (cp : mpoint T) : vpoint T :=
    VPoint vzero vzero
      (if ts_warm step then ts_ratio step * mp_normal_impulse cp else #0)
      (if ts_warm step then ts_ratio step * mp_tangent_impulse cp else #0) #0 #0 #0.
  (* csp:20-110 new, one contact; the arrays have two places *)
  Definition new_constraint (step : tstep T) (ci : cinput T) : res (vcon T * pcon T) :=
    let c := ci_contact ci in
    let m := c_manifold c in
    b2_assert (Nat.ltb 0 (mf_count m)) ;;;
    ps <- for_range 0 (mf_count m) (fun j acc =>
      cp <- get (mf_points m) j ;;
      l <- set (fst acc) j (new_point step cp) ;;
      k <- set (snd acc) j (mp_local cp) ;;
      Ok (l, k)) (repeat vpoint_default 2, repeat vzero 2) ;;
    Ok (VCon (fst ps) vzero mat_zero mat_zero (b_island_index (ci_a ci)) (b_island_index (ci_b ci))
          (b_inv_mass (ci_a ci)) (b_inv_mass (ci_b ci)) (b_inv_i (ci_a ci)) (b_inv_i (ci_b ci))
          (c_friction c) (c_restitution c) (c_threshold c) (c_tangent_speed c) (mf_count m),
        PCon (snd ps) (mf_local_normal m) (mf_local_point m) (b_island_index (ci_a ci)) (b_island_index (ci_b ci))
          (b_inv_mass (ci_a ci)) (b_inv_mass (ci_b ci)) (sw_local_center (b_sweep (ci_a ci))) (sw_local_center (b_sweep (ci_b ci)))
          (b_inv_i (ci_a ci)) (b_inv_i (ci_b ci)) (mf_type m) (ci_ra ci) (ci_rb ci) (mf_count m)).

  (** ** the parts that depend on the positions *)
  (* csp:148-153 and 680-685: the transform of a body whose center of mass is at c with angle a *)
  Definition center_xf (c : vec2 T) (a : T) (local : vec2 T) : xform T := let q := rot_of a in Xf (vsub c (rotv q local)) q.
  (* the velocity of b at the point seen from a *)
  Definition rel_vel (ra rb : vec2 T) (s : pair T) : vec2 T :=
    vsub (vsub (vadd (s_vb s) (b2_cross_sv (s_wb s) rb)) (s_va s)) (b2_cross_sv (s_wa s) ra).
  Definition keff (c : vcon T) (x xa y yb : T) : T := vc_ma c + vc_mb c + vc_ia c * x * xa + vc_ib c * y * yb.
  (* csp:161-190 one point *)
  Definition init_point (c : vcon T) (ca cb : vec2 T) (s : pair T) (wp : vec2 T) (p : vpoint T) : vpoint T :=
    let n := vc_normal c in
    let ra := vsub wp ca in
    let rb := vsub wp cb in
    let rna := b2_cross ra n in
    let rnb := b2_cross rb n in
    let kn := keff c rna rna rnb rnb in
    let t := b2_cross_vs n #1 in
    let rta := b2_cross ra t in
    let rtb := b2_cross rb t in
    let kt := keff c rta rta rtb rtb in
    let vrel := b2_dot n (rel_vel ra rb s) in
    VPoint ra rb (vp_ni p) (vp_ti p)
      (if kn >? #0 then #1 / kn else #0) (if kt >? #0 then #1 / kt else #0)
      (if vrel <? - vc_threshold c then (- vc_restitution c) * vrel else #0).
  (* csp:193-224 the matrix of the block solver *)
  Definition init_block (block : bool) (c : vcon T) : res (vcon T) :=
    if Nat.eqb (vc_count c) 2 && block then
      p1 <- get (vc_points c) 0 ;;
      p2 <- get (vc_points c) 1 ;;
      let n := vc_normal c in
      let rn1a := b2_cross (vp_ra p1) n in
      let rn1b := b2_cross (vp_rb p1) n in
      let rn2a := b2_cross (vp_ra p2) n in
      let rn2b := b2_cross (vp_rb p2) n in
      let k11 := keff c rn1a rn1a rn1b rn1b in
      let k22 := keff c rn2a rn2a rn2b rn2b in
      let k12 := keff c rn1a rn2a rn1b rn2b in
      if k11 * k11 <? #1000 * (k11 * k22 - k12 * k12) then
        let k := M22 (V2 k11 k12) (V2 k12 k22) in
        Ok (set_vc_block k (m22_inverse k) c)
      else Ok (set_vc_count 1 c)
    else Ok c.
  (* csp:113-226 initialize_velocity_constraints, one contact; [m] is the manifold of the contact *)
  Definition init_constraint (block : bool) (poss : list (pos T)) (vels : list (vel T)) (m : manifold T) (pc : pcon T) (c : vcon T) : res (vcon T) :=
    pa <- zget poss (vc_a c) ;;
    va <- zget vels (vc_a c) ;;
    pb <- zget poss (vc_b c) ;;
    vb <- zget vels (vc_b c) ;;
    b2_assert (Nat.ltb 0 (mf_count m)) ;;;
    wm <- world_manifold_initialize m (center_xf (p_c pa) (p_a pa) (pc_ca pc)) (pc_ra pc) (center_xf (p_c pb) (p_a pb) (pc_cb pc)) (pc_rb pc) ;;
    '(n, wps) <- unwrap wm ;;
    let c := set_vc_normal n c in
    let s := Pair (v_v va) (v_w va) (v_v vb) (v_w vb) in
    '(ps, _) <- each_point (vc_count c) (fun p j => (init_point c (p_c pa) (p_c pb) s (fst (nth j wps (vzero, #0))) p, S j)) (vc_points c) 0%nat ;;
    init_block block (set_vc_points ps c).

  (** ** impulses *)
  (* v_a -= m_a * p; w_a -= i_a * cross(r_a, p); v_b += m_b * p; w_b += i_b * cross(r_b, p) *)
  Definition push (c : vcon T) (ra rb p : vec2 T) (s : pair T) : pair T :=
    Pair (vsub (s_va s) (vscale (vc_ma c) p)) (s_wa s - vc_ia c * b2_cross ra p)
         (vadd (s_vb s) (vscale (vc_mb c) p)) (s_wb s + vc_ib c * b2_cross rb p).
  Definition tangent_of (c : vcon T) : vec2 T := b2_cross_vs (vc_normal c) #1.
  (* csp:251-259 *)
  Definition warm_point (c : vcon T) (p : vpoint T) (s : pair T) : vpoint T * pair T :=
    (p, push c (vp_ra p) (vp_rb p) (vadd (vscale (vp_ni p) (vc_normal c)) (vscale (vp_ti p) (tangent_of c))) s).
  (* csp:295-320 *)
  Definition tangent_point (c : vcon T) (p : vpoint T) (s : pair T) : vpoint T * pair T :=
    let t := tangent_of c in
    let vt := b2_dot (rel_vel (vp_ra p) (vp_rb p) s) t - vc_tspeed c in
    let lambda := vp_tm p * (- vt) in
    let max_friction := vc_friction c * vp_ni p in
    let new_impulse := b2_clamp (vp_ti p + lambda) (- max_friction) max_friction in
    let lambda := new_impulse - vp_ti p in
    (set_vp_ti new_impulse p, push c (vp_ra p) (vp_rb p) (vscale lambda t) s).
  (* csp:326-346 *)
  Definition normal_point (c : vcon T) (p : vpoint T) (s : pair T) : vpoint T * pair T :=
    let vn := b2_dot (rel_vel (vp_ra p) (vp_rb p) s) (vc_normal c) in
    let lambda := (- vp_nm p) * (vn - vp_bias p) in
    let new_impulse := b2_max (vp_ni p + lambda) #0 in
    let lambda := new_impulse - vp_ni p in
    (set_vp_ni new_impulse p, push c (vp_ra p) (vp_rb p) (vscale lambda (vc_normal c)) s).
  (* csp:427-441 (and the same lines of the other cases): the new impulses are x *)
  Definition block_apply (c : vcon T) (p1 p2 : vpoint T) (x : vec2 T) (s : pair T) : vpoint T * vpoint T * pair T :=
    let d := vsub x (V2 (vp_ni p1) (vp_ni p2)) in
    let i1 := vscale (vx d) (vc_normal c) in
    let i2 := vscale (vy d) (vc_normal c) in
    (set_vp_ni (vx x) p1, set_vp_ni (vy x) p2,
     Pair (vsub (s_va s) (vscale (vc_ma c) (vadd i1 i2))) (s_wa s - vc_ia c * (b2_cross (vp_ra p1) i1 + b2_cross (vp_ra p2) i2))
          (vadd (s_vb s) (vscale (vc_mb c) (vadd i1 i2))) (s_wb s + vc_ib c * (b2_cross (vp_rb p1) i1 + b2_cross (vp_rb p2) i2))).
  (* csp:389-406 b' *)
  Definition block_b (c : vcon T) (p1 p2 : vpoint T) (s : pair T) : vec2 T :=
    let vn1 := b2_dot (rel_vel (vp_ra p1) (vp_rb p1) s) (vc_normal c) in
    let vn2 := b2_dot (rel_vel (vp_ra p2) (vp_rb p2) s) (vc_normal c) in
    vsub (V2 (vn1 - vp_bias p1) (vn2 - vp_bias p2)) (b2_mul (vc_k c) (V2 (vp_ni p1) (vp_ni p2))).
  (* csp:411-575 the cases; None: no solution *)
  Definition block_case (c : vcon T) (p1 p2 : vpoint T) (b : vec2 T) : option (vec2 T) :=
    let x := vneg (b2_mul (vc_nmass c) b) in
    if (vx x >=? #0) && (vy x >=? #0) then Some x
    else
      let x1 := (- vp_nm p1) * vx b in
      if (x1 >=? #0) && (vy (m2x (vc_k c)) * x1 + vy b >=? #0) then Some (V2 x1 #0)
      else
        let x2 := (- vp_nm p2) * vy b in
        if (x2 >=? #0) && (vx (m2y (vc_k c)) * x2 + vx b >=? #0) then Some (V2 #0 x2)
        else if (vx b >=? #0) && (vy b >=? #0) then Some (V2 #0 #0)
        else None.
  (* csp:348-576 *)
  Definition block_solve (c : vcon T) (ps : list (vpoint T)) (s : pair T) : res (list (vpoint T) * pair T) :=
    match ps with
    | p1 :: p2 :: r =>
      b2_assert ((vp_ni p1 >=? #0) && (vp_ni p2 >=? #0)) ;;;
      match block_case c p1 p2 (block_b c p1 p2 s) with
      | Some x => let '(p1, p2, s) := block_apply c p1 p2 x s in Ok (p1 :: p2 :: r, s)
      | None => Ok (ps, s)
      end
    | _ => Panic
    end.
  (* csp:268-583 solve_velocity_constraints, between reading and writing the velocities *)
  Definition solve_points (block : bool) (c : vcon T) (s : pair T) : res (list (vpoint T) * pair T) :=
    b2_assert (Nat.eqb (vc_count c) 1 || Nat.eqb (vc_count c) 2) ;;;
    '(ps, s) <- each_point (vc_count c) (tangent_point c) (vc_points c) s ;;
    if Nat.eqb (vc_count c) 1 || negb block then each_point (vc_count c) (normal_point c) ps s
    else block_solve c ps s.
  (* read the velocities of the two bodies, change them, write them back: first a, then b *)
  Definition with_pair (c : vcon T) (f : pair T -> res (list (vpoint T) * pair T)) (vels : list (vel T)) : res (vcon T * list (vel T)) :=
    va <- zget vels (vc_a c) ;;
    vb <- zget vels (vc_b c) ;;
    '(ps, s) <- f (Pair (v_v va) (v_w va) (v_v vb) (v_w vb)) ;;
    vels <- zset vels (vc_a c) (Vel (s_va s) (s_wa s)) ;;
    vels <- zset vels (vc_b c) (Vel (s_vb s) (s_wb s)) ;;
    Ok (set_vc_points ps c, vels).
  Definition solve_constraint (block : bool) (c : vcon T) (vels : list (vel T)) : res (vcon T * list (vel T)) := with_pair c (solve_points block c) vels.
  (* csp:228-266 warm_start *)
  Definition warm_constraint (c : vcon T) (vels : list (vel T)) : res (vcon T * list (vel T)) :=
    with_pair c (each_point (vc_count c) (warm_point c) (vc_points c)) vels.
  Definition warm_start (cs : list (vcon T)) (vels : list (vel T)) : res (list (vcon T) * list (vel T)) := each_item warm_constraint cs vels.
  Definition solve_velocities (block : bool) (cs : list (vcon T)) (vels : list (vel T)) : res (list (vcon T) * list (vel T)) := each_item (solve_constraint block) cs vels.

  (* csp:585-598 store_impulses, one contact *)
  Definition store_impulses (c : vcon T) (m : manifold T) : res (manifold T) :=
    ps <- for_range 0 (vc_count c) (fun j ps =>
      q <- get ps j ;;
      p <- get (vc_points c) j ;;
      set ps j (MP (mp_local q) (vp_ni p) (vp_ti p) (mp_id q))) (mf_points m) ;;
    Ok (MF ps (mf_local_normal m) (mf_local_point m) (mf_type m) (mf_count m)).

  (** ** positions *)
  (* csp:600-643 B2positionSolverManifold::initialize: normal, point, separation *)
  Definition psm_initialize (pc : pcon T) (xa xb : xform T) (j : nat) : res (vec2 T * vec2 T * T) :=
    b2_assert (Nat.ltb 0 (pc_count pc)) ;;;
    match pc_type pc with
    | MCircles =>
      l <- get (pc_points pc) 0 ;;
      let a := xfv xa (pc_lpoint pc) in
      let b := xfv xb l in
      let n := snd (vnormalize (vsub b a)) in
      Ok (n, vscale (nlit 1 2) (vadd a b), b2_dot (vsub b a) n - pc_ra pc - pc_rb pc)
    | MFaceA =>
      let n := rotv (xq xa) (pc_lnormal pc) in
      l <- get (pc_points pc) j ;;
      let clip := xfv xb l in
      Ok (n, clip, b2_dot (vsub clip (xfv xa (pc_lpoint pc))) n - pc_ra pc - pc_rb pc)
    | MFaceB =>
      let n := rotv (xq xb) (pc_lnormal pc) in
      l <- get (pc_points pc) j ;;
      let clip := xfv xa l in
      Ok (vneg n, clip, b2_dot (vsub clip (xfv xb (pc_lpoint pc))) n - pc_ra pc - pc_rb pc)
    end.
  (* csp:678-717 one point: the masses and the factor are those of the caller *)
  Definition position_point (baumgarte ma mb ia ib : T) (pc : pcon T) (j : nat) (st : T * pos T * pos T) : res (T * pos T * pos T) :=
    let '(min_separation, pa, pb) := st in
    '(n, point, separation) <- psm_initialize pc (center_xf (p_c pa) (p_a pa) (pc_ca pc)) (center_xf (p_c pb) (p_a pb) (pc_cb pc)) j ;;
    let ra := vsub point (p_c pa) in
    let rb := vsub point (p_c pb) in
    let min_separation := b2_min min_separation separation in
    let c := b2_clamp (baumgarte * (separation + B2_LINEAR_SLOP)) (- B2_MAX_LINEAR_CORRECTION) #0 in
    let rna := b2_cross ra n in
    let rnb := b2_cross rb n in
    let k := ma + mb + ia * rna * rna + ib * rnb * rnb in
    let impulse := if k >? #0 then (- c) / k else #0 in
    let p := vscale impulse n in
    Ok (min_separation, Pos (vsub (p_c pa) (vscale ma p)) (p_a pa - ia * b2_cross ra p), Pos (vadd (p_c pb) (vscale mb p)) (p_a pb + ib * b2_cross rb p)).
  (* csp:657-724 one constraint *)
  Definition position_constraint (baumgarte ma mb ia ib : T) (pc : pcon T) (st : T * list (pos T)) : res (T * list (pos T)) :=
    let '(min_separation, poss) := st in
    pa <- zget poss (pc_a pc) ;;
    pb <- zget poss (pc_b pc) ;;
    '(min_separation, pa, pb) <- for_range 0 (pc_count pc) (position_point baumgarte ma mb ia ib pc) (min_separation, pa, pb) ;;
    poss <- zset poss (pc_a pc) pa ;;
    poss <- zset poss (pc_b pc) pb ;;
    Ok (min_separation, poss).
  (* csp:653-730 solve_position_constraints *)
  Definition solve_positions (pcs : list (pcon T)) (poss : list (pos T)) : res (list (pos T) * bool) :=
    '(_, (m, poss)) <- each_item (fun pc st => st <- position_constraint B2_BAUMGARTE (pc_ma pc) (pc_mb pc) (pc_ia pc) (pc_ib pc) pc st ;; Ok (pc, st)) pcs (#0, poss) ;;
    Ok (poss, m >=? (- #3) * B2_LINEAR_SLOP).
  (* csp:733-823 solve_toiposition_constraints: only the two bodies of the impact move *)
  Definition toi_mass (i ta tb : Z) (m : T) : T := if (i =? ta)%Z || (i =? tb)%Z then m else #0.
  Definition solve_toi_positions (ta tb : Z) (pcs : list (pcon T)) (poss : list (pos T)) : res (list (pos T) * bool) :=
    '(_, (m, poss)) <- each_item (fun pc st =>
      st <- position_constraint B2_TOI_BAUMGARTE (toi_mass (pc_a pc) ta tb (pc_ma pc)) (toi_mass (pc_b pc) ta tb (pc_mb pc))
              (toi_mass (pc_a pc) ta tb (pc_ia pc)) (toi_mass (pc_b pc) ta tb (pc_ib pc)) pc st ;;
      Ok (pc, st)) pcs (#0, poss) ;;
    Ok (poss, m >=? (- nlit 3 2) * B2_LINEAR_SLOP).
End Solver.
