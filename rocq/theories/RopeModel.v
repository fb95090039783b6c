(** The rope.
    Model of src/b2_rope.rs and src/private/rope/b2_rope.rs (called rope below), except drawing.
    Numbers of points are [nat] here (usize and i32 in the code, which casts them to and fro).
    Loops over constraints that [continue] return the constraint and the points as they are. *)
From Coq Require Import List ZArith Bool Arith.
From Verif Require Import Base Num Math SolverModel.
Import ListNotations.

(* f32::atan2, f32::exp *)
Class NumRope (T : Type) : Type := { natan2 : T -> T -> T; nexp : T -> T }.

Local Set Implicit Arguments.
(* b2_rope.rs:7-20 *)
Inductive stretching := PbdStretching | XpbdStretching.
Inductive bending := SpringAngleBending | PbdAngleBending | XpbdAngleBending | PbdDistanceBending | PbdHeightBending | PbdTriangleBending.
(* b2_rope.rs:23-36; warm_start is never read *)
Record tuning (T : Type) := Tuning { tu_stretching : stretching; tu_bending : bending; tu_damping : T; tu_stretch_stiffness : T; tu_stretch_hertz : T; tu_stretch_damping : T;
  tu_bend_stiffness : T; tu_bend_hertz : T; tu_bend_damping : T; tu_isometric : bool; tu_fixed_mass : bool }.
(* b2_rope.rs:58-69: position and mass of the vertices *)
Record rope_def (T : Type) := RopeDef { rd_position : vec2 T; rd_vertices : list (vec2 T * T); rd_gravity : vec2 T; rd_tuning : tuning T }.
(* b2_rope.rs:83-92 *)
Record stretch (T : Type) := Stretch { st_i1 : nat; st_i2 : nat; st_m1 : T; st_m2 : T; st_l : T; st_lambda : T; st_spring : T; st_damper : T }.
(* b2_rope.rs:95-110 *)
Record bend (T : Type) := Bend { be_i1 : nat; be_i2 : nat; be_i3 : nat; be_m1 : T; be_m2 : T; be_m3 : T; be_eff : T; be_lambda : T; be_l1 : T; be_l2 : T; be_a1 : T; be_a2 : T; be_spring : T; be_damper : T }.
(* b2_rope.rs:113-119 *)
Record rpoint (T : Type) := RPoint { rp_bind : vec2 T; rp_p : vec2 T; rp_p0 : vec2 T; rp_v : vec2 T; rp_im : T }.
(* b2_rope.rs:121-135; the counts are the lengths of the lists *)
Record rope (T : Type) := Rope { ro_position : vec2 T; ro_points : list (rpoint T); ro_stretch : list (stretch T); ro_bend : list (bend T); ro_gravity : vec2 T; ro_tuning : tuning T }.
Unset Implicit Arguments.
Arguments Tuning {T} _ _ _ _ _ _ _ _ _ _ _.
Arguments RopeDef {T} _ _ _ _.
Arguments Stretch {T} _ _ _ _ _ _ _ _.
Arguments Bend {T} _ _ _ _ _ _ _ _ _ _ _ _ _ _.
Arguments RPoint {T} _ _ _ _ _.
Arguments Rope {T} _ _ _ _ _ _.
Arguments rp_bind {T} _.
Arguments rp_p {T} _.
Arguments rp_p0 {T} _.
Arguments rp_v {T} _.
Arguments rp_im {T} _.

Section Rope.
  Local Open Scope num_scope.
  Context {T : Type} `{NT : Num T} `{RT : NumRope T}.

  Definition with_p (q : rpoint T) (p : vec2 T) : rpoint T := RPoint (rp_bind q) p (rp_p0 q) (rp_v q) (rp_im q).
  Definition with_v (q : rpoint T) (v : vec2 T) : rpoint T := RPoint (rp_bind q) (rp_p q) (rp_p0 q) v (rp_im q).
  Definition st_with_lambda (c : stretch T) (x : T) : stretch T := Stretch (st_i1 c) (st_i2 c) (st_m1 c) (st_m2 c) (st_l c) x (st_spring c) (st_damper c).
  Definition be_with_lambda (c : bend T) (x : T) : bend T :=
    Bend (be_i1 c) (be_i2 c) (be_i3 c) (be_m1 c) (be_m2 c) (be_m3 c) (be_eff c) x (be_l1 c) (be_l2 c) (be_a1 c) (be_a2 c) (be_spring c) (be_damper c).
  Definition st_with_spring (c : stretch T) (s d : T) : stretch T := Stretch (st_i1 c) (st_i2 c) (st_m1 c) (st_m2 c) (st_l c) (st_lambda c) s d.
  Definition be_with_spring (c : bend T) (s d : T) : bend T :=
    Bend (be_i1 c) (be_i2 c) (be_i3 c) (be_m1 c) (be_m2 c) (be_m3 c) (be_eff c) (be_lambda c) (be_l1 c) (be_l2 c) (be_a1 c) (be_a2 c) s d.

  (* b2_rope.rs:38-55 *)
  Definition default_tuning : tuning T := Tuning PbdStretching PbdAngleBending #0 #1 #0 #0 (nlit 1 2) #1 #0 false false.
  (* rope:6-17, Default of the constraints *)
  Definition rope_default : rope T := Rope vzero [] [] [] vzero default_tuning.
  Definition stretch_default : stretch T := Stretch 0 0 #0 #0 #0 #0 #0 #0.
  Definition bend_default : bend T := Bend 0 0 0 #0 #0 #0 #0 #0 #0 #0 #0 #0 #0 #0.
  (* Vec::resize *)
  Definition resize {A} (n : nat) (x : A) (l : list A) : list A := firstn n l ++ repeat x (n - length l).

  (** ** set_tuning, rope:126-170 *)
  Definition tune_bend (t : tuning T) (c : bend T) : bend T :=
    let omega := #2 * B2_PI * tu_bend_hertz t in
    let l1sqr := be_l1 c * be_l1 c in
    let l2sqr := be_l2 c * be_l2 c in
    if l1sqr * l2sqr =? #0 then be_with_spring c #0 #0
    else
      let j2 := #1 / be_l1 c + #1 / be_l2 c in
      let sum := be_m1 c / l1sqr + be_m2 c * j2 * j2 + be_m3 c / l2sqr in
      if sum =? #0 then be_with_spring c #0 #0
      else
        let mass := #1 / sum in
        be_with_spring c (mass * omega * omega) (#2 * mass * tu_bend_damping t * omega).
  Definition tune_stretch (t : tuning T) (c : stretch T) : stretch T :=
    let omega := #2 * B2_PI * tu_stretch_hertz t in
    let sum := st_m1 c + st_m2 c in
    if sum =? #0 then c
    else
      let mass := #1 / sum in
      st_with_spring c (mass * omega * omega) (#2 * mass * tu_stretch_damping t * omega).
  Definition set_tuning (t : tuning T) (r : rope T) : rope T :=
    Rope (ro_position r) (ro_points r) (map (tune_stretch t) (ro_stretch r)) (map (tune_bend t) (ro_bend r)) (ro_gravity r) t.

  (** ** create, rope:19-124 *)
  Definition new_point (position : vec2 T) (v : vec2 T * T) : rpoint T :=
    let p := vadd (fst v) position in
    RPoint (fst v) p p vzero (if snd v >? #0 then #1 / snd v else #0).
  (* rope:54-68 *)
  Definition new_stretch (qs : list (rpoint T)) (i : nat) : res (stretch T) :=
    q1 <- get qs i ;;
    q2 <- get qs (i + 1) ;;
    Ok (Stretch i (i + 1) (rp_im q1) (rp_im q2) (b2_distance_vec2 (rp_p q1) (rp_p q2)) #0 #0 #0).
  (* rope:70-119; [c] is the constraint that stood there *)
  Definition new_bend (qs : list (rpoint T)) (i : nat) (c : bend T) : res (bend T) :=
    q1 <- get qs i ;;
    q2 <- get qs (i + 1) ;;
    q3 <- get qs (i + 2) ;;
    let '(p1, p2, p3) := (rp_p q1, rp_p q2, rp_p q3) in
    let b eff a1 a2 := Bend i (i + 1) (i + 2) (rp_im q1) (rp_im q2) (rp_im q3) eff #0 (b2_distance_vec2 p1 p2) (b2_distance_vec2 p2 p3) a1 a2 (be_spring c) (be_damper c) in
    let e1 := vsub p2 p1 in
    let e2 := vsub p3 p2 in
    let l1sqr := vlen2 e1 in
    let l2sqr := vlen2 e2 in
    if l1sqr * l2sqr =? #0 then Ok (b #0 (be_a1 c) (be_a2 c))
    else
      let jd1 := vscale (- #1 / l1sqr) (vskew e1) in
      let jd2 := vscale (#1 / l2sqr) (vskew e2) in
      let j1 := vneg jd1 in
      let j2 := vsub jd1 jd2 in
      let j3 := jd2 in
      let eff := rp_im q1 * b2_dot j1 j1 + rp_im q2 * b2_dot j2 j2 + rp_im q3 * b2_dot j3 j3 in
      let r := vsub p3 p1 in
      let rr := vlen2 r in
      if rr =? #0 then Ok (b eff (be_a1 c) (be_a2 c))
      else Ok (b eff (b2_dot e2 r / rr) (b2_dot e1 r / rr)).
  (* for i in 0 .. l.len() { l[i] = f(i, l[i]) } *)
  Fixpoint each_place {A} (f : nat -> A -> res A) (i : nat) (l : list A) : res (list A) :=
    match l with
    | [] => Ok []
    | x :: l => y <- f i x ;; r <- each_place f (S i) l ;; Ok (y :: r)
    end.
  Definition create (d : rope_def T) (r : rope T) : res (rope T) :=
    let n := length (rd_vertices d) in
    b2_assert (3 <=? n)%nat ;;;
    let qs := map (new_point (rd_position d)) (rd_vertices d) in
    ss <- each_place (fun i _ => new_stretch qs i) 0 (resize (n - 1) stretch_default (ro_stretch r)) ;;
    bs <- each_place (new_bend qs) 0 (resize (n - 2) bend_default (ro_bend r)) ;;
    Ok (set_tuning (rd_tuning d) (Rope (rd_position d) qs ss bs (rd_gravity d) (ro_tuning r))).

  (** ** the constraints *)
  (* read the points of a constraint, and write them if it did not [continue] *)
  Definition on2 {C} (c : C) (i1 i2 : nat) (f : rpoint T -> rpoint T -> option (C * rpoint T * rpoint T)) (qs : list (rpoint T)) : res (C * list (rpoint T)) :=
    q1 <- get qs i1 ;;
    q2 <- get qs i2 ;;
    match f q1 q2 with
    | None => Ok (c, qs)
    | Some (c, q1, q2) => qs <- set qs i1 q1 ;; qs <- set qs i2 q2 ;; Ok (c, qs)
    end.
  Definition on3 {C} (c : C) (i1 i2 i3 : nat) (f : rpoint T -> rpoint T -> rpoint T -> option (C * rpoint T * rpoint T * rpoint T)) (qs : list (rpoint T)) : res (C * list (rpoint T)) :=
    q1 <- get qs i1 ;;
    q2 <- get qs i2 ;;
    q3 <- get qs i3 ;;
    match f q1 q2 q3 with
    | None => Ok (c, qs)
    | Some (c, q1, q2, q3) => qs <- set qs i1 q1 ;; qs <- set qs i2 q2 ;; qs <- set qs i3 q3 ;; Ok (c, qs)
    end.
  (* rope:266-290; also rope:548-575 *)
  Definition pbd_pull {C} (stiffness m1 m2 len : T) (c : C) (q1 q2 : rpoint T) : option (C * rpoint T * rpoint T) :=
    let '(l, d) := vnormalize (vsub (rp_p q2) (rp_p q1)) in
    let sum := m1 + m2 in
    if sum =? #0 then None
    else
      let s1 := m1 / sum in
      let s2 := m2 / sum in
      Some (c, with_p q1 (vsub (rp_p q1) (vscale (stiffness * s1 * (len - l)) d)), with_p q2 (vadd (rp_p q2) (vscale (stiffness * s2 * (len - l)) d))).
  Definition stretch_pbd (t : tuning T) (c : stretch T) : list (rpoint T) -> res (stretch T * list (rpoint T)) :=
    on2 c (st_i1 c) (st_i2 c) (pbd_pull (tu_stretch_stiffness t) (st_m1 c) (st_m2 c) (st_l c) c).
  (* the new multiplier of rope:313-324 and 452-463: spring, damper, inverse mass, error, movement, multiplier so far *)
  Definition xpbd_impulse (dt spring damper sum c1 cdot lambda : T) : T :=
    let alpha := #1 / (spring * dt * dt) in
    let beta := dt * dt * damper in
    let sigma := alpha * beta / dt in
    let b := c1 + alpha * lambda + sigma * cdot in
    let sum2 := (#1 + sigma) * sum + alpha in
    (- b) / sum2.
  (* rope:292-333 *)
  Definition stretch_xpbd (dt : T) (c : stretch T) : list (rpoint T) -> res (stretch T * list (rpoint T)) :=
    on2 c (st_i1 c) (st_i2 c) (fun q1 q2 =>
      let dp1 := vsub (rp_p q1) (rp_p0 q1) in
      let dp2 := vsub (rp_p q2) (rp_p0 q2) in
      let '(l, u) := vnormalize (vsub (rp_p q2) (rp_p q1)) in
      let j1 := vneg u in
      let j2 := u in
      let sum := st_m1 c + st_m2 c in
      if sum =? #0 then None
      else
        let impulse := xpbd_impulse dt (st_spring c) (st_damper c) sum (l - st_l c) (b2_dot j1 dp1 + b2_dot j2 dp2) (st_lambda c) in
        Some (st_with_lambda c (st_lambda c + impulse), with_p q1 (vadd (rp_p q1) (vscale (st_m1 c * impulse) j1)), with_p q2 (vadd (rp_p q2) (vscale (st_m2 c * impulse) j2)))).
  (* rope:343-382, 412-446, 492-526: the squared lengths, the angle and its derivatives by the points *)
  Definition bend_lengths (t : tuning T) (c : bend T) (p1 p2 p3 : vec2 T) : T * T :=
    if tu_isometric t then (be_l1 c * be_l1 c, be_l2 c * be_l2 c) else (vlen2 (vsub p2 p1), vlen2 (vsub p3 p2)).
  Definition bend_angle (p1 p2 p3 : vec2 T) : T := natan2 (b2_cross (vsub p2 p1) (vsub p3 p2)) (b2_dot (vsub p2 p1) (vsub p3 p2)).
  Definition bend_jacobian (l1sqr l2sqr : T) (p1 p2 p3 : vec2 T) : vec2 T * vec2 T * vec2 T :=
    let jd1 := vscale (- #1 / l1sqr) (vskew (vsub p2 p1)) in
    let jd2 := vscale (#1 / l2sqr) (vskew (vsub p3 p2)) in
    (vneg jd1, vsub jd1 jd2, jd2).
  Definition bend_sum (t : tuning T) (c : bend T) (j1 j2 j3 : vec2 T) : T :=
    if tu_fixed_mass t then be_eff c else be_m1 c * b2_dot j1 j1 + be_m2 c * b2_dot j2 j2 + be_m3 c * b2_dot j3 j3.
  Definition bend_move (c c' : bend T) (impulse : T) (j1 j2 j3 : vec2 T) (q1 q2 q3 : rpoint T) : option (bend T * rpoint T * rpoint T * rpoint T) :=
    Some (c', with_p q1 (vadd (rp_p q1) (vscale (be_m1 c * impulse) j1)), with_p q2 (vadd (rp_p q2) (vscale (be_m2 c * impulse) j2)), with_p q3 (vadd (rp_p q3) (vscale (be_m3 c * impulse) j3))).
  (* rope:335-395 *)
  Definition bend_pbd_angle (t : tuning T) (c : bend T) : list (rpoint T) -> res (bend T * list (rpoint T)) :=
    on3 c (be_i1 c) (be_i2 c) (be_i3 c) (fun q1 q2 q3 =>
      let '(p1, p2, p3) := (rp_p q1, rp_p q2, rp_p q3) in
      let angle := bend_angle p1 p2 p3 in
      let '(l1sqr, l2sqr) := bend_lengths t c p1 p2 p3 in
      if l1sqr * l2sqr =? #0 then None
      else
        let '(j1, j2, j3) := bend_jacobian l1sqr l2sqr p1 p2 p3 in
        let sum := bend_sum t c j1 j2 j3 in
        let sum := if sum =? #0 then be_eff c else sum in
        bend_move c c ((- tu_bend_stiffness t) * angle / sum) j1 j2 j3 q1 q2 q3).
  (* rope:397-474 *)
  Definition bend_xpbd_angle (dt : T) (t : tuning T) (c : bend T) : list (rpoint T) -> res (bend T * list (rpoint T)) :=
    on3 c (be_i1 c) (be_i2 c) (be_i3 c) (fun q1 q2 q3 =>
      let '(p1, p2, p3) := (rp_p q1, rp_p q2, rp_p q3) in
      let '(dp1, dp2, dp3) := (vsub p1 (rp_p0 q1), vsub p2 (rp_p0 q2), vsub p3 (rp_p0 q3)) in
      let '(l1sqr, l2sqr) := bend_lengths t c p1 p2 p3 in
      if l1sqr * l2sqr =? #0 then None
      else
        let angle := bend_angle p1 p2 p3 in
        let '(j1, j2, j3) := bend_jacobian l1sqr l2sqr p1 p2 p3 in
        let sum := bend_sum t c j1 j2 j3 in
        if sum =? #0 then None
        else
          let impulse := xpbd_impulse dt (be_spring c) (be_damper c) sum angle (b2_dot j1 dp1 + b2_dot j2 dp2 + b2_dot j3 dp3) (be_lambda c) in
          bend_move c (be_with_lambda c (be_lambda c + impulse)) impulse j1 j2 j3 q1 q2 q3).
  (* rope:476-546 *)
  Definition bend_force (dt : T) (t : tuning T) (c : bend T) : list (rpoint T) -> res (bend T * list (rpoint T)) :=
    let omega := #2 * B2_PI * tu_bend_hertz t in
    on3 c (be_i1 c) (be_i2 c) (be_i3 c) (fun q1 q2 q3 =>
      let '(p1, p2, p3) := (rp_p q1, rp_p q2, rp_p q3) in
      let '(l1sqr, l2sqr) := bend_lengths t c p1 p2 p3 in
      if l1sqr * l2sqr =? #0 then None
      else
        let angle := bend_angle p1 p2 p3 in
        let '(j1, j2, j3) := bend_jacobian l1sqr l2sqr p1 p2 p3 in
        let sum := bend_sum t c j1 j2 j3 in
        if sum =? #0 then None
        else
          let mass := #1 / sum in
          let spring := mass * omega * omega in
          let damper := #2 * mass * tu_bend_damping t * omega in
          let cdot := b2_dot j1 (rp_v q1) + b2_dot j2 (rp_v q2) + b2_dot j3 (rp_v q3) in
          let impulse := (- dt) * (spring * angle + damper * cdot) in
          Some (c, with_v q1 (vadd (rp_v q1) (vscale (be_m1 c * impulse) j1)), with_v q2 (vadd (rp_v q2) (vscale (be_m2 c * impulse) j2)), with_v q3 (vadd (rp_v q3) (vscale (be_m3 c * impulse) j3)))).
  (* rope:548-575 *)
  Definition bend_pbd_distance (t : tuning T) (c : bend T) : list (rpoint T) -> res (bend T * list (rpoint T)) :=
    on2 c (be_i1 c) (be_i3 c) (pbd_pull (tu_bend_stiffness t) (be_m1 c) (be_m3 c) (be_l1 c + be_l2 c) c).
  (* rope:579-620 *)
  Definition bend_pbd_height (t : tuning T) (c : bend T) : list (rpoint T) -> res (bend T * list (rpoint T)) :=
    on3 c (be_i1 c) (be_i2 c) (be_i3 c) (fun q1 q2 q3 =>
      let d := vsub (vadd (vscale (be_a1 c) (rp_p q1)) (vscale (be_a2 c) (rp_p q3))) (rp_p q2) in
      let d_len := vlen d in
      if d_len =? #0 then None
      else
        let d_hat := vscale (#1 / d_len) d in
        let j1 := vscale (be_a1 c) d_hat in
        let j2 := vneg d_hat in
        let j3 := vscale (be_a2 c) d_hat in
        let sum := be_m1 c * be_a1 c * be_a1 c + be_m2 c + be_m3 c * be_a2 c * be_a2 c in
        if sum =? #0 then None
        else
          let mass := #1 / sum in
          bend_move c c ((- tu_bend_stiffness t) * mass * d_len) j1 j2 j3 q1 q2 q3).
  (* rope:623-654 *)
  Definition bend_pbd_triangle (t : tuning T) (c : bend T) : list (rpoint T) -> res (bend T * list (rpoint T)) :=
    on3 c (be_i1 c) (be_i2 c) (be_i3 c) (fun q1 q2 q3 =>
      let '(b0, v, b1) := (rp_p q1, rp_p q2, rp_p q3) in
      let w := be_m1 c + be_m3 c + #2 * be_m2 c in
      let inv_w := tu_bend_stiffness t / w in
      let d := vsub v (vscale (#1 / #3) (vadd (vadd b0 v) b1)) in
      let db0 := vscale (#2 * be_m1 c * inv_w) d in
      let dv := vscale ((- #4) * be_m2 c * inv_w) d in
      let db1 := vscale (#2 * be_m3 c * inv_w) d in
      Some (c, with_p q1 (vadd b0 db0), with_p q2 (vadd v dv), with_p q3 (vadd b1 db1))).

  (** ** step, rope:172-246 *)
  (* rope:181-188 *)
  Definition drive (dt : T) (g position : vec2 T) (damping : T) (q : rpoint T) : rpoint T :=
    let inv_dt := #1 / dt in
    let d := nexp ((- dt) * damping) in
    if rp_im q >? #0 then with_v q (vadd (vmuls (rp_v q) d) (vscale dt g))
    else with_v q (vscale inv_dt (vsub (vadd (rp_bind q) position) (rp_p0 q))).
  (* rope:210-238 *)
  Definition solve_bends (dt : T) (t : tuning T) (bs : list (bend T)) (qs : list (rpoint T)) : res (list (bend T) * list (rpoint T)) :=
    match tu_bending t with
    | SpringAngleBending => Ok (bs, qs)
    | PbdAngleBending => each_item (bend_pbd_angle t) bs qs
    | XpbdAngleBending => b2_assert (dt >? #0) ;;; each_item (bend_xpbd_angle dt t) bs qs
    | PbdDistanceBending => each_item (bend_pbd_distance t) bs qs
    | PbdHeightBending => each_item (bend_pbd_height t) bs qs
    | PbdTriangleBending => each_item (bend_pbd_triangle t) bs qs
    end.
  Definition solve_stretches (dt : T) (t : tuning T) (ss : list (stretch T)) (qs : list (rpoint T)) : res (list (stretch T) * list (rpoint T)) :=
    match tu_stretching t with
    | PbdStretching => each_item (stretch_pbd t) ss qs
    | XpbdStretching => b2_assert (dt >? #0) ;;; each_item (stretch_xpbd dt) ss qs
    end.
  Definition rope_pass (dt : T) (t : tuning T) (s : list (stretch T) * list (bend T) * list (rpoint T)) : res (list (stretch T) * list (bend T) * list (rpoint T)) :=
    let '(ss, bs, qs) := s in
    '(bs, qs) <- solve_bends dt t bs qs ;;
    '(ss, qs) <- solve_stretches dt t ss qs ;;
    Ok (ss, bs, qs).
  (* rope:204-206 *)
  Definition go (dt : T) (q : rpoint T) : rpoint T := with_p q (vadd (rp_p q) (vscale dt (rp_v q))).
  (* rope:242-245 *)
  Definition settle (inv_dt : T) (q : rpoint T) : rpoint T := RPoint (rp_bind q) (rp_p q) (rp_p q) (vscale inv_dt (vsub (rp_p q) (rp_p0 q))) (rp_im q).
  Definition step (dt : T) (iterations : nat) (position : vec2 T) (r : rope T) : res (rope T) :=
    if dt =? #0 then Ok r
    else
      let t := ro_tuning r in
      let qs := map (drive dt (ro_gravity r) position (tu_damping t)) (ro_points r) in
      '(bs, qs) <- match tu_bending t with SpringAngleBending => each_item (bend_force dt t) (ro_bend r) qs | _ => Ok (ro_bend r, qs) end ;;
      let bs := map (fun c => be_with_lambda c #0) bs in
      let ss := map (fun c => st_with_lambda c #0) (ro_stretch r) in
      '(ss, bs, qs) <- for_range 0 iterations (fun _ => rope_pass dt t) (ss, bs, map (go dt) qs) ;;
      Ok (Rope (ro_position r) (map (settle (#1 / dt)) qs) ss bs (ro_gravity r) t).

  (** ** reset, rope:248-264 *)
  Definition reset (position : vec2 T) (r : rope T) : rope T :=
    Rope position (map (fun q => let p := vadd (rp_bind q) position in RPoint (rp_bind q) p p vzero (rp_im q)) (ro_points r))
      (map (fun c => st_with_lambda c #0) (ro_stretch r)) (map (fun c => be_with_lambda c #0) (ro_bend r)) (ro_gravity r) (ro_tuning r).
End Rope.
