(** Time of impact: src/private/collision/b2_time_of_impact.rs. *)
From Coq Require Import List ZArith Bool Arith.
From Verif Require Import Base Num Math ShapeModel DynModel DistModel.
Import ListNotations.

(* src/b2_time_of_impact.rs B2toioutputState; EUnknown is never left behind *)
Inductive toi_state := TFailed | TOverlapped | TTouching | TSeparated.

(** ** the search, over any distance and any separation function *)
Section Search.
  Local Open Scope num_scope.
  Context {T : Type} {NT : Num T} {C F : Type}.
  Variables (distance : T -> C -> res (T * C)) (initialize : C -> T -> res F).
  Variables (find_min : F -> T -> res (Z * Z * T)) (evaluate : F -> Z -> Z -> T -> res T).

  (* :388-431 root finder: [n] of 50 steps are left, [k] were done; the time found, if any *)
  Definition root_time (k : nat) (target a1 s1 a2 s2 : T) : T :=
    if Nat.odd k then a1 + (target - s1) * (a2 - a1) / (s2 - s1) else nlit 1 2 * (a1 + a2).
  Fixpoint find_root (n k : nat) (f : F) (ia ib : Z) (target tolerance a1 s1 a2 s2 : T) : res (option T) :=
    match n with
    | 0 => Ok None
    | S n =>
      let t := root_time k target a1 s1 a2 s2 in
      s <- evaluate f ia ib t ;;
      if nabs (s - target) <? tolerance then Ok (Some t)
      else if s >? target then find_root n (S k) f ia ib target tolerance t s a2 s2
      else find_root n (S k) f ia ib target tolerance a1 s1 t s
    end.
  (* :341-441 push back: an answer, if there is one, and t1 *)
  Fixpoint push_back (n : nat) (f : F) (t_max target tolerance t1 t2 : T) : res (option (toi_state * T) * T) :=
    match n with
    | 0 => Ok (None, t1)
    | S n =>
      '(ia, ib, s2) <- find_min f t2 ;;
      if s2 >? target + tolerance then Ok (Some (TSeparated, t_max), t1)
      else if s2 >? target - tolerance then Ok (None, t2)
      else
        s1 <- evaluate f ia ib t1 ;;
        if s1 <? target - tolerance then Ok (Some (TFailed, t1), t1)
        else if s1 <=? target + tolerance then Ok (Some (TTouching, t1), t1)
        else
          r <- find_root 50 0 f ia ib target tolerance t1 s1 t2 s2 ;;
          push_back n f t_max target tolerance t1 (match r with Some t => t | None => t2 end)
    end.
  (* :274-455 the outer loop *)
  Fixpoint toi_loop (n : nat) (c : C) (t_max target tolerance t1 : T) : res (toi_state * T) :=
    match n with
    | 0 => Ok (TFailed, t1)
    | S n =>
      '(d, c) <- distance t1 c ;;
      if d <=? #0 then Ok (TOverlapped, #0)
      else if d <? target + tolerance then Ok (TTouching, t1)
      else
        f <- initialize c t1 ;;
        '(r, t1) <- push_back 8 f t_max target tolerance t1 t_max ;;
        match r with
        | Some o => Ok o
        | None => toi_loop n c t_max target tolerance t1
        end
    end.
End Search.

(** ** the separation function of the code *)
(* :10-25 *)
Inductive sep_kind := SepPoints | SepFaceA | SepFaceB.
Record sep_fun (T : Type) := SepFun { sf_kind : sep_kind; sf_point : vec2 T; sf_axis : vec2 T }.
Arguments SepFun {T} _ _ _.
Arguments sf_kind {T} _.
Arguments sf_point {T} _.
Arguments sf_axis {T} _.

Section Toi.
  Local Open Scope num_scope.
  Context {T : Type} {NT : Num T} {TT : NumTrig T}.
  Variables (pa pb : dproxy T) (swa swb : sweep T).

  (* :29-112 initialize; the separation it also computes is not used *)
  Definition sep_init (c : scache T) (t1 : T) : res (sep_fun T) :=
    b2_assert (Nat.ltb 0 (sc_count c) && Nat.ltb (sc_count c) 3) ;;;
    let xa := sweep_get_transform swa t1 in
    let xb := sweep_get_transform swb t1 in
    a0 <- get (sc_a c) 0 ;;
    b0 <- get (sc_b c) 0 ;;
    if Nat.eqb (sc_count c) 1 then
      la <- get_vertex pa a0 ;;
      lb <- get_vertex pb b0 ;;
      Ok (SepFun SepPoints vzero (snd (vnormalize (vsub (xfv xb lb) (xfv xa la)))))
    else
      a1 <- get (sc_a c) 1 ;;
      b1 <- get (sc_b c) 1 ;;
      if Nat.eqb a0 a1 then
        lb1 <- get_vertex pb b0 ;;
        lb2 <- get_vertex pb b1 ;;
        let axis := snd (vnormalize (b2_cross_vs (vsub lb2 lb1) #1)) in
        let normal := rotv (xq xb) axis in
        let mid := vscale (nlit 1 2) (vadd lb1 lb2) in
        la <- get_vertex pa a0 ;;
        let s := b2_dot (vsub (xfv xa la) (xfv xb mid)) normal in
        Ok (SepFun SepFaceB mid (if s <? #0 then vneg axis else axis))
      else
        la1 <- get_vertex pa a0 ;;
        la2 <- get_vertex pa a1 ;;
        let axis := snd (vnormalize (b2_cross_vs (vsub la2 la1) #1)) in
        let normal := rotv (xq xa) axis in
        let mid := vscale (nlit 1 2) (vadd la1 la2) in
        lb <- get_vertex pb b0 ;;
        let s := b2_dot (vsub (xfv xb lb) (xfv xa mid)) normal in
        Ok (SepFun SepFaceA mid (if s <? #0 then vneg axis else axis)).
  (* an index as usize: negative is out of range *)
  Definition vertex_z (p : dproxy T) (i : Z) : res (vec2 T) := if Z.ltb i 0 then Panic else get (dp_vertices p) (Z.to_nat i).
  (* :181-223 evaluate *)
  Definition sep_evaluate (f : sep_fun T) (ia ib : Z) (t : T) : res T :=
    let xa := sweep_get_transform swa t in
    let xb := sweep_get_transform swb t in
    match sf_kind f with
    | SepPoints =>
      la <- vertex_z pa ia ;;
      lb <- vertex_z pb ib ;;
      Ok (b2_dot (vsub (xfv xb lb) (xfv xa la)) (sf_axis f))
    | SepFaceA =>
      let normal := rotv (xq xa) (sf_axis f) in
      lb <- vertex_z pb ib ;;
      Ok (b2_dot (vsub (xfv xb lb) (xfv xa (sf_point f))) normal)
    | SepFaceB =>
      let normal := rotv (xq xb) (sf_axis f) in
      la <- vertex_z pa ia ;;
      Ok (b2_dot (vsub (xfv xa la) (xfv xb (sf_point f))) normal)
    end.
  (* :115-178 find_min_separation *)
  Definition sep_find_min (f : sep_fun T) (t : T) : res (Z * Z * T) :=
    let xa := sweep_get_transform swa t in
    let xb := sweep_get_transform swb t in
    match sf_kind f with
    | SepPoints =>
      ia <- get_support pa (rotv_t (xq xa) (sf_axis f)) ;;
      ib <- get_support pb (rotv_t (xq xb) (vneg (sf_axis f))) ;;
      la <- get_vertex pa ia ;;
      lb <- get_vertex pb ib ;;
      Ok (Z.of_nat ia, Z.of_nat ib, b2_dot (vsub (xfv xb lb) (xfv xa la)) (sf_axis f))
    | SepFaceA =>
      let normal := rotv (xq xa) (sf_axis f) in
      ib <- get_support pb (rotv_t (xq xb) (vneg normal)) ;;
      lb <- get_vertex pb ib ;;
      Ok ((-1)%Z, Z.of_nat ib, b2_dot (vsub (xfv xb lb) (xfv xa (sf_point f))) normal)
    | SepFaceB =>
      let normal := rotv (xq xb) (sf_axis f) in
      ia <- get_support pa (rotv_t (xq xa) (vneg normal)) ;;
      la <- get_vertex pa ia ;;
      Ok (Z.of_nat ia, (-1)%Z, b2_dot (vsub (xfv xa la) (xfv xb (sf_point f))) normal)
    end.
  (* :277-291 the distance at a time *)
  Definition toi_distance (t : T) (c : scache T) : res (T * scache T) :=
    '(o, c) <- distance_fn c (DInput pa pb (sweep_get_transform swa t) (sweep_get_transform swb t) false) ;;
    Ok (do_distance o, c).
  (* :254-257 *)
  Definition toi_target : T := b2_max B2_LINEAR_SLOP (dp_radius pa + dp_radius pb - #3 * B2_LINEAR_SLOP).
  Definition toi_tolerance : T := nlit 1 4 * B2_LINEAR_SLOP.
End Toi.

(* :232-463 b2_time_of_impact *)
Definition time_of_impact {T : Type} {NT : Num T} {TT : NumTrig T} (pa pb : dproxy T) (swa swb : sweep T) (t_max : T) : res (toi_state * T) :=
  let swa := sweep_normalize swa in
  let swb := sweep_normalize swb in
  b2_assert (nlt toi_tolerance (toi_target pa pb)) ;;;
  toi_loop (toi_distance pa pb swa swb) (sep_init pa pb swa swb) (sep_find_min pa pb swa swb) (sep_evaluate pa pb swa swb) 20
    cache_zero t_max (toi_target pa pb) toi_tolerance (nofZ 0).
