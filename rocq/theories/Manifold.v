(** Model of the manifold parts of /repo/src/b2_collision.rs and /repo/src/private/collision/b2_collision.rs. *)
From Coq Require Import ZArith Bool List.
From Verif Require Import Base Num Math Collision.
Import ListNotations.

(* b2_collision.rs:23-33 B2contactFeature, :37 B2contactId (a wrapper around it); u8 fields as Z *)
Record cid := CId { index_a : Z; index_b : Z; type_a : Z; type_b : Z }.
Definition cid_eqb (a b : cid) : bool :=
  (index_a a =? index_a b)%Z && (index_b a =? index_b b)%Z && (type_a a =? type_a b)%Z && (type_b a =? type_b b)%Z.
Definition cid_default : cid := CId 0 0 0 0.
(* :16-19 B2contactFeatureType *)
Definition EVertex : Z := 0%Z.
Definition EFace : Z := 1%Z.
(* [x as u8] *)
Definition as_u8 (n : nat) : Z := (Z.of_nat n mod 256)%Z.

(* b2_common.rs:23 *)
Definition B2_MAX_MANIFOLD_POINTS : nat := 2.

(* b2_collision.rs:52-62 B2manifoldPoint *)
Record mpoint (T : Type) := MP { mp_local : vec2 T; mp_normal_impulse : T; mp_tangent_impulse : T; mp_id : cid }.
Arguments MP {T} _ _ _ _.
Arguments mp_local {T} m.
Arguments mp_normal_impulse {T} m.
Arguments mp_tangent_impulse {T} m.
Arguments mp_id {T} m.
(* :64 B2manifoldType *)
Inductive mtype := MCircles | MFaceA | MFaceB.
(* :105-116 B2manifold; the array of 2 points is a list of length 2 *)
Record manifold (T : Type) := MF {
  mf_points : list (mpoint T); mf_local_normal : vec2 T; mf_local_point : vec2 T; mf_type : mtype; mf_count : nat }.
Arguments MF {T} _ _ _ _ _.
Arguments mf_points {T} m.
Arguments mf_local_normal {T} m.
Arguments mf_local_point {T} m.
Arguments mf_type {T} m.
Arguments mf_count {T} m.

(* :150 B2pointState *)
Inductive pstate := NullState | AddState | PersistState | RemoveState.
(* :178 B2clipVertex *)
Record clip_vertex (T : Type) := CV { cv_v : vec2 T; cv_id : cid }.
Arguments CV {T} _ _.
Arguments cv_v {T} c.
Arguments cv_id {T} c.

Section Manifold.
  Context {T : Type} `{NT : Num T}.
  Local Open Scope num_scope.

  Definition mpoint_default : mpoint T := MP vzero #0 #0 cid_default.
  (* :76-86 *)
  Definition manifold_default : manifold T := MF (repeat mpoint_default 2) vzero vzero MCircles 0.

  (* private/collision/b2_collision.rs:70-109 b2_get_point_states: returns (state1, state2) *)
  Definition mf_has (m : manifold T) (id : cid) : res bool :=
    any_range 0 (mf_count m) (fun j => p <- get (mf_points m) j ;; Ok (cid_eqb (mp_id p) id)).
  Definition states_loop (m other : manifold T) (missing : pstate) (st : list pstate) : res (list pstate) :=
    for_range 0 (mf_count m) (fun i st =>
      p <- get (mf_points m) i ;;
      st <- set st i missing ;;
      b <- mf_has other (mp_id p) ;;
      if b then set st i PersistState else Ok st) st.
  Definition b2_get_point_states (m1 m2 : manifold T) : res (list pstate * list pstate) :=
    let null := repeat NullState B2_MAX_MANIFOLD_POINTS in
    s1 <- states_loop m1 m2 RemoveState null ;;
    s2 <- states_loop m2 m1 AddState null ;;
    Ok (s1, s2).

  (* private/collision/b2_collision.rs:171-216 b2_clip_segment_to_line.
     v_in is the pair (v0, v1); the result lists the [count] vertices written to v_out. *)
  Definition b2_clip_segment_to_line (v0 v1 : clip_vertex T) (normal : vec2 T) (offset : T) (vertex_index_a : nat)
    : res (list (clip_vertex T)) :=
    let distance0 := b2_dot normal (cv_v v0) - offset in
    let distance1 := b2_dot normal (cv_v v1) - offset in
    let out := (if distance0 <=? #0 then [v0] else []) ++ (if distance1 <=? #0 then [v1] else []) in
    if distance0 * distance1 <? #0 then
      let interp := distance0 / (distance0 - distance1) in
      let v := vadd (cv_v v0) (vscale interp (vsub (cv_v v1) (cv_v v0))) in
      let out := out ++ [CV v (CId (as_u8 vertex_index_a) (index_b (cv_id v0)) EVertex EFace)] in
      b2_assert (Nat.eqb (length out) 2) ;;;
      Ok out
    else Ok out.

  (* :119-126 B2worldManifold; private :7-68 b2_world_manifold_initialize.
     With point_count = 0 the receiver is left unchanged: None. Otherwise (normal, [(point, separation)]). *)
  Definition world_manifold_initialize (m : manifold T) (xf_a : xform T) (radius_a : T) (xf_b : xform T) (radius_b : T)
    : res (option (vec2 T * list (vec2 T * T))) :=
    if Nat.eqb (mf_count m) 0 then Ok None else
    match mf_type m with
    | MCircles =>
      p0 <- get (mf_points m) 0 ;;
      let point_a := xfv xf_a (mf_local_point m) in
      let point_b := xfv xf_b (mp_local p0) in
      let normal :=
        if b2_distance_vec2_squared point_a point_b >? B2_EPSILON * B2_EPSILON
        then snd (vnormalize (vsub point_b point_a)) else V2 #1 #0 in
      let c_a := vadd point_a (vscale radius_a normal) in
      let c_b := vsub point_b (vscale radius_b normal) in
      Ok (Some (normal, [(vscale (nlit 1 2) (vadd c_a c_b), b2_dot (vsub c_b c_a) normal)]))
    | MFaceA =>
      let normal := rotv (xq xf_a) (mf_local_normal m) in
      let plane_point := xfv xf_a (mf_local_point m) in
      pts <- for_range 0 (mf_count m) (fun i acc =>
        p <- get (mf_points m) i ;;
        let clip_point := xfv xf_b (mp_local p) in
        let c_a := vadd clip_point (vscale (radius_a - b2_dot (vsub clip_point plane_point) normal) normal) in
        let c_b := vsub clip_point (vscale radius_b normal) in
        Ok (acc ++ [(vscale (nlit 1 2) (vadd c_a c_b), b2_dot (vsub c_b c_a) normal)])) [] ;;
      Ok (Some (normal, pts))
    | MFaceB =>
      let normal := rotv (xq xf_b) (mf_local_normal m) in
      let plane_point := xfv xf_b (mf_local_point m) in
      pts <- for_range 0 (mf_count m) (fun i acc =>
        p <- get (mf_points m) i ;;
        let clip_point := xfv xf_a (mp_local p) in
        let c_b := vadd clip_point (vscale (radius_b - b2_dot (vsub clip_point plane_point) normal) normal) in
        let c_a := vsub clip_point (vscale radius_a normal) in
        Ok (acc ++ [(vscale (nlit 1 2) (vadd c_a c_b), b2_dot (vsub c_a c_b) normal)])) [] ;;
      Ok (Some (vneg normal, pts))
    end.
End Manifold.
