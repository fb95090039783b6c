(** Model of saving and loading a world.
    Sources: /repo/src/serialize/serialize_b2_world.rs ("sw"), serialize_b2_body.rs ("sb"), serialize_b2_fixture.rs
    ("sf"), serialize_b2_joint.rs ("sj") in the same directory, /repo/src/joints/serialize/serialize_b2_gear_joint.rs
    ("sg"), /repo/src/private/dynamics/joints/b2_gear_joint.rs ("pgear"), /repo/src/b2rs_double_linked_list.rs ("dl"),
    /repo/src/b2rs_linked_list.rs.

    Simplifications:
    - A saved world is a record [file]; that the data format gives back the fields it was given, in the order in which
      they were written, is trusted. The visitors for maps and for sequences do the same in this order, except that the one
      for maps adds each loaded gear joint at the end of the list of joints, where no saved index points.
    - A joint is what WorldModel keeps of it and a [jinfo]: its kind and the rest of its definition, which is not looked
      into (anchors, lengths, limits, user data; get_def of the file of each joint gives back what the joint was made from).
    - User data of bodies is left out. *)
From Coq Require Import List ZArith Bool Arith.
From Verif Require Import Base Num Math Collision Filter ShapeModel DynModel WorldModel.
Import ListNotations.

(* b2_joint.rs B2jointType; all kinds but four are treated alike *)
Inductive jkind := KMouse | KGear (j1 j2 : nat) | KRevolute | KPrismatic | KOther.
Definition is_gear (k : jkind) : bool := match k with KGear _ _ => true | _ => false end.
Definition is_mouse (k : jkind) : bool := match k with KMouse => true | _ => false end.
(* pgear:36-37 the joints a gear can be made of *)
Definition gearable (k : jkind) : bool := match k with KRevolute | KPrismatic => true | _ => false end.
(* ji_index: B2joint::m_index *)
Record jinfo (D : Type) := JInfo { ji_kind : jkind; ji_data : D; ji_index : Z }.
Arguments JInfo {D} _ _ _.
Arguments ji_kind {D} _.
Arguments ji_data {D} _.
Arguments ji_index {D} _.
Definition set_ji_index {D} (z : Z) (x : jinfo D) : jinfo D := JInfo (ji_kind x) (ji_data x) z.

Record sworld (T D : Type) := SWorld { s_world : world T; s_joints : nat -> option (jinfo D); s_gravity : vec2 T }.
Arguments SWorld {T D} _ _ _.
Arguments s_world {T D} _.
Arguments s_joints {T D} _.
Arguments s_gravity {T D} _.

(** ** what is written *)
(* sj:33-52, sg:36-55: a joint is written with the numbers of its bodies and, if it is a gear, of its joints *)
Inductive rkind := RGear (i1 i2 : Z) | RRevolute | RPrismatic | ROther.
Record jrec (D : Type) := JRec { r_kind : rkind; r_data : D; r_a : Z; r_b : Z; r_collide : bool }.
Arguments JRec {D} _ _ _ _ _.
Arguments r_kind {D} _.
Arguments r_data {D} _.
Arguments r_a {D} _.
Arguments r_b {D} _.
Arguments r_collide {D} _.
Record file (T D : Type) := File {
  fi_gravity : vec2 T;
  fi_bodies : list (body_def T * list (fixture_def T));
  fi_joints : list (jrec D);
  fi_gears : list (jrec D) }.
Arguments File {T D} _ _ _ _.
Arguments fi_gravity {T D} _.
Arguments fi_bodies {T D} _.
Arguments fi_joints {T D} _.
Arguments fi_gears {T D} _.

(* [for (i, x) in l.iter().enumerate()] *)
Fixpoint each_at {A S} (k : nat) (f : nat -> A -> S -> res S) (l : list A) (s : S) : res S :=
  match l with [] => Ok s | x :: r => s <- f k x s ;; each_at (Datatypes.S k) f r s end.
(* [v[i as usize]]: a negative i32 is a huge usize *)
Definition get_i32 {A} (l : list A) (i : Z) : res A := if (i <? 0)%Z then Panic else get l (Z.to_nat i).

Section Serial.
  Local Open Scope num_scope.
  Context {T D : Type} `{NT : Num T} `{TT : NumTrig T} `{VT : NumValid T}.
  Notation world := (world T).
  Notation sworld := (sworld T D).
  Notation file := (file T D).

  Definition set_s_world (w : world) (s : sworld) : sworld := SWorld w (s_joints s) (s_gravity s).
  Definition put_info (j : nat) (x : jinfo D) (s : sworld) : sworld := SWorld (s_world s) (put (s_joints s) j (Some x)) (s_gravity s).
  Definition get_info (s : sworld) (j : nat) : res (jinfo D) := unwrap (s_joints s j).

  (* sb:37-56 get_def of a body *)
  Definition body_save (b : body T) : body_def T :=
    BodyDef (b_type b) (xp (b_xf b)) (sw_a (b_sweep b)) (b_lv b) (b_av b) (b_linear_damping b) (b_angular_damping b)
      (fl_auto_sleep (b_flags b)) (fl_awake (b_flags b)) (fl_fixed_rotation (b_flags b)) (fl_bullet (b_flags b))
      (fl_enabled (b_flags b)) (b_gravity_scale b).
  (* sf:23-51 *)
  Definition fixture_save (x : fixture T) : fixture_def T :=
    FixtureDef (f_shape x) (f_friction x) (f_restitution x) (f_threshold x) (f_density x) (f_sensor x) (f_filter x).
  (* sb:58-71, dl:55-70 *)
  Definition save_body (w : world) (i : nat) : res (body_def T * list (fixture_def T)) :=
    b <- get_body w i ;;
    fs <- get_all (get_fixture w) (b_fixtures b) ;;
    Ok (body_save b, map fixture_save fs).
  (* sj:33-52, sg:36-55 a joint; mouse joints are not written (sw:65-66) *)
  Definition save_joint (s : sworld) (j : nat) : res (list (jrec D)) :=
    x <- get_info s j ;;
    match ji_kind x with
    | KMouse => Ok []
    | k =>
      v <- get_joint (s_world s) j ;;
      a <- get_body (s_world s) (j_a v) ;;
      b <- get_body (s_world s) (j_b v) ;;
      r <- match k with
           | KGear j1 j2 => x1 <- get_info s j1 ;; x2 <- get_info s j2 ;; Ok (RGear (ji_index x1) (ji_index x2))
           | KRevolute => Ok RRevolute
           | KPrismatic => Ok RPrismatic
           | _ => Ok ROther
           end ;;
      Ok [JRec r (ji_data x) (b_island_index a) (b_island_index b) (j_collide v)]
    end.
  (* sw:55-130 *)
  Definition save_joints (s : sworld) (l : list nat) : res (list (jrec D)) :=
    rs <- get_all (save_joint s) l ;; Ok (concat rs).
  (* sw:132-178; [i as i32] is exact: fewer than 2^31 bodies and joints *)
  Definition save (s : sworld) : res (sworld * file) :=
    bodies <- get_all (save_body (s_world s)) (w_body_list (s_world s)) ;;
    w <- each_at 0 (fun k i w => mod_body i (set_b_island_index (Z.of_nat k)) w) (w_body_list (s_world s)) (s_world s) ;;
    let s := set_s_world w s in
    '(s, plain, gears) <- each (fun j st =>
        let '(s, plain, gears) := st in
        x <- get_info s j ;;
        let s := put_info j (set_ji_index (-1)%Z x) s in
        if is_gear (ji_kind x) then Ok (s, plain, gears ++ [j]) else Ok (s, plain ++ [j], gears))
      (w_joint_list w) (s, [], []) ;;
    s <- each_at 0 (fun k j s => x <- get_info s j ;; Ok (put_info j (set_ji_index (Z.of_nat k) x) s)) plain s ;;
    js <- save_joints s plain ;;
    gs <- save_joints s gears ;;
    Ok (s, File (s_gravity s) bodies js gs).

  (** ** what is read *)
  (* sb:95-144, sf:75-255 *)
  Definition load_body (r : body_def T * list (fixture_def T)) (w : world) : res world :=
    '(w, i) <- create_body (fst r) w ;;
    each (fun d w => '(w, _) <- create_fixture i d w ;; Ok w) (snd r) w.
  (* pgear:30-93 the assertions of a new gear joint *)
  Definition gear_end (s : sworld) (j : nat) : res unit :=
    x <- get_info s j ;;
    v <- get_joint (s_world s) j ;;
    b <- get_body (s_world s) (j_b v) ;;
    b2_assert (gearable (ji_kind x)) ;;;
    b2_assert (is_dynamic b).
  (* sb:220-310, b2_joint.rs:101 in /repo/src/private/dynamics, sj:85-130, sg:84-130; [bodies] and [joints]: m_body_array and m_all_joints *)
  Definition load_joint (bodies joints : list nat) (r : jrec D) (s : sworld) : res sworld :=
    a <- get_i32 bodies (r_a r) ;;
    b <- get_i32 bodies (r_b r) ;;
    k <- match r_kind r with
         | RRevolute => Ok KRevolute
         | RPrismatic => Ok KPrismatic
         | ROther => Ok KOther
         | RGear i1 i2 =>
           j1 <- get_i32 joints i1 ;;
           j2 <- get_i32 joints i2 ;;
           gear_end s j1 ;;;
           gear_end s j2 ;;;
           Ok (KGear j1 j2)
         end ;;
    '(w, j) <- create_joint a b (r_collide r) (s_world s) ;;
    Ok (put_info j (JInfo k (r_data r) 0%Z) (set_s_world w s)).
  (* sw:211-294 *)
  Definition load (f : file) : res sworld :=
    w <- world_new false false ;;
    w <- each load_body (fi_bodies f) w ;;
    let bodies := w_body_list w in
    s <- each (load_joint bodies []) (fi_joints f) (SWorld w (fun _ => None) (fi_gravity f)) ;;
    let joints := w_joint_list (s_world s) in
    each (load_joint bodies joints) (fi_gears f) s.
End Serial.
