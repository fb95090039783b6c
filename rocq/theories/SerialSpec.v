(** What saving and loading a world is supposed to do. *)
From Coq Require Import List ZArith Bool Arith.
From Verif Require Import Base Num Math Collision Filter ShapeModel DynModel WorldModel WorldClaims WorldCalls SafeSpec SerialModel.
Import ListNotations.

Section Spec.
  Context {T D : Type} `{NT : Num T} `{TT : NumTrig T} `{VT : NumValid T}.
  Notation world := (world T).
  Notation sworld := (sworld T D).

  (* every joint is described, and a gear is made of two joints of the world that gears can be made of *)
  Definition described (s : sworld) : Prop :=
    forall j, w_joints (s_world s) j <> None -> exists x, s_joints s j = Some x /\
      forall j1 j2, ji_kind x = KGear j1 j2 ->
        (w_joints (s_world s) j1 <> None /\ exists x1, s_joints s j1 = Some x1 /\ gearable (ji_kind x1) = true) /\
        (w_joints (s_world s) j2 <> None /\ exists x2, s_joints s j2 = Some x2 /\ gearable (ji_kind x2) = true).

  (** ** images *)
  (* the object at place [i] of a list *)
  Definition at_place (l : list nat) (i x : nat) : Prop := nth_error l i = Some x.
  (* [y] was made from [x]: the bodies are saved in the order of the list of the world, and a new body goes to the front *)
  Definition image (s s' : sworld) (x y : nat) : Prop :=
    exists i, at_place (w_body_list (s_world s)) i x /\ at_place (rev (w_body_list (s_world s'))) i y.

  (* all that a definition of a body says, except the linear velocity; a static body is never awake *)
  Definition same_body (b b' : body T) : Prop :=
    b_type b' = b_type b /\ xp (b_xf b') = xp (b_xf b) /\ sw_a (b_sweep b') = sw_a (b_sweep b) /\ b_av b' = b_av b /\
    b_linear_damping b' = b_linear_damping b /\ b_angular_damping b' = b_angular_damping b /\ b_gravity_scale b' = b_gravity_scale b /\
    fl_auto_sleep (b_flags b') = fl_auto_sleep (b_flags b) /\ fl_bullet (b_flags b') = fl_bullet (b_flags b) /\
    fl_fixed_rotation (b_flags b') = fl_fixed_rotation (b_flags b) /\ fl_enabled (b_flags b') = fl_enabled (b_flags b) /\
    fl_awake (b_flags b') = (if btype_eqb (b_type b) StaticBody then false else fl_awake (b_flags b)).
  Definition same_fixture (x x' : fixture T) : Prop :=
    f_density x' = f_density x /\ f_shape x' = f_shape x /\ f_friction x' = f_friction x /\ f_restitution x' = f_restitution x /\
    f_threshold x' = f_threshold x /\ f_filter x' = f_filter x /\ f_sensor x' = f_sensor x.
  (* the fixtures of two bodies are the same, in the opposite order *)
  Definition fixtures_turned (w w' : world) (b b' : body T) : Prop :=
    Forall2 (fun f f' => exists x x', w_fixtures w f = Some x /\ w_fixtures w' f' = Some x' /\ same_fixture x x') (b_fixtures b) (rev (b_fixtures b')).
  (* the two joints are the same, but for the bodies they join *)
  Definition same_joint (s s' : sworld) (j j' : nat) : Prop :=
    exists v v' x x', w_joints (s_world s) j = Some v /\ w_joints (s_world s') j' = Some v' /\ j_collide v' = j_collide v /\
      s_joints s j = Some x /\ s_joints s' j' = Some x' /\ ji_data x' = ji_data x /\
      match ji_kind x with KMouse => False | KGear _ _ => is_gear (ji_kind x') = true | k => ji_kind x' = k end.
  Definition ends (s : sworld) (j a b : nat) : Prop := exists v, w_joints (s_world s) j = Some v /\ j_a v = a /\ j_b v = b.
  Definition kind_at (s : sworld) (j : nat) (P : jkind -> bool) : bool := match s_joints s j with Some x => P (ji_kind x) | None => false end.
  (* the joints that are no gears, in the order of the list *)
  Definition plain_joints (s : sworld) : list nat := List.filter (fun j => kind_at s j (fun k => negb (is_gear k))) (w_joint_list (s_world s)).

  (* the joints that are saved, in the order of the file: no mouse joints, and the gears last *)
  Definition saved_joints (s : sworld) : list nat :=
    List.filter (fun j => kind_at s j (fun k => negb (is_mouse k))) (plain_joints s) ++ List.filter (fun j => kind_at s j is_gear) (w_joint_list (s_world s)).
  Definition joint_image (s s' : sworld) (j j' : nat) : Prop := exists i, at_place (saved_joints s) i j /\ at_place (rev (w_joint_list (s_world s'))) i j'.
  Definition made_of (s : sworld) (j j1 j2 : nat) : Prop := exists x, s_joints s j = Some x /\ ji_kind x = KGear j1 j2.

  (** ** C58: the loaded world is a copy of the saved one *)
  (* [h] maps bodies to bodies and [k] maps joints to joints *)
  Definition copy (s s' : sworld) (h k : nat -> nat) : Prop :=
    w_body_list (s_world s') = map h (w_body_list (s_world s)) /\
    (forall i b, w_bodies (s_world s) i = Some b -> exists b', w_bodies (s_world s') (h i) = Some b' /\ same_body b b') /\
    w_joint_list (s_world s') = map k (w_joint_list (s_world s)) /\
    (forall j a b, ends s j a b -> same_joint s s' j (k j) /\ ends s' (k j) (h a) (h b)).
  (* the same without the order of the lists *)
  Definition copy_unordered (s s' : sworld) (h k : nat -> nat) : Prop :=
    (forall i b, w_bodies (s_world s) i = Some b -> exists b', w_bodies (s_world s') (h i) = Some b' /\ same_body b b') /\
    (forall j a b, ends s j a b -> same_joint s s' j (k j) /\ (ends s' (k j) (h a) (h b) \/ ends s' (k j) (h b) (h a))).

  (** ** files *)
  Definition same_def (d d' : body_def T) : Prop :=
    bd_type d' = bd_type d /\ bd_position d' = bd_position d /\ bd_angle d' = bd_angle d /\ bd_av d' = bd_av d /\
    bd_linear_damping d' = bd_linear_damping d /\ bd_angular_damping d' = bd_angular_damping d /\ bd_allow_sleep d' = bd_allow_sleep d /\
    bd_awake d' = (if btype_eqb (bd_type d) StaticBody then false else bd_awake d) /\ bd_fixed_rotation d' = bd_fixed_rotation d /\
    bd_bullet d' = bd_bullet d /\ bd_enabled d' = bd_enabled d /\ bd_gravity_scale d' = bd_gravity_scale d.
  (* the same file, but for the linear velocities *)
  Definition same_file (f f' : file T D) : Prop :=
    fi_gravity f' = fi_gravity f /\ fi_joints f' = fi_joints f /\ fi_gears f' = fi_gears f /\
    Forall2 (fun r r' => same_def (fst r) (fst r') /\ snd r' = snd r) (fi_bodies f) (fi_bodies f').
  (* every list of the file is turned round *)
  Definition turned (f f' : file T D) : Prop :=
    fi_gravity f' = fi_gravity f /\ fi_joints f' = rev (fi_joints f) /\ fi_gears f' = rev (fi_gears f) /\
    Forall2 (fun r r' => same_def (fst r) (fst r') /\ snd r' = rev (snd r)) (rev (fi_bodies f)) (fi_bodies f').

  (* only gears in the list of gears *)
  Definition sorted (f : file T D) : Prop := forall r, In r (fi_gears f) -> match r_kind r with RGear _ _ => True | _ => False end.

  (** ** the files that can be loaded *)
  Definition load_of (d : fixture_def T) : option (T * shape T) := Some (fd_density d, fd_shape d).
  (* every fixture has a shape with boxes, and the mass of the body can be computed after each of them *)
  Definition fixtures_fit (ty : btype) (ds : list (fixture_def T)) : Prop :=
    forall pre d post, ds = pre ++ d :: post -> good_shape (fd_shape d) /\ (nlt (nofZ 0) (fd_density d) = true -> settles (map load_of (d :: rev pre)) ty).
  Definition body_fits (r : body_def T * list (fixture_def T)) : Prop := returns (body_new (fst r)) /\ fixtures_fit (bd_type (fst r)) (snd r).
  Definition in_range (n : nat) (i : Z) : Prop := (0 <= i < Z.of_nat n)%Z.
  Definition joint_fits (n : nat) (r : jrec D) : Prop := in_range n (r_a r) /\ in_range n (r_b r) /\ r_a r <> r_b r.
  (* the numbers in a file count the records from the last one *)
  Definition geared (f : file T D) (i : Z) : Prop :=
    (0 <= i)%Z /\ exists q d, nth_error (rev (fi_joints f)) (Z.to_nat i) = Some q /\ (r_kind q = RRevolute \/ r_kind q = RPrismatic) /\
      nth_error (rev (fi_bodies f)) (Z.to_nat (r_b q)) = Some d /\ bd_type (fst d) = DynamicBody.
  Definition loadable (f : file T D) : Prop :=
    (forall r, In r (fi_bodies f) -> body_fits r) /\
    (forall r, In r (fi_joints f) -> joint_fits (length (fi_bodies f)) r /\ match r_kind r with RGear _ _ => False | _ => True end) /\
    (forall r, In r (fi_gears f) -> joint_fits (length (fi_bodies f)) r /\ match r_kind r with RGear i1 i2 => geared f i1 /\ geared f i2 | _ => True end).
End Spec.
