(** Property theorems of saving and loading (C58). The words used are defined in SerialSpec.v.
    The model is SerialModel.v, on top of the model of the world in WorldModel.v. *)
From Coq Require Import List ZArith Bool Arith Reals.
From Verif Require Import Base Num NumLaws Math Collision Manifold Filter ShapeModel DynModel WorldModel WorldClaims WorldCalls WorldReach SafeSpec WorldExamples SafeExamples
  SerialModel SerialSpec SerialProofs SerialSave SerialFinal SerialVelocity SerialLoad SerialExamples.
Import ListNotations.

(** ** C58: false of the code *)
(* three bodies in a row and a joint between two of them: whatever the loaded bodies are matched with, the joint is somewhere else *)
Theorem C58_same_joints_refuted : exists (s s1 s2 : sworld f32 nat) f, wreach E0 (s_world s) /\ described s /\ save s = Ok (s1, f) /\ load f = Ok s2 /\ (forall h k, ~ copy_unordered s s2 h k).
Proof. exact three_moved. Qed.
Print Assumptions C58_same_joints_refuted.
(* a gear of two wheels on the ground: the saved world cannot be loaded *)
Theorem C58_load_refuted : exists (s s1 : sworld f32 nat) f, wreach E0 (s_world s) /\ described s /\ gear_end s 0 = Ok tt /\ gear_end s 1 = Ok tt /\ made_of s 2 0 1 /\ save s = Ok (s1, f) /\ load f = Panic.
Proof. exact wheels_panic. Qed.
Print Assumptions C58_load_refuted.
(* the velocity of a spinning body changes, by [C58_velocity_partial] *)
Theorem C58_velocity_refuted : exists (s s1 s2 : sworld f32 nat) f b b', wreach E0 (s_world s) /\ described s /\ save s = Ok (s1, f) /\ load f = Ok s2 /\ image s s2 0 0 /\
  w_bodies (s_world s) 0 = Some b /\ w_bodies (s_world s2) 0 = Some b' /\ b_lv b' <> b_lv b /\ neqb (vy (b_lv b)) (nofZ 3) = true /\ neqb (vy (b_lv b')) (nofZ 6) = true.
Proof. exact spinner_changes. Qed.
Print Assumptions C58_velocity_refuted.

(** ** what holds for every world a program can get *)
Theorem C58_saves : forall (T D : Type) (NT : Num T) (TT : NumTrig T) (VT : NumValid T) (E : env T) (s : sworld T D),
  answers E -> wreach E (s_world s) -> described s -> exists s1 f, save s = Ok (s1, f).
Proof. exact (fun T D NT TT VT E s EA R DS => match save_says s (r_fixture_graph E EA _ R) (r_joint_graph E EA _ R) DS with ex_intro _ s1 (ex_intro _ f (conj H _)) => ex_intro _ s1 (ex_intro _ f H) end). Qed.
Print Assumptions C58_saves.
(* each body has one image and each body of the loaded world is one; the image is the same but for its velocity, and has the same fixtures in the opposite order *)
Theorem C58_bodies_partial : forall (T D : Type) (NT : Num T) (TT : NumTrig T) (VT : NumValid T) (E : env T) (s s1 s2 : sworld T D) f,
  answers E -> wreach E (s_world s) -> described s -> save s = Ok (s1, f) -> load f = Ok s2 ->
  forall x b, w_bodies (s_world s) x = Some b -> exists y b', image s s2 x y /\ w_bodies (s_world s2) y = Some b' /\ same_body b b' /\ fixtures_turned (s_world s) (s_world s2) b b'.
Proof. exact (fun T D NT TT VT E s s1 s2 f EA R DS SV LD => body_copied s s1 s2 f (r_fixture_graph E EA _ R) (r_joint_graph E EA _ R) DS SV LD). Qed.
Print Assumptions C58_bodies_partial.
Theorem C58_bodies_onto : forall (T D : Type) (NT : Num T) (TT : NumTrig T) (VT : NumValid T) (E : env T) (s s1 s2 : sworld T D) f,
  answers E -> wreach E (s_world s) -> described s -> save s = Ok (s1, f) -> load f = Ok s2 ->
  forall y, w_bodies (s_world s2) y <> None -> exists x b, w_bodies (s_world s) x = Some b /\ image s s2 x y.
Proof. exact (fun T D NT TT VT E s s1 s2 f EA R DS SV LD => body_onto s s1 s2 f (r_fixture_graph E EA _ R) (r_joint_graph E EA _ R) DS SV LD). Qed.
Print Assumptions C58_bodies_onto.
Theorem C58_bodies_one_to_one : forall (T D : Type) (NT : Num T) (TT : NumTrig T) (VT : NumValid T) (E : env T) (s s1 s2 : sworld T D) f,
  answers E -> wreach E (s_world s) -> described s -> save s = Ok (s1, f) -> load f = Ok s2 ->
  (forall x x' y, image s s2 x y -> image s s2 x' y -> x = x') /\ (forall x y y', image s s2 x y -> image s s2 x y' -> y = y').
Proof. exact (fun T D NT TT VT E s s1 s2 f EA R DS SV LD => conj (image_inj s s2 f LD) (image_fun s s2 f (r_fixture_graph E EA _ R) LD)). Qed.
Print Assumptions C58_bodies_one_to_one.
(* in exact arithmetic: the saved velocity of the centre of mass is loaded as the velocity of the origin *)
Theorem C58_velocity_partial : forall (D : Type) (VT : NumValid R) (E : env R) (s s1 s2 : sworld R D) f,
  answers E -> wreach E (s_world s) -> described s -> save s = Ok (s1, f) -> load f = Ok s2 ->
  forall x y b b', image s s2 x y -> w_bodies (s_world s) x = Some b -> w_bodies (s_world s2) y = Some b' ->
  b_lv b' = vadd (b_lv b) (b2_cross_sv (b_av b) (vsub (sw_c (b_sweep b')) (xp (b_xf b)))).
Proof. exact (fun D VT E s s1 s2 f EA R DS SV LD => copied_velocity s s1 s2 f (r_fixture_graph E EA _ R) (r_joint_graph E EA _ R) DS SV LD). Qed.
Print Assumptions C58_velocity_partial.
(* each joint but a mouse joint has an image, the same but for the bodies *)
Theorem C58_joints_partial : forall (T D : Type) (NT : Num T) (TT : NumTrig T) (VT : NumValid T) (E : env T) (s s1 s2 : sworld T D) f,
  answers E -> wreach E (s_world s) -> described s -> save s = Ok (s1, f) -> load f = Ok s2 ->
  forall j x, w_joints (s_world s) j <> None -> s_joints s j = Some x -> is_mouse (ji_kind x) = false -> exists j', joint_image s s2 j j' /\ same_joint s s2 j j'.
Proof. exact (fun T D NT TT VT E s s1 s2 f EA R DS SV LD => joint_copied s s1 s2 f (r_fixture_graph E EA _ R) (r_joint_graph E EA _ R) DS SV LD). Qed.
Print Assumptions C58_joints_partial.
Theorem C58_joints_onto : forall (T D : Type) (NT : Num T) (TT : NumTrig T) (VT : NumValid T) (E : env T) (s s1 s2 : sworld T D) f,
  answers E -> wreach E (s_world s) -> described s -> save s = Ok (s1, f) -> load f = Ok s2 ->
  forall j', w_joints (s_world s2) j' <> None -> exists j, w_joints (s_world s) j <> None /\ joint_image s s2 j j'.
Proof. exact (fun T D NT TT VT E s s1 s2 f EA R DS SV LD => joint_onto s s1 s2 f (r_fixture_graph E EA _ R) (r_joint_graph E EA _ R) DS SV LD). Qed.
Print Assumptions C58_joints_onto.
(* it joins the bodies at the same places of the list, and the list is turned round *)
Theorem C58_joints_move : forall (T D : Type) (NT : Num T) (TT : NumTrig T) (VT : NumValid T) (E : env T) (s s1 s2 : sworld T D) f,
  answers E -> wreach E (s_world s) -> described s -> save s = Ok (s1, f) -> load f = Ok s2 ->
  forall j j' a b a' b', joint_image s s2 j j' -> ends s j a b -> ends s2 j' a' b' ->
  exists pa pb, at_place (w_body_list (s_world s)) pa a /\ at_place (w_body_list (s_world s2)) pa a' /\ at_place (w_body_list (s_world s)) pb b /\ at_place (w_body_list (s_world s2)) pb b'.
Proof. exact (fun T D NT TT VT E s s1 s2 f EA R DS SV LD => joint_moves s s1 s2 f (r_fixture_graph E EA _ R) (r_joint_graph E EA _ R) DS SV LD). Qed.
Print Assumptions C58_joints_move.
(* so no joint of any world ever joins the images of its two bodies in their order *)
Theorem C58_joints_all_moved : forall (T D : Type) (NT : Num T) (TT : NumTrig T) (VT : NumValid T) (E : env T) (s s1 s2 : sworld T D) f,
  answers E -> wreach E (s_world s) -> described s -> save s = Ok (s1, f) -> load f = Ok s2 ->
  forall j j' a b a' b', joint_image s s2 j j' -> ends s j a b -> ends s2 j' a' b' -> ~ (image s s2 a a' /\ image s s2 b b').
Proof. exact (fun T D NT TT VT E s s1 s2 f EA R DS SV LD => joint_moved s s1 s2 f (r_fixture_graph E EA _ R) (r_joint_graph E EA _ R) DS SV LD). Qed.
Print Assumptions C58_joints_all_moved.
Theorem C58_gears_move : forall (T D : Type) (NT : Num T) (TT : NumTrig T) (VT : NumValid T) (E : env T) (s s1 s2 : sworld T D) f,
  answers E -> wreach E (s_world s) -> described s -> save s = Ok (s1, f) -> load f = Ok s2 ->
  forall j j' j1 j2, joint_image s s2 j j' -> made_of s j j1 j2 -> exists p1 p2 j1' j2', made_of s2 j' j1' j2' /\
    at_place (plain_joints s) p1 j1 /\ at_place (plain_joints s2) p1 j1' /\ at_place (plain_joints s) p2 j2 /\ at_place (plain_joints s2) p2 j2'.
Proof. exact (fun T D NT TT VT E s s1 s2 f EA R DS SV LD => gear_moves s s1 s2 f (r_fixture_graph E EA _ R) (r_joint_graph E EA _ R) DS SV LD). Qed.
Print Assumptions C58_gears_move.
Example C58_case : exists (s s1 s2 : sworld f32 nat) f, wreach E0 (s_world s) /\ described s /\ save s = Ok (s1, f) /\ load f = Ok s2 /\
  made_of s 2 0 1 /\ w_body_list (s_world s) = [2; 1; 0] /\ w_joint_list (s_world s) = [2; 1; 0] /\ ends s 0 0 1 /\ ends s 1 1 2 /\ twice_ok s2 = true.
Proof. exact wheels_loaded. Qed.

(** ** files *)
(* which files can be loaded; the numbers of bodies and joints in them count from the last record *)
Theorem C58_load_returns_partial : forall (T D : Type) (NT : Num T) (TT : NumTrig T) (VT : NumValid T) (f : file T D), ordered T -> loadable f -> exists s, load f = Ok s.
Proof. exact (fun T D NT TT VT f OT => load_returns OT f). Qed.
Print Assumptions C58_load_returns_partial.
Example C58_load_case : ordered f32 /\ loadable gear_file.
Proof. exact (conj ordered_f32 gear_file_loadable). Qed.
(* a loaded world is one that a program could have made *)
Theorem C58_loaded_reachable : forall (T D : Type) (NT : Num T) (TT : NumTrig T) (VT : NumValid T) (E : env T) (f : file T D) s, load f = Ok s -> wreach E (s_world s) /\ described s.
Proof. exact (fun T D NT TT VT E f s H => conj (load_reach E f s H) (loaded_described f s H)). Qed.
Print Assumptions C58_loaded_reachable.
(* saving a loaded world gives the file with every list turned round *)
Theorem C58_resave : forall (T D : Type) (NT : Num T) (TT : NumTrig T) (VT : NumValid T) (f : file T D) s, load f = Ok s -> sorted f -> exists s1 f', save s = Ok (s1, f') /\ turned f f'.
Proof. exact (fun T D NT TT VT f s => resave f s). Qed.
Print Assumptions C58_resave.
(* so after loading and saving twice it is the same file again, but for velocities *)
Theorem C58_twice : forall (T D : Type) (NT : Num T) (TT : NumTrig T) (VT : NumValid T) (f f' f'' : file T D) s s1 s' s1',
  sorted f -> load f = Ok s -> save s = Ok (s1, f') -> load f' = Ok s' -> save s' = Ok (s1', f'') -> same_file f f''.
Proof. exact (fun T D NT TT VT f f' f'' s s1 s' s1' => saved_twice f f' f'' s s1 s' s1'). Qed.
Print Assumptions C58_twice.
