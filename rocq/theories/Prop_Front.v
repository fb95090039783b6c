(** Property theorems about the contacts once a step has collided the fixtures ([step_front]: the start of a step, before the solver).
    The words used are defined in FrontSpec.v, NarrowSpec.v, PairSpec.v and CollideSpec.v; [narrow] (NarrowModel.v) says that the environment calls the narrow phase of the code. *)
From Coq Require Import ZArith Reals Bool List Arith.
From Verif Require Import Base Num Math Collision Manifold Filter MathSpec ShapeModel ShapeExamples EdgePolyExamples TreeModel TreeSpec BroadModel DynModel WorldModel WorldClaims WorldCalls WorldExamples SafeSpec CoverSpec CoverExamples PairSpec FrontSpec FrontProofs OrderProofs NarrowModel NarrowSpec NarrowFacts FrontReal FrontExamples.
Import ListNotations.

(** ** C92 the contacts of awake bodies are up to date, and pre_solve is told *)
Theorem C92_fresh : forall (T : Type) (NT : Num T) (TT : NumTrig T) (VT : NumValid T) (E : env T), answers E -> forall w w2 : WorldModel.world T, wreach E w -> step_front E w = Ok w2 ->
  forall c x, w_contacts w2 c = Some x -> busy w w2 x -> up_to_date E w2 c x /\ boxes_meet w2 x /\ announced w w2 c x.
Proof. exact @reach_front. Qed.
Print Assumptions C92_fresh.
Theorem C92_told : forall (T : Type) (NT : Num T) (TT : NumTrig T) (VT : NumValid T) (E : env T), answers E -> forall (w : WorldModel.world T) (dt : T) (w2 w' : WorldModel.world T),
  wreach E w -> w_step_complete w = true -> step_front E w = Ok w2 -> wrun E (WStep dt) w = Ok w' -> forall c x, w_contacts w2 c = Some x -> busy w w2 x ->
  w_listener w = true -> sensor_contact w2 x = false -> cf_touching (c_flags x) = true -> exists l, news w w' l /\ In (EvPre c) l.
Proof. exact @reach_announced. Qed.
Print Assumptions C92_told.
Example C92_ex : exists w w2 w' c x, answers n_env /\ wreach n_env w /\ w_step_complete w = true /\ w_listener w = true /\ step_front n_env w = Ok w2 /\ wrun n_env (WStep 1%R) w = Ok w' /\
  w_contacts w2 c = Some x /\ busy w w2 x /\ sensor_contact w2 x = false /\ cf_touching (c_flags x) = true.
Proof. exact n_front_ex. Qed.

(** ** C93 a contact touches when its shapes meet, and does not when they are clear of each other *)
(* Partial: the cases where the narrow phase fails are left out (C70, C99), and degenerate shapes. *)
Theorem C93_touch_partial : forall E : env R, answers E -> narrow E -> forall (w w2 : WorldModel.world R) c x f k i sa xa g l j sb xb,
  wreach E w -> step_front E w = Ok w2 -> w_contacts w2 c = Some x -> between x f k g l -> stands w f i sa xa -> stands w g j sb xb -> at_work w i \/ at_work w j ->
  unit_rot (xq xa) -> unit_rot (xq xb) -> (meets sa k xa sb l xb -> cf_touching (c_flags x) = true) /\ (clear sa k xa sb l xb -> cf_touching (c_flags x) = false).
Proof. exact front_touch. Qed.
Print Assumptions C93_touch_partial.
Example C93_meet_ex : exists w w2 w' c x, answers n_env /\ narrow n_env /\ wreach n_env w /\ step_front n_env w = Ok w2 /\ wrun n_env (WStep 1%R) w = Ok w' /\ w_contacts w2 c = Some x /\ between x 0 0 1 0 /\
  stands w 0 0 r_circle (Xf (V2 0 0) (rot_of 0))%R /\ stands w 1 1 r_circle (Xf (V2 1 0) (rot_of 0))%R /\ at_work w 1 /\ unit_rot (rot_of 0%R) /\ meets r_circle 0 (Xf (V2 0 0) (rot_of 0))%R r_circle 0 (Xf (V2 1 0) (rot_of 0))%R.
Proof. exact n_touch_ex. Qed.
Example C93_clear_ex : exists w w2 w' c x, answers n_env /\ narrow n_env /\ wreach n_env w /\ step_front n_env w = Ok w2 /\ wrun n_env (WStep 1%R) w = Ok w' /\ w_contacts w2 c = Some x /\ between x 0 0 1 0 /\
  stands w 0 0 r_circle (Xf (V2 0 0) (rot_of 0))%R /\ stands w 1 1 r_circle (Xf (V2 (3/2) (3/2)) (rot_of 0))%R /\ at_work w 1 /\ unit_rot (rot_of 0%R) /\ clear r_circle 0 (Xf (V2 0 0) (rot_of 0))%R r_circle 0 (Xf (V2 (3/2) (3/2)) (rot_of 0))%R.
Proof. exact n_clear_ex. Qed.
Example C93_edge_ex : forall one : bool, meets (ShEdge (floor one)) 0 xf_id (ShPolygon (@box1 R _)) 0 hung /\ clear (ShEdge (floor one)) 0 xf_id (ShPolygon (@box1 R _)) 0 (at_xy 2 (-2)).
Proof. exact edge_meets_ex. Qed.

(** ** C94 no collision is missed: shapes that meet at the start of a step have a touching contact in it, and the listener hears of it *)
(* Partial: the shapes of C93, the programs of C90. *)
Theorem C94_none_missed_partial : forall E : env R, answers E -> narrow E -> plain_filter E -> holds_static E -> forall (w : WorldModel.world R) (dt : R) (w' : WorldModel.world R) f k i sa xa g l j sb xb,
  preach E w -> treach E w -> pairs_due E w -> w_step_complete w = true -> wrun E (WStep dt) w = Ok w' ->
  stands w f i sa xa -> stands w g j sb xb -> may_touch w f g -> at_work w i \/ at_work w j -> meets sa k xa sb l xb ->
  exists w2 c x, step_front E w = Ok w2 /\ w_contacts w2 c = Some x /\ between x f k g l /\ cf_touching (c_flags x) = true /\ (w_listener w = true -> exists n, news w w' n /\ In (EvPre c) n).
Proof. exact none_missed. Qed.
Print Assumptions C94_none_missed_partial.
Example C94_ex : exists w w', answers n_env /\ narrow n_env /\ plain_filter n_env /\ holds_static n_env /\ preach n_env w /\ treach n_env w /\ pairs_due n_env w /\ w_step_complete w = true /\ w_listener w = true /\ wrun n_env (WStep 1%R) w = Ok w' /\
  stands w 0 0 r_circle (Xf (V2 0 0) (rot_of 0))%R /\ stands w 1 1 r_circle (Xf (V2 1 0) (rot_of 0))%R /\ may_touch w 0 1 /\ at_work w 1 /\ meets r_circle 0 (Xf (V2 0 0) (rot_of 0))%R r_circle 0 (Xf (V2 1 0) (rot_of 0))%R.
Proof. exact n_missed_ex. Qed.

(** ** C95 every contact is of a class that exists, its fixtures in the order of the class *)
Theorem C95_class : forall (T : Type) (NT : Num T) (TT : NumTrig T) (VT : NumValid T) (E : env T) (w : WorldModel.world T), answers E -> wreach E w -> forall c x, w_contacts w c = Some x -> in_class w x.
Proof. exact @reach_class. Qed.
Print Assumptions C95_class.
Example C95_ex : exists (w : fworld) c x, answers (ex_env None) /\ wreach (ex_env None) w /\ w_contacts w c = Some x.
Proof. exact n_class_ex. Qed.

(** ** C96 the narrow phase gives a contact at most two points *)
Theorem C96_two : forall (T : Type) (NT : Num T) (w : WorldModel.world T) c m, evaluate w c = Ok m -> two_points m.
Proof. exact @contact_two. Qed.
Print Assumptions C96_two.
Example C96_ex : exists w c m, wreach n_env w /\ (exists w2, step_front n_env w = Ok w2 /\ evaluate w2 c = Ok m) /\ 0 < mf_count m.
Proof. exact n_points_ex. Qed.
