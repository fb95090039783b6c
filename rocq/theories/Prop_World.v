(** Property theorems of a world (C17 to C26, C30, C33, C59). The words used are defined in WorldClaims.v and WorldSpec.v;
    [wreach E w]: some history of public calls leads to the world [w], with the routines and callbacks [E]. *)
From Coq Require Import List ZArith Bool.
From Verif Require Import Base Num Math Collision Manifold Filter ShapeModel TreeModel TreeSpec BroadModel BroadSpec DynModel DynSpec WorldModel WorldGraph WorldSpec WorldClaims WorldCalls WorldHist WorldFinal WorldAfter WorldNews WorldLock WorldReach WorldExamples.
Import ListNotations.

(** ** C17 *)
Theorem C17_one_contact_per_pair : forall (T : Type) (NT : Num T) (TT : NumTrig T) (VT : NumValid T) (E : env T) (w : world T) c c' x y,
  answers E -> wreach E w -> w_contacts w c = Some x -> w_contacts w c' = Some y -> same_children x y -> c = c'.
Proof. exact (fun T NT TT VT E w c c' x y EA => r_one E EA w c c' x y). Qed.
Print Assumptions C17_one_contact_per_pair.
(* four contacts, three of them with the same fixture in two contacts *)
Example C17_case : exists w, wreach (ex_env None) w /\ ex_contacts w = ex_four /\ w_listener w = true /\ w_joint_count w = 2 /\ bp_proxies (w_bp w) = 6%Z.
Proof. exact ex_reached. Qed.

(** ** C18 *)
Theorem C18_eligible_now : forall (T : Type) (NT : Num T) (TT : NumTrig T) (VT : NumValid T) (E : env T) (w : world T) c x,
  answers E -> wreach E w -> w_contacts w c = Some x ->
  exists a b, bodies_of w x = Some (a, b) /\ a <> b /\ (dynamic w a \/ dynamic w b) /\ turned_on w a /\ turned_on w b /\
    (joint_forbids w a b -> cf_filter (c_flags x) = true).
Proof. exact (fun T NT TT VT E w c x EA => r_contact_now E EA w c x). Qed.
Print Assumptions C18_eligible_now.
(* contacts are created by steps only, for fixtures that may meet at that moment *)
Theorem C18_eligible_at_creation : forall (T : Type) (NT : Num T) (TT : NumTrig T) (VT : NumValid T) (E : env T) (w w' : world T) k c x,
  answers E -> wreach E w -> wrun E k w = Ok w' -> w_contacts w' c = Some x ->
  (exists y, w_contacts w c = Some y /\ pair_key y = pair_key x) \/ (exists dt v, k = WStep dt /\ same_rules w v /\ may_meet E v x).
Proof. exact (fun T NT TT VT E w w' k c x EA => r_created E EA w k w' c x). Qed.
Print Assumptions C18_eligible_at_creation.
(* the part of a step before the solver checks the contacts that are marked *)
Theorem C18_checked_again : forall (T : Type) (NT : Num T) (TT : NumTrig T) (VT : NumValid T) (E : env T) (w w2 : world T),
  answers E -> wreach E w -> step_front E w = Ok w2 ->
  same_rules w w2 /\ forall c x, w_contacts w2 c = Some x ->
    cf_filter (c_flags x) = false /\
    (exists a b, bodies_of w2 x = Some (a, b) /\ a <> b /\ (dynamic w2 a \/ dynamic w2 b) /\ ~ joint_forbids w2 a b) /\
    ((exists x0, w_contacts w c = Some x0 /\ pair_key x0 = pair_key x /\ filtered_again E w x0) \/ (exists v, same_rules w v /\ may_meet E v x)).
Proof. exact (fun T NT TT VT E w w2 EA => r_front E EA w w2). Qed.
Print Assumptions C18_checked_again.
Theorem C18_set_type : forall (T : Type) (NT : Num T) (TT : NumTrig T) (VT : NumValid T) (E : env T) (w w' : world T) i ty b,
  answers E -> wreach E w -> w_bodies w i = Some b -> b_type b <> ty -> wrun E (WType i ty) w = Ok w' ->
  (forall c, contact_on w' i c = false) /\
  (forall c, option_map pair_key (w_contacts w' c) = if contact_on w i c then None else option_map pair_key (w_contacts w c)).
Proof. exact (fun T NT TT VT E w w' i ty b EA => r_retype E EA w w' i ty b). Qed.
Print Assumptions C18_set_type.
Example C18_case_creation : exists w w', wreach (ex_env None) w /\ wrun (ex_env None) tick w = Ok w' /\ ex_contacts w = [] /\ ex_contacts w' = ex_four.
Proof. exact ex_step. Qed.
Example C18_case_joint : exists w w', wreach (ex_env None) w /\ wrun (ex_env None) tick w = Ok w' /\ ex_contacts w = ex_four /\
  ex_contacts w' = [(3, 3, 5, true); (2, 4, 5, true); (1, 1, 2, true)].
Proof. exact ex_forbid. Qed.
Example C18_case_type : exists w w', wreach (ex_env None) w /\ wrun (ex_env None) (WType 1 StaticBody) w = Ok w' /\ ex_contacts w = ex_four /\
  ex_contacts w' = [(3, 3, 5, true); (2, 4, 5, true)].
Proof. exact ex_retype. Qed.

(** ** C19 *)
Theorem C19_contact_graph : forall (T : Type) (NT : Num T) (TT : NumTrig T) (VT : NumValid T) (E : env T) (w : world T),
  answers E -> wreach E w -> contact_graph w.
Proof. exact (fun T NT TT VT E w EA => r_contact_graph E EA w). Qed.
Print Assumptions C19_contact_graph.
Theorem C19_destroy : forall (T : Type) (NT : Num T) (TT : NumTrig T) (VT : NumValid T) (E : env T) (w w' : world T) c,
  answers E -> wreach E w -> destroy_contact E c w = Ok w' -> contact_graph w' /\ contact_removed c w w'.
Proof. exact (fun T NT TT VT E w w' c EA => r_destroy_contact E EA w c w'). Qed.
Print Assumptions C19_destroy.
Example C19_case : exists w, wreach (ex_env None) w /\ ex_contacts w = ex_four /\ w_listener w = true /\ w_joint_count w = 2 /\ bp_proxies (w_bp w) = 6%Z.
Proof. exact ex_reached. Qed.
Example C19_case_destroy : exists w w' x, wreach (ex_env None) w /\ w_contacts w 1 = Some x /\ destroy_contact (ex_env None) 1 w = Ok w'.
Proof. exact ex_cut. Qed.

(** ** C20 *)
Theorem C20_begin_end : forall (T : Type) (NT : Num T) (TT : NumTrig T) (VT : NumValid T) (E : env T) (w : world T) c,
  answers E -> wreach E w -> w_listener w = true -> follow false (told w c) = Some (is_touching w c).
Proof. exact (fun T NT TT VT E w c EA => r_events E EA w c). Qed.
Print Assumptions C20_begin_end.
(* contact 0 began, ended when its ball was moved away, and began again; contact 1 ended by destruction *)
Example C20_case : exists w, wreach (ex_env None) w /\ w_listener w = true /\ told w 0 = [true; false; true] /\ told w 1 = [true; false] /\ told w 2 = [true] /\ told w 7 = [].
Proof. exact ex_told. Qed.

(** ** C21 *)
Theorem C21_carried_over : forall (T : Type) (NT : Num T) (TT : NumTrig T) (VT : NumValid T) (E : env T) (w w' : world T) i x fa fb,
  w_contacts w i = Some x -> w_fixtures w (c_fa x) = Some fa -> w_fixtures w (c_fb x) = Some fb ->
  w_listener w = false \/ (forall v e c, ce_manifold (e_listen E v e c) = c_manifold c) ->
  update_contact E i w = Ok w' ->
  exists x', w_contacts w' i = Some x' /\
    if f_sensor fa || f_sensor fb then mf_count (c_manifold x') = 0
    else exists v m, e_evaluate E v i = Ok m /\ impulses_kept (c_manifold x) m (c_manifold x').
Proof. exact (fun T NT TT VT E w w' i x fa fb Hx Ha Hb M R => update_kept E i w x fa fb Hx Ha Hb M w' R). Qed.
Print Assumptions C21_carried_over.
Theorem C21_sensors_are_not_solved : forall (T : Type) (NT : Num T) (TT : NumTrig T) (VT : NumValid T) (E : env T) (w w' : world T) dt,
  answers E -> wreach E w -> w_step_complete w = true -> wrun E (WStep dt) w = Ok w' ->
  exists l, news w w' l /\ forall c x, w_contacts w' c = Some x -> sensor_contact w' x = true -> existsb (solves c) l = false.
Proof. exact (fun T NT TT VT E w w' dt EA => r_sensor_news E EA dt w w'). Qed.
Print Assumptions C21_sensors_are_not_solved.
Example C21_case : exists w w', wreach (ex_env None) w /\ wrun (ex_env None) tick w = Ok w' /\ w_step_complete w = true /\
  ex_contacts w' = ex_four /\ ex_sensors w' = [2] /\ ex_reported w' = [0; 1; 3].
Proof. exact ex_sensed. Qed.
Example C21_case_carry : exists w w' x fa fb, wreach (ex_env None) w /\ w_contacts w 0 = Some x /\ w_fixtures w (c_fa x) = Some fa /\ w_fixtures w (c_fb x) = Some fb /\
  (forall v e c, ce_manifold (e_listen (ex_env None) v e c) = c_manifold c) /\ update_contact (ex_env None) 0 w = Ok w' /\ mf_count (c_manifold x) = 1.
Proof. exact ex_updated. Qed.

(** ** C22: false of the code *)
Theorem C22_pairs_without_routine : forall s t, s < 4 -> t < 4 -> (register s t = None <-> (s = 1 \/ s = 3) /\ (t = 1 \/ t = 3)).
Proof. exact register_none. Qed.
Print Assumptions C22_pairs_without_routine.
(* two overlapping edges on two dynamic bodies: the step panics *)
Theorem C22_contact_creation_refuted : exists (E : env f32) (w : world f32), answers E /\ wreach E w /\ wrun E (WStep (nofZ 1)) w = Panic /\
  ex_run E two_rods = Ok w.
Proof. exact (match rods_panic with ex_intro _ w (conj R (conj H P)) => ex_intro _ _ (ex_intro _ w (conj (ex_answers None) (conj H (conj P R)))) end). Qed.
Print Assumptions C22_contact_creation_refuted.

(** ** C23 *)
Theorem C23_destroy_body : forall (T : Type) (NT : Num T) (TT : NumTrig T) (VT : NumValid T) (E : env T) (w w' : world T) i,
  answers E -> wreach E w -> wrun E (WDestroyBody i) w = Ok w' -> body_removed i w w' /\ counts_drop i w w'.
Proof. exact (fun T NT TT VT E w w' i EA => r_destroy_body E EA w i w'). Qed.
Print Assumptions C23_destroy_body.
Theorem C23_fixture_graph : forall (T : Type) (NT : Num T) (TT : NumTrig T) (VT : NumValid T) (E : env T) (w : world T),
  answers E -> wreach E w -> fixture_graph w.
Proof. exact (fun T NT TT VT E w EA => r_fixture_graph E EA w). Qed.
Print Assumptions C23_fixture_graph.
Example C23_case : exists w w', wreach (ex_env None) w /\ wrun (ex_env None) (WDestroyBody 3) w = Ok w' /\ ex_contacts w = ex_four /\
  ex_contacts w' = [(1, 1, 2, true); (0, 0, 1, true)].
Proof. exact ex_destroy. Qed.

(** ** C24 *)
Theorem C24_joint_graph : forall (T : Type) (NT : Num T) (TT : NumTrig T) (VT : NumValid T) (E : env T) (w : world T),
  answers E -> wreach E w -> joint_graph w.
Proof. exact (fun T NT TT VT E w EA => r_joint_graph E EA w). Qed.
Print Assumptions C24_joint_graph.
Theorem C24_destroy : forall (T : Type) (NT : Num T) (TT : NumTrig T) (VT : NumValid T) (E : env T) (w w' : world T) j,
  answers E -> wreach E w -> wrun E (WDestroyJoint j) w = Ok w' -> joint_removed j w w'.
Proof. exact (fun T NT TT VT E w w' j EA => r_destroy_joint E EA w j w'). Qed.
Print Assumptions C24_destroy.
(* a contact between bodies that a joint keeps from colliding is older than the joint and is marked for removal *)
Theorem C24_no_contact : forall (T : Type) (NT : Num T) (TT : NumTrig T) (VT : NumValid T) (E : env T) (w w' : world T) k c x a b,
  answers E -> wreach E w -> wrun E k w = Ok w' -> w_contacts w' c = Some x -> bodies_of w' x = Some (a, b) -> joint_forbids w' a b ->
  exists y, w_contacts w c = Some y /\ pair_key y = pair_key x /\ cf_filter (c_flags x) = true.
Proof. exact (fun T NT TT VT E w w' k c x a b EA => r_no_joint_contact E EA w k w' c x a b). Qed.
Print Assumptions C24_no_contact.
Example C24_case : exists w w', wreach (ex_env None) w /\ wrun (ex_env None) (WDestroyJoint 1) w = Ok w' /\ w_joint_count w = 2 /\ w_joint_count w' = 1.
Proof. exact ex_unjoin. Qed.

(** ** C25: false of the code, except for the calls that change the state *)
Theorem C25_disable_partial : forall (T : Type) (NT : Num T) (TT : NumTrig T) (VT : NumValid T) (E : env T) (w w' : world T) i,
  answers E -> wreach E w -> wrun E (WEnabled i false) w = Ok w' ->
  ~ turned_on w' i /\ (forall f, fixture_on w i f = true -> proxies_of w' f = 0) /\
  (forall c, option_map pair_key (w_contacts w' c) = if contact_on w i c then None else option_map pair_key (w_contacts w c)) /\
  (forall f, fixture_on w i f = false -> w_fixtures w' f = w_fixtures w f) /\ (forall f, children w' f = children w f).
Proof. exact (fun T NT TT VT E w w' i EA => r_disable E EA w i w'). Qed.
Print Assumptions C25_disable_partial.
Theorem C25_disable_again : forall (T : Type) (NT : Num T) (TT : NumTrig T) (VT : NumValid T) (E : env T) (w : world T) i b,
  answers E -> wreach E w -> w_bodies w i = Some b -> is_enabled b = false ->
  exists w', wrun E (WEnabled i false) w = Ok w' /\ same_world w w'.
Proof. exact (fun T NT TT VT E w i b EA R => r_disable_again E EA w i b R (reach_free E w R)). Qed.
Print Assumptions C25_disable_again.
Theorem C25_enable_partial : forall (T : Type) (NT : Num T) (TT : NumTrig T) (VT : NumValid T) (E : env T) (w w' : world T) i b,
  answers E -> wreach E w -> w_bodies w i = Some b -> is_enabled b = false -> wrun E (WEnabled i true) w = Ok w' ->
  turned_on w' i /\ (forall f, fixture_on w i f = true -> proxies_of w' f = children w' f) /\
  w_contacts w' = w_contacts w /\ w_log w' = w_log w /\ w_joints w' = w_joints w /\
  (forall f, fixture_on w i f = false -> w_fixtures w' f = w_fixtures w f) /\ (forall f, children w' f = children w f).
Proof. exact (fun T NT TT VT E w w' i b EA => r_enable_off E EA w i b w'). Qed.
Print Assumptions C25_enable_partial.
(* enabling an enabled body that has a fixture always panics *)
Theorem C25_enable_again_panics : forall (T : Type) (NT : Num T) (TT : NumTrig T) (VT : NumValid T) (E : env T) (w : world T) i b f r,
  answers E -> wreach E w -> w_bodies w i = Some b -> is_enabled b = true -> b_fixtures b = f :: r -> 0 < children w f ->
  wrun E (WEnabled i true) w = Panic.
Proof. exact (fun T NT TT VT E w i b f r EA R Hb On Hf Hc => r_enable_on E EA w i b f r R Hb On Hf Hc (reach_free E w R)). Qed.
Print Assumptions C25_enable_again_panics.
Theorem C25_idempotent_refuted : exists (E : env f32) (w : world f32), answers E /\ wreach E w /\ wrun E (WEnabled 0 true) w = Panic /\ ex_run E one_ball = Ok w.
Proof. exact (match enable_panic with ex_intro _ w (conj R (conj H P)) => ex_intro _ _ (ex_intro _ w (conj (ex_answers None) (conj H (conj P R)))) end). Qed.
Print Assumptions C25_idempotent_refuted.
Example C25_case_disable : exists w w', wreach (ex_env None) w /\ wrun (ex_env None) (WEnabled 1 false) w = Ok w' /\ ex_contacts w = ex_four /\ ex_contacts w' = [(3, 3, 5, true); (2, 4, 5, true)].
Proof. exact ex_disable. Qed.
Example C25_case_enable : exists w w', wreach (ex_env None) w /\ wrun (ex_env None) (WEnabled 1 true) w = Ok w' /\ ex_contacts w = [(3, 3, 5, true); (2, 4, 5, true)] /\ ex_contacts w' = ex_contacts w.
Proof. exact ex_enable. Qed.

(** ** C26 *)
Theorem C26_proxy_count : forall (T : Type) (NT : Num T) (TT : NumTrig T) (VT : NumValid T) (E : env T) (w : world T),
  answers E -> wreach E w -> bp_proxies (w_bp w) = Z.of_nat (enabled_children w).
Proof. exact (fun T NT TT VT E w EA => r_proxy_count E EA w). Qed.
Print Assumptions C26_proxy_count.
(* the proxies of the broad phase are the children of the fixtures on enabled bodies, one each *)
Theorem C26_proxies_are_children : forall (T : Type) (NT : Num T) (TT : NumTrig T) (VT : NumValid T) (E : env T) (w : world T),
  answers E -> wreach E w -> mirrored w.
Proof. exact (fun T NT TT VT E w EA => r_mirrored E EA w). Qed.
Print Assumptions C26_proxies_are_children.
Example C26_case : exists w, wreach (ex_env None) w /\ ex_contacts w = ex_four /\ w_listener w = true /\ w_joint_count w = 2 /\ bp_proxies (w_bp w) = 6%Z.
Proof. exact ex_reached. Qed.

(** ** C30 *)
Theorem C30_step_parts : forall (T : Type) (NT : Num T) (TT : NumTrig T) (VT : NumValid T) (E : env T) (dt : T) (w : world T),
  step E dt w = bind (step_front E w) (step_back E dt).
Proof. exact (fun T NT TT VT E dt w => r_step_parts E dt w). Qed.
Print Assumptions C30_step_parts.
Theorem C30_islands_partition : forall (T : Type) (NT : Num T) (TT : NumTrig T) (VT : NumValid T) (E : env T) (dt : T) (w w2 w3 : world T),
  answers E -> wreach E w -> step_front E w = Ok w2 -> solve E dt w2 = Ok w3 ->
  exists l, islands (w_log w3) = rev l ++ islands (w_log w2) /\ partition w2 l.
Proof. exact (fun T NT TT VT E dt w w2 w3 EA => r_islands E EA dt w w2 w3). Qed.
Print Assumptions C30_islands_partition.
Theorem C30_calls_end : forall (T : Type) (NT : Num T) (TT : NumTrig T) (VT : NumValid T) (E : env T) (w : world T) k,
  answers E -> wreach E w -> wrun E k w <> Fuel.
Proof. exact (fun T NT TT VT E w k EA => r_ends E EA w k). Qed.
Print Assumptions C30_calls_end.
Example C30_case : exists w w2 w3, wreach (ex_env None) w /\ step_front (ex_env None) w = Ok w2 /\ solve (ex_env None) (nofZ 1) w2 = Ok w3 /\ islands (w_log w2) = [] /\
  islands (w_log w3) = [Island [1; 0; 2] [1; 0] [1]; Island [4; 3] [3] []].
Proof. exact ex_islands. Qed.

(** ** C33: false of the code *)
Theorem C33_ends_partial : forall (T : Type) (NT : Num T) (TT : NumTrig T) (VT : NumValid T) (E : env T) (w : world T) dt,
  answers E -> wreach E w -> wrun E (WStep dt) w <> Fuel.
Proof. exact (fun T NT TT VT E w dt EA => r_ends E EA w (WStep dt)). Qed.
Print Assumptions C33_ends_partial.
(* a bullet hits 65 bodies at once: the step panics; with 63 bodies it returns *)
Theorem C33_impact_islands_refuted : exists (E : env f32) (w : world f32), answers E /\ wreach E w /\ wrun E (WStep (nofZ 1)) w = Panic /\ ex_run E bullet_many = Ok w.
Proof. exact (match bullet_panic with ex_intro _ w (conj R (conj H P)) => ex_intro _ _ (ex_intro _ w (conj (ex_answers _) (conj H (conj P R)))) end). Qed.
Print Assumptions C33_impact_islands_refuted.
Example C33_case : ex_check E4 bullet_calls (fun w => is_ok (wrun E4 (WStep (nofZ 1)) w)) = true.
Proof. exact bullet_ok. Qed.

(** ** C59: false of the code *)
Theorem C59_refilter_partial : forall (T : Type) (NT : Num T) (TT : NumTrig T) (VT : NumValid T) (E : env T) (w w' : world T) f d,
  answers E -> wreach E w -> wrun E (WFilter f d) w = Ok w' ->
  (forall c x, w_contacts w c = Some x -> c_fa x <> f /\ c_fb x <> f) /\ option_map (@f_filter T) (w_fixtures w' f) = Some d /\
  (forall c, option_map pair_key (w_contacts w' c) = option_map pair_key (w_contacts w c)).
Proof. exact (fun T NT TT VT E w w' f d EA => r_refilter_free E EA w f d w'). Qed.
Print Assumptions C59_refilter_partial.
(* a fixture with a contact can never be given a filter *)
Theorem C59_refilter_panics : forall (T : Type) (NT : Num T) (TT : NumTrig T) (VT : NumValid T) (E : env T) (w : world T) f d c x,
  answers E -> wreach E w -> w_fixtures w f <> None -> w_contacts w c = Some x -> c_fa x = f \/ c_fb x = f -> wrun E (WFilter f d) w = Panic.
Proof. exact (fun T NT TT VT E w f d c x EA => r_refilter_panics E EA w f d c x). Qed.
Print Assumptions C59_refilter_panics.
Theorem C59_refilter_refuted : exists (E : env f32) (w : world f32), answers E /\ wreach E w /\ wrun E (WFilter 0 (Filter 2 1 0)) w = Panic /\ ex_run E two_balls = Ok w.
Proof. exact (match refilter_panic with ex_intro _ w (conj R (conj H P)) => ex_intro _ _ (ex_intro _ w (conj (ex_answers None) (conj H (conj P R)))) end). Qed.
Print Assumptions C59_refilter_refuted.
Example C59_case : exists w w', wreach (ex_env None) w /\ wrun (ex_env None) (WFilter 0 (Filter 2 1 0)) w = Ok w' /\ ex_contacts w = [(1, 3, 5, true); (0, 4, 5, true)].
Proof. exact ex_refilter. Qed.
