(** Property theorems about sensors, over the reals. *)
From Coq Require Import List Arith Reals.
From Verif Require Import Base Num NumLaws Math ShapeModel DynModel DistModel GeomSpec DistSpec WorldModel WorldClaims WorldCalls WorldReach CoverSpec PairSpec FrontSpec NarrowModel NarrowSpec FrontReal CoverExamples FrontExamples SenseModel SenseSpec SenseProofs SenseFinal SenseExamples.
Import ListNotations.
Local Open Scope R_scope.

(** ** C102 a sensor reports exactly the shapes that are near *)
(* missing: searches that use up their 20 iterations, vertices closer together than epsilon *)
Theorem C102_overlap_partial : forall sa ia la ra xa sb ib lb rb xb, sensed sa ia la ra -> sensed sb ib lb rb -> 0 <= ra + rb ->
  spread (map (place xa) la) (map (place xb) lb) -> settles (DProxy la ra) (DProxy lb rb) xa xb ->
  exists b, shapes_overlap sa ia sb ib xa xb = Ok b /\ (b = true <-> nearer (map (place xa) la) (map (place xb) lb) (ra + rb + 10 * B2_EPSILON)).
Proof. exact shapes_near. Qed.
Print Assumptions C102_overlap_partial.
(* circles and single edges *)
Theorem C102_settles : forall pa pb xa xb, dp_vertices pa <> [] -> dp_vertices pb <> [] -> (length (dp_vertices pa) * length (dp_vertices pb) <= 2)%nat -> settles pa pb xa xb.
Proof. exact few_settle. Qed.
Print Assumptions C102_settles.
(* the contact of a sensor after colliding *)
Theorem C102_sensor_partial : forall E, answers E -> senses E ->
  forall w w2 c x f k i sa la ra xa g l j sb lb rb xb, wreach E w -> step_front E w = Ok w2 -> w_contacts w2 c = Some x -> pair_key x = ((f, k), (g, l)) -> sensor_contact w2 x = true ->
  sits w f i sa xa -> sits w g j sb xb -> at_work w i \/ at_work w j -> sensed sa k la ra -> sensed sb l lb rb -> 0 <= ra + rb ->
  spread (map (place xa) la) (map (place xb) lb) -> settles (DProxy la ra) (DProxy lb rb) xa xb ->
  (cf_touching (c_flags x) = true <-> nearer (map (place xa) la) (map (place xb) lb) (ra + rb + 10 * B2_EPSILON)).
Proof. exact front_sensor. Qed.
Print Assumptions C102_sensor_partial.
(* no shape at a sensor is missed *)
Theorem C102_found_partial : forall E, answers E -> senses E -> plain_filter E -> holds_static E ->
  forall w w2 f k i sa la ra xa g l j sb lb rb xb, preach E w -> treach E w -> pairs_due E w -> step_front E w = Ok w2 ->
  sits w f i sa xa -> sits w g j sb xb -> either_sensor w f g -> may_touch w f g -> at_work w i \/ at_work w j -> sensed sa k la ra -> sensed sb l lb rb -> 0 <= ra -> 0 <= rb ->
  spread (map (place xa) la) (map (place xb) lb) -> settles (DProxy la ra) (DProxy lb rb) xa xb -> settles (DProxy lb rb) (DProxy la ra) xb xa ->
  (exists qa qb, hull (map (place xa) la) qa /\ hull (map (place xb) lb) qb /\ dist qa qb <= ra + rb) ->
  exists c x, w_contacts w2 c = Some x /\ between x f k g l /\ sensor_contact w2 x = true /\ cf_touching (c_flags x) = true.
Proof. exact sensor_found. Qed.
Print Assumptions C102_found_partial.
(* a ball on an edge *)
Example C102_overlap_ex : sensed (ShEdge rim) 0 [V2 (-1) 0; V2 1 0] 0 /\ sensed r_circle 0 ball0 1 /\ 0 <= 0 + 1 /\
  spread (map (place (at_p (V2 0 0))) [V2 (-1) 0; V2 1 0]) (map (place (at_p (V2 0 1))) ball0) /\ settles (DProxy [V2 (-1) 0; V2 1 0] 0) (DProxy ball0 1) (at_p (V2 0 0)) (at_p (V2 0 1)).
Proof. exact rim_ex. Qed.
(* a ball in a sensor, and one beside it whose box overlaps *)
Example C102_found_ex : exists w w2, answers n_env /\ senses n_env /\ plain_filter n_env /\ holds_static n_env /\ preach n_env w /\ treach n_env w /\ pairs_due n_env w /\ step_front n_env w = Ok w2 /\
  sits w 0 0 r_circle (at_p (V2 0 0)) /\ sits w 1 1 r_circle (at_p (V2 1 0)) /\ either_sensor w 0 1 /\ may_touch w 0 1 /\ at_work w 1 /\ sensed r_circle 0 ball0 1 /\
  spread (map (place (at_p (V2 0 0))) ball0) (map (place (at_p (V2 1 0))) ball0) /\ (forall p q, settles (DProxy ball0 1) (DProxy ball0 1) (at_p p) (at_p q)) /\
  exists qa qb, hull (map (place (at_p (V2 0 0))) ball0) qa /\ hull (map (place (at_p (V2 1 0))) ball0) qb /\ dist qa qb <= 1 + 1.
Proof. exact s_found_ex. Qed.
Example C102_clear_ex : exists w w2 c x, wreach n_env w /\ step_front n_env w = Ok w2 /\ w_contacts w2 c = Some x /\ between x 0 0 1 0 /\ sensor_contact w2 x = true /\
  sits w 0 0 r_circle (at_p (V2 0 0)) /\ sits w 1 1 r_circle (at_p (V2 (3/2) (3/2))) /\ at_work w 1 /\ ~ nearer (map (place (at_p (V2 0 0))) ball0) (map (place (at_p (V2 (3/2) (3/2)))) ball0) (1 + 1 + 10 * B2_EPSILON).
Proof. exact s_clear_ex. Qed.
