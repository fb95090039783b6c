(** Distance, time of impact and shape cast: C48, C49, C50, C63, C64, C65. *)
From Coq Require Import List ZArith Bool Arith Reals.
From Verif Require Import Base Num Math ShapeModel DynModel DistModel ToiModel GeomSpec DistSpec ToiSpec DistProofs GjkProofs GjkReal DistChain ToiProofs CastProofs DistExamples DistLast SolverExamples.
Import ListNotations.

(** ** C48: the solvers for two and three points return the closest point *)
Theorem C48_solve2 : forall s : simplex R, sx_count s = 2%nat -> let s' := solve2 s in
  convex (weights s') /\ (forall v, In v (used s') -> exists u, In u (used s) /\ same_vertex v u) /\
  closest (corners s) (mix (weights s') (corners s')) /\ closest_point s' = Ok (mix (weights s') (corners s')).
Proof. exact solve2_says. Qed.
Print Assumptions C48_solve2.
Theorem C48_solve3 : forall s : simplex R, sx_count s = 3%nat -> let s' := solve3 s in
  convex (weights s') /\ (forall v, In v (used s') -> exists u, In u (used s) /\ same_vertex v u) /\
  closest (corners s) (mix (weights s') (corners s')) /\ closest_point s' = Ok (mix (weights s') (corners s')).
Proof. exact solve3_says. Qed.
Print Assumptions C48_solve3.
Example C48_edge_ex : sx_count ex_triangle = 3%nat /\ sx_count (solve3 ex_triangle) = 2%nat /\ weights (solve3 ex_triangle) = [1 / 2; 1 / 2]%R /\ mix (weights (solve3 ex_triangle)) (corners (solve3 ex_triangle)) = V2 0%R 1%R.
Proof. exact (conj eq_refl ex_triangle_edge). Qed.
Example C48_inside_ex : sx_count (solve3 (Simplex (ex_corner (-1) (-1)) (ex_corner 1 (-1)) (ex_corner 0 1) 3)) = 3%nat.
Proof. exact ex_triangle_inside. Qed.

(** ** C49: the distance function returns; its distance is that of its points; its points belong to the shapes *)
(** for any numbers, floats with all their special values included *)
Theorem C49_returns : forall (T : Type) (NT : Num T) (pa pb : dproxy T) xa xb c radii, dp_vertices pa <> [] -> dp_vertices pb <> [] -> cache_fits c pa pb ->
  exists o c', distance_fn c (DInput pa pb xa xb radii) = Ok (o, c') /\ (do_iterations o <= 20)%nat /\ cache_fits c' pa pb.
Proof. exact (fun T NT => @distance_returns T NT). Qed.
Print Assumptions C49_returns.
Theorem C49_distance : forall (pa pb : dproxy R) xa xb radii c o c', dp_vertices pa <> [] -> dp_vertices pb <> [] -> cache_fits c pa pb ->
  distance_fn c (DInput pa pb xa xb radii) = Ok (o, c') -> do_distance o = dist (do_a o) (do_b o).
Proof. exact distance_is. Qed.
Print Assumptions C49_distance.
(** missing: the searches that use up all 20 iterations *)
Theorem C49_witness_partial : forall (pa pb : dproxy R) xa xb c o c', dp_vertices pa <> [] -> dp_vertices pb <> [] -> cache_fits c pa pb ->
  distance_fn c (DInput pa pb xa xb false) = Ok (o, c') -> (do_iterations o < 20)%nat -> hull (cloud pa xa) (do_a o) /\ hull (cloud pb xb) (do_b o).
Proof. exact distance_witness. Qed.
Print Assumptions C49_witness_partial.
(** A search that runs into the limit adds a vertex after the last solve and reads weights that were never computed for it:
    its point can lie outside the shape *)
Theorem C49_witness_refuted : exists (pa pb : dproxy R) xa xb o c, dp_vertices pa <> [] /\ dp_vertices pb <> [] /\
  distance_fn cache_zero (DInput pa pb xa xb false) = Ok (o, c) /\ ~ hull (cloud pb xb) (do_b o).
Proof. exact iteration_limit. Qed.
Print Assumptions C49_witness_refuted.
Example C49_ex : (exists c, distance_fn cache_zero (DInput ca (cb ex_two) xid xid false) = Ok (DOutput (V2 0 0) (V2 3 0) 3 2, c)%R) /\ (forall pa pb : dproxy R, cache_fits cache_zero pa pb).
Proof. exact (conj ex_two_distance cache_zero_fits). Qed.
Example C49_boxes_ex : ex_boxes false = true /\ ex_boxes true = true.
Proof. exact ex_boxes_ok. Qed.

(** ** C63: the distance is the least one *)
Theorem C63_minimal : forall (pa pb : dproxy R) xa xb radii c o c', dp_vertices pa <> [] -> dp_vertices pb <> [] -> cache_fits c pa pb -> spread (cloud pa xa) (cloud pb xb) ->
  distance_fn c (DInput pa pb xa xb radii) = Ok (o, c') -> (do_iterations o < 20)%nat ->
  let r := if radii then (dp_radius pa + dp_radius pb)%R else 0%R in
  (do_distance o < B2_EPSILON)%R \/ forall qa qb, hull (cloud pa xa) qa -> hull (cloud pb xb) qb -> (do_distance o + r <= dist qa qb)%R.
Proof. exact distance_minimal. Qed.
Print Assumptions C63_minimal.
Example C63_ex : spread (cloud ca xid) (cloud (cb ex_two) xid) /\ exists c, distance_fn cache_zero (DInput ca (cb ex_two) xid xid false) = Ok (DOutput (V2 0 0) (V2 3 0) 3 2, c)%R.
Proof. exact (conj ex_two_spread ex_two_distance). Qed.

(** ** C50: the time of impact returns, in range, touching only when it touches *)
(** for any numbers and any functions that return *)
Theorem C50_returns : forall (T : Type) (NT : Num T) (C F : Type) (distance : T -> C -> res (T * C)) (initialize : C -> T -> res F) (find_min : F -> T -> res (Z * Z * T)) (evaluate : F -> Z -> Z -> T -> res T) n c t_max target tolerance t1,
  all_return distance initialize find_min evaluate -> exists r, toi_loop distance initialize find_min evaluate n c t_max target tolerance t1 = Ok r.
Proof. exact (fun T NT C F => @toi_loop_returns T NT C F). Qed.
Print Assumptions C50_returns.
Theorem C50_touching : forall (T : Type) (NT : Num T) (C F : Type) (distance : T -> C -> res (T * C)) (initialize : C -> T -> res F) (find_min : F -> T -> res (Z * Z * T)) (evaluate : F -> Z -> Z -> T -> res T) n t_max target tolerance c t1 t,
  toi_loop distance initialize find_min evaluate n c t_max target tolerance t1 = Ok (TTouching, t) -> touches distance initialize find_min evaluate target tolerance t.
Proof. exact (fun T NT C F => @toi_touches T NT C F). Qed.
Print Assumptions C50_touching.
Theorem C50_range : forall (C F : Type) (distance : R -> C -> res (R * C)) (initialize : C -> R -> res F) (find_min : F -> R -> res (Z * Z * R)) (evaluate : F -> Z -> Z -> R -> res R) n t_max target tolerance, (0 <= tolerance)%R -> (0 <= t_max)%R ->
  forall c t1 st t, (0 <= t1 <= t_max)%R -> toi_loop distance initialize find_min evaluate n c t_max target tolerance t1 = Ok (st, t) -> (0 <= t <= t_max)%R.
Proof. exact (fun C F => @toi_range C F). Qed.
Print Assumptions C50_range.
(** the functions of the code, in exact real arithmetic *)
Theorem C50_code : forall (TT : NumTrig R) (pa pb : dproxy R) swa swb t_max, dp_vertices pa <> [] -> dp_vertices pb <> [] -> (0 <= t_max)%R ->
  exists st t, time_of_impact pa pb swa swb t_max = Ok (st, t) /\ (0 <= t <= t_max)%R.
Proof. exact @toi_returns. Qed.
Print Assumptions C50_code.
(** In floats it is false: products of large coordinates overflow, the distance is not a number and the code panics *)
Theorem C50_f32_returns_refuted : exists (TT : NumTrig f32) (pa pb : dproxy f32) swa swb t_max, dp_vertices pa <> [] /\ dp_vertices pb <> [] /\ nle (nofZ 0) t_max = true /\
  time_of_impact pa pb swa swb t_max = Panic.
Proof. exact toi_panics. Qed.
Print Assumptions C50_f32_returns_refuted.
(** and a secant step can round beyond the end of the interval *)
Theorem C50_f32_range_refuted : exists (distance : f32 -> unit -> res (f32 * unit)) (initialize : unit -> f32 -> res unit) (find_min : unit -> f32 -> res (Z * Z * f32)) (evaluate : unit -> Z -> Z -> f32 -> res f32) t_max target tolerance t,
  all_return distance initialize find_min evaluate /\ nlt (nofZ 0) tolerance = true /\ nlt (nofZ 0) t_max = true /\
  toi_loop distance initialize find_min evaluate 20 tt t_max target tolerance (nofZ 0) = Ok (TTouching, t) /\ nlt t_max t = true.
Proof. exact toi_beyond. Qed.
Print Assumptions C50_f32_range_refuted.
Example C50_ex : all_return ex_dist ex_init ex_min ex_eval /\
  toi_is TTouching (nlit 4 10) (nlit 6 10) (@time_of_impact f32 _ flat_trig ex_box ex_box (ex_sweep 0 0) (ex_sweep 8 (-4)) (nofZ 1)) = true /\
  toi_is TSeparated (nofZ 1) (nofZ 1) (@time_of_impact f32 _ flat_trig ex_box ex_box (ex_sweep 0 0) (ex_sweep 8 4) (nofZ 1)) = true /\
  toi_is TOverlapped (nofZ 0) (nofZ 0) (@time_of_impact f32 _ flat_trig ex_box ex_box (ex_sweep 0 0) (ex_sweep 1 4) (nofZ 1)) = true.
Proof. exact (conj ex_all_return ex_toi). Qed.

(** ** C64: what separated and overlapped mean *)
Theorem C64_separated : forall (TT : NumTrig R) (pa pb : dproxy R) swa swb t_max t, dp_vertices pa <> [] -> dp_vertices pb <> [] -> (0 <= t_max)%R ->
  time_of_impact pa pb swa swb t_max = Ok (TSeparated, t) ->
  let wa := sweep_normalize swa in let wb := sweep_normalize swb in
  t = t_max /\ separates (sep_init pa pb wa wb) (sep_find_min pa pb wa wb) (toi_target pa pb) toi_tolerance t_max.
Proof. exact (fun TT => @toi_separated_is TT). Qed.
Print Assumptions C64_separated.
(** for any functions, if the search for the deepest points finds the least separation *)
Theorem C64_separated_any : forall (C F : Type) (distance : R -> C -> res (R * C)) (initialize : C -> R -> res F) (find_min : F -> R -> res (Z * Z * R)) (evaluate : F -> Z -> Z -> R -> res R), min_is_least find_min evaluate ->
  forall n t_max target tolerance, (0 < tolerance)%R -> forall c t1 t, (0 <= t1 <= t_max)%R ->
  toi_loop distance initialize find_min evaluate n c t_max target tolerance t1 = Ok (TSeparated, t) -> t = t_max /\ separates initialize find_min target tolerance t_max.
Proof. exact (fun C F => @toi_separates C F). Qed.
Print Assumptions C64_separated_any.
Theorem C64_overlapped : forall (T : Type) (NT : Num T) (C F : Type) (distance : T -> C -> res (T * C)) (initialize : C -> T -> res F) (find_min : F -> T -> res (Z * Z * T)) (evaluate : F -> Z -> Z -> T -> res T) n t_max target tolerance c t1 t,
  toi_loop distance initialize find_min evaluate n c t_max target tolerance t1 = Ok (TOverlapped, t) ->
  t = nofZ 0 /\ exists t' c d c', distance t' c = Ok (d, c') /\ nle d (nofZ 0) = true.
Proof. exact (fun T NT C F => @toi_overlapped T NT C F). Qed.
Print Assumptions C64_overlapped.

Example C64_ex : time_of_impact ex_dot ex_dot (ex_sweep 0 0) (ex_sweep 3 4) 1%R = Ok (TSeparated, 1%R).
Proof. exact ex_separated. Qed.

(** ** C65: a shape cast stops before the shapes meet *)
Theorem C65_returns : forall (T : Type) (NT : Num T) (pa : dproxy T) xa pb xb r, dp_vertices pa <> [] -> dp_vertices pb <> [] ->
  exists o, shape_cast pa xa pb xb r = Ok o /\ match o with Some c => (1 <= ca_iterations c <= 20)%nat | None => True end.
Proof. exact (fun T NT => @cast_ok T NT). Qed.
Print Assumptions C65_returns.
Theorem C65_range : forall (pa pb : dproxy R) xa xb r c, shape_cast pa xa pb xb r = Ok (Some c) -> (0 <= ca_lambda c <= 1)%R.
Proof. exact cast_range. Qed.
Print Assumptions C65_range.
(** on the way to a hit the shapes stay apart *)
Theorem C65_clear : forall (pa pb : dproxy R) xa xb r c, shape_cast pa xa pb xb r = Ok (Some c) -> (0 < ca_lambda c)%R ->
  forall m qa qb, (m <= ca_lambda c)%R -> hull (cloud pa xa) qa -> hull (cloud pb xb) qb -> (cast_gap pa pb <= dist qa (moved r qb m))%R.
Proof. exact cast_clear. Qed.
Print Assumptions C65_clear.
(** at a hit they are within half a slop of the gap *)
Theorem C65_meets : forall (pa pb : dproxy R) xa xb r c, shape_cast pa xa pb xb r = Ok (Some c) -> (ca_iterations c < 20)%nat ->
  exists qa qb, hull (cloud pa xa) qa /\ hull (cloud pb xb) qb /\ (dist qa (moved r qb (ca_lambda c)) <= cast_gap pa pb + B2_LINEAR_SLOP / 2)%R.
Proof. exact cast_meets. Qed.
Print Assumptions C65_meets.
(** a miss: the shapes stay apart all the way, or they touch or overlap already at the start *)
Theorem C65_miss : forall (pa pb : dproxy R) xa xb r, shape_cast pa xa pb xb r = Ok None ->
  (forall m qa qb, (0 <= m <= 1)%R -> hull (cloud pa xa) qa -> hull (cloud pb xb) qb -> (cast_gap pa pb <= dist qa (moved r qb m))%R) \/
  exists qa qb, hull (cloud pa xa) qa /\ hull (cloud pb xb) qb /\ (dist qa qb <= cast_gap pa pb + B2_LINEAR_SLOP / 2)%R.
Proof. exact cast_misses. Qed.
Print Assumptions C65_miss.
Example C65_ex : (exists c, shape_cast ex_dot ex_still ex_dot ex_from (V2 (-6) 0)%R = Ok (Some c) /\ ca_lambda c = (299 / 600)%R /\ ca_iterations c = 1%nat) /\
  shape_cast ex_dot ex_still ex_dot ex_from (V2 6 0)%R = Ok None.
Proof. exact (conj ex_cast_hit ex_cast_miss). Qed.
Example C65_boxes_ex : cast_is (nlit 54 100) (nlit 57 100) (shape_cast ex_box (at_x 0) ex_box (at_x 8) (V2 (nofZ (-10)) (nofZ 0))) = true.
Proof. exact ex_cast_boxes. Qed.
