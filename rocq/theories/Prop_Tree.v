(** Property theorems of the dynamic tree (C03-C07, C09-C12). The words used are defined in TreeSpec.v.
    [reach oks t m]: a sequence of public calls led to the tree [t], and [m] is what the caller knows. *)
From Coq Require Import List ZArith Bool Arith Reals.
From Verif Require Import Base Num NumLaws Math Collision TreeModel TreeSpec TreeFinal TreeExamples.
Import ListNotations.

(** ** C03 *)
(* any numbers, NaN included: pointers, heights, pool and free list, leaves = live proxies *)
Theorem C03_tree_well_formed : forall (T : Type) (NT : Num T) (U : Type) (t : tree T U) (m : pmap),
  reach (fun _ => True) t m -> well_formed any_box t (live m).
Proof. exact @c03_any. Qed.
Print Assumptions C03_tree_well_formed.
Example C03_tree_well_formed_ex : reach (fun _ => True) nan_tree nan_map /\ t_cap nan_tree = 16 /\ t_count nan_tree = 13.
Proof. split; [exact nan_reach|]. vm_compute. auto. Qed.

(* no legal call panics or loops *)
Theorem C03_calls_return : forall (T : Type) (NT : Num T) (U : Type) (t : tree T U) (m : pmap), reach (fun _ => True) t m ->
  (forall b u, exists t' id, create_proxy t b u = Ok (t', id) /\ m id = None) /\
  (forall id, live m id -> exists t', destroy_proxy t id = Ok t') /\
  (forall id b d, live m id -> exists t' r, move_proxy t id b d = Ok (t', r)) /\
  (forall id, live m id -> exists t', clear_moved t id = Ok t').
Proof. exact @c03_calls. Qed.
Print Assumptions C03_calls_return.
Theorem C03_new_returns : forall (T : Type) (NT : Num T) (U : Type), exists t : tree T U, tree_new = Ok t /\ reach (fun _ => True) t pempty.
Proof. exact @c03_new. Qed.
Print Assumptions C03_new_returns.
Example C03_calls_return_ex : reach (fun _ => True) ex_tree ex_map /\ live ex_map 5 /\ live ex_map 7 /\ ex_map 9 = None.
Proof. exact (conj ex_reach_any ex_live). Qed.

(* single precision (or real) boxes without NaN: every internal box is the union of the boxes below it *)
Theorem C03_boxes_are_unions : forall (T : Type) (NT : Num T) (NO : NumOrd T) (U : Type) (t : tree T U) (m : pmap),
  reach vec_fin t m -> all_boxes box_ok m -> well_formed union_box t (live m).
Proof. exact @c03_ord. Qed.
Print Assumptions C03_boxes_are_unions.
Example C03_boxes_are_unions_ex : reach vec_fin ex_tree ex_map /\ all_boxes box_ok ex_map /\ well_formed union_box ex_tree (live ex_map).
Proof. exact (conj ex_reach (conj ex_ok (C03_boxes_are_unions _ _ _ _ _ _ ex_reach ex_ok))). Qed.

(** ** C04 *)
(* the public accessors tell what the caller knows *)
Theorem C04_accessors : forall (T : Type) (NT : Num T) (U : Type) (t : tree T U) (m : pmap) id b u f,
  reach (fun _ => True) t m -> m id = Some (b, u, f) ->
  get_fat_aabb t id = Ok b /\ get_user_data t id = Ok u /\ was_moved t id = Ok f.
Proof. exact @c04_get. Qed.
Print Assumptions C04_accessors.
(* a new id is not in use (the first part of C03_calls_return), and whatever is done to other proxies, the user
   data and the box of [id] stay *)
Theorem C04_handles_are_stable : forall (T : Type) (NT : Num T) (U : Type) (cs : list cmd) (t t' : tree T U) (m m' : pmap) id u,
  reach (fun _ => True) t m -> live m id -> exec cs t m = Some (t', m') -> get_user_data t id = Ok u ->
  (~ Exists (destroys id) cs -> get_user_data t' id = Ok u) /\
  (~ Exists (changes_box id) cs -> get_fat_aabb t' id = get_fat_aabb t id).
Proof. exact @c04_stable. Qed.
Print Assumptions C04_handles_are_stable.
Example C04_handles_are_stable_ex : exists t m t' m', reach (fun _ => True) t m /\ live m 5 /\
  exec [CDestroy 0; CDestroy 1; CCreate (fbox 0 0 9 9) 55; CMove 9 (fbox 900 900 901 901) (fvec 0 0); CRebuild] t m = Some (t', m') /\
  get_user_data t 5 = Ok (Some 103) /\ get_user_data t' 5 = Ok (Some 103) /\ get_user_data t' 1 = Ok (Some 55).
Proof. exact ex_stable. Qed.

(** ** C05: single precision *)
Theorem C05_created_box_contains : forall (U : Type) (t t' : tree f32 U) m id b u,
  reach (fun _ => True) t m -> create_proxy t b u = Ok (t', id) -> box_fin b ->
  exists fb, get_fat_aabb t' id = Ok fb /\ inside b fb.
Proof. exact @c05_create_f32. Qed.
Print Assumptions C05_created_box_contains.
Theorem C05_moved_box_contains : forall (U : Type) (t t' : tree f32 U) m id b d r,
  reach (fun _ => True) t m -> live m id -> move_proxy t id b d = Ok (t', r) ->
  box_fin b -> nok (vx d) -> nok (vy d) -> exists fb, get_fat_aabb t' id = Ok fb /\ inside b fb.
Proof. exact @c05_move_f32. Qed.
Print Assumptions C05_moved_box_contains.
(* coordinates near the largest float: the fat box saturates at infinity and still contains the box; one move
   keeps the box (false), the other one re-inserts it (true) *)
Example C05_moved_box_contains_ex :
  let big := fbox (2^127) (-2^127) (2^127 + 2^126) 5 in
  box_fin big /\ nok (f32_ofZ (2^127)) /\ nok f32_inf /\
  (exists t, move_proxy ex_tree 7 big (V2 (f32_ofZ (2^127)) f32_inf) = Ok (t, true)) /\
  (exists t, move_proxy ex_tree 7 (fbox 290 280 291 281) (fvec 0 0) = Ok (t, true)) /\
  (exists b t, get_fat_aabb ex_tree 7 = Ok b /\ move_proxy ex_tree 7 b (fvec 0 0) = Ok (t, false)).
Proof. exact ex_moves. Qed.

(** ** C06 *)
Theorem C06_query_is_exact : forall (T : Type) (NT : Num T) (NO : NumOrd T) (U : Type) (t : tree T U) (m : pmap) b,
  reach vec_fin t m -> all_boxes box_ok m ->
  exists L, NoDup L /\
    (forall id, In id L <-> exists fb u f, m id = Some (fb, u, f) /\ ~ separated fb b) /\
    query t (fun l i => (l ++ [i], true)) [] b = Ok L.
Proof. exact @c06. Qed.
Print Assumptions C06_query_is_exact.
Example C06_query_is_exact_ex : reach vec_fin ex_tree ex_map /\ all_boxes box_ok ex_map /\
  query ex_tree (fun l i => (l ++ [i], true)) [] (fbox 0 (-30) 35 (-18)) = Ok [5; 1; 0].
Proof. exact (conj ex_reach (conj ex_ok ex_query)). Qed.

(** ** C07 *)
(* [record cb] is [cb] that also keeps the list of its calls and answers: the calls are a prefix of the full
   list, all answers but the last are true, and if something is left out the last answer is false *)
Theorem C07_query_stops : forall (T : Type) (NT : Num T) (U : Type) (t : tree T U) (m : pmap) b, reach (fun _ => True) t m ->
  exists full, query t (fun l i => (l ++ [i], true)) [] b = Ok full /\
  forall S (cb : S -> nat -> S * bool) s, exists s' calls rest,
    query t (record cb) (s, []) b = Ok (s', calls) /\ query t cb s b = Ok s' /\
    full = map fst calls ++ rest /\ Forall (fun c => snd c = true) (removelast calls) /\
    (rest <> [] -> exists init i, calls = init ++ [(i, false)]).
Proof. exact @c07. Qed.
Print Assumptions C07_query_stops.
Example C07_query_stops_ex : reach (fun _ => True) ex_tree ex_map /\
  query ex_tree (record (fun n _ => (n + 1, Nat.ltb n 1))) (0, []) (fbox 0 (-30) 35 (-18)) = Ok (2, [(5, true); (1, false)]).
Proof. exact (conj ex_reach_any ex_query_stop). Qed.

(** ** C08: exact real arithmetic *)
(* the callback is any function of the calls made so far that does not extend the ray; either it answered 0 and
   that was the last call, or all proxies touched by the finally clipped segment were reported *)
Theorem C08_ray_cast_misses_nothing : forall (U : Type) (t : tree R U) (m : pmap) (cb : ray_calls -> ray_input R -> nat -> R) (input : ray_input R),
  reach (fun _ => True) t m -> all_boxes box_valid m ->
  ray_p1 input <> ray_p2 input -> (0 <= ray_max input)%R ->
  (forall h inp i, (0 <= ray_max inp)%R -> (cb h inp i <= ray_max inp)%R) ->
  exists calls, ray_cast t (history cb) [] input = Ok calls /\
    NoDup (map fst calls) /\
    (forall id, In id (map fst calls) -> exists fb u f, m id = Some (fb, u, f) /\ touches (ray_p1 input) (ray_p2 input) (ray_max input) fb) /\
    ((exists init i, calls = init ++ [(i, 0%R)] /\ Forall (fun c => snd c <> 0%R) init) \/
     (Forall (fun c => snd c <> 0%R) calls /\
      forall id fb u f, m id = Some (fb, u, f) -> touches (ray_p1 input) (ray_p2 input) (clipped (ray_max input) calls) fb -> In id (map fst calls))).
Proof. exact @c08. Qed.
Print Assumptions C08_ray_cast_misses_nothing.
(* a callback that never clips sees exactly the touched proxies *)
Theorem C08_ray_cast_exact : forall (U : Type) (t : tree R U) (m : pmap) (cb : ray_calls -> ray_input R -> nat -> R) (input : ray_input R),
  reach (fun _ => True) t m -> all_boxes box_valid m ->
  ray_p1 input <> ray_p2 input -> (0 <= ray_max input)%R -> (forall h inp i, (cb h inp i < 0)%R) ->
  exists calls, ray_cast t (history cb) [] input = Ok calls /\ NoDup (map fst calls) /\
    forall id, In id (map fst calls) <-> exists fb u f, m id = Some (fb, u, f) /\ touches (ray_p1 input) (ray_p2 input) (ray_max input) fb.
Proof. exact @c08_all. Qed.
Print Assumptions C08_ray_cast_exact.
Example C08_ray_cast_ex : exists (t : tree R nat) m i j, reach (fun _ => True) t m /\ all_boxes box_valid m /\ i <> j /\
  (exists fb u f, m i = Some (fb, u, f) /\ touches (V2 0 0)%R (V2 10 10)%R 1%R fb) /\
  (exists fb u f, m j = Some (fb, u, f) /\ ~ touches (V2 0 0)%R (V2 10 10)%R 1%R fb).
Proof. exact ex_ray. Qed.

(** ** C09 *)
Theorem C09_rebuild_keeps_proxies : forall (T : Type) (NT : Num T) (U : Type) (t t' : tree T U) (m : pmap),
  reach (fun _ => True) t m -> rebuild_bottom_up t = Ok t' ->
  well_formed any_box t' (live m) /\
  forall id, live m id -> get_fat_aabb t' id = get_fat_aabb t id /\ get_user_data t' id = get_user_data t id /\ was_moved t' id = was_moved t id.
Proof. exact @c09_rebuild. Qed.
Print Assumptions C09_rebuild_keeps_proxies.
Theorem C09_shift_moves_boxes : forall (T : Type) (NT : Num T) (U : Type) (t : tree T U) (m : pmap) o,
  reach (fun _ => True) t m ->
  well_formed any_box (shift_origin t o) (live m) /\
  forall id b, live m id -> get_fat_aabb t id = Ok b ->
    get_fat_aabb (shift_origin t o) id = Ok (AABB (vsub (lo b) o) (vsub (hi b) o)) /\
    get_user_data (shift_origin t o) id = get_user_data t id /\ was_moved (shift_origin t o) id = was_moved t id.
Proof. exact @c09_shift. Qed.
Print Assumptions C09_shift_moves_boxes.
(* rebuild returns if there is a proxy and no coordinate is beyond 2^124 *)
Theorem C09_rebuild_returns_partial : forall (T : Type) (NT : Num T) (NO : NumOrd T) (U : Type) (t : tree T U) (m : pmap),
  reach vec_fin t m -> all_boxes box_in_range m -> (exists id, live m id) -> exists t', rebuild_bottom_up t = Ok t'.
Proof. exact @c09_total. Qed.
Print Assumptions C09_rebuild_returns_partial.
(* the two exceptions are real: the empty tree, and boxes whose perimeter is not below f32::MAX *)
Theorem C09_rebuild_refuted :
  (exists (t : tree f32 nat) m, reach vec_fin t m /\ (forall id, m id = None) /\ rebuild_bottom_up t = Panic) /\
  (exists (t : tree f32 nat) m, reach vec_fin t m /\ all_boxes box_ok m /\ live m 0 /\ rebuild_bottom_up t = Panic).
Proof. exact c09_refuted. Qed.
Print Assumptions C09_rebuild_refuted.
Example C09_rebuild_ex : reach vec_fin ex_tree ex_map /\ all_boxes box_in_range ex_map /\ live ex_map 5.
Proof. exact (conj ex_reach (conj ex_range (proj1 ex_live))). Qed.

(** ** C10 *)
(* ids beyond the pool are rejected; what is missing are the ids of the pool that are not live *)
Theorem C10_id_range_partial : forall (T : Type) (NT : Num T) (U : Type) (t : tree T U) (m : pmap) id,
  reach (fun _ => True) t m -> t_cap t <= id ->
  destroy_proxy t id = Panic /\ (forall b d, move_proxy t id b d = Panic) /\ get_user_data t id = Panic /\ get_fat_aabb t id = Panic.
Proof. exact @c10_range. Qed.
Print Assumptions C10_id_range_partial.
Example C10_id_range_ex : reach (fun _ => True) ex_tree ex_map /\ t_cap ex_tree = 32 /\ destroy_proxy ex_tree 32 = Panic.
Proof. split; [exact ex_reach_any|]. vm_compute. auto. Qed.
(* destroying a proxy twice returns normally and leaves a broken tree; its old user data is still handed out *)
Theorem C10_stale_id_refuted : exists (t t' : tree f32 nat) m id,
  reach vec_fin t m /\ m id = None /\ get_user_data t id = Ok (Some 100) /\
  destroy_proxy t id = Ok t' /\ ~ (exists P, well_formed any_box t' P) /\ validate t' = Panic.
Proof. exact c10_refuted. Qed.
Print Assumptions C10_stale_id_refuted.

(** ** C11 *)
(* a tree with at least one proxy; the empty tree is the exception below *)
Theorem C11_validate_accepts_partial : forall (T : Type) (NT : Num T) (NO : NumOrd T) (U : Type) (t : tree T U) (m : pmap),
  reach vec_fin t m -> all_boxes box_ok m -> (exists id, live m id) -> validate t = Ok tt.
Proof. exact @c11. Qed.
Print Assumptions C11_validate_accepts_partial.
Example C11_validate_accepts_ex : reach vec_fin ex_tree ex_map /\ all_boxes box_ok ex_map /\ live ex_map 5.
Proof. exact (conj ex_reach (conj ex_ok (proj1 ex_live))). Qed.
Theorem C11_validate_refuted :
  (exists t : tree f32 nat, tree_new = Ok t /\ validate t = Panic) /\
  (exists (t : tree f32 nat) m, reach vec_fin t m /\ validate t = Panic /\ live m 0).
Proof. exact c11_refuted. Qed.
Print Assumptions C11_validate_refuted.

(** ** C12 *)
(* nine proxies suffice for an internal node whose children's heights differ by two *)
Theorem C12_balance_refuted : exists (t : tree f32 nat) m i n l r nl nr,
  reach vec_fin t m /\ all_boxes box_ok m /\
  nth_error (t_nodes t) i = Some n /\ n_height n = 3%Z /\ n_child1 n = Some l /\ n_child2 n = Some r /\
  nth_error (t_nodes t) l = Some nl /\ nth_error (t_nodes t) r = Some nr /\
  n_height nl = 2%Z /\ n_height nr = 0%Z /\ get_max_balance t = Ok 2%Z.
Proof. exact c12_refuted. Qed.
Print Assumptions C12_balance_refuted.
