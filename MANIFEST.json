{
 "claims": [
  {
   "property": "C01",
   "status": "proved",
   "theorems": [
    "C01_stack_is_a_list"
   ],
   "note": ""
  },
  {
   "property": "C02",
   "status": "proved",
   "theorems": [
    "C02_double_list",
    "C02_single_list",
    "C02_double_remove_refuted"
   ],
   "note": "any legal sequence of push/remove/remove_all/clear; C02_double_remove_refuted (outside the property) shows that removing an element the double list does not hold is not noticed"
  },
  {
   "property": "C03",
   "status": "proved",
   "theorems": [
    "C03_tree_well_formed",
    "C03_calls_return",
    "C03_new_returns",
    "C03_boxes_are_unions"
   ],
   "note": "Pointer structure for any numbers (NaN included); unions of boxes for boxes without NaN. That rebuild_bottom_up returns is C09."
  },
  {
   "property": "C04",
   "status": "proved",
   "theorems": [
    "C04_accessors",
    "C04_handles_are_stable",
    "C03_calls_return"
   ],
   "note": "Freshness of a new id is the first part of C03_calls_return."
  },
  {
   "property": "C05",
   "status": "proved",
   "theorems": [
    "C05_created_box_contains",
    "C05_moved_box_contains"
   ],
   "note": "binary32"
  },
  {
   "property": "C06",
   "status": "proved",
   "theorems": [
    "C06_query_is_exact"
   ],
   "note": "for every ordered number type, instances binary32 and R"
  },
  {
   "property": "C07",
   "status": "proved",
   "theorems": [
    "C07_query_stops"
   ],
   "note": ""
  },
  {
   "property": "C08",
   "status": "proved",
   "theorems": [
    "C08_ray_cast_misses_nothing",
    "C08_ray_cast_exact"
   ],
   "note": "Over exact reals. The callback may return any clip fraction not larger than the current one."
  },
  {
   "property": "C09",
   "status": "partial",
   "theorems": [
    "C09_rebuild_keeps_proxies",
    "C09_shift_moves_boxes",
    "C09_rebuild_returns_partial",
    "C09_rebuild_refuted"
   ],
   "note": "Keeping the proxies is proved in full. Usability of rebuild_bottom_up is proved for non-empty trees with coordinates within 2^124; it is false for the empty tree and for boxes with a perimeter of at least f32::MAX (refuted)."
  },
  {
   "property": "C10",
   "status": "partial",
   "theorems": [
    "C10_id_range_partial",
    "C10_stale_id_refuted"
   ],
   "note": "False of the code: free_node keeps the leaf mark and the user data, so a stale id passes the assertion. Only ids beyond the pool are rejected."
  },
  {
   "property": "C100",
   "status": "partial",
   "theorems": [
    "C100_front",
    "C100_one_sided_refuted"
   ],
   "note": "Refuted in f32: a one-sided edge can push a polygon to the back although its centre is in front. Proved over the reals: not if the polygon reaches further in front than behind and the edge is the reference."
  },
  {
   "property": "C101",
   "status": "partial",
   "theorems": [
    "C101_distinct_partial",
    "C101_polygons",
    "C101_impulses",
    "C101_equal_refuted",
    "C101_impulses_refuted"
   ],
   "note": "Any numbers. Refuted in f32 for an edge against a box: both points have the same id and the second gets the impulses of the first. Proved: ids differ for polygons, for all other pairs, and for edges unless face 0, 1 or the last face of the polygon is the reference; with different ids the impulses stay with their points."
  },
  {
   "property": "C102",
   "status": "partial",
   "theorems": [
    "C102_overlap_partial",
    "C102_settles",
    "C102_sensor_partial",
    "C102_found_partial"
   ],
   "note": "Reals. Missing: distance searches that use up their 20 iterations, vertices closer together than epsilon."
  },
  {
   "property": "C103",
   "status": "proved",
   "theorems": [
    "C103_lone",
    "C103_bare",
    "C103_fall"
   ],
   "note": "Reals, with the island solver of the code inside the step. C103_lone: bodies with fixtures, discrete phase; C103_bare and C103_fall: bodies without fixtures, whole step and any number of steps. A body with no mass is not pulled (pull = 0)."
  },
  {
   "property": "C104",
   "status": "partial",
   "theorems": [
    "C104_returns_partial",
    "C104_other_calls",
    "C104_same",
    "C104_refuted"
   ],
   "note": "Refuted for contacts that touch as sensors and become solid asleep (b2_contact_solver_private.rs:49 panics). Otherwise proved with the condition workable on the contacts when the solver starts."
  },
  {
   "property": "C105",
   "status": "proved",
   "theorems": [
    "C105_points",
    "C105_code_points",
    "C105_returns",
    "C105_real",
    "C105_gentle_needed"
   ],
   "note": "C105_returns with warm starting needs that products and quotients of non-negative numbers are non-negative: true for the reals (C105_real), not for single precision, where it is proved for worlds without warm starting."
  },
  {
   "property": "C106",
   "status": "proved",
   "theorems": [
    "C106_island",
    "C106_impact",
    "C106_world",
    "C106_rest"
   ],
   "note": "That the inverse mass and inertia of the body are zero is a hypothesis, which C108 proves for all worlds of all programs; joints are any solvers that leave the body alone. C106_world is about what the solver hands back for an island, not yet about a whole step."
  },
  {
   "property": "C107",
   "status": "proved",
   "theorems": [
    "C107_impact_returns"
   ],
   "note": "About the island solver; that the world calls it with such islands is not part of this."
  },
  {
   "property": "C108",
   "status": "partial",
   "theorems": [
    "C108_massless",
    "C108_static_stays_refuted"
   ],
   "note": "The claim on masses is proved for all worlds of all programs. That static bodies stay where they are is refuted: one made with a velocity moves with it in a step while an awake body touches it."
  },
  {
   "property": "C109",
   "status": "proved",
   "theorems": [
    "C109_step",
    "C109_steps"
   ],
   "note": "For worlds without the continuous phase, in exact arithmetic; joints are any solvers that leave the body alone. That the velocity must be zero is needed: C108_static_stays_refuted."
  },
  {
   "property": "C11",
   "status": "partial",
   "theorems": [
    "C11_validate_accepts_partial",
    "C11_validate_refuted"
   ],
   "note": "Proved for trees with at least one proxy and boxes without NaN; the empty tree makes validate panic (refuted)."
  },
  {
   "property": "C110",
   "status": "proved",
   "theorems": [
    "C110_step"
   ],
   "note": "For worlds without the continuous phase, in exact arithmetic; joints are any solvers that leave the body alone. The limits on the velocity are those of the code (cut_v, cut_w in FlightSpec)."
  },
  {
   "property": "C111",
   "status": "proved",
   "theorems": [
    "C111_step"
   ],
   "note": "For any world value, reachable or not, and any arithmetic. Forces and the awake flag are not covered: the step clears forces and can wake bodies."
  },
  {
   "property": "C12",
   "status": "partial",
   "theorems": [
    "C12_balance_refuted"
   ],
   "note": "False of the code: the single rotation does not restore balance."
  },
  {
   "property": "C13",
   "status": "proved",
   "theorems": [
    "C13_every_new_pair",
    "C13_pair_counts",
    "C13_calls_return"
   ],
   "note": "any history of public calls, boxes without NaN; C13_pair_counts gives the exact number of reports of each pair"
  },
  {
   "property": "C14",
   "status": "proved",
   "theorems": [
    "C14_only_real_pairs",
    "C14_live_pairs_then_none",
    "C14_proxy_count"
   ],
   "note": ""
  },
  {
   "property": "C15",
   "status": "partial",
   "theorems": [
    "C15_once_partial",
    "C15_once_refuted"
   ],
   "note": "holds if no proxy is touched or buffered twice between two updates; refuted otherwise: a proxy re-inserted twice (or touched) makes the pair be reported twice"
  },
  {
   "property": "C16",
   "status": "proved",
   "theorems": [
    "C16_filter_symmetric",
    "C16_filter_group",
    "C16_filter_bits"
   ],
   "note": ""
  },
  {
   "property": "C17",
   "status": "proved",
   "theorems": [
    "C17_one_contact_per_pair"
   ],
   "note": "Every history of public calls, any number type, any routines and callbacks that return or panic."
  },
  {
   "property": "C18",
   "status": "proved",
   "theorems": [
    "C18_eligible_now",
    "C18_eligible_at_creation",
    "C18_checked_again",
    "C18_set_type"
   ],
   "note": "Every history of public calls. That refilter marks the contacts of a fixture is false of the code (C59)."
  },
  {
   "property": "C19",
   "status": "proved",
   "theorems": [
    "C19_contact_graph",
    "C19_destroy"
   ],
   "note": "Every history of public calls."
  },
  {
   "property": "C20",
   "status": "proved",
   "theorems": [
    "C20_begin_end"
   ],
   "note": "Every history of public calls of a world with a listener; the listener only edits the contact it is given."
  },
  {
   "property": "C21",
   "status": "proved",
   "theorems": [
    "C21_carried_over",
    "C21_sensors_are_not_solved"
   ],
   "note": "Carrying over: any world, any contact, listeners that leave the manifold alone. No solve callbacks for sensors: every step that starts with a complete previous step."
  },
  {
   "property": "C22",
   "status": "partial",
   "theorems": [
    "C22_pairs_without_routine",
    "C22_contact_creation_refuted",
    "C22_with_classes_partial"
   ],
   "note": "False of the code: a step panics when two edges of dynamic bodies overlap (refuted). The shape types without routine are exactly edge and chain among themselves; without such pairs steps of careful programs return."
  },
  {
   "property": "C23",
   "status": "proved",
   "theorems": [
    "C23_destroy_body",
    "C23_fixture_graph"
   ],
   "note": "Every history of public calls."
  },
  {
   "property": "C24",
   "status": "proved",
   "theorems": [
    "C24_joint_graph",
    "C24_destroy",
    "C24_no_contact"
   ],
   "note": "Every history of public calls."
  },
  {
   "property": "C25",
   "status": "partial",
   "theorems": [
    "C25_disable_partial",
    "C25_disable_again",
    "C25_enable_partial",
    "C25_enable_again_panics",
    "C25_idempotent_refuted"
   ],
   "note": "False of the code: enabling an enabled body that has a fixture always panics (refuted). The other three cases are proved."
  },
  {
   "property": "C26",
   "status": "proved",
   "theorems": [
    "C26_proxy_count",
    "C26_proxies_are_children"
   ],
   "note": "Every history of public calls."
  },
  {
   "property": "C27",
   "status": "partial",
   "theorems": [
    "C27_sleep",
    "C27_wake",
    "C27_static",
    "C27_push_ignored",
    "C27_push",
    "C27_velocity",
    "C27_asleep_at_rest",
    "C27_asleep_at_rest_refuted"
   ],
   "note": "Every call for any number type; the history theorem (a sleeping body is at rest) over exact reals, for bodies created at rest or awake. In f32 it is false: a velocity whose square underflows does not wake the body (refuted)."
  },
  {
   "property": "C28",
   "status": "partial",
   "theorems": [
    "C28_reset",
    "C28_reset_total",
    "C28_not_dynamic",
    "C28_set",
    "C28_positive_mass_refuted",
    "C28_reset_total_refuted"
   ],
   "note": "Exact reals, any list of fixtures. Refuted: a dynamic body without massive fixtures gets mass 0 (documented as 1), and in f32 the assertion on the centered inertia panics for a small disc far from the body origin."
  },
  {
   "property": "C29",
   "status": "proved",
   "theorems": [
    "C29_set_transform",
    "C29_synchronize_transform",
    "C29_advance",
    "C29_history"
   ],
   "note": "Exact reals."
  },
  {
   "property": "C30",
   "status": "proved",
   "theorems": [
    "C30_step_parts",
    "C30_islands_partition",
    "C30_calls_end",
    "C30_capacity"
   ],
   "note": "Every history of public calls; the capacity for every careful program (no missing contact class), any number of bodies."
  },
  {
   "property": "C31",
   "status": "partial",
   "theorems": [
    "C31_all_rested_partial",
    "C31_all_rested_real",
    "C31_timer_partial",
    "C31_timer_real",
    "C31_nan_refuted"
   ],
   "note": "Proved over the reals, and in single precision for bodies whose velocities and timers are numbers. False for NaN: a body with a NaN velocity is put to sleep (refuted). Scope: the sleep pass of the island solver."
  },
  {
   "property": "C32",
   "status": "proved",
   "theorems": [
    "C32_capped"
   ],
   "note": "Every step size."
  },
  {
   "property": "C33",
   "status": "partial",
   "theorems": [
    "C33_ends_partial",
    "C33_impact_islands_refuted",
    "C33_few_bodies_partial"
   ],
   "note": "False of the code: a bullet that hits 65 bodies panics (refuted). The phase always ends; with at most 64 bodies it returns."
  },
  {
   "property": "C34",
   "status": "partial",
   "theorems": [
    "C34_pushes",
    "C34_pushes_f32",
    "C34_returns",
    "C34_cone_partial",
    "C34_cone_refuted"
   ],
   "note": "Normal impulses: proved in full, single precision with NaN and infinities. Friction cone: proved when friction times impulse is a number; otherwise the friction impulse can become NaN (refuted)."
  },
  {
   "property": "C35",
   "status": "proved",
   "theorems": [
    "C35_linear",
    "C35_angular",
    "C35_immovable"
   ],
   "note": "The whole contact phase: initialisation, warm start and any number of iterations, both solvers."
  },
  {
   "property": "C36",
   "status": "proved",
   "theorems": [
    "C36_block",
    "C36_contact",
    "C36_ready",
    "C36_one_point"
   ],
   "note": "Also from the contact: constraints with the masses and the manifold of a contact have a positive definite matrix when the block solver is used."
  },
  {
   "property": "C37",
   "status": "proved",
   "theorems": [
    "C37_motors_f32",
    "C37_strength",
    "C37_returns"
   ],
   "note": "Single precision for scalar impulses (motors of revolute, prismatic, wheel joints; angular part of friction and motor joints); reals for the vector impulses of friction, motor and mouse joints, whose normalisation rounds. The bound must be a number and not negative."
  },
  {
   "property": "C38",
   "status": "proved",
   "theorems": [
    "C38_limits_f32",
    "C38_limits",
    "C38_limiting"
   ],
   "note": "Warm start and any number of iterations, any state. Limit impulses of a distance joint may be NaN but not negative; those of the others are not even NaN after an iteration."
  },
  {
   "property": "C39",
   "status": "proved",
   "theorems": [
    "C39_linear",
    "C39_angular"
   ],
   "note": "All joints of the statement together, any list of bodies."
  },
  {
   "property": "C40",
   "status": "proved",
   "theorems": [
    "C40_held",
    "C40_last",
    "C40_invertible"
   ],
   "note": "Also wheel (perpendicular) and pulley joints; with the masses of real bodies the effective mass is invertible."
  },
  {
   "property": "C41",
   "status": "partial",
   "theorems": [
    "C41_polygon_ray_cast_partial",
    "C41_polygon_ray_cast_refuted",
    "C41_polygon_ray_cast_exact_refuted"
   ],
   "note": "Exact reals, any sized polygon given by its edge half planes: exact for entry fractions above 0.032. Refuted (f32 and reals) below: the code starts the search at 0.032 instead of 0, so entries at smaller fractions are missed."
  },
  {
   "property": "C42",
   "status": "partial",
   "theorems": [
    "C42_circle_ray_cast_partial",
    "C42_edge_ray_cast_partial",
    "C42_edge_ray_cast_complete",
    "C42_short_ray_refuted",
    "C42_start_on_edge_refuted"
   ],
   "note": "Exact reals. Missing: rays with squared length below B2_EPSILON and circles of radius below B2_EPSILON (short rays refuted in f32), edges shorter than B2_EPSILON, facing normal when the ray starts on the line of the edge (refuted in f32)."
  },
  {
   "property": "C43",
   "status": "proved",
   "theorems": [
    "C43_circle_box",
    "C43_edge_box",
    "C43_polygon_box",
    "C43_chain_box"
   ],
   "note": "Exact reals; polygon = convex hull of the used vertices plus radius."
  },
  {
   "property": "C44",
   "status": "proved",
   "theorems": [
    "C44_circle_test_point",
    "C44_polygon_test_point",
    "C44_box_test_point"
   ],
   "note": "Exact reals; rotations are unit."
  },
  {
   "property": "C45",
   "status": "proved",
   "theorems": [
    "C45_circles_touch",
    "C45_circles_symmetric"
   ],
   "note": "Exact reals, non-negative radii."
  },
  {
   "property": "C46",
   "status": "proved",
   "theorems": [
    "C46_clip_is_exact",
    "C46_clip_keeps_inside",
    "C46_clip_output"
   ],
   "note": "Over exact reals."
  },
  {
   "property": "C47",
   "status": "partial",
   "theorems": [
    "C47_box_ray_cast_partial",
    "C47_nearly_parallel_refuted"
   ],
   "note": "Over exact reals. Exact when each component of the direction is 0 or at least B2_EPSILON; false of the code for smaller non-zero components (refuted)."
  },
  {
   "property": "C48",
   "status": "proved",
   "theorems": [
    "C48_solve2",
    "C48_solve3"
   ],
   "note": "Reals, every simplex, degenerate ones included."
  },
  {
   "property": "C49",
   "status": "partial",
   "theorems": [
    "C49_returns",
    "C49_distance",
    "C49_witness_partial",
    "C49_witness_refuted"
   ],
   "note": "Returning: any numbers. Distance: reals. Witness points: proved when fewer than 20 iterations are used; false at the limit, where a vertex added after the last solve is read with a weight that was not computed for it (refuted with 21 vertices)."
  },
  {
   "property": "C50",
   "status": "partial",
   "theorems": [
    "C50_returns",
    "C50_touching",
    "C50_range",
    "C50_code",
    "C50_f32_returns_refuted",
    "C50_f32_range_refuted"
   ],
   "note": "Proved in exact real arithmetic. In single precision: returning and touching hold for any functions that return; the code panics on coordinates whose products overflow, and rounding can take the time beyond t_max (both refuted)."
  },
  {
   "property": "C51",
   "status": "proved",
   "theorems": [
    "C51_chain_children",
    "C51_loop_children",
    "C51_child_access"
   ],
   "note": "For every number type; consecutive vertices more than B2_LINEAR_SLOP apart, which the code asserts."
  },
  {
   "property": "C52",
   "status": "proved",
   "theorems": [
    "C52_circle_mass",
    "C52_box_mass"
   ],
   "note": "Exact reals; box area above B2_EPSILON, which the code asserts."
  },
  {
   "property": "C53",
   "status": "proved",
   "theorems": [
    "C53_transform_algebra",
    "C53_angles_give_rotations",
    "C53_solve22",
    "C53_solve33",
    "C53_solve22_of_33",
    "C53_sweep_end_poses",
    "C53_sweep_advance",
    "C53_sweep_normalize"
   ],
   "note": "Over exact reals."
  },
  {
   "property": "C54",
   "status": "partial",
   "theorems": [
    "C54_clamp_partial",
    "C54_clamp_vec2_refuted"
   ],
   "note": "b2_clamp is proved for binary32 and R; b2_clamp_vec2 is false of the code (refuted)."
  },
  {
   "property": "C55",
   "status": "proved",
   "theorems": [
    "C55_mixing"
   ],
   "note": "Over exact reals."
  },
  {
   "property": "C56",
   "status": "partial",
   "theorems": [
    "C56_is_power_of_two",
    "C56_next_power_of_two_partial",
    "C56_next_power_of_two_refuted"
   ],
   "note": "b2_next_power_of_two is right below 2^31 and overflows from there on (refuted)."
  },
  {
   "property": "C57",
   "status": "proved",
   "theorems": [
    "C57_point_states"
   ],
   "note": ""
  },
  {
   "property": "C58",
   "status": "partial",
   "theorems": [
    "C58_same_joints_refuted",
    "C58_load_refuted",
    "C58_velocity_refuted",
    "C58_saves",
    "C58_bodies_partial",
    "C58_bodies_onto",
    "C58_bodies_one_to_one",
    "C58_velocity_partial",
    "C58_joints_partial",
    "C58_joints_onto",
    "C58_joints_move",
    "C58_joints_all_moved",
    "C58_gears_move",
    "C58_load_returns_partial",
    "C58_loaded_reachable",
    "C58_resave",
    "C58_twice"
   ],
   "note": "False of the code: a loaded joint is between the bodies at the same places of the reversed list, so never between the images of its bodies in order (C58_joints_all_moved, any world). Some saved gears cannot be loaded, and spinning bodies change their velocity. Proved: bodies and fixtures are copied one to one, what becomes of each joint and gear, which files load, and that doing it twice gives the first file back."
  },
  {
   "property": "C59",
   "status": "partial",
   "theorems": [
    "C59_refilter_partial",
    "C59_refilter_panics",
    "C59_refilter_refuted"
   ],
   "note": "False of the code: giving a filter to a fixture with a contact always panics (refuted)."
  },
  {
   "property": "C60",
   "status": "proved",
   "theorems": [
    "C60_bounded",
    "C60_point_untouched",
    "C60_untouched"
   ],
   "note": "Reals, every manifold type."
  },
  {
   "property": "C61",
   "status": "partial",
   "theorems": [
    "C61_prismatic_refuted",
    "C61_wheel_refuted",
    "C61_prismatic_leaves_refuted",
    "C61_wheel_leaves_refuted",
    "C61_converged_partial",
    "C61_fixed_partial",
    "C61_drives_partial",
    "C61_range_converged",
    "C61_range_fixed",
    "C61_range_drives"
   ],
   "note": "False for L other than 0: the error used is the translation itself, not its difference to L (refuted for both joints). The partial theorems say what it does instead, which is right for L = 0."
  },
  {
   "property": "C62",
   "status": "proved",
   "theorems": [
    "C62_careful_returns",
    "C62_new_returns",
    "C62_never_left_locked",
    "C62_single_precision"
   ],
   "note": "The collision and solver routines and the callbacks are any functions that return on contacts of live bodies and keep room for two manifold points."
  },
  {
   "property": "C63",
   "status": "proved",
   "theorems": [
    "C63_minimal"
   ],
   "note": "Reals, fewer than 20 iterations, differences of vertices equal or at least epsilon apart."
  },
  {
   "property": "C64",
   "status": "proved",
   "theorems": [
    "C64_separated",
    "C64_separated_any",
    "C64_overlapped"
   ],
   "note": "Separated: on an axis of the separation function, in exact real arithmetic."
  },
  {
   "property": "C65",
   "status": "proved",
   "theorems": [
    "C65_returns",
    "C65_range",
    "C65_clear",
    "C65_meets",
    "C65_miss"
   ],
   "note": "Reals; returning for any numbers."
  },
  {
   "property": "C66",
   "status": "proved",
   "theorems": [
    "C66_outcome",
    "C66_hull",
    "C66_boxes",
    "C66_validates",
    "C66_one_region"
   ],
   "note": "Reals. The welding compares with the points kept so far, so which points survive depends on the order; thinned says what holds of any order."
  },
  {
   "property": "C67",
   "status": "proved",
   "theorems": [
    "C67_polygon_mass",
    "C67_small_panics",
    "C67_signs"
   ],
   "note": "Reals. Generalises the boxes of C52 to every polygon."
  },
  {
   "property": "C68",
   "status": "proved",
   "theorems": [
    "C68_touch",
    "C68_nearest",
    "C68_deep",
    "C68_point"
   ],
   "note": "Reals, proper polygons (what polygon_set and the boxes make, C66)."
  },
  {
   "property": "C69",
   "status": "proved",
   "theorems": [
    "C69_touch",
    "C69_manifold",
    "C69_loop"
   ],
   "note": "Reals."
  },
  {
   "property": "C70",
   "status": "partial",
   "theorems": [
    "C70_returns",
    "C70_apart_far",
    "C70_points",
    "C70_missed_partial",
    "C70_overlap_refuted",
    "C70_edges_long"
   ],
   "note": "Reals for proper polygons with edges of at least epsilon. That overlapping polygons get a contact is false of the code (f32 witness: a box and a polygon with a slightly bent underside share a point and get no contact); C70_missed_partial says what must hold when no point is made."
  },
  {
   "property": "C71",
   "status": "partial",
   "theorems": [
    "C71_covered_partial",
    "C71_static_refuted"
   ],
   "note": "Reals. Partial: static bodies are made without velocity (false otherwise, f32 witness), shapes have proper boxes, no kinematic body in a step with continuous physics, and the solver leaves static bodies at rest in place."
  },
  {
   "property": "C72",
   "status": "proved",
   "theorems": [
    "C72_query"
   ],
   "note": "Reals, worlds as in C71."
  },
  {
   "property": "C73",
   "status": "proved",
   "theorems": [
    "C73_clip",
    "C73_all",
    "C73_nearest"
   ],
   "note": "Reals, worlds as in C71, shapes that a ray cast treats exactly (circles of radius at least epsilon, proper polygons, edges of at least epsilon)."
  },
  {
   "property": "C74",
   "status": "partial",
   "theorems": [
    "C74_anchors",
    "C74_satisfied",
    "C74_gear_of_other_body_refuted"
   ],
   "note": "Reals, all ten kinds. Partial: a gear joint on other bodies than those of its two joints is not satisfied (the code keeps the bodies of the definition; witness)."
  },
  {
   "property": "C75",
   "status": "proved",
   "theorems": [
    "C75_translation_speed",
    "C75_angle_speed",
    "C75_wheel_angle_speed",
    "C75_now"
   ],
   "note": "Reals."
  },
  {
   "property": "C76",
   "status": "partial",
   "theorems": [
    "C76_reactions",
    "C76_mouse",
    "C76_pulley_refuted",
    "C76_gear_refuted",
    "C78_without_warm_starting_refuted"
   ],
   "note": "Reals. Proved for revolute, prismatic, distance (with warm starting), weld, wheel, friction, motor and mouse joints; false for pulley and gear joints and for a distance joint without warm starting (witnesses)."
  },
  {
   "property": "C77",
   "status": "proved",
   "theorems": [
    "C77_distance",
    "C77_wheel",
    "C77_weld",
    "C77_mouse",
    "C77_stiffness"
   ],
   "note": "Reals. The wheel joint needs an axis of length 1."
  },
  {
   "property": "C78",
   "status": "partial",
   "theorems": [
    "C78_rope",
    "C78_without_warm_starting_refuted"
   ],
   "note": "Reals, with warm starting; without it the joint pushes (witness)."
  },
  {
   "property": "C79",
   "status": "partial",
   "theorems": [
    "C79_lengths",
    "C79_revolute_limits",
    "C79_prismatic_limits",
    "C79_wheel_limits",
    "C79_prismatic_new",
    "C79_new_limits_refuted"
   ],
   "note": "Reals. new of revolute and wheel joints takes limits out of order (witness)."
  },
  {
   "property": "C80",
   "status": "proved",
   "theorems": [
    "C80_velocities",
    "C80_positions"
   ],
   "note": "Reals, all ten kinds."
  },
  {
   "property": "C81",
   "status": "proved",
   "theorems": [
    "C81_rope_runs",
    "C81_three_vertices"
   ],
   "note": "Any kind of numbers."
  },
  {
   "property": "C82",
   "status": "partial",
   "theorems": [
    "C82_fixed_follow",
    "C82_fixed_f32_refuted"
   ],
   "note": "Reals. In f32 three neighbouring vertices without mass become NaN (witness, default tuning)."
  },
  {
   "property": "C83",
   "status": "partial",
   "theorems": [
    "C83_momentum",
    "C83_heights",
    "C83_folded_refuted"
   ],
   "note": "Reals, vertices apart from the next two; the height model pulls a folded rope to the origin (witness)."
  },
  {
   "property": "C84",
   "status": "proved",
   "theorems": [
    "C84_link_pass",
    "C84_span_pass",
    "C84_last_link"
   ],
   "note": "Reals."
  },
  {
   "property": "C85",
   "status": "proved",
   "theorems": [
    "C85_angle",
    "C85_angle_range",
    "C85_angle_pass",
    "C85_angle_spring",
    "C85_height_pass",
    "C85_triangle_pass"
   ],
   "note": "Reals; isometric and fixed-mass tuning off for the angle models."
  },
  {
   "property": "C86",
   "status": "partial",
   "theorems": [
    "C86_stretch_spring",
    "C86_angle_spring",
    "C86_constants",
    "C86_bend_constants",
    "C86_default_hertz_f32_refuted"
   ],
   "note": "Reals; with the default stretch_hertz XPBD stretching gives NaN in f32 (witness)."
  },
  {
   "property": "C87",
   "status": "partial",
   "theorems": [
    "C87_rest",
    "C87_rest_created",
    "C87_triangle_refuted"
   ],
   "note": "Reals, all but the triangle model, which moves straight ropes with unequal links (witness)."
  },
  {
   "property": "C88",
   "status": "partial",
   "theorems": [
    "C88_shift",
    "C88_create_forgets",
    "C88_stale_refuted"
   ],
   "note": "Reals. Vertices apart; otherwise create keeps heights of the old rope (witness)."
  },
  {
   "property": "C89",
   "status": "partial",
   "theorems": [
    "C89_pairs_partial",
    "C89_waiting_partial",
    "C89_joint_refuted",
    "C89_single_refuted"
   ],
   "note": "Reals, default contact filter, programs that do not destroy a joint with collide_connected = false (except with its body): destroying one loses the contact (witness). In f32 a shift of the origin breaks it (witness)."
  },
  {
   "property": "C90",
   "status": "partial",
   "theorems": [
    "C90_boxes_partial"
   ],
   "note": "Reals; the programs of C71 and of C89."
  },
  {
   "property": "C91",
   "status": "partial",
   "theorems": [
    "C91_rest",
    "C91_refilter_refuted"
   ],
   "note": "Any numbers. A contact flagged for filtering can wake bodies (witness), so worlds without such flags."
  },
  {
   "property": "C92",
   "status": "proved",
   "theorems": [
    "C92_fresh",
    "C92_told"
   ],
   "note": "Any numbers."
  },
  {
   "property": "C93",
   "status": "partial",
   "theorems": [
    "C93_touch_partial"
   ],
   "note": "Reals. Left out: degenerate shapes, and the places where the narrow phase fails (C70, C99)."
  },
  {
   "property": "C94",
   "status": "partial",
   "theorems": [
    "C94_none_missed_partial"
   ],
   "note": "Reals; the shapes of C93, the programs of C71 and C89."
  },
  {
   "property": "C95",
   "status": "proved",
   "theorems": [
    "C95_class"
   ],
   "note": "Any numbers."
  },
  {
   "property": "C96",
   "status": "proved",
   "theorems": [
    "C96_two"
   ],
   "note": "Any numbers."
  },
  {
   "property": "C97",
   "status": "proved",
   "theorems": [
    "C97_returns",
    "C97_apart_far",
    "C97_seen"
   ],
   "note": "Reals."
  },
  {
   "property": "C98",
   "status": "proved",
   "theorems": [
    "C98_points"
   ],
   "note": "Reals."
  },
  {
   "property": "C99",
   "status": "partial",
   "theorems": [
    "C99_missed_partial",
    "C99_overlap_refuted"
   ],
   "note": "Reals; refuted in f32: an edge inside a polygon can get no point. Proved is a list of the cases where this can happen."
  }
 ]
}