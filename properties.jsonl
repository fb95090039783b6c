{"id": "C01", "title": "Growable stack is a LIFO sequence", "statement": "A B2growableStack<T,N> behaves exactly like an unbounded last-in-first-out sequence: after any legal sequence of push/pop the next pop returns the most recent element not yet popped, get_count is the number of pushed minus popped elements, the move from the inline array to the heap loses, duplicates or reorders nothing, and pop panics only when the sequence is empty.", "quantifier": "every element type, every inline capacity N (including 0), every finite sequence of push/pop/get_count calls", "why_tests_cant": "The spill from array to heap happens at one size per N and its effect is only seen by later pops; no finite set of sequences covers all N, sizes and interleavings.", "anchors": ["src/b2_growable_stack.rs: B2growableStack::new/push/pop/get_count"]}
{"id": "C02", "title": "Intrusive lists behave like sequences", "statement": "The doubly linked intrusive list of the world/body lists keeps head, next and prev links mutually consistent: iterating from the head yields exactly the elements pushed and not yet removed, newest first; removing an element that is in the list removes exactly that element and keeps the order of the others, and the backward links are the reverse of the forward ones. The singly linked fixture list has the same behaviour and panics when asked to remove an element it does not hold.", "quantifier": "every history of push_front/remove over any finite set of nodes", "why_tests_cant": "Link corruption only shows up for particular removal positions after particular histories; tests sample a few orders.", "anchors": ["src/b2rs_double_linked_list.rs: DoubleLinkedList::push_front/remove/iter", "src/b2rs_linked_list.rs: LinkedList::push_front/remove/iter"]}
{"id": "C03", "title": "Dynamic tree stays structurally valid", "statement": "Starting from a new tree, after any sequence of create_proxy / move_proxy / destroy_proxy / clear_moved on live proxies (and rebuild_bottom_up/shift_origin) no call panics or loops forever, and the tree is a well-formed binary tree: each internal node has two children that point back to it, the root has no parent, stored heights are the true heights, each internal box is the union of its children's boxes, allocated nodes plus free-list nodes make up the pool exactly once each, and the leaves are exactly the live proxies.", "quantifier": "every finite history of tree operations, every box and displacement value (any f32 bit pattern, NaN included, for the pointer structure)", "why_tests_cant": "Rotations, pool growth and node recycling interact; a broken link or stale height can need a very specific insertion/removal order to appear.", "anchors": ["src/private/collision/b2_dynamic_tree.rs: allocate_node, free_node, create_proxy, destroy_proxy, move_proxy, insert_leaf, remove_leaf, balance", "src/b2_dynamic_tree.rs: B2dynamicTree"]}
{"id": "C04", "title": "Proxy ids are stable handles", "statement": "create_proxy returns an id that is not the id of any live proxy; until destroy_proxy(id) is called, get_user_data(id) returns the value given at creation and get_fat_aabb(id) changes only through move_proxy(id)/shift_origin, whatever happens to other proxies (including pool growth, rotations and node recycling).", "quantifier": "every history of tree operations and every pair of live proxies", "why_tests_cant": "Aliasing between a recycled internal node and a live leaf depends on the free-list order over the whole history.", "anchors": ["src/b2_dynamic_tree.rs: create_proxy, get_user_data, get_fat_aabb", "src/private/collision/b2_dynamic_tree.rs: allocate_node, free_node"]}
{"id": "C05", "title": "Stored fat box always contains the object's box", "statement": "After create_proxy(aabb), and after move_proxy(aabb, d) whether it returned true or false, the stored fat AABB contains aabb, in IEEE single precision and not only in exact arithmetic.", "quantifier": "every finite f32 box, every non-NaN displacement, every reachable tree", "why_tests_cant": "Rounding, overflow to infinity and signed zero corner cases are spread over 2^192 inputs.", "anchors": ["src/private/collision/b2_dynamic_tree.rs: create_proxy, move_proxy", "src/b2_collision.rs: B2AABB::contains"]}
{"id": "C06", "title": "Box query reports exactly the overlapping proxies", "statement": "query(callback, aabb) with a callback that always returns true calls the callback exactly once for each live proxy whose fat AABB overlaps aabb and for no other id; it terminates and does not panic; the result does not depend on the tree shape.", "quantifier": "every reachable tree whose boxes are free of NaN, every query box (f32)", "why_tests_cant": "Completeness is a statement about all trees and all boxes; a wrongly shrunk ancestor box hides a leaf only for particular queries.", "anchors": ["src/b2_dynamic_tree.rs: inline::query", "src/b2_collision.rs: b2_test_overlap"]}
{"id": "C07", "title": "Query stops when the callback says so", "statement": "If the callback returns false the query makes no further callback, and the ids reported up to then are a prefix of the ids the unrestricted query reports.", "quantifier": "every reachable tree, every query box, every (stateful) callback", "why_tests_cant": "The callback is an arbitrary client function.", "anchors": ["src/b2_dynamic_tree.rs: inline::query"]}
{"id": "C08", "title": "Tree ray cast misses no proxy", "statement": "With a callback that does not clip the ray (returns a negative value), ray_cast calls the callback exactly once for every live proxy whose fat AABB is touched by the segment p1..p1+max_fraction*(p2-p1); with a clipping callback it still reports every proxy touched by the finally clipped segment; returning 0 stops the cast.", "quantifier": "every reachable tree, every ray with p1 != p2 and max_fraction >= 0, every clipping callback (exact real arithmetic)", "why_tests_cant": "Separating-axis culling is applied at each ancestor; a missed leaf needs a particular box layout and ray.", "anchors": ["src/b2_dynamic_tree.rs: inline::ray_cast"]}
{"id": "C09", "title": "Rebuild and origin shift keep the proxies", "statement": "rebuild_bottom_up leaves the set of live proxies, their boxes, user data and moved flags unchanged and produces a well-formed tree; shift_origin(o) subtracts o from each stored box and changes nothing else. rebuild_bottom_up is usable on every tree, including the empty one.", "quantifier": "every reachable tree, every origin", "why_tests_cant": "All tree sizes and all box layouts (the greedy pairing compares every pair).", "anchors": ["src/private/collision/b2_dynamic_tree.rs: rebuild_bottom_up, shift_origin"]}
{"id": "C10", "title": "Invalid proxy ids are rejected", "statement": "destroy_proxy 'asserts if the id is invalid' and get_user_data yields no data for an invalid id: in particular using an id after destroy_proxy(id) panics (or reports none) instead of silently corrupting the tree.", "quantifier": "every reachable tree and every id that is not live", "why_tests_cant": "Needs use-after-destroy histories that ordinary tests never write.", "anchors": ["src/b2_dynamic_tree.rs: destroy_proxy, get_user_data doc comments", "src/private/collision/b2_dynamic_tree.rs: destroy_proxy, free_node"]}
{"id": "C11", "title": "validate() accepts every tree built by the API", "statement": "B2dynamicTree::validate never panics on a tree produced by the public operations.", "quantifier": "every reachable tree including the empty one", "why_tests_cant": "It is a self-check; whether it can ever fire wrongly is a statement over all histories.", "anchors": ["src/private/collision/b2_dynamic_tree.rs: validate, validate_structure, validate_metrics, compute_height"]}
{"id": "C12", "title": "Tree height is balanced", "statement": "The tree is kept balanced: at every internal node the heights of the two children differ by at most one, so that query cost is logarithmic.", "quantifier": "every reachable tree", "why_tests_cant": "Balance after one rotation per ancestor depends on the insertion descent, i.e. on all box geometries.", "anchors": ["src/private/collision/b2_dynamic_tree.rs: balance, get_max_balance"]}
{"id": "C13", "title": "Broad phase reports every new potential pair", "statement": "Between two update_pairs calls, if a proxy was created, touched, or moved so that move_proxy re-inserted it, then update_pairs reports the pair (that proxy, q) for every other live proxy q whose fat AABB overlaps its fat AABB, with the user data of both proxies.", "quantifier": "every history of create/move/touch/destroy/update calls, f32 boxes without NaN", "why_tests_cant": "The move buffer, the moved flags and the id-order rule that suppresses duplicates interact; a lost pair means bodies tunnel through each other only for particular histories.", "anchors": ["src/private/collision/b2_broad_phase.rs: update_pairs, buffer_move, un_buffer_move, query_callback", "src/b2_broad_phase.rs: B2broadPhase"]}
{"id": "C14", "title": "Broad phase reports only real, live, distinct pairs", "statement": "Each pair reported by update_pairs consists of two distinct live proxies with overlapping fat AABBs at least one of which was created, moved or touched since the last call; destroyed proxies are never reported; a second update_pairs without changes reports nothing; get_proxy_count equals created minus destroyed.", "quantifier": "every broad-phase history", "why_tests_cant": "Stale buffer entries after destroy + id reuse need particular interleavings.", "anchors": ["src/private/collision/b2_broad_phase.rs: update_pairs, un_buffer_move, destroy_proxy", "src/b2_broad_phase.rs"]}
{"id": "C15", "title": "Each pair is reported at most once per update", "statement": "One update_pairs call invokes the pair callback at most once for each unordered pair of proxies.", "quantifier": "every broad-phase history", "why_tests_cant": "Depends on how many times and by which call each proxy was buffered.", "anchors": ["src/private/collision/b2_broad_phase.rs: update_pairs, query_callback", "src/b2_broad_phase.rs: touch_proxy"]}
{"id": "C16", "title": "Default contact filter is symmetric and follows the group rule", "statement": "should_collide(a,b) = should_collide(b,a); equal non-zero group indices decide alone (positive: always, negative: never); otherwise it is true exactly when each side's mask contains a common bit with the other's category.", "quantifier": "all 16-bit categories and masks and all group indices", "why_tests_cant": "2^96 filter pairs.", "anchors": ["src/private/dynamics/b2_world_callbacks.rs / src/b2_world_callbacks.rs: B2contactFilter default should_collide"]}
{"id": "C17", "title": "At most one contact per shape pair", "statement": "At any time there is at most one contact for an unordered pair ((fixture a, child i), (fixture b, child j)), even if the broad phase reports the pair repeatedly or in either order.", "quantifier": "every history of contact-manager calls (pairs reported, collide, destroy)", "why_tests_cant": "The duplicate search walks one body's list only; correctness depends on the list invariants over the history.", "anchors": ["src/private/dynamics/b2_contact_manager.rs: add_pair, find_new_contacts"]}
{"id": "C18", "title": "Contacts exist only between eligible fixtures", "statement": "Every contact in the world joins two fixtures of different bodies, at least one of which is dynamic at creation time, whose bodies are not linked by a joint with collide_connected=false at creation, and which the filter admitted at creation; after set_type/refilter/joint creation the next collide re-checks and removes contacts that are no longer allowed.", "quantifier": "every history of contact-manager events", "why_tests_cant": "Eligibility is decided at several places and must be preserved by all of them.", "anchors": ["src/private/dynamics/b2_contact_manager.rs: add_pair, collide", "src/private/dynamics/b2_body.rs: should_collide"]}
{"id": "C19", "title": "Contact graph is consistent", "statement": "The world contact list, get_contact_count, and the per-body contact lists always describe the same set of contacts: each contact is in the world list once, in exactly the contact lists of its two bodies once, and the count is the length of the world list; destroying a contact removes it from all three.", "quantifier": "every history of contact creation/destruction, body destruction, fixture destruction", "why_tests_cant": "Aliasing between several intrusive lists over unbounded histories.", "anchors": ["src/private/dynamics/b2_contact_manager.rs: add_pair, destroy", "src/private/dynamics/b2_world.rs: destroy_body"]}
{"id": "C20", "title": "Begin/end contact events alternate", "statement": "For every contact the listener sees begin_contact and end_contact strictly alternating, starting with begin; end_contact is delivered if a touching contact is destroyed; is_touching equals 'a begin without matching end has been delivered'.", "quantifier": "every history of updates and destruction of a contact, any narrow-phase results", "why_tests_cant": "Histories are unbounded and the destruction path is separate from the update path.", "anchors": ["src/private/dynamics/b2_contact.rs: update, b2_contact_destroy", "src/private/dynamics/b2_contact_manager.rs: destroy"]}
{"id": "C21", "title": "Contact impulses are carried over by feature id", "statement": "After a contact update every manifold point whose id existed in the previous manifold carries over that point's normal and tangent impulse, and every point with a new id starts with zero impulses; a sensor contact has no manifold points and no solve callbacks.", "quantifier": "all pairs of old/new manifolds", "why_tests_cant": "All id combinations.", "anchors": ["src/private/dynamics/b2_contact.rs: b2_contact_update"]}
{"id": "C22", "title": "Every pair of shapes can be given a contact", "statement": "When two fixtures that pass the filter overlap in the broad phase, contact creation does not panic, whatever their shape types are (pairs without a collision routine are silently ignored as in C++ Box2D).", "quantifier": "all pairs of shape types", "why_tests_cant": "Finite, but the panic is in a path tests do not take; the claim is about every world.", "anchors": ["src/private/dynamics/b2_contact.rs: b2_contact_create", "src/b2_contact_registers.rs", "src/private/dynamics/b2_contact_manager.rs: add_pair"]}
{"id": "C23", "title": "Destroying a body removes everything attached to it", "statement": "destroy_body removes the body from the world together with all its fixtures, proxies, contacts and joints: afterwards no other body's joint or contact list, the world lists, or the broad phase refers to it, and the body/joint/contact/proxy counts drop by exactly the number of removed objects. The order of all surviving objects is unchanged.", "quantifier": "every reachable world graph and every body in it", "why_tests_cant": "The graph is arbitrary (multi-edges, self sharing).", "anchors": ["src/private/dynamics/b2_world.rs: destroy_body, destroy_joint, create_joint", "src/private/dynamics/b2_body.rs"]}
{"id": "C24", "title": "Joint graph is consistent", "statement": "Each joint of the world is in exactly the joint lists of its two bodies, get_joint_count is the length of the world's joint list, and destroying a joint removes it everywhere; bodies connected by a joint that forbids collision get no contact.", "quantifier": "every history of create/destroy body/joint", "why_tests_cant": "Unbounded histories over shared lists.", "anchors": ["src/private/dynamics/b2_world.rs: create_joint, destroy_joint", "src/private/dynamics/b2_body.rs: should_collide"]}
{"id": "C25", "title": "Enabling and disabling a body is idempotent and reversible", "statement": "set_enabled(f) on a body that is already in state f has no effect; disabling removes all proxies and contacts of the body, enabling creates one proxy per fixture child; no call panics.", "quantifier": "every body state and every sequence of set_enabled calls", "why_tests_cant": "The state where it matters (enabled body with fixtures) is common, the call (redundant enable) is not.", "anchors": ["src/private/dynamics/b2_body.rs: set_enabled", "src/private/dynamics/b2_fixture.rs: b2_fixture_create_proxies"]}
{"id": "C26", "title": "Proxies mirror enabled fixtures", "statement": "The number of broad-phase proxies always equals the total child count of the fixtures on enabled bodies.", "quantifier": "every history of body/fixture creation, destruction, enabling and disabling", "why_tests_cant": "Unbounded histories.", "anchors": ["src/private/dynamics/b2_fixture.rs: create_proxies, destroy_proxies", "src/private/dynamics/b2_body.rs: create_fixture, destroy_fixture, set_enabled"]}
{"id": "C27", "title": "Sleeping bodies are at rest; inputs obey wake and type rules", "statement": "Putting a body to sleep zeroes its velocities, forces and sleep timer; a force/impulse applied with wake=false to a sleeping body has no effect, with wake=true wakes it; non-dynamic bodies never accumulate force or impulse; velocities of static bodies cannot be changed.", "quantifier": "every body state and every sequence of calls", "why_tests_cant": "State is a product of several flags and reals.", "anchors": ["src/b2_body.rs: apply_force, apply_torque, apply_linear_impulse, set_awake, set_linear_velocity, set_angular_velocity"]}
{"id": "C28", "title": "Mass data is consistent", "statement": "After reset_mass_data or set_mass_data, a dynamic body has mass > 0 and inv_mass*mass = 1; inertia is positive or zero with inv_I consistent; static and kinematic bodies have zero inverse mass and inertia; total mass is the sum of the fixtures' masses and the center of mass is their mass-weighted mean; the velocity at the centre of mass is updated as a rigid-body velocity.", "quantifier": "every list of fixtures with any densities/shapes (exact real arithmetic)", "why_tests_cant": "All fixture multisets.", "anchors": ["src/private/dynamics/b2_body.rs: reset_mass_data, set_mass_data"]}
{"id": "C29", "title": "Body transform and sweep agree", "statement": "After set_transform, advance, synchronize_transform: the body origin transform maps the local centre of mass to the world centre of mass, and the rotation equals the sweep angle.", "quantifier": "every body state (exact real arithmetic)", "why_tests_cant": "Real-valued state.", "anchors": ["src/private/dynamics/b2_body.rs: set_transform, synchronize_fixtures, advance, synchronize_transform", "src/b2_math.rs: B2Sweep"]}
{"id": "C30", "title": "Islands partition the awake bodies", "statement": "In one solve every awake, enabled, non-static body is put in exactly one island; every enabled touching non-sensor contact and every joint with an awake participant between enabled bodies is put in at most one island; if two non-static bodies are linked by such a contact or joint, and one is in an island, the other is in the same island; static bodies never propagate islands; the traversal terminates and never exceeds the island capacity.", "quantifier": "every finite body/contact/joint graph and every flag assignment", "why_tests_cant": "Arbitrary graphs.", "anchors": ["src/private/dynamics/b2_world.rs: solve", "src/private/dynamics/b2_island.rs: add_body/add_contact/add_joint"]}
{"id": "C31", "title": "An island sleeps only when all of its bodies have rested long enough", "statement": "Bodies are put to sleep only if sleeping is allowed, every non-static body in the island allows sleep and has been under both velocity tolerances for at least B2_TIME_TO_SLEEP, and then all bodies of the island sleep together.", "quantifier": "every island, every step size history", "why_tests_cant": "Depends on the minimum over all bodies and on the time history.", "anchors": ["src/private/dynamics/b2_island.rs: solve"]}
{"id": "C32", "title": "Per-step motion is capped", "statement": "In one island solve the position integration moves a body's centre by at most B2_MAX_TRANSLATION and rotates it by at most B2_MAX_ROTATION, for all velocities.", "quantifier": "every velocity and step size dt>=0 (exact real arithmetic)", "why_tests_cant": "Unbounded velocities.", "anchors": ["src/private/dynamics/b2_island.rs: solve (integrate positions)"]}
{"id": "C33", "title": "Continuous-collision islands never overflow", "statement": "The time-of-impact phase does not panic, whatever the number of bodies touching the impact pair.", "quantifier": "every world", "why_tests_cant": "Needs more than 60 bodies in contact with a fast body.", "anchors": ["src/private/dynamics/b2_world.rs: solve_toi", "src/b2_island.rs"]}
{"id": "C34", "title": "Contact normal impulses are never negative, friction stays in the cone", "statement": "After every velocity iteration each accumulated normal impulse is >= 0 and not NaN, and after the friction pass each tangent impulse lies within +-friction*normal impulse used in that pass, in IEEE single precision.", "quantifier": "every solver state incl. NaN/inf intermediate values, every number of iterations", "why_tests_cant": "All float inputs.", "anchors": ["src/private/dynamics/b2_contact_solver_private.rs: solve_velocity_constraints"]}
{"id": "C35", "title": "Contact solving conserves momentum", "statement": "Warm starting and each velocity iteration change the two bodies' velocities by equal and opposite impulses: total linear momentum and total angular momentum about any point are unchanged when both bodies are dynamic; bodies of infinite mass never change velocity.", "quantifier": "every set of contacts, every number of iterations (exact real arithmetic)", "why_tests_cant": "Real-valued, arbitrary contact graphs.", "anchors": ["src/private/dynamics/b2_contact_solver_private.rs: warm_start, solve_velocity_constraints"]}
{"id": "C36", "title": "Two-point block solver solves its LCP", "statement": "For a two-point manifold, if one of the block solver's four cases applies, the new accumulated impulses x and resulting normal velocities satisfy x>=0, vn'>=0 and x_i*vn'_i = 0; with a positive-definite effective mass one case always applies.", "quantifier": "all states with a positive definite K (exact real arithmetic)", "why_tests_cant": "Four-dimensional real space.", "anchors": ["src/private/dynamics/b2_contact_solver_private.rs: solve_velocity_constraints (block solver)"]}
{"id": "C37", "title": "Motors and friction never exceed their configured strength", "statement": "Every joint motor (revolute, prismatic, wheel) and friction/motor/mouse joint accumulates an impulse of magnitude at most dt*max force/torque in each velocity iteration.", "quantifier": "all velocities, masses and iteration counts", "why_tests_cant": "Real-valued state over iterations.", "anchors": ["src/private/dynamics/joints/*.rs: solve_velocity_constraints"]}
{"id": "C38", "title": "Joint limits only push", "statement": "Limit impulses of distance, revolute, prismatic and wheel joints never become negative (a lower limit never pulls, an upper limit never pushes).", "quantifier": "all states incl. NaN (single precision)", "why_tests_cant": "All float inputs.", "anchors": ["src/private/dynamics/joints/*.rs: solve_velocity_constraints (limits)"]}
{"id": "C39", "title": "Joints conserve momentum", "statement": "Distance, revolute, prismatic, weld, wheel, friction and motor joints apply equal and opposite linear impulses (total linear momentum unchanged by warm start and velocity iterations), and angular momentum about any point is unchanged for the joints whose anchors coincide in the velocity model.", "quantifier": "all states (exact real arithmetic), any number of iterations", "why_tests_cant": "Real-valued state.", "anchors": ["src/private/dynamics/joints/*.rs: init_velocity_constraints, solve_velocity_constraints"]}
{"id": "C40", "title": "Joint velocity constraint holds right after it is solved", "statement": "Right after a revolute (or weld) joint's solve_velocity_constraints with an invertible effective mass the relative anchor velocity is zero; after a rigid distance joint's the relative velocity along the axis is zero; after a prismatic joint's the perpendicular and angular relative velocities are zero.", "quantifier": "all velocities, masses, anchors (exact real arithmetic)", "why_tests_cant": "Real-valued state.", "anchors": ["src/private/dynamics/joints/b2_revolute_joint.rs", "b2_weld_joint.rs", "b2_distance_joint.rs", "b2_prismatic_joint.rs"]}
{"id": "C41", "title": "Polygon ray cast finds the first hit", "statement": "B2polygonShape::ray_cast returns a hit exactly when the ray segment enters the polygon from outside within max_fraction; the reported fraction is the smallest t with p1+t(p2-p1) in the polygon and the normal is the outward normal of the crossed edge.", "quantifier": "all convex polygons and rays (exact real arithmetic; f32 witness for the refutation)", "why_tests_cant": "Continuous input space; failures are confined to a thin slab of fractions.", "anchors": ["src/private/collision/b2_polygon_shape.rs: ray_cast"]}
{"id": "C42", "title": "Circle and edge ray casts are exact", "statement": "B2circleShape::ray_cast and B2edgeShape::ray_cast report a hit only at a point on the shape's boundary/segment within [0,max_fraction], with a unit normal facing the ray; rays starting outside that cross the circle are reported with the first crossing.", "quantifier": "all rays and shapes (exact real arithmetic)", "why_tests_cant": "Continuous input space.", "anchors": ["src/private/collision/b2_circle_shape.rs: ray_cast", "src/private/collision/b2_edge_shape.rs: ray_cast"]}
{"id": "C43", "title": "Shape boxes contain the shapes", "statement": "compute_aabb of circle, edge, polygon and chain child returns a box that contains every point of the transformed shape (with its radius).", "quantifier": "all shapes and transforms (exact real arithmetic)", "why_tests_cant": "Continuous input space.", "anchors": ["src/private/collision/b2_*_shape.rs: compute_aabb"]}
{"id": "C44", "title": "Point containment tests are exact", "statement": "Circle test_point is true iff the distance to the centre is at most the radius; polygon test_point is true iff the point lies in every edge's inner half plane, which for polygons made by set_as_box is exactly the box.", "quantifier": "all points, shapes and transforms (exact real arithmetic)", "why_tests_cant": "Continuous input space.", "anchors": ["src/private/collision/b2_circle_shape.rs: test_point", "src/private/collision/b2_polygon_shape.rs: test_point, set_as_box"]}
{"id": "C45", "title": "Circle-circle manifold exists iff the circles touch", "statement": "b2_collide_circles produces exactly one point when the distance of the centres is at most the sum of radii and none otherwise; swapping the circles gives the same decision.", "quantifier": "all circles and transforms (exact real arithmetic)", "why_tests_cant": "Continuous input space.", "anchors": ["src/private/collision/b2_collide_circle.rs: b2_collide_circles"]}
{"id": "C46", "title": "Segment clipping is exact", "statement": "b2_clip_segment_to_line returns only points of the input segment in the half plane, returns both end points when both are inside and replaces an outside end point by the crossing point.", "quantifier": "all segments and half planes (exact real arithmetic)", "why_tests_cant": "Continuous input space.", "anchors": ["src/b2_collision.rs: b2_clip_segment_to_line"]}
{"id": "C47", "title": "AABB ray cast is exact", "statement": "B2AABB::ray_cast reports a hit exactly when the ray segment enters the box from outside within max_fraction and then reports the first entry fraction.", "quantifier": "all boxes and rays (exact real arithmetic)", "why_tests_cant": "Continuous input space.", "anchors": ["src/private/collision/b2_collision.rs: ray_cast"]}
{"id": "C48", "title": "GJK sub-problem solvers return the closest point", "statement": "The two- and three-point simplex solvers return barycentric weights that are non-negative, sum to one, and give the point of the segment/triangle closest to the origin.", "quantifier": "all simplices (exact real arithmetic)", "why_tests_cant": "Continuous input space.", "anchors": ["src/private/collision/b2_distance.rs: solve2, solve3"]}
{"id": "C49", "title": "GJK witness points belong to the shapes and the search terminates", "statement": "b2_distance_fn terminates in at most 20 iterations without panicking, returns witness points that are convex combinations of the two proxies' vertices, and the returned distance is the distance of the witness points.", "quantifier": "all proxies, transforms and caches (exact real arithmetic)", "why_tests_cant": "Continuous input space, data-dependent loop.", "anchors": ["src/private/collision/b2_distance.rs: b2_distance_fn"]}
{"id": "C50", "title": "Time of impact stays in range and terminates", "statement": "b2_time_of_impact terminates and reports a time in [0, t_max] for every input, with Touching only when the separation is within tolerance at that time.", "quantifier": "all proxies and sweeps, any separation functions", "why_tests_cant": "Nested data-dependent loops.", "anchors": ["src/private/collision/b2_time_of_impact.rs: b2_time_of_impact"]}
{"id": "C51", "title": "Chain children cover the chain", "statement": "A chain or loop of n vertices has n-1 (resp. n for the loop of n distinct points) children; child i is the segment from vertex i to i+1 with the true neighbouring vertices as ghost vertices, and child accesses in range never panic.", "quantifier": "all vertex lists of legal length", "why_tests_cant": "All sizes.", "anchors": ["src/private/collision/b2_chain_shape.rs: create_loop, create_chain, get_child_edge, get_child_count"]}
{"id": "C52", "title": "Mass properties of shapes are the true integrals", "statement": "compute_mass of a circle gives rho*pi*r^2 and the moment about the body origin by the parallel-axis theorem; of a box made by set_as_box(hx,hy) gives 4*rho*hx*hy, its centre and rho*hx*hy*4/3*(hx^2+hy^2).", "quantifier": "all sizes and densities (exact real arithmetic)", "why_tests_cant": "Continuous input space.", "anchors": ["src/private/collision/b2_circle_shape.rs: compute_mass", "src/private/collision/b2_polygon_shape.rs: compute_mass"]}
{"id": "C53", "title": "Transforms and matrices obey their algebra", "statement": "b2_mul_t_transform undoes b2_mul_transform, composition is associative, rotations preserve length; B2Mat22/B2Mat33 solve and inverse return a true solution whenever the determinant is non-zero and zero otherwise; the angle-sweep interpolation gives the end poses at beta=0 and 1, and advance(alpha) composes with get_transform.", "quantifier": "all real inputs (exact real arithmetic)", "why_tests_cant": "Continuous input space.", "anchors": ["src/b2_math.rs: b2_mul*, B2Mat22::solve/get_inverse, B2Mat33::solve22/solve33/get_inverse22/get_sym_inverse33, B2Sweep"]}
{"id": "C54", "title": "Clamp clamps", "statement": "b2_clamp(a,low,high) and b2_clamp_vec2(a,low,high) return a value between low and high (componentwise) equal to a when a is already in range.", "quantifier": "all ordered low<=high", "why_tests_cant": "Continuous input space.", "anchors": ["src/b2_math.rs: b2_clamp, b2_clamp_i32, b2_clamp_vec2"]}
{"id": "C55", "title": "Mixing laws are symmetric and bounded", "statement": "Friction mixing is the geometric mean and restitution/threshold mixing max/min: symmetric, and lying between the two inputs.", "quantifier": "all non-negative coefficients (exact real arithmetic)", "why_tests_cant": "Continuous input space.", "anchors": ["src/b2_contact.rs: b2_mix_friction, b2_mix_restitution, b2_mix_restitution_threshold"]}
{"id": "C56", "title": "Power-of-two helper", "statement": "b2_is_power_of_two(x) holds exactly for powers of two and b2_next_power_of_two(x) is the least power of two strictly greater than x (documented behaviour) for every u32.", "quantifier": "all u32", "why_tests_cant": "2^32 inputs, bit tricks.", "anchors": ["src/b2_math.rs: b2_next_power_of_two, b2_is_power_of_two"]}
{"id": "C57", "title": "Manifold point states tell which points persist", "statement": "b2_get_point_states marks an old point Persist iff its id is in the new manifold, else Remove; a new point Persist iff its id was in the old manifold, else Add; unused slots are Null.", "quantifier": "all manifolds", "why_tests_cant": "All id combinations.", "anchors": ["src/b2_collision.rs: b2_get_point_states"]}
{"id": "C58", "title": "A saved and reloaded world has the same joints between the same bodies", "statement": "Serializing a world and deserializing it yields an isomorphic world: same bodies in the same order, same fixtures, and each joint connects the images of the bodies it connected.", "quantifier": "every world", "why_tests_cant": "All sizes of worlds and joint graphs.", "anchors": ["src/serialize_*/ , src/joints/serialize/*: world and joint (de)serialization"]}
{"id": "C59", "title": "Refiltering a fixture is possible at any time outside a step", "statement": "Calling set_filter_data (hence refilter) on a fixture through its handle does not panic and flags all its contacts for filtering.", "quantifier": "every fixture state, any number of contacts", "why_tests_cant": "Borrow conflicts depend on the dynamic contact graph.", "anchors": ["src/b2_fixture.rs: set_filter_data, refilter", "src/private/dynamics/b2_fixture.rs: b2_fixture_refilter"]}
{"id": "C60", "title": "Position correction is bounded", "statement": "One contact position iteration moves the contact point by a correction of at most B2_MAX_LINEAR_CORRECTION, never pulls shapes together, and leaves contacts whose separation exceeds the slop untouched.", "quantifier": "all manifolds and poses (exact real arithmetic)", "why_tests_cant": "Continuous input space.", "anchors": ["src/private/dynamics/b2_contact_solver_private.rs: solve_position_constraints"]}
{"id": "C61", "title": "Equal joint limits hold the joint at the limit", "statement": "With lower limit equal to upper limit (= L) the prismatic/wheel joint's position correction drives the translation towards L and reports convergence only near L.", "quantifier": "all L and states (exact real arithmetic)", "why_tests_cant": "Only L=0 is usually tested.", "anchors": ["src/private/dynamics/joints/b2_prismatic_joint.rs: solve_position_constraints"]}
{"id": "C62", "title": "A careful program never panics", "statement": "Start from a new world and make public calls that respect the stated preconditions (live handles, a body mass that can be computed, shapes whose boxes can be computed, no filter change on a fixture with contacts, no enabling of an enabled body, a contact class for any two shapes that could meet, at most 64 bodies or continuous collision off): every call returns, the world is unlocked between calls, and the next call that respects the preconditions returns as well.", "quantifier": "all finite histories of public calls, all listeners, filters and collision/solver routines that return on contacts of live bodies", "why_tests_cant": "Histories are unbounded and the preconditions interact with every earlier call.", "anchors": ["src/b2_world.rs", "src/private/dynamics/b2_world_private.rs", "src/b2_body.rs", "src/b2_fixture.rs"]}
{"id": "C63", "title": "The GJK distance is the least distance", "statement": "When b2_distance_fn ends before the iteration limit, either the returned distance is below epsilon or no pair of points of the two shapes (radii included when asked for) is closer.", "quantifier": "all proxies, transforms and caches for which distinct differences of vertices are at least epsilon apart (exact real arithmetic)", "why_tests_cant": "Continuous input space; the claim is about all pairs of points of both shapes.", "anchors": ["src/private/collision/b2_distance.rs: b2_distance_fn"]}
{"id": "C64", "title": "Separated and Overlapped answers of the time of impact are justified", "statement": "b2_time_of_impact answers Separated only with t = t_max and only if the shapes are separated by more than target plus tolerance on an axis at t_max; it answers Overlapped only with t = 0 and only if a distance that is not positive was measured.", "quantifier": "all proxies and sweeps (exact real arithmetic); Overlapped for any numbers and any separation functions", "why_tests_cant": "Nested data-dependent loops.", "anchors": ["src/private/collision/b2_time_of_impact.rs: b2_time_of_impact"]}
{"id": "C65", "title": "A shape cast stops before the shapes meet", "statement": "b2_shape_cast returns after at most 20 iterations without panicking. A hit has lambda in [0,1]; up to lambda the point sets stay at least the contact distance apart, and at lambda (unless the iteration limit was reached) they are within half a linear slop of it. A miss means that they stay apart for the whole translation or that they touch already at the start.", "quantifier": "all proxies, transforms and translations (exact real arithmetic; returning for any numbers)", "why_tests_cant": "Continuous input space; the claim is about every moment of the motion.", "anchors": ["src/private/collision/b2_distance.rs: b2_shape_cast"]}
{"id": "C66", "title": "Polygons are convex hulls", "statement": "b2_polygon_shape_set welds the given points to a thinned set and stores its convex hull: counter-clockwise, strictly convex, containing all thinned points, with unit outward edge normals, and passing validate. It panics exactly when the thinned points are collinear or the hull's area is at most epsilon. The vertex form and the edge form of such a polygon describe the same set.", "quantifier": "all lists of 3 to 8 points (exact real arithmetic)", "why_tests_cant": "Continuous input space; gift wrapping is only right on all inputs if every choice of extreme point is.", "anchors": ["src/private/collision/b2_polygon_shape.rs: b2_polygon_shape_set, compute_centroid, b2_polygon_shape_validate", "src/private/collision/b2_polygon_shape.rs: set_as_box, set_as_box_angle"]}
{"id": "C67", "title": "Mass of any polygon", "statement": "For a proper polygon of area above epsilon, b2_polygon_shape_compute_mass returns density times the shoelace area, the centre of area, and density times the polar moment of area about the origin; area is positive, the centre is strictly inside and the inertia about the centre is positive. For a smaller area it panics.", "quantifier": "all strictly convex polygons and densities (exact real arithmetic)", "why_tests_cant": "Continuous input space.", "anchors": ["src/private/collision/b2_polygon_shape.rs: b2_polygon_shape_compute_mass"]}
{"id": "C68", "title": "Polygon and circle", "statement": "b2_collide_polygon_and_circle makes a contact if and only if the circle reaches the polygon within the two radii (up to a skin of epsilon around the polygon). Outside, the normal is the unit vector from the nearest point of the polygon to the centre and the distance is the one the manifold encodes. Inside, the normal is the way out of least depth.", "quantifier": "all strictly convex polygons, circles, radii and placements (exact real arithmetic)", "why_tests_cant": "Continuous input space with vertex, face and inside regions that must fit together without gaps.", "anchors": ["src/private/collision/b2_collide_circle.rs: b2_collide_polygon_and_circle"]}
{"id": "C69", "title": "Edge and circle", "statement": "b2_collide_edge_and_circle makes a contact exactly when the circle reaches the segment and, for one-sided edges, the centre is in front and no neighbour edge comes nearer at the shared end. The manifold encodes the nearest point of the segment. A circle in front of the nearest edge of a closed chain always gets a contact with it: ghost vertices never drop the last contact.", "quantifier": "all edges, circles, placements and closed chains (exact real arithmetic)", "why_tests_cant": "Dropping contacts at shared vertices is right only if some neighbour always keeps one.", "anchors": ["src/private/collision/b2_collide_edge.rs: b2_collide_edge_and_circle", "src/private/collision/b2_chain_shape.rs: create_loop, get_child_edge"]}
{"id": "C70", "title": "Two polygons", "statement": "b2_collide_polygons always returns at most two points. It reports none if some face separates the polygons by more than the radii, and then they are further apart than that. If it reports points, no face separates them, the normal and reference point are those of a face, and each point lies on one edge of the other polygon, at most the radius in front of and beside the reference face. Overlapping polygons can still get no point: then the deepest corner lies beside the reference face.", "quantifier": "all strictly convex polygons with edges of at least epsilon, and placements (exact real arithmetic; refutation in f32)", "why_tests_cant": "Continuous input space; the missed overlaps are a thin set of placements.", "anchors": ["src/private/collision/b2_collide_polygon.rs: b2_collide_polygons, b2_find_max_separation, b2_find_incident_edge", "src/private/collision/b2_collision.rs: b2_clip_segment_to_line"]}
{"id": "C71", "title": "The broad phase covers every fixture", "statement": "After every call of the world, the box that the broad phase has for each child of each fixture of an enabled body contains the box of that child where its body is now. Static bodies made with a velocity break it: their island moves them, their boxes stay behind.", "quantifier": "all programs: any sequence of calls, with any filter, listener, collision routines and solver that leave static bodies at rest; static bodies made without velocity, no kinematic bodies in a continuous step (exact real arithmetic; refutation in f32)", "why_tests_cant": "A missed synchronisation only shows when a later query or contact search looks at just that place.", "anchors": ["src/private/dynamics/b2_fixture.rs: synchronize, create_proxies", "src/private/dynamics/b2_world_private.rs: solve, solve_toi", "src/private/dynamics/b2_body.rs: set_transform, set_type, set_enabled"]}
{"id": "C72", "title": "query_aabb finds every fixture", "statement": "B2world::query_aabb reports exactly the children whose boxes in the broad phase meet the given box, each once, until the callback answers false. So no fixture whose own box meets it is missed.", "quantifier": "all worlds reached by programs as in C71, all boxes, all callbacks (exact real arithmetic)", "why_tests_cant": "Depends on the whole history of the tree, on every update of boxes, and on the callback.", "anchors": ["src/b2_world.rs: query_aabb, B2worldQueryWrapper", "src/b2_dynamic_tree.rs: query"]}
{"id": "C73", "title": "ray_cast finds the nearest hit", "statement": "B2world::ray_cast reports each child at most once, only children that the ray hits up to the fraction it is clipped to, with the point at that fraction of the ray and the normal of the shape. If the callback never answers more than the fraction it is told, then either it answered 0 last or every hit of the ray that is left was reported. A callback that never clips sees exactly all hits. The callback that answers the fraction ends up with the nearest hit, or none if there is none.", "quantifier": "all worlds reached by programs as in C71 with shapes of proper size, all rays, all callbacks (exact real arithmetic)", "why_tests_cant": "Needs the boxes to cover every fixture and the pruning of the tree to be right for every clipping.", "anchors": ["src/b2_world.rs: ray_cast, B2worldRayCastWrapper", "src/b2_dynamic_tree.rs: ray_cast", "src/b2_fixture.rs: ray_cast"]}
{"id": "C74", "title": "A new joint is satisfied", "statement": "A joint made by initialize and new has its anchors (get_anchor_a, get_anchor_b) at the points it was given. If the bodies are at rest, then any number of new joints of any kinds between them change no velocity and no position, and report success at once, unless the joint is driven by a motor, a spring or limits that exclude its present state. A gear joint is satisfied between its two joints' bodies.", "quantifier": "all bodies whose transform is up to date, all anchors and axes, all lists of joints of all ten kinds, all step sizes and iteration counts (exact real arithmetic)", "why_tests_cant": "Ten kinds of joints, arbitrary configurations, and any number of iterations.", "anchors": ["src/joints/b2_*_joint.rs: initialize, new, get_anchor_a, get_anchor_b", "src/private/dynamics/joints/b2_*_joint.rs"]}
{"id": "C75", "title": "Joint speeds are derivatives", "statement": "The speeds that revolute, prismatic and wheel joints report are the derivatives of the angle or translation that they report, as the bodies move with their velocities.", "quantifier": "all bodies, all times of the motion, all anchors and axes (exact real arithmetic)", "why_tests_cant": "A statement on limits; a test can only take difference quotients.", "anchors": ["src/private/dynamics/joints/b2_prismatic_joint.rs: get_joint_speed, get_joint_translation", "src/private/dynamics/joints/b2_wheel_joint.rs: get_joint_linear_speed, get_joint_translation, get_joint_angle, get_joint_angular_speed", "src/joints/b2_revolute_joint.rs: get_joint_angle, get_joint_speed"]}
{"id": "C76", "title": "Reported reactions are what the joint did", "statement": "The force and torque that a joint reports after the velocity phase, applied over the time step at its anchor on body b, give exactly the change of velocity of body b in that phase, and the opposite force that of the velocity of body a.", "quantifier": "all joints, bodies, velocities, previous impulses, iteration counts, with and without warm starting (exact real arithmetic)", "why_tests_cant": "Relates the sum of all impulses of all iterations to the getters; impulses include those of the last step.", "anchors": ["src/private/dynamics/joints/b2_*_joint.rs: get_reaction_force, get_reaction_torque"]}
{"id": "C77", "title": "Soft constraints are implicit springs", "statement": "The soft parts of distance, wheel, weld and mouse joints are springs with dampers, integrated implicitly: after one pass the total impulse is that of the spring and damper for the velocities at the end of the pass. b2_linear_stiffness gives the stiffness and damping of the reduced mass of the two bodies for the given frequency and damping ratio.", "quantifier": "all stiffnesses > 0, dampings >= 0, bodies, positions, velocities and previous impulses (exact real arithmetic); the mouse joint below its maximal force", "why_tests_cant": "gamma, bias and soft mass only together mean a spring; a test sees a few numbers.", "anchors": ["src/private/dynamics/joints/b2_distance_joint.rs: init_velocity_constraints, solve_velocity_constraints", "src/private/dynamics/joints/b2_wheel_joint.rs", "src/private/dynamics/joints/b2_weld_joint.rs", "src/private/dynamics/joints/b2_mouse_joint.rs", "src/b2_joint.rs: b2_linear_stiffness"]}
{"id": "C78", "title": "A distance joint without stiffness is a rope and a rod", "statement": "The impulses of the two limits never are negative, body b is moved by their difference along the joint, and if the joint pulls, then the anchors separate exactly at the speed that brings them to the maximal length within the step.", "quantifier": "all bodies, positions, velocities, impulses of the last step, iteration counts >= 1 (exact real arithmetic)", "why_tests_cant": "Quantifies over the previous impulses and all iterations.", "anchors": ["src/private/dynamics/joints/b2_distance_joint.rs"]}
{"id": "C79", "title": "Lengths and limits stay in order", "statement": "After any sequence of set_length, set_min_length and set_max_length a distance joint has 0 < min <= max and 0 < length. set_limits of revolute, prismatic and wheel joints accepts only lower <= upper; new makes joints with lower <= upper only.", "quantifier": "all definitions, all sequences of calls (exact real arithmetic)", "why_tests_cant": "Arbitrary sequences of calls with arbitrary arguments.", "anchors": ["src/private/dynamics/joints/b2_distance_joint.rs: set_length, set_min_length, set_max_length", "src/joints/b2_revolute_joint.rs: set_limits", "src/joints/b2_prismatic_joint.rs: set_limits", "src/joints/b2_wheel_joint.rs: set_limits"]}
{"id": "C80", "title": "Joints do not see the origin", "statement": "If all bodies are moved by the same vector and all joints get shift_origin, the joints compute the same velocities and impulses, and the moved positions.", "quantifier": "all joints of all ten kinds, all steps, positions, velocities and shifts (exact real arithmetic)", "why_tests_cant": "Every joint must shift exactly the points it keeps in world coordinates; the effect of one that does not shows only later.", "anchors": ["src/private/dynamics/joints/b2_*_joint.rs: shift_origin"]}
{"id": "C81", "title": "Rope calls never panic", "statement": "No program that creates a rope with at least three vertices, changes its tuning, resets it and steps it panics, and the links and bends of the rope always join neighbouring vertices; creating a rope with fewer than three vertices panics.", "quantifier": "all programs of rope calls, all tunings, all numbers of any kind, f32 and NaN included", "why_tests_cant": "The stretching and the bending model can be changed between steps; six bending models and two stretching models times all rope lengths.", "anchors": ["src/b2_rope.rs: create, set_tuning, reset, step", "src/private/rope/b2_rope.rs: create, set_tuning, step"]}
{"id": "C82", "title": "The fixed vertices of a rope follow its position", "statement": "After a step, each vertex without mass is at its bind position plus the position of the rope.", "quantifier": "all ropes reached by calls, all steps and iterations (exact real arithmetic)", "why_tests_cant": "Each of nine solvers moves points by its own formula with mass factors.", "anchors": ["src/private/rope/b2_rope.rs: step and all solve_*"]}
{"id": "C83", "title": "Rope constraints keep the momentum", "statement": "If all vertices have mass, a step changes the momentum of the rope only by gravity and damping.", "quantifier": "all ropes reached by calls, all tunings, steps and iterations (exact real arithmetic)", "why_tests_cant": "A sign or a mass factor wrong in one of nine solvers only shows as a slow drift.", "anchors": ["src/private/rope/b2_rope.rs: step and all solve_*"]}
{"id": "C84", "title": "Stretching passes restore the length", "statement": "A PBD pass brings the length of a link to the stiffness-weighted mean of old length and rest length, and with stiffness 1 the last link has its rest length after any step.", "quantifier": "all links and tunings; for the last link all ropes reached by calls (exact real arithmetic)", "why_tests_cant": "Tests see one rope with one tuning; the exact length after the pass holds for all masses.", "anchors": ["src/private/rope/b2_rope.rs: solve_stretch_pbd, solve_bend_pbd_distance"]}
{"id": "C85", "title": "Bending passes straighten", "statement": "The angle of the bend model is the true angle between the links, and each bending model moves the vertices so that its error shrinks by the stiffness: to first order for the angle, exactly for the height model, by a known factor for the triangle model; the spring model gives the angular acceleration of a damped spring.", "quantifier": "all bends with links of positive length and positive total mass (exact real arithmetic)", "why_tests_cant": "Needs the derivative of the angle; a wrong Jacobian still straightens some ropes.", "anchors": ["src/private/rope/b2_rope.rs: solve_bend_*, apply_bend_forces"]}
{"id": "C86", "title": "XPBD passes are implicit springs", "statement": "The multiplier an XPBD pass ends with is that of an implicit damped spring with the configured frequency and damping ratio.", "quantifier": "all links and bends with positive spring constants (exact real arithmetic)", "why_tests_cant": "The compliance formula is a rearranged equation whose terms nobody sees.", "anchors": ["src/private/rope/b2_rope.rs: solve_stretch_xpbd, solve_bend_xpbd_angle, set_tuning"]}
{"id": "C87", "title": "A straight rope rests", "statement": "A straight rope at rest without gravity is exactly unchanged by steps, whatever its tuning.", "quantifier": "all straight ropes, all tunings, steps and iterations (exact real arithmetic)", "why_tests_cant": "Each of nine solvers must compute an exactly zero correction for all link lengths.", "anchors": ["src/private/rope/b2_rope.rs: create, step, all solve_*"]}
{"id": "C88", "title": "Ropes see neither the origin nor the past", "statement": "A step of a moved rope is the moved step of the rope; creating a rope on an old rope gives the same rope as creating it on a new one.", "quantifier": "all ropes, shifts and steps (exact real arithmetic); all definitions", "why_tests_cant": "Only some tunings use absolute positions; stale data needs a reused object.", "anchors": ["src/b2_rope.rs: create, step", "src/private/rope/b2_rope.rs: create, step"]}
{"id": "C89", "title": "Every pair that may touch gets its contact", "statement": "After a complete step with a positive time, any two fixture children whose broad-phase boxes overlap and which nothing forbids to touch have a contact; between steps, any such pair without a contact waits in the move buffer.", "quantifier": "all reachable worlds that do not destroy a joint that forbids contacts (exact real arithmetic, default filter)", "why_tests_cant": "A missed pair needs a particular order of moves, enabling, filtering, type changes, joints and time-of-impact sub-steps.", "anchors": ["src/private/collision/b2_broad_phase.rs: buffer_move, unbuffer_move, query_callback, update_pairs", "src/private/dynamics/b2_contact_manager.rs: collide, find_new_contacts, add_pair", "src/private/dynamics/b2_world.rs: step, solve, solve_toi", "src/private/dynamics/b2_body.rs: set_type, set_enabled, set_transform", "src/private/dynamics/b2_fixture.rs: refilter, synchronize"]}
{"id": "C90", "title": "Overlapping boxes have contacts", "statement": "After a complete step with a positive time, any two fixture children whose tight boxes overlap, at the transforms the bodies then have, and which nothing forbids to touch, have a contact.", "quantifier": "all reachable worlds of the tame programs that do not destroy a joint that forbids contacts (exact real arithmetic, default filter)", "why_tests_cant": "Combines the covering of every moved shape by the tree with the completeness of the pair update over all histories.", "anchors": ["src/private/dynamics/b2_world.rs: step, solve, solve_toi", "src/private/dynamics/b2_contact_manager.rs: find_new_contacts", "src/private/dynamics/b2_fixture.rs: synchronize"]}
{"id": "C91", "title": "A step leaves a world at rest alone", "statement": "In a world in which every body sleeps or is static and no contact waits for filtering, a step moves and wakes no body, keeps every fixture, contact and joint, makes no touching contact, and tells the listener nothing.", "quantifier": "all reachable worlds at rest, all time steps, any numbers (single precision included), any environment that answers", "why_tests_cant": "One missing awake test in collide, solve, solve_toi or the joints shows only in some contact or joint graph.", "anchors": ["src/private/dynamics/b2_contact_manager.rs: collide", "src/private/dynamics/b2_world.rs: step, solve, solve_toi, clear_forces"]}
{"id": "C92", "title": "Contacts of awake bodies are fresh when the solver starts", "statement": "Once a step has found new pairs and collided, every contact with an awake body that is not static has the touching flag the narrow phase gives at the present places of the bodies, its boxes overlap in the broad phase, and if it is solid and touches, pre_solve was told of it.", "quantifier": "all reachable worlds, any numbers (single precision included), any environment that answers", "why_tests_cant": "A stale flag shows only when a contact is skipped by some path through collide, for some order of the list and some history.", "anchors": ["src/private/dynamics/b2_contact_manager.rs: collide", "src/private/dynamics/b2_contact.rs: b2_contact_update", "src/private/dynamics/b2_world.rs: step"]}
{"id": "C93", "title": "A contact touches exactly when its shapes meet", "statement": "Once a step has collided, the contact of two children is touching if the two placed shapes meet, and is not touching if they are clear of each other.", "quantifier": "all reachable worlds, all pairs of circles, polygons, edges and chains, all places (exact real arithmetic)", "why_tests_cant": "Needs the geometry of every shape pair and the order of the fixtures in the contact at the same time.", "anchors": ["src/private/dynamics/contacts/*.rs: evaluate", "src/private/dynamics/b2_contact.rs: b2_contact_update", "src/private/collision/b2_collide_*.rs"]}
{"id": "C94", "title": "No collision is missed", "statement": "Two shapes that meet at the start of a complete step, may touch, and of which one is on an awake body, have a touching contact in this step, and the listener is told before the solver runs.", "quantifier": "all reachable worlds of the programs of C71 and C89 (exact real arithmetic, default filter)", "why_tests_cant": "The whole chain from moved bodies over fat boxes, tree, move buffer, pair update, contact creation and narrow phase must work for every history.", "anchors": ["src/private/dynamics/b2_world.rs: step", "src/private/dynamics/b2_contact_manager.rs: find_new_contacts, add_pair, collide", "src/private/collision/b2_broad_phase.rs", "src/private/dynamics/b2_contact.rs: b2_contact_update"]}
{"id": "C95", "title": "Contacts are in the order of their class", "statement": "Every contact of a world is between two existing fixtures and existing children, and the shape types are, in this order, those of a registered contact class, so that no evaluate is called with the wrong shapes.", "quantifier": "all reachable worlds, any numbers, any environment that answers", "why_tests_cant": "The order is chosen by the primary flag of a table once and must survive every later call.", "anchors": ["src/private/dynamics/b2_contact.rs: b2_contact_create, add_type", "src/private/dynamics/contacts/*.rs: create, evaluate"]}
{"id": "C96", "title": "A contact has at most two points", "statement": "Whatever the narrow phase returns for a contact, for any shapes, places and numbers, has room for exactly two points and uses at most two.", "quantifier": "all worlds, contacts and numbers (single precision included)", "why_tests_cant": "Point counts depend on clipping with arbitrary rounding, infinities and NaN.", "anchors": ["src/private/collision/b2_collide_*.rs", "src/private/dynamics/contacts/*.rs: evaluate"]}
{"id": "C97", "title": "Edge and polygon: the call returns, and no contact if apart", "statement": "b2_collide_edge_and_polygon returns at most two points, and none if a side of the edge or a face of the polygon separates the shapes by more than the radii, or if the edge is one-sided and the centre of the polygon is behind it. Separated shapes are further apart than the radii.", "quantifier": "all edges and neighbours of at least epsilon, all strictly convex polygons, all placements (exact real arithmetic)", "why_tests_cant": "Continuous input space; panics by index or unwrap need rare axis choices.", "anchors": ["src/private/collision/b2_collide_edge.rs: b2_collide_edge_and_polygon, b2_compute_edge_separation, b2_compute_polygon_separation"]}
{"id": "C98", "title": "Edge and polygon: what the points are", "statement": "If points are reported, nothing separates the shapes. Either the reference is the better side of the edge, with its normal and first vertex, and each point lies on one edge of the polygon, at most the radius in front of the side and between the ends of the edge. Or it is the best face of the polygon, better than both sides by the tolerance, and each point lies on the edge, at most the radius in front of the face and between its ends.", "quantifier": "as C97", "why_tests_cant": "Which vertex and face are chosen, and in which frame the points are, matters for every placement.", "anchors": ["src/private/collision/b2_collide_edge.rs: b2_collide_edge_and_polygon, b2_compute_edge_separation, b2_compute_polygon_separation", "src/private/collision/b2_collision.rs: b2_clip_segment_to_line"]}
{"id": "C99", "title": "Edge and polygon: overlapping shapes get a point", "statement": "If no point is reported, the shapes are apart, or the deepest corner or end lies beside the chosen reference, or a one-sided edge drops the polygon because it is behind it or belongs to a neighbour. (That overlapping shapes always get a point is false.)", "quantifier": "as C97; refutation in f32", "why_tests_cant": "The missed overlaps are a thin set of placements.", "anchors": ["src/private/collision/b2_collide_edge.rs: b2_collide_edge_and_polygon, b2_compute_edge_separation, b2_compute_polygon_separation"]}
{"id": "C100", "title": "One-sided edges push to the front", "statement": "A polygon is pushed to the front side if it reaches further in front of the edge than behind it. (That a polygon with its centre in front is never pushed to the back is false.)", "quantifier": "as C97; refutation in f32", "why_tests_cant": "Needs a polygon that has its centre in front but most of its depth behind.", "anchors": ["src/private/collision/b2_collide_edge.rs: b2_collide_edge_and_polygon, b2_compute_edge_separation, b2_compute_polygon_separation"]}
{"id": "C101", "title": "The points of a contact have different feature ids", "statement": "The two points of a manifold have different ids, so that a contact whose points stay the same gives every point its own impulses back for warm starting. (False for an edge or chain against a polygon when the first, second or last face of the polygon is the reference: the end of the edge and a point cut off at a corner can get the same id, and the second point then receives the impulses of the first.)", "quantifier": "any numbers, all polygons with 2 to 8 vertices, all placements; refutation in f32", "why_tests_cant": "The ids collide only for certain face numbers together with certain cuts; the wrong impulses are not visible as a panic.", "anchors": ["src/private/collision/b2_collide_polygon.rs: b2_collide_polygons, b2_find_incident_edge", "src/private/collision/b2_collide_edge.rs: b2_collide_edge_and_polygon", "src/private/collision/b2_collision.rs: b2_clip_segment_to_line", "src/private/dynamics/b2_contact.rs: b2_contact_update"]}
{"id": "C102", "title": "Sensors report exactly the shapes that are near", "statement": "After the fixtures are collided, the contact of a sensor is touching exactly if the two shapes are less than the sum of their radii plus ten epsilon apart; and a fixture that reaches a sensor has a touching contact with it, also when the contact did not exist before the step.", "quantifier": "over the reals: all reachable worlds, all shapes and placements whose distance search ends before 20 iterations (proved for circles and a circle with an edge) and whose vertices are more than epsilon apart", "why_tests_cant": "The answer depends on an iterative search for the distance, on the boxes in the tree and on the pairs the broad phase reports.", "anchors": ["src/private/dynamics/b2_contact.rs: b2_contact_update", "src/private/collision/b2_collision.rs: b2_test_overlap", "src/b2_distance.rs: b2_distance", "src/b2_fixture.rs: set_sensor"]}
{"id": "C103", "title": "A body that nothing touches flies freely", "statement": "In one step a body without contacts and joints changes its velocity by gravity, its force and damping only, the velocity is cut at two metres and a quarter turn per step, and the body moves with the new velocity; over n steps a dynamic body without fixtures, damping and force has velocity v + n h g and moved by n h v + h^2 g n(n+1)/2, whatever the other bodies do.", "quantifier": "over the reals: all reachable worlds, all other bodies, contacts and joints, all step sizes h > 0 and all n; the solver is the modelled code, any joint solvers", "why_tests_cant": "The other islands, the sleep rule and the continuous phase run in the same step and could write to the body.", "anchors": ["src/private/dynamics/b2_island_private.rs: solve", "src/private/dynamics/b2_world.rs: solve, solve_toi, step, clear_forces"]}
{"id": "C104", "title": "The island solver returns inside the step", "statement": "With the island solver of the code inside the step, a call of a careful program returns: it neither panics at an assertion of the contact solver nor reads outside a list. For the step this needs that every enabled touching contact between solid fixtures has one or two points when the solver starts; without that it is false: a sensor that becomes solid while its body and its neighbour are put to sleep keeps a touching contact without points, and an awake third body pulls it into an island.", "quantifier": "all number types with ordered comparisons, all careful programs, all worlds, all step sizes, all joint solvers that return", "why_tests_cant": "The contacts in an island depend on the whole history of the world: which were updated, which slept, which changed kind.", "anchors": ["src/private/dynamics/b2_contact_solver_private.rs: new (assert point_count > 0), store_impulses, solve_velocity_constraints", "src/private/dynamics/b2_island_private.rs: solve", "src/private/dynamics/b2_world.rs: solve", "src/private/dynamics/b2_fixture.rs: b2_fixture_set_sensor"]}
{"id": "C105", "title": "Touching contacts have points, and a gentle program never panics in the solver", "statement": "If no sensor is made solid while one of its contacts touches, and the listener leaves the manifolds alone, then after every program each touching contact between two solid fixtures has at least one point. The contact impulses that are kept from step to step never pull. So with the island solver of the code inside the step every call of a careful program of this kind returns.", "quantifier": "all number types, all programs, all worlds, all routines and callbacks that answer, all joint solvers that return; for the last part all setups with at least one velocity iteration that either do not warm start or whose products and quotients of non-negative numbers are non-negative (exact arithmetic)", "why_tests_cant": "Touching flags and points are written in different places and by different calls, and must agree after every possible history.", "anchors": ["src/b2_contact.rs: update", "src/private/dynamics/b2_contact.rs", "src/private/dynamics/b2_contact_solver_private.rs: new, solve_velocity_constraints, store_impulses", "src/private/dynamics/b2_world.rs: solve, step", "src/b2_fixture.rs: set_sensor"]}
{"id": "C106", "title": "The solver does not push static and kinematic bodies", "statement": "A static or kinematic body whose inverse mass and inverse inertia are zero moves in the island solver, and in the solver of an impact, only with its own velocity, whatever touches it and however deep. Its velocity is cut if it is too large and is otherwise kept. If it is at rest it stays exactly where it is.", "quantifier": "all islands of any size, all contacts between different bodies of the island, all manifolds and impulses, all numbers of iterations, with and without warm starting and the block solver, all joint solvers that leave that body alone, all worlds; in exact arithmetic", "why_tests_cant": "Velocity and position corrections of every contact are applied to both bodies in every iteration, and the number of contacts and iterations is not bounded.", "anchors": ["src/private/dynamics/b2_island_private.rs: solve, solve_toi", "src/private/dynamics/b2_contact_solver_private.rs: solve_velocity_constraints, solve_position_constraints, solve_toiposition_constraints"]}
{"id": "C107", "title": "The solver of an impact returns", "statement": "The solver for the island of an impact returns for every island whose contacts have one or two points and whose bodies know their place in the island. No assertion of it fails and no index is out of range.", "quantifier": "all number types with the order laws (also single precision), all bodies, contacts, numbers of iterations and pairs of impact indices inside the island", "why_tests_cant": "The corrections depend on the positions and on all earlier iterations.", "anchors": ["src/private/dynamics/b2_island_private.rs: solve_toi", "src/private/dynamics/b2_contact_solver_private.rs: solve_toiposition_constraints"]}
{"id": "C108", "title": "Static and kinematic bodies have no mass", "statement": "In every world a program can get, the inverse mass and the inverse rotational inertia of every static and of every kinematic body are zero, whatever mass data, fixtures, types and rotation flags were set before. It is not true that a static body stays where it is in a step: the constructor keeps the velocity of its definition, set_linear_velocity does nothing for it, and the island moves it with that velocity while an awake body touches it.", "quantifier": "all number types, all programs, all callbacks and routines, all worlds; the second part is a program in single precision with the island solver of the code", "why_tests_cant": "Mass is written by five calls and by every change of type or fixture, in any order and any number of times.", "anchors": ["src/private/dynamics/b2_body.rs: b2_body, set_type, reset_mass_data, set_mass_data", "src/b2_body.rs: set_linear_velocity", "src/private/dynamics/b2_island_private.rs: solve"]}
{"id": "C109", "title": "Static and kinematic bodies at rest stay where they are", "statement": "In a world a program can get, a static or kinematic body whose velocity is zero has, after any number of steps of any sizes, exactly the same position and angle, still has velocity zero and the same type, whatever touches it, falls on it or overlaps it.", "quantifier": "all programs, all worlds, all numbers and sizes of steps, all islands and contacts, all callbacks and collision routines that answer, all joint solvers that leave the body alone; the island solver is the one of the code; without the continuous phase; in exact arithmetic", "why_tests_cant": "In every step a body can be in many islands, and every contact of each island corrects both of its bodies in every iteration.", "anchors": ["src/private/dynamics/b2_world.rs: step, solve", "src/private/dynamics/b2_island_private.rs: solve", "src/private/dynamics/b2_contact_solver_private.rs"]}
{"id": "C110", "title": "Kinematic bodies move with their own velocity", "statement": "In a world a program can get, a kinematic body that is awake and enabled moves in every completed step by exactly its own velocity times the size of the step, and turns by its own angular velocity times that size, both cut only if they pass the limits of the code. It keeps that velocity or is put to sleep with velocity zero. What it touches or pushes does not change this.", "quantifier": "all programs, all worlds, all sizes of steps above zero, all islands and contacts, all callbacks and collision routines that answer, all joint solvers that leave the body alone; the island solver is the one of the code; without the continuous phase; in exact arithmetic", "why_tests_cant": "The body has to be moved exactly once, in one island out of any number, after any number of contact corrections.", "anchors": ["src/private/dynamics/b2_world.rs: step, solve", "src/private/dynamics/b2_island_private.rs: solve", "src/private/dynamics/b2_contact_solver_private.rs"]}
{"id": "C111", "title": "A step that takes no time moves no body", "statement": "A step whose size is not above zero, also one that is negative or not a number, makes and removes no body, and leaves the transform, the sweep, the velocities, the type, the masses, the fixtures and the joints of every body exactly as they were. It may find or end contacts, wake bodies and clear forces.", "quantifier": "all number types with every rounding, all worlds, all sizes that do not compare above zero, all callbacks, collision routines and solvers", "why_tests_cant": "Finding and updating contacts writes to bodies, for any number of contacts and callbacks.", "anchors": ["src/private/dynamics/b2_world.rs: step", "src/private/dynamics/b2_contact_manager.rs: collide, find_new_contacts", "src/private/dynamics/b2_contact.rs: update"]}
