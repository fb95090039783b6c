# Formal model of box2d-rs: design

Target: the Rust sources in `/repo/src` (box2d-rs). Prover: Coq 8.16.1. Everything is in
`rocq/theories`, logical name `Verif`.

## How the code is modelled

* A Rust function becomes a total Gallina function. `&mut self` becomes a function that returns the new
  value. `b2_assert`, index out of bounds, `unwrap` on `None` and RefCell borrow errors are the explicit
  value `Panic` of the result type `res` (`Base.v`). Loops are recursion on fuel; running out of fuel is the separate
  value `Fuel`, and theorems conclude `Ok`, so they also state termination.
* Every definition of a model file cites the Rust file and lines it follows.
* Numbers: the numeric code is written once over a class `Num` of arithmetic operations (`Num.v`) and
  used at two instances: `binary32` of Flocq (exactly IEEE-754 single precision, round to nearest even,
  one NaN) and `R` (exact real arithmetic). A theorem says which one it is about. Theorems about the
  pointer structure hold for *every* `Num` instance, thus for all float values including NaN. Theorems
  over `R` describe the algorithm without rounding; that is a simplification and is stated in each.
* `i32` node ids are `nat`, the null id -1 is `None` (`x as usize` with -1 is out of bounds, hence a
  panic, as in the model). Heights/counts are `Z`/`nat`; overflow of `i32` counters (more than 2^30 nodes) is
  not modelled, except where the property is about overflow (C56).
* `sin`/`cos`/`atan2` are a second class, `NumTrig`. Its instance at `R` is the real functions. There is no binary32
  instance: theorems about binary32 code that turns a body hold for every `NumTrig`; examples use a stub that is right at angle 0.
  Likewise `NumRope` (`atan2` and `exp` of the rope), whose instance at `R` is the real angle of a vector and `exp`.
* A theorem named `..._partial` proves less than the property says; the comment above it says what is missing. `..._refuted`
  shows that the property is false of the model, with a computed witness.

## Files

Each part of the code has a model `*Model.v` (or `Math.v`, `Manifold.v`, `Collision.v`, `Filter.v`), a specification `*Spec.v` that
does not use the model's helper functions, proof files, `*Examples.v` with concrete cases, and `Prop_*.v` with only the property
theorems, each closed by `exact`, followed by `Print Assumptions` and an `Example`.

| part | code | model | specification | proofs |
|------|------|-------|---------------|--------|
| growable stack | b2_growable_stack.rs | StackModel | StackSpec | StackProofs |
| linked lists | b2rs_*linked_list.rs | ListModel | ListSpec | ListProofs |
| dynamic tree | b2_dynamic_tree.rs, both | TreeModel | TreeSpec | Tree* |
| broad phase | b2_broad_phase.rs, both | BroadModel | BroadSpec | BroadProofs, BroadFinal |
| math | b2_math.rs, both | Math | MathSpec | MathProofs |
| shapes | b2_{circle,edge,polygon,chain}_shape.rs | ShapeModel | ShapeSpec, GeomSpec | ShapeProofs |
| convex hulls, polygon mass | private/collision/b2_polygon_shape.rs | ShapeModel | HullSpec | Hull* |
| narrow phase | b2_collide_*.rs, b2_collision.rs | CollideModel, Manifold, Collision | GeomSpec | ManifoldProofs |
| circles and polygons against polygons, circles against edges | b2_collide_{circle,edge,polygon}.rs | CollideModel | CollideSpec | PolyCircle, EdgeCircle, PolyPoly |
| polygons against edges | b2_collide_edge.rs | CollideModel | EdgePolySpec | EdgePoly |
| feature ids of contact points | b2_collision.rs, b2_collide_polygon.rs, b2_collide_edge.rs, b2_contact.rs (matching ids) | Manifold, CollideModel, WorldModel (carry) | IdSpec | IdProofs |
| sensors: overlap of the placed shapes, touching flag | b2_contact.rs:148-163 (b2_contact_update), b2_collision.rs (b2_test_overlap) | SenseModel, DistModel | SenseSpec | SenseProofs, SenseBox, SenseFinal |
| bodies, fixtures | b2_body.rs, b2_fixture.rs, both | DynModel | DynSpec | DynProofs |
| world, contacts, islands | b2_world.rs, b2_contact_manager.rs, b2_contact.rs, both | WorldModel | WorldClaims, WorldSpec, WorldCalls, SafeSpec | World* |
| the solver inside a step; bodies that nothing touches | b2_world.rs:381-508, 903-959, b2_island_private.rs:129-332 | SolveModel, IslandModel | FlightSpec | FlightProofs, FlightFinal |
| panics of the solver inside a step | b2_contact_solver_private.rs, b2_island_private.rs, b2_world.rs (solve) | SolveModel, SolverModel | CrashSpec | CrashProofs, CrashWorld |
| touching contacts and their points over a whole program | b2_contact.rs (update), b2_contact_solver_private.rs, b2_world.rs | WorldModel, SolveModel | TouchSpec | TouchProofs, TouchFinal |
| static and kinematic bodies in the solver, the solver of an impact | b2_island_private.rs (solve, solve_toi), b2_contact_solver_private.rs | IslandModel, SolveModel | FirmSpec | FirmProofs, FirmReturn |
| masses of static and kinematic bodies; a static body that drifts | b2_body.rs (constructor, set_type, reset_mass_data, set_mass_data), b2_world.rs (all calls) | DynModel, WorldModel, SolveModel | MassSpec | MassProofs, MassExamples |
| static and kinematic bodies at rest over whole steps | b2_world.rs (step, solve), b2_island_private.rs (solve) | WorldModel, SolveModel, IslandModel | StillSpec | StillProofs, StillExamples |
| moving kinematic bodies over whole steps | b2_world.rs (step, solve), b2_island_private.rs (solve) | WorldModel, SolveModel, IslandModel | GlideSpec | GlideProofs, GlideExamples |
| steps of size zero, negative or not a number | b2_world.rs (step) | WorldModel | IdleSpec | IdleProofs, IdleExamples |
| queries of the world, boxes of the broad phase | b2_world.rs (query_aabb, ray_cast) | QueryModel, WorldModel | CoverSpec, QuerySpec | Cover*, RayShapes, QueryProofs, RayProofs |
| which contacts exist; worlds at rest | b2_world.rs, b2_contact_manager.rs, b2_broad_phase.rs | WorldModel | PairSpec, SleepSpec | Pair*, SleepProofs |
| contacts during a step | b2_contact_manager.rs (collide), b2_contact.rs, contacts/*.rs (evaluate) | WorldModel, NarrowModel | FrontSpec, NarrowSpec | Front*, OrderProofs, Narrow* |
| contact solver | b2_contact_solver_private.rs | SolverModel | SolverSpec | Solver* |
| island | b2_island_private.rs | IslandModel | SolverSpec | SolverPos, IslandProofs |
| distance, shape cast, overlap | b2_distance.rs, both; b2_test_overlap | DistModel | DistSpec | DistProofs, Gjk*, DistChain, CastProofs |
| time of impact | b2_time_of_impact.rs | ToiModel | ToiSpec | ToiProofs |
| joint solvers | private/dynamics/joints/*.rs, all ten | JointModel | JointSpec | Joint* |
| joint definitions, construction, getters, setters | joints/*.rs, private/dynamics/joints/*.rs, private/dynamics/b2_joint.rs | JointDefModel | JointDefSpec | JointFresh, JointFresh2, JointSpeed, JointReact, JointSpring, JointRope, JointSet, JointShift |
| rope | b2_rope.rs, private/rope/b2_rope.rs | RopeModel | RopeSpec | RopeTotal, RopeReal, RopeLinks, RopeBend, RopeRest |
| saving and loading | serialize/*.rs, joints/serialize/*.rs | SerialModel | SerialSpec | Serial* |

## The world model

* The heap of `Rc<RefCell<..>>` objects is a record of tables (bodies, fixtures, contacts, joints), indexed by numbers that are never reused.
  Using the number of a destroyed object is a panic of the model. RefCell borrows held across callbacks are modelled where the
  code holds them (`WorldModel.v`), so a re-entrant borrow is a panic.
* Collision routines, the solver of an island, the listener and the filter are arbitrary functions (`env`). A listener
  may change the contact it is told about (enabled, friction, restitution, tangent speed), not other objects.
* Listeners are given when the world is made; changing them later is not modelled. Shifting the origin does not touch joints. The assertion of
  `set_density` is left out. Profiling times are left out.
* In the island model the body, contact and joint lists have exactly the length in use (the code reserves capacity). Joints
  of an island are any functions on velocities and positions. `G_BLOCK_SOLVE` is a parameter.
* The joint model has the three solver functions of each joint kind. What a joint reads from its bodies (index, mass, inertia, local centre) is
  copied at init, as in the code. Each joint is given its bodies by value (`jin`); a gear joint also gets bodies c and d.
* `JointDefModel.v` has `initialize` and `new` of each joint kind, the getters of anchors, angles, speeds, reaction forces and torques, the setters of
  limits and lengths, `shift_origin` and the stiffness helpers. The bodies are arguments; that setters wake the bodies is left out. A gear joint
  reads the anchors and angles of its two joints through their kinds. Derivatives in `JointSpeed.v` are stated with the standard
  library (`derivable_pt_lim`) and proved with Coquelicot, which adds no axiom.

* Queries (`QueryModel.v`): the callback is any function of its own state; it cannot change the world (the code lends it the fixture only). Reported
  fixtures are numbers. The theorems on queries (C71 to C73) are for `treach`: programs that make static bodies without velocity and have
  no kinematic bodies in a step with continuous physics, with a solver that leaves static bodies at rest (`holds_static`).
* The theorems on which contacts exist (C89, C90) are for `preach`: programs that do not destroy a joint that forbids contacts (its body may be
  destroyed), and for the contact filter the library has by default (`plain_filter`).
* `NarrowModel.v` has the `evaluate` functions of the contact classes. `narrow E` says that the environment answers as they do; C93 and C94 assume it.
  Contacts are looked at after `step_front` (WorldClaims.v), the start of a step up to the solver.

## The distance model

* A proxy owns its vertices (the code borrows the buffer of the shape). The array of three simplex vertices is three fields. Vertices beyond the count
  keep their old values, weights included, as in the code. Statistics counters and timers are left out.
* The cache stores vertex numbers truncated to 8 bits, as the code does; `cache_fits` (vertex numbers in range) holds for the empty cache and is preserved.
* The search of the time of impact is written over any distance and separation functions (`toi_loop`), then used with those of the code (`time_of_impact`).
  The world model still takes the time of impact from its `env`.

## The model of saving and loading

* A saved world is a record of lists of definitions (`file`). Trusted: the data format (serde) returns the fields it was given, in their order.
* A joint is its bodies, its kind and the rest of its definition as one opaque value. User data of bodies is left out. Numbers of bodies and joints
  fit in `i32`.
* Body numbers in a file are places in the body list of the saved world. Loading puts every new body at the front and then reads the
  numbers as places of the new list, which is the old one turned round. So a loaded joint is between other bodies (C58 is refuted).

## What was found to be false

C02 (removing from the double list), C09 and C11 (empty tree), C10 (stale proxy ids), C12 (balance), C15, C22, C25, C27, C28, C31 (a NaN
velocity sleeps), C33 (TOI island of more than 64 bodies), C34 (friction impulse NaN), C41, C42, C47, C49 (witness points after 20
iterations), C50 (single precision), C54, C56, C58 (joints of a loaded world), C59 (set_filter_data
panics), C61 (equal limits hold the joint at 0), C70 (overlapping polygons without a contact), C71 (boxes of static bodies with a velocity), C74 (a gear joint
keeps the bodies of its definition), C76 (reported reactions of pulley and gear joints, and of a distance joint without warm starting), C78 (a rope pushes when
warm starting is off), C79 (revolute and wheel joints made with limits out of order), C82 (f32: neighbours without mass), C83
(the height model on a folded rope), C86 (f32: the default stretch_hertz), C87 (the triangle model), C88 (heights of an old rope),
C89 (a destroyed joint; f32: shifting the origin), C91 (contacts that wait for filtering), C99 (an edge inside a polygon without a contact), C100 (a one-sided edge
pushes to the back), C101 (two points of an edge contact with the same id), C104 (a sensor made solid
while its body and its neighbour are put to sleep makes the next step panic). The witnesses are in the `..._refuted` theorems.

What is left out: drawing, timers, profiling data, user-data payloads, and the bit-level behaviour of `sin/cos/atan2`.

## Trusted base

* The Coq kernel, and `vm_compute`.
* The axioms listed by `Print Assumptions` below each theorem. Only standard-library axioms are used: those of the
  classical real numbers (`ClassicalDedekindReals.sig_forall_dec`, `ClassicalDedekindReals.sig_not_dec`,
  `FunctionalExtensionality.functional_extensionality_dep`, `Classical_Prop.classic`), which come in with
  `Reals` and hence Flocq. Theorems that do not mention reals or floats are closed under the global context.
* My reading of the Rust sources (no extraction, no execution of the Rust code).
