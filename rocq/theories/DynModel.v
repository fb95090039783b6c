(** The data of the dynamics part and the functions that act on one body or one fixture.
    Sources: /repo/src/b2_body.rs ("body"), /repo/src/private/dynamics/b2_body.rs ("pbody"),
    /repo/src/b2_fixture.rs ("fix"), /repo/src/private/dynamics/b2_fixture.rs ("pfix"),
    /repo/src/b2_contact.rs ("con"), /repo/src/b2_joint.rs ("joint").

    Simplifications: objects are ids into tables, Rc/Weak/RefCell are not modelled (a Weak of a destroyed object
    cannot be upgraded: panic); user data is left out; m_fixture_count and m_proxy_count (i32) are [nat]; the
    intrusive lists of a body are plain lists (theorems C02_*: the linked lists behave like them). The sets of bit
    flags are records of booleans. The [set_*] functions only write one field. *)
From Coq Require Import List ZArith Bool Arith.
From Verif Require Import Base Num Math Collision Manifold Filter ShapeModel.
Import ListNotations.

(* b2_math.rs:9-11 b2_is_valid = f32::is_finite *)
Class NumValid (T : Type) : Type := { b2_is_valid : T -> bool }.
#[global] Instance F32_Valid : NumValid f32 := { b2_is_valid := fun x => Flocq.IEEE754.BinarySingleNaN.is_finite x }.
#[global] Instance R_Valid : NumValid Rdefinitions.R := { b2_is_valid := fun _ => true }.

(* body:17-29 B2bodyType *)
Inductive btype := StaticBody | KinematicBody | DynamicBody.
Definition btype_eqb (a b : btype) : bool :=
  match a, b with StaticBody, StaticBody | KinematicBody, KinematicBody | DynamicBody, DynamicBody => true | _, _ => false end.

(* b2_shape.rs:25-31 B2ShapeType and the trait object *)
Inductive shape (T : Type) :=
| ShCircle (c : circle T)
| ShEdge (e : edge T)
| ShPolygon (p : polygon T)
| ShChain (c : chain T).
Arguments ShCircle {T} c.
Arguments ShEdge {T} e.
Arguments ShPolygon {T} p.
Arguments ShChain {T} c.

(* body:211-221 BodyFlags *)
Record bflags := BFlags {
  fl_island : bool;
  fl_awake : bool;
  fl_auto_sleep : bool;
  fl_bullet : bool;
  fl_fixed_rotation : bool;
  fl_enabled : bool;
  fl_toi : bool }.
Definition set_fl_island (v : bool) (r : bflags) : bflags := BFlags v (fl_awake r) (fl_auto_sleep r) (fl_bullet r) (fl_fixed_rotation r) (fl_enabled r) (fl_toi r).
Definition set_fl_awake (v : bool) (r : bflags) : bflags := BFlags (fl_island r) v (fl_auto_sleep r) (fl_bullet r) (fl_fixed_rotation r) (fl_enabled r) (fl_toi r).
Definition set_fl_auto_sleep (v : bool) (r : bflags) : bflags := BFlags (fl_island r) (fl_awake r) v (fl_bullet r) (fl_fixed_rotation r) (fl_enabled r) (fl_toi r).
Definition set_fl_bullet (v : bool) (r : bflags) : bflags := BFlags (fl_island r) (fl_awake r) (fl_auto_sleep r) v (fl_fixed_rotation r) (fl_enabled r) (fl_toi r).
Definition set_fl_fixed_rotation (v : bool) (r : bflags) : bflags := BFlags (fl_island r) (fl_awake r) (fl_auto_sleep r) (fl_bullet r) v (fl_enabled r) (fl_toi r).
Definition set_fl_enabled (v : bool) (r : bflags) : bflags := BFlags (fl_island r) (fl_awake r) (fl_auto_sleep r) (fl_bullet r) (fl_fixed_rotation r) v (fl_toi r).
Definition set_fl_toi (v : bool) (r : bflags) : bflags := BFlags (fl_island r) (fl_awake r) (fl_auto_sleep r) (fl_bullet r) (fl_fixed_rotation r) (fl_enabled r) v.

(* a contact edge (con:83-92) or joint edge (joint:103-112) in the list of a body: [ge_item] is the contact or joint,
   [ge_side] tells whether it is its node a (true) or node b (false), [ge_other] is the other body *)
Record gedge := GEdge { ge_item : nat; ge_side : bool; ge_other : nat }.

(* body:154-198 B2body; m_world, m_prev, m_next, m_user_data are not modelled *)
Record body (T : Type) := Body {
  b_type : btype;
  b_flags : bflags;
  b_island_index : Z;
  b_xf : xform T;
  b_sweep : sweep T;
  b_lv : vec2 T;
  b_av : T;
  b_force : vec2 T;
  b_torque : T;
  b_fixtures : list nat;
  b_fixture_count : nat;
  b_joints : list gedge;
  b_contacts : list gedge;
  b_mass : T;
  b_inv_mass : T;
  b_i : T;
  b_inv_i : T;
  b_linear_damping : T;
  b_angular_damping : T;
  b_gravity_scale : T;
  b_sleep_time : T }.
Arguments Body {T} _ _ _ _ _ _ _ _ _ _ _ _ _ _ _ _ _ _ _ _ _.
Arguments b_type {T} _.
Arguments b_flags {T} _.
Arguments b_island_index {T} _.
Arguments b_xf {T} _.
Arguments b_sweep {T} _.
Arguments b_lv {T} _.
Arguments b_av {T} _.
Arguments b_force {T} _.
Arguments b_torque {T} _.
Arguments b_fixtures {T} _.
Arguments b_fixture_count {T} _.
Arguments b_joints {T} _.
Arguments b_contacts {T} _.
Arguments b_mass {T} _.
Arguments b_inv_mass {T} _.
Arguments b_i {T} _.
Arguments b_inv_i {T} _.
Arguments b_linear_damping {T} _.
Arguments b_angular_damping {T} _.
Arguments b_gravity_scale {T} _.
Arguments b_sleep_time {T} _.
Definition set_b_type {T} (v : btype) (r : body T) : body T := Body v (b_flags r) (b_island_index r) (b_xf r) (b_sweep r) (b_lv r) (b_av r) (b_force r) (b_torque r) (b_fixtures r) (b_fixture_count r) (b_joints r) (b_contacts r) (b_mass r) (b_inv_mass r) (b_i r) (b_inv_i r) (b_linear_damping r) (b_angular_damping r) (b_gravity_scale r) (b_sleep_time r).
Definition set_b_flags {T} (v : bflags) (r : body T) : body T := Body (b_type r) v (b_island_index r) (b_xf r) (b_sweep r) (b_lv r) (b_av r) (b_force r) (b_torque r) (b_fixtures r) (b_fixture_count r) (b_joints r) (b_contacts r) (b_mass r) (b_inv_mass r) (b_i r) (b_inv_i r) (b_linear_damping r) (b_angular_damping r) (b_gravity_scale r) (b_sleep_time r).
Definition set_b_island_index {T} (v : Z) (r : body T) : body T := Body (b_type r) (b_flags r) v (b_xf r) (b_sweep r) (b_lv r) (b_av r) (b_force r) (b_torque r) (b_fixtures r) (b_fixture_count r) (b_joints r) (b_contacts r) (b_mass r) (b_inv_mass r) (b_i r) (b_inv_i r) (b_linear_damping r) (b_angular_damping r) (b_gravity_scale r) (b_sleep_time r).
Definition set_b_xf {T} (v : xform T) (r : body T) : body T := Body (b_type r) (b_flags r) (b_island_index r) v (b_sweep r) (b_lv r) (b_av r) (b_force r) (b_torque r) (b_fixtures r) (b_fixture_count r) (b_joints r) (b_contacts r) (b_mass r) (b_inv_mass r) (b_i r) (b_inv_i r) (b_linear_damping r) (b_angular_damping r) (b_gravity_scale r) (b_sleep_time r).
Definition set_b_sweep {T} (v : sweep T) (r : body T) : body T := Body (b_type r) (b_flags r) (b_island_index r) (b_xf r) v (b_lv r) (b_av r) (b_force r) (b_torque r) (b_fixtures r) (b_fixture_count r) (b_joints r) (b_contacts r) (b_mass r) (b_inv_mass r) (b_i r) (b_inv_i r) (b_linear_damping r) (b_angular_damping r) (b_gravity_scale r) (b_sleep_time r).
Definition set_b_lv {T} (v : vec2 T) (r : body T) : body T := Body (b_type r) (b_flags r) (b_island_index r) (b_xf r) (b_sweep r) v (b_av r) (b_force r) (b_torque r) (b_fixtures r) (b_fixture_count r) (b_joints r) (b_contacts r) (b_mass r) (b_inv_mass r) (b_i r) (b_inv_i r) (b_linear_damping r) (b_angular_damping r) (b_gravity_scale r) (b_sleep_time r).
Definition set_b_av {T} (v : T) (r : body T) : body T := Body (b_type r) (b_flags r) (b_island_index r) (b_xf r) (b_sweep r) (b_lv r) v (b_force r) (b_torque r) (b_fixtures r) (b_fixture_count r) (b_joints r) (b_contacts r) (b_mass r) (b_inv_mass r) (b_i r) (b_inv_i r) (b_linear_damping r) (b_angular_damping r) (b_gravity_scale r) (b_sleep_time r).
Definition set_b_force {T} (v : vec2 T) (r : body T) : body T := Body (b_type r) (b_flags r) (b_island_index r) (b_xf r) (b_sweep r) (b_lv r) (b_av r) v (b_torque r) (b_fixtures r) (b_fixture_count r) (b_joints r) (b_contacts r) (b_mass r) (b_inv_mass r) (b_i r) (b_inv_i r) (b_linear_damping r) (b_angular_damping r) (b_gravity_scale r) (b_sleep_time r).
Definition set_b_torque {T} (v : T) (r : body T) : body T := Body (b_type r) (b_flags r) (b_island_index r) (b_xf r) (b_sweep r) (b_lv r) (b_av r) (b_force r) v (b_fixtures r) (b_fixture_count r) (b_joints r) (b_contacts r) (b_mass r) (b_inv_mass r) (b_i r) (b_inv_i r) (b_linear_damping r) (b_angular_damping r) (b_gravity_scale r) (b_sleep_time r).
Definition set_b_fixtures {T} (v : list nat) (r : body T) : body T := Body (b_type r) (b_flags r) (b_island_index r) (b_xf r) (b_sweep r) (b_lv r) (b_av r) (b_force r) (b_torque r) v (b_fixture_count r) (b_joints r) (b_contacts r) (b_mass r) (b_inv_mass r) (b_i r) (b_inv_i r) (b_linear_damping r) (b_angular_damping r) (b_gravity_scale r) (b_sleep_time r).
Definition set_b_fixture_count {T} (v : nat) (r : body T) : body T := Body (b_type r) (b_flags r) (b_island_index r) (b_xf r) (b_sweep r) (b_lv r) (b_av r) (b_force r) (b_torque r) (b_fixtures r) v (b_joints r) (b_contacts r) (b_mass r) (b_inv_mass r) (b_i r) (b_inv_i r) (b_linear_damping r) (b_angular_damping r) (b_gravity_scale r) (b_sleep_time r).
Definition set_b_joints {T} (v : list gedge) (r : body T) : body T := Body (b_type r) (b_flags r) (b_island_index r) (b_xf r) (b_sweep r) (b_lv r) (b_av r) (b_force r) (b_torque r) (b_fixtures r) (b_fixture_count r) v (b_contacts r) (b_mass r) (b_inv_mass r) (b_i r) (b_inv_i r) (b_linear_damping r) (b_angular_damping r) (b_gravity_scale r) (b_sleep_time r).
Definition set_b_contacts {T} (v : list gedge) (r : body T) : body T := Body (b_type r) (b_flags r) (b_island_index r) (b_xf r) (b_sweep r) (b_lv r) (b_av r) (b_force r) (b_torque r) (b_fixtures r) (b_fixture_count r) (b_joints r) v (b_mass r) (b_inv_mass r) (b_i r) (b_inv_i r) (b_linear_damping r) (b_angular_damping r) (b_gravity_scale r) (b_sleep_time r).
Definition set_b_mass {T} (v : T) (r : body T) : body T := Body (b_type r) (b_flags r) (b_island_index r) (b_xf r) (b_sweep r) (b_lv r) (b_av r) (b_force r) (b_torque r) (b_fixtures r) (b_fixture_count r) (b_joints r) (b_contacts r) v (b_inv_mass r) (b_i r) (b_inv_i r) (b_linear_damping r) (b_angular_damping r) (b_gravity_scale r) (b_sleep_time r).
Definition set_b_inv_mass {T} (v : T) (r : body T) : body T := Body (b_type r) (b_flags r) (b_island_index r) (b_xf r) (b_sweep r) (b_lv r) (b_av r) (b_force r) (b_torque r) (b_fixtures r) (b_fixture_count r) (b_joints r) (b_contacts r) (b_mass r) v (b_i r) (b_inv_i r) (b_linear_damping r) (b_angular_damping r) (b_gravity_scale r) (b_sleep_time r).
Definition set_b_i {T} (v : T) (r : body T) : body T := Body (b_type r) (b_flags r) (b_island_index r) (b_xf r) (b_sweep r) (b_lv r) (b_av r) (b_force r) (b_torque r) (b_fixtures r) (b_fixture_count r) (b_joints r) (b_contacts r) (b_mass r) (b_inv_mass r) v (b_inv_i r) (b_linear_damping r) (b_angular_damping r) (b_gravity_scale r) (b_sleep_time r).
Definition set_b_inv_i {T} (v : T) (r : body T) : body T := Body (b_type r) (b_flags r) (b_island_index r) (b_xf r) (b_sweep r) (b_lv r) (b_av r) (b_force r) (b_torque r) (b_fixtures r) (b_fixture_count r) (b_joints r) (b_contacts r) (b_mass r) (b_inv_mass r) (b_i r) v (b_linear_damping r) (b_angular_damping r) (b_gravity_scale r) (b_sleep_time r).
Definition set_b_linear_damping {T} (v : T) (r : body T) : body T := Body (b_type r) (b_flags r) (b_island_index r) (b_xf r) (b_sweep r) (b_lv r) (b_av r) (b_force r) (b_torque r) (b_fixtures r) (b_fixture_count r) (b_joints r) (b_contacts r) (b_mass r) (b_inv_mass r) (b_i r) (b_inv_i r) v (b_angular_damping r) (b_gravity_scale r) (b_sleep_time r).
Definition set_b_angular_damping {T} (v : T) (r : body T) : body T := Body (b_type r) (b_flags r) (b_island_index r) (b_xf r) (b_sweep r) (b_lv r) (b_av r) (b_force r) (b_torque r) (b_fixtures r) (b_fixture_count r) (b_joints r) (b_contacts r) (b_mass r) (b_inv_mass r) (b_i r) (b_inv_i r) (b_linear_damping r) v (b_gravity_scale r) (b_sleep_time r).
Definition set_b_gravity_scale {T} (v : T) (r : body T) : body T := Body (b_type r) (b_flags r) (b_island_index r) (b_xf r) (b_sweep r) (b_lv r) (b_av r) (b_force r) (b_torque r) (b_fixtures r) (b_fixture_count r) (b_joints r) (b_contacts r) (b_mass r) (b_inv_mass r) (b_i r) (b_inv_i r) (b_linear_damping r) (b_angular_damping r) v (b_sleep_time r).
Definition set_b_sleep_time {T} (v : T) (r : body T) : body T := Body (b_type r) (b_flags r) (b_island_index r) (b_xf r) (b_sweep r) (b_lv r) (b_av r) (b_force r) (b_torque r) (b_fixtures r) (b_fixture_count r) (b_joints r) (b_contacts r) (b_mass r) (b_inv_mass r) (b_i r) (b_inv_i r) (b_linear_damping r) (b_angular_damping r) (b_gravity_scale r) v.

(* body:91-138 B2bodyDef *)
Record body_def (T : Type) := BodyDef {
  bd_type : btype; bd_position : vec2 T; bd_angle : T; bd_lv : vec2 T; bd_av : T; bd_linear_damping : T;
  bd_angular_damping : T; bd_allow_sleep : bool; bd_awake : bool; bd_fixed_rotation : bool; bd_bullet : bool;
  bd_enabled : bool; bd_gravity_scale : T }.
Arguments bd_type {T} _.
Arguments bd_position {T} _.
Arguments bd_angle {T} _.
Arguments bd_lv {T} _.
Arguments bd_av {T} _.
Arguments bd_linear_damping {T} _.
Arguments bd_angular_damping {T} _.
Arguments bd_allow_sleep {T} _.
Arguments bd_awake {T} _.
Arguments bd_fixed_rotation {T} _.
Arguments bd_bullet {T} _.
Arguments bd_enabled {T} _.
Arguments bd_gravity_scale {T} _.
Arguments BodyDef {T} _ _ _ _ _ _ _ _ _ _ _ _ _.

(* fix:98-103 B2fixtureProxy *)
Record fproxy (T : Type) := FProxy {
  fp_aabb : aabb T;
  fp_fixture : option nat;
  fp_child : nat;
  fp_id : option nat }.
Arguments FProxy {T} _ _ _ _.
Arguments fp_aabb {T} _.
Arguments fp_fixture {T} _.
Arguments fp_child {T} _.
Arguments fp_id {T} _.
Definition set_fp_aabb {T} (v : aabb T) (r : fproxy T) : fproxy T := FProxy v (fp_fixture r) (fp_child r) (fp_id r).
Definition set_fp_fixture {T} (v : option nat) (r : fproxy T) : fproxy T := FProxy (fp_aabb r) v (fp_child r) (fp_id r).
Definition set_fp_child {T} (v : nat) (r : fproxy T) : fproxy T := FProxy (fp_aabb r) (fp_fixture r) v (fp_id r).
Definition set_fp_id {T} (v : option nat) (r : fproxy T) : fproxy T := FProxy (fp_aabb r) (fp_fixture r) (fp_child r) v.

(* fix:124-145 B2fixture *)
Record fixture (T : Type) := Fixture {
  f_density : T;
  f_body : option nat;
  f_shape : shape T;
  f_friction : T;
  f_restitution : T;
  f_threshold : T;
  f_proxies : list (fproxy T);
  f_proxy_count : nat;
  f_filter : filter;
  f_sensor : bool }.
Arguments Fixture {T} _ _ _ _ _ _ _ _ _ _.
Arguments f_density {T} _.
Arguments f_body {T} _.
Arguments f_shape {T} _.
Arguments f_friction {T} _.
Arguments f_restitution {T} _.
Arguments f_threshold {T} _.
Arguments f_proxies {T} _.
Arguments f_proxy_count {T} _.
Arguments f_filter {T} _.
Arguments f_sensor {T} _.
Definition set_f_density {T} (v : T) (r : fixture T) : fixture T := Fixture v (f_body r) (f_shape r) (f_friction r) (f_restitution r) (f_threshold r) (f_proxies r) (f_proxy_count r) (f_filter r) (f_sensor r).
Definition set_f_body {T} (v : option nat) (r : fixture T) : fixture T := Fixture (f_density r) v (f_shape r) (f_friction r) (f_restitution r) (f_threshold r) (f_proxies r) (f_proxy_count r) (f_filter r) (f_sensor r).
Definition set_f_shape {T} (v : shape T) (r : fixture T) : fixture T := Fixture (f_density r) (f_body r) v (f_friction r) (f_restitution r) (f_threshold r) (f_proxies r) (f_proxy_count r) (f_filter r) (f_sensor r).
Definition set_f_friction {T} (v : T) (r : fixture T) : fixture T := Fixture (f_density r) (f_body r) (f_shape r) v (f_restitution r) (f_threshold r) (f_proxies r) (f_proxy_count r) (f_filter r) (f_sensor r).
Definition set_f_restitution {T} (v : T) (r : fixture T) : fixture T := Fixture (f_density r) (f_body r) (f_shape r) (f_friction r) v (f_threshold r) (f_proxies r) (f_proxy_count r) (f_filter r) (f_sensor r).
Definition set_f_threshold {T} (v : T) (r : fixture T) : fixture T := Fixture (f_density r) (f_body r) (f_shape r) (f_friction r) (f_restitution r) v (f_proxies r) (f_proxy_count r) (f_filter r) (f_sensor r).
Definition set_f_proxies {T} (v : list (fproxy T)) (r : fixture T) : fixture T := Fixture (f_density r) (f_body r) (f_shape r) (f_friction r) (f_restitution r) (f_threshold r) v (f_proxy_count r) (f_filter r) (f_sensor r).
Definition set_f_proxy_count {T} (v : nat) (r : fixture T) : fixture T := Fixture (f_density r) (f_body r) (f_shape r) (f_friction r) (f_restitution r) (f_threshold r) (f_proxies r) v (f_filter r) (f_sensor r).
Definition set_f_filter {T} (v : filter) (r : fixture T) : fixture T := Fixture (f_density r) (f_body r) (f_shape r) (f_friction r) (f_restitution r) (f_threshold r) (f_proxies r) (f_proxy_count r) v (f_sensor r).
Definition set_f_sensor {T} (v : bool) (r : fixture T) : fixture T := Fixture (f_density r) (f_body r) (f_shape r) (f_friction r) (f_restitution r) (f_threshold r) (f_proxies r) (f_proxy_count r) (f_filter r) v.

(* fix:61-92 B2fixtureDef *)
Record fixture_def (T : Type) := FixtureDef {
  fd_shape : shape T; fd_friction : T; fd_restitution : T; fd_threshold : T; fd_density : T; fd_sensor : bool; fd_filter : filter }.
Arguments fd_shape {T} _.
Arguments fd_friction {T} _.
Arguments fd_restitution {T} _.
Arguments fd_threshold {T} _.
Arguments fd_density {T} _.
Arguments fd_sensor {T} _.
Arguments fd_filter {T} _.
Arguments FixtureDef {T} _ _ _ _ _ _ _.

(* con:286-304 ContactFlags *)
Record cflags := CFlags {
  cf_island : bool;
  cf_touching : bool;
  cf_enabled : bool;
  cf_filter : bool;
  cf_bullet_hit : bool;
  cf_toi : bool }.
Definition set_cf_island (v : bool) (r : cflags) : cflags := CFlags v (cf_touching r) (cf_enabled r) (cf_filter r) (cf_bullet_hit r) (cf_toi r).
Definition set_cf_touching (v : bool) (r : cflags) : cflags := CFlags (cf_island r) v (cf_enabled r) (cf_filter r) (cf_bullet_hit r) (cf_toi r).
Definition set_cf_enabled (v : bool) (r : cflags) : cflags := CFlags (cf_island r) (cf_touching r) v (cf_filter r) (cf_bullet_hit r) (cf_toi r).
Definition set_cf_filter (v : bool) (r : cflags) : cflags := CFlags (cf_island r) (cf_touching r) (cf_enabled r) v (cf_bullet_hit r) (cf_toi r).
Definition set_cf_bullet_hit (v : bool) (r : cflags) : cflags := CFlags (cf_island r) (cf_touching r) (cf_enabled r) (cf_filter r) v (cf_toi r).
Definition set_cf_toi (v : bool) (r : cflags) : cflags := CFlags (cf_island r) (cf_touching r) (cf_enabled r) (cf_filter r) (cf_bullet_hit r) v.

(* con:310-339 B2contact; the two edges live in the lists of the bodies *)
Record contact (T : Type) := Contact {
  c_flags : cflags;
  c_fa : nat;
  c_fb : nat;
  c_ia : nat;
  c_ib : nat;
  c_manifold : manifold T;
  c_toi_count : Z;
  c_toi : T;
  c_friction : T;
  c_restitution : T;
  c_threshold : T;
  c_tangent_speed : T }.
Arguments Contact {T} _ _ _ _ _ _ _ _ _ _ _ _.
Arguments c_flags {T} _.
Arguments c_fa {T} _.
Arguments c_fb {T} _.
Arguments c_ia {T} _.
Arguments c_ib {T} _.
Arguments c_manifold {T} _.
Arguments c_toi_count {T} _.
Arguments c_toi {T} _.
Arguments c_friction {T} _.
Arguments c_restitution {T} _.
Arguments c_threshold {T} _.
Arguments c_tangent_speed {T} _.
Definition set_c_flags {T} (v : cflags) (r : contact T) : contact T := Contact v (c_fa r) (c_fb r) (c_ia r) (c_ib r) (c_manifold r) (c_toi_count r) (c_toi r) (c_friction r) (c_restitution r) (c_threshold r) (c_tangent_speed r).
Definition set_c_fa {T} (v : nat) (r : contact T) : contact T := Contact (c_flags r) v (c_fb r) (c_ia r) (c_ib r) (c_manifold r) (c_toi_count r) (c_toi r) (c_friction r) (c_restitution r) (c_threshold r) (c_tangent_speed r).
Definition set_c_fb {T} (v : nat) (r : contact T) : contact T := Contact (c_flags r) (c_fa r) v (c_ia r) (c_ib r) (c_manifold r) (c_toi_count r) (c_toi r) (c_friction r) (c_restitution r) (c_threshold r) (c_tangent_speed r).
Definition set_c_ia {T} (v : nat) (r : contact T) : contact T := Contact (c_flags r) (c_fa r) (c_fb r) v (c_ib r) (c_manifold r) (c_toi_count r) (c_toi r) (c_friction r) (c_restitution r) (c_threshold r) (c_tangent_speed r).
Definition set_c_ib {T} (v : nat) (r : contact T) : contact T := Contact (c_flags r) (c_fa r) (c_fb r) (c_ia r) v (c_manifold r) (c_toi_count r) (c_toi r) (c_friction r) (c_restitution r) (c_threshold r) (c_tangent_speed r).
Definition set_c_manifold {T} (v : manifold T) (r : contact T) : contact T := Contact (c_flags r) (c_fa r) (c_fb r) (c_ia r) (c_ib r) v (c_toi_count r) (c_toi r) (c_friction r) (c_restitution r) (c_threshold r) (c_tangent_speed r).
Definition set_c_toi_count {T} (v : Z) (r : contact T) : contact T := Contact (c_flags r) (c_fa r) (c_fb r) (c_ia r) (c_ib r) (c_manifold r) v (c_toi r) (c_friction r) (c_restitution r) (c_threshold r) (c_tangent_speed r).
Definition set_c_toi {T} (v : T) (r : contact T) : contact T := Contact (c_flags r) (c_fa r) (c_fb r) (c_ia r) (c_ib r) (c_manifold r) (c_toi_count r) v (c_friction r) (c_restitution r) (c_threshold r) (c_tangent_speed r).
Definition set_c_friction {T} (v : T) (r : contact T) : contact T := Contact (c_flags r) (c_fa r) (c_fb r) (c_ia r) (c_ib r) (c_manifold r) (c_toi_count r) (c_toi r) v (c_restitution r) (c_threshold r) (c_tangent_speed r).
Definition set_c_restitution {T} (v : T) (r : contact T) : contact T := Contact (c_flags r) (c_fa r) (c_fb r) (c_ia r) (c_ib r) (c_manifold r) (c_toi_count r) (c_toi r) (c_friction r) v (c_threshold r) (c_tangent_speed r).
Definition set_c_threshold {T} (v : T) (r : contact T) : contact T := Contact (c_flags r) (c_fa r) (c_fb r) (c_ia r) (c_ib r) (c_manifold r) (c_toi_count r) (c_toi r) (c_friction r) (c_restitution r) v (c_tangent_speed r).
Definition set_c_tangent_speed {T} (v : T) (r : contact T) : contact T := Contact (c_flags r) (c_fa r) (c_fb r) (c_ia r) (c_ib r) (c_manifold r) (c_toi_count r) (c_toi r) (c_friction r) (c_restitution r) (c_threshold r) v.

(* joint:B2joint, the part all joint types share *)
Record joint := Joint {
  j_a : nat;
  j_b : nat;
  j_island : bool;
  j_collide : bool }.
Definition set_j_a (v : nat) (r : joint) : joint := Joint v (j_b r) (j_island r) (j_collide r).
Definition set_j_b (v : nat) (r : joint) : joint := Joint (j_a r) v (j_island r) (j_collide r).
Definition set_j_island (v : bool) (r : joint) : joint := Joint (j_a r) (j_b r) v (j_collide r).
Definition set_j_collide (v : bool) (r : joint) : joint := Joint (j_a r) (j_b r) (j_island r) v.

Section Dyn.
  Context {T : Type} `{NT : Num T}.
  Local Open Scope num_scope.

  (** ** shapes as trait objects: the dispatch of B2shapeDynTrait (b2_shape.rs:64-106) *)
  Definition shape_type (s : shape T) : nat :=
    match s with ShCircle _ => 0 | ShEdge _ => 1 | ShPolygon _ => 2 | ShChain _ => 3 end%nat.
  Definition shape_child_count (s : shape T) : res nat :=
    match s with ShCircle _ | ShEdge _ | ShPolygon _ => Ok 1%nat | ShChain c => chain_child_count c end.
  Definition shape_aabb (s : shape T) (xf : xform T) (child : nat) : res (aabb T) :=
    match s with
    | ShCircle c => Ok (circle_aabb c xf)
    | ShEdge e => Ok (edge_aabb e xf)
    | ShPolygon p => polygon_aabb p xf
    | ShChain c => chain_aabb c xf child
    end.
  Definition shape_mass (s : shape T) (density : T) : res (mass_data T) :=
    match s with
    | ShCircle c => Ok (circle_mass c density)
    | ShEdge e => Ok (edge_mass e density)
    | ShPolygon p => polygon_mass p density
    | ShChain c => Ok (chain_mass c density)
    end.
  Definition shape_radius (s : shape T) : T :=
    match s with ShCircle c => ci_radius c | ShEdge e => ed_radius e | ShPolygon p => po_radius p | ShChain c => ch_radius c end.

  (** ** flags *)
  Definition mod_flags (f : bflags -> bflags) (b : body T) : body T := set_b_flags (f (b_flags b)) b.
  Definition is_awake (b : body T) : bool := fl_awake (b_flags b).                     (* body:803-805 *)
  Definition is_enabled (b : body T) : bool := fl_enabled (b_flags b).                 (* body:807-809 *)
  Definition is_bullet (b : body T) : bool := fl_bullet (b_flags b).                   (* body:779-781 *)
  Definition is_static (b : body T) : bool := btype_eqb (b_type b) StaticBody.
  Definition is_dynamic (b : body T) : bool := btype_eqb (b_type b) DynamicBody.

  (* body:783-801 set_awake *)
  Definition set_awake (flag : bool) (b : body T) : body T :=
    if is_static b then b
    else
      let b := mod_flags (set_fl_awake flag) b in
      if flag then set_b_sleep_time #0 b
      else
        let b := set_b_sleep_time #0 b in
        let b := set_b_lv vzero b in
        let b := set_b_av #0 b in
        let b := set_b_force vzero b in
        set_b_torque #0 b.

  (* body:815-821 set_sleeping_allowed *)
  Definition set_sleeping_allowed (flag : bool) (b : body T) : body T :=
    let b := mod_flags (set_fl_auto_sleep flag) b in
    if flag then b else set_awake true b.

  (* body:672-682 set_linear_velocity *)
  Definition set_linear_velocity (v : vec2 T) (b : body T) : body T :=
    if is_static b then b
    else
      let b := if b2_dot v v >? #0 then set_awake true b else b in
      set_b_lv v b.
  (* body:688-698 set_angular_velocity *)
  Definition set_angular_velocity (w : T) (b : body T) : body T :=
    if is_static b then b
    else
      let b := if w * w >? #0 then set_awake true b else b in
      set_b_av w b.

  (* the common first part of body:869-972 *)
  Definition wake_if (wake : bool) (b : body T) : body T := if wake && negb (is_awake b) then set_awake true b else b.
  (* body:869-888 apply_force *)
  Definition apply_force (force point : vec2 T) (wake : bool) (b : body T) : body T :=
    if negb (is_dynamic b) then b
    else
      let b := wake_if wake b in
      if is_awake b then
        let b := set_b_force (vadd (b_force b) force) b in
        set_b_torque (b_torque b + b2_cross (vsub point (sw_c (b_sweep b))) force) b
      else b.
  (* body:890-903 apply_force_to_center *)
  Definition apply_force_to_center (force : vec2 T) (wake : bool) (b : body T) : body T :=
    if negb (is_dynamic b) then b
    else
      let b := wake_if wake b in
      if is_awake b then set_b_force (vadd (b_force b) force) b else b.
  (* body:905-918 apply_torque *)
  Definition apply_torque (torque : T) (wake : bool) (b : body T) : body T :=
    if negb (is_dynamic b) then b
    else
      let b := wake_if wake b in
      if is_awake b then set_b_torque (b_torque b + torque) b else b.
  (* body:920-939 apply_linear_impulse *)
  Definition apply_linear_impulse (impulse point : vec2 T) (wake : bool) (b : body T) : body T :=
    if negb (is_dynamic b) then b
    else
      let b := wake_if wake b in
      if is_awake b then
        let b := set_b_lv (vadd (b_lv b) (vscale (b_inv_mass b) impulse)) b in
        set_b_av (b_av b + b_inv_i b * b2_cross (vsub point (sw_c (b_sweep b))) impulse) b
      else b.
  (* body:941-957 apply_linear_impulse_to_center *)
  Definition apply_linear_impulse_to_center (impulse : vec2 T) (wake : bool) (b : body T) : body T :=
    if negb (is_dynamic b) then b
    else
      let b := wake_if wake b in
      if is_awake b then set_b_lv (vadd (b_lv b) (vscale (b_inv_mass b) impulse)) b else b.
  (* body:959-972 apply_angular_impulse *)
  Definition apply_angular_impulse (impulse : T) (wake : bool) (b : body T) : body T :=
    if negb (is_dynamic b) then b
    else
      let b := wake_if wake b in
      if is_awake b then set_b_av (b_av b + b_inv_i b * impulse) b else b.

  (** ** mass *)
  (* fix:438-443 get_mass_data *)
  Definition fixture_mass (f : fixture T) : res (mass_data T) := shape_mass (f_shape f) (f_density f).

  Definition set_sw (f : sweep T -> sweep T) (b : body T) : body T := set_b_sweep (f (b_sweep b)) b.
  Definition with_local_center (v : vec2 T) (s : sweep T) : sweep T := Sweep v (sw_c0 s) (sw_c s) (sw_a0 s) (sw_a s) (sw_alpha0 s).
  Definition with_c0 (v : vec2 T) (s : sweep T) : sweep T := Sweep (sw_local_center s) v (sw_c s) (sw_a0 s) (sw_a s) (sw_alpha0 s).
  Definition with_c (v : vec2 T) (s : sweep T) : sweep T := Sweep (sw_local_center s) (sw_c0 s) v (sw_a0 s) (sw_a s) (sw_alpha0 s).
  Definition with_a0 (v : T) (s : sweep T) : sweep T := Sweep (sw_local_center s) (sw_c0 s) (sw_c s) v (sw_a s) (sw_alpha0 s).
  Definition with_a (v : T) (s : sweep T) : sweep T := Sweep (sw_local_center s) (sw_c0 s) (sw_c s) (sw_a0 s) v (sw_alpha0 s).
  Definition with_alpha0 (v : T) (s : sweep T) : sweep T := Sweep (sw_local_center s) (sw_c0 s) (sw_c s) (sw_a0 s) (sw_a s) v.

  (* pbody:341-349 and 380-388: move the center of mass, update its velocity *)
  Definition move_center (local_center : vec2 T) (b : body T) : body T :=
    let old_center := sw_c (b_sweep b) in
    let b := set_sw (with_local_center local_center) b in
    let b := set_sw (with_c0 (xfv (b_xf b) (sw_local_center (b_sweep b)))) b in
    let b := set_sw (with_c (sw_c0 (b_sweep b))) b in
    set_b_lv (vadd (b_lv b) (b2_cross_sv (b_av b) (vsub (sw_c (b_sweep b)) old_center))) b.

  (* pbody:311-323 the loop over the fixtures: mass, sum of mass * center, rotational inertia *)
  Fixpoint mass_loop (fs : list (fixture T)) (acc : T * vec2 T * T) : res (T * vec2 T * T) :=
    match fs with
    | [] => Ok acc
    | f :: r =>
      let '(m, c, i) := acc in
      if f_density f =? #0 then mass_loop r acc
      else
        d <- fixture_mass f ;;
        mass_loop r (m + md_mass d, vadd c (vscale (md_mass d) (md_center d)), i + md_i d)
    end.

  (* pbody:292-350 reset_mass_data; [fs] are the fixtures of the body in the order of its list *)
  Definition reset_mass_data (fs : list (fixture T)) (b : body T) : res (body T) :=
    let b := set_b_mass #0 (set_b_inv_mass #0 (set_b_i #0 (set_b_inv_i #0 b))) in
    let b := set_sw (with_local_center vzero) b in
    match b_type b with
    | StaticBody | KinematicBody =>
      let b := set_sw (with_c0 (xp (b_xf b))) b in
      let b := set_sw (with_c (xp (b_xf b))) b in
      Ok (set_sw (with_a0 (sw_a (b_sweep b))) b)
    | DynamicBody =>
      '(m, c, i) <- mass_loop fs (b_mass b, vzero, b_i b) ;;
      let b := set_b_i i (set_b_mass m b) in
      let '(b, c) :=
        if b_mass b >? #0 then
          let b := set_b_inv_mass (#1 / b_mass b) b in (b, vmuls c (b_inv_mass b))
        else (b, c) in
      b <- (if (b_i b >? #0) && negb (fl_fixed_rotation (b_flags b)) then
              let b := set_b_i (b_i b - b_mass b * b2_dot c c) b in
              b2_assert (b_i b >? #0) ;;;
              Ok (set_b_inv_i (#1 / b_i b) b)
            else Ok (set_b_inv_i #0 (set_b_i #0 b))) ;;
      Ok (move_center c b)
    end.

  (* pbody:352-389 set_mass_data; the check that the world is not locked is made in the world model *)
  Definition set_mass_data (d : mass_data T) (b : body T) : res (body T) :=
    if negb (is_dynamic b) then Ok b
    else
      let b := set_b_inv_mass #0 (set_b_i #0 (set_b_inv_i #0 b)) in
      let b := set_b_mass (md_mass d) b in
      let b := if b_mass b <=? #0 then set_b_mass #1 b else b in
      let b := set_b_inv_mass (#1 / b_mass b) b in
      b <- (if (md_i d >? #0) && negb (fl_fixed_rotation (b_flags b)) then
              let b := set_b_i (md_i d - b_mass b * b2_dot (md_center d) (md_center d)) b in
              b2_assert (b_i b >? #0) ;;;
              Ok (set_b_inv_i (#1 / b_i b) b)
            else Ok b) ;;
      Ok (move_center (md_center d) b).

  (* body:713-718 get_mass_data *)
  Definition get_mass_data (b : body T) : mass_data T :=
    let lc := sw_local_center (b_sweep b) in
    MassData (b_mass b) lc (b_i b + b_mass b * b2_dot lc lc).

  (* pbody:529-540 set_fixed_rotation *)
  Definition set_fixed_rotation (flag : bool) (fs : list (fixture T)) (b : body T) : res (body T) :=
    if Bool.eqb (fl_fixed_rotation (b_flags b)) flag then Ok b
    else
      let b := mod_flags (set_fl_fixed_rotation flag) b in
      let b := set_b_av #0 b in
      reset_mass_data fs b.

  (* body:720-749 *)
  Definition get_world_point (p : vec2 T) (b : body T) : vec2 T := xfv (b_xf b) p.
  Definition get_local_point (p : vec2 T) (b : body T) : vec2 T := xfv_t (b_xf b) p.
  Definition velocity_of_point (p : vec2 T) (b : body T) : vec2 T :=
    vadd (b_lv b) (b2_cross_sv (b_av b) (vsub p (sw_c (b_sweep b)))).

  Context `{TT : NumTrig T} `{VT : NumValid T}.
  Definition vec_valid (v : vec2 T) : bool := b2_is_valid (vx v) && b2_is_valid (vy v).   (* b2_math.rs:95-97 *)

  (* pbody:15-89 b2_body (B2body::new) *)
  Definition body_new (bd : body_def T) : res (body T) :=
    b2_assert (vec_valid (bd_position bd)) ;;;
    b2_assert (vec_valid (bd_lv bd)) ;;;
    b2_assert (b2_is_valid (bd_angle bd)) ;;;
    b2_assert (b2_is_valid (bd_av bd)) ;;;
    b2_assert (b2_is_valid (bd_angular_damping bd) && (bd_angular_damping bd >=? #0)) ;;;
    b2_assert (b2_is_valid (bd_linear_damping bd) && (bd_linear_damping bd >=? #0)) ;;;
    let flags := BFlags false (bd_awake bd && negb (btype_eqb (bd_type bd) StaticBody)) (bd_allow_sleep bd) (bd_bullet bd)
                   (bd_fixed_rotation bd) (bd_enabled bd) false in
    let xf := Xf (bd_position bd) (rot_of (bd_angle bd)) in
    Ok (Body (bd_type bd) flags (-1)%Z xf (Sweep vzero (xp xf) (xp xf) (bd_angle bd) (bd_angle bd) #0)
          (bd_lv bd) (bd_av bd) vzero #0 [] 0 [] [] #0 #0 #0 #0
          (bd_linear_damping bd) (bd_angular_damping bd) (bd_gravity_scale bd) #0).

  (* body:974-977 synchronize_transform *)
  Definition synchronize_transform (b : body T) : body T :=
    let q := rot_of (sw_a (b_sweep b)) in
    set_b_xf (Xf (vsub (sw_c (b_sweep b)) (rotv q (sw_local_center (b_sweep b)))) q) b.

  (* body:979-986 advance *)
  Definition body_advance (alpha : T) (b : body T) : res (body T) :=
    s <- sweep_advance (b_sweep b) alpha ;;
    let b := set_b_sweep s b in
    let b := set_sw (with_c (sw_c0 (b_sweep b))) b in
    let b := set_sw (with_a (sw_a0 (b_sweep b))) b in
    let q := rot_of (sw_a (b_sweep b)) in
    Ok (set_b_xf (Xf (vsub (sw_c (b_sweep b)) (rotv q (sw_local_center (b_sweep b)))) q) b).

  (* pbody:425-432 set_transform, the part that changes the body *)
  Definition place_body (position : vec2 T) (angle : T) (b : body T) : body T :=
    let b := set_b_xf (Xf position (rot_of angle)) b in
    let b := set_sw (with_c (xfv (b_xf b) (sw_local_center (b_sweep b)))) b in
    let b := set_sw (with_a angle) b in
    let b := set_sw (with_c0 (sw_c (b_sweep b))) b in
    set_sw (with_a0 angle) b.

  (* pbody:106-122 set_type, the part that changes the body before and after synchronize_fixtures *)
  Definition type_body (ty : btype) (fs : list (fixture T)) (b : body T) : res (body T) :=
    b <- reset_mass_data fs (set_b_type ty b) ;;
    if is_static b then
      let b := set_b_lv vzero b in
      let b := set_b_av #0 b in
      let b := set_sw (with_a0 (sw_a (b_sweep b))) b in
      let b := set_sw (with_c0 (sw_c (b_sweep b))) b in
      Ok (mod_flags (set_fl_awake false) b)
    else Ok b.
  Definition calm_body (b : body T) : body T := set_b_torque #0 (set_b_force vzero (set_awake true b)).

  (* pbody:461-463 the transform at the start of the step *)
  Definition sweep_start (b : body T) : xform T :=
    let q := rot_of (sw_a0 (b_sweep b)) in
    Xf (vsub (sw_c0 (b_sweep b)) (rotv q (sw_local_center (b_sweep b)))) q.
End Dyn.
