(** Concrete histories of a world, in single precision. *)
From Coq Require Import List ZArith Bool Arith Lia.
From Verif Require Import Base Num NumLaws Math Collision Manifold Filter ShapeModel CollideModel TreeModel TreeSpec BroadModel BroadSpec DynModel DynSpec WorldModel WorldGraph WorldSpec WorldClaims WorldCalls WorldHist WorldReach.
Import ListNotations.

(* sine and cosine where the examples use them: at the angle 0 *)
#[global] Instance ex_trig : NumTrig f32 := { nsin := fun x => x; ncos := fun _ => nofZ 1; nfloor := fun x => x }.
Notation fworld := (world f32).

(** ** an environment: the default filter, a silent listener, the real narrow phase for circles, bodies that fly freely *)
Definition ex_filter (w : fworld) (f g : nat) : bool :=
  match w_fixtures w f, w_fixtures w g with Some x, Some y => should_collide (f_filter x) (f_filter y) | _, _ => false end.
Definition ex_listen (w : fworld) (e : event) (c : contact f32) : cedit f32 :=
  CEdit (cf_enabled (c_flags c)) (c_friction c) (c_restitution c) (c_threshold c) (c_tangent_speed c) (c_manifold c).
Definition ex_point : mpoint f32 := MP vzero (nofZ 0) (nofZ 0) cid_default.
Definition ex_manifold : manifold f32 := MF [ex_point; ex_point] vzero vzero MCircles 1.
Definition ex_place (w : fworld) (f : nat) : option (shape f32 * xform f32) :=
  match w_fixtures w f with
  | Some x => match f_body x with Some i => match w_bodies w i with Some b => Some (f_shape x, b_xf b) | None => None end | None => None end
  | None => None
  end.
Definition ex_evaluate (w : fworld) (i : nat) : res (manifold f32) :=
  match w_contacts w i with
  | Some c => match ex_place w (c_fa c), ex_place w (c_fb c) with
              | Some (ShCircle a, xa), Some (ShCircle b, xb) => b2_collide_circles (c_manifold c) a xa b xb
              | _, _ => Ok ex_manifold
              end
  | None => Panic
  end.
Definition ex_solved (w : fworld) (dt : f32) (i : nat) : solved f32 :=
  match w_bodies w i with
  | Some b => let s := b_sweep b in
      Solved (sw_c s) (sw_a s) (if is_static b then sw_c s else vadd (sw_c s) (vscale dt (b_lv b))) (sw_a s) (b_lv b) (b_av b) (nofZ 0)
  | None => Solved vzero (nofZ 0) vzero (nofZ 0) vzero (nofZ 0) (nofZ 0)
  end.
Definition ex_solution (w : fworld) (dt : f32) : solution f32 := Solution (ex_solved w dt) (fun _ => [ex_point; ex_point]) false.
(* a contact has an impact at the fraction of the step, unless the first body was moved on already *)
Definition ex_impact (impact : option f32) (w : fworld) : bool * f32 :=
  match impact, w_bodies w 0 with
  | Some t, Some b => if nlt (nofZ 0) (sw_alpha0 (b_sweep b)) then (false, nofZ 1) else (true, t)
  | _, _ => (false, nofZ 1)
  end.
Definition ex_env (impact : option f32) : env f32 :=
  Env ex_filter ex_listen ex_evaluate (fun _ _ => Ok true) (fun w _ => Ok (ex_impact impact w)) (fun w _ dt => Ok (ex_solution w dt)) (fun w _ _ _ dt => Ok (ex_solution w dt)).
Lemma ex_answers impact : answers (ex_env impact).
Proof.
  refine (conj _ (conj _ (conj _ (conj _ _)))); try discriminate. intros w i. unfold ex_env. cbn [e_evaluate]. unfold ex_evaluate.
  destruct (w_contacts w i) as [c|]; [|discriminate]. destruct (ex_place w (c_fa c)) as [[[a|a|a|a] xa]|]; try discriminate. destruct (ex_place w (c_fb c)) as [[[b|b|b|b] xb]|]; try discriminate.
  unfold b2_collide_circles, mf_one. cbv zeta. destruct (nlt _ _); [discriminate|]. destruct (mf_points (c_manifold c)); discriminate.
Qed.
Notation E0 := (ex_env None).

(** ** running a list of calls from the new world *)
Definition ex_run (E : env f32) (cs : list (wcall f32)) : res fworld := w <- world_new true true ;; wruns E cs w.
Definition ex_check (E : env f32) (cs : list (wcall f32)) (p : fworld -> bool) : bool := match ex_run E cs with Ok w => p w | _ => false end.
Lemma wruns_reach (E : env f32) cs : forall w w', wreach E w -> wruns E cs w = Ok w' -> wreach E w'.
Proof.
  induction cs as [|c cs IH]; intros w w' H R; cbn [wruns] in R; [now injection R as <-|]. destruct (wrun E c w) as [w1| |] eqn:R1; try discriminate. cbn [bind] in R. eapply IH; [|exact R].
  eapply wreach_call; eauto.
Qed.
Lemma ex_run_reach E cs w : ex_run E cs = Ok w -> wreach E w.
Proof. unfold ex_run. destruct (world_new true true) as [w0| |] eqn:Q; try discriminate. cbn [bind]. apply wruns_reach. eapply wreach_new; eauto. Qed.
Lemma ex_checked E cs p : ex_check E cs p = true -> exists w, wreach E w /\ p w = true.
Proof. unfold ex_check. destruct (ex_run E cs) as [w| |] eqn:R; try discriminate. intros P. exists w. split; auto. eapply ex_run_reach; eauto. Qed.
(* the world of the list, or any world *)
Definition is_panic {A} (m : res A) : bool := match m with Panic => true | _ => false end.
Lemma is_panic_ok {A} (m : res A) : is_panic m = true -> m = Panic.
Proof. now destruct m. Qed.
Definition is_ok {A} (m : res A) : bool := match m with Ok _ => true | _ => false end.

(** ** objects *)
Definition at_x (x : f32) : vec2 f32 := V2 x (nofZ 0).
Definition ex_bodydef (ty : btype) (x : f32) (v : f32) (bullet : bool) : body_def f32 :=
  BodyDef ty (at_x x) (nofZ 0) (at_x v) (nofZ 0) (nofZ 0) (nofZ 0) true true false bullet true (nofZ 1).
Definition ex_fixdef (s : shape f32) (sensor : bool) : fixture_def f32 := FixtureDef s (nlit 2 10) (nofZ 0) (nofZ 1) (nofZ 1) sensor filter_default.
Definition ball : fixture_def f32 := ex_fixdef (ShCircle (Circle (nlit 1 4) vzero)) false.
Definition sensor_ball : fixture_def f32 := ex_fixdef (ShCircle (Circle (nlit 1 4) vzero)) true.
Definition rod : fixture_def f32 := FixtureDef (ShEdge (Edge B2_POLYGON_RADIUS vzero vzero (at_x (nofZ 1)) vzero false)) (nlit 2 10) (nofZ 0) (nofZ 1) (nofZ 0) false filter_default.
Definition tick : wcall f32 := WStep (nofZ 1).

(** ** three balls in a row that touch, a ball with a sensor over a fifth ball far away, two joints *)
Definition ex_build : list (wcall f32) :=
  [WCreateBody (ex_bodydef DynamicBody (nofZ 0) (nofZ 0) false); WCreateFixture 0 ball;
   WCreateBody (ex_bodydef DynamicBody (nlit 4 10) (nofZ 0) false); WCreateFixture 1 ball;
   WCreateBody (ex_bodydef StaticBody (nlit 8 10) (nofZ 0) false); WCreateFixture 2 ball;
   WCreateBody (ex_bodydef DynamicBody (nofZ 5) (nofZ 0) false); WCreateFixture 3 ball; WCreateFixture 3 sensor_ball;
   WCreateBody (ex_bodydef DynamicBody (nlit 51 10) (nofZ 0) false); WCreateFixture 4 ball;
   WCreateJoint 0 3 true; WCreateJoint 1 2 true].
Definition ex_calls : list (wcall f32) := ex_build ++ [tick].
(* the contacts of the world: number, the fixtures, touching *)
Definition ex_contacts (w : fworld) : list (nat * nat * nat * bool) :=
  flat_map (fun c => match w_contacts w c with Some x => [(c, c_fa x, c_fb x, cf_touching (c_flags x))] | None => [] end) (w_contact_list w).
Definition contact_eqb (a b : nat * nat * nat * bool) : bool :=
  match a, b with (c, f, g, t), (c', f', g', t') => Nat.eqb c c' && Nat.eqb f f' && Nat.eqb g g' && Bool.eqb t t' end.
Fixpoint list_eqb {A} (eqb : A -> A -> bool) (l l' : list A) : bool :=
  match l, l' with [], [] => true | a :: r, b :: r' => eqb a b && list_eqb eqb r r' | _, _ => false end.
Lemma list_eqb_ok {A} (eqb : A -> A -> bool) (H : forall a b, eqb a b = true -> a = b) : forall l l', list_eqb eqb l l' = true -> l = l'.
Proof. induction l as [|a l IH]; destruct l' as [|b l']; cbn; try easy. intros Q. apply andb_prop in Q. destruct Q as [Q1 Q2]. f_equal; auto. Qed.
Lemma contact_eqb_ok a b : contact_eqb a b = true -> a = b.
Proof.
  destruct a as [[[c f] g] t], b as [[[c' f'] g'] t']. cbn. intros H. repeat (apply andb_prop in H; destruct H as [H ?]).
  repeat match goal with K : Nat.eqb _ _ = true |- _ => apply Nat.eqb_eq in K; subst end. apply eqb_prop in H0. now subst.
Qed.
Definition ex_has (l : list (nat * nat * nat * bool)) (w : fworld) : bool := list_eqb contact_eqb (ex_contacts w) l.
Lemma ex_has_ok l w : ex_has l w = true -> ex_contacts w = l.
Proof. apply list_eqb_ok, contact_eqb_ok. Qed.
Definition ex_four : list (nat * nat * nat * bool) := [(3, 3, 5, true); (2, 4, 5, true); (1, 1, 2, true); (0, 0, 1, true)].
Lemma ex_reached : exists w, wreach E0 w /\ ex_contacts w = ex_four /\ w_listener w = true /\ w_joint_count w = 2 /\ bp_proxies (w_bp w) = 6%Z.
Proof.
  destruct (ex_checked E0 ex_calls (fun w => ex_has ex_four w && w_listener w && Nat.eqb (w_joint_count w) 2 && Z.eqb (bp_proxies (w_bp w)) 6)) as (w & R & P); [vm_compute; reflexivity|].
  exists w. repeat (apply andb_prop in P; destruct P as [P ?]). repeat split; auto; [now apply ex_has_ok|now apply Nat.eqb_eq|now apply Z.eqb_eq].
Qed.
(* and one more call *)
Definition ex_check2 (E : env f32) (cs : list (wcall f32)) (c : wcall f32) (p : fworld -> fworld -> bool) : bool :=
  match ex_run E cs with Ok w => match wrun E c w with Ok w' => p w w' | _ => false end | _ => false end.
Lemma ex_checked2 E cs c p : ex_check2 E cs c p = true -> exists w w', wreach E w /\ wrun E c w = Ok w' /\ p w w' = true.
Proof.
  unfold ex_check2. destruct (ex_run E cs) as [w| |] eqn:R; try discriminate. destruct (wrun E c w) as [w'| |] eqn:R'; try discriminate.
  intros P. exists w, w'. split; [eapply ex_run_reach; eauto|auto].
Qed.
Lemma ex_called E cs c l l' : ex_check2 E cs c (fun w w' => ex_has l w && ex_has l' w') = true ->
  exists w w', wreach E w /\ wrun E c w = Ok w' /\ ex_contacts w = l /\ ex_contacts w' = l'.
Proof.
  intros H. apply ex_checked2 in H. destruct H as (w & w' & H & R & P). apply andb_prop in P. destruct P. exists w, w'. repeat split; auto; now apply ex_has_ok.
Qed.
Lemma ex_step : exists w w', wreach E0 w /\ wrun E0 tick w = Ok w' /\ ex_contacts w = [] /\ ex_contacts w' = ex_four.
Proof. apply (ex_called E0 ex_build). vm_compute. reflexivity. Qed.
(* the second ball becomes static *)
Lemma ex_retype : exists w w', wreach E0 w /\ wrun E0 (WType 1 StaticBody) w = Ok w' /\ ex_contacts w = ex_four /\ ex_contacts w' = [(3, 3, 5, true); (2, 4, 5, true)].
Proof. apply (ex_called E0 ex_calls). vm_compute. reflexivity. Qed.
Lemma ex_destroy : exists w w', wreach E0 w /\ wrun E0 (WDestroyBody 3) w = Ok w' /\ ex_contacts w = ex_four /\ ex_contacts w' = [(1, 1, 2, true); (0, 0, 1, true)].
Proof. apply (ex_called E0 ex_calls). vm_compute. reflexivity. Qed.
(* a joint that forbids collision marks the contact, the next step removes it *)
Lemma ex_forbid : exists w w', wreach E0 w /\ wrun E0 tick w = Ok w' /\ ex_contacts w = ex_four /\ ex_contacts w' = [(3, 3, 5, true); (2, 4, 5, true); (1, 1, 2, true)].
Proof. apply (ex_called E0 (ex_calls ++ [WCreateJoint 0 1 false])). vm_compute. reflexivity. Qed.
Lemma ex_disable : exists w w', wreach E0 w /\ wrun E0 (WEnabled 1 false) w = Ok w' /\ ex_contacts w = ex_four /\ ex_contacts w' = [(3, 3, 5, true); (2, 4, 5, true)].
Proof. apply (ex_called E0 ex_calls). vm_compute. reflexivity. Qed.
Lemma ex_enable : exists w w', wreach E0 w /\ wrun E0 (WEnabled 1 true) w = Ok w' /\ ex_contacts w = [(3, 3, 5, true); (2, 4, 5, true)] /\ ex_contacts w' = ex_contacts w.
Proof. destruct (ex_called E0 (ex_calls ++ [WEnabled 1 false]) (WEnabled 1 true) [(3, 3, 5, true); (2, 4, 5, true)] [(3, 3, 5, true); (2, 4, 5, true)]) as (w & w' & H & R & A & B); [vm_compute; reflexivity|]. exists w, w'. rewrite B. auto. Qed.
Lemma ex_unjoin : exists w w', wreach E0 w /\ wrun E0 (WDestroyJoint 1) w = Ok w' /\ w_joint_count w = 2 /\ w_joint_count w' = 1.
Proof.
  destruct (ex_checked2 E0 ex_calls (WDestroyJoint 1) (fun w w' => Nat.eqb (w_joint_count w) 2 && Nat.eqb (w_joint_count w') 1)) as (w & w' & H & R & P); [vm_compute; reflexivity|].
  apply andb_prop in P. destruct P as [P1 P2]. exists w, w'. repeat split; auto; now apply Nat.eqb_eq.
Qed.
Lemma ex_refilter : exists w w', wreach E0 w /\ wrun E0 (WFilter 0 (Filter 2 1 0)) w = Ok w' /\ ex_contacts w = [(1, 3, 5, true); (0, 4, 5, true)].
Proof.
  destruct (ex_called E0 (ex_build ++ [WEnabled 1 false; tick]) (WFilter 0 (Filter 2 1 0)) [(1, 3, 5, true); (0, 4, 5, true)] [(1, 3, 5, true); (0, 4, 5, true)]) as (w & w' & H & R & A & B); [vm_compute; reflexivity|]. exists w, w'. auto.
Qed.
(* the islands of a step: one contact is with the sensor and links nothing *)
Definition island_eqb (a b : island) : bool :=
  list_eqb Nat.eqb (is_bodies a) (is_bodies b) && list_eqb Nat.eqb (is_contacts a) (is_contacts b) && list_eqb Nat.eqb (is_joints a) (is_joints b).
Lemma nats_eqb l l' : list_eqb Nat.eqb l l' = true -> l = l'.
Proof. apply list_eqb_ok. intros a b. apply Nat.eqb_eq. Qed.
Lemma island_eqb_ok a b : island_eqb a b = true -> a = b.
Proof. destruct a, b. unfold island_eqb. cbn. intros H. repeat (apply andb_prop in H; destruct H as [H ?]). f_equal; now apply nats_eqb. Qed.
Definition ex_check_islands (cs : list (wcall f32)) (l : list island) : bool :=
  match ex_run E0 cs with
  | Ok w => match step_front E0 w with
            | Ok w2 => match solve E0 (nofZ 1) w2 with Ok w3 => list_eqb island_eqb (islands (w_log w3)) l && list_eqb island_eqb (islands (w_log w2)) [] | _ => false end
            | _ => false end
  | _ => false end.
Lemma ex_islands_of cs l : ex_check_islands cs l = true -> exists w w2 w3, wreach E0 w /\ step_front E0 w = Ok w2 /\ solve E0 (nofZ 1) w2 = Ok w3 /\
  islands (w_log w2) = [] /\ islands (w_log w3) = l.
Proof.
  unfold ex_check_islands. intros C. destruct (ex_run E0 cs) as [w| |] eqn:R; try discriminate. destruct (step_front E0 w) as [w2| |] eqn:R2; try discriminate.
  destruct (solve E0 (nofZ 1) w2) as [w3| |] eqn:R3; try discriminate. apply andb_prop in C. destruct C as [C1 C2]. exists w, w2, w3.
  apply (list_eqb_ok _ island_eqb_ok) in C1, C2. repeat split; auto. eapply ex_run_reach; eauto.
Qed.
Lemma ex_islands : exists w w2 w3, wreach E0 w /\ step_front E0 w = Ok w2 /\ solve E0 (nofZ 1) w2 = Ok w3 /\ islands (w_log w2) = [] /\
  islands (w_log w3) = [Island [1; 0; 2] [1; 0] [1]; Island [4; 3] [3] []].
Proof. apply (ex_islands_of (ex_build ++ [WDestroyJoint 0])). vm_compute. reflexivity. Qed.

(** ** panics *)
Definition ex_panics (E : env f32) (cs : list (wcall f32)) (c : wcall f32) : bool := match ex_run E cs with Ok w => is_panic (wrun E c w) | _ => false end.
Lemma ex_panicked E cs c : ex_panics E cs c = true -> exists w, ex_run E cs = Ok w /\ wreach E w /\ wrun E c w = Panic.
Proof.
  unfold ex_panics. destruct (ex_run E cs) as [w| |] eqn:R; try discriminate. intros P. exists w. split; [reflexivity|]. split; [eapply ex_run_reach; eauto|now apply is_panic_ok].
Qed.
(* two edges on two dynamic bodies *)
Definition two_rods : list (wcall f32) :=
  [WCreateBody (ex_bodydef DynamicBody (nofZ 0) (nofZ 0) false); WCreateFixture 0 rod; WCreateBody (ex_bodydef DynamicBody (nofZ 0) (nofZ 0) false); WCreateFixture 1 rod].
Lemma rods_panic : exists w, ex_run E0 two_rods = Ok w /\ wreach E0 w /\ wrun E0 tick w = Panic.
Proof. apply ex_panicked. vm_compute. reflexivity. Qed.
(* a body with a ball is enabled again *)
Definition one_ball : list (wcall f32) := [WCreateBody (ex_bodydef DynamicBody (nofZ 0) (nofZ 0) false); WCreateFixture 0 ball].
Lemma enable_panic : exists w, ex_run E0 one_ball = Ok w /\ wreach E0 w /\ wrun E0 (WEnabled 0 true) w = Panic.
Proof. apply ex_panicked. vm_compute. reflexivity. Qed.
(* a ball that touches another one gets a new filter *)
Definition two_balls : list (wcall f32) :=
  [WCreateBody (ex_bodydef DynamicBody (nofZ 0) (nofZ 0) false); WCreateFixture 0 ball;
   WCreateBody (ex_bodydef DynamicBody (nlit 4 10) (nofZ 0) false); WCreateFixture 1 ball; tick].
Lemma refilter_panic : exists w, ex_run E0 two_balls = Ok w /\ wreach E0 w /\ wrun E0 (WFilter 0 (Filter 2 1 0)) w = Panic.
Proof. apply ex_panicked. vm_compute. reflexivity. Qed.
(* a bullet flies 2 metres towards 65 balls at one place, and hits them after a quarter of the step *)
Definition E4 : env f32 := ex_env (Some (nlit 1 4)).
Definition bullet_calls : list (wcall f32) :=
  [WCreateBody (ex_bodydef DynamicBody (nofZ (-1)) (nofZ 2) true); WCreateFixture 0 ball] ++
  flat_map (fun i => [WCreateBody (ex_bodydef StaticBody (nofZ 0) (nofZ 0) false); WCreateFixture i ball]) (seq 1 63).
Lemma bullet_ok : ex_check E4 bullet_calls (fun w => is_ok (wrun E4 tick w)) = true.
Proof. vm_compute. reflexivity. Qed.
Definition bullet_many : list (wcall f32) := bullet_calls ++ [WCreateBody (ex_bodydef StaticBody (nofZ 0) (nofZ 0) false); WCreateFixture 64 ball].
Lemma bullet_panic : exists w, ex_run E4 bullet_many = Ok w /\ wreach E4 w /\ wrun E4 tick w = Panic.
Proof. apply ex_panicked. vm_compute. reflexivity. Qed.

(** ** more about the first world *)
Lemma register_none s t : s < 4 -> t < 4 -> (register s t = None <-> (s = 1 \/ s = 3) /\ (t = 1 \/ t = 3)).
Proof.
  intros H K. assert (S4 : forall n, n < 4 -> n = 0 \/ n = 1 \/ n = 2 \/ n = 3) by lia.
  destruct (S4 s H) as [-> | [-> | [-> | ->]]]; destruct (S4 t K) as [-> | [-> | [-> | ->]]]; cbn; split; intros Q; try discriminate; try reflexivity; try (split; auto); exfalso; lia.
Qed.
Definition get_some {A} (o : option A) : bool := match o with Some _ => true | None => false end.
Lemma get_some_ok {A} (o : option A) : get_some o = true -> exists x, o = Some x.
Proof. destruct o; [eauto|discriminate]. Qed.
Lemma ex_cut_of cs c : ex_check E0 cs (fun w => get_some (w_contacts w c) && is_ok (destroy_contact E0 c w)) = true ->
  exists w w' x, wreach E0 w /\ w_contacts w c = Some x /\ destroy_contact E0 c w = Ok w'.
Proof.
  intros H. apply ex_checked in H. destruct H as (w & R & P). apply andb_prop in P. destruct P as [P1 P2]. apply get_some_ok in P1. destruct P1 as [x Hx].
  destruct (destroy_contact E0 c w) as [w'| |] eqn:Q; try discriminate. exists w, w', x. auto.
Qed.
Lemma ex_cut : exists w w' x, wreach E0 w /\ w_contacts w 1 = Some x /\ destroy_contact E0 1 w = Ok w'.
Proof. apply (ex_cut_of ex_calls). vm_compute. reflexivity. Qed.
Definition ex_told_calls : list (wcall f32) := ex_calls ++ [WTransform 0 (at_x (nlit (-2) 10)) (nofZ 0); tick; WTransform 0 (at_x (nofZ 0)) (nofZ 0); tick; WDestroyBody 2].
Lemma bools_eqb l l' : list_eqb Bool.eqb l l' = true -> l = l'.
Proof. apply list_eqb_ok. intros a b. apply eqb_prop. Qed.
Definition tells (w : fworld) (c : nat) (l : list bool) : bool := list_eqb Bool.eqb (told w c) l.
Lemma ex_told : exists w, wreach E0 w /\ w_listener w = true /\ told w 0 = [true; false; true] /\ told w 1 = [true; false] /\ told w 2 = [true] /\ told w 7 = [].
Proof.
  destruct (ex_checked E0 ex_told_calls (fun w => w_listener w && tells w 0 [true; false; true] && tells w 1 [true; false] && tells w 2 [true] && tells w 7 [])) as (w & R & P); [vm_compute; reflexivity|].
  exists w. repeat (apply andb_prop in P; destruct P as [P ?]). unfold tells in *. repeat split; auto; now apply bools_eqb.
Qed.
(* the sensor contacts of the world and the contacts reported to pre_solve or post_solve *)
Definition ex_sensors (w : fworld) : list nat := List.filter (fun c => match w_contacts w c with Some x => sensor_contact w x | None => false end) (w_contact_list w).
Definition ex_reported (w : fworld) : list nat := List.filter (fun c => existsb (solves c) (w_log w)) (seq 0 (w_next_contact w)).
Lemma ex_sensed : exists w w', wreach E0 w /\ wrun E0 tick w = Ok w' /\ w_step_complete w = true /\ ex_contacts w' = ex_four /\ ex_sensors w' = [2] /\ ex_reported w' = [0; 1; 3].
Proof.
  destruct (ex_checked2 E0 ex_build tick (fun w w' => w_step_complete w && ex_has ex_four w' && list_eqb Nat.eqb (ex_sensors w') [2] && list_eqb Nat.eqb (ex_reported w') [0; 1; 3])) as (w & w' & H & R & P); [vm_compute; reflexivity|].
  repeat (apply andb_prop in P; destruct P as [P ?]). exists w, w'. repeat split; auto; [now apply ex_has_ok|now apply nats_eqb|now apply nats_eqb].
Qed.
Lemma ex_updated_of cs c : ex_check E0 cs (fun w => match w_contacts w c with Some x => get_some (w_fixtures w (c_fa x)) && get_some (w_fixtures w (c_fb x)) && Nat.eqb (mf_count (c_manifold x)) 1 | None => false end && is_ok (update_contact E0 c w)) = true ->
  exists w w' x fa fb, wreach E0 w /\ w_contacts w c = Some x /\ w_fixtures w (c_fa x) = Some fa /\ w_fixtures w (c_fb x) = Some fb /\
  (forall v e c, ce_manifold (e_listen E0 v e c) = c_manifold c) /\ update_contact E0 c w = Ok w' /\ mf_count (c_manifold x) = 1.
Proof.
  intros H. apply ex_checked in H. destruct H as (w & R & P). apply andb_prop in P. destruct P as [P1 P2]. destruct (w_contacts w c) as [x|] eqn:Hx; [|discriminate].
  apply andb_prop in P1. destruct P1 as [P1 P3]. apply andb_prop in P1. destruct P1 as [P1 P4]. apply get_some_ok in P1, P4. destruct P1 as [fa Ha]. destruct P4 as [fb Hb].
  destruct (update_contact E0 c w) as [w'| |] eqn:Q; try discriminate. exists w, w', x, fa, fb. repeat split; auto. now apply Nat.eqb_eq.
Qed.
Lemma ex_updated : exists w w' x fa fb, wreach E0 w /\ w_contacts w 0 = Some x /\ w_fixtures w (c_fa x) = Some fa /\ w_fixtures w (c_fb x) = Some fb /\
  (forall v e c, ce_manifold (e_listen E0 v e c) = c_manifold c) /\ update_contact E0 0 w = Ok w' /\ mf_count (c_manifold x) = 1.
Proof. apply (ex_updated_of ex_calls). vm_compute. reflexivity. Qed.
