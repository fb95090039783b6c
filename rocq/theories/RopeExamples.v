(** Examples and counterexamples for Prop_Rope. *)
From Coq Require Import List ZArith Reals Lra Lia Bool Arith.
From Flocq Require Import Core IEEE754.BinarySingleNaN.
From Verif Require Import Base Num NumLaws Math RTac ListFacts SolverModel RopeModel RopeSpec RopeTotal RopeReal RopeLinks RopeBend RopeRest.
Import ListNotations.

(** ** binary32 *)
Definition RT0 : NumRope f32 := {| natan2 := fun y _ => y; nexp := fun _ => f32_ofZ 1 |}.
Lemma RT0_exact : exact_at_0 RT0.
Proof. split; reflexivity. Qed.
Definition f32v (x y : Z) : vec2 f32 := V2 (f32_ofZ x) (f32_ofZ y).
Definition not_a_number (q : rpoint f32) : Prop := is_nan (vx (rp_p q)) = true.
Section Any.
  Variable RT : NumRope f32.
  Hypothesis X : exact_at_0 RT.
  Lemma drive_any dt g pos damp q : neqb (nmul (nneg dt) damp) (nofZ 0) = true -> @drive _ _ RT dt g pos damp q = @drive _ _ RT0 dt g pos damp q.
  Proof. intros Z. unfold drive. cbv zeta. destruct X as [_ E]. rewrite (E _ Z). reflexivity. Qed.
  Lemma angle_any t c qs q1 q2 q3 : get qs (be_i1 c) = Ok q1 -> get qs (be_i2 c) = Ok q2 -> get qs (be_i3 c) = Ok q3 ->
    neqb (b2_cross (vsub (rp_p q2) (rp_p q1)) (vsub (rp_p q3) (rp_p q2))) (nofZ 0) = true -> nlt (nofZ 0) (b2_dot (vsub (rp_p q2) (rp_p q1)) (vsub (rp_p q3) (rp_p q2))) = true ->
    @bend_pbd_angle _ _ RT t c qs = @bend_pbd_angle _ _ RT0 t c qs.
  Proof. intros G1 G2 G3 Z P. unfold bend_pbd_angle, on3. rewrite G1, G2, G3. cbn [bind]. unfold bend_angle. destruct X as [E _]. rewrite (E _ _ Z P). reflexivity. Qed.
  (* one iteration over one bend *)
  Lemma step_any dt pos r c q1 q2 q3 : tu_bending (ro_tuning r) = PbdAngleBending -> ro_bend r = [c] -> neqb (nmul (nneg dt) (tu_damping (ro_tuning r))) (nofZ 0) = true ->
    (let qs := map (go dt) (map (@drive _ _ RT0 dt (ro_gravity r) pos (tu_damping (ro_tuning r))) (ro_points r)) in
     get qs (be_i1 c) = Ok q1 /\ get qs (be_i2 c) = Ok q2 /\ get qs (be_i3 c) = Ok q3 /\
     neqb (b2_cross (vsub (rp_p q2) (rp_p q1)) (vsub (rp_p q3) (rp_p q2))) (nofZ 0) = true /\ nlt (nofZ 0) (b2_dot (vsub (rp_p q2) (rp_p q1)) (vsub (rp_p q3) (rp_p q2))) = true) ->
    @step _ _ RT dt 1 pos r = @step _ _ RT0 dt 1 pos r.
  Proof.
    intros B Eb Z (G1 & G2 & G3 & Zc & P). unfold step. destruct (neqb dt (nofZ 0)); [reflexivity|]. cbv zeta. rewrite B. cbn [bind]. rewrite (map_ext _ _ (fun q => drive_any dt (ro_gravity r) pos _ q Z)). unfold for_range. cbn [Nat.sub for_from]. unfold rope_pass, solve_bends. rewrite B, Eb. cbn [map each_item].
    rewrite (angle_any (ro_tuning r) (be_with_lambda c (nofZ 0)) _ q1 q2 q3 G1 G2 G3 Zc P). reflexivity.
  Qed.
  Lemma step_any_distance dt pos r : tu_bending (ro_tuning r) = PbdDistanceBending -> neqb (nmul (nneg dt) (tu_damping (ro_tuning r))) (nofZ 0) = true ->
    @step _ _ RT dt 1 pos r = @step _ _ RT0 dt 1 pos r.
  Proof.
    intros B Z. unfold step. destruct (neqb dt (nofZ 0)); [reflexivity|]. cbv zeta. rewrite B. cbn [bind]. rewrite (map_ext _ _ (fun q => drive_any dt (ro_gravity r) pos _ q Z)). unfold for_range. cbn [Nat.sub for_from]. unfold rope_pass, solve_bends. rewrite B. reflexivity.
  Qed.
End Any.
(* three vertices without mass, default tuning *)
Definition fix_d : rope_def f32 := RopeDef (f32v 0 0) [(f32v 0 0, f32_ofZ 0); (f32v 1 0, f32_ofZ 0); (f32v 2 0, f32_ofZ 0)] (f32v 0 0) default_tuning.
Definition made (d : rope_def f32) : rope f32 := match create d rope_default with Ok r => r | _ => rope_default end.
Definition after (r : rope f32) : rope f32 := match @step _ _ RT0 (nlit 1 64) 1 (f32v 0 0) r with Ok r => r | _ => rope_default end.
Definition ok_step (r : rope f32) : bool := match @step _ _ RT0 (nlit 1 64) 1 (f32v 0 0) r with Ok _ => true | _ => false end.
Definition ok_made (d : rope_def f32) : bool := match create d rope_default with Ok _ => true | _ => false end.
Lemma made_is d : ok_made d = true -> create d rope_default = Ok (made d).
Proof. unfold ok_made, made. destruct (create d rope_default); congruence. Qed.
Lemma after_is r : ok_step r = true -> @step _ _ RT0 (nlit 1 64) 1 (f32v 0 0) r = Ok (after r).
Proof. unfold ok_step, after. destruct (step _ _ _ _); congruence. Qed.
Lemma all_of {A} (f : A -> bool) l : forallb f l = true -> Forall (fun a => f a = true) l.
Proof. intros E. apply Forall_forall. now apply forallb_forall. Qed.
Definition bend_ok (q1 q2 q3 : rpoint f32) : bool := neqb (b2_cross (vsub (rp_p q2) (rp_p q1)) (vsub (rp_p q3) (rp_p q2))) (nofZ 0) && nlt (nofZ 0) (b2_dot (vsub (rp_p q2) (rp_p q1)) (vsub (rp_p q3) (rp_p q2))).
Definition first_ok (r : rope f32) : bool :=
  let qs := map (go (nlit 1 64)) (map (@drive _ _ RT0 (nlit 1 64) (ro_gravity r) (f32v 0 0) (tu_damping (ro_tuning r))) (ro_points r)) in
  match ro_bend r with
  | [c] => match get qs (be_i1 c), get qs (be_i2 c), get qs (be_i3 c) with Ok q1, Ok q2, Ok q3 => bend_ok q1 q2 q3 | _, _, _ => false end
  | _ => false
  end.
Lemma step_first RT r : exact_at_0 RT -> tu_bending (ro_tuning r) = PbdAngleBending -> neqb (nmul (nneg (nlit 1 64)) (tu_damping (ro_tuning r))) (nofZ 0) = true -> first_ok r = true -> @step _ _ RT (nlit 1 64) 1 (f32v 0 0) r = @step _ _ RT0 (nlit 1 64) 1 (f32v 0 0) r.
Proof.
  intros X B Z F. unfold first_ok in F. destruct (ro_bend r) as [|c [|]] eqn:E; try discriminate. destruct (get _ (be_i1 c)) as [q1| |] eqn:G1; try discriminate. destruct (get _ (be_i2 c)) as [q2| |] eqn:G2; try discriminate. destruct (get _ (be_i3 c)) as [q3| |] eqn:G3; try discriminate. apply andb_prop in F. destruct F as [F1 F2].
  apply (step_any RT X _ _ r c q1 q2 q3 B E Z). cbv zeta. auto.
Qed.
Lemma fix_any RT : exact_at_0 RT -> exists r r', create fix_d rope_default = Ok r /\ @step _ _ RT (nlit 1 64) 1 (f32v 0 0) r = Ok r' /\ Forall (fun q => neqb (rp_im q) (nofZ 0) = true) (ro_points r') /\ Forall not_a_number (ro_points r') /\ length (ro_points r') = 3%nat.
Proof.
  intros X. exists (made fix_d), (after (made fix_d)). split; [apply made_is; vm_compute; reflexivity|]. split; [rewrite (step_first RT (made fix_d) X); [apply after_is; vm_compute; reflexivity|vm_compute; reflexivity|vm_compute; reflexivity|vm_compute; reflexivity]|].
  split; [apply all_of; vm_compute; reflexivity|]. split; [apply all_of; vm_compute; reflexivity|vm_compute; reflexivity].
Qed.
(* XPBD stretching, otherwise default: a stretch_hertz of 0 *)
Definition xp_tuning : tuning f32 := Tuning XpbdStretching PbdDistanceBending (f32_ofZ 0) (f32_ofZ 1) (f32_ofZ 0) (f32_ofZ 0) (nlit 1 2) (f32_ofZ 1) (f32_ofZ 0) false false.
Definition xp_d : rope_def f32 := RopeDef (f32v 0 0) [(f32v 0 0, f32_ofZ 0); (f32v 1 0, f32_ofZ 1); (f32v 2 0, f32_ofZ 1)] (f32v 0 0) xp_tuning.
Lemma xp_any RT : exact_at_0 RT -> exists r r', create xp_d rope_default = Ok r /\ @step _ _ RT (nlit 1 64) 1 (f32v 0 0) r = Ok r' /\ Forall not_a_number (ro_points r') /\ length (ro_points r') = 3%nat.
Proof.
  intros X. exists (made xp_d), (after (made xp_d)). split; [apply made_is; vm_compute; reflexivity|]. split; [rewrite (step_any_distance RT X); [apply after_is; vm_compute; reflexivity|vm_compute; reflexivity|vm_compute; reflexivity]|].
  split; [apply all_of; vm_compute; reflexivity|vm_compute; reflexivity].
Qed.
(* a folded rope made from a used one *)
Definition fold_d : rope_def f32 := RopeDef (f32v 0 0) [(f32v 0 0, f32_ofZ 1); (f32v 1 0, f32_ofZ 1); (f32v 0 0, f32_ofZ 1)] (f32v 0 0) default_tuning.
Definition again : rope f32 := match create fold_d (made fix_d) with Ok r => r | _ => rope_default end.
Lemma stale : exists r0 r1 r2, create fix_d rope_default = Ok r0 /\ create fold_d rope_default = Ok r1 /\ create fold_d r0 = Ok r2 /\ map (fun c => neqb (be_a1 c) (nofZ 0)) (ro_bend r1) = [true] /\ map (fun c => neqb (be_a1 c) (nlit 1 2)) (ro_bend r2) = [true] /\ r1 <> r2.
Proof.
  exists (made fix_d), (made fold_d), again. split; [apply made_is; vm_compute; reflexivity|]. split; [apply made_is; vm_compute; reflexivity|].
  split; [assert (E : match create fold_d (made fix_d) with Ok _ => true | _ => false end = true) by (vm_compute; reflexivity); unfold again; destruct (create fold_d (made fix_d)); congruence|].
  split; [vm_compute; reflexivity|]. split; [vm_compute; reflexivity|]. intros E. assert (A : map (fun c => neqb (be_a1 c) (nofZ 0)) (ro_bend (made fold_d)) = [true]) by (vm_compute; reflexivity). rewrite E in A. assert (B : map (fun c => neqb (be_a1 c) (nofZ 0)) (ro_bend again) = [false]) by (vm_compute; reflexivity). congruence.
Qed.

(** ** reals *)
Local Open Scope R_scope.
(* stretching switched off *)
Lemma pull_0 {C} m1 m2 len (c : C) (q1 q2 : rpoint R) : pbd_pull 0 m1 m2 len c q1 q2 = None \/ pbd_pull 0 m1 m2 len c q1 q2 = Some (c, q1, q2).
Proof. unfold pbd_pull. destruct (vnormalize _) as [l d]. cbv zeta. destruct (neqb _ _); [now left|right]. f_equal. f_equal; [f_equal|]; apply with_p_same; apply vec2_ext; cbn; ring. Qed.
Definition quiet (r : rope R) (pos : vec2 R) : Prop := wf r /\ ro_gravity r = V2 0 0 /\ Forall (fun q => calm q /\ rp_p q = plus (rp_bind q) pos) (ro_points r).
Lemma lone_step r pos : quiet r pos -> tu_stretching (ro_tuning r) = PbdStretching -> tu_stretch_stiffness (ro_tuning r) = 0 -> tu_bending (ro_tuning r) <> SpringAngleBending ->
  exists r' bs' qs', step 1 1 pos r = Ok r' /\ solve_bends 1 (ro_tuning r) (map (fun c => be_with_lambda c 0) (ro_bend r)) (ro_points r) = Ok (bs', qs') /\ ro_points r' = map (settle 1) qs'.
Proof.
  intros (W & G & Q) TS TK TB. assert (D' : nlt (nofZ 0) 1 = true) by (rops; apply Rlt_bool_true; lra). assert (Z' : neqb 1 (nofZ 0) = false) by (rops; apply Req_bool_false; lra).
  destruct (step_parts 1 1 pos r D' W Z') as (qs1 & ss' & bs' & qs' & X & P & Ws & Wb & F & E). assert (Dr : map (drive 1 (ro_gravity r) pos (tu_damping (ro_tuning r))) (ro_points r) = ro_points r).
  { rewrite <- (map_id (ro_points r)) at 2. apply map_ext_in. intros q Hq. destruct (proj1 (Forall_forall _ _) Q q Hq) as ((C & V) & Pq). rewrite G. unfold drive. cbv zeta. destruct (nlt (nofZ 0) (rp_im q)); apply with_v_same; rewrite ?C, ?Pq, V; apply vec2_ext; cbn; rops; ring. }
  rewrite Dr in X. assert (qs1 = ro_points r) by (destruct (tu_bending (ro_tuning r)); congruence). subst qs1. clear X.
  assert (Mg : map (go 1) (ro_points r) = ro_points r). { rewrite <- (map_id (ro_points r)) at 2. apply map_ext_in. intros q Hq. destruct (proj1 (Forall_forall _ _) Q q Hq) as ((C & V) & Pq). unfold go. apply with_p_same. rewrite V. apply vec2_ext; cbn; rops; ring. }
  rewrite Mg in P. unfold for_range in P. cbn [Nat.sub for_from] in P. destruct (rope_pass _ _ _) as [s| |] eqn:Pa; try discriminate. cbn [bind] in P. injection P as ->. unfold rope_pass in Pa.
  destruct (solve_bends 1 (ro_tuning r) (map (fun c => be_with_lambda c (nofZ 0)) (ro_bend r)) (ro_points r)) as [[b2 q2]| |] eqn:Sb; try discriminate. cbn [bind] in Pa. destruct (solve_stretches _ _ _ q2) as [[s2 q3]| |] eqn:Ss; try discriminate. cbn [bind] in Pa. injection Pa as -> -> ->.
  assert (q2 = qs').
  { unfold solve_stretches in Ss. rewrite TS in Ss. revert Ss. generalize (map (fun c : stretch R => st_with_lambda c (nofZ 0)) (ro_stretch r)). clear - TK. intros l. revert ss' q2. induction l as [|c l IH]; intros ss q2 E; cbn [each_item] in E; [congruence|]. destruct (stretch_pbd _ c q2) as [[c1 q4]| |] eqn:E1; try discriminate. cbn [bind] in E. destruct (each_item _ l q4) as [[l1 q5]| |] eqn:E2; try discriminate. cbn [bind] in E. injection E as <- <-.
    assert (q2 = q4); [|subst; eauto]. unfold stretch_pbd in E1. rewrite TK in E1. destruct (get q2 (st_i1 c)) as [a| |] eqn:G1; [|unfold on2 in E1; rewrite G1 in E1; discriminate|unfold on2 in E1; rewrite G1 in E1; discriminate]. destruct (get q2 (st_i2 c)) as [b| |] eqn:G2; [|unfold on2 in E1; rewrite G1, G2 in E1; discriminate|unfold on2 in E1; rewrite G1, G2 in E1; discriminate]. apply get_inv in G1, G2. rewrite (on2_still c _ _ _ q2 a b G1 G2 (pull_0 _ _ _ _ _ _)) in E1. congruence. }
  subst q2. exists (Rope (ro_position r) (map (settle (ndiv (nofZ 1) 1)) qs') ss' bs' (ro_gravity r) (ro_tuning r)), bs', qs'. split; [exact E|]. split; [exact Sb|]. cbn [ro_points]. f_equal. f_equal. rops. field.
Qed.
Lemma created_quiet d r : rd_gravity d = V2 0 0 -> create d rope_default = Ok r -> quiet r (rd_position d).
Proof.
  intros G E. assert (L : (3 <= length (rd_vertices d))%nat) by (destruct (create_parts d _ r E) as (? & ? & L & _); now rewrite map_length in L). split; [apply (call_wf (Create d) rope_default r L default_wf E)|]. destruct (create_parts d _ r E) as (ss & bs & _ & _ & _ & ->). split; [exact G|]. cbn [set_tuning ro_points]. apply Forall_map, Forall_forall. intros v _. repeat split.
Qed.
Definition off (b : bending) : tuning R := Tuning PbdStretching b 0 0 0 0 1 0 0 false false.
Definition ends (r : rope R) : list (vec2 R) := map rp_p (ro_points r).

(* unequal links in the triangle model *)
Definition tri_d : rope_def R := RopeDef (V2 0 0) [(V2 0 0, 1); (V2 1 0, 1); (V2 3 0, 1)] (V2 0 0) (off PbdTriangleBending).
Lemma create_any (d : rope_def R) : (3 <= length (rd_vertices d))%nat -> exists r, create d rope_default = Ok r.
Proof. intros L. destruct (create_total d rope_default L) as (r & E). eauto. Qed.
Lemma line_straight x : 1 <= x -> straight [V2 0 0; V2 1 0; V2 (1 + x) 0].
Proof.
  intros X. assert (Ep : B2_EPSILON <= 1) by (unfold B2_EPSILON, nlit; cbn; lra). assert (S : forall a b, 0 <= b - a -> size (minus (V2 b 0) (V2 a 0)) = b - a) by (intros a b L; unfold size, dot, minus; cbn; replace ((b - a) * (b - a) + (0 - 0) * (0 - 0)) with ((b - a) * (b - a)) by ring; now apply sqrt_square).
  cbn [straight]. rewrite !S by lra. repeat split; try lra. exists x. split; [lra|]. apply vec2_ext; cbn; ring.
Qed.
Lemma tri_straight : straight (map fst (rd_vertices tri_d)).
Proof. cbn [tri_d rd_vertices map fst]. replace 3 with (1 + 2) by ring. apply line_straight. lra. Qed.
Lemma tri_moves : exists r r', create tri_d rope_default = Ok r /\ step 1 1 (V2 0 0) r = Ok r' /\ ends r = [V2 0 0; V2 1 0; V2 3 0] /\ ends r' = [V2 (- (1 / 6)) 0; V2 (4 / 3) 0; V2 (17 / 6) 0].
Proof.
  destruct (create_any tri_d) as [r E]; [cbn; lia|]. assert (Q := created_quiet tri_d r eq_refl E). destruct (create_parts _ _ _ E) as (ss & bs & _ & _ & Eb & Er).
  destruct (lone_step r (V2 0 0) Q) as (r' & bs' & qs' & S & B & P); [now subst r|now subst r|subst r; discriminate|]. exists r, r'. split; [exact E|]. split; [exact S|].
  cbn [tri_d rd_vertices rd_position map] in Eb, Er. cbn [length Nat.sub resize firstn ro_bend rope_default app repeat each_place] in Eb. destruct (new_bend _ 0 bend_default) as [c| |] eqn:Nc; try discriminate. cbn [bind] in Eb. injection Eb as <-. apply new_bend_inv in Nc. destruct Nc as (I1 & I2 & I3 & q1 & q2 & q3 & N1 & N2 & N3 & M1 & M2 & M3 & _).
  cbn in N1, N2, N3. injection N1 as <-. injection N2 as <-. injection N3 as <-. cbn [new_point rp_im snd fst] in M1, M2, M3. assert (One : (if nlt (nofZ 0) 1 then ndiv (nofZ 1) 1 else nofZ 0) = 1) by (rops; rewrite Rlt_bool_true by lra; field). rewrite One in M1, M2, M3.
  split; [subst r; unfold ends; cbn [set_tuning ro_points map new_point rp_p fst]; repeat f_equal; apply vec2_ext; cbn; ring|].
  unfold ends. rewrite P, map_map. cbn [settle rp_p]. subst r. cbn [set_tuning ro_tuning ro_bend ro_points map tri_d rd_tuning] in B. unfold solve_bends in B. cbn [tu_bending off] in B. cbn [each_item] in B.
  destruct (tune_bend_parts (off PbdTriangleBending) c) as (k & dm & Tb). rewrite Tb in B. unfold bend_pbd_triangle, on3 in B. cbn [be_with_lambda be_with_spring be_i1 be_i2 be_i3 be_m1 be_m2 be_m3] in B. rewrite I1, I2, I3, M1, M2, M3 in B. cbn [Nat.add get nth_error bind set length Nat.ltb Nat.leb upd] in B. injection B as <- <-. cbn [map with_p rp_p new_point fst settle].
  repeat f_equal; apply vec2_ext; cbn; field.
Qed.

(* a folded rope in the height model *)
Definition bent_d : rope_def R := RopeDef (V2 0 0) [(V2 1 0, 1); (V2 2 0, 1); (V2 1 0, 1)] (V2 0 0) (off PbdHeightBending).
Lemma bent_runs : exists r r', create bent_d rope_default = Ok r /\ step 1 1 (V2 0 0) r = Ok r' /\ all_heavy r /\ momentum (ro_points r) = V2 0 0 /\ momentum (ro_points r') = V2 (-2) 0 /\ ends r = [V2 1 0; V2 2 0; V2 1 0] /\ ends r' = [V2 1 0; V2 0 0; V2 1 0].
Proof.
  destruct (create_any bent_d) as [r E]; [cbn; lia|]. assert (Q := created_quiet bent_d r eq_refl E). destruct (create_parts _ _ _ E) as (ss & bs & _ & _ & Eb & Er).
  destruct (lone_step r (V2 0 0) Q) as (r' & bs' & qs' & S & B & P); [now subst r|now subst r|subst r; discriminate|]. exists r, r'. split; [exact E|]. split; [exact S|].
  cbn [bent_d rd_vertices rd_position map] in Eb, Er. cbn [length Nat.sub resize firstn ro_bend rope_default app repeat each_place] in Eb. destruct (new_bend _ 0 bend_default) as [c| |] eqn:Nc; try discriminate. cbn [bind] in Eb. injection Eb as <-.
  assert (A : be_a1 c = 0 /\ be_a2 c = 0). { clear - Nc. unfold new_bend in Nc. cbn [Nat.add get nth_error bind] in Nc. cbn [new_point rp_p rp_im fst snd] in Nc. destruct (neqb (nmul _ _) _); [injection Nc as <-; split; reflexivity|]. cbv zeta in Nc. match type of Nc with context [neqb ?a (nofZ 0)] => assert (Z : neqb a (nofZ 0) = true) by (cbn; apply Req_bool_true; ring); rewrite Z in Nc end. injection Nc as <-. split; reflexivity. }
  apply new_bend_inv in Nc. destruct Nc as (I1 & I2 & I3 & q1 & q2 & q3 & N1 & N2 & N3 & M1 & M2 & M3 & _).
  cbn in N1, N2, N3. injection N1 as <-. injection N2 as <-. injection N3 as <-. cbn [new_point rp_im snd fst] in M1, M2, M3. assert (One : (if nlt (nofZ 0) 1 then ndiv (nofZ 1) 1 else nofZ 0) = 1) by (rops; rewrite Rlt_bool_true by lra; field). rewrite One in M1, M2, M3. destruct A as [A1 A2].
  assert (Fin : ro_points r' = map (settle 1) (map (fun '(q, x) => with_p q (V2 x 0)) [(new_point (V2 0 0) (V2 1 0, 1), 1); (new_point (V2 0 0) (V2 2 0, 1), 0); (new_point (V2 0 0) (V2 1 0, 1), 1)])).
  { rewrite P. f_equal. clear P S E Q. subst r. cbn [set_tuning ro_tuning ro_bend ro_points map bent_d rd_tuning] in B. unfold solve_bends in B. cbn [tu_bending off] in B. cbn [each_item] in B. destruct (tune_bend_parts (off PbdHeightBending) c) as (k & dm & Tb). rewrite Tb in B. unfold bend_pbd_height, on3 in B. cbn [be_with_lambda be_with_spring be_i1 be_i2 be_i3 be_m1 be_m2 be_m3 be_a1 be_a2] in B. rewrite I1, I2, I3, M1, M2, M3, A1, A2 in B. cbn [Nat.add get nth_error bind] in B. cbv zeta in B.
    match type of B with context [vlen ?d] => assert (D : d = V2 (-2) 0) by (apply vec2_ext; cbn; ring); rewrite D in B end. assert (L : vlen (V2 (-2) 0) = 2) by (change (sqrt (-2 * -2 + 0 * 0) = 2); replace (-2 * -2 + 0 * 0) with (2 * 2) by ring; apply sqrt_square; lra). rewrite L in B. assert (Z1 : neqb 2 (nofZ 0) = false) by (rops; apply Req_bool_false; lra). rewrite Z1 in B.
    match type of B with context [neqb ?a (nofZ 0)] => assert (Z2 : neqb a (nofZ 0) = false) by (rops; apply Req_bool_false; lra); rewrite Z2 in B end. unfold bend_move in B. cbn [bind set length Nat.ltb Nat.leb upd] in B. injection B as <- <-. cbn [map]. unfold with_p. cbn [new_point rp_p rp_bind rp_p0 rp_v rp_im fst snd be_m1 be_m2 be_m3 tu_bend_stiffness off be_with_lambda be_with_spring]. rewrite ?M1, ?M2, ?M3. repeat f_equal; apply vec2_ext; cbn; field. }
  assert (Im : forall v, rp_im (new_point (V2 0 0) (v, 1)) = 1) by (intros v; cbn [new_point rp_im snd]; exact One).
  split; [subst r; unfold all_heavy; cbn [set_tuning ro_points map]; repeat constructor; rewrite Im; lra|]. split; [|split; [|split]].
  - subst r. cbn [set_tuning ro_points map]. unfold momentum, sum, mass. cbn [map fold_right]. rewrite !Im. apply vec2_ext; cbn; field.
  - rewrite Fin. unfold momentum, sum, mass. cbn [map fold_right]. cbn [settle with_p rp_im rp_v rp_p rp_p0]. change (rp_im (new_point (V2 0 0) ?x)) with (rp_im (new_point (V2 0 0) x)). rewrite !Im. apply vec2_ext; cbn; field.
  - subst r. unfold ends. cbn [set_tuning ro_points map new_point rp_p fst]. repeat f_equal; apply vec2_ext; cbn; ring.
  - unfold ends. rewrite Fin. cbn [map settle with_p rp_p]. reflexivity.
Qed.

(* a rope with a fixed end *)
Definition hung_d : rope_def R := RopeDef (V2 0 0) [(V2 0 0, 0); (V2 1 0, 1); (V2 2 0, 1)] (V2 0 (-10)) default_tuning.
Lemma hung_runs n : exists r r', reached r /\ create hung_d rope_default = Ok r /\ step 1 n (V2 5 0) r = Ok r' /\ map rp_im (ro_points r) = [0; 1; 1] /\ length (ro_points r') = 3%nat.
Proof.
  destruct (create_any hung_d) as [r E]; [cbn; lia|]. assert (Rr : reached r) by (exists [Create hung_d]; split; [apply Forall_cons; [cbn; lia|apply Forall_nil]|cbn [calls do_call]; rewrite E; reflexivity]). assert (D' : nlt (nofZ 0) 1 = true) by (rops; apply Rlt_bool_true; lra). assert (Z' : neqb 1 (nofZ 0) = false) by (rops; apply Req_bool_false; lra).
  destruct (reached_ok r Rr) as [W _]. destruct (step_parts 1 n (V2 5 0) r D' W Z') as (qs1 & ss' & bs' & qs' & _ & _ & _ & _ & F & S). eexists r, _. split; [exact Rr|]. split; [exact E|]. split; [exact S|]. destruct (create_parts _ _ _ E) as (ss & bs & _ & _ & _ & Er). split.
  - subst r. cbn [set_tuning ro_points hung_d rd_vertices rd_position map new_point rp_im snd]. rops. rewrite Rlt_bool_false, Rlt_bool_true by lra. repeat f_equal; field.
  - cbn [ro_points]. rewrite map_length. assert (Lf : length (ro_points r) = length qs') by (clear - F; induction F; cbn; congruence). rewrite <- Lf. subst r. reflexivity.
Qed.
Lemma tri_heavy : exists r r', reached r /\ all_heavy r /\ proper_heights r /\ tu_stretching (ro_tuning r) = PbdStretching /\ step 1 1 (V2 0 0) r = Ok r'.
Proof.
  destruct tri_moves as (r & r' & E & S & _). exists r, r'. split; [exists [Create tri_d]; split; [apply Forall_cons; [cbn; lia|apply Forall_nil]|cbn [calls do_call]; rewrite E; reflexivity]|]. destruct (create_parts _ _ _ E) as (ss & bs & _ & _ & _ & Er). subst r. split.
  - unfold all_heavy. cbn [set_tuning ro_points tri_d rd_vertices rd_position map]. assert (One : (if nlt (nofZ 0) 1 then ndiv (nofZ 1) 1 else nofZ 0) = 1) by (rops; rewrite Rlt_bool_true by lra; field). repeat constructor; cbn [new_point rp_im snd]; rewrite One; lra.
  - split; [intros X; discriminate|]. split; [reflexivity|exact S].
Qed.
(* three points of a right angle *)
Definition corner : list (rpoint R) := map (fun p => RPoint p p p (V2 0 0) 1) [V2 0 0; V2 1 0; V2 1 1].
Definition corner_c : bend R := Bend 0 1 2 1 1 1 0 0 1 1 (1 / 2) (1 / 2) 1 0.
Lemma corner_open : open_at (V2 0 0) (V2 1 0) (V2 1 1).
Proof. split; [intros E; apply (f_equal vx) in E; cbn in E; lra|]. split; [intros E; apply (f_equal vy) in E; cbn in E; lra|]. intros k K E. apply (f_equal vy) in E. cbn in E. lra. Qed.
Lemma corner_light : light corner_c.
Proof. unfold light. cbn. lra. Qed.
Lemma corner_angle : angle_at (V2 0 0) (V2 1 0) (V2 1 1) = PI / 2.
Proof.
  unfold angle_at, angle_of. cbv zeta. cbn [minus dot cross vx vy]. unfold cross, dot. cbn [minus vx vy]. replace (((1 - 0) * (1 - 1) + (0 - 0) * (1 - 0)) * ((1 - 0) * (1 - 1) + (0 - 0) * (1 - 0)) + ((1 - 0) * (1 - 0) - (0 - 0) * (1 - 1)) * ((1 - 0) * (1 - 0) - (0 - 0) * (1 - 1))) with 1 by ring. rewrite sqrt_1.
  destruct (Req_EM_T _ 0) as [Z|Z]; [exfalso; lra|]. replace (((1 - 0) * (1 - 0) - (0 - 0) * (1 - 1)) / (1 + ((1 - 0) * (1 - 1) + (0 - 0) * (1 - 0)))) with 1 by field. rewrite atan_1. field.
Qed.
Lemma apart_line : apart [(V2 0 0, 1); (V2 1 0, 1); (V2 3 0, 1)].
Proof.
  intros i a b c A B C. assert (L := nth_lt _ _ _ C). cbn in L. assert (i = 0%nat) as -> by lia. cbn in A, B, C. injection A as <-. injection B as <-. injection C as <-. cbn. repeat split; intros E; apply (f_equal vx) in E; cbn in E; lra.
Qed.
(* as stated *)
Lemma few_vertices {T} {NT : Num T} (d : rope_def T) r : (length (rd_vertices d) < 3)%nat -> create d r = Panic.
Proof. intros L. unfold create. destruct (3 <=? length (rd_vertices d))%nat eqn:X; [apply Nat.leb_le in X; lia|reflexivity]. Qed.
Lemma fair_ex : Forall fair [Create fix_d; SetTuning xp_tuning; Step (nlit 1 64) 8 (f32v 1 0); Create fold_d; Reset (f32v 0 0); Step (f32_ofZ 0) 8 (f32v 0 0)].
Proof. repeat (apply Forall_cons; [first [exact Logic.I|cbn [fair rd_vertices fix_d fold_d length]; lia|right; vm_compute; reflexivity|left; vm_compute; reflexivity]|]). apply Forall_nil. Qed.
Lemma fix_refutes : exists d dt, forall RT : NumRope f32, exact_at_0 RT -> exists r r', create d rope_default = Ok r /\ tu_bending (ro_tuning r) = PbdAngleBending /\ @step _ _ RT dt 1 (rd_position d) r = Ok r' /\
  Forall (fun q => neqb (rp_im q) (nofZ 0) = true) (ro_points r') /\ Forall not_a_number (ro_points r') /\ length (ro_points r') = 3%nat.
Proof.
  exists fix_d, (nlit 1 64). intros RT X. destruct (fix_any RT X) as (r & r' & E & S & H). exists r, r'. split; [exact E|]. split; [|split; [exact S|exact H]]. destruct (create_parts _ _ _ E) as (? & ? & _ & _ & _ & ->). reflexivity.
Qed.
Lemma xp_refutes : exists d dt, tu_stretch_hertz (rd_tuning d) = tu_stretch_hertz (T := f32) default_tuning /\ forall RT : NumRope f32, exact_at_0 RT -> exists r r', create d rope_default = Ok r /\ @step _ _ RT dt 1 (rd_position d) r = Ok r' /\ Forall not_a_number (ro_points r') /\ length (ro_points r') = 3%nat.
Proof. exists xp_d, (nlit 1 64). split; [reflexivity|]. exact xp_any. Qed.
Lemma apart_proper cs r : Forall fair cs -> Forall apart_call cs -> calls cs rope_default = Ok r -> proper_heights r.
Proof. intros F A E _. exact (calls_heights cs r F A E). Qed.
Lemma bent_refutes : exists d r r', create d rope_default = Ok r /\ step 1 1 (rd_position d) r = Ok r' /\ all_heavy r /\ ro_gravity r = V2 0 0 /\ momentum (ro_points r) = V2 0 0 /\ momentum (ro_points r') = V2 (-2) 0 /\
  map rp_p (ro_points r) = [V2 1 0; V2 2 0; V2 1 0] /\ map rp_p (ro_points r') = [V2 1 0; V2 0 0; V2 1 0].
Proof.
  destruct bent_runs as (r & r' & E & S & H & M). exists bent_d, r, r'. split; [exact E|]. split; [exact S|]. split; [exact H|]. split; [|exact M]. destruct (create_parts _ _ _ E) as (? & ? & _ & _ & _ & ->). reflexivity.
Qed.
Lemma corner_all : open_at (V2 0 0) (V2 1 0) (V2 1 1) /\ light corner_c /\ angle_at (V2 0 0) (V2 1 0) (V2 1 1) = PI / 2 /\ map rp_p corner = [V2 0 0; V2 1 0; V2 1 1].
Proof. split; [exact corner_open|]. split; [exact corner_light|]. split; [exact corner_angle|reflexivity]. Qed.
Lemma corner_spring : open_at (V2 0 0) (V2 1 0) (V2 1 1) /\ light corner_c /\ 0 < be_spring corner_c /\ 0 <= be_damper corner_c.
Proof. split; [exact corner_open|]. split; [exact corner_light|]. cbn. lra. Qed.
Lemma tri_refutes : exists d r r', straight (map fst (rd_vertices d)) /\ rd_gravity d = V2 0 0 /\ create d rope_default = Ok r /\ step 1 1 (rd_position d) r = Ok r' /\
  map rp_p (ro_points r) = [V2 0 0; V2 1 0; V2 3 0] /\ map rp_p (ro_points r') = [V2 (- (1 / 6)) 0; V2 (4 / 3) 0; V2 (17 / 6) 0].
Proof. destruct tri_moves as (r & r' & H). exists tri_d, r, r'. split; [exact tri_straight|]. split; [reflexivity|exact H]. Qed.
Lemma stale_refutes : exists d0 d (r0 r1 r2 : rope f32), create d0 rope_default = Ok r0 /\ create d rope_default = Ok r1 /\ create d r0 = Ok r2 /\ map (fun c => neqb (be_a1 c) (nofZ 0)) (ro_bend r1) = [true] /\ map (fun c => neqb (be_a1 c) (nlit 1 2)) (ro_bend r2) = [true] /\ r1 <> r2.
Proof. exists fix_d, fold_d. exact stale. Qed.
