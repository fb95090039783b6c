(** A static or kinematic body in an island: the solver leaves its velocity, and only its velocity moves it. *)
From Coq Require Import List ZArith Bool Arith Lia Reals Lra.
From Flocq Require Import Core.Raux.
From Verif Require Import Base ListFacts Num NumLaws RTac Math Manifold DynModel SolverModel IslandModel WorldModel SolverSpec SolverProofs SolverReal ShapeModel NarrowModel SolveModel CrashSpec FlightSpec FirmSpec.
Import ListNotations.
Local Open Scope R_scope.

(** ** lists *)
Lemma nth_pairs {A B} (l : list A) (m : list B) k : nth_error (List.combine l m) k = match nth_error l k, nth_error m k with Some a, Some b => Some (a, b) | _, _ => None end.
Proof. revert m k. induction l as [|a l IH]; intros [|b m] [|k]; cbn; auto. now destruct (nth_error l k). Qed.
Lemma items_both {C S} (Q : C -> Prop) (I : S -> Prop) (f : C -> S -> res (C * S)) : (forall c s c' s', Q c -> I s -> f c s = Ok (c', s') -> Q c' /\ I s') ->
  forall l s l' s', Forall Q l -> I s -> each_item f l s = Ok (l', s') -> Forall Q l' /\ I s'.
Proof.
  intros H. induction l as [|c l IH]; intros s l' s' F Is R; cbn [each_item] in R; [injection R as <- <-; auto|]. inversion F; subst. apply bind_ok in R as ([c1 s1] & R1 & R). apply bind_ok in R as ([l1 s2] & R2 & R). injection R as <- <-.
  destruct (H _ _ _ _ H2 Is R1) as [Q1 I1]. destruct (IH _ _ _ H3 I1 R2) as [F1 I2]. split; auto.
Qed.
Lemma range_inv {S} (I : S -> Prop) (f : nat -> S -> res S) : (forall k s s', I s -> f k s = Ok s' -> I s') -> forall n lo s s', I s -> for_from n lo f s = Ok s' -> I s'.
Proof. intros H. induction n as [|n IH]; intros lo s s' Is; cbn [for_from]; [now intros [= <-]|]. intros R. apply bind_ok in R as (s1 & R1 & R2). eauto. Qed.

(** ** cutting *)
Lemma cap_cuts h (v : vel R) : cut_v h (v_v v) (v_v (cap_velocity h v)) /\ cut_w h (v_w v) (v_w (cap_velocity h v)).
Proof.
  split.
  - unfold cap_velocity. cbv zeta. cbn [v_v]. destruct v as [[x y] om]. cbn [v_v v_w]. unfold cut_v, way. cbn [vx vy]. unfold B2_MAX_TRANSLATION_SQUARED, B2_MAX_TRANSLATION, B2_LENGTH_UNITS_PER_METER, vlen. rmathc.
    set (t := h * x * (h * x) + h * y * (h * y)). replace (2 * 1 * (2 * 1)) with 4 by ring. replace (2 * 1) with 2 by ring. split.
    + intros L. now rewrite Rlt_bool_false by lra.
    + intros L. rewrite Rlt_bool_true by lra. assert (P : 0 < sqrt t) by (apply sqrt_lt_R0; lra). assert (S : sqrt t * sqrt t = t) by (apply sqrt_sqrt; lra). exists (2 / sqrt t). split; [apply Rdiv_lt_0_compat; lra|]. split; [apply vec2_ext; cbn [vx vy]; ring|]. cbn [vx vy].
      transitivity (t / (sqrt t * sqrt t) * 4); [subst t; field; lra|]. rewrite S. field. lra.
  - unfold cap_velocity. cbv zeta. cbn [v_w]. destruct v as [v om]. cbn [v_v v_w]. unfold cut_w. assert (M : 0 < (B2_MAX_ROTATION : R)) by (unfold B2_MAX_ROTATION, nlit; rops; pose proof PI_RGT_0; lra). unfold B2_MAX_ROTATION_SQUARED. set (mx := B2_MAX_ROTATION) in *. clearbody mx. rops. set (r := h * om).
    assert (Q : Rabs r * Rabs r = r * r) by (rewrite <- Rabs_mult, Rabs_pos_eq; nra). pose proof (Rabs_pos r). split.
    + intros L. rewrite Rlt_bool_false; [reflexivity|]. nra.
    + intros L. rewrite Rlt_bool_true by nra. exists (mx / Rabs r). split; [apply Rdiv_lt_0_compat; lra|]. split; [ring|]. replace (h * (om * (mx / Rabs r))) with (r * (mx / Rabs r)) by (subst r; ring). rewrite Rabs_mult, (Rabs_pos_eq (mx / Rabs r)) by (apply Rlt_le, Rdiv_lt_0_compat; lra). field. lra.
Qed.

Section Firm.
  Context {TT : NumTrig R}.
  Variables (bs : list (body R)) (i : nat) (b : body R).
  Hypothesis Ni : nth_error bs i = Some b.
  Hypothesis Fb : firm b.

  (** ** positions *)
  (* a constraint between two different bodies of the list *)
  Definition pjoins (pc : pcon R) : Prop := exists a c ba bc, pc_a pc = Z.of_nat a /\ pc_b pc = Z.of_nat c /\ a <> c /\ nth_error bs a = Some ba /\ nth_error bs c = Some bc /\
    pc_ma pc = b_inv_mass ba /\ pc_ia pc = b_inv_i ba /\ pc_mb pc = b_inv_mass bc /\ pc_ib pc = b_inv_i bc.
  Lemma pos_same (p : pos R) (v : vec2 R) r : Pos (vsub (p_c p) (vscale 0 v)) (p_a p - 0 * r) = p /\ Pos (vadd (p_c p) (vscale 0 v)) (p_a p + 0 * r) = p.
  Proof. destruct p as [[x y] a]. unfold vsub, vadd, vscale. cbn. split; f_equal; try (apply vec2_ext; cbn; ring); ring. Qed.
  Lemma point_firm bg ma mb ia ib pc j m pa pb m' pa' pb' : position_point bg ma mb ia ib pc j (m, pa, pb) = Ok (m', pa', pb') -> (ma = 0 -> ia = 0 -> pa' = pa) /\ (mb = 0 -> ib = 0 -> pb' = pb).
  Proof.
    unfold position_point. intros R. apply bind_ok in R as ([[n pt] sep] & _ & R). cbv zeta in R. injection R as _ <- <-. split; intros -> ->; rops; [apply pos_same|apply pos_same].
  Qed.
  Lemma constraint_firm bg ma mb ia ib pc m poss m' poss' : pjoins pc -> (pc_ma pc = 0 -> ma = 0) -> (pc_ia pc = 0 -> ia = 0) -> (pc_mb pc = 0 -> mb = 0) -> (pc_ib pc = 0 -> ib = 0) ->
    position_constraint bg ma mb ia ib pc (m, poss) = Ok (m', poss') -> nth_error poss' i = nth_error poss i.
  Proof.
    intros (a & c & ba & bc & Ea & Ec & N & Na & Nc & Q1 & Q2 & Q3 & Q4) M1 M2 M3 M4 R. destruct Fb as [_ [Z1 Z2]]. unfold position_constraint in R. rewrite Ea, Ec, !zget_nat in R. apply bind_ok in R as (pa & Ga & R). apply bind_ok in R as (pb & Gb & R). apply bind_ok in R as ([[m1 pa'] pb'] & Rf & R).
    rewrite !zset_nat in R. apply bind_ok in R as (l1 & S1 & R). rewrite zset_nat in R. apply bind_ok in R as (l2 & S2 & [= _ <-]). apply set_inv in S1, S2. destruct S1 as [L1 ->], S2 as [L2 ->]. apply get_inv in Ga, Gb.
    assert (K : (ma = 0 -> ia = 0 -> pa' = pa) /\ (mb = 0 -> ib = 0 -> pb' = pb)).
    { unfold for_range in Rf. refine (range_inv (fun st : _ * pos _ * pos _ => let '(_, qa, qb) := st in (ma = 0 -> ia = 0 -> qa = pa) /\ (mb = 0 -> ib = 0 -> qb = pb)) _ _ _ _ _ (m1, pa', pb') _ Rf); [|auto].
      intros k [[u1 u2] u3] [[t1 t2] t3] (I1 & I2) Rp. apply point_firm in Rp as (P1 & P2). split; intros A B; [rewrite (P1 A B)|rewrite (P2 A B)]; auto. }
    rewrite nth_upd2 by auto. destruct (Nat.eqb_spec i c) as [->|Xc].
    - destruct (Nat.ltb_spec c (length poss)); [|rewrite length_upd in L2; lia]. rewrite Gb. f_equal. assert (bc = b) as -> by congruence. apply K; [apply M3|apply M4]; congruence.
    - destruct (Nat.eqb_spec i a) as [->|]; auto. destruct (Nat.ltb_spec a (length poss)); [|lia]. rewrite Ga. f_equal. assert (ba = b) as -> by congruence. apply K; [apply M1|apply M2]; congruence.
  Qed.
  Lemma positions_firm pcs poss poss' okay : Forall pjoins pcs -> solve_positions pcs poss = Ok (poss', okay) -> nth_error poss' i = nth_error poss i.
  Proof.
    intros F R. unfold solve_positions in R. apply bind_ok in R as ([l [m q]] & R & [= <- _]).
    assert (K : Forall pjoins l /\ nth_error (snd (m, q)) i = nth_error poss i); [|apply K].
    refine (items_both pjoins (fun st : _ * list (pos _) => nth_error (snd st) i = nth_error poss i) _ _ pcs _ l (m, q) F _ R); [|reflexivity].
    intros pc [m0 p0] pc' [m1 p1] Hp Is Rp. apply bind_ok in Rp as ([m2 p2] & Rp & [= <- <- <-]). split; auto. cbn [snd] in *. apply constraint_firm in Rp; auto. congruence.
  Qed.
  Lemma toi_mass_zero k ta tb m : m = 0 -> toi_mass k ta tb m = 0.
  Proof. intros ->. unfold toi_mass. now destruct (_ || _). Qed.
  Lemma toi_positions_firm ta tb pcs poss poss' okay : Forall pjoins pcs -> solve_toi_positions ta tb pcs poss = Ok (poss', okay) -> nth_error poss' i = nth_error poss i.
  Proof.
    intros F R. unfold solve_toi_positions in R. apply bind_ok in R as ([l [m q]] & R & [= <- _]).
    assert (K : Forall pjoins l /\ nth_error (snd (m, q)) i = nth_error poss i); [|apply K].
    refine (items_both pjoins (fun st : _ * list (pos _) => nth_error (snd st) i = nth_error poss i) _ _ pcs _ l (m, q) F _ R); [|reflexivity].
    intros pc [m0 p0] pc' [m1 p1] Hp Is Rp. apply bind_ok in Rp as ([m2 p2] & Rp & [= <- <- <-]). split; auto. cbn [snd] in *. apply constraint_firm in Rp; auto using toi_mass_zero. congruence.
  Qed.

  (** ** the constraints *)
  Lemma made_pjoins step cins cs pcs : Forall (touches (fun _ => True) bs) cins -> make_constraints step cins = Ok (cs, pcs) -> Forall (joins (fun _ => True) bs) cs /\ Forall pjoins pcs.
  Proof.
    intros H M. unfold make_constraints in M. apply bind_ok in M as (l & E & [= <- <-]). apply map_res_inv in E. rewrite !Forall_map. revert H. induction E as [|ci [c pc] cins l E0 E IH]; intros H; [split; constructor|]. inversion H; subst. destruct (IH H3) as [A B]. split; constructor; auto; cbn [fst snd].
    - eapply new_joins; eauto.
    - destruct H2 as (a & d & Na & Nb & N & Ea & Eb & _). unfold new_constraint in E0. apply bind_ok in E0 as (_ & _ & E0). apply bind_ok in E0 as (ps & _ & [= _ <-]). exists a, d, (ci_a ci), (ci_b ci). cbn. repeat split; auto.
  Qed.
  Lemma init_joins block poss vels cins pcs cs cs' : Forall (joins (fun _ => True) bs) cs -> init_constraints block poss vels cins pcs cs = Ok cs' -> Forall (joins (fun _ => True) bs) cs'.
  Proof.
    intros H R. rewrite Forall_forall in *. intros c Ic. destruct (zip_res_inv _ _ _ _ _ R Ic) as (ci & [pc c0] & _ & Ib & F). cbn [fst snd] in F. eapply masses_joins; [eapply init_masses; eauto|]. apply H. eapply in_combine_r; eauto.
  Qed.
  Lemma firm_velocity h g : integrate_velocity h g b = body_vel b.
  Proof. unfold integrate_velocity, is_dynamic. destruct Fb as [Ty _]. destruct (b_type b); try contradiction; reflexivity. Qed.
  Lemma carried_move h : carried h b (p_c (move h (body_pos b) (cap_velocity h (body_vel b)))) (p_a (move h (body_pos b) (cap_velocity h (body_vel b)))) (v_v (cap_velocity h (body_vel b))) (v_w (cap_velocity h (body_vel b))).
  Proof. destruct (cap_cuts h (body_vel b)) as [A B]. split; [exact A|]. split; [exact B|]. split; reflexivity. Qed.

  (** ** the island *)
  Context {J : Type} (js : jsolver R J).
  Variable good : J -> Prop.
  Hypothesis SP : joints_spare js i good.
  Lemma iteration_firm block step jl cs vels jl' cs' vels' : Forall good jl -> Forall (joins (fun _ => True) bs) cs -> velocity_iteration js block step (jl, cs, vels) = Ok (jl', cs', vels') ->
    Forall good jl' /\ Forall (joins (fun _ => True) bs) cs' /\ nth_error vels' i = nth_error vels i.
  Proof.
    intros Fj Fc R. unfold velocity_iteration in R. apply bind_ok in R as ([j1 v1] & R1 & R). apply bind_ok in R as ([c1 v2] & R2 & [= <- <- <-]).
    destruct (items_both good (fun v => nth_error v i = nth_error vels i) (js_vel js step)) with (4 := R1) as [A B]; auto. { intros j v j' v' Hj Hv Q. destruct (sp_vel _ _ _ SP _ _ _ _ _ Hj Q) as [Q1 Q2]. split; auto. congruence. }
    destruct (lift_solve (joins (fun _ => True) bs) (fun v => nth_error v i = nth_error v1 i)) with (5 := R2) as [C D]; auto; [apply frame_joins| |].
    - intros c g v c' v' Jc O Iv W. rewrite (one_still bs c g v c' v' i b Jc Ni (proj2 Fb) O W). exact Iv.
    - split; [exact A|]. split; [exact D|]. congruence.
  Qed.
  Lemma positions_done step pcs n : forall jl poss jl' poss' okay, Forall pjoins pcs -> Forall good jl -> position_iterations js n step pcs jl poss = Ok (jl', poss', okay) -> nth_error poss' i = nth_error poss i.
  Proof.
    induction n as [|n IH]; intros jl poss jl' poss' okay Fp Fj R; cbn [position_iterations] in R; [injection R as _ <- _; reflexivity|]. apply bind_ok in R as ([p1 ok1] & R1 & R). apply bind_ok in R as ([j1 [p2 ok2]] & R2 & R). apply positions_firm in R1; auto.
    destruct (items_both good (fun st : list (pos _) * bool => nth_error (fst st) i = nth_error p1 i)) with (4 := R2) as [A B]; auto.
    { intros j [p k] j' [p' k'] Hj Hv Q. apply bind_ok in Q as ([[j2 p3] k2] & Q & [= <- <- <-]). destruct (sp_pos _ _ _ SP _ _ _ _ _ _ Hj Q) as [Q1 Q2]. split; auto. cbn [fst] in *. congruence. }
    cbn [fst] in B. destruct (ok1 && ok2); [injection R as _ <- _; congruence|]. apply IH in R; auto. congruence.
  Qed.
  Theorem island_firm block step g cins jl r : Forall (touches (fun _ => True) bs) cins -> Forall good jl -> island_solve js block step g bs cins jl = Ok r ->
    exists b', nth_error (ir_bodies r) i = Some b' /\ carried (ts_dt step) b (sw_c (b_sweep b')) (sw_a (b_sweep b')) (b_lv b') (b_av b') /\ sw_c0 (b_sweep b') = sw_c (b_sweep b) /\ sw_a0 (b_sweep b') = sw_a (b_sweep b).
  Proof.
    intros Ft Fj R. unfold island_solve in R. cbv zeta in R. apply bind_ok in R as ([cs pcs] & Rm & R). apply bind_ok in R as (cs1 & Ri & R). apply bind_ok in R as ([cs2 v2] & Rw & R). apply bind_ok in R as ([jl1 [p3 v3]] & Rj & R). apply bind_ok in R as ([[jl2 cs3] v4] & Rv & R). apply bind_ok in R as (ms & _ & R). apply bind_ok in R as ([[jl3 p5] okay] & Rp & [= <-]). cbn [ir_bodies].
    destruct (made_pjoins _ _ _ _ Ft Rm) as [F0 Fp]. pose proof (init_joins _ _ _ _ _ _ _ F0 Ri) as F1. set (h := ts_dt step) in *. set (v0 := map (integrate_velocity h g) bs) in *.
    assert (V0 : nth_error v0 i = Some (body_vel b)) by (unfold v0; rewrite nth_error_map, Ni; cbn; now rewrite firm_velocity).
    assert (K2 : nth_error v2 i = nth_error v0 i /\ Forall (joins (fun _ => True) bs) cs2). { destruct (ts_warm step); [|injection Rw as <- <-; auto]. exact (warm_still bs cs1 v0 cs2 v2 i b Ni (proj2 Fb) F1 Rw). } destruct K2 as [V2 F2].
    destruct (items_both good (fun st : list (pos _) * list (vel _) => nth_error (fst st) i = nth_error (map body_pos bs) i /\ nth_error (snd st) i = nth_error v2 i)) with (4 := Rj) as [Fj1 [P3 V3]]; auto.
    { intros j [p v] j' [p' v'] Hj [I1 I2] Q. apply bind_ok in Q as ([[j2 p2] w2] & Q & [= <- <- <-]). cbn [fst snd] in *. destruct (sp_init _ _ _ SP _ _ _ _ _ _ _ Hj Q) as (Q1 & Q2 & Q3). split; auto. split; congruence. }
    cbn [fst snd] in P3, V3.
    assert (K4 : Forall good jl2 /\ nth_error v4 i = nth_error v3 i).
    { unfold for_range in Rv. enough (H : Forall good jl2 /\ Forall (joins (fun _ => True) bs) cs3 /\ nth_error v4 i = nth_error v3 i) by (split; apply H).
      refine (range_inv (fun st : list J * list (vcon _) * list (vel _) => let '(a, c, v) := st in Forall good a /\ Forall (joins (fun _ => True) bs) c /\ nth_error v i = nth_error v3 i) _ _ _ _ (jl1, cs2, v3) (jl2, cs3, v4) _ Rv); [|auto].
      intros k [[a c] v] [[a' c'] v'] (I1 & I2 & I3) Q. apply iteration_firm in Q; auto. destruct Q as (Q1 & Q2 & Q3). split; [exact Q1|]. split; [exact Q2|]. congruence. }
    destruct K4 as [Fj2 K4]. assert (Bp : nth_error (map body_pos bs) i = Some (body_pos b)) by (rewrite nth_error_map, Ni; reflexivity).
    assert (Ip : nth_error (integrate_positions h p3 v4) i = Some (move h (body_pos b) (cap_velocity h (body_vel b)), cap_velocity h (body_vel b))).
    { unfold integrate_positions. rewrite nth_error_map, nth_pairs, P3, K4, V3, V2, V0, Bp. reflexivity. }
    apply positions_done in Rp; auto. rewrite nth_error_map, Ip in Rp. cbn [option_map fst] in Rp.
    rewrite nth_error_map, !nth_pairs, Ni, Rp, nth_error_map, Ip. cbn [option_map snd fst]. eexists. split; [reflexivity|]. split; [exact (carried_move h)|]. split; reflexivity.
  Qed.

  (** ** the island of an impact *)
  Lemma toi_iterations_firm n ta tb pcs : forall poss poss', Forall pjoins pcs -> toi_iterations n ta tb pcs poss = Ok poss' -> nth_error poss' i = nth_error poss i.
  Proof.
    induction n as [|n IH]; intros poss poss' F R; cbn [toi_iterations] in R; [now injection R as <-|]. apply bind_ok in R as ([p1 k] & R1 & R). apply toi_positions_firm in R1; auto. destruct k; [injection R as <-; auto|]. apply IH in R; auto. congruence.
  Qed.
  Definition kept (x : body R) : Prop := sw_c (b_sweep x) = sw_c (b_sweep b) /\ sw_a (b_sweep x) = sw_a (b_sweep b) /\ b_lv x = b_lv b /\ b_av x = b_av b /\
    ((sw_c0 (b_sweep x) = sw_c0 (b_sweep b) /\ sw_a0 (b_sweep x) = sw_a0 (b_sweep b)) \/ (sw_c0 (b_sweep x) = sw_c (b_sweep b) /\ sw_a0 (b_sweep x) = sw_a (b_sweep b))).
  Lemma leap_firm poss k l l' x : nth_error poss i = Some (body_pos b) -> nth_error l i = Some x -> kept x -> leap poss k l = Ok l' -> exists x', nth_error l' i = Some x' /\ kept x'.
  Proof.
    intros Hp Hx Kx R. unfold leap, zget, zset in R. destruct (k <? 0)%Z; [discriminate|]. apply bind_ok in R as (y & Gy & R). apply bind_ok in R as (p & Gp & R). apply get_inv in Gy, Gp. apply set_inv in R as (L & ->).
    destruct (Nat.eq_dec i (Z.to_nat k)) as [EQ|N]; [|rewrite nth_upd_ne by (intros X; now apply N); eauto]. rewrite <- EQ in *. rewrite nth_upd_eq by exact L. eexists. split; [reflexivity|]. assert (p = body_pos b) as -> by congruence. assert (y = x) as -> by congruence. destruct Kx as (A & B & C & D & _). repeat (split; [assumption|]). right. split; reflexivity.
  Qed.
  Theorem toi_firm block step ta tb cins r : Forall (touches (fun _ => True) bs) cins -> island_solve_toi block step ta tb bs cins = Ok r ->
    exists b', nth_error r i = Some b' /\ carried (ts_dt step) b (sw_c (b_sweep b')) (sw_a (b_sweep b')) (b_lv b') (b_av b') /\
      ((sw_c0 (b_sweep b') = sw_c0 (b_sweep b) /\ sw_a0 (b_sweep b') = sw_a0 (b_sweep b)) \/ (sw_c0 (b_sweep b') = sw_c (b_sweep b) /\ sw_a0 (b_sweep b') = sw_a (b_sweep b))).
  Proof.
    intros Ft R. unfold island_solve_toi in R. cbv zeta in R. apply bind_ok in R as ([cs pcs] & Rm & R). apply bind_ok in R as (p1 & Rp & R). apply bind_ok in R as (l1 & R1 & R). apply bind_ok in R as (l2 & R2 & R). apply bind_ok in R as (cs1 & Ri & R). apply bind_ok in R as ([cs2 v2] & Rv & [= <-]).
    destruct (made_pjoins _ _ _ _ Ft Rm) as [F0 Fp]. pose proof (init_joins _ _ _ _ _ _ _ F0 Ri) as F1. assert (Bp : nth_error p1 i = Some (body_pos b)) by (rewrite (toi_iterations_firm _ _ _ _ _ _ Fp Rp), nth_error_map, Ni; reflexivity).
    assert (K0 : kept b) by (repeat (split; [reflexivity|]); left; split; reflexivity). destruct (leap_firm _ _ _ _ _ Bp Ni K0 R1) as (x1 & H1 & K1). destruct (leap_firm _ _ _ _ _ Bp H1 K1 R2) as (x2 & H2 & K2).
    assert (V2 : nth_error v2 i = Some (body_vel b)) by (rewrite (iterations_still bs block (ts_vel_iters step) cs1 (map body_vel bs) cs2 v2 i b Ni (proj2 Fb) F1 Rv), nth_error_map, Ni; reflexivity).
    rewrite nth_error_map, nth_pairs, H2. unfold integrate_positions. rewrite nth_error_map, nth_pairs, Bp, V2. cbn [option_map fst snd integrate_position]. eexists. split; [reflexivity|]. split; [exact (carried_move (ts_dt step))|]. exact (proj2 (proj2 (proj2 (proj2 K2)))).
  Qed.
End Firm.

(* a body at rest stays *)
Lemma rest_stays h b c a v om : at_rest b -> carried h b c a v om -> c = sw_c (b_sweep b) /\ a = sw_a (b_sweep b) /\ v = V2 0 0 /\ om = 0.
Proof.
  intros [Lv Av] ((Cv & _) & (Cw & _) & -> & ->). rewrite Lv in Cv. rewrite Av in Cw.
  assert (v = V2 0 0) as ->. { apply Cv. unfold way. cbn. lra. }
  assert (om = 0) as ->. { apply Cw. rewrite Rmult_0_r, Rabs_R0. unfold B2_MAX_ROTATION, nlit. rops. pose proof PI_RGT_0. lra. }
  cbn [vx vy]. destruct (sw_c (b_sweep b)) as [x y]. cbn [vx vy]. repeat split; [f_equal; ring|ring].
Qed.

(** ** the island of the world *)
Lemma alongside_nth {A} (d : A) i : forall l m n a, nth_error l n = Some i -> (forall k, nth_error l k = Some i -> k = n) -> nth_error m n = Some a -> alongside i l m d = a.
Proof.
  induction l as [|j l IH]; intros [|x m] [|n] a Hl U Hm; try discriminate; cbn in Hl, Hm |- *.
  - injection Hl as ->. injection Hm as ->. now rewrite Nat.eqb_refl.
  - destruct (Nat.eqb_spec i j) as [->|N]; [specialize (U 0%nat eq_refl); discriminate|]. apply (IH m n a Hl); [|exact Hm]. intros k Hk. specialize (U (S k) Hk). now injection U.
Qed.
Lemma both_nth {A B} (P : A -> B -> Prop) l m : Forall2 P l m -> forall n a, nth_error l n = Some a -> exists b, nth_error m n = Some b /\ P a b.
Proof. induction 1 as [|x y l m H F IH]; intros [|n] a; cbn; try discriminate; [intros [= <-]; eauto|apply IH]. Qed.
(* the sleep time is not part of this *)
Lemma sleep_same {VT : NumValid R} h : forall bs mt n b, nth_error bs n = Some b -> exists t, option_map (fun x => solved_of x (b_sleep_time x)) (nth_error (fst (sleep_bodies h bs mt)) n) = Some (solved_of b t).
Proof.
  induction bs as [|x bs IH]; intros mt [|n] b; cbn [nth_error]; try discriminate; cbn [sleep_bodies].
  - intros [= <-]. destruct (sleep_body h x mt) as [y mt'] eqn:Ey. destruct (sleep_bodies h bs mt') as [r mt2]. cbn [fst nth_error option_map]. exists (b_sleep_time y). unfold sleep_body in Ey. destruct (is_static x); [injection Ey as <- _; reflexivity|]. destruct (restless x); injection Ey as <- _; reflexivity.
  - intros H. destruct (sleep_body h x mt) as [y mt']. specialize (IH mt' n b H). destruct (sleep_bodies h bs mt') as [r mt2]. exact IH.
Qed.
Section InWorld.
  Context {TT : NumTrig R} {VT : NumValid R} {J : Type} (su : setup R J).
  Theorem code_firm (good : J -> Prop) w is dt s n i b : joints_spare (su_js su) n good -> (forall j, In j (is_joints is) -> good (su_joint su w j)) ->
    indexed w is -> (forall c, In c (is_contacts is) -> between w is c) -> nth_error (is_bodies is) n = Some i -> w_bodies w i = Some b -> firm b -> code_solve su w is dt = Ok s ->
    carried dt b (so_c (so_body s i)) (so_a (so_body s i)) (so_lv (so_body s i)) (so_av (so_body s i)) /\ so_c0 (so_body s i) = sw_c (b_sweep b) /\ so_a0 (so_body s i) = sw_a (b_sweep b).
  Proof.
    intros SP Gj Ix Bt Hn Hb Fb R. unfold code_solve in R. apply bind_ok in R as (bodies & Rb & R). apply bind_ok in R as (cins & Rc & R). apply bind_ok in R as (r & Rr & R).
    apply map_res_inv in Rb, Rc.
    assert (At : forall k a, nth_error (is_bodies is) k = Some a -> exists x, w_bodies w a = Some x /\ nth_error bodies k = Some x /\ b_island_index x = Z.of_nat k).
    { intros k a Hk. destruct (Ix k a Hk) as (x & Hx & Qx). exists x. destruct (both_nth _ _ _ Rb k a Hk) as (y & Hy & Gy). unfold get_body in Gy. rewrite Hx in Gy. injection Gy as <-. auto. }
    destruct (At n i Hn) as (b0 & Hb0 & Nb & Xb). assert (b0 = b) as -> by congruence.
    assert (Ft : Forall (touches (fun _ => True) bodies) cins).
    { rewrite Forall_forall. intros ci Ici. apply In_nth_error in Ici as (k & Hk). assert (Hc : exists c, In c (is_contacts is) /\ contact_input w c = Ok ci).
      { clear - Rc Hk. revert k Hk. induction Rc as [|c y l m H F IH]; intros [|k] Hk; try discriminate; cbn in Hk; [injection Hk as <-; exists c; split; [now left|exact H]|]. destruct (IH k Hk) as (d & D1 & D2). exists d. split; [now right|exact D2]. }
      destruct Hc as (c & Ic & Rci). destruct (Bt c Ic) as (x & fa & fb & a & d & Hx & Hfa & Hfb & Ea & Ed & Ia & Id & N). apply In_nth_error in Ia as (na & Ia), Id as (nd & Id). destruct (At na a Ia) as (ba & Ha & Na & Xa). destruct (At nd d Id) as (bd & Hd & Nd & Xd).
      unfold contact_input, contact_ends, get_contact, get_fixture, get_body in Rci. rewrite Hx in Rci. cbn [unwrap bind] in Rci. rewrite Hfa, Hfb in Rci. cbn [unwrap bind] in Rci. rewrite Ea, Ed in Rci. cbn [unwrap bind] in Rci. rewrite Ha, Hd in Rci. cbn [unwrap bind] in Rci. injection Rci as <-.
      exists na, nd. cbn [ci_a ci_b]. repeat split; auto. intros ->. congruence. }
    destruct (island_firm bodies n b Nb Fb (su_js su) good SP (su_block su) (the_step su dt w) (su_gravity su) cins (map (su_joint su w) (is_joints is)) r Ft) as (b' & Hb' & Cb & C1 & C2); [now apply Forall_map, Forall_forall|exact Rr|].
    destruct (sleep_same dt (ir_bodies r) B2_MAX_FLOAT n b' Hb') as (t & Ht). destruct (sleep_bodies dt (ir_bodies r) B2_MAX_FLOAT) as [slept mt]. injection R as <-. cbn [so_body fst] in *.
    rewrite (alongside_nth solved_zero i _ (map (fun x => solved_of x (b_sleep_time x)) slept) n (solved_of b' t) Hn); [| |rewrite nth_error_map; exact Ht].
    - split; [exact Cb|]. split; [exact C1|exact C2].
    - intros k Hk. destruct (At k i Hk) as (y & Hy & _ & Xy). assert (y = b) as -> by congruence. lia.
  Qed.
End InWorld.
