(** Property theorems about static and kinematic bodies in the solver. *)
From Coq Require Import List ZArith Arith Reals.
From Verif Require Import Base Num NumLaws Math DynModel SolverModel IslandModel WorldModel NarrowModel SolverSpec SolverExamples SolveModel CrashSpec FlightSpec FirmSpec FirmProofs FirmReturn FirmExamples.
Import ListNotations.
Local Open Scope R_scope.

(** ** C106 nothing that touches a static or kinematic body pushes it *)
(* the solver of an island *)
Theorem C106_island : forall (TT : NumTrig R) (bs : list (body R)) i b, nth_error bs i = Some b -> firm b -> forall (J : Type) (js : jsolver R J) good, joints_spare js i good ->
  forall block step g cins jl r, Forall (touches (fun _ => True) bs) cins -> Forall good jl -> island_solve js block step g bs cins jl = Ok r ->
  exists b', nth_error (ir_bodies r) i = Some b' /\ carried (ts_dt step) b (sw_c (b_sweep b')) (sw_a (b_sweep b')) (b_lv b') (b_av b') /\ sw_c0 (b_sweep b') = sw_c (b_sweep b) /\ sw_a0 (b_sweep b') = sw_a (b_sweep b).
Proof. exact @island_firm. Qed.
Print Assumptions C106_island.
(* the solver of the island of an impact *)
Theorem C106_impact : forall (TT : NumTrig R) (bs : list (body R)) i b, nth_error bs i = Some b -> firm b ->
  forall block step ta tb cins r, Forall (touches (fun _ => True) bs) cins -> island_solve_toi block step ta tb bs cins = Ok r ->
  exists b', nth_error r i = Some b' /\ carried (ts_dt step) b (sw_c (b_sweep b')) (sw_a (b_sweep b')) (b_lv b') (b_av b') /\
    ((sw_c0 (b_sweep b') = sw_c0 (b_sweep b) /\ sw_a0 (b_sweep b') = sw_a0 (b_sweep b)) \/ (sw_c0 (b_sweep b') = sw_c (b_sweep b) /\ sw_a0 (b_sweep b') = sw_a (b_sweep b))).
Proof. exact @toi_firm. Qed.
Print Assumptions C106_impact.
(* what the world gets from the solver *)
Theorem C106_world : forall (TT : NumTrig R) (VT : NumValid R) (J : Type) (su : setup R J) good w is dt s n i b, joints_spare (su_js su) n good -> (forall j, In j (is_joints is) -> good (su_joint su w j)) ->
  indexed w is -> (forall c, In c (is_contacts is) -> between w is c) -> nth_error (is_bodies is) n = Some i -> w_bodies w i = Some b -> firm b -> code_solve su w is dt = Ok s ->
  carried dt b (so_c (so_body s i)) (so_a (so_body s i)) (so_lv (so_body s i)) (so_av (so_body s i)) /\ so_c0 (so_body s i) = sw_c (b_sweep b) /\ so_a0 (so_body s i) = sw_a (b_sweep b).
Proof. exact @code_firm. Qed.
Print Assumptions C106_world.
(* at rest it stays *)
Theorem C106_rest : forall h b c a v om, at_rest b -> carried h b c a v om -> c = sw_c (b_sweep b) /\ a = sw_a (b_sweep b) /\ v = V2 0 0 /\ om = 0.
Proof. exact rest_stays. Qed.
Print Assumptions C106_rest.
(* a box that falls on a platform that moves and turns *)
Example C106_island_case : forall TT : NumTrig R, nth_error [platform; box] 0 = Some platform /\ firm platform /\ joints_spare m_js 0 (fun _ => True) /\ touches (fun _ => True) [platform; box] m_input /\ b_lv platform = V2 3 0 /\ b_lv box = V2 0 (-3) /\
  (exists r, island_solve m_js true (ex_step 8) (V2 0 (-10)) [platform; box] [m_input] [] = Ok r) /\ (exists r, island_solve_toi true (ex_step 8) 0 1 [platform; box] [m_input] = Ok r).
Proof. intros TT. exact (conj eq_refl (conj platform_firm (conj (m_spare 0) (conj m_touches (conj eq_refl (conj eq_refl (conj m_island m_impact))))))). Qed.
Example C106_world_case : forall (TT : NumTrig R) (VT : NumValid R) bp, joints_spare (su_js m_su) 0 (fun _ => True) /\ indexed (m_world bp) m_is /\ (forall c, In c (is_contacts m_is) -> between (m_world bp) m_is c) /\ is_contacts m_is = [0%nat] /\
  nth_error (is_bodies m_is) 0 = Some 0%nat /\ w_bodies (m_world bp) 0 = Some platform /\ firm platform /\ exists s, code_solve m_su (m_world bp) m_is (1 / 60) = Ok s.
Proof. intros TT VT bp. exact (conj (m_spare 0) (conj (m_indexed bp) (conj (m_between bp) (conj eq_refl (conj eq_refl (conj eq_refl (conj platform_firm (m_code bp)))))))). Qed.
Example C106_goes_case : forall c a v om, carried (1 / 60) platform c a v om -> c = V2 (1 / 20) 0 /\ a = 1 / 60 /\ v = V2 3 0 /\ om = 1.
Proof. exact platform_goes. Qed.
Example C106_rest_case : at_rest (ex_piece StaticBody 0 0 0 vzero 0 0) /\ firm (ex_piece StaticBody 0 0 0 vzero 0 0).
Proof. split; [split; reflexivity|]. split; [discriminate|exact ground_heavy]. Qed.

(** ** C107 the solver of an impact returns *)
Theorem C107_impact_returns : forall (T : Type) (NT : Num T) (TT : NumTrig T) (OT : NumOrd T) block st ta tb (bodies : list (body T)) cins,
  Forall (solvable (length bodies) st) cins -> (0 <= ta < Z.of_nat (length bodies))%Z -> (0 <= tb < Z.of_nat (length bodies))%Z -> exists r, island_solve_toi block st ta tb bodies cins = Ok r.
Proof. exact @toi_returns. Qed.
Print Assumptions C107_impact_returns.
Example C107_impact_case : Forall (solvable (length [platform; box]) (ex_step 8)) [m_input] /\ (0 <= 1 < Z.of_nat (length [platform; box]))%Z.
Proof. split; [constructor; [exact m_solvable|constructor]|cbn; split; [discriminate|reflexivity]]. Qed.
