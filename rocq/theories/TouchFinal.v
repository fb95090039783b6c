(** With the island solver of the code a gentle and careful program never panics. *)
From Coq Require Import List ZArith Bool Arith Lia.
From Verif Require Import Base Num NumLaws Math Collision Manifold Filter ShapeModel ListFacts TreeModel BroadModel DynModel SolverModel IslandModel WorldModel WorldGraph WorldSpec WorldLogic WorldPhys WorldContact WorldInv WorldLife WorldSet WorldSolve WorldToi WorldStep WorldClaims WorldCalls WorldHist WorldFinal WorldAfter WorldReach SafeSpec WorldSafe NarrowModel SolverSpec SolverProofs SolveModel CrashSpec CrashWorld TouchSpec TouchProofs.
Import ListNotations.

Lemma for_from_last {A} (Q : A -> Prop) (f : nat -> A -> res A) : (forall j s s', f j s = Ok s' -> Q s') -> forall n lo s s', 1 <= n -> for_from n lo f s = Ok s' -> Q s'.
Proof.
  intros St. induction n as [|n IH]; intros lo s s' Hn; [lia|]. cbn [for_from]. intros R. apply bind_ok in R as (s1 & R1 & R2). destruct n as [|n]; [cbn [for_from] in R2; injection R2 as <-; eauto|]. apply (IH (S lo) s1); auto. lia.
Qed.

Lemma nth_first {A} n (l : list A) k : k < n -> nth_error (firstn n l) k = nth_error l k.
Proof. revert l k. induction n as [|n IH]; intros l k Hk; [lia|]. destruct l as [|a l]; [reflexivity|]. destruct k as [|k]; [reflexivity|]. cbn. apply IH. lia. Qed.

Section Points.
  Local Open Scope num_scope.
  Context {T : Type} {NT : Num T} {TT : NumTrig T} {VT : NumValid T}.
  Implicit Types w : world T.

  Lemma gentle_wreach (E : env T) w : gentle_reach E w -> wreach E w.
  Proof. induction 1; [eapply wreach_new; eauto|eapply wreach_call; eauto]. Qed.
  Theorem gentle_points (E : env T) w : answers E -> hands_off E -> gentle_reach E w -> touching_solids w.
  Proof.
    intros EA HO H. enough (G False w) as (A & _) by (intros c x Hx; exact (proj1 (A c x Hx))).
    induction H as [l g w Hn|w c w' Hw IH Hg R]; [eapply G_new; [intros []|exact Hn]|].
    refine (G_call False E HO _ _ _ any c w (reach_W E EA w (gentle_wreach E w Hw)) IH Hg w' R); intros [].
  Qed.
End Points.

Section Final.
  Local Open Scope num_scope.
  Context {T : Type} {NT : Num T} {OT : NumOrd T} {TT : NumTrig T} {VT : NumValid T} {J : Type} (su : setup T J).
  Notation world := (world T).
  Implicit Types w : world.

  Lemma gentle_backs (E : env T) w : gentle_reach (with_code su E) w -> gentle_reach (backed su E) w.
  Proof. induction 1 as [l g w H|w c w' Hw IH Hg R]; [eapply gentle_new; eauto|]. eapply gentle_call; [exact IH|exact Hg|]. now apply run_agree. Qed.
  Theorem code_points (E : env T) w : answers E -> hands_off E -> gentle_reach (with_code su E) w -> touching_solids w.
  Proof. intros EA HO H. apply (gentle_points (backed su E)); [now apply backed_answers|exact HO|now apply gentle_backs]. Qed.

  (** ** the impulses the solver stores push *)
  Lemma store_nn (c : vcon T) m m' n : pushing c -> nnp n (mf_points m) -> store_impulses c m = Ok m' -> nnp n (mf_points m').
  Proof.
    intros P H R. unfold store_impulses in R. apply bind_ok in R as (ps & R & [= <-]). cbn [mf_points]. unfold for_range in R. rewrite Nat.sub_0_r in R.
    assert (K : forall k lo l l', (lo + k <= vc_count c)%nat -> nnp n l -> for_from k lo (fun j ps => q <- get ps j ;; p <- get (vc_points c) j ;; set ps j (MP (mp_local q) (vp_ni p) (vp_ti p) (mp_id q))) l = Ok l' -> nnp n l').
    { induction k as [|k IH]; intros lo l l' Hk Hl; cbn [for_from]; [now intros [= <-]|]. intros R1. apply bind_ok in R1 as (l1 & R1 & R2). apply (IH (S lo) l1); auto; [lia|]. clear IH R2 R.
      apply bind_ok in R1 as (q & Rq & R1). apply bind_ok in R1 as (p & Rp & R1). unfold set in R1. destruct (Nat.ltb lo (length l)) eqn:L; [|discriminate]. injection R1 as <-. apply Nat.ltb_lt in L.
      assert (Np : nonneg (vp_ni p)). { unfold pushing, active in P. rewrite Forall_forall in P. apply P. unfold get in Rp. destruct (nth_error (vc_points c) lo) as [p'|] eqn:Ep; [|discriminate]. injection Rp as ->. apply (nth_error_In _ lo). rewrite nth_first; [exact Ep|lia]. }
      intros i r Hi Hr. destruct (Nat.eq_dec i lo) as [->|Ne]; [rewrite nth_upd_eq in Hr by auto; injection Hr as <-; exact Np|]. rewrite nth_upd_ne in Hr by auto. exact (Hl i r Hi Hr). }
    apply (K (vc_count c) 0%nat (mf_points m)); auto.
  Qed.
  Lemma stored_nn w : nonneg (#0 : T) -> forall l cins cs ms c x, map_res (contact_input w) l = Ok cins -> Forall pushing cs ->
    zip_res (fun k ci => store_impulses k (c_manifold (ci_contact ci))) cs cins = Ok ms -> In c l -> w_contacts w c = Some x -> nnp (mf_count (c_manifold x)) (mf_points (c_manifold x)) ->
    nnp (mf_count (c_manifold x)) (alongside c l (map mf_points ms) (mf_points manifold_default)).
  Proof.
    intros N0. assert (Df : forall n, nnp n (mf_points (manifold_default (T := T)))). { intros n k p _ Hp. cbn in Hp. destruct k as [|[|[|k]]]; cbn in Hp; try discriminate; injection Hp as <-; exact N0. }
    induction l as [|i l IH]; intros cins cs ms c x Rc Fp Rz Hc Hx Hn; [destruct Hc|]. cbn [map_res] in Rc. apply bind_ok in Rc as (ci & Ri & Rc). apply bind_ok in Rc as (r & Rr & [= <-]).
    destruct cs as [|k cs]; cbn [zip_res] in Rz; [injection Rz as <-; apply Df|]. apply bind_ok in Rz as (m & Rm & Rz). apply bind_ok in Rz as (ms' & Rz & [= <-]). inversion Fp; subst. cbn [map alongside]. destruct (Nat.eqb_spec c i) as [->|Ne].
    - refine (store_nn k _ m _ _ _ Rm); auto. unfold contact_input, contact_ends, get_contact in Ri. rewrite Hx in Ri. cbn [unwrap bind] in Ri. apply bind_ok in Ri as ([[[[x' fa] fb] ba] bb] & Ri & [= <-]). cbn [ci_contact].
      apply bind_ok in Ri as (? & _ & Ri). apply bind_ok in Ri as (? & _ & Ri). apply bind_ok in Ri as (? & _ & Ri). apply bind_ok in Ri as (? & _ & Ri). apply bind_ok in Ri as (? & _ & Ri). apply bind_ok in Ri as (? & _ & Ri). injection Ri as <- _ _ _ _. exact Hn.
    - destruct Hc as [->|Hc]; [easy|]. eapply IH; eauto.
  Qed.
  Lemma code_nn w is dt s c x : nonneg (#0 : T) -> (1 <= su_vel_iters su)%nat -> code_solve su w is dt = Ok s -> In c (is_contacts is) -> w_contacts w c = Some x -> nnp (mf_count (c_manifold x)) (mf_points (c_manifold x)) -> nnp (mf_count (c_manifold x)) (so_points s c).
  Proof.
    intros N0 Vi R Hc Hx Hn. unfold code_solve in R. apply bind_ok in R as (bodies & _ & R). apply bind_ok in R as (cins & Rc & R). apply bind_ok in R as (r & Rr & R). destruct (sleep_bodies _ _ _) as [slept mt]. injection R as <-. cbn [so_points].
    unfold island_solve in Rr. apply bind_ok in Rr as ([cs pcs] & _ & Rr). apply bind_ok in Rr as (cs1 & _ & Rr). apply bind_ok in Rr as ([cs2 vels] & _ & Rr). apply bind_ok in Rr as ([jl1 [ps vs]] & _ & Rr). apply bind_ok in Rr as ([[jl2 cs3] vs2] & Rv & Rr). apply bind_ok in Rr as (ms & Rm & Rr). apply bind_ok in Rr as ([[jl3 ps3] okay] & _ & [= <-]). cbn [ir_manifolds].
    apply (stored_nn w N0 _ cins cs3 ms c x Rc); auto. unfold for_range in Rv. refine (for_from_last (fun st => Forall pushing (snd (fst st))) _ _ _ _ _ _ _ Rv); [|cbn; lia].
    intros j [[jl' cs'] vs'] st R. unfold velocity_iteration in R. apply bind_ok in R as ([j1 v1] & _ & R). apply bind_ok in R as ([c1 v2] & R & [= <-]). cbn [fst snd]. exact (velocities_pushing _ _ _ _ _ R).
  Qed.

  Variable E : env T.
  Hypothesis HO : hands_off E.
  Hypothesis EA : answers E.
  Hypothesis Vi : (1 <= su_vel_iters su)%nat.
  Hypothesis WS : warm_safe su.
  Notation B := (su_warm su = true).
  Lemma zero_nn : nonneg (#0 : T).
  Proof. apply nle_refl, nfin_ok, nfin0. Qed.
  Lemma warm_mul : B -> forall a b : T, nonneg a -> nonneg b -> nonneg (a * b).
  Proof. intros HB. destruct WS as [Q|(Q & _)]; [congruence|exact Q]. Qed.
  Lemma warm_div : B -> forall a : T, (#0 <? a) = true -> nonneg a /\ nonneg (#1 / a).
  Proof. intros HB. destruct WS as [Q|(_ & Q)]; [congruence|exact Q]. Qed.
  Lemma backed_hands : hands_off (backed su E).
  Proof. exact HO. Qed.
  Lemma backed_nn : B -> forall w is dt s c x, G B w -> (#0 <? dt) = true -> e_solve (backed su E) w is dt = Ok s -> In c (is_contacts is) -> w_contacts w c = Some x -> nnp (mf_count (c_manifold x)) (so_points s c).
  Proof.
    intros HB w is dt s c x (A & _) _ R Hc Hx. cbn [e_solve backed with_solver] in R. unfold code_or in R. destruct (A c x Hx) as (_ & Hn). destruct (code_solve su w is dt) as [s'| |] eqn:Q; [injection R as <-; eapply code_nn; eauto; exact zero_nn|injection R as <-|injection R as <-]; cbn [so_points];
      intros k p _ Hp; cbn in Hp; destruct k as [|[|[|k]]]; cbn in Hp; try discriminate; injection Hp as <-; exact zero_nn.
  Qed.
  Lemma gentle_is_careful w : gentle_careful (with_code su E) w -> careful (with_code su E) w.
  Proof. induction 1; [eapply careful_new; eauto|eapply careful_call; eauto]. Qed.
  Lemma gentle_G w : gentle_careful (with_code su E) w -> G B w.
  Proof.
    induction 1 as [l g w Hn|w c w' Hw IH Hg Hs R]; [eapply G_new; [intros _; exact zero_nn|exact Hn]|]. apply run_agree in R.
    refine (G_call B (backed su E) backed_hands (fun _ => zero_nn) backed_nn (fun HB dt Hd => proj2 (warm_div HB dt Hd)) any c w _ IH Hg w' R).
    apply (reach_W _ (backed_answers su E EA)). apply careful_reach. apply careful_agree. now apply gentle_is_careful.
  Qed.
  Hypothesis SE : sound_env E.
  Hypothesis OR : ordered T.
  Lemma gentle_works dt w w2 : gentle_careful (with_code su E) w -> safe w (WStep dt) -> (#0 <? dt) = true -> step_front E w = Ok w2 -> forall c, workable su dt w2 c.
  Proof.
    intros H (S1 & _) Hd Rf c x fa fb Hx Ht He Hfa Hfb Sa Sb. pose proof (gentle_G w H) as Gw. pose proof (careful_agree su E w (gentle_is_careful w H)) as Cb.
    assert (G2 : G B w2). { refine (G_front B (backed su E) backed_hands (fun _ => zero_nn) w Gw w2 _). exact Rf. }
    pose proof (front_checks False any (backed su E) w (env_safe _ (backed_sound su E SE)) (careful_W _ (backed_sound su E SE) OR w Cb) (classes_safe w S1)) as Q.
    change (step_front (backed su E) w) with (step_front E w) in Q. rewrite Rf in Q. cbn [sat] in Q. destruct Q as (W2 & _). destruct (W_nums _ _ _ W2) as [_ N2]. pose proof (proj1 (N2 c x Hx)) as M. apply mok_two in M. destruct M as (M1 & M2).
    destruct G2 as (A & D). destruct (A c x Hx) as (A1 & A2). assert (L : (1 <= mf_count (c_manifold x))%nat) by (apply A1; auto; eexists; eauto). split; [lia|]. split; [exact M1|].
    intros HB. apply Forall_forall. intros q Hq. destruct (In_nth_error _ _ Hq) as (k & Hk). assert (k < length (firstn (mf_count (c_manifold x)) (mf_points (c_manifold x)))) as Lk by (apply nth_error_Some; congruence). rewrite firstn_length in Lk.
    rewrite nth_first in Hk by lia. apply warm_mul; auto; [apply warm_mul; auto; apply warm_div; auto|]. apply (A2 HB k q); [lia|exact Hk].
  Qed.
  Theorem gentle_returns good w c : joints_return su good -> gentle_careful (with_code su E) w -> gentle w c -> safe w c -> exists w', wrun (with_code su E) c w = Ok w' /\ gentle_careful (with_code su E) w'.
  Proof.
    intros JR H Hg Hs. pose proof (gentle_is_careful w H) as C. enough (exists w', wrun (with_code su E) c w = Ok w') as (w' & R) by (exists w'; split; [exact R|eapply careful_on; eauto]).
    assert (D : (exists dt, c = WStep dt) \/ forall dt, c <> WStep dt) by (destruct c; try (right; discriminate); left; eauto). destruct D as [(dt & ->)|N].
    - destruct (#0 <? dt) eqn:Hd.
      + destruct (step_returns su E good dt w JR SE EA OR C Hs) as (w' & R & _); [|eauto]. intros w2 Rf. now apply (gentle_works dt w).
      + destruct (careful_returns (backed su E) (backed_sound su E SE) OR w (WStep dt) (careful_agree su E w C) Hs) as (w' & R & _). exists w'. rewrite <- R. cbn [wrun]. rewrite !r_step_parts. change (step_front (with_code su E) w) with (step_front (backed su E) w). destruct (step_front (backed su E) w) as [w2| |]; cbn [bind]; [|reflexivity|reflexivity].
        unfold step_back. rewrite Hd, !andb_false_r. reflexivity.
    - destruct (call_returns su E c w SE OR C Hs N) as (w' & R & _). eauto.
  Qed.
End Final.
