(** The solver of an island returns. *)
From Coq Require Import List ZArith Bool Arith Lia.
From Verif Require Import Base Num NumLaws Math Manifold ShapeModel ListFacts DynModel SolverModel IslandModel WorldModel WorldClaims SolverSpec SolverProofs SolverTotal SolveModel CrashSpec.
Import ListNotations.

Lemma each_item_all {C S} (P Q : C -> Prop) (I : S -> Prop) (f : C -> S -> res (C * S)) : (forall c s, P c -> I s -> exists c' s', f c s = Ok (c', s') /\ Q c' /\ I s') ->
  forall l s, Forall P l -> I s -> exists l' s', each_item f l s = Ok (l', s') /\ Forall Q l' /\ I s' /\ length l' = length l.
Proof.
  intros H l. induction l as [|c l IH]; intros s F Is; cbn [each_item]; [exists [], s; repeat split; auto|]. inversion F; subst. destruct (H c s) as (c' & s1 & -> & Qc & I1); auto. cbn [bind]. destruct (IH s1) as (l' & s2 & -> & Ql & I2 & L); auto. cbn [bind].
  exists (c' :: l'), s2. repeat split; auto. cbn. now rewrite L.
Qed.
Lemma for_from_all {S} (I : S -> Prop) (f : nat -> S -> res S) : (forall j s, I s -> exists s', f j s = Ok s' /\ I s') -> forall n lo s, I s -> exists s', for_from n lo f s = Ok s' /\ I s'.
Proof. intros H. induction n as [|n IH]; intros lo s Is; cbn [for_from]; [eauto|]. destruct (H lo s Is) as (s1 & -> & I1). cbn [bind]. auto. Qed.
Lemma forall2_of {A B} (P : A -> Prop) (Q : B -> Prop) l m : Forall P l -> Forall Q m -> length l = length m -> Forall2 (fun a b => P a /\ Q b) l m.
Proof. intros F. revert m. induction F as [|a l Pa F IH]; intros [|b m] G L; try discriminate; constructor; inversion G; subst; auto. Qed.

Section Return.
  Local Open Scope num_scope.
  Context {T : Type} {NT : Num T} {TT : NumTrig T} {OT : NumOrd T}.

  (* a position constraint that can be solved among n bodies *)
  Definition pwired (n : nat) (c : pcon T) : Prop :=
    (0 <= pc_a c < Z.of_nat n)%Z /\ (0 <= pc_b c < Z.of_nat n)%Z /\ length (pc_points c) = 2%nat /\ (pc_count c = 1 \/ pc_count c = 2)%nat.
  Lemma new_both n step (ci : cinput T) : solvable n step ci -> exists cp, new_constraint step ci = Ok cp /\ fresh n (fst cp) /\ pwired n (snd cp).
  Proof.
    intros H. destruct (new_ok n step ci H) as (c & pc & R & F). exists (c, pc). refine (conj R (conj F _)). destruct H as (A & B & C & L & _). unfold new_constraint in R. set (m := c_manifold (ci_contact ci)) in *.
    assert (N0 : Nat.ltb 0 (mf_count m) = true) by (destruct C as [-> | ->]; reflexivity). rewrite N0 in R. cbn [b2_assert bind] in R.
    destruct (mf_points m) as [|q1 [|q2 [|]]]; try discriminate. unfold for_range in R. destruct C as [C|C]; rewrite C in R; cbn in R; injection R as _ <-; unfold pwired; cbn; auto 10.
  Qed.
  Lemma psm_ok (pc : pcon T) n xa xb j : pwired n pc -> j < pc_count pc -> exists r, psm_initialize pc xa xb j = Ok r.
  Proof.
    intros (_ & _ & L & C) Hj. unfold psm_initialize. assert (N0 : Nat.ltb 0 (pc_count pc) = true) by (destruct C as [-> | ->]; reflexivity). rewrite N0. cbn [b2_assert bind]. destruct (pc_points pc) as [|p [|q [|]]]; try discriminate.
    assert (K : j = 0 \/ j = 1) by lia. destruct (pc_type pc); cbn [get nth_error bind]; eauto; destruct K as [-> | ->]; cbn [get nth_error bind]; eauto.
  Qed.
  Lemma point_ok k ma mb ia ib (pc : pcon T) n j st : pwired n pc -> j < pc_count pc -> exists r, position_point k ma mb ia ib pc j st = Ok r.
  Proof. intros W Hj. destruct st as [[mn pa] pb]. unfold position_point. destruct (psm_ok pc n (center_xf (p_c pa) (p_a pa) (pc_ca pc)) (center_xf (p_c pb) (p_a pb) (pc_cb pc)) j W Hj) as ([[a b] s] & ->). cbn [bind]. eauto. Qed.
  Lemma position_ok k ma mb ia ib (pc : pcon T) n st : pwired n pc -> length (snd st) = n -> exists st', position_constraint k ma mb ia ib pc st = Ok st' /\ length (snd st') = n.
  Proof.
    intros W L. pose proof W as (A & B & _ & C). destruct st as [mn ps]. cbn [snd] in L. unfold position_constraint. rewrite <- L in A, B. destruct (zget_ok ps _ A) as (pa & ->). destruct (zget_ok ps _ B) as (pb & ->). cbn [bind]. unfold for_range.
    assert (R : exists r, for_from (pc_count pc - 0) 0 (position_point k ma mb ia ib pc) (mn, pa, pb) = Ok r).
    { pose proof (point_ok k ma mb ia ib pc n) as PK. destruct C as [C|C]; rewrite C in *; cbn [Nat.sub for_from].
      - destruct (PK 0%nat (mn, pa, pb) W ltac:(lia)) as (r & ->). cbn [bind]. eauto.
      - destruct (PK 0%nat (mn, pa, pb) W ltac:(lia)) as (r & ->). cbn [bind]. destruct (PK 1%nat r W ltac:(lia)) as (r2 & ->). cbn [bind]. eauto. }
    destruct R as ([[mn2 pa2] pb2] & ->). cbn [bind]. destruct (zset_ok ps _ pa2 A) as (l & -> & L1). cbn [bind]. rewrite <- L1 in B. destruct (zset_ok l _ pb2 B) as (l2 & -> & L2). cbn [bind]. eexists. split; [reflexivity|]. cbn. congruence.
  Qed.
  Lemma positions_ok n (pcs : list (pcon T)) ps : Forall (pwired n) pcs -> length ps = n -> exists ps' okay, solve_positions pcs ps = Ok (ps', okay) /\ length ps' = n.
  Proof.
    intros F L. unfold solve_positions.
    destruct (each_item_all (pwired n) (fun _ => True) (fun st => length (snd st) = n) (fun pc st => st <- position_constraint B2_BAUMGARTE (pc_ma pc) (pc_mb pc) (pc_ia pc) (pc_ib pc) pc st ;; Ok (pc, st))) with (l := pcs) (s := (#0, ps)) as (l' & [m ps'] & R & _ & L' & _); auto.
    { intros c s Wc Ls. destruct (position_ok B2_BAUMGARTE (pc_ma c) (pc_mb c) (pc_ia c) (pc_ib c) c n s Wc Ls) as (s' & -> & Ls'). cbn [bind]. eauto. }
    rewrite R. cbn [bind]. eauto.
  Qed.

  Context {J : Type} (js : jsolver T J) (good : nat -> J -> Prop).
  Hypothesis GI : forall n st j ps vs, good n j -> length ps = n -> length vs = n -> exists j' ps' vs', js_init js st j ps vs = Ok (j', ps', vs') /\ good n j' /\ length ps' = n /\ length vs' = n.
  Hypothesis GV : forall n st j vs, good n j -> length vs = n -> exists j' vs', js_vel js st j vs = Ok (j', vs') /\ good n j' /\ length vs' = n.
  Hypothesis GP : forall n st j ps, good n j -> length ps = n -> exists j' ps' okay, js_pos js st j ps = Ok (j', ps', okay) /\ good n j' /\ length ps' = n.

  Lemma position_iterations_ok n st (pcs : list (pcon T)) : Forall (pwired n) pcs -> forall k jl ps, Forall (good n) jl -> length ps = n -> exists jl' ps' okay, position_iterations js k st pcs jl ps = Ok (jl', ps', okay) /\ length ps' = n.
  Proof.
    intros F. induction k as [|k IH]; intros jl ps G L; cbn [position_iterations]; [eauto 8|]. destruct (positions_ok n pcs ps F L) as (p1 & ok1 & -> & L1). cbn [bind].
    destruct (each_item_all (good n) (good n) (fun st => length (fst st) = n) (fun j s => '(j, poss, okay) <- js_pos js st j (fst s) ;; Ok (j, (poss, snd s && okay)))) with (l := jl) (s := (p1, true)) as (l' & [p2 ok2] & R & G2 & L2 & _); auto.
    { intros c s Gc Ls. destruct (GP n st c (fst s) Gc Ls) as (j' & ps' & okay & -> & G' & L'). cbn [bind]. eexists _, _. split; [reflexivity|]. auto. }
    rewrite R. cbn [bind]. destruct (ok1 && ok2); [eauto 8|]. apply IH; auto.
  Qed.
  Lemma velocity_ok n block st jl (cs : list (vcon T)) vs : Forall (good n) jl -> Forall (fresh n) cs -> length vs = n ->
    exists jl' cs' vs', velocity_iteration js block st (jl, cs, vs) = Ok (jl', cs', vs') /\ Forall (good n) jl' /\ Forall (fresh n) cs' /\ length vs' = n /\ length cs' = length cs.
  Proof.
    intros G F L. unfold velocity_iteration. destruct (each_item_all (good n) (good n) (fun v => length v = n) (js_vel js st)) with (l := jl) (s := vs) as (l' & v1 & -> & G1 & L1 & _); auto.
    cbn [bind]. destruct (solve_ok n block cs v1 L1 F) as (c2 & v2 & R & L2 & F2). rewrite R. cbn [bind]. exists l', c2, v2. repeat split; auto.
    apply (each_item_inv (fun _ _ => True)) in R; auto. symmetry. eapply Forall2_len; eauto.
  Qed.
  Lemma store_ok n (c : vcon T) m : wired n c -> length (mf_points m) = 2%nat -> exists m', store_impulses c m = Ok m' /\ length (mf_points m') = 2%nat.
  Proof.
    intros (_ & _ & L & C) Lm. unfold store_impulses, for_range. destruct (vc_points c) as [|p1 [|p2 [|]]]; try discriminate. destruct (mf_points m) as [|q1 [|q2 [|]]]; try discriminate. destruct C as [C|C]; rewrite C; cbn; eauto.
  Qed.
  Theorem island_returns block st g (bodies : list (body T)) cins jl : Forall (solvable (length bodies) st) cins -> Forall (good (length bodies)) jl ->
    exists r, island_solve js block st g bodies cins jl = Ok r /\ Forall (fun m => length (mf_points m) = 2%nat) (ir_manifolds r).
  Proof.
    intros F G. set (n := length bodies) in *. unfold island_solve, make_constraints.
    destruct (map_res_total (solvable n st) (fun cp => fresh n (fst cp) /\ pwired n (snd cp)) (new_constraint st) cins (new_both n st) F) as (l & -> & Fl & Ll). cbn [bind].
    assert (Lp : length (map body_pos bodies) = n) by (now rewrite map_length). assert (Lv : length (map (integrate_velocity (ts_dt st) g) bodies) = n) by (now rewrite map_length).
    destruct (zip_res_total (fun ci (pc_c : pcon T * vcon T) => solvable n st ci /\ fresh n (snd pc_c)) (fresh n)
      (fun ci pc_c => init_constraint block (map body_pos bodies) (map (integrate_velocity (ts_dt st) g) bodies) (c_manifold (ci_contact ci)) (fst pc_c) (snd pc_c)) cins (List.combine (map snd l) (map fst l))) as (cs & Rc & Fc & Lc).
    { intros ci [pc c] [(_ & _ & C & LL & _) Fcc]. cbn [fst snd] in *. now apply init_ok. }
    { clear - F Fl Ll. revert l Fl Ll. induction F as [|ci cins S F IH]; intros [|[c pc] l] Fl Ll; cbn in *; try discriminate; constructor; inversion Fl; subst; auto. split; auto. now apply H1. }
    unfold init_constraints. rewrite Rc. cbn [bind].
    assert (W : exists c1 v1, (if ts_warm st then warm_start cs (map (integrate_velocity (ts_dt st) g) bodies) else Ok (cs, map (integrate_velocity (ts_dt st) g) bodies)) = Ok (c1, v1) /\ length v1 = n /\ Forall (fresh n) c1 /\ length c1 = length cs).
    { destruct (ts_warm st); [|eauto 8]. destruct (warm_ok n cs _ Lv Fc) as (c1 & v1 & R & L1 & F1). exists c1, v1. repeat split; auto. apply (each_item_inv (fun _ _ => True)) in R; auto. symmetry. eapply Forall2_len; eauto. }
    destruct W as (c1 & v1 & -> & L1 & F1 & Lc1). cbn [bind].
    destruct (each_item_all (good n) (good n) (fun s => length (fst s) = n /\ length (snd s) = n) (fun j s => '(j, poss, vels) <- js_init js st j (fst s) (snd s) ;; Ok (j, (poss, vels)))) with (l := jl) (s := (map body_pos bodies, v1)) as (jl1 & [p2 v2] & R & G2 & [L2 L2'] & _); auto.
    { intros c s Gc [La Lb]. destruct (GI n st c (fst s) (snd s) Gc La Lb) as (j' & ps' & vs' & -> & G' & L' & L''). cbn [bind]. eexists _, _. split; [reflexivity|]. auto. }
    rewrite R. cbn [bind]. clear R. unfold for_range.
    destruct (for_from_all (fun s => Forall (good n) (fst (fst s)) /\ Forall (fresh n) (snd (fst s)) /\ length (snd s) = n /\ length (snd (fst s)) = length cs) (fun _ s => velocity_iteration js block st s)) with (n := (ts_vel_iters st - 0)%nat) (lo := 0%nat) (s := (jl1, c1, v2)) as ([[jl3 c3] v3] & R & G3 & F3 & L3 & Lc3); auto.
    { intros _ [[a b] c] (Ha & Hb & Hc & Hd). destruct (velocity_ok n block st a b c Ha Hb Hc) as (a' & b' & c' & R & Ra & Rb & Rcc & Rd). eexists. split; [exact R|]. cbn in *. repeat split; auto. congruence. }
    rewrite R. clear R. cbn [bind fst snd] in *.
    destruct (zip_res_total (fun c ci => fresh n c /\ solvable n st ci) (fun m => length (mf_points m) = 2%nat) (fun c ci => store_impulses c (c_manifold (ci_contact ci))) c3 cins) as (ms & -> & Fm & _).
    { intros c ci [[Wc _] (_ & _ & _ & LL & _)]. now apply (store_ok n). }
    { apply forall2_of; auto. congruence. }
    cbn [bind].
    assert (Lq : length (map fst (integrate_positions (ts_dt st) p2 v3)) = n) by (unfold integrate_positions; rewrite !map_length, combine_length; cbn [fst] in L2; lia).
    assert (Fp : Forall (pwired n) (map snd l)) by (clear - Fl; induction Fl as [|x l [_ H] F IH]; cbn; constructor; auto).
    destruct (position_iterations_ok n st (map snd l) Fp (ts_pos_iters st) jl3 _ G3 Lq) as (jl4 & p4 & okay & R & _). rewrite R. cbn [bind]. eexists. split; [reflexivity|]. exact Fm.
  Qed.
End Return.
