(** The contact solver returns. *)
From Coq Require Import List ZArith Bool Arith Lia.
From Verif Require Import Base Num NumLaws Math Manifold ListFacts DynModel SolverModel IslandModel SolverSpec SolverProofs.
Import ListNotations.

Lemma map_res_total {A B} (P : A -> Prop) (Q : B -> Prop) (f : A -> res B) l : (forall a, P a -> exists b, f a = Ok b /\ Q b) -> Forall P l -> exists r, map_res f l = Ok r /\ Forall Q r /\ length r = length l.
Proof. intros H. induction 1 as [|a l Pa Pl (r & E & F & L)]; cbn [map_res]; [eexists; repeat split; constructor|]. destruct (H a Pa) as (b & -> & Qb). cbn [bind]. rewrite E. cbn [bind]. eexists. split; [reflexivity|]. split; [constructor; auto|]. cbn. now rewrite L. Qed.
Lemma zip_res_total {A B C} (P : A -> B -> Prop) (Q : C -> Prop) (f : A -> B -> res C) l m : (forall a b, P a b -> exists c, f a b = Ok c /\ Q c) -> Forall2 P l m -> exists r, zip_res f l m = Ok r /\ Forall Q r /\ length r = length l.
Proof. intros H. induction 1 as [|a b l m Pa Pl (r & E & F & L)]; cbn [zip_res]; [eexists; repeat split; constructor|]. destruct (H a b Pa) as (c & -> & Qc). cbn [bind]. rewrite E. cbn [bind]. eexists. split; [reflexivity|]. split; [constructor; auto|]. cbn. now rewrite L. Qed.

Section Total.
  Local Open Scope num_scope.
  Context {T : Type} {NT : Num T} {TT : NumTrig T} {OT : NumOrd T}.
  Definition fresh (n : nat) (c : vcon T) : Prop := wired n c /\ pushing c.
  Lemma new_ok n step (ci : cinput T) : solvable n step ci -> exists c pc, new_constraint step ci = Ok (c, pc) /\ fresh n c.
  Proof.
    intros (A & B & C & L & W). unfold new_constraint. set (m := c_manifold (ci_contact ci)) in *. assert (N0 : Nat.ltb 0 (mf_count m) = true) by (destruct C as [-> | ->]; reflexivity). rewrite N0. cbn [b2_assert bind].
    assert (NN : forall p, In p (firstn (mf_count m) (mf_points m)) -> nonneg (vp_ni (new_point step p))).
    { intros p I. unfold new_point. cbn [vp_ni]. destruct (ts_warm step); [|apply nonneg0]. specialize (W eq_refl). rewrite Forall_forall in W. auto. }
    destruct (mf_points m) as [|q1 [|q2 [|]]]; try discriminate. unfold for_range. destruct C as [C|C]; rewrite C in NN |- *; cbn; eexists _, _; (split; [reflexivity|]); (split; [unfold wired; cbn; repeat split; try tauto; lia|]); unfold pushing, active; cbn; repeat constructor; apply NN; cbn; auto.
  Qed.
  Lemma world_manifold_ok (m : manifold T) xa ra xb rb : (mf_count m = 1 \/ mf_count m = 2)%nat -> length (mf_points m) = 2%nat -> exists r, world_manifold_initialize m xa ra xb rb = Ok (Some r).
  Proof.
    intros C L. unfold world_manifold_initialize. destruct (mf_points m) as [|q1 [|q2 [|]]]; try discriminate. unfold for_range. destruct C as [C|C]; rewrite C; cbn [Nat.eqb]; destruct (mf_type m); cbn; eauto.
  Qed.
  Lemma init_block_ok n block (c : vcon T) : fresh n c -> exists d, init_block block c = Ok d /\ fresh n d.
  Proof.
    intros [(A & B & L & C) P]. unfold init_block. destruct (_ && _) eqn:Q; [|eexists; split; [reflexivity|]; split; auto; repeat split; tauto]. apply andb_prop in Q. destruct Q as [Q _]. apply Nat.eqb_eq in Q. unfold pushing, active in P. rewrite Q in P.
    destruct (vc_points c) as [|p1 [|p2 [|]]] eqn:V; try discriminate. cbn [get nth_error bind]. destruct (nlt _ _); (eexists; split; [reflexivity|]); (split; [unfold wired; cbn; rewrite ?V; repeat split; tauto|]); unfold pushing, active; cbn [vc_count vc_points set_vc_block set_vc_count]; rewrite ?Q, ?V; auto.
    cbn [firstn] in *. inversion P; subst. auto.
  Qed.
  Lemma init_ok n block (poss : list (pos T)) vels m pc (c : vcon T) : length poss = n -> length vels = n -> (mf_count m = 1 \/ mf_count m = 2)%nat -> length (mf_points m) = 2%nat -> fresh n c -> exists d, init_constraint block poss vels m pc c = Ok d /\ fresh n d.
  Proof.
    intros Lp Lv C L F. pose proof F as [(A & B & LL & CC) P]. unfold init_constraint.
    assert (A1 : (0 <= vc_a c < Z.of_nat (length poss))%Z) by (rewrite Lp; exact A). assert (B1 : (0 <= vc_b c < Z.of_nat (length poss))%Z) by (rewrite Lp; exact B). assert (A2 : (0 <= vc_a c < Z.of_nat (length vels))%Z) by (rewrite Lv; exact A). assert (B2 : (0 <= vc_b c < Z.of_nat (length vels))%Z) by (rewrite Lv; exact B).
    destruct (zget_ok poss _ A1) as (pa & ->). destruct (zget_ok vels _ A2) as (va & ->). destruct (zget_ok poss _ B1) as (pb & ->). destruct (zget_ok vels _ B2) as (vb & ->). cbn [bind].
    assert (N0 : Nat.ltb 0 (mf_count m) = true) by (destruct C as [-> | ->]; reflexivity). rewrite N0. cbn [b2_assert bind]. destruct (world_manifold_ok m (center_xf (p_c pa) (p_a pa) (pc_ca pc)) (pc_ra pc) (center_xf (p_c pb) (p_a pb) (pc_cb pc)) (pc_rb pc) C L) as ([nn wps] & ->). cbn [bind unwrap].
    set (f := fun (p : vpoint T) (j : nat) => _). destruct (each_point_total (vc_count (set_vc_normal nn c)) f (vc_points (set_vc_normal nn c)) 0%nat) as ([ps k] & E); [cbn; lia|]. rewrite E. cbn [bind]. apply init_block_ok.
    apply (each_point_inv (fun p q => vp_ni q = vp_ni p)) in E; [|intros; reflexivity]. destruct E as (E1 & _ & E2 & _). cbn [vc_count vc_points set_vc_normal] in *. split; [unfold wired; cbn; repeat split; try tauto; lia|].
    unfold pushing, active. cbn [vc_count vc_points set_vc_points set_vc_normal]. eapply Forall2_same; [exact E2| |exact P]. intros a b Q. unfold nonneg. now rewrite Q.
  Qed.
  Lemma warm_ok n (cs : list (vcon T)) vels : length vels = n -> Forall (fresh n) cs -> exists cs' vels', warm_start cs vels = Ok (cs', vels') /\ length vels' = n /\ Forall (fresh n) cs'.
  Proof.
    intros L F. rewrite Forall_forall in F. destruct (each_item_total (fun v => length v = n) warm_constraint cs vels) as (cs' & vels' & E & L').
    - intros c v I Lv. destruct (F c I) as [W P]. destruct (with_pair_total c (each_point (vc_count c) (warm_point c) (vc_points c)) v) as (c' & v' & E & L'); [rewrite Lv; exact W| |exists c', v'; split; [exact E|congruence]].
      intros s. apply each_point_total. destruct W as (_ & _ & W1 & W2). lia.
    - exact L.
    - exists cs', vels'. split; [exact E|]. split; [exact L'|]. apply (each_item_inv (fun c c' => fresh n c -> fresh n c')) in E.
      + clear - E F. induction E; constructor; auto; [apply H, F; now left|apply IHE; intros; apply F; now right].
      + intros c s c' s' _ Q. apply with_pair_inv in Q. destruct Q as (t & ps & t' & Q & ->). apply (each_point_inv eq) in Q; [|reflexivity]. destruct Q as (Q1 & _ & Q2 & _). intros [(A & B & C & D) P].
        assert (Q : firstn (vc_count c) (vc_points c) = firstn (vc_count c) ps) by (clear - Q2; induction Q2; congruence). split; [unfold wired; cbn; repeat split; try tauto; lia|]. unfold pushing, active in *. cbn [vc_count vc_points set_vc_points]. now rewrite <- Q.
  Qed.
  Lemma solve_ok n block (cs : list (vcon T)) vels : length vels = n -> Forall (fresh n) cs -> exists cs' vels', solve_velocities block cs vels = Ok (cs', vels') /\ length vels' = n /\ Forall (fresh n) cs'.
  Proof.
    intros L F. destruct (velocities_total block cs vels) as (cs' & vels' & E & L').
    - rewrite L. revert F. apply Forall_impl. intros c [W _]. exact W.
    - revert F. apply Forall_impl. intros c [_ P]. exact P.
    - exists cs', vels'. split; [exact E|]. split; [congruence|]. pose proof (velocities_pushing _ _ _ _ _ E) as P. apply (each_item_inv (fun c d => same_frame c d)) in E; [|intros; eapply solve_frame; eauto].
      clear - E F P. induction E; constructor; inversion F; inversion P; subst; auto. split; auto. match goal with Q : fresh n ?x, R : same_frame ?x _ |- _ => exact (same_frame_wired n _ _ R (proj1 Q)) end.
  Qed.
  Theorem iterations_return n block k (cs : list (vcon T)) vels : length vels = n -> Forall (fresh n) cs -> exists cs' vels', iterations block k cs vels = Ok (cs', vels') /\ length vels' = n /\ Forall (fresh n) cs'.
  Proof.
    unfold iterations, for_range. rewrite Nat.sub_0_r. generalize 0%nat. revert cs vels. induction k as [|k IH]; intros cs vels i L F; cbn [for_from]; [eauto|]. destruct (solve_ok n block cs vels L F) as (c1 & v1 & E & L1 & F1). cbn [fst snd]. rewrite E. cbn [bind]. now apply IH.
  Qed.
  Theorem phase_returns block step (bs : list (body T)) cins vels : length vels = length bs -> Forall (solvable (length bs) step) cins -> exists cs' vels', contact_phase block step bs cins vels = Ok (cs', vels') /\ length vels' = length bs /\ Forall (fresh (length bs)) cs'.
  Proof.
    intros L F. set (n := length bs) in *. unfold contact_phase, make_constraints. destruct (map_res_total (solvable n step) (fun cp => fresh n (fst cp)) (new_constraint step) cins) as (l & E & Fl & Ll); [|exact F|].
    { intros ci S. destruct (new_ok n step ci S) as (c & pc & E & Fc). exists (c, pc). auto. }
    rewrite E. cbn [bind]. destruct (zip_res_total (fun ci (pc_c : pcon T * vcon T) => solvable n step ci /\ fresh n (snd pc_c)) (fresh n) (fun ci pc_c => init_constraint block (map body_pos bs) vels (c_manifold (ci_contact ci)) (fst pc_c) (snd pc_c)) cins (combine (map snd l) (map fst l))) as (cs & E2 & F2 & _).
    { intros ci [pc c] [(_ & _ & C & LL & _) Fc]. cbn [fst snd] in *. apply init_ok; auto. now rewrite map_length. }
    { clear - F Fl Ll. revert l Fl Ll. induction F as [|ci cins S F IH]; intros [|[c pc] l] Fl Ll; cbn in *; try discriminate; constructor; inversion Fl; subst; auto. }
    unfold init_constraints. rewrite E2. cbn [bind]. destruct (ts_warm step).
    - destruct (warm_ok n cs vels L F2) as (c1 & v1 & E3 & L3 & F3). rewrite E3. cbn [bind]. now apply iterations_return.
    - cbn [bind]. now apply iterations_return.
  Qed.
  Theorem iterations_push block k (cs : list (vcon T)) vels cs' vels' : iterations block (S k) cs vels = Ok (cs', vels') -> Forall pushing cs'.
  Proof.
    unfold iterations, for_range. rewrite Nat.sub_0_r. generalize 0%nat. revert cs vels. induction k as [|k IH]; intros cs vels i H; cbn [for_from] in H; cbn [fst snd] in H; destruct (solve_velocities block cs vels) as [[c1 v1]| |] eqn:E; try discriminate; cbn [bind] in H.
    - assert (cs' = c1) as -> by congruence. eapply velocities_pushing; eauto.
    - eapply IH; exact H.
  Qed.
End Total.
