(** Proofs about the contact solver. *)
From Coq Require Import List ZArith Bool Arith Reals Lia Lra.
From Verif Require Import Base Num NumLaws Math Manifold ListFacts DynModel SolverModel SolverSpec.
Import ListNotations.

Lemma each_point_inv {P S} (R : P -> P -> Prop) n (f : P -> S -> P * S) : (forall p s, R p (fst (f p s))) -> forall ps s ps' s',
  each_point n f ps s = Ok (ps', s') -> length ps' = length ps /\ n <= length ps /\ Forall2 R (firstn n ps) (firstn n ps') /\ skipn n ps' = skipn n ps.
Proof.
  intros H. induction n as [|n IH]; intros ps s ps' s' Q; cbn [each_point] in Q.
  - assert (ps' = ps) as -> by congruence. cbn. repeat split; auto with arith.
  - destruct ps as [|p ps]; [discriminate|]. specialize (H p s). destruct (f p s) as [q t] eqn:F. cbn [fst] in H. destruct (each_point n f ps t) as [[r u]| |] eqn:G; try discriminate. cbn [bind] in Q.
    assert (ps' = q :: r) as -> by congruence. destruct (IH _ _ _ _ G) as (A & B & C & D). cbn. repeat split; auto; lia.
Qed.
Lemma each_point_total {P S} n (f : P -> S -> P * S) : forall ps s, n <= length ps -> exists r, each_point n f ps s = Ok r.
Proof.
  induction n as [|n IH]; intros ps s L; cbn [each_point]; [eauto|]. destruct ps as [|p ps]; [cbn in L; lia|]. destruct (f p s) as [q t]. cbn in L. destruct (IH ps t) as ([r u] & ->); [lia|]. cbn. eauto.
Qed.
(* an invariant of the state and a relation on the points *)
Lemma each_point_state {P S} (I : S -> Prop) (K : P -> Prop) n (f : P -> S -> P * S) : (forall p s, K p -> I s -> I (snd (f p s))) -> forall ps s ps' s',
  Forall K (firstn n ps) -> I s -> each_point n f ps s = Ok (ps', s') -> I s'.
Proof.
  intros H. induction n as [|n IH]; intros ps s ps' s' Ks Is Q; cbn [each_point] in Q.
  - now assert (s' = s) as -> by congruence.
  - destruct ps as [|p ps]; [discriminate|]. cbn [firstn] in Ks. inversion Ks as [|? ? K1 K2]; subst. specialize (H p s K1 Is). destruct (f p s) as [q t] eqn:F. cbn [snd] in H. destruct (each_point n f ps t) as [[r u]| |] eqn:G; try discriminate. cbn [bind] in Q.
    assert (s' = u) as -> by congruence. exact (IH _ _ _ _ K2 H G).
Qed.
Lemma each_item_inv {C S} (R : C -> C -> Prop) (f : C -> S -> res (C * S)) : forall l s l' s',
  (forall c s c' s', In c l -> f c s = Ok (c', s') -> R c c') -> each_item f l s = Ok (l', s') -> Forall2 R l l'.
Proof.
  induction l as [|c l IH]; intros s l' s' H Q; cbn [each_item] in Q; [assert (l' = []) as -> by congruence; constructor|].
  destruct (f c s) as [[c1 s1]| |] eqn:F; try discriminate. cbn [bind] in Q. destruct (each_item f l s1) as [[l1 s2]| |] eqn:G; try discriminate. cbn [bind] in Q. assert (l' = c1 :: l1) as -> by congruence.
  constructor; [eapply H; [left; reflexivity|eauto]|]. eapply IH; [|eauto]. intros. eapply H; [right|]; eauto.
Qed.
Lemma each_item_state {C S} (I : S -> Prop) (f : C -> S -> res (C * S)) : forall l s l' s',
  (forall c s c' s', In c l -> I s -> f c s = Ok (c', s') -> I s') -> I s -> each_item f l s = Ok (l', s') -> I s'.
Proof.
  induction l as [|c l IH]; intros s l' s' H Is Q; cbn [each_item] in Q; [now assert (s' = s) as -> by congruence|].
  destruct (f c s) as [[c1 s1]| |] eqn:F; try discriminate. cbn [bind] in Q. destruct (each_item f l s1) as [[l1 s2]| |] eqn:G; try discriminate. cbn [bind] in Q. assert (s' = s2) as -> by congruence.
  eapply (IH s1); [|eapply H; [left; reflexivity| |exact F]|exact G]; auto. intros. eapply H; [right| |]; eauto.
Qed.
Lemma each_item_total {C S} (I : S -> Prop) (f : C -> S -> res (C * S)) : forall l s,
  (forall c s, In c l -> I s -> exists c' s', f c s = Ok (c', s') /\ I s') -> I s -> exists l' s', each_item f l s = Ok (l', s') /\ I s'.
Proof.
  induction l as [|c l IH]; intros s H Is; cbn [each_item]; [eauto|]. destruct (H c s (or_introl eq_refl) Is) as (c1 & s1 & -> & I1). cbn [bind].
  destruct (IH s1) as (l' & s' & -> & I2); auto; [intros; apply H; auto; now right|]. cbn. eauto.
Qed.

Section Cone.
  Local Open Scope num_scope.
  Context {T : Type} {NT : Num T} {OT : NumOrd T}.

  Lemma nonneg0 : nonneg (#0 : T).
  Proof. apply nle_refl, nfin_ok, nfin0. Qed.
  Lemma max_nonneg (x : T) : nonneg (b2_max x #0).
  Proof. unfold b2_max, nonneg. destruct (#0 <? x) eqn:L; [|apply nonneg0]. destruct (nlt_ok _ _ L) as [A B]. rewrite nlt_nle in L by auto. apply negb_true_iff in L. destruct (nle_total #0 x A B); congruence. Qed.

  Lemma with_pair_inv (c : vcon T) f vels c' vels' : with_pair c f vels = Ok (c', vels') -> exists s ps s', f s = Ok (ps, s') /\ c' = set_vc_points ps c.
  Proof.
    unfold with_pair. destruct (zget vels (vc_a c)) as [va| |]; try discriminate. cbn [bind]. destruct (zget vels (vc_b c)) as [vb| |]; try discriminate. cbn [bind]. set (s := Pair _ _ _ _). intros H. exists s.
    destruct (f s) as [[ps s']| |]; try discriminate. cbn [bind] in H. exists ps, s'. split; [reflexivity|]. destruct (zset vels _ _) as [v1| |]; try discriminate. cbn [bind] in H. destruct (zset v1 _ _) as [v2| |]; try discriminate. cbn [bind] in H. congruence.
  Qed.

  Lemma tangent_ni (c : vcon T) p s : vp_ni (fst (tangent_point c p s)) = vp_ni p.
  Proof. reflexivity. Qed.
  Lemma normal_pushes (c : vcon T) p s : nonneg (vp_ni (fst (normal_point c p s))).
  Proof. unfold normal_point. cbn [fst set_vp_ni vp_ni]. apply max_nonneg. Qed.
  Lemma Forall2_same {A} (P : A -> A -> Prop) (l l' : list A) : Forall2 P l l' -> forall Q : A -> Prop, (forall a b, P a b -> Q a -> Q b) -> Forall Q l -> Forall Q l'.
  Proof. induction 1; intros Q H1 H2; constructor; inversion H2; subst; eauto. Qed.
  Lemma Forall2_right {A} (P : A -> A -> Prop) (Q : A -> Prop) (l l' : list A) : (forall a b, P a b -> Q b) -> Forall2 P l l' -> Forall Q l'.
  Proof. intros H. induction 1; constructor; eauto. Qed.

  Lemma block_pushes (c : vcon T) ps s ps' s' : vc_count c = 2%nat -> block_solve c ps s = Ok (ps', s') -> Forall (fun p => nonneg (vp_ni p)) (firstn 2 ps').
  Proof.
    intros _ H. unfold block_solve in H. destruct ps as [|p1 [|p2 r]]; try discriminate. destruct (_ && _) eqn:B in H; cbn [b2_assert bind] in H; try discriminate. apply andb_prop in B. destruct B as [B1 B2].
    destruct (block_case c p1 p2 _) as [x|] eqn:X in H.
    - cbn [block_apply] in H. assert (ps' = set_vp_ni (vx x) p1 :: set_vp_ni (vy x) p2 :: r) as -> by congruence. cbn [firstn]. unfold block_case in X. cbv zeta in X.
      pose proof nonneg0 as N0. revert X.
      destruct (_ && _) eqn:C1; [intros [= <-]; apply andb_prop in C1; destruct C1; repeat constructor; auto|].
      destruct (_ && _) eqn:C2 at 1; [intros [= <-]; apply andb_prop in C2; destruct C2; repeat constructor; auto|].
      destruct (_ && _) eqn:C3 at 1; [intros [= <-]; apply andb_prop in C3; destruct C3; repeat constructor; auto|].
      destruct (_ && _) eqn:C4 at 1; [intros [= <-]; repeat constructor; auto|discriminate].
    - assert (ps' = p1 :: p2 :: r) as -> by congruence. repeat constructor; auto.
  Qed.
  Theorem points_push block (c : vcon T) s ps s' : solve_points block c s = Ok (ps, s') -> Forall (fun p => nonneg (vp_ni p)) (firstn (vc_count c) ps).
  Proof.
    unfold solve_points. destruct (_ || _) eqn:N; cbn [b2_assert bind]; try discriminate. destruct (each_point _ (tangent_point c) _ _) as [[ps1 s1]| |] eqn:E1; try discriminate. cbn [bind].
    destruct (Nat.eqb_spec (vc_count c) 1) as [N1|N1].
    - cbn [orb]. intros H. apply (each_point_inv (fun _ p => nonneg (vp_ni p))) in H; [|intros; apply normal_pushes]. destruct H as (_ & _ & H & _). revert H. apply Forall2_right. auto.
    - cbn [orb] in *. apply Nat.eqb_eq in N. destruct block; cbn [negb]; intros H.
      + rewrite N. eapply block_pushes; eauto.
      + apply (each_point_inv (fun _ p => nonneg (vp_ni p))) in H; [|intros; apply normal_pushes]. destruct H as (_ & _ & H & _). revert H. apply Forall2_right. auto.
  Qed.
  (* what a constraint keeps: everything but the impulses *)
  Lemma same_place_refl (p : vpoint T) : same_place p p.
  Proof. unfold same_place. tauto. Qed.
  Lemma same_place_trans (p q r : vpoint T) : same_place p q -> same_place q r -> same_place p r.
  Proof. unfold same_place. intros (? & ? & ? & ? & ?) (? & ? & ? & ? & ?). repeat split; congruence. Qed.
  Lemma Forall2_refl {A} (P : A -> A -> Prop) : (forall a, P a a) -> forall l, Forall2 P l l.
  Proof. intros H. induction l; constructor; auto. Qed.
  Lemma Forall2_trans {A} (P : A -> A -> Prop) : (forall a b c, P a b -> P b c -> P a c) -> forall l m n, Forall2 P l m -> Forall2 P m n -> Forall2 P l n.
  Proof. intros H l m n K. revert n. induction K; intros n L; inversion L; subst; constructor; eauto. Qed.
  Lemma Forall2_split {A} (P : A -> A -> Prop) n l l' : (forall a, P a a) -> Forall2 P (firstn n l) (firstn n l') -> skipn n l' = skipn n l -> Forall2 P l l'.
  Proof. intros R H S. rewrite <- (firstn_skipn n l), <- (firstn_skipn n l'), S. apply Forall2_app; auto. now apply Forall2_refl. Qed.
  Lemma each_point_place n (f : vpoint T -> pair T -> vpoint T * pair T) ps s ps' s' : (forall p s, same_place p (fst (f p s))) -> each_point n f ps s = Ok (ps', s') -> Forall2 same_place ps ps'.
  Proof. intros H Q. apply (each_point_inv same_place) in Q; auto. destruct Q as (_ & _ & Q1 & Q2). eapply Forall2_split; eauto. apply same_place_refl. Qed.
  Lemma block_place (c : vcon T) ps s ps' s' : block_solve c ps s = Ok (ps', s') -> Forall2 same_place ps ps'.
  Proof.
    unfold block_solve. destruct ps as [|p1 [|p2 r]]; try discriminate. destruct (b2_assert _); try discriminate. cbn [bind]. destruct (block_case c p1 p2 _) as [x|].
    - cbn [block_apply]. intros H. assert (ps' = set_vp_ni (vx x) p1 :: set_vp_ni (vy x) p2 :: r) as -> by congruence. repeat constructor. apply Forall2_refl, same_place_refl.
    - intros H. assert (ps' = p1 :: p2 :: r) as -> by congruence. apply Forall2_refl, same_place_refl.
  Qed.
  Lemma solve_points_place block (c : vcon T) s ps s' : solve_points block c s = Ok (ps, s') -> Forall2 same_place (vc_points c) ps.
  Proof.
    unfold solve_points. destruct (b2_assert _); try discriminate. cbn [bind]. destruct (each_point _ (tangent_point c) _ _) as [[ps1 s1]| |] eqn:E1; try discriminate. cbn [bind]. apply each_point_place in E1; [|intros p t; apply (conj eq_refl (conj eq_refl (conj eq_refl (conj eq_refl eq_refl))))].
    intros H. eapply Forall2_trans; [apply same_place_trans|exact E1|]. destruct (_ || _); [|eapply block_place; eauto]. apply each_point_place in H; auto. intros p t; apply (conj eq_refl (conj eq_refl (conj eq_refl (conj eq_refl eq_refl)))).
  Qed.
  Lemma solve_frame block (c : vcon T) vels c' vels' : solve_constraint block c vels = Ok (c', vels') -> same_frame c c'.
  Proof. intros H. apply with_pair_inv in H. destruct H as (s & ps & s' & H & ->). exists ps. split; auto. eapply solve_points_place; eauto. Qed.
  Lemma solve_pushing block (c : vcon T) vels c' vels' : solve_constraint block c vels = Ok (c', vels') -> pushing c'.
  Proof. intros H. apply with_pair_inv in H. destruct H as (s & ps & s' & H & ->). unfold pushing, active. cbn [vc_count vc_points set_vc_points]. eapply points_push; eauto. Qed.
  Theorem velocities_pushing block (cs : list (vcon T)) vels cs' vels' : solve_velocities block cs vels = Ok (cs', vels') -> Forall pushing cs'.
  Proof. intros H. apply (each_item_inv (fun _ c => pushing c)) in H; [|intros; eapply solve_pushing; eauto]. revert H. apply Forall2_right. auto. Qed.

  (** ** the solver returns *)
  Lemma zget_ok {A} (l : list A) i : (0 <= i < Z.of_nat (length l))%Z -> exists a, zget l i = Ok a.
  Proof. intros [A1 A2]. unfold zget. destruct (Z.ltb_spec i 0); [lia|]. unfold get. destruct (nth_error l (Z.to_nat i)) as [a|] eqn:N; [eauto|]. apply nth_error_None in N. lia. Qed.
  Lemma zset_ok {A} (l : list A) i a : (0 <= i < Z.of_nat (length l))%Z -> exists l', zset l i a = Ok l' /\ length l' = length l.
  Proof.
    intros [A1 A2]. unfold zset. destruct (Z.ltb_spec i 0); [lia|]. rewrite set_ok by lia. eexists. split; [reflexivity|]. apply length_upd.
  Qed.
  Lemma with_pair_total (c : vcon T) f vels : wired (length vels) c -> (forall s, exists r, f s = Ok r) -> exists c' vels', with_pair c f vels = Ok (c', vels') /\ length vels' = length vels.
  Proof.
    intros (A & B & _) H. unfold with_pair. destruct (zget_ok vels (vc_a c) A) as (va & ->). destruct (zget_ok vels (vc_b c) B) as (vb & ->). cbn [bind]. set (s := Pair _ _ _ _). destruct (H s) as ([ps s'] & ->). cbn [bind].
    destruct (zset_ok vels (vc_a c) (Vel (s_va s') (s_wa s')) A) as (v1 & -> & L1). cbn [bind]. destruct (zset_ok v1 (vc_b c) (Vel (s_vb s') (s_wb s'))) as (v2 & -> & L2); [now rewrite L1|]. cbn [bind]. eexists _, _. split; [reflexivity|]. congruence.
  Qed.
  Lemma solve_points_total n block (c : vcon T) s : wired n c -> pushing c -> exists r, solve_points block c s = Ok r.
  Proof.
    intros (_ & _ & L & N) P. unfold solve_points. assert (K : Nat.eqb (vc_count c) 1 || Nat.eqb (vc_count c) 2 = true) by (destruct N as [-> | ->]; reflexivity). rewrite K. cbn [b2_assert bind]. assert (C2 : vc_count c <= 2) by lia.
    destruct (each_point_total (vc_count c) (tangent_point c) (vc_points c) s) as ([ps s1] & E1); [lia|]. rewrite E1. cbn [bind]. apply (each_point_inv (fun p q => vp_ni q = vp_ni p)) in E1; [|intros; reflexivity]. destruct E1 as (L1 & _ & E1 & _).
    destruct (_ || negb block) eqn:B; [apply each_point_total; lia|]. apply orb_false_iff in B. destruct B as [B _]. assert (N2 : vc_count c = 2%nat) by (destruct N as [N|N]; auto; rewrite N in B; discriminate).
    unfold pushing, active in P. rewrite N2 in *. unfold block_solve. destruct ps as [|p1 [|p2 r]]; cbn [length] in L1; try lia.
    apply (Forall2_same _ _ _ E1) in P; [|intros a b Q; unfold nonneg; now rewrite Q]. cbn [firstn] in P. inversion P as [|? ? P1 P']; subst. inversion P' as [|? ? P2 _]; subst. unfold nonneg in P1, P2. rewrite P1, P2. cbn [andb b2_assert bind].
    destruct (block_case c p1 p2 _); [|eauto]. cbn [block_apply]. eauto.
  Qed.
  Theorem velocities_total block (cs : list (vcon T)) vels : Forall (wired (length vels)) cs -> Forall pushing cs -> exists cs' vels', solve_velocities block cs vels = Ok (cs', vels') /\ length vels' = length vels.
  Proof.
    intros W P. apply (each_item_total (fun v => length v = length vels)); auto. intros c v I L. rewrite Forall_forall in W, P. destruct (with_pair_total c (solve_points block c) v) as (c' & v' & H & L').
    - rewrite L. auto.
    - intros s. eapply solve_points_total; eauto.
    - exists c', v'. split; [exact H|congruence].
  Qed.
  Lemma Forall2_len {A} (P : A -> A -> Prop) l l' : Forall2 P l l' -> length l = length l'.
  Proof. induction 1; cbn; auto. Qed.
  Lemma same_frame_wired n (c d : vcon T) : same_frame c d -> wired n c -> wired n d.
  Proof. intros (ps & -> & F) (A & B & C & D). refine (conj A (conj B (conj _ D))). cbn. rewrite <- (Forall2_len _ _ _ F). exact C. Qed.

  (** ** friction *)
  Hypothesis opp_le : forall m : T, nonneg m -> nle (- m) m = true.
  Lemma clamp_between (a m : T) : nonneg m -> between (- m) (b2_clamp a (- m) m) m.
  Proof.
    intros P. pose proof (opp_le m P) as Q. destruct (nle_ok _ _ Q) as [O1 O2]. unfold b2_clamp, b2_max, b2_min, between. destruct (a <? m) eqn:L.
    - destruct (nlt_ok _ _ L) as [Oa _]. assert (La : nle a m = true). { rewrite nlt_nle in L by auto. apply negb_true_iff in L. destruct (nle_total a m Oa O2); congruence. }
      destruct (a <? - m) eqn:K; [split; auto using nle_refl|]. split; auto. rewrite nlt_nle in K by auto. now apply negb_false_iff in K.
    - destruct (m <? - m) eqn:K; split; auto using nle_refl.
  Qed.
  Lemma tangent_cone (c : vcon T) p s : in_cone (vc_friction c) p (fst (tangent_point c p s)).
  Proof. intros H. cbn [tangent_point fst vp_ti set_vp_ti]. now apply clamp_between. Qed.
  Theorem points_cone block (c : vcon T) s ps s' : solve_points block c s = Ok (ps, s') -> Forall2 (in_cone (vc_friction c)) (active c) (firstn (vc_count c) ps).
  Proof.
    unfold solve_points. destruct (_ || _) eqn:N; cbn [b2_assert bind]; try discriminate. destruct (each_point _ (tangent_point c) _ _) as [[ps1 s1]| |] eqn:E1; try discriminate. cbn [bind].
    apply (each_point_inv (in_cone (vc_friction c))) in E1; [|intros; apply tangent_cone]. destruct E1 as (_ & _ & E1 & _). fold (active c) in E1. intros H.
    assert (K : Forall2 (fun p q => vp_ti q = vp_ti p) (firstn (vc_count c) ps1) (firstn (vc_count c) ps)).
    { destruct (Nat.eqb (vc_count c) 1 || negb block) eqn:B.
      - apply (each_point_inv (fun p q => vp_ti q = vp_ti p)) in H; [|intros; reflexivity]. tauto.
      - unfold block_solve in H. destruct ps1 as [|p1 [|p2 r]]; try discriminate. destruct (b2_assert _); try discriminate. cbn [bind] in H. destruct (block_case c p1 p2 _) as [x|].
        + cbn [block_apply] in H. assert (ps = set_vp_ni (vx x) p1 :: set_vp_ni (vy x) p2 :: r) as -> by congruence. destruct (vc_count c) as [|[|n]]; cbn [firstn]; repeat constructor. apply Forall2_refl. reflexivity.
        + assert (ps = p1 :: p2 :: r) as -> by congruence. apply Forall2_refl. reflexivity. }
    clear - E1 K. revert E1 K. generalize (firstn (vc_count c) ps1). generalize (firstn (vc_count c) ps). generalize (active c). clear. induction l as [|a l IH]; intros m k H1 H2; inversion H1; subst; inversion H2; subst; constructor; eauto.
    match goal with Q : vp_ti _ = vp_ti _, P : in_cone _ _ _ |- _ => intros B; specialize (P B); now rewrite Q end.
  Qed.
  Definition cone_kept (c d : vcon T) : Prop := Forall2 (in_cone (vc_friction c)) (active c) (active d).
  Theorem velocities_cone block (cs : list (vcon T)) vels cs' vels' : solve_velocities block cs vels = Ok (cs', vels') -> Forall2 cone_kept cs cs'.
  Proof.
    intros H. apply (each_item_inv cone_kept) in H; auto. intros c s c' s' _ Q. apply with_pair_inv in Q. destruct Q as (t & ps & t' & Q & ->). unfold cone_kept, active at 2. cbn [vc_count vc_points set_vc_points]. eapply points_cone; eauto.
  Qed.
End Cone.

Lemma opp_le_f32 (m : f32) : nonneg m -> nle (nneg m) m = true.
Proof. unfold nonneg. destruct m as [s|s| |s m e H]; try destruct s; try (intros; reflexivity); intros Q; try discriminate Q. Qed.
