(** What the calls leave behind, read off the tables. *)
From Coq Require Import List ZArith Bool Arith Lia Permutation.
From Verif Require Import Base Num Math Collision Manifold Filter ShapeModel ListFacts ManifoldProofs TreeModel TreeSpec TreeHist BroadModel BroadSpec BroadProofs BroadFinal DynModel DynSpec DynProofs WorldModel WorldGraph WorldSpec WorldClaims WorldGops WorldLogic WorldPhys WorldContact WorldInv WorldOps WorldFix WorldBody WorldLife WorldSet WorldIsland WorldSolve WorldToi WorldStep WorldFinal.
Import ListNotations.

Lemma filter_split {A} (f : A -> bool) l : (length (List.filter (fun x => negb (f x)) l) + length (List.filter f l) = length l)%nat.
Proof. induction l as [|x l IH]; auto. cbn. destruct (f x); cbn; lia. Qed.

Section After.
  Local Open Scope num_scope.
  Context {T : Type} `{NT : Num T} `{TT : NumTrig T} `{VT : NumValid T}.
  Notation world := (world T).
  Implicit Types w : world.
  Variable p : Prop.
  Variable oks : vec2 T -> Prop.
  Notation W := (W p oks).

  Lemma contact_on_items w i c : W w -> member (items (contacts_of (graph_of w) i)) c = contact_on w i c.
  Proof.
    intros H. apply eq_true_iff_eq. rewrite member_in. unfold items. rewrite in_map_iff. destruct (W_graph _ _ _ H) as (_ & _ & (_ & (_ & I & D) & _) & _). unfold contact_on, on_body. split.
    - intros ([c' s o] & Q & He). cbn in Q. subst c'. apply I in He. destruct He as [H1 H2]. pose proof (cbody_live _ _ _ _ H1) as L. destruct (w_contacts w c) as [x|] eqn:Ex; [|easy].
      rewrite (cbody_raw w c x) in H1, H2 by auto. unfold bodies_of. destruct s; cbn [negb] in *; rewrite H1, H2, Nat.eqb_refl; cbn; auto using orb_true_r.
    - destruct (w_contacts w c) as [x|] eqn:Ex; [|easy]. destruct (D c) as (a & b & Ha & Hb & _); [cbn; now rewrite Ex|]. pose proof Ha as Ha'. pose proof Hb as Hb'. rewrite (cbody_raw w c x) in Ha', Hb' by auto.
      unfold bodies_of. rewrite Ha', Hb', orb_true_iff, !Nat.eqb_eq. intros [<- | <-]; [exists (GEdge c true b)|exists (GEdge c false a)]; (split; [reflexivity|]); apply I; cbn [negb]; auto.
  Qed.
  Lemma joint_on_items w i j : W w -> member (items (joints_of (graph_of w) i)) j = joint_on w i j.
  Proof.
    intros H. apply eq_true_iff_eq. rewrite member_in. unfold items. rewrite in_map_iff. destruct (W_graph _ _ _ H) as (_ & _ & _ & (_ & (_ & I & D) & _)). unfold joint_on. split.
    - intros ([c' s o] & Q & He). cbn in Q. subst c'. apply I in He. destruct He as [H1 H2]. unfold jbody in H1, H2. cbn in H1, H2. destruct (w_joints w j) as [x|]; [|easy]. cbn in H1, H2. destruct s; cbn [negb] in *; injection H1 as ->; rewrite Nat.eqb_refl; auto using orb_true_r.
    - destruct (w_joints w j) as [x|] eqn:Ex; [|easy]. rewrite orb_true_iff, !Nat.eqb_eq. assert (Q : forall s, jbody (graph_of w) j s = Some (if s then j_a x else j_b x)) by (intros s; unfold jbody; cbn; now rewrite Ex).
      intros [<- | <-]; [exists (GEdge j true (j_b x))|exists (GEdge j false (j_a x))]; (split; [reflexivity|]); apply I; cbn [negb]; rewrite !Q; auto.
  Qed.
  Lemma fixture_on_owned w i f : owned (graph_of w) i f = fixture_on w i f.
  Proof. unfold owned, fixture_on. now rewrite body_owner. Qed.

  (** ** C23 *)
  Lemma removed_raw i w w' : W w -> removed i w w' -> body_removed i w w'.
  Proof.
    intros H (L1 & L2 & L3 & Bi & Bj & Fx & Cx & Jx & _). cbn in L1, L2, L3. refine (conj _ (conj _ (conj _ (conj _ (conj _ (conj _ (conj _ _))))))).
    - cbn in Bi. now destruct (w_bodies w' i).
    - rewrite L1. apply filter_ext. intros j. now rewrite Nat.eqb_sym.
    - rewrite L2. apply filter_ext. intros c. now rewrite contact_on_items.
    - rewrite L3. apply filter_ext. intros c. now rewrite joint_on_items.
    - intros f. now rewrite Fx, fixture_on_owned.
    - intros c. specialize (Cx c). rewrite contact_on_items in Cx by auto. cbn in Cx. destruct (contact_on w i c); [now destruct (w_contacts w' c)|]. destruct (w_contacts w' c), (w_contacts w c); cbn in *; try easy. unfold pair_key. injection Cx as -> -> -> ->. reflexivity.
    - intros j. specialize (Jx j). rewrite joint_on_items in Jx by auto. cbn in Jx. destruct (joint_on w i j); [now destruct (w_joints w' j)|]. destruct (w_joints w' j), (w_joints w j); cbn in *; try easy. injection Jx as -> -> ->. reflexivity.
    - intros k Hk. destruct (Bj k Hk) as (B1 & B2 & B3 & B4). rewrite (filter_ext _ (fun e => negb (contact_on w i (ge_item e)))) in B3 by (intros e; rewrite contact_on_items; auto). rewrite (filter_ext _ (fun e => negb (joint_on w i (ge_item e)))) in B4 by (intros e; rewrite joint_on_items; auto).
      unfold fixtures_of, contacts_of, joints_of in *. cbn in *. destruct (w_bodies w' k) as [b'|], (w_bodies w k) as [b|]; cbn in *; try easy.
      unfold kind in B1. cbn in B1. injection B1 as -> ->. rewrite B2, B3, B4. reflexivity.
  Qed.
  Lemma sum_filter {A} (f : A -> nat) (i : A) (eqb : A -> A -> bool) l : (forall x y, eqb x y = true <-> x = y) -> NoDup l -> In i l -> (sum (map f (List.filter (fun x => negb (eqb i x)) l)) + f i = sum (map f l))%nat.
  Proof.
    intros Q. induction l as [|x l IH]; intros N I; [easy|]. inversion N as [|? ? Nx Nl]; subst. cbn. destruct (eqb i x) eqn:Ex; cbn.
    - apply Q in Ex. subst x. rewrite (filter_all (fun x => negb (eqb i x)) l); [unfold sum; cbn; lia|]. intros y Hy. destruct (eqb i y) eqn:Ey; auto. apply Q in Ey. now subst.
    - destruct I as [->|I]; [rewrite (proj2 (Q i i) eq_refl) in Ex; easy|]. specialize (IH Nl I). unfold sum in *. cbn in *. lia.
  Qed.
  Lemma removed_counts i w w' : W w -> W w' -> w_bodies w i <> None -> body_removed i w w' -> counts_drop i w w'.
  Proof.
    intros H H' Li (Bi & L1 & L2 & L3 & Fx & Cx & Jx & Bk). destruct (W_graph _ _ _ H) as ((N1 & I1 & K1 & _) & (_ & _ & F3 & _) & ((_ & _ & K2 & _) & _) & ((_ & _ & K3 & _) & _)). destruct (W_graph _ _ _ H') as ((_ & _ & K1' & _) & _ & ((_ & _ & K2' & _) & _) & ((_ & _ & K3' & _) & _)).
    cbn in N1, I1, K1, K2, K3, K1', K2', K3'. assert (Hin : In i (w_body_list w)) by (apply I1; now destruct (w_bodies w i)).
    assert (Qe : forall x y, Nat.eqb x y = true <-> x = y) by apply Nat.eqb_eq.
    refine (conj _ (conj _ (conj _ _))).
    - rewrite K1', K1, L1. pose proof (sum_filter (fun _ => 1%nat) i Nat.eqb (w_body_list w) Qe N1 Hin) as Q. assert (U : forall l : list nat, sum (map (fun _ => 1%nat) l) = length l) by (induction l; cbn; auto). rewrite !U in Q. exact Q.
    - rewrite K2', K2, L2. apply filter_split.
    - rewrite K3', K3, L3. apply filter_split.
    - intros b Hb. rewrite (proxy_count p oks w' H'), (proxy_count p oks w H), <- Nat2Z.inj_add. f_equal. unfold enabled_children. rewrite L1. unfold keep_item.
      rewrite <- (sum_filter (fun i => match w_bodies w i with Some b => if is_enabled b then sum (map (children w) (b_fixtures b)) else 0%nat | None => 0%nat end) i Nat.eqb (w_body_list w) Qe N1 Hin), Hb. f_equal. apply sum_ext. intros k Hk. apply filter_In in Hk. destruct Hk as [Hk Nk]. apply negb_true_iff, Nat.eqb_neq in Nk.
      assert (Nk' : k <> i) by auto. specialize (Bk k Nk'). destruct (w_bodies w' k) as [b'|], (w_bodies w k) as [b0|] eqn:Eb0; cbn in Bk; try easy. injection Bk as _ -> -> _ _. destruct (is_enabled b0); auto. apply sum_ext. intros f Hf.
      unfold children. rewrite Fx. assert (fixture_on w i f = false) as ->; auto. unfold fixture_on. rewrite body_owner. assert (owner (graph_of w) f = Some k) as -> by (apply F3; unfold fixtures_of; cbn; now rewrite Eb0). now apply Nat.eqb_neq.
  Qed.
  Theorem destroy_body_all E w i : p \/ (#0 <? (#1 : T)) = true -> W w -> w_locked w = false -> w_bodies w i <> None -> sat p (destroy_body E i w) (fun w' => W w' /\ body_removed i w w' /\ counts_drop i w w').
  Proof.
    intros Z H L Li. eapply sat_mono; [apply (sat_destroy_body p oks E Z w i H L Li)|]. intros w' [H' R]. apply removed_raw in R; auto. refine (conj H' (conj R _)). now apply removed_counts.
  Qed.

  (** ** C26: each proxy *)
  Theorem mirrored_ok w : W w -> mirrored w.
  Proof.
    intros H. destruct (W_graph _ _ _ H) as (_ & (_ & _ & F3 & F4 & _) & _). destruct (W_fits _ _ _ H) as (PO & m & pw & k & B & (P1 & P2)). exists m, pw, k. refine (conj _ (conj _ _)).
    - clear - B. induction B; [now apply breach_new|eapply breach_create; eauto|eapply breach_destroy; eauto|eapply breach_move_kept; eauto|eapply breach_move; eauto|eapply breach_touch; eauto|now apply breach_shift|eapply breach_rebuild; eauto|eapply breach_update; eauto].
    - intros f k0 (i & Hf & b & Hb & En) Hk. rewrite body_owner in Hf. pose proof (proj2 (F3 i f) Hf) as Hin. unfold fixtures_of in Hin. cbn in Hin. rewrite Hb in Hin. cbn in Hin.
      pose proof (proxies_children p oks w i b f H Hb Hin) as Q. rewrite En in Q. unfold owner in Hf. cbn in Hf. destruct (w_fixtures w f) as [x|] eqn:Ex; [|easy]. unfold proxies_of in Q. rewrite Ex in Q.
      assert (Gf : g_f (graph_of w) f = Some (view_f x)) by (cbn; now rewrite Ex). destruct (PO f _ Gf) as [_ K]. destruct (K k0) as (id & Q'); [cbn; lia|]. cbn in Q'.
      rewrite nth_error_map in Q'. destruct (nth_error (f_proxies x) k0) as [q|] eqn:Eq; [|easy]. cbn in Q'. unfold view_p in Q'. injection Q' as Q1 Q2 Q3.
      assert (S : slot (g_f (graph_of w)) f k0 = Some id). { unfold slot. rewrite Gf. cbn [view_f v_count v_proxies]. destruct (Nat.ltb_spec k0 (f_proxy_count x)); [|lia]. rewrite nth_error_map, Eq. cbn. now rewrite Q3. }
      destruct (P1 _ _ _ S) as (box & fl & Em). exists id, box, fl. split; auto. exists x, q. auto.
    - intros id box u fl Em. destruct (P2 _ _ _ _ Em) as (f & k0 & -> & S). exists f, k0. split; auto. unfold slot in S. destruct (g_f (graph_of w) f) as [v|] eqn:Gf; [|easy]. pose proof Gf as Gf'. cbn in Gf. destruct (w_fixtures w f) as [x|] eqn:Ex; [|easy]. cbn in Gf. injection Gf as <-.
      cbn [view_f v_count v_proxies] in S. destruct (Nat.ltb_spec k0 (f_proxy_count x)) as [Lk|]; [|easy]. rewrite nth_error_map in S. destruct (nth_error (f_proxies x) k0) as [q|] eqn:Eq; [|easy]. cbn in S.
      assert (O : owner (graph_of w) f <> None) by (apply F4; congruence). destruct (owner (graph_of w) f) as [i|] eqn:Oi; [|easy]. pose proof (proj2 (F3 i f) Oi) as Hin. unfold fixtures_of in Hin. cbn in Hin. destruct (w_bodies w i) as [b|] eqn:Eb; [|easy]. cbn in Hin.
      pose proof (proxies_children p oks w i b f H Eb Hin) as Q. unfold proxies_of in Q. rewrite Ex in Q. destruct (is_enabled b) eqn:En; [|lia]. refine (conj _ (conj _ _)).
      + exists i. rewrite body_owner. split; auto. exists b. auto.
      + lia.
      + exists x, q. auto.
  Qed.

  (** ** C19, C24: one contact, one joint *)
  Theorem destroy_contact_all E w c : env_ok p E -> W w -> w_contacts w c <> None -> sat p (destroy_contact E c w) (fun w' => W w' /\ contact_removed c w w').
  Proof.
    intros EO H Hc. eapply sat_mono; [exact (sat_destroy p E w c (W_contacts _ _ _ H) (W_nums _ _ _ H) (W_ev _ _ _ H) Hc)|]. intros w' D. destruct (destroyed_W p oks w c w' H Hc D) as [H' _]. split; auto.
    destruct D as ((Gb & Gf & Gc & Gj & Gn & Gl & Gk) & _ & _ & _ & Cx). cbn in Gb, Gc, Gl, Gk. refine (conj _ (conj _ (conj _ (conj _ _)))).
    - specialize (Gc c). rewrite put_eq in Gc. now destruct (w_contacts w' c).
    - injection Gl as _ -> _. apply filter_ext. intros k. now rewrite Nat.eqb_sym.
    - injection Gk as _ -> _. destruct (W_graph _ _ _ H) as (_ & _ & ((_ & I & K & _) & _) & _). cbn in I, K. assert (In c (w_contact_list w)) as Q by (apply I; now destruct (w_contacts w c)). rewrite K. destruct (w_contact_list w); [easy|cbn; lia].
    - intros k. specialize (Gb k). destruct (w_bodies w' k) as [b'|], (w_bodies w k) as [b|]; cbn in Gb; try easy. cbn. f_equal. unfold view_b, on_contacts in Gb. cbn in Gb. injection Gb as _ _ _ _ _ ->. apply filter_ext. intros e. now rewrite Nat.eqb_sym.
    - intros k Hk. specialize (Cx k Hk). destruct (w_contacts w' k), (w_contacts w k); cbn in *; try easy. unfold view_cf, view_c in Cx. unfold pair_key. injection Cx as -> -> -> -> _. reflexivity.
  Qed.
  Theorem destroy_joint_all w j : W w -> w_locked w = false -> w_joints w j <> None -> sat p (destroy_joint j w) (fun w' => W w' /\ joint_removed j w w').
  Proof.
    intros H L Hj. eapply sat_mono; [exact (sat_destroy_joint p oks w j H L Hj)|]. intros w' (H' & (Gb & Gf & Gc & Gj & Gn & Gl & Gk) & _). split; auto. cbn in Gb, Gj, Gl, Gk. refine (conj _ (conj _ (conj _ (conj _ _)))).
    - specialize (Gj j). rewrite put_eq in Gj. now destruct (w_joints w' j).
    - injection Gl as _ _ ->. apply filter_ext. intros k. now rewrite Nat.eqb_sym.
    - injection Gk as _ _ ->. destruct (W_graph _ _ _ H) as (_ & _ & _ & ((_ & I & K & _) & _)). cbn in I, K. assert (In j (w_joint_list w)) as Q by (apply I; now destruct (w_joints w j)). rewrite K. destruct (w_joint_list w); [easy|cbn; lia].
    - intros k. specialize (Gb k). destruct (w_bodies w' k) as [b'|], (w_bodies w k) as [b|]; cbn in Gb; try easy. cbn. f_equal. unfold view_b, on_joints in Gb. cbn in Gb. injection Gb as _ _ _ _ -> _. apply filter_ext. intros e. now rewrite Nat.eqb_sym.
    - intros k Hk. specialize (Gj k). rewrite put_ne in Gj by auto. destruct (w_joints w' k), (w_joints w k); cbn in *; try easy. unfold view_j in Gj. injection Gj as -> -> ->. reflexivity.
  Qed.

  (** ** C18: what decides after a change *)
  Theorem set_type_contacts E w i ty b : light p (map (weights w) (b_fixtures b)) ty -> env_ok p E -> W w -> w_locked w = false -> w_bodies w i = Some b -> b_type b <> ty ->
    sat p (set_type E i ty w) (fun w' => W w' /\ (forall c, contact_on w' i c = false) /\
      (forall c, option_map pair_key (w_contacts w' c) = if contact_on w i c then None else option_map pair_key (w_contacts w c))).
  Proof.
    intros RM EO H L Hb Ht. eapply sat_mono; [exact (sat_set_type p oks E w i ty b H L Hb RM)|]. intros w' (H' & Q). split; auto. assert (btype_eqb (b_type b) ty = false) as Z by (destruct (b_type b), ty; easy). rewrite Z in Q.
    destruct Q as (G & _ & _ & Q). assert (Q' : forall c, option_map pair_key (w_contacts w' c) = if contact_on w i c then None else option_map pair_key (w_contacts w c)).
    { intros c. specialize (Q c). rewrite contact_on_items in Q by auto. destruct (contact_on w i c); [now destruct (w_contacts w' c)|]. destruct (w_contacts w' c), (w_contacts w c); cbn in *; try easy. unfold view_cf, view_c in Q. unfold pair_key. injection Q as -> -> -> -> _. reflexivity. }
    split; auto. intros c. rewrite <- (contact_on_items w' i c H'). apply not_true_iff_false. rewrite member_in. unfold items. rewrite in_map_iff. intros ([c' s o] & E' & He). cbn in E'. subst c'.
    destruct (W_graph _ _ _ H') as (_ & _ & (_ & (_ & I & _) & _) & _). apply I in He. destruct He as [He _]. rewrite (cbody_ext _ _ G), drops_cbody in He. destruct (existsb _ _) eqn:Ex; [easy|]. apply not_true_iff_false in Ex. apply Ex. apply existsb_eq. unfold items.
    assert (He' : cbody (graph_of w) c s = Some i). { rewrite <- He. unfold cbody. cbn. reflexivity. }
    assert (Lc : g_c (graph_of w) c <> None) by (intros K; unfold cbody in He'; now rewrite K in He'). destruct (W_graph _ _ _ H) as (_ & _ & (_ & (_ & I0 & D0) & _) & _). destruct (D0 c Lc) as (a & b0 & Ha & Hb0 & _).
    apply in_map_iff. destruct s; [exists (GEdge c true b0)|exists (GEdge c false a)]; (split; [reflexivity|]); apply I0; cbn [negb]; auto.
  Qed.
  Definition filtered_again E w (x0 : contact T) : Prop := cf_filter (c_flags x0) = true -> exists v, same_rules w v /\ e_filter E v (c_fa x0) (c_fb x0) = true.
  Theorem front_checks E w : env_ok p E -> W w -> classes_ok p w -> sat p (step_front E w) (fun w2 => W w2 /\ same_rules w w2 /\ forall c x, w_contacts w2 c = Some x ->
      cf_filter (c_flags x) = false /\
      (exists a b, bodies_of w2 x = Some (a, b) /\ a <> b /\ (dynamic w2 a \/ dynamic w2 b) /\ ~ joint_forbids w2 a b) /\
      ((exists x0, w_contacts w c = Some x0 /\ pair_key x0 = pair_key x /\ filtered_again E w x0) \/ (exists v, same_rules w v /\ may_meet E v x))).
  Proof.
    intros EO H CO. unfold step_front. apply sat_bind. apply (sat_mono _ (fun w1 => W w1 /\ stepped w w1 /\ admitted E w w1 /\ forall c x x0, w_contacts w1 c = Some x -> w_contacts w c = Some x0 -> x = x0)).
    { destruct (w_new_contacts w); [|apply sat_ok; refine (conj H (conj (stepped_refl w) (conj (admitted_refl E w) _))); congruence]. apply sat_bind. eapply sat_mono; [exact (sat_find p oks E w H CO)|]. intros w1 (H1 & G1 & A1). apply sat_ok.
      refine (conj _ (conj _ (conj _ _))).
      - eapply W_frame0; eauto.
      - apply stepped_trans with w1; [apply stepped_still; now apply still_grow|now apply stepped_frame].
      - exact A1.
      - intros c x x0 Q1 Q2. destruct G1 as (_ & _ & _ & _ & _ & G1 & _). cbn in Q1. rewrite G1 in Q1; [congruence|]. destruct (W_graph _ _ _ H) as (_ & _ & ((_ & _ & _ & K) & _) & _). destruct (Nat.lt_ge_cases c (w_next_contact w)) as [|K']; auto. specialize (K c K'). cbn in K. now rewrite Q2 in K. }
    intros w1 (H1 & S1 & A1 & X1). assert (H1' : W (set_w_locked true w1)) by (eapply W_frame0; eauto). eapply sat_mono; [exact (sat_collide p oks E EO _ H1')|]. intros w2 (H2 & S2 & C2).
    assert (S2' : stepped w w2) by (apply stepped_trans with w1; auto; apply stepped_trans with (set_w_locked true w1); [now apply stepped_frame|now apply stepped_still]).
    refine (conj H2 (conj (alike_rules _ _ (stepped_alike _ _ S2')) _)). intros c x Hx. destruct (C2 c x Hx) as (Fx & x1 & Hx1 & V1 & As). refine (conj Fx (conj _ _)).
    - destruct (contact_now p oks w2 c x H2 Hx) as (a & b & B & Hab & Dy & _ & _ & J). exists a, b. refine (conj B (conj Hab (conj Dy _))). intros K. apply J in K. congruence.
    - cbn in Hx1. destruct (A1 c x1 Hx1) as [(x0 & Hx0 & V0)|(v & a & b & Al & El)].
      + left. exists x0. assert (x1 = x0) as -> by (eapply X1; eauto). refine (conj Hx0 (conj _ _)); [unfold view_c in V1; unfold pair_key; congruence|]. intros Fl. destruct (As Fl) as (v & Sv & Ev). exists v. split; auto. apply alike_rules. apply (alike_trans _ _ _ (stepped_alike _ _ S1)). apply alike_still in Sv. exact Sv.
      + right. exists v. split; [now apply alike_rules|]. eapply eligible_meet. rewrite V1. exact El.
  Qed.

  (** ** C30 *)
  Theorem solve_parts E dt w : env_ok p E -> W w -> classes_ok p w -> sat p (solve E dt w) (fun w' => W w' /\ exists l, islands (w_log w') = rev l ++ islands (w_log w) /\ partition w l).
  Proof. intros EO H CO. eapply sat_mono; [exact (sat_solve p oks E EO w H dt CO)|]. intros w' (A & _ & _ & B). auto. Qed.

  (** ** C25: enabling and disabling *)
  Lemma contacts_off w i b : W w -> w_bodies w i = Some b -> is_enabled b = false -> b_contacts b = [].
  Proof.
    intros H Hb Hd. destruct (W_graph _ _ _ H) as (_ & _ & (_ & (_ & I & _) & _) & _). destruct (W_enabled _ _ _ H) as (_ & A2 & _). destruct (b_contacts b) as [|[c s o] r] eqn:Ec; auto. exfalso.
    assert (In (GEdge c s o) (contacts_of (graph_of w) i)) as K by (unfold contacts_of; cbn; rewrite Hb; cbn; rewrite Ec; now left). apply I in K. destruct K as [K _]. cbn in K.
    assert (g_b (graph_of w) i = Some (view_b b)) as Gb by (cbn; now rewrite Hb). specialize (A2 c s i (view_b b) K Gb). cbn in A2. congruence.
  Qed.
  Lemma refit_same (x : fixture T) : f_proxy_count x = 0%nat -> set_f_proxies (f_proxies x) (set_f_proxy_count 0 x) = x.
  Proof. destruct x. cbn. now intros ->. Qed.
  Theorem disable_again E w i b : W w -> w_locked w = false -> w_bodies w i = Some b -> is_enabled b = false -> exists w', set_enabled E i false w = Ok w' /\ same_world w w'.
  Proof.
    intros H L Hb Hd. unfold set_enabled. rewrite L. cbn [negb b2_assert bind]. unfold mod_body at 1, get_body at 1. rewrite Hb. cbn [unwrap bind].
    set (b1 := mod_flags (set_fl_enabled false) b). assert (b1 = b) as Q. { subst b1. unfold is_enabled in Hd. destruct b as [? [] ? ? []]. cbn in *. now subst. } rewrite Q. clear b1 Q.
    assert (S1 : same_world w (put_body i b w)). { refine (conj _ (conj _ (conj _ (conj _ eq_refl)))); auto. intros k. cbn. unfold put. destruct (Nat.eqb_spec k i); congruence. }
    unfold get_body at 1. cbn [w_bodies put_body set_w_bodies]. rewrite put_eq. cbn [unwrap bind].
    assert (Z : forall l v, same_world w v -> incl l (b_fixtures b) -> exists v', each destroy_proxies l v = Ok v' /\ same_world w v').
    { induction l as [|f l IH]; intros v Sv Il; [now exists v|]. cbn [each]. assert (In f (b_fixtures b)) as Hf by (apply Il; now left).
      assert (exists x, w_fixtures w f = Some x) as [x Hx]. { destruct (W_graph _ _ _ H) as (_ & (_ & _ & F3 & _) & _). assert (In f (fixtures_of (graph_of w) i)) as K by (unfold fixtures_of; cbn; now rewrite Hb). apply F3 in K. unfold owner in K. cbn in K. destruct (w_fixtures w f); [eauto|easy]. }
      pose proof (proxies_children p oks w i b f H Hb Hf) as K. unfold proxies_of in K. rewrite Hx, Hd in K. destruct Sv as (V1 & V2 & V3 & V4 & V5).
      unfold destroy_proxies at 1, get_fixture. rewrite V2, Hx. cbn [unwrap bind]. rewrite K. cbn [for_range Nat.sub for_from bind]. rewrite refit_same by auto. apply IH; [|intros k Hk; apply Il; now right].
      refine (conj V1 (conj _ (conj V3 (conj V4 _)))); [|unfold rest in *; cbn; exact V5]. intros k. cbn. unfold put. destruct (Nat.eqb_spec k f) as [->|]; auto. }
    destruct (Z (b_fixtures b) _ S1 (incl_refl _)) as (v & -> & Sv). cbn [bind]. unfold destroy_contacts. rewrite (contacts_off w i b) by auto. cbn [each bind]. unfold mod_body, get_body. destruct Sv as (V1 & V2 & V3 & V4 & V5). rewrite V1, Hb. cbn [unwrap bind]. eexists. split; [reflexivity|].
    refine (conj _ (conj V2 (conj V3 (conj V4 V5)))). intros k. cbn. unfold put. destruct (Nat.eqb_spec k i) as [->|]; auto. rewrite Hb. f_equal. pose proof (contacts_off w i b H Hb Hd) as K. destruct b. cbn in *. now subst.
  Qed.
  Theorem enable_on E w i b f r : W w -> w_locked w = false -> w_bodies w i = Some b -> is_enabled b = true -> b_fixtures b = f :: r -> (0 < children w f)%nat -> set_enabled E i true w = Panic.
  Proof.
    intros H L Hb Hd Ef Hc. unfold set_enabled. rewrite L. cbn [negb b2_assert bind]. unfold mod_body at 1, get_body at 1. rewrite Hb. cbn [unwrap bind]. set (b1 := mod_flags (set_fl_enabled true) b).
    unfold get_body at 1. cbn [w_bodies put_body set_w_bodies]. rewrite put_eq. cbn [unwrap bind]. assert (b_fixtures b1 = f :: r) as -> by (subst b1; now destruct b). cbn [each]. unfold create_proxies at 1, get_fixture. cbn [w_fixtures put_body set_w_bodies].
    assert (In f (b_fixtures b)) as Hf by (rewrite Ef; now left). pose proof (proxies_children p oks w i b f H Hb Hf) as K. unfold proxies_of in K. rewrite Hd in K. destruct (w_fixtures w f) as [x|] eqn:Ex; [|unfold children in Hc; rewrite Ex in Hc; lia]. cbn [unwrap bind].
    rewrite K. destruct (Nat.eqb_spec (children w f) 0); [lia|]. reflexivity.
  Qed.
  (* what does not depend on the proxies *)
  Definition fixture_key (x : fixture T) := (f_body x, f_shape x, f_filter x, f_sensor x, f_density x, f_friction x, f_restitution x, f_threshold x).
  Theorem enable_off E w i b : W w -> w_locked w = false -> w_bodies w i = Some b -> is_enabled b = false ->
    sat p (set_enabled E i true w) (fun w' => W w' /\ turned_on w' i /\ (forall f, fixture_on w i f = true -> proxies_of w' f = children w' f) /\ w_contacts w' = w_contacts w /\ w_log w' = w_log w /\ w_joints w' = w_joints w /\
      (forall f, fixture_on w i f = false -> w_fixtures w' f = w_fixtures w f) /\ (forall f, children w' f = children w f)).
  Proof.
    intros H L Hb Hd. eapply sat_mono; [exact (sat_set_enabled p oks E w i b true H L Hb (or_intror (or_intror Hd)))|]. cbv beta iota. intros w' (H' & G & K & O & _ & Ec & Ej & El). split; auto.
    assert (exists b', w_bodies w' i = Some b' /\ is_enabled b' = true /\ b_fixtures b' = b_fixtures b) as (b' & Hb' & He' & Ef').
    { specialize (G i). cbn in G. rewrite Nat.eqb_refl, Hb in G. cbn in G. destruct (w_bodies w' i) as [b'|]; [|easy]. exists b'. unfold view_b, with_enabled in G. cbn in G. split; auto. split; congruence. }
    refine (conj _ (conj _ (conj Ec (conj El (conj Ej (conj _ _)))))).
    - now exists b'.
    - intros f Hf. assert (In f (b_fixtures b)) as Kf. { destruct (W_graph _ _ _ H) as (_ & (_ & _ & F3 & _) & _). assert (In f (fixtures_of (graph_of w) i)) as K'. { apply F3. rewrite <- body_owner. unfold fixture_on in Hf. destruct (body_of w f); [|easy]. apply Nat.eqb_eq in Hf. congruence. } unfold fixtures_of in K'. cbn in K'. now rewrite Hb in K'. }
      rewrite (proxies_children p oks w' i b' f H' Hb'); [now rewrite He'|now rewrite Ef'].
    - intros f Hf. apply O. rewrite <- body_owner. unfold fixture_on in Hf. destruct (body_of w f) as [k|]; [|easy]. apply Nat.eqb_neq in Hf. congruence.
    - intros f. specialize (K f). unfold children. destruct (w_fixtures w' f), (w_fixtures w f); cbn in K; try easy. unfold fkey in K. injection K as _ -> _. reflexivity.
  Qed.
  Theorem disable_any E w i b : W w -> w_locked w = false -> w_bodies w i = Some b ->
    sat p (set_enabled E i false w) (fun w' => W w' /\ ~ turned_on w' i /\ (forall f, fixture_on w i f = true -> proxies_of w' f = 0%nat) /\
      (forall c, option_map pair_key (w_contacts w' c) = if contact_on w i c then None else option_map pair_key (w_contacts w c)) /\
      (forall f, fixture_on w i f = false -> w_fixtures w' f = w_fixtures w f) /\ (forall f, children w' f = children w f)).
  Proof.
    intros H L Hb. eapply sat_mono; [exact (sat_set_enabled p oks E w i b false H L Hb (or_intror (or_introl eq_refl)))|]. cbv beta iota. intros w' (H' & G & K & O & Q & Ej & _). split; auto.
    assert (exists b', w_bodies w' i = Some b' /\ is_enabled b' = false /\ b_fixtures b' = b_fixtures b) as (b' & Hb' & He' & Ef').
    { specialize (G i). pose proof (drops_b (fun v => (v_enabled v, v_fixtures v)) (items (contacts_of (graph_of w) i)) (fun f v => eq_refl) (at_b i (with_enabled false) (graph_of w)) i) as Y. rewrite <- G in Y. cbn in Y. rewrite Nat.eqb_refl, Hb in Y. cbn in Y. destruct (w_bodies w' i) as [b'|]; [|easy]. exists b'. cbn in Y. split; auto. split; congruence. }
    refine (conj _ (conj _ (conj _ (conj _ _)))).
    - intros (y & Y1 & Y2). congruence.
    - intros f Hf. assert (In f (b_fixtures b)) as Kf. { destruct (W_graph _ _ _ H) as (_ & (_ & _ & F3 & _) & _). assert (In f (fixtures_of (graph_of w) i)) as K'. { apply F3. rewrite <- body_owner. unfold fixture_on in Hf. destruct (body_of w f); [|easy]. apply Nat.eqb_eq in Hf. congruence. } unfold fixtures_of in K'. cbn in K'. now rewrite Hb in K'. }
      rewrite (proxies_children p oks w' i b' f H' Hb'); [now rewrite He'|now rewrite Ef'].
    - intros c. specialize (Q c). rewrite contact_on_items in Q by auto. destruct (contact_on w i c); [now destruct (w_contacts w' c)|]. destruct (w_contacts w' c), (w_contacts w c); cbn in *; try easy. unfold view_cf, view_c in Q. unfold pair_key. injection Q as -> -> -> -> _. reflexivity.
    - intros f Hf. apply O. rewrite <- body_owner. unfold fixture_on in Hf. destruct (body_of w f) as [k|]; [|easy]. apply Nat.eqb_neq in Hf. congruence.
    - intros f. specialize (K f). unfold children. destruct (w_fixtures w' f), (w_fixtures w f); cbn in K; try easy. unfold fkey in K. injection K as _ -> _. reflexivity.
  Qed.

  (** ** C59 *)
  Theorem refilter_free w f d : W w -> w_fixtures w f <> None -> (forall c x, w_contacts w c = Some x -> c_fa x <> f /\ c_fb x <> f) ->
    sat p (set_filter_data f d w) (fun w' => W w' /\ option_map (@f_filter T) (w_fixtures w' f) = Some d /\ (forall c, option_map pair_key (w_contacts w' c) = option_map pair_key (w_contacts w c))).
  Proof.
    intros H Hf Hc. eapply sat_mono; [apply (sat_set_filter_data p oks w f d H Hf)|].
    - right. intros c. unfold on_fix. destruct (w_contacts w c) as [x|] eqn:Ex; auto. destruct (Hc c x Ex) as [A B]. apply not_eq_sym, Nat.eqb_neq in A, B. now rewrite A, B.
    - intros w' (H' & _ & _ & (x & x' & _ & X2 & X3) & _ & X4). split; auto. split.
      + rewrite X2. cbn. f_equal. unfold view_fx in X3. cbn in X3. congruence.
      + intros c. specialize (X4 c). destruct (w_contacts w' c), (w_contacts w c); cbn in *; try easy. unfold view_cf, view_c in X4. unfold pair_key. injection X4 as -> -> -> -> _. reflexivity.
  Qed.
End After.

Section More.
  Local Open Scope num_scope.
  Context {T : Type} `{NT : Num T} `{TT : NumTrig T} `{VT : NumValid T}.
  Notation world := (world T).
  Implicit Types w : world.
  Variable oks : vec2 T -> Prop.
  Theorem refilter_panics w f d c x : W True oks w -> w_fixtures w f <> None -> w_contacts w c = Some x -> c_fa x = f \/ c_fb x = f -> set_filter_data f d w = Panic.
  Proof.
    intros H Hf Hx Hc. pose proof (sat_set_filter_data True oks w f d H Hf (or_introl I)) as K. destruct (set_filter_data f d w) as [w'| |]; [|reflexivity|easy]. exfalso. destruct K as (_ & _ & K & _). specialize (K c). unfold on_fix in K. rewrite Hx in K.
    apply orb_false_iff in K. destruct K as [A B]. apply Nat.eqb_neq in A, B. destruct Hc; congruence.
  Qed.

  (** ** C21: the impulses *)
  Lemma old_impulse_spec (id : cid) : forall n (ps : list (mpoint T)),
    (exists j q, (j < n)%nat /\ nth_error ps j = Some q /\ cid_eqb (mp_id q) id = true /\ (forall k r, (k < j)%nat -> nth_error ps k = Some r -> cid_eqb (mp_id r) id = false) /\ old_impulse id ps n = (mp_normal_impulse q, mp_tangent_impulse q)) \/
    ((forall j q, (j < n)%nat -> nth_error ps j = Some q -> cid_eqb (mp_id q) id = false) /\ old_impulse id ps n = (#0, #0)).
  Proof.
    induction n as [|n IH]; intros ps; [right; split; [intros; lia|now destruct ps]|]. destruct ps as [|q ps]; [right; split; [intros [|] ? ? Q; easy|reflexivity]|]. cbn [old_impulse]. destruct (cid_eqb (mp_id q) id) eqn:Eq.
    - left. exists 0%nat, q. split; [lia|]. repeat split; auto. intros; lia.
    - destruct (IH ps) as [(j & r & A & B & C & D & F)|(A & B)].
      + left. exists (S j), r. split; [lia|]. refine (conj B (conj C (conj _ F))). intros [|k] y Hk Ny; cbn in Ny; [congruence|]. apply (D k y); auto. lia.
      + right. split; auto. intros [|j] y Hj Ny; cbn in Ny; [congruence|]. apply (A j y); auto. lia.
  Qed.
  Lemma carry_kept (old m r : manifold T) : carry old m = Ok r -> impulses_kept old m r.
  Proof.
    unfold carry. set (step := fun i ps => _). intros Q. destruct (for_range 0 (mf_count m) step (mf_points m)) as [ps| |] eqn:Ef; cbn in Q; try easy. injection Q as <-. cbn.
    pose (fin := fun q : mpoint T => let '(n, t) := old_impulse (mp_id q) (mf_points old) (mf_count old) in MP (mp_local q) n t (mp_id q)).
    assert (Z : forall n lo l l', for_from n lo step l = Ok l' -> (forall k, (k < lo)%nat \/ (lo + n <= k)%nat -> nth_error l' k = nth_error l k) /\ (forall k, (lo <= k < lo + n)%nat -> exists q, nth_error l k = Some q /\ nth_error l' k = Some (fin q))).
    { induction n as [|n IH]; intros lo l l' R; cbn [for_from] in R; [injection R as <-; split; auto; intros; lia|]. unfold step in R at 1. unfold get in R. destruct (nth_error l lo) as [q|] eqn:Eq; [|easy]. cbn [bind] in R.
      assert (fin q = let '(n, t) := old_impulse (mp_id q) (mf_points old) (mf_count old) in MP (mp_local q) n t (mp_id q)) as Fq by reflexivity. destruct (old_impulse _ _ _) as [a t]. unfold set in R. destruct (Nat.ltb_spec lo (length l)) as [Lo|]; [|easy]. cbn [bind] in R. rewrite <- Fq in R. destruct (IH _ _ _ R) as [A B]. split.
      - intros k Hk. rewrite A by lia. apply nth_upd_ne. lia.
      - intros k Hk. destruct (Nat.eq_dec k lo) as [->|Ne].
        + exists q. split; auto. rewrite A by lia. now apply nth_upd_eq.
        + destruct (B k) as (q' & B1 & B2); [lia|]. exists q'. split; auto. rewrite <- B1. symmetry. apply nth_upd_ne. lia. }
    destruct (Z _ _ _ _ Ef) as [_ B]. refine (conj eq_refl (conj eq_refl (conj eq_refl (conj eq_refl _)))). intros k Hk. destruct (B k) as (q & B1 & B2); [lia|]. exists q, (fin q). refine (conj B1 (conj B2 _)). unfold fin.
    destruct (old_impulse_spec (mp_id q) (mf_count old) (mf_points old)) as [(j & o & J1 & J2 & J3 & J4 & ->)|[J ->]]; cbn; (split; [reflexivity|split; [reflexivity|]]).
    - left. exists o. split; [|auto]. now exists j.
    - right. auto.
  Qed.
End More.
