(** The calls of a world, except its step, and the pairs of the broad phase. *)
From Coq Require Import List ZArith Bool Arith Lia Reals Lra.
From Verif Require Import Base Num NumLaws RTac Math Collision Manifold Filter ShapeModel ListFacts ManifoldProofs TreeModel TreeSpec TreeHist BroadModel BroadSpec BroadProofs BroadFinal DynModel DynSpec DynProofs WorldModel WorldGraph WorldGops WorldLogic WorldPhys WorldInv WorldFix WorldClaims WorldCalls WorldHist WorldFinal WorldReach CoverSpec CoverLogic CoverOps CoverCalls CoverWorld PairSpec PairLogic PairOps PairStep.
Import ListNotations.
Implicit Types w : world.

(** ** proxies: what is known about the pairs stays *)
Definition B (K : nat -> nat -> nat -> nat -> Prop) w : Prop := proxies_ok (g_f (graph_of w)) /\ bcomp true (w_bp w) (slots w) K.
Lemma B_M X w : B (Kn X w) w <-> M true X w.
Proof. reflexivity. Qed.
Lemma B_frame K w0 w : B K w0 -> w_bp w = w_bp w0 -> same_f w0 w -> B K w.
Proof. intros [A C] Hb Hf. split; [intros f x; rewrite Hf; apply A|]. rewrite Hb. eapply bcomp_mono; [exact C|now apply slots_same|auto|auto]. Qed.
Lemma B_mono K (K' : nat -> nat -> nat -> nat -> Prop) w : B K w -> (forall f k g l, slots w f k <> None -> slots w g l <> None -> K f k g l -> K' f k g l) -> B K' w.
Proof. intros [A C] H. split; [exact A|]. eapply bcomp_mono; [exact C|reflexivity|auto|]. intros f k g l (i & j & ? & ? & S1 & S2 & _). apply H; congruence. Qed.
(* a fixture without proxies comes or goes *)
Lemma B_bare K w f o : B K w -> bare w f -> match o with Some x => f_proxy_count x = 0 | None => True end -> B K (set_w_fixtures (put (w_fixtures w) f o) w).
Proof.
  intros [A C] Hs Ho.
  assert (G : forall g, g_f (graph_of (set_w_fixtures (put (w_fixtures w) f o) w)) g = if Nat.eqb g f then option_map view_f o else g_f (graph_of w) g).
  { intros g. cbn. unfold put. now destruct (Nat.eqb g f). }
  assert (SL : forall g k, slots w g k = slots (set_w_fixtures (put (w_fixtures w) f o) w) g k).
  { intros g k. unfold slots. destruct (Nat.eq_dec g f) as [->|Ne].
    - rewrite Hs. unfold slot. rewrite G, Nat.eqb_refl. destruct o as [x|]; [|reflexivity]. cbn [option_map view_f v_count]. rewrite Ho. reflexivity.
    - unfold slot. rewrite G. apply Nat.eqb_neq in Ne. now rewrite Ne. }
  split; [|eapply bcomp_mono; [exact C|exact SL|auto|auto]].
  intros g y. rewrite G. destruct (Nat.eqb g f); [|apply A]. destruct o as [x|]; [|easy]. cbn [option_map]. intros Q. injection Q as <-. cbn [view_f v_count v_proxies]. rewrite Ho. split; [auto|lia].
Qed.
(* the rest of the world stays; the fixtures keep their body, shape, filter and number of proxies *)
Definition fkey (x : fixture R) := (f_body x, f_shape x, f_filter x, length (f_proxies x)).
Definition aside w0 w : Prop := w_bodies w = w_bodies w0 /\ w_contacts w = w_contacts w0 /\ w_joints w = w_joints w0 /\ forall f, option_map fkey (w_fixtures w f) = option_map fkey (w_fixtures w0 f).
Lemma aside_refl w : aside w w.
Proof. repeat split. Qed.
Lemma aside_trans w0 w1 w2 : aside w0 w1 -> aside w1 w2 -> aside w0 w2.
Proof. intros (A & B & C & D) (A' & B' & C' & D'). repeat split; congruence. Qed.
Lemma aside_fix w0 w f x : aside w0 w -> w_fixtures w f = Some x -> exists y, w_fixtures w0 f = Some y /\ f_body x = f_body y /\ f_shape x = f_shape y /\ f_filter x = f_filter y /\ length (f_proxies x) = length (f_proxies y).
Proof. intros (_ & _ & _ & D) H. specialize (D f). rewrite H in D. destruct (w_fixtures w0 f) as [y|]; [|easy]. cbn in D. unfold fkey in D. injection D as D1 D2 D3 D4. exists y. auto. Qed.
Definition counted w : Prop := forall f x, w_fixtures w f = Some x -> shape_child_count (f_shape x) = Ok (length (f_proxies x)).
Lemma aside_counted w0 w : aside w0 w -> counted w0 -> counted w.
Proof. intros H C f x Hx. destruct (aside_fix _ _ _ _ H Hx) as (y & Hy & _ & -> & _ & ->). eauto. Qed.
Lemma counted_W p oks w : WorldInv.W p oks w -> counted w.
Proof. intros H f x Hx. apply (W_shapes _ _ _ H f x Hx). Qed.
Lemma aside_may w0 w f g : aside w0 w -> may_touch w f g -> may_touch w0 f g.
Proof.
  intros H (x & y & a & b & Hx & Hy & Ha & Hb & Ne & Dy & Nj & Fi). destruct (aside_fix _ _ _ _ H Hx) as (x' & Hx' & X1 & _ & X2 & _). destruct (aside_fix _ _ _ _ H Hy) as (y' & Hy' & Y1 & _ & Y2 & _). destruct H as (A & _ & C & _).
  exists x', y', a, b. unfold dynamic, joint_forbids in *. rewrite A in Dy. rewrite C in Nj. rewrite <- X1, <- Y1, <- X2, <- Y2. auto 10.
Qed.
Lemma aside_Kn X w0 w f k g l : aside w0 w -> Kn X w0 f k g l -> Kn X w f k g l.
Proof. intros H [Q|[Q|Q]]; [now left|right; now left|]. right. right. intros P0. apply (aside_may _ _ _ _ H) in P0. destruct (Q P0) as (c & x & Hx & E). exists c, x. destruct H as (_ & -> & _). auto. Qed.
Lemma M_aside X w0 w : aside w0 w -> B (Kn X w0) w -> M true X w.
Proof. intros H Q. apply B_M. eapply B_mono; [exact Q|]. intros f k g l _ _. now apply aside_Kn. Qed.
Lemma aside_put w f x x' bp : w_fixtures w f = Some x -> fkey x' = fkey x -> aside w (put_fixture f x' (set_w_bp bp w)).
Proof. intros Hx E. split; [reflexivity|]. split; [reflexivity|]. split; [reflexivity|]. intros g. cbn. unfold put. destruct (Nat.eqb_spec g f) as [->|]; [|reflexivity]. rewrite Hx. cbn. now rewrite E. Qed.

Lemma B_create_proxies K w f xf : B K w -> counted w -> ok (create_proxies f xf w) (fun w' => B K w' /\ aside w w').
Proof.
  intros [A C] S. unfold create_proxies. apply ok_bind, ok_unwrap. intros x Hx. apply ok_bind, ok_assert. intros Z0. apply Nat.eqb_eq in Z0.
  pose proof (S f x Hx) as Sn. rewrite Sn. cbn [bind]. set (n := length (f_proxies x)) in *. set (vf := g_f (graph_of w)) in *.
  assert (Hf : vf f = Some (view_f x)) by (unfold vf; cbn; now rewrite Hx).
  set (sl := fun (ps : list (fproxy R)) (i f' k' : nat) => if Nat.eqb f' f then (if Nat.ltb k' i then match nth_error ps k' with Some q => fp_id q | None => None end else None) else slot vf f' k').
  apply ok_bind. apply (ok_mono _ (fun st => length (fst st) = n /\ (forall k, k < n -> exists id, option_map view_p (nth_error (fst st) k) = Some (Some f, k, Some id)) /\ bcomp true (snd st) (sl (fst st) n) K)).
  - apply (ok_for (fun i st => length (fst st) = n /\ (forall k, k < i -> exists id, option_map view_p (nth_error (fst st) k) = Some (Some f, k, Some id)) /\ bcomp true (snd st) (sl (fst st) i) K)).
    + refine (conj eq_refl (conj _ _)); [lia|]. eapply bcomp_mono; [exact C| |auto|auto]. intros f' k'. unfold sl. cbn [fst Nat.ltb Nat.leb]. destruct (Nat.eqb_spec f' f) as [->|]; auto. unfold slots, slot. fold vf. rewrite Hf. cbn [view_f v_count]. now rewrite Z0.
    + intros i [ps bp] Hi (Lp & Hp & BI). cbn [fst snd] in *. apply ok_bind, ok_any. intros pr. apply ok_bind, ok_any. intros box. apply ok_bind, ok_eq. intros [bp' id] Eb.
      apply ok_bind, ok_set. intros Li. apply ok_ok. cbn [fst snd]. rewrite upd_len. refine (conj Lp (conj _ _)).
      * intros k Hk. rewrite nth_upd by lia. destruct (Nat.eqb_spec k i) as [->|]; [eexists; reflexivity|]. apply Hp. lia.
      * assert (BI' : bcomp true bp' (sput (sl ps i) f i (Some id)) K). { eapply bcomp_create; [exact BI| |exact Eb]. unfold sl. now rewrite Nat.eqb_refl, Nat.ltb_irrefl. }
        eapply bcomp_mono; [exact BI'| |auto|auto]. intros f' k'. unfold sput, sl. destruct (Nat.eqb_spec f' f) as [->|]; [|reflexivity]. cbn [andb]. rewrite nth_upd by lia.
        destruct (Nat.eqb_spec k' i) as [->|]; [replace (Nat.ltb i (Datatypes.S i)) with true by (symmetry; apply Nat.ltb_lt; lia); reflexivity|].
        destruct (Nat.ltb_spec k' i); destruct (Nat.ltb_spec k' (Datatypes.S i)); try lia; reflexivity.
  - intros [ps bp] (Lp & Hp & BI). cbn [fst snd] in *. apply ok_ok. set (x' := set_f_proxies ps (set_f_proxy_count n x)).
    assert (G : forall i, g_f (graph_of (put_fixture f x' (set_w_bp bp w))) i = put vf f (Some (FView (f_body x) (f_shape x) n (map view_p ps))) i) by (intros i; rewrite vf_put; reflexivity).
    split; [|apply (aside_put w f x); [exact Hx|unfold fkey, x'; cbn; now rewrite Lp]]. split.
    + intros f' y. rewrite G. unfold put. destruct (Nat.eqb_spec f' f) as [->|]; [|apply A]. intros Q. injection Q as <-. cbn [v_count v_proxies]. rewrite map_length. split; [auto|]. intros k Hk. rewrite nth_error_map. now apply Hp.
    + cbn [w_bp put_fixture set_w_fixtures set_w_bp]. eapply bcomp_mono; [exact BI| |auto|auto].
      intros f' k'. unfold slots, sl, slot. rewrite G. unfold put. destruct (Nat.eqb_spec f' f) as [->|]; [|reflexivity]. cbn [v_count v_proxies]. rewrite nth_error_map.
      destruct (Nat.ltb k' n); auto. now destruct (nth_error ps k').
Qed.
Lemma B_destroy_proxies K w f : B K w -> ok (destroy_proxies f w) (fun w' => B K w' /\ aside w w' /\ forall g, g = f \/ bare w g -> bare w' g).
Proof.
  intros [A C]. unfold destroy_proxies. apply ok_bind, ok_unwrap. intros x Hx. set (vf := g_f (graph_of w)) in *.
  assert (Hf : vf f = Some (view_f x)) by (unfold vf; cbn; now rewrite Hx). set (n := f_proxy_count x) in *.
  destruct (A f _ Hf) as [Hn Hp]. cbn [view_f v_count v_proxies] in Hn, Hp. rewrite map_length in Hn. fold n in Hn, Hp.
  set (sl := fun (i f' k' : nat) => if Nat.eqb f' f && Nat.ltb k' i then None else slot vf f' k').
  apply ok_bind. apply (ok_mono _ (fun st => length (fst st) = length (f_proxies x) /\ bcomp true (snd st) (sl n) K)).
  - eapply ok_mono; [apply (ok_for (fun i st => length (fst st) = length (f_proxies x) /\ (forall k, i <= k -> nth_error (fst st) k = nth_error (f_proxies x) k) /\ bcomp true (snd st) (sl i) K))|].
    + refine (conj eq_refl (conj _ _)); [auto|]. eapply bcomp_mono; [exact C| |auto|auto]. intros f' k'. unfold sl. cbn [Nat.ltb Nat.leb]. now rewrite andb_false_r.
    + intros i [ps bp] Hi (Lp & Hk & BI). cbn [fst snd] in *. destruct (Hp i Hi) as (id & Hid). rewrite nth_error_map in Hid. apply ok_bind, ok_get. intros pr Hpr.
      rewrite Hk in Hpr by lia. rewrite Hpr in Hid. cbn in Hid. unfold view_p in Hid. injection Hid as Hi1 Hi2 Hi3. rewrite Hi3. cbn [unwrap bind].
      apply ok_bind, ok_eq. intros bp' Eb. apply ok_bind, ok_set. intros Li. apply ok_ok. cbn [fst snd]. rewrite upd_len. refine (conj Lp (conj _ _)).
      * intros k Hik. rewrite nth_upd by lia. destruct (Nat.eqb_spec k i); [lia|]. apply Hk. lia.
      * assert (BI' : bcomp true bp' (sput (sl i) f i None) K).
        { eapply bcomp_destroy; [exact BI| |exact Eb]. unfold sl. rewrite Nat.eqb_refl, Nat.ltb_irrefl. cbn [andb]. unfold slot. rewrite Hf. cbn [view_f v_count v_proxies]. fold n. apply Nat.ltb_lt in Hi. rewrite Hi, nth_error_map, Hpr. cbn. unfold view_p. now rewrite Hi3. }
        eapply bcomp_mono; [exact BI'| |auto|auto]. intros f' k'. unfold sput, sl. destruct (Nat.eqb_spec f' f) as [->|]; [|reflexivity]. cbn [andb].
        destruct (Nat.eqb_spec k' i) as [->|]; [replace (Nat.ltb i (Datatypes.S i)) with true by (symmetry; apply Nat.ltb_lt; lia); reflexivity|].
        destruct (Nat.ltb_spec k' i); destruct (Nat.ltb_spec k' (Datatypes.S i)); try lia; reflexivity.
    + cbn. tauto.
  - intros [ps bp] (Lp & BI). cbn [fst snd] in *. apply ok_ok. set (x' := set_f_proxies ps (set_f_proxy_count 0 x)).
    assert (G : forall i, g_f (graph_of (put_fixture f x' (set_w_bp bp w))) i = put vf f (Some (view_f x')) i) by (intros i; apply vf_put).
    split; [|split; [apply (aside_put w f x); [exact Hx|unfold fkey, x'; cbn; now rewrite Lp]|]]; [split|].
    + intros f' y. rewrite G. unfold put. destruct (Nat.eqb_spec f' f) as [->|]; [|apply A]. intros Q. injection Q as <-. cbn. split; [now left|]. lia.
    + cbn [w_bp put_fixture set_w_fixtures set_w_bp]. eapply bcomp_mono; [exact BI| |auto|auto].
      intros f' k'. unfold slots, sl, slot. rewrite G. unfold put. destruct (Nat.eqb_spec f' f) as [->|]; [|reflexivity]. cbn [andb]. change (v_count (view_f x')) with 0.
      change (Nat.ltb k' 0) with false. rewrite Hf. cbn [view_f v_count]. fold n. destruct (Nat.ltb k' n); reflexivity.
    + intros g Q k. unfold slot. rewrite G. unfold put. destruct (Nat.eqb_spec g f) as [->|Ne]; [reflexivity|]. destruct Q as [Q|Q]; [contradiction|]. specialize (Q k). unfold slot in Q. exact Q.
Qed.

(** ** bodies *)
Lemma kept_quiet (b b' : body R) : kept b' = kept b -> quiet b b'.
Proof. unfold kept. intros H. injection H. intros. split; assumption. Qed.
Lemma quiet_reset fs (b b' : body R) : reset_mass_data fs b = Ok b' -> quiet b b'.
Proof. intros H. apply kept_quiet. apply (reset_run fs b b' H). Qed.
Lemma quiet_mass d (b b' : body R) : set_mass_data d b = Ok b' -> quiet b b'.
Proof. intros H. apply kept_quiet. apply (set_mass_run d b b' H). Qed.
Lemma quiet_trans (a b c : body R) : quiet a b -> quiet b c -> quiet a c.
Proof. intros [A B0] [A' B']. split; congruence. Qed.
Lemma quiet_fixed flag fs (b b' : body R) : set_fixed_rotation flag fs b = Ok b' -> quiet b b'.
Proof. intros H. apply fixed_run in H as [->|H]; [apply quiet_refl|]. apply quiet_reset in H. destruct H as [A B0]. split; [exact A|exact B0]. Qed.
Lemma quiet_setter s (b : body R) : quiet b (body_setter s b).
Proof.
  destruct s; cbn [body_setter]; try (split; reflexivity).
  - apply quiet_awake.
  - unfold set_sleeping_allowed. cbv zeta. destruct f; [split; reflexivity|]. eapply quiet_trans; [|apply quiet_awake]. split; reflexivity.
  - unfold set_linear_velocity. destruct (is_static b); [apply quiet_refl|]. cbv zeta. assert (Q : quiet b (if nlt (nofZ 0) (b2_dot v v) then set_awake true b else b)) by (destruct (nlt _ _); [apply quiet_awake|apply quiet_refl]). destruct Q as [Q1 Q2]. split; [exact Q1|exact Q2].
  - unfold set_angular_velocity. destruct (is_static b); [apply quiet_refl|]. cbv zeta.
    match goal with |- quiet b (set_b_av _ ?x) => assert (Q : quiet b x) by (destruct (nlt _ _); [apply quiet_awake|apply quiet_refl]); destruct Q as [Q1 Q2] end. split; [exact Q1|exact Q2].
  - assert (W : quiet b (wake_if wake b)) by (unfold wake_if; destruct (_ && _); [apply quiet_awake|apply quiet_refl]). destruct W as [W1 W2].
    destruct q; cbn [apply_push]; unfold apply_force, apply_force_to_center, apply_torque, apply_linear_impulse, apply_linear_impulse_to_center, apply_angular_impulse; (destruct (is_dynamic b); cbn [negb]; [|apply quiet_refl]); cbv zeta; (destruct (is_awake _); (split; [exact W1|exact W2])).
Qed.
Lemma quiet_calm (b : body R) : quiet b (calm_body b).
Proof. unfold calm_body. destruct (quiet_awake true b) as [A B0]. split; [exact A|exact B0]. Qed.
Lemma kq_reset w0 w i : kq w0 w -> ok (reset_mass i w) (kq w0).
Proof. intros H. unfold reset_mass. apply ok_bind, ok_unwrap. intros b Hb. apply ok_bind, ok_any. intros fs. apply ok_bind, ok_eq. intros b' Eb. apply ok_ok. eapply kq_put; [exact H|exact Hb|eapply quiet_reset; eauto]. Qed.
(* contacts of the body [i] go *)
Definition on w (i : nat) (f : nat) : Prop := body_of w f = Some i.
Definition touches w i (p : key) : Prop := on w i (fst (fst p)) \/ on w i (fst (snd p)).
Lemma on_dec w i f : on w i f \/ ~ on w i f.
Proof. unfold on. destruct (body_of w f) as [j|]; [|right; discriminate]. destruct (Nat.eq_dec j i); [left; congruence|right; congruence]. Qed.
Lemma edge_touches p oks w i b e c : WorldInv.W p oks w -> w_bodies w i = Some b -> In e (b_contacts b) -> w_contacts w (ge_item e) = Some c -> touches w i (pair_key c).
Proof.
  intros H Hb He Hc. destruct (W_graph _ _ _ H) as (_ & _ & (_ & (_ & C & _) & _) & _). destruct e as [d s o]. specialize (C i d s o). unfold contacts_of in C. cbn in C. rewrite Hb in C. cbn in C. apply C in He as [He _].
  rewrite (cbody_raw w d c s Hc) in He. unfold touches, on, pair_key. cbn. destruct s; auto.
Qed.
Section Drop.
  Variable E : env R.
  Lemma kp_destroy_list (G : key -> Prop) w0 w l : kp false G w0 w -> (forall e c, In e l -> w_contacts w0 (ge_item e) = Some c -> G (pair_key c)) -> ok (each (fun e => destroy_contact E (ge_item e)) l w) (kp false G w0).
  Proof.
    intros H HG. apply (ok_each (kp false G w0)); [|exact H]. intros e s He Hs. apply kp_destroy_contact; [exact Hs|]. intros c Hc. destruct Hs as (_ & _ & _ & _ & _ & _ & Bk). destruct (Bk eq_refl _ c Hc) as (d & Hd & ->). eauto.
  Qed.
  Lemma kp_destroy_contacts (G : key -> Prop) w0 w i l : kp false G w0 w -> (forall e c, In e l -> w_contacts w0 (ge_item e) = Some c -> G (pair_key c)) -> ok (destroy_contacts E i l w) (kp false G w0).
  Proof. intros H HG. unfold destroy_contacts. apply ok_bind. eapply ok_mono; [apply kp_destroy_list; [exact H|exact HG]|]. intros w1 H1. apply kp_body; [exact H1|]. split; reflexivity. Qed.
End Drop.
(* losing contacts of the fixtures in [X] *)
Lemma M_lose X (G : key -> Prop) w0 w : M true X w0 -> kp false G w0 w -> (forall p, G p -> X (fst (fst p)) \/ X (fst (snd p))) -> (forall f, X f \/ ~ X f) -> M true X w.
Proof.
  intros H [A F] HG Dec. eapply M_same; [exact H|exact A|eapply fr_same_f; eauto|auto|]. intros f k g l _ [Q|[Q|Q]]; [now left|right; now left|].
  destruct (Dec f) as [|Nf]; [now left|]. destruct (Dec g) as [|Ng]; [right; now left|]. right. right. intros P0. eapply fr_has; [exact F|apply Q; now apply (fr_may _ _ _ _ _ _ F)| |]; intros K; apply HG in K; cbn in K; tauto.
Qed.
(* fixtures without proxies do not matter *)
Lemma M_strip X w : M true X w -> (forall f, X f -> bare w f) -> M true none w.
Proof.
  intros H K. apply B_M. eapply B_mono; [apply B_M; exact H|]. intros f k g l S1 S2 [Q|[Q|Q]]; [destruct S1; now apply K|destruct S2; now apply K|]. right. now right.
Qed.
Lemma links_W p oks w : WorldInv.W p oks w -> jlinks w /\ cfresh w.
Proof.
  intros H. destruct (W_graph _ _ _ H) as (_ & _ & ((_ & _ & _ & F) & _) & (_ & (_ & C & _) & _)). split.
  - intros i b [j s o] x Hb He Hx. specialize (C i j s o). unfold joints_of in C. cbn in C. rewrite Hb in C. cbn in C. apply C in He as [H1 H2]. unfold jbody in H1, H2. cbn in Hx. cbn in H1, H2. rewrite Hx in H1, H2. cbn in H1, H2. injection H1 as H1. injection H2 as H2. destruct s; cbn in H2; auto.
  - intros c Hc. specialize (F c Hc). cbn in F. now destruct (w_contacts w c).
Qed.

Section Calls.
  Variable E : env R.
  Hypothesis EA : answers E.
  Hypothesis EF : plain_filter E.
  Notation W := (WorldInv.W True any).
  Notation I := (M true none).

  Lemma M_new l g w : world_new l g = Ok w -> I w.
  Proof.
    unfold world_new. intros H. apply bind_ok in H as (bp & H0 & H). injection H as <-. split; [intros f x Q; discriminate Q|].
    exists pempty, no_pending, 0%Z. split; [now apply breach_new|]. split; [split; [intros f k id Q; discriminate Q|intros id box u fl Q; discriminate Q]|]. intros f k id bx fl g0 l0 id' bx' fl' Q; discriminate Q.
  Qed.
  Lemma M_quiet w w' : I w -> kq w w' -> I w'.
  Proof. apply M_kp. Qed.
  Lemma M_create_body d w w' i : W w -> I w -> create_body d w = Ok (w', i) -> I w'.
  Proof.
    intros HW H Q. unfold create_body in Q. apply bind_ok in Q as (_ & _ & Q). apply bind_ok in Q as (b & Hb & Q). injection Q as <- _. destruct (fresh_W _ _ _ HW) as [FB _].
    eapply M_same; [exact H|reflexivity|intros f; reflexivity|auto|]. intros f k g l _ [[]|[[]|Q]]. right. right. intros (x & y & a & c & Hx & Hy & Ha & Hc & Ne & Dy & Nj & Fi). apply Q. exists x, y, a, c. repeat (split; [solve [auto]|]). split; [|auto].
    assert (U : forall j z, w_fixtures w z <> None -> body_of w z = Some j -> dynamic (set_w_body_count (S (w_body_count w)) (set_w_body_list (w_next_body w :: w_body_list w) (set_w_next_body (S (w_next_body w)) (put_body (w_next_body w) b w)))) j -> dynamic w j).
    { intros j z Hz Hj (e & He & T). unfold body_of in Hj. destruct (w_fixtures w z) as [fz|] eqn:Ez; [|easy]. cbn in He. unfold put in He. destruct (Nat.eqb_spec j (w_next_body w)) as [->|]; [destruct (live_W _ _ _ _ _ _ HW Ez Hj FB)|]. exists e. auto. }
    cbn in Hx, Hy. destruct Dy as [Dy|Dy]; [left; apply (U a f)|right; apply (U c g)]; auto; unfold body_of; rewrite ?Hx, ?Hy; congruence.
  Qed.
  Lemma B_each_destroy K l w : B K w -> ok (each destroy_proxies l w) (fun w' => B K w' /\ aside w w' /\ forall g, In g l \/ bare w g -> bare w' g).
  Proof.
    revert w. induction l as [|f l IH]; intros w H; cbn [each]; [apply ok_ok; split; [exact H|]; split; [apply aside_refl|intros g [[]|Q]; exact Q]|].
    apply ok_bind. eapply ok_mono; [apply (B_destroy_proxies K); exact H|]. intros w1 (H1 & A1 & G1). eapply ok_mono; [apply IH; exact H1|]. intros w2 (H2 & A2 & G2). split; [exact H2|]. split; [eapply aside_trans; eauto|].
    intros g [[<-|Q]|Q]; apply G2; auto.
  Qed.
  Lemma M_destroy_body i w w' : wreach E w -> W w -> I w -> destroy_body E i w = Ok w' -> I w'.
  Proof.
    intros HR HW H Hr. destruct (r_destroy_body E EA w i w' HR Hr) as [(R1 & _ & _ & _ & RF & RC & RJ & RB) _].
    enough (HB : B (Kn none w) w').
    { apply B_M. eapply B_mono; [exact HB|]. intros f k g l Sf Sg [[]|[[]|Q]]. right. right. intros (x & y & a & b & Hx & Hy & Ha & Hb & Ne & Dy & Nj & Fi).
      assert (Fx : forall z u, w_fixtures w' z = Some u -> fixture_on w i z = false /\ w_fixtures w z = Some u). { intros z u Hz. rewrite RF in Hz. destruct (fixture_on w i z); [easy|auto]. }
      destruct (Fx f x Hx) as [Of Hx0]. destruct (Fx g y Hy) as [Og Hy0]. assert (Na : a <> i). { intros ->. unfold fixture_on, body_of in Of. rewrite Hx0, Ha, Nat.eqb_refl in Of. discriminate. } assert (Nb : b <> i). { intros ->. unfold fixture_on, body_of in Og. rewrite Hy0, Hb, Nat.eqb_refl in Og. discriminate. }
      assert (Dn : forall j, j <> i -> dynamic w' j -> dynamic w j). { intros j Nj' (u & Hu & T). specialize (RB j Nj'). rewrite Hu in RB. destruct (w_bodies w j) as [v|] eqn:Ev; [|easy]. exists v. split; [exact Ev|]. cbn in RB. congruence. }
      destruct Q as (c & u & Hu & Ku).
      - exists x, y, a, b. repeat (split; [solve [auto]|]). split; [destruct Dy; [left|right]; auto|]. split; [|exact Fi]. intros (j & z & Hz & Cz & Ez). apply Nj. specialize (RJ j). rewrite Hz in RJ. unfold joint_on in RJ. rewrite Hz in RJ.
        replace (Nat.eqb (j_a z) i || Nat.eqb (j_b z) i) with false in RJ by (symmetry; apply orb_false_iff; split; apply Nat.eqb_neq; intuition congruence). destruct (w_joints w' j) as [z'|] eqn:Ez'; [|easy]. cbn in RJ. injection RJ as J1 J2 J3. exists j, z'. split; [exact Ez'|]. rewrite J1, J2, J3. auto.
      - specialize (RC c). rewrite Hu in RC. unfold contact_on, on_body, WorldClaims.bodies_of in RC. rewrite Hu in RC.
        assert (Kc : exists u', w_contacts w' c = Some u' /\ pair_key u' = pair_key u).
        { assert (Bf : body_of w f = Some a) by (unfold body_of; now rewrite Hx0). assert (Bg : body_of w g = Some b) by (unfold body_of; now rewrite Hy0). apply Nat.eqb_neq in Na, Nb.
          destruct Ku as [Ku|Ku]; unfold pair_key in Ku; injection Ku as K1 K2 K3 K4; rewrite K1, K3, Bf, Bg, Na, Nb in RC; cbn in RC; destruct (w_contacts w' c) as [u'|]; try easy; exists u'; split; auto; cbn in RC; unfold pair_key in *; congruence. }
        destruct Kc as (u' & Hu' & Eu). exists c, u'. split; [exact Hu'|]. rewrite Eu. exact Ku. }
    revert w' Hr R1 RF RC RJ RB. intros w' Hr _ _ _ _ _. revert w' Hr. change (ok (destroy_body E i w) (B (Kn none w))). set (K := Kn none w). assert (HK : B K w) by (apply B_M; exact H). clearbody K.
    unfold destroy_body. apply ok_bind, ok_any. intros _. apply ok_bind, ok_any. intros _. apply ok_bind, ok_any. intros b0.
    apply ok_bind. eapply ok_mono; [apply (ok_each (frame w)); [|apply frame_refl]|].
    { intros e s _ Hs. cbv beta zeta. apply ok_destroy_joint. destruct (w_goodbye s); exact Hs. }
    intros w1 F1. apply ok_bind. eapply ok_mono; [apply (ok_body w); [exact F1|repeat split]|]. intros w2 F2. apply ok_bind, ok_any. intros b2. apply ok_bind. eapply ok_mono; [apply (ok_destroy_contacts E w); exact F2|].
    intros w3 F3. assert (J3 : B K w3) by (destruct F3 as (F3a & F3b & _); eapply B_frame; eauto). apply ok_bind, ok_any. intros b3. apply ok_bind.
    eapply ok_mono; [apply (ok_each (B K)); [|exact J3]|].
    { intros f s _ Hs. cbv beta zeta. set (s1 := if w_goodbye s then _ else _). assert (Hs1 : B K s1) by (unfold s1; destruct (w_goodbye s); exact Hs). clearbody s1.
      apply ok_bind. eapply ok_mono; [apply (B_destroy_proxies K); exact Hs1|]. intros s2 (J2 & _ & B2). apply ok_bind, ok_any. intros b. apply ok_bind, ok_any. intros n. apply ok_ok.
      apply (B_bare K (put_body i (set_b_fixture_count n b) s2) f None); [exact J2|apply (B2 f); now left|exact Logic.I]. }
    intros w4 J4. apply ok_bind, ok_any. intros l. apply ok_bind, ok_any. intros n. apply ok_ok. exact J4.
  Qed.
  Lemma M_create_fixture i d w w' f : W w -> I w -> create_fixture i d w = Ok (w', f) -> I w'.
  Proof.
    intros HW H. revert w' f. enough (Q : ok (create_fixture i d w) (fun p => I (fst p))) by (intros w' f Eq; exact (Q _ Eq)).
    unfold create_fixture. apply ok_bind, ok_any. intros _. apply ok_bind, ok_unwrap. intros b Hb. apply ok_bind, ok_eq. intros x Hx. cbv zeta.
    unfold fixture_new in Hx. apply bind_ok in Hx as (n & Hn & Hx). injection Hx as Hx. destruct (fresh_W _ _ _ HW) as [_ FF]. set (f := w_next_fixture w) in *.
    set (w1 := set_w_next_fixture (S f) (put_fixture f x w)). assert (C1 : counted w1).
    { intros g y. cbn. unfold put. destruct (Nat.eqb_spec g f) as [->|]; [|apply (counted_W _ _ _ HW)]. intros Q. injection Q as <-. rewrite <- Hx. cbn. now rewrite repeat_length. }
    assert (B0 : bare w f) by (intros k; unfold slot; cbn; now rewrite FF).
    assert (J1 : I w1).
    { apply B_M. apply (B_mono (Kn none w)).
      - assert (Q : B (Kn none w) (set_w_fixtures (put (w_fixtures w) f (Some x)) w)) by (apply B_bare; [apply B_M; exact H|exact B0|rewrite <- Hx; reflexivity]). exact Q.
      - intros g k h l Sg Sh [[]|[[]|Q]]. right. right. intros (u & v & a & c & Hu & Hv & Hau & Hcv & Rest).
        assert (Ng : forall z m, slots w1 z m <> None -> z <> f). { intros z m Hz ->. apply Hz. unfold slots, slot. cbn. unfold put. rewrite Nat.eqb_refl. rewrite <- Hx. reflexivity. }
        pose proof (Ng g k Sg) as N1. pose proof (Ng h l Sh) as N2. cbn in Hu, Hv. unfold put in Hu, Hv. apply Nat.eqb_neq in N1, N2. rewrite N1 in Hu. rewrite N2 in Hv. apply Q. exists u, v, a, c. auto. }
    clearbody w1. apply ok_bind. apply (ok_mono _ I).
    { destruct (is_enabled b); [|apply ok_ok; exact J1]. eapply ok_mono; [apply (B_create_proxies (Kn none w1)); [apply B_M; exact J1|exact C1]|]. intros w2 [J2 A2]. eapply M_aside; eauto. }
    intros w2 J2. apply ok_bind. eapply ok_mono; [apply (kp_body false lose_none w2 w2 i); [apply kp_refl|split; reflexivity]|]. intros w3 K3. apply ok_bind.
    apply (ok_mono _ (kq w2)). { destruct (nlt _ _); [apply kq_reset; exact K3|apply ok_ok; exact K3]. } intros w4 K4. apply ok_ok. change (I w4). eapply M_quiet; eauto.
  Qed.
  Lemma M_destroy_fixture i f w : W w -> I w -> ok (destroy_fixture E i f w) I.
  Proof.
    intros HW H. unfold destroy_fixture. apply ok_bind, ok_any. intros _. apply ok_bind, ok_unwrap. intros b Hb. apply ok_bind, ok_eq. intros o Ho. apply ok_bind, ok_assert. intros Eo. apply Nat.eqb_eq in Eo. subst o.
    apply fixture_body_ok in Ho as (x & Ef & Eo). apply ok_bind, ok_any. intros _. apply ok_bind, ok_any. intros l. cbv zeta. set (w1 := put_body i (set_b_fixtures l b) w).
    assert (K1 : kq w w1) by (eapply kq_put; [apply kp_refl|exact Hb|split; reflexivity]). assert (J1 : I w1) by (eapply M_quiet; eauto).
    set (X := fun g => g = f). set (G := fun p : key => X (fst (fst p)) \/ X (fst (snd p))).
    apply ok_bind. eapply ok_mono; [apply (ok_each (fun s => kp false G w1 s /\ frame w1 s)); [|split; [apply kp_refl|apply frame_refl]]|].
    { intros e s _ [Hs Fs]. cbv beta. apply ok_bind, ok_unwrap. intros c Hc. destruct (Nat.eqb f (c_fa c) || Nat.eqb f (c_fb c)) eqn:Ec; [|apply ok_ok; auto]. intros s' Es. split; [|exact (ok_destroy_contact E w1 s (ge_item e) Fs s' Es)].
      refine (kp_destroy_contact E false G w1 s (ge_item e) Hs _ s' Es). intros c' Hc'. replace c' with c by congruence. unfold G, X, pair_key. cbn. apply orb_true_iff in Ec as [Q|Q]; apply Nat.eqb_eq in Q; auto. }
    intros w2 [K2 F2]. assert (J2 : M true X w2). { eapply M_lose; [eapply M_weak; [exact J1|intros g []]|exact K2|auto|]. intros g. destruct (Nat.eq_dec g f); [left|right]; assumption. }
    apply ok_bind, ok_unwrap. intros b2 Hb2. apply ok_bind. apply (ok_mono _ (fun s => M true X s /\ bare s f)).
    { destruct (is_enabled b2) eqn:E2; [eapply ok_mono; [apply (B_destroy_proxies (Kn X w2)); apply B_M; exact J2|intros s (Q1 & Q2 & Q3); split; [eapply M_aside; eauto|apply Q3; now left]]|]. apply ok_ok. split; [exact J2|].
      destruct F2 as (_ & SF & _ & FB). destruct (FB i b2 Hb2) as (b1 & Hb1 & S1). cbn in Hb1. unfold put in Hb1. rewrite Nat.eqb_refl in Hb1. injection Hb1 as <-. apply still_fix in S1 as (_ & S1 & _). rewrite E2 in S1.
      apply (bare_same w1 w2 f SF). apply (bare_W _ _ w f x i b HW Ef Eo Hb). now symmetry. }
    intros w3 [J3 B3]. set (w4 := set_w_fixtures (put (w_fixtures w3) f None) w3).
    assert (J4 : I w4).
    { apply B_M. apply (B_mono (Kn X w3)); [apply B_bare; [apply B_M; exact J3|exact B3|exact Logic.I]|].
      assert (N : forall z m, slots w4 z m <> None -> z <> f). { intros z m Hz ->. apply Hz. unfold slots, slot. cbn. unfold put. now rewrite Nat.eqb_refl. }
      intros g k h m Sg Sh Q. pose proof (N g k Sg) as N1. pose proof (N h m Sh) as N2. destruct Q as [Q|[Q|Q]]; [contradiction|contradiction|]. right. right. intros (u & v & a & c & Hu & Hv & Rest). apply Nat.eqb_neq in N1, N2. cbn in Hu, Hv. unfold put in Hu, Hv. rewrite N1 in Hu. rewrite N2 in Hv. apply Q. exists u, v, a, c. auto. }
    clearbody w4. apply ok_bind, ok_unwrap. intros b4 Hb4. apply ok_bind, ok_any. intros n. eapply ok_mono; [apply (kq_reset w4)|intros s; apply M_quiet; exact J4]. eapply kq_put; [apply kp_refl|exact Hb4|split; reflexivity].
  Qed.

  (** joints *)
  Lemma flag_run a b w : ok (flag_contacts a b w) (fun w' => w_bp w' = w_bp w /\ w_fixtures w' = w_fixtures w /\ w_bodies w' = w_bodies w /\ w_joints w' = w_joints w /\ forall c, option_map pair_key (w_contacts w' c) = option_map pair_key (w_contacts w c)).
  Proof.
    unfold flag_contacts. apply ok_bind, ok_any. intros bb. apply (ok_each (fun w' => w_bp w' = w_bp w /\ w_fixtures w' = w_fixtures w /\ w_bodies w' = w_bodies w /\ w_joints w' = w_joints w /\ forall c, option_map pair_key (w_contacts w' c) = option_map pair_key (w_contacts w c))); [|repeat split].
    intros e s _ (S1 & S2 & S3 & S4 & S5). destruct (Nat.eqb _ _); [|apply ok_ok; auto 10]. unfold mod_contact. apply ok_bind, ok_unwrap. intros c Hc. apply ok_ok. repeat split; auto. intros d. cbn. unfold put. destruct (Nat.eqb_spec d (ge_item e)) as [->|]; [|apply S5]. rewrite <- S5, Hc. reflexivity.
  Qed.
  (* bodies keep their type, contacts their children; joints that forbid contacts stay *)
  Definition bound w0 w : Prop := w_bp w = w_bp w0 /\ w_fixtures w = w_fixtures w0 /\ (forall i, option_map b_type (w_bodies w i) = option_map b_type (w_bodies w0 i)) /\
    (forall c, option_map pair_key (w_contacts w c) = option_map pair_key (w_contacts w0 c)) /\ (forall j x, w_joints w0 j = Some x -> j_collide x = true \/ w_joints w j = Some x).
  Lemma M_bound w0 w : I w0 -> bound w0 w -> I w.
  Proof.
    intros H (A & F & T & C & J). eapply M_same; [exact H|exact A|intros f; cbn; now rewrite F|auto|]. intros f k g l _ [[]|[[]|Q]]. right. right. intros (x & y & a & b & Hx & Hy & Ha & Hb & Ne & Dy & Nj & Fi).
    destruct Q as (c & u & Hu & Ku).
    - rewrite F in Hx, Hy. exists x, y, a, b. repeat (split; [solve [auto]|]).
      assert (D : forall i, dynamic w i -> dynamic w0 i). { intros i (e & He & Te). specialize (T i). rewrite He in T. destruct (w_bodies w0 i) as [e'|] eqn:Ee; [|easy]. exists e'. split; [exact Ee|]. cbn in T. congruence. }
      split; [destruct Dy; auto|]. split; [|exact Fi]. intros (j & z & Hz & Cz & Ez). apply Nj. exists j, z. split; [|auto]. destruct (J j z Hz) as [Q|Q]; [congruence|exact Q].
    - specialize (C c). rewrite Hu in C. destruct (w_contacts w c) as [u'|] eqn:Eu; [|easy]. exists c, u'. split; [exact Eu|]. cbn in C. injection C as C1 C2 C3 C4. unfold pair_key in *. now rewrite C1, C2, C3, C4.
  Qed.
  Lemma bound_refl w : bound w w.
  Proof. repeat split; auto. Qed.
  Lemma bound_body w0 w i b b' : bound w0 w -> w_bodies w i = Some b -> b_type b' = b_type b -> bound w0 (put_body i b' w).
  Proof. intros (A & F & T & C & J) Hb E0. split; [exact A|]. split; [exact F|]. split; [|split; [exact C|exact J]]. intros j. cbn. unfold put. destruct (Nat.eqb_spec j i) as [->|]; [|apply T]. rewrite <- T, Hb. cbn. congruence. Qed.
  Lemma bound_flag w0 w a b : bound w0 w -> ok (flag_contacts a b w) (bound w0).
  Proof. intros (A & F & T & C & J). eapply ok_mono; [apply flag_run|]. intros w' (S1 & S2 & S3 & S4 & S5). split; [congruence|]. split; [congruence|]. split; [now rewrite S3|]. split; [intros c; now rewrite S5|]. now rewrite S4. Qed.
  Lemma M_create_joint a b cc w w' j : W w -> I w -> create_joint a b cc w = Ok (w', j) -> I w'.
  Proof.
    intros HW H. revert w' j. enough (Q : ok (create_joint a b cc w) (fun p => I (fst p))) by (intros w' f Eq; exact (Q _ Eq)).
    unfold create_joint. apply ok_bind, ok_any. intros _. apply ok_bind, ok_any. intros _. cbv zeta. set (i := w_next_joint w). set (w1 := set_w_joint_count _ _).
    assert (B1 : bound w w1).
    { repeat split; auto. intros j x Hj. right. cbn. unfold put. destruct (Nat.eqb_spec j i) as [->|]; [|exact Hj]. destruct (W_graph _ _ _ HW) as (_ & _ & _ & ((_ & _ & _ & F) & _)). specialize (F i (le_n _)). cbn in F. now rewrite Hj in F. }
    clearbody w1. unfold mod_body. apply ok_bind, ok_bind, ok_unwrap. intros xa Ha. apply ok_ok. set (w2 := put_body a _ w1). assert (B2 : bound w w2) by (eapply bound_body; [exact B1|exact Ha|reflexivity]). clearbody w2.
    apply ok_bind, ok_bind, ok_unwrap. intros xb Hb. apply ok_ok. set (w3 := put_body b _ w2). assert (B3 : bound w w3) by (eapply bound_body; [exact B2|exact Hb|reflexivity]). clearbody w3.
    apply ok_bind. apply (ok_mono _ (bound w)). { destruct cc; [apply ok_ok; exact B3|apply bound_flag; exact B3]. } intros w4 B4. apply ok_ok. cbn [fst]. eapply M_bound; eauto.
  Qed.
  Lemma type_awake f (b : body R) : b_type (set_awake f b) = b_type b.
  Proof. apply (quiet_awake f b). Qed.
  Lemma M_destroy_joint j w : (forall x, w_joints w j = Some x -> j_collide x = true) -> I w -> ok (destroy_joint j w) I.
  Proof.
    intros Hj H. unfold destroy_joint. apply ok_bind, ok_any. intros _. apply ok_bind, ok_unwrap. intros x Hx. specialize (Hj x Hx). apply ok_bind, ok_any. intros l. cbv zeta. set (w1 := set_w_joint_list l w). assert (B1 : bound w w1) by exact (bound_refl w). clearbody w1.
    unfold mod_body. apply ok_bind, ok_bind, ok_unwrap. intros xa Ha. apply ok_ok. set (w2 := put_body _ _ w1). assert (B2 : bound w w2) by (eapply bound_body; [exact B1|exact Ha|apply type_awake]). clearbody w2.
    apply ok_bind, ok_bind, ok_unwrap. intros xb Hb. apply ok_ok. set (w3 := put_body _ _ w2). assert (B3 : bound w w3) by (eapply bound_body; [exact B2|exact Hb|apply type_awake]). clearbody w3.
    apply ok_bind, ok_unwrap. intros ya Hya. apply ok_bind, ok_any. intros la. set (w4 := put_body _ _ w3). assert (B4 : bound w w4) by (eapply bound_body; [exact B3|exact Hya|reflexivity]). clearbody w4.
    apply ok_bind, ok_unwrap. intros yb Hyb. apply ok_bind, ok_any. intros lb. set (w5 := put_body _ _ w4). assert (B5 : bound w w5) by (eapply bound_body; [exact B4|exact Hyb|reflexivity]). clearbody w5.
    apply ok_bind, ok_any. intros _. apply ok_bind, ok_any. intros n. rewrite Hj. cbn [bind]. apply ok_ok. eapply M_bound; [exact H|]. destruct B5 as (A & F & T & C & J). split; [exact A|]. split; [exact F|]. split; [exact T|]. split; [exact C|].
    intros k z Hz. cbn. unfold put. destruct (Nat.eqb_spec k j) as [->|]; [left; congruence|apply (J k z Hz)].
  Qed.

  (** bodies *)
  Lemma M_each_touch X l : forall w, M true X w -> ok (each touch_proxies l w) (M true (fun f => X f /\ ~ In f l)).
  Proof.
    revert X. induction l as [|f l IH]; intros X w H; cbn [each]; [apply ok_ok; eapply M_weak; [exact H|intros f Q; split; auto]|].
    apply ok_bind. eapply ok_mono; [apply (M_touch X); exact H|]. intros w1 [H1 _]. eapply ok_mono; [apply IH; exact H1|]. intros w2 H2. eapply M_weak; [exact H2|]. intros g [[Q1 Q2] Q3]. split; [exact Q1|]. intros [Q|Q]; [congruence|contradiction].
  Qed.
  Lemma M_set_type i ty w : W w -> I w -> ok (set_type E i ty w) I.
  Proof.
    intros HW H. unfold set_type. apply ok_bind, ok_any. intros _. apply ok_bind, ok_unwrap. intros b Hb. destruct (btype_eqb (b_type b) ty); [now apply ok_ok|].
    apply ok_bind, ok_any. intros fs. apply ok_bind, ok_eq. intros b' Eb. cbv zeta. set (w1 := put_body i b' w). destruct (own_W _ _ _ HW) as [O _].
    set (X := on w i). assert (J1 : M true X w1).
    { eapply M_same; [exact H|reflexivity|intros f; reflexivity|auto|]. intros f k g l _ [[]|[[]|Q]]. destruct (on_dec w i f) as [|Nf]; [now left|]. destruct (on_dec w i g) as [|Ng]; [right; now left|]. right. right.
      intros (x & y & a & c & Hx & Hy & Ha & Hc & Ne & Dy & Nj & Fi). apply Q. exists x, y, a, c. repeat (split; [solve [auto]|]). split; [|auto].
      assert (D : forall j, j <> i -> dynamic w1 j -> dynamic w j). { intros j Nj' (e & He & Te). cbn in He. unfold put in He. apply Nat.eqb_neq in Nj'. rewrite Nj' in He. exists e. auto. }
      cbn in Hx, Hy. unfold on, body_of in Nf, Ng. rewrite Hx in Nf. rewrite Hy in Ng. destruct Dy; [left|right]; apply D; congruence. }
    assert (Ec : w_contacts w1 = w_contacts w) by reflexivity. clearbody w1.
    apply ok_bind. apply (ok_mono _ (fun s => M true X s /\ fr false lose_none w1 s)). { destruct (is_static b'); [now apply M_sync|apply ok_ok; split; [exact J1|apply fr_refl]]. }
    intros w2 [J2 F2]. apply ok_bind. eapply ok_mono; [apply (kp_body false (touches w i) w2 w2 i); [apply kp_refl|intros; apply quiet_calm]|]. intros w3 K3. apply ok_bind. eapply ok_mono; [apply (kp_destroy_contacts E (touches w i) w2); [exact K3|]|].
    { intros e c He Hc. destruct F2 as (_ & _ & _ & _ & _ & Bk). destruct (Bk eq_refl _ _ Hc) as (d & Hd & ->). rewrite Ec in Hd. eapply edge_touches; eauto. }
    intros w4 K4. assert (J4 : M true X w4) by (eapply M_lose; [exact J2|exact K4|auto|apply on_dec]). eapply ok_mono; [apply M_each_touch; exact J4|]. intros w5 J5. eapply M_weak; [exact J5|]. intros f [Q1 Q2]. apply Q2.
    unfold X, on, body_of in Q1. destruct (w_fixtures w f) as [x|] eqn:Ex; [|easy]. now apply (O f x i b Ex Hb).
  Qed.
  Lemma M_set_enabled i flag w : W w -> I w -> ok (set_enabled E i flag w) I.
  Proof.
    intros HW H. unfold set_enabled. apply ok_bind, ok_any. intros _. apply ok_bind. unfold mod_body at 1. apply ok_bind, ok_unwrap. intros b Hb. apply ok_ok. pose proof (counted_W _ _ _ HW) as C0.
    set (b1 := mod_flags (set_fl_enabled flag) b). set (w1 := put_body i b1 w). assert (K1 : kq w w1) by (eapply kq_put; [apply kp_refl|exact Hb|split; reflexivity]). pose proof (M_quiet _ _ H K1) as J1.
    apply ok_bind, ok_unwrap. intros c Hc. assert (c = b1) as -> by (cbn in Hc; unfold put in Hc; rewrite Nat.eqb_refl in Hc; congruence). destruct flag.
    - apply ok_bind. eapply ok_mono; [apply (ok_each (fun s => I s /\ counted s))|].
      + intros f s Hf (Js & Cs). eapply ok_mono; [apply (B_create_proxies (Kn none s)); [apply B_M; exact Js|exact Cs]|]. intros s' [Q1 Q2]. split; [eapply M_aside; eauto|eapply aside_counted; eauto].
      + split; [exact J1|exact C0].
      + intros s (Js & _). apply ok_ok. exact Js.
    - apply ok_bind. eapply ok_mono; [apply (B_each_destroy (Kn none w1)); apply B_M; exact J1|]. intros s (Q1 & Q2 & Q3). pose proof (M_aside _ _ _ Q2 Q1) as Js. destruct (own_W _ _ _ HW) as [O _].
      eapply ok_mono; [apply (kp_destroy_contacts E (touches w i) s); [apply kp_refl|]|].
      { intros e d He Hd. destruct Q2 as (_ & Q2 & _). rewrite Q2 in Hd. eapply edge_touches; eauto. }
      intros s' K'. apply (M_strip (on w i)).
      + eapply M_lose; [eapply M_weak; [exact Js|intros f []]|exact K'|auto|apply on_dec].
      + intros f Qf. eapply bare_same; [eapply fr_same_f; apply K'|]. apply Q3. left. unfold on, body_of in Qf. destruct (w_fixtures w f) as [x|] eqn:Ex; [|easy]. now apply (O f x i b Ex Hb).
  Qed.
  Lemma M_set_transform i p a w : I w -> ok (set_transform i p a w) I.
  Proof.
    intros H. unfold set_transform. apply ok_bind, ok_any. intros _. apply ok_bind, ok_unwrap. intros b Hb. cbv zeta. apply ok_bind.
    eapply ok_mono; [apply (M_sync_list none)|]; [|intros s [Q _]; apply ok_ok; exact Q]. eapply M_quiet; [exact H|]. eapply kq_put; [apply kp_refl|exact Hb|split; reflexivity].
  Qed.
  Lemma M_refilter f X w : (exists x i, w_fixtures w f = Some x /\ f_body x = Some i) -> M true X w -> ok (refilter f w) (M true (fun g => X g /\ g <> f)).
  Proof.
    intros (x0 & i & Hx0 & Hi) H. unfold refilter. apply ok_bind, ok_unwrap. intros x Hx. replace x with x0 in * by congruence. rewrite Hi. apply ok_bind, ok_any. intros b. apply ok_bind, ok_any. intros _.
    eapply ok_mono; [apply (M_touch X); exact H|]. intros s Q. apply Q.
  Qed.
  Lemma M_fixture w f x x' : I w -> w_fixtures w f = Some x -> vff x' = vff x -> I (put_fixture f x' w).
  Proof. intros H Hx V. eapply M_quiet; [exact H|]. split; [reflexivity|]. eapply fr_fixture; [apply fr_refl|exact Hx|exact V]. Qed.
  Lemma M_run c w w' : wreach E w -> W w -> I w -> frank w c -> wrun E c w = Ok w' -> I w'.
  Proof.
    intros HR HW H Ht. destruct c; cbn [wrun frank] in *.
    - intros Q. apply bind_ok in Q as ([w1 i] & Q & K). injection K as <-. eapply M_create_body; eauto.
    - apply M_destroy_body; assumption.
    - intros Q. apply bind_ok in Q as ([w1 j] & Q & K). injection K as <-. eapply M_create_fixture; eauto.
    - exact (M_destroy_fixture i f w HW H w').
    - intros Q. apply bind_ok in Q as ([w1 j] & Q & K). injection K as <-. eapply M_create_joint; eauto.
    - exact (M_destroy_joint j w Ht H w').
    - exact (M_set_type i ty w HW H w').
    - exact (M_set_enabled i f w HW H w').
    - exact (M_set_transform i pos angle w H w').
    - intros Q. exact (M_quiet _ _ H (kp_body false lose_none w w i (body_setter s) (kp_refl _ _ w) (quiet_setter s) _ Q)).
    - revert w'. change (ok (b2_assert (negb (w_locked w)) ;;; b <- get_body w i ;; b <- set_mass_data d b ;; Ok (put_body i b w)) I).
      apply ok_bind, ok_any. intros _. apply ok_bind, ok_unwrap. intros b Hb. apply ok_bind, ok_eq. intros b' Eb. apply ok_ok. eapply M_quiet; [exact H|]. eapply kq_put; [apply kp_refl|exact Hb|eapply quiet_mass; eauto].
    - intros Q. exact (M_quiet _ _ H (kq_reset w w i (kp_refl _ _ w) _ Q)).
    - revert w'. change (ok (b <- get_body w i ;; fs <- get_all (get_fixture w) (b_fixtures b) ;; b <- set_fixed_rotation f fs b ;; Ok (put_body i b w)) I).
      apply ok_bind, ok_unwrap. intros b Hb. apply ok_bind, ok_any. intros fs. apply ok_bind, ok_eq. intros b' Eb. apply ok_ok. eapply M_quiet; [exact H|]. eapply kq_put; [apply kp_refl|exact Hb|eapply quiet_fixed; eauto].
    - revert w'. change (ok (set_filter_data f d w) I). unfold set_filter_data. apply ok_bind, ok_unwrap. intros x Hx. set (w1 := put_fixture f (set_f_filter d x) w).
      assert (J1 : M true (fun g => g = f) w1).
      { eapply M_same; [exact H|reflexivity| |auto|].
        - intros g. cbn. unfold put. destruct (Nat.eqb_spec g f) as [->|]; [|reflexivity]. now rewrite Hx.
        - intros g k h l _ [[]|[[]|Q]]. destruct (Nat.eq_dec g f) as [|N1]; [now left|]. destruct (Nat.eq_dec h f) as [|N2]; [right; now left|]. right. right. intros (u & v & a & c & Hu & Hv & Rest). apply Nat.eqb_neq in N1, N2. cbn in Hu, Hv. unfold put in Hu, Hv. rewrite N1 in Hu. rewrite N2 in Hv. apply Q. exists u, v, a, c. auto. }
      eapply ok_mono; [apply (M_refilter f (fun g => g = f)); [|exact J1]|].
      + destruct (W_graph _ _ _ HW) as (_ & (_ & _ & _ & FO & _) & _). specialize (FO f). unfold owner in FO. cbn in FO. rewrite Hx in FO. cbn in FO. destruct (f_body x) as [i|] eqn:Ei; [|now destruct FO]. exists (set_f_filter d x), i. split; [cbn; unfold put; now rewrite Nat.eqb_refl|exact Ei].
      + intros s Q. eapply M_weak; [exact Q|]. intros g [Q1 Q2]. contradiction.
    - revert w'. change (ok (refilter f w) I). unfold refilter. apply ok_bind, ok_any. intros x. destruct (f_body x); [|now apply ok_ok]. apply ok_bind, ok_any. intros b. apply ok_bind, ok_any. intros _.
      eapply ok_mono; [apply (M_touch none); exact H|]. intros s [Q _]. eapply M_weak; [exact Q|]. intros g [Q1 _]. exact Q1.
    - revert w'. change (ok (set_sensor f s w) I). unfold set_sensor. apply ok_bind, ok_unwrap. intros x Hx. destruct (Bool.eqb s (f_sensor x)); [now apply ok_ok|]. apply ok_bind, ok_any. intros i.
      apply ok_bind. unfold mod_body. apply ok_bind, ok_unwrap. intros b Hb. apply ok_ok. apply ok_ok. eapply M_fixture; [|exact Hx|reflexivity]. eapply M_quiet; [exact H|]. eapply kq_put; [apply kp_refl|exact Hb|apply quiet_awake].
    - revert w'. change (ok (x <- get_fixture w f ;; Ok (put_fixture f (fixture_setter s x) w)) I). apply ok_bind, ok_unwrap. intros x Hx. apply ok_ok. eapply M_fixture; [exact H|exact Hx|]. now destruct s.
    - intros Q. refine (M_quiet _ _ H (kp_contact false lose_none w w c (contact_setter s) (kp_refl _ _ w) _ _ Q)). now destruct s.
    - intros Q. apply (M_quiet _ _ H). revert w' Q. change (ok (set_allow_sleeping f w) (kq w)). unfold set_allow_sleeping. destruct (Bool.eqb _ _); [apply ok_ok, kp_refl|]. cbv zeta. destruct f; [apply ok_ok; exact (kp_refl _ _ w)|].
      apply (kp_each_body false lose_none w (fun _ => set_awake true)); [exact (kp_refl _ _ w)|intros; apply quiet_awake].
    - intros Q. injection Q as <-. exact H.
    - intros Q. injection Q as <-. exact H.
    - intros Q. injection Q as <-. exact H.
    - intros Q. apply (M_quiet _ _ H). refine (kp_each_body false lose_none w (fun _ b => set_b_torque (#0)%num (set_b_force vzero b)) _ w (kp_refl _ _ w) _ _ Q). split; reflexivity.
    - revert w'. change (ok (world_shift o w) I). unfold world_shift. apply ok_bind, ok_any. intros _. apply ok_bind. eapply ok_mono; [apply (kp_each_body false lose_none w (fun _ => shift_body o)); [apply kp_refl|split; reflexivity]|].
      intros s K. apply ok_ok. pose proof (M_quiet _ _ H K) as [A C]. split; [exact A|]. cbn [w_bp set_w_bp]. apply (bcomp_shift true (w_bp s) (slots s) (Kn none s) o C).
    - intros Q. assert (P0 : P true w) by (split; [exact H|apply (links_W _ _ _ HW)]). apply (P_step E EF dt w P0 w' Q).
  Qed.
  Lemma preach_wreach w : preach E w -> wreach E w.
  Proof. induction 1; [eapply wreach_new; eauto|eapply wreach_call; eauto]. Qed.
  Lemma preach_M w : preach E w -> I w.
  Proof. induction 1 as [l g w H|w c w' H IH Ht Hr]; [eapply M_new; eauto|]. pose proof (preach_wreach w H) as HR. eapply M_run; eauto. now apply (reach_W E EA). Qed.
  Lemma preach_P w : preach E w -> P true w.
  Proof. intros H. split; [now apply preach_M|]. eapply links_W. apply (reach_W E EA). now apply preach_wreach. Qed.

  (** ** what it says *)
  Lemma box_slot w f k a : W w -> fat_box w f k a -> exists id, slots w f k = Some id /\ proxy_is w f k id /\ get_fat_aabb (bp_tree (w_bp w)) id = Ok a.
  Proof.
    intros HW ((i & Hi & b & Hb & En) & Hk & id & (x & q & Hx & Hq & Hid) & Hg). exists id. split; [|split; [exists x, q; auto|exact Hg]]. unfold body_of in Hi. rewrite Hx in Hi.
    destruct (W_enabled _ _ _ HW) as (EN & _). specialize (EN f (view_f x) i (view_b b)). cbn in EN. rewrite Hx, Hb in EN. specialize (EN eq_refl Hi eq_refl). cbn in EN. change (f_proxy_count x = if is_enabled b then length (map view_p (f_proxies x)) else 0) in EN. rewrite En, map_length in EN.
    unfold children in Hk. rewrite Hx, (counted_W _ _ _ HW f x Hx) in Hk. unfold slots, slot. cbn [graph_of g_f]. rewrite Hx. cbn [option_map view_f v_count v_proxies]. rewrite EN. apply Nat.ltb_lt in Hk. rewrite Hk, nth_error_map, Hq. cbn. unfold view_p. exact Hid.
  Qed.
  Lemma may_differ w f g : may_touch w f g -> f <> g.
  Proof. intros (x & y & a & b & Hx & Hy & Ha & Hb & Ne & _) ->. congruence. Qed.
  Lemma M_pairs q w : W w -> M q none w -> forall f k g l a b, fat_box w f k a -> fat_box w g l b -> ~ separated a b -> may_touch w f g -> (q = true /\ (waiting w f k \/ waiting w g l)) \/ has_contact w f k g l.
  Proof.
    intros HW (A & m & pw & n & Br & Pm & HC) f k g l a b Ha Hb Sp Mt. destruct (box_slot w f k a HW Ha) as (id & S1 & P1 & G1). destruct (box_slot w g l b HW Hb) as (id' & S2 & P2 & G2).
    destruct (proj1 Pm _ _ _ S1) as (bx & fl & E1). destruct (proj1 Pm _ _ _ S2) as (bx' & fl' & E2). pose proof (breach_fat _ _ _ _ _ _ _ _ Br E1) as Q1. pose proof (breach_fat _ _ _ _ _ _ _ _ Br E2) as Q2. rewrite G1 in Q1. rewrite G2 in Q2. injection Q1 as <-. injection Q2 as <-.
    assert (Ne : id <> id') by (intros ->; rewrite E1 in E2; injection E2 as _ Q _ _; now apply (may_differ w f g Mt)).
    assert (Wt : forall j h o, proxy_is w h o j -> 0 < pw j -> waiting w h o).
    { intros j h o Pj Hj. exists j. split; [exact Pj|]. apply breach_binv in Br. destruct Br as (_ & _ & Hocc & _). rewrite <- Hocc in Hj. now apply (proj1 (occ_in j (moves_of (w_bp w)))). }
    destruct (Nat.eq_dec (pw id) 0) as [Z1|Z1]; [|destruct q; [left; split; [reflexivity|]; left; apply (Wt id); [exact P1|lia]|right]].
    - destruct (Nat.eq_dec (pw id') 0) as [Z2|Z2]; [|destruct q; [left; split; [reflexivity|]; right; apply (Wt id'); [exact P2|lia]|right]].
      + right. destruct (HC f k id a fl g l id' b fl' E1 E2 Ne Sp) as [[]|[[]|Q]]; auto.
      + destruct (HC f k id a fl g l id' b fl' E1 E2 Ne Sp) as [[]|[[]|Q]]; auto. discriminate.
    - destruct (HC f k id a fl g l id' b fl' E1 E2 Ne Sp) as [[]|[[]|Q]]; auto. discriminate.
  Qed.
  Theorem pairs_after_step w dt w' : preach E w -> w_step_complete w = true -> (0 < dt)%R -> wrun E (WStep dt) w = Ok w' -> all_pairs w'.
  Proof.
    intros H Sc Hd Hr. assert (HR : preach E w') by (apply (preach_call E w (WStep dt) w' H Logic.I Hr)). pose proof (preach_P w H) as P0. destruct (P_step E EF dt w P0 w' Hr) as [_ Q]. destruct (Q Sc Hd) as (Q' & _).
    intros f k g l a b Ha Hb Sp Mt. destruct (M_pairs false w' (reach_W E EA w' (preach_wreach w' HR)) Q' f k g l a b Ha Hb Sp Mt) as [[Z _]|Z]; [discriminate|exact Z].
  Qed.
  Theorem pairs_always w : preach E w -> all_pairs_but w.
  Proof.
    intros H f k g l a b Ha Hb Sp Mt. destruct (M_pairs true w (reach_W E EA w (preach_wreach w H)) (preach_M w H) f k g l a b Ha Hb Sp Mt) as [[_ [Z|Z]]|Z]; auto.
  Qed.
End Calls.
