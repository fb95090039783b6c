(** The boxes of the broad phase contain the shapes, and the queries of a world find what they should. *)
From Coq Require Import List ZArith Bool Arith Lia Reals Lra.
From Flocq Require Import Core.Raux.
From Verif Require Import Base Num NumLaws RTac Math Collision GeomSpec ShapeModel ListFacts TreeModel TreeSpec TreeRep TreeHist TreeQuery TreeRay TreeFinal BroadModel BroadSpec BroadProofs BroadFinal
  DynModel DynSpec WorldModel WorldGraph WorldLogic WorldInv WorldClaims WorldFinal WorldAfter WorldCalls WorldHist QueryModel CoverSpec CoverLogic CoverOps CoverWorld CoverToi QuerySpec.
Import ListNotations.
Implicit Types w : world.

Definition live_child w (f k : nat) : Prop :=
  exists x i b, w_fixtures w f = Some x /\ f_body x = Some i /\ w_bodies w i = Some b /\ is_enabled b = true /\ (k < children w f)%nat.
Lemma on_live w f k : on_enabled w f -> (k < children w f)%nat -> live_child w f k.
Proof.
  intros (i & Hf & b & Hb & En) Hk. unfold body_of in Hf. destruct (w_fixtures w f) as [x|] eqn:Ex; [|discriminate]. exists x, i, b. auto.
Qed.
Lemma live_on w f k : live_child w f k -> on_enabled w f /\ (k < children w f)%nat.
Proof. intros (x & i & b & Hx & Hi & Hb & En & Hk). split; [|exact Hk]. exists i. unfold body_of. rewrite Hx. split; [exact Hi|]. exists b. auto. Qed.
Lemma sim_any (t : tree R (nat * nat)) m : reach' anyo t m -> sim (Q:=ubox) t m.
Proof.
  intros (m0 & Hr & E). assert (H : sim (Q:=ubox) t m0). { apply reach_sim with (oks := anyo); auto. intros o a b c _. apply ubox_shift. repeat split. }
  destruct H as (o & F & I & C). exists o, F. split; [exact I|]. intros j. rewrite C. apply E.
Qed.
Lemma proxy_is_fun w f k id id' : proxy_is w f k id -> proxy_is w f k id' -> id = id'.
Proof. intros (x & q & Hx & Hq & Hi) (x' & q' & Hx' & Hq' & Hi'). congruence. Qed.

Definition atlas w (m : @pmap R (nat * nat)) : Prop :=
  sim (Q:=ubox) (bp_tree (w_bp w)) m /\
  (forall id box u fl, m id = Some (box, u, fl) -> box_valid box /\ exists f k, u = Some (f, k) /\ live_child w f k /\ proxy_is w f k id /\ proxy_of w id = Ok (f, k)) /\
  (forall f k, live_child w f k -> exists id box fl, m id = Some (box, Some (f, k), fl) /\ proxy_is w f k id /\ forall a, child_box w f k a -> inside a box).
Lemma atlas_ok w : W True any w -> J none w -> exists m, atlas w m.
Proof.
  intros HW (PO & (m & pw & n & B & (P1 & P2) & HC) & HG & HS). exists m.
  destruct (W_graph _ _ _ HW) as (_ & (_ & _ & F3 & F4 & _) & _).
  pose proof (sim_any _ _ (proj1 (breach_binv anyo _ _ _ _ B))) as Sm.
  assert (PC : forall f x i b, w_fixtures w f = Some x -> f_body x = Some i -> w_bodies w i = Some b -> f_proxy_count x = if is_enabled b then children w f else 0%nat).
  { intros f x i b Hx Hi Hb. assert (O : owner (graph_of w) f = Some i) by (unfold owner; cbn; now rewrite Hx). pose proof (proj2 (F3 i f) O) as Hin. unfold fixtures_of in Hin. cbn in Hin. rewrite Hb in Hin. cbn in Hin.
    pose proof (proxies_children True any w i b f HW Hb Hin) as Q. unfold proxies_of in Q. rewrite Hx in Q. exact Q. }
  split; [exact Sm|]. split.
  - intros id box u fl Em. destruct (P2 _ _ _ _ Em) as (f & k & -> & S). destruct (HC _ _ _ _ _ Em) as [V _]. split; [exact V|]. exists f, k. split; [reflexivity|].
    unfold slot in S. destruct (g_f (graph_of w) f) as [v|] eqn:Gf; [|discriminate]. pose proof Gf as Gf'. cbn in Gf. destruct (w_fixtures w f) as [x|] eqn:Ex; [|discriminate]. cbn in Gf. injection Gf as <-.
    cbn [view_f v_count v_proxies] in S. destruct (Nat.ltb_spec k (f_proxy_count x)) as [Lk|]; [|discriminate].
    destruct (PO f _ Gf') as [_ K]. destruct (K k Lk) as (id' & Q'). cbn in Q'. rewrite Q' in S. injection S as ->.
    rewrite nth_error_map in Q'. destruct (nth_error (f_proxies x) k) as [q|] eqn:Eq; [|discriminate]. cbn in Q'. unfold view_p in Q'. injection Q' as Q1 Q2 Q3.
    assert (O : owner (graph_of w) f <> None) by (apply F4; congruence). unfold owner in O. cbn in O. rewrite Ex in O. cbn in O. destruct (f_body x) as [i|] eqn:Ei; [|congruence].
    destruct (w_bodies w i) as [b|] eqn:Eb; [|destruct (live_W _ _ _ _ _ _ HW Ex Ei Eb)].
    pose proof (PC f x i b Ex Ei Eb) as Q. destruct (is_enabled b) eqn:En; [|lia].
    split; [|split].
    + exists x, i, b. repeat split; auto. lia.
    + exists x, q. auto.
    + unfold proxy_of. destruct (sim_get _ _ _ _ _ _ Sm Em) as (_ & -> & _). cbn [bind]. unfold proxy_data, get_fixture. cbn [unwrap bind]. rewrite Ex. cbn [unwrap bind]. unfold get. rewrite Eq. cbn [unwrap bind]. rewrite Q1. cbn [unwrap bind]. rewrite Ex, Q2. reflexivity.
  - intros f k (x & i & b & Hx & Hi & Hb & En & Hk). pose proof (PC f x i b Hx Hi Hb) as Q. rewrite En in Q.
    assert (Gf : g_f (graph_of w) f = Some (view_f x)) by (cbn; now rewrite Hx). destruct (PO f _ Gf) as [_ K]. destruct (K k) as (id & Q'); [cbn; lia|]. cbn in Q'.
    assert (S : slot (g_f (graph_of w)) f k = Some id). { unfold slot. rewrite Gf. cbn [view_f v_count v_proxies]. destruct (Nat.ltb_spec k (f_proxy_count x)); [|lia]. now rewrite Q'. }
    rewrite nth_error_map in Q'. destruct (nth_error (f_proxies x) k) as [q|] eqn:Eq; [|discriminate]. cbn in Q'. unfold view_p in Q'. injection Q' as Q1 Q2 Q3.
    destruct (P1 _ _ _ S) as (box & fl & Em). exists id, box, fl. split; [exact Em|]. split; [exists x, q; auto|].
    intros a (x' & i' & b' & Hx' & Hi' & Hb' & _ & _ & Ha). destruct (HC _ _ _ _ _ Em) as [_ C]. eapply C; eauto.
Qed.
Lemma atlas_covered w m : atlas w m -> covered w.
Proof.
  intros (Sm & _ & A) f k a Ha. assert (L : live_child w f k) by (destruct Ha as (x & i & b & H1 & H2 & H3 & H4 & H5 & _); exists x, i, b; auto).
  destruct (A f k L) as (id & box & fl & Em & Hp & Hin). exists id, box. split; [exact Hp|]. split; [|auto]. apply (sim_get _ _ _ _ _ _ Sm Em).
Qed.
Lemma treach_atlas E w : answers E -> holds_static E -> treach E w -> exists m, atlas w m.
Proof. intros EA HS H. apply atlas_ok; [apply (reach_W E EA w (treach_wreach E w H))|now apply (treach_J E)]. Qed.
Theorem treach_covered E w : answers E -> holds_static E -> treach E w -> covered w.
Proof. intros EA HS H. destruct (treach_atlas E w EA HS H) as (m & A). eapply atlas_covered; eauto. Qed.

(** ** query_aabb *)
Lemma Rlt_bool_iff a b : Rlt_bool a b = true <-> (a < b)%R.
Proof. destruct (Rlt_bool_spec a b); split; intros; auto; try discriminate; lra. Qed.
Lemma Rle_bool_iff a b : Rle_bool a b = true <-> (a <= b)%R.
Proof. destruct (Rle_bool_spec a b); split; intros; auto; try discriminate; lra. Qed.
Lemma sep_inside (a b c : aabb R) : inside a b -> separated b c -> separated a c.
Proof.
  unfold inside, separated. rops. rewrite !Rle_bool_iff, !Rlt_bool_iff. lra.
Qed.
Lemma feed_closure {S} w (cb : S -> nat -> S * bool) (key : nat -> nat * nat) L : (forall id, In id L -> proxy_of w id = Ok (key id)) ->
  forall s, run_until (query_closure w cb) (Ok s) L = Ok (feed cb s (map (fun id => fst (key id)) L)).
Proof.
  induction L as [|id L IH]; intros H s; cbn [run_until feed map]; [reflexivity|]. unfold query_closure at 1. cbn [bind]. rewrite (H id) by now left.
  destruct (key id) as [f k] eqn:Ek. cbn [bind fst]. destruct (cb s f) as [s' [|]]; [|reflexivity]. apply IH. intros j Hj. apply H. now right.
Qed.
Theorem world_query_ok w m box : atlas w m -> exists L : list (nat * nat), NoDup L /\
  (forall f k, In (f, k) L <-> in_reach w box f k) /\
  (forall f k a, child_box w f k a -> ~ separated a box -> In (f, k) L) /\
  forall S (cb : S -> nat -> S * bool) s, world_query w cb s box = Ok (feed cb s (map fst L)).
Proof.
  intros (Sm & A & B). destruct (query_complete _ _ box Sm) as (L & ND & HL & HQ). { intros; repeat split. }
  set (key := fun id => match m id with Some (_, Some q, _) => q | _ => (0, 0)%nat end).
  assert (K : forall id, In id L -> exists fb f k fl, m id = Some (fb, Some (f, k), fl) /\ key id = (f, k) /\ ~ separated fb box /\ live_child w f k /\ proxy_is w f k id /\ proxy_of w id = Ok (f, k)).
  { intros id Hid. apply HL in Hid as (fb & u & fl & Em & Hs). destruct (A _ _ _ _ Em) as (_ & f & k & -> & H1 & H2 & H3). exists fb, f, k, fl. unfold key. rewrite Em. repeat split; auto. }
  assert (KI : forall f k, In (f, k) (map key L) <-> exists id fb fl, m id = Some (fb, Some (f, k), fl) /\ ~ separated fb box).
  { intros f k. rewrite in_map_iff. split.
    - intros (id & Ek & Hid). destruct (K id Hid) as (fb & f' & k' & fl & Em & Ek' & Hs & _). exists id, fb, fl. rewrite Ek in Ek'. injection Ek' as -> ->. auto.
    - intros (id & fb & fl & Em & Hs). exists id. split; [unfold key; now rewrite Em|]. apply HL. eauto. }
  exists (map key L). split; [|split; [|split]].
  - apply NoDup_map_on; [exact ND|]. intros x y Hx Hy E. destruct (K x Hx) as (fb & f & k & fl & _ & Ek & _ & _ & P1 & _). destruct (K y Hy) as (fb' & f' & k' & fl' & _ & Ek' & _ & _ & P2 & _).
    rewrite Ek, Ek' in E. injection E as <- <-. eapply proxy_is_fun; eauto.
  - intros f k. rewrite KI. split.
    + intros (id & fb & fl & Em & Hs). destruct (A _ _ _ _ Em) as (_ & f' & k' & Eu & H1 & H2 & H3). injection Eu as <- <-. destruct (live_on _ _ _ H1). split; [auto|]. split; [auto|]. exists id, fb. split; [auto|]. split; [|auto]. apply (sim_get _ _ _ _ _ _ Sm Em).
    + intros (H1 & H2 & id & fat & Hp & Hg & Hs). destruct (B f k (on_live _ _ _ H1 H2)) as (id' & box' & fl & Em & Hp' & _). assert (id' = id) by (eapply proxy_is_fun; eauto). subst id'.
      destruct (sim_get _ _ _ _ _ _ Sm Em) as (Hg' & _). assert (fat = box') by congruence. subst. eauto.
  - intros f k a Ha Hs. rewrite KI. assert (Lc : live_child w f k) by (destruct Ha as (x & i & b & H1 & H2 & H3 & H4 & H5 & _); exists x, i, b; auto).
    destruct (B f k Lc) as (id & fb & fl & Em & _ & Hin). exists id, fb, fl. split; [exact Em|]. intros Q. apply Hs. eapply sep_inside; eauto.
  - intros S cb s. unfold world_query. rewrite HQ. cbn [bind]. rewrite map_map. apply feed_closure. intros id Hid. destruct (K id Hid) as (fb & f & k & fl & _ & -> & _ & _ & _ & H). exact H.
Qed.
Lemma treach_query (E : env R) w : answers E -> holds_static E -> treach E w -> forall box : aabb R, exists L : list (nat * nat),
  NoDup L /\ (forall f k, In (f, k) L <-> in_reach w box f k) /\
  (forall f k a, child_box w f k a -> ~ separated a box -> In (f, k) L) /\
  forall S (cb : S -> nat -> S * bool) (s : S), world_query w cb s box = Ok (feed cb s (map fst L)).
Proof. intros A B H box. destruct (treach_atlas E w A B H) as (m & Hm). exact (world_query_ok w m box Hm). Qed.
