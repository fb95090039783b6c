(** Contacts and the pairs of the broad phase under the operations of a step. *)
From Coq Require Import List ZArith Bool Arith Lia Reals Lra.
From Verif Require Import Base Num NumLaws RTac Math Collision Manifold Filter ShapeModel ListFacts ManifoldProofs TreeModel TreeSpec TreeHist BroadModel BroadSpec BroadProofs BroadFinal DynModel DynSpec DynProofs WorldModel WorldGraph WorldLogic WorldInv WorldFix WorldClaims WorldCalls CoverLogic CoverOps PairSpec PairLogic.
Import ListNotations.
Implicit Types w : world.

(** ** the invariant; [X]: fixtures about which nothing is said *)
Definition Kn (X : nat -> Prop) w (f k g l : nat) : Prop := X f \/ X g \/ (may_touch w f g -> has_contact w f k g l).
Definition slots w := slot (g_f (graph_of w)).
Definition M (q : bool) (X : nat -> Prop) w : Prop := proxies_ok (g_f (graph_of w)) /\ bcomp q (w_bp w) (slots w) (Kn X w).
Lemma slots_same w0 w : same_f w0 w -> forall f k, slots w0 f k = slots w f k.
Proof. intros H f k. unfold slots. apply slot_ext. intros i. symmetry. apply H. Qed.
Lemma M_same q q' (X X' : nat -> Prop) w0 w : M q X w0 -> w_bp w = w_bp w0 -> same_f w0 w -> (q' = false -> q = false) ->
  (forall f k g l, seen (w_bp w0) (slots w0) f k g l -> Kn X w0 f k g l -> Kn X' w f k g l) -> M q' X' w.
Proof.
  intros [A B] Hb Hf Hq HK. split; [intros f x; rewrite Hf; apply A|]. rewrite Hb. eapply bcomp_mono; [exact B|now apply slots_same|exact Hq|exact HK].
Qed.
Lemma M_true q X w : M q X w -> M true X w.
Proof. intros H. eapply M_same; [exact H|reflexivity|intros f; reflexivity|discriminate|auto]. Qed.
Lemma M_false q X w : M false X w -> M q X w.
Proof. intros H. eapply M_same; [exact H|reflexivity|intros f; reflexivity|auto|auto]. Qed.
Lemma M_weak q (X X' : nat -> Prop) w : M q X w -> (forall f, X f -> X' f) -> M q X' w.
Proof. intros H K. eapply M_same; [exact H|reflexivity|intros f; reflexivity|auto|]. intros f k g l _ [Q|[Q|Q]]; [left; auto|right; left; auto|right; right; exact Q]. Qed.

(** ** words *)
Definition cfresh w : Prop := forall c, w_next_contact w <= c -> w_contacts w c = None.
Definition jlinks w : Prop := forall i b e x, w_bodies w i = Some b -> In e (b_joints b) -> w_joints w (ge_item e) = Some x ->
  (j_a x = i /\ j_b x = ge_other e) \/ (j_b x = i /\ j_a x = ge_other e).
Definition key := ((nat * nat) * (nat * nat))%type.
Definition vff (x : fixture R) := (view_f x, f_filter x).
Definition vbb (b : body R) := (b_type b, b_joints b).
(* only contacts whose children are in [G] are lost; with [n], there may be new ones *)
Definition fr (n : bool) (G : key -> Prop) w0 w : Prop :=
  (forall f, option_map vff (w_fixtures w f) = option_map vff (w_fixtures w0 f)) /\
  (forall i, option_map vbb (w_bodies w i) = option_map vbb (w_bodies w0 i)) /\
  (forall j, option_map view_j (w_joints w j) = option_map view_j (w_joints w0 j)) /\
  ((cfresh w0 -> cfresh w) /\ w_step_complete w = w_step_complete w0) /\
  (forall c y, w_contacts w0 c = Some y -> G (pair_key y) \/ exists x, w_contacts w c = Some x /\ pair_key x = pair_key y) /\
  (n = false -> forall c x, w_contacts w c = Some x -> exists y, w_contacts w0 c = Some y /\ pair_key x = pair_key y).
Definition lose_none (_ : key) : Prop := False.
Lemma fr_refl n G w : fr n G w w.
Proof. split; [reflexivity|]. split; [reflexivity|]. split; [reflexivity|]. split; [auto|]. split; [intros c y H; right; eauto|intros _ c x H; eauto]. Qed.
Lemma fr_trans n G w0 w1 w2 : fr n G w0 w1 -> fr n G w1 w2 -> fr n G w0 w2.
Proof.
  intros (A & B & C & (F & S) & D & K) (A' & B' & C' & (F' & S') & D' & K'). split; [intros f; congruence|]. split; [intros i; congruence|]. split; [intros j; congruence|].
  split; [split; [auto|congruence]|]. split.
  - intros c y H. destruct (D c y H) as [G1|(x & Hx & E)]; [now left|]. destruct (D' c x Hx) as [G2|(z & Hz & E')]; [left; congruence|]. right. exists z. split; [exact Hz|congruence].
  - intros Hn c x H. destruct (K' Hn c x H) as (y & Hy & E). destruct (K Hn c y Hy) as (z & Hz & E'). exists z. split; [exact Hz|congruence].
Qed.
Lemma fr_weak n (G G' : key -> Prop) w0 w : fr n G w0 w -> (forall p, G p -> G' p) -> fr n G' w0 w.
Proof. intros (A & B & C & N & D & K) H. split; [exact A|]. split; [exact B|]. split; [exact C|]. split; [exact N|]. split; [|exact K]. intros c y Hy. destruct (D c y Hy); auto. Qed.
Lemma fr_same_f n G w0 w : fr n G w0 w -> same_f w0 w.
Proof. intros (A & _) f. specialize (A f). cbn. destruct (w_fixtures w f), (w_fixtures w0 f); cbn in *; try easy. unfold vff in A. congruence. Qed.
Lemma fr_fix n G w0 w f x : fr n G w0 w -> w_fixtures w f = Some x -> exists y, w_fixtures w0 f = Some y /\ view_f x = view_f y /\ f_filter x = f_filter y.
Proof. intros (A & _) H. specialize (A f). rewrite H in A. destruct (w_fixtures w0 f) as [y|]; [|easy]. cbn in A. unfold vff in A. exists y. split; [reflexivity|]. split; congruence. Qed.
Lemma fr_fix' n G w0 w f y : fr n G w0 w -> w_fixtures w0 f = Some y -> exists x, w_fixtures w f = Some x /\ view_f x = view_f y /\ f_filter x = f_filter y.
Proof. intros (A & _) H. specialize (A f). rewrite H in A. destruct (w_fixtures w f) as [x|]; [|easy]. cbn in A. unfold vff in A. exists x. split; [reflexivity|]. split; congruence. Qed.
Lemma fr_dynamic n G w0 w i : fr n G w0 w -> dynamic w i <-> dynamic w0 i.
Proof.
  intros (_ & B & _). specialize (B i). unfold dynamic. split; intros (b & Hb & T); rewrite Hb in B; cbn in B; unfold vbb in B.
  - destruct (w_bodies w0 i) as [c|]; [|easy]. exists c. cbn in B. split; [reflexivity|congruence].
  - destruct (w_bodies w i) as [c|]; [|easy]. exists c. cbn in B. split; [reflexivity|congruence].
Qed.
Lemma joints_forbid w0 w a b : (forall j, option_map view_j (w_joints w j) = option_map view_j (w_joints w0 j)) -> joint_forbids w a b -> joint_forbids w0 a b.
Proof.
  intros C (j & x & Hx & Q). specialize (C j). rewrite Hx in C. destruct (w_joints w0 j) as [y|] eqn:Ey; [|easy]. cbn in C. unfold view_j in C. injection C as C1 C2 C3. exists j, y. split; [exact Ey|]. rewrite <- C1, <- C2, <- C3. exact Q.
Qed.
Lemma fr_forbids n G w0 w a b : fr n G w0 w -> joint_forbids w a b <-> joint_forbids w0 a b.
Proof. intros (_ & _ & C & _). split; apply joints_forbid; auto. Qed.
Lemma fr_may n G w0 w f g : fr n G w0 w -> may_touch w f g <-> may_touch w0 f g.
Proof.
  intros H. split; intros (x & y & a & b & Hx & Hy & Ha & Hb & Ne & Dy & Nj & Fi).
  - destruct (fr_fix _ _ _ _ _ _ H Hx) as (x' & Hx' & Vx & Fx). destruct (fr_fix _ _ _ _ _ _ H Hy) as (y' & Hy' & Vy & Fy). apply view_f_inv in Vx as (Vx & _). apply view_f_inv in Vy as (Vy & _).
    exists x', y', a, b. rewrite <- Vx, <- Vy, <- Fx, <- Fy, <- (fr_forbids _ _ _ _ a b H), <- (fr_dynamic _ _ _ _ a H), <- (fr_dynamic _ _ _ _ b H). auto 10.
  - destruct (fr_fix' _ _ _ _ _ _ H Hx) as (x' & Hx' & Vx & Fx). destruct (fr_fix' _ _ _ _ _ _ H Hy) as (y' & Hy' & Vy & Fy). apply view_f_inv in Vx as (Vx & _). apply view_f_inv in Vy as (Vy & _).
    exists x', y', a, b. rewrite Vx, Vy, Fx, Fy, (fr_forbids _ _ _ _ a b H), (fr_dynamic _ _ _ _ a H), (fr_dynamic _ _ _ _ b H). auto 10.
Qed.
Lemma fr_has n G w0 w f k g l : fr n G w0 w -> has_contact w0 f k g l -> ~ G ((f, k), (g, l)) -> ~ G ((g, l), (f, k)) -> has_contact w f k g l.
Proof.
  intros (_ & _ & _ & _ & D & _) (c & x & Hx & Q) N1 N2. destruct (D c x Hx) as [K|(y & Hy & K)]; [destruct Q as [Q|Q]; rewrite Q in K; contradiction|]. exists c, y. split; [exact Hy|]. rewrite K. exact Q.
Qed.
Lemma fr_links n G w0 w : fr n G w0 w -> jlinks w0 -> jlinks w.
Proof.
  intros (_ & B & C & _) H i b e x Hb He Hx. specialize (B i). specialize (C (ge_item e)). rewrite Hb in B. rewrite Hx in C. destruct (w_bodies w0 i) as [b0|] eqn:E0; [|easy]. destruct (w_joints w0 (ge_item e)) as [x0|] eqn:E1; [|easy].
  cbn in B, C. unfold vbb in B. unfold view_j in C. injection B as B1 B2. injection C as C1 C2 C3. rewrite C1, C2. rewrite B2 in He. eapply H; eauto.
Qed.
Lemma may_sym w f g : may_touch w f g -> may_touch w g f.
Proof.
  intros (x & y & a & b & Hx & Hy & Ha & Hb & Ne & Dy & Nj & Fi). exists y, x, b, a. repeat (split; [solve [auto]|]). split; [tauto|]. split.
  - intros (j & z & Hz & Cz & Q). apply Nj. exists j, z. tauto.
  - rewrite <- Fi. apply filter_sym.
Qed.
Lemma has_sym w f k g l : has_contact w f k g l -> has_contact w g l f k.
Proof. intros (c & x & Hx & Q). exists c, x. tauto. Qed.
Lemma Kn_sym X w f k g l : Kn X w f k g l -> Kn X w g l f k.
Proof. intros [Q|[Q|Q]]; [right; now left|now left|]. right. right. intros P. apply has_sym, Q. now apply may_sym. Qed.

(** ** frames *)
Lemma fr_body n G w0 w i b b' : fr n G w0 w -> w_bodies w i = Some b -> b_type b' = b_type b -> b_joints b' = b_joints b -> fr n G w0 (put_body i b' w).
Proof.
  intros H Hb T J. eapply fr_trans; [exact H|]. pose proof (fr_refl n G w) as (A & B & C & N & D & K). split; [exact A|]. split; [|split; [exact C|split; [exact N|split; [exact D|exact K]]]].
  intros j. cbn. unfold put. destruct (Nat.eqb_spec j i) as [->|]; [|reflexivity]. rewrite Hb. cbn. unfold vbb. congruence.
Qed.
Lemma fr_contact n G w0 w i c c' : fr n G w0 w -> w_contacts w i = Some c -> pair_key c' = pair_key c -> fr n G w0 (put_contact i c' w).
Proof.
  intros H Hc E. eapply fr_trans; [exact H|]. pose proof (fr_refl n G w) as (A & B & C & (F & S) & D & K). split; [exact A|]. split; [exact B|]. split; [exact C|]. split; [|split].
  - split; [|exact S]. intros Q j Hj. cbn. unfold put. destruct (Nat.eqb_spec j i) as [->|]; [|now apply Q]. rewrite (Q i Hj) in Hc. discriminate.
  - intros j y Hy. right. cbn. unfold put. destruct (Nat.eqb_spec j i) as [->|]; [|eauto]. exists c'. split; [reflexivity|]. congruence.
  - intros _ j x. cbn. unfold put. destruct (Nat.eqb_spec j i) as [->|]; [|eauto]. intros Q. injection Q as <-. eauto.
Qed.
Lemma fr_joint n G w0 w i j j' : fr n G w0 w -> w_joints w i = Some j -> view_j j' = view_j j -> fr n G w0 (put_joint i j' w).
Proof.
  intros H Hb V. eapply fr_trans; [exact H|]. pose proof (fr_refl n G w) as (A & B & C & N & D & K). split; [exact A|]. split; [exact B|]. split; [|split; [exact N|split; [exact D|exact K]]].
  intros k. cbn. unfold put. destruct (Nat.eqb_spec k i) as [->|]; [|reflexivity]. rewrite Hb. cbn. congruence.
Qed.
Lemma fr_fixture n G w0 w f x x' : fr n G w0 w -> w_fixtures w f = Some x -> vff x' = vff x -> fr n G w0 (put_fixture f x' w).
Proof.
  intros H Hb V. eapply fr_trans; [exact H|]. pose proof (fr_refl n G w) as (A & B & C & N & D & K). split; [|split; [exact B|split; [exact C|split; [exact N|split; [exact D|exact K]]]]].
  intros k. cbn. unfold put. destruct (Nat.eqb_spec k f) as [->|]; [|reflexivity]. rewrite Hb. cbn. congruence.
Qed.
(* ... and the broad phase stays *)
Definition kp (n : bool) (G : key -> Prop) w0 w : Prop := w_bp w = w_bp w0 /\ fr n G w0 w.
Lemma kp_refl n G w : kp n G w w.
Proof. split; [reflexivity|apply fr_refl]. Qed.
Lemma kp_trans n G w0 w1 w2 : kp n G w0 w1 -> kp n G w1 w2 -> kp n G w0 w2.
Proof. intros [A B] [A' B']. split; [congruence|eapply fr_trans; eauto]. Qed.
Lemma kp_weak n (G G' : key -> Prop) w0 w : kp n G w0 w -> (forall p, G p -> G' p) -> kp n G' w0 w.
Proof. intros [A B] H. split; [exact A|eapply fr_weak; eauto]. Qed.
Definition quiet (b b' : body R) : Prop := b_type b' = b_type b /\ b_joints b' = b_joints b.
Lemma kp_put n G w0 w i b b' : kp n G w0 w -> w_bodies w i = Some b -> quiet b b' -> kp n G w0 (put_body i b' w).
Proof. intros [A B] Hb [T J]. split; [exact A|eapply fr_body; eauto]. Qed.
Lemma kp_body n G w0 w i g : kp n G w0 w -> (forall b, quiet b (g b)) -> ok (mod_body i g w) (kp n G w0).
Proof. intros H Q. unfold mod_body. apply ok_bind, ok_unwrap. intros b Hb. apply ok_ok. eapply kp_put; eauto. Qed.
Lemma kp_contact n G w0 w i g : kp n G w0 w -> (forall c, pair_key (g c) = pair_key c) -> ok (mod_contact i g w) (kp n G w0).
Proof. intros [A B] Q. unfold mod_contact. apply ok_bind, ok_unwrap. intros b Hb. apply ok_ok. split; [exact A|]. eapply fr_contact; eauto. Qed.
Lemma kp_joint n G w0 w i g : kp n G w0 w -> (forall c, view_j (g c) = view_j c) -> ok (mod_joint i g w) (kp n G w0).
Proof. intros [A B] Q. unfold mod_joint. apply ok_bind, ok_unwrap. intros b Hb. apply ok_ok. split; [exact A|]. eapply fr_joint; eauto. Qed.
Lemma quiet_refl b : quiet b b.
Proof. split; reflexivity. Qed.
Lemma quiet_awake f (b : body R) : quiet b (set_awake f b).
Proof. unfold set_awake. destruct (is_static b); [apply quiet_refl|]. destruct f; split; reflexivity. Qed.
Lemma kp_wake n G w0 w i f : kp n G w0 w -> ok (mod_body i (set_awake f) w) (kp n G w0).
Proof. intros H. apply kp_body; [exact H|apply quiet_awake]. Qed.
Lemma kp_each_body n G w0 (g : nat -> body R -> body R) l w : kp n G w0 w -> (forall i b, quiet b (g i b)) -> ok (each (fun i => mod_body i (g i)) l w) (kp n G w0).
Proof. intros H Q. apply (ok_each (kp n G w0)); [|exact H]. intros i s _ Hs. now apply kp_body. Qed.
Lemma kp_each_contact n G w0 (g : nat -> contact R -> contact R) l w : kp n G w0 w -> (forall i b, pair_key (g i b) = pair_key b) -> ok (each (fun i => mod_contact i (g i)) l w) (kp n G w0).
Proof. intros H Q. apply (ok_each (kp n G w0)); [|exact H]. intros i s _ Hs. now apply kp_contact. Qed.
Lemma M_kp n q X w0 w : M q X w0 -> kp n lose_none w0 w -> M q X w.
Proof.
  intros H [A B]. eapply M_same; [exact H|exact A|eapply fr_same_f; eauto|auto|]. intros f k g l _ [Q|[Q|Q]]; [now left|right; now left|]. right. right. intros P. eapply fr_has; [exact B|apply Q; now apply (fr_may _ _ _ _ _ _ B)|intros []|intros []].
Qed.

Section Ops.
  Variable E : env R.
  Variables (n : bool) (G : key -> Prop).
  Lemma kp_listen w0 w e i : kp n G w0 w -> ok (listen E e i w) (kp n G w0).
  Proof. intros [A B]. unfold listen. apply ok_bind, ok_unwrap. intros c Hc. apply ok_ok. split; [exact A|]. change (fr n G w0 (put_contact i (apply_edit (e_listen E w e c) c) w)). eapply fr_contact; [exact B|exact Hc|reflexivity]. Qed.
  Lemma kp_wake_touching w0 w c : kp n G w0 w -> ok (wake_touching c w) (kp n G w0).
  Proof.
    intros H. unfold wake_touching. apply ok_bind, ok_any. intros fa. apply ok_bind, ok_any. intros fb. destruct (_ && _); [|now apply ok_ok].
    apply ok_bind, ok_any. intros a. go kp_wake; [exact H|]. intros w1 H1. apply ok_bind, ok_any. intros b. now apply kp_wake.
  Qed.
  Lemma kp_destroy_contact w0 w i : kp n G w0 w -> (forall c, w_contacts w i = Some c -> G (pair_key c)) -> ok (destroy_contact E i w) (kp n G w0).
  Proof.
    intros H HG. unfold destroy_contact. apply ok_bind, ok_unwrap. intros c Hc. apply ok_bind, ok_any. intros a. apply ok_bind, ok_any. intros b. specialize (HG c Hc).
    apply ok_bind. apply (ok_mono _ (kp n G w)). { destruct (_ && _); [apply kp_listen, kp_refl|apply ok_ok, kp_refl]. } intros w1 K1.
    apply ok_bind, ok_any. intros l. cbv zeta. set (w1' := set_w_contact_list l w1). assert (K1' : kp n G w w1') by exact K1. clearbody w1'. clear w1 K1. rename w1' into w1, K1' into K1.
    apply ok_bind, ok_unwrap. intros ba Hba. apply ok_bind, ok_any. intros la. set (w2 := put_body a _ w1). assert (K2 : kp n G w w2) by (eapply kp_put; [exact K1|exact Hba|split; reflexivity]). clearbody w2.
    apply ok_bind, ok_unwrap. intros bb Hbb. apply ok_bind, ok_any. intros lb. set (w3 := put_body b _ w2). assert (K3 : kp n G w w3) by (eapply kp_put; [exact K2|exact Hbb|split; reflexivity]). clearbody w3.
    apply ok_bind, ok_any. intros c'. go kp_wake_touching; [exact K3|]. intros w4 K4. apply ok_bind, ok_any. intros cnt. apply ok_ok. eapply kp_trans; [exact H|]. destruct K4 as [Q (A & B & C & (F & S) & D & K)].
    split; [exact Q|]. split; [exact A|]. split; [exact B|]. split; [exact C|]. split; [|split].
    - split; [|exact S]. intros Z j Hj. cbn. unfold put. destruct (Nat.eqb_spec j i); [reflexivity|]. apply (F Z j Hj).
    - intros j y Hy. cbn. unfold put. destruct (Nat.eqb_spec j i) as [->|]; [|now apply D]. left. congruence.
    - intros Hn j x. cbn. unfold put. destruct (Nat.eqb_spec j i); [discriminate|]. now apply K.
  Qed.
  Lemma kp_update w0 w i : kp n G w0 w -> ok (update_contact E i w) (kp n G w0).
  Proof.
    intros H. unfold update_contact. go kp_contact; [exact H|reflexivity|]. clear w H. intros w H. apply ok_bind, ok_any. intros c. cbv zeta.
    apply ok_bind, ok_any. intros fa. apply ok_bind, ok_any. intros fb. apply ok_bind, ok_any. intros a. apply ok_bind, ok_any. intros b. apply ok_bind, ok_any. intros ba. apply ok_bind, ok_any. intros bb.
    apply ok_bind. apply (ok_mono _ (fun p => kp n G w0 (fst p))).
    - destruct (_ || _).
      + apply ok_bind, ok_any. intros t. go kp_contact; [exact H|reflexivity|]. intros w1 H1. apply ok_ok. exact H1.
      + apply ok_bind, ok_any. intros m. apply ok_bind, ok_any. intros m'. go kp_contact; [exact H|reflexivity|]. intros w1 H1. apply ok_bind. apply (ok_mono _ (kp n G w0)).
        * destruct (Bool.eqb _ _); [now apply ok_ok|]. go kp_wake; [exact H1|]. intros w2 H2. now apply kp_wake.
        * intros w2 H2. apply ok_ok. exact H2.
    - intros [w1 t] H1. cbn [fst] in H1. go kp_contact; [exact H1|reflexivity|]. intros w2 H2. destruct (w_listener w2); [|now apply ok_ok].
      apply ok_bind. apply (ok_mono _ (kp n G w0)). { destruct (_ && _); [now apply kp_listen|now apply ok_ok]. } intros w3 H3.
      apply ok_bind. apply (ok_mono _ (kp n G w0)). { destruct (_ && _); [now apply kp_listen|now apply ok_ok]. } intros w4 H4.
      destruct (_ && _); [now apply kp_listen|now apply ok_ok].
  Qed.
End Ops.

(** ** who may have a contact *)
Lemma blocks_joint w o l : any_blocks w o l = Ok true -> exists e x, In e l /\ ge_other e = o /\ w_joints w (ge_item e) = Some x /\ j_collide x = false.
Proof.
  induction l as [|e l IH]; cbn [any_blocks]; [discriminate|]. intros H. apply bind_ok in H as (x & Hx & H). unfold joint_blocks in Hx. destruct (Nat.eqb_spec (ge_other e) o) as [Q|Q].
  - apply bind_ok in Hx as (j & Hj & Hx). injection Hx as <-. unfold get_joint in Hj. destruct (w_joints w (ge_item e)) as [y|] eqn:Ey; [|easy]. injection Hj as ->. destruct (j_collide j) eqn:Cj; cbn [negb] in H.
    + destruct (IH H) as (e' & x & A & B). exists e', x. split; [now right|exact B].
    + exists e, j. split; [now left|]. auto.
  - injection Hx as <-. destruct (IH H) as (e' & x & A & B). exists e', x. split; [now right|exact B].
Qed.
Lemma collide_no w a b : jlinks w -> bodies_collide w a b = Ok false -> ~ ((dynamic w a \/ dynamic w b) /\ ~ joint_forbids w a b).
Proof.
  intros J H [D N]. unfold bodies_collide in H. apply bind_ok in H as (x & Hx & H). apply bind_ok in H as (y & Hy & H). unfold get_body in Hx, Hy.
  destruct (w_bodies w a) as [x'|] eqn:Ea; [|easy]. injection Hx as ->. destruct (w_bodies w b) as [y'|] eqn:Eb; [|easy]. injection Hy as ->.
  assert (Q : negb (is_dynamic x) && negb (is_dynamic y) = false).
  { unfold is_dynamic. destruct D as [(z & Hz & T)|(z & Hz & T)]; [replace z with x in * by congruence|replace z with y in * by congruence]; rewrite T; cbn; [reflexivity|apply andb_false_r]. }
  rewrite Q in H. apply bind_ok in H as (t & Ht & H). injection H as H. destruct t; [|discriminate]. apply blocks_joint in Ht as (e & j & He & Ho & Hj & Cj). apply N. exists (ge_item e), j. split; [exact Hj|]. split; [exact Cj|].
  subst b. destruct (J a x e j Ea He Hj) as [[? ?]|[? ?]]; auto.
Qed.
Lemma known_has w a fa ia fb ib l : pair_exists w a fa ia fb ib l = Ok true -> has_contact w fa ia fb ib.
Proof.
  induction l as [|e l IH]; cbn [pair_exists]; [discriminate|]. destruct (Nat.eqb (ge_other e) a); [|exact IH]. intros H. apply bind_ok in H as (c & Hc & H). destruct (same_pair c fa ia fb ib) eqn:Es; [|now apply IH].
  unfold get_contact in Hc. destruct (w_contacts w (ge_item e)) as [c'|] eqn:Ec; [|easy]. injection Hc as ->. exists (ge_item e), c. split; [exact Ec|]. unfold same_pair in Es. unfold pair_key.
  apply orb_true_iff in Es as [Es|Es]; repeat (apply andb_true_iff in Es as [Es ?]); repeat match goal with K : Nat.eqb _ _ = true |- _ => apply Nat.eqb_eq in K end; [left|right]; congruence.
Qed.
Lemma proxy_data_slot w f k id p : proxies_ok (g_f (graph_of w)) -> slots w f k = Some id -> proxy_data w (Some (f, k)) = Ok p -> p = (f, k).
Proof.
  intros A Hs H. unfold slots, slot in Hs. destruct (g_f (graph_of w) f) as [v|] eqn:Ev; [|easy]. destruct (A f v Ev) as [_ Hp]. destruct (Nat.ltb_spec k (v_count v)) as [Hk|]; [|easy]. destruct (Hp k Hk) as (id' & Hn).
  cbn in Ev. destruct (w_fixtures w f) as [x|] eqn:Ex; [|easy]. injection Ev as <-. cbn [view_f v_proxies] in Hn. rewrite nth_error_map in Hn.
  unfold proxy_data, get_fixture in H. cbn [unwrap bind] in H. rewrite Ex in H. cbn [unwrap bind] in H. unfold get in H. destruct (nth_error (f_proxies x) k) as [q|]; [|easy]. cbn [bind] in H. cbn in Hn. unfold view_p in Hn. injection Hn as H1 H2 H3. rewrite H1, H2 in H. cbn in H. congruence.
Qed.
Lemma fixture_body_ok w f a : fixture_body w f = Ok a -> exists x, w_fixtures w f = Some x /\ f_body x = Some a.
Proof. unfold fixture_body, get_fixture. destruct (w_fixtures w f) as [x|]; [|easy]. cbn. intros H. exists x. split; [reflexivity|]. destruct (f_body x); [|easy]. cbn in H. congruence. Qed.
Lemma body_of_ok w i b : get_body w i = Ok b -> w_bodies w i = Some b.
Proof. unfold get_body. destruct (w_bodies w i); [|easy]. cbn. congruence. Qed.

(* a new contact *)
Lemma fr_link w c : cfresh w -> ok (link_contact c w) (fun z => kp true lose_none w z /\ exists x, w_contacts z (w_next_contact w) = Some x /\ pair_key x = pair_key c).
Proof.
  intros Hf. unfold link_contact. cbv zeta. set (i := w_next_contact w). set (w1 := set_w_next_contact (S i) (put_contact i c w)).
  assert (H1 : kp true lose_none w w1).
  { split; [reflexivity|]. pose proof (fr_refl true lose_none w) as (A & B & C & (F & S) & D & K). split; [exact A|]. split; [exact B|]. split; [exact C|]. split; [|split].
    - split; [|exact S]. intros _ j Hj. cbn in Hj. cbn. unfold put. destruct (Nat.eqb_spec j i); [lia|]. apply Hf. unfold i in *. lia.
    - intros j y Hy. right. cbn. unfold put. destruct (Nat.eqb_spec j i) as [->|]; [|eauto]. rewrite (Hf i) in Hy; [easy|]. unfold i. lia.
    - discriminate. }
  assert (C1 : exists x, w_contacts w1 i = Some x /\ pair_key x = pair_key c) by (exists c; split; [cbn; unfold put; now rewrite Nat.eqb_refl|reflexivity]). clearbody w1.
  apply ok_bind, ok_any. intros a. apply ok_bind, ok_any. intros b. set (w2 := set_w_contact_list _ w1). assert (H2 : kp true lose_none w w2) by exact H1. assert (C2 : w_contacts w2 = w_contacts w1) by reflexivity. clearbody w2.
  unfold mod_body. apply ok_bind, ok_bind, ok_unwrap. intros ba Ha. apply ok_ok. apply ok_bind, ok_bind, ok_unwrap. intros bb Hb. apply ok_ok. apply ok_ok.
  split; [|cbn; rewrite C2; exact C1]. set (w3 := put_body a _ w2) in *. assert (H3 : kp true lose_none w w3) by (eapply kp_put; [exact H2|exact Ha|split; reflexivity]).
  match goal with |- kp _ _ _ (set_w_contact_count _ ?v) => change (kp true lose_none w v) end. eapply kp_put; [exact H3|exact Hb|split; reflexivity].
Qed.
Lemma create_key w fa ia fb ib c : contact_create w fa ia fb ib = Ok c -> pair_key c = ((fa, ia), (fb, ib)) \/ pair_key c = ((fb, ib), (fa, ia)).
Proof. unfold contact_create. intros H. apply bind_ok in H as (xa & _ & H). apply bind_ok in H as (xb & _ & H). apply bind_ok in H as (p & _ & H). injection H as <-. destruct p; [left|right]; reflexivity. Qed.

Section Pairs.
  Variable E : env R.
  Hypothesis EF : plain_filter E.
  Lemma pair_added w f k g l id id' : proxies_ok (g_f (graph_of w)) -> jlinks w -> cfresh w -> slots w f k = Some id -> slots w g l = Some id' ->
    ok (add_pair E w (Some (f, k)) (Some (g, l))) (fun z => kp true lose_none w z /\ (may_touch w f g -> has_contact z f k g l)).
  Proof.
    intros A J Hf Sf Sg. unfold add_pair. apply ok_bind, ok_eq. intros p Hp. rewrite (proxy_data_slot _ _ _ _ _ A Sf Hp). clear p Hp. apply ok_bind, ok_eq. intros p Hp. rewrite (proxy_data_slot _ _ _ _ _ A Sg Hp). clear p Hp.
    apply ok_bind, ok_eq. intros a Ha. apply ok_bind, ok_eq. intros b Hb. apply fixture_body_ok in Ha as (x & Hx & Ha). apply fixture_body_ok in Hb as (y & Hy & Hb).
    assert (U : may_touch w f g -> a <> b /\ (dynamic w b \/ dynamic w a) /\ ~ joint_forbids w b a /\ should_collide (f_filter x) (f_filter y) = true).
    { intros P. pose proof (may_sym _ _ _ P) as (y' & x' & b' & a' & Hy' & Hx' & Hb' & Ha' & Ne & Dy & Nj & Fi). replace x' with x in * by congruence. replace y' with y in * by congruence. replace a' with a in * by congruence. replace b' with b in * by congruence.
      split; [congruence|]. split; [exact Dy|]. split; [exact Nj|]. now rewrite filter_sym. }
    destruct (Nat.eqb_spec a b) as [->|Nab]; [apply ok_ok; split; [apply kp_refl|intros P; apply U in P as (P & _); congruence]|]. apply ok_bind, ok_any. intros bb. apply ok_bind, ok_eq. intros known Hk. destruct known.
    { apply ok_ok. split; [apply kp_refl|]. intros _. eapply known_has; eauto. }
    apply ok_bind, ok_eq. intros may Hm. destruct may; cbn [negb].
    2:{ apply ok_ok. split; [apply kp_refl|]. intros P. apply U in P as (_ & P1 & P2 & _). destruct (collide_no w b a J Hm). auto. }
    cbv zeta. rewrite (EF w f g x y Hx Hy). destruct (should_collide (f_filter x) (f_filter y)); cbn [negb]; [|apply ok_ok; split; [apply (kp_refl true lose_none w)|intros P; apply U in P as (_ & _ & _ & P); discriminate]].
    apply ok_bind, ok_eq. intros c Hc. eapply ok_mono; [apply fr_link; exact Hf|]. intros z (Kz & q & Hq & Eq). split; [exact Kz|]. intros _. eexists _, q. split; [exact Hq|]. rewrite Eq. eapply create_key; eauto.
  Qed.

  (* what is known during a step *)
  Definition P (q : bool) w : Prop := M q none w /\ jlinks w /\ cfresh w.
  Lemma P_kp q w0 w : P q w0 -> kp false lose_none w0 w -> P q w.
  Proof. intros (A & B & C) K. split; [eapply M_kp; eauto|]. split; [eapply fr_links; [apply K|exact B]|]. destruct K as (_ & _ & _ & _ & (K & _) & _). auto. Qed.
  Lemma P_true q w : P q w -> P true w.
  Proof. intros (A & B). split; [eapply M_true; eauto|exact B]. Qed.
  Lemma P_false q w : P false w -> P q w.
  Proof. intros (A & B). split; [eapply M_false; eauto|exact B]. Qed.
  Lemma P_find w : P true w -> ok (find_new_contacts E w) (fun z => P false z /\ w_step_complete z = w_step_complete w).
  Proof.
    intros ((A & B) & J & Hf). unfold find_new_contacts. apply ok_bind.
    eapply ok_mono; [apply (bcomp_update (w_bp w) (slots w) (Kn none w) (kp true lose_none w) (fun y f k g l => may_touch w f g -> has_contact y f k g l) (add_pair E) w B)|].
    - apply kp_refl.
    - intros y f k g l id id' Ky Sf Sg _. pose proof (fr_same_f _ _ _ _ (proj2 Ky)) as SF.
      assert (Ay : proxies_ok (g_f (graph_of y))) by (intros i v; rewrite SF; apply A). assert (Jy : jlinks y) by (eapply fr_links; [apply Ky|exact J]).
      assert (Fy : cfresh y) by (destruct Ky as (_ & _ & _ & _ & (Q & _) & _); auto). rewrite (slots_same _ _ SF) in Sf, Sg. eapply ok_mono; [eapply (pair_added y f k g l); eauto|].
      intros z [Kz Hz]. split; [eapply kp_trans; eauto|]. split; [intros Q; apply Hz; now apply (fr_may _ _ _ _ _ _ (proj2 Ky))|]. intros f' k' g' l' Q Q'. eapply fr_has; [apply Kz|now apply Q|intros []|intros []].
    - intros [bp y] [Ky Hy]. cbn [fst snd] in *. apply ok_ok. pose proof (fr_same_f _ _ _ _ (proj2 Ky)) as SF. split; [|destruct Ky as (_ & _ & _ & _ & (_ & Q) & _); exact Q]. split; [split|split].
      + intros i v. change (g_f (graph_of (set_w_bp bp y)) i) with (g_f (graph_of y) i). rewrite SF. apply A.
      + cbn [w_bp set_w_bp]. eapply bcomp_mono; [exact Hy|apply (slots_same w y SF)|auto|]. intros f k g l _ Q. right. right. intros P0. assert (P1 : may_touch w f g) by (apply (fr_may _ _ _ _ _ _ (proj2 Ky)); exact P0). change (has_contact y f k g l).
        destruct Q as [[[]|[[]|Q]]|[Q|Q]]; [eapply fr_has; [apply Ky|now apply Q|intros []|intros []]|now apply Q|]. apply has_sym, Q. now apply may_sym.
      + exact (fr_links _ _ _ _ (proj2 Ky) J).
      + destruct Ky as (_ & _ & _ & _ & (Q & _) & _). exact (Q Hf).
  Qed.

  (* contacts end only where there is nothing to be had *)
  Definition gone w (p : key) : Prop := let '((f, k), (g, l)) := p in ~ (may_touch w f g /\ (seen (w_bp w) (slots w) f k g l)).
  Lemma gone_sym w f k g l : gone w ((f, k), (g, l)) -> gone w ((g, l), (f, k)).
  Proof.
    unfold gone. intros H [Q (id & id' & bx & bx' & S1 & S2 & Ne & G1 & G2 & Sp)]. apply H. split; [now apply may_sym|]. exists id', id, bx', bx. repeat (split; [solve [auto]|]). intros K. apply Sp. now apply separated_sym.
  Qed.
  Lemma P_gone q w0 w : P q w0 -> kp false (gone w0) w0 w -> P q w.
  Proof.
    intros (A & B & C) K. split; [|split; [eapply fr_links; [apply K|exact B]|destruct K as (_ & _ & _ & _ & (K & _) & _); auto]]. destruct K as [K1 K2]. eapply M_same; [exact A|exact K1|eapply fr_same_f; eauto|auto|].
    intros f k g l Se [[]|[[]|Q]]. right. right. intros Pm. pose proof (proj1 (fr_may _ _ _ _ _ _ K2) Pm) as P0. eapply fr_has; [exact K2|now apply Q| |]; intros N; [|apply gone_sym in N]; apply N; auto.
  Qed.
  Lemma proxy_id_slot w f k id : proxies_ok (g_f (graph_of w)) -> slots w f k = Some id -> forall i, proxy_id w f k = Ok i -> i = id.
  Proof.
    intros A Hs i H. unfold slots, slot in Hs. unfold proxy_id, get_fixture in H. cbn [graph_of g_f] in Hs. destruct (w_fixtures w f) as [x|] eqn:Ex; [|easy]. cbn [option_map view_f v_count v_proxies unwrap bind] in Hs, H. destruct (Nat.ltb k (f_proxy_count x)); [|easy]. rewrite nth_error_map in Hs. unfold get in H.
    destruct (nth_error (f_proxies x) k) as [p|]; [|easy]. cbn in Hs, H. rewrite Hs in H. cbn in H. congruence.
  Qed.
  Lemma P_collide q w : P q w -> ok (collide E w) (fun z => P q z /\ w_step_complete z = w_step_complete w).
  Proof.
    intros H. enough (K : ok (collide E w) (kp false (gone w) w)). { eapply ok_mono; [exact K|]. intros z Kz. split; [eapply P_gone; eauto|]. destruct Kz as (_ & _ & _ & _ & (_ & Q) & _). exact Q. }
    destruct H as ((A & B) & J & Hf). unfold collide. apply ok_bind.
    apply (ok_mono _ (fun p => kp false lose_none w (fst p) /\ forall i c, In i (snd p) -> w_contacts w i = Some c -> gone w (pair_key c))).
    - apply (ok_each (fun p => kp false lose_none w (fst p) /\ forall i c, In i (snd p) -> w_contacts w i = Some c -> gone w (pair_key c))); [|split; [apply kp_refl|intros i c []]].
      intros i [w1 dead] _ [K1 D1]. cbn [fst snd] in K1, D1. unfold collide1. apply ok_bind, ok_unwrap. intros c Hc. apply ok_bind, ok_eq. intros a Ha. apply ok_bind, ok_eq. intros b Hb.
      apply fixture_body_ok in Ha as (x & Hx & Ha). apply fixture_body_ok in Hb as (y & Hy & Hb).
      pose proof (proj2 K1) as F1. pose proof (fr_same_f _ _ _ _ F1) as SF. assert (J1 : jlinks w1) by (eapply fr_links; eauto).
      assert (U : may_touch w (c_fa c) (c_fb c) -> (dynamic w1 b \/ dynamic w1 a) /\ ~ joint_forbids w1 b a /\ should_collide (f_filter x) (f_filter y) = true).
      { intros Pm. apply (fr_may _ _ _ _ _ _ F1) in Pm. pose proof (may_sym _ _ _ Pm) as (y' & x' & b' & a' & Hy' & Hx' & Hb' & Ha' & Ne & Dy & Nj & Fi). replace x' with x in * by congruence. replace y' with y in * by congruence. replace a' with a in * by congruence. replace b' with b in * by congruence.
        split; [exact Dy|]. split; [exact Nj|]. now rewrite filter_sym. }
      assert (Add : forall w2, kp false lose_none w w2 -> gone w (pair_key c) -> kp false lose_none w w2 /\ forall j d, In j (dead ++ [i]) -> w_contacts w j = Some d -> gone w (pair_key d)).
      { intros w2 K2 Gc. split; [exact K2|]. intros j d Hj Hd. apply in_app_or in Hj as [Hj|[<-|[]]]; [eauto|]. destruct F1 as (_ & _ & _ & _ & _ & Bk). destruct (Bk eq_refl i c Hc) as (d' & Hd' & Ed). replace d with d' by congruence. now rewrite <- Ed. }
      apply ok_bind. apply (ok_mono _ (fun p => kp false lose_none w (fst p) /\ (snd p = false -> gone w (pair_key c)))).
      + destruct (cf_filter _); [|apply ok_ok; split; [exact K1|discriminate]]. apply ok_bind, ok_eq. intros may Hm. destruct may; cbn [negb].
        2:{ apply ok_ok. split; [exact K1|]. intros _ [Pm _]. apply U in Pm as (P1 & P2 & _). destruct (collide_no w1 b a J1 Hm). auto. }
        cbv zeta. rewrite (EF w1 _ _ x y Hx Hy). destruct (should_collide (f_filter x) (f_filter y)); cbn [negb].
        2:{ apply ok_ok. split; [exact K1|]. intros _ [Pm _]. apply U in Pm as (_ & _ & Pm). discriminate. }
        apply ok_bind. eapply ok_mono; [apply (kp_contact false lose_none w); [exact K1|reflexivity]|]. intros w2 K2. apply ok_ok. split; [exact K2|discriminate].
      + intros [w2 keep] [K2 D2]. cbn [fst snd] in K2, D2. destruct keep; cbn [negb]; [|apply ok_ok; apply Add; auto]. apply ok_bind, ok_any. intros ba. apply ok_bind, ok_any. intros bb. destruct (_ && _); [apply ok_ok; split; [exact K2|exact D1]|].
        apply ok_bind, ok_eq. intros ida Hia. apply ok_bind, ok_eq. intros idb Hib. apply ok_bind, ok_eq. intros ov Hov. destruct ov; cbn [negb].
        * apply ok_bind. eapply ok_mono; [apply (kp_update E false lose_none w); exact K2|]. intros w3 K3. apply ok_ok. split; [exact K3|exact D1].
        * apply ok_ok. apply Add; [exact K2|]. intros [_ (i1 & i2 & b1 & b2 & S1 & S2 & _ & G1 & G2 & Sp)]. pose proof (fr_same_f _ _ _ _ (proj2 K2)) as SF2. assert (A2 : proxies_ok (g_f (graph_of w2))) by (intros f v; rewrite SF2; apply A).
          rewrite (slots_same _ _ SF2) in S1, S2. rewrite (proxy_id_slot _ _ _ _ A2 S1 _ Hia), (proxy_id_slot _ _ _ _ A2 S2 _ Hib) in Hov. rewrite (proj1 K2) in Hov. unfold bp_test_overlap in Hov. rewrite G1, G2 in Hov. cbn [bind] in Hov. apply Sp, overlap_R. congruence.
    - intros [w1 dead] [K1 D1]. cbn [fst snd] in *. apply (ok_each (kp false (gone w) w)); [|eapply kp_weak; [exact K1|intros p []]]. intros i s Hi Ks. apply kp_destroy_contact; [exact Ks|]. intros c Hc.
      destruct Ks as (_ & _ & _ & _ & _ & _ & Bk). destruct (Bk eq_refl i c Hc) as (d & Hd & ->). eapply D1; eauto.
  Qed.
End Pairs.

(** ** proxies *)
Lemma M_bp w X X' bp x' f x : M true X w -> w_fixtures w f = Some x -> vff x' = vff x -> bcomp true bp (slots w) (Kn X' w) -> M true X' (put_fixture f x' (set_w_bp bp w)) /\ fr false lose_none w (put_fixture f x' (set_w_bp bp w)).
Proof.
  intros [A B] Hx V H. assert (F : fr false lose_none w (put_fixture f x' (set_w_bp bp w))) by (apply (fr_fixture false lose_none w (set_w_bp bp w) f x x'); [apply (fr_refl false lose_none w)|exact Hx|exact V]).
  split; [|exact F]. pose proof (fr_same_f _ _ _ _ F) as SF. split; [intros g v; rewrite SF; apply A|]. cbn [w_bp put_fixture set_w_fixtures set_w_bp]. eapply bcomp_mono; [exact H|now apply slots_same|auto|].
  intros g k h l _ [Q|[Q|Q]]; [now left|right; now left|]. right. right. intros P0. eapply fr_has; [exact F|apply Q; now apply (fr_may _ _ _ _ _ _ F)|intros []|intros []].
Qed.
Lemma M_synchronize X w f xf1 xf2 : M true X w -> ok (synchronize f xf1 xf2 w) (fun z => M true X z /\ fr false lose_none w z).
Proof.
  intros H. pose proof H as (A & B). unfold synchronize. apply ok_bind, ok_unwrap. intros x Hx.
  assert (Hg : g_f (graph_of w) f = Some (view_f x)) by (cbn; now rewrite Hx). destruct (A f _ Hg) as [Hn Hp]. cbn [view_f v_count v_proxies] in Hn, Hp.
  destruct (Nat.eqb (f_proxy_count x) 0); [apply ok_ok; split; [exact H|apply fr_refl]|].
  apply ok_bind. apply (ok_mono _ (fun st => map view_p (fst st) = map view_p (f_proxies x) /\ bcomp true (snd st) (slots w) (Kn X w))).
  - apply (ok_for (fun _ st => map view_p (fst st) = map view_p (f_proxies x) /\ bcomp true (snd st) (slots w) (Kn X w))); [split; [reflexivity|exact B]|].
    intros i [ps bp] Hi (Mp & BI). cbn [fst snd] in *. apply ok_bind, ok_get. intros p Hpi. destruct (Hp i Hi) as (id & Hid). rewrite nth_error_map in Hid.
    assert (Vp : view_p p = (Some f, i, Some id)). { pose proof (nth_map_eq view_p ps (f_proxies x) i Mp) as Q. rewrite Hpi, Hid in Q. cbn in Q. congruence. }
    unfold view_p in Vp. injection Vp as Vp1 Vp2 Vp3. rewrite Vp3. apply ok_bind, ok_any. intros a1. apply ok_bind, ok_any. intros a2. cbv zeta. cbn [unwrap bind].
    apply ok_bind, ok_eq. intros bp' Eb. apply ok_bind, ok_set. intros Lp. apply ok_ok. cbn [fst snd]. split; [erewrite upd_map; [exact Mp|exact Hpi|reflexivity]|]. eapply bcomp_move; [exact BI| |exact Eb]. apply (slot_at w f x i id Hx Hi Hid).
  - intros [ps bp] (Mp & BI). cbn [fst snd] in *. apply ok_ok. apply (M_bp w X X bp _ f x H Hx); [|exact BI]. unfold vff, view_f. cbn. now rewrite Mp.
Qed.
Lemma M_sync_list X w xf1 xf2 l : M true X w -> ok (each (fun f => synchronize f xf1 xf2) l w) (fun z => M true X z /\ fr false lose_none w z).
Proof.
  intros H. apply (ok_each (fun z => M true X z /\ fr false lose_none w z)); [|split; [exact H|apply fr_refl]]. intros f s _ [Hs Fs]. eapply ok_mono; [apply (M_synchronize X); exact Hs|]. intros z [Hz Fz]. split; [exact Hz|eapply fr_trans; eauto].
Qed.
Lemma M_sync X w i : M true X w -> ok (synchronize_fixtures i w) (fun z => M true X z /\ fr false lose_none w z).
Proof. intros H. unfold synchronize_fixtures. apply ok_bind, ok_any. intros b. cbv zeta. now apply M_sync_list. Qed.
(* touching the proxies of a fixture: its pairs will be looked at *)
Lemma M_touch X w f : M true X w -> ok (touch_proxies f w) (fun z => M true (fun g => X g /\ g <> f) z /\ fr false lose_none w z).
Proof.
  intros (A & B). unfold touch_proxies. apply ok_bind, ok_unwrap. intros x Hx.
  assert (Hg : g_f (graph_of w) f = Some (view_f x)) by (cbn; now rewrite Hx). destruct (A f _ Hg) as [Hc Hp]. cbn [view_f v_count v_proxies] in Hc, Hp.
  set (Y := fun n g k => X g /\ ~ (g = f /\ k < n)). set (KY := fun n g k h l => Y n g k \/ Y n h l \/ (may_touch w g h -> has_contact w g k h l)).
  apply ok_bind. apply (ok_mono _ (fun bp => bcomp true bp (slots w) (KY (f_proxy_count x)))).
  - apply (ok_for (fun n bp => bcomp true bp (slots w) (KY n))).
    + eapply bcomp_mono; [exact B|reflexivity|auto|]. intros g k h l _ [Q|[Q|Q]]; [left; split; [exact Q|lia]|right; left; split; [exact Q|lia]|right; right; exact Q].
    + intros i bp Hk Hbp. destruct (Hp i Hk) as (id & Hid). rewrite nth_error_map in Hid. apply ok_bind, ok_get. intros pr Hpr. pose proof Hid as Hid'. rewrite Hpr in Hid'. cbn in Hid'. unfold view_p in Hid'. injection Hid' as _ _ Hid'. rewrite Hid'. cbn [unwrap bind].
      apply ok_eq. intros bp' Eb. eapply bcomp_touch; [exact Hbp|apply (slot_at w f x i id Hx Hk Hid)|exact Eb|]. intros g k h l N1 N2 [[Q1 Q2]|[[Q1 Q2]|Q]]; [left|right; left|right; right; exact Q].
      * split; [exact Q1|]. intros [-> Q]. apply Q2. split; [reflexivity|]. destruct (Nat.eq_dec k i) as [->|]; [congruence|lia].
      * split; [exact Q1|]. intros [-> Q]. apply Q2. split; [reflexivity|]. destruct (Nat.eq_dec l i) as [->|]; [congruence|lia].
  - intros bp Hbp. apply ok_ok. split; [|apply (fr_refl false lose_none w)]. split; [exact A|]. eapply bcomp_mono; [exact Hbp|reflexivity|auto|].
    assert (U : forall h l id, slots w h l = Some id -> Y (f_proxy_count x) h l -> X h /\ h <> f).
    { intros h l id Hs [Q1 Q2]. split; [exact Q1|]. intros ->. apply Q2. split; [reflexivity|]. unfold slots, slot in Hs. rewrite Hg in Hs. cbn [view_f v_count] in Hs. destruct (Nat.ltb_spec l (f_proxy_count x)); [assumption|easy]. }
    intros g k h l (i1 & i2 & b1 & b2 & S1 & S2 & _) [Q|[Q|Q]]; [left; eapply U; eauto|right; left; eapply U; eauto|right; right; exact Q].
Qed.
