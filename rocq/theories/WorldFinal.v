(** The claims about worlds follow from the invariant. *)
From Coq Require Import List ZArith Bool Arith Lia Permutation.
From Verif Require Import Base Num Math Collision Manifold Filter ShapeModel ListFacts ManifoldProofs TreeModel TreeSpec TreeHist BroadModel BroadSpec BroadProofs BroadFinal DynModel DynSpec DynProofs WorldModel WorldGraph WorldSpec WorldClaims WorldGops WorldLogic WorldPhys WorldContact WorldInv WorldOps WorldFix WorldBody WorldLife WorldSet WorldIsland WorldSolve WorldToi WorldStep WorldCalls WorldHist.
Import ListNotations.

Lemma filter_one {A} (f : A -> bool) e l : NoDup l -> In e l -> f e = true -> (forall x, In x l -> f x = true -> x = e) -> List.filter f l = [e].
Proof.
  induction l as [|y l IH]; intros N I He H; [easy|]. inversion N as [|? ? Ny Nl]; subst. cbn. destruct (f y) eqn:Fy.
  - assert (y = e) as -> by (apply H; cbn; auto). f_equal. clear IH He I N Nl. induction l as [|z l IH]; auto. cbn. destruct (f z) eqn:Fz.
    + exfalso. apply Ny. left. apply H; cbn; auto.
    + apply IH; cbn in *; try tauto. intros x Hx. apply H. tauto.
  - apply IH; auto; [destruct I; [congruence|auto]|]. intros x Hx. apply H. now right.
Qed.
Lemma filter_none {A} (f : A -> bool) l : (forall x, In x l -> f x = false) -> List.filter f l = [].
Proof. induction l as [|y l IH]; intros H; auto. cbn. rewrite (H y) by (cbn; auto). apply IH. intros x Hx. apply H. now right. Qed.
Lemma filter_ext_in' {A} (f g : A -> bool) l : (forall x, In x l -> f x = g x) -> List.filter f l = List.filter g l.
Proof. apply filter_ext_in. Qed.
Lemma NoDup_flat {A B} (f : A -> list B) l : NoDup l -> (forall x, In x l -> NoDup (f x)) -> (forall x y b, In x l -> In y l -> In b (f x) -> In b (f y) -> x = y) -> NoDup (flat_map f l).
Proof.
  induction l as [|a l IH]; intros N H D; cbn; [apply NoDup_nil|]. inversion N as [|? ? Na Nl]; subst. apply NoDup_app_iff'. refine (conj _ (conj _ _)).
  - apply H. now left.
  - apply IH; auto; [intros x Hx; apply H; now right|]. intros x y b Hx Hy. apply D; now right.
  - intros b Hb Hb'. apply in_flat_map in Hb'. destruct Hb' as (y & Hy & K). apply Na. rewrite (D a y b); cbn; auto.
Qed.
Lemma NoDup_map_on {A B} (f : A -> B) l : NoDup l -> (forall x y, In x l -> In y l -> f x = f y -> x = y) -> NoDup (map f l).
Proof.
  induction l as [|a l IH]; intros N H; cbn; [apply NoDup_nil|]. inversion N as [|? ? Na Nl]; subst. apply NoDup_cons.
  - intros Q. apply in_map_iff in Q. destruct Q as (y & Ey & Hy). apply Na. rewrite (H a y); cbn; auto.
  - apply IH; auto. intros x y Hx Hy. apply H; now right.
Qed.
Lemma length_flat {A B} (f : A -> list B) l : length (flat_map f l) = sum (map (fun x => length (f x)) l).
Proof. induction l as [|a l IH]; auto. cbn. rewrite app_length, IH. reflexivity. Qed.
Lemma sum_ext {A} (f g : A -> nat) l : (forall x, In x l -> f x = g x) -> sum (map f l) = sum (map g l).
Proof. intros H. f_equal. now apply map_ext_in. Qed.

Section Final.
  Local Open Scope num_scope.
  Context {T : Type} `{NT : Num T} `{TT : NumTrig T} `{VT : NumValid T}.
  Notation world := (world T).
  Implicit Types w : world.
  Variable p : Prop.
  Variable oks : vec2 T -> Prop.
  Notation W := (W p oks).

  Lemma body_owner w f : body_of w f = owner (graph_of w) f.
  Proof. unfold body_of, owner. cbn. now destruct (w_fixtures w f). Qed.
  Lemma cbody_raw w c x s : w_contacts w c = Some x -> cbody (graph_of w) c s = body_of w (if s then c_fa x else c_fb x).
  Proof. intros H. unfold cbody. cbn. rewrite H. cbn. rewrite body_owner. now destruct s. Qed.
  Lemma cbody_live w c s i : cbody (graph_of w) c s = Some i -> w_contacts w c <> None.
  Proof. unfold cbody. cbn. now destruct (w_contacts w c). Qed.
  Lemma bodies_of_raw w c x a b : w_contacts w c = Some x -> (bodies_of w x = Some (a, b) <-> cbody (graph_of w) c true = Some a /\ cbody (graph_of w) c false = Some b).
  Proof.
    intros H. rewrite !(cbody_raw w c x) by auto. unfold bodies_of. destruct (body_of w (c_fa x)), (body_of w (c_fb x)); split; intros Q; try easy; try (now destruct Q); [injection Q as -> ->; auto|destruct Q; congruence].
  Qed.
  Lemma barred_raw w a b : barred (graph_of w) a b <-> joint_forbids w a b.
  Proof.
    split.
    - intros (j & s & v & H1 & H2 & H3 & H4). unfold jbody in H3, H4. rewrite H1 in H3, H4. cbn in H1. destruct (w_joints w j) as [x|] eqn:Ex; [|easy]. cbn in H1. injection H1 as <-. exists j, x. split; auto. split; [exact H2|]. cbn in H3, H4. destruct s; cbn in *; [left|right]; split; congruence.
    - intros (j & x & H1 & H2 & [[H3 H4]|[H3 H4]]); [exists j, true, (view_j x)|exists j, false, (view_j x)]; unfold jbody; cbn; rewrite H1; cbn; repeat split; auto; congruence.
  Qed.
  Lemma dynamic_raw w i : dynamic w i <-> dynamic_at w i.
  Proof. reflexivity. Qed.
  Lemma listed_table {A B} (t : nat -> option A) (k : A -> B) n l m : table_ok (fun i => option_map k (t i)) n l m -> listed t l m.
  Proof. intros (H1 & H2 & H3 & _). refine (conj H1 (conj _ H3)). intros i. rewrite H2. now destruct (t i). Qed.

  (** ** edges *)
  Section Edges.
    Context {A : Type} (t : nat -> option A) (ends : nat -> bool -> option nat) (edges : nat -> list gedge).
    Hypothesis H : edges_ok t ends edges.
    Hypothesis L : forall c s i, ends c s = Some i -> t c <> None.
    Lemma edge_once c a b : ends c true = Some a -> ends c false = Some b -> once (edges a) c true b /\ once (edges b) c false a.
    Proof.
      destruct H as (N & I & D). intros Ha Hb. assert (Hab : a <> b). { destruct (D c) as (a' & b' & X & Y & Z); [now apply (L c true a)|]. congruence. }
      split; (apply filter_one; [apply N|apply I; cbn; auto|apply Nat.eqb_refl|]); intros [i s o] Hi Q; apply Nat.eqb_eq in Q; cbn in Q; subst i; apply I in Hi; destruct Hi as [H1 H2]; destruct s; cbn in H2; try congruence.
    Qed.
    Lemma edge_nowhere c i : (forall s, ends c s <> Some i) -> nowhere (edges i) c.
    Proof.
      destruct H as (N & I & D). intros K. apply filter_none. intros [j s o] Hi. unfold edge_here. cbn. apply Nat.eqb_neq. intros ->. apply I in Hi. destruct Hi as [H1 _]. now apply K in H1.
    Qed.
  End Edges.

  (** ** C19, C24: lists *)
  Theorem contact_graph_ok w : W w -> contact_graph w.
  Proof.
    intros H. destruct (W_graph _ _ _ H) as (IB & IF & (C1 & C2 & C3 & C4) & IJ). pose proof C2 as (_ & _ & D).
    assert (L : forall c s i, cbody (graph_of w) c s = Some i -> g_c (graph_of w) c <> None) by (intros c s i Q; apply cbody_live in Q; cbn; now destruct (w_contacts w c)).
    refine (conj _ (conj _ _)).
    - eapply listed_table. exact C1.
    - intros c x Hx. destruct (D c) as (a & b & Ha & Hb & Hab); [cbn; now rewrite Hx|].
      assert (Lb : forall s i, cbody (graph_of w) c s = Some i -> exists y, w_bodies w i = Some y /\ contacts_of (graph_of w) i = b_contacts y).
      { intros s i Q. assert (g_b (graph_of w) i <> None) as K by (eapply contact_bodies_live; eauto; apply H). unfold contacts_of. cbn in *. destruct (w_bodies w i) as [y|]; [|easy]. eauto. }
      destruct (Lb true a Ha) as (ya & Eya & Ea). destruct (Lb false b Hb) as (yb & Eyb & Eb). destruct (edge_once _ _ _ C2 L c a b Ha Hb) as [O1 O2].
      exists a, b, ya, yb. rewrite <- Ea, <- Eb. refine (conj _ (conj Hab (conj Eya (conj Eyb (conj O1 (conj O2 _)))))).
      + apply (bodies_of_raw w c x); auto.
      + intros i y Hy Na Nb. replace (b_contacts y) with (contacts_of (graph_of w) i) by (unfold contacts_of; cbn; now rewrite Hy). eapply edge_nowhere; [exact C2|]. intros [|]; congruence.
    - intros c i y Hc Hy. replace (b_contacts y) with (contacts_of (graph_of w) i) by (unfold contacts_of; cbn; now rewrite Hy). eapply edge_nowhere; [exact C2|]. intros s Q. now apply cbody_live in Q.
  Qed.
  Theorem joint_graph_ok w : W w -> joint_graph w.
  Proof.
    intros H. destruct (W_graph _ _ _ H) as (IB & IF & IC & (C1 & C2 & C3)). pose proof C2 as (_ & _ & D).
    assert (L : forall c s i, jbody (graph_of w) c s = Some i -> g_j (graph_of w) c <> None) by (intros c s i Q; unfold jbody in Q; now destruct (g_j (graph_of w) c)).
    refine (conj _ (conj _ _)).
    - eapply listed_table. exact C1.
    - intros c x Hx. destruct (D c) as (a & b & Ha & Hb & Hab); [cbn; now rewrite Hx|].
      assert (a = j_a x) as -> by (unfold jbody in Ha; cbn in Ha; rewrite Hx in Ha; cbn in Ha; congruence). assert (b = j_b x) as -> by (unfold jbody in Hb; cbn in Hb; rewrite Hx in Hb; cbn in Hb; congruence).
      assert (Lb : forall s i, jbody (graph_of w) c s = Some i -> exists y, w_bodies w i = Some y /\ joints_of (graph_of w) i = b_joints y).
      { intros s i Q. apply C3 in Q. unfold joints_of. cbn in *. destruct (w_bodies w i) as [y|]; [|easy]. eauto. }
      destruct (Lb true _ Ha) as (ya & Eya & Ea). destruct (Lb false _ Hb) as (yb & Eyb & Eb). destruct (edge_once _ _ _ C2 L c _ _ Ha Hb) as [O1 O2].
      exists ya, yb. rewrite <- Ea, <- Eb. refine (conj Hab (conj Eya (conj Eyb (conj O1 (conj O2 _))))).
      intros i y Hy Na Nb. replace (b_joints y) with (joints_of (graph_of w) i) by (unfold joints_of; cbn; now rewrite Hy). eapply edge_nowhere; [exact C2|]. intros [|]; congruence.
    - intros c i y Hc Hy. replace (b_joints y) with (joints_of (graph_of w) i) by (unfold joints_of; cbn; now rewrite Hy). eapply edge_nowhere; [exact C2|]. intros s Q. unfold jbody in Q. cbn in Q. now rewrite Hc in Q.
  Qed.
  Theorem fixture_graph_ok w : W w -> fixture_graph w.
  Proof.
    intros H. destruct (W_graph _ _ _ H) as (IB & (F1 & F2 & F3 & F4 & F5) & _). refine (conj _ (conj _ _)).
    - eapply listed_table. exact IB.
    - intros i b Hb. assert (fixtures_of (graph_of w) i = b_fixtures b) as Q by (unfold fixtures_of; cbn; now rewrite Hb). refine (conj _ (conj _ _)).
      + rewrite <- Q. apply F1.
      + intros f. rewrite <- Q, F3, body_owner. destruct (owner (graph_of w) f) as [j|]; [|easy]. destruct (Nat.eqb_spec i j); split; congruence.
      + apply (F2 i (view_b b)). cbn. now rewrite Hb.
    - intros f x Hf. assert (owner (graph_of w) f <> None) as Q by (apply F4; cbn; now rewrite Hf). assert (owner (graph_of w) f = f_body x) as K by (unfold owner; cbn; now rewrite Hf).
      destruct (f_body x) as [i|] eqn:Ei; [|congruence]. rewrite K in Q. apply F3 in K. unfold fixtures_of in K. cbn in K. destruct (w_bodies w i) as [b|] eqn:Eb; [|easy]. eauto.
  Qed.

  (** ** C17 *)
  Theorem one_per_pair w c c' x y : W w -> w_contacts w c = Some x -> w_contacts w c' = Some y -> same_children x y -> c = c'.
  Proof.
    intros H Hx Hy S. destruct (W_graph _ _ _ H) as (_ & _ & (_ & _ & _ & C4) & _). apply (C4 c c' (view_c x) (view_c y)); cbn; [now rewrite Hx|now rewrite Hy|].
    unfold same_children, pair_key in S. unfold pair_of, view_c. cbn in *. destruct S as [S|S]; [left|right]; congruence.
  Qed.

  (** ** C18 *)
  Theorem contact_now w c x : W w -> w_contacts w c = Some x -> exists a b, bodies_of w x = Some (a, b) /\ a <> b /\ (dynamic w a \/ dynamic w b) /\
    turned_on w a /\ turned_on w b /\ (joint_forbids w a b -> cf_filter (c_flags x) = true).
  Proof.
    intros H Hx. destruct (contact_graph_ok w H) as (_ & G & _). destruct (G c x Hx) as (a & b & ba & bb & B & Hab & Ea & Eb & _). exists a, b.
    pose proof (proj1 (bodies_of_raw w c x a b Hx) B) as [Ka Kb]. destruct (W_enabled _ _ _ H) as (_ & En & Dy).
    assert (Ga : g_b (graph_of w) a = Some (view_b ba)) by (cbn; now rewrite Ea). assert (Gb : g_b (graph_of w) b = Some (view_b bb)) by (cbn; now rewrite Eb).
    refine (conj B (conj Hab (conj _ (conj _ (conj _ _))))).
    - destruct (Dy c a b _ _ Ka Kb Ga Gb) as [Q|Q]; [left; exists ba|right; exists bb]; auto.
    - exists ba. split; auto. exact (En c true a _ Ka Ga).
    - exists bb. split; auto. exact (En c false b _ Kb Gb).
    - intros J. apply barred_raw in J. eapply (W_flags _ _ _ H); eauto.
  Qed.
  Lemma alike_rules w v : alike w v -> same_rules w v.
  Proof.
    intros (A & B & C). refine (conj _ (conj _ _)).
    - intros f. specialize (A f). destruct (w_fixtures v f), (w_fixtures w f); cbn in *; try easy. unfold view_fx, view_f in A. congruence.
    - intros i. specialize (B i). cbn in B. destruct (w_bodies v i), (w_bodies w i); cbn in *; try easy; unfold kind in B; cbn in B; congruence.
    - intros j. specialize (C j). cbn in C. destruct (w_joints v j), (w_joints w j); cbn in *; try easy; unfold view_j in C; congruence.
  Qed.
  Lemma eligible_meet E w x a b : eligible E w (view_c x) a b -> may_meet E w x.
  Proof.
    intros (Oa & Ob & Hab & Dy & Nb & Fi & _). exists a, b. cbn in Oa, Ob, Fi. rewrite <- body_owner in Oa, Ob. refine (conj _ (conj Hab (conj Dy (conj _ Fi)))).
    - unfold bodies_of. now rewrite Oa, Ob.
    - intros J. apply Nb. now apply barred_raw.
  Qed.

  (** ** C20 *)
  Lemma follow_snoc l : forall t e, follow t (l ++ [e]) = match follow t l with Some u => if Bool.eqb e u then None else Some e | None => None end.
  Proof. induction l as [|d l IH]; intros t e; cbn; [now destruct (Bool.eqb e t)|]. destruct (Bool.eqb d t); auto. Qed.
  Lemma alt_follow b l : alt b l -> follow false (rev l) = Some b.
  Proof. induction 1 as [|l _ IH|l _ IH]; auto; cbn [rev]; rewrite follow_snoc, IH; reflexivity. Qed.
  Lemma flat_map_rev1 {A B} (f : A -> list B) l : (forall x, rev (f x) = f x) -> flat_map f (rev l) = rev (flat_map f l).
  Proof. intros H. induction l as [|a l IH]; auto. cbn. rewrite flat_map_app, rev_app_distr, IH, H. cbn. now rewrite app_nil_r. Qed.
  Theorem begin_end w c : W w -> w_listener w = true -> follow false (told w c) = Some (is_touching w c).
  Proof.
    intros H L. pose proof (alt_follow _ _ (W_ev _ _ _ H L c)) as Q. change (touches w c) with (is_touching w c) in Q. rewrite <- Q. f_equal. unfold told, talk. rewrite <- flat_map_rev1; [reflexivity|].
    intros e. destruct e; auto; cbn; now destruct (Nat.eqb _ _).
  Qed.

  (** ** C26 *)
  Definition slots w : list (nat * nat) :=
    flat_map (fun i => flat_map (fun f => map (pair f) (seq 0 (proxies_of w f))) (fixtures_of (graph_of w) i)) (w_body_list w).
  Lemma proxies_children w i b f : W w -> w_bodies w i = Some b -> In f (b_fixtures b) -> proxies_of w f = if is_enabled b then children w f else 0%nat.
  Proof.
    intros H Hb Hf. destruct (W_graph _ _ _ H) as (_ & (_ & _ & F3 & _) & _). assert (Q : owner (graph_of w) f = Some i) by (apply F3; unfold fixtures_of; cbn; now rewrite Hb).
    unfold owner in Q. destruct (g_f (graph_of w) f) as [v|] eqn:Ev; [|easy]. pose proof Ev as Ev'. cbn in Ev. destruct (w_fixtures w f) as [x|] eqn:Ex; [|easy]. cbn in Ev. injection Ev as <-.
    destruct (W_enabled _ _ _ H) as (A & _). assert (Gb : g_b (graph_of w) i = Some (view_b b)) by (cbn; now rewrite Hb). specialize (A f _ i _ Ev' Q Gb). cbn in A. rewrite map_length in A.
    destruct (W_shapes _ _ _ H f x Ex) as [S _]. unfold proxies_of, children. rewrite Ex, S, A. reflexivity.
  Qed.
  Theorem proxy_count w : W w -> bp_proxies (w_bp w) = Z.of_nat (enabled_children w).
  Proof.
    intros H. destruct (W_graph _ _ _ H) as ((Nb & Ib & _) & (F1 & _ & F3 & F4 & _) & _). destruct (W_fits _ _ _ H) as (PO & m & pw & k & B & (P1 & P2)).
    destruct (count_any _ _ _ _ _ B) as (-> & ls & Nl & Il & <-). f_equal.
    set (num := fun fk : nat * nat => match slot (g_f (graph_of w)) (fst fk) (snd fk) with Some id => id | None => 0%nat end).
    assert (Sl : forall f k, In (f, k) (slots w) -> exists id, slot (g_f (graph_of w)) f k = Some id).
    { intros f k0 Hin. apply in_flat_map in Hin. destruct Hin as (i & Hi & Hin). apply in_flat_map in Hin. destruct Hin as (f' & Hf & Hin). apply in_map_iff in Hin. destruct Hin as (k' & Q & Hk). injection Q as -> ->. apply in_seq in Hk.
      unfold proxies_of in Hk. destruct (w_fixtures w f) as [x|] eqn:Ex; [|lia]. assert (g_f (graph_of w) f = Some (view_f x)) as Gf by (cbn; now rewrite Ex). destruct (PO f _ Gf) as [_ K]. destruct (K k0) as (id & Q); [cbn; lia|].
      exists id. unfold slot. rewrite Gf. cbn [view_f v_count v_proxies] in *. destruct (Nat.ltb_spec k0 (f_proxy_count x)); [|lia]. now rewrite Q. }
    assert (Sr : forall f k id, slot (g_f (graph_of w)) f k = Some id -> In (f, k) (slots w)).
    { intros f k0 id Q. unfold slot in Q. destruct (g_f (graph_of w) f) as [v|] eqn:Ev; [|easy]. pose proof Ev as Ev'. cbn in Ev. destruct (w_fixtures w f) as [x|] eqn:Ex; [|easy]. cbn in Ev. injection Ev as <-.
      cbn [view_f v_count] in Q. destruct (Nat.ltb_spec k0 (f_proxy_count x)) as [Lk|]; [|easy]. assert (owner (graph_of w) f <> None) as O by (apply F4; congruence). destruct (owner (graph_of w) f) as [i|] eqn:Oi; [|easy].
      pose proof (proj2 (F3 i f) Oi) as Hf. apply in_flat_map. exists i. split.
      - apply Ib. unfold fixtures_of in Hf. destruct (g_b (graph_of w) i); easy.
      - apply in_flat_map. exists f. split; auto. apply in_map, in_seq. unfold proxies_of. rewrite Ex. lia. }
    assert (Ns : NoDup (slots w)).
    { apply NoDup_flat; auto.
      - intros i Hi. apply NoDup_flat; [apply F1| |].
        + intros f Hf. apply NoDup_map_on; [apply seq_NoDup|]. intros. congruence.
        + intros f f' [g k'] Hf Hf' Q Q'. apply in_map_iff in Q. apply in_map_iff in Q'. destruct Q as (? & Q & _). destruct Q' as (? & Q' & _). congruence.
      - intros i i' [g k'] Hi Hi' Q Q'. apply in_flat_map in Q. apply in_flat_map in Q'. destruct Q as (f & Hf & Q). destruct Q' as (f' & Hf' & Q'). apply in_map_iff in Q. apply in_map_iff in Q'. destruct Q as (? & Q & _). destruct Q' as (? & Q' & _).
        assert (f = f') as <- by congruence. apply F3 in Hf. apply F3 in Hf'. congruence. }
    assert (L1 : length ls = length (slots w)).
    { rewrite <- (map_length num (slots w)). apply Permutation_length. apply NoDup_Permutation; auto.
      - apply NoDup_map_on; auto. intros [f k0] [f' k'] Hx Hy Q. destruct (Sl _ _ Hx) as (id & Q1). destruct (Sl _ _ Hy) as (id' & Q2). unfold num in Q. cbn [fst snd] in Q. rewrite Q1, Q2 in Q. subst id'.
        destruct (P1 _ _ _ Q1) as (? & ? & E1). destruct (P1 _ _ _ Q2) as (? & ? & E2). congruence.
      - intros id. rewrite Il, in_map_iff. split.
        + intros Lv. unfold live in Lv. destruct (m id) as [[[bx u] fl]|] eqn:Em; [|easy]. destruct (P2 _ _ _ _ Em) as (f & k0 & -> & Q). exists (f, k0). split; [unfold num; cbn [fst snd]; now rewrite Q|eauto].
        + intros ([f k0] & Q & Hin). destruct (Sl _ _ Hin) as (id' & Q'). unfold num in Q. cbn [fst snd] in Q. rewrite Q' in Q. subst id'. destruct (P1 _ _ _ Q') as (? & ? & Em). unfold live. congruence. }
    rewrite L1. unfold slots. rewrite length_flat. unfold enabled_children. apply sum_ext. intros i Hi. apply Ib in Hi. cbn in Hi. destruct (w_bodies w i) as [b|] eqn:Eb; [|easy]. rewrite length_flat.
    assert (fixtures_of (graph_of w) i = b_fixtures b) as -> by (unfold fixtures_of; cbn; now rewrite Eb). rewrite (sum_ext _ (fun f => if is_enabled b then children w f else 0%nat)).
    - destruct (is_enabled b); auto. clear. induction (b_fixtures b); auto.
    - intros f Hf. rewrite map_length, seq_length. now apply (proxies_children w i).
  Qed.
End Final.
