(** The links between the objects of a world, seen as a graph, and the invariant of that graph. *)
From Coq Require Import List ZArith Bool Arith Lia.
From Verif Require Import Base Num Math Collision ShapeModel DynModel BroadModel WorldModel.
Import ListNotations.

Record bview := BView { v_type : btype; v_enabled : bool; v_fixtures : list nat; v_fcount : nat; v_joints : list gedge; v_contacts : list gedge }.
(* a proxy record: fixture, child, proxy id *)
Definition pview := (option nat * nat * option nat)%type.
Record fview (T : Type) := FView { v_body : option nat; v_shape : shape T; v_count : nat; v_proxies : list pview }.
Arguments FView {T} _ _ _ _.
Arguments v_body {T} _.
Arguments v_shape {T} _.
Arguments v_count {T} _.
Arguments v_proxies {T} _.
Record cview := CView { v_fa : nat; v_ia : nat; v_fb : nat; v_ib : nat }.
Record jview := JView { v_a : nat; v_b : nat; v_collide : bool }.

Record graph (T : Type) := Graph {
  g_b : nat -> option bview; g_f : nat -> option (fview T); g_c : nat -> option cview; g_j : nat -> option jview;
  g_nb : nat; g_nf : nat; g_nc : nat; g_nj : nat;
  g_bl : list nat; g_cl : list nat; g_jl : list nat;
  g_bn : nat; g_cn : nat; g_jn : nat }.
Arguments Graph {T} _ _ _ _ _ _ _ _ _ _ _ _ _ _.
Arguments g_b {T} _.
Arguments g_f {T} _.
Arguments g_c {T} _.
Arguments g_j {T} _.
Arguments g_nb {T} _.
Arguments g_nf {T} _.
Arguments g_nc {T} _.
Arguments g_nj {T} _.
Arguments g_bl {T} _.
Arguments g_cl {T} _.
Arguments g_jl {T} _.
Arguments g_bn {T} _.
Arguments g_cn {T} _.
Arguments g_jn {T} _.

Definition on_contacts (f : list gedge -> list gedge) (v : bview) : bview := BView (v_type v) (v_enabled v) (v_fixtures v) (v_fcount v) (v_joints v) (f (v_contacts v)).
Definition on_joints (f : list gedge -> list gedge) (v : bview) : bview := BView (v_type v) (v_enabled v) (v_fixtures v) (v_fcount v) (f (v_joints v)) (v_contacts v).
Definition without (i : nat) : list nat -> list nat := List.filter (fun j => negb (Nat.eqb j i)).
Definition without_edge (i : nat) : list gedge -> list gedge := List.filter (fun e => negb (Nat.eqb (ge_item e) i)).

Section Views.
  Context {T : Type}.
  Definition view_b (b : body T) : bview := BView (b_type b) (is_enabled b) (b_fixtures b) (b_fixture_count b) (b_joints b) (b_contacts b).
  Definition view_p (p : fproxy T) : pview := (fp_fixture p, fp_child p, fp_id p).
  Definition view_f (f : fixture T) : fview T := FView (f_body f) (f_shape f) (f_proxy_count f) (map view_p (f_proxies f)).
  Definition view_c (c : contact T) : cview := CView (c_fa c) (c_ia c) (c_fb c) (c_ib c).
  Definition view_j (j : joint) : jview := JView (j_a j) (j_b j) (j_collide j).
  Definition graph_of (w : world T) : graph T :=
    Graph (fun i => option_map view_b (w_bodies w i)) (fun i => option_map view_f (w_fixtures w i))
      (fun i => option_map view_c (w_contacts w i)) (fun i => option_map view_j (w_joints w i))
      (w_next_body w) (w_next_fixture w) (w_next_contact w) (w_next_joint w)
      (w_body_list w) (w_contact_list w) (w_joint_list w) (w_body_count w) (w_contact_count w) (w_joint_count w).
End Views.

Section Graph.
  Context {T : Type}.
  Notation graph := (graph T).
  Implicit Types g : graph.

  Definition geq (g h : graph) : Prop :=
    (forall i, g_b g i = g_b h i) /\ (forall i, g_f g i = g_f h i) /\ (forall i, g_c g i = g_c h i) /\ (forall i, g_j g i = g_j h i) /\
    (g_nb g, g_nf g, g_nc g, g_nj g) = (g_nb h, g_nf h, g_nc h, g_nj h) /\
    (g_bl g, g_cl g, g_jl g) = (g_bl h, g_cl h, g_jl h) /\ (g_bn g, g_cn g, g_jn g) = (g_bn h, g_cn h, g_jn h).

  (** who belongs to whom *)
  Definition owner g (f : nat) : option nat := match g_f g f with Some v => v_body v | None => None end.
  Definition cbody g (c : nat) (side : bool) : option nat :=
    match g_c g c with Some v => owner g (if side then v_fa v else v_fb v) | None => None end.
  Definition jbody g (j : nat) (side : bool) : option nat :=
    match g_j g j with Some v => Some (if side then v_a v else v_b v) | None => None end.
  Definition fixtures_of g (i : nat) : list nat := match g_b g i with Some v => v_fixtures v | None => [] end.
  Definition contacts_of g (i : nat) : list gedge := match g_b g i with Some v => v_contacts v | None => [] end.
  Definition joints_of g (i : nat) : list gedge := match g_b g i with Some v => v_joints v | None => [] end.

  (** a table with its list, its count and its next number *)
  Definition table_ok {A} (t : nat -> option A) (next : nat) (l : list nat) (n : nat) : Prop :=
    NoDup l /\ (forall i, In i l <-> t i <> None) /\ n = length l /\ (forall i, next <= i -> t i = None).

  (* the edges of an item with bodies [ends] *)
  Definition edges_ok {A} (t : nat -> option A) (ends : nat -> bool -> option nat) (edges : nat -> list gedge) : Prop :=
    (forall i, NoDup (edges i)) /\
    (forall i c s o, In (GEdge c s o) (edges i) <-> ends c s = Some i /\ ends c (negb s) = Some o) /\
    (forall c, t c <> None -> exists a b, ends c true = Some a /\ ends c false = Some b /\ a <> b).

  Definition bodies_ok g : Prop := table_ok (g_b g) (g_nb g) (g_bl g) (g_bn g).
  Definition fixtures_ok g : Prop :=
    (forall i, NoDup (fixtures_of g i)) /\
    (forall i v, g_b g i = Some v -> v_fcount v = length (v_fixtures v)) /\
    (forall i f, In f (fixtures_of g i) <-> owner g f = Some i) /\
    (forall f, g_f g f <> None -> owner g f <> None) /\
    (forall f, g_nf g <= f -> g_f g f = None).
  Definition pair_of (v : cview) (v' : cview) : Prop :=
    v = v' \/ v = CView (v_fb v') (v_ib v') (v_fa v') (v_ia v').
  Definition contacts_ok g : Prop :=
    table_ok (g_c g) (g_nc g) (g_cl g) (g_cn g) /\
    edges_ok (g_c g) (cbody g) (contacts_of g) /\
    (forall c v, g_c g c = Some v -> exists fa fb, g_f g (v_fa v) = Some fa /\ g_f g (v_fb v) = Some fb /\
       v_ia v < length (v_proxies fa) /\ v_ib v < length (v_proxies fb)) /\
    (forall c c' v v', g_c g c = Some v -> g_c g c' = Some v' -> pair_of v v' -> c = c').
  Definition joints_ok g : Prop :=
    table_ok (g_j g) (g_nj g) (g_jl g) (g_jn g) /\
    edges_ok (g_j g) (jbody g) (joints_of g) /\
    (forall j s i, jbody g j s = Some i -> g_b g i <> None).
  Definition ginv g : Prop := bodies_ok g /\ fixtures_ok g /\ contacts_ok g /\ joints_ok g.

  (* what holds between public calls: proxies exist on enabled bodies, contacts on enabled bodies, one of them dynamic *)
  Definition enabled_ok g : Prop :=
    (forall f x i b, g_f g f = Some x -> v_body x = Some i -> g_b g i = Some b ->
       v_count x = if v_enabled b then length (v_proxies x) else 0) /\
    (forall c s i b, cbody g c s = Some i -> g_b g i = Some b -> v_enabled b = true) /\
    (forall c i j a b, cbody g c true = Some i -> cbody g c false = Some j -> g_b g i = Some a -> g_b g j = Some b ->
       v_type a = DynamicBody \/ v_type b = DynamicBody).

  (** ** the links only depend on the graph *)
  Lemma geq_refl g : geq g g.
  Proof. repeat split. Qed.
  Lemma geq_sym g h : geq g h -> geq h g.
  Proof. intros (A & B & C & D & E & F & G). repeat apply conj; auto; now symmetry. Qed.
  Lemma geq_trans g h k : geq g h -> geq h k -> geq g k.
  Proof.
    intros (A & B & C & D & E & F & G) (A' & B' & C' & D' & E' & F' & G'). repeat apply conj; intros; congruence.
  Qed.

  Lemma table_ext {A} (t t' : nat -> option A) k l n : (forall i, t i = t' i) -> table_ok t k l n -> table_ok t' k l n.
  Proof.
    intros E (H1 & H2 & H3 & H4). repeat apply conj; auto.
    - intros i. rewrite <- E. apply H2.
    - intros i K. rewrite <- E. auto.
  Qed.

  Lemma edges_ext {A} (t t' : nat -> option A) en en' ed ed' : (forall i, t i = t' i) -> (forall c s, en c s = en' c s) -> (forall i, ed i = ed' i) ->
    edges_ok t en ed -> edges_ok t' en' ed'.
  Proof.
    intros E1 E2 E3 (H1 & H2 & H3). repeat apply conj.
    - intros i. rewrite <- E3. auto.
    - intros i c s o. rewrite <- E3, <- !E2. auto.
    - intros c. rewrite <- E1. intros K. destruct (H3 c K) as (a & b & X). rewrite !E2 in X. eauto.
  Qed.

  Section Ext.
    Variables g h : graph.
    Hypothesis Q : geq g h.
    Lemma owner_ext f : owner g f = owner h f.
    Proof. unfold owner. destruct Q as (_ & Ef & _). now rewrite Ef. Qed.
    Lemma cbody_ext c s : cbody g c s = cbody h c s.
    Proof. unfold cbody. destruct Q as (_ & _ & Ec & _). rewrite Ec. destruct (g_c h c); auto using owner_ext. Qed.
    Lemma jbody_ext c s : jbody g c s = jbody h c s.
    Proof. unfold jbody. destruct Q as (_ & _ & _ & Ej & _). now rewrite Ej. Qed.
    Lemma fixtures_of_ext i : fixtures_of g i = fixtures_of h i.
    Proof. unfold fixtures_of. destruct Q as (Eb & _). now rewrite Eb. Qed.
    Lemma contacts_of_ext i : contacts_of g i = contacts_of h i.
    Proof. unfold contacts_of. destruct Q as (Eb & _). now rewrite Eb. Qed.
    Lemma joints_of_ext i : joints_of g i = joints_of h i.
    Proof. unfold joints_of. destruct Q as (Eb & _). now rewrite Eb. Qed.
    Lemma ginv_ext : ginv g -> ginv h.
    Proof.
      intros (IB & IF & IC & IJ). destruct Q as (Eb & Ef & Ec & Ej & En & El & Ek).
      injection En as N1 N2 N3 N4. injection El as L1 L2 L3. injection Ek as K1 K2 K3. refine (conj _ (conj _ (conj _ _))).
      - unfold bodies_ok. rewrite <- N1, <- L1, <- K1. eapply table_ext; eauto.
      - destruct IF as (F1 & F2 & F3 & F4 & F5). refine (conj _ (conj _ (conj _ (conj _ _)))).
        + intros i. rewrite <- fixtures_of_ext. auto.
        + intros i v. rewrite <- Eb. apply F2.
        + intros i f. rewrite <- fixtures_of_ext, <- owner_ext. auto.
        + intros f. rewrite <- Ef, <- owner_ext. auto.
        + intros f. rewrite <- N2, <- Ef. auto.
      - destruct IC as (C1 & C2 & C3 & C4). refine (conj _ (conj _ (conj _ _))).
        + rewrite <- N3, <- L2, <- K2. eapply table_ext; eauto.
        + eapply edges_ext; [exact Ec | exact cbody_ext | exact contacts_of_ext | exact C2].
        + intros c v. rewrite <- Ec. intros K. destruct (C3 c v K) as (fa & fb & X). rewrite !Ef in X. eauto.
        + intros c c' v v'. rewrite <- !Ec. apply C4.
      - destruct IJ as (J1 & J2 & J3). refine (conj _ (conj _ _)).
        + rewrite <- N4, <- L3, <- K3. eapply table_ext; eauto.
        + eapply edges_ext; [exact Ej | exact jbody_ext | exact joints_of_ext | exact J2].
        + intros j s i. rewrite <- jbody_ext, <- Eb. apply J3.
    Qed.
    Lemma enabled_ext : enabled_ok g -> enabled_ok h.
    Proof.
      intros (H1 & H2 & H3). destruct Q as (Eb & Ef & Ec & Ej & En & El & Ek). repeat apply conj.
      - intros f x i b. rewrite <- Ef, <- Eb. apply H1.
      - intros c s i b. rewrite <- cbody_ext, <- Eb. apply H2.
      - intros c i j a b. rewrite <- !cbody_ext, <- !Eb. apply H3.
    Qed.
  End Ext.

  (** ** tables and edge lists: adding and removing one item *)
  Lemma put_eq {A} (m : nat -> option A) i x : put m i x i = x.
  Proof. unfold put. now rewrite Nat.eqb_refl. Qed.
  Lemma put_ne {A} (m : nat -> option A) i x j : j <> i -> put m i x j = m j.
  Proof. unfold put. intros H. apply Nat.eqb_neq in H. now rewrite H. Qed.
  Lemma in_without i l j : In j (without i l) <-> In j l /\ j <> i.
  Proof. unfold without. rewrite filter_In, negb_true_iff, Nat.eqb_neq. tauto. Qed.
  Lemma in_without_edge i l e : In e (without_edge i l) <-> In e l /\ ge_item e <> i.
  Proof. unfold without_edge. rewrite filter_In, negb_true_iff, Nat.eqb_neq. tauto. Qed.
  Lemma without_id i l : ~ In i l -> without i l = l.
  Proof.
    unfold without. induction l as [|x l IH]; intros H; cbn [List.filter]; auto. destruct (Nat.eqb_spec x i) as [->|]; cbn [negb].
    - exfalso. apply H. now left.
    - f_equal. apply IH. intros K. apply H. now right.
  Qed.
  Lemma without_length i l : NoDup l -> In i l -> S (length (without i l)) = length l.
  Proof.
    induction l as [|x l IH]; intros N H; [easy|]. inversion N; subst. unfold without. cbn [List.filter].
    destruct (Nat.eqb_spec x i) as [->|]; cbn [negb length].
    - f_equal. change (length (without i l) = length l). now rewrite without_id.
    - f_equal. apply IH; auto. destruct H; congruence.
  Qed.

  Lemma table_drop {A} (t : nat -> option A) k l n c : table_ok t k l n -> t c <> None -> table_ok (put t c None) k (without c l) (n - 1).
  Proof.
    intros (H1 & H2 & H3 & H4) Hc. repeat apply conj.
    - apply NoDup_filter. auto.
    - intros i. rewrite in_without, H2. destruct (Nat.eq_dec i c) as [->|]; [rewrite put_eq | rewrite put_ne by auto]; tauto.
    - apply H2 in Hc. pose proof (without_length c l H1 Hc). lia.
    - intros i Hi. destruct (Nat.eq_dec i c) as [->|]; [apply put_eq | rewrite put_ne by auto; auto].
  Qed.
  Lemma table_add {A} (t : nat -> option A) k l n v : table_ok t k l n -> table_ok (put t k (Some v)) (S k) (k :: l) (S n).
  Proof.
    intros (H1 & H2 & H3 & H4). assert (F : t k = None) by (apply H4; lia). repeat apply conj.
    - constructor; auto. rewrite H2. tauto.
    - intros i. cbn [In]. destruct (Nat.eq_dec i k) as [->|]; [rewrite put_eq | rewrite put_ne by auto].
      + split; [easy|]. auto.
      + rewrite <- H2. split; [intros [K|K]; [congruence|auto] | auto].
    - cbn [length]. lia.
    - intros i Hi. rewrite put_ne by lia. apply H4. lia.
  Qed.
  Lemma edges_drop {A} (t : nat -> option A) en ed c : edges_ok t en ed ->
    edges_ok (put t c None) (fun x s => if Nat.eqb x c then None else en x s) (fun i => without_edge c (ed i)).
  Proof.
    intros (H1 & H2 & H3). repeat apply conj.
    - intros i. apply NoDup_filter. auto.
    - intros i x s o. rewrite in_without_edge, H2. cbn [ge_item]. destruct (Nat.eqb_spec x c); [|tauto]. split; [tauto|]. intros [K _]. discriminate.
    - intros x Hx. destruct (Nat.eqb_spec x c) as [->|]; [now rewrite put_eq in Hx | rewrite put_ne in Hx by auto; auto].
  Qed.
  Lemma edges_add {A} (t : nat -> option A) en ed c v a b : edges_ok t en ed -> (forall s, en c s = None) -> a <> b ->
    edges_ok (put t c (Some v)) (fun x s => if Nat.eqb x c then Some (if s then a else b) else en x s)
      (fun i => if Nat.eqb i a then GEdge c true b :: ed i else if Nat.eqb i b then GEdge c false a :: ed i else ed i).
  Proof.
    intros (H1 & H2 & H3) Hc Hab. assert (N : forall i s o, ~ In (GEdge c s o) (ed i)) by (intros i s o K; apply H2 in K; rewrite Hc in K; easy).
    repeat apply conj.
    - intros i. destruct (Nat.eqb_spec i a) as [->|]; [constructor; auto|]. destruct (Nat.eqb_spec i b) as [->|]; [constructor; auto|auto].
    - intros i x s o. destruct (Nat.eqb_spec x c) as [->|Hx].
      + split.
        * intros K. destruct (Nat.eqb_spec i a) as [->|]; [|destruct (Nat.eqb_spec i b) as [->|]].
          -- destruct K as [K|K]; [injection K as <- <-; auto | now apply N in K].
          -- destruct K as [K|K]; [injection K as <- <-; auto | now apply N in K].
          -- now apply N in K.
        * intros [K1 K2]. injection K1 as <-. injection K2 as <-. destruct s; cbn [negb].
          -- rewrite Nat.eqb_refl. now left.
          -- destruct (Nat.eqb_spec b a); [congruence|]. rewrite Nat.eqb_refl. now left.
      + rewrite <- H2. destruct (Nat.eqb_spec i a); [|destruct (Nat.eqb_spec i b)]; cbn [In]; try tauto.
        all: split; [intros [K|K]; [injection K as K1 K2 K3; congruence|auto] | auto].
    - intros x Hx. destruct (Nat.eqb_spec x c) as [->|]; [exists a, b; auto | rewrite put_ne in Hx by auto; auto].
  Qed.
End Graph.
