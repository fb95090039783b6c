(** Changes of the link graph of a world, and that they keep its invariant. *)
From Coq Require Import List ZArith Bool Arith Lia.
From Verif Require Import Base Num Math Collision ShapeModel DynModel BroadModel WorldModel WorldGraph.
Import ListNotations.

Definition on_fixtures (f : list nat -> list nat) (n : nat) (v : bview) : bview := BView (v_type v) (v_enabled v) (f (v_fixtures v)) n (v_joints v) (v_contacts v).
Definition with_type (t : btype) (v : bview) : bview := BView t (v_enabled v) (v_fixtures v) (v_fcount v) (v_joints v) (v_contacts v).
Definition with_enabled (t : bool) (v : bview) : bview := BView (v_type v) t (v_fixtures v) (v_fcount v) (v_joints v) (v_contacts v).

Section Gops.
  Context {T : Type}.
  Notation graph := (graph T).
  Implicit Types g h : graph.

  Definition with_b (b : nat -> option bview) g : graph :=
    Graph b (g_f g) (g_c g) (g_j g) (g_nb g) (g_nf g) (g_nc g) (g_nj g) (g_bl g) (g_cl g) (g_jl g) (g_bn g) (g_cn g) (g_jn g).
  Definition with_f (f : nat -> option (fview T)) g : graph :=
    Graph (g_b g) f (g_c g) (g_j g) (g_nb g) (g_nf g) (g_nc g) (g_nj g) (g_bl g) (g_cl g) (g_jl g) (g_bn g) (g_cn g) (g_jn g).
  Definition with_nf (n : nat) g : graph :=
    Graph (g_b g) (g_f g) (g_c g) (g_j g) (g_nb g) n (g_nc g) (g_nj g) (g_bl g) (g_cl g) (g_jl g) (g_bn g) (g_cn g) (g_jn g).
  Definition with_c (c : nat -> option cview) (next : nat) (l : list nat) (n : nat) g : graph :=
    Graph (g_b g) (g_f g) c (g_j g) (g_nb g) (g_nf g) next (g_nj g) (g_bl g) l (g_jl g) (g_bn g) n (g_jn g).
  Definition with_j (j : nat -> option jview) (next : nat) (l : list nat) (n : nat) g : graph :=
    Graph (g_b g) (g_f g) (g_c g) j (g_nb g) (g_nf g) (g_nc g) next (g_bl g) (g_cl g) l (g_bn g) (g_cn g) n.

  (* change one body *)
  Definition at_b (i : nat) (f : bview -> bview) g : graph := with_b (fun j => if Nat.eqb j i then option_map f (g_b g j) else g_b g j) g.

  Definition drop_contact (c : nat) g : graph :=
    with_c (put (g_c g) c None) (g_nc g) (without c (g_cl g)) (g_cn g - 1)
      (with_b (fun i => option_map (on_contacts (without_edge c)) (g_b g i)) g).
  Definition drop_joint (c : nat) g : graph :=
    with_j (put (g_j g) c None) (g_nj g) (without c (g_jl g)) (g_jn g - 1)
      (with_b (fun i => option_map (on_joints (without_edge c)) (g_b g i)) g).
  Definition cons_at (on : (list gedge -> list gedge) -> bview -> bview) (c a b : nat) g : graph :=
    at_b b (on (cons (GEdge c false a))) (at_b a (on (cons (GEdge c true b))) g).
  Definition add_contact (v : cview) (a b : nat) g : graph :=
    let c := g_nc g in
    cons_at on_contacts c a b (with_c (put (g_c g) c (Some v)) (S c) (c :: g_cl g) (S (g_cn g)) g).
  Definition add_joint (v : jview) g : graph :=
    let c := g_nj g in
    cons_at on_joints c (v_a v) (v_b v) (with_j (put (g_j g) c (Some v)) (S c) (c :: g_jl g) (S (g_jn g)) g).
  Definition new_body (v : bview) g : graph :=
    let i := g_nb g in
    Graph (put (g_b g) i (Some v)) (g_f g) (g_c g) (g_j g) (S i) (g_nf g) (g_nc g) (g_nj g) (i :: g_bl g) (g_cl g) (g_jl g) (S (g_bn g)) (g_cn g) (g_jn g).
  Definition drop_body (i : nat) g : graph :=
    Graph (put (g_b g) i None) (g_f g) (g_c g) (g_j g) (g_nb g) (g_nf g) (g_nc g) (g_nj g) (without i (g_bl g)) (g_cl g) (g_jl g) (g_bn g - 1) (g_cn g) (g_jn g).
  Definition put_f (f : nat) (x : option (fview T)) g : graph := with_f (put (g_f g) f x) g.
  Definition new_fixture (i : nat) (x : fview T) g : graph :=
    let f := g_nf g in
    with_nf (S f) (put_f f (Some x) (with_b (fun j => if Nat.eqb j i then option_map (fun v => on_fixtures (cons f) (S (v_fcount v)) v) (g_b g j) else g_b g j) g)).
  Definition drop_fixture (i f : nat) g : graph :=
    put_f f None (with_b (fun j => if Nat.eqb j i then option_map (fun v => on_fixtures (without f) (v_fcount v - 1) v) (g_b g j) else g_b g j) g).

  (** ** contacts and joints *)
  Lemma option_map_id {A} (f : A -> A) o : (forall x, f x = x) -> option_map f o = o.
  Proof. intros H. destruct o; cbn; now rewrite ?H. Qed.

  Lemma drop_contact_ok g c : contacts_ok g -> g_c g c <> None -> contacts_ok (drop_contact c g).
  Proof.
    intros (C1 & C2 & C3 & C4) Hc. refine (conj _ (conj _ (conj _ _))).
    - apply table_drop; auto.
    - eapply edges_ext; [| | |exact (edges_drop (g_c g) (cbody g) (contacts_of g) c C2)]; cbn; auto.
      + intros x s. unfold cbody, owner. cbn. unfold put. destruct (Nat.eqb x c); auto.
      + intros i. unfold contacts_of. cbn. destruct (g_b g i); reflexivity.
    - cbn. intros x v K. unfold put in K. destruct (Nat.eqb x c); [easy|]. exact (C3 x v K).
    - cbn. intros x x' v v' K K' P. unfold put in K, K'. destruct (Nat.eqb x c); [easy|]. destruct (Nat.eqb x' c); [easy|]. eapply C4; eauto.
  Qed.
  Lemma drop_contact_inv g c : ginv g -> g_c g c <> None -> ginv (drop_contact c g).
  Proof.
    intros (IB & IF & IC & IJ) Hc. refine (conj _ (conj _ (conj _ _))); [| |now apply drop_contact_ok|].
    - destruct IB as (B1 & B2 & B3 & B4). refine (conj _ (conj _ (conj _ _))); cbn; auto.
      + intros i. rewrite B2. destruct (g_b g i); cbn; split; easy.
      + intros i Hi. rewrite (B4 i Hi). reflexivity.
    - destruct IF as (F1 & F2 & F3 & F4 & F5).
      assert (Q : forall i, fixtures_of (drop_contact c g) i = fixtures_of g i) by (intros i; unfold fixtures_of; cbn; destruct (g_b g i); reflexivity).
      refine (conj _ (conj _ (conj _ (conj _ _)))).
      + intros i. rewrite Q. auto.
      + cbn. intros i v. destruct (g_b g i) as [b|] eqn:E; [|easy]. cbn. intros K. injection K as <-. exact (F2 i b E).
      + intros i f. rewrite Q. exact (F3 i f).
      + exact F4.
      + exact F5.
    - destruct IJ as (J1 & J2 & J3). refine (conj _ (conj _ _)).
      + exact J1.
      + eapply edges_ext; [| | |exact J2]; auto. intros i. unfold joints_of. cbn. destruct (g_b g i); reflexivity.
      + intros j s i K. cbn. specialize (J3 j s i K). destruct (g_b g i); easy.
  Qed.
  Lemma drop_joint_inv g c : ginv g -> g_j g c <> None -> ginv (drop_joint c g).
  Proof.
    intros (IB & IF & IC & IJ) Hc. refine (conj _ (conj _ (conj _ _))).
    - destruct IB as (B1 & B2 & B3 & B4). refine (conj _ (conj _ (conj _ _))); cbn; auto.
      + intros i. rewrite B2. destruct (g_b g i); cbn; split; easy.
      + intros i Hi. rewrite (B4 i Hi). reflexivity.
    - destruct IF as (F1 & F2 & F3 & F4 & F5).
      assert (Q : forall i, fixtures_of (drop_joint c g) i = fixtures_of g i) by (intros i; unfold fixtures_of; cbn; destruct (g_b g i); reflexivity).
      refine (conj _ (conj _ (conj _ (conj _ _)))).
      + intros i. rewrite Q. auto.
      + cbn. intros i v. destruct (g_b g i) as [b|] eqn:E; [|easy]. cbn. intros K. injection K as <-. exact (F2 i b E).
      + intros i f. rewrite Q. exact (F3 i f).
      + exact F4.
      + exact F5.
    - destruct IC as (C1 & C2 & C3 & C4). refine (conj _ (conj _ (conj _ _))); auto.
      eapply edges_ext; [| | |exact C2]; auto. intros i. unfold contacts_of. cbn. destruct (g_b g i); reflexivity.
    - destruct IJ as (J1 & J2 & J3). refine (conj _ (conj _ _)).
      + apply table_drop; auto.
      + eapply edges_ext; [| | |exact (edges_drop (g_j g) (jbody g) (joints_of g) c J2)]; cbn; auto.
        * intros x s. unfold jbody. cbn. unfold put. destruct (Nat.eqb x c); auto.
        * intros i. unfold joints_of. cbn. destruct (g_b g i); reflexivity.
      + intros j s i K. unfold jbody in K. cbn in K. unfold put in K. destruct (Nat.eqb j c); [easy|]. specialize (J3 j s i K). cbn. destruct (g_b g i); easy.
  Qed.

  (* the bodies after [cons_at] *)
  Lemma cons_at_b on c a b g i : a <> b -> g_b (cons_at on c a b g) i =
    if Nat.eqb i a then option_map (on (cons (GEdge c true b))) (g_b g i)
    else if Nat.eqb i b then option_map (on (cons (GEdge c false a))) (g_b g i) else g_b g i.
  Proof. intros H. cbn. destruct (Nat.eqb_spec i a) as [->|]; [|reflexivity]. destruct (Nat.eqb_spec a b); [easy|reflexivity]. Qed.

  Lemma contact_bodies_live g c s i : contacts_ok g -> cbody g c s = Some i -> g_b g i <> None.
  Proof.
    intros (C1 & (E1 & E2 & E3) & C3 & C4) K. assert (Hc : g_c g c <> None) by (unfold cbody in K; destruct (g_c g c); easy).
    destruct (E3 c Hc) as (a & b & Ka & Kb & Hab). assert (exists o, cbody g c (negb s) = Some o) as (o & Ko) by (destruct s; cbn; eauto).
    assert (In (GEdge c s o) (contacts_of g i)) as H by (apply E2; auto). unfold contacts_of in H. now destruct (g_b g i).
  Qed.

  Lemma bodies_frame {A} (k : bview -> A) g h : (forall i, option_map k (g_b g i) = option_map k (g_b h i)) -> g_nb g = g_nb h -> g_bl g = g_bl h -> g_bn g = g_bn h ->
    bodies_ok g -> bodies_ok h.
  Proof.
    intros Q E1 E2 E3 (B1 & B2 & B3 & B4). unfold bodies_ok. rewrite <- E1, <- E2, <- E3. refine (conj _ (conj _ (conj _ _))); auto.
    - intros i. rewrite B2. specialize (Q i). destruct (g_b g i), (g_b h i); cbn in Q; split; easy.
    - intros i Hi. specialize (Q i). rewrite (B4 i Hi) in Q. now destruct (g_b h i).
  Qed.
  Lemma fixtures_frame g h : (forall i, option_map (fun v => (v_fixtures v, v_fcount v)) (g_b g i) = option_map (fun v => (v_fixtures v, v_fcount v)) (g_b h i)) ->
    (forall f, owner g f = owner h f) -> (forall f, g_f g f = None <-> g_f h f = None) -> g_nf g = g_nf h -> fixtures_ok g -> fixtures_ok h.
  Proof.
    intros Q Ho Hf En (F1 & F2 & F3 & F4 & F5).
    assert (P : forall i, fixtures_of g i = fixtures_of h i) by (intros i; unfold fixtures_of; specialize (Q i); destruct (g_b g i), (g_b h i); cbn in Q; congruence).
    refine (conj _ (conj _ (conj _ (conj _ _)))).
    - intros i. rewrite <- P. auto.
    - intros i v K. specialize (Q i). rewrite K in Q. destruct (g_b g i) as [b|] eqn:E; [|easy]. cbn in Q. injection Q as Q1 Q2. rewrite <- Q1, <- Q2. eapply F2; eauto.
    - intros i f. rewrite <- P, <- Ho. auto.
    - intros f. rewrite <- Ho, <- Hf. auto.
    - intros f. rewrite <- En, <- Hf. auto.
  Qed.
  Lemma joints_frame g h : (forall i, option_map v_joints (g_b g i) = option_map v_joints (g_b h i)) -> (forall j, g_j g j = g_j h j) ->
    g_nj g = g_nj h -> g_jl g = g_jl h -> g_jn g = g_jn h -> joints_ok g -> joints_ok h.
  Proof.
    intros Q Ej E1 E2 E3 (J1 & J2 & J3). refine (conj _ (conj _ _)).
    - rewrite <- E1, <- E2, <- E3. eapply table_ext; eauto.
    - eapply edges_ext; [exact Ej| | |exact J2].
      + intros c s. unfold jbody. now rewrite Ej.
      + intros i. unfold joints_of. specialize (Q i). destruct (g_b g i), (g_b h i); cbn in Q; congruence.
    - intros j s i. unfold jbody. rewrite <- Ej. intros K. specialize (J3 j s i K). specialize (Q i). destruct (g_b g i), (g_b h i); cbn in Q; easy.
  Qed.
  Lemma contacts_frame g h : (forall i, contacts_of g i = contacts_of h i) -> (forall c, g_c g c = g_c h c) ->
    (forall c s, cbody g c s = cbody h c s) ->
    (forall c v, g_c g c = Some v -> exists fa fb, g_f h (v_fa v) = Some fa /\ g_f h (v_fb v) = Some fb /\
       v_ia v < length (v_proxies fa) /\ v_ib v < length (v_proxies fb)) ->
    g_nc g = g_nc h -> g_cl g = g_cl h -> g_cn g = g_cn h -> contacts_ok g -> contacts_ok h.
  Proof.
    intros Q Ec Eb P E1 E2 E3 (C1 & C2 & C3 & C4). refine (conj _ (conj _ (conj _ _))).
    - rewrite <- E1, <- E2, <- E3. eapply table_ext; eauto.
    - eapply edges_ext; [exact Ec|exact Eb|exact Q|exact C2].
    - intros c v. rewrite <- Ec. apply P.
    - intros c c' v v'. rewrite <- !Ec. apply C4.
  Qed.

  (* only the contact lists, only the joint lists of the bodies differ *)
  Lemma map_map_option {A B C} (f : A -> B) (k : B -> C) o : option_map k (option_map f o) = option_map (fun x => k (f x)) o.
  Proof. now destruct o. Qed.

  Lemma owner_live g f i : fixtures_ok g -> owner g f = Some i -> g_b g i <> None.
  Proof. intros (F1 & F2 & F3 & F4 & F5) H. apply F3 in H. unfold fixtures_of in H. now destruct (g_b g i). Qed.

  Lemma cons_at_keep {A} (k : bview -> A) on c a b g i : a <> b -> (forall f v, k (on f v) = k v) ->
    option_map k (g_b g i) = option_map k (g_b (cons_at on c a b g) i).
  Proof.
    intros Hab Hk. rewrite cons_at_b by auto. destruct (Nat.eqb i a); [|destruct (Nat.eqb i b)]; auto; destruct (g_b g i); cbn; now rewrite ?Hk.
  Qed.

  Lemma add_contact_inv g v a b : ginv g -> owner g (v_fa v) = Some a -> owner g (v_fb v) = Some b -> a <> b ->
    (forall x, g_f g (v_fa v) = Some x -> v_ia v < length (v_proxies x)) -> (forall x, g_f g (v_fb v) = Some x -> v_ib v < length (v_proxies x)) ->
    (forall c v', g_c g c = Some v' -> ~ pair_of v v') -> ginv (add_contact v a b g).
  Proof.
    intros (IB & IF & IC & IJ) Ha Hb Hab La Lb Hp.
    assert (K : forall A (k : bview -> A), (forall f v, k (on_contacts f v) = k v) -> forall i, option_map k (g_b g i) = option_map k (g_b (add_contact v a b g) i)).
    { intros A k Hk i. unfold add_contact. rewrite <- (cons_at_keep k on_contacts (g_nc g) a b _ i Hab Hk). reflexivity. }
    refine (conj _ (conj _ (conj _ _))).
    - refine (bodies_frame v_fcount _ _ (K _ v_fcount _) _ _ _ IB); auto.
    - refine (fixtures_frame _ _ (K _ _ _) _ _ _ IF); auto; intros f; reflexivity.
    - destruct IC as (C1 & C2 & C3 & C4). assert (Fr : g_c g (g_nc g) = None) by (apply C1; lia). refine (conj _ (conj _ (conj _ _))).
      + exact (table_add (g_c g) (g_nc g) (g_cl g) (g_cn g) v C1).
      + eapply edges_ext; [| | |apply (edges_add (g_c g) (cbody g) (contacts_of g) (g_nc g) v a b C2); auto].
        * intros i. reflexivity.
        * intros c s. unfold cbody, owner, add_contact. cbn. unfold put. destruct (Nat.eqb c (g_nc g)); [|reflexivity]. destruct s; symmetry; assumption.
        * intros i. unfold contacts_of, add_contact. rewrite (cons_at_b on_contacts (g_nc g) a b _ i Hab). cbn.
          assert (g_b g a <> None) by (eapply owner_live; eauto). assert (g_b g b <> None) by (eapply owner_live; eauto).
          destruct (Nat.eqb_spec i a) as [->|]; [destruct (g_b g a); easy|]. destruct (Nat.eqb_spec i b) as [->|]; [destruct (g_b g b); easy|]. reflexivity.
        * intros s. unfold cbody. now rewrite Fr.
      + cbn. unfold put. intros c v'. destruct (Nat.eqb_spec c (g_nc g)) as [->|]; [|apply C3]. intros E. injection E as <-.
        unfold owner in Ha, Hb. destruct (g_f g (v_fa v)) as [fa|] eqn:Ea; [|easy]. destruct (g_f g (v_fb v)) as [fb|] eqn:Eb; [|easy]. exists fa, fb. auto.
      + cbn. unfold put. intros c c' u u'. destruct (Nat.eqb_spec c (g_nc g)) as [->|]; destruct (Nat.eqb_spec c' (g_nc g)) as [->|]; auto.
        * intros E K2 P. injection E as <-. exfalso. exact (Hp c' u' K2 P).
        * intros K2 E P. injection E as <-. exfalso. apply (Hp c u K2). destruct P as [-> | ->]; [now left|right; now destruct v].
        * apply C4.
    - refine (joints_frame _ _ (K _ _ _) _ _ _ _ IJ); auto.
  Qed.

  Lemma add_joint_inv g v : ginv g -> v_a v <> v_b v -> g_b g (v_a v) <> None -> g_b g (v_b v) <> None -> ginv (add_joint v g).
  Proof.
    intros (IB & IF & IC & IJ) Hab Ha Hb.
    assert (K : forall A (k : bview -> A), (forall f v, k (on_joints f v) = k v) -> forall i, option_map k (g_b g i) = option_map k (g_b (add_joint v g) i)).
    { intros A k Hk i. unfold add_joint. rewrite <- (cons_at_keep k on_joints (g_nj g) (v_a v) (v_b v) _ i Hab Hk). reflexivity. }
    refine (conj _ (conj _ (conj _ _))).
    - refine (bodies_frame v_fcount _ _ (K _ v_fcount _) _ _ _ IB); auto.
    - refine (fixtures_frame _ _ (K _ _ _) _ _ _ IF); auto; intros f; reflexivity.
    - refine (contacts_frame _ _ _ _ _ _ _ _ _ IC); auto.
      + intros i. pose proof (K _ v_contacts (fun f v => eq_refl) i) as E. unfold contacts_of. destruct (g_b g i), (g_b (add_joint v g) i); cbn in E; congruence.
      + intros c u Hu. destruct IC as (_ & _ & C3 & _). exact (C3 c u Hu).
    - destruct IJ as (J1 & J2 & J3). assert (Fr : g_j g (g_nj g) = None) by (apply J1; lia). refine (conj _ (conj _ _)).
      + exact (table_add (g_j g) (g_nj g) (g_jl g) (g_jn g) v J1).
      + eapply edges_ext; [| | |apply (edges_add (g_j g) (jbody g) (joints_of g) (g_nj g) v (v_a v) (v_b v) J2); auto].
        * intros i. reflexivity.
        * intros c s. unfold jbody, add_joint. cbn. unfold put. destruct (Nat.eqb c (g_nj g)); reflexivity.
        * intros i. unfold joints_of, add_joint. rewrite (cons_at_b on_joints (g_nj g) (v_a v) (v_b v) _ i Hab). cbn.
          destruct (Nat.eqb_spec i (v_a v)) as [->|]; [destruct (g_b g (v_a v)); easy|]. destruct (Nat.eqb_spec i (v_b v)) as [->|]; [destruct (g_b g (v_b v)); easy|]. reflexivity.
        * intros s. unfold jbody. now rewrite Fr.
      + intros j s i E. assert (L : g_b g i <> None).
        { unfold jbody, add_joint in E. cbn in E. unfold put in E. destruct (Nat.eqb j (g_nj g)); [injection E as <-; now destruct s|exact (J3 j s i E)]. }
        intros C. apply L. pose proof (K _ v_fcount (fun f v => eq_refl) i) as Q. rewrite C in Q. now destruct (g_b g i).
  Qed.

  (** ** bodies *)
  Lemma new_body_inv g ty en : ginv g -> ginv (new_body (BView ty en [] 0 [] []) g).
  Proof.
    intros (IB & IF & IC & IJ). assert (Fr : g_b g (g_nb g) = None) by (apply IB; lia).
    assert (Qf : forall i, fixtures_of (new_body (BView ty en [] 0 [] []) g) i = fixtures_of g i).
    { intros i. unfold fixtures_of. cbn. unfold put. destruct (Nat.eqb_spec i (g_nb g)) as [->|]; auto. now rewrite Fr. }
    assert (Qc : forall i, contacts_of (new_body (BView ty en [] 0 [] []) g) i = contacts_of g i).
    { intros i. unfold contacts_of. cbn. unfold put. destruct (Nat.eqb_spec i (g_nb g)) as [->|]; auto. now rewrite Fr. }
    assert (Qj : forall i, joints_of (new_body (BView ty en [] 0 [] []) g) i = joints_of g i).
    { intros i. unfold joints_of. cbn. unfold put. destruct (Nat.eqb_spec i (g_nb g)) as [->|]; auto. now rewrite Fr. }
    refine (conj _ (conj _ (conj _ _))).
    - exact (table_add (g_b g) (g_nb g) (g_bl g) (g_bn g) _ IB).
    - destruct IF as (F1 & F2 & F3 & F4 & F5). refine (conj _ (conj _ (conj _ (conj F4 F5)))).
      + intros i. rewrite Qf. auto.
      + cbn. unfold put. intros i v. destruct (Nat.eqb_spec i (g_nb g)); [intros E; injection E as <-; reflexivity|apply F2].
      + intros i f. rewrite Qf. apply F3.
    - refine (contacts_frame g _ _ _ _ _ _ _ _ IC); auto. intros c v. apply IC.
    - destruct IJ as (J1 & J2 & J3). refine (conj J1 (conj _ _)).
      + eapply edges_ext; [| | |exact J2]; auto.
      + intros j s i E. cbn. unfold put. destruct (Nat.eqb i (g_nb g)); [easy|]. exact (J3 j s i E).
  Qed.
  Lemma drop_body_inv g i : ginv g -> g_b g i <> None -> fixtures_of g i = [] -> contacts_of g i = [] -> joints_of g i = [] -> ginv (drop_body i g).
  Proof.
    intros (IB & IF & IC & IJ) Hi Ef Ec Ej.
    assert (Qf : forall j, fixtures_of (drop_body i g) j = fixtures_of g j).
    { intros j. unfold fixtures_of in *. cbn. unfold put. destruct (Nat.eqb_spec j i) as [->|]; auto. }
    assert (Qc : forall j, contacts_of (drop_body i g) j = contacts_of g j).
    { intros j. unfold contacts_of in *. cbn. unfold put. destruct (Nat.eqb_spec j i) as [->|]; auto. }
    assert (Qj : forall j, joints_of (drop_body i g) j = joints_of g j).
    { intros j. unfold joints_of in *. cbn. unfold put. destruct (Nat.eqb_spec j i) as [->|]; auto. }
    refine (conj _ (conj _ (conj _ _))).
    - exact (table_drop (g_b g) (g_nb g) (g_bl g) (g_bn g) i IB Hi).
    - destruct IF as (F1 & F2 & F3 & F4 & F5). refine (conj _ (conj _ (conj _ (conj F4 F5)))).
      + intros j. rewrite Qf. auto.
      + cbn. unfold put. intros j v. destruct (Nat.eqb j i); [easy|apply F2].
      + intros j f. rewrite Qf. apply F3.
    - refine (contacts_frame g _ _ _ _ _ _ _ _ IC); auto. intros c v. apply IC.
    - destruct IJ as (J1 & J2 & J3). refine (conj J1 (conj _ _)).
      + eapply edges_ext; [| | |exact J2]; auto.
      + intros j s k E. cbn. unfold put. destruct (Nat.eqb_spec k i) as [->|]; [|exact (J3 j s k E)]. exfalso.
        destruct J2 as (E1 & E2 & E3). assert (Hj : g_j g j <> None) by (unfold jbody in E; cbn in E; now destruct (g_j g j)).
        destruct (E3 j Hj) as (a & b & Ka & Kb & Hab). assert (exists o, jbody g j (negb s) = Some o) as (o & Ko) by (destruct s; cbn; eauto).
        assert (In (GEdge j s o) (joints_of g i)) as H by (apply E2; auto). rewrite Ej in H. easy.
  Qed.

  (* a body changes its type or is enabled *)
  Definition same_lists (f : bview -> bview) : Prop := forall v, v_fixtures (f v) = v_fixtures v /\ v_fcount (f v) = v_fcount v /\ v_joints (f v) = v_joints v /\ v_contacts (f v) = v_contacts v.
  Lemma at_b_keep {A} (k : bview -> A) i f g j : (forall v, k (f v) = k v) -> option_map k (g_b g j) = option_map k (g_b (at_b i f g) j).
  Proof. intros H. cbn. destruct (Nat.eqb j i); auto. destruct (g_b g j); cbn; now rewrite ?H. Qed.
  Lemma at_b_inv g i f : same_lists f -> ginv g -> ginv (at_b i f g).
  Proof.
    intros H (IB & IF & IC & IJ).
    assert (H1 : forall v, v_fixtures (f v) = v_fixtures v) by apply H. assert (H2 : forall v, v_fcount (f v) = v_fcount v) by apply H.
    assert (H3 : forall v, v_joints (f v) = v_joints v) by apply H. assert (H4 : forall v, v_contacts (f v) = v_contacts v) by apply H.
    refine (conj _ (conj _ (conj _ _))).
    - refine (bodies_frame v_fcount _ _ _ _ _ _ IB); auto. intros j. now apply at_b_keep.
    - refine (fixtures_frame _ _ _ _ _ _ IF); auto; try (intros x; reflexivity). intros j. apply (at_b_keep (fun v => (v_fixtures v, v_fcount v))). intros v. now rewrite H1, H2.
    - refine (contacts_frame g _ _ _ _ _ _ _ _ IC); auto; [|intros c v; apply IC].
      intros j. pose proof (at_b_keep v_contacts i f g j H4) as E. unfold contacts_of. destruct (g_b g j), (g_b (at_b i f g) j); cbn in E; congruence.
    - refine (joints_frame _ _ _ _ _ _ _ IJ); auto. intros j. now apply at_b_keep.
  Qed.

  (** ** fixtures *)
  (* the fixture stays on its body and keeps the number of its proxies *)
  Lemma put_f_inv g f x y : g_f g f = Some x -> v_body y = v_body x -> length (v_proxies y) = length (v_proxies x) -> ginv g -> ginv (put_f f (Some y) g).
  Proof.
    intros Hf Eb El (IB & IF & IC & IJ).
    assert (Ow : forall k, owner (put_f f (Some y) g) k = owner g k).
    { intros k. unfold owner. cbn. unfold put. destruct (Nat.eqb_spec k f) as [->|]; auto. now rewrite Hf. }
    assert (Cb : forall c s, cbody (put_f f (Some y) g) c s = cbody g c s).
    { intros c s. unfold cbody. cbn. destruct (g_c g c); auto. }
    refine (conj IB (conj _ (conj _ IJ))).
    - refine (fixtures_frame g _ _ _ _ _ IF); auto.
      cbn. unfold put. intros k. destruct (Nat.eqb_spec k f) as [->|]; [|tauto]. rewrite Hf. split; easy.
    - refine (contacts_frame g _ _ _ _ _ _ _ _ IC); auto.
      intros c v K. destruct IC as (_ & _ & C3 & _). destruct (C3 c v K) as (fa & fb & Ea & Eb' & La & Lb). cbn. unfold put.
      destruct (Nat.eqb_spec (v_fa v) f) as [E1|]; destruct (Nat.eqb_spec (v_fb v) f) as [E2|].
      + rewrite E1, Hf in Ea. rewrite E2, Hf in Eb'. injection Ea as <-. injection Eb' as <-. exists y, y. rewrite El. auto.
      + rewrite E1, Hf in Ea. injection Ea as <-. exists y, fb. rewrite El. auto.
      + rewrite E2, Hf in Eb'. injection Eb' as <-. exists fa, y. rewrite El. auto.
      + exists fa, fb. auto.
  Qed.
  Lemma new_fixture_inv g i x : ginv g -> g_b g i <> None -> v_body x = Some i -> ginv (new_fixture i x g).
  Proof.
    intros (IB & IF & IC & IJ) Hi Hx. pose proof IF as (F1 & F2 & F3 & F4 & F5). assert (Fr : g_f g (g_nf g) = None) by (apply F5; lia).
    assert (K : forall A (k : bview -> A), (forall f n v, k (on_fixtures f n v) = k v) -> forall j, option_map k (g_b g j) = option_map k (g_b (new_fixture i x g) j)).
    { intros A k Hk j. cbn. destruct (Nat.eqb j i); auto. destruct (g_b g j); cbn; now rewrite ?Hk. }
    assert (Fo : forall j, fixtures_of (new_fixture i x g) j = if Nat.eqb j i then g_nf g :: fixtures_of g j else fixtures_of g j).
    { intros j. unfold fixtures_of. cbn. destruct (Nat.eqb_spec j i) as [->|]; auto. now destruct (g_b g i). }
    assert (Ow : forall f, owner (new_fixture i x g) f = if Nat.eqb f (g_nf g) then Some i else owner g f).
    { intros f. unfold owner. cbn. unfold put. now destruct (Nat.eqb f (g_nf g)). }
    assert (No : owner g (g_nf g) = None) by (unfold owner; now rewrite Fr).
    refine (conj _ (conj _ (conj _ _))).
    - refine (bodies_frame v_joints _ _ (K _ v_joints _) _ _ _ IB); auto.
    - refine (conj _ (conj _ (conj _ (conj _ _)))).
      + intros j. rewrite Fo. destruct (Nat.eqb j i); auto. constructor; auto. rewrite F3, No. easy.
      + cbn. intros j v. destruct (Nat.eqb j i); [|apply F2]. destruct (g_b g j) as [b|] eqn:E; [|easy]. cbn. intros Q. injection Q as <-. cbn. now rewrite (F2 j b E).
      + intros j f. rewrite Fo, Ow. destruct (Nat.eqb_spec f (g_nf g)) as [->|Hf].
        * destruct (Nat.eqb_spec j i) as [->|]; cbn; [tauto|]. rewrite F3, No. split; [easy|]. intros Q. injection Q as Q. congruence.
        * destruct (Nat.eqb_spec j i) as [->|]; cbn; [|apply F3]. rewrite F3. split; [intros [Q|Q]; [congruence|auto]|auto].
      + intros f. rewrite Ow. cbn. unfold put. destruct (Nat.eqb f (g_nf g)); [easy|apply F4].
      + cbn. unfold put. intros f Hf. destruct (Nat.eqb_spec f (g_nf g)); [lia|apply F5; lia].
    - refine (contacts_frame g _ _ _ _ _ _ _ _ IC); auto.
      + intros j. pose proof (K _ v_contacts (fun f n v => eq_refl) j) as E. unfold contacts_of. destruct (g_b g j), (g_b (new_fixture i x g) j); cbn in E; congruence.
      + intros c s. unfold cbody. change (g_c (new_fixture i x g) c) with (g_c g c). destruct (g_c g c) as [v|] eqn:E; auto. rewrite Ow.
        destruct IC as (_ & _ & C3 & _). destruct (C3 c v E) as (fa & fb & Ea & Eb & _).
        destruct (Nat.eqb_spec (if s then v_fa v else v_fb v) (g_nf g)) as [Q|]; auto. destruct s; congruence.
      + intros c v E. destruct IC as (_ & _ & C3 & _). destruct (C3 c v E) as (fa & fb & Ea & Eb & L). exists fa, fb. cbn. unfold put.
        destruct (Nat.eqb_spec (v_fa v) (g_nf g)); [congruence|]. destruct (Nat.eqb_spec (v_fb v) (g_nf g)); [congruence|]. auto.
    - refine (joints_frame _ _ (K _ _ _) _ _ _ _ IJ); auto.
  Qed.
  Lemma drop_fixture_inv g i f : ginv g -> owner g f = Some i -> (forall c v, g_c g c = Some v -> v_fa v <> f /\ v_fb v <> f) -> ginv (drop_fixture i f g).
  Proof.
    intros (IB & IF & IC & IJ) Hx Hc. pose proof IF as (F1 & F2 & F3 & F4 & F5).
    assert (K : forall A (k : bview -> A), (forall f n v, k (on_fixtures f n v) = k v) -> forall j, option_map k (g_b g j) = option_map k (g_b (drop_fixture i f g) j)).
    { intros A k Hk j. cbn. destruct (Nat.eqb j i); auto. destruct (g_b g j); cbn; now rewrite ?Hk. }
    assert (Fo : forall j, fixtures_of (drop_fixture i f g) j = if Nat.eqb j i then without f (fixtures_of g j) else fixtures_of g j).
    { intros j. unfold fixtures_of. cbn. destruct (Nat.eqb_spec j i) as [->|]; auto. now destruct (g_b g i). }
    assert (Ow : forall k, owner (drop_fixture i f g) k = if Nat.eqb k f then None else owner g k).
    { intros k. unfold owner. cbn. unfold put. now destruct (Nat.eqb k f). }
    refine (conj _ (conj _ (conj _ _))).
    - refine (bodies_frame v_joints _ _ (K _ v_joints _) _ _ _ IB); auto.
    - refine (conj _ (conj _ (conj _ (conj _ _)))).
      + intros j. rewrite Fo. destruct (Nat.eqb j i); auto. now apply NoDup_filter.
      + cbn. intros j v. destruct (Nat.eqb_spec j i) as [->|]; [|apply F2]. destruct (g_b g i) as [b|] eqn:E; [|easy]. cbn. intros Q. injection Q as <-. cbn.
        rewrite (F2 i b E). assert (In f (fixtures_of g i)) as Hf by now apply F3. assert (NoDup (fixtures_of g i)) as Nf by auto. unfold fixtures_of in Hf, Nf. rewrite E in Hf, Nf.
        pose proof (without_length f _ Nf Hf). lia.
      + intros j k. rewrite Fo, Ow. destruct (Nat.eqb_spec k f) as [->|Hk].
        * destruct (Nat.eqb_spec j i) as [->|Hj]; [rewrite in_without; split; [tauto|easy]|]. rewrite F3, Hx. split; [|easy]. intros Q. injection Q as Q. congruence.
        * destruct (Nat.eqb_spec j i) as [->|Hj]; [rewrite in_without, F3; tauto|apply F3].
      + intros k. rewrite Ow. cbn. unfold put. destruct (Nat.eqb k f); [easy|apply F4].
      + cbn. unfold put. intros k Hk. destruct (Nat.eqb_spec k f); [auto|apply F5; lia].
    - refine (contacts_frame g _ _ _ _ _ _ _ _ IC); auto.
      + intros j. pose proof (K _ v_contacts (fun f n v => eq_refl) j) as E. unfold contacts_of. destruct (g_b g j), (g_b (drop_fixture i f g) j); cbn in E; congruence.
      + intros c s. unfold cbody. change (g_c (drop_fixture i f g) c) with (g_c g c). destruct (g_c g c) as [v|] eqn:E; auto. rewrite Ow.
        destruct (Hc c v E). destruct (Nat.eqb_spec (if s then v_fa v else v_fb v) f) as [Q|]; auto. destruct s; congruence.
      + intros c v E. destruct IC as (_ & _ & C3 & _). destruct (C3 c v E) as (fa & fb & Ea & Eb & L). destruct (Hc c v E). exists fa, fb. cbn. unfold put.
        destruct (Nat.eqb_spec (v_fa v) f); [congruence|]. destruct (Nat.eqb_spec (v_fb v) f); [congruence|]. auto.
    - refine (joints_frame _ _ (K _ _ _) _ _ _ _ IJ); auto.
  Qed.
End Gops.
