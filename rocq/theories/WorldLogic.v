(** A small program logic for the world model, and the parts of the world that the time step keeps. *)
From Coq Require Import List ZArith Bool Arith Lia.
From Verif Require Import Base Num Math Collision Manifold Filter ShapeModel ListFacts ManifoldProofs TreeModel TreeSpec BroadModel BroadSpec BroadFinal DynModel WorldModel WorldGraph WorldGops.
Import ListNotations.

(** ** [sat p m Q]: [m] returns something with [Q], or panics and [p] holds; it never runs out of fuel *)
Definition sat {A} (p : Prop) (m : res A) (Q : A -> Prop) : Prop :=
  match m with Ok a => Q a | Panic => p | Fuel => False end.

Section Sat.
  Context {p : Prop}.
  Lemma sat_ok {A} (a : A) (Q : A -> Prop) : Q a -> sat p (Ok a) Q.
  Proof. auto. Qed.
  Lemma sat_bind {A B} (m : res A) (f : A -> res B) Q : sat p m (fun a => sat p (f a) Q) -> sat p (bind m f) Q.
  Proof. destruct m; auto. Qed.
  Lemma sat_mono {A} (m : res A) (Q Q' : A -> Prop) : sat p m Q -> (forall a, Q a -> Q' a) -> sat p m Q'.
  Proof. destruct m; cbn; auto. Qed.
  Lemma sat_and {A} (m : res A) (Q Q' : A -> Prop) : sat p m Q -> sat p m Q' -> sat p m (fun a => Q a /\ Q' a).
  Proof. destruct m; cbn; auto. Qed.
  Lemma sat_eq {A} (m : res A) (Q : A -> Prop) : sat p m Q -> sat p m (fun a => m = Ok a /\ Q a).
  Proof. destruct m; cbn; auto. Qed.
  Lemma sat_unwrap {A} (o : option A) (Q : A -> Prop) : o <> None -> (forall x, o = Some x -> Q x) -> sat p (unwrap o) Q.
  Proof. destruct o; cbn; auto. now intros. Qed.
  Lemma sat_get {A} (l : list A) i (Q : A -> Prop) : i < length l -> (forall x, nth_error l i = Some x -> Q x) -> sat p (get l i) Q.
  Proof. intros H K. unfold get. destruct (nth_error l i) eqn:E; cbn; auto. apply nth_error_None in E. lia. Qed.
  Lemma sat_set {A} (l : list A) i x (Q : list A -> Prop) : i < length l -> Q (upd l i x) -> sat p (set l i x) Q.
  Proof. intros H K. unfold set. apply Nat.ltb_lt in H. now rewrite H. Qed.
  Lemma sat_assert b (Q : unit -> Prop) : p \/ b = true -> (b = true -> Q tt) -> sat p (b2_assert b) Q.
  Proof. intros H K. destruct b; cbn; auto. destruct H; [auto|discriminate]. Qed.
  Lemma sat_weaken {A} (m : res A) (Q : A -> Prop) : p \/ is_panic m = false -> (forall a, m = Ok a -> Q a) -> m <> Fuel -> sat p m Q.
  Proof. intros H K F. destruct m; cbn in *; auto. destruct H; [auto|discriminate]. Qed.
  Lemma sat_each {A S} (I : S -> Prop) (f : A -> S -> res S) l : (forall x s, In x l -> I s -> sat p (f x s) I) -> forall s, I s -> sat p (each f l s) I.
  Proof.
    induction l as [|x l IH]; intros H s Hs; cbn [each]; [exact Hs|]. apply sat_bind. eapply sat_mono; [apply H; cbn; auto|].
    intros s' Hs'. apply IH; auto. intros y s'' Hy. apply H. now right.
  Qed.
  Lemma sat_each_pos {A S} (I : list A -> S -> Prop) (f : A -> S -> res S) l : (forall x r s, I (x :: r) s -> sat p (f x s) (I r)) ->
    forall s, I l s -> sat p (each f l s) (I []).
  Proof.
    intros H. induction l as [|x l IH]; intros s Hs; cbn [each]; [exact Hs|]. apply sat_bind. eapply sat_mono; [apply H; exact Hs|]. auto.
  Qed.
  (* the loop has done the part [d] of [l] *)
  Lemma sat_each_done {A S} (I : list A -> S -> Prop) (f : A -> S -> res S) l : (forall d x r s, l = d ++ x :: r -> I d s -> sat p (f x s) (I (d ++ [x]))) ->
    forall s, I [] s -> sat p (each f l s) (I l).
  Proof.
    intros H. assert (G : forall r d s, l = d ++ r -> I d s -> sat p (each f r s) (I l)).
    { induction r as [|x r IH]; intros d s E Hs; cbn [each].
      - rewrite app_nil_r in E. now subst.
      - apply sat_bind. eapply sat_mono; [eapply H; eauto|]. intros s' Hs'. apply (IH (d ++ [x])); auto. now rewrite <- app_assoc. }
    intros s Hs. apply (G l []); auto.
  Qed.
  Lemma sat_for_from {S} (I : nat -> S -> Prop) (f : nat -> S -> res S) n : forall lo s, I lo s ->
    (forall i s, lo <= i < lo + n -> I i s -> sat p (f i s) (I (Datatypes.S i))) -> sat p (for_from n lo f s) (I (lo + n)).
  Proof.
    induction n as [|n IH]; intros lo s Hs H; cbn [for_from].
    - now rewrite Nat.add_0_r.
    - apply sat_bind. eapply sat_mono; [apply H; [lia|exact Hs]|]. intros s' Hs'. replace (lo + Datatypes.S n) with (Datatypes.S lo + n) by lia.
      apply IH; auto. intros i s'' Hi. apply H. lia.
  Qed.
  Lemma sat_for {S} (I : nat -> S -> Prop) (f : nat -> S -> res S) n s : I 0 s ->
    (forall i s, i < n -> I i s -> sat p (f i s) (I (Datatypes.S i))) -> sat p (for_range 0 n f s) (I n).
  Proof. intros Hs H. unfold for_range. rewrite Nat.sub_0_r. change n with (0 + n) at 2. apply sat_for_from; auto. intros i s' Hi. apply H. lia. Qed.
End Sat.
Lemma sat_true {A} (m : res A) Q : sat True m Q -> forall a, m = Ok a -> Q a.
Proof. intros H a ->. exact H. Qed.
Lemma sat_false {A} (m : res A) Q : sat False m Q -> exists a, m = Ok a /\ Q a.
Proof. destruct m; cbn; [eauto|easy|easy]. Qed.
Lemma sat_imp {A} (p p' : Prop) (m : res A) Q : (p -> p') -> sat p m Q -> sat p' m Q.
Proof. destruct m; cbn; auto. Qed.

(* run the next command with a lemma about it *)
Tactic Notation "run" uconstr(L) := apply sat_bind; eapply sat_mono; [eapply L|].
(* [bind] re-association is not needed: each command is a lemma *)

(** ** loops that only change tables *)
Lemma existsb_eq i l : existsb (Nat.eqb i) l = true <-> In i l.
Proof.
  rewrite existsb_exists. split.
  - intros (x & H & E). apply Nat.eqb_eq in E. now subst.
  - intros H. exists i. split; auto. apply Nat.eqb_refl.
Qed.
Lemma sat_remove_id p i l (Q : list nat -> Prop) : In i l -> Q (without i l) -> sat p (remove_id i l) Q.
Proof. intros H K. unfold remove_id. apply existsb_eq in H. now rewrite H. Qed.
Lemma sat_sub p a b (Q : nat -> Prop) : b <= a -> Q (a - b) -> sat p (usize_sub a b) Q.
Proof. intros H K. unfold usize_sub. destruct (Nat.leb_spec b a); [exact K|lia]. Qed.

(** ** proxies of the fixtures and the broad phase *)
Section Fits.
  Context {T : Type} `{NT : Num T}.
  Implicit Types vf : nat -> option (fview T).

  (* the broad phase number of proxy [k] of fixture [f] *)
  Definition slot vf (f k : nat) : option nat :=
    match vf f with
    | Some x => if Nat.ltb k (v_count x) then match nth_error (v_proxies x) k with Some (_, _, o) => o | None => None end else None
    | None => None
    end.
  Definition proxies_ok vf : Prop := forall f x, vf f = Some x ->
    (v_count x = 0 \/ v_count x = length (v_proxies x)) /\
    (forall k, k < v_count x -> exists id, nth_error (v_proxies x) k = Some (Some f, k, Some id)).
  Definition pm_ok (m : @pmap T (nat * nat)) (s : nat -> nat -> option nat) : Prop :=
    (forall f k id, s f k = Some id -> exists box fl, m id = Some (box, Some (f, k), fl)) /\
    (forall id box u fl, m id = Some (box, u, fl) -> exists f k, u = Some (f, k) /\ s f k = Some id).
  Variable oks : vec2 T -> Prop.
  Definition fits (b : broad T (nat * nat)) vf : Prop :=
    proxies_ok vf /\ exists m pw k, breach oks b m pw k /\ pm_ok m (slot vf).

  Lemma slot_ext vf vf' : (forall f, vf f = vf' f) -> forall f k, slot vf f k = slot vf' f k.
  Proof. intros H f k. unfold slot. now rewrite H. Qed.
  Lemma pm_ok_ext m s s' : (forall f k, s f k = s' f k) -> pm_ok m s -> pm_ok m s'.
  Proof.
    intros H [A B]. split.
    - intros f k id K. rewrite <- H in K. eauto.
    - intros id box u fl K. destruct (B _ _ _ _ K) as (f & k & -> & E). exists f, k. now rewrite <- H.
  Qed.
  Lemma fits_ext b vf vf' : (forall f, vf f = vf' f) -> fits b vf -> fits b vf'.
  Proof.
    intros H (A & m & pw & k & B & P). split.
    - intros f x K. rewrite <- H in K. exact (A f x K).
    - exists m, pw, k. split; auto. eapply pm_ok_ext; [|exact P]. now apply slot_ext.
  Qed.
End Fits.

Section Logic.
  Context {T : Type} `{NT : Num T} `{TT : NumTrig T} `{VT : NumValid T}.
  Notation world := (world T).
  Local Open Scope num_scope.
  Implicit Types w : world.

  (** ** what is said to the listener about a contact *)
  Definition talk1 (c : nat) (e : event) : list bool :=
    match e with
    | EvBegin i => if Nat.eqb i c then [true] else []
    | EvEnd i => if Nat.eqb i c then [false] else []
    | _ => []
    end.
  Definition talk (c : nat) (l : list event) : list bool := flat_map (talk1 c) l.
  (* newest first; the contact touches when the newest is a begin *)
  Inductive alt : bool -> list bool -> Prop :=
  | alt_nil : alt false []
  | alt_begin l : alt false l -> alt true (true :: l)
  | alt_end l : alt true l -> alt false (false :: l).
  Definition touches w c : bool := match w_contacts w c with Some x => cf_touching (c_flags x) | None => false end.
  Definition ev_ok w : Prop := w_listener w = true -> forall c, alt (touches w c) (talk c (w_log w)).

  (** ** numbers: nothing is known about them if [p] *)
  Variable p : Prop.
  Definition bok (b : body T) : Prop := p \/ (sw_alpha0 (b_sweep b) <? #1) = true.
  Definition mok (m : manifold T) : Prop := p \/ (length (mf_points m) = 2 /\ mf_count m <= 2)%nat.
  Definition cok (c : contact T) : Prop := mok (c_manifold c) /\ (0 <= c_toi_count c)%Z.
  Definition nums w : Prop :=
    (forall i b, w_bodies w i = Some b -> bok b) /\ (forall i c, w_contacts w i = Some c -> cok c).

  (** ** the part of the world the physics does not touch *)
  Definition view_cf (c : contact T) := (view_c c, cf_filter (c_flags c)).
  Definition view_fx (f : fixture T) := (view_f f, f_density f, f_friction f, f_restitution f, f_threshold f, f_filter f, f_sensor f).
  Definition tables w := (w_next_body w, w_next_fixture w, w_next_contact w, w_next_joint w, w_body_list w, w_contact_list w, w_joint_list w,
    w_body_count w, w_contact_count w, w_joint_count w).
  Definition switches w := (w_new_contacts w, w_locked w, w_step_complete w, w_allow_sleep w, w_continuous w, w_sub_stepping w, w_clear_forces w, w_listener w, w_goodbye w).
  Definition links w0 w : Prop :=
    tables w = tables w0 /\ switches w = switches w0 /\
    (forall i, option_map view_b (w_bodies w i) = option_map view_b (w_bodies w0 i)) /\
    (forall i, option_map view_fx (w_fixtures w i) = option_map view_fx (w_fixtures w0 i)) /\
    (forall i, option_map view_cf (w_contacts w i) = option_map view_cf (w_contacts w0 i)) /\
    (forall i, option_map view_j (w_joints w i) = option_map view_j (w_joints w0 i)).

  Lemma links_refl w : links w w.
  Proof. repeat split. Qed.
  Lemma links_trans w0 w1 w2 : links w0 w1 -> links w1 w2 -> links w0 w2.
  Proof. intros (A & B & C & D & E & F) (A' & B' & C' & D' & E' & F'). refine (conj _ (conj _ (conj _ (conj _ (conj _ _))))); intros; congruence. Qed.

  Lemma map_comp {A B C} (f : A -> B) (g : B -> C) (o o' : option A) : option_map f o = option_map f o' -> option_map (fun x => g (f x)) o = option_map (fun x => g (f x)) o'.
  Proof. destruct o, o'; cbn; intros; congruence. Qed.

  Lemma links_geq w0 w : links w0 w -> geq (graph_of w) (graph_of w0).
  Proof.
    intros (A & B & C & D & E & F). unfold tables in A. injection A as A1 A2 A3 A4 A5 A6 A7 A8 A9 A10. unfold geq, graph_of. cbn.
    refine (conj C (conj _ (conj _ (conj F _)))).
    - intros i. exact (map_comp view_fx (fun v => fst (fst (fst (fst (fst (fst v)))))) _ _ (D i)).
    - intros i. exact (map_comp view_cf fst _ _ (E i)).
    - repeat split; congruence.
  Qed.
  Lemma links_vf w0 w : links w0 w -> forall f, g_f (graph_of w) f = g_f (graph_of w0) f.
  Proof. intros H. exact (proj1 (proj2 (links_geq _ _ H))). Qed.

  Variable oks : vec2 T -> Prop.
  Definition bfits w : Prop := fits oks (w_bp w) (g_f (graph_of w)).

  (** the invariant of the physics, relative to a world [w0] *)
  Definition phys w0 w : Prop := links w0 w /\ nums w /\ ev_ok w /\ bfits w.

  (** ** primitive changes *)
  Lemma phys_body w0 w i b b' : phys w0 w -> w_bodies w i = Some b -> view_b b' = view_b b -> bok b' -> phys w0 (put_body i b' w).
  Proof.
    intros (L & [N1 N2] & V & F) Hb Hv Hk. refine (conj _ (conj (conj _ N2) (conj V F))).
    - destruct L as (A & B & C & D). refine (conj A (conj B (conj _ D))). intros j. cbn. unfold put. destruct (Nat.eqb_spec j i) as [->|]; auto.
      rewrite <- C, Hb. cbn. now rewrite Hv.
    - intros j x. cbn. unfold put. destruct (Nat.eqb_spec j i) as [->|]; [intros K; injection K as <-; auto|apply N1].
  Qed.
  Lemma phys_contact w0 w i c c' : phys w0 w -> w_contacts w i = Some c -> view_cf c' = view_cf c -> cok c' -> cf_touching (c_flags c') = cf_touching (c_flags c) ->
    phys w0 (put_contact i c' w).
  Proof.
    intros (L & [N1 N2] & V & F) Hb Hv Hk Ht. refine (conj _ (conj (conj N1 _) (conj _ F))).
    - destruct L as (A & B & C & D & E & G). refine (conj A (conj B (conj C (conj D (conj _ G))))). intros j. cbn. unfold put. destruct (Nat.eqb_spec j i) as [->|]; auto.
      rewrite <- E, Hb. cbn. now rewrite Hv.
    - intros j x. cbn. unfold put. destruct (Nat.eqb_spec j i) as [->|]; [intros K; injection K as <-; auto|apply N2].
    - intros HL j. specialize (V HL j). unfold touches in *. cbn. unfold put. destruct (Nat.eqb_spec j i) as [->|]; auto. rewrite Hb in V. now rewrite Ht.
  Qed.
  Lemma phys_joint w0 w i j j' : phys w0 w -> w_joints w i = Some j -> view_j j' = view_j j -> phys w0 (put_joint i j' w).
  Proof.
    intros (L & N & V & F) Hb Hv. refine (conj _ (conj N (conj V F))).
    destruct L as (A & B & C & D & E & G). refine (conj A (conj B (conj C (conj D (conj E _))))). intros k. cbn. unfold put. destruct (Nat.eqb_spec k i) as [->|]; auto.
    rewrite <- G, Hb. cbn. now rewrite Hv.
  Qed.
  Definition quiet (e : event) : Prop := match e with EvBegin _ | EvEnd _ => False | _ => True end.
  Lemma phys_log w0 w e : phys w0 w -> quiet e -> phys w0 (log e w).
  Proof.
    intros (L & N & V & F) Hq. refine (conj L (conj N (conj _ F))). intros HL j. specialize (V HL j). cbn.
    unfold talk in *. cbn [flat_map]. destruct e; try easy.
  Qed.

  (** ** looking things up *)
  Lemma sat_body w i (Q : body T -> Prop) : w_bodies w i <> None -> (forall b, w_bodies w i = Some b -> Q b) -> sat p (get_body w i) Q.
  Proof. apply sat_unwrap. Qed.
  Lemma sat_fixture w i (Q : fixture T -> Prop) : w_fixtures w i <> None -> (forall b, w_fixtures w i = Some b -> Q b) -> sat p (get_fixture w i) Q.
  Proof. apply sat_unwrap. Qed.
  Lemma sat_contact w i (Q : contact T -> Prop) : w_contacts w i <> None -> (forall b, w_contacts w i = Some b -> Q b) -> sat p (get_contact w i) Q.
  Proof. apply sat_unwrap. Qed.
  Lemma sat_joint w i (Q : joint -> Prop) : w_joints w i <> None -> (forall b, w_joints w i = Some b -> Q b) -> sat p (get_joint w i) Q.
  Proof. apply sat_unwrap. Qed.

  Lemma map_none {A B} (f : A -> B) o : option_map f o = None <-> o = None.
  Proof. destruct o; cbn; split; easy. Qed.
  Lemma map_live {A B} (f : A -> B) o o' : option_map f o = option_map f o' -> (o <> None <-> o' <> None).
  Proof. destruct o, o'; cbn; intros; split; easy. Qed.

  Lemma links_body w0 w i : links w0 w -> (w_bodies w i <> None <-> w_bodies w0 i <> None).
  Proof. intros (_ & _ & H & _). eapply map_live. apply H. Qed.
  Lemma links_fixture w0 w i : links w0 w -> (w_fixtures w i <> None <-> w_fixtures w0 i <> None).
  Proof. intros (_ & _ & _ & H & _). eapply map_live. apply H. Qed.
  Lemma links_contact w0 w i : links w0 w -> (w_contacts w i <> None <-> w_contacts w0 i <> None).
  Proof. intros (_ & _ & _ & _ & H & _). eapply map_live. apply H. Qed.
  Lemma links_joint w0 w i : links w0 w -> (w_joints w i <> None <-> w_joints w0 i <> None).
  Proof. intros (_ & _ & _ & _ & _ & H). eapply map_live. apply H. Qed.

  Lemma sat_mod_body w0 w i f : phys w0 w -> w_bodies w i <> None -> (forall b, w_bodies w i = Some b -> bok b -> view_b (f b) = view_b b /\ bok (f b)) ->
    sat p (mod_body i f w) (phys w0).
  Proof.
    intros P Hi H. unfold mod_body. apply sat_bind. apply sat_body; auto. intros b Hb. destruct (H b Hb) as [H1 H2].
    - destruct P as (_ & [N _] & _). eauto.
    - cbn. eapply phys_body; eauto.
  Qed.
  Lemma sat_mod_contact w0 w i f : phys w0 w -> w_contacts w i <> None ->
    (forall c, w_contacts w i = Some c -> cok c -> view_cf (f c) = view_cf c /\ cok (f c) /\ cf_touching (c_flags (f c)) = cf_touching (c_flags c)) ->
    sat p (mod_contact i f w) (phys w0).
  Proof.
    intros P Hi H. unfold mod_contact. apply sat_bind. apply sat_contact; auto. intros b Hb. destruct (H b Hb) as (H1 & H2 & H3).
    - destruct P as (_ & [_ N] & _). eauto.
    - cbn. eapply phys_contact; eauto.
  Qed.
  Lemma sat_mod_joint w0 w i f : phys w0 w -> w_joints w i <> None -> (forall c, w_joints w i = Some c -> view_j (f c) = view_j c) -> sat p (mod_joint i f w) (phys w0).
  Proof.
    intros P Hi H. unfold mod_joint. apply sat_bind. apply sat_joint; auto. intros b Hb. cbn. eapply phys_joint; eauto.
  Qed.

  Lemma view_awake f (b : body T) : view_b (set_awake f b) = view_b b.
  Proof. unfold set_awake. destruct (is_static b); auto. now destruct f. Qed.
  Lemma bok_awake f (b : body T) : bok b -> bok (set_awake f b).
  Proof. unfold set_awake, bok. destruct (is_static b); auto. now destruct f. Qed.
  Lemma sat_wake w0 w i f : phys w0 w -> w_bodies w i <> None -> sat p (mod_body i (set_awake f) w) (phys w0).
  Proof. intros P H. apply sat_mod_body; auto. intros b _ Hk. split; auto using view_awake, bok_awake. Qed.

  (** ** the parts of a contact *)
  Lemma contact_parts w i c : contacts_ok (graph_of w) -> w_contacts w i = Some c -> exists fa fb a b ba bb,
    w_fixtures w (c_fa c) = Some fa /\ w_fixtures w (c_fb c) = Some fb /\ f_body fa = Some a /\ f_body fb = Some b /\ a <> b /\
    w_bodies w a = Some ba /\ w_bodies w b = Some bb /\ In (GEdge i true b) (b_contacts ba) /\ In (GEdge i false a) (b_contacts bb) /\
    c_ia c < length (f_proxies fa) /\ c_ib c < length (f_proxies fb).
  Proof.
    intros HC Hc. pose proof HC as (C1 & (E1 & E2 & E3) & C3 & C4).
    assert (Kc : g_c (graph_of w) i = Some (view_c c)) by (cbn; now rewrite Hc).
    destruct (C3 i _ Kc) as (vfa & vfb & Ha & Hb & La & Lb). cbn in Ha, Hb.
    destruct (w_fixtures w (c_fa c)) as [fa|] eqn:Efa; [|discriminate]. destruct (w_fixtures w (c_fb c)) as [fb|] eqn:Efb; [|discriminate].
    cbn in Ha, Hb. injection Ha as <-. injection Hb as <-. cbn in La, Lb. rewrite map_length in La, Lb.
    destruct (E3 i) as (a & b & Ka & Kb & Hab); [now rewrite Kc|].
    assert (Sa : f_body fa = Some a) by (unfold cbody, owner in Ka; rewrite Kc in Ka; cbn in Ka; rewrite Efa in Ka; exact Ka).
    assert (Sb : f_body fb = Some b) by (unfold cbody, owner in Kb; rewrite Kc in Kb; cbn in Kb; rewrite Efb in Kb; exact Kb).
    assert (Ia : In (GEdge i true b) (contacts_of (graph_of w) a)) by (apply E2; auto).
    assert (Ib : In (GEdge i false a) (contacts_of (graph_of w) b)) by (apply E2; auto).
    unfold contacts_of in Ia, Ib. cbn in Ia, Ib. destruct (w_bodies w a) as [ba|] eqn:Eba; [|easy]. destruct (w_bodies w b) as [bb|] eqn:Ebb; [|easy].
    exists fa, fb, a, b, ba, bb. cbn in Ia, Ib. repeat split; auto.
  Qed.
End Logic.
