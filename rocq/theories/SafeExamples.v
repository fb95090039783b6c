(** A careful program in single precision. *)
From Coq Require Import List ZArith Bool Arith Lia.
From Verif Require Import Base Num NumLaws Math Collision Manifold Filter ShapeModel CollideModel TreeModel TreeSpec BroadModel BroadSpec DynModel DynSpec WorldModel WorldGraph WorldSpec WorldClaims WorldCalls WorldInv WorldHist WorldReach WorldExamples SafeSpec WorldSafe.
Import ListNotations.

Lemma ordered_by (U : Type) (NU : Num U) (OU : NumOrd U) : ((nofZ 0 : U) <? nofZ 1)%num = true -> ordered U.
Proof.
  intros H. split; [exact H|]. intros a b c H1 H2. destruct (nlt_ok _ _ H1) as [A B]. destruct (nlt_ok _ _ H2) as [_ C]. rewrite nlt_nle in H1, H2 |- * by auto. apply negb_true_iff in H1, H2. apply negb_true_iff, not_true_iff_false. intros K.
  destruct (nle_total a b A B) as [L|L]; [|congruence]. assert (nle c b = true) by (eapply nle_trans; eauto). congruence.
Qed.
Lemma ordered_f32 : ordered f32.
Proof. apply (ordered_by f32 _ _). vm_compute. reflexivity. Qed.

Lemma ex_two : two_points ex_manifold.
Proof. split; vm_compute; [reflexivity|]. repeat constructor. Qed.
Lemma ex_sound impact : sound_env (ex_env impact).
Proof.
  pose proof ex_two as M2.
  refine (conj _ (conj _ (conj _ (conj _ (conj _ _))))).
  - intros w i (c & a & b & Hc & [L2 C2] & _). unfold ex_env. cbn [e_evaluate]. unfold ex_evaluate. rewrite Hc.
    destruct (ex_place w (c_fa c)) as [[[sa|sa|sa|sa] xa]|]; try (eexists; split; [reflexivity|exact M2]). destruct (ex_place w (c_fb c)) as [[[sb|sb|sb|sb] xb]|]; try (eexists; split; [reflexivity|exact M2]).
    unfold b2_collide_circles, mf_one. cbv zeta. destruct (mf_points (c_manifold c)) as [|p [|q [|r l]]] eqn:Qp; try discriminate. destruct (nlt _ _); eexists; (split; [reflexivity|]); split; cbn; rewrite ?Qp; auto.
  - intros w i _. eexists. reflexivity.
  - intros w i _. eexists. reflexivity.
  - intros w is dt _. eexists. split; [reflexivity|]. intros c. reflexivity.
  - intros w is a b dt _. eexists. reflexivity.
  - intros w e c H. exact H.
Qed.

(** ** a check that a call is safe *)
Section Settle.
  Context {T : Type} `{NT : Num T}.
  Definition load (x : fixture T) : option (T * shape T) := Some (f_density x, f_shape x).
  (* a fixture with this density and shape *)
  Definition probe (f0 : fixture T) (l : option (T * shape T)) : fixture T :=
    match l with Some (d, s) => Fixture d (f_body f0) s (f_friction f0) (f_restitution f0) (f_threshold f0) (f_proxies f0) (f_proxy_count f0) (f_filter f0) (f_sensor f0) | None => f0 end.
  Lemma mass_loop_loads f0 ws : forall fs acc, map load fs = ws -> mass_loop fs acc = mass_loop (map (probe f0) ws) acc.
  Proof.
    induction ws as [|x ws IH]; intros [|f fs] acc H; try discriminate; [reflexivity|]. cbn [map] in H |- *. injection H as <- H. cbn [mass_loop load probe]. destruct acc as [[m c] i].
    cbn [f_density]. destruct (neqb _ _); [now apply IH|]. unfold fixture_mass. cbn [f_shape f_density]. destruct (shape_mass _ _) as [d| |]; cbn [bind]; auto.
  Qed.
  Definition fix0 : fixture T := Fixture (nofZ 0) None (ShCircle (Circle (nofZ 0) vzero)) (nofZ 0) (nofZ 0) (nofZ 0) [] 0 filter_default false.
  Definition settle_check (ws : list (option (T * shape T))) (ty : btype) : bool :=
    match ty with
    | DynamicBody =>
      match mass_loop (map (probe fix0) ws) (nofZ 0, vzero, nofZ 0) with
      | Ok (m, c, i) => let c := if nlt (nofZ 0) m then vmuls c (nofZ 1 / m)%num else c in negb (nlt (nofZ 0) i) || nlt (nofZ 0) (i - m * b2_dot c c)%num
      | _ => false
      end
    | _ => true
    end.
  Lemma settle_checked ws ty : settle_check ws ty = true -> settles ws ty.
  Proof.
    intros H fs b Q Ty. unfold reset_mass_data. cbv zeta. cbn [b_type set_b_mass set_b_inv_mass set_b_i set_b_inv_i set_sw set_b_sweep]. rewrite Ty. destruct ty; try (eexists; reflexivity). cbn [settle_check] in H.
    cbn [b_mass b_i set_b_mass set_b_inv_mass set_b_i set_b_inv_i set_sw set_b_sweep]. rewrite (mass_loop_loads fix0 ws) by exact Q. destruct (mass_loop _ _) as [[[m c] i]| |]; try discriminate. cbn [bind]. cbv zeta in H.
    cbn [b_mass b_i set_b_mass set_b_inv_mass set_b_i set_b_inv_i set_sw set_b_sweep]. destruct (nlt (nofZ 0) m); cbn [b_mass b_i b_inv_mass b_flags set_b_mass set_b_inv_mass set_b_i set_b_inv_i set_sw set_b_sweep];
      (destruct (nlt (nofZ 0) i); cbn [negb andb orb] in *; [|eexists; reflexivity]); rewrite H; (destruct (negb _); eexists; reflexivity).
  Qed.
End Settle.

Definition circular (s : shape f32) : bool := match s with ShCircle _ => true | _ => false end.
Definition live {A} (o : option A) : bool := match o with Some _ => true | None => false end.
Definition ex_classes (w : fworld) : bool := forallb (fun f => match w_fixtures w f with Some x => circular (f_shape x) | None => true end) (seq 0 (w_next_fixture w)).
(* enough for the programs below; the other calls are refused *)
Definition ex_safe (w : fworld) (c : wcall f32) : bool :=
  match c with
  | WCreateBody d => is_ok (body_new d)
  | WDestroyBody i | WTransform i _ _ | WBody i _ => live (w_bodies w i)
  | WCreateFixture i d => match w_bodies w i with Some b => circular (fd_shape d) && settle_check (Some (fd_density d, fd_shape d) :: loads w (b_fixtures b)) (b_type b) | None => false end
  | WDestroyFixture i f => match w_bodies w i with Some b => existsb (Nat.eqb f) (b_fixtures b) && settle_check (loads w (List.filter (fun g => negb (Nat.eqb g f)) (b_fixtures b))) (b_type b) | None => false end
  | WCreateJoint a b _ => negb (Nat.eqb a b) && live (w_bodies w a) && live (w_bodies w b)
  | WDestroyJoint j => live (w_joints w j)
  | WType i ty => match w_bodies w i with Some b => settle_check (loads w (b_fixtures b)) ty | None => false end
  | WEnabled i f => match w_bodies w i with Some b => negb f || negb (is_enabled b) | None => false end
  | WResetMass i | WFixedRotation i _ => match w_bodies w i with Some b => settle_check (loads w (b_fixtures b)) (b_type b) | None => false end
  | WSensor f _ | WFixture f _ => live (w_fixtures w f)
  | WContact c _ => live (w_contacts w c)
  | WStep _ => ex_classes w && (Nat.leb (w_body_count w) 64 || negb (w_continuous w))
  | WAllowSleeping _ | WContinuous _ | WSubStepping _ | WAutoClear _ | WClearForces | WShift _ => true
  | _ => false
  end.
Lemma live_ok {A} (o : option A) : live o = true -> o <> None.
Proof. now destruct o. Qed.
Lemma circular_good s : circular s = true -> good_shape s.
Proof. destruct s as [c|e|p|ch]; try discriminate. intros _. exists 1. split; [reflexivity|]. intros xf k _. eexists. reflexivity. Qed.
Lemma ex_classes_ok (E : env f32) w : wreach E w -> answers E -> ex_classes w = true -> has_classes w.
Proof.
  intros R A H f g x y a b Hf Hg _ _ _ _. unfold ex_classes in H. rewrite forallb_forall in H.
  assert (B : forall f x, w_fixtures w f = Some x -> circular (f_shape x) = true).
  { intros k z K. specialize (H k). rewrite K in H. apply H. apply in_seq. split; [lia|]. cbn. destruct (W_graph _ _ _ (reach_W E A w R)) as (_ & (_ & _ & _ & _ & F) & _). destruct (Nat.lt_ge_cases k (w_next_fixture w)) as [|L]; auto.
    specialize (F k L). cbn in F. now rewrite K in F. }
  apply B in Hf, Hg. destruct (f_shape x), (f_shape y); discriminate.
Qed.
Lemma ex_safe_ok (E : env f32) w c : answers E -> wreach E w -> ex_safe w c = true -> safe w c.
Proof.
  intros A R H. destruct c; cbn [ex_safe safe] in *; try discriminate; auto using live_ok.
  all: try (match goal with K : match w_bodies ?v ?i with _ => _ end = true |- _ => destruct (w_bodies v i) as [b|] eqn:Hb; [|discriminate] end; exists b; split; [exact Hb|]).
  - destruct (body_new _) as [b| |]; try discriminate. eexists. reflexivity.
  - apply andb_prop in H. destruct H as [H1 H2]. split; [now apply circular_good|]. intros _. now apply settle_checked.
  - apply andb_prop in H. destruct H as [H1 H2]. split; [|now apply settle_checked]. apply existsb_exists in H1. destruct H1 as (g & G & Q). apply Nat.eqb_eq in Q. now subst.
  - apply andb_prop in H. destruct H as [H H2]. apply andb_prop in H. destruct H as [H H1]. apply negb_true_iff, Nat.eqb_neq in H. auto using live_ok.
  - right. now apply settle_checked.
  - intros ->. cbn in H. now apply negb_true_iff in H.
  - now apply settle_checked.
  - now apply settle_checked.
  - apply andb_prop in H. destruct H as [H H1]. split; [now apply (ex_classes_ok E)|]. apply orb_prop in H1. destruct H1 as [H1|H1]; [left; now apply Nat.leb_le|right; now apply negb_true_iff in H1].
Qed.

(** ** a list of safe calls *)
Fixpoint safe_runs (E : env f32) (cs : list (wcall f32)) (w : fworld) : option fworld :=
  match cs with [] => Some w | c :: cs => if ex_safe w c then match wrun E c w with Ok w' => safe_runs E cs w' | _ => None end else None end.
Lemma safe_runs_careful (E : env f32) cs : answers E -> forall w w', careful E w -> safe_runs E cs w = Some w' -> careful E w'.
Proof.
  intros A. induction cs as [|c cs IH]; intros w w' H R; cbn [safe_runs] in R; [now injection R as <-|]. destruct (ex_safe w c) eqn:S; [|discriminate]. destruct (wrun E c w) as [w1| |] eqn:R1; try discriminate.
  eapply IH; [|exact R]. eapply careful_call; eauto. eapply ex_safe_ok; eauto. now apply careful_reach.
Qed.
Definition safe_check (E : env f32) (cs : list (wcall f32)) (p : fworld -> bool) : bool :=
  match world_new true true with Ok w => match safe_runs E cs w with Some w => p w | None => false end | _ => false end.
Lemma safe_checked (E : env f32) cs p : answers E -> safe_check E cs p = true -> exists w, careful E w /\ p w = true.
Proof.
  intros A. unfold safe_check. destruct (world_new true true) as [w0| |] eqn:Q; try discriminate. destruct (safe_runs E cs w0) as [w|] eqn:R; try discriminate. intros P. exists w. split; auto.
  eapply safe_runs_careful; [exact A| |exact R]. eapply careful_new; eauto.
Qed.

(* balls that collide, bodies and fixtures and joints that go while the world runs, a body that is switched off and on *)
Definition safe_calls : list (wcall f32) :=
  ex_build ++ [tick; WEnabled 1 false; tick; WEnabled 1 true; tick; WType 1 StaticBody; tick; WType 1 DynamicBody; WSensor 0 true; tick; WDestroyFixture 3 4; WDestroyJoint 0; WContact 3 (KEnabled false); tick;
    WTransform 4 (at_x (nlit 5 10)) (nofZ 0); tick; WDestroyBody 3; tick; WFixedRotation 1 true; WContinuous false; tick; WSubStepping true; tick; WShift (at_x (nofZ 1))].
Definition ex_touching (l : list (nat * nat * nat * bool)) (w : fworld) : bool := ex_has l w && ex_safe w tick && is_ok (wrun E0 tick w).
Definition safe_last : list (nat * nat * nat * bool) := [(11, 2, 5, true); (10, 0, 5, true); (9, 1, 5, true); (8, 1, 2, true); (7, 0, 1, true)].
Lemma ex_careful : exists w, sound_env E0 /\ ordered f32 /\ careful E0 w /\ ex_contacts w = safe_last /\ safe w tick.
Proof.
  destruct (safe_checked E0 safe_calls (ex_touching safe_last) (ex_answers None)) as (w & C & P); [vm_compute; reflexivity|]. exists w. unfold ex_touching in P. apply andb_prop in P. destruct P as [P _]. apply andb_prop in P. destruct P as [P1 P2].
  refine (conj (ex_sound None) (conj ordered_f32 (conj C (conj (ex_has_ok _ _ P1) _)))). exact (ex_safe_ok E0 w tick (ex_answers None) (careful_reach E0 w C) P2).
Qed.
(* 70 bodies: with continuous collision off a step is safe *)
Definition many_calls : list (wcall f32) :=
  WContinuous false :: flat_map (fun k => [WCreateBody (ex_bodydef DynamicBody (nlit (Z.of_nat k * 4) 10) (nofZ 1) false); WCreateFixture k ball]) (seq 0 70) ++ [tick].
Lemma ex_many : exists w, sound_env E0 /\ ordered f32 /\ careful E0 w /\ w_body_count w = 70 /\ w_continuous w = false /\ has_classes w.
Proof.
  destruct (safe_checked E0 many_calls (fun w => Nat.eqb (w_body_count w) 70 && negb (w_continuous w) && ex_classes w) (ex_answers None)) as (w & C & P); [vm_compute; reflexivity|]. exists w. apply andb_prop in P. destruct P as [P P3]. apply andb_prop in P. destruct P as [P1 P2].
  refine (conj (ex_sound None) (conj ordered_f32 (conj C (conj (proj1 (Nat.eqb_eq _ _) P1) (conj (proj1 (negb_true_iff _) P2) _))))). exact (ex_classes_ok E0 w (careful_reach E0 w C) (ex_answers None) P3).
Qed.
