(** A world is locked only inside a step. *)
From Coq Require Import List ZArith Bool Arith Lia.
From Verif Require Import Base Num Math Collision Manifold Filter ShapeModel TreeModel TreeSpec BroadModel DynModel WorldModel WorldGraph WorldLogic WorldSolve WorldToi WorldCalls.
Import ListNotations.

Section Lock.
  Local Open Scope num_scope.
  Context {T : Type} `{NT : Num T} `{TT : NumTrig T} `{VT : NumValid T}.
  Notation world := (world T).
  Implicit Types w : world.
  Variable E : env T.
  Variable L : bool.
  Definition at_lock w : Prop := w_locked w = L.
  Ltac lk_leaf := apply okp_ok; unfold at_lock in *; cbn in *; auto.
  Ltac lk := repeat (cbv zeta; match goal with
    | |- okp (Ok _) _ => lk_leaf
    | |- okp Panic _ => let a := fresh in intros a ?; discriminate
    | |- okp (if ?b then _ else _) _ => destruct b
    | |- okp (bind (if ?b then _ else _) _) _ => destruct b
    | |- okp (bind (Ok _) _) _ => cbn [bind]
    | |- okp (match ?x with Some _ => _ | None => _ end) _ => destruct x
    | |- okp (bind (b2_assert _) _) _ => apply okp_assert
    | |- okp (bind ?m _) _ => match type of m with res (WorldModel.world T) => apply okp_bind; eapply okp_mono; [solve [eauto 4 with lk]|cbv beta; intros ? ?] end
    | |- okp (bind _ _) _ => apply okp_skip; intros
    | x : (_ * _)%type |- _ => destruct x
    | |- okp _ _ => solve [eauto 4 with lk]
    end).

  Lemma lk_get {A} (o : option A) (f : A -> res world) Q : (forall a, okp (f a) Q) -> okp (bind (unwrap o) f) Q.
  Proof. intros H. now apply okp_skip. Qed.
  Lemma lk_put_body i b w : at_lock w -> at_lock (put_body i b w).
  Proof. auto. Qed.
  Lemma lk_body i f w : at_lock w -> okp (mod_body i f w) at_lock.
  Proof. intros H. unfold mod_body. lk. Qed.
  Lemma lk_contact i f w : at_lock w -> okp (mod_contact i f w) at_lock.
  Proof. intros H. unfold mod_contact. lk. Qed.
  Lemma lk_each {A} (f : A -> world -> res world) l : (forall x w, at_lock w -> okp (f x w) at_lock) -> forall w, at_lock w -> okp (each f l w) at_lock.
  Proof. intros H. apply okp_each. exact H. Qed.
  #[local] Hint Resolve lk_body lk_contact lk_each : lk.
  Lemma lk_listen e i w : at_lock w -> okp (listen E e i w) at_lock.
  Proof. intros H. unfold listen. lk. Qed.
  #[local] Hint Resolve lk_listen : lk.
  Lemma lk_wake c w : at_lock w -> okp (wake_touching c w) at_lock.
  Proof. intros H. unfold wake_touching. lk. Qed.
  #[local] Hint Resolve lk_wake : lk.
  Lemma lk_destroy i w : at_lock w -> okp (destroy_contact E i w) at_lock.
  Proof. intros H. unfold destroy_contact. lk. Qed.
  #[local] Hint Resolve lk_destroy : lk.
  Lemma lk_destroys i l w : at_lock w -> okp (destroy_contacts E i l w) at_lock.
  Proof. intros H. unfold destroy_contacts. lk. Qed.
  Lemma lk_create_proxies f xf w : at_lock w -> okp (create_proxies f xf w) at_lock.
  Proof. intros H. unfold create_proxies. lk. Qed.
  Lemma lk_destroy_proxies f w : at_lock w -> okp (destroy_proxies f w) at_lock.
  Proof. intros H. unfold destroy_proxies. lk. Qed.
  Lemma lk_synchronize f a b w : at_lock w -> okp (synchronize f a b w) at_lock.
  Proof. intros H. unfold synchronize. lk. Qed.
  Lemma lk_touch f w : at_lock w -> okp (touch_proxies f w) at_lock.
  Proof. intros H. unfold touch_proxies. lk. Qed.
  #[local] Hint Resolve lk_destroys lk_create_proxies lk_destroy_proxies lk_synchronize lk_touch : lk.
  Lemma lk_sync i w : at_lock w -> okp (synchronize_fixtures i w) at_lock.
  Proof. intros H. unfold synchronize_fixtures. lk. Qed.
  Lemma lk_flag a b w : at_lock w -> okp (flag_contacts a b w) at_lock.
  Proof. intros H. unfold flag_contacts. apply okp_skip. intros x. apply lk_each; auto. intros e v Hv. lk. Qed.
  Lemma lk_reset i w : at_lock w -> okp (reset_mass i w) at_lock.
  Proof. intros H. unfold reset_mass. lk. Qed.
  #[local] Hint Resolve lk_sync lk_flag lk_reset : lk.
  Lemma lk_create_joint a b cc w : at_lock w -> okp (create_joint a b cc w) (fun q => at_lock (fst q)).
  Proof. intros H. unfold create_joint. lk. Qed.
  Lemma lk_destroy_joint i w : at_lock w -> okp (destroy_joint i w) at_lock.
  Proof. intros H. unfold destroy_joint. lk. Qed.
  #[local] Hint Resolve lk_destroy_joint : lk.
  Lemma lk_create_fixture i d w : at_lock w -> okp (create_fixture i d w) (fun q => at_lock (fst q)).
  Proof. intros H. unfold create_fixture. lk. Qed.
  Lemma lk_destroy_fixture i f w : at_lock w -> okp (destroy_fixture E i f w) at_lock.
  Proof.
    intros H. unfold destroy_fixture. apply okp_assert. apply okp_skip. intros b. apply okp_skip. intros o. apply okp_assert, okp_assert. apply okp_skip. intros l. cbv zeta. apply okp_bind. eapply okp_mono; [apply lk_each|].
    - intros e v Hv. lk.
    - exact H.
    - intros v Hv. lk.
  Qed.
  Lemma lk_refilter f w : at_lock w -> okp (refilter f w) at_lock.
  Proof. intros H. unfold refilter. lk. Qed.
  #[local] Hint Resolve lk_refilter : lk.
  Lemma lk_create_body d w : at_lock w -> okp (create_body d w) (fun q => at_lock (fst q)).
  Proof. intros H. unfold create_body. lk. Qed.
  Lemma lk_destroy_body i w : at_lock w -> okp (destroy_body E i w) at_lock.
  Proof.
    intros H. unfold destroy_body. apply okp_assert, okp_assert. apply okp_skip. intros b. apply okp_bind. eapply okp_mono; [apply lk_each; [|exact H]|].
    - intros e v Hv. cbv zeta. apply lk_destroy_joint. now destruct (w_goodbye v).
    - intros w1 H1. apply okp_bind. eapply okp_mono; [apply lk_body, H1|]. intros w2 H2. apply okp_skip. intros b2. apply okp_bind. eapply okp_mono; [apply lk_destroys, H2|]. intros w3 H3. apply okp_skip. intros b3.
      apply okp_bind. eapply okp_mono; [apply lk_each; [|exact H3]|].
      + intros f v Hv. cbv zeta. apply okp_bind. eapply okp_mono; [apply lk_destroy_proxies|].
        * now destruct (w_goodbye v).
        * intros v' Hv'. lk.
      + intros w4 H4. lk.
  Qed.
  Lemma lk_call c w : at_lock w -> okp (wrun E c w) (fun w' => at_lock w' \/ w_locked w' = false).
  Proof.
    assert (OL : forall m : res world, okp m at_lock -> okp m (fun w' => at_lock w' \/ w_locked w' = false)) by (intros m H; eapply okp_mono; [exact H|now left]).
    intros H. destruct c; cbn [wrun]; (match goal with |- okp (step _ _ _) _ => idtac | _ => apply OL end); clear OL.
    1,3,5: apply okp_bind; eapply okp_mono; [solve [eauto using lk_create_body, lk_create_fixture, lk_create_joint]|cbv beta; intros [v k] Hv; cbn in Hv; now apply okp_ok].
    - now apply lk_destroy_body.
    - now apply lk_destroy_fixture.
    - now apply lk_destroy_joint.
    - unfold set_type. lk.
    - unfold set_enabled. lk.
    - unfold set_transform. lk.
    - lk.
    - lk.
    - lk.
    - lk.
    - unfold set_filter_data. lk.
    - lk.
    - unfold set_sensor. lk.
    - lk.
    - lk.
    - unfold set_allow_sleeping. lk.
    - lk.
    - lk.
    - lk.
    - unfold clear_forces. lk.
    - unfold world_shift. lk.
    - unfold step. do 5 (apply okp_skip; intros; cbv zeta). apply okp_ok. now right.
  Qed.
End Lock.

Section Free.
  Context {T : Type} `{NT : Num T} `{TT : NumTrig T} `{VT : NumValid T}.
  (* whatever the callbacks and the routines do, a world is not locked between two calls *)
  Theorem reach_free (E : env T) w : wreach E w -> w_locked w = false.
  Proof.
    induction 1 as [l g w Hn|w c w' _ IH Hc].
    - unfold world_new in Hn. destruct bp_new as [bp| |]; cbn in Hn; try discriminate. injection Hn as <-. reflexivity.
    - destruct (lk_call E false c w IH w' Hc) as [K|K]; exact K.
  Qed.
End Free.
