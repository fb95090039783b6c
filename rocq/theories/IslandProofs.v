(** Sleeping. *)
From Coq Require Import List ZArith Bool Arith Reals Lia Lra.
From Verif Require Import Base Num NumLaws Math Manifold ListFacts DynModel SolverModel IslandModel SolverSpec.
Import ListNotations.

Section Sleep.
  Local Open Scope num_scope.
  Context {T : Type} {NT : Num T} {OT : NumOrd T}.

  Hypothesis tol_ok : nok (B2_ANGULAR_SLEEP_TOLERANCE * B2_ANGULAR_SLEEP_TOLERANCE : T) /\ nok (B2_LINEAR_SLEEP_TOLERANCE * B2_LINEAR_SLEEP_TOLERANCE : T).
  Lemma not_lt (a b : T) : nok a -> nok b -> nlt a b = false -> nle b a = true.
  Proof. intros A B H. rewrite nlt_nle in H by auto. now apply negb_false_iff in H. Qed.
  Lemma restless_quiet h (b : body T) : measurable h b -> restless b = false -> quiet b.
  Proof. unfold restless, quiet. intros (_ & M1 & M2) H. destruct tol_ok as [O1 O2]. apply orb_false_iff in H. destruct H as [H H3]. apply orb_false_iff in H. destruct H as [H1 H2]. apply negb_false_iff in H1. auto using not_lt. Qed.
  Lemma min_le (a b : T) : nok a -> nok b -> nle (b2_min a b) a = true /\ nle (b2_min a b) b = true /\ nok (b2_min a b).
  Proof.
    intros A B. unfold b2_min. destruct (a <? b) eqn:L.
    - rewrite nlt_nle in L by auto. apply negb_true_iff in L. repeat split; auto using nle_refl. destruct (nle_total a b A B); congruence.
    - rewrite nlt_nle in L by auto. apply negb_false_iff in L. repeat split; auto using nle_refl.
  Qed.
  (* the least time is below every time *)
  Lemma sleep_bodies_min h bs : (forall b, In b bs -> measurable h b) -> forall mt bs' mt', nok mt -> sleep_bodies h bs mt = (bs', mt') -> nok mt' /\ nle mt' mt = true \/ nok mt' /\ nle mt' #0 = true.
  Proof.
    induction bs as [|b bs IH]; intros K mt bs' mt' M H; cbn [sleep_bodies] in H.
    - injection H as _ <-. left. split; auto. now apply nle_refl.
    - destruct (sleep_body h b mt) as [b1 mt1] eqn:S. destruct (sleep_bodies h bs mt1) as [r mt2] eqn:R. injection H as _ <-. unfold sleep_body in S. destruct (is_static b); [injection S as _ <-; eapply IH; eauto; intros; apply K; now right|].
      destruct (restless b); injection S as _ <-.
      + assert (N0 : nok (#0 : T)) by (apply nfin_ok, nfin0). destruct (IH (fun b I => K b (or_intror I)) _ _ _ N0 R) as [[A B]|[A B]]; right; auto.
      + assert (N1 : nok (b_sleep_time b + h)) by (apply K; now left). assert (N2 : measurable h b) by (apply K; now left). destruct (min_le mt (b_sleep_time b + h) M N1) as (L1 & L2 & L3). destruct (IH (fun b I => K b (or_intror I)) _ _ _ L3 R) as [[A B]|[A B]]; [left|right; auto]. split; auto. eapply nle_trans; eauto.
  Qed.
  Hypothesis time_pos : nle B2_TIME_TO_SLEEP (#0 : T) = false.
  Lemma sleep_bodies_rested h bs : (forall b, In b bs -> measurable h b) -> forall mt bs' mt', nok mt -> sleep_bodies h bs mt = (bs', mt') -> nle B2_TIME_TO_SLEEP mt' = true -> Forall (rested h) bs.
  Proof.
    induction bs as [|b bs IH]; intros K mt bs' mt' M H Q; cbn [sleep_bodies] in H; [constructor|].
    destruct (sleep_body h b mt) as [b1 mt1] eqn:S. destruct (sleep_bodies h bs mt1) as [r mt2] eqn:R. injection H as _ <-. unfold sleep_body in S. unfold rested at 1.
    destruct (is_static b) eqn:St; [injection S as _ <-; constructor; auto; eapply IH; eauto; intros; apply K; now right|].
    assert (K' : forall b, In b bs -> measurable h b) by (intros; apply K; now right).
    destruct (restless b) eqn:Re; injection S as _ <-.
    - assert (N0 : nok (#0 : T)) by (apply nfin_ok, nfin0). exfalso. destruct (sleep_bodies_min h bs K' _ _ _ N0 R) as [[A B]|[A B]]; rewrite (nle_trans _ _ _ Q B) in time_pos; discriminate.
    - assert (N1 : nok (b_sleep_time b + h)) by (apply K; now left). assert (N2 : measurable h b) by (apply K; now left). destruct (min_le mt (b_sleep_time b + h) M N1) as (L1 & L2 & L3). constructor; [|eapply IH; eauto]. right. split; [now apply (restless_quiet h)|].
      destruct (sleep_bodies_min h bs K' _ _ _ L3 R) as [[A B]|[A B]]; [|rewrite (nle_trans _ _ _ Q B) in time_pos; discriminate]. eapply nle_trans; [exact Q|]. eapply nle_trans; eauto.
  Qed.
  Lemma sleep_bodies_flags h : forall bs mt bs' mt', sleep_bodies h bs mt = (bs', mt') -> Forall2 (fun b b' => b_flags b' = b_flags b /\ is_static b' = is_static b) bs bs'.
  Proof.
    induction bs as [|b bs IH]; intros mt bs' mt' H; cbn [sleep_bodies] in H; [injection H as <- _; constructor|]. destruct (sleep_body h b mt) as [b1 mt1] eqn:S. destruct (sleep_bodies h bs mt1) as [r mt2] eqn:R. injection H as <- _. constructor; [|eauto].
    unfold sleep_body in S. destruct (is_static b) eqn:St; [injection S as <- _; auto|]. destruct (restless b); injection S as <- _; split; reflexivity || (unfold is_static in *; cbn; auto).
  Qed.
  Lemma set_awake_asleep (b : body T) : asleep (set_awake false b).
  Proof. unfold asleep, set_awake. destruct (is_static b) eqn:S; [now left|]. right. reflexivity. Qed.
  Hypothesis max_ok : nok (B2_MAX_FLOAT : T).
  (* either nobody's flags change, or everybody sleeps and had the right to *)
  Theorem sleep_together h allow solved bs : (forall b, In b bs -> measurable h b) -> let bs' := island_sleep h allow solved bs in
    Forall2 (fun b b' => b_flags b' = b_flags b) bs bs' \/ (allow = true /\ solved = true /\ Forall (rested h) bs /\ Forall asleep bs' /\ length bs' = length bs).
  Proof.
    intros K. cbv zeta. unfold island_sleep. destruct allow; [|left; induction bs; constructor; auto; apply IHbs; intros; apply K; now right].
    destruct (sleep_bodies h bs B2_MAX_FLOAT) as [bs1 mt] eqn:E. pose proof (sleep_bodies_flags _ _ _ _ _ E) as F. destruct (nle B2_TIME_TO_SLEEP mt) eqn:L; cbn [andb]; [destruct solved|].
    - right. repeat split; auto.
      + eapply sleep_bodies_rested; eauto.
      + apply Forall_forall. intros b I. apply in_map_iff in I. destruct I as (b0 & <- & _). apply set_awake_asleep.
      + rewrite map_length. clear - F. induction F; cbn; auto.
    - left. clear - F. induction F; constructor; tauto.
    - left. clear - F. induction F; constructor; tauto.
  Qed.

  (* the timer is the time of the last steps, all of them quiet *)
  Theorem timer_history l h b : history ((h, b) :: l) -> Forall (fun hb => measurable (fst hb) (snd hb)) ((h, b) :: l) -> quiet b -> exists recent older, (h, b) :: l = recent ++ older /\ recent <> [] /\ Forall (fun hb => quiet (snd hb)) recent /\ b_sleep_time b + h = elapsed recent.
  Proof.
    remember ((h, b) :: l) as m eqn:Em. intros H. revert h b l Em. induction H as [h0 b0 Z|h0 b0 l0 Z H IH|h0 b0 h' b' l0 E H IH]; intros h b l Em Ms Q; injection Em as -> -> <-.
    - exists [(h, b)], []. cbn. repeat split; auto; try discriminate. now rewrite Z.
    - exists [(h, b)], l0. cbn. repeat split; auto; try discriminate. now rewrite Z.
    - destruct (restless b') eqn:Re.
      + exists [(h, b)], ((h', b') :: l0). cbn. repeat split; auto; try discriminate. now rewrite E.
      + inversion Ms as [|? ? M1 M2]; subst; inversion M2 as [|? ? M3 _]; subst. destruct (IH h' b' l0 eq_refl M2 (restless_quiet h' _ M3 Re)) as (recent & older & A & B & C & D). exists ((h, b) :: recent), older. cbn [app elapsed]. repeat split; auto; try discriminate; [now rewrite A|]. now rewrite E, D.
  Qed.
End Sleep.

(* a body whose awake flag changes *)
Section Changed.
  Context {T : Type} {NT : Num T} {OT : NumOrd T}.
  Hypothesis tol_ok : nok (nmul B2_ANGULAR_SLEEP_TOLERANCE B2_ANGULAR_SLEEP_TOLERANCE : T) /\ nok (nmul B2_LINEAR_SLEEP_TOLERANCE B2_LINEAR_SLEEP_TOLERANCE : T).
  Hypothesis time_pos : nle B2_TIME_TO_SLEEP (nofZ 0 : T) = false.
  Hypothesis max_ok : nok (B2_MAX_FLOAT : T).
  Theorem sleep_only_rested h allow solved bs i b b' : Forall (measurable h) bs -> nth_error bs i = Some b -> nth_error (island_sleep h allow solved bs) i = Some b' -> fl_awake (b_flags b) = true -> fl_awake (b_flags b') = false ->
    allow = true /\ solved = true /\ Forall (rested h) bs /\ Forall asleep (island_sleep h allow solved bs).
  Proof.
    intros M N N' A A'. rewrite Forall_forall in M. destruct (sleep_together tol_ok time_pos max_ok h allow solved bs M) as [F|(H1 & H2 & H3 & H4 & _)]; [|auto]. exfalso.
    revert N N'. generalize (island_sleep h allow solved bs) F. clear - A A'. intros bs' F. revert i. induction F as [|x y l l' E F IH]; intros [|i]; cbn; try discriminate; [intros X Y; injection X as ->; injection Y as ->; congruence|apply IH].
  Qed.
End Changed.
