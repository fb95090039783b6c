(** The bounds on the impulses of joints, for every arithmetic with the order laws. *)
From Coq Require Import List ZArith Bool Arith Lia.
From Verif Require Import Base Num NumLaws Math Manifold ListFacts DynModel SolverModel IslandModel SolverSpec SolverProofs JointModel JointSpec.
Import ListNotations.

Lemma each_item_both {C S} (P Q : C -> Prop) (I : S -> Prop) (f : C -> S -> res (C * S)) : forall l s l' s',
  (forall c s c' s', P c -> I s -> f c s = Ok (c', s') -> Q c' /\ I s') -> Forall P l -> I s -> each_item f l s = Ok (l', s') -> Forall Q l' /\ I s'.
Proof.
  induction l as [|c l IH]; intros s l' s' H F Is E; cbn [each_item] in E.
  - assert (l' = [] /\ s' = s) as [-> ->] by (split; congruence). auto.
  - inversion F as [|? ? F1 F2]; subst. destruct (f c s) as [[c1 s1]| |] eqn:G; try discriminate. cbn [bind] in E. destruct (each_item f l s1) as [[l1 s2]| |] eqn:K; try discriminate. cbn [bind] in E.
    assert (l' = c1 :: l1 /\ s' = s2) as [-> ->] by (split; congruence). destruct (H _ _ _ _ F1 Is G) as [Q1 I1]. destruct (IH _ _ _ H F2 I1 K) as [Q2 I2]. auto.
Qed.
Lemma for_range_keep {S} (I : S -> Prop) (f : nat -> S -> res S) : forall n lo s s', (forall i s s', I s -> f i s = Ok s' -> I s') -> I s -> for_from n lo f s = Ok s' -> I s'.
Proof.
  induction n as [|n IH]; intros lo s s' H Is E; cbn [for_from] in E; [now assert (s' = s) as -> by congruence|].
  destruct (f lo s) as [s1| |] eqn:F; try discriminate. cbn [bind] in E. exact (IH _ _ _ H (H _ _ _ Is F) E).
Qed.
Lemma for_range_last {S} (I J : S -> Prop) (f : nat -> S -> res S) : forall n lo s s', (forall i s s', I s -> f i s = Ok s' -> I s' /\ J s') -> I s -> for_from (Datatypes.S n) lo f s = Ok s' -> J s'.
Proof.
  induction n as [|n IH]; intros lo s s' H Is E; cbn [for_from] in E.
  - destruct (f lo s) as [s1| |] eqn:F; try discriminate. cbn [bind] in E. assert (s' = s1) as -> by congruence. now apply (H lo s).
  - destruct (f lo s) as [s1| |] eqn:F; try discriminate. cbn [bind] in E. destruct (H _ _ _ Is F) as [I1 _]. exact (IH _ _ _ H I1 E).
Qed.

Section Generic.
  Local Open Scope num_scope.
  Context {T : Type} {NT : Num T} {TT : NumTrig T} {OT : NumOrd T}.

  Lemma on_pair_inv {A} (c : jcom T) (f : pair T -> A * pair T) vels x vels' : on_pair c f vels = Ok (x, vels') -> exists va vb s',
    zget vels (jc_a c) = Ok va /\ zget vels (jc_b c) = Ok vb /\ f (vpair va vb) = (x, s') /\ (v <- zset vels (jc_a c) (vel_a s') ;; zset v (jc_b c) (vel_b s')) = Ok vels'.
  Proof.
    unfold on_pair. destruct (zget vels (jc_a c)) as [va| |]; try discriminate. cbn [bind]. destruct (zget vels (jc_b c)) as [vb| |]; try discriminate. cbn [bind]. destruct (f (vpair va vb)) as [y s] eqn:F. intros H. exists va, vb, s.
    destruct (zset vels _ _) as [v1| |] eqn:Z1; try discriminate. cbn [bind] in *. destruct (zset v1 _ _) as [v2| |] eqn:Z2; try discriminate. cbn [bind] in *. repeat split; congruence.
  Qed.
  Lemma on_b_inv {A} (c : jcom T) (f : vel T -> A * vel T) vels x vels' : on_b c f vels = Ok (x, vels') -> exists vb v',
    zget vels (jc_b c) = Ok vb /\ f vb = (x, v') /\ zset vels (jc_b c) v' = Ok vels'.
  Proof.
    unfold on_b. destruct (zget vels (jc_b c)) as [vb| |]; try discriminate. cbn [bind]. destruct (f vb) as [y s] eqn:F. intros H. exists vb, s. destruct (zset vels _ _) as [v1| |] eqn:Z1; try discriminate. cbn [bind] in *. repeat split; congruence.
  Qed.

  (* the two passes of a phase *)
  Definition init_one (step : tstep T) (j : jin T) (st : list (pos T) * list (vel T)) : res (jin T * (list (pos T) * list (vel T))) :=
    '(j, poss, vels) <- js_init joint_solver step j (fst st) (snd st) ;; Ok (j, (poss, vels)).
  Lemma init_one_inv step x poss vels x' st : init_one step x (poss, vels) = Ok (x', st) -> exists k vels',
    kind_init step (j_kind (ji_joint x)) (com_of (ji_a x) (ji_b x)) (com_of (ji_c x) (ji_d x)) poss vels = Ok (k, vels') /\ st = (poss, vels') /\
    x' = with_joint x (Jnt k (com_of (ji_a x) (ji_b x)) (com_of (ji_c x) (ji_d x))).
  Proof.
    unfold init_one, joint_solver, joint_init. cbn [js_init fst snd]. destruct (kind_init _ _ _ _ _ _) as [[k v]| |]; try discriminate. cbn [bind]. intros H. exists k, v. repeat split; congruence.
  Qed.
  Lemma vel_one_inv step x vels x' vels' : js_vel joint_solver step x vels = Ok (x', vels') -> exists k,
    kind_vel step (j_kind (ji_joint x)) (j_com (ji_joint x)) (j_com2 (ji_joint x)) vels = Ok (k, vels') /\ x' = with_joint x (Jnt k (j_com (ji_joint x)) (j_com2 (ji_joint x))).
  Proof.
    unfold joint_solver, joint_vel. cbn [js_vel]. destruct (kind_vel _ _ _ _ _) as [[k v]| |]; try discriminate. cbn [bind]. intros H. exists k. split; congruence.
  Qed.
  Lemma phase_keeps (P Q : jin T -> Prop) (I : list (vel T) -> Prop) step n js poss vels js' vels' :
    (forall x vels x' vels', P x -> I vels -> init_one step x (poss, vels) = Ok (x', (poss, vels')) -> Q x' /\ I vels') ->
    (forall x vels x' vels', Q x -> I vels -> js_vel joint_solver step x vels = Ok (x', vels') -> Q x' /\ I vels') ->
    Forall P js -> I vels -> joint_phase step n js poss vels = Ok (js', vels') -> Forall Q js' /\ I vels'.
  Proof.
    intros H1 H2 F Is E. unfold joint_phase in E. fold (init_one step) in E. destruct (each_item (init_one step) js (poss, vels)) as [[js1 [poss1 vels1]]| |] eqn:G; try discriminate. cbn [bind] in E.
    apply (each_item_both P Q (fun st => fst st = poss /\ I (snd st))) in G; auto.
    - destruct G as [G1 [_ G2]]. cbn [snd] in G2.
      apply (for_range_keep (fun st => Forall Q (fst st) /\ I (snd st))) in E; auto. intros i [a b] [a' b'] [A B] E1. cbn [fst snd] in *. now apply (each_item_both Q Q I) in E1.
    - intros x [po ve] x' st Px [Ep Ix] E1. cbn [fst snd] in Ep, Ix. subst po. pose proof E1 as E2. apply init_one_inv in E2. destruct E2 as (k & v & _ & -> & _). cbn [fst snd]. destruct (H1 _ _ _ _ Px Ix E1). auto.
  Qed.
  (* what the last iteration ensures *)
  Lemma phase_last (Q : jin T -> Prop) step n js poss vels js' vels' :
    (forall x vels x' vels', js_vel joint_solver step x vels = Ok (x', vels') -> Q x') ->
    joint_phase step (S n) js poss vels = Ok (js', vels') -> Forall Q js'.
  Proof.
    intros H E. unfold joint_phase in E. destruct (each_item _ js (poss, vels)) as [[js1 [poss1 vels1]]| |] eqn:G; try discriminate. cbn [bind] in E. unfold for_range in E. rewrite Nat.sub_0_r in E.
    apply (for_range_last (fun _ => True) (fun st => Forall Q (fst st))) in E; auto. intros i [a b] [a' b'] _ E1. split; [exact I|]. cbn [fst snd] in *.
    apply (each_item_both (fun _ => True) Q (fun _ => True)) in E1; [tauto| |now apply Forall_forall|exact I]. intros. split; [|exact I]. eauto.
  Qed.

  Ltac onpair E := match type of E with
    | context [on_pair ?c ?f ?v] => let G := fresh "G" in destruct (on_pair c f v) as [[? ?]| |] eqn:G; try discriminate E; cbn [bind] in E; apply on_pair_inv in G; destruct G as (? & ? & ? & ? & ? & G & ?)
    | context [on_b ?c ?f ?v] => let G := fresh "G" in destruct (on_b c f v) as [[? ?]| |] eqn:G; try discriminate E; cbn [bind] in E; apply on_b_inv in G; destruct G as (? & ? & ? & G & ?)
    end.

  (** ** motors *)
  Section Strong.
    Hypothesis opp_le : forall m : T, nonneg m -> nle (- m) m = true.
    Lemma motor_limited (i m o : T) : limited m (fst (motor_impulse i m o)).
    Proof. intros H. cbn [motor_impulse fst]. now apply clamp_between. Qed.
    Lemma rev_motor_strong step d c f is : limited (ts_dt step * rv_torque d) (rv_im (fst (rev_motor step d c f is))).
    Proof. destruct is as [i s]. unfold rev_motor. pose proof (motor_limited ((- rv_axial f) * (s_wb s - s_wa s - rv_speed d)) (ts_dt step * rv_torque d) (rv_im i)) as H. destruct (motor_impulse _ _ _). exact H. Qed.
    Lemma rev_limits_im step d c f (is : rev_imp T * pair T) : rv_im (fst (rev_limits step d c f is)) = rv_im (fst is).
    Proof. destruct is as [i s]. reflexivity. Qed.
    Lemma rev_point_im c f (is : rev_imp T * pair T) : rv_im (fst (rev_point c f is)) = rv_im (fst is).
    Proof. destruct is as [i s]. reflexivity. Qed.
    Lemma pri_motor_strong step d c f is : limited (ts_dt step * pr_force d) (pr_im (fst (pri_motor step d c f is))).
    Proof. destruct is as [i s]. exact (motor_limited _ _ _). Qed.
    Lemma pri_limits_im step d c f (is : pri_imp T * pair T) : pr_im (fst (pri_limits step d c f is)) = pr_im (fst is).
    Proof. destruct is as [i s]. reflexivity. Qed.
    Lemma pri_block_im c f (is : pri_imp T * pair T) : pr_im (fst (pri_block c f is)) = pr_im (fst is).
    Proof. destruct is as [i s]. reflexivity. Qed.
    Lemma whe_motor_strong step d c f is : limited (ts_dt step * wh_torque d) (wh_im (fst (whe_motor step d c f is))).
    Proof. destruct is as [i s]. exact (motor_limited _ _ _). Qed.
    Lemma whe_limits_im step d c f (is : whe_imp T * pair T) : wh_im (fst (whe_limits step d c f is)) = wh_im (fst is).
    Proof. destruct is as [i s]. reflexivity. Qed.
    Lemma whe_line_im c f (is : whe_imp T * pair T) : wh_im (fst (whe_line c f is)) = wh_im (fst is).
    Proof. destruct is as [i s]. reflexivity. Qed.

    Lemma kind_strong step k c c2 vels k' vels' : kind_vel step k c c2 vels = Ok (k', vels') -> strong step (Jnt k' c c2).
    Proof.
      intros E. destruct k; cbn [kind_vel] in E; try (onpair E; injection E as <- <-); unfold strong; cbn [j_kind j_com]; auto.
      - intros M F. match goal with G : _ = (_, _) |- _ => apply (f_equal fst) in G; cbn [fst] in G; subst end. unfold rev_solve. rewrite M, F. cbn [andb negb]. rewrite rev_point_im. destruct (rv_limit d && true); [rewrite rev_limits_im|]; apply rev_motor_strong.
      - intros M. match goal with G : _ = (_, _) |- _ => apply (f_equal fst) in G; cbn [fst] in G; subst end. unfold pri_solve. rewrite M. rewrite pri_block_im. destruct (pr_limit d); [rewrite pri_limits_im|]; apply pri_motor_strong.
      - match goal with G : _ = (_, _) |- _ => apply (f_equal fst) in G; cbn [fst] in G; subst end. unfold whe_solve. rewrite whe_line_im. destruct (wh_limit d); [rewrite whe_limits_im|]; apply whe_motor_strong.
      - match goal with G : _ = (_, _) |- _ => apply (f_equal fst) in G; cbn [fst] in G; subst end. exact (motor_limited _ _ _).
      - match goal with G : _ = (_, _) |- _ => apply (f_equal fst) in G; cbn [fst] in G; subst end. exact (motor_limited _ _ _).
      - destruct (on_four _ _ _ _) as [[? ?]| |]; try discriminate. cbn [bind] in E. injection E as <- <-. exact I.
    Qed.
    Theorem joint_strong step j vels j' vels' : joint_vel step j vels = Ok (j', vels') -> strong step j'.
    Proof.
      unfold joint_vel. destruct (kind_vel _ _ _ _ _) as [[k v]| |] eqn:E; try discriminate. cbn [bind]. intros H. assert (j' = Jnt k (j_com j) (j_com2 j)) as -> by congruence. eapply kind_strong; eauto.
    Qed.
    Theorem phase_strong step n js poss vels js' vels' : joint_phase step (S n) js poss vels = Ok (js', vels') -> Forall (fun x => strong step (ji_joint x)) js'.
    Proof.
      intros E. apply (phase_last (fun x => strong step (ji_joint x))) in E; auto. intros x v x' v' H. apply vel_one_inv in H. destruct H as (k & H & ->). cbn [with_joint ji_joint]. eapply kind_strong; eauto.
    Qed.
  End Strong.

  (** ** limits *)
  Lemma nonneg_not_negative (x : T) : nonneg x -> not_negative x.
  Proof. unfold nonneg, not_negative. intros H. destruct (nle_ok _ _ H). rewrite nlt_nle by auto. now rewrite H. Qed.
  Lemma zero_not_negative : not_negative (#0 : T).
  Proof. apply nonneg_not_negative, nonneg0. Qed.
  Lemma limit_nonneg (m v c h o : T) : nonneg (fst (limit_impulse m v c h o)).
  Proof. apply max_nonneg. Qed.
  Lemma dis_limit_ok (m v c h o : T) : not_negative (fst (dis_limit m v c h o)).
  Proof. cbn [dis_limit fst]. generalize (o + - m * (v + b2_max #0 c * h)). intros x. unfold b2_max. destruct (x <? #0) eqn:L; [apply zero_not_negative|exact L]. Qed.

  Lemma rev_limits_ok step d c f (is : rev_imp T * pair T) : nonneg (rv_il (fst (rev_limits step d c f is))) /\ nonneg (rv_iu (fst (rev_limits step d c f is))).
  Proof. destruct is as [i s]. split; exact (limit_nonneg _ _ _ _ _). Qed.
  Lemma pri_limits_ok step d c f (is : pri_imp T * pair T) : nonneg (pr_il (fst (pri_limits step d c f is))) /\ nonneg (pr_iu (fst (pri_limits step d c f is))).
  Proof. destruct is as [i s]. split; exact (limit_nonneg _ _ _ _ _). Qed.
  Lemma whe_limits_ok step d c f (is : whe_imp T * pair T) : nonneg (wh_il (fst (whe_limits step d c f is))) /\ nonneg (wh_iu (fst (whe_limits step d c f is))).
  Proof. destruct is as [i s]. split; exact (limit_nonneg _ _ _ _ _). Qed.
  Lemma dis_limits_ok step d c f (is : dis_imp T * pair T) : not_negative (di_il (fst (dis_limits step d c f is))) /\ not_negative (di_iu (fst (dis_limits step d c f is))).
  Proof. destruct is as [i s]. split; exact (dis_limit_ok _ _ _ _ _). Qed.
  Lemma rev_point_lim c f (is : rev_imp T * pair T) : rv_il (fst (rev_point c f is)) = rv_il (fst is) /\ rv_iu (fst (rev_point c f is)) = rv_iu (fst is).
  Proof. destruct is. now split. Qed.
  Lemma rev_motor_lim step d c f (is : rev_imp T * pair T) : rv_il (fst (rev_motor step d c f is)) = rv_il (fst is) /\ rv_iu (fst (rev_motor step d c f is)) = rv_iu (fst is).
  Proof. destruct is. now split. Qed.
  Lemma pri_block_lim c f (is : pri_imp T * pair T) : pr_il (fst (pri_block c f is)) = pr_il (fst is) /\ pr_iu (fst (pri_block c f is)) = pr_iu (fst is).
  Proof. destruct is. now split. Qed.
  Lemma pri_motor_lim step d c f (is : pri_imp T * pair T) : pr_il (fst (pri_motor step d c f is)) = pr_il (fst is) /\ pr_iu (fst (pri_motor step d c f is)) = pr_iu (fst is).
  Proof. destruct is. now split. Qed.
  Lemma whe_line_lim c f (is : whe_imp T * pair T) : wh_il (fst (whe_line c f is)) = wh_il (fst is) /\ wh_iu (fst (whe_line c f is)) = wh_iu (fst is).
  Proof. destruct is. now split. Qed.
  Lemma whe_free_lim step d c f (is : whe_imp T * pair T) : wh_il (fst (whe_motor step d c f (whe_spring c f is))) = wh_il (fst is) /\ wh_iu (fst (whe_motor step d c f (whe_spring c f is))) = wh_iu (fst is).
  Proof. destruct is. now split. Qed.
  Lemma dis_other_lim c f (is : dis_imp T * pair T) : di_il (fst (dis_rigid c f is)) = di_il (fst is) /\ di_iu (fst (dis_rigid c f is)) = di_iu (fst is).
  Proof. destruct is. now split. Qed.

  (* active limits: the impulses are numbers *)
  Lemma kind_limiting step k c c2 vels k' vels' : kind_vel step k c c2 vels = Ok (k', vels') -> limiting (Jnt k' c c2) = true -> Forall nonneg (limit_impulses k').
  Proof.
    intros E. destruct k; cbn [kind_vel] in E; try (onpair E; injection E as <- <-; match goal with G : _ = (_, _) |- _ => apply (f_equal fst) in G; cbn [fst] in G; subst end);
      try (destruct (on_four _ _ _ _) as [[? ?]| |]; try discriminate; cbn [bind] in E; injection E as <- <-); unfold limiting; cbn [j_kind j_com limit_impulses]; intros L; try discriminate L.
    - unfold rev_solve. rewrite L. destruct (rev_point_lim c f (rev_limits step d c f (if rv_motor d && negb (jc_ia c + jc_ib c =? #0) then rev_motor step d c f (i, vpair x x0) else (i, vpair x x0)))) as [-> ->].
      match goal with |- context [rev_limits step d c f ?is] => destruct (rev_limits_ok step d c f is) end. auto.
    - unfold pri_solve. rewrite L. destruct (pri_block_lim c f (pri_limits step d c f (if pr_motor d then pri_motor step d c f (i, vpair x x0) else (i, vpair x x0)))) as [-> ->].
      match goal with |- context [pri_limits step d c f ?is] => destruct (pri_limits_ok step d c f is) end. auto.
    - unfold whe_solve. rewrite L. destruct (whe_line_lim c f (whe_limits step d c f (whe_motor step d c f (whe_spring c f (i, vpair x x0))))) as [-> ->].
      match goal with |- context [whe_limits step d c f ?is] => destruct (whe_limits_ok step d c f is) end. auto.
  Qed.
  Lemma kind_pushes step k c c2 vels k' vels' : kind_vel step k c c2 vels = Ok (k', vels') -> Forall not_negative (limit_impulses k) -> Forall not_negative (limit_impulses k').
  Proof.
    intros E. destruct k; cbn [kind_vel] in E; try (onpair E; injection E as <- <-; match goal with G : _ = (_, _) |- _ => apply (f_equal fst) in G; cbn [fst] in G; subst end);
      try (destruct (on_four _ _ _ _) as [[? ?]| |]; try discriminate; cbn [bind] in E; injection E as <- <-); cbn [limit_impulses]; intros L; auto.
    - inversion L as [|? ? L1 L']; subst. inversion L' as [|? ? L2 _]; subst. unfold rev_solve. match goal with |- context [rev_point c f ?is] => destruct (rev_point_lim c f is) as [-> ->] end. destruct (rv_limit d && _).
      + match goal with |- context [rev_limits step d c f ?is] => destruct (rev_limits_ok step d c f is) end. auto using nonneg_not_negative.
      + destruct (rv_motor d && _); [|auto]. destruct (rev_motor_lim step d c f (i, vpair x x0)) as [-> ->]. auto.
    - inversion L as [|? ? L1 L']; subst. inversion L' as [|? ? L2 _]; subst. unfold pri_solve. match goal with |- context [pri_block c f ?is] => destruct (pri_block_lim c f is) as [-> ->] end. destruct (pr_limit d).
      + match goal with |- context [pri_limits step d c f ?is] => destruct (pri_limits_ok step d c f is) end. auto using nonneg_not_negative.
      + destruct (pr_motor d); [|auto]. destruct (pri_motor_lim step d c f (i, vpair x x0)) as [-> ->]. auto.
    - inversion L as [|? ? L1 L']; subst. inversion L' as [|? ? L2 _]; subst. unfold dis_solve. destruct (di_min d <? di_max d).
      + match goal with |- context [dis_limits step d c f ?is] => destruct (dis_limits_ok step d c f is) end. auto.
      + destruct (dis_other_lim c f (i, vpair x x0)) as [-> ->]. auto.
    - inversion L as [|? ? L1 L']; subst. inversion L' as [|? ? L2 _]; subst. unfold whe_solve. match goal with |- context [whe_line c f ?is] => destruct (whe_line_lim c f is) as [-> ->] end. destruct (wh_limit d).
      + match goal with |- context [whe_limits step d c f ?is] => destruct (whe_limits_ok step d c f is) end. auto using nonneg_not_negative.
      + destruct (whe_free_lim step d c f (i, vpair x x0)) as [-> ->]. auto.
  Qed.
  Theorem joint_limiting step j vels j' vels' : joint_vel step j vels = Ok (j', vels') -> limiting j' = true -> Forall nonneg (limit_impulses (j_kind j')).
  Proof.
    unfold joint_vel. destruct (kind_vel _ _ _ _ _) as [[k v]| |] eqn:E; try discriminate. cbn [bind]. intros H. assert (j' = Jnt k (j_com j) (j_com2 j)) as -> by congruence. intros L. eapply kind_limiting; eauto.
  Qed.
  Theorem phase_limiting step n js poss vels js' vels' : joint_phase step (S n) js poss vels = Ok (js', vels') -> Forall (fun x => limiting (ji_joint x) = true -> Forall nonneg (limit_impulses (j_kind (ji_joint x)))) js'.
  Proof.
    intros E. apply (phase_last (fun x => limiting (ji_joint x) = true -> Forall nonneg (limit_impulses (j_kind (ji_joint x))))) in E; auto. intros x v x' v' H L. apply vel_one_inv in H. destruct H as (k & H & ->). cbn [with_joint ji_joint j_kind] in *. eapply kind_limiting; eauto.
  Qed.

  Section Product.
    Hypothesis mul_not_negative : forall x y : T, not_negative x -> not_negative y -> not_negative (x * y).
    Lemma kind_init_pushes step k c c2 poss vels k' vels' : not_negative (ts_ratio step) -> kind_init step k c c2 poss vels = Ok (k', vels') -> Forall not_negative (limit_impulses k) -> Forall not_negative (limit_impulses k').
    Proof.
      intros R E. pose proof zero_not_negative as Z.
      destruct k; cbn [kind_init] in E;
        repeat match type of E with context [zget ?l ?i] => destruct (zget l i) as [?| |]; try discriminate E; cbn [bind] in E end;
        try (onpair E; injection E as <- <-; match goal with G : _ = (_, _) |- _ => apply (f_equal fst) in G; cbn [fst] in G; subst end);
        try (destruct (on_four _ _ _ _) as [[? ?]| |]; try discriminate; cbn [bind] in E; injection E as <- <-); cbn [limit_impulses]; intros L; auto;
        inversion L as [|? ? L1 L']; subst; inversion L' as [|? ? L2 _]; subst.
      - unfold rev_warm. destruct (ts_warm step); [|cbn; auto]. destruct (rv_limit d), (rv_motor d), (_ >? #0); cbn [negb orb rv_il rv_iu fst]; auto.
      - unfold pri_warm. destruct (ts_warm step); [|cbn; auto]. destruct (pr_limit d), (pr_motor d); cbn [pr_il pr_iu fst]; auto.
      - unfold dis_warm. destruct (_ >? B2_LINEAR_SLOP); destruct (ts_warm step); cbn [di_il di_iu fst]; auto.
      - unfold whe_warm. destruct (ts_warm step); [|cbn; auto]. destruct (_ && _), (wh_limit d), (wh_motor d); cbn [wh_il wh_iu fst]; auto.
    Qed.
    Theorem phase_pushes step n js poss vels js' vels' : not_negative (ts_ratio step) -> Forall (fun x => only_pushes (ji_joint x)) js -> joint_phase step n js poss vels = Ok (js', vels') -> Forall (fun x => only_pushes (ji_joint x)) js'.
    Proof.
      intros R F E. apply (phase_keeps (fun x => only_pushes (ji_joint x)) (fun x => only_pushes (ji_joint x)) (fun _ => True)) in E; [tauto| | |exact F|exact I].
      - intros x v x' v' P _ H. split; [|exact I]. apply init_one_inv in H. destruct H as (k & v2 & H & _ & ->). unfold only_pushes in *. cbn [with_joint ji_joint j_kind]. eapply kind_init_pushes; eauto.
      - intros x v x' v' P _ H. split; [|exact I]. apply vel_one_inv in H. destruct H as (k & H & ->). unfold only_pushes in *. cbn [with_joint ji_joint j_kind]. eapply kind_pushes; eauto.
    Qed.
  End Product.
End Generic.
