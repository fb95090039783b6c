(** The joint solvers return if the bodies of the joints are in the island. *)
From Coq Require Import List ZArith Bool Arith Lia.
From Verif Require Import Base Num NumLaws Math Manifold ListFacts DynModel SolverModel IslandModel SolverSpec SolverProofs JointModel JointSpec JointProofs.
Import ListNotations.

Definition within (n : nat) (i : Z) : Prop := (0 <= i < Z.of_nat n)%Z.
Lemma zget_total {A} (l : list A) i : within (length l) i -> exists x, zget l i = Ok x.
Proof.
  intros [H1 H2]. unfold zget. destruct (i <? 0)%Z eqn:E; [apply Z.ltb_lt in E; lia|]. unfold get. destruct (nth_error l (Z.to_nat i)) as [x|] eqn:N; [eauto|]. apply nth_error_None in N. lia.
Qed.
Lemma zset_total {A} (l : list A) i x : within (length l) i -> exists l', zset l i x = Ok l' /\ length l' = length l.
Proof.
  intros [H1 H2]. unfold zset. destruct (i <? 0)%Z eqn:E; [apply Z.ltb_lt in E; lia|]. unfold set. assert (L : Nat.ltb (Z.to_nat i) (length l) = true) by (apply Nat.ltb_lt; lia). rewrite L. eexists. split; [reflexivity|apply length_upd].
Qed.

Section Total.
  Context {T : Type} {NT : Num T} {TT : NumTrig T}.
  Definition com_within (n : nat) (c : jcom T) : Prop := within n (jc_a c) /\ within n (jc_b c).
  Definition kind_within (n : nat) (k : jkind T) (c c2 : jcom T) : Prop := com_within n c /\ match k with JGear _ _ _ => com_within n c2 | _ => True end.
  Lemma on_pair_total {A} (c : jcom T) (f : pair T -> A * pair T) vels : com_within (length vels) c -> exists x vels', on_pair c f vels = Ok (x, vels') /\ length vels' = length vels.
  Proof.
    intros [Ha Hb]. unfold on_pair. destruct (zget_total _ _ Ha) as [va ->]. destruct (zget_total _ _ Hb) as [vb ->]. cbn [bind]. destruct (f _) as [x s]. destruct (zset_total vels _ (vel_a s) Ha) as (v1 & -> & L1). cbn [bind].
    rewrite <- L1 in Hb. destruct (zset_total v1 _ (vel_b s) Hb) as (v2 & -> & L2). cbn [bind]. exists x, v2. split; [reflexivity|congruence].
  Qed.
  Lemma on_b_total {A} (c : jcom T) (f : vel T -> A * vel T) vels : com_within (length vels) c -> exists x vels', on_b c f vels = Ok (x, vels') /\ length vels' = length vels.
  Proof. intros [Ha Hb]. unfold on_b. destruct (zget_total _ _ Hb) as [vb ->]. cbn [bind]. destruct (f _) as [x s]. destruct (zset_total vels _ s Hb) as (v1 & -> & L1). cbn [bind]. eauto. Qed.
  Lemma on_four_total {A} (c c2 : jcom T) (f : pair T -> pair T -> A * (pair T * pair T)) vels : com_within (length vels) c -> com_within (length vels) c2 -> exists x vels', on_four c c2 f vels = Ok (x, vels') /\ length vels' = length vels.
  Proof.
    intros [Ha Hb] [Hc Hd]. unfold on_four. destruct (zget_total _ _ Ha) as [va ->]. destruct (zget_total _ _ Hb) as [vb ->]. destruct (zget_total _ _ Hc) as [vc ->]. destruct (zget_total _ _ Hd) as [vd ->]. cbn [bind]. destruct (f _ _) as [x [s t]].
    destruct (zset_total vels _ (vel_a s) Ha) as (v1 & -> & L1). cbn [bind]. rewrite <- L1 in Hb, Hc, Hd. destruct (zset_total v1 _ (vel_b s) Hb) as (v2 & -> & L2). cbn [bind]. rewrite <- L2 in Hc, Hd.
    destruct (zset_total v2 _ (vel_a t) Hc) as (v3 & -> & L3). cbn [bind]. rewrite <- L3 in Hd. destruct (zset_total v3 _ (vel_b t) Hd) as (v4 & -> & L4). cbn [bind]. exists x, v4. split; [reflexivity|congruence].
  Qed.
  Ltac on_total := match goal with
    | |- context [on_pair ?c ?f ?v] => let E := fresh in let L := fresh in destruct (on_pair_total c f v) as (? & ? & E & L); [assumption|]; rewrite E; cbn [bind]
    | |- context [on_b ?c ?f ?v] => let E := fresh in let L := fresh in destruct (on_b_total c f v) as (? & ? & E & L); [assumption|]; rewrite E; cbn [bind]
    | |- context [on_four ?c ?c2 ?f ?v] => let E := fresh in let L := fresh in destruct (on_four_total c c2 f v) as (? & ? & E & L); [assumption|assumption|]; rewrite E; cbn [bind]
    end.
  Lemma kind_init_total step k c c2 poss vels : kind_within (length vels) k c c2 -> length poss = length vels -> exists k' vels', kind_init step k c c2 poss vels = Ok (k', vels') /\ length vels' = length vels /\ kind_within (length vels) k' c c2.
  Proof.
    intros [Hc H2] L. pose proof Hc as [Ha Hb]. assert (Pa : exists p, zget poss (jc_a c) = Ok p) by (apply zget_total; now rewrite L). assert (Pb : exists p, zget poss (jc_b c) = Ok p) by (apply zget_total; now rewrite L). destruct Pa as [pa Pa], Pb as [pb Pb].
    destruct k; cbn [kind_init]; rewrite ?Pa, ?Pb; cbn [bind]; try (on_total; do 2 eexists; split; [reflexivity|]; split; [assumption|]; split; [assumption|exact I]).
    destruct H2 as [Hcc Hdd]. assert (Pc : exists p, zget poss (jc_a c2) = Ok p) by (apply zget_total; now rewrite L). assert (Pd : exists p, zget poss (jc_b c2) = Ok p) by (apply zget_total; now rewrite L). destruct Pc as [pc ->], Pd as [pd ->]. cbn [bind].
    assert (com_within (length vels) c2) by (split; assumption). on_total. do 2 eexists. split; [reflexivity|]. split; [assumption|]. split; assumption.
  Qed.
  Lemma kind_vel_total step k c c2 vels : kind_within (length vels) k c c2 -> exists k' vels', kind_vel step k c c2 vels = Ok (k', vels') /\ length vels' = length vels /\ kind_within (length vels) k' c c2.
  Proof.
    intros [Hc H2]. destruct k; cbn [kind_vel]; on_total; do 2 eexists; (split; [reflexivity|]; split; [assumption|]; split; assumption).
  Qed.
  Definition held_within (n : nat) (x : jin T) : Prop := kind_within n (j_kind (ji_joint x)) (j_com (ji_joint x)) (j_com2 (ji_joint x)).
  Lemma jointed_within n x : jointed n x -> kind_within n (j_kind (ji_joint x)) (com_of (ji_a x) (ji_b x)) (com_of (ji_c x) (ji_d x)).
  Proof. intros (A & B & C). split; [split; assumption|]. destruct (j_kind (ji_joint x)); auto. Qed.
  Lemma each_item_returns {C S} (P Q : C -> Prop) (I : S -> Prop) (f : C -> S -> res (C * S)) : (forall c s, P c -> I s -> exists c' s', f c s = Ok (c', s') /\ Q c' /\ I s') ->
    forall l s, Forall P l -> I s -> exists l' s', each_item f l s = Ok (l', s') /\ Forall Q l' /\ I s' /\ length l' = length l.
  Proof.
    intros H. induction l as [|c l IH]; intros s F Is; cbn [each_item]; [eauto 10|]. inversion F as [|? ? F1 F2]; subst. destruct (H c s F1 Is) as (c' & s' & -> & Qc & I1). cbn [bind]. destruct (IH s' F2 I1) as (l' & s2 & -> & Ql & I2 & L). cbn [bind].
    exists (c' :: l'), s2. split; [reflexivity|]. split; [auto|]. split; [exact I2|cbn; congruence].
  Qed.
  Lemma for_from_returns {S} (I : S -> Prop) (f : nat -> S -> res S) : (forall i s, I s -> exists s', f i s = Ok s' /\ I s') -> forall n lo s, I s -> exists s', for_from n lo f s = Ok s' /\ I s'.
  Proof. intros H. induction n as [|n IH]; intros lo s Is; cbn [for_from]; [eauto|]. destruct (H lo s Is) as (s1 & -> & I1). cbn [bind]. now apply IH. Qed.
  Theorem joints_return step n js poss vels : length poss = length vels -> Forall (jointed (length vels)) js -> exists js' vels', joint_phase step n js poss vels = Ok (js', vels') /\ length js' = length js /\ length vels' = length vels.
  Proof.
    intros L F. unfold joint_phase. fold (init_one (TT := TT) step).
    destruct (each_item_returns (jointed (length vels)) (held_within (length vels)) (fun st => fst st = poss /\ length (snd st) = length vels) (init_one step)) with (l := js) (s := (poss, vels)) as (js1 & [p1 v1] & -> & F1 & [Ep Lv] & L1); auto.
    { intros x [p v] Hx [Ep Lv]. cbn [fst snd] in Ep, Lv. subst p. unfold init_one, joint_solver, joint_init. cbn [js_init fst snd].
      destruct (kind_init_total step (j_kind (ji_joint x)) (com_of (ji_a x) (ji_b x)) (com_of (ji_c x) (ji_d x)) poss v) as (k & v' & -> & Lv' & K); [rewrite Lv; now apply jointed_within|congruence|]. cbn [bind]. do 2 eexists. split; [reflexivity|]. split; [|split; cbn [fst snd]; congruence]. unfold held_within. cbn [with_joint ji_joint j_kind j_com j_com2]. rewrite <- Lv. exact K. }
    cbn [bind]. cbn [snd] in Lv. unfold for_range.
    destruct (for_from_returns (fun st => Forall (held_within (length vels)) (fst st) /\ length (snd st) = length vels /\ length (fst st) = length js) (fun _ st => each_item (js_vel joint_solver step) (fst st) (snd st))) with (n := (n - 0)%nat) (lo := 0%nat) (s := (js1, v1)) as ([js2 v2] & -> & F2 & L2 & L3); auto.
    { intros _ [a v] (Fa & La & Ln). cbn [fst snd] in *.
      destruct (each_item_returns (held_within (length vels)) (held_within (length vels)) (fun v => length v = length vels) (js_vel joint_solver step)) with (l := a) (s := v) as (a' & v' & -> & Fa' & Lv' & Ln'); auto.
      - intros x s Hx Ls. unfold joint_solver, joint_vel. cbn [js_vel]. destruct (kind_vel_total step (j_kind (ji_joint x)) (j_com (ji_joint x)) (j_com2 (ji_joint x)) s) as (k & v3 & -> & L3 & K); [rewrite Ls; exact Hx|]. cbn [bind]. do 2 eexists. split; [reflexivity|]. split; [|congruence]. unfold held_within. cbn [with_joint ji_joint j_kind j_com j_com2]. rewrite <- Ls. exact K.
      - exists (a', v'). cbn [fst snd]. repeat split; auto; congruence. }
    exists js2, v2. auto.
  Qed.
End Total.
