(** The setters of joints keep lengths and limits in order. *)
From Coq Require Import List ZArith Reals Lra Lia Bool Arith.
From Flocq Require Import Core.
From Verif Require Import Base Num NumLaws Math RTac ListFacts Manifold DynModel SolverModel IslandModel SolverSpec JointModel JointSpec JointDefModel JointDefSpec.
Import ListNotations.
Local Open Scope R_scope.

Lemma new_lengths d : exists d' i f, dis_new d = JDistance d' i f /\ lengths_ok d'.
Proof.
  unfold dis_new. eexists _, _, _. split; [reflexivity|]. unfold lengths_ok. cbn [di_min di_max di_length]. rewrite !b2_max_R. repeat split; apply Rmax_r.
Qed.
Lemma set_one c s : lengths_ok (fst s) -> lengths_ok (fst (set_lengths c s)).
Proof.
  destruct s as [d i]. cbn [fst]. intros (A & B & C). destruct c as [x|x|x]; unfold lengths_ok, set_lengths; cbn [fst snd]; unfold dis_set_length, dis_set_min_length, dis_set_max_length, b2_clamp; cbn [fst snd di_min di_max di_length]; rewrite ?b2_max_R, ?b2_min_R.
  - split; [exact A|split; [exact B|apply Rmax_l]].
  - repeat split; [apply Rmax_l| |exact C]. apply Rmax_lub; [lra|apply Rmin_r].
  - repeat split; [exact A|apply Rmax_r|exact C].
Qed.
Lemma lengths_stay cs : forall s, lengths_ok (fst s) -> lengths_ok (fst (fold_left (fun s c => set_lengths c s) cs s)).
Proof. induction cs as [|c cs IH]; intros s H; cbn [fold_left]; [exact H|]. apply IH, set_one, H. Qed.
Lemma lengths_always d cs : exists d' i f, dis_new d = JDistance d' i f /\ lengths_ok (fst (fold_left (fun s c => set_lengths c s) cs (d', i))).
Proof. destruct (new_lengths d) as (d' & i & f & E & L). exists d', i, f. split; [exact E|]. apply lengths_stay. exact L. Qed.

(* what set_limits does, for each of the three kinds *)
Lemma rev_limits_set lower upper d i d' i' : rev_set_limits lower upper d i = Ok (d', i') -> lower <= upper /\ rv_lower d' = lower /\ rv_upper d' = upper.
Proof.
  unfold rev_set_limits. rops. destruct (Rle_bool_spec lower upper); [|discriminate]. cbn [b2_assert bind]. destruct (Req_bool_spec lower (rv_lower d)), (Req_bool_spec upper (rv_upper d)); cbn [negb orb]; intros E; injection E as <- <-; auto.
Qed.
Lemma pri_limits_set lower upper d i d' i' : pri_set_limits lower upper d i = Ok (d', i') -> lower <= upper /\ pr_lower d' = lower /\ pr_upper d' = upper.
Proof.
  unfold pri_set_limits. rops. destruct (Rle_bool_spec lower upper); [|discriminate]. cbn [b2_assert bind]. destruct (Req_bool_spec lower (pr_lower d)), (Req_bool_spec upper (pr_upper d)); cbn [negb orb]; intros E; injection E as <- <-; auto.
Qed.
Lemma whe_limits_set lower upper d i d' i' : whe_set_limits lower upper d i = Ok (d', i') -> lower <= upper /\ wh_lower d' = lower /\ wh_upper d' = upper.
Proof.
  unfold whe_set_limits. rops. destruct (Rle_bool_spec lower upper); [|discriminate]. cbn [b2_assert bind]. destruct (Req_bool_spec lower (wh_lower d)), (Req_bool_spec upper (wh_upper d)); cbn [negb orb]; intros E; injection E as <- <-; auto.
Qed.
Lemma set_limits_fail (lower upper : R) : upper < lower -> (forall d i, rev_set_limits lower upper d i = Panic) /\ (forall d i, pri_set_limits lower upper d i = Panic) /\ (forall d i, whe_set_limits lower upper d i = Panic).
Proof. intros L. unfold rev_set_limits, pri_set_limits, whe_set_limits. rops. rewrite Rle_bool_false by exact L. auto. Qed.
Lemma pri_new_ordered d d' i f : pri_new d = Ok (JPrismatic d' i f) -> pr_lower d' <= pr_upper d'.
Proof. unfold pri_new. rops. destruct (Rle_bool_spec (pr_lower d) (pr_upper d)) as [L|]; [|discriminate]. cbn [b2_assert bind]. intros E. injection E as <- _ _. exact L. Qed.
