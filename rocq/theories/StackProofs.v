(** The growable stack is a list. *)
From Coq Require Import List Arith Lia Bool.
From Verif Require Import Base ListFacts StackModel StackSpec.
Import ListNotations.

(* top first *)
Definition gs_abs {A} (s : gstack A) : list A :=
  match s with GStack arr c => rev (firstn c arr) | GVec v => rev v end.
Definition gs_wf {A} (N : nat) (s : gstack A) : Prop :=
  match s with GStack arr c => length arr = N /\ c <= N | GVec v => True end.

Section Stack.
  Context {A : Type} (N : nat).
  Implicit Types s : gstack A.

  Lemma gs_new_ok (d : A) : gs_wf N (gs_new d N) /\ gs_abs (gs_new d N) = [].
  Proof. cbn. rewrite repeat_length. split; [lia|]. reflexivity. Qed.

  Lemma firstn_upd_S (l : list A) c x : c < length l -> firstn (c + 1) (upd l c x) = firstn c l ++ [x].
  Proof. revert c. induction l as [|y l IH]; intros [|c] H; cbn in *; try lia; auto. f_equal. apply IH. lia. Qed.
  Lemma firstn_S_nth (l : list A) c x : nth_error l c = Some x -> firstn (S c) l = firstn c l ++ [x].
  Proof.
    revert c. induction l as [|y l IH]; intros [|c] H; cbn [nth_error] in *; try discriminate.
    - now injection H as ->.
    - cbn [firstn]. rewrite <- app_comm_cons. f_equal. change (firstn (S c) l = firstn c l ++ [x]). auto.
  Qed.

  Lemma gs_push_ok s x : gs_wf N s -> exists s', gs_push N s x = Ok s' /\ gs_wf N s' /\ gs_abs s' = x :: gs_abs s.
  Proof.
    destruct s as [arr c|v]; cbn [gs_push gs_wf].
    - intros [Hl Hc]. destruct (Nat.leb_spec N c).
      + eexists. split; [reflexivity|]. split; [exact I|]. cbn. assert (c = length arr) by lia. subst c.
        rewrite firstn_all. now rewrite rev_unit.
      + rewrite set_ok by lia. cbn [bind]. eexists. split; [reflexivity|]. cbn. rewrite length_upd. split; [lia|].
        rewrite firstn_upd_S by lia. now rewrite rev_unit.
    - intros _. eexists. split; [reflexivity|]. split; [exact I|]. cbn. now rewrite rev_unit.
  Qed.

  Lemma gs_pop_ok s x l : gs_wf N s -> gs_abs s = x :: l -> exists s', gs_pop s = Ok (s', x) /\ gs_wf N s' /\ gs_abs s' = l.
  Proof.
    destruct s as [arr c|v]; cbn [gs_pop gs_wf gs_abs].
    - intros [Hl Hc] E. destruct c as [|c]; [cbn in E; discriminate|].
      destruct (lt_nth arr c ltac:(lia)) as [y Hy]. rewrite (firstn_S_nth _ _ _ Hy), rev_unit in E. injection E as -> <-.
      cbn [Nat.ltb Nat.leb b2_assert bind]. replace (S c - 1) with c by lia. rewrite (get_ok _ _ _ Hy). cbn [bind].
      eexists. split; [reflexivity|]. cbn. split; [lia|reflexivity].
    - intros _ E. destruct (exists_last (l:=v)) as (v' & y & ->); [intros ->; discriminate|].
      rewrite rev_unit in E. injection E as -> <-. rewrite app_length. cbn [length].
      replace (0 <? length v' + 1) with true by (symmetry; apply Nat.ltb_lt; lia). cbn [b2_assert bind].
      replace (length v' + 1 - 1) with (length v') by lia.
      rewrite nth_error_app2, Nat.sub_diag by lia. cbn [nth_error unwrap bind].
      eexists. split; [reflexivity|]. split; [exact I|]. cbn. rewrite firstn_app, firstn_all, Nat.sub_diag. cbn. now rewrite app_nil_r.
  Qed.

  Lemma gs_pop_empty s : gs_wf N s -> gs_abs s = [] -> gs_pop s = Panic.
  Proof.
    destruct s as [arr c|v]; cbn [gs_pop gs_wf gs_abs].
    - intros [Hl Hc] E. destruct c as [|c]; [reflexivity|].
      destruct (lt_nth arr c ltac:(lia)) as [y Hy]. rewrite (firstn_S_nth _ _ _ Hy), rev_unit in E. discriminate.
    - intros _ E. destruct v as [|y v]; [reflexivity|]. cbn in E. now destruct (rev v).
  Qed.

  Lemma gs_count_ok s : gs_wf N s -> gs_count s = length (gs_abs s).
  Proof. destruct s; cbn; intros; rewrite rev_length; auto. rewrite firstn_length. lia. Qed.

  Lemma grun_ok ops : forall s, gs_wf N s ->
    match lrun (gs_abs s) ops with
    | Some (l, out) => exists s', grun N s ops = Ok (s', out) /\ gs_count s' = length l /\ gs_wf N s' /\ gs_abs s' = l
    | None => grun N s ops = Panic
    end.
  Proof.
    induction ops as [|[x|] ops IH]; intros s Hw; cbn [lrun grun].
    - exists s. rewrite gs_count_ok; auto.
    - destruct (gs_push_ok s x Hw) as (s' & -> & Hw' & Ha). cbn [bind]. rewrite <- Ha. now apply IH.
    - destruct (gs_abs s) as [|x l] eqn:E.
      + rewrite gs_pop_empty by auto. reflexivity.
      + destruct (gs_pop_ok s x l Hw E) as (s' & -> & Hw' & Ha). cbn [bind]. specialize (IH s' Hw'). rewrite Ha in IH.
        destruct (lrun l ops) as [[l' out]|].
        * destruct IH as (s'' & -> & H1 & H2). cbn [bind]. eauto.
        * rewrite IH. reflexivity.
  Qed.
End Stack.

Lemma c01 (A : Type) (N : nat) (d : A) (ops : list (sop A)) :
  match lrun [] ops with
  | Some (l, out) => exists s, grun N (gs_new d N) ops = Ok (s, out) /\ gs_count s = length l
  | None => grun N (gs_new d N) ops = Panic
  end.
Proof.
  destruct (gs_new_ok N d) as [Hw Ha]. pose proof (grun_ok N ops _ Hw) as H. rewrite Ha in H.
  destruct (lrun [] ops) as [[l out]|]; auto. destruct H as (s & H1 & H2 & _). eauto.
Qed.
