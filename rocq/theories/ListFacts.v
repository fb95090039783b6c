(** Facts about [get], [set], [upd] and duplicate-free lists. *)
From Coq Require Import List ZArith Lia Bool Arith Permutation.
From Verif Require Import Base.
Import ListNotations.

Section Facts.
  Context {A : Type}.
  Implicit Types l : list A.

  Lemma length_upd l i a : length (upd l i a) = length l.
  Proof. revert i; induction l as [|x l IH]; intros [|i]; cbn; auto. Qed.

  Lemma nth_upd_eq l i a : i < length l -> nth_error (upd l i a) i = Some a.
  Proof. revert i; induction l as [|x l IH]; intros [|i] H; cbn in *; try lia; auto. apply IH; lia. Qed.

  Lemma nth_upd_ne l i j a : i <> j -> nth_error (upd l i a) j = nth_error l j.
  Proof. revert i j; induction l as [|x l IH]; intros [|i] [|j] H; cbn; auto; try congruence. Qed.

  Lemma nth_upd l i j a b : nth_error l i = Some b ->
    nth_error (upd l i a) j = if Nat.eqb i j then Some a else nth_error l j.
  Proof.
    intro H. assert (i < length l) by (apply nth_error_Some; congruence).
    destruct (Nat.eqb_spec i j); subst; auto using nth_upd_eq, nth_upd_ne.
  Qed.

  Lemma nth_lt l i b : nth_error l i = Some b -> i < length l.
  Proof. intro H. apply nth_error_Some. congruence. Qed.

  Lemma lt_nth l i : i < length l -> exists b, nth_error l i = Some b.
  Proof. intro H. apply nth_error_Some in H. destruct (nth_error l i); eauto; congruence. Qed.

  Lemma get_ok l i b : nth_error l i = Some b -> get l i = Ok b.
  Proof. unfold get. now intros ->. Qed.

  Lemma get_inv l i b : get l i = Ok b -> nth_error l i = Some b.
  Proof. unfold get. destruct (nth_error l i); congruence. Qed.

  Lemma set_ok l i a : i < length l -> set l i a = Ok (upd l i a).
  Proof. intro H. unfold set. apply Nat.ltb_lt in H. now rewrite H. Qed.

  Lemma set_inv l i a l' : set l i a = Ok l' -> i < length l /\ l' = upd l i a.
  Proof. unfold set. destruct (Nat.ltb_spec i (length l)); intro E; inversion E; auto. Qed.

  Lemma NoDup_app_iff' l1 l2 :
    NoDup (l1 ++ l2) <-> NoDup l1 /\ NoDup l2 /\ (forall x, In x l1 -> ~ In x l2).
  Proof.
    induction l1 as [|x l1 IH]; cbn.
    - split; [intros H; repeat split; auto; constructor | tauto].
    - rewrite !NoDup_cons_iff, IH, in_app_iff. split.
      + intros (H1 & H2 & H3 & H4). repeat split; auto.
        intros y [->|Hy]; auto.
      + intros ((H1 & H2) & H3 & H4). repeat split; auto.
        intros [H|H]; [tauto | now apply (H4 x); auto].
  Qed.
End Facts.

(** Decompose NoDup / In hypotheses about cons and app. *)
Ltac ndup :=
  repeat match goal with
  | H : NoDup (_ :: _) |- _ => apply NoDup_cons_iff in H; destruct H
  | H : NoDup (_ ++ _) |- _ => apply NoDup_app_iff' in H; destruct H as (? & ? & ?)
  | H : ~ In _ (_ ++ _) |- _ => rewrite in_app_iff in H
  | H : ~ In _ (_ :: _) |- _ => cbn [In] in H
  | H : ~ (_ \/ _) |- _ => apply Decidable.not_or in H; destruct H
  | H : _ /\ _ |- _ => destruct H
  end.

(* res monad inversion *)
Lemma bind_ok {A B} (m : res A) (f : A -> res B) b :
  bind m f = Ok b <-> exists a, m = Ok a /\ f a = Ok b.
Proof. destruct m; cbn; split; intros H; try congruence; eauto; destruct H as (? & ? & ?); congruence. Qed.

Lemma assert_ok b u : b2_assert b = Ok u <-> b = true.
Proof. destruct b, u; cbn; split; congruence. Qed.

Lemma permutation_ext {A} (eqd : forall x y : A, {x = y} + {x <> y}) (l l' : list A) :
  NoDup l -> NoDup l' -> (forall x, In x l <-> In x l') -> Permutation l l'.
Proof. intros. now apply NoDup_Permutation. Qed.
