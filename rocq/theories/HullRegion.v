(** The two readings of a convex polygon agree: half planes of the edges, and convex combinations of the vertices. *)
From Coq Require Import ZArith Reals Lra Lia Bool List Arith Psatz.
From Verif Require Import Base Num NumLaws Math Collision ShapeModel DistModel MathSpec GeomSpec ShapeSpec HullSpec DistSpec RTac ListFacts DistProofs HullProofs HullSet HullMass HullInertia.
Import ListNotations.
Local Open Scope R_scope.

Lemma comb_mix ws vs : comb ws vs = mix ws vs.
Proof. reflexivity. Qed.
Lemma sum_total ws : sumR ws = total ws.
Proof. induction ws; cbn; [reflexivity|]. unfold sumR in *. rewrite <- IHws. reflexivity. Qed.
Lemma in_hull_hull vs p : in_hull vs p <-> hull vs p.
Proof.
  split; intros (ws & L & A & B).
  - exists ws. split; [exact L|]. destruct B as [B1 B2]. split; [split|].
    + apply Forall_forall. exact A.
    + rewrite <- sum_total. exact B1.
    + rewrite <- comb_mix. exact B2.
  - exists ws. split; [exact L|]. destruct A as [A1 A2]. split; [|split].
    + apply Forall_forall. exact A1.
    + rewrite sum_total. exact A2.
    + rewrite comb_mix. exact B.
Qed.
Lemma hull_inside vs p : convex_ccw vs -> hull vs p -> inside vs p.
Proof.
  intros C H i a b Ha Hb.
  assert (K : 0 <= - (vy b - vy a) * vx p + (vx b - vx a) * vy p + ((vy b - vy a) * vx a - (vx b - vx a) * vy a)).
  { eapply hull_affine; [|exact H]. intros v Hv. pose proof (vertex_inside vs C v Hv i a b Ha Hb) as T. unfold turn in T. lra. }
  unfold turn. lra.
Qed.
(* somewhere on the way the sign changes *)
Lemma sign_change (f : nat -> R) n : 0 <= f 0%nat -> f (S n) <= 0 -> exists i, (i <= n)%nat /\ 0 <= f i /\ f (S i) <= 0.
Proof.
  induction n; intros H0 H1; [exists 0%nat; auto|]. destruct (Rle_lt_dec (f (S n)) 0) as [L|L].
  - destruct (IHn H0 L) as (i & Hi & Hf). exists i. split; [lia|exact Hf].
  - exists (S n). split; [lia|]. split; [lra|exact H1].
Qed.
Lemma inside_hull vs p : convex_ccw vs -> inside vs p -> hull vs p.
Proof.
  intros C Ip. pose proof C as [L C'].
  set (v i := nth i vs (V2 0 0)).
  assert (Hv : forall i, (i < length vs)%nat -> nth_error vs i = Some (v i)) by (intros i Hi; apply nth_error_nth'; exact Hi).
  destruct (sign_change (fun i => turn (v 0%nat) (v (S i)) p) (length vs - 3)) as (i & Hi & F1 & F2).
  - apply (Ip 0%nat); [apply Hv; lia|]. unfold after. destruct (Nat.ltb_spec 1 (length vs)); [apply Hv; lia|lia].
  - replace (S (S (length vs - 3))) with (length vs - 1)%nat by lia.
    assert (0 <= turn (v (length vs - 1)%nat) (v 0%nat) p).
    { apply (Ip (length vs - 1)%nat); [apply Hv; lia|]. unfold after. destruct (Nat.ltb_spec (S (length vs - 1)) (length vs)); [lia|apply Hv; lia]. }
    unfold turn in *. lra.
  - assert (Ai : after (length vs) (S i) = S (S i)) by (unfold after; destruct (Nat.ltb_spec (S (S i)) (length vs)); lia).
    assert (E1 : nth_error vs (S i) = Some (v (S i))) by (apply Hv; lia).
    assert (E2 : nth_error vs (after (length vs) (S i)) = Some (v (S (S i)))) by (rewrite Ai; apply Hv; lia).
    assert (F3 : 0 <= turn (v (S i)) (v (S (S i))) p) by (apply (Ip (S i)); assumption).
    assert (T : 0 < turn (v (S i)) (v (S (S i))) (v 0%nat)).
    { apply (C' (S i) 0%nat); [discriminate|rewrite Ai; discriminate|exact E1|exact E2|apply Hv; lia]. }
    set (a := v 0%nat) in *. set (b := v (S i)) in *. set (c := v (S (S i))) in *.
    apply (hull_incl [a; b; c]).
    { intros q [<-|[<-|[<-|[]]]]; eapply nth_error_In; [apply (Hv 0%nat); lia|exact E1|apply (Hv (S (S i))); lia]. }
    exists [turn b c p / turn b c a; - turn a c p / turn b c a; turn a b p / turn b c a]. split; [reflexivity|]. split; [split|].
    + pose proof (Rinv_0_lt_compat _ T) as Ti. constructor; [|constructor; [|constructor; [|constructor]]]; apply Rmult_le_pos; lra.
    + cbn. unfold turn in *. field. lra.
    + cbn. apply vec2_ext; cbn; unfold turn in *; field; lra.
Qed.
Lemma proper_region po p : proper po -> (inner po p <-> in_hull (used_vertices po) p).
Proof.
  intros Pr. rewrite (proper_inner po p Pr), in_hull_hull. destruct Pr as (_ & C & _). split; [apply inside_hull|apply hull_inside]; exact C.
Qed.
