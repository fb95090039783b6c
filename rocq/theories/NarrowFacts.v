(** The narrow phase gives at most two points, in an array of two, for any shapes and in any arithmetic. *)
From Coq Require Import List ZArith Bool Arith Lia.
From Verif Require Import Base ListFacts Num Math Collision Manifold ShapeModel CollideModel DynModel WorldModel WorldCalls SafeSpec CoverLogic NarrowModel.
Import ListNotations.

Section Facts.
  Context {T : Type} `{NT : Num T}.

  Lemma none_two (m : manifold T) : length (mf_points m) = 2 -> two_points (mf_none m).
  Proof. intros H. split; [exact H|cbn; lia]. Qed.
  Lemma mpoint_two (ps : list (mpoint T)) i v id n : length ps = n -> ok (set_mpoint ps i v id) (fun qs => length qs = n).
  Proof. intros H. unfold set_mpoint. apply ok_bind, ok_any. intros p. apply ok_set. intros _. now rewrite length_upd. Qed.
  Lemma one_two (m : manifold T) ty a b c id : length (mf_points m) = 2 -> ok (mf_one m ty a b c id) two_points.
  Proof. intros H. unfold mf_one. apply ok_bind. eapply ok_mono; [apply mpoint_two; exact H|]. intros ps L. apply ok_ok. split; [exact L|cbn; lia]. Qed.
  Lemma keep_two (ps : list (mpoint T)) cl sep r lo idf : length ps = 2 -> ok (keep_points ps cl sep r lo idf) (fun p => length (fst p) = 2 /\ snd p <= 2).
  Proof.
    intros H. unfold keep_points. apply (ok_for (fun i p => length (fst p) = 2 /\ snd p <= i)); [cbn; auto|]. intros i [qs n] _ [L Ln]. cbn in L, Ln. apply ok_bind, ok_any. intros c. destruct (nle _ _); [|apply ok_ok; cbn; auto].
    apply ok_bind. eapply ok_mono; [apply mpoint_two; exact L|]. intros qs' L'. apply ok_ok. cbn. split; [exact L'|lia].
  Qed.
  Lemma circles_two (m : manifold T) a xa b xb : length (mf_points m) = 2 -> ok (b2_collide_circles m a xa b xb) two_points.
  Proof. intros H. unfold b2_collide_circles. destruct (nlt _ _); [apply ok_ok; now apply none_two|now apply one_two]. Qed.
  Ltac fin := first [apply ok_ok; now apply none_two | now apply one_two].
  Lemma polygon_circle_two (m : manifold T) a xa b xb : length (mf_points m) = 2 -> ok (b2_collide_polygon_and_circle m a xa b xb) two_points.
  Proof.
    intros H. unfold b2_collide_polygon_and_circle. cbv zeta. apply ok_bind, ok_any. intros [[s i]|]; [|fin]. apply ok_bind, ok_any. intros v1. apply ok_bind, ok_any. intros v2. apply ok_bind, ok_any. intros n1.
    repeat (match goal with |- ok (if ?b then _ else _) _ => destruct b end; try fin).
  Qed.
  Lemma edge_circle_two (m : manifold T) a xa b xb : length (mf_points m) = 2 -> ok (b2_collide_edge_and_circle m a xa b xb) two_points.
  Proof.
    intros H. unfold b2_collide_edge_and_circle. cbv zeta. repeat (match goal with |- ok (if ?b then _ else _) _ => destruct b end; try fin). apply ok_bind, ok_any. intros _. repeat (match goal with |- ok (if ?b then _ else _) _ => destruct b end; try fin).
  Qed.
  Lemma polygons_two (m : manifold T) a xa b xb : length (mf_points m) = 2 -> ok (b2_collide_polygons m a xa b xb) two_points.
  Proof.
    intros H. unfold b2_collide_polygons. cbv zeta. apply ok_bind, ok_any. intros [sa ea]. destruct (nlt _ _); [fin|]. apply ok_bind, ok_any. intros [sb eb]. destruct (nlt _ _); [fin|]. set (fl := nlt _ _). destruct (if fl then _ else _) as [[[[[p1 p2] x1] x2] e1] ty].
    apply ok_bind, ok_any. intros [c0 c1]. apply ok_bind, ok_any. intros v1. apply ok_bind, ok_any. intros v2. apply ok_bind, ok_any. intros out. assert (Z : two_points (MF (mf_points m) (mf_local_normal m) (mf_local_point m) ty 0)) by (split; [exact H|cbn; lia]).
    destruct out as [|d0 [|d1 [|]]]; try (apply ok_ok; exact Z). apply ok_bind, ok_any. intros out2. destruct (Nat.ltb _ _); [apply ok_ok; exact Z|]. apply ok_bind. eapply ok_mono; [apply keep_two; exact H|]. intros [ps n] [L Ln]. apply ok_ok. split; [exact L|exact Ln].
  Qed.
  Lemma edge_polygon_two (m : manifold T) a xa b xb : length (mf_points m) = 2 -> ok (b2_collide_edge_and_polygon m a xa b xb) two_points.
  Proof.
    intros H. unfold b2_collide_edge_and_polygon. cbv zeta. destruct (_ && _); [fin|]. apply ok_bind, ok_any. intros vs. apply ok_bind, ok_any. intros ns. destruct (nlt _ _); [fin|]. apply ok_bind, ok_any. intros ax. destruct (nlt _ _); [fin|].
    match goal with |- ok (match ?p with Some _ => _ | None => _ end) _ => destruct p as [pr|] end; [|fin]. apply ok_bind, ok_any. intros [[c0 c1] rf]. destruct rf as [[[[[[i1 i2] v1] v2] n] s1] s2].
    apply ok_bind, ok_any. intros out. set (ty := if is_edge_a _ then _ else _). assert (Z : two_points (MF (mf_points m) (mf_local_normal m) (mf_local_point m) ty 0)) by (split; [exact H|cbn; lia]).
    destruct out as [|d0 [|d1 [|]]]; try (apply ok_ok; exact Z). apply ok_bind, ok_any. intros out2. destruct (Nat.ltb _ _); [apply ok_ok; exact Z|]. apply ok_bind, ok_any. intros [ln lp]. apply ok_bind. eapply ok_mono; [apply keep_two; exact H|]. intros [ps k] [L Ln]. apply ok_ok. split; [exact L|exact Ln].
  Qed.
  Context `{TT : NumTrig T} `{VT : NumValid T}.
  Theorem evaluate_two sa k xa sb xb : ok (evaluate_shapes (T := T) sa k xa sb xb) two_points.
  Proof.
    destruct sa, sb; cbn [evaluate_shapes]; try (intros m Q; discriminate Q).
    - now apply circles_two.
    - now apply edge_circle_two.
    - now apply edge_polygon_two.
    - now apply polygon_circle_two.
    - now apply polygons_two.
    - apply ok_bind, ok_any. intros e. now apply edge_circle_two.
    - apply ok_bind, ok_any. intros e. now apply edge_polygon_two.
  Qed.
  Theorem contact_two (w : WorldModel.world T) c m : evaluate w c = Ok m -> two_points m.
  Proof. unfold evaluate. intros H. apply bind_ok in H as ([[[[x fa] fb] ba] bb] & _ & H). exact (evaluate_two _ _ _ _ _ _ H). Qed.
End Facts.
