(** The statements of Prop_Dist, from the proofs. *)
From Coq Require Import List ZArith Bool Arith Reals Lia Lra.
From Flocq Require Import Core.
From Verif Require Import Base Num NumLaws Math RTac ListFacts ShapeModel DynModel DistModel ToiModel ToiSpec GeomSpec DistSpec DistProofs GjkProofs GjkReal ToiProofs SolverPos DistExamples SolverExamples.
Import ListNotations.

(** ** closest points *)
Lemma solve2_weights s : weights (solve2 s) = bary (solve2 s).
Proof. unfold solve2. repeat match goal with |- context [if ?b then _ else _] => destruct b end; reflexivity. Qed.
Lemma solve3_weights s : weights (solve3 s) = bary (solve3 s).
Proof. unfold solve3. repeat match goal with |- context [if ?b then _ else _] => destruct b end; reflexivity. Qed.
Lemma solved_says s s' : solved s s' -> weights s' = bary s' ->
  convex (weights s') /\ (forall v, In v (used s') -> exists u, In u (used s) /\ same_vertex v u) /\
  closest (corners s) (mix (weights s') (corners s')) /\ closest_point s' = Ok (mix (weights s') (corners s')).
Proof.
  intros S ->. refine (conj (conj _ (so_total _ _ S)) (conj (so_from _ _ S) (conj (solved_closest _ _ S) (so_point _ _ S)))).
  eapply Forall_impl; [|exact (so_pos _ _ S)]. intros w. cbn. lra.
Qed.
Lemma solve2_says s : sx_count s = 2%nat -> let s' := solve2 s in
  convex (weights s') /\ (forall v, In v (used s') -> exists u, In u (used s) /\ same_vertex v u) /\
  closest (corners s) (mix (weights s') (corners s')) /\ closest_point s' = Ok (mix (weights s') (corners s')).
Proof. intros C. exact (solved_says _ _ (solve2_solved s C) (solve2_weights s)). Qed.
Lemma solve3_says s : sx_count s = 3%nat -> let s' := solve3 s in
  convex (weights s') /\ (forall v, In v (used s') -> exists u, In u (used s) /\ same_vertex v u) /\
  closest (corners s) (mix (weights s') (corners s')) /\ closest_point s' = Ok (mix (weights s') (corners s')).
Proof. intros C. exact (solved_says _ _ (solve3_solved s C) (solve3_weights s)). Qed.

(** ** distance *)
Lemma distance_returns {T} {NT : Num T} (pa pb : dproxy T) xa xb c radii : dp_vertices pa <> [] -> dp_vertices pb <> [] -> cache_fits c pa pb ->
  exists o c', distance_fn c (DInput pa pb xa xb radii) = Ok (o, c') /\ (do_iterations o <= 20)%nat /\ cache_fits c' pa pb.
Proof. intros Na Nb F. destruct (distance_ok pa xa pb xb c radii Na Nb F) as (o & c' & E & I & F' & _). eauto. Qed.

(** ** time of impact *)
Lemma toi_panics : exists (TT : NumTrig f32) (pa pb : dproxy f32) swa swb t_max, dp_vertices pa <> [] /\ dp_vertices pb <> [] /\ nle (nofZ 0) t_max = true /\ time_of_impact pa pb swa swb t_max = Panic.
Proof. exists flat_trig, ex_huge, DistExamples.ex_point, (ex_sweep 0 0), (ex_sweep 0 0), (nofZ 1). refine (conj _ (conj _ (conj _ ex_huge_panics))); [discriminate|discriminate|reflexivity]. Qed.
Lemma toi_beyond : exists (distance : f32 -> unit -> res (f32 * unit)) (initialize : unit -> f32 -> res unit) (find_min : unit -> f32 -> res (Z * Z * f32)) (evaluate : unit -> Z -> Z -> f32 -> res f32) t_max target tolerance t,
  all_return distance initialize find_min evaluate /\ nlt (nofZ 0) tolerance = true /\ nlt (nofZ 0) t_max = true /\ toi_loop distance initialize find_min evaluate 20 tt t_max target tolerance (nofZ 0) = Ok (TTouching, t) /\ nlt t_max t = true.
Proof.
  pose proof ex_beyond_ok as B. unfold ex_beyond in B. apply beyond_R in B. destruct B as (t & E & L). exists ex_dist, ex_init, ex_min, ex_eval, ex_end, (nofZ 1), (nlit 1 4), t.
  refine (conj ex_all_return (conj _ (conj _ (conj E L)))); [vm_compute; reflexivity..].
Qed.
(* what the answers of the code mean *)
Section Concrete.
  Context {TT : NumTrig R}.
  Variables (pa pb : dproxy R) (swa swb : sweep R) (t_max : R).
  Let wa := sweep_normalize swa.
  Let wb := sweep_normalize swb.
  Lemma toi_unfold r : time_of_impact pa pb swa swb t_max = r ->
    toi_loop (toi_distance pa pb wa wb) (sep_init pa pb wa wb) (sep_find_min pa pb wa wb) (sep_evaluate pa pb wa wb) 20 cache_zero t_max (toi_target pa pb) toi_tolerance (nofZ 0) = r.
  Proof. unfold time_of_impact. cbn [nlt R_Num]. rewrite (Rlt_bool_true _ _ (target_R pa pb)). cbn [b2_assert bind]. exact (fun H => H). Qed.
  Lemma toi_touching_is t : time_of_impact pa pb swa swb t_max = Ok (TTouching, t) ->
    touches (toi_distance pa pb wa wb) (sep_init pa pb wa wb) (sep_find_min pa pb wa wb) (sep_evaluate pa pb wa wb) (toi_target pa pb) toi_tolerance t.
  Proof. intros H. apply toi_unfold in H. exact (toi_touches _ _ _ _ _ _ _ _ _ _ _ H). Qed.
  Lemma toi_separated_is t : nonempty pa -> nonempty pb -> (0 <= t_max)%R -> time_of_impact pa pb swa swb t_max = Ok (TSeparated, t) ->
    t = t_max /\ separates (sep_init pa pb wa wb) (sep_find_min pa pb wa wb) (toi_target pa pb) toi_tolerance t_max.
  Proof.
    intros Na Nb Hm H. apply toi_unfold in H. refine (toi_separates _ _ _ _ _ _ _ _ _ tolerance_R _ _ _ (conj (Rle_refl _) Hm) H).
    apply sep_least; assumption.
  Qed.
End Concrete.
