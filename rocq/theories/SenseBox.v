(** The boxes of shapes that are near each other overlap. *)
From Coq Require Import List ZArith Bool Arith Lia Reals Lra.
From Verif Require DistSpec SenseSpec.
From Verif Require Import Base Num NumLaws RTac Math Collision GeomSpec ShapeModel ShapeSpec ShapeProofs DynModel TreeSpec.
Import ListNotations.
Local Open Scope R_scope.

Lemma zeros_sum n : sumR (repeat 0 n) = 0.
Proof. induction n as [|n IH]; [reflexivity|]. cbn [repeat]. change (0 + sumR (repeat 0 n) = 0). rewrite IH. ring. Qed.
Lemma zeros_comb n vs : comb (repeat 0 n) vs = V2 0 0.
Proof.
  revert vs. induction n as [|n IH]; intros vs; [destruct vs; reflexivity|]. destruct vs as [|v vs]; cbn [repeat comb]; [reflexivity|]. rewrite IH. cbn. f_equal; ring.
Qed.
Lemma vertex_in_hull vs v : In v vs -> in_hull vs v.
Proof.
  induction vs as [|u vs IH]; [intros []|]. intros [->|H].
  - exists (1 :: repeat 0 (length vs)). pose proof (zeros_comb (length vs) vs) as Z1. pose proof (zeros_sum (length vs)) as Z2. split; [cbn; now rewrite repeat_length|]. split; [intros w [<-|Hw]; [lra|apply repeat_spec in Hw; lra]|]. split; [change (1 + sumR (repeat 0 (length vs)) = 1); rewrite Z2; ring|]. cbn [comb]. rewrite Z1. destruct v; cbn. f_equal; ring.
  - destruct (IH H) as (ws & L & P & S & E). exists (0 :: ws). split; [cbn; congruence|]. split; [intros w [<-|Hw]; [lra|auto]|]. split; [change (0 + sumR ws = 1); rewrite S; ring|]. cbn [comb]. rewrite <- E. destruct v; cbn. f_equal; ring.
Qed.
(* the point lies in the box, with room [r] on every side *)
Definition deep_in (b : aabb R) (r : R) (q : vec2 R) : Prop := vx (lo b) + r <= vx q <= vx (hi b) - r /\ vy (lo b) + r <= vy q <= vy (hi b) - r.
Lemma deep_near xf S r b a : 0 <= r -> (forall p, near xf S r p -> in_box b p) -> S a -> deep_in b r (place xf a).
Proof.
  intros Hr K Sa. assert (Q : forall dx dy, dx * dx + dy * dy = r * r -> in_box b (V2 (vx (place xf a) + dx) (vy (place xf a) + dy))).
  { intros dx dy D. apply K. exists a. split; [exact Sa|]. unfold dist2. cbn [vx vy]. nra. }
  pose proof (Q r 0 ltac:(ring)) as Q1. pose proof (Q (- r) 0 ltac:(ring)) as Q2. pose proof (Q 0 r ltac:(ring)) as Q3. pose proof (Q 0 (- r) ltac:(ring)) as Q4. unfold in_box in *. cbn [vx vy] in *. unfold deep_in. lra.
Qed.
Lemma deep_mix b r ws ps : length ws = length ps -> Forall (fun w => 0 <= w) ws -> (forall p, In p ps -> deep_in b r p) ->
  let t := DistSpec.total ws in let q := DistSpec.mix ws ps in t * (vx (lo b) + r) <= vx q <= t * (vx (hi b) - r) /\ t * (vy (lo b) + r) <= vy q <= t * (vy (hi b) - r).
Proof.
  revert ps. induction ws as [|w ws IH]; intros [|p ps] L F K; try discriminate; cbn zeta; cbn [DistSpec.total DistSpec.mix vx vy]; [lra|].
  inversion F as [|? ? Fw F']; subst. injection L as L. specialize (IH ps L F' (fun p H => K p (or_intror H))). cbn zeta in IH. destruct (K p (or_introl eq_refl)) as (X & Y).
  destruct X as (X1 & X2), Y as (Y1 & Y2). apply (Rmult_le_compat_l w) in X1, X2, Y1, Y2; try assumption. lra.
Qed.
Lemma deep_hull b r ps q : (forall p, In p ps -> deep_in b r p) -> DistSpec.hull ps q -> deep_in b r q.
Proof. intros K (ws & L & (F & T) & ->). pose proof (deep_mix b r ws ps L F K) as M. cbn zeta in M. rewrite T in M. unfold deep_in. lra. Qed.
Lemma sensed_box s k l r xf : SenseSpec.sensed s k l r -> 0 <= r -> exists bx, shape_aabb s xf k = Ok bx /\ forall q, DistSpec.hull (map (DistSpec.place xf) l) q -> deep_in bx r q.
Proof.
  intros H Hr.
  assert (G : forall bx (S : vec2 R -> Prop), (forall v, In v l -> S v) -> (forall p, near xf S r p -> in_box bx p) -> forall q, DistSpec.hull (map (DistSpec.place xf) l) q -> deep_in bx r q).
  { intros bx S Sl K q. apply deep_hull. intros p Hp. apply in_map_iff in Hp as (v & <- & Hv). exact (deep_near xf S r bx v Hr K (Sl v Hv)). }
  assert (On : forall a b v : vec2 R, In v [a; b] -> on_segment a b v).
  { intros a b v [<-|[<-|[]]]; [exists 0|exists 1]; (split; [lra|]); [destruct a|destruct b]; unfold along; cbn; f_equal; ring. }
  destruct H as [c|e|p Hc Hv Hn|c k v v' Ev Ev'].
  - exists (circle_aabb c xf). split; [reflexivity|]. apply (G _ (fun a => a = ci_p c)); [intros v [<-|[]]; reflexivity|]. intros p. now apply circle_aabb_ok.
  - exists (edge_aabb e xf). split; [reflexivity|]. apply (G _ (on_segment (ed_v1 e) (ed_v2 e))); [apply On|]. intros p. now apply (segment_aabb_ok (ed_radius e) xf (ed_v1 e) (ed_v2 e) p).
  - destruct (polygon_aabb_ok p xf (conj Hc (conj Hv Hn)) Hr) as (bx & Eb & K). exists bx. split; [exact Eb|]. apply (G _ (in_hull (used_vertices p))); [apply vertex_in_hull|exact K].
  - destruct (chain_aabb_ok c xf k v v' Hr Ev Ev') as (bx & Eb & K). exists bx. split; [exact Eb|]. apply (G _ (on_segment v v')); [apply On|exact K].
Qed.
Lemma sensed_child s k l r : SenseSpec.sensed s k l r -> exists n, shape_child_count s = Ok n /\ (k < n)%nat.
Proof.
  intros [c|e|p Hc Hv Hn|c k' v v' Ev Ev']; try (exists 1%nat; split; [reflexivity|lia]).
  assert (S k' < length (ch_vertices c))%nat by (apply nth_error_Some; congruence). cbn [shape_child_count]. unfold chain_child_count, usize_sub. destruct (length (ch_vertices c)); [lia|]. eexists. split; [reflexivity|]. lia.
Qed.
Theorem near_boxes sa k la ra xa sb l lb rb xb : SenseSpec.sensed sa k la ra -> SenseSpec.sensed sb l lb rb -> 0 <= ra -> 0 <= rb ->
  (exists qa qb, DistSpec.hull (map (DistSpec.place xa) la) qa /\ DistSpec.hull (map (DistSpec.place xb) lb) qb /\ DistSpec.dist qa qb <= ra + rb) ->
  exists a b, shape_aabb sa xa k = Ok a /\ shape_aabb sb xb l = Ok b /\ ~ separated a b.
Proof.
  intros Sa Sb Ha Hb (qa & qb & Qa & Qb & D). destruct (sensed_box sa k la ra xa Sa Ha) as (a & Ea & Ka). destruct (sensed_box sb l lb rb xb Sb Hb) as (b & Eb & Kb). exists a, b. split; [exact Ea|]. split; [exact Eb|].
  specialize (Ka qa Qa). specialize (Kb qb Qb). unfold deep_in in *.
  assert (S : dist2 qa qb <= (ra + rb) * (ra + rb)).
  { unfold DistSpec.dist in D. pose proof (sqrt_pos (dist2 qa qb)) as P. assert (N : 0 <= dist2 qa qb) by (unfold dist2; apply Rplus_le_le_0_compat; apply Rle_0_sqr). rewrite <- (sqrt_sqrt _ N). apply Rmult_le_compat; lra. }
  unfold dist2 in S. assert (Sq : forall x y r, 0 <= r -> x * x + y * y <= r * r -> - r <= x <= r). { clear. intros x y r Hr H. pose proof (Rle_0_sqr y) as Y. unfold Rsqr in Y. split; apply Rnot_lt_le; intros L; nra. }
  pose proof (Sq _ _ (ra + rb) ltac:(lra) S) as Dx. rewrite Rplus_comm in S. pose proof (Sq _ _ (ra + rb) ltac:(lra) S) as Dy.
  unfold separated. cbn [nlt R_Num]. rewrite !Rlt_bool_true'. lra.
Qed.
