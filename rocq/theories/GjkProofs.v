(** GJK: it returns for any numbers; in exact real arithmetic its answer is what it claims. *)
From Coq Require Import List ZArith Bool Arith Reals Lia Lra.
From Flocq Require Import Core.
From Verif Require Import Base Num NumLaws Math RTac ListFacts ShapeModel DynModel DistModel GeomSpec DistSpec DistProofs.
Import ListNotations.

Lemma get_in {A} (l : list A) i : (i < length l)%nat -> exists x, get l i = Ok x /\ nth_error l i = Some x.
Proof. intros H. unfold get. destruct (nth_error l i) eqn:E; [eauto|]. apply nth_error_None in E. lia. Qed.
Lemma get_some {A} (l : list A) i x : get l i = Ok x -> nth_error l i = Some x.
Proof. unfold get. destruct (nth_error l i); congruence. Qed.

Section Total.
  Local Open Scope num_scope.
  Context {T : Type} {NT : Num T}.

  Lemma support_from_bound (l : list (vec2 T)) d i best value : (best < i)%nat -> (support_from l d i best value < i + length l)%nat.
  Proof.
    revert i best value. induction l as [|v l IH]; intros i best value H; cbn; [lia|].
    destruct (b2_dot v d >? value).
    - specialize (IH (S i) i (b2_dot v d) ltac:(lia)). lia.
    - specialize (IH (S i) best value ltac:(lia)). lia.
  Qed.
  Lemma support_ok (p : dproxy T) d : dp_vertices p <> [] -> exists i, get_support p d = Ok i /\ (i < length (dp_vertices p))%nat.
  Proof.
    intros H. unfold get_support. destruct (dp_vertices p) as [|v l]; [contradiction|]. cbn.
    eexists. split; [reflexivity|]. pose proof (support_from_bound l d 1 0 (b2_dot v d) ltac:(lia)). lia.
  Qed.

  Variables (pa : dproxy T) (xa : xform T) (pb : dproxy T) (xb : xform T).
  Definition at_index (v : svertex T) : Prop := vertex_at pa xa pb xb (sv_ia v) (sv_ib v) (sv_a v) = Ok v.
  Definition simplex_ok (s : simplex T) : Prop := (1 <= sx_count s <= 3)%nat /\ Forall at_index (used s).

  Lemma vertex_at_ok ia ib a : (ia < length (dp_vertices pa))%nat -> (ib < length (dp_vertices pb))%nat ->
    exists v, vertex_at pa xa pb xb ia ib a = Ok v /\ at_index v /\ sv_ia v = ia /\ sv_ib v = ib.
  Proof.
    intros A B. unfold at_index, vertex_at, get_vertex.
    destruct (get_in _ _ A) as (la & Ea & _). destruct (get_in _ _ B) as (lb & Eb & _). rewrite Ea, Eb. cbn.
    eexists. split; [reflexivity|]. cbn. rewrite Ea, Eb. cbn. auto.
  Qed.
  Lemma at_index_with v a : at_index v -> at_index (with_a v a).
  Proof.
    unfold at_index, vertex_at. cbn. destruct (get_vertex pa (sv_ia v)) as [la| |]; cbn; try discriminate. destruct (get_vertex pb (sv_ib v)) as [lb| |]; cbn; try discriminate.
    intros E. destruct v as [u1 u2 u3 u4 u5 u6]; unfold with_a; cbn in *. injection E as <- <- <-. reflexivity.
  Qed.
  Lemma at_index_bound v : at_index v -> (sv_ia v < length (dp_vertices pa))%nat /\ (sv_ib v < length (dp_vertices pb))%nat.
  Proof.
    unfold at_index, vertex_at, get_vertex, get. destruct (nth_error (dp_vertices pa) (sv_ia v)) as [la|] eqn:A; cbn; try discriminate. destruct (nth_error (dp_vertices pb) (sv_ib v)) as [lb|] eqn:B; cbn; try discriminate.
    intros _. split; apply nth_error_Some; congruence.
  Qed.

  Lemma solve_ok s : simplex_ok s -> exists s', solve_simplex s = Ok s' /\ simplex_ok s'.
  Proof.
    intros [C F]. unfold solve_simplex, simplex_ok, used in *. destruct s as [v0 v1 v2 c]. cbn [sx_count sx_0 sx_1 sx_2] in *.
    destruct c as [|[|[|[|c]]]]; try lia; eexists; (split; [reflexivity|]).
    - cbn. split; [lia|exact F].
    - cbn in F. inversion F as [|? ? F0 F']; subst. inversion F' as [|? ? F1 _]; subst. unfold solve2. cbn [sx_0 sx_1 sx_2].
      match goal with |- context [if ?b then _ else _] => destruct b end; [|match goal with |- context [if ?b then _ else _] => destruct b end]; cbn; (split; [lia|]); repeat (apply Forall_cons || apply Forall_nil); auto using at_index_with.
    - cbn in F. inversion F as [|? ? F0 F']; subst. inversion F' as [|? ? F1 F'']; subst. inversion F'' as [|? ? F2 _]; subst. unfold solve3. cbn [sx_0 sx_1 sx_2].
      repeat match goal with |- context [if ?b then _ else _] => destruct b end; cbn; (split; [lia|]); repeat (apply Forall_cons || apply Forall_nil); auto using at_index_with.
  Qed.

  Lemma metric_ok (s : simplex T) : (1 <= sx_count s <= 3)%nat -> exists m, get_metric s = Ok m.
  Proof. intros C. unfold get_metric. destruct (sx_count s) as [|[|[|[|c]]]]; try lia; eauto. Qed.

  Lemma read_ok c : dp_vertices pa <> [] -> dp_vertices pb <> [] -> cache_fits c pa pb -> exists s, read_cache c pa xa pb xb = Ok s /\ simplex_ok s.
  Proof.
    intros Na Nb (C & La & Lb & H).
    assert (Z : exists v, vertex_at pa xa pb xb 0 0 #1 = Ok v /\ at_index v).
    { destruct (vertex_at_ok 0 0 #1) as (v & E & A & _); [destruct (dp_vertices pa); [contradiction|cbn; lia]|destruct (dp_vertices pb); [contradiction|cbn; lia]|eauto]. }
    destruct Z as (v0 & Ez & Az).
    assert (Slot : forall i, (i < sc_count c)%nat -> exists ia ib v, get (sc_a c) i = Ok ia /\ get (sc_b c) i = Ok ib /\ vertex_at pa xa pb xb ia ib #0 = Ok v /\ at_index v).
    { intros i Hi. destruct (H i Hi) as [Ha Hb].
      destruct (get_in (sc_a c) i ltac:(lia)) as (ia & Ga & Ia). destruct (get_in (sc_b c) i ltac:(lia)) as (ib & Gb & Ib).
      rewrite (nth_error_nth _ _ 0%nat Ia) in Ha. rewrite (nth_error_nth _ _ 0%nat Ib) in Hb.
      destruct (vertex_at_ok ia ib #0 Ha Hb) as (v & E & A & _). exists ia, ib, v. auto. }
    (* after the loop *)
    assert (Loop : exists s, for_range 0 (sc_count c) (fun i s => ia <- get (sc_a c) i ;; ib <- get (sc_b c) i ;; v <- vertex_at pa xa pb xb ia ib #0 ;; put s i v) (with_count sx_zero (sc_count c)) = Ok s
      /\ sx_count s = sc_count c /\ Forall at_index (used s)).
    { unfold for_range. rewrite Nat.sub_0_r.
      destruct (sc_count c) as [|[|[|[|n]]]] eqn:E; try lia; cbn [for_from].
      - eexists. split; [reflexivity|]. split; [reflexivity|]. constructor.
      - destruct (Slot 0%nat ltac:(lia)) as (ia & ib & v & -> & -> & Ev & A). cbn [bind]. rewrite Ev. cbn.
        eexists. split; [reflexivity|]. split; [reflexivity|]. cbn. repeat (apply Forall_cons || apply Forall_nil); auto.
      - destruct (Slot 0%nat ltac:(lia)) as (ia & ib & v & -> & -> & Ev & A). cbn [bind]. rewrite Ev. cbn [bind put].
        destruct (Slot 1%nat ltac:(lia)) as (ia1 & ib1 & v1 & -> & -> & Ev1 & A1). cbn [bind]. rewrite Ev1. cbn.
        eexists. split; [reflexivity|]. split; [reflexivity|]. cbn. repeat (apply Forall_cons || apply Forall_nil); auto.
      - destruct (Slot 0%nat ltac:(lia)) as (ia & ib & v & -> & -> & Ev & A). cbn [bind]. rewrite Ev. cbn [bind put].
        destruct (Slot 1%nat ltac:(lia)) as (ia1 & ib1 & v1 & -> & -> & Ev1 & A1). cbn [bind]. rewrite Ev1. cbn [bind put].
        destruct (Slot 2%nat ltac:(lia)) as (ia2 & ib2 & v2 & -> & -> & Ev2 & A2). cbn [bind]. rewrite Ev2. cbn.
        eexists. split; [reflexivity|]. split; [reflexivity|]. cbn. repeat (apply Forall_cons || apply Forall_nil); auto. }
    destruct Loop as (s & Es & Cs & Fs).
    unfold read_cache. destruct (Nat.leb_spec (sc_count c) 3); [|lia]. cbn [b2_assert bind]. rewrite Es. cbn [bind].
    assert (R : forall s', sx_count s' = 0%nat \/ simplex_ok s' -> exists s0, (if Nat.eqb (sx_count s') 0 then v <- vertex_at pa xa pb xb 0 0 #1 ;; Ok (Simplex v (sx_1 s') (sx_2 s') 1) else Ok s') = Ok s0 /\ simplex_ok s0).
    { intros s' [E|O].
      - rewrite E, Ez. cbn. eexists. split; [reflexivity|]. split; [cbn; lia|]. cbn. repeat (apply Forall_cons || apply Forall_nil); auto.
      - destruct (Nat.eqb_spec (sx_count s') 0) as [E|_]; [destruct O; lia|]. eauto. }
    destruct (Nat.ltb_spec 1 (sx_count s)).
    - destruct (metric_ok s ltac:(lia)) as (m & ->). cbn [bind].
      match goal with |- context [if ?b || ?b' || ?b'' then _ else _] => destruct (b || b' || b'') end; cbn [bind].
      + apply R. now left.
      + apply R. right. split; [lia|exact Fs].
    - cbn [bind]. apply R. destruct (Nat.eq_dec (sx_count s) 0); [now left|]. right. split; [lia|exact Fs].
  Qed.

  Lemma used_put (s : simplex T) c v : sx_count s = c -> (c <= 2)%nat -> exists s', put s c v = Ok s' /\ sx_count s' = c /\ used s' = used s /\ used (with_count s' (S c)) = used s ++ [v] /\ sx_count (with_count s' (S c)) = S c.
  Proof. destruct s as [v0 v1 v2 c']. cbn. intros <- H. destruct c' as [|[|[|c']]]; try lia; eexists; repeat split. Qed.

  Lemma direction_ok s : (1 <= sx_count s <= 2)%nat -> exists d, search_direction s = Ok d.
  Proof. intros C. unfold search_direction. destruct (sx_count s) as [|[|[|c]]]; try lia; eauto. destruct (_ >? _); eauto. Qed.

  (* how the loop ends: a simplex was solved, and there was a reason to stop *)
  Definition ended (s' : simplex T) : Prop :=
    exists s s1, simplex_ok s /\ solve_simplex s = Ok s1 /\ sx_count s' = sx_count s1 /\ used s' = used s1 /\
      (sx_count s1 = 3%nat \/
       exists d, search_direction s1 = Ok d /\
        ((vlen2 d <? B2_EPSILON * B2_EPSILON) = true \/
         exists ia ib, get_support pa (rotv_t (xq xa) (vneg d)) = Ok ia /\ get_support pb (rotv_t (xq xb) d) = Ok ib /\ In (ia, ib) (indices s))).

  Lemma gjk_ok n : dp_vertices pa <> [] -> dp_vertices pb <> [] -> forall iter s, simplex_ok s ->
    exists s' k, gjk pa xa pb xb n iter s = Ok (s', k) /\ (iter <= k <= iter + n)%nat /\ simplex_ok s' /\ (k = (iter + n)%nat \/ ended s').
  Proof.
    intros Na Nb. induction n as [|n IH]; intros iter s O.
    - cbn. exists s, iter. repeat split; try lia; auto; apply O.
    - cbn [gjk]. destruct (solve_ok s O) as (s1 & E1 & O1). rewrite E1. cbn [bind].
      destruct (Nat.eqb_spec (sx_count s1) 3) as [C3|C3].
      { exists s1, iter. refine (conj eq_refl (conj _ (conj O1 (or_intror _)))); [lia|].
        exists s, s1. refine (conj O (conj E1 (conj eq_refl (conj eq_refl (or_introl C3))))). }
      destruct O1 as [C1 F1].
      destruct (direction_ok s1 ltac:(lia)) as (d & Ed). rewrite Ed. cbn [bind].
      destruct (vlen2 d <? B2_EPSILON * B2_EPSILON) eqn:Tiny.
      { exists s1, iter. refine (conj eq_refl (conj _ (conj (conj C1 F1) (or_intror _)))); [lia|].
        exists s, s1. refine (conj O (conj E1 (conj eq_refl (conj eq_refl (or_intror _))))). exists d. auto. }
      destruct (support_ok pa (rotv_t (xq xa) (vneg d)) Na) as (ia & Ea & Ha). rewrite Ea. cbn [bind].
      destruct (support_ok pb (rotv_t (xq xb) d) Nb) as (ib & Eb & Hb). rewrite Eb. cbn [bind].
      destruct (get_in [sx_0 s1; sx_1 s1; sx_2 s1] (sx_count s1)) as (old & Eo & _); [cbn; lia|]. rewrite Eo. cbn [bind].
      destruct (vertex_at_ok ia ib (sv_a old) Ha Hb) as (v & Ev & Av & _). rewrite Ev. cbn [bind].
      destruct (used_put s1 (sx_count s1) v eq_refl ltac:(lia)) as (s2 & E2 & C2 & U2 & U3 & C4). rewrite E2. cbn [bind].
      destruct (existsb (same_pair (ia, ib)) (indices s)) eqn:Dup.
      + exists s2, (S iter). refine (conj eq_refl (conj _ (conj _ (or_intror _)))); [lia| |].
        * split; [lia|]. now rewrite U2.
        * exists s, s1. refine (conj O (conj E1 (conj C2 (conj U2 (or_intror _))))). exists d. split; [exact Ed|]. right. exists ia, ib. refine (conj Ea (conj Eb _)).
          apply existsb_exists in Dup. destruct Dup as ((ja & jb) & I & Q). unfold same_pair in Q. cbn in Q. apply andb_true_iff in Q. destruct Q as [Q1 Q2]. apply Nat.eqb_eq in Q1, Q2. now subst.
      + rewrite C2. destruct (IH (S iter) (with_count s2 (S (sx_count s1)))) as (s' & k & -> & K & O' & R).
        { split; [rewrite C4; lia|]. rewrite U3. apply Forall_app. split; [exact F1|]. repeat constructor. exact Av. }
        exists s', k. refine (conj eq_refl (conj _ (conj O' _))); [lia|]. destruct R as [-> |R]; [left; lia|now right].
  Qed.

  Lemma witness_ok (s : simplex T) : (1 <= sx_count s <= 3)%nat -> exists a b, witness_points s = Ok (a, b).
  Proof. intros C. unfold witness_points. destruct (sx_count s) as [|[|[|[|c]]]]; try lia; eauto. Qed.

  Lemma byte_le n : (byte n <= n)%nat.
  Proof. apply Nat.mod_le. lia. Qed.
  Lemma write_ok s c : simplex_ok s -> cache_fits c pa pb -> exists c', write_cache s c = Ok c' /\ cache_fits c' pa pb /\ sc_count c' = sx_count s.
  Proof.
    intros [C F] (_ & La & Lb & _). unfold write_cache. destruct (metric_ok s C) as (m & ->). cbn [bind].
    eexists. split; [reflexivity|]. split; [|reflexivity].
    unfold cache_fits, used in *. destruct s as [v0 v1 v2 n]. cbn [sc_count sc_a sc_b sx_count sx_0 sx_1 sx_2] in *.
    assert (B : forall v, at_index v -> (byte (sv_ia v) < length (dp_vertices pa))%nat /\ (byte (sv_ib v) < length (dp_vertices pb))%nat).
    { intros v A. apply at_index_bound in A. pose proof (byte_le (sv_ia v)). pose proof (byte_le (sv_ib v)). lia. }
    refine (conj _ (conj _ (conj _ _))); [lia| | |].
    - rewrite app_length, map_length, firstn_length, skipn_length. cbn. lia.
    - rewrite app_length, map_length, firstn_length, skipn_length. cbn. lia.
    - intros i Hi. destruct n as [|[|[|[|n]]]]; try lia; cbn in F |- *;
        repeat match goal with H : Forall _ (_ :: _) |- _ => inversion H; clear H; subst end;
        destruct i as [|[|[|i]]]; try lia; cbn; apply B; assumption.
  Qed.

  Lemma distance_ok c (radii : bool) : dp_vertices pa <> [] -> dp_vertices pb <> [] -> cache_fits c pa pb ->
    exists o c', distance_fn c (DInput pa pb xa xb radii) = Ok (o, c') /\ (do_iterations o <= 20)%nat /\ cache_fits c' pa pb /\
    exists s a b, simplex_ok s /\ witness_points s = Ok (a, b) /\ ((do_iterations o < 20)%nat -> ended s) /\ sc_count c' = sx_count s /\
      o = (let o := DOutput a b (b2_distance_vec2 a b) (do_iterations o) in if radii then apply_radii (dp_radius pa) (dp_radius pb) o else o).
  Proof.
    intros Na Nb F. unfold distance_fn. cbn [dn_a dn_b dn_xa dn_xb dn_radii].
    destruct (read_ok c Na Nb F) as (s0 & -> & O0). cbn [bind].
    destruct (gjk_ok 20 Na Nb 0 s0 O0) as (s & k & -> & K & O & R). cbn [bind].
    destruct (witness_ok s ltac:(apply O)) as (a & b & Ew). rewrite Ew. cbn [bind].
    destruct (write_ok s c O F) as (c' & -> & F' & Cc). cbn [bind].
    assert (I : do_iterations (if radii then apply_radii (dp_radius pa) (dp_radius pb) (DOutput a b (b2_distance_vec2 a b) k) else DOutput a b (b2_distance_vec2 a b) k) = k).
    { destruct radii; [|reflexivity]. unfold apply_radii. destruct (_ && _); reflexivity. }
    eexists. exists c'. split; [reflexivity|]. rewrite I. refine (conj _ (conj F' _)); [lia|].
    exists s, a, b. refine (conj O (conj Ew (conj _ (conj Cc _)))).
    - intros h. destruct R as [-> |R]; [lia|exact R].
    - reflexivity.
  Qed.
End Total.
