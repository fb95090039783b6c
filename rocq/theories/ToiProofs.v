(** Proofs about the time-of-impact search. *)
From Coq Require Import List ZArith Bool Arith Reals Lia Lra.
From Flocq Require Import Core.
From Verif Require Import Base Num NumLaws Math RTac ListFacts ShapeModel DynModel DistModel ToiModel ToiSpec GeomSpec DistSpec DistProofs GjkProofs GjkReal SolverPos.
Import ListNotations.

Section Any.
  Local Open Scope num_scope.
  Context {T : Type} {NT : Num T} {C F : Type}.
  Variables (distance : T -> C -> res (T * C)) (initialize : C -> T -> res F).
  Variables (find_min : F -> T -> res (Z * Z * T)) (evaluate : F -> Z -> Z -> T -> res T).

  (** ** it returns *)
  Section Returns.
    Variables (I : C -> Prop) (J : F -> Prop) (K : F -> Z -> Z -> Prop).
    Hypothesis dist_ok : forall t c, I c -> exists d c', distance t c = Ok (d, c') /\ I c' /\ ((d <=? #0) = false -> exists f, initialize c' t = Ok f /\ J f).
    Hypothesis min_ok : forall f t, J f -> exists ia ib s, find_min f t = Ok (ia, ib, s) /\ K f ia ib.
    Hypothesis eval_ok : forall f ia ib t, J f -> K f ia ib -> exists s, evaluate f ia ib t = Ok s.

    Lemma find_root_ok n f ia ib target tolerance : J f -> K f ia ib -> forall k a1 s1 a2 s2, exists r, find_root evaluate n k f ia ib target tolerance a1 s1 a2 s2 = Ok r.
    Proof.
      intros HJ HK. induction n as [|n IH]; intros k a1 s1 a2 s2; cbn; [eauto|].
      destruct (eval_ok f ia ib (root_time k target a1 s1 a2 s2) HJ HK) as (s & ->). cbn.
      destruct (nabs _ <? _); [eauto|]. destruct (s >? target); apply IH.
    Qed.
    Lemma push_back_ok n f t_max target tolerance t1 : J f -> forall t2, exists r, push_back find_min evaluate n f t_max target tolerance t1 t2 = Ok r.
    Proof.
      intros HJ. induction n as [|n IH]; intros t2; cbn [push_back]; [eauto|].
      destruct (min_ok f t2 HJ) as (ia & ib & s2 & -> & HK). cbn [bind].
      destruct (s2 >? target + tolerance); [eauto|]. destruct (s2 >? target - tolerance); [eauto|].
      destruct (eval_ok f ia ib t1 HJ HK) as (s1 & ->). cbn [bind].
      destruct (s1 <? target - tolerance); [eauto|]. destruct (s1 <=? target + tolerance); [eauto|].
      destruct (find_root_ok 50 f ia ib target tolerance HJ HK 0 t1 s1 t2 s2) as (r & ->). cbn [bind]. apply IH.
    Qed.
    Lemma toi_loop_ok n t_max target tolerance : forall c t1, I c -> exists r, toi_loop distance initialize find_min evaluate n c t_max target tolerance t1 = Ok r.
    Proof.
      induction n as [|n IH]; intros c t1 HI; cbn [toi_loop]; [eauto|].
      destruct (dist_ok t1 c HI) as (d & c' & -> & HI' & Hf). cbn [bind].
      destruct (d <=? #0); [eauto|]. destruct (d <? target + tolerance); [eauto|].
      destruct (Hf eq_refl) as (f & -> & HJ). cbn [bind].
      destruct (push_back_ok 8 f t_max target tolerance t1 HJ t_max) as ((r & t') & ->). cbn [bind].
      destruct r; [eauto|]. now apply IH.
    Qed.
  End Returns.
  Lemma toi_loop_returns n c t_max target tolerance t1 : all_return distance initialize find_min evaluate ->
    exists r, toi_loop distance initialize find_min evaluate n c t_max target tolerance t1 = Ok r.
  Proof.
    intros (Hd & Hi & Hm & He). apply (toi_loop_ok (fun _ => True) (fun _ => True) (fun _ _ _ => True)); auto.
    - intros t c0 _. destruct (Hd t c0) as ([d c'] & E). exists d, c'. refine (conj E (conj Logic.I _)). intros _. destruct (Hi c' t) as (f & Ef). eauto.
    - intros f t _. destruct (Hm f t) as ([[ia ib] s] & E). eauto.
  Qed.

  (** ** what the states mean *)
  Lemma push_back_state n f t_max target tolerance t1 : forall t2 o t', push_back find_min evaluate n f t_max target tolerance t1 t2 = Ok (Some o, t') ->
    match fst o with
    | TSeparated => snd o = t_max
    | TTouching => snd o = t1 /\ exists t2 ia ib s2 s, find_min f t2 = Ok (ia, ib, s2) /\ evaluate f ia ib t1 = Ok s /\ (s <? target - tolerance) = false /\ (s <=? target + tolerance) = true
    | TFailed => snd o = t1
    | TOverlapped => False
    end.
  Proof.
    induction n as [|n IH]; intros t2 o t'; cbn [push_back]; [discriminate|].
    destruct (find_min f t2) as [[[ia ib] s2]| |] eqn:Em; cbn [bind]; try discriminate.
    destruct (s2 >? target + tolerance); [intros [= <- <-]; reflexivity|]. destruct (s2 >? target - tolerance); [discriminate|].
    destruct (evaluate f ia ib t1) as [s1| |] eqn:Es; cbn [bind]; try discriminate.
    destruct (s1 <? target - tolerance) eqn:L; [intros [= <- <-]; reflexivity|]. destruct (s1 <=? target + tolerance) eqn:H.
    - intros [= <- <-]. cbn. split; [reflexivity|]. exists t2, ia, ib, s2, s1. auto.
    - destruct (find_root _ _ _ _ _ _ _ _ _ _ _ _) as [r| |]; cbn [bind]; try discriminate. apply IH.
  Qed.
  Lemma toi_touches n t_max target tolerance : forall c t1 t, toi_loop distance initialize find_min evaluate n c t_max target tolerance t1 = Ok (TTouching, t) ->
    touches distance initialize find_min evaluate target tolerance t.
  Proof.
    induction n as [|n IH]; intros c t1 t; cbn [toi_loop]; [discriminate|].
    destruct (distance t1 c) as [[d c']| |] eqn:Ed; cbn [bind]; try discriminate.
    destruct (d <=? #0) eqn:Dz; [discriminate|]. destruct (d <? target + tolerance) eqn:Dt.
    - intros [= <-]. exists c, d, c'. auto.
    - destruct (initialize c' t1) as [f| |] eqn:Ef; cbn [bind]; try discriminate.
      destruct (push_back find_min evaluate 8 f t_max target tolerance t1 t_max) as [[r t']| |] eqn:Ep; cbn [bind]; try discriminate.
      destruct r as [[st u]|].
      + intros [= -> ->]. apply push_back_state in Ep. cbn in Ep. destruct Ep as (-> & t2 & ia & ib & s2 & s & H).
        exists c, d, c'. refine (conj Ed (conj Dz (or_intror _))). exists f, t2, ia, ib, s2, s. exact (conj Ef H).
      + apply IH.
  Qed.
  Lemma toi_overlapped n t_max target tolerance : forall c t1 t, toi_loop distance initialize find_min evaluate n c t_max target tolerance t1 = Ok (TOverlapped, t) ->
    t = #0 /\ exists t' c d c', distance t' c = Ok (d, c') /\ (d <=? #0) = true.
  Proof.
    induction n as [|n IH]; intros c t1 t; cbn [toi_loop]; [discriminate|].
    destruct (distance t1 c) as [[d c']| |] eqn:Ed; cbn [bind]; try discriminate.
    destruct (d <=? #0) eqn:Dz; [intros [= <-]; split; [reflexivity|]; exists t1, c, d, c'; auto|]. destruct (d <? target + tolerance); [discriminate|].
    destruct (initialize c' t1) as [f| |]; cbn [bind]; try discriminate.
    destruct (push_back find_min evaluate 8 f t_max target tolerance t1 t_max) as [[r t']| |] eqn:Ep; cbn [bind]; try discriminate.
    destruct r as [[st u]|]; [|apply IH]. intros [= -> ->]. apply push_back_state in Ep. contradiction.
  Qed.
End Any.

(** ** the range of times, in exact real arithmetic *)
Section Range.
  Local Open Scope R_scope.
  Context {C F : Type}.
  Variables (distance : R -> C -> res (R * C)) (initialize : C -> R -> res F).
  Variables (find_min : F -> R -> res (Z * Z * R)) (evaluate : F -> Z -> Z -> R -> res R).

  Lemma root_time_R k target a1 s1 a2 s2 : a1 <= a2 -> target < s1 -> s2 <= target -> a1 <= root_time k target a1 s1 a2 s2 <= a2.
  Proof.
    intros A S1 S2. unfold root_time. destruct (Nat.odd k); unfold nlit; rops; [|lra].
    set (q := (target - s1) / (s2 - s1)).
    assert (Q : (target - s1) * (a2 - a1) / (s2 - s1) = q * (a2 - a1)) by (unfold q; field; lra).
    assert (E : q = (s1 - target) * / (s1 - s2)) by (unfold q; field; lra).
    assert (P : 0 < / (s1 - s2)) by (apply Rinv_0_lt_compat; lra).
    assert (Q0 : 0 <= q) by (rewrite E; apply Rmult_le_pos; lra).
    assert (Q1 : q <= 1). { rewrite E. rewrite <- (Rinv_r (s1 - s2)) by lra. apply Rmult_le_compat_r; lra. }
    rewrite Q. assert (0 <= q * (a2 - a1)) by (apply Rmult_le_pos; lra).
    assert (q * (a2 - a1) <= 1 * (a2 - a1)) by (apply Rmult_le_compat_r; lra). lra.
  Qed.
  Lemma find_root_R n f ia ib target tolerance : forall k a1 s1 a2 s2 t, a1 <= a2 -> target < s1 -> s2 <= target ->
    find_root evaluate n k f ia ib target tolerance a1 s1 a2 s2 = Ok (Some t) -> a1 <= t <= a2 /\ exists s, evaluate f ia ib t = Ok s /\ Rabs (s - target) < tolerance.
  Proof.
    induction n as [|n IH]; intros k a1 s1 a2 s2 t A S1 S2; cbn [find_root]; [discriminate|].
    pose proof (root_time_R k target a1 s1 a2 s2 A S1 S2) as B. set (x := root_time k target a1 s1 a2 s2) in *.
    destruct (evaluate f ia ib x) as [s| |] eqn:Es; cbn [bind]; try discriminate. cbn [nlt nabs nsub R_Num].
    destruct (Rlt_bool_spec (Rabs (s - target)) tolerance) as [h|h].
    - intros [= <-]. split; [exact B|]. eauto.
    - destruct (Rlt_bool_spec target s) as [g|g]; intros E.
      + apply IH in E; [|lra..]. destruct E. split; [lra|assumption].
      + apply IH in E; [|lra..]. destruct E. split; [lra|assumption].
  Qed.
  Lemma push_back_R n f t_max target tolerance t1 : 0 <= tolerance -> 0 <= t1 -> forall t2 r t', t1 <= t2 -> t2 <= t_max ->
    push_back find_min evaluate n f t_max target tolerance t1 t2 = Ok (r, t') ->
    match r with Some o => 0 <= snd o <= t_max | None => t1 <= t' <= t_max end.
  Proof.
    intros Ht H1. induction n as [|n IH]; intros t2 r t' A B; cbn [push_back]; [intros [= <- <-]; lra|].
    destruct (find_min f t2) as [[[ia ib] s2]| |]; cbn [bind]; try discriminate. cbn [nlt nle nadd nsub R_Num].
    destruct (Rlt_bool_spec (target + tolerance) s2); [intros [= <- <-]; cbn; lra|].
    destruct (Rlt_bool_spec (target - tolerance) s2) as [|h2]; [intros [= <- <-]; lra|].
    destruct (evaluate f ia ib t1) as [s1| |]; cbn [bind]; try discriminate.
    destruct (Rlt_bool_spec s1 (target - tolerance)); [intros [= <- <-]; cbn; lra|].
    destruct (Rle_bool_spec s1 (target + tolerance)) as [|h1]; [intros [= <- <-]; cbn; lra|].
    destruct (find_root evaluate 50 0 f ia ib target tolerance t1 s1 t2 s2) as [[t|]| |] eqn:E; cbn [bind]; try discriminate.
    - apply find_root_R in E; [|lra..]. apply IH; lra.
    - apply IH; lra.
  Qed.
  Lemma toi_range n t_max target tolerance : 0 <= tolerance -> 0 <= t_max -> forall c t1 st t, 0 <= t1 <= t_max ->
    toi_loop distance initialize find_min evaluate n c t_max target tolerance t1 = Ok (st, t) -> 0 <= t <= t_max.
  Proof.
    intros Ht Hm. induction n as [|n IH]; intros c t1 st t A; cbn [toi_loop]; [intros [= <- <-]; exact A|].
    destruct (distance t1 c) as [[d c']| |]; cbn [bind]; try discriminate. cbn [nlt nle nadd nsub nofZ R_Num].
    destruct (Rle_bool d 0); [intros [= <- <-]; lra|]. destruct (Rlt_bool d (target + tolerance)); [intros [= <- <-]; exact A|].
    destruct (initialize c' t1) as [f| |]; cbn [bind]; try discriminate.
    destruct (push_back find_min evaluate 8 f t_max target tolerance t1 t_max) as [[r t']| |] eqn:E; cbn [bind]; try discriminate.
    apply push_back_R in E; [|lra..]. destruct r as [[st' u]|].
    - intros [= <- <-]. exact E.
    - apply IH. lra.
  Qed.

  (* a separated answer means separation at the end of the interval *)
  Hypothesis least : min_is_least find_min evaluate.
  Lemma push_back_separated n f t_max target tolerance t1 : 0 < tolerance -> t1 <= t_max -> forall t2 t t',
    t1 <= t2 -> (t2 = t_max \/ exists u ia ib s' s, find_min f u = Ok (ia, ib, s') /\ evaluate f ia ib t2 = Ok s /\ s < target + tolerance) ->
    push_back find_min evaluate n f t_max target tolerance t1 t2 = Ok (Some (TSeparated, t), t') -> exists ia ib s, find_min f t_max = Ok (ia, ib, s) /\ target + tolerance < s.
  Proof.
    intros Ht H1. induction n as [|n IH]; intros t2 t t' A B; cbn [push_back]; [discriminate|].
    destruct (find_min f t2) as [[[ia ib] s2]| |] eqn:Em; cbn [bind]; try discriminate. cbn [nlt nle nadd nsub R_Num].
    destruct (Rlt_bool_spec (target + tolerance) s2) as [h|h].
    { intros _. destruct B as [-> |(u & ia' & ib' & s' & s & Eu & Es & L)]; [exists ia, ib, s2; auto|].
      pose proof (least f t2 u ia' ib' s2 s' _ Eu Em s Es) as X. cbn in X. apply Rlt_bool_false' in X. lra. }
    destruct (Rlt_bool_spec (target - tolerance) s2) as [|h2]; [discriminate|].
    destruct (evaluate f ia ib t1) as [s1| |]; cbn [bind]; try discriminate.
    destruct (Rlt_bool_spec s1 (target - tolerance)); [discriminate|].
    destruct (Rle_bool_spec s1 (target + tolerance)) as [|h1]; [discriminate|].
    destruct (find_root evaluate 50 0 f ia ib target tolerance t1 s1 t2 s2) as [[x|]| |] eqn:E; cbn [bind]; try discriminate.
    - apply find_root_R in E; [|lra..]. destruct E as (R & s & Es & L). apply IH; [lra|]. right. exists t2, ia, ib, s2, s. refine (conj Em (conj Es _)). apply Rabs_def2 in L. lra.
    - apply IH; auto.
  Qed.
  Lemma toi_separates n t_max target tolerance : 0 < tolerance -> forall c t1 t, 0 <= t1 <= t_max ->
    toi_loop distance initialize find_min evaluate n c t_max target tolerance t1 = Ok (TSeparated, t) -> t = t_max /\ separates initialize find_min target tolerance t_max.
  Proof.
    intros Ht. induction n as [|n IH]; intros c t1 t A; cbn [toi_loop]; [discriminate|].
    destruct (distance t1 c) as [[d c']| |]; cbn [bind]; try discriminate. cbn [nlt nle nadd nsub nofZ R_Num].
    destruct (Rle_bool d 0); [discriminate|]. destruct (Rlt_bool d (target + tolerance)); [discriminate|].
    destruct (initialize c' t1) as [f| |] eqn:Ef; cbn [bind]; try discriminate.
    destruct (push_back find_min evaluate 8 f t_max target tolerance t1 t_max) as [[r t']| |] eqn:E; cbn [bind]; try discriminate.
    destruct r as [[st' u]|].
    - intros [= -> ->]. pose proof (push_back_state find_min evaluate 8 f t_max target tolerance t1 t_max _ _ E) as S. cbn in S. subst t. split; [reflexivity|].
      apply push_back_separated in E; [|lra|lra|lra|now left]. destruct E as (ia & ib & s & Em & L).
      exists c', t1, f, ia, ib, s. refine (conj Ef (conj Em _)). cbn. apply Rlt_bool_true. exact L.
    - apply push_back_R in E; [|lra..]. apply IH. lra.
  Qed.
End Range.

(** ** the functions of the code, in exact real arithmetic *)
Section Concrete.
  Local Open Scope R_scope.
  Context {TT : NumTrig R}.
  Variables (pa pb : dproxy R) (swa swb : sweep R).
  Hypothesis (Na : nonempty pa) (Nb : nonempty pb).

  Definition in_range (p : dproxy R) (i : Z) : Prop := (0 <= i)%Z /\ (Z.to_nat i < length (dp_vertices p))%nat.
  Definition witness_ok (f : sep_fun R) (ia ib : Z) : Prop :=
    match sf_kind f with
    | SepPoints => in_range pa ia /\ in_range pb ib
    | SepFaceA => in_range pb ib
    | SepFaceB => in_range pa ia
    end.
  Lemma vertex_z_ok p i : in_range p i -> exists v, vertex_z p i = Ok v /\ In v (dp_vertices p).
  Proof.
    intros [A B]. unfold vertex_z. destruct (Z.ltb_spec i 0); [lia|]. destruct (get_in _ _ B) as (v & E & I). exists v. split; [exact E|]. eapply nth_error_In; eauto.
  Qed.
  Lemma of_nat_range p i : (i < length (dp_vertices p))%nat -> in_range p (Z.of_nat i).
  Proof. intros H. split; [lia|]. now rewrite Nat2Z.id. Qed.

  Lemma sep_init_ok c t1 : cache_fits c pa pb -> (1 <= sc_count c <= 2)%nat -> exists f, sep_init pa pb swa swb c t1 = Ok f.
  Proof.
    intros (_ & La & Lb & H) C. unfold sep_init.
    destruct (Nat.ltb_spec 0 (sc_count c)); [|lia]. destruct (Nat.ltb_spec (sc_count c) 3); [|lia]. cbn [andb b2_assert bind].
    assert (G : forall i, (i < sc_count c)%nat -> exists ia ib va vb, get (sc_a c) i = Ok ia /\ get (sc_b c) i = Ok ib /\ get_vertex pa ia = Ok va /\ get_vertex pb ib = Ok vb).
    { intros i Hi. destruct (H i Hi) as [Ha Hb].
      destruct (get_in (sc_a c) i ltac:(lia)) as (ia & Ga & Ia). destruct (get_in (sc_b c) i ltac:(lia)) as (ib & Gb & Ib).
      rewrite (nth_error_nth _ _ 0%nat Ia) in Ha. rewrite (nth_error_nth _ _ 0%nat Ib) in Hb. unfold get_vertex.
      destruct (get_in _ _ Ha) as (va & Va & _). destruct (get_in _ _ Hb) as (vb & Vb & _). exists ia, ib, va, vb. auto. }
    destruct (G 0%nat ltac:(lia)) as (a0 & b0 & va0 & vb0 & -> & -> & A0 & B0). cbn [bind].
    destruct (Nat.eqb_spec (sc_count c) 1) as [E|E]; [rewrite A0, B0; cbn; eauto|].
    destruct (G 1%nat ltac:(lia)) as (a1 & b1 & va1 & vb1 & -> & -> & A1 & B1). cbn [bind].
    destruct (Nat.eqb a0 a1); rewrite A0, B0, ?A1, ?B1; cbn; eauto.
  Qed.
  Lemma sep_find_ok f t : exists ia ib s, sep_find_min pa pb swa swb f t = Ok (ia, ib, s) /\ witness_ok f ia ib.
  Proof.
    unfold sep_find_min, witness_ok. destruct (sf_kind f).
    - destruct (support_ok pa (rotv_t (xq (sweep_get_transform swa t)) (sf_axis f)) Na) as (ia & -> & Ha). cbn [bind].
      destruct (support_ok pb (rotv_t (xq (sweep_get_transform swb t)) (vneg (sf_axis f))) Nb) as (ib & -> & Hb). cbn [bind].
      unfold get_vertex. destruct (get_in _ _ Ha) as (va & -> & _). destruct (get_in _ _ Hb) as (vb & -> & _). cbn [bind].
      do 3 eexists. split; [reflexivity|]. split; now apply of_nat_range.
    - destruct (support_ok pb (rotv_t (xq (sweep_get_transform swb t)) (vneg (rotv (xq (sweep_get_transform swa t)) (sf_axis f)))) Nb) as (ib & -> & Hb). cbn [bind].
      unfold get_vertex. destruct (get_in _ _ Hb) as (vb & -> & _). cbn [bind]. do 3 eexists. split; [reflexivity|]. now apply of_nat_range.
    - destruct (support_ok pa (rotv_t (xq (sweep_get_transform swa t)) (vneg (rotv (xq (sweep_get_transform swb t)) (sf_axis f)))) Na) as (ia & -> & Ha). cbn [bind].
      unfold get_vertex. destruct (get_in _ _ Ha) as (va & -> & _). cbn [bind]. do 3 eexists. split; [reflexivity|]. now apply of_nat_range.
  Qed.
  Lemma sep_eval_ok f ia ib t : witness_ok f ia ib -> exists s, sep_evaluate pa pb swa swb f ia ib t = Ok s.
  Proof.
    unfold witness_ok, sep_evaluate. destruct (sf_kind f).
    - intros [A B]. destruct (vertex_z_ok pa ia A) as (va & -> & _). destruct (vertex_z_ok pb ib B) as (vb & -> & _). cbn. eauto.
    - intros B. destruct (vertex_z_ok pb ib B) as (vb & -> & _). cbn. eauto.
    - intros A. destruct (vertex_z_ok pa ia A) as (va & -> & _). cbn. eauto.
  Qed.
  Lemma toi_distance_ok t c : cache_fits c pa pb -> exists d c', toi_distance pa pb swa swb t c = Ok (d, c') /\ cache_fits c' pa pb /\
    ((d <=? nofZ 0)%num = false -> exists f, sep_init pa pb swa swb c' t = Ok f /\ True).
  Proof.
    intros F. unfold toi_distance. set (xa := sweep_get_transform swa t). set (xb := sweep_get_transform swb t).
    destruct (distance_ok pa xa pb xb c false Na Nb F) as (o & c' & E & _ & F' & _). rewrite E. cbn [bind].
    exists (do_distance o), c'. refine (conj eq_refl (conj F' _)). cbn. intros L. apply Rle_bool_false' in L.
    destruct (distance_three pa pb xa xb c o c' Na Nb F E) as (C & _ & Z).
    destruct (sep_init_ok c' t F') as (f & Ef); [|eauto]. assert (sc_count c' <> 3%nat) by (intros e; apply Z in e; lra). lia.
  Qed.
  Lemma sep_least : min_is_least (sep_find_min pa pb swa swb) (sep_evaluate pa pb swa swb).
  Proof.
    intros f t t' ia ib s s' [ja jb] Em Et r Er. cbn [nlt R_Num]. apply Rlt_bool_false'.
    destruct (sep_find_ok f t') as (ka & kb & q & Em' & K). rewrite Em in Em'. injection Em' as <- <- <-. clear Em.
    unfold sep_evaluate, sep_find_min, witness_ok in *. set (xa := sweep_get_transform swa t) in *. set (xb := sweep_get_transform swb t) in *. clearbody xa xb. destruct (sf_kind f).
    - destruct (get_support pa _) as [ga| |] eqn:Ga; cbn [bind] in Et; try discriminate. destruct (get_support pb _) as [gb| |] eqn:Gb; cbn [bind] in Et; try discriminate.
      destruct (support_max pa _ ga Ga) as (va & Va & Ma). destruct (support_max pb _ gb Gb) as (vb & Vb & Mb).
      unfold get_vertex, get in Et. rewrite Va, Vb in Et. cbn [bind] in Et. injection Et as _ _ <-.
      destruct K as [Ka Kb]. destruct (vertex_z_ok pa ia Ka) as (ua & Ua & Ia). destruct (vertex_z_ok pb ib Kb) as (ub & Ub & Ib). rewrite Ua, Ub in Er. cbn [bind] in Er. injection Er as <-.
      specialize (Ma ua Ia). specialize (Mb ub Ib). rewrite !dot_rot in Ma, Mb. revert Ma Mb. rmathc. intros. lra.
    - destruct (get_support pb _) as [gb| |] eqn:Gb; cbn [bind] in Et; try discriminate.
      destruct (support_max pb _ gb Gb) as (vb & Vb & Mb).
      unfold get_vertex, get in Et. rewrite Vb in Et. cbn [bind] in Et. injection Et as _ _ <-.
      destruct (vertex_z_ok pb ib K) as (ub & Ub & Ib). rewrite Ub in Er. cbn [bind] in Er. injection Er as <-.
      specialize (Mb ub Ib). rewrite !dot_rot in Mb. revert Mb. rmathc. intros. lra.
    - destruct (get_support pa _) as [ga| |] eqn:Ga; cbn [bind] in Et; try discriminate.
      destruct (support_max pa _ ga Ga) as (va & Va & Ma).
      unfold get_vertex, get in Et. rewrite Va in Et. cbn [bind] in Et. injection Et as _ _ <-.
      destruct (vertex_z_ok pa ia K) as (ua & Ua & Ia). rewrite Ua in Er. cbn [bind] in Er. injection Er as <-.
      specialize (Ma ua Ia). rewrite !dot_rot in Ma. revert Ma. rmathc. intros. lra.
  Qed.
End Concrete.

Lemma tolerance_R : (0 < (toi_tolerance : R))%R.
Proof. unfold toi_tolerance, nlit. pose proof slop_pos. rops. lra. Qed.
Lemma target_R (pa pb : dproxy R) : (toi_tolerance < toi_target pa pb)%R.
Proof. unfold toi_target, toi_tolerance, nlit. rewrite b2_max_R. rops. pose proof slop_pos. pose proof (Rmax_l B2_LINEAR_SLOP (dp_radius pa + dp_radius pb - 3 * B2_LINEAR_SLOP)). lra. Qed.
Lemma cache_zero_fits {T} {NT : Num T} (pa pb : dproxy T) : cache_fits cache_zero pa pb.
Proof. refine (conj _ (conj eq_refl (conj eq_refl _))); cbn; [lia|]. intros. lia. Qed.

Lemma toi_returns {TT : NumTrig R} (pa pb : dproxy R) swa swb t_max : nonempty pa -> nonempty pb -> (0 <= t_max)%R ->
  exists st t, time_of_impact pa pb swa swb t_max = Ok (st, t) /\ (0 <= t <= t_max)%R.
Proof.
  intros Na Nb Hm. unfold time_of_impact. cbn [nlt R_Num]. rewrite (Rlt_bool_true _ _ (target_R pa pb)). cbn [b2_assert bind].
  set (wa := sweep_normalize swa). set (wb := sweep_normalize swb).
  destruct (toi_loop_ok (toi_distance pa pb wa wb) (sep_init pa pb wa wb) (sep_find_min pa pb wa wb) (sep_evaluate pa pb wa wb)
    (fun c => cache_fits c pa pb) (fun _ => True) (witness_ok pa pb)) with (n := 20%nat) (t_max := t_max) (target := toi_target pa pb) (tolerance := toi_tolerance) (c := cache_zero) (t1 := nofZ 0 : R) as ([st t] & E).
  - intros t c F. now apply toi_distance_ok.
  - intros f t _. now apply sep_find_ok.
  - intros f ia ib t _ K. now apply sep_eval_ok.
  - apply cache_zero_fits.
  - exists st, t. split; [exact E|]. apply (toi_range _ _ _ _ _ _ _ _ (Rlt_le _ _ tolerance_R) Hm _ _ _ _ (conj (Rle_refl _) Hm) E).
Qed.
