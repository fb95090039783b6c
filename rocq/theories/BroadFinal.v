(** How often each pair is reported; statements in the vocabulary of the specification; examples. *)
From Coq Require Import List ZArith Lia Bool Arith Permutation.
From Verif Require Import Base ListFacts Num NumLaws Math Collision TreeModel TreeSpec TreeRep TreeInv TreeOps TreeHist TreeQuery TreeFinal TreeExamples ManifoldProofs BroadModel BroadSpec BroadProofs.
Import ListNotations.

Definition cnt (j : nat) (L : list nat) : nat := length (filter (Nat.eqb j) L).
Lemma cnt_in j L : NoDup L -> cnt j L = if existsb (Nat.eqb j) L then 1 else 0.
Proof.
  induction L as [|x L IH]; intros H; [reflexivity|]. inversion H; subst. unfold cnt in *. cbn [filter existsb].
  destruct (Nat.eqb_spec j x) as [->|]; cbn [orb]; auto. cbn [length]. rewrite IH by auto.
  destruct (existsb (Nat.eqb x) L) eqn:E; auto. exfalso. apply existsb_exists in E. destruct E as (y & Hy & K). apply Nat.eqb_eq in K. now subst.
Qed.
Lemma in_exists j L : In j L <-> existsb (Nat.eqb j) L = true.
Proof.
  rewrite existsb_exists. split; [intros H; exists j; split; auto; apply Nat.eqb_refl|]. intros (x & Hx & E). apply Nat.eqb_eq in E. now subst.
Qed.

Lemma times_app P Q i j : times (P ++ Q) i j = times P i j + times Q i j.
Proof. unfold times. now rewrite filter_app, app_length. Qed.
Lemma times_in P i j : 0 < times P i j <-> In (i, j) P.
Proof.
  unfold times. split.
  - intros H. destruct (filter _ P) as [|p r] eqn:E; [cbn in H; lia|].
    assert (K : In p (filter (fun p => Nat.eqb (fst p) i && Nat.eqb (snd p) j) P)) by (rewrite E; cbn; auto). apply filter_In in K. destruct K as [K1 K2].
    apply andb_true_iff in K2. rewrite !Nat.eqb_eq in K2. destruct p as [a b]. cbn in K2. destruct K2. now subst.
  - intros H. assert (K : In (i, j) (filter (fun p => Nat.eqb (fst p) i && Nat.eqb (snd p) j) P)) by (apply filter_In; split; auto; cbn; now rewrite !Nat.eqb_refl).
    destruct (filter _ P); [destruct K|cbn; lia].
Qed.
Lemma times_nodup P : (forall i j, times P i j <= 1) -> NoDup P.
Proof.
  induction P as [|[a b] P IH]; intros H; constructor.
  - intros K. apply times_in in K. specialize (H a b). change ((a, b) :: P) with ([(a, b)] ++ P) in H. rewrite times_app in H.
    unfold times at 1 in H. cbn in H. rewrite !Nat.eqb_refl in H. cbn in H. lia.
  - apply IH. intros i j. specialize (H i j). change ((a, b) :: P) with ([(a, b)] ++ P) in H. rewrite times_app in H. lia.
Qed.

Lemma met_times mv q id i j : times (met mv q id) i j =
  if Nat.ltb i j then (if Nat.eqb q i && Nat.eqb j id && negb (mv j) then 1 else 0) + (if Nat.eqb q j && Nat.eqb i id then 1 else 0) else 0.
Proof.
  unfold met. destruct (Nat.ltb_spec i j).
  - destruct (Nat.eqb_spec id q) as [->|].
    + destruct (Nat.eqb_spec q i); destruct (Nat.eqb_spec j q); destruct (Nat.eqb_spec q j); destruct (Nat.eqb_spec i q); subst; try lia; reflexivity.
    + destruct (Nat.eqb_spec q i); [subst q|].
      * destruct (Nat.eqb_spec j id); [subst id|].
        -- destruct (Nat.ltb_spec i j); [|lia]. rewrite andb_true_r. cbn [andb].
           destruct (Nat.eqb_spec i j); [lia|]. cbn [andb]. destruct (mv j); cbn; auto. rewrite Nat.max_l, Nat.min_r, !Nat.eqb_refl by lia. reflexivity.
        -- cbn [andb]. destruct (Nat.eqb_spec i j); [lia|]. cbn [andb]. destruct (mv id && _); cbn; auto.
           destruct (Nat.eqb_spec (Nat.min id i) i); cbn; auto. destruct (Nat.eqb_spec (Nat.max id i) j); cbn; auto. lia.
      * cbn [andb]. destruct (Nat.eqb_spec q j); [subst q|].
        -- cbn [andb]. destruct (Nat.eqb_spec i id); [subst id|].
           ++ destruct (Nat.ltb_spec j i); [lia|]. rewrite andb_false_r. cbn. rewrite Nat.min_l, Nat.max_r, !Nat.eqb_refl by lia. reflexivity.
           ++ destruct (mv id && _); cbn; auto. destruct (Nat.eqb_spec (Nat.min id j) i); cbn; auto. lia.
        -- cbn [andb]. destruct (mv id && _); cbn; auto. destruct (Nat.eqb_spec (Nat.min id q) i); cbn; auto. destruct (Nat.eqb_spec (Nat.max id q) j); cbn; auto. lia.
  - destruct (Nat.eqb_spec id q); auto. destruct (mv id && _); auto. unfold times. cbn.
    destruct (Nat.eqb_spec (Nat.min id q) i); cbn; auto. destruct (Nat.eqb_spec (Nat.max id q) j); cbn; auto. lia.
Qed.
Lemma meets_times mv q L i j : times (flat_map (met mv q) L) i j =
  if Nat.ltb i j then (if Nat.eqb q i && negb (mv j) then cnt j L else 0) + (if Nat.eqb q j then cnt i L else 0) else 0.
Proof.
  induction L as [|id L IH]; cbn [flat_map].
  - unfold cnt. cbn [filter length]. change (times [] i j) with 0. destruct (Nat.ltb i j); auto. destruct (_ && _); destruct (Nat.eqb q j); reflexivity.
  - rewrite times_app, met_times, IH. destruct (Nat.ltb i j); auto. unfold cnt. cbn [filter].
    destruct (Nat.eqb q i); destruct (Nat.eqb q j); destruct (mv j); destruct (Nat.eqb j id); destruct (Nat.eqb i id); cbn; lia.
Qed.
Lemma found_times mv vis ms i j : times (found mv vis ms) i j =
  if Nat.ltb i j then (if mv j then 0 else occ i ms * cnt j (vis i)) + occ j ms * cnt i (vis j) else 0.
Proof.
  induction ms as [|p ms IH].
  - change (times (found mv vis []) i j) with 0. destruct (Nat.ltb i j); auto. destruct (mv j); reflexivity.
  - unfold found in *. cbn [flat_map]. rewrite times_app, IH. change (p :: ms) with ([p] ++ ms). rewrite !occ_app.
    destruct p as [q|]; [|change (times [] i j) with 0; destruct (Nat.ltb i j); auto; destruct (mv j); reflexivity].
    rewrite meets_times. destruct (Nat.ltb i j); auto.
    assert (Eo : forall x, occ x [Some q] = if Nat.eqb q x then 1 else 0) by (intros x; unfold occ; cbn; destruct (Nat.eqb q x); reflexivity).
    rewrite !Eo. destruct (Nat.eqb_spec q i) as [E1|]; destruct (Nat.eqb_spec q j) as [E2|]; destruct (mv j); cbn [andb negb]; try subst i; try subst j; lia.
Qed.

Section Final.
  Context {T : Type} `{NT : Num T} {U : Type}.
  Notation broad := (broad T U).
  Notation pmap := (@pmap T U).

  Lemma feed_collect (m : pmap) P : forall l, feed collect m P l = Ok (l ++ map (fun p => (user_of m (fst p), user_of m (snd p))) P).
  Proof.
    unfold feed. induction P as [|p P IH]; intros l; cbn [fold_left map]; [now rewrite app_nil_r|].
    cbn [bind]. unfold collect at 2. rewrite IH, <- app_assoc. reflexivity.
  Qed.

  (* any numbers: the update returns, and only reports live pairs; a second update reports nothing *)
  Lemma update_any oks (b : broad) m w k : breach oks b m w k -> exists b' P,
    (forall S (cb : S -> option U -> option U -> res S) s, update_pairs b cb s =
       (s' <- fold_left (fun r p => x <- r ;; cb x (user_of m (fst p)) (user_of m (snd p))) P (Ok s) ;; Ok (b', s'))) /\
    (forall i j, In (i, j) P -> i < j /\ live m i /\ live m j /\ (0 < w i \/ 0 < w j)) /\
    exists b'', forall S (cb : S -> option U -> option U -> res S) s, update_pairs b' cb s = Ok (b'', s).
  Proof.
    intros B. apply breach_binv in B. destruct (update_run oks b m w k B) as (b' & H1 & H2).
    exists b', (found (moved_flag m) (vis b m) (moves_of b)). split; [exact H1|]. destruct B as (R & Hmo & Hocc & Hlive & Hmv & Hpr & Hk & Hcard). split.
    - intros i j Hin. assert (Hl : live m i /\ live m j).
      { eapply found_live; eauto. intros id Hi. apply Hlive. rewrite <- Hocc. now apply occ_in. }
      apply times_in in Hin. rewrite found_times, !Hocc in Hin. destruct (Nat.ltb_spec i j); [|lia]. split; [auto|]. split; [tauto|]. split; [tauto|].
      destruct (moved_flag m j); destruct (w i), (w j); lia.
    - destruct (update_run oks b' _ _ _ H2) as (b'' & H3 & _). exists b''. intros S cb s. rewrite H3.
      destruct H2 as (_ & _ & Hocc' & _ & _ & _). unfold feed.
      assert (E : found (moved_flag (unmoved m)) (vis b' (unmoved m)) (moves_of b') = []); [|rewrite E; reflexivity].
      unfold found. assert (E : forall p, In p (moves_of b') -> p = None).
      { intros [id|] Hi; auto. apply occ_in in Hi. rewrite Hocc' in Hi. unfold no_pending in Hi. lia. }
      revert E. generalize (moves_of b'). induction l as [|p l IH]; intros E; auto. cbn [flat_map]. rewrite (E p) by (cbn; auto). apply IH. intros; apply E. cbn; auto.
  Qed.
  Lemma count_any oks (b : broad) m w k : breach oks b m w k -> bp_proxies b = k /\
    exists ls, NoDup ls /\ (forall j, In j ls <-> live m j) /\ Z.of_nat (length ls) = k.
  Proof. intros B. apply breach_binv in B. destruct B as (_ & _ & _ & _ & _ & _ & H & K). split; auto. Qed.
  Lemma pending_live oks (b : broad) m w k : breach oks b m w k ->
    (forall id, 0 < w id -> live m id) /\ (forall id, moved_flag m id = true -> 0 < w id).
  Proof. intros B. apply breach_binv in B. destruct B as (_ & _ & _ & H & K & _). auto. Qed.
  Lemma calls_any oks (b : broad) m w k : breach oks b m w k ->
    (forall box u, exists b' id, bp_create b box u = Ok (b', id) /\ m id = None) /\
    (forall id, live m id -> exists b', bp_destroy b id = Ok b') /\
    (forall id box d, live m id -> exists b', bp_move b id box d = Ok b') /\
    (forall id, live m id -> exists b', bp_touch b id = Ok b').
  Proof.
    intros B. apply breach_binv in B. destruct B as (R & Hmo & _). pose proof (reach'_sim _ _ _ R) as S. repeat apply conj.
    - intros box u. destruct (sim_create _ _ box u S) as (t' & id & E & Hn). unfold bp_create. rewrite E. cbn [bind].
      match goal with |- context [buffer_move ?x id] => destruct (buffer_ok x id) as (b1 & -> & _); [exact Hmo|] end. cbn [bind]. eauto.
    - intros id Hl. unfold bp_destroy. destruct (unbuffer_ok b id Hmo) as (b1 & -> & _ & _ & K3 & _). cbn [bind bp_tree]. rewrite K3.
      destruct (sim_destroy _ _ id S Hl) as (t' & ->). cbn [bind]. eauto.
    - intros id box d Hl. unfold live in Hl. destruct (m id) as [[[fb u] f]|] eqn:E; [|congruence]. unfold bp_move.
      destruct (sim_move _ _ id box d fb u f S E) as (t' & ->). cbn [bind]. destruct (keep_box _ _ _); cbn [negb]; [eauto|].
      destruct (buffer_ok (with_tree b t') id) as (b1 & -> & _); [exact Hmo|]. eauto.
    - intros id Hl. unfold bp_touch. destruct (buffer_ok b id) as (b1 & -> & _); eauto.
  Qed.
End Final.

Section Exact.
  Context {T : Type} `{NT : Num T} {NO : NumOrd T} {U : Type}.
  Notation broad := (broad T U).
  Notation pmap := (@pmap T U).

  Lemma vis_exact (b : broad) (m : pmap) q fb u f : reach' vec_fin (bp_tree b) m -> all_boxes box_ok m -> m q = Some (fb, u, f) ->
    NoDup (vis b m q) /\ forall j, In j (vis b m q) <-> exists fj uj fj', m j = Some (fj, uj, fj') /\ ~ separated fj fb.
  Proof.
    intros R Hok Hm. split; [eapply vis_ok; eauto|]. unfold vis. rewrite Hm. destruct R as (m0 & R & P).
    destruct (c06 (bp_tree b) m0 fb R) as (L & _ & HL & ->).
    { intros id b0 u0 f0 K. rewrite P in K. eauto. }
    intros j. rewrite HL. split; intros (a & c & e & K & K2); exists a, c, e; [rewrite <- P|rewrite P]; auto.
  Qed.
  Lemma separated_sym (x y : aabb T) : separated x y <-> separated y x.
  Proof. unfold separated. tauto. Qed.

  (* how often the pair (i, j) is reported *)
  Lemma update_exact (b : broad) m w k : breach vec_fin b m w k -> all_boxes box_ok m -> exists P b',
    update_pairs b collect [] = Ok (b', map (fun p => (user_of m (fst p), user_of m (snd p))) P) /\
    (forall i j, In (i, j) P -> i < j /\ live m i /\ live m j) /\
    (forall i j fi ui mi fj uj mj, i < j -> m i = Some (fi, ui, mi) -> m j = Some (fj, uj, mj) ->
       (separated fi fj -> times P i j = 0) /\
       (~ separated fi fj -> times P i j = w j + if mj then 0 else w i)).
  Proof.
    intros B Hok. apply breach_binv in B. destruct (update_run vec_fin b m w k B) as (b' & H1 & H2).
    exists (found (moved_flag m) (vis b m) (moves_of b)), b'. split; [rewrite H1, feed_collect; reflexivity|]. destruct B as (R & Hmo & Hocc & Hlive & Hmv & Hpr & Hk & Hcard). split.
    - intros i j Hin. assert (Hl : live m i /\ live m j).
      { eapply found_live; eauto. intros id Hi. apply Hlive. rewrite <- Hocc. now apply occ_in. }
      apply times_in in Hin. rewrite found_times in Hin. destruct (Nat.ltb_spec i j); [|lia]. tauto.
    - intros i j fi ui mi fj uj mj Hij Hi Hj. rewrite found_times, !Hocc. destruct (Nat.ltb_spec i j); [|lia].
      destruct (vis_exact b m i fi ui mi R Hok Hi) as [Ni Vi]. destruct (vis_exact b m j fj uj mj R Hok Hj) as [Nj Vj].
      unfold moved_flag. rewrite Hj. rewrite (cnt_in _ _ Ni), (cnt_in _ _ Nj). split; intros Hs.
      + assert (E1 : existsb (Nat.eqb j) (vis b m i) = false).
        { apply not_true_is_false. rewrite <- in_exists, Vi. intros (a & c & e & K & K2). rewrite Hj in K. injection K as <- <- <-. apply K2. now apply separated_sym. }
        assert (E2 : existsb (Nat.eqb i) (vis b m j) = false).
        { apply not_true_is_false. rewrite <- in_exists, Vj. intros (a & c & e & K & K2). rewrite Hi in K. injection K as <- <- <-. tauto. }
        rewrite E1, E2. destruct mj; lia.
      + assert (E1 : existsb (Nat.eqb j) (vis b m i) = true).
        { rewrite <- in_exists, Vi. exists fj, uj, mj. split; auto. intros K. apply Hs. now apply separated_sym. }
        assert (E2 : existsb (Nat.eqb i) (vis b m j) = true).
        { rewrite <- in_exists, Vj. exists fi, ui, mi. split; auto. }
        rewrite E1, E2. destruct mj; lia.
  Qed.

  Lemma c13 (b : broad) m w k : breach vec_fin b m w k -> all_boxes box_ok m -> exists b' L,
    update_pairs b collect [] = Ok (b', L) /\
    forall p q fp up mp fq uq mq, m p = Some (fp, up, mp) -> m q = Some (fq, uq, mq) -> p <> q -> 0 < w p -> ~ separated fp fq ->
      In (if Nat.ltb p q then (up, uq) else (uq, up)) L.
  Proof.
    intros B Hok. destruct (update_exact b m w k B Hok) as (P & b' & E & H1 & H2). destruct (pending_live _ _ _ _ _ B) as [_ Hmv]. eexists b', _. split; [exact E|].
    intros p q fp up mp fq uq mq Hp Hq Hne Hw Hs. apply in_map_iff. destruct (Nat.ltb_spec p q).
    - exists (p, q). cbn [fst snd]. unfold user_of. rewrite Hp, Hq. split; auto. apply times_in.
      destruct (H2 p q _ _ _ _ _ _ H Hp Hq) as [_ ->]; auto. destruct mq; [|lia]. specialize (Hmv q). unfold moved_flag in Hmv. rewrite Hq in Hmv. specialize (Hmv eq_refl). lia.
    - assert (Hlt : q < p) by lia. exists (q, p). cbn [fst snd]. unfold user_of. rewrite Hp, Hq. split; auto. apply times_in.
      destruct (H2 q p _ _ _ _ _ _ Hlt Hq Hp) as [_ ->]; [lia|intros K; apply Hs; now apply separated_sym].
  Qed.
  Lemma c14 (b : broad) m w k : breach vec_fin b m w k -> all_boxes box_ok m -> exists b' L,
    update_pairs b collect [] = Ok (b', L) /\
    forall a c, In (a, c) L -> exists i j fi mi fj mj, i < j /\ m i = Some (fi, a, mi) /\ m j = Some (fj, c, mj) /\ ~ separated fi fj /\ (0 < w i \/ 0 < w j).
  Proof.
    intros B Hok. destruct (update_exact b m w k B Hok) as (P & b' & E & H1 & H2). eexists b', _. split; [exact E|].
    intros a c Hin. apply in_map_iff in Hin. destruct Hin as ([i j] & K & Hin). cbn [fst snd] in K. destruct (H1 i j Hin) as (Hlt & Hi & Hj).
    unfold live in Hi, Hj. unfold user_of in K. destruct (m i) as [[[fi ui] mi]|] eqn:Ei; [|congruence]. destruct (m j) as [[[fj uj] mj]|] eqn:Ej; [|congruence].
    injection K as <- <-. apply times_in in Hin. destruct (H2 i j _ _ _ _ _ _ Hlt Ei Ej) as [K1 K2].
    exists i, j, fi, mi, fj, mj. split; [auto|]. split; [auto|]. split; [auto|]. split.
    - intros K. rewrite K1 in Hin; auto. lia.
    - assert (D : separated fi fj \/ ~ separated fi fj).
      { unfold separated. repeat match goal with |- context [nlt ?a ?b] => destruct (nlt a b) end; intuition discriminate. }
      destruct D as [D|D]; [rewrite K1 in Hin by auto; lia|]. rewrite K2 in Hin by auto. destruct mj, (w i), (w j); lia.
  Qed.
  (* once per update if every pending proxy was created or re-inserted just once and was not touched *)
  Lemma c15 (b : broad) m w k : breach vec_fin b m w k -> all_boxes box_ok m ->
    (forall id, w id <= if moved_flag m id then 1 else 0) -> exists b' P,
    update_pairs b collect [] = Ok (b', map (fun p => (user_of m (fst p), user_of m (snd p))) P) /\ NoDup P /\
    forall i j, In (i, j) P -> i < j.
  Proof.
    intros B Hok Hw. destruct (update_exact b m w k B Hok) as (P & b' & E & H1 & H2). exists b', P. split; [exact E|]. split; [|intros i j Hij; now apply H1].
    apply times_nodup. intros i j. destruct (Nat.eq_dec (times P i j) 0) as [->|Hn]; [lia|].
    assert (Hin : In (i, j) P) by (apply times_in; lia). destruct (H1 i j Hin) as (Hlt & Hi & Hj). unfold live in Hi, Hj.
    destruct (m i) as [[[fi ui] mi]|] eqn:Ei; [|congruence]. destruct (m j) as [[[fj uj] mj]|] eqn:Ej; [|congruence].
    destruct (H2 i j _ _ _ _ _ _ Hlt Ei Ej) as [K1 K2].
    assert (D : separated fi fj \/ ~ separated fi fj).
    { unfold separated. repeat match goal with |- context [nlt ?a ?b] => destruct (nlt a b) end; intuition discriminate. }
    destruct D as [D|D]; [rewrite K1 by auto; lia|]. rewrite K2 by auto. pose proof (Hw i) as W1. pose proof (Hw j) as W2. unfold moved_flag in *. rewrite Ei in W1. rewrite Ej in W2. destruct mi, mj; lia.
  Qed.
End Exact.

(** ** running histories *)
Section Run.
  Context {T : Type} `{NT : Num T} {U : Type}.
  Lemma bexec1_breach oks (c : bcmd (T:=T) (U:=U)) b m w k b' m' w' k' : bshifts_ok oks c -> breach oks b m w k ->
    bexec1 c (b, m, w, k) = Some (b', m', w', k') -> breach oks b' m' w' k'.
  Proof.
    intros Hs B. destruct c; cbn [bexec1 bshifts_ok] in *.
    - destruct (bp_create b box u) as [[b1 id]| |] eqn:E; try discriminate. intros K; injection K as <- <- <- <-. eapply breach_create; eauto.
    - destruct (m id) eqn:Em; try discriminate. destruct (bp_destroy b id) eqn:E; try discriminate. intros K; injection K as <- <- <- <-. eapply breach_destroy; eauto.
    - destruct (m id) as [[[fb u] f]|] eqn:Em; try discriminate. destruct (bp_move b id box d) as [b1| |] eqn:E; try discriminate.
      destruct (keep_box fb box (predict box d)) eqn:Ek; intros K; injection K as <- <- <- <-; [eapply breach_move_kept; eauto|eapply breach_move; eauto].
    - destruct (m id) eqn:Em; try discriminate. destruct (bp_touch b id) eqn:E; try discriminate. intros K; injection K as <- <- <- <-. eapply breach_touch; eauto.
    - intros K; injection K as <- <- <- <-. now constructor.
    - destruct (bp_rebuild b) eqn:E; try discriminate. intros K; injection K as <- <- <- <-. eapply breach_rebuild; eauto.
    - destruct (update_pairs b collect []) as [[b1 l]| |] eqn:E; try discriminate. intros K; injection K as <- <- <- <-. eapply breach_update; eauto.
  Qed.
  Lemma bexec_breach oks (cs : list (bcmd (T:=T) (U:=U))) : forall b m w k b' m' w' k', Forall (bshifts_ok oks) cs -> breach oks b m w k ->
    bexec cs (b, m, w, k) = Some (b', m', w', k') -> breach oks b' m' w' k'.
  Proof.
    induction cs as [|c cs IH]; intros b m w k b' m' w' k' Hf B; cbn [bexec].
    - intros K; injection K as <- <- <- <-. auto.
    - inversion Hf; subst. destruct (bexec1 c (b, m, w, k)) as [[[[b1 m1] w1] k1]|] eqn:E; try discriminate. intros K.
      eapply (IH b1 m1 w1 k1); eauto. eapply bexec1_breach; eauto.
  Qed.
End Run.
