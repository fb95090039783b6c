(** The broad phase reports exactly the right pairs, and how often. *)
From Coq Require Import List ZArith Lia Bool Arith Permutation.
From Verif Require Import Base ListFacts Num NumLaws Math Collision TreeModel TreeSpec TreeRep TreeInv TreeOps TreeHist TreeQuery TreeFinal ManifoldProofs BroadModel BroadSpec.
Import ListNotations.

Lemma firstn_upd {A} (l : list A) c x : c < length l -> firstn (c + 1) (upd l c x) = firstn c l ++ [x].
Proof. revert c. induction l as [|y l IH]; intros [|c] H; cbn in *; try lia; auto. f_equal. apply IH. lia. Qed.
Lemma firstn_upd_out {A} (l : list A) c i x : c <= i -> firstn c (upd l i x) = firstn c l.
Proof. revert c i. induction l as [|y l IH]; intros [|c] [|i] H; cbn; auto; try lia. f_equal. apply IH. lia. Qed.
Lemma resize_length {A} (l : list A) n d : length (resize l n d) = n.
Proof. unfold resize. rewrite app_length, repeat_length, firstn_length. lia. Qed.
Lemma resize_firstn {A} (l : list A) n d c : c <= n -> c <= length l -> firstn c (resize l n d) = firstn c l.
Proof.
  intros H1 H2. unfold resize. rewrite firstn_app, firstn_firstn, firstn_length. replace (c - Nat.min n (length l)) with 0 by lia.
  rewrite firstn_O, app_nil_r. f_equal. lia.
Qed.

(** ** the move buffer *)
Definition occ (id : nat) (ms : list (option nat)) : nat := length (filter (fun p => opt_eqb p (Some id)) ms).
Lemma opt_eqb_some p id : opt_eqb p (Some id) = true <-> p = Some id.
Proof. destruct p as [j|]; cbn; [rewrite Nat.eqb_eq; split; congruence|split; discriminate]. Qed.
Lemma occ_app id a b : occ id (a ++ b) = occ id a + occ id b.
Proof. unfold occ. now rewrite filter_app, app_length. Qed.
Lemma occ_in id ms : 0 < occ id ms <-> In (Some id) ms.
Proof.
  unfold occ. split.
  - intros H. destruct (filter _ ms) as [|p r] eqn:E; [cbn in H; lia|].
    assert (K : In p (filter (fun p => opt_eqb p (Some id)) ms)) by (rewrite E; cbn; auto). apply filter_In in K. destruct K as [K1 K2].
    apply opt_eqb_some in K2. now subst.
  - intros H. assert (K : In (Some id) (filter (fun p => opt_eqb p (Some id)) ms)) by (apply filter_In; split; auto; apply opt_eqb_some; auto).
    destruct (filter _ ms); [destruct K|cbn; lia].
Qed.

Section Broad.
  Context {T : Type} `{NT : Num T} {U : Type}.
  Notation tree := (tree T U).
  Notation broad := (broad T U).
  Notation pmap := (@pmap T U).

  Definition moves_of (b : broad) : list (option nat) := firstn (bp_move_count b) (bp_moves b).
  Definition moves_ok (b : broad) : Prop := length (bp_moves b) = bp_move_cap b /\ bp_move_count b <= bp_move_cap b /\ 1 <= bp_move_cap b.

  Lemma buffer_ok b id : moves_ok b -> exists b', buffer_move b id = Ok b' /\ moves_ok b' /\ moves_of b' = moves_of b ++ [Some id] /\
    bp_tree b' = bp_tree b /\ bp_proxies b' = bp_proxies b /\ bp_pairs b' = bp_pairs b.
  Proof.
    intros (A & B & C). unfold buffer_move. destruct (Nat.eqb_spec (bp_move_count b) (bp_move_cap b)) as [E|E].
    - rewrite set_ok by (rewrite resize_length; lia). cbn [bind]. eexists. split; [reflexivity|]. unfold moves_ok, moves_of. cbn.
      rewrite length_upd, resize_length. split; [lia|]. rewrite firstn_upd by (rewrite resize_length; lia). rewrite resize_firstn by lia. auto.
    - rewrite set_ok by lia. cbn [bind]. eexists. split; [reflexivity|]. unfold moves_ok, moves_of. cbn.
      rewrite length_upd. split; [lia|]. rewrite firstn_upd by lia. auto.
  Qed.

  Definition blank (id : nat) (p : option nat) : option nat := if opt_eqb p (Some id) then None else p.
  Lemma occ_blank id j ms : occ j (map (blank id) ms) = if Nat.eqb j id then 0 else occ j ms.
  Proof.
    induction ms as [|p ms IH]; [cbn; now destruct (Nat.eqb j id)|]. cbn [map]. change (p :: ms) with ([p] ++ ms).
    change (blank id p :: map (blank id) ms) with ([blank id p] ++ map (blank id) ms). rewrite !occ_app, IH. unfold blank.
    destruct p as [i|]; cbn [opt_eqb]; [|cbn; destruct (Nat.eqb j id); auto].
    destruct (Nat.eqb_spec i id) as [->|].
    - destruct (Nat.eqb_spec j id) as [->|]; [reflexivity|]. unfold occ. cbn. destruct (Nat.eqb_spec id j); [congruence|]. reflexivity.
    - destruct (Nat.eqb_spec j id) as [->|]; [|reflexivity]. unfold occ. cbn. destruct (Nat.eqb_spec i id); [congruence|]. reflexivity.
  Qed.
  Lemma unbuffer_ok b id : moves_ok b -> exists b', un_buffer_move b id = Ok b' /\ moves_ok b' /\ moves_of b' = map (blank id) (moves_of b) /\
    bp_tree b' = bp_tree b /\ bp_proxies b' = bp_proxies b /\ bp_pairs b' = bp_pairs b.
  Proof.
    intros (A & B & C). unfold un_buffer_move, for_range. rewrite Nat.sub_0_r.
    set (f := fun (i : nat) (buf : list (option nat)) => _).
    assert (H : forall n lo buf, lo + n <= length buf -> exists buf', for_from n lo f buf = Ok buf' /\ length buf' = length buf /\
       firstn lo buf' = firstn lo buf /\ firstn (lo + n) buf' = firstn lo buf ++ map (blank id) (firstn n (skipn lo buf))).
    { induction n as [|n IH]; intros lo buf H.
      - exists buf. cbn [for_from]. rewrite Nat.add_0_r. cbn [firstn map]. rewrite app_nil_r. auto.
      - cbn [for_from]. destruct (lt_nth buf lo) as [p Hp]; [lia|]. unfold f at 1. rewrite (get_ok _ _ _ Hp). cbn [bind].
        assert (E : (if opt_eqb p (Some id) then set buf lo None else Ok buf) = Ok (upd buf lo (blank id p))).
        { unfold blank. destruct (opt_eqb p (Some id)) eqn:E; [apply set_ok; lia|]. f_equal. symmetry.
          clear - Hp. revert lo Hp. induction buf as [|q buf IH]; intros [|lo] Hp; cbn in *; auto; try congruence. f_equal. now apply IH. }
        rewrite E. cbn [bind]. destruct (IH (S lo) (upd buf lo (blank id p))) as (buf' & E' & L & F1 & F2); [rewrite length_upd; lia|].
        exists buf'. split; [exact E'|]. rewrite length_upd in L. split; [exact L|].
        assert (S1 : firstn (S lo) (upd buf lo (blank id p)) = firstn lo buf ++ [blank id p]).
        { replace (S lo) with (lo + 1) by lia. apply firstn_upd. lia. }
        split.
        + replace lo with (Nat.min lo (S lo)) at 1 by lia. rewrite <- firstn_firstn, F1, S1, firstn_app, firstn_firstn, firstn_length.
          replace (lo - Nat.min lo (length buf)) with 0 by lia. rewrite firstn_O, app_nil_r. f_equal. lia.
        + replace (lo + S n) with (S lo + n) by lia. rewrite F2, S1, <- app_assoc. f_equal.
          assert (S2 : skipn lo buf = p :: skipn (S lo) buf).
          { clear - Hp. revert lo Hp. induction buf as [|q buf IH]; intros [|lo] Hp; cbn in *; try congruence. now rewrite (IH lo Hp). }
          rewrite S2. cbn [firstn map app]. f_equal. f_equal. f_equal.
          clear. revert lo. induction buf as [|q buf IH]; intros [|lo]; cbn; auto. apply IH. }
    destruct (H (bp_move_count b) 0 (bp_moves b)) as (buf & E & L & _ & F); [lia|]. rewrite E. cbn [bind].
    eexists. split; [reflexivity|]. unfold moves_ok, moves_of. cbn. split; [lia|]. cbn in F. auto.
  Qed.

  (** ** the pair buffer *)
  Definition pairs_of (ps : pairs) : list (nat * nat) := firstn (pr_count ps) (pr_buffer ps).
  Definition pairs_ok (ps : pairs) : Prop := length (pr_buffer ps) = pr_cap ps /\ pr_count ps <= pr_cap ps /\ 2 <= pr_cap ps.

  (* the pairs found when the query of [q] meets [id] *)
  Definition met (mv : nat -> bool) (q id : nat) : list (nat * nat) :=
    if Nat.eqb id q then [] else if mv id && Nat.ltb q id then [] else [(Nat.min id q, Nat.max id q)].

  Lemma callback_ok ps q id mv : pairs_ok ps -> exists ps', query_callback ps q id (mv id) = Ok ps' /\ pairs_ok ps' /\ pairs_of ps' = pairs_of ps ++ met mv q id.
  Proof.
    intros (A & B & C). unfold query_callback, met. destruct (Nat.eqb id q); [exists ps; rewrite app_nil_r; repeat split; auto|].
    destruct (mv id && Nat.ltb q id); [exists ps; rewrite app_nil_r; repeat split; auto|].
    assert (Hd : 1 <= Nat.div2 (pr_cap ps)).
    { destruct (pr_cap ps) as [|[|c]]; try lia. cbn. lia. }
    set (bc := if Nat.eqb (pr_count ps) (pr_cap ps) then _ else _).
    assert (Hbc : length (fst bc) = snd bc /\ pr_count ps < snd bc /\ 2 <= snd bc /\ firstn (pr_count ps) (fst bc) = pairs_of ps).
    { unfold bc. destruct (Nat.eqb_spec (pr_count ps) (pr_cap ps)) as [E|E]; cbn [fst snd].
      - rewrite resize_length. repeat split; try lia. rewrite resize_firstn by lia. reflexivity.
      - repeat split; auto; lia. }
    destruct bc as [buf cap]. cbn [fst snd] in Hbc. destruct Hbc as (B1 & B2 & B3 & B4).
    destruct (lt_nth buf (pr_count ps)) as [p Hp]; [lia|]. rewrite (get_ok _ _ _ Hp). cbn [bind]. rewrite set_ok by lia. cbn [bind].
    erewrite get_ok by (apply nth_upd_eq; lia). cbn [bind fst]. rewrite set_ok by (rewrite length_upd; lia). cbn [bind].
    eexists. split; [reflexivity|]. unfold pairs_ok, pairs_of. cbn. rewrite !length_upd. split; [lia|].
    rewrite firstn_upd by (rewrite length_upd; lia). rewrite firstn_upd_out by lia. now rewrite B4.
  Qed.

  Lemma closure_ok (t : tree) q mv L : (forall j, In j L -> was_moved t j = Ok (mv j)) -> forall ps, pairs_ok ps ->
    exists ps', run_until (pair_closure t q) (Ok ps) L = Ok ps' /\ pairs_ok ps' /\ pairs_of ps' = pairs_of ps ++ flat_map (met mv q) L.
  Proof.
    induction L as [|j L IH]; intros H ps Hp; cbn [run_until flat_map].
    - exists ps. rewrite app_nil_r. auto.
    - unfold pair_closure at 1. cbn [bind]. rewrite H by (cbn; auto). cbn [bind].
      destruct (callback_ok ps q j mv Hp) as (ps' & -> & H1 & H2). cbn [is_ok].
      destruct (IH (fun k Hk => H k (or_intror Hk)) ps' H1) as (ps'' & E & H3 & H4). exists ps''. rewrite E, H4, H2, app_assoc. auto.
  Qed.

  (** ** what an update finds *)
  (* [vis q]: the leaves met by the query of [q] *)
  Definition found (mv : nat -> bool) (vis : nat -> list nat) (ms : list (option nat)) : list (nat * nat) :=
    flat_map (fun m => match m with Some q => flat_map (met mv q) (vis q) | None => [] end) ms.

  Lemma firstn_in_nth {A} (l : list A) n i : i < n -> nth_error (firstn n l) i = nth_error l i.
  Proof. revert n i. induction l as [|x l IH]; intros [|n] [|i] H; cbn; auto; try lia. apply IH. lia. Qed.

  (* a loop over the first [c] elements of a list *)
  Lemma for_list {A S} (l : list A) c (g : A -> S -> res S) s : c <= length l ->
    for_range 0 c (fun i s => a <- get l i ;; g a s) s = fold_left (fun m a => x <- m ;; g a x) (firstn c l) (Ok s).
  Proof.
    intros Hc. unfold for_range. rewrite Nat.sub_0_r.
    assert (H : forall n lo s, lo + n <= length l -> for_from n lo (fun i s => a <- get l i ;; g a s) s = fold_left (fun m a => x <- m ;; g a x) (firstn n (skipn lo l)) (Ok s)).
    { induction n as [|n IH]; intros lo s0 H; [reflexivity|]. cbn [for_from]. destruct (lt_nth l lo) as [a Ha]; [lia|].
      rewrite (get_ok _ _ _ Ha). cbn [bind].
      assert (S2 : skipn lo l = a :: skipn (Datatypes.S lo) l).
      { clear - Ha. revert lo Ha. induction l as [|q buf IH]; intros [|lo] Hp; cbn in *; try congruence. now rewrite (IH lo Hp). }
      rewrite S2. cbn [firstn fold_left bind]. destruct (g a s0) as [s1| |]; cbn [bind].
      - apply IH. lia.
      - clear. generalize (firstn n (skipn (Datatypes.S lo) l)). induction l0; cbn; auto.
      - clear. generalize (firstn n (skipn (Datatypes.S lo) l)). induction l0; cbn; auto. }
    rewrite H by lia. reflexivity.
  Qed.
  Lemma fold_ok {A S} (g : A -> S -> res S) (P : S -> Prop) (D : S -> list A -> S -> Prop) l :
    (forall s, P s -> D s [] s) ->
    (forall a r s, In a l -> P s -> exists s', g a s = Ok s' /\ P s' /\ forall s'', D s' r s'' -> D s (a :: r) s'') ->
    forall s, P s -> exists s', fold_left (fun m a => x <- m ;; g a x) l (Ok s) = Ok s' /\ P s' /\ D s l s'.
  Proof.
    intros H0. induction l as [|a l IH]; intros H s Hs; cbn [fold_left].
    - exists s. auto.
    - cbn [bind]. destruct (H a l s (or_introl eq_refl) Hs) as (s1 & E & P1 & D1). rewrite E.
      destruct IH with (s := s1) as (s2 & E2 & P2 & D2); auto.
      { intros a' r s' Ha'. apply H. cbn; auto. }
      exists s2. auto.
  Qed.

  Context (oks : vec2 T -> Prop).
  Definition peq (m0 m : pmap) : Prop := forall j, m0 j = m j.
  Definition reach' (t : tree) (m : pmap) : Prop := exists m0, reach oks t m0 /\ peq m0 m.
  Lemma reach'_sim t m : reach' t m -> sim (Q:=fun _ _ _ => True) t m.
  Proof.
    intros (m0 & R & E). destruct (reach_any t m0) as (o & F & I & C); [|exists o, F; split; auto; intros j; now rewrite C].
    clear E. induction R; [now apply reach_new|eapply reach_create; eauto|eapply reach_destroy; eauto|eapply reach_move_kept; eauto
      |eapply reach_move; eauto|eapply reach_clear; eauto|now apply reach_shift|eapply reach_rebuild; eauto].
  Qed.
  Lemma peq_set (m0 m : pmap) id e : peq m0 m -> peq (pset m0 id e) (pset m id e).
  Proof. intros H j. unfold pset. now destruct (Nat.eqb j id). Qed.
  Lemma reach'_peq t m m' : peq m m' -> reach' t m -> reach' t m'.
  Proof. intros E (m0 & R & E0). exists m0. split; auto. intros j. now rewrite E0. Qed.

  Definition card (m : pmap) (k : Z) : Prop := exists ls, NoDup ls /\ (forall j, In j ls <-> live m j) /\ Z.of_nat (length ls) = k.
  Definition binv (b : broad) (m : pmap) (w : pending) (k : Z) : Prop :=
    reach' (bp_tree b) m /\ moves_ok b /\ (forall id, occ id (moves_of b) = w id) /\ (forall id, 0 < w id -> live m id) /\
    (forall id, moved_flag m id = true -> 0 < w id) /\ pairs_ok (bp_pairs b) /\ bp_proxies b = k /\ card m k.

  Lemma unmoved_live (m : pmap) j : live (unmoved m) j <-> live m j.
  Proof. unfold live, unmoved. destruct (m j) as [[[? ?] ?]|]; split; congruence. Qed.
  Lemma card_same (m m' : pmap) k : (forall j, live m j <-> live m' j) -> card m k -> card m' k.
  Proof. intros H (ls & A & B & C). exists ls. split; auto. split; auto. intros j. now rewrite B. Qed.

  (* clearing the flags *)
  Lemma clear_run ms : forall t m, reach' t m -> (forall id, In (Some id) ms -> live m id) ->
    exists t' m', fold_left (fun r a => x <- r ;; match a with Some id => clear_moved x id | None => Ok x end) ms (Ok t) = Ok t' /\ reach' t' m' /\
      forall j, m' j = if existsb (fun p => opt_eqb p (Some j)) ms then match m j with Some (b, u, _) => Some (b, u, false) | None => None end else m j.
  Proof.
    induction ms as [|p ms IH]; intros t m R H; cbn [fold_left].
    - exists t, m. auto.
    - cbn [bind]. destruct p as [id|].
      + assert (Hl : live m id) by (apply H; cbn; auto). destruct (sim_clear t m id (reach'_sim _ _ R) Hl) as (t1 & E). rewrite E.
        unfold live in Hl. destruct (m id) as [[[fb u] f]|] eqn:Em; [|congruence].
        assert (R1 : reach' t1 (pset m id (Some (fb, u, false)))).
        { destruct R as (m0 & R & P). exists (pset m0 id (Some (fb, u, false))). split; [|now apply peq_set].
          eapply reach_clear; eauto. rewrite P; eauto. }
        destruct (IH t1 _ R1) as (t' & m' & E' & R' & C').
        { intros j Hj. unfold live, pset. destruct (Nat.eqb_spec j id); [discriminate|]. apply H. cbn. auto. }
        exists t', m'. split; [exact E'|]. split; auto. intros j. rewrite C'. cbn [existsb opt_eqb]. unfold pset.
        destruct (Nat.eqb_spec j id) as [->|Hne].
        * rewrite Nat.eqb_refl, Em. cbn [orb]. now destruct (existsb _ ms).
        * destruct (Nat.eqb_spec id j); [congruence|]. reflexivity.
      + destruct (IH t m R) as (t' & m' & E' & R' & C').
        { intros j Hj. apply H. cbn. auto. }
        exists t', m'. split; [exact E'|]. split; auto.
  Qed.

  (* the leaves met by the query of [q] *)
  Definition vis (b : broad) (m : pmap) (q : nat) : list nat :=
    match m q with
    | Some (fb, _, _) => match query (bp_tree b) (fun l i => (l ++ [i], true)) [] fb with Ok L => L | _ => [] end
    | None => []
    end.
  Lemma vis_ok b m q fb u f : reach' (bp_tree b) m -> m q = Some (fb, u, f) ->
    (forall S (cb : S -> nat -> S * bool) s, query (bp_tree b) cb s fb = Ok (run_until cb s (vis b m q))) /\
    (forall j, In j (vis b m q) -> live m j) /\ NoDup (vis b m q).
  Proof.
    intros R Hm. unfold vis. rewrite Hm. destruct (reach'_sim _ _ R) as (o & F & I & C).
    rewrite (query_ok _ _ o F _ fb I), run_all. cbn [app]. split; [|split].
    - intros S cb s. exact (query_ok cb _ o F s fb I).
    - intros j Hj. apply (sim_live _ m o F I C). destruct o as [s|]; cbn [qleaves oleaves] in *; [|auto]. apply visits_sub in Hj. tauto.
    - destruct o as [s|]; [|constructor]. apply visits_nodup, leaves_nodup. pose proof (inv_nodup _ _ _ _ I) as Hnd. rewrite app_nil_r in Hnd. apply NoDup_app_iff' in Hnd. tauto.
  Qed.

  Lemma moved_get t m j : reach' t m -> live m j -> was_moved t j = Ok (moved_flag m j) /\ get_user_data t j = Ok (user_of m j).
  Proof.
    intros R Hl. unfold live in Hl. unfold moved_flag, user_of. destruct (m j) as [[[fb u] f]|] eqn:E; [|congruence].
    destruct (sim_get t m j fb u f (reach'_sim _ _ R) E) as (_ & -> & ->). auto.
  Qed.

  Definition feed {S} (cb : S -> option U -> option U -> res S) (m : pmap) (P : list (nat * nat)) (s : S) : res S :=
    fold_left (fun r p => x <- r ;; cb x (user_of m (fst p)) (user_of m (snd p))) P (Ok s).

  Lemma found_live b m mv ms : reach' (bp_tree b) m -> (forall id, In (Some id) ms -> live m id) ->
    forall i j, In (i, j) (found mv (vis b m) ms) -> live m i /\ live m j.
  Proof.
    intros R H i j Hin. unfold found in Hin. apply in_flat_map in Hin. destruct Hin as ([q|] & Hq & Hin); [|destruct Hin].
    apply in_flat_map in Hin. destruct Hin as (p & Hp & Hin). specialize (H q Hq). pose proof H as H0. unfold live in H0.
    destruct (m q) as [[[fb u] f]|] eqn:E; [|congruence]. destruct (vis_ok b m q fb u f R E) as (_ & Hv & _). apply Hv in Hp.
    unfold met in Hin. destruct (Nat.eqb p q); [destruct Hin|]. destruct (mv p && Nat.ltb q p); [destruct Hin|]. destruct Hin as [K|[]].
    injection K as <- <-. destruct (Nat.min_spec p q) as [[_ ->]|[_ ->]]; destruct (Nat.max_spec p q) as [[_ ->]|[_ ->]]; auto.
  Qed.

  Lemma fold_bind {A S} (g : S -> A -> res S) l : forall r, fold_left (fun m a => x <- m ;; g x a) l r = (x <- r ;; fold_left (fun m a => x <- m ;; g x a) l (Ok x)).
  Proof. induction l as [|a l IH]; intros [x| |]; cbn; auto; rewrite IH; reflexivity. Qed.

  Lemma fold_eq {A S} (g h : S -> A -> res S) l : (forall a, In a l -> forall x, g x a = h x a) -> forall r,
    fold_left (fun m a => x <- m ;; g x a) l r = fold_left (fun m a => x <- m ;; h x a) l r.
  Proof.
    induction l as [|a l IH]; intros H r; cbn [fold_left]; auto. rewrite IH by (intros; apply H; cbn; auto). f_equal.
    destruct r; cbn [bind]; auto. apply H. cbn. auto.
  Qed.

  Lemma update_run b m w k : binv b m w k -> exists b',
    (forall S (cb : S -> option U -> option U -> res S) s,
       update_pairs b cb s = (s' <- feed cb m (found (moved_flag m) (vis b m) (moves_of b)) s ;; Ok (b', s'))) /\
    binv b' (unmoved m) no_pending k.
  Proof.
    intros (R & Hmo & Hocc & Hlive & Hmv & Hpr & Hk & Hcard).
    assert (Hin : forall id, In (Some id) (moves_of b) -> live m id) by (intros id Hi; apply Hlive; rewrite <- Hocc; now apply occ_in).
    (* the queries *)
    assert (Q : exists ps, for_range 0 (bp_move_count b) (fun i ps => mo <- get (bp_moves b) i ;;
        match mo with None => Ok ps | Some q => fat <- get_fat_aabb (bp_tree b) q ;; query_pairs (bp_tree b) q fat ps end)
        (Pairs (pr_buffer (bp_pairs b)) (pr_cap (bp_pairs b)) 0) = Ok ps /\ pairs_ok ps /\ pairs_of ps = found (moved_flag m) (vis b m) (moves_of b)).
    { destruct Hmo as (M1 & M2 & M3). destruct Hpr as (P1 & P2 & P3).
      rewrite (for_list (bp_moves b) (bp_move_count b) (fun mo ps => match mo with None => Ok ps | Some q => fat <- get_fat_aabb (bp_tree b) q ;; query_pairs (bp_tree b) q fat ps end)) by lia.
      fold (moves_of b).
      destruct (fold_ok (fun (mo : option nat) ps => match mo with None => Ok ps | Some q => fat <- get_fat_aabb (bp_tree b) q ;; query_pairs (bp_tree b) q fat ps end)
        pairs_ok (fun s l s' => pairs_of s' = pairs_of s ++ found (moved_flag m) (vis b m) l) (moves_of b)) with (s := Pairs (pr_buffer (bp_pairs b)) (pr_cap (bp_pairs b)) 0) as (ps & E & H1 & H2).
      - intros s _. cbn. now rewrite app_nil_r.
      - intros a r s Ha Hs. destruct a as [q|].
        + specialize (Hin q Ha). pose proof Hin as Hq. unfold live in Hq. destruct (m q) as [[[fb u] f]|] eqn:E; [|congruence].
          destruct (sim_get _ m q fb u f (reach'_sim _ _ R) E) as (-> & _). cbn [bind]. unfold query_pairs.
          destruct (vis_ok b m q fb u f R E) as (V1 & V2 & V3). rewrite V1. cbn [bind].
          destruct (closure_ok (bp_tree b) q (moved_flag m) (vis b m q)) with (ps := s) as (ps' & E1 & E2 & E3); auto.
          { intros j Hj. apply moved_get; auto. }
          exists ps'. rewrite E1. split; auto. split; auto. intros s'' ->. rewrite E3, <- app_assoc. reflexivity.
        + exists s. split; auto.
      - repeat split; cbn; auto; lia.
      - exists ps. split; [exact E|]. split; auto. }
    destruct Q as (ps & Q1 & Q2 & Q3).
    (* the flags *)
    destruct (clear_run (moves_of b) (bp_tree b) m R Hin) as (t' & m' & C1 & C2 & C3).
    exists (Broad t' (bp_proxies b) (bp_moves b) (bp_move_cap b) 0 ps). split.
    - intros S cb s. unfold update_pairs. rewrite Q1. cbn [bind].
      assert (F : for_range 0 (pr_count ps) (fun i s => p <- get (pr_buffer ps) i ;; ua <- get_user_data (bp_tree b) (fst p) ;; ub <- get_user_data (bp_tree b) (snd p) ;; cb s ua ub) s =
                  feed cb m (found (moved_flag m) (vis b m) (moves_of b)) s).
      { destruct Q2 as (P1 & P2 & P3).
        rewrite (for_list (pr_buffer ps) (pr_count ps) (fun p s => ua <- get_user_data (bp_tree b) (fst p) ;; ub <- get_user_data (bp_tree b) (snd p) ;; cb s ua ub)) by lia.
        fold (pairs_of ps). rewrite Q3. unfold feed. apply (fold_eq (fun x p => ua <- get_user_data (bp_tree b) (fst p) ;; ub <- get_user_data (bp_tree b) (snd p) ;; cb x ua ub)).
        intros [i j] Hij x. destruct (found_live b m _ _ R Hin i j Hij) as [Hi Hj]. cbn [fst snd].
        destruct (moved_get _ m i R Hi) as [_ ->]. destruct (moved_get _ m j R Hj) as [_ ->]. reflexivity. }
      rewrite F. destruct (feed cb m _ s) as [s'| |]; cbn [bind]; auto.
      destruct Hmo as (M1 & M2 & M3).
      rewrite (for_list (bp_moves b) (bp_move_count b) (fun mo t => match mo with None => Ok t | Some id => clear_moved t id end)) by lia.
      fold (moves_of b).
      rewrite C1. reflexivity.
    - unfold binv. cbn [bp_tree bp_moves bp_move_cap bp_move_count bp_pairs bp_proxies]. split; [|split; [|split; [|split; [|split; [|split; [|split]]]]]]; auto.
      + eapply reach'_peq; [|exact C2]. intros j. rewrite C3. unfold unmoved.
        destruct (existsb _ (moves_of b)) eqn:E; auto. destruct (m j) as [[[fb u] f]|] eqn:Em; auto. destruct f; auto. exfalso.
        assert (K : 0 < w j) by (apply Hmv; unfold moved_flag; now rewrite Em). rewrite <- Hocc, occ_in in K.
        assert (existsb (fun p => opt_eqb p (Some j)) (moves_of b) = true); [|congruence]. apply existsb_exists. exists (Some j). split; auto. now apply opt_eqb_some.
      + destruct Hmo as (M1 & M2 & M3). repeat split; cbn; auto. lia.
      + intros id H. unfold no_pending in H. lia.
      + intros id. unfold moved_flag, unmoved. destruct (m id) as [[[? ?] ?]|]; discriminate.
      + eapply card_same; [|exact Hcard]. intros j. symmetry. apply unmoved_live.
  Qed.

  Lemma live_set (m : pmap) id e j : live (pset m id (Some e)) j <-> j = id \/ live m j.
  Proof. unfold live, pset. destruct (Nat.eqb_spec j id); split; try tauto; congruence. Qed.
  Lemma live_unset (m : pmap) id j : live (pset m id None) j <-> j <> id /\ live m j.
  Proof. unfold live, pset. destruct (Nat.eqb_spec j id); split; try tauto; congruence. Qed.

  Lemma breach_binv b m w k : breach oks b m w k -> binv b m w k.
  Proof.
    induction 1 as [b E|b m w k box u b' id B IH E|b m w k id e b' B IH Hm E|b m w k id fb u f box d b' B IH Hm Hk E|b m w k id fb u f box d b' B IH Hm Hk E
      |b m w k id e b' B IH Hm E|b m w k o B IH Ho|b m w k b' B IH E|b m w k S cb s b' s' B IH E].
    - unfold bp_new in E. destruct tree_new as [t| |] eqn:Et; try discriminate. cbn [bind] in E.
      unfold resize in E. cbn [firstn app length Nat.sub] in E. injection E as <-.
      unfold binv. cbn [bp_tree bp_moves bp_move_cap bp_move_count bp_pairs bp_proxies]. repeat split; cbn; auto; try lia; try (intros; discriminate).
      + exists pempty. split; [now apply reach_new|]. intros j; reflexivity.
      + intros id H. unfold no_pending in H. lia.
      + exists []. split; [constructor|]. split; auto. intros j. split; [intros []|]. intros H. now apply H.
    - destruct IH as (R & Hmo & Hocc & Hlive & Hmv & Hpr & Hc & Hcard). unfold bp_create in E.
      destruct (create_proxy (bp_tree b) box u) as [[t id']| |] eqn:Ec; try discriminate. cbn [bind] in E.
      destruct (sim_create _ m box u (reach'_sim _ _ R)) as (t1 & id1 & Ec1 & Hfresh). rewrite Ec in Ec1. injection Ec1 as <- <-.
      match type of E with context [buffer_move ?x _] => destruct (buffer_ok x id') as (b1 & E1 & K1 & K2 & K3 & K4 & K5); [exact Hmo|] end.
      rewrite E1 in E. cbn [bind] in E. injection E as <- <-. cbn [bp_tree bp_proxies bp_pairs] in *.
      unfold binv. rewrite K3, K4, K5. split; [|split; [|split; [|split; [|split; [|split; [|split]]]]]]; auto.
      + destruct R as (m0 & R & P). exists (pset m0 id' (Some (fatten box, Some u, true))). split; [eapply reach_create; eauto|now apply peq_set].
      + intros j. rewrite K2, occ_app. change (moves_of _) with (moves_of b). rewrite Hocc. unfold padd. unfold occ. cbn.
        rewrite Nat.eqb_sym. destruct (Nat.eqb_spec j id'); cbn; lia.
      + intros j. rewrite live_set. unfold padd. destruct (Nat.eqb_spec j id'); auto.
      + intros j. unfold padd, moved_flag, pset. destruct (Nat.eqb_spec j id'); [lia|]. apply Hmv.
      + lia.
      + destruct Hcard as (ls & L1 & L2 & L3). exists (id' :: ls). split; [|split].
        * constructor; auto. rewrite L2. unfold live. congruence.
        * intros j. rewrite live_set. cbn. rewrite L2. intuition.
        * cbn [length]. lia.
    - destruct IH as (R & Hmo & Hocc & Hlive & Hmv & Hpr & Hc & Hcard). unfold bp_destroy in E.
      destruct (unbuffer_ok b id Hmo) as (b1 & E1 & K1 & K2 & K3 & K4 & K5). rewrite E1 in E. cbn [bind bp_tree] in E.
      destruct (destroy_proxy (bp_tree b1) id) as [t1| |] eqn:Ed; try discriminate. cbn [bind] in E. injection E as <-.
      assert (Hl : live m id) by (unfold live; congruence). rewrite K3 in Ed.
      unfold binv, with_tree. cbn [bp_tree bp_moves bp_move_cap bp_move_count bp_pairs bp_proxies]. rewrite K4, K5. split; [|split; [|split; [|split; [|split; [|split; [|split]]]]]]; auto.
      + destruct R as (m0 & R & P). exists (pset m0 id None). split; [eapply reach_destroy; eauto; rewrite P; eauto|now apply peq_set].
      + intros j. change (moves_of _) with (moves_of b1). rewrite K2, occ_blank, Hocc. reflexivity.
      + intros j. rewrite live_unset. unfold pdrop. destruct (Nat.eqb_spec j id); [lia|]. auto.
      + intros j. unfold pdrop, moved_flag, pset. destruct (Nat.eqb_spec j id); [discriminate|]. apply Hmv.
      + lia.
      + destruct Hcard as (ls & L1 & L2 & L3). assert (Hin : In id ls) by (now apply L2). apply in_split in Hin. destruct Hin as (x & y & ->).
        exists (x ++ y). pose proof (NoDup_remove_1 _ _ _ L1) as N1. pose proof (NoDup_remove_2 _ _ _ L1) as N2. split; [auto|split].
        * intros j. rewrite live_unset, <- L2, !in_app_iff. rewrite in_app_iff in N2. cbn. split.
          -- intros Hj. split; [|tauto]. intros ->. tauto.
          -- intros [Hj [?|[?|?]]]; auto. congruence.
        * rewrite app_length in *. cbn [length] in L3. lia.
    - destruct IH as (R & Hmo & Hocc & Hlive & Hmv & Hpr & Hc & Hcard). unfold bp_move in E.
      destruct (sim_move _ m id box d fb u f (reach'_sim _ _ R) Hm) as (t1 & E1). rewrite E1, Hk in E. cbn [bind negb] in E. injection E as <-.
      unfold binv, with_tree. cbn [bp_tree bp_moves bp_move_cap bp_move_count bp_pairs bp_proxies]. split; [|split; [|split; [|split; [|split; [|split; [|split]]]]]]; auto.
      rewrite Hk in E1. destruct R as (m0 & R & P). exists m0. split; auto. eapply reach_move_kept; eauto. rewrite P; eauto.
    - destruct IH as (R & Hmo & Hocc & Hlive & Hmv & Hpr & Hc & Hcard). unfold bp_move in E.
      destruct (sim_move _ m id box d fb u f (reach'_sim _ _ R) Hm) as (t1 & E1). rewrite E1, Hk in E. cbn [bind negb] in E.
      rewrite Hk in E1. cbn [negb] in E1.
      destruct (buffer_ok (with_tree b t1) id) as (b1 & E2 & K1 & K2 & K3 & K4 & K5); [exact Hmo|]. rewrite E2 in E. injection E as <-.
      cbn [with_tree bp_tree bp_proxies bp_pairs] in *. unfold binv. rewrite K3, K4, K5. split; [|split; [|split; [|split; [|split; [|split; [|split]]]]]]; auto.
      + destruct R as (m0 & R & P). exists (pset m0 id (Some (predict box d, u, true))). split; [|now apply peq_set].
        eapply reach_move; eauto. rewrite P; eauto.
      + intros j. rewrite K2, occ_app. change (moves_of _) with (moves_of b). rewrite Hocc. unfold padd. unfold occ. cbn.
        rewrite Nat.eqb_sym. destruct (Nat.eqb_spec j id); cbn; lia.
      + intros j. rewrite live_set. unfold padd. destruct (Nat.eqb_spec j id); auto.
      + intros j. unfold padd, moved_flag, pset. destruct (Nat.eqb_spec j id); [lia|]. apply Hmv.
      + eapply card_same; [|exact Hcard]. intros j. rewrite live_set. split; [auto|]. intros [->|]; auto. unfold live. congruence.
    - destruct IH as (R & Hmo & Hocc & Hlive & Hmv & Hpr & Hc & Hcard). unfold bp_touch in E.
      destruct (buffer_ok b id) as (b1 & E2 & K1 & K2 & K3 & K4 & K5); [exact Hmo|]. rewrite E2 in E. injection E as <-.
      unfold binv. rewrite K3, K4, K5. split; [|split; [|split; [|split; [|split; [|split; [|split]]]]]]; auto.
      + intros j. rewrite K2, occ_app, Hocc. unfold padd. unfold occ. cbn. rewrite Nat.eqb_sym. destruct (Nat.eqb_spec j id); cbn; lia.
      + intros j. unfold padd. destruct (Nat.eqb_spec j id) as [->|]; auto. intros _. unfold live. congruence.
      + intros j. unfold padd. destruct (Nat.eqb_spec j id); [lia|]. auto.
    - destruct IH as (R & Hmo & Hocc & Hlive & Hmv & Hpr & Hc & Hcard). unfold binv, bp_shift, with_tree.
      cbn [bp_tree bp_moves bp_move_cap bp_move_count bp_pairs bp_proxies].
      assert (HL : forall j, live m j <-> live (pshift o m) j) by (intros j; unfold live, pshift; destruct (m j) as [[[? ?] ?]|]; split; congruence).
      split; [|split; [|split; [|split; [|split; [|split; [|split]]]]]]; auto.
      + destruct R as (m0 & R & P). exists (pshift o m0). split; [now apply reach_shift|]. intros j. unfold pshift. now rewrite P.
      + intros j Hj. apply HL. auto.
      + intros j. specialize (Hmv j). unfold moved_flag, pshift in *. destruct (m j) as [[[? ?] ?]|]; auto.
      + eapply card_same; eauto.
    - destruct IH as (R & Hmo & Hocc & Hlive & Hmv & Hpr & Hc & Hcard). unfold bp_rebuild in E.
      destruct (rebuild_bottom_up (bp_tree b)) as [t1| |] eqn:E1; try discriminate. cbn [bind] in E. injection E as <-. unfold binv, with_tree.
      cbn [bp_tree bp_moves bp_move_cap bp_move_count bp_pairs bp_proxies]. split; [|split; [|split; [|split; [|split; [|split; [|split]]]]]]; auto.
      destruct R as (m0 & R & P). exists m0. split; auto. eapply reach_rebuild; eauto.
    - destruct (update_run b m w k IH) as (b1 & H1 & H2). rewrite H1 in E. destruct (feed cb m _ s); try discriminate. cbn [bind] in E. injection E as <- <-. exact H2.
  Qed.
End Broad.
