(** Pairs of the broad phase: what is known about the pairs of boxes that overlap, under the calls of the broad phase. *)
From Coq Require Import List ZArith Bool Arith Lia Reals Lra.
From Flocq Require Import Core.Raux.
From Verif Require Import Base Num NumLaws RTac Math Collision Manifold Filter ShapeModel ListFacts ManifoldProofs TreeModel TreeSpec TreeHist BroadModel BroadSpec BroadProofs BroadFinal DynModel DynSpec DynProofs WorldModel WorldGraph WorldLogic WorldPhys WorldInv WorldFix CoverLogic.
Import ListNotations.

Lemma fin_R (v : vec2 R) : vec_fin v.
Proof. split; exact I. Qed.
Lemma boxes_R {U} (m : @pmap R U) : all_boxes box_ok m.
Proof. intros id b u f _. repeat split. Qed.
Lemma overlap_R (a b : aabb R) : test_overlap a b = false -> separated a b.
Proof.
  unfold test_overlap, separated. rmathc. intros H.
  destruct (Rlt_bool_spec 0 (vx (lo b) - vx (hi a))); [left; apply Rlt_bool_true; lra|].
  destruct (Rlt_bool_spec 0 (vy (lo b) - vy (hi a))); [right; left; apply Rlt_bool_true; lra|]. cbn [orb] in H.
  destruct (Rlt_bool_spec 0 (vx (lo a) - vx (hi b))); [right; right; left; apply Rlt_bool_true; lra|].
  destruct (Rlt_bool_spec 0 (vy (lo a) - vy (hi b))); [right; right; right; apply Rlt_bool_true; lra|]. discriminate.
Qed.
Lemma separated_moved o (a b : aabb R) : separated a b <-> separated (moved_box o a) (moved_box o b).
Proof.
  unfold separated, moved_box. cbn [lo hi]. rmathc.
  assert (Q : forall x y z, Rlt_bool (x - z) (y - z) = Rlt_bool x y). { intros x y z. destruct (Rlt_bool_spec x y); [apply Rlt_bool_true|apply Rlt_bool_false]; lra. }
  now rewrite !Q.
Qed.

(* [q]: pairs of which one is still to be looked at are excused *)
Definition bcomp (q : bool) (b : broad R (nat * nat)) (s : nat -> nat -> option nat) (K : nat -> nat -> nat -> nat -> Prop) : Prop :=
  exists m pw n, breach vec_fin b m pw n /\ pm_ok m s /\
  forall f k id bx fl g l id' bx' fl', m id = Some (bx, Some (f, k), fl) -> m id' = Some (bx', Some (g, l), fl') -> id <> id' ->
    ~ separated bx bx' -> (q = true -> pw id = 0 /\ pw id' = 0) -> K f k g l.
(* the same, without the map *)
Definition seen (b : broad R (nat * nat)) (s : nat -> nat -> option nat) (f k g l : nat) : Prop :=
  exists id id' bx bx', s f k = Some id /\ s g l = Some id' /\ id <> id' /\ get_fat_aabb (bp_tree b) id = Ok bx /\ get_fat_aabb (bp_tree b) id' = Ok bx' /\ ~ separated bx bx'.

Section BComp.
  Implicit Types b : broad R (nat * nat).
  Implicit Types s : nat -> nat -> option nat.
  Implicit Types K : nat -> nat -> nat -> nat -> Prop.

  Lemma pm_slot (m : @pmap R (nat * nat)) s id bx f k fl : pm_ok m s -> m id = Some (bx, Some (f, k), fl) -> s f k = Some id.
  Proof. intros [_ P] E. destruct (P _ _ _ _ E) as (f' & k' & Q & H). injection Q as <- <-. exact H. Qed.
  Lemma breach_fat b (m : @pmap R (nat * nat)) pw n id bx u fl : breach vec_fin b m pw n -> m id = Some (bx, u, fl) -> get_fat_aabb (bp_tree b) id = Ok bx.
  Proof. intros B E. apply breach_binv in B. destruct B as (R & _). apply reach'_sim in R. apply (sim_get _ _ _ _ _ _ R E). Qed.
  Lemma bcomp_mono q q' b s s' K K' : bcomp q b s K -> (forall f k, s f k = s' f k) -> (q' = false -> q = false) -> (forall f k g l, seen b s f k g l -> K f k g l -> K' f k g l) -> bcomp q' b s' K'.
  Proof.
    intros (m & pw & n & B & P & H) Hs Hq HK. exists m, pw, n. split; [auto|]. split; [eapply pm_ok_ext; eauto|]. intros f k id bx fl g l id' bx' fl' E E' Ne Sp Hw. apply HK.
    - exists id, id', bx, bx'. split; [exact (pm_slot _ _ _ _ _ _ _ P E)|]. split; [exact (pm_slot _ _ _ _ _ _ _ P E')|]. split; [exact Ne|]. split; [exact (breach_fat _ _ _ _ _ _ _ _ B E)|]. split; [exact (breach_fat _ _ _ _ _ _ _ _ B E')|exact Sp].
    - eapply H; eauto. intros ->. apply Hw. destruct q'; [reflexivity|]. specialize (Hq eq_refl). discriminate.
  Qed.
  Lemma bcomp_create b s K f k box b' id : bcomp true b s K -> s f k = None -> bp_create b box (f, k) = Ok (b', id) -> bcomp true b' (sput s f k (Some id)) K.
  Proof.
    intros (m & pw & n & B & (P1 & P2) & HC) H E. destruct (calls_any vec_fin b m pw n B) as (Hc & _). destruct (Hc box (f, k)) as (b1 & id1 & Eb & Em). rewrite E in Eb. injection Eb as <- <-.
    eexists _, _, _. split; [eapply breach_create; eauto|]. split; [split|].
    - unfold sput, pset. intros f' k' id'. destruct (Nat.eqb_spec f' f) as [->|]; [destruct (Nat.eqb_spec k' k) as [->|]|]; cbn [andb].
      + intros Q. injection Q as <-. rewrite Nat.eqb_refl. eauto.
      + intros Q. destruct (P1 _ _ _ Q) as (x & fl & E'). destruct (Nat.eqb_spec id' id) as [->|]; [congruence|eauto].
      + intros Q. destruct (P1 _ _ _ Q) as (x & fl & E'). destruct (Nat.eqb_spec id' id) as [->|]; [congruence|eauto].
    - unfold sput, pset. intros id' x u fl. destruct (Nat.eqb_spec id' id) as [->|].
      + intros Q. injection Q as <- <- <-. exists f, k. now rewrite !Nat.eqb_refl.
      + intros Q. destruct (P2 _ _ _ _ Q) as (f' & k' & -> & K'). exists f', k'. split; auto. destruct (Nat.eqb_spec f' f) as [->|]; auto. destruct (Nat.eqb_spec k' k) as [->|]; auto. congruence.
    - unfold pset, padd. intros f1 k1 i1 x1 fl1 f2 k2 i2 x2 fl2 H1 H2 Ne Sp Hw. destruct (Hw eq_refl) as [W1 W2].
      destruct (Nat.eqb_spec i1 id); [lia|]. destruct (Nat.eqb_spec i2 id); [lia|]. eauto.
  Qed.
  Lemma bcomp_destroy q b s K f k id b' : bcomp q b s K -> s f k = Some id -> bp_destroy b id = Ok b' -> bcomp q b' (sput s f k None) K.
  Proof.
    intros (m & pw & n & B & (P1 & P2) & HC) H E. destruct (P1 _ _ _ H) as (fb & fl & Em).
    eexists _, _, _. split; [eapply breach_destroy; eauto|]. split; [split|].
    - unfold sput, pset. intros f' k' id' Q. assert (Ne : (f', k') <> (f, k)). { intros X. injection X as -> ->. rewrite !Nat.eqb_refl in Q. easy. }
      assert (Q' : s f' k' = Some id'). { destruct (Nat.eqb_spec f' f) as [->|]; auto. destruct (Nat.eqb_spec k' k) as [->|]; auto. easy. }
      destruct (P1 _ _ _ Q') as (x & fx & E'). destruct (Nat.eqb_spec id' id) as [->|]; [|eauto]. congruence.
    - unfold sput, pset. intros id' x u fx. destruct (Nat.eqb_spec id' id) as [->|]; [easy|]. intros Q. destruct (P2 _ _ _ _ Q) as (f' & k' & -> & K'). exists f', k'. split; auto.
      destruct (Nat.eqb_spec f' f) as [->|]; auto. destruct (Nat.eqb_spec k' k) as [->|]; auto. congruence.
    - unfold pset, pdrop. intros f1 k1 i1 x1 fl1 f2 k2 i2 x2 fl2 H1 H2 Ne Sp Hw. destruct (Nat.eqb_spec i1 id); [easy|]. destruct (Nat.eqb_spec i2 id); [easy|]. eauto.
  Qed.
  (* the box stays or the proxy is to be looked at again *)
  Lemma bcomp_move b s K f k id box d b' : bcomp true b s K -> s f k = Some id -> bp_move b id box d = Ok b' -> bcomp true b' s K.
  Proof.
    intros (m & pw & n & B & P & HC) H E. destruct (proj1 P _ _ _ H) as (fb & fl & Em). destruct (keep_box fb box (predict box d)) eqn:Ek.
    - exists m, pw, n. split; [eapply breach_move_kept; eauto|]. split; [auto|]. exact HC.
    - eexists _, _, n. split; [eapply breach_move; eauto|]. split; [eapply pm_same; eauto|]. unfold pset, padd. intros f1 k1 i1 x1 fl1 f2 k2 i2 x2 fl2 H1 H2 Ne Sp Hw. destruct (Hw eq_refl) as [W1 W2].
      destruct (Nat.eqb_spec i1 id); [lia|]. destruct (Nat.eqb_spec i2 id); [lia|]. eauto.
  Qed.
  (* nothing need be known any more about the pairs of the child *)
  Lemma bcomp_touch b s K K' f k id b' : bcomp true b s K -> s f k = Some id -> bp_touch b id = Ok b' ->
    (forall f1 k1 f2 k2, (f1, k1) <> (f, k) -> (f2, k2) <> (f, k) -> K f1 k1 f2 k2 -> K' f1 k1 f2 k2) -> bcomp true b' s K'.
  Proof.
    intros (m & pw & n & B & P & HC) H E HK. destruct (proj1 P _ _ _ H) as (fb & fl & Em). eexists m, _, n. split; [eapply breach_touch; eauto|]. split; [auto|].
    unfold padd. intros f1 k1 i1 x1 fl1 f2 k2 i2 x2 fl2 H1 H2 Ne Sp Hw. destruct (Hw eq_refl) as [W1 W2]. destruct (Nat.eqb_spec i1 id) as [|N1]; [lia|]. destruct (Nat.eqb_spec i2 id) as [|N2]; [lia|].
    apply HK; [intros X; injection X as -> ->; apply N1; pose proof (pm_slot _ _ _ _ _ _ _ P H1); congruence|intros X; injection X as -> ->; apply N2; pose proof (pm_slot _ _ _ _ _ _ _ P H2); congruence|].
    eapply HC; eauto.
  Qed.
  Lemma bcomp_shift q b s K o : bcomp q b s K -> bcomp q (bp_shift b o) s K.
  Proof.
    intros (m & pw & n & B & (P1 & P2) & HC). eexists _, _, n. split; [apply breach_shift; [exact B|apply fin_R]|]. unfold pshift. split; [split|].
    - intros f k id H. destruct (P1 _ _ _ H) as (box & fl & ->). eauto.
    - intros id box u fl. destruct (m id) as [[[b0 u0] f0]|] eqn:Em; [|easy]. intros Q. injection Q as <- <- <-. eauto.
    - intros f1 k1 i1 x1 fl1 f2 k2 i2 x2 fl2 H1 H2 Ne Sp Hw. destruct (m i1) as [[[b1 u1] g1]|] eqn:E1; [|easy]. destruct (m i2) as [[[b2 u2] g2]|] eqn:E2; [|easy]. injection H1 as <- -> <-. injection H2 as <- -> <-.
      eapply HC; eauto. intros Q. apply Sp. apply (proj1 (separated_moved o b1 b2) Q).
  Qed.
  Lemma ok_fold {A S} (I : S -> Prop) (D : S -> A -> Prop) (c : S -> A -> res S) l : 
    (forall x a, I x -> In a l -> ok (c x a) (fun y => I y /\ D y a /\ forall a', D x a' -> D y a')) ->
    forall x, I x -> ok (fold_left (fun r a => x <- r ;; c x a) l (Ok x)) (fun y => I y /\ (forall a, In a l -> D y a) /\ forall a, D x a -> D y a).
  Proof.
    induction l as [|a l IH]; intros H x Hx; cbn [fold_left].
    - apply ok_ok. split; [exact Hx|]. split; [intros a []|auto].
    - cbn [bind]. rewrite fold_bind. apply ok_bind. eapply ok_mono; [apply H; [exact Hx|now left]|]. intros y (Iy & Dy & My).
      eapply ok_mono; [apply IH; [intros z a' Iz Ha; apply H; [exact Iz|now right]|exact Iy]|]. intros z (Iz & Dz & Mz). split; [exact Iz|]. split; [|auto].
      intros a' [<-|Ha]; auto.
  Qed.
  Lemma bcomp_update {S} b s K (I : S -> Prop) (D : S -> nat -> nat -> nat -> nat -> Prop) (cb : S -> option (nat * nat) -> option (nat * nat) -> res S) x : bcomp true b s K -> I x ->
    (forall y f k g l id id', I y -> s f k = Some id -> s g l = Some id' -> id <> id' -> ok (cb y (Some (f, k)) (Some (g, l))) (fun z => I z /\ D z f k g l /\ forall f' k' g' l', D y f' k' g' l' -> D z f' k' g' l')) ->
    ok (update_pairs b cb x) (fun p => I (snd p) /\ bcomp false (fst p) s (fun f k g l => K f k g l \/ D (snd p) f k g l \/ D (snd p) g l f k)).
  Proof.
    intros (m & pw & n & B & P & HC) Hx Hc. pose proof B as B0. apply breach_binv in B0. pose proof (update_run vec_fin b m pw n B0) as (b1 & H1 & H2).
    set (PL := BroadProofs.found (moved_flag m) (vis b m) (moves_of b)) in *.
    assert (PX : (forall i j, In (i, j) PL -> i < j /\ live m i /\ live m j) /\
      forall i j fi ui mi fj uj mj, i < j -> m i = Some (fi, ui, mi) -> m j = Some (fj, uj, mj) -> ~ separated fi fj -> 0 < pw i \/ 0 < pw j -> In (i, j) PL).
    { destruct B0 as (R & Hmo & Hocc & Hlive & Hmv & _). split.
      - intros i j Hin. assert (Hl : live m i /\ live m j) by (eapply found_live; eauto; intros id Hi; apply Hlive; rewrite <- Hocc; now apply occ_in).
        apply times_in in Hin. unfold PL in Hin. rewrite found_times in Hin. destruct (Nat.ltb_spec i j); [|lia]. tauto.
      - intros i j fi ui mi fj uj mj Hij Hi Hj Hs Hw. apply times_in. unfold PL. rewrite found_times, !Hocc. destruct (Nat.ltb_spec i j); [|lia].
        destruct (vis_exact b m i fi ui mi R (boxes_R m) Hi) as [Ni Vi]. destruct (vis_exact b m j fj uj mj R (boxes_R m) Hj) as [Nj Vj]. rewrite (cnt_in _ _ Ni), (cnt_in _ _ Nj).
        assert (E1 : existsb (Nat.eqb j) (vis b m i) = true) by (rewrite <- in_exists, Vi; exists fj, uj, mj; split; auto; intros Q; apply Hs; now apply separated_sym).
        assert (E2 : existsb (Nat.eqb i) (vis b m j) = true) by (rewrite <- in_exists, Vj; exists fi, ui, mi; split; auto). rewrite E1, E2.
        specialize (Hmv j). destruct (moved_flag m j); [specialize (Hmv eq_refl)|]; lia. }
    clearbody PL. destruct PX as [PL1 PL2]. intros [b' x'] Eu. pose proof Eu as Eu0. rewrite H1 in Eu. unfold feed in Eu.
    assert (F : ok (fold_left (fun r p => x <- r ;; cb x (user_of m (fst p)) (user_of m (snd p))) PL (Ok x))
      (fun y => I y /\ (forall p, In p PL -> forall f k g l, user_of m (fst p) = Some (f, k) -> user_of m (snd p) = Some (g, l) -> D y f k g l) /\ forall p, (forall f k g l, user_of m (fst p) = Some (f, k) -> user_of m (snd p) = Some (g, l) -> D x f k g l) -> (forall f k g l, user_of m (fst p) = Some (f, k) -> user_of m (snd p) = Some (g, l) -> D y f k g l))).
    { apply (ok_fold I (fun y p => forall f k g l, user_of m (fst p) = Some (f, k) -> user_of m (snd p) = Some (g, l) -> D y f k g l)); [|exact Hx]. intros y [i j] Iy Hp. cbn [fst snd]. destruct (PL1 i j Hp) as (Lt & Li & Lj). unfold live in Li, Lj. unfold user_of.
      destruct (m i) as [[[bi ui] fi]|] eqn:Ei; [|easy]. destruct (m j) as [[[bj uj] fj]|] eqn:Ej; [|easy]. destruct (proj2 P _ _ _ _ Ei) as (f & k & -> & Si). destruct (proj2 P _ _ _ _ Ej) as (g & l & -> & Sj).
      eapply ok_mono; [apply (Hc y f k g l i j Iy Si Sj); lia|]. intros z (Iz & Dz & Mz). split; [exact Iz|]. split; [intros ? ? ? ? Q1 Q2; injection Q1 as <- <-; injection Q2 as <- <-; exact Dz|].
      intros p Q f' k' g' l' Q1 Q2. apply Mz. auto. }
    destruct (fold_left _ PL (Ok x)) as [y| |] eqn:Ef; try discriminate Eu. cbn [bind] in Eu. injection Eu as <- <-. destruct (F y eq_refl) as (Iy & Dy & _). cbn [fst snd].
    split; [exact Iy|]. eexists _, _, n. split; [eapply breach_update; [exact B|exact Eu0]|]. split; [now apply unmoved_pm|]. unfold unmoved.
    intros f k id bx fl g l id' bx' fl' Q1 Q2 Ne Sp _. destruct (m id) as [[[bi ui] fi]|] eqn:Ei; [|easy]. destruct (m id') as [[[bj uj] fj]|] eqn:Ej; [|easy]. injection Q1 as -> -> _. injection Q2 as -> -> _.
    assert (Dec : (pw id = 0 /\ pw id' = 0) \/ (0 < pw id \/ 0 < pw id')) by lia. destruct Dec as [Dec|Dec]; [left; eapply HC; eauto|]. right.
    destruct (Nat.lt_total id id') as [Lt|[Q|Lt]]; [left|contradiction|right].
    - apply (Dy (id, id')); [eapply PL2; eauto|cbn; unfold user_of; now rewrite Ei|cbn; unfold user_of; now rewrite Ej].
    - apply (Dy (id', id)); [eapply PL2; eauto; [rewrite separated_sym; exact Sp|tauto]|cbn; unfold user_of; now rewrite Ej|cbn; unfold user_of; now rewrite Ei].
  Qed.
End BComp.
