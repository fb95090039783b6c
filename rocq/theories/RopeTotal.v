(** Ropes never fail: every call returns, and the constraints join neighbours with their masses. *)
From Coq Require Import List ZArith Bool Arith Lia.
From Verif Require Import Base Num Math ListFacts SolverModel RopeModel RopeSpec.
Import ListNotations.

Lemma each_item_tot {C S} (P : C -> Prop) (tw : C -> C -> Prop) (I : S -> Prop) (f : C -> S -> res (C * S)) :
  (forall c s, P c -> I s -> exists c' s', f c s = Ok (c', s') /\ tw c c' /\ I s') -> forall cs s, Forall P cs -> I s -> exists cs' s', each_item f cs s = Ok (cs', s') /\ Forall2 tw cs cs' /\ I s'.
Proof.
  intros H cs. induction cs as [|c cs IH]; intros s F Is; cbn [each_item]; [exists [], s; auto|]. inversion F as [|? ? F1 F2]; subst.
  destruct (H c s F1 Is) as (c' & s1 & E & W & I1). rewrite E. cbn [bind]. destruct (IH s1 F2 I1) as (cs' & s' & E2 & W2 & I2). rewrite E2. cbn [bind]. exists (c' :: cs'), s'. auto.
Qed.
Lemma for_from_tot {S} (I : S -> Prop) (f : nat -> S -> res S) : (forall i s, I s -> exists s', f i s = Ok s' /\ I s') -> forall n lo s, I s -> exists s', for_from n lo f s = Ok s' /\ I s'.
Proof. intros H n. induction n as [|n IH]; intros lo s Is; cbn [for_from]; [eauto|]. destruct (H lo s Is) as (s1 & E & I1). rewrite E. cbn [bind]. apply IH, I1. Qed.
Lemma each_place_length {A} (f : nat -> A -> res A) : forall l i l', each_place f i l = Ok l' -> length l' = length l.
Proof.
  induction l as [|x l IH]; intros i l' E; cbn [each_place] in E; [inversion E; reflexivity|]. destruct (f i x) as [y| |]; try discriminate. cbn [bind] in E. destruct (each_place f (S i) l) as [r| |] eqn:G; try discriminate. cbn [bind] in E. inversion E; subst. cbn. f_equal. eauto.
Qed.
Lemma each_place_nth {A} (f : nat -> A -> res A) : forall l i l', each_place f i l = Ok l' -> forall k y, nth_error l' k = Some y -> exists x, nth_error l k = Some x /\ f (i + k) x = Ok y.
Proof.
  induction l as [|x l IH]; intros i l' E k y N; cbn [each_place] in E; [inversion E; subst; destruct k; discriminate|]. destruct (f i x) as [z| |] eqn:F; try discriminate. cbn [bind] in E. destruct (each_place f (S i) l) as [r| |] eqn:G; try discriminate. cbn [bind] in E. inversion E; subst.
  destruct k as [|k]; cbn in N |- *; [exists x; inversion N; subst; rewrite Nat.add_0_r; auto|]. destruct (IH _ _ G k y N) as (x' & N' & F'). exists x'. rewrite Nat.add_succ_r. auto.
Qed.
Lemma each_place_tot {A} (f : nat -> A -> res A) : forall l i, (forall k x, i <= k < i + length l -> exists y, f k x = Ok y) -> exists l', each_place f i l = Ok l'.
Proof.
  induction l as [|x l IH]; intros i H; cbn [each_place]; [eauto|]. destruct (H i x) as (y & E); [cbn; lia|]. rewrite E. cbn [bind]. destruct (IH (S i)) as (l' & E'); [intros; apply H; cbn; lia|]. rewrite E'. cbn [bind]. eauto.
Qed.
Lemma resize_length {A} n (x : A) l : length (resize n x l) = n.
Proof. unfold resize. rewrite app_length, firstn_length, repeat_length. lia. Qed.
Lemma map_nth_eq {A B} (f : nat -> B) (g : A -> B) (l : list A) n : length l = n -> (forall i x, nth_error l i = Some x -> g x = f i) -> map g l = map f (seq 0 n).
Proof.
  intros <-. revert f. induction l as [|x l IH]; intros f H; [reflexivity|]. cbn [map length seq]. f_equal; [exact (H 0 x eq_refl)|]. rewrite <- seq_shift, map_map. apply IH. intros i y N. exact (H (S i) y N).
Qed.
Lemma nth_map_seq {B} (f : nat -> B) n i y : nth_error (map f (seq 0 n)) i = Some y -> y = f i.
Proof. intros E. assert (L := nth_lt _ _ _ E). rewrite map_length, seq_length in L. rewrite nth_error_map in E. rewrite (nth_error_nth' _ 0) in E by (rewrite seq_length; exact L). rewrite seq_nth in E by exact L. now inversion E. Qed.

Section Total.
  Context {T : Type} `{NT : Num T} `{RT : NumRope T}.
  Notation pt := (rpoint T).

  Definition kin (q q' : pt) : Prop := rp_bind q' = rp_bind q /\ rp_im q' = rp_im q.
  Definition stwin (c c' : stretch T) : Prop := exists x, c' = st_with_lambda c x.
  Definition btwin (c c' : bend T) : Prop := exists x, c' = be_with_lambda c x.
  Definition good_s (ims : list T) (c : stretch T) : Prop := st_i2 c = st_i1 c + 1 /\ nth_error ims (st_i1 c) = Some (st_m1 c) /\ nth_error ims (st_i2 c) = Some (st_m2 c).
  Definition good_b (ims : list T) (c : bend T) : Prop :=
    be_i2 c = be_i1 c + 1 /\ be_i3 c = be_i1 c + 2 /\ nth_error ims (be_i1 c) = Some (be_m1 c) /\ nth_error ims (be_i2 c) = Some (be_m2 c) /\ nth_error ims (be_i3 c) = Some (be_m3 c).
  Definition ims (qs : list pt) : list T := map rp_im qs.
  Definition wf (r : rope T) : Prop := strung r /\ Forall (good_s (ims (ro_points r))) (ro_stretch r) /\ Forall (good_b (ims (ro_points r))) (ro_bend r).

  Lemma stwin_good c c' l : stwin c c' -> good_s l c -> good_s l c'.
  Proof. now intros (x & ->). Qed.
  Lemma btwin_good c c' l : btwin c c' -> good_b l c -> good_b l c'.
  Proof. now intros (x & ->). Qed.
  Lemma stwin_refl c : stwin c c.
  Proof. exists (st_lambda c). now destruct c. Qed.
  Lemma btwin_refl c : btwin c c.
  Proof. exists (be_lambda c). now destruct c. Qed.
  Lemma stwin_trans a b c : stwin a b -> stwin b c -> stwin a c.
  Proof. intros (x & ->) (y & ->). exists y. reflexivity. Qed.
  Lemma btwin_trans a b c : btwin a b -> btwin b c -> btwin a c.
  Proof. intros (x & ->) (y & ->). exists y. reflexivity. Qed.
  Lemma Forall2_trans {A} (R : A -> A -> Prop) : (forall a b c, R a b -> R b c -> R a c) -> forall l1 l2 l3, Forall2 R l1 l2 -> Forall2 R l2 l3 -> Forall2 R l1 l3.
  Proof. intros H l1. induction l1; intros l2 l3 A1 A2; inversion A1; subst; inversion A2; subst; constructor; eauto. Qed.
  Lemma Forall2_refl {A} (R : A -> A -> Prop) : (forall a, R a a) -> forall l, Forall2 R l l.
  Proof. intros H l. induction l; auto. Qed.
  Lemma twins_good {C} (tw : C -> C -> Prop) (P : C -> Prop) : (forall c c', tw c c' -> P c -> P c') -> forall l l', Forall2 tw l l' -> Forall P l -> Forall P l'.
  Proof. intros H l l' F. induction F; intros G; inversion G; subst; constructor; eauto. Qed.

  (** ** one constraint *)
  Lemma ims_nth qs i m : nth_error (ims qs) i = Some m -> exists q, nth_error qs i = Some q /\ rp_im q = m.
  Proof. unfold ims. rewrite nth_error_map. destruct (nth_error qs i) as [q|]; [|discriminate]. cbn. intros E. inversion E. eauto. Qed.
  Lemma on2_is {C} (c : C) i1 i2 f (qs : list pt) q1 q2 : nth_error qs i1 = Some q1 -> nth_error qs i2 = Some q2 ->
    on2 c i1 i2 f qs = Ok (match f q1 q2 with None => (c, qs) | Some (c', q1', q2') => (c', upd (upd qs i1 q1') i2 q2') end).
  Proof.
    intros N1 N2. unfold on2. rewrite (get_ok _ _ _ N1), (get_ok _ _ _ N2). cbn [bind]. destruct (f q1 q2) as [[[c' q1'] q2']|]; [|reflexivity].
    rewrite set_ok by exact (nth_lt _ _ _ N1). cbn [bind]. rewrite set_ok by (rewrite length_upd; exact (nth_lt _ _ _ N2)). reflexivity.
  Qed.
  Lemma on3_is {C} (c : C) i1 i2 i3 f (qs : list pt) q1 q2 q3 : nth_error qs i1 = Some q1 -> nth_error qs i2 = Some q2 -> nth_error qs i3 = Some q3 ->
    on3 c i1 i2 i3 f qs = Ok (match f q1 q2 q3 with None => (c, qs) | Some (c', q1', q2', q3') => (c', upd (upd (upd qs i1 q1') i2 q2') i3 q3') end).
  Proof.
    intros N1 N2 N3. unfold on3. rewrite (get_ok _ _ _ N1), (get_ok _ _ _ N2), (get_ok _ _ _ N3). cbn [bind]. destruct (f q1 q2 q3) as [[[[c' q1'] q2'] q3']|]; [|reflexivity].
    rewrite set_ok by exact (nth_lt _ _ _ N1). cbn [bind]. rewrite set_ok by (rewrite length_upd; exact (nth_lt _ _ _ N2)). cbn [bind]. rewrite set_ok by (rewrite !length_upd; exact (nth_lt _ _ _ N3)). reflexivity.
  Qed.
  (* what the solvers do, for an invariant [I] that is kept if some points change as [chg2] and [chg3] say *)
  Section Keep.
    Variables (l : list T) (I : list pt -> Prop) (chg2 : pt -> pt -> pt -> pt -> Prop) (chg3 : pt -> pt -> pt -> pt -> pt -> pt -> Prop).
    Hypothesis Iims : forall qs, I qs -> ims qs = l.
    Hypothesis I2 : forall qs i1 i2 q1 q2 q1' q2', I qs -> i1 <> i2 -> nth_error qs i1 = Some q1 -> nth_error qs i2 = Some q2 -> chg2 q1 q2 q1' q2' -> I (upd (upd qs i1 q1') i2 q2').
    Hypothesis I3 : forall qs i1 i2 i3 q1 q2 q3 q1' q2' q3', I qs -> i1 <> i2 -> i1 <> i3 -> i2 <> i3 -> nth_error qs i1 = Some q1 -> nth_error qs i2 = Some q2 -> nth_error qs i3 = Some q3 ->
      chg3 q1 q2 q3 q1' q2' q3' -> I (upd (upd (upd qs i1 q1') i2 q2') i3 q3').

    Lemma keep2s c f qs : good_s l c -> I qs -> (forall q1 q2 c' q1' q2', rp_im q1 = st_m1 c -> rp_im q2 = st_m2 c -> f q1 q2 = Some (c', q1', q2') -> stwin c c' /\ chg2 q1 q2 q1' q2') ->
      exists c' qs', on2 c (st_i1 c) (st_i2 c) f qs = Ok (c', qs') /\ stwin c c' /\ I qs'.
    Proof.
      intros (G2 & N1 & N2) Is H. rewrite <- (Iims _ Is) in N1, N2. apply ims_nth in N1, N2. destruct N1 as (q1 & N1 & M1). destruct N2 as (q2 & N2 & M2). rewrite (on2_is c _ _ f qs q1 q2 N1 N2).
      destruct (f q1 q2) as [[[c' q1'] q2']|] eqn:F; [|exists c, qs; repeat split; [apply stwin_refl|exact Is]].
      destruct (H q1 q2 c' q1' q2' M1 M2 F) as [W R]. eexists c', _. split; [reflexivity|]. split; [exact W|]. apply (I2 qs _ _ q1 q2); auto. lia.
    Qed.
    Lemma keep2b c f qs : good_b l c -> I qs -> (forall q1 q2 c' q1' q2', rp_im q1 = be_m1 c -> rp_im q2 = be_m3 c -> f q1 q2 = Some (c', q1', q2') -> btwin c c' /\ chg2 q1 q2 q1' q2') ->
      exists c' qs', on2 c (be_i1 c) (be_i3 c) f qs = Ok (c', qs') /\ btwin c c' /\ I qs'.
    Proof.
      intros (G2 & G3 & N1 & _ & N2) Is H. rewrite <- (Iims _ Is) in N1, N2. apply ims_nth in N1, N2. destruct N1 as (q1 & N1 & M1). destruct N2 as (q2 & N2 & M2). rewrite (on2_is c _ _ f qs q1 q2 N1 N2).
      destruct (f q1 q2) as [[[c' q1'] q2']|] eqn:F; [|exists c, qs; repeat split; [apply btwin_refl|exact Is]].
      destruct (H q1 q2 c' q1' q2' M1 M2 F) as [W R]. eexists c', _. split; [reflexivity|]. split; [exact W|]. apply (I2 qs _ _ q1 q2); auto. lia.
    Qed.
    Lemma keep3 c f qs : good_b l c -> I qs -> (forall q1 q2 q3 c' q1' q2' q3', rp_im q1 = be_m1 c -> rp_im q2 = be_m2 c -> rp_im q3 = be_m3 c -> f q1 q2 q3 = Some (c', q1', q2', q3') -> btwin c c' /\ chg3 q1 q2 q3 q1' q2' q3') ->
      exists c' qs', on3 c (be_i1 c) (be_i2 c) (be_i3 c) f qs = Ok (c', qs') /\ btwin c c' /\ I qs'.
    Proof.
      intros (G2 & G3 & N1 & N2 & N3) Is H. rewrite <- (Iims _ Is) in N1, N2, N3. apply ims_nth in N1, N2, N3. destruct N1 as (q1 & N1 & M1). destruct N2 as (q2 & N2 & M2). destruct N3 as (q3 & N3 & M3). rewrite (on3_is c _ _ _ f qs q1 q2 q3 N1 N2 N3).
      destruct (f q1 q2 q3) as [[[[c' q1'] q2'] q3']|] eqn:F; [|exists c, qs; repeat split; [apply btwin_refl|exact Is]].
      destruct (H q1 q2 q3 c' q1' q2' q3' M1 M2 M3 F) as [W R]. eexists c', _. split; [reflexivity|]. split; [exact W|]. apply (I3 qs _ _ _ q1 q2 q3); auto; lia.
    Qed.

    (* one pass, and all passes *)
    Variables (dt : T) (t : tuning T) (Pb : bend T -> Prop) (Ps : stretch T -> Prop).
    Hypothesis Pdt : nlt (nofZ 0) dt = true.
    Hypothesis Pb_twin : forall c c', btwin c c' -> Pb c -> Pb c'.
    Hypothesis Ps_twin : forall c c', stwin c c' -> Ps c -> Ps c'.
    Definition bsolver : bend T -> list pt -> res (bend T * list pt) :=
      match tu_bending t with
      | SpringAngleBending => fun c qs => Ok (c, qs)
      | PbdAngleBending => bend_pbd_angle t
      | XpbdAngleBending => bend_xpbd_angle dt t
      | PbdDistanceBending => bend_pbd_distance t
      | PbdHeightBending => bend_pbd_height t
      | PbdTriangleBending => bend_pbd_triangle t
      end.
    Definition ssolver : stretch T -> list pt -> res (stretch T * list pt) := match tu_stretching t with PbdStretching => stretch_pbd t | XpbdStretching => stretch_xpbd dt end.
    Hypothesis Kb : forall c qs, good_b l c -> Pb c -> I qs -> exists c' qs', bsolver c qs = Ok (c', qs') /\ btwin c c' /\ I qs'.
    Hypothesis Ks : forall c qs, good_s l c -> Ps c -> I qs -> exists c' qs', ssolver c qs = Ok (c', qs') /\ stwin c c' /\ I qs'.
    Lemma each_same {C S} : forall (cs : list C) (s : S), each_item (fun c s => Ok (c, s)) cs s = Ok (cs, s).
    Proof. induction cs as [|c cs IH]; intros s; cbn [each_item]; [reflexivity|]. cbn [bind]. rewrite IH. reflexivity. Qed.
    Lemma solve_bends_is bs qs : solve_bends dt t bs qs = each_item bsolver bs qs.
    Proof. unfold solve_bends, bsolver. rewrite Pdt. cbn [b2_assert bind]. destruct (tu_bending t); try reflexivity. now rewrite each_same. Qed.
    Lemma solve_stretches_is ss qs : solve_stretches dt t ss qs = each_item ssolver ss qs.
    Proof. unfold solve_stretches, ssolver. rewrite Pdt. cbn [b2_assert bind]. now destruct (tu_stretching t). Qed.
    Lemma pass_keeps ss bs qs : Forall (fun c => good_s l c /\ Ps c) ss -> Forall (fun c => good_b l c /\ Pb c) bs -> I qs -> exists ss' bs' qs', rope_pass dt t (ss, bs, qs) = Ok (ss', bs', qs') /\ Forall2 stwin ss ss' /\ Forall2 btwin bs bs' /\ I qs'.
    Proof.
      intros S B Is. unfold rope_pass. rewrite solve_bends_is. destruct (each_item_tot (fun c => good_b l c /\ Pb c) btwin I bsolver ltac:(intros c s [X Y]; apply Kb; assumption) bs qs B Is) as (bs' & q1 & E1 & W1 & I1). rewrite E1. cbn [bind].
      rewrite solve_stretches_is. destruct (each_item_tot (fun c => good_s l c /\ Ps c) stwin I ssolver ltac:(intros c s [X Y]; apply Ks; assumption) ss q1 S I1) as (ss' & q2 & E2 & W2 & I4). rewrite E2. cbn [bind]. exists ss', bs', q2. auto.
    Qed.
    Lemma passes_keep n ss bs qs : Forall (fun c => good_s l c /\ Ps c) ss -> Forall (fun c => good_b l c /\ Pb c) bs -> I qs ->
      exists ss' bs' qs', for_range 0 n (fun _ => rope_pass dt t) (ss, bs, qs) = Ok (ss', bs', qs') /\ Forall2 stwin ss ss' /\ Forall2 btwin bs bs' /\ I qs'.
    Proof.
      intros S B Is. unfold for_range.
      destruct (for_from_tot (fun s => Forall2 stwin ss (fst (fst s)) /\ Forall2 btwin bs (snd (fst s)) /\ I (snd s)) (fun _ => rope_pass dt t)) with (n := n - 0) (lo := 0) (s := (ss, bs, qs)) as ([[ss' bs'] qs'] & E & W).
      - intros _ [[s b] q] (Ws & Wb & Iq). cbn [fst snd] in *. destruct (pass_keeps s b q) as (s' & b' & q' & E & Ws' & Wb' & I').
        + revert Ws S. apply twins_good. intros c c' W [X Y]. split; [eapply stwin_good; eauto|eauto].
        + revert Wb B. apply twins_good. intros c c' W [X Y]. split; [eapply btwin_good; eauto|eauto].
        + exact Iq.
        + exists (s', b', q'). split; [exact E|]. cbn [fst snd]. split; [exact (Forall2_trans _ stwin_trans _ _ _ Ws Ws')|]. split; [exact (Forall2_trans _ btwin_trans _ _ _ Wb Wb')|exact I'].
      - cbn [fst snd]. split; [apply Forall2_refl, stwin_refl|]. split; [apply Forall2_refl, btwin_refl|exact Is].
      - cbn [fst snd] in W. exists ss', bs', qs'. tauto.
    Qed.
  End Keep.

  (** ** the masses and binding positions stay *)
  Definition same_points (qs qs' : list pt) : Prop := Forall2 kin qs qs'.
  Lemma kin_refl q : kin q q.
  Proof. split; reflexivity. Qed.
  Lemma kin_trans a b c : kin a b -> kin b c -> kin a c.
  Proof. intros [A B] [C D]. split; congruence. Qed.
  Lemma same_ims qs qs' : same_points qs qs' -> ims qs' = ims qs.
  Proof. intros F. induction F as [|q q' l l' [_ H] F IH]; cbn; [reflexivity|]. f_equal; auto. Qed.
  Lemma kin_upd qs0 qs i q q' : same_points qs0 qs -> nth_error qs i = Some q -> kin q q' -> same_points qs0 (upd qs i q').
  Proof.
    intros F. revert i. induction F as [|a b l l' K F IH]; intros i N W; destruct i as [|i]; cbn in *; try discriminate.
    - inversion N; subst. constructor; [eapply kin_trans; eauto|exact F].
    - constructor; [exact K|]. eapply IH; eauto.
  Qed.
  Definition k2 (q1 q2 q1' q2' : pt) : Prop := kin q1 q1' /\ kin q2 q2'.
  Definition k3 (q1 q2 q3 q1' q2' q3' : pt) : Prop := kin q1 q1' /\ kin q2 q2' /\ kin q3 q3'.
  Lemma same_2 qs0 qs i1 i2 q1 q2 q1' q2' : same_points qs0 qs -> i1 <> i2 -> nth_error qs i1 = Some q1 -> nth_error qs i2 = Some q2 -> k2 q1 q2 q1' q2' -> same_points qs0 (upd (upd qs i1 q1') i2 q2').
  Proof. intros F N N1 N2 [A B]. eapply kin_upd; [eapply kin_upd; eauto| |exact B]. rewrite nth_upd_ne by exact N. exact N2. Qed.
  Lemma same_3 qs0 qs i1 i2 i3 q1 q2 q3 q1' q2' q3' : same_points qs0 qs -> i1 <> i2 -> i1 <> i3 -> i2 <> i3 -> nth_error qs i1 = Some q1 -> nth_error qs i2 = Some q2 -> nth_error qs i3 = Some q3 ->
    k3 q1 q2 q3 q1' q2' q3' -> same_points qs0 (upd (upd (upd qs i1 q1') i2 q2') i3 q3').
  Proof. intros F N N' N'' N1 N2 N3 (A & B & C). eapply kin_upd; [eapply same_2; eauto; split; eauto| |exact C]. rewrite !nth_upd_ne by auto. exact N3. Qed.

  Ltac cases E := repeat match type of E with
    | context [match ?x with Datatypes.pair _ _ => _ end] => destruct x as [? ?]
    | context [if ?b then _ else _] => destruct b; try discriminate E
    end.
  Ltac out E := cbv zeta in E; cases E; try discriminate E; unfold bend_move in E; inversion E; subst; clear E.
  Lemma pull_kin {C} k m1 m2 len (c : C) q1 q2 c' q1' q2' : pbd_pull k m1 m2 len c q1 q2 = Some (c', q1', q2') -> c' = c /\ k2 q1 q2 q1' q2'.
  Proof. unfold pbd_pull. intros E. out E. repeat split. Qed.
  Ltac done3 := split; [first [apply btwin_refl | eexists; reflexivity]|repeat split].
  Lemma bend_solver_kin dt t qs0 c qs : good_b (ims qs0) c -> same_points qs0 qs -> exists c' qs', bsolver dt t c qs = Ok (c', qs') /\ btwin c c' /\ same_points qs0 qs'.
  Proof.
    intros G F. pose proof (fun c f => keep2b (ims qs0) (same_points qs0) k2 (same_ims qs0) (same_2 qs0) c f qs) as K2. pose proof (fun c f => keep3 (ims qs0) (same_points qs0) k3 (same_ims qs0) (same_3 qs0) c f qs) as K3. unfold bsolver. destruct (tu_bending t).
    - exists c, qs. repeat split; [apply btwin_refl|exact F].
    - apply K3; [exact G|exact F|]. intros q1 q2 q3 c' q1' q2' q3' _ _ _ E. out E; done3.
    - apply K3; [exact G|exact F|]. intros q1 q2 q3 c' q1' q2' q3' _ _ _ E. out E; done3.
    - apply K2; [exact G|exact F|]. intros q1 q2 c' q1' q2' _ _ E. apply pull_kin in E. destruct E as [-> E]. split; [apply btwin_refl|exact E].
    - apply K3; [exact G|exact F|]. intros q1 q2 q3 c' q1' q2' q3' _ _ _ E. out E; done3.
    - apply K3; [exact G|exact F|]. intros q1 q2 q3 c' q1' q2' q3' _ _ _ E. out E; done3.
  Qed.
  Lemma force_kin dt t qs0 c qs : good_b (ims qs0) c -> same_points qs0 qs -> exists c' qs', bend_force dt t c qs = Ok (c', qs') /\ btwin c c' /\ same_points qs0 qs'.
  Proof.
    intros G F. apply (keep3 (ims qs0) (same_points qs0) k3 (same_ims qs0) (same_3 qs0) c); [exact G|exact F|]. intros q1 q2 q3 c' q1' q2' q3' _ _ _ E. out E; done3.
  Qed.
  Lemma stretch_solver_kin dt t qs0 c qs : good_s (ims qs0) c -> same_points qs0 qs -> exists c' qs', ssolver dt t c qs = Ok (c', qs') /\ stwin c c' /\ same_points qs0 qs'.
  Proof.
    intros G F. pose proof (fun c f => keep2s (ims qs0) (same_points qs0) k2 (same_ims qs0) (same_2 qs0) c f qs) as K2. unfold ssolver. destruct (tu_stretching t).
    - apply K2; [exact G|exact F|]. intros q1 q2 c' q1' q2' _ _ E. apply pull_kin in E. destruct E as [-> E]. split; [apply stwin_refl|exact E].
    - apply K2; [exact G|exact F|]. intros q1 q2 c' q1' q2' _ _ E. out E. split; [eexists; reflexivity|repeat split].
  Qed.

  (** ** calls *)
  Lemma same_map (f : pt -> pt) qs : (forall q, kin q (f q)) -> same_points qs (map f qs).
  Proof. intros H. induction qs; cbn; constructor; auto. Qed.
  Lemma same_trans a b c : same_points a b -> same_points b c -> same_points a c.
  Proof. apply Forall2_trans, kin_trans. Qed.
  Lemma same_length a b : same_points a b -> length b = length a.
  Proof. intros F. induction F; cbn; auto. Qed.
  Lemma Forall2_map {A B} (R : A -> A -> Prop) (f : A -> A) (g : A -> B) : (forall a b, R a b -> g b = g a) -> forall l l', Forall2 R l l' -> map g l' = map g l.
  Proof. intros H l l' F. induction F; cbn; [reflexivity|]. f_equal; auto. Qed.
  Lemma wf_like r r' : same_points (ro_points r) (ro_points r') -> Forall2 stwin (ro_stretch r) (ro_stretch r') -> Forall2 btwin (ro_bend r) (ro_bend r') -> wf r -> wf r'.
  Proof.
    intros P S B ((S1 & B1) & G & H). assert (L := same_length _ _ P). assert (M := same_ims _ _ P). split; [split|split].
    - rewrite L. rewrite <- S1. apply (Forall2_map stwin (fun c => c)) with (2 := S). intros a b (x & ->). reflexivity.
    - rewrite L. rewrite <- B1. apply (Forall2_map btwin (fun c => c)) with (2 := B). intros a b (x & ->). reflexivity.
    - rewrite M. revert S G. apply twins_good. intros c c' W. now apply stwin_good.
    - rewrite M. revert B H. apply twins_good. intros c c' W. now apply btwin_good.
  Qed.
  Lemma Forall2_map_r {A} (R : A -> A -> Prop) (f : A -> A) l : (forall a, R a (f a)) -> Forall2 R l (map f l).
  Proof. intros H. induction l; cbn; auto. Qed.
  Lemma step_parts dt n pos r : nlt (nofZ 0) dt = true -> wf r -> neqb dt (nofZ 0) = false ->
    let t := ro_tuning r in let qs := map (drive dt (ro_gravity r) pos (tu_damping t)) (ro_points r) in
    exists qs1 ss' bs' qs', (match tu_bending t with SpringAngleBending => each_item (bend_force dt t) (ro_bend r) qs | _ => Ok (ro_bend r, qs) end) = Ok (ro_bend r, qs1) /\
      for_range 0 n (fun _ => rope_pass dt t) (map (fun c => st_with_lambda c (nofZ 0)) (ro_stretch r), map (fun c => be_with_lambda c (nofZ 0)) (ro_bend r), map (go dt) qs1) = Ok (ss', bs', qs') /\
      Forall2 stwin (ro_stretch r) ss' /\ Forall2 btwin (ro_bend r) bs' /\ same_points (ro_points r) qs' /\
      step dt n pos r = Ok (Rope (ro_position r) (map (settle (ndiv (nofZ 1) dt)) qs') ss' bs' (ro_gravity r) t).
  Proof.
    intros D (St & G & H) Z t qs. assert (F0 : same_points (ro_points r) qs) by (apply same_map; intros q; unfold drive; destruct (nlt (nofZ 0) (rp_im q)); repeat split).
    assert (X : exists qs1, (match tu_bending t with SpringAngleBending => each_item (bend_force dt t) (ro_bend r) qs | _ => Ok (ro_bend r, qs) end) = Ok (ro_bend r, qs1) /\ same_points (ro_points r) qs1).
    { assert (Y : exists qs1, each_item (bend_force dt t) (ro_bend r) qs = Ok (ro_bend r, qs1) /\ same_points (ro_points r) qs1).
      { destruct (each_item_tot (good_b (ims (ro_points r))) eq (same_points (ro_points r)) (bend_force dt t)) with (cs := ro_bend r) (s := qs) as (bs & qs1 & E & W & I1); [|exact H|exact F0|].
        - intros c s Gc Fs. destruct (force_kin dt t (ro_points r) c s Gc Fs) as (c' & qs' & E & W & F). exists c', qs'. split; [exact E|]. split; [|exact F].
          unfold bend_force, on3 in E. destruct (get s (be_i1 c)) as [q1| |]; try discriminate. destruct (get s (be_i2 c)) as [q2| |]; try discriminate. destruct (get s (be_i3 c)) as [q3| |]; try discriminate. cbn [bind] in E. revert E.
          match goal with |- match ?o with _ => _ end = _ -> _ => destruct o as [[[[c1 a1] a2] a3]|] eqn:O end; intros E; [|now inversion E].
          assert (c1 = c) as -> by (out O; reflexivity). destruct (set s (be_i1 c) a1) as [s1| |]; try discriminate. cbn [bind] in E. destruct (set s1 (be_i2 c) a2) as [s2| |]; try discriminate. cbn [bind] in E. destruct (set s2 (be_i3 c) a3) as [s3| |]; try discriminate. cbn [bind] in E. now inversion E.
        - assert (ro_bend r = bs) as <- by (clear - W; induction W; congruence). eauto. }
      destruct (tu_bending t); eauto. }
    destruct X as (qs1 & X & F1). 
    destruct (passes_keep (ims (ro_points r)) (same_points (ro_points r)) dt t (fun _ => True) (fun _ => True) D) with (n := n) (ss := map (fun c => st_with_lambda c (nofZ 0)) (ro_stretch r)) (bs := map (fun c => be_with_lambda c (nofZ 0)) (ro_bend r)) (qs := map (go dt) qs1) as (ss' & bs' & qs' & E & Ws & Wb & F').
    - auto. 
    - auto. 
    - intros c s Gc _ Is. now apply bend_solver_kin. 
    - intros c s Gc _ Is. now apply stretch_solver_kin. 
    - apply Forall_map. eapply Forall_impl; [|exact G]. intros c Gc. split; [|exact I]. exact Gc. 
    - apply Forall_map. eapply Forall_impl; [|exact H]. intros c Gc. split; [|exact I]. exact Gc.
    - apply (same_trans _ qs1); [exact F1|]. apply same_map. intros q. split; reflexivity.
    - exists qs1, ss', bs', qs'. split; [exact X|]. split; [exact E|]. split; [|split; [|split; [exact F'|]]].
      + eapply Forall2_trans; [exact stwin_trans| |exact Ws]. apply Forall2_map_r. intros c. eexists; reflexivity.
      + eapply Forall2_trans; [exact btwin_trans| |exact Wb]. apply Forall2_map_r. intros c. eexists; reflexivity.
      + unfold step. rewrite Z. cbv zeta. fold t. fold qs. rewrite X. cbn [bind]. rewrite E. reflexivity.
  Qed.
  Lemma step_total dt n pos r : neqb dt (nofZ 0) = true \/ nlt (nofZ 0) dt = true -> wf r -> exists r', step dt n pos r = Ok r' /\ wf r'.
  Proof.
    intros D W. destruct (neqb dt (nofZ 0)) eqn:Z; [exists r; unfold step; rewrite Z; auto|]. destruct D as [D|D]; [discriminate|].
    destruct (step_parts dt n pos r D W Z) as (qs1 & ss' & bs' & qs' & _ & _ & Ws & Wb & F & E). eexists. split; [exact E|]. apply (wf_like r); cbn [ro_points ro_stretch ro_bend]; auto.
    apply (same_trans _ qs'); [exact F|]. apply same_map. intros q. split; reflexivity.
  Qed.
  Lemma tuning_wf t r : wf r -> wf (set_tuning t r).
  Proof.
    intros ((S1 & B1) & G & H). assert (X : forall l c, good_s l c -> good_s l (tune_stretch t c)) by (intros l c Gc; unfold tune_stretch; cbv zeta; destruct (neqb _ _); exact Gc).
    assert (Y : forall l c, good_b l c -> good_b l (tune_bend t c)) by (intros l c Gc; unfold tune_bend; cbv zeta; destruct (neqb _ _); [|destruct (neqb _ _)]; exact Gc).
    unfold wf, strung, set_tuning. cbn [ro_points ro_stretch ro_bend]. rewrite !map_map. split; [split|split].
    - rewrite <- S1. apply map_ext. intros c. unfold tune_stretch. cbv zeta. destruct (neqb _ _); reflexivity.
    - rewrite <- B1. apply map_ext. intros c. unfold tune_bend. cbv zeta. destruct (neqb _ _); [|destruct (neqb _ _)]; reflexivity.
    - apply Forall_map. eapply Forall_impl; [|exact G]. intros c. apply X.
    - apply Forall_map. eapply Forall_impl; [|exact H]. intros c. apply Y.
  Qed.
  Lemma reset_wf p r : wf r -> wf (reset p r).
  Proof.
    intros W. apply (wf_like r); cbn [reset ro_points ro_stretch ro_bend]; auto.
    - apply same_map. intros q. split; reflexivity.
    - apply Forall2_map_r. intros c. eexists; reflexivity.
    - apply Forall2_map_r. intros c. eexists; reflexivity.
  Qed.
  Lemma new_bend_inv qs i c b : new_bend qs i c = Ok b -> be_i1 b = i /\ be_i2 b = i + 1 /\ be_i3 b = i + 2 /\ exists q1 q2 q3, nth_error qs i = Some q1 /\ nth_error qs (i + 1) = Some q2 /\ nth_error qs (i + 2) = Some q3 /\ be_m1 b = rp_im q1 /\ be_m2 b = rp_im q2 /\ be_m3 b = rp_im q3 /\
    be_l1 b = b2_distance_vec2 (rp_p q1) (rp_p q2) /\ be_l2 b = b2_distance_vec2 (rp_p q2) (rp_p q3).
  Proof.
    unfold new_bend. intros E. destruct (get qs i) as [q1| |] eqn:G1; try discriminate. destruct (get qs (i + 1)) as [q2| |] eqn:G2; try discriminate. destruct (get qs (i + 2)) as [q3| |] eqn:G3; try discriminate. apply get_inv in G1, G2, G3. cbn [bind] in E. cbv zeta in E.
    destruct (neqb _ _); [|destruct (neqb _ _)]; inversion E; subst; cbn; repeat split; exists q1, q2, q3; auto 10.
  Qed.
  Lemma create_parts d r r' : create d r = Ok r' -> exists ss bs, let qs := map (new_point (rd_position d)) (rd_vertices d) in 3 <= length qs /\
    each_place (fun i _ => new_stretch qs i) 0 (resize (length (rd_vertices d) - 1) stretch_default (ro_stretch r)) = Ok ss /\ each_place (new_bend qs) 0 (resize (length (rd_vertices d) - 2) bend_default (ro_bend r)) = Ok bs /\
    r' = set_tuning (rd_tuning d) (Rope (rd_position d) qs ss bs (rd_gravity d) (ro_tuning r)).
  Proof.
    unfold create. intros E. destruct (3 <=? length (rd_vertices d)) eqn:L; [|discriminate]. cbn [b2_assert bind] in E. apply Nat.leb_le in L.
    match type of E with bind ?m _ = _ => destruct m as [ss| |] eqn:S; try discriminate end. cbn [bind] in E. match type of E with bind ?m _ = _ => destruct m as [bs| |] eqn:B; try discriminate end. cbn [bind] in E.
    exists ss, bs. cbv zeta. rewrite map_length. inversion E; subst. auto.
  Qed.
  Lemma create_wf d r r' : create d r = Ok r' -> wf r'.
  Proof.
    intros E. destruct (create_parts d r r' E) as (ss & bs & L & S & B & ->). apply tuning_wf. set (qs := map (new_point (rd_position d)) (rd_vertices d)) in *. assert (LS := each_place_length _ _ _ _ S). assert (LB := each_place_length _ _ _ _ B). rewrite resize_length in LS. rewrite resize_length in LB.
    assert (Lq : length qs = length (rd_vertices d)) by apply map_length.
    assert (HS : forall i c, nth_error ss i = Some c -> (st_i1 c, st_i2 c) = (i, i + 1) /\ good_s (ims qs) c).
    { intros i c N. destruct (each_place_nth _ _ _ _ S i c N) as (x & _ & F). cbn [Nat.add] in F. unfold new_stretch in F. destruct (get qs i) as [q1| |] eqn:G1; try discriminate. destruct (get qs (i + 1)) as [q2| |] eqn:G2; try discriminate. apply get_inv in G1, G2. cbn [bind] in F.
      inversion F; subst. cbn. split; [reflexivity|]. unfold good_s. cbn. split; [reflexivity|]. unfold ims. rewrite !nth_error_map, G1, G2. auto. }
    assert (HB : forall i c, nth_error bs i = Some c -> (be_i1 c, be_i2 c, be_i3 c) = (i, i + 1, i + 2) /\ good_b (ims qs) c).
    { intros i c N. destruct (each_place_nth _ _ _ _ B i c N) as (x & _ & F). cbn [Nat.add] in F. apply new_bend_inv in F. destruct F as (E1 & E2 & E3 & q1 & q2 & q3 & N1 & N2 & N3 & M1 & M2 & M3 & _). rewrite E1, E2, E3. split; [reflexivity|]. unfold good_b. rewrite E1, E2, E3, M1, M2, M3. unfold ims. rewrite !nth_error_map, N1, N2, N3. auto. }
    unfold wf, strung. cbn [ro_points ro_stretch ro_bend]. rewrite Lq. split; [split|split].
    - apply map_nth_eq; [exact LS|]. intros i c N. apply (HS i c N).
    - apply map_nth_eq; [exact LB|]. intros i c N. apply (HB i c N).
    - apply Forall_forall. intros c Hc. apply In_nth_error in Hc. destruct Hc as [i N]. apply (HS i c N).
    - apply Forall_forall. intros c Hc. apply In_nth_error in Hc. destruct Hc as [i N]. apply (HB i c N).
  Qed.
  Lemma create_total d r : 3 <= length (rd_vertices d) -> exists r', create d r = Ok r'.
  Proof.
    intros L. unfold create. destruct (3 <=? length (rd_vertices d)) eqn:X; [|apply Nat.leb_gt in X; lia]. cbn [b2_assert bind]. set (qs := map (new_point (rd_position d)) (rd_vertices d)). assert (Lq : length qs = length (rd_vertices d)) by apply map_length.
    match goal with |- context [bind ?m _] => assert (Y : exists ss, m = Ok ss) end.
    { apply each_place_tot. rewrite resize_length. intros k x H. unfold new_stretch. destruct (lt_nth qs k) as (q1 & N1); [lia|]. destruct (lt_nth qs (k + 1)) as (q2 & N2); [lia|]. rewrite (get_ok _ _ _ N1), (get_ok _ _ _ N2). cbn [bind]. eauto. }
    destruct Y as (ss & ->). cbn [bind].
    match goal with |- context [bind ?m _] => assert (Y : exists bs, m = Ok bs) end.
    { apply each_place_tot. rewrite resize_length. intros k x H. unfold new_bend. destruct (lt_nth qs k) as (q1 & N1); [lia|]. destruct (lt_nth qs (k + 1)) as (q2 & N2); [lia|]. destruct (lt_nth qs (k + 2)) as (q3 & N3); [lia|]. rewrite (get_ok _ _ _ N1), (get_ok _ _ _ N2), (get_ok _ _ _ N3). cbn [bind]. cbv zeta. destruct (neqb _ _); [|destruct (neqb _ _)]; eauto. }
    destruct Y as (bs & ->). cbn [bind]. eauto.
  Qed.
  Lemma default_wf : wf rope_default.
  Proof. repeat split; constructor. Qed.
  Lemma call_total c r : fair c -> wf r -> exists r', do_call c r = Ok r' /\ wf r'.
  Proof.
    intros F W. destruct c as [d|t|dt n p|p]; cbn [do_call fair] in *.
    - destruct (create_total d r F) as (r' & E). exists r'. split; [exact E|]. exact (create_wf _ _ _ E).
    - eexists. split; [reflexivity|]. now apply tuning_wf.
    - now apply step_total.
    - eexists. split; [reflexivity|]. now apply reset_wf.
  Qed.
  Lemma calls_total cs : Forall fair cs -> forall r, wf r -> exists r', calls cs r = Ok r' /\ wf r'.
  Proof.
    intros F. induction F as [|c cs Fc F IH]; intros r W; cbn [calls]; [eauto|]. destruct (call_total c r Fc W) as (r1 & E & W1). rewrite E. cbn [bind]. apply IH, W1.
  Qed.
  Theorem rope_calls cs : Forall fair cs -> exists r, calls cs rope_default = Ok r /\ strung r.
  Proof. intros F. destruct (calls_total cs F _ default_wf) as (r & E & W & _). eauto. Qed.
End Total.
