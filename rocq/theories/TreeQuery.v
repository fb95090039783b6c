(** query: which leaves it visits, in which order. *)
From Coq Require Import List ZArith Lia Bool Arith Permutation.
From Verif Require Import Base ListFacts Num NumLaws Math Collision StackModel StackSpec StackProofs TreeModel TreeSpec TreeRep TreeBalance TreeInv TreeOps TreeRebuild TreeValid TreeHist.
Import ListNotations.

(* the calls of a stateful callback that stops by answering false *)
Fixpoint run_until {S} (cb : S -> nat -> S * bool) (s : S) (L : list nat) : S :=
  match L with
  | [] => s
  | i :: r => let '(s', go) := cb s i in if go then run_until cb s' r else s'
  end.

Section Query.
  Context {T : Type} `{NT : Num T} {U : Type}.
  Notation node := (node T U).
  Notation tree := (tree T U).
  Context {Q : aabb T -> aabb T -> aabb T -> Prop} {QB : BoxRel Q}.
  Notation rep := (rep Q).
  Notation inv := (inv Q).

  Definition nbox (ns : list node) (i : nat) : aabb T := match nth_error ns i with Some n => n_aabb n | None => aabb_default end.
  Definition hit (ns : list node) (pass : aabb T -> bool) (i : nat) : bool := pass (nbox ns i).

  (* leaves below nodes that pass the test, in the order in which they are met *)
  Fixpoint visits (ns : list node) (pass : aabb T -> bool) (s : shape) : list nat :=
    if hit ns pass (sid s) then match s with SL i => [i] | SN _ l r => visits ns pass r ++ visits ns pass l end else [].

  Lemma query_loop_ok {S} (cb : S -> nat -> S * bool) (ns : list node) b : forall fuel (st : list shape) stack s,
    gs_wf 256 stack -> gs_abs stack = map (fun x => Some (sid x)) st ->
    (forall x, In x st -> exists p, rep ns p x) -> length (flat_map ids st) <= fuel ->
    query_loop fuel ns cb s b stack = Ok (run_until cb s (flat_map (visits ns (fun n => test_overlap n b)) st)).
  Proof.
    induction fuel as [|fuel IH]; intros st stack s Hw Ha Hr Hf.
    - destruct st as [|x st].
      + cbn [query_loop]. rewrite (gs_count_ok 256), Ha by auto. reflexivity.
      + exfalso. cbn [flat_map] in Hf. rewrite app_length in Hf. pose proof (ids_leaves_len x). lia.
    - cbn [query_loop]. rewrite (gs_count_ok 256), Ha, map_length by auto.
      destruct st as [|x st]; [reflexivity|]. cbn [length Nat.ltb Nat.leb].
      destruct (gs_pop_ok 256 stack (Some (sid x)) (map (fun x => Some (sid x)) st) Hw Ha) as (stack' & -> & Hw' & Ha').
      cbn [bind]. destruct (Hr x (or_introl eq_refl)) as [p Hx].
      destruct (rep_root _ _ _ Hx) as (n & Hn & _). rewrite (get_ok _ _ _ Hn). cbn [bind].
      cbn [flat_map] in Hf. rewrite app_length in Hf. pose proof (ids_leaves_len x) as Hlen.
      assert (Hst : forall y, In y st -> exists p, rep ns p y) by (intros; apply Hr; right; auto).
      assert (Hh : hit ns (fun n => test_overlap n b) (sid x) = test_overlap (n_aabb n) b) by (unfold hit, nbox; now rewrite Hn).
      cbn [flat_map].
      destruct (test_overlap (n_aabb n) b) eqn:E.
      + destruct x as [i|i l r].
        * cbn [TreeRep.rep sid] in *. destruct Hx as (n' & Hn' & _ & H1 & _). assert (n' = n) by congruence. subst.
          unfold is_leaf. rewrite H1. cbn [visits sid app]. rewrite Hh. cbn [app run_until].
          destruct (cb s i) as [s' go]. destruct go; cbn [negb]; [|reflexivity].
          apply IH; auto. lia.
        * cbn [TreeRep.rep sid] in *. destruct Hx as ((n' & nl & nr & Hn' & Hnl & Hnr & Hp & H1 & H2 & Hhh & Hb) & Hl & Hrr).
          assert (n' = n) by congruence. subst. unfold is_leaf. rewrite H1, H2.
          destruct (gs_push_ok 256 stack' (Some (sid l)) Hw') as (st1 & -> & Hw1 & Ha1). cbn [bind].
          destruct (gs_push_ok 256 st1 (Some (sid r)) Hw1) as (st2 & -> & Hw2 & Ha2). cbn [bind].
          rewrite (IH (r :: l :: st)); auto.
          -- cbn [flat_map visits sid]. rewrite Hh. now rewrite <- !app_assoc.
          -- rewrite Ha2, Ha1, Ha'. reflexivity.
          -- intros y [<-|[<-|Hy]]; eauto.
          -- cbn [flat_map]. rewrite !app_length. cbn [ids length] in Hf. rewrite app_length in Hf. lia.
      + replace (visits ns (fun n => test_overlap n b) x) with (@nil nat) by (destruct x; cbn [visits]; cbn [sid] in *; rewrite Hh; reflexivity).
        cbn [app]. apply IH; auto. lia.
  Qed.

  (* the leaves visited by a query of [t] *)
  Definition qleaves (t : tree) (o : option shape) b : list nat :=
    match o with None => [] | Some s => visits (t_nodes t) (fun n => test_overlap n b) s end.

  Lemma query_ok {S} (cb : S -> nat -> S * bool) (t : tree) o F s b : inv t o [] F ->
    query t cb s b = Ok (run_until cb s (qleaves t o b)).
  Proof.
    intros Hinv. destruct Hinv as (A1 & A2 & A3 & A4 & A5 & A6). unfold query.
    destruct (gs_new_ok 256 (Some 0)) as [Hw Ha]. remember (gs_new (Some 0) 256) as st0.
    destruct (gs_push_ok 256 st0 (t_root t) Hw) as (st & E & Hw' & Ha'). rewrite E. cbn [bind]. rewrite Ha in Ha'.
    destruct o as [sp|]; cbn [rooted] in A6.
    - destruct A6 as [Hroot Hrep]. rewrite Hroot in *.
      rewrite (query_loop_ok cb (t_nodes t) b _ [sp]); auto.
      + cbn [flat_map qleaves]. now rewrite app_nil_r.
      + intros x [<-|[]]. eauto.
      + cbn [flat_map]. rewrite app_nil_r. cbn [oids] in A4. rewrite app_nil_r in A4. apply Permutation_length in A4.
        rewrite app_length, seq_length in A4. lia.
    - rewrite A6 in *. cbn [qleaves run_until Nat.add query_loop]. rewrite (gs_count_ok 256), Ha' by auto. cbn [length Nat.ltb Nat.leb].
      destruct (gs_pop_ok 256 st None [] Hw' Ha') as (st' & -> & Hw'' & Ha''). cbn [bind].
      destruct (length (t_nodes t)); cbn [query_loop]; rewrite (gs_count_ok 256), Ha'' by auto; reflexivity.
  Qed.

  Lemma visits_sub ns pass s : forall j, In j (visits ns pass s) -> In j (leaves s) /\ hit ns pass j = true.
  Proof.
    induction s as [i|i l IHl r IHr]; intros j; cbn [visits leaves sid]; destruct (hit ns pass i) eqn:E; try (intros []; fail).
    - intros [<-|[]]. cbn. auto.
    - rewrite !in_app_iff. intros [H|H]; [apply IHr in H|apply IHl in H]; tauto.
  Qed.
  Lemma visits_nodup ns pass s : NoDup (leaves s) -> NoDup (visits ns pass s).
  Proof.
    induction s as [i|i l IHl r IHr]; cbn [visits leaves sid]; destruct (hit ns pass i) eqn:E; intros Hnd; try constructor; auto; try constructor.
    apply NoDup_app_iff' in Hnd. destruct Hnd as (N1 & N2 & N3). apply NoDup_app_iff'. repeat split; auto.
    intros j H1 H2. apply visits_sub in H1, H2. eapply N3; [apply H2|apply H1].
  Qed.
End Query.

Lemma leaves_nodup s : NoDup (ids s) -> NoDup (leaves s).
Proof.
  induction s as [i|i l IHl r IHr]; cbn [ids leaves]; auto. rewrite NoDup_cons_iff, !NoDup_app_iff'. intros (H1 & H2 & H3 & H4).
  repeat split; auto. intros x K1 K2. apply (H4 x); apply leaves_ids; auto.
Qed.

(** ** Completeness for ordered numbers *)
Section Complete.
  Context {T : Type} `{NT : Num T} {NO : NumOrd T} {U : Type}.
  Notation node := (node T U).
  Notation tree := (tree T U).

  Lemma inside_refl (x : aabb T) : box_ok x -> inside x x.
  Proof. intros (A & B & C & D). repeat split; now apply nle_refl. Qed.
  Lemma inside_trans (x y z : aabb T) : inside x y -> inside y z -> inside x z.
  Proof. intros (A & B & C & D) (E & F & G & H). repeat split; eauto using nle_trans. Qed.
  Lemma union_inside (n x y : aabb T) : union_box n x y -> inside x n /\ inside y n.
  Proof. intros ((?&?&_) & (?&?&_) & (?&?&_) & (?&?&_)). repeat split; auto. Qed.

  (* a test that succeeds on a box succeeds on all larger boxes *)
  Definition upward (pass : aabb T -> bool) : Prop := forall x n, inside x n -> pass x = true -> pass n = true.

  Lemma visits_complete (ns : list node) pass s : upward pass -> forall p, rep ubox ns p s ->
    (forall j n, In j (leaves s) -> nth_error ns j = Some n -> box_ok (n_aabb n)) ->
    forall j, In j (leaves s) -> inside (nbox ns j) (nbox ns (sid s)) /\ (hit ns pass j = true -> In j (visits ns pass s)).
  Proof.
    intros Hup. induction s as [i|i l IHl r IHr]; intros p H HL j Hj.
    - cbn [leaves] in Hj. destruct Hj as [<-|[]]. cbn [sid visits]. destruct H as (n & Hn & _). split.
      + unfold nbox. rewrite Hn. apply inside_refl. eapply HL; eauto. cbn. auto.
      + intros ->. cbn. auto.
    - assert (HLl : forall j n, In j (leaves l) -> nth_error ns j = Some n -> box_ok (n_aabb n)) by exact (fun j n K1 K2 => HL j n (proj2 (in_app_iff _ _ _) (or_introl K1)) K2).
      assert (HLr : forall j n, In j (leaves r) -> nth_error ns j = Some n -> box_ok (n_aabb n)) by exact (fun j n K1 K2 => HL j n (proj2 (in_app_iff _ _ _) (or_intror K1)) K2).
      destruct H as ((n & nl & nr & Hn & Hnl & Hnr & Hp & H1 & H2 & Hh & Hb) & Hl & Hr).
      destruct (rep_ok _ _ _ Hl HLl) as [Kl _]. destruct (rep_ok _ _ _ Hr HLr) as [Kr _].
      destruct (union_inside _ _ _ (Hb (Kl _ Hnl) (Kr _ Hnr))) as [Il Ir].
      assert (Hi : inside (nbox ns j) (nbox ns i) /\ (hit ns pass j = true -> In j (visits ns pass r ++ visits ns pass l))).
      { cbn [leaves] in Hj. apply in_app_iff in Hj. rewrite in_app_iff. destruct Hj as [Hj|Hj].
        - destruct (IHl _ Hl HLl j Hj) as [K1 K2]. split; [|tauto]. eapply inside_trans; [exact K1|]. unfold nbox. now rewrite Hnl, Hn.
        - destruct (IHr _ Hr HLr j Hj) as [K1 K2]. split; [|tauto]. eapply inside_trans; [exact K1|]. unfold nbox. now rewrite Hnr, Hn. }
      destruct Hi as [Hi1 Hi2]. cbn [sid]. split; auto. intros Hp'. cbn [visits sid].
      replace (hit ns pass i) with true; auto. symmetry. unfold hit in *. eapply Hup; eauto.
  Qed.

  Lemma overlap_sep (a b : aabb T) : test_overlap a b = true <-> ~ separated a b.
  Proof.
    unfold test_overlap, separated. cbn [vsub vx vy]. cbn zeta. rewrite !nsub_pos.
    destruct (nlt (vx (hi a)) (vx (lo b))), (nlt (vy (hi a)) (vy (lo b))), (nlt (vx (hi b)) (vx (lo a))), (nlt (vy (hi b)) (vy (lo a))); cbn;
      split; intros H; try discriminate; try tauto; try (exfalso; tauto); intros K; intuition discriminate.
  Qed.
  Lemma nlt_le_trans (x y z : T) : nle x y = true -> nlt y z = true -> nlt x z = true.
  Proof.
    intros H1 H2. destruct (nle_ok _ _ H1) as [Hx Hy]. destruct (nlt_ok _ _ H2) as [_ Hz]. rewrite nlt_nle in * by auto.
    apply negb_true_iff. apply negb_true_iff in H2. destruct (nle z x) eqn:E; auto. rewrite (nle_trans _ _ _ E H1) in H2. discriminate.
  Qed.
  Lemma nlt_le_trans' (x y z : T) : nlt x y = true -> nle y z = true -> nlt x z = true.
  Proof.
    intros H1 H2. destruct (nlt_ok _ _ H1) as [Hx Hy]. destruct (nle_ok _ _ H2) as [_ Hz]. rewrite nlt_nle in * by auto.
    apply negb_true_iff. apply negb_true_iff in H1. destruct (nle z x) eqn:E; auto. rewrite (nle_trans _ _ _ H2 E) in H1. discriminate.
  Qed.
  Lemma overlap_upward (b : aabb T) : upward (fun n => test_overlap n b).
  Proof.
    intros x n (I1 & I2 & I3 & I4) H. apply overlap_sep. apply overlap_sep in H. intros K. apply H.
    unfold separated in *. destruct K as [K|[K|[K|K]]]; eauto 6 using nlt_le_trans, nlt_le_trans'.
  Qed.

  Lemma query_complete (t : tree) (m : pmap) b : sim (Q:=ubox) t m -> (forall id e, m id = Some e -> box_ok (fst (fst e))) ->
    exists L, NoDup L /\
      (forall id, In id L <-> exists fb u f, m id = Some (fb, u, f) /\ ~ separated fb b) /\
      forall S (cb : S -> nat -> S * bool) s, query t cb s b = Ok (run_until cb s L).
  Proof.
    intros (o & F & I & C) Hok. exists (qleaves t o b).
    pose proof (sim_live t m o F I C) as HL.
    split; [|split; [|intros; eapply query_ok; eauto]].
    - destruct o as [s|]; [|constructor]. apply visits_nodup. apply leaves_nodup.
      pose proof (inv_nodup _ _ _ _ I) as Hnd. rewrite app_nil_r in Hnd. apply NoDup_app_iff' in Hnd. tauto.
    - intros id. destruct o as [s|]; cbn [qleaves].
      2:{ split; [intros []|]. intros (fb & u & f & Hm & _). rewrite <- C in Hm. discriminate. }
      assert (Hlk : forall j n, In j (leaves s) -> nth_error (t_nodes t) j = Some n -> m j = Some (payload n)).
      { intros j n Hj Hn. rewrite <- C, content_in, Hn by auto. reflexivity. }
      split.
      + intros H. apply visits_sub in H. destruct H as [H1 H2]. destruct (inv_leaf_node _ _ _ _ _ I H1) as (n & Hn & _).
        exists (n_aabb n), (n_user n), (n_moved n). split; [now apply Hlk|]. apply overlap_sep. unfold hit, nbox in H2. now rewrite Hn in H2.
      + intros (fb & u & f & Hm & Hs). assert (H1 : In id (leaves s)) by (apply HL; unfold live; congruence).
        destruct (inv_leaf_node _ _ _ _ _ I H1) as (n & Hn & _).
        destruct I as (_ & _ & _ & _ & _ & [_ Hrep]).
        apply (visits_complete (t_nodes t) _ s (overlap_upward b) None Hrep); auto.
        * intros j n' Hj Hn'. apply (Hok j (payload n')). auto.
        * unfold hit, nbox. rewrite Hn. apply overlap_sep. rewrite (Hlk _ _ H1 Hn) in Hm. now injection Hm as ->.
  Qed.
End Complete.
