(** Invariant of the dynamic tree pool and the behaviour of the public operations. *)
From Coq Require Import List ZArith Lia Bool Arith Permutation.
From Verif Require Import Base ListFacts Num Math Collision StackModel TreeModel TreeRep TreeBalance.
Import ListNotations.

Definition oids (o : option shape) : list nat := match o with None => [] | Some s => ids s end.
Definition oleaves (o : option shape) : list nat := match o with None => [] | Some s => leaves s end.

Lemma Permutation_nodup_seq L n : Permutation L (seq 0 n) -> NoDup L.
Proof. intros H. eapply Permutation_NoDup; [symmetry; exact H | apply seq_NoDup]. Qed.

Lemma nodup_len_le (L : list nat) n : NoDup L -> (forall j, In j L -> j < n) -> length L <= n.
Proof.
  intros Hnd H. rewrite <- (seq_length n 0). apply NoDup_incl_length; auto.
  intros j Hj. apply in_seq. specialize (H j Hj). lia.
Qed.

Lemma perm_mv (a : nat) o X F : Permutation ((o ++ a :: X) ++ F) ((o ++ X) ++ a :: F).
Proof. rewrite <- !app_assoc. apply Permutation_app_head. cbn. apply Permutation_middle. Qed.

Ltac invsplit := split; [|split; [|split; [|split; [|split]]]].

Section Inv.
  Context {T : Type} `{NT : Num T} {U : Type}.
  Notation node := (node T U).
  Notation tree := (tree T U).
  Context {Q : aabb T -> aabb T -> aabb T -> Prop} {QB : BoxRel Q}.
  Notation rep := (rep Q).
  Notation repc := (repc Q).
  Notation rep0 := (rep0 Q).

  (** free list starting at [p] visits exactly [F] *)
  Fixpoint chain (ns : list node) (p : option nat) (F : list nat) : Prop :=
    match F with
    | [] => p = None
    | i :: F' => p = Some i /\ exists n, nth_error ns i = Some n /\ n_height n = (-1)%Z /\ chain ns (n_parent n) F'
    end.

  Lemma chain_ext ns ns' F : forall p, (forall j, In j F -> nth_error ns' j = nth_error ns j) -> chain ns p F -> chain ns' p F.
  Proof.
    induction F as [|i F IH]; intros p H; cbn [chain]; auto.
    intros (-> & n & Hn & Hh & Hc). split; auto. exists n. rewrite H by (cbn; auto). repeat split; auto.
    apply IH; auto. intros j Hj. apply H. cbn; auto.
  Qed.

  Definition rooted (t : tree) (o : option shape) : Prop :=
    match o with None => t_root t = None | Some s => t_root t = Some (sid s) /\ rep (t_nodes t) None s end.

  (** [o]: the tree; [X]: allocated nodes not in the tree; [F]: the free list *)
  Definition inv (t : tree) (o : option shape) (X F : list nat) : Prop :=
    t_cap t = length (t_nodes t) /\ 1 <= t_cap t /\
    t_count t = length (oids o ++ X) /\
    Permutation ((oids o ++ X) ++ F) (seq 0 (t_cap t)) /\
    chain (t_nodes t) (t_free t) F /\
    rooted t o.

  Lemma inv_nodup t o X F : inv t o X F -> NoDup ((oids o ++ X) ++ F).
  Proof. intros (_ & _ & _ & H & _). eapply Permutation_nodup_seq; eauto. Qed.
  Lemma inv_lt t o X F j : inv t o X F -> In j ((oids o ++ X) ++ F) -> j < length (t_nodes t).
  Proof.
    intros (Hc & _ & _ & H & _) Hj. eapply Permutation_in in Hj; [|exact H]. apply in_seq in Hj. lia.
  Qed.

  Lemma rooted_ext t t' o : t_root t' = t_root t ->
    (forall j, In j (oids o) -> nth_error (t_nodes t') j = nth_error (t_nodes t) j) -> rooted t o -> rooted t' o.
  Proof.
    intros Hr He. destruct o as [s|]; cbn [rooted oids] in *; [|congruence].
    intros [H1 H2]. split; [congruence|]. apply (rep_ext (t_nodes t)); auto.
  Qed.

  (** building a free list *)
  Lemma link_free_ok is : forall ns : list node, NoDup is -> (forall i, In i is -> i < length ns) ->
    exists ns', link_free ns is = Ok ns' /\ length ns' = length ns /\
      (forall j, ~ In j is -> nth_error ns' j = nth_error ns j) /\
      (forall j, In j is -> exists n, nth_error ns' j = Some n /\ n_height n = (-1)%Z /\ n_parent n = Some (j + 1)).
  Proof.
    induction is as [|i is IH]; intros ns Hnd Hlt; cbn [link_free].
    - exists ns. repeat split; auto. intros j [].
    - inversion Hnd as [|? ? Hni Hnd']; subst.
      destruct (lt_nth ns i) as [n Hn]; [apply Hlt; cbn; auto|].
      rewrite (modn_ok _ _ _ _ Hn). cbn [bind].
      destruct (IH (upd ns i (set_height (set_parent n (Some (i + 1))) (-1)%Z))) as (ns' & E & L & H1 & H2); auto.
      { intros k Hk. rewrite length_upd. apply Hlt. cbn; auto. }
      exists ns'. rewrite E. split; auto. rewrite L, length_upd. split; auto. split.
      + intros j Hj. cbn in Hj. rewrite H1 by tauto. apply nth_upd_ne. intros ->. auto.
      + intros j [->|Hj]; auto. rewrite H1 by auto. rewrite nth_upd_eq by (eapply nth_lt; eauto). eauto.
  Qed.

  Lemma chain_seq (ns : list node) k : forall from,
    (forall j, from <= j < from + k -> exists n, nth_error ns j = Some n /\ n_height n = (-1)%Z /\
        n_parent n = if Nat.eqb (j + 1) (from + k) then None else Some (j + 1)) ->
    0 < k -> chain ns (Some from) (seq from k).
  Proof.
    induction k as [|k IH]; intros from H Hk; [lia|].
    cbn [seq chain]. split; auto. destruct (H from) as (n & Hn & Hh & Hp); [lia|].
    exists n. repeat split; auto. rewrite Hp.
    destruct (Nat.eqb_spec (from + 1) (from + S k)) as [E|E].
    - assert (k = 0) by lia. subst. reflexivity.
    - replace (from + 1) with (S from) by lia. apply IH; [|lia].
      intros j Hj. destruct (H j) as (n' & Hn' & Hh' & Hp'); [lia|]. exists n'. repeat split; auto.
      rewrite Hp'. replace (from + S k) with (S from + k) by lia. reflexivity.
  Qed.

  Lemma build_free_ok (ns : list node) from cap : from < cap -> length ns = cap ->
    exists ns', build_free ns from cap = Ok ns' /\ length ns' = cap /\
      (forall j, j < from -> nth_error ns' j = nth_error ns j) /\ chain ns' (Some from) (seq from (cap - from)).
  Proof.
    intros Hlt Hlen. unfold build_free.
    destruct (link_free_ok (seq from (cap - 1 - from)) ns) as (ns1 & E & L & H1 & H2).
    { apply seq_NoDup. } { intros i Hi. apply in_seq in Hi. lia. }
    rewrite E. cbn [bind]. destruct (lt_nth ns1 (cap - 1)) as [n Hn]; [lia|].
    rewrite (modn_ok _ _ _ _ Hn). eexists. split; [reflexivity|]. rewrite length_upd. split; [lia|]. split.
    - intros j Hj. rewrite nth_upd_ne by lia. apply H1. rewrite in_seq. lia.
    - apply chain_seq; [|lia]. intros j Hj.
      replace (from + (cap - from)) with cap by lia.
      destruct (Nat.eqb_spec (j + 1) cap) as [Ej|Ej].
      + replace j with (cap - 1) by lia. rewrite nth_upd_eq by lia. eexists. split; [reflexivity|]. auto.
      + rewrite nth_upd_ne by lia. apply H2. apply in_seq. lia.
  Qed.

  Lemma tree_new_ok : exists t, tree_new = Ok t /\ inv t None [] (seq 0 16).
  Proof.
    unfold tree_new. destruct (build_free_ok (repeat node_default 16) 0 16) as (ns & E & L & _ & Hc); [lia|reflexivity|].
    rewrite E. cbn [bind]. eexists. split; [reflexivity|].
    invsplit; cbn [t_cap t_nodes t_count t_free t_root oids app length]; auto; try lia. reflexivity.
  Qed.

  Lemma grow_ok t o X : inv t o X [] -> exists t' F', grow t = Ok t' /\ inv t' o X F' /\ F' <> [] /\
    t_root t' = t_root t /\ t_ins t' = t_ins t /\
    (forall j, j < length (t_nodes t) -> nth_error (t_nodes t') j = nth_error (t_nodes t) j).
  Proof.
    intros (Hcap & H1 & Hcnt & Hperm & Hch & Hroot). rewrite app_nil_r in Hperm.
    assert (Hfull : t_count t = t_cap t).
    { rewrite Hcnt, (Permutation_length Hperm). apply seq_length. }
    unfold grow. rewrite Hfull, Nat.eqb_refl. cbn [b2_assert bind].
    cbn zeta.
    set (ns := t_nodes t ++ repeat node_default (t_cap t * 2 - length (t_nodes t))).
    destruct (build_free_ok ns (t_cap t) (t_cap t * 2)) as (ns' & E & L & Hlow & Hc); [lia| |].
    { unfold ns. rewrite app_length, repeat_length. lia. }
    rewrite E. cbn [bind].
    exists (Tree (t_root t) ns' (t_cap t) (t_cap t * 2) (Some (t_cap t)) (t_ins t)), (seq (t_cap t) (t_cap t)).
    replace (t_cap t * 2 - t_cap t) with (t_cap t) in Hc by lia.
    assert (Hlow' : forall j, j < length (t_nodes t) -> nth_error ns' j = nth_error (t_nodes t) j).
    { intros j Hj. rewrite Hlow by lia. unfold ns. now rewrite nth_error_app1 by auto. }
    split; [reflexivity|].
    assert (Hlt : forall j, In j (oids o) -> j < length (t_nodes t)).
    { intros j Hj. assert (Hj' : In j (oids o ++ X)) by (apply in_app_iff; auto).
      eapply Permutation_in in Hj'; [|exact Hperm]. apply in_seq in Hj'. lia. }
    split; [|split; [|split; [reflexivity|split; [reflexivity|exact Hlow']]]].
    - invsplit; cbn [t_cap t_nodes t_count t_free]; auto; try lia.
      + replace (t_cap t * 2) with (t_cap t + t_cap t) by lia. rewrite seq_app. now apply Permutation_app_tail.
      + apply (rooted_ext t); auto.
    - destruct (t_cap t); [lia|]. discriminate.
  Qed.

  Definition fresh_node (n : node) : node :=
    set_moved (set_user (set_height (set_child2 (set_child1 (set_parent n None) None) None) 0%Z) None) false.

  Lemma allocate_ok t o X F : inv t o X F ->
    exists t' id F' n, allocate_node t = Ok (t', id) /\ inv t' o (id :: X) F' /\
      t_root t' = t_root t /\ t_ins t' = t_ins t /\
      nth_error (t_nodes t') id = Some (fresh_node n) /\ ~ In id (oids o ++ X) /\
      (forall j, In j (oids o ++ X) -> nth_error (t_nodes t') j = nth_error (t_nodes t) j).
  Proof.
    intros Hinv.
    assert (Hg : exists t1 F1, (match t_free t with None => grow t | Some _ => Ok t end) = Ok t1 /\ inv t1 o X F1 /\ F1 <> [] /\
      t_root t1 = t_root t /\ t_ins t1 = t_ins t /\
      (forall j, In j (oids o ++ X) -> nth_error (t_nodes t1) j = nth_error (t_nodes t) j)).
    { destruct F as [|f F].
      - destruct Hinv as (A1 & A2 & A3 & A4 & A5 & A6) eqn:Ei. clear Ei. cbn [chain] in A5. rewrite A5.
        destruct (grow_ok t o X) as (t1 & F1 & E & I1 & N1 & R1 & R2 & Hs); auto.
        exists t1, F1. split; [exact E|]. repeat split; auto; try apply I1.
        intros j Hj. apply Hs. eapply inv_lt; eauto. apply in_app_iff. auto.
      - exists t, (f :: F). destruct Hinv as (A1 & A2 & A3 & A4 & A5 & A6). destruct A5 as [Ef A5]. rewrite Ef.
        repeat split; auto. discriminate. }
    destruct Hg as (t1 & F1 & E & I1 & N1 & R1 & R2 & Hs).
    unfold allocate_node. rewrite E. cbn [bind].
    destruct F1 as [|id F1]; [congruence|].
    pose proof (inv_nodup _ _ _ _ I1) as Hnd.
    destruct I1 as (A1 & A2 & A3 & A4 & (Ef & n & Hn & Hh & Hc) & A6).
    rewrite Ef. cbn [unwrap bind]. rewrite (get_ok _ _ _ Hn). cbn [bind].
    pose proof (nth_lt _ _ _ Hn) as Lid.
    rewrite set_ok by auto. cbn [bind].
    apply NoDup_remove in Hnd. destruct Hnd as [Hnd Hni]. rewrite in_app_iff in Hni.
    exists (Tree (t_root t1) (upd (t_nodes t1) id (fresh_node n)) (t_count t1 + 1) (t_cap t1) (n_parent n) (t_ins t1)), id, F1, n.
    split; [reflexivity|].
    assert (Hs' : forall j, j <> id -> nth_error (upd (t_nodes t1) id (fresh_node n)) j = nth_error (t_nodes t1) j).
    { intros j Hj. apply nth_upd_ne. auto. }
    split; [|split; [exact R1|split; [exact R2|split; [|split]]]]; cbn [t_nodes].
    - invsplit; cbn [t_cap t_nodes t_count t_free]; auto.
      + now rewrite length_upd.
      + rewrite A3, !app_length. cbn. lia.
      + rewrite <- A4. apply perm_mv.
      + apply (chain_ext (t_nodes t1)); auto. intros j Hj. apply Hs'. intros ->. auto.
      + apply (rooted_ext t1); auto. intros j Hj. apply Hs'. intros ->. apply Hni. left. apply in_app_iff. auto.
    - apply nth_upd_eq. auto.
    - tauto.
    - intros j Hj. rewrite Hs'; auto. intros ->. auto.
  Qed.

  (** free_node on an allocated node that is not in the tree *)
  Lemma free_ok t o X1 X2 F id : inv t o (X1 ++ id :: X2) F ->
    exists t', free_node t id = Ok t' /\ inv t' o (X1 ++ X2) (id :: F) /\ t_root t' = t_root t /\ t_ins t' = t_ins t /\
      (forall j, j <> id -> nth_error (t_nodes t') j = nth_error (t_nodes t) j).
  Proof.
    intros Hinv. pose proof (inv_nodup _ _ _ _ Hinv) as Hnd.
    assert (Lid : id < length (t_nodes t)).
    { eapply inv_lt; eauto. rewrite !in_app_iff. cbn. auto. }
    destruct Hinv as (A1 & A2 & A3 & A4 & A5 & A6).
    destruct (lt_nth _ _ Lid) as [n Hn].
    unfold free_node. rewrite A1. apply Nat.ltb_lt in Lid as Lid'. rewrite Lid'. cbn [b2_assert bind].
    assert (Hpos : 0 < t_count t). { rewrite A3, !app_length. cbn. lia. }
    apply Nat.ltb_lt in Hpos as Hpos'. rewrite Hpos'. cbn [b2_assert bind].
    rewrite (modn_ok _ _ _ _ Hn). cbn [bind].
    eexists. split; [reflexivity|].
    set (nn := set_height (set_parent n (t_free t)) (-1)%Z).
    assert (Hs' : forall j, j <> id -> nth_error (upd (t_nodes t) id nn) j = nth_error (t_nodes t) j).
    { intros j Hj. apply nth_upd_ne. auto. }
    assert (Hni : ~ In id (oids o) /\ ~ In id F).
    { rewrite app_assoc, <- app_assoc in Hnd. cbn in Hnd. apply NoDup_remove in Hnd. destruct Hnd as [_ Hn'].
      rewrite !in_app_iff in Hn'. tauto. }
    split; [|split; [reflexivity|split; [reflexivity|exact Hs']]].
    invsplit; cbn [t_cap t_nodes t_count t_free]; auto.
    - now rewrite length_upd.
    - rewrite A1 in A2. exact A2.
    - rewrite A3, !app_length. cbn. lia.
    - rewrite <- A1, <- A4. rewrite !(app_assoc _ X1). symmetry. apply perm_mv.
    - cbn [chain]. split; auto. exists nn. rewrite nth_upd_eq by auto. split; auto. split; auto.
      apply (chain_ext (t_nodes t)); auto. intros j Hj. apply Hs'. intros ->. tauto.
    - apply (rooted_ext t); auto. intros j Hj. apply Hs'. intros ->. tauto.
  Qed.

  (** zipper access *)
  Lemma rep_plug (ns : list node) c : forall s, rep ns None (plug s c) -> rep ns (par c) s /\ repc ns (sid s) c.
  Proof.
    induction c as [|[[i side] sib] c IH]; intros s H; cbn [plug par repc] in *.
    - auto.
    - apply IH in H. destruct H as [H Hc].
      assert (Hc' : repc ns i c) by (destruct side; exact Hc).
      destruct side; cbn [mkN] in H; apply rep_rep0 in H; destruct H as ((n & Hn & Hp & H1 & H2) & Hl & Hr);
        (split; [assumption|]); (split; [exists n; auto|]); auto.
  Qed.

  Lemma plug_app s c1 c2 : plug s (c1 ++ c2) = plug (plug s c1) c2.
  Proof. revert s. induction c1 as [|[[i side] sib] c1 IH]; intros s; cbn [plug app]; auto. Qed.

  Lemma ids_len_pos s : 1 <= length (ids s).
  Proof. destruct s; cbn; lia. Qed.

  Lemma descend_ok (ns : list node) b s : forall p fuel, rep ns p s -> length (ids s) <= fuel ->
    exists sub c, descend fuel ns b (sid s) = Ok (sid sub) /\ s = plug sub c.
  Proof.
    induction s as [i|i l IHl r IHr]; intros p fuel H Hf.
    - destruct H as (n & Hn & _ & H1 & _). exists (SL i), []. split; auto.
      destruct fuel; cbn [descend sid]; rewrite (get_ok _ _ _ Hn); cbn [bind]; unfold is_leaf; now rewrite H1.
    - destruct H as ((n & nl & nr & Hn & Hnl & Hnr & Hp & H1 & H2 & Hh & Hb) & Hl & Hr).
      cbn [ids length] in Hf. rewrite app_length in Hf.
      destruct fuel as [|fuel]; [lia|].
      cbn [descend sid]. rewrite (get_ok _ _ _ Hn). cbn [bind]. unfold is_leaf at 1. rewrite H1, H2.
      rewrite (getp_ok _ _ _ Hnl), (getp_ok _ _ _ Hnr). cbn [bind unwrap].
      destruct (_ && _). { exists (SN i l r), []. auto. }
      destruct (nlt _ _).
      + destruct (IHl (Some i) fuel Hl) as (sub & c & E & Es); [lia|].
        exists sub, (c ++ [(i, true, r)]). rewrite E. split; auto. rewrite plug_app, <- Es. reflexivity.
      + destruct (IHr (Some i) fuel Hr) as (sub & c & E & Es); [lia|].
        exists sub, (c ++ [(i, false, l)]). rewrite E. split; auto. rewrite plug_app, <- Es. reflexivity.
  Qed.

  Lemma leaf_zip s j : In j (leaves s) -> exists c, s = plug (SL j) c.
  Proof.
    induction s as [i|i l IHl r IHr]; cbn [leaves].
    - intros [->|[]]. exists []. reflexivity.
    - intros H. apply in_app_iff in H. destruct H as [H|H].
      + destruct (IHl H) as [c E]. exists (c ++ [(i, true, r)]). rewrite plug_app, <- E. reflexivity.
      + destruct (IHr H) as [c E]. exists (c ++ [(i, false, l)]). rewrite plug_app, <- E. reflexivity.
  Qed.

  Lemma ctx_len c : length c <= length (cids c).
  Proof. induction c as [|[[i side] sib] c IH]; cbn [cids length]; [lia|]. rewrite app_length. lia. Qed.

  Lemma cids_par c i : par c = Some i -> In i (cids c).
  Proof. destruct c as [|[[k side] sib] c]; cbn; [discriminate|]. intros H. injection H as ->. auto. Qed.

  Definition leaf_like (n : node) : Prop := n_child1 n = None /\ n_child2 n = None /\ n_height n = 0%Z.

  (** replacing the child pointer of the parent of the focus *)
  Lemma swap_child (ns : list node) k k' c (f : node -> node) :
    repc ns k c -> ~ In k (cids c) -> NoDup (cids c) ->
    (forall n, f n = if opt_eqb (n_child1 n) (Some k) then set_child1 n (Some k') else set_child2 n (Some k')) ->
    exists ns', (match par c with Some op => modn ns op f | None => Ok ns end) = Ok ns' /\
      repc ns' k' c /\ length ns' = length ns /\ (forall j, par c <> Some j -> nth_error ns' j = nth_error ns j) /\
      pkeep ns ns'.
  Proof.
    intros H Hk Hnd Hf. destruct c as [|[[i side] sib] c]; cbn [par repc] in *.
    - exists ns. repeat split; auto. apply pkeep_refl.
    - destruct H as ((n & Hn & Hp & H1 & H2) & Hs & Hc). rewrite (modn_ok _ _ _ _ Hn).
      cbn [cids] in *. rewrite Hf.
      set (n' := if opt_eqb (n_child1 n) (Some k) then set_child1 n (Some k') else set_child2 n (Some k')).
      assert (Hks : k <> sid sib).
      { intros ->. apply Hk. right. apply in_app_iff. left. apply sid_in. }
      assert (Hn' : n_parent n' = par c /\ n_child1 n' = Some (if side then k' else sid sib) /\
                    n_child2 n' = Some (if side then sid sib else k')).
      { unfold n'. rewrite H1. destruct side.
        - rewrite opt_eqb_refl. cbn. auto.
        - rewrite opt_eqb_neq by congruence. cbn. auto. }
      destruct Hn' as (K1 & K2 & K3).
      apply NoDup_cons_iff in Hnd. destruct Hnd as [Hni Hnd]. rewrite in_app_iff in Hni.
      eexists. split; [reflexivity|]. split; [|split; [apply length_upd|split]].
      + split; [|split].
        * exists n'. rewrite nth_upd_eq by (eapply nth_lt; eauto). auto.
        * apply (rep_ext ns); auto. intros j Hj. apply nth_upd_ne. intros ->. tauto.
        * apply (repc_ext ns); auto. intros j Hj. apply nth_upd_ne. intros ->. tauto.
      + intros j Hj. apply nth_upd_ne. congruence.
      + eapply pkeep_upd; eauto. intro K. exfalso. congruence.
  Qed.

  (** payload of the listed nodes is kept (only the parent link may change) *)
  Definition pay (L : list nat) (ns ns' : list node) : Prop :=
    forall j n, In j L -> nth_error ns j = Some n -> exists q, nth_error ns' j = Some (set_parent n q).

  Lemma set_parent2 (n : node) p q : set_parent (set_parent n p) q = set_parent n q.
  Proof. destruct n; reflexivity. Qed.
  Lemma pay_refl L ns : pay L ns ns.
  Proof. intros j n _ H. exists (n_parent n). now rewrite set_parent_id. Qed.
  Lemma pay_trans L a b c : pay L a b -> pay L b c -> pay L a c.
  Proof.
    intros H1 H2 j n Hj Hn. destruct (H1 j n Hj Hn) as [q Hq]. destruct (H2 j _ Hj Hq) as [q' Hq'].
    rewrite set_parent2 in Hq'. eauto.
  Qed.
  Lemma pay_sub L L' a b : (forall j, In j L' -> In j L) -> pay L a b -> pay L' a b.
  Proof. intros H1 H2 j n Hj Hn. eauto. Qed.
  Lemma pay_same L a b : (forall j, In j L -> nth_error b j = nth_error a j) -> pay L a b.
  Proof. intros H j n Hj Hn. exists (n_parent n). rewrite set_parent_id, H; auto. Qed.

  Lemma insert_ok t o F leaf n :
    inv t o [leaf] F -> nth_error (t_nodes t) leaf = Some n -> leaf_like n ->
    exists t' s' F', insert_leaf t leaf = Ok t' /\ inv t' (Some s') [] F' /\
      Permutation (leaves s') (leaf :: oleaves o) /\ pay (leaf :: oleaves o) (t_nodes t) (t_nodes t').
  Proof.
    intros Hinv Hn (HL1 & HL2 & HL3).
    set (t0 := Tree (t_root t) (t_nodes t) (t_count t) (t_cap t) (t_free t) (t_ins t + 1)).
    assert (Hinv0 : inv t0 o [leaf] F).
    { destruct Hinv as (A1 & A2 & A3 & A4 & A5 & A6). invsplit; auto. }
    unfold insert_leaf. fold t0. change (t_root t) with (t_root t0). change (t_nodes t) with (t_nodes t0).
    destruct o as [s|].
    2:{ (* empty tree *)
      destruct Hinv0 as (A1 & A2 & A3 & A4 & A5 & A6). cbn [rooted oids app] in *. rewrite A6.
      rewrite (modn_ok _ _ _ _ Hn). cbn [bind].
      pose proof (nth_lt _ _ _ Hn) as Ll.
      eexists _, (SL leaf), F. split; [reflexivity|].
      assert (Hs : forall j, j <> leaf -> nth_error (upd (t_nodes t0) leaf (set_parent n None)) j = nth_error (t_nodes t0) j).
      { intros j Hj. apply nth_upd_ne. auto. }
      split; [|split].
      - invsplit; cbn [t_cap t_nodes t_count t_free with_root with_nodes t_root sid rooted]; auto.
        + now rewrite length_upd.
        + apply (chain_ext (t_nodes t0)); auto. intros j Hj. apply Hs. intros ->.
          apply Permutation_nodup_seq in A4. inversion A4; auto.
        + split; [reflexivity|]. exists (set_parent n None). cbn [t_nodes with_root with_nodes]. rewrite nth_upd_eq by exact Ll. cbn; auto.
      - reflexivity.
      - cbn [t_nodes with_root with_nodes oleaves]. intros j m [<-|[]] Hm.
        rewrite nth_upd_eq by exact Ll. assert (m = n) by (change (t_nodes t0) with (t_nodes t) in *; congruence). subst. eauto. }
    destruct Hinv0 as (A1 & A2 & A3 & A4 & A5 & A6) eqn:Ei. clear Ei. destruct A6 as [Hroot Hrep]. rewrite Hroot.
    change (nth_error (t_nodes t0) leaf = Some n) in Hn.
    rewrite (get_ok _ _ _ Hn). cbn [bind]. cbn [oids] in *.
    assert (Hlen0 : length (ids s) <= length (t_nodes t0)).
    { rewrite <- A1, <- (seq_length (t_cap t0) 0), <- (Permutation_length A4), !app_length. lia. }
    destruct (descend_ok (t_nodes t0) (n_aabb n) s None (length (t_nodes t0)) Hrep Hlen0) as (sub & c & Ed & Es).
    rewrite Ed. cbn [bind]. subst s.
    destruct (rep_plug _ _ _ Hrep) as [Hsub Hctx].
    destruct (rep_root _ _ _ Hsub) as (sn & Esn & Epn & Ehn).
    rewrite (get_ok _ _ _ Esn). cbn [bind]. rewrite Epn.
    destruct (allocate_ok t0 (Some (plug sub c)) [leaf] F) as (t1 & np & F' & fn & Ea & I1 & R1 & R2 & Hnp & Hni & Hsame); auto.
    rewrite Ea. cbn [bind].
    assert (Hin_plug : forall j, In j (ids sub ++ cids c) <-> In j (ids (plug sub c))).
    { intros j. split; apply Permutation_in; [symmetry|]; apply plug_ids. }
    assert (Hsame' : forall j, In j (leaf :: ids sub ++ cids c) -> nth_error (t_nodes t1) j = nth_error (t_nodes t0) j).
    { intros j Hj. apply Hsame. cbn [oids]. apply in_app_iff. destruct Hj as [<-|Hj]; [right; cbn; auto|].
      left. now apply Hin_plug. }
    assert (Sn1 : nth_error (t_nodes t1) (sid sub) = Some sn).
    { rewrite Hsame'; auto. right. apply in_app_iff. left. apply sid_in. }
    assert (Ln1 : nth_error (t_nodes t1) leaf = Some n).
    { rewrite Hsame'; auto. cbn. auto. }
    rewrite (get_ok _ _ _ Sn1). cbn [bind].
    rewrite (modn_ok _ _ _ _ Hnp). cbn [bind].
    (* disjointness *)
    assert (HndA : NoDup (np :: leaf :: ids sub ++ cids c)).
    { pose proof (inv_nodup _ _ _ _ I1) as K. apply NoDup_app_iff' in K. destruct K as (K & _).
      eapply Permutation_NoDup; [|exact K]. cbn [oids].
      rewrite (Permutation_app_comm (ids (plug sub c))). cbn. do 2 constructor. apply plug_ids. }
    assert (D : np <> leaf /\ ~ In np (ids sub) /\ ~ In np (cids c) /\ ~ In leaf (ids sub) /\ ~ In leaf (cids c) /\
                NoDup (ids sub) /\ NoDup (cids c) /\ (forall j, In j (ids sub) -> ~ In j (cids c))).
    { clear - HndA. rewrite !NoDup_cons_iff, NoDup_app_iff' in HndA. cbn [In] in HndA. rewrite !in_app_iff in HndA.
      repeat split; intuition congruence. }
    destruct D as (D1 & D2 & D3 & D4 & D5 & D6 & D7 & D8).
    pose proof (sid_in sub) as Ssub.
    assert (S1 : sid sub <> np) by (intros <-; auto). assert (S2 : sid sub <> leaf) by (intros <-; auto).
    assert (S3 : ~ In (sid sub) (cids c)) by auto.
    set (NP1 := set_height _ _).
    set (ns2 := upd (t_nodes t1) np NP1).
    assert (Lnp : np < length (t_nodes t1)) by (eapply nth_lt; eauto).
    assert (E2 : forall j, j <> np -> nth_error ns2 j = nth_error (t_nodes t1) j).
    { intros j Hj. apply nth_upd_ne. auto. }
    assert (E2np : nth_error ns2 np = Some NP1) by (apply nth_upd_eq; auto).
    assert (Hctx2 : repc ns2 (sid sub) c).
    { apply (repc_ext (t_nodes t0)); auto. intros j Hj. rewrite E2 by (intros ->; auto). apply Hsame'. right. apply in_app_iff. auto. }
    assert (Hsub2 : rep ns2 (par c) sub).
    { apply (rep_ext (t_nodes t0)); auto. intros j Hj. rewrite E2 by (intros ->; auto). apply Hsame'. right. apply in_app_iff. auto. }
    destruct (swap_child ns2 (sid sub) np c (fun n0 => if opt_eqb (n_child1 n0) (Some (sid sub)) then set_child1 n0 (Some np)
                   else set_child2 n0 (Some np)) Hctx2 (D8 _ Ssub) D7) as (ns3 & Esw & Hctx3 & L3 & E3 & PK3); auto.
    rewrite Esw. cbn [bind].
    assert (E3' : forall j, ~ In j (cids c) -> nth_error ns3 j = nth_error ns2 j).
    { intros j Hj. apply E3. intro K. apply Hj. now apply cids_par. }
    assert (E3np : nth_error ns3 np = Some NP1) by (rewrite E3' by auto; auto).
    rewrite (modn_ok _ _ _ _ E3np). cbn [bind].
    set (NP := set_child2 (set_child1 NP1 (Some (sid sub))) (Some leaf)).
    set (ns4 := upd ns3 np NP).
    assert (L4 : length ns4 = length (t_nodes t1)).
    { unfold ns4. rewrite length_upd, L3. unfold ns2. now rewrite length_upd. }
    assert (E4 : forall j, j <> np -> nth_error ns4 j = nth_error ns3 j).
    { intros j Hj. apply nth_upd_ne. auto. }
    assert (Sn4 : nth_error ns4 (sid sub) = Some sn).
    { rewrite E4, E3', E2 by auto. auto. }
    rewrite (modn_ok _ _ _ _ Sn4). cbn [bind].
    set (ns5 := upd ns4 (sid sub) (set_parent sn (Some np))).
    assert (E5 : forall j, j <> sid sub -> nth_error ns5 j = nth_error ns4 j).
    { intros j Hj. apply nth_upd_ne. auto. }
    assert (Ln5 : nth_error ns5 leaf = Some n).
    { rewrite E5, E4, E3', E2 by auto. auto. }
    rewrite (modn_ok _ _ _ _ Ln5). cbn [bind].
    set (ns6 := upd ns5 leaf (set_parent n (Some np))).
    assert (E6 : forall j, j <> leaf -> nth_error ns6 j = nth_error ns5 j).
    { intros j Hj. apply nth_upd_ne. auto. }
    assert (L6 : length ns6 = length (t_nodes t1)).
    { unfold ns6, ns5. now rewrite !length_upd. }
    assert (Ln6 : nth_error ns6 leaf = Some (set_parent n (Some np))).
    { apply nth_upd_eq. unfold ns5. rewrite length_upd, L4. eapply nth_lt; eauto. }
    set (t2 := match par c with Some _ => with_nodes t1 ns6 | None => with_root (with_nodes t1 ns6) (Some np) end).
    assert (T2 : t2 = Tree (Some (croot np c)) ns6 (t_count t1) (t_cap t1) (t_free t1) (t_ins t1)).
    { unfold t2. destruct c as [|[[k side] sib] c]; cbn [par croot]; auto.
      unfold with_nodes. rewrite R1. cbn [t_root t0] in Hroot. change (t_root t0) with (t_root t). rewrite Hroot. rewrite sid_plug. reflexivity. }
    rewrite T2. cbn [t_nodes]. rewrite (get_ok _ _ _ Ln6). cbn [bind n_parent set_parent].
    set (t3 := Tree _ ns6 _ _ _ _).
    assert (E6c : forall j, In j (cids c) -> nth_error ns6 j = nth_error ns3 j).
    { intros j Hj. rewrite E6 by (intros ->; auto). rewrite E5 by (intros ->; apply (D8 (sid sub)); auto).
      apply E4. intros ->; auto. }
    assert (Hsub6 : rep ns6 (Some np) sub).
    { apply (rep_reparent ns2 ns6 (par c) (Some np) sub sn); auto.
      - rewrite E2 by auto. auto.
      - rewrite E6 by auto. apply nth_upd_eq. rewrite L4. eapply nth_lt; eauto.
      - intros j Hj Hne. rewrite E6 by (intros ->; auto). rewrite E5 by auto. rewrite E4 by (intros ->; auto). apply E3'. auto. }
    assert (Hnp6 : nth_error ns6 np = Some NP).
    { rewrite E6 by auto. rewrite E5 by auto. apply nth_upd_eq. rewrite L3. unfold ns2. now rewrite length_upd. }
    assert (Hctx6 : repc ns6 leaf ((np, false, sub) :: c)).
    { cbn [repc]. split; [|split; auto].
      - exists NP. repeat split; auto.
      - apply (repc_ext ns3); auto. }
    destruct I1 as (B1 & B2 & B3 & B4 & B5 & B6).
    assert (Hcidslt : forall j, In j (np :: leaf :: ids sub ++ cids c) -> j < length (t_nodes t1)).
    { intros j Hj. assert (K : In j ((oids (Some (plug sub c)) ++ [np; leaf]) ++ F')).
      { apply in_app_iff. left. cbn [oids]. apply in_app_iff. cbn [In] in *. rewrite <- Hin_plug. tauto. }
      eapply Permutation_in in K; [|exact B4]. apply in_seq in K. lia. }
    destruct (fix_up_ok ((np, false, sub) :: c) t3 (SL leaf) (length ns6)) as (t' & s' & Ef & Et' & Hrep' & P3 & P4 & Hso & Hpk).
    - cbn [par rep]. exists (set_parent n (Some np)). repeat split; auto.
    - exact Hctx6.
    - cbn [ids cids app]. eapply Permutation_NoDup; [|exact HndA]. apply perm_swap.
    - reflexivity.
    - cbn [t_cap t_nodes t3]. now rewrite L6.
    - assert (length (np :: leaf :: ids sub ++ cids c) <= length (t_nodes t1)) by (apply nodup_len_le; auto).
      cbn [length] in *. rewrite app_length in *. pose proof (ctx_len c). lia.
    - cbn [par] in Ef. rewrite Ef. exists t', s', F'. split; [reflexivity|].
      assert (Pids : Permutation (ids s') (oids (Some (plug sub c)) ++ [np; leaf])).
      { rewrite P3. cbn [ids cids app oids]. etransitivity; [apply perm_swap|].
        etransitivity; [|apply Permutation_app_comm]. cbn [app]. do 2 constructor. symmetry. apply plug_ids. }
      split; [|split].
      + rewrite Et'. cbn [t3 t_count t_cap t_free t_ins].
        destruct Hso as [Lso Hso]. cbn [t_nodes t3] in Lso, Hso.
        invsplit; cbn [t_cap t_nodes t_count t_free oids t_root rooted]; auto.
        * rewrite Lso, L6. exact B1.
        * rewrite B3. rewrite app_nil_r. apply Permutation_length. symmetry. exact Pids.
        * rewrite app_nil_r, Pids. exact B4.
        * apply (chain_ext (t_nodes t1)); auto. intros j Hj.
          assert (K : ~ In j (np :: leaf :: ids sub ++ cids c)).
          { intro K. apply Permutation_nodup_seq in B4. apply NoDup_app_iff' in B4. destruct B4 as (_ & _ & B4).
            apply (B4 j); auto. cbn [oids]. apply in_app_iff. cbn [In] in *. rewrite <- Hin_plug. tauto. }
          rewrite Hso.
          2:{ cbn [ids cids app In] in *. tauto. }
          cbn [In] in K. rewrite in_app_iff in K.
          rewrite E6, E5, E4, E3', E2; auto; try tauto; intros ->; tauto.
      + rewrite P4. cbn [leaves cleaves app oleaves]. constructor. symmetry. apply plug_leaves.
      + apply (pay_trans _ _ ns6).
        * intros j m Hj Hm. cbn [oleaves] in Hj. destruct Hj as [<-|Hj].
          { assert (m = n) by (change (t_nodes t0) with (t_nodes t) in *; congruence). subst. eauto. }
          assert (Hjs : In j (ids sub ++ cids c)) by (apply Hin_plug; apply leaves_ids; exact Hj).
          assert (Hm1 : nth_error (t_nodes t1) j = Some m).
          { rewrite Hsame'; auto. right. auto. }
          assert (Jnp : j <> np). { intros ->. apply in_app_iff in Hjs. tauto. }
          assert (Jl : j <> leaf). { intros ->. apply in_app_iff in Hjs. tauto. }
          assert (Jc : n_child1 m = None). { destruct (rep_leaf _ _ _ _ Hrep Hj) as (m' & Em & K & _). congruence. }
          assert (Hm2 : nth_error ns2 j = Some m) by (rewrite E2; auto).
          destruct (PK3 j m Hm2 Jc) as [q Hq].
          destruct (Nat.eq_dec j (sid sub)) as [->|Js].
          { exists (Some np). rewrite E6 by auto. rewrite <- (set_parent2 m q). unfold ns5. rewrite nth_upd_eq.
            - assert (m = sn) by congruence. subst. now rewrite set_parent2.
            - rewrite L4. eapply nth_lt; eauto. }
          exists q. rewrite E6, E5, E4; auto.
        * intros j m Hj Hm. apply (Hpk j m Hm).
          cbn [oleaves] in Hj. destruct Hj as [<-|Hj].
          { rewrite Ln6 in Hm. injection Hm as <-. cbn. auto. }
          assert (Hrep3 : In j (ids sub ++ cids c)) by (apply Hin_plug; apply leaves_ids; exact Hj).
          destruct (rep_leaf _ _ _ _ Hrep Hj) as (m' & Em & K & _).
          assert (Hm1 : nth_error (t_nodes t1) j = Some m') by (rewrite Hsame' by (right; auto); auto).
          assert (Jnp : j <> np). { intros ->. apply in_app_iff in Hrep3. tauto. }
          assert (Jl : j <> leaf). { intros ->. apply in_app_iff in Hrep3. tauto. }
          assert (Hm2 : nth_error ns2 j = Some m') by (rewrite E2; auto).
          destruct (PK3 j m' Hm2 K) as [q Hq].
          rewrite E6 in Hm by auto. destruct (Nat.eq_dec j (sid sub)) as [->|Js].
          { unfold ns5 in Hm. rewrite nth_upd_eq in Hm by (rewrite L4; eapply nth_lt; eauto).
            injection Hm as <-. cbn. congruence. }
          rewrite E5, E4 in Hm by auto. rewrite Hq in Hm. injection Hm as <-. cbn. auto.
  Qed.
End Inv.
Arguments inv {T U} Q t o X F.
Arguments rooted {T U} Q t o.
