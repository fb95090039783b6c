(** Representation of the node pool by an abstract binary tree; balance and the walk up. *)
From Coq Require Import List ZArith Lia Bool Arith Permutation.
From Verif Require Import Base ListFacts Num Math Collision StackModel TreeModel.
Import ListNotations.

(** Abstract binary tree over node ids. *)
Inductive shape := SL (i : nat) | SN (i : nat) (l r : shape).

Definition sid (s : shape) : nat := match s with SL i => i | SN i _ _ => i end.
Fixpoint ids (s : shape) : list nat := match s with SL i => [i] | SN i l r => i :: ids l ++ ids r end.
Fixpoint leaves (s : shape) : list nat := match s with SL i => [i] | SN i l r => leaves l ++ leaves r end.
Fixpoint sh (s : shape) : Z := match s with SL _ => 0%Z | SN _ l r => (1 + Z.max (sh l) (sh r))%Z end.

Lemma sid_in s : In (sid s) (ids s).
Proof. destruct s; cbn; auto. Qed.
Lemma leaves_ids s j : In j (leaves s) -> In j (ids s).
Proof. induction s as [i|i l IHl r IHr]; cbn; auto. rewrite !in_app_iff. tauto. Qed.
Lemma sh_nonneg s : (0 <= sh s)%Z.
Proof. induction s; cbn [sh]; lia. Qed.
Lemma ids_leaves_len s : length (ids s) = 2 * length (leaves s) - 1 /\ 1 <= length (leaves s).
Proof. induction s as [i|i l IHl r IHr]; cbn; [lia|]. rewrite !app_length. lia. Qed.

Section Rep.
  Context {T : Type} `{NT : Num T} {U : Type}.
  Notation node := (node T U).
  Notation tree := (tree T U).

  Definition boxeq (b x y : aabb T) : Prop := b = combine x y \/ b = combine y x.

  (** what is required of the box of an internal node; [boxeq] is the strongest choice *)
  Class BoxRel (Q : aabb T -> aabb T -> aabb T -> Prop) := {
    box_l : forall x y, Q (combine x y) x y;
    box_r : forall x y, Q (combine y x) x y }.
  Global Instance boxeq_rel : BoxRel boxeq.
  Proof. split; intros; [left | right]; reflexivity. Qed.
  Global Instance anybox_rel : BoxRel (fun _ _ _ => True).
  Proof. split; intros; exact I. Qed.

  Context {Q : aabb T -> aabb T -> aabb T -> Prop} {QB : BoxRel Q}.

  Fixpoint rep (ns : list node) (p : option nat) (s : shape) : Prop :=
    match s with
    | SL i => exists n, nth_error ns i = Some n /\ n_parent n = p /\ n_child1 n = None /\ n_child2 n = None
                        /\ n_height n = 0%Z
    | SN i l r =>
      (exists n nl nr, nth_error ns i = Some n /\ nth_error ns (sid l) = Some nl /\ nth_error ns (sid r) = Some nr /\
         n_parent n = p /\ n_child1 n = Some (sid l) /\ n_child2 n = Some (sid r) /\
         n_height n = (1 + Z.max (n_height nl) (n_height nr))%Z /\
         Q (n_aabb n) (n_aabb nl) (n_aabb nr)) /\
      rep ns (Some i) l /\ rep ns (Some i) r
    end.

  Lemma rep_ext ns ns' s : forall p,
    (forall j, In j (ids s) -> nth_error ns' j = nth_error ns j) -> rep ns p s -> rep ns' p s.
  Proof.
    induction s as [i|i l IHl r IHr]; intros p Hext; cbn [rep ids] in *.
    - rewrite Hext by (cbn; auto). auto.
    - intros ((n & nl & nr & H1 & H2 & H3 & Hr) & Hl & Hrr). split; [|split].
      + exists n, nl, nr. rewrite !Hext; auto; cbn; rewrite in_app_iff; auto using sid_in.
      + apply IHl; auto. intros j Hj. apply Hext. cbn. rewrite in_app_iff. auto.
      + apply IHr; auto. intros j Hj. apply Hext. cbn. rewrite in_app_iff. auto.
  Qed.

  Lemma rep_root ns p s : rep ns p s ->
    exists n, nth_error ns (sid s) = Some n /\ n_parent n = p /\ n_height n = sh s.
  Proof.
    revert p. induction s as [i|i l IHl r IHr]; intros p; cbn [rep sid sh].
    - intros (n & H & ? & ? & ? & ?). eauto.
    - intros ((n & nl & nr & H1 & H2 & H3 & H4 & H5 & H6 & H7 & H8) & Hl & Hr).
      destruct (IHl _ Hl) as (nl' & El & _ & Ehl). destruct (IHr _ Hr) as (nr' & Er & _ & Ehr).
      assert (nl' = nl) by congruence. assert (nr' = nr) by congruence. subst.
      exists n. rewrite H7, Ehl, Ehr. auto.
  Qed.

  Lemma rep_in ns p s j : rep ns p s -> In j (ids s) -> exists n, nth_error ns j = Some n.
  Proof.
    revert p. induction s as [i|i l IHl r IHr]; intros p; cbn [rep ids].
    - intros (n & H & _) [->|[]]. eauto.
    - intros ((n & nl & nr & H & _) & Hl & Hr) [->|Hj]; eauto.
      apply in_app_iff in Hj. destruct Hj; eauto.
  Qed.

  Lemma rep_leaf ns p s j : rep ns p s -> In j (leaves s) ->
    exists n, nth_error ns j = Some n /\ n_child1 n = None /\ n_child2 n = None /\ n_height n = 0%Z.
  Proof.
    revert p. induction s as [i|i l IHl r IHr]; intros p; cbn [rep leaves].
    - intros (n & H & ? & ? & ? & ?) [->|[]]. eauto.
    - intros (_ & Hl & Hr) Hj. apply in_app_iff in Hj. destruct Hj; eauto.
  Qed.

  Lemma rep_reparent ns ns' p q s n :
    rep ns p s -> NoDup (ids s) -> nth_error ns (sid s) = Some n ->
    nth_error ns' (sid s) = Some (set_parent n q) ->
    (forall j, In j (ids s) -> j <> sid s -> nth_error ns' j = nth_error ns j) ->
    rep ns' q s.
  Proof.
    destruct s as [i|i l r]; cbn [rep sid ids]; intros H Hnd Hn Hn' Hext.
    - destruct H as (n0 & H & ? & ? & ? & ?). assert (n0 = n) by congruence. subst.
      exists (set_parent n q). cbn. auto.
    - destruct H as ((n0 & nl & nr & H1 & H2 & H3 & H4 & H5 & H6 & H7 & H8) & Hl & Hr).
      assert (n0 = n) by congruence. subst. ndup.
      assert (Hli : forall j, In j (ids l) -> nth_error ns' j = nth_error ns j).
      { intros j Hj. apply Hext; [right; apply in_app_iff; auto|]. intros ->. auto. }
      assert (Hri : forall j, In j (ids r) -> nth_error ns' j = nth_error ns j).
      { intros j Hj. apply Hext; [right; apply in_app_iff; auto|]. intros ->. auto. }
      split; [|split; eapply rep_ext; eauto].
      exists (set_parent n q), nl, nr. rewrite (Hli (sid l)), (Hri (sid r)) by apply sid_in. cbn. repeat split; auto.
  Qed.

  (** Zipper context, innermost frame first: (id of the parent node, focus is child1?, sibling). *)
  Definition frame := (nat * bool * shape)%type.
  Definition ctx := list frame.

  Definition par (c : ctx) : option nat := match c with [] => None | (i, _, _) :: _ => Some i end.
  Definition mkN (i : nat) (side : bool) (s sib : shape) : shape := if side then SN i s sib else SN i sib s.
  Fixpoint plug (s : shape) (c : ctx) : shape :=
    match c with [] => s | (i, side, sib) :: c' => plug (mkN i side s sib) c' end.
  Fixpoint cids (c : ctx) : list nat := match c with [] => [] | (i, _, sib) :: c' => i :: ids sib ++ cids c' end.
  Fixpoint cleaves (c : ctx) : list nat := match c with [] => [] | (_, _, sib) :: c' => leaves sib ++ cleaves c' end.
  Fixpoint croot (k : nat) (c : ctx) : nat := match c with [] => k | (i, _, _) :: c' => croot i c' end.

  (* frames may carry stale heights and boxes *)
  Fixpoint repc (ns : list node) (k : nat) (c : ctx) : Prop :=
    match c with
    | [] => True
    | (i, side, sib) :: c' =>
      (exists n, nth_error ns i = Some n /\ n_parent n = par c' /\
         n_child1 n = Some (if side then k else sid sib) /\ n_child2 n = Some (if side then sid sib else k)) /\
      rep ns (Some i) sib /\ repc ns i c'
    end.

  Lemma plug_ids s c : Permutation (ids (plug s c)) (ids s ++ cids c).
  Proof.
    revert s. induction c as [|[[i side] sib] c IH]; intros s; cbn.
    - now rewrite app_nil_r.
    - rewrite IH. destruct side; cbn.
      + rewrite <- app_assoc. apply Permutation_middle.
      + rewrite <- app_assoc, (Permutation_app_comm (ids sib)), <- app_assoc.
        rewrite (Permutation_app_comm (cids c)). apply Permutation_middle.
  Qed.

  Lemma plug_leaves s c : Permutation (leaves (plug s c)) (leaves s ++ cleaves c).
  Proof.
    revert s. induction c as [|[[i side] sib] c IH]; intros s; cbn.
    - now rewrite app_nil_r.
    - rewrite IH. destruct side; cbn.
      + now rewrite <- app_assoc.
      + now rewrite (Permutation_app_comm (leaves sib)), <- app_assoc.
  Qed.

  Lemma sid_plug s c : sid (plug s c) = croot (sid s) c.
  Proof. revert s. induction c as [|[[i side] sib] c IH]; intros s; cbn; auto. rewrite IH. now destruct side. Qed.

  Lemma repc_ext ns ns' k c :
    (forall j, In j (cids c) -> nth_error ns' j = nth_error ns j) -> repc ns k c -> repc ns' k c.
  Proof.
    revert k. induction c as [|[[i side] sib] c IH]; intros k Hext; cbn [repc cids] in *; auto.
    intros ((n & Hn & ?) & Hs & Hc). split; [|split].
    - exists n. rewrite Hext by (cbn; auto). auto.
    - apply (rep_ext ns); auto. intros j Hj. apply Hext. right. apply in_app_iff; auto.
    - apply IH; auto. intros j Hj. apply Hext. right. apply in_app_iff; auto.
  Qed.

  Lemma repc_in ns k c j : repc ns k c -> In j (cids c) -> exists n, nth_error ns j = Some n.
  Proof.
    revert k. induction c as [|[[i side] sib] c IH]; intros k; cbn [repc cids]; [intros _ []|].
    intros ((n & Hn & ?) & Hs & Hc) [->|Hj]; eauto. apply in_app_iff in Hj. destruct Hj; eauto using rep_in.
  Qed.

  (** What the walk up leaves alone. *)
  (* only the parent link of leaf-like nodes may change *)
  Definition pkeep (ns ns' : list node) : Prop :=
    forall j n, nth_error ns j = Some n -> n_child1 n = None -> exists q, nth_error ns' j = Some (set_parent n q).

  Lemma set_parent_id (n : node) : set_parent n (n_parent n) = n.
  Proof. now destruct n. Qed.

  Lemma pkeep_refl ns : pkeep ns ns.
  Proof. intros j n H _. exists (n_parent n). now rewrite set_parent_id. Qed.
  Lemma pkeep_trans a b c : pkeep a b -> pkeep b c -> pkeep a c.
  Proof.
    intros H1 H2 j n Hn Hc. destruct (H1 j n Hn Hc) as [q Hq].
    destruct (H2 j _ Hq) as [q' Hq']; cbn; auto. exists q'. rewrite Hq'. reflexivity.
  Qed.
  Lemma pkeep_upd ns i n n' : nth_error ns i = Some n ->
    (n_child1 n = None -> exists q, n' = set_parent n q) -> pkeep ns (upd ns i n').
  Proof.
    intros Hn H j m Hm Hc. rewrite (nth_upd _ _ _ _ _ Hn). destruct (Nat.eqb_spec i j); subst.
    - assert (m = n) by congruence. subst. destruct (H Hc) as [q ->]. eauto.
    - exists (n_parent m). now rewrite set_parent_id.
  Qed.

  Definition same_outside (L : list nat) (ns ns' : list node) : Prop :=
    length ns' = length ns /\ (forall j, ~ In j L -> nth_error ns' j = nth_error ns j).

  Lemma same_outside_refl L ns : same_outside L ns ns.
  Proof. split; auto. Qed.
  Lemma same_outside_trans L a b c : same_outside L a b -> same_outside L b c -> same_outside L a c.
  Proof. intros [H1 H2] [H3 H4]. split; [congruence|]. intros j Hj. rewrite H4, H2; auto. Qed.
  Lemma same_outside_perm L L' a b : (forall j, In j L -> In j L') -> same_outside L a b -> same_outside L' a b.
  Proof. intros Hp [H1 H2]. split; auto. Qed.
  Lemma same_outside_upd L ns i n : In i L -> same_outside L ns (upd ns i n).
  Proof. intro Hi. split; [apply length_upd|]. intros j Hj. apply nth_upd_ne. intros ->. auto. Qed.

  Lemma opt_eqb_refl p : opt_eqb p p = true.
  Proof. destruct p; cbn; auto. apply Nat.eqb_refl. Qed.
  Lemma opt_eqb_spec p q : opt_eqb p q = true <-> p = q.
  Proof.
    destruct p, q; cbn; split; try congruence.
    - intro H. apply Nat.eqb_eq in H. congruence.
    - intro H. inversion H. apply Nat.eqb_refl.
  Qed.
  Lemma opt_eqb_neq p q : p <> q -> opt_eqb p q = false.
  Proof. destruct (opt_eqb p q) eqn:E; auto. apply opt_eqb_spec in E. congruence. Qed.

  Lemma modn_ok (ns : list node) i f n : nth_error ns i = Some n -> modn ns i f = Ok (upd ns i (f n)).
  Proof. intro H. unfold modn. rewrite (get_ok _ _ _ H). cbn. apply set_ok. eapply nth_lt; eauto. Qed.
  Lemma getp_ok (ns : list node) i n : nth_error ns i = Some n -> getp ns (Some i) = Ok n.
  Proof. intro H. cbn. now apply get_ok. Qed.
End Rep.
Arguments rep {T U} Q ns p s.
Arguments repc {T U} Q ns k c.
