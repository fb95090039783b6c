(** balance and the walk up preserve the representation. *)
From Coq Require Import List ZArith Lia Bool Arith Permutation.
From Verif Require Import Base ListFacts Num Math Collision StackModel TreeModel TreeRep.
Import ListNotations.

Section Balance.
  Context {T : Type} `{NT : Num T} {U : Type}.
  Notation node := (node T U).
  Notation tree := (tree T U).
  Context {Q : aabb T -> aabb T -> aabb T -> Prop} {QB : BoxRel Q}.
  Notation rep := (rep Q).
  Notation repc := (repc Q).

  Definition rep0 (ns : list node) (p : option nat) (i : nat) (l r : shape) : Prop :=
    (exists n, nth_error ns i = Some n /\ n_parent n = p /\ n_child1 n = Some (sid l) /\ n_child2 n = Some (sid r)) /\
    rep ns (Some i) l /\ rep ns (Some i) r.

  Lemma rep_rep0 ns p i l r : rep ns p (SN i l r) -> rep0 ns p i l r.
  Proof. intros ((n & nl & nr & H1 & H2 & H3 & H4 & H5 & H6 & H7 & H8) & Hl & Hr). split; eauto 10. Qed.

  Definition recomputed (n nl nr : node) : node :=
    set_aabb (set_height n (1 + Z.max (n_height nl) (n_height nr))%Z) (combine (n_aabb nl) (n_aabb nr)).

  Lemma recompute_rep ns p i l r n nl nr :
    rep0 ns p i l r -> NoDup (i :: ids l ++ ids r) ->
    nth_error ns i = Some n -> nth_error ns (sid l) = Some nl -> nth_error ns (sid r) = Some nr ->
    rep (upd ns i (recomputed n nl nr)) p (SN i l r).
  Proof.
    intros ((n0 & Hn & Hp & H1 & H2) & Hl & Hr) Hnd Hn' Hnl Hnr. assert (n0 = n) by congruence. subst.
    ndup.
    assert (El : forall j, In j (ids l) -> nth_error (upd ns i (recomputed n nl nr)) j = nth_error ns j).
    { intros j Hj. apply nth_upd_ne. intros ->. auto. }
    assert (Er : forall j, In j (ids r) -> nth_error (upd ns i (recomputed n nl nr)) j = nth_error ns j).
    { intros j Hj. apply nth_upd_ne. intros ->. auto. }
    cbn [rep]. split; [|split; apply (rep_ext ns); auto].
    exists (recomputed n nl nr), nl, nr. rewrite (El (sid l)), (Er (sid r)) by apply sid_in.
    rewrite nth_upd_eq by (eapply nth_lt; eauto).
    repeat split; auto. apply box_l.
  Qed.

  (** relinking the parent of a rotated node *)
  Lemma relink_ok (t : tree) c ia ix :
    repc (t_nodes t) ia c -> NoDup (ia :: cids c) -> t_root t = Some (croot ia c) ->
    exists ns', relink_parent t (par c) ia ix
                = Ok (Tree (Some (croot ix c)) ns' (t_count t) (t_cap t) (t_free t) (t_ins t))
      /\ repc ns' ix c /\ same_outside (cids c) (t_nodes t) ns' /\ pkeep (t_nodes t) ns'.
  Proof.
    destruct c as [|[[i side] sib] c]; cbn [repc par croot relink_parent].
    - intros _ _ _. exists (t_nodes t). split; [reflexivity|].
      split; [exact I|]. split; [apply same_outside_refl | apply pkeep_refl].
    - intros ((n & Hn & Hp & H1 & H2) & Hs & Hc) Hnd Hroot. rewrite (get_ok _ _ _ Hn). cbn [bind].
      cbn [cids] in Hnd. ndup.
      assert (Hlen : i < length (t_nodes t)) by (eapply nth_lt; eauto).
      assert (Hsib : ia <> sid sib) by (intros ->; pose proof (sid_in sib); auto).
      assert (Hfin : forall n', n_child1 n <> None -> n_parent n' = par c ->
                 n_child1 n' = Some (if side then ix else sid sib) ->
                 n_child2 n' = Some (if side then sid sib else ix) ->
                 repc (upd (t_nodes t) i n') ix ((i, side, sib) :: c) /\
                 same_outside (cids ((i, side, sib) :: c)) (t_nodes t) (upd (t_nodes t) i n') /\
                 pkeep (t_nodes t) (upd (t_nodes t) i n')).
      { intros n' Hne Hp' H1' H2'. split; [|split].
        - cbn [repc]. split; [|split].
          + exists n'. rewrite nth_upd_eq by auto. auto.
          + apply (rep_ext (t_nodes t)); auto. intros j Hj. apply nth_upd_ne. intros ->. auto.
          + apply (repc_ext (t_nodes t)); auto. intros j Hj. apply nth_upd_ne. intros ->. auto.
        - apply same_outside_upd. cbn; auto.
        - eapply pkeep_upd; eauto. intro. congruence. }
      destruct side.
      + rewrite H1, opt_eqb_refl. rewrite set_ok by auto. cbn [bind].
        unfold with_nodes. rewrite Hroot. eexists. split; [reflexivity|].
        apply Hfin; cbn; auto. congruence.
      + rewrite H1. rewrite opt_eqb_neq by congruence. rewrite H2, opt_eqb_refl. cbn [b2_assert bind].
        rewrite set_ok by auto. cbn [bind]. unfold with_nodes. rewrite Hroot. eexists. split; [reflexivity|].
        apply Hfin; cbn; auto. congruence.
  Qed.

  (** generic rotation: [x] stays below [ia], [y] moves below [ia], [z] stays below [ic], [ic] is the new top *)
  Lemma rotate_rep (ns ns' : list node) p ia ic (x y z : shape) (A C nx ny : node) (flip : bool) :
    rep ns (Some ia) x -> rep ns (Some ic) y -> rep ns (Some ic) z ->
    NoDup (ia :: ic :: ids x ++ ids y ++ ids z) ->
    nth_error ns (sid x) = Some nx -> nth_error ns (sid y) = Some ny ->
    nth_error ns' ia = Some A -> nth_error ns' ic = Some C ->
    nth_error ns' (sid y) = Some (set_parent ny (Some ia)) ->
    (forall j, j <> ia -> j <> ic -> j <> sid y -> nth_error ns' j = nth_error ns j) ->
    n_parent A = Some ic ->
    n_child1 A = Some (if flip then sid y else sid x) -> n_child2 A = Some (if flip then sid x else sid y) ->
    n_height A = (1 + Z.max (n_height nx) (n_height ny))%Z -> n_aabb A = combine (n_aabb nx) (n_aabb ny) ->
    n_parent C = p -> n_child1 C = Some ia -> n_child2 C = Some (sid z) ->
    rep0 ns' p ic (if flip then SN ia y x else SN ia x y) z.
  Proof.
    intros Hx Hy Hz Hnd Hnx Hny HA HC Hny' Hext HpA H1A H2A HhA HbA HpC H1C H2C.
    pose proof (sid_in x) as Sx. pose proof (sid_in y) as Sy.
    assert (D : ia <> ic /\ (forall j, In j (ids x) -> j <> ia /\ j <> ic /\ ~ In j (ids y)) /\
                (forall j, In j (ids y) -> j <> ia /\ j <> ic) /\
                (forall j, In j (ids z) -> j <> ia /\ j <> ic /\ ~ In j (ids y))).
    { clear - Hnd. ndup. repeat split; try (intros ->; auto; fail); try congruence.
      - match goal with K : forall k, In k (ids x) -> ~ In k (_ ++ _) |- _ => specialize (K j H11) end. ndup. auto.
      - intro K. match goal with K' : forall k, In k (ids y) -> ~ In k (ids z) |- _ => apply (K' j) end; auto. }
    destruct D as (D0 & Dx & Dy & Dz).
    assert (Hx' : rep ns' (Some ia) x).
    { eapply rep_ext; [|exact Hx]. intros j Hj. destruct (Dx j Hj) as (K1 & K2 & K3).
      apply Hext; auto. intros ->; auto. }
    assert (Hz' : rep ns' (Some ic) z).
    { eapply rep_ext; [|exact Hz]. intros j Hj. destruct (Dz j Hj) as (K1 & K2 & K3).
      apply Hext; auto. intros ->; auto. }
    assert (Hy' : rep ns' (Some ia) y).
    { apply (rep_reparent ns ns' (Some ic) (Some ia) y ny); auto.
      - clear - Hnd. ndup. auto.
      - intros j Hj Hne. destruct (Dy j Hj). apply Hext; auto. }
    assert (Hnx' : nth_error ns' (sid x) = Some nx).
    { destruct (Dx _ Sx) as (K1 & K2 & K3). rewrite Hext; auto. intros E. rewrite E in K3. auto. }
    assert (Hsid : sid (if flip then SN ia y x else SN ia x y) = ia) by (destruct flip; reflexivity).
    split; [|split; auto].
    - exists C. rewrite Hsid. auto.
    - destruct flip; cbn [rep]; split; auto.
      + exists A, (set_parent ny (Some ia)), nx. repeat split; auto; cbn [set_parent n_height n_aabb].
        * rewrite HhA. now rewrite (Z.max_comm (n_height ny)).
        * rewrite HbA. apply box_r.
      + exists A, nx, (set_parent ny (Some ia)). repeat split; auto; cbn [set_parent n_height n_aabb]; auto. rewrite HbA. apply box_l.
  Qed.

  Lemma upd4_spec (ns : list node) a b c d A B C D :
    a < length ns -> b < length ns -> c < length ns -> d < length ns ->
    a <> b -> a <> c -> a <> d -> b <> c -> b <> d -> c <> d ->
    let ns' := upd (upd (upd (upd ns a A) b B) c C) d D in
    length ns' = length ns /\
    nth_error ns' a = Some A /\ nth_error ns' b = Some B /\ nth_error ns' c = Some C /\ nth_error ns' d = Some D /\
    (forall j, j <> a -> j <> b -> j <> c -> j <> d -> nth_error ns' j = nth_error ns j).
  Proof.
    intros. unfold ns'. rewrite !length_upd. split; auto.
    repeat split.
    - rewrite !(nth_upd_ne _ _ a) by auto. apply nth_upd_eq. auto.
    - rewrite !(nth_upd_ne _ _ b) by auto. apply nth_upd_eq. now rewrite length_upd.
    - rewrite !(nth_upd_ne _ _ c) by auto. apply nth_upd_eq. now rewrite !length_upd.
    - apply nth_upd_eq. now rewrite !length_upd.
    - intros. now rewrite !nth_upd_ne by auto.
  Qed.

  (* the pool after the rotation keeps payloads and everything outside *)
  Lemma pkeep_rot (ns ns' : list node) a c f g na nc nf ng A C F G :
    nth_error ns a = Some na -> nth_error ns c = Some nc -> nth_error ns f = Some nf -> nth_error ns g = Some ng ->
    n_child1 na <> None -> n_child1 nc <> None ->
    nth_error ns' a = Some A -> nth_error ns' c = Some C -> nth_error ns' f = Some F -> nth_error ns' g = Some G ->
    (exists q, F = set_parent nf q) -> (exists q, G = set_parent ng q) ->
    (forall j, j <> a -> j <> c -> j <> f -> j <> g -> nth_error ns' j = nth_error ns j) ->
    pkeep ns ns'.
  Proof.
    intros Ha Hc Hf Hg Hca Hcc Ha' Hc' Hf' Hg' [qf ->] [qg ->] Hext j n Hn Hl.
    destruct (Nat.eq_dec j a) as [->|]; [congruence|].
    destruct (Nat.eq_dec j c) as [->|]; [congruence|].
    destruct (Nat.eq_dec j f) as [->|]. { exists qf. congruence. }
    destruct (Nat.eq_dec j g) as [->|]. { exists qg. congruence. }
    exists (n_parent n). rewrite Hext by auto. now rewrite set_parent_id.
  Qed.

  Lemma perm_rot1 (ia ic : nat) (x y z : list nat) :
    Permutation (ic :: (ia :: x ++ y) ++ z) (ia :: x ++ (ic :: y ++ z)).
  Proof.
    cbn. rewrite perm_swap. constructor. rewrite <- app_assoc. apply Permutation_middle.
  Qed.
  Lemma perm_rot2 (ia ic : nat) (x y z : list nat) :
    Permutation (ic :: (ia :: x ++ y) ++ z) (ia :: x ++ (ic :: z ++ y)).
  Proof. rewrite perm_rot1. constructor. apply Permutation_app_head. constructor. apply Permutation_app_comm. Qed.

  Lemma four_distinct i ic (l f g : shape) : NoDup (i :: ic :: ids l ++ ids f ++ ids g) ->
    i <> ic /\ i <> sid f /\ i <> sid g /\ ic <> sid f /\ ic <> sid g /\ sid f <> sid g.
  Proof.
    intros Hnd. pose proof (sid_in f) as Sf. pose proof (sid_in g) as Sg.
    rewrite !NoDup_cons_iff, !NoDup_app_iff' in Hnd. cbn [In] in Hnd. rewrite !in_app_iff in Hnd.
    destruct Hnd as (N1 & N2 & _ & (_ & _ & N3) & _).
    repeat split; intro E.
    - apply N1. auto.
    - apply N1. rewrite E. auto.
    - apply N1. rewrite E. auto.
    - apply N2. rewrite E. auto.
    - apply N2. rewrite E. auto.
    - apply (N3 (sid f)); auto. rewrite E. auto.
  Qed.

  Definition bal_post (t : tree) (i : nat) (l r : shape) (c : ctx) (t' : tree) (i' : nat) (l' r' : shape) : Prop :=
    t' = Tree (Some (croot i' c)) (t_nodes t') (t_count t) (t_cap t) (t_free t) (t_ins t) /\
    rep0 (t_nodes t') (par c) i' l' r' /\ repc (t_nodes t') i' c /\
    Permutation (i' :: ids l' ++ ids r') (i :: ids l ++ ids r) /\
    Permutation (leaves l' ++ leaves r') (leaves l ++ leaves r) /\
    same_outside (i :: ids l ++ ids r ++ cids c) (t_nodes t) (t_nodes t') /\
    pkeep (t_nodes t) (t_nodes t').

  Lemma balance_ok (t : tree) i l r c :
    rep0 (t_nodes t) (par c) i l r -> repc (t_nodes t) i c ->
    NoDup (i :: ids l ++ ids r ++ cids c) ->
    t_root t = Some (croot i c) -> t_cap t = length (t_nodes t) ->
    exists t' i' l' r', balance t i = Ok (t', i') /\ bal_post t i l r c t' i' l' r'.
  Proof.
    intros ((n & Hn & Hp & H1 & H2) & Hl & Hr) Hc Hnd Hroot Hcap.
    assert (Hsame : bal_post t i l r c t i l r).
    { repeat split; auto; try apply pkeep_refl; try apply same_outside_refl.
      - destruct t; cbn in *; congruence.
      - eauto 10. }
    unfold balance. rewrite (get_ok _ _ _ Hn). cbn [bind].
    destruct (is_leaf n || (n_height n <? 2)%Z); [eauto 10|].
    rewrite H1, H2. cbn [unwrap bind].
    destruct (rep_root _ _ _ Hl) as (nl & Enl & Epl & Ehl).
    destruct (rep_root _ _ _ Hr) as (nr & Enr & Epr & Ehr).
    pose proof (nth_lt _ _ _ Hn) as Li. pose proof (nth_lt _ _ _ Enl) as Ll. pose proof (nth_lt _ _ _ Enr) as Lr.
    rewrite Hcap. apply Nat.ltb_lt in Ll as Ll', Lr as Lr'. rewrite Ll', Lr'. cbn [b2_assert bind].
    rewrite (get_ok _ _ _ Enl), (get_ok _ _ _ Enr). cbn [bind].
    destruct (1 <? n_height nr - n_height nl)%Z eqn:Eb1.
    { (* rotate c = r up *)
      apply Z.ltb_lt in Eb1. pose proof (sh_nonneg l).
      destruct r as [ic|ic f g]; [cbn [sh] in Ehr; lia|]. cbn [sid] in *.
      destruct Hr as ((nc & nf & ng & Hnc & Hnf & Hng & Hpc & Hc1 & Hc2 & Hhc & Hbc) & Hf & Hg).
      assert (nc = nr) by congruence. subst nc.
      rewrite Hc1, Hc2. cbn [unwrap bind].
      rewrite (get_ok _ _ _ Hnf), (get_ok _ _ _ Hng). cbn [bind].
      pose proof (nth_lt _ _ _ Hnf) as Lf. pose proof (nth_lt _ _ _ Hng) as Lg.
      apply Nat.ltb_lt in Lf as Lf', Lg as Lg'. rewrite Lf', Lg'. cbn [b2_assert bind].
      cbn [n_parent set_parent set_child1]. rewrite Hp.
      assert (HndC : NoDup (i :: cids c)).
      { cbn [ids] in Hnd. ndup. constructor; auto. }
      destruct (relink_ok t c i ic Hc HndC Hroot) as (ns1 & Erl & Hc' & Hso & Hpk).
      rewrite Erl. cbn [bind t_nodes].
      destruct Hso as [Hlen Hout].
      assert (Hdisj : forall j, In j (i :: ids l ++ ic :: ids f ++ ids g) -> ~ In j (cids c)).
      { intros j Hj Hjc. clear - Hnd Hj Hjc. cbn [ids] in Hnd.
        assert (Hnd' : NoDup ((i :: ids l ++ ic :: ids f ++ ids g) ++ cids c)).
        { cbn. rewrite <- app_assoc. exact Hnd. }
        apply NoDup_app_iff' in Hnd'. destruct Hnd' as (_ & _ & Hd). now apply (Hd j). }
      assert (Hin : forall j, In j (i :: ids l ++ ic :: ids f ++ ids g) -> nth_error ns1 j = nth_error (t_nodes t) j).
      { intros j Hj. apply Hout. auto. }
      assert (Hnd4 : NoDup (i :: ids l ++ ic :: ids f ++ ids g)).
      { assert (Hnd' : NoDup ((i :: ids l ++ ic :: ids f ++ ids g) ++ cids c)).
        { cbn. rewrite <- app_assoc. exact Hnd. }
        apply NoDup_app_iff' in Hnd'. tauto. }
      assert (Hnd3 : NoDup (i :: ic :: ids l ++ ids f ++ ids g)).
      { eapply Permutation_NoDup; [|exact Hnd4]. constructor. symmetry. apply Permutation_middle. }
      assert (Hl1 : rep ns1 (Some i) l).
      { eapply rep_ext; [|exact Hl]. intros j Hj. apply Hin. right. apply in_app_iff. auto. }
      assert (Hf1 : rep ns1 (Some ic) f).
      { eapply rep_ext; [|exact Hf]. intros j Hj. apply Hin. right. apply in_app_iff. right. right. apply in_app_iff. auto. }
      assert (Hg1 : rep ns1 (Some ic) g).
      { eapply rep_ext; [|exact Hg]. intros j Hj. apply Hin. right. apply in_app_iff. right. right. apply in_app_iff. auto. }
      assert (Ii : In i (i :: ids l ++ ic :: ids f ++ ids g)) by (cbn; auto).
      assert (Il : In (sid l) (i :: ids l ++ ic :: ids f ++ ids g)).
      { right. apply in_app_iff. left. apply sid_in. }
      assert (Ic : In ic (i :: ids l ++ ic :: ids f ++ ids g)).
      { right. apply in_app_iff. right. cbn. auto. }
      assert (If : In (sid f) (i :: ids l ++ ic :: ids f ++ ids g)).
      { right. apply in_app_iff. right. right. apply in_app_iff. left. apply sid_in. }
      assert (Ig : In (sid g) (i :: ids l ++ ic :: ids f ++ ids g)).
      { right. apply in_app_iff. right. right. apply in_app_iff. right. apply sid_in. }
      assert (D : i <> ic /\ i <> sid f /\ i <> sid g /\ ic <> sid f /\ ic <> sid g /\ sid f <> sid g).
      { eapply four_distinct. exact Hnd3. }
      destruct D as (D1 & D2 & D3 & D4 & D5 & D6).
      destruct (n_height ng <? n_height nf)%Z eqn:Efg;
      (rewrite (set_ok ns1) by (rewrite Hlen; auto); cbn [bind];
       rewrite set_ok by (rewrite length_upd, Hlen; auto); cbn [bind];
       rewrite set_ok by (rewrite !length_upd, Hlen; auto); cbn [bind];
       rewrite set_ok by (rewrite !length_upd, Hlen; auto); cbn [bind];
       match goal with |- context [upd (upd (upd (upd ns1 i ?A) ic ?C) (sid f) ?F) (sid g) ?G] =>
         destruct (upd4_spec ns1 i ic (sid f) (sid g) A C F G) as (L4 & LA & LC & LF & LG & LO); try (rewrite Hlen); auto;
         set (ns4 := upd (upd (upd (upd ns1 i A) ic C) (sid f) F) (sid g) G) in *
       end).
      - (* keep f below c, g moves *)
        exists (with_nodes (Tree (Some (croot ic c)) ns1 (t_count t) (t_cap t) (t_free t) (t_ins t)) ns4), ic,
               (SN i l g), f.
        split; [reflexivity|].
        unfold bal_post. cbn [t_nodes with_nodes t_count t_cap t_free t_ins t_root].
        split; [reflexivity|].
        split.
        { refine (rotate_rep ns1 ns4 (par c) i ic l g f _ _ nl ng false Hl1 Hg1 Hf1 _ _ _ LA LC LG _ _ _ _ _ _ _ _ _);
            cbn; auto.
          - eapply Permutation_NoDup; [|exact Hnd3]. do 2 constructor. apply Permutation_app_head. apply Permutation_app_comm.
          - rewrite Hin; auto.
          - rewrite Hin; auto.
          - intros j J1 J2 J3. destruct (Nat.eq_dec j (sid f)) as [->|J4].
            + rewrite LF. rewrite Hin by auto. auto.
            + apply LO; auto. }
        split.
        { apply (repc_ext ns1); auto. intros j Hj. apply LO; intros ->; revert Hj; apply Hdisj; auto. }
        split. { apply perm_rot2. }
        split. { cbn [leaves]. rewrite <- app_assoc. apply Permutation_app_head. apply Permutation_app_comm. }
        split.
        { split; [congruence|]. intros j Hj. cbn [ids] in Hj.
          assert (Hj' : ~ In j (i :: ids l ++ ic :: ids f ++ ids g) /\ ~ In j (cids c)).
          { split; intro K; apply Hj; clear - K; repeat first [rewrite in_app_iff in * | progress cbn [In ids app] in *]; tauto. }
          destruct Hj' as [J1 J2]. rewrite LO by (intros ->; auto). auto. }
        { eapply pkeep_trans; [exact Hpk|].
          eapply (pkeep_rot ns1 ns4 i ic (sid f) (sid g) n nr nf ng); eauto; try (rewrite Hin; auto; fail); try congruence.
          exists (n_parent nf). now rewrite set_parent_id. }
      - exists (with_nodes (Tree (Some (croot ic c)) ns1 (t_count t) (t_cap t) (t_free t) (t_ins t)) ns4), ic,
               (SN i l f), g.
        split; [reflexivity|].
        unfold bal_post. cbn [t_nodes with_nodes t_count t_cap t_free t_ins t_root].
        split; [reflexivity|].
        split.
        { refine (rotate_rep ns1 ns4 (par c) i ic l f g _ _ nl nf false Hl1 Hf1 Hg1 _ _ _ LA LC LF _ _ _ _ _ _ _ _ _);
            cbn; auto.
          - rewrite Hin; auto.
          - rewrite Hin; auto.
          - intros j J1 J2 J3. destruct (Nat.eq_dec j (sid g)) as [->|J4].
            + rewrite LG. rewrite Hin by auto. auto.
            + apply LO; auto. }
        split.
        { apply (repc_ext ns1); auto. intros j Hj. apply LO; intros ->; revert Hj; apply Hdisj; auto. }
        split. { apply perm_rot1. }
        split. { cbn [leaves]. rewrite <- app_assoc. reflexivity. }
        split.
        { split; [congruence|]. intros j Hj. cbn [ids] in Hj.
          assert (Hj' : ~ In j (i :: ids l ++ ic :: ids f ++ ids g) /\ ~ In j (cids c)).
          { split; intro K; apply Hj; clear - K; repeat first [rewrite in_app_iff in * | progress cbn [In ids app] in *]; tauto. }
          destruct Hj' as [J1 J2]. rewrite LO by (intros ->; auto). auto. }
        { eapply pkeep_trans; [exact Hpk|].
          eapply (pkeep_rot ns1 ns4 i ic (sid f) (sid g) n nr nf ng); eauto; try (rewrite Hin; auto; fail); try congruence.
          exists (n_parent ng). now rewrite set_parent_id. } }
    destruct (n_height nr - n_height nl <? -1)%Z eqn:Eb2; [|eauto 10].
    (* rotate b = l up *)
    apply Z.ltb_lt in Eb2. pose proof (sh_nonneg r).
    destruct l as [ib|ib d e]; [cbn [sh] in Ehl; lia|]. cbn [sid] in *.
    destruct Hl as ((nb & nd & ne & Hnb & Hnd' & Hne & Hpb & Hb1 & Hb2 & Hhb & Hbb) & Hd & He).
    assert (nb = nl) by congruence. subst nb.
    rewrite Hb1, Hb2. cbn [unwrap bind].
    rewrite (get_ok _ _ _ Hnd'), (get_ok _ _ _ Hne). cbn [bind].
    pose proof (nth_lt _ _ _ Hnd') as Ld. pose proof (nth_lt _ _ _ Hne) as Le.
    apply Nat.ltb_lt in Ld as Ld', Le as Le'. rewrite Ld', Le'. cbn [b2_assert bind].
    cbn [n_parent set_parent set_child1]. rewrite Hp.
    assert (Hnd4 : NoDup ((i :: (ib :: ids d ++ ids e) ++ ids r) ++ cids c)).
    { cbn [ids] in Hnd. cbn. cbn in Hnd. rewrite <- !app_assoc in *. exact Hnd. }
    assert (HndC : NoDup (i :: cids c)).
    { apply NoDup_app_iff' in Hnd4. destruct Hnd4 as (_ & K1 & K2). constructor; auto. apply K2. cbn; auto. }
    destruct (relink_ok t c i ib Hc HndC Hroot) as (ns1 & Erl & Hc' & Hso & Hpk).
    rewrite Erl. cbn [bind t_nodes].
    destruct Hso as [Hlen Hout].
    set (L := i :: (ib :: ids d ++ ids e) ++ ids r) in *.
    assert (Hdisj : forall j, In j L -> ~ In j (cids c)).
    { apply NoDup_app_iff' in Hnd4. tauto. }
    assert (Hin : forall j, In j L -> nth_error ns1 j = nth_error (t_nodes t) j).
    { intros j Hj. apply Hout. auto. }
    assert (Hnd3 : NoDup (i :: ib :: ids r ++ ids d ++ ids e)).
    { apply NoDup_app_iff' in Hnd4. destruct Hnd4 as (Hnd5 & _). unfold L in Hnd5. cbn in Hnd5.
      eapply Permutation_NoDup; [|exact Hnd5]. do 2 constructor. apply Permutation_app_comm. }
    assert (Sd : forall j, In j (ids d) -> In j L).
    { intros j Hj. unfold L. right. apply in_app_iff. left. right. apply in_app_iff. auto. }
    assert (Se : forall j, In j (ids e) -> In j L).
    { intros j Hj. unfold L. right. apply in_app_iff. left. right. apply in_app_iff. auto. }
    assert (Sr : forall j, In j (ids r) -> In j L).
    { intros j Hj. unfold L. right. apply in_app_iff. auto. }
    assert (Hr1 : rep ns1 (Some i) r) by (eapply rep_ext; [|exact Hr]; auto).
    assert (Hd1 : rep ns1 (Some ib) d) by (eapply rep_ext; [|exact Hd]; auto).
    assert (He1 : rep ns1 (Some ib) e) by (eapply rep_ext; [|exact He]; auto).
    assert (Ii : In i L) by (unfold L; cbn; auto).
    assert (Ib : In ib L) by (unfold L; cbn; auto).
    assert (Ir : In (sid r) L) by (apply Sr, sid_in).
    assert (Id : In (sid d) L) by (apply Sd, sid_in).
    assert (Ie : In (sid e) L) by (apply Se, sid_in).
    assert (D : i <> ib /\ i <> sid d /\ i <> sid e /\ ib <> sid d /\ ib <> sid e /\ sid d <> sid e).
    { eapply four_distinct. exact Hnd3. }
    destruct D as (D1 & D2 & D3 & D4 & D5 & D6).
    assert (Hso' : forall ns4, length ns4 = length ns1 ->
               (forall j, j <> i -> j <> ib -> j <> sid e -> j <> sid d -> nth_error ns4 j = nth_error ns1 j) ->
               same_outside (i :: ids (SN ib d e) ++ ids r ++ cids c) (t_nodes t) ns4).
    { intros ns4 L4 LO. split; [congruence|]. intros j Hj. cbn [ids] in Hj.
      assert (Hj' : ~ In j L /\ ~ In j (cids c)).
      { split; intro K; apply Hj; unfold L in K; clear - K; repeat first [rewrite in_app_iff in * | progress cbn [In ids app] in *]; tauto. }
      destruct Hj' as [J1 J2]. rewrite LO by (intros ->; auto). auto. }
    destruct (n_height ne <? n_height nd)%Z eqn:Efg;
    (rewrite (set_ok ns1) by (rewrite Hlen; auto); cbn [bind];
     rewrite set_ok by (rewrite length_upd, Hlen; auto); cbn [bind];
     rewrite set_ok by (rewrite !length_upd, Hlen; auto); cbn [bind];
     rewrite set_ok by (rewrite !length_upd, Hlen; auto); cbn [bind];
     match goal with |- context [upd (upd (upd (upd ns1 i ?A) ib ?C) (sid e) ?F) (sid d) ?G] =>
       destruct (upd4_spec ns1 i ib (sid e) (sid d) A C F G) as (L4 & LA & LC & LE & LD & LO); try (rewrite Hlen); auto;
       set (ns4 := upd (upd (upd (upd ns1 i A) ib C) (sid e) F) (sid d) G) in *
     end).
    - (* keep d below b, e moves *)
      exists (with_nodes (Tree (Some (croot ib c)) ns1 (t_count t) (t_cap t) (t_free t) (t_ins t)) ns4), ib,
             (SN i e r), d.
      split; [reflexivity|].
      unfold bal_post. cbn [t_nodes with_nodes t_count t_cap t_free t_ins t_root].
      split; [reflexivity|].
      split.
      { refine (rotate_rep ns1 ns4 (par c) i ib r e d _ _ nr ne true Hr1 He1 Hd1 _ _ _ LA LC LE _ _ _ _ _ _ _ _ _);
          cbn; auto.
        - eapply Permutation_NoDup; [|exact Hnd3]. do 2 constructor. apply Permutation_app_head. apply Permutation_app_comm.
        - rewrite Hin; auto.
        - rewrite Hin; auto.
        - intros j J1 J2 J3. destruct (Nat.eq_dec j (sid d)) as [->|J4].
          + rewrite LD. rewrite Hin by auto. auto.
          + apply LO; auto. }
      split.
      { apply (repc_ext ns1); auto. intros j Hj. apply LO; intros ->; revert Hj; apply Hdisj; auto. }
      split. { cbn [ids]. change (ib :: ids d ++ ids e) with ([ib] ++ ids d ++ ids e).
        cbn. rewrite perm_swap. do 2 constructor. rewrite <- !app_assoc.
        rewrite (Permutation_app_comm (ids r)), app_assoc, (Permutation_app_comm (ids e)). now rewrite <- app_assoc. }
      split. { cbn [leaves]. rewrite <- !app_assoc. rewrite (Permutation_app_comm (leaves r)), app_assoc,
                 (Permutation_app_comm (leaves e)). now rewrite <- app_assoc. }
      split. { apply Hso'; auto. }
      { eapply pkeep_trans; [exact Hpk|].
        eapply (pkeep_rot ns1 ns4 i ib (sid e) (sid d) n nl ne nd); eauto; try (rewrite Hin; auto; fail); try congruence.
        exists (n_parent nd). now rewrite set_parent_id. }
    - exists (with_nodes (Tree (Some (croot ib c)) ns1 (t_count t) (t_cap t) (t_free t) (t_ins t)) ns4), ib,
             (SN i d r), e.
      split; [reflexivity|].
      unfold bal_post. cbn [t_nodes with_nodes t_count t_cap t_free t_ins t_root].
      split; [reflexivity|].
      split.
      { refine (rotate_rep ns1 ns4 (par c) i ib r d e _ _ nr nd true Hr1 Hd1 He1 _ _ _ LA LC LD _ _ _ _ _ _ _ _ _);
          cbn; auto.
        - rewrite Hin; auto.
        - rewrite Hin; auto.
        - intros j J1 J2 J3. destruct (Nat.eq_dec j (sid e)) as [->|J4].
          + rewrite LE. rewrite Hin by auto. auto.
          + apply LO; auto. }
      split.
      { apply (repc_ext ns1); auto. intros j Hj. apply LO; intros ->; revert Hj; apply Hdisj; auto. }
      split. { cbn [ids]. cbn. rewrite perm_swap. do 2 constructor. rewrite <- !app_assoc.
        apply Permutation_app_head. apply Permutation_app_comm. }
      split. { cbn [leaves]. rewrite <- !app_assoc. apply Permutation_app_head. apply Permutation_app_comm. }
      split. { apply Hso'; auto. }
      { eapply pkeep_trans; [exact Hpk|].
        eapply (pkeep_rot ns1 ns4 i ib (sid e) (sid d) n nl ne nd); eauto; try (rewrite Hin; auto; fail); try congruence.
        exists (n_parent ne). now rewrite set_parent_id. }
  Qed.

  (** The walk up. [s] is the finished focus below the first frame. *)
  Lemma fix_up_ok c : forall (t : tree) s fuel,
    rep (t_nodes t) (par c) s -> repc (t_nodes t) (sid s) c ->
    NoDup (ids s ++ cids c) ->
    t_root t = Some (croot (sid s) c) -> t_cap t = length (t_nodes t) ->
    length c <= fuel ->
    exists t' s', fix_up fuel t (par c) = Ok t' /\
      t' = Tree (Some (sid s')) (t_nodes t') (t_count t) (t_cap t) (t_free t) (t_ins t) /\
      rep (t_nodes t') None s' /\
      Permutation (ids s') (ids s ++ cids c) /\ Permutation (leaves s') (leaves s ++ cleaves c) /\
      same_outside (ids s ++ cids c) (t_nodes t) (t_nodes t') /\ pkeep (t_nodes t) (t_nodes t').
  Proof.
    induction c as [|[[i side] sib] c IH]; intros t s fuel Hs Hc Hnd Hroot Hcap Hfuel.
    - exists t, s. cbn [par]. split; [destruct fuel; reflexivity|].
      split; [destruct t; cbn in *; congruence|]. split; [exact Hs|].
      cbn [cids cleaves]. rewrite !app_nil_r. repeat split; auto. apply pkeep_refl.
    - destruct fuel as [|fuel]; [cbn in Hfuel; lia|].
      cbn [par fix_up repc croot cids cleaves length] in *.
      destruct Hc as ((n & Hn & Hp & H1 & H2) & Hsib & Hc).
      set (l := if side then s else sib). set (r := if side then sib else s).
      assert (R0 : rep0 (t_nodes t) (par c) i l r).
      { unfold l, r. destruct side; (split; [exists n; auto | auto]). }
      assert (P1 : Permutation (i :: ids l ++ ids r) (i :: ids s ++ ids sib)).
      { unfold l, r. destruct side; [auto|]. constructor. apply Permutation_app_comm. }
      assert (P2 : Permutation (leaves l ++ leaves r) (leaves s ++ leaves sib)).
      { unfold l, r. destruct side; [auto|]. apply Permutation_app_comm. }
      assert (Pall : Permutation ((i :: ids l ++ ids r) ++ cids c) (ids s ++ i :: ids sib ++ cids c)).
      { rewrite P1. cbn. rewrite <- app_assoc. apply Permutation_middle. }
      assert (Hnd1 : NoDup ((i :: ids l ++ ids r) ++ cids c)).
      { eapply Permutation_NoDup; [symmetry; exact Pall | auto]. }
      assert (Hnd2 : NoDup (i :: ids l ++ ids r ++ cids c)).
      { cbn in Hnd1. now rewrite <- app_assoc in Hnd1. }
      destruct (balance_ok t i l r c R0 Hc Hnd2 Hroot Hcap) as (t1 & i1 & l1 & r1 & Eb & Et & Hr0 & Hc1 & Q1 & Q2 & Hso & Hpk).
      rewrite Eb. cbn [bind].
      destruct Hr0 as ((n1 & Hn1 & Hp1 & H11 & H21) & Hl1 & Hr1).
      destruct (rep_root _ _ _ Hl1) as (nl & Enl & _ & _). destruct (rep_root _ _ _ Hr1) as (nr & Enr & _ & _).
      rewrite (get_ok _ _ _ Hn1). cbn [bind]. rewrite H11, H21, (getp_ok _ _ _ Enl), (getp_ok _ _ _ Enr). cbn [bind].
      rewrite set_ok by (eapply nth_lt; eauto). cbn [bind]. fold (recomputed n1 nl nr).
      set (ns2 := upd (t_nodes t1) i1 (recomputed n1 nl nr)). rewrite Hp1.
      assert (Qall : Permutation ((i1 :: ids l1 ++ ids r1) ++ cids c) ((i :: ids l ++ ids r) ++ cids c)).
      { now apply Permutation_app_tail. }
      assert (Hnd3 : NoDup ((i1 :: ids l1 ++ ids r1) ++ cids c)).
      { eapply Permutation_NoDup; [symmetry; exact Qall | auto]. }
      apply NoDup_app_iff' in Hnd3 as Hnd4. destruct Hnd4 as (Hnd4 & _ & Hdj).
      assert (Hrep2 : rep ns2 (par c) (SN i1 l1 r1)).
      { apply recompute_rep; auto. split; eauto. }
      destruct (IH (with_nodes t1 ns2) (SN i1 l1 r1) fuel) as (t' & s' & Ef & Et' & Hrep' & P3 & P4 & Hso' & Hpk').
      + exact Hrep2.
      + cbn [t_nodes with_nodes sid]. apply (repc_ext (t_nodes t1)); auto. intros j Hj. apply nth_upd_ne.
        intros ->. apply (Hdj j); cbn; auto.
      + exact Hnd3.
      + rewrite Et. reflexivity.
      + rewrite Et. cbn. unfold ns2. rewrite length_upd. destruct Hso as [-> _]. exact Hcap.
      + lia.
      + exists t', s'. rewrite Ef. split; [reflexivity|].
        split. { rewrite Et'. rewrite Et. reflexivity. }
        split; [exact Hrep'|]. split. { rewrite P3. cbn [ids]. rewrite Qall. exact Pall. }
        split. { rewrite P4. cbn [leaves]. rewrite Q2, P2. now rewrite <- app_assoc. }
        split.
        { eapply same_outside_trans.
          - eapply same_outside_perm; [|exact Hso]. intros j Hj. eapply Permutation_in; [exact Pall|].
            cbn. rewrite <- app_assoc. exact Hj.
          - eapply same_outside_trans.
            + apply (same_outside_upd _ _ i1). eapply Permutation_in; [exact Pall|]. eapply Permutation_in; [exact Qall|]. cbn; auto.
            + eapply same_outside_perm; [|exact Hso']. intros j Hj. eapply Permutation_in; [exact Pall|].
              eapply Permutation_in; [exact Qall|]. exact Hj. }
        { eapply pkeep_trans; [exact Hpk|]. eapply pkeep_trans; [|exact Hpk'].
          cbn [with_nodes t_nodes]. eapply pkeep_upd; eauto. congruence. }
  Qed.
End Balance.
Arguments rep0 {T U} Q ns p i l r.
