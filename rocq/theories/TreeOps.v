(** remove_leaf and the public operations. *)
From Coq Require Import List ZArith Lia Bool Arith Permutation.
From Verif Require Import Base ListFacts Num Math Collision StackModel TreeModel TreeRep TreeBalance TreeInv.
Import ListNotations.

Section Ops.
  Context {T : Type} `{NT : Num T} {U : Type}.
  Notation node := (node T U).
  Notation tree := (tree T U).
  Context {Q : aabb T -> aabb T -> aabb T -> Prop} {QB : BoxRel Q}.
  Notation rep := (rep Q).
  Notation repc := (repc Q).
  Notation inv := (inv Q).

  Lemma croot_in k c : In (croot k c) (k :: cids c).
  Proof.
    revert k. induction c as [|[[i side] sib] c IH]; intros k; cbn [croot cids]; [cbn; auto|].
    destruct (IH i) as [H|H]; right; [left; auto|right; apply in_app_iff; auto].
  Qed.

  Lemma free_node_eq (t : tree) id n : nth_error (t_nodes t) id = Some n -> t_cap t = length (t_nodes t) -> 0 < t_count t ->
    free_node t id = Ok (Tree (t_root t) (upd (t_nodes t) id (set_height (set_parent n (t_free t)) (-1)%Z))
                           (t_count t - 1) (t_cap t) (Some id) (t_ins t)).
  Proof.
    intros Hn Hc Hp. unfold free_node. pose proof (nth_lt _ _ _ Hn) as L. rewrite Hc at 1.
    apply Nat.ltb_lt in L. rewrite L. apply Nat.ltb_lt in Hp. rewrite Hp. cbn [b2_assert bind].
    rewrite (modn_ok _ _ _ _ Hn). reflexivity.
  Qed.

  Lemma remove_ok (t : tree) s F leaf : inv t (Some s) [] F -> In leaf (leaves s) ->
    exists t' o' F', remove_leaf t leaf = Ok t' /\ inv t' o' [leaf] F' /\
      Permutation (leaf :: oleaves o') (leaves s) /\ pay (leaves s) (t_nodes t) (t_nodes t').
  Proof.
    intros Hinv Hleaf. destruct (leaf_zip _ _ Hleaf) as [c Es]. subst s.
    pose proof (inv_nodup _ _ _ _ Hinv) as HndI.
    destruct Hinv as (A1 & A2 & A3 & A4 & A5 & [Hroot Hrep]).
    unfold remove_leaf. rewrite Hroot, sid_plug. cbn [sid].
    destruct c as [|[[p side] sib] c].
    { cbn [croot plug] in *. rewrite opt_eqb_refl. exists (with_root t None), None, F. split; [reflexivity|].
      cbn [oids ids app] in *. split; [|split].
      - invsplit; auto. reflexivity.
      - reflexivity.
      - apply pay_refl. }
    cbn [oids] in *. rewrite !app_nil_r in *.
    assert (HndA : NoDup (leaf :: p :: ids sib ++ cids c)).
    { apply NoDup_app_iff' in HndI. destruct HndI as (K & _). eapply Permutation_NoDup; [|exact K]. apply (plug_ids (SL leaf)). }
    assert (HdF : forall j, In j (leaf :: p :: ids sib ++ cids c) -> ~ In j F).
    { apply NoDup_app_iff' in HndI. destruct HndI as (_ & _ & K). intros j Hj. apply K.
      eapply Permutation_in; [symmetry; apply plug_ids|]. exact Hj. }
    assert (Hlt : forall j, In j (leaf :: p :: ids sib ++ cids c) -> j < length (t_nodes t)).
    { intros j Hj. assert (K : In j (ids (plug (SL leaf) (@cons frame (p, side, sib) c)) ++ F)).
      { apply in_app_iff. left. eapply Permutation_in; [symmetry; apply plug_ids|]. exact Hj. }
      eapply Permutation_in in K; [|exact A4]. apply in_seq in K. lia. }
    assert (Pids : Permutation (ids (plug (SL leaf) (@cons frame (p, side, sib) c))) (leaf :: p :: ids sib ++ cids c)) by apply plug_ids.
    assert (D : leaf <> p /\ ~ In leaf (ids sib) /\ ~ In leaf (cids c) /\ ~ In p (ids sib) /\ ~ In p (cids c) /\
                NoDup (ids sib) /\ NoDup (cids c) /\ (forall j, In j (ids sib) -> ~ In j (cids c))).
    { clear - HndA. rewrite !NoDup_cons_iff, NoDup_app_iff' in HndA. cbn [In] in HndA. rewrite !in_app_iff in HndA.
      repeat split; intuition congruence. }
    destruct D as (D1 & D2 & D3 & D4 & D5 & D6 & D7 & D8).
    pose proof (sid_in sib) as Ssib.
    assert (S1 : sid sib <> leaf) by (intros <-; auto). assert (S2 : sid sib <> p) by (intros <-; auto).
    rewrite opt_eqb_neq.
    2:{ intro K. injection K as K. cbn [croot] in K. destruct (croot_in p c) as [K'|K']; [congruence|]. rewrite <- K in K'. auto. }
    destruct (rep_plug _ _ _ Hrep) as [Hlf Hctx].
    destruct Hlf as (ln & Hln & Hlp & Hl1 & Hl2 & Hlh). cbn [par] in Hlp.
    rewrite (get_ok _ _ _ Hln). cbn [bind]. rewrite Hlp. cbn [unwrap bind].
    cbn [repc sid] in Hctx. destruct Hctx as ((pn & Hpn & Hpp & Hp1 & Hp2) & Hsib & Hctx).
    rewrite (get_ok _ _ _ Hpn). cbn [bind].
    assert (Esib : (if opt_eqb (n_child1 pn) (Some leaf) then n_child2 pn else n_child1 pn) = Some (sid sib)).
    { rewrite Hp1. destruct side; [rewrite opt_eqb_refl; exact Hp2 | rewrite opt_eqb_neq by congruence; reflexivity]. }
    rewrite Esib, Hpp.
    destruct (rep_root _ _ _ Hsib) as (bn & Hbn & Hbp & Hbh).
    assert (Hcnt : 0 < t_count t). { rewrite A3, (Permutation_length Pids). cbn. lia. }
    assert (Hrepleaf : forall j m, In j (leaves (plug (SL leaf) (@cons frame (p, side, sib) c))) ->
               nth_error (t_nodes t) j = Some m -> n_child1 m = None /\ j <> p).
    { intros j m Hj Hm. destruct (rep_leaf _ _ _ _ Hrep Hj) as (m' & Em & K & _). split; [congruence|].
      intros ->. destruct side; congruence. }
    destruct (par c) as [gp|] eqn:Egp.
    2:{ (* the parent was the root *)
      destruct c as [|[[? ?] ?] ?]; [|discriminate]. cbn [cids] in *. rewrite !app_nil_r in *.
      cbn [with_root t_nodes unwrap bind]. rewrite (modn_ok _ _ _ _ Hbn). cbn [bind].
      set (ns1 := upd (t_nodes t) (sid sib) (set_parent bn None)).
      assert (Hpn1 : nth_error ns1 p = Some pn) by (unfold ns1; rewrite nth_upd_ne; auto).
      rewrite (free_node_eq _ _ pn); cbn [with_nodes t_nodes t_cap t_count with_root]; auto.
      2:{ unfold ns1. rewrite length_upd. auto. }
      eexists _, (Some sib), (p :: F). split; [reflexivity|].
      cbn [t_root t_nodes t_count t_cap t_free t_ins with_nodes with_root].
      set (ns2 := upd ns1 p _).
      assert (E2 : forall j, j <> p -> j <> sid sib -> nth_error ns2 j = nth_error (t_nodes t) j).
      { intros j J1 J2. unfold ns2, ns1. rewrite !nth_upd_ne by auto. reflexivity. }
      assert (E2b : nth_error ns2 (sid sib) = Some (set_parent bn None)).
      { unfold ns2. rewrite nth_upd_ne by auto. apply nth_upd_eq. eapply nth_lt; eauto. }
      split; [|split].
      - invsplit; cbn [t_root t_nodes t_count t_cap t_free t_ins oids rooted].
        + unfold ns2, ns1. now rewrite !length_upd.
        + auto.
        + rewrite A3, (Permutation_length Pids). rewrite app_length. cbn [length]. lia.
        + rewrite <- A4. rewrite Pids. cbn [app]. rewrite <- app_assoc. cbn [app]. rewrite <- Permutation_middle.
          constructor. symmetry. apply Permutation_middle.
        + cbn [chain]. split; auto. exists (set_height (set_parent pn (t_free t)) (-1)%Z).
          split. { unfold ns2. apply nth_upd_eq. unfold ns1. rewrite length_upd. eapply nth_lt; eauto. }
          split; auto. cbn [n_parent set_height set_parent]. apply (chain_ext (t_nodes t)); auto.
          intros j Hj. apply E2; intros ->; revert Hj; apply HdF; cbn; auto.
        + split; auto. apply (rep_reparent (t_nodes t) ns2 (Some p) None sib bn); auto.
          intros j Hj Hne. apply E2; auto. intros ->. auto.
      - rewrite (plug_leaves (SL leaf)). cbn [leaves cleaves app oleaves]. now rewrite app_nil_r.
      - intros j m Hj Hm. destruct (Hrepleaf j m Hj Hm) as [K J]. destruct (Nat.eq_dec j (sid sib)) as [->|Js].
        + exists None. rewrite E2b. congruence.
        + exists (n_parent m). rewrite set_parent_id, E2; auto. }
    (* there is a grandparent *)
    destruct (swap_child (t_nodes t) p (sid sib) c (fun n => if opt_eqb (n_child1 n) (Some p) then set_child1 n (Some (sid sib))
                else set_child2 n (Some (sid sib))) Hctx D5 D7) as (ns1 & Esw & Hctx1 & L1 & E1 & PK1); auto.
    rewrite Egp in Esw. rewrite Esw. cbn [bind unwrap].
    assert (E1' : forall j, ~ In j (cids c) -> nth_error ns1 j = nth_error (t_nodes t) j).
    { intros j Hj. apply E1. intro K. apply Hj. now apply cids_par. }
    assert (Hbn1 : nth_error ns1 (sid sib) = Some bn) by (rewrite E1'; auto).
    rewrite (modn_ok _ _ _ _ Hbn1). cbn [bind].
    set (ns2 := upd ns1 (sid sib) (set_parent bn (Some gp))).
    assert (E2 : forall j, j <> sid sib -> nth_error ns2 j = nth_error ns1 j) by (intros; apply nth_upd_ne; auto).
    assert (Hpn2 : nth_error ns2 p = Some pn) by (rewrite E2, E1'; auto).
    rewrite (free_node_eq _ _ pn); cbn [with_nodes t_nodes t_cap t_count]; auto.
    2:{ unfold ns2. rewrite length_upd, L1. auto. }
    cbn [bind t_root t_nodes t_count t_cap t_free t_ins with_nodes].
    set (ns3 := upd ns2 p _).
    assert (L3 : length ns3 = length (t_nodes t)) by (unfold ns3, ns2; now rewrite !length_upd).
    assert (E3 : forall j, j <> p -> nth_error ns3 j = nth_error ns2 j) by (intros; apply nth_upd_ne; auto).
    assert (Hctx3 : repc ns3 (sid sib) c).
    { apply (repc_ext ns1); auto. intros j Hj. rewrite E3 by (intros ->; auto). apply E2. intros ->. apply (D8 (sid sib)); auto. }
    assert (Hsib3 : rep ns3 (par c) sib).
    { rewrite Egp. apply (rep_reparent (t_nodes t) ns3 (Some p) (Some gp) sib bn); auto.
      - rewrite E3 by auto. apply nth_upd_eq. eapply nth_lt; eauto.
      - intros j Hj Hne. rewrite E3 by (intros ->; auto). rewrite E2, E1'; auto. }
    set (t3 := Tree (t_root t) ns3 (t_count t - 1) (t_cap t) (Some p) (t_ins t)).
    destruct (fix_up_ok c t3 sib (length ns3)) as (t' & s' & Ef & Et' & Hrep' & P3 & P4 & Hso & Hpk); auto.
    { apply NoDup_app_iff'. auto. }
    { cbn [t_root t3]. rewrite Hroot, sid_plug. cbn [croot].
      destruct c as [|[[k sd] sb] c]; [discriminate|]. reflexivity. }
    { cbn [t_cap t_nodes t3]. now rewrite L3. }
    { assert (length (leaf :: p :: ids sib ++ cids c) <= length (t_nodes t)) by (apply nodup_len_le; auto).
      cbn [length] in *. rewrite app_length in *. pose proof (ctx_len c). lia. }
    rewrite <- Egp. rewrite Ef. exists t', (Some s'), (p :: F). split; [reflexivity|].
    destruct Hso as [Lso Hso]. cbn [t_nodes t3] in Lso, Hso.
    split; [|split].
    - rewrite Et'. cbn [t3 t_count t_cap t_free t_ins].
      invsplit; cbn [t_root t_nodes t_count t_cap t_free t_ins oids rooted].
      + rewrite Lso, L3. auto.
      + auto.
      + rewrite A3, (Permutation_length Pids). rewrite app_length, (Permutation_length P3). cbn [length]. lia.
      + rewrite <- A4. rewrite Pids, P3. cbn [app]. rewrite <- app_assoc. cbn [app]. rewrite <- Permutation_middle.
        constructor. symmetry. apply Permutation_middle.
      + cbn [chain]. split; auto. exists (set_height (set_parent pn (t_free t)) (-1)%Z).
        split. { rewrite Hso. - apply nth_upd_eq. eapply nth_lt; eauto. - rewrite in_app_iff. tauto. }
        split; auto. cbn [n_parent set_height set_parent]. apply (chain_ext (t_nodes t)); auto.
        intros j Hj.
        assert (K : ~ In j (leaf :: p :: ids sib ++ cids c)) by (intro K; apply (HdF j); auto).
        cbn [In] in K. rewrite in_app_iff in K.
        rewrite Hso by (rewrite in_app_iff; tauto).
        rewrite E3, E2, E1'; auto; try tauto; intros ->; tauto.
      + auto.
    - rewrite (plug_leaves (SL leaf)). cbn [leaves cleaves app oleaves]. constructor. exact P4.
    - apply (pay_trans _ _ ns3).
      + intros j m Hj Hm. destruct (Hrepleaf j m Hj Hm) as [K J]. destruct (Nat.eq_dec j (sid sib)) as [->|Js].
        * exists (Some gp). rewrite E3 by auto. unfold ns2. rewrite nth_upd_eq by (eapply nth_lt; eauto). congruence.
        * destruct (PK1 j m Hm K) as [q Hq]. exists q. rewrite E3, E2; auto.
      + intros j m Hj Hm. apply (Hpk j m Hm).
        assert (Hj' : j <> p /\ n_child1 m = None).
        { destruct (rep_leaf _ _ _ _ Hrep Hj) as (m' & Em & K & _).
          destruct (Hrepleaf j m' Hj Em) as [_ J]. split; auto.
          rewrite E3 in Hm by auto. destruct (Nat.eq_dec j (sid sib)) as [->|Js].
          - unfold ns2 in Hm. rewrite nth_upd_eq in Hm by (eapply nth_lt; eauto). injection Hm as <-. cbn. congruence.
          - rewrite E2 in Hm by auto. destruct (PK1 j m' Em K) as [q Hq]. rewrite Hq in Hm. injection Hm as <-. auto. }
        tauto.
  Qed.

  (** nodes may change in user data and moved flag without harm *)
  Lemma rep_same_links (ns ns' : list node) s : forall p,
    (forall j n, In j (ids s) -> nth_error ns j = Some n -> exists n', nth_error ns' j = Some n' /\
       n_parent n' = n_parent n /\ n_child1 n' = n_child1 n /\ n_child2 n' = n_child2 n /\
       n_height n' = n_height n /\ n_aabb n' = n_aabb n) ->
    rep ns p s -> rep ns' p s.
  Proof.
    induction s as [i|i l IHl r IHr]; intros p H; cbn [rep ids] in *.
    - intros (n & Hn & Hr). destruct (H i n) as (n' & Hn' & K1 & K2 & K3 & K4 & _); [cbn; auto | auto |].
      exists n'. rewrite K1, K2, K3, K4. auto.
    - intros ((n & nl & nr & Hn & Hnl & Hnr & Hp & H1 & H2 & Hh & Hb) & Hl & Hr).
      destruct (H i n) as (n' & Hn' & K1 & K2 & K3 & K4 & K5); auto; [cbn; auto|].
      destruct (H (sid l) nl) as (nl' & Hnl' & _ & _ & _ & L4 & L5); auto; [right; apply in_app_iff; left; apply sid_in|].
      destruct (H (sid r) nr) as (nr' & Hnr' & _ & _ & _ & M4 & M5); auto; [right; apply in_app_iff; right; apply sid_in|].
      split; [|split].
      + exists n', nl', nr'. rewrite K1, K2, K3, K4, K5, L4, L5, M4, M5. repeat split; auto.
      + apply IHl; auto. intros j m Hj. apply H. right. apply in_app_iff. auto.
      + apply IHr; auto. intros j m Hj. apply H. right. apply in_app_iff. auto.
  Qed.

  Lemma rep_moved (ns : list node) p s i n b : nth_error ns i = Some n -> rep ns p s -> rep (upd ns i (set_moved n b)) p s.
  Proof.
    intros Hn. apply rep_same_links. intros j m _ Hm. rewrite (nth_upd _ _ _ _ _ Hn).
    destruct (Nat.eqb_spec i j); [|exists m; repeat split; auto].
    subst. assert (m = n) by congruence. subst. eexists. split; [reflexivity|]. repeat split.
  Qed.

  (** *** The proxies of a tree, as a finite map *)
  Definition entry := (aabb T * option U * bool)%type.
  Definition payload (n : node) : entry := (n_aabb n, n_user n, n_moved n).
  Definition content (t : tree) (o : option shape) (j : nat) : option entry :=
    if in_dec Nat.eq_dec j (oleaves o) then option_map payload (nth_error (t_nodes t) j) else None.

  Lemma content_in (t : tree) o j : In j (oleaves o) -> content t o j = option_map payload (nth_error (t_nodes t) j).
  Proof. intros H. unfold content. destruct (in_dec _ _ _); tauto. Qed.
  Lemma content_out (t : tree) o j : ~ In j (oleaves o) -> content t o j = None.
  Proof. intros H. unfold content. destruct (in_dec _ _ _); tauto. Qed.

  Lemma payload_parent (n : node) q : payload (set_parent n q) = payload n.
  Proof. reflexivity. Qed.

  Lemma inv_leaf_node (t : tree) o X F j : inv t o X F -> In j (oleaves o) -> exists n, nth_error (t_nodes t) j = Some n /\ leaf_like n.
  Proof.
    intros (_ & _ & _ & _ & _ & Hr) Hj. destruct o as [s|]; [|destruct Hj].
    destruct Hr as [_ Hr]. destruct (rep_leaf _ _ _ _ Hr Hj) as (n & Hn & H1 & H2 & H3). exists n. repeat split; auto.
  Qed.

  Lemma pay_content (t t' : tree) o o' L : pay L (t_nodes t) (t_nodes t') ->
    forall j, In j L -> In j (oleaves o) -> In j (oleaves o') -> (exists n, nth_error (t_nodes t) j = Some n) ->
    content t' o' j = content t o j.
  Proof.
    intros Hp j Hj Ho Ho' [n Hn]. rewrite !content_in by auto. destruct (Hp j n Hj Hn) as [q Hq]. rewrite Hq, Hn. reflexivity.
  Qed.

  Lemma oleaves_oids o j : In j (oleaves o) -> In j (oids o).
  Proof. destruct o; cbn; [apply leaves_ids | tauto]. Qed.

  (* upd of a detached node keeps the invariant *)
  Lemma inv_upd_detached (t : tree) o X F id n : inv t o X F -> In id X -> id < length (t_nodes t) ->
    inv (with_nodes t (upd (t_nodes t) id n)) o X F.
  Proof.
    intros H Hid Hl. pose proof (inv_nodup _ _ _ _ H) as Hnd. destruct H as (A1 & A2 & A3 & A4 & A5 & A6).
    assert (D : ~ In id (oids o) /\ ~ In id F).
    { apply NoDup_app_iff' in Hnd. destruct Hnd as (K1 & K2 & K3). apply NoDup_app_iff' in K1. destruct K1 as (K4 & K5 & K6).
      split; intro K; [apply (K6 id); auto | apply (K3 id); auto; apply in_app_iff; auto]. }
    destruct D as [D1 D2].
    assert (E : forall j, j <> id -> nth_error (upd (t_nodes t) id n) j = nth_error (t_nodes t) j) by (intros; apply nth_upd_ne; auto).
    invsplit; cbn [t_cap t_nodes t_count t_free with_nodes]; auto.
    - now rewrite length_upd.
    - apply (chain_ext (t_nodes t)); auto. intros j Hj. apply E. intros ->. auto.
    - apply (rooted_ext t); auto. intros j Hj. apply E. intros ->. auto.
  Qed.

  (** insertion of a detached leaf: content gains exactly that leaf *)
  Lemma insert_content (t : tree) o F leaf n : inv t o [leaf] F -> nth_error (t_nodes t) leaf = Some n -> leaf_like n ->
    exists t' s' F', insert_leaf t leaf = Ok t' /\ inv t' (Some s') [] F' /\ Permutation (leaves s') (leaf :: oleaves o) /\
      content t' (Some s') leaf = Some (payload n) /\ (forall j, j <> leaf -> content t' (Some s') j = content t o j).
  Proof.
    intros Hinv Hn Hl. destruct (insert_ok t o F leaf n Hinv Hn Hl) as (t' & s' & F' & E & I' & P & Hp).
    exists t', s', F'. split; auto. split; auto. split; auto.
    assert (Hin : forall j, In j (leaves s') <-> j = leaf \/ In j (oleaves o)).
    { intros j. rewrite P. cbn. intuition. }
    split.
    - rewrite content_in by (cbn [oleaves]; apply Hin; auto).
      destruct (Hp leaf n) as [q Hq]; [cbn; auto| auto|]. rewrite Hq. reflexivity.
    - intros j Hj. destruct (in_dec Nat.eq_dec j (oleaves o)) as [Hi|Hi].
      + apply (pay_content t t' o (Some s') _ Hp); auto; [cbn; auto| |].
        * cbn [oleaves]. apply Hin. auto.
        * destruct (inv_leaf_node _ _ _ _ _ Hinv Hi) as (m & Hm & _). eauto.
      + rewrite !content_out; auto. cbn [oleaves]. rewrite Hin. tauto.
  Qed.

  Lemma remove_content (t : tree) s F leaf : inv t (Some s) [] F -> In leaf (leaves s) ->
    exists t' o' F' n n' q, remove_leaf t leaf = Ok t' /\ inv t' o' [leaf] F' /\
      Permutation (leaf :: oleaves o') (leaves s) /\
      nth_error (t_nodes t) leaf = Some n /\ nth_error (t_nodes t') leaf = Some n' /\ n' = set_parent n q /\ leaf_like n' /\
      (forall j, j <> leaf -> content t' o' j = content t (Some s) j) /\ content t' o' leaf = None.
  Proof.
    intros Hinv Hleaf. destruct (remove_ok t s F leaf Hinv Hleaf) as (t' & o' & F' & E & I' & P & Hp).
    destruct (inv_leaf_node _ _ _ _ leaf Hinv Hleaf) as (n & Hn & Hl).
    destruct (Hp leaf n Hleaf Hn) as [q Hq].
    exists t', o', F', n, (set_parent n q), q. split; [auto|]. split; [auto|]. split; [auto|].
    split; [auto|]. split; [auto|]. split; [auto|]. split; [exact Hl|].
    assert (Hin : forall j, In j (leaves s) <-> j = leaf \/ In j (oleaves o')).
    { intros j. rewrite <- P. cbn. intuition. }
    assert (Hnl : ~ In leaf (oleaves o')).
    { intro K. apply oleaves_oids in K. pose proof (inv_nodup _ _ _ _ I') as Hnd. apply NoDup_app_iff' in Hnd.
      destruct Hnd as (Hnd & _). apply NoDup_app_iff' in Hnd. destruct Hnd as (_ & _ & Hnd). apply (Hnd leaf); cbn; auto. }
    split.
    - intros j Hj. destruct (in_dec Nat.eq_dec j (oleaves o')) as [Hi|Hi].
      + assert (Hs : In j (leaves s)) by (apply Hin; auto).
        apply (pay_content t t' (Some s) o' _ Hp); auto.
        destruct (inv_leaf_node _ _ _ _ j Hinv Hs) as (m & Hm & _). eauto.
      + rewrite !content_out; auto. cbn [oleaves]. rewrite Hin. tauto.
    - now apply content_out.
  Qed.

  (** *** Public operations *)
  Lemma create_ok (t : tree) o F b u : inv t o [] F ->
    exists t' id s' F', create_proxy t b u = Ok (t', id) /\ inv t' (Some s') [] F' /\
      ~ In id (oleaves o) /\ Permutation (leaves s') (id :: oleaves o) /\
      content t' (Some s') id = Some (fatten b, Some u, true) /\
      (forall j, j <> id -> content t' (Some s') j = content t o j).
  Proof.
    intros Hinv. unfold create_proxy.
    destruct (allocate_ok t o [] F Hinv) as (t1 & id & F1 & n & Ea & I1 & R1 & R2 & Hid & Hni & Hsame).
    rewrite Ea. cbn [bind]. rewrite (modn_ok _ _ _ _ Hid). cbn [bind].
    rewrite app_nil_r in *.
    set (n' := set_moved _ _). pose proof (nth_lt _ _ _ Hid) as Lid.
    pose proof (inv_upd_detached t1 o [id] F1 id n' I1 (or_introl eq_refl) Lid) as I2.
    destruct (insert_content _ o F1 id n' I2) as (t' & s' & F' & Ei & I' & P & C1 & C2).
    { cbn [with_nodes t_nodes]. now apply nth_upd_eq. }
    { repeat split. }
    rewrite Ei. cbn [bind]. exists t', id, s', F'. split; [reflexivity|]. split; [auto|].
    split. { intro K. apply Hni. now apply oleaves_oids. }
    split; [auto|]. split; [exact C1|]. intros j Hj. rewrite C2 by auto.
    unfold content. destruct (in_dec _ _ _) as [K|K]; auto. cbn [with_nodes t_nodes]. rewrite nth_upd_ne by auto.
    rewrite Hsame; auto. now apply oleaves_oids.
  Qed.

  Lemma destroy_ok (t : tree) o F id : inv t o [] F -> In id (oleaves o) ->
    exists t' o' F', destroy_proxy t id = Ok t' /\ inv t' o' [] F' /\ Permutation (id :: oleaves o') (oleaves o) /\
      content t' o' id = None /\ (forall j, j <> id -> content t' o' j = content t o j).
  Proof.
    intros Hinv Hid. destruct o as [s|]; [|destruct Hid].
    destruct (inv_leaf_node _ _ _ _ _ Hinv Hid) as (n & Hn & Hl1 & Hl2 & Hl3).
    unfold destroy_proxy. pose proof (nth_lt _ _ _ Hn) as L.
    assert (Hcap : t_cap t = length (t_nodes t)) by apply Hinv. rewrite Hcap.
    apply Nat.ltb_lt in L as L'. rewrite L'. cbn [b2_assert bind]. rewrite (get_ok _ _ _ Hn). cbn [bind].
    unfold is_leaf. rewrite Hl1. cbn [b2_assert bind].
    destruct (remove_content t s F id Hinv Hid) as (t1 & o1 & F1 & n1 & n1' & q & E & I1 & P & _ & _ & _ & _ & C & C').
    rewrite E. cbn [bind]. destruct (free_ok t1 o1 [] [] F1 id I1) as (t2 & Ef & I2 & _ & _ & Hs).
    rewrite Ef. exists t2, o1, (id :: F1). split; auto. split; auto. split; auto.
    assert (Hnid : ~ In id (oleaves o1)).
    { intro K. apply oleaves_oids in K. pose proof (inv_nodup _ _ _ _ I2) as Hnd. cbn [app] in Hnd. rewrite app_nil_r in Hnd.
      apply NoDup_app_iff' in Hnd. destruct Hnd as (_ & _ & Hnd). apply (Hnd id); cbn; auto. }
    split; [now apply content_out|].
    intros j Hj. rewrite <- C by auto. unfold content. destruct (in_dec _ _ _); auto. now rewrite Hs.
  Qed.

  Lemma move_ok (t : tree) o F id b d fb ou m : inv t o [] F -> content t o id = Some (fb, ou, m) ->
    exists t' o' F' r, move_proxy t id b d = Ok (t', r) /\ inv t' o' [] F' /\
      Permutation (oleaves o') (oleaves o) /\
      r = negb (keep_box fb b (predict b d)) /\
      content t' o' id = Some (if r then (predict b d, ou, true) else (fb, ou, m)) /\
      (forall j, j <> id -> content t' o' j = content t o j).
  Proof.
    intros Hinv Hc.
    assert (Hid : In id (oleaves o)).
    { destruct (in_dec Nat.eq_dec id (oleaves o)); auto. rewrite content_out in Hc by auto. discriminate. }
    destruct o as [s|]; [|destruct Hid].
    destruct (inv_leaf_node _ _ _ _ _ Hinv Hid) as (n & Hn & Hl1 & Hl2 & Hl3).
    rewrite content_in, Hn in Hc by auto. cbn in Hc. injection Hc as Hc1 Hc2 Hc3.
    unfold move_proxy. pose proof (nth_lt _ _ _ Hn) as L.
    assert (Hcap : t_cap t = length (t_nodes t)) by apply Hinv. rewrite Hcap.
    apply Nat.ltb_lt in L as L'. rewrite L'. cbn [b2_assert bind]. rewrite (get_ok _ _ _ Hn). cbn [bind].
    unfold is_leaf. rewrite Hl1. cbn [b2_assert bind]. cbn zeta. rewrite Hc1.
    destruct (keep_box fb b (predict b d)) eqn:Ek.
    { exists t, (Some s), F, false. split; [auto|]. split; [auto|]. split; [auto|]. split; [reflexivity|]. split; auto.
      rewrite content_in, Hn by auto. cbn. unfold payload. now rewrite Hc1, Hc2, Hc3. }
    destruct (remove_content t s F id Hinv Hid) as (t1 & o1 & F1 & n1 & n1' & q & E & I1 & P & Hn1 & Hn1' & Eq & Hll & C & C').
    assert (n1 = n) by congruence. subst n1 n1'.
    rewrite E. cbn [bind]. rewrite (modn_ok _ _ _ _ Hn1'). cbn [bind].
    set (n2 := set_aabb (set_parent n q) (predict b d)).
    assert (L1 : id < length (t_nodes t1)) by (eapply nth_lt; eauto).
    pose proof (inv_upd_detached t1 o1 [id] F1 id n2 I1 (or_introl eq_refl) L1) as I2.
    destruct (insert_content _ o1 F1 id n2 I2) as (t3 & s3 & F3 & Ei & I3 & P3 & C1 & C2).
    { cbn [with_nodes t_nodes]. now apply nth_upd_eq. }
    { exact Hll. }
    rewrite Ei. cbn [bind].
    assert (Hnid : ~ In id (oleaves o1)).
    { intro K. apply oleaves_oids in K. pose proof (inv_nodup _ _ _ _ I1) as Hnd. apply NoDup_app_iff' in Hnd.
      destruct Hnd as (Hnd & _). apply NoDup_app_iff' in Hnd. destruct Hnd as (_ & _ & Hnd). apply (Hnd id); cbn; auto. }
    assert (Hid3 : In id (leaves s3)) by (rewrite P3; cbn; auto).
    destruct (inv_leaf_node _ _ _ _ id I3 Hid3) as (n3 & Hn3 & Hl3a & Hl3b & Hl3c).
    rewrite (modn_ok _ _ _ _ Hn3). cbn [bind].
    set (ns4 := upd (t_nodes t3) id (set_moved n3 true)).
    assert (L3 : id < length (t_nodes t3)) by (eapply nth_lt; eauto).
    assert (E4 : forall j, j <> id -> nth_error ns4 j = nth_error (t_nodes t3) j) by (intros; apply nth_upd_ne; auto).
    exists (with_nodes t3 ns4), (Some s3), F3, true. split; [reflexivity|].
    split. { (* changing the moved flag *)
      destruct I3 as (B1 & B2 & B3 & B4 & B5 & B6 & B7).
      invsplit; cbn [t_cap t_nodes t_count t_free with_nodes]; auto.
      - unfold ns4. now rewrite length_upd.
      - apply (chain_ext (t_nodes t3)); auto. intros j Hj. apply E4. intros ->.
        apply Permutation_nodup_seq in B4. cbn [oids] in B4. rewrite app_nil_r in B4. apply NoDup_app_iff' in B4.
        destruct B4 as (_ & _ & B4). apply (B4 id); auto. now apply leaves_ids.
      - split; [exact B6|]. cbn [t_nodes with_nodes]. eapply rep_moved; eauto. }
    split. { cbn [oleaves]. rewrite P3. exact P. }
    split; [reflexivity|]. split.
    - rewrite content_in by auto. cbn [with_nodes t_nodes]. unfold ns4. rewrite nth_upd_eq by auto.
      rewrite content_in, Hn3 in C1 by auto. cbn in C1. injection C1 as K1 K2. cbn. unfold payload. cbn. rewrite K1, K2. cbn. now rewrite Hc2.
    - intros j Hj. rewrite <- C by auto.
      transitivity (content t3 (Some s3) j).
      { unfold content. destruct (in_dec _ _ _); auto. cbn [with_nodes t_nodes]. now rewrite E4. }
      rewrite C2 by auto. unfold content. destruct (in_dec _ _ _); auto. cbn [with_nodes t_nodes]. now rewrite nth_upd_ne by auto.
  Qed.
End Ops.
