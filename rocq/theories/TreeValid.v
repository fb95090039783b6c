(** validate, shift_origin, clear_moved and the whole of rebuild_bottom_up. *)
From Coq Require Import List ZArith Lia Bool Arith Permutation.
From Verif Require Import Base ListFacts Num NumLaws Math Collision StackModel TreeModel TreeRep TreeBalance TreeInv TreeOps TreeRebuild.
Import ListNotations.

Section Valid.
  Context {T : Type} `{NT : Num T} {U : Type}.
  Notation node := (node T U).
  Notation tree := (tree T U).
  Context {Q : aabb T -> aabb T -> aabb T -> Prop} {QB : BoxRel Q}.
  Notation rep := (rep Q).
  Notation inv := (inv Q).

  (* the union test of validate_metrics succeeds at each internal node *)
  Definition met (n nl nr : node) : Prop :=
    v_is_equal (lo (combine (n_aabb nl) (n_aabb nr))) (lo (n_aabb n)) = true /\
    v_is_equal (hi (combine (n_aabb nl) (n_aabb nr))) (hi (n_aabb n)) = true.
  Fixpoint mets (ns : list node) (s : shape) : Prop :=
    match s with
    | SL _ => True
    | SN i l r => (forall n nl nr, nth_error ns i = Some n -> nth_error ns (sid l) = Some nl -> nth_error ns (sid r) = Some nr -> met n nl nr)
                  /\ mets ns l /\ mets ns r
    end.

  Lemma opt_lt_ok i n : i < n -> opt_lt (Some i) n = true.
  Proof. intros. now apply Nat.ltb_lt. Qed.

  Lemma vstruct_ok (t : tree) s : forall p fuel,
    rep (t_nodes t) p s -> NoDup (ids s) -> t_cap t = length (t_nodes t) -> length (ids s) <= fuel ->
    (forall j, In j (ids s) -> t_root t = Some j -> j = sid s /\ p = None) ->
    validate_structure fuel t (Some (sid s)) = Ok tt.
  Proof.
    induction s as [i|i l IHl r IHr]; intros p fuel H Hnd Hcap Hf Hr.
    - destruct H as (n & Hn & Hp & H1 & H2 & Hh). cbn [sid].
      assert (E : (if opt_eqb (Some i) (t_root t) then b2_assert (opt_eqb (n_parent n) None) else Ok tt) = Ok tt).
      { destruct (opt_eqb (Some i) (t_root t)) eqn:E; auto. apply opt_eqb_spec in E.
        destruct (Hr i) as [_ ->]; [cbn; auto|auto|]. rewrite Hp. reflexivity. }
      destruct fuel; cbn [validate_structure]; rewrite (get_ok _ _ _ Hn); cbn [bind]; rewrite E; cbn [bind];
        unfold is_leaf; rewrite H1, H2, Hh; reflexivity.
    - destruct H as ((n & nl & nr & Hn & Hnl & Hnr & Hp & H1 & H2 & Hh & Hb) & Hl & Hrr).
      cbn [ids length] in Hf. rewrite app_length in Hf. destruct fuel as [|fuel]; [lia|].
      cbn [validate_structure sid]. rewrite (get_ok _ _ _ Hn). cbn [bind].
      assert (E : (if opt_eqb (Some i) (t_root t) then b2_assert (opt_eqb (n_parent n) None) else Ok tt) = Ok tt).
      { destruct (opt_eqb (Some i) (t_root t)) eqn:E; auto. apply opt_eqb_spec in E.
        destruct (Hr i) as [_ ->]; [cbn; auto|auto|]. rewrite Hp. reflexivity. }
      rewrite E. cbn [bind]. unfold is_leaf. rewrite H1, H2.
      rewrite !opt_lt_ok by (rewrite Hcap; eapply nth_lt; eauto). cbn [b2_assert bind].
      rewrite (getp_ok _ _ _ Hnl), (getp_ok _ _ _ Hnr). cbn [bind].
      destruct (rep_root _ _ _ Hl) as (nl' & Enl & Pl & _). destruct (rep_root _ _ _ Hrr) as (nr' & Enr & Pr & _).
      assert (nl' = nl) by congruence. assert (nr' = nr) by congruence. subst. rewrite Pl, Pr, !opt_eqb_refl. cbn [b2_assert bind].
      cbn [ids] in Hnd. apply NoDup_cons_iff in Hnd. destruct Hnd as [Hni Hnd]. apply NoDup_app_iff' in Hnd.
      destruct Hnd as (Hd1 & Hd2 & Hd3). rewrite in_app_iff in Hni.
      rewrite (IHl (Some i) fuel); auto; [|lia|].
      + cbn [bind]. apply (IHr (Some i)); auto; [lia|].
        intros j Hj Hj'. exfalso. assert (K : In j (ids (SN i l r))) by (right; apply in_app_iff; auto). destruct (Hr j K Hj') as [K' _]. cbn [sid] in K'. subst j. tauto.
      + intros j Hj Hj'. exfalso. assert (K : In j (ids (SN i l r))) by (right; apply in_app_iff; auto). destruct (Hr j K Hj') as [K' _]. cbn [sid] in K'. subst j. tauto.
  Qed.

  Lemma vmetrics_ok (t : tree) s : forall p fuel,
    rep (t_nodes t) p s -> mets (t_nodes t) s -> t_cap t = length (t_nodes t) -> length (ids s) <= fuel ->
    validate_metrics fuel t (Some (sid s)) = Ok tt.
  Proof.
    induction s as [i|i l IHl r IHr]; intros p fuel H Hm Hcap Hf.
    - destruct H as (n & Hn & Hp & H1 & H2 & Hh). cbn [sid].
      destruct fuel; cbn [validate_metrics]; rewrite (get_ok _ _ _ Hn); cbn [bind];
        unfold is_leaf; rewrite H1, H2, Hh; reflexivity.
    - destruct H as ((n & nl & nr & Hn & Hnl & Hnr & Hp & H1 & H2 & Hh & Hb) & Hl & Hrr).
      destruct Hm as (Hm & Hml & Hmr).
      cbn [ids length] in Hf. rewrite app_length in Hf. destruct fuel as [|fuel]; [lia|].
      cbn [validate_metrics sid]. rewrite (get_ok _ _ _ Hn). cbn [bind]. unfold is_leaf. rewrite H1, H2.
      rewrite !opt_lt_ok by (rewrite Hcap; eapply nth_lt; eauto). cbn [b2_assert bind].
      rewrite (getp_ok _ _ _ Hnl), (getp_ok _ _ _ Hnr). cbn [bind]. rewrite Hh, Z.eqb_refl. cbn [b2_assert bind].
      destruct (Hm n nl nr) as [M1 M2]; auto. cbn zeta. rewrite M1, M2. cbn [b2_assert bind].
      rewrite (IHl (Some i) fuel); auto; [|lia]. cbn [bind]. apply (IHr (Some i)); auto; lia.
  Qed.

  Lemma cheight_ok (t : tree) s : forall p fuel,
    rep (t_nodes t) p s -> t_cap t = length (t_nodes t) -> length (ids s) <= fuel ->
    compute_height_by_node fuel t (Some (sid s)) = Ok (sh s).
  Proof.
    induction s as [i|i l IHl r IHr]; intros p fuel H Hcap Hf.
    - destruct H as (n & Hn & Hp & H1 & H2 & Hh).
      destruct fuel; cbn [compute_height_by_node sid unwrap bind]; rewrite Hcap; rewrite (proj2 (Nat.ltb_lt _ _) (nth_lt _ _ _ Hn));
        cbn [b2_assert bind]; rewrite (get_ok _ _ _ Hn); cbn [bind]; unfold is_leaf; rewrite H1; reflexivity.
    - destruct H as ((n & nl & nr & Hn & Hnl & Hnr & Hp & H1 & H2 & Hh & Hb) & Hl & Hrr).
      cbn [ids length] in Hf. rewrite app_length in Hf. destruct fuel as [|fuel]; [lia|].
      cbn [compute_height_by_node sid unwrap bind]. rewrite Hcap at 1. rewrite (proj2 (Nat.ltb_lt _ _) (nth_lt _ _ _ Hn)).
      cbn [b2_assert bind]. rewrite (get_ok _ _ _ Hn). cbn [bind]. unfold is_leaf. rewrite H1, H2.
      rewrite (IHl (Some i) fuel), (IHr (Some i) fuel); auto; lia.
  Qed.

  Lemma free_length_ok (t : tree) F : forall p fuel,
    chain (t_nodes t) p F -> t_cap t = length (t_nodes t) -> length F <= fuel -> free_length fuel t p = Ok (length F).
  Proof.
    induction F as [|i F IH]; intros p fuel Hc Hcap Hf; cbn [chain length] in *.
    - subst. destruct fuel; reflexivity.
    - destruct Hc as (-> & n & Hn & Hh & Hc). destruct fuel as [|fuel]; [lia|]. cbn [free_length].
      rewrite Hcap at 1. rewrite (proj2 (Nat.ltb_lt _ _) (nth_lt _ _ _ Hn)). cbn [b2_assert bind].
      rewrite (get_ok _ _ _ Hn). cbn [bind]. rewrite IH; auto. lia.
  Qed.

  Lemma validate_ok (t : tree) s F : inv t (Some s) [] F -> mets (t_nodes t) s -> validate t = Ok tt.
  Proof.
    intros Hinv Hm. pose proof (inv_nodup _ _ _ _ Hinv) as Hnd. destruct Hinv as (A1 & A2 & A3 & A4 & A5 & [Hr Hrep]).
    cbn [oids] in *. rewrite app_nil_r in *.
    assert (Hl : length (ids s) + length F = t_cap t).
    { rewrite <- app_length, (Permutation_length A4). apply seq_length. }
    apply NoDup_app_iff' in Hnd. destruct Hnd as (Hnd & _ & _).
    unfold validate. rewrite Hr.
    rewrite (vstruct_ok t s None); auto; [|lia|]. 2:{ intros j Hj Hj'. rewrite Hr in Hj'. injection Hj' as <-. auto. }
    cbn [bind]. rewrite (vmetrics_ok t s None); auto; [|lia]. cbn [bind].
    rewrite (free_length_ok t F); auto; [|lia]. cbn [bind].
    destruct (rep_root _ _ _ Hrep) as (n & Hn & _ & Hh).
    unfold get_height, compute_height. rewrite Hr, (get_ok _ _ _ Hn). cbn [bind].
    rewrite (cheight_ok t s None); auto; [|lia]. cbn [bind]. rewrite Hh, Z.eqb_refl. cbn [b2_assert bind].
    rewrite A3, Hl, Nat.eqb_refl. reflexivity.
  Qed.

  (* without any knowledge of the boxes the metrics check may panic but never runs out of fuel *)
  Lemma vmetrics_no_fuel (t : tree) s : forall p fuel,
    rep (t_nodes t) p s -> length (ids s) <= fuel -> validate_metrics fuel t (Some (sid s)) <> Fuel.
  Proof.
    induction s as [i|i l IHl r IHr]; intros p fuel H Hf.
    - destruct H as (n & Hn & Hp & H1 & H2 & Hh). cbn [sid].
      destruct fuel; cbn [validate_metrics]; rewrite (get_ok _ _ _ Hn); cbn [bind];
        unfold is_leaf; rewrite H1, H2, Hh; discriminate.
    - destruct H as ((n & nl & nr & Hn & Hnl & Hnr & Hp & H1 & H2 & Hh & Hb) & Hl & Hrr).
      cbn [ids length] in Hf. rewrite app_length in Hf. destruct fuel as [|fuel]; [lia|].
      cbn [validate_metrics sid]. rewrite (get_ok _ _ _ Hn). cbn [bind]. unfold is_leaf. rewrite H1, H2.
      destruct (opt_lt _ _); cbn [b2_assert bind]; [|discriminate]. destruct (opt_lt _ _); cbn [b2_assert bind]; [|discriminate].
      rewrite (getp_ok _ _ _ Hnl), (getp_ok _ _ _ Hnr). cbn [bind]. rewrite Hh, Z.eqb_refl. cbn [b2_assert bind].
      cbn zeta. destruct (v_is_equal _ _); cbn [b2_assert bind]; [|discriminate].
      destruct (v_is_equal _ _); cbn [b2_assert bind]; [|discriminate].
      pose proof (IHl (Some i) fuel Hl ltac:(lia)) as K1. pose proof (IHr (Some i) fuel Hrr ltac:(lia)) as K2.
      destruct (validate_metrics fuel t (Some (sid l))); cbn [bind]; try discriminate; congruence.
  Qed.

  Lemma validate_no_fuel (t : tree) s F : inv t (Some s) [] F -> validate t <> Fuel.
  Proof.
    intros Hinv. pose proof (inv_nodup _ _ _ _ Hinv) as Hnd. destruct Hinv as (A1 & A2 & A3 & A4 & A5 & [Hr Hrep]).
    cbn [oids] in *. rewrite app_nil_r in *.
    assert (Hl : length (ids s) + length F = t_cap t).
    { rewrite <- app_length, (Permutation_length A4). apply seq_length. }
    apply NoDup_app_iff' in Hnd. destruct Hnd as (Hnd & _ & _).
    unfold validate. rewrite Hr.
    rewrite (vstruct_ok t s None); auto; [|lia|]. 2:{ intros j Hj Hj'. rewrite Hr in Hj'. injection Hj' as <-. auto. }
    cbn [bind]. pose proof (vmetrics_no_fuel t s None (length (t_nodes t)) Hrep ltac:(lia)) as K.
    destruct (validate_metrics _ _ _); cbn [bind]; [|discriminate|congruence].
    rewrite (free_length_ok t F); auto; [|lia]. cbn [bind].
    destruct (rep_root _ _ _ Hrep) as (n & Hn & _ & Hh).
    unfold get_height, compute_height. rewrite Hr, (get_ok _ _ _ Hn). cbn [bind].
    rewrite (cheight_ok t s None); auto; [|lia]. cbn [bind]. rewrite Hh, Z.eqb_refl. cbn [b2_assert bind].
    rewrite A3, Hl, Nat.eqb_refl. discriminate.
  Qed.

  (** *** rebuild *)
  Fixpoint inner (s : shape) : list nat := match s with SL _ => [] | SN i l r => i :: inner l ++ inner r end.
  Lemma ids_split s : Permutation (ids s) (leaves s ++ inner s).
  Proof.
    induction s as [i|i l IHl r IHr]; cbn [ids leaves inner]; [reflexivity|].
    rewrite IHl, IHr. rewrite <- Permutation_middle. constructor. rewrite <- !app_assoc. apply Permutation_app_head.
    rewrite !app_assoc. apply Permutation_app_tail. apply Permutation_app_comm.
  Qed.

  Lemma rep_inner (ns : list node) p s j : rep ns p s -> In j (inner s) ->
    exists n, nth_error ns j = Some n /\ n_child1 n <> None /\ (0 < n_height n)%Z.
  Proof.
    revert p. induction s as [i|i l IHl r IHr]; intros p; cbn [inner In]; [tauto|].
    intros ((n & nl & nr & Hn & Hnl & Hnr & Hp & H1 & H2 & Hh & Hb) & Hl & Hr) [<-|Hj].
    - exists n. split; auto. split; [congruence|]. destruct (rep_root _ _ _ Hl) as (nl' & E & _ & Eh).
      assert (nl' = nl) by congruence. subst. pose proof (sh_nonneg l). lia.
    - apply in_app_iff in Hj. destruct Hj; eauto.
  Qed.

  Lemma chain_neg (ns : list node) F : forall p j, chain ns p F -> In j F -> exists n, nth_error ns j = Some n /\ n_height n = (-1)%Z.
  Proof.
    induction F as [|f F IH]; intros p j Hc []; cbn [chain] in Hc; destruct Hc as (_ & n & Hn & Hh & Hc).
    - subst. eauto.
    - eauto.
  Qed.

  Lemma rebuild_filters (t : tree) s F : inv t (Some s) [] F ->
    Permutation (filter (lkL (t_nodes t)) (seq 0 (t_cap t))) (leaves s) /\
    Permutation (filter (lkI (t_nodes t)) (seq 0 (t_cap t))) (inner s).
  Proof.
    intros Hinv. pose proof (inv_nodup _ _ _ _ Hinv) as Hnd. destruct Hinv as (A1 & A2 & A3 & A4 & A5 & [Hr Hrep]).
    cbn [oids] in *. rewrite app_nil_r in *.
    assert (Hnd1 : NoDup (leaves s ++ inner s)).
    { apply NoDup_app_iff' in Hnd. destruct Hnd as (K & _). eapply Permutation_NoDup; [apply ids_split|exact K]. }
    apply NoDup_app_iff' in Hnd1. destruct Hnd1 as (N1 & N2 & N3).
    assert (Hcase : forall j, In j (seq 0 (t_cap t)) <-> In j (leaves s) \/ In j (inner s) \/ In j F).
    { intros j. rewrite <- A4, in_app_iff, (ids_split s), in_app_iff. tauto. }
    assert (KL : forall j, In j (leaves s) -> lkL (t_nodes t) j = true /\ lkI (t_nodes t) j = false).
    { intros j Hj. destruct (rep_leaf _ _ _ _ Hrep Hj) as (n & Hn & H1 & H2 & H3). unfold lkL, lkI, is_leaf. rewrite Hn, H1, H3. auto. }
    assert (KI : forall j, In j (inner s) -> lkL (t_nodes t) j = false /\ lkI (t_nodes t) j = true).
    { intros j Hj. destruct (rep_inner _ _ _ _ Hrep Hj) as (n & Hn & H1 & H2). unfold lkL, lkI, is_leaf. rewrite Hn.
      destruct (n_child1 n); [|congruence]. destruct (n_height n <? 0)%Z eqn:E; [apply Z.ltb_lt in E; lia|]. auto. }
    assert (KF : forall j, In j F -> lkL (t_nodes t) j = false /\ lkI (t_nodes t) j = false).
    { intros j Hj. destruct (chain_neg _ _ _ _ A5 Hj) as (n & Hn & Hh). unfold lkL, lkI. rewrite Hn, Hh. auto. }
    split; apply NoDup_Permutation; auto using NoDup_filter, seq_NoDup; intros j; rewrite filter_In, Hcase; split.
    - intros [[K|[K|K]] E]; auto; exfalso; [destruct (KI _ K)|destruct (KF _ K)]; congruence.
    - intros K. split; auto. now apply KL.
    - intros [[K|[K|K]] E]; auto; exfalso; [destruct (KL _ K)|destruct (KF _ K)]; congruence.
    - intros K. split; auto. now apply KI.
  Qed.

  Lemma flat_map_SL L : flat_map ids (map SL L) = L /\ flat_map leaves (map SL L) = L.
  Proof. induction L as [|x L [IH1 IH2]]; cbn; auto. now rewrite IH1, IH2. Qed.

  Context (P : aabb T -> Prop)
          (Pcomb : forall x y, P x -> P y -> P (combine x y))
          (Pcost : forall x y, P x -> P y -> nlt (perimeter (combine x y)) B2_MAX_FLOAT = true).

  Lemma rebuild_core (t : tree) s F : inv t (Some s) [] F ->
    match rebuild_bottom_up t with
    | Fuel => False
    | Ok t' => exists s' F', inv t' (Some s') [] F' /\ Permutation (leaves s') (leaves s) /\ t_ins t' = t_ins t /\
                  pay (leaves s) (t_nodes t) (t_nodes t')
    | Panic => ~ (forall j n, In j (leaves s) -> nth_error (t_nodes t) j = Some n -> P (n_aabb n)) \/
               (exists (t' : tree) s' F', inv t' (Some s') [] F' /\ Permutation (leaves s') (leaves s) /\ pay (leaves s) (t_nodes t) (t_nodes t') /\
                   ~ mets (t_nodes t') s')
    end.
  Proof.
    intros Hinv. destruct (rebuild_filters t s F Hinv) as [PL PI].
    pose proof (inv_nodup _ _ _ _ Hinv) as Hnd.
    destruct Hinv as (A1 & A2 & A3 & A4 & A5 & [Hr Hrep]).
    cbn [oids] in *. rewrite app_nil_r in *.
    assert (Hlen : length (ids s) = length (leaves s) + length (inner s)).
    { rewrite (Permutation_length (ids_split s)). apply app_length. }
    pose proof (ids_leaves_len s) as [_ Hpos].
    unfold rebuild_bottom_up.
    destruct (rebuild_leaves_ok (seq 0 (t_cap t)) t (repeat None (t_count t)) 0 F) as (ns' & fr & nodes & E & G1 & G2 & G3 & G4 & G5 & G6); auto.
    { apply seq_NoDup. } { intros i Hi. apply in_seq in Hi. lia. }
    { rewrite repeat_length, (Permutation_length PL). lia. }
    { rewrite (Permutation_length PI). lia. }
    set (L := filter (lkL (t_nodes t)) (seq 0 (t_cap t))) in *.
    set (I := filter (lkI (t_nodes t)) (seq 0 (t_cap t))) in *.
    rewrite E. cbn [bind Nat.add].
    cbn [Nat.add firstn app] in G2. rewrite repeat_length in G1.
    set (t1 := Tree (t_root t) ns' _ _ fr _).
    destruct (flat_map_SL L) as [FM1 FM2].
    assert (LL : length L = length (leaves s)) by (apply Permutation_length; auto).
    assert (Hdisj : forall j, In j L -> ~ In j I).
    { intros j H1 H2. eapply Permutation_in in H1; [|exact PL]. eapply Permutation_in in H2; [|exact PI].
      apply NoDup_app_iff' in Hnd. destruct Hnd as (K & _). eapply Permutation_NoDup in K; [|apply ids_split].
      apply NoDup_app_iff' in K. destruct K as (_ & _ & K). now apply (K j). }
    assert (Hforest : forest (Q:=Q) t1 (map SL L) (rev I ++ F)).
    { split; [|split; [|split; [|split; [|split]]]]; cbn [t1 t_cap t_nodes t_count t_free]; auto.
      - now rewrite G3.
      - rewrite FM1. rewrite A3, Hlen, (Permutation_length PI), LL. lia.
      - rewrite FM1. rewrite <- A4. rewrite app_assoc. apply Permutation_app_tail. rewrite (ids_split s), PL.
        apply Permutation_app_head. rewrite <- Permutation_rev. exact PI.
      - apply Forall_forall. intros f Hf. apply in_map_iff in Hf. destruct Hf as (j & <- & Hj). cbn [rep].
        assert (Hj' : In j (leaves s)) by (eapply Permutation_in; eauto).
        destruct (rep_leaf _ _ _ _ Hrep Hj') as (n & Hn & H1 & H2 & H3).
        exists (set_parent n None). rewrite (G6 j n Hj Hn). cbn. auto. }
    assert (Hwork : work nodes (map SL L)).
    { unfold work. rewrite map_length, G2, map_map. reflexivity. }
    assert (Hne : map SL L <> []). { destruct L; [cbn in LL; lia|discriminate]. }
    assert (Hpay1 : pay (leaves s) (t_nodes t) ns').
    { intros j n Hj Hn. exists None. apply G6; auto. eapply Permutation_in; [symmetry; exact PL|exact Hj]. }
    pose proof (merge_ok P Pcomb Pcost (length (map SL L)) t1 nodes (map SL L) (rev I ++ F) Hforest Hwork) as Hm.
    rewrite map_length in Hm. specialize (Hm ltac:(lia) ltac:(lia) Hne).
    destruct (rebuild_merge (length L) t1 nodes (length L)) as [[t2 nodes2]| |]; cbn [bind].
    2:{ left. intro Hs. apply Hm. apply Forall_forall. intros f Hf n Hn. apply in_map_iff in Hf. destruct Hf as (j & <- & Hj).
        cbn [sid t1 t_nodes] in Hn. assert (Hj' : In j (leaves s)) by (eapply Permutation_in; eauto).
        destruct (rep_leaf _ _ _ _ Hrep Hj') as (m & Hm' & _). rewrite (G6 j m Hj Hm') in Hn. injection Hn as <-.
        cbn. eapply Hs; eauto. }
    2:{ exact Hm. }
    destruct Hm as (s' & F' & (B1 & B2 & B3 & B4 & B5 & B6) & W & R1 & R2 & PS & PP).
    rewrite (work_get _ _ 0 s' W) by reflexivity. cbn [bind].
    rewrite FM2 in PS, PP. cbn [flat_map] in *. rewrite app_nil_r in *.
    set (t3 := with_root t2 (Some (sid s'))).
    assert (I3 : inv t3 (Some s') [] F').
    { invsplit; cbn [t3 with_root t_cap t_nodes t_count t_free oids]; auto; rewrite ?app_nil_r; auto.
      split; [reflexivity|]. now inversion B6. }
    assert (PS' : Permutation (leaves s') (leaves s)) by (rewrite PS; exact PL).
    assert (PP' : pay (leaves s) (t_nodes t) (t_nodes t3)).
    { apply (pay_trans _ _ ns'); auto. eapply pay_sub; [|exact PP]. intros j Hj. eapply Permutation_in; [symmetry; exact PL|exact Hj]. }
    assert (Hv : validate t3 = Ok tt \/ validate t3 = Panic /\ ~ mets (t_nodes t3) s').
    { destruct (validate t3) as [[]| |] eqn:Ev; auto.
      - right. split; auto. intro K. rewrite (validate_ok t3 s' F' I3 K) in Ev. discriminate.
      - exfalso. (* out of fuel is impossible: run the checks *) revert Ev. apply (validate_no_fuel t3 s' F' I3). }
    destruct Hv as [Hv|[Hv Hnm]]; rewrite Hv; cbn [bind].
    - exists s', F'. repeat split; auto; try apply I3.
    - right. exists t3, s', F'. auto.
  Qed.
End Valid.
