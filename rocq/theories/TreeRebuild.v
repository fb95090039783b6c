(** rebuild_bottom_up: partial correctness (whenever it returns, the proxies are unchanged). *)
From Coq Require Import List ZArith Lia Bool Arith Permutation.
From Verif Require Import Base ListFacts Num Math Collision StackModel TreeModel TreeRep TreeBalance TreeInv TreeOps.
Import ListNotations.

Lemma firstn_upd_ge {A} (l : list A) i a k : k <= i -> firstn k (upd l i a) = firstn k l.
Proof.
  revert i k. induction l as [|x l IH]; intros [|i] [|k] H; cbn; auto; try lia. f_equal. apply IH. lia.
Qed.

Lemma firstn_snoc {A} (l : list A) k a : nth_error l k = Some a -> firstn (k + 1) l = firstn k l ++ [a].
Proof.
  revert k. induction l as [|x l IH]; intros [|k] H; cbn in *; try discriminate.
  - now injection H as ->.
  - f_equal. now apply IH.
Qed.

Lemma nth_split' {A} (l : list A) i a : nth_error l i = Some a -> l = firstn i l ++ a :: skipn (i + 1) l.
Proof.
  revert i. induction l as [|x l IH]; intros [|i] H; cbn in *; try discriminate.
  - now injection H as ->.
  - f_equal. now apply IH.
Qed.
Lemma upd_split {A} (l : list A) i a : i < length l -> upd l i a = firstn i l ++ a :: skipn (i + 1) l.
Proof.
  revert i. induction l as [|x l IH]; intros [|i] H; cbn in *; try lia; auto. f_equal. apply IH. lia.
Qed.

Lemma upd_app1 {A} (l m : list A) j a : j < length l -> upd (l ++ m) j a = upd l j a ++ m.
Proof. revert j. induction l as [|x l IH]; intros [|j] H; cbn in *; try lia; auto. f_equal. apply IH. lia. Qed.

(* swap-remove: position j takes the last element, the list is cut by one *)
Lemma swap_remove_perm {A} (l : list A) j x y : nth_error l j = Some x -> nth_error l (length l - 1) = Some y ->
  Permutation (x :: firstn (length l - 1) (upd l j y)) l.
Proof.
  intros Hx Hy. pose proof (nth_lt _ _ _ Hx) as Lj.
  destruct l as [|a l'] using rev_ind; [cbn in *; lia|]. clear IHl'.
  rewrite app_length in *. cbn [length] in *.
  replace (length l' + 1 - 1) with (length l') in * by lia.
  rewrite nth_error_app2, Nat.sub_diag in Hy by lia. cbn in Hy. injection Hy as ->.
  destruct (Nat.eq_dec j (length l')) as [->|Hne].
  - rewrite nth_error_app2, Nat.sub_diag in Hx by lia. cbn in Hx. injection Hx as ->.
    rewrite firstn_upd_ge by lia. rewrite firstn_app, Nat.sub_diag, firstn_all. cbn. rewrite app_nil_r.
    apply Permutation_cons_append.
  - rewrite nth_error_app1 in Hx by lia.
    assert (E : firstn (length l') (upd (l' ++ [y]) j y) = upd l' j y).
    { rewrite upd_app1 by lia. rewrite firstn_app, length_upd, Nat.sub_diag. cbn [firstn]. rewrite app_nil_r.
      apply firstn_all2. rewrite length_upd. lia. }
    rewrite E. rewrite upd_split by lia. rewrite (nth_split' l' j x Hx) at 3.
    rewrite <- app_assoc. cbn [app].
    etransitivity; [|apply Permutation_middle]. constructor.
    apply Permutation_app_head. apply Permutation_cons_append.
Qed.

Section Rebuild.
  Context {T : Type} `{NT : Num T} {U : Type}.
  Notation node := (node T U).
  Notation tree := (tree T U).
  Context {Q : aabb T -> aabb T -> aabb T -> Prop} {QB : BoxRel Q}.
  Notation rep := (rep Q).
  Notation inv := (inv Q).

  Definition lkL (ns : list node) (i : nat) : bool :=
    match nth_error ns i with Some n => negb (n_height n <? 0)%Z && is_leaf n | None => false end.
  Definition lkI (ns : list node) (i : nat) : bool :=
    match nth_error ns i with Some n => negb (n_height n <? 0)%Z && negb (is_leaf n) | None => false end.

  Lemma filter_ext_in' {A} (f g : A -> bool) l : (forall x, In x l -> f x = g x) -> filter f l = filter g l.
  Proof. apply filter_ext_in. Qed.

  Lemma rebuild_leaves_ok is : forall (t : tree) nodes count F,
    NoDup is -> t_cap t = length (t_nodes t) -> chain (t_nodes t) (t_free t) F ->
    (forall i, In i is -> i < length (t_nodes t)) ->
    count + length (filter (lkL (t_nodes t)) is) <= length nodes ->
    length (filter (lkI (t_nodes t)) is) <= t_count t ->
    let L := filter (lkL (t_nodes t)) is in
    let I := filter (lkI (t_nodes t)) is in
    exists ns' free' nodes',
      rebuild_leaves is t nodes count =
        Ok (Tree (t_root t) ns' (t_count t - length I) (t_cap t) free' (t_ins t), nodes', count + length L) /\
      length nodes' = length nodes /\
      firstn (count + length L) nodes' = firstn count nodes ++ map Some L /\
      length ns' = length (t_nodes t) /\ chain ns' free' (rev I ++ F) /\
      (forall j, ~ In j L -> ~ In j I -> nth_error ns' j = nth_error (t_nodes t) j) /\
      (forall j n, In j L -> nth_error (t_nodes t) j = Some n -> nth_error ns' j = Some (set_parent n None)).
  Proof.
    induction is as [|i is IH]; intros t nodes count F Hnd Hcap Hch Hlt HL HI.
    - cbn [filter length] in *. exists (t_nodes t), (t_free t), nodes. cbn [rebuild_leaves map rev app].
      rewrite !Nat.add_0_r, Nat.sub_0_r, app_nil_r. repeat split; auto; [now destruct t|]. intros j n [].
    - cbn zeta. inversion Hnd as [|? ? Hni Hnd']; subst. cbn [rebuild_leaves].
      destruct (lt_nth (t_nodes t) i) as [n Hn]; [apply Hlt; cbn; auto|].
      rewrite (get_ok _ _ _ Hn). cbn [bind].
      assert (EL : lkL (t_nodes t) i = negb (n_height n <? 0)%Z && is_leaf n) by (unfold lkL; now rewrite Hn).
      assert (EI : lkI (t_nodes t) i = negb (n_height n <? 0)%Z && negb (is_leaf n)) by (unfold lkI; now rewrite Hn).
      cbn [filter] in *. rewrite EL, EI in *.
      assert (Hlti : i < length (t_nodes t)) by (eapply nth_lt; eauto).
      assert (Hext : forall m, (forall j, In j is -> lkL (upd (t_nodes t) i m) j = lkL (t_nodes t) j) /\
                               (forall j, In j is -> lkI (upd (t_nodes t) i m) j = lkI (t_nodes t) j)).
      { intros m. split; intros j Hj; unfold lkL, lkI; rewrite nth_upd_ne by (intros ->; auto); auto. }
      destruct (n_height n <? 0)%Z eqn:Eh; cbn [negb andb] in *.
      { apply (IH t nodes count F); auto. intros j Hj. apply Hlt. cbn; auto. }
      destruct (is_leaf n) eqn:El; cbn [negb andb length map] in *.
      + rewrite set_ok by auto. cbn [bind]. rewrite set_ok by lia. cbn [bind].
        destruct (Hext (set_parent n None)) as [X1 X2].
        set (ns1 := upd (t_nodes t) i (set_parent n None)) in *.
        pose proof (filter_ext_in' _ _ _ X1) as Y1. pose proof (filter_ext_in' _ _ _ X2) as Y2.
        assert (HiF : ~ In i F).
        { intro K. assert (Hneg : forall F p, chain (t_nodes t) p F -> In i F -> n_height n = (-1)%Z).
          { clear - Hn. induction F as [|f F IHF]; intros p Hc [].
            - subst. destruct Hc as (_ & m & Hm & Hh & _). congruence.
            - destruct Hc as (_ & m & Hm & Hh & Hc'). eauto. }
          rewrite (Hneg F _ Hch K) in Eh. discriminate. }
        destruct (IH (with_nodes t ns1) (upd nodes count (Some i)) (count + 1) F) as (ns' & fr & nd' & E & G1 & G2 & G3 & G4 & G5 & G6); auto;
          cbn [with_nodes t_nodes t_cap t_free t_count t_root t_ins] in *.
        * unfold ns1. now rewrite length_upd.
        * apply (chain_ext (t_nodes t)); auto. intros j Hj. apply nth_upd_ne. intros ->. auto.
        * intros j Hj. unfold ns1. rewrite length_upd. apply Hlt. cbn; auto.
        * rewrite Y1, length_upd. lia.
        * rewrite Y2. auto.
        * rewrite Y1, Y2 in *. rewrite length_upd in G1.
          exists ns', fr, nd'. rewrite E.
          replace (count + 1 + length (filter (lkL (t_nodes t)) is)) with (count + S (length (filter (lkL (t_nodes t)) is))) in * by lia.
          split; [reflexivity|]. split; [auto|]. split.
          { rewrite G2. rewrite (firstn_snoc _ count (Some i)) by (apply nth_upd_eq; lia).
            rewrite firstn_upd_ge by lia. rewrite <- app_assoc. reflexivity. }
          split. { rewrite G3. unfold ns1. apply length_upd. }
          split; [exact G4|]. split.
          { intros j J1 J2. cbn [In] in J1. rewrite G5 by tauto. apply nth_upd_ne. intros ->. tauto. }
          { intros j m [->|Hj] Hm.
            - rewrite G5.
              + unfold ns1. rewrite nth_upd_eq by auto. congruence.
              + intro K. apply filter_In in K. tauto.
              + intro K. apply filter_In in K. tauto.
            - apply G6; auto. unfold ns1. rewrite nth_upd_ne; auto. intros ->. apply filter_In in Hj. tauto. }
      + rewrite (free_node_eq t i n) by (auto; lia). cbn [bind].
        set (m := set_height (set_parent n (t_free t)) (-1)%Z) in *.
        destruct (Hext m) as [X1 X2].
        set (ns1 := upd (t_nodes t) i m) in *.
        pose proof (filter_ext_in' _ _ _ X1) as Y1. pose proof (filter_ext_in' _ _ _ X2) as Y2.
        assert (HiF : ~ In i F).
        { intro K. assert (Hneg : forall F p, chain (t_nodes t) p F -> In i F -> n_height n = (-1)%Z).
          { clear - Hn. induction F as [|f F IHF]; intros p Hc [].
            - subst. destruct Hc as (_ & k & Hm & Hh & _). congruence.
            - destruct Hc as (_ & k & Hm & Hh & Hc'). eauto. }
          rewrite (Hneg F _ Hch K) in Eh. discriminate. }
        destruct (IH (Tree (t_root t) ns1 (t_count t - 1) (t_cap t) (Some i) (t_ins t)) nodes count (i :: F))
          as (ns' & fr & nd' & E & G1 & G2 & G3 & G4 & G5 & G6); auto;
          cbn [with_nodes t_nodes t_cap t_free t_count t_root t_ins] in *.
        * unfold ns1. now rewrite length_upd.
        * cbn [chain]. split; auto. exists m. split; [apply nth_upd_eq; auto|]. split; [reflexivity|].
          apply (chain_ext (t_nodes t)); auto. intros j Hj. apply nth_upd_ne. intros ->. auto.
        * intros j Hj. unfold ns1. rewrite length_upd. apply Hlt. cbn; auto.
        * now rewrite Y1.
        * rewrite Y2. lia.
        * rewrite Y1, Y2 in *. exists ns', fr, nd'. rewrite E.
          split.
          { replace (t_count t - S (length (filter (lkI (t_nodes t)) is))) with (t_count t - 1 - length (filter (lkI (t_nodes t)) is)) by lia.
            reflexivity. }
          split; [auto|]. split; [auto|]. split. { rewrite G3. unfold ns1. apply length_upd. }
          split. { cbn [rev]. rewrite <- app_assoc. exact G4. }
          split.
          { intros j J1 J2. cbn [In] in J2. rewrite G5 by tauto. apply nth_upd_ne. intros ->. tauto. }
          { intros j k Hj Hm. apply G6; auto. unfold ns1. rewrite nth_upd_ne; auto. intros ->. apply filter_In in Hj. tauto. }
  Qed.

  (** *** the merge loop *)
  Definition forest (t : tree) (fs : list shape) (F : list nat) : Prop :=
    t_cap t = length (t_nodes t) /\ 1 <= t_cap t /\
    t_count t = length (flat_map ids fs) /\
    Permutation (flat_map ids fs ++ F) (seq 0 (t_cap t)) /\
    chain (t_nodes t) (t_free t) F /\
    Forall (rep (t_nodes t) None) fs.

  (* the work array describes the forest *)
  Definition work (nodes : list (option nat)) (fs : list shape) : Prop :=
    firstn (length fs) nodes = map (fun f => Some (sid f)) fs.

  Lemma work_get nodes fs k f : work nodes fs -> nth_error fs k = Some f -> get nodes k = Ok (Some (sid f)).
  Proof.
    intros H Hk. apply get_ok. unfold work in H.
    assert (K : nth_error (firstn (length fs) nodes) k = Some (Some (sid f))).
    { rewrite H, nth_error_map, Hk. reflexivity. }
    pose proof (nth_lt _ _ _ Hk) as L.
    rewrite <- (firstn_skipn (length fs) nodes). rewrite nth_error_app1; auto. eapply nth_lt; eauto.
  Qed.

  (* [P]: boxes that are small enough for the cost to stay below B2_MAX_FLOAT *)
  Context (P : aabb T -> Prop)
          (Pcomb : forall x y, P x -> P y -> P (combine x y))
          (Pcost : forall x y, P x -> P y -> nlt (perimeter (combine x y)) B2_MAX_FLOAT = true).

  Definition small (t : tree) (fs : list shape) : Prop :=
    Forall (fun f => forall n, nth_error (t_nodes t) (sid f) = Some n -> P (n_aabb n)) fs.

  Definition okpair (count : nat) (o : option (nat * nat)) : Prop :=
    match o with None => True | Some (i, j) => i < j < count end.

  Lemma forest_node t fs F k f : forest t fs F -> nth_error fs k = Some f -> exists n, nth_error (t_nodes t) (sid f) = Some n.
  Proof.
    intros (_ & _ & _ & _ & _ & H) Hk. apply nth_error_In in Hk. rewrite Forall_forall in H. specialize (H _ Hk).
    destruct (rep_root _ _ _ H) as (n & Hn & _). eauto.
  Qed.

  Lemma best_j_ok t fs F nodes i bi js : forall acc,
    forest t fs F -> work nodes fs -> (forall j, In j js -> i < j < length fs) -> okpair (length fs) (snd acc) ->
    exists acc', best_j t nodes i bi js acc = Ok acc' /\ okpair (length fs) (snd acc') /\
      (snd acc <> None -> snd acc' <> None) /\
      (js <> [] -> fst acc = B2_MAX_FLOAT -> P bi -> small t fs -> snd acc' <> None).
  Proof.
    intros acc Hf Hw. revert acc. induction js as [|j js IH]; intros acc Hjs Hacc; cbn [best_j].
    - exists acc. repeat split; auto; congruence.
    - destruct (Hjs j) as [J1 J2]; [cbn; auto|].
      destruct (lt_nth fs j J2) as [f Ef]. rewrite (work_get _ _ _ _ Hw Ef). cbn [bind].
      destruct (forest_node _ _ _ _ _ Hf Ef) as [n Hn]. rewrite (getp_ok _ _ _ Hn). cbn [bind].
      cbn zeta. set (cost := perimeter _). match goal with |- context [best_j t nodes i bi js ?a] => set (acc1 := a) end.
      destruct (IH acc1) as (acc' & E & H1 & H2 & H3).
      { intros k Hk. apply Hjs. cbn; auto. }
      { unfold acc1. destruct (nlt _ _); cbn; auto. }
      exists acc'. rewrite E. split; auto. split; auto. split.
      + intros Hn0. apply H2. unfold acc1. destruct (nlt _ _); cbn; auto. discriminate.
      + intros _ Hm Hb Hs. apply H2. unfold acc1, cost. rewrite Hm, Pcost; auto; [cbn; discriminate|].
        unfold small in Hs. rewrite Forall_forall in Hs. apply (Hs f); auto. eapply nth_error_In; eauto.
  Qed.

  Lemma best_i_ok t fs F nodes is : forall acc,
    forest t fs F -> work nodes fs -> (forall i, In i is -> i < length fs) -> okpair (length fs) (snd acc) ->
    exists acc', best_i t nodes (length fs) is acc = Ok acc' /\ okpair (length fs) (snd acc') /\
      (snd acc <> None -> snd acc' <> None) /\
      (forall is', is = 0 :: is' -> 1 < length fs -> fst acc = B2_MAX_FLOAT -> small t fs -> snd acc' <> None).
  Proof.
    intros acc Hf Hw. revert acc. induction is as [|i is IH]; intros acc His Hacc; cbn [best_i].
    - exists acc. repeat split; auto; congruence.
    - destruct (lt_nth fs i) as [f Ef]; [apply His; cbn; auto|]. rewrite (work_get _ _ _ _ Hw Ef). cbn [bind].
      destruct (forest_node _ _ _ _ _ Hf Ef) as [n Hn]. rewrite (getp_ok _ _ _ Hn). cbn [bind].
      destruct (best_j_ok t fs F nodes i (n_aabb n) (seq (i + 1) (length fs - (i + 1))) acc Hf Hw) as (acc1 & E1 & A1 & A2 & A3); auto.
      { intros j Hj. apply in_seq in Hj. lia. }
      rewrite E1. cbn [bind].
      destruct (IH acc1) as (acc' & E & H1 & H2 & H3); auto.
      { intros k Hk. apply His. cbn; auto. }
      exists acc'. rewrite E. split; auto. split; auto. split; auto.
      intros is' Eis Hlen Hm Hs. injection Eis as -> ->. apply H2. apply A3; auto.
      + destruct (length fs) as [|[|k]]; try lia. cbn. discriminate.
      + unfold small in Hs. rewrite Forall_forall in Hs. apply (Hs f); auto. eapply nth_error_In; eauto.
  Qed.

  Lemma allocate_root (t : tree) r : allocate_node (with_root t r) =
    match allocate_node t with Ok (t', i) => Ok (with_root t' r, i) | Panic => Panic | Fuel => Fuel end.
  Proof.
    unfold allocate_node, with_root. cbn [t_free]. destruct (t_free t) as [f|] eqn:E.
    - cbn [bind]. cbn [t_free t_nodes]. rewrite E. cbn [unwrap bind]. unfold get, set. destruct (nth_error _ _); cbn [bind]; auto.
      destruct (Nat.ltb _ _); cbn [bind]; auto.
    - unfold grow. cbn [t_count t_cap t_nodes t_root t_ins]. destruct (Nat.eqb _ _); cbn [b2_assert bind]; auto.
      destruct (build_free _ _ _); cbn [bind]; auto. cbn [t_free t_nodes unwrap bind t_root t_count t_cap t_ins].
      unfold get, set. destruct (nth_error _ _); cbn [bind]; auto.
      destruct (Nat.ltb _ _); cbn [bind]; auto.
  Qed.

  Lemma allocate_forest (t : tree) A F :
    t_cap t = length (t_nodes t) -> 1 <= t_cap t -> t_count t = length A -> Permutation (A ++ F) (seq 0 (t_cap t)) ->
    chain (t_nodes t) (t_free t) F ->
    exists t' id F' n, allocate_node t = Ok (t', id) /\
      t_cap t' = length (t_nodes t') /\ 1 <= t_cap t' /\ t_count t' = length (id :: A) /\
      Permutation ((id :: A) ++ F') (seq 0 (t_cap t')) /\ chain (t_nodes t') (t_free t') F' /\
      nth_error (t_nodes t') id = Some (fresh_node n) /\ ~ In id A /\
      (forall j, In j A -> nth_error (t_nodes t') j = nth_error (t_nodes t) j).
  Proof.
    intros H1 H2 H3 H4 H5.
    assert (I : inv (with_root t None) None A F) by (invsplit; auto; reflexivity).
    destruct (allocate_ok _ _ _ _ I) as (t1 & id & F' & n & E & I' & R & Rn & Hid & Hni & Hs).
    rewrite allocate_root in E. destruct (allocate_node t) as [[t' i]| |]; try discriminate. injection E as <- ->.
    exists t', id, F', n. destruct I' as (B1 & B2 & B3 & B4 & B5 & _). cbn [with_root t_cap t_nodes t_count t_free] in *.
    split; [reflexivity|]. auto 10.
  Qed.

  Lemma flat_map_perm {A B} (f : A -> list B) l l' : Permutation l l' -> Permutation (flat_map f l) (flat_map f l').
  Proof. apply Permutation_flat_map. Qed.

  Lemma upd_upd_comm {A} (l : list A) i j a b : i <> j -> upd (upd l i a) j b = upd (upd l j b) i a.
  Proof. revert i j. induction l as [|x l IH]; intros [|i] [|j] H; cbn; auto; try congruence. f_equal. apply IH. congruence. Qed.
  Lemma map_upd {A B} (f : A -> B) l i a : map f (upd l i a) = upd (map f l) i (f a).
  Proof. revert i. induction l as [|x l IH]; intros [|i]; cbn; auto. f_equal. apply IH. Qed.
  Lemma firstn_upd_lt {A} (l : list A) i a k : firstn k (upd l i a) = upd (firstn k l) i a.
  Proof. revert i k. induction l as [|x l IH]; intros [|i] [|k]; cbn; auto. f_equal. apply IH. Qed.
  Lemma length_firstn_le {A} (l : list A) k : k <= length l -> length (firstn k l) = k.
  Proof. intros. rewrite firstn_length. lia. Qed.

  Lemma merge_ok fuel : forall (t : tree) nodes fs F,
    forest t fs F -> work nodes fs -> length fs <= length nodes -> length fs <= fuel -> fs <> [] ->
    match rebuild_merge fuel t nodes (length fs) with
    | Ok (t', nodes') => exists s' F', forest t' [s'] F' /\ work nodes' [s'] /\ t_root t' = t_root t /\ t_ins t' = t_ins t /\
          Permutation (leaves s') (flat_map leaves fs) /\ pay (flat_map leaves fs) (t_nodes t) (t_nodes t')
    | Panic => ~ small t fs
    | Fuel => False
    end.
  Proof.
    induction fuel as [|fuel IH]; intros t nodes fs F Hf Hw Hln Hfuel Hne.
    { destruct fs; [congruence|cbn in Hfuel; lia]. }
    cbn [rebuild_merge]. destruct (Nat.ltb_spec 1 (length fs)) as [Hlt|Hge].
    2:{ destruct fs as [|s [|? ?]]; [congruence| |cbn in Hge; lia]. exists s, F. cbn [flat_map]. rewrite app_nil_r.
        repeat split; auto; try apply Hf. apply pay_refl. }
    destruct (best_i_ok t fs F nodes (seq 0 (length fs)) (B2_MAX_FLOAT, None) Hf Hw) as ([cst bo] & Eb & B1 & _ & B3).
    { intros i Hi. apply in_seq in Hi. lia. } { exact I. }
    rewrite Eb. cbn [bind snd] in *.
    destruct bo as [[im jm]|]; cbn [unwrap bind].
    2:{ intro Hs. destruct (length fs) as [|k] eqn:Ek; [lia|]. apply (B3 (seq 1 k)); auto. }
    cbn [okpair] in B1.
    destruct (lt_nth fs im) as [fi Efi]; [lia|]. destruct (lt_nth fs jm) as [fj Efj]; [lia|].
    destruct (lt_nth fs (length fs - 1)) as [fl Efl]; [lia|].
    rewrite (work_get _ _ _ _ Hw Efi), (work_get _ _ _ _ Hw Efj). cbn [bind unwrap].
    destruct Hf as (A1 & A2 & A3 & A4 & A5 & A6) eqn:Hf'. clear Hf'. rewrite Forall_forall in A6.
    assert (Ri : rep (t_nodes t) None fi) by (apply A6; eapply nth_error_In; eauto).
    assert (Rj : rep (t_nodes t) None fj) by (apply A6; eapply nth_error_In; eauto).
    destruct (rep_root _ _ _ Ri) as (ni & Eni & Pni & Hni). destruct (rep_root _ _ _ Rj) as (nj & Enj & Pnj & Hnj).
    rewrite (get_ok _ _ _ Eni), (get_ok _ _ _ Enj). cbn [bind].
    destruct (allocate_forest t _ _ A1 A2 A3 A4 A5) as (t1 & np & F1 & fn & Ea & C1 & C2 & C3 & C4 & C5 & C6 & C7 & C8).
    rewrite Ea. cbn [bind]. rewrite (modn_ok _ _ _ _ C6). cbn [bind].
    set (NP := set_parent _ None).
    (* new forest *)
    set (rest := firstn (length fs - 1) (upd fs jm fl)).
    assert (P1 : Permutation (fj :: rest) fs) by (apply swap_remove_perm; auto).
    assert (Lrest : length rest = length fs - 1).
    { apply Permutation_length in P1. cbn in P1. lia. }
    assert (Eri : nth_error rest im = Some fi).
    { unfold rest. rewrite <- (firstn_skipn (length fs - 1) (upd fs jm fl)) in *.
      assert (K : nth_error (upd fs jm fl) im = Some fi) by (rewrite nth_upd_ne by lia; auto).
      rewrite <- (firstn_skipn (length fs - 1) (upd fs jm fl)) in K.
      rewrite nth_error_app1 in K; [|fold rest; lia]. 
      rewrite firstn_app, firstn_firstn, Nat.min_id. rewrite length_firstn_le by (rewrite length_upd; lia).
      rewrite Nat.sub_diag. cbn [firstn]. rewrite app_nil_r. exact K. }
    set (rest2 := firstn im rest ++ skipn (im + 1) rest).
    assert (P2 : Permutation fs (fi :: fj :: rest2)).
    { rewrite <- P1. rewrite (nth_split' rest im fi Eri) at 1. rewrite perm_swap. constructor. symmetry.
      apply Permutation_middle. }
    set (new := SN np fi fj). set (fs' := upd rest im new).
    assert (P3 : Permutation fs' (new :: rest2)).
    { unfold fs'. rewrite upd_split by lia. symmetry. apply Permutation_middle. }
    assert (Pall : Permutation (flat_map ids fs') (np :: flat_map ids fs)).
    { rewrite (flat_map_perm ids _ _ P3), (flat_map_perm ids _ _ P2). cbn [flat_map ids new]. cbn [app]. now rewrite <- app_assoc. }
    assert (HndA : NoDup (np :: flat_map ids fs)).
    { apply Permutation_nodup_seq in C4. apply NoDup_app_iff' in C4. tauto. }
    assert (HndB : NoDup (np :: ids fi ++ ids fj ++ flat_map ids rest2)).
    { eapply Permutation_NoDup; [|exact HndA]. constructor. rewrite (flat_map_perm ids _ _ P2). reflexivity. }
    assert (D : ~ In np (ids fi) /\ ~ In np (ids fj) /\ ~ In np (flat_map ids rest2) /\ NoDup (ids fi) /\ NoDup (ids fj) /\
                (forall j, In j (ids fi) -> ~ In j (ids fj)) /\ (forall j, In j (ids fi) -> ~ In j (flat_map ids rest2)) /\
                (forall j, In j (ids fj) -> ~ In j (flat_map ids rest2))).
    { clear - HndB. rewrite NoDup_cons_iff, !NoDup_app_iff' in HndB. rewrite !in_app_iff in HndB.
      destruct HndB as (H1 & H2 & (H3 & H4 & H5) & H6). repeat split; auto; try tauto;
        intros j Hj; specialize (H6 j Hj); rewrite in_app_iff in H6; tauto. }
    destruct D as (D1 & D2 & D3 & D4 & D5 & D6 & D7 & D8).
    pose proof (sid_in fi) as Si. pose proof (sid_in fj) as Sj.
    assert (Hin2 : forall j, In j (flat_map ids fs) <-> In j (ids fi) \/ In j (ids fj) \/ In j (flat_map ids rest2)).
    { intros j. rewrite (flat_map_perm ids _ _ P2). cbn [flat_map]. rewrite !in_app_iff. tauto. }
    assert (Hsame : forall j, In j (ids fi) \/ In j (ids fj) \/ In j (flat_map ids rest2) -> nth_error (t_nodes t1) j = nth_error (t_nodes t) j).
    { intros j Hj. apply C8. now apply Hin2. }
    assert (Eni1 : nth_error (t_nodes t1) (sid fi) = Some ni) by (rewrite Hsame; auto).
    assert (Enj1 : nth_error (t_nodes t1) (sid fj) = Some nj) by (rewrite Hsame; auto).
    pose proof (nth_lt _ _ _ Eni1) as Lni. pose proof (nth_lt _ _ _ Enj1) as Lnj. pose proof (nth_lt _ _ _ C6) as Lnp.
    rewrite set_ok by (rewrite length_upd; auto). cbn [bind]. rewrite set_ok by (rewrite !length_upd; auto). cbn [bind].
    assert (N1 : np <> sid fi) by (intros ->; auto). assert (N2 : np <> sid fj) by (intros ->; auto).
    assert (N3 : sid fi <> sid fj) by (intros E; apply (D6 (sid fi)); auto; rewrite E; auto).
    set (ns2 := upd (upd (upd (t_nodes t1) np NP) (sid fi) _) (sid fj) _).
    assert (X1 : nth_error ns2 np = Some NP).
    { unfold ns2. rewrite !(nth_upd_ne _ _ np) by auto. now apply nth_upd_eq. }
    assert (X2 : nth_error ns2 (sid fi) = Some (set_parent ni (Some np))).
    { unfold ns2. rewrite (nth_upd_ne _ _ (sid fi)) by auto. apply nth_upd_eq. now rewrite length_upd. }
    assert (X3 : nth_error ns2 (sid fj) = Some (set_parent nj (Some np))).
    { unfold ns2. apply nth_upd_eq. now rewrite !length_upd. }
    assert (X4 : forall j, j <> np -> j <> sid fi -> j <> sid fj -> nth_error ns2 j = nth_error (t_nodes t1) j).
    { intros. unfold ns2. now rewrite !nth_upd_ne by auto. }
    rewrite (work_get _ _ _ _ Hw Efl). cbn [bind].
    rewrite set_ok by lia. cbn [bind]. rewrite set_ok by (rewrite length_upd; lia). cbn [bind].
    set (nodes' := upd (upd nodes jm (Some (sid fl))) im (Some np)).
    assert (Lfs' : length fs' = length fs - 1) by (unfold fs'; rewrite length_upd; auto).
    assert (Hw' : work nodes' fs').
    { unfold work. rewrite Lfs'. unfold nodes', fs'. rewrite firstn_upd_lt, map_upd. f_equal.
      unfold rest. rewrite <- firstn_map, map_upd. rewrite !firstn_upd_lt. f_equal.
      unfold work in Hw. rewrite <- Hw. rewrite firstn_firstn. f_equal. lia. }
    assert (Hsame2 : forall j, In j (flat_map ids rest2) -> nth_error ns2 j = nth_error (t_nodes t) j).
    { intros j Hj. rewrite X4.
      - apply Hsame. auto.
      - intros ->. auto.
      - intros ->. apply (D7 (sid fi)); auto.
      - intros ->. apply (D8 (sid fj)); auto. }
    assert (Rnew : rep ns2 None new).
    { unfold new. cbn [rep]. split; [|split].
      - exists NP, (set_parent ni (Some np)), (set_parent nj (Some np)). repeat split; auto. apply box_l.
      - apply (rep_reparent (t_nodes t) ns2 None (Some np) fi ni); auto. intros j Hj Hj'. rewrite X4; auto.
        + intros ->. auto.
        + intros ->. apply (D6 (sid fj)); auto.
      - apply (rep_reparent (t_nodes t) ns2 None (Some np) fj nj); auto. intros j Hj Hj'. rewrite X4; auto.
        + intros ->. auto.
        + intros ->. apply (D6 (sid fi)); auto. }
    assert (Hf2 : forest (with_nodes t1 ns2) fs' F1).
    { split; [|split; [|split; [|split; [|split]]]]; cbn [with_nodes t_cap t_nodes t_count t_free]; auto.
      - unfold ns2. rewrite !length_upd. auto.
      - rewrite (Permutation_length Pall). auto.
      - rewrite Pall. exact C4.
      - apply (chain_ext (t_nodes t1)); auto. intros j Hj.
        assert (K : ~ In j (np :: flat_map ids fs)).
        { intro K. apply Permutation_nodup_seq in C4. apply NoDup_app_iff' in C4. destruct C4 as (_ & _ & C4). apply (C4 j); auto. }
        cbn [In] in K. rewrite Hin2 in K. apply X4; intros ->; tauto.
      - apply Forall_forall. intros f Hfn. eapply Permutation_in in Hfn; [|exact P3]. destruct Hfn as [<-|Hfn]; auto.
        apply (rep_ext (t_nodes t)).
        + intros j Hj. apply Hsame2. apply in_flat_map. eauto.
        + apply A6. eapply Permutation_in; [symmetry; exact P2|]. cbn; auto. }
    assert (Hrec := IH (with_nodes t1 ns2) nodes' fs' F1 Hf2 Hw').
    rewrite Lfs' in Hrec.
    assert (Lnodes' : length nodes' = length nodes) by (unfold nodes'; now rewrite !length_upd).
    specialize (Hrec ltac:(lia) ltac:(lia)).
    assert (Hne' : fs' <> []). { intro K. rewrite K in Lfs'. cbn in Lfs'. lia. }
    specialize (Hrec Hne').
    assert (Rt1 : t_root t1 = t_root t /\ t_ins t1 = t_ins t).
    { assert (I : inv (with_root t None) None (flat_map ids fs) F) by (invsplit; auto; reflexivity).
      destruct (allocate_ok _ _ _ _ I) as (t1' & id' & F'' & n' & E' & _ & R & Rn & _).
      rewrite allocate_root, Ea in E'. injection E' as <- <-. cbn [with_root t_root t_ins] in *. split; auto.
      clear - Ea. unfold allocate_node in Ea.
      destruct (t_free t) eqn:Et.
      - cbn [bind] in Ea. rewrite Et in Ea. cbn [unwrap bind] in Ea. unfold get, set in Ea. destruct (nth_error _ _); cbn [bind] in Ea; [|discriminate].
        destruct (Nat.ltb _ _); cbn [bind] in Ea; [|discriminate]. injection Ea as <- _. reflexivity.
      - unfold grow in Ea. destruct (Nat.eqb _ _); cbn [b2_assert bind] in Ea; [|discriminate].
        destruct (build_free _ _ _); cbn [bind] in Ea; try discriminate. cbn [t_free t_nodes unwrap bind t_root t_count t_cap t_ins] in Ea.
        unfold get, set in Ea. destruct (nth_error _ _); cbn [bind] in Ea; [|discriminate].
        destruct (Nat.ltb _ _); cbn [bind] in Ea; [|discriminate]. injection Ea as <- _. reflexivity. }
    destruct Rt1 as [Rt1 Rt2].
    destruct (rebuild_merge fuel _ _ _) as [[t' nodes'']| |]; auto.
    - destruct Hrec as (s' & F' & G1 & G2 & G3 & G3' & G4 & G5). exists s', F'. split; [auto|]. split; [auto|].
      split. { rewrite G3. exact Rt1. } split. { rewrite G3'. exact Rt2. }
      assert (Plv : Permutation (flat_map leaves fs') (flat_map leaves fs)).
      { rewrite (flat_map_perm leaves _ _ P3), (flat_map_perm leaves _ _ P2). cbn [flat_map leaves new]. now rewrite <- app_assoc. }
      split. { rewrite G4. exact Plv. }
      apply (pay_trans _ _ ns2).
      + intros j n Hj Hn.
        assert (Hjid : In j (flat_map ids fs)).
        { apply in_flat_map in Hj. destruct Hj as (f & F1' & F2). apply in_flat_map. exists f. split; auto. now apply leaves_ids. }
        destruct (Nat.eq_dec j (sid fi)) as [->|J1]. { exists (Some np). rewrite X2. congruence. }
        destruct (Nat.eq_dec j (sid fj)) as [->|J2]. { exists (Some np). rewrite X3. congruence. }
        exists (n_parent n). rewrite set_parent_id, X4; auto.
        * rewrite C8; auto.
        * intros ->. auto.
      + eapply pay_sub; [|exact G5]. intros j Hj. eapply Permutation_in; [symmetry; exact Plv | exact Hj].
    - intro Hs. apply Hrec. unfold small in *. apply Forall_forall. intros f Hfn. eapply Permutation_in in Hfn; [|exact P3].
      rewrite Forall_forall in Hs. cbn [with_nodes t_nodes].
      destruct Hfn as [<-|Hfn].
      + cbn [new sid]. intros n Hn. assert (n = NP) by congruence. subst n. apply Pcomb.
        * apply (Hs fi); auto. eapply nth_error_In; eauto.
        * apply (Hs fj); auto. eapply nth_error_In; eauto.
      + intros n Hn. apply (Hs f).
        * eapply Permutation_in; [symmetry; exact P2|]. cbn; auto.
        * rewrite <- Hsame2; auto. apply in_flat_map. exists f. split; auto. apply sid_in.
  Qed.
End Rebuild.
