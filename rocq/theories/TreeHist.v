(** Invariant of all histories of the dynamic tree. *)
From Coq Require Import List ZArith Lia Bool Arith Permutation.
From Verif Require Import Base ListFacts Num NumLaws Math Collision StackModel TreeModel TreeSpec TreeRep TreeBalance TreeInv TreeOps TreeRebuild TreeValid.
Import ListNotations.

Section Hist.
  Context {T : Type} `{NT : Num T} {U : Type}.
  Notation node := (node T U).
  Notation tree := (tree T U).
  Context {Q : aabb T -> aabb T -> aabb T -> Prop} {QB : BoxRel Q}.
  Notation rep := (rep Q).
  Notation inv := (inv Q).
  Notation shb o b := (AABB (vsub (lo b) o) (vsub (hi b) o)).

  Context (oks : vec2 T -> Prop)
          (Qshift : forall o a b c, oks o -> Q a b c -> Q (shb o a) (shb o b) (shb o c)).

  (** *** clear_moved *)
  Lemma clear_ok (t : tree) o F id b u f : inv t o [] F -> content t o id = Some (b, u, f) ->
    exists t', clear_moved t id = Ok t' /\ inv t' o [] F /\ content t' o id = Some (b, u, false) /\
      forall j, j <> id -> content t' o j = content t o j.
  Proof.
    intros Hinv Hc.
    assert (Hid : In id (oleaves o)).
    { destruct (in_dec Nat.eq_dec id (oleaves o)); auto. rewrite content_out in Hc by auto. discriminate. }
    destruct (inv_leaf_node _ _ _ _ _ Hinv Hid) as (n & Hn & Hl).
    rewrite content_in, Hn in Hc by auto. injection Hc as E1 E2 E3.
    pose proof (nth_lt _ _ _ Hn) as L.
    unfold clear_moved. rewrite (modn_ok _ _ _ _ Hn). cbn [bind].
    eexists. split; [reflexivity|]. split; [|split].
    - pose proof (inv_nodup _ _ _ _ Hinv) as Hnd. destruct Hinv as (A1 & A2 & A3 & A4 & A5 & A6).
      invsplit; cbn [with_nodes t_cap t_nodes t_count t_free t_root]; auto.
      + now rewrite length_upd.
      + apply (chain_ext (t_nodes t)); auto. intros j Hj. apply nth_upd_ne. intros ->.
        apply NoDup_app_iff' in Hnd. destruct Hnd as (_ & _ & K). apply (K j); auto. rewrite app_nil_r. now apply oleaves_oids.
      + destruct o as [s|]; [|destruct Hid]. destruct A6 as [A6 A7]. split; auto. cbn [t_nodes]. now apply rep_moved.
    - rewrite content_in by auto. cbn [with_nodes t_nodes]. rewrite nth_upd_eq by auto. cbn. unfold payload. cbn. now rewrite E1, E2.
    - intros j Hj. unfold content. cbn [with_nodes t_nodes]. rewrite nth_upd_ne by auto. reflexivity.
  Qed.

  (** *** shift_origin *)
  Lemma shift_nth (ns : list node) o i : nth_error (map (shift_node o) ns) i = option_map (shift_node o) (nth_error ns i).
  Proof. apply nth_error_map. Qed.

  Lemma rep_shift (ns : list node) o s : oks o -> forall p, rep ns p s -> rep (map (shift_node o) ns) p s.
  Proof.
    intros Ho. induction s as [i|i l IHl r IHr]; intros p; cbn [TreeRep.rep].
    - intros (n & Hn & H). exists (shift_node o n). rewrite shift_nth, Hn. auto.
    - intros ((n & nl & nr & Hn & Hnl & Hnr & Hp & H1 & H2 & Hh & Hb) & Hl & Hr). split; [|split]; auto.
      exists (shift_node o n), (shift_node o nl), (shift_node o nr).
      rewrite !shift_nth, Hn, Hnl, Hnr. cbn. repeat split; auto.
  Qed.

  Lemma chain_shift (ns : list node) o F : forall p, chain ns p F -> chain (map (shift_node o) ns) p F.
  Proof.
    induction F as [|i F IH]; intros p; cbn [chain]; auto.
    intros (E & n & Hn & Hh & Hc). split; auto. exists (shift_node o n). rewrite shift_nth, Hn. cbn. auto.
  Qed.

  Lemma shift_ok (t : tree) o F org : oks org -> inv t o [] F ->
    inv (shift_origin t org) o [] F /\
    forall j, content (shift_origin t org) o j =
      match content t o j with Some (b, u, f) => Some (shb org b, u, f) | None => None end.
  Proof.
    intros Ho (A1 & A2 & A3 & A4 & A5 & A6). split.
    - unfold shift_origin. invsplit; cbn [with_nodes t_cap t_nodes t_count t_free t_root]; auto.
      + now rewrite map_length.
      + now apply chain_shift.
      + destruct o as [s|]; auto. destruct A6 as [A6 A7]. split; auto. cbn [t_nodes]. now apply rep_shift.
    - intros j. unfold content, shift_origin. cbn [with_nodes t_nodes]. destruct (in_dec _ _ _); auto.
      rewrite shift_nth. destruct (nth_error (t_nodes t) j); reflexivity.
  Qed.

  (** *** rebuild *)
  Lemma rebuild_empty (t : tree) F : inv t None [] F -> rebuild_bottom_up t = Panic.
  Proof.
    intros Hinv. destruct Hinv as (A1 & A2 & A3 & A4 & A5 & A6). cbn [oids app] in *.
    assert (KF : forall j, In j (seq 0 (t_cap t)) -> exists n, nth_error (t_nodes t) j = Some n /\ n_height n = (-1)%Z).
    { intros j Hj. eapply chain_neg; eauto. eapply Permutation_in; [symmetry; exact A4|exact Hj]. }
    assert (E : forall L nodes k, (forall j, In j L -> In j (seq 0 (t_cap t))) -> rebuild_leaves L t nodes k = Ok (t, nodes, k)).
    { induction L as [|j L IH]; intros nodes k HL; cbn [rebuild_leaves]; auto.
      destruct (KF j) as (n & Hn & Hh); [apply HL; left; auto|]. rewrite (get_ok _ _ _ Hn). cbn [bind]. rewrite Hh. cbn [Z.ltb Z.compare].
      apply IH. intros; apply HL; right; auto. }
    unfold rebuild_bottom_up. rewrite E by auto. cbn [bind]. cbn [rebuild_merge Nat.ltb Nat.leb]. cbn [bind]. rewrite A3. reflexivity.
  Qed.

  Lemma rebuild_sound (t t' : tree) o F : inv t o [] F -> rebuild_bottom_up t = Ok t' ->
    exists o' F', inv t' o' [] F' /\ Permutation (oleaves o') (oleaves o) /\ forall j, content t' o' j = content t o j.
  Proof.
    intros Hinv E. destruct o as [s|].
    - pose proof (rebuild_core (fun _ => False) (fun _ _ F _ => F) (fun _ _ F _ => match F with end) t s F Hinv) as H. rewrite E in H.
      destruct H as (s' & F' & I' & P & _ & Hp). exists (Some s'), F'. split; auto. split; auto.
      intros j. destruct (in_dec Nat.eq_dec j (leaves s)) as [Hj|Hj].
      + assert (Hj' : In j (leaves s')) by (eapply Permutation_in; [symmetry; exact P|exact Hj]).
        eapply pay_content; eauto. destruct (inv_leaf_node _ _ _ _ _ Hinv Hj) as (n & Hn & _). eauto.
      + rewrite !content_out; auto. intro K. apply Hj. eapply Permutation_in; eauto.
    - rewrite (rebuild_empty t F Hinv) in E. discriminate.
  Qed.

  Lemma rebuild_total (P : aabb T -> Prop)
      (Pcomb : forall x y, P x -> P y -> P (combine x y))
      (Pcost : forall x y, P x -> P y -> nlt (perimeter (combine x y)) B2_MAX_FLOAT = true)
      (Pmets : forall (ns : list node) s, rep ns None s -> (forall j n, In j (leaves s) -> nth_error ns j = Some n -> P (n_aabb n)) -> mets ns s)
      (t : tree) s F : inv t (Some s) [] F ->
      (forall j b u f, content t (Some s) j = Some (b, u, f) -> P b) -> exists t', rebuild_bottom_up t = Ok t'.
  Proof.
    intros Hinv HP. pose proof (rebuild_core P Pcomb Pcost t s F Hinv) as H.
    assert (HP' : forall j n, In j (leaves s) -> nth_error (t_nodes t) j = Some n -> P (n_aabb n)).
    { intros j n Hj Hn. eapply (HP j). rewrite content_in, Hn by auto. reflexivity. }
    destruct (rebuild_bottom_up t) as [t'| |]; eauto; [|destruct H].
    exfalso. destruct H as [H|(t' & s' & F' & I' & Pm & Hp & Hn)]; [auto|].
    apply Hn. apply Pmets; [apply I'|]. intros j n Hj Hjn.
    assert (Hj' : In j (leaves s)) by (eapply Permutation_in; eauto).
    destruct (inv_leaf_node _ _ _ _ _ Hinv Hj') as (m & Hm & _). destruct (Hp j m Hj' Hm) as [q Hq].
    rewrite Hq in Hjn. injection Hjn as <-. cbn. eauto.
  Qed.

  (** *** all histories *)
  Definition sim (t : tree) (m : pmap) : Prop := exists o F, inv t o [] F /\ forall j, content t o j = m j.

  Lemma reach_sim (t : tree) m : reach oks t m -> sim t m.
  Proof.
    induction 1 as [t E|t m b u t' id _ (o & F & I & C) E|t m id e t' _ (o & F & I & C) Hm E|t m id e b d t' _ (o & F & I & C) Hm E
                   |t m id fb u f b d t' _ (o & F & I & C) Hm E|t m id fb u f t' _ (o & F & I & C) Hm E
                   |t m org _ (o & F & I & C) Ho|t m t' _ (o & F & I & C) E].
    - destruct (tree_new_ok (U:=U) (Q:=Q)) as (t0 & E0 & I0). assert (t0 = t) by congruence. subst. exists None, (seq 0 16). split; auto.
    - destruct (create_ok t o F b u I) as (t1 & id1 & s' & F' & E' & I' & _ & _ & C1 & C2). rewrite E in E'. injection E' as <- <-.
      exists (Some s'), F'. split; auto. intros j. unfold pset. destruct (Nat.eqb_spec j id); [subst; auto|]. rewrite C2; auto.
    - assert (Hid : In id (oleaves o)).
      { destruct (in_dec Nat.eq_dec id (oleaves o)); auto. rewrite <- C, content_out in Hm by auto. discriminate. }
      destruct (destroy_ok t o F id I Hid) as (t1 & o' & F' & E' & I' & _ & C1 & C2). rewrite E in E'. injection E' as <-.
      exists o', F'. split; auto. intros j. unfold pset. destruct (Nat.eqb_spec j id); [subst; auto|]. rewrite C2; auto.
    - destruct e as [[fb u] f]. destruct (move_ok t o F id b d fb u f I) as (t1 & o' & F' & r & E' & I' & _ & Hr & C1 & C2); [now rewrite C|].
      rewrite E in E'. injection E' as <- <-. exists o', F'. split; auto. intros j. destruct (Nat.eq_dec j id) as [->|]; [rewrite C1, Hm; auto|]. rewrite C2; auto.
    - destruct (move_ok t o F id b d fb u f I) as (t1 & o' & F' & r & E' & I' & _ & Hr & C1 & C2); [now rewrite C|].
      rewrite E in E'. injection E' as <- <-. exists o', F'. split; auto. intros j. unfold pset. destruct (Nat.eqb_spec j id); [subst; auto|]. rewrite C2; auto.
    - destruct (clear_ok t o F id fb u f I) as (t1 & E' & I' & C1 & C2); [now rewrite C|]. rewrite E in E'. injection E' as <-.
      exists o, F. split; auto. intros j. unfold pset. destruct (Nat.eqb_spec j id); [subst; auto|]. rewrite C2; auto.
    - destruct (shift_ok t o F org Ho I) as [I' C']. exists o, F. split; auto. intros j. rewrite C', C. reflexivity.
    - destruct (rebuild_sound t t' o F I E) as (o' & F' & I' & _ & C'). exists o', F'. split; auto. intros j. rewrite C'. auto.
  Qed.

  (** *** consequences in the vocabulary of the specification *)
  Lemma rep_subtree (ns : list node) s : forall p, rep ns p s -> subtree Q ns p (sid s) (sh s) (ids s) (leaves s).
  Proof.
    induction s as [i|i l IHl r IHr]; intros p H.
    - destruct H as (n & Hn & ? & ? & ? & ?). econstructor; eauto.
    - destruct H as ((n & nl & nr & Hn & Hnl & Hnr & Hp & H1 & H2 & Hh & Hb) & Hl & Hr). cbn [sid sh ids leaves].
      destruct (rep_root _ _ _ Hl) as (nl' & Enl & _ & Ehl). destruct (rep_root _ _ _ Hr) as (nr' & Enr & _ & Ehr).
      assert (nl' = nl) by congruence. assert (nr' = nr) by congruence. subst. econstructor; eauto. rewrite Hh. f_equal. f_equal; auto.
  Qed.

  Lemma chain_free (ns : list node) F : forall p, chain ns p F -> free_list ns p F.
  Proof. induction F as [|i F IH]; intros p; cbn [chain free_list]; auto. Qed.

  Lemma sim_live (t : tree) m o F : inv t o [] F -> (forall j, content t o j = m j) -> forall j, In j (oleaves o) <-> live m j.
  Proof.
    intros I C j. unfold live. rewrite <- C. split; intro H.
    - destruct (inv_leaf_node _ _ _ _ _ I H) as (n & Hn & _). rewrite content_in, Hn by auto. discriminate.
    - destruct (in_dec Nat.eq_dec j (oleaves o)); auto. exfalso. apply H. now apply content_out.
  Qed.

  Lemma sim_wf (t : tree) m : sim t m -> well_formed Q t (live m).
  Proof.
    intros (o & F & I & C). pose proof (sim_live t m o F I C) as HL. destruct I as (A1 & A2 & A3 & A4 & A5 & A6).
    rewrite app_nil_r in *. exists (oids o), (oleaves o), F.
    split; [|split; [|split; [|split; [|split]]]]; auto using chain_free.
    destruct o as [s|]; cbn [rooted oids oleaves] in *.
    - destruct A6 as [-> A6]. exists (sh s). now apply rep_subtree.
    - rewrite A6. auto.
  Qed.

  (* the accessors read the map *)
  Lemma sim_get (t : tree) m id b u f : sim t m -> m id = Some (b, u, f) ->
    get_fat_aabb t id = Ok b /\ get_user_data t id = Ok u /\ was_moved t id = Ok f.
  Proof.
    intros (o & F & I & C) Hm. rewrite <- C in Hm. unfold content in Hm. destruct (in_dec _ _ _); [|discriminate].
    unfold get_fat_aabb, get_user_data, was_moved. destruct (nth_error (t_nodes t) id) as [n|] eqn:Hn; [|discriminate].
    injection Hm as <- <- <-. rewrite (get_ok _ _ _ Hn). auto.
  Qed.

  Lemma sim_create (t : tree) m b u : sim t m -> exists t' id, create_proxy t b u = Ok (t', id) /\ m id = None.
  Proof.
    intros (o & F & I & C). destruct (create_ok t o F b u I) as (t1 & id1 & s' & F' & E' & I' & N & _).
    exists t1, id1. split; auto. rewrite <- C. now apply content_out.
  Qed.
  Lemma sim_destroy (t : tree) m id : sim t m -> live m id -> exists t', destroy_proxy t id = Ok t'.
  Proof.
    intros (o & F & I & C) Hl. apply (sim_live t m o F I C) in Hl.
    destruct (destroy_ok t o F id I Hl) as (t1 & o' & F' & E' & _). eauto.
  Qed.
  Lemma sim_move (t : tree) m id b d fb u f : sim t m -> m id = Some (fb, u, f) ->
    exists t', move_proxy t id b d = Ok (t', negb (keep_box fb b (predict b d))).
  Proof.
    intros (o & F & I & C) Hm. destruct (move_ok t o F id b d fb u f I) as (t1 & o' & F' & r & E' & I' & _ & -> & C1 & C2); [now rewrite C|]. eauto.
  Qed.
  Lemma sim_clear (t : tree) m id : sim t m -> live m id -> exists t', clear_moved t id = Ok t'.
  Proof.
    intros (o & F & I & C) Hl. unfold live in Hl. destruct (m id) as [[[fb u] f]|] eqn:Hm; [|congruence].
    destruct (clear_ok t o F id fb u f I) as (t1 & E' & _); [now rewrite C|]. eauto.
  Qed.
End Hist.

(** ** Box relation for ordered numbers *)
Section Ordered.
  Context {T : Type} `{NT : Num T} {NO : NumOrd T} {U : Type}.
  Notation node := (node T U).
  Notation tree := (tree T U).
  Notation shb o b := (AABB (vsub (lo b) o) (vsub (hi b) o)).

  (* a node's box is the union of the children's boxes as soon as these are free of NaN *)
  Definition ubox (n x y : aabb T) : Prop := box_ok x -> box_ok y -> union_box n x y.


  Lemma nlt_le (x y : T) : nlt x y = true -> nle x y = true.
  Proof.
    intros H. destruct (nlt_ok _ _ H) as [Hx Hy]. rewrite nlt_nle in H by auto. apply negb_true_iff in H.
    destruct (nle_total x y Hx Hy); congruence.
  Qed.
  Lemma nlt_false (x y : T) : nok x -> nok y -> nlt x y = false -> nle y x = true.
  Proof. intros Hx Hy H. rewrite nlt_nle in H by auto. now apply negb_false_iff in H. Qed.
  Lemma nle_nlt (x y : T) : nle x y = true -> nlt y x = false.
  Proof. intros H. destruct (nle_ok _ _ H) as [Hx Hy]. rewrite nlt_nle by auto. now rewrite H. Qed.

  Lemma min_least (x y : T) : nok x -> nok y -> least (b2_min x y) x y /\ least (b2_min y x) x y.
  Proof.
    intros Hx Hy. unfold b2_min, least. split.
    - destruct (nlt x y) eqn:E; [apply nlt_le in E|apply nlt_false in E; auto]; auto using nle_refl.
    - destruct (nlt y x) eqn:E; [apply nlt_le in E|apply nlt_false in E; auto]; auto using nle_refl.
  Qed.
  Lemma max_greatest (x y : T) : nok x -> nok y -> greatest (b2_max x y) x y /\ greatest (b2_max y x) x y.
  Proof.
    intros Hx Hy. unfold b2_max, greatest. split.
    - destruct (nlt y x) eqn:E; [apply nlt_le in E|apply nlt_false in E; auto]; auto using nle_refl.
    - destruct (nlt x y) eqn:E; [apply nlt_le in E|apply nlt_false in E; auto]; auto using nle_refl.
  Qed.

  #[global] Instance ubox_rel : BoxRel ubox.
  Proof.
    split; intros x y (X1 & X2 & X3 & X4) (Y1 & Y2 & Y3 & Y4); unfold union_box, combine; cbn [lo hi b2_min_vec2 b2_max_vec2 vx vy].
    - repeat apply conj; try (apply min_least; auto); apply max_greatest; auto.
    - repeat apply conj; try (apply min_least; auto); apply max_greatest; auto.
  Qed.

  Lemma union_ok (n x y : aabb T) : union_box n x y -> box_ok n.
  Proof.
    intros ((A1 & _) & (A2 & _) & (A3 & _) & (A4 & _)). apply nle_ok in A1, A2, A3, A4. repeat split; tauto.
  Qed.

  Lemma ubox_shift o (a b c : aabb T) : vec_fin o -> ubox a b c -> ubox (shb o a) (shb o b) (shb o c).
  Proof.
    intros [Fx Fy] H (X1 & X2 & X3 & X4) (Y1 & Y2 & Y3 & Y4). cbn in *.
    rewrite nsub_nok in * by auto. destruct H as ((A1 & A2 & A3) & (B1 & B2 & B3) & (C1 & C2 & C3) & (D1 & D2 & D3)); [repeat split; auto..|].
    unfold union_box, least, greatest. cbn.
    repeat apply conj; try (now apply nsub_mono).
    - destruct A3; [left|right]; now apply nsub_mono.
    - destruct B3; [left|right]; now apply nsub_mono.
    - destruct C3; [left|right]; now apply nsub_mono.
    - destruct D3; [left|right]; now apply nsub_mono.
  Qed.

  Lemma least_eq (n x y : T) : least n x y -> neqb (b2_min x y) n = true.
  Proof.
    intros (A & B & C). destruct (nle_ok _ _ A) as [Hn Hx]. destruct (nle_ok _ _ B) as [_ Hy].
    unfold b2_min. destruct (nlt x y) eqn:E.
    - apply nlt_le in E. apply neqb_total; auto; apply nle_nlt; auto. destruct C; auto. eauto using nle_trans.
    - apply nlt_false in E; auto. apply neqb_total; auto; apply nle_nlt; auto. destruct C; auto. eauto using nle_trans.
  Qed.
  Lemma greatest_eq (n x y : T) : greatest n x y -> neqb (b2_max x y) n = true.
  Proof.
    intros (A & B & C). destruct (nle_ok _ _ A) as [Hx Hn]. destruct (nle_ok _ _ B) as [Hy _].
    unfold b2_max. destruct (nlt y x) eqn:E.
    - apply nlt_le in E. apply neqb_total; auto; apply nle_nlt; auto. destruct C; auto. eauto using nle_trans.
    - apply nlt_false in E; auto. apply neqb_total; auto; apply nle_nlt; auto. destruct C; auto. eauto using nle_trans.
  Qed.

  (* all boxes of a tree whose leaves are free of NaN *)
  Lemma rep_ok (ns : list node) s : forall p, rep ubox ns p s ->
    (forall j n, In j (leaves s) -> nth_error ns j = Some n -> box_ok (n_aabb n)) ->
    (forall n, nth_error ns (sid s) = Some n -> box_ok (n_aabb n)) /\ mets ns s.
  Proof.
    induction s as [i|i l IHl r IHr]; intros p H HL.
    - split; [|exact I]. intros n Hn. eapply HL; eauto. cbn. auto.
    - destruct H as ((n & nl & nr & Hn & Hnl & Hnr & Hp & H1 & H2 & Hh & Hb) & Hl & Hr).
      destruct (IHl _ Hl) as [Kl Ml]; [intros; eapply HL; eauto; cbn; apply in_app_iff; auto|].
      destruct (IHr _ Hr) as [Kr Mr]; [intros; eapply HL; eauto; cbn; apply in_app_iff; auto|].
      pose proof (Hb (Kl _ Hnl) (Kr _ Hnr)) as Hu. split.
      + cbn [sid]. intros n' Hn'. assert (n' = n) by congruence. subst. eapply union_ok; eauto.
      + cbn [mets]. split; [|split]; auto. intros n' nl' nr' E1 E2 E3.
        assert (n' = n) by congruence. assert (nl' = nl) by congruence. assert (nr' = nr) by congruence. subst.
        destruct Hu as (U1 & U2 & U3 & U4). unfold met, v_is_equal. cbn [combine lo hi b2_min_vec2 b2_max_vec2 vx vy].
        rewrite !least_eq, !greatest_eq by auto. auto.
  Qed.

  Lemma range_ok (b : aabb T) : box_in_range b -> box_ok b.
  Proof. intros ((A & _) & (B & _) & (C & _) & (D & _)). apply nle_ok in A, B, C, D. repeat split; tauto. Qed.
  Lemma min_range (x y : T) : in_range x -> in_range y -> in_range (b2_min x y).
  Proof. intros. unfold b2_min. destruct (nlt x y); auto. Qed.
  Lemma max_range (x y : T) : in_range x -> in_range y -> in_range (b2_max x y).
  Proof. intros. unfold b2_max. destruct (nlt y x); auto. Qed.
  Lemma range_comb (x y : aabb T) : box_in_range x -> box_in_range y -> box_in_range (combine x y).
  Proof.
    intros (A1 & A2 & A3 & A4) (B1 & B2 & B3 & B4). unfold box_in_range, combine. cbn [lo hi b2_min_vec2 b2_max_vec2 vx vy].
    auto using min_range, max_range.
  Qed.
  Lemma range_cost (x y : aabb T) : box_in_range x -> box_in_range y -> nlt (perimeter (combine x y)) B2_MAX_FLOAT = true.
  Proof.
    intros Hx Hy. destruct (range_comb _ _ Hx Hy) as ((A1 & B1) & (A2 & B2) & (A3 & B3) & (A4 & B4)).
    unfold perimeter. cbn zeta. apply nsmall; auto.
  Qed.
End Ordered.
