(** Statements about histories in the vocabulary of the specification, and a runner for examples. *)
From Coq Require Import List ZArith Lia Bool Arith Permutation.
From Verif Require Import Base ListFacts Num NumLaws Math Collision StackModel StackSpec StackProofs TreeModel TreeSpec TreeRep TreeBalance TreeInv TreeOps TreeRebuild TreeValid TreeHist TreeQuery.
Import ListNotations.

(** ** Command lists *)
Section Cmd.
  Context {T : Type} `{NT : Num T} {U : Type}.
  Notation tree := (tree T U).
  Notation pmap := (@pmap T U).


  Lemma exec1_reach (oks : vec2 T -> Prop) (c : cmd) (t : tree) (m : pmap) (t' : tree) (m' : pmap) : shifts_ok oks c -> reach oks t m -> exec1 c t m = Some (t', m') -> reach oks t' m'.
  Proof.
    intros Hs Hr. destruct c; cbn [exec1 shifts_ok] in *.
    - destruct (create_proxy t b u) as [[t1 id]| |] eqn:E; try discriminate. intros K; injection K as <- <-. econstructor; eauto.
    - destruct (m id) eqn:Em; try discriminate. destruct (destroy_proxy t id) eqn:E; try discriminate. intros K; injection K as <- <-. eapply reach_destroy; eauto.
    - destruct (m id) as [[[fb u] f]|] eqn:Em; try discriminate. destruct (move_proxy t id b d) as [[t1 []]| |] eqn:E; try discriminate; intros K; injection K as <- <-.
      + eapply reach_move; eauto.
      + eapply reach_move_kept; eauto.
    - destruct (m id) as [[[fb u] f]|] eqn:Em; try discriminate. destruct (clear_moved t id) eqn:E; try discriminate. intros K; injection K as <- <-. eapply reach_clear; eauto.
    - intros K; injection K as <- <-. now constructor.
    - destruct (rebuild_bottom_up t) eqn:E; try discriminate. intros K; injection K as <- <-. eapply reach_rebuild; eauto.
  Qed.
  Lemma exec_reach (oks : vec2 T -> Prop) (cs : list cmd) : forall (t : tree) (m : pmap) (t' : tree) (m' : pmap), Forall (shifts_ok oks) cs -> reach oks t m -> exec cs t m = Some (t', m') -> reach oks t' m'.
  Proof.
    induction cs as [|c cs IH]; intros t m t' m' Hf Hr; cbn [exec].
    - intros K; injection K as <- <-. auto.
    - inversion Hf; subst. destruct (exec1 c t m) as [[t1 m1]|] eqn:E; try discriminate. intros K. apply (IH t1 m1 t' m'); auto. eapply exec1_reach; eauto.
  Qed.

  Lemma exec1_user (oks : vec2 T -> Prop) (c : cmd) (t : tree) (m : pmap) (t' : tree) (m' : pmap) id : shifts_ok oks c -> reach oks t m -> sim (Q:=fun _ _ _ => True) t m -> exec1 c t m = Some (t', m') -> live m id ->
    (~ destroys id c -> option_map (fun e => snd (fst e)) (m' id) = option_map (fun e => snd (fst e)) (m id)) /\
    (~ changes_box id c -> option_map (fun e => fst (fst e)) (m' id) = option_map (fun e => fst (fst e)) (m id)).
  Proof.
    intros Hs Hr Hsim. destruct c; cbn [exec1 destroys changes_box]; intros E Hl.
    - destruct (sim_create t m b u Hsim) as (t2 & id2 & E2 & Hn). rewrite E2 in E. injection E as <- <-. unfold pset.
      destruct (Nat.eqb_spec id id2); [subst; unfold live in Hl; congruence|]. auto.
    - destruct (m id0) eqn:Em; try discriminate. destruct (destroy_proxy t id0); try discriminate. injection E as <- <-. unfold pset.
      destruct (Nat.eqb_spec id id0); [subst; tauto|auto].
    - destruct (m id0) as [[[fb u] f]|] eqn:Em; try discriminate. destruct (move_proxy t id0 b d) as [[t1 []]| |]; try discriminate; injection E as <- <-; auto.
      unfold pset. destruct (Nat.eqb_spec id id0); [subst|auto]. rewrite Em. cbn. tauto.
    - destruct (m id0) as [[[fb u] f]|] eqn:Em; try discriminate. destruct (clear_moved t id0); try discriminate. injection E as <- <-.
      unfold pset. destruct (Nat.eqb_spec id id0); [subst|auto]. rewrite Em. cbn. tauto.
    - injection E as <- <-. unfold pshift. destruct (m id) as [[[fb u] f]|]; cbn; tauto.
    - destruct (rebuild_bottom_up t); try discriminate. injection E as <- <-. auto.
  Qed.
End Cmd.

Section Any.
  Context {T : Type} `{NT : Num T} {U : Type}.
  Notation tree := (tree T U).
  Notation pmap := (@pmap T U).

  Lemma reach_any (t : tree) (m : pmap) : reach (fun _ => True) t m -> sim (Q:=fun _ _ _ => True) t m.
  Proof. apply reach_sim. auto. Qed.

  Lemma c03_any (t : tree) (m : pmap) : reach (fun _ => True) t m -> well_formed any_box t (live m).
  Proof. intros H. apply (sim_wf (Q:=any_box)). now apply reach_any. Qed.

  Lemma c03_calls (t : tree) (m : pmap) : reach (fun _ => True) t m ->
    (forall b u, exists t' id, create_proxy t b u = Ok (t', id) /\ m id = None) /\
    (forall id, live m id -> exists t', destroy_proxy t id = Ok t') /\
    (forall id b d, live m id -> exists t' r, move_proxy t id b d = Ok (t', r)) /\
    (forall id, live m id -> exists t', clear_moved t id = Ok t').
  Proof.
    intros H. apply reach_any in H. repeat apply conj.
    - intros. now apply sim_create.
    - intros. eapply sim_destroy; eauto.
    - intros id b d Hl. unfold live in Hl. destruct (m id) as [[[fb u] f]|] eqn:Hm; [|congruence].
      destruct (sim_move t m id b d fb u f H Hm) as (t' & E). eauto.
    - intros. eapply sim_clear; eauto.
  Qed.

  Lemma c04_get (t : tree) (m : pmap) id b u f : reach (fun _ => True) t m -> m id = Some (b, u, f) ->
    get_fat_aabb t id = Ok b /\ get_user_data t id = Ok u /\ was_moved t id = Ok f.
  Proof. intros H. apply (sim_get (Q:=fun _ _ _ => True)). now apply reach_any. Qed.

  Lemma exec_user (cs : list (cmd (T:=T) (U:=U))) id : forall (t : tree) (m : pmap) t' m', reach (fun _ => True) t m -> live m id ->
    exec cs t m = Some (t', m') -> ~ Exists (destroys id) cs ->
    option_map (fun e => snd (fst e)) (m' id) = option_map (fun e => snd (fst e)) (m id).
  Proof.
    induction cs as [|c cs IH]; intros t m t' m' Hr Hl; cbn [exec].
    - intros K; injection K as <- <-. auto.
    - destruct (exec1 c t m) as [[t1 m1]|] eqn:E; try discriminate. intros K Hn.
      assert (Hs : shifts_ok (fun _ : vec2 T => True) c) by (destruct c; exact I).
      pose proof (exec1_reach _ _ _ _ _ _ Hs Hr E) as Hr1.
      assert (Hn1 : ~ destroys id c) by (intro; apply Hn; now left).
      destruct (exec1_user _ _ _ _ _ _ id Hs Hr (reach_any _ _ Hr) E Hl) as [H1 _]. specialize (H1 Hn1). rewrite <- H1.
      apply (IH t1 m1 t' m'); [exact Hr1| |exact K|intro; apply Hn; now right].
      unfold live in *. destruct (m id); [|congruence]. destruct (m1 id); [congruence|discriminate].
  Qed.
  Lemma exec_box (cs : list (cmd (T:=T) (U:=U))) id : forall (t : tree) (m : pmap) t' m', reach (fun _ => True) t m -> live m id ->
    exec cs t m = Some (t', m') -> ~ Exists (changes_box id) cs ->
    option_map (fun e => fst (fst e)) (m' id) = option_map (fun e => fst (fst e)) (m id).
  Proof.
    induction cs as [|c cs IH]; intros t m t' m' Hr Hl; cbn [exec].
    - intros K; injection K as <- <-. auto.
    - destruct (exec1 c t m) as [[t1 m1]|] eqn:E; try discriminate. intros K Hn.
      assert (Hs : shifts_ok (fun _ : vec2 T => True) c) by (destruct c; exact I).
      pose proof (exec1_reach _ _ _ _ _ _ Hs Hr E) as Hr1.
      assert (Hn1 : ~ changes_box id c) by (intro; apply Hn; now left).
      destruct (exec1_user _ _ _ _ _ _ id Hs Hr (reach_any _ _ Hr) E Hl) as [_ H1]. specialize (H1 Hn1). rewrite <- H1.
      apply (IH t1 m1 t' m'); [exact Hr1| |exact K|intro; apply Hn; now right].
      unfold live in *. destruct (m id); [|congruence]. destruct (m1 id); [congruence|discriminate].
  Qed.

  Lemma c04_stable (cs : list cmd) (t t' : tree) (m m' : pmap) id u : reach (fun _ => True) t m -> live m id ->
    exec cs t m = Some (t', m') -> get_user_data t id = Ok u ->
    (~ Exists (destroys id) cs -> get_user_data t' id = Ok u) /\
    (~ Exists (changes_box id) cs -> get_fat_aabb t' id = get_fat_aabb t id).
  Proof.
    intros Hr Hl E Hu.
    assert (Hr' : reach (fun _ => True) t' m').
    { apply (exec_reach _ cs t m); auto. apply Forall_forall. intros [] _; exact I. }
    pose proof Hl as Hl0. unfold live in Hl. destruct (m id) as [[[b u0] f]|] eqn:Hm; [|congruence].
    destruct (c04_get t m id b u0 f Hr Hm) as (G1 & G2 & _). assert (u0 = u) by congruence. subst.
    split; intros Hn.
    - pose proof (exec_user cs id t m t' m' Hr Hl0 E Hn) as K. rewrite Hm in K. cbn in K.
      destruct (m' id) as [[[b' u'] f']|] eqn:Hm'; [|discriminate]. injection K as ->.
      now destruct (c04_get t' m' id b' u f' Hr' Hm') as (_ & ? & _).
    - pose proof (exec_box cs id t m t' m' Hr Hl0 E Hn) as K. rewrite Hm in K. cbn in K.
      destruct (m' id) as [[[b' u'] f']|] eqn:Hm'; [|discriminate]. injection K as ->.
      destruct (c04_get t' m' id b u' f' Hr' Hm') as (? & _). congruence.
  Qed.

  Lemma run_record {S} (cb : S -> nat -> S * bool) L : forall s tr, exists s' tr' rest,
    run_until (record cb) (s, tr) L = (s', tr ++ tr') /\ run_until cb s L = s' /\
    L = map fst tr' ++ rest /\ Forall (fun c => snd c = true) (removelast tr') /\
    (rest <> [] -> exists init i, tr' = init ++ [(i, false)]).
  Proof.
    induction L as [|i L IH]; intros s tr; cbn [run_until record].
    - exists s, [], []. rewrite app_nil_r. repeat split; auto. constructor. congruence.
    - destruct (cb s i) as [s1 go] eqn:E. destruct go.
      + destruct (IH s1 (tr ++ [(i, true)])) as (s' & tr' & rest & H1 & H2 & H3 & H4 & H5).
        exists s', ((i, true) :: tr'), rest. rewrite H1, <- app_assoc. cbn [app map fst]. repeat split; auto.
        * now rewrite H3 at 1.
        * cbn [removelast]. destruct tr'; [constructor|]. constructor; auto.
        * intros Hn. destruct (H5 Hn) as (init & j & ->). exists ((i, true) :: init), j. reflexivity.
      + exists s1, [(i, false)], L. cbn. repeat split; auto. intros _. exists [], i. reflexivity.
  Qed.
  Lemma run_all L : forall acc, run_until (fun l i => (l ++ [i], true)) acc L = acc ++ L.
  Proof. induction L as [|i L IH]; intros acc; cbn; [now rewrite app_nil_r|]. rewrite IH, <- app_assoc. reflexivity. Qed.

  Lemma c07 (t : tree) (m : pmap) b : reach (fun _ => True) t m ->
    exists full, query t (fun l i => (l ++ [i], true)) [] b = Ok full /\
    forall S (cb : S -> nat -> S * bool) s, exists s' calls rest,
      query t (record cb) (s, []) b = Ok (s', calls) /\ query t cb s b = Ok s' /\
      full = map fst calls ++ rest /\ Forall (fun c => snd c = true) (removelast calls) /\
      (rest <> [] -> exists init i, calls = init ++ [(i, false)]).
  Proof.
    intros Hr. destruct (reach_any _ _ Hr) as (o & F & I & C). exists (qleaves t o b). split.
    - rewrite (query_ok _ t o F _ b I), run_all. reflexivity.
    - intros S cb s. rewrite (query_ok _ t o F _ b I), (query_ok cb t o F _ b I).
      destruct (run_record cb (qleaves t o b) s []) as (s' & tr' & rest & H1 & H2 & H3 & H4 & H5).
      exists s', tr', rest. rewrite H1, H2. auto.
  Qed.

  Lemma c09_rebuild (t t' : tree) (m : pmap) : reach (fun _ => True) t m -> rebuild_bottom_up t = Ok t' ->
    well_formed any_box t' (live m) /\
    forall id, live m id -> get_fat_aabb t' id = get_fat_aabb t id /\ get_user_data t' id = get_user_data t id /\ was_moved t' id = was_moved t id.
  Proof.
    intros Hr E. pose proof (reach_rebuild _ _ _ _ Hr E) as Hr'. split; [now apply c03_any|].
    intros id Hl. unfold live in Hl. destruct (m id) as [[[b u] f]|] eqn:Hm; [|congruence].
    destruct (c04_get t m id b u f Hr Hm) as (-> & -> & ->). destruct (c04_get t' m id b u f Hr' Hm) as (-> & -> & ->). auto.
  Qed.
  Lemma c09_shift (t : tree) (m : pmap) o : reach (fun _ => True) t m ->
    well_formed any_box (shift_origin t o) (live m) /\
    forall id b, live m id -> get_fat_aabb t id = Ok b ->
      get_fat_aabb (shift_origin t o) id = Ok (AABB (vsub (lo b) o) (vsub (hi b) o)) /\
      get_user_data (shift_origin t o) id = get_user_data t id /\ was_moved (shift_origin t o) id = was_moved t id.
  Proof.
    intros Hr. pose proof (reach_shift _ _ _ o Hr I) as Hr'. split.
    - destruct (c03_any _ _ Hr') as (is & ls & F & H1 & H2 & H3 & H4 & H5 & H6). exists is, ls, F. repeat apply conj; auto.
      intros j. rewrite H6. unfold live, pshift. destruct (m j) as [[[? ?] ?]|]; split; congruence.
    - intros id b Hl Hb. unfold live in Hl. destruct (m id) as [[[b0 u] f]|] eqn:Hm; [|congruence].
      destruct (c04_get t m id b0 u f Hr Hm) as (G1 & -> & ->). assert (b0 = b) by congruence. subst.
      assert (Hm' : pshift o m id = Some (AABB (vsub (lo b) o) (vsub (hi b) o), u, f)) by (unfold pshift; now rewrite Hm).
      destruct (c04_get _ _ id _ u f Hr' Hm') as (-> & -> & ->). auto.
  Qed.

  (* what move_proxy answers and does *)
  Lemma c_move (t t' : tree) (m : pmap) id b d r : reach (fun _ => True) t m -> live m id -> move_proxy t id b d = Ok (t', r) ->
    exists fb, get_fat_aabb t id = Ok fb /\ r = negb (keep_box fb b (predict b d)) /\
      get_fat_aabb t' id = Ok (if r then predict b d else fb).
  Proof.
    intros Hr Hl E. unfold live in Hl. destruct (m id) as [[[fb u] f]|] eqn:Hm; [|congruence].
    destruct (c04_get t m id fb u f Hr Hm) as (G1 & _). exists fb. split; auto.
    destruct (sim_move t m id b d fb u f (reach_any _ _ Hr) Hm) as (t1 & E1). assert (K : negb (keep_box fb b (predict b d)) = r) by congruence.
    split; auto. destruct r.
    - pose proof (reach_move _ _ _ _ _ _ _ _ _ _ Hr Hm E) as Hr'.
      assert (Hm' : pset m id (Some (predict b d, u, true)) id = Some (predict b d, u, true)) by (unfold pset; now rewrite Nat.eqb_refl).
      now destruct (c04_get _ _ id _ _ _ Hr' Hm') as (? & _).
    - pose proof (reach_move_kept _ _ _ _ _ _ _ _ Hr Hm E) as Hr'. now destruct (c04_get _ _ id _ _ _ Hr' Hm) as (? & _).
  Qed.
  Lemma c_create (t t' : tree) (m : pmap) id b u : reach (fun _ => True) t m -> create_proxy t b u = Ok (t', id) ->
    get_fat_aabb t' id = Ok (fatten b) /\ get_user_data t' id = Ok (Some u).
  Proof.
    intros Hr E. pose proof (reach_create _ _ _ _ _ _ _ Hr E) as Hr'.
    assert (Hm' : pset m id (Some (fatten b, Some u, true)) id = Some (fatten b, Some u, true)) by (unfold pset; now rewrite Nat.eqb_refl).
    destruct (c04_get _ _ id _ _ _ Hr' Hm') as (? & ? & _). auto.
  Qed.
End Any.

Section Ord.
  Context {T : Type} `{NT : Num T} {NO : NumOrd T} {U : Type}.
  Notation node := (node T U).
  Notation tree := (tree T U).
  Notation pmap := (@pmap T U).


  Lemma reach_ord (t : tree) (m : pmap) : reach vec_fin t m -> sim (Q:=ubox) t m.
  Proof. apply reach_sim. intros o a b c. apply ubox_shift. Qed.

  Lemma reach_weaken (oks : vec2 T -> Prop) (t : tree) (m : pmap) : reach oks t m -> reach (fun _ => True) t m.
  Proof. 
    induction 1; [now apply reach_new|eapply reach_create; eauto|eapply reach_destroy; eauto|eapply reach_move_kept; eauto
      |eapply reach_move; eauto|eapply reach_clear; eauto|now apply reach_shift|eapply reach_rebuild; eauto].
  Qed.

  Lemma rep_union (ns : list node) s : forall p, rep ubox ns p s ->
    (forall j n, In j (leaves s) -> nth_error ns j = Some n -> box_ok (n_aabb n)) -> rep union_box ns p s.
  Proof.
    induction s as [i|i l IHl r IHr]; intros p H HL; [exact H|].
    assert (HLl : forall j n, In j (leaves l) -> nth_error ns j = Some n -> box_ok (n_aabb n)) by exact (fun j n K1 K2 => HL j n (proj2 (in_app_iff _ _ _) (or_introl K1)) K2).
    assert (HLr : forall j n, In j (leaves r) -> nth_error ns j = Some n -> box_ok (n_aabb n)) by exact (fun j n K1 K2 => HL j n (proj2 (in_app_iff _ _ _) (or_intror K1)) K2).
    destruct H as ((n & nl & nr & Hn & Hnl & Hnr & Hp & H1 & H2 & Hh & Hb) & Hl & Hr).
    destruct (rep_ok _ _ _ Hl HLl) as [Kl _]. destruct (rep_ok _ _ _ Hr HLr) as [Kr _].
    split; [|split]; auto. exists n, nl, nr. repeat (split; auto).
  Qed.

  Lemma sim_boxes (t : tree) (m : pmap) o F (P : aabb T -> Prop) : inv ubox t o [] F -> (forall j, content t o j = m j) -> all_boxes P m ->
    forall j n, In j (oleaves o) -> nth_error (t_nodes t) j = Some n -> P (n_aabb n).
  Proof. intros I C H j n Hj Hn. apply (H j _ (n_user n) (n_moved n)). rewrite <- C, content_in, Hn by auto. reflexivity. Qed.

  Lemma c03_ord (t : tree) (m : pmap) : reach vec_fin t m -> all_boxes box_ok m -> well_formed union_box t (live m).
  Proof.
    intros Hr Hok. destruct (reach_ord _ _ Hr) as (o & F & I & C). pose proof (sim_live t m o F I C) as HL.
    pose proof (sim_boxes t m o F _ I C Hok) as HB. destruct I as (A1 & A2 & A3 & A4 & A5 & A6).
    rewrite app_nil_r in *. exists (oids o), (oleaves o), F.
    split; [|split; [|split; [|split; [|split]]]]; auto using chain_free.
    destruct o as [s|]; cbn [rooted oids oleaves] in *.
    - destruct A6 as [-> A6]. exists (sh s). apply rep_subtree. now apply rep_union.
    - rewrite A6. auto.
  Qed.

  Lemma c11 (t : tree) (m : pmap) : reach vec_fin t m -> all_boxes box_ok m -> (exists id, live m id) -> validate t = Ok tt.
  Proof.
    intros Hr Hok [id Hid]. destruct (reach_ord _ _ Hr) as (o & F & I & C). apply (sim_live t m o F I C) in Hid.
    pose proof (sim_boxes t m o F _ I C Hok) as HB. destruct o as [s|]; [|destruct Hid].
    eapply validate_ok; eauto. destruct I as (_ & _ & _ & _ & _ & [_ A6]). eapply rep_ok; eauto.
  Qed.

  Lemma c09_total (t : tree) (m : pmap) : reach vec_fin t m -> all_boxes box_in_range m -> (exists id, live m id) -> exists t', rebuild_bottom_up t = Ok t'.
  Proof.
    intros Hr Hok [id Hid]. destruct (reach_ord _ _ Hr) as (o & F & I & C). apply (sim_live t m o F I C) in Hid.
    destruct o as [s|]; [|destruct Hid].
    eapply (rebuild_total box_in_range range_comb range_cost); eauto.
    - intros ns s' Hrep HP. apply (rep_ok ns s' None Hrep). intros j n Hj Hn. apply range_ok. eauto.
    - intros j b u f Hc. rewrite C in Hc. eauto.
  Qed.

  Lemma c06 (t : tree) (m : pmap) b : reach vec_fin t m -> all_boxes box_ok m ->
    exists L, NoDup L /\
      (forall id, In id L <-> exists fb u f, m id = Some (fb, u, f) /\ ~ separated fb b) /\
      query t (fun l i => (l ++ [i], true)) [] b = Ok L.
  Proof.
    intros Hr Hok. destruct (query_complete t m b (reach_ord _ _ Hr)) as (L & H1 & H2 & H3).
    { intros id [[fb u] f] Hm. eapply Hok; eauto. }
    exists L. split; auto. split; auto. rewrite H3, run_all. reflexivity.
  Qed.

  (** fat boxes *)
  Context (Hext : nle (nofZ 0) B2_AABB_EXTENSION = true) (Hmul : nlt (nofZ 0) B2_AABB_MULTIPLIER = true) (Hmulf : nfin B2_AABB_MULTIPLIER).

  Lemma fatten_inside (b : aabb T) : box_fin b -> inside b (fatten b).
  Proof.
    intros (F1 & F2 & F3 & F4). unfold inside, fatten, ext_r. cbn [lo hi vsub vadd vx vy]. repeat apply conj.
    - apply (nsub_down _ (vx (lo b))); auto. apply nle_refl. now apply nfin_ok.
    - apply (nsub_down _ (vy (lo b))); auto. apply nle_refl. now apply nfin_ok.
    - apply (nadd_up _ (vx (hi b))); auto. apply nle_refl. now apply nfin_ok.
    - apply (nadd_up _ (vy (hi b))); auto. apply nle_refl. now apply nfin_ok.
  Qed.
  Lemma predict_inside (b : aabb T) d : box_fin b -> nok (vx d) -> nok (vy d) -> inside b (predict b d).
  Proof.
    intros Hb Dx Dy. destruct (fatten_inside b Hb) as (I1 & I2 & I3 & I4). destruct Hb as (F1 & F2 & F3 & F4).
    pose proof (nmul_ok _ (vx d) Hmulf Hmul Dx) as Kx. pose proof (nmul_ok _ (vy d) Hmulf Hmul Dy) as Ky.
    unfold predict. cbn zeta. cbn [vscale vx vy].
    destruct (nlt (nmul B2_AABB_MULTIPLIER (vx d)) (nofZ 0)) eqn:E1; destruct (nlt (nmul B2_AABB_MULTIPLIER (vy d)) (nofZ 0)) eqn:E2;
      [apply nlt_le in E1; apply nlt_le in E2|apply nlt_le in E1; apply nlt_false in E2|apply nlt_false in E1; apply nlt_le in E2|apply nlt_false in E1; apply nlt_false in E2];
      try (apply nfin_ok; apply nfin0); auto;
      unfold inside; cbn [lo hi vx vy]; repeat apply conj; auto;
      try (eapply nle_trans; [eapply nadd_down; [|eassumption|eassumption]; auto|assumption]);
      try (eapply nle_trans; [eassumption|eapply nadd_up; [|eassumption|assumption]; auto]).
  Qed.

  Lemma contains_inside (a b : aabb T) : aabb_contains a b = true -> inside b a.
  Proof. unfold aabb_contains, inside. rewrite !andb_true_iff. tauto. Qed.

  Lemma c05_create (oks : vec2 T -> Prop) (t t' : tree) (m : pmap) id b u : reach oks t m -> create_proxy t b u = Ok (t', id) -> box_fin b ->
    exists fb, get_fat_aabb t' id = Ok fb /\ inside b fb.
  Proof.
    intros Hr E Hb. apply reach_weaken in Hr. destruct (c_create t t' m id b u Hr E) as [H _]. eauto using fatten_inside.
  Qed.
  Lemma c05_move (oks : vec2 T -> Prop) (t t' : tree) (m : pmap) id b d r : reach oks t m -> live m id -> move_proxy t id b d = Ok (t', r) ->
    box_fin b -> nok (vx d) -> nok (vy d) -> exists fb, get_fat_aabb t' id = Ok fb /\ inside b fb.
  Proof.
    intros Hr Hl E Hb Dx Dy. apply reach_weaken in Hr. destruct (c_move t t' m id b d r Hr Hl E) as (fb & H1 & H2 & H3).
    destruct r; [eauto using predict_inside|]. exists fb. split; auto. symmetry in H2. apply negb_false_iff in H2.
    unfold keep_box in H2. destruct (aabb_contains fb b) eqn:K; [|discriminate]. now apply contains_inside.
  Qed.
End Ord.
