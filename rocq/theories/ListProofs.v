(** The intrusive lists are lists. *)
From Coq Require Import List Arith Lia Bool.
From Verif Require Import Base ListFacts ListModel ListSpec.
Import ListNotations.

(* a piece of a list between the neighbours [p] and [n] *)
Definition first_of (xs : list nat) (n : option nat) : option nat := match xs with [] => n | i :: _ => Some i end.
Fixpoint last_of (p : option nat) (xs : list nat) : option nat := match xs with [] => p | i :: r => last_of (Some i) r end.
Fixpoint seg (h : list link) (p : option nat) (xs : list nat) (n : option nat) : Prop :=
  match xs with
  | [] => True
  | i :: r => exists x, nth_error h i = Some x /\ l_prev x = p /\ l_next x = first_of r n /\ seg h (Some i) r n
  end.
(* the same without the prev links *)
Fixpoint seg1 (h : list link) (xs : list nat) (n : option nat) : Prop :=
  match xs with
  | [] => True
  | i :: r => exists x, nth_error h i = Some x /\ l_next x = first_of r n /\ seg1 h r n
  end.

Lemma first_hd r : first_of r None = hd_error r.
Proof. now destruct r. Qed.
Lemma seg_linked h xs : forall p, seg h p xs None <-> linked h p xs.
Proof.
  induction xs as [|i r IH]; intros p; cbn [seg linked]; [tauto|]. rewrite first_hd. split; intros (x & A & B & C & D); exists x; repeat split; auto; now apply IH.
Qed.
Lemma first_app a b n : first_of (a ++ b) n = first_of a (first_of b n).
Proof. now destruct a. Qed.
Lemma seg_app h a b n : forall p, seg h p (a ++ b) n <-> seg h p a (first_of b n) /\ seg h (last_of p a) b n.
Proof.
  induction a as [|i r IH]; intros p; cbn [app seg last_of]; [tauto|]. rewrite first_app. split.
  - intros (x & A & B & C & D). apply IH in D. destruct D. split; auto. exists x. auto.
  - intros [(x & A & B & C & D) E]. exists x. repeat split; auto. apply IH. auto.
Qed.
Lemma seg1_app h a b n : seg1 h (a ++ b) n <-> seg1 h a (first_of b n) /\ seg1 h b n.
Proof.
  induction a as [|i r IH]; cbn [app seg1]; [tauto|]. rewrite first_app. split.
  - intros (x & A & B & C). apply IH in C. destruct C. split; auto. exists x. auto.
  - intros [(x & A & B & C) E]. exists x. repeat split; auto. apply IH. auto.
Qed.
Lemma seg_seg1 h xs n : forall p, seg h p xs n -> seg1 h xs n.
Proof. induction xs as [|i r IH]; intros p; cbn; auto. intros (x & A & B & C & D). exists x. repeat split; eauto. Qed.

(* links outside the piece do not matter *)
Lemma seg_frame h h' xs n : (forall i, In i xs -> nth_error h' i = nth_error h i) -> forall p, seg h p xs n -> seg h' p xs n.
Proof.
  induction xs as [|i r IH]; intros H p; cbn; auto. intros (x & A & B & C & D). exists x. repeat split; auto.
  - rewrite H; cbn; auto.
  - apply IH; auto. intros; apply H; cbn; auto.
Qed.
Lemma seg1_frame h h' xs n : (forall i, In i xs -> nth_error h' i = nth_error h i) -> seg1 h xs n -> seg1 h' xs n.
Proof.
  induction xs as [|i r IH]; intros H; cbn; auto. intros (x & A & B & D). exists x. repeat split; auto.
  - rewrite H; cbn; auto.
  - apply IH; auto. intros; apply H; cbn; auto.
Qed.

Lemma mod_link_ok h i f x : nth_error h i = Some x -> mod_link h i f = Ok (upd h i (f x)).
Proof. intros H. unfold mod_link. rewrite (get_ok _ _ _ H). cbn [bind]. apply set_ok. eapply nth_lt; eauto. Qed.

Lemma walk_seg h xs : forall fuel, seg1 h xs None -> length xs <= fuel -> walk fuel h (first_of xs None) = Ok xs.
Proof.
  induction xs as [|i r IH]; intros fuel H Hf; [destruct fuel; reflexivity|]. destruct H as (x & A & B & C).
  destruct fuel; cbn [length] in Hf; [lia|]. cbn [first_of walk]. rewrite (get_ok _ _ _ A). cbn [bind]. rewrite B, IH by (auto; lia). reflexivity.
Qed.
Lemma last_of_some p xs i : last_of p (xs ++ [i]) = Some i.
Proof. revert p. induction xs; intros p; cbn; auto. Qed.
Lemma walk_back_seg h xs : forall fuel n, seg h None xs n -> length xs <= fuel -> walk_back fuel h (last_of None xs) = Ok (rev xs).
Proof.
  induction xs as [|j s IH] using rev_ind; intros fuel n H Hf; [destruct fuel; reflexivity|].
  rewrite last_of_some, rev_app_distr. cbn [rev app]. rewrite app_length in Hf. cbn [length] in Hf. destruct fuel; [lia|].
  apply seg_app in H. destruct H as [H1 (x & A & B & C & _)]. cbn [walk_back]. rewrite (get_ok _ _ _ A). cbn [bind]. rewrite B.
  rewrite (IH fuel _ H1) by lia. reflexivity.
Qed.

Lemma ldrop_out i xs : ~ In i xs -> ldrop i xs = xs.
Proof.
  unfold ldrop. induction xs as [|j r IH]; cbn; auto. intros H. destruct (Nat.eqb_spec j i); cbn [negb]; [subst; tauto|]. f_equal. auto.
Qed.
Lemma ldrop_split a i b : NoDup (a ++ i :: b) -> ldrop i (a ++ i :: b) = a ++ b.
Proof.
  intros H. apply NoDup_remove in H. destruct H as [_ H]. rewrite in_app_iff in H. unfold ldrop. rewrite filter_app. cbn [filter].
  rewrite Nat.eqb_refl. cbn [negb]. fold (ldrop i a). fold (ldrop i b). rewrite !ldrop_out by tauto. reflexivity.
Qed.

(* every element has a link *)
Lemma seg_in h xs n : forall p i, seg h p xs n -> In i xs -> exists x, nth_error h i = Some x.
Proof.
  induction xs as [|j r IH]; intros p i; cbn; [tauto|]. intros (x & A & B & C & D) [->|Hi]; eauto.
Qed.
Lemma seg1_in h xs n i : seg1 h xs n -> In i xs -> exists x, nth_error h i = Some x.
Proof.
  induction xs as [|j r IH]; cbn; [tauto|]. intros (x & A & B & C) [->|Hi]; eauto.
Qed.
Lemma nodup_len N xs : NoDup xs -> (forall i, In i xs -> i < N) -> length xs <= N.
Proof. intros H K. rewrite <- (seq_length N 0). apply NoDup_incl_length; auto. intros i Hi. apply in_seq. specialize (K i Hi). lia. Qed.

(* representation *)
Definition dll_ok (l : ilist) (xs : list nat) : Prop := NoDup xs /\ il_head l = first_of xs None /\ seg (il_pool l) None xs None.
Definition sll_ok (l : ilist) (xs : list nat) : Prop := NoDup xs /\ il_head l = first_of xs None /\ seg1 (il_pool l) xs None.

Lemma sll_len l xs : sll_ok l xs -> length xs <= length (il_pool l).
Proof. intros (A & B & C). apply nodup_len; auto. intros i Hi. destruct (seg1_in _ _ _ _ C Hi) as [x Hx]. eapply nth_lt; eauto. Qed.
Lemma dll_sll l xs : dll_ok l xs -> sll_ok l xs.
Proof. intros (A & B & C). repeat split; auto. eapply seg_seg1; eauto. Qed.
Lemma iter_ok l xs : sll_ok l xs -> list_iter l = Ok xs.
Proof. intros H. pose proof (sll_len _ _ H). destruct H as (A & B & C). unfold list_iter. rewrite B. apply walk_seg; auto. Qed.

(** ** double list *)
Lemma dll_push_ok l xs i : dll_ok l xs -> ~ In i xs -> i < length (il_pool l) ->
  exists l', dll_push l i = Ok l' /\ dll_ok l' (i :: xs) /\ length (il_pool l') = length (il_pool l).
Proof.
  intros (A & B & C) Hn Hi. unfold dll_push. rewrite B. destruct xs as [|j r]; cbn [first_of].
  - cbn [bind]. destruct (lt_nth _ _ Hi) as [x Hx]. rewrite (mod_link_ok _ _ _ _ Hx). cbn [bind].
    eexists. split; [reflexivity|]. cbn [il_pool]. rewrite length_upd. split; auto. split; [repeat constructor; auto|]. split; [reflexivity|].
    cbn [seg il_pool]. eexists. rewrite nth_upd_eq by auto. repeat split; auto.
  - cbn [seg] in C. destruct C as (y & C1 & C2 & C3 & C4). rewrite (mod_link_ok _ _ _ _ C1). cbn [bind].
    assert (Hij : j <> i) by (intros ->; apply Hn; cbn; auto).
    destruct (lt_nth (upd (il_pool l) j (set_prev y (Some i))) i) as [x Hx]; [now rewrite length_upd|].
    rewrite (mod_link_ok _ _ _ _ Hx). cbn [bind]. eexists. split; [reflexivity|]. cbn [il_pool]. rewrite !length_upd. split; auto.
    split; [constructor; auto|]. split; [reflexivity|]. cbn [il_pool seg].
    assert (Hi' : i < length (upd (il_pool l) j (set_prev y (Some i)))) by (rewrite length_upd; auto).
    assert (Hj' : j < length (il_pool l)) by (eapply nth_lt; eauto).
    eexists. rewrite nth_upd_eq by auto. repeat split; auto. cbn [first_of].
    eexists. rewrite nth_upd_ne, nth_upd_eq by auto. split; [reflexivity|]. cbn [set_prev l_prev l_next]. repeat split; auto.
    eapply seg_frame; [|exact C4]. inversion A; subst. intros k Hk. rewrite !nth_upd_ne; auto; intros <-; [tauto|]. apply Hn. cbn. auto.
Qed.

Lemma last_in p xs q : last_of p xs = Some q -> p = Some q /\ xs = [] \/ exists a, xs = a ++ [q].
Proof.
  destruct xs as [|x r _] using rev_ind; cbn; auto. rewrite last_of_some. intros H. injection H as ->. eauto.
Qed.

Lemma dll_remove_ok l a i b : dll_ok l (a ++ i :: b) ->
  exists l', dll_remove l i = Ok l' /\ dll_ok l' (a ++ b) /\ length (il_pool l') = length (il_pool l) /\
    (forall j, ~ In j (a ++ b) -> nth_error (il_pool l') j = nth_error (il_pool l) j).
Proof.
  intros (A & B & C). apply seg_app in C. destruct C as [C1 (x & X1 & X2 & X3 & C2)]. unfold dll_remove.
  rewrite (get_ok _ _ _ X1). cbn [bind]. rewrite X2, X3, B.
  pose proof (NoDup_remove_1 _ _ _ A) as Anew. pose proof (NoDup_remove_2 _ _ _ A) as Ai.
  rewrite in_app_iff in Ai. cbn [first_of] in C1.
  assert (Adis : forall k, In k a -> In k b -> False).
  { intros k K1 K2. apply NoDup_app_iff' in Anew. destruct Anew as (_ & _ & D). exact (D k K1 K2). }
  (* step 1: the predecessor *)
  set (h := il_pool l) in *.
  assert (S1 : exists h1, (match last_of None a with Some p => mod_link h p (fun y => set_next y (first_of b None)) | None => Ok h end) = Ok h1 /\
     seg h1 None a (first_of b None) /\ length h1 = length h /\ (forall j, ~ In j a -> nth_error h1 j = nth_error h j)).
  { destruct (last_of None a) as [q|] eqn:E.
    - destruct (last_in _ _ _ E) as [[K _]|[c ->]]; [discriminate|]. apply seg_app in C1. destruct C1 as [D1 (y & Y1 & Y2 & Y3 & _)].
      rewrite (mod_link_ok _ _ _ _ Y1). eexists. split; [reflexivity|]. rewrite length_upd. assert (q < length h) by (eapply nth_lt; eauto).
      split; [|split; auto].
      + apply seg_app. rewrite <- app_assoc in Anew. pose proof (NoDup_remove_2 _ _ _ Anew) as Nq. rewrite in_app_iff in Nq. split.
        * cbn [first_of] in *. eapply seg_frame; [|exact D1]. intros k Hk. apply nth_upd_ne. intros <-. tauto.
        * cbn [seg]. eexists. rewrite nth_upd_eq by auto. repeat split; auto.
      + intros j Hj. apply nth_upd_ne. intros <-. apply Hj. apply in_app_iff. cbn. auto.
    - destruct a as [|q c]; [|exfalso; clear - E; cbn in E; assert (K : forall c q, last_of (Some q) c <> None) by (induction c0; cbn; congruence); now apply K in E].
      exists h. repeat split; auto. }
  destruct S1 as (h1 & -> & S1 & L1 & F1). cbn [bind].
  assert (C2' : seg h1 (Some i) b None) by (eapply seg_frame; [|exact C2]; intros k Hk; apply F1; eauto).
  (* step 2: the successor *)
  assert (S2 : exists h2, (match first_of b None with Some n => mod_link h1 n (fun y => set_prev y (last_of None a)) | None => Ok h1 end) = Ok h2 /\
     seg h2 (last_of None a) b None /\ length h2 = length h1 /\ (forall j, ~ In j b -> nth_error h2 j = nth_error h1 j)).
  { destruct b as [|n c]; cbn [first_of].
    - exists h1. repeat split; auto.
    - destruct C2' as (y & Y1 & Y2 & Y3 & Y4). rewrite (mod_link_ok _ _ _ _ Y1). eexists. split; [reflexivity|]. rewrite length_upd.
      assert (n < length h1) by (eapply nth_lt; eauto). split; [|split; auto].
      + cbn [seg]. eexists. rewrite nth_upd_eq by auto. repeat split; auto. eapply seg_frame; [|exact Y4].
        intros k Hk. apply nth_upd_ne. intros <-. apply NoDup_app_iff' in Anew. destruct Anew as (_ & Nb & _). inversion Nb; subst. tauto.
      + intros j Hj. apply nth_upd_ne. intros <-. apply Hj. cbn. auto. }
  destruct S2 as (h2 & -> & S2 & L2 & F2). cbn [bind].
  assert (Hs : seg h2 None (a ++ b) None).
  { apply seg_app. split; auto. eapply seg_frame; [|exact S1]. intros k Hk. apply F2. eauto. }
  assert (HF : forall j, ~ In j (a ++ b) -> nth_error h2 j = nth_error h j).
  { intros j Hj. rewrite in_app_iff in Hj. rewrite F2, F1; tauto. }
  rewrite first_app. cbn [first_of]. destruct a as [|q c]; cbn [first_of app].
  - rewrite Nat.eqb_refl. rewrite (get_ok h2 i x).
    2:{ rewrite F2, F1 by tauto. auto. }
    cbn [bind]. rewrite X3. eexists. split; [reflexivity|]. cbn [il_pool]. split; [|split; [congruence|auto]]. repeat split; auto.
  - destruct (Nat.eqb_spec q i) as [->|]; [exfalso; cbn in Ai; tauto|]. eexists. split; [reflexivity|]. cbn [il_pool]. split; [|split; [congruence|auto]].
    repeat split; auto.
Qed.

Lemma take_all_ok xs : forall fuel h, NoDup xs -> seg1 h xs None -> length xs <= fuel -> exists h', take_all fuel h (first_of xs None) = Ok h' /\ length h' = length h.
Proof.
  induction xs as [|i r IH]; intros fuel h A C Hf.
  - exists h. destruct fuel; auto.
  - destruct C as (x & C1 & C2 & C3). destruct fuel; cbn [length] in Hf; [lia|]. cbn [first_of take_all]. rewrite (get_ok _ _ _ C1). cbn [bind].
    rewrite set_ok by (eapply nth_lt; eauto). cbn [bind]. rewrite C2. inversion A; subst.
    destruct (IH fuel (upd h i (set_next x None))) as (h' & E & L); auto; try lia.
    + eapply seg1_frame; [|exact C3]. intros k Hk. apply nth_upd_ne. intros <-. tauto.
    + exists h'. rewrite E, L, length_upd. auto.
Qed.
Lemma remove_all_ok l xs : sll_ok l xs -> exists l', remove_all l = Ok l' /\ il_head l' = None /\ length (il_pool l') = length (il_pool l).
Proof.
  intros H. pose proof (sll_len _ _ H) as Hl. destruct H as (A & B & C). unfold remove_all. rewrite B.
  destruct (take_all_ok xs (S (length (il_pool l))) (il_pool l)) as (h & -> & L); auto. cbn [bind]. eexists. split; [reflexivity|]. auto.
Qed.
Lemma empty_dll l : il_head l = None -> dll_ok l [].
Proof. intros H. repeat split; auto. constructor. Qed.
Lemma empty_sll l : il_head l = None -> sll_ok l [].
Proof. intros H. repeat split; auto. constructor. Qed.

Lemma drun_ok ops : forall l xs ys, dll_ok l xs -> lrun (length (il_pool l)) xs ops = Some ys ->
  exists l', irun dll_push dll_remove l ops = Ok l' /\ dll_ok l' ys /\ length (il_pool l') = length (il_pool l).
Proof.
  induction ops as [|[i|i| |] ops IH]; intros l xs ys H; cbn [lrun irun].
  - intros K; injection K as <-. eauto.
  - destruct (in_dec _ i xs) as [|Hn]; [discriminate|]. destruct (Nat.ltb_spec i (length (il_pool l))) as [Hi|]; [|discriminate].
    destruct (dll_push_ok l xs i H Hn Hi) as (l' & -> & H' & L). cbn [bind]. rewrite <- L. intros K. destruct (IH l' (i :: xs) ys H' K) as (l'' & E & H2 & L2). rewrite <- L2. eauto.
  - destruct (in_dec _ i xs) as [Hn|]; [|discriminate]. apply in_split in Hn. destruct Hn as (a & b & ->).
    rewrite ldrop_split by apply H. destruct (dll_remove_ok l a i b H) as (l' & -> & H' & L & _). cbn [bind]. rewrite <- L. intros K.
    destruct (IH l' _ ys H' K) as (l'' & E & H2 & L2). rewrite <- L2. eauto.
  - destruct (remove_all_ok l xs (dll_sll _ _ H)) as (l' & -> & H' & L). cbn [bind]. rewrite <- L. intros K.
    destruct (IH l' [] ys (empty_dll _ H') K) as (l'' & E & H2 & L2). rewrite <- L2. eauto.
  - intros K. destruct (IH (list_clear l) [] ys (empty_dll (list_clear l) eq_refl) K) as (l'' & E & H2 & L2). eauto.
Qed.

(** ** single list *)
Lemma sll_push_ok l xs i : sll_ok l xs -> ~ In i xs -> i < length (il_pool l) ->
  exists l', sll_push l i = Ok l' /\ sll_ok l' (i :: xs) /\ length (il_pool l') = length (il_pool l).
Proof.
  intros (A & B & C) Hn Hi. unfold sll_push. destruct (lt_nth _ _ Hi) as [x Hx]. rewrite (mod_link_ok _ _ _ _ Hx). cbn [bind].
  eexists. split; [reflexivity|]. cbn [il_pool]. rewrite length_upd. split; auto. split; [constructor; auto|]. split; [reflexivity|].
  cbn [il_pool seg1]. eexists. rewrite nth_upd_eq by auto. repeat split; auto.
  eapply seg1_frame; [|exact C]. intros k Hk. apply nth_upd_ne. intros <-. tauto.
Qed.
Lemma unlink_ok h a i b : forall fuel j, seg1 h (j :: a ++ i :: b) None -> NoDup (j :: a ++ i :: b) -> length a < fuel ->
  exists h', unlink fuel h j i = Ok (Some h') /\ seg1 h' (j :: a ++ b) None /\ length h' = length h /\
    (forall k, ~ In k (j :: a ++ b) -> nth_error h' k = nth_error h k).
Proof.
  induction a as [|k a IH]; intros fuel j H Hn Hf.
  - destruct fuel; [cbn in Hf; lia|]. cbn [app] in *. cbn [seg1] in H. destruct H as (x & X1 & X2 & (y & Y1 & Y2 & Y3)). cbn [first_of] in X2.
    cbn [unlink]. rewrite (get_ok _ _ _ X1). cbn [bind]. rewrite X2, Nat.eqb_refl, (get_ok _ _ _ Y1). cbn [bind].
    assert (j < length h) by (eapply nth_lt; eauto). rewrite set_ok by auto. cbn [bind]. eexists. split; [reflexivity|]. rewrite length_upd.
    inversion Hn as [|? ? N1 N2]; subst. split; [|split; auto].
    + cbn [seg1]. eexists. rewrite nth_upd_eq by auto. repeat split; auto. eapply seg1_frame; [|exact Y3].
      intros k Hk. apply nth_upd_ne. intros <-. apply N1. cbn. auto.
    + intros k Hk. apply nth_upd_ne. intros <-. apply Hk. cbn. auto.
  - destruct fuel; [cbn in Hf; lia|]. cbn [app length] in *. destruct H as (x & X1 & X2 & H). cbn [first_of] in X2.
    cbn [unlink]. rewrite (get_ok _ _ _ X1). cbn [bind]. rewrite X2. inversion Hn as [|? ? N1 N2]; subst.
    destruct (Nat.eqb_spec k i) as [->|].
    { exfalso. inversion N2; subst. apply H2. apply in_app_iff. cbn. auto. }
    destruct (IH fuel k H N2) as (h' & E & S1 & L & F); [lia|]. exists h'. split; [exact E|]. split; [|split; [exact L|]].
    + cbn [seg1]. exists x. repeat split; auto. rewrite F; auto. intros K. apply N1. cbn in *. rewrite in_app_iff in *. cbn. tauto.
    + intros k' Hk. apply F. intros K. apply Hk. cbn in *. tauto.
Qed.
Lemma unlink_out h a i : forall fuel j, seg1 h (j :: a) None -> ~ In i a -> length a < fuel -> unlink fuel h j i = Ok None.
Proof.
  induction a as [|k a IH]; intros fuel j H Hn Hf; (destruct fuel; [cbn in Hf; lia|]); destruct H as (x & X1 & X2 & H); cbn [unlink]; rewrite (get_ok _ _ _ X1); cbn [bind]; rewrite X2; cbn [first_of].
  - reflexivity.
  - destruct (Nat.eqb_spec k i) as [->|]; [exfalso; apply Hn; cbn; auto|]. apply IH; auto.
    + intros K. apply Hn. cbn. auto.
    + cbn [length] in Hf. lia.
Qed.
Lemma sll_remove_ok l a i b : sll_ok l (a ++ i :: b) ->
  exists l', sll_remove l i = Ok l' /\ sll_ok l' (a ++ b) /\ length (il_pool l') = length (il_pool l) /\
    (forall j, ~ In j (a ++ b) -> nth_error (il_pool l') j = nth_error (il_pool l) j).
Proof.
  intros H. pose proof (sll_len _ _ H) as Hl. destruct H as (A & B & C). unfold sll_remove. rewrite B.
  pose proof (NoDup_remove_1 _ _ _ A) as Anew. destruct a as [|j a]; cbn [app first_of] in *.
  - rewrite Nat.eqb_refl. destruct C as (x & C1 & C2 & C3). rewrite (get_ok _ _ _ C1). cbn [bind]. eexists. split; [reflexivity|]. cbn [il_pool].
    split; auto. repeat split; auto.
  - destruct (Nat.eqb_spec j i) as [->|].
    { exfalso. inversion A; subst. apply H1. apply in_app_iff. cbn. auto. }
    cbn [length] in Hl. rewrite app_length in Hl.
    destruct (unlink_ok (il_pool l) a i b (S (length (il_pool l))) j C A) as (h' & -> & S1 & L & F); [lia|]. cbn [bind unwrap].
    eexists. split; [reflexivity|]. cbn [il_pool]. split; auto. repeat split; auto.
Qed.
Lemma sll_remove_panics l xs i : sll_ok l xs -> ~ In i xs -> sll_remove l i = Panic.
Proof.
  intros H. pose proof (sll_len _ _ H) as Hl. destruct H as (A & B & C). intros Hn. unfold sll_remove. rewrite B. destruct xs as [|j r]; cbn [first_of]; auto.
  destruct (Nat.eqb_spec j i) as [->|]; [exfalso; apply Hn; cbn; auto|].
  cbn [length] in Hl. rewrite (unlink_out (il_pool l) r i); [reflexivity|auto|intros K; apply Hn; cbn; auto|lia].
Qed.
Lemma srun_ok ops : forall l xs ys, sll_ok l xs -> lrun (length (il_pool l)) xs ops = Some ys ->
  exists l', irun sll_push sll_remove l ops = Ok l' /\ sll_ok l' ys /\ length (il_pool l') = length (il_pool l).
Proof.
  induction ops as [|[i|i| |] ops IH]; intros l xs ys H; cbn [lrun irun].
  - intros K; injection K as <-. eauto.
  - destruct (in_dec _ i xs) as [|Hn]; [discriminate|]. destruct (Nat.ltb_spec i (length (il_pool l))) as [Hi|]; [|discriminate].
    destruct (sll_push_ok l xs i H Hn Hi) as (l' & -> & H' & L). cbn [bind]. rewrite <- L. intros K. destruct (IH l' (i :: xs) ys H' K) as (l'' & E & H2 & L2). rewrite <- L2. eauto.
  - destruct (in_dec _ i xs) as [Hn|]; [|discriminate]. apply in_split in Hn. destruct Hn as (a & b & ->).
    rewrite ldrop_split by apply H. destruct (sll_remove_ok l a i b H) as (l' & -> & H' & L & _). cbn [bind]. rewrite <- L. intros K.
    destruct (IH l' _ ys H' K) as (l'' & E & H2 & L2). rewrite <- L2. eauto.
  - destruct (remove_all_ok l xs H) as (l' & -> & H' & L). cbn [bind]. rewrite <- L. intros K.
    destruct (IH l' [] ys (empty_sll _ H') K) as (l'' & E & H2 & L2). rewrite <- L2. eauto.
  - intros K. destruct (IH (list_clear l) [] ys (empty_sll (list_clear l) eq_refl) K) as (l'' & E & H2 & L2). eauto.
Qed.

(** ** removing while iterating *)
Lemma drain_ok (rm : ilist -> nat -> res ilist) (okp : ilist -> list nat -> Prop) :
  (forall l i b, okp l (i :: b) -> exists l' x, nth_error (il_pool l) i = Some x /\ l_next x = first_of b None /\ rm l i = Ok l' /\ okp l' b) ->
  forall xs fuel l, okp l xs -> length xs <= fuel -> exists l', drain rm fuel l (first_of xs None) = Ok (l', xs) /\ okp l' [].
Proof.
  intros Hrm. induction xs as [|i r IH]; intros fuel l H Hf.
  - exists l. destruct fuel; auto.
  - destruct fuel; cbn [length] in Hf; [lia|]. destruct (Hrm l i r H) as (l' & x & X1 & X2 & E & H'). cbn [first_of drain].
    rewrite (get_ok _ _ _ X1). cbn [bind]. rewrite E. cbn [bind]. rewrite X2. destruct (IH fuel l' H') as (l'' & -> & H''); [lia|]. cbn [bind]. eauto.
Qed.

Lemma last_rev xs : last_of None xs = hd_error (rev xs).
Proof. destruct xs as [|i r _] using rev_ind; auto. rewrite last_of_some, rev_app_distr. reflexivity. Qed.
(* statements for a fresh pool *)
Definition fresh (N : nat) : ilist := IList None (repeat (Link None None) N).
Lemma fresh_len N : length (il_pool (fresh N)) = N.
Proof. apply repeat_length. Qed.

Lemma c02_dll h ops xs : lrun (length h) [] ops = Some xs -> exists l, irun dll_push dll_remove (IList None h) ops = Ok l /\
  list_iter l = Ok xs /\ NoDup xs /\ il_head l = hd_error xs /\ linked (il_pool l) None xs /\
  walk_back (S (length (il_pool l))) (il_pool l) (hd_error (rev xs)) = Ok (rev xs) /\
  exists l', drain_all dll_remove l = Ok (l', xs) /\ list_iter l' = Ok [].
Proof.
  intros H. destruct (drun_ok ops (IList None h) [] xs (empty_dll (IList None h) eq_refl) H) as (l & E & K & L). exists l. split; [exact E|].
  pose proof (sll_len _ _ (dll_sll _ _ K)) as Hlen. pose proof K as (K1 & K2 & K3).
  split; [apply iter_ok; now apply dll_sll|]. split; auto. rewrite <- first_hd. split; auto. split; [now apply seg_linked|].
  split; [rewrite <- last_rev; apply (walk_back_seg _ _ _ None); auto|].
  unfold drain_all. rewrite K2.
  destruct (drain_ok dll_remove dll_ok) with (xs := xs) (fuel := S (length (il_pool l))) (l := l) as (l' & E' & H'); auto.
  - intros l0 i b H0. destruct (dll_remove_ok l0 [] i b H0) as (l' & E' & H' & _). destruct H0 as (_ & _ & (x & X1 & X2 & X3 & _)). eauto 8.
  - exists l'. split; auto. apply iter_ok. now apply dll_sll.
Qed.
Lemma c02_sll h ops xs : lrun (length h) [] ops = Some xs -> exists l, irun sll_push sll_remove (IList None h) ops = Ok l /\
  list_iter l = Ok xs /\ NoDup xs /\ (forall i, ~ In i xs -> sll_remove l i = Panic) /\
  exists l', drain_all sll_remove l = Ok (l', xs) /\ list_iter l' = Ok [].
Proof.
  intros H. destruct (srun_ok ops (IList None h) [] xs (empty_sll (IList None h) eq_refl) H) as (l & E & K & L). exists l. split; [exact E|].
  pose proof (sll_len _ _ K) as Hlen. pose proof K as (K1 & K2 & K3).
  split; [now apply iter_ok|]. split; auto. split; [intros; eapply sll_remove_panics; eauto|].
  unfold drain_all. rewrite K2.
  destruct (drain_ok sll_remove sll_ok) with (xs := xs) (fuel := S (length (il_pool l))) (l := l) as (l' & E' & H'); auto.
  - intros l0 i b H0. destruct (sll_remove_ok l0 [] i b H0) as (l' & E' & H' & _). destruct H0 as (_ & _ & (x & X1 & X2 & _)). eauto 8.
  - exists l'. split; auto. now apply iter_ok.
Qed.
