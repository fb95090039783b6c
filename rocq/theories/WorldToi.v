(** Continuous collision: the invariant is kept and the loop terminates. *)
From Coq Require Import List ZArith Bool Arith Lia Permutation.
From Verif Require Import Base Num Math Collision Manifold Filter ShapeModel ListFacts ManifoldProofs TreeModel TreeSpec TreeHist BroadModel BroadSpec BroadProofs BroadFinal DynModel DynSpec DynProofs WorldModel WorldGraph WorldSpec WorldGops WorldLogic WorldPhys WorldContact WorldInv WorldOps WorldFix WorldBody WorldLife WorldIsland WorldSolve.
Import ListNotations.

(** ** sums over lists *)
Lemma incl_split {A} (l : list A) : forall l', NoDup l -> incl l l' -> exists r, Permutation l' (l ++ r).
Proof.
  induction l as [|x l IH]; intros l' N I; [exists l'; reflexivity|]. inversion N; subst. destruct (in_split x l') as (l1 & l2 & ->); [apply I; now left|].
  destruct (IH (l1 ++ l2)) as (r & Hr); auto. { intros y Hy. assert (In y (l1 ++ x :: l2)) as K by (apply I; now right). rewrite in_app_iff in *. cbn in K. destruct K as [K|[K|K]]; auto. congruence. }
  exists r. cbn. rewrite <- Hr. symmetry. apply Permutation_middle.
Qed.
Fixpoint total (f : nat -> nat) (l : list nat) : nat := match l with [] => 0 | x :: r => f x + total f r end.
Lemma total_perm f l l' : Permutation l l' -> total f l = total f l'.
Proof. intros H. induction H; cbn in *; lia. Qed.
Lemma total_app f l r : total f (l ++ r) = total f l + total f r.
Proof. induction l; cbn; [auto|]. lia. Qed.
Lemma total_le f k l : (forall x, f x <= k) -> total f l <= k * length l.
Proof. intros H. induction l as [|x l IH]; cbn; [lia|]. specialize (H x). lia. Qed.
Lemma total_ext f g l : (forall x, In x l -> f x = g x) -> total f l = total g l.
Proof. intros H. induction l as [|x l IH]; cbn; [auto|]. rewrite (H x) by now left. rewrite IH; auto. intros y Hy. apply H. now right. Qed.
Lemma total_grow f k l l' : (forall x, f x <= k) -> NoDup l -> incl l l' -> length l <= length l' /\ total f l' <= total f l + k * (length l' - length l).
Proof.
  intros H N I. destruct (incl_split l l' N I) as (r & Hr). rewrite (total_perm _ _ _ Hr), total_app. apply Permutation_length in Hr. rewrite app_length in Hr. pose proof (total_le f k r H). split; [lia|]. replace (length l' - length l) with (length r) by lia. lia.
Qed.
Lemma total_step f g l x : NoDup l -> In x l -> (forall y, y <> x -> f y = g y) -> f x < g x -> total f l < total g l.
Proof.
  intros N I H L. destruct (in_split x l I) as (l1 & l2 & ->). apply NoDup_remove_2 in N. rewrite in_app_iff in N. rewrite !total_app. cbn [total].
  rewrite (total_ext f g l1), (total_ext f g l2); [lia| |]; intros y Hy; apply H; intros ->; tauto.
Qed.

Section Keep.
  Context {T : Type} `{NT : Num T} `{TT : NumTrig T} `{VT : NumValid T}.
  Notation world := (world T).
  Implicit Types w : world.
  Variable E : env T.
  Definition cnt w c : option Z := option_map (@c_toi_count T) (w_contacts w c).
  Definition mrk w i := option_map (fun b : body T => (fl_island (b_flags b), b_island_index b)) (w_bodies w i).
  Definition keep w w' : Prop := (forall c, cnt w' c = cnt w c) /\ (forall i, mrk w' i = mrk w i).
  Lemma keep_refl w : keep w w.
  Proof. split; auto. Qed.
  Lemma keep_trans w w1 w2 : keep w w1 -> keep w1 w2 -> keep w w2.
  Proof. intros [A B] [C D]. split; intros; [now rewrite C|now rewrite D]. Qed.
  Lemma keep_put_contact w i x y : w_contacts w i = Some x -> c_toi_count y = c_toi_count x -> keep w (put_contact i y w).
  Proof. intros H K. split; auto. intros c. unfold cnt. cbn. unfold put. destruct (Nat.eqb_spec c i) as [->|]; auto. rewrite H. cbn. congruence. Qed.
  Lemma keep_put_body w i (x y : body T) : w_bodies w i = Some x -> fl_island (b_flags y) = fl_island (b_flags x) -> b_island_index y = b_island_index x -> keep w (put_body i y w).
  Proof. intros H K L. split; auto. intros c. unfold mrk. cbn. unfold put. destruct (Nat.eqb_spec c i) as [->|]; auto. rewrite H. cbn. congruence. Qed.
  Lemma keep_contact w i f : (forall x : contact T, c_toi_count (f x) = c_toi_count x) -> okp (mod_contact i f w) (keep w).
  Proof. intros H. unfold mod_contact, get_contact. destruct (w_contacts w i) as [x|] eqn:Q; [|easy]. apply okp_ok. eapply keep_put_contact; eauto. Qed.
  Lemma keep_body w i f : (forall x : body T, fl_island (b_flags (f x)) = fl_island (b_flags x) /\ b_island_index (f x) = b_island_index x) -> okp (mod_body i f w) (keep w).
  Proof. intros H. unfold mod_body, get_body. destruct (w_bodies w i) as [x|] eqn:Q; [|easy]. apply okp_ok. eapply keep_put_body; eauto; apply H. Qed.
  Lemma keep_log e w : keep w (log e w).
  Proof. split; auto. Qed.
  Lemma keep_listen e i w : okp (listen E e i w) (keep w).
  Proof. unfold listen, get_contact. destruct (w_contacts w i) as [x|] eqn:Q; [|easy]. apply okp_ok. apply (keep_trans _ (put_contact i (apply_edit (e_listen E w e x) x) w)); [|apply keep_log]. eapply keep_put_contact; eauto. Qed.
  Lemma awake_marks f (b : body T) : fl_island (b_flags (set_awake f b)) = fl_island (b_flags b) /\ b_island_index (set_awake f b) = b_island_index b.
  Proof. unfold set_awake. destruct (is_static b), f; auto. Qed.
  Lemma okp_then {A} (w : world) (m : res A) (f : A -> res world) (R : A -> Prop) : okp m R -> (forall a, R a -> okp (f a) (keep w)) -> okp (bind m f) (keep w).
  Proof. intros H K. apply okp_bind. intros a Q. apply K. now apply H. Qed.
  Lemma okp_mono {A} (m : res A) (Q Q' : A -> Prop) : okp m Q -> (forall a, Q a -> Q' a) -> okp m Q'.
  Proof. intros H K a R. apply K. now apply H. Qed.
  Lemma keep_update i w : okp (update_contact E i w) (keep w).
  Proof.
    unfold update_contact. eapply okp_then; [apply keep_contact; reflexivity|]. intros w1 K1. cbv beta. apply okp_skip. intros c. cbv zeta. apply okp_skip. intros fa. apply okp_skip. intros fb. apply okp_skip. intros a. apply okp_skip. intros b. apply okp_skip. intros ba. apply okp_skip. intros bb.
    eapply (okp_then w _ _ (fun q => keep w (fst q))).
    - destruct (f_sensor fa || f_sensor fb).
      + apply okp_skip. intros t. apply okp_bind. eapply okp_mono; [apply keep_contact; reflexivity|]. intros w2 K2. apply okp_ok. cbn. eapply keep_trans; [exact K1|]. eapply keep_trans; [apply keep_log|exact K2].
      + apply okp_skip. intros m. cbv zeta. apply okp_skip. intros m'. apply okp_bind. eapply okp_mono; [apply keep_contact; reflexivity|]. intros w2 K2. apply okp_bind. apply (okp_mono _ (keep w2)).
        * destruct (Bool.eqb _ _); [apply okp_ok, keep_refl|]. apply okp_bind. eapply okp_mono; [apply keep_body, awake_marks|]. intros w3 K3. eapply okp_mono; [apply keep_body, awake_marks|]. intros w4 K4. eapply keep_trans; eauto.
        * intros w3 K3. apply okp_ok. cbn. eapply keep_trans; [exact K1|]. eapply keep_trans; [apply keep_log|]. eapply keep_trans; eauto.
    - intros [w2 t] K2. cbn in K2. apply okp_bind. eapply okp_mono; [apply keep_contact; reflexivity|]. intros w3 K3. assert (K4 : keep w w3) by (eapply keep_trans; eauto). clear K3. destruct (w_listener w3); [|now apply okp_ok].
      apply okp_bind. apply (okp_mono _ (keep w)). { destruct (_ && _); [|now apply okp_ok]. eapply okp_mono; [apply keep_listen|]. intros v Kv. eapply keep_trans; eauto. }
      intros w5 K5. apply okp_bind. apply (okp_mono _ (keep w)). { destruct (_ && _); [|now apply okp_ok]. eapply okp_mono; [apply keep_listen|]. intros v Kv. eapply keep_trans; eauto. }
      intros w6 K6. destruct (_ && _); [|now apply okp_ok]. eapply okp_mono; [apply keep_listen|]. intros v Kv. eapply keep_trans; eauto.
  Qed.
  Lemma keep_synchronize f a b w : okp (synchronize f a b w) (keep w).
  Proof. unfold synchronize. apply okp_skip. intros x. destruct (Nat.eqb (f_proxy_count x) 0); [apply okp_ok, keep_refl|]. apply okp_skip. intros [ps bp]. apply okp_ok. split; auto. Qed.
  Lemma keep_sync_fixtures i w : okp (synchronize_fixtures i w) (keep w).
  Proof. unfold synchronize_fixtures. apply okp_skip. intros b. cbv zeta. apply (okp_each (keep w)); [|apply keep_refl]. intros x s H s' Q. apply keep_synchronize in Q. eapply keep_trans; eauto. Qed.
End Keep.
#[local] Hint Resolve keep_refl : core.

Section Toi.
  Local Open Scope num_scope.
  Context {T : Type} `{NT : Num T} `{TT : NumTrig T} `{VT : NumValid T}.
  Notation world := (world T).
  Implicit Types w : world.
  Variable p : Prop.
  Variable oks : vec2 T -> Prop.
  Variable E : env T.
  Hypothesis EO : env_ok p E.
  Hypothesis Z01 : p \/ ((#0 : T) <? #1) = true.
  Hypothesis LT : p \/ forall a b c : T, (a <? b) = true -> (b <? c) = true -> (a <? c) = true.
  Notation W := (W p oks).
  Notation bok := (bok p).
  Notation cok := (cok p).
  Definition below (a : T) : Prop := p \/ (a <? #1) = true.

  Section Event.
    Variable w0 : world.
    Hypothesis W0 : W w0.
    Notation phys := (phys p oks w0).
    Let GI := W_graph _ _ _ W0.
    Let C0 : contacts_ok (graph_of w0) := proj1 (proj2 (proj2 GI)).

    Lemma bok_of w i b : phys w -> w_bodies w i = Some b -> bok b.
    Proof. intros (_ & (N & _) & _). apply N. Qed.
    Lemma cok_of w i b : phys w -> w_contacts w i = Some b -> cok b.
    Proof. intros (_ & (_ & N) & _). apply N. Qed.
    Lemma sat_sweep_advance (s : sweep T) a : p \/ (sw_alpha0 s <? #1) = true -> sat p (sweep_advance s a) (fun s' => sw_alpha0 s' = a).
    Proof. intros H. unfold sweep_advance. apply sat_bind, sat_assert; auto. intros _. reflexivity. Qed.
    Lemma sat_body_advance a (b : body T) : bok b -> sat p (body_advance a b) (fun b' => view_b b' = view_b b /\ sw_alpha0 (b_sweep b') = a /\ b_flags b' = b_flags b /\ b_island_index b' = b_island_index b).
    Proof. intros H. unfold body_advance. apply sat_bind. eapply sat_mono; [apply sat_sweep_advance, H|]. intros s Hs. cbn [sat]. cbn. auto. Qed.
    Lemma t_body w i f : phys w -> w_bodies w0 i <> None -> (forall b, bok b -> view_b (f b) = view_b b /\ bok (f b)) -> sat p (mod_body i f w) phys.
    Proof. intros P L H. pose proof P as (Lk & _). apply sat_mod_body; auto. now apply (links_body _ _ _ Lk). Qed.
    Lemma t_contact w i f : phys w -> w_contacts w0 i <> None -> (forall c, cok c -> view_cf (f c) = view_cf c /\ cok (f c) /\ cf_touching (c_flags (f c)) = cf_touching (c_flags c)) -> sat p (mod_contact i f w) phys.
    Proof. intros P L H. pose proof P as (Lk & _). apply sat_mod_contact; auto. now apply (links_contact _ _ _ Lk). Qed.

    (** ** the scan for the first impact *)
    Definition best_ok w (best : option nat) (a : T) : Prop :=
      match best with None => a = #1 | Some i => below a /\ exists n, cnt w i = Some n /\ (n <= 8)%Z end.
    Definition scanned (st : world * option nat * T) : Prop := let '(w, best, a) := st in phys w /\ (forall c, cnt w c = cnt w0 c) /\ best_ok w0 best a.
    Lemma below_better w best a i n al : best_ok w best a -> cnt w i = Some n -> (n <= 8)%Z -> best_ok w (if al <? a then Some i else best) (if al <? a then al else a).
    Proof.
      intros H K L. destruct (al <? a) eqn:Q; [|exact H]. split; [|eauto]. destruct best as [j|]; cbn in H; [|subst a; now right]. destruct H as [[H|H] _]; [now left|]. destruct LT as [Hp|HT]; [now left|]. right. eauto.
    Qed.
    Lemma sat_scan1 i st : w_contacts w0 i <> None -> scanned st -> sat p (toi_scan1 E i st) scanned.
    Proof.
      destruct st as [[w best] a]. intros Li (P & Cn & B). pose proof P as (Lk & _). unfold toi_scan1. cbv zeta. apply sat_bind, sat_contact; [now apply (links_contact _ _ _ Lk)|]. intros c Hc.
      destruct (negb (cf_enabled (c_flags c))); [cbn; auto|]. destruct (B2_MAX_SUB_STEPS <? c_toi_count c)%Z eqn:Q8; [cbn; auto|]. apply Z.ltb_ge in Q8. unfold B2_MAX_SUB_STEPS in Q8.
      assert (Ci : cnt w0 i = Some (c_toi_count c)) by (rewrite <- Cn; unfold cnt; now rewrite Hc).
      assert (Better : forall w' al, phys w' -> (forall c, cnt w' c = cnt w0 c) -> sat p (Ok (if al <? a then (w', Some i, al) else (w', best, a))) scanned).
      { intros w' al P' Cn'. pose proof (below_better w0 best a i _ al B Ci Q8) as K. destruct (al <? a); cbn; auto. }
      destruct (cf_toi (c_flags c)); [now apply Better|].
      pose proof (contacts_now w0 C0 w Lk) as Cw. destruct (contact_parts w i c Cw Hc) as (fa & fb & ia & ib & ba & bb & Hfa & Hfb & Oa & Ob & Ne & Ha & Hb & _). unfold get_fixture, get_body. rewrite Hfa, Hfb. cbn [unwrap bind].
      destruct (f_sensor fa || f_sensor fb); [cbn; auto|]. rewrite Oa, Ob. cbn [unwrap bind]. rewrite Ha, Hb. cbn [unwrap bind].
      apply sat_bind, sat_assert.
      { right. pose proof (W_enabled _ _ _ (W_phys _ _ _ _ W0 P)) as (_ & _ & En). assert (Ca : cbody (graph_of w) i true = Some ia). { unfold cbody, owner. cbn. rewrite Hc. cbn. rewrite Hfa. cbn. exact Oa. }
        assert (Cb : cbody (graph_of w) i false = Some ib). { unfold cbody, owner. cbn. rewrite Hc. cbn. rewrite Hfb. cbn. exact Ob. }
        destruct (En i ia ib (view_b ba) (view_b bb) Ca Cb) as [Q|Q]; cbn; rewrite ?Ha, ?Hb; auto; cbn in Q; unfold is_dynamic; rewrite Q; auto. apply orb_true_r. }
      intros _. destruct (negb (active ba) && negb (active bb)); [cbn; auto|]. destruct (negb (is_bullet ba || _) && _); [cbn; auto|].
      pose proof (bok_of w ia ba P Ha) as Ba. pose proof (bok_of w ib bb P Hb) as Bb.
      apply sat_bind. apply (sat_mono _ (fun q => phys (fst q) /\ (forall c, cnt (fst q) c = cnt w0 c) /\ below (snd q))).
      { destruct (sw_alpha0 (b_sweep ba) <? sw_alpha0 (b_sweep bb)).
        - apply sat_bind. eapply sat_mono; [apply sat_sweep_advance, Ba|]. intros s Hs. cbn [sat fst snd]. refine (conj _ (conj Cn Bb)). eapply phys_body; eauto. unfold WorldLogic.bok. cbn. rewrite Hs. exact Bb.
        - destruct (sw_alpha0 (b_sweep bb) <? sw_alpha0 (b_sweep ba)); [|cbn; auto]. apply sat_bind. eapply sat_mono; [apply sat_sweep_advance, Bb|]. intros s Hs. cbn [sat fst snd]. refine (conj _ (conj Cn Ba)). eapply phys_body; eauto. unfold WorldLogic.bok. cbn. rewrite Hs. exact Ba. }
      intros [w1 al0] (P1 & C1 & A1). cbn [fst snd] in P1, C1, A1. apply sat_bind, sat_assert; [exact A1|]. intros _. apply sat_bind. eapply sat_mono; [apply EO; [exact (conj (contacts_now w0 C0 w1 (proj1 P1)) (proj1 (proj2 P1)))|apply (links_contact _ _ _ (proj1 P1)); rewrite <- (links_contact _ _ _ Lk); congruence]|]. intros [tch beta] _. cbv zeta.
      apply sat_bind. set (w2 := log (EvToi i) w1). assert (P2 : phys w2) by (apply phys_log; auto; exact I). assert (C2 : forall c, cnt w2 c = cnt w0 c) by exact C1. clearbody w2.
      eapply sat_mono; [apply sat_okp; [apply t_contact; auto|apply keep_contact; reflexivity]|]. intros w3 [P3 K3]. apply Better; auto. intros k. destruct K3 as [K3 _]. now rewrite K3.
    Qed.

    (** ** the island of the impact *)
    Variables a b : nat.
    Variable ctr : nat -> option Z.   (* the counters of the impacts *)
    Hypothesis Hab : a <> b.
    Record J (w : world) (is : island) : Prop := {
      J_phys : phys w;
      J_cnt : forall c, cnt w c = ctr c;
      J_live : forall i, In i (is_bodies is) -> w_bodies w0 i <> None;
      J_clive : forall c, In c (is_contacts is) -> w_contacts w0 c <> None;
      J_flag : forall i, In i (is_bodies is) -> bflag w i = true;
      J_nodup : NoDup (is_bodies is);
      J_two : exists r, is_bodies is = a :: b :: r;
      J_index : mrk w a = Some (true, 0%Z) /\ mrk w b = Some (true, 1%Z) }.
    Lemma flag_mrk w i : bflag w i = match mrk w i with Some (f, _) => f | None => false end.
    Proof. unfold bflag, mrk. now destruct (w_bodies w i). Qed.
    Lemma J_keep w w' is : J w is -> phys w' -> keep w w' -> J w' is.
    Proof.
      intros H P [K1 K2]. destruct H. split; auto.
      - intros c. now rewrite K1.
      - intros i Hi. rewrite flag_mrk, K2, <- flag_mrk. auto.
      - now rewrite !K2.
    Qed.
    Lemma sat_join bi al e w is : J w is -> w_bodies w0 bi <> None -> In e (contacts_of (graph_of w0) bi) -> below al ->
      sat p (toi_join E bi al e (w, is)) (fun q => J (fst q) (snd q)).
    Proof.
      intros H Lbi He Bal. pose proof (J_phys _ _ H) as P. pose proof P as (Lk & _). destruct e as [ci s oi]. unfold toi_join. cbv zeta. cbn [ge_item ge_other].
      pose proof C0 as (_ & (_ & E2 & _) & _). apply E2 in He. destruct He as [Hs Ho].
      assert (Lc : w_contacts w0 ci <> None). { unfold cbody in Hs. cbn in Hs. now destruct (w_contacts w0 ci). }
      assert (Lo : w_bodies w0 oi <> None). { pose proof (contact_bodies_live _ ci (negb s) oi C0 Ho) as Z. cbn in Z. now destruct (w_bodies w0 oi). }
      apply sat_bind, sat_contact; [now apply (links_contact _ _ _ Lk)|]. intros c Hc. destruct (cf_island (c_flags c)); [exact H|].
      apply sat_bind, sat_body; [now apply (links_body _ _ _ Lk)|]. intros o Hoo. apply sat_bind, sat_body; [now apply (links_body _ _ _ Lk)|]. intros bb Hbb.
      destruct (is_dynamic o && negb (is_bullet bb) && negb (is_bullet o)); [exact H|].
      destruct (contact_parts w ci c (contacts_now w0 C0 w Lk) Hc) as (fa & fb & ia & ib & xa & xb & Hfa & Hfb & _). unfold get_fixture. rewrite Hfa, Hfb. cbn [unwrap bind]. destruct (f_sensor fa || f_sensor fb); [exact H|].
      pose proof (bok_of w oi o P Hoo) as Bo.
      apply sat_bind. apply (sat_mono _ (fun w1 => J w1 is)).
      { destruct (fl_island (b_flags o)); [exact H|]. apply sat_bind. eapply sat_mono; [apply sat_body_advance, Bo|]. intros o' (V & A & F & Ix). cbn [sat]. apply (J_keep w); auto; [eapply phys_body; eauto; unfold WorldLogic.bok; rewrite A; exact Bal|eapply keep_put_body; eauto; congruence]. }
      intros w1 H1. apply sat_bind. eapply sat_mono; [apply sat_okp; [apply (sat_update p oks E EO w0 C0); auto; apply (J_phys _ _ H1)|apply keep_update]|]. intros w2 [P2 K2]. cbv beta in P2. pose proof (J_keep _ _ _ H1 P2 K2) as H2. pose proof P2 as (Lk2 & _).
      apply sat_bind, sat_contact; [now apply (links_contact _ _ _ Lk2)|]. intros c2 Hc2. destruct (negb (cf_enabled (c_flags c2)) || negb (cf_touching (c_flags c2))).
      - apply sat_bind. eapply sat_mono; [apply sat_okp; [apply t_body; auto|apply keep_body; auto]|]. intros w3 [P3 K3]. cbn [sat fst snd]. eapply J_keep; eauto.
      - pose proof (cok_of w2 ci c2 P2 Hc2) as Cc. set (w3 := put_contact ci _ w2). assert (P3 : phys w3) by (eapply phys_contact; eauto). assert (K3 : keep w2 w3) by (eapply keep_put_contact; eauto).
        pose proof (J_keep _ _ _ H2 P3 K3) as H3. clearbody w3. pose proof P3 as (Lk3 & _).
        assert (H4 : J w3 (Island (is_bodies is) (is_contacts is ++ [ci]) (is_joints is))). { destruct H3. split; auto. cbn [is_contacts]. intros k Hk. apply in_app_iff in Hk. destruct Hk as [Hk|[<-|[]]]; auto. }
        apply sat_bind, sat_body; [now apply (links_body _ _ _ Lk3)|]. intros o3 Ho3. destruct (fl_island (b_flags o3)) eqn:Fo; [exact H4|]. unfold add_body. cbn [sat fst snd is_bodies is_contacts is_joints].
        set (o4 := if is_static _ then _ else _). assert (Vo : view_b o4 = view_b o3 /\ bok o4 /\ fl_island (b_flags o4) = true).
        { subst o4. pose proof (bok_of w3 oi o3 P3 Ho3) as B3. destruct (is_static _); [auto|]. refine (conj _ (conj _ _)); [now rewrite view_awake|now apply bok_awake|]. destruct (awake_marks true (mod_flags (set_fl_island true) o3)) as [-> _]. now destruct o3 as [? []]. }
        clearbody o4. destruct Vo as (Vo & Bo4 & Fo4). assert (Nin : ~ In oi (is_bodies is)). { intros K. apply (J_flag _ _ H3) in K. unfold bflag in K. rewrite Ho3 in K. congruence. }
        assert (Na : oi <> a /\ oi <> b). { destruct (J_two _ _ H3) as (r & Er). rewrite Er in Nin. cbn in Nin. split; intros ->; apply Nin; auto. } destruct Na as [Na Nb].
        set (o5 := set_b_island_index (Z.of_nat (length (is_bodies is))) o4). assert (V5 : view_b o5 = view_b o3 /\ bok o5 /\ fl_island (b_flags o5) = true) by (subst o5; now destruct o4). clearbody o5. destruct V5 as (V5 & B5 & F5).
        split; cbn [is_bodies is_contacts is_joints].
        + eapply phys_body; eauto.
        + apply (J_cnt _ _ H3).
        + intros k Hk. apply in_app_iff in Hk. destruct Hk as [Hk|[<-|[]]]; [now apply (J_live _ _ H3)|auto].
        + intros k Hk. apply in_app_iff in Hk. destruct Hk as [Hk|[<-|[]]]; [now apply (J_clive _ _ H3)|auto].
        + intros k Hk. unfold bflag. cbn. unfold put. destruct (Nat.eqb_spec k oi) as [->|Hne]; [auto|]. apply in_app_iff in Hk. destruct Hk as [Hk|[Hk|[]]]; [now apply (J_flag _ _ H3)|congruence].
        + apply NoDup_snoc; auto. apply (J_nodup _ _ H3).
        + destruct (J_two _ _ H3) as (r & ->). exists (r ++ [oi]). reflexivity.
        + destruct (J_index _ _ H3) as [I1 I2]. split; unfold mrk; cbn; rewrite put_ne; auto.
    Qed.
    Lemma sat_grow bi al w is : J w is -> w_bodies w0 bi <> None -> below al -> sat p (toi_grow E bi al (w, is)) (fun q => J (fst q) (snd q)).
    Proof.
      intros H L Bal. pose proof (J_phys _ _ H) as (Lk & _). unfold toi_grow. apply sat_bind, sat_body; [now apply (links_body _ _ _ Lk)|]. intros x Hx. destruct (is_dynamic x); [|exact H].
      apply sat_each with (I := fun q => J (fst q) (snd q)); [|exact H]. intros e [w1 is1] He H1. cbn in H1. apply sat_join; auto.
      unfold contacts_of. pose proof Lk as (_ & _ & B & _). specialize (B bi). rewrite Hx in B. cbn in B |- *. rewrite <- B. exact He.
    Qed.
    Lemma sat_solve_toi_island w is dt : J w is -> p \/ (length (is_bodies is) <= 64)%nat -> forall ia ib, ia = 0%Z -> ib = 1%Z ->
      sat p (solve_toi_island E is ia ib dt w) (fun w' => phys w' /\ forall c, cnt w' c = ctr c).
    Proof.
      intros H Le ia ib -> ->. destruct (J_two _ _ H) as (r & Er). unfold solve_toi_island. apply sat_bind, sat_assert; [destruct Le as [Hp|Le]; [now left|right]; apply Nat.leb_le; exact Le|]. intros _.
      apply sat_bind, sat_assert; [now right|]. intros _. apply sat_bind, sat_get; [rewrite Er; cbn; lia|]. intros _ _. apply sat_bind, sat_get; [rewrite Er; cbn; lia|]. intros _ _.
      apply sat_bind.
      assert (Iw : in_world p w is). { pose proof (J_phys _ _ H) as (Lk & Nm & _). refine (conj (conj (contacts_now w0 C0 w Lk) Nm) (conj _ _)); intros i Hi; [apply (links_body _ _ _ Lk); now apply (J_live _ _ H)|apply (links_contact _ _ _ Lk); now apply (J_clive _ _ H)]. }
      eapply sat_mono; [apply EO, Iw|]. intros s _. cbv zeta. set (w1 := log _ w). assert (P1 : phys w1) by (apply phys_log; [apply (J_phys _ _ H)|exact I]). assert (Cn1 : forall c, cnt w1 c = ctr c) by exact (J_cnt _ _ H). clearbody w1.
      apply sat_bind. eapply sat_mono; [apply sat_each with (I := fun v => phys v /\ forall c, cnt v c = ctr c)|].
      { intros i v Hi [Pv Cv]. eapply sat_mono; [apply sat_okp; [apply t_body; auto; now apply (J_live _ _ H)|]|].
        - apply keep_body. intros x. destruct x. auto.
        - intros v' [P' [K' _]]. split; auto. intros c. now rewrite K'. }
      { auto. }
      intros w2 [P2 C2]. unfold report. destruct (w_listener w2); [|cbn; auto]. apply sat_each with (I := fun v => phys v /\ forall c, cnt v c = ctr c); auto.
      intros c v Hc [Pv Cv]. eapply sat_mono; [apply sat_okp; [apply (sat_listen p oks E EO w0); auto; [now apply (J_clive _ _ H)|exact I]|apply keep_listen]|]. intros v' [P' [K' _]]. split; auto. intros k. now rewrite K'.
    Qed.
    Lemma sat_release i w : phys w -> (forall c, cnt w c = ctr c) -> w_bodies w0 i <> None -> sat p (toi_release i w) (fun w' => phys w' /\ forall c, cnt w' c = ctr c).
    Proof.
      intros P Cn L. unfold toi_release. unfold mod_body. pose proof P as (Lk & _). apply sat_bind, sat_bind, sat_body; [now apply (links_body _ _ _ Lk)|]. intros x Hx. cbn [sat].
      set (w1 := put_body i _ w). assert (P1 : phys w1) by (eapply phys_body; eauto; exact (bok_of w i x P Hx)). assert (C1 : forall c, cnt w1 c = ctr c) by exact Cn. clearbody w1. pose proof P1 as (Lk1 & _).
      apply sat_bind, sat_body; [now apply (links_body _ _ _ Lk1)|]. intros y Hy. destruct (negb (is_dynamic y)); [cbn; auto|].
      apply sat_bind. eapply sat_mono; [apply sat_okp; [apply (sat_sync_fixtures p oks w0); auto; [apply (W_shapes _ _ _ W0)|apply GI]|apply keep_sync_fixtures]|]. intros w2 [P2 [K2 _]].
      assert (C2 : forall c, cnt w2 c = ctr c) by (intros c; now rewrite K2). apply sat_each with (I := fun v => phys v /\ forall c, cnt v c = ctr c); auto.
      intros e v He [Pv Cv]. eapply sat_mono; [apply sat_okp; [apply t_contact; auto|apply keep_contact; reflexivity]|].
      - destruct e as [c s o]. pose proof C0 as (_ & (_ & E2 & _) & _). assert (In (GEdge c s o) (contacts_of (graph_of w0) i)) as K. { unfold contacts_of. pose proof Lk1 as (_ & _ & B & _). specialize (B i). rewrite Hy in B. cbn in B |- *. rewrite <- B. exact He. }
        apply E2 in K. destruct K as [K _]. unfold cbody in K. cbn in K |- *. now destruct (w_contacts w0 c).
      - intros v' [P' [K' _]]. split; auto. intros k. now rewrite K'.
    Qed.
  End Event.

  (* what an impact does to the counters *)
  Record ticked (mc : nat) w w' : Prop := {
    tk_old : forall c, w_contacts w c <> None -> cnt w' c = if Nat.eqb c mc then option_map (Z.add 1) (cnt w c) else cnt w c }.
  Lemma sat_event mc al dt w0 : W w0 -> classes_ok p w0 -> w_contacts w0 mc <> None -> below al -> p \/ (w_body_count w0 <= 64)%nat ->
    sat p (toi_event E mc al dt w0) (fun q => W (fst q) /\ still w0 (fst q) /\ admitted E w0 (fst q) /\ ticked mc w0 (fst q)).
  Proof.
    intros W0 CO Lmc Bal Cap. pose proof (phys_self _ _ _ W0) as P0. pose proof (W_graph _ _ _ W0) as GI. pose proof (W_contacts _ _ _ W0) as C0.
    unfold toi_event. apply sat_bind, sat_contact; auto. intros c Hc. destruct (contact_parts w0 mc c C0 Hc) as (fa & fb & a & b & ba & bb & Hfa & Hfb & Oa & Ob & Ne & Ha & Hb & _).
    unfold fixture_body, get_fixture at 1 2. rewrite Hfa, Hfb. cbn [unwrap bind]. rewrite Oa, Ob. cbn [unwrap bind]. unfold get_body at 1 2. rewrite Ha, Hb. cbn [unwrap bind].
    assert (La : w_bodies w0 a <> None) by congruence. assert (Lb : w_bodies w0 b <> None) by congruence.
    pose proof (bok_of w0 w0 a ba P0 Ha) as Ba. pose proof (bok_of w0 w0 b bb P0 Hb) as Bb. cbv zeta.
    apply sat_bind. eapply sat_mono; [apply sat_body_advance, Ba|]. intros ba' (Va & Aa & Fa & Ixa). set (w1 := put_body a ba' w0).
    assert (P1 : phys p oks w0 w1) by (eapply phys_body; eauto; unfold WorldLogic.bok; rewrite Aa; exact Bal). assert (K1 : keep w0 w1) by (eapply keep_put_body; eauto; congruence). clearbody w1. pose proof P1 as (L1 & _).
    apply sat_bind, sat_body; [now apply (links_body _ _ _ L1)|]. intros bb1 Hb1. pose proof (bok_of w0 w1 b bb1 P1 Hb1) as Bb1.
    apply sat_bind. eapply sat_mono; [apply sat_body_advance, Bb1|]. intros bb' (Vb & Ab & Fb & Ixb). set (w2 := put_body b bb' w1).
    assert (P2 : phys p oks w0 w2) by (eapply phys_body; eauto; unfold WorldLogic.bok; rewrite Ab; exact Bal). assert (K2 : keep w0 w2) by (eapply keep_trans; [exact K1|]; eapply keep_put_body; eauto; congruence). clearbody w2.
    apply sat_bind. eapply sat_mono; [apply sat_okp; [apply (sat_update p oks E EO w0 C0); auto|apply keep_update]|]. intros w3 [P3 K3']. cbv beta in P3. assert (K3 : keep w0 w3) by (eapply keep_trans; eauto). clear K3'. pose proof P3 as (L3 & _).
    apply sat_bind. unfold mod_contact at 1. apply sat_bind, sat_contact; [now apply (links_contact _ _ _ L3)|]. intros c3 Hc3. cbn [sat]. pose proof (cok_of w0 w3 mc c3 P3 Hc3) as Cc3.
    set (w4 := put_contact mc _ w3). assert (P4 : phys p oks w0 w4). { eapply phys_contact; eauto. destruct Cc3 as [M N]. split; [exact M|]. cbn. lia. }
    assert (T4 : forall k, w_contacts w0 k <> None -> cnt w4 k = if Nat.eqb k mc then option_map (Z.add 1) (cnt w0 k) else cnt w0 k).
    { intros k _. destruct K3 as [K3 _]. rewrite <- K3. unfold cnt, w4. cbn. unfold put. destruct (Nat.eqb_spec k mc) as [->|]; auto. rewrite Hc3. change (Some (c_toi_count c3 + 1)%Z = Some (1 + c_toi_count c3)%Z). f_equal. lia. }
    assert (Mk4 : forall i, mrk w4 i = mrk w0 i) by (intros i; destruct K3 as [_ K3]; rewrite <- K3; reflexivity).
    clearbody w4. pose proof P4 as (L4 & _). apply sat_bind, sat_contact; [now apply (links_contact _ _ _ L4)|]. intros c4 Hc4.
    set (ctr := cnt w4) in *. set (I := fun w => phys p oks w0 w /\ forall k, cnt w k = ctr k). assert (I4 : I w4) by (split; auto).
    assert (Ib : forall w i f, I w -> w_bodies w0 i <> None -> (forall x, bok x -> view_b (f x) = view_b x /\ bok (f x)) -> sat p (mod_body i f w) I).
    { intros w i f [P Cn] L Hf. unfold mod_body. pose proof P as (Lk & _). apply sat_bind, sat_body; [now apply (links_body _ _ _ Lk)|]. intros x Hx. cbn [sat]. split; [|exact Cn]. destruct (Hf x (bok_of w0 w i x P Hx)). eapply phys_body; eauto. }
    assert (Ic : forall w i f, I w -> w_contacts w0 i <> None -> (forall x, cok x -> view_cf (f x) = view_cf x /\ cok (f x) /\ cf_touching (c_flags (f x)) = cf_touching (c_flags x)) -> (forall x, c_toi_count (f x) = c_toi_count x) -> sat p (mod_contact i f w) I).
    { intros w i f [P Cn] L Hf Hk. eapply sat_mono; [apply sat_okp; [eapply t_contact; eauto|apply keep_contact; auto]|]. intros w' [P' [K' _]]. split; auto. intros k. now rewrite K'. }
    assert (Fin : forall w, I w -> W w /\ still w0 w /\ admitted E w0 w /\ ticked mc w0 w).
    { intros w [P Cn]. refine (conj (W_phys _ _ _ _ W0 P) (conj (still_links _ _ (proj1 P)) (conj (admitted_links E _ _ (proj1 P)) _))). split. intros k Hk. rewrite Cn. now apply T4. }
    destruct (negb (cf_enabled (c_flags c4)) || negb (cf_touching (c_flags c4))).
    - apply sat_bind. eapply sat_mono; [apply Ic; auto|]. intros w5 I5. apply sat_bind. eapply sat_mono; [apply Ib; auto|]. intros w6 I6. apply sat_bind. eapply sat_mono; [apply Ib; auto|].
      intros w7 I7. apply sat_bind. eapply sat_mono; [apply Ib; auto|]. intros w8 I8. apply sat_bind. eapply sat_mono; [apply Ib; auto|]. intros w9 I9. cbn [sat fst]. now apply Fin.
    - apply sat_bind. eapply sat_mono; [apply Ib; auto; intros x Bx; split; [apply view_awake|now apply bok_awake]|]. intros w5 I5. apply sat_bind. eapply sat_mono; [apply Ib; auto; intros x Bx; split; [apply view_awake|now apply bok_awake]|]. intros w6 I6. clear w5 I5.
      destruct I6 as [P6 C6]. pose proof P6 as (L6 & _). apply sat_bind, sat_body; [now apply (links_body _ _ _ L6)|]. intros ya Hya. unfold add_body at 1. cbn [is_bodies length app is_contacts is_joints].
      set (w7 := put_body a _ w6). assert (P7 : phys p oks w0 w7) by (eapply phys_body; eauto; exact (bok_of w0 w6 a ya P6 Hya)). assert (C7 : forall k, cnt w7 k = ctr k) by exact C6.
      assert (M7 : exists f, mrk w7 a = Some (f, 0%Z)). { unfold mrk, w7. cbn. rewrite put_eq. cbn. eauto. } clearbody w7. pose proof P7 as (L7 & _).
      apply sat_bind, sat_body; [now apply (links_body _ _ _ L7)|]. intros yb Hyb. unfold add_body at 1. cbn [is_bodies length app is_contacts is_joints].
      set (w8 := put_body b _ w7). assert (P8 : phys p oks w0 w8) by (eapply phys_body; eauto; exact (bok_of w0 w7 b yb P7 Hyb)). assert (C8 : forall k, cnt w8 k = ctr k) by exact C7.
      assert (M8 : (exists f, mrk w8 a = Some (f, 0%Z)) /\ exists f, mrk w8 b = Some (f, 1%Z)). { unfold mrk, w8 in *. cbn. rewrite put_eq, put_ne by auto. cbn. eauto. } clearbody w8. pose proof P8 as (L8 & _).
      assert (MF : forall w i f j, mrk w i = Some (f, j) -> phys p oks w0 w -> (forall k, cnt w k = ctr k) -> sat p (mod_body i (mod_flags (set_fl_island true)) w) (fun w' => phys p oks w0 w' /\ (forall k, cnt w' k = ctr k) /\ mrk w' i = Some (true, j) /\ forall k, k <> i -> mrk w' k = mrk w k)).
      { intros w i f j Hm P Cn. unfold mod_body, get_body. unfold mrk in Hm. destruct (w_bodies w i) as [x|] eqn:Hx; [|easy]. cbn [unwrap bind sat]. refine (conj _ (conj Cn (conj _ _))).
        - eapply phys_body; eauto. exact (bok_of w0 w i x P Hx).
        - unfold mrk. cbn. rewrite put_eq. cbn in *. destruct x as [? []]. cbn in *. congruence.
        - intros k Hk. unfold mrk. cbn. now rewrite put_ne. }
      destruct M8 as [(f8 & Ma8) (f8' & Mb8)]. apply sat_bind. eapply sat_mono; [eapply MF; eauto|]. intros w9 (P9 & C9 & Ma9 & Mo9). rewrite <- (Mo9 b) in Mb8 by auto.
      apply sat_bind. eapply sat_mono; [eapply MF; eauto|]. intros wA (PA & CA & MbA & MoA). rewrite <- (MoA a) in Ma9 by auto.
      apply sat_bind. eapply sat_mono; [apply sat_okp; [eapply t_contact; eauto|apply keep_contact; reflexivity]|]. intros wB [PB KB].
      assert (HB : J w0 a b ctr wB (Island [a; b] [mc] [])).
      { destruct KB as [KB1 KB2]. split; cbn [is_bodies is_contacts is_joints].
        - exact PB.
        - intros k. now rewrite KB1.
        - intros k [<-|[<-|[]]]; auto.
        - intros k [<-|[]]; auto.
        - intros k [<-|[<-|[]]]; rewrite flag_mrk, KB2, ?Ma9, ?MbA; reflexivity.
        - repeat constructor; cbn; intuition.
        - exists []. reflexivity.
        - rewrite !KB2. auto. }
      apply sat_bind. eapply sat_mono; [apply (sat_grow w0 W0 a b ctr a al wB _ HB La Bal)|]. intros [wC isC] HC. cbn [fst snd] in HC. apply sat_bind. eapply sat_mono; [apply (sat_grow w0 W0 a b ctr b al wC _ HC Lb Bal)|]. intros [wD isD] HD. cbn [fst snd] in HD.
      pose proof (J_phys _ _ _ _ _ _ HD) as PD. pose proof PD as (LD & _). pose proof (J_index _ _ _ _ _ _ HD) as [IxA IxB].
      apply sat_bind, sat_body; [now apply (links_body _ _ _ LD)|]. intros za Hza. apply sat_bind, sat_body; [now apply (links_body _ _ _ LD)|]. intros zb Hzb. unfold mrk in IxA, IxB. rewrite Hza in IxA. rewrite Hzb in IxB. cbn in IxA, IxB.
      apply sat_bind. eapply sat_mono; [apply (sat_solve_toi_island w0 W0 a b ctr Ne wD isD); auto; try congruence|].
      { destruct Cap as [Hp|Cap]; [now left|right]. etransitivity; [|exact Cap]. destruct GI as ((_ & A2 & A1 & _) & _). cbn in A1, A2. replace (w_body_count w0) with (length (w_body_list w0)) by lia. apply NoDup_incl_length; [apply (J_nodup _ _ _ _ _ _ HD)|].
        intros i Hi. apply A2. pose proof (J_live _ _ _ _ _ _ HD i Hi). now destruct (w_bodies w0 i). }
      intros wE [PE CE]. apply sat_bind. eapply sat_mono; [apply sat_each with (I := I)|].
      { intros i v Hi [Pv Cv]. apply (sat_release w0 W0 ctr); auto. exact (J_live _ _ _ _ _ _ HD i Hi). }
      { split; auto. }
      intros wF IF. destruct (Fin wF IF) as (WF & SF & AF & TF). apply sat_bind. eapply sat_mono; [apply (sat_find p oks E wF WF); eapply still_classes; eauto|]. intros wG (WG & GG & AG). cbn [sat fst]. refine (conj WG (conj (still_trans _ _ _ SF (still_grow _ _ GG)) (conj (admitted_trans E _ _ _ (alike_still _ _ SF) AF AG) _))).
      split. intros k Hk. rewrite <- (tk_old _ _ _ TF k Hk). unfold cnt. destruct GG as (_ & _ & _ & _ & _ & Old & _). rewrite Old; auto. assert (w_contacts wF k <> None) as Lk. { destruct IF as [PF _]. apply (links_contact _ _ _ (proj1 PF)); auto. }
      destruct (W_contacts _ _ _ WF) as ((_ & _ & _ & Fr) & _). cbn in Fr. destruct (Nat.lt_ge_cases k (w_next_contact wF)) as [|Q]; auto. exfalso. apply Lk. apply Fr in Q. now destruct (w_contacts wF k).
  Qed.

  (** ** the loop *)
  Lemma same_live {A B} (t : nat -> option A) (t' : nat -> option B) nx nx' l l' n n' : table_ok t nx l n -> table_ok t' nx' l' n' -> (forall i, t i <> None <-> t' i <> None) -> n = n'.
  Proof.
    intros (N & I & -> & _) (N' & I' & -> & _) H. apply Nat.le_antisymm; apply NoDup_incl_length; auto; intros i Hi; [apply I', H, I|apply I, H, I']; auto.
  Qed.
  Lemma proxies_same b b' vf vf' : fits oks b vf -> fits oks b' vf' -> (forall f, vf f = vf' f) -> bp_proxies b = bp_proxies b'.
  Proof.
    intros (_ & m & pw & k & B & M1 & M2) (_ & m' & pw' & k' & B' & M1' & M2') H.
    destruct (count_any _ _ _ _ _ B) as (-> & ls & N & L & <-). destruct (count_any _ _ _ _ _ B') as (-> & ls' & N' & L' & <-). f_equal.
    assert (Q : forall j, live m j -> live m' j). { intros j Hj. unfold live in *. destruct (m j) as [[[box u] fl]|] eqn:Em; [|easy]. destruct (M2 _ _ _ _ Em) as (f & k & -> & Sl). rewrite (slot_ext vf vf' H) in Sl. destruct (M1' _ _ _ Sl) as (? & ? & ->). easy. }
    assert (Q' : forall j, live m' j -> live m j). { intros j Hj. unfold live in *. destruct (m' j) as [[[box u] fl]|] eqn:Em; [|easy]. destruct (M2' _ _ _ _ Em) as (f & k & -> & Sl). rewrite <- (slot_ext vf vf' H) in Sl. destruct (M1 _ _ _ Sl) as (? & ? & ->). easy. }
    apply Nat.le_antisymm; apply NoDup_incl_length; auto; intros j Hj; [apply L', Q, L|apply L, Q', L']; auto.
  Qed.
  Definition pairs_of w : nat := let k := Z.to_nat (bp_proxies (w_bp w)) in (k * k)%nat.
  Lemma contacts_bound w : W w -> (length (w_contact_list w) <= pairs_of w)%nat.
  Proof.
    intros H. destruct (W_fits _ _ _ H) as (PO & m & pw & k & B & M1 & M2). destruct (count_any _ _ _ _ _ B) as (Ek & ls & N & L & Lk). unfold pairs_of. rewrite Ek, <- Lk, Nat2Z.id.
    set (g := graph_of w) in *. set (sid := fun f i => match slot (g_f g) f i with Some id => id | None => 0%nat end).
    set (key := fun c => match w_contacts w c with Some x => (sid (c_fa x) (c_ia x), sid (c_fb x) (c_ib x)) | None => (0, 0)%nat end).
    destruct (W_contacts _ _ _ H) as ((Nc & Ic & _) & _ & _ & Un). cbn in Nc, Ic.
    assert (Key : forall c x, w_contacts w c = Some x -> exists i j, slot (g_f g) (c_fa x) (c_ia x) = Some i /\ slot (g_f g) (c_fb x) (c_ib x) = Some j /\ key c = (i, j)).
    { intros c x Hx. destruct (contact_slots p oks w c x H Hx) as (i & j & A & A' & _). exists i, j. refine (conj A (conj A' _)). unfold key, sid. rewrite Hx. unfold g. now rewrite A, A'. }
    assert (Inj : forall id f k f' k', slot (g_f g) f k = Some id -> slot (g_f g) f' k' = Some id -> f = f' /\ k = k').
    { intros id f n f' n' A A'. destruct (M1 _ _ _ A) as (bx & fl & E1). destruct (M1 _ _ _ A') as (bx' & fl' & E2). rewrite E1 in E2. injection E2. auto. }
    rewrite <- (map_length key). rewrite <- prod_length. apply NoDup_incl_length.
    - clear - Nc Ic Key Inj Un. assert (forall l, incl l (w_contact_list w) -> NoDup l -> NoDup (map key l)) as Q; [|apply Q; auto; apply incl_refl].
      induction l as [|c l IH]; intros I N; cbn; constructor.
      + intros K. apply in_map_iff in K. destruct K as (c' & Ek & Hc'). assert (In c (w_contact_list w)) as K1 by (apply I; now left). assert (In c' (w_contact_list w)) as K2 by (apply I; now right). apply Ic in K1, K2. cbn in K1, K2.
        destruct (w_contacts w c) as [x|] eqn:Ex; [|easy]. destruct (w_contacts w c') as [y|] eqn:Ey; [|easy]. destruct (Key c x Ex) as (i & j & A & A' & Q). destruct (Key c' y Ey) as (i' & j' & B & B' & Q'). assert (i' = i /\ j' = j) as [-> ->] by (split; congruence).
        destruct (Inj _ _ _ _ _ A B) as [F1 F2]. destruct (Inj _ _ _ _ _ A' B') as [F3 F4]. assert (c = c'); [|subst; now inversion N]. apply (Un c c' (view_c x) (view_c y)); cbn; rewrite ?Ex, ?Ey; auto. left. unfold view_c. congruence.
      + apply IH; [intros y Hy; apply I; now right|now inversion N].
    - intros q Hq. apply in_map_iff in Hq. destruct Hq as (c & <- & Hc). apply Ic in Hc. cbn in Hc. destruct (w_contacts w c) as [x|] eqn:Ex; [|easy]. destruct (Key c x Ex) as (i & j & A & A' & ->).
      apply in_prod; apply L; unfold live; [destruct (M1 _ _ _ A) as (? & ? & ->)|destruct (M1 _ _ _ A') as (? & ? & ->)]; easy.
  Qed.
  Definition weight w c : nat := match cnt w c with Some n => Z.to_nat (9 - Z.max 0 n) | None => 0%nat end.
  Definition mu w : nat := (9 * (pairs_of w - length (w_contact_list w)) + total (weight w) (w_contact_list w))%nat.
  Lemma weight_le w c : (weight w c <= 9)%nat.
  Proof. unfold weight. destruct (cnt w c); lia. Qed.
  Lemma mu_bound w : W w -> (mu w <= 9 * pairs_of w)%nat.
  Proof. intros H. pose proof (contacts_bound w H) as K. pose proof (total_le (weight w) 9 (w_contact_list w) (weight_le w)). unfold mu. lia. Qed.
  Lemma mu_tick mc w w' n : W w -> W w' -> still w w' -> ticked mc w w' -> cnt w mc = Some n -> (n <= 8)%Z -> (mu w' < mu w)%nat.
  Proof.
    intros H H' S K Hn Ln. assert (Ep : pairs_of w' = pairs_of w). { unfold pairs_of. rewrite (proxies_same (w_bp w') (w_bp w) _ _ (W_fits _ _ _ H') (W_fits _ _ _ H)); auto. intros f. now apply still_f. }
    destruct (W_contacts _ _ _ H) as ((N & I & _) & _). destruct (W_contacts _ _ _ H') as ((N' & I' & _) & _). cbn in N, I, N', I'.
    assert (Lv : forall c, w_contacts w c <> None -> w_contacts w' c <> None). { intros c Hc. pose proof (tk_old _ _ _ K c Hc) as Q. unfold cnt in Q. destruct (w_contacts w' c); [easy|]. destruct (Nat.eqb c mc), (w_contacts w c); cbn in Q; easy. }
    assert (Inc : incl (w_contact_list w) (w_contact_list w')). { intros c Hc. apply I'. apply I in Hc. specialize (Lv c). destruct (w_contacts w c), (w_contacts w' c); cbn in *; try easy. exfalso. now apply Lv. }
    destruct (total_grow (weight w') 9 _ _ (weight_le w') N Inc) as [Len Tot].
    assert (Lmc : w_contacts w mc <> None) by (unfold cnt in Hn; now destruct (w_contacts w mc)).
    assert (total (weight w') (w_contact_list w) < total (weight w) (w_contact_list w))%nat as Lt.
    { rewrite (total_ext (weight w') (fun c => if Nat.eqb c mc then Z.to_nat (9 - Z.max 0 (1 + n)) else weight w c)).
      - apply (total_step _ _ _ mc); auto.
        + apply I. now destruct (w_contacts w mc).
        + intros y Hy. now rewrite (proj2 (Nat.eqb_neq y mc)).
        + rewrite Nat.eqb_refl. unfold weight. rewrite Hn. destruct (w_contacts w mc) as [x|] eqn:Ex; [|easy]. pose proof (W_nums _ _ _ H) as (_ & Q). destruct (Q mc x Ex) as (_ & Q'). unfold cnt in Hn. rewrite Ex in Hn. cbn in Hn. injection Hn as <-. lia.
      - intros c Hc. apply I in Hc. assert (w_contacts w c <> None) as Lc by (now destruct (w_contacts w c)). pose proof (tk_old _ _ _ K c Lc) as Q. unfold weight at 1. rewrite Q. destruct (Nat.eqb_spec c mc) as [->|]; [|reflexivity]. now rewrite Hn. }
    unfold mu. rewrite Ep. pose proof (contacts_bound w' H') as B'. rewrite Ep in B'. lia.
  Qed.
  Definition toi_done w w' : Prop := exists v f, still w v /\ admitted E w v /\ w' = set_w_step_complete f v.
  Lemma W_complete f w : W w -> W (set_w_step_complete f w).
  Proof. intros []. split; auto. Qed.
  Lemma cap_still w w' : W w -> W w' -> still w w' -> p \/ (w_body_count w <= 64)%nat -> p \/ (w_body_count w' <= 64)%nat.
  Proof.
    intros H H' S [Q|Q]; [now left|right]. replace (w_body_count w') with (w_body_count w); auto. destruct (W_graph _ _ _ H) as (A & _). destruct (W_graph _ _ _ H') as (A' & _).
    eapply same_live; [exact A|exact A'|]. intros i. destruct S as (_ & _ & Kd & _). specialize (Kd i). destruct (g_b (graph_of w) i), (g_b (graph_of w') i); cbn in Kd; split; congruence.
  Qed.
  Lemma sat_toi_loop dt : forall fuel w, W w -> classes_ok p w -> p \/ (w_body_count w <= 64)%nat -> (mu w < fuel)%nat -> sat p (toi_loop E fuel dt w) (fun w' => W w' /\ toi_done w w').
  Proof.
    induction fuel as [|fuel IH]; intros w H CO Cap L; [lia|]. cbn [toi_loop]. apply sat_bind. eapply sat_mono; [apply sat_each with (I := scanned w)|].
    { intros i st Hi Hs. apply sat_scan1; auto. destruct (W_contacts _ _ _ H) as ((_ & I & _) & _). cbn in I. apply I in Hi. now destruct (w_contacts w i). }
    { refine (conj (phys_self _ _ _ H) (conj (fun _ => eq_refl) eq_refl)). }
    intros [[w1 best] al] (P1 & C1 & B1). pose proof (W_phys _ _ _ _ H P1) as H1. pose proof (still_links _ _ (proj1 P1)) as S1. pose proof (admitted_links E _ _ (proj1 P1)) as A1.
    destruct best as [mc|]; [|cbn [sat]; split; [now apply W_complete|exists w1, true; auto]]. destruct (_ <? al); [cbn [sat]; split; [now apply W_complete|exists w1, true; auto]|].
    destruct B1 as (Bal & n & Hn & Ln). assert (Lmc : w_contacts w1 mc <> None). { rewrite <- C1 in Hn. unfold cnt in Hn. now destruct (w_contacts w1 mc). }
    assert (Cap1 : p \/ (w_body_count w1 <= 64)%nat) by exact (cap_still w w1 H H1 S1 Cap). pose proof (still_classes p _ _ S1 CO) as CO1.
    apply sat_bind. eapply sat_mono; [apply (sat_event mc al dt w1 H1 CO1 Lmc Bal Cap1)|]. intros [w2 sol] (H2 & S2 & A2 & T2). cbn [fst] in H2, S2, A2, T2. pose proof (admitted_trans E _ _ _ (alike_still _ _ S1) A1 A2) as A12.
    pose proof (still_trans _ _ _ S1 S2) as S12. destruct (sol && w_sub_stepping w2); [cbn [sat]; split; [now apply W_complete|exists w2, false; auto]|].
    assert (Mu1 : mu w1 = mu w).
    { unfold mu. assert (El : w_contact_list w1 = w_contact_list w) by (destruct P1 as ((Q & _) & _); unfold tables in Q; congruence). rewrite El. f_equal.
      - f_equal. f_equal. unfold pairs_of. rewrite (proxies_same (w_bp w1) (w_bp w) _ _ (W_fits _ _ _ H1) (W_fits _ _ _ H)); auto. intros f. now apply still_f.
      - apply total_ext. intros c _. unfold weight. now rewrite C1. }
    assert (Mu2 : (mu w2 < mu w1)%nat) by (eapply mu_tick; eauto; now rewrite C1).
    eapply sat_mono; [apply IH; auto|].
    - eapply still_classes; eauto.
    - exact (cap_still w1 w2 H1 H2 S2 Cap1).
    - lia.
    - intros w3 (H3 & v & f & Sv & Av & ->). split; auto. exists v, f. refine (conj _ (conj _ eq_refl)); [eapply still_trans; eauto|]. exact (admitted_trans E _ _ _ (alike_still _ _ S12) A12 Av).
  Qed.
  Lemma sat_toi_reset w : W w -> sat p (toi_reset w) (phys p oks w).
  Proof.
    intros H. destruct (W_graph _ _ _ H) as ((_ & Ib & _) & _ & ((_ & Ic & _) & _) & _). cbn in Ib, Ic. unfold toi_reset. apply sat_bind. eapply sat_mono; [apply sat_each with (I := phys p oks w)|].
    { intros i v Hi Pv. apply Ib in Hi. apply (t_body w); [exact Pv|now destruct (w_bodies w i)|]. intros b Bb. split; [reflexivity|]. unfold WorldLogic.bok. cbn. exact Z01. }
    { now apply phys_self. }
    intros w1 P1. cbv beta in P1. assert (El : w_contact_list w1 = w_contact_list w) by (destruct P1 as ((Q & _) & _); unfold tables in Q; congruence). rewrite El.
    apply sat_each with (I := phys p oks w); auto. intros i v Hi Pv. apply Ic in Hi. apply (t_contact w); [exact Pv|now destruct (w_contacts w i)|]. intros c [M N]. refine (conj eq_refl (conj _ eq_refl)). split; [exact M|]. cbn. lia.
  Qed.
  Lemma sat_solve_toi dt w : W w -> classes_ok p w -> p \/ (w_body_count w <= 64)%nat -> sat p (solve_toi E dt w) (fun w' => W w' /\ toi_done w w').
  Proof.
    intros H CO Cap. unfold solve_toi. apply sat_bind. apply (sat_mono _ (phys p oks w)); [destruct (w_step_complete w); [now apply sat_toi_reset|now apply phys_self]|].
    intros w1 P1. pose proof (W_phys _ _ _ _ H P1) as H1. pose proof (still_links _ _ (proj1 P1)) as S1. pose proof (admitted_links E _ _ (proj1 P1)) as A1. eapply sat_mono; [apply sat_toi_loop; auto|].
    - eapply still_classes; eauto.
    - exact (cap_still w w1 H H1 S1 Cap).
    - unfold toi_fuel. cbv zeta. pose proof (mu_bound w1 H1) as Q. unfold pairs_of in Q. cbv zeta in Q. lia.
    - intros w3 (H3 & v & f & Sv & Av & ->). split; auto. exists v, f. refine (conj _ (conj _ eq_refl)); [eapply still_trans; eauto|]. exact (admitted_trans E _ _ _ (alike_still _ _ S1) A1 Av).
  Qed.

  Lemma W_frame0 w w' : W w -> w_bodies w' = w_bodies w -> w_fixtures w' = w_fixtures w -> w_contacts w' = w_contacts w -> w_joints w' = w_joints w -> tables w' = tables w -> w_listener w' = w_listener w -> w_log w' = w_log w -> w_bp w' = w_bp w -> W w'.
  Proof.
    intros H. destruct w, w'. cbn. intros -> -> -> -> Q -> -> ->. unfold tables in Q. cbn in Q. injection Q as -> -> -> -> -> -> -> -> -> ->. destruct H. split; auto.
  Qed.
End Toi.
