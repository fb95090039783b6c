(** The proxies of fixtures. *)
From Coq Require Import List ZArith Bool Arith Lia.
From Verif Require Import Base Num Math Collision Manifold Filter ShapeModel ListFacts ManifoldProofs TreeModel TreeSpec TreeHist BroadModel BroadSpec BroadProofs BroadFinal DynModel WorldModel WorldGraph WorldGops WorldLogic WorldPhys WorldContact WorldInv WorldOps.
Import ListNotations.

Section Broad.
  Context {T : Type} `{NT : Num T}.
  Variable oks : vec2 T -> Prop.
  Implicit Types s : nat -> nat -> option nat.

  (* the broad phase holds exactly the proxies of [s] *)
  Definition bmap (b : broad T (nat * nat)) s : Prop := exists m pw k, breach oks b m pw k /\ pm_ok m s.
  Lemma bmap_ext b s s' : (forall f k, s f k = s' f k) -> bmap b s -> bmap b s'.
  Proof. intros H (m & pw & k & B & P). exists m, pw, k. split; auto. eapply pm_ok_ext; eauto. Qed.
  Definition sput s (f k : nat) (o : option nat) : nat -> nat -> option nat := fun f' k' => if Nat.eqb f' f && Nat.eqb k' k then o else s f' k'.
  Lemma bmap_create b s f k box : bmap b s -> s f k = None -> exists b' id, bp_create b box (f, k) = Ok (b', id) /\ bmap b' (sput s f k (Some id)).
  Proof.
    intros (m & pw & n & B & P1 & P2) H. destruct (calls_any oks b m pw n B) as (Hc & _). destruct (Hc box (f, k)) as (b' & id & Eb & Em). exists b', id. split; auto.
    eexists _, _, _. split; [eapply breach_create; eauto|]. unfold sput, pset. split.
    - intros f' k' id'. destruct (Nat.eqb_spec f' f) as [->|]; [destruct (Nat.eqb_spec k' k) as [->|]|]; cbn [andb].
      + intros Q. injection Q as <-. rewrite Nat.eqb_refl. eauto.
      + intros Q. destruct (P1 _ _ _ Q) as (x & fl & E). destruct (Nat.eqb_spec id' id) as [->|]; [congruence|eauto].
      + intros Q. destruct (P1 _ _ _ Q) as (x & fl & E). destruct (Nat.eqb_spec id' id) as [->|]; [congruence|eauto].
    - intros id' x u fl. destruct (Nat.eqb_spec id' id) as [->|].
      + intros Q. injection Q as <- <- <-. exists f, k. now rewrite !Nat.eqb_refl.
      + intros Q. destruct (P2 _ _ _ _ Q) as (f' & k' & -> & K). exists f', k'. split; auto. destruct (Nat.eqb_spec f' f) as [->|]; auto. destruct (Nat.eqb_spec k' k) as [->|]; auto. congruence.
  Qed.
  Lemma bmap_destroy b s f k id : bmap b s -> s f k = Some id -> exists b', bp_destroy b id = Ok b' /\ bmap b' (sput s f k None).
  Proof.
    intros (m & pw & n & B & P1 & P2) H. destruct (calls_any oks b m pw n B) as (_ & Hc & _). destruct (P1 _ _ _ H) as (fb & fl & Em). assert (Hl : live m id) by (unfold live; congruence).
    destruct (Hc id Hl) as (b' & Eb). exists b'. split; auto. eexists _, _, _. split; [eapply breach_destroy; eauto|]. unfold sput, pset. split.
    - intros f' k' id' Q. assert (Ne : (f', k') <> (f, k)). { intros X. injection X as -> ->. rewrite !Nat.eqb_refl in Q. easy. }
      assert (Q' : s f' k' = Some id'). { destruct (Nat.eqb_spec f' f) as [->|]; auto. destruct (Nat.eqb_spec k' k) as [->|]; auto. easy. }
      destruct (P1 _ _ _ Q') as (x & fx & E). destruct (Nat.eqb_spec id' id) as [->|]; [|eauto]. congruence.
    - intros id' x u fx. destruct (Nat.eqb_spec id' id) as [->|]; [easy|]. intros Q. destruct (P2 _ _ _ _ Q) as (f' & k' & -> & K). exists f', k'. split; auto.
      destruct (Nat.eqb_spec f' f) as [->|]; auto. destruct (Nat.eqb_spec k' k) as [->|]; auto. congruence.
  Qed.
End Broad.

Lemma nth_upd {A} (l : list A) i x k : i < length l -> nth_error (upd l i x) k = if Nat.eqb k i then Some x else nth_error l k.
Proof. revert i k. induction l as [|y l IH]; intros [|i] [|k] H; cbn in *; try lia; auto. rewrite IH by lia. reflexivity. Qed.
Lemma upd_len {A} (l : list A) i x : length (upd l i x) = length l.
Proof. revert i. induction l as [|y l IH]; intros [|i]; cbn; auto. Qed.

Section Fix.
  Context {T : Type} `{NT : Num T} `{TT : NumTrig T} `{VT : NumValid T}.
  Notation world := (world T).
  Local Open Scope num_scope.
  Implicit Types w : world.
  Variable p : Prop.
  Variable oks : vec2 T -> Prop.
  Notation bfits := (bfits oks).

  (* the fixture [x] with other proxies *)
  Definition refit (x : fixture T) (ps : list (fproxy T)) (n : nat) : fixture T := set_f_proxies ps (set_f_proxy_count n x).
  Lemma vf_put w f x bp i : g_f (graph_of (put_fixture f x (set_w_bp bp w))) i = put (g_f (graph_of w)) f (Some (view_f x)) i.
  Proof. cbn. unfold put. now destruct (Nat.eqb i f). Qed.

  Lemma sat_create_proxies w f x xf : w_fixtures w f = Some x -> shape_fine p (f_shape x) (length (f_proxies x)) -> p \/ f_proxy_count x = 0 -> bfits w ->
    sat p (create_proxies f xf w) (fun w' => exists ps bp, w' = put_fixture f (refit x ps (length ps)) (set_w_bp bp w) /\ length ps = length (f_proxies x) /\ bfits w' /\ f_proxy_count x = 0).
  Proof.
    intros Hx (Hn & Hs) H0 (PO & BM). fold (bmap oks (w_bp w) (slot (g_f (graph_of w)))) in BM. unfold create_proxies. apply sat_bind, sat_fixture; [congruence|]. intros x' Hx'. replace x' with x by congruence. clear x' Hx'.
    apply sat_bind, sat_assert; [destruct H0 as [|Z0]; [|rewrite Z0]; auto|]. intros H0'. apply Nat.eqb_eq in H0'. clear H0. rewrite Hn. cbn [bind]. set (n := length (f_proxies x)) in *. apply sat_bind.
    set (vf := g_f (graph_of w)) in *. assert (Hf : vf f = Some (view_f x)) by (unfold vf; cbn; now rewrite Hx).
    set (sl := fun (ps : list (fproxy T)) (i f' k' : nat) => if Nat.eqb f' f then (if Nat.ltb k' i then match nth_error ps k' with Some q => fp_id q | None => None end else None) else slot vf f' k').
    apply (sat_mono _ (fun st => length (fst st) = n /\ (forall k, k < n -> exists id, option_map view_p (nth_error (fst st) k) = Some (Some f, k, Some id)) /\ bmap oks (snd st) (sl (fst st) n))).
    - apply (sat_for (fun i st => length (fst st) = n /\ (forall k, k < i -> exists id, option_map view_p (nth_error (fst st) k) = Some (Some f, k, Some id)) /\ bmap oks (snd st) (sl (fst st) i))).
      + refine (conj eq_refl (conj _ _)); [lia|]. eapply bmap_ext; [|exact BM]. intros f' k'. unfold sl. cbn [fst Nat.ltb Nat.leb]. destruct (Nat.eqb_spec f' f) as [->|]; auto. unfold slot. rewrite Hf. cbn [view_f v_count]. now rewrite H0'.
      + intros i [ps bp] Hi (Lp & Hp & BI). cbn [fst snd] in *. apply sat_bind, sat_get; [lia|]. intros pr Hpr. apply sat_bind. eapply sat_mono; [apply Hs; auto|]. intros box _.
        destruct (bmap_create oks bp _ f i box BI) as (bp' & id & -> & BI'). { unfold sl. now rewrite Nat.eqb_refl, Nat.ltb_irrefl. }
        cbn [bind]. apply sat_bind, sat_set; [lia|]. cbn [fst snd sat]. rewrite upd_len. refine (conj Lp (conj _ _)).
        * intros k Hk. rewrite nth_upd by lia. destruct (Nat.eqb_spec k i) as [->|]; [eexists; reflexivity|]. apply Hp. lia.
        * eapply bmap_ext; [|exact BI']. intros f' k'. unfold sput, sl. destruct (Nat.eqb_spec f' f) as [->|]; [|reflexivity]. cbn [andb]. rewrite nth_upd by lia.
          destruct (Nat.eqb_spec k' i) as [->|]; [replace (Nat.ltb i (S i)) with true by (symmetry; apply Nat.ltb_lt; lia); reflexivity|].
          destruct (Nat.ltb_spec k' i); destruct (Nat.ltb_spec k' (S i)); try lia; reflexivity.
    - intros [ps bp] (Lp & Hp & BI). cbn [fst snd] in *. cbn [sat]. exists ps, bp. refine (conj _ (conj Lp (conj _ H0'))); [now rewrite Lp|].
      assert (G : forall i, g_f (graph_of (put_fixture f (set_f_proxies ps (set_f_proxy_count n x)) (set_w_bp bp w))) i = put vf f (Some (FView (f_body x) (f_shape x) n (map view_p ps))) i).
      { intros i. rewrite vf_put. reflexivity. }
      unfold WorldLogic.bfits. eapply fits_ext; [intros i; symmetry; apply G|]. split.
      + intros f' y. unfold put. destruct (Nat.eqb_spec f' f) as [->|]; [|apply PO]. intros Q. injection Q as <-. cbn [v_count v_proxies]. rewrite map_length. split; [now right|]. intros k Hk.
        rewrite nth_error_map. now apply Hp.
      + apply (bmap_ext oks bp (sl ps n)); [|exact BI]. intros f' k'. unfold sl, slot, put. destruct (Nat.eqb_spec f' f) as [->|]; [|reflexivity]. cbn [v_count v_proxies]. rewrite nth_error_map.
        destruct (Nat.ltb k' n); auto. now destruct (nth_error ps k').
  Qed.

  Lemma sat_destroy_proxies w f x : w_fixtures w f = Some x -> bfits w ->
    sat p (destroy_proxies f w) (fun w' => exists ps bp, w' = put_fixture f (refit x ps 0) (set_w_bp bp w) /\ length ps = length (f_proxies x) /\ bfits w').
  Proof.
    intros Hx (PO & BM). fold (bmap oks (w_bp w) (slot (g_f (graph_of w)))) in BM. unfold destroy_proxies. apply sat_bind, sat_fixture; [congruence|]. intros x' Hx'. replace x' with x by congruence. clear x' Hx'.
    apply sat_bind. set (vf := g_f (graph_of w)) in *. assert (Hf : vf f = Some (view_f x)) by (unfold vf; cbn; now rewrite Hx). set (n := f_proxy_count x) in *.
    destruct (PO f _ Hf) as [Hn Hp]. cbn [view_f v_count v_proxies] in Hn, Hp. rewrite map_length in Hn. fold n in Hn, Hp.
    set (sl := fun (i f' k' : nat) => if Nat.eqb f' f && Nat.ltb k' i then None else slot vf f' k').
    apply (sat_mono _ (fun st => length (fst st) = length (f_proxies x) /\ bmap oks (snd st) (sl n))).
    - eapply sat_mono; [apply (sat_for (fun i st => length (fst st) = length (f_proxies x) /\ (forall k, i <= k -> nth_error (fst st) k = nth_error (f_proxies x) k) /\ bmap oks (snd st) (sl i)))|].
      + refine (conj eq_refl (conj _ _)); [auto|]. eapply bmap_ext; [|exact BM]. intros f' k'. unfold sl. cbn [Nat.ltb Nat.leb]. now rewrite andb_false_r.
      + intros i [ps bp] Hi (Lp & Hk & BI). cbn [fst snd] in *. destruct (Hp i Hi) as (id & Hid). rewrite nth_error_map in Hid. apply sat_bind, sat_get; [lia|]. intros pr Hpr.
        rewrite Hk in Hpr by lia. rewrite Hpr in Hid. cbn in Hid. unfold view_p in Hid. injection Hid as Hi1 Hi2 Hi3. rewrite Hi3. cbn [unwrap bind].
        destruct (bmap_destroy oks bp _ f i id BI) as (bp' & -> & BI').
        { unfold sl. rewrite Nat.eqb_refl, Nat.ltb_irrefl. cbn [andb]. unfold slot. rewrite Hf. cbn [view_f v_count v_proxies]. fold n. apply Nat.ltb_lt in Hi. rewrite Hi, nth_error_map, Hpr. cbn. unfold view_p. now rewrite Hi3. }
        cbn [bind]. apply sat_bind, sat_set; [lia|]. cbn [fst snd sat]. rewrite upd_len. refine (conj Lp (conj _ _)).
        * intros k Hik. rewrite nth_upd by lia. destruct (Nat.eqb_spec k i); [lia|]. apply Hk. lia.
        * eapply bmap_ext; [|exact BI']. intros f' k'. unfold sput, sl. destruct (Nat.eqb_spec f' f) as [->|]; [|reflexivity]. cbn [andb].
          destruct (Nat.eqb_spec k' i) as [->|]; [replace (Nat.ltb i (S i)) with true by (symmetry; apply Nat.ltb_lt; lia); reflexivity|].
          destruct (Nat.ltb_spec k' i); destruct (Nat.ltb_spec k' (S i)); try lia; reflexivity.
      + cbn. tauto.
    - intros [ps bp] (Lp & BI). cbn [fst snd] in *. cbn [sat]. exists ps, bp. refine (conj eq_refl (conj Lp _)).
      unfold WorldLogic.bfits. eapply fits_ext; [intros i; symmetry; apply vf_put|]. fold vf. split.
      + intros f' y. unfold put. destruct (Nat.eqb_spec f' f) as [->|]; [|apply PO]. intros Q. injection Q as <-. cbn. split; [now left|]. lia.
      + apply (bmap_ext oks bp (sl n)); [|exact BI]. intros f' k'. unfold sl, slot, put. destruct (Nat.eqb_spec f' f) as [->|]; [|reflexivity]. cbn [andb]. change (v_count (view_f (refit x ps 0))) with 0.
        change (Nat.ltb k' 0) with false. rewrite Hf. cbn [view_f v_count]. fold n. destruct (Nat.ltb k' n); reflexivity.
  Qed.

  Lemma sat_touch w0 w f : phys p oks w0 w -> w_fixtures w0 f <> None -> sat p (touch_proxies f w) (phys p oks w0).
  Proof.
    intros P Hi. assert (Li : w_fixtures w f <> None) by (apply (links_fixture w0); auto; apply P). unfold touch_proxies. apply sat_bind, sat_fixture; auto. intros x Hx. apply sat_bind.
    pose proof P as (L & N & V & F). assert (Hg : g_f (graph_of w) f = Some (view_f x)) by (cbn; now rewrite Hx). destruct (proj1 F f _ Hg) as [Hc Hp]. cbn in Hc, Hp. rewrite map_length in Hc.
    eapply sat_mono; [apply (sat_for (fun _ bp => fits oks bp (g_f (graph_of w))))|]; [exact F| |].
    - intros i bp Hk Hbp. destruct (Hp i Hk) as (id & Hid). rewrite nth_error_map in Hid. apply sat_bind, sat_get; [lia|]. intros pr Hpr. rewrite Hpr in Hid. cbn in Hid. unfold view_p in Hid. injection Hid as _ _ Hid. rewrite Hid. cbn [unwrap bind].
      assert (Hsl : slot (g_f (graph_of w)) f i = Some id). { unfold slot. rewrite Hg. unfold view_f. cbn [v_count v_proxies]. apply Nat.ltb_lt in Hk. rewrite Hk, nth_error_map, Hpr. cbn. unfold view_p. now rewrite Hid. }
      destruct (fits_touch oks bp _ f i id Hbp Hsl) as (bp' & -> & Hbp'). exact Hbp'.
    - intros bp Hbp. cbn [sat]. exact (conj L (conj N (conj V Hbp))).
  Qed.
End Fix.
