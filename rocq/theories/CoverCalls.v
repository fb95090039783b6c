(** The boxes of the broad phase under the calls of a world, except its step. *)
From Coq Require Import List ZArith Bool Arith Lia Reals Lra.
From Verif Require Import Base Num NumLaws RTac Math Collision Manifold Filter ShapeModel ListFacts ManifoldProofs TreeModel TreeSpec TreeHist BroadModel BroadSpec DynModel DynSpec DynProofs WorldModel WorldGraph WorldGops WorldLogic WorldInv WorldFix WorldClaims WorldCalls WorldHist CoverSpec CoverLogic CoverOps.
Import ListNotations.
Implicit Types w : world.

(** ** single bodies *)
Lemma J_body D w i b b' : J D w -> w_bodies w i = Some b -> b_xf b' = b_xf b -> good b' -> J D (put_body i b' w).
Proof.
  intros H Hb Hx Hg. apply (J_moved D D w); auto; [intros f; reflexivity| |].
  - intros j c. cbn. unfold put. destruct (Nat.eqb_spec j i) as [->|]; [intros K; injection K as <-; exact Hg|]. apply (J_bodies _ _ H).
  - intros f x j c _ _. cbn. unfold put. destruct (Nat.eqb_spec j i) as [->|]; [intros K; injection K as <-; right; eauto|]. intros K. right. eauto.
Qed.
Lemma ok_J_body D w i g : J D w -> (forall b, w_bodies w i = Some b -> good b -> b_xf (g b) = b_xf b /\ good (g b)) -> ok (mod_body i g w) (J D).
Proof.
  intros H K. unfold mod_body, get_body. apply ok_bind, ok_unwrap. intros b Hb. apply ok_ok. destruct (K b Hb (J_bodies _ _ H i b Hb)) as [K1 K2]. eapply J_body; eauto.
Qed.
Lemma kept_fixtures (b b' : body R) : kept b' = kept b -> b_fixtures b' = b_fixtures b.
Proof. unfold kept. intros H. injection H. intros. assumption. Qed.
Lemma good_reset fs (b b' : body R) : good b -> reset_mass_data fs b = Ok b' -> good b' /\ b_xf b' = b_xf b /\ b_type b' = b_type b /\ b_fixtures b' = b_fixtures b.
Proof.
  intros [P S] E. pose proof (reset_run fs b b' E) as (K & N & _). pose proof (kept_inv _ _ K) as (K1 & _ & K3 & _ & _ & K6 & K7). split.
  - split; [eapply posed_reset; eauto|]. intros Q. rewrite K1 in Q. specialize (S Q). destruct N as (_ & N2 & N3 & N4 & N5 & _); [rewrite Q; discriminate|]. destruct S as (S1 & S2 & S3 & S4).
    unfold settled. rewrite N2, N3, N4, N5, K7, K3. auto.
  - split; [exact K6|]. split; [exact K1|]. exact (kept_fixtures _ _ K).
Qed.
Definition halted (b : body R) : body R :=
  mod_flags (set_fl_awake false) (let b1 := set_b_av (nofZ 0) (set_b_lv vzero b) in let b2 := set_sw (with_a0 (sw_a (b_sweep b1))) b1 in set_sw (with_c0 (sw_c (b_sweep b2))) b2).
Lemma good_halted b : posed b -> good (halted b) /\ b_xf (halted b) = b_xf b /\ b_fixtures (halted b) = b_fixtures b /\ b_type (halted b) = b_type b.
Proof.
  intros P. assert (V : settled (halted b)) by (unfold settled, halted; destruct b as [ty fl ii xf sw]; destruct sw; cbn; rmath; auto).
  destruct b as [ty fl ii xf sw]. destruct sw. unfold good. auto.
Qed.
Lemma type_run ty fs (b b' : body R) : type_body ty fs b = Ok b' -> exists b2, reset_mass_data fs (set_b_type ty b) = Ok b2 /\ b' = if is_static b2 then halted b2 else b2.
Proof.
  unfold type_body. intros E. apply bind_ok in E as (b2 & E & H). exists b2. split; [exact E|]. unfold halted. destruct (is_static b2); congruence.
Qed.
Lemma type_kept fs ty (b b2 : body R) : reset_mass_data fs (set_b_type ty b) = Ok b2 -> b_type b2 = ty /\ b_xf b2 = b_xf b /\ b_fixtures b2 = b_fixtures b.
Proof.
  intros E. pose proof (reset_run _ _ _ E) as (K & _). pose proof (kept_inv _ _ K) as (K1 & _ & _ & _ & _ & K6 & _). pose proof (kept_fixtures _ _ K) as K8. clear E K.
  split; [exact K1|]. split; [exact K6|exact K8].
Qed.
Lemma good_type ty fs (b b' : body R) : good b -> type_body ty fs b = Ok b' -> good b' /\ b_xf b' = b_xf b /\ b_fixtures b' = b_fixtures b /\ b_type b' = ty.
Proof.
  intros [P _] E. apply type_run in E as (b2 & E & ->). destruct (type_kept _ _ _ _ E) as (K1 & K6 & K8). 
  assert (P0 : posed (set_b_type ty b)) by (apply (posed_frame b); [reflexivity|reflexivity|exact P]). pose proof (posed_reset _ _ _ P0 E) as P2. clear E P0.
  unfold is_static. destruct (btype_eqb_spec (b_type b2) StaticBody) as [Q|Q].
  - destruct (good_halted b2 P2) as (G1 & G2 & G3 & G4). split; [exact G1|]. rewrite G2, G3, G4. repeat split; assumption.
  - split; [|repeat split; assumption]. split; [exact P2|]. intros Q'. contradiction.
Qed.
Lemma good_mass d (b b' : body R) : good b -> set_mass_data d b = Ok b' -> good b' /\ b_xf b' = b_xf b.
Proof.
  intros [P S] E. pose proof (set_mass_run d b b' E) as (K & N & _). pose proof (kept_inv _ _ K) as (K1 & _ & _ & _ & _ & K6 & _). split; [|exact K6].
  split; [eapply posed_setmass; eauto|]. intros Q. rewrite N; [apply S; congruence|]. rewrite <- K1, Q. discriminate.
Qed.
Lemma good_fixed flag fs (b b' : body R) : good b -> set_fixed_rotation flag fs b = Ok b' -> good b' /\ b_xf b' = b_xf b.
Proof.
  intros [P S] E. apply fixed_run in E as [->|E]; [split; [split; assumption|reflexivity]|]. match type of E with reset_mass_data _ ?c = _ => destruct (good_reset fs c b') as (G & X & _); [|exact E|split; [exact G|exact X]] end.
  split; [apply (posed_frame b); [reflexivity|reflexivity|exact P]|]. intros Q. specialize (S Q). destruct S as (S1 & S2 & S3 & S4). repeat split; assumption.
Qed.
Lemma still_setter s (b : body R) : still b (body_setter s b).
Proof.
  destruct s; cbn [body_setter]; try (repeat split; fail).
  - apply still_awake.
  - unfold set_sleeping_allowed. cbv zeta. destruct f; [apply still_flags; reflexivity|]. eapply still_trans; [apply (still_flags (set_fl_auto_sleep false)); reflexivity|apply still_awake].
  - unfold set_linear_velocity, is_static. destruct (btype_eqb_spec (b_type b) StaticBody); [apply still_refl|]. cbv zeta.
    assert (Q : still b (if nlt (nofZ 0) (b2_dot v v) then set_awake true b else b)) by (destruct (nlt _ _); [apply still_awake|apply still_refl]).
    destruct Q as (A & B & C & D & _). split; [exact A|]. split; [exact B|]. split; [exact C|]. split; [exact D|]. contradiction.
  - unfold set_angular_velocity, is_static. destruct (btype_eqb_spec (b_type b) StaticBody); [apply still_refl|]. cbv zeta.
    match goal with |- still b (set_b_av _ ?x) => assert (Q : still b x) by (destruct (nlt _ _); [apply still_awake|apply still_refl]); destruct Q as (A & B & C & D & _) end.
    split; [exact A|]. split; [exact B|]. split; [exact C|]. split; [exact D|]. contradiction.
  - destruct (push_frame q wake b) as (F1 & F2). assert (W : still b (wake_if wake b)) by (unfold wake_if; destruct (_ && _); [apply still_awake|apply still_refl]). destruct W as (W1 & W2 & _).
    unfold still. rewrite F1, F2. unfold is_dynamic in *.
    assert (G : b_type (apply_push q wake b) = b_type b /\ (b_fixtures (apply_push q wake b), is_enabled (apply_push q wake b), fl_island (b_flags (apply_push q wake b))) = (b_fixtures b, is_enabled b, fl_island (b_flags b)) /\ (b_type b = StaticBody -> apply_push q wake b = b)).
    { destruct q; cbn [apply_push]; unfold apply_force, apply_force_to_center, apply_torque, apply_linear_impulse, apply_linear_impulse_to_center, apply_angular_impulse, is_dynamic;
        (destruct (btype_eqb_spec (b_type b) DynamicBody) as [e|]; cbn [negb]; [|repeat split; fail]); cbv zeta; (destruct (is_awake _); (split; [exact W1|]; split; [exact W2|]; rewrite e; discriminate)). }
    destruct G as (G1 & G2 & G3). split; [exact G1|]. split; [exact G2|]. split; [reflexivity|]. split; [reflexivity|]. intros Q. rewrite (G3 Q). auto.
Qed.

(** ** fixtures *)
Lemma J_fixture D w f x x' : J D w -> w_fixtures w f = Some x -> view_f x' = view_f x -> J D (put_fixture f x' w).
Proof.
  intros H Hx V. apply (J_moved D D w); auto.
  - intros g. cbn. unfold put. destruct (Nat.eqb_spec g f) as [->|]; [|reflexivity]. rewrite Hx. cbn [option_map]. now rewrite V.
  - apply H.
  - intros g y i b' _ _ K. right. eauto.
Qed.
(* a fixture without proxies comes or goes *)
Lemma J_bare D w f o : J D w -> (forall k, slot (g_f (graph_of w)) f k = None) ->
  match o with Some x => f_proxy_count x = 0 /\ box_shape (f_shape x) /\ shape_child_count (f_shape x) = Ok (length (f_proxies x)) | None => True end ->
  J D (set_w_fixtures (put (w_fixtures w) f o) w).
Proof.
  intros (A & B & C & S) Hs Ho.
  assert (G : forall g, g_f (graph_of (set_w_fixtures (put (w_fixtures w) f o) w)) g = if Nat.eqb g f then option_map view_f o else g_f (graph_of w) g).
  { intros g. cbn. unfold put. now destruct (Nat.eqb g f). }
  assert (SL : forall g k, slot (g_f (graph_of (set_w_fixtures (put (w_fixtures w) f o) w))) g k = slot (g_f (graph_of w)) g k).
  { intros g k. destruct (Nat.eq_dec g f) as [->|Ne].
    - rewrite Hs. unfold slot. rewrite G, Nat.eqb_refl. destruct o as [x|]; [|reflexivity]. cbn [option_map view_f v_count]. destruct Ho as (-> & _). reflexivity.
    - unfold slot. rewrite G. apply Nat.eqb_neq in Ne. now rewrite Ne. }
  split; [|split; [|split; [exact C|]]].
  - intros g y. rewrite G. destruct (Nat.eqb g f); [|apply A]. destruct o as [x|]; [|easy]. cbn [option_map]. intros Q. injection Q as <-. cbn [view_f v_count v_proxies]. destruct Ho as (-> & _). split; [auto|lia].
  - cbn [w_bp set_w_fixtures]. eapply bcov_mono; [exact B| |].
    + intros g k. now rewrite SL.
    + intros g k bx (id & Hid) [V K]. split; [exact V|]. intros ND y i b a Hy. cbn in Hy. unfold put in Hy. destruct (Nat.eqb_spec g f) as [->|]; [rewrite Hs in Hid; easy|]. now apply K.
  - intros g y. cbn. unfold put. destruct (Nat.eqb g f); [|apply S]. intros ->. apply Ho.
Qed.

(* [f] has no proxies *)
Definition bare w f : Prop := forall k, slot (g_f (graph_of w)) f k = None.
Lemma J_create_proxies D w f xf : J D w -> (forall x i b, w_fixtures w f = Some x -> f_body x = Some i -> w_bodies w i = Some b -> xf = b_xf b) ->
  ok (create_proxies f xf w) (fun w' => J D w' /\ w_bodies w' = w_bodies w /\ fixed w' = fixed w /\ (forall g x, w_fixtures w' g = Some x -> exists y, w_fixtures w g = Some y /\ f_body x = f_body y)).
Proof.
  intros (A & B & C & S) Hxf. unfold create_proxies. apply ok_bind, ok_unwrap. intros x Hx. apply ok_bind, ok_assert. intros Z0. apply Nat.eqb_eq in Z0.
  destruct (S f x Hx) as (Sb & Sn). rewrite Sn. cbn [bind]. set (n := length (f_proxies x)) in *. set (vf := g_f (graph_of w)) in *.
  assert (Hf : vf f = Some (view_f x)) by (unfold vf; cbn; now rewrite Hx).
  set (sl := fun (ps : list (fproxy R)) (i f' k' : nat) => if Nat.eqb f' f then (if Nat.ltb k' i then match nth_error ps k' with Some q => fp_id q | None => None end else None) else slot vf f' k').
  apply ok_bind. apply (ok_mono _ (fun st => length (fst st) = n /\ (forall k, k < n -> exists id, option_map view_p (nth_error (fst st) k) = Some (Some f, k, Some id)) /\ bcov (snd st) (sl (fst st) n) (Cov D w))).
  - apply (ok_for (fun i st => length (fst st) = n /\ (forall k, k < i -> exists id, option_map view_p (nth_error (fst st) k) = Some (Some f, k, Some id)) /\ bcov (snd st) (sl (fst st) i) (Cov D w))).
    + refine (conj eq_refl (conj _ _)); [lia|]. eapply bcov_mono; [exact B| |auto]. intros f' k'. unfold sl. cbn [fst Nat.ltb Nat.leb]. destruct (Nat.eqb_spec f' f) as [->|]; auto. unfold slot. rewrite Hf. cbn [view_f v_count]. now rewrite Z0.
    + intros i [ps bp] Hi (Lp & Hp & BI). cbn [fst snd] in *. apply ok_bind, ok_any. intros pr. apply ok_bind, ok_eq. intros box Hbox. apply ok_bind, ok_eq. intros [bp' id] Eb.
      apply ok_bind, ok_set. intros Li. apply ok_ok. cbn [fst snd]. rewrite upd_len. refine (conj Lp (conj _ _)).
      * intros k Hk. rewrite nth_upd by lia. destruct (Nat.eqb_spec k i) as [->|]; [eexists; reflexivity|]. apply Hp. lia.
      * assert (BI' : bcov bp' (sput (sl ps i) f i (Some id)) (Cov D w)).
        { eapply bcov_create; [exact BI| |exact Eb|]; [unfold sl; now rewrite Nat.eqb_refl, Nat.ltb_irrefl|]. split; [eapply inside_valid; [eapply Sb; eauto|apply inside_fatten]|].
          intros _ y j b a Hy Hj Hb Ha. replace y with x in * by congruence. rewrite (Hxf x j b Hx Hj Hb) in Hbox. replace a with box by congruence. apply inside_fatten. }
        eapply bcov_mono; [exact BI'| |auto]. intros f' k'. unfold sput, sl. destruct (Nat.eqb_spec f' f) as [->|]; [|reflexivity]. cbn [andb]. rewrite nth_upd by lia.
        destruct (Nat.eqb_spec k' i) as [->|]; [replace (Nat.ltb i (Datatypes.S i)) with true by (symmetry; apply Nat.ltb_lt; lia); reflexivity|].
        destruct (Nat.ltb_spec k' i); destruct (Nat.ltb_spec k' (Datatypes.S i)); try lia; reflexivity.
  - intros [ps bp] (Lp & Hp & BI). cbn [fst snd] in *. apply ok_ok. set (x' := set_f_proxies ps (set_f_proxy_count n x)).
    assert (G : forall i, g_f (graph_of (put_fixture f x' (set_w_bp bp w))) i = put vf f (Some (FView (f_body x) (f_shape x) n (map view_p ps))) i) by (intros i; rewrite vf_put; reflexivity).
    split; [|split; [reflexivity|split; [reflexivity|]]].
    + split; [|split; [|split; [exact C|]]].
      * intros f' y. rewrite G. unfold put. destruct (Nat.eqb_spec f' f) as [->|]; [|apply A]. intros Q. injection Q as <-. cbn [v_count v_proxies]. rewrite map_length. split; [auto|]. intros k Hk. rewrite nth_error_map. now apply Hp.
      * cbn [w_bp put_fixture set_w_fixtures set_w_bp]. eapply bcov_mono; [exact BI| |].
        { intros f' k'. unfold slot at 1. rewrite G. unfold sl, slot, put. destruct (Nat.eqb_spec f' f) as [->|]; [|reflexivity]. cbn [v_count v_proxies]. rewrite nth_error_map.
          destruct (Nat.ltb k' n); auto. now destruct (nth_error ps k'). }
        { intros g k bx _ [V K]. split; [exact V|]. intros ND y i b a Hy Hi Hb Ha. cbn in Hy. unfold put in Hy. destruct (Nat.eqb_spec g f) as [->|]; [|eapply K; eauto].
          injection Hy as <-. apply (K ND x i b a); auto. }
      * intros g y. cbn. unfold put. destruct (Nat.eqb_spec g f) as [->|]; [|apply S]. intros Q. injection Q as <-. cbn. rewrite Lp. auto.
    + intros g y. cbn. unfold put. destruct (Nat.eqb_spec g f) as [->|]; [|eauto]. intros Q. injection Q as <-. exists x. auto.
Qed.
Lemma J_destroy_proxies D w f : J D w -> ok (destroy_proxies f w) (fun w' => J D w' /\ bare w' f /\ w_bodies w' = w_bodies w /\ fixed w' = fixed w).
Proof.
  intros (A & B & C & S). unfold destroy_proxies. apply ok_bind, ok_unwrap. intros x Hx. set (vf := g_f (graph_of w)) in *.
  assert (Hf : vf f = Some (view_f x)) by (unfold vf; cbn; now rewrite Hx). set (n := f_proxy_count x) in *.
  destruct (A f _ Hf) as [Hn Hp]. cbn [view_f v_count v_proxies] in Hn, Hp. rewrite map_length in Hn. fold n in Hn, Hp.
  set (sl := fun (i f' k' : nat) => if Nat.eqb f' f && Nat.ltb k' i then None else slot vf f' k').
  apply ok_bind. apply (ok_mono _ (fun st => length (fst st) = length (f_proxies x) /\ bcov (snd st) (sl n) (Cov D w))).
  - eapply ok_mono; [apply (ok_for (fun i st => length (fst st) = length (f_proxies x) /\ (forall k, i <= k -> nth_error (fst st) k = nth_error (f_proxies x) k) /\ bcov (snd st) (sl i) (Cov D w)))|].
    + refine (conj eq_refl (conj _ _)); [auto|]. eapply bcov_mono; [exact B| |auto]. intros f' k'. unfold sl. cbn [Nat.ltb Nat.leb]. now rewrite andb_false_r.
    + intros i [ps bp] Hi (Lp & Hk & BI). cbn [fst snd] in *. destruct (Hp i Hi) as (id & Hid). rewrite nth_error_map in Hid. apply ok_bind, ok_get. intros pr Hpr.
      rewrite Hk in Hpr by lia. rewrite Hpr in Hid. cbn in Hid. unfold view_p in Hid. injection Hid as Hi1 Hi2 Hi3. rewrite Hi3. cbn [unwrap bind].
      apply ok_bind, ok_eq. intros bp' Eb. apply ok_bind, ok_set. intros Li. apply ok_ok. cbn [fst snd]. rewrite upd_len. refine (conj Lp (conj _ _)).
      * intros k Hik. rewrite nth_upd by lia. destruct (Nat.eqb_spec k i); [lia|]. apply Hk. lia.
      * assert (BI' : bcov bp' (sput (sl i) f i None) (Cov D w)).
        { eapply bcov_destroy; [exact BI| |exact Eb]. unfold sl. rewrite Nat.eqb_refl, Nat.ltb_irrefl. cbn [andb]. unfold slot. rewrite Hf. cbn [view_f v_count v_proxies]. fold n. apply Nat.ltb_lt in Hi. rewrite Hi, nth_error_map, Hpr. cbn. unfold view_p. now rewrite Hi3. }
        eapply bcov_mono; [exact BI'| |auto]. intros f' k'. unfold sput, sl. destruct (Nat.eqb_spec f' f) as [->|]; [|reflexivity]. cbn [andb].
        destruct (Nat.eqb_spec k' i) as [->|]; [replace (Nat.ltb i (Datatypes.S i)) with true by (symmetry; apply Nat.ltb_lt; lia); reflexivity|].
        destruct (Nat.ltb_spec k' i); destruct (Nat.ltb_spec k' (Datatypes.S i)); try lia; reflexivity.
    + cbn. tauto.
  - intros [ps bp] (Lp & BI). cbn [fst snd] in *. apply ok_ok. set (x' := set_f_proxies ps (set_f_proxy_count 0 x)).
    assert (G : forall i, g_f (graph_of (put_fixture f x' (set_w_bp bp w))) i = put vf f (Some (view_f x')) i) by (intros i; apply vf_put).
    split; [|split; [|split; reflexivity]].
    + split; [|split; [|split; [exact C|]]].
      * intros f' y. rewrite G. unfold put. destruct (Nat.eqb_spec f' f) as [->|]; [|apply A]. intros Q. injection Q as <-. cbn. split; [now left|]. lia.
      * cbn [w_bp put_fixture set_w_fixtures set_w_bp]. eapply bcov_mono; [exact BI| |].
        { intros f' k'. unfold slot at 1. rewrite G. unfold sl, slot, put. destruct (Nat.eqb_spec f' f) as [->|]; [|reflexivity]. cbn [andb]. change (v_count (view_f x')) with 0.
          change (Nat.ltb k' 0) with false. rewrite Hf. cbn [view_f v_count]. fold n. destruct (Nat.ltb k' n); reflexivity. }
        { intros g k bx _ [V K]. split; [exact V|]. intros ND y i b a Hy Hi Hb Ha. cbn in Hy. unfold put in Hy. destruct (Nat.eqb_spec g f) as [->|]; [|eapply K; eauto].
          injection Hy as <-. apply (K ND x i b a); auto. }
      * intros g y. cbn. unfold put. destruct (Nat.eqb_spec g f) as [->|]; [|apply S]. intros Q. injection Q as <-. cbn. rewrite Lp. apply (S f x Hx).
    + intros k. unfold slot. rewrite G. unfold put. rewrite Nat.eqb_refl. reflexivity.
Qed.
Lemma J_touch D w f : J D w -> ok (touch_proxies f w) (fun w' => J D w' /\ beside w w').
Proof.
  intros (A & B & C & S). unfold touch_proxies. apply ok_bind, ok_unwrap. intros x Hx.
  assert (Hg : g_f (graph_of w) f = Some (view_f x)) by (cbn; now rewrite Hx). destruct (A f _ Hg) as [Hc Hp]. cbn [view_f v_count v_proxies] in Hc, Hp.
  apply ok_bind. apply (ok_mono _ (fun bp => bcov bp (slot (g_f (graph_of w))) (Cov D w))).
  - apply (ok_for (fun _ bp => bcov bp (slot (g_f (graph_of w))) (Cov D w))); [exact B|]. intros i bp Hk Hbp. destruct (Hp i Hk) as (id & Hid). rewrite nth_error_map in Hid.
    apply ok_bind, ok_get. intros pr Hpr. pose proof Hid as Hid'. rewrite Hpr in Hid'. cbn in Hid'. unfold view_p in Hid'. injection Hid' as _ _ Hid'. rewrite Hid'. cbn [unwrap bind].
    apply ok_eq. intros bp' Eb. eapply bcov_touch; [exact Hbp| |exact Eb]. apply (slot_at w f x i id Hx Hk Hid).
  - intros bp Hbp. apply ok_ok. split; [|repeat split]. split; [exact A|]. split; [exact Hbp|]. split; [exact C|exact S].
Qed.
