(** The ray cast of a world reports every hit up to the fraction that the callback leaves. *)
From Coq Require Import List ZArith Bool Arith Lia Reals Lra.
From Flocq Require Import Core.Raux.
From Verif Require Import Base Num NumLaws RTac Math Collision MathSpec GeomSpec ShapeModel ListFacts TreeModel TreeSpec TreeRep TreeHist TreeQuery TreeRay TreeFinal BroadModel BroadSpec
  DynModel DynSpec WorldModel WorldClaims WorldFinal WorldCalls WorldHist QueryModel CoverSpec CoverLogic CoverOps CoverToi QuerySpec RayShapes QueryProofs.
Import ListNotations.
Local Open Scope R_scope.

(** ** a callback with a state, and the same callback as a function of the history *)
Section Sim.
  Context {S U : Type} (cb : S -> ray_input R -> nat -> S * R) (p1 p2 : vec2 R) (s0 : S) (M0 : R).
  Definition keep (M v : R) : R := if Rlt_bool 0 v then v else M.
  Definition step1 (st : S * R) (c : nat * R) : S * R := (fst (cb (fst st) (RayIn p1 p2 (snd st)) (fst c)), keep (snd st) (snd c)).
  Definition replay (h : ray_calls) : S * R := fold_left step1 h (s0, M0).
  Definition asked (h : ray_calls) (i : nat) : R := snd (cb (fst (replay h)) (RayIn p1 p2 (snd (replay h))) i).
  Definition cbh (h : ray_calls) (inp : ray_input R) (i : nat) : R := Rmin (ray_max inp) (asked h i).
  (* the calls of a run with the answers that the callback gave *)
  Inductive trace : S -> R -> ray_calls -> S -> R -> Prop :=
  | trace_nil s M : trace s M [] s M
  | trace_cons s M i v h s' M' : v = snd (cb s (RayIn p1 p2 M) i) -> trace (fst (cb s (RayIn p1 p2 M) i)) (keep M v) h s' M' -> trace s M ((i, v) :: h) s' M'.
  Variable P : S -> R -> Prop.
  Variable ids : nat -> Prop.
  Hypothesis HP : forall s M i, ids i -> P s M -> snd (cb s (RayIn p1 p2 M) i) <= M /\ P (fst (cb s (RayIn p1 p2 M) i)) (keep M (snd (cb s (RayIn p1 p2 M) i))).
  Lemma replay_last h c : replay (h ++ [c]) = step1 (replay h) c.
  Proof. unfold replay. now rewrite fold_left_app. Qed.
  Lemma trace_clipped s M h s' M' : trace s M h s' M' -> M' = clipped M h.
  Proof. induction 1; [reflexivity|]. unfold clipped in *. cbn [fold_left snd]. exact IHtrace. Qed.
  Lemma trace_P s M h s' M' : trace s M h s' M' -> (forall i, In i (map fst h) -> ids i) -> P s M -> P s' M'.
  Proof. induction 1 as [|s M i v h s' M' -> H IH]; [auto|]. intros Hi K. apply IH; [intros; apply Hi; now right|]. apply HP; [|exact K]. apply Hi. now left. Qed.
  Lemma loop_grows fuel ns v av (f : ray_calls -> ray_input R -> nat -> R) : forall M seg st h h',
    ray_loop (U := U) fuel ns (history f) h p1 p2 v av M seg st = Ok h' -> exists d, h' = h ++ d.
  Proof.
    induction fuel as [|fuel IH]; intros M seg st h h'; cbn [ray_loop]; destruct (Nat.ltb _ _).
    1: discriminate.
    1,3: intros H; injection H as <-; exists []; now rewrite app_nil_r.
    intros H. apply bind_ok in H as ([st' o] & Hp & H). destruct o as [i|]; [|eauto].
    apply bind_ok in H as (n & Hn & H). destruct (negb _); [eauto|]. destruct (ray_separated _ _ _ _); [eauto|]. destruct (is_leaf n).
    - unfold history at 1 in H. destruct (neqb _ _); [injection H as <-; eauto|]. destruct (nlt _ _); apply IH in H as (d & ->); rewrite <- app_assoc; eauto.
    - apply bind_ok in H as (st1 & H1 & H). apply bind_ok in H as (st2 & H2 & H). eauto.
  Qed.
  Lemma loop_sim fuel ns v av : forall s M seg st h h', replay h = (s, M) -> P s M -> (forall i, In i (map fst h') -> ids i) ->
    ray_loop (U := U) fuel ns (history cbh) h p1 p2 v av M seg st = Ok h' ->
    exists d s' M', h' = h ++ d /\ trace s M d s' M' /\ ray_loop fuel ns cb s p1 p2 v av M seg st = Ok s'.
  Proof.
    induction fuel as [|fuel IH]; intros s M seg st h h' Hr HPs Hids; cbn [ray_loop]; destruct (Nat.ltb _ _).
    1: discriminate.
    1,3: intros H; injection H as <-; exists [], s, M; rewrite app_nil_r; repeat split; constructor.
    intros H. apply bind_ok in H as ([st' o] & Hp & H). rewrite Hp. cbn [bind]. destruct o as [i|]; [|eauto].
    apply bind_ok in H as (n & Hn & H). rewrite Hn. cbn [bind]. destruct (negb _); [eauto|]. destruct (ray_separated _ _ _ _); [eauto|]. destruct (is_leaf n).
    - assert (Hi : ids i).
      { apply Hids. destruct (history cbh h (RayIn p1 p2 M) i) as [h1 v1] eqn:Eh. assert (E1 : h1 = h ++ [(i, v1)]) by (unfold history in Eh; congruence). clear Eh. subst h1.
        assert (exists d, h' = (h ++ [(i, v1)]) ++ d) as (d & ->).
        { destruct (neqb _ _); [injection H as <-; exists []; now rewrite app_nil_r|]. destruct (nlt _ _); eapply loop_grows; eauto. }
        rewrite !map_app, !in_app_iff. left; right. now left. }
      destruct (HP s M i Hi HPs) as [Hle HP']. assert (Eh : history cbh h (RayIn p1 p2 M) i = (h ++ [(i, snd (cb s (RayIn p1 p2 M) i))], snd (cb s (RayIn p1 p2 M) i))).
      { unfold history, cbh, asked. rewrite Hr. cbn [ray_max fst snd]. now rewrite Rmin_right. }
      rewrite Eh in H. clear Eh. destruct (cb s (RayIn p1 p2 M) i) as [s1 v1] eqn:Ecb. cbn [fst snd] in *.
      assert (Hr1 : replay (h ++ [(i, v1)]) = (s1, keep M v1)) by (rewrite replay_last, Hr; unfold step1; cbn [fst snd]; now rewrite Ecb).
      assert (T1 : forall d s' M', trace s1 (keep M v1) d s' M' -> trace s M ((i, v1) :: d) s' M') by (intros; constructor; rewrite Ecb; auto).
      destruct (neqb v1 (nofZ 0)).
      + injection H as <-. exists [(i, v1)], s1, (keep M v1). split; [reflexivity|]. split; [apply T1; constructor|reflexivity].
      + unfold keep in *. cbn [nlt R_Num nofZ] in *. destruct (Rlt_bool 0 v1);
          apply (IH _ _ _ _ _ _ Hr1 HP' Hids) in H as (d & s' & M' & -> & Ht & Hl); exists ((i, v1) :: d), s', M'; rewrite <- app_assoc; auto.
    - apply bind_ok in H as (st1 & H1 & H). rewrite H1. cbn [bind]. apply bind_ok in H as (st2 & H2 & H). rewrite H2. cbn [bind]. eauto.
  Qed.
  Lemma cast_sim (t : tree R U) h' : P s0 M0 -> (forall i, In i (map fst h') -> ids i) -> ray_cast t (history cbh) [] (RayIn p1 p2 M0) = Ok h' ->
    exists s' M', trace s0 M0 h' s' M' /\ ray_cast t cb s0 (RayIn p1 p2 M0) = Ok s'.
  Proof.
    intros H0 Hids H. unfold ray_cast in *. cbn [ray_p1 ray_p2 ray_max] in *. apply bind_ok in H as (u & Hu & H). rewrite Hu. cbn [bind]. apply bind_ok in H as (st & Hs & H). rewrite Hs. cbn [bind].
    apply (loop_sim _ _ _ _ s0 M0) in H as (d & s' & M' & -> & Ht & Hl); eauto.
  Qed.
End Sim.

(** ** the callback of the world *)
Section World.
  Context (w : world) (m : @pmap R (nat * nat)) (A : atlas w m).
  Hypothesis SS : sound_shapes w.
  Hypothesis UR : forall i b, w_bodies w i = Some b -> unit_rot (xq (b_xf b)).
  Context {S : Type} (cb : S -> nat -> vec2 R -> vec2 R -> R -> S * R) (p1 p2 : vec2 R).
  Hypothesis Np : p1 <> p2.
  Definition live_id (id : nat) : Prop := m id <> None.

  Lemma child_cast f k M : live_child w f k -> exists o, fixture_ray_cast w f (RayIn p1 p2 M) k = Ok o /\
    (forall out, o = Some out <-> hit w p1 p2 M f k out) /\
    (forall out, o = Some out -> 0 <= ray_fraction out <= M /\ exists a, child_box w f k a /\ in_box a (along p1 p2 (ray_fraction out))).
  Proof.
    intros (x & i & b & Hx & Hi & Hb & En & Hk). assert (Hc : exists n, shape_child_count (f_shape x) = Ok n /\ (k < n)%nat).
    { unfold children in Hk. rewrite Hx in Hk. destruct (shape_child_count (f_shape x)) as [n| |]; [|lia|lia]. eauto. }
    destruct Hc as (n & Hn & Hkn). destruct (shape_cast_ok (f_shape x) (RayIn p1 p2 M) (b_xf b) k n (SS f x Hx) (UR i b Hb) Hn Hkn) as (o & a & Ho & Ha & Hh).
    exists o. split; [unfold fixture_ray_cast, get_fixture, get_body; rewrite Hx; cbn [unwrap bind]; rewrite Hi; cbn [unwrap bind]; rewrite Hb; cbn [unwrap bind]; exact Ho|]. split.
    - intros out. split.
      + intros ->. exists x, i, b. auto 8.
      + intros (x' & i' & b' & Hx' & Hi' & Hb' & _ & _ & H). congruence.
    - intros out E. destruct (Hh out E) as [H1 H2]. split; [exact H1|]. exists a. split; [|exact H2]. exists x, i, b. auto 8.
  Qed.
  Lemma hit_len f k M M' out : hit w p1 p2 M f k out -> ray_fraction out <= M' -> hit w p1 p2 M' f k out.
  Proof.
    intros (x & i & b & Hx & Hi & Hb & En & Hk & H) Hf. exists x, i, b. do 5 (split; [assumption|]). eapply shape_cast_len; eauto.
  Qed.
  Lemma hit_live f k M out : hit w p1 p2 M f k out -> live_child w f k.
  Proof. intros (x & i & b & Hx & Hi & Hb & En & Hk & H). exists x, i, b. auto. Qed.
  Lemma hit_range f k M out : hit w p1 p2 M f k out -> 0 <= ray_fraction out <= M.
  Proof. intros H. destruct (child_cast f k M (hit_live _ _ _ _ H)) as (o & _ & Q & K). apply K. now apply Q. Qed.
  Lemma hit_fun f k M out out' : hit w p1 p2 M f k out -> hit w p1 p2 M f k out' -> out = out'.
  Proof. intros H H'. destruct (child_cast f k M (hit_live _ _ _ _ H)) as (o & _ & Q & _). apply Q in H, H'. congruence. Qed.

  Definition key (id : nat) : nat * nat := match m id with Some (_, Some q, _) => q | _ => (0, 0)%nat end.
  Lemma key_live id : live_id id -> live_child w (fst (key id)) (snd (key id)) /\ proxy_is w (fst (key id)) (snd (key id)) id /\ proxy_of w id = Ok (key id).
  Proof.
    unfold live_id, key. intros H. destruct (m id) as [[[box u] fl]|] eqn:Em; [|congruence]. destruct A as (_ & B & _). destruct (B _ _ _ _ Em) as (_ & f & k & -> & H1 & H2 & H3). auto.
  Qed.
  Lemma closure_ok s M id : live_id id ->
    (exists out, hit w p1 p2 M (fst (key id)) (snd (key id)) out /\
       ray_closure w cb (Ok s) (RayIn p1 p2 M) id = (let '(s', v) := tell cb p1 p2 s (key id, out) in (Ok s', v))) \/
    ((forall out, ~ hit w p1 p2 M (fst (key id)) (snd (key id)) out) /\ ray_closure w cb (Ok s) (RayIn p1 p2 M) id = (Ok s, M)).
  Proof.
    intros Hl. destruct (key_live id Hl) as (L & _ & Hp). destruct (child_cast _ _ M L) as (o & Ho & Q & _).
    unfold ray_closure, ray_report. cbn [bind]. rewrite Hp. cbn [bind]. destruct (key id) as [f k]. cbn [fst snd] in *. rewrite Ho. cbn [bind]. destruct o as [out|].
    - left. exists out. split; [now apply Q|]. unfold tell, fixture_of, fraction_of. cbn [fst snd].
      replace (vadd (vscale (nsub (nofZ 1) (ray_fraction out)) (ray_p1 (RayIn p1 p2 M))) (vscale (ray_fraction out) (ray_p2 (RayIn p1 p2 M)))) with (along p1 p2 (ray_fraction out))
        by (apply vec2_ext; unfold along; cbn [ray_p1 ray_p2]; rmathc; ring).
      now destruct (cb s f _ _ _).
    - right. split; [|reflexivity]. intros out H. apply Q in H. discriminate.
  Qed.

  (* what is asked of the callback: [Q] holds for every fraction that can be left *)
  Variable Q : R -> Prop.
  Hypothesis HQ : forall s f p n t M, Q M -> 0 <= t <= M -> let v := snd (cb s f p n t) in v <= M /\ (0 < v -> Q v).
  Definition fine (r : res S) (M : R) : Prop := 0 < M /\ Q M /\ exists s, r = Ok s.
  Lemma keep_clip M v : keep M v = clip M v.
  Proof. unfold keep, clip. destruct (Rlt_bool_spec 0 v), (Rlt_dec 0 v); lra. Qed.
  Lemma keep_pos M v : 0 < v -> keep M v = v.
  Proof. intros H. unfold keep. now rewrite Rlt_bool_true. Qed.
  Lemma keep_neg M v : v <= 0 -> keep M v = M.
  Proof. intros H. unfold keep. now rewrite Rlt_bool_false. Qed.
  Lemma fine_step r M id : live_id id -> fine r M -> let c := ray_closure w cb r (RayIn p1 p2 M) id in snd c <= M /\ fine (fst c) (keep M (snd c)).
  Proof.
    intros Hl (H0 & HM & s & ->). destruct (closure_ok s M id Hl) as [(out & Hh & ->)|[_ ->]]; cbn zeta.
    - destruct (HQ s (fst (key id)) (along p1 p2 (ray_fraction out)) (ray_normal out) (ray_fraction out) M HM (hit_range _ _ _ _ Hh)) as [H1 H2].
      unfold tell, fixture_of, fraction_of in *. cbn [fst snd] in *. destruct (cb s _ _ _ _) as [s' v]. cbn [fst snd] in *. split; [exact H1|]. unfold fine.
      destruct (Rle_or_lt v 0); [rewrite keep_neg by auto|rewrite keep_pos by auto]; eauto.
    - cbn [fst snd]. split; [lra|]. rewrite keep_pos by auto. unfold fine. eauto.
  Qed.
  (* the reports in a trace *)
  Lemma trace_told r M h r' M' : trace (ray_closure w cb) p1 p2 r M h r' M' -> (forall i, In i (map fst h) -> live_id i) -> NoDup (map fst h) -> forall s, r = Ok s -> fine r M ->
    exists l : list shot, let '(s', vs) := told cb p1 p2 s l in
      (h = [] -> vs = []) /\ r' = Ok s' /\ M' = fold_left clip vs M /\ in_turn w p1 p2 M l vs /\ M' <= M /\ NoDup (map fst l) /\
      (forall q, In q l -> exists id, In id (map fst h) /\ key id = fst q) /\
      (forall q, In q l -> hit w p1 p2 M (fst (fst q)) (snd (fst q)) (snd q)) /\
      (forall id, In id (map fst h) -> forall out, hit w p1 p2 M' (fst (key id)) (snd (key id)) out -> In (key id, out) l) /\
      (Forall (fun c => snd c <> 0) h -> Forall (fun v => v <> 0) vs) /\
      (forall init i, h = init ++ [(i, 0)] -> Forall (fun c => snd c <> 0) init -> exists ini, vs = ini ++ [0] /\ Forall (fun v => v <> 0) ini).
  Proof.
    induction 1 as [r M|r M i v h r' M' Ev Ht IH]; intros Hi ND s Hs Hf.
    { exists []. cbn. split; [auto|]. split; [auto|]. split; [reflexivity|]. split; [exact I|]. split; [lra|]. split; [constructor|]. do 3 (split; [intros ? []|]). split; [constructor|]. intros [|] ? K; discriminate. }
    cbn [map fst] in *. inversion ND as [|? ? Ni ND']; subst.
    assert (Hl : live_id i) by (apply Hi; now left). destruct (fine_step (Ok s) M i Hl Hf) as [Hle Hf'].
    pose proof (trace_P _ _ _ fine live_id (fun r M i => fine_step r M i) _ _ _ _ _ Ht (fun j Hj => Hi j (or_intror Hj)) Hf') as Hlast.
    destruct (closure_ok s M i Hl) as [(out & Hh & Ec)|[Nh Ec]].
    - destruct (tell cb p1 p2 s (key i, out)) as [s1 v1] eqn:Et. rewrite Ec in *. cbn [fst snd] in *.
      destruct (IH (fun j Hj => Hi j (or_intror Hj)) ND' s1 eq_refl Hf') as (l & IHl). exists ((key i, out) :: l). cbn [told]. rewrite Et. destruct (told cb p1 p2 s1 l) as [s' vs].
      destruct IHl as (H0 & H1 & H2 & HT & H3 & H4 & H5 & H6 & H7 & H8 & H9).
      assert (Hk : keep M v1 <= M) by (unfold keep; destruct (Rlt_bool 0 v1); lra).
      split; [discriminate|]. split; [exact H1|]. split; [cbn [fold_left]; rewrite H2; f_equal; now rewrite keep_clip|]. split; [cbn [in_turn fst snd]; split; [exact Hh|now rewrite <- keep_clip]|]. split; [lra|].
      split; [|split; [|split; [|split; [|split]]]].
      + cbn [map fst]. constructor; [|exact H4]. intros K. apply in_map_iff in K as (q & Eq & Hq). destruct (H5 q Hq) as (j & Hj & Ek). rewrite Eq in Ek.
        destruct (key_live i Hl) as (_ & P1 & _). destruct (key_live j (Hi j (or_intror Hj))) as (_ & P2 & _). rewrite Ek in P2. rewrite (proxy_is_fun _ _ _ _ _ P1 P2) in Ni. contradiction.
      + intros q [<-|Hq]; [exists i; split; [now left|reflexivity]|]. destruct (H5 q Hq) as (j & Hj & Ek). exists j. split; [now right|exact Ek].
      + intros q [<-|Hq]; [exact Hh|]. specialize (H6 q Hq). eapply hit_len; [exact H6|]. pose proof (hit_range _ _ _ _ H6). lra.
      + intros j [<-|Hj] o Ho; [|right; now apply H7]. left. f_equal. eapply hit_fun; [exact Hh|]. eapply hit_len; [exact Ho|]. pose proof (hit_range _ _ _ _ Ho). lra.
      + intros K. inversion K; subst. constructor; auto.
      + intros init j E F. destruct init as [|[i' v'] init]; cbn in E; injection E as <- <- Eh.
        * rewrite (H0 Eh). exists []. split; [reflexivity|constructor].
        * inversion F; subst. match goal with K : Forall _ init |- _ => destruct (H9 init j eq_refl K) as (ini & -> & F') end. exists (v1 :: ini). split; [reflexivity|]. constructor; auto.
    - rewrite Ec in *. cbn [fst snd] in *. destruct Hf as (HM & _). rewrite keep_pos in * by exact HM.
      destruct (IH (fun j Hj => Hi j (or_intror Hj)) ND' s eq_refl Hf') as (l & IHl). exists l. destruct (told cb p1 p2 s l) as [s' vs].
      destruct IHl as (H0 & H1 & H2 & HT & H3 & H4 & H5 & H6 & H7 & H8 & H9).
      split; [discriminate|]. split; [exact H1|]. split; [exact H2|]. split; [exact HT|]. split; [exact H3|]. split; [exact H4|]. split; [|split; [exact H6|split; [|split]]].
      + intros q Hq. destruct (H5 q Hq) as (j & Hj & Ek). exists j. split; [now right|exact Ek].
      + intros j [<-|Hj] o Ho; [|now apply H7]. exfalso. apply (Nh o). eapply hit_len; [exact Ho|]. pose proof (hit_range _ _ _ _ Ho). lra.
      + intros K. inversion K; subst. auto.
      + intros init j E F. destruct init as [|[i' v'] init]; cbn in E; injection E as <- Ev' Eh; [lra|]. inversion F; subst. match goal with K : Forall _ init |- _ => exact (H9 init j eq_refl K) end.
  Qed.
  Lemma ray_cast_ok s : Q 1 -> exists l s' vs, told cb p1 p2 s l = (s', vs) /\ world_ray_cast w cb s p1 p2 = Ok s' /\ complete w p1 p2 l vs /\ left_over vs <= 1.
  Proof.
    intros Q1. pose proof A as (Sm & B & C). set (c := ray_closure w cb).
    assert (Hf : fine (Ok s) 1) by (split; [lra|]; split; [exact Q1|eauto]).
    destruct (c08_sim (bp_tree (w_bp w)) m (cbh c p1 p2 (Ok s) 1) (RayIn p1 p2 1) Sm) as (calls & Hc & ND & Hin & Hout).
    { intros id b u fl Em. now destruct (B _ _ _ _ Em). }
    { exact Np. }
    { cbn. lra. }
    { intros h inp i _. unfold cbh. apply Rmin_l. }
    cbn [ray_p1 ray_p2 ray_max] in *.
    assert (Hl : forall i, In i (map fst calls) -> live_id i). { intros i Hi. destruct (Hin i Hi) as (fb & u & fl & Em & _). unfold live_id. congruence. }
    destruct (cast_sim c p1 p2 (Ok s) 1 fine live_id (fun r M i => fine_step r M i) _ _ Hf Hl Hc) as (r' & M' & Ht & Hr).
    pose proof (trace_clipped _ _ _ _ _ _ _ _ Ht) as EM.
    destruct (trace_told _ _ _ _ _ Ht Hl ND s eq_refl Hf) as (l & Hl'). exists l. destruct (told cb p1 p2 s l) as [s' vs]. exists s', vs. split; [reflexivity|].
    destruct Hl' as (_ & -> & H2 & HT & H3 & H4 & H5 & H6 & H7 & H8 & H9). change (M' = left_over vs) in H2.
    split; [unfold world_ray_cast; fold c; change (nofZ 1) with 1 in *; rewrite Hr; reflexivity|]. split; [|lra].
    split; [exact H4|]. split; [exact HT|].
    destruct Hout as [(init & i & -> & F)|[F Hout]]; [left; eauto|]. right. split; [auto|]. intros f k out Hh. rewrite <- H2 in Hh.
    destruct (C f k (hit_live _ _ _ _ Hh)) as (id & box & fl & Em & Hp & Hb).
    destruct (child_cast f k M' (hit_live _ _ _ _ Hh)) as (o & _ & Qo & Ko). destruct (Ko out (proj2 (Qo out) Hh)) as (Hr1 & a & Ha & Hbox). specialize (Hb a Ha).
    assert (Ek : key id = (f, k)) by (unfold key; now rewrite Em).
    replace (f, k, out) with (key id, out) by now rewrite Ek. apply H7; [|rewrite Ek; exact Hh]. rewrite EM in *. apply (Hout id box _ _ Em). exists (ray_fraction out). split; [exact Hr1|].
    unfold inside in Hb. rops. rewrite !Rle_bool_iff in Hb. unfold in_box, along in Hbox. cbn [vx vy] in Hbox. lra.
  Qed.
End World.

(** ** what the callbacks of the test bed do *)
Lemma posed_unit b : posed b -> unit_rot (xq (b_xf b)).
Proof. intros (H1 & H2 & _). unfold unit_rot. rewrite H1, H2. pose proof (sin2_cos2 (sw_a (b_sweep b))) as H. unfold Rsqr in H. lra. Qed.
Lemma treach_unit E w : answers E -> holds_static E -> treach E w -> forall i b, w_bodies w i = Some b -> unit_rot (xq (b_xf b)).
Proof. intros EA HS H i b Hb. apply posed_unit. destruct (J_bodies none w (treach_J E w EA HS H) i b Hb) as [P _]. exact P. Qed.

Section Final.
  Context (E : env R) (EA : answers E) (HS : holds_static E) (w : world) (H : treach E w) (SS : sound_shapes w) (p1 p2 : vec2 R) (Np : p1 <> p2).
  Let UR := treach_unit E w EA HS H.
  Lemma turn_one l : forall vs, in_turn w p1 p2 1 l vs -> (forall v, In v vs -> clip 1 v = 1) -> forall f k out, In (f, k, out) l -> hit w p1 p2 1 f k out.
  Proof.
    induction l as [|q l IH]; intros [|v vs] Ht Hv f k out; try (now destruct Ht). destruct Ht as [Hh Ht]. intros [->|Hin]; [exact Hh|]. rewrite (Hv v) in Ht by now left. eapply IH; eauto. intros. apply Hv. now right.
  Qed.
  (* a callback that answers at most the fraction it is given *)
  Theorem clip_ok S (cb : S -> nat -> vec2 R -> vec2 R -> R -> S * R) s : (forall s f p n t, snd (cb s f p n t) <= t) ->
    exists l s' vs, told cb p1 p2 s l = (s', vs) /\ world_ray_cast w cb s p1 p2 = Ok s' /\ complete w p1 p2 l vs.
  Proof.
    intros Hc. destruct (treach_atlas E w EA HS H) as (m & A).
    destruct (ray_cast_ok w m A SS (treach_unit E w EA HS H) cb p1 p2 Np (fun _ => True)) with (s := s) as (l & s' & vs & H1 & H2 & H3 & _); auto; [|exists l, s', vs; auto].
    intros s0 f p n t M _ Ht. cbn zeta. specialize (Hc s0 f p n t). split; [lra|auto].
  Qed.
  (* a callback that never clips *)
  Theorem never_ok S (cb : S -> nat -> vec2 R -> vec2 R -> R -> S * R) s : (forall s f p n t, snd (cb s f p n t) = 1 \/ snd (cb s f p n t) < 0) ->
    exists l, NoDup (map fst l) /\ (forall f k out, In (f, k, out) l <-> hit w p1 p2 1 f k out) /\ world_ray_cast w cb s p1 p2 = Ok (fst (told cb p1 p2 s l)).
  Proof.
    intros Hc. destruct (treach_atlas E w EA HS H) as (m & A).
    destruct (ray_cast_ok w m A SS (treach_unit E w EA HS H) cb p1 p2 Np (fun M => M = 1)) with (s := s) as (l & s' & vs & H1 & H2 & (H3 & H4 & H5) & _); auto.
    { intros s0 f p n t M -> Ht. cbn zeta. specialize (Hc s0 f p n t). split; [lra|]. lra. }
    assert (Hv : Forall (fun v => v = 1 \/ v < 0) vs).
    { clear - Hc H1. revert s s' vs H1. induction l as [|q l IH]; intros s s' vs; cbn [told]; [intros K; injection K as <- <-; constructor|].
      unfold tell at 1. pose proof (Hc s (fixture_of q) (along p1 p2 (fraction_of q)) (ray_normal (snd q)) (fraction_of q)) as Q. destruct (cb s _ _ _ _) as [s1 v]. destruct (told cb p1 p2 s1 l) as [s2 vs'] eqn:Et.
      intros K; injection K as <- <-. constructor; [exact Q|]. eapply IH; eauto. }
    assert (Hlo : left_over vs = 1). { unfold left_over. clear - Hv. induction Hv as [|v vs Q _ IH]; [reflexivity|]. cbn [fold_left]. replace (clip 1 v) with 1 by (unfold clip; destruct (Rlt_dec 0 v); lra). exact IH. }
    exists l. split; [exact H3|]. rewrite H1. split; [|exact H2]. intros f k out. split; [apply (turn_one l vs H4); intros v Hin; rewrite Forall_forall in Hv; specialize (Hv v Hin); unfold clip; destruct (Rlt_dec 0 v); lra|]. intros Hh.
    destruct H5 as [(ini & -> & _)|[_ H5]]; [|apply H5; now rewrite Hlo]. apply Forall_app in Hv as [_ Hv]. inversion Hv; subst. lra.
  Qed.
  (* the closest hit *)
  Lemma told_nearest l : forall s s' vs, told nearest p1 p2 s l = (s', vs) -> vs = map (fun q => fraction_of q) l /\
    s' = match rev l with [] => s | q :: _ => Some (fixture_of q, along p1 p2 (fraction_of q), ray_normal (snd q), fraction_of q) end.
  Proof.
    induction l as [|q l IH]; intros s s' vs; cbn [told]; [intros K; injection K as <- <-; auto|]. unfold tell, nearest at 1.
    destruct (told nearest p1 p2 _ l) as [s2 vs'] eqn:Et. intros K; injection K as <- <-. destruct (IH _ _ _ Et) as [-> ->]. split; [reflexivity|]. cbn [rev]. destruct (rev l) as [|q' l'] eqn:El; reflexivity.
  Qed.
  Lemma near_turn l : forall M q, in_turn w p1 p2 M (l ++ [q]) (map (fun q => fraction_of q) (l ++ [q])) -> (forall x, In x l -> 0 < fraction_of x) ->
    (forall x, In x l -> fraction_of q <= fraction_of x) /\ hit w p1 p2 M (fst (fst q)) (snd (fst q)) (snd q) /\
    fold_left clip (map (fun q => fraction_of q) (l ++ [q])) M = (if Rlt_dec 0 (fraction_of q) then fraction_of q else match rev l with [] => M | x :: _ => fraction_of x end).
  Proof.
    induction l as [|x l IH]; intros M q Ht Hp; cbn [app map in_turn fold_left] in *.
    - destruct Ht as [Hh _]. split; [intros ? []|]. split; [exact Hh|]. unfold clip. reflexivity.
    - destruct Ht as [Hx Ht]. assert (Px : 0 < fraction_of x) by (apply Hp; now left). assert (Ec : clip M (fraction_of x) = fraction_of x) by (unfold clip; destruct (Rlt_dec 0 (fraction_of x)); lra). rewrite Ec in *.
      destruct (IH _ _ Ht) as (I1 & I2 & I3); [intros; apply Hp; now right|]. pose proof (hit_range w SS UR p1 p2 _ _ _ _ Hx) as Rx. pose proof (hit_range w SS UR p1 p2 _ _ _ _ I2) as Rq. unfold fraction_of in *.
      split; [intros y [<-|Hy]; [lra|now apply I1]|]. split; [eapply (hit_len w SS UR); [exact I2|lra]|]. rewrite I3. cbn [rev]. destruct (rev l); reflexivity.
  Qed.
  Theorem nearest_ok : exists r, world_ray_cast w nearest None p1 p2 = Ok r /\
    match r with
    | None => forall f k out, ~ hit w p1 p2 1 f k out
    | Some (f, p, n, t) => (exists k out, hit w p1 p2 1 f k out /\ p = along p1 p2 t /\ n = ray_normal out /\ t = ray_fraction out) /\
        forall f' k' out', hit w p1 p2 1 f' k' out' -> t <= ray_fraction out'
    end.
  Proof.
    destruct (clip_ok _ nearest None) as (l & s' & vs & Et & Er & _ & Ht & Hc). { intros. unfold nearest. cbn. lra. }
    exists s'. split; [exact Er|]. apply told_nearest in Et as [-> ->]. destruct l as [|q l _] using rev_ind; cbn [rev].
    - intros f k out Hh. destruct Hc as [(ini & K & _)|[_ Hc]]; [destruct ini; discriminate|]. now apply Hc in Hh.
    - rewrite rev_app_distr. cbn [rev app]. assert (Pl : forall x, In x l -> 0 < fraction_of x).
      { assert (Nz : forall x, In x l -> fraction_of x <> 0).
        { intros x Hx. rewrite map_app in Hc. destruct Hc as [(ini & K & F)|[F _]].
          - cbn [map] in K. apply app_inj_tail in K as [<- _]. rewrite Forall_forall in F. apply F. now apply in_map.
          - apply Forall_app in F as [F _]. rewrite Forall_forall in F. apply F. now apply in_map. }
        assert (Ge : forall x, In x l -> 0 <= fraction_of x).
        { clear - Ht SS UR. revert Ht. generalize 1 at 1. induction l as [|x l IH]; intros M Ht; cbn [app map in_turn] in *; [intros ? []|]. destruct Ht as [Hx Ht]. intros y [<-|Hy]; [apply (hit_range w SS UR p1 p2 _ _ _ _ Hx)|eapply IH; eauto]. }
        intros x Hx. specialize (Nz x Hx). specialize (Ge x Hx). lra. }
      destruct (near_turn l 1 q Ht Pl) as (N1 & N2 & N3). split.
      + exists (snd (fst q)), (snd q). split; [exact N2|]. auto.
      + intros f' k' out' Hh. pose proof (hit_range w SS UR p1 p2 _ _ _ _ Hh) as Rh. destruct (Rle_or_lt (fraction_of q) (ray_fraction out')) as [|Hlt]; [assumption|exfalso].
        destruct Hc as [(ini & K & _)|[_ Hc]].
        * rewrite map_app in K. apply app_inj_tail in K as [_ K]. lra.
        * unfold left_over in Hc. rewrite N3 in Hc. destruct (Rlt_dec 0 (fraction_of q)); [|lra]. assert (Hh' : hit w p1 p2 (fraction_of q) f' k' out') by (eapply (hit_len w SS UR); [exact Hh|lra]).
          apply Hc in Hh'. apply in_app_or in Hh' as [Hin|[Eq|[]]]; [apply N1 in Hin; unfold fraction_of in *; cbn [snd] in *; lra|rewrite Eq in Hlt; unfold fraction_of in Hlt; cbn [snd] in Hlt; lra].
  Qed.
End Final.
