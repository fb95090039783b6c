(** ray_cast: which leaves are reported. *)
From Coq Require Import List ZArith Lia Bool Arith Permutation Reals Lra.
From Flocq Require Import Core.Raux.
From Verif Require Import Base ListFacts Num NumLaws Math Collision StackModel StackSpec StackProofs TreeModel TreeSpec TreeRep TreeBalance TreeInv TreeOps TreeRebuild TreeValid TreeHist TreeQuery.
Import ListNotations.

Section Walk.
  Context {T : Type} `{NT : Num T} {U : Type}.
  Notation node := (node T U).
  Notation tree := (tree T U).
  Context {Q : aabb T -> aabb T -> aabb T -> Prop} {QB : BoxRel Q}.
  Notation rep := (rep Q).
  Notation inv := (inv Q).
  Context {S : Type} (cb : S -> ray_input T -> nat -> S * T) (p1 p2 v abs_v : vec2 T).

  Definition pass (M : T) (b : aabb T) : bool := test_overlap b (segment_aabb p1 p2 M) && negb (ray_separated v abs_v p1 b).

  (* user state, current fraction, stopped *)
  Definition wst : Type := (S * T * bool)%type.
  Definition wcall (i : nat) (st : wst) : wst :=
    let '(s, M, stop) := st in
    let '(s', x) := cb s (RayIn p1 p2 M) i in
    if neqb x (nofZ 0) then (s', M, true) else if nlt (nofZ 0) x then (s', x, false) else (s', M, false).
  Fixpoint walk (ns : list node) (x : shape) (st : wst) : wst :=
    if snd st then st
    else if pass (snd (fst st)) (nbox ns (sid x)) then
      match x with SL i => wcall i st | SN _ l r => walk ns l (walk ns r st) end
    else st.

  Lemma walk_stop ns x s M : walk ns x (s, M, true) = (s, M, true).
  Proof. destruct x; reflexivity. Qed.
  Lemma fold_stop ns (st : list shape) s M : fold_left (fun w x => walk ns x w) st (s, M, true) = (s, M, true).
  Proof. induction st as [|x st IH]; cbn [fold_left]; auto. now rewrite walk_stop. Qed.

  Lemma ray_loop_ok (ns : list node) : forall fuel (st : list shape) stack s M,
    gs_wf 256 stack -> gs_abs stack = map (fun x => Some (sid x)) st ->
    (forall x, In x st -> exists p, rep ns p x) -> length (flat_map ids st) <= fuel ->
    ray_loop fuel ns cb s p1 p2 v abs_v M (segment_aabb p1 p2 M) stack = Ok (fst (fst (fold_left (fun w x => walk ns x w) st (s, M, false)))).
  Proof.
    induction fuel as [|fuel IH]; intros st stack s M Hw Ha Hr Hf.
    - destruct st as [|x st].
      + cbn [ray_loop]. rewrite (gs_count_ok 256), Ha by auto. reflexivity.
      + exfalso. cbn [flat_map] in Hf. rewrite app_length in Hf. pose proof (ids_leaves_len x). lia.
    - cbn [ray_loop]. rewrite (gs_count_ok 256), Ha, map_length by auto.
      destruct st as [|x st]; [reflexivity|]. cbn [length Nat.ltb Nat.leb].
      destruct (gs_pop_ok 256 stack (Some (sid x)) (map (fun x => Some (sid x)) st) Hw Ha) as (stack' & -> & Hw' & Ha').
      cbn [bind]. destruct (Hr x (or_introl eq_refl)) as [p Hx].
      destruct (rep_root _ _ _ Hx) as (n & Hn & _). rewrite (get_ok _ _ _ Hn). cbn [bind].
      cbn [flat_map] in Hf. rewrite app_length in Hf. pose proof (ids_leaves_len x) as Hlen.
      assert (Hst : forall y, In y st -> exists p, rep ns p y) by (intros; apply Hr; right; auto).
      assert (Hh : pass M (nbox ns (sid x)) = test_overlap (n_aabb n) (segment_aabb p1 p2 M) && negb (ray_separated v abs_v p1 (n_aabb n)))
        by (unfold pass, nbox; now rewrite Hn).
      cbn [fold_left].
      destruct (test_overlap (n_aabb n) (segment_aabb p1 p2 M)) eqn:E1; cbn [negb andb] in *.
      2:{ replace (walk ns x (s, M, false)) with (s, M, false) by (destruct x; cbn [walk fst snd]; cbn [sid] in *; now rewrite Hh).
          apply IH; auto. lia. }
      destruct (ray_separated v abs_v p1 (n_aabb n)) eqn:E2; cbn [negb] in *.
      { replace (walk ns x (s, M, false)) with (s, M, false) by (destruct x; cbn [walk fst snd]; cbn [sid] in *; now rewrite Hh).
        apply IH; auto. lia. }
      destruct x as [i|i l r]; cbn [TreeRep.rep sid] in *.
      + destruct Hx as (n' & Hn' & _ & H1 & _). assert (n' = n) by congruence. subst.
        unfold is_leaf. rewrite H1. cbn [walk fst snd sid]. rewrite Hh. unfold wcall.
        destruct (cb s (RayIn p1 p2 M) i) as [s' x]. destruct (neqb x (nofZ 0)); [now rewrite fold_stop|].
        destruct (nlt (nofZ 0) x); apply IH; auto; lia.
      + destruct Hx as ((n' & nl & nr & Hn' & Hnl & Hnr & Hp & H1 & H2 & Hhh & Hb) & Hl & Hrr).
        assert (n' = n) by congruence. subst. unfold is_leaf. rewrite H1, H2.
        destruct (gs_push_ok 256 stack' (Some (sid l)) Hw') as (st1 & -> & Hw1 & Ha1). cbn [bind].
        destruct (gs_push_ok 256 st1 (Some (sid r)) Hw1) as (st2 & -> & Hw2 & Ha2). cbn [bind].
        rewrite (IH (r :: l :: st)); auto.
        * cbn [fold_left walk fst snd sid]. rewrite Hh. reflexivity.
        * rewrite Ha2, Ha1, Ha'. reflexivity.
        * intros y [<-|[<-|Hy]]; eauto.
        * cbn [flat_map]. rewrite !app_length. cbn [ids length] in Hf. rewrite app_length in Hf. lia.
  Qed.
End Walk.

Section Exact.
  Local Open Scope R_scope.
  Context {U : Type}.
  Notation node := (node R U).
  Notation tree := (tree R U).

  Context (p1 p2 : vec2 R) (k : R) (Hk : 0 < k).
  Let dx := vx p2 - vx p1.
  Let dy := vy p2 - vy p1.
  Let v : vec2 R := V2 (- (k * dy)) (k * dx).
  Let abs_v : vec2 R := b2_abs_vec2 v.
  Context (Hd : 0 < dx * dx + dy * dy).

  Lemma min_R (a b : R) : b2_min a b = Rmin a b.
  Proof. unfold b2_min. cbn [nlt R_Num]. unfold Rmin. destruct (Rlt_bool_spec a b), (Rle_dec a b); lra. Qed.
  Lemma max_R (a b : R) : b2_max a b = Rmax a b.
  Proof. unfold b2_max. cbn [nlt R_Num]. unfold Rmax. destruct (Rlt_bool_spec b a), (Rle_dec a b); lra. Qed.

  Lemma overlap_R (a b : aabb R) : test_overlap a b = true <->
    vx (lo b) <= vx (hi a) /\ vy (lo b) <= vy (hi a) /\ vx (lo a) <= vx (hi b) /\ vy (lo a) <= vy (hi b).
  Proof.
    rewrite overlap_sep. unfold separated. cbn [nlt R_Num]. rewrite !Rlt_bool_true'. split.
    - intros H. repeat split; apply Rnot_lt_le; intros K; apply H; auto.
    - intros (A & B & C & D). lra.
  Qed.

  Lemma sep_R (b : aabb R) : ray_separated v abs_v p1 b = false <->
    Rabs (v.(vx) * (vx p1 - (vx (lo b) + vx (hi b)) / 2) + v.(vy) * (vy p1 - (vy (lo b) + vy (hi b)) / 2)) <=
    Rabs (vx v) * ((vx (hi b) - vx (lo b)) / 2) + Rabs (vy v) * ((vy (hi b) - vy (lo b)) / 2).
  Proof.
    unfold ray_separated, aabb_center, aabb_extents, b2_dot, abs_v, b2_abs_vec2, nlit. cbn [vsub vadd vscale vx vy nsub nadd nmul ndiv nofZ nabs nlt R_Num].
    rewrite Rlt_bool_false'.
    replace (1 / 2 * (vx (lo b) + vx (hi b))) with ((vx (lo b) + vx (hi b)) / 2) by field.
    replace (1 / 2 * (vy (lo b) + vy (hi b))) with ((vy (lo b) + vy (hi b)) / 2) by field.
    replace (1 / 2 * (vx (hi b) - vx (lo b))) with ((vx (hi b) - vx (lo b)) / 2) by field.
    replace (1 / 2 * (vy (hi b) - vy (lo b))) with ((vy (hi b) - vy (lo b)) / 2) by field.
    change (vx v) with (- (k * dy)). change (vy v) with (k * dx). lra.
  Qed.

  Lemma touch_pass M (b : aabb R) : touches p1 p2 M b -> pass p1 p2 v abs_v M b = true.
  Proof.
    intros (t & Ht & Hx & Hy). fold dx in Hx. fold dy in Hy. unfold pass. apply andb_true_iff. split.
    - apply overlap_R. unfold segment_aabb. cbn [lo hi b2_min_vec2 b2_max_vec2 vx vy vadd vscale vsub nadd nmul nsub R_Num].
      rewrite !min_R, !max_R. fold dx dy.
      assert (Kx : Rmin (vx p1) (vx p1 + M * dx) <= vx p1 + t * dx <= Rmax (vx p1) (vx p1 + M * dx)).
      { unfold Rmin, Rmax. destruct (Rle_dec (vx p1) (vx p1 + M * dx)); destruct (Rle_or_lt 0 dx); split; nra. }
      assert (Ky : Rmin (vy p1) (vy p1 + M * dy) <= vy p1 + t * dy <= Rmax (vy p1) (vy p1 + M * dy)).
      { unfold Rmin, Rmax. destruct (Rle_dec (vy p1) (vy p1 + M * dy)); destruct (Rle_or_lt 0 dy); split; nra. }
      lra.
    - apply negb_true_iff. apply sep_R. subst v. cbn [vx vy].
      set (X := vx p1 + t * dx) in *. set (Y := vy p1 + t * dy) in *.
      replace (- (k * dy) * (vx p1 - (vx (lo b) + vx (hi b)) / 2) + k * dx * (vy p1 - (vy (lo b) + vy (hi b)) / 2))
        with (- (k * dy) * (X - (vx (lo b) + vx (hi b)) / 2) + k * dx * (Y - (vy (lo b) + vy (hi b)) / 2)) by (unfold X, Y; ring).
      eapply Rle_trans; [apply Rabs_triang|]. rewrite !Rabs_mult.
      apply Rplus_le_compat; apply Rmult_le_compat_l; try apply Rmult_le_pos; try apply Rabs_pos; apply Rabs_le; lra.
  Qed.

  (* one axis: the parameters of the line that lie in the slab *)
  Definition mid (p d l u : R) : R := ((l + u) / 2 - p) / d.
  Definition wid (d l u : R) : R := ((u - l) / 2) / Rabs d.
  Lemma slab p d l u t : d <> 0 -> (mid p d l u - wid d l u <= t <= mid p d l u + wid d l u <-> l <= p + t * d <= u).
  Proof.
    intros Hd0. pose proof (Rabs_pos_lt d Hd0) as Ha.
    assert (E1 : mid p d l u * d = (l + u) / 2 - p) by (unfold mid; field; auto).
    assert (E2 : wid d l u * Rabs d = (u - l) / 2) by (unfold wid; field; lra).
    set (m := mid p d l u) in *. set (w := wid d l u) in *. clearbody m w.
    unfold Rabs in *. destruct (Rcase_abs d); split; intros; split; nra.
  Qed.
  Lemma wid_pos d l u : d <> 0 -> l <= u -> 0 <= wid d l u.
  Proof. intros Hd0 H. unfold wid. pose proof (Rabs_pos_lt d Hd0). apply Rmult_le_pos; [lra|]. left. now apply Rinv_0_lt_compat. Qed.

  (* the projection of the segment on an axis meets the slab *)
  Lemma proj_meet p d l u M a b : 0 <= M -> a <= b -> (forall t, a <= t <= b <-> l <= p + t * d <= u) ->
    l <= Rmax p (p + M * d) -> Rmin p (p + M * d) <= u -> d <> 0 -> (l <= p + a * d <= u) -> (l <= p + b * d <= u) -> a <= M /\ 0 <= b.
  Proof.
    intros HM Hab H H1 H2 Hd0 Ha Hb.
    assert (H3 : ~ (l <= p <= u /\ False)) by tauto.
    pose proof (H 0) as K0. pose proof (H M) as KM. rewrite Rmult_0_l, Rplus_0_r in K0.
    unfold Rmax, Rmin in *.
    split; apply Rnot_lt_le; intros C.
    - (* M < a *)
      assert (N0 : ~ (l <= p <= u)) by (rewrite <- K0; lra). assert (NM : ~ (l <= p + M * d <= u)) by (rewrite <- KM; lra).
      destruct (Rle_or_lt 0 d).
      + assert (M * d <= a * d) by nra. assert (0 <= M * d) by nra. destruct (Rle_dec p (p + M * d)), (Rle_dec p (p + M * d)); try lra; try (apply NM; lra); try (apply N0; lra).
      + assert (a * d <= M * d) by nra. assert (M * d <= 0) by nra. destruct (Rle_dec p (p + M * d)), (Rle_dec p (p + M * d)); try lra; try (apply NM; lra); try (apply N0; lra).
    - (* b < 0 *)
      assert (N0 : ~ (l <= p <= u)) by (rewrite <- K0; lra). assert (NM : ~ (l <= p + M * d <= u)) by (rewrite <- KM; lra).
      destruct (Rle_or_lt 0 d).
      + assert (b * d <= 0) by nra. assert (0 <= M * d) by nra. destruct (Rle_dec p (p + M * d)), (Rle_dec p (p + M * d)); try lra; try (apply NM; lra); try (apply N0; lra).
      + assert (0 <= b * d) by nra. assert (M * d <= 0) by nra. destruct (Rle_dec p (p + M * d)), (Rle_dec p (p + M * d)); try lra; try (apply NM; lra); try (apply N0; lra).
  Qed.

  Lemma pass_touch M (b : aabb R) : 0 <= M -> box_valid b -> pass p1 p2 v abs_v M b = true -> touches p1 p2 M b.
  Proof.
    intros HM [Vx Vy] H. unfold pass in H. apply andb_true_iff in H. destruct H as [H1 H2]. apply negb_true_iff in H2.
    apply overlap_R in H1. apply sep_R in H2. unfold segment_aabb in H1.
    cbn [lo hi b2_min_vec2 b2_max_vec2 vx vy vadd vscale vsub nadd nmul nsub R_Num] in H1. rewrite !min_R, !max_R in H1. fold dx dy in H1.
    destruct H1 as (O1 & O2 & O3 & O4).
    unfold touches. fold dx dy.
    assert (Sx : dx <> 0 -> exists a c, a = mid (vx p1) dx (vx (lo b)) (vx (hi b)) - wid dx (vx (lo b)) (vx (hi b)) /\
       c = mid (vx p1) dx (vx (lo b)) (vx (hi b)) + wid dx (vx (lo b)) (vx (hi b)) /\ a <= c /\ a <= M /\ 0 <= c /\
       forall t, a <= t <= c -> vx (lo b) <= vx p1 + t * dx <= vx (hi b)).
    { intros E. do 2 eexists. split; [reflexivity|]. split; [reflexivity|]. pose proof (wid_pos dx _ _ E Vx) as W.
      assert (Hac : mid (vx p1) dx (vx (lo b)) (vx (hi b)) - wid dx (vx (lo b)) (vx (hi b)) <= mid (vx p1) dx (vx (lo b)) (vx (hi b)) + wid dx (vx (lo b)) (vx (hi b))) by lra.
      assert (Hs : forall t, _) by (intros t; exact (slab (vx p1) dx (vx (lo b)) (vx (hi b)) t E)).
      destruct (proj_meet (vx p1) dx (vx (lo b)) (vx (hi b)) M _ _ HM Hac Hs O3 O1 E) as [K1 K2]; [apply Hs; lra|apply Hs; lra|].
      repeat split; auto; apply Hs; auto. }
    assert (Sy : dy <> 0 -> exists a c, a = mid (vy p1) dy (vy (lo b)) (vy (hi b)) - wid dy (vy (lo b)) (vy (hi b)) /\
       c = mid (vy p1) dy (vy (lo b)) (vy (hi b)) + wid dy (vy (lo b)) (vy (hi b)) /\ a <= c /\ a <= M /\ 0 <= c /\
       forall t, a <= t <= c -> vy (lo b) <= vy p1 + t * dy <= vy (hi b)).
    { intros E. do 2 eexists. split; [reflexivity|]. split; [reflexivity|]. pose proof (wid_pos dy _ _ E Vy) as W.
      assert (Hac : mid (vy p1) dy (vy (lo b)) (vy (hi b)) - wid dy (vy (lo b)) (vy (hi b)) <= mid (vy p1) dy (vy (lo b)) (vy (hi b)) + wid dy (vy (lo b)) (vy (hi b))) by lra.
      assert (Hs : forall t, _) by (intros t; exact (slab (vy p1) dy (vy (lo b)) (vy (hi b)) t E)).
      destruct (proj_meet (vy p1) dy (vy (lo b)) (vy (hi b)) M _ _ HM Hac Hs O4 O2 E) as [K1 K2]; [apply Hs; lra|apply Hs; lra|].
      repeat split; auto; apply Hs; auto. }
    destruct (Req_dec dx 0) as [Ex|Ex].
    - assert (Ey : dy <> 0) by (intros E; rewrite Ex, E in Hd; lra).
      destruct (Sy Ey) as (a & c & _ & _ & Hac & K1 & K2 & Hs).
      exists (Rmax 0 a).
      assert (Km : 0 <= Rmax 0 a <= M /\ a <= Rmax 0 a <= c) by (unfold Rmax; destruct (Rle_dec 0 a); lra).
      split; [tauto|]. split; [|apply Hs; tauto].
      rewrite Ex, Rmult_0_r, Rplus_0_r in *. rewrite Rmin_left, Rmax_left in * by lra. lra.
    - destruct (Req_dec dy 0) as [Ey|Ey].
      + destruct (Sx Ex) as (a & c & _ & _ & Hac & K1 & K2 & Hs).
        exists (Rmax 0 a).
        assert (Km : 0 <= Rmax 0 a <= M /\ a <= Rmax 0 a <= c) by (unfold Rmax; destruct (Rle_dec 0 a); lra).
        split; [tauto|]. split; [apply Hs; tauto|].
        rewrite Ey, Rmult_0_r, Rplus_0_r in *. rewrite Rmin_left, Rmax_left in * by lra. lra.
      + destruct (Sx Ex) as (a & c & Da & Dc & Hac & K1 & K2 & Hs). destruct (Sy Ey) as (a' & c' & Da' & Dc' & Hac' & K1' & K2' & Hs').
        assert (Kl : a <= c' /\ a' <= c).
        { (* the line meets the box *)
          subst a c a' c'. subst v. cbn [vx vy] in H2.
          assert (L : Rabs (mid (vx p1) dx (vx (lo b)) (vx (hi b)) - mid (vy p1) dy (vy (lo b)) (vy (hi b))) <= wid dx (vx (lo b)) (vx (hi b)) + wid dy (vy (lo b)) (vy (hi b))).
          { pose proof (Rabs_pos_lt dx Ex) as Ax. pose proof (Rabs_pos_lt dy Ey) as Ay.
            apply Rmult_le_reg_l with (k * Rabs dx * Rabs dy); [repeat apply Rmult_lt_0_compat; auto|].
            replace (k * Rabs dx * Rabs dy * Rabs (mid (vx p1) dx (vx (lo b)) (vx (hi b)) - mid (vy p1) dy (vy (lo b)) (vy (hi b))))
              with (Rabs (- (k * dy) * (vx p1 - (vx (lo b) + vx (hi b)) / 2) + k * dx * (vy p1 - (vy (lo b) + vy (hi b)) / 2))).
            - rewrite Rabs_Ropp, !Rabs_mult, !(Rabs_right k) in H2 by lra.
              replace (k * Rabs dx * Rabs dy * (wid dx (vx (lo b)) (vx (hi b)) + wid dy (vy (lo b)) (vy (hi b))))
                with (k * Rabs dy * ((vx (hi b) - vx (lo b)) / 2) + k * Rabs dx * ((vy (hi b) - vy (lo b)) / 2)) by (unfold wid; field; lra).
              exact H2.
            - replace k with (Rabs k) at 3 by (apply Rabs_right; lra). rewrite <- !Rabs_mult. f_equal. unfold mid. field. auto. }
          apply Rabs_le_inv in L. lra. }
        exists (Rmax 0 (Rmax a a')).
        assert (Km : 0 <= Rmax 0 (Rmax a a') <= M /\ a <= Rmax 0 (Rmax a a') <= c /\ a' <= Rmax 0 (Rmax a a') <= c').
        { unfold Rmax. destruct (Rle_dec a a'); [destruct (Rle_dec 0 a')|destruct (Rle_dec 0 a)]; lra. }
        split; [tauto|]. split; [apply Hs|apply Hs']; tauto.
  Qed.
End Exact.

Lemma touches_mono p1 p2 (M M' : R) x n : (M <= M')%R -> inside x n -> touches p1 p2 M x -> touches p1 p2 M' n.
Proof.
  intros HM (A & B & C & D) (t & Ht & Hx & Hy). cbn [nle R_Num] in *. rewrite Rle_bool_true' in *. exists t. lra.
Qed.
Lemma clipped_app M a b : clipped M (a ++ b) = clipped (clipped M a) b.
Proof. unfold clipped. apply fold_left_app. Qed.
Lemma box_ok_R (b : aabb R) : box_ok b.
Proof. repeat split. Qed.

Section Report.
  Local Open Scope R_scope.
  Context {U : Type}.
  Notation node := (node R U).
  Notation tree := (tree R U).
  Context (p1 p2 v abs_v : vec2 R) (cb : ray_calls -> ray_input R -> nat -> R).
  Context (Hclip : forall h inp i, 0 <= ray_max inp -> cb h inp i <= ray_max inp).
  Context (Htp : forall M b, touches p1 p2 M b -> pass p1 p2 v abs_v M b = true).
  Context (Hpt : forall M b, 0 <= M -> box_valid b -> pass p1 p2 v abs_v M b = true -> touches p1 p2 M b).
  Notation wlk := (walk (U:=U) (history cb) p1 p2 v abs_v).

  Definition nonstop (c : nat * R) : Prop := snd c <> 0.

  Lemma walk_report (ns : list node) x : forall p h M, rep ubox ns p x -> NoDup (leaves x) -> 0 <= M ->
    (forall j, In j (leaves x) -> box_valid (nbox ns j)) ->
    exists new M' stop, wlk ns x (h, M, false) = (h ++ new, M', stop) /\
      incl (map fst new) (leaves x) /\ NoDup (map fst new) /\ 0 <= M' <= M /\
      (forall j, In j (map fst new) -> touches p1 p2 M (nbox ns j)) /\
      if stop then exists init i, new = init ++ [(i, 0)] /\ Forall nonstop init
      else M' = clipped M new /\ Forall nonstop new /\
           forall j, In j (leaves x) -> touches p1 p2 M' (nbox ns j) -> In j (map fst new).
  Proof.
    induction x as [i|i l IHl r IHr]; intros p h M Hrep Hnd HM Hval.
    - cbn [walk fst snd sid]. destruct (pass p1 p2 v abs_v M (nbox ns i)) eqn:Ep.
      + assert (Ht : touches p1 p2 M (nbox ns i)) by (apply Hpt; auto; apply Hval; cbn; auto).
        unfold wcall, history. set (val := cb h (RayIn p1 p2 M) i).
        assert (Hv : val <= M) by (apply Hclip; exact HM).
        cbn [neqb nlt nofZ R_Num]. destruct (Req_bool_spec val 0) as [E|E].
        * exists [(i, val)], M, true. split; [reflexivity|]. cbn [map fst leaves]. split; [apply incl_refl|]. split; [repeat constructor; auto|].
          split; [lra|]. split; [intros j [<-|[]]; auto|]. exists [], i. rewrite E. auto.
        * destruct (Rlt_bool_spec 0 val) as [E2|E2].
          -- exists [(i, val)], val, false. split; [reflexivity|]. cbn [map fst leaves]. split; [apply incl_refl|]. split; [repeat constructor; auto|].
             split; [lra|]. split; [intros j [<-|[]]; auto|]. unfold clipped. cbn [fold_left snd]. rewrite Rlt_bool_true by lra.
             split; [reflexivity|]. split; [constructor; [exact E|constructor]|intros j Hj _; exact Hj].
          -- exists [(i, val)], M, false. split; [reflexivity|]. cbn [map fst leaves]. split; [apply incl_refl|]. split; [repeat constructor; auto|].
             split; [lra|]. split; [intros j [<-|[]]; auto|]. unfold clipped. cbn [fold_left snd]. rewrite Rlt_bool_false by lra.
             split; [reflexivity|]. split; [constructor; [exact E|constructor]|intros j Hj _; exact Hj].
      + exists [], M, false. rewrite app_nil_r. split; [reflexivity|]. cbn [map leaves]. split; [apply incl_nil_l|]. split; [constructor|]. split; [lra|].
        split; [intros _ []|]. split; [reflexivity|]. split; [constructor|]. intros j [<-|[]] Ht. apply Htp in Ht. congruence.
    - assert (Hin : forall j, In j (leaves (SN i l r)) -> inside (nbox ns j) (nbox ns i)).
      { intros j Hj. apply (visits_complete ns (fun _ => true) (SN i l r)) with (p := p); auto. intros ? ? ?; auto. intros; apply box_ok_R. }
      cbn [leaves] in *. apply NoDup_app_iff' in Hnd. destruct Hnd as (N1 & N2 & N3).
      destruct Hrep as (_ & Hl & Hr).
      cbn [walk fst snd sid]. destruct (pass p1 p2 v abs_v M (nbox ns i)) eqn:Ep.
      + destruct (IHr (Some i) h M Hr N2 HM) as (new1 & M1 & stop1 & E1 & I1 & D1 & B1 & T1 & S1); [intros; apply Hval; apply in_app_iff; auto|].
        rewrite E1. destruct stop1.
        * rewrite walk_stop. exists new1, M1, true. split; [reflexivity|]. split; [intros j Hj; apply in_app_iff; auto|]. auto.
        * destruct S1 as (C1 & F1 & K1).
          destruct (IHl (Some i) (h ++ new1) M1 Hl N1) as (new2 & M2 & stop2 & E2 & I2 & D2 & B2 & T2 & S2); [tauto|intros; apply Hval; apply in_app_iff; auto|].
          exists (new1 ++ new2), M2, stop2. split; [rewrite app_assoc; exact E2|]. rewrite map_app.
          split; [intros j Hj; apply in_app_iff in Hj; apply in_app_iff; destruct Hj; auto|].
          split; [apply NoDup_app_iff'; repeat split; auto; intros j J1 J2; eapply N3; eauto|].
          split; [lra|]. split.
          { intros j Hj. apply in_app_iff in Hj. destruct Hj as [Hj|Hj]; auto. apply (touches_mono p1 p2 M1 M (nbox ns j)); auto. lra. apply inside_refl, box_ok_R. }
          destruct stop2.
          -- destruct S2 as (init & i0 & -> & F2). exists (new1 ++ init), i0. rewrite app_assoc. split; auto. apply Forall_app; auto.
          -- destruct S2 as (C2 & F2 & K2). split; [now rewrite clipped_app, <- C1|]. split; [apply Forall_app; auto|].
             intros j Hj Ht. apply in_app_iff. apply in_app_iff in Hj. destruct Hj as [Hj|Hj]; auto. left. apply K1; auto.
             apply (touches_mono p1 p2 M2 M1 (nbox ns j)); auto. lra. apply inside_refl, box_ok_R.
      + exists [], M, false. rewrite app_nil_r. split; [reflexivity|]. cbn [map]. split; [apply incl_nil_l|]. split; [constructor|]. split; [lra|].
        split; [intros _ []|]. split; [reflexivity|]. split; [constructor|]. intros j Hj Ht.
        assert (Ht' : touches p1 p2 M (nbox ns i)) by (apply (touches_mono p1 p2 M M (nbox ns j)); auto; lra). apply Htp in Ht'. congruence.
  Qed.
End Report.

Lemma normalize_pos (d : vec2 R) : (0 < vx d * vx d + vy d * vy d)%R -> exists k, (0 < k)%R /\ snd (vnormalize d) = V2 (k * vx d)%R (k * vy d)%R.
Proof.
  intros H. unfold vnormalize, vlen. cbn [nlt nadd nmul nsqrt nsub ndiv nofZ R_Num]. destruct Rlt_bool.
  - exists 1%R. split; [lra|]. cbn [snd]. destruct d as [x y]. cbn. f_equal; ring.
  - cbn [snd]. exists (1 / sqrt (vx d * vx d + vy d * vy d))%R. split; [|f_equal; ring].
    apply Rdiv_lt_0_compat; [lra|]. now apply sqrt_lt_R0.
Qed.

Section RayCast.
  Local Open Scope R_scope.
  Context {U : Type}.
  Notation node := (node R U).
  Notation tree := (tree R U).
  Notation pmap := (@pmap R U).

  Lemma c08_sim (t : tree) (m : pmap) (cb : ray_calls -> ray_input R -> nat -> R) (input : ray_input R) :
    sim (Q:=ubox) t m -> (forall id b u f, m id = Some (b, u, f) -> box_valid b) ->
    ray_p1 input <> ray_p2 input -> 0 <= ray_max input ->
    (forall h inp i, 0 <= ray_max inp -> cb h inp i <= ray_max inp) ->
    exists calls, ray_cast t (history cb) [] input = Ok calls /\
      NoDup (map fst calls) /\
      (forall id, In id (map fst calls) -> exists fb u f, m id = Some (fb, u, f) /\ touches (ray_p1 input) (ray_p2 input) (ray_max input) fb) /\
      ((exists init i, calls = init ++ [(i, 0)] /\ Forall (fun c => snd c <> 0) init) \/
       (Forall (fun c => snd c <> 0) calls /\
        forall id fb u f, m id = Some (fb, u, f) -> touches (ray_p1 input) (ray_p2 input) (clipped (ray_max input) calls) fb -> In id (map fst calls))).
  Proof.
    intros (o & F & I & C) Hval Hp HM Hclip. destruct input as [p1 p2 M]. cbn [ray_p1 ray_p2 ray_max] in *.
    assert (Hd : 0 < (vx p2 - vx p1) * (vx p2 - vx p1) + (vy p2 - vy p1) * (vy p2 - vy p1)).
    { destruct (Req_dec (vx p2 - vx p1) 0) as [Ex|Ex]; [destruct (Req_dec (vy p2 - vy p1) 0) as [Ey|Ey]|].
      - exfalso. apply Hp. destruct p1 as [a1 b1], p2 as [a2 b2]. cbn [vx vy] in *. f_equal; lra.
      - apply Rplus_le_lt_0_compat; [apply Rle_0_sqr|now apply Rsqr_pos_lt].
      - apply Rplus_lt_le_0_compat; [now apply Rsqr_pos_lt|apply Rle_0_sqr]. }
    destruct (normalize_pos (vsub p2 p1)) as (k & Hk & Enorm). { cbn [vsub vx vy nsub R_Num]. exact Hd. }
    unfold ray_cast. cbn [ray_p1 ray_p2 ray_max]. rewrite Enorm.
    replace (nlt (nofZ 0) (vlen2 (vsub p2 p1))) with true by (symmetry; cbn [nlt nofZ R_Num vlen2 vsub vx vy nadd nmul nsub]; apply Rlt_bool_true; exact Hd).
    cbn [b2_assert bind vsub vx vy nsub R_Num].
    assert (Ev : b2_cross_sv (nofZ 1) (V2 (k * (vx p2 - vx p1)) (k * (vy p2 - vy p1))) = V2 (- (k * (vy p2 - vy p1))) (k * (vx p2 - vx p1))).
    { unfold b2_cross_sv. cbn [vx vy nneg nmul nofZ R_Num]. f_equal; ring. }
    rewrite Ev. set (v := V2 (- (k * (vy p2 - vy p1))) (k * (vx p2 - vx p1))). cbv zeta.
    destruct (gs_new_ok 256 (Some 0%nat)) as [Hw Ha]. remember (gs_new (Some 0%nat) 256) as st0.
    destruct (gs_push_ok 256 st0 (t_root t) Hw) as (st & E & Hw' & Ha'). rewrite E. cbn [bind]. rewrite Ha in Ha'.
    assert (HL := sim_live t m o F I C).
    pose proof (inv_nodup _ _ _ _ I) as Hnd. rewrite app_nil_r in Hnd. apply NoDup_app_iff' in Hnd. destruct Hnd as [Hnd _].
    destruct o as [sp|].
    2:{ destruct I as (A1 & A2 & A3 & A4 & A5 & A6). cbn [rooted] in A6. rewrite A6 in *. exists []. cbn [Nat.add ray_loop]. rewrite (gs_count_ok 256), Ha' by auto. cbn [length Nat.ltb Nat.leb].
        destruct (gs_pop_ok 256 st None [] Hw' Ha') as (st' & -> & Hw'' & Ha''). cbn [bind].
        split; [destruct (length (t_nodes t)); cbn [ray_loop]; rewrite (gs_count_ok 256), Ha'' by auto; reflexivity|].
        split; [constructor|]. split; [intros _ []|]. right. split; [constructor|]. intros id fb u f Hm. exfalso.
        apply (proj2 (HL id)). unfold live. congruence. }
    assert (Hlk : forall j, In j (leaves sp) -> exists u f, m j = Some (nbox (t_nodes t) j, u, f)).
    { intros j Hj. destruct (inv_leaf_node _ _ _ _ _ I Hj) as (n & Hn & _). exists (n_user n), (n_moved n).
      rewrite <- C, content_in by auto. unfold nbox. rewrite Hn. reflexivity. }
    destruct I as (A1 & A2 & A3 & A4 & A5 & A6). cbn [rooted] in A6. destruct A6 as [Hroot Hrep]. rewrite Hroot in *.
    rewrite (ray_loop_ok (Q:=ubox) (history cb) p1 p2 v (b2_abs_vec2 v) (t_nodes t) _ [sp]); auto.
    2:{ intros x [<-|[]]. eauto. }
    2:{ cbn [flat_map]. rewrite app_nil_r. cbn [oids] in A4. rewrite app_nil_r in A4. apply Permutation_length in A4.
        rewrite app_length, seq_length in A4. lia. }
    cbn [fold_left].
    destruct (walk_report (U:=U) p1 p2 v (b2_abs_vec2 v) cb Hclip (touch_pass p1 p2 k) (pass_touch p1 p2 k Hk Hd) (t_nodes t) sp None [] M Hrep)
      as (new & M' & stop & Ew & Wi & Wn & WM & Wt & Ws); auto.
    { now apply leaves_nodup. }
    { intros j Hj. destruct (Hlk j Hj) as (u & f & Hm). eapply Hval; eauto. }
    rewrite Ew. cbn [fst app]. exists new. split; [reflexivity|]. split; auto. split.
    - intros id Hid. destruct (Hlk id (Wi _ Hid)) as (u & f & Hm). exists (nbox (t_nodes t) id), u, f. auto.
    - destruct stop; [left; exact Ws|right]. destruct Ws as (Wc & Wf & Wa). split; [exact Wf|]. intros id fb u f Hm Ht.
      assert (Hid : In id (leaves sp)) by (apply HL; unfold live; congruence).
      destruct (Hlk id Hid) as (u' & f' & Hm'). apply Wa; auto. rewrite Hm in Hm'. injection Hm' as -> _ _. now rewrite Wc.
  Qed.
End RayCast.
