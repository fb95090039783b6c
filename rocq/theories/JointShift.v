(** Joints do not see where the origin is. Exact real arithmetic. *)
From Coq Require Import List ZArith Lia Bool Arith Reals Lra.
From Verif Require Import Base ListFacts Num NumLaws RTac Math Manifold DynModel SolverModel IslandModel SolverSpec JointModel JointSpec JointDefModel JointDefSpec.
Import ListNotations.
Local Open Scope R_scope.

Section Shift.
  Variable o : vec2 R.
  Notation mv := (move_pos o).
  Lemma gap_1 (cb rb ca ra : vec2 R) : vsub (vsub (vadd (minus cb o) rb) (minus ca o)) ra = vsub (vsub (vadd cb rb) ca) ra.
  Proof. unfold minus. apply vec2_ext; rmathc; ring. Qed.
  Lemma gap_2 (cb rb ca ra : vec2 R) : vsub (vadd (vsub (minus cb o) (minus ca o)) rb) ra = vsub (vadd (vsub cb ca) rb) ra.
  Proof. unfold minus. apply vec2_ext; rmathc; ring. Qed.
  Lemma gap_3 (c r g : vec2 R) : vsub (vadd (minus c o) r) (vsub g o) = vsub (vadd c r) g.
  Proof. unfold minus. apply vec2_ext; rmathc; ring. Qed.
  Lemma gap_4 (ca cb : vec2 R) : vsub (minus ca o) (minus cb o) = vsub ca cb.
  Proof. unfold minus. apply vec2_ext; rmathc; ring. Qed.
  Lemma less (c x : vec2 R) : vsub (minus c o) x = minus (vsub c x) o.
  Proof. unfold minus. apply vec2_ext; rmathc; ring. Qed.
  Lemma more (c x : vec2 R) : vadd (minus c o) x = minus (vadd c x) o.
  Proof. unfold minus. apply vec2_ext; rmathc; ring. Qed.

  (** ** preparing *)
  Ltac same F := intros; unfold F, move_pos; cbn [p_c p_a ms_lb ms_target ms_stiff ms_damp ms_force pu_ga pu_gb pu_la pu_lb pu_const pu_ratio]; rewrite ?gap_1, ?gap_2, ?gap_3; reflexivity.
  Lemma rev_frame_mv d c pa pb : rev_frame d c (mv pa) (mv pb) = rev_frame d c pa pb. Proof. same @rev_frame. Qed.
  Lemma pri_frame_mv d c f pa pb : pri_frame d c f (mv pa) (mv pb) = pri_frame d c f pa pb. Proof. same @pri_frame. Qed.
  Lemma dis_frame_mv step d c pa pb : dis_frame step d c (mv pa) (mv pb) = dis_frame step d c pa pb. Proof. same @dis_frame. Qed.
  Lemma wel_frame_mv step d c pa pb : wel_frame step d c (mv pa) (mv pb) = wel_frame step d c pa pb. Proof. same @wel_frame. Qed.
  Lemma whe_frame_mv step d c f pa pb : whe_frame step d c f (mv pa) (mv pb) = whe_frame step d c f pa pb. Proof. same @whe_frame. Qed.
  Lemma fri_frame_mv d c pa pb : fri_frame d c (mv pa) (mv pb) = fri_frame d c pa pb. Proof. same @fri_frame. Qed.
  Lemma mot_frame_mv d c pa pb : mot_frame d c (mv pa) (mv pb) = mot_frame d c pa pb. Proof. same @mot_frame. Qed.
  Definition mou_mv (d : mou_def R) : mou_def R := MouDef (ms_lb d) (vsub (ms_target d) o) (ms_stiff d) (ms_damp d) (ms_force d).
  Lemma mou_frame_mv step d c pb : mou_frame step (mou_mv d) c (mv pb) = mou_frame step d c pb.
  Proof. unfold mou_mv. same @mou_frame. Qed.
  Definition pul_mv (d : pul_def R) : pul_def R := PulDef (vsub (pu_ga d) o) (vsub (pu_gb d) o) (pu_la d) (pu_lb d) (pu_const d) (pu_ratio d).
  Lemma pul_frame_mv d c pa pb : pul_frame (pul_mv d) c (mv pa) (mv pb) = pul_frame d c pa pb.
  Proof. unfold pul_mv. same @pul_frame. Qed.
  Lemma gea_frame_mv d ca cc pa pb pc pd : gea_frame d ca cc (mv pa) (mv pb) (mv pc) (mv pd) = gea_frame d ca cc pa pb pc pd. Proof. reflexivity. Qed.

  (** ** the positions *)
  Definition mv2 (r : (pos R * pos R) * bool) : (pos R * pos R) * bool := ((mv (fst (fst r)), mv (snd (fst r))), snd r).
  Definition pp2 (pp : pos R * pos R) : pos R * pos R := (mv (fst pp), mv (snd pp)).
  Lemma jmove_mv c p la lb pp : jmove c p la lb (pp2 pp) = pp2 (jmove c p la lb pp).
  Proof. destruct pp as [pa pb]. unfold jmove, pp2, move_pos. cbn [fst snd p_c p_a]. rewrite less, more. reflexivity. Qed.
  Lemma jmove_mv' c p la lb ca aa cb ab : jmove c p la lb (Pos (minus ca o) aa, Pos (minus cb o) ab) = pp2 (jmove c p la lb (Pos ca aa, Pos cb ab)).
  Proof. apply (jmove_mv c p la lb (Pos ca aa, Pos cb ab)). Qed.
  Lemma rev_pos_mv d c f pp : rev_pos d c f (pp2 pp) = mv2 (rev_pos d c f pp).
  Proof.
    destruct pp as [[ca aa] [cb ab]]. unfold rev_pos. change (rev_angle_error d (pp2 (Pos ca aa, Pos cb ab))) with (rev_angle_error d (Pos ca aa, Pos cb ab)). set (e := rev_angle_error d _). clearbody e.
    unfold pp2, move_pos. cbn [fst snd p_c p_a]. destruct (rv_limit d && negb _); cbn [fst snd p_c p_a]; rewrite gap_1, jmove_mv'; reflexivity.
  Qed.
  Lemma pri_pos_mv d c pp : pri_pos d c (pp2 pp) = mv2 (pri_pos d c pp).
  Proof.
    destruct pp as [[ca aa] [cb ab]]. unfold pri_pos, pp2, move_pos. cbn [fst snd p_c p_a]. rewrite gap_1. set (dd := vsub (vsub _ _) _). clearbody dd.
    destruct (pri_limit_error _ _ _) as [[active c2] le]. rewrite jmove_mv'. reflexivity.
  Qed.
  Lemma dis_pos_mv d c f pp : dis_pos d c f (pp2 pp) = mv2 (dis_pos d c f pp).
  Proof.
    destruct pp as [[ca aa] [cb ab]]. unfold dis_pos, pp2, move_pos. cbn [fst snd p_c p_a]. rewrite gap_1. destruct (vnormalize _) as [l u].
    repeat match goal with |- context [if ?q then _ else _] => destruct q end; rewrite ?jmove_mv'; reflexivity.
  Qed.
  Lemma wel_pos_mv d c pp : wel_pos d c (pp2 pp) = mv2 (wel_pos d c pp).
  Proof.
    destruct pp as [[ca aa] [cb ab]]. unfold wel_pos, pp2, move_pos. cbn [fst snd p_c p_a]. rewrite gap_1.
    destruct (nlt _ (we_stiff d)); rewrite jmove_mv'; reflexivity.
  Qed.
  Lemma whe_pos_mv d c f pp : whe_pos d c f (pp2 pp) = mv2 (whe_pos d c f pp).
  Proof.
    assert (L : whe_pos_limit d c f (pp2 pp) = (pp2 (fst (whe_pos_limit d c f pp)), snd (whe_pos_limit d c f pp))).
    { destruct pp as [[ca aa] [cb ab]]. unfold whe_pos_limit, pp2, move_pos. cbn [fst snd p_c p_a]. rewrite gap_2. destruct (negb _); rewrite ?jmove_mv'; reflexivity. }
    unfold whe_pos. rewrite L. destruct (whe_pos_limit d c f pp) as [p1 le]. destruct (wh_limit d).
    - cbn [fst snd]. destruct p1 as [[ca aa] [cb ab]]. unfold pp2, move_pos. cbn [fst snd p_c p_a]. rewrite gap_2, jmove_mv'. reflexivity.
    - clear p1 L. destruct pp as [[ca aa] [cb ab]]. unfold pp2, move_pos. cbn [fst snd p_c p_a]. rewrite gap_2, jmove_mv'. reflexivity.
  Qed.
  Lemma pul_pos_mv d c pp : pul_pos (pul_mv d) c (pp2 pp) = mv2 (pul_pos d c pp).
  Proof.
    destruct pp as [pa pb]. unfold pul_pos. unfold pp2 at 1. cbn [fst snd]. rewrite pul_frame_mv. set (f := pul_frame _ _ _ _). clearbody f.
    unfold move_pos, pul_mv. cbn [p_c p_a pu_ga pu_gb pu_const pu_ratio]. rewrite !gap_3. unfold pul_kick, mv2, move_pos. cbn [s_va s_wa s_vb s_wb fst snd p_c p_a]. rewrite !more. reflexivity.
  Qed.
  (* all of [s] *)
  Definition mvs (s : pair R) : pair R := Pair (minus (s_va s) o) (s_wa s) (minus (s_vb s) o) (s_wb s).
  Lemma gea_pos_mv d ca cc pa pb pc pd :
    gea_pos d ca cc (mv pa) (mv pb) (mv pc) (mv pd) = ((mvs (fst (fst (gea_pos d ca cc pa pb pc pd))), mvs (snd (fst (gea_pos d ca cc pa pb pc pd)))), snd (gea_pos d ca cc pa pb pc pd)).
  Proof.
    unfold gea_pos. change (gea_jac d ca cc (mv pa) (mv pb) (mv pc) (mv pd)) with (gea_jac d ca cc pa pb pc pd). destruct (gea_jac _ _ _ _ _ _ _) as [[[[[[jvac jvbd] jwa] jwb] jwc] jwd] mass].
    assert (G : forall axis lc lcc la lca p q, gear_coord axis lc lcc la lca (mv p) (mv q) = gear_coord axis lc lcc la lca p q) by (intros; unfold gear_coord, move_pos; cbn [p_c p_a]; rewrite gap_4; reflexivity).
    rewrite !G. unfold move_pos. cbn [p_c p_a]. unfold gea_kick, mvs. cbn [s_va s_wa s_vb s_wb fst snd ge_jvac ge_jvbd ge_jwa ge_jwb ge_jwc ge_jwd]. rewrite !more, !less. reflexivity.
  Qed.

  (** ** on the buffers *)
  Lemma zget_mv poss i : zget (map mv poss) i = (p <- zget poss i ;; Ok (mv p)).
  Proof. unfold zget, get. destruct (i <? 0)%Z; [reflexivity|]. rewrite nth_error_map. destruct (nth_error poss _); reflexivity. Qed.
  Lemma upd_map {A B} (f : A -> B) l i x : upd (map f l) i (f x) = map f (upd l i x).
  Proof. revert i. induction l as [|y l IH]; intros [|i]; cbn; try reflexivity. rewrite IH. reflexivity. Qed.
  Lemma zset_mv poss i p : zset (map mv poss) i (mv p) = (l <- zset poss i p ;; Ok (map mv l)).
  Proof. unfold zset, set. destruct (i <? 0)%Z; [reflexivity|]. rewrite map_length, upd_map. destruct (Nat.ltb _ _); reflexivity. Qed.
  Definition mvr (r : list (pos R) * bool) : res (list (pos R) * bool) := Ok (map mv (fst r), snd r).
  Lemma on_pos_mv c f g poss : (forall pp, g (pp2 pp) = mv2 (f pp)) -> on_pos c g (map mv poss) = (r <- on_pos c f poss ;; mvr r).
  Proof.
    intros FG. unfold on_pos. rewrite !zget_mv. destruct (zget poss (jc_a c)) as [pa| |]; try reflexivity. destruct (zget poss (jc_b c)) as [pb| |]; try reflexivity. cbn [bind].
    change (mv pa, mv pb) with (pp2 (pa, pb)). rewrite FG. destruct (f (pa, pb)) as [[qa qb] okay]. unfold mv2. cbn [fst snd]. rewrite zset_mv. destruct (zset poss (jc_a c) qa) as [l| |]; try reflexivity. cbn [bind]. rewrite zset_mv. destruct (zset l (jc_b c) qb); reflexivity.
  Qed.
  Lemma joint_pos_mv j poss : joint_pos (move_joint o j) (map mv poss) = (r <- joint_pos j poss ;; mvr r).
  Proof.
    destruct j as [k c c2]. unfold joint_pos, move_joint. cbn [j_kind j_com j_com2]. destruct k; cbn [shift_origin];
      try (apply on_pos_mv; intros pp; first [apply rev_pos_mv|apply pri_pos_mv|apply dis_pos_mv|apply wel_pos_mv|apply whe_pos_mv|apply pul_pos_mv]); try reflexivity.
    rewrite !zget_mv. destruct (zget poss (jc_a c)) as [pa| |]; try reflexivity. destruct (zget poss (jc_b c)) as [pb| |]; try reflexivity. destruct (zget poss (jc_a c2)) as [pc| |]; try reflexivity. destruct (zget poss (jc_b c2)) as [pd| |]; try reflexivity. cbn [bind].
    rewrite gea_pos_mv. destruct (gea_pos _ _ _ _ _ _ _) as [[sab scd] okay]. cbn [fst snd]. unfold mvs. cbn [s_va s_wa s_vb s_wb].
    assert (Z : forall l (i : Z) x w, zset (map mv l) i (Pos (minus x o) w) = (m <- zset l i (Pos x w) ;; Ok (map mv m))) by (intros l z x w; apply (zset_mv l z (Pos x w))).
    rewrite Z. destruct (zset poss _ _) as [l1| |]; try reflexivity. cbn [bind]. rewrite Z. destruct (zset l1 _ _) as [l2| |]; try reflexivity. cbn [bind]. rewrite Z. destruct (zset l2 _ _) as [l3| |]; try reflexivity. cbn [bind]. rewrite Z. destruct (zset l3 _ _) as [l4| |]; reflexivity.
  Qed.
  Definition mvk (r : jkind R * list (vel R)) : res (jkind R * list (vel R)) := Ok (shift_origin o (fst r), snd r).
  Lemma kind_init_mv step k c c2 poss vels : kind_init step (shift_origin o k) c c2 (map mv poss) vels = (r <- kind_init step k c c2 poss vels ;; mvk r).
  Proof.
    destruct k; cbn [shift_origin kind_init]; rewrite !zget_mv;
      repeat (match goal with |- context [zget poss ?i] => destruct (zget poss i) as [?p| |]; try reflexivity; cbn [bind] end);
      rewrite ?rev_frame_mv, ?pri_frame_mv, ?dis_frame_mv, ?wel_frame_mv, ?whe_frame_mv, ?fri_frame_mv, ?mot_frame_mv, ?gea_frame_mv;
      try fold (mou_mv d); try fold (pul_mv d); rewrite ?mou_frame_mv, ?pul_frame_mv;
      match goal with |- bind ?m _ = bind (bind ?n _) _ => change m with n; destruct n as [[? ?]| |]; reflexivity end.
  Qed.
  Lemma kind_vel_mv step k c c2 vels : kind_vel step (shift_origin o k) c c2 vels = (r <- kind_vel step k c c2 vels ;; mvk r).
  Proof.
    destruct k; cbn [shift_origin kind_vel];
      match goal with |- bind ?m _ = bind (bind ?n _) _ => change m with n; destruct n as [[? ?]| |]; reflexivity end.
  Qed.
  Notation mvj := (move_jin o).
  Lemma init_mv step x poss vels : js_init joint_solver step (mvj x) (map mv poss) vels = (r <- js_init joint_solver step x poss vels ;; Ok (mvj (fst (fst r)), map mv (snd (fst r)), snd r)).
  Proof.
    destruct x as [[k c1 c2] a b c d]. unfold joint_solver, move_jin, move_joint, joint_init. cbn [js_init ji_joint ji_a ji_b ji_c ji_d j_kind j_com j_com2]. rewrite kind_init_mv.
    destruct (kind_init step k _ _ poss vels) as [[k' vels']| |]; reflexivity.
  Qed.
  Lemma vel_mv step x vels : js_vel joint_solver step (mvj x) vels = (r <- js_vel joint_solver step x vels ;; Ok (mvj (fst r), snd r)).
  Proof.
    destruct x as [[k c1 c2] a b c d]. unfold joint_solver, move_jin, move_joint, joint_vel. cbn [js_vel ji_joint ji_a ji_b ji_c ji_d j_kind j_com j_com2]. rewrite kind_vel_mv.
    destruct (kind_vel step k _ _ vels) as [[k' vels']| |]; reflexivity.
  Qed.
  Lemma each_item_map {C S} (m : C -> C) (t : S -> S) (f : C -> S -> res (C * S)) (g : C -> S -> res (C * S)) : (forall x s, g (m x) (t s) = (r <- f x s ;; Ok (m (fst r), t (snd r)))) ->
    forall l s, each_item g (map m l) (t s) = (r <- each_item f l s ;; Ok (map m (fst r), t (snd r))).
  Proof.
    intros FG l. induction l as [|x l IH]; intros s; cbn [map each_item]; [reflexivity|]. rewrite FG. destruct (f x s) as [[x' s']| |]; try reflexivity. cbn [bind fst snd]. rewrite IH. destruct (each_item f l s') as [[l' s'']| |]; reflexivity.
  Qed.
  Lemma joint_phase_mv step n js poss vels :
    joint_phase step n (map mvj js) (map mv poss) vels = (r <- joint_phase step n js poss vels ;; Ok (map mvj (fst r), snd r)).
  Proof.
    unfold joint_phase.
    match goal with |- bind (each_item ?f _ _) _ = _ => assert (X : each_item f (map mvj js) (map mv poss, vels) = (r <- each_item f js (poss, vels) ;; Ok (map mvj (fst r), (map mv (fst (snd r)), snd (snd r))))) end.
    { refine (each_item_map mvj (fun st : list (pos R) * list (vel R) => (map mv (fst st), snd st)) _ _ _ js (poss, vels)). intros x s. cbn [fst snd]. rewrite init_mv. destruct (js_init joint_solver step x (fst s) (snd s)) as [[[? ?] ?]| |]; reflexivity. }
    rewrite X. clear X.
    destruct (each_item _ js (poss, vels)) as [[js1 [poss1 vels1]]| |]; try reflexivity. cbn [bind fst snd]. unfold for_range. generalize 0%nat at 2 4. generalize (n - 0)%nat. intros m. revert js1 vels1. induction m as [|m IH]; intros js1 vels1 z; cbn [for_from]; [reflexivity|].
    cbn [fst snd]. rewrite (each_item_map mvj (fun v : list (vel R) => v) (js_vel joint_solver step) (js_vel joint_solver step) (fun x s => vel_mv step x s)). destruct (each_item _ js1 vels1) as [[js2 vels2]| |]; try reflexivity. cbn [bind fst snd]. apply IH.
  Qed.
End Shift.
