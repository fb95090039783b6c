(** Concrete histories used to show that the hypotheses of the tree theorems can be met, and as counterexamples. *)
From Coq Require Import List ZArith Bool Arith Lia Permutation Reals Lra.
From Flocq Require Import Core IEEE754.BinarySingleNaN.
From Verif Require Import Base Num NumLaws Math Collision StackModel StackSpec StackProofs TreeModel TreeSpec TreeRep TreeHist TreeQuery TreeRay TreeFinal.
Import ListNotations.

Definition fbox (a b c d : Z) : aabb f32 := AABB (V2 (f32_ofZ a) (f32_ofZ b)) (V2 (f32_ofZ c) (f32_ofZ d)).
Definition fvec (a b : Z) : vec2 f32 := V2 (f32_ofZ a) (f32_ofZ b).
Definition fcmd := cmd (T:=f32) (U:=nat).
Definition ftree := tree f32 nat.
Definition row (n : nat) : list fcmd :=
  map (fun i => CCreate (fbox (Z.of_nat i * 10) 0 (Z.of_nat i * 10 + 1) 1) (100 + i)) (seq 0 n).

Definition no_tree : ftree := Tree None [] 0 0 None 0.
Definition hist (cs : list fcmd) : option (ftree * pmap) :=
  match tree_new with Ok t => exec cs t pempty | _ => None end.
Definition htree cs : ftree := match hist cs with Some (t, _) => t | None => no_tree end.
Definition hmap cs : pmap (T:=f32) (U:=nat) := match hist cs with Some (_, m) => m | None => pempty end.

Lemma hist_reach (oks : vec2 f32 -> Prop) cs : Forall (shifts_ok oks) cs -> (if hist cs then true else false) = true -> reach oks (htree cs) (hmap cs).
Proof.
  unfold htree, hmap, hist. intros Hs. destruct tree_new as [t| |] eqn:E; try discriminate.
  destruct (exec cs t pempty) as [[t1 m1]|] eqn:E1; try discriminate. intros _. apply (exec_reach oks cs t pempty); auto. now apply reach_new.
Qed.

Lemma reach_cap {T} {NT : Num T} {U} (t : tree T U) m id : reach (fun _ => True) t m -> live m id -> id < t_cap t.
Proof.
  intros H Hl. destruct (c03_any t m H) as (is & ls & F & H1 & _ & _ & _ & H5 & H6). apply H6 in Hl.
  assert (Hin : In id is).
  { destruct (t_root t) as [r|]; [|destruct H1; subst; auto]. destruct H1 as (h & H1). revert Hl. clear - H1.
    induction H1; intros HH; auto. apply in_app_iff in HH. right. apply in_app_iff. tauto. }
  assert (K : In id (seq 0 (t_cap t))) by (rewrite <- H5; apply in_app_iff; auto). apply in_seq in K. lia.
Qed.

(* decide a property of all live boxes by evaluating the map below the capacity *)
Lemma all_boxes_dec {T} {NT : Num T} {U} (P : aabb T -> Prop) (p : aabb T -> bool) (t : tree T U) m :
  (forall b, p b = true -> P b) -> reach (fun _ => True) t m ->
  forallb (fun id => match m id with Some (b, _, _) => p b | None => true end) (seq 0 (t_cap t)) = true -> all_boxes P m.
Proof.
  intros Hp Hr H id b u f Hm. apply Hp. rewrite forallb_forall in H. specialize (H id). rewrite Hm in H. apply H.
  apply in_seq. split; [lia|]. apply (reach_cap t m id Hr). unfold live. congruence.
Qed.

Definition fokb (x : f32) : bool := negb (is_nan x).
Definition box_okb (b : aabb f32) : bool := fokb (vx (lo b)) && fokb (vy (lo b)) && fokb (vx (hi b)) && fokb (vy (hi b)).
Lemma box_okb_ok b : box_okb b = true -> box_ok b.
Proof. unfold box_okb, fokb. rewrite !andb_true_iff, !negb_true_iff. intros (((A & B) & C) & D). repeat split; assumption. Qed.
Definition rangeb (x : f32) : bool := nle (nofZ (-2^124)) x && nle x (nofZ (2^124)).
Definition box_rangeb (b : aabb f32) : bool := rangeb (vx (lo b)) && rangeb (vy (lo b)) && rangeb (vx (hi b)) && rangeb (vy (hi b)).
Lemma box_rangeb_ok b : box_rangeb b = true -> box_in_range b.
Proof. unfold box_rangeb, rangeb. rewrite !andb_true_iff. unfold box_in_range, in_range. tauto. Qed.

(** A history with growth of the pool, rotations, recycling, moves (kept and re-inserted), a shift and a rebuild. *)
Definition ex_cmds : list fcmd :=
  row 12 ++ [CDestroy 3; CDestroy 0; CCreate (fbox (-5) (-5) 200 3) 7; CMove 5 (fbox 40 0 41 1) (fvec 0 0);
             CMove 7 (fbox 300 300 301 301) (fvec 1 (-1)); CClear 7; CShift (fvec 10 20); CRebuild;
             CCreate (fbox 0 0 1 1) 8; CDestroy 9].
Definition ex_tree : ftree := htree ex_cmds.
Definition ex_map := hmap ex_cmds.

Lemma ex_shifts : Forall (shifts_ok vec_fin) ex_cmds.
Proof. unfold ex_cmds, row. cbn [map seq app]. repeat constructor. Qed.
Lemma ex_reach : reach vec_fin ex_tree ex_map.
Proof. apply hist_reach; [apply ex_shifts|vm_compute; reflexivity]. Qed.
Lemma ex_reach_any : reach (fun _ => True) ex_tree ex_map.
Proof. eapply reach_weaken, ex_reach. Qed.
Lemma ex_range : all_boxes box_in_range ex_map.
Proof. apply (all_boxes_dec _ box_rangeb ex_tree); [apply box_rangeb_ok|apply ex_reach_any|vm_compute; reflexivity]. Qed.
Lemma ex_ok : all_boxes box_ok ex_map.
Proof. apply (all_boxes_dec _ box_okb ex_tree); [apply box_okb_ok|apply ex_reach_any|vm_compute; reflexivity]. Qed.
Definition liveb {T U} (m : pmap (T:=T) (U:=U)) (id : nat) : bool := if m id then true else false.
Lemma liveb_live {T U} (m : pmap (T:=T) (U:=U)) id : liveb m id = true -> live m id.
Proof. unfold liveb, live. now destruct (m id). Qed.
Lemma liveb_dead {T U} (m : pmap (T:=T) (U:=U)) id : liveb m id = false -> m id = None.
Proof. unfold liveb. now destruct (m id). Qed.
Lemma ex_live : live ex_map 5 /\ live ex_map 7 /\ ex_map 9 = None.
Proof.
  split; [apply liveb_live|split; [apply liveb_live|apply liveb_dead]]; vm_compute; reflexivity.
Qed.

(** A history with NaN boxes and an infinite displacement: the pointer structure must survive. *)
Definition nanbox : aabb f32 := AABB (V2 f32_nan f32_nan) (V2 f32_inf f32_nan).
Definition nan_cmds : list fcmd :=
  row 5 ++ [CCreate nanbox 50; CCreate nanbox 51; CCreate (fbox 7 7 8 8) 52; CMove 1 nanbox (V2 f32_inf f32_nan); CShift (V2 f32_nan f32_inf); CDestroy 0].
Definition nan_tree : ftree := htree nan_cmds.
Definition nan_map := hmap nan_cmds.
Lemma nan_reach : reach (fun _ => True) nan_tree nan_map.
Proof. apply hist_reach; [unfold nan_cmds, row; cbn [map seq app]; repeat constructor|vm_compute; reflexivity]. Qed.

(** Constants of the fat boxes. *)
Lemma f32_ext : nle (nofZ 0) (B2_AABB_EXTENSION : f32) = true. Proof. vm_compute. reflexivity. Qed.
Lemma f32_mul : nlt (nofZ 0) (B2_AABB_MULTIPLIER : f32) = true. Proof. vm_compute. reflexivity. Qed.
Lemma f32_mulf : nfin (B2_AABB_MULTIPLIER : f32). Proof. vm_compute. reflexivity. Qed.

(** ids outside the pool *)
Lemma get_out {A} (l : list A) i : length l <= i -> get l i = Panic.
Proof. intros H. unfold get. rewrite (proj2 (nth_error_None l i)); auto. Qed.
Lemma c10_range {T} {NT : Num T} {U} (t : tree T U) m id : reach (fun _ => True) t m -> t_cap t <= id ->
  destroy_proxy t id = Panic /\ (forall b d, move_proxy t id b d = Panic) /\ get_user_data t id = Panic /\ get_fat_aabb t id = Panic.
Proof.
  intros H Hc. assert (E : (id <? t_cap t) = false) by (apply Nat.ltb_ge; auto).
  unfold destroy_proxy, move_proxy, get_user_data, get_fat_aabb. rewrite E. cbn [b2_assert bind].
  destruct (c03_any t m H) as (_ & _ & _ & _ & _ & Hl & _). rewrite get_out by lia. auto.
Qed.

Lemma c03_new {T} {NT : Num T} {U} : exists t : tree T U, tree_new = Ok t /\ reach (fun _ => True) t pempty.
Proof. eexists. split; [reflexivity|]. now apply reach_new. Qed.

Lemma c05_create_f32 {U} (t t' : tree f32 U) m id b u : reach (fun _ => True) t m -> create_proxy t b u = Ok (t', id) -> box_fin b ->
  exists fb, get_fat_aabb t' id = Ok fb /\ inside b fb.
Proof. apply c05_create. apply f32_ext. Qed.
Lemma c05_move_f32 {U} (t t' : tree f32 U) m id b d r : reach (fun _ => True) t m -> live m id -> move_proxy t id b d = Ok (t', r) ->
  box_fin b -> nok (vx d) -> nok (vy d) -> exists fb, get_fat_aabb t' id = Ok fb /\ inside b fb.
Proof. apply c05_move; [apply f32_ext|apply f32_mul|apply f32_mulf]. Qed.

Lemma ex_stable : exists t m t' m', reach (fun _ => True) t m /\ live m 5 /\
  exec [CDestroy 0; CDestroy 1; CCreate (fbox 0 0 9 9) 55; CMove 9 (fbox 900 900 901 901) (fvec 0 0); CRebuild] t m = Some (t', m') /\
  get_user_data t 5 = Ok (Some 103) /\ get_user_data t' 5 = Ok (Some 103) /\ get_user_data t' 1 = Ok (Some 55).
Proof.
  exists (htree (row 12)), (hmap (row 12)).
  set (cs := [CDestroy 0; CDestroy 1; CCreate (fbox 0 0 9 9) 55; CMove 9 (fbox 900 900 901 901) (fvec 0 0); CRebuild] : list fcmd).
  destruct (exec cs (htree (row 12)) (hmap (row 12))) as [[t' m']|] eqn:E.
  2:{ exfalso. assert (K : (if exec cs (htree (row 12)) (hmap (row 12)) then true else false) = true) by (vm_compute; reflexivity). rewrite E in K. discriminate. }
  exists t', m'.
  assert (K : match exec cs (htree (row 12)) (hmap (row 12)) with Some (t', _) => match get_user_data t' 5, get_user_data t' 1 with Ok (Some a), Ok (Some b) => a =? 103 = true /\ b =? 55 = true | _, _ => False end | None => False end) by (vm_compute; auto).
  rewrite E in K.
  split; [apply hist_reach; [unfold row; cbn [map seq]; repeat constructor|vm_compute; reflexivity]|].
  split; [apply liveb_live; vm_compute; reflexivity|]. split; [reflexivity|]. split; [vm_compute; reflexivity|].
  destruct (get_user_data t' 5) as [[a|]| |]; try tauto. destruct (get_user_data t' 1) as [[b|]| |]; try tauto.
  destruct K as [K1 K2]. apply Nat.eqb_eq in K1, K2. rewrite K1, K2. split; reflexivity.
Qed.

Lemma moves_ex (t : ftree) id b d r : match move_proxy t id b d with Ok (_, r') => Bool.eqb r' r | _ => false end = true -> exists t', move_proxy t id b d = Ok (t', r).
Proof. destruct (move_proxy t id b d) as [[t' r']| |]; try discriminate. intros H. apply eqb_prop in H. subst. eauto. Qed.
Lemma kept_ex (t : ftree) id d : match get_fat_aabb t id with Ok b => match move_proxy t id b d with Ok (_, r') => Bool.eqb r' false | _ => false end | _ => false end = true ->
  exists b t', get_fat_aabb t id = Ok b /\ move_proxy t id b d = Ok (t', false).
Proof. destruct (get_fat_aabb t id) as [b| |]; try discriminate. intros H. apply moves_ex in H. destruct H as (t' & H). eauto. Qed.
Lemma ex_moves : let big := fbox (2^127) (-2^127) (2^127 + 2^126) 5 in
  box_fin big /\ nok (f32_ofZ (2^127)) /\ nok f32_inf /\
  (exists t, move_proxy ex_tree 7 big (V2 (f32_ofZ (2^127)) f32_inf) = Ok (t, true)) /\
  (exists t, move_proxy ex_tree 7 (fbox 290 280 291 281) (fvec 0 0) = Ok (t, true)) /\
  (exists b t, get_fat_aabb ex_tree 7 = Ok b /\ move_proxy ex_tree 7 b (fvec 0 0) = Ok (t, false)).
Proof.
  cbv zeta. split; [|split; [|split; [|split; [|split]]]].
  - unfold box_fin. cbn [lo hi vx vy fbox]. repeat split; vm_compute; reflexivity.
  - vm_compute. reflexivity.
  - vm_compute. reflexivity.
  - apply moves_ex. vm_compute. reflexivity.
  - apply moves_ex. vm_compute. reflexivity.
  - apply kept_ex. vm_compute. reflexivity.
Qed.

Lemma ex_query : query ex_tree (fun l i => (l ++ [i], true)) [] (fbox 0 (-30) 35 (-18)) = Ok [5; 1; 0].
Proof. vm_compute. reflexivity. Qed.
Lemma ex_query_stop : query ex_tree (record (fun n _ => (n + 1, Nat.ltb n 1))) (0, []) (fbox 0 (-30) 35 (-18)) = Ok (2, [(5, true); (1, false)]).
Proof. vm_compute. reflexivity. Qed.

(** counterexamples *)
Definition huge_cmds : list fcmd := [CCreate (fbox (-2^127) 0 (2^127) 1) 1; CCreate (fbox (-2^127) 0 (2^127) 1) 2].
Lemma c09_refuted :
  (exists (t : tree f32 nat) m, reach vec_fin t m /\ (forall id, m id = None) /\ rebuild_bottom_up t = Panic) /\
  (exists (t : tree f32 nat) m, reach vec_fin t m /\ all_boxes box_ok m /\ live m 0 /\ rebuild_bottom_up t = Panic).
Proof.
  split.
  - exists (htree []), (hmap []). split; [apply hist_reach; [constructor|vm_compute; reflexivity]|]. split; [|vm_compute; reflexivity].
    intros id. assert (E : hmap [] = pempty) by (vm_compute; reflexivity). now rewrite E.
  - exists (htree huge_cmds), (hmap huge_cmds).
    assert (Hr : reach vec_fin (htree huge_cmds) (hmap huge_cmds)) by (apply hist_reach; [repeat constructor|vm_compute; reflexivity]).
    split; [exact Hr|]. split; [|split].
    + apply (all_boxes_dec _ box_okb (htree huge_cmds)); [apply box_okb_ok|eapply reach_weaken; exact Hr|vm_compute; reflexivity].
    + apply liveb_live. vm_compute. reflexivity.
    + vm_compute. reflexivity.
Qed.

Definition stale_cmds : list fcmd := row 3 ++ [CDestroy 0].
Lemma c11_refuted :
  (exists t : tree f32 nat, tree_new = Ok t /\ validate t = Panic) /\
  (exists (t : tree f32 nat) m, reach vec_fin t m /\ validate t = Panic /\ live m 0).
Proof.
  split.
  - eexists. split; [reflexivity|]. vm_compute. reflexivity.
  - exists (htree (row 3 ++ [CCreate nanbox 1])), (hmap (row 3 ++ [CCreate nanbox 1])).
    split; [apply hist_reach; [unfold row; cbn [map seq app]; repeat constructor|vm_compute; reflexivity]|].
    split; [vm_compute; reflexivity|]. apply liveb_live. vm_compute. reflexivity.
Qed.

Definition far_cmds : list fcmd := row 8 ++ [CCreate (fbox (-1000000) 0 (-999999) 1) 9].
Lemma some_nth {A} (l : list A) i d : (i <? length l) = true -> nth_error l i = Some (nth i l d).
Proof. intros H. apply Nat.ltb_lt in H. now apply nth_error_nth'. Qed.
Definition far_node i : node f32 nat := nth i (t_nodes (htree far_cmds)) node_default.
Lemma far_nth i : (i <? length (t_nodes (htree far_cmds))) = true -> nth_error (t_nodes (htree far_cmds)) i = Some (far_node i).
Proof. intros H. unfold far_node. rewrite (some_nth _ _ node_default H). reflexivity. Qed.
Lemma c12_refuted : exists (t : tree f32 nat) m i n l r nl nr,
  reach vec_fin t m /\ all_boxes box_ok m /\
  nth_error (t_nodes t) i = Some n /\ n_height n = 3%Z /\ n_child1 n = Some l /\ n_child2 n = Some r /\
  nth_error (t_nodes t) l = Some nl /\ nth_error (t_nodes t) r = Some nr /\
  n_height nl = 2%Z /\ n_height nr = 0%Z /\ get_max_balance t = Ok 2%Z.
Proof.
  exists (htree far_cmds), (hmap far_cmds), 16, (far_node 16), 4, 15, (far_node 4), (far_node 15).
  assert (Hr : reach vec_fin (htree far_cmds) (hmap far_cmds)) by (apply hist_reach; [unfold far_cmds, row; cbn [map seq app]; repeat constructor|vm_compute; reflexivity]).
  split; [exact Hr|]. split; [apply (all_boxes_dec _ box_okb (htree far_cmds)); [apply box_okb_ok|eapply reach_weaken; exact Hr|vm_compute; reflexivity]|].
  split; [apply far_nth; vm_compute; reflexivity|]. split; [vm_compute; reflexivity|]. split; [vm_compute; reflexivity|]. split; [vm_compute; reflexivity|].
  split; [apply far_nth; vm_compute; reflexivity|]. split; [apply far_nth; vm_compute; reflexivity|].
  split; [vm_compute; reflexivity|]. split; vm_compute; reflexivity.
Qed.

Definition stale_tree : ftree := match destroy_proxy (htree stale_cmds) 0 with Ok t => t | _ => no_tree end.
Lemma stale_ok : is_ok (destroy_proxy (htree stale_cmds) 0) = true -> destroy_proxy (htree stale_cmds) 0 = Ok stale_tree.
Proof. unfold stale_tree. now destruct (destroy_proxy (htree stale_cmds) 0). Qed.
Lemma c10_refuted : exists (t t' : tree f32 nat) m id,
  reach vec_fin t m /\ m id = None /\ get_user_data t id = Ok (Some 100) /\
  destroy_proxy t id = Ok t' /\ ~ (exists P, well_formed any_box t' P) /\ validate t' = Panic.
Proof.
  exists (htree stale_cmds), stale_tree, (hmap stale_cmds), 0.
  split; [apply hist_reach; [unfold stale_cmds, row; cbn [map seq app]; repeat constructor|vm_compute; reflexivity]|].
  split; [apply liveb_dead; vm_compute; reflexivity|]. split; [vm_compute; reflexivity|].
  split; [apply stale_ok; vm_compute; reflexivity|]. split; [|vm_compute; reflexivity].
  intros (P & is & ls & F & H1 & _ & _ & H4 & _).
  assert (E1 : t_root stale_tree = Some 4) by (vm_compute; reflexivity).
  assert (E2 : t_count stale_tree = 1) by (vm_compute; reflexivity).
  assert (E3 : match nth_error (t_nodes stale_tree) 4 with Some n => is_leaf n | None => true end = false) by (vm_compute; reflexivity).
  rewrite E1 in H1. rewrite E2 in H4. destruct H1 as (h & H1). remember (t_nodes stale_tree) as ns. clear - H1 H4 E3. inversion H1; subst.
  - rewrite H in E3. unfold is_leaf in E3. rewrite H2 in E3. discriminate.
  - cbn [length] in H4. rewrite app_length in H4. inversion H9; subst; cbn [length] in H4; lia.
Qed.

(** Ray casts over R. *)
Lemma c08 {U} (t : tree R U) m (cb : ray_calls -> ray_input R -> nat -> R) (input : ray_input R) :
  reach (fun _ => True) t m -> all_boxes box_valid m ->
  ray_p1 input <> ray_p2 input -> (0 <= ray_max input)%R ->
  (forall h inp i, (0 <= ray_max inp)%R -> (cb h inp i <= ray_max inp)%R) ->
  exists calls, ray_cast t (history cb) [] input = Ok calls /\
    NoDup (map fst calls) /\
    (forall id, In id (map fst calls) -> exists fb u f, m id = Some (fb, u, f) /\ touches (ray_p1 input) (ray_p2 input) (ray_max input) fb) /\
    ((exists init i, calls = init ++ [(i, 0%R)] /\ Forall (fun c => snd c <> 0%R) init) \/
     (Forall (fun c => snd c <> 0%R) calls /\
      forall id fb u f, m id = Some (fb, u, f) -> touches (ray_p1 input) (ray_p2 input) (clipped (ray_max input) calls) fb -> In id (map fst calls))).
Proof.
  intros Hr Hb. apply c08_sim; auto. apply reach_sim with (oks := fun _ => True); auto.
  intros o a b c _. apply ubox_shift. repeat split.
Qed.
Lemma clipped_neg M calls : Forall (fun c : nat * R => (snd c < 0)%R) calls -> clipped M calls = M.
Proof. induction 1 as [|c l H _ IH]; auto. unfold clipped. cbn [fold_left]. rewrite Rlt_bool_false by (apply Rlt_le; auto). exact IH. Qed.
Lemma history_values {U} (t : tree R U) (cb : ray_calls -> ray_input R -> nat -> R) (P : R -> Prop) input : (forall h inp i, P (cb h inp i)) ->
  forall calls, ray_cast t (history cb) [] input = Ok calls -> Forall (fun c => P (snd c)) calls.
Proof.
  intros HP calls. unfold ray_cast. destruct b2_assert; cbn [bind]; try discriminate. destruct gs_push as [st| |]; cbn [bind]; try discriminate.
  assert (H0 : Forall (fun c : nat * R => P (snd c)) []) by constructor. revert H0. generalize (@nil (nat * R)).
  generalize (1 + length (t_nodes t)). intros fuel. generalize (ray_max input), (segment_aabb (ray_p1 input) (ray_p2 input) (ray_max input)). revert st.
  induction fuel as [|fuel IH]; intros st M seg h Hh; cbn [ray_loop]; destruct (_ <? _); try discriminate; try (intros K; injection K as <-; auto).
  destruct gs_pop as [[st' [i|]]| |]; cbn [bind]; try discriminate; [|apply IH; auto].
  destruct get as [n| |]; cbn [bind]; try discriminate. destruct (negb _); [apply IH; auto|]. destruct ray_separated; [apply IH; auto|].
  destruct is_leaf.
  - unfold history at 1. assert (Hn : Forall (fun c : nat * R => P (snd c)) (h ++ [(i, cb h (RayIn (ray_p1 input) (ray_p2 input) M) i)])).
    { apply Forall_app. split; auto. constructor; [apply HP|constructor]. }
    destruct neqb; [intros K; injection K as <-; auto|]. destruct nlt; apply IH; auto.
  - destruct gs_push as [s1| |]; cbn [bind]; try discriminate. destruct gs_push as [s2| |]; cbn [bind]; try discriminate. apply IH; auto.
Qed.
Lemma c08_all {U} (t : tree R U) m (cb : ray_calls -> ray_input R -> nat -> R) (input : ray_input R) :
  reach (fun _ => True) t m -> all_boxes box_valid m ->
  ray_p1 input <> ray_p2 input -> (0 <= ray_max input)%R -> (forall h inp i, (cb h inp i < 0)%R) ->
  exists calls, ray_cast t (history cb) [] input = Ok calls /\ NoDup (map fst calls) /\
    forall id, In id (map fst calls) <-> exists fb u f, m id = Some (fb, u, f) /\ touches (ray_p1 input) (ray_p2 input) (ray_max input) fb.
Proof.
  intros Hr Hb Hp HM Hneg.
  destruct (c08 t m cb input Hr Hb Hp HM) as (calls & E & N & S & K). { intros h inp i H0. apply Rlt_le. eapply Rlt_le_trans; [apply Hneg|auto]. }
  assert (F : Forall (fun c : nat * R => (snd c < 0)%R) calls) by (apply (history_values t cb (fun x => (x < 0)%R) input); auto).
  exists calls. split; [exact E|]. split; [exact N|]. intros id. split; [apply S|]. intros (fb & u & f & Hm & Ht).
  destruct K as [(init & i & -> & _)|[_ K]].
  - apply Forall_app in F. destruct F as [_ F]. inversion F; subst. cbn in *. exfalso. eapply Rlt_irrefl; eauto.
  - apply (K id fb u f Hm). now rewrite clipped_neg.
Qed.

Definition rbox (a b c d : R) : aabb R := AABB (V2 a b) (V2 c d).
Lemma ex_ray : exists (t : tree R nat) m i j, reach (fun _ => True) t m /\ all_boxes box_valid m /\ i <> j /\
  (exists fb u f, m i = Some (fb, u, f) /\ touches (V2 0 0)%R (V2 10 10)%R 1%R fb) /\
  (exists fb u f, m j = Some (fb, u, f) /\ ~ touches (V2 0 0)%R (V2 10 10)%R 1%R fb).
Proof.
  destruct (@c03_new R R_Num nat) as (t0 & _ & R0).
  destruct (proj1 (c03_calls _ _ R0) (rbox 5 5 6 6) 1) as (t1 & i & E1 & _). pose proof (reach_create _ _ _ _ _ _ _ R0 E1) as R1.
  destruct (proj1 (c03_calls _ _ R1) (rbox 2 5 3 6) 2) as (t2 & j & E2 & N2). pose proof (reach_create _ _ _ _ _ _ _ R1 E2) as R2.
  assert (Hij : i <> j) by (intros ->; unfold pset in N2; rewrite Nat.eqb_refl in N2; discriminate).
  eexists _, _, i, j. split; [exact R2|]. split; [|split; [exact Hij|split]].
  - intros id b u f. unfold pset, pempty. destruct (Nat.eqb id j); [|destruct (Nat.eqb id i)]; intros K; try discriminate; injection K as <- _ _;
      unfold box_valid, fatten, ext_r, rbox, B2_AABB_EXTENSION, B2_LENGTH_UNITS_PER_METER, nlit; cbn; lra.
  - eexists _, _, _. unfold pset. rewrite (proj2 (Nat.eqb_neq i j) Hij), Nat.eqb_refl. split; [reflexivity|].
    exists (1 / 2)%R. unfold fatten, ext_r, rbox, B2_AABB_EXTENSION, B2_LENGTH_UNITS_PER_METER, nlit; cbn; lra.
  - eexists _, _, _. unfold pset. rewrite Nat.eqb_refl. split; [reflexivity|].
    intros (t & Ht & Hx & Hy). revert Hx Hy. unfold fatten, ext_r, rbox, B2_AABB_EXTENSION, B2_LENGTH_UNITS_PER_METER, nlit; cbn. lra.
Qed.
