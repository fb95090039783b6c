(** A point set on which GJK uses all its iterations, in exact real arithmetic. *)
From Coq Require Import List ZArith Bool Arith Reals Lia Lra.
From Flocq Require Import Core.
From Verif Require Import Base Num NumLaws Math RTac ListFacts ShapeModel DynModel DistModel GeomSpec DistSpec DistProofs GjkProofs GjkReal.
Import ListNotations.
Local Open Scope R_scope.

Definition zv (p : Z * Z) : vec2 R := V2 (IZR (fst p)) (IZR (snd p)).
Definition zdot (p q : Z * Z) : Z := (fst p * fst q + snd p * snd q)%Z.
Fixpoint zsupport (l : list (Z * Z)) (d : Z * Z) (i best : nat) (value : Z) : nat :=
  match l with
  | [] => best
  | v :: l => if (value <? zdot v d)%Z then zsupport l d (S i) i (zdot v d) else zsupport l d (S i) best value
  end.
Lemma zdot_R p q : b2_dot (zv p) (zv q) = IZR (zdot p q).
Proof. unfold b2_dot, zv, zdot. cbn. now rewrite plus_IZR, !mult_IZR. Qed.
Lemma IZR_ltb a b : Rlt_bool (IZR a) (IZR b) = (a <? b)%Z.
Proof. destruct (Z.ltb_spec a b) as [h|h]; [apply Rlt_bool_true; now apply IZR_lt|apply Rlt_bool_false; now apply IZR_le]. Qed.
Lemma zsupport_R l d : forall i best value, support_from (map zv l) (zv d) i best (IZR value) = zsupport l d i best value.
Proof.
  induction l as [|v l IH]; intros i best value; cbn [map support_from zsupport]; [reflexivity|].
  rewrite zdot_R. cbn [nlt R_Num]. rewrite IZR_ltb. destruct (value <? zdot v d)%Z; apply IH.
Qed.

Definition xid : xform R := Xf (V2 0 0) (Rot 0 1).
Lemma xid_place v : xfv xid v = v.
Proof. unfold xid. rmathc. apply vec2_ext; cbn; ring. Qed.
Lemma xid_rot d : rotv_t (xq xid) d = d.
Proof. unfold xid. rmathc. apply vec2_ext; cbn; ring. Qed.

Section Chain.
  Variable l : list (Z * Z).
  Definition ca : dproxy R := DProxy [V2 0 0] 0.
  Definition cb : dproxy R := DProxy (map zv l) 0.
  Definition pt (k : nat) : Z * Z := nth k l (0, 0)%Z.
  Definition znext (k : nat) : nat := let d := ((- fst (pt k))%Z, (- snd (pt k))%Z) in zsupport (tl l) d 1 0 (zdot (pt 0) d).
  (* the last of two corners is the closer one, and the next corner lies in its direction *)
  Definition link (k : nat) : bool :=
    Nat.ltb (S k) (length l) && Nat.eqb (znext k) (S k) && (1 <=? zdot (pt k) (pt k))%Z &&
    match k with
    | 0 => true
    | S j => (zdot (pt j) (pt k) <? zdot (pt j) (pt j))%Z && (zdot (pt k) (pt k) <=? zdot (pt j) (pt k))%Z
    end.
  Definition sv_of (k : nat) (a : R) : svertex R := SV (V2 0 0) (zv (pt k)) (zv (pt k)) a 0 k.
  Definition st (k : nat) (a : R) : simplex R := Simplex (sv_of (k - 1) 1) (sv_of k a) sv_zero 2.

  Lemma cb_nth k : (k < length l)%nat -> get (dp_vertices cb) k = Ok (zv (pt k)).
  Proof. intros H. unfold get, cb. cbn [dp_vertices]. rewrite nth_error_map. unfold pt. now rewrite (nth_error_nth' l (0, 0)%Z H). Qed.
  Lemma ca_support d : get_support ca d = Ok 0%nat.
  Proof. reflexivity. Qed.
  Lemma cb_support k : (0 < length l)%nat -> get_support cb (vneg (zv (pt k))) = Ok (znext k).
  Proof.
    intros H. unfold get_support. rewrite (cb_nth 0 H). cbn [bind]. unfold znext.
    replace (vneg (zv (pt k))) with (zv ((- fst (pt k))%Z, (- snd (pt k))%Z)) by (unfold zv, vneg; cbn; now rewrite !opp_IZR).
    rewrite zdot_R. unfold cb. cbn [dp_vertices]. f_equal. rewrite <- zsupport_R. f_equal. now destruct l.
  Qed.
  Lemma chain_vertex k a : (k < length l)%nat -> vertex_at ca xid cb xid 0 k a = Ok (sv_of k a).
  Proof.
    intros H. unfold vertex_at, get_vertex. rewrite (cb_nth k H). cbn [bind get dp_vertices ca nth_error]. rewrite !xid_place.
    unfold sv_of. do 2 f_equal. unfold vsub. cbn. apply vec2_ext; cbn; ring.
  Qed.
  Lemma eps_one : B2_EPSILON * B2_EPSILON < (1 : R).
  Proof. unfold B2_EPSILON, nlit. cbn. nra. Qed.

  Lemma gjk_corner n iter s saved s1 k : indices s = saved -> solve_simplex s = Ok s1 -> sx_count s1 = 1%nat -> sv_w (sx_0 s1) = zv (pt k) ->
    link k = true -> existsb (same_pair (0%nat, S k)) saved = false ->
    gjk ca xid cb xid (S n) iter s = gjk ca xid cb xid n (S iter) (Simplex (sx_0 s1) (sv_of (S k) (sv_a (sx_1 s1))) (sx_2 s1) 2).
  Proof.
    intros <- E C W L D. unfold link in L. apply andb_true_iff in L. destruct L as [L _]. apply andb_true_iff in L. destruct L as [L L3]. apply andb_true_iff in L. destruct L as [L1 L2].
    apply Nat.ltb_lt in L1. apply Nat.eqb_eq in L2. apply Z.leb_le in L3.
    cbn [gjk]. rewrite E. cbn [bind]. rewrite C. cbn [Nat.eqb]. unfold search_direction. rewrite C, W. cbn [bind].
    assert (T : Rlt_bool (vlen2 (vneg (zv (pt k)))) (B2_EPSILON * B2_EPSILON) = false).
    { apply Rlt_bool_false. apply Rle_trans with (IZR 1); [left; exact eps_one|].
      replace (vlen2 (vneg (zv (pt k)))) with (b2_dot (zv (pt k)) (zv (pt k))) by (unfold vlen2, vneg, b2_dot; cbn; ring). rewrite zdot_R. now apply IZR_le. }
    cbn [nlt nmul R_Num]. rewrite T. rewrite ca_support. cbn [bind]. rewrite xid_rot, cb_support by lia. cbn [bind]. rewrite L2.
    cbn [get nth_error bind]. rewrite (chain_vertex (S k) _ L1). cbn [bind put]. rewrite D. cbn [sx_count]. unfold with_count. cbn. now rewrite C.
  Qed.
  Lemma gjk_link n iter k a : (1 <= k)%nat -> link k = true -> gjk ca xid cb xid (S n) iter (st k a) = gjk ca xid cb xid n (S iter) (st (S k) 1).
  Proof.
    intros K L. pose proof L as L'. unfold link in L. destruct k as [|j]; [lia|]. apply andb_true_iff in L. destruct L as [_ L]. apply andb_true_iff in L. destruct L as [A B].
    apply Z.ltb_lt in A. apply Z.leb_le in B.
    assert (S : solve2 (st (Datatypes.S j) a) = Simplex (sv_of (Datatypes.S j) 1) (sv_of (Datatypes.S j) 1) sv_zero 1).
    { unfold solve2, st. cbn [sx_0 sx_1 sx_2 sv_of sv_w]. replace (Datatypes.S j - 1)%nat with j by lia.
      assert (E1 : b2_dot (zv (pt j)) (vsub (zv (pt (Datatypes.S j))) (zv (pt j))) = IZR (zdot (pt j) (pt (Datatypes.S j)) - zdot (pt j) (pt j))).
      { rewrite minus_IZR, <- !zdot_R. rmathc. ring. }
      assert (E2 : b2_dot (zv (pt (Datatypes.S j))) (vsub (zv (pt (Datatypes.S j))) (zv (pt j))) = IZR (zdot (pt (Datatypes.S j)) (pt (Datatypes.S j)) - zdot (pt j) (pt (Datatypes.S j)))).
      { rewrite minus_IZR, <- !zdot_R. rmathc. ring. }
      rewrite E1, E2. cbn [nle nneg nofZ R_Num].
      rewrite Rle_bool_false by (rewrite <- opp_IZR; apply IZR_lt; lia). rewrite Rle_bool_true by (apply IZR_le; lia). reflexivity. }
    rewrite (gjk_corner n iter (st (Datatypes.S j) a) [(0%nat, j); (0%nat, Datatypes.S j)] (solve2 (st (Datatypes.S j) a)) (Datatypes.S j)).
    - rewrite S. cbn. unfold st. replace (Datatypes.S (Datatypes.S j) - 1)%nat with (Datatypes.S j) by lia. reflexivity.
    - unfold indices, st. cbn. now rewrite Nat.sub_0_r.
    - reflexivity.
    - now rewrite S.
    - now rewrite S.
    - exact L'.
    - unfold same_pair. cbn [existsb fst snd]. rewrite (proj2 (Nat.eqb_neq (Datatypes.S (Datatypes.S j)) j)) by lia. rewrite (proj2 (Nat.eqb_neq (Datatypes.S (Datatypes.S j)) (Datatypes.S j))) by lia. reflexivity.
  Qed.
  Lemma gjk_links n : forall iter k a, (1 <= k)%nat -> (forall j, (k <= j < k + S n)%nat -> link j = true) ->
    gjk ca xid cb xid (S n) iter (st k a) = Ok (st (k + S n) 1, (iter + S n)%nat).
  Proof.
    induction n as [|n IH]; intros iter k a K H.
    - rewrite (gjk_link 0 iter k a K); [|apply H; lia]. cbn [gjk]. do 2 f_equal; [f_equal; lia|lia].
    - rewrite (gjk_link (S n) iter k a K); [|apply H; lia]. rewrite (IH (S iter) (S k) 1); [do 2 f_equal; [f_equal; lia|lia]|lia|]. intros j Hj. apply H. lia.
  Qed.
  Lemma gjk_chain n : (forall j, (j < S (S n))%nat -> link j = true) -> gjk ca xid cb xid (S (S n)) 0 (Simplex (sv_of 0 1) sv_zero sv_zero 1) = Ok (st (S (S n)) 1, S (S n)).
  Proof.
    intros H. rewrite (gjk_corner (S n) 0 _ [(0%nat, 0%nat)] (Simplex (sv_of 0 1) sv_zero sv_zero 1) 0); try reflexivity; [|apply H; lia].
    cbn [sx_0 sx_1 sx_2 sv_a sv_zero]. change (Simplex (sv_of 0 1) (sv_of 1 (nofZ 0 : R)) sv_zero 2) with (st 1 (nofZ 0 : R)). rewrite (gjk_links n 1 1 (nofZ 0 : R)); [reflexivity|lia|]. intros j Hj. apply H. lia.
  Qed.

  Lemma chain_distance : (forall j, (j < 20)%nat -> link j = true) ->
    let o := V2 (IZR (fst (pt 19) + fst (pt 20))) (IZR (snd (pt 19) + snd (pt 20))) in
    exists c, distance_fn cache_zero (DInput ca cb xid xid false) = Ok (DOutput (V2 0 0) o (dist (V2 0 0) o) 20, c).
  Proof.
    intros H o. assert (L : (0 < length l)%nat). { specialize (H 0%nat ltac:(lia)). unfold link in H. apply andb_true_iff in H. destruct H as [H _]. apply andb_true_iff in H. destruct H as [H _]. apply andb_true_iff in H. destruct H as [H _]. apply Nat.ltb_lt in H. lia. }
    unfold distance_fn. cbn [dn_a dn_b dn_xa dn_xb dn_radii].
    assert (R : read_cache cache_zero ca xid cb xid = Ok (Simplex (sv_of 0 1) sv_zero sv_zero 1)).
    { unfold read_cache. cbn [cache_zero sc_count Nat.leb b2_assert bind]. unfold for_range. cbn [Nat.sub for_from bind with_count sx_zero sx_count sx_0 sx_1 sx_2 Nat.ltb Nat.leb Nat.eqb].
      rewrite (chain_vertex 0 _ L). reflexivity. }
    rewrite R. cbn [bind]. rewrite (gjk_chain 18 H). cbn [bind].
    assert (W : witness_points (st 20 1) = Ok (V2 0 0, o)).
    { unfold witness_points, st. cbn [sx_count sx_0 sx_1 sx_2 sv_of sv_a sv_wa sv_wb Nat.sub]. unfold o, zv, vadd, vscale. cbn. rewrite !plus_IZR. do 2 f_equal; apply vec2_ext; cbn; ring. }
    rewrite W. cbn [bind]. unfold write_cache. change (get_metric (st 20 1)) with (Ok (b2_distance_vec2 (sv_w (sx_0 (st 20 1))) (sv_w (sx_1 (st 20 1))))). cbn [bind].
    eexists. rewrite distance_vec_R. reflexivity.
  Qed.
End Chain.

Definition chain20 : list (Z * Z) := [(4398046511104, 1099511627776); (4181196031509, -549755813888); (4126261659949, 274877906944); (4112482050189, -137438953472); (4109034257213, 68719476736); (4108172128083, -34359738368); (4107956584491, 17179869184); (4107902697886, -8589934592); (4107889226190, 4294967296); (4107885858263, -2147483648); (4107885016281, 1073741824); (4107884805785, -536870912); (4107884753161, 268435456); (4107884740005, -134217728); (4107884736716, 67108864); (4107884735893, -33554432); (4107884735687, 16777216); (4107884735635, -8388608); (4107884735622, 4194304); (4107884735618, -2097152); (4107884735617, 1048576)]%Z.
Lemma chain20_links j : (j < 20)%nat -> link chain20 j = true.
Proof.
  assert (A : forallb (link chain20) (seq 0 20) = true) by (vm_compute; reflexivity).
  intros H. rewrite forallb_forall in A. apply A. apply in_seq. lia.
Qed.
Lemma hull_right l q m : forallb (fun p => (fst p <=? m)%Z) l = true -> hull (map zv l) q -> vx q <= IZR m.
Proof.
  intros A H. assert (0 <= (-1) * vx q + 0 * vy q + IZR m); [|lra]. apply hull_affine with (ps := map zv l); [|exact H].
  intros p I. apply in_map_iff in I. destruct I as (z & <- & I). rewrite forallb_forall in A. specialize (A z I). apply Z.leb_le in A. apply IZR_le in A. cbn. lra.
Qed.
Lemma cloud_id p : cloud p xid = dp_vertices p.
Proof. unfold cloud. rewrite <- (map_id (dp_vertices p)) at 2. apply map_ext. intros v. rewrite <- place_R. apply xid_place. Qed.
Lemma iteration_limit : exists (pa pb : dproxy R) xa xb o c, nonempty pa /\ nonempty pb /\ distance_fn cache_zero (DInput pa pb xa xb false) = Ok (o, c) /\ ~ hull (cloud pb xb) (do_b o).
Proof.
  destruct (chain_distance chain20 chain20_links) as (c & E). exists ca, (cb chain20), xid, xid. eexists. exists c.
  refine (conj _ (conj _ (conj E _))); [discriminate|discriminate|].
  rewrite cloud_id. unfold cb. cbn [dp_vertices do_b]. intros H. apply (hull_right chain20 _ 4398046511104%Z) in H; [|vm_compute; reflexivity]. cbn [vx] in H.
  apply le_IZR in H. apply Z.leb_le in H. vm_compute in H. discriminate.
Qed.
