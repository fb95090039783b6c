(** Gift wrapping over exact reals: [polygon_set] computes the convex hull. *)
From Coq Require Import ZArith Reals Lra Lia Bool List Arith Psatz.
From Flocq Require Import Core.
From Verif Require Import Base Num NumLaws Math Collision ShapeModel MathSpec GeomSpec ShapeSpec HullSpec RTac ListFacts ManifoldProofs.
Import ListNotations.
Local Open Scope R_scope.

Definition cr (a b : vec2 R) : R := vx a * vy b - vy a * vx b.
Definition dt (a b : vec2 R) : R := vx a * vx b + vy a * vy b.

(** ** cones of directions *)
Definition scone (s x y : R) : Prop := 0 < y \/ (y = 0 /\ s * x < 0).
Lemma scone_trans s xa ya xb yb xc yc : s = 1 \/ s = -1 -> scone s xa ya -> scone s xb yb -> scone s xc yc ->
  0 < xa * yb - ya * xb -> 0 <= xb * yc - yb * xc -> 0 < xa * yc - ya * xc.
Proof.
  intros Hs Ha Hb Hc H1 H2.
  assert (ID : (xa * yc - ya * xc) * yb = (xa * yb - ya * xb) * yc + (xb * yc - yb * xc) * ya) by ring.
  destruct Hb as [Hb|[Hb Hxb]].
  - destruct Hc as [Hc|[Hc Hxc]].
    + assert (0 <= ya) by (destruct Ha as [|[]]; lra). nra.
    + subst yc. destruct Ha as [Ha|[Ha Hxa]].
      * assert (xc < 0) by (assert (~ 0 < xc) by (intro; nra); assert (xc <> 0) by (intro; subst; lra); lra). nra.
      * subst ya. destruct Hs; subst s; nra.
  - subst yb. destruct Hs; subst s.
    + assert (xb < 0) by lra. destruct Hc as [Hc|[Hc Hxc]]; [nra|subst yc].
      assert (0 < ya) by (destruct Ha as [|[]]; nra). nra.
    + assert (0 < xb) by lra. destruct Ha as [Ha|[Ha Hxa]]; nra.
Qed.
Lemma scone_same s xa ya xb yb : s = 1 \/ s = -1 -> scone s xa ya -> scone s xb yb ->
  xa * yb - ya * xb = 0 -> 0 < xa * xb + ya * yb.
Proof.
  intros Hs Ha Hb H. destruct Ha as [Ha|[Ha Hxa]], Hb as [Hb|[Hb Hxb]].
  - assert (K : xa * yb = ya * xb) by lra.
    assert (K2 : xa * xb * (ya * yb) = (xa * yb) * (xa * yb)) by (rewrite K at 2; ring).
    assert (0 < ya * yb) by nra. assert (0 <= (xa * yb) * (xa * yb)) by apply Rle_0_sqr.
    assert (0 <= xa * xb). { destruct (Rle_lt_dec 0 (xa * xb)) as [?|L]; [assumption|]. exfalso. generalize (xa * xb) (ya * yb) L K2 H0. intros. nra. }
    lra.
  - subst yb. exfalso. assert (K : ya * xb = 0) by lra. apply Rmult_integral in K as [K|K]; [lra|]. rewrite K in Hxb. lra.
  - subst ya. exfalso. assert (K : xa * yb = 0) by lra. apply Rmult_integral in K as [K|K]; [|lra]. rewrite K in Hxa. lra.
  - subst. destruct Hs; subst s; nra.
Qed.

Definition cone (s : R) (e v : vec2 R) : Prop := scone s (dt e v) (cr e v).
Lemma cone_e s e v : cone s e v -> 0 < dt e e.
Proof.
  intros H. assert (E : dt e v <> 0 \/ cr e v <> 0). { destruct H as [H|[H1 H2]]; [right; lra|left; intro K; rewrite K in H2; lra]. }
  unfold dt, cr in *. assert (0 <= vx e * vx e) by nra. assert (0 <= vy e * vy e) by nra.
  destruct (Req_dec (vx e) 0) as [K|K], (Req_dec (vy e) 0) as [L|L]; try nra.
Qed.
Lemma cr_frame e a b : cr a b * dt e e = dt e a * cr e b - cr e a * dt e b.
Proof. unfold cr, dt; ring. Qed.
Lemma dt_frame e a b : dt a b * dt e e = dt e a * dt e b + cr e a * cr e b.
Proof. unfold cr, dt; ring. Qed.
Lemma pk_lt k a b : 0 < k -> a * k = b -> (0 < a <-> 0 < b).
Proof. intros K <-. split; intros; [apply Rmult_lt_0_compat; assumption|]. destruct (Rlt_le_dec 0 a); [assumption|]. exfalso; nra. Qed.
Lemma pk_le k a b : 0 < k -> a * k = b -> (0 <= a <-> 0 <= b).
Proof. intros K <-. split; intros; [apply Rmult_le_pos; lra|]. destruct (Rle_lt_dec 0 a); [assumption|]. exfalso; nra. Qed.
Lemma pk_eq k a b : 0 < k -> a * k = b -> (a = 0 <-> b = 0).
Proof. intros K <-. split; intros H; [rewrite H; ring|]. apply Rmult_integral in H as [|]; lra. Qed.
Lemma cone_trans s e a b c : s = 1 \/ s = -1 -> cone s e a -> cone s e b -> cone s e c ->
  0 < cr a b -> 0 <= cr b c -> 0 < cr a c.
Proof.
  intros Hs Ha Hb Hc H1 H2. pose proof (cone_e _ _ _ Ha) as E.
  pose proof (cr_frame e a b) as F1. pose proof (cr_frame e b c) as F2. pose proof (cr_frame e a c) as F3.
  apply (pk_lt _ _ _ E F3). exact (scone_trans s _ _ _ _ _ _ Hs Ha Hb Hc (proj1 (pk_lt _ _ _ E F1) H1) (proj1 (pk_le _ _ _ E F2) H2)).
Qed.
Lemma cone_same s e a b : s = 1 \/ s = -1 -> cone s e a -> cone s e b -> cr a b = 0 -> 0 < dt a b.
Proof.
  intros Hs Ha Hb H. pose proof (cone_e _ _ _ Ha) as E.
  pose proof (cr_frame e a b) as F1. pose proof (dt_frame e a b) as F2.
  apply (pk_lt _ _ _ E F2). exact (scone_same s _ _ _ _ Hs Ha Hb (proj1 (pk_eq _ _ _ E F1) H)).
Qed.
Lemma lagrange a b : cr a b = 0 -> dt a b * dt a b = dt a a * dt b b.
Proof.
  intros H. assert (dt a b * dt a b = dt a a * dt b b - cr a b * cr a b) by (unfold cr, dt; ring). rewrite H in H0. lra.
Qed.
Lemma dt_pos a : a <> V2 0 0 -> 0 < dt a a.
Proof.
  intros H. unfold dt. destruct (Req_dec (vx a) 0) as [K|K], (Req_dec (vy a) 0) as [L|L]; try nra.
  exfalso. apply H. apply vec2_ext; cbn; assumption.
Qed.
Lemma dt_nonneg a : 0 <= dt a a.
Proof. unfold dt; nra. Qed.

Section Hull.
  Variable ps : list (vec2 R).
  Let n := length ps.
  Definition P (i : nat) : vec2 R := nth i ps (V2 0 0).
  Hypothesis distinct : forall i j, (i < n)%nat -> (j < n)%nat -> i <> j -> P i <> P j.

  Lemma get_P i : (i < n)%nat -> get ps i = Ok (P i).
  Proof. intros H. unfold get, P. rewrite (nth_error_nth' ps (V2 0 0) H). reflexivity. Qed.

  Definition D (h k : nat) : vec2 R := minus (P k) (P h).
  Lemma D_ne h k : (h < n)%nat -> (k < n)%nat -> k <> h -> D h k <> V2 0 0.
  Proof.
    intros Hh Hk N E. apply (distinct k h Hk Hh N). unfold D, minus in E. injection E as E1 E2. apply vec2_ext; lra.
  Qed.
  Lemma D_self h : D h h = V2 0 0.
  Proof. unfold D, minus. f_equal; lra. Qed.

  (* all directions to the other points lie in a cone narrower than a straight angle *)
  Definition pointed (h : nat) : Prop :=
    exists e s, (s = 1 \/ s = -1) /\ forall k, (k < n)%nat -> k <> h -> cone s e (D h k).
  Definition first_on (h ie k : nat) : Prop :=
    0 <= cr (D h ie) (D h k) /\ (cr (D h ie) (D h k) = 0 -> dt (D h k) (D h k) <= dt (D h ie) (D h ie)).
  Definition hull_edge (h ie : nat) : Prop :=
    (ie < n)%nat /\ ie <> h /\ forall k, (k < n)%nat -> k <> h -> first_on h ie k.

  (** ** one step of the wrapping *)
  Definition best (h j ie : nat) : Prop :=
    (ie < n)%nat /\ ((ie = h /\ h = 0%nat /\ j = 1%nat) \/ (ie <> h /\ forall k, (k < j)%nat -> k <> h -> first_on h ie k)).
  Lemma first_on_self h ie : first_on h ie ie.
  Proof. split; [unfold cr; lra|intros; lra]. Qed.
  Lemma next_hull_step h j ie : (h < n)%nat -> (1 <= j < n)%nat -> pointed h -> best h j ie ->
    exists ie', (if Nat.eqb ie h then Ok j
      else
        e <- get ps ie ;;
        p <- get ps j ;;
        let r := vsub e (P h) in
        let v := vsub p (P h) in
        let c := b2_cross r v in
        let ie := if nlt c (nofZ 0) then j else ie in
        Ok (if (neqb c (nofZ 0)) && (nlt (vlen2 r) (vlen2 v)) then j else ie)) = Ok ie' /\ best h (S j) ie'.
  Proof.
    intros Hh Hj (e & s & Hs & C) (Hie & B).
    destruct (Nat.eqb_spec ie h) as [->|N].
    { exists j. split; [reflexivity|]. destruct B as [(_ & -> & ->)|[N _]]; [|congruence].
      split; [lia|right]. split; [lia|]. intros k Hk Hk0. assert (k = 1)%nat as -> by lia. apply first_on_self. }
    destruct B as [(? & _)|[_ B]]; [congruence|].
    rewrite (get_P ie Hie), (get_P j) by lia. cbn [bind].
    replace (vsub (P ie) (P h)) with (D h ie) by reflexivity.
    replace (vsub (P j) (P h)) with (D h j) by reflexivity.
    replace (b2_cross (D h ie) (D h j)) with (cr (D h ie) (D h j)) by reflexivity.
    replace (vlen2 (D h ie)) with (dt (D h ie) (D h ie)) by reflexivity.
    replace (vlen2 (D h j)) with (dt (D h j) (D h j)) by reflexivity. cbv zeta. rops.
    destruct (Nat.eq_dec j h) as [Ejh|Njh].
    { subst j. exists ie. rewrite D_self. replace (cr (D h ie) (V2 0 0)) with 0 by (unfold cr; cbn; ring).
      pose proof (dt_pos _ (D_ne h ie Hh Hie N)) as Dp.
      replace (dt (V2 0 0) (V2 0 0)) with 0 by (unfold dt; cbn; ring).
      destruct (Rlt_bool_spec 0 0); [lra|]. destruct (Rlt_bool_spec (dt (D h ie) (D h ie)) 0); [lra|]. rewrite andb_false_r.
      split; [reflexivity|]. split; [exact Hie|right; split; [exact N|]]. intros k Hk Hk0. apply B; lia. }
    pose proof (C ie Hie N) as Cie. pose proof (C j ltac:(lia) Njh) as Cj.
    destruct (Rlt_bool_spec (cr (D h ie) (D h j)) 0) as [Hc|Hc].
    - exists j. split; [destruct (_ && _); reflexivity|]. split; [lia|right; split; [exact Njh|]].
      intros k Hk Hk0. destruct (Nat.eq_dec k j) as [->|Nk]; [apply first_on_self|].
      assert (K : (k < j)%nat) by lia. destruct (B k K Hk0) as [B1 _].
      assert (0 < cr (D h j) (D h k)).
      { eapply (cone_trans s e (D h j) (D h ie) (D h k)); eauto. - apply C; lia. - unfold cr in *; lra. }
      split; [lra|intros; lra].
    - destruct (Req_bool_spec (cr (D h ie) (D h j)) 0) as [E|E]; cbn [andb].
      + pose proof (cone_same s e _ _ Hs Cie Cj E) as Sm. pose proof (lagrange _ _ E) as Lg.
        pose proof (dt_pos _ (D_ne h ie Hh Hie N)) as Dp.
        destruct (Rlt_bool_spec (dt (D h ie) (D h ie)) (dt (D h j) (D h j))) as [L|L].
        * exists j. split; [reflexivity|]. split; [lia|right; split; [exact Njh|]].
          intros k Hk Hk0. destruct (Nat.eq_dec k j) as [->|Nk]; [apply first_on_self|].
          assert (K : (k < j)%nat) by lia. destruct (B k K Hk0) as [B1 B2].
          assert (X : cr (D h j) (D h k) * dt (D h ie) (D h ie) = dt (D h ie) (D h j) * cr (D h ie) (D h k)).
          { pose proof (cr_frame (D h ie) (D h j) (D h k)) as F. rewrite E in F. lra. }
          split; [nra|]. intros Z. rewrite Z in X.
          assert (cr (D h ie) (D h k) = 0) by nra. specialize (B2 H). lra.
        * exists ie. split; [reflexivity|]. split; [exact Hie|right; split; [exact N|]].
          intros k Hk Hk0. destruct (Nat.eq_dec k j) as [->|Nk]; [|apply B; lia]. split; [lra|intros; exact L].
      + exists ie. split; [reflexivity|]. split; [exact Hie|right; split; [exact N|]].
        intros k Hk Hk0. destruct (Nat.eq_dec k j) as [->|Nk]; [|apply B; lia]. split; [lra|intros; lra].
  Qed.
  Lemma next_hull_edge h : (2 <= n)%nat -> (h < n)%nat -> pointed h -> exists ie, next_hull ps h = Ok ie /\ hull_edge h ie.
  Proof.
    intros N2 Hh Pt. unfold next_hull. rewrite (get_P h Hh). cbn [bind]. unfold for_range. fold n.
    destruct (for_from_inv (best h) (fun j ie => if Nat.eqb ie h then Ok j
      else
        e <- get ps ie ;;
        p <- get ps j ;;
        let r := vsub e (P h) in
        let v := vsub p (P h) in
        let c := b2_cross r v in
        let ie := if nlt c (nofZ 0) then j else ie in
        Ok (if (neqb c (nofZ 0)) && (nlt (vlen2 r) (vlen2 v)) then j else ie)) (n - 1) 1 0%nat) as (ie & E & B).
    - split; [lia|]. destruct (Nat.eq_dec h 0) as [->|Nh]; [left; auto|right; split; [auto|]].
      intros k Hk Hk0. assert (k = 0)%nat as -> by lia. apply first_on_self.
    - intros j ie Hj B. apply next_hull_step; auto; lia.
    - exists ie. split; [exact E|]. destruct B as (Hie & [(_ & _ & ?)|[Nie B]]); [lia|].
      split; [exact Hie|split; [exact Nie|]]. intros k Hk Hk0. apply B; lia.
  Qed.
  Lemma edge_pointed h ie : (h < n)%nat -> pointed h -> hull_edge h ie -> pointed ie.
  Proof.
    intros Hh (e & s & Hs & C) (Hie & N & F). exists (D h ie), 1. split; [auto|]. intros k Hk Nk.
    assert (Dk : D ie k = minus (D h k) (D h ie)) by (unfold D, minus; cbn; f_equal; lra).
    pose proof (dt_pos _ (D_ne h ie Hh Hie N)) as Dp.
    assert (C1 : cr (D h ie) (D ie k) = cr (D h ie) (D h k)) by (rewrite Dk; unfold cr, minus; cbn; ring).
    assert (C2 : dt (D h ie) (D ie k) = dt (D h ie) (D h k) - dt (D h ie) (D h ie)) by (rewrite Dk; unfold dt, minus; cbn; ring).
    unfold cone, scone. rewrite C1, C2.
    destruct (Nat.eq_dec k h) as [->|Nkh].
    { rewrite D_self. right. unfold cr at 1, dt at 1. cbn. split; lra. }
    destruct (F k Hk Nkh) as [F1 F2].
    destruct (Req_dec (cr (D h ie) (D h k)) 0) as [E|E]; [right|left; lra]. split; [exact E|].
    specialize (F2 E). pose proof (cone_same s e _ _ Hs (C ie Hie N) (C k Hk Nkh) E) as Sm.
    pose proof (lagrange _ _ E) as Lg.
    assert (0 < dt (D ie k) (D ie k)) by (apply dt_pos, D_ne; auto).
    assert (X : dt (D ie k) (D ie k) = dt (D h k) (D h k) + dt (D h ie) (D h ie) - 2 * dt (D h ie) (D h k)).
    { rewrite Dk. unfold dt, minus; cbn; ring. }
    pose proof (dt_nonneg (D h k)). nra.
  Qed.
  Lemma edge_injective a b c : (a < n)%nat -> (b < n)%nat -> pointed a -> pointed b -> hull_edge a c -> hull_edge b c -> a = b.
  Proof.
    intros Ha Hb (e1 & s1 & Hs1 & C1) (e2 & s2 & Hs2 & C2) (Hc & Nca & F) (_ & Ncb & G).
    destruct (Nat.eq_dec a b) as [|N]; [assumption|exfalso].
    destruct (F b Hb (fun K => N (eq_sym K))) as [F1 F2]. destruct (G a Ha N) as [G1 G2].
    assert (X : cr (D b c) (D b a) = - cr (D a c) (D a b)) by (unfold D, cr, minus; cbn; ring).
    assert (E : cr (D a c) (D a b) = 0) by lra. assert (E' : cr (D b c) (D b a) = 0) by lra.
    specialize (F2 E). specialize (G2 E').
    pose proof (cone_same s1 e1 _ _ Hs1 (C1 c Hc Nca) (C1 b Hb (fun K => N (eq_sym K))) E) as S1.
    pose proof (cone_same s2 e2 _ _ Hs2 (C2 c Hc Ncb) (C2 a Ha N) E') as S2.
    pose proof (lagrange _ _ E) as L1.
    assert (Y : dt (D b c) (D b a) = dt (D a b) (D a b) - dt (D a c) (D a b)) by (unfold D, dt, minus; cbn; ring).
    pose proof (dt_nonneg (D a b)). nra.
  Qed.
  Lemma edge_strict a b c : (a < n)%nat -> (c < n)%nat -> pointed a -> pointed c -> hull_edge a b -> c <> a -> c <> b ->
    0 < cr (D a b) (D a c).
  Proof.
    intros Ha Hc (e1 & s1 & Hs1 & C1) (e2 & s2 & Hs2 & C2) (Hb & Nba & F) Nca Ncb.
    destruct (F c Hc Nca) as [F1 F2]. destruct (Req_dec (cr (D a b) (D a c)) 0) as [E|E]; [exfalso|lra].
    specialize (F2 E).
    pose proof (cone_same s1 e1 _ _ Hs1 (C1 b Hb Nba) (C1 c Hc Nca) E) as S1.
    assert (E' : cr (D c a) (D c b) = 0). { transitivity (cr (D a b) (D a c)); [|exact E]. unfold D, cr, minus; cbn; ring. }
    pose proof (cone_same s2 e2 _ _ Hs2 (C2 a Ha (fun K => Nca (eq_sym K))) (C2 b Hb (fun K => Ncb (eq_sym K))) E') as S2.
    pose proof (lagrange _ _ E) as L1.
    assert (Y : dt (D c a) (D c b) = dt (D a c) (D a c) - dt (D a b) (D a c)) by (unfold D, dt, minus; cbn; ring).
    pose proof (dt_nonneg (D a c)). nra.
  Qed.

  (** ** the first vertex *)
  Definition righter (i j : nat) : Prop := vx (P j) < vx (P i) \/ (vx (P j) = vx (P i) /\ vy (P i) <= vy (P j)).
  Lemma rightmost_ok : (1 <= n)%nat -> exists i0, rightmost ps = Ok i0 /\ (i0 < n)%nat /\ forall k, (k < n)%nat -> righter i0 k.
  Proof.
    intros N1. unfold rightmost. rewrite (get_P 0) by lia. cbn [bind]. unfold for_range. fold n.
    destruct (for_from_inv (fun j st => (fst st < n)%nat /\ snd st = vx (P (fst st)) /\ forall k, (k < j)%nat -> righter (fst st) k)
      (fun i st => let '(i0, x0) := st in p <- get ps i ;; q <- get ps i0 ;;
        if nlt x0 (vx p) || (neqb (vx p) x0 && nlt (vy p) (vy q)) then Ok (i, vx p) else Ok (i0, x0)) (n - 1) 1 (0%nat, vx (P 0)))
      as ((i0 & x0) & E & B1 & _ & B).
    - cbn. split; [lia|split; [reflexivity|]]. intros k Hk. assert (k = 0)%nat as -> by lia. right. lra.
    - intros i (i0 & x0) Hi (B1 & B2 & B3). cbn [fst snd] in *. subst x0.
      rewrite (get_P i), (get_P i0) by lia. cbn [bind]. rops.
      destruct (Rlt_bool_spec (vx (P i0)) (vx (P i))); cbn [orb].
      { eexists; split; [reflexivity|]. cbn. split; [lia|split; [reflexivity|]]. intros k Hk.
        destruct (Nat.eq_dec k i) as [->|]; [right; lra|]. destruct (B3 k ltac:(lia)) as [|[]]; left; lra. }
      destruct (Req_bool_spec (vx (P i)) (vx (P i0))); cbn [andb].
      { destruct (Rlt_bool_spec (vy (P i)) (vy (P i0))).
        - eexists; split; [reflexivity|]. cbn. split; [lia|split; [reflexivity|]]. intros k Hk.
          destruct (Nat.eq_dec k i) as [->|]; [right; lra|]. destruct (B3 k ltac:(lia)) as [|[]]; [left|right]; lra.
        - eexists; split; [reflexivity|]. cbn. split; [lia|split; [reflexivity|]]. intros k Hk.
          destruct (Nat.eq_dec k i) as [->|]; [right; lra|]. apply B3; lia. }
      eexists; split; [reflexivity|]. cbn. split; [lia|split; [reflexivity|]]. intros k Hk.
      destruct (Nat.eq_dec k i) as [->|]; [left; lra|]. apply B3; lia.
    - exists i0. rewrite E. cbn [bind]. split; [reflexivity|]. cbn in *. split; [lia|]. intros k Hk. apply B. lia.
  Qed.
  Lemma righter_pointed i0 : (i0 < n)%nat -> (forall k, (k < n)%nat -> righter i0 k) -> pointed i0.
  Proof.
    intros H0 Rt. exists (V2 0 1), (-1). split; [auto|]. intros k Hk Nk. pose proof (distinct k i0 Hk H0 Nk) as Dn.
    unfold cone, scone, cr, dt, D, minus; cbn.
    destruct (Rt k Hk) as [L|[E L]]; [left; lra|right]. split; [lra|].
    assert (vy (P k) <> vy (P i0)) by (intro K; apply Dn, vec2_ext; lra). lra.
  Qed.

  (** ** the whole ring *)
  Definition ring (l : list nat) : Prop :=
    NoDup l /\ (forall i, In i l -> (i < n)%nat /\ pointed i) /\
    forall i a b, nth_error l i = Some a -> nth_error l (after (length l) i) = Some b -> hull_edge a b.
  Definition chain (i0 : nat) (l : list nat) : Prop :=
    NoDup l /\ (forall i, In i l -> (i < n)%nat /\ pointed i) /\ nth_error l 0 = Some i0 /\
    forall i a b, nth_error l i = Some a -> nth_error l (S i) = Some b -> hull_edge a b.
  Lemma chain_fresh i0 l ih ie : chain i0 (l ++ [ih]) -> hull_edge ih ie -> ie <> i0 -> ~ In ie (l ++ [ih]).
  Proof.
    intros (ND & Al & H0 & Ed) He Ne Hin. apply In_nth_error in Hin as (k & Hk).
    destruct k as [|k]; [rewrite H0 in Hk; congruence|].
    assert (Lk : (S k < length (l ++ [ih]))%nat) by (apply nth_error_Some; congruence).
    destruct (nth_error (l ++ [ih]) k) as [a|] eqn:Ea; [|apply nth_error_None in Ea; lia].
    assert (Ia : In a (l ++ [ih])) by (eapply nth_error_In; eauto).
    assert (Ih : In ih (l ++ [ih])) by (apply in_or_app; cbn; auto).
    assert (a = ih). { eapply edge_injective; [apply Al, Ia|apply Al, Ih|apply Al, Ia|apply Al, Ih|eapply Ed; eauto|exact He]. }
    subst a. rewrite app_length in Lk; cbn in Lk.
    assert (Kl : nth_error (l ++ [ih]) (length l) = Some ih) by (rewrite nth_error_app2, Nat.sub_diag; [reflexivity|lia]).
    assert (k = length l). { eapply NoDup_nth_error; [exact ND|rewrite app_length; cbn; lia|congruence]. } lia.
  Qed.
  Lemma bounded_length l : NoDup l -> (forall i, In i l -> (i < n)%nat) -> (length l <= n)%nat.
  Proof.
    intros ND Al. replace n with (length (seq 0 n)) by apply seq_length. apply NoDup_incl_length; [exact ND|].
    intros i Hi. apply in_seq. specialize (Al i Hi). lia.
  Qed.
  Lemma wrap_ring : (2 <= n <= B2_MAX_POLYGON_VERTICES)%nat -> forall fuel i0 l ih, chain i0 (l ++ [ih]) -> (n < fuel + length (l ++ [ih]))%nat ->
    exists h, wrap fuel ps i0 l ih = Ok h /\ ring h /\ h <> [].
  Proof.
    intros Hn. induction fuel; intros i0 l ih Ch Fu.
    - destruct Ch as (ND & Al & _). pose proof (bounded_length _ ND (fun i Hi => proj1 (Al i Hi))). lia.
    - cbn [wrap]. pose proof Ch as (ND & Al & H0 & Ed).
      pose proof (bounded_length _ ND (fun i Hi => proj1 (Al i Hi))) as BL. rewrite app_length in BL; cbn in BL.
      destruct (Nat.ltb_spec (length l) B2_MAX_POLYGON_VERTICES) as [L|L]; [|lia]. cbn [b2_assert bind].
      assert (Ih : In ih (l ++ [ih])) by (apply in_or_app; cbn; auto).
      destruct (Al ih Ih) as [Hih Pih].
      destruct (next_hull_edge ih ltac:(lia) Hih Pih) as (ie & E & He). rewrite E. cbn [bind].
      assert (Kl : nth_error (l ++ [ih]) (length l) = Some ih) by (rewrite nth_error_app2, Nat.sub_diag; [reflexivity|lia]).
      destruct (Nat.eqb_spec ie i0) as [->|Ne].
      + exists (l ++ [ih]). split; [reflexivity|]. split; [|destruct l; discriminate]. split; [exact ND|split; [exact Al|]].
        intros i a b Ha Hb. unfold after in Hb. destruct (Nat.ltb_spec (S i) (length (l ++ [ih]))) as [Lt|Ge].
        * eapply Ed; eauto.
        * assert (Li : (i < length (l ++ [ih]))%nat) by (apply nth_error_Some; congruence).
          rewrite app_length in Li, Ge; cbn in Li, Ge. assert (i = length l) as -> by lia. congruence.
      + pose proof (chain_fresh _ _ _ _ Ch He Ne) as Fr.
        apply IHfuel; [|rewrite app_length in *; cbn in *; rewrite app_length; cbn; lia].
        split; [|split; [|split]].
        * apply NoDup_rev in ND. rewrite <- (rev_involutive ((l ++ [ih]) ++ [ie])). apply NoDup_rev. rewrite rev_app_distr. cbn.
          constructor; [|exact ND]. rewrite <- in_rev. exact Fr.
        * intros i Hi. apply in_app_or in Hi as [Hi|[<-|[]]]; [auto|]. split; [apply He|]. eapply edge_pointed; eauto.
        * rewrite nth_error_app1; [exact H0|]. rewrite app_length; cbn; lia.
        * intros i a b Ha Hb.
          assert (Li : (S i < length ((l ++ [ih]) ++ [ie]))%nat) by (apply nth_error_Some; congruence).
          rewrite app_length in Li; cbn in Li. rewrite nth_error_app1 in Ha by lia.
          destruct (Nat.eq_dec (S i) (length (l ++ [ih]))) as [Eq|Nq].
          -- rewrite Eq, nth_error_app2, Nat.sub_diag in Hb by lia. cbn in Hb. injection Hb as <-.
             rewrite app_length in Eq; cbn in Eq. assert (i = length l) by lia. subst i.
             rewrite nth_error_app2, Nat.sub_diag in Ha by lia. cbn in Ha. injection Ha as <-. exact He.
          -- rewrite nth_error_app1 in Hb by lia. eapply Ed; eauto.
  Qed.
  Theorem hull_ring : (2 <= n <= B2_MAX_POLYGON_VERTICES)%nat ->
    exists i0 h, rightmost ps = Ok i0 /\ wrap (S B2_MAX_POLYGON_VERTICES) ps i0 [] i0 = Ok h /\ ring h /\ h <> [].
  Proof.
    intros Hn. destruct (rightmost_ok ltac:(lia)) as (i0 & E & L & Rt).
    destruct (wrap_ring Hn (S B2_MAX_POLYGON_VERTICES) i0 [] i0) as (h & Eh & Rh).
    - cbn. split; [|split; [|split]].
      + constructor; [intros []|constructor].
      + intros i [<-|[]]. split; [exact L|]. apply righter_pointed; assumption.
      + reflexivity.
      + intros [|[|i]] a b Ha Hb; discriminate.
    - cbn [app length]. lia.
    - exists i0, h. auto.
  Qed.

  (** ** what the ring says about the points *)
  Lemma turn_cr a b c : turn (P a) (P b) (P c) = cr (D a b) (D a c).
  Proof. unfold turn, cr, D, minus; cbn; ring. Qed.
  Lemma after_lt m i : (0 < m)%nat -> (after m i < m)%nat.
  Proof. unfold after. destruct (Nat.ltb_spec (S i) m); lia. Qed.
  Lemma in_ps p : In p ps -> exists k, (k < n)%nat /\ p = P k.
  Proof. intros H. destruct (In_nth ps p (V2 0 0) H) as (k & Hk & E). exists k. split; [exact Hk|]. symmetry; exact E. Qed.
  Lemma ring_inside h : ring h -> forall p, In p ps -> inside (map P h) p.
  Proof.
    intros (ND & Al & Ed) p Hp i a b Ha Hb. rewrite map_length in Hb. rewrite nth_error_map in Ha, Hb.
    destruct (nth_error h i) as [x|] eqn:Ex; [|discriminate]. destruct (nth_error h (after (length h) i)) as [y|] eqn:Ey; [|discriminate].
    injection Ha as <-. injection Hb as <-. destruct (in_ps p Hp) as (k & Hk & ->). rewrite turn_cr.
    destruct (Nat.eq_dec k x) as [->|N]. { rewrite D_self. unfold cr; cbn; lra. }
    apply (Ed i x y Ex Ey); assumption.
  Qed.
  Lemma ring_convex h : ring h -> (3 <= length h)%nat -> convex_ccw (map P h).
  Proof.
    intros (ND & Al & Ed) L3. split; [rewrite map_length; exact L3|]. intros i j a b c N1 N2 Ha Hb Hc.
    rewrite map_length in Hb, N2. rewrite nth_error_map in Ha, Hb, Hc.
    destruct (nth_error h i) as [x|] eqn:Ex; [|discriminate]. destruct (nth_error h (after (length h) i)) as [y|] eqn:Ey; [|discriminate].
    destruct (nth_error h j) as [z|] eqn:Ez; [|discriminate].
    injection Ha as <-. injection Hb as <-. injection Hc as <-. rewrite turn_cr.
    assert (Ix := nth_error_In _ _ Ex). assert (Iz := nth_error_In _ _ Ez).
    apply edge_strict; [apply Al, Ix|apply Al, Iz|apply Al, Ix|apply Al, Iz|eapply Ed; eauto| |].
    - intros ->. apply N1. eapply NoDup_nth_error; [exact ND| |congruence]. apply nth_error_Some; congruence.
    - intros ->. apply N2. eapply NoDup_nth_error; [exact ND| |congruence]. apply nth_error_Some; congruence.
  Qed.
  Lemma ring_short h : ring h -> h <> [] -> (length h < 3)%nat -> collinear ps.
  Proof.
    intros (ND & Al & Ed) Ne L. destruct h as [|a [|b [|? ?]]]; [congruence| | |cbn in L; lia].
    - exfalso. destruct (Ed 0%nat a a eq_refl eq_refl) as (_ & N & _). congruence.
    - pose proof (Ed 0%nat a b eq_refl eq_refl) as (Hb & Nba & F). pose proof (Ed 1%nat b a eq_refl eq_refl) as (Ha & _ & G).
      pose proof (dt_pos _ (D_ne a b Ha Hb Nba)) as Dp.
      assert (Z : forall k, (k < n)%nat -> cr (D a b) (D a k) = 0).
      { intros k Hk. destruct (Nat.eq_dec k a) as [->|N1]; [rewrite D_self; unfold cr; cbn; ring|].
        destruct (Nat.eq_dec k b) as [->|N2]; [unfold cr; ring|].
        destruct (F k Hk N1) as [F1 _]. destruct (G k Hk N2) as [G1 _].
        assert (cr (D b a) (D b k) = - cr (D a b) (D a k)) by (unfold D, cr, minus; cbn; ring). lra. }
      intros p q r Hp Hq Hr. destruct (in_ps p Hp) as (i & Hi & ->). destruct (in_ps q Hq) as (j & Hj & ->). destruct (in_ps r Hr) as (k & Hk & ->).
      rewrite turn_cr. pose proof (cr_frame (D a b) (D i j) (D i k)) as Fr.
      assert (Zj : cr (D a b) (D i j) = 0). { transitivity (cr (D a b) (D a j) - cr (D a b) (D a i)); [unfold D, cr, minus; cbn; ring|]. rewrite !Z by assumption. ring. }
      assert (Zk : cr (D a b) (D i k) = 0). { transitivity (cr (D a b) (D a k) - cr (D a b) (D a i)); [unfold D, cr, minus; cbn; ring|]. rewrite !Z by assumption. ring. }
      rewrite Zj, Zk in Fr. nra.
  Qed.
  Lemma map_P h : (forall i, In i h -> (i < n)%nat) -> map_res (fun i => get ps i) h = Ok (map P h).
  Proof.
    induction h as [|i h IH]; intros Al; cbn [map_res map]; [reflexivity|].
    rewrite (get_P i) by (apply Al; cbn; auto). cbn [bind]. rewrite IH by (intros; apply Al; cbn; auto). reflexivity.
  Qed.
  Lemma ring_incl h : ring h -> incl (map P h) ps.
  Proof. intros (_ & Al & _) p Hp. apply in_map_iff in Hp as (i & <- & Hi). apply nth_In. apply Al, Hi. Qed.
End Hull.
