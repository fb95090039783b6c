(** What the calls of the broad phase do to its boxes, and the part of the world its boxes depend on. *)
From Coq Require Import List ZArith Bool Arith Lia Reals Lra.
From Flocq Require Import Core.Raux.
From Verif Require Import Base Num NumLaws RTac Math Collision Manifold Filter ShapeModel ListFacts ManifoldProofs TreeModel TreeSpec TreeHist BroadModel BroadSpec BroadProofs BroadFinal DynModel DynSpec DynProofs WorldModel WorldGraph WorldLogic WorldPhys WorldContact WorldInv WorldFix WorldClaims WorldCalls CoverSpec.
Import ListNotations.

(** ** partial correctness *)
Definition ok {A} (m : res A) (Q : A -> Prop) : Prop := forall a, m = Ok a -> Q a.
Lemma ok_ok {A} (a : A) (Q : A -> Prop) : Q a -> ok (Ok a) Q.
Proof. intros H b E. now injection E as <-. Qed.
Lemma ok_bind {A B} (m : res A) (f : A -> res B) Q : ok m (fun a => ok (f a) Q) -> ok (bind m f) Q.
Proof. intros H b E. destruct m as [a| |]; cbn in E; try discriminate. exact (H a eq_refl b E). Qed.
Lemma ok_mono {A} (m : res A) (Q Q' : A -> Prop) : ok m Q -> (forall a, Q a -> Q' a) -> ok m Q'.
Proof. intros H K a E. auto. Qed.
Lemma ok_any {A} (m : res A) (Q : A -> Prop) : (forall a, Q a) -> ok m Q.
Proof. intros H a _. auto. Qed.
Lemma ok_eq {A} (m : res A) (Q : A -> Prop) : (forall a, m = Ok a -> Q a) -> ok m Q.
Proof. auto. Qed.
Lemma ok_unwrap {A} (o : option A) (Q : A -> Prop) : (forall x, o = Some x -> Q x) -> ok (unwrap o) Q.
Proof. intros H a. destruct o; cbn; intros E; try discriminate. injection E as <-. auto. Qed.
Lemma ok_get {A} (l : list A) i (Q : A -> Prop) : (forall x, nth_error l i = Some x -> Q x) -> ok (get l i) Q.
Proof. intros H a. unfold get. destruct (nth_error l i); intros E; try discriminate. injection E as <-. auto. Qed.
Lemma ok_set {A} (l : list A) i x (Q : list A -> Prop) : (i < length l -> Q (upd l i x)) -> ok (set l i x) Q.
Proof. intros H a. unfold set. destruct (Nat.ltb_spec i (length l)); intros E; try discriminate. injection E as <-. auto. Qed.
Lemma ok_assert b (Q : unit -> Prop) : (b = true -> Q tt) -> ok (b2_assert b) Q.
Proof. intros H a. destruct b; intros E; try discriminate. injection E as <-. auto. Qed.
Lemma ok_each {A S} (I : S -> Prop) (f : A -> S -> res S) l : (forall x s, In x l -> I s -> ok (f x s) I) -> forall s, I s -> ok (each f l s) I.
Proof.
  induction l as [|x l IH]; intros H s Hs; cbn [each]; [now apply ok_ok|]. apply ok_bind. eapply ok_mono; [apply H; cbn; auto|].
  intros s' Hs'. apply IH; auto. intros y s'' Hy. apply H. now right.
Qed.
(* the loop still has to do the part [l] *)
Lemma ok_each_pos {A S} (I : list A -> S -> Prop) (f : A -> S -> res S) l : (forall x r s, I (x :: r) s -> ok (f x s) (I r)) ->
  forall s, I l s -> ok (each f l s) (I []).
Proof. intros H. induction l as [|x l IH]; intros s Hs; cbn [each]; [now apply ok_ok|]. apply ok_bind. eapply ok_mono; [apply H; exact Hs|]. auto. Qed.
Lemma ok_for_from {S} (I : nat -> S -> Prop) (f : nat -> S -> res S) n : forall lo s, I lo s ->
  (forall i s, lo <= i < lo + n -> I i s -> ok (f i s) (I (Datatypes.S i))) -> ok (for_from n lo f s) (I (lo + n)).
Proof.
  induction n as [|n IH]; intros lo s Hs H; cbn [for_from].
  - rewrite Nat.add_0_r. now apply ok_ok.
  - apply ok_bind. eapply ok_mono; [apply H; [lia|exact Hs]|]. intros s' Hs'. replace (lo + Datatypes.S n) with (Datatypes.S lo + n) by lia.
    apply IH; auto. intros i s'' Hi. apply H. lia.
Qed.
Lemma ok_for {S} (I : nat -> S -> Prop) (f : nat -> S -> res S) n s : I 0 s ->
  (forall i s, i < n -> I i s -> ok (f i s) (I (Datatypes.S i))) -> ok (for_range 0 n f s) (I n).
Proof. intros Hs H. unfold for_range. rewrite Nat.sub_0_r. change n with (0 + n) at 2. apply ok_for_from; auto. intros i s' Hi. apply H. lia. Qed.

(** ** boxes at R *)
Lemma Rle_iff (x y : R) : Rle_bool x y = true <-> (x <= y)%R.
Proof. destruct (Rle_bool_spec x y); split; auto; try easy. lra. Qed.
Lemma inside_R (a b : aabb R) : inside a b <-> (vx (lo b) <= vx (lo a) /\ vy (lo b) <= vy (lo a) /\ vx (hi a) <= vx (hi b) /\ vy (hi a) <= vy (hi b))%R.
Proof. unfold inside. cbn [nle R_Num]. rewrite !Rle_iff. reflexivity. Qed.
Lemma inside_refl (a : aabb R) : inside a a.
Proof. apply inside_R. lra. Qed.
Lemma inside_trans (a b c : aabb R) : inside a b -> inside b c -> inside a c.
Proof. rewrite !inside_R. lra. Qed.
Lemma inside_valid (a b : aabb R) : box_valid a -> inside a b -> box_valid b.
Proof. rewrite inside_R. unfold box_valid. lra. Qed.
Lemma ext_pos : (0 < (B2_AABB_EXTENSION : R))%R.
Proof. unfold B2_AABB_EXTENSION, B2_LENGTH_UNITS_PER_METER, nlit. cbn. lra. Qed.
Lemma inside_fatten (a : aabb R) : inside a (fatten a).
Proof. pose proof ext_pos. apply inside_R. unfold fatten, ext_r. cbn [lo hi]. rmathc. lra. Qed.
Lemma inside_predict (a : aabb R) d : inside a (predict a d).
Proof.
  pose proof ext_pos. apply inside_R. unfold predict, fatten, ext_r. cbn [lo hi vx vy]. rmathc. generalize (B2_AABB_MULTIPLIER * vx d)%R (B2_AABB_MULTIPLIER * vy d)%R. intros p q.
  destruct (Rlt_bool_spec p 0), (Rlt_bool_spec q 0); cbn [lo hi vx vy]; lra.
Qed.
Lemma inside_kept (f a p : aabb R) : keep_box f a p = true -> inside a f.
Proof.
  unfold keep_box. destruct (aabb_contains f a) eqn:E; [|discriminate]. intros _. apply inside_R. unfold aabb_contains in E. cbn [nle R_Num] in E.
  rewrite !andb_true_iff, !Rle_iff in E. lra.
Qed.
Lemma inside_combine_l (a b : aabb R) : inside a (combine a b).
Proof. apply inside_R. unfold combine, b2_min_vec2, b2_max_vec2. cbn [lo hi vx vy]. rewrite !b2_min_R, !b2_max_R. repeat split; auto using Rmin_l, Rmax_l. Qed.
Lemma inside_combine_r (a b : aabb R) : inside b (combine a b).
Proof. apply inside_R. unfold combine, b2_min_vec2, b2_max_vec2. cbn [lo hi vx vy]. rewrite !b2_min_R, !b2_max_R. repeat split; auto using Rmin_r, Rmax_r. Qed.

(** ** the broad phase *)
Definition anyo (_ : vec2 R) : Prop := True.
Definition bcov (b : broad R (nat * nat)) (s : nat -> nat -> option nat) (C : nat -> nat -> aabb R -> Prop) : Prop :=
  exists m pw n, breach anyo b m pw n /\ pm_ok m s /\ forall id box f k fl, m id = Some (box, Some (f, k), fl) -> C f k box.
Section BCov.
  Implicit Types b : broad R (nat * nat).
  Implicit Types s : nat -> nat -> option nat.
  Implicit Types C : nat -> nat -> aabb R -> Prop.
  Lemma bcov_mono b s s' C C' : bcov b s C -> (forall f k, s f k = s' f k) -> (forall f k x, (exists id, s f k = Some id) -> C f k x -> C' f k x) -> bcov b s' C'.
  Proof.
    intros (m & pw & n & B & P & H) Hs HC. exists m, pw, n. split; [auto|]. split; [eapply pm_ok_ext; eauto|]. intros id box f k fl Em. apply HC; eauto.
    destruct (proj2 P _ _ _ _ Em) as (f' & k' & Q & K). injection Q as <- <-. eauto.
  Qed.
  Lemma bcov_create b s C f k box b' id : bcov b s C -> s f k = None -> bp_create b box (f, k) = Ok (b', id) -> C f k (fatten box) -> bcov b' (sput s f k (Some id)) C.
  Proof.
    intros (m & pw & n & B & (P1 & P2) & HC) H E Cn. destruct (calls_any anyo b m pw n B) as (Hc & _). destruct (Hc box (f, k)) as (b1 & id1 & Eb & Em). rewrite E in Eb. injection Eb as <- <-.
    eexists _, _, _. split; [eapply breach_create; eauto|]. unfold sput, pset. split; [split|].
    - intros f' k' id'. destruct (Nat.eqb_spec f' f) as [->|]; [destruct (Nat.eqb_spec k' k) as [->|]|]; cbn [andb].
      + intros Q. injection Q as <-. rewrite Nat.eqb_refl. eauto.
      + intros Q. destruct (P1 _ _ _ Q) as (x & fl & E'). destruct (Nat.eqb_spec id' id) as [->|]; [congruence|eauto].
      + intros Q. destruct (P1 _ _ _ Q) as (x & fl & E'). destruct (Nat.eqb_spec id' id) as [->|]; [congruence|eauto].
    - intros id' x u fl. destruct (Nat.eqb_spec id' id) as [->|].
      + intros Q. injection Q as <- <- <-. exists f, k. now rewrite !Nat.eqb_refl.
      + intros Q. destruct (P2 _ _ _ _ Q) as (f' & k' & -> & K). exists f', k'. split; auto. destruct (Nat.eqb_spec f' f) as [->|]; auto. destruct (Nat.eqb_spec k' k) as [->|]; auto. congruence.
    - intros id' x f' k' fl. destruct (Nat.eqb_spec id' id) as [->|]; [|eauto]. intros Q. injection Q as <- <- <- <-. exact Cn.
  Qed.
  Lemma bcov_destroy b s C f k id b' : bcov b s C -> s f k = Some id -> bp_destroy b id = Ok b' -> bcov b' (sput s f k None) C.
  Proof.
    intros (m & pw & n & B & (P1 & P2) & HC) H E. destruct (P1 _ _ _ H) as (fb & fl & Em).
    eexists _, _, _. split; [eapply breach_destroy; eauto|]. unfold sput, pset. split; [split|].
    - intros f' k' id' Q. assert (Ne : (f', k') <> (f, k)). { intros X. injection X as -> ->. rewrite !Nat.eqb_refl in Q. easy. }
      assert (Q' : s f' k' = Some id'). { destruct (Nat.eqb_spec f' f) as [->|]; auto. destruct (Nat.eqb_spec k' k) as [->|]; auto. easy. }
      destruct (P1 _ _ _ Q') as (x & fx & E'). destruct (Nat.eqb_spec id' id) as [->|]; [|eauto]. congruence.
    - intros id' x u fx. destruct (Nat.eqb_spec id' id) as [->|]; [easy|]. intros Q. destruct (P2 _ _ _ _ Q) as (f' & k' & -> & K). exists f', k'. split; auto.
      destruct (Nat.eqb_spec f' f) as [->|]; auto. destruct (Nat.eqb_spec k' k) as [->|]; auto. congruence.
    - intros id' x f' k' fx. destruct (Nat.eqb_spec id' id); [easy|eauto].
  Qed.
  (* the moved child gets a box around [box], the others keep theirs *)
  Lemma bcov_move b s C C' f k id box d b' : bcov b s C -> s f k = Some id -> bp_move b id box d = Ok b' ->
    (forall f' k' x, (f', k') <> (f, k) -> C f' k' x -> C' f' k' x) -> (forall x, C f k x \/ x = predict box d -> inside box x -> C' f k x) -> bcov b' s C'.
  Proof.
    intros (m & pw & n & B & P & HC) H E Co Cn. destruct (proj1 P _ _ _ H) as (fb & fl & Em).
    assert (Un : forall id' x f' k' fl', m id' = Some (x, Some (f', k'), fl') -> id' <> id -> (f', k') <> (f, k)).
    { intros id' x f' k' fl' Q Ne X. injection X as -> ->. destruct (proj2 P _ _ _ _ Q) as (f1 & k1 & X & K). injection X as <- <-. congruence. }
    destruct (keep_box fb box (predict box d)) eqn:Ek.
    - exists m, pw, n. split; [eapply breach_move_kept; eauto|]. split; [auto|]. intros id' x f' k' fl' Q. destruct (Nat.eq_dec id' id) as [->|Ne].
      + rewrite Em in Q. injection Q as <- <- <- <-. apply Cn; [left; eauto|eapply inside_kept; eauto].
      + eapply Co; eauto.
    - eexists _, _, n. split; [eapply breach_move; eauto|]. split; [eapply pm_same; eauto|]. intros id' x f' k' fl'. unfold pset. destruct (Nat.eqb_spec id' id) as [->|Ne]; intros Q.
      + injection Q as <- <- <- <-. apply Cn; [auto|apply inside_predict].
      + eapply Co; eauto.
  Qed.
  Lemma bcov_touch b s C f k id b' : bcov b s C -> s f k = Some id -> bp_touch b id = Ok b' -> bcov b' s C.
  Proof.
    intros (m & pw & n & B & P & HC) H E. destruct (proj1 P _ _ _ H) as (fb & fl & Em). eexists m, _, n. split; [eapply breach_touch; eauto|]. auto.
  Qed.
  Lemma bcov_update {S} b s C (cb : S -> option (nat * nat) -> option (nat * nat) -> res S) x b' x' : bcov b s C -> update_pairs b cb x = Ok (b', x') -> bcov b' s C.
  Proof.
    intros (m & pw & n & B & P & HC) E. eexists _, _, n. split; [eapply breach_update; eauto|]. split; [now apply unmoved_pm|].
    intros id box f k fl. unfold unmoved. destruct (m id) as [[[b0 u] f0]|] eqn:Em; [|easy]. intros Q. injection Q as <- -> <-. eauto.
  Qed.
  Definition moved_box (o : vec2 R) (x : aabb R) : aabb R := AABB (vsub (lo x) o) (vsub (hi x) o).
  Lemma bcov_shift b s C C' o : bcov b s C -> (forall f k x, C f k x -> C' f k (moved_box o x)) -> bcov (bp_shift b o) s C'.
  Proof.
    intros (m & pw & n & B & (P1 & P2) & HC) H. eexists _, _, n. split; [apply breach_shift; [exact B|exact I]|]. unfold pshift. split; [split|].
    - intros f k id K. destruct (P1 _ _ _ K) as (box & fl & ->). eauto.
    - intros id box u fl. destruct (m id) as [[[b0 u0] f0]|] eqn:Em; [|easy]. intros Q. injection Q as <- <- <-. eauto.
    - intros id box f k fl. destruct (m id) as [[[b0 u0] f0]|] eqn:Em; [|easy]. intros Q. injection Q as <- -> <-. eapply H, HC; eauto.
  Qed.
End BCov.
