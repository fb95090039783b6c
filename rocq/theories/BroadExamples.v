(** Concrete histories of the broad phase. *)
From Coq Require Import List ZArith Bool Arith Lia.
From Verif Require Import Base Num NumLaws Math Collision TreeModel TreeSpec TreeFinal TreeExamples BroadModel BroadSpec BroadProofs BroadFinal.
Import ListNotations.

Definition fbcmd := bcmd (T:=f32) (U:=nat).
Definition bhist (cs : list fbcmd) : option (bstate (T:=f32) (U:=nat)) :=
  match bp_new with Ok b => bexec cs (b, pempty, no_pending, 0%Z) | _ => None end.
Definition no_broad : broad f32 nat := Broad no_tree 0 [] 0 0 (Pairs [] 0 0).
Definition bst cs : bstate (T:=f32) (U:=nat) := match bhist cs with Some s => s | None => (no_broad, pempty, no_pending, 0%Z) end.
Definition bb cs : broad f32 nat := fst (fst (fst (bst cs))).
Definition bm cs : pmap (T:=f32) (U:=nat) := snd (fst (fst (bst cs))).
Definition bw cs : pending := snd (fst (bst cs)).
Definition bk cs : Z := snd (bst cs).
Lemma bhist_breach oks cs : Forall (bshifts_ok oks) cs -> (if bhist cs then true else false) = true -> breach oks (bb cs) (bm cs) (bw cs) (bk cs).
Proof.
  unfold bb, bm, bw, bk, bst, bhist. intros Hs. destruct bp_new as [b| |] eqn:E; try discriminate.
  destruct (bexec cs (b, pempty, no_pending, 0%Z)) as [[[[b1 m1] w1] k1]|] eqn:E1; try discriminate. intros _. cbn [fst snd].
  eapply (bexec_breach oks cs b pempty no_pending 0%Z); eauto. now apply breach_new.
Qed.
Lemma breach_cap (b : broad f32 nat) oks m w k id : breach oks b m w k -> live m id -> id < t_cap (bp_tree b).
Proof.
  intros B Hl. destruct (breach_binv _ _ _ _ _ B) as ((m0 & R & P) & _). apply (reach_cap (bp_tree b) m0).
  - eapply reach_weaken; eauto.
  - unfold live in *. now rewrite P.
Qed.
Lemma bboxes_dec (b : broad f32 nat) oks m w k : breach oks b m w k ->
  forallb (fun id => match m id with Some (x, _, _) => box_okb x | None => true end) (seq 0 (t_cap (bp_tree b))) = true -> all_boxes box_ok m.
Proof.
  intros B H id x u f Hm. apply box_okb_ok. rewrite forallb_forall in H. specialize (H id). rewrite Hm in H. apply H.
  apply in_seq. split; [lia|]. eapply breach_cap; eauto. unfold live. congruence.
Qed.
Lemma pending_dec (b : broad f32 nat) oks m w k : breach oks b m w k ->
  forallb (fun id => w id <=? if moved_flag m id then 1 else 0) (seq 0 (t_cap (bp_tree b))) = true -> forall id, w id <= if moved_flag m id then 1 else 0.
Proof.
  intros B H id. destruct (Nat.ltb_spec id (t_cap (bp_tree b))) as [K|K].
  - rewrite forallb_forall in H. apply Nat.leb_le. apply H. apply in_seq. lia.
  - destruct (w id) eqn:E; [lia|]. exfalso. destruct (pending_live _ _ _ _ _ B) as [HL _]. specialize (HL id). rewrite E in HL.
    assert (id < t_cap (bp_tree b)); [|lia]. eapply breach_cap; eauto. apply HL. lia.
Qed.

(* evaluate the history once *)
Definition bcheck (cs : list fbcmd) (p : bstate (T:=f32) (U:=nat) -> bool) : bool := match bhist cs with Some s => p s | None => false end.
Definition boxes_p (s : bstate (T:=f32) (U:=nat)) : bool :=
  let '(b, m, w, k) := s in forallb (fun id => match m id with Some (x, _, _) => box_okb x | None => true end) (seq 0 (t_cap (bp_tree b))).
Definition once_p (s : bstate (T:=f32) (U:=nat)) : bool :=
  let '(b, m, w, k) := s in forallb (fun id => w id <=? if moved_flag m id then 1 else 0) (seq 0 (t_cap (bp_tree b))).
Lemma bcheck_ok cs p : bcheck cs p = true -> p (bst cs) = true.
Proof. unfold bcheck, bst. destruct (bhist cs); [auto|discriminate]. Qed.
Lemma bst_eta cs : bst cs = (bb cs, bm cs, bw cs, bk cs).
Proof. unfold bb, bm, bw, bk. now destruct (bst cs) as [[[? ?] ?] ?]. Qed.
Lemma boxes_ok oks cs : breach oks (bb cs) (bm cs) (bw cs) (bk cs) -> bcheck cs boxes_p = true -> all_boxes box_ok (bm cs).
Proof. intros B H. apply bcheck_ok in H. rewrite bst_eta in H. apply (bboxes_dec _ _ _ _ _ B). exact H. Qed.
Lemma once_ok oks cs : breach oks (bb cs) (bm cs) (bw cs) (bk cs) -> bcheck cs once_p = true -> forall id, bw cs id <= if moved_flag (bm cs) id then 1 else 0.
Proof. intros B H. apply bcheck_ok in H. rewrite bst_eta in H. apply (pending_dec _ _ _ _ _ B). exact H. Qed.

Definition brow (n : nat) : list fbcmd :=
  map (fun i => BCreate (fbox (Z.of_nat i * 10) 0 (Z.of_nat i * 10 + 12) 1) (100 + i)) (seq 0 n).

(* twenty overlapping neighbours (the buffers grow), an update, destruction, recycling, moves, a touch, a shift *)
Definition bex1 : list fbcmd := brow 20.
Definition bex2 : list fbcmd :=
  brow 6 ++ [BUpdate; BDestroy 3; BMove 0 (fbox 20 0 32 1) (fvec 0 0); BShift (fvec 5 5); BCreate (fbox 15 (-5) 17 (-4)) 7; BTouch 5; BTouch 3;
             BMove 1 (fbox 500 0 501 1) (fvec 1 1); BDestroy 1; BRebuild].
Lemma bex1_breach : breach vec_fin (bb bex1) (bm bex1) (bw bex1) (bk bex1).
Proof. apply bhist_breach; [|vm_compute; reflexivity]. unfold bex1, brow. cbn [map seq]. repeat constructor. Qed.
Lemma bex2_breach : breach vec_fin (bb bex2) (bm bex2) (bw bex2) (bk bex2).
Proof. apply bhist_breach; [|vm_compute; reflexivity]. unfold bex2, brow. cbn [map seq app]. repeat constructor. Qed.
Lemma bex1_ok : all_boxes box_ok (bm bex1).
Proof. apply (boxes_ok _ _ bex1_breach). vm_compute. reflexivity. Qed.
Lemma bex2_ok : all_boxes box_ok (bm bex2).
Proof. apply (boxes_ok _ _ bex2_breach). vm_compute. reflexivity. Qed.
Lemma bex1_once : forall id, bw bex1 id <= if moved_flag (bm bex1) id then 1 else 0.
Proof. apply (once_ok _ _ bex1_breach). vm_compute. reflexivity. Qed.
Definition reported (cs : list fbcmd) : list (option nat * option nat) :=
  match update_pairs (bb cs) collect [] with Ok (_, l) => l | _ => [] end.

(* duplicates: a proxy that is moved twice, or created and moved, or touched *)
Definition bdup1 : list fbcmd := [BCreate (fbox 0 0 9 9) 1; BCreate (fbox 1 1 5 5) 2; BUpdate; BTouch 1; BTouch 1].
Definition bdup2 : list fbcmd := [BCreate (fbox 0 0 9 9) 1; BCreate (fbox 1 1 5 5) 2; BUpdate; BMove 1 (fbox 2 2 7 7) (fvec 1 0); BMove 1 (fbox 4 4 8 8) (fvec 1 0)].
Lemma bdup_breach : breach vec_fin (bb bdup2) (bm bdup2) (bw bdup2) (bk bdup2).
Proof. apply bhist_breach; [|vm_compute; reflexivity]. repeat constructor. Qed.
Lemma bdup1_breach : breach vec_fin (bb bdup1) (bm bdup1) (bw bdup1) (bk bdup1).
Proof. apply bhist_breach; [|vm_compute; reflexivity]. repeat constructor. Qed.
Lemma bdup_ok : all_boxes box_ok (bm bdup2).
Proof. apply (boxes_ok _ _ bdup_breach). vm_compute. reflexivity. Qed.
Lemma reported_ok cs l l' : (exists a, update_pairs (bb cs) collect [] = Ok (a, l)) -> reported cs = l' -> exists a, update_pairs (bb cs) collect [] = Ok (a, l').
Proof. unfold reported. intros (a & E). rewrite E. intros <-. eauto. Qed.
Lemma bdup_reported : reported bdup2 = [(Some 1, Some 2); (Some 1, Some 2)].
Proof. vm_compute. reflexivity. Qed.
Lemma exact_reported cs : breach vec_fin (bb cs) (bm cs) (bw cs) (bk cs) -> all_boxes box_ok (bm cs) -> forall l, reported cs = l ->
  exists b', update_pairs (bb cs) collect [] = Ok (b', l).
Proof.
  intros B Hok l H. destruct (update_exact _ _ _ _ B Hok) as (P & b' & E & _). exact (reported_ok cs _ l (ex_intro _ b' E) H).
Qed.
Lemma bdup_twice : exists b', update_pairs (bb bdup2) collect [] = Ok (b', [(Some 1, Some 2); (Some 1, Some 2)]).
Proof. exact (exact_reported bdup2 bdup_breach bdup_ok _ bdup_reported). Qed.
