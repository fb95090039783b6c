(** Property theorems of the broad phase (C13-C15). The words used are defined in TreeSpec.v and BroadSpec.v:
    [breach oks b m w k]: public calls (updates included) led to the broad phase [b]; [m] is what the caller knows of
    the live proxies, [w id] counts how often [id] was created, re-inserted or touched since the last update (0 after
    its destruction), [k] is the number of creations minus destructions. *)
From Coq Require Import List ZArith Bool Arith.
From Verif Require Import Base Num NumLaws Math Collision TreeModel TreeSpec TreeExamples BroadModel BroadSpec BroadFinal BroadExamples.
Import ListNotations.

(** ** C13 *)
Theorem C13_every_new_pair : forall (T : Type) (NT : Num T) (NO : NumOrd T) (U : Type) (b : broad T U) m w k,
  breach vec_fin b m w k -> all_boxes box_ok m -> exists b' L, update_pairs b collect [] = Ok (b', L) /\
    forall p q fp up mp fq uq mq, m p = Some (fp, up, mp) -> m q = Some (fq, uq, mq) -> p <> q -> 0 < w p -> ~ separated fp fq ->
      In (if Nat.ltb p q then (up, uq) else (uq, up)) L.
Proof. exact @c13. Qed.
Print Assumptions C13_every_new_pair.
(* exactly how often each pair is reported *)
Theorem C13_pair_counts : forall (T : Type) (NT : Num T) (NO : NumOrd T) (U : Type) (b : broad T U) m w k,
  breach vec_fin b m w k -> all_boxes box_ok m -> exists P b',
    update_pairs b collect [] = Ok (b', map (fun p => (user_of m (fst p), user_of m (snd p))) P) /\
    (forall i j, In (i, j) P -> i < j /\ live m i /\ live m j) /\
    (forall i j fi ui mi fj uj mj, i < j -> m i = Some (fi, ui, mi) -> m j = Some (fj, uj, mj) ->
       (separated fi fj -> times P i j = 0) /\
       (~ separated fi fj -> times P i j = w j + if mj then 0 else w i)).
Proof. exact @update_exact. Qed.
Print Assumptions C13_pair_counts.
(* no call panics *)
Theorem C13_calls_return : forall (T : Type) (NT : Num T) (U : Type) oks (b : broad T U) m w k, breach oks b m w k ->
  (forall box u, exists b' id, bp_create b box u = Ok (b', id) /\ m id = None) /\
  (forall id, live m id -> exists b', bp_destroy b id = Ok b') /\
  (forall id box d, live m id -> exists b', bp_move b id box d = Ok b') /\
  (forall id, live m id -> exists b', bp_touch b id = Ok b').
Proof. exact @calls_any. Qed.
Print Assumptions C13_calls_return.
Example C13_ex : breach vec_fin (bb bex2) (bm bex2) (bw bex2) (bk bex2) /\ all_boxes box_ok (bm bex2) /\
  map (bw bex2) [0; 1; 2; 3; 4; 5] = [1; 0; 0; 2; 0; 1] /\
  reported bex2 = [(Some 100, Some 103); (Some 100, Some 7); (Some 103, Some 104); (Some 100, Some 103); (Some 100, Some 7)].
Proof. split; [exact bex2_breach|]. split; [exact bex2_ok|]. split; vm_compute; reflexivity. Qed.

(** ** C14 *)
Theorem C14_only_real_pairs : forall (T : Type) (NT : Num T) (NO : NumOrd T) (U : Type) (b : broad T U) m w k,
  breach vec_fin b m w k -> all_boxes box_ok m -> exists b' L, update_pairs b collect [] = Ok (b', L) /\
    forall x y, In (x, y) L -> exists i j fi mi fj mj, i < j /\ m i = Some (fi, x, mi) /\ m j = Some (fj, y, mj) /\ ~ separated fi fj /\ (0 < w i \/ 0 < w j).
Proof. exact @c14. Qed.
Print Assumptions C14_only_real_pairs.
(* any numbers (NaN included) and any callback: it is fed the user data of a list of pairs of distinct live proxies
   of which one is pending; a second update calls it never *)
Theorem C14_live_pairs_then_none : forall (T : Type) (NT : Num T) (U : Type) oks (b : broad T U) m w k, breach oks b m w k -> exists b' P,
  (forall S (cb : S -> option U -> option U -> res S) s, update_pairs b cb s =
     (s' <- fold_left (fun r p => x <- r ;; cb x (user_of m (fst p)) (user_of m (snd p))) P (Ok s) ;; Ok (b', s'))) /\
  (forall i j, In (i, j) P -> i < j /\ live m i /\ live m j /\ (0 < w i \/ 0 < w j)) /\
  exists b'', forall S (cb : S -> option U -> option U -> res S) s, update_pairs b' cb s = Ok (b'', s).
Proof. exact @update_any. Qed.
Print Assumptions C14_live_pairs_then_none.
Theorem C14_proxy_count : forall (T : Type) (NT : Num T) (U : Type) oks (b : broad T U) m w k, breach oks b m w k -> bp_proxies b = k /\
  exists ls, NoDup ls /\ (forall j, In j ls <-> live m j) /\ Z.of_nat (length ls) = k.
Proof. exact @count_any. Qed.
Print Assumptions C14_proxy_count.
Example C14_ex : breach vec_fin (bb bex1) (bm bex1) (bw bex1) (bk bex1) /\ all_boxes box_ok (bm bex1) /\ bk bex1 = 20%Z /\ length (reported bex1) = 19 /\
  reported (bex1 ++ [BUpdate]) = [] /\ bk bex2 = 5%Z.
Proof. split; [exact bex1_breach|]. split; [exact bex1_ok|]. vm_compute. auto. Qed.

(** ** C15 *)
(* at most once if every proxy was created or re-inserted at most once since the last update, and none was touched *)
Theorem C15_once_partial : forall (T : Type) (NT : Num T) (NO : NumOrd T) (U : Type) (b : broad T U) m w k,
  breach vec_fin b m w k -> all_boxes box_ok m -> (forall id, w id <= if moved_flag m id then 1 else 0) -> exists b' P,
    update_pairs b collect [] = Ok (b', map (fun p => (user_of m (fst p), user_of m (snd p))) P) /\ NoDup P /\ forall i j, In (i, j) P -> i < j.
Proof. exact @c15. Qed.
Print Assumptions C15_once_partial.
Example C15_once_ex : breach vec_fin (bb bex1) (bm bex1) (bw bex1) (bk bex1) /\ all_boxes box_ok (bm bex1) /\
  (forall id, bw bex1 id <= if moved_flag (bm bex1) id then 1 else 0) /\ bw bex1 5 = 1.
Proof. split; [exact bex1_breach|]. split; [exact bex1_ok|]. split; [exact bex1_once|]. vm_compute. reflexivity. Qed.
(* a proxy that is re-inserted twice between two updates: the same pair is reported twice *)
Theorem C15_once_refuted : exists (b : broad f32 nat) m w k b', breach vec_fin b m w k /\ all_boxes box_ok m /\
  bk bdup2 = 2%Z /\ update_pairs b collect [] = Ok (b', [(Some 1, Some 2); (Some 1, Some 2)]).
Proof.
  destruct bdup_twice as [b' H]. exists (bb bdup2), (bm bdup2), (bw bdup2), (bk bdup2), b'.
  split; [exact bdup_breach|]. split; [exact bdup_ok|]. split; [vm_compute; reflexivity|exact H].
Qed.
Print Assumptions C15_once_refuted.
