(** What the broad phase is supposed to do. *)
From Coq Require Import List ZArith Arith Bool.
From Verif Require Import Base Num NumLaws Math Collision TreeModel TreeSpec BroadModel.
Import ListNotations.

Section BroadSpec.
  Context {T : Type} `{NT : Num T} {U : Type}.
  Notation broad := (broad T U).
  Notation pmap := (@pmap T U).

  (* what the caller knows: the proxies (box, user data, moved flag), how often each was created, re-inserted or
     touched since the last update, and how many proxies were created and not destroyed *)
  Definition pending := nat -> nat.
  Definition padd (w : pending) (id : nat) : pending := fun j => if Nat.eqb j id then S (w j) else w j.
  Definition pdrop (w : pending) (id : nat) : pending := fun j => if Nat.eqb j id then 0 else w j.
  Definition no_pending : pending := fun _ => 0.
  (* after an update no proxy counts as moved *)
  Definition unmoved (m : pmap) : pmap := fun j => match m j with Some (b, u, _) => Some (b, u, false) | None => None end.

  Variable oks : vec2 T -> Prop.

  (* [breach b m w k]: public calls led from a new broad phase to [b]; the callbacks of the updates may be
     anything that returns normally *)
  Inductive breach : broad -> pmap -> pending -> Z -> Prop :=
  | breach_new b : bp_new = Ok b -> breach b pempty no_pending 0
  | breach_create b m w k box u b' id : breach b m w k -> bp_create b box u = Ok (b', id) ->
      breach b' (pset m id (Some (fatten box, Some u, true))) (padd w id) (k + 1)
  | breach_destroy b m w k id e b' : breach b m w k -> m id = Some e -> bp_destroy b id = Ok b' ->
      breach b' (pset m id None) (pdrop w id) (k - 1)
  | breach_move_kept b m w k id fb u f box d b' : breach b m w k -> m id = Some (fb, u, f) ->
      keep_box fb box (predict box d) = true -> bp_move b id box d = Ok b' ->
      breach b' m w k
  | breach_move b m w k id fb u f box d b' : breach b m w k -> m id = Some (fb, u, f) ->
      keep_box fb box (predict box d) = false -> bp_move b id box d = Ok b' ->
      breach b' (pset m id (Some (predict box d, u, true))) (padd w id) k
  | breach_touch b m w k id e b' : breach b m w k -> m id = Some e -> bp_touch b id = Ok b' ->
      breach b' m (padd w id) k
  | breach_shift b m w k o : breach b m w k -> oks o -> breach (bp_shift b o) (pshift o m) w k
  | breach_rebuild b m w k b' : breach b m w k -> bp_rebuild b = Ok b' -> breach b' m w k
  | breach_update b m w k S (cb : S -> option U -> option U -> res S) s b' s' : breach b m w k ->
      update_pairs b cb s = Ok (b', s') -> breach b' (unmoved m) no_pending k.

  (* how often a pair occurs *)
  Definition times (P : list (nat * nat)) (i j : nat) : nat :=
    length (filter (fun p => Nat.eqb (fst p) i && Nat.eqb (snd p) j) P).
  Definition user_of (m : pmap) (i : nat) : option U := match m i with Some (_, u, _) => u | None => None end.
  Definition moved_flag (m : pmap) (i : nat) : bool := match m i with Some (_, _, f) => f | None => false end.

  (* the callback that lists the user data of the reported pairs *)
  Definition collect (l : list (option U * option U)) (a b : option U) : res (list (option U * option U)) := Ok (l ++ [(a, b)]).

  (* commands, to run concrete histories *)
  Inductive bcmd :=
  | BCreate (box : aabb T) (u : U)
  | BDestroy (id : nat)
  | BMove (id : nat) (box : aabb T) (d : vec2 T)
  | BTouch (id : nat)
  | BShift (o : vec2 T)
  | BRebuild
  | BUpdate.
  Definition bstate := (broad * pmap * pending * Z)%type.
  Definition bexec1 (c : bcmd) (st : bstate) : option bstate :=
    let '(b, m, w, k) := st in
    match c with
    | BCreate box u => match bp_create b box u with Ok (b', id) => Some (b', pset m id (Some (fatten box, Some u, true)), padd w id, k + 1)%Z | _ => None end
    | BDestroy id => match m id with
                     | Some _ => match bp_destroy b id with Ok b' => Some (b', pset m id None, pdrop w id, k - 1)%Z | _ => None end
                     | None => None end
    | BMove id box d => match m id with
                        | Some (fb, u, f) =>
                          match bp_move b id box d with
                          | Ok b' => if keep_box fb box (predict box d) then Some (b', m, w, k)
                                     else Some (b', pset m id (Some (predict box d, u, true)), padd w id, k)
                          | _ => None end
                        | None => None end
    | BTouch id => match m id with
                   | Some _ => match bp_touch b id with Ok b' => Some (b', m, padd w id, k) | _ => None end
                   | None => None end
    | BShift o => Some (bp_shift b o, pshift o m, w, k)
    | BRebuild => match bp_rebuild b with Ok b' => Some (b', m, w, k) | _ => None end
    | BUpdate => match update_pairs b collect [] with Ok (b', _) => Some (b', unmoved m, no_pending, k) | _ => None end
    end.
  Fixpoint bexec (cs : list bcmd) (st : bstate) : option bstate :=
    match cs with
    | [] => Some st
    | c :: r => match bexec1 c st with Some st' => bexec r st' | None => None end
    end.
  Definition bshifts_ok (c : bcmd) : Prop := match c with BShift o => oks o | _ => True end.
End BroadSpec.
