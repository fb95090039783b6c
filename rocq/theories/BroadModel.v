(** Model of /repo/src/b2_broad_phase.rs ("bp") and /repo/src/private/collision/b2_broad_phase.rs ("priv").

    Simplifications: proxy ids are [nat], the null proxy -1 is [None]; capacities and buffer counts are [nat]
    (i32 overflow is not modelled), m_proxy_count is a [Z]. *)
From Coq Require Import List ZArith Bool Arith.
From Verif Require Import Base Num Math Collision TreeModel.
Import ListNotations.

(* bp:33-39 B2broadPhasePairs; a pair is (proxy_id_a, proxy_id_b) *)
Record pairs := Pairs { pr_buffer : list (nat * nat); pr_cap : nat; pr_count : nat }.

(* bp:20-31 B2broadPhase *)
Record broad (T U : Type) := Broad {
  bp_tree : tree T U;
  bp_proxies : Z;
  bp_moves : list (option nat);
  bp_move_cap : nat;
  bp_move_count : nat;
  bp_pairs : pairs }.
Arguments Broad {T U} _ _ _ _ _ _.
Arguments bp_tree {T U} b.
Arguments bp_proxies {T U} b.
Arguments bp_moves {T U} b.
Arguments bp_move_cap {T U} b.
Arguments bp_move_count {T U} b.
Arguments bp_pairs {T U} b.

(* Vec::resize_with(n, || d) *)
Definition resize {A} (l : list A) (n : nat) (d : A) : list A := firstn n l ++ repeat d (n - length l).

Section BroadModel.
  Context {T : Type} `{NT : Num T} {U : Type}.
  Notation tree := (tree T U).
  Notation broad := (broad T U).

  Definition with_tree (b : broad) (t : tree) : broad :=
    Broad t (bp_proxies b) (bp_moves b) (bp_move_cap b) (bp_move_count b) (bp_pairs b).

  (* priv:6-31 new; the default element of both buffers is 0 *)
  Definition bp_new : res broad :=
    t <- tree_new ;;
    Ok (Broad t 0 (resize [] 16 (Some 0%nat)) 16 0 (Pairs (resize [] 16 (0%nat, 0%nat)) 16 0)).

  (* priv:66-75 buffer_move *)
  Definition buffer_move (b : broad) (id : nat) : res broad :=
    let '(buf, cap) :=
      if Nat.eqb (bp_move_count b) (bp_move_cap b)
      then (resize (bp_moves b) (bp_move_cap b * 2) (Some 0%nat), (bp_move_cap b * 2)%nat)
      else (bp_moves b, bp_move_cap b) in
    buf <- set buf (bp_move_count b) (Some id) ;;
    Ok (Broad (bp_tree b) (bp_proxies b) buf cap (bp_move_count b + 1) (bp_pairs b)).

  (* priv:77-83 un_buffer_move *)
  Definition un_buffer_move (b : broad) (id : nat) : res broad :=
    buf <- for_range 0 (bp_move_count b) (fun i buf =>
             p <- get buf i ;;
             if opt_eqb p (Some id) then set buf i None else Ok buf) (bp_moves b) ;;
    Ok (Broad (bp_tree b) (bp_proxies b) buf (bp_move_cap b) (bp_move_count b) (bp_pairs b)).

  (* priv:33-42 create_proxy *)
  Definition bp_create (b : broad) (box : aabb T) (u : U) : res (broad * nat) :=
    '(t, id) <- create_proxy (bp_tree b) box u ;;
    let b := Broad t (bp_proxies b + 1) (bp_moves b) (bp_move_cap b) (bp_move_count b) (bp_pairs b) in
    b <- buffer_move b id ;;
    Ok (b, id).

  (* priv:44-48 destroy_proxy *)
  Definition bp_destroy (b : broad) (id : nat) : res broad :=
    b <- un_buffer_move b id ;;
    let b := Broad (bp_tree b) (bp_proxies b - 1) (bp_moves b) (bp_move_cap b) (bp_move_count b) (bp_pairs b) in
    t <- destroy_proxy (bp_tree b) id ;;
    Ok (with_tree b t).

  (* priv:50-60 move_proxy *)
  Definition bp_move (b : broad) (id : nat) (box : aabb T) (displacement : vec2 T) : res broad :=
    '(t, buffer) <- move_proxy (bp_tree b) id box displacement ;;
    let b := with_tree b t in
    if (buffer : bool) then buffer_move b id else Ok b.

  (* priv:62-64 touch_proxy *)
  Definition bp_touch (b : broad) (id : nat) : res broad := buffer_move b id.

  (* priv:86-111 query_callback; B2pair fields are written one after the other *)
  Definition query_callback (ps : pairs) (query_id id : nat) (moved : bool) : res pairs :=
    if Nat.eqb id query_id then Ok ps
    else if moved && Nat.ltb query_id id then Ok ps
    else
      let '(buf, cap) :=
        if Nat.eqb (pr_count ps) (pr_cap ps)
        then let cap := (pr_cap ps + Nat.div2 (pr_cap ps))%nat in (resize (pr_buffer ps) cap (0%nat, 0%nat), cap)
        else (pr_buffer ps, pr_cap ps) in
      p <- get buf (pr_count ps) ;;
      buf <- set buf (pr_count ps) (Nat.min id query_id, snd p) ;;
      p <- get buf (pr_count ps) ;;
      buf <- set buf (pr_count ps) (fst p, Nat.max id query_id) ;;
      Ok (Pairs buf cap (pr_count ps + 1)).

  (* bp:221-224 the closure given to query. The tree's query takes a callback without panics: a panic (was_moved
     or the pair buffer) is carried along in the state and ends the query. *)
  Definition pair_closure (t : tree) (query_id : nat) (st : res pairs) (id : nat) : res pairs * bool :=
    let r := ps <- st ;; moved <- was_moved t id ;; query_callback ps query_id id moved in
    (r, is_ok r).
  Definition query_pairs (t : tree) (query_id : nat) (fat : aabb T) (ps : pairs) : res pairs :=
    r <- query t (pair_closure t query_id) (Ok ps) fat ;; r.

  (* bp:200-249 update_pairs; [cb] is the callback add_pair with its state *)
  Definition update_pairs {S} (b : broad) (cb : S -> option U -> option U -> res S) (s : S) : res (broad * S) :=
    let ps := Pairs (pr_buffer (bp_pairs b)) (pr_cap (bp_pairs b)) 0 in
    ps <- for_range 0 (bp_move_count b) (fun i ps =>
            m <- get (bp_moves b) i ;;
            match m with
            | None => Ok ps
            | Some query_id =>
              fat <- get_fat_aabb (bp_tree b) query_id ;;
              query_pairs (bp_tree b) query_id fat ps
            end) ps ;;
    s <- for_range 0 (pr_count ps) (fun i s =>
           p <- get (pr_buffer ps) i ;;
           ua <- get_user_data (bp_tree b) (fst p) ;;
           ub <- get_user_data (bp_tree b) (snd p) ;;
           cb s ua ub) s ;;
    t <- for_range 0 (bp_move_count b) (fun i t =>
           m <- get (bp_moves b) i ;;
           match m with
           | None => Ok t
           | Some id => clear_moved t id
           end) (bp_tree b) ;;
    Ok (Broad t (bp_proxies b) (bp_moves b) (bp_move_cap b) 0 ps, s).

  (* bp:170-178 test_overlap *)
  Definition bp_test_overlap (b : broad) (i j : nat) : res bool :=
    ba <- get_fat_aabb (bp_tree b) i ;;
    bb <- get_fat_aabb (bp_tree b) j ;;
    Ok (test_overlap ba bb).

  (* bp:267-272 shift_origin *)
  Definition bp_shift (b : broad) (o : vec2 T) : broad := with_tree b (shift_origin (bp_tree b) o).
  (* bp:139-141 get_tree_mut().rebuild_bottom_up() *)
  Definition bp_rebuild (b : broad) : res broad := t <- rebuild_bottom_up (bp_tree b) ;; Ok (with_tree b t).
End BroadModel.
