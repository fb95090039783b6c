(** Model of /repo/src/b2_dynamic_tree.rs and /repo/src/private/collision/b2_dynamic_tree.rs ("priv" below).

    Simplifications: node ids are [nat], the null id -1 is [None]; the pool counters are [nat] (i32 overflow,
    i.e. more than 2^30 nodes, is not modelled). Loops use fuel [length t_nodes] (see the theorems: it is
    always enough). *)
From Coq Require Import List ZArith Bool Arith.
From Verif Require Import Base Num Math Collision StackModel.
Import ListNotations.

(* b2_dynamic_tree.rs:11-32 B2treeNode *)
Record node (T U : Type) := Node {
  n_aabb : aabb T;
  n_user : option U;
  n_parent : option nat;     (* parent, or next free node *)
  n_child1 : option nat;
  n_child2 : option nat;
  n_height : Z;              (* leaf = 0, free node = -1 *)
  n_moved : bool }.
Arguments Node {T U} _ _ _ _ _ _ _.
Arguments n_aabb {T U} n.
Arguments n_user {T U} n.
Arguments n_parent {T U} n.
Arguments n_child1 {T U} n.
Arguments n_child2 {T U} n.
Arguments n_height {T U} n.
Arguments n_moved {T U} n.

(* b2_dynamic_tree.rs:49-59 B2dynamicTree *)
Record tree (T U : Type) := Tree {
  t_root : option nat;
  t_nodes : list (node T U);
  t_count : nat;
  t_cap : nat;
  t_free : option nat;
  t_ins : nat }.
Arguments Tree {T U} _ _ _ _ _ _.
Arguments t_root {T U} t.
Arguments t_nodes {T U} t.
Arguments t_count {T U} t.
Arguments t_cap {T U} t.
Arguments t_free {T U} t.
Arguments t_ins {T U} t.

Section TreeModel.
  Context {T : Type} `{NT : Num T} {U : Type}.
  Notation node := (node T U).
  Notation tree := (tree T U).
  Local Open Scope num_scope.

  (* field assignments *)
  Definition set_aabb (n : node) x : node := Node x (n_user n) (n_parent n) (n_child1 n) (n_child2 n) (n_height n) (n_moved n).
  Definition set_user (n : node) x : node := Node (n_aabb n) x (n_parent n) (n_child1 n) (n_child2 n) (n_height n) (n_moved n).
  Definition set_parent (n : node) x : node := Node (n_aabb n) (n_user n) x (n_child1 n) (n_child2 n) (n_height n) (n_moved n).
  Definition set_child1 (n : node) x : node := Node (n_aabb n) (n_user n) (n_parent n) x (n_child2 n) (n_height n) (n_moved n).
  Definition set_child2 (n : node) x : node := Node (n_aabb n) (n_user n) (n_parent n) (n_child1 n) x (n_height n) (n_moved n).
  Definition set_height (n : node) x : node := Node (n_aabb n) (n_user n) (n_parent n) (n_child1 n) (n_child2 n) x (n_moved n).
  Definition set_moved (n : node) x : node := Node (n_aabb n) (n_user n) (n_parent n) (n_child1 n) (n_child2 n) (n_height n) x.

  Definition with_nodes (t : tree) ns : tree := Tree (t_root t) ns (t_count t) (t_cap t) (t_free t) (t_ins t).
  Definition with_root (t : tree) r : tree := Tree r (t_nodes t) (t_count t) (t_cap t) (t_free t) (t_ins t).

  (* m_nodes[i].field = ... *)
  Definition modn (ns : list node) (i : nat) (f : node -> node) : res (list node) :=
    n <- get ns i ;; set ns i (f n).

  (* m_nodes[p as usize] with p possibly B2_NULL_NODE *)
  Definition getp (ns : list node) (p : option nat) : res node :=
    i <- unwrap p ;; get ns i.

  (* b2_dynamic_tree.rs:35-37 *)
  Definition is_leaf (n : node) : bool := match n_child1 n with None => true | Some _ => false end.

  Definition opt_eqb (a b : option nat) : bool :=
    match a, b with
    | None, None => true
    | Some x, Some y => Nat.eqb x y
    | _, _ => false
    end.

  (* #[derive(Default)]: all i32 fields are 0 *)
  Definition node_default : node := Node aabb_default None (Some 0%nat) (Some 0%nat) (Some 0%nat) 0%Z false.

  (* the two "build a linked list for the free list" loops, priv:16-21 and priv:46-51 *)
  Fixpoint link_free (ns : list node) (is : list nat) : res (list node) :=
    match is with
    | [] => Ok ns
    | i :: r => ns' <- modn ns i (fun n => set_height (set_parent n (Some (i + 1)%nat)) (-1)%Z) ;; link_free ns' r
    end.
  Definition build_free (ns : list node) (from cap : nat) : res (list node) :=
    ns1 <- link_free ns (seq from (cap - 1 - from)) ;;
    modn ns1 (cap - 1) (fun n => set_height (set_parent n None) (-1)%Z).

  (* priv:7-31 b2_dynamic_tree *)
  Definition tree_new : res tree :=
    ns <- build_free (repeat node_default 16) 0 16 ;;
    Ok (Tree None ns 0 16 (Some 0%nat) 0).

  (* priv:34-66 allocate_node *)
  Definition grow (t : tree) : res tree :=
    b2_assert (Nat.eqb (t_count t) (t_cap t)) ;;;
    let cap := (t_cap t * 2)%nat in
    let ns := t_nodes t ++ repeat node_default (cap - length (t_nodes t)) in
    ns' <- build_free ns (t_count t) cap ;;
    Ok (Tree (t_root t) ns' (t_count t) cap (Some (t_count t)) (t_ins t)).

  Definition allocate_node (t : tree) : res (tree * nat) :=
    t <- (match t_free t with None => grow t | Some _ => Ok t end) ;;
    id <- unwrap (t_free t) ;;
    n <- get (t_nodes t) id ;;
    ns <- set (t_nodes t) id
            (set_moved (set_user (set_height (set_child2 (set_child1 (set_parent n None) None) None) 0%Z) None) false) ;;
    Ok (Tree (t_root t) ns (t_count t + 1) (t_cap t) (n_parent n) (t_ins t), id).

  (* priv:69-76 free_node *)
  Definition free_node (t : tree) (id : nat) : res tree :=
    b2_assert (Nat.ltb id (t_cap t)) ;;;
    b2_assert (Nat.ltb 0 (t_count t)) ;;;
    ns <- modn (t_nodes t) id (fun n => set_height (set_parent n (t_free t)) (-1)%Z) ;;
    Ok (Tree (t_root t) ns (t_count t - 1) (t_cap t) (Some id) (t_ins t)).

  (* priv:357-489 balance; returns the new tree and the new sub-tree root *)
  Definition relink_parent (t : tree) (p : option nat) (ia ix : nat) : res tree :=   (* priv:391-401, 445-455 *)
    match p with
    | Some ip =>
      pn <- get (t_nodes t) ip ;;
      if opt_eqb (n_child1 pn) (Some ia) then
        ns <- set (t_nodes t) ip (set_child1 pn (Some ix)) ;; Ok (with_nodes t ns)
      else
        b2_assert (opt_eqb (n_child2 pn) (Some ia)) ;;;
        ns <- set (t_nodes t) ip (set_child2 pn (Some ix)) ;; Ok (with_nodes t ns)
    | None => Ok (with_root t (Some ix))
    end.

  Definition balance (t : tree) (ia : nat) : res (tree * nat) :=
    a <- get (t_nodes t) ia ;;
    if is_leaf a || (n_height a <? 2)%Z then Ok (t, ia)
    else
      ib <- unwrap (n_child1 a) ;;
      ic <- unwrap (n_child2 a) ;;
      b2_assert (Nat.ltb ib (t_cap t)) ;;;
      b2_assert (Nat.ltb ic (t_cap t)) ;;;
      b <- get (t_nodes t) ib ;;
      c <- get (t_nodes t) ic ;;
      let bal := (n_height c - n_height b)%Z in
      if (1 <? bal)%Z then
        (* rotate c up, priv:376-431 *)
        i_f <- unwrap (n_child1 c) ;;
        i_g <- unwrap (n_child2 c) ;;
        f <- get (t_nodes t) i_f ;;
        g <- get (t_nodes t) i_g ;;
        b2_assert (Nat.ltb i_f (t_cap t)) ;;;
        b2_assert (Nat.ltb i_g (t_cap t)) ;;;
        let c := set_parent (set_child1 c (Some ia)) (n_parent a) in
        let a := set_parent a (Some ic) in
        t <- relink_parent t (n_parent c) ia ic ;;
        let '(a, c, f, g) :=
          if (n_height g <? n_height f)%Z then
            let c := set_child2 c (Some i_f) in
            let a := set_child2 a (Some i_g) in
            let g := set_parent g (Some ia) in
            let a := set_aabb a (combine (n_aabb b) (n_aabb g)) in
            let c := set_aabb c (combine (n_aabb a) (n_aabb f)) in
            let a := set_height a (1 + Z.max (n_height b) (n_height g))%Z in
            let c := set_height c (1 + Z.max (n_height a) (n_height f))%Z in
            (a, c, f, g)
          else
            let c := set_child2 c (Some i_g) in
            let a := set_child2 a (Some i_f) in
            let f := set_parent f (Some ia) in
            let a := set_aabb a (combine (n_aabb b) (n_aabb f)) in
            let c := set_aabb c (combine (n_aabb a) (n_aabb g)) in
            let a := set_height a (1 + Z.max (n_height b) (n_height f))%Z in
            let c := set_height c (1 + Z.max (n_height a) (n_height g))%Z in
            (a, c, f, g) in
        ns <- set (t_nodes t) ia a ;;
        ns <- set ns ic c ;;
        ns <- set ns i_f f ;;
        ns <- set ns i_g g ;;
        Ok (with_nodes t ns, ic)
      else if (bal <? -1)%Z then
        (* rotate b up, priv:433-486 *)
        i_d <- unwrap (n_child1 b) ;;
        i_e <- unwrap (n_child2 b) ;;
        d <- get (t_nodes t) i_d ;;
        e <- get (t_nodes t) i_e ;;
        b2_assert (Nat.ltb i_d (t_cap t)) ;;;
        b2_assert (Nat.ltb i_e (t_cap t)) ;;;
        let b := set_parent (set_child1 b (Some ia)) (n_parent a) in
        let a := set_parent a (Some ib) in
        t <- relink_parent t (n_parent b) ia ib ;;
        let '(a, b, d, e) :=
          if (n_height e <? n_height d)%Z then
            let b := set_child2 b (Some i_d) in
            let a := set_child1 a (Some i_e) in
            let e := set_parent e (Some ia) in
            let a := set_aabb a (combine (n_aabb c) (n_aabb e)) in
            let b := set_aabb b (combine (n_aabb a) (n_aabb d)) in
            let a := set_height a (1 + Z.max (n_height c) (n_height e))%Z in
            let b := set_height b (1 + Z.max (n_height a) (n_height d))%Z in
            (a, b, d, e)
          else
            let b := set_child2 b (Some i_e) in
            let a := set_child1 a (Some i_d) in
            let d := set_parent d (Some ia) in
            let a := set_aabb a (combine (n_aabb c) (n_aabb d)) in
            let b := set_aabb b (combine (n_aabb a) (n_aabb e)) in
            let a := set_height a (1 + Z.max (n_height c) (n_height d))%Z in
            let b := set_height b (1 + Z.max (n_height a) (n_height e))%Z in
            (a, b, d, e) in
        ns <- set (t_nodes t) ia a ;;
        ns <- set ns ib b ;;
        ns <- set ns i_e e ;;
        ns <- set ns i_d d ;;
        Ok (with_nodes t ns, ib)
      else Ok (t, ia).

  (* The two "walk back up" loops: priv:272-295 (insert_leaf) and priv:328-346 (remove_leaf). They differ only in
     the order of the two independent assignments (height, aabb) and in asserts that are implied by the indexing. *)
  Fixpoint fix_up (fuel : nat) (t : tree) (index : option nat) : res tree :=
    match index with
    | None => Ok t
    | Some i =>
      match fuel with
      | O => Fuel
      | S fuel =>
        '(t, i) <- balance t i ;;
        n <- get (t_nodes t) i ;;
        c1 <- getp (t_nodes t) (n_child1 n) ;;
        c2 <- getp (t_nodes t) (n_child2 n) ;;
        ns <- set (t_nodes t) i
                (set_aabb (set_height n (1 + Z.max (n_height c1) (n_height c2))%Z)
                          (combine (n_aabb c1) (n_aabb c2))) ;;
        fix_up fuel (with_nodes t ns) (n_parent n)
      end
    end.

  (* priv:197-208 / 211-222: cost of descending into a child *)
  Definition child_cost (leaf_aabb : aabb T) (c : node) (inheritance_cost : T) : T :=
    let ab := combine leaf_aabb (n_aabb c) in
    if is_leaf c then perimeter ab + inheritance_cost
    else
      let old_area := perimeter (n_aabb c) in
      let new_area := perimeter ab in
      (new_area - old_area) + inheritance_cost.

  (* priv:180-236: find the best sibling *)
  Fixpoint descend (fuel : nat) (ns : list node) (leaf_aabb : aabb T) (index : nat) : res nat :=
    n <- get ns index ;;
    if is_leaf n then Ok index
    else
      match fuel with
      | O => Fuel
      | S fuel =>
        c1 <- getp ns (n_child1 n) ;;
        c2 <- getp ns (n_child2 n) ;;
        let area := perimeter (n_aabb n) in
        let combined_area := perimeter (combine (n_aabb n) leaf_aabb) in
        let cost := #2 * combined_area in
        let inheritance_cost := #2 * (combined_area - area) in
        let cost1 := child_cost leaf_aabb c1 inheritance_cost in
        let cost2 := child_cost leaf_aabb c2 inheritance_cost in
        if (cost <? cost1) && (cost <? cost2) then Ok index
        else if cost1 <? cost2 then
          i <- unwrap (n_child1 n) ;; descend fuel ns leaf_aabb i
        else
          i <- unwrap (n_child2 n) ;; descend fuel ns leaf_aabb i
      end.

  (* priv:170-298 insert_leaf *)
  Definition insert_leaf (t : tree) (leaf : nat) : res tree :=
    let t := Tree (t_root t) (t_nodes t) (t_count t) (t_cap t) (t_free t) (t_ins t + 1) in
    match t_root t with
    | None =>
      ns <- modn (t_nodes t) leaf (fun n => set_parent n None) ;;
      Ok (with_root (with_nodes t ns) (Some leaf))
    | Some root =>
      ln <- get (t_nodes t) leaf ;;
      let leaf_aabb := n_aabb ln in
      sibling <- descend (length (t_nodes t)) (t_nodes t) leaf_aabb root ;;
      sn <- get (t_nodes t) sibling ;;
      let old_parent := n_parent sn in
      '(t, np) <- allocate_node t ;;
      sn <- get (t_nodes t) sibling ;;
      ns <- modn (t_nodes t) np (fun n =>
              set_height (set_aabb (set_user (set_parent n old_parent) None)
                 (combine leaf_aabb (n_aabb sn))) (n_height sn + 1)%Z) ;;
      ns <- (match old_parent with
             | Some op =>
               modn ns op (fun n => if opt_eqb (n_child1 n) (Some sibling)
                                    then set_child1 n (Some np) else set_child2 n (Some np))
             | None => Ok ns
             end) ;;
      ns <- modn ns np (fun n => set_child2 (set_child1 n (Some sibling)) (Some leaf)) ;;
      ns <- modn ns sibling (fun n => set_parent n (Some np)) ;;
      ns <- modn ns leaf (fun n => set_parent n (Some np)) ;;
      let t := with_nodes t ns in
      let t := match old_parent with Some _ => t | None => with_root t (Some np) end in
      ln <- get (t_nodes t) leaf ;;
      fix_up (length (t_nodes t)) t (n_parent ln)
    end.

  (* priv:300-354 remove_leaf *)
  Definition remove_leaf (t : tree) (leaf : nat) : res tree :=
    if opt_eqb (Some leaf) (t_root t) then Ok (with_root t None)
    else
      ln <- get (t_nodes t) leaf ;;
      parent <- unwrap (n_parent ln) ;;
      pn <- get (t_nodes t) parent ;;
      let grand_parent := n_parent pn in
      let sibling := if opt_eqb (n_child1 pn) (Some leaf) then n_child2 pn else n_child1 pn in
      match grand_parent with
      | Some gp =>
        ns <- modn (t_nodes t) gp (fun n =>
                if opt_eqb (n_child1 n) (Some parent) then set_child1 n sibling else set_child2 n sibling) ;;
        s <- unwrap sibling ;;
        ns <- modn ns s (fun n => set_parent n (Some gp)) ;;
        t <- free_node (with_nodes t ns) parent ;;
        fix_up (length (t_nodes t)) t (Some gp)
      | None =>
        let t := with_root t sibling in
        s <- unwrap sibling ;;
        ns <- modn (t_nodes t) s (fun n => set_parent n None) ;;
        free_node (with_nodes t ns) parent
      end.

  Definition ext_r : vec2 T := V2 B2_AABB_EXTENSION B2_AABB_EXTENSION.
  Definition fatten (b : aabb T) : aabb T := AABB (vsub (lo b) ext_r) (vadd (hi b) ext_r).

  (* priv:81-99 create_proxy *)
  Definition create_proxy (t : tree) (b : aabb T) (u : U) : res (tree * nat) :=
    '(t, id) <- allocate_node t ;;
    ns <- modn (t_nodes t) id (fun n =>
            set_moved (set_height (set_user (set_aabb n (fatten b)) (Some u)) 0%Z) true) ;;
    t <- insert_leaf (with_nodes t ns) id ;;
    Ok (t, id).

  (* priv:101-107 destroy_proxy *)
  Definition destroy_proxy (t : tree) (id : nat) : res tree :=
    b2_assert (Nat.ltb id (t_cap t)) ;;;
    n <- get (t_nodes t) id ;;
    b2_assert (is_leaf n) ;;;
    t <- remove_leaf t id ;;
    free_node t id.

  (* priv:119-140: fattened and displaced box *)
  Definition predict (b : aabb T) (displacement : vec2 T) : aabb T :=
    let fat := fatten b in
    let d := vscale B2_AABB_MULTIPLIER displacement in
    let '(lx, ux) := if vx d <? #0 then (vx (lo fat) + vx d, vx (hi fat)) else (vx (lo fat), vx (hi fat) + vx d) in
    let '(ly, uy) := if vy d <? #0 then (vy (lo fat) + vy d, vy (hi fat)) else (vy (lo fat), vy (hi fat) + vy d) in
    AABB (V2 lx ly) (V2 ux uy).

  (* priv:143-157: is the stored box still good? *)
  Definition keep_box (tree_aabb b fat : aabb T) : bool :=
    if aabb_contains tree_aabb b then
      let huge := AABB (vsub (lo fat) (vscale #4 ext_r)) (vadd (hi fat) (vscale #4 ext_r)) in
      aabb_contains huge tree_aabb
    else false.

  (* priv:109-168 move_proxy *)
  Definition move_proxy (t : tree) (id : nat) (b : aabb T) (displacement : vec2 T) : res (tree * bool) :=
    b2_assert (Nat.ltb id (t_cap t)) ;;;
    n <- get (t_nodes t) id ;;
    b2_assert (is_leaf n) ;;;
    let fat := predict b displacement in
    if keep_box (n_aabb n) b fat then Ok (t, false)
    else
      t <- remove_leaf t id ;;
      ns <- modn (t_nodes t) id (fun n => set_aabb n fat) ;;
      t <- insert_leaf (with_nodes t ns) id ;;
      ns <- modn (t_nodes t) id (fun n => set_moved n true) ;;
      Ok (with_nodes t ns, true).

  (* b2_dynamic_tree.rs:207-237 accessors *)
  Definition get_user_data (t : tree) (id : nat) : res (option U) := n <- get (t_nodes t) id ;; Ok (n_user n).
  Definition was_moved (t : tree) (id : nat) : res bool := n <- get (t_nodes t) id ;; Ok (n_moved n).
  Definition clear_moved (t : tree) (id : nat) : res tree :=
    ns <- modn (t_nodes t) id (fun n => set_moved n false) ;; Ok (with_nodes t ns).
  Definition get_fat_aabb (t : tree) (id : nat) : res (aabb T) := n <- get (t_nodes t) id ;; Ok (n_aabb n).

  (* b2_dynamic_tree.rs:239-267 query; the callback has a state [S] and says whether to go on.
     The stack is the growable stack with N = 256 (default element 0). *)
  Fixpoint query_loop {S} (fuel : nat) (ns : list node) (cb : S -> nat -> S * bool) (s : S) (b : aabb T)
      (stack : gstack (option nat)) : res S :=
    if Nat.ltb 0 (gs_count stack) then
      match fuel with
      | O => Fuel
      | Datatypes.S fuel =>
        '(stack, node_id) <- gs_pop stack ;;
        match node_id with
        | None => query_loop fuel ns cb s b stack
        | Some i =>
          n <- get ns i ;;
          if test_overlap (n_aabb n) b then
            if is_leaf n then
              let '(s, proceed) := cb s i in
              if negb proceed then Ok s else query_loop fuel ns cb s b stack
            else
              stack <- gs_push 256 stack (n_child1 n) ;;
              stack <- gs_push 256 stack (n_child2 n) ;;
              query_loop fuel ns cb s b stack
          else query_loop fuel ns cb s b stack
        end
      end
    else Ok s.
  Definition query {S} (t : tree) (cb : S -> nat -> S * bool) (s : S) (b : aabb T) : res S :=
    stack <- gs_push 256 (gs_new (Some 0%nat) 256) (t_root t) ;;
    query_loop (1 + length (t_nodes t)) (t_nodes t) cb s b stack.

  (* b2_dynamic_tree.rs:269-340 ray_cast; the callback returns the new fraction *)
  Definition segment_aabb (p1 p2 : vec2 T) (max_fraction : T) : aabb T :=
    let t := vadd p1 (vscale max_fraction (vsub p2 p1)) in
    AABB (b2_min_vec2 p1 t) (b2_max_vec2 p1 t).

  Definition ray_separated (v abs_v p1 : vec2 T) (b : aabb T) : bool :=
    let c := aabb_center b in
    let h := aabb_extents b in
    let separation := nabs (b2_dot v (vsub p1 c)) - b2_dot abs_v h in
    separation >? #0.

  Fixpoint ray_loop {S} (fuel : nat) (ns : list node) (cb : S -> ray_input T -> nat -> S * T) (s : S)
      (p1 p2 v abs_v : vec2 T) (max_fraction : T) (seg : aabb T) (stack : gstack (option nat)) : res S :=
    if Nat.ltb 0 (gs_count stack) then
      match fuel with
      | O => Fuel
      | Datatypes.S fuel =>
        '(stack, node_id) <- gs_pop stack ;;
        match node_id with
        | None => ray_loop fuel ns cb s p1 p2 v abs_v max_fraction seg stack
        | Some i =>
          n <- get ns i ;;
          if negb (test_overlap (n_aabb n) seg) then ray_loop fuel ns cb s p1 p2 v abs_v max_fraction seg stack
          else if ray_separated v abs_v p1 (n_aabb n) then ray_loop fuel ns cb s p1 p2 v abs_v max_fraction seg stack
          else if is_leaf n then
            let '(s, value) := cb s (RayIn p1 p2 max_fraction) i in
            if value =? #0 then Ok s
            else if value >? #0 then
              ray_loop fuel ns cb s p1 p2 v abs_v value (segment_aabb p1 p2 value) stack
            else ray_loop fuel ns cb s p1 p2 v abs_v max_fraction seg stack
          else
            stack <- gs_push 256 stack (n_child1 n) ;;
            stack <- gs_push 256 stack (n_child2 n) ;;
            ray_loop fuel ns cb s p1 p2 v abs_v max_fraction seg stack
        end
      end
    else Ok s.
  Definition ray_cast {S} (t : tree) (cb : S -> ray_input T -> nat -> S * T) (s : S) (input : ray_input T) : res S :=
    let p1 := ray_p1 input in
    let p2 := ray_p2 input in
    let r := vsub p2 p1 in
    b2_assert (vlen2 r >? #0) ;;;
    let r := snd (vnormalize r) in
    let v := b2_cross_sv #1 r in
    let abs_v := b2_abs_vec2 v in
    stack <- gs_push 256 (gs_new (Some 0%nat) 256) (t_root t) ;;
    ray_loop (1 + length (t_nodes t)) (t_nodes t) cb s p1 p2 v abs_v
      (ray_max input) (segment_aabb p1 p2 (ray_max input)) stack.

  (* priv:491-497 get_height *)
  Definition get_height (t : tree) : res Z :=
    match t_root t with None => Ok 0%Z | Some r => n <- get (t_nodes t) r ;; Ok (n_height n) end.

  (* priv:523-541 compute_height_by_node, compute_height; the assert 0 <= node_id panics for the null id *)
  Fixpoint compute_height_by_node (fuel : nat) (t : tree) (id : option nat) : res Z :=
    i <- unwrap id ;;
    b2_assert (Nat.ltb i (t_cap t)) ;;;
    n <- get (t_nodes t) i ;;
    if is_leaf n then Ok 0%Z
    else match fuel with
         | O => Fuel
         | S fuel =>
           h1 <- compute_height_by_node fuel t (n_child1 n) ;;
           h2 <- compute_height_by_node fuel t (n_child2 n) ;;
           Ok (1 + Z.max h1 h2)%Z
         end.
  Definition compute_height (t : tree) : res Z := compute_height_by_node (length (t_nodes t)) t (t_root t).

  Definition opt_lt (p : option nat) (cap : nat) : bool := match p with Some i => Nat.ltb i cap | None => false end.

  (* priv:544-575 validate_structure *)
  Fixpoint validate_structure (fuel : nat) (t : tree) (index : option nat) : res unit :=
    match index with
    | None => Ok tt
    | Some i =>
      n <- get (t_nodes t) i ;;
      (if opt_eqb (Some i) (t_root t) then b2_assert (opt_eqb (n_parent n) None) else Ok tt) ;;;
      if is_leaf n then
        b2_assert (opt_eqb (n_child1 n) None) ;;;
        b2_assert (opt_eqb (n_child2 n) None) ;;;
        b2_assert (n_height n =? 0)%Z
      else
        b2_assert (opt_lt (n_child1 n) (t_cap t)) ;;;
        b2_assert (opt_lt (n_child2 n) (t_cap t)) ;;;
        c1 <- getp (t_nodes t) (n_child1 n) ;;
        c2 <- getp (t_nodes t) (n_child2 n) ;;
        b2_assert (opt_eqb (n_parent c1) (Some i)) ;;;
        b2_assert (opt_eqb (n_parent c2) (Some i)) ;;;
        match fuel with
        | O => Fuel
        | S fuel =>
          validate_structure fuel t (n_child1 n) ;;;
          validate_structure fuel t (n_child2 n)
        end
    end.

  (* priv:577-614 validate_metrics *)
  Fixpoint validate_metrics (fuel : nat) (t : tree) (index : option nat) : res unit :=
    match index with
    | None => Ok tt
    | Some i =>
      n <- get (t_nodes t) i ;;
      if is_leaf n then
        b2_assert (opt_eqb (n_child1 n) None) ;;;
        b2_assert (opt_eqb (n_child2 n) None) ;;;
        b2_assert (n_height n =? 0)%Z
      else
        b2_assert (opt_lt (n_child1 n) (t_cap t)) ;;;
        b2_assert (opt_lt (n_child2 n) (t_cap t)) ;;;
        c1 <- getp (t_nodes t) (n_child1 n) ;;
        c2 <- getp (t_nodes t) (n_child2 n) ;;
        b2_assert (n_height n =? 1 + Z.max (n_height c1) (n_height c2))%Z ;;;
        let ab := combine (n_aabb c1) (n_aabb c2) in
        b2_assert (v_is_equal (lo ab) (lo (n_aabb n))) ;;;
        b2_assert (v_is_equal (hi ab) (hi (n_aabb n))) ;;;
        match fuel with
        | O => Fuel
        | S fuel =>
          validate_metrics fuel t (n_child1 n) ;;;
          validate_metrics fuel t (n_child2 n)
        end
    end.

  (* priv:622-628: length of the free list *)
  Fixpoint free_length (fuel : nat) (t : tree) (p : option nat) : res nat :=
    match p with
    | None => Ok 0%nat
    | Some i =>
      b2_assert (Nat.ltb i (t_cap t)) ;;;
      n <- get (t_nodes t) i ;;
      match fuel with
      | O => Fuel
      | S fuel => k <- free_length fuel t (n_parent n) ;; Ok (S k)
      end
    end.

  (* priv:616-634 validate (debug builds) *)
  Definition validate (t : tree) : res unit :=
    let fuel := length (t_nodes t) in
    validate_structure fuel t (t_root t) ;;;
    validate_metrics fuel t (t_root t) ;;;
    free_count <- free_length fuel t (t_free t) ;;
    h <- get_height t ;;
    h' <- compute_height t ;;
    b2_assert (h =? h')%Z ;;;
    b2_assert (Nat.eqb (t_count t + free_count) (t_cap t)).

  (* priv:636-654 get_max_balance *)
  Fixpoint max_balance_loop (t : tree) (is : list nat) (acc : Z) : res Z :=
    match is with
    | [] => Ok acc
    | i :: r =>
      n <- get (t_nodes t) i ;;
      if (n_height n <=? 1)%Z then max_balance_loop t r acc
      else
        b2_assert (negb (is_leaf n)) ;;;
        c1 <- getp (t_nodes t) (n_child1 n) ;;
        c2 <- getp (t_nodes t) (n_child2 n) ;;
        max_balance_loop t r (Z.max acc (Z.abs (n_height c2 - n_height c1)))
    end.
  Definition get_max_balance (t : tree) : res Z := max_balance_loop t (seq 0 (t_cap t)) 0%Z.

  (* priv:656-724 rebuild_bottom_up.
     [nodes] is the work array (length m_node_count, -1 = None); [count] the used part. *)
  Fixpoint rebuild_leaves (is : list nat) (t : tree) (nodes : list (option nat)) (count : nat)
      : res (tree * list (option nat) * nat) :=
    match is with
    | [] => Ok (t, nodes, count)
    | i :: r =>
      n <- get (t_nodes t) i ;;
      if (n_height n <? 0)%Z then rebuild_leaves r t nodes count
      else if is_leaf n then
        ns <- set (t_nodes t) i (set_parent n None) ;;
        nodes <- set nodes count (Some i) ;;
        rebuild_leaves r (with_nodes t ns) nodes (count + 1)
      else
        t <- free_node t i ;;
        rebuild_leaves r t nodes count
    end.

  (* priv:679-696: the double loop that looks for the cheapest pair *)
  Definition best := (T * option (nat * nat))%type.
  Fixpoint best_j (t : tree) (nodes : list (option nat)) (i : nat) (bi : aabb T) (js : list nat) (acc : best) : res best :=
    match js with
    | [] => Ok acc
    | j :: r =>
      p <- get nodes j ;;
      n <- getp (t_nodes t) p ;;
      let cost := perimeter (combine bi (n_aabb n)) in
      best_j t nodes i bi r (if cost <? fst acc then (cost, Some (i, j)) else acc)
    end.
  Fixpoint best_i (t : tree) (nodes : list (option nat)) (count : nat) (is : list nat) (acc : best) : res best :=
    match is with
    | [] => Ok acc
    | i :: r =>
      p <- get nodes i ;;
      n <- getp (t_nodes t) p ;;
      acc <- best_j t nodes i (n_aabb n) (seq (i + 1) (count - (i + 1))) acc ;;
      best_i t nodes count r acc
    end.

  (* priv:676-719: merge until one root is left *)
  Fixpoint rebuild_merge (fuel : nat) (t : tree) (nodes : list (option nat)) (count : nat)
      : res (tree * list (option nat)) :=
    if Nat.ltb 1 count then
      match fuel with
      | O => Fuel
      | S fuel =>
        b <- best_i t nodes count (seq 0 count) (B2_MAX_FLOAT, None) ;;
        '(i_min, j_min) <- unwrap (snd b) ;;          (* nodes[-1] panics *)
        p1 <- get nodes i_min ;;
        p2 <- get nodes j_min ;;
        index1 <- unwrap p1 ;;
        index2 <- unwrap p2 ;;
        child1 <- get (t_nodes t) index1 ;;
        child2 <- get (t_nodes t) index2 ;;
        '(t, parent_index) <- allocate_node t ;;
        ns <- modn (t_nodes t) parent_index (fun p =>
                set_parent (set_aabb (set_height (set_child2 (set_child1 p (Some index1)) (Some index2))
                   (1 + Z.max (n_height child1) (n_height child2))%Z)
                   (combine (n_aabb child1) (n_aabb child2))) None) ;;
        ns <- set ns index1 (set_parent child1 (Some parent_index)) ;;
        ns <- set ns index2 (set_parent child2 (Some parent_index)) ;;
        l <- get nodes (count - 1) ;;
        nodes <- set nodes j_min l ;;
        nodes <- set nodes i_min (Some parent_index) ;;
        rebuild_merge fuel (with_nodes t ns) nodes (count - 1)
      end
    else Ok (t, nodes).

  Definition rebuild_bottom_up (t : tree) : res tree :=
    '(t1, nodes, count) <- rebuild_leaves (seq 0 (t_cap t)) t (repeat None (t_count t)) 0 ;;
    '(t2, nodes) <- rebuild_merge count t1 nodes count ;;
    r <- get nodes 0 ;;                                 (* nodes[0] panics on an empty tree *)
    let t3 := with_root t2 r in
    validate t3 ;;;
    Ok t3.

  (* priv:726-735 shift_origin *)
  Definition shift_node (o : vec2 T) (n : node) : node :=
    set_aabb n (AABB (vsub (lo (n_aabb n)) o) (vsub (hi (n_aabb n)) o)).
  Definition shift_origin (t : tree) (o : vec2 T) : tree := with_nodes t (map (shift_node o) (t_nodes t)).
End TreeModel.
