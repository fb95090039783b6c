(** What the links of a world are supposed to be. The definitions only read the tables of a world. *)
From Coq Require Import List ZArith Bool Arith.
From Verif Require Import Base Num Math Collision Manifold Filter ShapeModel TreeModel TreeSpec BroadModel BroadSpec DynModel WorldModel.
Import ListNotations.

Section Claims.
  Context {T : Type} `{NT : Num T} `{TT : NumTrig T} `{VT : NumValid T}.
  Notation world := (world T).
  Implicit Types w : world.

  (** ** who belongs to whom *)
  Definition body_of w (f : nat) : option nat := match w_fixtures w f with Some x => f_body x | None => None end.
  Definition bodies_of w (c : contact T) : option (nat * nat) :=
    match body_of w (c_fa c), body_of w (c_fb c) with Some a, Some b => Some (a, b) | _, _ => None end.
  Definition dynamic w (i : nat) : Prop := exists b, w_bodies w i = Some b /\ b_type b = DynamicBody.
  Definition turned_on w (i : nat) : Prop := exists b, w_bodies w i = Some b /\ is_enabled b = true.
  (* a joint between the two bodies forbids that they collide *)
  Definition joint_forbids w (a b : nat) : Prop :=
    exists j x, w_joints w j = Some x /\ j_collide x = false /\ ((j_a x = a /\ j_b x = b) \/ (j_a x = b /\ j_b x = a)).
  (* the two contacts are for the same two fixture children, in either order *)
  Definition pair_key (x : contact T) := ((c_fa x, c_ia x), (c_fb x, c_ib x)).
  Definition same_children (x y : contact T) : Prop := pair_key x = pair_key y \/ pair_key x = (snd (pair_key y), fst (pair_key y)).

  (** ** a table of objects, the list of the world and its length *)
  Definition listed {A} (t : nat -> option A) (l : list nat) (n : nat) : Prop :=
    NoDup l /\ (forall i, In i l <-> t i <> None) /\ n = length l.
  Definition edge_here (i : nat) (e : gedge) : bool := Nat.eqb (ge_item e) i.
  (* [x] occurs once in the list of body [a], with [b] on the other side *)
  Definition once (l : list gedge) (item : nat) (side : bool) (other : nat) : Prop :=
    List.filter (edge_here item) l = [GEdge item side other].
  Definition nowhere (l : list gedge) (item : nat) : Prop := List.filter (edge_here item) l = [].
  (* the contacts *)
  Definition contact_graph w : Prop :=
    listed (w_contacts w) (w_contact_list w) (w_contact_count w) /\
    (forall c x, w_contacts w c = Some x -> exists a b ba bb,
       bodies_of w x = Some (a, b) /\ a <> b /\ w_bodies w a = Some ba /\ w_bodies w b = Some bb /\
       once (b_contacts ba) c true b /\ once (b_contacts bb) c false a /\
       forall i y, w_bodies w i = Some y -> i <> a -> i <> b -> nowhere (b_contacts y) c) /\
    (forall c i y, w_contacts w c = None -> w_bodies w i = Some y -> nowhere (b_contacts y) c).
  (* the joints *)
  Definition joint_graph w : Prop :=
    listed (w_joints w) (w_joint_list w) (w_joint_count w) /\
    (forall j x, w_joints w j = Some x -> exists ba bb,
       j_a x <> j_b x /\ w_bodies w (j_a x) = Some ba /\ w_bodies w (j_b x) = Some bb /\
       once (b_joints ba) j true (j_b x) /\ once (b_joints bb) j false (j_a x) /\
       forall i y, w_bodies w i = Some y -> i <> j_a x -> i <> j_b x -> nowhere (b_joints y) j) /\
    (forall j i y, w_joints w j = None -> w_bodies w i = Some y -> nowhere (b_joints y) j).
  (* the fixtures *)
  Definition fixture_graph w : Prop :=
    listed (w_bodies w) (w_body_list w) (w_body_count w) /\
    (forall i b, w_bodies w i = Some b -> listed (fun f => match body_of w f with Some j => if Nat.eqb i j then Some tt else None | None => None end) (b_fixtures b) (b_fixture_count b)) /\
    (forall f x, w_fixtures w f = Some x -> exists i b, f_body x = Some i /\ w_bodies w i = Some b).

  (** ** which contacts there may be *)
  Definition may_meet (E : env T) w (x : contact T) : Prop :=
    exists a b, bodies_of w x = Some (a, b) /\ a <> b /\ (dynamic w a \/ dynamic w b) /\ ~ joint_forbids w a b /\
      (e_filter E w (c_fa x) (c_fb x) = true \/ e_filter E w (c_fb x) (c_fa x) = true).
  (* nothing of what decides about contacts differs, except through the memory of the filter *)
  Definition same_rules w v : Prop :=
    (forall f, option_map (fun x => (f_body x, f_shape x, f_filter x, f_sensor x)) (w_fixtures v f) = option_map (fun x => (f_body x, f_shape x, f_filter x, f_sensor x)) (w_fixtures w f)) /\
    (forall i, option_map (fun b => (b_type b, is_enabled b)) (w_bodies v i) = option_map (fun b => (b_type b, is_enabled b)) (w_bodies w i)) /\
    (forall j, option_map (fun x => (j_a x, j_b x, j_collide x)) (w_joints v j) = option_map (fun x => (j_a x, j_b x, j_collide x)) (w_joints w j)).

  (** ** what the listener was told about a contact, oldest first; true: begin *)
  Definition told w (c : nat) : list bool :=
    flat_map (fun e => match e with
      | EvBegin i => if Nat.eqb i c then [true] else []
      | EvEnd i => if Nat.eqb i c then [false] else []
      | _ => [] end) (rev (w_log w)).
  (* follow the news: None when a begin comes while touching or an end while not *)
  Fixpoint follow (touching : bool) (news : list bool) : option bool :=
    match news with [] => Some touching | e :: r => if Bool.eqb e touching then None else follow e r end.
  Definition is_touching w (c : nat) : bool := match w_contacts w c with Some x => cf_touching (c_flags x) | None => false end.

  (** ** proxies: the children of all fixtures of the enabled bodies *)
  Definition children w (f : nat) : nat :=
    match w_fixtures w f with
    | Some x => match shape_child_count (f_shape x) with Ok n => n | _ => 0 end
    | None => 0
    end.
  Definition sum (l : list nat) : nat := fold_right Nat.add 0 l.
  Definition enabled_children w : nat :=
    sum (map (fun i => match w_bodies w i with
                       | Some b => if is_enabled b then sum (map (children w) (b_fixtures b)) else 0
                       | None => 0 end) (w_body_list w)).
  (* the proxies of a fixture: all of them or none *)
  Definition proxies_of w (f : nat) : nat := match w_fixtures w f with Some x => f_proxy_count x | None => 0 end.

  (** ** removal *)
  Definition on_body w (i : nat) (x : contact T) : bool :=
    match bodies_of w x with Some (a, b) => Nat.eqb a i || Nat.eqb b i | None => false end.
  Definition contact_on w (i c : nat) : bool := match w_contacts w c with Some x => on_body w i x | None => false end.
  Definition joint_on w (i j : nat) : bool := match w_joints w j with Some x => Nat.eqb (j_a x) i || Nat.eqb (j_b x) i | None => false end.
  Definition fixture_on w (i f : nat) : bool := match body_of w f with Some j => Nat.eqb j i | None => false end.
  Definition keep_item (gone : nat -> bool) (l : list nat) : list nat := List.filter (fun i => negb (gone i)) l.
  Definition keep_edge (gone : nat -> bool) (l : list gedge) : list gedge := List.filter (fun e => negb (gone (ge_item e))) l.

  (* what destroy_body leaves behind *)
  Definition body_removed (i : nat) w w' : Prop :=
    w_bodies w' i = None /\
    w_body_list w' = keep_item (Nat.eqb i) (w_body_list w) /\
    w_contact_list w' = keep_item (contact_on w i) (w_contact_list w) /\
    w_joint_list w' = keep_item (joint_on w i) (w_joint_list w) /\
    (forall f, w_fixtures w' f = if fixture_on w i f then None else w_fixtures w f) /\
    (forall c, option_map pair_key (w_contacts w' c) = if contact_on w i c then None else option_map pair_key (w_contacts w c)) /\
    (forall j, option_map (fun x => (j_a x, j_b x, j_collide x)) (w_joints w' j) = if joint_on w i j then None else option_map (fun x => (j_a x, j_b x, j_collide x)) (w_joints w j)) /\
    (forall k, k <> i -> option_map (fun b => (b_type b, is_enabled b, b_fixtures b, b_contacts b, b_joints b)) (w_bodies w' k) =
       option_map (fun b => (b_type b, is_enabled b, b_fixtures b, keep_edge (contact_on w i) (b_contacts b), keep_edge (joint_on w i) (b_joints b))) (w_bodies w k)).
  (* the counts, with the number of removed objects *)
  Definition counts_drop (i : nat) w w' : Prop :=
    (w_body_count w' + 1 = w_body_count w)%nat /\
    (w_contact_count w' + length (List.filter (contact_on w i) (w_contact_list w)) = w_contact_count w)%nat /\
    (w_joint_count w' + length (List.filter (joint_on w i) (w_joint_list w)) = w_joint_count w)%nat /\
    forall b, w_bodies w i = Some b ->
      (bp_proxies (w_bp w') + Z.of_nat (if is_enabled b then sum (map (children w) (b_fixtures b)) else 0) = bp_proxies (w_bp w))%Z.
  (* the contact, the joint is nowhere any more *)
  Definition contact_removed (c : nat) w w' : Prop :=
    w_contacts w' c = None /\ w_contact_list w' = keep_item (Nat.eqb c) (w_contact_list w) /\ (w_contact_count w' + 1 = w_contact_count w)%nat /\
    (forall k, option_map (fun b => b_contacts b) (w_bodies w' k) = option_map (fun b => keep_edge (Nat.eqb c) (b_contacts b)) (w_bodies w k)) /\
    (forall k, k <> c -> option_map pair_key (w_contacts w' k) = option_map pair_key (w_contacts w k)).
  Definition joint_removed (j : nat) w w' : Prop :=
    w_joints w' j = None /\ w_joint_list w' = keep_item (Nat.eqb j) (w_joint_list w) /\ (w_joint_count w' + 1 = w_joint_count w)%nat /\
    (forall k, option_map (fun b => b_joints b) (w_bodies w' k) = option_map (fun b => keep_edge (Nat.eqb j) (b_joints b)) (w_bodies w k)) /\
    (forall k, k <> j -> option_map (fun x => (j_a x, j_b x, j_collide x)) (w_joints w' k) = option_map (fun x => (j_a x, j_b x, j_collide x)) (w_joints w k)).

  (** ** the broad phase holds exactly the children of the fixtures on enabled bodies *)
  Definition proxy_is w (f k id : nat) : Prop := exists x q, w_fixtures w f = Some x /\ nth_error (f_proxies x) k = Some q /\ fp_id q = Some id.
  Definition on_enabled w (f : nat) : Prop := exists i, body_of w f = Some i /\ turned_on w i.
  Definition mirrored w : Prop := exists m pw n, breach (fun _ => True) (w_bp w) m pw n /\
    (forall f k, on_enabled w f -> (k < children w f)%nat -> exists id box moved, proxy_is w f k id /\ m id = Some (box, Some (f, k), moved)) /\
    (forall id box u moved, m id = Some (box, u, moved) -> exists f k, u = Some (f, k) /\ on_enabled w f /\ (k < children w f)%nat /\ proxy_is w f k id).

  (** ** the same world, entry by entry *)
  Definition rest w := (w_next_body w, w_next_fixture w, w_next_contact w, w_next_joint w, w_body_list w, w_contact_list w, w_joint_list w,
    w_body_count w, w_contact_count w, w_joint_count w, w_bp w, (w_new_contacts w, w_locked w, w_step_complete w, w_allow_sleep w,
    w_continuous w, w_sub_stepping w, w_clear_forces w, w_listener w, w_goodbye w, w_inv_dt0 w, w_log w)).
  Definition same_world w w' : Prop :=
    (forall i, w_bodies w' i = w_bodies w i) /\ (forall i, w_fixtures w' i = w_fixtures w i) /\ (forall i, w_contacts w' i = w_contacts w i) /\
    (forall i, w_joints w' i = w_joints w i) /\ rest w' = rest w.

  (** ** the part of a step before the solver: new contacts, then collide *)
  Definition step_front (E : env T) w : res world :=
    w1 <- (if w_new_contacts w then w1 <- find_new_contacts E w ;; Ok (set_w_new_contacts false w1) else Ok w) ;;
    collide E (set_w_locked true w1).
  (* the rest of the step: the solver, then the continuous phase *)
  Definition step_back (E : env T) (dt : T) w : res world :=
    w1 <- (if w_step_complete w && nlt (nofZ 0) dt then solve E dt w else Ok w) ;;
    w2 <- (if w_continuous w1 && nlt (nofZ 0) dt then solve_toi E dt w1 else Ok w1) ;;
    let w3 := if nlt (nofZ 0) dt then set_w_inv_dt0 (ndiv (nofZ 1) dt) w2 else w2 in
    w4 <- (if w_clear_forces w3 then clear_forces w3 else Ok w3) ;;
    Ok (set_w_locked false w4).

  (** ** sensors and impulses *)
  Definition sensor_contact w (x : contact T) : bool :=
    match w_fixtures w (c_fa x), w_fixtures w (c_fb x) with Some a, Some b => f_sensor a || f_sensor b | _, _ => false end.
  (* the point of the old manifold with the id, if any *)
  Definition old_point (old : manifold T) (id : cid) (q : mpoint T) : Prop :=
    exists j, (j < mf_count old)%nat /\ nth_error (mf_points old) j = Some q /\ cid_eqb (mp_id q) id = true /\
      forall k r, (k < j)%nat -> nth_error (mf_points old) k = Some r -> cid_eqb (mp_id r) id = false.
  (* [r] is the new manifold [m] with the impulses of [old] *)
  Definition impulses_kept (old m r : manifold T) : Prop :=
    mf_count r = mf_count m /\ mf_local_normal r = mf_local_normal m /\ mf_local_point r = mf_local_point m /\ mf_type r = mf_type m /\
    forall k, (k < mf_count m)%nat -> exists q r', nth_error (mf_points m) k = Some q /\ nth_error (mf_points r) k = Some r' /\
      mp_local r' = mp_local q /\ mp_id r' = mp_id q /\
      ((exists o, old_point old (mp_id q) o /\ mp_normal_impulse r' = mp_normal_impulse o /\ mp_tangent_impulse r' = mp_tangent_impulse o) \/
       ((forall j o, (j < mf_count old)%nat -> nth_error (mf_points old) j = Some o -> cid_eqb (mp_id o) (mp_id q) = false) /\
        mp_normal_impulse r' = nofZ 0 /\ mp_tangent_impulse r' = nofZ 0)).

  (** ** what a call adds to the log *)
  Definition news w w' (l : list event) : Prop := w_log w' = l ++ w_log w.
  Definition solves (c : nat) (e : event) : bool := match e with EvPre i | EvPost i => Nat.eqb i c | _ => false end.
End Claims.
