(** What the world is supposed to do: the islands of a step. The definitions only read the tables of a world. *)
From Coq Require Import List ZArith Bool Arith.
From Verif Require Import Base Num Math Collision DynModel WorldModel WorldGraph.
Import ListNotations.

Section Spec.
  Context {T : Type} `{NT : Num T}.
  Notation world := (world T).
  Implicit Types w : world.

  (** ** islands *)
  Definition awake_at w i : bool := match w_bodies w i with Some b => is_awake b | None => false end.
  Definition moving w i : bool := match w_bodies w i with Some b => negb (is_static b) | None => false end.
  Definition enabled_at w i : bool := match w_bodies w i with Some b => is_enabled b | None => false end.
  (* enabled, touching, no sensor *)
  Definition solid w c : bool :=
    match w_contacts w c with
    | None => false
    | Some x => cf_enabled (c_flags x) && cf_touching (c_flags x) &&
      match w_fixtures w (c_fa x), w_fixtures w (c_fb x) with Some a, Some b => negb (f_sensor a || f_sensor b) | _, _ => false end
    end.
  Definition link w (i o : nat) : Prop :=
    (exists c s, solid w c = true /\ cbody (graph_of w) c s = Some i /\ cbody (graph_of w) c (negb s) = Some o) \/
    (exists j s, jbody (graph_of w) j s = Some i /\ jbody (graph_of w) j (negb s) = Some o /\ enabled_at w o = true).
  Inductive conn w (s : nat) : nat -> Prop :=
  | conn_seed : conn w s s
  | conn_step i o : conn w s i -> moving w i = true -> link w i o -> conn w s o.


  Definition islands (l : list event) : list island :=
    flat_map (fun e => match e with EvIsland b c j => [Island b c j] | _ => [] end) l.
  (* [is] is the island grown from the body [seed] of [w]: the bodies that can be reached from it without leaving
     a static body, and the contacts and joints of its non-static bodies *)
  Record island_from w (seed : nat) (is : island) : Prop := {
    if_seed : moving w seed = true /\ enabled_at w seed = true /\ awake_at w seed = true;
    if_nodup : NoDup (is_bodies is) /\ NoDup (is_contacts is) /\ NoDup (is_joints is);
    if_bodies : forall i, In i (is_bodies is) <-> conn w seed i;
    if_enabled : forall i, In i (is_bodies is) -> enabled_at w i = true;
    if_contacts : forall c, In c (is_contacts is) <->
      solid w c = true /\ exists s i, cbody (graph_of w) c s = Some i /\ moving w i = true /\ In i (is_bodies is);
    if_joints : forall j, In j (is_joints is) <->
      exists s i o, jbody (graph_of w) j s = Some i /\ moving w i = true /\ In i (is_bodies is) /\ jbody (graph_of w) j (negb s) = Some o /\ enabled_at w o = true }.
  (* two islands share no non-static body, no contact and no joint *)
  Definition apart w (is is' : island) : Prop :=
    (forall i, moving w i = true -> In i (is_bodies is) -> ~ In i (is_bodies is')) /\
    (forall c, In c (is_contacts is) -> ~ In c (is_contacts is')) /\
    (forall j, In j (is_joints is) -> ~ In j (is_joints is')).
  (* the islands of one discrete step *)
  Definition partition w (l : list island) : Prop :=
    (forall is, In is l -> exists seed, island_from w seed is) /\
    (forall i, moving w i = true -> enabled_at w i = true -> awake_at w i = true -> exists is, In is l /\ In i (is_bodies is)) /\
    ForallOrdPairs (apart w) l.
End Spec.
