(** Queries of a world: query_aabb and ray_cast.
    wor = src/private/dynamics/b2_world.rs, fix = src/b2_fixture.rs, shp = src/b2_shape.rs *)
From Coq Require Import List ZArith Bool Arith.
From Verif Require Import Base Num Math Collision ShapeModel TreeModel BroadModel DynModel WorldModel.
Import ListNotations.

Section Query.
  Context {T : Type} `{NT : Num T} `{TT : NumTrig T} `{VT : NumValid T}.
  Local Open Scope num_scope.
  Notation world := (world T).

  (* shp:64-106 the dispatch of ray_cast; None: no hit *)
  Definition shape_ray_cast (s : shape T) (inp : ray_input T) (xf : xform T) (child : nat) : res (option (ray_output T)) :=
    match s with
    | ShCircle c => Ok (circle_ray_cast c inp xf)
    | ShEdge e => Ok (edge_ray_cast e inp xf)
    | ShPolygon p => polygon_ray_cast p inp xf
    | ShChain c => chain_ray_cast c inp xf child
    end.
  (* fix:418-438 ray_cast *)
  Definition fixture_ray_cast (w : world) (f : nat) (inp : ray_input T) (child : nat) : res (option (ray_output T)) :=
    x <- get_fixture w f ;;
    i <- unwrap (f_body x) ;;
    b <- get_body w i ;;
    shape_ray_cast (f_shape x) inp (b_xf b) child.

  (* the user data of a proxy of the tree: the fixture and the child; get_user_data, unwrap, upgrade_opt *)
  Definition proxy_of (w : world) (id : nat) : res (nat * nat) :=
    u <- get_user_data (bp_tree (w_bp w)) id ;;
    '(f, k) <- proxy_data w u ;;
    get_fixture w f ;;;
    Ok (f, k).

  (* wor:969-980 query_aabb. The closure of the tree query cannot return an error; a panic in it ends the query. *)
  Definition query_closure {S} (w : world) (cb : S -> nat -> S * bool) (r : res S) (id : nat) : res S * bool :=
    match (s <- r ;; '(f, _) <- proxy_of w id ;; Ok (cb s f)) with
    | Ok (s, go) => (Ok s, go)
    | Panic => (Panic, false)
    | Fuel => (Fuel, false)
    end.
  Definition world_query {S} (w : world) (cb : S -> nat -> S * bool) (s : S) (box : aabb T) : res S :=
    r <- query (bp_tree (w_bp w)) (query_closure w cb) (Ok s) box ;; r.

  (* wor:1017-1056 ray_cast; the user gets the fixture, the point, the normal and the fraction *)
  Definition ray_report {S} (w : world) (cb : S -> nat -> vec2 T -> vec2 T -> T -> S * T) (s : S) (inp : ray_input T) (id : nat) : res (S * T) :=
    '(f, k) <- proxy_of w id ;;
    o <- fixture_ray_cast w f inp k ;;
    match o with
    | Some out =>
      let fraction := ray_fraction out in
      let point := vadd (vscale (#1 - fraction) (ray_p1 inp)) (vscale fraction (ray_p2 inp)) in
      Ok (cb s f point (ray_normal out) fraction)
    | None => Ok (s, ray_max inp)
    end.
  Definition ray_closure {S} (w : world) (cb : S -> nat -> vec2 T -> vec2 T -> T -> S * T) (r : res S) (inp : ray_input T) (id : nat) : res S * T :=
    match (s <- r ;; ray_report w cb s inp id) with
    | Ok (s, value) => (Ok s, value)
    | Panic => (Panic, #0)
    | Fuel => (Fuel, #0)
    end.
  Definition world_ray_cast {S} (w : world) (cb : S -> nat -> vec2 T -> vec2 T -> T -> S * T) (s : S) (p1 p2 : vec2 T) : res S :=
    r <- ray_cast (bp_tree (w_bp w)) (ray_closure w cb) (Ok s) (RayIn p1 p2 #1) ;; r.
End Query.
