(** Model of how a contact of the world calls the narrow phase: /repo/src/private/dynamics/contacts/*.rs (evaluate) and
    the part of /repo/src/private/dynamics/b2_contact.rs:100-210 (b2_contact_update) that prepares the call.
    The world model takes this function from its environment; [narrow] says that the environment is the code. *)
From Coq Require Import ZArith Bool List Arith.
From Verif Require Import Base Num Math Collision Manifold ShapeModel CollideModel DynModel WorldModel.
Import ListNotations.

Section Narrow.
  Context {T : Type} `{NT : Num T} `{TT : NumTrig T} `{VT : NumValid T}.

  (* b2_circle_contact.rs, b2_polygon_circle_contact.rs, b2_polygon_contact.rs, b2_edge_circle_contact.rs,
     b2_edge_polygon_contact.rs, b2_chain_circle_contact.rs, b2_chain_polygon_contact.rs: evaluate;
     for other types as_...().unwrap() panics *)
  Definition evaluate_shapes (sa : shape T) (ia : nat) (xf_a : xform T) (sb : shape T) (xf_b : xform T) : res (manifold T) :=
    match sa, sb with
    | ShCircle a, ShCircle b => b2_collide_circles manifold_default a xf_a b xf_b
    | ShPolygon a, ShCircle b => b2_collide_polygon_and_circle manifold_default a xf_a b xf_b
    | ShPolygon a, ShPolygon b => b2_collide_polygons manifold_default a xf_a b xf_b
    | ShEdge a, ShCircle b => b2_collide_edge_and_circle manifold_default a xf_a b xf_b
    | ShEdge a, ShPolygon b => b2_collide_edge_and_polygon manifold_default a xf_a b xf_b
    | ShChain a, ShCircle b => e <- get_child_edge a ia ;; b2_collide_edge_and_circle manifold_default e xf_a b xf_b
    | ShChain a, ShPolygon b => e <- get_child_edge a ia ;; b2_collide_edge_and_polygon manifold_default e xf_a b xf_b
    | _, _ => Panic
    end.
  (* b2_contact.rs:131-146 the fixtures and the bodies of a contact *)
  Definition contact_ends (w : world T) (i : nat) : res (contact T * fixture T * fixture T * body T * body T) :=
    c <- get_contact w i ;;
    fa <- get_fixture w (c_fa c) ;;
    fb <- get_fixture w (c_fb c) ;;
    a <- unwrap (f_body fa) ;;
    b <- unwrap (f_body fb) ;;
    ba <- get_body w a ;;
    bb <- get_body w b ;;
    Ok (c, fa, fb, ba, bb).
  (* b2_contact.rs:167-169 *)
  Definition evaluate (w : world T) (i : nat) : res (manifold T) :=
    '(c, fa, fb, ba, bb) <- contact_ends w i ;;
    evaluate_shapes (f_shape fa) (c_ia c) (b_xf ba) (f_shape fb) (b_xf bb).
  (* the environment answers what the code answers; where the code panics nothing is said *)
  Definition narrow (E : env T) : Prop := forall w i m, evaluate w i = Ok m -> e_evaluate E w i = Ok m.
End Narrow.
