(** Model of how a contact with a sensor asks whether its shapes overlap: /repo/src/private/dynamics/b2_contact.rs:148-163
    (the sensor branch of b2_contact_update). The world model takes this function from its environment; [senses] says that
    the environment is the code. *)
From Coq Require Import List Arith.
From Verif Require Import Base Num Math ShapeModel DynModel DistModel WorldModel NarrowModel.

Section Sense.
  Context {T : Type} `{NT : Num T} `{TT : NumTrig T} `{VT : NumValid T}.

  Definition overlap (w : world T) (i : nat) : res bool :=
    '(c, fa, fb, ba, bb) <- contact_ends w i ;;
    shapes_overlap (f_shape fa) (c_ia c) (f_shape fb) (c_ib c) (b_xf ba) (b_xf bb).
  Definition senses (E : env T) : Prop := forall w i b, overlap w i = Ok b -> e_overlap E w i = Ok b.
End Sense.
