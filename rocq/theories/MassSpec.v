(** Static and kinematic bodies have no mass: in every world a program can get. *)
From Coq Require Import List ZArith Bool.
From Verif Require Import Base Num Math DynModel WorldModel.
Import ListNotations.

Definition massless {T} {NT : Num T} (b : body T) : Prop := b_inv_mass b = nofZ 0 /\ b_inv_i b = nofZ 0.
Definition fixed_masses {T} {NT : Num T} (w : WorldModel.world T) : Prop := forall i b, w_bodies w i = Some b -> b_type b <> DynamicBody -> massless b.
