(** The speeds that joints report are derivatives of what they measure. *)
From Coq Require Import List ZArith Reals Lra Lia Bool Arith.
From Coquelicot Require Import Coquelicot.
From Verif Require Import Base Num NumLaws Math RTac ListFacts Manifold Filter DynModel SolverModel IslandModel SolverSpec JointModel JointSpec JointDefModel JointDefSpec.
Import ListNotations.
Local Open Scope R_scope.

Lemma drift_in_place t b : in_place (drift t b).
Proof. unfold in_place, drift. destruct b. reflexivity. Qed.
Lemma drift_0 b : in_place b -> drift 0 b = b.
Proof.
  destruct b as [? ? ? xf sw]. unfold in_place, drift. cbv zeta. cbn. intros ->. destruct sw as [lc c0 c a0 a al]. cbn. destruct c as [cx cy]. cbn. rewrite !Rmult_0_l, !Rplus_0_r. reflexivity.
Qed.
Lemma translation_speed la lb lx a b t : derivable_pt_lim (fun t => translation_of la lb lx (drift t a) (drift t b)) t (linear_speed_of la lb lx (drift t a) (drift t b)).
Proof.
  apply is_derive_Reals. unfold translation_of, linear_speed_of, get_world_point, get_world_vector, drift, turned. cbv zeta.
  destruct a as [? ? ? xfa [lca c0a ca a0a aa ala] lva wa], b as [? ? ? xfb [lcb c0b cb a0b ab alb] lvb wb]. cbn -[Rplus Rmult Rminus Ropp cos sin].
  destruct la as [lax lay], lb as [lbx lby], lx as [lxx lxy], lca as [lcax lcay], lcb as [lcbx lcby], ca as [cax cay], cb as [cbx cby], lva as [vax vay], lvb as [vbx vby].
  rmathc. auto_derive; [exact I|]. ring.
Qed.
Lemma angle_speed r a b t : derivable_pt_lim (fun t => rev_joint_angle r (drift t a) (drift t b)) t (rev_joint_speed (drift t a) (drift t b)).
Proof.
  apply is_derive_Reals. unfold rev_joint_angle, rev_joint_speed, drift. destruct a as [? ? ? xfa [lca c0a ca a0a aa ala] lva wa], b as [? ? ? xfb [lcb c0b cb a0b ab alb] lvb wb]. cbn -[Rplus Rmult Rminus Ropp].
  auto_derive; [exact I|]. ring.
Qed.
Lemma wheel_angle_speed a b t : derivable_pt_lim (fun t => whe_joint_angle (drift t a) (drift t b)) t (whe_angular_speed (drift t a) (drift t b)).
Proof.
  apply is_derive_Reals. unfold whe_joint_angle, whe_angular_speed, drift. destruct a as [? ? ? xfa [lca c0a ca a0a aa ala] lva wa], b as [? ? ? xfb [lcb c0b cb a0b ab alb] lvb wb]. cbn -[Rplus Rmult Rminus Ropp].
  auto_derive; [exact I|]. ring.
Qed.
