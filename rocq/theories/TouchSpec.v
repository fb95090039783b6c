(** Touching contacts between solid fixtures have points, and their impulses push. *)
From Coq Require Import List ZArith Bool Arith.
From Verif Require Import Base Num Math Manifold ShapeModel DynModel SolverModel IslandModel WorldModel WorldClaims WorldCalls SafeSpec SolverSpec SolveModel CrashSpec.
Import ListNotations.

Section Touch.
  Local Open Scope num_scope.
  Context {T : Type} `{NT : Num T} `{TT : NumTrig T} `{VT : NumValid T}.
  Implicit Types w : world T.

  Definition solid_fixture w (f : nat) : Prop := exists x, w_fixtures w f = Some x /\ f_sensor x = false.
  Definition touching_solids w : Prop := forall c x, w_contacts w c = Some x -> cf_touching (c_flags x) = true -> solid_fixture w (c_fa x) -> solid_fixture w (c_fb x) -> (1 <= mf_count (c_manifold x))%nat.
  (* the listener leaves the manifolds alone *)
  Definition hands_off (E : env T) : Prop := forall w e c, ce_manifold (e_listen E w e c) = c_manifold c.
  (* no sensor is made solid while it touches *)
  Definition gentle w (c : wcall T) : Prop :=
    match c with WSensor f false => forall k x, w_contacts w k = Some x -> c_fa x = f \/ c_fb x = f -> cf_touching (c_flags x) = false | _ => True end.
  Inductive gentle_reach (E : env T) : world T -> Prop :=
  | gentle_new listener goodbye w : world_new listener goodbye = Ok w -> gentle_reach E w
  | gentle_call w c w' : gentle_reach E w -> gentle w c -> wrun E c w = Ok w' -> gentle_reach E w'.
  (* and every call keeps its conditions *)
  Inductive gentle_careful (E : env T) : world T -> Prop :=
  | careful_from listener goodbye w : world_new listener goodbye = Ok w -> gentle_careful E w
  | careful_on w c w' : gentle_careful E w -> gentle w c -> safe w c -> wrun E c w = Ok w' -> gentle_careful E w'.
  (* the impulses of the last step can be used again: they are not, or products and quotients keep the sign *)
  Definition warm_safe {J} (su : setup T J) : Prop :=
    su_warm su = false \/ ((forall a b : T, nonneg a -> nonneg b -> nonneg (a * b)) /\ (forall a : T, (#0 <? a) = true -> nonneg a /\ nonneg (#1 / a))).
End Touch.
