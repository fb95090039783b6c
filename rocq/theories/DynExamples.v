(** Examples and counterexamples for Prop_Dyn. *)
From Coq Require Import List ZArith Reals Lra Lia Bool.
From Flocq Require Import Core.
From Verif Require Import Base Num NumLaws Math RTac Collision Manifold Filter ShapeModel DynModel DynSpec DynProofs.
Import ListNotations.

Section Ex.
  Context {T : Type} `{NT : Num T}.
  Definition ex_fixture (s : shape T) (density : T) : fixture T :=
    Fixture density None s (nofZ 0) (nofZ 0) (nofZ 0) [] 0 filter_default false.
  (* a body without fixtures at (1,2), turned by a right angle; mass 1, inertia 1 *)
  Definition ex_body (ty : btype) (awake : bool) (v : vec2 T) (w : T) : body T :=
    Body ty (BFlags false awake true false false true false) (-1) (Xf (V2 (nofZ 1) (nofZ 2)) (Rot (nofZ 1) (nofZ 0)))
      (Sweep vzero (V2 (nofZ 1) (nofZ 2)) (V2 (nofZ 1) (nofZ 2)) (nofZ 0) (nofZ 0) (nofZ 0)) v w vzero (nofZ 0) [] 0 [] []
      (nofZ 1) (nofZ 1) (nofZ 1) (nofZ 1) (nofZ 0) (nofZ 0) (nofZ 1) (nofZ 0).
  Definition ex_triangle : polygon T :=
    Polygon (nofZ 0) vzero [V2 (nofZ 0) (nofZ 0); V2 (nofZ 1) (nofZ 0); V2 (nofZ 0) (nofZ 1)] [] 3.
  Definition ex_def (ty : btype) (awake : bool) : body_def T :=
    BodyDef ty (V2 (nofZ 1) (nofZ 2)) (nofZ 0) vzero (nofZ 0) (nofZ 0) (nofZ 0) true awake false false true (nofZ 1).
End Ex.

(** C27: a sleeping body is given the velocity 10^-30; its square is 0 in single precision, the body stays asleep *)
Definition tiny : vec2 f32 := V2 (nlit 1 (10 ^ 30)) (nofZ 0).
Lemma tiny_ex : nlt (nofZ 0) (vx tiny) = true /\ nlt (nofZ 0) (b2_dot tiny tiny) = false.
Proof. vm_compute. split; reflexivity. Qed.
Lemma asleep_moving : let b := set_linear_velocity tiny (set_awake false (ex_body DynamicBody true vzero (nofZ 0))) in
  is_awake b = false /\ nlt (nofZ 0) (vx (b_lv b)) = true.
Proof. vm_compute. split; reflexivity. Qed.

(** C28: single precision, a disc of radius 1/1000 at (10, 0) on a body: the centered inertia is computed as not positive *)
Definition small_disc : fixture f32 := ex_fixture (ShCircle (Circle (nlit 1 1000) (V2 (nofZ 10) (nofZ 0)))) (nofZ 1).
Lemma small_disc_panics (b : body f32) : b_type b = DynamicBody -> fl_fixed_rotation (b_flags b) = false ->
  reset_mass_data [small_disc] b = Panic.
Proof.
  destruct b as [ty fl ii xf sw lv av fo to fx fc jl cl ma im ri ir ld ad gs st]. destruct fl as [f1 f2 f3 f4 f5 f6 f7]. cbn. intros -> ->.
  vm_compute. reflexivity.
Qed.
Lemma small_disc_positive : nlt (nofZ 0) (f_density small_disc) = true /\
  match f_shape small_disc with ShCircle c => nlt (nofZ 0) (ci_radius c) = true | _ => False end.
Proof. vm_compute. split; reflexivity. Qed.

Local Open Scope R_scope.
Lemma empty_massless : b_mass (ex_body (T := R) DynamicBody true vzero 0) = 1 /\
  exists b', reset_mass_data [] (ex_body (T := R) DynamicBody true vzero 0) = Ok b' /\ b_mass b' = 0 /\ b_inv_mass b' = 0.
Proof.
  split; [reflexivity|]. destruct (reset_total (ex_body DynamicBody true vzero 0) [] [] (Forall2_nil _) (Forall_nil _)) as (b' & E).
  exists b'. split; [exact E|].
  destruct (reset_mass_ok (ex_body DynamicBody true vzero 0) b' [] eq_refl E) as (ms & Hm & H1 & _ & H2 & _). inversion Hm; subst. unfold total_mass, total in *. cbn in *.
  split; [exact H1|]. apply H2. lra.
Qed.
(* a triangle of mass 1 and a disc of mass 2 PI *)
Definition ex_fixtures : list (fixture R) :=
  [ex_fixture (ShPolygon ex_triangle) 2; ex_fixture (ShCircle (Circle 1 (V2 3 0))) 2; ex_fixture (ShEdge edge_default) 0].
Lemma ex_massive : Forall (fun f => massive_shape (f_shape f) /\ 0 <= f_density f) ex_fixtures.
Proof.
  unfold ex_fixtures, ex_fixture. constructor; [|constructor; [|constructor; [|constructor]]]; cbn [f_shape f_density massive_shape ci_radius].
  - split; [|lra]. split; [cbn; lia|]. exists (V2 0 0). split; [reflexivity|]. split.
    + intros i a b Hi Ea Eb. cbn in *. destruct i as [|[|i]]; [| |lia]; cbn in Ea, Eb; injection Ea as <-; injection Eb as <-; cbn; lra.
    + exists (V2 1 0), (V2 0 1). split; [reflexivity|]. split; [reflexivity|]. cbn [vx vy]. unfold B2_EPSILON, nlit. rops. lra.
  - split; lra.
  - split; [exact I|lra].
Qed.
Lemma ex_mass : exists b', reset_mass_data ex_fixtures (ex_body DynamicBody true (V2 1 0) 2) = Ok b' /\
  b_mass b' = 1 + 2 * PI /\ point_velocity b' (V2 1 2) = V2 1 0 /\ 0 < b_i b'.
Proof.
  destruct (reset_massive (ex_body DynamicBody true (V2 1 0) 2) _ ex_massive) as (b' & E). exists b'. split; [exact E|].
  destruct (reset_mass_ok (ex_body DynamicBody true (V2 1 0) 2) b' ex_fixtures eq_refl E) as (ms & Hm & H1 & _ & _ & H2 & _ & H3).
  unfold masses, ex_fixtures in Hm. inversion Hm as [|? d1 ? r1 P1 Hm1]; subst. inversion Hm1 as [|? d2 ? r2 P2 Hm2]; subst.
  inversion Hm2 as [|? d3 ? r3 P3 Hm3]; subst. inversion Hm3; subst. clear Hm Hm1 Hm2 Hm3.
  cbn [ex_fixture f_density f_shape shape_mass] in *.
  destruct P1 as [(? & _)|(_ & P1)]; [lra|]. destruct P2 as [(? & _)|(_ & P2)]; [lra|]. destruct P3 as [(_ & ->)|(? & _)]; [|lra].
  injection P2 as <-. revert P1. unfold polygon_mass, for_range. cbn [po_count ex_triangle Nat.leb b2_assert bind po_vertices get nth_error Nat.sub for_from Nat.ltb Nat.add].
  cbn -[Rlt_bool B2_EPSILON]. unfold B2_EPSILON, nlit. rops. rewrite Rlt_bool_true by lra. cbn [b2_assert bind]. intros P1. injection P1 as <-.
  destruct (ShapeProofs.circle_mass_ok (Circle 1 (V2 3 0)) 2) as (E1 & E2 & E3). cbn [ci_radius ci_p] in *. unfold ShapeSpec.dotp in E3. cbn [vx vy] in E3.
  pose proof PI_RGT_0. split; [|split].
  - rewrite H1. unfold total_mass, total. cbn [fold_right]. rewrite E1. cbn [md_mass no_mass]. lra.
  - rewrite H3. unfold point_velocity, ex_body. cbn. apply vec2_ext; cbn; ring.
  - apply H2; [|reflexivity]. unfold total_i, total. cbn [fold_right]. rewrite E3, E1. cbn [md_i no_mass]. rmathc. nra.
Qed.
Lemma ex_calls : exists b', bcalls (ex_body (T := R) DynamicBody true vzero 0)
    [CPlace (V2 1 1) 2; CResetMass ex_fixtures; CLinear (V2 3 0); CAwake false; CPush (PForceCenter (V2 1 0)) false] = Ok b' /\
  is_awake b' = false /\ vx (b_lv b') = 0 /\ posed b'.
Proof.
  cbn [bcalls bcall_run bind].
  destruct (reset_massive (place_body (V2 1 1) 2 (ex_body DynamicBody true vzero 0)) _ ex_massive) as (b1 & E). rewrite E. cbn [bind].
  eexists. split; [reflexivity|].
  assert (Ht : b_type b1 = DynamicBody) by (apply reset_run in E as (K & _); apply kept_inv in K as (-> & _); reflexivity).
  set (b2 := set_linear_velocity (V2 3 0) b1). assert (Ht2 : b_type b2 = DynamicBody).
  { unfold b2. destruct (linear_force (V2 3 0) b1) as (_ & _ & ->). exact Ht. }
  destruct (sleep_ok b2) as ((L & _) & A & _); [congruence|].
  rewrite push_idle; [|right; split; [reflexivity|exact A]]. split; [exact A|]. split; [rewrite L; reflexivity|].
  destruct (awake_frame false b2) as (F1 & F2). apply (posed_frame b2); [exact F1|exact F2|].
  apply velocity_posed. exact (posed_reset _ _ _ (posed_place _ _ _) E).
Qed.
