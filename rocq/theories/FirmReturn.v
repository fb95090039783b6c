(** The solver of the island of an impact returns. *)
From Coq Require Import List ZArith Bool Arith Lia.
From Verif Require Import Base Num NumLaws Math Manifold ShapeModel ListFacts DynModel SolverModel IslandModel WorldModel SolverSpec SolverProofs SolverTotal CrashProofs.
Import ListNotations.

Section Return.
  Local Open Scope num_scope.
  Context {T : Type} {NT : Num T} {TT : NumTrig T} {OT : NumOrd T}.
  Lemma toi_positions_ok n ta tb (pcs : list (pcon T)) ps : Forall (pwired n) pcs -> length ps = n -> exists ps' okay, solve_toi_positions ta tb pcs ps = Ok (ps', okay) /\ length ps' = n.
  Proof.
    intros F L. unfold solve_toi_positions. match goal with |- context [each_item ?f pcs ?s0] => destruct (each_item_all (pwired n) (fun _ => True) (fun st => length (snd st) = n) f) with (l := pcs) (s := s0) as (l' & [m ps'] & R & _ & L' & _); auto end.
    { intros c s Wc Ls. match goal with |- context [position_constraint ?k ?a ?b ?d ?e c s] => destruct (position_ok k a b d e c n s Wc Ls) as (s' & -> & Ls') end. cbn [bind]. eauto. }
    rewrite R. cbn [bind]. eauto.
  Qed.
  Lemma toi_iterations_ok n ta tb (pcs : list (pcon T)) : Forall (pwired n) pcs -> forall k ps, length ps = n -> exists ps', toi_iterations k ta tb pcs ps = Ok ps' /\ length ps' = n.
  Proof.
    intros F. induction k as [|k IH]; intros ps L; cbn [toi_iterations]; [eauto|]. destruct (toi_positions_ok n ta tb pcs ps F L) as (p1 & okay & -> & L1). cbn [bind]. destruct okay; eauto.
  Qed.
  Lemma leap_ok (ps : list (pos T)) i (bodies : list (body T)) : length ps = length bodies -> (0 <= i < Z.of_nat (length bodies))%Z -> exists l, leap ps i bodies = Ok l /\ length l = length bodies.
  Proof.
    intros L B. unfold leap. destruct (zget_ok bodies i B) as (b & ->). cbn [bind]. rewrite <- L in B. destruct (zget_ok ps i B) as (p & ->). cbn [bind]. rewrite L in B. match goal with |- context [zset bodies i ?x] => destruct (zset_ok bodies i x B) as (l & -> & L1) end. eauto.
  Qed.
  Theorem toi_returns block st ta tb (bodies : list (body T)) cins : Forall (solvable (length bodies) st) cins -> (0 <= ta < Z.of_nat (length bodies))%Z -> (0 <= tb < Z.of_nat (length bodies))%Z ->
    exists r, island_solve_toi block st ta tb bodies cins = Ok r.
  Proof.
    intros F A B. unfold island_solve_toi, make_constraints. cbv zeta. remember (length bodies) as n eqn:En.
    destruct (map_res_total (solvable n st) (fun cp => fresh n (fst cp) /\ pwired n (snd cp)) (new_constraint st) cins (new_both n st) F) as (l & -> & Fl & Ll). cbn [bind].
    assert (Lp : length (map body_pos bodies) = n) by (now rewrite map_length). assert (Lv : length (map body_vel bodies) = n) by (now rewrite map_length).
    assert (Fp : Forall (pwired n) (map snd l)) by (clear - Fl; induction Fl as [|x l [_ H] F IH]; cbn; constructor; auto).
    destruct (toi_iterations_ok n ta tb (map snd l) Fp (ts_pos_iters st) _ Lp) as (ps & -> & Ls). cbn [bind].
    destruct (leap_ok ps ta bodies) as (b1 & -> & L1); [congruence|now rewrite <- En|]. cbn [bind]. destruct (leap_ok ps tb b1) as (b2 & -> & L2); [congruence|now rewrite L1, <- En|]. cbn [bind].
    destruct (zip_res_total (fun ci (pc_c : pcon T * vcon T) => solvable n st ci /\ fresh n (snd pc_c)) (fresh n)
      (fun ci pc_c => init_constraint block ps (map body_vel bodies) (c_manifold (ci_contact ci)) (fst pc_c) (snd pc_c)) cins (List.combine (map snd l) (map fst l))) as (cs & Rc & Fc & Lc).
    { intros ci [pc c] [(_ & _ & C & LL & _) Fcc]. cbn [fst snd] in *. now apply init_ok. }
    { clear - F Fl Ll. revert l Fl Ll. induction F as [|ci cins S F IH]; intros [|[c pc] l] Fl Ll; cbn in *; try discriminate; constructor; inversion Fl; subst; auto. split; auto. now apply H1. }
    unfold init_constraints. rewrite Rc. cbn [bind].
    destruct (iterations_return n block (ts_vel_iters st) cs (map body_vel bodies) Lv Fc) as (cs' & vs' & R & _). unfold iterations in R. rewrite R. cbn [bind]. eauto.
  Qed.
End Return.
