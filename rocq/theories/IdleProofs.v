(** A step that takes no time moves no body. *)
From Coq Require Import List ZArith Bool Arith Lia.
From Verif Require Import Base Num NumLaws Math Collision Manifold Filter ShapeModel ListFacts TreeModel BroadModel DynModel DynSpec WorldModel WorldGraph WorldSpec WorldLogic WorldPhys WorldContact WorldInv WorldIsland WorldSolve WorldToi WorldStep WorldClaims WorldCalls WorldReach StillProofs IdleSpec.
Import ListNotations.

Section Idle.
  Context {T : Type} `{NT : Num T} `{TT : NumTrig T} `{VT : NumValid T}.
  Notation world := (world T).
  Implicit Types w : world.
  Variable E : env T.
  Variable me : nat.
  Variable ob : option (body T).

  Definition L (j : nat) (b : body T) : Prop := match ob with Some b0 => j = me -> unmoved b0 b | None => j <> me end.
  Definition G w : Prop := match ob, w_bodies w me with Some b, Some b' => unmoved b b' | None, None => True | _, _ => False end.
  Lemma G_eq w w' : G w -> w_bodies w' = w_bodies w -> G w'.
  Proof. unfold G. intros H ->. exact H. Qed.
  Lemma G_put w j b : G w -> L j b -> G (put_body j b w).
  Proof. unfold G, L. cbn. unfold put. destruct (Nat.eqb_spec me j) as [<-|Ne]; [|auto]. destruct ob; [auto|congruence]. Qed.
  Lemma G_get w j b : G w -> w_bodies w j = Some b -> L j b.
  Proof. unfold G, L. intros H Hb. destruct ob; [intros ->|intros ->]; now rewrite Hb in H. Qed.
  Lemma unmoved_trans (a b c : body T) : unmoved a b -> unmoved b c -> unmoved a c.
  Proof. unfold unmoved. intros H K. decompose [and] H. decompose [and] K. repeat split; congruence. Qed.
  Lemma L_frame j b c : unmoved b c -> L j b -> L j c.
  Proof. unfold L. destruct ob; [|auto]. intros H K e. exact (unmoved_trans _ _ _ (K e) H). Qed.
  Lemma okp_get {A} w j (f : body T -> res A) P : G w -> (forall b, L j b -> okp (f b) P) -> okp (bind (get_body w j) f) P.
  Proof. intros H K. unfold get_body. destruct (w_bodies w j) as [b|] eqn:Hb; [|easy]. cbn [unwrap bind]. apply K. exact (G_get w j b H Hb). Qed.
  Lemma okp_seq {A} (m : res world) (f : world -> res A) P : okp m G -> (forall v, G v -> okp (f v) P) -> okp (bind m f) P.
  Proof. intros H K. apply okp_bind. intros v R. apply K. now apply H. Qed.
  Lemma okp_seq1 {A B} (m : res (world * A)) (f : world * A -> res B) P : okp m (fun st => G (fst st)) -> (forall v, G (fst v) -> okp (f v) P) -> okp (bind m f) P.
  Proof. intros H K. apply okp_bind. intros v R. apply K. now apply H. Qed.
  Lemma okp_seq2 {A B C} (m : res (world * A * B)) (f : world * A * B -> res C) P : okp m (fun st => G (fst (fst st))) -> (forall v, G (fst (fst v)) -> okp (f v) P) -> okp (bind m f) P.
  Proof. intros H K. apply okp_bind. intros v R. apply K. now apply H. Qed.
  Lemma G_body j f w : G w -> (forall b, L j b -> L j (f b)) -> okp (mod_body j f w) G.
  Proof. intros H K. unfold mod_body. apply okp_get; auto. intros b Hb. apply okp_ok. apply G_put; auto. Qed.
  Lemma G_each {A} (f : A -> world -> res world) l w : (forall x w, G w -> okp (f x w) G) -> G w -> okp (each f l w) G.
  Proof. intros Hf H. now apply okp_each. Qed.
  Lemma L_awake j b : L j b -> L j (set_awake true b).
  Proof. apply L_frame. unfold set_awake. destruct (is_static b); repeat split. Qed.
  Ltac keep := intros; repeat match goal with
    | |- L _ (set_awake true _) => apply L_awake
    | |- L _ (if ?c then _ else _) => destruct c
    | H : L ?j ?b |- L ?j ?b => exact H
    | H : L ?j ?b |- L ?j ?c => refine (L_frame j b c _ H); repeat split
    end.

  (** worlds *)
  Ltac gw := match goal with
    | |- G (put_body _ _ _) => apply G_put; [gw|keep]
    | H : G ?w |- G ?w => exact H
    | H : G ?w |- G ?w' => refine (G_eq w w' H _); reflexivity
    | |- G ?v => match v with context [put_body ?i ?b ?w] => refine (G_eq (put_body i b w) v _ eq_refl); gw end
    end.
  Ltac walk1 := match goal with
    | |- okp (let _ := _ in _) _ => cbv zeta
    | |- okp (Ok _) _ => apply okp_ok; cbn [fst snd]; try gw
    | H : G ?w |- okp (bind (get_body ?v _) _) _ => apply (okp_get v); [gw|intros ? ?]
    | |- okp (bind (mod_body _ _ _) _) _ => apply okp_seq; [apply G_body; [gw|keep]|intros ? ?]
    | |- okp (mod_body _ _ _) _ => apply G_body; [gw|keep]
    | |- okp (mod_contact _ _ _) _ => unfold mod_contact
    | |- okp (mod_joint _ _ _) _ => unfold mod_joint
    | |- okp (if ?c then _ else _) _ => destruct c
    | |- okp (each _ _ _) G => apply G_each; [intros ? ? ?|gw]
    | |- okp (@bind _ _ ?m _) _ => match type of m with
        | res (WorldModel.world _) => apply okp_seq; [|intros ? ?]
        | res (WorldModel.world _ * _ * _) => apply okp_seq2; [|intros [[? ?] ?] ?; cbn [fst snd] in *]
        | res (WorldModel.world _ * _) => apply okp_seq1; [|intros [? ?] ?; cbn [fst snd] in *]
        | res (_ * _) => apply okp_skip; intros [? ?]
        | _ => apply okp_skip; intros ?
        end
    end.
  Ltac walk := repeat walk1.
  Lemma G_listen e i w : G w -> okp (listen E e i w) G.
  Proof. intros H. unfold listen. walk. Qed.
  Lemma G_sync f a b w : G w -> okp (synchronize f a b w) G.
  Proof. intros H. unfold synchronize. walk. Qed.
  Lemma G_syncs i w : G w -> okp (synchronize_fixtures i w) G.
  Proof. intros H. unfold synchronize_fixtures. walk. now apply G_sync. Qed.
  Lemma G_link x w : G w -> okp (link_contact x w) G.
  Proof. intros H. unfold link_contact. walk. Qed.
  Lemma G_add_pair u v w : G w -> okp (add_pair E w u v) G.
  Proof. intros H. unfold add_pair. walk. apply G_link. gw. Qed.
  Lemma G_find w : G w -> okp (find_new_contacts E w) G.
  Proof.
    intros H. unfold find_new_contacts, update_pairs. cbv zeta. apply okp_bind. apply okp_skip. intros ps. apply okp_bind. intros w1 Q1. apply okp_skip. intros tr. apply okp_ok. apply okp_ok. enough (G w1) as H1 by gw.
    revert w1 Q1. apply (okp_range G); auto. intros x s Hs. apply okp_skip. intros q. apply okp_skip. intros ua. apply okp_skip. intros ub. now apply G_add_pair.
  Qed.
  Lemma G_wake c w : G w -> okp (wake_touching c w) G.
  Proof. intros H. unfold wake_touching. walk. Qed.
  Lemma G_destroy i w : G w -> okp (destroy_contact E i w) G.
  Proof. intros H. unfold destroy_contact. walk; try (now apply G_listen). apply G_wake. gw. Qed.
  Lemma G_update i w : G w -> okp (update_contact E i w) G.
  Proof.
    intros H. unfold update_contact. cbv zeta. apply okp_seq; [walk|]. intros w1 H1. do 7 (apply okp_skip; intros ?).
    match goal with |- okp (bind ?m _) _ => assert (K : okp m (fun st => G (fst st))) by (destruct (_ || _); repeat walk1) end.
    apply okp_seq1; [exact K|]. intros [v t] Hv. cbn [fst] in Hv. walk; now apply G_listen.
  Qed.
  Lemma G_collide w : G w -> okp (collide E w) G.
  Proof.
    intros H. unfold collide. apply okp_seq1; [|intros [v dead] Hv; apply G_each; auto; intros c v' Hv'; now apply G_destroy].
    apply (okp_each (fun st => G (fst st))); auto. intros i [v dead] Hv. cbn [fst] in Hv. unfold collide1. walk. now apply G_update.
  Qed.
  Lemma G_clear w : G w -> okp (clear_forces w) G.
  Proof. intros H. unfold clear_forces. walk. Qed.
  Lemma G_front w : G w -> okp (step_front E w) G.
  Proof. intros H. unfold step_front. apply okp_seq; [destruct (w_new_contacts w); [apply okp_seq; [now apply G_find|intros v Hv; walk]|now apply okp_ok]|]. intros w1 H1. apply G_collide. gw. Qed.
  Lemma G_idle dt w : nlt (nofZ 0) dt = false -> G w -> okp (wrun E (WStep dt) w) G.
  Proof.
    intros N H. cbn [wrun]. rewrite r_step_parts. apply okp_seq; [now apply G_front|]. intros w2 H2. unfold step_back. rewrite N, !andb_false_r. cbn [bind]. rewrite andb_false_r. cbn [bind]. cbv zeta.
    apply okp_seq; [destruct (w_clear_forces w2); [now apply G_clear|now apply okp_ok]|]. intros w6 H6. apply okp_ok. gw.
  Qed.
End Idle.

Theorem idle_step {T : Type} `{NT : Num T} `{TT : NumTrig T} `{VT : NumValid T} (E : env T) dt w w' : nlt (nofZ 0) dt = false -> wrun E (WStep dt) w = Ok w' -> frozen w w'.
Proof.
  intros N R i. refine (G_idle E i (w_bodies w i) dt w N _ w' R). unfold G. destruct (w_bodies w i) as [b|]; [|exact Logic.I]. repeat split.
Qed.
