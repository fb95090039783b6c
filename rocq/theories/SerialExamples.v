(** Worlds that are saved and loaded, in single precision. *)
From Coq Require Import List ZArith Bool Arith Lia Reals Lra.
From Verif Require Import Base Num NumLaws Math Collision Manifold Filter ShapeModel CollideModel DynModel WorldModel WorldClaims WorldCalls WorldReach WorldExamples ListFacts
  SafeSpec WorldSafe SafeExamples SerialModel SerialSpec SerialProofs SerialSave SerialFinal SerialVelocity.
Import ListNotations.

Notation fsworld := (sworld f32 nat).
(* joints of the kinds of a list; the number of a joint stands for the rest of its definition *)
Definition ex_infos (kinds : list jkind) (j : nat) : option (jinfo nat) := option_map (fun k => JInfo k j 0%Z) (nth_error kinds j).
Definition ex_world (cs : list (wcall f32)) (kinds : list jkind) : res fsworld := w <- ex_run E0 cs ;; Ok (SWorld w (ex_infos kinds) (V2 (nofZ 0) (nofZ (-10)))).
Definition ex_saved (cs : list (wcall f32)) (kinds : list jkind) (p : fsworld -> fsworld -> file f32 nat -> bool) : bool :=
  match ex_world cs kinds with Ok s => match save s with Ok (s1, f) => p s s1 f | _ => false end | _ => false end.
Definition ex_loaded (cs : list (wcall f32)) (kinds : list jkind) (p : fsworld -> file f32 nat -> fsworld -> bool) : bool :=
  ex_saved cs kinds (fun s _ f => match load f with Ok s2 => p s f s2 | _ => false end).

Definition described_b (s : fsworld) : bool :=
  forallb (fun j => match s_joints s j with
                    | Some x => match ji_kind x with
                                | KGear j1 j2 => forallb (fun i => existsb (Nat.eqb i) (w_joint_list (s_world s)) && kind_at s i gearable) [j1; j2]
                                | _ => true
                                end
                    | None => false
                    end) (w_joint_list (s_world s)).
Lemma described_ok (s : fsworld) : joint_graph (s_world s) -> described_b s = true -> described s.
Proof.
  intros ((_ & L & _) & _) H j Hj. apply L in Hj. unfold described_b in H. rewrite forallb_forall in H. specialize (H j Hj). destruct (s_joints s j) as [x|]; [|discriminate].
  exists x. split; [reflexivity|]. intros j1 j2 K. rewrite K in H.
  assert (Q : forall i, In i [j1; j2] -> w_joints (s_world s) i <> None /\ exists x1, s_joints s i = Some x1 /\ gearable (ji_kind x1) = true).
  { intros i Hi. rewrite forallb_forall in H. specialize (H i Hi). apply andb_prop in H as (A & B). apply existsb_exists in A as (i' & A & E). apply Nat.eqb_eq in E. subst i'. split; [now apply L|].
    unfold kind_at in B. destruct (s_joints s i) as [x1|]; [eauto|discriminate]. }
  split; apply Q; cbn; auto.
Qed.
Lemma ex_saved_ok cs kinds p : ex_saved cs kinds p = true -> exists s s1 f, wreach E0 (s_world s) /\ save s = Ok (s1, f) /\ p s s1 f = true.
Proof.
  unfold ex_saved, ex_world. destruct (ex_run E0 cs) as [w| |] eqn:R; try discriminate. cbn [bind]. intros H. exists (SWorld w (ex_infos kinds) (V2 (nofZ 0) (nofZ (-10)))).
  destruct (save _) as [[s1 f]| |]; try discriminate. exists s1, f. split; [exact (ex_run_reach E0 cs w R)|auto].
Qed.
Lemma ex_loaded_ok cs kinds p : ex_loaded cs kinds p = true -> exists s s1 f s2, wreach E0 (s_world s) /\ save s = Ok (s1, f) /\ load f = Ok s2 /\ p s f s2 = true.
Proof.
  intros H. apply ex_saved_ok in H as (s & s1 & f & R & S1 & H). exists s, s1, f. destruct (load f) as [s2| |]; try discriminate. exists s2. auto.
Qed.
Lemma reach_described (s : fsworld) : wreach E0 (s_world s) -> described_b s = true -> described s.
Proof. intros H. apply described_ok. exact (r_joint_graph E0 (ex_answers None) _ H). Qed.

(** ** three bodies in a row and a joint between the first two: the loaded joint is between the last two *)
Definition three_bodies : list (wcall f32) :=
  [WCreateBody (ex_bodydef DynamicBody (nofZ 0) (nofZ 0) false); WCreateFixture 0 ball;
   WCreateBody (ex_bodydef DynamicBody (nofZ 1) (nofZ 0) false); WCreateFixture 1 ball;
   WCreateBody (ex_bodydef DynamicBody (nofZ 2) (nofZ 0) false); WCreateFixture 2 ball; WCreateFixture 2 sensor_ball;
   WCreateJoint 0 1 false].
Definition x_of (s : fsworld) (i : nat) : f32 := match w_bodies (s_world s) i with Some b => vx (xp (b_xf b)) | None => nofZ (-1) end.
Definition x_differs (u v : f32) : bool := neqb u u && negb (neqb u v).
Lemma x_differs_ok u v : x_differs u v = true -> u <> v.
Proof. intros H ->. unfold x_differs in H. apply andb_prop in H as (A & B). rewrite A in B. discriminate. Qed.
Definition ends_of (s : fsworld) (j : nat) : list nat := match w_joints (s_world s) j with Some v => [j_a v; j_b v] | None => [] end.
Lemma ends_of_ok (s : fsworld) j a b : ends s j a b -> ends_of s j = [a; b].
Proof. intros (v & V & <- & <-). unfold ends_of. now rewrite V. Qed.
Definition nats_eqb := list_eqb Nat.eqb.
Lemma nats_eqb_ok l l' : nats_eqb l l' = true -> l = l'.
Proof. apply list_eqb_ok. intros a b. apply Nat.eqb_eq. Qed.

Lemma copy_weaker (s s' : fsworld) h k : copy s s' h k -> copy_unordered s s' h k.
Proof. intros (_ & A & _ & B). split; [exact A|]. intros j a b H. destruct (B j a b H) as (C1 & C2). auto. Qed.
Lemma three_moved : exists (s s1 s2 : fsworld) f, wreach E0 (s_world s) /\ described s /\ save s = Ok (s1, f) /\ load f = Ok s2 /\ (forall h k, ~ copy_unordered s s2 h k).
Proof.
  destruct (ex_loaded_ok three_bodies [KOther] (fun s f s2 => described_b s && nats_eqb (ends_of s 0) [0; 1] && nats_eqb (ends_of s2 0) [0; 1] && nats_eqb (w_joint_list (s_world s2)) [0] && nats_eqb (w_body_list (s_world s2)) [2; 1; 0] &&
       x_differs (x_of s 0) (x_of s2 0) && x_differs (x_of s 0) (x_of s2 1) && match w_bodies (s_world s) 0 with Some _ => true | None => false end)) as (s & s1 & f & s2 & R & SV & LD & P); [vm_compute; reflexivity|].
  repeat (apply andb_prop in P; destruct P as [P ?]). exists s, s1, s2, f. split; [exact R|]. split; [now apply reach_described|]. split; [exact SV|]. split; [exact LD|]. intros h k (CB & CJ).
  repeat match goal with K : nats_eqb _ _ = true |- _ => apply nats_eqb_ok in K end. repeat match goal with K : x_differs _ _ = true |- _ => apply x_differs_ok in K end.
  destruct (load_graphs f s2 LD) as (((_ & LB & _) & _) & ((_ & LJ & _) & _)).
  assert (EN : ends s 0 0 1). { unfold ends. unfold ends_of in H5. destruct (w_joints (s_world s) 0) as [v|]; [|discriminate]. exists v. injection H5 as -> ->. auto. }
  destruct (CJ 0 0 1 EN) as (_ & EN2).
  assert (K0 : k 0 = 0). { assert (Q : In (k 0) (w_joint_list (s_world s2))) by (apply LJ; destruct EN2 as [(v & V & _)|(v & V & _)]; congruence). rewrite H3 in Q. destruct Q as [Q|[]]; auto. }
  assert (H0' : h 0 = 2).
  { destruct (w_bodies (s_world s) 0) as [b|] eqn:B; [|discriminate]. destruct (CB 0 b B) as (b' & B' & (_ & X & _)). assert (Q : In (h 0) (w_body_list (s_world s2))) by (apply LB; congruence). rewrite H2 in Q.
    destruct Q as [Q|[Q|[Q|[]]]]; [auto| |]; exfalso; rewrite <- Q in B'; [apply H0|apply H1]; unfold x_of; rewrite B, B', X; reflexivity. }
  rewrite K0, H0' in EN2. destruct EN2 as [EN2|EN2]; apply ends_of_ok in EN2; rewrite H4 in EN2; discriminate.
Qed.

(** ** two wheels on the ground and a gear: the file cannot be loaded *)
Definition two_wheels : list (wcall f32) :=
  [WCreateBody (ex_bodydef StaticBody (nofZ 0) (nofZ 0) false);
   WCreateBody (ex_bodydef DynamicBody (nofZ 1) (nofZ 0) false); WCreateFixture 1 ball;
   WCreateBody (ex_bodydef DynamicBody (nofZ 2) (nofZ 0) false); WCreateFixture 2 ball;
   WCreateJoint 0 1 false; WCreateJoint 0 2 false; WCreateJoint 1 2 false].
(* the gear could be made in the saved world *)
Lemma wheels_panic : exists (s s1 : fsworld) f, wreach E0 (s_world s) /\ described s /\ gear_end s 0 = Ok tt /\ gear_end s 1 = Ok tt /\ made_of s 2 0 1 /\ save s = Ok (s1, f) /\ load f = Panic.
Proof.
  destruct (ex_saved_ok two_wheels [KRevolute; KRevolute; KGear 0 1] (fun s s1 f => described_b s && is_ok (gear_end s 0) && is_ok (gear_end s 1) && match s_joints s 2 with Some (JInfo (KGear 0 1) _ _) => true | _ => false end && is_panic (load f))) as (s & s1 & f & R & SV & P); [vm_compute; reflexivity|].
  repeat (apply andb_prop in P; destruct P as [P ?]). exists s, s1, f. split; [exact R|]. split; [now apply reach_described|].
  assert (U : forall m : res unit, is_ok m = true -> m = Ok tt) by (intros [[]| |]; easy). split; [now apply U|]. split; [now apply U|]. split; [|split; [exact SV|now apply is_panic_ok]].
  unfold made_of. destruct (s_joints s 2) as [[[|[|] [|[|]]| | |] d i]|]; try discriminate. eexists. split; reflexivity.
Qed.

(** ** the same wheels with the ground made last, and a body more: everything is loaded, and the gear too *)
Definition good_wheels : list (wcall f32) :=
  [WCreateBody (ex_bodydef DynamicBody (nofZ 0) (nofZ 1) false); WCreateFixture 0 ball; WCreateFixture 0 sensor_ball;
   WCreateBody (ex_bodydef DynamicBody (nofZ 1) (nofZ 0) false); WCreateFixture 1 ball;
   WCreateBody (ex_bodydef DynamicBody (nofZ 2) (nofZ 0) false); WCreateFixture 2 ball;
   WCreateJoint 0 1 false; WCreateJoint 1 2 true; WCreateJoint 0 2 false].
Definition twice_ok (s2 : fsworld) : bool := match save s2 with Ok (_, f2) => is_ok (load f2) | _ => false end.
Lemma wheels_loaded : exists (s s1 s2 : fsworld) f, wreach E0 (s_world s) /\ described s /\ save s = Ok (s1, f) /\ load f = Ok s2 /\
  made_of s 2 0 1 /\ w_body_list (s_world s) = [2; 1; 0] /\ w_joint_list (s_world s) = [2; 1; 0] /\ ends s 0 0 1 /\ ends s 1 1 2 /\ twice_ok s2 = true.
Proof.
  destruct (ex_loaded_ok good_wheels [KRevolute; KPrismatic; KGear 0 1] (fun s f s2 => described_b s && match s_joints s 2 with Some (JInfo (KGear 0 1) _ _) => true | _ => false end && nats_eqb (w_body_list (s_world s)) [2; 1; 0] && nats_eqb (w_joint_list (s_world s)) [2; 1; 0] && nats_eqb (ends_of s 0) [0; 1] && nats_eqb (ends_of s 1) [1; 2] && twice_ok s2)) as (s & s1 & f & s2 & R & SV & LD & P); [vm_compute; reflexivity|].
  repeat (apply andb_prop in P; destruct P as [P ?]). exists s, s1, s2, f. split; [exact R|]. split; [now apply reach_described|]. split; [exact SV|]. split; [exact LD|].
  repeat match goal with K : nats_eqb _ _ = true |- _ => apply nats_eqb_ok in K end.
  assert (EN : forall j a b, ends_of s j = [a; b] -> ends s j a b). { intros j a b Q. unfold ends. unfold ends_of in Q. destruct (w_joints (s_world s) j) as [v|]; [|discriminate]. exists v. injection Q as -> ->. auto. }
  split; [|auto 8]. unfold made_of. destruct (s_joints s 2) as [[[|[|] [|[|]]| | |] d i]|]; try discriminate. eexists. split; reflexivity.
Qed.

(** ** a spinning body with its weight off its origin gets another velocity *)
Definition off_ball : fixture_def f32 := ex_fixdef (ShCircle (Circle (nlit 1 4) (at_x (nofZ 1)))) false.
Definition spinner : list (wcall f32) :=
  [WCreateBody (BodyDef DynamicBody (at_x (nofZ 0)) (nofZ 0) (at_x (nofZ 1)) (nofZ 3) (nofZ 0) (nofZ 0) true true false false true (nofZ 1)); WCreateFixture 0 off_ball].
Definition vy_of (s : fsworld) (i : nat) : f32 := match w_bodies (s_world s) i with Some b => vy (b_lv b) | None => nofZ (-1) end.
Lemma spinner_changes : exists (s s1 s2 : fsworld) f b b', wreach E0 (s_world s) /\ described s /\ save s = Ok (s1, f) /\ load f = Ok s2 /\ image s s2 0 0 /\
  w_bodies (s_world s) 0 = Some b /\ w_bodies (s_world s2) 0 = Some b' /\ b_lv b' <> b_lv b /\ neqb (vy (b_lv b)) (nofZ 3) = true /\ neqb (vy (b_lv b')) (nofZ 6) = true.
Proof.
  destruct (ex_loaded_ok spinner [] (fun s f s2 => described_b s && nats_eqb (w_body_list (s_world s)) [0] && nats_eqb (w_body_list (s_world s2)) [0] && neqb (vy_of s 0) (nofZ 3) && neqb (vy_of s2 0) (nofZ 6) && x_differs (vy_of s2 0) (vy_of s 0) &&
     match w_bodies (s_world s) 0, w_bodies (s_world s2) 0 with Some _, Some _ => true | _, _ => false end)) as (s & s1 & f & s2 & R & SV & LD & P); [vm_compute; reflexivity|].
  repeat (apply andb_prop in P; destruct P as [P ?]). unfold vy_of in *. destruct (w_bodies (s_world s) 0) as [b|] eqn:B; [|discriminate]. destruct (w_bodies (s_world s2) 0) as [b'|] eqn:B'; [|discriminate].
  repeat match goal with K : nats_eqb _ _ = true |- _ => apply nats_eqb_ok in K end.
  exists s, s1, s2, f, b, b'. split; [exact R|]. split; [now apply reach_described|]. split; [exact SV|]. split; [exact LD|]. split; [exists 0; unfold at_place; rewrite H4, H3; split; reflexivity|]. split; [exact B|]. split; [exact B'|].
  apply x_differs_ok in H0. split; [congruence|auto].
Qed.

(** ** a file that can be loaded *)
Definition gear_file : file f32 nat :=
  File (V2 (nofZ 0) (nofZ (-10)))
    [(ex_bodydef DynamicBody (nofZ 2) (nofZ 0) false, [ball]); (ex_bodydef DynamicBody (nofZ 1) (nofZ 0) false, [ball; sensor_ball]); (ex_bodydef StaticBody (nofZ 0) (nofZ 0) false, [])]
    [JRec RRevolute 0 0 1 false; JRec RPrismatic 1 0 2 false] [JRec (RGear 0 1) 2 1 2 true].
Lemma parts (A : Type) (x y : A) pre d post : [x] = pre ++ d :: post \/ [x; y] = pre ++ d :: post -> d :: rev pre = [x] \/ d :: rev pre = [y; x].
Proof. intros [H|H]; destruct pre as [|a [|b [|c pre]]]; inversion H; subst; cbn; auto; destruct pre; discriminate. Qed.
Lemma ok_returns (A : Type) (m : res A) : is_ok m = true -> returns m.
Proof. destruct m as [a| |]; try discriminate. intros _. now exists a. Qed.
Lemma balls_fit ds : ds = [ball] \/ ds = [ball; sensor_ball] -> fixtures_fit DynamicBody ds.
Proof.
  intros H pre d post E. assert (P : d :: rev pre = [ball] \/ d :: rev pre = [sensor_ball; ball]) by (eapply parts with (post := post); destruct H as [->| ->]; [left|right]; exact E). split.
  - apply circular_good. destruct P as [P|P]; injection P as -> _; reflexivity.
  - intros _. destruct P as [P|P]; rewrite P; apply settle_checked; vm_compute; reflexivity.
Qed.
Lemma gear_file_loadable : loadable gear_file.
Proof.
  refine (conj _ (conj _ _)).
  - intros r [<-|[<-|[<-|[]]]]; (split; [apply ok_returns; vm_compute; reflexivity|]); [apply balls_fit; auto|apply balls_fit; auto|]. intros pre d post E. destruct pre; discriminate.
  - intros r [<-|[<-|[]]]; split; try exact I; unfold joint_fits, in_range; cbn; lia.
  - intros r [<-|[]]. split; [unfold joint_fits, in_range; cbn; lia|]. cbn. split; (split; [lia|]).
    + eexists. eexists. split; [reflexivity|]. split; [right; reflexivity|]. split; reflexivity.
    + eexists. eexists. split; [reflexivity|]. split; [left; reflexivity|]. split; reflexivity.
Qed.
