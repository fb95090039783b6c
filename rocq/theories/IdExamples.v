(** Concrete cases for Prop_Ids. *)
From Coq Require Import ZArith Bool List Arith Lia.
From Flocq Require Import Core.
From Verif Require Import Base Num Math Collision Manifold ShapeModel CollideModel DynModel WorldModel NarrowModel ShapeExamples CollideExamples IdSpec.
Import ListNotations.

(** ** a box hangs over the end of an edge that is slightly inclined to its lower face *)
Definition lip : edge f32 := set_two_sided edge_default (V2 (nofZ 3) (nneg (nlit 1045 1000))) (V2 (nofZ 0) (nneg (nofZ 1))).
Definition hung_ids (r : res (manifold f32)) : bool :=
  match r with
  | Ok m => Nat.eqb (mf_count m) 2 && match mf_type m with MFaceB => true | _ => false end &&
            match mf_points m with [p; q] => cid_eqb (mp_id p) (mp_id q) | _ => false end
  | _ => false
  end.
Lemma lip_facts : hung_ids (b2_collide_edge_and_polygon manifold_default lip xf_id (@box1 f32 _) xf_id) = true.
Proof. vm_compute. reflexivity. Qed.
Lemma hung_some r : hung_ids r = true -> exists m p q, r = Ok m /\ mf_count m = 2 /\ mf_type m = MFaceB /\ mf_points m = [p; q] /\ mp_id p = mp_id q.
Proof.
  unfold hung_ids. destruct r as [m| |]; try discriminate. intros H. apply andb_prop in H as (H & H3). apply andb_prop in H as (H1 & H2). apply Nat.eqb_eq in H1.
  destruct (mf_points m) as [|p [|q [|]]] eqn:E; try discriminate. exists m, p, q. split; [reflexivity|]. split; [exact H1|]. split; [destruct (mf_type m); try discriminate; reflexivity|]. split; [exact E|].
  destruct (mp_id p), (mp_id q). unfold cid_eqb in H3. cbn in H3. rewrite !andb_true_iff, !Z.eqb_eq in H3. destruct H3 as (((-> & ->) & ->) & ->). reflexivity.
Qed.
(* the impulses 1 and 2 in the two points *)
Definition loaded (m : manifold f32) : manifold f32 :=
  MF (match mf_points m with p :: q :: r => MP (mp_local p) (nofZ 1) (nofZ 0) (mp_id p) :: MP (mp_local q) (nofZ 2) (nofZ 0) (mp_id q) :: r | l => l end)
     (mf_local_normal m) (mf_local_point m) (mf_type m) (mf_count m).
Lemma lip_equal : exists m p q, evaluate_shapes (ShEdge lip) 0 xf_id (ShPolygon (@box1 f32 _)) xf_id = Ok m /\ counted (@box1 f32 _) /\
  mf_count m = 2 /\ nth_error (mf_points m) 0 = Some p /\ nth_error (mf_points m) 1 = Some q /\ mp_id p = mp_id q.
Proof.
  destruct (hung_some _ lip_facts) as (m & p & q & E & C & _ & P & I). exists m, p, q. rewrite P.
  split; [exact E|]. split; [unfold counted; cbn; lia|]. split; [exact C|]. split; [reflexivity|]. split; [reflexivity|exact I].
Qed.
Lemma cid_refl c : cid_eqb c c = true.
Proof. unfold cid_eqb. rewrite !Z.eqb_refl. reflexivity. Qed.
Lemma carry_equal {T} `{Num T} (lp lq a b : vec2 T) (n1 n2 t : T) (i : cid) (m : manifold T) p q : mf_points m = [p; q] -> mf_count m = 2 -> mp_id p = i -> mp_id q = i ->
  carry (MF [MP lp n1 t i; MP lq n2 t i] a b (mf_type m) 2) m = Ok (MF [MP (mp_local p) n1 t i; MP (mp_local q) n1 t i] (mf_local_normal m) (mf_local_point m) (mf_type m) (mf_count m)).
Proof. intros P C <- I. unfold carry. rewrite P, C. cbn. rewrite cid_refl. cbn. rewrite I, cid_refl. reflexivity. Qed.
Lemma lip_mixed : exists m old m', evaluate_shapes (ShEdge lip) 0 xf_id (ShPolygon (@box1 f32 _)) xf_id = Ok m /\ mf_count old = 2 /\ same_points old m /\ carry old m = Ok m' /\ ~ same_impulses old m'.
Proof.
  destruct (hung_some _ lip_facts) as (m & p & q & E & C & _ & P & I). exists m, (loaded m).
  exists (MF [MP (mp_local p) (nofZ 1) (nofZ 0) (mp_id p); MP (mp_local q) (nofZ 1) (nofZ 0) (mp_id q)] (mf_local_normal m) (mf_local_point m) (mf_type m) (mf_count m)).
  split; [exact E|]. split; [exact C|]. split; [|split].
  - split; [reflexivity|]. unfold loaded. cbn [mf_count mf_points]. rewrite P, C. intros [|[|h]] a b Hh; [| |lia]; cbn; intros [= <-] [= <-]; reflexivity.
  - unfold loaded. rewrite P, C. rewrite I at 1. rewrite (carry_equal _ _ _ _ _ _ _ (mp_id q) m p q P C I eq_refl), C, I. reflexivity.
  - intros S. specialize (S 1 (MP (mp_local q) (nofZ 2) (nofZ 0) (mp_id q))). unfold loaded in S. cbn [mf_count mf_points] in S. rewrite P, C in S. destruct (S ltac:(lia) eq_refl) as (p' & Ep & N & _). cbn in Ep. injection Ep as <-. cbn [mp_normal_impulse] in N.
    assert (A : nlt (nofZ (T := f32) 1) (nofZ 2) = true) by (vm_compute; reflexivity). rewrite <- N in A. vm_compute in A. discriminate A.
Qed.
(** ** two boxes side by side: both points, with different ids *)
Definition beside : xform f32 := Xf (V2 (nlit 19 10) (nlit 1 2)) (Rot (nofZ 0) (nofZ 1)).
Lemma beside_two : exists m, evaluate_shapes (ShPolygon (@box1 f32 _)) 0 xf_id (ShPolygon (@box1 f32 _)) beside = Ok m /\ mf_count m = 2 /\ counted (@box1 f32 _).
Proof.
  assert (E : count_mf (b2_collide_polygons manifold_default (@box1 f32 _) xf_id (@box1 f32 _) beside) = Some 2) by (vm_compute; reflexivity).
  apply count_mf_some in E as (m & E & C). exists m. split; [exact E|]. split; [exact C|]. unfold counted; cbn; lia.
Qed.
(** ** a box on an edge *)
Definition shelf : edge f32 := set_two_sided edge_default (V2 (nneg (nofZ 4)) (nneg (nofZ 1))) (V2 (nofZ 4) (nneg (nofZ 1))).
Lemma shelf_two : exists m, evaluate_shapes (ShEdge shelf) 0 xf_id (ShPolygon (@box1 f32 _)) xf_id = Ok m /\ mf_count m = 2 /\ mf_type m = MFaceA /\ counted (@box1 f32 _).
Proof.
  assert (E : match b2_collide_edge_and_polygon manifold_default shelf xf_id (@box1 f32 _) xf_id with Ok m => Nat.eqb (mf_count m) 2 && match mf_type m with MFaceA => true | _ => false end | _ => false end = true) by (vm_compute; reflexivity).
  unfold evaluate_shapes. destruct (b2_collide_edge_and_polygon _ _ _ _ _) as [m| |]; try discriminate. apply andb_prop in E as (E1 & E2). apply Nat.eqb_eq in E1. exists m. split; [reflexivity|]. split; [exact E1|]. split; [destruct (mf_type m); try discriminate; reflexivity|]. unfold counted; cbn; lia.
Qed.
(** ** impulses of the points of the two boxes *)
Lemma beside_carried : exists m old m', evaluate_shapes (ShPolygon (@box1 f32 _)) 0 xf_id (ShPolygon (@box1 f32 _)) beside = Ok m /\ mf_count old = 2 /\ distinct_ids old /\ same_points old m /\ carry old m = Ok m'.
Proof.
  assert (E : match evaluate_shapes (ShPolygon (@box1 f32 _)) 0 xf_id (ShPolygon (@box1 f32 _)) beside with Ok m => Nat.eqb (mf_count m) 2 && match mf_points m with [p; q] => negb (cid_eqb (mp_id p) (mp_id q)) | _ => false end && match carry (loaded m) m with Ok _ => true | _ => false end | _ => false end = true) by (vm_compute; reflexivity).
  destruct (evaluate_shapes _ _ _ _ _) as [m| |]; try discriminate. apply andb_prop in E as (E & E3). apply andb_prop in E as (E1 & E2). apply Nat.eqb_eq in E1.
  destruct (carry (loaded m) m) as [m'| |] eqn:Ec; try discriminate. exists m, (loaded m), m'. split; [reflexivity|]. split; [exact E1|].
  destruct (mf_points m) as [|p [|q [|]]] eqn:P; try discriminate. split; [|split; [|exact Ec]].
  - intros a b _. unfold loaded. cbn [mf_points]. rewrite P. cbn. intros [= <-] [= <-]. cbn [mp_id]. intros I. rewrite I, cid_refl in E2. discriminate.
  - split; [reflexivity|]. unfold loaded. cbn [mf_count mf_points]. rewrite P, E1. intros [|[|h]] a b Hh; [| |lia]; cbn; intros [= <-] [= <-]; reflexivity.
Qed.
