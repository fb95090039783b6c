(** The ray cast of one shape: the hit lies in the box of the child, and a shorter ray finds the same hit. *)
From Coq Require Import ZArith Reals Lra Lia Bool List Arith.
From Flocq Require Import Core.
From Verif Require DistProofs HullRegion.
From Verif Require Import Base Num NumLaws Math Collision Manifold MathSpec GeomSpec RTac MathProofs ManifoldProofs ListFacts
  ShapeModel CollideModel ShapeSpec ShapeProofs HullSpec DynModel QueryModel QuerySpec.
Import ListNotations.
Local Open Scope R_scope.

Lemma near_self xf (s : vec2 R -> Prop) r a : 0 <= r -> s a -> near xf s r (place xf a).
Proof. intros Hr Ha. exists a. split; [exact Ha|]. unfold dist2. nra. Qed.
Lemma segment_hit xf a b r p : 0 <= r -> on_segment (place xf a) (place xf b) p -> in_box (ShapeModel.segment_aabb r xf a b) p.
Proof.
  intros Hr (t & Ht & ->). apply segment_aabb_ok; [exact Hr|]. rewrite <- place_along. apply near_self; [exact Hr|]. exists t. auto.
Qed.

(* the outcome of a cast on a sound shape *)
Definition cast_ok (s : shape R) (inp : ray_input R) (xf : xform R) (k : nat) : Prop :=
  exists o a, shape_ray_cast s inp xf k = Ok o /\ shape_aabb s xf k = Ok a /\
    forall out, o = Some out -> 0 <= ray_fraction out <= ray_max inp /\ in_box a (along (ray_p1 inp) (ray_p2 inp) (ray_fraction out)).

Lemma circle_cast_ok c inp xf : B2_EPSILON <= ci_radius c -> cast_ok (ShCircle c) inp xf 0.
Proof.
  intros Hr. eexists _, _. split; [reflexivity|]. split; [reflexivity|]. intros out Ho.
  destruct (Rlt_or_le (dist2 (ray_p2 inp) (ray_p1 inp)) B2_EPSILON) as [Hs|Hs].
  - exfalso. revert Ho. unfold circle_ray_cast. replace (nlt (b2_dot (vsub (ray_p2 inp) (ray_p1 inp)) (vsub (ray_p2 inp) (ray_p1 inp))) B2_EPSILON) with true; [now rewrite orb_true_r|].
    symmetry. apply Rlt_bool_true. exact Hs.
  - pose proof (circle_ray_ok c inp xf Hr Hs) as H. rewrite Ho in H. destruct H as (A & B & _). split; [exact A|].
    pose proof eps_pos. apply circle_aabb_ok; [lra|]. exists (ci_p c). split; [reflexivity|]. lra.
Qed.
Lemma edge_cast_ok e inp xf : 0 <= ed_radius e -> B2_EPSILON <= sqrt (dist2 (ed_v2 e) (ed_v1 e)) -> unit_rot (xq xf) -> cast_ok (ShEdge e) inp xf 0.
Proof.
  intros Hr He Hu. eexists _, _. split; [reflexivity|]. split; [reflexivity|]. intros out Ho.
  destruct (edge_ray_sound e inp xf out Hu He Ho) as (A & B & _). split; [exact A|]. now apply segment_hit.
Qed.
Lemma chain_cast_ok c inp xf k : sound_shape (ShChain c) -> unit_rot (xq xf) -> (k + 1 < length (ch_vertices c))%nat -> cast_ok (ShChain c) inp xf k.
Proof.
  intros [Hr Hd] Hu Hk. destruct (nth_lt (ch_vertices c) k) as (a & Ea); [lia|]. destruct (nth_lt (ch_vertices c) (S k)) as (b & Eb); [lia|].
  assert (Ee : chain_ends c k = Ok (a, b)).
  { unfold chain_ends. destruct (Nat.ltb_spec k (length (ch_vertices c))); [|lia]. cbn [b2_assert bind].
    destruct (Nat.eqb_spec (k + 1) (length (ch_vertices c))); [lia|]. rewrite (get_ok _ _ _ Ea). cbn [bind]. replace (k + 1)%nat with (S k) by lia. now rewrite (get_ok _ _ _ Eb). }
  eexists _, _. cbn [shape_ray_cast shape_aabb]. unfold chain_ray_cast, chain_aabb. rewrite Ee. cbn [bind]. split; [reflexivity|]. split; [reflexivity|]. intros out Ho.
  apply edge_ray_sound in Ho as (A & B & _); [|exact Hu|cbn [ed_v1 ed_v2]; eauto]. split; [exact A|]. now apply segment_hit.
Qed.
Lemma polygon_cast_ok po inp xf : sound_shape (ShPolygon po) -> unit_rot (xq xf) -> cast_ok (ShPolygon po) inp xf 0.
Proof.
  intros [Hr Hp] Hu. pose proof Hp as (Hs & _). destruct (polygon_ray_ok po inp xf Hs Hu) as (o & Eo & Ho). destruct (polygon_aabb_ok po xf Hs Hr) as (bx & Eb & Hb).
  exists o, bx. split; [exact Eo|]. split; [exact Eb|]. intros out ->. cbn zeta in Ho. destruct Ho as (A & (a & Ea & Ia) & _). split; [unfold f0 in A; lra|].
  apply Hb. rewrite Ea. apply near_self; [exact Hr|]. now apply HullRegion.proper_region.
Qed.
Lemma shape_cast_ok s inp xf k n : sound_shape s -> unit_rot (xq xf) -> shape_child_count s = Ok n -> (k < n)%nat -> cast_ok s inp xf k.
Proof.
  intros Hs Hu Hn Hk. destruct s as [c|e|po|c]; cbn in Hn.
  - injection Hn as <-. replace k with 0%nat by lia. now apply circle_cast_ok.
  - injection Hn as <-. replace k with 0%nat by lia. destruct Hs. now apply edge_cast_ok.
  - injection Hn as <-. replace k with 0%nat by lia. now apply polygon_cast_ok.
  - unfold chain_child_count, usize_sub in Hn. destruct (Nat.leb_spec 1 (length (ch_vertices c))); [|discriminate]. injection Hn as <-. apply chain_cast_ok; auto. lia.
Qed.

(** ** the length of the ray *)
Lemma circle_cast_len c p1 p2 M M' xf out : circle_ray_cast c (RayIn p1 p2 M) xf = Some out -> ray_fraction out <= M' -> circle_ray_cast c (RayIn p1 p2 M') xf = Some out.
Proof.
  unfold circle_ray_cast. cbn [ray_p1 ray_p2 ray_max]. set (s := vsub p1 _). set (r := vsub p2 p1). set (sg := nsub _ _). set (rr := b2_dot r r). clearbody sg.
  cbn [nlt nle R_Num]. destruct (Rlt_bool_spec sg (nofZ 0)) as [|Hg]; cbn [orb]; [discriminate|]. destruct (Rlt_bool_spec rr B2_EPSILON) as [|Hrr]; [discriminate|].
  set (a := nneg _). clearbody a. destruct (Rle_bool_spec (nofZ 0) a) as [|]; cbn [andb]; [|discriminate]. destruct (Rle_bool_spec a (nmul M rr)) as [|]; [|discriminate].
  intros Ho Hf. injection Ho as <-. cbn [ray_fraction] in Hf. rops. pose proof eps_pos.
  rewrite Rle_bool_true; [reflexivity|]. apply (Rmult_le_compat_r rr) in Hf; [|lra]. unfold Rdiv in Hf. rewrite Rmult_assoc, Rinv_l, Rmult_1_r in Hf by lra. exact Hf.
Qed.
Lemma edge_cast_len e p1 p2 M M' xf out : edge_ray_cast e (RayIn p1 p2 M) xf = Some out -> ray_fraction out <= M' -> edge_ray_cast e (RayIn p1 p2 M') xf = Some out.
Proof.
  unfold edge_ray_cast. cbn [ray_p1 ray_p2 ray_max]. destruct (_ && _); [discriminate|]. destruct (neqb _ _); [discriminate|].
  set (t := ndiv _ _). destruct (nlt t _) eqn:Et; cbn [orb]; [discriminate|]. destruct (nlt M t); [discriminate|]. destruct (neqb _ _); [discriminate|]. destruct (_ || _); [discriminate|].
  intros Ho Hf. injection Ho as <-. cbn [ray_fraction] in Hf. replace (nlt M' t) with false; [reflexivity|]. symmetry. apply Rlt_bool_false. exact Hf.
Qed.
Section PolyLen.
  Context (po : polygon R) (p1 d : vec2 R).
  Definition alike (s s' : option (R * R * option nat)) : Prop :=
    match s, s' with Some (l, _, i), Some (l', _, i') => l = l' /\ i = i' | _, _ => True end.
  Lemma step_alike i s s' r r' : alike s s' -> poly_ray_step po p1 d i s = Ok r -> poly_ray_step po p1 d i s' = Ok r' -> alike r r'.
  Proof.
    unfold poly_ray_step. intros A. destruct s as [[[l u] ix]|]; [|intros H _; injection H as <-; exact I].
    destruct s' as [[[l' u'] ix']|]; [|intros _ H; injection H as <-; destruct r as [[[? ?] ?]|]; exact I]. destruct A as [<- <-].
    destruct (get (po_normals po) i) as [n| |]; cbn [bind]; try discriminate. destruct (get (po_vertices po) i) as [v| |]; cbn [bind]; try discriminate.
    destruct (neqb _ _).
    - destruct (nlt _ _); [intros H _; injection H as <-; exact I|]. destruct (nlt u l); intros H; injection H as <-; [intros; exact I|]. destruct (nlt u' l); intros H; injection H as <-; [exact I|]. cbn. auto.
    - destruct (nlt (b2_dot n d) (nofZ 0) && _).
      + destruct (nlt u _); intros H; injection H as <-; [intros; exact I|]. destruct (nlt u' _); intros H; injection H as <-; [exact I|]. cbn. auto.
      + match goal with |- context [nlt ?a (b2_dot n d) && nlt ?b (nmul u _)] => set (g := nlt a (b2_dot n d)); set (N := b) end.
        destruct (g && nlt N (nmul u _)), (g && nlt N (nmul u' _)); cbv beta iota zeta; intros H H';
        repeat match type of H with context [if ?c then _ else _] => destruct c end; injection H as <-; try exact I;
        repeat match type of H' with context [if ?c then _ else _] => destruct c end; injection H' as <-; try exact I; cbn; auto.
  Qed.
  Lemma loop_alike n lo : forall s s' r r', alike s s' -> for_from n lo (poly_ray_step po p1 d) s = Ok r -> for_from n lo (poly_ray_step po p1 d) s' = Ok r' -> alike r r'.
  Proof.
    revert lo. induction n as [|n IH]; intros lo s s' r r' A; cbn [for_from]; [intros H H'; injection H as <-; injection H' as <-; exact A|].
    intros H H'. apply bind_ok in H as (q & Hq & H). apply bind_ok in H' as (q' & Hq' & H'). eapply IH; [|exact H|exact H']. eapply step_alike; eauto.
  Qed.
End PolyLen.
Lemma polygon_cast_len po p1 p2 M M' xf out : poly_sized po -> unit_rot (xq xf) -> polygon_ray_cast po (RayIn p1 p2 M) xf = Ok (Some out) -> ray_fraction out <= M' ->
  polygon_ray_cast po (RayIn p1 p2 M') xf = Ok (Some out).
Proof.
  intros Hs Hu Ho Hf. destruct (polygon_ray_ok po (RayIn p1 p2 M) xf Hs Hu) as (o & Eo & Q). assert (o = Some out) by congruence. subst o. cbn zeta in Q. cbn [ray_p1 ray_p2 ray_max] in Q.
  destruct Q as (A & B & C & _). destruct (polygon_ray_ok po (RayIn p1 p2 M') xf Hs Hu) as (o' & Eo' & Q'). cbn [ray_p1 ray_p2 ray_max] in Q'.
  destruct o' as [out'|]; [|exfalso; destruct (Q' (ray_fraction out) ltac:(lra) B) as (t & Ht & It); apply (C t ltac:(lra) It)].
  rewrite Eo'. f_equal. f_equal. clear Q'. clear Eo. revert Ho Eo'. unfold polygon_ray_cast. cbn [ray_p1 ray_p2 ray_max].
  intros H H'. apply bind_ok in H as (s & Hl & H). apply bind_ok in H' as (s' & Hl' & H'). unfold for_range in *.
  pose proof (fun a => loop_alike _ _ _ _ _ _ _ _ _ a Hl Hl') as K. specialize (K (conj eq_refl eq_refl)).
  destruct s as [[[l u] ix]|]; [|discriminate]. destruct s' as [[[l' u'] ix']|]; [|discriminate]. destruct K as [<- <-].
  apply bind_ok in H as (_ & _ & H). apply bind_ok in H' as (_ & _ & H'). destruct ix as [i|]; [|discriminate].
  apply bind_ok in H as (n & Hn & H). apply bind_ok in H' as (n' & Hn' & H'). congruence.
Qed.
Lemma shape_cast_len s p1 p2 M M' xf k out : sound_shape s -> unit_rot (xq xf) -> shape_ray_cast s (RayIn p1 p2 M) xf k = Ok (Some out) -> ray_fraction out <= M' ->
  shape_ray_cast s (RayIn p1 p2 M') xf k = Ok (Some out).
Proof.
  intros Hs Hu H Hf. destruct s as [c|e|po|c]; cbn [shape_ray_cast] in *.
  - injection H as H. f_equal. eapply circle_cast_len; eauto.
  - injection H as H. f_equal. eapply edge_cast_len; eauto.
  - destruct Hs as [_ (Hs & _)]. eapply polygon_cast_len; eauto.
  - unfold chain_ray_cast in *. apply bind_ok in H as ([v1 v2] & Hc & H). rewrite Hc. cbn [bind]. injection H as H. f_equal. eapply edge_cast_len; eauto.
Qed.
