(** Saving a world: it returns, and what is written. *)
From Coq Require Import List ZArith Bool Arith Lia.
From Verif Require Import Base Num Math Collision Filter ShapeModel ListFacts DynModel WorldModel WorldClaims SerialModel SerialSpec SerialProofs.
Import ListNotations.

Lemma get_all_ok {A} (f : nat -> res A) (P : nat -> A -> Prop) l : (forall i, In i l -> exists a, f i = Ok a /\ P i a) -> exists r, get_all f l = Ok r /\ Forall2 P l r.
Proof.
  induction l as [|i l IH]; intros H; cbn.
  - exists []. auto.
  - destruct (H i (or_introl eq_refl)) as (a & -> & Pa). destruct IH as (r & -> & Pr); [intros j J; apply H; now right|]. cbn. eauto.
Qed.
Lemma Forall2_concat {A B} (P : A -> B -> Prop) (keep : A -> bool) l (r : list (list B)) :
  Forall2 (fun i bs => if keep i then exists b, bs = [b] /\ P i b else bs = []) l r -> Forall2 P (List.filter keep l) (concat r).
Proof.
  induction 1 as [|i bs l r H F IH]; cbn; [constructor|]. destruct (keep i).
  - destruct H as (b & -> & Hb). cbn. constructor; auto.
  - rewrite H. exact IH.
Qed.
Lemma filter_keep {A} (f g : A -> bool) l : (forall x, In x l -> f x = g x) -> List.filter f l = List.filter g l.
Proof. induction l as [|x l IH]; intros H; cbn; auto. rewrite (H x (or_introl eq_refl)), IH; auto. intros y Y. apply H. now right. Qed.

Section Save.
  Context {T D : Type} `{NT : Num T} `{TT : NumTrig T} `{VT : NumValid T}.
  Notation world := (world T).
  Notation sworld := (sworld T D).
  Notation file := (file T D).
  Implicit Types w : world.

  (** ** numbers *)
  Lemma number_bodies l : forall k w, NoDup l -> (forall i, In i l -> w_bodies w i <> None) ->
    exists tbl, each_at k (fun k i w => mod_body i (set_b_island_index (Z.of_nat k)) w) l w = Ok (set_w_bodies tbl w) /\
      (forall p i b, nth_error l p = Some i -> w_bodies w i = Some b -> tbl i = Some (set_b_island_index (Z.of_nat (k + p)) b)) /\
      (forall i, ~ In i l -> tbl i = w_bodies w i).
  Proof.
    induction l as [|x l IH]; intros k w N H; cbn [each_at].
    - exists (w_bodies w). split; [now destruct w|]. split; [intros [|p] i b P; discriminate|auto].
    - destruct (w_bodies w x) as [bx|] eqn:Ex; [|exfalso; apply (H x); [now left|exact Ex]]. unfold mod_body at 1, get_body. rewrite Ex. cbn [unwrap bind].
      inversion N as [|? ? Nx N']. subst.
      destruct (IH (S k) (put_body x (set_b_island_index (Z.of_nat k) bx) w) N') as (tbl & E & A & B).
      { intros i Hi. cbn. rewrite put_other; [apply H; now right|]. intros ->. contradiction. }
      exists tbl. split; [exact E|]. split.
      + intros [|p] i b P Hb; cbn in P.
        * injection P as <-. rewrite B by exact Nx. cbn. rewrite put_same, Nat.add_0_r. congruence.
        * replace (k + S p) with (S k + p) by lia. apply A; [exact P|]. cbn. rewrite put_other; [exact Hb|]. intros ->. apply Nx. eapply nth_error_In; eauto.
      + intros i Hi. rewrite B by (intros K; apply Hi; now right). cbn. apply put_other. intros ->. apply Hi. now left.
  Qed.
  Lemma number_joints l : forall k (s : sworld), NoDup l -> (forall j, In j l -> s_joints s j <> None) ->
    exists tbl, each_at k (fun k j s => x <- get_info s j ;; Ok (put_info j (set_ji_index (Z.of_nat k) x) s)) l s = Ok (SWorld (s_world s) tbl (s_gravity s)) /\
      (forall p j x, nth_error l p = Some j -> s_joints s j = Some x -> tbl j = Some (set_ji_index (Z.of_nat (k + p)) x)) /\
      (forall j, ~ In j l -> tbl j = s_joints s j).
  Proof.
    induction l as [|y l IH]; intros k s N H; cbn [each_at].
    - exists (s_joints s). split; [now destruct s|]. split; [intros [|p] i b P; discriminate|auto].
    - destruct (s_joints s y) as [xy|] eqn:Ex; [|exfalso; apply (H y); [now left|exact Ex]]. unfold get_info at 1. rewrite Ex. cbn [unwrap bind].
      inversion N as [|? ? Ny N']. subst.
      destruct (IH (S k) (put_info y (set_ji_index (Z.of_nat k) xy) s) N') as (tbl & E & A & B).
      { intros i Hi. cbn. rewrite put_other; [apply H; now right|]. intros ->. contradiction. }
      exists tbl. split; [exact E|]. split.
      + intros [|p] i b P Hb; cbn in P.
        * injection P as <-. rewrite B by exact Ny. cbn. rewrite put_same, Nat.add_0_r. congruence.
        * replace (k + S p) with (S k + p) by lia. apply A; [exact P|]. cbn. rewrite put_other; [exact Hb|]. intros ->. apply Ny. eapply nth_error_In; eauto.
      + intros i Hi. rewrite B by (intros K; apply Hi; now right). cbn. apply put_other. intros ->. apply Hi. now left.
  Qed.
  Lemma split_joints l : forall (s : sworld) plain gears, (forall j, In j l -> s_joints s j <> None) ->
    exists tbl, each (fun j st =>
        let '(s, plain, gears) := st in
        x <- get_info s j ;;
        let s := put_info j (set_ji_index (-1)%Z x) s in
        if is_gear (ji_kind x) then Ok (s, plain, gears ++ [j]) else Ok (s, plain ++ [j], gears)) l (s, plain, gears)
      = Ok (SWorld (s_world s) tbl (s_gravity s), plain ++ List.filter (fun j => kind_at s j (fun k => negb (is_gear k))) l, gears ++ List.filter (fun j => kind_at s j is_gear) l) /\
      (forall j x, s_joints s j = Some x -> exists z, tbl j = Some (set_ji_index z x)) /\
      (forall j, s_joints s j = None -> tbl j = None).
  Proof.
    induction l as [|y l IH]; intros s plain gears H; cbn [each].
    - exists (s_joints s). cbn. rewrite !app_nil_r. split; [now destruct s|]. split; [|auto]. intros j x Hx. exists (ji_index x). rewrite Hx. now destruct x.
    - destruct (s_joints s y) as [xy|] eqn:Ex; [|exfalso; apply (H y); [now left|exact Ex]]. unfold get_info at 1. rewrite Ex. cbn [unwrap bind].
      set (s1 := put_info y (set_ji_index (-1)%Z xy) s).
      assert (K : forall P j, kind_at s1 j P = kind_at s j P).
      { intros P j. unfold kind_at. subst s1. cbn. destruct (Nat.eq_dec j y) as [->|N]; [rewrite put_same, Ex; reflexivity|rewrite put_other by exact N; reflexivity]. }
      assert (H1 : forall j, In j l -> s_joints s1 j <> None).
      { intros j Hj. subst s1. cbn. destruct (Nat.eq_dec j y) as [->|N]; [rewrite put_same; discriminate|rewrite put_other by exact N; apply H; now right]. }
      assert (Fin : forall tbl, (forall j x, s_joints s1 j = Some x -> exists z, tbl j = Some (set_ji_index z x)) /\ (forall j, s_joints s1 j = None -> tbl j = None) ->
                (forall j x, s_joints s j = Some x -> exists z, tbl j = Some (set_ji_index z x)) /\ (forall j, s_joints s j = None -> tbl j = None)).
      { intros tbl [A B]. split.
        - intros j x Hx. destruct (Nat.eq_dec j y) as [->|N].
          + rewrite Ex in Hx. injection Hx as <-. destruct (A y (set_ji_index (-1)%Z xy)) as (z & Hz); [subst s1; cbn; apply put_same|]. exists z. exact Hz.
          + apply A. subst s1. cbn. rewrite put_other; auto.
        - intros j Hj. apply B. subst s1. cbn. rewrite put_other; auto. intros ->. congruence. }
      assert (G1 : kind_at s y is_gear = is_gear (ji_kind xy) /\ kind_at s y (fun k => negb (is_gear k)) = negb (is_gear (ji_kind xy))) by (unfold kind_at; rewrite Ex; auto).
      destruct G1 as [G1 G2]. cbn [List.filter]. rewrite G1, G2. destruct (is_gear (ji_kind xy)); cbn [negb bind].
      + destruct (IH s1 plain (gears ++ [y]) H1) as (tbl & E & A). exists tbl. split; [|apply Fin, A]. etransitivity; [exact E|]. rewrite <- app_assoc.
        rewrite (filter_keep (fun j => kind_at s1 j is_gear) (fun j => kind_at s j is_gear)) by (intros; apply K).
        rewrite (filter_keep (fun j => kind_at s1 j (fun k => negb (is_gear k))) (fun j => kind_at s j (fun k => negb (is_gear k)))) by (intros; apply K). reflexivity.
      + destruct (IH s1 (plain ++ [y]) gears H1) as (tbl & E & A). exists tbl. split; [|apply Fin, A]. etransitivity; [exact E|]. rewrite <- app_assoc.
        rewrite (filter_keep (fun j => kind_at s1 j is_gear) (fun j => kind_at s j is_gear)) by (intros; apply K).
        rewrite (filter_keep (fun j => kind_at s1 j (fun k => negb (is_gear k))) (fun j => kind_at s j (fun k => negb (is_gear k)))) by (intros; apply K). reflexivity.
  Qed.

  (** ** what is written *)
  Definition body_written w (i : nat) (r : body_def T * list (fixture_def T)) : Prop :=
    exists b fs, w_bodies w i = Some b /\ map (w_fixtures w) (b_fixtures b) = map Some fs /\ r = (body_save b, map fixture_save fs).
  Definition kind_written (s : sworld) (k : jkind) (r : rkind) : Prop :=
    match k with
    | KMouse => False
    | KGear j1 j2 => exists p1 p2, at_place (plain_joints s) p1 j1 /\ at_place (plain_joints s) p2 j2 /\ r = RGear (Z.of_nat p1) (Z.of_nat p2)
    | KRevolute => r = RRevolute | KPrismatic => r = RPrismatic | KOther => r = ROther
    end.
  Definition joint_written (s : sworld) (j : nat) (r : jrec D) : Prop :=
    exists v x pa pb k, w_joints (s_world s) j = Some v /\ s_joints s j = Some x /\
      at_place (w_body_list (s_world s)) pa (j_a v) /\ at_place (w_body_list (s_world s)) pb (j_b v) /\ kind_written s (ji_kind x) k /\
      r = JRec k (ji_data x) (Z.of_nat pa) (Z.of_nat pb) (j_collide v).
  Definition written (s : sworld) (f : file) : Prop :=
    fi_gravity f = s_gravity s /\ Forall2 (body_written (s_world s)) (w_body_list (s_world s)) (fi_bodies f) /\
    Forall2 (joint_written s) (List.filter (fun j => kind_at s j (fun k => negb (is_mouse k))) (plain_joints s)) (fi_joints f) /\
    Forall2 (joint_written s) (List.filter (fun j => kind_at s j is_gear) (w_joint_list (s_world s))) (fi_gears f).

  Lemma body_fixtures w i b : fixture_graph w -> w_bodies w i = Some b -> exists fs, get_all (get_fixture w) (b_fixtures b) = Ok fs /\ map (w_fixtures w) (b_fixtures b) = map Some fs.
  Proof.
    intros (_ & F & _) Hb. destruct (F i b Hb) as (_ & L & _).
    destruct (get_all_ok (get_fixture w) (fun f x => w_fixtures w f = Some x) (b_fixtures b)) as (fs & E & A).
    - intros f Hf. apply L in Hf. unfold body_of in Hf. unfold get_fixture. destruct (w_fixtures w f) as [x|] eqn:X; [|congruence]. cbn. eauto.
    - exists fs. split; [exact E|]. revert A. generalize (b_fixtures b). clear. intros l A. induction A; cbn; congruence.
  Qed.
  Lemma save_says (s : sworld) : fixture_graph (s_world s) -> joint_graph (s_world s) -> described s -> exists s1 f, save s = Ok (s1, f) /\ written s f.
  Proof.
    intros FG JG DS. set (w := s_world s) in *. pose proof FG as ((NB & LB & _) & _ & _). pose proof JG as ((NJ & LJ & _) & JB & _).
    unfold save. fold w.
    destruct (get_all_ok (save_body w) (body_written w) (w_body_list w)) as (bodies & Eb & Fb).
    { intros i Hi. apply LB in Hi. unfold save_body, get_body. destruct (w_bodies w i) as [b|] eqn:B; [|congruence]. cbn [unwrap bind].
      destruct (body_fixtures w i b FG B) as (fs & -> & M). cbn. eexists. split; [reflexivity|]. exists b, fs. auto. }
    rewrite Eb. cbn [bind].
    destruct (number_bodies (w_body_list w) 0 w NB) as (tb & Et & T1 & T2); [intros i Hi; now apply LB|]. rewrite Et. cbn [bind].
    assert (LI : forall j, In j (w_joint_list w) -> s_joints s j <> None) by (intros j Hj; apply LJ in Hj; destruct (DS j Hj) as (x & Hx & _); congruence).
    set (s2 := set_s_world (set_w_bodies tb w) s). replace (w_joint_list (set_w_bodies tb w)) with (w_joint_list w) by now destruct w.
    destruct (split_joints (w_joint_list w) s2 [] [] LI) as (t2 & E2 & S1 & S2). cbv zeta in E2. cbv zeta. rewrite E2. cbn [bind].
    replace (List.filter (fun j => kind_at s2 j (fun k => negb (is_gear k))) (w_joint_list w)) with (plain_joints s) by reflexivity.
    replace (List.filter (fun j => kind_at s2 j is_gear) (w_joint_list w)) with (List.filter (fun j => kind_at s j is_gear) (w_joint_list w)) by reflexivity.
    cbn [app].
    set (s3 := SWorld (s_world s2) t2 (s_gravity s2)). set (plain := plain_joints s).
    destruct (number_joints plain 0 s3) as (t3 & E3 & N1 & N2).
    { apply NoDup_filter, NJ. }
    { intros j Hj. apply filter_In in Hj as [Hj _]. apply LI in Hj. destruct (s_joints s j) as [x|] eqn:X; [|congruence]. destruct (S1 j x X) as (z & Z). cbn. congruence. }
    rewrite E3. cbn [bind]. change (s_world s3) with (set_w_bodies tb w). change (s_gravity s3) with (s_gravity s). set (s4 := SWorld (set_w_bodies tb w) t3 (s_gravity s)).
    assert (In4 : forall j x, s_joints s j = Some x -> exists z, t3 j = Some (set_ji_index z x)).
    { intros j x Hx. destruct (S1 j x Hx) as (z & Z). destruct (in_dec Nat.eq_dec j plain) as [I|I].
      - apply In_nth_error in I as (p & P). rewrite (N1 p j _ P Z). eexists. reflexivity.
      - rewrite (N2 j I). exists z. exact Z. }
    assert (Pl : forall j, In j (w_joint_list w) -> kind_at s j (fun k => negb (is_gear k)) = true -> exists p x, at_place plain p j /\ t3 j = Some (set_ji_index (Z.of_nat p) x)).
    { intros j Hj K. assert (I : In j plain) by (apply filter_In; split; assumption). apply In_nth_error in I as (p & P).
      destruct (s_joints s j) as [x|] eqn:X; [|destruct (LI j Hj X)]. destruct (S1 j x X) as (z & Z). exists p, (set_ji_index z x). split; [exact P|]. exact (N1 p j _ P Z). }
    assert (Bp : forall i, w_bodies w i <> None -> exists p b, at_place (w_body_list w) p i /\ tb i = Some (set_b_island_index (Z.of_nat p) b)).
    { intros i Hi. pose proof Hi as I. apply LB in I. apply In_nth_error in I as (p & P). destruct (w_bodies w i) as [b|] eqn:B; [|congruence]. exists p, b. split; [exact P|]. exact (T1 p i b P B). }
    assert (SJ : forall j, In j (w_joint_list w) -> exists bs, save_joint s4 j = Ok bs /\ (if kind_at s j (fun k => negb (is_mouse k)) then exists r, bs = [r] /\ joint_written s j r else bs = [])).
    { intros j Hj. pose proof Hj as Lj. apply LJ in Lj. destruct (DS j Lj) as (x & Hx & Hg). destruct (In4 j x Hx) as (z & Z). unfold save_joint, get_info. cbn [s_joints s4]. rewrite Z. cbn [unwrap bind].
      change (ji_kind (set_ji_index z x)) with (ji_kind x). change (ji_data (set_ji_index z x)) with (ji_data x). unfold kind_at. rewrite Hx.
      destruct (w_joints w j) as [v|] eqn:V; [|congruence]. destruct (JB j v V) as (ba & bb & _ & Ba & Bb & _).
      destruct (Bp (j_a v)) as (pa & ba' & Pa & Ta); [congruence|]. destruct (Bp (j_b v)) as (pb & bb' & Pb & Tb); [congruence|].
      assert (GJ : get_joint (set_w_bodies tb w) j = Ok v) by (unfold get_joint; destruct w; cbn in *; rewrite V; reflexivity).
      assert (Ga : get_body (set_w_bodies tb w) (j_a v) = Ok (set_b_island_index (Z.of_nat pa) ba')) by (unfold get_body; destruct w; cbn in *; rewrite Ta; reflexivity).
      assert (Gb : get_body (set_w_bodies tb w) (j_b v) = Ok (set_b_island_index (Z.of_nat pb) bb')) by (unfold get_body; destruct w; cbn in *; rewrite Tb; reflexivity).
      destruct (ji_kind x) as [|j1 j2| | |] eqn:K; cbn [is_mouse negb].
      - eexists. split; reflexivity.
      - destruct (Hg j1 j2 eq_refl) as ((L1 & x1 & X1 & Y1) & (L2 & x2 & X2 & Y2)).
        destruct (Pl j1) as (p1 & x1' & P1 & Q1); [now apply LJ|unfold kind_at; rewrite X1; destruct (ji_kind x1); auto; discriminate|].
        destruct (Pl j2) as (p2 & x2' & P2 & Q2); [now apply LJ|unfold kind_at; rewrite X2; destruct (ji_kind x2); auto; discriminate|].
        cbn [s_world s4]. rewrite GJ. cbn [bind]. rewrite Ga, Gb. cbn [bind]. rewrite Q1, Q2. cbn [unwrap bind].
        eexists. split; [reflexivity|]. eexists. split; [reflexivity|]. exists v, x, pa, pb, (RGear (Z.of_nat p1) (Z.of_nat p2)). refine (conj V (conj Hx (conj Pa (conj Pb (conj _ eq_refl))))). rewrite K. exists p1, p2. auto.
      - cbn [s_world s4]. rewrite GJ. cbn [bind]. rewrite Ga, Gb. cbn [bind]. eexists. split; [reflexivity|]. eexists. split; [reflexivity|].
        exists v, x, pa, pb, RRevolute. refine (conj V (conj Hx (conj Pa (conj Pb (conj _ eq_refl))))). rewrite K. reflexivity.
      - cbn [s_world s4]. rewrite GJ. cbn [bind]. rewrite Ga, Gb. cbn [bind]. eexists. split; [reflexivity|]. eexists. split; [reflexivity|].
        exists v, x, pa, pb, RPrismatic. refine (conj V (conj Hx (conj Pa (conj Pb (conj _ eq_refl))))). rewrite K. reflexivity.
      - cbn [s_world s4]. rewrite GJ. cbn [bind]. rewrite Ga, Gb. cbn [bind]. eexists. split; [reflexivity|]. eexists. split; [reflexivity|].
        exists v, x, pa, pb, ROther. refine (conj V (conj Hx (conj Pa (conj Pb (conj _ eq_refl))))). rewrite K. reflexivity. }
    unfold save_joints.
    destruct (get_all_ok (save_joint s4) (fun j bs => if kind_at s j (fun k => negb (is_mouse k)) then exists r, bs = [r] /\ joint_written s j r else bs = []) plain) as (js & -> & Fj).
    { intros j Hj. apply SJ. apply filter_In in Hj. tauto. }
    cbn [bind].
    destruct (get_all_ok (save_joint s4) (fun j bs => if kind_at s j (fun k => negb (is_mouse k)) then exists r, bs = [r] /\ joint_written s j r else bs = []) (List.filter (fun j => kind_at s j is_gear) (w_joint_list w))) as (gs & -> & Fg).
    { intros j Hj. apply SJ. apply filter_In in Hj. tauto. }
    cbn [bind]. eexists _, _. split; [reflexivity|]. split; [reflexivity|]. split; [exact Fb|]. split; [exact (Forall2_concat _ _ _ _ Fj)|].
    apply Forall2_concat in Fg. cbn [fi_gears]. match type of Fg with Forall2 _ ?l _ => replace l with (List.filter (fun j => kind_at s j is_gear) (w_joint_list w)) in Fg; [exact Fg|] end.
    assert (GM : forall j, kind_at s j is_gear = true -> kind_at s j (fun k => negb (is_mouse k)) = true) by (intros j; unfold kind_at; destruct (s_joints s j) as [x|]; auto; destruct (ji_kind x); auto).
    generalize (w_joint_list w). intros l. induction l as [|j l IH]; cbn; auto. destruct (kind_at s j is_gear) eqn:G; auto. cbn. rewrite (GM j G). now f_equal.
  Qed.
End Save.
