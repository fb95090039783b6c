(** What the theorems on ropes say. *)
From Coq Require Import List ZArith Reals.
From Verif Require Import Base Num Math RopeModel.
Import ListNotations.

(** ** programs *)
Section Calls.
  Context {T : Type} `{NT : Num T} `{RT : NumRope T}.
  Inductive call : Type := Create (d : rope_def T) | SetTuning (t : tuning T) | Step (dt : T) (iterations : nat) (position : vec2 T) | Reset (position : vec2 T).
  Definition do_call (c : call) (r : rope T) : res (rope T) :=
    match c with Create d => create d r | SetTuning t => Ok (set_tuning t r) | Step dt n p => step dt n p r | Reset p => Ok (reset p r) end.
  Fixpoint calls (cs : list call) (r : rope T) : res (rope T) :=
    match cs with [] => Ok r | c :: cs => r <- do_call c r ;; calls cs r end.
  (* at least three vertices, no negative time step *)
  Definition fair (c : call) : Prop :=
    match c with Create d => 3 <= length (rd_vertices d) | Step dt _ _ => neqb dt (nofZ 0) = true \/ nlt (nofZ 0) dt = true | _ => True end.
  (* the constraints join neighbours *)
  Definition strung (r : rope T) : Prop :=
    let n := length (ro_points r) in
    map (fun c => (st_i1 c, st_i2 c)) (ro_stretch r) = map (fun i => (i, i + 1)) (seq 0 (n - 1)) /\
    map (fun c => (be_i1 c, be_i2 c, be_i3 c)) (ro_bend r) = map (fun i => (i, i + 1, i + 2)) (seq 0 (n - 2)).
End Calls.
Arguments call T : clear implicits.

(** ** reals *)
Local Open Scope R_scope.
(* the angle of a vector, in (-PI, PI] *)
Definition angle_of (y x : R) : R :=
  let r := sqrt (x * x + y * y) in
  if Req_EM_T (r + x) 0 then (if Req_EM_T r 0 then 0 else PI) else 2 * atan (y / (r + x)).
#[global] Instance R_Rope : NumRope R := { natan2 := angle_of; nexp := exp }.

Definition dot (a b : vec2 R) : R := vx a * vx b + vy a * vy b.
Definition minus (a b : vec2 R) : vec2 R := V2 (vx a - vx b) (vy a - vy b).
Definition plus (a b : vec2 R) : vec2 R := V2 (vx a + vx b) (vy a + vy b).
Definition times (s : R) (a : vec2 R) : vec2 R := V2 (s * vx a) (s * vy a).
Definition size (a : vec2 R) : R := sqrt (dot a a).
Definition sum (l : list R) : R := fold_right Rplus 0 l.

(* total momentum, mass and position of the rope *)
Definition mass (q : rpoint R) : R := / rp_im q.
Definition momentum (qs : list (rpoint R)) : vec2 R := V2 (sum (map (fun q => mass q * vx (rp_v q)) qs)) (sum (map (fun q => mass q * vy (rp_v q)) qs)).
Definition weight (qs : list (rpoint R)) : R := sum (map mass qs).
Definition all_heavy (r : rope R) : Prop := Forall (fun q => 0 < rp_im q) (ro_points r).
(* the height model keeps barycentric coordinates *)
Definition proper_heights (r : rope R) : Prop := tu_bending (ro_tuning r) = PbdHeightBending -> Forall (fun c => be_a1 c + be_a2 c = 1) (ro_bend r).
(* the triangle model divides by the masses of its points *)
Definition settled (r : rope R) : Prop := Forall (fun q => rp_p0 q = rp_p q) (ro_points r).

(* vertices in a line, no two neighbours at the same place (up to epsilon) *)
Definition in_line (a b c : vec2 R) : Prop := exists k, 0 < k /\ minus c b = times k (minus b a).
Fixpoint straight (l : list (vec2 R)) : Prop :=
  match l with
  | a :: l' => match l' with
    | b :: l'' => B2_EPSILON <= size (minus b a) /\ match l'' with c :: _ => in_line a b c | [] => True end /\ straight l'
    | [] => True end
  | [] => True
  end.
(* moving the rope *)
Definition move_point (o : vec2 R) (q : rpoint R) : rpoint R := RPoint (rp_bind q) (plus (rp_p q) o) (plus (rp_p0 q) o) (rp_v q) (rp_im q).
Definition move_rope (o : vec2 R) (r : rope R) : rope R := Rope (ro_position r) (map (move_point o) (ro_points r)) (ro_stretch r) (ro_bend r) (ro_gravity r) (ro_tuning r).
(* impulse of an implicit spring and damper, as a position multiplier: error and its change after the pass *)
Definition spring_lambda (dt stiff damp err moved : R) : R := - (dt * dt * (stiff * err + damp * (moved / dt))).
(* the angle at the middle one of three points, 0 if they are in line, and its rate of change *)
Definition cross (a b : vec2 R) : R := vx a * vy b - vy a * vx b.
Definition angle_at (p1 p2 p3 : vec2 R) : R := angle_of (cross (minus p2 p1) (minus p3 p2)) (dot (minus p2 p1) (minus p3 p2)).
Definition turns (p1 p2 p3 h1 h2 h3 : vec2 R) (rate : R) : Prop :=
  derivable_pt_lim (fun s => angle_at (plus p1 (times s h1)) (plus p2 (times s h2)) (plus p3 (times s h3))) 0 rate.
(* not folded back on itself, and no two neighbours at the same place *)
Definition open_at (p1 p2 p3 : vec2 R) : Prop :=
  minus p2 p1 <> V2 0 0 /\ minus p3 p2 <> V2 0 0 /\ forall k, 0 < k -> minus p3 p2 <> times (- k) (minus p2 p1).
(* what f32::atan2 and f32::exp give at 0 *)
Definition exact_at_0 {T} `{NT : Num T} (RT : NumRope T) : Prop :=
  (forall y x, neqb y (nofZ 0) = true -> nlt (nofZ 0) x = true -> natan2 y x = y) /\ (forall x, neqb x (nofZ 0) = true -> nexp x = nofZ 1).
(* ropes of programs *)
Definition reached (r : rope R) : Prop := exists cs, Forall fair cs /\ calls cs rope_default = Ok r.
(* no vertex at the place of one of the next two *)
Definition apart (vs : list (vec2 R * R)) : Prop := forall i a b c, nth_error vs i = Some a -> nth_error vs (i + 1) = Some b -> nth_error vs (i + 2) = Some c -> fst a <> fst b /\ fst b <> fst c /\ fst a <> fst c.
Definition apart_call (c : call R) : Prop := match c with Create d => apart (rd_vertices d) | _ => True end.
(* the points of a bend have no negative mass, and not all are fixed *)
Definition light (c : bend R) : Prop := 0 <= be_m1 c /\ 0 <= be_m2 c /\ 0 <= be_m3 c /\ 0 < be_m1 c + be_m2 c + be_m3 c.
Definition ok_map {A B} (f : A -> B) (m : res A) : res B := match m with Ok a => Ok (f a) | Panic => Panic | Fuel => Fuel end.
