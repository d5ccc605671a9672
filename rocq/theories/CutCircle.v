(** Two circles; a circle and an arc. *)

From Coq Require Import Reals Lra Psatz List Bool ZArith Lia.
From Verif Require Import SegModel SegSpec SegTrig SegFacts SegBox SegSplit SegSplitArc CutModel CutSpec CutFacts.
Import ListNotations.
Open Scope R_scope.


Lemma alike_test s o : point_matches (s_cen s) (s_cen o) e3 && ltb (Rabs (s_rad s - s_rad o)) e3 = true <-> alike s o.
Proof. rewrite andb_true_iff, point_matches_spec, ltb_true. reflexivity. Qed.
Lemma alike_dec s o : alike s o \/ ~ alike s o.
Proof. rewrite <- alike_test. destruct (_ && _); [now left|right; discriminate]. Qed.

Lemma dist2_sq_dist p c r : 0 <= r -> dist2 p c = r ^ 2 <-> dist p c = r.
Proof.
  intro R. rewrite <- dist_sq. pose proof (dist_pos p c). split; intro E; [|rewrite E; ring].
  assert ((dist p c - r) * (dist p c + r) = 0) as Z by lra. apply Rmult_integral in Z. destruct Z; lra.
Qed.

Lemma dist_tri p q r : dist p r <= dist p q + dist q r.
Proof.
  pose proof (dist_pos p q) as A. pose proof (dist_pos q r) as B. pose proof (dist_pos p r) as C.
  apply Rsqr_incr_0; [|exact C|lra]. unfold Rsqr. rewrite dist_sq.
  replace ((dist p q + dist q r) * (dist p q + dist q r)) with (dist p q * dist p q + dist q r * dist q r + 2 * (dist p q * dist q r)) by ring.
  rewrite !dist_sq. unfold dist2.
  set (a := px p - px q). set (b := py p - py q). set (e := px q - px r). set (f := py q - py r).
  replace (px p - px r) with (a + e) by (unfold a, e; ring). replace (py p - py r) with (b + f) by (unfold b, f; ring).
  assert (H : a * e + b * f <= dist p q * dist q r).
  { assert (S : (a * e + b * f) * (a * e + b * f) <= (dist p q * dist q r) * (dist p q * dist q r)).
    { replace (dist p q * dist q r * (dist p q * dist q r)) with ((dist p q * dist p q) * (dist q r * dist q r)) by ring. rewrite !dist_sq. unfold dist2. fold a b e f.
      pose proof (pow2_ge_0 (a * f - b * e)). nra. }
    assert (0 <= dist p q * dist q r) by nra. destruct (Rle_dec (a * e + b * f) 0); nra. }
  nra.
Qed.

Lemma covers_circle s p : s_ty s = SCircle -> 0 < s_rad s -> covers s p <-> dist p (s_cen s) = s_rad s.
Proof. intros T R. unfold covers. rewrite T. apply dist2_sq_dist. lra. Qed.

Lemma on_circle_turn c r a p v : 0 < r -> dist2 p c = r ^ 2 -> turn_to c a p v -> on_round c r v p.
Proof.
  intros R D (V & q & Q & O). assert (q = r). { apply on_round_dist in O. nra. } now subst q.
Qed.

Lemma strictly_before c r a p q v w : 0 < r -> dist2 p c = r ^ 2 -> dist2 q c = r ^ 2 -> ~ same_place p q ->
  turn_to c a p v -> turn_to c a q w -> v <= w -> v < w.
Proof.
  intros R P Q N V W L. destruct (Rle_lt_or_eq_dec _ _ L) as [H|H]; [exact H|]. exfalso. apply N. subst w.
  destruct (on_circle_turn _ _ _ _ _ R P V) as [X Y]. destruct (on_circle_turn _ _ _ _ _ R Q W) as [X' Y']. split; lra.
Qed.

Lemma lists_two p q (P : pt -> Prop) : P p -> P q -> ~ same_place p q -> (forall v, P v -> same_place v p \/ same_place v q) -> lists [p; q] P.
Proof.
  intros A B N C. split; [|split].
  - intros x [<-|[<-|[]]]; assumption.
  - intros x X. destruct (C x X) as [S|S]; [exists p|exists q]; cbn; auto.
  - intros [|[|[|i]]] [|[|[|j]]] x y X Y S; cbn in X, Y; try discriminate; try reflexivity; injection X as <-; injection Y as <-.
    + contradiction.
    + exfalso. apply N. destruct S. split; auto.
Qed.
Lemma lists_one p (P : pt -> Prop) : P p -> (forall v, P v -> same_place v p) -> lists [p] P.
Proof.
  intros A C. split; [|split].
  - intros x [<-|[]]; assumption.
  - intros x X. exists p. cbn. auto.
  - intros [|[|i]] [|[|j]] x y X Y S; cbn in X, Y; try discriminate; reflexivity.
Qed.
Lemma lists_none (P : pt -> Prop) : (forall v, ~ P v) -> lists [] P.
Proof.
  intro C. split; [|split].
  - intros x [].
  - intros x X. now apply C in X.
  - intros [|i] j x y X; discriminate.
Qed.

Lemma circles_spec s o : full_circle s -> full_circle o ->
  let d := dist (s_cen s) (s_cen o) in
  let r := s_rad s in let r2 := s_rad o in
  (r + r2 < d -> intersections s o = nothing INone /\ forall p, ~ common s o p) /\
  (d <= r + r2 -> alike s o -> intersections s o = nothing IIdent) /\
  (d <= r + r2 -> ~ alike s o -> touching s o -> intersections s o = nothing ITangent) /\
  (d <= r + r2 -> ~ alike s o -> ~ touching s o -> d <= r - r2 -> intersections s o = nothing IEncircles /\ forall p, covers o p -> dist p (s_cen s) <= r) /\
  (d <= r + r2 -> ~ alike s o -> ~ touching s o -> d <= r2 - r -> intersections s o = nothing IInside /\ forall p, covers s p -> dist p (s_cen o) <= r2) /\
  (d <= r + r2 -> ~ alike s o -> ~ touching s o -> r - r2 < d -> r2 - r < d ->
     exists p q, intersections s o = found [p; q] INone /\ lists [p; q] (common s o) /\ before (s_cen s) 0 p q).
Proof.
  intros (T & R & _ & _ & _ & Z1) (T2 & R2 & _ & _ & _ & Z2). cbv zeta. assert (I : intersections s o = check_circles s o) by (unfold intersections; now rewrite T, T2). rewrite I.
  unfold check_circles. cbv zeta. rewrite centre_gap_dist. set (d := dist (s_cen s) (s_cen o)). set (r := s_rad s) in *. set (r2 := s_rad o) in *.
  assert (Dp : 0 <= d) by apply dist_pos.
  assert (AT : forall b, alike s o -> (if point_matches (s_cen s) (s_cen o) e3 && ltb (Rabs (r - r2)) e3 then nothing IIdent else b) = nothing IIdent).
  { intros b A. unfold r, r2. now rewrite (proj2 (alike_test s o) A). }
  assert (AF : forall b, ~ alike s o -> (if point_matches (s_cen s) (s_cen o) e3 && ltb (Rabs (r - r2)) e3 then nothing IIdent else b) = b).
  { intros b A. unfold r, r2. destruct (_ && _) eqn:E; [|reflexivity]. apply alike_test in E. contradiction. }
  assert (NT : ~ touching s o -> ltb (Rabs (d - r - r2)) e3 = false).
  { intro H. apply ltb_f. unfold touching in H. fold d r r2 in H. lra. }
  split; [|split; [|split; [|split; [|split]]]].
  - intro H. rewrite ltb_t by lra. split; [reflexivity|]. intros p [A B]. rewrite covers_circle in A by assumption. rewrite covers_circle in B by assumption.
    pose proof (dist_tri (s_cen s) p (s_cen o)) as Q. rewrite (dist_sym (s_cen s) p) in Q. subst d r r2. lra.
  - intros H A. rewrite ltb_f by lra. now apply AT.
  - intros H A C. rewrite ltb_f by lra. rewrite AF by assumption. unfold touching in C. fold d r r2 in C. now rewrite ltb_t.
  - intros H A C E. rewrite ltb_f by lra. rewrite AF, NT by assumption. rewrite (ltb_t d r) by lra. cbn [orb andb].
    assert (LE : leb d (r - r2) = true) by (unfold leb; destruct (Rle_dec d (r - r2)); [reflexivity|lra]). rewrite LE. split; [reflexivity|].
    intros p P. rewrite covers_circle in P by assumption. pose proof (dist_tri p (s_cen o) (s_cen s)) as Q. rewrite (dist_sym (s_cen o) (s_cen s)) in Q. subst d r r2. lra.
  - intros H A C E. rewrite ltb_f by lra. rewrite AF, NT by assumption. rewrite (ltb_t d r2) by lra. rewrite orb_true_r. cbn [andb].
    assert (NE : d <= r - r2 -> False).
    { intro L. apply A. assert (d = 0 /\ r = r2) as [G1 G2] by lra. split.
      - left. rewrite gap2_flat by assumption. rewrite <- dist_sq. fold d. rewrite G1. unfold e3. lra.
      - fold r r2. rewrite G2, Rminus_diag_eq, Rabs_R0 by reflexivity. unfold e3. lra. }
    assert (LE : leb d (r - r2) = false) by (unfold leb; destruct (Rle_dec d (r - r2)); [lra|reflexivity]). rewrite LE.
    assert (LE2 : leb d (r2 - r) = true) by (unfold leb; destruct (Rle_dec d (r2 - r)); [reflexivity|lra]). rewrite LE2. split; [reflexivity|].
    intros p P. rewrite covers_circle in P by assumption. pose proof (dist_tri p (s_cen s) (s_cen o)) as Q. subst d r r2. lra.
  - intros H A C E F. rewrite ltb_f by lra. rewrite AF, NT by assumption.
    assert (LE : leb d (r - r2) = false) by (unfold leb; destruct (Rle_dec d (r - r2)); [lra|reflexivity]).
    assert (LE2 : leb d (r2 - r) = false) by (unfold leb; destruct (Rle_dec d (r2 - r)); [lra|reflexivity]).
    rewrite LE, LE2, !andb_false_r.
    assert (D0 : 0 < d) by lra.
    assert (Sl : d < r + r2). { unfold touching in C. fold d r r2 in C. destruct (Rle_lt_or_eq_dec _ _ H) as [X|X]; [exact X|]. exfalso. apply C. replace (d - r - r2) with 0 by lra. rewrite Rabs_R0. unfold e3. lra. }
    destruct (circle_points_spec s (s_cen o) r2 D0 R R2 H ltac:(fold d r; lra) ltac:(fold d r; lra)) as (p & q & EQ & _ & _ & All & Ord & Ap).
    fold d r in EQ, All, Ord, Ap. rewrite EQ. exists p, q. split; [reflexivity|]. specialize (Ap Sl ltac:(lra) ltac:(lra)).
    assert (Com : forall v, common s o v <-> same_place v p \/ same_place v q).
    { intro v. unfold common, covers. rewrite T, T2. fold r r2. rewrite <- All. tauto. }
    assert (Cp : common s o p) by (apply Com; left; split; reflexivity). assert (Cq : common s o q) by (apply Com; right; split; reflexivity).
    split. { apply lists_two; try assumption. intros v V. now apply Com. }
    assert (Dpq : dist2 p (s_cen s) = r ^ 2 /\ dist2 q (s_cen s) = r ^ 2).
    { unfold common, covers in Cp, Cq. rewrite T in Cp, Cq. tauto. }
    destruct Dpq as [D1 D2].
    destruct (turn_to_exists (s_cen s) 0 p) as (v & V). { rewrite (proj1 (dist2_sq_dist _ _ r ltac:(lra)) D1). lra. }
    destruct (turn_to_exists (s_cen s) 0 q) as (w & W). { rewrite (proj1 (dist2_sq_dist _ _ r ltac:(lra)) D2). lra. }
    exists v, w. split; [exact V|]. split; [exact W|]. apply (strictly_before (s_cen s) r 0 p q v w R D1 D2 Ap V W). now apply Ord.
Qed.
