(** Arcs which touch, arcs which run between the same points, and an arc of a circle with
    the circle. *)

From Coq Require Import Reals Lra Psatz List Bool ZArith Lia.
From Verif Require Import SegModel SegSpec SegTrig SegFacts SegBox SegSplit SegSplitArc SegProps CutModel CutSpec CutFacts CutCircle CutArc CutLine CutArcLine CutCases.
Import ListNotations.
Open Scope R_scope.

(* the angle of [t] counted from [a] on *)
Lemma lift_range a t : - PI < a <= PI -> - PI < t <= PI -> a <= lift a t < a + 2 * PI.
Proof. intros A T. unfold lift. destruct (ltb t a) eqn:Q; [apply ltb_true in Q|apply ltb_false in Q]; lra. Qed.

Lemma faces_spec s p : round_ok s -> 0 < dist p (s_cen s) ->
  faces s p <-> lift (start_angle s) (atan2 (py p - py (s_cen s)) (px p - px (s_cen s))) <= end_angle s.
Proof.
  intros A D. destruct (round_facts s A) as (R & SA & LA & _).
  destruct (turn_to_exists (s_cen s) (start_angle s) p ltac:(lra)) as (w & W). pose proof (turn_to_lift _ _ _ _ SA W) as E. rewrite <- E.
  destruct W as (WR & r & RP & O). split.
  - intros (v & V & r' & RP' & O'). destruct (Rlt_dec v (start_angle s + 2 * PI)) as [L|L].
    + assert (turn_to (s_cen s) (start_angle s) p v) as TV by (split; [lra|exists r'; auto]).
      rewrite (turn_to_lift _ _ _ _ SA TV) in V. lra.
    + lra.
  - intro L. exists w. split; [lra|]. exists r. auto.
Qed.

(* arcs which touch from outside share a place if each faces the centre of the other *)
Lemma arcs_touching s o : round_ok s -> round_ok o -> (s_ty s = SArc \/ s_ty o = SArc) -> touching s o ->
  dist (s_cen s) (s_cen o) <= s_rad s + s_rad o -> s_rad s <= dist (s_cen s) (s_cen o) + s_rad o -> s_rad o <= dist (s_cen s) (s_cen o) + s_rad s ->
  e3 < s_rad s + s_rad o ->
  (faces s (s_cen o) /\ faces o (s_cen s) -> intersections s o = nothing ITangent) /\
  (~ (faces s (s_cen o) /\ faces o (s_cen s)) -> intersections s o = nothing INone).
Proof.
  intros A B H T D1 D2 D3 NZ. rewrite arcs_reduce by assumption. unfold check_arcs. cbv zeta. rewrite centre_gap_dist.
  unfold touching in T. set (d := dist (s_cen s) (s_cen o)) in *.
  assert (D0 : 0 < d). { apply Rabs_def2 in T. lra. }
  destruct (round_facts s A) as (R & SA & LA & _). destruct (round_facts o B) as (R2 & SB & LB & _).
  rewrite !ltb_f by lra. cbn [orb]. rewrite ltb_t by assumption.
  pose proof (faces_spec s (s_cen o) A) as F1. pose proof (faces_spec o (s_cen s) B) as F2.
  rewrite (dist_sym (s_cen o) (s_cen s)) in F1. specialize (F1 D0). specialize (F2 D0).
  set (t := atan2 (py (s_cen o) - py (s_cen s)) (px (s_cen o) - px (s_cen s))) in *.
  pose proof (atan2_range (py (s_cen o) - py (s_cen s)) (px (s_cen o) - px (s_cen s))) as TR. fold t in TR. pose proof PI_RGT_0 as PP.
  set (u := if ltb 0 t then t - PI else t + PI).
  assert (U : atan2 (py (s_cen s) - py (s_cen o)) (px (s_cen s) - px (s_cen o)) = u).
  { destruct (direction (s_cen s) (s_cen o)) as [X Y]; [rewrite dist_sym; exact D0|]. fold t in X, Y. rewrite dist_sym in X, Y. fold d in X, Y.
    assert (UC : cos u = - cos t /\ sin u = - sin t).
    { unfold u. destruct (ltb 0 t); [|split; [apply neg_cos|apply neg_sin]].
      replace (t - PI) with (t + PI - 2 * PI) by ring. rewrite cos_minus, sin_minus, cos_2PI, sin_2PI, neg_cos, neg_sin. split; ring. }
    destruct UC as [UC US]. rewrite <- (atan2_polar d u); [|lra|].
    - f_equal; rewrite ?UC, ?US; lra.
    - unfold u. destruct (ltb 0 t) eqn:Q; [apply ltb_true in Q|apply ltb_false in Q]; lra. }
  rewrite U in F2.
  assert (UR : - PI < u <= PI) by (rewrite <- U; apply atan2_range).
  assert (K : forall a x, - PI < a <= PI -> - PI < x <= PI -> (let t1 := if ltb a x then x - 2 * PI else x in if ltb t1 a then t1 + 2 * PI else t1) = lift a x).
  { intros a x AR XR. cbv zeta. unfold lift. destruct (ltb a x) eqn:Q; [apply ltb_true in Q|apply ltb_false in Q].
    - rewrite (ltb_t (x - 2 * PI) a), (ltb_f x a) by lra. ring.
    - reflexivity. }
  cbv zeta in K. rewrite (K _ _ SA TR), (K _ _ SB UR).
  pose proof (lift_range _ _ SA TR) as L1. pose proof (lift_range _ _ SB UR) as L2.
  rewrite (leb_t (start_angle s)), (leb_t (start_angle o)) by lra. rewrite andb_true_l.
  split.
  - intros [G1 G2]. apply F1 in G1. apply F2 in G2. rewrite !leb_t by assumption. reflexivity.
  - intro N. destruct (leb (lift (start_angle s) t) (end_angle s)) eqn:Q1; [|reflexivity]. destruct (leb (lift (start_angle o) u) (end_angle o)) eqn:Q2; [|reflexivity].
    exfalso. apply N. apply leb_true in Q1. apply leb_true in Q2. split; [now apply F1|now apply F2].
Qed.

(* what both circles share when they are taken for one *)
Lemma circle_and_its_arc s o : round_ok s -> round_ok o -> alike s o -> ~ touching s o -> 
  dist (s_cen s) (s_cen o) <= s_rad s + s_rad o -> s_rad s <= dist (s_cen s) (s_cen o) + s_rad o -> s_rad o <= dist (s_cen s) (s_cen o) + s_rad s ->
  (s_ty s = SCircle -> s_ty o = SArc -> intersections s o = found [get_start o; get_end o] IEdge) /\
  (s_ty s = SArc -> s_ty o = SCircle -> intersections s o = found [get_start s; get_end s] IEdge).
Proof.
  intros A B AL NT D1 D2 D3. unfold touching in NT.
  split; intros TS TO; (rewrite arcs_reduce by (try assumption; rewrite TS, TO; auto)); unfold check_arcs; cbv zeta; rewrite centre_gap_dist;
  rewrite !(ltb_f (_ + _)) by lra; cbn [orb]; rewrite (ltb_f (Rabs (dist (s_cen s) (s_cen o) - s_rad s - s_rad o))) by lra;
  rewrite (proj2 (alike_test s o) AL), TS, ?TO; reflexivity.
Qed.

Lemma arcs_same_ends s o : arc_ok s -> arc_ok o -> clear s o -> ends_match s o ->
  (s_rad s < s_rad o /\ (exists m, course s (1 / 2) m /\ dist m (s_cen o) < s_rad o) -> intersections s o = found [get_start s; get_end s] IInside) /\
  (~ (s_rad s < s_rad o /\ (exists m, course s (1 / 2) m /\ dist m (s_cen o) < s_rad o)) -> intersections s o = found [get_start s; get_end s] IOutside).
Proof.
  intros A B (Cd & Ct & Ca & C1 & C2) E. pose proof A as ((d0 & T & _) & _). pose proof B as ((d1 & T2 & _) & _).
  rewrite arcs_reduce by (try (right; assumption); auto). unfold check_arcs. cbv zeta. rewrite centre_gap_dist. cbv zeta in Cd, Ct, Ca, C1, C2. unfold touching in Ct.
  rewrite !(ltb_f (_ + _)) by lra. cbn [orb]. rewrite (ltb_f (Rabs (dist (s_cen s) (s_cen o) - s_rad s - s_rad o))) by lra.
  destruct (point_matches (s_cen s) (s_cen o) e3 && ltb (Rabs (s_rad s - s_rad o)) e3) eqn:Q; [apply alike_test in Q; contradiction|].
  rewrite (proj2 (ends_test s o) E), T, T2. cbn [segty_eqb andb].
  set (m0 := mkPt (px (s_cen s) + s_rad s * cos ((start_angle s + end_angle s) * (1 / 2))) (py (s_cen s) + s_rad s * sin ((start_angle s + end_angle s) * (1 / 2))) 0).
  assert (MC : forall m, course s (1 / 2) m <-> same_place m m0).
  { intro m. unfold course. rewrite T. unfold same_place, m0. cbn [px py].
    replace (s_sang s + 1 / 2 * (s_eang s - s_sang s)) with ((start_angle s + end_angle s) * (1 / 2)); [reflexivity|]. unfold start_angle, end_angle. destruct (s_cw s); field. }
  assert (SQ : sqrt ((px m0 - px (s_cen o)) * (px m0 - px (s_cen o)) + (py m0 - py (s_cen o)) * (py m0 - py (s_cen o))) = dist m0 (s_cen o)) by (unfold dist, dist2; f_equal; ring).
  change (px (s_cen s) + s_rad s * cos ((start_angle s + end_angle s) * (1 / 2))) with (px m0). change (py (s_cen s) + s_rad s * sin ((start_angle s + end_angle s) * (1 / 2))) with (py m0).
  rewrite SQ.
  assert (EX : (exists m, course s (1 / 2) m /\ dist m (s_cen o) < s_rad o) <-> dist m0 (s_cen o) < s_rad o).
  { split.
    - intros (m & M & L). apply MC in M. unfold dist in *. rewrite (same_dist2 _ _ _ M) in L. exact L.
    - intro L. exists m0. split; [apply MC; split; reflexivity|exact L]. }
  rewrite EX. split.
  - intros [L1 L2]. rewrite !ltb_t by assumption. reflexivity.
  - intro N. destruct (ltb (s_rad s) (s_rad o)) eqn:Q1; [|reflexivity]. destruct (ltb (dist m0 (s_cen o)) (s_rad o)) eqn:Q2; [|reflexivity].
    exfalso. apply N. rewrite ltb_true in Q1, Q2. auto.
Qed.

Definition left10 : seg := arc_of (at2 10 0) (at2 10 5) (at2 10 (-5)) false.
Lemma left10_case : arc_ok left10 /\ touching circle5 left10 /\ e3 < s_rad circle5 + s_rad left10 /\ faces circle5 (s_cen left10) /\ faces left10 (s_cen circle5) /\
  intersections circle5 left10 = nothing ITangent.
Proof.
  destruct (arc_is_made 10 0 10 5 10 (-5) false 5) as (_ & _ & O & R); try lra.
  - right. rewrite Rabs_left; lra.
  - right. rewrite Rabs_right; lra.
  - right. rewrite Rabs_right; lra.
  - fold left10 in O, R. pose proof PI_RGT_0 as PP.
    assert (D : dist (s_cen circle5) (s_cen left10) = 10) by (apply dist_at2; lra).
    assert (T : touching circle5 left10). { unfold touching. rewrite D, R. cbn [s_rad circle5]. replace (10 - 5 - 5) with 0 by ring. rewrite Rabs_R0. unfold e3. lra. }
    assert (F1 : faces circle5 (s_cen left10)).
    { exists 0. split; [unfold start_angle, end_angle; cbn; lra|]. exists 10. split; [lra|]. unfold on_round. rewrite cos_0, sin_0. cbn. split; ring. }
    assert (F2 : faces left10 (s_cen circle5)).
    { exists PI. unfold left10, arc_of, start_angle, end_angle. cbn [s_cw s_sang s_eang s_cen negb andb at2 px py]. replace (10 - 10) with 0 by ring.
      rewrite (atan2_up (5 - 0)), (atan2_down (-5 - 0)) by lra. rewrite ltb_t by lra. split; [lra|]. exists 10. split; [lra|]. unfold on_round. rewrite cos_PI, sin_PI. cbn. split; ring. }
    split; [exact O|]. split; [exact T|]. split; [rewrite R; cbn; unfold e3; lra|]. split; [exact F1|]. split; [exact F2|].
    apply (arcs_touching circle5 left10 (or_introl circle5_full) (or_intror O) (or_intror eq_refl) T); rewrite ?D, ?R; cbn [s_rad circle5]; unfold e3; try lra. auto.
Qed.

Definition flat13 : seg := arc_of (at2 20 0) (at2 8 5) (at2 8 (-5)) false.
Lemma flat13_case : arc_ok left8 /\ arc_ok flat13 /\ clear left8 flat13 /\ ends_match left8 flat13.
Proof.
  destruct left8_made as (_ & O & R & _).
  destruct (arc_is_made 20 0 8 5 8 (-5) false 13) as (_ & _ & O2 & R2); try lra.
  - right. rewrite Rabs_left; lra.
  - right. rewrite Rabs_right; lra.
  - right. rewrite Rabs_right; lra.
  - fold flat13 in O2, R2. split; [exact O|]. split; [exact O2|].
    assert (D : dist (s_cen left8) (s_cen flat13) = 12) by (apply dist_at2; lra).
    split; [|left; split; apply one_point_refl].
    unfold clear, touching, alike. cbv zeta. rewrite D, R, R2. rewrite !Rabs_left by lra. unfold e3. repeat split; try lra. 
Qed.
Lemma circle_arc_case : full_circle circle8 /\ arc_ok left8 /\ alike circle8 left8 /\ ~ touching circle8 left8.
Proof.
  destruct left8_made as (_ & O & R & _). split; [apply circles_case|]. split; [exact O|]. unfold alike, touching. rewrite R. cbn [s_rad circle8].
  change (s_cen circle8) with (at2 8 0). change (s_cen left8) with (at2 8 0). split; [split; [apply one_point_refl|rewrite Rminus_diag_eq, Rabs_R0 by reflexivity; unfold e3; lra]|].
  rewrite (dist_at2 8 0 8 0 0) by lra. rewrite Rabs_left by lra. unfold e3. lra.
Qed.
