(** Reversing, midpoint and length; what SetParams makes; concrete cases. *)

From Coq Require Import Reals Lra Psatz List Bool ZArith Lia.
From Verif Require Import SegModel SegSpec SegTrig SegFacts SegBox SegSplit SegSplitArc.
Import ListNotations.
Open Scope R_scope.

Lemma reverse_twice s : reverse (reverse s) = s.
Proof. destruct s as [[] r a b cw c p q]; unfold reverse; cbn; rewrite ?negb_involutive; reflexivity. Qed.

Lemma reverse_facts s : s_ty s = SLine \/ s_ty s = SArc ->
  s_ty (reverse s) = s_ty s /\ s_start (reverse s) = s_end s /\ s_end (reverse s) = s_start s /\
  s_cw (reverse s) = (if segty_eqb (s_ty s) SArc then negb (s_cw s) else s_cw s) /\
  (forall t p, course (reverse s) t p <-> course s (1 - t) p) /\
  (forall p, covers (reverse s) p <-> covers s p) /\ get_length (reverse s) = get_length s.
Proof.
  destruct s as [ty r a b cw c p q]. unfold reverse. cbn [s_ty]. intros [-> | ->].
  - do 4 (split; [reflexivity|]). split; [|split].
    + intros t x. unfold course. cbn. split; intros [H I]; split; lra.
    + intro x. unfold covers. cbn. split; intros (t & T & H & I); exists (1 - t); (split; [lra|split; lra]).
    + unfold get_length. cbn. f_equal. ring.
  - do 4 (split; [reflexivity|]). split; [|split].
    + intros t x. unfold course. cbn. replace (b + t * (a - b)) with (a + (1 - t) * (b - a)) by ring. tauto.
    + intro x. unfold covers, start_angle, end_angle. cbn. destruct cw; tauto.
    + unfold get_length, start_angle, end_angle. cbn. now destruct cw.
Qed.

Lemma reverse_arc_getters s : s_ty s = SArc ->
  start_angle (reverse s) = start_angle s /\ end_angle (reverse s) = end_angle s /\
  get_start (reverse s) = get_start s /\ get_end (reverse s) = get_end s.
Proof.
  destruct s as [ty r a b cw c p q]. cbn. intros ->. unfold reverse, start_angle, end_angle, get_start, get_end. cbn.
  destruct cw; tauto.
Qed.

Lemma reverse_round s : s_ty s = SCircle \/ s_ty s = SNone -> reverse s = s.
Proof. unfold reverse. intros [-> | ->]; reflexivity. Qed.

Lemma reverse_arc_order d s : arc_in_order d s -> arc_in_order d (reverse s).
Proof.
  intros (T & R & A0 & A1 & L & L2 & C & E). destruct (reverse_arc_getters s T) as (G1 & G2 & _).
  destruct (reverse_facts s (or_intror T)) as (F1 & F2 & F3 & _ & F5 & _).
  split; [congruence|]. split; [unfold reverse; rewrite T; exact R|]. rewrite G1, G2.
  do 4 (split; [assumption|]). rewrite F2, F3. split; intros p H; apply F5 in H.
  - replace (1 - 0) with 1 in H by ring. now apply E.
  - replace (1 - 1) with 0 in H by ring. now apply C.
Qed.

Lemma midpoint_facts s p : s_ty s = SLine \/ s_ty s = SArc ->
  exists m, get_midpoint s p = (true, m) /\ course s (1 / 2) m /\ exists m', get_midpoint (reverse s) p = (true, m') /\ same_place m m'.
Proof.
  destruct s as [ty r a b cw c u v]. cbn [s_ty]. intros [-> | ->]; unfold get_midpoint, course, reverse, same_place; cbn; eexists; (split; [reflexivity|]); split.
  - cbn. split; lra.
  - eexists; (split; [reflexivity|]). cbn. split; lra.
  - unfold on_round. cbn. replace (a + 1 / 2 * (b - a)) with ((a + b) * (1 / 2)) by field. tauto.
  - eexists; (split; [reflexivity|]). cbn. rewrite (Rplus_comm b a). tauto.
Qed.

Lemma midpoint_round s p : s_ty s = SCircle -> get_midpoint s p = (true, mkPt (px (s_cen s) + s_rad s) (py (s_cen s)) (pz (s_cen s))).
Proof. intro T. unfold get_midpoint. now rewrite T. Qed.

Lemma length_facts s : 
  (s_ty s = SLine -> get_length s = dist (s_start s) (s_end s)) /\
  (s_ty s = SArc -> get_length s = s_rad s * (end_angle s - start_angle s)) /\
  (s_ty s = SCircle -> get_length s = 2 * PI * s_rad s).
Proof.
  unfold get_length. destruct (s_ty s); (split; [|split]); try discriminate; intros _; try reflexivity; try ring.
  unfold dist, dist2. f_equal. ring.
Qed.

(* the box of a reversed segment *)
Lemma reverse_box s p0 p1 : line_in_order s \/ s_ty s = SArc -> get_box (reverse s) p0 p1 = get_box s p0 p1.
Proof.
  intros [O|T].
  - pose proof O as (T & _ & A & B & N). destruct s as [ty r x y cw c u v]. cbn in T, A, B, N. subst ty. unfold reverse, get_box. cbn.
    rewrite (Rabs_minus_sym (px v) (px u)). destruct (ltb (Rabs (px u - px v)) e8) eqn:E.
    + apply ltb_true in E. unfold leb. destruct (Rle_dec (py u) (py v)) as [L|L]; destruct (Rle_dec (py v) (py u)) as [M|M]; try reflexivity; [|lra].
      exfalso. apply N. left. rewrite gap2_flat by assumption. unfold dist2. replace (py u - py v) with 0 by lra.
      rewrite <- (pow2_abs (px u - px v)). pose proof (Rabs_pos (px u - px v)). unfold e8 in *. nra.
    + unfold ltb.
      destruct (Rlt_dec (px u) (px v)); destruct (Rlt_dec (px v) (px u)); destruct (Rlt_dec (py u) (py v)); destruct (Rlt_dec (py v) (py u)); cbn [fst snd]; try lra; try reflexivity; do 3 f_equal; lra.
  - destruct (reverse_arc_getters s T) as (G1 & G2 & _). destruct (reverse_facts s (or_intror T)) as (F1 & F2 & F3 & _).
    unfold get_box. rewrite F1, T, F2, F3. do 2 f_equal.
    + unfold arc_extrema. rewrite G1, G2. assert (s_cen (reverse s) = s_cen s /\ s_rad (reverse s) = s_rad s) as [-> ->] by (unfold reverse; rewrite T; cbn; tauto). reflexivity.
    + unfold ltb. set (u := s_start s). set (v := s_end s).
      destruct (Rlt_dec (px u) (px v)); destruct (Rlt_dec (px v) (px u)); destruct (Rlt_dec (py u) (py v)); destruct (Rlt_dec (py v) (py u)); cbn [fst snd]; try lra; try reflexivity; do 2 f_equal; lra.
Qed.

(** ** SetParams *)

Lemma set_line_claim a b : exists s,
  (set_line a b = (true, s) /\ in_plane a /\ in_plane b /\ ~ one_point a b e8 /\ line_in_order s /\ s_start s = a /\ s_end s = b) \/
  (set_line a b = (false, s) /\ s = seg_init /\ ~ (in_plane a /\ in_plane b /\ ~ one_point a b e8)).
Proof.
  destruct (set_line_spec a b) as [H I]. destruct (set_line a b) as [[] s]; cbn [fst snd] in *; exists s.
  - left. destruct (proj1 H eq_refl) as (A & B & C). split; [reflexivity|]. do 3 (split; [assumption|]). subst s. repeat split; assumption.
  - right. split; [reflexivity|]. split; [exact I|]. intro Q. apply H in Q. discriminate.
Qed.

Definition arc_asked (c a b : pt) : Prop :=
  in_plane c /\ in_plane a /\ in_plane b /\ ~ one_point c a e8 /\ ~ one_point c b e8 /\
  (one_point a b e8 \/ Rabs (dist b c - dist a c) <= e8).

Lemma set_arc_claim c a b cw : exists s,
  (set_arc c a b cw = (true, s) /\ arc_asked c a b) \/ (set_arc c a b cw = (false, s) /\ s = seg_init /\ ~ arc_asked c a b).
Proof.
  destruct (set_arc_spec c a b cw) as (H & I & _). destruct (set_arc c a b cw) as [[] s]; cbn [fst snd] in *; exists s.
  - left. split; [reflexivity|]. now apply H.
  - right. split; [reflexivity|]. split; [now apply I|]. intro Q. apply H in Q. discriminate.
Qed.

Lemma arc_made c a b cw s : set_arc c a b cw = (true, s) -> ~ one_point a b e8 ->
  s_ty s = SArc /\ s_cen s = c /\ s_start s = a /\ s_end s = b /\ s_cw s = cw /\ s_rad s = dist a c /\
  arc_in_order e8 s /\ start_angle s <= PI /\ course s 0 a /\
  (if cw then s_eang s < s_sang s < s_eang s + 2 * PI else s_sang s < s_eang s < s_sang s + 2 * PI).
Proof.
  intros H N. destruct (set_arc_spec c a b cw) as (I & _ & _ & J). rewrite H in I, J. cbn [fst snd] in *.
  destruct (proj1 I eq_refl) as (C & A & B & CA & CB & [Q|Q]); [contradiction|]. specialize (J eq_refl N). subst s.
  destruct (arc_of_order c a b cw C A B CA CB N Q) as (O & (_ & P) & Z).
  do 6 (split; [reflexivity|]). split; [exact O|]. split; [exact P|]. split; [exact Z|].
  destruct O as (_ & _ & _ & _ & L & L2 & _). unfold start_angle, end_angle in *. cbn [arc_of s_cw] in *. destruct cw; split; lra.
Qed.

Lemma circle_made c a b cw s : set_arc c a b cw = (true, s) -> one_point a b e8 ->
  circle_in_order s /\ s_cen s = c /\ s_rad s = dist a c /\ s_cw s = false /\ covers s a /\
  s_start s = s_end s /\ same_place (s_start s) (mkPt (px c + dist a c) (py c) 0).
Proof.
  intros H N. destruct (set_arc_spec c a b cw) as (I & _ & J & _). rewrite H in I, J. cbn [fst snd] in *.
  destruct (proj1 I eq_refl) as (C & A & B & CA & CB & _). specialize (J eq_refl N). subst s.
  split. { split; [reflexivity|]. cbn. rewrite dist_sym. now apply apart_dist. }
  do 3 (split; [reflexivity|]). split. { unfold covers, circle_of. cbn [s_ty s_cen s_rad]. rewrite <- dist_sq. ring. }
  split; [reflexivity|]. split; reflexivity.
Qed.

(** ** Concrete cases *)

Definition at2 (x y : R) : pt := mkPt x y 0.

Lemma apart_x p q : pz p = 0 -> pz q = 0 -> ~ far p -> ~ far q -> 1 / 2 <= Rabs (px p - px q) -> ~ one_point p q e8.
Proof.
  intros A B F G H [K|[(_ & _ & K)|([K|K] & _)]]; try contradiction; rewrite gap2_flat in K by assumption; unfold dist2 in K;
  pose proof (pow2_ge_0 (py p - py q)); rewrite <- (pow2_abs (px p - px q)) in K; unfold e8 in K; nra.
Qed.
Lemma apart_y p q : pz p = 0 -> pz q = 0 -> ~ far p -> ~ far q -> 1 / 2 <= Rabs (py p - py q) -> ~ one_point p q e8.
Proof.
  intros A B F G H [K|[(_ & _ & K)|([K|K] & _)]]; try contradiction; rewrite gap2_flat in K by assumption; unfold dist2 in K;
  pose proof (pow2_ge_0 (px p - px q)); rewrite <- (pow2_abs (py p - py q)) in K; unfold e8 in K; nra.
Qed.
Lemma not_far x y : -1000 <= x <= 1000 -> -1000 <= y <= 1000 -> ~ far (at2 x y).
Proof. intros H I. unfold far, gap2, at2, origin. cbn [px py pz]. nra. Qed.

Lemma matching_not_transitive : exists p q r, point_matches p q e8 = true /\ point_matches q r e8 = true /\ point_matches p r e8 = false.
Proof.
  exists (at2 0 0), (at2 (3 / 2 * e8) 0), (at2 (3 * e8) 0).
  split; [|split].
  - apply point_matches_spec. left. unfold gap2, at2, e8. cbn [px py pz]. lra.
  - apply point_matches_spec. left. unfold gap2, at2, e8. cbn [px py pz]. lra.
  - apply point_matches_not. intros [K|[(_ & _ & K)|([K|K] & _)]]; [| |apply (not_far 0 0) in K; lra|apply (not_far (3 * e8) 0) in K; unfold e8; lra];
    unfold gap2, at2, e8 in K; cbn [px py pz] in K; lra.
Qed.

(* the left half of the unit circle about the origin, from below to above *)
Definition left_half : seg := arc_of origin (at2 0 (-1)) (at2 0 1) true.
Lemma left_half_made : set_arc origin (at2 0 (-1)) (at2 0 1) true = (true, left_half) /\ ~ one_point (at2 0 (-1)) (at2 0 1) e8.
Proof.
  assert (AB : ~ one_point (at2 0 (-1)) (at2 0 1) e8).
  { apply apart_y; try reflexivity; try (apply not_far; lra). cbn. rewrite Rabs_left; lra. }
  split; [|exact AB]. destruct (set_arc_spec origin (at2 0 (-1)) (at2 0 1) true) as (H & _ & _ & J).
  assert (D : dist (at2 0 1) origin = 1 /\ dist (at2 0 (-1)) origin = 1).
  { unfold dist, dist2, at2, origin. cbn [px py]. split; (transitivity (sqrt 1); [f_equal; ring|apply sqrt_1]). }
  assert (T : fst (set_arc origin (at2 0 (-1)) (at2 0 1) true) = true).
  { apply H. split; [reflexivity|]. split; [reflexivity|]. split; [reflexivity|]. split.
    - change origin with (at2 0 0). apply apart_y; try reflexivity; try (apply not_far; lra). cbn. rewrite Rabs_right; lra.
    - split.
      + change origin with (at2 0 0). apply apart_y; try reflexivity; try (apply not_far; lra). cbn. rewrite Rabs_left; lra.
      + right. destruct D as [-> ->]. rewrite Rminus_diag_eq, Rabs_R0 by reflexivity. pose proof e8_pos. lra. }
  rewrite (surjective_pairing (set_arc _ _ _ _)), T, (J T AB). reflexivity.
Qed.

Lemma left_half_angles : s_sang left_half = 3 / 2 * PI /\ s_eang left_half = PI / 2 /\ s_rad left_half = 1.
Proof.
  unfold left_half, arc_of. cbn [s_sang s_eang s_rad]. unfold at2, origin. cbn [px py].
  assert (A : atan2 (-1 - 0) (0 - 0) = - (PI / 2)).
  { unfold atan2. destruct (Rlt_dec 0 (0 - 0)); [lra|]. destruct (Rlt_dec (0 - 0) 0); [lra|]. destruct (Rlt_dec 0 (-1 - 0)); [lra|]. destruct (Rlt_dec (-1 - 0) 0); [reflexivity|lra]. }
  assert (B : atan2 (1 - 0) (0 - 0) = PI / 2).
  { unfold atan2. destruct (Rlt_dec 0 (0 - 0)); [lra|]. destruct (Rlt_dec (0 - 0) 0); [lra|]. destruct (Rlt_dec 0 (1 - 0)); [reflexivity|lra]. }
  rewrite A, B. cbn [negb andb]. rewrite ltb_t by (pose proof PI_RGT_0; lra). split; [lra|]. split; [reflexivity|].
  unfold dist, dist2. cbn [px py]. transitivity (sqrt 1); [f_equal; ring|apply sqrt_1].
Qed.

Definition on_unit (w : R) : pt := at2 (cos w) (sin w).
Lemma on_unit_round w : on_round origin 1 w (on_unit w).
Proof. split; cbn; ring. Qed.

Lemma left_half_split : exists s1 n1 s2 n2,
  split left_half [on_unit (4 / 3 * PI)] = (true, ([on_unit (4 / 3 * PI)], (s1, [n1]))) /\
  split s1 [on_unit (7 / 6 * PI)] = (true, ([on_unit (7 / 6 * PI)], (s2, [n2]))) /\
  ~ covers s1 (on_unit (7 / 6 * PI)) /\ get_length n2 < 0.
Proof.
  destruct left_half_made as [M NE]. destruct left_half_angles as (SA & EA & RD).
  destruct (arc_made _ _ _ _ _ M NE) as (T & C & S & E & CW & _ & O & P & _ & _).
  assert (H34 : cos (4 / 3 * PI) = - (1 / 2)).
  { replace (4 / 3 * PI) with (PI / 3 + PI) by field. rewrite neg_cos, cos_PI3. lra. }
  assert (K34 : sin (4 / 3 * PI) < - (1 / 2)).
  { replace (4 / 3 * PI) with (PI / 3 + PI) by field. rewrite neg_sin, sin_PI3. pose proof (sqrt_lt_1 1 3 ltac:(lra) ltac:(lra) ltac:(lra)) as Q. rewrite sqrt_1 in Q. lra. }
  assert (H76 : sin (7 / 6 * PI) = - (1 / 2)).
  { replace (7 / 6 * PI) with (PI / 6 + PI) by field. rewrite neg_sin, sin_PI6. lra. }
  assert (K76 : cos (7 / 6 * PI) < - (3 / 4)).
  { replace (7 / 6 * PI) with (PI / 6 + PI) by field. rewrite neg_cos, cos_PI6.
    assert (3 / 2 < sqrt 3). { replace (3 / 2) with (sqrt (3 / 2 * (3 / 2))) by (apply sqrt_square; lra). apply sqrt_lt_1; lra. } lra. }
  pose proof PI_RGT_0 as PP.
  assert (F : forall w, ~ far (on_unit w)). { intro w. apply not_far; [pose proof (COS_bound w)|pose proof (SIN_bound w)]; lra. }
  assert (E1 : ~ at_end left_half (on_unit (4 / 3 * PI))).
  { rewrite <- S in NE. unfold at_end. rewrite S, E. intros [Q|Q]; revert Q; apply apart_x; try reflexivity; try apply F; try (apply not_far; lra);
    cbn; rewrite H34; rewrite Rabs_left; lra. }
  destruct (split left_half [on_unit (4 / 3 * PI)]) as [ok [ps1 [s1 l1]]] eqn:S1.
  assert (A1 : arc_angle left_half (on_unit (4 / 3 * PI)) = Some (4 / 3 * PI)).
  { apply (arc_angle_complete e8); [exact O|exact P| |].
    - unfold start_angle, end_angle. rewrite CW, SA, EA. lra.
    - rewrite C, RD. apply on_unit_round. }
  unfold split in S1. rewrite T in S1. cbn [length filter] in S1. rewrite (proj2 (keep_spec _ _) E1) in S1.
  unfold split_arc in S1. rewrite A1 in S1. cbn [fst snd] in S1. injection S1 as <- <- <- <-.
  set (s1 := with_arc_end left_half (on_unit (4 / 3 * PI)) (4 / 3 * PI)).
  assert (O1 : arc_in_order 1 s1).
  { split; [reflexivity|]. split; [change (s_rad s1) with (s_rad left_half); lra|]. unfold start_angle, end_angle. change (s_cw s1) with true. cbv iota.
    change (s_eang s1) with (4 / 3 * PI). change (s_sang s1) with (s_sang left_half). rewrite SA.
    split; [lra|]. split; [lra|]. split; [lra|]. split; [lra|]. split.
    - intros p H. unfold course in H. change (s_ty s1) with SArc in H. cbv iota in H.
      change (s_cen s1) with origin in H. change (s_rad s1) with (s_rad left_half) in H. change (s_sang s1) with (s_sang left_half) in H. rewrite SA, RD, Rmult_0_l, Rplus_0_r in H.
      destruct H as [X Y]. replace (3 / 2 * PI) with (PI / 2 + PI) in * by field. rewrite neg_cos, cos_PI2 in X. rewrite neg_sin, sin_PI2 in Y. cbn in X, Y.
      change (s_start s1) with (at2 0 (-1)). apply dist2_le_dist; [lra|]. unfold dist2. rewrite X, Y. cbn. nra.
    - intros p H. unfold course in H. change (s_ty s1) with SArc in H. cbv iota in H.
      change (s_cen s1) with origin in H. change (s_rad s1) with (s_rad left_half) in H. change (s_sang s1) with (s_sang left_half) in H. change (s_eang s1) with (4 / 3 * PI) in H. rewrite RD in H.
      replace (s_sang left_half + 1 * (4 / 3 * PI - s_sang left_half)) with (4 / 3 * PI) in H by ring.
      destruct H as [X Y]. change (s_end s1) with (on_unit (4 / 3 * PI)). apply dist2_le_dist; [lra|]. unfold dist2. rewrite X, Y. cbn. nra. }
  assert (E2 : ~ at_end s1 (on_unit (7 / 6 * PI))).
  { change (~ (one_point (on_unit (7 / 6 * PI)) (at2 0 (-1)) e8 \/ one_point (on_unit (7 / 6 * PI)) (on_unit (4 / 3 * PI)) e8)).
    intros [Q|Q].
    - revert Q. apply apart_x; try reflexivity; try apply F; [apply not_far; lra|]. cbn. rewrite Rabs_left; lra.
    - destruct Q as [K|[(_ & _ & K)|([K|K] & _)]]; try (now apply F in K); rewrite gap2_flat in K by reflexivity; unfold dist2 in K; cbn in K;
      pose proof (pow2_ge_0 (sin (7 / 6 * PI) - sin (4 / 3 * PI))); rewrite H34 in K; unfold e8 in K; cbn in *; nra. }
  destruct (split_arc_beyond 1 s1 (7 / 6 * PI) (on_unit (7 / 6 * PI)) O1 eq_refl) as (N & Q & L).
  - unfold start_angle. change (s_cw s1) with true. cbv iota. change (s_eang s1) with (4 / 3 * PI). lra.
  - change (s_cen s1) with origin. change (s_rad s1) with (s_rad left_half). rewrite RD. apply on_unit_round.
  - exact E2.
  - do 4 eexists. split; [reflexivity|]. split; [exact Q|]. split; [exact N|exact L].
Qed.

(* a circle with radius 1/4 which is gone after being split *)
Definition small_circle : seg := mkSeg SCircle (1 / 4) 0 (2 * PI) false origin (at2 (1 / 4) 0) (at2 (1 / 4) 0).
Lemma small_circle_gone : exists p q s' x, circle_in_order small_circle /\ covers small_circle p /\
  split small_circle [p; q] = (true, ([p; q], (s', [x]))) /\ get_length s' = 0 /\ get_length x = 0 /\ get_length small_circle = PI / 2.
Proof.
  exists (at2 (1 / 4) 0), (at2 (1 / 4 + e8) 0).
  destruct (split small_circle [at2 (1 / 4) 0; at2 (1 / 4 + e8) 0]) as [ok [ps [s' n]]] eqn:S.
  assert (O : circle_in_order small_circle) by (split; [reflexivity|cbn; lra]).
  assert (OK : ok = true).
  { pose proof (f_equal fst S) as F. cbn [fst] in F. rewrite <- F. clear F S. unfold split. cbn [s_ty small_circle length fst]. unfold split_circle.
    cbn [px py at2 s_cen s_rad origin].
    rewrite (ltb_f (Rabs (1 / 4 - (1 / 4 + e8)))) by (replace (1 / 4 - (1 / 4 + e8)) with (- e8) by ring; rewrite Rabs_Ropp, Rabs_pos_eq; pose proof e8_pos; lra).
    cbn [andb]. cbv beta zeta. cbn [px py at2 s_cen s_rad origin small_circle].
    rewrite (ltb_f e8 (Rabs ((1 / 4 - 0) * (1 / 4 - 0) + (0 - 0) * (0 - 0) - 1 / 4 * (1 / 4))))
      by (replace ((1 / 4 - 0) * (1 / 4 - 0) + (0 - 0) * (0 - 0) - 1 / 4 * (1 / 4)) with 0 by ring; rewrite Rabs_R0; pose proof e8_pos; lra).
    rewrite ltb_f; [reflexivity|]. rewrite Rabs_pos_eq; unfold e8; lra. }
  subst ok. destruct (split_circle_pieces _ _ _ _ _ O S) as (p & q & x & PS & -> & -> & _ & _ & _ & _ & _ & _ & _ & _ & _ & _ & _ & _ & _ & _ & Z).
  injection PS as <- <-. exists s', x. split; [exact O|]. split; [cbn; unfold dist2; cbn; lra|]. split; [reflexivity|].
  destruct Z as [Z1 Z2].
  { unfold bearing. cbn. unfold atan2. destruct (Rlt_dec 0 (1 / 4 - 0)); [|lra]. destruct (Rlt_dec 0 (1 / 4 + e8 - 0)); [|unfold e8 in *; lra].
    f_equal. pose proof e8_pos. field. lra. }
  split; [exact Z1|]. split; [exact Z2|]. unfold get_length. cbn. field.
Qed.
