(** Cases in which the intersections found are not the common points. *)

From Coq Require Import Reals Lra Psatz List Bool ZArith Lia.
From Verif Require Import SegModel SegSpec SegTrig SegFacts SegBox SegSplit SegSplitArc SegProps CutModel CutSpec CutFacts CutCircle CutArc CutLine CutArcLine.
Import ListNotations.
Open Scope R_scope.

Lemma made_ok c a b cw s : set_arc c a b cw = (true, s) -> ~ one_point a b e8 -> arc_ok s.
Proof.
  intros H N. destruct (arc_made _ _ _ _ _ H N) as (T & C & _ & _ & _ & _ & O & P & _). split; [exists e8; exact O|]. split; [exact P|].
  rewrite C. destruct (set_arc_spec c a b cw) as (I & _). rewrite H in I. now apply (proj1 I).
Qed.

Lemma dist_at2 x y u v k : 0 <= k -> (x - u) ^ 2 + (y - v) ^ 2 = k ^ 2 -> dist (at2 x y) (at2 u v) = k.
Proof. intros K H. apply dist2_sq_dist; [exact K|]. unfold dist2, at2. cbn [px py]. lra. Qed.

(* an arc of which the ends are apart by one half or more is made *)
Lemma arc_is_made cx cy ax ay bx by_ cw k : 1 / 2 <= k ->
  -1000 <= cx <= 1000 -> -1000 <= cy <= 1000 -> -1000 <= ax <= 1000 -> -1000 <= ay <= 1000 -> -1000 <= bx <= 1000 -> -1000 <= by_ <= 1000 ->
  (1 / 2 <= Rabs (cx - ax) \/ 1 / 2 <= Rabs (cy - ay)) -> (1 / 2 <= Rabs (cx - bx) \/ 1 / 2 <= Rabs (cy - by_)) -> (1 / 2 <= Rabs (ax - bx) \/ 1 / 2 <= Rabs (ay - by_)) ->
  (ax - cx) ^ 2 + (ay - cy) ^ 2 = k ^ 2 -> (bx - cx) ^ 2 + (by_ - cy) ^ 2 = k ^ 2 ->
  set_arc (at2 cx cy) (at2 ax ay) (at2 bx by_) cw = (true, arc_of (at2 cx cy) (at2 ax ay) (at2 bx by_) cw) /\
  ~ one_point (at2 ax ay) (at2 bx by_) e8 /\ arc_ok (arc_of (at2 cx cy) (at2 ax ay) (at2 bx by_) cw) /\ s_rad (arc_of (at2 cx cy) (at2 ax ay) (at2 bx by_) cw) = k.
Proof.
  intros K C1 C2 A1 A2 B1 B2 CA CB AB DA DB.
  assert (NE : forall x y u v, -1000 <= x <= 1000 -> -1000 <= y <= 1000 -> -1000 <= u <= 1000 -> -1000 <= v <= 1000 -> (1 / 2 <= Rabs (x - u) \/ 1 / 2 <= Rabs (y - v)) -> ~ one_point (at2 x y) (at2 u v) e8).
  { intros x y u v X Y U V [H|H]; [apply apart_x|apply apart_y]; try reflexivity; try (apply not_far; assumption); exact H. }
  pose proof (NE _ _ _ _ A1 A2 B1 B2 AB) as NAB.
  assert (M : set_arc (at2 cx cy) (at2 ax ay) (at2 bx by_) cw = (true, arc_of (at2 cx cy) (at2 ax ay) (at2 bx by_) cw)).
  { destruct (set_arc_spec (at2 cx cy) (at2 ax ay) (at2 bx by_) cw) as (H & _ & _ & J).
    assert (T : fst (set_arc (at2 cx cy) (at2 ax ay) (at2 bx by_) cw) = true).
    { apply H. split; [reflexivity|]. split; [reflexivity|]. split; [reflexivity|]. split; [now apply NE|]. split; [now apply NE|].
      right. rewrite (dist_at2 bx by_ cx cy k), (dist_at2 ax ay cx cy k) by lra. rewrite Rminus_diag_eq, Rabs_R0 by reflexivity. pose proof e8_pos. lra. }
    rewrite (surjective_pairing (set_arc _ _ _ _)), T, (J T NAB). reflexivity. }
  split; [exact M|]. split; [exact NAB|]. split; [exact (made_ok _ _ _ _ _ M NAB)|]. unfold arc_of. cbn [s_rad]. apply dist_at2; lra.
Qed.

Lemma atan2_up y : 0 < y -> atan2 y 0 = PI / 2.
Proof. intro H. unfold atan2. destruct (Rlt_dec 0 0); [lra|]. destruct (Rlt_dec 0 0); [lra|]. destruct (Rlt_dec 0 y); [reflexivity|lra]. Qed.
Lemma atan2_down y : y < 0 -> atan2 y 0 = - (PI / 2).
Proof. intro H. unfold atan2. destruct (Rlt_dec 0 0); [lra|]. destruct (Rlt_dec 0 0); [lra|]. destruct (Rlt_dec 0 y); [lra|]. destruct (Rlt_dec y 0); [reflexivity|lra]. Qed.

(** ** Arcs *)

Definition circle5 : seg := mkSeg SCircle 5 0 (2 * PI) false (at2 0 0) (at2 5 0) (at2 5 0).
Lemma circle5_full : full_circle circle5.
Proof. split; [reflexivity|]. cbn. repeat split; try lra. Qed.

(* the left half and the right half of a circle about (8,0) with radius 5 *)
Definition left8 : seg := arc_of (at2 8 0) (at2 8 5) (at2 8 (-5)) false.
Definition right8 : seg := arc_of (at2 8 0) (at2 8 (-5)) (at2 8 5) false.

Lemma left8_made : set_arc (at2 8 0) (at2 8 5) (at2 8 (-5)) false = (true, left8) /\ arc_ok left8 /\ s_rad left8 = 5 /\ start_angle left8 = PI / 2 /\ end_angle left8 = 3 * (PI / 2).
Proof.
  destruct (arc_is_made 8 0 8 5 8 (-5) false 5) as (M & _ & O & R); try lra.
  - right. rewrite Rabs_left; lra.
  - right. rewrite Rabs_right; lra.
  - right. rewrite Rabs_right; lra.
  - split; [exact M|]. split; [exact O|]. split; [exact R|]. unfold left8, arc_of, start_angle, end_angle, at2. cbn [s_cw s_sang s_eang px py negb andb].
    replace (8 - 8) with 0 by ring. rewrite (atan2_up (5 - 0)), (atan2_down (-5 - 0)) by lra. rewrite ltb_t by (pose proof PI_RGT_0; lra). split; [reflexivity|lra].
Qed.
Lemma right8_made : set_arc (at2 8 0) (at2 8 (-5)) (at2 8 5) false = (true, right8) /\ arc_ok right8 /\ s_rad right8 = 5 /\ start_angle right8 = - (PI / 2) /\ end_angle right8 = PI / 2.
Proof.
  destruct (arc_is_made 8 0 8 (-5) 8 5 false 5) as (M & _ & O & R); try lra.
  - right. rewrite Rabs_right; lra.
  - right. rewrite Rabs_left; lra.
  - right. rewrite Rabs_left; lra.
  - split; [exact M|]. split; [exact O|]. split; [exact R|]. unfold right8, arc_of, start_angle, end_angle, at2. cbn [s_cw s_sang s_eang px py negb andb].
    replace (8 - 8) with 0 by ring. rewrite (atan2_up (5 - 0)), (atan2_down (-5 - 0)) by lra. rewrite ltb_f by (pose proof PI_RGT_0; lra). split; reflexivity.
Qed.

Lemma cos_left w : PI / 2 <= w <= 3 * (PI / 2) -> cos w <= 0.
Proof. intros [A B]. now apply cos_le_0. Qed.
Lemma cos_right w : - (PI / 2) <= w <= PI / 2 -> 0 <= cos w.
Proof. intros [A B]. apply cos_ge_0; assumption. Qed.

(* on a circle: an angle in the left half, or in the right half *)
Lemma in_left c r p : 0 < r -> dist p c = r -> px p < px c -> exists w, PI / 2 <= w <= 3 * (PI / 2) /\ on_round c r w p.
Proof.
  intros R D L. destruct (direction c p ltac:(lra)) as [X Y]. rewrite D in X, Y. pose proof (atan2_range (py p - py c) (px p - px c)) as B. pose proof PI_RGT_0 as P.
  set (b := atan2 (py p - py c) (px p - px c)) in *.
  assert (C : cos b < 0) by nra.
  destruct (Rle_dec 0 b) as [G|G].
  - exists b. split; [|split; lra]. split; [|lra]. destruct (Rle_dec (PI / 2) b) as [Q|Q]; [exact Q|]. assert (0 <= cos b) by (apply cos_ge_0; lra). lra.
  - exists (b + 2 * PI). split; [|unfold on_round; rewrite cos_plus, sin_plus, cos_2PI, sin_2PI; split; lra].
    split; [lra|]. destruct (Rle_dec b (- (PI / 2))) as [Q|Q]; [lra|]. assert (0 <= cos b) by (apply cos_ge_0; lra). lra.
Qed.
Lemma in_right c r p : 0 < r -> dist p c = r -> px c < px p -> exists w, - (PI / 2) <= w <= PI / 2 /\ on_round c r w p.
Proof.
  intros R D L. destruct (direction c p ltac:(lra)) as [X Y]. rewrite D in X, Y. pose proof (atan2_range (py p - py c) (px p - px c)) as B. pose proof PI_RGT_0 as P.
  set (b := atan2 (py p - py c) (px p - px c)) in *.
  assert (C : 0 < cos b) by nra. exists b. split; [|split; lra].
  split.
  - destruct (Rle_dec (- (PI / 2)) b) as [Q|Q]; [exact Q|]. assert (cos (b + 2 * PI) <= 0) by (apply cos_le_0; lra). rewrite cos_plus, cos_2PI, sin_2PI in H. lra.
  - destruct (Rle_dec b (PI / 2)) as [Q|Q]; [exact Q|]. assert (cos b <= 0) by (apply cos_le_0; lra). lra.
Qed.

Lemma d8 p o : s_cen o = at2 8 0 -> s_rad o = 5 -> (dist p (at2 0 0) = 5 /\ dist p (s_cen o) = 5 <-> px p = 4 /\ (py p = 3 \/ py p = -3)).
Proof.
  intros C R. rewrite C, <- !dist2_sq_dist by lra. unfold dist2, at2. cbn [px py]. split.
  - intros [A B]. assert (px p = 4) as X by nra. split; [exact X|]. rewrite X in A. assert ((py p - 3) * (py p + 3) = 0) as Z by nra. apply Rmult_integral in Z. destruct Z; [left|right]; lra.
  - intros [-> [-> | ->]]; split; ring.
Qed.

Lemma clear8 o : s_cen o = at2 8 0 -> s_rad o = 5 -> clear circle5 o.
Proof.
  intros C R. assert (D : dist (s_cen circle5) (s_cen o) = 8) by (rewrite C; apply dist_at2; [lra|cbn; lra]).
  unfold clear, touching, alike. cbv zeta. rewrite D, R. cbn [s_rad circle5]. rewrite Rabs_left by lra. unfold e3. repeat split; try lra.
  intros [K _]. revert K. rewrite C. intros [K|[(_ & _ & K)|([K|K] & _)]].
  - rewrite gap2_flat in K by reflexivity. unfold dist2, at2 in K. cbn in K. lra.
  - rewrite gap2_flat in K by reflexivity. unfold dist2, at2 in K. cbn in K. lra.
  - revert K. apply (not_far 0 0); lra.
  - revert K. apply (not_far 8 0); lra.
Qed.

(* both points at which the circle meets the arc are missed *)
Lemma left8_missed : set_arc (at2 8 0) (at2 8 5) (at2 8 (-5)) false = (true, left8) /\ common circle5 left8 (at2 4 3) /\ common circle5 left8 (at2 4 (-3)) /\ intersections circle5 left8 = nothing INone.
Proof.
  destruct left8_made as (M & O & R & SA & EA). pose proof (d8) as D8. assert (C : s_cen left8 = at2 8 0) by reflexivity.
  assert (CM : forall y, (y = 3 \/ y = -3) -> common circle5 left8 (at2 4 y)).
  { intros y Y. destruct (proj2 (D8 (at2 4 y) left8 C R)) as [A B]; [split; [reflexivity|exact Y]|]. split.
    - apply covers_circle; [reflexivity|cbn; lra|exact A].
    - unfold covers. change (s_ty left8) with SArc. cbv iota. rewrite SA, EA, R. apply in_left; [lra|exact B|cbn; lra]. }
  split; [exact M|]. split; [apply CM; now left|]. split; [apply CM; now right|].
  destruct (arcs_points circle5 left8 (or_introl circle5_full) (or_intror O) (or_intror eq_refl) (clear8 _ C R)) as (l & L & _ & H).
  - discriminate.
  - rewrite C, R. change (s_cen circle5) with (at2 0 0). rewrite (dist_at2 0 0 8 0 8) by lra. cbn. lra.
  - rewrite C, R. change (s_cen circle5) with (at2 0 0). rewrite (dist_at2 0 0 8 0 8) by lra. cbn. lra.
  - destruct l as [|p l].
    + apply H.
    + exfalso. destruct L as (L & _). destruct (L p (or_introl eq_refl)) as (D1 & D2 & _ & W). destruct (W eq_refl) as (w & WR & [X Y]).
      destruct (proj1 (D8 p left8 C R)) as [PX _]; [split; [exact D1|rewrite R in D2; exact D2]|].
      rewrite SA, EA in WR. apply cos_left in WR. cbn in X. lra.
Qed.

(* both points are found though the arc does not pass through them *)
Lemma right8_found : set_arc (at2 8 0) (at2 8 (-5)) (at2 8 5) false = (true, right8) /\ (forall p, ~ common circle5 right8 p) /\
  exists p q, intersections circle5 right8 = found [p; q] INone /\ px p = 4 /\ px q = 4 /\ py p <> py q.
Proof.
  destruct right8_made as (M & O & R & SA & EA). pose proof (d8) as D8. assert (C : s_cen right8 = at2 8 0) by reflexivity.
  split; [exact M|]. split.
  { intros p [A B]. apply covers_circle in A; [|reflexivity|cbn; lra]. unfold covers in B. change (s_ty right8) with SArc in B. cbv iota in B. destruct B as (w & W & O2). rewrite SA, EA in W. rewrite R in O2.
    pose proof (on_round_dist _ _ _ _ O2) as D2. replace (5 * 5) with (5 ^ 2) in D2 by ring. apply dist2_sq_dist in D2; [|lra].
    destruct (proj1 (D8 p right8 C R) (conj A D2)) as [PX _]. destruct O2 as [X _]. apply cos_right in W. rewrite C in X. cbn in X. lra. }
  destruct (arcs_points circle5 right8 (or_introl circle5_full) (or_intror O) (or_intror eq_refl) (clear8 _ C R)) as (l & L & LE2 & H & _).
  - discriminate.
  - rewrite C, R. change (s_cen circle5) with (at2 0 0). rewrite (dist_at2 0 0 8 0 8) by lra. cbn. lra.
  - rewrite C, R. change (s_cen circle5) with (at2 0 0). rewrite (dist_at2 0 0 8 0 8) by lra. cbn. lra.
  - destruct L as (L1 & L2 & _).
    assert (SN : forall y, (y = 3 \/ y = -3) -> seen circle5 right8 (at2 4 y)).
    { intros y Y. destruct (proj2 (D8 (at2 4 y) right8 C R)) as [A B]; [split; [reflexivity|exact Y]|].
      split; [exact A|]. split; [rewrite R; exact B|]. split; [discriminate|]. intros _. rewrite SA, EA. apply in_right; [cbn; lra|exact A|cbn; lra]. }
    destruct (L2 _ (SN 3 (or_introl eq_refl))) as (p & IP & [PX PY]). destruct (L2 _ (SN (-3) (or_intror eq_refl))) as (q & IQ & [QX QY]).
    cbn in PX, PY, QX, QY.
    destruct l as [|a [|b [|? ?]]]; [destruct IP| | |cbn in LE2; lia].
    + exfalso. destruct IP as [<-|[]]. destruct IQ as [<-|[]]. lra.
    + exists a, b. split; [exact H|]. destruct IP as [<-|[<-|[]]]; destruct IQ as [<-|[<-|[]]]; repeat split; lra.
Qed.

(* two halves of one circle: neither of the points reported is on both *)
Definition half_right : seg := arc_of (at2 0 0) (at2 0 (-1)) (at2 0 1) false.
Definition half_upper : seg := arc_of (at2 0 0) (at2 1 0) (at2 (-1) 0) false.

Lemma half_right_made : set_arc (at2 0 0) (at2 0 (-1)) (at2 0 1) false = (true, half_right) /\ arc_ok half_right /\ s_rad half_right = 1 /\ start_angle half_right = - (PI / 2) /\ end_angle half_right = PI / 2.
Proof.
  destruct (arc_is_made 0 0 0 (-1) 0 1 false 1) as (M & _ & O & R); try lra.
  - right. rewrite Rabs_right; lra.
  - right. rewrite Rabs_left; lra.
  - right. rewrite Rabs_left; lra.
  - split; [exact M|]. split; [exact O|]. split; [exact R|]. unfold half_right, arc_of, start_angle, end_angle, at2. cbn [s_cw s_sang s_eang px py negb andb].
    replace (0 - 0) with 0 by ring. rewrite (atan2_up (1 - 0)), (atan2_down (-1 - 0)) by lra. rewrite ltb_f by (pose proof PI_RGT_0; lra). split; reflexivity.
Qed.
Lemma atan2_rt x : 0 < x -> atan2 0 x = 0.
Proof. intro H. unfold atan2. destruct (Rlt_dec 0 x); [|lra]. unfold Rdiv. rewrite Rmult_0_l. apply atan_0. Qed.
Lemma atan2_lt x : x < 0 -> atan2 0 x = PI.
Proof. intro H. unfold atan2. destruct (Rlt_dec 0 x); [lra|]. destruct (Rlt_dec x 0); [|lra]. destruct (Rle_dec 0 0); [|lra]. unfold Rdiv. rewrite Rmult_0_l, atan_0. ring. Qed.
Lemma half_upper_made : set_arc (at2 0 0) (at2 1 0) (at2 (-1) 0) false = (true, half_upper) /\ arc_ok half_upper /\ s_rad half_upper = 1 /\ start_angle half_upper = 0 /\ end_angle half_upper = PI.
Proof.
  destruct (arc_is_made 0 0 1 0 (-1) 0 false 1) as (M & _ & O & R); try lra.
  - left. rewrite Rabs_left; lra.
  - left. rewrite Rabs_right; lra.
  - left. rewrite Rabs_right; lra.
  - split; [exact M|]. split; [exact O|]. split; [exact R|]. unfold half_upper, arc_of, start_angle, end_angle, at2. cbn [s_cw s_sang s_eang px py negb andb].
    replace (0 - 0) with 0 by ring. rewrite (atan2_rt (1 - 0)), (atan2_lt (-1 - 0)) by lra. rewrite ltb_f by (pose proof PI_RGT_0; lra). split; reflexivity.
Qed.

Lemma halves_overlap : intersections half_right half_upper = found [at2 0 (-1); at2 (-1) 0] IEdge /\
  ~ covers half_upper (at2 0 (-1)) /\ ~ covers half_right (at2 (-1) 0) /\ (forall w, 0 <= w <= PI / 2 -> common half_right half_upper (on_unit w)).
Proof.
  destruct half_right_made as (_ & O1 & R1 & A0 & A1). destruct half_upper_made as (_ & O2 & R2 & B0 & B1). pose proof PI_RGT_0 as P. pose proof PI2_1 as P1.
  split; [|split; [|split]].
  - change (intersections half_right half_upper) with (check_arcs half_right half_upper). unfold check_arcs. cbv zeta.
    rewrite centre_gap_dist, R1, R2, A0, A1, B0, B1.
    change (s_cen half_right) with (at2 0 0). change (s_cen half_upper) with (at2 0 0). rewrite (dist_at2 0 0 0 0 0) by lra.
    rewrite !(ltb_f (1 + 1)), !(ltb_f (0 + 1)) by lra. cbn [orb].
    rewrite (ltb_f (Rabs (0 - 1 - 1))) by (rewrite Rabs_left; unfold e3; lra).
    assert (PM : point_matches (at2 0 0) (at2 0 0) e3 = true) by (apply point_matches_spec; apply one_point_refl).
    rewrite PM. rewrite (ltb_t (Rabs (1 - 1))) by (rewrite Rminus_diag_eq, Rabs_R0 by reflexivity; unfold e3; lra). cbn [andb].
    change (segty_eqb (s_ty half_right) SCircle) with false. change (segty_eqb (s_ty half_upper) SCircle) with false. cbv iota.
    unfold e8.
    rewrite (ltb_f (Rabs (PI - - (PI / 2)))) by (rewrite Rabs_right; lra).
    rewrite (ltb_f (Rabs (PI / 2 - 0))) by (rewrite Rabs_right; lra).
    rewrite (ltb_f (Rabs (0 - PI / 2))) by (rewrite Rabs_left; lra).
    rewrite (ltb_f (Rabs (- (PI / 2) - PI))) by (rewrite Rabs_left; lra).
    cbn [andb orb].
    rewrite (leb_f PI (PI / 2)), (leb_f (PI + 2 * PI) (PI / 2)), (leb_f (- (PI / 2)) (0 - 2 * PI)) by lra. rewrite !andb_false_r. cbn [andb orb].
    rewrite (leb_f 0 (- (PI / 2))), (leb_f (0 + 2 * PI) (- (PI / 2))), (leb_f (PI / 2) (PI - 2 * PI)) by lra. rewrite !andb_false_r. cbn [andb orb].
    rewrite (leb_f (- (PI / 2)) (PI - 2 * PI)) by lra. rewrite !andb_false_r. cbn [andb orb].
    rewrite (leb_t (- (PI / 2)) 0), (leb_t 0 (PI / 2)), (leb_t (PI / 2) PI) by lra. reflexivity.
  - unfold covers. change (s_ty half_upper) with SArc. cbv iota. rewrite B0, B1, R2. intros (w & W & [_ Y]). cbn in Y. pose proof (sin_ge_0 w ltac:(lra) ltac:(lra)). lra.
  - unfold covers. change (s_ty half_right) with SArc. cbv iota. rewrite A0, A1, R1. intros (w & W & [X _]). cbn in X. apply cos_right in W. lra.
  - intros w W. split; unfold covers; [change (s_ty half_right) with SArc|change (s_ty half_upper) with SArc]; cbv iota; rewrite ?A0, ?A1, ?B0, ?B1, ?R1, ?R2; exists w; (split; [lra|]); apply on_unit_round.
Qed.

(** ** Lines *)

Definition line_of (a b : pt) : seg := mkSeg SLine 0 0 0 false origin a b.

Lemma line_is_made ax ay bx by_ : -1000 <= ax <= 1000 -> -1000 <= ay <= 1000 -> -1000 <= bx <= 1000 -> -1000 <= by_ <= 1000 ->
  2 * e8 <= Rabs (ax - bx) \/ 2 * e8 <= Rabs (ay - by_) -> line_in_order (line_of (at2 ax ay) (at2 bx by_)).
Proof.
  intros A1 A2 B1 B2 H. split; [reflexivity|]. split; [reflexivity|]. split; [reflexivity|]. split; [reflexivity|].
  change (~ one_point (at2 ax ay) (at2 bx by_) e8). pose proof e8_pos as E.
  intros [K|[(_ & _ & K)|([K|K] & _)]]; [| |revert K; apply not_far; assumption|revert K; apply not_far; assumption];
  rewrite gap2_flat in K by reflexivity; unfold dist2, at2 in K; cbn [px py] in K;
  pose proof (pow2_ge_0 (ax - bx)); pose proof (pow2_ge_0 (ay - by_));
  rewrite <- (pow2_abs (ax - bx)), <- (pow2_abs (ay - by_)) in *; unfold e8 in *; destruct H; nra.
Qed.

(* a line is accepted as it is made *)
Lemma line_accepted a b : line_in_order (line_of a b) -> set_line a b = (true, line_of a b).
Proof.
  intros (_ & _ & A & B & N). destruct (set_line_claim a b) as (s & [(E & _)|(_ & _ & F)]); [|exfalso; apply F; auto].
  destruct (set_line_spec a b) as [_ I]. rewrite E in *. cbn [fst snd] in *. f_equal. now apply I.
Qed.

Definition seg02 : seg := line_of (at2 0 0) (at2 2 0).
Definition seg13 : seg := line_of (at2 1 0) (at2 3 0).
Definition seg01 : seg := line_of (at2 0 0) (at2 1 0).
Definition seg12 : seg := line_of (at2 1 0) (at2 2 0).
Definition tiny_h : seg := line_of (at2 (-4 / 10000) 0) (at2 (4 / 10000) 0).
Definition tiny_v : seg := line_of (at2 0 (-4 / 10000)) (at2 0 (4 / 10000)).

Lemma lines_made : line_in_order seg02 /\ line_in_order seg13 /\ line_in_order seg01 /\ line_in_order seg12 /\ line_in_order tiny_h /\ line_in_order tiny_v.
Proof.
  unfold seg02, seg13, seg01, seg12, tiny_h, tiny_v.
  split; [|split; [|split; [|split; [|split]]]]; apply line_is_made; try lra; unfold e8; try (left; rewrite Rabs_left; lra); right; rewrite Rabs_left; lra.
Qed.

Ltac abs_lra := first [rewrite Rabs_right by lra; lra | rewrite Rabs_left1 by lra; lra].

Lemma overlap_missed : intersections seg02 seg13 = nothing INone /\ forall x, 1 <= x <= 2 -> common seg02 seg13 (at2 x 0).
Proof.
  split.
  - change (intersections seg02 seg13) with (check_lines seg02 seg13). unfold check_lines, seg02, seg13, line_of, get_start, get_end, at2. cbn [s_cw s_start s_end px py pz]. cbv zeta.
    rewrite (ltb_t (Rabs ((3 - 1) * (0 - 0) - (0 - 0) * (2 - 0)))) by (unfold e6; abs_lra).
    rewrite (ltb_f e6) by (unfold e6; abs_lra).
    rewrite (leb_t (Rabs (0 - 0))) by (rewrite (Rabs_right (0 - 0)) by lra; abs_lra).
    rewrite (leb_t (Rabs (0 - 0)) (Rabs (2 - 0))) by (rewrite (Rabs_right (0 - 0)) by lra; abs_lra).
    unfold e8. rewrite !(ltb_f (Rabs ((0 - 1) / (3 - 1)))), !(ltb_f (Rabs ((0 - 1) / (3 - 1) - 1))), !(ltb_f (Rabs ((2 - 1) / (3 - 1)))), !(ltb_f (Rabs ((2 - 1) / (3 - 1) - 1))) by abs_lra.
    rewrite !(ltb_f (Rabs ((1 - 0) / (2 - 0)))), !(ltb_f (Rabs ((1 - 0) / (2 - 0) - 1))), !(ltb_f (Rabs ((3 - 0) / (2 - 0)))), !(ltb_f (Rabs ((3 - 0) / (2 - 0) - 1))) by abs_lra. reflexivity.
  - intros x X. split; unfold covers; cbn; [exists (x / 2)|exists ((x - 1) / 2)]; repeat split; lra.
Qed.

Lemma tiny_missed : intersections tiny_h tiny_v = nothing INone /\ common tiny_h tiny_v (at2 0 0).
Proof.
  split.
  - change (intersections tiny_h tiny_v) with (check_lines tiny_h tiny_v). unfold check_lines, tiny_h, tiny_v, line_of, get_start, get_end, at2. cbn [s_cw s_start s_end px py pz]. cbv zeta.
    rewrite ltb_t by (unfold e6; abs_lra).
    rewrite (ltb_f e6) by (unfold e6; abs_lra).
    rewrite (leb_f (Rabs (4 / 10000 - -4 / 10000)) (Rabs (0 - 0))) by (rewrite (Rabs_right (0 - 0)) by lra; abs_lra).
    rewrite (leb_t (Rabs (0 - 0)) (Rabs (4 / 10000 - -4 / 10000))) by (rewrite (Rabs_right (0 - 0)) by lra; abs_lra).
    set (h := (0 - -4 / 10000) / (4 / 10000 - -4 / 10000)). assert (h = 1 / 2) as -> by (unfold h; field).
    unfold e8. rewrite !(ltb_f (Rabs (1 / 2))), !(ltb_f (Rabs (1 / 2 - 1))) by abs_lra. reflexivity.
  - split; unfold covers; cbn; exists (1 / 2); repeat split; lra.
Qed.

Lemma touch_edge : intersections seg01 seg12 = found [at2 1 0; at2 1 0] IEdge /\ forall p, common seg01 seg12 p -> same_place p (at2 1 0).
Proof.
  split.
  - change (intersections seg01 seg12) with (check_lines seg01 seg12). unfold check_lines, seg01, seg12, line_of, get_start, get_end, at2. cbn [s_cw s_start s_end px py pz]. cbv zeta.
    rewrite (ltb_t (Rabs ((2 - 1) * (0 - 0) - (0 - 0) * (1 - 0)))) by (unfold e6; abs_lra).
    rewrite (ltb_f e6) by (unfold e6; abs_lra).
    rewrite (leb_t (Rabs (0 - 0))) by (rewrite (Rabs_right (0 - 0)) by lra; abs_lra).
    rewrite (leb_t (Rabs (0 - 0)) (Rabs (1 - 0))) by (rewrite (Rabs_right (0 - 0)) by lra; abs_lra).
    unfold e8. rewrite !(ltb_f (Rabs ((0 - 1) / (2 - 1)))), !(ltb_f (Rabs ((0 - 1) / (2 - 1) - 1))), !(ltb_t (Rabs ((1 - 1) / (2 - 1)))) by abs_lra.
    rewrite !(ltb_f (Rabs ((1 - 0) / (1 - 0)))), !(ltb_t (Rabs ((1 - 0) / (1 - 0) - 1))), !(ltb_f (Rabs ((2 - 0) / (1 - 0)))), !(ltb_f (Rabs ((2 - 0) / (1 - 0) - 1))) by abs_lra. reflexivity.
  - intros p [A B]. unfold covers in A, B. cbn in A, B. destruct A as (t & T & X & Y). destruct B as (u & U & X2 & Y2). split; cbn; lra.
Qed.

Lemma plain_cross : line_in_order seg02 /\ line_in_order (line_of (at2 1 (-1)) (at2 1 2)) /\ e6 <= Rabs (cross seg02 (line_of (at2 1 (-1)) (at2 1 2))).
Proof.
  split; [apply lines_made|]. split; [apply line_is_made; try lra; right; unfold e8; rewrite Rabs_left; lra|].
  unfold cross, seg02, line_of, at2. cbn [px py s_start s_end]. unfold e6. rewrite Rabs_left; lra.
Qed.

(** ** An arc and a line *)

Lemma reach_seg01 : line_reach left_half seg01 = 4.
Proof. destruct left_half_angles as (_ & _ & R). unfold line_reach, reach, dist2. rewrite R. unfold seg01, line_of, at2, left_half, arc_of, origin. cbn. ring. Qed.

Lemma left_half_ok : arc_ok left_half.
Proof. destruct left_half_made as [M N]. exact (made_ok _ _ _ _ _ M N). Qed.

Lemma left_half_covers p : covers left_half p -> px p <= 0.
Proof.
  destruct left_half_angles as (SA & EA & R). unfold covers. change (s_ty left_half) with SArc. cbv iota. unfold start_angle, end_angle. change (s_cw left_half) with true. cbv iota.
  rewrite SA, EA, R. intros (w & W & [X _]). change (px (s_cen left_half)) with 0 in X. assert (cos w <= 0) by (apply cos_left; lra). lra.
Qed.

Lemma not_symmetric : intersections left_half seg01 = nothing INone /\ (forall p, ~ common left_half seg01 p) /\
  exists p f, intersections seg01 left_half = found [p] f /\ same_place p (at2 1 0).
Proof.
  destruct left_half_angles as (SA & EA & R). pose proof reach_seg01 as RC. pose proof left_half_ok as AO.
  assert (LO : line_in_order seg01) by apply lines_made.
  assert (ON : forall p, covers seg01 p -> dist p (s_cen left_half) = s_rad left_half -> same_place p (at2 1 0)).
  { intros p C D. unfold covers in C. cbn in C. destruct C as (t & T & X & Y). rewrite R in D. apply dist2_sq_dist in D; [|lra]. unfold dist2 in D. cbn in D. split; cbn; nra. }
  assert (NC : forall p, same_place p (at2 1 0) -> ~ covers left_half p).
  { intros p [X _] C. apply left_half_covers in C. cbn in X. lra. }
  split; [|split].
  - destruct (arc_line_spec left_half seg01 left_half seg01 (or_introl (conj eq_refl eq_refl)) AO LO) as (H & _).
    destruct H as (ps & (L & _) & _ & (f & I & _) & _); [rewrite RC; unfold e6; lra|]. destruct ps as [|p ps]; [exact I|]. exfalso.
    destruct (L p (or_introl eq_refl)) as (C & D & K). pose proof (ON p C D) as S. destruct K as [K|K]; [exact (NC p S K)|].
    destruct S as [X Y]. unfold end_near in K. rewrite X, Y in K. change (s_start left_half) with (at2 0 (-1)) in K. change (s_end left_half) with (at2 0 1) in K. cbn [px py at2] in K.
    rewrite Rminus_0_r, (Rabs_right 1) in K by lra. unfold e14 in K. lra.
  - intros p [A B]. assert (D : dist p (s_cen left_half) = s_rad left_half).
    { pose proof A as A'. unfold covers in A'. change (s_ty left_half) with SArc in A'. cbv iota in A'. destruct A' as (w & _ & O). apply dist2_sq_dist; [lra|]. apply on_round_dist in O. rewrite O. ring. }
    exact (NC p (ON p B D) A).
  - destruct (arc_line_spec seg01 left_half left_half seg01 (or_intror (conj eq_refl eq_refl)) AO LO) as (H & _).
    destruct H as (ps & (L & L2 & L3) & LE & (f & I & _) & _); [rewrite RC; unfold e6; lra|].
    assert (M : met seg01 left_half seg01 (at2 1 0)).
    { split; [unfold covers; cbn; exists 1; repeat split; lra|]. split; [rewrite R; apply dist_at2; [lra|ring]|]. right. right. cbn. rewrite !Rminus_diag_eq, Rabs_R0 by reflexivity. unfold e14. lra. }
    destruct (L2 _ M) as (q & IQ & _).
    assert (SP : forall p, In p ps -> same_place p (at2 1 0)) by (intros p IP; destruct (L p IP) as (C & D & _); now apply ON).
    destruct ps as [|p [|p' ps]]; [destruct IQ| |].
    + exists p, f. split; [exact I|]. apply SP. now left.
    + exfalso. assert (0%nat = 1%nat); [|discriminate]. apply (L3 0%nat 1%nat p p' eq_refl eq_refl).
      destruct (SP p (or_introl eq_refl)) as [X1 Y1]. destruct (SP p' (or_intror (or_introl eq_refl))) as [X2 Y2]. split; congruence.
Qed.

(* with one point on the arc the flag is that of the candidate met first: it depends on
   the direction in which the line was drawn *)
Definition quarter : seg := arc_of (at2 0 0) (at2 0 1) (at2 (-1) 0) false.
Lemma quarter_made : set_arc (at2 0 0) (at2 0 1) (at2 (-1) 0) false = (true, quarter) /\ arc_ok quarter /\ s_rad quarter = 1 /\ start_angle quarter = PI / 2 /\ end_angle quarter = PI.
Proof.
  destruct (arc_is_made 0 0 0 1 (-1) 0 false 1) as (M & _ & O & R); try lra.
  - right. rewrite Rabs_left; lra.
  - left. rewrite Rabs_right; lra.
  - right. rewrite Rabs_right; lra.
  - split; [exact M|]. split; [exact O|]. split; [exact R|]. unfold quarter, arc_of, start_angle, end_angle, at2. cbn [s_cw s_sang s_eang px py negb andb].
    replace (0 - 0) with 0 by ring. rewrite (atan2_up (1 - 0)), (atan2_lt (-1 - 0)) by lra. rewrite ltb_f by (pose proof PI_RGT_0; lra). split; reflexivity.
Qed.

Definition falling : seg := line_of (at2 (-1) 2) (at2 2 (-1)).
Definition rising : seg := line_of (at2 2 (-1)) (at2 (-1) 2).

Lemma slanted_made : line_in_order falling /\ line_in_order rising.
Proof. split; apply line_is_made; try lra; left; unfold e8; [rewrite Rabs_left|rewrite Rabs_right]; lra. Qed.

Lemma sqrt36 : sqrt 36 = 6.
Proof. replace 36 with (6 * 6) by ring. apply sqrt_square. lra. Qed.

Lemma slanted_places l : l = falling \/ l = rising -> place_list (s_cen quarter) (s_rad quarter) (s_start l) (s_end l) = [2 / 3; 1 / 3] /\ line_reach quarter l = 36.
Proof.
  destruct quarter_made as (_ & _ & R & _). intro H.
  assert (Q : qa (s_start l) (s_end l) = 18 /\ qb (s_cen quarter) (s_start l) (s_end l) = -18 /\ qd (s_cen quarter) (s_rad quarter) (s_start l) (s_end l) = 36).
  { unfold qd, qa, qb, qc. rewrite R. destruct H as [-> | ->]; unfold falling, rising, line_of, quarter, arc_of, at2; cbn [s_start s_end s_cen px py]; repeat split; ring. }
  destruct Q as (A & B & D).
  assert (R0 : root0 (s_cen quarter) (s_rad quarter) (s_start l) (s_end l) = 2 / 3) by (unfold root0; rewrite A, B, D, sqrt36; field).
  assert (R1 : root1 (s_cen quarter) (s_rad quarter) (s_start l) (s_end l) = 1 / 3) by (unfold root1; rewrite A, B, D, sqrt36; field).
  split.
  - unfold place_list. rewrite R0, R1. rewrite !leb_t by lra. reflexivity.
  - unfold line_reach. rewrite <- quad_D. exact D.
Qed.

Lemma quarter_covers p : covers quarter p -> px p <= 0.
Proof.
  destruct quarter_made as (_ & _ & R & SA & EA). unfold covers. change (s_ty quarter) with SArc. cbv iota. rewrite SA, EA, R. intros (w & W & [X _]).
  change (px (s_cen quarter)) with 0 in X. pose proof PI_RGT_0. assert (cos w <= 0) by (apply cos_left; lra). lra.
Qed.

Lemma flag_by_direction : (exists p, intersections quarter falling = found [p] IEndpoint /\ same_place p (s_start quarter)) /\
  (exists p, intersections quarter rising = found [p] INone /\ same_place p (s_start quarter)).
Proof.
  destruct quarter_made as (_ & AO & R & SA & EA). destruct slanted_made as [LF LR]. pose proof PI_RGT_0 as PP.
  assert (F1 : at_t (s_start falling) (s_end falling) (2 / 3) = at2 0 1) by (unfold falling, line_of, at_t, at2; cbn; f_equal; field).
  assert (F2 : at_t (s_start falling) (s_end falling) (1 / 3) = at2 1 0) by (unfold falling, line_of, at_t, at2; cbn; f_equal; field).
  assert (G1 : at_t (s_start rising) (s_end rising) (2 / 3) = at2 1 0) by (unfold rising, line_of, at_t, at2; cbn; f_equal; field).
  assert (G2 : at_t (s_start rising) (s_end rising) (1 / 3) = at2 0 1) by (unfold rising, line_of, at_t, at2; cbn; f_equal; field).
  assert (Y : forall lS lE t, at_t lS lE t = at2 0 1 -> arc_hit quarter quarter lS lE t = true).
  { intros lS lE t E. apply arc_hit_spec; [exact AO|rewrite E, R; unfold dist2, at2; cbn; ring|]. left. rewrite E. unfold covers. change (s_ty quarter) with SArc. cbv iota. rewrite SA, EA, R.
    exists (PI / 2). split; [lra|]. unfold on_round. rewrite cos_PI2, sin_PI2. cbn. split; ring. }
  assert (N : forall lS lE t, at_t lS lE t = at2 1 0 -> arc_hit quarter quarter lS lE t = false).
  { intros lS lE t E. destruct (arc_hit quarter quarter lS lE t) eqn:Q; [|reflexivity]. exfalso.
    apply arc_hit_spec in Q; [|exact AO|rewrite E, R; unfold dist2, at2; cbn; ring]. rewrite E in Q. destruct Q as [Q|Q].
    - apply quarter_covers in Q. cbn in Q. lra.
    - unfold end_near in Q. change (s_start quarter) with (at2 0 1) in Q. change (s_end quarter) with (at2 (-1) 0) in Q. cbn [px py at2] in Q. rewrite (Rabs_right (1 - 0)), (Rabs_right (1 - -1)) in Q by lra. unfold e14 in Q. lra. }
  split.
  - destruct (slanted_places falling (or_introl eq_refl)) as [PL RC].
    rewrite (arc_line_core quarter falling quarter falling (or_introl (conj eq_refl eq_refl)) AO LF). cbv zeta. rewrite RC.
    rewrite (ltb_f 36 0), (ltb_f (Rabs 36)) by (rewrite ?Rabs_right; unfold e6; lra). rewrite PL. cbn [filter]. rewrite (Y _ _ _ F1), (N _ _ _ F2).
    exists (at2 0 1). rewrite F1. split; [|split; reflexivity]. unfold arc_mark. change (segty_eqb (s_ty quarter) SArc || segty_eqb (s_ty quarter) SCircle) with true. cbv iota. rewrite F1.
    change (s_start quarter) with (at2 0 1). rewrite (proj2 (point_matches_spec _ _ _) (one_point_refl (at2 0 1) e8)). reflexivity.
  - destruct (slanted_places rising (or_intror eq_refl)) as [PL RC].
    rewrite (arc_line_core quarter rising quarter rising (or_introl (conj eq_refl eq_refl)) AO LR). cbv zeta. rewrite RC.
    rewrite (ltb_f 36 0), (ltb_f (Rabs 36)) by (rewrite ?Rabs_right; unfold e6; lra). rewrite PL. cbn [filter]. rewrite (Y _ _ _ G2), (N _ _ _ G1).
    exists (at2 0 1). rewrite G2. split; [|split; reflexivity]. unfold arc_mark. change (segty_eqb (s_ty quarter) SArc || segty_eqb (s_ty quarter) SCircle) with true. cbv iota. rewrite G1.
    change (s_start quarter) with (at2 0 1). change (s_end quarter) with (at2 (-1) 0).
    rewrite (proj2 (point_matches_not (at2 1 0) (at2 0 1) e8)) by (apply apart_x; try reflexivity; try (apply not_far; lra); cbn; rewrite Rabs_right; lra).
    rewrite (proj2 (point_matches_not (at2 1 0) (at2 (-1) 0) e8)) by (apply apart_x; try reflexivity; try (apply not_far; lra); cbn; rewrite Rabs_right; lra).
    unfold e8. rewrite !ltb_f by abs_lra. reflexivity.
Qed.

Definition circle8 : seg := mkSeg SCircle 5 0 (2 * PI) false (at2 8 0) (at2 13 0) (at2 13 0).
Definition circle3 : seg := mkSeg SCircle 3 0 (2 * PI) false (at2 1 0) (at2 4 0) (at2 4 0).
Lemma circles_case : full_circle circle5 /\ full_circle circle8 /\ full_circle circle3 /\
  (exists p q, intersections circle5 circle8 = found [p; q] INone /\ same_place p (at2 4 3) /\ same_place q (at2 4 (-3))) /\
  intersections circle5 circle3 = nothing IEncircles /\ intersections circle3 circle5 = nothing IInside.
Proof.
  assert (F8 : full_circle circle8) by (split; [reflexivity|]; cbn; repeat split; lra).
  assert (F3 : full_circle circle3) by (split; [reflexivity|]; cbn; repeat split; lra).
  pose proof circle5_full as F5. split; [exact F5|]. split; [exact F8|]. split; [exact F3|].
  assert (D3 : dist (s_cen circle5) (s_cen circle3) = 1 /\ dist (s_cen circle3) (s_cen circle5) = 1) by (split; apply dist_at2; lra).
  assert (D8 : dist (s_cen circle5) (s_cen circle8) = 8) by (apply dist_at2; lra).
  split; [|split].
  - destruct (circles_spec circle5 circle8 F5 F8) as (_ & _ & _ & _ & _ & H). rewrite D8 in H. cbn [s_rad circle5 circle8] in H.
    destruct (clear8 circle8 eq_refl eq_refl) as (_ & NT & NA & _).
    destruct H as (p & q & I & (L1 & L2 & L3) & B); try assumption; try lra. exists p, q. split; [exact I|].
    assert (K : forall v, common circle5 circle8 v -> px v = 4 /\ (py v = 3 \/ py v = -3)).
    { intros v [A C]. apply covers_circle in A; [|reflexivity|cbn; lra]. apply covers_circle in C; [|reflexivity|cbn; lra]. apply (d8 v circle8 eq_refl eq_refl). split; assumption. }
    destruct (K p (L1 p (or_introl eq_refl))) as [PX PY]. destruct (K q (L1 q (or_intror (or_introl eq_refl)))) as [QX QY].
    assert (NE : py p <> py q) by (intro E; assert (0%nat = 1%nat) by (apply (L3 0%nat 1%nat p q eq_refl eq_refl); split; congruence); discriminate).
    assert (PY3 : py p = 3).
    { destruct PY as [PY|PY]; [exact PY|]. exfalso. assert (QY3 : py q = 3) by lra. destruct B as (v & w & (V & r & R & [VX VY]) & (W & r' & R' & [WX WY]) & LT).
      cbn in VY, WY. rewrite Rplus_0_l in V, W. pose proof PI_RGT_0.
      assert (S1 : sin v < 0) by nra. assert (S2 : 0 < sin w) by nra.
      assert (PI < v) by (destruct (Rlt_dec PI v); [assumption|]; pose proof (sin_ge_0 v ltac:(lra) ltac:(lra)); lra).
      assert (sin w <= 0) by (apply sin_le_0; lra). lra. }
    split; split; cbn; try lra.
  - destruct (circles_spec circle5 circle3 F5 F3) as (_ & _ & _ & H & _). destruct D3 as [D3 _]. unfold alike, touching in H. rewrite D3 in H. cbn [s_rad circle5 circle3] in H. unfold e3 in H.
    apply H; try lra; [intros [_ K]; rewrite Rabs_right in K; lra|rewrite Rabs_left; lra].
  - destruct (circles_spec circle3 circle5 F3 F5) as (_ & _ & _ & _ & H & _). destruct D3 as [_ D3]. unfold alike, touching in H. rewrite D3 in H. cbn [s_rad circle5 circle3] in H. unfold e3 in H.
    apply H; try lra; [intros [_ K]; rewrite Rabs_left in K; lra|rewrite Rabs_left; lra].
Qed.

Lemma circle_lines_case : full_circle circle5 /\ line_in_order (line_of (at2 (-6) 3) (at2 6 3)) /\ e6 <= line_reach circle5 (line_of (at2 (-6) 3) (at2 6 3)) /\
  line_in_order (line_of (at2 (-6) 5) (at2 6 5)) /\ line_reach circle5 (line_of (at2 (-6) 5) (at2 6 5)) = 0 /\
  line_in_order (line_of (at2 (-6) 7) (at2 6 7)) /\ line_reach circle5 (line_of (at2 (-6) 7) (at2 6 7)) <= - e6.
Proof.
  split; [exact circle5_full|].
  assert (L : forall y, -1000 <= y <= 1000 -> line_in_order (line_of (at2 (-6) y) (at2 6 y))) by (intros y Y; apply line_is_made; try lra; left; unfold e8; rewrite Rabs_left; lra).
  assert (R : forall y, line_reach circle5 (line_of (at2 (-6) y) (at2 6 y)) = 576 * (25 - y * y)) by (intro y; unfold line_reach, reach, dist2, circle5, line_of, at2; cbn; ring).
  rewrite !R. unfold e6. repeat split; try (apply L; lra); lra.
Qed.
