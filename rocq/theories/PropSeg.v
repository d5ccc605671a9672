(** The claims about the pieces of outlines (C94-C100), each with a concrete case. *)

From Coq Require Import Reals Lra List Bool.
From Verif Require Import SegModel SegSpec SegTrig SegFacts SegBox SegSplit SegSplitArc SegProps.
Import ListNotations.
Open Scope R_scope.

(** ** C94 *)

(** When two points count as one. *)
Theorem c94_matching : forall p q res,
  (point_matches p q res = true <-> one_point p q res) /\ one_point p p res /\ (one_point p q res -> one_point q p res).
Proof. exact (fun p q res => conj (point_matches_spec p q res) (conj (one_point_refl p res) (one_point_sym p q res))). Qed.
Print Assumptions c94_matching.

(** It is not transitive. *)
Theorem c94_not_transitive : exists p q r, point_matches p q e8 = true /\ point_matches q r e8 = true /\ point_matches p r e8 = false.
Proof. exact matching_not_transitive. Qed.
Print Assumptions c94_not_transitive.

(** A line is accepted between two points of the plane which do not count as one;
    otherwise the segment is empty. *)
Theorem c94_lines : forall a b, exists s,
  (set_line a b = (true, s) /\ in_plane a /\ in_plane b /\ ~ one_point a b e8 /\ line_in_order s /\ s_start s = a /\ s_end s = b) \/
  (set_line a b = (false, s) /\ s = seg_init /\ ~ (in_plane a /\ in_plane b /\ ~ one_point a b e8)).
Proof. exact set_line_claim. Qed.
Print Assumptions c94_lines.

(** An arc is accepted when both ends are at the same distance from the centre, up to
    1e-8, or count as one point; otherwise the segment is empty. *)
Theorem c94_arcs : forall c a b cw, exists s,
  (set_arc c a b cw = (true, s) /\ arc_asked c a b) \/ (set_arc c a b cw = (false, s) /\ s = seg_init /\ ~ arc_asked c a b).
Proof. exact set_arc_claim. Qed.
Print Assumptions c94_arcs.

Example c94_arcs_case : set_arc origin (at2 0 (-1)) (at2 0 1) true = (true, left_half).
Proof. exact (proj1 left_half_made). Qed.

(** ** C95 *)

(** An accepted arc is the one asked for. *)
Theorem c95_arc : forall c a b cw s, set_arc c a b cw = (true, s) -> ~ one_point a b e8 ->
  s_ty s = SArc /\ s_cen s = c /\ s_start s = a /\ s_end s = b /\ s_cw s = cw /\ s_rad s = dist a c /\
  arc_in_order e8 s /\ start_angle s <= PI /\ course s 0 a /\
  (if cw then s_eang s < s_sang s < s_eang s + 2 * PI else s_sang s < s_eang s < s_sang s + 2 * PI).
Proof. exact arc_made. Qed.
Print Assumptions c95_arc.

(** When both ends count as one point it is the whole circle; the orientation asked
    for is not kept and the start is to the right of the centre. *)
Theorem c95_circle : forall c a b cw s, set_arc c a b cw = (true, s) -> one_point a b e8 ->
  circle_in_order s /\ s_cen s = c /\ s_rad s = dist a c /\ s_cw s = false /\ covers s a /\
  s_start s = s_end s /\ same_place (s_start s) (mkPt (px c + dist a c) (py c) 0).
Proof. exact circle_made. Qed.
Print Assumptions c95_circle.

Example c95_arc_case : s_sang left_half = 3 / 2 * PI /\ s_eang left_half = PI / 2 /\ s_rad left_half = 1.
Proof. exact left_half_angles. Qed.

(** ** C96 *)

(** The box of an arc contains it and is not larger than needed, up to the distance of
    the recorded ends from the circle. *)
Theorem c96_arc_box : forall d s p0 p1, arc_in_order d s -> exists b, get_box s p0 p1 = (true, b) /\
  (forall p, covers s p -> px (fst b) - d <= px p <= px (snd b) + d /\ py (fst b) - d <= py p <= py (snd b) + d) /\
  (exists p, covers s p /\ px p - d <= px (fst b)) /\ (exists p, covers s p /\ px (snd b) <= px p + d) /\
  (exists p, covers s p /\ py p - d <= py (fst b)) /\ (exists p, covers s p /\ py (snd b) <= py p + d).
Proof. exact arc_box_bounds. Qed.
Print Assumptions c96_arc_box.

Theorem c96_circle_box : forall s p0 p1, s_ty s = SCircle -> 0 < s_rad s -> exists b, get_box s p0 p1 = (true, b) /\
  (forall p, covers s p -> px (fst b) <= px p <= px (snd b) /\ py (fst b) <= py p <= py (snd b)) /\
  (exists p, covers s p /\ px p = px (fst b)) /\ (exists p, covers s p /\ px p = px (snd b)) /\
  (exists p, covers s p /\ py p = py (fst b)) /\ (exists p, covers s p /\ py p = py (snd b)).
Proof. exact circle_box_bounds. Qed.
Print Assumptions c96_circle_box.

(** A line which runs almost straight up may stick out by less than 1e-8. *)
Theorem c96_line_box : forall s p0 p1, s_ty s = SLine -> exists b, get_box s p0 p1 = (true, b) /\
  (exists d, 0 <= d < e8 /\ (e8 <= Rabs (px (s_start s) - px (s_end s)) -> d = 0) /\
    forall p, covers s p -> px (fst b) - d <= px p <= px (snd b) + d /\ py (fst b) <= py p <= py (snd b)) /\
  (exists p, covers s p /\ px p = px (fst b)) /\ (exists p, covers s p /\ px p = px (snd b)) /\
  (exists p, covers s p /\ py p = py (fst b)) /\ (exists p, covers s p /\ py p = py (snd b)).
Proof. exact line_box_bounds. Qed.
Print Assumptions c96_line_box.

(* the left half of the unit circle is an arc in order *)
Example c96_arc_box_case : arc_in_order e8 left_half.
Proof. destruct left_half_made as [M N]. now destruct (arc_made _ _ _ _ _ M N) as (_ & _ & _ & _ & _ & _ & O & _). Qed.

(** ** C97 *)

(** Reversing swaps the ends and the direction and nothing else. *)
Theorem c97_reverse : forall s, s_ty s = SLine \/ s_ty s = SArc ->
  s_ty (reverse s) = s_ty s /\ s_start (reverse s) = s_end s /\ s_end (reverse s) = s_start s /\
  s_cw (reverse s) = (if segty_eqb (s_ty s) SArc then negb (s_cw s) else s_cw s) /\
  (forall t p, course (reverse s) t p <-> course s (1 - t) p) /\
  (forall p, covers (reverse s) p <-> covers s p) /\ get_length (reverse s) = get_length s.
Proof. exact reverse_facts. Qed.
Print Assumptions c97_reverse.

Theorem c97_twice : forall s, reverse (reverse s) = s /\ (s_ty s = SCircle \/ s_ty s = SNone -> reverse s = s).
Proof. exact (fun s => conj (reverse_twice s) (reverse_round s)). Qed.
Print Assumptions c97_twice.

(** The box and what the functions giving the ends of an arc counterclockwise say stay
    the same. *)
Theorem c97_box : forall s p0 p1, line_in_order s \/ s_ty s = SArc -> get_box (reverse s) p0 p1 = get_box s p0 p1.
Proof. exact reverse_box. Qed.
Print Assumptions c97_box.

Theorem c97_getters : forall s, s_ty s = SArc ->
  start_angle (reverse s) = start_angle s /\ end_angle (reverse s) = end_angle s /\
  get_start (reverse s) = get_start s /\ get_end (reverse s) = get_end s.
Proof. exact reverse_arc_getters. Qed.
Print Assumptions c97_getters.

(** The midpoint is reached after half of the way. *)
Theorem c97_midpoint : forall s p, s_ty s = SLine \/ s_ty s = SArc ->
  exists m, get_midpoint s p = (true, m) /\ course s (1 / 2) m /\ exists m', get_midpoint (reverse s) p = (true, m') /\ same_place m m'.
Proof. exact midpoint_facts. Qed.
Print Assumptions c97_midpoint.

(** That of a circle is the point where it starts. *)
Theorem c97_circle_midpoint : forall s p, s_ty s = SCircle ->
  get_midpoint s p = (true, mkPt (px (s_cen s) + s_rad s) (py (s_cen s)) (pz (s_cen s))).
Proof. exact midpoint_round. Qed.
Print Assumptions c97_circle_midpoint.

Theorem c97_length : forall s,
  (s_ty s = SLine -> get_length s = dist (s_start s) (s_end s)) /\
  (s_ty s = SArc -> get_length s = s_rad s * (end_angle s - start_angle s)) /\
  (s_ty s = SCircle -> get_length s = 2 * PI * s_rad s).
Proof. exact length_facts. Qed.
Print Assumptions c97_length.

Example c97_case : get_length left_half = PI /\ s_start (reverse left_half) = at2 0 1.
Proof.
  split; [|reflexivity]. rewrite (proj1 (proj2 (length_facts left_half)) eq_refl). unfold start_angle, end_angle.
  destruct left_half_angles as (A & B & C). change (s_cw left_half) with true. cbv iota. rewrite A, B, C. field.
Qed.

(** ** C98 *)

(** A segment which cannot be split stays as it was and nothing new is made. *)
Theorem c98_refused : forall s ps ok ps' s' n, split s ps = (ok, (ps', (s', n))) -> ok = false -> s' = s /\ n = [].
Proof. exact split_keeps. Qed.
Print Assumptions c98_refused.

(** The pieces of a line lead from its start through the points given, in the order in
    which they lie on it, to its end. *)
Theorem c98_pieces : forall s ps ps' s' n,
  line_in_order s -> (forall p, In p ps -> in_plane p) ->
  split s ps = (true, (ps', (s', n))) ->
  (forall p q, ps' = [p; q] -> ~ one_point p q e8) ->
  ps' = filter (fun p => negb (point_matches p (s_start s) e8 || point_matches p (s_end s) e8)) ps /\
  (1 <= length ps' <= 2)%nat /\ length n = length ps' /\
  chained (s_start s) (s' :: n) (s_end s) /\
  (forall x, In x (s' :: n) -> line_in_order x) /\
  exists ts, length ts = length ps' /\ (forall t, In t ts -> 0 <= t <= 1) /\
    (forall i j, (i < j < length ts)%nat -> nth i ts 0 <= nth j ts 0) /\
    (forall i, (i < length ts)%nat -> near_course s (nth i ts 0) (s_end (nth i (s' :: n) seg_init))) /\
    (forall p, In p ps' <-> exists i, (i < length ts)%nat /\ p = s_end (nth i (s' :: n) seg_init)).
Proof. exact split_line_pieces. Qed.
Print Assumptions c98_pieces.

(** One or two points of the line are accepted unless all of them are its ends. *)
Theorem c98_accepted : forall s ps, line_in_order s -> (length ps = 1 \/ length ps = 2)%nat ->
  (forall p, In p ps -> covers s p) -> (exists p, In p ps /\ ~ at_end s p) -> fst (split s ps) = true.
Proof. exact split_line_accepts. Qed.
Print Assumptions c98_accepted.

(** Two points which count as one give an empty segment between them. *)
Theorem c98_hollow : forall s ps p q s' n, line_in_order s ->
  split s ps = (true, ([p; q], (s', n))) -> one_point p q e8 -> nth 0 n (mkSeg SLine 0 0 0 false origin origin origin) = seg_init.
Proof. exact split_line_hollow. Qed.
Print Assumptions c98_hollow.

Definition line_ex : seg := mkSeg SLine 0 0 0 false origin (at2 0 0) (at2 10 5).
Example c98_case : line_in_order line_ex /\ fst (split line_ex [at2 8 4; at2 2 1]) = true /\ fst (split line_ex [at2 2 1; at2 2 1]) = true.
Proof.
  assert (N : forall x y u v, 0 <= x <= 10 -> 0 <= y <= 10 -> 0 <= u <= 10 -> 0 <= v <= 10 -> x + 1 <= u -> ~ one_point (at2 x y) (at2 u v) e8).
  { intros. apply apart_x; try reflexivity; try (apply not_far; lra). cbn. rewrite Rabs_left; lra. }
  assert (O : line_in_order line_ex) by (repeat split; apply N; lra).
  assert (C : forall t, 0 <= t <= 1 -> covers line_ex (at2 (10 * t) (5 * t))) by (intros t T; exists t; cbn; split; [lra|split; ring]).
  assert (C2 : covers line_ex (at2 2 1)) by (replace (at2 2 1) with (at2 (10 * (1 / 5)) (5 * (1 / 5))) by (unfold at2; f_equal; field); apply C; lra).
  assert (C8 : covers line_ex (at2 8 4)) by (replace (at2 8 4) with (at2 (10 * (4 / 5)) (5 * (4 / 5))) by (unfold at2; f_equal; field); apply C; lra).
  assert (E : ~ at_end line_ex (at2 2 1)) by (intros [H|H]; [apply one_point_sym in H|]; revert H; apply N; cbn; lra).
  split; [exact O|]. split; apply split_line_accepts; try exact O; try (now right).
  - intros p [<-|[<-|[]]]; assumption.
  - exists (at2 2 1). split; [right; now left|exact E].
  - intros p [<-|[<-|[]]]; assumption.
  - exists (at2 2 1). split; [now left|exact E].
Qed.

(** ** C99 *)

(** The pieces of an arc whose angles are in range lead from its start through the
    points given to its end, turn the same way, cover what it covered, and their
    lengths add up to its length. *)
Theorem c99_pieces : forall d s ps ps' s' n, arc_in_order d s -> start_angle s <= PI ->
  split s ps = (true, (ps', (s', n))) ->
  ps' = filter (fun p => negb (point_matches p (s_start s) e8 || point_matches p (s_end s) e8)) ps /\
  (1 <= length ps' <= 2)%nat /\ length n = length ps' /\ chained (s_start s) (s' :: n) (s_end s) /\
  (forall x, In x (s' :: n) -> s_ty x = SArc /\ s_cw x = s_cw s /\ s_cen x = s_cen s /\ s_rad x = s_rad s) /\
  (forall p, In p ps' <-> exists i, (i < length ps')%nat /\ p = s_end (nth i (s' :: n) seg_init)) /\
  (forall p, In p ps' -> Rabs (dist2 p (s_cen s) - s_rad s * s_rad s) <= e8) /\
  (forall p, covers s p <-> exists x, In x (s' :: n) /\ covers x p) /\
  total_length (s' :: n) = get_length s /\
  (forall x, In x (s' :: n) -> 0 <= get_length x) /\
  (forall x, In x (s' :: n) -> 0 < get_length x -> arc_in_order (Rmax d (e8 / s_rad s)) x) /\
  (forall x, In x n -> 0 < get_length x -> start_angle x <= PI) /\ (s_cw s = false -> start_angle s' <= PI).
Proof. exact split_arc_pieces. Qed.
Print Assumptions c99_pieces.

Theorem c99_accepted : forall d s ps, arc_in_order d s -> start_angle s <= PI -> (length ps = 1 \/ length ps = 2)%nat ->
  (forall p, In p ps -> covers s p) -> (exists p, In p ps /\ ~ at_end s p) -> fst (split s ps) = true.
Proof. exact split_arc_accepts. Qed.
Print Assumptions c99_accepted.

(** The first piece of a clockwise arc may begin beyond pi.  A point between pi and its
    beginning is then accepted although it does not lie on it, and the new piece has a
    negative length. *)
Theorem c99_beyond : forall d s w q, arc_in_order d s -> s_cw s = true -> PI < w < start_angle s -> on_round (s_cen s) (s_rad s) w q -> ~ at_end s q ->
  ~ covers s q /\ exists s' n, split s [q] = (true, ([q], (s', [n]))) /\ get_length n < 0.
Proof.
  intros d s w q O C W R E. destruct (split_arc_beyond d s w q O C W R E) as (N & S & L).
  exact (conj N (ex_intro _ _ (ex_intro _ _ (conj S L)))).
Qed.
Print Assumptions c99_beyond.

(** Such a piece: the left half of the unit circle, clockwise, split at 240 degrees and
    what is left of it at 210 degrees. *)
Theorem c99_beyond_reached : exists s1 n1 s2 n2,
  split left_half [on_unit (4 / 3 * PI)] = (true, ([on_unit (4 / 3 * PI)], (s1, [n1]))) /\
  split s1 [on_unit (7 / 6 * PI)] = (true, ([on_unit (7 / 6 * PI)], (s2, [n2]))) /\
  ~ covers s1 (on_unit (7 / 6 * PI)) /\ get_length n2 < 0.
Proof. exact left_half_split. Qed.
Print Assumptions c99_beyond_reached.

Example c99_case : arc_in_order e8 left_half /\ start_angle left_half <= PI.
Proof. destruct left_half_made as [M N]. now destruct (arc_made _ _ _ _ _ M N) as (_ & _ & _ & _ & _ & _ & O & P & _). Qed.

(** ** C100 *)

(** A circle is split at exactly two points into two counterclockwise arcs between
    them; they cover it, unless both points have the same bearing from the centre. *)
Theorem c100_pieces : forall s ps ps' s' n, circle_in_order s -> split s ps = (true, (ps', (s', n))) ->
  exists p q x, ps = [p; q] /\ ps' = ps /\ n = [x] /\
  s_ty x = SArc /\ s_cw x = false /\ s_cen x = s_cen s /\ s_rad x = s_rad s /\ s_start x = p /\ s_end x = q /\
  s_ty s' = SArc /\ s_cw s' = false /\ s_cen s' = s_cen s /\ s_rad s' = s_rad s /\ s_start s' = q /\ s_end s' = p /\
  (forall v, In v ps -> Rabs (dist2 v (s_cen s) - s_rad s * s_rad s) <= e8) /\
  (bearing s p <> bearing s q ->
     (forall v, covers s v <-> covers s' v \/ covers x v) /\ get_length s' + get_length x = get_length s /\
     0 < get_length s' /\ 0 < get_length x /\
     (forall y, y = s' \/ y = x -> arc_in_order (e8 / s_rad s) y /\ start_angle y <= PI)) /\
  (bearing s p = bearing s q -> get_length s' = 0 /\ get_length x = 0).
Proof. exact split_circle_pieces. Qed.
Print Assumptions c100_pieces.

Theorem c100_accepted : forall s p q, circle_in_order s -> covers s p -> covers s q ->
  (e8 <= Rabs (px p - px q) \/ e8 <= Rabs (py p - py q)) -> fst (split s [p; q]) = true.
Proof. exact split_circle_accepts. Qed.
Print Assumptions c100_accepted.

(** From a radius of 2 on the bearings differ. *)
Theorem c100_wide : forall s p q, circle_in_order s -> 2 <= s_rad s -> fst (split s [p; q]) = true -> bearing s p <> bearing s q.
Proof. exact split_circle_wide. Qed.
Print Assumptions c100_wide.

(** A small circle can be lost. *)
Theorem c100_lost : exists p q s' x, circle_in_order small_circle /\ covers small_circle p /\
  split small_circle [p; q] = (true, ([p; q], (s', [x]))) /\ get_length s' = 0 /\ get_length x = 0 /\ get_length small_circle = PI / 2.
Proof. exact small_circle_gone. Qed.
Print Assumptions c100_lost.

Definition wide_circle : seg := mkSeg SCircle 5 0 (2 * PI) false origin (at2 5 0) (at2 5 0).
Example c100_case : circle_in_order wide_circle /\ fst (split wide_circle [at2 3 4; at2 (-4) 3]) = true.
Proof.
  assert (O : circle_in_order wide_circle) by (split; [reflexivity|cbn; lra]). split; [exact O|].
  apply split_circle_accepts; [exact O|unfold covers, dist2; cbn; lra|unfold covers, dist2; cbn; lra|].
  left. cbn. rewrite Rabs_pos_eq; unfold e8; lra.
Qed.
