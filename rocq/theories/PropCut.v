(** The claims about where two pieces of outlines meet (C101-C104), each with a concrete
    case. *)

From Coq Require Import Reals Lra List Bool.
From Verif Require Import SegModel SegSpec SegTrig SegFacts SegSplit SegSplitArc SegProps CutModel CutSpec CutCircle CutArc CutLine CutArcLine CutCases CutTouch.
Import ListNotations.
Open Scope R_scope.

(** ** C101 *)

(** Two circles. *)
Theorem c101_two_circles : forall s o, full_circle s -> full_circle o ->
  let d := dist (s_cen s) (s_cen o) in
  let r := s_rad s in let r2 := s_rad o in
  (r + r2 < d -> intersections s o = nothing INone /\ forall p, ~ common s o p) /\
  (d <= r + r2 -> alike s o -> intersections s o = nothing IIdent) /\
  (d <= r + r2 -> ~ alike s o -> touching s o -> intersections s o = nothing ITangent) /\
  (d <= r + r2 -> ~ alike s o -> ~ touching s o -> d <= r - r2 -> intersections s o = nothing IEncircles /\ forall p, covers o p -> dist p (s_cen s) <= r) /\
  (d <= r + r2 -> ~ alike s o -> ~ touching s o -> d <= r2 - r -> intersections s o = nothing IInside /\ forall p, covers s p -> dist p (s_cen o) <= r2) /\
  (d <= r + r2 -> ~ alike s o -> ~ touching s o -> r - r2 < d -> r2 - r < d ->
     exists p q, intersections s o = found [p; q] INone /\ lists [p; q] (common s o) /\ before (s_cen s) 0 p q).
Proof. exact circles_spec. Qed.
Print Assumptions c101_two_circles.

Example c101_case : full_circle circle5 /\ full_circle circle8 /\ full_circle circle3 /\
  (exists p q, intersections circle5 circle8 = found [p; q] INone /\ same_place p (at2 4 3) /\ same_place q (at2 4 (-3))) /\
  intersections circle5 circle3 = nothing IEncircles /\ intersections circle3 circle5 = nothing IInside.
Proof. exact circles_case. Qed.

(** ** C102 *)

(** When one of the two is an arc and the circles they belong to do not meet, nothing is
    found and there is nothing to be found. *)
Theorem c102_apart : forall s o, round_ok s -> round_ok o -> (s_ty s = SArc \/ s_ty o = SArc) ->
  let d := dist (s_cen s) (s_cen o) in
  (s_rad s + s_rad o < d \/ d + s_rad o < s_rad s \/ d + s_rad s < s_rad o) -> intersections s o = nothing INone /\ forall p, ~ common s o p.
Proof. exact arcs_apart. Qed.
Print Assumptions c102_apart.

(** When the circles cross, the points found are those which the code sees: the range of
    the second arc is applied to the angle about the centre of the first. *)
Theorem c102_points : forall s o, round_ok s -> round_ok o -> (s_ty s = SArc \/ s_ty o = SArc) -> clear s o ->
  (s_ty s = SArc -> s_ty o = SArc -> ~ ends_match s o) ->
  let d := dist (s_cen s) (s_cen o) in
  s_rad s < d + s_rad o -> s_rad o < d + s_rad s ->
  exists l, lists l (seen s o) /\ (length l <= 2)%nat /\
    intersections s o = (match l with [] => nothing INone | _ => found l INone end) /\
    (forall p q, l = [p; q] -> before (s_cen s) (start_angle s) p q).
Proof. exact arcs_points. Qed.
Print Assumptions c102_points.

(** They are the common points when the second is a circle. *)
Theorem c102_arc_then_circle : forall s o p, arc_ok s -> full_circle o -> seen s o p <-> common s o p.
Proof. exact seen_common. Qed.
Print Assumptions c102_arc_then_circle.

(** Arcs which touch from outside: nothing is found, and they are flagged tangent exactly
    if each extends towards the centre of the other. *)
Theorem c102_touching : forall s o, round_ok s -> round_ok o -> (s_ty s = SArc \/ s_ty o = SArc) -> touching s o ->
  dist (s_cen s) (s_cen o) <= s_rad s + s_rad o -> s_rad s <= dist (s_cen s) (s_cen o) + s_rad o -> s_rad o <= dist (s_cen s) (s_cen o) + s_rad s ->
  e3 < s_rad s + s_rad o ->
  (faces s (s_cen o) /\ faces o (s_cen s) -> intersections s o = nothing ITangent) /\
  (~ (faces s (s_cen o) /\ faces o (s_cen s)) -> intersections s o = nothing INone).
Proof. exact arcs_touching. Qed.
Print Assumptions c102_touching.

Example c102_touching_case : arc_ok left10 /\ touching circle5 left10 /\ e3 < s_rad circle5 + s_rad left10 /\ faces circle5 (s_cen left10) /\ faces left10 (s_cen circle5) /\
  intersections circle5 left10 = nothing ITangent.
Proof. exact left10_case. Qed.

(** A circle and an arc of it share the arc. *)
Theorem c102_circle_and_its_arc : forall s o, round_ok s -> round_ok o -> alike s o -> ~ touching s o ->
  dist (s_cen s) (s_cen o) <= s_rad s + s_rad o -> s_rad s <= dist (s_cen s) (s_cen o) + s_rad o -> s_rad o <= dist (s_cen s) (s_cen o) + s_rad s ->
  (s_ty s = SCircle -> s_ty o = SArc -> intersections s o = found [get_start o; get_end o] IEdge) /\
  (s_ty s = SArc -> s_ty o = SCircle -> intersections s o = found [get_start s; get_end s] IEdge).
Proof. exact circle_and_its_arc. Qed.
Print Assumptions c102_circle_and_its_arc.

Example c102_circle_arc_case : full_circle circle8 /\ arc_ok left8 /\ alike circle8 left8 /\ ~ touching circle8 left8.
Proof. exact circle_arc_case. Qed.

(** Two arcs between the same points are inside or outside of each other. *)
Theorem c102_same_ends : forall s o, arc_ok s -> arc_ok o -> clear s o -> ends_match s o ->
  (s_rad s < s_rad o /\ (exists m, course s (1 / 2) m /\ dist m (s_cen o) < s_rad o) -> intersections s o = found [get_start s; get_end s] IInside) /\
  (~ (s_rad s < s_rad o /\ (exists m, course s (1 / 2) m /\ dist m (s_cen o) < s_rad o)) -> intersections s o = found [get_start s; get_end s] IOutside).
Proof. exact arcs_same_ends. Qed.
Print Assumptions c102_same_ends.

Example c102_same_ends_case : arc_ok left8 /\ arc_ok flat13 /\ clear left8 flat13 /\ ends_match left8 flat13.
Proof. exact flat13_case. Qed.

(** When the second is an arc they need not be: both points are missed. *)
Theorem c102_missed : set_arc (at2 8 0) (at2 8 5) (at2 8 (-5)) false = (true, left8) /\ full_circle circle5 /\
  common circle5 left8 (at2 4 3) /\ common circle5 left8 (at2 4 (-3)) /\ intersections circle5 left8 = nothing INone.
Proof. exact (conj (proj1 left8_missed) (conj circle5_full (proj2 left8_missed))). Qed.
Print Assumptions c102_missed.

(** Or both are made up. *)
Theorem c102_made_up : set_arc (at2 8 0) (at2 8 (-5)) (at2 8 5) false = (true, right8) /\ (forall p, ~ common circle5 right8 p) /\
  exists p q, intersections circle5 right8 = found [p; q] INone /\ px p = 4 /\ px q = 4 /\ py p <> py q.
Proof. exact right8_found. Qed.
Print Assumptions c102_made_up.

(** Two arcs of one circle which overlap: neither end reported belongs to both. *)
Theorem c102_overlap : set_arc (at2 0 0) (at2 0 (-1)) (at2 0 1) false = (true, half_right) /\
  set_arc (at2 0 0) (at2 1 0) (at2 (-1) 0) false = (true, half_upper) /\
  intersections half_right half_upper = found [at2 0 (-1); at2 (-1) 0] IEdge /\
  ~ covers half_upper (at2 0 (-1)) /\ ~ covers half_right (at2 (-1) 0) /\ (forall w, 0 <= w <= PI / 2 -> common half_right half_upper (on_unit w)).
Proof. exact (conj (proj1 half_right_made) (conj (proj1 half_upper_made) halves_overlap)). Qed.
Print Assumptions c102_overlap.

Example c102_case : round_ok circle5 /\ round_ok left8 /\ (s_ty circle5 = SArc \/ s_ty left8 = SArc) /\ clear circle5 left8.
Proof. exact (conj (or_introl circle5_full) (conj (or_intror (proj1 (proj2 left8_made))) (conj (or_intror eq_refl) (clear8 left8 eq_refl (proj1 (proj2 (proj2 left8_made))))))). Qed.

(** ** C103 *)

(** A circle and a line, in either order. *)
Theorem c103_circle_line : forall s o a l, (s = a /\ o = l) \/ (s = l /\ o = a) -> full_circle a -> line_in_order l ->
  (e6 <= line_reach a l -> exists ps, lists ps (common a l) /\ (length ps <= 2)%nat /\
     (exists f, intersections s o = (match ps with [] => nothing INone | _ => found ps f end) /\
        (f = IEndpoint /\ (exists t, 0 <= t <= 1 /\ at_tip t /\ In (at_t (s_start l) (s_end l) t) ps) \/
         f = INone /\ (forall t, In (at_t (s_start l) (s_end l) t) ps -> ~ at_tip t))) /\
     (forall p q, ps = [p; q] -> before (s_cen a) 0 p q)) /\
  (line_reach a l <= - e6 -> intersections s o = nothing INone /\ forall p, ~ common a l p) /\
  (Rabs (line_reach a l) < e6 -> exists t, let f := at_t (s_start l) (s_end l) t in
     (forall t', dist f (s_cen a) <= dist (at_t (s_start l) (s_end l) t') (s_cen a)) /\
     4 * dist2 (s_start l) (s_end l) * (s_rad a * s_rad a - dist2 f (s_cen a)) = line_reach a l /\
     (0 <= t <= 1 -> intersections s o = found [f] ITangent) /\ (~ 0 <= t <= 1 -> intersections s o = nothing INone)).
Proof. exact circle_line_spec. Qed.
Print Assumptions c103_circle_line.

Example c103_circle_case : full_circle circle5 /\ line_in_order (line_of (at2 (-6) 3) (at2 6 3)) /\ e6 <= line_reach circle5 (line_of (at2 (-6) 3) (at2 6 3)) /\
  line_in_order (line_of (at2 (-6) 5) (at2 6 5)) /\ line_reach circle5 (line_of (at2 (-6) 5) (at2 6 5)) = 0 /\
  line_in_order (line_of (at2 (-6) 7) (at2 6 7)) /\ line_reach circle5 (line_of (at2 (-6) 7) (at2 6 7)) <= - e6.
Proof. exact circle_lines_case. Qed.

(** An arc and a line, in either order: what is found is on the line and on the circle of
    the arc, and is on the arc or next to an end of the segment asked. *)
Theorem c103_arc_line : forall s o a l, (s = a /\ o = l) \/ (s = l /\ o = a) -> arc_ok a -> line_in_order l ->
  (e6 <= line_reach a l -> exists ps, lists ps (met s a l) /\ (length ps <= 2)%nat /\
     (exists f, intersections s o = (match ps with [] => nothing INone | _ => found ps f end) /\ (f = INone \/ f = IEndpoint)) /\
     (forall p q, ps = [p; q] -> before (s_cen a) (start_angle a) p q)) /\
  (line_reach a l < 0 -> intersections s o = nothing INone /\ forall p, ~ common a l p) /\
  (0 <= line_reach a l < e6 -> intersections s o = nothing INone \/
     exists t, 0 <= t <= 1 /\ let f := at_t (s_start l) (s_end l) t in intersections s o = found [f] ITangent /\
     (forall t', dist f (s_cen a) <= dist (at_t (s_start l) (s_end l) t') (s_cen a))).
Proof. exact arc_line_spec. Qed.
Print Assumptions c103_arc_line.

Example c103_arc_case : arc_ok left_half /\ line_in_order seg01 /\ line_reach left_half seg01 = 4.
Proof. exact (conj left_half_ok (conj (proj1 (proj2 (proj2 lines_made))) reach_seg01)). Qed.

(** The answer depends on which of the two is asked. *)
Theorem c103_not_symmetric : intersections left_half seg01 = nothing INone /\ (forall p, ~ common left_half seg01 p) /\
  exists p f, intersections seg01 left_half = found [p] f /\ same_place p (at2 1 0).
Proof. exact not_symmetric. Qed.
Print Assumptions c103_not_symmetric.

(** The flag of a single point depends on the direction in which the line was drawn. *)
Theorem c103_flag_by_direction : arc_ok quarter /\ line_in_order falling /\ line_in_order rising /\ s_start rising = s_end falling /\ s_end rising = s_start falling /\
  (exists p, intersections quarter falling = found [p] IEndpoint /\ same_place p (s_start quarter)) /\
  (exists p, intersections quarter rising = found [p] INone /\ same_place p (s_start quarter)).
Proof. exact (conj (proj1 (proj2 quarter_made)) (conj (proj1 slanted_made) (conj (proj2 slanted_made) (conj eq_refl (conj eq_refl flag_by_direction))))). Qed.
Print Assumptions c103_flag_by_direction.

(** ** C104 *)

(** Two lines which are not next to parallel. *)
Theorem c104_lines : forall s o, line_in_order s -> line_in_order o -> e6 <= Rabs (cross s o) ->
  exists t u p, course s t p /\ course o u p /\ in_plane p /\
    (forall t' u' p', course s t' p' -> course o u' p' -> t' = t /\ u' = u /\ same_place p' p) /\
    (in_reach t -> in_reach u -> exists f, intersections s o = found [p] f /\
       (f = IEndpoint /\ (at_tip t \/ at_tip u) \/ f = INone /\ ~ at_tip t /\ ~ at_tip u)) /\
    (~ (in_reach t /\ in_reach u) -> intersections s o = nothing INone).
Proof. exact lines_spec. Qed.
Print Assumptions c104_lines.

Example c104_case : line_in_order seg02 /\ line_in_order (line_of (at2 1 (-1)) (at2 1 2)) /\ e6 <= Rabs (cross seg02 (line_of (at2 1 (-1)) (at2 1 2))).
Proof. exact plain_cross. Qed.

(** Two lines which overlap are not found to meet unless an end of one is an end of the
    other. *)
Theorem c104_overlap_missed : line_in_order seg02 /\ line_in_order seg13 /\ intersections seg02 seg13 = nothing INone /\ forall x, 1 <= x <= 2 -> common seg02 seg13 (at2 x 0).
Proof. exact (conj (proj1 lines_made) (conj (proj1 (proj2 lines_made)) overlap_missed)). Qed.
Print Assumptions c104_overlap_missed.

(** Two short lines crossing at a right angle are taken for parallel. *)
Theorem c104_short_missed : line_in_order tiny_h /\ line_in_order tiny_v /\ intersections tiny_h tiny_v = nothing INone /\ common tiny_h tiny_v (at2 0 0).
Proof. exact (conj (proj1 (proj2 (proj2 (proj2 (proj2 lines_made))))) (conj (proj2 (proj2 (proj2 (proj2 (proj2 lines_made))))) tiny_missed)). Qed.
Print Assumptions c104_short_missed.

(** Two lines in a row are reported to share an edge, the same point twice. *)
Theorem c104_row_is_edge : line_in_order seg01 /\ line_in_order seg12 /\
  intersections seg01 seg12 = found [at2 1 0; at2 1 0] IEdge /\ forall p, common seg01 seg12 p -> same_place p (at2 1 0).
Proof. exact (conj (proj1 (proj2 (proj2 lines_made))) (conj (proj1 (proj2 (proj2 (proj2 lines_made)))) touch_edge)). Qed.
Print Assumptions c104_row_is_edge.
