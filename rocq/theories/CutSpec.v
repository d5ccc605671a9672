(** What is said about intersections: the points covered by both segments, and the
    order in which points are met going counterclockwise. *)

From Coq Require Import Reals List.
From Verif Require Import SegModel SegSpec.
Import ListNotations.
Open Scope R_scope.

(** Covered by both. *)
Definition common (s o : seg) (p : pt) : Prop := covers s p /\ covers o p.

(** The angle of [p] about [c], counted from [a] on, less than a whole turn. *)
Definition turn_to (c : pt) (a : R) (p : pt) (w : R) : Prop :=
  a <= w < a + 2 * PI /\ exists r, 0 < r /\ on_round c r w p.

(** [p] is met before [q] going counterclockwise about [c] from [a] on. *)
Definition before (c : pt) (a : R) (p q : pt) : Prop :=
  exists v w, turn_to c a p v /\ turn_to c a q w /\ v < w.

(** A circle as [SetParams] makes it. *)
Definition full_circle (s : seg) : Prop :=
  s_ty s = SCircle /\ 0 < s_rad s /\ s_sang s = 0 /\ s_eang s = 2 * PI /\ s_cw s = false /\ in_plane (s_cen s).

(** [l] lists the points of [P], each once, up to their z coordinate. *)
Definition lists (l : list pt) (P : pt -> Prop) : Prop :=
  (forall p, In p l -> P p) /\ (forall p, P p -> exists q, In q l /\ same_place p q) /\
  (forall i j p q, nth_error l i = Some p -> nth_error l j = Some q -> same_place p q -> i = j).

(** Two circles are taken for one; they touch from outside. *)
Definition alike (s o : seg) : Prop := one_point (s_cen s) (s_cen o) e3 /\ Rabs (s_rad s - s_rad o) < e3.
Definition touching (s o : seg) : Prop := Rabs (dist (s_cen s) (s_cen o) - s_rad s - s_rad o) < e3.

(** Arcs and circles as [SetParams] makes them. *)
Definition arc_ok (s : seg) : Prop := (exists d, arc_in_order d s) /\ start_angle s <= PI /\ in_plane (s_cen s).
Definition round_ok (s : seg) : Prop := full_circle s \/ arc_ok s.

(* what the code takes for the common points: the angle range of the second arc is
   applied to the bearing from the centre of the first *)
Definition seen (s o : seg) (p : pt) : Prop :=
  dist p (s_cen s) = s_rad s /\ dist p (s_cen o) = s_rad o /\
  (s_ty s = SArc -> covers s p) /\
  (s_ty o = SArc -> exists w, start_angle o <= w <= end_angle o /\ on_round (s_cen s) (s_rad s) w p).

(* both arcs run between the same points *)
Definition ends_match (s o : seg) : Prop :=
  (one_point (get_start s) (get_start o) e3 /\ one_point (get_end s) (get_end o) e3) \/
  (one_point (get_start s) (get_end o) e3 /\ one_point (get_end s) (get_start o) e3).

(* neither apart nor one within the other, touching or taken for one *)
Definition clear (s o : seg) : Prop :=
  let d := dist (s_cen s) (s_cen o) in
  d <= s_rad s + s_rad o /\ ~ touching s o /\ ~ alike s o /\ s_rad s <= d + s_rad o /\ s_rad o <= d + s_rad s.

(* the cross product of the directions of two lines *)
Definition cross (s o : seg) : R :=
  (px (s_end o) - px (s_start o)) * (py (s_end s) - py (s_start s)) - (py (s_end o) - py (s_start o)) * (px (s_end s) - px (s_start s)).

(* in the range in which a place on a line is accepted, and at one of its ends *)
Definition in_reach (t : R) : Prop := - e8 < t < 1 + e8.
Definition at_tip (t : R) : Prop := Rabs t < e8 \/ Rabs (t - 1) < e8.

(* four times the square of the length of a line times what the square of the radius is
   above the square of the distance of the line from the centre *)
Definition reach (c : pt) (r : R) (lS lE : pt) : R :=
  4 * (dist2 lS lE * (r * r) - ((px lE - px lS) * (py c - py lS) - (py lE - py lS) * (px c - px lS)) ^ 2).

Definition line_reach (a l : seg) : R := reach (s_cen a) (s_rad a) (s_start l) (s_end l).

(* next to an end of the segment *)
Definition end_near (s : seg) (p : pt) : Prop :=
  (Rabs (px p - px (s_start s)) < e14 /\ Rabs (py p - py (s_start s)) < e14) \/
  (Rabs (px p - px (s_end s)) < e14 /\ Rabs (py p - py (s_end s)) < e14).

(* what the code takes for the common points of an arc and a line: a point on the line and
   on the circle of the arc which is on the arc, or next to an end of the segment asked *)
Definition met (s a l : seg) (p : pt) : Prop :=
  covers l p /\ dist p (s_cen a) = s_rad a /\ (covers a p \/ end_near s p).

(* [p] lies in a direction in which the arc or circle extends *)
Definition faces (s : seg) (p : pt) : Prop :=
  exists w, start_angle s <= w <= end_angle s /\ exists r, 0 < r /\ on_round (s_cen s) r w p.
