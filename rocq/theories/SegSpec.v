(** What is said about the pieces of outlines: the points of the plane which a piece
    covers, and the course on which it is travelled from its start to its end.  Only
    the data which the public functions of [MCAD_SEGMENT] give out are used. *)

From Coq Require Import Reals List Bool ZArith.
From Verif Require Import SegModel.
Import ListNotations.
Open Scope R_scope.

(** Distance squared and distance, in space and in the plane z = 0. *)
Definition gap2 (p q : pt) : R := (px p - px q)^2 + (py p - py q)^2 + (pz p - pz q)^2.
Definition dist2 (p q : pt) : R := (px p - px q)^2 + (py p - py q)^2.
Definition dist (p q : pt) : R := sqrt (dist2 p q).
Definition in_plane (p : pt) : Prop := pz p = 0.
Definition same_place (p q : pt) : Prop := px p = px q /\ py p = py q.

(** Square of the distance up to which two points count as one: 3.0001 times the
    square of the resolution asked for, at least 3e-30; when one of the points is
    more than 3.16e7 (the square is above 1e15) away from the origin, at least
    3e-30 times the square of the larger of the two distances. *)
Definition far (p : pt) : Prop := 10^15 < gap2 p origin.
Definition one_point (p q : pt) (res : R) : Prop :=
  gap2 p q <= 30001 / 10000 * res^2 \/
  (~ far p /\ ~ far q /\ gap2 p q <= 3 / 10^30) \/
  ((far p \/ far q) /\ gap2 p q <= 3 / 10^30 * Rmax (gap2 p origin) (gap2 q origin)).

(** The point of the circle about [c] with radius [r] in the direction [w]. *)
Definition on_round (c : pt) (r w : R) (p : pt) : Prop :=
  px p = px c + r * cos w /\ py p = py c + r * sin w.

(** The points covered. *)
Definition covers (s : seg) (p : pt) : Prop :=
  match s_ty s with
  | SNone => False
  | SLine => exists t, 0 <= t <= 1 /\
      px p = px (s_start s) + t * (px (s_end s) - px (s_start s)) /\
      py p = py (s_start s) + t * (py (s_end s) - py (s_start s))
  | SArc => exists w, start_angle s <= w <= end_angle s /\ on_round (s_cen s) (s_rad s) w p
  | SCircle => dist2 p (s_cen s) = (s_rad s)^2
  end.

(** The place reached after the part [t] (0 to 1) of the way from start to end:
    the angle goes evenly from [GetMSAngle] to [GetMEAngle]. *)
Definition course (s : seg) (t : R) (p : pt) : Prop :=
  match s_ty s with
  | SNone => False
  | SLine => px p = px (s_start s) + t * (px (s_end s) - px (s_start s)) /\
             py p = py (s_start s) + t * (py (s_end s) - py (s_start s))
  | _ => on_round (s_cen s) (s_rad s) (s_sang s + t * (s_eang s - s_sang s)) p
  end.

(** An arc in order: it covers less than a whole turn and its angles are where
    [SetParams] and [Split] leave them; the ends recorded are not further than [d]
    from the ends of the course. *)
Definition arc_in_order (d : R) (s : seg) : Prop :=
  s_ty s = SArc /\ 0 < s_rad s /\
  - PI < start_angle s /\ end_angle s < 3 * PI /\
  start_angle s < end_angle s /\ end_angle s < start_angle s + 2 * PI /\
  (forall p, course s 0 p -> dist p (s_start s) <= d) /\
  (forall p, course s 1 p -> dist p (s_end s) <= d).

(** [b] lies next to [a] along the way: the pieces follow each other without a gap. *)
Fixpoint chained (a : pt) (l : list seg) (b : pt) : Prop :=
  match l with
  | [] => a = b
  | s :: l' => s_start s = a /\ chained (s_end s) l' b
  end.

(** Lengths add up. *)
Fixpoint total_length (l : list seg) : R :=
  match l with [] => 0 | s :: l' => get_length s + total_length l' end.
