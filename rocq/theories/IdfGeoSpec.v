(** What is said about the outlines of IDF boards: turning about a point, the way
    travelled on an arc, the area within a closed line of lines and arcs. *)

From Coq Require Import Reals List Bool ZArith.
From Verif Require Import SegModel SegSpec OutModel IdfGeo.
Import ListNotations.
Open Scope R_scope.

(** The place of [p] after a turn about [c] by [w], counterclockwise. *)
Definition rotated (c : ipt) (w : R) (p : ipt) : ipt :=
  mkI (ix c + (ix p - ix c) * cos w - (iy p - iy c) * sin w)
      (iy c + (ix p - ix c) * sin w + (iy p - iy c) * cos w).

(** Degrees as radians. *)
Definition rad (deg : R) : R := deg * PI / 180.

(** Distance. *)
Definition away (p q : ipt) : R := sqrt ((ix p - ix q)^2 + (iy p - iy q)^2).

(** The angles which IDF gives to a line, to an arc and to a circle; between two of
    them, and above the last one, are angles for which there is no use. *)
Definition line_deg (d : R) : Prop := - (1 / 100) <= d <= 1 / 100.
Definition arc_deg (d : R) : Prop := 1 / 100 < Rabs d <= 360 - 1 / 100.
Definition circle_deg (d : R) : Prop := 360 - 1 / 100 < Rabs d < 360 + 1 / 100.

(** The arc from [a] to [b] which turns by [d] degrees: its centre and its radius. *)
Definition is_arc (a b : ipt) (d : R) (c : ipt) (r : R) : Prop :=
  0 < r /\ away a c = r /\ away b c = r /\ rotated c (rad d) a = b.

(** Points which the segments of boards have to be given by: in the plane, not far out. *)
Definition near_board (p : ipt) : Prop := Rabs (ix p) <= 10^7 /\ Rabs (iy p) <= 10^7.

(** Twice the area within the closed line through the points, counterclockwise ones
    counted as positive. *)
Definition cross (p q : ipt) : R := ix p * iy q - ix q * iy p.
Fixpoint crosses (p : ipt) (l : list ipt) : R :=
  match l with [] => 0 | q :: l' => cross p q + crosses q l' end.
Definition area2 (p : ipt) (l : list ipt) : R := crosses p l + cross (last l p) p.

(** The same of a line of segments: an arc adds what lies between it and its chord. *)
Definition bulge (s : iseg) : R :=
  if bent (g_ang s) then (g_rad s)^2 * (rad (g_ang s) - sin (rad (g_ang s))) else 0.
Fixpoint seg_area2 (l : list iseg) : R :=
  match l with [] => 0 | s :: l' => cross (g_start s) (g_end s) + bulge s + seg_area2 l' end.

(** How much of that is lost when an arc is taken for its two half chords, whose
    corner may be off by the ten thousandth part of a degree. *)
Definition lost (s : iseg) : R :=
  if bent (g_ang s) then
    let t := rad (Rabs (g_ang s)) in
    (g_rad s)^2 * (t - 2 * sin (t / 2) + (rad (1 / 10000))^2)
  else 0.
Fixpoint all_lost (l : list iseg) : R := match l with [] => 0 | s :: l' => lost s + all_lost l' end.

(** Segments which follow each other and lead back to the start. *)
Fixpoint follows (p : ipt) (l : list iseg) (q : ipt) : Prop :=
  match l with [] => p = q | s :: l' => g_start s = p /\ follows (g_end s) l' q end.

(** Points on the board which are not one. *)
Definition far_apart (a b : ipt) : Prop := near_board a /\ near_board b /\ 1 / 10^6 <= away a b.

(** A line or an arc as the constructors make it from what the file says. *)
Definition loop_seg (s : iseg) : Prop :=
  (exists a b, far_apart a b /\ s = line_seg a b) \/
  (exists a b d, far_apart a b /\ arc_deg d /\ s = arc_seg a b d false).

(** Segments put into an outline one after the other; [None] if one is refused. *)
Fixpoint pushes (o : iout) (l : list iseg) : option iout :=
  match l with
  | [] => Some o
  | s :: l' => match push o s with (true, o') => pushes o' l' | (false, _) => None end
  end.
