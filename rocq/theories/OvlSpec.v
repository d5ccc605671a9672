(** What is said about merging outlines and cutting one out of another. *)

From Coq Require Import Reals List Bool.
From Verif Require Import SegModel SegSpec CutModel OutModel OutSpec.
Import ListNotations.
Open Scope R_scope.

(** A closed outline in order whose segments follow each other exactly: a circle, or a
    closed course of lines and arcs. *)
Definition whole_exactly (o : outline) : Prop :=
  o_closed o = true /\ (one_circle (o_segs o) \/ (Forall piece (o_segs o) /\ Forall flat (o_segs o) /\ exact_ring (o_segs o))).

(** A point where a segment of the one course meets a segment of the other; not the end
    of a stretch along which they run together. *)
Definition meets_on (s t : seg) (p : pt) : Prop :=
  exists ps f, intersections s t = found ps f /\ In p ps /\ (f = INone \/ f = IEndpoint \/ f = ITangent).
Definition meets_at (l m : list seg) (p : pt) : Prop := exists s t, In s l /\ In t m /\ meets_on s t p.

(** Such a point is at a corner exactly or not near it. *)
Definition exact_corners (l m : list seg) : Prop :=
  forall p s, meets_at l m p -> In s (l ++ m) -> piece s -> one_point p (s_start s) e8 -> p = s_start s.

(** The second course passes through such a point once: no two of its segments start at
    one point, a point found on a segment which is a corner is an end of this segment,
    and of two points found on a segment not one is its end and the other inside it. *)
Definition passes_once (l m : list seg) : Prop :=
  (forall i j, (i < length m)%nat -> (j < length m)%nat -> one_point (s_start (nth i m seg_init)) (s_start (nth j m seg_init)) e8 -> i = j) /\
  (forall s t u p, In s l -> In t m -> In u m -> meets_on s t p -> one_point p (s_start u) e8 -> tip t p) /\
  (forall s s' t p q, In s l -> In s' l -> In t m -> meets_on s t p -> meets_on s' t q -> one_point q (s_end t) e8 -> one_point p q e8 \/ tip t p).

(** The same course with another segment as the first one. *)
Definition turned_round (l l' : list seg) : Prop := exists x y, l = x ++ y /\ l' = y ++ x.

(** Some segments of a course are replaced by their parts. *)
Inductive cut_up (P : pt -> Prop) : list seg -> list seg -> Prop :=
| cut_none l : cut_up P l l
| cut_more l x s y ps ps' s' n : cut_up P l (x ++ s :: y) -> (forall p, In p ps -> P p) -> split s ps = (true, (ps', (s', n))) ->
    cut_up P l (x ++ s' :: n ++ y).

(** A course is cut at [p] and [q] into the part from [p] to [q] and the one from [q] to
    [p]; [l'] is what it looks like then. *)
Definition halved (l l' : list seg) (p q : pt) (w x : list seg) : Prop :=
  w <> [] /\ x <> [] /\ chained p w q /\ chained q x p /\
  cut_up (fun v => v = p \/ v = q) l l' /\ turned_round (w ++ x) l'.

(** Whether a course starts into the inside of an outline, as [IsInside] has it for the
    middle of the first segment. *)
Definition starts_inside (b : outline) (w : list seg) (v : bool) : Prop :=
  exists s w' z, w = s :: w' /\ fst (is_inside b (snd (get_midpoint s z)) false) = v.

(** What is left of an outline [o] and of another one [b] cut at [p] and [q]. *)
Definition parted (o b : outline) (p q : pt) (w x w' x' : list seg) (inside : bool) : Prop :=
  exists l m, halved (o_segs o) l p q w x /\ halved (o_segs b) m p q w' x' /\
    starts_inside (with_segs b m) w inside /\ starts_inside (with_segs (mkOut (o_segs o) (o_closed o) (o_wind o) false (o_bl o) (o_tr o)) l) w' (negb inside).

(** Courses which do not meet. *)
Definition apart (l m : list seg) : Prop := forall s t, In s l -> In t m -> intersections s t = nothing INone.

(** An outline whose box may be called out of date and which is else the same. *)
Definition same_but_box (o o' : outline) : Prop :=
  o_segs o' = o_segs o /\ o_closed o' = o_closed o /\ o_wind o' = o_wind o /\ o_bl o' = o_bl o /\ o_tr o' = o_tr o.
