(** What is said about outlines: how the segments follow each other, how outlines come
    about, the area they enclose and where they lie. *)

From Coquelicot Require Import Coquelicot.
From Coq Require Import Reals List Bool ZArith.
From Verif Require Import SegModel SegSpec SegProps SegSplit CutModel CutSpec CutCases OutModel.
Import ListNotations.
Open Scope R_scope.

(** A line or an arc. *)
Definition piece (s : seg) : Prop := s_ty s = SLine \/ s_ty s = SArc.

(** Every segment starts where the one before it ends, up to 1e-8. *)
Fixpoint chain (l : list seg) : Prop :=
  match l with
  | s :: ((t :: _) as l') => one_point (s_start t) (s_end s) e8 /\ chain l'
  | _ => True
  end.

(** And the first one where the last one ends. *)
Definition ring (l : list seg) : Prop :=
  chain l /\ match l with [] => False | s :: r => one_point (s_start s) (s_end (last r s)) e8 end.

(** Nothing but a circle. *)
Definition one_circle (l : list seg) : Prop := exists c, l = [c] /\ s_ty c = SCircle.

(** What can be added: a line or an arc starting where the last one ends, or a circle to
    an empty outline, as long as the outline is not closed. *)
Definition fits (o : outline) (s : seg) : Prop :=
  o_closed o = false /\
  ((s_ty s = SCircle /\ o_segs o = []) \/
   (piece s /\ forall l t, o_segs o = l ++ [t] -> one_point (s_end t) (s_start s) e8)).

(** What closes an outline. *)
Definition closes (o : outline) (s : seg) : Prop :=
  s_ty s = SCircle \/ (exists f l, o_segs o = f :: l /\ one_point (s_end s) (s_start f) e8).

(** The same segments travelled the other way round. *)
Definition turned (l l' : list seg) : Prop :=
  l' = rev (map reverse l) \/ (exists s t, l = [s; t] /\ l' = [reverse s; reverse t]).

(** The outlines which can be made by adding segments of which [P] is known. *)
Inductive built (P : seg -> Prop) : outline -> Prop :=
| built_new : built P out_init
| built_add o a r o' : built P o -> (forall s, a = Some s -> P s) -> add_segment o a = Some (r, o') -> built P o'.

(** Segments as [SetParams] makes them. *)
Definition made (s : seg) : Prop := line_in_order s \/ (arc_in_order e8 s /\ in_plane (s_cen s)) \/ full_circle s.

(** The integral of -y dx along the course of a segment; over a closed course it is the
    area to the left of it. *)
Definition sweeps (s : seg) (v : R) : Prop :=
  exists x y : R -> R, (forall t, course s t (at2 (x t) (y t))) /\ is_RInt (fun t => - (y t * Derive x t)) 0 1 v.
Fixpoint encloses (l : list seg) (v : R) : Prop :=
  match l with
  | [] => v = 0
  | s :: l' => exists a b, sweeps s a /\ encloses l' b /\ v = a + b
  end.

(** Within a box, up to [d]. *)
Definition in_box (d : R) (bl tr p : pt) : Prop :=
  px bl - d <= px p <= px tr + d /\ py bl - d <= py p <= py tr + d.

(** Adding segments one after the other to a new outline. *)
Definition draw (l : list seg) : option (ans * outline) :=
  fold_left (fun r s => match r with Some (_, o) => add_segment o (Some s) | None => None end) l (Some (yes, out_init)).

(** The place to which the line from [p] is drawn which decides whether [p] is inside:
    level with [p], five units beyond the side of the box which is nearer. *)
Definition line_end (o : outline) (p : pt) (x : R) : Prop :=
  (px p - px (o_bl o) <= px (o_tr o) - px p /\ x = px (o_bl o) - 5) \/
  (px (o_tr o) - px p < px p - px (o_bl o) /\ x = px (o_tr o) + 5).

(** How many of the segments have a property. *)
Inductive counted (P : seg -> Prop) : list seg -> nat -> Prop :=
| counted_nil : counted P [] 0
| counted_yes s l n : P s -> counted P l n -> counted P (s :: l) (S n)
| counted_no s l n : ~ P s -> counted P l n -> counted P (s :: l) n.

(** A line reaches up to or crosses the height [y]; its lower end does not count. *)
Definition reaches (y : R) (s : seg) : Prop :=
  (py (s_start s) < y <= py (s_end s)) \/ (py (s_end s) < y <= py (s_start s)).
(** And does so to the right or to the left of [p]. *)
Definition passes_right (p : pt) (s : seg) : Prop := reaches (py p) s /\ forall q, covers s q -> py q = py p -> px p < px q.
Definition passes_left (p : pt) (s : seg) : Prop := reaches (py p) s /\ forall q, covers s q -> py q = py p -> px q < px p.

(** The segments follow each other exactly. *)
Definition exact_ring (l : list seg) : Prop :=
  match l with [] => False | s :: r => chained (s_start s) l (s_start s) end.

(** [p] keeps away from a line: it is level with an end of it exactly or not nearly, the
    line is not almost level, and [p] is not next to it; [x] is where the line from [p]
    goes to. *)
Definition clear_of (p : pt) (x : R) (s : seg) : Prop :=
  let a := s_start s in
  let b := s_end s in
  (forall v, v = a \/ v = b -> py v = py p \/ (1 / 10^7 <= Rabs (py v - py p) /\ e8 * Rabs (py b - py a) <= Rabs (py v - py p))) /\
  (e6 <= Rabs (x - px p) * Rabs (py b - py a) \/ (py a = py b /\ e6 < Rabs (px b - px a) * Rabs (py a - py p))) /\
  (forall q, covers s q -> py q = py p -> e8 * Rabs (x - px p) <= Rabs (px q - px p) /\ px q <> px p).

(** Within ten million of the origin. *)
Definition at_home (p : pt) : Prop := - 10^7 <= px p <= 10^7 /\ - 10^7 <= py p <= 10^7.

(** The shape of an outline: a circle or a closed course of at least two lines and arcs,
    or an open course. *)
Definition shape (o : outline) : Prop :=
  if o_closed o then one_circle (o_segs o) \/ (Forall piece (o_segs o) /\ ring (o_segs o) /\ (2 <= length (o_segs o))%nat)
  else Forall piece (o_segs o) /\ chain (o_segs o).

(** Corners at integers, the sides equal and of even length. *)
Definition square_box (o : outline) : Prop :=
  exists i j k, px (o_bl o) = IZR i /\ py (o_bl o) = IZR j /\ px (o_tr o) = IZR (i + 2 * k) /\ py (o_tr o) = IZR (j + 2 * k).

(** Within 10^9 of the origin along both axes. *)
Definition near_home (p : pt) : Prop := - (10^9 - 1) <= px p <= 10^9 - 1 /\ - (10^9 - 1) <= py p <= 10^9 - 1.

(** A distance along an axis between two points of the segments. *)
Definition spans (l : list seg) (w : R) : Prop :=
  exists s t p q, In s l /\ In t l /\ covers s p /\ covers t q /\ (w = px q - px p \/ w = py q - py p).

(** Every arc replaced by the two lines through its middle. *)
Inductive straightened : list seg -> list seg -> Prop :=
| straight_nil : straightened [] []
| straight_line s l l' : s_ty s = SLine -> straightened l l' -> straightened (s :: l) (s :: l')
| straight_arc s m l l' : s_ty s = SArc -> course s (1 / 2) m -> straightened l l' ->
    straightened (s :: l) (line_of (s_start s) m :: line_of m (s_end s) :: l').

(** Both ends are in the plane. *)
Definition flat (s : seg) : Prop := in_plane (s_start s) /\ in_plane (s_end s).

(** A closed outline in order: a circle, or a closed course of lines and arcs. *)
Definition whole (o : outline) : Prop :=
  o_closed o = true /\ (one_circle (o_segs o) \/ (Forall piece (o_segs o) /\ Forall flat (o_segs o) /\ ring (o_segs o))).

(** Two points reported to be on [s] and on [c] which are not ends of [s]. *)
Definition reported (s c : seg) (p : pt) : Prop := In p (fst (snd (intersections s c))).
Definition tip (s : seg) (p : pt) : Prop := one_point p (s_start s) e8 \/ one_point p (s_end s) e8.
Definition met_twice (s c : seg) : Prop :=
  exists p q, reported s c p /\ reported s c q /\ ~ one_point p q e8 /\ ~ tip s p /\ ~ tip s q.

(** The clearance of a point from being level with the top or bottom of a circular
    outline (see C109). *)
Definition level_clear (o : outline) (s : seg) (m : pt) : Prop :=
  forall x, line_end o m x -> e6 <= 4 * ((x - px m) ^ 2 * Rabs (s_rad s ^ 2 - (py m - py (s_cen s)) ^ 2)).

(** On one line. *)
Definition in_line (a b m : pt) : Prop := (px m - px a) * (py b - py a) = (py m - py a) * (px b - px a).
