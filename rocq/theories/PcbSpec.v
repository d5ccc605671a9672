(** What is said about board surfaces: where curves go, where surfaces are and which way
    they face.  The meaning of the entities is that of the IGES specification: lines
    (110), circular arcs (100), which are travelled counterclockwise in their plane before
    their transform is applied, surfaces of revolution (120), curves on surfaces (142). *)

From Coquelicot Require Import Coquelicot.
From Coq Require Import Reals List Bool ZArith.
From Verif Require Import SegModel SegSpec OutModel PcbModel.
Import ListNotations.
Open Scope R_scope.

(** ** Curves *)

(** The place reached after the part [t] (0 to 1) of the way along a curve. *)
Definition straight (a b : pt) (t : R) (p : pt) : Prop :=
  px p = px a + t * (px b - px a) /\ py p = py a + t * (py b - py a) /\ pz p = pz a + t * (pz b - pz a).
Definition goes (c : crv) (t : R) (p : pt) : Prop :=
  match c with
  | CLine a b | NLine a b => straight a b t p
  | CArc z o a b m => exists r w d q,
      0 < r /\ 0 < d <= 2 * PI /\ on_round o r w a /\ on_round o r (w + d) b /\
      on_round o r (w + t * d) q /\ pz q = z /\ p = moved m q
  | NArc a o w d => p = turn o (d * (t * w)) a
  end.

(** The curves of a list, one after the other, go where [F] goes from [u] to [v]. [T]
    tells where a curve goes. *)
Inductive follows (T : crv -> R -> pt -> Prop) (F : R -> pt -> Prop) : R -> list crv -> R -> Prop :=
| follows_nil u : follows T F u [] u
| follows_cons u m v c l : u < m -> (forall t p, 0 <= t <= 1 -> (T c t p <-> F (u + t * (m - u)) p)) ->
    follows T F m l v -> follows T F u (c :: l) v.

(** The course of a segment at a height, and along walls. *)
Definition course_at (z : R) (s : seg) (t : R) (p : pt) : Prop := course s t p /\ pz p = z.

(** Every curve ends where the next one starts, and the last one where the first one
    starts. *)
Definition joined (a b : crv) : Prop := exists p, goes a 1 p /\ goes b 0 p.
Fixpoint linked (f : crv) (l : list crv) : Prop :=
  match l with
  | [] => False
  | [c] => joined c f
  | c :: ((d :: _) as r) => joined c d /\ linked f r
  end.
Definition loop (l : list crv) : Prop := match l with [] => False | f :: _ => linked f l end.

(** A composite curve is taken for closed when it is one arc, or at least two curves,
    and its ends are one point. *)
Definition taken_closed (res : R) (l : list crv) : Prop :=
  exists f r, l = f :: r /\ one_point (crv_start f) (crv_end (last r f)) res /\
    (r <> [] \/ exists z o a b m, f = CArc z o a b m).

(** A segment in order whose ends are exactly where its course starts and ends. *)
Definition sharp (s : seg) : Prop :=
  match s_ty s with
  | SNone => False
  | SLine => in_plane (s_start s) /\ in_plane (s_end s) /\ ~ one_point (s_start s) (s_end s) e8
  | SArc =>
      in_plane (s_cen s) /\ in_plane (s_start s) /\ in_plane (s_end s) /\
      0 < s_rad s /\ - PI < start_angle s <= PI /\ start_angle s < end_angle s < start_angle s + 2 * PI /\
      course s 0 (s_start s) /\ course s 1 (s_end s) /\ ~ one_point (s_start s) (s_end s) e8 /\
      ~ one_point (s_cen s) (s_start s) e8 /\ ~ one_point (s_cen s) (s_end s) e8
  | SCircle =>
      in_plane (s_cen s) /\ 0 < s_rad s /\ s_sang s = 0 /\ s_eang s = 2 * PI /\ s_cw s = false /\
      s_start s = mkPt (px (s_cen s) + s_rad s) (py (s_cen s)) 0 /\ s_end s = s_start s /\
      ~ one_point (s_cen s) (s_start s) e8
  end.

(** ** Surfaces *)

Definition cross (a b : pt) : pt :=
  mkPt (py a * pz b - pz a * py b) (pz a * px b - px a * pz b) (px a * py b - py a * px b).
Definition minus (a b : pt) : pt := mkPt (px a - px b) (py a - py b) (pz a - pz b).
Definition along (a b : pt) (u : R) : pt :=
  mkPt (px a + u * (px b - px a)) (py a + u * (py b - py a)) (pz a + u * (pz b - pz a)).
Definition comb (x : R) (a : pt) (y : R) (b : pt) : pt :=
  mkPt (x * px a + y * px b) (x * py a + y * py b) (x * pz a + y * pz b).

(** The point [p] turned by [w] about the line from [a] to [b], counterclockwise when
    seen against that direction. *)
Definition turn_about (a b : pt) (w : R) (p : pt) : pt :=
  let k0 := minus b a in
  let k := comb (/ sqrt (dot k0 k0)) k0 0 k0 in
  let d := minus p a in
  let e := comb (cos w) d (sin w) (cross k d) in
  let f := comb 1 e ((1 - cos w) * dot k d) k in
  comb 1 a 1 f.

(** The point of a surface at the parameters [u], [v]. *)
Definition surf_at (s : surf) (u v : R) : pt :=
  match s with
  | Rev (a, b) (g, h) _ _ => turn_about a b v (along g h u)
  | Bil p00 p10 p01 p11 => along (along p00 p10 u) (along p01 p11 u) v
  end.
(** The parameters it has. *)
Definition in_domain (s : surf) (u v : R) : Prop :=
  0 <= u <= 1 /\ match s with Rev _ _ a b => a <= v <= b | Bil _ _ _ _ => 0 <= v <= 1 end.

(** Where a curve in parameters goes on the surface. *)
Definition lifted (s : surf) (c : crv) (t : R) (p : pt) : Prop :=
  exists q, goes c t q /\ p = surf_at s (px q) (py q).

(** The normal: the cross product of the derivatives along [u] and [v]. *)
Definition has_slope (f : R -> pt) (t : R) (d : pt) : Prop :=
  is_derive (fun x => px (f x)) t (px d) /\ is_derive (fun x => py (f x)) t (py d) /\ is_derive (fun x => pz (f x)) t (pz d).
Definition normal (s : surf) (u v : R) (n : pt) : Prop :=
  exists a b, has_slope (fun x => surf_at s x v) u a /\ has_slope (fun y => surf_at s u y) v b /\ n = cross a b.

(** The two descriptions of a bound agree: curve by curve, the one in parameters goes
    where the one in space goes, and keeps to the parameters of the surface. *)
Definition agrees (s : surf) (a b : crv) : Prop :=
  (forall t p, 0 <= t <= 1 -> (lifted s a t p <-> goes b t p)) /\
  (forall t q, 0 <= t <= 1 -> goes a t q -> in_domain s (px q) (py q)).
Definition bound_agrees (s : surf) (b : bound) : Prop :=
  Forall2 (agrees s) (b_par b) (b_geo b) /\ loop (b_par b) /\ loop (b_geo b).

(** ** Walls *)

(** The place above [p]. *)
Definition above (p : pt) (q : pt) : Prop := px q = px p /\ py q = py p.

(** The points of a wall: all bounds of walls are rectangles in the parameters, so that
    what is enclosed lies between the points of the curves. *)
Definition on_curves (l : list crv) (q : pt) : Prop := exists c t, In c l /\ 0 <= t <= 1 /\ goes c t q.
Definition enclosed (l : list crv) (u v : R) : Prop :=
  exists a b c d, on_curves l a /\ on_curves l b /\ on_curves l c /\ on_curves l d /\
    px a <= u <= px b /\ py c <= v <= py d.
Definition patch (t : trimmed) (p : pt) : Prop :=
  exists u v, enclosed (b_par (t_out t)) u v /\ p = surf_at (t_surf t) u v.

(** [n] points to the right of the way along [s] at the place of [p], or to the left. *)
Definition to_right (s : seg) (p n : pt) : Prop :=
  exists x y t dx dy k, (forall t', course s t' (mkPt (x t') (y t') 0)) /\ 0 <= t <= 1 /\ px p = x t /\ py p = y t /\
    is_derive x t dx /\ is_derive y t dy /\ 0 < k /\ n = mkPt (k * dy) (- k * dx) 0.
Definition to_left (s : seg) (p n : pt) : Prop := to_right s p (mkPt (- px n) (- py n) (- pz n)).
Definition faces (left : bool) (s : seg) (t : trimmed) : Prop :=
  forall u v, enclosed (b_par (t_out t)) u v -> exists n, normal (t_surf t) u v n /\
    if left then to_left s (surf_at (t_surf t) u v) n else to_right s (surf_at (t_surf t) u v) n.

(** An arc with an end next to the place where it crosses the level of its centre: the
    angle [w] of that place is less than half a turn from the end. *)
Definition crosses_next (res z : R) (s : seg) : Prop :=
  exists w p, sin w = 0 /\ start_angle s < w < end_angle s /\ on_round (s_cen s) (s_rad s) w p /\ pz p = z /\
    ((w < start_angle s + PI /\ one_point (at_z (get_start s) z) p res) \/
     (end_angle s - PI < w /\ one_point p (at_z (get_end s) z) res)).

(** ** Boards *)

Definition board_segs (b : board) : list seg := o_segs (b_out b) ++ b_holes b ++ concat (b_cuts b).
Definition all_sharp (b : board) : Prop := Forall sharp (board_segs b).

(** Both descriptions of a bound go along the segments of a list, one after the other. *)
Definition bound_follows (z : R) (s : surf) (l : list seg) (b : bound) : Prop :=
  exists ps gs, b_par b = concat ps /\ b_geo b = concat gs /\
    Forall2 (fun x c => follows (lifted s) (course_at z x) 0 c 1) l ps /\
    Forall2 (fun x c => follows goes (course_at z x) 0 c 1) l gs.

(** No proper part of the curves, from the first one on, is taken for closed. *)
Definition open_to_end (res : R) (l : list crv) : Prop := forall l1 l2, l = l1 ++ l2 -> l2 <> [] -> ~ taken_closed res l1.

(** The determinant of a transform. *)
Definition det (m : xform) : R := dot (xf_x m) (cross (xf_y m) (xf_z m)).

(** The lists of segments which bound the plane: the outline, the cutouts, the holes. *)
Definition bounding (b : board) : list (list seg) := o_segs (b_out b) :: b_cuts b ++ map (fun s => [s]) (b_holes b).

(** The curves which [GetCurveOnPlane] and [GetCurves] give for the segments of a list, in
    order. *)
Definition par_of (o : outline) (z : R) (rev : bool) (l : list seg) : list crv :=
  match all_some (map (fun s => curve_on_plane (px (o_bl o)) (px (o_tr o)) (py (o_bl o)) z s rev) l) with Some x => concat x | None => [] end.
Definition geo_of (z : R) (l : list seg) : list crv := match all_some (map (get_curves z) l) with Some x => concat x | None => [] end.

(** The transform of a curve. *)
Definition transform (c : crv) : option xform := match c with CArc _ _ _ _ m => m | _ => None end.
