(** Model of the intersections of segments, [MCAD_SEGMENT::GetIntersections]
    (/repo/src/geom/mcad_segment.cpp L285-348, L430-1355), over the real numbers as
    in SegModel.v.  The points are appended to the list of the caller; here they are
    the list returned, with the answer and the flag. *)

From Coq Require Import Reals List Bool.
From Verif Require Import SegModel.
Import ListNotations.
Open Scope R_scope.

(** [MCAD_INTERSECT_FLAG] (mcad_elements.h L47-62). *)
Inductive iflag := INone | IEndpoint | ITangent | IEdge | IInside | IEncircles | IOutside | IIdent.

Definition cut : Type := bool * (list pt * iflag).
Definition nothing (f : iflag) : cut := (false, ([], f)).
Definition found (l : list pt) (f : iflag) : cut := (true, (l, f)).

(** [calcCircleIntercepts] (L430-486): the points where the circle of [s] meets the one
    with centre [c2] and radius [r2], [d] being the distance of the centres. *)
Definition circle_points (s : seg) (c2 : pt) (r2 d : R) : pt * pt :=
  let c := s_cen s in
  let r := s_rad s in
  let rd := (d * d - r2 * r2 + r * r) / (2 * d) in
  let dy := py c2 - py c in
  let dx := px c2 - px c in
  let x := rd / d * dx + px c in
  let y := rd / d * dy + py c in
  let h := sqrt (r * r - rd * rd) in
  let ra0 := atan2 dy dx + PI / 2 in
  let ra1 := ra0 + PI in
  let p := mkPt (x + h * cos ra0) (y + h * sin ra0) 0 in
  let q := mkPt (x + h * cos ra1) (y + h * sin ra1) 0 in
  let a0 := atan2 (py p - py c) (px p - px c) in
  let a1 := atan2 (py q - py c) (px q - px c) in
  if (leb 0 a0 && leb 0 a1 && ltb a1 a0) || (ltb a0 0 && ltb a1 0 && ltb a1 a0) || (ltb a0 0 && leb 0 a1)
  then (q, p) else (p, q).

Definition centre_gap (s o : seg) : R :=
  let dx := px (s_cen s) - px (s_cen o) in
  let dy := py (s_cen s) - py (s_cen o) in
  sqrt (dx * dx + dy * dy).

(** [checkCircles] (L490-545). *)
Definition check_circles (s o : seg) : cut :=
  let c2 := s_cen o in
  let r2 := s_rad o in
  let r := s_rad s in
  let d := centre_gap s o in
  if ltb (r + r2) d then nothing INone
  else if point_matches (s_cen s) c2 e3 && ltb (Rabs (r - r2)) e3 then nothing IIdent
  else if ltb (Rabs (d - r - r2)) e3 then nothing ITangent
  else if (ltb d r || ltb d r2) && leb d (r - r2) then nothing IEncircles
  else if (ltb d r || ltb d r2) && leb d (r2 - r) then nothing IInside
  else let (p, q) := circle_points s c2 r2 d in found [p; q] INone.

(** The test whether an angle lies between [b0] and [b1] (L767-791, L802-826). *)
Definition within_arc (t b0 b1 : R) : bool :=
  let t1 := if ltb b1 t then t - 2 * PI else t in
  let t2 := if ltb t1 b0 then t1 + 2 * PI else t1 in
  leb t2 b1.

(** [checkArcs] (L549-881) for a pair of which at least one is an arc. *)
Definition check_arcs (s o : seg) : cut :=
  let c2 := s_cen o in
  let r2 := s_rad o in
  let c := s_cen s in
  let r := s_rad s in
  let d := centre_gap s o in
  let a0 := start_angle s in
  let a1 := end_angle s in
  let b0 := start_angle o in
  let b1 := end_angle o in
  let w := 2 * PI in
  if ltb (r + r2) d || ltb (d + r2) r || ltb (d + r) r2 then nothing INone
  else if ltb (Rabs (d - r - r2)) e3 then
    let t := atan2 (py c2 - py c) (px c2 - px c) in
    let u := if ltb 0 t then t - PI else t + PI in
    let t1 := if ltb a0 t then t - w else t in
    let t2 := if ltb t1 a0 then t1 + w else t1 in
    let u1 := if ltb b0 u then u - w else u in
    let u2 := if ltb u1 b0 then u1 + w else u1 in
    nothing (if leb a0 t2 && leb t2 a1 && leb b0 u2 && leb u2 b1 then ITangent else INone)
  else if point_matches c c2 e3 && ltb (Rabs (r - r2)) e3 then
    if segty_eqb (s_ty s) SCircle then found [get_start o; get_end o] IEdge
    else if segty_eqb (s_ty o) SCircle then found [get_start s; get_end s] IEdge
    else if (ltb (Rabs (b1 - a0)) e8 && ltb (Rabs (b0 - a1 + w)) e8)
         || (ltb (Rabs (a1 - b0)) e8 && ltb (Rabs (a0 - b1 + w)) e8)
         || (ltb (Rabs (b0 - a1)) e8 && ltb (Rabs (b1 - a0 - w)) e8)
         || (ltb (Rabs (a0 - b1)) e8 && ltb (Rabs (a1 - b0 - w)) e8)
      then found [get_start s; get_end s] IEndpoint
    else if (leb a0 b0 && leb b1 a1) || (leb a0 (b0 + w) && leb (b1 + w) a1) || (leb a0 (b0 - w) && leb (b1 - w) a1)
      then found [get_start o; get_end o] IEdge
    else if (leb b0 a0 && leb a1 b1) || (leb (b0 + w) a0 && leb a1 (b1 + w)) || (leb (b0 - w) a0 && leb a1 (b1 - w))
      then found [get_start s; get_end s] IEdge
    else if (leb b0 a0 && leb a0 b1 && leb b1 a1) || (leb (b0 - w) a0 && leb a0 (b1 - w) && leb (b1 - w) a1)
      then found [get_start s; get_end o] IEdge
    else if (leb a0 b0 && leb b0 a1 && leb a1 b1) || (leb a0 (b0 + w) && leb (b0 + w) a1 && leb a1 (b1 + w))
         || (leb a0 (b0 - w) && leb (b0 - w) a1 && leb a1 (b1 - w))
      then found [get_start s; get_end o] IEdge
    else nothing INone
  else if segty_eqb (s_ty s) SArc && segty_eqb (s_ty o) SArc &&
       ((point_matches (get_start s) (get_start o) e3 && point_matches (get_end s) (get_end o) e3)
        || (point_matches (get_start s) (get_end o) e3 && point_matches (get_end s) (get_start o) e3)) then
    let m := (a0 + a1) * (1 / 2) in
    let ix := px c + r * cos m - px c2 in
    let iy := py c + r * sin m - py c2 in
    if ltb r r2 && ltb (sqrt (ix * ix + iy * iy)) r2 then found [get_start s; get_end s] IInside
    else found [get_start s; get_end s] IOutside
  else
    let (p, q) := circle_points s c2 r2 d in
    let x0 := atan2 (py p - py c) (px p - px c) in
    let x1 := atan2 (py q - py c) (px q - px c) in
    let on (x : R) := (segty_eqb (s_ty o) SCircle || within_arc x b0 b1) && (segty_eqb (s_ty s) SCircle || within_arc x a0 a1) in
    let up (x : R) := if ltb x a0 then x + w else x in
    let fit (x : R) := if ltb x a0 then x + w else if ltb a1 x then x - w else x in
    match on x0, on x1 with
    | false, false => nothing INone
    | true, false => found [p] INone
    | false, true => found [q] INone
    | true, true => if ltb (fit (up x1)) (fit (up x0)) then found [q; p] INone else found [p; q] INone
    end.

(** [checkArcLine] (L885-1152). *)
Definition at_t (lS lE : pt) (t : R) : pt :=
  mkPt (t * px lS + (1 - t) * px lE) (t * py lS + (1 - t) * py lE) 0.
Definition near14 (p q : pt) : bool := ltb (Rabs (px p - px q)) e14 && ltb (Rabs (py p - py q)) e14.
Definition check_arc_line (s o : seg) : cut :=
  let this_round := segty_eqb (s_ty s) SArc || segty_eqb (s_ty s) SCircle in
  let a := if this_round then s else o in
  let l := if this_round then o else s in
  let whole := segty_eqb (s_ty a) SCircle in
  let arcS := if this_round then s_start a else get_start a in
  let arcE := if this_round then s_end a else get_end a in
  let c := s_cen a in
  let lS := get_start l in
  let lE := get_end l in
  let a0 := px lS * px lS - 2 * px lS * px lE + px lE * px lE in
  let b0 := 2 * (px c * px lE - px c * px lS + px lS * px lE - px lE * px lE) in
  let c0 := px c * px c - 2 * px c * px lE + px lE * px lE in
  let a1 := py lS * py lS - 2 * py lS * py lE + py lE * py lE in
  let b1 := 2 * (py c * py lE - py c * py lS + py lS * py lE - py lE * py lE) in
  let c1 := py c * py c - 2 * py c * py lE + py lE * py lE in
  let A := a0 + a1 in
  let B := b0 + b1 in
  let C := c0 + c1 - s_rad a * s_rad a in
  let D := B * B - 4 * A * C in
  let tangent := ltb (Rabs D) e6 in
  let in01 (t : R) := leb 0 t && leb t 1 in
  let tt := - B / (2 * A) in
  if tangent && whole then
    if ltb tt 0 || ltb 1 tt then nothing INone else found [at_t lS lE tt] ITangent
  else if ltb D 0 then nothing INone
  else
    let t0 := if tangent then tt else (- B + sqrt D) / (2 * A) in
    let t1 := if tangent then tt else (- B - sqrt D) / (2 * A) in
    let mark (t : R) := ((point_matches (at_t lS lE t) arcS e8 || point_matches (at_t lS lE t) arcE e8) && negb whole)
                        || ltb (Rabs t) e8 || ltb (Rabs (t - 1)) e8 in
    let ts := (if in01 t0 then [t0] else []) ++ (if negb tangent && in01 t1 then [t1] else []) in
    let ang (t : R) := atan2 (py (at_t lS lE t) - py c) (px (at_t lS lE t) - px c) in
    let fl (b : bool) := if b then IEndpoint else INone in
    if whole then
      match ts with
      | [t] => found [at_t lS lE t] (fl (mark t))
      | [t; u] =>
          let swap := if leb 0 (ang t) then leb 0 (ang u) && ltb (ang u) (ang t) else leb 0 (ang u) || ltb (ang u) (ang t) in
          found (if swap then [at_t lS lE u; at_t lS lE t] else [at_t lS lE t; at_t lS lE u]) (fl (mark t || mark u))
      | _ => nothing INone
      end
    else
      let sA := start_angle a in
      let eA := end_angle a in
      let hit (t : R) := (leb sA (ang t) && leb (ang t) eA) || (leb sA (ang t + 2 * PI) && leb (ang t + 2 * PI) eA)
                         || near14 (at_t lS lE t) (s_start s) || near14 (at_t lS lE t) (s_end s) in
      let first := match ts with t :: _ => mark t | [] => false end in
      match filter hit ts with
      | [] => nothing INone
      | [t] => found [at_t lS lE t] (if tangent then ITangent else fl first)
      | t :: u :: _ =>
          let up (x : R) := if ltb x sA then x + 2 * PI else x in
          found (if ltb (up (ang t)) (up (ang u)) then [at_t lS lE t; at_t lS lE u] else [at_t lS lE u; at_t lS lE t])
                (fl (mark t || mark u))
      end.

(** [checkLines] (L1156-1355). *)
Definition check_lines (s o : seg) : cut :=
  let xa1 := px (s_end s) - px (s_start s) in
  let ya1 := py (s_end s) - py (s_start s) in
  let p0 := get_start o in
  let p1 := get_end o in
  let xa2 := px p1 - px p0 in
  let ya2 := py p1 - py p0 in
  let xb1 := px (s_start s) in
  let yb1 := py (s_start s) in
  let xb2 := px p0 in
  let yb2 := py p0 in
  let num := xa1 * (yb2 - yb1) - ya1 * (xb2 - xb1) in
  let den := xa2 * ya1 - ya2 * xa1 in
  let at01 (t : R) := ltb (Rabs t) e8 || ltb (Rabs (t - 1)) e8 in
  if ltb (Rabs den) e6 then
    if ltb e6 (Rabs num) then nothing INone
    else
      let on2 (p : pt) := if leb (Rabs ya2) (Rabs xa2) then (px p - xb2) / xa2 else (py p - yb2) / ya2 in
      let on1 (p : pt) := if leb (Rabs ya1) (Rabs xa1) then (px p - xb1) / xa1 else (py p - yb1) / ya1 in
      let s0 := at01 (on2 (s_start s)) in
      let e0 := at01 (on2 (s_end s)) in
      let s1 := at01 (on1 p0) in
      let e1 := at01 (on1 p1) in
      if negb s0 && negb e0 && negb s1 && negb e1 then nothing INone
      else if s0 && e0 then found [s_start s; s_end s] IEdge
      else if s1 && e1 then found (if ltb (on1 p0) (on1 p1) then [p0; p1] else [p1; p0]) IEdge
      else if s0 && s1 then found [s_start s; p0] IEdge
      else if s0 && e1 then found [s_start s; p1] IEdge
      else if s1 then found [p0; s_end s] IEdge
      else found [p1; s_end s] IEdge
  else
    let t2 := num / den in
    let t1 := if ltb (Rabs xa1) (Rabs ya1) then (t2 * ya2 + yb2 - yb1) / ya1 else (t2 * xa2 + xb2 - xb1) / xa1 in
    if ltb (- e8) t2 && ltb t2 (1 + e8) && ltb (- e8) t1 && ltb t1 (1 + e8) then
      found [mkPt (t2 * xa2 + xb2) (t2 * ya2 + yb2) (pz p0)] (if at01 t1 || at01 t2 then IEndpoint else INone)
    else nothing INone.

(** [GetIntersections] (L286-348). *)
Definition intersections (s o : seg) : cut :=
  match s_ty s, s_ty o with
  | SNone, _ | _, SNone => nothing INone
  | SCircle, SCircle => check_circles s o
  | SCircle, SArc => check_arcs s o
  | SCircle, SLine => check_arc_line s o
  | SArc, SLine => check_arc_line s o
  | SArc, _ => check_arcs s o
  | SLine, SLine => check_lines s o
  | SLine, _ => check_arc_line s o
  end.
