(** Model of the pieces of which outlines are made, [MCAD_SEGMENT]: a line, an arc
    or a circle in the plane z = 0 (/repo/src/geom/mcad_segment.cpp,
    /repo/src/geom/mcad_helpers.cpp, /repo/src/include/geom/mcad_segment.h).
    A [double] is a real number of Coq's standard library; the rounding of the
    arithmetic, of [sqrt], [cos], [sin], [atan2] and of the constant [M_PI], infinite
    values and NaN are not modelled.  The lists of flags of the DLL layer
    ([m_validFlags]) are left out, they are those of HandleModel.v. *)

From Coq Require Import Reals List Bool ZArith.
Import ListNotations.
Open Scope R_scope.

(** Comparisons as they are made on [double]. *)
Definition ltb (a b : R) : bool := if Rlt_dec a b then true else false.
Definition leb (a b : R) : bool := if Rle_dec a b then true else false.
Definition eqb (a b : R) : bool := if Req_EM_T a b then true else false.

(** [MCAD_POINT] (mcad_elements.h L64-77). *)
Record pt := mkPt { px : R; py : R; pz : R }.

(** [MCAD_POINT::MCAD_POINT()] (mcad_elements.cpp L31-37). *)
Definition origin : pt := mkPt 0 0 0.

(** [MCAD_POINT * scalar] (mcad_elements.cpp L94-101). *)
Definition scale_pt (p : pt) (k : R) : pt := mkPt (px p * k) (py p * k) (pz p * k).

(** [PointMatches] (mcad_helpers.cpp L42-76).  The quotients [rN], [rV] by [minRes]
    are not used by the code and left out. *)
Definition norm2 (p : pt) : R := px p * px p + py p * py p + pz p * pz p.
Definition point_matches (p1 p2 : pt) (res : R) : bool :=
  let dN := Rabs (norm2 p1) in
  let dV := Rabs (norm2 p2) in
  let big := ltb (10^15) dN || ltb (10^15) dV in
  let k := 1 / sqrt (Rmax dN dV) in
  let q1 := if big then scale_pt p1 k else p1 in
  let q2 := if big then scale_pt p2 k else p2 in
  let r := if big then res * k else res in
  let r2 := r * (30001 / 10000 * r) in
  let lim := if ltb r2 (3 / 10^30) then 3 / 10^30 else r2 in
  let dx := px q2 - px q1 in
  let dy := py q2 - py q1 in
  let dz := pz q2 - pz q1 in
  negb (ltb lim (dx * dx + dy * dy + dz * dz)).

(** 1e-8, 1e-3, 1e-6, 1e-14 *)
Definition e8 : R := 1 / 10^8.
Definition e3 : R := 1 / 10^3.
Definition e6 : R := 1 / 10^6.
Definition e14 : R := 1 / 10^14.

(** [atan2] of the C library: the angle of (x, y) in (-pi, pi], 0 for (0, 0).
    The negative zero, for which the library answers -pi or -0, is not modelled. *)
Definition atan2 (y x : R) : R :=
  if Rlt_dec 0 x then atan (y / x)
  else if Rlt_dec x 0 then (if Rle_dec 0 y then atan (y / x) + PI else atan (y / x) - PI)
  else if Rlt_dec 0 y then PI / 2
  else if Rlt_dec y 0 then - (PI / 2)
  else 0.

(** [MCAD_SEGTYPE] (mcad_elements.h L33-39). *)
Inductive segty := SNone | SLine | SArc | SCircle.
Definition segty_eqb (a b : segty) : bool :=
  match a, b with SNone, SNone | SLine, SLine | SArc, SArc | SCircle, SCircle => true | _, _ => false end.

(** The members of [MCAD_SEGMENT] (mcad_segment.h L48-57). *)
Record seg := mkSeg {
  s_ty : segty; s_rad : R; s_sang : R; s_eang : R; s_cw : bool;
  s_cen : pt; s_start : pt; s_end : pt }.

(** [init] (mcad_segment.cpp L77-98). *)
Definition seg_init : seg := mkSeg SNone 0 0 0 false origin origin origin.

(** [SetParams] of a line (L152-172): the answer and the segment afterwards. *)
Definition set_line (a b : pt) : bool * seg :=
  if negb (eqb 0 (pz a)) || negb (eqb 0 (pz b)) then (false, seg_init)
  else if point_matches a b e8 then (false, seg_init)
  else (true, mkSeg SLine 0 0 0 false origin a b).

(** [SetParams] of an arc (L178-253).  When the start matches the end the segment
    becomes a circle whose start and end are to the right of the centre; the
    orientation asked for is then not kept. *)
Definition set_arc (c a b : pt) (isCW : bool) : bool * seg :=
  if negb (eqb 0 (pz c)) || negb (eqb 0 (pz a)) || negb (eqb 0 (pz b)) then (false, seg_init)
  else if point_matches c a e8 || point_matches c b e8 then (false, seg_init)
  else
    let dx := px a - px c in
    let dy := py a - py c in
    let rad := sqrt (dx * dx + dy * dy) in
    if point_matches a b e8 then
      let q := mkPt (px c + rad) (py c) (pz c) in
      (true, mkSeg SCircle rad 0 (2 * PI) false c q q)
    else
      let dx2 := px b - px c in
      let dy2 := py b - py c in
      let r2 := sqrt (dx2 * dx2 + dy2 * dy2) in
      if ltb e8 (Rabs (r2 - rad)) then (false, seg_init)
      else
        let sa := atan2 (py a - py c) (px a - px c) in
        let ea := atan2 (py b - py c) (px b - px c) in
        let sa' := if isCW && ltb sa ea then sa + 2 * PI else sa in
        let ea' := if negb isCW && ltb ea sa then ea + 2 * PI else ea in
        (true, mkSeg SArc rad sa' ea' isCW c a b).

(** [GetStartAngle], [GetEndAngle], [GetStart], [GetEnd] (L1554-1621): in
    counterclockwise order for every arc. *)
Definition start_angle (s : seg) : R := if s_cw s then s_eang s else s_sang s.
Definition end_angle (s : seg) : R := if s_cw s then s_sang s else s_eang s.
Definition get_start (s : seg) : pt := if s_cw s then s_end s else s_start s.
Definition get_end (s : seg) : pt := if s_cw s then s_start s else s_end s.

(** [GetLength] (L256-282). *)
Definition get_length (s : seg) : R :=
  match s_ty s with
  | SCircle => 2 * PI * s_rad s
  | SArc => (end_angle s - start_angle s) * s_rad s
  | SLine =>
      let dx := px (s_end s) - px (s_start s) in
      let dy := py (s_end s) - py (s_start s) in
      sqrt (dx * dx + dy * dy)
  | SNone => 0
  end.

(** [GetMidpoint] (L1506-1539); the point given is kept for an empty segment and its
    z coordinate for a line. *)
Definition get_midpoint (s : seg) (p : pt) : bool * pt :=
  match s_ty s with
  | SCircle => (true, mkPt (px (s_cen s) + s_rad s) (py (s_cen s)) (pz (s_cen s)))
  | SArc =>
      let ang := (s_sang s + s_eang s) * (1 / 2) in
      (true, mkPt (px (s_cen s) + s_rad s * cos ang) (py (s_cen s) + s_rad s * sin ang) (pz (s_cen s)))
  | SLine =>
      (true, mkPt (1 / 2 * (px (s_end s) - px (s_start s)) + px (s_start s))
                  (1 / 2 * (py (s_end s) - py (s_start s)) + py (s_start s)) (pz p))
  | SNone => (false, p)
  end.

(** [reverse] (L1625-1647). *)
Definition reverse (s : seg) : seg :=
  match s_ty s with
  | SNone | SCircle => s
  | SLine => mkSeg SLine (s_rad s) (s_sang s) (s_eang s) (s_cw s) (s_cen s) (s_end s) (s_start s)
  | SArc => mkSeg SArc (s_rad s) (s_eang s) (s_sang s) (negb (s_cw s)) (s_cen s) (s_end s) (s_start s)
  end.

(** [GetBoundingBox] (L1359-1500): the answer and the two corners; coordinates which
    are not assigned keep the values given. *)
Definition between (v a b : R) : bool := leb a v && leb v b.
Definition arc_extrema (s : seg) : list pt :=
  let aS := start_angle s in
  let aE := end_angle s in
  let cx := px (s_cen s) in
  let cy := py (s_cen s) in
  let r := s_rad s in
  (if between 0 aS aE || between (2 * PI) aS aE then [mkPt (cx + r) cy 0] else []) ++
  (if between (PI * (1 / 2)) aS aE || between (5 / 2 * PI) aS aE then [mkPt cx (cy + r) 0] else []) ++
  (if between PI aS aE then [mkPt (cx - r) cy 0] else []) ++
  (if between (- (1 / 2) * PI) aS aE || between (3 / 2 * PI) aS aE then [mkPt cx (cy - r) 0] else []).
Definition widen (b : pt * pt) (m : pt) : pt * pt :=
  let (p0, p1) := b in
  (mkPt (if ltb (px m) (px p0) then px m else px p0) (if ltb (py m) (py p0) then py m else py p0) (pz p0),
   mkPt (if ltb (px p1) (px m) then px m else px p1) (if ltb (py p1) (py m) then py m else py p1) (pz p1)).
Definition get_box (s : seg) (p0 p1 : pt) : bool * (pt * pt) :=
  let a := s_start s in
  let b := s_end s in
  match s_ty s with
  | SNone => (false, (p0, p1))
  | SLine =>
      if ltb (Rabs (px a - px b)) e8 then
        (true, if leb (py a) (py b) then (a, b) else (b, a))
      else
        let x := if ltb (px a) (px b) then (px a, px b) else (px b, px a) in
        let y := if ltb (py a) (py b) then (py a, py b) else (py b, py a) in
        (true, (mkPt (fst x) (fst y) (pz p0), mkPt (snd x) (snd y) (pz p1)))
  | SCircle =>
      (true, (mkPt (px (s_cen s) - s_rad s) (py (s_cen s) - s_rad s) (pz p0),
              mkPt (px (s_cen s) + s_rad s) (py (s_cen s) + s_rad s) (pz p1)))
  | SArc =>
      let x := if ltb (px a) (px b) then (px a, px b) else (px b, px a) in
      let y := if ltb (py a) (py b) then (py a, py b) else (py b, py a) in
      (true, fold_left widen (arc_extrema s) (mkPt (fst x) (fst y) (pz p0), mkPt (snd x) (snd y) (pz p1)))
  end.

(** [NORMALIZE_ANGLES] (L40-53).  The first loop takes whole turns off both angles
    while both are above pi: as many as the smaller one needs to get to pi or below;
    the second adds whole turns while both are at -pi or below.  The number of passes
    is written down instead of the loops, [turns x] is the least number of turns
    which takes [x] to 0 or below. *)
Definition turns (x : R) : R := IZR (- (up (- (x / (2 * PI))) - 1)).
Definition norm_angles (a0 a1 : R) : R * R :=
  let m := Rmin a0 a1 in
  let k := if Rlt_dec PI m then turns (m - PI) else 0 in
  let b0 := a0 - 2 * PI * k in
  let b1 := a1 - 2 * PI * k in
  let M := Rmax b0 b1 in
  let j := if Rle_dec M (- PI) then IZR (up (- ((M + PI) / (2 * PI)))) else 0 in
  (b0 + 2 * PI * j, b1 + 2 * PI * j).

(** [splitLine] (L1649-1796): the answer, the segment afterwards and the new
    segments.  The answer of [SetParams] is not looked at. *)
Definition line_param (s : seg) (p : pt) : option R :=
  let a := s_start s in
  let b := s_end s in
  if ltb (Rabs (px b - px a)) (Rabs (py b - py a)) then
    let t := (- py a + py p) * (1 / (py b - py a)) in
    if ltb t 0 || ltb 1 t then None
    else if ltb e8 (Rabs (t * (px b - px a) + px a - px p)) then None else Some t
  else
    let t := (- px a + px p) * (1 / (px b - px a)) in
    if ltb t 0 || ltb 1 t then None
    else if ltb e8 (Rabs (t * (py b - py a) + py a - py p)) then None else Some t.
Definition with_end (s : seg) (p : pt) : seg :=
  mkSeg (s_ty s) (s_rad s) (s_sang s) (s_eang s) (s_cw s) (s_cen s) (s_start s) p.
Definition split_line (s : seg) (ps : list pt) : bool * (seg * list seg) :=
  match ps with
  | [p] =>
      match line_param s p with
      | None => (false, (s, []))
      | Some _ => (true, (with_end s p, [snd (set_line p (s_end s))]))
      end
  | [p; q] =>
      match line_param s p, line_param s q with
      | Some t, Some u =>
          let p0 := if ltb t u then p else q in
          let p1 := if ltb t u then q else p in
          (true, (with_end s p0, [snd (set_line p0 p1); snd (set_line p1 (s_end s))]))
      | _, _ => (false, (s, []))
      end
  | _ => (false, (s, []))
  end.

(** [splitArc] (L1799-1936).  The angles of the new arcs are brought into range, those
    of the arc itself are not. *)
Definition arc_angle (s : seg) (p : pt) : option R :=
  let dx := px p - px (s_cen s) in
  let dy := py p - py (s_cen s) in
  if ltb e8 (Rabs (dx * dx + dy * dy - s_rad s * s_rad s)) then None
  else
    let a := atan2 dy dx in
    let a' := if ltb a (start_angle s) then a + 2 * PI else a in
    if ltb (end_angle s) a' then None else Some a'.
Definition new_arc (s : seg) (p q : pt) (a b : R) : seg :=
  let n := norm_angles a b in
  mkSeg SArc (s_rad s) (fst n) (snd n) (s_cw s) (s_cen s) p q.
Definition with_arc_end (s : seg) (p : pt) (a : R) : seg :=
  mkSeg (s_ty s) (s_rad s) (s_sang s) a (s_cw s) (s_cen s) (s_start s) p.
Definition split_arc (s : seg) (ps : list pt) : bool * (seg * list seg) :=
  match ps with
  | [p] =>
      match arc_angle s p with
      | None => (false, (s, []))
      | Some a => (true, (with_arc_end s p a, [new_arc s p (s_end s) a (s_eang s)]))
      end
  | [p; q] =>
      match arc_angle s p, arc_angle s q with
      | Some a, Some b =>
          let swap := if s_cw s then ltb a b else ltb b a in
          let a0 := if swap then b else a in
          let a1 := if swap then a else b in
          let p0 := if swap then q else p in
          let p1 := if swap then p else q in
          (true, (with_arc_end s p0 a0, [new_arc s p0 p1 a0 a1; new_arc s p1 (s_end s) a1 (s_eang s)]))
      | _, _ => (false, (s, []))
      end
  | _ => (false, (s, []))
  end.

(** [splitCircle] (L1939-2023). *)
Definition ccw_arc (c : pt) (r : R) (p q : pt) (a b : R) : seg :=
  let n := norm_angles a (if ltb b a then b + 2 * PI else b) in
  mkSeg SArc r (fst n) (snd n) false c p q.
Definition split_circle (s : seg) (ps : list pt) : bool * (seg * list seg) :=
  match ps with
  | [p; q] =>
      if ltb (Rabs (px p - px q)) e8 && ltb (Rabs (py p - py q)) e8 then (false, (s, []))
      else
        let c := s_cen s in
        let r := s_rad s in
        let dd (v : pt) := (px v - px c) * (px v - px c) + (py v - py c) * (py v - py c) in
        if ltb e8 (Rabs (dd p - r * r)) || ltb e8 (Rabs (dd q - r * r)) then (false, (s, []))
        else
          let a := atan2 (py p - py c) (px p - px c) in
          let b := atan2 (py q - py c) (px q - px c) in
          (true, (ccw_arc c r q p b a, [ccw_arc c r p q a b]))
  | _ => (false, (s, []))
  end.

(** [Split] (L352-427): the answer, what is left of the list of points, the segment
    afterwards and the new segments in the order in which they are appended. *)
Definition split (s : seg) (ps : list pt) : bool * (list pt * (seg * list seg)) :=
  match s_ty s with
  | SNone => (false, (ps, (s, [])))
  | ty =>
      match length ps with
      | 1%nat | 2%nat =>
          let ps' := match ty with
                     | SCircle => ps
                     | _ => filter (fun p => negb (point_matches p (s_start s) e8 || point_matches p (s_end s) e8)) ps
                     end in
          let r := match ty with
                   | SLine => split_line s ps'
                   | SArc => split_arc s ps'
                   | _ => split_circle s ps'
                   end in
          (fst r, (ps', snd r))
      | _ => (false, (ps, (s, [])))
      end
  end.
