(** Model of the making of board surfaces: [IGES_GEOM_CYLINDER] and [IGES_GEOM_WALL]
    (geom_cylinder.cpp, geom_wall.cpp) and [IGES_GEOM_PCB] (iges_geom_pcb.cpp), over the
    real numbers as in SegModel.v.

    Entities are kept as values: a curve is its defining data, a composite curve the list
    of its members, a trimmed surface its surface and the curves bounding it.  That all
    entities are new ones of the model given, that [NewEntity], the casts and the setters
    of pointers to new entities succeed, and what is deleted after a failure, is left out;
    the last is done for all entities by [CLEANUP] (geom_cylinder.cpp) and not at all in
    [GetTrimmedPlane].  Dependency and subordinate flags are left out.

    The splines are those of the SISL library, which is not part of the code: [s1602]
    gives the straight line between two points, [s1303] the circular arc which starts at a
    point and turns by an angle about an axis through a centre (the library keeps within
    1e-8 of it, here it is exact), [s1536] for two times two points with uniform
    parameters the bilinear surface on the unit square, the first parameter running
    between the first two points.  The library is taken to succeed. *)

From Coq Require Import Reals List Bool ZArith.
From Verif Require Import SegModel OutModel.
Import ListNotations.
Open Scope R_scope.

(** A transform entity (entity124.h, mcad_elements.h L95-140): the rows of the matrix,
    the translation, the form number. *)
Record xform := mkXf { xf_x : pt; xf_y : pt; xf_z : pt; xf_t : pt; xf_form : Z }.

(** [MCAD_TRANSFORM * MCAD_POINT] (mcad_elements.cpp L196-204, L330-334). *)
Definition dot (a b : pt) : R := px a * px b + py a * py b + pz a * pz b.
Definition xf_apply (m : xform) (p : pt) : pt :=
  mkPt (dot (xf_x m) p + px (xf_t m)) (dot (xf_y m) p + py (xf_t m)) (dot (xf_z m) p + pz (xf_t m)).

(** Curves: [IGES_ENTITY_110]; [IGES_ENTITY_100] with centre, start and end at a height
    and its transform; [IGES_ENTITY_126] with the data of [s1602]; the same with those of
    [s1303]: start, centre, angle, direction (1 or -1) of the axis along z. *)
Inductive crv :=
| CLine (a b : pt)
| CArc (z : R) (c a b : pt) (m : option xform)
| NLine (a b : pt)
| NArc (a c : pt) (angle axis : R).

(** Rotation about the vertical through [c]. *)
Definition turn (c : pt) (w : R) (p : pt) : pt :=
  mkPt (px c + cos w * (px p - px c) - sin w * (py p - py c))
       (py c + sin w * (px p - px c) + cos w * (py p - py c)) (pz p).

(** [GetStartPoint], [GetEndPoint] with the transform applied (entity100.cpp L417-440,
    entity110.cpp L315-338, entity126.cpp L827-950: the spline at its first and last
    parameter). *)
Definition moved (m : option xform) (p : pt) : pt := match m with Some x => xf_apply x p | None => p end.
Definition crv_start (c : crv) : pt :=
  match c with
  | CLine a _ | NLine a _ | NArc a _ _ _ => a
  | CArc z _ a _ m => moved m (mkPt (px a) (py a) z)
  end.
Definition crv_end (c : crv) : pt :=
  match c with
  | CLine _ b | NLine _ b => b
  | CArc z _ _ b m => moved m (mkPt (px b) (py b) z)
  | NArc a o w d => turn o (d * w) a
  end.

(** [IGES_ENTITY_102::IsClosed] (entity102.cpp L675-720); all curves here report
    segments. *)
Definition loop_closed (res : R) (l : list crv) : bool :=
  match l with
  | [] => false
  | [CArc z c a b m] => point_matches (crv_start (CArc z c a b m)) (crv_end (CArc z c a b m)) res
  | [_] => false
  | f :: r => point_matches (crv_start f) (crv_end (last r f)) res
  end.
(** [AddSegment] (entity102.cpp L723-766) for one curve after the other; none of them is
    a composite or one added before. *)
Fixpoint add_all (res : R) (got todo : list crv) : option (list crv) :=
  match todo with
  | [] => Some got
  | c :: l => if loop_closed res got then None else add_all res (got ++ [c]) l
  end.
Definition compose (res : R) (l : list crv) : option (list crv) := add_all res [] l.

(** Surfaces: [IGES_ENTITY_120] with the axis, the generatrix and the two angles;
    [IGES_ENTITY_128] with the data of [s1536]. *)
Inductive surf :=
| Rev (axis gen : pt * pt) (a0 a1 : R)
| Bil (p00 p10 p01 p11 : pt).

(** [IGES_ENTITY_142] with the curves in parameters (BPTR) and in space (CPTR);
    [IGES_ENTITY_144]. *)
Record bound := mkBound { b_par : list crv; b_geo : list crv }.
Record trimmed := mkTrim { t_surf : surf; t_out : bound; t_in : list bound }.

(** ** Cylinders *)

(** The members of [IGES_GEOM_CYLINDER] (geom_cylinder.h): the radius, the centre
    [arcs[0]], the points [arcs[1]] to [arcs[narcs + 1]], and for each arc its two angles. *)
Record cyl := mkCyl { c_rad : R; c_cen : pt; c_pts : list pt; c_angs : list (R * R) }.
Definition cyl_clear : cyl := mkCyl 0 origin [] [].

(** The angles (L155-238). *)
Definition cyl_angles (ang1 ang2 : R) : list (R * R) :=
  let ang2 := if ltb ang2 ang1 then ang2 + 2 * PI else ang2 in
  if ltb ang1 0 then
    let ang1 := ang1 + 2 * PI in
    let ang2 := ang2 + 2 * PI in
    if leb ang2 (2 * PI) then [(ang1, ang2)]
    else if leb ang2 (3 * PI) then [(ang1, 2 * PI); (0, ang2 - 2 * PI)]
    else [(ang1, 2 * PI); (0, PI); (PI, ang2 - 2 * PI)]
  else if leb ang2 PI || (leb PI ang1 && leb ang2 (2 * PI)) then [(ang1, ang2)]
  else if ltb ang1 PI then
    if leb ang2 (2 * PI) then [(ang1, PI); (PI, ang2)]
    else [(ang1, PI); (PI, 2 * PI); (0, ang2 - 2 * PI)]
  else if leb ang2 (2 * PI) then [(ang1, ang2)]
  else [(ang1, 2 * PI); (0, ang2 - 2 * PI)].

(** [SetParams] (L114-267): the answer and the object afterwards. *)
Definition set_cyl (c a b : pt) : bool * cyl :=
  if negb (eqb (pz c) 0) || negb (eqb (pz a) 0) || negb (eqb (pz b) 0) then (false, cyl_clear)
  else if point_matches c a e8 || point_matches c b e8 then (false, cyl_clear)
  else
    let rad (p : pt) := sqrt ((px c - px p) * (px c - px p) + (py c - py p) * (py c - py p)) in
    if ltb e8 (Rabs (rad a - rad b)) then (false, cyl_clear)
    else
      let r := rad a in
      if point_matches a b e8 then
        let p := mkPt (px c + r) (py c) (pz c) in
        let q := mkPt (px c - r) (py c) (pz c) in
        (true, mkCyl r c [p; q; p] [(0, PI); (PI, 2 * PI)])
      else
        let angs := cyl_angles (atan2 (py a - py c) (px a - px c)) (atan2 (py b - py c) (px b - px c)) in
        let mid := map (fun g => mkPt (px c + r * cos (fst g)) (py c + r * sin (fst g)) 0) (tl angs) in
        (true, mkCyl r c (a :: mid ++ [b]) angs).

(** The settings of the transforms (L514-518; iges_geom_pcb.cpp L1427-1437): what
    [MCAD_MATRIX] starts with, two entries turned, and form 1. *)
Definition flip (x z : R) : xform := mkXf (mkPt (-1) 0 0) (mkPt 0 1 0) (mkPt 0 0 (-1)) (mkPt x 0 (2 * z)) 1.

(** One part (L623-945): axis and generatrix, the bound in space from the two points, the
    bound in parameters from the two angles. *)
Definition at_z (p : pt) (z : R) : pt := mkPt (px p) (py p) z.
Definition cyl_geo (c : pt) (top bot : R) (p q : pt) : list crv :=
  [ CArc top c p q None;
    CLine (at_z q top) (at_z q bot);
    CArc bot (mkPt 0 (py c) 0) (mkPt (px c - px q) (py q) 0) (mkPt (px c - px p) (py p) 0) (Some (flip (px c) bot));
    CLine (at_z p bot) (at_z p top) ].
Definition cyl_par (rev : bool) (g : R * R) : list crv :=
  let v (w : R) := if rev then 2 * PI - w else w in
  let at_ (u w : R) := mkPt u w 0 in
  [ NLine (at_ 0 (v (fst g))) (at_ 0 (v (snd g)));
    NLine (at_ 0 (v (snd g))) (at_ 1 (v (snd g)));
    NLine (at_ 1 (v (snd g))) (at_ 1 (v (fst g)));
    NLine (at_ 1 (v (fst g))) (at_ 0 (v (fst g))) ].
Definition cyl_surf (k : cyl) (top bot : R) (rev : bool) : surf :=
  let c := c_cen k in
  let g := mkPt (px c + c_rad k) (py c) 0 in
  Rev (if rev then (at_z c top, at_z c bot) else (at_z c bot, at_z c top)) (at_z g top, at_z g bot) 0 (2 * PI).

(** The pairs of neighbours in a list. *)
Fixpoint pairs (l : list pt) : list (pt * pt) :=
  match l with
  | p :: ((q :: _) as r) => (p, q) :: pairs r
  | _ => []
  end.

(** All or nothing. *)
Fixpoint all_some {A : Type} (l : list (option A)) : option (list A) :=
  match l with
  | [] => Some []
  | Some a :: r => match all_some r with Some r' => Some (a :: r') | None => None end
  | None :: _ => None
  end.

(** [Instantiate] (L270-1005): [None] for the answer false.  [res] is the resolution of
    the model, for which [IsClosed] asks. *)
Definition cyl_part (res : R) (k : cyl) (top bot : R) (rev : bool) (x : (pt * pt) * (R * R)) : option trimmed :=
  match compose res (cyl_geo (c_cen k) top bot (fst (fst x)) (snd (fst x))), compose res (cyl_par rev (snd x)) with
  | Some geo, Some par => Some (mkTrim (cyl_surf k top bot rev) (mkBound par geo) [])
  | _, _ => None
  end.
Definition cyl_make (res : R) (k : cyl) (top bot : R) (rev : bool) : option (list trimmed) :=
  match c_angs k with
  | [] => None
  | _ =>
      if ltb (Rabs (top - bot)) (1 / 1000) then None
      else
        let t := if ltb top bot then bot else top in
        let b := if ltb top bot then top else bot in
        all_some (map (cyl_part res k t b rev) (combine (pairs (c_pts k)) (c_angs k)))
  end.

(** ** Walls *)

(** [IGES_GEOM_WALL::SetParams] and [Instantiate] (geom_wall.cpp L100-639); the members
    N1 and N2 set before SetPTO are set again by it (entity144.cpp L730-780). *)
Definition wall_make (res : R) (p0 p1 p2 p3 : pt) : option trimmed :=
  let at_ (u v : R) := mkPt u v 0 in
  match compose res [NLine (at_ 0 0) (at_ 1 0); NLine (at_ 1 0) (at_ 1 1); NLine (at_ 1 1) (at_ 0 1); NLine (at_ 0 1) (at_ 0 0)],
        compose res [CLine p0 p1; CLine p1 p2; CLine p2 p3; CLine p3 p0] with
  | Some par, Some geo => Some (mkTrim (Bil p0 p1 p3 p2) (mkBound par geo) [])
  | _, _ => None
  end.

(** [GetSegmentWall] (iges_geom_pcb.cpp L1000-1091); the answer of [SetParams] of the
    cylinder is not looked at, but nothing is made of a cleared one. *)
Definition segment_wall (res top bot : R) (s : seg) (rev : bool) : option (list trimmed) :=
  if ltb (Rabs (top - bot)) e6 then None
  else
    match s_ty s with
    | SNone => None
    | SCircle | SArc =>
        let k := snd (set_cyl (s_cen s) (get_start s) (get_end s)) in
        cyl_make res k top bot (if s_cw s then negb rev else rev)
    | SLine =>
        let p0 := at_z (s_start s) top in
        let p1 := at_z (s_end s) top in
        let p2 := at_z (s_end s) bot in
        let p3 := at_z (s_start s) bot in
        match (if rev then wall_make res p0 p1 p2 p3 else wall_make res p3 p2 p1 p0) with
        | Some t => Some [t]
        | None => None
        end
    end.

(** ** Curves of a plane in space *)

(** The pieces of an arc from the angle a0 to a1 (L1187-1420). *)
Definition pieces (c : pt) (r a0 a1 : R) (p0 p1 : pt) : list (pt * pt) :=
  let lf := mkPt (px c - r) (py c) 0 in
  let rt := mkPt (px c + r) (py c) 0 in
  if leb 0 a0 && ltb a0 PI then
    if leb a1 PI then [(p0, p1)]
    else if leb a1 (2 * PI) then [(p0, lf); (lf, p1)]
    else [(p0, lf); (lf, rt); (rt, p1)]
  else if eqb a0 PI then
    if leb a1 (2 * PI) then [(p0, p1)] else [(p0, rt); (rt, p1)]
  else
    if leb a1 0 then [(p0, p1)]
    else if leb a1 PI then [(p0, rt); (rt, p1)]
    else [(p0, rt); (rt, lf); (lf, p1)].

(** [getCurveArc] (L1152-1457). *)
Definition curve_arc (z : R) (s : seg) : list crv :=
  let c := s_cen s in
  if s_cw s then
    let p0 := mkPt (px c - px (s_start s)) (py (s_start s)) (pz (s_start s)) in
    let p1 := mkPt (px c - px (s_end s)) (py (s_end s)) (pz (s_end s)) in
    let c0 := mkPt 0 (py c) (pz c) in
    let a0 := atan2 (py p0 - py c0) (px p0) in
    let b := atan2 (py p1 - py c0) (px p1) in
    let a1 := if ltb b a0 then b + 2 * PI else b in
    map (fun q => CArc z c0 (fst q) (snd q) (Some (flip (px c) z))) (pieces c0 (s_rad s) a0 a1 p0 p1)
  else
    map (fun q => CArc z c (fst q) (snd q) None) (pieces c (s_rad s) (s_sang s) (s_eang s) (s_start s) (s_end s)).

(** [getCurveCircle] (L1094-1149). *)
Definition curve_circle (z : R) (s : seg) : list crv :=
  let c := s_cen s in
  let rt := mkPt (px c + s_rad s) (py c) 0 in
  let lf := mkPt (px c - s_rad s) (py c) 0 in
  [CArc z c rt lf None; CArc z c lf rt None].

(** [GetCurves] (L925-951), [getCurveLine] (L1460-1503): [None] for the answer false. *)
Definition get_curves (z : R) (s : seg) : option (list crv) :=
  match s_ty s with
  | SLine => Some [CLine (at_z (s_start s) z) (at_z (s_end s) z)]
  | SArc => Some (curve_arc z s)
  | SCircle => Some (curve_circle z s)
  | SNone => None
  end.

(** ** Curves of a plane in parameters *)

(** Where a point of the plane goes (L1541-1543, L1632-1652, L1872-1889). *)
Definition onto (x y k z : R) (rev : bool) (p : pt) : pt :=
  let v := (py p - y) * k in
  mkPt ((px p - x) * k) (if rev then 1 - v else v) z.

(** [copLine] (L1859-1925). *)
Definition cop_line (x y k z : R) (s : seg) (rev : bool) : list crv :=
  [NLine (onto x y k z rev (s_start s)) (onto x y k z rev (s_end s))].

(** [copCircle] (L1506-1606). *)
Definition cop_circle (x y k z : R) (s : seg) (rev : bool) : list crv :=
  let c := onto x y k z rev (s_cen s) in
  let d := if rev then -1 else 1 in
  let r := s_rad s * k in
  [NArc (mkPt (px c + r) (py c) (pz c)) c PI d; NArc (mkPt (px c - r) (py c) (pz c)) c PI d].

(** [copArc] (L1609-1856): start and angle of each piece (L1631-1745), and the curves
    made of them (L1759-1846), for a clockwise arc from the last piece to the first, each
    started where the next piece starts. *)
Definition cop_pieces (c : pt) (r sa ea : R) (p0 : pt) : list (pt * R) :=
  let rt := mkPt (px c + r) (py c) (pz c) in
  let lf := mkPt (px c - r) (py c) (pz c) in
  if ltb sa 0 then
    if leb ea 0 then [(p0, ea - sa)]
    else if leb ea PI then [(p0, - sa); (rt, ea)]
    else [(p0, - sa); (rt, PI); (lf, ea - PI)]
  else if leb ea PI || (leb PI sa && leb ea (2 * PI)) then [(p0, ea - sa)]
  else if ltb sa PI then
    if leb ea (2 * PI) then [(p0, PI - sa); (lf, ea - PI)]
    else [(p0, PI - sa); (lf, PI); (rt, ea - 2 * PI)]
  else if leb ea (2 * PI) then [(p0, ea - sa)]
  else [(p0, 2 * PI - sa); (rt, ea - 2 * PI)].
Definition cop_arc (x y k z : R) (s : seg) (rev : bool) : list crv :=
  let p0 := onto x y k z rev (get_start s) in
  let p1 := onto x y k z rev (get_end s) in
  let c := onto x y k z rev (s_cen s) in
  let over := ltb PI (start_angle s) in
  let sa := if over then start_angle s - 2 * PI else start_angle s in
  let ea := if over then end_angle s - 2 * PI else end_angle s in
  let ps := cop_pieces c (s_rad s * k) sa ea p0 in
  let d := if xorb (s_cw s) rev then -1 else 1 in
  if s_cw s then
    List.rev (map (fun q => NArc (snd q) c (snd (fst q)) d) (combine ps (map fst (tl ps) ++ [p1])))
  else map (fun q => NArc (fst q) c (snd q) d) ps.

(** [GetCurveOnPlane] (L958-996); the last of the limits is not used. *)
Definition curve_on_plane (minx maxx miny z : R) (s : seg) (rev : bool) : option (list crv) :=
  let k := 1 / (maxx - minx) in
  match s_ty s with
  | SCircle => Some (cop_circle minx miny k z s rev)
  | SArc => Some (cop_arc minx miny k z s rev)
  | SLine => Some (cop_line minx miny k z s rev)
  | SNone => None
  end.

(** ** Boards *)

(** An outline with its cutouts and drill holes (mcad_outline.h L60-72). *)
Record board := mkBoard { b_out : outline; b_cuts : list (list seg); b_holes : list seg }.

(** [GetVerticalSurface] (L189-292): the answer, the error flag, and the surfaces
    appended to those of the caller. *)
Fixpoint walls (res top bot : R) (rev : bool) (l : list seg) : bool * list trimmed :=
  match l with
  | [] => (true, [])
  | s :: r =>
      match segment_wall res top bot s rev with
      | None => (false, [])
      | Some w => let q := walls res top bot rev r in (fst q, w ++ snd q)
      end
  end.
Definition vertical (res : R) (b : board) (top bot : R) : ans * list trimmed :=
  if negb (o_closed (b_out b)) then (no, [])
  else match o_segs (b_out b) with
  | [] => (no, [])
  | segs =>
      let r1 := walls res top bot false segs in
      let r2 := walls res top bot true (b_holes b ++ concat (b_cuts b)) in
      if fst r1 then ((fst r2, negb (fst r2)), snd r1 ++ snd r2) else (no, snd r1)
  end.

(** One bound of a plane (L353-445): [None] for a failure. *)
Definition plane_bound (res : R) (bl tr : pt) (z : R) (rev : bool) (l : list seg) : option bound :=
  match all_some (map (fun s => curve_on_plane (px bl) (px tr) (py bl) z s rev) l), all_some (map (get_curves z) l) with
  | Some par, Some geo =>
      match compose res (concat par), compose res (concat geo) with
      | Some p, Some g => Some (mkBound p g)
      | _, _ => None
      end
  | _, _ => None
  end.

(** [getUntrimmedPlane] (L738-920). *)
Definition plane_surf (bl tr : pt) (z : R) (rev : bool) : surf :=
  if rev then Bil (mkPt (px bl) (py tr) z) (mkPt (px tr) (py tr) z) (mkPt (px bl) (py bl) z) (mkPt (px tr) (py bl) z)
  else Bil (mkPt (px bl) (py bl) z) (mkPt (px tr) (py bl) z) (mkPt (px bl) (py tr) z) (mkPt (px tr) (py tr) z).

(** [GetTrimmedPlane] (L297-734): the answer, the error flag, the outline afterwards (its
    box is computed) and the surface appended.  [None] is undefined behaviour in the
    computation of the box.  Of an empty outline, which is not closed, there is no box. *)
Definition trimmed_plane (res : R) (b : board) (z : R) (rev : bool) : option (ans * outline * list trimmed) :=
  match calc_box (b_out b) with
  | None => None
  | Some o =>
      if negb (o_closed o) then Some (no, o, [])
      else match o_segs o with
      | [] => Some (no, o, [])
      | segs =>
          match plane_bound res (o_bl o) (o_tr o) z rev segs,
                all_some (map (plane_bound res (o_bl o) (o_tr o) z rev) (b_cuts b ++ map (fun s => [s]) (b_holes b))) with
          | Some out, Some ins => Some (yes, o, [mkTrim (plane_surf (o_bl o) (o_tr o) z rev) out ins])
          | _, _ => Some (no, o, [])
          end
      end
  end.
