(** Model of the outlines of an IDF board as they are held in memory: the pieces
    [IDF_SEGMENT] and the loops [IDF_OUTLINE] (/repo/src/idf/idf_common.cpp,
    /repo/src/idf/idf_common.h), and how a loop becomes an [MCAD_OUTLINE]
    (/repo/src/idf/idf2igs.cpp).  A [double] is a real number as in SegModel.v: rounding,
    infinite values and NaN are not modelled.  A list holds pieces, not pointers. *)

From Coq Require Import Reals List Bool ZArith.
From Verif Require Import SegModel OutModel.
Import ListNotations.
Open Scope R_scope.

(** [IDF_POINT] (idf_common.h L470-480). *)
Record ipt := mkI { ix : R; iy : R }.

(** [MIN_ANG] (idf_common.h L37). *)
Definition min_ang : R := 1 / 100.

(** [IDF_POINT::Matches] (idf_common.cpp L844-855); the default radius is 1e-5
    (idf_common.h L492), that of [MatchesStart] and [MatchesEnd] is 1e-3 (L567, L579). *)
Definition idf_matches (p q : ipt) (r : R) : bool :=
  let dx := ix p - ix q in
  let dy := iy p - iy q in
  leb (dx * dx + dy * dy) (r * r).
Definition e5 : R := 1 / 10 ^ 5.

(** [IDF_POINT::CalcDistance] (L858-865). *)
Definition idf_dist (p q : ipt) : R :=
  let dx := ix q - ix p in
  let dy := iy q - iy p in
  sqrt (dx * dx + dy * dy).

(** The conversion of a [double] to an [int], which cuts off what is behind the point;
    the angles below always fit. *)
Definition trunc (x : R) : Z := if leb 0 x then Int_part x else (- Int_part (- x))%Z.

(** [CalcAngleRad] and [CalcAngleDeg] (L868-884). *)
Definition angle_rad (p q : ipt) : R := atan2 (iy q - iy p) (ix q - ix p).
Definition angle_deg (p q : ipt) : R := IZR (trunc (angle_rad p q / PI * 1800000)) / 10000.

(** The members of [IDF_SEGMENT] (idf_common.h L517-529). *)
Record iseg := mkSg { g_start : ipt; g_end : ipt; g_cen : ipt; g_ang : R; g_off : R; g_rad : R }.

(** The constructor of a line (L1042-1049); the centre is that of [IDF_POINT]'s
    constructor. *)
Definition izero : ipt := mkI 0 0.
Definition line_seg (a b : ipt) : iseg := mkSg a b izero 0 0 0.

(** [CalcCenterAndRadius] (L1113-1153). *)
Definition arc_radius (a b : ipt) (ang : R) : R :=
  let r := idf_dist a b / 2 / sin (ang * PI / 360) in
  if ltb r 0 then - r else r.
Definition arc_centre (a b : ipt) (ang : R) : ipt :=
  let d := idf_dist a b / 2 in
  let r := arc_radius a b ang in
  let dh2 := r * r - d * d in
  let h := sqrt (if ltb dh2 0 then 0 else dh2) in
  let o1 := if ltb 0 ang then angle_rad a b + PI / 2 else angle_rad a b - PI / 2 in
  let o2 := if ltb 180 ang || ltb ang (- 180) then o1 + PI else o1 in
  mkI (h * cos o2 + (ix a + ix b) * (1 / 2)) (h * sin o2 + (iy a + iy b) * (1 / 2)).

(** Whether an angle is that of a full circle (L1057-1060, L1156-1164). *)
Definition full_turn (ang : R) : bool :=
  let diff := Rabs ang - 360 in
  ltb diff min_ang && ltb (- min_ang) diff.

(** The constructor with an angle (L1052-1098).  In the convention of KiCad the
    first point is the centre and the second one the start. *)
Definition arc_seg (a b : ipt) (ang : R) (kicad : bool) : iseg :=
  if full_turn ang then mkSg a b a 360 0 (idf_dist a b)
  else if (ltb ang min_ang && ltb (- min_ang) ang) || negb kicad then
    if ltb min_ang ang || ltb ang (- min_ang) then
      let c := arc_centre a b ang in
      mkSg a b c ang (angle_deg c a) (arc_radius a b ang)
    else mkSg a b izero 0 0 0
  else
    let off := angle_deg a b in
    let r := idf_dist a b in
    let w := (off + ang) / 180 * PI in
    mkSg b (mkI (r * cos w + ix a) (r * sin w + iy a)) a ang off r.

(** [IsCircle] of a segment (L1156-1164). *)
Definition seg_circle (s : iseg) : bool := full_turn (g_ang s).

(** [SwapEnds] (L1211-1231). *)
Definition swap_ends (s : iseg) : iseg :=
  if seg_circle s then mkSg (g_start s) (g_end s) (g_cen s) (- g_ang s) (g_off s) (g_rad s)
  else if ltb (g_ang s) min_ang && ltb (- min_ang) (g_ang s) then
    mkSg (g_end s) (g_start s) (g_cen s) (g_ang s) (g_off s) (g_rad s)
  else mkSg (g_end s) (g_start s) (g_cen s) (- g_ang s) (angle_deg (g_cen s) (g_end s)) (g_rad s).

(** The members of [IDF_OUTLINE] (idf_common.h L609-613). *)
Record iout := mkIo { l_segs : list iseg; l_dir : R }.
Definition iout_init : iout := mkIo [] 0.

(** Whether a segment counts as an arc (L1260, L1365). *)
Definition bent (ang : R) : bool := ltb ang (- min_ang) || ltb min_ang ang.

(** The term which a segment adds to [dir] (L1361-1385). *)
Definition dir_of (s : iseg) : R :=
  let a := g_start s in
  let b := g_end s in
  if bent (g_ang s) then
    let w := (g_off s + g_ang s / 2) * PI / 180 in
    let mx := ix (g_cen s) + g_rad s * cos w in
    let my := iy (g_cen s) + g_rad s * sin w in
    (ix b - mx) * (iy b + my) + (mx - ix a) * (my + iy a)
  else (ix b - ix a) * (iy b + iy a).

(** [IDF_OUTLINE::push] (L1327-1388). *)
Definition push (o : iout) (s : iseg) : bool * iout :=
  let added := (true, mkIo (l_segs o ++ [s]) (l_dir o + dir_of s)) in
  match l_segs o with
  | [] => added
  | f :: l =>
      let back := last l f in
      if seg_circle s then (false, o)
      else if seg_circle back then (false, o)
      else if negb (idf_matches (g_start s) (g_end back) e3) then (false, o)
      else added
  end.

(** [IDF_OUTLINE::IsCCW] (L1234-1314). *)
Definition is_ccw (o : iout) : bool :=
  match l_segs o with
  | [] => false
  | [s] => seg_circle s
  | [s; t] =>
      let a1 := g_ang s in
      let a2 := g_ang t in
      if bent a1 && bent a2 then
        if leb (Rabs (a2 * g_rad t)) (Rabs (a1 * g_rad s)) then negb (ltb a1 0) else negb (ltb a2 0)
      else if ltb a1 (- min_ang) then false
      else if ltb min_ang a1 then true
      else if ltb a2 (- min_ang) then false
      else ltb min_ang a2
  | s :: l =>
      let back := last l s in
      let w := l_dir o + (ix (g_start s) - ix (g_end back)) * (iy (g_start s) + iy (g_end back)) in
      negb (ltb 0 w)
  end.

(** One segment of [convertOln] (idf2igs.cpp L419-462).  The answer of [SetParams] is
    not looked at: a segment which is refused is left as [init] makes it. *)
Definition to3 (p : ipt) : pt := mkPt (ix p) (iy p) 0.
Definition convert_seg (s : iseg) : seg :=
  if seg_circle s then
    let p := mkPt (ix (g_cen s) + g_rad s) (iy (g_cen s)) 0 in
    snd (set_arc (to3 (g_cen s)) p p false)
  else if ltb 0 (g_rad s) then
    snd (set_arc (to3 (g_cen s)) (to3 (g_start s)) (to3 (g_end s)) (negb (ltb 0 (g_ang s))))
  else snd (set_line (to3 (g_start s)) (to3 (g_end s))).

(** [convertOln] (idf2igs.cpp L398-483): [None] is undefined behaviour. *)
Fixpoint convert_segs (o : outline) (l : list iseg) : option (bool * outline) :=
  match l with
  | [] => Some (true, o)
  | s :: l' =>
      match add_segment o (Some (convert_seg s)) with
      | None => None
      | Some ((ok, bad), o') => if negb ok || bad then Some (false, o') else convert_segs o' l'
      end
  end.
Definition convert_oln (o : outline) (l : list iseg) : option (bool * outline) :=
  match l with
  | [] => Some (false, o)
  | _ => convert_segs o l
  end.
