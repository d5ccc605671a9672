(** The slots of IDF boards (/repo/src/idf/idf_parser.cpp). *)

From Coq Require Import Reals List Bool.
From Verif Require Import SegModel OutModel IdfGeo IdfStar.
Import ListNotations.
Open Scope R_scope.

(** [IDF3_BOARD::AddSlot] (L3436-3519), up to the outline which is given to the board; the
    answers of [push] are not looked at. *)
Definition add_slot (width length orient x y : R) : option iout :=
  if ltb width (1 / 1000) then None
  else if ltb length (1 / 1000) then None
  else
    let a1 := orient / 180 * PI in
    let a2 := a1 + PI / 2 in
    let d1 := length / 2 in
    let d2 := width / 2 in
    let dsa2 := d2 * sin a2 in
    let dca2 := d2 * cos a2 in
    let c0 := mkI (x + d1 * cos a1) (y + d1 * sin a1) in
    let c1 := mkI (x - d1 * cos a1) (y - d1 * sin a1) in
    let p0 := mkI (ix c0 - dca2) (iy c0 - dsa2) in
    let p1 := mkI (ix c1 - dca2) (iy c1 - dsa2) in
    let p2 := mkI (ix c1 + dca2) (iy c1 + dsa2) in
    let p3 := mkI (ix c0 + dca2) (iy c0 + dsa2) in
    Some (push_all [line_seg p0 p1; arc_seg c1 p1 (- 180) true; line_seg p2 p3; arc_seg c0 p3 (- 180) true]).
