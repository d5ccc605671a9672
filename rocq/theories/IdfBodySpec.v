(** What is said about the parts on an IDF board: the way surfaces look, and movements
    which keep distances and handedness. *)

From Coq Require Import Reals List Bool ZArith.
From Verif Require Import SegModel SegSpec OutModel PcbModel PcbSpec IdfGeo IdfGeoSpec IdfBody.
Import ListNotations.
Open Scope R_scope.

(** The wall of an outline looks away from what the outline encloses (which is to the
    left of the way along it) and the wall of a hole or cutout into it; or the other way. *)
Definition wall_of (b : board) (outward : bool) (s : seg) (t : trimmed) : Prop :=
  (In s (o_segs (b_out b)) /\ faces (negb outward) s t) \/
  (In s (b_holes b ++ concat (b_cuts b)) /\ faces outward s t).

(** A level surface at a height, which looks up or down. *)
Definition level (z : R) (up : bool) (t : trimmed) : Prop :=
  forall u v, pz (surf_at (t_surf t) u v) = z /\
    exists n, normal (t_surf t) u v n /\ px n = 0 /\ py n = 0 /\ if up then 0 < pz n else pz n < 0.

(** One such surface if it succeeds, none otherwise. *)
Definition level_if (ok : bool) (z : R) (up : bool) (l : list trimmed) : Prop :=
  if ok then exists t, l = [t] /\ level z up t else l = [].

(** Vectors in space. *)
Definition vsub (p q : pt) : pt := mkPt (px p - px q) (py p - py q) (pz p - pz q).
Definition vcross (p q : pt) : pt := mkPt (py p * pz q - pz p * py q) (pz p * px q - px p * pz q) (px p * py q - py p * px q).

(** A movement of space without reflection: distances are kept, and what points away
    from a surface still does. *)
Definition rigid (t : place) : Prop :=
  (forall p q, gap2 (place_apply t p) (place_apply t q) = gap2 p q) /\
  (forall o p q, let f := place_apply t in
     vcross (vsub (f p) (f o)) (vsub (f q) (f o)) = vsub (f (mkPt (px o + px (vcross (vsub p o) (vsub q o))) (py o + py (vcross (vsub p o) (vsub q o))) (pz o + pz (vcross (vsub p o) (vsub q o))))) (f o)).

(** What is seen of a point from a side of the board: from below, left and right are
    exchanged.  And its height above that side of a board of that thickness. *)
Definition seen (bottom : bool) (p : ipt) : ipt := if bottom then mkI (- ix p) (iy p) else p.
Definition plan (p : pt) : ipt := mkI (px p) (py p).
Definition above (bottom : bool) (thick : R) (p : pt) : R := (if bottom then - pz p else pz p) - thick / 2.
