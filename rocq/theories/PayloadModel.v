(** The entities which [NewEntity] creates objects for (/repo/src/iges/iges.cpp
    L825-944) as one type, with their [rescale] methods. *)

From Coq Require Import QArith.
From Verif Require Import Base IoModel PdModel EntModel EntModel2 EntModel3.
Open Scope Z_scope.

(** The data of an entity as in [EntModel], [EntModel2] and [EntModel3].  A
    direction has type [D]: three reals when it is to be written, the result of
    [CheckNormal] when it was read. *)
Inductive payload (D : Type) :=
| P100 (a : arc) | P102 (l : list Z) | P104 (c : conic) | P110 (l : line) | P120 (r : revolution) | P122 (t : tabcyl)
| P124 (m : xform) | P126 (c : ncurve) (d : D) | P128 (s : nsurf) | P142 (o : onsurf) | P144 (t : trimmed)
| P154 (c : cylinder) (d : D) | P164 (x : extrusion) (d : D) | P180 (l : list node) | P186 (b : brep)
| P308 (s : subfigure) | P314 (c : color) | P406 (name : str) | P408 (i : instance) | P502 (v : list point)
| P504 (l : list edge) | P508 (l : list ledge) | P510 (f : face) | P514 (l : list (Z * bool)).
Arguments P100 {D}. Arguments P102 {D}. Arguments P104 {D}. Arguments P110 {D}. Arguments P120 {D}. Arguments P122 {D}.
Arguments P124 {D}. Arguments P126 {D}. Arguments P128 {D}. Arguments P142 {D}. Arguments P144 {D}. Arguments P154 {D}.
Arguments P164 {D}. Arguments P180 {D}. Arguments P186 {D}. Arguments P308 {D}. Arguments P314 {D}. Arguments P406 {D}.
Arguments P408 {D}. Arguments P502 {D}. Arguments P504 {D}. Arguments P508 {D}. Arguments P510 {D}. Arguments P514 {D}.

(** The member [entityType]. *)
Definition type_no {D} (p : payload D) : Z :=
  match p with
  | P100 _ => 100 | P102 _ => 102 | P104 _ => 104 | P110 _ => 110 | P120 _ => 120 | P122 _ => 122 | P124 _ => 124
  | P126 _ _ => 126 | P128 _ => 128 | P142 _ => 142 | P144 _ => 144 | P154 _ _ => 154 | P164 _ _ => 164 | P180 _ => 180
  | P186 _ => 186 | P308 _ => 308 | P314 _ => 314 | P406 _ => 406 | P408 _ => 408 | P502 _ => 502 | P504 _ => 504
  | P508 _ => 508 | P510 _ => 510 | P514 _ => 514
  end.

(** ** [rescale] *)

Definition scale_pt (s : Q) (p : point) : point := let '(x, y, z) := p in (x * s, y * s, z * s)%Q.
Definition scale_pt_z (s : Q) (p : point) : point := let '(x, y, z) := p in (x, y, z * s)%Q.

(** entity100.cpp L403-414. *)
Definition rescale100 (s : Q) (a : arc) : arc :=
  mkArc (a_z a * s) (a_xc a * s) (a_yc a * s) (a_xs a * s) (a_ys a * s) (a_xe a * s) (a_ye a * s).
(** entity110.cpp L146-156. *)
Definition rescale110 (s : Q) (l : line) : line :=
  mkLine (l_x1 l * s) (l_y1 l * s) (l_z1 l * s) (l_x2 l * s) (l_y2 l * s) (l_z2 l * s).
(** entity122.cpp L201-208. *)
Definition rescale122 (s : Q) (t : tabcyl) : tabcyl := mkTab (tc_curve t) (tc_x t * s) (tc_y t * s) (tc_z t * s).
(** entity124.cpp L216-226: only the translation. *)
Definition rescale124 (s : Q) (m : xform) : xform :=
  mkX (r11 m) (r12 m) (r13 m) (t1 m * s) (r21 m) (r22 m) (r23 m) (t2 m * s) (r31 m) (r32 m) (r33 m) (t3 m * s).
(** entity126.cpp L309-383, the loop at L357-380; [flat] is [!scaleXY]. *)
Definition rescale126 (flat : bool) (s : Q) (c : ncurve) : ncurve :=
  mkNc (n_K c) (n_M c) (n_props c) (n_knots c) (n_wts c)
       (map (if flat then scale_pt_z s else scale_pt s) (n_pts c)) (n_v0 c) (n_v1 c).
(** entity128.cpp L356-389. *)
Definition rescale128 (s : Q) (n : nsurf) : nsurf :=
  mkNs (s_K1 n) (s_K2 n) (s_M1 n) (s_M2 n) (s_props n) (s_knots1 n) (s_knots2 n) (s_wts n)
       (map (scale_pt s) (s_pts n)) (s_u0 n) (s_u1 n) (s_v0 n) (s_v1 n).
(** entity154.cpp L160-169. *)
Definition rescale154 (s : Q) (c : cylinder) : cylinder :=
  mkCyl (cy_h c * s) (cy_r c * s) (cy_x c * s) (cy_y c * s) (cy_z c * s).
(** entity164.cpp L220-224. *)
Definition rescale164 (s : Q) (x : extrusion) : extrusion := mkExt (ex_curve x) (ex_len x * s).
(** entity408.cpp L209-216. *)
Definition rescale408 (s : Q) (i : instance) : instance :=
  mkInst (in_def i) (in_x i * s) (in_y i * s) (in_z i * s) (in_s i).

(** [rescale], which returns true for all of them; the other types have nothing to
    scale: entity102.cpp L390, 120 L239, 142 L290, 144 L389, 180 L290, 186 L281,
    308 L230, 314 L246, 406 L269, 504 L273, 508 L351, 510 L243, 514 L226.  For 104
    see [rescale104], for 502 entity502.cpp L166-182. *)
Definition rescale {D} (flat : bool) (s : Q) (p : payload D) : payload D :=
  match p with
  | P100 a => P100 (rescale100 s a)
  | P104 c => P104 (rescale104 s c)
  | P110 l => P110 (rescale110 s l)
  | P122 t => P122 (rescale122 s t)
  | P124 m => P124 (rescale124 s m)
  | P126 c d => P126 (rescale126 flat s c) d
  | P128 n => P128 (rescale128 s n)
  | P154 c d => P154 (rescale154 s c) d
  | P164 x d => P164 (rescale164 s x) d
  | P408 i => P408 (rescale408 s i)
  | P502 v => P502 (map (scale_pt s) v)
  | p => p
  end.
