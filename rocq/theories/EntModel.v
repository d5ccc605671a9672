(** Model of the [format] and [readPD] methods of the curve, surface and
    transform entities in /repo/src/entities.  Every entity is given by the
    values which [format] looks at; a pointer to another entity is given by the
    Directory Entry number of that entity, [None] being NULL.  The parent pointer
    is taken to be set.  NaN and infinities are outside the model. *)

From Coq Require Import QArith Qabs.
From Verif Require Import Base Num IoModel PdModel.
Open Scope Z_scope.

(** ** Common parts *)

(** Comparison of reals. *)
Definition Qlt_bool (a b : Q) : bool := negb (Qle_bool b a).

(** [ParseInt] without default followed by a range check. *)
Definition parse_int_if (ok : Z -> bool) (data : str) (idx : nat) (eor : bool) (pd rd : ascii)
  : pres (Z * nat * bool) :=
  do (v, i, e) <- ParseInt data idx eor pd rd None;
  guard (ok v) (POk (v, i, e)).

(** [v < 1 || v > 9999997], for example entity120.cpp L345. *)
Definition any_ptr (v : Z) : bool := negb ((v <? 1) || (9999997 <? v)).
(** [v < 0 || (v && !(v & 1)) || v > 9999997], for example entity142.cpp L442. *)
Definition opt_ptr (v : Z) : bool := (v =? 0) || extra_ok v.
(** [v < 0 || v > 1], for example entity144.cpp L556. *)
Definition flag01 (v : Z) : bool := (0 <=? v) && (v <=? 1).
Definition zb (b : bool) : Z := if b then 1 else 0.

(** A real with a default, or the default when the record has already ended,
    for example entity154.cpp L295-306. *)
Definition parse_real_opt (dflt dend : Q) (data : str) (idx : nat) (eor : bool) (pd rd : ascii)
  : pres (Q * nat * bool) :=
  if eor then POk (dend, idx, eor) else ParseReal data idx eor pd rd (Some dflt).

(** What [CheckNormal] (geom/mcad_helpers.cpp L79-105) makes of a vector, which
    it always accepts: [Exact] components, or [Unit x y z] for the vector divided
    by its length (the square root is not computed in the model). *)
Inductive direction := Exact (x y z : Q) | Unit (x y z : Q).
Definition CheckNormal (x y z : Q) : direction :=
  let dn := (x * x + y * y + z * z)%Q in
  if Qlt_bool dn (1 # 1000000000000) then Exact 0 0 1
  else if Qlt_bool (dn - 1) (- (1 # 100000000)) || Qlt_bool (1 # 100000000) (dn - 1) then Unit x y z
  else Exact x y z.

(** [PointMatches] (geom/mcad_helpers.cpp L42-76) for points of equal height:
    true when the distance is within the resolution.  The factor [rN] is only
    used squared here, [1 / max]; [rN] and [rV] of L48-49 are overwritten before
    use (a zero resolution gives an infinity there which is not used). *)
Definition PointMatches (x1 y1 x2 y2 res : Q) : bool :=
  let dn := (x1 * x1 + y1 * y1)%Q in
  let dv := (x2 * x2 + y2 * y2)%Q in
  let s := if Qlt_bool (1000000000000000 # 1) dn || Qlt_bool (1000000000000000 # 1) dv
           then (1 / (if Qlt_bool dn dv then dv else dn))%Q else 1%Q in
  let tol := ((30001 # 10000) * res * res * s)%Q in
  let tol := if Qlt_bool tol (3 # 1000000000000000000000000000000) then 3 # 1000000000000000000000000000000 else tol in
  negb (Qlt_bool tol (((x2 - x1) * (x2 - x1) + (y2 - y1) * (y2 - y1)) * s)).

(** ** Circular arc, type 100 *)

Record arc := mkArc { a_z : Q; a_xc : Q; a_yc : Q; a_xs : Q; a_ys : Q; a_xe : Q; a_ye : Q }.
Definition arc_reals (a : arc) : list Q := [a_z a; a_xc a; a_yc a; a_xs a; a_ys a; a_xe a; a_ye a].

(** entity100.cpp L85-204. *)
Definition format100 (a : arc) (extras : list (Z * Z)) (cs : list str) (index seq : Z) (pd rd : ascii) (uir : Q)
  : pres pdrec :=
  format_frame (showZ 100 ++ [pd]) (reals_acts uir (arc_reals a) pd (fdel extras pd rd)) extras cs index seq pd rd.

(** Radius checks at the end of entity100.cpp [readPD], L352-380. *)
Definition arc_ok (a : arc) (uir : Q) : bool :=
  let u := (2 * uir)%Q in
  if PointMatches (a_xc a) (a_yc a) (a_xs a) (a_ys a) u then false else
  let dx1 := (a_xs a - a_xc a)%Q in let dy1 := (a_ys a - a_yc a)%Q in
  let dx2 := (a_xe a - a_xc a)%Q in let dy2 := (a_ye a - a_yc a)%Q in
  negb (Qlt_bool u (Qabs ((dx2 * dx2 + dy2 * dy2) - (dx1 * dx1 + dy1 * dy1)))).

(** entity100.cpp L282-329: seven [ParseReal] calls. *)
Definition parse100 (pd rd : ascii) (data : str) (idx : nat) : pres (arc * nat * bool) :=
  do (l, i, e) <- parse_reals 7 data idx false pd rd;
  match l with
  | [z; xc; yc; xs; ys; xe; ye] => POk (mkArc z xc yc xs ys xe ye, i, e)
  | _ => PFail
  end.

(** entity100.cpp L256-381. *)
Definition readPD100 (seq pdata count : Z) (pd rd : ascii) (uir : Q) (f : stream)
  : pres (arc * list Z * list str * stream) :=
  do (a, ex, cs, f') <- readPD_frame (parse100 pd rd) 100 seq pdata count pd rd f;
  guard (arc_ok a uir) (POk (a, ex, cs, f')).

(** ** Composite curve, type 102 *)

(** entity102.cpp L304-387; the members are given by their numbers. *)
Definition format102 (curves : list Z) (extras : list (Z * Z)) (cs : list str) (index seq : Z) (pd rd : ascii)
  : pres pdrec :=
  format_frame
    (showZ 102 ++ pd :: showZ (Z.of_nat (length curves)) ++
       [match curves, extras with [], [] => rd | _, _ => pd end])
    (ints_acts curves pd (fdel extras pd rd)) extras cs index seq pd rd.

(** entity102.cpp L540-574; the object was just created so that its curve list is
    empty (L512). *)
Definition parse102 (pd rd : ascii) (data : str) (idx : nat) : pres (list Z * nat * bool) :=
  do (n, i, e) <- parse_int_if (fun n => 1 <=? n) data idx false pd rd;
  parse_ints (Z.to_nat n) extra_ok data i e pd rd.

Definition readPD102 (seq pdata count : Z) (pd rd : ascii) (f : stream) :=
  readPD_frame (parse102 pd rd) 102 seq pdata count pd rd f.

(** ** Conic arc, type 104 *)

Record conic := mkConic { c_A : Q; c_B : Q; c_C : Q; c_D : Q; c_E : Q; c_F : Q;
                          c_ZT : Q; c_X1 : Q; c_Y1 : Q; c_X2 : Q; c_Y2 : Q }.
Definition conic_reals (c : conic) : list Q :=
  [c_A c; c_B c; c_C c; c_D c; c_E c; c_F c; c_ZT c; c_X1 c; c_Y1 c; c_X2 c; c_Y2 c].

(** The resolution 1e-10 of entity104.cpp L176 and L196. *)
Definition conic_res : Q := 1 # 10000000000.

(** entity104.cpp L143-227, apart from the form number (L167-168), see
    [conic_form]. *)
Definition format104 (c : conic) (extras : list (Z * Z)) (cs : list str) (index seq : Z) (pd rd : ascii)
  : pres pdrec :=
  format_frame (showZ 104 ++ [pd]) (reals_acts conic_res (conic_reals c) pd (fdel extras pd rd))
    extras cs index seq pd rd.

(** [getForm], entity104.cpp L66-118. *)
Definition conic_form (c : conic) : Z :=
  let A := c_A c in let B := c_B c in let C := c_C c in let D := c_D c in let E := c_E c in let F := c_F c in
  let q1 := (A * (C * F - E * E / 4) - B * (B * F / 2 - D * E / 4) / 2 + D * (B * E / 4 - C * D / 2) / 2)%Q in
  let q2 := (A * C - B * B / 4)%Q in
  let q3 := (A + C)%Q in
  if Qlt_bool 0 q2 && Qlt_bool (q1 * q3) 0 then 1
  else if Qlt_bool q2 0 && negb (Qeq_bool q1 0) then 2
  else if Qeq_bool q2 0 && negb (Qeq_bool q1 0) then 3
  else 0.

(** entity104.cpp L304-314. *)
Definition parse104 (pd rd : ascii) (data : str) (idx : nat) : pres (conic * nat * bool) :=
  do (l, i, e) <- parse_reals 11 data idx false pd rd;
  match l with
  | [A; B; C; D; E; F; ZT; X1; Y1; X2; Y2] => POk (mkConic A B C D E F ZT X1 Y1 X2 Y2, i, e)
  | _ => PFail
  end.

Definition readPD104 (seq pdata count : Z) (pd rd : ascii) (f : stream) :=
  readPD_frame (parse104 pd rd) 104 seq pdata count pd rd f.

(** [rescale], entity104.cpp L357-372. *)
Definition rescale104 (sf : Q) (c : conic) : conic :=
  mkConic (c_A c * sf) (c_B c * sf) (c_C c * sf) (c_D c * sf) (c_E c * sf) (c_F c * sf)
          (c_ZT c * sf) (c_X1 c * sf) (c_Y1 c * sf) (c_X2 c * sf) (c_Y2 c * sf).

(** ** Plane, type 108 *)

Record plane := mkPlane { pl_form : Z; pl_ptr : option Z; pl_A : Q; pl_B : Q; pl_C : Q; pl_D : Q;
                          pl_X : Q; pl_Y : Q; pl_Z : Q; pl_size : Q }.

Definition degenerate (a b c : Q) : bool := Qeq_bool 0 a && Qeq_bool 0 b && Qeq_bool 0 c.

(** The text of the pointer parameter, entity108.cpp L237-248: without a curve it
    is the eight character field of [FormatDEInt], with no delimiter behind. *)
Definition plane_ptr (p : plane) (pd : ascii) : str :=
  match pl_ptr p with
  | Some n => showZ n ++ [pd]
  | None => match FormatDEInt 0 with Some t => t | None => [] end
  end.

(** entity108.cpp L154-300. *)
Definition format108 (p : plane) (extras : list (Z * Z)) (cs : list str) (index seq : Z) (pd rd : ascii) (uir : Q)
  : pres pdrec :=
  match pl_ptr p with
  | Some _ => guard (negb (pl_form p =? 0))
  | None => guard (pl_form p =? 0)
  end (
  guard (negb (degenerate (pl_A p) (pl_B p) (pl_C p))) (
  format_frame (showZ 108 ++ [pd])
    (reals_acts uir [pl_A p; pl_B p; pl_C p; pl_D p] pd pd ++
     WItem (plane_ptr p pd) ::
     reals_acts uir [pl_X p; pl_Y p; pl_Z p; pl_size p] pd pd)
    extras cs index seq pd rd)).

(** entity108.cpp L410-489; [form] comes from the Directory Entry. *)
Definition parse108 (form : Z) (pd rd : ascii) (data : str) (idx : nat) : pres (plane * nat * bool) :=
  do (l, i, e) <- parse_reals 4 data idx false pd rd;
  match l with
  | [A; B; C; D] =>
    guard (negb (degenerate A B C)) (
    do (n, i1, e1) <- parse_int_if (fun n => if form =? 0 then n =? 0 else negb (n =? 0)) data i e pd rd;
    do (l2, i2, e2) <- parse_reals 4 data i1 e1 pd rd;
    match l2 with
    | [x; y; z; sz] => POk (mkPlane form (if n =? 0 then None else Some n) A B C D x y z sz, i2, e2)
    | _ => PFail
    end)
  | _ => PFail
  end.

Definition readPD108 (form seq pdata count : Z) (pd rd : ascii) (f : stream) :=
  readPD_frame (parse108 form pd rd) 108 seq pdata count pd rd f.

(** ** Line, type 110 *)

Record line := mkLine { l_x1 : Q; l_y1 : Q; l_z1 : Q; l_x2 : Q; l_y2 : Q; l_z2 : Q }.
Definition line_reals (l : line) : list Q := [l_x1 l; l_y1 l; l_z1 l; l_x2 l; l_y2 l; l_z2 l].

(** entity110.cpp L70-143. *)
Definition format110 (l : line) (extras : list (Z * Z)) (cs : list str) (index seq : Z) (pd rd : ascii) (uir : Q)
  : pres pdrec :=
  format_frame (showZ 110 ++ [pd]) (reals_acts uir (line_reals l) pd (fdel extras pd rd)) extras cs index seq pd rd.

(** entity110.cpp L234-274. *)
Definition parse110 (pd rd : ascii) (data : str) (idx : nat) : pres (line * nat * bool) :=
  do (l, i, e) <- parse_reals 6 data idx false pd rd;
  match l with
  | [a; b; c; d; x; y] => POk (mkLine a b c d x y, i, e)
  | _ => PFail
  end.

(** entity110.cpp L208-292. *)
Definition readPD110 (seq pdata count : Z) (pd rd : ascii) (f : stream) :=
  readPD_frame (parse110 pd rd) 110 seq pdata count pd rd f.

(** ** Surface of revolution, type 120 *)

Record revolution := mkRev { rv_axis : option Z; rv_curve : option Z; rv_start : Q; rv_end : Q }.

(** [IGES_ANGLE_RES], iges_base.h L37. *)
Definition angle_res : Q := 1 # 1000000000000000.

(** entity120.cpp L151-236. *)
Definition format120 (r : revolution) (extras : list (Z * Z)) (cs : list str) (index seq : Z) (pd rd : ascii)
  : pres pdrec :=
  match rv_axis r, rv_curve r with
  | Some l, Some c =>
    format_frame (showZ 120 ++ pd :: showZ l ++ pd :: showZ c ++ [pd])
      (reals_acts angle_res [rv_start r; rv_end r] pd (fdel extras pd rd)) extras cs index seq pd rd
  | _, _ => PFail
  end.

(** entity120.cpp L338-382. *)
Definition parse120 (pd rd : ascii) (data : str) (idx : nat) : pres (revolution * nat * bool) :=
  do (l, i, e) <- parse_int_if any_ptr data idx false pd rd;
  do (c, i1, e1) <- parse_int_if any_ptr data i e pd rd;
  do (q, i2, e2) <- parse_reals 2 data i1 e1 pd rd;
  match q with
  | [sa; ta] => POk (mkRev (Some l) (Some c) sa ta, i2, e2)
  | _ => PFail
  end.

Definition readPD120 (seq pdata count : Z) (pd rd : ascii) (f : stream) :=
  readPD_frame (parse120 pd rd) 120 seq pdata count pd rd f.

(** ** Tabulated cylinder, type 122 *)

Record tabcyl := mkTab { tc_curve : option Z; tc_x : Q; tc_y : Q; tc_z : Q }.

(** entity122.cpp L118-198. *)
Definition format122 (t : tabcyl) (extras : list (Z * Z)) (cs : list str) (index seq : Z) (pd rd : ascii) (uir : Q)
  : pres pdrec :=
  match tc_curve t with
  | Some c =>
    format_frame (showZ 122 ++ pd :: showZ c ++ [pd])
      (reals_acts uir [tc_x t; tc_y t; tc_z t] pd (fdel extras pd rd)) extras cs index seq pd rd
  | None => PFail
  end.

(** entity122.cpp L313-346. *)
Definition parse122 (pd rd : ascii) (data : str) (idx : nat) : pres (tabcyl * nat * bool) :=
  do (c, i, e) <- parse_int_if extra_ok data idx false pd rd;
  do (q, i2, e2) <- parse_reals 3 data i e pd rd;
  match q with
  | [x; y; z] => POk (mkTab (Some c) x y z, i2, e2)
  | _ => PFail
  end.

Definition readPD122 (seq pdata count : Z) (pd rd : ascii) (f : stream) :=
  readPD_frame (parse122 pd rd) 122 seq pdata count pd rd f.

(** ** Transformation matrix, type 124 *)

(** Rows of the matrix, each with its component of the translation. *)
Record xform := mkX { r11 : Q; r12 : Q; r13 : Q; t1 : Q;
                      r21 : Q; r22 : Q; r23 : Q; t2 : Q;
                      r31 : Q; r32 : Q; r33 : Q; t3 : Q }.
Definition xform_reals (m : xform) : list Q :=
  [r11 m; r12 m; r13 m; t1 m; r21 m; r22 m; r23 m; t2 m; r31 m; r32 m; r33 m; t3 m].

(** entity124.cpp L128-213. *)
Definition format124 (m : xform) (extras : list (Z * Z)) (cs : list str) (index seq : Z) (pd rd : ascii) (uir : Q)
  : pres pdrec :=
  format_frame (showZ 124 ++ [pd]) (reals_acts uir (xform_reals m) pd (fdel extras pd rd)) extras cs index seq pd rd.

(** entity124.cpp L328-351. *)
Definition parse124 (pd rd : ascii) (data : str) (idx : nat) : pres (xform * nat * bool) :=
  do (l, i, e) <- parse_reals 12 data idx false pd rd;
  match l with
  | [a; b; c; d; x; f; g; h; k; l; m; n] => POk (mkX a b c d x f g h k l m n, i, e)
  | _ => PFail
  end.

(** entity124.cpp L303-369. *)
Definition readPD124 (seq pdata count : Z) (pd rd : ascii) (f : stream) :=
  readPD_frame (parse124 pd rd) 124 seq pdata count pd rd f.

(** ** Curve on a parametric surface, type 142 *)

Record onsurf := mkOn { os_crtn : Z; os_surf : option Z; os_b : option Z; os_c : option Z; os_pref : Z }.

Definition ptr0 (o : option Z) : Z := match o with Some n => n | None => 0 end.
Definition to_ptr (n : Z) : option Z := if n =? 0 then None else Some n.

(** The preference after the adjustments at entity142.cpp L205-223 and L485-497. *)
Definition force_pref (b c : option Z) (pref : Z) : Z :=
  let p := match b with None => 2 | Some _ => pref end in
  match c with None => 1 | Some _ => p end.

Definition range03 (v : Z) : bool := (0 <=? v) && (v <=? 3).

(** entity142.cpp L183-287; the members are written back only as far as later
    [format] calls see them: [force_pref] is idempotent. *)
Definition format142 (o : onsurf) (extras : list (Z * Z)) (cs : list str) (index seq : Z) (pd rd : ascii)
  : pres pdrec :=
  match os_surf o with
  | None => PFail
  | Some s =>
    guard (match os_b o, os_c o with None, None => false | _, _ => true end) (
    let pref := force_pref (os_b o) (os_c o) (os_pref o) in
    guard (range03 (os_crtn o)) (
    guard (range03 pref) (
    format_frame (showZ 142 ++ pd :: showZ (os_crtn o) ++ pd :: showZ s ++ pd ::
                  showZ (ptr0 (os_b o)) ++ pd :: showZ (ptr0 (os_c o)) ++ [pd])
      [WInt pref (fdel extras pd rd)] extras cs index seq pd rd)))
  end.

(** entity142.cpp L407-497. *)
Definition parse142 (pd rd : ascii) (data : str) (idx : nat) : pres (onsurf * nat * bool) :=
  do (crtn, i, e) <- parse_int_if range03 data idx false pd rd;
  do (s, i1, e1) <- parse_int_if extra_ok data i e pd rd;
  do (b, i2, e2) <- parse_int_if opt_ptr data i1 e1 pd rd;
  do (c, i3, e3) <- parse_int_if opt_ptr data i2 e2 pd rd;
  do (p, i4, e4) <- parse_int_if range03 data i3 e3 pd rd;
  guard (negb ((b =? 0) && (c =? 0)))
    (POk (mkOn crtn (Some s) (to_ptr b) (to_ptr c) (force_pref (to_ptr b) (to_ptr c) p), i4, e4)).

Definition readPD142 (seq pdata count : Z) (pd rd : ascii) (f : stream) :=
  readPD_frame (parse142 pd rd) 142 seq pdata count pd rd f.

(** ** Trimmed surface, type 144 *)

Record trimmed := mkTrim { tr_surf : option Z; tr_n1 : Z; tr_outer : option Z; tr_inner : list Z }.

(** entity144.cpp L285-386. *)
Definition format144 (t : trimmed) (extras : list (Z * Z)) (cs : list str) (index seq : Z) (pd rd : ascii)
  : pres pdrec :=
  match tr_surf t with
  | None => PFail
  | Some s =>
    guard (flag01 (tr_n1 t)) (
    format_frame (showZ 144 ++ pd :: showZ s ++ pd :: showZ (tr_n1 t) ++ pd ::
                  showZ (Z.of_nat (length (tr_inner t))) ++ [pd])
      (ints_acts (ptr0 (tr_outer t) :: tr_inner t) pd (fdel extras pd rd)) extras cs index seq pd rd)
  end.

(** entity144.cpp L535-611. *)
Definition parse144 (pd rd : ascii) (data : str) (idx : nat) : pres (trimmed * nat * bool) :=
  do (s, i, e) <- parse_int_if extra_ok data idx false pd rd;
  do (n1, i1, e1) <- parse_int_if flag01 data i e pd rd;
  do (n2, i2, e2) <- parse_int_if (fun n => 0 <=? n) data i1 e1 pd rd;
  do (o, i3, e3) <- parse_int_if extra_ok data i2 e2 pd rd;
  do (l, i4, e4) <- parse_ints (Z.to_nat n2) extra_ok data i3 e3 pd rd;
  POk (mkTrim (Some s) n1 (Some o) l, i4, e4).

Definition readPD144 (seq pdata count : Z) (pd rd : ascii) (f : stream) :=
  readPD_frame (parse144 pd rd) 144 seq pdata count pd rd f.
