(** The data of spline curves and surfaces: entities/entity126.cpp and
    entity128.cpp, the parts which set, hand out, inspect and write it.

    Memory allocation is taken to succeed.  The arrays handed in are [None] for
    NULL, otherwise the numbers which may be read there; reading outside of an
    array is [PCrash], as is an overflow of an [int].  The numbers are exact
    rationals.  The code is taken without the optional library SISL. *)

From Coq Require Import QArith.
From Verif Require Import Base Num IoModel PdModel EntModel EntModel2 EntModel3.
Open Scope Z_scope.

(** Reading one number, and copying the first [n] numbers, of an array. *)
Definition peek (l : list Q) (i : Z) : pres Q :=
  match nth_error l (Z.to_nat i) with Some v => POk v | None => PCrash end.
Definition copy (n : Z) (l : list Q) : pres (list Q) :=
  if Z.of_nat (length l) <? n then PCrash else POk (firstn (Z.to_nat n) l).

(** The control points and weights in an array of coefficients, [n] times x y z
    and, for a rational curve, the weight: the loops at entity126.cpp L198-247,
    L1144-1172, entity128.cpp L241-305. *)
Fixpoint unpack (rat : bool) (n : nat) (l : list Q) : pres (list point * list Q) :=
  match n with
  | O => POk ([], [])
  | S n' =>
    match l with
    | x :: y :: z :: r =>
      if rat then
        match r with
        | w :: r' => do (p, ws) <- unpack rat n' r'; POk ((x, y, z) :: p, w :: ws)
        | [] => PCrash
        end
      else do (p, ws) <- unpack rat n' r; POk ((x, y, z) :: p, ws)
    | _ => PCrash
    end
  end.

(** ** The plane of a curve *)

Definition sub3 (a b : point) : point :=
  let '(x, y, z) := a in let '(u, v, w) := b in ((x - u)%Q, (y - v)%Q, (z - w)%Q).
Definition dot3 (a b : point) : Q :=
  let '(x, y, z) := a in let '(u, v, w) := b in (x * u + y * v + z * w)%Q.
Definition neg3 (a : point) : point := let '(x, y, z) := a in ((- x)%Q, (- y)%Q, (- z)%Q).

(** geom/mcad_helpers.cpp L136-158. *)
Definition CalcNormal (p0 p1 p2 : point) : direction :=
  let '(ax, ay, az) := sub3 p1 p0 in
  let '(bx, by_, bz) := sub3 p2 p0 in
  CheckNormal (ay * bz - az * by_)%Q (az * bx - ax * bz)%Q (ax * by_ - ay * bx)%Q.

(** [d * -1.0] (geom/mcad_elements.cpp L97-104). *)
Definition flip (d : direction) : direction :=
  match d with
  | Exact x y z => let '(a, b, c) := neg3 (x, y, z) in Exact a b c
  | Unit x y z => let '(a, b, c) := neg3 (x, y, z) in Unit a b c
  end.

(** [PointMatches] (geom/mcad_helpers.cpp L42-76) with the resolution 10^-8, for
    vectors of about unit length: the squared distance is at most [close_tol].
    A vector [Unit x y z] stands for a quotient by a square root; with [c] its
    product with the other one, [p * sqrt m >= t] is decided by squaring. *)
Definition close_tol : Q := 30001 # 100000000000000000000.
Definition at_least (p t m : Q) : bool := Qle_bool 0 p && Qle_bool (t * t * m)%Q (p * p)%Q.
Definition dir_matches (d e : direction) : bool :=
  match d, e with
  | Exact x y z, Exact u v w =>
      let s := sub3 (u, v, w) (x, y, z) in Qle_bool (dot3 s s) close_tol
  | Exact x y z, Unit u v w | Unit u v w, Exact x y z =>
      let a := (x, y, z) in let b := (u, v, w) in
      at_least (dot3 a b) ((dot3 a a + 1 - close_tol) / 2)%Q (dot3 b b)
  | Unit x y z, Unit u v w =>
      let a := (x, y, z) in let b := (u, v, w) in
      at_least (dot3 a b) (1 - close_tol / 2)%Q (dot3 a a * dot3 b b)%Q
  end.

(** entity126.cpp L1160-1187: the normal of each three successive points against
    the one before. *)
Fixpoint same_normals (n : direction) (a b : point) (l : list point) : bool :=
  match l with
  | [] => true
  | c :: r =>
    let m := CalcNormal a b c in
    (dir_matches n m || dir_matches n (flip m)) && same_normals m b c r
  end.

(** entity126.cpp L1117-1190. *)
Definition hasUniquePlane (pts : list point) : bool * direction :=
  match pts with
  | a :: b :: c :: r =>
    let n := CalcNormal a b c in
    if same_normals n b c r then (true, n) else (false, Exact 0 0 1)
  | _ => (false, Exact 0 0 1)
  end.

(** ** Spline curves, type 126 *)

(** The members of IGES_ENTITY_126 (include/core/entity126.h) concerned here. *)
Record curve := mkCurve {
  c_nKnots : Z; c_nCoeffs : Z; c_K : Z; c_M : Z;
  c_PROP1 : Z; c_PROP2 : Z; c_PROP3 : Z; c_PROP4 : Z;
  c_V0 : Q; c_V1 : Q; c_knots : option (list Q); c_coeffs : option (list Q); c_vnorm : direction }.

(** entity126.cpp L38-62. *)
Definition new_curve : curve := mkCurve 0 0 0 0 0 0 0 0 0 0 None None (Exact 0 0 0).

(** entity126.cpp L1030-1033. *)
Definition with_counts (nCoeff order : Z) (c : curve) : curve :=
  mkCurve (nCoeff + order) nCoeff (nCoeff - 1) (order - 1) (c_PROP1 c) (c_PROP2 c) (c_PROP3 c) (c_PROP4 c)
    (c_V0 c) (c_V1 c) (c_knots c) (c_coeffs c) (c_vnorm c).

(** The numbers per control point, entity126.cpp L1076-1079, entity128.cpp
    L1057-1060. *)
Definition width (rat : bool) : Z := if rat then 4 else 3.

(** The test of the parameter range against the knots, entity126.cpp L1036-1046
    and twice in entity128.cpp L989-1011; the last knot is only looked at when it
    is needed. *)
Definition in_range (ks : list Q) (n : Z) (v0 v1 : Q) : pres bool :=
  do a <- peek ks 0;
  if Qlt_bool v0 a then POk false else
  do b <- peek ks (n - 1);
  POk (negb (Qle_bool b v0) && negb (Qle_bool v1 v0) && negb (Qlt_bool b v1)).

(** entity126.cpp L1084-1113: the data is replaced. *)
Definition take_data (c : curve) (ks cs : list Q) (rat : bool) (v0 v1 : Q) : pres (bool * curve) :=
  let p3 := if rat then 0 else 1 in
  do kn <- copy (c_nKnots c) ks;
  if (int_max <? c_nCoeffs c * width rat) then PCrash else
  do cf <- copy (c_nCoeffs c * width rat) cs;
  do (pts, _) <- unpack rat (Z.to_nat (c_nCoeffs c)) cf;
  let '(flat, n) := hasUniquePlane pts in
  POk (true, mkCurve (c_nKnots c) (c_nCoeffs c) (c_K c) (c_M c) (if flat then 1 else 0) 0 p3 0
               v0 v1 (Some kn) (Some cf) n).

(** entity126.cpp L1000-1113. *)
Definition SetCurve (c : curve) (nCoeff order : Z) (knot coeff : option (list Q)) (rat : bool) (v0 v1 : Q)
  : pres (bool * curve) :=
  match knot, coeff with
  | Some ks, Some cs =>
    if order <? 2 then POk (false, c) else
    if nCoeff <? order then POk (false, c) else
    if (int_max <? nCoeff + order) then PCrash else
    let c1 := with_counts nCoeff order c in
    do ok <- in_range ks (nCoeff + order) v0 v1;
    if negb ok then POk (false, c1) else take_data c1 ks cs rat v0 v1
  | _, _ => POk (false, c)
  end.

(** entity126.cpp L962-997: with data the result is stored through the argument
    which was made NULL before. *)
Definition GetCurve (c : curve) : pres bool :=
  match c_knots c with None => POk false | Some _ => PCrash end.

(** The three numbers of a point from position [i] of the coefficients. *)
Definition point_at (cf : option (list Q)) (i : Z) : pres point :=
  match cf with
  | None => PCrash
  | Some l => do x <- peek l i; do y <- peek l (i + 1); do z <- peek l (i + 2); POk (x, y, z)
  end.

(** entity126.cpp L827-884 and L886-950, [None] for the result false; the
    transform of the entity is left out. *)
Definition GetStartPoint (c : curve) : pres (option point) :=
  if c_nCoeffs c <? 2 then POk None else do p <- point_at (c_coeffs c) 0; POk (Some p).
Definition GetEndPoint (c : curve) : pres (option point) :=
  if c_nCoeffs c <? 2 then POk None else
  do p <- point_at (c_coeffs c) ((c_nCoeffs c - 1) * width (c_PROP3 c =? 0)); POk (Some p).

(** entity126.cpp L93-306 from the members of the entity.  [vec] gives the three
    numbers in memory for the normal. *)
Definition WriteCurve (vec : direction -> point) (c : curve) (extras : list (Z * Z)) (cs : list str)
  (index seq : Z) (pd rd : ascii) : pres pdrec :=
  match c_knots c, c_coeffs c with
  | Some ks, Some cf =>
    let props := [c_PROP1 c; c_PROP2 c; c_PROP3 c; c_PROP4 c] in
    if (c_K c <? 1) || (c_M c <? 1) || negb (forallb flag01 props) ||
       negb (2 + c_K c + c_M c =? c_nKnots c) || negb (1 + c_K c =? c_nCoeffs c) then PFail else
    do kn <- copy (c_nKnots c) ks;
    do (pts, ws) <- unpack (rational props) (Z.to_nat (c_nCoeffs c)) cf;
    let '(i, j, k) := vec (c_vnorm c) in
    format126 (mkNc (c_K c) (c_M c) props kn ws pts (c_V0 c) (c_V1 c)) i j k extras cs index seq pd rd
  | _, _ => PFail
  end.

(** ** Spline surfaces, type 128 *)

(** The members of IGES_ENTITY_128 (include/core/entity128.h) concerned here;
    [f_props] are PROP1 to PROP5. *)
Record surface := mkSurface {
  f_nKnots1 : Z; f_nKnots2 : Z; f_nCoeffs1 : Z; f_nCoeffs2 : Z; f_K1 : Z; f_K2 : Z; f_M1 : Z; f_M2 : Z;
  f_props : list Z; f_U0 : Q; f_U1 : Q; f_V0 : Q; f_V1 : Q;
  f_knots1 : option (list Q); f_knots2 : option (list Q); f_coeffs : option (list Q) }.

(** entity128.cpp L37-65. *)
Definition new_surface : surface := mkSurface 0 0 0 0 0 0 0 0 [0; 0; 0; 0; 0] 0 0 0 0 None None None.

(** entity128.cpp L979-986. *)
Definition with_counts2 (n1 n2 o1 o2 : Z) (s : surface) : surface :=
  mkSurface (n1 + o1) (n2 + o2) n1 n2 (n1 - 1) (n2 - 1) (o1 - 1) (o2 - 1)
    (f_props s) (f_U0 s) (f_U1 s) (f_V0 s) (f_V1 s) (f_knots1 s) (f_knots2 s) (f_coeffs s).

(** entity128.cpp L1013-1112: the data is replaced. *)
Definition take_data2 (s : surface) (ks1 ks2 cs : list Q) (rat per1 per2 : bool) (u0 u1 v0 v1 : Q)
  : pres (bool * surface) :=
  if (int_max <? f_nCoeffs1 s * f_nCoeffs2 s * width rat) then PCrash else
  do k1 <- copy (f_nKnots1 s) ks1;
  do k2 <- copy (f_nKnots2 s) ks2;
  do cf <- copy (f_nCoeffs1 s * f_nCoeffs2 s * width rat) cs;
  POk (true, mkSurface (f_nKnots1 s) (f_nKnots2 s) (f_nCoeffs1 s) (f_nCoeffs2 s) (f_K1 s) (f_K2 s) (f_M1 s) (f_M2 s)
    [if per1 then 1 else 0; if per2 then 1 else 0; if rat then 0 else 1; if per1 then 1 else 0; if per2 then 1 else 0]
    u0 u1 v0 v1 (Some k1) (Some k2) (Some cf)).

(** entity128.cpp L941-1112. *)
Definition SetSurface (s : surface) (n1 n2 o1 o2 : Z) (knot1 knot2 coeff : option (list Q))
  (rat per1 per2 : bool) (u0 u1 v0 v1 : Q) : pres (bool * surface) :=
  match knot1, knot2, coeff with
  | Some ks1, Some ks2, Some cs =>
    if (o1 <? 2) || (o2 <? 2) || (n1 <? o1) || (n2 <? o2) then POk (false, s) else
    if (int_max <? n1 + o1) || (int_max <? n2 + o2) then PCrash else
    let s1 := with_counts2 n1 n2 o1 o2 s in
    do ok1 <- in_range ks1 (n1 + o1) u0 u1;
    if negb ok1 then POk (false, s1) else
    do ok2 <- in_range ks2 (n2 + o2) v0 v1;
    if negb ok2 then POk (false, s1) else take_data2 s1 ks1 ks2 cs rat per1 per2 u0 u1 v0 v1
  | _, _, _ => POk (false, s)
  end.

(** entity128.cpp L882-938, as for curves. *)
Definition GetSurface (s : surface) : pres bool :=
  match f_knots1 s with None => POk false | Some _ => PCrash end.

(** entity128.cpp L94-353 from the members of the entity. *)
Definition WriteSurface (s : surface) (extras : list (Z * Z)) (cs : list str)
  (index seq : Z) (pd rd : ascii) : pres pdrec :=
  match f_knots1 s, f_knots2 s, f_coeffs s with
  | Some ks1, Some ks2, Some cf =>
    if (f_K1 s <? 1) || (f_K2 s <? 1) || (f_M1 s <? 1) || (f_M2 s <? 1) || negb (forallb flag01 (f_props s)) ||
       negb (2 + f_K1 s + f_M1 s =? f_nKnots1 s) || negb (2 + f_K2 s + f_M2 s =? f_nKnots2 s) ||
       negb ((f_K1 s + 1) * (f_K2 s + 1) =? f_nCoeffs1 s * f_nCoeffs2 s) then PFail else
    if (int_max <? (f_K1 s + 1) * (f_K2 s + 1)) then PCrash else
    do k1 <- copy (f_nKnots1 s) ks1;
    do k2 <- copy (f_nKnots2 s) ks2;
    do (pts, ws) <- unpack (rational (f_props s)) (Z.to_nat ((f_K1 s + 1) * (f_K2 s + 1))) cf;
    format128 (mkNs (f_K1 s) (f_K2 s) (f_M1 s) (f_M2 s) (f_props s) k1 k2 ws pts
                 (f_U0 s) (f_U1 s) (f_V0 s) (f_V1 s)) extras cs index seq pd rd
  | _, _, _ => PFail
  end.
