(** What the claims about spline data say, apart from the model. *)

From Coq Require Import QArith.
From Verif Require Import Base Num Spec PdFacts EntSpec EntModel EntModel2 EntModel3 NurbsModel.
Open Scope Z_scope.

(** The array of numbers for control points and weights; no weights for a
    polynomial spline. *)
Fixpoint pack (pts : list point) (ws : list Q) : list Q :=
  match pts, ws with
  | (x, y, z) :: p, w :: r => x :: y :: z :: w :: pack p r
  | (x, y, z) :: p, [] => x :: y :: z :: pack p []
  | [], _ => []
  end.

(** The range [v0 v1] is increasing and lies within the first and the last of
    [n] knots. *)
Definition within (ks : list Q) (n : Z) (v0 v1 : Q) : Prop :=
  exists a b, nth_error ks 0 = Some a /\ nth_error ks (Z.to_nat (n - 1)) = Some b /\
    (a <= v0)%Q /\ (v0 < v1)%Q /\ (v1 <= b)%Q.

Definition acceptable (n order : Z) (ks : list Q) (v0 v1 : Q) : Prop :=
  2 <= order /\ order <= n /\ within ks (n + order) v0 v1.

(** As much of the arrays as the counts say may be read, and the counts are no
    larger than an [int]. *)
Definition readable (n order : Z) (ks cs : list Q) (rat : bool) : Prop :=
  n + order <= Z.of_nat (length ks) /\ n * (if rat then 4 else 3) <= Z.of_nat (length cs) /\
  n + order <= 2147483647 /\ n * (if rat then 4 else 3) <= 2147483647.

(** The curve has exactly the data given. *)
Record stored (c : curve) (n order : Z) (ks cs : list Q) (rat : bool) (v0 v1 : Q) : Prop := {
  sd_knots : c_knots c = Some (firstn (Z.to_nat (n + order)) ks);
  sd_coeffs : c_coeffs c = Some (firstn (Z.to_nat (n * if rat then 4 else 3)) cs);
  sd_counts : c_nKnots c = n + order /\ c_nCoeffs c = n /\ c_K c = n - 1 /\ c_M c = order - 1;
  sd_range : c_V0 c = v0 /\ c_V1 c = v1;
  sd_rational : c_PROP3 c = if rat then 0 else 1;
  sd_open : c_PROP2 c = 0 /\ c_PROP4 c = 0;
  sd_planar : c_PROP1 c = 0 \/ c_PROP1 c = 1 }.

(** Only the counts are new. *)
Record recounted (c c' : curve) (n order : Z) : Prop := {
  rc_counts : c_nKnots c' = n + order /\ c_nCoeffs c' = n /\ c_K c' = n - 1 /\ c_M c' = order - 1;
  rc_arrays : c_knots c' = c_knots c /\ c_coeffs c' = c_coeffs c;
  rc_props : c_PROP1 c' = c_PROP1 c /\ c_PROP2 c' = c_PROP2 c /\ c_PROP3 c' = c_PROP3 c /\ c_PROP4 c' = c_PROP4 c;
  rc_rest : c_V0 c' = c_V0 c /\ c_V1 c' = c_V1 c /\ c_vnorm c' = c_vnorm c }.

(** The data of a curve as the user thinks of it. *)
Record spline := mkSpline { p_order : Z; p_knots : list Q; p_rat : bool; p_pts : list point; p_wts : list Q;
                            p_v0 : Q; p_v1 : Q }.
Definition p_n (d : spline) : Z := Z.of_nat (length (p_pts d)).

(** Sensible data; the weights are not looked at. *)
Record spline_ok (d : spline) : Prop := {
  po_order : 2 <= p_order d <= p_n d;
  po_knots : Z.of_nat (length (p_knots d)) = p_n d + p_order d;
  po_wts : if p_rat d then length (p_wts d) = length (p_pts d) else p_wts d = [];
  po_range : within (p_knots d) (p_n d + p_order d) (p_v0 d) (p_v1 d);
  po_reals : Forall real300 (p_knots d ++ p_wts d ++ flat_map pt_reals (p_pts d) ++ [p_v0 d; p_v1 d]) }.

(** What is to be found in a file for the data; [flat] is the planar flag. *)
Definition in_file (d : spline) (flat : bool) : ncurve :=
  mkNc (p_n d - 1) (p_order d - 1) [if flat then 1 else 0; 0; if p_rat d then 0 else 1; 0]
    (p_knots d) (p_wts d) (p_pts d) (p_v0 d) (p_v1 d).

(** The call with the data in arrays which may be longer. *)
Definition set_spline (c : curve) (d : spline) (tk tc : list Q) : pres (bool * curve) :=
  SetCurve c (p_n d) (p_order d) (Some (p_knots d ++ tk)) (Some (pack (p_pts d) (p_wts d) ++ tc))
    (p_rat d) (p_v0 d) (p_v1 d).

(** The numbers in memory for a direction are not astronomic. *)
Definition vec_ok (vec : direction -> point) : Prop := forall d, Forall real300 (pt_reals (vec d)).

(** ** Planes and lines *)

(** All points lie in the plane of the points [p] with [a x + b y + c z = d]. *)
Definition in_plane (n : point) (d : Q) (pts : list point) : Prop := Forall (fun p => (dot3 n p == d)%Q) pts.
Definition coplanar (pts : list point) : Prop :=
  exists n d, ~ (dot3 n n == 0)%Q /\ in_plane n d pts.

(** All points lie on the line through [p] in the direction [v]. *)
Definition on_line (p v q : point) : Prop :=
  let '(px, py, pz) := p in let '(vx, vy, vz) := v in let '(x, y, z) := q in
  exists t, (x == px + t * vx)%Q /\ (y == py + t * vy)%Q /\ (z == pz + t * vz)%Q.
Definition collinear (pts : list point) : Prop := exists p v, Forall (on_line p v) pts.

(** Twice the area of the triangle, squared. *)
Definition area2 (p q r : point) : Q :=
  let '(ax, ay, az) := sub3 q p in
  let '(bx, by_, bz) := sub3 r p in
  let x := (ay * bz - az * by_)%Q in let y := (az * bx - ax * bz)%Q in let z := (ax * by_ - ay * bx)%Q in
  (x * x + y * y + z * z)%Q.
Definition bends (p q r : point) : Prop := (1 # 1000000000000 <= area2 p q r)%Q.

(** No three successive points lie (nearly) on a line. *)
Fixpoint bends_everywhere (pts : list point) : Prop :=
  match pts with
  | a :: (b :: c :: _) as r => bends a b c /\ bends_everywhere r
  | _ => True
  end.

(** The direction is perpendicular to the plane with normal [n]. *)
Definition along (n : point) (d : direction) : Prop :=
  let '(x, y, z) := n in
  let '(u, v, w) := match d with Exact u v w => (u, v, w) | Unit u v w => (u, v, w) end in
  (y * w - z * v == 0)%Q /\ (z * u - x * w == 0)%Q /\ (x * v - y * u == 0)%Q.

(** ** Surfaces *)

Record patch := mkPatch { q_n1 : Z; q_n2 : Z; q_o1 : Z; q_o2 : Z; q_knots1 : list Q; q_knots2 : list Q; q_rat : bool;
  q_pts : list point; q_wts : list Q; q_u0 : Q; q_u1 : Q; q_v0 : Q; q_v1 : Q; q_per1 : bool; q_per2 : bool }.

Record patch_ok (d : patch) : Prop := {
  qo_o1 : 2 <= q_o1 d <= q_n1 d; qo_o2 : 2 <= q_o2 d <= q_n2 d;
  qo_pts : Z.of_nat (length (q_pts d)) = q_n1 d * q_n2 d;
  qo_knots1 : Z.of_nat (length (q_knots1 d)) = q_n1 d + q_o1 d;
  qo_knots2 : Z.of_nat (length (q_knots2 d)) = q_n2 d + q_o2 d;
  qo_wts : if q_rat d then length (q_wts d) = length (q_pts d) else q_wts d = [];
  qo_range1 : within (q_knots1 d) (q_n1 d + q_o1 d) (q_u0 d) (q_u1 d);
  qo_range2 : within (q_knots2 d) (q_n2 d + q_o2 d) (q_v0 d) (q_v1 d);
  qo_reals : Forall real300 (q_knots1 d ++ q_knots2 d ++ q_wts d ++ flat_map pt_reals (q_pts d) ++
                             [q_u0 d; q_u1 d; q_v0 d; q_v1 d]) }.

(** A direction is written as closed exactly when it is periodic. *)
Definition b01 (b : bool) : Z := if b then 1 else 0.
Definition patch_in_file (d : patch) : nsurf :=
  mkNs (q_n1 d - 1) (q_n2 d - 1) (q_o1 d - 1) (q_o2 d - 1)
    [b01 (q_per1 d); b01 (q_per2 d); b01 (negb (q_rat d)); b01 (q_per1 d); b01 (q_per2 d)]
    (q_knots1 d) (q_knots2 d) (q_wts d) (q_pts d) (q_u0 d) (q_u1 d) (q_v0 d) (q_v1 d).

Definition set_patch (s : surface) (d : patch) (t1 t2 tc : list Q) : pres (bool * surface) :=
  SetSurface s (q_n1 d) (q_n2 d) (q_o1 d) (q_o2 d) (Some (q_knots1 d ++ t1)) (Some (q_knots2 d ++ t2))
    (Some (pack (q_pts d) (q_wts d) ++ tc)) (q_rat d) (q_per1 d) (q_per2 d) (q_u0 d) (q_u1 d) (q_v0 d) (q_v1 d).

Definition readable2 (n1 n2 o1 o2 : Z) (ks1 ks2 cs : list Q) (rat : bool) : Prop :=
  n1 + o1 <= Z.of_nat (length ks1) /\ n2 + o2 <= Z.of_nat (length ks2) /\
  n1 * n2 * (if rat then 4 else 3) <= Z.of_nat (length cs) /\
  n1 + o1 <= 2147483647 /\ n2 + o2 <= 2147483647 /\ n1 * n2 * (if rat then 4 else 3) <= 2147483647.

Definition acceptable2 (n1 n2 o1 o2 : Z) (ks1 ks2 : list Q) (u0 u1 v0 v1 : Q) : Prop :=
  acceptable n1 o1 ks1 u0 u1 /\ acceptable n2 o2 ks2 v0 v1.

(** The surface has exactly the data given. *)
Record stored2 (s : surface) (n1 n2 o1 o2 : Z) (ks1 ks2 cs : list Q) (rat per1 per2 : bool) (u0 u1 v0 v1 : Q) : Prop := {
  sf_knots : f_knots1 s = Some (firstn (Z.to_nat (n1 + o1)) ks1) /\ f_knots2 s = Some (firstn (Z.to_nat (n2 + o2)) ks2);
  sf_coeffs : f_coeffs s = Some (firstn (Z.to_nat (n1 * n2 * if rat then 4 else 3)) cs);
  sf_counts : f_nKnots1 s = n1 + o1 /\ f_nKnots2 s = n2 + o2 /\ f_nCoeffs1 s = n1 /\ f_nCoeffs2 s = n2 /\
              f_K1 s = n1 - 1 /\ f_K2 s = n2 - 1 /\ f_M1 s = o1 - 1 /\ f_M2 s = o2 - 1;
  sf_range : f_U0 s = u0 /\ f_U1 s = u1 /\ f_V0 s = v0 /\ f_V1 s = v1;
  sf_props : f_props s = [b01 per1; b01 per2; b01 (negb rat); b01 per1; b01 per2] }.

(** Only the counts are new. *)
Record recounted2 (s s' : surface) (n1 n2 o1 o2 : Z) : Prop := {
  rf_counts : f_nKnots1 s' = n1 + o1 /\ f_nKnots2 s' = n2 + o2 /\ f_nCoeffs1 s' = n1 /\ f_nCoeffs2 s' = n2 /\
              f_K1 s' = n1 - 1 /\ f_K2 s' = n2 - 1 /\ f_M1 s' = o1 - 1 /\ f_M2 s' = o2 - 1;
  rf_rest : f_props s' = f_props s /\ f_U0 s' = f_U0 s /\ f_U1 s' = f_U1 s /\ f_V0 s' = f_V0 s /\ f_V1 s' = f_V1 s /\
            f_knots1 s' = f_knots1 s /\ f_knots2 s' = f_knots2 s /\ f_coeffs s' = f_coeffs s }.

(** The volume spanned by three points and the step to the next, squared: with
    [area2] the squared base this is the squared height times the base. *)
Definition volume2 (a b c d : point) : Q :=
  let '(ux, uy, uz) := sub3 b a in
  let '(vx, vy, vz) := sub3 c a in
  let '(x, y, z) := sub3 d c in
  let t := ((uy * vz - uz * vy) * x + (uz * vx - ux * vz) * y + (ux * vy - uy * vx) * z)%Q in (t * t)%Q.

(** The step from each point to the next leaves the plane of the three points
    before by at most 3.2 * 10^-8 of its length. *)
Fixpoint keeps_to_planes (pts : list point) : Prop :=
  match pts with
  | a :: (b :: c :: d :: _) as r =>
    (volume2 a b c d <= (1 # 1000000000000000) * area2 a b c * dot3 (sub3 d c) (sub3 d c))%Q /\ keeps_to_planes r
  | _ => True
  end.
