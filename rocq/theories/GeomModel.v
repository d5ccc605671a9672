(** Model of /repo/src/geom/mcad_elements.cpp: points, 3x3 matrices and
    transforms.  Reals are exact rationals. *)

From Coq Require Import QArith.
From Verif Require Import Base.
Open Scope Q_scope.

(** [MCAD_POINT], mcad_elements.h L66-80. *)
Record pt := mkPt { px : Q; py : Q; pz : Q }.

(** L65-82, [operator+=] and [operator+]. *)
Definition padd (a b : pt) : pt := mkPt (px a + px b) (py a + py b) (pz a + pz b).
(** L88-95 and L114-119, [operator-]. *)
Definition psub (a b : pt) : pt := mkPt (px a - px b) (py a - py b) (pz a - pz b).
(** L58-62 and L97-110, [operator*] and [operator*=] with a scalar. *)
Definition pscale (a : pt) (s : Q) : pt := mkPt (px a * s) (py a * s) (pz a * s).

(** [MCAD_MATRIX], mcad_elements.h L88-103: rows of three. *)
Record mat := mkMat { m00 : Q; m01 : Q; m02 : Q; m10 : Q; m11 : Q; m12 : Q; m20 : Q; m21 : Q; m22 : Q }.

(** The constructor, L122-131. *)
Definition mident : mat := mkMat 1 0 0 0 1 0 0 0 1.
(** L157-180, [operator+=] and [operator+]. *)
Definition madd (m n : mat) : mat :=
  mkMat (m00 m + m00 n) (m01 m + m01 n) (m02 m + m02 n)
        (m10 m + m10 n) (m11 m + m11 n) (m12 m + m12 n)
        (m20 m + m20 n) (m21 m + m21 n) (m22 m + m22 n).
(** L183-206, [operator-=] and [operator-]. *)
Definition msub (m n : mat) : mat :=
  mkMat (m00 m - m00 n) (m01 m - m01 n) (m02 m - m02 n)
        (m10 m - m10 n) (m11 m - m11 n) (m12 m - m12 n)
        (m20 m - m20 n) (m21 m - m21 n) (m22 m - m22 n).
(** L209-217, matrix times point. *)
Definition mapply (m : mat) (v : pt) : pt :=
  mkPt (m00 m * px v + m01 m * py v + m02 m * pz v)
       (m10 m * px v + m11 m * py v + m12 m * pz v)
       (m20 m * px v + m21 m * py v + m22 m * pz v).
(** L150-154 and L220-255, matrix times matrix. *)
Definition mmul (m n : mat) : mat :=
  mkMat (m00 m * m00 n + m01 m * m10 n + m02 m * m20 n)
        (m00 m * m01 n + m01 m * m11 n + m02 m * m21 n)
        (m00 m * m02 n + m01 m * m12 n + m02 m * m22 n)
        (m10 m * m00 n + m11 m * m10 n + m12 m * m20 n)
        (m10 m * m01 n + m11 m * m11 n + m12 m * m21 n)
        (m10 m * m02 n + m11 m * m12 n + m12 m * m22 n)
        (m20 m * m00 n + m21 m * m10 n + m22 m * m20 n)
        (m20 m * m01 n + m21 m * m11 n + m22 m * m21 n)
        (m20 m * m02 n + m21 m * m12 n + m22 m * m22 n).
(** L144-148 and L258-275, matrix times scalar. *)
Definition mscale (m : mat) (s : Q) : mat :=
  mkMat (m00 m * s) (m01 m * s) (m02 m * s) (m10 m * s) (m11 m * s) (m12 m * s) (m20 m * s) (m21 m * s) (m22 m * s).

(** [MCAD_TRANSFORM], mcad_elements.h L115-126. *)
Record trans := mkT { tR : mat; tT : pt }.

(** The constructor, L278-281. *)
Definition tident : trans := mkT mident (mkPt 0 0 0).
(** [operator*=] with a transform, L299-304, and [operator*], L324-330: the
    translation is computed before the matrix is replaced. *)
Definition tmul (m n : trans) : trans := mkT (mmul (tR m) (tR n)) (padd (mapply (tR m) (tT n)) (tT m)).
(** [operator*=] with a scalar, L307-312, and [operator*], L315-320. *)
Definition tscale (m : trans) (s : Q) : trans := mkT (mscale (tR m) s) (pscale (tT m) s).
(** Transform times point, L334-339. *)
Definition tapply (m : trans) (v : pt) : pt := padd (mapply (tR m) v) (tT m).
