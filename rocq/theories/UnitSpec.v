(** Vocabulary of the claims about units, scales, transforms and end points. *)

From Coq Require Import QArith.
From Verif Require Import Base IoModel EntModel EntModel2 EntModel3 GeomModel PayloadModel UnitModel.
Open Scope Z_scope.

(** The lengths of the units, in millimetres. *)
Definition inch : Q := 127 # 5.
Definition foot : Q := (12 * inch)%Q.
Definition metre : Q := 1000.
Definition unit_length (u : Z) : option Q :=
  match u with
  | 1 => Some inch | 2 => Some 1%Q | 4 => Some foot | 5 => Some (5280 * foot)%Q | 6 => Some metre
  | 7 => Some (1000 * metre)%Q | 8 => Some (inch / 1000)%Q | 9 => Some (metre / 1000000)%Q
  | 10 => Some (metre / 100)%Q | 11 => Some (inch / 1000000)%Q
  | _ => None
  end.

(** The abbreviation of a unit in a file (IGES Global parameter 15). *)
Definition unit_abbrev (u : Z) : option str :=
  match u with
  | 1 => Some (S2 "IN") | 2 => Some (S2 "MM") | 3 => Some (S2 "CUST") | 4 => Some (S2 "FT") | 5 => Some (S2 "MI")
  | 6 => Some (S2 "M") | 7 => Some (S2 "KM") | 8 => Some (S2 "MIL") | 9 => Some (S2 "UM") | 10 => Some (S2 "CM")
  | 11 => Some (S2 "UIN")
  | _ => None
  end.

Definition coords (p : point) : list Q := let '(x, y, z) := p in [x; y; z].
Definition depth (p : point) : list Q := let '(_, _, z) := p in [z].

(** The lengths (and coordinates) which an entity consists of; of a curve in the
    parameter space of a surface ([flat]) only the third coordinates are lengths. *)
Definition lengths {D} (flat : bool) (p : payload D) : list Q :=
  match p with
  | P100 a => [a_z a; a_xc a; a_yc a; a_xs a; a_ys a; a_xe a; a_ye a]
  | P104 c => [c_ZT c; c_X1 c; c_Y1 c; c_X2 c; c_Y2 c]
  | P110 l => [l_x1 l; l_y1 l; l_z1 l; l_x2 l; l_y2 l; l_z2 l]
  | P122 t => [tc_x t; tc_y t; tc_z t]
  | P124 m => [t1 m; t2 m; t3 m]
  | P126 c _ => flat_map (if flat then depth else coords) (n_pts c)
  | P128 n => flat_map coords (s_pts n)
  | P154 c _ => [cy_h c; cy_r c; cy_x c; cy_y c; cy_z c]
  | P164 x _ => [ex_len x]
  | P408 i => [in_x i; in_y i; in_z i]
  | P502 v => flat_map coords v
  | _ => []
  end.

(** The coefficients of the equation of a conic. *)
Definition coefficients {D} (p : payload D) : list Q :=
  match p with P104 c => [c_A c; c_B c; c_C c; c_D c; c_E c; c_F c] | _ => [] end.

(** All the rest of an entity: the same with lengths and coefficients blotted out. *)
Definition blot (flat : bool) (p : point) : point := let '(x, y, _) := p in if flat then (x, y, 0%Q) else (0, 0, 0)%Q.
Definition rest {D} (flat : bool) (p : payload D) : payload D :=
  match p with
  | P100 _ => P100 (mkArc 0 0 0 0 0 0 0)
  | P104 _ => P104 (mkConic 0 0 0 0 0 0 0 0 0 0 0)
  | P110 _ => P110 (mkLine 0 0 0 0 0 0)
  | P122 t => P122 (mkTab (tc_curve t) 0 0 0)
  | P124 m => P124 (mkX (r11 m) (r12 m) (r13 m) 0 (r21 m) (r22 m) (r23 m) 0 (r31 m) (r32 m) (r33 m) 0)
  | P126 c d => P126 (mkNc (n_K c) (n_M c) (n_props c) (n_knots c) (n_wts c) (map (blot flat) (n_pts c)) (n_v0 c) (n_v1 c)) d
  | P128 n => P128 (mkNs (s_K1 n) (s_K2 n) (s_M1 n) (s_M2 n) (s_props n) (s_knots1 n) (s_knots2 n) (s_wts n)
                         (map (blot false) (s_pts n)) (s_u0 n) (s_u1 n) (s_v0 n) (s_v1 n))
  | P154 _ d => P154 (mkCyl 0 0 0 0 0) d
  | P164 x d => P164 (mkExt (ex_curve x) 0) d
  | P408 i => P408 (mkInst (in_def i) 0 0 0 (in_s i))
  | P502 v => P502 (map (blot false) v)
  | p => p
  end.

(** [p'] is [p] with every length [x] replaced by [y] where [x] times [a] is [y]
    times [b]: [a] and [b] are the lengths of the units. *)
Definition rescaled {D} (flat : bool) (a b : Q) (p p' : payload D) : Prop :=
  Forall2 (fun x y => x * a == y * b)%Q (lengths flat p) (lengths flat p') /\
  Forall2 (fun x y => x * a == y * b)%Q (coefficients p) (coefficients p') /\
  rest flat p = rest flat p'.

(** ** The entities above an entity *)

Definition data_at {D} (es : list (item D)) (j : nat) : option (payload D) := obind (nth_error es j) it_data.
Definition parent_at {D} (es : list (item D)) (j : nat) : option nat := obind (nth_error es j) it_parent.
Definition is_on_surface {D} (es : list (item D)) (j : nat) : Prop := exists c, data_at es j = Some (P142 c).

(** [j] is [i] or above it, with no curve on a surface on the way. *)
Inductive above {D} (es : list (item D)) : nat -> nat -> Prop :=
| above_same i : above es i i
| above_up i k j : parent_at es i = Some k -> ~ is_on_surface es k -> above es k j -> above es i j.

(** The first curve on a surface above entity [i] has [i], or an entity between
    them, as its curve in the parameter space of the surface. *)
Definition in_parameter_space {D} (es : list (item D)) (i : nat) : Prop :=
  exists top k c b, above es i top /\ parent_at es top = Some k /\ data_at es k = Some (P142 c) /\
                    above es i b /\ os_b c = Some (seq_of b).

(** Climbing from parent to parent comes to an end. *)
Inductive climbs {D} (es : list (item D)) : nat -> Prop :=
| climbs_end i : parent_at es i = None -> climbs es i
| climbs_up i k : parent_at es i = Some k -> (k < length es)%nat -> climbs es k -> climbs es i.

(** All entities are supported ones and their parents are entities of the model. *)
Definition supported {D} (it : item D) : Prop := it_data it <> None.
Definition sound {D} (es : list (item D)) : Prop := forall i, (i < length es)%nat -> climbs es i.

(** What becomes of the entity at position [i] of [es]. *)
Definition item_rescaled {D} (es : list (item D)) (a b : Q) (i : nat) (it it' : item D) : Prop :=
  it_trans it' = it_trans it /\ it_parent it' = it_parent it /\
  exists p p', it_data it = Some p /\ it_data it' = Some p' /\
    ((in_parameter_space es i /\ rescaled true a b p p') \/ (~ in_parameter_space es i /\ rescaled false a b p p')).

(** ... and of all of them. *)
Definition all_rescaled {D} (a b : Q) (es es' : list (item D)) : Prop :=
  length es' = length es /\
  forall i it it', nth_error es i = Some it -> nth_error es' i = Some it' -> item_rescaled es a b i it it'.

(** ** Points and transforms *)

Definition pt_eq (v w : pt) : Prop := (px v == px w /\ py v == py w /\ pz v == pz w)%Q.
(** [w] is [v] seen in units of length [b] instead of [a]. *)
Definition pt_rescaled (a b : Q) (v w : pt) : Prop := (px v * a == px w * b /\ py v * a == py w * b /\ pz v * a == pz w * b)%Q.

(** The IGES definition of a transformation matrix: it takes [v] to [w]. *)
Definition takes (m : xform) (v w : pt) : Prop :=
  (px w == r11 m * px v + r12 m * py v + r13 m * pz v + t1 m /\
   py w == r21 m * px v + r22 m * py v + r23 m * pz v + t2 m /\
   pz w == r31 m * px v + r32 m * py v + r33 m * pz v + t3 m)%Q.

(** Transform [j] of the model and the transforms which it refers to, one after the
    other, take [v] to [w]. *)
Inductive carries {D} (es : list (item D)) : nat -> pt -> pt -> Prop :=
| carries_last j m it v w : nth_error es j = Some it -> it_data it = Some (P124 m) -> it_trans it = None ->
    takes m v w -> carries es j v w
| carries_next j k m it v u w : nth_error es j = Some it -> it_data it = Some (P124 m) -> it_trans it = Some k ->
    takes m v u -> carries es k u w -> carries es j v w.

(** The points of a conic. *)
Definition on_conic (c : conic) (x y : Q) : Prop :=
  (c_A c * x * x + c_B c * x * y + c_C c * y * y + c_D c * x + c_E c * y + c_F c == 0)%Q.

(** [k] is curve [j] or one of the curves which it is composed of. *)
Inductive part_of {D} (es : list (item D)) : nat -> nat -> Prop :=
| part_self j : part_of es j j
| part_member j l n k : data_at es j = Some (P102 l) -> In n l -> part_of es k (Z.to_nat (n / 2)) -> part_of es k j.

(** A date and time which [gmtime_r] gives in the years 0 to 9999. *)
Definition calendar (d : tm) : Prop :=
  -1900 <= tm_year d <= 8099 /\ 0 <= tm_yday d <= 365 /\ 0 <= tm_hour d <= 23 /\ 0 <= tm_min d <= 59 /\ 0 <= tm_sec d <= 60.

(** The scales which a model may have. *)
Definition scale_ok (t : Q) : Prop := (6 # 100000000 <= t <= 17000000)%Q.
