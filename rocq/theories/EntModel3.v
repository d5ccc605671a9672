(** Model of the [format] and [readPD] methods of the B-Rep entities and of the
    NURBS curve and surface in /repo/src/entities; conventions as in [EntModel]. *)

From Coq Require Import QArith Qabs.
From Verif Require Import Base Num IoModel PdModel EntModel EntModel2.
Open Scope Z_scope.

(** ** Vertex list, type 502 *)

Definition point := (Q * Q * Q)%type.
Definition pt_reals (p : point) : list Q := let '(x, y, z) := p in [x; y; z].

(** entity502.cpp L94-147: all three coordinates of the last vertex are followed
    by [fd]. *)
Fixpoint vertex_acts (u : Q) (l : list point) (pd fd : ascii) : list act :=
  match l with
  | [] => []
  | [(x, y, z)] => [WReal x fd u; WReal y fd u; WReal z fd u]
  | (x, y, z) :: r => WReal x pd u :: WReal y pd u :: WReal z pd u :: vertex_acts u r pd fd
  end.

(** entity502.cpp L64-163; an empty list dereferences the iterator before the
    beginning (L94, L129). *)
Definition format502 (v : list point) (extras : list (Z * Z)) (cs : list str) (index seq : Z) (pd rd : ascii) (uir : Q)
  : pres pdrec :=
  if (index <? 1) || (9999999 <? index) then PFail else
  match v with
  | [] => PCrash
  | _ =>
    format_frame (showZ 502 ++ pd :: showZ (Z.of_nat (length v)) ++ [pd])
      (vertex_acts uir v pd (fdel extras pd rd)) extras cs index seq pd rd
  end.

(** [n] points. *)
Fixpoint parse_points (n : nat) (data : str) (idx : nat) (eor : bool) (pd rd : ascii)
  : pres (list point * nat * bool) :=
  match n with
  | O => POk ([], idx, eor)
  | S n' =>
    do (x, i, e) <- ParseReal data idx eor pd rd None;
    do (y, i1, e1) <- ParseReal data i e pd rd None;
    do (z, i2, e2) <- ParseReal data i1 e1 pd rd None;
    do (l, i3, e3) <- parse_points n' data i2 e2 pd rd;
    POk ((x, y, z) :: l, i3, e3)
  end.

(** entity502.cpp L276-306. *)
Definition parse502 (pd rd : ascii) (data : str) (idx : nat) : pres (list point * nat * bool) :=
  do (n, i, e) <- parse_int_if (fun n => 1 <=? n) data idx false pd rd;
  parse_points (Z.to_nat n) data i e pd rd.

(** entity502.cpp L248-325. *)
Definition readPD502 (seq pdata count : Z) (pd rd : ascii) (f : stream) :=
  readPD_frame (parse502 pd rd) 502 seq pdata count pd rd f.

(** ** Edge list, type 504 *)

Record edge := mkEdge { ed_curv : option Z; ed_svp : option Z; ed_sv : Z; ed_tvp : option Z; ed_tv : Z }.
Definition edge_null (e : edge) : bool :=
  match ed_curv e, ed_svp e, ed_tvp e with Some _, Some _, Some _ => false | _, _, _ => true end.
Definition edge_ints (e : edge) : list Z :=
  [ptr0 (ed_curv e); ptr0 (ed_svp e); ed_sv e; ptr0 (ed_tvp e); ed_tv e].

(** Several integers in one item. *)
Fixpoint ints_text (l : list Z) (pd fd : ascii) : str :=
  match l with
  | [] => []
  | [n] => showZ n ++ [fd]
  | n :: r => showZ n ++ pd :: ints_text r pd fd
  end.

(** entity504.cpp L200-254: one item per edge. *)
Fixpoint edge_acts (l : list edge) (pd fd : ascii) : list act :=
  match l with
  | [] => []
  | [e] => [WItem (ints_text (edge_ints e) pd fd)]
  | e :: r => WItem (ints_text (edge_ints e) pd pd) :: edge_acts r pd fd
  end.

(** entity504.cpp L169-270; NULL pointers make it return false on the way, an
    empty list dereferences the end iterator. *)
Definition format504 (l : list edge) (extras : list (Z * Z)) (cs : list str) (index seq : Z) (pd rd : ascii)
  : pres pdrec :=
  if (index <? 1) || (9999999 <? index) then PFail else
  match l with
  | [] => PCrash
  | _ =>
    if existsb edge_null l then PFail else
    format_frame (showZ 504 ++ pd :: showZ (Z.of_nat (length l)) ++ [pd])
      (edge_acts l pd (fdel extras pd rd)) extras cs index seq pd rd
  end.

(** entity504.cpp L484-494: five integers each. *)
Fixpoint parse_edges (n : nat) (data : str) (idx : nat) (eor : bool) (pd rd : ascii) : pres (list edge * nat * bool) :=
  match n with
  | O => POk ([], idx, eor)
  | S n' =>
    do (v, i, e) <- parse_ints 5 (fun _ => true) data idx eor pd rd;
    do (l, i1, e1) <- parse_edges n' data i e pd rd;
    match v with
    | [c; sp; s; tp; t] => POk (mkEdge (Some c) (Some sp) s (Some tp) t :: l, i1, e1)
    | _ => PFail
    end
  end.

(** entity504.cpp L466-496. *)
Definition parse504 (pd rd : ascii) (data : str) (idx : nat) : pres (list edge * nat * bool) :=
  do (n, i, e) <- parse_int_if (fun n => 1 <=? n) data idx false pd rd;
  parse_edges (Z.to_nat n) data i e pd rd.

(** entity504.cpp L438-516. *)
Definition readPD504 (seq pdata count : Z) (pd rd : ascii) (f : stream) :=
  readPD_frame (parse504 pd rd) 504 seq pdata count pd rd f.

(** ** Loop, type 508 *)

(** An edge of a loop with its parameter space curves. *)
Record ledge := mkLedge { le_vertex : bool; le_data : option Z; le_idx : Z; le_of : bool; le_curves : list (bool * Z) }.

(** entity508.cpp L244-322: the parameter space curves are written up to but
    without the last one. *)
Definition pcurve_acts (l : list (bool * Z)) (pd : ascii) : list act :=
  flat_map (fun c => [WInt (zb (fst c)) pd; WInt (snd c) pd]) (removelast l).
Definition ledge_acts (e : ledge) (pd kd : ascii) : list act :=
  [WInt (zb (le_vertex e)) pd; WInt (ptr0 (le_data e)) pd; WInt (le_idx e) pd; WInt (zb (le_of e)) pd;
   WInt (Z.of_nat (length (le_curves e))) kd] ++ pcurve_acts (le_curves e) pd.
Fixpoint loop_acts (l : list ledge) (pd fd : ascii) : list act :=
  match l with
  | [] => []
  | [e] => ledge_acts e pd fd
  | e :: r => ledge_acts e pd pd ++ loop_acts r pd fd
  end.

(** The first edge which is NULL (returns false) or has no parameter space curve:
    the loop then runs from the end of an empty vector (undefined). *)
Fixpoint loop_check (l : list ledge) : pres unit :=
  match l with
  | [] => POk tt
  | e :: r =>
    match le_data e, le_curves e with
    | None, _ => PFail
    | _, [] => PCrash
    | _, _ => loop_check r
    end
  end.

(** entity508.cpp L208-348. *)
Definition format508 (l : list ledge) (extras : list (Z * Z)) (cs : list str) (index seq : Z) (pd rd : ascii)
  : pres pdrec :=
  if (index <? 1) || (9999999 <? index) then PFail else
  do _ <- loop_check l;
  format_frame (showZ 508 ++ pd :: showZ (Z.of_nat (length l)) ++ [pd])
    (loop_acts l pd (fdel extras pd rd)) extras cs index seq pd rd.

(** entity508.cpp L597-630. *)
Fixpoint parse_pcurves (n : nat) (data : str) (idx : nat) (eor : bool) (pd rd : ascii)
  : pres (list (bool * Z) * nat * bool) :=
  match n with
  | O => POk ([], idx, eor)
  | S n' =>
    do (f, i, e) <- ParseInt data idx eor pd rd None;
    do (c, i1, e1) <- ParseInt data i e pd rd None;
    guard (flag01 f) (
    do (l, i2, e2) <- parse_pcurves n' data i1 e1 pd rd;
    POk ((f =? 1, c) :: l, i2, e2))
  end.

(** entity508.cpp L522-633. *)
Fixpoint parse_ledges (n : nat) (data : str) (idx : nat) (eor : bool) (pd rd : ascii) : pres (list ledge * nat * bool) :=
  match n with
  | O => POk ([], idx, eor)
  | S n' =>
    do (v, i, e) <- parse_int_if flag01 data idx eor pd rd;
    do (d, i1, e1) <- parse_ints 2 (fun _ => true) data i e pd rd;
    do (o, i2, e2) <- parse_int_if flag01 data i1 e1 pd rd;
    do (k, i3, e3) <- parse_int_if (fun k => 0 <=? k) data i2 e2 pd rd;
    do (c, i4, e4) <- parse_pcurves (Z.to_nat k) data i3 e3 pd rd;
    do (l, i5, e5) <- parse_ledges n' data i4 e4 pd rd;
    match d with
    | [p; x] => POk (mkLedge (v =? 1) (Some p) x (o =? 1) c :: l, i5, e5)
    | _ => PFail
    end
  end.

(** entity508.cpp L499-633. *)
Definition parse508 (pd rd : ascii) (data : str) (idx : nat) : pres (list ledge * nat * bool) :=
  do (n, i, e) <- parse_int_if (fun n => 1 <=? n) data idx false pd rd;
  parse_ledges (Z.to_nat n) data i e pd rd.

(** entity508.cpp L471-655. *)
Definition readPD508 (seq pdata count : Z) (pd rd : ascii) (f : stream) :=
  readPD_frame (parse508 pd rd) 508 seq pdata count pd rd f.

(** ** Face, type 510 *)

Record face := mkFace { fc_surf : option Z; fc_outer : bool; fc_loops : list Z }.

(** entity510.cpp L157-240. *)
Definition format510 (o : face) (extras : list (Z * Z)) (cs : list str) (index seq : Z) (pd rd : ascii) : pres pdrec :=
  if (9999997 <? index) then PFail else
  match fc_surf o, fc_loops o with
  | None, _ | _, [] => PFail
  | Some s, l =>
    format_frame (showZ 510 ++ pd :: showZ s ++ pd :: showZ (Z.of_nat (length l)) ++ pd ::
                  showZ (zb (fc_outer o)) ++ [pd])
      (ints_acts l pd (fdel extras pd rd)) extras cs index seq pd rd
  end.

(** entity510.cpp L363-434. *)
Definition parse510 (pd rd : ascii) (data : str) (idx : nat) : pres (face * nat * bool) :=
  do (s, i, e) <- parse_int_if any_ptr data idx false pd rd;
  do (n, i1, e1) <- parse_int_if (fun n => 1 <=? n) data i e pd rd;
  do (f, i2, e2) <- parse_int_if flag01 data i1 e1 pd rd;
  do (l, i3, e3) <- parse_ints (Z.to_nat n) any_ptr data i2 e2 pd rd;
  POk (mkFace (Some s) (f =? 1) l, i3, e3).

(** entity510.cpp L336-455. *)
Definition readPD510 (seq pdata count : Z) (pd rd : ascii) (f : stream) :=
  readPD_frame (parse510 pd rd) 510 seq pdata count pd rd f.

(** ** Shell, type 514 *)

(** entity514.cpp L127-223. *)
Definition format514 (l : list (Z * bool)) (extras : list (Z * Z)) (cs : list str) (index seq : Z) (pd rd : ascii)
  : pres pdrec :=
  if (9999997 <? index) then PFail else
  match l with
  | [] => PFail
  | _ =>
    format_frame (showZ 514 ++ pd :: showZ (Z.of_nat (length l)) ++ [pd])
      (ints_acts (pairs_ints l) pd (fdel extras pd rd)) extras cs index seq pd rd
  end.

(** entity514.cpp L340-397. *)
Definition parse514 (pd rd : ascii) (data : str) (idx : nat) : pres (list (Z * bool) * nat * bool) :=
  do (n, i, e) <- parse_int_if (fun n => 1 <=? n) data idx false pd rd;
  parse_pairs (Z.to_nat n) data i e pd rd.

(** entity514.cpp L312-418. *)
Definition readPD514 (seq pdata count : Z) (pd rd : ascii) (f : stream) :=
  readPD_frame (parse514 pd rd) 514 seq pdata count pd rd f.

(** ** NURBS curve, type 126 *)

(** The array [coeffs] is given by its points and, for a rational curve, its
    weights ([n_wts] is empty for a polynomial one); [nKnots] and [nCoeffs] are
    the lengths of the lists. *)
Record ncurve := mkNc { n_K : Z; n_M : Z; n_props : list Z; n_knots : list Q; n_wts : list Q;
                        n_pts : list point; n_v0 : Q; n_v1 : Q }.

(** The resolutions at entity126.cpp L121 and L204, entity128.cpp L121, L244 and
    L264. *)
Definition nurbs_res : Q := 1 # 1000000000000000.
Definition weight_res : Q := 1 # 1000000.
Definition surf_res : Q := 1 # 100000000.

Definition rational (props : list Z) : bool := nth 2 props 0 =? 0.

(** Integers each followed by [pd]. *)
Definition head_text (l : list Z) (pd : ascii) : str := flat_map (fun n => showZ n ++ [pd]) l.

(** entity126.cpp L93-306. *)
Definition format126 (c : ncurve) (i j k : Q) (extras : list (Z * Z)) (cs : list str) (index seq : Z) (pd rd : ascii)
  : pres pdrec :=
  if (n_K c <? 1) || (n_M c <? 1) || negb (forallb flag01 (n_props c)) ||
     negb (2 + n_K c + n_M c =? Z.of_nat (length (n_knots c))) ||
     negb (1 + n_K c =? Z.of_nat (length (n_pts c))) then PFail else
  format_frame (showZ 126 ++ pd :: head_text (n_K c :: n_M c :: n_props c) pd)
    (reals_acts nurbs_res (n_knots c) pd pd ++
     reals_acts weight_res (if rational (n_props c) then n_wts c else repeat 1%Q (length (n_pts c))) pd pd ++
     reals_acts nurbs_res (flat_map pt_reals (n_pts c)) pd pd ++
     reals_acts nurbs_res [n_v0 c; n_v1 c; i; j; k] pd (fdel extras pd rd))
    extras cs index seq pd rd.

(** Weights, entity126.cpp L573-603: each must be positive. *)
Fixpoint parse_weights (n : nat) (data : str) (idx : nat) (eor : bool) (pd rd : ascii) : pres (list Q * nat * bool) :=
  match n with
  | O => POk ([], idx, eor)
  | S n' =>
    do (v, i, e) <- ParseReal data idx eor pd rd None;
    guard (negb (Qle_bool v 0)) (
    do (l, i1, e1) <- parse_weights n' data i e pd rd;
    POk (v :: l, i1, e1))
  end.

(** The normal, entity126.cpp L662-713: without one in the file a planar curve
    takes the values left over from the last control point. *)
Definition curve_normal (props : list Z) (pts : list point) (data : str) (idx : nat) (eor : bool) (pd rd : ascii)
  : pres (direction * nat * bool) :=
  do (v, i, e) <- (if eor then POk (last pts (0, 0, 0)%Q, idx, eor)
                   else do (l, i, e) <- parse_points 1 data idx eor pd rd; POk (last l (0, 0, 0)%Q, i, e));
  let '(x, y, z) := v in
  POk (if nth 0 props 0 =? 1 then CheckNormal x y z else Exact 0 0 1, i, e).

(** entity126.cpp L462-720.  [2 + K + M] overflows for large values (undefined);
    memory allocation is taken to succeed. *)
Definition parse126 (pd rd : ascii) (data : str) (idx : nat) : pres (ncurve * direction * nat * bool) :=
  do (h, i, e) <- parse_ints 2 (fun n => 1 <=? n) data idx false pd rd;
  do (ps, i1, e1) <- parse_ints 4 flag01 data i e pd rd;
  match h with
  | [K; M] =>
    if (int_max <? 2 + K + M) then PCrash else
    do (kn, i2, e2) <- parse_reals (Z.to_nat (2 + K + M)) data i1 e1 pd rd;
    do (w, i3, e3) <- parse_weights (Z.to_nat (K + 1)) data i2 e2 pd rd;
    do (p, i4, e4) <- parse_points (Z.to_nat (K + 1)) data i3 e3 pd rd;
    do (v, i5, e5) <- parse_reals 2 data i4 e4 pd rd;
    do (n, i6, e6) <- curve_normal ps p data i5 e5 pd rd;
    match v with
    | [v0; v1] => POk (mkNc K M ps kn (if rational ps then w else []) p v0 v1, n, i6, e6)
    | _ => PFail
    end
  | _ => PFail
  end.

(** entity126.cpp L436-746. *)
Definition readPD126 (seq pdata count : Z) (pd rd : ascii) (f : stream) :=
  readPD_frame (parse126 pd rd) 126 seq pdata count pd rd f.

(** ** NURBS surface, type 128 *)

Record nsurf := mkNs { s_K1 : Z; s_K2 : Z; s_M1 : Z; s_M2 : Z; s_props : list Z; s_knots1 : list Q; s_knots2 : list Q;
                       s_wts : list Q; s_pts : list point; s_u0 : Q; s_u1 : Q; s_v0 : Q; s_v1 : Q }.

(** entity128.cpp L94-353; the product of the two coefficient counts is the number
    of points, and does not overflow for arrays which exist. *)
Definition format128 (s : nsurf) (extras : list (Z * Z)) (cs : list str) (index seq : Z) (pd rd : ascii)
  : pres pdrec :=
  if (s_K1 s <? 1) || (s_K2 s <? 1) || (s_M1 s <? 1) || (s_M2 s <? 1) || negb (forallb flag01 (s_props s)) ||
     negb (2 + s_K1 s + s_M1 s =? Z.of_nat (length (s_knots1 s))) ||
     negb (2 + s_K2 s + s_M2 s =? Z.of_nat (length (s_knots2 s))) ||
     negb ((s_K1 s + 1) * (s_K2 s + 1) =? Z.of_nat (length (s_pts s))) then PFail else
  format_frame (showZ 128 ++ pd :: head_text (s_K1 s :: s_K2 s :: s_M1 s :: s_M2 s :: s_props s) pd)
    (reals_acts surf_res (s_knots1 s) pd pd ++ reals_acts surf_res (s_knots2 s) pd pd ++
     (if rational (s_props s) then reals_acts weight_res (s_wts s) pd pd
      else reals_acts color_res (repeat 1%Q (length (s_pts s))) pd pd) ++
     reals_acts surf_res (flat_map pt_reals (s_pts s)) pd pd ++
     reals_acts surf_res [s_u0 s; s_u1 s; s_v0 s; s_v1 s] pd (fdel extras pd rd))
    extras cs index seq pd rd.

(** The four numbers of entity128.cpp L595-741 must not overflow. *)
Definition sizes_ok (K1 K2 M1 M2 : Z) : bool :=
  (2 + K1 + M1 <=? int_max) && (2 + K2 + M2 <=? int_max) && (4 * ((K1 + 1) * (K2 + 1)) <=? int_max).

(** entity128.cpp L595-795, behind the integers. *)
Definition parse128b (K1 K2 M1 M2 : Z) (ps : list Z) (data : str) (i1 : nat) (e1 : bool) (pd rd : ascii)
  : pres (nsurf * nat * bool) :=
  let C := Z.to_nat ((K1 + 1) * (K2 + 1)) in
  do (k1, i2, e2) <- parse_reals (Z.to_nat (2 + K1 + M1)) data i1 e1 pd rd;
  do (k2, i3, e3) <- parse_reals (Z.to_nat (2 + K2 + M2)) data i2 e2 pd rd;
  do (w, i4, e4) <- parse_weights C data i3 e3 pd rd;
  do (p, i5, e5) <- parse_points C data i4 e4 pd rd;
  do (v, i6, e6) <- parse_reals 4 data i5 e5 pd rd;
  match v with
  | [u0; u1; v0; v1] =>
    POk (mkNs K1 K2 M1 M2 ps k1 k2 (if rational ps then w else []) p u0 u1 v0 v1, i6, e6)
  | _ => PFail
  end.

(** entity128.cpp L467-795. *)
Definition parse128 (pd rd : ascii) (data : str) (idx : nat) : pres (nsurf * nat * bool) :=
  do (h, i, e) <- parse_ints 4 (fun n => 1 <=? n) data idx false pd rd;
  do (ps, i1, e1) <- parse_ints 5 flag01 data i e pd rd;
  match h with
  | [K1; K2; M1; M2] =>
    if sizes_ok K1 K2 M1 M2 then parse128b K1 K2 M1 M2 ps data i1 e1 pd rd else PCrash
  | _ => PFail
  end.

(** entity128.cpp L441-813. *)
Definition readPD128 (seq pdata count : Z) (pd rd : ascii) (f : stream) :=
  readPD_frame (parse128 pd rd) 128 seq pdata count pd rd f.
