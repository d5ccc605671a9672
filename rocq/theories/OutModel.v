(** Model of closed outlines, [MCAD_OUTLINE] (/repo/src/geom/mcad_outline.cpp,
    /repo/src/include/geom/mcad_outline.h): adding segments, asking whether a point is
    inside, merging with or cutting out a circle.  A [double] is a real number as in
    SegModel.v.  The list [msegments] holds segments, not pointers: that one segment is
    in the list twice or is changed or deleted by its owner is not modelled.  The
    messages collected in [errors] and what is printed, the flags of the DLL layer
    are left out; operations with another outline are in OvlModel.v. *)

From Coq Require Import Reals List Bool ZArith Arith.
From Verif Require Import SegModel CutModel.
Import ListNotations.
Open Scope R_scope.

(** The members of [MCAD_OUTLINE] (mcad_outline.h L90-117) which are not lists of
    cutouts and holes. *)
Record outline := mkOut {
  o_segs : list seg; o_closed : bool; o_wind : R; o_bbok : bool; o_bl : pt; o_tr : pt }.

(** [MCAD_OUTLINE::MCAD_OUTLINE] (mcad_outline.cpp L113-120). *)
Definition out_init : outline := mkOut [] false 0 false origin origin.

(** [IsContiguous] (L235-276): every segment starts where the one before it ends. *)
Fixpoint joined_from (p : pt) (l : list seg) : bool :=
  match l with
  | [] => true
  | s :: l' => point_matches (s_start s) p e8 && joined_from (s_end s) l'
  end.
Definition is_contiguous (o : outline) : bool :=
  match o_segs o with
  | [] => false
  | s :: l =>
      if negb (o_closed o) then false
      else if segty_eqb (s_ty s) SCircle then true
      else joined_from (s_end (last l s)) (s :: l)
  end.

(** [int] of the compiler; a value or a difference beyond it is undefined behaviour. *)
Definition int_ok (z : Z) : bool := ((- 2 ^ 31 <=? z) && (z <? 2 ^ 31))%Z.

(** [adjustBoundingBox] (L2199-2226); [None] is undefined behaviour: the conversion to
    [int] of a coordinate which does not fit or the overflow of a difference.
    [Int_part] is the largest integer not above. *)
Definition floor (x : R) : Z := Int_part x.
Definition ceil (x : R) : Z := (- Int_part (- x))%Z.
Definition even_up (d : Z) : Z := if Z.odd d then (d + 1)%Z else d.
Definition adjust_box (b : pt * pt) : option (pt * pt) :=
  let (bl, tr) := b in
  let minX := floor (px bl) in
  let maxX := ceil (px tr) in
  let minY := floor (py bl) in
  let maxY := ceil (py tr) in
  let dx := (maxX - minX)%Z in
  let dy := (maxY - minY)%Z in
  if forallb int_ok [minX; maxX; minY; maxY; dx; dy; even_up dx; even_up dy] then
    let dv := IZR (Z.max (even_up dx) (even_up dy)) in
    Some (mkPt (IZR minX) (IZR minY) (pz bl), mkPt (IZR minX + dv) (IZR minY + dv) (pz tr))
  else None.

(** The box of one more segment is taken into the box so far (L539-555, L2176-2188). *)
Definition join_box (b c : pt * pt) : pt * pt :=
  let (bl, tr) := b in
  let (b0, b1) := c in
  (mkPt (if ltb (px b0) (px bl) then px b0 else px bl) (if ltb (py b0) (py bl) then py b0 else py bl) (pz bl),
   mkPt (if ltb (px tr) (px b1) then px b1 else px tr) (if ltb (py tr) (py b1) then py b1 else py tr) (pz tr)).
Definition seg_box (s : seg) : pt * pt := snd (get_box s origin origin).

(** [calcBoundingBox] (L2161-2196). *)
Definition calc_box (o : outline) : option outline :=
  match o_segs o with
  | [] => Some o
  | s :: l =>
      if negb (o_closed o) then Some o
      else
        match adjust_box (fold_left join_box (map seg_box l) (snd (get_box s (o_bl o) (o_tr o)))) with
        | None => None
        | Some (bl, tr) => Some (mkOut (o_segs o) (o_closed o) (o_wind o) true bl tr)
        end
  end.

(** The term of a segment in the winding (L512-535). *)
Definition wind_of (s : seg) : R :=
  let p0 := s_end s in
  let p1 := s_start s in
  match s_ty s with
  | SArc =>
      let p2 := snd (get_midpoint s origin) in
      (px p0 - px p2) * (py p0 + py p2) + (px p2 - px p1) * (py p2 + py p1)
  | _ => (px p0 - px p1) * (py p0 + py p1)
  end.

(** [AddSegment] (L421-608): the answer, the error flag and the outline afterwards;
    [None] as argument is a null pointer, as result undefined behaviour. *)
Definition ans : Type := bool * bool.
Definition no : ans := (false, true).
Definition yes : ans := (true, false).
Definition add_segment (o : outline) (a : option seg) : option (ans * outline) :=
  match a with
  | None => Some (no, o)
  | Some s =>
      if segty_eqb (s_ty s) SNone then Some (no, o)
      else if o_closed o then Some (no, o)
      else if segty_eqb (s_ty s) SCircle then
        match o_segs o with
        | _ :: _ => Some (no, o)
        | [] =>
            match adjust_box (snd (get_box s (o_bl o) (o_tr o))) with
            | None => None
            | Some (bl, tr) => Some (yes, mkOut [s] true (o_wind o) true bl tr)
            end
        end
      else
        match o_segs o with
        | [] =>
            let b := snd (get_box s (o_bl o) (o_tr o)) in
            Some (yes, mkOut [s] false (o_wind o + wind_of s) (o_bbok o) (fst b) (snd b))
        | f :: l =>
            if negb (point_matches (s_end (last l f)) (s_start s) e8) then Some (no, o)
            else
              let segs := o_segs o ++ [s] in
              let w := o_wind o + wind_of s in
              let b := join_box (o_bl o, o_tr o) (seg_box s) in
              if point_matches (s_end s) (s_start f) e8 then
                match adjust_box b with
                | None => None
                | Some (bl, tr) =>
                    let segs' :=
                      if ltb 0 w then (if Nat.eqb (length segs) 2 then map reverse segs else rev (map reverse segs))
                      else segs in
                    Some (yes, mkOut segs' true w true bl tr)
                end
              else Some (yes, mkOut segs false w (o_bbok o) (fst b) (snd b))
        end
  end.

(** [IsInside] (L280-415): the answer and the error flag, which is only ever set. *)
Definition ray (o : outline) (p : pt) : seg :=
  let x := if leb (px p - px (o_bl o)) (px (o_tr o) - px p) then px (o_bl o) - 5 else px (o_tr o) + 5 in
  snd (set_line p (mkPt x (py p) 0)).
Definition box_of (s : seg) : pt * pt := seg_box s.
Definition below (s : seg) (y : R) : bool := leb (py (fst (box_of s))) y && leb (py (snd (box_of s))) y.
Definition above (s : seg) (y : R) : bool := leb y (py (fst (box_of s))) && leb y (py (snd (box_of s))).
Definition counts (y : R) (prev s next : seg) (q : pt) : bool :=
  if segty_eqb (s_ty s) SCircle then true
  else
    let is0 := point_matches q (s_start s) e8 in
    let is1 := point_matches q (s_end s) e8 in
    if is0 || is1 then
      if below s y then true
      else if segty_eqb (s_ty s) SArc && ltb (py (fst (box_of s))) y then above (if is1 then next else prev) y
      else false
    else true.
Definition count_on (r : seg) (y : R) (prev s next : seg) : nat :=
  let i := intersections s r in
  if fst i then length (filter (counts y prev s next) (fst (snd i))) else 0%nat.
Definition count_all (o : outline) (p : pt) : nat :=
  let l := o_segs o in
  let n := length l in
  let at_ (i : nat) := nth i l seg_init in
  fold_left Nat.add
    (map (fun i => count_on (ray o p) (py p) (at_ (if Nat.eqb i 0 then n - 1 else i - 1)%nat) (at_ i)
                            (at_ (if Nat.eqb (i + 1) n then 0 else i + 1)%nat)) (seq 0 n)) 0%nat.
Definition is_inside (o : outline) (p : pt) (err : bool) : ans :=
  if negb (o_closed o) then (false, true) else (Nat.odd (count_all o p), err).

(** [opOutline] with a circle (L611-1139). *)

(** The intersections with each segment (L649-715): the points with the place of the
    segment in the list, or [inl e] when the function returns false with the error
    flag [e]. *)
Fixpoint collect (i : nat) (l : list seg) (c : seg) (opsub : bool) : bool + list (pt * nat) :=
  match l with
  | [] => inr []
  | s :: l' =>
      match intersections s c with
      | (true, (ps, f)) =>
          match f with
          | INone | IEndpoint | ITangent =>
              match collect (S i) l' c opsub with
              | inl e => inl e
              | inr r => inr (map (fun p => (p, i)) ps ++ r)
              end
          | _ => inl true
          end
      | (false, (_, f)) =>
          match f with
          | INone => collect (S i) l' c opsub
          | IEncircles => inl (negb opsub)
          | _ => inl true
          end
      end
  end.

(** The distinct points (L730-766). *)
Fixpoint distinct (acc : list (pt * nat)) (l : list (pt * nat)) : list (pt * nat) :=
  match l with
  | [] => acc
  | v :: l' =>
      if existsb (fun u => point_matches (fst u) (fst v) e8) acc then distinct acc l'
      else distinct (acc ++ [v]) l'
  end.

(** Whether a point is an end of a segment with an intersection (L785-810). *)
Definition is_end_of (p : pt) (s : seg) : bool :=
  negb (segty_eqb (s_ty s) SCircle) && (point_matches p (get_start s) e8 || point_matches p (get_end s) e8).

(** The middle of the part of the circle from [p] counterclockwise to [q], and of the
    other part (L814-848). *)
Definition middles (c : seg) (p q : pt) : pt * pt :=
  let p0 := s_cen c in
  let a1 := atan2 (py p - py p0) (px p - px p0) in
  let b := atan2 (py q - py p0) (px q - px p0) in
  let a2 := if ltb b a1 then b + 2 * PI else b in
  let a3 := (a1 + a2) / 2 in
  let m (a : R) := mkPt (px p0 + s_rad c * cos a) (py p0 + s_rad c * sin a) 0 in
  (m a3, m (a3 + PI)).

(** Splitting the segment at place [i] at the point [p] (L1034-1078). *)
Definition split_at (l : list seg) (i : nat) (p : pt) : option (list seg) :=
  match split (nth i l seg_init) [p] with
  | (true, (_, (s', [n]))) => Some (firstn i l ++ s' :: n :: skipn (S i) l)
  | _ => None
  end.

(** The segments from the first one starting at [p] on; those before it are deleted
    (L1111-1135). *)
Fixpoint from_start (p : pt) (l : list seg) : option (list seg) :=
  match l with
  | [] => None
  | s :: l' => if point_matches (s_start s) p e8 then Some l else from_start p l'
  end.

(** Replacing what is between the end of the segment at place [i] and [p] by [sp]
    (L1108-1138); [None] when everything was deleted. *)
Definition replace_after (l : list seg) (i : nat) (p : pt) (sp : seg) : option (list seg) :=
  match from_start p (skipn (S i) l) with
  | Some r => Some (firstn (S i) l ++ sp :: r)
  | None => match from_start p (firstn (S i) l) with Some r => Some (sp :: r) | None => None end
  end.

Definition with_segs (o : outline) (l : list seg) : outline :=
  mkOut l (o_closed o) (o_wind o) (o_bbok o) (o_bl o) (o_tr o).

(** From the splits on (L1029-1138).  A segment which was to be split in two but was
    not stays as it is; what was split before stays split. *)
Definition op_splice (o : outline) (sp : seg) (f0 f1 : pt) (e0 e1 : bool) (i0 i1 : nat) : ans * outline :=
  match (if e0 then Some (o_segs o) else split_at (o_segs o) i0 f0) with
  | None => (no, o)
  | Some l0 =>
      let i1' := if negb e0 && (i0 <? i1)%nat then S i1 else i1 in
      match (if e1 then Some l0 else split_at l0 i1' f1) with
      | None => (no, with_segs o l0)
      | Some l1 =>
          let i0' := if negb e1 && (i1' <? i0)%nat then S i0 else i0 in
          let before := if Nat.eqb i0' 0 then (length l1 - 1)%nat else (i0' - 1)%nat in
          let k := if point_matches (s_end (nth i0' l1 seg_init)) f0 e8 then i0' else before in
          if negb (point_matches (s_end (nth k l1 seg_init)) f0 e8) then (no, with_segs o l1)
          else
            match replace_after l1 k f1 sp with
            | None => (no, with_segs o [])
            | Some l2 => (yes, with_segs o l2)
            end
      end
  end.

(** The whole function (L611-1139).  When both parts of the circle are inside or both
    outside the answer is false without error.  An outline starting with a circle has
    no other segment, [pSeg] is the first one there (L953).  [delete] of a segment is its
    disappearing from the list. *)
Definition op_circle (o : outline) (a : option seg) (opsub : bool) : ans * outline :=
  let o := mkOut (o_segs o) (o_closed o) (o_wind o) false (o_bl o) (o_tr o) in
  if negb (o_closed o) then (no, o)
  else
    match a with
    | None => (no, o)
    | Some c =>
        if negb (segty_eqb (s_ty c) SCircle) then (no, o)
        else
          match collect 0 (o_segs o) c opsub with
          | inl e => ((false, e), o)
          | inr [] => ((false, false), o)
          | inr meets =>
              match distinct [] meets with
              | [(pa, ia); (pb, ib)] =>
                  let is_end (p : pt) := existsb (fun m => is_end_of p (nth (snd m) (o_segs o) seg_init)) meets in
                  let (m1, m2) := middles c pa pb in
                  let in1 := fst (is_inside o m1 false) in
                  let in2 := fst (is_inside o m2 false) in
                  if Bool.eqb in2 in1 then ((false, false), o)
                  else
                    let f0 := if in1 then pb else pa in
                    let f1 := if in1 then pa else pb in
                    let e0 := is_end f0 in
                    let e1 := is_end f1 in
                    let i0 := if in1 then ib else ia in
                    let i1 := if in1 then ia else ib in
                    match set_arc (s_cen c) f0 f1 opsub with
                    | (false, _) => (no, o)
                    | (true, sp) =>
                        match o_segs o with
                        | [] => (no, o)
                        | s :: _ =>
                            if segty_eqb (s_ty s) SCircle then
                              match split s [f0; f1] with
                              | (true, (_, (s', _))) => (yes, with_segs o (s' :: tl (o_segs o) ++ [sp]))
                              | _ => (no, o)
                              end
                            else if negb e0 && negb e1 && Nat.eqb i0 i1 then
                              match split (nth i0 (o_segs o) seg_init) [f0; f1] with
                              | (true, (_, (s', [_; n]))) => (yes, with_segs o (firstn i0 (o_segs o) ++ s' :: sp :: n :: skipn (S i0) (o_segs o)))
                              | (true, (_, (s', _))) => (no, with_segs o (firstn i0 (o_segs o) ++ s' :: skipn (S i0) (o_segs o)))
                              | (false, _) => (no, o)
                              end
                            else op_splice o sp f0 f1 e0 e1 i0 i1
                        end
                    end
              | _ => (no, o)
              end
          end
    end.
