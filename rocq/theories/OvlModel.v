(** Model of merging an outline with another one and cutting it out,
    [MCAD_OUTLINE::opOutline] with an outline (/repo/src/geom/mcad_outline.cpp
    L1143-1920), and of [AddCutout] (L2013-2155).  Segments, outlines and numbers are
    those of SegModel.v, CutModel.v and OutModel.v; an iterator is a place in the list.
    That the outline given is the outline itself is not modelled. *)

From Coq Require Import Reals List Bool Arith.
From Verif Require Import SegModel CutModel OutModel.
Import ListNotations.
Open Scope R_scope.

(** The intersections of the segment [s] at place [i] with those of the other outline
    from place [j] on (L1229-1289).  The list [iList] is cleared for each segment of
    this outline only, so the points found before are entered again. *)
Fixpoint meet_one (s : seg) (i j : nat) (l : list seg) (before : list pt) (opsub : bool) : bool + list (pt * (nat * nat)) :=
  match l with
  | [] => inr []
  | t :: l' =>
      match intersections s t with
      | (true, (ps, f)) =>
          match f with
          | INone | IEndpoint | ITangent =>
              match meet_one s i (S j) l' (before ++ ps) opsub with
              | inl e => inl e
              | inr r => inr (map (fun p => (p, (i, j))) (before ++ ps) ++ r)
              end
          | _ => inl true
          end
      | (false, (_, f)) =>
          match f with
          | INone => meet_one s i (S j) l' before opsub
          | IEncircles => inl (negb opsub)
          | _ => inl true
          end
      end
  end.

(** For all segments of this outline (L1221-1293); [inl e] when the function returns
    false with the error flag [e]. *)
Fixpoint meet_all (i : nat) (l m : list seg) (opsub : bool) : bool + list (pt * (nat * nat)) :=
  match l with
  | [] => inr []
  | s :: l' =>
      match meet_one s i 0 m [] opsub with
      | inl e => inl e
      | inr r => match meet_all (S i) l' m opsub with inl e => inl e | inr r' => inr (r ++ r') end
      end
  end.

(** The distinct points with the segments they were first found on (L1305-1348). *)
Fixpoint firsts (acc l : list (pt * (nat * nat))) : list (pt * (nat * nat)) :=
  match l with
  | [] => acc
  | v :: l' =>
      if existsb (fun u => point_matches (fst u) (fst v) e8) acc then firsts acc l'
      else firsts (acc ++ [v]) l'
  end.

(** Splitting an outline at the two points (L1364-1439, L1441-1515): the answer, the
    segments and the place of the segment the first point was found on.  What was split
    before a failure stays split. *)
Definition touches (p : pt) (s : seg) : bool := point_matches p (s_start s) e8 || point_matches p (s_end s) e8.
Definition split_once (l : list seg) (i : nat) (p : pt) : option (list seg) :=
  if touches p (nth i l seg_init) then Some l else split_at l i p.
Definition split_both (l : list seg) (p : pt) (i : nat) (q : pt) (j : nat) : bool * (list seg * nat) :=
  let inner (v : pt) (s : seg) := negb (negb (segty_eqb (s_ty s) SCircle) && touches v s) in
  if inner p (nth i l seg_init) && inner q (nth j l seg_init) && Nat.eqb i j then
    match split (nth i l seg_init) [p; q] with
    | (true, (_, (s', n))) => (true, (firstn i l ++ s' :: n ++ skipn (S i) l, i))
    | (false, _) => (false, (l, i))
    end
  else
    match split_once l i p with
    | None => (false, (l, i))
    | Some l0 =>
        let j' := if negb (touches p (nth i l seg_init)) && (i <? j)%nat then S j else j in
        match split_once l0 j' q with
        | None => (false, (l0, i))
        | Some l1 => (true, (l1, if negb (touches q (nth j' l0 seg_init)) && (j' <? i)%nat then S i else i))
        end
    end.

(** The segment starting at the point: the one at the place given or one of the next two
    (L1529-1569, L1585-1625). *)
Definition next_place (l : list seg) (k : nat) : nat := if Nat.eqb (S k) (length l) then 0%nat else S k.
Definition find_start (l : list seg) (k : nat) (p : pt) : option nat :=
  let here (i : nat) := point_matches p (s_start (nth i l seg_init)) e8 in
  let k1 := next_place l k in
  let k2 := next_place l k1 in
  if here k then Some k else if here k1 then Some k1 else if here k2 then Some k2 else None.

(** Going from the place [k] on, round the end of the list, until a segment starts at
    [p] (L1665-1690, L1693-1729, L1737-1766, L1773-1810): the segments passed, the others
    and the place of the one found among these; [None] when all were passed. *)
Fixpoint pass_until (p : pt) (l : list seg) : option (list seg * list seg) :=
  match l with
  | [] => None
  | s :: l' =>
      if point_matches (s_start s) p e8 then Some ([], l)
      else match pass_until p l' with Some (w, r) => Some (s :: w, r) | None => None end
  end.
Definition trim (l : list seg) (k : nat) (p : pt) : option (list seg * (list seg * nat)) :=
  match pass_until p (skipn k l) with
  | Some (w, r) => Some (w, (firstn k l ++ r, k))
  | None =>
      match pass_until p (firstn k l) with
      | Some (w, r) => Some (skipn k l ++ w, (r, 0%nat))
      | None => None
      end
  end.

(** The place of the first segment from [k] on, round the end, which starts at [p]
    according to [GetStart] (L1880-1887); without one the loop does not end. *)
Fixpoint place_of (p : pt) (i : nat) (l : list seg) : option nat :=
  match l with
  | [] => None
  | s :: l' => if point_matches (get_start s) p e8 then Some i else place_of p (S i) l'
  end.
Definition turn_to (l : list seg) (k : nat) (p : pt) : option nat :=
  match place_of p k (skipn k l) with
  | Some i => Some i
  | None => place_of p 0 (firstn k l)
  end.

(** What can happen: an answer with the outlines afterwards, the one given being gone
    when it was merged; a loop without end; undefined behaviour. *)
Inductive merge (A : Type) := Merged (r : ans) (o : outline) (a : option A) | Hangs | Wild.
Arguments Merged {A}.
Arguments Hangs {A}.
Arguments Wild {A}.

(** Putting the parts together (L1812-1920): [l] with the place [k] before which the
    segments are inserted, [m] with the place [h].  Cutting out, the segments are taken
    backwards from the one before [h]; merging, forwards from the one which starts where
    the segment before [k] ends according to [GetEnd]. *)
Definition insert_at (k : nat) (l x : list seg) : list seg := firstn k l ++ x ++ skipn k l.
Definition stitch (o : outline) (l : list seg) (k : nat) (m : list seg) (h : nat) (opsub : bool) : merge outline :=
  if opsub then
    Merged yes (with_segs o (insert_at k l (map reverse (rev (firstn h m) ++ rev (skipn h m))))) None
  else
    match l with
    | [] => Wild
    | _ :: _ =>
        let before := if Nat.eqb k 0 then (length l - 1)%nat else (k - 1)%nat in
        match turn_to m h (get_end (nth before l seg_init)) with
        | None => Hangs
        | Some e => Merged yes (with_segs o (insert_at k l (skipn e m ++ firstn e m))) None
        end
    end.

(** Finding the parts to keep (L1517-1810); both outlines are split already.  The
    middle of a line keeps the z coordinate of the point it is written to, which nothing
    looks at. *)
Definition op_parts (o b : outline) (p q : pt) (k h : nat) (opsub : bool) : merge outline :=
  let l := o_segs o in
  let m := o_segs b in
  match find_start l k p with
  | None => Merged (false, false) o (Some b)
  | Some k =>
      let v := snd (get_midpoint (nth k l seg_init) origin) in
      let in0 := fst (is_inside b v false) in
      match find_start m h p with
      | None => Merged (false, false) o (Some b)
      | Some h =>
          let in1 := fst (is_inside o (snd (get_midpoint (nth h m seg_init) v)) false) in
          if Bool.eqb in0 in1 then Merged (false, false) o (Some b)
          else
            match trim l k q with
            | None => Merged no (with_segs o []) (Some b)
            | Some (w, (r, kr)) =>
                let l' := if in0 then r else w in
                let k' := if in0 then kr else 0%nat in
                match trim m h q with
                | None => Merged no (with_segs o l') (Some (with_segs b []))
                | Some (w', (r', hr)) =>
                    if (in1 && negb opsub) || (opsub && negb in1) then stitch o l' k' r' hr opsub
                    else match w' with
                         | [] => Wild
                         | _ :: _ => stitch o l' k' w' (length w' - 1) opsub
                         end
                end
            end
      end
  end.

(** The whole function. *)
Definition op_outline (o : outline) (a : option outline) (opsub : bool) : merge outline :=
  let o := mkOut (o_segs o) (o_closed o) (o_wind o) false (o_bl o) (o_tr o) in
  if negb (o_closed o) then Merged no o a
  else
    match a with
    | None => Merged no o a
    | Some b =>
        if negb (o_closed b) then Merged no o a
        else
          match meet_all 0 (o_segs o) (o_segs b) opsub with
          | inl e => Merged (false, e) o a
          | inr [] => Merged (false, false) o a
          | inr meets =>
              match firsts [] meets with
              | [(p, (i, j)); (q, (i', j'))] =>
                  match split_both (o_segs o) p i q i' with
                  | (false, (l, _)) => Merged no (with_segs o l) a
                  | (true, (l, k)) =>
                      match split_both (o_segs b) p j q j' with
                      | (false, (m, _)) => Merged no (with_segs o l) (Some (with_segs b m))
                      | (true, (m, h)) => op_parts (with_segs o l) (with_segs b m) p q k h opsub
                      end
                  end
              | _ => Merged no o a
              end
          end
    end.

(** An outline with its cutouts and holes, [mcutouts] and [mholes] (mcad_outline.h
    L90-117).  The cutouts and holes of an outline which is itself a cutout are not
    looked at and left out. *)
Record plate := mkPlate { p_out : outline; p_cuts : list outline; p_holes : list seg }.

(** What can happen when a cutout is added: an answer, the plate afterwards and the
    argument where it is still the caller's; a loop without end; undefined behaviour. *)
Inductive added (A : Type) := Added (r : ans) (b : plate) (a : option A) | Stuck | Broken.
Arguments Added {A}.
Arguments Stuck {A}.
Arguments Broken {A}.

(** [AddOutline] and [SubOutline] (L1926-2006).  With a circle, the circle is deleted when
    the answer is true.  That the answer is false when the error flag is set changes
    nothing: both forms of [opOutline] answer false then. *)
Definition with_circle (o : outline) (c : seg) (opsub : bool) : merge seg :=
  let (r, o') := op_circle o (Some c) opsub in Merged r o' (if fst r then None else Some c).
Definition with_outline (o a : outline) (opsub : bool) : merge outline := op_outline o (Some a) opsub.

(** Merging with the first of the cutouts which is met (L2064-2083, L2134-2150); [keep]
    is what is done with the argument when none is. *)
Section Cutouts.
Variable A : Type.
Variable op : outline -> A -> bool -> merge A.
Variable keep : plate -> A -> plate.

Fixpoint merge_first (b : plate) (done l : list outline) (a : A) : added A :=
  match l with
  | [] => Added yes (keep (mkPlate (p_out b) done (p_holes b)) a) None
  | c :: l' =>
      match op c a false with
      | Hangs => Stuck
      | Wild => Broken
      | Merged r c' a' =>
          if fst r then Added yes (mkPlate (p_out b) (done ++ c' :: l') (p_holes b)) None
          else if snd r then Added no (mkPlate (p_out b) (done ++ c' :: l') (p_holes b)) a'
          else match a' with
               | Some a'' => merge_first b (done ++ [c']) l' a''
               | None => Broken
               end
      end
  end.

(** The part which both forms of [AddCutout] share (L2041-2085, L2111-2155): [keep] at
    once unless [overlaps]; else cut out of the outline, or merged with a cutout. *)
Definition add_cutout (b : plate) (a : A) (overlaps : bool) : added A :=
  if negb overlaps then Added yes (keep b a) None
  else
    match op (p_out b) a true with
    | Hangs => Stuck
    | Wild => Broken
    | Merged r o' a' =>
        if fst r then Added yes (mkPlate o' (p_cuts b) (p_holes b)) None
        else if snd r then Added no (mkPlate o' (p_cuts b) (p_holes b)) a'
        else match a' with
             | Some a'' => merge_first (mkPlate o' (p_cuts b) (p_holes b)) [] (p_cuts b) a''
             | None => Broken
             end
    end.
End Cutouts.

(** [AddCutout] with an outline (L2013-2085) and with a circle (L2088-2155). *)
Definition keep_cut (b : plate) (a : outline) : plate := mkPlate (p_out b) (p_cuts b ++ [a]) (p_holes b).
Definition keep_hole (b : plate) (c : seg) : plate := mkPlate (p_out b) (p_cuts b) (p_holes b ++ [c]).
Definition add_cut (b : plate) (a : option outline) (overlaps : bool) : added outline :=
  match a with
  | None => Added no b None
  | Some x => if negb (o_closed x) then Added no b a else add_cutout outline with_outline keep_cut b x overlaps
  end.
Definition add_hole (b : plate) (a : option seg) (overlaps : bool) : added seg :=
  match a with
  | None => Added no b None
  | Some c => if negb (segty_eqb (s_ty c) SCircle) then Added no b a else add_cutout seg with_circle keep_hole b c overlaps
  end.
