(** Model of the Directory Entry of an entity: [writeDE] and [readDE] of
    /repo/src/entities/iges_entity.cpp and the [readDE] methods of the entities. *)

From Verif Require Import Base Num IoModel.
Open Scope Z_scope.

(** ** Writing *)

(** The members of [IGES_ENTITY] which [writeDE] looks at
    (include/core/iges_entity.h).  A pointer to another entity is represented by
    the sequence number of that entity, [None] = NULL. *)
Record dir := mkDir {
  d_type : Z;               (* entityType *)
  d_seq : Z;                (* sequenceNumber *)
  d_pdata : Z;              (* parameterData *)
  d_count : Z;              (* paramLineCount *)
  d_struct : option Z;      (* pStructure *)
  d_font : Z;               (* lineFontPattern *)
  d_pfont : option Z;       (* pLineFontPattern *)
  d_level : Z;              (* level *)
  d_plevel : option Z;      (* pLevel *)
  d_view : option Z;        (* pView *)
  d_trans : option Z;       (* pTransform *)
  d_lassoc : option Z;      (* pLabelAssoc *)
  d_visible : bool; d_dep : Z; d_use : Z; d_hier : Z;
  d_weight : Z;             (* lineWeightNum *)
  d_color : Z;              (* colorNum *)
  d_pcolor : option Z;      (* pColor *)
  d_form : Z; d_label : str; d_sub : Z }.

(** [-p->sequenceNumber] or the plain number where the latter is in range,
    otherwise 0 (L1633-1638, L1649-1654, L1738-1743). *)
Definition neg_or (p : option Z) (ok : bool) (v : Z) : Z :=
  match p with Some s => - s | None => if ok then v else 0 end.

(** [p->sequenceNumber], 0 for NULL. *)
Definition ptr_or0 (p : option Z) : Z := match p with Some s => s | None => 0 end.

(** The status number, iges_entity.cpp L1701-1715. *)
Definition status_number (visible : bool) (dep use hier : Z) : Z :=
  (((if visible then 0 else 100) + dep) * 100 + use) * 100 + hier.

(** Several numbers in columns of eight; [None] when one of them does not fit. *)
Fixpoint de_fields (l : list Z) : option str :=
  match l with
  | [] => Some []
  | n :: r =>
    match FormatDEInt n, de_fields r with
    | Some a, Some b => Some (a ++ b)
    | _, _ => None
    end
  end.

(** The last field of a line: the first column must be blank and becomes D
    (L1725-1733 and L1810-1818). *)
Definition de_tail (n : Z) : option str :=
  match FormatDEInt n with
  | Some (c :: r) => if Ascii.eqb c sp then Some ("D"%char :: r) else None
  | _ => None
  end.

(** The label, right justified in eight columns (L1786-1795). *)
Definition de_label (l : str) : str := repeat sp (8 - length l) ++ firstn 8 l.

(** The numbers of the first line, fields 1 to 9 (L1587-1722). *)
Definition de_line1 (d : dir) : list Z :=
  [d_type d; d_pdata d; neg_or (d_struct d) false 0;
   neg_or (d_pfont d) ((0 <=? d_font d) && (d_font d <? 6)) (d_font d);
   neg_or (d_plevel d) (0 <=? d_level d) (d_level d);
   ptr_or0 (d_view d); ptr_or0 (d_trans d); ptr_or0 (d_lassoc d);
   status_number (d_visible d) (d_dep d) (d_use d) (d_hier d)].

(** The numbers of the second line in front of the unused fields, fields 11 to 15
    (L1591, L1739-1779). *)
Definition de_line2 (d : dir) : list Z :=
  [d_type d; d_weight d;
   neg_or (d_pcolor d) ((0 <=? d_color d) && (d_color d <? 9)) (d_color d);
   d_count d; d_form d].

(** [IGES_ENTITY::writeDE], iges_entity.cpp L1581-1842: the characters appended to
    the file, [None] = returned false (nothing was written).  The order of the
    checks is not kept, it has no observable effect.  The tests on the lengths of
    the lines at L1736 and L1821 never fail.  Not modelled: overflow of
    [parameterData + paramLineCount] and of the negation of a sequence number (the
    library keeps them within 1..9999999), and a failing stream. *)
Definition writeDE (d : dir) : option str :=
  if 10000000 <? d_pdata d + d_count d then None else
  match de_fields (de_line1 d), de_tail (d_seq d),
        de_fields (de_line2 d), de_fields [d_sub d], de_tail (d_seq d + 1) with
  | Some a, Some ta, Some b, Some s, Some tb =>
    Some (a ++ ta ++ [nl] ++ b ++ repeat sp 16 ++ de_label (d_label d) ++ s ++ tb ++ [nl])
  | _, _, _, _, _ => None
  end.

(** ** Reading *)

(** The members set by [readDE]; pointers are still sequence numbers. *)
Record dirin := mkIn {
  i_seq : Z; i_pdata : Z; i_struct : Z; i_font : Z; i_level : Z; i_view : Z; i_trans : Z; i_lassoc : Z;
  i_visible : bool; i_dep : Z; i_use : Z; i_hier : Z;
  i_weight : Z; i_color : Z; i_count : Z; i_form : Z; i_label : str; i_sub : Z }.

(** Fields read with [DEItemToInt] and checked. *)
Fixpoint de_read (data : str) (l : list (Z * option Z * (Z -> bool))) : pres (list Z) :=
  match l with
  | [] => POk []
  | (n, dflt, ok) :: r =>
    do v <- DEItemToInt data n dflt;
    guard (ok v) (
    do vs <- de_read data r;
    POk (v :: vs))
  end.

(** A number which cannot be read is replaced by 0 (status L1206-1211, line weight
    L1318-1323). *)
Definition de_lenient (data : str) (n : Z) : Z :=
  match DEItemToInt data n None with POk v => v | _ => 0 end.

(** Fields 1 to 8 of the first line, L1099-1203. *)
Definition de_spec1 (etype : Z) : list (Z * option Z * (Z -> bool)) :=
  [(0, None, fun v => v =? etype);
   (1, None, fun v => 0 <=? v);
   (2, Some 0, fun _ => true);
   (3, Some 0, fun v => v <? 6);
   (4, Some 0, fun v => 0 <=? v);
   (5, Some 0, fun v => 0 <=? v);
   (6, Some 0, fun v => 0 <=? v);
   (7, Some 0, fun v => 0 <=? v)].

(** Fields 11, 13, 14, 15 and 19 of the second line, L1297-1309, L1343-1425. *)
Definition de_spec2 (etype : Z) : list (Z * option Z * (Z -> bool)) :=
  [(0, None, fun v => v =? etype);
   (2, Some 0, fun v => v <? 9);
   (3, None, fun v => (0 <=? v) && ((1 <=? v) || (etype =? 0)));
   (4, Some 0, fun v => 0 <=? v);
   (8, Some 0, fun v => 0 <=? v)].

(** The second line, L1277-1425: [k] is the sequence number expected.  The line
    weight is limited to [maxgrad] (L1331-1337). *)
Definition readDE2 (etype maxgrad k : Z) (f : stream)
  : pres (Z * Z * Z * Z * str * Z * stream) :=
  do (rec, f1) <- ReadIGESRecord f;
  guard (Ascii.eqb (r_sec rec) "D" && (r_idx rec =? k)) (
  do l <- de_read (r_data rec) (de_spec2 etype);
  let w := de_lenient (r_data rec) 1 in
  guard (0 <=? w) (
  do lab <- DEItemToStr (r_data rec) 7;
  match l with
  | [_; color; count; form; sub] =>
    POk (if maxgrad <? w then maxgrad else w, color, count, form, lab, sub, f1)
  | _ => PFail
  end)).

(** The status number is valid, L1213-1264. *)
Definition status_ok (n : Z) : bool :=
  (0 <=? n) && (n mod 100 <=? 2) && ((n / 100) mod 100 <=? 6) &&
  ((n / 10000) mod 100 <=? 3) && ((n / 1000000) mod 100 <=? 1).

(** [IGES_ENTITY::readDE], iges_entity.cpp L1062-1428: [rec] is the record holding
    the first line, [maxgrad] the member [maxLinewidthGrad] of the global data.
    The parent pointer is taken to be set; [aSequenceVar] grows by 2. *)
Definition readDE_base (etype maxgrad : Z) (rec : irec) (f : stream) : pres (dirin * stream) :=
  guard (Ascii.eqb (r_sec rec) "D") (
  guard ((1 <=? r_idx rec) && (r_idx rec <? 9999997) && Z.odd (r_idx rec)) (
  do l <- de_read (r_data rec) (de_spec1 etype);
  let s := de_lenient (r_data rec) 8 in
  guard (status_ok s) (
  do (w, color, count, form, lab, sub, f1) <- readDE2 etype maxgrad (r_idx rec + 1) f;
  match l with
  | [_; pdata; struct; font; level; view; trans; lassoc] =>
    POk (mkIn (r_idx rec) pdata (if 0 <? struct then 0 else struct) font level view trans lassoc
              ((s / 1000000) mod 100 =? 0) ((s / 10000) mod 100) ((s / 100) mod 100) (s mod 100)
              w color count form lab sub, f1)
  | _ => PFail
  end))).

Definition mem (n : Z) (l : list Z) : bool := existsb (Z.eqb n) l.

(** Entity types for which [NewEntity] creates an object of its own, iges.cpp
    L830-926.  All others, including the plane 108 for which there is a class,
    become NULL entities. *)
Definition known_types : list Z :=
  [100; 102; 104; 110; 120; 122; 124; 126; 128; 142; 144; 154; 164; 180; 186; 308; 314; 406; 408;
   502; 504; 508; 510; 514].

(** The tests on the form number in the [readDE] methods: entity100.cpp L245,
    102 L492, 104 L268, 110 L197, 120 L299, 122 L276, 124 L292 (never fails),
    126 L424, 128 L430, 142 L370, 144 L498, 154 L211, 164 L287, 180 L362, 186 L358,
    308 L320, 314 L300, 406 L319, 408 L283, 502 L237, 504 L427, 508 L460, 510 L325,
    514 L301. *)
Definition form_ok (etype form : Z) : bool :=
  if mem etype [100; 102; 120; 122; 142; 144; 154; 164; 186; 308; 314; 408] then form =? 0 else
  if etype =? 104 then (1 <=? form) && (form <=? 3) else
  if etype =? 110 then (0 <=? form) && (form <=? 2) else
  if etype =? 126 then (0 <=? form) && (form <=? 5) else
  if etype =? 128 then (0 <=? form) && (form <=? 9) else
  if mem etype [180; 508] then (form =? 0) || (form =? 1) else
  if etype =? 406 then form =? 15 else
  if mem etype [502; 504; 510; 514] then form =? 1 else
  true.

(** The fields which the [readDE] methods overwrite (same places). *)
Definition de_adjust (etype : Z) (d : dirin) : dirin :=
  mkIn (i_seq d) (i_pdata d)
    (if mem etype known_types then 0 else i_struct d)
    (if mem etype [124; 314; 406; 502; 504; 510; 514] then 0 else i_font d)
    (if mem etype [124; 314] then 0 else i_level d)
    (if mem etype [124; 314; 406; 502; 504; 508; 510; 514] then 0 else i_view d)
    (if mem etype [314; 406; 502; 504; 508; 510; 514] then 0 else i_trans d)
    (if mem etype [124; 314; 406] then 0 else i_lassoc d)
    (if mem etype [124; 406] then true else i_visible d)
    (if etype =? 314 then 0 else if mem etype [502; 504; 508; 510] then 1 else i_dep d)
    (if mem etype [142; 144; 154; 164; 180; 406] then 0 else if mem etype [308; 314] then 2 else i_use d)
    (if mem etype [100; 104; 110; 120; 122; 124; 126; 128; 142; 144; 154; 164; 406; 502] then 0
     else if etype =? 504 then 1 else i_hier d)
    (if mem etype [314; 502; 504; 510; 514] then 0 else i_weight d)
    (if mem etype [502; 504; 510; 514] then 0 else i_color d)
    (i_count d) (i_form d) (i_label d) (i_sub d).

(** [readDE] of the entity which [NewEntity] creates for the type number [etype].
    NULL entities use the method of the base class with that type number
    (entityNULL.cpp L214-227). *)
Definition readDE (etype maxgrad : Z) (rec : irec) (f : stream) : pres (dirin * stream) :=
  do (d, f1) <- readDE_base etype maxgrad rec f;
  guard (form_ok etype (i_form d)) (POk (de_adjust etype d, f1)).
