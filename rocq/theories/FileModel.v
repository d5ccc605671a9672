(** Model of [IGES::Write] and [IGES::Read], /repo/src/iges/iges.cpp L422-821, at
    the level of whole files.  Entities are the payloads of [PayloadModel] with
    their Directory Entry; pointers to other entities are given by the sequence
    numbers which [Write] assigns (L651-652). *)

From Coq Require Import QArith.
From Verif Require Import Base Num IoModel PdModel EntModel EntModel2 EntModel3 DeModel HeaderModel GlobalModel PayloadModel.
Open Scope Z_scope.

(** ** Writing *)

(** An entity: members of [IGES_ENTITY] (those set by [Write] itself are
    overwritten), data, optional entities (type and number) and comments. *)
Record ent := mkEnt { e_dir : dir; e_data : payload (Q * Q * Q); e_extras : list (Z * Z); e_comments : list str }.

(** The virtual method [format]; see [EntModel] for the places. *)
Definition format_ent (u : Q) (pd rd : ascii) (index seq : Z) (e : ent) : pres pdrec :=
  let ex := e_extras e in let cs := e_comments e in
  match e_data e with
  | P100 a => format100 a ex cs index seq pd rd u
  | P102 l => format102 l ex cs index seq pd rd
  | P104 c => format104 c ex cs index seq pd rd
  | P110 l => format110 l ex cs index seq pd rd u
  | P120 r => format120 r ex cs index seq pd rd
  | P122 t => format122 t ex cs index seq pd rd u
  | P124 m => format124 m ex cs index seq pd rd u
  | P126 c (i, j, k) => format126 c i j k ex cs index seq pd rd
  | P128 s => format128 s ex cs index seq pd rd
  | P142 o => format142 o ex cs index seq pd rd
  | P144 t => format144 t ex cs index seq pd rd
  | P154 c (i, j, k) => format154 c i j k ex cs index seq pd rd u
  | P164 x (i, j, k) => format164 x i j k ex cs index seq pd rd u
  | P180 l => format180 l ex cs index seq pd rd
  | P186 b => format186 b ex cs index seq pd rd
  | P308 s => format308 s ex cs index seq pd rd
  | P314 c => format314 c ex cs index seq pd rd
  | P406 n => format406 (d_form (e_dir e)) n ex cs index seq pd rd
  | P408 i => format408 i ex cs index seq pd rd u
  | P502 v => format502 v ex cs index seq pd rd u
  | P504 l => format504 l ex cs index seq pd rd
  | P508 l => format508 l ex cs index seq pd rd
  | P510 f => format510 f ex cs index seq pd rd
  | P514 l => format514 l ex cs index seq pd rd
  end.

(** The members after [format]: [sequenceNumber] (iges.cpp L652),
    [parameterData] (for example entity110.cpp L81) and [paramLineCount]. *)
Definition filed (seq pdata count : Z) (e : ent) : dir :=
  let d := e_dir e in
  mkDir (type_no (e_data e)) seq pdata count (d_struct d) (d_font d) (d_pfont d) (d_level d) (d_plevel d) (d_view d)
    (d_trans d) (d_lassoc d) (d_visible d) (d_dep d) (d_use d) (d_hier d) (d_weight d) (d_color d) (d_pcolor d)
    (d_form d) (d_label d) (d_sub d).

(** The loops at L651-668; [None] = a [format] returned false, [PCrash] =
    undefined.  Result: Directory Entries and records in order, and the next
    free line. *)
Fixpoint format_all (u : Q) (pd rd : ascii) (seq index : Z) (es : list ent) : pres (list (dir * pdrec) * Z) :=
  match es with
  | [] => POk ([], index)
  | e :: r =>
    do p <- format_ent u pd rd index seq e;
    do (l, k) <- format_all u pd rd (seq + 2) (p_next p) r;
    POk ((filed seq index (p_count p) e, p) :: l, k)
  end.

(** What a failing [writeStart] has written (L1980-2001). *)
Fixpoint put_upto (n : Z) (l : list str) : str :=
  match l with
  | [] => []
  | s :: r =>
    match FormatDEInt n with
    | Some c => s ++ set0 "S" c ++ [nl] ++ put_upto (n + 1) r
    | None => []
    end
  end.

(** L735-743 and L746-754: the bytes written and whether all went well. *)
Fixpoint put_dirs (l : list (dir * pdrec)) : bool * str :=
  match l with
  | [] => (true, [])
  | (d, _) :: r =>
    match writeDE d with
    | None => (false, [])
    | Some s => let '(ok, t) := put_dirs r in (ok, s ++ t)
    end
  end.
Fixpoint put_records (l : list (dir * pdrec)) : bool * str :=
  match l with
  | [] => (true, [])
  | (_, p) :: r =>
    match writePD p with
    | None => (false, [])
    | Some s => let '(ok, t) := put_records r in (ok, s ++ t)
    end
  end.

(** The Terminate Section, L757-811. *)
Definition t_line (ns ng nd np : Z) : option str :=
  match FormatDEInt ns, FormatDEInt ng, FormatDEInt nd, FormatDEInt np, FormatDEInt 1 with
  | Some s, Some g, Some d, Some p, Some t =>
    Some (set0 "S" s ++ set0 "G" g ++ set0 "D" d ++ set0 "P" p ++ repeat sp 40 ++ set0 "T" t ++ [nl])
  | _, _, _, _, _ => None
  end.

(** From the Directory Entries to the end, L735-820. *)
Definition put_entities (ns ng : Z) (l : list (dir * pdrec)) (next : Z) : bool * str :=
  let '(okd, d) := put_dirs l in
  if negb okd then (false, d) else
  let '(okp, p) := put_records l in
  if negb okp then (false, d ++ p) else
  match t_line ns ng (2 * Z.of_nat (length l)) (next - 1) with
  | Some t => (true, d ++ p ++ t)
  | None => (false, d ++ p)
  end.

(** The members used by [Write]. *)
Record doc := mkDoc { d_start : list str; d_glob : globals; d_ents : list ent }.

(** L718-820 and L2005-2378: everything behind the opening of the file.  Result: success
    and the bytes written.  Failing output streams are not modelled. *)
Definition put_file (start : list str) (g : globals) (ver now : str) (l : list (dir * pdrec)) (next : Z) : pres (bool * str) :=
  match fix_lines (match start with [] => [start_default] | _ => start end) with
  | None => PCrash
  | Some lines =>
    match put_lines 1 lines with
    | None => POk (false, put_upto 1 lines)
    | Some s =>
      match writeGlobals g ver now with
      | PCrash => PCrash
      | PFail => POk (false, s)
      | POk (gs, ng) =>
        let '(ok, t) := put_entities (Z.of_nat (length lines)) ng l next in POk (ok, s ++ gs ++ t)
      end
    end
  end.

(** The file name in the settings, L705-716. *)
Definition with_name (g : globals) (name : str) : globals :=
  mkG (pdelim g) (rdelim g) (productIDSS g) name (nativeSystemID g) (preprocessorVersion g)
    (nIntegerBits g) (floatMaxExp g) (floatMaxSig g) (doubleMaxExp g) (doubleMaxSig g) (productIDRS g)
    (modelScale g) (unitsFlag g) (unitsName g) (maxLinewidthGrad g) (maxLinewidth g) (creationDate g) (minResolution g)
    (maxCoordinateValue g) (author g) (organization g) (igesVersion g) (draftStandard g)
    (modificationDate g) (applicationNote g) (cf g) (convert g).

(** The target of [Write]: nothing there, a file which can be opened for reading
    and writing, one which can only be opened for writing, or a place where
    nothing can be opened. *)
Inductive target := Free | Old (content : str) | WriteOnly (content : str) | Closed.

(** L672-703: is the file emptied, given the flag [fOverwrite]? *)
Definition opened (t : target) (over : bool) : bool :=
  match t with Free => true | Old _ => over | WriteOnly _ => true | Closed => false end.

(** [Write], L628-821, behind [Cull]: result and target afterwards.  [name] is the
    file name which [MCAD_FILEPATH] finds in the path, empty if there is none;
    [ver] and [now] as in [writeGlobals]. *)
Definition Write (d : doc) (name ver now : str) (t : target) (over : bool) : pres (bool * target) :=
  match d_ents d with
  | [] => POk (false, t)
  | _ =>
    let g := d_glob d in
    match format_all (minResolution g) (pdelim g) (rdelim g) 1 1 (d_ents d) with
    | PCrash => PCrash
    | PFail => POk (false, t)
    | POk (l, next) =>
      if opened t over then
        do (ok, s) <- put_file (d_start d) (with_name g name) ver now l next;
        POk (ok, Old s)
      else POk (false, t)
    end
  end.

(** The members after a successful [Write] (Start Section L1936-1978, settings
    L705-716 and [after_write]; the numbers set in the entities do not matter to a
    later one). *)
Definition after_Write (d : doc) (name : str) : option doc :=
  option_map (fun l => mkDoc l (after_write (with_name (d_glob d) name)) (d_ents d))
    (fix_lines (match d_start d with [] => [start_default] | l => l end)).

(** ** Reading *)

(** An entity as read, in front of [associate]: type number, Directory Entry, data
    ([None] for a NULL entity), numbers in the optional lists, comments. *)
Record rent := mkRent { n_type : Z; n_dir : dirin; n_data : option (payload direction); n_ptrs : list Z; n_comments : list str }.

(** [readDE] of [IGES], L1548-1605: [rec] was read last, [f] is the stream behind
    it.  Results: Directory Entries in order, the first record of another section
    and the stream in front of that record, to which the file is rewound.  The
    length of the stream is enough fuel; [PCrash] marks missing fuel. *)
Fixpoint read_dirs (fuel : nat) (maxgrad : Z) (rec : irec) (f pos : stream) : pres (list (Z * dirin) * irec * stream) :=
  if Ascii.eqb (r_sec rec) "D" then
    match fuel with
    | O => PCrash
    | S fuel' =>
      do t <- DEItemToInt (r_data rec) 0 None;
      do (d, f1) <- readDE t maxgrad rec f;
      do (rec', f2) <- ReadIGESRecord f1;
      do (l, rec'', pos') <- read_dirs fuel' maxgrad rec' f2 f1;
      POk ((t, d) :: l, rec'', pos')
    end
  else POk ([], rec, pos).

(** [IGES_ENTITY_NULL::readPD], entityNULL.cpp L231-294: the lines are skipped. *)
Fixpoint skip_records (n : nat) (k : Z) (f : stream) : pres stream :=
  match n with
  | O => POk f
  | S n' =>
    do (rec, f1) <- ReadIGESRecord f;
    guard (Ascii.eqb (r_sec rec) "P") (
    guard (r_idx rec =? k) (skip_records n' (k + 1) f1))
  end.
Definition readPDNULL (pdata count : Z) (f : stream) : pres stream :=
  if (pdata <? 1) || (9999999 <? pdata) then PFail else
  if (count <? 1) || (10000000 <? pdata + count) then PFail else
  skip_records (Z.to_nat count) pdata f.

(** A record read, as a payload. *)
Definition lift {A} (c : A -> payload direction) (x : pres (A * list Z * list str * stream))
  : pres (payload direction * list Z * list str * stream) :=
  do (a, p, cs, f) <- x; POk (c a, p, cs, f).

(** The virtual method [readPD] of the types which [NewEntity] knows; see
    [EntModel] for the places. *)
Definition read_payload (t seq pdata count : Z) (pd rd : ascii) (u : Q) (f : stream)
  : pres (payload direction * list Z * list str * stream) :=
  match t with
  | 100 => lift P100 (readPD100 seq pdata count pd rd u f)
  | 102 => lift P102 (readPD102 seq pdata count pd rd f)
  | 104 => lift P104 (readPD104 seq pdata count pd rd f)
  | 110 => lift P110 (readPD110 seq pdata count pd rd f)
  | 120 => lift P120 (readPD120 seq pdata count pd rd f)
  | 122 => lift P122 (readPD122 seq pdata count pd rd f)
  | 124 => lift P124 (readPD124 seq pdata count pd rd f)
  | 126 => lift (fun x => P126 (fst x) (snd x)) (readPD126 seq pdata count pd rd f)
  | 128 => lift P128 (readPD128 seq pdata count pd rd f)
  | 142 => lift P142 (readPD142 seq pdata count pd rd f)
  | 144 => lift P144 (readPD144 seq pdata count pd rd f)
  | 154 => lift (fun x => P154 (fst x) (snd x)) (readPD154 seq pdata count pd rd u f)
  | 164 => lift (fun x => P164 (fst x) (snd x)) (readPD164 seq pdata count pd rd f)
  | 180 => lift P180 (readPD180 seq pdata count pd rd f)
  | 186 => lift P186 (readPD186 seq pdata count pd rd f)
  | 308 => lift P308 (readPD308 seq pdata count pd rd f)
  | 314 => lift P314 (readPD314 seq pdata count pd rd f)
  | 406 => lift P406 (readPD406 seq pdata count pd rd f)
  | 408 => lift P408 (readPD408 seq pdata count pd rd f)
  | 502 => lift P502 (readPD502 seq pdata count pd rd f)
  | 504 => lift P504 (readPD504 seq pdata count pd rd f)
  | 508 => lift P508 (readPD508 seq pdata count pd rd f)
  | 510 => lift P510 (readPD510 seq pdata count pd rd f)
  | 514 => lift P514 (readPD514 seq pdata count pd rd f)
  | _ => PFail
  end.

(** [readPD] of the entity which [NewEntity] created, L825-944. *)
Definition read_record (pd rd : ascii) (u : Q) (t : Z) (d : dirin) (f : stream) : pres (rent * stream) :=
  if mem t known_types then
    do (p, ptrs, cs, f1) <- read_payload t (i_seq d) (i_pdata d) (i_count d) pd rd u f;
    POk (mkRent t d (Some p) ptrs cs, f1)
  else
    do f1 <- readPDNULL (i_pdata d) (i_count d) f;
    POk (mkRent t d None [] [], f1).

(** [readPD] of [IGES], L1608-1632. *)
Fixpoint read_records (pd rd : ascii) (u : Q) (l : list (Z * dirin)) (f : stream) : pres (list rent * stream) :=
  match l with
  | [] => POk ([], f)
  | (t, d) :: r =>
    do (e, f1) <- read_record pd rd u t d f;
    do (es, f2) <- read_records pd rd u r f1;
    POk (e :: es, f2)
  end.

(** [rec.data[i] = 32] at L1683-1686. *)
Definition blank_at (i : nat) (s : str) : str := firstn i s ++ sp :: skipn (S i) s.

(** [readTS], L1635-1742: the four counts.  They are compared with the lines read,
    but a difference only prints a message. *)
Definition readTS (f : stream) : pres (list Z) :=
  do (rec, _) <- ReadIGESRecord f;
  guard (Ascii.eqb (r_sec rec) "T") (
  guard (r_idx rec =? 1) (
  let s := r_data rec in
  guard (Ascii.eqb (at_ s 0) "S" && Ascii.eqb (at_ s 8) "G" && Ascii.eqb (at_ s 16) "D" && Ascii.eqb (at_ s 24) "P") (
  let s1 := blank_at 24 (blank_at 16 (blank_at 8 (blank_at 0 s))) in
  do a <- DEItemToInt s1 0 None;
  do b <- DEItemToInt s1 1 None;
  do c <- DEItemToInt s1 2 None;
  do d <- DEItemToInt s1 3 None;
  POk [a; b; c; d]))).

(** [Read], L422-602: everything in front of [associate].  [lines], [n] and [g0] are
    the members [startSection], [nGlobSecLines] and [globalData] on entry, [name] is
    the name of the file on disk (L526-552).  A file which cannot be opened is not
    modelled.  The result [PFail] is followed by [Clear]. *)
Definition read_file (lines : list str) (n : Z) (g0 : globals) (name : str) (f : stream)
  : pres (list str * globals * list rent * list Z) :=
  do (start, rec, f1) <- read_start lines f;
  do (g, _, rec1, f2) <- readGlobals rec n g0 f1;
  guard (Ascii.eqb (r_sec rec1) "D") (
  guard (r_idx rec1 =? 1) (
  do (ds, rec2, f3) <- read_dirs (S (length (s_rest f2))) (maxLinewidthGrad g) rec1 f2 f2;
  guard (Ascii.eqb (r_sec rec2) "P") (
  do (es, f4) <- read_records (pdelim g) (rdelim g) (minResolution g) ds f3;
  do ts <- readTS f4;
  POk (start, with_name g name, es, ts)))).
