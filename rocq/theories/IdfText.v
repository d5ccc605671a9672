(** The text of IDF files: lines, the fields of a line, the records of the
    sections .DRILLED_HOLES and .NOTES.

    [char] is taken to be [unsigned] where it is handed to [isspace] and
    [toupper]; for a negative one both are undefined in C, and the usual
    libraries answer as for a character which is no white space and no letter. *)

From Coq Require Export QArith Qabs.
From Verif Require Export Base Num IoModel.
Open Scope Z_scope.

Definition quote : ascii := chr 34.
Definition hash : ascii := "#"%char.

(** ** Lines *)

(** idf_helpers.cpp L59-60: white space is removed from the end. *)
Definition strip_end (s : str) : str := rev (skip_space (rev s)).

(** [FetchIDFLine], idf_helpers.cpp L35-67.  The result: what is returned, the
    line, the comment flag ([None]: not written, L40-41) and the stream.
    [tellg] gives -1 exactly when the end of the file has been met before. *)
Definition fetch_line (f : stream) : bool * str * option bool * stream :=
  if s_eof f then (false, [], None, f) else
  let '(raw, f') := getline f in
  let '(com, body) :=
    match raw with
    | c :: r => if Ascii.eqb c hash then (true, r) else (false, raw)
    | [] => (false, raw)
    end in
  let l := strip_end (skip_space body) in
  match l, com with
  | [], false => (false, l, Some com, f')
  | _, _ => (true, l, Some com, f')
  end.

(** [while( !FetchIDFLine( .. ) && aBoardFile.good() );], idf_common.cpp L105 and
    L419, with the test after it ([iline.empty()]); the other half of that test
    never holds, for a stream which is not good is at its end.  [None]: the
    exception; otherwise the line, its comment flag and the stream.  The fuel is
    the number of calls, at most one for each byte and one more. *)
Fixpoint next_line (fuel : nat) (f : stream) : option (str * bool * stream) :=
  match fuel with
  | O => None
  | S k =>
    match fetch_line f with
    | (false, _, _, f') => if s_eof f' then None else next_line k f'
    | (true, l, Some com, f') => match l with [] => None | _ => Some (l, com, f') end
    | (true, _, None, _) => None
    end
  end.

Definition read_line (f : stream) : option (str * bool * stream) :=
  next_line (S (length (s_rest f))) f.

(** ** Fields *)

(** Up to the next character of a kind, and from there on. *)
Fixpoint upto (stop : ascii -> bool) (s : str) : str * str :=
  match s with
  | [] => ([], [])
  | c :: r => if stop c then ([], s) else let '(a, b) := upto stop r in (c :: a, b)
  end.

(** What [GetIDFString] changes: the field, the flag [hasQuotes] and the index. *)
Record scan := mkScan { sc_tok : str; sc_quoted : bool; sc_idx : nat }.

(** [GetIDFString], idf_helpers.cpp L71-124.  The index is never negative in any
    call; the line is looked at from the index on. *)
Definition get_string (line : str) (st : scan) : bool * scan :=
  let len := length line in
  if (len <=? sc_idx st)%nat then (false, st) else
  match skip_space (skipn (sc_idx st) line) with
  | [] => (false, mkScan (sc_tok st) (sc_quoted st) len)
  | c :: r =>
    if Ascii.eqb c quote then
      match upto (Ascii.eqb quote) r with
      | (_, []) => (false, mkScan (sc_tok st) true len)
      | (t, _ :: r') => (true, mkScan t true (len - length r'))
      end
    else
      let '(t, r') := upto is_space (c :: r) in
      (true, mkScan t false (len - length r'))
  end.

(** [std::toupper] in the "C" locale. *)
Definition upper (c : ascii) : ascii :=
  if (97 <=? code c) && (code c <=? 122) then chr (code c - 32) else c.

(** [CompareToken], idf_helpers.cpp L131-144. *)
Definition compare_token (key : string) (s : str) : bool :=
  str_eqb (map upper s) (S2 key).

Inductive owner := Unowned | Mcad | Ecad.

(** [ParseOwner], idf_helpers.cpp L148-169. *)
Definition parse_owner (s : str) : option owner :=
  if compare_token "UNOWNED" s then Some Unowned
  else if compare_token "ECAD" s then Some Ecad
  else if compare_token "MCAD" s then Some Mcad
  else None.

(** ** Numbers *)

(** [istr >> d] for a [double] and a string stream which holds one field
    (idf_common.cpp L442-443 and many more), as GNU's library does it: the
    longest start of the field which can be a number is taken; if that start
    ends in the middle of an exponent, or if the number is too large, the
    conversion fails; what follows it stays in the stream.  The result is exact,
    and one too small for a [double] is kept. *)
Definition huge (q : Q) : bool := Qle_bool (inject_Z (2 ^ 1024 - 2 ^ 970)) (Qabs q).

Definition stream_num (s : str) : option Q :=
  let '(neg, s1) := take_sign (skip_space s) in
  let '(ip, s2) := scan_digits s1 0 in
  let ni := (length s1 - length s2)%nat in
  let '(m, s3, nf) :=
    match s2 with
    | c :: r =>
      if Ascii.eqb c "." then
        let '(m, r') := scan_digits r ip in
        (m, r', (length r - length r')%nat)
      else (ip, s2, O)
    | [] => (ip, s2, O)
    end in
  if (ni + nf =? 0)%nat then None else
  let '(e, s4) := scan_exp s3 in
  let cut := match s3 with
             | c :: _ => (Ascii.eqb c "e" || Ascii.eqb c "E") && Nat.eqb (length s4) (length s3)
             | [] => false
             end in
  if cut then None else
  let q := dec2Q (if neg : bool then - m else m) (e - Z.of_nat nf) in
  if huge q then None else Some q.

(** [ostr << setiosflags( ios::fixed ) << setprecision( k ) << d], for [k > 0]:
    the nearest number with [k] decimals, of two equally near ones the even one. *)
Definition pad0 (k : nat) (s : str) : str := repeat "0"%char (k - length s) ++ s.

Definition fixed (k : nat) (q : Q) : str :=
  let p := 10 ^ Z.of_nat k in
  let n := round_half_even (Z.abs (Qnum q) * p) (Zpos (Qden q)) in
  (if Qnum q <? 0 then ["-"%char] else []) ++
  showN (n / p) ++ "."%char :: pad0 k (showN (n mod p)).

(** ** Drilled holes *)

(** idf_outlines.h, [IDF_UNIT]; idf_common.h L78-82, [IDF_VERSION]. *)
Inductive unit_of := MM | Thou | Tnm.
Inductive version := V2 | V3.

(** idf_helpers.h L34-41. *)
Definition thou_to_mm : Q := 254 # 10000.
Definition tnm_to_mm : Q := 1 # 100000.
Definition min_dia (u : unit_of) : Q :=
  match u with MM => 1 # 1000 | Thou => 39 # 100000 | Tnm => 100 end.

(** [KEY_REFDES] and [KEY_HOLETYPE] with the string which belongs to the last
    value of each.  In the code the string is a member of its own, which keeps its
    old value when the key is another; nothing looks at it then
    (idf_common.cpp L763-810). *)
Inductive ref := ToBoard | NoRef | ToPanel | Named (s : str).
Inductive hole := Pin | Via | Mtg | Tool | Other (s : str).

(** [IDF_DRILL_DATA]; the numbers are exact. *)
Record drill := mkDrill {
  dr_dia : Q; dr_x : Q; dr_y : Q;
  dr_plated : bool; dr_ref : ref; dr_hole : hole; dr_owner : owner }.

(** idf_common.cpp L564-580. *)
Definition ref_of (s : str) : ref :=
  if compare_token "BOARD" s then ToBoard
  else if compare_token "NOREFDES" s then NoRef
  else if compare_token "PANEL" s then ToPanel
  else Named s.

(** idf_common.cpp L587-607. *)
Definition hole_of (s : str) : hole :=
  if compare_token "PIN" s then Pin
  else if compare_token "VIA" s then Via
  else if compare_token "MTG" s then Mtg
  else if compare_token "TOOL" s then Tool
  else Other s.

(** The constructor, idf_common.cpp L333-388: a diameter below 0.3 becomes 0.3;
    the names are compared as they are. *)
Definition new_ref (s : str) : ref :=
  if str_eqb s (S2 "BOARD") then ToBoard
  else if match s with [] => true | _ => str_eqb s (S2 "NOREFDES") end then NoRef
  else if str_eqb s (S2 "PANEL") then ToPanel
  else Named s.

Definition new_hole (s : str) : hole :=
  if str_eqb s (S2 "PIN") then Pin
  else if str_eqb s (S2 "VIA") then Via
  else if match s with [] => true | _ => str_eqb s (S2 "MTG") end then Mtg
  else if str_eqb s (S2 "TOOL") then Tool
  else Other s.

Definition new_drill (dia x y : Q) (plated : bool) (r h : str) (o : owner) : drill :=
  mkDrill (if Qle_bool (3 # 10) dia then dia else 3 # 10) x y plated (new_ref r) (new_hole h) o.

(** A number which must not be in quotes: L462-479 for the x position, and so for
    every other. *)
Definition number (line : str) (st : scan) : option (Q * scan) :=
  match get_string line st with
  | (false, _) => None
  | (true, st') =>
    if sc_quoted st' then None else
    match stream_num (sc_tok st') with Some q => Some (q, st') | None => None end
  end.

Definition word (line : str) (st : scan) : option (str * scan) :=
  match get_string line st with
  | (false, _) => None
  | (true, st') => Some (sc_tok st', st')
  end.

(** What reading a record ends with: an exception, the end of the section, or a
    record. *)
Inductive got (A : Type) := Wrong | Over (f : stream) | Got (a : A) (f : stream).
Arguments Wrong {A}. Arguments Over {A}. Arguments Got {A}.

Definition to_mm (u : unit_of) (v : version) (q : Q) : option Q :=
  match u, v with
  | Thou, _ => Some (q * thou_to_mm)%Q
  | Tnm, V2 => Some (q * tnm_to_mm)%Q
  | MM, _ => Some q
  | _, _ => None
  end.

(** The fields of a hole once the line is there, idf_common.cpp L447-650.  [st]
    has the first field, [dia] its value. *)
Definition drill_fields (line : str) (st : scan) (dia : Q) (u : unit_of) (v : version) : option drill :=
  if negb (Qle_bool (min_dia u) dia) then None else
  match number line st with None => None | Some (x, st) =>
  match number line st with None => None | Some (y, st) =>
  match (match v with
         | V2 => Some (true, st)
         | V3 => match word line st with
                 | None => None
                 | Some (t, st) =>
                   if compare_token "PTH" t then Some (true, st)
                   else if compare_token "NPTH" t then Some (false, st) else None
                 end
         end) with None => None | Some (pl, st) =>
  match word line st with None => None | Some (t1, st) =>
  match word line st with None => None | Some (t2, st) =>
  let r := ref_of (match v with V2 => t2 | V3 => t1 end) in
  let h := hole_of (match v with V2 => t1 | V3 => t2 end) in
  match (match v with
         | V2 => Some Unowned
         | V3 => match word line st with None => None | Some (t, _) => parse_owner t end
         end) with None => None | Some o =>
  match to_mm u v dia, to_mm u v x, to_mm u v y with
  | Some a, Some b, Some c => Some (mkDrill a b c pl r h o)
  | _, _, _ => None
  end end end end end end end.

(** [IDF_DRILL_DATA::read], idf_common.cpp L407-653.  What the first call of
    [GetIDFString] returns is not looked at (L433): the line is not empty and
    starts with no white space, so the call fails only for a quote which is not
    closed, and then the flag is set. *)
Definition read_drill (f : stream) (u : unit_of) (v : version) : got drill :=
  match read_line f with
  | None => Wrong
  | Some (_, true, _) => Wrong
  | Some (line, false, f') =>
    let '(_, st) := get_string line (mkScan [] false 0) in
    if sc_quoted st then Wrong else
    if compare_token ".END_DRILLED_HOLES" (sc_tok st) then Over f' else
    match stream_num (sc_tok st) with
    | None => Wrong
    | Some dia =>
      match drill_fields line st dia u v with Some d => Got d f' | None => Wrong end
    end
  end.

(** [c_str] handed to a stream: up to the first NUL. *)
Definition c_text (s : str) : str := fst (upto (Ascii.eqb nul) s).

Definition quoted_text (s : str) : str := quote :: s ++ [quote].

(** idf_common.cpp L662-700. *)
Definition hole_text (h : hole) : str :=
  match h with
  | Pin => S2 "PIN" | Via => S2 "VIA" | Tool => S2 "TOOL"
  | Other s => quoted_text s | Mtg => S2 "MTG"
  end.

Definition ref_text (r : ref) : str :=
  match r with
  | ToBoard => S2 "BOARD" | ToPanel => S2 "PANEL"
  | Named s => quoted_text s | NoRef => S2 "NOREFDES"
  end.

Definition owner_text (o : owner) : str :=
  match o with Mcad => S2 "MCAD" | Ecad => S2 "ECAD" | Unowned => S2 "UNOWNED" end.

Definition plating_text (b : bool) : str := if b then S2 "PTH" else S2 "NPTH".

(** [IDF_DRILL_DATA::write], idf_common.cpp L655-740: any unit but mm is written
    as thousandths of an inch. *)
Definition write_drill (u : unit_of) (d : drill) : str :=
  let num (k : nat) (q : Q) :=
    match u with MM => fixed k q | _ => fixed 1 (q / thou_to_mm)%Q end in
  num 3%nat (dr_dia d) ++ sp :: num 5%nat (dr_x d) ++ sp :: num 5%nat (dr_y d) ++ sp ::
  c_text (plating_text (dr_plated d)) ++ sp :: c_text (ref_text (dr_ref d)) ++ sp ::
  c_text (hole_text (dr_hole d)) ++ sp :: c_text (owner_text (dr_owner d)) ++ [nl].

(** [readBrdDrills], idf_parser.cpp L1633-1652, without [AddDrill]: the records in
    the order in which they are handed to it.  Each call takes a line, so the
    length of the text bounds their number. *)
Fixpoint read_all {A} (rd : stream -> got A) (fuel : nat) (f : stream) : option (list A * stream) :=
  match fuel with
  | O => None
  | S k =>
    match rd f with
    | Wrong => None
    | Over f' => Some ([], f')
    | Got a f' => match read_all rd k f' with Some (l, g) => Some (a :: l, g) | None => None end
    end
  end.

Definition read_drills (u : unit_of) (v : version) (f : stream) : option (list drill * stream) :=
  read_all (fun f => read_drill f u v) (S (length (s_rest f))) f.

(** The section as [writeBoardFile] writes it after its first line, idf_parser.cpp
    L2985-3003, for the holes in the order in which they are written. *)
Definition write_drills (u : unit_of) (l : list drill) : str :=
  flat_map (write_drill u) l ++ S2 ".END_DRILLED_HOLES" ++ [nl; nl].

(** ** Notes *)

Record note := mkNote { nt_x : Q; nt_y : Q; nt_height : Q; nt_length : Q; nt_text : str }.

(** [IDF_NOTE::readNote], idf_common.cpp L94-239.  Only thousandths of an inch are
    converted (L229-235). *)
Definition read_note (f : stream) (u : unit_of) : got note :=
  match read_line f with
  | None => Wrong
  | Some (_, true, _) => Wrong
  | Some (line, false, f') =>
    let '(_, st) := get_string line (mkScan [] false 0) in
    if sc_quoted st then Wrong else
    if compare_token ".END_NOTES" (sc_tok st) then Over f' else
    match stream_num (sc_tok st) with None => Wrong | Some x =>
    match number line st with None => Wrong | Some (y, st) =>
    match number line st with None => Wrong | Some (h, st) =>
    match number line st with None => Wrong | Some (l, st) =>
    match word line st with None => Wrong | Some (t, _) =>
    let conv (q : Q) := match u with Thou => (q * thou_to_mm)%Q | _ => q end in
    Got (mkNote (conv x) (conv y) (conv h) (conv l) t) f'
    end end end end end
  end.

(** [IDF_NOTE::writeNote], idf_common.cpp L242-263. *)
Definition write_note (u : unit_of) (n : note) : str :=
  let num (q : Q) := match u with Thou => fixed 1 (q / thou_to_mm)%Q | _ => fixed 5 q end in
  num (nt_x n) ++ sp :: num (nt_y n) ++ sp :: num (nt_height n) ++ sp ::
  num (nt_length n) ++ sp :: quoted_text (nt_text n) ++ [nl].

(** [readBrdNotes], idf_parser.cpp L1657-1670. *)
Definition read_notes (u : unit_of) (f : stream) : option (list note * stream) :=
  read_all (fun f => read_note f u) (S (length (s_rest f))) f.

(** idf_parser.cpp L3020-3029. *)
Definition write_notes (u : unit_of) (l : list note) : str :=
  flat_map (write_note u) l ++ S2 ".END_NOTES" ++ [nl; nl].
