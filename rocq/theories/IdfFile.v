(** IDF files as a whole: the header of a board or library, the sections of a board
    (/repo/src/idf/idf_parser.cpp) and the lines with which a section of outlines
    begins and ends (/repo/src/idf/idf_outlines.cpp).

    The bodies of the sections are in IdfOutl.v (loops), IdfText.v (holes and notes)
    and IdfPlace.v (components).  What the board does with a hole or a component
    ([AddDrill], the second half of [readPlaceData]) is in IdfPlace.v; here the records
    are kept in the order in which they are read.  Messages are not modelled. *)

From Coq Require Export QArith Qabs.
From Verif Require Export Base Num IoModel IdfText IdfOutl.
From Verif Require IdfPlace.
Open Scope Z_scope.

(** ** Lines *)

(** A line which must be there, must be no comment, and after which the stream must be
    good (idf_parser.cpp L1694-1703, L1717-1726 and L1810-1819, idf_outlines.cpp
    L2040-2063 and so on): a last line without a newline is refused. *)
Definition head_line (f : stream) : option (str * stream) :=
  match read_line f with
  | Some (l, false, f') => if s_eof f' then None else Some (l, f')
  | _ => None
  end.

(** The same where the file may end with the line (idf_parser.cpp L1870-1879,
    idf_outlines.cpp L1093-1117). *)
Definition last_line (f : stream) : option (str * stream) :=
  match read_line f with Some (l, false, f') => Some (l, f') | _ => None end.

(** ** The header *)

(** The version, source, date and number of the file. *)
Record head := mkHead { h_ver : version; h_source : str; h_date : str; h_num : Z }.

(** idf_parser.cpp L1765-1777, L2617-2629. *)
Definition version_of (s : str) : option version :=
  if str_eqb s (S2 "3.0") || str_eqb s (S2 "3.") || str_eqb s (S2 "3") then Some V3
  else if str_eqb s (S2 "2.0") || str_eqb s (S2 "2.") || str_eqb s (S2 "2") then Some V2
  else None.

(** RECORD 2, idf_parser.cpp L1728-1815 (key BOARD_FILE) and L2594-2668 (LIBRARY_FILE).
    A number which can not be read is set to 1.  The fields with source and date may be
    in quotes. *)
Definition head_fields (key : string) (line : str) : option (head * scan) :=
  let '(_, st) := get_string line (mkScan [] false 0) in
  if sc_quoted st then None else
  if negb (compare_token key (sc_tok st)) then None else
  match get_string line st with
  | (false, _) => None
  | (true, st) =>
    if sc_quoted st then None else
    match version_of (sc_tok st) with None => None | Some v =>
    match word line st with None => None | Some (src, st) =>
    match word line st with None => None | Some (date, st) =>
    match get_string line st with
    | (false, _) => None
    | (true, st) =>
      let n := match stream_int (sc_tok st) with Some (n, _) => n | None => 1 end in
      if sc_quoted st then None else Some (mkHead v src date n, st)
    end end end end
  end.

(** idf_parser.cpp L1845-1866. *)
Definition unit_word (v : version) (s : str) : option unit_of :=
  if compare_token "MM" s then Some MM
  else if compare_token "THOU" s then Some Thou
  else match v with V2 => if compare_token "TNM" s then Some Tnm else None | V3 => None end.

(** RECORD 3, idf_parser.cpp L1827-1868: the name of the board and the unit. *)
Definition name_fields (v : version) (line : str) (st : scan) : option (str * unit_of) :=
  let '(_, st) := get_string line (mkScan (sc_tok st) (sc_quoted st) 0) in
  let name := sc_tok st in
  match get_string line st with
  | (false, _) => None
  | (true, st) => if sc_quoted st then None else
      match unit_word v (sc_tok st) with None => None | Some u => Some (name, u) end
  end.

(** [readBrdHeader], idf_parser.cpp L1684-1896. *)
Definition read_head (f : stream) : option (head * str * unit_of * stream) :=
  match head_line f with None => None | Some (l, f) =>
  if negb (compare_token ".HEADER" l) then None else
  match head_line f with None => None | Some (l, f) =>
  match head_fields "BOARD_FILE" l with None => None | Some (h, st) =>
  match head_line f with None => None | Some (l, f) =>
  match name_fields (h_ver h) l st with None => None | Some (name, u) =>
  match last_line f with None => None | Some (l, f) =>
  if compare_token ".END_HEADER" l then Some (h, name, u, f) else None
  end end end end end end.

(** [readLibHeader], idf_parser.cpp L2553-2706. *)
Definition read_lib_head (f : stream) : option (head * stream) :=
  match head_line f with None => None | Some (l, f) =>
  if negb (compare_token ".HEADER" l) then None else
  match head_line f with None => None | Some (l, f) =>
  match head_fields "LIBRARY_FILE" l with None => None | Some (h, _) =>
  match last_line f with None => None | Some (l, f) =>
  if compare_token ".END_HEADER" l then Some (h, f) else None
  end end end end.

(** What [writeBoardFile] (idf_parser.cpp L2848-2868) and [writeLibFile] (L2803-2811)
    write; [n] is the number before it is raised, [date] what [GetIDFDate] gives. *)
Definition record2 (key : string) (source date : str) (n : Z) : str :=
  S2 key ++ S2 " 3.0 " ++ quoted_text (S2 "Created by " ++ match source with [] => S2 "KiCad-IDF Framework" | _ => source end)
  ++ sp :: date ++ sp :: showZ (n + 1).

Definition write_head (source date name : str) (n : Z) (u : unit_of) : str :=
  S2 ".HEADER" ++ nl :: record2 "BOARD_FILE" source date n ++ nl ::
  quoted_text (match name with [] => S2 "BOARD WITH NO NAME" | _ => name end) ++
  sp :: (match u with MM => S2 "MM" | _ => S2 "THOU" end) ++ nl ::
  S2 ".END_HEADER" ++ [nl; nl].

Definition write_lib_head (source date : str) (n : Z) : str :=
  S2 ".HEADER" ++ nl :: record2 "LIBRARY_FILE" source date n ++ nl :: S2 ".END_HEADER" ++ [nl; nl].

(** ** Sections of outlines *)

Inductive layer := LTop | LBottom | LBoth | LInner | LAll.

(** [ParseIDFLayer], idf_helpers.cpp L172-203. *)
Definition parse_layer (s : str) : option layer :=
  if compare_token "TOP" s then Some LTop
  else if compare_token "BOTTOM" s then Some LBottom
  else if compare_token "BOTH" s then Some LBoth
  else if compare_token "INNER" s then Some LInner
  else if compare_token "ALL" s then Some LAll
  else None.

(** [WriteLayersText], idf_helpers.cpp L207-239: no newline. *)
Definition layer_text (l : layer) : str :=
  match l with
  | LTop => S2 "TOP" | LBottom => S2 "BOTTOM" | LBoth => S2 "BOTH" | LInner => S2 "INNER" | LAll => S2 "ALL"
  end.

(** The classes of idf_outlines.h which a board holds. *)
Inductive kind := KBoard | KOther | KRoute | KPlace | KRouteKo | KViaKo | KPlaceKo | KRegion.

Definition key (k : kind) : string :=
  match k with
  | KBoard => ".BOARD_OUTLINE" | KOther => ".OTHER_OUTLINE" | KRoute => ".ROUTE_OUTLINE"
  | KPlace => ".PLACE_OUTLINE" | KRouteKo => ".ROUTE_KEEPOUT" | KViaKo => ".VIA_KEEPOUT"
  | KPlaceKo => ".PLACE_KEEPOUT" | KRegion => ".PLACE_REGION"
  end.
Definition end_key (k : kind) : string :=
  match k with
  | KBoard => ".END_BOARD_OUTLINE" | KOther => ".END_OTHER_OUTLINE" | KRoute => ".END_ROUTE_OUTLINE"
  | KPlace => ".END_PLACE_OUTLINE" | KRouteKo => ".END_ROUTE_KEEPOUT" | KViaKo => ".END_VIA_KEEPOUT"
  | KPlaceKo => ".END_PLACE_KEEPOUT" | KRegion => ".END_PLACE_REGION"
  end.

(** [single], idf_outlines.cpp L135, L1554, L1952, L2244, L2669, L2683. *)
Definition single_of (k : kind) : bool := match k with KBoard | KOther => false | _ => true end.

(** An outline: its owner, the identifier or group, thickness or height, the side or the
    layers, the loops.  What a kind does not have is empty, 0 or [None]. *)
Record outl := mkOutl {
  ol_kind : kind; ol_owner : owner; ol_id : str; ol_high : Q; ol_layer : option layer; ol_loops : list qloop }.

(** idf_outlines.cpp L1171-1186: a thickness is made positive. *)
Definition board_high (q : Q) : Q :=
  if Qle_bool q 0 then if Qeq_bool q 0 then 16 # 10 else (- q)%Q else q.

(** A field which is a length; it may be in quotes (idf_outlines.cpp L1119-1169,
    L1722-1761, L2439-2483). *)
Definition length_field (u : unit_of) (v : version) (tok : str) : option Q :=
  match stream_num tok with None => None | Some q => to_mm u v q end.

(** RECORD 2: idf_outlines.cpp L1119-1186 (board), L1698-1788 (other), L2064-2118
    (route), L2413-2508 (place), L2826-2865 (region). *)
Definition second_line (k : kind) (u : unit_of) (v : version) (line : str) : option (str * Q * option layer) :=
  let st0 := mkScan [] false 0 in
  match k with
  | KBoard =>
    match word line st0 with None => None | Some (t, _) =>
    match length_field u v t with None => None | Some q => Some ([], board_high q, None) end end
  | KOther =>
    match word line st0 with None => None | Some (id, st) =>
    match word line st with None => None | Some (t, st) =>
    match length_field u v t with None => None | Some q =>
    match v with
    | V2 => Some (id, q, Some LTop)
    | V3 => match word line st with None => None | Some (t, _) =>
            match parse_layer t with
            | Some LTop => Some (id, q, Some LTop)
            | Some LBottom => Some (id, q, Some LBottom)
            | _ => None
            end end
    end end end end
  | KRoute | KRouteKo =>
    match get_string line st0 with
    | (false, _) => None
    | (true, st) => if sc_quoted st then None else
      match parse_layer (sc_tok st), v with
      | None, _ => None
      | Some LInner, V2 | Some LAll, V2 => None
      | Some l, _ => Some ([], 0%Q, Some l)
      end
    end
  | KPlace | KPlaceKo =>
    match word line st0 with None => None | Some (t, st) =>
    match parse_layer t with
    | None | Some LInner | Some LAll => None
    | Some l =>
      match get_string line st with
      | (true, st) =>
        match stream_num (sc_tok st) with
        | None => None
        | Some q => if negb (Qle_bool 0 q) then None else
            match to_mm u v q with None => None | Some q => Some ([], q, Some l) end
        end
      | (false, _) => match k with KPlaceKo => None | _ => Some ([], (-1)%Q, Some l) end
      end
    end end
  | KRegion =>
    match word line st0 with None => None | Some (t, st) =>
    match parse_layer t with
    | None | Some LInner | Some LAll => None
    | Some l => match word line st with None => None | Some (g, _) => Some (g, 0%Q, Some l) end
    end end
  | KViaKo => Some ([], 0%Q, None)
  end.

(** Whether that line is read, and what is set if it is not: idf_outlines.cpp L1673,
    L2038 and L2120-2124, L2385 and L2510-2514. *)
Definition second_record (k : kind) (u : unit_of) (v : version) (f : stream) : option (str * Q * option layer * stream) :=
  let take (x : option (str * stream)) :=
    match x with None => None | Some (l, f') =>
    match second_line k u v l with None => None | Some r => Some (r, f') end end in
  match k, v with
  | KBoard, _ => take (last_line f)
  | KViaKo, _ => Some ([], 0%Q, None, f)
  | KRoute, V2 => Some ([], 0%Q, Some LAll, f)
  | KPlace, V2 => Some ([], 0%Q, Some LTop, f)
  | _, _ => take (head_line f)
  end.

(** RECORD 4: the whole line is compared (idf_outlines.cpp L1212, L1835-1866, L2158-2183)
    or its first field, in quotes or not (L2543-2556, L2893-2897). *)
Definition ends_outline (k : kind) (line : str) : bool :=
  match k with
  | KPlace | KPlaceKo | KRegion =>
      match word line (mkScan [] false 0) with None => false | Some (t, _) => compare_token (end_key k) t end
  | _ => compare_token (end_key k) line
  end.

(** [readData] of the classes, idf_outlines.cpp L1032-1223, L1613-1869, L1973-2184,
    L2321-2559, L2745-2902.  [line] is the line with the heading. *)
Definition read_outline (ccw : qloop -> bool) (k : kind) (u : unit_of) (v : version) (line : str) (f : stream) : option (outl * stream) :=
  match get_string line (mkScan [] false 0) with
  | (false, _) => None
  | (true, st) =>
    if sc_quoted st then None else
    if negb (compare_token (key k) (sc_tok st)) then None else
    let o := match word line st with
             | None => Unowned
             | Some (t, _) => match parse_owner t with Some o => o | None => Unowned end
             end in
    match second_record k u v f with None => None | Some (id, q, l, f) =>
    match read_outlines ccw (single_of k) false u v f with None => None | Some (ls, f) =>
    match head_line f with None => None | Some (e, f) =>
    if ends_outline k e then Some (mkOutl k o id q l ls, f) else None
    end end end
  end.

(** RECORD 2 as [writeData] writes it, idf_outlines.cpp L1235-1238 (board), L1894-1920
    (other: no newline after the side), L2209-2210 (route), L2580-2614 (place: the
    height is left out only for a keepout), L2919-2940 (region); lengths are written as
    the coordinates are ([out_num]).  [None]: an exception. *)
Definition write_second (u : unit_of) (o : outl) : option str :=
  match ol_kind o with
  | KBoard => Some (out_num u (ol_high o) ++ [nl])
  | KOther =>
    match ol_layer o with
    | Some LTop | Some LBottom =>
        Some (quoted_text (ol_id o) ++ sp :: out_num u (ol_high o) ++ sp :: match ol_layer o with Some l => layer_text l | None => [] end)
    | _ => None
    end
  | KRoute | KRouteKo => match ol_layer o with Some l => Some (layer_text l ++ [nl]) | None => None end
  | KPlace | KPlaceKo =>
    match ol_layer o with
    | Some LTop | Some LBottom | Some LBoth =>
        let l := match ol_layer o with Some l => layer_text l | None => [] end in
        if negb (Qle_bool 0 (ol_high o)) && match ol_kind o with KPlaceKo => true | _ => false end
        then Some (l ++ [nl])
        else Some (l ++ sp :: out_num u (ol_high o) ++ [nl])
    | _ => None
    end
  | KRegion =>
    match ol_layer o with
    | Some LTop | Some LBottom | Some LBoth =>
        Some (match ol_layer o with Some l => layer_text l | None => [] end ++ sp :: quoted_text (ol_id o) ++ [nl])
    | _ => None
    end
  | KViaKo => Some []
  end.

(** [writeData] without the comments, idf_outlines.cpp L1226-1245, L1872-1932,
    L2186-2222, L2561-2625, L2904-2949.  An outline without loops is not written
    unless it is the board. *)
Definition write_section (ccw : qloop -> bool) (u : unit_of) (o : outl) : option str :=
  match ol_loops o, ol_kind o with
  | [], KOther | [], KRoute | [], KPlace | [], KRouteKo | [], KViaKo | [], KPlaceKo | [], KRegion => Some []
  | _, _ =>
    match write_second u o, write_outlines ccw (single_of (ol_kind o)) u (ol_loops o) with
    | Some a, Some b =>
        Some (S2 (key (ol_kind o)) ++ sp :: owner_text (ol_owner o) ++ nl :: a ++ b ++ S2 (end_key (ol_kind o)) ++ [nl; nl])
    | _, _ => None
    end
  end.

(** ** The sections of a board *)

Inductive fstate := AtHeader | AtOutline | AtPlacement.
Inductive heading := HOutline (k : kind) | HPanel | HHoles | HNotes | HPlaces.
Inductive content := COutline (o : outl) | CHoles (l : list drill) | CNotes (l : list note) | CPlaces (l : list IdfPlace.prec).

(** A section and the comments which are kept with it. *)
Record section := mkSec { se_comments : list str; se_what : content }.

(** idf_parser.cpp L1965, L1993, L1997, L2041, L2074, L2107, L2140, L2173, L2206, L2239,
    L2263, L2292. *)
Definition heading_of (t : str) : option heading :=
  if compare_token ".BOARD_OUTLINE" t then Some (HOutline KBoard)
  else if compare_token ".PANEL_OUTLINE" t then Some HPanel
  else if compare_token ".OTHER_OUTLINE" t then Some (HOutline KOther)
  else if compare_token ".ROUTE_OUTLINE" t then Some (HOutline KRoute)
  else if compare_token ".PLACE_OUTLINE" t then Some (HOutline KPlace)
  else if compare_token ".ROUTE_KEEPOUT" t then Some (HOutline KRouteKo)
  else if compare_token ".VIA_KEEPOUT" t then Some (HOutline KViaKo)
  else if compare_token ".PLACE_KEEPOUT" t then Some (HOutline KPlaceKo)
  else if compare_token ".PLACE_REGION" t then Some (HOutline KRegion)
  else if compare_token ".DRILLED_HOLES" t then Some HHoles
  else if compare_token ".NOTES" t then Some HNotes
  else if compare_token ".PLACEMENT" t then Some HPlaces
  else None.

(** [BOARD_OUTLINE::AddComment] leaves out empty ones (idf_outlines.cpp); the lists
    for holes, notes and placement take all (idf_parser.cpp L2256, L2285, L2309). *)
Definition kept (l : list str) : list str := filter (fun s => match s with [] => false | _ => true end) l.

(** The body of a section; the state after it.  [ids] are the identifiers of the
    outlines .OTHER_OUTLINE read before (idf_parser.cpp L2023-2035). *)
Definition read_body (ccw : qloop -> bool) (u : unit_of) (v : version) (c : IdfPlace.cad) (st : fstate) (ids : list str)
    (h : heading) (line : str) (f : stream) (com : list str) : option (section * fstate * stream) :=
  match h, st with
  | HOutline KBoard, AtHeader =>
      match read_outline ccw KBoard u v line f with
      | None => None
      | Some (o, f') => Some (mkSec (kept com) (COutline o), AtOutline, f')
      end
  | HOutline KBoard, _ | HPanel, _ => None
  | HOutline k, AtOutline =>
      match read_outline ccw k u v line f with
      | None => None
      | Some (o, f') =>
          if match k with KOther => existsb (str_eqb (ol_id o)) ids | _ => false end then None
          else Some (mkSec (kept com) (COutline o), AtOutline, f')
      end
  | HHoles, AtOutline =>
      match read_drills u v f with None => None | Some (l, f') => Some (mkSec com (CHoles l), AtOutline, f') end
  | HNotes, AtOutline =>
      match v with
      | V2 => None
      | V3 => match read_notes u f with None => None | Some (l, f') => Some (mkSec com (CNotes l), AtOutline, f') end
      end
  | HPlaces, AtOutline =>
      match IdfPlace.read_places f u v c with None => None | Some (l, f') => Some (mkSec com (CPlaces l), AtPlacement, f') end
  | _, _ => None
  end.

(** [while( !FetchIDFLine( .. ) && aBoardFile.good() );] with the test of L1933: [None]
    if the stream is at its end, even after a line was found. *)
Fixpoint next_any (fuel : nat) (f : stream) : option (str * bool * stream) :=
  match fuel with
  | O => None
  | S k =>
    match fetch_line f with
    | (false, _, _, f') => if s_eof f' then None else next_any k f'
    | (true, l, Some com, f') => if s_eof f' then None else Some (l, com, f')
    | (true, _, None, _) => None
    end
  end.

(** [readBrdSection], idf_parser.cpp L1900-2318.  [sc] holds [token], [quoted] and
    [idx]: [idx] is set to 0 once, before the loop (L1923), so that after a line which
    is no heading the next one is looked at from the place where that one was left. *)
Inductive sec_got := SecBad | SecEnd | SecGot (s : section) (st : fstate) (f : stream).
Fixpoint read_section (ccw : qloop -> bool) (u : unit_of) (v : version) (c : IdfPlace.cad) (st : fstate) (ids : list str)
    (fuel : nat) (f : stream) (sc : scan) (com : list str) : sec_got :=
  match fuel with
  | O => SecBad
  | S n =>
    match next_any (S (length (s_rest f))) f with
    | None => SecEnd
    | Some (l, true, f') => read_section ccw u v c st ids n f' sc (com ++ [l])
    | Some (l, false, f') =>
      let '(_, sc') := get_string l sc in
      if sc_quoted sc' then SecBad else
      match heading_of (sc_tok sc') with
      | None => read_section ccw u v c st ids n f' sc' com
      | Some h =>
        match read_body ccw u v c st ids h l f' com with
        | None => SecBad
        | Some (s, st', g) => SecGot s st' g
        end
      end
    end
  end.

Definition start_scan : scan := mkScan [] false 0.

Definition other_id (s : section) : list str :=
  match se_what s with
  | COutline o => match ol_kind o with KOther => [ol_id o] | _ => [] end
  | _ => []
  end.

(** The loop of [readBoardFile], idf_parser.cpp L2359-2360: the sections, the state and
    the stream, or [None] at its end. *)
Fixpoint read_sections (ccw : qloop -> bool) (u : unit_of) (v : version) (c : IdfPlace.cad) (fuel : nat)
    (st : fstate) (ids : list str) (f : stream) : option (list section * fstate * option stream) :=
  match fuel with
  | O => None
  | S n =>
    match st with
    | AtPlacement => Some ([], st, if s_eof f then None else Some f)
    | _ =>
      if s_eof f then Some ([], st, None) else
      match read_section ccw u v c st ids (S (length (s_rest f))) f start_scan [] with
      | SecBad => None
      | SecEnd => Some ([], st, None)
      | SecGot s st' f' =>
        match read_sections ccw u v c n st' (other_id s ++ ids) f' with
        | None => None
        | Some (l, st'', g) => Some (s :: l, st'', g)
        end
      end
    end
  end.

(** What follows the placement, idf_parser.cpp L2379-2404: comments; an empty comment
    ends the search. *)
Fixpoint trailing (fuel : nat) (f : stream) : bool :=
  match fuel with
  | O => true
  | S n =>
    match read_line f with
    | None => true
    | Some (_, true, f') => if s_eof f' then true else trailing n f'
    | Some (_, false, _) => false
    end
  end.

(** [readBoardFile], idf_parser.cpp L2322-2419, once the file is open. *)
Definition read_file (ccw : qloop -> bool) (c : IdfPlace.cad) (text : str) : option (head * str * unit_of * list section) :=
  match read_head (mkStream text false) with None => None | Some (h, name, u, f) =>
  match read_sections ccw u (h_ver h) c (S (length text)) AtHeader [] f with None => None | Some (l, st, g) =>
  match g with
  | None => match st with AtHeader => None | _ => Some (h, name, u, l) end
  | Some f' => if trailing (S (length (s_rest f'))) f' then Some (h, name, u, l) else None
  end end end.

(** [writeBoardFile], idf_parser.cpp L2839-3096, for a board in which the outlines are
    written in the order [outs] (the board first) and of which no section has comments.
    [holes] are all holes in their order, [b] the components. *)
Definition write_file (ccw : qloop -> bool) (u : unit_of) (source date name : str) (n : Z)
    (outs : list outl) (holes : list drill) (notes : list note) (b : IdfPlace.brd) : option str :=
  let fix go (l : list outl) : option str :=
    match l with
    | [] => Some []
    | o :: l' => match write_section ccw u o, go l' with Some a, Some t => Some (a ++ t) | _, _ => None end
    end in
  match go outs with None => None | Some t =>
  match (if existsb (fun x => match IdfPlace.c_pieces (snd x) with [] => false | _ => true end) (IdfPlace.b_comps b)
         then match IdfPlace.write_placement u b with Some p => Some (S2 ".PLACEMENT" ++ nl :: p) | None => None end
         else Some []) with None => None | Some p =>
  Some (write_head source date name n u ++ t ++
    S2 ".DRILLED_HOLES" ++ nl :: write_drills u holes ++
    match notes with [] => [] | _ => S2 ".NOTES" ++ nl :: write_notes u notes end ++ p)
  end end.
