(** The library of an IDF board: the outlines of components and their properties
    (/repo/src/idf/idf_outlines.cpp), and the file (/repo/src/idf/idf_parser.cpp).

    The points of the outlines are in IdfOutl.v, the header of the file in IdfFile.v.
    Messages are not modelled. *)

From Coq Require Export QArith Qabs.
From Verif Require Export Base Num IoModel IdfText IdfOutl IdfFile.
From Verif Require Import IdfPlace.
Open Scope Z_scope.

(** ** Outlines of components *)

(** [COMP_ELEC] and [COMP_MECH]; the type is always set by [readData]. *)
Inductive cls := Elect | Mechan.
Definition cls_eqb (a b : cls) : bool := match a, b with Elect, Elect | Mechan, Mechan => true | _, _ => false end.
Definition cls_key (c : cls) : string := match c with Elect => ".ELECTRICAL" | Mechan => ".MECHANICAL" end.
Definition cls_end (c : cls) : string := match c with Elect => ".END_ELECTRICAL" | Mechan => ".END_MECHANICAL" end.

(** [IDF3_COMP_OUTLINE]: comments, type, names, unit, [thickness] in mm, outlines and
    properties; the owner is not used and the counter of references stands beside it. *)
Record cout := mkCout {
  co_comments : list str; co_cls : cls; co_names : names; co_unit : unit_of; co_high : Q;
  co_loops : list qloop; co_props : list (str * str) }.

(** idf_outlines.cpp L3246-3265.  In version 2 the word TNM is refused and any other is
    taken for it: the test has a [!] too many (L3254). *)
Definition comp_unit (v : version) (s : str) : option unit_of :=
  if compare_token "MM" s then Some MM
  else if compare_token "THOU" s then Some Thou
  else match v with V2 => if compare_token "TNM" s then None else Some Tnm | V3 => None end.

(** RECORD 2, idf_outlines.cpp L3192-3312: each of the four fields may be in quotes. *)
Definition comp_line (v : version) (line : str) : option (names * unit_of * Q) :=
  match word line (mkScan [] false 0) with None => None | Some (g, st) =>
  match word line st with None => None | Some (p, st) =>
  match g, p with
  | [], [] => None
  | _, _ =>
    match word line st with None => None | Some (t, st) =>
    match comp_unit v t with None => None | Some u =>
    match word line st with None => None | Some (t, _) =>
    match length_field u v t with None => None | Some q => Some (mkNames g p, u, q) end end end end
  end end end.

(** [readProperties], idf_outlines.cpp L2977-3094.  The stream is put back to the line
    which ended the properties; blank lines before it are of no account, so that the
    stream before those is kept here.  At the end of the file it returns, and [readData]
    finds no line then: that is [None] here as well. *)
Fixpoint read_props (fuel : nat) (f : stream) (m : list (str * str)) : option (list (str * str) * stream) :=
  match fuel with
  | O => None
  | S k =>
    match read_line f with
    | Some (l, false, f') =>
      match get_string l (mkScan [] false 0) with
      | (false, _) => None
      | (true, st) =>
        if sc_quoted st then None
        else if is_end (sc_tok st) then Some (m, f)
        else if negb (compare_token "PROP" (sc_tok st)) then None
        else match word l st with None => None | Some (n, st) =>
             match word l st with None => None | Some (w, _) =>
             match find n m with Some _ => None | None => read_props k f' (put n w m) end end end
      end
    | _ => None
    end
  end.

(** [readData], idf_outlines.cpp L3114-3377, after the heading, which [readLibSection]
    has looked at already.  [single] is true (L2970).  The whole last line is compared. *)
Definition read_comp (ccw : qloop -> bool) (c : cls) (v : version) (com : list str) (f : stream) : option (cout * stream) :=
  match head_line f with None => None | Some (l, f) =>
  match comp_line v l with None => None | Some (n, u, q) =>
  match read_outlines ccw true true u v f with None => None | Some (ls, f) =>
  match match c, v with
        | Elect, V3 => read_props (S (length (s_rest f))) f []
        | _, _ => Some ([], f)
        end with None => None | Some (ps, f) =>
  match head_line f with None => None | Some (l, f) =>
  if compare_token (cls_end c) l then Some (mkCout (kept com) c n u q ls ps, f) else None
  end end end end end.

(** [writeProperties], idf_outlines.cpp L3096-3112. *)
Definition write_props (ps : list (str * str)) : str :=
  flat_map (fun p => S2 "PROP " ++ quoted_text (fst p) ++ sp :: quoted_text (snd p) ++ [nl]) ps.

(** [writeData], idf_outlines.cpp L3380-3424, with [writeComments], L657-672: an outline
    which no component refers to ([refs] = 0) is not written.  [None]: an exception. *)
Definition write_comp (ccw : qloop -> bool) (refs : Z) (o : cout) : option str :=
  if refs =? 0 then Some [] else
  match write_outlines ccw true (co_unit o) (co_loops o) with
  | None => None
  | Some t =>
      Some (flat_map (fun s => S2 "# " ++ s ++ [nl]) (co_comments o) ++ S2 (cls_key (co_cls o)) ++ nl ::
        quoted_text (geom (co_names o)) ++ sp :: quoted_text (prt (co_names o)) ++ sp ::
        (match co_unit o with Thou => S2 "THOU " | _ => S2 "MM " end) ++ out_num (co_unit o) (co_high o) ++ nl :: t ++
        (match co_cls o with Elect => write_props (co_props o) | Mechan => [] end) ++ S2 (cls_end (co_cls o)) ++ [nl; nl])
  end.

(** ** The file *)

(** [IDF_POINT::Matches] with the radius of [MatchesStart] and [MatchesEnd], 1e-3
    (idf_common.h L567-579, idf_common.cpp L844-855 and L1101-1110). *)
Definition p_matches (p q : qpt) : bool :=
  let dx := (qx p - qx q)%Q in let dy := (qy p - qy q)%Q in
  Qle_bool (dx * dx + dy * dy) (1 # 1000000).

Fixpoint segs_match (a b : qloop) : bool :=
  match a, b with
  | [], [] => true
  | s :: a', t :: b' => p_matches (q_start s) (q_start t) && p_matches (q_end s) (q_end t) && segs_match a' b'
  | _, _ => false
  end.

(** [MatchCompOutline], idf_parser.cpp L63-101: the types, the numbers of outlines, and
    the ends of the segments of the first ones.  [unit], [thickness], the angles and the
    properties are not looked at. *)
Definition match_comp (a b : cout) : bool :=
  cls_eqb (co_cls a) (co_cls b) && (length (co_loops a) =? length (co_loops b))%nat &&
  match co_loops a, co_loops b with
  | l :: _, m :: _ => segs_match l m
  | _, _ => true
  end.

(** [while( !FetchIDFLine( .. ) && aLibFile.good() );], idf_parser.cpp L2448; [None] if
    the file ends before a line is found. *)
Fixpoint next_lib (fuel : nat) (f : stream) : option (str * bool * stream) :=
  match fuel with
  | O => None
  | S k =>
    match fetch_line f with
    | (false, _, _, f') => if s_eof f' then None else next_lib k f'
    | (true, l, Some com, f') => Some (l, com, f')
    | (true, _, None, _) => None
    end
  end.

(** [readLibSection], idf_parser.cpp L2423-2549.  [LEnd f]: it returns without an
    outline, [None] if the file is at its end; so it does after a comment without text,
    and then the comments before it are gone. *)
Inductive lib_got := LBad | LEnd (f : option stream) | LGot (o : cout) (f : stream).
Fixpoint read_lib_section (ccw : qloop -> bool) (v : version) (fuel : nat) (f : stream) (com : list str) : lib_got :=
  match fuel with
  | O => LBad
  | S k =>
    if s_eof f then LEnd None else
    match next_lib (S (length (s_rest f))) f with
    | None => LEnd None
    | Some ([], _, f') => LEnd (Some f')
    | Some (l, true, f') => read_lib_section ccw v k f' (com ++ [l])
    | Some (l, false, f') =>
      let '(_, st) := get_string l (mkScan [] false 0) in
      if sc_quoted st then LBad else
      let got c := match read_comp ccw c v com f' with None => LBad | Some (o, g) => LGot o g end in
      if compare_token ".ELECTRICAL" (sc_tok st) then got Elect
      else if compare_token ".MECHANICAL" (sc_tok st) then got Mechan
      else LBad
    end
  end.

(** [compOutlines], by [GetUID]. *)
Definition lib := list (str * cout).
Definition uid (o : cout) : str := uid_of (co_names o).

(** The end of [readLibSection], idf_parser.cpp L2501-2531: an outline whose key is there
    already is dropped if it matches, else the file is refused. *)
Definition add_comp (o : cout) (m : lib) : option lib :=
  match find (uid o) m with
  | None => Some (put (uid o) o m)
  | Some o' => if match_comp o o' then Some m else None
  end.

(** The loop of [readLibFile], idf_parser.cpp L2723. *)
Fixpoint read_lib_sections (ccw : qloop -> bool) (v : version) (fuel : nat) (f : stream) (m : lib) : option lib :=
  match fuel with
  | O => None
  | S k =>
    if s_eof f then Some m else
    match read_lib_section ccw v (S (length (s_rest f))) f [] with
    | LBad => None
    | LEnd None => Some m
    | LEnd (Some f') => read_lib_sections ccw v k f' m
    | LGot o f' => match add_comp o m with None => None | Some m' => read_lib_sections ccw v k f' m' end
    end
  end.

(** [readLibFile], idf_parser.cpp L2709-2741, on a board without outlines. *)
Definition read_lib (ccw : qloop -> bool) (f : stream) : option (IdfFile.head * lib) :=
  match read_lib_head f with
  | None => None
  | Some (h, f) =>
    match read_lib_sections ccw (h_ver h) (S (length (s_rest f))) f [] with
    | None => None
    | Some m => Some (h, m)
    end
  end.

(** [writeLibFile], idf_parser.cpp L2795-2836: the outlines with their counters, in the
    order of the keys. *)
Fixpoint write_couts (ccw : qloop -> bool) (l : list (str * (Z * cout))) : option str :=
  match l with
  | [] => Some []
  | (_, (r, o)) :: l' =>
    match write_comp ccw r o, write_couts ccw l' with
    | Some a, Some b => Some (a ++ b)
    | _, _ => None
    end
  end.
Definition write_lib (ccw : qloop -> bool) (source date : str) (n : Z) (l : list (str * (Z * cout))) : option str :=
  match write_couts ccw l with
  | None => None
  | Some t => Some (write_lib_head source date n ++ t)
  end.
