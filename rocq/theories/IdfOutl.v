(** The text of the outlines in an IDF file (/repo/src/idf/idf_outlines.cpp): reading
    the points of the loops of a section, and writing them.

    The numbers are exact.  The lengths of arcs and areas are not needed to read or write
    an outline but for [IsCCW], which is given by [ccw] here (it is modelled in IdfGeo.v). *)

From Coq Require Export QArith Qabs.
From Verif Require Export Base Num IoModel IdfText.
Open Scope Z_scope.

(** ** Segments *)

(** A point of the plane, and what the file says about a segment: its ends and its angle;
    centre and radius are computed from these (IdfGeo.v). *)
Record qpt := mkQp { qx : Q; qy : Q }.
Record qseg := mkQs { q_start : qpt; q_end : qpt; q_ang : Q }.

(** [MIN_ANG], idf_common.h L37. *)
Definition min_deg : Q := 1 # 100.
Definition qltb (a b : Q) : bool := negb (Qle_bool b a).

(** idf_common.cpp L1057-1060 and [IsCircle], L1156-1164. *)
Definition full_deg (a : Q) : bool :=
  let diff := (Qabs a - 360)%Q in qltb diff min_deg && qltb (- min_deg) diff.

(** What the constructors make of the angle, idf_outlines.cpp L600-607 with
    idf_common.cpp L1042-1098: a line has none, a circle 360. *)
Definition seg_deg (a : Q) : Q :=
  if full_deg a then 360%Q
  else if qltb min_deg a || qltb a (- min_deg) then a else 0%Q.
Definition new_seg (a b : qpt) (ang : Q) : qseg :=
  if qltb (- min_deg) ang && qltb ang min_deg then mkQs a b 0 else mkQs a b (seg_deg ang).
Definition is_circle (s : qseg) : bool := full_deg (q_ang s).

(** [IDF_POINT::Matches] with [dLoc], idf_common.cpp L844-855, idf_outlines.cpp L158. *)
Definition q_matches (p q : qpt) : bool :=
  let dx := (qx p - qx q)%Q in let dy := (qy p - qy q)%Q in
  Qle_bool (dx * dx + dy * dy) (1 # 10000000000).

(** ** The records of a section *)

Definition qloop := list qseg.

(** The variables [loopidx], [npts > 0], [closed], [prePt], the loops before the current
    one, and the current one ([None]: [op] is NULL). *)
Record rstate := mkR { r_idx : Z; r_any : bool; r_closed : bool; r_pre : qpt; r_done : list qloop; r_cur : option qloop }.
Definition r_init : rstate := mkR (-1) false false (mkQp 0 0) [] None.

Record orec := mkOr { or_idx : Z; or_pt : qpt; or_ang : Q }.

(** [IsCircle] of an outline, idf_common.cpp L1318-1324.  Without segments it would be
    undefined, but it is never asked then: [IsCCW] is false for such an outline. *)
Definition loop_circle (l : qloop) : bool := match l with s :: _ => is_circle s | [] => false end.

(** L267-408: a record with another index.  [None] is an exception. *)
Definition change (ccw : qloop -> bool) (single : bool) (s : rstate) (i : Z) : option rstate :=
  if i =? r_idx s then Some s
  else if r_any s && negb (r_closed s) then None
  else if i <? 0 then None
  else match r_cur s with
  | None => if (i =? 0) || (single && (i =? 1)) then Some (mkR i false false (r_pre s) [] (Some [])) else None
  | Some l =>
      if single then None
      else if negb (i - r_idx s =? 1) then None
      else if ((r_idx s =? 0) && negb (ccw l)) || ((0 <? r_idx s) && ccw l && negb (loop_circle l)) then None
      else Some (mkR i false false (r_pre s) (r_done s ++ [l]) (Some []))
  end.

(** L561-645: the point.  [push] accepts what is handed to it here: its segment starts
    where the last one ended, and the outline is empty if it is a circle. *)
Definition add_point (s : rstate) (p : qpt) (ang : Q) : option rstate :=
  match r_cur s with
  | None => None
  | Some l =>
      if negb (r_any s) then
        if qltb ang (- min_deg) || qltb min_deg ang then None
        else Some (mkR (r_idx s) true (r_closed s) p (r_done s) (Some l))
      else if r_closed s then None
      else
        let g := new_seg (r_pre s) p ang in
        let go c := Some (mkR (r_idx s) true c p (r_done s) (Some (l ++ [g]))) in
        match l with
        | [] => go (is_circle g)
        | f :: _ => if is_circle g then None else go (q_matches p (q_start f))
        end
  end.

Definition step (ccw : qloop -> bool) (single : bool) (s : rstate) (r : orec) : option rstate :=
  match change ccw single s (or_idx r) with
  | None => None
  | Some s' => add_point s' (or_pt r) (or_ang r)
  end.

Fixpoint steps (ccw : qloop -> bool) (single : bool) (s : rstate) (l : list orec) : option rstate :=
  match l with
  | [] => Some s
  | r :: l' => match step ccw single s r with None => None | Some s' => steps ccw single s' l' end
  end.

Definition loops (s : rstate) : list qloop := match r_cur s with None => [] | Some l => r_done s ++ [l] end.

(** L203-239: the end.  The winding of the last loop is only warned about. *)
Definition finish (s : rstate) : option (list qloop) :=
  if match r_cur s with None => false | _ => r_any s && negb (r_closed s) end then None else Some (loops s).

(** ** The text *)

(** [tstr >> tmp] for an [int]: the number and what is left in the stream. *)
Definition int_max : Z := 2147483647.
Definition stream_int (s : str) : option (Z * str) :=
  let '(neg, s1) := take_sign (skip_space s) in
  let '(v, r) := scan_digits s1 0 in
  if (length s1 =? length r)%nat then None else
  let z := if neg : bool then - v else v in
  if (z <? - int_max - 1) || (int_max <? z) then None else Some (z, r).

(** [tstr >> x] for a [double], as [stream_num] (IdfText.v), with what is left. *)
Definition stream_rest (s : str) : str :=
  let '(_, s1) := take_sign (skip_space s) in
  let '(ip, s2) := scan_digits s1 0 in
  let s3 := match s2 with
            | c :: r => if Ascii.eqb c "." then snd (scan_digits r ip) else s2
            | [] => s2
            end in
  snd (scan_exp s3).

(** A field without quotes which is put behind what is left of the ones before (L422-460,
    L462-500, L502-540): [tstr] is never emptied. *)
Definition next_num (line : str) (st : scan) (lft : str) : option (Q * scan * str) :=
  match get_string line st with
  | (false, _) => None
  | (true, st') =>
    if sc_quoted st' then None else
    match stream_num (lft ++ sc_tok st') with
    | Some q => Some (q, st', stream_rest (lft ++ sc_tok st'))
    | None => None
    end
  end.

(** The end of a section: [entry.substr( 0, 5 )] is compared (L198). *)
Definition is_end (tok : str) : bool := (5 <=? length tok)%nat && compare_token ".END_" (firstn 5 tok).

(** One line, L183-559. *)
Inductive line_got := LWrong | LOver | LRec (r : orec) (tok : str) (lft : str).
Definition read_rec (comp : bool) (u : unit_of) (v : version) (line tok lft : str) : line_got :=
  let '(_, st) := get_string line (mkScan tok false 0) in
  if sc_quoted st then LWrong
  else if is_end (sc_tok st) then LOver
  else match stream_int (lft ++ sc_tok st) with
  | None => if comp && compare_token "PROP" (sc_tok st) then LOver else LWrong
  | Some (i, lft) =>
    match next_num line st lft with None => LWrong | Some (x, st, lft) =>
    match next_num line st lft with None => LWrong | Some (y, st, lft) =>
    match next_num line st lft with None => LWrong | Some (a, st, lft) =>
    match to_mm u v x, to_mm u v y with
    | Some x, Some y => LRec (mkOr i (mkQp x y) a) (sc_tok st) lft
    | _, _ => LWrong
    end end end end
  end.

(** [readOutlines], L154-655.  [comp]: the outline of a component, in which properties
    may follow.  Comments are not told from other lines: the flag is not looked at.  The
    result is the loops and the stream, which is put back to the line which ended the
    section; PROP ends it without the checks at L208-237.  [None]: an exception. *)
Fixpoint read_lines (ccw : qloop -> bool) (single comp : bool) (u : unit_of) (v : version) (fuel : nat)
    (f : stream) (tok lft : str) (s : rstate) : option (list qloop * stream) :=
  match fuel with
  | O => None
  | S k =>
    if s_eof f then None else
    match fetch_line f with
    | (false, _, _, f') => read_lines ccw single comp u v k f' tok lft s
    | (true, line, _, f') =>
      match read_rec comp u v line tok lft with
      | LWrong => None
      | LOver =>
          let '(_, st) := get_string line (mkScan tok false 0) in
          if is_end (sc_tok st) then
            match finish s with None => None | Some l => Some (l, f) end
          else Some (loops s, f)
      | LRec r tok lft =>
          match step ccw single s r with
          | None => None
          | Some s' => read_lines ccw single comp u v k f' tok lft s'
          end
      end
    end
  end.
Definition read_outlines (ccw : qloop -> bool) (single comp : bool) (u : unit_of) (v : version) (f : stream) : option (list qloop * stream) :=
  read_lines ccw single comp u v (S (length (s_rest f))) f [] [] r_init.

(** ** Writing *)

(** L714-733 and so on: mm with five decimals, or thousandths of an inch with one. *)
Definition out_num (u : unit_of) (q : Q) : str :=
  match u with Thou => fixed 1 (q / thou_to_mm)%Q | _ => fixed 5 q end.
Definition out_line (u : unit_of) (i : Z) (p : qpt) (ang : str) : str :=
  showN i ++ sp :: out_num u (qx p) ++ sp :: out_num u (qy p) ++ sp :: ang ++ [nl].

(** The angle: 0 for a line, three decimals else (L768-788). *)
Definition out_deg (a : Q) : str :=
  if qltb a min_deg && qltb (- min_deg) a then S2 "0" else fixed 3 a.

(** [writeOutline], L694-956.  [None]: an exception, or for a loop without segments
    undefined behaviour ([front] of an empty list).  L762 and L858 write the end of the
    way as its start; the outline keeps that change, which is not followed. *)
Definition write_outline (ccw : qloop -> bool) (single : bool) (u : unit_of) (l : qloop) (i : Z) : option str :=
  match l with
  | [] => None
  | [s] =>
      if negb (is_circle s) then None
      else let i := if single then 0 else i in
        Some (out_line u i (q_start s) (S2 "0") ++ out_line u i (q_end s) (S2 "360"))
  | s :: l' =>
      let i := if single then (if ccw l then 0 else 1) else i in
      if (ccw l && (0 <? i)) || (negb (ccw l) && (i =? 0)) then
        match l' with
        | [] => None
        | t :: l'' =>
          Some (out_line u i (q_end s) (S2 "0") ++ out_line u i (q_start s) (out_deg (- q_ang s)) ++
            flat_map (fun g => out_line u i (q_start g) (out_deg (- q_ang g))) (rev (mkQs (q_end s) (q_end t) (q_ang t) :: l'')))
        end
      else
        Some (out_line u i (q_start s) (S2 "0") ++
          flat_map (fun g => out_line u i (q_end g) (out_deg (q_ang g)))
            (removelast l ++ [mkQs (q_start (last l s)) (q_start s) (q_ang (last l s))]))
  end.

(** [writeOutlines], L958-974. *)
Fixpoint write_loops (ccw : qloop -> bool) (single : bool) (u : unit_of) (ls : list qloop) (i : Z) : option str :=
  match ls with
  | [] => Some []
  | l :: ls' =>
      match write_outline ccw single u l i with
      | None => None
      | Some t => match write_loops ccw single u ls' (i + 1) with None => None | Some t' => Some (t ++ t') end
      end
  end.
Definition write_outlines (ccw : qloop -> bool) (single : bool) (u : unit_of) (ls : list qloop) : option str :=
  write_loops ccw single u ls 0.
