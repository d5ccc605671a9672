(** Model of the Start Section: [AddToHeader] and [writeStart] of
    /repo/src/iges/iges.cpp and the part of [Read] which fills the member
    [startSection]. *)

From Verif Require Import Base Num IoModel.
Open Scope Z_scope.

(** The loop of [AddToHeader], iges.cpp L1918-1927, also of [writeStart],
    L1963-1972: pieces of 72 characters, the last one padded with blanks.  The
    length of the text is enough fuel. *)
Fixpoint pieces72 (fuel : nat) (s : str) : list str :=
  match fuel, s with
  | S fuel', _ :: _ => padr 72 (firstn 72 s) :: pieces72 fuel' (skipn 72 s)
  | _, _ => []
  end.

(** [AddToHeader], iges.cpp L1898-1931; it always returns true.  The text is a C
    string, hence without NUL.  The cache [vStartSection] is not modelled, a NULL
    pointer neither. *)
Definition AddToHeader (lines : list str) (text : str) : list str :=
  match text with
  | [] => lines
  | _ =>
    if (length text <? 72)%nat then lines ++ [padr 72 text]
    else if (72 <? length text)%nat then lines ++ pieces72 (length text) text
    else lines
  end.

(** The text used for an empty Start Section, L1937. *)
Definition start_default : str :=
  S2 "# Created via the free libIGES (https://github.com/cbernardo/libIGES)".

(** The first loop of [writeStart], L1948-1978: short lines are padded, long ones
    replaced by pieces.  [erase] returns the position behind the erased line, and
    [++ssc] steps over one more: that line is left as it is, and beyond the last
    line this is undefined ([None]). *)
Fixpoint fix_lines (l : list str) : option (list str) :=
  match l with
  | [] => Some []
  | s :: r =>
    if (72 <? length s)%nat then
      match r with
      | [] => None
      | t :: r' => option_map (fun x => pieces72 (length s) s ++ t :: x) (fix_lines r')
      end
    else option_map (cons (padr 72 s)) (fix_lines r)
  end.

(** The second loop, L1980-2001.  [tStr1[0] = 'S'] replaces the first of the eight
    columns whatever it holds. *)
Fixpoint put_lines (n : Z) (l : list str) : option str :=
  match l with
  | [] => Some []
  | s :: r =>
    match FormatDEInt n with
    | Some c => option_map (fun x => s ++ set0 "S" c ++ [nl] ++ x) (put_lines (n + 1) r)
    | None => None
    end
  end.

(** [writeStart], L1934-2002: the member afterwards and the bytes written, [PFail] =
    returned false.  A failing stream is not modelled. *)
Definition writeStart (lines : list str) : pres (list str * str) :=
  match fix_lines (match lines with [] => [start_default] | _ => lines end) with
  | None => PCrash
  | Some l => match put_lines 1 l with Some out => POk (l, out) | None => PFail end
  end.

(** The loop of [Read], L481-504: records of the Start Section are appended to the
    member [lines].  Results: the member, the record behind the section and the
    stream.  The length of the stream is enough fuel; [PCrash] marks missing fuel. *)
Fixpoint start_lines (fuel : nat) (rec : irec) (lines : list str) (f : stream) : pres (list str * irec * stream) :=
  if Ascii.eqb (r_sec rec) "S" then
    match fuel with
    | O => PCrash
    | S fuel' =>
      guard (r_idx rec =? Z.of_nat (length lines) + 1) (
      do (rec', f') <- ReadIGESRecord f;
      start_lines fuel' rec' (lines ++ [r_data rec]) f')
    end
  else POk (lines, rec, f).

(** From the first record to the first one of the Global Section, L449-524. *)
Definition read_start (lines : list str) (f : stream) : pres (list str * irec * stream) :=
  do (rec, f1) <- ReadIGESRecord f;
  guard (Ascii.eqb (r_sec rec) "S") (
  do (l, rec', f') <- start_lines (S (length (s_rest f1))) rec lines f1;
  guard (Ascii.eqb (r_sec rec') "G") (POk (l, rec', f'))).
