(** Model of [MCAD_FILEPATH], /repo/src/iges/mcad_utils.cpp, as compiled for systems
    whose separator is the slash, and of its use in [IGES::Write] and [IGES::Read].
    Not modelled: [Exists], [DirExists], [FileExists] (file system) and the checks
    for Windows (L42-72, L92-93). *)

From Coq Require Import QArith.
From Verif Require Import Base Num IoModel GlobalModel HeaderModel PayloadModel FileModel.
Open Scope Z_scope.

Definition slash : ascii := "/"%char.
Definition backslash : ascii := "\"%char.
Definition period : ascii := "."%char.

(** The members, L38-41 of mcad_utils.h. *)
Record fpath := mkPath { m_full : str; m_name : str; m_base : str; m_ext : str }.

(** [makePathNative], L76-101. *)
Definition native (p : str) : str := map (fun c => if Ascii.eqb c backslash then slash else c) p.

(** [std::string::find_last_of] with one character. *)
Fixpoint last_index (c : ascii) (s : str) : option nat :=
  match s with
  | [] => None
  | x :: r =>
    match last_index c r with
    | Some i => Some (S i)
    | None => if Ascii.eqb x c then Some O else None
    end
  end.

(** [std::string::substr( pos )]; [None] = [std::out_of_range]. *)
Definition substr_from (s : str) (pos : nat) : option str :=
  if (pos <=? length s)%nat then Some (skipn pos s) else None.

(** [SetPath], L153-166, for a path which is not NULL. *)
Definition SetPath (p : str) : fpath := mkPath (native p) [] [] [].

(** What a query gives: NULL, a text, or the exception. *)
Inductive answer := ANull | AText (s : str) | AThrow.

Definition sep_pos (p : fpath) : nat := match last_index slash (m_full p) with None => O | Some i => S i end.

(** [GetBaseName], L286-319.  The base name is stored before the exception. *)
Definition GetBaseName (p : fpath) : answer * fpath :=
  match m_full p with
  | [] => (ANull, p)
  | _ =>
    match m_base p with
    | _ :: _ => (AText (m_base p), p)
    | [] =>
      let sepp := sep_pos p in
      let dot := match last_index period (m_full p) with None => length (m_full p) | Some i => i end in
      if (sepp <? dot)%nat then
        let p1 := mkPath (m_full p) (m_name p) (substr (m_full p) sepp (dot - sepp)) (m_ext p) in
        match m_ext p with
        | [] =>
          match substr_from (m_full p) (S dot) with
          | None => (AThrow, p1)
          | Some e => (AText (m_base p1), mkPath (m_full p) (m_name p) (m_base p1) e)
          end
        | _ => (AText (m_base p1), p1)
        end
      else
        let b := skipn sepp (m_full p) in
        (AText b, mkPath (m_full p) (m_name p) b (m_ext p))
    end
  end.

(** [GetExtension], L322-348.  The position at L345 is never beyond the end. *)
Definition GetExtension (p : fpath) : answer * fpath :=
  match m_full p with
  | [] => (ANull, p)
  | _ =>
    match m_ext p with
    | _ :: _ => (AText (m_ext p), p)
    | [] =>
      match last_index period (m_full p) with
      | None => (ANull, p)
      | Some dot =>
        if (dot <=? sep_pos p)%nat then (ANull, p) else
        let e := skipn (S dot) (m_full p) in
        (AText e, mkPath (m_full p) (m_name p) (m_base p) e)
      end
    end
  end.

(** [GetFileName], L259-283. *)
Definition GetFileName (p : fpath) : answer * fpath :=
  match m_full p with
  | [] => (ANull, p)
  | _ =>
    match m_name p with
    | _ :: _ => (AText (m_name p), p)
    | [] =>
      match GetBaseName p with
      | (AText b, p1) =>
        match GetExtension p1 with
        | (AText e, p2) => let n := b ++ period :: e in (AText n, mkPath (m_full p2) n (m_base p2) (m_ext p2))
        | (_, p2) => (AText b, mkPath (m_full p2) b (m_base p2) (m_ext p2))
        end
      | r => r
      end
    end
  end.

(** [GetFullPath], L250-256. *)
Definition GetFullPath (p : fpath) : answer := match m_full p with [] => ANull | s => AText s end.

(** [SetExtension], L351-385; a NULL argument acts like the empty text.  The test at
    L356 is for Windows. *)
Definition SetExtension (e : str) (p : fpath) : bool * fpath :=
  match m_full p with
  | [] => (false, p)
  | _ =>
    let full :=
      match m_ext p with
      | [] =>
        match GetExtension p with
        | (AText x, _) => firstn (length (m_full p) - length x - 1) (m_full p)
        | _ => m_full p
        end
      | _ => m_full p
      end in
    match e with
    | [] => (true, mkPath full [] (m_base p) [])
    | c :: r =>
      if Ascii.eqb c period then
        match r with
        | [] => (false, mkPath full [] (m_base p) [])
        | _ => (true, mkPath (full ++ r) [] (m_base p) r)
        end
      else (true, mkPath (full ++ period :: e) [] (m_base p) e)
    end
  end.

(** [Append], L394-414. *)
Definition Append (s : str) (p : fpath) : bool * fpath :=
  match s with
  | [] => (true, p)
  | _ =>
    match native s with
    | [c] => if Ascii.eqb c slash then (true, p) else (false, mkPath (m_full p ++ slash :: native s) [] [] [])
    | _ => (false, mkPath (m_full p ++ slash :: native s) [] [] [])
    end
  end.

(** Any history of questions; an exception is caught by the caller. *)
Inductive query := QFull | QName | QBase | QExt.
Definition ask (q : query) (p : fpath) : answer * fpath :=
  match q with
  | QFull => (GetFullPath p, p)
  | QName => GetFileName p
  | QBase => GetBaseName p
  | QExt => GetExtension p
  end.
Fixpoint asked (qs : list query) (p : fpath) : fpath :=
  match qs with [] => p | q :: r => asked r (snd (ask q p)) end.
Fixpoint answers (qs : list query) (p : fpath) : list answer :=
  match qs with [] => [] | q :: r => fst (ask q p) :: answers r (snd (ask q p)) end.

(** [IGES::Write] with the path (iges.cpp L705-716): the exception leaves the
    function when the file has just been opened and emptied. *)
Inductive wresult := Wrote (b : bool) (t : target) | WThrow (t : target) | WCrash.

Definition write_to (d : doc) (path ver now : str) (t : target) (over : bool) : wresult :=
  let plain := match Write d (match fst (GetFileName (SetPath path)) with AText n => n | _ => [] end) ver now t over with
    | POk (b, t') => Wrote b t'
    | _ => WCrash
    end in
  match fst (GetFileName (SetPath path)) with
  | AThrow =>
    match d_ents d with
    | [] => plain
    | es =>
      match format_all (minResolution (d_glob d)) (pdelim (d_glob d)) (rdelim (d_glob d)) 1 1 es with
      | POk _ => if opened t over then WThrow (Old []) else plain
      | _ => plain
      end
    end
  | _ => plain
  end.

(** [IGES::Read] of a path (iges.cpp L533-545), up to [associate]; [f] is the content
    of the file.  [None] = the exception. *)
Definition read_from (lines : list str) (n : Z) (g0 : globals) (path : str) (f : stream)
  : option (pres (list str * globals * list rent * list Z)) :=
  match fst (GetFileName (SetPath path)) with
  | AText name => Some (read_file lines n g0 name f)
  | ANull => Some (read_file lines n g0 [] f)
  | AThrow =>
    match (do (start, rec, f1) <- read_start lines f; readGlobals rec n g0 f1) with
    | POk _ => None
    | PFail => Some PFail
    | PCrash => Some PCrash
    end
  end.
