(** Model of the Parameter Data part of /repo/src/entities/iges_entity.cpp which
    is shared by all entity types: reading the lines of a record, the optional
    pointers and comments behind the parameters, and writing them. *)

From Coq Require Import QArith Qabs.
From Verif Require Import Base Num IoModel.
Open Scope Z_scope.

(** ** Reading *)

(** The loop of [IGES_ENTITY::readPD], iges_entity.cpp L1468-1569: [n] lines
    remain, the next one must carry sequence number [k]. *)
Fixpoint pd_lines (n : nat) (first : bool) (etype seq k : Z) (pd rd : ascii) (f : stream)
  : pres (str * stream) :=
  match n with
  | O => POk ([], f)
  | S n' =>
    do (rec, f1) <- ReadIGESRecord f;
    guard (Ascii.eqb (r_sec rec) "P") (
    guard (r_idx rec =? k) (
    guard (Ascii.eqb (at_ (r_data rec) 64) sp) (
    do de <- DEItemToInt (r_data rec) 8 None;
    guard (de =? seq) (
    do _ <- (if first then
               do (t, _, eor) <- ParseInt (r_data rec) 0 false pd rd None;
               guard (t =? etype) (guard (negb eor) (POk tt))
             else POk tt);
    do (s, f2) <- pd_lines n' false etype seq (k + 1) pd rd f1;
    POk (substr (r_data rec) 0 64 ++ s, f2)))))
  end.

(** [IGES_ENTITY::readPD], iges_entity.cpp L1430-1578: [etype], [seq], [pdata]
    and [count] are the members [entityType], [sequenceNumber],
    [parameterData] and [paramLineCount]; the result is [pdout].  The parent
    pointer is taken to be set; [aSequenceVar] grows by the number of lines. *)
Definition readPD_base (etype seq pdata count : Z) (pd rd : ascii) (f : stream)
  : pres (str * stream) :=
  if (pdata =? 0) && (etype =? 0) then POk ([], f) else
  if (pdata <? 1) || (9999999 <? pdata) then PFail else
  if (count <? 1) || (10000000 <? pdata + count) then PFail else
  pd_lines (Z.to_nat count) true etype seq pdata pd rd f.

(** A list of [n] integers each of which must satisfy [ok]; used for the
    pointer lists of many [readPD] methods. *)
Fixpoint parse_ints (n : nat) (ok : Z -> bool) (data : str) (idx : nat) (eor : bool) (pd rd : ascii)
  : pres (list Z * nat * bool) :=
  match n with
  | O => POk ([], idx, eor)
  | S n' =>
    do (v, idx1, eor1) <- ParseInt data idx eor pd rd None;
    guard (ok v) (
    do (l, idx2, eor2) <- parse_ints n' ok data idx1 eor1 pd rd;
    POk (v :: l, idx2, eor2))
  end.

(** [n] successive reals without default. *)
Fixpoint parse_reals (n : nat) (data : str) (idx : nat) (eor : bool) (pd rd : ascii)
  : pres (list Q * nat * bool) :=
  match n with
  | O => POk ([], idx, eor)
  | S n' =>
    do (v, idx1, eor1) <- ParseReal data idx eor pd rd None;
    do (l, idx2, eor2) <- parse_reals n' data idx1 eor1 pd rd;
    POk (v :: l, idx2, eor2)
  end.

(** The test on pointers at L2582 and L2614. *)
Definition extra_ok (v : Z) : bool := negb ((v <? 1) || negb (Z.odd v) || (9999997 <? v)).

(** [readExtraParams], iges_entity.cpp L2552-2634; result is [iExtras] and the
    position.  [eor] is a local of that function and starts as [false]. *)
Definition readExtraParams (data : str) (idx : nat) (pd rd : ascii) : pres (list Z * nat) :=
  do (na, idx1, eor1) <- ParseInt data idx false pd rd (Some 0);
  guard (0 <=? na) (
  do (la, idx2, eor2) <- parse_ints (Z.to_nat na) extra_ok data idx1 eor1 pd rd;
  if eor2 : bool then POk (la, idx2) else
  do (nb, idx3, eor3) <- ParseInt data idx2 eor2 pd rd (Some 0);
  guard (0 <=? nb) (
  do (lb, idx4, eor4) <- parse_ints (Z.to_nat nb) extra_ok data idx3 eor3 pd rd;
  guard eor4 (POk (la ++ lb, idx4)))).

(** Whole blocks of 64 characters: the loop of [readComments], L2646-2651.  Each
    round consumes 64 characters, so the length is enough fuel. *)
Fixpoint blocks64 (fuel : nat) (s : str) : list str :=
  match fuel with
  | O => []
  | S fuel' => if (length s <? 64)%nat then [] else firstn 64 s :: blocks64 fuel' (skipn 64 s)
  end.

(** [readComments], iges_entity.cpp L2637-2658: the comments appended.  When the
    rounded index lies behind the end the loop does not run. *)
Definition readComments (data : str) (idx : nat) : list str :=
  let i := if (idx mod 64 =? 0)%nat then idx else (idx + (64 - idx mod 64))%nat in
  blocks64 (length data) (skipn i data).

(** The frame shared by the [readPD] methods of the entities (for example
    entity110.cpp L208-305): base record, first delimiter at 1..8, the entity's
    own parameters ([parse]), optional pointers unless the record ended, and
    comments. *)
Definition readPD_frame {A} (parse : str -> nat -> pres (A * nat * bool))
  (etype seq pdata count : Z) (pd rd : ascii) (f : stream) : pres (A * list Z * list str * stream) :=
  do (data, f1) <- readPD_base etype seq pdata count pd rd f;
  match find_char pd data with
  | None => PFail
  | Some i =>
    if (i <? 1)%nat || (8 <? i)%nat then PFail else
    do (a, idx, eor) <- parse data (S i);
    do (ex, idx') <- (if eor : bool then POk ([], idx) else readExtraParams data idx pd rd);
    POk (a, ex, readComments data idx', f1)
  end.

(** ** Writing *)

(** A step of a [format] method: an item whose [AddPDItem] result is ignored, a
    real written at the resolution [u] (the result of [FormatPDREal] is checked,
    that of [AddPDItem] is not), or a text (the result of [AddPDHStr] is
    checked). *)
Inductive act :=
| WItem (t : str)
| WReal (q : Q) (d : ascii) (u : Q)
| WText (s : str) (d : ascii).

(** A sequence of such steps. *)
Fixpoint emit (de : Z) (pd rd : ascii) (acts : list act) (st : lst) : outcome lst :=
  match acts with
  | [] => Ret true st
  | WItem t :: r =>
    match AddPDItem t st de rd with
    | Crash => Crash
    | Ret _ st' => emit de pd rd r st'
    end
  | WReal q d u :: r =>
    match FormatPDREal q d u with
    | None => Ret false st
    | Some t =>
      match AddPDItem t st de rd with
      | Crash => Crash
      | Ret _ st' => emit de pd rd r st'
      end
    end
  | WText s d :: r =>
    match AddPDHStr s st de pd rd d with
    | Ret true st' => emit de pd rd r st'
    | o => o
    end
  end.

(** An integer written with [ostr << n << d]. *)
Definition WInt (n : Z) (d : ascii) : act := WItem (showZ n ++ [d]).

(** Integers each followed by [pd], the last one by [fd]. *)
Fixpoint ints_acts (l : list Z) (pd fd : ascii) : list act :=
  match l with
  | [] => []
  | [n] => [WInt n fd]
  | n :: r => WInt n pd :: ints_acts r pd fd
  end.

(** Reals written at the resolution [u], each followed by [pd], the last one by
    [fd]. *)
Fixpoint reals_acts (u : Q) (l : list Q) (pd fd : ascii) : list act :=
  match l with
  | [] => []
  | [q] => [WReal q fd u]
  | q :: r => WReal q pd u :: reals_acts u r pd fd
  end.

(** The delimiter behind the last parameter of an entity, for example
    entity110.cpp L100-117. *)
Definition fdel (extras : list (Z * Z)) (pd rd : ascii) : ascii :=
  match extras with [] => rd | _ => pd end.

(** Optional entities: entity type and Directory Entry number of each. *)
Definition is_secA (e : Z * Z) : bool := (fst e =? 212) || (fst e =? 312) || (fst e =? 402).
Definition is_secB (e : Z * Z) : bool := fst e =? 406.

(** The steps of [formatExtraParams], iges_entity.cpp L2661-2774, for a list of
    the entity types which [AddOptionalEntity] admits. *)
Definition extras_acts (extras : list (Z * Z)) (pd rd : ascii) : list act :=
  let a := map snd (filter is_secA extras) in
  let b := map snd (filter is_secB extras) in
  match a, b with
  | [], _ => WItem [pd] :: WInt (Z.of_nat (length b)) pd :: ints_acts b pd rd
  | _, [] => WInt (Z.of_nat (length a)) pd :: ints_acts a pd rd
  | _, _ => WInt (Z.of_nat (length a)) pd :: ints_acts a pd pd ++
            WInt (Z.of_nat (length b)) pd :: ints_acts b pd rd
  end.

(** [formatExtraParams]; a foreign type in the list makes it return false
    (L2697-2701). *)
Definition formatExtraParams (extras : list (Z * Z)) (de : Z) (pd rd : ascii) (st : lst)
  : outcome lst :=
  match extras with
  | [] => Ret false st
  | _ =>
    if forallb (fun e => is_secA e || is_secB e) extras
    then emit de pd rd (extras_acts extras pd rd) st
    else Ret false st
  end.

(** One comment split into 72 column pieces, the inner loop of
    [formatComments], L2800-2818. *)
Fixpoint comment_lines (fuel : nat) (s : str) (out : str) (k : Z) : bool * str * Z :=
  match fuel with
  | O => (true, out, k)
  | S fuel' =>
    match s with
    | [] => (true, out, k)
    | _ =>
      let t := padr 72 (firstn 72 s) in
      match FormatDEInt k with
      | None => (false, out, k + 1)
      | Some n => comment_lines fuel' (skipn 72 s) (out ++ t ++ set0 "P" n ++ [nl]) (k + 1)
      end
    end
  end.

Fixpoint comments_lines (cs : list str) (out : str) (k : Z) : bool * str * Z :=
  match cs with
  | [] => (true, out, k)
  | c :: r =>
    match comment_lines (length c) c out k with
    | (true, out', k') => comments_lines r out' k'
    | x => x
    end
  end.

(** [formatComments], iges_entity.cpp L2777-2824. *)
Definition formatComments (cs : list str) (out : str) (k : Z) : bool * str * Z :=
  if negb (length out mod 81 =? 0)%nat then (false, out, k)
  else comments_lines cs out k.

(** What a [format] method leaves behind: [pdout], the next free sequence number
    and [paramLineCount]. *)
Record pdrec := mkPd { p_out : str; p_next : Z; p_count : Z }.

(** The frame shared by the [format] methods (for example entity110.cpp
    L66-141): [lstr] starts with [init], the steps [acts] follow, then the
    optional pointers and the comments.  [None] = returned false.  The parent
    pointer is taken to be set. *)
Definition format_frame (init : str) (acts : list act) (extras : list (Z * Z)) (cs : list str)
  (index seq : Z) (pd rd : ascii) : pres pdrec :=
  if (index <? 1) || (9999999 <? index) then PFail else
  match emit seq pd rd acts (mkLst init [] index) with
  | Crash => PCrash
  | Ret false _ => PFail
  | Ret true st =>
    match (match extras with [] => Ret true st | _ => formatExtraParams extras seq pd rd st end) with
    | Crash => PCrash
    | Ret false _ => PFail
    | Ret true st1 =>
      match formatComments cs (l_out st1) (l_idx st1) with
      | (true, out, k) => POk (mkPd out k (k - index))
      | (false, _, _) => PFail
      end
    end
  end.

(** [writePD], iges_entity.cpp L1845-1864, up to the state of the output stream:
    the bytes appended to the file. *)
Definition writePD (r : pdrec) : option str :=
  match p_out r with
  | [] => None
  | _ => if (length (p_out r) mod 81 =? 0)%nat then Some (p_out r) else None
  end.
