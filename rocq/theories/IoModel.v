(** Model of /repo/src/iges/iges_io.cpp: fixed column fields, free format
    parameters and the line builders of the Global and Parameter Data sections. *)

From Coq Require Import QArith Qabs.
From Verif Require Import Base Num.
Open Scope Z_scope.

(** ** Fixed column fields *)

(** Number of leading blanks: [find_first_not_of(' ')], [None] = npos. *)
Fixpoint first_nonblank (s : str) : option nat :=
  match s with
  | [] => None
  | c :: r => if Ascii.eqb c sp then option_map S (first_nonblank r) else Some O
  end.

(** [DEItemToInt], iges_io.cpp L44-110.  [dflt] is the optional default
    ([None] = NULL pointer).  [POk v] = returned true with [var = v].  The test
    [0 != *cp] at L101 accepts an embedded NUL byte as end of the field. *)
Definition DEItemToInt (input : str) (field : Z) (dflt : option Z) : pres Z :=
  if (field <? 0) || (9 <? field) then PFail else
  if Z.of_nat (length input) <? 8 * (field + 1) then PFail else
  let fld := substr input (Z.to_nat (8 * field)) 8 in
  match first_nonblank fld with
  | None => match dflt with None => PFail | Some d => POk d end
  | Some np =>
    match strtol (skipn np fld) with
    | None => PFail
    | Some (v, r) =>
      match r with
      | [] => POk (wrap32 v)
      | c :: _ => if Ascii.eqb c nul then POk (wrap32 v) else PFail
      end
    end
  end.

(** [DEItemToStr], iges_io.cpp L113-144: leading blanks are removed. *)
Definition DEItemToStr (input : str) (field : Z) : pres str :=
  if (field <? 0) || (9 <? field) then PFail else
  if Z.of_nat (length input) <? 8 * (field + 1) then PFail else
  let fld := substr input (Z.to_nat (8 * field)) 8 in
  match first_nonblank fld with
  | None => POk []
  | Some np => POk (skipn np fld)
  end.

(** [FormatDEInt], iges_io.cpp L474-495; [None] = returned false (the output
    string is then unchanged). *)
Definition FormatDEInt (num : Z) : option str :=
  if (99999999 <? num) || (num <? -9999999) then None else
  let s := showZ num in
  Some (repeat sp (8 - length s) ++ s).

(** ** Records *)

(** A stream being read: the bytes not yet consumed and the [eofbit].
    [badbit] (hardware failure) is not modelled. *)
Record stream := mkStream { s_rest : str; s_eof : bool }.

(** [std::getline]: the bytes up to (not including) the next newline, which is
    consumed; reaching the end of the file sets [eofbit]. *)
Fixpoint split_line (s : str) : str * option str :=
  match s with
  | [] => ([], None)
  | c :: r =>
    if Ascii.eqb c nl then ([], Some r)
    else let '(l, o) := split_line r in (c :: l, o)
  end.

Definition getline (f : stream) : str * stream :=
  match split_line (s_rest f) with
  | (l, Some r) => (l, mkStream r false)
  | (l, None) => (l, mkStream [] true)
  end.

Definition is_eol (c : ascii) : bool :=
  Ascii.eqb c nl || Ascii.eqb c cr || Ascii.eqb c ff.

(** The loop of iges_io.cpp L168-177: remove trailing newline, carriage return
    and form feed characters while more than one character is left.  The
    recursion is over the reversed line. *)
Fixpoint strip_eol_rev (r : str) : str :=
  match r with
  | c :: ((_ :: _) as r') => if is_eol c then strip_eol_rev r' else r
  | _ => r
  end.

Definition strip_eol (s : str) : str := rev (strip_eol_rev (rev s)).

(** [IGES_RECORD], include/core/iges_io.h. *)
Record irec := mkRec { r_data : str; r_sec : ascii; r_idx : Z }.

Definition is_section (c : ascii) : bool :=
  Ascii.eqb c "F" || Ascii.eqb c "S" || Ascii.eqb c "G" ||
  Ascii.eqb c "D" || Ascii.eqb c "P" || Ascii.eqb c "T".

(** The part of [ReadIGESRecord] after [getline], iges_io.cpp L168-227.
    L206 blanks column 73 before the sequence number is read as field 9. *)
Definition parse_record (line : str) : pres irec :=
  let l := strip_eol line in
  if negb (Nat.eqb (length l) 80) then PFail else
  let sec := at_ l 72 in
  if negb (is_section sec) then PFail else
  let l' := firstn 72 l ++ sp :: skipn 73 l in
  do v <- DEItemToInt l' 9 None;
  if v <=? 0 then PFail else
  POk (mkRec (substr l 0 72) sec v).

(** [ReadIGESRecord], iges_io.cpp L147-228.  The saved position [aRefPos] is the
    stream value before the call. *)
Definition ReadIGESRecord (f : stream) : pres (irec * stream) :=
  if s_eof f then PFail else
  let '(l, f') := getline f in
  do r <- parse_record l;
  POk (r, f').

(** ** Free format parameters.  A parser takes the data, the position [idx] and
    the end-of-record flag and returns value, new position and new flag. *)

(** Index of the first occurrence of [c] at or after the start. *)
Fixpoint find_char (c : ascii) (s : str) : option nat :=
  match s with
  | [] => None
  | d :: r => if Ascii.eqb c d then Some O else option_map S (find_char c r)
  end.

(** [ParseHString], iges_io.cpp L231-311.  The addition [idx + i] at L281 is on
    [int]; when it exceeds the range of [int] the behaviour is undefined. *)
Definition ParseHString (data : str) (idx : nat) (eor : bool) (pd rd : ascii)
  : pres (str * nat * bool) :=
  if (length data <=? idx)%nat then PFail else
  let c := at_ data idx in
  if Ascii.eqb c pd || Ascii.eqb c rd then
    POk ([], S idx, if Ascii.eqb c rd then true else eor)
  else
  match strtol (skipn idx data) with
  | None => PFail
  | Some (v, r) =>
    let i := wrap32 v in
    let idx1 := (length data - length r)%nat in
    if negb (Ascii.eqb (at_ data idx1) "H") then PFail else
    let idx2 := S idx1 in
    if i <=? 0 then PFail else
    if int_max <? Z.of_nat idx2 + i then PCrash else
    if Z.of_nat (length data) <=? Z.of_nat idx2 + i then PFail else
    let param := substr data idx2 (Z.to_nat i) in
    let idx3 := (idx2 + Z.to_nat i)%nat in
    let d := at_ data idx3 in
    if Ascii.eqb d rd then POk (param, S idx3, true)
    else if Ascii.eqb d pd then POk (param, S idx3, eor)
    else PFail
  end.

(** [ParseLString], iges_io.cpp L314-368. *)
Definition ParseLString (data : str) (idx : nat) (eor : bool) (pd rd : ascii)
  : pres (str * nat * bool) :=
  if (length data <=? idx)%nat then PFail else
  let c := at_ data idx in
  if Ascii.eqb c pd || Ascii.eqb c rd then
    POk ([], S idx, if Ascii.eqb c rd then true else eor)
  else
  let e1 := find_char pd (skipn idx data) in
  let e2 := find_char rd (skipn idx data) in
  let finish (n : nat) :=
    let param := substr data idx n in
    let idx1 := (idx + length param)%nat in
    let d := at_ data idx1 in
    if Ascii.eqb d rd then POk (param, S idx1, true)
    else if Ascii.eqb d pd then POk (param, S idx1, eor)
    else PFail in
  match e1, e2 with
  | None, None => PFail
  | None, Some n2 => finish n2
  | Some n1, None => finish n1
  | Some n1, Some n2 => if (n2 <? n1)%nat then finish n2 else finish n1
  end.

(** [ParseInt], iges_io.cpp L371-417; characters after the number only cause a
    warning (L408-413). *)
Definition ParseInt (data : str) (idx : nat) (eor : bool) (pd rd : ascii)
  (dflt : option Z) : pres (Z * nat * bool) :=
  do (tmp, idx', eor') <- ParseLString data idx eor pd rd;
  match tmp with
  | [] => match dflt with Some d => POk (d, idx', eor') | None => PFail end
  | _ => match strtol tmp with
         | None => PFail
         | Some (v, _) => POk (wrap32 v, idx', eor')
         end
  end.

(** *** Decimal real numbers *)

(** The rational [m * 10^e]. *)
Definition dec2Q (m e : Z) : Q :=
  if 0 <=? e then inject_Z (m * 10 ^ e) else Qmake m (Z.to_pos (10 ^ (- e))).

(** Magnitudes which [strtod] converts without [ERANGE].  The underflow bound is
    the least normal double (a slight simplification: a denormal result which
    is exact does not set [errno]). *)
Definition in_double_range (q : Q) : bool :=
  Qeq_bool q 0 ||
  (Qle_bool (Qmake 1 (2 ^ 1022)) (Qabs q) &&
   negb (Qle_bool (inject_Z (2 ^ 1024 - 2 ^ 970)) (Qabs q))).

Definition is_digit (c : ascii) : bool :=
  match digit_val c with Some _ => true | None => false end.

(** Exponent part: [e|E], optional sign, at least one digit; otherwise nothing
    is consumed. *)
Definition scan_exp (s : str) : Z * str :=
  match s with
  | c :: r =>
    if Ascii.eqb c "e" || Ascii.eqb c "E" then
      let '(neg, r1) := take_sign r in
      match r1 with
      | d :: _ =>
        if is_digit d then
          let '(v, r2) := scan_digits r1 0 in
          ((if neg : bool then - v else v), r2)
        else (0, s)
      | [] => (0, s)
      end
    else (0, s)
  | [] => (0, s)
  end.

(** [strtod] (iges_io.cpp L453) on decimal numerals, with exact rational result.
    Not modelled: the binary rounding of the result, and the "inf", "nan" and
    hexadecimal forms which [strtod] also accepts. *)
Definition strtod (s : str) : option (Q * str) :=
  let '(neg, s1) := take_sign (skip_space s) in
  let '(ip, s2) := scan_digits s1 0 in
  let ni := (length s1 - length s2)%nat in
  let '(m, s3, nf) :=
    match s2 with
    | c :: r =>
      if Ascii.eqb c "." then
        let '(m, r') := scan_digits r ip in
        (m, r', (length r - length r')%nat)
      else (ip, s2, O)
    | [] => (ip, s2, O)
    end in
  if (ni + nf =? 0)%nat then None else
  let '(e, s4) := scan_exp s3 in
  let q := dec2Q (if neg : bool then - m else m) (e - Z.of_nat nf) in
  if in_double_range q then Some (q, s4) else None.

(** The first 'D' becomes 'E', iges_io.cpp L444-447. *)
Fixpoint d_to_e (s : str) : str :=
  match s with
  | [] => []
  | c :: r => if Ascii.eqb c "D" then "E"%char :: r else c :: d_to_e r
  end.

(** [ParseReal], iges_io.cpp L420-471. *)
Definition ParseReal (data : str) (idx : nat) (eor : bool) (pd rd : ascii)
  (dflt : option Q) : pres (Q * nat * bool) :=
  do (tmp, idx', eor') <- ParseLString data idx eor pd rd;
  match tmp with
  | [] => match dflt with Some d => POk (d, idx', eor') | None => PFail end
  | _ => match strtod (d_to_e tmp) with
         | None => PFail
         | Some (v, _) => POk (v, idx', eor')
         end
  end.

(** ** Printing of reals *)

(** Number of decimal digits; 0 for 0. *)
Definition ndigits (n : Z) : Z :=
  if n <=? 0 then 0 else Z.of_nat (length (showN n)).

(** floor( log10( n / d ) ) for positive [n], [d]. *)
Definition flog10 (n d : Z) : Z :=
  if d <=? n then ndigits (n / d) - 1
  else - ndigits ((d + n - 1) / n - 1).

(** Nearest integer to [n / d], ties to even (how glibc prints in the default
    rounding mode). *)
Definition round_half_even (n d : Z) : Z :=
  let q := n / d in
  let r := n mod d in
  if 2 * r <? d then q
  else if d <? 2 * r then q + 1
  else if Z.even q then q else q + 1.

(** [n/d * 10^s] rounded to an integer. *)
Definition scale_round (n d s : Z) : Z :=
  if 0 <=? s then round_half_even (n * 10 ^ s) d
  else round_half_even n (d * 10 ^ (- s)).

(** Mantissa and exponent of the positive rational [n/d] at [p] significant
    digits: the value is approximately [m * 10^(x - p + 1)],
    [10^(p-1) <= m < 10^p]. *)
Definition sci_parts (p : Z) (n d : Z) : Z * Z :=
  let e := flog10 n d in
  let m := scale_round n d (p - 1 - e) in
  if m =? 10 ^ p then (10 ^ (p - 1), e + 1) else (m, e).

(** Trailing zeros of a digit string removed. *)
Fixpoint strip0_rev (r : str) : str :=
  match r with
  | c :: r' => if Ascii.eqb c "0" then strip0_rev r' else r
  | [] => []
  end.
Definition strip0 (s : str) : str := rev (strip0_rev (rev s)).

(** Exponent as printed by printf: sign and at least two digits. *)
Definition show_exp (x : Z) : str :=
  "e"%char :: (if x <? 0 then "-"%char else "+"%char) ::
  (if Z.abs x <? 10 then "0"%char :: showN (Z.abs x) else showN (Z.abs x)).

Definition dot_frac (fr : str) : str :=
  match fr with [] => [] | _ => "."%char :: fr end.

(** [printf( "%.<p>e", q )]: what [ostr << scientific << q] produces. *)
Definition print_e (p : Z) (q : Q) : str :=
  let n := Qnum q in
  let d := Zpos (Qden q) in
  let sgn := if n <? 0 then ["-"%char] else [] in
  if n =? 0 then
    S2 "0" ++ dot_frac (repeat "0"%char (Z.to_nat p)) ++ S2 "e+00"
  else
    let '(m, x) := sci_parts (p + 1) (Z.abs n) d in
    let ds := showN m in
    sgn ++ firstn 1 ds ++ dot_frac (skipn 1 ds) ++ show_exp x.

(** [printf( "%.<p>g", q )]: what [ostr << q] produces in the default float
    mode, [p > 0]. *)
Definition print_g (p : Z) (q : Q) : str :=
  let n := Qnum q in
  let d := Zpos (Qden q) in
  let sgn := if n <? 0 then ["-"%char] else [] in
  if n =? 0 then S2 "0"
  else
    let '(m, x) := sci_parts p (Z.abs n) d in
    let ds := showN m in
    if (x <? -4) || (p <=? x) then
      sgn ++ firstn 1 ds ++ dot_frac (strip0 (skipn 1 ds)) ++ show_exp x
    else if 0 <=? x then
      let k := Z.to_nat (x + 1) in
      sgn ++ firstn k ds ++ dot_frac (strip0 (skipn k ds))
    else
      sgn ++ S2 "0." ++ repeat "0"%char (Z.to_nat (- x - 1)) ++ strip0 ds.

(** Index of the last character at or before [p] which is not '0':
    the loop of iges_io.cpp L567-568. *)
Fixpoint back0 (s : str) (p : nat) : nat :=
  if Ascii.eqb (at_ s p) "0" then match p with O => O | S p' => back0 s p' end
  else p.

(** First of 'e' or 'E'. *)
Fixpoint find_exp (s : str) : option nat :=
  match s with
  | [] => None
  | d :: r => if Ascii.eqb d "e" || Ascii.eqb d "E" then Some O
              else option_map S (find_exp r)
  end.

Definition set_at (s : str) (i : nat) (c : ascii) : str :=
  firstn i s ++ c :: skipn (S i) s.

(** Post-processing of the printed text, iges_io.cpp L555-613. *)
Definition trim_real (nc : Z) (t : str) : str :=
  match find_char "."%char t with
  | Some _ =>
    let pexp := find_exp t in
    let pidx0 := match pexp with Some e => (e - 1)%nat | None => (length t - 1)%nat end in
    let pidx1 := back0 t pidx0 in
    let pidx := if Ascii.eqb (at_ t pidx1) "." then S pidx1 else pidx1 in
    match pexp with
    | Some e =>
      let t' := set_at t e "E"%char in
      firstn (S pidx) t' ++ skipn e t'
    | None => firstn (S pidx) t
    end
  | None =>
    match find_exp t with
    | None => t ++ S2 ".0"
    | Some e => set_at t e (if 7 <? nc then "D"%char else "E"%char)
    end
  end.

Definition q_1em8 : Q := Qmake 1 100000000.
Definition q_999_9 : Q := Qmake 9999 10.

(** [FormatPDREal] after the number of digits [nc] has been determined,
    iges_io.cpp L516-617. The branch at L546 is never taken. *)
Definition format_real (nc : Z) (var : Q) (delim : ascii) : str :=
  let var' := if Qle_bool q_1em8 (Qabs var) then var else 0%Q in
  let t := if Qle_bool (Qabs var') q_999_9 then print_g nc var' else print_e nc var' in
  trim_real nc t ++ [delim].

(** The number of digits of iges_io.cpp L507-513 and L535-539:
    [(int)(log(vlim)/ln 10 + 1.00000000000001) + 4], at most 16.  Simplified:
    the logarithm is exact and the guard 1e-14 is ignored, so that for [vlim]
    within about 1e-13 (relative) below a power of ten the C++ may use one more
    digit.  The accuracy and shape theorems are therefore stated for every
    admissible digit count (see [nc_admissible]). *)
Definition real_digits (var minRes : Q) : Z :=
  let v := Qabs (var / minRes) in
  let vlim := if Qle_bool 10 v then v else 10%Q in
  Z.min 16 (flog10 (Qnum vlim) (Zpos (Qden vlim)) + 1 + 4).

(** [FormatPDREal], iges_io.cpp L499-618. *)
Definition FormatPDREal (var : Q) (delim : ascii) (minRes : Q) : option str :=
  if Qle_bool minRes 0 then None
  else Some (format_real (real_digits var minRes) var delim).

(** ** Line builders *)

(** [fStr]: the line being filled, [fOut]: the finished lines, [idx]: the next
    sequence number. *)
Record lst := mkLst { l_cur : str; l_out : str; l_idx : Z }.

(** Finish the current Parameter Data line: pad to 64 columns, add the number of
    the Directory Entry and the sequence number with letter P
    (iges_io.cpp L639-667, L682-710, L958-978, L996-1014, L1021-1042). *)
Definition pd_flush (de : Z) (st : lst) : bool * lst :=
  let f1 := padr 64 (l_cur st) in
  match FormatDEInt de with
  | None => (false, mkLst f1 (l_out st) (l_idx st))
  | Some s1 =>
    let f2 := f1 ++ s1 in
    match FormatDEInt (l_idx st) with
    | None => (false, mkLst f2 (l_out st) (l_idx st))
    | Some s2 =>
      (true, mkLst [] (l_out st ++ f2 ++ set0 "P" s2 ++ [nl]) (l_idx st + 1))
    end
  end.

(** [AddPDItem], iges_io.cpp L622-715.  An empty item makes L679 read
    [tStr[-1]]. *)
Definition AddPDItem (t : str) (st : lst) (de : Z) (rd : ascii) : outcome lst :=
  if (64 <? length t)%nat then Ret false st else
  if (64 <? length (l_cur st))%nat then Ret false st else
  let '(ok, st1) :=
    if (64 <? length (l_cur st) + length t)%nat then pd_flush de st else (true, st) in
  if negb ok then Ret false st1 else
  if 9999999 <? l_idx st1 then Ret false st1 else
  let st2 := mkLst (l_cur st1 ++ t) (l_out st1) (l_idx st1) in
  match last_char t with
  | None => Crash
  | Some c =>
    if Ascii.eqb c rd then let '(ok, st3) := pd_flush de st2 in Ret ok st3
    else Ret true st2
  end.

(** [GetHConst], iges_io.cpp L807-817. *)
Definition GetHConst (s : str) : str := showN (Z.of_nat (length s)) ++ ["H"%char].

(** The loop of iges_io.cpp L987-1016: fill lines of 64 columns.  Each round
    consumes at least one character, so the length of the text bounds the
    number of rounds. *)
Fixpoint pd_fill (fuel : nat) (de : Z) (hc : str) (st : lst) : bool * lst :=
  match fuel with
  | O => (true, st)
  | S fuel' =>
    match hc with
    | [] => (true, st)
    | _ =>
      let n := (64 - length (l_cur st))%nat in
      let st1 := mkLst (l_cur st ++ firstn n hc) (l_out st) (l_idx st) in
      let '(ok, st2) :=
        if (length (l_cur st1) =? 64)%nat then pd_flush de st1 else (true, st1) in
      if ok then pd_fill fuel' de (skipn n hc) st2 else (false, st2)
    end
  end.

(** [AddPDHStr], iges_io.cpp L921-1046.  [fStr.append( 64 - fStr.length(), ' ' )]
    throws when the line is longer than 64 columns. *)
Definition AddPDHStr (s : str) (st : lst) (de : Z) (pd rd delim : ascii) : outcome lst :=
  match s with
  | [] => AddPDItem [delim] st de rd
  | _ =>
    if negb (Ascii.eqb delim pd) && negb (Ascii.eqb delim rd) then Ret false st else
    let hc := GetHConst s in
    if (64 <? length (l_cur st) + length hc)%nat && (64 <? length (l_cur st))%nat
    then Crash else
    let '(ok, st1) :=
      if (64 <? length (l_cur st) + length hc)%nat then pd_flush de st else (true, st) in
    if negb ok then Ret false st1 else
    let txt := hc ++ s ++ [delim] in
    let '(ok, st2) := pd_fill (length txt) de txt st1 in
    if negb ok then Ret false st2 else
    if negb (length (l_cur st2) =? 0)%nat && Ascii.eqb delim rd then
      let '(ok, st3) := pd_flush de st2 in Ret ok st3
    else Ret true st2
  end.

(** Finish the current Global Section line: 72 columns, letter G and number
    (iges_io.cpp L751-770, L779-798, L857-868, L886-895, L902-914). *)
Definition g_flush (st : lst) : bool * lst :=
  let f1 := padr 72 (l_cur st) in
  match FormatDEInt (l_idx st) with
  | None => (false, mkLst f1 (l_out st) (l_idx st))
  | Some s =>
    (true, mkLst [] (l_out st ++ f1 ++ set0 "G" s ++ [nl]) (l_idx st + 1))
  end.

(** [AddSecItem], iges_io.cpp L719-803. *)
Definition AddSecItem (t : str) (st : lst) (pd rd : ascii) : outcome lst :=
  match last_char t with
  | None => Ret false st
  | Some tc =>
    if negb (Ascii.eqb tc pd) && negb (Ascii.eqb tc rd) then Ret false st else
    if (72 <? length t)%nat then Ret false st else
    if (72 <? length (l_cur st))%nat then Ret false st else
    let '(ok, st1) :=
      if (72 <? length (l_cur st) + length t)%nat then g_flush st else (true, st) in
    if negb ok then Ret false st1 else
    let st2 := mkLst (l_cur st1 ++ t) (l_out st1) (l_idx st1) in
    if Ascii.eqb tc rd then let '(ok, st3) := g_flush st2 in Ret ok st3
    else Ret true st2
  end.

(** The loop of iges_io.cpp L877-897. *)
Fixpoint g_fill (fuel : nat) (hc : str) (st : lst) : bool * lst :=
  match fuel with
  | O => (true, st)
  | S fuel' =>
    match hc with
    | [] => (true, st)
    | _ =>
      let n := (72 - length (l_cur st))%nat in
      let st1 := mkLst (l_cur st ++ firstn n hc) (l_out st) (l_idx st) in
      let '(ok, st2) :=
        if (length (l_cur st1) =? 72)%nat then g_flush st1 else (true, st1) in
      if ok then g_fill fuel' (skipn n hc) st2 else (false, st2)
    end
  end.

(** [AddSecHStr], iges_io.cpp L820-918. *)
Definition AddSecHStr (s : str) (st : lst) (pd rd delim : ascii) : outcome lst :=
  match s with
  | [] => AddSecItem [delim] st pd rd
  | _ =>
    if negb (Ascii.eqb delim pd) && negb (Ascii.eqb delim rd) then Ret false st else
    let hc := GetHConst s in
    if (72 <? length (l_cur st) + length hc)%nat && (72 <? length (l_cur st))%nat
    then Crash else
    let '(ok, st1) :=
      if (72 <? length (l_cur st) + length hc)%nat then g_flush st else (true, st) in
    if negb ok then Ret false st1 else
    let txt := hc ++ s ++ [delim] in
    let '(ok, st2) := g_fill (length txt) txt st1 in
    if negb ok then Ret false st2 else
    if negb (length (l_cur st2) =? 0)%nat && Ascii.eqb delim rd then
      let '(ok, st3) := g_flush st2 in Ret ok st3
    else Ret true st2
  end.
