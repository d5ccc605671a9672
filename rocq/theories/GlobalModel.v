(** Model of the Global Section: [checkDate], [writeGlobals] and [readGlobals] of
    /repo/src/iges/iges.cpp. *)

From Coq Require Import QArith Qabs.
From Verif Require Import Base Num IoModel.
Open Scope Z_scope.

(** [a < b] on reals. *)
Definition Qltb (a b : Q) : bool := negb (Qle_bool b a).

(** ** Units *)

(** [UNIT_NAMES], iges.cpp L76-89 (12 elements, the last one empty); the index
    is the enumerator minus 1.  [None] = outside of the table. *)
Definition unit_name (flag : Z) : option str :=
  nth_error (map S2 ["IN"; "MM"; "CUST"; "FT"; "MI"; "M"; "KM"; "MIL"; "UM"; "CM"; "UIN"; ""]%string)
    (if 1 <=? flag then Z.to_nat (Z.min (flag - 1) 100) else 100%nat).

(** [UNIT_TO_MM], iges.cpp L92-105. *)
Definition unit_mm (flag : Z) : option Q :=
  nth_error [254 # 10; 1 # 1; 1 # 1; 3048 # 10; 1609344 # 1; 1000 # 1; 1000000 # 1; 254 # 10000;
             1 # 1000; 10 # 1; 254 # 10000000; 0 # 1]%Q
    (if 1 <=? flag then Z.to_nat (Z.min (flag - 1) 100) else 100%nat).

(** ** Dates *)

(** Value and number of characters consumed by [strtol( s, &cp1, 10 )]; without
    a number it returns 0 and consumes nothing. *)
Definition date_num (s : str) : Z * nat :=
  match strtol s with
  | None => (0, 0%nat)
  | Some (v, r) => (wrap32 v, (length s - length r)%nat)
  end.

(** [mdays], iges.cpp L108. *)
Definition mdays (i : Z) : option Z :=
  nth_error [31; 29; 31; 30; 31; 30; 31; 31; 30; 31; 30; 31]
    (if 0 <=? i then Z.to_nat (Z.min i 100) else 100%nat).

(** [checkDate], iges.cpp L111-234.  [None] = access outside of [mdays] at L193,
    which happens for a month outside of 1..12 unless the day is below 1.  The
    last test (L230) looks at the minutes again instead of the seconds. *)
Definition checkDate (d : str) : option bool :=
  if negb ((length d =? 13)%nat || (length d =? 15)%nat) then Some false else
  let '(dyear, i) :=
    if (length d =? 13)%nat then (S2 "19" ++ substr d 0 2, 2%nat) else (substr d 0 4, 4%nat) in
  let '(_, ny) := date_num dyear in
  let '(mon, nm) := date_num (substr d i 2) in
  let '(day, nd) := date_num (substr d (i + 2) 2) in
  let dot := Ascii.eqb (at_ d (i + 4)) "." in
  let '(hour, nh) := date_num (substr d (i + 5) 2) in
  let '(mins, nmi) := date_num (substr d (i + 7) 2) in
  let '(sec, ns) := date_num (substr d (i + 9) 2) in
  let rest (dayok : bool) :=
    dot && (ny =? 4)%nat && (nm =? 2)%nat && (1 <=? mon) && (mon <=? 12) &&
    (nd =? 2)%nat && dayok && (nh =? 2)%nat && (0 <=? hour) && (hour <=? 23) &&
    (nmi =? 2)%nat && (0 <=? mins) && (mins <=? 59) &&
    (ns =? 2)%nat && (0 <=? sec) && (mins <=? 60) in
  if day <? 1 then Some (rest false) else
  match mdays (mon - 1) with
  | None => None
  | Some m => Some (rest (day <=? m))
  end.

(** ** The Global Section as data *)

(** [globalData], iges.h; [cf] and [convert] are the pending conversion. *)
Record globals := mkG {
  pdelim : ascii; rdelim : ascii;
  productIDSS : str; fileName : str; nativeSystemID : str; preprocessorVersion : str;
  nIntegerBits : Z; floatMaxExp : Z; floatMaxSig : Z; doubleMaxExp : Z; doubleMaxSig : Z;
  productIDRS : str; modelScale : Q; unitsFlag : Z; unitsName : str;
  maxLinewidthGrad : Z; maxLinewidth : Q; creationDate : str; minResolution : Q;
  maxCoordinateValue : Q; author : str; organization : str; igesVersion : Z;
  draftStandard : Z; modificationDate : str; applicationNote : str;
  cf : Q; convert : bool }.

(** [IGES::init], iges.cpp L355-400. *)
Definition init_globals : globals :=
  mkG "," ";" [] [] [] [] 0 0 0 0 0 [] 1 2 [] 1 0 [] (1 # 100000000) 0 [] [] 3 0 [] [] 1 false.

(** ** Writing *)

(** A step of [writeGlobals]; every result is checked. *)
Inductive gact :=
| GItem (t : str)
| GReal (q : Q) (d : ascii)
| GText (s : str) (d : ascii).

Definition GInt (n : Z) (d : ascii) : gact := GItem (showZ n ++ [d]).

Fixpoint emit_g (uir : Q) (pd rd : ascii) (acts : list gact) (st : lst) : outcome lst :=
  match acts with
  | [] => Ret true st
  | GItem t :: r =>
    match AddSecItem t st pd rd with
    | Ret true st' => emit_g uir pd rd r st'
    | o => o
    end
  | GReal q d :: r =>
    match FormatPDREal q d uir with
    | None => Ret false st
    | Some t =>
      match AddSecItem t st pd rd with
      | Ret true st' => emit_g uir pd rd r st'
      | o => o
      end
    end
  | GText s d :: r =>
    match AddSecHStr s st pd rd d with
    | Ret true st' => emit_g uir pd rd r st'
    | o => o
    end
  end.

Definition or_none (s : str) : str := match s with [] => S2 "none" | _ => s end.

(** Items 1 and 2, iges.cpp L2021-2031: the first characters of the first line. *)
Definition glob_head (pd rd : ascii) : str :=
  (if Ascii.eqb pd "," then S2 "," else S2 "1H" ++ [pd; pd]) ++
  (if Ascii.eqb rd ";" then [pd] else S2 "1H" ++ [rd; pd]).

(** The resolution in use from L2017 on. *)
Definition eff_res (g : globals) : Q :=
  if Qltb (minResolution g) (1 # 1000000000000) then 1 # 1000 else minResolution g.

(** Item 16, L2227, and the value written as item 17, L2242-2247: this is
    [maxLinewidthGrad] again, not [maxLinewidth]. *)
Definition grad16 (g : globals) : Z := if maxLinewidthGrad g <? 1 then 1 else maxLinewidthGrad g.
Definition grad17 (g : globals) : Z :=
  if Qltb (maxLinewidth g) (1 # 1000000) then 1 else grad16 g.

(** The steps of [writeGlobals] from item 3 on, iges.cpp L2033-2366.  [ver] is
    the text written as item 6 (fixed when the library is built), [date18] the
    creation date written, [now] the current time as text (L2337-2348). *)
Definition glob_acts (g : globals) (uname ver date18 now : str) : list gact :=
  let pd := pdelim g in let rd := rdelim g in
  [ GText (or_none (productIDSS g)) pd; GText (fileName g) pd; GText (or_none (nativeSystemID g)) pd;
    GText ver pd; GInt 32 pd; GInt 38 pd; GInt 6 pd; GInt 308 pd; GInt 15 pd;
    GText (productIDRS g) pd; GReal (modelScale g) pd; GInt (unitsFlag g) pd; GText uname pd;
    GInt (grad16 g) pd; GReal (inject_Z (grad17 g)) pd; GText date18 pd;
    GReal (eff_res g) pd; GItem (S2 "0.0" ++ [pd]);
    GText (author g) pd; GText (organization g) pd; GItem (S2 "11" ++ [pd]);
    GInt (draftStandard g) pd ] ++
  match applicationNote g with
  | [] => GText now rd :: (if Ascii.eqb rd pd then [GText [] rd] else [])
  | note => [GText now pd; GText note rd]
  end.

(** [writeGlobals], iges.cpp L2005-2378: the bytes written and
    [nGlobSecLines]; the state of the output stream is not modelled. *)
Definition writeGlobals (g : globals) (ver now : str) : pres (str * Z) :=
  match fileName g with
  | [] => PFail
  | _ =>
    match unit_name (unitsFlag g), checkDate (creationDate g) with
    | Some uname, Some ok =>
      let date18 := if ok : bool then creationDate g else now in
      match emit_g (eff_res g) (pdelim g) (rdelim g) (glob_acts g uname ver date18 now)
              (mkLst (glob_head (pdelim g) (rdelim g)) [] 1) with
      | Crash => PCrash
      | Ret false _ => PFail
      | Ret true st => POk (l_out st, l_idx st - 1)
      end
    | _, _ => PCrash
    end
  end.

(** [globalData] after [writeGlobals] (L2017, L2227, L2242). *)
Definition after_write (g : globals) : globals :=
  mkG (pdelim g) (rdelim g) (productIDSS g) (fileName g) (nativeSystemID g) (preprocessorVersion g)
    (nIntegerBits g) (floatMaxExp g) (floatMaxSig g) (doubleMaxExp g) (doubleMaxSig g) (productIDRS g)
    (modelScale g) (unitsFlag g) (unitsName g) (grad17 g) (maxLinewidth g) (creationDate g) (eff_res g)
    (maxCoordinateValue g) (author g) (organization g) (igesVersion g) (draftStandard g)
    (modificationDate g) (applicationNote g) (cf g) (convert g).

(** ** Reading *)

(** The loop of [readGlobals], iges.cpp L1035-1055: collects the data columns
    while records of the Global Section follow.  [n] is the number of the last
    line seen.  A record takes more than one byte of the stream, so its length
    is enough fuel; [PCrash] marks missing fuel. *)
Fixpoint glob_lines (fuel : nat) (rec : irec) (n : Z) (f : stream) : pres (str * Z * irec * stream) :=
  if Ascii.eqb (r_sec rec) "G" then
    match fuel with
    | O => PCrash
    | S fuel' =>
      if negb (r_idx rec =? n + 1) then PFail else
      do (rec', f') <- ReadIGESRecord f;
      do (s, n', r2, f2) <- glob_lines fuel' rec' (n + 1) f';
      POk (r_data rec ++ s, n', r2, f2)
    end
  else POk ([], n, rec, f).

(** The test on a delimiter, iges.cpp L1073-1077 and L1104-1108. *)
Definition bad_delim (c : ascii) : bool :=
  (code c <=? 32) || (127 <=? code c) || Ascii.eqb c ";" || Ascii.eqb c "+" || Ascii.eqb c "-" ||
  Ascii.eqb c "." || Ascii.eqb c "D" || Ascii.eqb c "E" || Ascii.eqb c "H" ||
  ((48 <=? code c) && (code c <=? 57)).

(** Items 1 and 2, iges.cpp L1058-1127: the delimiters in use and the position
    behind them.  [pd0], [rd0] are the delimiters set before.  The second
    [compare] looks at the start of the section again (L1096), and the second
    test at the parameter delimiter (L1104). *)
Definition read_delims (globs : str) (pd0 rd0 : ascii) : pres (ascii * ascii * nat) :=
  do (delim, idx) <-
    (if negb (Ascii.eqb (at_ globs 0) ",") then
       if negb (str_eqb (firstn 2 globs) (S2 "1H")) then PFail else
       if bad_delim (at_ globs 2) then PFail else POk (at_ globs 2, 3%nat)
     else POk (pd0, 0%nat));
  if negb (Ascii.eqb (at_ globs idx) delim) then PFail else
  let idx1 := S idx in
  do (rdelim, idx2) <-
    (if negb (Ascii.eqb (at_ globs idx1) delim) then
       if negb (str_eqb (firstn 2 globs) (S2 "1H")) then PFail else
       if bad_delim delim then PFail else POk (at_ globs (idx1 + 2), (idx1 + 3)%nat)
     else POk (rd0, idx1));
  if negb (Ascii.eqb (at_ globs idx2) delim) then PFail else
  POk (delim, rdelim, S idx2).

Definition nonempty {A} (l : list A) : bool := match l with [] => false | _ => true end.

(** The unit names at G15, L1312-1329. *)
Definition read_unit_name (flag : Z) (name : str) : pres str :=
  match name with
  | [] => if flag =? 3 then PFail else POk []
  | _ => if flag =? 3 then POk name else
         match unit_name flag with Some n => POk n | None => PCrash end
  end.

Definition date_ok (d : str) : pres unit :=
  match checkDate d with
  | None => PCrash
  | Some true => POk tt
  | Some false => PFail
  end.

(** Items 3 to 12, iges.cpp L1131-1281. *)
Record items_a := mkA {
  a_ss : str; a_fn : str; a_ns : str; a_pv : str; a_ib : Z; a_fe : Z; a_fs : Z; a_de : Z; a_ds : Z; a_rs : str }.

Definition int_in (lo hi : Z) (globs : str) (idx : nat) (eor : bool) (pd rd : ascii) : pres (Z * nat * bool) :=
  do (v, idx', eor') <- ParseInt globs idx eor pd rd None;
  guard ((lo <=? v) && (v <=? hi)) (POk (v, idx', eor')).

Definition text_req (globs : str) (idx : nat) (eor : bool) (pd rd : ascii) : pres (str * nat * bool) :=
  do (s, idx', eor') <- ParseHString globs idx eor pd rd;
  guard (nonempty s) (POk (s, idx', eor')).

Definition read_a (globs : str) (idx0 : nat) (pd rd : ascii) : pres (items_a * nat * bool) :=
  do (ss, i3, e3) <- text_req globs idx0 false pd rd;
  do (fn, i4, e4) <- text_req globs i3 e3 pd rd;
  do (ns, i5, e5) <- text_req globs i4 e4 pd rd;
  do (pv, i6, e6) <- ParseHString globs i5 e5 pd rd;
  do (ib, i7, e7) <- int_in 8 32 globs i6 e6 pd rd;
  do (fe, i8, e8) <- int_in 4 308 globs i7 e7 pd rd;
  do (fs, i9, e9) <- int_in 3 16 globs i8 e8 pd rd;
  do (dx, i10, e10) <- int_in 4 308 globs i9 e9 pd rd;
  do (ds, i11, e11) <- int_in 3 16 globs i10 e10 pd rd;
  do (rs, i12, e12) <- ParseHString globs i11 e11 pd rd;
  POk (mkA ss fn ns pv ib fe fs dx ds rs, i12, e12).

(** Items 13 to 19, iges.cpp L1283-1395. *)
Record items_b := mkB {
  b_ms : Q; b_uf : Z; b_un : str; b_lg : Z; b_lw : Q; b_cd : str; b_mr : Q }.

Definition read_b (globs : str) (idx0 : nat) (eor0 : bool) (pd rd : ascii) : pres (items_b * nat * bool) :=
  do (ms, i13, e13) <- ParseReal globs idx0 eor0 pd rd (Some (1 # 1));
  do (uf, i14, e14) <- ParseInt globs i13 e13 pd rd (Some 1);
  guard ((1 <=? uf) && (uf <=? 11)) (
  do (un0, i15, e15) <- ParseHString globs i14 e14 pd rd;
  do un <- read_unit_name uf un0;
  do (lg, i16, e16) <- ParseInt globs i15 e15 pd rd (Some 1);
  guard (1 <=? lg) (
  do (lw, i17, e17) <- ParseReal globs i16 e16 pd rd None;
  guard (Qle_bool 0 lw) (
  do (cd, i18, e18) <- text_req globs i17 e17 pd rd;
  do _ <- date_ok cd;
  do (mr, i19, e19) <- ParseReal globs i18 e18 pd rd None;
  guard (negb (Qle_bool mr 0)) (
  POk (mkB ms uf un lg lw cd mr, i19, e19))))).

(** Items 20 to 26, iges.cpp L1397-1520.  Once the record has ended the
    remaining items take their defaults; the last component tells whether item
    26 was read (L1498-1502 returns early otherwise). *)
Record items_c := mkC {
  c_mc : Q; c_au : str; c_og : str; c_iv : Z; c_dr : Z; c_md : str; c_an : str; c_full : bool }.

Definition unless_eor {A} (eor : bool) (dflt : A) (idx : nat) (p : pres (A * nat * bool)) : pres (A * nat * bool) :=
  if eor then POk (dflt, idx, eor) else p.

Definition real_nonneg (globs : str) (idx : nat) (eor : bool) (pd rd : ascii) : pres (Q * nat * bool) :=
  do (v, idx', eor') <- ParseReal globs idx eor pd rd (Some (0 # 1));
  guard (Qle_bool 0 v) (POk (v, idx', eor')).

Definition version (globs : str) (idx : nat) (eor : bool) (pd rd : ascii) : pres (Z * nat * bool) :=
  do (v, idx', eor') <- ParseInt globs idx eor pd rd (Some 11);
  POk (if v <? 3 then 3 else if 11 <? v then 11 else v, idx', eor').

Definition date_req (globs : str) (idx : nat) (eor : bool) (pd rd : ascii) : pres (str * nat * bool) :=
  do (s, idx', eor') <- ParseHString globs idx eor pd rd;
  do _ <- date_ok s;
  POk (s, idx', eor').

Definition read_c (globs : str) (idx0 : nat) (eor0 : bool) (pd rd : ascii) : pres items_c :=
  do (mc, i20, e20) <- unless_eor eor0 (0 # 1) idx0 (real_nonneg globs idx0 eor0 pd rd);
  do (au, i21, e21) <- unless_eor e20 [] i20 (ParseHString globs i20 e20 pd rd);
  do (og, i22, e22) <- unless_eor e21 [] i21 (ParseHString globs i21 e21 pd rd);
  do (iv, i23, e23) <- unless_eor e22 3 i22 (version globs i22 e22 pd rd);
  do (dr, i24, e24) <- unless_eor e23 0 i23 (ParseInt globs i23 e23 pd rd (Some 0));
  do (md, i25, e25) <- unless_eor e24 [] i24 (date_req globs i24 e24 pd rd);
  if e25 : bool then POk (mkC mc au og iv dr md [] false) else
  do (an, i26, e26) <- ParseHString globs i25 e25 pd rd;
  guard e26 (POk (mkC mc au og iv dr md an true)).

(** All items behind the delimiters. *)
Definition read_items (globs : str) (idx0 : nat) (pd rd : ascii) (g0 : globals) : pres (globals * bool) :=
  do (a, i12, e12) <- read_a globs idx0 pd rd;
  do (b, i19, e19) <- read_b globs i12 e12 pd rd;
  do c <- read_c globs i19 e19 pd rd;
  POk (mkG pd rd (a_ss a) (a_fn a) (a_ns a) (a_pv a) (a_ib a) (a_fe a) (a_fs a) (a_de a) (a_ds a) (a_rs a)
         (b_ms b) (b_uf b) (b_un b) (b_lg b) (b_lw b) (b_cd b) (b_mr b)
         (c_mc c) (c_au c) (c_og c) (c_iv c) (c_dr c) (c_md c) (c_an c) (cf g0) (convert g0), c_full c).

(** The conversion to millimetres, iges.cpp L1522-1541.  A scale of zero, for
    which the code computes an infinity, is not represented. *)
Definition normalise (g : globals) : pres globals :=
  let g1 :=
    if Qltb (modelScale g) (9999998 # 10000000) || Qltb (1000001 # 1000000) (modelScale g) then
      mkG (pdelim g) (rdelim g) (productIDSS g) (fileName g) (nativeSystemID g) (preprocessorVersion g)
        (nIntegerBits g) (floatMaxExp g) (floatMaxSig g) (doubleMaxExp g) (doubleMaxSig g) (productIDRS g)
        1 (unitsFlag g) (unitsName g) (maxLinewidthGrad g) (maxLinewidth g) (creationDate g)
        (minResolution g / modelScale g)
        (maxCoordinateValue g) (author g) (organization g) (igesVersion g) (draftStandard g)
        (modificationDate g) (applicationNote g) (1 / modelScale g) true
    else g in
  if unitsFlag g1 =? 2 then POk g1 else
  match unit_mm (unitsFlag g1) with
  | None => PCrash
  | Some u =>
    POk (mkG (pdelim g1) (rdelim g1) (productIDSS g1) (fileName g1) (nativeSystemID g1) (preprocessorVersion g1)
        (nIntegerBits g1) (floatMaxExp g1) (floatMaxSig g1) (doubleMaxExp g1) (doubleMaxSig g1) (productIDRS g1)
        (modelScale g1) 2 (unitsName g1) (maxLinewidthGrad g1) (maxLinewidth g1) (creationDate g1)
        (minResolution g1 * u)
        (maxCoordinateValue g1) (author g1) (organization g1) (igesVersion g1) (draftStandard g1)
        (modificationDate g1) (applicationNote g1) (cf g1 * u) true)
  end.

(** [readGlobals], iges.cpp L1029-1544; [rec] is the first Global record, [n]
    the member [nGlobSecLines] on entry.  Results: settings, number of lines,
    the record behind the section, and the stream. *)
Definition readGlobals (rec : irec) (n : Z) (g0 : globals) (f : stream) : pres (globals * Z * irec * stream) :=
  do (globs, n', rec', f') <- glob_lines (S (length (s_rest f))) rec n f;
  do (pd, rd, idx) <- read_delims globs (pdelim g0) (rdelim g0);
  do (g, full) <- read_items globs idx pd rd g0;
  do g' <- (if full : bool then normalise g else POk g);
  POk (g', n', rec', f').
