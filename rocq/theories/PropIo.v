(** The claims about the I/O layer (C01 - C10), each with a concrete case. *)

From Coq Require Import QArith Qabs Lia.
From Verif Require Import Base Num Spec IoModel RealFacts RecordFacts ParamFacts PutModel BuildFacts PdModel PdFacts
  FieldFacts GlobalModel IoProps.
Open Scope Z_scope.

(** *** C01: Directory integers survive a write and read back. *)

Theorem c01_de_int_round_trip : forall n s, FormatDEInt n = Some s ->
  -9999999 <= n <= 99999999 /\ column 8 n s /\
  forall pre post field dflt, 0 <= field <= 9 -> length pre = Z.to_nat (8 * field) ->
    DEItemToInt (pre ++ s ++ post) field dflt = POk n.
Proof. exact de_int_back. Qed.
Print Assumptions c01_de_int_round_trip.

Theorem c01_de_int_refused : forall n, FormatDEInt n = None <-> n < -9999999 \/ 99999999 < n.
Proof. exact FormatDEInt_none. Qed.
Print Assumptions c01_de_int_refused.

Example c01_case : FormatDEInt (-9999999) = Some (S2 "-9999999") /\ FormatDEInt 42 = Some (S2 "      42") /\
  FormatDEInt 100000000 = None.
Proof. vm_compute. auto. Qed.

(** *** C02: the Directory field reader never invents a number. *)

Theorem c02_de_field_exact : forall pre s post field dflt v,
  0 <= field <= 9 -> length pre = Z.to_nat (8 * field) -> length s = 8%nat ->
  DEItemToInt (pre ++ s ++ post) field dflt = POk v <->
  (blanks s /\ dflt = Some v) \/
  (exists w t r, s = w ++ t ++ r /\ Forall isspc w /\ signed_numeral t v /\
     match r with [] => True | c :: _ => c = nul end).
Proof. exact DEItemToInt_iff. Qed.
Print Assumptions c02_de_field_exact.

Theorem c02_de_field_absent : forall input field dflt,
  field < 0 \/ 9 < field \/ Z.of_nat (length input) < 8 * (field + 1) -> DEItemToInt input field dflt = PFail.
Proof. exact DEItemToInt_short. Qed.
Print Assumptions c02_de_field_absent.

Theorem c02_de_field_total : forall input field dflt, DEItemToInt input field dflt <> PCrash.
Proof. exact DEItemToInt_nocrash. Qed.
Print Assumptions c02_de_field_total.

Example c02_case : DEItemToInt (S2 "     116    12x4       0") 0 None = POk 116 /\
  DEItemToInt (S2 "     116    12x4       0") 1 None = PFail /\ DEItemToInt (S2 "        ") 0 (Some 7) = POk 7 /\
  DEItemToInt (S2 "        ") 0 None = PFail.
Proof. vm_compute. auto. Qed.

(** *** C03: text in the Global Section survives. *)

Theorem c03_global_text_round_trip : forall s st pd rd delim st', delims pd rd -> (delim = pd \/ delim = rd) ->
  1 <= l_idx st -> l_idx st' <= 10000000 -> (length (l_cur st) <= 72)%nat -> Z.of_nat (length s) <= int_max ->
  AddSecHStr s st pd rd delim = Ret true st' ->
  exists ds out x tl, numbered (sec_line "G") (l_idx st) ds out /\ l_out st' = l_out st ++ out /\
    l_idx st' = l_idx st + Z.of_nat (length ds) /\ concat ds ++ l_cur st' = l_cur st ++ x ++ tl /\ blanks tl /\
    (delim = pd -> tl = []) /\
    forall pre post eor, Z.of_nat (length (pre ++ x)) <= int_max ->
      ParseHString (pre ++ x ++ post) (length pre) eor pd rd =
        POk (s, (length pre + length x)%nat, if Ascii.eqb delim rd then true else eor).
Proof. exact g_text_back. Qed.
Print Assumptions c03_global_text_round_trip.

Theorem c03_global_list_round_trip : forall uir pd rd ps rest nxt f2,
  delims pd rd -> (0 < uir)%Q -> ps <> [] -> Forall param_ok ps -> Forall no_nl ps -> costs ps <= 9999998 ->
  ReadIGESRecord (mkStream rest false) = POk (nxt, f2) -> r_sec nxt <> "G"%char ->
  exists st' rec f1 data ps' idx,
    g_write uir ps (start 1) pd rd = Ret true st' /\
    ReadIGESRecord (mkStream (l_out st' ++ rest) false) = POk (rec, f1) /\
    glob_lines (S (length (s_rest f1))) rec 0 f1 = POk (data, l_idx st' - 1, nxt, f2) /\
    parse_params ps data 0 false pd rd = POk (ps', idx, true) /\
    Forall2 (param_close uir) ps ps' /\ blanks (skipn idx data).
Proof. exact g_list_back. Qed.
Print Assumptions c03_global_list_round_trip.

(** A text of 100 characters, delimiters among them, begun in column 70. *)
Definition long_text : str := S2 ",;" ++ repeat "x"%char 97 ++ S2 ";".
Definition wr_state (o : outcome lst) : lst := match o with Ret _ st => st | Crash => start 0 end.
Example c03_case : exists st', AddSecHStr long_text (mkLst (repeat "a"%char 69) [] 3) "," ";" "," = Ret true st' /\
  l_idx st' = 5 /\ length (l_out st') = 162%nat /\
  ParseHString (skipn 81 (l_out st')) 0 false "," ";" = PFail /\
  ParseHString (GetHConst long_text ++ long_text ++ S2 ",rest") 0 false "," ";" = POk (long_text, 105%nat, false).
Proof. eexists. split; [vm_compute; reflexivity|]. vm_compute. auto. Qed.

(** *** C04: text in the Parameter Data Section survives. *)

Theorem c04_pd_text_round_trip : forall s st de pd rd delim st', 1 <= de <= 9999999 -> delims pd rd -> (delim = pd \/ delim = rd) ->
  1 <= l_idx st -> l_idx st' <= 10000000 -> (length (l_cur st) <= 64)%nat -> Z.of_nat (length s) <= int_max ->
  AddPDHStr s st de pd rd delim = Ret true st' ->
  exists ds out x tl, numbered (pd_line de) (l_idx st) ds out /\ l_out st' = l_out st ++ out /\
    l_idx st' = l_idx st + Z.of_nat (length ds) /\ concat ds ++ l_cur st' = l_cur st ++ x ++ tl /\ blanks tl /\
    (delim = pd -> tl = []) /\
    forall pre post eor, Z.of_nat (length (pre ++ x)) <= int_max ->
      ParseHString (pre ++ x ++ post) (length pre) eor pd rd =
        POk (s, (length pre + length x)%nat, if Ascii.eqb delim rd then true else eor).
Proof. exact pd_text_back. Qed.
Print Assumptions c04_pd_text_round_trip.

Example c04_case : exists st', AddPDHStr long_text (mkLst (S2 "308,0,") [] 1) 7 "," ";" ";" = Ret true st' /\ l_idx st' = 3 /\
  l_cur st' = [] /\ firstn 16 (l_out st') = S2 "308,0,100H,;xxxx".
Proof. eexists. split; [vm_compute; reflexivity|]. vm_compute. auto. Qed.

(** *** C05: Parameter Data lines are well formed. *)

Theorem c05_pd_lines : forall uir ps de pd rd k st',
  delims pd rd -> 1 <= de <= 9999999 -> 1 <= k -> ps <> [] -> Forall param_len ps ->
  l_idx st' <= 10000000 -> pd_write uir ps (start k) de pd rd = Ret true st' ->
  exists ps' ds body tl, numbered (pd_line de) k ds (l_out st') /\ l_idx st' = k + Z.of_nat (length ds) /\
    l_cur st' = [] /\ concat ds = body ++ tl /\ Forall2 (wrote uir) ps ps' /\ spaced pd rd ps' body /\ blanks tl.
Proof. exact pd_write_record. Qed.
Print Assumptions c05_pd_lines.

Definition some_params : list param := [PInt 110; PReal (5 # 2); PStr long_text; PReal (-1 # 3); PStr []; PInt (-17)].
Example c05_case : exists st', pd_write (1 # 1000) some_params (start 8) 15 "," ";" = Ret true st' /\ l_idx st' = 11 /\
  length (l_out st') = 243%nat /\ firstn 81 (l_out st') = S2 "110,2.5,100H,;" ++ repeat "x"%char 50 ++ S2 "      15P      8" ++ [nl].
Proof. eexists. split; [vm_compute; reflexivity|]. vm_compute. auto. Qed.

(** The bound on the sequence numbers is needed: a text begun in the last line
    that can be numbered is continued, and the eighth digit is lost. *)
Theorem c05_number_overflow_refuted : exists s st st', 1 <= l_idx st <= 9999999 /\
  AddPDHStr s st 1 "," ";" ";" = Ret true st' /\ l_idx st' = 10000001 /\
  ~ exists ds, numbered (pd_line 1) (l_idx st) ds (l_out st').
Proof. exact pd_number_overflow. Qed.
Print Assumptions c05_number_overflow_refuted.

(** *** C06: Global Section lines are well formed. *)

Theorem c06_global_lines : forall uir ps pd rd k st',
  delims pd rd -> 1 <= k -> ps <> [] -> Forall param_len ps ->
  l_idx st' <= 10000000 -> g_write uir ps (start k) pd rd = Ret true st' ->
  exists ps' ds body tl, numbered (sec_line "G") k ds (l_out st') /\ l_idx st' = k + Z.of_nat (length ds) /\
    l_cur st' = [] /\ concat ds = body ++ tl /\ Forall2 (wrote uir) ps ps' /\ spaced pd rd ps' body /\ blanks tl.
Proof. exact g_write_record. Qed.
Print Assumptions c06_global_lines.

Example c06_case : exists st', g_write (1 # 1000) some_params (start 1) "," ";" = Ret true st' /\ l_idx st' = 3 /\
  length (l_out st') = 162%nat /\ firstn 81 (l_out st') = S2 "110,2.5,100H,;" ++ repeat "x"%char 58 ++ S2 "G      1" ++ [nl].
Proof. eexists. split; [vm_compute; reflexivity|]. vm_compute. auto. Qed.

(** *** C07: parameter lists of any length survive. *)

Theorem c07_list_round_trip : forall uir etype de k pd rd ps rest,
  delims pd rd -> (0 < uir)%Q -> 1 <= etype <= 9999999 -> 1 <= de <= 9999999 -> 1 <= k ->
  ps <> [] -> Forall param_ok ps -> Forall no_nl ps -> k + costs ps <= 9999999 ->
  exists st' data ps' idx,
    pd_write uir ps (mkLst (showZ etype ++ [pd]) [] k) de pd rd = Ret true st' /\
    readPD_base etype de k (l_idx st' - k) pd rd (mkStream (l_out st' ++ rest) false) = POk (data, mkStream rest false) /\
    parse_params ps data (length (showZ etype) + 1) false pd rd = POk (ps', idx, true) /\
    Forall2 (param_close uir) ps ps' /\ blanks (skipn idx data) /\ (length (skipn idx data) < 64)%nat.
Proof. exact pd_list_back. Qed.
Print Assumptions c07_list_round_trip.

Definition more_params : list param := [PInt 3; PStr long_text; PInt (-17); PStr []; PInt 2147483647].
Example c07_case :
  let st := wr_state (pd_write (1 # 1000) more_params (mkLst (S2 "308,") [] 8) 15 "," ";") in
  match readPD_base 308 15 8 (l_idx st - 8) "," ";" (mkStream (l_out st ++ S2 "rest") false) with
  | POk (data, f) => s_rest f = S2 "rest" /\ parse_params more_params data 4 false "," ";" = POk (more_params, 127%nat, true)
  | _ => False
  end.
Proof. vm_compute. auto. Qed.

(** *** C08: reals are written as legal IGES reals. *)

Theorem c08_real_text : forall v r delim, (0 < r)%Q ->
  exists t q, FormatPDREal v delim r = Some (t ++ [delim]) /\ real_numeral t q.
Proof. exact real_text. Qed.
Print Assumptions c08_real_text.

Theorem c08_real_no_delimiter : forall t q c, real_numeral t q -> delim_char c -> ~ In c t.
Proof. exact (fun t q c R D => real_no_delim c t q D R). Qed.
Print Assumptions c08_real_no_delimiter.

Example c08_case : FormatPDREal (2469 # 200) "," (1 # 1000) = Some (S2 "12.345,") /\
  FormatPDREal (-1234567890) ";" (1 # 1000) = Some (S2 "-1.23456789E+09;") /\
  FormatPDREal 5 "," (1 # 1000) = Some (S2 "5.0,").
Proof. vm_compute. auto. Qed.

(** *** C09: reals survive to within the resolution. *)

Theorem c09_real_round_trip : forall v r pd rd delim pre post eor dflt,
  delims pd rd -> (delim = pd \/ delim = rd) -> (0 < r)%Q -> (Qabs v <= (10 # 1) ^ 300)%Q ->
  exists t q, FormatPDREal v delim r = Some t /\ real_close r v q /\
    ParseReal (pre ++ t ++ post) (length pre) eor pd rd dflt =
      POk (q, (length pre + length t)%nat, if Ascii.eqb delim rd then true else eor).
Proof. exact real_back. Qed.
Print Assumptions c09_real_round_trip.

(** The same for every number of digits which the C++ could have chosen. *)
Theorem c09_real_any_digits : forall nc v r delim, nc_admissible nc v r -> (0 < r)%Q ->
  exists t q, format_real nc v delim = t ++ [delim] /\ real_numeral t q /\ real_close r v q.
Proof. exact real_any_digits. Qed.
Print Assumptions c09_real_any_digits.

Theorem c09_real_refused : forall v r delim, FormatPDREal v delim r = None <-> (r <= 0)%Q.
Proof. exact real_refused. Qed.
Print Assumptions c09_real_refused.

Example c09_case : FormatPDREal (2 # 3) "," (1 # 1000) = Some (S2 "0.6666667,") /\
  ParseReal (S2 "x,0.6666667,") 2 false "," ";" None = POk ((6666667 # 10000000)%Q, 12%nat, false) /\
  FormatPDREal (1 # 1000000000) "," (1 # 1000) = Some (S2 "0.0,").
Proof. vm_compute. auto. Qed.

(** *** C10: the record reader accepts exactly the IGES line format. *)

Theorem c10_record_exact : forall s r f', ReadIGESRecord (mkStream s false) = POk (r, f') <->
  exists line, record_line line (r_data r) (r_sec r) (r_idx r) /\ ~ In nl line /\
    ((s = line ++ nl :: s_rest f' /\ s_eof f' = false) \/ (s = line /\ f' = mkStream [] true)).
Proof. exact read_record_iff. Qed.
Print Assumptions c10_record_exact.

Theorem c10_crlf : forall f,
  ReadIGESRecord (crlf_stream f) =
    match ReadIGESRecord f with
    | POk (r, f') => POk (r, crlf_stream f')
    | PFail => PFail
    | PCrash => PCrash
    end.
Proof. exact ReadIGESRecord_crlf. Qed.
Print Assumptions c10_crlf.

Example c10_case : ReadIGESRecord (mkStream (repeat "q"%char 72 ++ S2 "S     12" ++ [cr; nl] ++ S2 "next") false) =
    POk (mkRec (repeat "q"%char 72) "S" 12, mkStream (S2 "next") false) /\
  ReadIGESRecord (mkStream (repeat "q"%char 71 ++ S2 "S     12" ++ [nl]) false) = PFail.
Proof. vm_compute. auto. Qed.
