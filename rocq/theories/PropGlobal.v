(** The claims about the Global Section (C12 - C16, C36), each with a concrete
    case. *)

From Coq Require Import QArith Qabs Lia.
From Verif Require Import Base Num Spec IoModel BuildFacts PdFacts GlobalModel DateFacts GlobSpec GlobBack GlobRead.
Open Scope Z_scope.

(** A model in inches with most texts set, and the first line of a Directory
    Section to stand behind the Global Section. *)
Definition sample (pd rd : ascii) (res : Q) (note : str) : globals :=
  mkG pd rd (S2 "part") (S2 "a;b,c.igs") [] [] 0 0 0 0 0 (S2 "rcv") (1 # 2) 1 [] 4 (3 # 10) (S2 "20150704.123456") res
    0 (S2 "me") [] 3 5 [] note 1 false.
Definition sample_ver : str := S2 "libIGES".
Definition sample_now : str := S2 "20260101.000000".
Definition d_line : str := repeat sp 72 ++ S2 "D      1" ++ [nl].
Definition behind : str := d_line.
Definition text_of (o : pres (str * Z)) : str := match o with POk (out, _) => out | _ => [] end.
Definition sample_read (pd rd : ascii) (res : Q) (note : str) : pres (globals * Z * irec * stream) :=
  read_section (mkStream (text_of (writeGlobals (sample pd rd res note) sample_ver sample_now) ++ behind) false).

Example default_delims : delims "," ";".
Proof.
  repeat split; try discriminate; try (unfold code; cbn; lia); intros X; unfold isdig, code in X; cbn in X; lia.
Qed.

Example sample_settings_ok : settings_ok (sample "," ";" (1 # 1000) (S2 "note")) sample_ver sample_now /\
  ReadIGESRecord (mkStream behind false) = POk (mkRec (repeat sp 72) "D" 1, mkStream [] false).
Proof.
  split; [|vm_compute; reflexivity]. unfold settings_ok. cbn [sample pdelim rdelim fileName unitsFlag modelScale minResolution
    maxLinewidthGrad draftStandard creationDate productIDSS nativeSystemID productIDRS author organization applicationNote].
  split; [exact default_delims|]. split; [discriminate|]. split; [lia|]. split; [vm_compute; split; discriminate|].
  split; [vm_compute; discriminate|]. split; [unfold is_int; lia|]. split; [unfold is_int; lia|].
  split; [intros H; apply checkDate_crash in H; vm_compute in H; discriminate|]. split.
  { exists (S2 "2026"), (S2 "01"), (S2 "01"), (S2 "00"), (S2 "00"), (S2 "00"), 2026, 1, 1, 0, 0, 0.
    repeat split; auto; try discriminate; repeat constructor; vm_compute; intuition discriminate. }
  split; [|vm_compute; discriminate].
  repeat constructor; unfold one_line; intros X; vm_compute in X; decompose [or] X; try discriminate; assumption.
Qed.

(** *** C12: global parameters survive a write and read back. *)

Theorem c12_globals_round_trip : forall g ver now rest nxt f2, settings_ok g ver now -> delims_readable g ->
  ((minResolution g < 1 # 1000000000000)%Q \/ (1 # 100000000 <= minResolution g)%Q) ->
  ReadIGESRecord (mkStream rest false) = POk (nxt, f2) -> r_sec nxt <> "G"%char ->
  exists out n g', writeGlobals g ver now = POk (out, n) /\
    read_section (mkStream (out ++ rest) false) = POk (g', n, nxt, f2) /\ reads_back g ver now g'.
Proof. exact globals_written_back. Qed.
Print Assumptions c12_globals_round_trip.

Example c12_case : match sample_read "," ";" (1 # 1000) (S2 "note") with
  | POk (g, n, nxt, f) => fileName g = S2 "a;b,c.igs" /\ productIDSS g = S2 "part" /\ nativeSystemID g = S2 "none" /\
      unitsFlag g = 2 /\ Qeq_bool (modelScale g) 1 = true /\ Qeq_bool (cf g) (508 # 10) = true /\ draftStandard g = 5 /\
      applicationNote g = S2 "note" /\ igesVersion g = 11 /\ n = 2 /\ r_sec nxt = "D"%char
  | _ => False
  end.
Proof. vm_compute. auto 30. Qed.

(** *** C13: delimiters which make the file unreadable. *)

Theorem c13_delimiter_refused : forall g ver now rest nxt f2, settings_ok g ver now ->
  (pdelim g = ","%char /\ rdelim g <> ";"%char \/ pdelim g = ";"%char) ->
  ReadIGESRecord (mkStream rest false) = POk (nxt, f2) -> r_sec nxt <> "G"%char ->
  exists out n, writeGlobals g ver now = POk (out, n) /\ read_section (mkStream (out ++ rest) false) = PFail.
Proof. exact globals_delim_refused. Qed.
Print Assumptions c13_delimiter_refused.

Example c13_case : sample_read "," "#" (1 # 1000) [] = PFail /\ text_of (writeGlobals (sample "," "#" (1 # 1000) []) sample_ver sample_now) <> [] /\
  sample_read "|" "#" (1 # 1000) [] <> PFail.
Proof. vm_compute. repeat split; discriminate. Qed.

(** *** C14: fine resolutions make the file unreadable. *)

Theorem c14_fine_resolution_refused : forall g ver now rest nxt f2, settings_ok g ver now ->
  (1 # 1000000000000 <= minResolution g)%Q -> (minResolution g < 1 # 100000000)%Q ->
  ReadIGESRecord (mkStream rest false) = POk (nxt, f2) -> r_sec nxt <> "G"%char ->
  exists out n, writeGlobals g ver now = POk (out, n) /\ read_section (mkStream (out ++ rest) false) = PFail.
Proof. exact globals_fine_refused. Qed.
Print Assumptions c14_fine_resolution_refused.

Example c14_case : sample_read "," ";" (1 # 1000000000) [] = PFail /\
  sample_read "," ";" (1 # 100000000) [] <> PFail /\ sample_read "," ";" 0 [] <> PFail.
Proof. vm_compute. repeat split; discriminate. Qed.

(** *** C15: the maximum line width is not what is written. *)

Theorem c15_linewidth_not_written : forall g ver now w,
  ((maxLinewidth g < 1 # 1000000)%Q <-> (w < 1 # 1000000)%Q) ->
  writeGlobals (with_linewidth g w) ver now = writeGlobals g ver now.
Proof. exact linewidth_not_written. Qed.
Print Assumptions c15_linewidth_not_written.

Theorem c15_linewidth_read : forall g ver now g', reads_back g ver now g' ->
  (1 # 1000000 <= maxLinewidth g)%Q -> Z.abs (maxLinewidthGrad g) < 1000000 ->
  (maxLinewidth g' == inject_Z (Z.max 1 (maxLinewidthGrad g)))%Q.
Proof. exact linewidth_back. Qed.
Print Assumptions c15_linewidth_read.

Example c15_case : match sample_read "," ";" (1 # 1000) [] with
  | POk (g, _, _, _) => Qeq_bool (maxLinewidth g) 4 = true /\ Qeq_bool (maxLinewidth (sample "," ";" (1 # 1000) [])) (3 # 10) = true
  | _ => False
  end.
Proof. vm_compute. auto. Qed.

(** *** C16: Global Sections of any origin are read item by item; normalisation
    happens exactly when item 26 (the 24th behind the delimiters) is present. *)

Theorem c16_section_read : forall k pd rd h x ds out body tl rest nxt f2,
  delims pd rd -> delim_items pd rd h -> acceptable x -> (17 <= k <= 24)%nat ->
  numbered (sec_line "G") 1 ds out -> concat ds = h ++ body ++ tl -> ~ In nl (concat ds) ->
  Z.of_nat (length (concat ds)) <= int_max -> spaced pd rd (firstn k (item_params x)) body ->
  ReadIGESRecord (mkStream rest false) = POk (nxt, f2) -> r_sec nxt <> "G"%char ->
  exists g', read_section (mkStream (out ++ rest) false) = POk (g', Z.of_nat (length ds), nxt, f2) /\ found k pd rd x g'.
Proof. exact section_read. Qed.
Print Assumptions c16_section_read.

(** The same file in inches with and without item 26. *)
Example c16_case : match sample_read "," ";" (1 # 1000) (S2 "note"), sample_read "," ";" (1 # 1000) [] with
  | POk (g, _, _, _), POk (g', _, _, _) => unitsFlag g = 2 /\ convert g = true /\ unitsFlag g' = 1 /\ convert g' = false /\
      Qeq_bool (modelScale g') (1 # 2) = true
  | _, _ => False
  end.
Proof. vm_compute. auto. Qed.

(** *** C36: date validation. *)

Theorem c36_dates_accepted : forall d, checkDate d = Some true <-> accepted_date d.
Proof. exact checkDate_iff. Qed.
Print Assumptions c36_dates_accepted.

Theorem c36_dates_crash : forall d, checkDate d = None <-> month_outside d.
Proof. exact checkDate_crash. Qed.
Print Assumptions c36_dates_crash.

Theorem c36_calendar_dates : forall d, calendar_date d -> accepted_date d.
Proof. exact calendar_accepted. Qed.
Print Assumptions c36_calendar_dates.

Example c36_case : checkDate (S2 "20150229.235999") = Some true /\ checkDate (S2 "150230.000000") = Some false /\
  checkDate (S2 "20151304.123456") = None /\ checkDate (S2 "20150704 123456") = Some false.
Proof. vm_compute. auto. Qed.
