(** Properties C131 to C133: the text of IDF files, drilled holes and notes. *)

From Verif Require Import Base Num IoModel IdfText Spec IdfSpec IdfFacts IdfNum IdfRound IdfLine IdfSect.
Open Scope Z_scope.

(** C131: a line is trimmed; one which starts with # is a comment, of any other
    the answer says whether something is left. *)
Theorem c131_line raw f f' : ends_line raw f f' -> exists l,
  ((forall r, raw <> hash :: r) /\ trimmed_of raw l /\
     fetch_line f = (match l with [] => false | _ => true end, l, Some false, f')) \/
  (exists r, raw = hash :: r /\ trimmed_of r l /\ fetch_line f = (true, l, Some true, f')).
Proof. exact (fetch_spec raw f f'). Qed.
Print Assumptions c131_line.

Example c131_line_case : fetch_line (mkStream (S2 "  1.0 # 2 " ++ [cr; nl] ++ S2 "x") false) =
  (true, S2 "1.0 # 2", Some false, mkStream (S2 "x") false).
Proof. vm_compute. reflexivity. Qed.

Theorem c131_blank_lines bl raw l g f' : blank_lines bl -> s_eof g = false -> ends_line raw g f' ->
  (forall r, raw <> hash :: r) -> trimmed_of raw l -> l <> [] ->
  read_line (mkStream (with_newlines bl ++ s_rest g) false) = Some (l, false, f').
Proof. exact (blanks_skipped bl raw l g f'). Qed.
Print Assumptions c131_blank_lines.

(** Calls of [GetIDFString] give the fields of the line one by one. *)
Theorem c131_fields torn fs line t q : laid_out torn fs line ->
  exists st', calls line (mkScan t q 0) fs st' /\ sc_idx st' = length line /\
    (torn = true -> sc_quoted st' = true).
Proof. exact (fields_read torn fs line t q). Qed.
Print Assumptions c131_fields.

Theorem c131_every_line line : exists torn fs, laid_out torn fs line /\
  (forall torn' fs', laid_out torn' fs' line -> fs' = fs).
Proof. exact (fields_every line). Qed.
Print Assumptions c131_every_line.

Definition c131_text : str := S2 "a" ++ quote :: S2 "b " ++ quote :: S2 "c d" ++ quote :: S2 " e" ++ [quote].

Example c131_fields_case : laid_out false [Bare (S2 "a" ++ quote :: S2 "b"); Quoted (S2 "c d"); Bare (S2 "e" ++ [quote])] c131_text.
Proof.
  apply (lo_field false [] (Bare (S2 "a" ++ quote :: S2 "b")) _ (S2 " " ++ quote :: S2 "c d" ++ quote :: S2 " e" ++ [quote])).
  - constructor.
  - split; [discriminate|]. split; [repeat constructor; apply space_false; reflexivity|discriminate].
  - cbn. left. reflexivity.
  - apply (lo_field false (S2 " ") (Quoted (S2 "c d")) _ (S2 " e" ++ [quote])).
    + repeat constructor.
    + cbn. intros [E|[E|[E|[]]]]; discriminate.
    + exact I.
    + apply (lo_field false (S2 " ") (Bare (S2 "e" ++ [quote])) _ []).
      * repeat constructor.
      * split; [discriminate|]. split; [repeat constructor; apply space_false; reflexivity|discriminate].
      * exact I.
      * constructor. constructor.
Qed.

Theorem c131_keywords key s : Forall capital (S2 key) -> compare_token key s = true <-> same_word key s.
Proof. exact (keyword_same key s). Qed.
Print Assumptions c131_keywords.

Example c131_keywords_case : compare_token "NPTH" (S2 "nPtH") = true /\ compare_token "NPTH" (S2 "NPTH ") = false.
Proof. split; reflexivity. Qed.

(** Whatever follows a number in its field is not looked at. *)
Theorem c131_number_tail k s m r : decimal k s m -> no_more r -> (0 < k)%nat ->
  (Qabs (dec_value k m) <= inject_Z (10 ^ 305))%Q ->
  exists q, stream_num (s ++ r) = Some q /\ (q == dec_value k m)%Q.
Proof. exact (num_tail k s m r). Qed.
Print Assumptions c131_number_tail.

Example c131_number_case : stream_num (S2 "-1.50mm") = Some (-150 # 100)%Q /\ stream_num (S2 "1.5e") = None /\
  stream_num (S2 "mm") = None.
Proof. repeat split; vm_compute; reflexivity. Qed.

(** C132: the lines which are holes, and what each says. *)
Theorem c132_record f u v line f' torn fs : read_line f = Some (line, false, f') -> laid_out torn fs line ->
  (forall d g, read_drill f u v = Got d g -> g = f' /\ drill_means u v fs d) /\
  (forall d, drill_means u v fs d -> exists d', read_drill f u v = Got d' f' /\ drill_eq d d') /\
  (forall g, read_drill f u v = Over g <->
     g = f' /\ exists a more, fs = Bare a :: more /\ same_word ".END_DRILLED_HOLES" a).
Proof. exact (drill_line_means f u v line f' torn fs). Qed.
Print Assumptions c132_record.

Example c132_record_case : read_drill (mkStream (S2 "100 1 2 via R1 left over" ++ [nl]) false) Tnm V2 =
  Got (mkDrill (100 # 100000) (1 # 100000) (2 # 100000) true (Named (S2 "R1")) Via Unowned) (mkStream [] false).
Proof. vm_compute. reflexivity. Qed.

Theorem c132_comment bl raw g f' u v : blank_lines bl -> s_eof g = false -> ends_line (hash :: raw) g f' ->
  read_drill (mkStream (with_newlines bl ++ s_rest g) false) u v = Wrong /\
  read_note (mkStream (with_newlines bl ++ s_rest g) false) u = Wrong.
Proof. exact (comment_wrong bl raw g f' u v). Qed.
Print Assumptions c132_comment.

(** A section which is written is read again, hole for hole. *)
Theorem c132_section u l rest : u <> Tnm -> Forall (drill_ok u) l ->
  exists l', read_drills u V3 (mkStream (write_drills u l ++ rest) false) =
    Some (l', mkStream (nl :: rest) false) /\ drills_back u l l' /\
    (Forall (drill_short u) l -> Forall2 drill_same l l').
Proof. exact (drills_section u l rest). Qed.
Print Assumptions c132_section.

Theorem c132_made u dia x y p r h o : u <> Tnm -> sized dia -> sized x -> sized y ->
  name_ok r -> name_ok h -> drill_ok u (new_drill dia x y p r h o).
Proof. exact (new_drill_ok u dia x y p r h o). Qed.
Print Assumptions c132_made.

Example c132_section_case :
  write_drills MM [new_drill (16 # 10) (-254 # 100) (1 # 3) false (S2 "U 1") (S2 "pin") Ecad] =
    S2 "1.600 -2.54000 0.33333 NPTH " ++ quote :: S2 "U 1" ++ quote :: S2 " " ++ quote :: S2 "pin" ++ quote ::
    S2 " ECAD" ++ [nl] ++ S2 ".END_DRILLED_HOLES" ++ [nl; nl] /\
  read_drills MM V3 (mkStream (write_drills MM [new_drill (16 # 10) (-254 # 100) (1 # 3) false (S2 "U 1") (S2 "pin") Ecad]) false) =
    Some ([mkDrill (1600 # 1000) (-254000 # 100000) (33333 # 100000) false (Named (S2 "U 1")) Pin Ecad], mkStream [nl] false).
Proof. split; vm_compute; reflexivity. Qed.

(** A name which holds a quote does not come back, and the fields after it are
    taken from the name. *)
Theorem c132_quote_refuted :
  read_drill (mkStream (write_drill MM bad_name) false) MM V3 =
    Got (mkDrill (1000 # 1000) (0 # 100000) (0 # 100000) true (Named (S2 "A")) Via Ecad) (mkStream [] false).
Proof. exact bad_name_read. Qed.
Print Assumptions c132_quote_refuted.

(** A small hole is written as zero thousandths of an inch, and not read again. *)
Theorem c132_small_refuted :
  read_drill (mkStream (write_drill Thou tiny) false) Thou V3 = Wrong /\
  read_drill (mkStream (write_drill MM tiny) false) MM V3 =
    Got (mkDrill (1 # 1000) (0 # 100000) (0 # 100000) true ToBoard Pin Unowned) (mkStream [] false).
Proof. exact tiny_wrong. Qed.
Print Assumptions c132_small_refuted.

(** C133: notes. *)
Theorem c133_section u l rest : Forall note_ok l ->
  exists l', read_notes u (mkStream (write_notes u l ++ rest) false) =
    Some (l', mkStream (nl :: rest) false) /\ notes_back u l l'.
Proof. exact (notes_again u l rest). Qed.
Print Assumptions c133_section.

Example c133_case : write_notes Thou [mkNote (254 # 100) 0 (1 # 1) (-1 # 1) (S2 " Rev. A ")] =
    S2 "100.0 0.0 39.4 -39.4 " ++ quote :: S2 " Rev. A " ++ quote :: nl :: S2 ".END_NOTES" ++ [nl; nl] /\
  read_notes Thou (mkStream (write_notes Thou [mkNote (254 # 100) 0 (1 # 1) (-1 # 1) (S2 " Rev. A ")]) false) =
    Some ([mkNote ((1000 # 10) * thou_to_mm) ((0 # 10) * thou_to_mm) ((394 # 10) * thou_to_mm) ((-394 # 10) * thou_to_mm)
             (S2 " Rev. A ")], mkStream [nl] false).
Proof. split; vm_compute; reflexivity. Qed.
