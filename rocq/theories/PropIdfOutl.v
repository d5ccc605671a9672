(** C139, C140: the text of the outlines in IDF files. *)

From Verif Require Import Base Num IoModel IdfText Spec IdfSpec IdfOutl IdfOutlSpec IdfOutlFacts IdfOutlText IdfOutlSec IdfOutlCase.
Open Scope Z_scope.

(** C139: a section is accepted just if it says some loops, and these are the result. *)
Theorem c139_section ccw single comp u v raws rs w rest ls f : lines_say u v raws rs -> Forall (fun c => ~ isspc c) w ->
  let after := mkStream (S2 ".END_" ++ w ++ nl :: rest) false in
  read_outlines ccw single comp u v (mkStream (with_newlines raws ++ s_rest after) false) = Some (ls, f) <->
  section_means ccw single rs ls /\ f = after.
Proof. exact (section_read ccw single comp u v raws rs w rest ls f). Qed.
Print Assumptions c139_section.

Example c139_section_case v single : lines_say MM v tri_text tri_said /\ section_means by_lines single tri_said [tri_ccw].
Proof. exact (conj (tri_lines v) (tri_meant single)). Qed.

(** The same for the records, however they were read. *)
Theorem c139_records ccw single rs ls :
  (exists s, steps ccw single r_init rs = Some s /\ finish s = Some ls) <-> section_means ccw single rs ls.
Proof. exact (records_iff ccw single rs ls). Qed.
Print Assumptions c139_records.

Example c139_records_case : exists s, steps by_lines false r_init (tri_recs 0 ++ hole_recs 1 ++ tri_recs 2) = Some s /\
  finish s = Some [tri_ccw; hole_at; tri_ccw].
Proof. exact board_read. Qed.

(** The last loop may go the wrong way, which would be refused if another came after it. *)
Theorem c139_last_way_refuted :
  (exists s, steps by_lines false r_init (tri_recs 0 ++ tri_recs 1) = Some s /\ finish s = Some [tri_ccw; tri_ccw] /\ by_lines tri_ccw = true) /\
  steps by_lines false r_init (tri_recs 0 ++ tri_recs 1 ++ hole_recs 2) = None.
Proof. exact (conj wrong_turn_last wrong_turn). Qed.
Print Assumptions c139_last_way_refuted.

(** Comments are points. *)
Theorem c139_comment_refuted : exists f g,
  read_outlines by_lines false false MM V3 (mkStream (in_lines ["0 0 0 0"; "0 10 0 0"; "# 0 0 10 0"; "0 0 0 0"; ".END_BOARD_OUTLINE"]%string) false) = Some ([tri_ccw], f) /\
  read_outlines by_lines false false MM V3 (mkStream (in_lines ["0 0 0 0"; "0 10 0 0"; "0 0 0 0"; ".END_BOARD_OUTLINE"]%string) false) =
    Some ([[mkQs o0 ox 0; mkQs ox o0 0]], g).
Proof. exact comment_point. Qed.
Print Assumptions c139_comment_refuted.

(** In the outline of a component, properties end the loops as far as they were read. *)
Theorem c139_properties ccw single u v raws rs raw line b t fs rest s : lines_say u v raws rs ->
  ~ In nl raw -> (forall r, raw <> hash :: r) -> trimmed_of raw line -> laid_out b (Bare t :: fs) line -> same_word "PROP" t ->
  steps ccw single r_init rs = Some s ->
  let after := mkStream (raw ++ nl :: rest) false in
  read_outlines ccw single true u v (mkStream (with_newlines raws ++ s_rest after) false) = Some (loops s, after).
Proof. exact (section_prop ccw single u v raws rs raw line b t fs rest s). Qed.
Print Assumptions c139_properties.

(** Elsewhere they are refused. *)
Theorem c139_no_properties ccw single u v raws rs raw line b t fs rest : lines_say u v raws rs ->
  ~ In nl raw -> (forall r, raw <> hash :: r) -> trimmed_of raw line -> laid_out b (Bare t :: fs) line -> same_word "PROP" t ->
  read_outlines ccw single false u v (mkStream (with_newlines raws ++ raw ++ nl :: rest) false) = None.
Proof. exact (section_prop_none ccw single u v raws rs raw line b t fs rest). Qed.
Print Assumptions c139_no_properties.

(** So an outline which is not closed is accepted there. *)
Theorem c139_closed_refuted : exists f,
  read_outlines by_lines true true MM V3 (mkStream (in_lines (open_lines ++ ["PROP CAPACITANCE 100.0"; ".END_ELECTRICAL"]%string)) false) =
    Some ([[mkQs o0 ox 0; mkQs ox oy 0]], f) /\
  read_outlines by_lines true true MM V3 (mkStream (in_lines (open_lines ++ [".END_ELECTRICAL"]%string)) false) = None.
Proof. exact open_prop. Qed.
Print Assumptions c139_closed_refuted.

(** What follows a number in its field is put before the next field, in the same line or the next. *)
Theorem c139_left_over_refuted : read_rec false MM V3 (S2 "0.5 10 0 0") [] [] = LRec (mkOr 0 (mkQp (510 # 1000) 0) 0) (S2 "0") [] /\
  read_rec false MM V3 (S2 "0 1,5 2 0") [] [] = LWrong /\
  read_rec false MM V3 (S2 "0 10 0 90deg") [] [] = LRec (mkOr 0 ox 90) (S2 "90deg") (S2 "deg") /\
  read_rec false MM V3 (S2 "0 0 10 0") [] (S2 "deg") = LWrong.
Proof. exact left_over. Qed.
Print Assumptions c139_left_over_refuted.

(** C140: loops which are written are read again, the way round which was written. *)
Theorem c140_written ccw single comp u v ls : u <> Tnm -> Forall (loop_fit u) ls -> Z.of_nat (length ls) <= 2147483648 ->
  (single = true -> (length ls <= 1)%nat) -> (single = false -> turns_kept ccw u (ways ccw single 0 ls)) ->
  exists text ls', write_outlines ccw single u ls = Some text /\ Forall2 (near_loop u) (ways ccw single 0 ls) ls' /\
    forall w rest, Forall (fun c => ~ isspc c) w ->
      let after := mkStream (S2 ".END_" ++ w ++ nl :: rest) false in
      read_outlines ccw single comp u v (mkStream (text ++ s_rest after) false) = Some (ls', after).
Proof. exact (round_trip ccw single comp u v ls). Qed.
Print Assumptions c140_written.

Example c140_written_case : MM <> Tnm /\ Forall (loop_fit MM) board /\ Z.of_nat (length board) <= 2147483648 /\
  turns_kept by_lines MM (ways by_lines false 0 board) /\ ways by_lines false 0 board = [other_way (shut tri_cw); hole_at].
Proof. exact board_case. Qed.

(** A loop with a segment too short to be seen in the text is not read again. *)
Theorem c140_short_refuted : exists t, write_outlines by_lines false Thou [narrow] = Some t /\
  read_outlines by_lines false false Thou V3 (mkStream (t ++ S2 ".END_BOARD_OUTLINE" ++ [nl]) false) = None.
Proof. exact narrow_lost. Qed.
Print Assumptions c140_short_refuted.
