(** C149, C150: the lines of the sections of an IDF board, and what follows the last one. *)

From Verif Require Import Base Num IoModel IdfText IdfOutl IdfFile Spec IdfSpec IdfOutlSpec IdfFileSpec IdfRecSpec
  IdfOutlCase IdfFileCase IdfFileSect IdfRecFacts IdfRecCase.
From Verif Require IdfPlace.
Open Scope Z_scope.

(** C149: what the second line of a section says, for every kind and both versions. *)
Theorem c149_record k u v line b fs id q l : k <> KViaKo -> laid_out b fs line ->
  (second_line k u v line = Some (id, q, l) <-> second_means k u v fs id q l).
Proof. exact (second_iff k u v line b fs id q l). Qed.
Print Assumptions c149_record.

Example c149_record_case :
  (laid_out false zero_fields (spaced zero_fields) /\ second_means KBoard MM V3 zero_fields [] (16 # 10) None) /\
  (laid_out false other_fields (spaced other_fields) /\ (exists q, second_means KOther Thou V3 other_fields (S2 "a case") q (Some LBottom) /\ (q == 254 # 100)%Q) /\
   exists q, second_means KOther Tnm V2 other_fields (S2 "a case") q (Some LTop) /\ (q == 1 # 1000)%Q) /\
  (laid_out false side_fields (spaced side_fields) /\ second_means KPlace MM V3 side_fields [] (-1) (Some LBoth) /\
   forall id q l, ~ second_means KPlaceKo MM V3 side_fields id q l).
Proof. exact records_case. Qed.

(** A whole section: heading, owner, second line, loops and end. *)
Theorem c149_section ccw k u v line b w fs f id q l f1 ls f2 e f3 b3 fs3 o ow g :
  laid_out b (Bare w :: fs) line -> same_word (key k) w -> owner_said fs ow -> second_of k u v f id q l f1 ->
  read_outlines ccw (match k with KBoard | KOther => false | _ => true end) false u v f1 = Some (ls, f2) ->
  opens f2 e f3 -> laid_out b3 fs3 e ->
  (read_outline ccw k u v line f = Some (o, g) <-> s_eof f3 = false /\ ended k e fs3 /\ g = f3 /\ o = mkOutl k ow id q l ls).
Proof. exact (outline_iff ccw k u v line b w fs f id q l f1 ls f2 e f3 b3 fs3 o ow g). Qed.
Print Assumptions c149_section.

Example c149_section_case : exists ls, laid_out false place_head (spaced place_head) /\ same_word (key KPlace) (S2 ".Place_Outline") /\
  owner_said [Bare (S2 "nobody")] Unowned /\ second_of KPlace MM V3 (from_place 0) [] (-1) (Some LBoth) (from_place 1) /\
  read_outlines by_lines true false MM V3 (from_place 1) = Some (ls, from_place 5) /\ length ls = 1%nat /\
  opens (from_place 5) (spaced place_end) (from_place 6) /\ laid_out false place_end (spaced place_end) /\ s_eof (from_place 6) = false /\
  ended KPlace (spaced place_end) place_end /\
  read_outline by_lines KPlace MM V3 (spaced place_head) (from_place 0) = Some (mkOutl KPlace Unowned [] (-1) (Some LBoth) ls, from_place 6).
Proof. exact place_whole. Qed.

(** A place outline which gives no height is accepted, but a file with it, once written,
    is refused (C146). *)
Theorem c149_no_height ccw u line f side f1 b s o g : u <> Tnm -> opens f side f1 -> laid_out b [s] side ->
  read_outline ccw KPlace u V3 line f = Some (o, g) -> ol_loops o <> [] -> spoils u o.
Proof. exact (bare_place ccw u line f side f1 b s o g). Qed.
Print Assumptions c149_no_height.

Example c149_no_height_case : exists o g, opens (from_place 0) (S2 "BOTH") (from_place 1) /\ laid_out false [Bare (S2 "BOTH")] (S2 "BOTH") /\
  read_outline by_lines KPlace MM V3 (spaced place_head) (from_place 0) = Some (o, g) /\ ol_loops o <> [].
Proof. exact place_spoiled. Qed.

(** C150: after the placement only comments and blank lines may follow, but an empty
    comment ends the search. *)
Theorem c150_tail ccw c text h name u f l (raws : list str) (w : str) : read_head (mkStream text false) = Some (h, name, u, f) ->
  read_sections ccw u (h_ver h) c (S (length text)) AtHeader [] f = Some (l, AtPlacement, Some (mkStream (with_newlines raws ++ w) false)) ->
  Forall (fun r : str => ~ In nl r) raws -> ~ In nl w ->
  (bad_tail (raws ++ [w]) -> read_file ccw c text = None) /\ (~ bad_tail (raws ++ [w]) -> read_file ccw c text = Some (h, name, u, l)).
Proof. exact (file_tail ccw c text h name u f l raws w). Qed.
Print Assumptions c150_tail.

Example c150_tail_case : (exists h name u f l, read_head (mkStream (with_newlines (placed ++ tail3)) false) = Some (h, name, u, f) /\
  read_sections by_lines u (h_ver h) IdfPlace.Elec (S (length (with_newlines (placed ++ tail3)))) AtHeader [] f =
    Some (l, AtPlacement, Some (mkStream (with_newlines tail3 ++ []) false)) /\ bad_tail (tail3 ++ [[]])) /\
  found (placed ++ tail1) = Some 2%nat /\ found (placed ++ tail2) = Some 2%nat /\ found (placed ++ tail3) = None.
Proof. exact (conj tail_reached tails_found). Qed.
