(** C144, C145, C146: the header, the sections and the outlines of IDF files. *)

From Verif Require Import Base Num IoModel IdfText IdfOutl IdfFile Spec IdfSpec IdfOutlSpec IdfFileSpec
  IdfOutlCase IdfFileHead IdfFileSect IdfFileOrder IdfFileOutl IdfFileAgain IdfFileCase.
From Verif Require IdfPlace IdfPlaceSpec IdfPlaceCase.
Open Scope Z_scope.

(** C144: four lines make the header of a board just if they say what it needs. *)
Theorem c144_board f l1 f1 l2 f2 l3 f3 l4 f4 b2 fs2 b3 fs3 h name u g :
  opens f l1 f1 -> opens f1 l2 f2 -> opens f2 l3 f3 -> opens f3 l4 f4 -> laid_out b2 fs2 l2 -> laid_out b3 fs3 l3 ->
  (read_head f = Some (h, name, u, g) <->
   g = f4 /\ same_word ".HEADER" l1 /\ head_means "BOARD_FILE" fs2 h /\ name_means (h_ver h) fs3 name u /\ same_word ".END_HEADER" l4).
Proof. exact (head_iff f l1 f1 l2 f2 l3 f3 l4 f4 b2 fs2 b3 fs3 h name u g). Qed.
Print Assumptions c144_board.

Example c144_board_case : exists l1 f1 l2 f2 l3 f3 l4 f4 b2 fs2 b3 fs3,
  opens head_f l1 f1 /\ opens f1 l2 f2 /\ opens f2 l3 f3 /\ opens f3 l4 f4 /\ laid_out b2 fs2 l2 /\ laid_out b3 fs3 l3 /\
  same_word ".HEADER" l1 /\ head_means "BOARD_FILE" fs2 said_head /\ name_means V2 fs3 (S2 "a board") Tnm /\ same_word ".END_HEADER" l4 /\
  s_rest f4 = S2 ".X" ++ [nl].
Proof. exact head_says. Qed.

(** Three lines make the header of a library. *)
Theorem c144_library f l1 f1 l2 f2 l4 f4 b2 fs2 h g :
  opens f l1 f1 -> opens f1 l2 f2 -> opens f2 l4 f4 -> laid_out b2 fs2 l2 ->
  (read_lib_head f = Some (h, g) <->
   g = f4 /\ same_word ".HEADER" l1 /\ head_means "LIBRARY_FILE" fs2 h /\ same_word ".END_HEADER" l4).
Proof. exact (lib_head_iff f l1 f1 l2 f2 l4 f4 b2 fs2 h g). Qed.
Print Assumptions c144_library.

(** A file which begins with a comment is refused. *)
Theorem c144_comment f : opens_comment f -> read_head f = None /\ read_lib_head f = None.
Proof. exact (head_comment f). Qed.
Print Assumptions c144_comment.

Example c144_comment_case : opens_comment (mkStream (with_newlines [S2 " "; S2 "# from my tool"; S2 ".HEADER"]) false).
Proof. exact comment_first. Qed.

(** A header which is written is read again; its number is the next one. *)
Theorem c144_written source date name n u rest : ~ In quote source -> ~ In nl source -> ~ In quote name -> ~ In nl name ->
  field_ok (Bare date) -> 0 <= n + 1 <= 2147483647 ->
  read_head (mkStream (write_head source date name n u ++ rest) false) =
    Some (mkHead V3 (S2 "Created by " ++ match source with [] => S2 "KiCad-IDF Framework" | _ => source end) date (n + 1),
      match name with [] => S2 "BOARD WITH NO NAME" | _ => name end, match u with MM => MM | _ => Thou end, mkStream (nl :: rest) false).
Proof. exact (head_again source date name n u rest). Qed.
Print Assumptions c144_written.

Theorem c144_library_written source date n rest : ~ In quote source -> ~ In nl source -> field_ok (Bare date) -> 0 <= n + 1 <= 2147483647 ->
  read_lib_head (mkStream (write_lib_head source date n ++ rest) false) =
    Some (mkHead V3 (S2 "Created by " ++ match source with [] => S2 "KiCad-IDF Framework" | _ => source end) date (n + 1), mkStream (nl :: rest) false).
Proof. exact (lib_head_again source date n rest). Qed.
Print Assumptions c144_library_written.

Example c144_written_case : field_ok (Bare (S2 "2012/12/31.23:59:59")) /\
  write_head [] (S2 "2012") [] 0 Tnm = S2 ".HEADER" ++ nl :: S2 "BOARD_FILE 3.0 " ++ q "Created by KiCad-IDF Framework" ++ S2 " 2012 1" ++ nl ::
    q "BOARD WITH NO NAME" ++ S2 " THOU" ++ nl :: S2 ".END_HEADER" ++ [nl; nl].
Proof. exact header_text. Qed.

(** C145: in every file which is accepted the board comes first and only once, the
    placement last, notes only in version 3; no two OTHER outlines have one name. *)
Theorem c145_order ccw c text h name u l : read_file ccw c text = Some (h, name, u, l) ->
  (h_ver h = V3 -> u <> Tnm) /\
  exists s rest, l = s :: rest /\ is_board s /\ Forall (fun x => ~ is_board x) rest /\
    (forall a x b, l = a ++ x :: b -> is_places x -> b = []) /\
    (h_ver h = V2 -> Forall (fun x => ~ is_notes x) l) /\ NoDup (other_ids l).
Proof. exact (fun H => conj (file_unit ccw c text h name u l H) (file_order ccw c text h name u l H)). Qed.
Print Assumptions c145_order.

Example c145_order_case : found (small_board ++ drilled) = Some 2%nat /\ found (small_board ++ [S2 ".TEXT"] ++ drilled) = Some 1%nat /\
  found (small_board ++ [S2 "# TEXT"] ++ drilled) = Some 2%nat /\ found (small_board ++ drilled ++ skipn 4 small_board) = None /\
  found (small_board ++ drilled ++ small_board) = Some 2%nat.
Proof. exact holes_found. Qed.

(** One line which is no heading, and every section after it is lost without an error. *)
Theorem c145_lost ccw u v c st ids raw l b w fs raws fuel : ~ In nl raw -> (forall r, raw <> hash :: r) -> trimmed_of raw l ->
  laid_out b (Bare w :: fs) l -> ~ heading_word w -> Forall quiet_line raws -> st <> AtPlacement ->
  read_sections ccw u v c (S fuel) st ids (mkStream (with_newlines (raw :: raws)) false) = Some ([], st, None).
Proof. exact (lost_file ccw u v c st ids raw l b w fs raws fuel). Qed.
Print Assumptions c145_lost.

Example c145_lost_case : ~ heading_word (S2 ".TEXT") /\ Forall quiet_line drilled.
Proof. exact drilled_quiet. Qed.

(** C146: outlines which are written are read again. *)
Theorem c146_outline ccw u o : u <> Tnm -> outl_fits ccw u o ->
  exists body o', write_section ccw u o = Some ((S2 (key (ol_kind o)) ++ sp :: owner_text (ol_owner o)) ++ nl :: body) /\ outl_back ccw u o o' /\
    forall rest, read_outline ccw (ol_kind o) u V3 (S2 (key (ol_kind o)) ++ sp :: owner_text (ol_owner o)) (mkStream (body ++ rest) false) =
      Some (o', mkStream (nl :: rest) false).
Proof. exact (outl_again ccw u o). Qed.
Print Assumptions c146_outline.

Example c146_outline_case : outl_fits by_lines MM the_board /\ outl_fits by_lines MM the_region /\ outl_fits by_lines MM the_place.
Proof. exact outls_fit. Qed.

(** A whole file: all its sections come back. *)
Theorem c146_file ccw u c source date name n o os holes notes b :
  u <> Tnm -> ~ In quote source -> ~ In nl source -> ~ In quote name -> ~ In nl name -> field_ok (Bare date) -> 0 <= n + 1 <= 2147483647 ->
  ol_kind o = KBoard -> outl_fits ccw u o -> Forall (fun x => outl_fits ccw u x /\ ol_kind x <> KBoard) os ->
  Forall (drill_ok u) holes -> Forall note_ok notes -> Forall (IdfPlaceSpec.part_ok u) (IdfPlaceSpec.parts_of b) ->
  exists text o' os' holes' notes' places',
    write_file ccw u source date name n (o :: os) holes notes b = Some text /\
    read_file ccw c text = Some (mkHead V3 (S2 "Created by " ++ match source with [] => S2 "KiCad-IDF Framework" | _ => source end) date (n + 1),
      match name with [] => S2 "BOARD WITH NO NAME" | _ => name end, u,
      map (mkSec []) (COutline o' :: map COutline os' ++ CHoles holes' ::
        (match notes with [] => [] | _ => [CNotes notes'] end) ++
        (match IdfPlaceSpec.parts_of b with [] => [] | _ => [CPlaces places'] end))) /\
    outl_back ccw u o o' /\ Forall2 (outl_back ccw u) os os' /\
    Forall2 (fun d d' => drill_back u d d' /\ (drill_short u d -> drill_same d d')) holes holes' /\ notes_back u notes notes' /\
    Forall2 (fun x r => IdfPlaceSpec.part_back u (fst (fst x)) (snd (fst x)) (snd x) r) (IdfPlaceSpec.parts_of b) places'.
Proof. exact (file_again ccw u c source date name n o os holes notes b). Qed.
Print Assumptions c146_file.

Example c146_file_case : again [the_board; the_region; the_place] = Some (Some 5%nat) /\ again [the_board; the_region; the_other] = Some None /\
  again [the_board; low_place] = Some None.
Proof. exact again_cases. Qed.

Example c146_file_parts : Forall (IdfPlaceSpec.part_ok MM) (IdfPlaceSpec.parts_of IdfPlaceCase.top_two).
Proof. exact parts_fit. Qed.

(** An OTHER outline is written without a newline after its side, and a place outline
    without a height with -1: a file with one of them is not read again. *)
Theorem c146_refused ccw u c source date name n o os x more holes notes b text :
  u <> Tnm -> ~ In quote source -> ~ In nl source -> ~ In quote name -> ~ In nl name -> field_ok (Bare date) -> 0 <= n + 1 <= 2147483647 ->
  ol_kind o = KBoard -> outl_fits ccw u o -> Forall (fun x => outl_fits ccw u x /\ ol_kind x <> KBoard) os -> spoils u x ->
  write_file ccw u source date name n (o :: os ++ x :: more) holes notes b = Some text ->
  read_file ccw c text = None.
Proof. exact (file_refused ccw u c source date name n o os x more holes notes b text). Qed.
Print Assumptions c146_refused.

Example c146_refused_case : spoils MM the_other /\ spoils MM low_place.
Proof. exact two_spoil. Qed.
