(** C147, C148: the outlines of IDF libraries, and the library as a whole. *)

From Verif Require Import Base Num IoModel IdfText IdfOutl IdfFile IdfLib Spec IdfSpec IdfOutlSpec IdfFileSpec IdfLibSpec
  IdfOutlCase IdfFileSect IdfLibFacts IdfLibFile IdfLibAgain IdfLibCase.
From Verif Require Import IdfPlace IdfPlaceSpec.
From Coq Require Import Permutation.
Open Scope Z_scope.

(** C147: what the second line of an outline has to say. *)
Theorem c147_names v line b fs n u q : laid_out b fs line -> (comp_line v line = Some (n, u, q) <-> comp_means v fs n u q).
Proof. exact (comp_line_iff v line b fs n u q). Qed.
Print Assumptions c147_names.

Example c147_names_case : laid_out false inch_fields (spaced inch_fields) /\ comp_means V2 inch_fields (mkNames (S2 "a b") []) Tnm (100 # 100000) /\
  (forall n u q, ~ comp_means V3 inch_fields n u q).
Proof. exact inch_case. Qed.

(** In version 2 an outline in units of ten nanometres is refused; the unit of any other
    unknown word is taken for it. *)
Theorem c147_tnm ccw c com f l f' b g p w fs : opens f l f' -> laid_out b (g :: p :: w :: fs) l -> same_word "TNM" (value w) ->
  read_comp ccw c V2 com f = None.
Proof. exact (comp_tnm ccw c com f l f' b g p w fs). Qed.
Print Assumptions c147_tnm.

Example c147_tnm_case : opens (mkStream (spaced tnm_fields ++ nl :: tnm_rest) false) (spaced tnm_fields) (mkStream tnm_rest false) /\
  laid_out false tnm_fields (spaced tnm_fields) /\ same_word "TNM" (S2 "tnm") /\
  read_comp by_lines Mechan V2 [] (mkStream (spaced tnm_fields ++ nl :: tnm_rest) false) = None /\
  exists o g, read_comp by_lines Mechan V2 [] (mkStream (S2 "A B bogus 100" ++ nl :: tnm_rest) false) = Some (o, g) /\ co_unit o = Tnm.
Proof. exact tnm_case. Qed.

(** Properties are kept in the order of their names; a name which comes twice is refused. *)
Theorem c147_props f ps g : prop_lines f ps g -> ends_props g ->
  (NoDup (map fst ps) -> exists m, read_props (S (length (s_rest f))) f [] = Some (m, g) /\ in_order (map fst m) /\ Permutation m ps) /\
  (~ NoDup (map fst ps) -> read_props (S (length (s_rest f))) f [] = None).
Proof. exact (props_read f ps g). Qed.
Print Assumptions c147_props.

Example c147_props_case : (exists f g, prop_lines f [(S2 "b", S2 "2"); (S2 "a", S2 "1")] g /\ ends_props g /\
  read_props (S (length (s_rest f))) f [] = Some ([(S2 "a", S2 "1"); (S2 "b", S2 "2")], g)) /\
  (exists f g, prop_lines f [(S2 "b", S2 "2"); (S2 "a", S2 "1"); (S2 "b", S2 "3")] g /\ ends_props g /\
  read_props (S (length (s_rest f))) f [] = None).
Proof. exact (conj props_case2 props_case). Qed.

(** The whole outline: names, points, properties (of electrical parts in version 3 only)
    and the last line, which is compared as a whole and needs its newline. *)
Theorem c147_outline ccw c v com f l f1 b fs u q n ls f2 : opens f l f1 -> s_eof f1 = false -> laid_out b fs l -> comp_means v fs n u q ->
  read_outlines ccw true true u v f1 = Some (ls, f2) ->
  forall ps f3, (match c, v with Elect, V3 => read_props (S (length (s_rest f2))) f2 [] | _, _ => Some ([], f2) end) = Some (ps, f3) ->
  forall e f4, opens f3 e f4 ->
  forall o g, read_comp ccw c v com f = Some (o, g) <->
    s_eof f4 = false /\ same_word (cls_end c) e /\ g = f4 /\ o = mkCout (kept com) c n u q ls ps.
Proof. exact (comp_iff ccw c v com f l f1 b fs u q n ls f2). Qed.
Print Assumptions c147_outline.

Example c147_outline_case : exists q ls, opens (from_two 8) (S2 "A_B C THOU 500") (from_two 9) /\ s_eof (from_two 9) = false /\
  laid_out false thou_fields (S2 "A_B C THOU 500") /\ comp_means V3 thou_fields (mkNames (S2 "A_B") (S2 "C")) Thou q /\
  read_outlines by_lines true true Thou V3 (from_two 9) = Some (ls, from_two 12) /\ length ls = 1%nat /\
  read_props (S (length (s_rest (from_two 12)))) (from_two 12) [] = Some ([(S2 "k", S2 "v")], from_two 13) /\
  opens (from_two 13) (S2 ".END_ELECTRICAL") (from_two 14) /\ s_eof (from_two 14) = false.
Proof. exact whole_case. Qed.

(** A comment instead of the second line is refused. *)
Theorem c147_comment ccw c v com f : opens_comment f -> read_comp ccw c v com f = None.
Proof. exact (comp_comment ccw c v com f). Qed.
Print Assumptions c147_comment.

Example c147_comment_case : opens_comment (mkStream (S2 "# A B MM 1" ++ nl :: tnm_rest) false).
Proof. exact comment_case. Qed.

(** C148: a library is accepted just if later outlines with a key agree with the first,
    whatever their heights, arcs, units and properties, and then holds the first ones. *)
Theorem c148_first ccw v f os : outlines_in ccw v f os ->
  (consistent os -> exists m, read_lib_sections ccw v (S (length (s_rest f))) f [] = Some m /\ lib_of os m) /\
  (~ consistent os -> read_lib_sections ccw v (S (length (s_rest f))) f [] = None).
Proof. exact (library_read ccw v f os). Qed.
Print Assumptions c148_first.

Example c148_first_case : (exists o2, outlines_in by_lines V3 two_file [one_out; o2] /\ uid one_out = uid o2 /\ agrees o2 one_out /\
  co_names o2 <> co_names one_out /\ (co_high one_out < co_high o2)%Q /\ co_props o2 <> [] /\
  read_lib_sections by_lines V3 (S (length (s_rest two_file))) two_file [] = Some [(S2 "A_B_C", one_out)]) /\
  read_lib_sections by_lines V3 2000 (mkStream (in_lines bad_text) false) [] = None.
Proof. exact (conj two_in bad_refused). Qed.

(** A library which is written is read again, but for the outlines no component refers to
    and the properties of mechanical parts. *)
Theorem c148_written ccw source date n l : ~ In quote source -> ~ In nl source -> date_ok date -> 0 <= n + 1 <= 2147483647 ->
  Forall (fun x => fst x = uid (snd (snd x)) /\ (fst (snd x) <> 0 -> comp_fits (snd (snd x)))) l -> in_order (map fst l) ->
  exists text l', write_lib ccw source date n l = Some text /\ Forall2 (entry_back ccw) (referred l) l' /\
    read_lib ccw (mkStream text false) = Some (mkHead V3 (source_text source) date (n + 1), l').
Proof. exact (library_again ccw source date n l). Qed.
Print Assumptions c148_written.

Example c148_written_case : Forall (fun x => fst x = uid (snd (snd x)) /\ (fst (snd x) <> 0 -> comp_fits (snd (snd x)))) entries /\ in_order (map fst entries) /\
  date_ok (S2 "2020/01/01.00:00:00") /\ length (referred entries) = 2%nat.
Proof. exact entries_ok. Qed.
