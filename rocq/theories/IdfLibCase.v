(** Cases for the outlines of IDF libraries. *)

From Verif Require Import Base Num IoModel IdfText IdfOutl IdfFile IdfLib Spec IdfSpec IdfOutlSpec IdfFileSpec IdfLibSpec
  IdfFacts IdfNum IdfRound IdfSect IdfLine IdfOutlText IdfOutlCase IdfFileHead IdfFileSect IdfFileOutl IdfFileAgain IdfFileCase IdfLibFacts IdfLibFile IdfLibAgain.
From Verif Require Import IdfPlace IdfPlaceSpec.
From Coq Require Import Lia.
Open Scope Z_scope.

Ltac laid fs := apply (spaced_laid fs); repeat (apply Forall_cons; [first [apply quoted_ok; apply by_computing; reflexivity | apply IdfFileSect.bare_ok; try discriminate; reflexivity]|]); apply Forall_nil.
Ltac same k := apply (IdfFileCase.word_by k); reflexivity.
Ltac open raw rest := exact (IdfFileCase.plain_by raw rest ltac:(discriminate) eq_refl eq_refl eq_refl eq_refl).

(** ** RECORD 2 *)

Definition inch_fields : list field := [Quoted (S2 "a b"); Quoted []; Bare (S2 "INCH"); Bare (S2 "100"); Bare (S2 "more")].
Lemma inch_case : laid_out false inch_fields (spaced inch_fields) /\ comp_means V2 inch_fields (mkNames (S2 "a b") []) Tnm (100 # 100000) /\
  (forall n u q, ~ comp_means V3 inch_fields n u q).
Proof.
  split; [laid inch_fields|]. split.
  - apply (comp_is V2 (Quoted (S2 "a b")) (Quoted []) (Bare (S2 "INCH")) (Bare (S2 "100")) [Bare (S2 "more")] Tnm 100%Q (100 # 100000)).
    + left. discriminate.
    + cbn. split; [reflexivity|].
      assert (K : forall k, forallb (fun c => negb ((97 <=? code c) && (code c <=? 122))) (S2 k) = true -> compare_token k (S2 "INCH") = false -> ~ same_word k (S2 "INCH")).
      { intros k A B W. apply (keyword_same k _ (capitals _ A)) in W. congruence. }
      split; [apply K; reflexivity|]. split; apply K; reflexivity.
    + vm_compute. reflexivity.
    + vm_compute. reflexivity.
  - intros n u q M. inversion M as [? ? ? ? ? ? ? ? _ UT _ _]; subst. cbn [value] in UT.
    assert (E : comp_unit V3 (S2 "INCH") = Some u) by (apply comp_unit_iff; exact UT). discriminate.
Qed.

(** ** Properties *)

Definition prop_text : list string := ["prop b 2 left"; ""; "PROP a 1"; "PROP b 3"; ".END_x"]%string.
Definition from_prop (n : nat) : stream := mkStream (in_lines (skipn n prop_text)) false.
Definition b_line : list field := [Bare (S2 "prop"); Bare (S2 "b"); Bare (S2 "2"); Bare (S2 "left")].
Definition a_line : list field := [Bare (S2 "PROP"); Bare (S2 "a"); Bare (S2 "1")].
Definition c_line : list field := [Bare (S2 "PROP"); Bare (S2 "b"); Bare (S2 "3")].

Lemma first_prop f : f = from_prop 0 -> prop_line f (S2 "b", S2 "2") (from_prop 1).
Proof.
  intros ->. apply (prop_is _ _ _ (spaced b_line) false (S2 "prop") (Bare (S2 "b")) (Bare (S2 "2")) [Bare (S2 "left")]).
  - open (spaced b_line) (in_lines (skipn 1 prop_text)).
  - laid b_line.
  - same "PROP"%string.
  - reflexivity.
Qed.
Lemma second_prop rest : prop_line (mkStream (nl :: spaced a_line ++ nl :: rest) false) (S2 "a", S2 "1") (mkStream rest false).
Proof.
  apply (prop_is _ _ _ (spaced a_line) false (S2 "PROP") (Bare (S2 "a")) (Bare (S2 "1")) []).
  - apply (IdfFileCase.blank_by [] (spaced a_line ++ nl :: rest)); [reflexivity|reflexivity|]. open (spaced a_line) rest.
  - laid a_line.
  - same "PROP"%string.
  - reflexivity.
Qed.
Lemma third_prop rest : prop_line (mkStream (spaced c_line ++ nl :: rest) false) (S2 "b", S2 "3") (mkStream rest false).
Proof.
  apply (prop_is _ _ _ (spaced c_line) false (S2 "PROP") (Bare (S2 "b")) (Bare (S2 "3")) []).
  - open (spaced c_line) rest.
  - laid c_line.
  - same "PROP"%string.
  - reflexivity.
Qed.
Lemma end_prop : ends_props (from_prop 4).
Proof.
  exists (S2 ".END_x"), (mkStream [] false), false, (S2 ".END_"), (S2 "x"), []. split; [open (S2 ".END_x") (@nil ascii)|]. split; [|same ".END_"%string].
  laid [Bare (S2 ".END_x")].
Qed.

Lemma props_case : exists f g, prop_lines f [(S2 "b", S2 "2"); (S2 "a", S2 "1"); (S2 "b", S2 "3")] g /\ ends_props g /\
  read_props (S (length (s_rest f))) f [] = None.
Proof.
  exists (from_prop 0), (from_prop 4). split.
  - apply (pl_cons _ _ (from_prop 1)); [apply first_prop; reflexivity|reflexivity|].
    apply (pl_cons _ _ (from_prop 3)); [exact (second_prop (in_lines (skipn 3 prop_text)))|reflexivity|].
    apply (pl_cons _ _ (from_prop 4)); [exact (third_prop (in_lines (skipn 4 prop_text)))|reflexivity|]. apply pl_nil.
  - split; [exact end_prop|]. vm_compute. reflexivity.
Qed.
Lemma props_case2 : exists f g, prop_lines f [(S2 "b", S2 "2"); (S2 "a", S2 "1")] g /\ ends_props g /\
  read_props (S (length (s_rest f))) f [] = Some ([(S2 "a", S2 "1"); (S2 "b", S2 "2")], g).
Proof.
  exists (mkStream (spaced b_line ++ nl :: nl :: spaced a_line ++ nl :: s_rest (from_prop 4)) false), (from_prop 4). split.
  - apply (pl_cons _ _ (mkStream (nl :: spaced a_line ++ nl :: s_rest (from_prop 4)) false)).
    + apply (prop_is _ _ _ (spaced b_line) false (S2 "prop") (Bare (S2 "b")) (Bare (S2 "2")) [Bare (S2 "left")]); [open (spaced b_line) (nl :: spaced a_line ++ nl :: s_rest (from_prop 4))|laid b_line|same "PROP"%string|reflexivity].
    + reflexivity.
    + apply (pl_cons _ _ (from_prop 4)); [exact (second_prop (s_rest (from_prop 4)))|reflexivity|]. apply pl_nil.
  - split; [exact end_prop|]. vm_compute. reflexivity.
Qed.

(** ** Libraries *)

(** Two outlines with one key, of other names, heights, arcs and properties. *)
Definition two_text : list string :=
  [".electrical more"; "A B_C MM 1"; "0 0 0 0"; "0 10 0 90"; "0 0 0 0"; ".END_ELECTRICAL"; "";
   ".ELECTRICAL"; "A_B C THOU 500"; "0 0 0 0"; "0 393.7 0 180"; "0 0 0 180"; "PROP k v"; ".END_ELECTRICAL"; " "]%string.
Definition two_file : stream := mkStream (in_lines two_text) false.
Definition one_out : cout := mkCout [] Elect (mkNames (S2 "A") (S2 "B_C")) MM 1 [[mkQs o0 ox 90; mkQs ox o0 0]] [].

Definition from_two (n : nat) : stream := mkStream (in_lines (skipn n two_text)) false.
Lemma head1_laid : laid_out false [Bare (S2 ".electrical"); Bare (S2 "more")] (S2 ".electrical more").
Proof. laid [Bare (S2 ".electrical"); Bare (S2 "more")]. Qed.
Lemma head2_laid : laid_out false [Bare (S2 ".ELECTRICAL")] (S2 ".ELECTRICAL").
Proof. laid [Bare (S2 ".ELECTRICAL")]. Qed.
Lemma two_in : exists o2, outlines_in by_lines V3 two_file [one_out; o2] /\ uid one_out = uid o2 /\ agrees o2 one_out /\
  co_names o2 <> co_names one_out /\ (co_high one_out < co_high o2)%Q /\ co_props o2 <> [] /\
  read_lib_sections by_lines V3 (S (length (s_rest two_file))) two_file [] = Some [(S2 "A_B_C", one_out)].
Proof.
  destruct (read_comp by_lines Elect V3 [] (from_two 8)) as [[o2 g]|] eqn:E; [|vm_compute in E; discriminate].
  assert (G : g = from_two 14) by (vm_compute in E; injection E as _ <-; reflexivity).
  exists o2. split.
  - apply (oi_one by_lines V3 two_file (S2 ".electrical more") (from_two 1) false (S2 ".electrical") [Bare (S2 "more")] Elect one_out (from_two 6)).
    + open (S2 ".electrical more") (in_lines (skipn 1 two_text)).
    + exact head1_laid.
    + same ".ELECTRICAL"%string.
    + vm_compute. reflexivity.
    + apply (oi_one by_lines V3 (from_two 6) (S2 ".ELECTRICAL") (from_two 8) false (S2 ".ELECTRICAL") [] Elect o2 g).
      * apply (IdfFileCase.blank_by [] (in_lines (skipn 7 two_text))); [reflexivity|reflexivity|]. open (S2 ".ELECTRICAL") (in_lines (skipn 8 two_text)).
      * exact head2_laid.
      * same ".ELECTRICAL"%string.
      * exact E.
      * rewrite G. apply (oi_blank by_lines V3 [S2 " "] []); [|constructor|intros []].
        apply Forall_cons; [|apply Forall_nil]. split; [constructor; [apply sp_space|constructor]|apply by_computing; reflexivity].
  - vm_compute in E. injection E as <- _. split; [reflexivity|]. split; [apply match_iff; vm_compute; reflexivity|].
    split; [discriminate|]. split; [vm_compute; reflexivity|]. split; [discriminate|]. vm_compute. reflexivity.
Qed.

(** With another point the file is refused. *)
Definition bad_text : list string :=
  [".ELECTRICAL"; "A B MM 1"; "0 0 0 0"; "0 10 0 360"; ".END_ELECTRICAL"; ".ELECTRICAL"; "A B MM 1"; "0 0 0 0"; "0 10.1 0 360"; ".END_ELECTRICAL"]%string.
Lemma bad_refused : read_lib_sections by_lines V3 2000 (mkStream (in_lines bad_text) false) [] = None.
Proof. vm_compute. reflexivity. Qed.

(** ** TNM *)

Definition tnm_fields : list field := [Bare (S2 "A"); Bare (S2 "B"); Bare (S2 "tnm"); Bare (S2 "100")].
Definition tnm_rest : str := in_lines ["0 0 0 0"; "0 1000 0 360"; ".END_MECHANICAL"]%string.
Lemma tnm_case : opens (mkStream (spaced tnm_fields ++ nl :: tnm_rest) false) (spaced tnm_fields) (mkStream tnm_rest false) /\
  laid_out false tnm_fields (spaced tnm_fields) /\ same_word "TNM" (S2 "tnm") /\
  read_comp by_lines Mechan V2 [] (mkStream (spaced tnm_fields ++ nl :: tnm_rest) false) = None /\
  exists o g, read_comp by_lines Mechan V2 [] (mkStream (S2 "A B bogus 100" ++ nl :: tnm_rest) false) = Some (o, g) /\ co_unit o = Tnm.
Proof.
  split; [open (spaced tnm_fields) tnm_rest|]. split; [laid tnm_fields|]. split; [same "TNM"%string|]. split; [vm_compute; reflexivity|].
  do 2 eexists. split; vm_compute; reflexivity.
Qed.

(** ** Written and read again *)

Definition the_part : cout := mkCout [S2 "first"; S2 "second one"] Elect (mkNames (S2 "R0603") (S2 "1k 1%")) MM (8 # 10) [hole_at] [(S2 "RESISTANCE", S2 "1000"); (S2 "TOLERANCE", S2 "1")].
Definition the_clip : cout := mkCout [] Mechan (mkNames [] (S2 "clip")) MM 2 [tri_cw] [(S2 "MASS", S2 "3")].
Definition entries : list (str * (Z * cout)) :=
  [(S2 "R0603_1k 1%", (2, the_part)); (S2 "UNUSED_", (0, mkCout [] Elect (mkNames (S2 "UNUSED") []) Tnm 1 [[]; []] [])); (S2 "_clip", (1, the_clip))].

Lemma the_part_fits : comp_fits the_part.
Proof.
  assert (B := board_fit). inversion B as [|? ? B1 B']; subst. inversion B' as [|? ? B2 _]; subst.
  split.
  { assert (K : forall s, s <> [] -> existsb (Ascii.eqb nl) s = false -> match s with x :: _ => is_space x = false | [] => True end -> is_space (last s nl) = false -> comment_ok s).
    { intros s H1 H2 H3 H4. split; [exact H1|]. split; [apply by_computing, H2|]. split.
      - intros c r -> X. apply space_true in X. congruence.
      - intros c r -> X. rewrite last_last in H4. apply space_true in X. congruence. }
    apply Forall_cons; [apply K; discriminate || reflexivity|]. apply Forall_cons; [apply K; discriminate || reflexivity|apply Forall_nil]. }
  split; [split; apply by_computing; reflexivity|]. split; [split; apply by_computing; reflexivity|]. split; [left; discriminate|]. split; [discriminate|].
  split; [apply sized_small; vm_compute; discriminate|]. split; [apply Forall_cons; [exact B2|apply Forall_nil]|]. split; [cbn; lia|].
  split.
  - apply ord_cons; [|apply ord_cons; [apply Forall_nil|apply ord_nil]]. apply Forall_cons; [|apply Forall_nil]. apply IdfPlaceFacts.ltb_before. reflexivity.
  - apply Forall_cons; [split; split; apply by_computing; reflexivity|]. apply Forall_cons; [split; split; apply by_computing; reflexivity|apply Forall_nil].
Qed.
Lemma the_clip_fits : comp_fits the_clip.
Proof.
  assert (B := board_fit). inversion B as [|? ? B1 B']; subst.
  split; [apply Forall_nil|]. split; [split; intros []|]. split; [split; apply by_computing; reflexivity|]. split; [right; discriminate|]. split; [discriminate|].
  split; [apply sized_small; vm_compute; discriminate|]. split; [apply Forall_cons; [exact B1|apply Forall_nil]|]. split; [cbn; lia|].
  split; [apply ord_cons; [apply Forall_nil|apply ord_nil]|]. apply Forall_cons; [split; split; apply by_computing; reflexivity|apply Forall_nil].
Qed.
Lemma entries_ok : Forall (fun x => fst x = uid (snd (snd x)) /\ (fst (snd x) <> 0 -> comp_fits (snd (snd x)))) entries /\ in_order (map fst entries) /\
  date_ok (S2 "2020/01/01.00:00:00") /\ length (referred entries) = 2%nat.
Proof.
  split; [|split; [|split]].
  - apply Forall_cons; [split; [reflexivity|intros _; exact the_part_fits]|]. apply Forall_cons; [split; [reflexivity|intros X; exfalso; apply X; reflexivity]|].
    apply Forall_cons; [split; [reflexivity|intros _; exact the_clip_fits]|apply Forall_nil].
  - apply ord_cons; [apply Forall_cons; [apply IdfPlaceFacts.ltb_before; reflexivity|apply Forall_cons; [apply IdfPlaceFacts.ltb_before; reflexivity|apply Forall_nil]]|].
    apply ord_cons; [apply Forall_cons; [apply IdfPlaceFacts.ltb_before; reflexivity|apply Forall_nil]|]. apply ord_cons; [apply Forall_nil|apply ord_nil].
  - exact (proj1 (IdfFileSect.bare_ok (S2 "2020/01/01.00:00:00") ltac:(discriminate) eq_refl eq_refl)).
  - reflexivity.
Qed.

(** A whole outline. *)
Definition thou_fields : list field := [Bare (S2 "A_B"); Bare (S2 "C"); Bare (S2 "THOU"); Bare (S2 "500")].
Lemma thou_laid : laid_out false thou_fields (S2 "A_B C THOU 500").
Proof. laid thou_fields. Qed.
Lemma thou_opens : opens (from_two 8) (S2 "A_B C THOU 500") (from_two 9).
Proof. open (S2 "A_B C THOU 500") (in_lines (skipn 9 two_text)). Qed.
Lemma end_opens : opens (from_two 13) (S2 ".END_ELECTRICAL") (from_two 14).
Proof. open (S2 ".END_ELECTRICAL") (in_lines (skipn 14 two_text)). Qed.
Lemma whole_case : exists q ls, opens (from_two 8) (S2 "A_B C THOU 500") (from_two 9) /\ s_eof (from_two 9) = false /\
  laid_out false thou_fields (S2 "A_B C THOU 500") /\ comp_means V3 thou_fields (mkNames (S2 "A_B") (S2 "C")) Thou q /\
  read_outlines by_lines true true Thou V3 (from_two 9) = Some (ls, from_two 12) /\ length ls = 1%nat /\
  read_props (S (length (s_rest (from_two 12)))) (from_two 12) [] = Some ([(S2 "k", S2 "v")], from_two 13) /\
  opens (from_two 13) (S2 ".END_ELECTRICAL") (from_two 14) /\ s_eof (from_two 14) = false.
Proof.
  do 2 eexists. split; [exact thou_opens|]. split; [reflexivity|]. split; [exact thou_laid|]. split; [|split; [|split; [|split; [|split; [exact end_opens|reflexivity]]]]].
  - apply (comp_line_iff V3 (S2 "A_B C THOU 500") false thou_fields _ _ _ thou_laid). vm_compute. reflexivity.
  - vm_compute. reflexivity.
  - reflexivity.
  - vm_compute. reflexivity.
Qed.

Lemma comment_case : opens_comment (mkStream (S2 "# A B MM 1" ++ nl :: tnm_rest) false).
Proof.
  exists [], (S2 " A B MM 1"), (mkStream (S2 "# A B MM 1" ++ nl :: tnm_rest) false), (mkStream tnm_rest false). split; [reflexivity|]. split; [apply Forall_nil|]. split; [reflexivity|].
  split; [reflexivity|]. split; [apply by_computing; reflexivity|]. left. exists tnm_rest. auto.
Qed.
