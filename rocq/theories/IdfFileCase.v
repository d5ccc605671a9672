(** Cases for the headers, sections and outlines of IDF files. *)

From Verif Require Import Base Num IoModel IdfText IdfOutl IdfFile Spec IdfSpec IdfOutlSpec IdfFileSpec
  IdfFacts IdfNum IdfRound IdfSect IdfLine IdfOutlText IdfOutlCase IdfFileHead IdfFileSect IdfFileOrder IdfFileOutl IdfFileAgain.
From Verif Require IdfPlace IdfPlaceSpec IdfPlaceCase.
From Coq Require Import Lia.
Open Scope Z_scope.

(** ** Headers *)

Definition q (s : string) : str := quote :: S2 s ++ [quote].
Definition head2 : str := S2 "Board_File 2.0 " ++ q "my tool" ++ S2 " 2012/12/31 07x left".
Definition head3 : str := q "a board" ++ S2 " tnm more".
Definition head_lines : list str := [[]; S2 ".Header"; head2; S2 "  "; head3; S2 ".END_header"; S2 ".X"].
Definition head_f : stream := mkStream (with_newlines head_lines) false.
Definition said_head : head := mkHead V2 (S2 "my tool") (S2 "2012/12/31") 7.

Lemma plain_by raw rest : raw <> [] -> existsb (Ascii.eqb nl) raw = false -> match raw with x :: _ => Ascii.eqb x hash = false | [] => True end ->
  match raw with x :: _ => is_space x = false | [] => True end -> is_space (last raw nl) = false ->
  opens (mkStream (raw ++ nl :: rest) false) raw (mkStream rest false).
Proof.
  intros A B C D E. apply opens_plain; auto.
  - apply by_computing, B.
  - intros r ->. rewrite Ascii.eqb_refl in C. discriminate.
  - intros x r ->. intros H. apply space_true in H. congruence.
  - intros x r ->. rewrite last_last in E. intros H. apply space_true in H. congruence.
Qed.

Lemma blank_by b rest l f' : forallb is_space b = true -> existsb (Ascii.eqb nl) b = false -> opens (mkStream rest false) l f' -> opens (mkStream (b ++ nl :: rest) false) l f'.
Proof.
  intros A B O. replace (b ++ nl :: rest) with (with_newlines [b] ++ rest) by (unfold with_newlines; cbn [map concat]; rewrite app_nil_r, <- app_assoc; reflexivity).
  apply opens_blank; [|exact O]. apply Forall_cons; [|apply Forall_nil]. split; [|apply by_computing, B].
  rewrite forallb_forall in A. apply Forall_forall. intros x I. apply space_true, A, I.
Qed.

Definition from (n : nat) : stream := mkStream (with_newlines (skipn n head_lines)) false.

Lemma head2_laid : laid_out false [Bare (S2 "Board_File"); Bare (S2 "2.0"); Quoted (S2 "my tool"); Bare (S2 "2012/12/31"); Bare (S2 "07x"); Bare (S2 "left")] head2.
Proof.
  apply (spaced_laid [Bare (S2 "Board_File"); Bare (S2 "2.0"); Quoted (S2 "my tool"); Bare (S2 "2012/12/31"); Bare (S2 "07x"); Bare (S2 "left")]).
  apply Forall_cons; [apply bare_ok; try discriminate; reflexivity|]. apply Forall_cons; [apply bare_ok; try discriminate; reflexivity|].
  apply Forall_cons; [apply quoted_ok; apply by_computing; reflexivity|].
  do 3 (apply Forall_cons; [apply bare_ok; try discriminate; reflexivity|]). apply Forall_nil.
Qed.
Lemma head3_laid : laid_out false [Quoted (S2 "a board"); Bare (S2 "tnm"); Bare (S2 "more")] head3.
Proof.
  apply (spaced_laid [Quoted (S2 "a board"); Bare (S2 "tnm"); Bare (S2 "more")]).
  apply Forall_cons; [apply quoted_ok; apply by_computing; reflexivity|].
  do 2 (apply Forall_cons; [apply bare_ok; try discriminate; reflexivity|]). apply Forall_nil.
Qed.

Lemma word_by k s : forallb (fun c => negb ((97 <=? code c) && (code c <=? 122))) (S2 k) = true -> compare_token k s = true -> same_word k s.
Proof. intros A B. apply (keyword_same k s (capitals _ A)). exact B. Qed.

Lemma head_says : exists l1 f1 l2 f2 l3 f3 l4 f4 b2 fs2 b3 fs3,
  opens head_f l1 f1 /\ opens f1 l2 f2 /\ opens f2 l3 f3 /\ opens f3 l4 f4 /\ laid_out b2 fs2 l2 /\ laid_out b3 fs3 l3 /\
  same_word ".HEADER" l1 /\ head_means "BOARD_FILE" fs2 said_head /\ name_means V2 fs3 (S2 "a board") Tnm /\ same_word ".END_HEADER" l4 /\
  s_rest f4 = S2 ".X" ++ [nl].
Proof.
  exists (S2 ".Header"), (from 2), head2, (from 3), head3, (from 5), (S2 ".END_header"), (from 6), false, [Bare (S2 "Board_File"); Bare (S2 "2.0"); Quoted (S2 "my tool"); Bare (S2 "2012/12/31"); Bare (S2 "07x"); Bare (S2 "left")],
    false, [Quoted (S2 "a board"); Bare (S2 "tnm"); Bare (S2 "more")].
  split; [exact (blank_by [] _ _ _ eq_refl eq_refl (plain_by (S2 ".Header") (with_newlines (skipn 2 head_lines)) ltac:(discriminate) eq_refl eq_refl eq_refl eq_refl))|].
  split; [exact (plain_by head2 (with_newlines (skipn 3 head_lines)) ltac:(discriminate) eq_refl eq_refl eq_refl eq_refl)|].
  split; [exact (blank_by (S2 "  ") _ _ _ eq_refl eq_refl (plain_by head3 (with_newlines (skipn 5 head_lines)) ltac:(discriminate) eq_refl eq_refl eq_refl eq_refl))|].
  split; [exact (plain_by (S2 ".END_header") (with_newlines (skipn 6 head_lines)) ltac:(discriminate) eq_refl eq_refl eq_refl eq_refl)|].
  split; [exact head2_laid|]. split; [exact head3_laid|]. split; [apply word_by; reflexivity|].
  split; [|split; [|split; [apply word_by; reflexivity|reflexivity]]].
  - apply (head_is "BOARD_FILE" (S2 "Board_File") (S2 "2.0") (Quoted (S2 "my tool")) (Bare (S2 "2012/12/31")) (S2 "07x") [Bare (S2 "left")] said_head); try reflexivity.
    + apply word_by; reflexivity.
    + left. reflexivity.
    + left. eexists. vm_compute. reflexivity.
  - apply (name_is V2 (Quoted (S2 "a board")) (S2 "tnm") [Bare (S2 "more")] Tnm). split; [reflexivity|]. apply word_by; reflexivity.
Qed.

(** ** Sections *)

Definition small_board : list str := map S2 [".HEADER"; "BOARD_FILE 3.0 x 2012 1"; "b MM"; ".END_HEADER"; ".BOARD_OUTLINE ECAD"; "1.6"; "0 0 0 0"; "0 10 0 0"; "0 0 10 0"; "0 0 0 0"; ".END_BOARD_OUTLINE"]%string.
Definition drilled : list str := map S2 [".DRILLED_HOLES"; "1 2 3 PTH BOARD PIN ECAD"; ".END_DRILLED_HOLES"]%string.

Definition found (t : list str) : option nat :=
  match read_file by_lines IdfPlace.Elec (with_newlines t) with Some (_, _, _, l) => Some (length l) | None => None end.

Lemma holes_found : found (small_board ++ drilled) = Some 2%nat /\ found (small_board ++ [S2 ".TEXT"] ++ drilled) = Some 1%nat /\
  found (small_board ++ [S2 "# TEXT"] ++ drilled) = Some 2%nat /\ found (small_board ++ drilled ++ skipn 4 small_board) = None /\
  found (small_board ++ drilled ++ small_board) = Some 2%nat.
Proof. repeat split; vm_compute; reflexivity. Qed.

Lemma heading_dot w : heading_word w -> exists r, w = "."%char :: r.
Proof.
  intros (k & I & W). assert (K : exists k', S2 k = "."%char :: k') by (cbn in I; repeat (destruct I as [<-|I]; [eexists; reflexivity|]); destruct I).
  destruct K as (k' & K). unfold same_word in W. rewrite K in W. inversion W as [|? y ? r L _]; subst. exists r. f_equal.
  destruct L as [L|(L & _)]; [congruence|]. cbn in L. exfalso. lia.
Qed.

Lemma quiet_by l : existsb (Ascii.eqb quote) l = false -> existsb (Ascii.eqb "."%char) (tl l) = false -> quiet l.
Proof.
  intros A B. split; [apply by_computing, A|]. intros a w b E N H. apply heading_dot in H as (r & ->). apply by_computing in B. apply B.
  rewrite E. destruct a as [|x a]; [congruence|]. cbn [app tl]. apply in_app_iff. right. left. reflexivity.
Qed.

Lemma drilled_quiet : ~ heading_word (S2 ".TEXT") /\ Forall quiet_line drilled.
Proof.
  split; [apply heading_none; reflexivity|].
  assert (K : forall raw, raw <> [] -> existsb (Ascii.eqb nl) raw = false -> is_space (hd nl raw) = false -> is_space (last raw nl) = false ->
    existsb (Ascii.eqb quote) raw = false -> existsb (Ascii.eqb "."%char) (tl raw) = false -> quiet_line raw).
  { intros raw N A B C D E. split; [apply by_computing, A|]. right. exists raw. split; [|apply quiet_by; assumption].
    exists [], []. rewrite app_nil_r. split; [reflexivity|]. split; [constructor|]. split; [constructor|]. split.
    - intros x r ->. intros H. apply space_true in H. cbn in B. congruence.
    - intros x r ->. rewrite last_last in C. intros H. apply space_true in H. congruence. }
  do 3 (apply Forall_cons; [apply K; [discriminate|reflexivity|reflexivity|reflexivity|reflexivity|reflexivity]|]). apply Forall_nil.
Qed.

(** ** Outlines *)

Definition the_board : outl := mkOutl KBoard Ecad [] (16 # 10) None board.
Definition the_region : outl := mkOutl KRegion Mcad (S2 "hot parts") 0 (Some LTop) [tri_cw].
Definition the_place : outl := mkOutl KPlace Unowned [] (5 # 1) (Some LBoth) [hole_at].
Definition the_other : outl := mkOutl KOther Mcad (S2 "case") (2 # 1) (Some LTop) [tri_cw].
Definition low_place : outl := mkOutl KPlace Unowned [] (-1) (Some LBoth) [hole_at].

Lemma outls_fit : outl_fits by_lines MM the_board /\ outl_fits by_lines MM the_region /\ outl_fits by_lines MM the_place.
Proof.
  pose proof board_fit as BF. inversion BF as [|? ? F1 BF2]; subst. inversion BF2 as [|? ? F2 _]; subst.
  split; [|split].
  - split; [discriminate|]. split; [reflexivity|]. split; [split; [vm_compute; discriminate|apply sized_small; vm_compute; discriminate]|]. split; [reflexivity|].
    split; [intros H; exfalso; apply H; reflexivity|]. split; [exact board_fit|]. split; [cbn; lia|exact board_turns].
  - split; [discriminate|]. split; [left; reflexivity|]. split; [reflexivity|]. split; [split; apply by_computing; reflexivity|]. split; [discriminate|].
    split; [apply Forall_cons; [exact F1|apply Forall_nil]|]. split; [cbn; lia|cbn; lia].
  - split; [discriminate|]. split; [right; right; reflexivity|]. split; [split; [vm_compute; discriminate|apply sized_small; vm_compute; discriminate]|]. split; [reflexivity|]. split; [discriminate|].
    split; [apply Forall_cons; [exact F2|apply Forall_nil]|]. split; [cbn; lia|cbn; lia].
Qed.

Lemma two_spoil : spoils MM the_other /\ spoils MM low_place.
Proof.
  split; (split; [discriminate|]).
  - left. split; [reflexivity|]. split; apply by_computing; reflexivity.
  - right. split; [reflexivity|]. split; [apply sized_small; vm_compute; discriminate|vm_compute; discriminate].
Qed.

Definition again (os : list outl) : option (option nat) :=
  match write_file by_lines MM (S2 "tool") (S2 "2012") (S2 "b") 0 os [] [] IdfPlaceCase.top_two with
  | None => None
  | Some t => Some (match read_file by_lines IdfPlace.Elec t with None => None | Some (_, _, _, l) => Some (length l) end)
  end.
Lemma again_cases : again [the_board; the_region; the_place] = Some (Some 5%nat) /\ again [the_board; the_region; the_other] = Some None /\
  again [the_board; low_place] = Some None.
Proof. repeat split; vm_compute; reflexivity. Qed.

Lemma parts_fit : Forall (IdfPlaceSpec.part_ok MM) (IdfPlaceSpec.parts_of IdfPlaceCase.top_two).
Proof. apply IdfPlaceCase.two_ok. auto. Qed.

Lemma comment_first : opens_comment (mkStream (with_newlines [S2 " "; S2 "# from my tool"; S2 ".HEADER"]) false).
Proof.
  exists [S2 " "], (S2 " from my tool"), (mkStream (with_newlines [S2 "# from my tool"; S2 ".HEADER"]) false), (mkStream (with_newlines [S2 ".HEADER"]) false).
  split; [reflexivity|]. split; [apply Forall_cons; [|apply Forall_nil]; split; [apply Forall_cons; [apply space_true; reflexivity|apply Forall_nil]|apply by_computing; reflexivity]|].
  split; [reflexivity|]. split; [reflexivity|]. split; [apply by_computing; reflexivity|]. left. eexists. split; reflexivity.
Qed.

Lemma header_text : field_ok (Bare (S2 "2012/12/31.23:59:59")) /\
  write_head [] (S2 "2012") [] 0 Tnm = S2 ".HEADER" ++ nl :: S2 "BOARD_FILE 3.0 " ++ q "Created by KiCad-IDF Framework" ++ S2 " 2012 1" ++ nl ::
    q "BOARD WITH NO NAME" ++ S2 " THOU" ++ nl :: S2 ".END_HEADER" ++ [nl; nl].
Proof. split; [apply bare_ok; try discriminate; reflexivity|vm_compute; reflexivity]. Qed.
