(** Cases for the lines of the sections of an IDF board. *)

From Verif Require Import Base Num IoModel IdfText IdfOutl IdfFile Spec IdfSpec IdfOutlSpec IdfFileSpec IdfRecSpec
  IdfFacts IdfNum IdfRound IdfSect IdfLine IdfOutlFacts IdfOutlSec IdfOutlText IdfOutlCase IdfFileHead IdfFileSect IdfFileOutl IdfFileCase IdfRecFacts.
From Verif Require IdfPlace.
From Coq Require Import Lia.
Open Scope Z_scope.

Ltac laid fs := apply (spaced_laid fs); repeat (apply Forall_cons; [first [apply quoted_ok; apply by_computing; reflexivity | apply IdfFileSect.bare_ok; try discriminate; reflexivity]|]); apply Forall_nil.
Ltac same k := apply (IdfFileCase.word_by k); reflexivity.
Ltac open raw rest := exact (IdfFileCase.plain_by raw rest ltac:(discriminate) eq_refl eq_refl eq_refl eq_refl).

(** ** The second line *)

Definition zero_fields : list field := [Bare (S2 "0.0")].
Definition other_fields : list field := [Quoted (S2 "a case"); Bare (S2 "100"); Quoted (S2 "bottom")].
Definition side_fields : list field := [Bare (S2 "Both")].

Lemma records_case :
  (laid_out false zero_fields (spaced zero_fields) /\ second_means KBoard MM V3 zero_fields [] (16 # 10) None) /\
  (laid_out false other_fields (spaced other_fields) /\ (exists q, second_means KOther Thou V3 other_fields (S2 "a case") q (Some LBottom) /\ (q == 254 # 100)%Q) /\
   exists q, second_means KOther Tnm V2 other_fields (S2 "a case") q (Some LTop) /\ (q == 1 # 1000)%Q) /\
  (laid_out false side_fields (spaced side_fields) /\ second_means KPlace MM V3 side_fields [] (-1) (Some LBoth) /\
   forall id q l, ~ second_means KPlaceKo MM V3 side_fields id q l).
Proof.
  assert (A : laid_out false zero_fields (spaced zero_fields)) by laid zero_fields.
  assert (B : laid_out false other_fields (spaced other_fields)) by laid other_fields.
  assert (C : laid_out false side_fields (spaced side_fields)) by laid side_fields.
  split; [split; [exact A|]|split; [split; [exact B|split]|split; [exact C|split]]].
  - apply (second_iff KBoard MM V3 _ false _ _ _ _ ltac:(discriminate) A). vm_compute. reflexivity.
  - eexists. split; [apply (second_iff KOther Thou V3 _ false _ _ _ _ ltac:(discriminate) B); vm_compute; reflexivity|]. reflexivity.
  - eexists. split; [apply (second_iff KOther Tnm V2 _ false _ _ _ _ ltac:(discriminate) B); vm_compute; reflexivity|]. reflexivity.
  - apply (second_iff KPlace MM V3 _ false _ _ _ _ ltac:(discriminate) C). vm_compute. reflexivity.
  - intros id q l M. apply (second_iff KPlaceKo MM V3 _ false _ _ _ _ ltac:(discriminate) C) in M. vm_compute in M. discriminate.
Qed.

(** ** A whole section *)

Definition place_text : list string :=
  ["BOTH"; "0 0 0 0"; "0 10 0 0"; "0 0 10 0"; "0 0 0 0"; ".end_place_outline of it"; ""]%string.
Definition from_place (n : nat) : stream := mkStream (in_lines (skipn n place_text)) false.
Definition place_head : list field := [Bare (S2 ".Place_Outline"); Bare (S2 "nobody")].
Definition place_end : list field := [Bare (S2 ".end_place_outline"); Bare (S2 "of"); Bare (S2 "it")].

Lemma nobody : owner_said [Bare (S2 "nobody")] Unowned.
Proof. apply owner_iff. vm_compute. reflexivity. Qed.

Lemma place_second : second_of KPlace MM V3 (from_place 0) [] (-1) (Some LBoth) (from_place 1).
Proof.
  apply (so_line KPlace MM V3 _ _ _ _ _ (S2 "BOTH") false [Bare (S2 "BOTH")]).
  - discriminate.
  - intros (X & _). discriminate.
  - open (S2 "BOTH") (in_lines (skipn 1 place_text)).
  - intros _. reflexivity.
  - laid [Bare (S2 "BOTH")].
  - cbn. split; [reflexivity|]. exists (Bare (S2 "BOTH")), [], LBoth. split; [reflexivity|]. split; [cbn; same "BOTH"%string|]. unfold outer. auto 6.
Qed.

Lemma place_whole : exists ls, laid_out false place_head (spaced place_head) /\ same_word (key KPlace) (S2 ".Place_Outline") /\
  owner_said [Bare (S2 "nobody")] Unowned /\ second_of KPlace MM V3 (from_place 0) [] (-1) (Some LBoth) (from_place 1) /\
  read_outlines by_lines true false MM V3 (from_place 1) = Some (ls, from_place 5) /\ length ls = 1%nat /\
  opens (from_place 5) (spaced place_end) (from_place 6) /\ laid_out false place_end (spaced place_end) /\ s_eof (from_place 6) = false /\
  ended KPlace (spaced place_end) place_end /\
  read_outline by_lines KPlace MM V3 (spaced place_head) (from_place 0) = Some (mkOutl KPlace Unowned [] (-1) (Some LBoth) ls, from_place 6).
Proof.
  eexists. split; [laid place_head|]. split; [same (key KPlace)|]. split; [exact nobody|]. split; [exact place_second|].
  split; [vm_compute; reflexivity|]. split; [reflexivity|]. split; [open (spaced place_end) (in_lines (skipn 6 place_text))|]. split; [laid place_end|]. split; [reflexivity|].
  split; [cbn; do 2 eexists; split; [reflexivity|]; same (end_key KPlace)|]. vm_compute. reflexivity.
Qed.

Lemma place_spoiled : exists o g, opens (from_place 0) (S2 "BOTH") (from_place 1) /\ laid_out false [Bare (S2 "BOTH")] (S2 "BOTH") /\
  read_outline by_lines KPlace MM V3 (spaced place_head) (from_place 0) = Some (o, g) /\ ol_loops o <> [].
Proof.
  do 2 eexists. split; [open (S2 "BOTH") (in_lines (skipn 1 place_text))|]. split; [laid [Bare (S2 "BOTH")]|]. split; [vm_compute; reflexivity|discriminate].
Qed.

(** ** After the placement *)

Definition placed : list str := small_board ++ map S2 [".PLACEMENT"; ".END_PLACEMENT"]%string.
Definition tail1 : list str := map S2 [""; "# a comment"; " "]%string.
Definition tail2 : list str := map S2 ["# a comment"; "#"; ".NOTES"]%string.
Definition tail3 : list str := map S2 ["# a comment"; ""; ".NOTES"]%string.

Lemma tails_found : found (placed ++ tail1) = Some 2%nat /\ found (placed ++ tail2) = Some 2%nat /\ found (placed ++ tail3) = None.
Proof. vm_compute. auto. Qed.

Lemma tail_reached : exists h name u f l, read_head (mkStream (with_newlines (placed ++ tail3)) false) = Some (h, name, u, f) /\
  read_sections by_lines u (h_ver h) IdfPlace.Elec (S (length (with_newlines (placed ++ tail3)))) AtHeader [] f =
    Some (l, AtPlacement, Some (mkStream (with_newlines tail3 ++ []) false)) /\ bad_tail (tail3 ++ [[]]).
Proof.
  do 5 eexists. split; [vm_compute; reflexivity|]. split; [vm_compute; reflexivity|].
  exists (map S2 ["# a comment"; ""]%string), (S2 ".NOTES"), [[]]. split; [reflexivity|].
  assert (NS : ~ isspc "."%char) by (intros X; vm_compute in X; intuition discriminate).
  assert (NA : ~ isspc "a"%char) by (intros X; vm_compute in X; intuition discriminate).
  split; [intros B; inversion B; contradiction|]. split; [discriminate|].
  apply Forall_cons; [right; exists (S2 " a comment"); split; [reflexivity|]; intros B; inversion B as [|? ? _ B']; inversion B'; contradiction|].
  apply Forall_cons; [left; apply Forall_nil|apply Forall_nil].
Qed.
