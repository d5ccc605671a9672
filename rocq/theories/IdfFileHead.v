(** Facts about the headers of IDF files (IdfFile.v, IdfFileSpec.v). *)

From Verif Require Import Base Num IoModel IdfText IdfOutl IdfFile Spec IdfSpec IdfOutlSpec IdfFileSpec
  IdfFacts IdfNum IdfRound IdfLine IdfOutlText.
Open Scope Z_scope.

Lemma opens_line f l f' : opens f l f' -> read_line f = Some (l, false, f').
Proof. intros (bl & raw & g & -> & B & G & E & N & T & L). exact (read_line_blanks bl raw l g f' B G E N T L). Qed.

Lemma opens_comment_line f : opens_comment f -> read_line f = None \/ exists l f', read_line f = Some (l, true, f').
Proof.
  intros (bl & raw & g & f' & -> & B & G & E).
  destruct (read_line_comment bl raw g f' B G E) as [H|(l & H)]; [left; exact H|right; exists l, f'; exact H].
Qed.

Lemma comment_refused f : opens_comment f -> head_line f = None /\ last_line f = None.
Proof. intros C. unfold head_line, last_line. destruct (opens_comment_line f C) as [->|(l & f' & ->)]; auto. Qed.

Lemma opens_head f l f' : opens f l f' -> head_line f = if s_eof f' then None else Some (l, f').
Proof. intros O. unfold head_line. rewrite (opens_line _ _ _ O). reflexivity. Qed.
Lemma opens_last f l f' : opens f l f' -> last_line f = Some (l, f').
Proof. intros O. unfold last_line. rewrite (opens_line _ _ _ O). reflexivity. Qed.

Lemma get_laid b fs rest line st : laid_out b fs rest -> before line rest st ->
  match fs with
  | [] => exists st', get_string line st = (false, st') /\ get_string line st' = (false, st')
  | f :: fs' => exists st' rest', get_string line st = (true, st') /\ sc_tok st' = value f /\ sc_quoted st' = in_quotes f /\
      before line rest' st' /\ laid_out b fs' rest'
  end.
Proof.
  intros L B. destruct L as [w W|w t W N|b w f fs rest W O E L].
  - destruct (get_none _ _ _ B W) as (st' & G & I & _). exists st'. split; [exact G|]. unfold get_string. rewrite I, Nat.leb_refl. reflexivity.
  - destruct (get_torn _ _ _ _ B W N) as (st' & G & I & _). exists st'. split; [exact G|]. unfold get_string. rewrite I, Nat.leb_refl. reflexivity.
  - destruct (get_field _ _ _ _ _ B W O E) as (G & B'). eexists _, rest. split; [exact G|]. auto.
Qed.

Lemma version_read s v : version_of s = Some v <-> version_word s v.
Proof.
  unfold version_of.
  assert (P : forall t, str_eqb s t = true <-> s = t) by (intros; apply str_eqb_eq).
  destruct (str_eqb s (S2 "3.0")) eqn:E1; cbn [orb].
  { apply P in E1. subst s. destruct v; split; intros H; try discriminate; cbn in *; try tauto; try (destruct H as [H|[H|H]]; discriminate). }
  destruct (str_eqb s (S2 "3.")) eqn:E2; cbn [orb].
  { apply P in E2. subst s. destruct v; split; intros H; try discriminate; cbn in *; try tauto; try (destruct H as [H|[H|H]]; discriminate). }
  destruct (str_eqb s (S2 "3")) eqn:E3; cbn [orb].
  { apply P in E3. subst s. destruct v; split; intros H; try discriminate; cbn in *; try tauto; try (destruct H as [H|[H|H]]; discriminate). }
  assert (N3 : ~ version_word s V3).
  { unfold version_word. intros [H|[H|H]]; apply P in H; congruence. }
  destruct (str_eqb s (S2 "2.0")) eqn:F1; cbn [orb].
  { apply P in F1. subst s. destruct v; split; intros H; try discriminate; try tauto; cbn; auto. }
  destruct (str_eqb s (S2 "2.")) eqn:F2; cbn [orb].
  { apply P in F2. subst s. destruct v; split; intros H; try discriminate; try tauto; cbn; auto. }
  destruct (str_eqb s (S2 "2")) eqn:F3; cbn [orb].
  { apply P in F3. subst s. destruct v; split; intros H; try discriminate; try tauto; cbn; auto. }
  split; [discriminate|]. destruct v; [|tauto]. unfold version_word. intros [H|[H|H]]; apply P in H; congruence.
Qed.

Lemma number_read s n : (match stream_int s with Some (m, _) => m | None => 1 end) = n <-> file_number s n.
Proof.
  unfold file_number. destruct (stream_int s) as [[m r]|]; split; intros H.
  - subst. left. eauto.
  - destruct H as [(r' & H)|[H _]]; [congruence|discriminate].
  - subst. auto.
  - destruct H as [(r' & H)|[_ H]]; [discriminate|congruence].
Qed.

Lemma head_fields_iff key line b fs h : forallb (fun c => negb ((97 <=? code c) && (code c <=? 122))) (S2 key) = true -> S2 key <> [] ->
  laid_out b fs line -> ((exists st, head_fields key line = Some (h, st)) <-> head_means key fs h).
Proof.
  intros CK NK L. pose proof (before_start line [] false) as B0. pose proof (get_laid _ _ _ _ _ L B0) as G0.
  unfold head_fields.
  destruct fs as [|f1 fs].
  { destruct G0 as (st & E & _). pose proof (first_laid _ _ _ L) as FL. cbn zeta in FL. rewrite E in FL. cbn [snd] in FL. destruct FL as (_ & T).
    rewrite E. split; [|intros M; inversion M]. intros (x & H). destruct (sc_quoted st); [discriminate|]. rewrite T in H.
    destruct (compare_token key []) eqn:C; [|discriminate]. unfold compare_token in C. apply str_eqb_eq in C. cbn in C. congruence. }
  destruct G0 as (st & r1 & E & T & Q & B1 & L1). rewrite E, T, Q.
  destruct f1 as [k|k]; cbn [in_quotes value]; [|split; [intros (x & H); discriminate|intros M; inversion M]].
  destruct (key_cases key k CK) as [(C & S)|(C & S)]; rewrite C; cbn [negb]; [|split; [intros (x & H); discriminate|intros M; inversion M; tauto]].
  pose proof (get_laid _ _ _ _ _ L1 B1) as G1. destruct fs as [|f2 fs].
  { destruct G1 as (st' & E1 & _). rewrite E1. split; [intros (x & H); discriminate|intros M; inversion M]. }
  destruct G1 as (st1 & r2 & E1 & T1 & Q1 & B2 & L2). rewrite E1, T1, Q1.
  destruct f2 as [ver|ver]; cbn [in_quotes value]; [|split; [intros (x & H); discriminate|intros M; inversion M]].
  destruct (version_of ver) as [v|] eqn:V; [|split; [intros (x & H); discriminate|intros M; inversion M; subst; match goal with X : version_word _ _ |- _ => apply version_read in X end; congruence]].
  pose proof (word_laid _ _ _ _ _ L2 B2) as G2. destruct fs as [|src fs]; [rewrite G2; split; [intros (x & H); discriminate|intros M; inversion M]|].
  destruct G2 as (st2 & r3 & E2 & _ & B3 & L3). rewrite E2.
  pose proof (word_laid _ _ _ _ _ L3 B3) as G3. destruct fs as [|date fs]; [rewrite G3; split; [intros (x & H); discriminate|intros M; inversion M]|].
  destruct G3 as (st3 & r4 & E3 & _ & B4 & L4). rewrite E3.
  pose proof (get_laid _ _ _ _ _ L4 B4) as G4. destruct fs as [|num fs].
  { destruct G4 as (st' & E4 & _). rewrite E4. split; [intros (x & H); discriminate|intros M; inversion M]. }
  destruct G4 as (st4 & r5 & E4 & T4 & Q4 & _). rewrite E4, T4, Q4.
  destruct num as [num|num]; cbn [in_quotes value]; [|split; [intros (x & H); discriminate|intros M; inversion M]].
  split.
  - intros (x & H). injection H as H _. subst h. constructor; auto.
    + apply version_read, V.
    + apply number_read. reflexivity.
  - intros M. inversion M; subst. match goal with X : version_word _ _ |- _ => apply version_read in X end. match goal with X : file_number _ _ |- _ => apply number_read in X end.
    exists st4. f_equal. f_equal. destruct h as [hv hs hd hn]. cbn in *. congruence.
Qed.

Lemma unit_read v s u : unit_word v s = Some u <-> unit_says v s u.
Proof.
  unfold unit_word.
  destruct (key_cases "MM" s eq_refl) as [(C & S)|(C & S)]; rewrite C.
  { split; [intros H; injection H as <-; exact S|]. destruct u; cbn; [reflexivity| |]; intros H; [|destruct H as (_ & H)];
      pose proof (word_excl _ _ _ S H eq_refl eq_refl); discriminate. }
  destruct (key_cases "THOU" s eq_refl) as [(C1 & S1)|(C1 & S1)]; rewrite C1.
  { split; [intros H; injection H as <-; exact S1|]. destruct u; cbn; [tauto|reflexivity|]; intros (_ & H).
    pose proof (word_excl _ _ _ S1 H eq_refl eq_refl). discriminate. }
  destruct v.
  - destruct (key_cases "TNM" s eq_refl) as [(C2 & S2')|(C2 & S2')]; rewrite C2.
    + split; [intros H; injection H as <-; cbn; auto|]. destruct u; cbn; tauto.
    + split; [discriminate|]. destruct u; cbn; tauto.
  - split; [discriminate|]. destruct u; cbn; [tauto|tauto|]. intros (H & _). discriminate.
Qed.

Lemma name_fields_iff v line b fs st name u : laid_out b fs line ->
  (name_fields v line st = Some (name, u) <-> name_means v fs name u).
Proof.
  intros L. pose proof (get_laid _ _ _ _ _ L (before_start line (sc_tok st) (sc_quoted st))) as G0. unfold name_fields.
  destruct fs as [|f1 fs].
  { destruct G0 as (st' & E & E'). rewrite E, E'. split; [discriminate|intros M; inversion M]. }
  destruct G0 as (st1 & r1 & E & T & _ & B1 & L1). rewrite E, T.
  pose proof (get_laid _ _ _ _ _ L1 B1) as G1. destruct fs as [|f2 fs].
  { destruct G1 as (st' & E1 & _). rewrite E1. split; [discriminate|intros M; inversion M]. }
  destruct G1 as (st2 & r2 & E1 & T1 & Q1 & _). rewrite E1, T1, Q1.
  destruct f2 as [w|w]; cbn [in_quotes value]; [|split; [discriminate|intros M; inversion M]].
  destruct (unit_word v w) as [u'|] eqn:U.
  - split.
    + intros H. injection H as <- <-. constructor. apply unit_read, U.
    + intros M. inversion M; subst. match goal with X : unit_says _ _ _ |- _ => apply unit_read in X end. congruence.
  - split; [discriminate|]. intros M. inversion M; subst. match goal with X : unit_says _ _ _ |- _ => apply unit_read in X end. congruence.
Qed.

(** ** The header *)

Lemma head_iff f l1 f1 l2 f2 l3 f3 l4 f4 b2 fs2 b3 fs3 h name u g :
  opens f l1 f1 -> opens f1 l2 f2 -> opens f2 l3 f3 -> opens f3 l4 f4 -> laid_out b2 fs2 l2 -> laid_out b3 fs3 l3 ->
  (read_head f = Some (h, name, u, g) <->
   g = f4 /\ same_word ".HEADER" l1 /\ head_means "BOARD_FILE" fs2 h /\ name_means (h_ver h) fs3 name u /\ same_word ".END_HEADER" l4).
Proof.
  intros O1 O2 O3 O4 L2 L3.
  assert (E : forall a l b x y, opens a l b -> opens b x y -> head_line a = Some (l, b)).
  { intros a l b x y A B. rewrite (opens_head _ _ _ A). destruct B as (bl & raw & gg & -> & _). reflexivity. }
  unfold read_head. rewrite (E _ _ _ _ _ O1 O2), (E _ _ _ _ _ O2 O3), (E _ _ _ _ _ O3 O4), (opens_last _ _ _ O4).
  destruct (key_cases ".HEADER" l1 eq_refl) as [(C & S)|(C & S)]; rewrite C; cbn [negb]; [|split; [discriminate|tauto]].
  destruct (key_cases ".END_HEADER" l4 eq_refl) as [(C4 & S4)|(C4 & S4)]; rewrite C4.
  - destruct (head_fields "BOARD_FILE" l2) as [[h' st]|] eqn:HF.
    + assert (M' : head_means "BOARD_FILE" fs2 h') by (apply (head_fields_iff "BOARD_FILE" _ _ _ h' eq_refl ltac:(discriminate) L2); eauto).
      destruct (name_fields (h_ver h') l3 st) as [[n' u']|] eqn:NF.
      * split.
        -- intros H. injection H as <- <- <- <-. apply (name_fields_iff _ _ _ _ st _ _ L3) in NF. auto.
        -- intros (-> & _ & M & N & _). apply (head_fields_iff "BOARD_FILE" _ _ _ h eq_refl ltac:(discriminate) L2) in M as (st2 & M).
           rewrite HF in M. injection M as -> ->. apply (name_fields_iff _ _ _ _ st2 _ _ L3) in N. rewrite NF in N. congruence.
      * split; [discriminate|]. intros (_ & _ & M & N & _). apply (head_fields_iff "BOARD_FILE" _ _ _ h eq_refl ltac:(discriminate) L2) in M as (st2 & M).
        rewrite HF in M. injection M as -> ->. apply (name_fields_iff _ _ _ _ st2 _ _ L3) in N. congruence.
    + split; [discriminate|]. intros (_ & _ & M & _). apply (head_fields_iff "BOARD_FILE" _ _ _ h eq_refl ltac:(discriminate) L2) in M as (st2 & M). congruence.
  - split; [|tauto]. destruct (head_fields "BOARD_FILE" l2) as [[h' st]|]; [|discriminate]. destruct (name_fields (h_ver h') l3 st) as [[n' u']|]; discriminate.
Qed.

Lemma lib_head_iff f l1 f1 l2 f2 l4 f4 b2 fs2 h g :
  opens f l1 f1 -> opens f1 l2 f2 -> opens f2 l4 f4 -> laid_out b2 fs2 l2 ->
  (read_lib_head f = Some (h, g) <->
   g = f4 /\ same_word ".HEADER" l1 /\ head_means "LIBRARY_FILE" fs2 h /\ same_word ".END_HEADER" l4).
Proof.
  intros O1 O2 O4 L2.
  assert (E : forall a l b x y, opens a l b -> opens b x y -> head_line a = Some (l, b)).
  { intros a l b x y A B. rewrite (opens_head _ _ _ A). destruct B as (bl & raw & gg & -> & _). reflexivity. }
  unfold read_lib_head. rewrite (E _ _ _ _ _ O1 O2), (E _ _ _ _ _ O2 O4), (opens_last _ _ _ O4).
  destruct (key_cases ".HEADER" l1 eq_refl) as [(C & S)|(C & S)]; rewrite C; cbn [negb]; [|split; [discriminate|tauto]].
  destruct (key_cases ".END_HEADER" l4 eq_refl) as [(C4 & S4)|(C4 & S4)]; rewrite C4.
  - destruct (head_fields "LIBRARY_FILE" l2) as [[h' st]|] eqn:HF.
    + assert (M' : head_means "LIBRARY_FILE" fs2 h') by (apply (head_fields_iff "LIBRARY_FILE" _ _ _ h' eq_refl ltac:(discriminate) L2); eauto).
      split.
      * intros H. injection H as <- <-. auto.
      * intros (-> & _ & M & _). apply (head_fields_iff "LIBRARY_FILE" _ _ _ h eq_refl ltac:(discriminate) L2) in M as (st2 & M). congruence.
    + split; [discriminate|]. intros (_ & _ & M & _). apply (head_fields_iff "LIBRARY_FILE" _ _ _ h eq_refl ltac:(discriminate) L2) in M as (st2 & M). congruence.
  - split; [|tauto]. destruct (head_fields "LIBRARY_FILE" l2) as [[h' st]|]; discriminate.
Qed.

Lemma head_comment f : opens_comment f -> read_head f = None /\ read_lib_head f = None.
Proof. intros C. unfold read_head, read_lib_head. destruct (comment_refused f C) as (-> & _). auto. Qed.
