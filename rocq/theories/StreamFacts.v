(** Lines produced by the line builders are read back as records. *)

From Coq Require Import Lia ZifyBool ZifyNat ZifyN.
From Verif Require Import Base Num Spec NumFacts IoModel FieldFacts LineFacts TokenFacts RecordFacts.
Open Scope Z_scope.

Lemma signed_last s n f c : signed_numeral s n -> s = f ++ [c] -> isdig c.
Proof.
  intros S E. assert (In c s) as I by (rewrite E; apply in_or_app; right; left; reflexivity).
  destruct S as [(N & F & _)|[(d & -> & N & F & _)|(d & -> & N & F & _)]].
  - rewrite Forall_forall in F. apply F, I.
  - destruct (exists_last N) as (g & x & ->). change ("+"%char :: g ++ [x]) with (("+"%char :: g) ++ [x]) in E.
    apply app_inj_tail in E. destruct E as [_ <-]. apply Forall_app in F. destruct F as [_ F]. inversion F; auto.
  - destruct (exists_last N) as (g & x & ->). change ("-"%char :: g ++ [x]) with (("-"%char :: g) ++ [x]) in E.
    apply app_inj_tail in E. destruct E as [_ <-]. apply Forall_app in F. destruct F as [_ F]. inversion F; auto.
Qed.

Lemma signed_chars s n c : signed_numeral s n -> In c s -> isdig c \/ c = "+"%char \/ c = "-"%char.
Proof.
  intros [(_ & F & _)|[(d & -> & _ & F & _)|(d & -> & _ & F & _)]] I; rewrite Forall_forall in F; auto.
  - destruct I as [<-|I]; auto.
  - destruct I as [<-|I]; auto.
Qed.

Lemma column_no_nl w n s : column w n s -> ~ In nl s.
Proof.
  intros (_ & b & d & -> & B & S) I. apply in_app_or in I. destruct I as [I|I].
  - unfold blanks in B. rewrite Forall_forall in B. apply B in I. discriminate.
  - destruct (signed_chars _ _ _ S I) as [D|[D|D]]; try discriminate. unfold isdig in D. cbn in D. lia.
Qed.

Lemma column_last w n s f c : column w n s -> s = f ++ [c] -> ~ eol_char c.
Proof.
  intros (_ & b & d & -> & B & S) E.
  assert (N : d <> []) by (apply (signed_nonnil _ _ S)).
  destruct (exists_last N) as (g & x & Ed). assert (D : isdig x) by (eapply signed_last; eauto).
  subst d. rewrite app_assoc in E. apply app_inj_tail in E. destruct E as [_ <-].
  unfold isdig in D. intros [X|[X|X]]; subst x; cbn in D; lia.
Qed.

Lemma column_seven n s : column 7 n s -> seven_columns n s.
Proof.
  intros (L & b & d & -> & B & S). split; [exact L|]. exists b, d, []. rewrite app_nil_r.
  split; [reflexivity|]. split; [apply blanks_spc, B|]. split; [exact S|exact I].
Qed.

Lemma sec_line_read letter k data line rest : sec_line letter k data line -> section_letter letter ->
  1 <= k -> ~ In nl data ->
  ReadIGESRecord (mkStream (line ++ rest) false) = POk (mkRec data letter k, mkStream rest false).
Proof.
  intros (L & c & -> & C) SL K N. unfold ReadIGESRecord, getline. cbn [s_eof s_rest].
  replace ((data ++ letter :: c ++ [nl]) ++ rest) with ((data ++ letter :: c) ++ nl :: rest)
    by (rewrite <- !app_assoc; cbn [app]; rewrite <- app_assoc; reflexivity).
  assert (N2 : ~ In nl (data ++ letter :: c)).
  { intros I. apply in_app_or in I. destruct I as [I|[I|I]]; [auto| |].
    - subst letter. unfold section_letter in SL.
      repeat (destruct SL as [SL|SL]; [discriminate|]); discriminate.
    - apply (column_no_nl _ _ _ C I). }
  rewrite split_line_app by exact N2.
  replace (parse_record (data ++ letter :: c)) with (POk (mkRec data letter k)); [reflexivity|].
  symmetry. apply parse_record_iff. cbn [r_data r_sec r_idx]. split; [exact L|]. split; [exact SL|]. split; [lia|].
  exists c, []. rewrite app_nil_r. split; [reflexivity|]. split; [apply column_seven, C|]. split; [|constructor].
  intros f x E. eapply column_last; eauto.
Qed.

Lemma pd_line_sec de k data line : pd_line de k data line ->
  exists c, sec_line "P" k (data ++ sp :: c) line /\ column 7 de c.
Proof.
  intros (L & c1 & c2 & -> & C1 & C2). exists c1. split; [|exact C1]. split.
  - rewrite app_length. cbn [length]. destruct C1 as [-> _]. lia.
  - exists c2. split; [|exact C2]. rewrite <- app_assoc. reflexivity.
Qed.

Lemma pd_line_read de k data line rest : pd_line de k data line -> 1 <= k -> ~ In nl data ->
  exists rec, ReadIGESRecord (mkStream (line ++ rest) false) = POk (rec, mkStream rest false) /\
    r_sec rec = "P"%char /\ r_idx rec = k /\ at_ (r_data rec) 64 = sp /\
    DEItemToInt (r_data rec) 8 None = POk de /\ substr (r_data rec) 0 64 = data /\
    exists c, r_data rec = data ++ c.
Proof.
  intros P K N. assert (L : length data = 64%nat) by apply P.
  destruct (pd_line_sec _ _ _ _ P) as (c & S & C).
  assert (N2 : ~ In nl (data ++ sp :: c)).
  { intros I. apply in_app_or in I. destruct I as [I|[I|I]]; [auto|discriminate|apply (column_no_nl _ _ _ C I)]. }
  exists (mkRec (data ++ sp :: c) "P" k). split.
  { apply sec_line_read; auto. unfold section_letter. tauto. }
  cbn [r_data r_sec r_idx]. repeat split.
  - rewrite <- L. apply at_mid.
  - replace (data ++ sp :: c) with (data ++ (sp :: c) ++ []) by (rewrite app_nil_r; reflexivity).
    apply DEItemToInt_column; try lia.
    destruct C as (Lc & b & d & -> & B & SG). split; [cbn [length]; lia|].
    exists (sp :: b), d. split; [reflexivity|]. split; [constructor; auto|exact SG].
  - unfold substr. cbn [skipn]. rewrite <- L. apply firstn_mid.
  - eauto.
Qed.
