(** The record reader accepts exactly the IGES line format. *)

From Coq Require Import Lia ZifyBool ZifyNat ZifyN.
From Verif Require Import Base Num Spec NumFacts IoModel FieldFacts LineFacts TokenFacts.
Open Scope Z_scope.

Lemma is_eol_iff c : is_eol c = true <-> eol_char c.
Proof.
  unfold is_eol, eol_char. rewrite !orb_true_iff, !Ascii.eqb_eq. tauto.
Qed.

Lemma is_eol_not c : is_eol c = false <-> ~ eol_char c.
Proof.
  rewrite <- is_eol_iff. destruct (is_eol c); split; intros; congruence.
Qed.

Lemma is_section_iff c : is_section c = true <-> section_letter c.
Proof.
  unfold is_section, section_letter. rewrite !orb_true_iff, !Ascii.eqb_eq. tauto.
Qed.

Lemma strip_eol_rev_head r c c' x : strip_eol_rev r = c :: c' :: x -> is_eol c = false.
Proof.
  induction r as [|a r IH]; [discriminate|]. cbn. destruct r as [|b r]; [discriminate|].
  destruct (is_eol a) eqn:E; [exact IH|]. intros H. congruence.
Qed.

Lemma strip_eol_last s f c : strip_eol s = f ++ [c] -> f <> [] -> is_eol c = false.
Proof.
  unfold strip_eol. intros H N. apply (f_equal (@rev ascii)) in H. rewrite rev_involutive, rev_app_distr in H.
  cbn in H. destruct (rev f) eqn:R.
  - exfalso. apply N. rewrite <- (rev_involutive f), R. reflexivity.
  - eapply strip_eol_rev_head; eauto.
Qed.

Lemma strip_eol_full l e : (forall f c, l = f ++ [c] -> is_eol c = false) -> l <> [] ->
  Forall (fun c => is_eol c = true) e -> strip_eol (l ++ e) = l.
Proof.
  intros H N F. destruct (exists_last N) as (f & c & E). subst l. rewrite <- app_assoc. cbn [app].
  apply strip_eol_app; eauto.
Qed.

Lemma at_app_here a c b : length a = 72%nat -> at_ (a ++ c :: b) 72 = c.
Proof. intros <-. apply at_mid. Qed.


Lemma parse_field pre num v : length pre = 72%nat -> length num = 7%nat ->
  (DEItemToInt (pre ++ sp :: num) 9 None = POk v <-> seven_columns v num).
Proof.
  intros L1 L2. split.
  - intros H. destruct (DEItemToInt_sound _ _ _ _ H) as (a & s & b & E & La & _ & Ls & [[_ D]|(w & t & r & Es & W & S & R)]); [discriminate|].
    change (Z.to_nat (8 * 9)) with 72%nat in La.
    assert (E2 : pre = a /\ sp :: num = s ++ b).
    { apply (f_equal (fun x => (firstn 72 x, skipn 72 x))) in E.
      rewrite <- L1, firstn_mid, skipn_mid in E. rewrite L1, <- La, firstn_mid, skipn_mid in E.
      apply pair_inj in E. exact E. }
    destruct E2 as [-> E2].
    assert (B : b = []).
    { apply (f_equal (@length ascii)) in E2. rewrite app_length in E2. cbn in E2. destruct b; [reflexivity|cbn in E2; lia]. }
    subst b. rewrite app_nil_r in E2. subst s. rename E2 into Es. split; [exact L2|].
    destruct w as [|c w].
    + exfalso. cbn in Es. destruct S as [(N1 & N2 & _)|[(d & -> & _)|(d & -> & _)]]; try discriminate.
      destruct t as [|c t]; [congruence|]. cbn in Es. injection Es as Es _. subst c.
      inversion N2 as [|? ? D _]. unfold isdig in D. cbn in D. lia.
    + cbn in Es. injection Es as _ Es. inversion W; subst. exists w, t, r. auto.
  - intros (_ & w & t & z & -> & W & S & Z).
    replace (pre ++ sp :: w ++ t ++ z) with (pre ++ ((sp :: w) ++ t ++ z) ++ []) by (rewrite app_nil_r; reflexivity).
    apply DEItemToInt_read; auto.
    + lia.
    + cbn [app length]. rewrite L2. reflexivity.
    + constructor; [left; reflexivity|exact W].
Qed.

Lemma split80 l : length l = 80%nat ->
  exists data num, l = data ++ at_ l 72 :: num /\ length data = 72%nat /\ length num = 7%nat.
Proof.
  intros L. exists (firstn 72 l), (skipn 73 l).
  assert (L1 : length (firstn 72 l) = 72%nat) by (rewrite firstn_length; lia).
  split; [|split; [exact L1|rewrite skipn_length; lia]].
  rewrite <- (firstn_skipn 72 l) at 1. f_equal.
  assert (LS : length (skipn 72 l) = 8%nat) by (rewrite skipn_length; lia).
  unfold at_. assert (E : nth 72 l nul = nth 0 (skipn 72 l) nul).
  { rewrite <- (firstn_skipn 72 l) at 1. rewrite app_nth2 by lia. rewrite L1. reflexivity. }
  rewrite E. change (skipn 73 l) with (skipn (72 + 1) l). rewrite <- skipn_skipn.
  destruct (skipn 72 l); [cbn in LS; lia|reflexivity].
Qed.

Lemma blank73 data c num : length data = 72%nat ->
  firstn 72 (data ++ c :: num) ++ sp :: skipn 73 (data ++ c :: num) = data ++ sp :: num.
Proof.
  intros L. rewrite <- L at 1. rewrite firstn_mid. f_equal. f_equal.
  replace (data ++ c :: num) with ((data ++ [c]) ++ num) by (rewrite <- app_assoc; reflexivity).
  replace 73%nat with (length (data ++ [c])) by (rewrite app_length; cbn; lia). apply skipn_mid.
Qed.

Lemma substr72 data c num : length data = 72%nat -> substr (data ++ c :: num) 0 72 = data.
Proof. intros L. unfold substr. cbn [skipn]. rewrite <- L. apply firstn_mid. Qed.

Lemma last_of_mid {A} (a : list A) x b f c : a ++ x :: b = f ++ [c] -> b <> [] -> exists g, b = g ++ [c].
Proof.
  intros H N. destruct (exists_last N) as (g & y & ->). exists g.
  replace (a ++ x :: g ++ [y]) with ((a ++ x :: g) ++ [y]) in H by (rewrite <- app_assoc; reflexivity).
  apply app_inj_tail in H. destruct H as [_ ->]. reflexivity.
Qed.

Theorem parse_record_iff line r :
  parse_record line = POk r <-> record_line line (r_data r) (r_sec r) (r_idx r).
Proof.
  unfold parse_record. split.
  - destruct (strip_eol_split line) as (e & E & F). set (l := strip_eol line) in *.
    destruct (Nat.eqb (length l) 80) eqn:L; cbn [negb]; [|discriminate]. apply Nat.eqb_eq in L.
    destruct (is_section (at_ l 72)) eqn:S; cbn [negb]; [|discriminate].
    destruct (split80 l L) as (data & num & El & Ld & Ln).
    set (c := at_ l 72) in *. clearbody c.
    assert (LAST : forall f x, num = f ++ [x] -> ~ eol_char x).
    { intros f x ->. apply is_eol_not. apply (strip_eol_last line (data ++ c :: f) x).
      - fold l. rewrite El, <- app_assoc. reflexivity.
      - destruct data; discriminate. }
    rewrite El. rewrite blank73, substr72 by exact Ld.
    destruct (DEItemToInt (data ++ sp :: num) 9 None) as [| |v] eqn:D; cbn [pbind]; try discriminate.
    destruct (v <=? 0) eqn:V; [discriminate|]. intros H. apply pok_inj in H. subst r. cbn [r_data r_sec r_idx].
    apply parse_field in D; auto.
    split; [exact Ld|]. split; [apply is_section_iff, S|]. split; [lia|].
    exists num, e. split.
    + rewrite E, El, <- app_assoc. reflexivity.
    + split; [exact D|]. split; [exact LAST|]. eapply Forall_impl; [|exact F]. cbn. intros a. apply is_eol_iff.
  - intros (Ld & S & P & num & e & E & C & LAST & F). destruct r as [data c v]. cbn [r_data r_sec r_idx] in *.
    assert (Ln : length num = 7%nat) by apply C.
    assert (SE : strip_eol line = data ++ c :: num).
    { rewrite E. replace (data ++ c :: num ++ e) with ((data ++ c :: num) ++ e) by (rewrite <- app_assoc; reflexivity).
      apply strip_eol_full.
      - intros f x H. apply last_of_mid in H; [|destruct num; [cbn in Ln; lia|discriminate]].
        destruct H as [g ->]. apply is_eol_not. eauto.
      - destruct data; discriminate.
      - eapply Forall_impl; [|exact F]. cbn. intros a. apply is_eol_iff. }
    rewrite SE. replace (Nat.eqb _ 80) with true by (symmetry; apply Nat.eqb_eq; rewrite app_length; cbn [length]; lia).
    cbn [negb]. rewrite at_app_here by exact Ld. apply is_section_iff in S. rewrite S. cbn [negb].
    rewrite blank73, substr72 by exact Ld. apply (parse_field data) in C; auto. rewrite C. cbn [pbind].
    replace (v <=? 0) with false by lia. reflexivity.
Qed.

Lemma parse_record_nocrash line : parse_record line <> PCrash.
Proof.
  unfold parse_record. destruct (negb _); [discriminate|]. destruct (negb _); [discriminate|].
  destruct (DEItemToInt _ _ _) eqn:E; cbn [pbind]; try discriminate.
  - exfalso. eapply DEItemToInt_nocrash; eauto.
  - destruct (_ <=? _); discriminate.
Qed.

(** ** CR LF *)

Lemma strip_eol_cr l : l <> [] -> strip_eol (l ++ [cr]) = strip_eol l.
Proof.
  intros N. unfold strip_eol. rewrite rev_app_distr. cbn [rev app].
  assert (rev l <> []) by (intros E; apply N; rewrite <- (rev_involutive l), E; reflexivity).
  destruct (rev l) as [|c r]; [congruence|]. reflexivity.
Qed.

Lemma parse_record_cr l : parse_record (l ++ [cr]) = parse_record l.
Proof.
  unfold parse_record. destruct l as [|c l]; [reflexivity|].
  rewrite strip_eol_cr by discriminate. reflexivity.
Qed.

Lemma crlf_split s : forall l o, split_line s = (l, o) ->
  split_line (crlf s) = match o with Some r => (l ++ [cr], Some (crlf r)) | None => (l, None) end.
Proof.
  induction s as [|c s IH]; intros l o H.
  - cbn in H. inversion H; subst. reflexivity.
  - cbn [split_line] in H. cbn [crlf]. destruct (Ascii.eqb c nl) eqn:E.
    + apply pair_inj in H. destruct H as [<- <-]. reflexivity.
    + cbn [split_line]. rewrite E. destruct (split_line s) as [l' o'] eqn:SL.
      apply pair_inj in H. destruct H as [<- <-]. rewrite (IH _ _ eq_refl). destruct o'; reflexivity.
Qed.

Definition crlf_stream (f : stream) : stream := mkStream (crlf (s_rest f)) (s_eof f).

Theorem ReadIGESRecord_crlf f :
  ReadIGESRecord (crlf_stream f) =
    match ReadIGESRecord f with
    | POk (r, f') => POk (r, crlf_stream f')
    | PFail => PFail
    | PCrash => PCrash
    end.
Proof.
  unfold ReadIGESRecord, crlf_stream. cbn [s_eof s_rest]. destruct (s_eof f); [reflexivity|].
  unfold getline. cbn [s_rest]. destruct (split_line (s_rest f)) as [l o] eqn:SL.
  rewrite (crlf_split _ _ _ SL). destruct o as [r|].
  - rewrite parse_record_cr. destruct (parse_record l); reflexivity.
  - destruct (parse_record l); reflexivity.
Qed.
