(** Facts about fixed column fields and records. *)

From Coq Require Import Lia ZifyBool ZifyNat ZifyN.
From Verif Require Import Base Num Spec NumFacts IoModel.

Ltac Zify.zify_post_hook ::= Z.div_mod_to_equations.

Lemma pow10_7 : 10 ^ Z.of_nat 7 = 10000000. Proof. reflexivity. Qed.
Lemma pow10_8 : 10 ^ Z.of_nat 8 = 100000000. Proof. reflexivity. Qed.

Lemma showZ_len8 n : -9999999 <= n <= 99999999 -> (length (showZ n) <= 8)%nat.
Proof.
  intros H. unfold showZ. destruct (n <? 0) eqn:E.
  - cbn [length]. pose proof (showN_len (- n) 7). rewrite pow10_7 in H0. lia.
  - apply showN_len; [lia|lia|]. rewrite pow10_8. lia.
Qed.

Lemma FormatDEInt_some n s : FormatDEInt n = Some s -> -9999999 <= n <= 99999999 /\ column 8 n s.
Proof.
  unfold FormatDEInt. destruct (_ || _) eqn:E; [discriminate|]. intros H. apply some_inj in H. subst s.
  split; [lia|]. assert (-9999999 <= n <= 99999999) as R by lia.
  pose proof (showZ_len8 n R). split.
  - rewrite app_length, repeat_length. lia.
  - exists (repeat sp (8 - length (showZ n))), (showZ n). split; [reflexivity|].
    split; [apply blanks_repeat|apply showZ_signed].
Qed.

Lemma FormatDEInt_in n : -9999999 <= n <= 99999999 ->
  FormatDEInt n = Some (repeat sp (8 - length (showZ n)) ++ showZ n).
Proof. intros H. unfold FormatDEInt. replace (_ || _) with false by lia. reflexivity. Qed.

Lemma FormatDEInt_none n : FormatDEInt n = None <-> n < -9999999 \/ 99999999 < n.
Proof. unfold FormatDEInt. destruct (_ || _) eqn:E; split; intros; try discriminate; try reflexivity; lia. Qed.

Lemma first_nonblank_blanks b s : blanks b ->
  first_nonblank (b ++ s) = option_map (fun k => (length b + k)%nat) (first_nonblank s).
Proof.
  induction 1 as [|c b -> F IH]; cbn.
  - destruct (first_nonblank s); reflexivity.
  - rewrite IH. destruct (first_nonblank s); reflexivity.
Qed.

Lemma first_nonblank_split s :
  match first_nonblank s with
  | None => blanks s
  | Some k => blanks (firstn k s) /\ (k < length s)%nat /\
              match skipn k s with [] => False | c :: _ => c <> sp end
  end.
Proof.
  induction s as [|c s IH]; cbn [first_nonblank].
  - constructor.
  - destruct (Ascii.eqb_spec c sp) as [->|N].
    + destruct (first_nonblank s); cbn.
      * destruct IH as (A & B & C). repeat split; auto; [constructor; auto|lia].
      * constructor; auto.
    + cbn. repeat split; auto; [constructor|lia].
Qed.

Lemma signed_nonblank s n : signed_numeral s n ->
  first_nonblank s = Some O.
Proof.
  intros [(N1 & N2 & N3)|[(d & -> & _)|(d & -> & _)]]; try reflexivity.
  destruct s as [|c s]; [congruence|]. cbn. inversion N2; subst.
  destruct (Ascii.eqb_spec c sp) as [->|]; [|reflexivity].
  exfalso. unfold isdig in H1. change (code sp) with 32 in H1. lia.
Qed.

Lemma signed_bound s n : signed_numeral s n -> - 10 ^ Z.of_nat (length s) < n < 10 ^ Z.of_nat (length s).
Proof.
  intros [(N1 & N2 & N3)|[(d & -> & (N1 & N2 & N3))|(d & -> & (N1 & N2 & N3))]];
    cbn [length]; pose proof (dval_bound _ N2);
    rewrite ?Nat2Z.inj_succ, ?Z.pow_succ_r by lia; lia.
Qed.

Lemma signed_bound_le s n k : signed_numeral s n -> (length s <= k)%nat -> - 10 ^ Z.of_nat k < n < 10 ^ Z.of_nat k.
Proof.
  intros H L. apply signed_bound in H.
  assert (10 ^ Z.of_nat (length s) <= 10 ^ Z.of_nat k) by (apply Z.pow_le_mono_r; lia). lia.
Qed.

Lemma signed_bound8 s n : signed_numeral s n -> (length s <= 8)%nat -> -100000000 < n < 100000000.
Proof. intros H L. apply (signed_bound_le _ _ 8) in H; auto. Qed.

Lemma skipn_skipn {A} (a b : nat) (s : list A) : skipn a (skipn b s) = skipn (b + a) s.
Proof.
  revert s. induction b as [|b IH]; intros s; [reflexivity|].
  destruct s; cbn; [destruct a; reflexivity|apply IH].
Qed.

Lemma substr_mid pre s post n : length s = n -> substr (pre ++ s ++ post) (length pre) n = s.
Proof.
  intros <-. unfold substr. rewrite skipn_app, skipn_all2, Nat.sub_diag by lia.
  cbn. rewrite firstn_app, firstn_all, Nat.sub_diag. cbn. apply app_nil_r.
Qed.

(** Reading a field that holds a right justified number, possibly followed by a
    NUL byte and anything. *)
Lemma DEItemToInt_read pre w t r post field dflt n :
  length pre = Z.to_nat (8 * field) -> 0 <= field <= 9 ->
  length (w ++ t ++ r) = 8%nat -> Forall isspc w -> signed_numeral t n ->
  match r with [] => True | c :: _ => c = nul end ->
  DEItemToInt (pre ++ (w ++ t ++ r) ++ post) field dflt = POk n.
Proof.
  intros Hpre Hf Hlen Hw Ht Hr. unfold DEItemToInt.
  replace (_ || _) with false by lia.
  rewrite !app_length in *. replace (Z.of_nat _ <? _) with false by lia.
  rewrite <- Hpre, substr_mid by (rewrite !app_length; exact Hlen).
  pose proof (first_nonblank_split (w ++ t ++ r)) as FN.
  destruct (first_nonblank (w ++ t ++ r)) as [k|] eqn:E.
  - destruct FN as (F1 & F2 & F3).
    assert (Hk : (k <= length w)%nat).
    { destruct (le_lt_dec k (length w)); auto. exfalso.
      rewrite firstn_app in F1. apply Forall_app in F1. destruct F1 as [_ F1].
      apply signed_nonblank in Ht. destruct t as [|c t]; [discriminate|].
      cbn in Ht. destruct (Ascii.eqb_spec c sp).
      { destruct (first_nonblank t); discriminate. }
      destruct (k - length w)%nat eqn:KL; [lia|]. cbn in F1. inversion F1; congruence. }
    rewrite skipn_app. replace (k - length w)%nat with O by lia. cbn [skipn].
    assert (Hs : Forall isspc (skipn k w)).
    { rewrite <- (firstn_skipn k w) in Hw. apply Forall_app in Hw. tauto. }
    assert (Hb : -100000000 < n < 100000000).
    { apply (signed_bound8 t); [auto|lia]. }
    rewrite (strtol_signed _ _ _ n); auto.
    + destruct r as [|c r]; [rewrite wrap32_id by lia; reflexivity|].
      subst c. change (Ascii.eqb nul nul) with true. rewrite wrap32_id by lia. reflexivity.
    + destruct r as [|c r]; cbn; auto. subst c. unfold isdig. change (code nul) with 0. lia.
    + unfold long_min, long_max. lia.
  - exfalso. apply Forall_app in FN. destruct FN as [_ FN]. apply Forall_app in FN. destruct FN as [FN _].
    apply signed_nonblank in Ht. destruct t as [|c t]; [discriminate|].
    inversion FN; subst. cbn in Ht. destruct (first_nonblank t); discriminate.
Qed.

Lemma DEItemToInt_column pre s post field dflt n :
  length pre = Z.to_nat (8 * field) -> 0 <= field <= 9 -> column 8 n s ->
  DEItemToInt (pre ++ s ++ post) field dflt = POk n.
Proof.
  intros Hpre Hf (L & b & d & -> & B & D).
  rewrite <- (app_nil_r d). apply DEItemToInt_read; auto.
  - rewrite app_nil_r. exact L.
  - apply blanks_spc, B.
Qed.

Lemma DEItemToInt_blank pre s post field dflt :
  length pre = Z.to_nat (8 * field) -> 0 <= field <= 9 -> length s = 8%nat -> blanks s ->
  DEItemToInt (pre ++ s ++ post) field dflt =
    match dflt with None => PFail | Some d => POk d end.
Proof.
  intros Hpre Hf L B. unfold DEItemToInt.
  replace (_ || _) with false by lia.
  rewrite !app_length. replace (Z.of_nat _ <? _) with false by lia.
  rewrite <- Hpre, substr_mid by exact L.
  rewrite <- (app_nil_r s) at 1. rewrite first_nonblank_blanks by auto. reflexivity.
Qed.

(** The converse: what can have been in the field. *)
Lemma DEItemToInt_sound input field dflt v :
  DEItemToInt input field dflt = POk v ->
  exists pre s post, input = pre ++ s ++ post /\ length pre = Z.to_nat (8 * field) /\
    0 <= field <= 9 /\ length s = 8%nat /\
    ((blanks s /\ dflt = Some v) \/
     (exists w t r, s = w ++ t ++ r /\ Forall isspc w /\ signed_numeral t v /\
        match r with [] => True | c :: _ => c = nul end)).
Proof.
  unfold DEItemToInt. destruct (_ || _) eqn:E1; [discriminate|].
  destruct (Z.of_nat _ <? _) eqn:E2; [discriminate|].
  set (s := substr input (Z.to_nat (8 * field)) 8).
  exists (firstn (Z.to_nat (8 * field)) input), s, (skipn (Z.to_nat (8 * field) + 8) input).
  split.
  { unfold s, substr. rewrite <- (firstn_skipn (Z.to_nat (8 * field)) input) at 1. f_equal.
    rewrite <- (firstn_skipn 8 (skipn (Z.to_nat (8 * field)) input)) at 1. f_equal.
    rewrite skipn_skipn. reflexivity. }
  split; [rewrite firstn_length; lia|]. split; [lia|].
  assert (L : length s = 8%nat).
  { unfold s, substr. rewrite firstn_length, skipn_length. lia. }
  split; [exact L|]. clearbody s.
  pose proof (first_nonblank_split s) as FN.
  destruct (first_nonblank s) as [k|].
  - right. destruct FN as (F1 & F2 & F3).
    destruct (strtol (skipn k s)) as [[v' r]|] eqn:ST; [|discriminate].
    apply strtol_sound in ST. destruct ST as (w & t & E & W & T & ST & RG).
    exists (firstn k s ++ w), t, r.
    assert (Hs : s = (firstn k s ++ w) ++ t ++ r).
    { rewrite <- app_assoc, <- E. symmetry. apply firstn_skipn. }
    split; [exact Hs|]. split; [apply Forall_app; split; auto; apply blanks_spc, F1|].
    assert (Hb : -100000000 < v' < 100000000).
    { apply (signed_bound8 t); [auto|].
      rewrite Hs, !app_length in L. lia. }
    rewrite wrap32_id in H by lia.
    destruct r as [|c r].
    + inversion H; subst. auto.
    + destruct (Ascii.eqb_spec c nul); inversion H; subst. auto.
  - left. split; auto. destruct dflt; inversion H; subst. reflexivity.
Qed.

Lemma DEItemToInt_nocrash input field dflt : DEItemToInt input field dflt <> PCrash.
Proof.
  unfold DEItemToInt. repeat (match goal with |- context[match ?x with _ => _ end] => destruct x end);
    discriminate.
Qed.

(** ** Records *)

Lemma split_line_app l r : ~ In nl l -> split_line (l ++ nl :: r) = (l, Some r).
Proof.
  induction l as [|c l IH]; intros H; cbn [split_line app].
  - reflexivity.
  - destruct (Ascii.eqb_spec c nl) as [->|]; [exfalso; apply H; left; auto|].
    rewrite IH by (intros I; apply H; right; auto). reflexivity.
Qed.

Lemma split_line_end l : ~ In nl l -> split_line l = (l, None).
Proof.
  induction l as [|c l IH]; intros H; cbn [split_line app].
  - reflexivity.
  - destruct (Ascii.eqb_spec c nl) as [->|]; [exfalso; apply H; left; auto|].
    rewrite IH by (intros I; apply H; right; auto). reflexivity.
Qed.

Lemma split_line_sound s l o : split_line s = (l, o) ->
  ~ In nl l /\ match o with Some r => s = l ++ nl :: r | None => s = l end.
Proof.
  revert l o. induction s as [|c s IH]; intros l o H; cbn [split_line] in H.
  - inversion H; subst. cbn. auto.
  - destruct (Ascii.eqb_spec c nl) as [->|].
    + inversion H; subst. cbn. auto.
    + destruct (split_line s) as [l' o'] eqn:E. inversion H; subst.
      destruct (IH _ _ eq_refl) as [A B]. split.
      * intros [E'|I]; [congruence|auto].
      * destruct o; cbn [app]; congruence.
Qed.

Lemma strip_eol_rev_app e c r : Forall (fun c => is_eol c = true) e -> is_eol c = false ->
  strip_eol_rev (e ++ c :: r) = c :: r.
Proof.
  induction 1 as [|x e Hx F IH]; intros Hc.
  - cbn. destruct r; [reflexivity|]. rewrite Hc. reflexivity.
  - cbn. rewrite Hx. destruct (e ++ c :: r) eqn:E; [destruct e; discriminate|].
    apply IH, Hc.
Qed.

Lemma strip_eol_app l c e : Forall (fun c => is_eol c = true) e -> is_eol c = false ->
  strip_eol (l ++ c :: e) = l ++ [c].
Proof.
  intros F Hc. unfold strip_eol. rewrite rev_app_distr. cbn [rev]. rewrite <- app_assoc. cbn [app].
  rewrite strip_eol_rev_app; auto.
  - rewrite <- (rev_involutive l) at 2. cbn [rev]. reflexivity.
  - apply Forall_rev, F.
Qed.

Lemma strip_eol_rev_split r : exists e, r = e ++ strip_eol_rev r /\ Forall (fun c => is_eol c = true) e.
Proof.
  induction r as [|c r IH].
  - exists []. auto.
  - cbn. destruct r as [|c' r].
    + exists []. auto.
    + destruct (is_eol c) eqn:E.
      * destruct IH as (e & E1 & F). exists (c :: e). cbn [app]. split; [|auto].
        f_equal. exact E1.
      * exists []. auto.
Qed.

Lemma strip_eol_split s : exists e, s = strip_eol s ++ e /\ Forall (fun c => is_eol c = true) e.
Proof.
  destruct (strip_eol_rev_split (rev s)) as (e & E & F). exists (rev e). split.
  - unfold strip_eol. rewrite <- rev_app_distr, <- E, rev_involutive. reflexivity.
  - apply Forall_rev, F.
Qed.
