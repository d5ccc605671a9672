(** Facts about decimal printing and [strtol]. *)

From Coq Require Import Lia ZifyBool ZifyNat ZifyN.
From Verif Require Import Base Num Spec.

Ltac Zify.zify_post_hook ::= Z.div_mod_to_equations.

(** Injectivity of constructors without the reduction performed by
    [injection]. *)
Lemma some_inj {A} (a b : A) : Some a = Some b -> a = b.
Proof. congruence. Qed.
Lemma pok_inj {A} (a b : A) : POk a = POk b -> a = b.
Proof. congruence. Qed.
Lemma pair_inj {A B} (a c : A) (b d : B) : (a, b) = (c, d) -> a = c /\ b = d.
Proof. intros H. split; congruence. Qed.
Lemma ret_inj {A} b c (x y : A) : Ret b x = Ret c y -> b = c /\ x = y.
Proof. intros H. split; congruence. Qed.

Lemma code_range c : 0 <= code c < 256.
Proof.
  unfold code. pose proof (N_ascii_bounded c). lia.
Qed.

Lemma code_chr n : 0 <= n < 256 -> code (chr n) = n.
Proof.
  intros H. unfold code, chr. rewrite N_ascii_embedding; lia.
Qed.

Lemma chr_code c : chr (code c) = c.
Proof.
  unfold code, chr. rewrite N2Z.id. apply ascii_N_embedding.
Qed.

Lemma code_inj a b : code a = code b -> a = b.
Proof. intros H. rewrite <- (chr_code a), <- (chr_code b), H. reflexivity. Qed.

Lemma eqb_code a b : Ascii.eqb a b = (code a =? code b).
Proof.
  destruct (Ascii.eqb_spec a b) as [->|N].
  - symmetry. apply Z.eqb_refl.
  - symmetry. apply Z.eqb_neq. intros E. apply N, code_inj, E.
Qed.

Lemma digit_val_some c d : digit_val c = Some d -> isdig c /\ d = code c - 48.
Proof.
  unfold digit_val, isdig. destruct (_ && _) eqn:E; intros H; inversion H; lia.
Qed.

Lemma digit_val_isdig c : isdig c -> digit_val c = Some (code c - 48).
Proof. unfold digit_val, isdig. intros H. replace (_ && _) with true by lia. reflexivity. Qed.

Lemma digit_val_none c : digit_val c = None -> ~ isdig c.
Proof. unfold digit_val, isdig. destruct (_ && _) eqn:E; intros H; [discriminate|lia]. Qed.

Lemma digit_val_not c : ~ isdig c -> digit_val c = None.
Proof. unfold digit_val, isdig. intros H. replace (_ && _) with false by lia. reflexivity. Qed.

Lemma isdig_digit_char d : 0 <= d < 10 -> isdig (digit_char d).
Proof. intros H. unfold isdig, digit_char. rewrite code_chr; lia. Qed.

Lemma code_digit_char d : 0 <= d < 10 -> code (digit_char d) = 48 + d.
Proof. intros H. unfold digit_char. rewrite code_chr; lia. Qed.

(** ** Values *)

Definition dvacc (a : Z) (s : str) : Z := fold_left (fun a c => 10 * a + (code c - 48)) s a.

Lemma dvacc_lin s : forall a, dvacc a s = a * 10 ^ Z.of_nat (length s) + dval s.
Proof.
  unfold dval. induction s as [|c s IH]; intros a.
  - cbn. lia.
  - cbn [dvacc fold_left length]. fold (dvacc (10 * a + (code c - 48)) s).
    fold (dvacc (10 * 0 + (code c - 48)) s). rewrite !IH.
    rewrite Nat2Z.inj_succ, Z.pow_succ_r by lia. ring.
Qed.

Lemma dval_app a b : dval (a ++ b) = dval a * 10 ^ Z.of_nat (length b) + dval b.
Proof.
  unfold dval at 1. rewrite fold_left_app.
  change (dvacc (dval a) b = dval a * 10 ^ Z.of_nat (length b) + dval b). apply dvacc_lin.
Qed.

Lemma dval_cons c b : dval (c :: b) = (code c - 48) * 10 ^ Z.of_nat (length b) + dval b.
Proof.
  change (c :: b) with ([c] ++ b). rewrite dval_app. f_equal.
Qed.

Lemma dval_bound s : Forall isdig s -> 0 <= dval s < 10 ^ Z.of_nat (length s).
Proof.
  induction s as [|c s IH]; intros H.
  - cbn. lia.
  - inversion H; subst. rewrite dval_cons. specialize (IH H3). unfold isdig in H2.
    cbn [length]. rewrite Nat2Z.inj_succ, Z.pow_succ_r by lia.
    pose proof (Z.pow_pos_nonneg 10 (Z.of_nat (length s))). nia.
Qed.

Lemma scan_digits_app d r : Forall isdig d ->
  (match r with [] => True | c :: _ => ~ isdig c end) ->
  forall acc, scan_digits (d ++ r) acc = (dvacc acc d, r).
Proof.
  intros Hd Hr. induction Hd as [|c d Hc Hd IH]; intros acc.
  - cbn. destruct r as [|c r]; [reflexivity|]. cbn. rewrite digit_val_not; auto.
  - cbn. rewrite digit_val_isdig by auto. apply IH.
Qed.

Lemma scan_digits_split s : forall acc v r, scan_digits s acc = (v, r) ->
  exists d, s = d ++ r /\ Forall isdig d /\ v = dvacc acc d /\
            (match r with [] => True | c :: _ => ~ isdig c end).
Proof.
  induction s as [|c s IH]; intros acc v r H; cbn in H.
  - inversion H; subst. exists []. cbn. auto.
  - destruct (digit_val c) as [d|] eqn:E.
    + apply IH in H. destruct H as (ds & -> & F & -> & G).
      apply digit_val_some in E. destruct E as [E ->].
      exists (c :: ds). repeat split; auto.
    + inversion H; subst. exists []. repeat split; auto. apply digit_val_none, E.
Qed.

(** ** Printing *)

Lemma digs_spec : forall fuel n acc, 0 <= n < 2 ^ Z.of_nat fuel -> (0 < fuel)%nat ->
  exists d, digs fuel n acc = d ++ acc /\ numeral d n /\
            (forall k, (0 < k)%nat -> n < 10 ^ Z.of_nat k -> (length d <= k)%nat) /\
            (forall k, 10 ^ Z.of_nat k <= n -> (k < length d)%nat) /\
            (n <> 0 -> exists c d', d = c :: d' /\ code c <> 48) /\
            (n = 0 -> d = ["0"%char]).
Proof.
  induction fuel as [|f IH]; intros n acc Hn Hf; [lia|].
  cbn [digs]. rewrite Nat2Z.inj_succ, Z.pow_succ_r in Hn by lia.
  assert (Hm : 0 <= n mod 10 < 10) by lia.
  destruct (n / 10 =? 0) eqn:E.
  - exists [digit_char (n mod 10)]. split; [reflexivity|]. split; [|split; [|split; [|split]]].
    + unfold numeral. repeat split; try discriminate.
      * constructor; [apply isdig_digit_char; lia|constructor].
      * cbn [dval fold_left]. rewrite code_digit_char by lia. lia.
    + intros k H1 H2. cbn. lia.
    + intros k H. cbn. destruct k; [lia|].
      rewrite Nat2Z.inj_succ, Z.pow_succ_r in H by lia.
      pose proof (Z.pow_pos_nonneg 10 (Z.of_nat k)). lia.
    + intros H. exists (digit_char (n mod 10)), []. split; [reflexivity|].
      rewrite code_digit_char by lia. lia.
    + intros ->. reflexivity.
  - assert (Hf' : (0 < f)%nat).
    { destruct f; [|lia]. cbn in Hn. lia. }
    destruct (IH (n / 10) (digit_char (n mod 10) :: acc)) as (d & E1 & (N1 & N2 & N3) & L1 & L2 & L3 & _);
      [lia|lia|].
    exists (d ++ [digit_char (n mod 10)]). rewrite E1, <- app_assoc.
    split; [reflexivity|]. split; [|split; [|split; [|split]]].
    + unfold numeral. repeat split.
      * destruct d; discriminate.
      * apply Forall_app. split; auto. constructor; [apply isdig_digit_char; lia|constructor].
      * rewrite dval_app, N3. cbn [dval fold_left length]. rewrite code_digit_char by lia.
        change (10 ^ Z.of_nat 1) with 10. lia.
    + intros k H1 H2. rewrite app_length. cbn. destruct k as [|[|k]]; [lia| |].
      * change (10 ^ Z.of_nat 1) with 10 in H2. lia.
      * assert (length d <= S k)%nat; [|lia]. apply L1; [lia|].
        rewrite Nat2Z.inj_succ, Z.pow_succ_r in H2 by lia. lia.
    + intros k H. rewrite app_length. cbn. destruct k as [|k].
      * destruct d; [congruence|cbn; lia].
      * assert (k < length d)%nat; [|lia]. apply L2.
        rewrite Nat2Z.inj_succ, Z.pow_succ_r in H by lia. lia.
    + intros H. destruct L3 as (c & d' & -> & Hc); [lia|].
      exists c, (d' ++ [digit_char (n mod 10)]). auto.
    + intros ->. cbn in E. discriminate.
Qed.

Lemma showN_full n : 0 <= n ->
  numeral (showN n) n /\
  (forall k, (0 < k)%nat -> n < 10 ^ Z.of_nat k -> (length (showN n) <= k)%nat) /\
  (forall k, 10 ^ Z.of_nat k <= n -> (k < length (showN n))%nat) /\
  (n <> 0 -> exists c d', showN n = c :: d' /\ code c <> 48) /\
  (n = 0 -> showN n = ["0"%char]).
Proof.
  intros H. unfold showN.
  destruct (digs_spec (S (Z.to_nat (Z.log2 n))) n []) as (d & E & R).
  - split; [lia|]. rewrite Nat2Z.inj_succ, Z2Nat.id by apply Z.log2_nonneg.
    destruct (Z.eq_dec n 0) as [->|]; [reflexivity|]. apply Z.log2_spec. lia.
  - lia.
  - rewrite app_nil_r in E. rewrite E. exact R.
Qed.

Lemma showN_numeral n : 0 <= n -> numeral (showN n) n.
Proof. intros H. apply showN_full, H. Qed.

Lemma showN_len n k : 0 <= n -> (0 < k)%nat -> n < 10 ^ Z.of_nat k -> (length (showN n) <= k)%nat.
Proof. intros H. destruct (showN_full n H) as (_ & L & _). apply L. Qed.

Lemma showN_len_ge n k : 10 ^ Z.of_nat k <= n -> (k < length (showN n))%nat.
Proof.
  intros H. assert (0 <= n) by (pose proof (Z.pow_pos_nonneg 10 (Z.of_nat k)); lia).
  destruct (showN_full n H0) as (_ & _ & L & _). apply L, H.
Qed.

Lemma showN_digits n : 0 <= n -> Forall isdig (showN n).
Proof. intros H. apply showN_numeral, H. Qed.

Lemma showN_nonnil n : 0 <= n -> showN n <> [].
Proof. intros H. apply showN_numeral, H. Qed.

Lemma showN_dval n : 0 <= n -> dval (showN n) = n.
Proof. intros H. apply showN_numeral, H. Qed.

Lemma showN_pos_len n : 0 <= n -> (0 < length (showN n))%nat.
Proof. intros H. pose proof (showN_nonnil n H). destruct (showN n); [congruence|cbn; lia]. Qed.

Lemma showZ_signed n : signed_numeral (showZ n) n.
Proof.
  unfold showZ. destruct (n <? 0) eqn:E.
  - right. right. exists (showN (- n)). split; [reflexivity|]. apply showN_numeral. lia.
  - left. apply showN_numeral. lia.
Qed.

(** ** [strtol] on numerals *)

Lemma isdig_not_space c : isdig c -> is_space c = false.
Proof. unfold isdig, is_space. lia. Qed.

Lemma is_space_iff c : is_space c = true <-> isspc c.
Proof. unfold is_space, isspc. lia. Qed.

Lemma skip_space_app a b : Forall isspc a -> skip_space (a ++ b) = skip_space b.
Proof.
  induction 1 as [|c a H F IH]; [reflexivity|].
  cbn. apply is_space_iff in H. rewrite H. exact IH.
Qed.

Lemma skip_space_split s : exists a, s = a ++ skip_space s /\ Forall isspc a /\
  match skip_space s with [] => True | c :: _ => ~ isspc c end.
Proof.
  induction s as [|c s (a & E & F & G)].
  - exists []. cbn. auto.
  - cbn. destruct (is_space c) eqn:S.
    + exists (c :: a). cbn. rewrite E at 1. repeat split; auto.
      constructor; auto. apply is_space_iff, S.
    + exists []. cbn. repeat split; auto. rewrite <- is_space_iff, S. discriminate.
Qed.

Lemma blanks_spc b : blanks b -> Forall isspc b.
Proof. apply Forall_impl. intros c ->. left. reflexivity. Qed.

Lemma blanks_repeat n : blanks (repeat sp n).
Proof. unfold blanks. induction n; cbn; constructor; auto. Qed.

Lemma code_minus : code "-"%char = 45. Proof. reflexivity. Qed.
Lemma code_plus : code "+"%char = 43. Proof. reflexivity. Qed.

Lemma isdig_not_sign c : isdig c -> Ascii.eqb c "-" = false /\ Ascii.eqb c "+" = false.
Proof. unfold isdig. rewrite !eqb_code, code_minus, code_plus. lia. Qed.

Definition stops (r : str) : Prop := match r with [] => True | c :: _ => ~ isdig c end.


Lemma strtol_signed w s r n :
  Forall isspc w -> signed_numeral s n -> stops r -> long_min <= n <= long_max ->
  strtol (w ++ s ++ r) = Some (n, r).
Proof.
  intros Hw Hs Hr Hn. unfold strtol. rewrite skip_space_app by auto.
  destruct Hs as [(N1 & N2 & N3)|[(d & -> & (N1 & N2 & N3))|(d & -> & (N1 & N2 & N3))]].
  - destruct s as [|c s]; [congruence|]. inversion N2; subst.
    cbn [app skip_space]. rewrite isdig_not_space by auto.
    cbn [take_sign]. destruct (isdig_not_sign c) as [-> ->]; auto.
    rewrite digit_val_isdig by auto.
    change (c :: s ++ r) with ((c :: s) ++ r). rewrite scan_digits_app by auto.
    change (dvacc 0 (c :: s)) with (dval (c :: s)).
    replace (_ && _) with true by lia. reflexivity.
  - cbn [app skip_space]. change (is_space "+"%char) with false. cbn [take_sign].
    change (Ascii.eqb "+" "-") with false. change (Ascii.eqb "+" "+") with true.
    cbn iota. destruct d as [|c d]; [congruence|]. inversion N2; subst.
    cbn [app]. rewrite digit_val_isdig by auto.
    change (c :: d ++ r) with ((c :: d) ++ r). rewrite scan_digits_app by auto.
    change (dvacc 0 (c :: d)) with (dval (c :: d)).
    replace (_ && _) with true by lia. reflexivity.
  - cbn [app skip_space]. change (is_space "-"%char) with false. cbn [take_sign].
    change (Ascii.eqb "-" "-") with true.
    cbn iota. destruct d as [|c d]; [congruence|]. inversion N2; subst.
    cbn [app]. rewrite digit_val_isdig by auto.
    change (c :: d ++ r) with ((c :: d) ++ r). rewrite scan_digits_app by auto.
    change (dvacc 0 (c :: d)) with (dval (c :: d)). rewrite N3, Z.opp_involutive.
    replace (_ && _) with true by lia. reflexivity.
Qed.

(** Everything [strtol] accepts is white space and a signed numeral. *)
Lemma strtol_sound s n r : strtol s = Some (n, r) ->
  exists w t, s = w ++ t ++ r /\ Forall isspc w /\ signed_numeral t n /\ stops r /\
              long_min <= n <= long_max.
Proof.
  unfold strtol. destruct (skip_space_split s) as (w & E & F & G).
  destruct (take_sign (skip_space s)) as [neg s1] eqn:TS.
  destruct s1 as [|c s1]; [discriminate|].
  destruct (digit_val c) as [d0|] eqn:DV; [|discriminate].
  destruct (scan_digits (c :: s1) 0) as [v r'] eqn:SD.
  destruct ((long_min <=? (if neg then - v else v)) && _) eqn:RG; [|discriminate].
  intros H. inversion H; subst n r'. clear H.
  assert (NN : exists d, c :: s1 = d ++ r /\ numeral d v /\ stops r).
  { destruct (scan_digits_split _ _ _ _ SD) as (d & E1 & E2 & E3 & E4).
    exists d. repeat split; auto.
    - intros ->. cbn in E1. subst r. apply digit_val_some in DV. apply E4, DV. }
  destruct NN as (d & E1 & N & ST).
  unfold take_sign in TS. destruct (skip_space s) as [|c0 s0]; [discriminate|].
  destruct (Ascii.eqb_spec c0 "-").
  - inversion TS; subst. exists w, ("-"%char :: d). cbn. rewrite <- E1. repeat split; auto; try lia.
    right. right. exists d. split; auto. rewrite Z.opp_involutive. exact N.
  - destruct (Ascii.eqb_spec c0 "+"); inversion TS; subst.
    + exists w, ("+"%char :: d). cbn. rewrite <- E1. repeat split; auto; try lia.
      right. left. exists d. auto.
    + exists w, d. rewrite <- E1. repeat split; auto; try lia. left. exact N.
Qed.

Lemma wrap32_id n : -2147483648 <= n <= 2147483647 -> wrap32 n = n.
Proof. unfold wrap32. lia. Qed.
