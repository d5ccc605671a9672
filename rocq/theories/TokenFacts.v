(** Facts about the free format parsers on rendered parameters. *)

From Coq Require Import Lia ZifyBool ZifyNat ZifyN QArith.
From Verif Require Import Base Num Spec NumFacts IoModel FieldFacts LineFacts.
Open Scope Z_scope.

Ltac Zify.zify_post_hook ::= Z.div_mod_to_equations.

Lemma at_app_r a b k : at_ (a ++ b) (length a + k) = at_ b k.
Proof. unfold at_. rewrite app_nth2 by lia. f_equal. lia. Qed.

Lemma at_mid a c b : at_ (a ++ c :: b) (length a) = c.
Proof. rewrite <- (Nat.add_0_r (length a)), at_app_r. reflexivity. Qed.

Lemma skipn_mid {A} (a b : list A) : skipn (length a) (a ++ b) = b.
Proof. rewrite skipn_app, skipn_all, Nat.sub_diag. reflexivity. Qed.

Lemma firstn_mid {A} (a b : list A) : firstn (length a) (a ++ b) = a.
Proof. rewrite firstn_app, firstn_all, Nat.sub_diag. cbn. apply app_nil_r. Qed.

Lemma substr_at a b c : substr (a ++ b ++ c) (length a) (length b) = b.
Proof. unfold substr. rewrite skipn_mid, firstn_mid. reflexivity. Qed.

Definition eor_of (d rd : ascii) (eor : bool) : bool := if Ascii.eqb d rd then true else eor.

(** ** [find_char] *)

Lemma find_char_none c s : find_char c s = None <-> ~ In c s.
Proof.
  induction s as [|x s IH]; cbn.
  - tauto.
  - destruct (Ascii.eqb_spec c x) as [->|N].
    + split; [discriminate|]. intros H. exfalso. apply H. auto.
    + destruct (find_char c s); cbn; split; intros H; try discriminate; try reflexivity.
      * exfalso. destruct IH as [_ IH]. assert (Some n = None); [|discriminate].
        apply IH. intros I. apply H. auto.
      * intros [E|I]; [congruence|]. destruct IH as [IH _]. apply IH; auto.
Qed.

Lemma find_char_mid c a b : ~ In c a -> find_char c (a ++ c :: b) = Some (length a).
Proof.
  induction a as [|x a IH]; intros H; cbn.
  - rewrite Ascii.eqb_refl. reflexivity.
  - destruct (Ascii.eqb_spec c x) as [->|N]; [exfalso; apply H; left; auto|].
    rewrite IH by (intros I; apply H; right; auto). reflexivity.
Qed.

Lemma find_char_skip c a b : ~ In c a -> find_char c (a ++ b) = option_map (fun k => (length a + k)%nat) (find_char c b).
Proof.
  induction a as [|x a IH]; intros H; cbn.
  - destruct (find_char c b); reflexivity.
  - destruct (Ascii.eqb_spec c x) as [->|N]; [exfalso; apply H; left; auto|].
    rewrite IH by (intros I; apply H; right; auto). destruct (find_char c b); reflexivity.
Qed.

(** ** Raw items *)

Lemma ParseLString_item pre x d post eor pd rd :
  ~ In pd x -> ~ In rd x -> (d = pd \/ d = rd) ->
  ParseLString (pre ++ x ++ d :: post) (length pre) eor pd rd =
    POk (x, (length pre + length x + 1)%nat, eor_of d rd eor).
Proof.
  intros Hp Hr Hd. unfold ParseLString.
  replace (_ <=? _)%nat with false by (rewrite !app_length; cbn [length]; lia).
  destruct x as [|c x].
  - cbn [app]. rewrite at_mid.
    replace (Ascii.eqb d pd || Ascii.eqb d rd) with true.
    + cbn [length]. unfold eor_of. do 3 f_equal. lia.
    + destruct Hd as [->| ->]; rewrite Ascii.eqb_refl; [reflexivity|symmetry; apply orb_true_r].
  - remember (c :: x) as y eqn:Ey.
    assert (A : at_ (pre ++ y ++ d :: post) (length pre) = c) by (subst y; apply at_mid).
    rewrite A.
    replace (Ascii.eqb c pd || Ascii.eqb c rd) with false.
    2: { subst y. destruct (Ascii.eqb_spec c pd) as [->|]; [exfalso; apply Hp; left; auto|].
         destruct (Ascii.eqb_spec c rd) as [->|]; [exfalso; apply Hr; left; auto|]. reflexivity. }
    rewrite skipn_mid.
    assert (F : forall n, n = length y ->
      (let param := substr (pre ++ y ++ d :: post) (length pre) n in
       let idx1 := (length pre + length param)%nat in
       let d0 := at_ (pre ++ y ++ d :: post) idx1 in
       if Ascii.eqb d0 rd then POk (param, S idx1, true)
       else if Ascii.eqb d0 pd then POk (param, S idx1, eor) else PFail)
      = POk (y, (length pre + length y + 1)%nat, eor_of d rd eor)).
    { intros n ->. cbv zeta. rewrite substr_at.
      rewrite <- (app_length pre y), app_assoc, at_mid, app_length. unfold eor_of.
      destruct (Ascii.eqb_spec d rd).
      - do 3 f_equal. lia.
      - destruct Hd as [->|]; [|congruence]. rewrite Ascii.eqb_refl. do 3 f_equal. lia. }
    destruct Hd as [->| ->].
    + rewrite find_char_mid by auto.
      destruct (find_char rd (y ++ pd :: post)) as [n2|] eqn:E2; [|apply F; reflexivity].
      destruct (Nat.ltb_spec n2 (length y)) as [LT|GE]; [|apply F; reflexivity].
      exfalso. rewrite find_char_skip in E2 by auto.
      destruct (find_char rd (pd :: post)); [|discriminate]. cbn in E2. injection E2 as <-. lia.
    + rewrite (find_char_mid rd) by auto.
      destruct (find_char pd (y ++ rd :: post)) as [n1|] eqn:E1; [|apply F; reflexivity].
      destruct (Nat.ltb_spec (length y) n1) as [LT|GE]; [apply F; reflexivity|].
      apply F. rewrite find_char_skip in E1 by auto.
      destruct (find_char pd (rd :: post)); [|discriminate]. cbn in E1. injection E1 as <-. lia.
Qed.

Lemma blanks_not_in c b : blanks b -> c <> sp -> ~ In c b.
Proof. intros B N I. apply (proj1 (Forall_forall _ _) B) in I. congruence. Qed.

Lemma delim_not_sp c : delim_char c -> c <> sp.
Proof. intros (R & _) ->. change (code sp) with 32 in R. lia. Qed.

Lemma signed_no_delim c s n : delim_char c -> signed_numeral s n -> ~ In c s.
Proof.
  intros (R & D & N1 & N2 & _) S I.
  destruct S as [(_ & F & _)|[(d & -> & (_ & F & _))|(d & -> & (_ & F & _))]].
  - apply (proj1 (Forall_forall _ _) F) in I. auto.
  - destruct I as [<-|I]; [congruence|]. apply (proj1 (Forall_forall _ _) F) in I. auto.
  - destruct I as [<-|I]; [congruence|]. apply (proj1 (Forall_forall _ _) F) in I. auto.
Qed.

Lemma signed_nonnil s n : signed_numeral s n -> s <> [].
Proof.
  intros [(N & _)|[(d & -> & _)|(d & -> & _)]]; auto; discriminate.
Qed.

Lemma delim_stops c r : delim_char c -> stops (c :: r).
Proof. intros (_ & N & _). exact N. Qed.

Lemma ParseInt_item pre b t n d post eor pd rd dflt :
  delims pd rd -> blanks b -> signed_numeral t n -> (d = pd \/ d = rd) ->
  -2147483648 <= n <= 2147483647 ->
  ParseInt (pre ++ b ++ t ++ d :: post) (length pre) eor pd rd dflt =
    POk (n, (length pre + length (b ++ t) + 1)%nat, eor_of d rd eor).
Proof.
  intros (Dp & Dr & Ne) B T Hd R. unfold ParseInt.
  replace (b ++ t ++ d :: post) with ((b ++ t) ++ d :: post) by (rewrite app_assoc; reflexivity).
  assert (NI : forall c, delim_char c -> ~ In c (b ++ t)).
  { intros c Dc I. apply in_app_or in I. destruct I as [I|I].
    - revert I. apply blanks_not_in; auto. apply delim_not_sp, Dc.
    - revert I. eapply signed_no_delim; eauto. }
  rewrite ParseLString_item by auto. cbn [pbind].
  destruct (b ++ t) as [|c y] eqn:E.
  { exfalso. apply app_eq_nil in E. apply signed_nonnil in T. tauto. }
  rewrite <- E. rewrite <- (app_nil_r t) at 1.
  rewrite (strtol_signed b t [] n); auto; [|apply blanks_spc; auto|exact I|unfold long_min, long_max; lia].
  rewrite wrap32_id by lia. reflexivity.
Qed.

(** An empty parameter takes the default. *)
Lemma ParseInt_empty pre d post eor pd rd dflt :
  (d = pd \/ d = rd) ->
  ParseInt (pre ++ d :: post) (length pre) eor pd rd (Some dflt) =
    POk (dflt, (length pre + 1)%nat, eor_of d rd eor).
Proof.
  intros Hd. unfold ParseInt.
  rewrite (ParseLString_item pre [] d post) by (auto; intros []).
  cbn. do 3 f_equal. lia.
Qed.

(** ** Hollerith strings *)

Lemma ParseHString_empty pre d post eor pd rd :
  (d = pd \/ d = rd) ->
  ParseHString (pre ++ d :: post) (length pre) eor pd rd =
    POk ([], (length pre + 1)%nat, eor_of d rd eor).
Proof.
  intros Hd. unfold ParseHString.
  replace (_ <=? _)%nat with false by (rewrite !app_length; cbn [length]; lia).
  rewrite at_mid.
  replace (Ascii.eqb d pd || Ascii.eqb d rd) with true.
  - unfold eor_of. do 3 f_equal. lia.
  - destruct Hd as [->| ->]; rewrite Ascii.eqb_refl; [reflexivity|symmetry; apply orb_true_r].
Qed.

Lemma isdig_not_delim c d : delim_char d -> isdig c -> c <> d.
Proof. intros (_ & N & _) D ->. auto. Qed.

Lemma ParseHString_item pre b k s d post eor pd rd :
  delims pd rd -> blanks b -> s <> [] -> numeral k (Z.of_nat (length s)) -> (d = pd \/ d = rd) ->
  Z.of_nat (length pre + length b + length k + 1 + length s) <= int_max ->
  ParseHString (pre ++ b ++ k ++ "H"%char :: s ++ d :: post) (length pre) eor pd rd =
    POk (s, (length pre + length b + length k + 1 + length s + 1)%nat, eor_of d rd eor).
Proof.
  intros (Dp & Dr & Ne) B NS K Hd R. unfold ParseHString.
  replace (_ <=? _)%nat with false by (rewrite !app_length; cbn [length]; rewrite app_length; cbn [length]; lia).
  assert (A : exists c, at_ (pre ++ b ++ k ++ "H"%char :: s ++ d :: post) (length pre) = c /\
              (c = sp \/ isdig c)).
  { destruct b as [|c b].
    - cbn [app]. destruct K as (K1 & K2 & _). destruct k as [|c k]; [congruence|].
      exists c. cbn [app]. rewrite at_mid. inversion K2; auto.
    - exists c. cbn [app]. rewrite at_mid. inversion B; auto. }
  destruct A as (c & -> & Hc).
  replace (Ascii.eqb c pd || Ascii.eqb c rd) with false.
  2: { destruct (Ascii.eqb_spec c pd) as [->|].
       { exfalso. destruct Hc as [Hc|Hc]; [apply (delim_not_sp _ Dp Hc)|apply (isdig_not_delim _ _ Dp Hc); auto]. }
       destruct (Ascii.eqb_spec c rd) as [->|]; [|reflexivity].
       exfalso. destruct Hc as [Hc|Hc]; [apply (delim_not_sp _ Dr Hc)|apply (isdig_not_delim _ _ Dr Hc); auto]. }
  rewrite skipn_mid.
  assert (SP : (0 < length s)%nat) by (destruct s; [congruence|cbn; lia]).
  unfold int_max in R.
  rewrite (strtol_signed b k ("H"%char :: s ++ d :: post) (Z.of_nat (length s))).
  2: apply blanks_spc, B. 2: left; exact K.
  2: { cbn. unfold isdig. change (code "H"%char) with 72. lia. }
  2: unfold long_min, long_max; lia.
  rewrite wrap32_id by lia.
  replace (length (pre ++ b ++ k ++ "H"%char :: s ++ d :: post) - length ("H"%char :: s ++ d :: post))%nat
    with (length (pre ++ b ++ k)) by (rewrite !app_length; cbn [length]; lia).
  replace (pre ++ b ++ k ++ "H"%char :: s ++ d :: post)
    with ((pre ++ b ++ k) ++ "H"%char :: s ++ d :: post) by (rewrite <- !app_assoc; reflexivity).
  rewrite at_mid. change (Ascii.eqb "H" "H") with true. cbn [negb].
  replace (Z.of_nat (length s) <=? 0) with false by lia.
  set (P := pre ++ b ++ k) in *.
  assert (LP : length P = (length pre + length b + length k)%nat) by (unfold P; rewrite !app_length; lia).
  replace (int_max <? _) with false by (unfold int_max; lia).
  replace (Z.of_nat (length (P ++ _)) <=? _) with false
    by (rewrite app_length; cbn [length]; rewrite app_length; cbn [length]; lia).
  rewrite Nat2Z.id.
  replace (P ++ "H"%char :: s ++ d :: post) with ((P ++ ["H"%char]) ++ s ++ d :: post)
    by (rewrite <- app_assoc; reflexivity).
  replace (S (length P)) with (length (P ++ ["H"%char])) by (rewrite app_length; cbn [length]; lia).
  rewrite substr_at.
  replace (length (P ++ ["H"%char]) + length s)%nat with (length ((P ++ ["H"%char]) ++ s))
    by (rewrite app_length; reflexivity).
  replace ((P ++ ["H"%char]) ++ s ++ d :: post) with (((P ++ ["H"%char]) ++ s) ++ d :: post)
    by (rewrite <- app_assoc; reflexivity).
  rewrite at_mid.
  assert (LL : S (length ((P ++ ["H"%char]) ++ s)) = (length pre + length b + length k + 1 + length s + 1)%nat)
    by (rewrite !app_length; cbn [length]; lia).
  rewrite LL. unfold eor_of. destruct (Ascii.eqb_spec d rd); [reflexivity|].
  destruct Hd as [->|]; [|congruence]. rewrite Ascii.eqb_refl. reflexivity.
Qed.

(** A Hollerith parameter, empty or not. *)
Lemma ParseHString_hol pre b t s d post eor pd rd :
  delims pd rd -> blanks b -> hollerith s t -> (t = [] -> b = []) -> (d = pd \/ d = rd) ->
  Z.of_nat (length pre + length b + length t) <= int_max ->
  ParseHString (pre ++ b ++ t ++ d :: post) (length pre) eor pd rd =
    POk (s, (length pre + length (b ++ t) + 1)%nat, eor_of d rd eor).
Proof.
  intros D B [[-> ->]|[S (k & K & ->)]] E Hd R.
  - rewrite E by reflexivity. cbn [app length]. rewrite ParseHString_empty by auto.
    do 3 f_equal. lia.
  - rewrite app_length in R. cbn [length] in R.
    replace (b ++ (k ++ "H"%char :: s) ++ d :: post) with (b ++ k ++ "H"%char :: s ++ d :: post)
      by (rewrite <- app_assoc; reflexivity).
    rewrite ParseHString_item; auto; [|lia].
    do 3 f_equal. rewrite !app_length. cbn [length]. lia.
Qed.
