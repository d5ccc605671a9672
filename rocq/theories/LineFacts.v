(** Facts about the line builders of the Global and Parameter Data sections. *)

From Coq Require Import Lia ZifyBool ZifyNat ZifyN.
From Verif Require Import Base Num Spec NumFacts IoModel FieldFacts.

Ltac Zify.zify_post_hook ::= Z.div_mod_to_equations.

Lemma column8_split n s : 0 <= n <= 9999999 -> FormatDEInt n = Some s ->
  exists c, s = sp :: c /\ column 7 n c.
Proof.
  intros R H. rewrite FormatDEInt_in in H by lia. apply some_inj in H. subst s.
  unfold showZ. replace (n <? 0) with false by lia.
  assert (L : (length (showN n) <= 7)%nat) by (apply showN_len; [lia|lia|rewrite pow10_7; lia]).
  exists (repeat sp (7 - length (showN n)) ++ showN n).
  split.
  - replace (8 - length (showN n))%nat with (S (7 - length (showN n))) by lia. reflexivity.
  - split; [rewrite app_length, repeat_length; lia|].
    exists (repeat sp (7 - length (showN n))), (showN n). split; [reflexivity|].
    split; [apply blanks_repeat|]. left. apply showN_numeral. lia.
Qed.

Lemma padr_length w s : (length s <= w)%nat -> length (padr w s) = w.
Proof. intros H. unfold padr. rewrite app_length, repeat_length. lia. Qed.

Lemma last_char_app s c : last_char (s ++ [c]) = Some c.
Proof.
  induction s as [|x s IH]; [reflexivity|]. cbn [app last_char].
  destruct (s ++ [c]) eqn:E; [destruct s; discriminate|]. exact IH.
Qed.

Lemma last_char_some s c : last_char s = Some c -> exists r, s = r ++ [c].
Proof.
  induction s as [|x s IH]; intros H; [discriminate|]. cbn [last_char] in H.
  destruct s as [|y s].
  - injection H as ->. exists []. reflexivity.
  - destruct (IH H) as (r & ->). exists (x :: r). reflexivity.
Qed.

Lemma last_char_none s : last_char s = None -> s = [].
Proof.
  induction s as [|x s IH]; intros H; [reflexivity|]. cbn [last_char] in H.
  destruct s as [|y s]; [discriminate|]. apply IH in H. discriminate.
Qed.

(** ** Incremental relation: from [st] to [st'] the builder has emitted whole
    lines and the text [x] has been added after what was in the current line. *)
Section Ext.
Variable L : Z -> str -> str -> Prop.

Definition ext (st st' : lst) (x : str) : Prop :=
  exists ds out,
    numbered L (l_idx st) ds out /\
    l_out st' = l_out st ++ out /\
    l_idx st' = l_idx st + Z.of_nat (length ds) /\
    concat ds ++ l_cur st' = l_cur st ++ x.

Lemma numbered_app k ds out ds' out' :
  numbered L k ds out -> numbered L (k + Z.of_nat (length ds)) ds' out' ->
  numbered L k (ds ++ ds') (out ++ out').
Proof.
  induction 1 as [k|k d ds l rest H N IH]; intros H2.
  - cbn in H2. rewrite Z.add_0_r in H2. exact H2.
  - cbn [app]. rewrite <- app_assoc. constructor; [exact H|]. apply IH.
    replace (k + 1 + Z.of_nat (length ds)) with (k + Z.of_nat (length (d :: ds)))
      by (cbn [length]; lia). exact H2.
Qed.

Lemma ext_refl st : ext st st [].
Proof.
  exists [], []. cbn. rewrite !app_nil_r. repeat split; [constructor|lia].
Qed.

Lemma ext_app st t : ext st (mkLst (l_cur st ++ t) (l_out st) (l_idx st)) t.
Proof.
  exists [], []. cbn. rewrite app_nil_r. repeat split; [constructor|lia].
Qed.

Lemma ext_trans a b c x y : ext a b x -> ext b c y -> ext a c (x ++ y).
Proof.
  intros (d1 & o1 & N1 & O1 & I1 & S1) (d2 & o2 & N2 & O2 & I2 & S2).
  exists (d1 ++ d2), (o1 ++ o2). rewrite I1 in N2. repeat split.
  - apply numbered_app; auto.
  - rewrite O2, O1, app_assoc. reflexivity.
  - rewrite I2, I1, app_length. lia.
  - rewrite concat_app, <- app_assoc, S2, app_assoc, S1, app_assoc. reflexivity.
Qed.

Lemma ext_idx st st' x : ext st st' x -> l_idx st <= l_idx st'.
Proof. intros (ds & o & _ & _ & I & _). lia. Qed.

(** A flush function of line width [w] that works for indices up to 9999999. *)
Variable w : nat.
Variable flush : lst -> bool * lst.
Hypothesis w_pos : (0 < w)%nat.
Hypothesis flush_ok : forall st, (length (l_cur st) <= w)%nat -> 1 <= l_idx st <= 9999999 ->
  exists line, flush st = (true, mkLst [] (l_out st ++ line) (l_idx st + 1)) /\
               L (l_idx st) (padr w (l_cur st)) line.
Hypothesis flush_big : forall st st', flush st = (true, st') -> l_idx st' = l_idx st + 1.

Lemma flush_ext st : (length (l_cur st) <= w)%nat -> 1 <= l_idx st <= 9999999 ->
  exists st', flush st = (true, st') /\ l_cur st' = [] /\ l_idx st' = l_idx st + 1 /\
    ext st st' (repeat sp (w - length (l_cur st))).
Proof.
  intros H1 H2. destruct (flush_ok st H1 H2) as (line & E & HL).
  eexists. split; [exact E|]. cbn. repeat split.
  exists [padr w (l_cur st)], line. cbn. repeat split.
  - rewrite <- (app_nil_r line). constructor; [exact HL|constructor].
  - rewrite !app_nil_r. reflexivity.
Qed.

Fixpoint gen_fill (fuel : nat) (hc : str) (st : lst) : bool * lst :=
  match fuel with
  | O => (true, st)
  | S fuel' =>
    match hc with
    | [] => (true, st)
    | _ =>
      let n := (w - length (l_cur st))%nat in
      let st1 := mkLst (l_cur st ++ firstn n hc) (l_out st) (l_idx st) in
      let '(ok, st2) :=
        if (length (l_cur st1) =? w)%nat then flush st1 else (true, st1) in
      if ok then gen_fill fuel' (skipn n hc) st2 else (false, st2)
    end
  end.

Lemma gen_fill_idx fuel : forall hc st st', gen_fill fuel hc st = (true, st') -> l_idx st <= l_idx st'.
Proof using flush_big.
  clear w_pos flush_ok L.
  induction fuel as [|f IH]; intros hc st st' H; cbn [gen_fill] in H.
  - injection H as <-. lia.
  - destruct hc as [|c hc]; [injection H as <-; lia|].
    destruct (_ =? _)%nat.
    + destruct (flush _) as [ok st2] eqn:F. destruct ok; [|discriminate].
      apply IH in H. apply flush_big in F. cbn in F. lia.
    + apply IH in H. cbn in H. lia.
Qed.

Lemma gen_fill_ext fuel : forall hc st st',
  (length hc <= fuel)%nat -> (length (l_cur st) < w)%nat -> 1 <= l_idx st ->
  gen_fill fuel hc st = (true, st') -> l_idx st' <= 10000000 ->
  ext st st' hc /\ (length (l_cur st') < w)%nat.
Proof.
  induction fuel as [|f IH]; intros hc st st' Hf Hc Hi H Hx; cbn [gen_fill] in H.
  - injection H as <-. destruct hc; [|cbn in Hf; lia]. split; [apply ext_refl|auto].
  - destruct hc as [|c hc]; [injection H as <-; split; [apply ext_refl|auto]|].
    remember (c :: hc) as h eqn:Eh.
    set (n := (w - length (l_cur st))%nat) in *.
    set (st1 := mkLst (l_cur st ++ firstn n h) (l_out st) (l_idx st)) in *.
    assert (LS : (length (skipn n h) <= f)%nat).
    { rewrite skipn_length. assert (0 < length h)%nat by (subst h; cbn; lia). unfold n. lia. }
    destruct (Nat.eqb_spec (length (l_cur st1)) w) as [E|E].
    + destruct (flush st1) as [ok st2] eqn:F. destruct ok; [|discriminate].
      assert (I2 : l_idx st2 = l_idx st + 1) by (apply flush_big in F; exact F).
      assert (l_idx st2 <= l_idx st') by (apply gen_fill_idx in H; exact H).
      destruct (flush_ext st1) as (st2' & F' & C2 & _ & X2); [lia|cbn; lia|].
      rewrite F in F'. injection F' as <-.
      destruct (IH (skipn n h) st2 st') as [X LC]; auto; [rewrite C2; cbn; lia|lia|].
      split; [|exact LC].
      rewrite E, Nat.sub_diag in X2. cbn [repeat] in X2.
      rewrite <- (firstn_skipn n h). eapply ext_trans; [|exact X].
      rewrite <- (app_nil_r (firstn n h)). eapply ext_trans; [apply ext_app|exact X2].
    + assert (LF : (length (firstn n h) < n)%nat).
      { cbn [l_cur st1] in E. rewrite app_length in E. pose proof (firstn_le_length n h). unfold n in *. lia. }
      destruct (IH (skipn n h) st1 st') as [X LC]; auto.
      { cbn. rewrite app_length. unfold n in *. lia. }
      split; [|exact LC]. rewrite <- (firstn_skipn n h). eapply ext_trans; [apply ext_app|exact X].
Qed.
End Ext.

(** ** Parameter Data lines *)

Lemma pd_flush_ok de st : 1 <= de <= 9999999 ->
  (length (l_cur st) <= 64)%nat -> 1 <= l_idx st <= 9999999 ->
  exists line, pd_flush de st = (true, mkLst [] (l_out st ++ line) (l_idx st + 1)) /\
               pd_line de (l_idx st) (padr 64 (l_cur st)) line.
Proof.
  intros Hde Hc Hi. unfold pd_flush.
  destruct (FormatDEInt de) as [s1|] eqn:E1; [|apply FormatDEInt_none in E1; lia].
  destruct (FormatDEInt (l_idx st)) as [s2|] eqn:E2; [|apply FormatDEInt_none in E2; lia].
  assert (R1 : 0 <= de <= 9999999) by lia.
  assert (R2 : 0 <= l_idx st <= 9999999) by lia.
  destruct (column8_split _ _ R1 E1) as (c1 & -> & C1).
  destruct (column8_split _ _ R2 E2) as (c2 & -> & C2).
  eexists. split; [reflexivity|]. split; [apply padr_length, Hc|].
  exists c1, c2. split; [|auto]. cbn [set0]. rewrite <- app_assoc. reflexivity.
Qed.

Lemma pd_flush_big de st st' : pd_flush de st = (true, st') -> l_idx st' = l_idx st + 1.
Proof.
  unfold pd_flush. destruct (FormatDEInt de); [|discriminate].
  destruct (FormatDEInt (l_idx st)); [|discriminate]. intros H. injection H as <-. reflexivity.
Qed.

Lemma pd_fill_gen de fuel : forall hc st, pd_fill fuel de hc st = gen_fill 64 (pd_flush de) fuel hc st.
Proof.
  induction fuel as [|f IH]; intros hc st; [reflexivity|]. cbn [pd_fill gen_fill].
  destruct hc; [reflexivity|].
  match goal with |- context[if ?b then pd_flush ?d ?x else ?y] =>
    destruct (if b then pd_flush d x else y) as [ok st2] end.
  destruct ok; [apply IH|reflexivity].
Qed.

Notation pdext de := (ext (pd_line de)).

(** Trailing blanks after the last item of a record, none after others. *)
Definition tail_ok (c rd : ascii) (st' : lst) (tl : str) : Prop :=
  blanks tl /\ (c = rd -> l_cur st' = []) /\ (c <> rd -> tl = [] /\ l_cur st' <> []).

Lemma AddPDItem_ext t st de rd st' :
  1 <= de <= 9999999 -> 1 <= l_idx st -> l_idx st' <= 10000000 ->
  AddPDItem t st de rd = Ret true st' ->
  exists p t0 c tl, t = t0 ++ [c] /\ pdext de st st' (p ++ t ++ tl) /\ blanks p /\
    (t0 = [] -> p = []) /\ blanks tl /\ (c = rd -> l_cur st' = []) /\ (c <> rd -> tl = []) /\
    (length (l_cur st') <= 64)%nat /\ (length tl < 64)%nat.
Proof.
  intros Hde Hi Hx. unfold AddPDItem.
  destruct (Nat.ltb_spec 64 (length t)) as [|Lt]; [discriminate|].
  destruct (Nat.ltb_spec 64 (length (l_cur st))) as [|Lc]; [discriminate|].
  set (X := if (64 <? _)%nat then _ else _).
  intros H.
  assert (P : exists st1 p, X = (true, st1) /\ l_idx st1 <= 9999999 /\ pdext de st st1 p /\ blanks p /\
      (length (l_cur st1) + length t <= 64)%nat /\ (length t = 1%nat -> p = [])).
  { subst X. destruct (Nat.ltb_spec 64 (length (l_cur st) + length t)) as [G|G].
    - destruct (pd_flush de st) as [ok st1] eqn:F. destruct ok; [|discriminate].
      cbn [negb] in H. assert (I1 := pd_flush_big _ _ _ F).
      destruct (9999999 <? l_idx st1) eqn:I2; [discriminate|].
      destruct (flush_ext (pd_line de) 64%nat (pd_flush de) ltac:(intros; apply pd_flush_ok; auto) st)
        as (st1' & F' & C & _ & EX); [lia|lia|].
      rewrite F in F'. injection F' as <-.
      eexists. eexists. split; [reflexivity|]. split; [lia|]. split; [exact EX|].
      split; [apply blanks_repeat|]. rewrite C. split; [cbn; lia|].
      intros T. rewrite T in G. replace (64 - length (l_cur st))%nat with O by lia. reflexivity.
    - cbn [negb] in H. destruct (9999999 <? l_idx st) eqn:I2; [discriminate|].
      exists st, []. split; [reflexivity|]. split; [lia|]. split; [apply ext_refl|].
      split; [constructor|]. split; [lia|auto]. }
  destruct P as (st1 & p & EX & I1 & E1 & B1 & L1 & T1). rewrite EX in H. clear X EX.
  cbn [negb] in H. replace (9999999 <? l_idx st1) with false in H by lia.
  destruct (last_char t) as [c|] eqn:LC; [|discriminate].
  apply last_char_some in LC. destruct LC as (t0 & ->).
  assert (T0 : t0 = [] -> p = []) by (intros ->; apply T1; reflexivity).
  set (st2 := mkLst (l_cur st1 ++ t0 ++ [c]) (l_out st1) (l_idx st1)) in *.
  assert (E2 : pdext de st st2 (p ++ t0 ++ [c])) by (eapply ext_trans; [exact E1|apply ext_app]).
  destruct (Ascii.eqb_spec c rd) as [->|N].
  - destruct (pd_flush de st2) as [ok st3] eqn:F. apply ret_inj in H. destruct H as [-> ->].
    pose proof (ext_idx _ _ _ _ E1).
    destruct (flush_ext (pd_line de) 64%nat (pd_flush de) ltac:(intros; apply pd_flush_ok; auto) st2)
        as (st3' & F' & C & _ & EX).
    { cbn. rewrite app_length. lia. }
    { cbn. lia. }
    rewrite F in F'. injection F' as <-.
    exists p, t0, rd, (repeat sp (64 - length (l_cur st2))). split; [reflexivity|].
    split; [rewrite app_assoc; eapply ext_trans; [exact E2|exact EX]|].
    rewrite C. repeat split; auto; try congruence; [apply blanks_repeat|cbn; lia|].
    rewrite repeat_length. cbn [l_cur st2]. rewrite !app_length. cbn [length]. lia.
  - apply ret_inj in H. destruct H as [_ <-].
    exists p, t0, c, []. split; [reflexivity|]. rewrite app_nil_r. split; [exact E2|].
    repeat split; auto; try congruence.
    + constructor.
    + cbn [l_cur st2]. rewrite app_length. exact L1.
    + cbn; lia.
Qed.

Lemma GetHConst_pos s : (1 < length (GetHConst s))%nat.
Proof.
  unfold GetHConst. rewrite app_length. cbn [length].
  pose proof (showN_pos_len (Z.of_nat (length s)) (Nat2Z.is_nonneg _)). lia.
Qed.

(** The text of a Hollerith item. *)
Definition hol_text (s : str) (delim : ascii) : str :=
  match s with
  | [] => [delim]
  | _ => showN (Z.of_nat (length s)) ++ "H"%char :: s ++ [delim]
  end.

Lemma AddPDHStr_ext s st de pd rd delim st' :
  1 <= de <= 9999999 -> 1 <= l_idx st -> l_idx st' <= 10000000 ->
  (length (l_cur st) <= 64)%nat -> (length (GetHConst s) <= 64)%nat ->
  AddPDHStr s st de pd rd delim = Ret true st' ->
  exists p tl, pdext de st st' (p ++ hol_text s delim ++ tl) /\ blanks p /\
    (s = [] -> p = []) /\ blanks tl /\ (delim = rd -> l_cur st' = []) /\ (delim <> rd -> tl = []) /\
    (length (l_cur st') <= 64)%nat /\ (length tl < 64)%nat.
Proof.
  intros Hde Hi Hx Hc Hg H. unfold AddPDHStr in H. destruct s as [|c0 s0].
  - destruct (AddPDItem_ext _ _ _ _ _ Hde Hi Hx H) as (p & t0 & c & tl & E & EX & B & P & TB & C1 & C2 & C3 & C4).
    destruct t0 as [|x t0]; [|destruct t0; discriminate]. cbn in E. injection E as <-.
    exists p, tl. repeat split; auto.
  - cbn [hol_text]. remember (c0 :: s0) as s eqn:Es.
    destruct (negb _ && negb _); [discriminate|].
    destruct ((64 <? _)%nat && _) eqn:G0; [discriminate|].
    set (X := if (64 <? _)%nat then _ else _) in H.
    assert (P : exists st1 p, X = (true, st1) /\ l_idx st1 <= 10000000 /\ pdext de st st1 p /\ blanks p /\
      (length (l_cur st1) < 64)%nat).
    { subst X. destruct (Nat.ltb_spec 64 (length (l_cur st) + length (GetHConst s))) as [G|G].
      - destruct (pd_flush de st) as [ok st1] eqn:F. destruct ok; [|discriminate].
        cbn [negb] in H. assert (I1 := pd_flush_big _ _ _ F).
        destruct (pd_fill _ de _ st1) as [ok st2] eqn:FL.
        destruct ok; [|discriminate]. cbn [negb] in H.
        rewrite pd_fill_gen in FL.
        assert (I2 := gen_fill_idx 64%nat (pd_flush de) (pd_flush_big de) _ _ _ _ FL).
        assert (l_idx st2 <= l_idx st').
        { destruct (negb _ && _).
          - destruct (pd_flush de st2) as [ok st3] eqn:F3. apply ret_inj in H. destruct H as [-> ->].
            apply pd_flush_big in F3. lia.
          - apply ret_inj in H. destruct H as [_ ->]. lia. }
        destruct (flush_ext (pd_line de) 64%nat (pd_flush de) ltac:(intros; apply pd_flush_ok; auto) st)
        as (st1' & F' & C & _ & EX); [lia|lia|].
        rewrite F in F'. injection F' as <-.
        eexists. eexists. split; [reflexivity|]. split; [lia|]. split; [exact EX|].
        split; [apply blanks_repeat|]. rewrite C. cbn. lia.
      - exists st, []. pose proof (GetHConst_pos s).
        assert (l_idx st <= l_idx st').
        { cbn [negb] in H. destruct (pd_fill _ de _ st) as [ok st2] eqn:FL.
          destruct ok; [|discriminate]. cbn [negb] in H.
          rewrite pd_fill_gen in FL.
          assert (I2 := gen_fill_idx 64%nat (pd_flush de) (pd_flush_big de) _ _ _ _ FL).
          destruct (negb _ && _).
          - destruct (pd_flush de st2) as [ok st3] eqn:F3. apply ret_inj in H. destruct H as [-> ->].
            apply pd_flush_big in F3. lia.
          - apply ret_inj in H. destruct H as [_ ->]. lia. }
        split; [reflexivity|]. split; [lia|]. split; [apply ext_refl|].
        split; [constructor|]. lia. }
    destruct P as (st1 & p & EX & I1 & E1 & B1 & L1). rewrite EX in H. clear X EX.
    cbn [negb] in H.
    destruct (pd_fill _ de _ st1) as [ok st2] eqn:FL.
    destruct ok; [|discriminate]. cbn [negb] in H. rewrite pd_fill_gen in FL.
    pose proof (ext_idx _ _ _ _ E1).
    assert (I2 : l_idx st2 <= l_idx st' /\ l_idx st <= l_idx st2).
    { assert (I2 := gen_fill_idx 64%nat (pd_flush de) (pd_flush_big de) _ _ _ _ FL). split; [|lia].
      destruct (negb _ && _).
      - destruct (pd_flush de st2) as [ok st3] eqn:F3. apply ret_inj in H. destruct H as [-> ->].
        apply pd_flush_big in F3. lia.
      - apply ret_inj in H. destruct H as [_ ->]. lia. }
    destruct (gen_fill_ext (pd_line de) 64%nat (pd_flush de) ltac:(lia) ltac:(intros; apply pd_flush_ok; auto)
                (pd_flush_big de) _ _ _ _ ltac:(reflexivity) L1 ltac:(lia) FL ltac:(lia)) as [E2 L2].
    assert (E3 := ext_trans _ _ _ _ _ _ E1 E2).
    assert (HT : GetHConst s ++ s ++ [delim] = showN (Z.of_nat (length s)) ++ "H"%char :: s ++ [delim]).
    { unfold GetHConst. rewrite <- app_assoc. reflexivity. }
    rewrite HT in E3.
    destruct (Nat.eqb_spec (length (l_cur st2)) 0) as [Z0|Z0]; cbn [negb andb] in H.
    + apply ret_inj in H. destruct H as [_ <-]. exists p, []. rewrite app_nil_r.
      split; [exact E3|]. repeat split; auto; try constructor; try (cbn; lia).
      * subst s. discriminate.
      * intros _. destruct (l_cur st2); [reflexivity|discriminate].
    + destruct (Ascii.eqb_spec delim rd) as [->|ND].
      * destruct (pd_flush de st2) as [ok st3] eqn:F3. apply ret_inj in H. destruct H as [-> ->].
        assert (I3 := pd_flush_big _ _ _ F3).
        destruct (flush_ext (pd_line de) 64%nat (pd_flush de) ltac:(intros; apply pd_flush_ok; auto) st2)
        as (st3' & F' & C & _ & EX); [lia|lia|].
        rewrite F3 in F'. injection F' as <-.
        exists p, (repeat sp (64 - length (l_cur st2))). rewrite app_assoc.
        split; [eapply ext_trans; [exact E3|exact EX]|].
        rewrite C. repeat split; auto; try congruence; try apply blanks_repeat; try (cbn; lia).
        rewrite repeat_length. lia.
      * apply ret_inj in H. destruct H as [_ <-]. exists p, []. rewrite app_nil_r.
        split; [exact E3|]. repeat split; auto; try constructor; try congruence; try (cbn; lia).
Qed.

(** ** Global Section lines *)

Notation gline := (sec_line "G").
Notation gext := (ext gline).

Lemma g_flush_ok st :
  (length (l_cur st) <= 72)%nat -> 1 <= l_idx st <= 9999999 ->
  exists line, g_flush st = (true, mkLst [] (l_out st ++ line) (l_idx st + 1)) /\
               gline (l_idx st) (padr 72 (l_cur st)) line.
Proof.
  intros Hc Hi. unfold g_flush.
  destruct (FormatDEInt (l_idx st)) as [s2|] eqn:E2; [|apply FormatDEInt_none in E2; lia].
  assert (R2 : 0 <= l_idx st <= 9999999) by lia.
  destruct (column8_split _ _ R2 E2) as (c2 & -> & C2).
  eexists. split; [reflexivity|]. split; [apply padr_length, Hc|].
  exists c2. split; [|auto]. cbn [set0]. reflexivity.
Qed.

Lemma g_flush_big st st' : g_flush st = (true, st') -> l_idx st' = l_idx st + 1.
Proof.
  unfold g_flush. destruct (FormatDEInt (l_idx st)); [|discriminate].
  intros H. injection H as <-. reflexivity.
Qed.

Lemma g_fill_gen fuel : forall hc st, g_fill fuel hc st = gen_fill 72 g_flush fuel hc st.
Proof.
  induction fuel as [|f IH]; intros hc st; [reflexivity|]. cbn [g_fill gen_fill].
  destruct hc; [reflexivity|].
  match goal with |- context[if ?b then g_flush ?x else ?y] =>
    destruct (if b then g_flush x else y) as [ok st2] end.
  destruct ok; [apply IH|reflexivity].
Qed.

Lemma AddSecItem_ext t st pd rd st' :
  1 <= l_idx st -> l_idx st' <= 10000000 ->
  AddSecItem t st pd rd = Ret true st' ->
  exists p t0 c tl, t = t0 ++ [c] /\ gext st st' (p ++ t ++ tl) /\ blanks p /\
    (t0 = [] -> p = []) /\ blanks tl /\ (c = rd -> l_cur st' = []) /\ (c <> rd -> tl = []) /\
    (length (l_cur st') <= 72)%nat /\ (c = pd \/ c = rd).
Proof.
  intros Hi Hx. unfold AddSecItem.
  destruct (last_char t) as [c|] eqn:LC; [|discriminate].
  apply last_char_some in LC. destruct LC as (t0 & Et).
  destruct (negb _ && negb _) eqn:Ed; [discriminate|].
  destruct (Nat.ltb_spec 72 (length t)) as [|Lt]; [discriminate|].
  destruct (Nat.ltb_spec 72 (length (l_cur st))) as [|Lc]; [discriminate|].
  assert (Dl : c = pd \/ c = rd).
  { destruct (Ascii.eqb_spec c pd), (Ascii.eqb_spec c rd); auto; discriminate. }
  set (X := if (72 <? _)%nat then _ else _).
  intros H.
  assert (P : exists st1 p, X = (true, st1) /\ l_idx st1 <= 10000000 /\ gext st st1 p /\ blanks p /\
      (length (l_cur st1) + length t <= 72)%nat /\ (length t = 1%nat -> p = [])).
  { subst X. destruct (Nat.ltb_spec 72 (length (l_cur st) + length t)) as [G|G].
    - destruct (g_flush st) as [ok st1] eqn:F. destruct ok; [|discriminate].
      cbn [negb] in H. assert (I1 := g_flush_big _ _ F).
      assert (I2 : l_idx st1 <= l_idx st').
      { destruct (Ascii.eqb c rd).
        - destruct (g_flush (mkLst (l_cur st1 ++ t) (l_out st1) (l_idx st1))) as [ok st3] eqn:F3. apply ret_inj in H. destruct H as [-> ->].
          apply g_flush_big in F3. cbn in F3. lia.
        - apply ret_inj in H. destruct H as [_ <-]. cbn. lia. }
      destruct (flush_ext gline 72%nat g_flush g_flush_ok st)
        as (st1' & F' & C & _ & EX); [lia|lia|].
      rewrite F in F'. injection F' as <-.
      eexists. eexists. split; [reflexivity|]. split; [lia|]. split; [exact EX|].
      split; [apply blanks_repeat|]. rewrite C. split; [cbn; lia|].
      intros T. rewrite T in G. replace (72 - length (l_cur st))%nat with O by lia. reflexivity.
    - cbn [negb] in H.
      exists st, []. split; [reflexivity|]. split.
      { destruct (Ascii.eqb c rd).
        - destruct (g_flush (mkLst (l_cur st ++ t) (l_out st) (l_idx st))) as [ok st3] eqn:F3. apply ret_inj in H. destruct H as [-> ->].
          apply g_flush_big in F3. cbn in F3. lia.
        - apply ret_inj in H. destruct H as [_ <-]. cbn in Hx. lia. }
      split; [apply ext_refl|]. split; [constructor|]. split; [lia|auto]. }
  destruct P as (st1 & p & EX & I1 & E1 & B1 & L1 & T1). rewrite EX in H. clear X EX.
  cbn [negb] in H. subst t.
  assert (T0 : t0 = [] -> p = []) by (intros ->; apply T1; reflexivity).
  set (st2 := mkLst (l_cur st1 ++ t0 ++ [c]) (l_out st1) (l_idx st1)) in *.
  assert (E2 : gext st st2 (p ++ t0 ++ [c])) by (eapply ext_trans; [exact E1|apply ext_app]).
  destruct (Ascii.eqb_spec c rd) as [->|N].
  - destruct (g_flush st2) as [ok st3] eqn:F. apply ret_inj in H. destruct H as [-> ->].
    pose proof (ext_idx _ _ _ _ E1).
    assert (I3 := g_flush_big _ _ F). cbn in I3.
    destruct (flush_ext gline 72%nat g_flush g_flush_ok st2)
        as (st3' & F' & C & _ & EX).
    { cbn. rewrite app_length. lia. }
    { cbn. lia. }
    rewrite F in F'. injection F' as <-.
    exists p, t0, rd, (repeat sp (72 - length (l_cur st2))). split; [reflexivity|].
    split; [rewrite app_assoc; eapply ext_trans; [exact E2|exact EX]|].
    rewrite C. repeat split; auto; try congruence; [apply blanks_repeat|cbn; lia].
  - apply ret_inj in H. destruct H as [_ <-].
    exists p, t0, c, []. split; [reflexivity|]. rewrite app_nil_r. split; [exact E2|].
    repeat split; auto; try congruence.
    + constructor.
    + cbn [l_cur st2]. rewrite app_length. exact L1.
Qed.

Lemma AddSecHStr_ext s st pd rd delim st' :
  1 <= l_idx st -> l_idx st' <= 10000000 ->
  (length (l_cur st) <= 72)%nat -> (length (GetHConst s) <= 72)%nat ->
  AddSecHStr s st pd rd delim = Ret true st' ->
  exists p tl, gext st st' (p ++ hol_text s delim ++ tl) /\ blanks p /\
    (s = [] -> p = []) /\ blanks tl /\ (delim = rd -> l_cur st' = []) /\ (delim <> rd -> tl = []) /\
    (length (l_cur st') <= 72)%nat /\ (delim = pd \/ delim = rd).
Proof.
  intros Hi Hx Hc Hg H. unfold AddSecHStr in H. destruct s as [|c0 s0].
  - destruct (AddSecItem_ext _ _ _ _ _ Hi Hx H) as (p & t0 & c & tl & E & EX & B & P & TB & C1 & C2 & C3 & C4).
    destruct t0 as [|x t0]; [|destruct t0; discriminate]. cbn in E. injection E as <-.
    exists p, tl. repeat split; auto.
  - cbn [hol_text]. remember (c0 :: s0) as s eqn:Es.
    destruct (negb _ && negb _) eqn:Ed; [discriminate|].
    assert (Dl : delim = pd \/ delim = rd).
    { destruct (Ascii.eqb_spec delim pd), (Ascii.eqb_spec delim rd); auto; discriminate. }
    destruct ((72 <? _)%nat && _) eqn:G0; [discriminate|].
    set (X := if (72 <? _)%nat then _ else _) in H.
    assert (FIN : forall st2, (if negb (length (l_cur st2) =? 0)%nat && Ascii.eqb delim rd
               then let '(ok, st3) := g_flush st2 in Ret ok st3
               else Ret true st2) = Ret true st' -> l_idx st2 <= l_idx st').
    { intros st2 H2. destruct (negb (length (l_cur st2) =? 0)%nat && Ascii.eqb delim rd).
      - destruct (g_flush st2) as [ok st3] eqn:F3. apply ret_inj in H2. destruct H2 as [-> ->].
        apply g_flush_big in F3. lia.
      - apply ret_inj in H2. destruct H2 as [_ ->]. lia. }
    assert (P : exists st1 p, X = (true, st1) /\ l_idx st1 <= 10000000 /\ gext st st1 p /\ blanks p /\
      (length (l_cur st1) < 72)%nat).
    { subst X. destruct (Nat.ltb_spec 72 (length (l_cur st) + length (GetHConst s))) as [G|G].
      - destruct (g_flush st) as [ok st1] eqn:F. destruct ok; [|discriminate].
        cbn [negb] in H. assert (I1 := g_flush_big _ _ F).
        destruct (g_fill _ _ st1) as [ok st2] eqn:FL.
        destruct ok; [|discriminate]. cbn [negb] in H.
        rewrite g_fill_gen in FL.
        assert (I2 := gen_fill_idx 72%nat g_flush g_flush_big _ _ _ _ FL).
        apply FIN in H.
        destruct (flush_ext gline 72%nat g_flush g_flush_ok st)
        as (st1' & F' & C & _ & EX); [lia|lia|].
        rewrite F in F'. injection F' as <-.
        eexists. eexists. split; [reflexivity|]. split; [lia|]. split; [exact EX|].
        split; [apply blanks_repeat|]. rewrite C. cbn. lia.
      - exists st, []. pose proof (GetHConst_pos s).
        assert (l_idx st <= l_idx st').
        { cbn [negb] in H. destruct (g_fill _ _ st) as [ok st2] eqn:FL.
          destruct ok; [|discriminate]. cbn [negb] in H.
          rewrite g_fill_gen in FL.
          assert (I2 := gen_fill_idx 72%nat g_flush g_flush_big _ _ _ _ FL).
          apply FIN in H. lia. }
        split; [reflexivity|]. split; [lia|]. split; [apply ext_refl|].
        split; [constructor|]. lia. }
    destruct P as (st1 & p & EX & I1 & E1 & B1 & L1). rewrite EX in H. clear X EX.
    cbn [negb] in H.
    destruct (g_fill _ _ st1) as [ok st2] eqn:FL.
    destruct ok; [|discriminate]. cbn [negb] in H. rewrite g_fill_gen in FL.
    pose proof (ext_idx _ _ _ _ E1).
    assert (I2 : l_idx st2 <= l_idx st' /\ l_idx st <= l_idx st2).
    { assert (I2 := gen_fill_idx 72%nat g_flush g_flush_big _ _ _ _ FL). split; [|lia].
      apply FIN, H. }
    destruct (gen_fill_ext gline 72%nat g_flush ltac:(lia) g_flush_ok
                g_flush_big _ _ _ _ ltac:(reflexivity) L1 ltac:(lia) FL ltac:(lia)) as [E2 L2].
    assert (E3 := ext_trans _ _ _ _ _ _ E1 E2).
    assert (HT : GetHConst s ++ s ++ [delim] = showN (Z.of_nat (length s)) ++ "H"%char :: s ++ [delim]).
    { unfold GetHConst. rewrite <- app_assoc. reflexivity. }
    rewrite HT in E3.
    destruct (Nat.eqb_spec (length (l_cur st2)) 0) as [Z0|Z0]; cbn [negb andb] in H.
    + apply ret_inj in H. destruct H as [_ <-]. exists p, []. rewrite app_nil_r.
      split; [exact E3|]. repeat split; auto; try constructor; try lia.
      * subst s. discriminate.
      * intros _. destruct (l_cur st2); [reflexivity|discriminate].
    + destruct (Ascii.eqb_spec delim rd) as [->|ND].
      * destruct (g_flush st2) as [ok st3] eqn:F3. apply ret_inj in H. destruct H as [-> ->].
        assert (I3 := g_flush_big _ _ F3).
        destruct (flush_ext gline 72%nat g_flush g_flush_ok st2)
        as (st3' & F' & C & _ & EX); [lia|lia|].
        rewrite F3 in F'. injection F' as <-.
        exists p, (repeat sp (72 - length (l_cur st2))). rewrite app_assoc.
        split; [eapply ext_trans; [exact E3|exact EX]|].
        rewrite C. repeat split; auto; try congruence; try apply blanks_repeat; try (cbn; lia).
      * apply ret_inj in H. destruct H as [_ <-]. exists p, []. rewrite app_nil_r.
        split; [exact E3|]. repeat split; auto; try constructor; try congruence; try lia.
Qed.
