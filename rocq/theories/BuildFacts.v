(** Writing lists of parameters with the line builders. *)

From Coq Require Import Lia ZifyBool ZifyNat ZifyN QArith Qabs.
From Verif Require Import Base Num Spec NumFacts IoModel FieldFacts LineFacts TokenFacts RealFacts ParamFacts PutModel.
Open Scope Z_scope.

Ltac Zify.zify_post_hook ::= Z.div_mod_to_equations.

(** ** The sequence number never decreases *)

Lemma AddPDItem_idx t st de rd st' : AddPDItem t st de rd = Ret true st' -> l_idx st <= l_idx st'.
Proof.
  unfold AddPDItem. destruct (_ <? _)%nat; [discriminate|]. destruct (_ <? _)%nat; [discriminate|].
  set (X := if (64 <? _)%nat then _ else _).
  assert (P : forall s, X = (true, s) -> l_idx st <= l_idx s).
  { subst X. intros s. destruct (_ <? _)%nat; intros H; [apply pd_flush_big in H; lia|].
    injection H as <-. lia. }
  destruct X as [ok st1]. destruct ok; [|discriminate]. cbn [negb]. specialize (P _ eq_refl).
  destruct (_ <? _); [discriminate|]. destruct (last_char t); [|discriminate].
  destruct (Ascii.eqb _ _).
  - destruct (pd_flush de _) as [ok st3] eqn:F. intros H. apply ret_inj in H. destruct H as [-> ->].
    apply pd_flush_big in F. cbn in F. lia.
  - intros H. apply ret_inj in H. destruct H as [_ <-]. exact P.
Qed.

Lemma AddPDHStr_idx s st de pd rd d st' : AddPDHStr s st de pd rd d = Ret true st' -> l_idx st <= l_idx st'.
Proof.
  unfold AddPDHStr. destruct s as [|c s]; [apply AddPDItem_idx|].
  destruct (negb _ && negb _); [discriminate|]. destruct ((_ <? _)%nat && _); [discriminate|].
  set (X := if (64 <? _)%nat then _ else _).
  assert (P : forall s, X = (true, s) -> l_idx st <= l_idx s).
  { subst X. intros s0. destruct (_ <? _)%nat; intros H; [apply pd_flush_big in H; lia|].
    injection H as <-. lia. }
  destruct X as [ok st1]. destruct ok; [|discriminate]. cbn [negb]. specialize (P _ eq_refl).
  destruct (pd_fill _ de _ st1) as [ok st2] eqn:F. destruct ok; [|discriminate]. cbn [negb].
  rewrite pd_fill_gen in F. apply (gen_fill_idx 64%nat (pd_flush de) (pd_flush_big de)) in F.
  destruct (negb _ && _).
  - destruct (pd_flush de _) as [ok st3] eqn:F3. intros H. apply ret_inj in H. destruct H as [-> ->].
    apply pd_flush_big in F3. lia.
  - intros H. apply ret_inj in H. destruct H as [_ <-]. lia.
Qed.

Lemma AddSecItem_idx t st pd rd st' : AddSecItem t st pd rd = Ret true st' -> l_idx st <= l_idx st'.
Proof.
  unfold AddSecItem. destruct (last_char t); [|discriminate].
  destruct (negb _ && negb _); [discriminate|].
  destruct (_ <? _)%nat; [discriminate|]. destruct (_ <? _)%nat; [discriminate|].
  set (X := if (72 <? _)%nat then _ else _).
  assert (P : forall s, X = (true, s) -> l_idx st <= l_idx s).
  { subst X. intros s. destruct (_ <? _)%nat; intros H; [apply g_flush_big in H; lia|].
    injection H as <-. lia. }
  destruct X as [ok st1]. destruct ok; [|discriminate]. cbn [negb]. specialize (P _ eq_refl).
  destruct (Ascii.eqb _ _).
  - destruct (g_flush _) as [ok st3] eqn:F. intros H. apply ret_inj in H. destruct H as [-> ->].
    apply g_flush_big in F. cbn in F. lia.
  - intros H. apply ret_inj in H. destruct H as [_ <-]. exact P.
Qed.

Lemma AddSecHStr_idx s st pd rd d st' : AddSecHStr s st pd rd d = Ret true st' -> l_idx st <= l_idx st'.
Proof.
  unfold AddSecHStr. destruct s as [|c s]; [apply AddSecItem_idx|].
  destruct (negb _ && negb _); [discriminate|]. destruct ((_ <? _)%nat && _); [discriminate|].
  set (X := if (72 <? _)%nat then _ else _).
  assert (P : forall s, X = (true, s) -> l_idx st <= l_idx s).
  { subst X. intros s0. destruct (_ <? _)%nat; intros H; [apply g_flush_big in H; lia|].
    injection H as <-. lia. }
  destruct X as [ok st1]. destruct ok; [|discriminate]. cbn [negb]. specialize (P _ eq_refl).
  destruct (g_fill _ _ st1) as [ok st2] eqn:F. destruct ok; [|discriminate]. cbn [negb].
  rewrite g_fill_gen in F. apply (gen_fill_idx 72%nat g_flush g_flush_big) in F.
  destruct (negb _ && _).
  - destruct (g_flush _) as [ok st3] eqn:F3. intros H. apply ret_inj in H. destruct H as [-> ->].
    apply g_flush_big in F3. lia.
  - intros H. apply ret_inj in H. destruct H as [_ <-]. lia.
Qed.

(** ** Records *)

Lemma pow10_10 : 10 ^ Z.of_nat 10 = 10000000000. Proof. reflexivity. Qed.

Lemma GetHConst_len s : Z.of_nat (length s) <= int_max -> (length (GetHConst s) <= 11)%nat.
Proof.
  intros H. unfold GetHConst. rewrite app_length. cbn [length].
  pose proof (showN_len (Z.of_nat (length s)) 10). rewrite pow10_10 in H0. unfold int_max in H. lia.
Qed.

(** Limits under which parameters are considered: texts shorter than 2^31,
    reals of magnitude up to 1e300. *)
Definition param_len (p : param) : Prop :=
  match p with
  | PInt _ => True
  | PStr s => Z.of_nat (length s) <= int_max
  | PReal q => (Qabs q <= T 300)%Q
  end.

(** What is found in the file for a parameter: reals are rounded. *)
Definition wrote (uir : Q) (p p' : param) : Prop :=
  match p, p' with
  | PInt n, PInt m => n = m
  | PStr s, PStr t => s = t
  | PReal v, PReal q => real_close uir v q /\ in_double_range q = true
  | _, _ => False
  end.

Lemma hol_text_hollerith s d : exists t, hol_text s d = t ++ [d] /\ hollerith s t.
Proof.
  destruct s as [|c s].
  - exists []. split; [reflexivity|]. left. auto.
  - exists (showN (Z.of_nat (length (c :: s))) ++ "H"%char :: c :: s). split.
    + unfold hol_text. rewrite <- app_assoc. reflexivity.
    + right. split; [discriminate|]. eexists. split; [|reflexivity].
      apply showN_numeral. lia.
Qed.

Lemma FormatPDREal_wrote v d uir t : FormatPDREal v d uir = Some t -> (Qabs v <= T 300)%Q ->
  exists t0 q, t = t0 ++ [d] /\ real_numeral t0 q /\ wrote uir (PReal v) (PReal q) /\ (length t <= 40)%nat.
Proof.
  unfold FormatPDREal. destruct (Qle_bool uir 0) eqn:E; [discriminate|]. apply Qle_bool_false in E.
  intros H L. apply some_inj in H. subst t.
  pose proof (real_digits_admissible v uir E) as A.
  destruct (format_real_accuracy _ v uir d A E) as (t0 & q & F & R & Z & ACC & REL & EX & RG).
  exists t0, q. split; [exact F|]. split; [exact R|]. split.
  - split; [|apply RG, L]. split; [exact Z|]. intros B. split; [destruct (ACC B) as [[_ X]|[_ X]]; auto|]. split; [exact (REL B)|exact (EX B)].
  - apply format_real_length; [destruct A; lia|exact L].
Qed.

Lemma FormatPDREal_some v d uir : (0 < uir)%Q -> exists t, FormatPDREal v d uir = Some t.
Proof.
  intros H. unfold FormatPDREal. destruct (Qle_bool uir 0) eqn:E; [|eauto].
  apply Qle_bool_iff in E. exfalso. apply (Qlt_not_le _ _ H E).
Qed.

Lemma pd_put_ext uir p st de pd rd delim st' :
  1 <= de <= 9999999 -> 1 <= l_idx st -> l_idx st' <= 10000000 ->
  (length (l_cur st) <= 64)%nat -> param_len p ->
  pd_put uir p st de pd rd delim = Ret true st' ->
  exists p' b t tl, ext (pd_line de) st st' (b ++ t ++ delim :: tl) /\ wrote uir p p' /\ param_text p' t /\ blanks b /\
    (t = [] -> b = []) /\ blanks tl /\ (delim = rd -> l_cur st' = []) /\ (delim <> rd -> tl = []) /\
    (length (l_cur st') <= 64)%nat /\ (length tl < 64)%nat.
Proof.
  intros Hde Hi Hx Hc Hl H. destruct p as [n|s|v]; cbn [pd_put] in H.
  - destruct (AddPDItem_ext _ _ _ _ _ Hde Hi Hx H) as (p & t0 & c & tl & E & EX & B & P & TB & C1 & C2 & C3 & C4).
    apply app_inj_tail in E. destruct E as [<- <-].
    exists (PInt n), p, (showZ n), tl. rewrite <- app_assoc in EX. repeat split; auto. apply showZ_signed.
  - assert (G : (length (GetHConst s) <= 64)%nat) by (pose proof (GetHConst_len s Hl); lia).
    destruct (AddPDHStr_ext _ _ _ _ _ _ _ Hde Hi Hx Hc G H) as (p & tl & EX & B & P & TB & C1 & C2 & C3 & C4).
    destruct (hol_text_hollerith s delim) as (t & E & HT). rewrite E, <- app_assoc in EX.
    exists (PStr s), p, t, tl. repeat split; auto.
    intros ->. apply P. destruct HT as [[-> _]|[_ (d & _ & X)]]; auto. destruct d; discriminate.
  - destruct (FormatPDREal v delim uir) as [t|] eqn:F; [|discriminate].
    destruct (FormatPDREal_wrote _ _ _ _ F Hl) as (t0 & q & -> & R & W & _).
    destruct (AddPDItem_ext _ _ _ _ _ Hde Hi Hx H) as (p & t1 & c & tl & E & EX & B & P & TB & C1 & C2 & C3 & C4).
    apply app_inj_tail in E. destruct E as [<- <-].
    exists (PReal q), p, t0, tl. rewrite <- app_assoc in EX. repeat (split; [assumption|]). assumption.
Qed.

Lemma pd_put_idx uir p st de pd rd delim st' : pd_put uir p st de pd rd delim = Ret true st' -> l_idx st <= l_idx st'.
Proof.
  destruct p; cbn; [apply AddPDItem_idx|apply AddPDHStr_idx|].
  destruct (FormatPDREal q delim uir); [apply AddPDItem_idx|discriminate].
Qed.

Lemma pd_write_idx uir ps de pd rd : forall st st', pd_write uir ps st de pd rd = Ret true st' -> l_idx st <= l_idx st'.
Proof.
  induction ps as [|p ps IH]; intros st st' H; cbn [pd_write] in H.
  - apply ret_inj in H. destruct H as [_ <-]. lia.
  - destruct ps as [|q ps]; [apply pd_put_idx in H; exact H|].
    destruct (pd_put uir p st de pd rd pd) as [|[|] st1] eqn:E; try discriminate.
    apply pd_put_idx in E. apply IH in H. lia.
Qed.

Lemma pd_write_ext uir ps de pd rd : pd <> rd -> 1 <= de <= 9999999 -> ps <> [] -> Forall param_len ps ->
  forall st st', 1 <= l_idx st -> l_idx st' <= 10000000 -> (length (l_cur st) <= 64)%nat ->
  pd_write uir ps st de pd rd = Ret true st' ->
  exists ps' body tl, ext (pd_line de) st st' (body ++ tl) /\ Forall2 (wrote uir) ps ps' /\ spaced pd rd ps' body /\
    blanks tl /\ l_cur st' = [] /\ (length tl < 64)%nat.
Proof.
  intros Ne Hde. induction ps as [|p ps IH]; intros Hn F st st' Hi Hx Hc H; [congruence|].
  inversion F; subst. cbn [pd_write] in H. destruct ps as [|q ps].
  - destruct (pd_put_ext _ _ _ _ _ _ _ _ Hde Hi Hx Hc H2 H) as (p' & b & t & tl & EX & W & T & B & E & TB & C1 & _ & _ & C4).
    exists [p'], (b ++ t ++ [rd]), tl. split.
    { replace ((b ++ t ++ [rd]) ++ tl) with (b ++ t ++ rd :: tl) by (rewrite <- !app_assoc; reflexivity). exact EX. }
    split; [constructor; auto|]. split; [constructor; auto|]. auto.
  - destruct (pd_put uir p st de pd rd pd) as [|[|] st1] eqn:E; try discriminate.
    pose proof (pd_put_idx _ _ _ _ _ _ _ _ E). pose proof (pd_write_idx _ _ _ _ _ _ _ H).
    assert (HX1 : l_idx st1 <= 10000000) by lia.
    destruct (pd_put_ext _ _ _ _ _ _ _ _ Hde Hi HX1 Hc H2 E) as (p' & b & t & tl & EX & W & T & B & E' & TB & _ & C2 & C3 & _).
    rewrite C2 in EX by auto.
    destruct (IH ltac:(discriminate) H3 st1 st' ltac:(lia) Hx C3 H) as (ps' & body & tl' & EX' & W' & SP & TB' & C & C4).
    exists (p' :: ps'), (b ++ t ++ pd :: body), tl'. split.
    { replace ((b ++ t ++ pd :: body) ++ tl') with ((b ++ t ++ [pd]) ++ body ++ tl')
        by (rewrite <- !app_assoc; reflexivity).
      eapply ext_trans; eassumption. }
    split; [constructor; auto|]. split; [constructor; auto|]. auto.
Qed.

Lemma g_put_ext uir p st pd rd delim st' :
  1 <= l_idx st -> l_idx st' <= 10000000 ->
  (length (l_cur st) <= 72)%nat -> param_len p ->
  g_put uir p st pd rd delim = Ret true st' ->
  exists p' b t tl, ext (sec_line "G") st st' (b ++ t ++ delim :: tl) /\ wrote uir p p' /\ param_text p' t /\ blanks b /\
    (t = [] -> b = []) /\ blanks tl /\ (delim = rd -> l_cur st' = []) /\ (delim <> rd -> tl = []) /\
    (length (l_cur st') <= 72)%nat.
Proof.
  intros Hi Hx Hc Hl H. destruct p as [n|s|v]; cbn [g_put] in H.
  - destruct (AddSecItem_ext _ _ _ _ _ Hi Hx H) as (p & t0 & c & tl & E & EX & B & P & TB & C1 & C2 & C3 & _).
    apply app_inj_tail in E. destruct E as [<- <-].
    exists (PInt n), p, (showZ n), tl. rewrite <- app_assoc in EX. repeat split; auto. apply showZ_signed.
  - assert (G : (length (GetHConst s) <= 72)%nat) by (pose proof (GetHConst_len s Hl); lia).
    destruct (AddSecHStr_ext _ _ _ _ _ _ Hi Hx Hc G H) as (p & tl & EX & B & P & TB & C1 & C2 & C3 & _).
    destruct (hol_text_hollerith s delim) as (t & E & HT). rewrite E, <- app_assoc in EX.
    exists (PStr s), p, t, tl. repeat split; auto.
    intros ->. apply P. destruct HT as [[-> _]|[_ (d & _ & X)]]; auto. destruct d; discriminate.
  - destruct (FormatPDREal v delim uir) as [t|] eqn:F; [|discriminate].
    destruct (FormatPDREal_wrote _ _ _ _ F Hl) as (t0 & q & -> & R & W & _).
    destruct (AddSecItem_ext _ _ _ _ _ Hi Hx H) as (p & t1 & c & tl & E & EX & B & P & TB & C1 & C2 & C3 & _).
    apply app_inj_tail in E. destruct E as [<- <-].
    exists (PReal q), p, t0, tl. rewrite <- app_assoc in EX. repeat (split; [assumption|]). assumption.
Qed.

Lemma g_put_idx uir p st pd rd delim st' : g_put uir p st pd rd delim = Ret true st' -> l_idx st <= l_idx st'.
Proof.
  destruct p; cbn; [apply AddSecItem_idx|apply AddSecHStr_idx|].
  destruct (FormatPDREal q delim uir); [apply AddSecItem_idx|discriminate].
Qed.

Lemma g_write_idx uir ps pd rd : forall st st', g_write uir ps st pd rd = Ret true st' -> l_idx st <= l_idx st'.
Proof.
  induction ps as [|p ps IH]; intros st st' H; cbn [g_write] in H.
  - apply ret_inj in H. destruct H as [_ <-]. lia.
  - destruct ps as [|q ps]; [apply g_put_idx in H; exact H|].
    destruct (g_put uir p st pd rd pd) as [|[|] st1] eqn:E; try discriminate.
    apply g_put_idx in E. apply IH in H. lia.
Qed.

Lemma g_write_ext uir ps pd rd : pd <> rd -> ps <> [] -> Forall param_len ps ->
  forall st st', 1 <= l_idx st -> l_idx st' <= 10000000 -> (length (l_cur st) <= 72)%nat ->
  g_write uir ps st pd rd = Ret true st' ->
  exists ps' body tl, ext (sec_line "G") st st' (body ++ tl) /\ Forall2 (wrote uir) ps ps' /\ spaced pd rd ps' body /\
    blanks tl /\ l_cur st' = [].
Proof.
  intros Ne. induction ps as [|p ps IH]; intros Hn F st st' Hi Hx Hc H; [congruence|].
  inversion F; subst. cbn [g_write] in H. destruct ps as [|q ps].
  - destruct (g_put_ext _ _ _ _ _ _ _ Hi Hx Hc H2 H) as (p' & b & t & tl & EX & W & T & B & E & TB & C1 & _ & _).
    exists [p'], (b ++ t ++ [rd]), tl. split.
    { replace ((b ++ t ++ [rd]) ++ tl) with (b ++ t ++ rd :: tl) by (rewrite <- !app_assoc; reflexivity). exact EX. }
    split; [constructor; auto|]. split; [constructor; auto|]. auto.
  - destruct (g_put uir p st pd rd pd) as [|[|] st1] eqn:E; try discriminate.
    pose proof (g_put_idx _ _ _ _ _ _ _ E). pose proof (g_write_idx _ _ _ _ _ _ H).
    assert (HX1 : l_idx st1 <= 10000000) by lia.
    destruct (g_put_ext _ _ _ _ _ _ _ Hi HX1 Hc H2 E) as (p' & b & t & tl & EX & W & T & B & E' & TB & _ & C2 & C3).
    rewrite C2 in EX by auto.
    destruct (IH ltac:(discriminate) H3 st1 st' ltac:(lia) Hx C3 H) as (ps' & body & tl' & EX' & W' & SP & TB' & C).
    exists (p' :: ps'), (b ++ t ++ pd :: body), tl'. split.
    { replace ((b ++ t ++ pd :: body) ++ tl') with ((b ++ t ++ [pd]) ++ body ++ tl')
        by (rewrite <- !app_assoc; reflexivity).
      eapply ext_trans; eassumption. }
    split; [constructor; auto|]. split; [constructor; auto|]. auto.
Qed.

(** From an empty builder. *)
Definition start (k : Z) : lst := mkLst [] [] k.

Lemma pd_write_record uir ps de pd rd k st' :
  delims pd rd -> 1 <= de <= 9999999 -> 1 <= k -> ps <> [] -> Forall param_len ps ->
  l_idx st' <= 10000000 ->
  pd_write uir ps (start k) de pd rd = Ret true st' ->
  exists ps' ds body tl, numbered (pd_line de) k ds (l_out st') /\ l_idx st' = k + Z.of_nat (length ds) /\
    l_cur st' = [] /\ concat ds = body ++ tl /\ Forall2 (wrote uir) ps ps' /\ spaced pd rd ps' body /\ blanks tl.
Proof.
  intros D Hde Hk Hn F Hx H. destruct D as (_ & _ & Ne).
  destruct (pd_write_ext uir ps de pd rd Ne Hde Hn F (start k) st' Hk Hx ltac:(cbn; lia) H)
    as (ps' & body & tl & (ds & out & N & O & I & C) & W & SP & B & CU & _).
  exists ps', ds, body, tl. cbn in O, I. rewrite O, CU, app_nil_r in *. cbn in C. auto 10.
Qed.

Lemma g_write_record uir ps pd rd k st' :
  delims pd rd -> 1 <= k -> ps <> [] -> Forall param_len ps ->
  l_idx st' <= 10000000 ->
  g_write uir ps (start k) pd rd = Ret true st' ->
  exists ps' ds body tl, numbered (sec_line "G") k ds (l_out st') /\ l_idx st' = k + Z.of_nat (length ds) /\
    l_cur st' = [] /\ concat ds = body ++ tl /\ Forall2 (wrote uir) ps ps' /\ spaced pd rd ps' body /\ blanks tl.
Proof.
  intros D Hk Hn F Hx H. destruct D as (_ & _ & Ne).
  destruct (g_write_ext uir ps pd rd Ne Hn F (start k) st' Hk Hx ltac:(cbn; lia) H)
    as (ps' & body & tl & (ds & out & N & O & I & C) & W & SP & B & CU).
  exists ps', ds, body, tl. cbn in O, I. rewrite O, CU, app_nil_r in *. cbn in C. auto 10.
Qed.

(** ** The builders succeed while sequence numbers last *)

Lemma AddPDItem_ok t st de rd : 1 <= de <= 9999999 -> 1 <= l_idx st <= 9999998 -> t <> [] ->
  (length t <= 64)%nat -> (length (l_cur st) <= 64)%nat ->
  exists st', AddPDItem t st de rd = Ret true st' /\ l_idx st' <= l_idx st + 2.
Proof.
  intros Hde Hi Hn Ht Hc. unfold AddPDItem.
  replace (64 <? length t)%nat with false by (symmetry; apply Nat.ltb_ge; exact Ht).
  replace (64 <? length (l_cur st))%nat with false by (symmetry; apply Nat.ltb_ge; exact Hc).
  set (X := if (64 <? _)%nat then _ else _).
  assert (P : exists st1, X = (true, st1) /\ 1 <= l_idx st1 <= 9999999 /\ l_idx st1 <= l_idx st + 1 /\
     (length (l_cur st1) + length t <= 64)%nat).
  { unfold X. destruct (Nat.ltb_spec 64 (length (l_cur st) + length t)).
    - destruct (pd_flush_ok de st Hde Hc ltac:(lia)) as (line & F & _). rewrite F.
      eexists. split; [reflexivity|]. cbn. lia.
    - exists st. split; [reflexivity|]. lia. }
  destruct P as (st1 & -> & B1 & B2 & L). cbn [negb].
  replace (9999999 <? l_idx st1) with false by lia.
  destruct (last_char t) as [c|] eqn:LC.
  2: { exfalso. destruct (exists_last Hn) as (f & c & E). subst t. revert LC. clear.
       induction f as [|a f IH]; cbn; [discriminate|]. destruct (f ++ [c]) eqn:E; [destruct f; discriminate|exact IH]. }
  destruct (Ascii.eqb c rd).
  - destruct (pd_flush_ok de (mkLst (l_cur st1 ++ t) (l_out st1) (l_idx st1)) Hde) as (line & F & _).
    { cbn. rewrite app_length. exact L. } { cbn. lia. }
    rewrite F. eexists. split; [reflexivity|]. cbn. lia.
  - eexists. split; [reflexivity|]. cbn. lia.
Qed.

Lemma gen_fill_ok w flush : (0 < w)%nat ->
  (forall st, (length (l_cur st) <= w)%nat -> 1 <= l_idx st <= 9999999 ->
     exists line, flush st = (true, mkLst [] (l_out st ++ line) (l_idx st + 1))) ->
  forall fuel hc st (k : nat), (length (l_cur st) < w)%nat -> 1 <= l_idx st ->
  (length (l_cur st) + length hc < w * (k + 1))%nat -> l_idx st + Z.of_nat k <= 10000000 ->
  exists st', gen_fill w flush fuel hc st = (true, st') /\ l_idx st' <= l_idx st + Z.of_nat k.
Proof.
  intros Hw FO. induction fuel as [|f IH]; intros hc st k Hc Hi Hl Hk; cbn [gen_fill].
  - exists st. split; [reflexivity|lia].
  - destruct hc as [|c hc]; [exists st; split; [reflexivity|lia]|].
    remember (c :: hc) as h. set (n := (w - length (l_cur st))%nat).
    set (st1 := mkLst (l_cur st ++ firstn n h) (l_out st) (l_idx st)).
    assert (LC : length (l_cur st1) = (length (l_cur st) + Nat.min n (length h))%nat)
      by (unfold st1; cbn [l_cur]; rewrite app_length, firstn_length; reflexivity).
    destruct (Nat.eqb_spec (length (l_cur st1)) w) as [E|E].
    + destruct k as [|k]; [exfalso; unfold n in *; lia|].
      destruct (FO st1) as (line & F); [lia|unfold st1; cbn; lia|].
      rewrite F. destruct (IH (skipn n h) (mkLst [] (l_out st1 ++ line) (l_idx st1 + 1)) k) as (st' & G & B).
      * cbn; lia. * cbn; lia. * cbn [l_cur length]. rewrite skipn_length. unfold n in *. lia. * cbn; lia.
      * exists st'. split; [exact G|]. cbn in B. lia.
    + destruct (IH (skipn n h) st1 k) as (st' & G & B).
      * unfold n in *. lia. * exact Hi. * rewrite skipn_length. unfold n in *. lia. * exact Hk.
      * exists st'. split; [exact G|]. exact B.
Qed.

Definition str_cost (s : str) : Z := Z.of_nat (length s) / 64 + 4.

Lemma AddPDHStr_ok s st de pd rd delim : 1 <= de <= 9999999 -> 1 <= l_idx st ->
  l_idx st + str_cost s <= 9999999 -> Z.of_nat (length s) <= int_max -> (length (l_cur st) <= 64)%nat ->
  (delim = pd \/ delim = rd) ->
  exists st', AddPDHStr s st de pd rd delim = Ret true st' /\ l_idx st' <= l_idx st + str_cost s.
Proof.
  intros Hde Hi Hk Hs Hc Hd. unfold AddPDHStr. unfold str_cost in *. destruct s as [|c s].
  - change (Z.of_nat (length []) / 64) with 0 in *.
    destruct (AddPDItem_ok [delim] st de rd Hde ltac:(lia) ltac:(discriminate) ltac:(cbn; lia) Hc) as (st' & E & B).
    exists st'. split; [exact E|]. lia.
  - remember (c :: s) as s0 eqn:Es. clear Es.
    assert (DD : negb (Ascii.eqb delim pd) && negb (Ascii.eqb delim rd) = false).
    { destruct Hd as [-> | ->]; rewrite Ascii.eqb_refl; cbn; [reflexivity|apply andb_false_r]. }
    rewrite DD. cbv zeta. replace (64 <? length (l_cur st))%nat with false by (symmetry; apply Nat.ltb_ge; exact Hc).
    rewrite andb_false_r.
    pose proof (GetHConst_len s0 Hs) as G1. pose proof (GetHConst_pos s0) as G2.
    set (X := if (64 <? _)%nat then _ else _).
    assert (P : exists st1, X = (true, st1) /\ 1 <= l_idx st1 /\ l_idx st1 <= l_idx st + 1 /\ (length (l_cur st1) < 64)%nat).
    { unfold X. destruct (Nat.ltb_spec 64 (length (l_cur st) + length (GetHConst s0))).
      - destruct (pd_flush_ok de st Hde Hc ltac:(lia)) as (line & F & _). rewrite F.
        eexists. split; [reflexivity|]. cbn. lia.
      - exists st. split; [reflexivity|]. lia. }
    destruct P as (st1 & -> & B0 & B1 & L1). cbn [negb]. rewrite pd_fill_gen.
    destruct (gen_fill_ok 64%nat (pd_flush de) ltac:(lia)
       ltac:(intros st0 A B; destruct (pd_flush_ok de st0 Hde A B) as (line & F & _); eauto)
       (length (GetHConst s0 ++ s0 ++ [delim])) (GetHConst s0 ++ s0 ++ [delim]) st1
       (Z.to_nat (Z.of_nat (length s0) / 64 + 2)) L1 B0) as (st2 & F & B2).
    { rewrite !app_length. cbn [length]. lia. }
    { lia. }
    assert (L2 : l_idx st1 <= l_idx st2) by (apply (gen_fill_idx 64%nat (pd_flush de) (pd_flush_big de) _ _ _ _ F)).
    rewrite F. cbn [negb]. destruct (negb (length (l_cur st2) =? 0)%nat && Ascii.eqb delim rd).
    + assert (L3 : (length (l_cur st2) <= 64)%nat).
      { destruct (gen_fill_ext (pd_line de) 64%nat (pd_flush de) ltac:(lia) ltac:(intros; apply pd_flush_ok; auto)
                (pd_flush_big de) _ _ _ _ ltac:(reflexivity) L1 ltac:(lia) F ltac:(lia)) as [_ Q]. lia. }
      destruct (pd_flush_ok de st2 Hde L3 ltac:(lia)) as (line & F3 & _). rewrite F3.
      eexists. split; [reflexivity|]. cbn. lia.
    + eexists. split; [reflexivity|]. lia.
Qed.

(** Lines a parameter can use up, at most. *)
Definition cost (p : param) : Z :=
  match p with PStr s => str_cost s | _ => 2 end.

(** Integers of 32 bits, texts and reals within the limits. *)
Definition param_ok (p : param) : Prop :=
  match p with
  | PInt n => -2147483648 <= n <= 2147483647
  | PStr s => Z.of_nat (length s) <= int_max
  | PReal q => (Qabs q <= T 300)%Q
  end.

Lemma param_ok_len p : param_ok p -> param_len p.
Proof. destruct p; cbn; auto. Qed.

Lemma showZ_len_int n : -2147483648 <= n <= 2147483647 -> (length (showZ n) <= 11)%nat.
Proof.
  intros H. unfold showZ. destruct (n <? 0) eqn:E; cbn [length].
  - pose proof (showN_len (- n) 10 ltac:(lia) ltac:(lia)). rewrite pow10_10 in H0. lia.
  - pose proof (showN_len n 10 ltac:(lia) ltac:(lia)). rewrite pow10_10 in H0. lia.
Qed.

Lemma cost_pos p : 2 <= cost p.
Proof. destruct p; cbn; unfold str_cost; lia. Qed.

Lemma pd_put_ok uir p st de pd rd delim : (0 < uir)%Q -> 1 <= de <= 9999999 -> 1 <= l_idx st ->
  l_idx st + cost p <= 9999999 -> param_ok p -> (length (l_cur st) <= 64)%nat -> (delim = pd \/ delim = rd) ->
  exists st', pd_put uir p st de pd rd delim = Ret true st' /\ l_idx st' <= l_idx st + cost p.
Proof.
  intros Hu Hde Hi Hk Hp Hc Hd. pose proof (cost_pos p). destruct p as [n|s|q]; cbn [pd_put].
  - apply AddPDItem_ok; auto.
    + lia. + destruct (showZ n); discriminate.
    + rewrite app_length. cbn [length]. pose proof (showZ_len_int n Hp). lia.
  - apply AddPDHStr_ok; auto.
  - destruct (FormatPDREal_some q delim uir Hu) as (t & F). rewrite F.
    destruct (FormatPDREal_wrote _ _ _ _ F Hp) as (t0 & q' & E & _ & _ & L).
    apply AddPDItem_ok; auto.
    + lia. + rewrite E. destruct t0; discriminate. + lia.
Qed.
