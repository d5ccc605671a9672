(** Facts of the I/O layer in the form in which they are claimed. *)

From Coq Require Import QArith Qabs Lia ZifyBool ZifyNat.
From Verif Require Import Base Num Spec IoModel NumFacts FieldFacts LineFacts TokenFacts RealFacts RecordFacts ParamFacts
  PutModel BuildFacts StreamFacts PdModel PdFacts GlobalModel GlobalFacts GlobSpec GlobBack.
Open Scope Z_scope.
Ltac Zify.zify_post_hook ::= Z.div_mod_to_equations.

(** ** Directory fields *)

Lemma app_inj_pre {A} (a b c d : list A) : a ++ b = c ++ d -> length a = length c -> a = c /\ b = d.
Proof.
  revert c. induction a as [|x a IH]; intros [|y c] E L; cbn in *; try lia; auto.
  injection E as -> E. destruct (IH c E ltac:(lia)) as [-> ->]. auto.
Qed.

Lemma de_int_back n s : FormatDEInt n = Some s ->
  -9999999 <= n <= 99999999 /\ column 8 n s /\
  forall pre post field dflt, 0 <= field <= 9 -> length pre = Z.to_nat (8 * field) ->
    DEItemToInt (pre ++ s ++ post) field dflt = POk n.
Proof.
  intros H. destruct (FormatDEInt_some _ _ H) as [R C]. split; [exact R|]. split; [exact C|].
  intros. apply DEItemToInt_column; auto.
Qed.

Lemma DEItemToInt_iff pre s post field dflt v : 0 <= field <= 9 -> length pre = Z.to_nat (8 * field) -> length s = 8%nat ->
  DEItemToInt (pre ++ s ++ post) field dflt = POk v <->
  (blanks s /\ dflt = Some v) \/
  (exists w t r, s = w ++ t ++ r /\ Forall isspc w /\ signed_numeral t v /\
     match r with [] => True | c :: _ => c = nul end).
Proof.
  intros F L S. split.
  - intros H. destruct (DEItemToInt_sound _ _ _ _ H) as (pre' & s' & post' & E & L' & _ & S' & C).
    apply app_inj_pre in E; [|lia]. destruct E as [_ E]. apply app_inj_pre in E; [|lia].
    destruct E as [-> _]. exact C.
  - intros [[B ->]|(w & t & r & -> & W & T & R)].
    + rewrite DEItemToInt_blank; auto.
    + apply DEItemToInt_read; auto.
Qed.

Lemma DEItemToInt_short input field dflt : field < 0 \/ 9 < field \/ Z.of_nat (length input) < 8 * (field + 1) ->
  DEItemToInt input field dflt = PFail.
Proof.
  intros H. unfold DEItemToInt. destruct ((field <? 0) || (9 <? field)) eqn:E; [reflexivity|].
  replace (Z.of_nat (length input) <? 8 * (field + 1)) with true by lia. reflexivity.
Qed.

(** ** Lists of parameters *)

Lemma wrote_close uir ps : forall ps' qs, Forall2 (wrote uir) ps ps' -> Forall2 param_eq ps' qs -> Forall2 (param_close uir) ps qs.
Proof.
  induction ps as [|p ps IH]; intros ps' qs W E; inversion W; subst; inversion E; subst; constructor; [|eapply IH; eassumption].
  destruct p, y, y0; cbn in *; try contradiction; try congruence. eapply close_wd; [exact H2|]. apply H1.
Qed.

Lemma wrote_range uir ps ps' : Forall2 (wrote uir) ps ps' -> Forall param_ok ps -> Forall param_range ps'.
Proof.
  induction 1 as [|p p' ps ps' W F IH]; intros O; [constructor|]. inversion O; subst. constructor; [|auto].
  destruct p, p'; cbn in *; try contradiction; subst; auto. apply W.
Qed.

Lemma parse_params_kinds ps : forall ps' uir data idx eor pd rd, Forall2 (wrote uir) ps ps' ->
  parse_params ps data idx eor pd rd = parse_params ps' data idx eor pd rd.
Proof.
  induction ps as [|p ps IH]; intros ps' uir data idx eor pd rd W; inversion W; subst; [reflexivity|].
  destruct p, y; cbn in H1; try contradiction; cbn [parse_params].
  - destruct (ParseInt data idx eor pd rd None) as [| |[[? ?] ?]]; cbn [pbind]; auto. erewrite IH; eauto.
  - destruct (ParseHString data idx eor pd rd) as [| |[[? ?] ?]]; cbn [pbind]; auto. erewrite IH; eauto.
  - destruct (ParseReal data idx eor pd rd None) as [| |[[? ?] ?]]; cbn [pbind]; auto. erewrite IH; eauto.
Qed.

Lemma pd_write_ok uir de pd rd : delims pd rd -> (0 < uir)%Q -> 1 <= de <= 9999999 -> forall ps st, ps <> [] -> Forall param_ok ps ->
  1 <= l_idx st -> l_idx st + costs ps <= 9999999 -> (length (l_cur st) <= 64)%nat ->
  exists st', pd_write uir ps st de pd rd = Ret true st' /\ l_idx st' <= l_idx st + costs ps.
Proof.
  intros D Hu Hde. induction ps as [|p ps IH]; intros st N OK Hi Hk Hc; [congruence|].
  inversion OK; subst. rewrite costs_cons in *. pose proof (costs_nonneg ps). cbn [pd_write].
  destruct ps as [|q ps].
  - destruct (pd_put_ok uir p st de pd rd rd Hu Hde Hi ltac:(lia) H1 Hc (or_intror eq_refl)) as (st' & E & B).
    exists st'. split; [exact E|]. lia.
  - destruct (pd_put_ok uir p st de pd rd pd Hu Hde Hi ltac:(lia) H1 Hc (or_introl eq_refl)) as (st1 & E & B).
    rewrite E. pose proof (pd_put_idx _ _ _ _ _ _ _ _ E).
    assert (HX : l_idx st1 <= 10000000) by lia.
    destruct (pd_put_ext _ _ _ _ _ _ _ _ Hde Hi HX Hc (param_ok_len _ H1) E) as (_ & _ & _ & _ & _ & _ & _ & _ & _ & _ & _ & _ & C & _).
    destruct (IH st1 ltac:(discriminate) H2 ltac:(lia) ltac:(lia) C) as (st' & E' & B'). exists st'. split; [exact E'|]. lia.
Qed.

Theorem pd_list_back uir etype de k pd rd ps rest :
  delims pd rd -> (0 < uir)%Q -> 1 <= etype <= 9999999 -> 1 <= de <= 9999999 -> 1 <= k ->
  ps <> [] -> Forall param_ok ps -> Forall no_nl ps -> k + costs ps <= 9999999 ->
  exists st' data ps' idx,
    pd_write uir ps (mkLst (showZ etype ++ [pd]) [] k) de pd rd = Ret true st' /\
    readPD_base etype de k (l_idx st' - k) pd rd (mkStream (l_out st' ++ rest) false) = POk (data, mkStream rest false) /\
    parse_params ps data (length (showZ etype) + 1) false pd rd = POk (ps', idx, true) /\
    Forall2 (param_close uir) ps ps' /\ blanks (skipn idx data) /\ (length (skipn idx data) < 64)%nat.
Proof.
  intros D Hu He Hde Hk N OK NN B. pose proof (costs_nonneg ps).
  assert (Hc : (length (showZ etype ++ [pd]) <= 64)%nat) by (pose proof (showZ_type etype He); rewrite app_length; cbn; lia).
  destruct (pd_write_ok uir de pd rd D Hu Hde ps (mkLst (showZ etype ++ [pd]) [] k) N OK Hk B Hc) as (st' & W & BI). cbn [l_idx] in BI.
  assert (PL : Forall param_len ps) by (eapply Forall_impl; [|exact OK]; apply param_ok_len).
  destruct (pd_write_ext uir ps de pd rd ltac:(apply D) Hde N PL (mkLst (showZ etype ++ [pd]) [] k) st' Hk ltac:(lia) Hc W)
    as (ps' & body & tl & EX & WR & SP & BT & CU & LT).
  assert (PR : pd_record etype de k pd rd ps' (mkPd (l_out st') (l_idx st') (l_idx st' - k))).
  { destruct EX as (ds & out & N1 & O & I & C). cbn [l_out l_idx l_cur app] in *. rewrite CU, app_nil_r, <- app_assoc in C. cbn [app] in C.
    exists ds, body, tl. cbn [p_out p_next p_count]. rewrite O. repeat (split; [auto|]); lia. }
  destruct (read_record_base etype de k pd rd ps' _ He Hk D (wrote_no_nl _ _ _ WR NN) PR) as (body' & tl' & R & SP' & BT' & LT' & _ & LM).
  cbn [p_out p_count] in R.
  replace (showZ etype ++ pd :: body' ++ tl') with ((showZ etype ++ [pd]) ++ body' ++ tl') in * by (rewrite <- app_assoc; reflexivity).
  pose proof (cursor_start pd rd _ _ tl' _ SP' LM) as CS. rewrite app_length in CS. cbn [length] in CS.
  destruct (parse_params_cursor pd rd _ _ D _ _ _ CS (wrote_range _ _ _ WR OK)) as (qs & idx & eor & P & Q & CE).
  destruct (cursor_end _ _ _ _ _ _ CE) as [-> EI].
  exists st', ((showZ etype ++ [pd]) ++ body' ++ tl'), qs, idx. split; [exact W|]. split; [apply R|].
  split; [rewrite (parse_params_kinds _ _ _ _ _ _ _ _ WR); exact P|]. split; [eapply wrote_close; eassumption|].
  assert (SK : skipn idx ((showZ etype ++ [pd]) ++ body' ++ tl') = tl').
  { rewrite app_assoc. rewrite app_assoc, app_length in EI.
    replace idx with (length ((showZ etype ++ [pd]) ++ body')) by lia. apply skipn_mid. }
  rewrite SK. auto.
Qed.

(** The same for the Global Section builder. *)
Lemma g_put_ok uir p st pd rd delim : (0 < uir)%Q -> 1 <= l_idx st ->
  l_idx st + cost p <= 9999999 -> param_ok p -> (length (l_cur st) <= 72)%nat -> (delim = pd \/ delim = rd) ->
  exists st', g_put uir p st pd rd delim = Ret true st' /\ l_idx st' <= l_idx st + cost p.
Proof.
  intros Hu Hi Hk OK Hc Hd. destruct p as [n|s|v]; cbn [g_put cost param_ok] in *.
  - pose proof (showZ_len_int n OK). destruct (AddSecItem_ok (showZ n) delim st pd rd ltac:(lia) Hd ltac:(lia) Hc) as (st' & E & B).
    exists st'. split; [exact E|lia].
  - destruct (AddSecHStr_ok s st pd rd delim Hi Hk OK Hc Hd) as (st' & E & B). eauto.
  - destruct (FormatPDREal_some v delim uir Hu) as [t E]. rewrite E.
    destruct (FormatPDREal_wrote _ _ _ _ E OK) as (t0 & q & -> & _ & _ & L). rewrite app_length in L. cbn in L.
    destruct (AddSecItem_ok t0 delim st pd rd ltac:(lia) Hd ltac:(lia) Hc) as (st' & E' & B). exists st'. split; [exact E'|lia].
Qed.

Lemma g_write_ok uir pd rd : delims pd rd -> (0 < uir)%Q -> forall ps st, ps <> [] -> Forall param_ok ps ->
  1 <= l_idx st -> l_idx st + costs ps <= 9999999 -> (length (l_cur st) <= 72)%nat ->
  exists st', g_write uir ps st pd rd = Ret true st' /\ l_idx st' <= l_idx st + costs ps.
Proof.
  intros D Hu. induction ps as [|p ps IH]; intros st N OK Hi Hk Hc; [congruence|].
  inversion OK; subst. rewrite costs_cons in *. pose proof (costs_nonneg ps). cbn [g_write].
  destruct ps as [|q ps].
  - destruct (g_put_ok uir p st pd rd rd Hu Hi ltac:(lia) H1 Hc (or_intror eq_refl)) as (st' & E & B).
    exists st'. split; [exact E|]. lia.
  - destruct (g_put_ok uir p st pd rd pd Hu Hi ltac:(lia) H1 Hc (or_introl eq_refl)) as (st1 & E & B).
    rewrite E. pose proof (g_put_idx _ _ _ _ _ _ _ E).
    assert (HX : l_idx st1 <= 10000000) by lia.
    destruct (g_put_ext _ _ _ _ _ _ _ Hi HX Hc (param_ok_len _ H1) E) as (_ & _ & _ & _ & _ & _ & _ & _ & _ & _ & _ & _ & C).
    destruct (IH st1 ltac:(discriminate) H2 ltac:(lia) ltac:(lia) C) as (st' & E' & B'). exists st'. split; [exact E'|]. lia.
Qed.

Theorem g_list_back uir pd rd ps rest nxt f2 :
  delims pd rd -> (0 < uir)%Q -> ps <> [] -> Forall param_ok ps -> Forall no_nl ps -> costs ps <= 9999998 ->
  ReadIGESRecord (mkStream rest false) = POk (nxt, f2) -> r_sec nxt <> "G"%char ->
  exists st' rec f1 data ps' idx,
    g_write uir ps (start 1) pd rd = Ret true st' /\
    ReadIGESRecord (mkStream (l_out st' ++ rest) false) = POk (rec, f1) /\
    glob_lines (S (length (s_rest f1))) rec 0 f1 = POk (data, l_idx st' - 1, nxt, f2) /\
    parse_params ps data 0 false pd rd = POk (ps', idx, true) /\
    Forall2 (param_close uir) ps ps' /\ blanks (skipn idx data).
Proof.
  intros D Hu N OK NN B RR NG. pose proof (costs_nonneg ps).
  destruct (g_write_ok uir pd rd D Hu ps (start 1) N OK ltac:(cbn; lia) ltac:(cbn [start l_idx]; lia) ltac:(cbn; lia)) as (st' & W & BI). cbn [start l_idx] in BI.
  assert (PL : Forall param_len ps) by (eapply Forall_impl; [|exact OK]; apply param_ok_len).
  destruct (g_write_record uir ps pd rd 1 st' D ltac:(lia) N PL ltac:(lia) W) as (ps' & ds & body & tl & NU & EI & CU & C & WR & SP & BT).
  assert (ND : ds <> []).
  { intros ->. cbn [concat] in C. destruct SP as [p b t|p b t]; destruct b, t; discriminate. }
  assert (NC : ~ In nl (concat ds)).
  { rewrite C. intros I. apply in_app_or in I. destruct I as [I|I]; [|exact (blanks_no_nl _ BT I)].
    refine (spaced_no_nl _ _ _ _ D SP _ I). eapply wrote_no_nl; eassumption. }
  destruct (section_lines ds (l_out st') rest nxt f2 NU ND NC RR NG) as (rec & f1 & R1 & _ & GL).
  destruct (numbered_len_g _ _ _ NU) as [_ LC].
  assert (LM : Z.of_nat (length ([] ++ body ++ tl)) <= int_max) by (cbn [app]; rewrite <- C, LC; unfold int_max; lia).
  pose proof (cursor_start pd rd _ _ tl _ SP LM) as CS. cbn [app length] in CS.
  destruct (parse_params_cursor pd rd _ _ D _ _ _ CS (wrote_range _ _ _ WR OK)) as (qs & idx & eor & P & Q & CE).
  destruct (cursor_end _ _ _ _ _ _ CE) as [-> EX].
  exists st', rec, f1, (concat ds), qs, idx. split; [exact W|]. split; [exact R1|].
  split; [rewrite GL; do 4 f_equal; lia|]. rewrite C.
  split; [rewrite (parse_params_kinds _ _ _ _ _ _ _ _ WR); exact P|]. split; [eapply wrote_close; eassumption|].
  assert (SK : skipn idx (body ++ tl) = tl).
  { rewrite app_length in EX. replace idx with (length body) by lia. apply skipn_mid. }
  rewrite SK. exact BT.
Qed.

(** ** Reals *)

Lemma real_text v r delim : (0 < r)%Q ->
  exists t q, FormatPDREal v delim r = Some (t ++ [delim]) /\ real_numeral t q.
Proof.
  intros Hr. unfold FormatPDREal. replace (Qle_bool r 0) with false.
  - destruct (format_real_accuracy _ v r delim (real_digits_admissible v r Hr) Hr) as (t & q & E & R & _).
    exists t, q. rewrite E. auto.
  - symmetry. destruct (Qle_bool r 0) eqn:E; [|reflexivity]. apply Qle_bool_iff in E. exfalso. apply (Qlt_not_le _ _ Hr E).
Qed.

Lemma real_refused v r delim : FormatPDREal v delim r = None <-> (r <= 0)%Q.
Proof.
  unfold FormatPDREal. destruct (Qle_bool r 0) eqn:E.
  - apply Qle_bool_iff in E. tauto.
  - split; [discriminate|]. intros H. apply Qle_bool_iff in H. congruence.
Qed.

Lemma real_any_digits nc v r delim : nc_admissible nc v r -> (0 < r)%Q ->
  exists t q, format_real nc v delim = t ++ [delim] /\ real_numeral t q /\ real_close r v q.
Proof.
  intros A Hr. destruct (format_real_accuracy nc v r delim A Hr) as (t & q & E & R & Z0 & ACC & REL & EXA & _).
  exists t, q. split; [exact E|]. split; [exact R|]. split; [exact Z0|].
  intros H. split; [destruct (ACC H) as [[_ X]|[_ X]]; auto|]. split; [exact (REL H)|exact (EXA H)].
Qed.

Lemma real_back v r pd rd delim pre post eor dflt : delims pd rd -> (delim = pd \/ delim = rd) -> (0 < r)%Q -> (Qabs v <= T 300)%Q ->
  exists t q, FormatPDREal v delim r = Some t /\ real_close r v q /\
    ParseReal (pre ++ t ++ post) (length pre) eor pd rd dflt = POk (q, (length pre + length t)%nat, if Ascii.eqb delim rd then true else eor).
Proof.
  intros D Hd Hr Hv. destruct (FormatPDREal_some v delim r Hr) as [t E].
  destruct (FormatPDREal_wrote _ _ _ _ E Hv) as (t0 & q & -> & R & [C IR] & _).
  destruct (ParseReal_item pre [] t0 q delim post eor pd rd dflt D ltac:(constructor) R IR Hd) as (q' & Q & P).
  exists (t0 ++ [delim]), q'. split; [exact E|]. split; [eapply close_wd; [symmetry; exact Q|exact C]|].
  rewrite <- app_assoc. cbn [app] in *. rewrite P. unfold eor_of. rewrite app_length. cbn [length].
  rewrite <- Nat.add_assoc. reflexivity.
Qed.

(** ** Records *)

Lemma read_record_iff s r f' : ReadIGESRecord (mkStream s false) = POk (r, f') <->
  exists line, record_line line (r_data r) (r_sec r) (r_idx r) /\ ~ In nl line /\
    ((s = line ++ nl :: s_rest f' /\ s_eof f' = false) \/ (s = line /\ f' = mkStream [] true)).
Proof.
  unfold ReadIGESRecord, getline. cbn [s_eof s_rest]. split.
  - destruct (split_line s) as [l o] eqn:E. pose proof (split_line_sound _ _ _ E) as [NN S].
    destruct o as [x|]; intros H; destruct (parse_record l) as [| |r0] eqn:P; cbn [pbind] in H; try discriminate;
      apply pok_inj, pair_inj in H; destruct H as [-> <-]; apply parse_record_iff in P; exists l; cbn; auto.
  - intros (line & R & NN & [[-> F]|[-> ->]]).
    + rewrite split_line_app by exact NN. apply parse_record_iff in R. rewrite R. cbn [pbind]. destruct f'. cbn in *. subst. reflexivity.
    + rewrite split_line_end by exact NN. apply parse_record_iff in R. rewrite R. reflexivity.
Qed.

(** ** One text, from any column *)

Lemma g_text_back s st pd rd delim st' : delims pd rd -> (delim = pd \/ delim = rd) ->
  1 <= l_idx st -> l_idx st' <= 10000000 -> (length (l_cur st) <= 72)%nat -> Z.of_nat (length s) <= int_max ->
  AddSecHStr s st pd rd delim = Ret true st' ->
  exists ds out x tl, numbered (sec_line "G") (l_idx st) ds out /\ l_out st' = l_out st ++ out /\
    l_idx st' = l_idx st + Z.of_nat (length ds) /\ concat ds ++ l_cur st' = l_cur st ++ x ++ tl /\ blanks tl /\
    (delim = pd -> tl = []) /\
    forall pre post eor, Z.of_nat (length (pre ++ x)) <= int_max ->
      ParseHString (pre ++ x ++ post) (length pre) eor pd rd =
        POk (s, (length pre + length x)%nat, if Ascii.eqb delim rd then true else eor).
Proof.
  intros D Hd Hi Hx Hc Hs H. pose proof (GetHConst_len s Hs) as LG.
  assert (LH : (length (GetHConst s) <= 72)%nat) by lia.
  destruct (AddSecHStr_ext _ _ _ _ _ _ Hi Hx Hc LH H) as (p & tl & (ds & out & N & O & I & C) & B & P & TB & C1 & C2 & C3 & _).
  destruct (hol_text_hollerith s delim) as (t & E & HT). rewrite E in C.
  exists ds, out, (p ++ t ++ [delim]), tl. repeat (split; [assumption|]).
  split; [rewrite C, <- !app_assoc; reflexivity|]. split; [exact TB|]. split; [intros ->; apply C2, D|].
  intros pre post eor HP. rewrite !app_length in HP. cbn [length] in HP. rewrite <- !app_assoc. cbn [app].
  rewrite ParseHString_hol with (s := s); auto; [|intros ->; apply P; destruct HT as [[-> _]|[_ (d & _ & X)]]; auto; destruct d; discriminate|lia].
  unfold eor_of. rewrite !app_length. cbn [length]. rewrite <- !Nat.add_assoc. reflexivity.
Qed.

Lemma pd_text_back s st de pd rd delim st' : 1 <= de <= 9999999 -> delims pd rd -> (delim = pd \/ delim = rd) ->
  1 <= l_idx st -> l_idx st' <= 10000000 -> (length (l_cur st) <= 64)%nat -> Z.of_nat (length s) <= int_max ->
  AddPDHStr s st de pd rd delim = Ret true st' ->
  exists ds out x tl, numbered (pd_line de) (l_idx st) ds out /\ l_out st' = l_out st ++ out /\
    l_idx st' = l_idx st + Z.of_nat (length ds) /\ concat ds ++ l_cur st' = l_cur st ++ x ++ tl /\ blanks tl /\
    (delim = pd -> tl = []) /\
    forall pre post eor, Z.of_nat (length (pre ++ x)) <= int_max ->
      ParseHString (pre ++ x ++ post) (length pre) eor pd rd =
        POk (s, (length pre + length x)%nat, if Ascii.eqb delim rd then true else eor).
Proof.
  intros Hde D Hd Hi Hx Hc Hs H. pose proof (GetHConst_len s Hs) as LG.
  assert (LH : (length (GetHConst s) <= 64)%nat) by lia.
  destruct (AddPDHStr_ext _ _ _ _ _ _ _ Hde Hi Hx Hc LH H) as (p & tl & (ds & out & N & O & I & C) & B & P & TB & C1 & C2 & C3 & _).
  destruct (hol_text_hollerith s delim) as (t & E & HT). rewrite E in C.
  exists ds, out, (p ++ t ++ [delim]), tl. repeat (split; [assumption|]).
  split; [rewrite C, <- !app_assoc; reflexivity|]. split; [exact TB|]. split; [intros ->; apply C2, D|].
  intros pre post eor HP. rewrite !app_length in HP. cbn [length] in HP. rewrite <- !app_assoc. cbn [app].
  rewrite ParseHString_hol with (s := s); auto; [|intros ->; apply P; destruct HT as [[-> _]|[_ (d & _ & X)]]; auto; destruct d; discriminate|lia].
  unfold eor_of. rewrite !app_length. cbn [length]. rewrite <- !Nat.add_assoc. reflexivity.
Qed.

(** ** Numbers beyond the last column *)

Lemma pd_number_overflow : exists s st st', 1 <= l_idx st <= 9999999 /\
  AddPDHStr s st 1 "," ";" ";" = Ret true st' /\ l_idx st' = 10000001 /\
  ~ exists ds, numbered (pd_line 1) (l_idx st) ds (l_out st').
Proof.
  exists (repeat "x"%char 70), (start 9999999). eexists. split; [cbn; lia|]. split; [vm_compute; reflexivity|].
  split; [vm_compute; reflexivity|]. intros [ds N]. cbn [start l_idx] in N.
  destruct (numbered_len_pd _ _ _ _ N) as [L _]. cbn [l_out] in L.
  inversion N as [|k d ds' l rest (L1 & c1 & c2 & E1 & P1 & P2) N1 E]; subst.
  inversion N1 as [|k d2 ds2 l2 rest2 (L2 & c3 & c4 & E2 & P3 & P4) N2 E']; subst.
  - rewrite app_nil_r in H. apply (f_equal (@length ascii)) in H.
    destruct P1 as [P1 _], P2 as [P2 _].
    repeat (rewrite ?app_length in H; cbn [length] in H). lia.
  - destruct P4 as [P4 (b & n & -> & B & S)].
    rewrite app_length in P4. assert (LN : (length n <= 7)%nat) by lia.
    pose proof (signed_bound_le n _ 7 S LN) as X. rewrite pow10_7 in X. lia.
Qed.
