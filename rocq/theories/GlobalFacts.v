(** Facts about the Global Section. *)

From Coq Require Import Lia ZifyBool ZifyNat ZifyN QArith Qabs.
From Verif Require Import Base Num Spec NumFacts IoModel FieldFacts LineFacts TokenFacts RealFacts RecordFacts
  ParamFacts PutModel BuildFacts StreamFacts PdModel PdFacts GlobalModel.
Open Scope Z_scope.

Ltac Zify.zify_post_hook ::= Z.div_mod_to_equations.

(** ** The builders succeed while sequence numbers last *)

Lemma AddSecItem_ok t d st pd rd : 1 <= l_idx st <= 9999998 -> (d = pd \/ d = rd) ->
  (length t <= 71)%nat -> (length (l_cur st) <= 72)%nat ->
  exists st', AddSecItem (t ++ [d]) st pd rd = Ret true st' /\ l_idx st <= l_idx st' <= l_idx st + 2.
Proof.
  intros Hi Hd Ht Hc. unfold AddSecItem. rewrite last_char_app.
  assert (DD : negb (Ascii.eqb d pd) && negb (Ascii.eqb d rd) = false).
  { destruct Hd as [-> | ->]; rewrite Ascii.eqb_refl; cbn; [reflexivity|apply andb_false_r]. }
  rewrite DD. assert (LT : (length (t ++ [d]) <= 72)%nat) by (rewrite app_length; cbn; lia).
  replace (72 <? length (t ++ [d]))%nat with false by (symmetry; apply Nat.ltb_ge; exact LT).
  replace (72 <? length (l_cur st))%nat with false by (symmetry; apply Nat.ltb_ge; exact Hc).
  set (X := if (72 <? _)%nat then _ else _).
  assert (P : exists st1, X = (true, st1) /\ 1 <= l_idx st1 <= 9999999 /\ l_idx st <= l_idx st1 <= l_idx st + 1 /\
     (length (l_cur st1) + length (t ++ [d]) <= 72)%nat).
  { unfold X. destruct (Nat.ltb_spec 72 (length (l_cur st) + length (t ++ [d]))).
    - destruct (g_flush_ok st Hc ltac:(lia)) as (line & F & _). rewrite F.
      eexists. split; [reflexivity|]. cbn [l_idx l_cur]. cbn [length]. lia.
    - exists st. split; [reflexivity|]. lia. }
  destruct P as (st1 & -> & B1 & B2 & L). cbn [negb].
  destruct (Ascii.eqb d rd).
  - destruct (g_flush_ok (mkLst (l_cur st1 ++ t ++ [d]) (l_out st1) (l_idx st1))) as (line & F & _).
    { cbn. rewrite app_length. exact L. } { cbn. lia. }
    rewrite F. eexists. split; [reflexivity|]. cbn. lia.
  - eexists. split; [reflexivity|]. cbn. lia.
Qed.

Lemma AddSecHStr_ok s st pd rd delim : 1 <= l_idx st ->
  l_idx st + str_cost s <= 9999999 -> Z.of_nat (length s) <= int_max -> (length (l_cur st) <= 72)%nat ->
  (delim = pd \/ delim = rd) ->
  exists st', AddSecHStr s st pd rd delim = Ret true st' /\ l_idx st' <= l_idx st + str_cost s.
Proof.
  intros Hi Hk Hs Hc Hd. unfold AddSecHStr. unfold str_cost in *. destruct s as [|c s].
  - change (Z.of_nat (length []) / 64) with 0 in *.
    destruct (AddSecItem_ok [] delim st pd rd ltac:(lia) Hd ltac:(cbn; lia) Hc) as (st' & E & B).
    exists st'. split; [exact E|]. lia.
  - remember (c :: s) as s0 eqn:Es. clear Es.
    assert (DD : negb (Ascii.eqb delim pd) && negb (Ascii.eqb delim rd) = false).
    { destruct Hd as [-> | ->]; rewrite Ascii.eqb_refl; cbn; [reflexivity|apply andb_false_r]. }
    rewrite DD. cbv zeta. replace (72 <? length (l_cur st))%nat with false by (symmetry; apply Nat.ltb_ge; exact Hc).
    rewrite andb_false_r.
    pose proof (GetHConst_len s0 Hs) as G1. pose proof (GetHConst_pos s0) as G2.
    set (X := if (72 <? _)%nat then _ else _).
    assert (P : exists st1, X = (true, st1) /\ 1 <= l_idx st1 /\ l_idx st1 <= l_idx st + 1 /\ (length (l_cur st1) < 72)%nat).
    { unfold X. destruct (Nat.ltb_spec 72 (length (l_cur st) + length (GetHConst s0))).
      - destruct (g_flush_ok st Hc ltac:(lia)) as (line & F & _). rewrite F.
        eexists. split; [reflexivity|]. cbn. lia.
      - exists st. split; [reflexivity|]. lia. }
    destruct P as (st1 & -> & B0 & B1 & L1). cbn [negb]. rewrite g_fill_gen.
    destruct (gen_fill_ok 72%nat g_flush ltac:(lia)
       ltac:(intros st0 A B; destruct (g_flush_ok st0 A B) as (line & F & _); eauto)
       (length (GetHConst s0 ++ s0 ++ [delim])) (GetHConst s0 ++ s0 ++ [delim]) st1
       (Z.to_nat (Z.of_nat (length s0) / 64 + 2)) L1 B0) as (st2 & F & B2).
    { rewrite !app_length. cbn [length]. lia. }
    { lia. }
    assert (L2 : l_idx st1 <= l_idx st2) by (apply (gen_fill_idx 72%nat g_flush g_flush_big _ _ _ _ F)).
    rewrite F. cbn [negb]. destruct (negb (length (l_cur st2) =? 0)%nat && Ascii.eqb delim rd).
    + assert (L3 : (length (l_cur st2) <= 72)%nat).
      { destruct (gen_fill_ext (sec_line "G") 72%nat g_flush ltac:(lia) ltac:(intros; apply g_flush_ok; auto)
                g_flush_big _ _ _ _ ltac:(reflexivity) L1 ltac:(lia) F ltac:(lia)) as [_ Q]. lia. }
      destruct (g_flush_ok st2 L3 ltac:(lia)) as (line & F3 & _). rewrite F3.
      eexists. split; [reflexivity|]. cbn. lia.
    + eexists. split; [reflexivity|]. lia.
Qed.

(** ** Steps of [writeGlobals] *)

Inductive grenders (uir : Q) (d : ascii) : gact -> param -> Prop :=
| gr_item : forall t p, param_text p t -> wrote uir p p -> cost p = 2 -> (length t <= 60)%nat ->
    grenders uir d (GItem (t ++ [d])) p
| gr_text : forall s, grenders uir d (GText s d) (PStr s)
| gr_real : forall q, grenders uir d (GReal q d) (PReal q).

Section EmitG.
Variables (uir : Q) (pd rd : ascii).
Hypothesis (Hu : (0 < uir)%Q) (D : delims pd rd).

(** One step. *)
Lemma emit_g_step a p d r st : grenders uir d a p -> param_ok p -> (d = pd \/ d = rd) ->
  1 <= l_idx st -> l_idx st + cost p <= 9999999 -> (length (l_cur st) <= 72)%nat ->
  exists st' p' b t tl, emit_g uir pd rd (a :: r) st = emit_g uir pd rd r st' /\
    ext (sec_line "G") st st' (b ++ t ++ d :: tl) /\ wrote uir p p' /\ param_text p' t /\ blanks b /\
    (t = [] -> b = []) /\ blanks tl /\ (d = rd -> l_cur st' = []) /\ (d <> rd -> tl = []) /\
    (length (l_cur st') <= 72)%nat /\ l_idx st <= l_idx st' <= l_idx st + cost p.
Proof using Hu.
  intros R OK Hd Hi Hk Hc. pose proof (cost_pos p) as CP. destruct R as [t p T W C2 L|s|q]; cbn [emit_g]; cbn [cost] in Hk, CP |- *.
  - destruct (AddSecItem_ok t d st pd rd ltac:(lia) Hd ltac:(lia) Hc) as (st' & E & B). rewrite E.
    assert (HX : l_idx st' <= 10000000) by lia.
    destruct (AddSecItem_ext _ _ _ _ _ Hi HX E) as (pp & t0 & c & tl & E1 & EX & BL & P & TB & C1 & C3 & C4 & _).
    apply app_inj_tail in E1. destruct E1 as [<- <-]. rewrite <- app_assoc in EX.
    exists st', p, pp, t, tl. repeat (split; [first [assumption|reflexivity]|]). lia.
  - destruct (AddSecHStr_ok s st pd rd d Hi Hk OK Hc Hd) as (st' & E & B). rewrite E.
    assert (HX : l_idx st' <= 10000000) by lia.
    assert (G : (length (GetHConst s) <= 72)%nat) by (pose proof (GetHConst_len s OK); lia).
    destruct (AddSecHStr_ext _ _ _ _ _ _ Hi HX Hc G E) as (pp & tl & EX & BL & P & TB & C1 & C3 & C4 & _).
    destruct (hol_text_hollerith s d) as (t & E1 & HT). rewrite E1, <- app_assoc in EX.
    pose proof (AddSecHStr_idx _ _ _ _ _ _ E).
    exists st', (PStr s), pp, t, tl. repeat (split; [first [assumption|reflexivity]|]). split.
    { intros ->. apply P. destruct HT as [[-> _]|[_ (dg & _ & X)]]; auto. destruct dg; discriminate. }
    repeat (split; [assumption|]). cbn [cost] in *. lia.
  - destruct (FormatPDREal_some q d uir Hu) as (t & F). rewrite F.
    destruct (FormatPDREal_wrote _ _ _ _ F OK) as (t0 & q' & E0 & RN & W & L). subst t.
    assert (LT : (length t0 <= 71)%nat) by (rewrite app_length in L; cbn in L; lia).
    destruct (AddSecItem_ok t0 d st pd rd ltac:(lia) Hd LT Hc) as (st' & E & B). rewrite E.
    assert (HX : l_idx st' <= 10000000) by lia.
    destruct (AddSecItem_ext _ _ _ _ _ Hi HX E) as (pp & t1 & c & tl & E1 & EX & BL & P & TB & C1 & C3 & C4 & _).
    apply app_inj_tail in E1. destruct E1 as [<- <-]. rewrite <- app_assoc in EX.
    exists st', (PReal q'), pp, t0, tl. repeat (split; [first [assumption|reflexivity]|]). cbn [cost] in *. lia.
Qed.

Lemma emit_g_open acts ps rest : Forall2 (grenders uir pd) acts ps -> Forall param_ok ps ->
  forall st, 1 <= l_idx st -> l_idx st + costs ps <= 9999999 -> (length (l_cur st) <= 72)%nat ->
  exists st' ps' body, emit_g uir pd rd (acts ++ rest) st = emit_g uir pd rd rest st' /\ Forall2 (wrote uir) ps ps' /\
    ext (sec_line "G") st st' body /\ spaced_open pd ps' body /\ (length (l_cur st') <= 72)%nat /\
    l_idx st <= l_idx st' <= l_idx st + costs ps.
Proof.
  induction 1 as [|a p acts ps R F IH]; intros OK st Hi Hk Hc.
  - exists st, [], []. cbn [app costs fold_right]. split; [reflexivity|]. split; [constructor|]. split; [apply ext_refl|].
    split; [constructor|]. lia.
  - inversion OK as [|? ? Op Ops]; subst. rewrite costs_cons in *. pose proof (costs_nonneg ps). pose proof (cost_pos p).
    destruct (emit_g_step a p pd (acts ++ rest) st R Op (or_introl eq_refl) Hi ltac:(lia) Hc)
      as (st1 & p' & b & t & tl & E & EX & W & T & BL & TE & _ & _ & C2 & C3 & B).
    assert (Npr : pd <> rd) by apply D. rewrite (C2 Npr) in EX.
    destruct (IH Ops st1 ltac:(lia) ltac:(lia) C3) as (st' & ps' & body & EM & W' & EX' & SP & C & B2).
    exists st', (p' :: ps'), (b ++ t ++ pd :: body). cbn [app]. rewrite E.
    split; [exact EM|]. split; [constructor; auto|]. split.
    { replace (b ++ t ++ pd :: body) with ((b ++ t ++ [pd]) ++ body) by (rewrite <- !app_assoc; reflexivity).
      eapply ext_trans; eassumption. }
    split; [constructor; auto|]. split; [exact C|]. lia.
Qed.

Lemma emit_g_close acts ps a p : Forall2 (grenders uir pd) acts ps -> grenders uir rd a p -> Forall param_ok (ps ++ [p]) ->
  forall st, 1 <= l_idx st -> l_idx st + costs (ps ++ [p]) <= 9999999 -> (length (l_cur st) <= 72)%nat ->
  exists st' ps' body tl, emit_g uir pd rd (acts ++ [a]) st = Ret true st' /\ Forall2 (wrote uir) (ps ++ [p]) ps' /\
    ext (sec_line "G") st st' (body ++ tl) /\ spaced pd rd ps' body /\ blanks tl /\
    l_cur st' = [] /\ l_idx st <= l_idx st' <= l_idx st + costs (ps ++ [p]).
Proof.
  intros F R OK st Hi Hk Hc. apply Forall_app in OK. destruct OK as [O1 O2]. inversion O2 as [|? ? Op _]; subst.
  rewrite costs_app, costs_cons in *. change (costs []) with 0 in *. rewrite Z.add_0_r in *.
  pose proof (cost_pos p).
  destruct (emit_g_open acts ps [a] F O1 st Hi ltac:(lia) Hc) as (st1 & ps1 & body & EM & W & EX & SP & C & B).
  destruct (emit_g_step a p rd [] st1 R Op (or_intror eq_refl) ltac:(lia) ltac:(lia) C)
    as (st2 & p' & b & t & tl & E & EX2 & W2 & T & BL & TE & TB & C1 & _ & _ & B2).
  exists st2, (ps1 ++ [p']), (body ++ b ++ t ++ [rd]), tl.
  split. { rewrite EM, E. reflexivity. }
  split. { apply Forall2_app; [exact W|constructor; [exact W2|constructor]]. }
  split. { replace ((body ++ b ++ t ++ [rd]) ++ tl) with (body ++ b ++ t ++ rd :: tl) by (rewrite <- !app_assoc; reflexivity).
    eapply ext_trans; eassumption. }
  split. { apply spaced_open_app; [exact SP|constructor; auto]. }
  split; [exact TB|]. split; [apply C1; reflexivity|lia].
Qed.
End EmitG.

(** ** Collecting the lines *)

Lemma numbered_len_g k ds out : numbered (sec_line "G") k ds out ->
  length out = (81 * length ds)%nat /\ length (concat ds) = (72 * length ds)%nat.
Proof.
  induction 1 as [|k d ds l rest (L & c & -> & [L1 _]) N [I1 I2]]; [split; reflexivity|].
  split.
  - repeat (rewrite !app_length; cbn [length]). lia.
  - cbn [concat]. rewrite app_length. cbn [length]. lia.
Qed.

Lemma glob_lines_read k ds out : numbered (sec_line "G") k ds out -> 1 <= k -> ~ In nl (concat ds) ->
  forall d rest nxt f fuel, r_sec nxt <> "G"%char -> length d = 72%nat ->
  ReadIGESRecord (mkStream rest false) = POk (nxt, f) -> (length ds < fuel)%nat ->
  glob_lines fuel (mkRec d "G" (k - 1)) (k - 2) (mkStream (out ++ rest) false) =
    POk (d ++ concat ds, k - 2 + 1 + Z.of_nat (length ds), nxt, f).
Proof.
  induction 1 as [k|k d ds l out P N IH]; intros K NN d0 rest nxt f fuel NG L0 RR FU.
  - destruct fuel as [|fuel]; [cbn in FU; lia|]. cbn [glob_lines app]. cbn [r_sec r_idx r_data].
    rewrite Ascii.eqb_refl. replace (negb (k - 1 =? k - 2 + 1)) with false by lia.
    rewrite RR. cbn [pbind]. destruct fuel; cbn [glob_lines]; destruct (Ascii.eqb_spec (r_sec nxt) "G"); try congruence;
      cbn [pbind concat length app]; do 4 f_equal; lia.
  - destruct fuel as [|fuel]; [cbn in FU; lia|]. cbn [length] in FU. cbn [concat] in NN.
    assert (N1 : ~ In nl d) by (intros I; apply NN, in_or_app; auto).
    assert (N2 : ~ In nl (concat ds)) by (intros I; apply NN, in_or_app; auto).
    cbn [glob_lines r_sec r_idx r_data]. rewrite Ascii.eqb_refl. replace (negb (k - 1 =? k - 2 + 1)) with false by lia.
    rewrite <- app_assoc. rewrite (sec_line_read "G" k d l (out ++ rest) P ltac:(unfold section_letter; tauto) K N1).
    cbn [pbind].
    assert (LD : length d = 72%nat) by apply P.
    specialize (IH ltac:(lia) N2 d rest nxt f fuel NG LD RR ltac:(lia)).
    replace (k + 1 - 1) with k in IH by lia. replace (k + 1 - 2) with (k - 2 + 1) in IH by lia.
    rewrite IH. cbn [pbind concat length]. do 4 f_equal. lia.
Qed.
