(** Reading of Global Sections of any origin. *)

From Coq Require Import QArith Qabs Lia ZifyBool ZifyNat.
From Verif Require Import Base Num Spec IoModel NumFacts FieldFacts LineFacts TokenFacts RealFacts RecordFacts ParamFacts
  PutModel BuildFacts StreamFacts PdModel PdFacts GlobalModel DateFacts GlobalFacts GlobSpec GlobBack.
Open Scope Z_scope.

Lemma double_ok_range q : double_ok q -> in_double_range q = true.
Proof.
  intros [H|[H1 H2]].
  - unfold in_double_range. apply Qeq_bool_iff in H. rewrite H. reflexivity.
  - apply in_double_range_ok; assumption.
Qed.

Lemma read_delims_items pd rd h rest : delims pd rd -> delim_items pd rd h ->
  read_delims (h ++ rest) "," ";" = POk (pd, rd, length h).
Proof.
  intros (D1 & D2 & NE) H. unfold read_delims. destruct H as [|pd H|pd rd H].
  - reflexivity.
  - assert (E3 : Ascii.eqb "1" pd = false).
    { apply Ascii.eqb_neq. intros <-. destruct D1 as (_ & ND & _). apply ND. unfold isdig. cbn. lia. }
    assert (E0 : Ascii.eqb "1" "," = false) by reflexivity.
    assert (G := good_delim _ D1 H).
    cbn -[bad_delim Ascii.eqb];
      repeat (first [rewrite E0|rewrite G|rewrite E3|rewrite Ascii.eqb_refl]; cbn -[bad_delim Ascii.eqb]); reflexivity.
  - assert (E3 : Ascii.eqb "1" pd = false).
    { apply Ascii.eqb_neq. intros <-. destruct D1 as (_ & ND & _). apply ND. unfold isdig. cbn. lia. }
    assert (E0 : Ascii.eqb "1" "," = false) by reflexivity.
    assert (G := good_delim _ D1 H).
    cbn -[bad_delim Ascii.eqb];
      repeat (first [rewrite E0|rewrite G|rewrite E3|rewrite Ascii.eqb_refl]; cbn -[bad_delim Ascii.eqb]); reflexivity.
Qed.

Section Steps.
Variables (pd rd : ascii) (data : str) (n : nat).
Hypothesis D : delims pd rd.
Notation cur := (cursor pd rd data n).

Lemma gen_a idx ss fn ns pv ib fe fs de ds rs ps :
  cur idx false (PStr ss :: PStr fn :: PStr ns :: PStr pv :: PInt ib :: PInt fe :: PInt fs :: PInt de :: PInt ds :: PStr rs :: ps) ->
  ss <> [] -> fn <> [] -> ns <> [] -> 8 <= ib <= 32 -> 4 <= fe <= 308 -> 3 <= fs <= 16 -> 4 <= de <= 308 -> 3 <= ds <= 16 ->
  exists i e, read_a data idx pd rd = POk (mkA ss fn ns pv ib fe fs de ds rs, i, e) /\ cur i e ps.
Proof using D.
  intros C N1 N2 N3 R1 R2 R3 R4 R5. unfold read_a.
  destruct (s_text pd rd _ _ D _ _ _ _ C N1) as (i1 & e1 & P & C1). rewrite P. cbn [pbind]. clear P C.
  destruct (s_text pd rd _ _ D _ _ _ _ C1 N2) as (i2 & e2 & P & C2). rewrite P. cbn [pbind]. clear P C1.
  destruct (s_text pd rd _ _ D _ _ _ _ C2 N3) as (i3 & e3 & P & C3). rewrite P. cbn [pbind]. clear P C2.
  destruct (step_str pd rd D _ _ _ _ _ _ C3) as (i4 & e4 & P & C4). rewrite P. cbn [pbind]. clear P C3.
  destruct (s_int_in pd rd _ _ D 8 32 _ _ _ _ C4 ltac:(unfold is_int; lia) R1) as (i5 & e5 & P & C5). rewrite P. cbn [pbind]. clear P C4.
  destruct (s_int_in pd rd _ _ D 4 308 _ _ _ _ C5 ltac:(unfold is_int; lia) R2) as (i6 & e6 & P & C6). rewrite P. cbn [pbind]. clear P C5.
  destruct (s_int_in pd rd _ _ D 3 16 _ _ _ _ C6 ltac:(unfold is_int; lia) R3) as (i7 & e7 & P & C7). rewrite P. cbn [pbind]. clear P C6.
  destruct (s_int_in pd rd _ _ D 4 308 _ _ _ _ C7 ltac:(unfold is_int; lia) R4) as (i8 & e8 & P & C8). rewrite P. cbn [pbind]. clear P C7.
  destruct (s_int_in pd rd _ _ D 3 16 _ _ _ _ C8 ltac:(unfold is_int; lia) R5) as (i9 & e9 & P & C9). rewrite P. cbn [pbind]. clear P C8.
  destruct (step_str pd rd D _ _ _ _ _ _ C9) as (i10 & e10 & P & C10). rewrite P. cbn [pbind]. clear P C9.
  eauto.
Qed.

Lemma gen_b idx eor ms uf un lg lw cd mr ps :
  cur idx eor (PReal ms :: PInt uf :: PStr un :: PInt lg :: PReal lw :: PStr cd :: PReal mr :: ps) ->
  in_double_range ms = true -> 1 <= uf <= 11 -> (uf = 3 -> un <> []) -> 1 <= lg <= 2147483647 ->
  in_double_range lw = true -> (0 <= lw)%Q -> accepted_date cd -> in_double_range mr = true -> (0 < mr)%Q ->
  exists b i e, read_b data idx eor pd rd = POk (b, i, e) /\ cur i e ps /\
    (b_ms b == ms)%Q /\ b_uf b = uf /\
    b_un b = match un with [] => [] | n => if uf =? 3 then n else S2 (unit_abbrev uf) end /\
    b_lg b = lg /\ (b_lw b == lw)%Q /\ b_cd b = cd /\ (b_mr b == mr)%Q.
Proof using D.
  intros C R1 U EU L R3 W A R4 M. unfold read_b.
  destruct (step_real pd rd D _ _ _ _ _ _ (Some (1 # 1)%Q) C R1) as (ms' & i1 & e1 & Q1 & P & C1). rewrite P. cbn [pbind]. clear P C.
  destruct (step_int pd rd D _ _ _ _ _ _ (Some 1) C1 ltac:(lia)) as (i2 & e2 & P & C2). rewrite P. cbn [pbind]. clear P C1.
  replace ((1 <=? uf) && (uf <=? 11)) with true by lia. cbn [guard].
  destruct (step_str pd rd D _ _ _ _ _ _ C2) as (i3 & e3 & P & C3). rewrite P. cbn [pbind]. clear P C2.
  assert (RU : read_unit_name uf un = POk match un with [] => [] | n => if uf =? 3 then n else S2 (unit_abbrev uf) end).
  { unfold read_unit_name. rewrite (unit_name_abbrev _ U). destruct un; destruct (Z.eqb_spec uf 3) as [E|E]; auto.
    exfalso. apply EU; auto. }
  rewrite RU. cbn [pbind].
  destruct (step_int pd rd D _ _ _ _ _ _ (Some 1) C3 ltac:(lia)) as (i4 & e4 & P & C4). rewrite P. cbn [pbind]. clear P C3.
  replace (1 <=? lg) with true by lia. cbn [guard].
  destruct (step_real pd rd D _ _ _ _ _ _ None C4 R3) as (lw' & i5 & e5 & Q5 & P & C5). rewrite P. cbn [pbind]. clear P C4.
  replace (Qle_bool 0 lw') with true by (symmetry; apply Qle_bool_iff; rewrite Q5; exact W). cbn [guard].
  assert (NC : cd <> []).
  { intros ->. destruct A as (y & m & dd & h & mi & s & vy & vm & vd & vh & vi & vs & E & _).
    apply (f_equal (@length ascii)) in E. rewrite !app_length in E. cbn in E. lia. }
  destruct (s_text pd rd _ _ D _ _ _ _ C5 NC) as (i6 & e6 & P & C6). rewrite P. cbn [pbind]. clear P C5.
  unfold date_ok. rewrite (proj2 (checkDate_iff cd) A). cbn [pbind].
  destruct (step_real pd rd D _ _ _ _ _ _ None C6 R4) as (mr' & i7 & e7 & Q7 & P & C7). rewrite P. cbn [pbind]. clear P C6.
  assert (QM : Qle_bool mr' 0 = false).
  { destruct (Qle_bool mr' 0) eqn:E; [|reflexivity]. apply Qle_bool_iff in E. rewrite Q7 in E. exfalso. apply (Qlt_not_le _ _ M E). }
  rewrite QM. cbn [negb guard].
  eexists. exists i7, e7. split; [reflexivity|]. cbn [b_ms b_uf b_un b_lg b_lw b_cd b_mr]. auto 10.
Qed.

Ltac done_at C := destruct (cursor_end _ _ _ _ _ _ C) as [-> _]; cbn [unless_eor pbind]; eexists; split; [reflexivity|]; cbn; auto 10.

(** Items 20 to 26, of which only the first [k] are there. *)
Lemma gen_c k idx eor mc au og iv dr md an :
  cur idx eor (firstn k [PReal mc; PStr au; PStr og; PInt iv; PInt dr; PStr md; PStr an]) -> (k <= 7)%nat ->
  in_double_range mc = true -> (0 <= mc)%Q -> is_int iv -> is_int dr -> accepted_date md ->
  exists c, read_c data idx eor pd rd = POk c /\
    (c_mc c == present k 0 mc (0 # 1))%Q /\ c_au c = present k 1 au [] /\ c_og c = present k 2 og [] /\
    c_iv c = present k 3 (Z.max 3 (Z.min 11 iv)) 3 /\ c_dr c = present k 4 dr 0 /\ c_md c = present k 5 md [] /\
    c_an c = present k 6 an [] /\ c_full c = (k =? 7)%nat.
Proof using D.
  intros C K R1 M RV RD A. unfold read_c.
  destruct k as [|k]; cbn [firstn] in C.
  { done_at C. split; [reflexivity|auto 10]. }
  pose proof (cursor_open _ _ _ _ _ _ _ _ C) as ->. cbn [unless_eor]. unfold real_nonneg.
  destruct (step_real pd rd D _ _ _ _ _ _ (Some (0 # 1)%Q) C R1) as (mc' & i1 & e1 & Q1 & P & C1). rewrite P. cbn [pbind]. clear P C.
  replace (Qle_bool 0 mc') with true by (symmetry; apply Qle_bool_iff; rewrite Q1; exact M). cbn [guard pbind].
  destruct k as [|k]; cbn [firstn] in C1. { done_at C1. }
  pose proof (cursor_open _ _ _ _ _ _ _ _ C1) as ->. cbn [unless_eor].
  destruct (step_str pd rd D _ _ _ _ _ _ C1) as (i2 & e2 & P & C2). rewrite P. cbn [pbind]. clear P C1.
  destruct k as [|k]; cbn [firstn] in C2. { done_at C2. }
  pose proof (cursor_open _ _ _ _ _ _ _ _ C2) as ->. cbn [unless_eor].
  destruct (step_str pd rd D _ _ _ _ _ _ C2) as (i3 & e3 & P & C3). rewrite P. cbn [pbind]. clear P C2.
  destruct k as [|k]; cbn [firstn] in C3. { done_at C3. }
  pose proof (cursor_open _ _ _ _ _ _ _ _ C3) as ->. cbn [unless_eor]. unfold version.
  destruct (step_int pd rd D _ _ _ _ _ _ (Some 11) C3 RV) as (i4 & e4 & P & C4). rewrite P. cbn [pbind]. clear P C3.
  assert (EV : (if iv <? 3 then 3 else if 11 <? iv then 11 else iv) = Z.max 3 (Z.min 11 iv)).
  { destruct (iv <? 3) eqn:E1; [lia|]. destruct (11 <? iv) eqn:E2; lia. }
  rewrite EV. generalize dependent (Z.max 3 (Z.min 11 iv)). intros iv' EV.
  destruct k as [|k]; cbn [firstn] in C4. { done_at C4. }
  pose proof (cursor_open _ _ _ _ _ _ _ _ C4) as ->. cbn [unless_eor].
  destruct (step_int pd rd D _ _ _ _ _ _ (Some 0) C4 RD) as (i5 & e5 & P & C5). rewrite P. cbn [pbind]. clear P C4.
  destruct k as [|k]; cbn [firstn] in C5. { done_at C5. }
  pose proof (cursor_open _ _ _ _ _ _ _ _ C5) as ->. cbn [unless_eor]. unfold date_req.
  destruct (step_str pd rd D _ _ _ _ _ _ C5) as (i6 & e6 & P & C6). rewrite P. cbn [pbind]. clear P C5.
  unfold date_ok. rewrite (proj2 (checkDate_iff md) A). cbn [pbind].
  destruct k as [|k]; cbn [firstn] in C6. { done_at C6. }
  destruct k as [|k]; [|lia]. cbn [firstn] in C6.
  pose proof (cursor_open _ _ _ _ _ _ _ _ C6) as ->.
  destruct (step_str pd rd D _ _ _ _ _ _ C6) as (i7 & e7 & P & C7). rewrite P. cbn [pbind]. clear P C6.
  destruct (cursor_end _ _ _ _ _ _ C7) as [-> _]. cbn [guard]. eexists. split; [reflexivity|]. cbn. auto 10.
Qed.
End Steps.

Lemma present_shift {A} k n (v d : A) : (17 <= k)%nat -> present (k - 17) n v d = present k (17 + n) v d.
Proof.
  intros H. unfold present. destruct (Nat.ltb_spec n (k - 17)), (Nat.ltb_spec (17 + n) k); auto; lia.
Qed.

Theorem section_read k pd rd h x ds out body tl rest nxt f2 :
  delims pd rd -> delim_items pd rd h -> acceptable x -> (17 <= k <= 24)%nat ->
  numbered (sec_line "G") 1 ds out -> concat ds = h ++ body ++ tl -> ~ In nl (concat ds) ->
  Z.of_nat (length (concat ds)) <= int_max -> spaced pd rd (firstn k (item_params x)) body ->
  ReadIGESRecord (mkStream rest false) = POk (nxt, f2) -> r_sec nxt <> "G"%char ->
  exists g', read_section (mkStream (out ++ rest) false) = POk (g', Z.of_nat (length ds), nxt, f2) /\ found k pd rd x g'.
Proof.
  intros D DI A K N CD NN LM SP RR NG.
  destruct A as (A1 & A2 & A3 & A4 & A5 & A6 & A7 & A8 & A9 & A10 & A11 & A12 & A13 & A14 & A15 & A16 & A17 & A18 & A19).
  assert (DR : Forall (fun q => in_double_range q = true) [modelScale x; maxLinewidth x; minResolution x; maxCoordinateValue x])
    by (eapply Forall_impl; [exact double_ok_range|exact A19]).
  inversion DR as [|? ? DR1 DR']; subst. inversion DR' as [|? ? DR2 DR'']; subst. inversion DR'' as [|? ? DR3 DR3']; subst.
  inversion DR3' as [|? ? DR4 _]; subst. clear DR DR' DR'' DR3' A19.
  assert (ND : ds <> []).
  { intros ->. cbn [concat] in CD. destruct DI; discriminate. }
  destruct (section_lines ds out rest nxt f2 N ND NN RR NG) as (rec & f1 & R1 & _ & GL).
  unfold read_section. rewrite R1. cbn [pbind]. unfold readGlobals. rewrite GL. cbn [pbind].
  change (pdelim init_globals) with ","%char. change (rdelim init_globals) with ";"%char.
  rewrite CD in LM |- *. rewrite (read_delims_items _ _ _ _ D DI). cbn [pbind].
  pose proof (cursor_start pd rd _ _ tl _ SP LM) as C.
  assert (EF : firstn k (item_params x) =
    [PStr (productIDSS x); PStr (fileName x); PStr (nativeSystemID x); PStr (preprocessorVersion x);
     PInt (nIntegerBits x); PInt (floatMaxExp x); PInt (floatMaxSig x); PInt (doubleMaxExp x); PInt (doubleMaxSig x);
     PStr (productIDRS x); PReal (modelScale x); PInt (unitsFlag x); PStr (unitsName x); PInt (maxLinewidthGrad x);
     PReal (maxLinewidth x); PStr (creationDate x); PReal (minResolution x)] ++
    firstn (k - 17) [PReal (maxCoordinateValue x); PStr (author x); PStr (organization x); PInt (igesVersion x);
      PInt (draftStandard x); PStr (modificationDate x); PStr (applicationNote x)]).
  { replace k with (17 + (k - 17))%nat at 1 by lia. reflexivity. }
  rewrite EF in C. cbn [app] in C. clear EF.
  destruct (gen_a pd rd _ _ D _ _ _ _ _ _ _ _ _ _ _ _ C A1 A2 A3 A4 A5 A6 A7 A8) as (i1 & e1 & PA & CA).
  destruct (gen_b pd rd _ _ D _ _ _ _ _ _ _ _ _ _ CA DR1 A9 A10 A11 DR2 A12 A13 DR3 A14)
    as (b & i2 & e2 & PB & CB & B1 & B2 & B3 & B4 & B5 & B6 & B7).
  destruct (gen_c pd rd _ _ D _ _ _ _ _ _ _ _ _ _ CB ltac:(lia) DR4 A15 A16 A17 A18) as (c & PC & C1 & C2 & C3 & C4 & C5 & C6 & C7 & C8).
  unfold read_items. rewrite PA. cbn [pbind]. rewrite PB. cbn [pbind]. rewrite PC. cbn [pbind].
  rewrite !present_shift in * by lia. cbn [Nat.add] in *.
  cbn [a_ss a_fn a_ns a_pv a_ib a_fe a_fs a_de a_ds a_rs].
  set (g1 := mkG _ _ _ _ _ _ _ _ _ _ _ _ _ _ _ _ _ _ _ _ _ _ _ _ _ _ _ _).
  assert (FD : forall g2, same_texts g2 g1 -> (if (k =? 24)%nat then normalised (modelScale x) (unitsFlag x) (minResolution x) g2
        else not_normalised (modelScale x) (unitsFlag x) (minResolution x) g2) -> found k pd rd x g2).
  { intros g2 (T1 & T2 & T3 & T4 & T5 & T6 & T7 & T8 & T9 & T10 & T11 & T12 & T13 & T14 & T15 & T16 & T17 & T18 & T19 & T20 & T21 & T22 & T23) HN.
    unfold found. rewrite T1, T2, T3, T4, T5, T6, T7, T8, T9, T10, T11, T12, T13, T14, T16, T18, T19, T20, T21, T22, T23.
    rewrite T15, T17. unfold g1. cbn [pdelim rdelim productIDSS fileName nativeSystemID preprocessorVersion nIntegerBits floatMaxExp floatMaxSig
      doubleMaxExp doubleMaxSig productIDRS unitsName maxLinewidthGrad creationDate author organization igesVersion draftStandard
      modificationDate applicationNote maxLinewidth maxCoordinateValue].
    repeat (split; [first [reflexivity|assumption|rewrite B3; destruct (unitsName x); reflexivity]|]). exact HN. }
  rewrite C8. destruct (Nat.eqb_spec (k - 17) 7) as [K7|K7].
  - replace (k =? 24)%nat with true in FD by (symmetry; apply Nat.eqb_eq; lia).
    destruct (normalise_ok g1) as (g2 & NO & NS & ST).
    { unfold g1. cbn. lia. } { reflexivity. } { reflexivity. }
    exists g2. rewrite NO. cbn [pbind]. split; [reflexivity|]. apply FD; [exact ST|].
    revert NS. unfold normalised, g1. cbn [modelScale unitsFlag minResolution]. rewrite B2.
    rewrite (unit_scale_wd _ _ B1), B1, B7. tauto.
  - replace (k =? 24)%nat with false in FD by (symmetry; apply Nat.eqb_neq; lia).
    exists g1. split; [reflexivity|]. apply FD; [repeat split|]. unfold not_normalised, g1. cbn. auto.
Qed.

(** ** The claims *)

Lemma globals_written_back g ver now rest nxt f2 : settings_ok g ver now -> delims_readable g ->
  ((minResolution g < 1 # 1000000000000)%Q \/ (1 # 100000000 <= minResolution g)%Q) ->
  ReadIGESRecord (mkStream rest false) = POk (nxt, f2) -> r_sec nxt <> "G"%char ->
  exists out n g', writeGlobals g ver now = POk (out, n) /\
    read_section (mkStream (out ++ rest) false) = POk (g', n, nxt, f2) /\ reads_back g ver now g'.
Proof.
  intros OK DR HR RR NG. destruct (globals_back g ver now rest nxt f2 OK RR NG) as (out & n & W & P & _).
  destruct (P DR HR) as (g' & R & RB). eauto 10.
Qed.

Lemma globals_delim_refused g ver now rest nxt f2 : settings_ok g ver now ->
  (pdelim g = ","%char /\ rdelim g <> ";"%char \/ pdelim g = ";"%char) ->
  ReadIGESRecord (mkStream rest false) = POk (nxt, f2) -> r_sec nxt <> "G"%char ->
  exists out n, writeGlobals g ver now = POk (out, n) /\ read_section (mkStream (out ++ rest) false) = PFail.
Proof.
  intros OK DR RR NG. destruct (globals_back g ver now rest nxt f2 OK RR NG) as (out & n & W & _ & P).
  exists out, n. split; [exact W|]. apply P. left. unfold delims_readable.
  destruct DR as [[-> H]|E]; [intros [[_ X]|[X _]]; congruence|]. intros [[X _]|[_ X]]; congruence.
Qed.

Lemma globals_fine_refused g ver now rest nxt f2 : settings_ok g ver now ->
  (1 # 1000000000000 <= minResolution g)%Q -> (minResolution g < 1 # 100000000)%Q ->
  ReadIGESRecord (mkStream rest false) = POk (nxt, f2) -> r_sec nxt <> "G"%char ->
  exists out n, writeGlobals g ver now = POk (out, n) /\ read_section (mkStream (out ++ rest) false) = PFail.
Proof.
  intros OK H1 H2 RR NG. destruct (globals_back g ver now rest nxt f2 OK RR NG) as (out & n & W & _ & P).
  exists out, n. split; [exact W|]. apply P. auto.
Qed.

Lemma linewidth_not_written g ver now w :
  ((maxLinewidth g < 1 # 1000000)%Q <-> (w < 1 # 1000000)%Q) ->
  writeGlobals (with_linewidth g w) ver now = writeGlobals g ver now.
Proof.
  intros H. assert (E : Qltb w (1 # 1000000) = Qltb (maxLinewidth g) (1 # 1000000)).
  { apply eq_true_iff_eq. rewrite !Qltb_iff. symmetry. exact H. }
  unfold writeGlobals, glob_acts, grad17. cbn [with_linewidth pdelim rdelim productIDSS fileName nativeSystemID preprocessorVersion
    productIDRS modelScale unitsFlag unitsName maxLinewidthGrad maxLinewidth creationDate minResolution
    maxCoordinateValue author organization igesVersion draftStandard modificationDate applicationNote].
  rewrite E. reflexivity.
Qed.

Lemma linewidth_back g ver now g' : reads_back g ver now g' -> (1 # 1000000 <= maxLinewidth g)%Q -> Z.abs (maxLinewidthGrad g) < 1000000 ->
  (maxLinewidth g' == inject_Z (Z.max 1 (maxLinewidthGrad g)))%Q.
Proof.
  intros RB H L. unfold reads_back in RB. repeat match type of RB with _ /\ _ => destruct RB as [? RB] end. destruct RB as (r & s & w & m & _ & _ & _ & _ & X & E & _).
  rewrite E. destruct (X H) as [_ Y]. destruct Y as (_ & _ & Z1).
  - rewrite Qabs_pos; unfold Qle, inject_Z; cbn; lia.
  - apply (Z1 (Z.max 1 (maxLinewidthGrad g)) 0); [cbn; ring|lia].
Qed.

Lemma date_accepted d : checkDate d = Some true <-> accepted_date d.
Proof. apply checkDate_iff. Qed.
