(** Facts about Parameter Data lines, and about comments. *)

From Coq Require Import Lia ZifyBool ZifyNat ZifyN QArith Qabs.
From Verif Require Import Base Num Spec NumFacts IoModel FieldFacts LineFacts TokenFacts RealFacts RecordFacts
  ParamFacts PutModel BuildFacts StreamFacts PdModel PdFacts IoProps EntModel EntSpec EntProps PdSpec.
Open Scope Z_scope.

Ltac Zify.zify_post_hook ::= Z.div_mod_to_equations.

Lemma tagged_iff seq d : length d = 72%nat ->
  (tagged seq d <-> at_ d 64 = sp /\ DEItemToInt d 8 None = POk seq).
Proof.
  intros L.
  assert (S8 : length (skipn 64 d) = 8%nat) by (rewrite skipn_length, L; reflexivity).
  assert (L64 : length (firstn 64 d) = Z.to_nat (8 * 8)) by (rewrite firstn_length, L; reflexivity).
  pose proof (DEItemToInt_iff (firstn 64 d) (skipn 64 d) [] 8 None seq ltac:(lia) L64 S8) as I.
  rewrite app_nil_r, firstn_skipn in I.
  assert (A : at_ d 64 = nth 0 (skipn 64 d) nul).
  { unfold at_. rewrite <- (firstn_skipn 64 d) at 1. rewrite app_nth2 by (rewrite firstn_length, L; cbn; lia).
    rewrite firstn_length, L. reflexivity. }
  split.
  - intros (_ & pre & c & E & LP & w & t & r & EC & W & T & N).
    assert (SK : skipn 64 d = sp :: c).
    { rewrite E, skipn_app, LP, Nat.sub_diag, skipn_all2 by lia. reflexivity. }
    split; [rewrite A, SK; reflexivity|]. apply I. right.
    exists w, t, r. rewrite SK. auto.
  - intros [A1 H]. apply I in H. destruct H as [[_ H]|(w & t & r & E & W & T & N)]; [discriminate|].
    split; [exact L|]. rewrite A in A1. destruct (skipn 64 d) as [|c0 c] eqn:SK; [discriminate|]. cbn in A1. subst c0.
    exists (firstn 64 d), c. split; [rewrite <- SK, firstn_skipn; reflexivity|]. split; [exact L64|]. exists w, t, r. auto.
Qed.

Lemma record_data_len f r f' : ReadIGESRecord f = POk (r, f') -> length (r_data r) = 72%nat.
Proof.
  unfold ReadIGESRecord. destruct (s_eof f); [discriminate|]. destruct (getline f) as [l f1].
  destruct (parse_record l) as [| |r0] eqn:P; try discriminate. cbn [pbind]. intros H. apply pok_inj, pair_inj in H. destruct H as [<- _].
  unfold parse_record in P. destruct (Nat.eqb_spec (length (strip_eol l)) 80) as [E|]; [|discriminate]. cbn [negb] in P.
  destruct (is_section _); [|discriminate]. cbn [negb] in P. destruct (DEItemToInt _ _ _); try discriminate. cbn [pbind] in P.
  destruct (_ <=? _); [discriminate|]. apply pok_inj in P. subst r0. cbn [r_data]. unfold substr. cbn [skipn]. rewrite firstn_length, E. reflexivity.
Qed.

Lemma pd_lines_iff etype seq pd rd n : forall first k f data f',
  pd_lines n first etype seq k pd rd f = POk (data, f') <->
  exists ds, length ds = n /\ own_lines seq k ds f f' /\ data = concat (map (firstn 64) ds) /\
    (first = true -> ds = [] \/ exists d i, hd_error ds = Some d /\ ParseInt d 0 false pd rd None = POk (etype, i, false)).
Proof.
  induction n as [|n IH]; intros first k f data f'; cbn [pd_lines].
  - split.
    + intros H. apply pok_inj, pair_inj in H. destruct H as [<- <-]. exists []. split; [reflexivity|]. split; [constructor|]. auto.
    + intros (ds & L & O & -> & _). destruct ds; [|discriminate]. inversion O; subst. reflexivity.
  - split.
    + destruct (ReadIGESRecord f) as [| |[r f1]] eqn:R; try discriminate. cbn [pbind]. unfold guard.
      destruct (Ascii.eqb_spec (r_sec r) "P") as [ES|]; [|discriminate]. destruct (Z.eqb_spec (r_idx r) k) as [EK|]; [|discriminate].
      destruct (Ascii.eqb_spec (at_ (r_data r) 64) sp) as [E64|]; [|discriminate].
      destruct (DEItemToInt (r_data r) 8 None) as [| |de] eqn:DE; try discriminate. cbn [pbind].
      destruct (Z.eqb_spec de seq) as [->|]; [|discriminate].
      match goal with |- context [pbind ?x _] => destruct x as [| |u] eqn:P1 end; try discriminate. cbn [pbind].
      destruct (pd_lines n false etype seq (k + 1) pd rd f1) as [| |[s f2]] eqn:P2; try discriminate. cbn [pbind].
      intros H. apply pok_inj, pair_inj in H. destruct H as [<- <-]. apply IH in P2. destruct P2 as (ds & L & O & -> & _).
      pose proof (record_data_len _ _ _ R) as L72.
      exists (r_data r :: ds). split; [cbn; lia|]. split.
      { econstructor; [|apply tagged_iff; [exact L72|split; [exact E64|exact DE]]|exact O]. rewrite R. destruct r as [d s0 i0]. cbn in *. subst. reflexivity. }
      split; [reflexivity|]. intros ->. right. exists (r_data r).
      destruct (ParseInt (r_data r) 0 false pd rd None) as [| |[[t i] e]] eqn:PI; try discriminate. cbn [pbind] in P1. unfold guard in P1.
      destruct (Z.eqb_spec t etype) as [->|]; [|discriminate]. destruct e; [discriminate|]. exists i. auto.
    + intros (ds & L & O & -> & H). destruct ds as [|d ds]; [discriminate|]. inversion O as [|? ? ? ? f1 ? R T O']; subst.
      rewrite R. cbn [pbind r_sec r_idx r_data]. unfold guard. rewrite Ascii.eqb_refl, Z.eqb_refl.
      pose proof (record_data_len _ _ _ R) as L72. cbn [r_data] in L72.
      apply tagged_iff in T; [|exact L72]. destruct T as [-> ->]. rewrite Ascii.eqb_refl. cbn [pbind]. rewrite Z.eqb_refl.
      assert (P2 : pd_lines n false etype seq (k + 1) pd rd f1 = POk (concat (map (firstn 64) ds), f')).
      { apply IH. exists ds. split; [cbn in L; lia|]. split; [exact O'|]. split; [reflexivity|discriminate]. }
      destruct first.
      * destruct (H eq_refl) as [X|(d' & i & E & PI)]; [discriminate|]. cbn in E. injection E as <-. rewrite PI. cbn [pbind].
        rewrite Z.eqb_refl. cbn [negb pbind]. rewrite P2. reflexivity.
      * cbn [pbind]. rewrite P2. reflexivity.
Qed.

Lemma readPD_base_iff etype seq pdata count pd rd f data f' : etype <> 0 ->
  (readPD_base etype seq pdata count pd rd f = POk (data, f') <->
   1 <= pdata <= 9999999 /\ 1 <= count /\ pdata + count <= 10000000 /\
   exists d ds i, Z.of_nat (length (d :: ds)) = count /\ own_lines seq pdata (d :: ds) f f' /\
     data = concat (map (firstn 64) (d :: ds)) /\ ParseInt d 0 false pd rd None = POk (etype, i, false)).
Proof.
  intros NE. unfold readPD_base. replace ((pdata =? 0) && (etype =? 0)) with false by lia. split.
  - destruct ((pdata <? 1) || (9999999 <? pdata)) eqn:G1; [discriminate|].
    destruct ((count <? 1) || (10000000 <? pdata + count)) eqn:G2; [discriminate|]. intros H.
    apply pd_lines_iff in H. destruct H as (ds & L & O & E & X). split; [lia|]. split; [lia|]. split; [lia|].
    destruct (X eq_refl) as [->|(d & i & HD & PI)]; [cbn in L; lia|]. destruct ds as [|d' ds]; [discriminate|].
    cbn in HD. injection HD as ->. exists d, ds, i. split; [rewrite L; lia|]. auto.
  - intros (A & B & C & d & ds & i & L & O & E & PI). replace ((pdata <? 1) || (9999999 <? pdata)) with false by lia.
    replace ((count <? 1) || (10000000 <? pdata + count)) with false by lia.
    apply pd_lines_iff. exists (d :: ds). split; [lia|]. split; [exact O|]. split; [exact E|]. intros _. right. exists d, i. auto.
Qed.

(** ** Comments *)

Lemma pd_lines_app etype seq pd rd a : forall b first k f,
  pd_lines (a + b) first etype seq k pd rd f =
    do (s1, f1) <- pd_lines a first etype seq k pd rd f;
    do (s2, f2) <- pd_lines b (match a with O => first | _ => false end) etype seq (k + Z.of_nat a) pd rd f1;
    POk (s1 ++ s2, f2).
Proof.
  induction a as [|a IH]; intros b first k f.
  - cbn [pd_lines pbind Nat.add]. rewrite Z.add_0_r. destruct (pd_lines b first etype seq k pd rd f) as [| |[s f2]]; reflexivity.
  - cbn [Nat.add pd_lines]. destruct (ReadIGESRecord f) as [| |[r f1]]; try reflexivity. cbn [pbind]. unfold guard.
    destruct (Ascii.eqb _ _); [|reflexivity]. destruct (_ =? _); [|reflexivity]. destruct (Ascii.eqb _ _); [|reflexivity].
    destruct (DEItemToInt _ _ _) as [| |de]; try reflexivity. cbn [pbind]. destruct (_ =? _); [|reflexivity].
    match goal with |- context [pbind (if first then ?x else ?y) _] => destruct (if first then x else y) end; try reflexivity. cbn [pbind].
    rewrite IH. replace (k + Z.of_nat (S a)) with (k + 1 + Z.of_nat a) by lia.
    destruct (pd_lines a false etype seq (k + 1) pd rd f1) as [| |[s1 f3]]; try reflexivity. cbn [pbind].
    destruct a; destruct (pd_lines b false etype seq _ pd rd f3) as [| |[s2 f4]]; try reflexivity; cbn [pbind]; rewrite <- app_assoc; reflexivity.
Qed.

Lemma comments_lines_app fuel : forall c out k b o k', comment_lines fuel c out k = (b, o, k') -> exists x, o = out ++ x /\ k <= k'.
Proof.
  induction fuel as [|fuel IH]; intros c out k b o k'; cbn [comment_lines].
  - intros H. injection H as <- <- <-. exists []. rewrite app_nil_r. split; [reflexivity|lia].
  - destruct c as [|c0 c]; [intros H; injection H as <- <- <-; exists []; rewrite app_nil_r; split; [reflexivity|lia]|].
    destruct (FormatDEInt k) as [n|]; [|intros H; injection H as <- <- <-; exists []; rewrite app_nil_r; split; [reflexivity|lia]].
    intros H. apply IH in H. destruct H as (x & -> & L). eexists. rewrite <- !app_assoc. split; [reflexivity|lia].
Qed.

Lemma comments_app cs : forall out k b o k', comments_lines cs out k = (b, o, k') -> exists x, o = out ++ x /\ k <= k'.
Proof.
  induction cs as [|c cs IH]; intros out k b o k'; cbn [comments_lines].
  - intros H. injection H as <- <- <-. exists []. rewrite app_nil_r. split; [reflexivity|lia].
  - destruct (comment_lines (length c) c out k) as [[b1 o1] k1] eqn:E. destruct (comments_lines_app _ _ _ _ _ _ _ E) as (x & -> & L).
    destruct b1.
    + intros H. apply IH in H. destruct H as (y & -> & L2). exists (x ++ y). rewrite <- app_assoc. split; [reflexivity|lia].
    + intros H. injection H as <- <- <-. exists x. auto.
Qed.

(** The first line a list of comments adds. *)
Lemma comments_first cs : forall out k o k' c, first_comment cs = Some c -> comments_lines cs out k = (true, o, k') ->
  exists n x, FormatDEInt k = Some n /\ o = out ++ padr 72 (firstn 72 c) ++ set0 "P" n ++ nl :: x /\ k + 1 <= k'.
Proof.
  induction cs as [|c0 cs IH]; intros out k o k' c F H; [discriminate|]. cbn [comments_lines first_comment] in *.
  destruct c0 as [|a c0].
  - cbn [length comment_lines] in H. apply IH with (c := c) in H; auto.
  - injection F as <-. cbn [length comment_lines] in H. destruct (FormatDEInt k) as [n|]; [|discriminate].
    set (t := padr 72 (firstn 72 (a :: c0))) in *.
    destruct (comment_lines (length c0) (skipn 72 (a :: c0)) (out ++ t ++ set0 "P" n ++ [nl]) (k + 1)) as [[b1 o1] k1] eqn:E.
    destruct (comments_lines_app _ _ _ _ _ _ _ E) as (x & -> & L). destruct b1; [|discriminate].
    destruct (comments_app _ _ _ _ _ _ H) as (y & -> & L2). exists n, (x ++ y). split; [reflexivity|].
    split; [|lia]. rewrite <- !app_assoc. reflexivity.
Qed.

Lemma comment_line_read c k n rest : 1 <= k <= 9999999 -> FormatDEInt k = Some n -> ~ In nl (firstn 72 c) ->
  ReadIGESRecord (mkStream (padr 72 (firstn 72 c) ++ set0 "P" n ++ nl :: rest) false) =
    POk (mkRec (padr 72 (firstn 72 c)) "P" k, mkStream rest false).
Proof.
  intros Hk F NN. destruct (column8_split k n) as (c2 & -> & C2); [lia|exact F|]. cbn [set0].
  assert (L : length (padr 72 (firstn 72 c)) = 72%nat) by (apply padr_length; rewrite firstn_length; lia).
  replace (padr 72 (firstn 72 c) ++ ("P"%char :: c2) ++ nl :: rest) with
    ((padr 72 (firstn 72 c) ++ "P"%char :: c2 ++ [nl]) ++ rest)
    by (rewrite <- !app_assoc; cbn [app]; rewrite <- app_assoc; reflexivity).
  apply sec_line_read; [|unfold section_letter; tauto|lia|].
  - split; [exact L|]. exists c2. auto.
  - unfold padr. intros I. apply in_app_or in I. destruct I as [I|I]; [auto|]. apply repeat_spec in I. discriminate.
Qed.

(** Reading back a record written with comments, when the first comment line is
    not accepted as a line of this record. *)
Lemma comment_refused_gen A (parse : str -> nat -> pres (A * nat * bool)) etype init acts extras cs c k seq pd rd r0 ds :
  etype <> 0 -> 1 <= seq -> 1 <= k ->
  format_frame init acts extras [] k seq pd rd = POk r0 -> numbered (pd_line seq) k ds (p_out r0) -> ds <> [] ->
  p_count r0 = Z.of_nat (length ds) -> p_next r0 = k + p_count r0 ->
  (forall rest, exists a, readPD_frame parse etype seq k (p_count r0) pd rd (mkStream (p_out r0 ++ rest) false) = POk (a, mkStream rest false)) ->
  first_comment cs = Some c -> ~ In nl (firstn 72 c) -> ~ tagged seq (padr 72 (firstn 72 c)) ->
  forall r, format_frame init acts extras cs k seq pd rd = POk r ->
  forall rest, readPD_frame parse etype seq k (p_count r) pd rd (mkStream (p_out r ++ rest) false) = PFail.
Proof.
  intros NE S1 K1 F0 NB ND CT NX RD FC NN NT r F rest.
  unfold format_frame in *. destruct ((k <? 1) || (9999999 <? k)) eqn:G; [discriminate|].
  destruct (emit seq pd rd acts (mkLst init [] k)) as [|[] st]; try discriminate.
  destruct (match extras with [] => Ret true st | _ => formatExtraParams extras seq pd rd st end) as [|[] st1]; try discriminate.
  unfold formatComments in *. destruct (negb _); [discriminate|]. cbn [comments_lines] in F0. apply pok_inj in F0. subst r0.
  destruct (comments_lines cs (l_out st1) (l_idx st1)) as [[[] o] k'] eqn:CL; [|discriminate]. apply pok_inj in F. subst r.
  cbn [p_out p_count p_next] in *.
  destruct (comments_first cs _ _ _ _ _ FC CL) as (n & x & FD & -> & LE).
  unfold readPD_frame, readPD_base. replace ((k =? 0) && (etype =? 0)) with false by lia. rewrite G.
  destruct ((k' - k <? 1) || (10000000 <? k + (k' - k))) eqn:G2; [reflexivity|].
  assert (ND' : (1 <= length ds)%nat) by (destruct ds; [congruence|cbn; lia]).
  assert (EX : exists m, (Z.to_nat (k' - k) = length ds + S m)%nat).
  { exists (Z.to_nat (k' - k) - length ds - 1)%nat. lia. }
  destruct EX as [m ->]. rewrite pd_lines_app.
  destruct (RD (padr 72 (firstn 72 c) ++ set0 "P" n ++ nl :: x ++ rest)) as (a & RA). clear RD. rename RA into RD.
  unfold readPD_frame, readPD_base in RD. replace ((k =? 0) && (etype =? 0)) with false in RD by lia. rewrite G in RD.
  replace ((l_idx st1 - k <? 1) || (10000000 <? k + (l_idx st1 - k))) with false in RD by lia.
  replace (Z.to_nat (l_idx st1 - k)) with (length ds) in RD by lia.
  replace ((l_out st1 ++ padr 72 (firstn 72 c) ++ set0 "P" n ++ nl :: x) ++ rest) with
    (l_out st1 ++ padr 72 (firstn 72 c) ++ set0 "P" n ++ nl :: x ++ rest)
    by (rewrite <- !app_assoc; reflexivity).
  destruct (pd_lines (length ds) true etype seq k pd rd _) as [| |[s1 f1]]; try discriminate. cbn [pbind] in *.
  assert (F1 : f1 = mkStream (padr 72 (firstn 72 c) ++ set0 "P" n ++ nl :: x ++ rest) false).
  { destruct (find_char pd s1) as [i|]; [|discriminate]. destruct ((i <? 1)%nat || (8 <? i)%nat); [discriminate|].
    destruct (parse s1 (S i)) as [| |[[a1 idx] eor]]; try discriminate. cbn [pbind] in RD.
    destruct (if eor then POk ([], idx) else readExtraParams s1 idx pd rd) as [| |[ex idx']]; try discriminate. cbn [pbind] in RD.
    apply pok_inj, pair_inj in RD. apply RD. }
  subst f1. cbn [pd_lines]. rewrite (comment_line_read c (l_idx st1) n (x ++ rest) ltac:(lia) FD NN). cbn [pbind r_sec r_idx r_data].
  rewrite Ascii.eqb_refl. unfold guard. destruct (_ =? _); [|reflexivity].
  destruct (Ascii.eqb_spec (at_ (padr 72 (firstn 72 c)) 64) sp) as [E64|]; [|reflexivity].
  destruct (DEItemToInt (padr 72 (firstn 72 c)) 8 None) as [| |de] eqn:DE; [|reflexivity|].
  - exfalso. revert DE. apply DEItemToInt_nocrash.
  - cbn [pbind]. destruct (Z.eqb_spec de seq) as [->|]; [|reflexivity]. exfalso. apply NT. apply tagged_iff; [|auto].
    apply padr_length. rewrite firstn_length. lia.
Qed.

Lemma comment_refused A (parse : str -> nat -> pres (A * nat * bool)) etype init acts extras cs c k seq pd rd ptrs good :
  etype <> 0 -> 1 <= seq -> 1 <= k ->
  round_trip (format_frame init acts extras [] k seq pd rd)
    (fun n f => readPD_frame parse etype seq k n pd rd f) seq k ptrs good ->
  first_comment cs = Some c -> ~ In nl (firstn 72 c) -> ~ tagged seq (padr 72 (firstn 72 c)) ->
  forall r, format_frame init acts extras cs k seq pd rd = POk r ->
  forall rest, readPD_frame parse etype seq k (p_count r) pd rd (mkStream (p_out r ++ rest) false) = PFail.
Proof.
  intros NE S1 K1 (r0 & ds & F0 & NB & ND & CT & NX & a & GA & RD). eapply comment_refused_gen; eauto.
Qed.

(** Every reader goes through the lines of the record. *)
Lemma frame_own A (parse : str -> nat -> pres (A * nat * bool)) etype seq pdata count pd rd f a ptrs cs f' : etype <> 0 ->
  readPD_frame parse etype seq pdata count pd rd f = POk (a, ptrs, cs, f') ->
  exists d ds i, Z.of_nat (length (d :: ds)) = count /\ own_lines seq pdata (d :: ds) f f' /\
    ParseInt d 0 false pd rd None = POk (etype, i, false).
Proof.
  intros NE. unfold readPD_frame. destruct (readPD_base etype seq pdata count pd rd f) as [| |[s1 f1]] eqn:B; try discriminate. cbn [pbind].
  destruct (find_char pd s1) as [i|]; [|discriminate]. destruct ((i <? 1)%nat || (8 <? i)%nat); [discriminate|].
  destruct (parse s1 (S i)) as [| |[[a1 idx] eor]]; try discriminate. cbn [pbind].
  destruct (if eor then POk ([], idx) else readExtraParams s1 idx pd rd) as [| |[ex idx']]; try discriminate. cbn [pbind].
  intros H. apply pok_inj, pair_inj in H. destruct H as [_ <-]. apply readPD_base_iff in B; [|exact NE].
  destruct B as (_ & _ & _ & d & ds & j & L & O & _ & P). exists d, ds, j. auto.
Qed.

Lemma line_comments_refused l extras cs c k seq pd rd u : settings_ok pd rd seq k extras -> (0 < u)%Q ->
  Forall real300 (line_reals l) -> room k 6 0 extras ->
  first_comment cs = Some c -> ~ In nl (firstn 72 c) -> ~ tagged seq (padr 72 (firstn 72 c)) ->
  forall r, format110 l extras cs k seq pd rd u = POk r ->
  forall rest, readPD110 seq k (p_count r) pd rd (mkStream (p_out r ++ rest) false) = PFail.
Proof.
  intros S U F RM. pose proof S as (_ & Hs & Hk & _). unfold format110, readPD110.
  intros FC NN NT r FM rest. eapply comment_refused; [lia|lia|lia| |exact FC|exact NN|exact NT|exact FM].
  apply (round110 l extras k seq pd rd u S U F RM).
Qed.
