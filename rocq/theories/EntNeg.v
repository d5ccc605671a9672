(** Records which are written but cannot be read back. *)

From Coq Require Import Lia ZifyBool ZifyNat ZifyN QArith Qabs.
From Verif Require Import Base Num Spec NumFacts IoModel FieldFacts LineFacts TokenFacts RealFacts RecordFacts
  ParamFacts PutModel BuildFacts StreamFacts PdModel PdFacts GlobBack EntSpec EntModel EntModel2 EntModel3
  EntFacts EntProps EntProps2.
Open Scope Z_scope.

Ltac Zify.zify_post_hook ::= Z.div_mod_to_equations.

(** ** Counting delimiters *)

Section Count.
Variables (pd rd : ascii).
Hypothesis D : delims pd rd.

Definition isdel (c : ascii) : bool := Ascii.eqb c pd || Ascii.eqb c rd.
Definition nd (s : str) : nat := length (filter isdel s).

Lemma nd_app a b : nd (a ++ b) = (nd a + nd b)%nat.
Proof. unfold nd. rewrite filter_app, app_length. reflexivity. Qed.

Lemma nd_none s : ~ In pd s -> ~ In rd s -> nd s = O.
Proof.
  unfold nd. induction s as [|c s IH]; intros A B; [reflexivity|]. cbn [filter]. unfold isdel at 1.
  destruct (Ascii.eqb_spec c pd) as [->|]; [exfalso; apply A; left; auto|].
  destruct (Ascii.eqb_spec c rd) as [->|]; [exfalso; apply B; left; auto|]. cbn [orb].
  apply IH; intros I; [apply A|apply B]; right; exact I.
Qed.

Lemma nd_blanks b : blanks b -> nd b = O.
Proof.
  intros H. unfold blanks in H. rewrite Forall_forall in H. destruct D as (D1 & D2 & _).
  apply nd_none; intros I; apply H in I; [apply (delim_not_sp _ D1)|apply (delim_not_sp _ D2)]; auto.
Qed.

Lemma nd_del d : d = pd \/ d = rd -> nd [d] = 1%nat.
Proof. unfold nd, isdel. cbn [filter]. intros [->| ->]; rewrite Ascii.eqb_refl; rewrite ?orb_true_r; reflexivity. Qed.

Lemma nd_showZ n : nd (showZ n) = O.
Proof.
  destruct D as (D1 & D2 & _).
  apply nd_none; apply signed_no_delim with (n := n); auto; apply showZ_signed.
Qed.

Lemma skipn_le_app {A} (i j : nat) (s : list A) : (i <= j)%nat -> exists x, skipn i s = x ++ skipn j s.
Proof.
  intros H. exists (firstn (j - i) (skipn i s)). 
  assert (E : skipn j s = skipn (j - i) (skipn i s)) by (rewrite skipn_skipn; f_equal; lia).
  rewrite E, firstn_skipn. reflexivity.
Qed.

Lemma not_nul c : delim_char c -> c <> nul.
Proof. intros [H _] ->. change (code nul) with 0 in H. lia. Qed.

(** A delimiter at [j] is passed. *)
Lemma nd_pass data idx j : (idx <= j)%nat -> (at_ data j = pd \/ at_ data j = rd) ->
  (S (nd (skipn (S j) data)) <= nd (skipn idx data))%nat.
Proof.
  intros L A. destruct (skipn_le_app idx j data L) as (x & ->). rewrite nd_app.
  assert (LT : (j < length data)%nat).
  { destruct (Nat.lt_ge_cases j (length data)) as [|G]; [auto|]. exfalso. unfold at_ in A. rewrite nth_overflow in A by exact G.
    destruct D as (D1 & D2 & _). destruct A as [A|A]; symmetry in A; [apply (not_nul _ D1 A)|apply (not_nul _ D2 A)]. }
  assert (E : skipn j data = at_ data j :: skipn (S j) data).
  { clear -LT. revert data LT. induction j as [|j IH]; intros [|c data] LT; cbn in LT; try lia; [reflexivity|].
    cbn [skipn]. rewrite IH by lia. reflexivity. }
  rewrite E. change (at_ data j :: skipn (S j) data) with ([at_ data j] ++ skipn (S j) data).
  rewrite nd_app, (nd_del _ A). lia.
Qed.

Lemma ParseLString_nd data idx eor p i e : ParseLString data idx eor pd rd = POk (p, i, e) ->
  (S (nd (skipn i data)) <= nd (skipn idx data))%nat.
Proof.
  unfold ParseLString. destruct (_ <=? _)%nat; [discriminate|].
  destruct (Ascii.eqb (at_ data idx) pd || Ascii.eqb (at_ data idx) rd) eqn:E.
  - intros H. apply pok_inj in H. apply pair_inj in H. destruct H as [H _]. apply pair_inj in H. destruct H as [_ <-].
    apply nd_pass; [lia|]. apply orb_true_iff in E. destruct E as [E|E]; apply Ascii.eqb_eq in E; auto.
  - assert (F : forall n, (let param := substr data idx n in
       let idx1 := (idx + length param)%nat in
       let d0 := at_ data idx1 in
       if Ascii.eqb d0 rd then POk (param, S idx1, true)
       else if Ascii.eqb d0 pd then POk (param, S idx1, eor) else PFail) = POk (p, i, e) ->
       (S (nd (skipn i data)) <= nd (skipn idx data))%nat).
    { intros n. cbv zeta. set (j := (idx + length (substr data idx n))%nat).
      destruct (Ascii.eqb_spec (at_ data j) rd) as [A|_]; [|destruct (Ascii.eqb_spec (at_ data j) pd) as [A|_]; [|discriminate]];
      intros H; apply pok_inj in H; apply pair_inj in H; destruct H as [H _]; apply pair_inj in H; destruct H as [_ <-];
      apply nd_pass; auto; unfold j; lia. }
    cbv zeta in F |- *.
    destruct (find_char pd (skipn idx data)), (find_char rd (skipn idx data)); try (intros; discriminate); try apply F.
    destruct (_ <? _)%nat; apply F.
Qed.

Lemma ParseInt_nd data idx eor dflt v i e : ParseInt data idx eor pd rd dflt = POk (v, i, e) ->
  (S (nd (skipn i data)) <= nd (skipn idx data))%nat.
Proof.
  unfold ParseInt. destruct (ParseLString data idx eor pd rd) as [| |[[p j] e']] eqn:E; try discriminate.
  cbn [pbind]. apply ParseLString_nd in E. intros H.
  assert (i = j).
  { destruct p; [destruct dflt; [|discriminate]|destruct (strtol _) as [[? ?]|]; [|discriminate]];
    apply pok_inj in H; apply pair_inj in H; destruct H as [H _]; apply pair_inj in H; destruct H as [_ <-]; reflexivity. }
  subst j. exact E.
Qed.

Lemma ParseReal_nd data idx eor dflt v i e : ParseReal data idx eor pd rd dflt = POk (v, i, e) ->
  (S (nd (skipn i data)) <= nd (skipn idx data))%nat.
Proof.
  unfold ParseReal. destruct (ParseLString data idx eor pd rd) as [| |[[p j] e']] eqn:E; try discriminate.
  cbn [pbind]. apply ParseLString_nd in E. intros H.
  assert (i = j).
  { destruct p; [destruct dflt; [|discriminate]|destruct (strtod _) as [[? ?]|]; [|discriminate]];
    apply pok_inj in H; apply pair_inj in H; destruct H as [H _]; apply pair_inj in H; destruct H as [_ <-]; reflexivity. }
  subst j. exact E.
Qed.

Lemma parse_int_if_nd ok data idx eor v i e : parse_int_if ok data idx eor pd rd = POk (v, i, e) ->
  (S (nd (skipn i data)) <= nd (skipn idx data))%nat /\ ok v = true.
Proof.
  unfold parse_int_if. destruct (ParseInt data idx eor pd rd None) as [| |[[w j] e']] eqn:E; try discriminate.
  cbn [pbind]. unfold guard. destruct (ok w) eqn:O; [|discriminate].
  intros H. apply pok_inj in H. apply pair_inj in H. destruct H as [H _]. apply pair_inj in H. destruct H as [<- <-].
  split; [exact (ParseInt_nd _ _ _ _ _ _ _ E)|exact O].
Qed.

Lemma parse_reals_nd n : forall data idx eor l i e, parse_reals n data idx eor pd rd = POk (l, i, e) ->
  (n + nd (skipn i data) <= nd (skipn idx data))%nat.
Proof.
  induction n as [|n IH]; intros data idx eor l i e; cbn [parse_reals].
  - intros H. apply pok_inj in H. apply pair_inj in H. destruct H as [H _]. apply pair_inj in H. destruct H as [_ <-]. lia.
  - destruct (ParseReal data idx eor pd rd None) as [| |[[v j] e1]] eqn:E; try discriminate. cbn [pbind].
    destruct (parse_reals n data j e1 pd rd) as [| |[[l' j'] e2]] eqn:E2; try discriminate. cbn [pbind].
    intros H. apply pok_inj in H. apply pair_inj in H. destruct H as [H _]. apply pair_inj in H. destruct H as [_ <-].
    apply ParseReal_nd in E. apply IH in E2. lia.
Qed.

Lemma parse_ints_nd n ok : forall data idx eor l i e, parse_ints n ok data idx eor pd rd = POk (l, i, e) ->
  (n + nd (skipn i data) <= nd (skipn idx data))%nat.
Proof.
  induction n as [|n IH]; intros data idx eor l i e; cbn [parse_ints].
  - intros H. apply pok_inj in H. apply pair_inj in H. destruct H as [H _]. apply pair_inj in H. destruct H as [_ <-]. lia.
  - destruct (ParseInt data idx eor pd rd None) as [| |[[v j] e1]] eqn:E; try discriminate. cbn [pbind]. unfold guard.
    destruct (ok v); [|discriminate].
    destruct (parse_ints n ok data j e1 pd rd) as [| |[[l' j'] e2]] eqn:E2; try discriminate. cbn [pbind].
    intros H. apply pok_inj in H. apply pair_inj in H. destruct H as [H _]. apply pair_inj in H. destruct H as [_ <-].
    apply ParseInt_nd in E. apply IH in E2. lia.
Qed.

(** ** Counting what is written *)

Definition act_ok (a : act) (n : nat) : Prop :=
  match a with
  | WItem t => t <> [] /\ (length t <= 64)%nat /\ nd t = n /\ ~ In nl t
  | WReal q d u => (0 < u)%Q /\ real300 q /\ (d = pd \/ d = rd) /\ n = 1%nat
  | WText _ _ => False
  end.

Definition sum (l : list nat) : nat := fold_right Nat.add O l.

Lemma item_count t n de st : act_ok (WItem t) n -> 1 <= de <= 9999999 -> 1 <= l_idx st -> l_idx st + 2 <= 9999999 ->
  (length (l_cur st) <= 64)%nat ->
  exists st' body, AddPDItem t st de rd = Ret true st' /\ ext (pd_line de) st st' body /\ nd body = n /\
    ~ In nl body /\ (length (l_cur st') <= 64)%nat /\ l_idx st <= l_idx st' <= l_idx st + 2 /\
    (last_char t <> Some rd -> exists x, l_cur st' = x ++ t).
Proof.
  intros (NE & LE & N & NN) Hde Hi B Hc.
  destruct (AddPDItem_ok t st de rd Hde ltac:(lia) NE LE Hc) as (st' & A & I).
  pose proof (AddPDItem_idx _ _ _ _ _ A) as I2.
  assert (X : l_idx st' <= 10000000) by lia.
  destruct (AddPDItem_ext t st de rd st' Hde Hi X A) as (p & t0 & c & tl & ET & EX & BP & _ & BT & _ & _ & L1 & _).
  exists st', (p ++ t ++ tl). split; [exact A|]. split; [exact EX|].
  split. { rewrite !nd_app, N, (nd_blanks _ BP), (nd_blanks _ BT). lia. }
  split. { intros J. apply in_app_or in J. destruct J as [J|J]; [exact (blanks_no_nl _ BP J)|].
           apply in_app_or in J. destruct J as [J|J]; [exact (NN J)|exact (blanks_no_nl _ BT J)]. }
  split; [exact L1|]. split; [lia|].
  intros LC. clear - A LC. unfold AddPDItem in A. destruct (_ <? _)%nat; [discriminate|]. destruct (_ <? _)%nat; [discriminate|].
  destruct (if (64 <? _)%nat then _ else _) as [ok st1]. destruct ok; [|discriminate]. cbn [negb] in A.
  destruct (_ <? _); [discriminate|]. destruct (last_char t) as [c'|] eqn:EL; [|discriminate].
  destruct (Ascii.eqb_spec c' rd) as [E'|]; [exfalso; apply LC; congruence|]. apply ret_inj in A. destruct A as [_ <-]. exists (l_cur st1). reflexivity.
Qed.

Lemma real_item q d u t : FormatPDREal q d u = Some t -> real300 q -> d = pd \/ d = rd -> act_ok (WItem t) 1.
Proof.
  intros F R Hd. destruct (FormatPDREal_wrote _ _ _ _ F R) as (t0 & q' & -> & RN & _ & L).
  split; [destruct t0; discriminate|]. split; [lia|]. destruct D as (D1 & D2 & _). split.
  - rewrite nd_app, (nd_del _ Hd), nd_none; [reflexivity|eapply real_no_delim; eauto|eapply real_no_delim; eauto].
  - intros I. apply in_app_or in I. destruct I as [I|[I|[]]].
    + destruct (real_chars _ _ _ RN I) as [E|E]; [apply (isdig_not_nl _ E); reflexivity|].
      repeat (destruct E as [E|E]; [discriminate|]). discriminate.
    + destruct Hd as [->| ->]; [apply (delim_not_nl _ D1 I)|apply (delim_not_nl _ D2 I)].
Qed.

Lemma emit_count de acts : 1 <= de <= 9999999 -> forall ns st, Forall2 act_ok acts ns -> 1 <= l_idx st ->
  l_idx st + 2 * Z.of_nat (length acts) <= 9999999 -> (length (l_cur st) <= 64)%nat ->
  exists st' body, emit de pd rd acts st = Ret true st' /\ ext (pd_line de) st st' body /\ nd body = sum ns /\
    ~ In nl body /\ (length (l_cur st') <= 64)%nat /\ l_idx st <= l_idx st' <= l_idx st + 2 * Z.of_nat (length acts).
Proof.
  intros Hde. induction acts as [|a acts IH]; intros ns st F Hi B Hc; inversion F as [|? n ? ns' A F']; subst.
  - exists st, []. split; [reflexivity|]. split; [apply ext_refl|]. cbn. repeat split; auto; lia.
  - cbn [length] in B.
    assert (ST : exists st1 b1, (forall r, emit de pd rd (a :: r) st = emit de pd rd r st1) /\ ext (pd_line de) st st1 b1 /\
               nd b1 = n /\ ~ In nl b1 /\ (length (l_cur st1) <= 64)%nat /\ l_idx st <= l_idx st1 <= l_idx st + 2).
    { destruct a as [t|q d u|s d]; [| |destruct A].
      - destruct (item_count t n de st A Hde Hi ltac:(lia) Hc) as (st1 & b1 & E & X & N & NN & L & I & _).
        exists st1, b1. split; [|auto]. intros r. cbn [emit]. rewrite E. reflexivity.
      - destruct A as (U & R & Hd & ->). destruct (FormatPDREal_some q d u U) as (t & FT).
        destruct (item_count t 1 de st (real_item _ _ _ _ FT R Hd) Hde Hi ltac:(lia) Hc) as (st1 & b1 & E & X & N & NN & L & I & _).
        exists st1, b1. split; [|auto]. intros r. cbn [emit]. rewrite FT, E. reflexivity. }
    destruct ST as (st1 & b1 & E & X & N & NN & L & I).
    destruct (IH ns' st1 F' ltac:(lia) ltac:(lia) L) as (st' & body & E2 & X2 & N2 & NN2 & L2 & I2).
    exists st', (b1 ++ body). rewrite E. split; [exact E2|]. split; [eapply ext_trans; eauto|].
    split; [rewrite nd_app, N, N2; reflexivity|].
    split; [intros J; apply in_app_or in J; tauto|]. split; [exact L2|]. cbn [length]. lia.
Qed.

(** A record without optional pointers: what the parser sees of it. *)
Lemma frame_count {A} etype seq k x acts ns (parse : str -> nat -> pres (A * nat * bool)) :
  1 <= etype <= 9999999 -> 1 <= seq <= 9999999 -> 1 <= k -> (length (showZ etype ++ pd :: x) <= 64)%nat -> ~ In nl x ->
  Forall2 act_ok acts ns -> k + 2 * Z.of_nat (length acts) <= 9999999 ->
  exists r st, format_frame (showZ etype ++ pd :: x) acts [] [] k seq pd rd = POk r /\
    emit seq pd rd acts (mkLst (showZ etype ++ pd :: x) [] k) = Ret true st /\
    forall rest a ptrs cs f,
      readPD_frame parse etype seq k (p_count r) pd rd (mkStream (p_out r ++ rest) false) = POk (a, ptrs, cs, f) ->
      exists data idx i e, parse data idx = POk (a, i, e) /\ (nd (skipn idx data) + nd (l_cur st) <= nd x + sum ns)%nat.
Proof.
  intros He Hs Hk LI NX F B.
  destruct (emit_count seq acts Hs ns (mkLst (showZ etype ++ pd :: x) [] k) F Hk B LI)
    as (st & body & E & (ds & out & N & O & I & CC) & ND & NN & L & II).
  cbn [l_cur l_out l_idx app] in *. pose proof (numbered_len_pd _ _ _ _ N) as [LO LC].
  exists (mkPd (l_out st) (l_idx st) (l_idx st - k)), st.
  split.
  { unfold format_frame. replace ((k <? 1) || (9999999 <? k)) with false by lia. rewrite E.
    unfold formatComments. rewrite O, LO, mod81. reflexivity. }
  split; [exact E|].
  intros rest a ptrs cs f. cbn [p_count p_out]. rewrite O, I.
  replace (k + Z.of_nat (length ds) - k) with (Z.of_nat (length ds)) by lia.
  destruct ds as [|d0 ds0].
  { unfold readPD_frame, readPD_base. replace ((k =? 0) && (etype =? 0)) with false by lia.
    replace ((k <? 1) || (9999999 <? k)) with false by lia. cbn [length]. replace (Z.of_nat 0 <? 1) with true by reflexivity.
    cbn [orb pbind]. discriminate. }
  set (ds := d0 :: ds0) in *. assert (LD : (64 <= length (concat ds))%nat) by (rewrite LC; unfold ds; cbn [length]; lia).
  pose proof (showZ_type etype He) as LT.
  assert (SPL : exists body', concat ds = showZ etype ++ pd :: body' /\ body' ++ l_cur st = x ++ body).
  { rewrite <- app_assoc in CC. cbn [app] in CC. clear - CC LD LT.
    assert (P : firstn (S (length (showZ etype))) (concat ds ++ l_cur st) = showZ etype ++ [pd]).
    { rewrite CC. replace (S (length (showZ etype))) with (length (showZ etype ++ [pd])) by (rewrite app_length; cbn; lia).
      replace (showZ etype ++ pd :: x ++ body) with ((showZ etype ++ [pd]) ++ x ++ body) by (rewrite <- app_assoc; reflexivity).
      rewrite firstn_app, Nat.sub_diag, firstn_all. cbn [firstn]. rewrite app_nil_r. reflexivity. }
    rewrite firstn_app in P. replace (S (length (showZ etype)) - length (concat ds))%nat with O in P by lia.
    rewrite firstn_O, app_nil_r in P.
    exists (skipn (S (length (showZ etype))) (concat ds)).
    assert (Q : concat ds = showZ etype ++ pd :: skipn (S (length (showZ etype))) (concat ds)).
    { rewrite <- (firstn_skipn (S (length (showZ etype))) (concat ds)) at 1. rewrite P, <- app_assoc. reflexivity. }
    split; [exact Q|]. rewrite Q in CC. rewrite <- app_assoc in CC. apply app_inv_head in CC. cbn [app] in CC.
    inversion CC. reflexivity. }
  destruct SPL as (body' & CD & BB).
  assert (NB : ~ In nl body').
  { intros J. assert (In nl (body' ++ l_cur st)) by (apply in_or_app; auto). rewrite BB in H. apply in_app_or in H. tauto. }
  rewrite I in II.
  unfold readPD_frame. rewrite (read_lines etype seq k pd rd ds out body' He Hk D NB N CD ltac:(lia) rest). cbn [pbind].
  rewrite find_char_mid by (apply signed_no_delim with (n := etype); [apply D|apply showZ_signed]).
  replace ((length (showZ etype) <? 1)%nat || (8 <? length (showZ etype))%nat) with false by lia.
  destruct (parse (showZ etype ++ pd :: body') (S (length (showZ etype)))) as [| |[[a' i'] e']] eqn:P; try discriminate. cbn [pbind].
  intros H. exists (showZ etype ++ pd :: body'), (S (length (showZ etype))), i', e'.
  assert (a' = a).
  { destruct (if e' then _ else _) as [| |[ex ix]]; try discriminate. cbn [pbind] in H.
    apply pok_inj in H. apply pair_inj in H. destruct H as [H _]. apply pair_inj in H. destruct H as [H _].
    apply pair_inj in H. destruct H as [<- _]. reflexivity. }
  subst a'. split; [exact P|].
  replace (skipn (S (length (showZ etype))) (showZ etype ++ pd :: body')) with body'.
  2: { replace (showZ etype ++ pd :: body') with ((showZ etype ++ [pd]) ++ body') by (rewrite <- app_assoc; reflexivity).
       replace (S (length (showZ etype))) with (length (showZ etype ++ [pd])) by (rewrite app_length; cbn; lia).
       rewrite skipn_app, Nat.sub_diag, skipn_all. reflexivity. }
  rewrite <- ND, <- (nd_app x body), <- BB, nd_app. lia.
Qed.

Lemma WInt_ok n d : is_int32 n -> d = pd \/ d = rd -> act_ok (WInt n d) 1.
Proof.
  intros R Hd. split; [destruct (showZ n); discriminate|]. pose proof (showZ_len31 n) as L.
  split; [rewrite app_length; cbn [length]; unfold is_int32 in R; lia|].
  split; [rewrite nd_app, nd_showZ, (nd_del _ Hd); reflexivity|].
  intros I. apply in_app_or in I. destruct I as [I|[I|[]]].
  - destruct (signed_chars _ _ _ (showZ_signed n) I) as [E|[E|E]]; try discriminate. apply (isdig_not_nl _ E). reflexivity.
  - destruct D as (D1 & D2 & _). destruct Hd as [->| ->]; [apply (delim_not_nl _ D1 I)|apply (delim_not_nl _ D2 I)].
Qed.

(** Nothing is parsed behind the last parameter. *)
Lemma ParseLString_end data n idx eor : cursor pd rd data n idx eor [] -> blanks (skipn (length data - n) data) ->
  forall e, ParseLString data idx e pd rd = PFail.
Proof.
  intros C B e. destruct (cursor_end _ _ _ _ _ _ C) as [_ L].
  replace (length data - n)%nat with idx in B by lia. unfold ParseLString.
  destruct (Nat.leb_spec (length data) idx) as [|G]; [reflexivity|].
  unfold blanks in B. rewrite Forall_forall in B. destruct D as (D1 & D2 & _).
  assert (P : ~ In pd (skipn idx data)) by (intros I; apply B in I; apply (delim_not_sp _ D1 I)).
  assert (R : ~ In rd (skipn idx data)) by (intros I; apply B in I; apply (delim_not_sp _ D2 I)).
  assert (A : In (at_ data idx) (skipn idx data)).
  { unfold at_. clear -G. revert data G. induction idx as [|i IH]; intros [|c s] G; cbn in G; try lia; [left; reflexivity|].
    cbn [skipn nth]. apply IH. lia. }
  destruct (Ascii.eqb_spec (at_ data idx) pd) as [E|_]; [rewrite E in A; tauto|].
  destruct (Ascii.eqb_spec (at_ data idx) rd) as [E|_]; [rewrite E in A; tauto|].
  cbn [orb]. apply find_char_none in P. apply find_char_none in R. rewrite P, R. reflexivity.
Qed.

Lemma parse_int_end ok data n idx eor : cursor pd rd data n idx eor [] -> blanks (skipn (length data - n) data) ->
  forall e, parse_int_if ok data idx e pd rd = PFail.
Proof. intros C B e. unfold parse_int_if, ParseInt. rewrite (ParseLString_end _ _ _ _ C B). reflexivity. Qed.

End Count.
