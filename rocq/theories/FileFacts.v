(** The layout of the files which [Write] produces. *)

From Coq Require Import Lia ZifyBool ZifyNat ZifyN QArith Qabs.
From Verif Require Import Base Num Spec NumFacts IoModel FieldFacts LineFacts TokenFacts RealFacts ParamFacts BuildFacts StreamFacts
  PdModel PdFacts EntModel EntModel2 EntModel3 DeModel DeFacts HeaderModel HeaderFacts GlobalModel PayloadModel FileModel LayoutFacts FileSpec.
Open Scope Z_scope.

Lemma FormatDEInt_len n s : FormatDEInt n = Some s -> length s = 8%nat.
Proof. intros H. apply FormatDEInt_some in H. apply H. Qed.
Lemma set0_len c s : s <> [] -> length (set0 c s) = length s.
Proof. destruct s; [congruence|reflexivity]. Qed.
Lemma tail_len c n s : FormatDEInt n = Some s -> length (set0 c s ++ [nl]) = 9%nat.
Proof.
  intros H. apply FormatDEInt_len in H. rewrite app_length, set0_len by (intros ->; discriminate). rewrite H. reflexivity.
Qed.

(** *** Global Section *)

Definition gtidy (st : lst) : Prop :=
  clean (l_cur st) /\ 1 <= l_idx st /\ Z.of_nat (length (l_out st)) = 81 * (l_idx st - 1) /\ (l_cur st = [] -> 1 < l_idx st) /\
  (l_idx st <= 10000000 -> exists ds, numbered (sec_line "G") 1 ds (l_out st) /\ l_idx st = 1 + Z.of_nat (length ds) /\ Forall clean ds).

Lemma gtidy_add st t : gtidy st -> clean t -> gtidy (mkLst (l_cur st ++ t) (l_out st) (l_idx st)).
Proof.
  intros (C & L & E & N & D) T. split; [apply clean_app; assumption|]. cbn [l_idx l_out l_cur].
  repeat split; auto. intros H. apply app_eq_nil in H. tauto.
Qed.

Lemma gtidy_flush st st' : gtidy st -> (length (l_cur st) <= 72)%nat -> g_flush st = (true, st') -> gtidy st' /\ l_cur st' = [].
Proof.
  intros (C & L & O & N & D) W. unfold g_flush. destruct (FormatDEInt (l_idx st)) as [s|] eqn:E; [|discriminate].
  intros H. apply pair_inj in H. destruct H as [_ <-]. split; [|reflexivity]. split; [apply clean_nil|]. cbn [l_idx l_out l_cur].
  split; [lia|]. split; [|split; [lia|]].
  - rewrite !app_length, padr_length by exact W. pose proof (tail_len "G" _ _ E) as T. rewrite app_length in T. lia.
  - intros B. destruct D as (ds & NN & I & F); [lia|]. exists (ds ++ [padr 72 (l_cur st)]). split; [|split].
    + apply numbered_app; [exact NN|]. rewrite <- I. rewrite <- (app_nil_r (_ ++ _ ++ _)). constructor; [|constructor].
      destruct (column8_split (l_idx st) s ltac:(lia) E) as (c & -> & Cc). split; [apply padr_length; exact W|]. exists c. auto.
    + rewrite app_length. cbn [length]. lia.
    + apply Forall_app. split; [exact F|]. constructor; [apply clean_padr; exact C|constructor].
Qed.

Lemma gtidy_item t st pd rd st' : gtidy st -> clean t -> AddSecItem t st pd rd = Ret true st' ->
  gtidy st' /\ (last_char t = Some rd -> l_cur st' = []).
Proof.
  intros T C. unfold AddSecItem. destruct (last_char t) as [tc|]; [|discriminate].
  destruct (negb _ && negb _); [discriminate|]. destruct (72 <? length t)%nat eqn:E1; [discriminate|].
  destruct (72 <? length (l_cur st))%nat eqn:E2; [discriminate|].
  destruct (if (72 <? length (l_cur st) + length t)%nat then g_flush st else (true, st)) as [ok1 st1] eqn:F.
  destruct ok1; [|discriminate]. cbn [negb].
  assert (T1 : gtidy st1 /\ (length (l_cur st1) + length t <= 72)%nat).
  { destruct (72 <? length (l_cur st) + length t)%nat eqn:E3.
    - destruct (gtidy_flush _ _ T ltac:(lia) F) as [A B]. split; [exact A|]. rewrite B. cbn [length]. lia.
    - apply pair_inj in F. destruct F as [_ <-]. split; [exact T|]. lia. }
  destruct T1 as [T1 W1]. cbv zeta. set (st2 := mkLst (l_cur st1 ++ t) (l_out st1) (l_idx st1)).
  assert (T2 : gtidy st2) by (apply gtidy_add; assumption).
  destruct (Ascii.eqb_spec tc rd) as [->|NE].
  - destruct (g_flush st2) as [ok3 st3] eqn:F3. intros H. apply ret_inj in H. destruct H as [-> <-].
    destruct (gtidy_flush _ _ T2 ltac:(unfold st2; cbn [l_cur]; rewrite app_length; lia) F3). auto.
  - intros H. apply ret_inj in H. destruct H as [_ <-]. split; [exact T2|]. intros X. congruence.
Qed.

Lemma gtidy_fill fuel : forall txt st st', gtidy st -> (length (l_cur st) <= 72)%nat -> clean txt ->
  g_fill fuel txt st = (true, st') -> gtidy st' /\ (length (l_cur st') <= 72)%nat.
Proof.
  induction fuel as [|fuel IH]; intros txt st st' T W C H; cbn [g_fill] in H.
  - apply pair_inj in H. destruct H as [_ <-]. auto.
  - destruct txt as [|c txt]; [apply pair_inj in H; destruct H as [_ <-]; auto|].
    set (s := c :: txt) in *. set (n := (72 - length (l_cur st))%nat) in *.
    cbv zeta in H. set (st1 := mkLst (l_cur st ++ firstn n s) (l_out st) (l_idx st)) in *.
    assert (T1 : gtidy st1) by (apply gtidy_add; [exact T|apply clean_firstn; exact C]).
    assert (W1 : (length (l_cur st1) <= 72)%nat).
    { unfold st1. cbn [l_cur]. rewrite app_length, firstn_length. unfold n. lia. }
    destruct (if (length (l_cur st1) =? 72)%nat then g_flush st1 else (true, st1)) as [ok2 st2] eqn:F.
    destruct ok2; [|discriminate].
    assert (T2 : gtidy st2 /\ (length (l_cur st2) <= 72)%nat).
    { destruct (length (l_cur st1) =? 72)%nat.
      - destruct (gtidy_flush _ _ T1 W1 F) as [A B]. split; [exact A|]. rewrite B. cbn. lia.
      - apply pair_inj in F. destruct F as [_ <-]. auto. }
    destruct T2 as [T2 W2]. eapply IH; [exact T2|auto|apply clean_skipn; exact C|exact H].
Qed.

Lemma gtidy_text s st pd rd d st' : gtidy st -> clean s -> d <> nl -> AddSecHStr s st pd rd d = Ret true st' ->
  gtidy st' /\ (d = rd -> l_cur st' = []).
Proof.
  intros T C D. unfold AddSecHStr. destruct s as [|c s].
  { intros H. destruct (gtidy_item _ _ _ _ _ T (clean_cons _ _ D clean_nil) H) as [A B]. split; [exact A|]. intros ->. apply B. reflexivity. }
  set (t := c :: s) in *. destruct (negb _ && negb _); [discriminate|].
  destruct ((72 <? length (l_cur st) + length (GetHConst t))%nat && (72 <? length (l_cur st))%nat) eqn:E; [discriminate|].
  destruct (if (72 <? length (l_cur st) + length (GetHConst t))%nat then g_flush st else (true, st)) as [ok1 st1] eqn:F.
  destruct ok1; [|discriminate]. cbn [negb].
  assert (T1 : gtidy st1 /\ (length (l_cur st1) <= 72)%nat).
  { destruct (72 <? length (l_cur st) + length (GetHConst t))%nat eqn:E3.
    - destruct (gtidy_flush _ _ T ltac:(lia) F) as [A B]. split; [exact A|]. rewrite B. cbn [length]. lia.
    - apply pair_inj in F. destruct F as [_ <-]. split; [exact T|]. lia. }
  destruct T1 as [T1 W1].
  cbv zeta. set (txt := GetHConst t ++ t ++ [d]).
  assert (CT : clean txt).
  { unfold txt, GetHConst. repeat apply clean_app; auto.
    - pose proof (showN_digits (Z.of_nat (length t)) ltac:(lia)) as A. intros I.
      rewrite Forall_forall in A. apply (isdig_not_nl _ (A _ I)). reflexivity.
    - apply clean_cons; [discriminate|apply clean_nil].
    - apply clean_cons; [exact D|apply clean_nil]. }
  destruct (g_fill (length txt) txt st1) as [ok2 st2] eqn:F2.
  destruct ok2; [|discriminate]. cbn [negb].
  destruct (gtidy_fill _ _ _ _ T1 W1 CT F2) as [T2 W2].
  destruct (negb (length (l_cur st2) =? 0)%nat && Ascii.eqb d rd) eqn:E5.
  - destruct (g_flush st2) as [ok3 st3] eqn:F3. intros H. apply ret_inj in H. destruct H as [-> <-].
    destruct (gtidy_flush _ _ T2 W2 F3). auto.
  - intros H. apply ret_inj in H. destruct H as [_ <-]. split; [exact T2|]. intros ->. rewrite Ascii.eqb_refl in E5.
    destruct (l_cur st2); [reflexivity|discriminate].
Qed.

Definition gact_clean (a : gact) : Prop :=
  match a with GItem t => clean t | GReal _ d => d <> nl | GText s d => clean s /\ d <> nl end.

Lemma gtidy_emit u pd rd acts : forall st st', gtidy st -> Forall gact_clean acts -> emit_g u pd rd acts st = Ret true st' ->
  gtidy st' /\ (forall l s, acts = l ++ [GText s rd] -> l_cur st' = []).
Proof.
  induction acts as [|a acts IH]; intros st st' T F H; cbn [emit_g] in H.
  - apply ret_inj in H. destruct H as [_ <-]. split; [exact T|]. intros [|x l] s; discriminate.
  - inversion F as [|? ? A F']. subst.
    assert (X : exists st1, gtidy st1 /\ emit_g u pd rd acts st1 = Ret true st' /\ (forall s, a = GText s rd -> l_cur st1 = [])).
    { destruct a as [t|q d|s d]; cbn [gact_clean] in A.
      - destruct (AddSecItem t st pd rd) as [|[|] st1] eqn:E; try discriminate.
        exists st1. destruct (gtidy_item _ _ _ _ _ T A E). split; [assumption|]; split; [exact H|discriminate].
      - destruct (FormatPDREal q d u) as [t|] eqn:E1; [|discriminate].
        destruct (AddSecItem t st pd rd) as [|[|] st1] eqn:E; try discriminate.
        exists st1. destruct (gtidy_item _ _ _ _ _ T (real_clean _ _ _ _ E1 A) E). split; [assumption|]; split; [exact H|discriminate].
      - destruct (AddSecHStr s st pd rd d) as [|[|] st1] eqn:E; try discriminate.
        exists st1. destruct (gtidy_text _ _ _ _ _ _ T (proj1 A) (proj2 A) E) as [B1 B2].
        split; [exact B1|]. split; [exact H|]. intros s' X. injection X as _ ->. auto. }
    destruct X as (st1 & T1 & E1 & L1). destruct (IH _ _ T1 F' E1) as [T2 L2]. split; [exact T2|].
    intros [|x l] s Eq; cbn [app] in Eq; injection Eq as -> ->.
    + cbn [emit_g] in E1. apply ret_inj in E1. destruct E1 as [_ <-]. eauto.
    + eauto.
Qed.

Definition glob_clean (g : globals) (ver now : str) : Prop :=
  Forall clean [productIDSS g; fileName g; nativeSystemID g; ver; productIDRS g; creationDate g; author g; organization g; now; applicationNote g] /\
  pdelim g <> nl /\ rdelim g <> nl.

Lemma unit_name_clean f s : unit_name f = Some s -> clean s.
Proof.
  unfold unit_name. intros H. apply nth_error_In in H. cbn [map In] in H.
  repeat destruct H as [<-|H]; try (intros X; cbn in X; repeat destruct X as [X|X]; try discriminate; exact X). destruct H.
Qed.

Lemma glob_layout g ver now out n : glob_clean g ver now -> writeGlobals g ver now = POk (out, n) ->
  Z.of_nat (length out) = 81 * n /\
  (n <= 9999999 -> exists gs, numbered (sec_line "G") 1 gs out /\ n = Z.of_nat (length gs) /\ gs <> [] /\ Forall clean gs).
Proof.
  intros (C & P & R). unfold writeGlobals. destruct (fileName g) as [|a b] eqn:E0; [discriminate|]. rewrite <- E0 in *. clear a b E0.
  destruct (unit_name (unitsFlag g)) as [uname|] eqn:E1; [|discriminate].
  destruct (checkDate (creationDate g)) as [ok|]; [|discriminate]. cbv zeta.
  set (date := if ok then creationDate g else now).
  destruct (emit_g _ _ _ _ _) as [|[|] st] eqn:E; try discriminate. intros H. apply pok_inj in H. apply pair_inj in H. destruct H as [<- <-].
  apply unit_name_clean in E1.
  inversion C as [|? ? C1 Ca]; subst. inversion Ca as [|? ? C2 Cb]; subst. inversion Cb as [|? ? C3 Cc]; subst.
  inversion Cc as [|? ? C4 Cd]; subst. inversion Cd as [|? ? C5 Ce]; subst. inversion Ce as [|? ? C6 Cf]; subst.
  inversion Cf as [|? ? C7 Cg]; subst. inversion Cg as [|? ? C8 Ch]; subst. inversion Ch as [|? ? C9 Ci]; subst.
  inversion Ci as [|? ? C10 _]; subst.
  assert (CD : clean date) by (unfold date; destruct ok; assumption).
  assert (ON : forall s, clean s -> clean (or_none s)).
  { intros [|x s] X; [|exact X]. intros Y. cbn in Y. repeat destruct Y as [Y|Y]; try discriminate. exact Y. }
  assert (T0 : gtidy (mkLst (glob_head (pdelim g) (rdelim g)) [] 1)).
  { split; [|cbn [l_idx l_out l_cur]; split; [lia|]; split; [reflexivity|]; split].
    - unfold glob_head. cbn [l_cur]. apply clean_app.
      + destruct (Ascii.eqb _ _); cbn; repeat (apply clean_cons; [discriminate||assumption|]); apply clean_nil.
      + destruct (Ascii.eqb _ _); cbn; repeat (apply clean_cons; [discriminate||assumption|]); apply clean_nil.
    - unfold glob_head. destruct (Ascii.eqb _ ","); discriminate.
    - intros _. exists []. repeat split; [constructor|constructor]. }
  assert (GI : forall n d, d <> nl -> gact_clean (GInt n d)).
  { intros n d X. apply clean_app; [apply clean_showZ|]. apply clean_cons; [exact X|apply clean_nil]. }
  assert (CA : Forall gact_clean (glob_acts g uname ver date now)).
  { unfold glob_acts. cbv zeta. apply Forall_app. split.
    - repeat (apply Forall_cons; [first [solve [auto]|split; auto|cbn; repeat (apply clean_cons; [discriminate||assumption|]); apply clean_nil]|]). constructor.
    - destruct (applicationNote g) as [|x y].
      + apply Forall_cons; [split; assumption|]. destruct (Ascii.eqb _ _); [|constructor]. constructor; [split; [apply clean_nil|assumption]|constructor].
      + repeat constructor; assumption. }
  destruct (gtidy_emit _ _ _ _ _ _ T0 CA E) as [(K1 & K2 & K3 & K4 & K5) LC].
  assert (CN : l_cur st = []).
  { unfold glob_acts in LC. cbv zeta in LC. destruct (applicationNote g) as [|x y].
    - destruct (Ascii.eqb _ _).
      + eapply (LC (_ ++ [GText now (rdelim g)]) []). rewrite <- app_assoc. reflexivity.
      + eapply LC. reflexivity.
    - eapply (LC (_ ++ [GText now (pdelim g)]) (x :: y)). rewrite <- app_assoc. reflexivity. }
  split; [lia|]. intros B. destruct K5 as (gs & N & I & F); [lia|]. exists gs. repeat split; auto; [lia|].
  intros ->. specialize (K4 CN). cbn in I. lia.
Qed.

(** *** Start Section *)

Lemma fix_short ls : Forall (fun l => (length l <= 72)%nat) ls -> fix_lines ls = Some (map (padr 72) ls).
Proof.
  induction 1 as [|l ls L F IH]; [reflexivity|]. cbn [fix_lines map]. replace (72 <? length l)%nat with false by lia. rewrite IH. reflexivity.
Qed.

Lemma put_lines_length (ls : list str) : forall n out, Forall (fun l => length l = 72%nat) ls -> put_lines n ls = Some out ->
  length out = (81 * length ls)%nat.
Proof.
  induction ls as [|l ls IH]; intros n out F H; cbn [put_lines] in H.
  - apply some_inj in H. subst out. reflexivity.
  - inversion F as [|? ? L F']. subst. destruct (FormatDEInt n) as [c|] eqn:E; [|discriminate].
    destruct (put_lines (n + 1) ls) as [x|] eqn:E2; [|discriminate]. cbn [option_map] in H. apply some_inj in H. subst out.
    specialize (IH _ _ F' E2). pose proof (tail_len "S" _ _ E) as T. rewrite app_length in T. cbn [length] in T.
    rewrite !app_length. cbn [length]. lia.
Qed.

(** *** Directory Entries and Parameter Data *)

Lemma owned_lines seq ds : forall k o, numbered (pd_line seq) k ds o -> Forall clean ds ->
  exists ps, numbered (sec_line "P") k ps o /\ length ps = length ds /\ Forall (owned seq) ps /\ Forall clean ps.
Proof.
  induction ds as [|d ds IH]; intros k o N F; inversion N as [|? ? ? l rest L N']; subst.
  - exists []. repeat split; constructor.
  - inversion F as [|? ? C F']. subst. destruct (IH _ _ N' F') as (ps & NP & LP & OP & CP).
    destruct (pd_line_sec _ _ _ _ L) as (c & SL & CC). exists ((d ++ sp :: c) :: ps). split; [constructor; assumption|].
    split; [cbn [length]; lia|]. split; constructor; auto.
    + exists d, c. split; [reflexivity|]. split; [apply L|exact CC].
    + apply clean_app; [exact C|]. apply clean_cons; [discriminate|]. exact (column_no_nl _ _ _ CC).
Qed.

Lemma field_of (l : list Z) fs : Forall2 (column 8) l fs -> forall i n rest, nth_error l i = Some n -> field_is i n (concat fs ++ rest).
Proof.
  induction 1 as [|m f l fs C F IH]; intros i n rest H; [destruct i; discriminate|]. destruct i as [|i]; cbn [nth_error] in H.
  - apply some_inj in H. subst m. exists [], f, (concat fs ++ rest). cbn [concat]. rewrite <- app_assoc. auto.
  - destruct (IH i n rest H) as (a & b & c & E & L & CB). exists (f ++ a), b, c. cbn [concat]. rewrite <- !app_assoc, E.
    split; [reflexivity|]. split; [|exact CB]. rewrite app_length, L. destruct C as [-> _]. lia.
Qed.

Lemma writeDE_seq d out : writeDE d = Some out -> d_seq d + 1 <= 9999999.
Proof.
  unfold writeDE. destruct (10000000 <? _); [discriminate|]. destruct (de_fields (de_line1 d)); [|discriminate].
  destruct (de_tail (d_seq d)); [|discriminate]. destruct (de_fields (de_line2 d)); [|discriminate].
  destruct (de_fields [d_sub d]); [|discriminate]. destruct (de_tail (d_seq d + 1)) eqn:E; [|discriminate].
  apply de_tail_some in E. destruct E as (? & _ & _ & ?). lia.
Qed.

Lemma all_laid u pd rd es : pd <> nl -> rd <> nl -> forall seq index l next d p, 1 <= seq -> 1 <= index -> Forall ent_clean es ->
  format_all u pd rd seq index es = POk (l, next) -> put_dirs l = (true, d) -> put_records l = (true, p) ->
  length l = length es /\
  exists ds ps, numbered (sec_line "D") seq ds d /\ numbered (sec_line "P") index ps p /\ catalogued seq index es ds ps /\
    length ds = (2 * length es)%nat /\ next = index + Z.of_nat (length ps) /\ Forall clean (ds ++ ps) /\
    (es <> [] -> seq + 2 * Z.of_nat (length es) <= 10000000 /\ next <= 10000000).
Proof.
  intros P R. induction es as [|e es IH]; intros seq index l next d p S1 K1 F H D1 P1; cbn [format_all] in H.
  - apply pok_inj in H. apply pair_inj in H. destruct H as [<- <-]. cbn in D1, P1. apply pair_inj in D1, P1.
    destruct D1 as [_ <-]. destruct P1 as [_ <-]. split; [reflexivity|]. exists [], [].
    split; [constructor|]. split; [constructor|]. split; [constructor|]. split; [reflexivity|]. split; [cbn; lia|]. split; [constructor|].
    congruence.
  - inversion F as [|? ? CE F']. subst. destruct (format_ent u pd rd index seq e) as [| |r] eqn:E; try discriminate. cbn [pbind] in H.
    destruct (format_all u pd rd (seq + 2) (p_next r) es) as [| |[l' k']] eqn:E2; try discriminate. cbn [pbind] in H.
    apply pok_inj in H. apply pair_inj in H. destruct H as [<- <-].
    cbn [put_dirs] in D1. cbn [put_records] in P1.
    destruct (writeDE (filed seq index (p_count r) e)) as [de|] eqn:WD; [|discriminate].
    destruct (put_dirs l') as [okd dd] eqn:PD. apply pair_inj in D1. destruct D1 as [-> <-].
    destruct (writePD r) as [pe|] eqn:WP; [|discriminate].
    destruct (put_records l') as [okp pp] eqn:PP. apply pair_inj in P1. destruct P1 as [-> <-].
    pose proof (writeDE_seq _ _ WD) as SQ. cbn [filed d_seq] in SQ.
    destruct (ent_laid u pd rd index seq e r ltac:(lia) P R CE E) as (NX & CNT & LO).
    destruct (writeDE_lines _ _ WD) as (PB & fs1 & fs2 & sf & l1 & l2 & -> & F1 & SL1 & F2 & CS & SL2).
    cbn [filed d_seq d_pdata d_count d_label d_sub] in PB, SL1, SL2, CS.
    destruct LO as (ds & cds & o1 & o2 & EO & N1 & N2 & CT & FD & FC & NC); [lia|].
    destruct (owned_lines _ _ _ _ N1 FD) as (own & NO & LO & OO & CO).
    assert (WE : pe = p_out r /\ p_out r <> []).
    { unfold writePD in WP. destruct (p_out r); [discriminate|]. destruct (_ =? _)%nat; [|discriminate]. apply some_inj in WP. split; [auto|discriminate]. }
    destruct WE as [-> NE].
    destruct (IH (seq + 2) (p_next r) l' k' dd pp ltac:(lia) ltac:(lia) F' E2 PD PP)
      as (LL & ds' & ps' & ND & NP & CAT & LD & NXT & CL & BND).
    assert (LEN : p_count r = Z.of_nat (length own + length cds)) by (rewrite CT; lia).
    split; [cbn [length]; lia|].
    exists (concat fs1 :: concat (fs2 ++ [repeat sp 8; repeat sp 8; de_label (d_label (e_dir e)); sf]) :: ds'), (own ++ cds ++ ps').
    split; [|split; [|split; [|split; [|split; [|split]]]]].
    + rewrite <- app_assoc. constructor; [exact SL1|]. constructor; [exact SL2|]. replace (seq + 1 + 1) with (seq + 2) by lia. exact ND.
    + rewrite EO, <- app_assoc. apply numbered_app; [exact NO|]. rewrite <- LO in N2. apply numbered_app; [exact N2|].
      replace (index + Z.of_nat (length own) + Z.of_nat (length cds)) with (p_next r) by lia. exact NP.
    + apply cat_cons; auto.
      * rewrite <- (app_nil_r (concat fs1)). eapply field_of; [exact F1|]. reflexivity.
      * rewrite <- (app_nil_r (concat fs1)). eapply field_of; [exact F1|]. reflexivity.
      * rewrite concat_app. eapply field_of; [exact F2|]. reflexivity.
      * rewrite concat_app. eapply field_of; [exact F2|]. cbn [de_line2 nth_error filed d_count]. rewrite LEN. reflexivity.
      * rewrite concat_app. eapply field_of; [exact F2|]. reflexivity.
      * intros Y. apply app_eq_nil in Y. destruct Y as [-> ->]. inversion N2; subst. inversion NO; subst. apply NE. rewrite EO. reflexivity.
      * replace (index + Z.of_nat (length own + length cds)) with (p_next r) by lia. exact CAT.
    + cbn [length]. lia.
    + rewrite !app_length. lia.
    + apply Forall_app in CL. destruct CL as [CL1 CL2]. apply Forall_app. split.
      * constructor; [exact (columns8_no_nl _ _ F1)|]. constructor; [|exact CL1]. rewrite concat_app. apply clean_app; [exact (columns8_no_nl _ _ F2)|].
        cbn [concat]. apply clean_app; [apply clean_blanks|]. apply clean_app; [apply clean_blanks|]. apply clean_app.
        { unfold de_label. apply clean_app; [apply clean_blanks|apply CE]. }
        apply clean_app; [exact (column_no_nl _ _ _ CS)|apply clean_nil].
      * apply Forall_app. split; [exact CO|]. apply Forall_app. auto.
    + intros _. cbn [length]. destruct es as [|e2 es]; [|destruct BND; [discriminate|lia]].
      cbn [format_all] in E2. apply pok_inj in E2. apply pair_inj in E2. destruct E2 as [_ <-]. cbn [length]. lia.
Qed.

(** *** The whole file *)

Lemma t_line_some ns ng nd np t : 0 <= ns <= 9999999 -> 0 <= ng <= 9999999 -> 0 <= nd <= 9999999 -> 0 <= np <= 9999999 ->
  t_line ns ng nd np = Some t ->
  exists cs cg cd cp, sec_line "T" 1 ("S"%char :: cs ++ "G"%char :: cg ++ "D"%char :: cd ++ "P"%char :: cp ++ repeat sp 40) t /\
    column 7 ns cs /\ column 7 ng cg /\ column 7 nd cd /\ column 7 np cp.
Proof.
  intros A B C D. unfold t_line.
  destruct (FormatDEInt ns) as [s|] eqn:E1; [|discriminate]. destruct (FormatDEInt ng) as [g|] eqn:E2; [|discriminate].
  destruct (FormatDEInt nd) as [d|] eqn:E3; [|discriminate]. destruct (FormatDEInt np) as [p|] eqn:E4; [|discriminate].
  destruct (FormatDEInt 1) as [o|] eqn:E5; [|discriminate]. intros H. apply some_inj in H. subst t.
  destruct (column8_split _ _ A E1) as (cs & -> & CS). destruct (column8_split _ _ B E2) as (cg & -> & CG).
  destruct (column8_split _ _ C E3) as (cd & -> & CD). destruct (column8_split _ _ D E4) as (cp & -> & CP).
  destruct (column8_split 1 _ ltac:(lia) E5) as (ct & -> & CT). cbn [set0 app].
  exists cs, cg, cd, cp. split; [|auto]. split.
  - cbn [length]. rewrite !app_length. cbn [length]. rewrite !app_length. cbn [length]. rewrite !app_length. cbn [length]. rewrite !app_length.
    rewrite repeat_length. destruct CS as [-> _], CG as [-> _], CD as [-> _], CP as [-> _]. reflexivity.
  - exists ct. split; [|exact CT]. cbn [app]. f_equal. rewrite <- !app_assoc. cbn [app]. do 2 f_equal.
    rewrite <- !app_assoc. cbn [app]. do 2 f_equal. rewrite <- !app_assoc. cbn [app]. do 2 f_equal. rewrite <- !app_assoc. reflexivity.
Qed.

Lemma clean_one_lined l : Forall clean l -> Forall one_lined l.
Proof. auto. Qed.

Lemma doc_texts_clean d name ver now : Forall one_lined (doc_texts d name ver now) ->
  Forall clean (d_start d) /\ glob_clean (with_name (d_glob d) name) ver now /\ Forall ent_clean (d_ents d).
Proof.
  unfold doc_texts. cbv zeta. intros F. apply Forall_app in F. destruct F as [F1 F]. apply Forall_app in F. destruct F as [F2 F3].
  split; [exact F1|]. split.
  - change (Forall clean ([productIDSS (d_glob d); name; nativeSystemID (d_glob d); ver; productIDRS (d_glob d); creationDate (d_glob d);
      author (d_glob d); organization (d_glob d); now; applicationNote (d_glob d)] ++ [[pdelim (d_glob d)]; [rdelim (d_glob d)]])) in F2.
    apply Forall_app in F2. destruct F2 as [F2 F4]. split; [exact F2|].
    inversion F4 as [|? ? A F5]. inversion F5 as [|? ? B _]. subst. cbn. split; intros X; [apply A|apply B]; rewrite X; left; reflexivity.
  - induction (d_ents d) as [|e es IH]; [constructor|]. cbn [flat_map] in F3. apply Forall_app in F3. destruct F3 as [F3 F4].
    constructor; [|auto]. apply Forall_app in F3. destruct F3 as [F5 F6]. inversion F6 as [|? ? A B]. subst.
    split; [|split; [exact B|exact A]].
    destruct (e_data e); cbn in F5 |- *; try exact I; inversion F5; assumption.
Qed.

Lemma layout d name ver now t over t' : Forall one_lined (doc_texts d name ver now) ->
  Forall (fun l => (length l <= 72)%nat) (d_start d) ->
  Write d name ver now t over = POk (true, t') ->
  exists s, t' = Old s /\ (Z.of_nat (length s) <= 809999919 -> well_laid (d_ents d) s).
Proof.
  intros TX W. destruct (doc_texts_clean _ _ _ _ TX) as (CS & CG & CE). unfold Write.
  destruct (d_ents d) as [|e0 es0] eqn:EE; [discriminate|]. rewrite <- EE in *. clear e0 es0 EE. cbv zeta.
  destruct (format_all _ _ _ 1 1 (d_ents d)) as [| |[l next]] eqn:FA; try discriminate.
  destruct (opened t over); [|discriminate]. unfold put_file.
  set (st := match d_start d with [] => [start_default] | _ => d_start d end).
  assert (W1 : Forall (fun l => (length l <= 72)%nat) st).
  { unfold st. destruct (d_start d); [|assumption]. constructor; [cbv; lia|constructor]. }
  assert (C1 : Forall clean st).
  { unfold st. destruct (d_start d); [|assumption]. constructor; [|constructor]. intros X. cbn in X. repeat destruct X as [X|X]; try discriminate. exact X. }
  assert (N1 : st <> []) by (unfold st; destruct (d_start d); discriminate). clearbody st.
  rewrite (fix_short _ W1). set (ss := map (padr 72) st).
  assert (W2 : Forall (fun l => length l = 72%nat) ss).
  { unfold ss. rewrite Forall_map. eapply Forall_impl; [|exact W1]. intros a X. apply padr_length, X. }
  assert (C2 : Forall clean ss).
  { unfold ss. rewrite Forall_map. eapply Forall_impl; [|exact C1]. intros a X. apply clean_padr, X. }
  assert (N2 : ss <> []) by (unfold ss; destruct st; [congruence|discriminate]). clearbody ss. clear W1 C1 N1.
  destruct (put_lines 1 ss) as [s|] eqn:PL; [|discriminate]. pose proof (put_lines_length _ _ _ W2 PL) as LS.
  destruct (writeGlobals _ ver now) as [| |[gs ng]] eqn:WG; try discriminate.
  destruct (glob_layout _ _ _ _ _ CG WG) as [LG GL].
  destruct (put_entities _ _ _ _) as [ok tl] eqn:PE. cbn [pbind]. intros H. apply pok_inj in H. apply pair_inj in H. destruct H as [-> <-].
  exists (s ++ gs ++ tl). split; [reflexivity|]. rewrite !app_length. intros B.
  unfold put_entities in PE. destruct (put_dirs l) as [[] dd] eqn:PD; [|discriminate]. cbn [negb] in PE.
  destruct (put_records l) as [[] pp] eqn:PP; [|discriminate]. cbn [negb] in PE.
  assert (P1 : pdelim (d_glob d) <> nl /\ rdelim (d_glob d) <> nl) by (split; apply CG).
  destruct (all_laid _ _ _ _ (proj1 P1) (proj2 P1) 1 1 _ _ _ _ ltac:(lia) ltac:(lia) CE FA PD PP)
    as (LL & ds & ps & ND & NP & CAT & LD & NX & CL & BND).
  destruct (t_line _ _ _ _) as [tt|] eqn:TL; [|discriminate]. apply pair_inj in PE. destruct PE as [_ <-].
  assert (BS : 0 <= Z.of_nat (length ss) <= 9999999)  by lia.
  destruct (put_lines_ok ss 1 W2 ltac:(lia) ltac:(unfold str in BS; lia)) as (s' & E' & NS). rewrite PL in E'. apply some_inj in E'. subst s'.
  destruct GL as (gls & NG & EG & NEG & CLG); [lia|].
  assert (BB : 2 * Z.of_nat (length (d_ents d)) <= 9999999 /\ next <= 10000000).
  { destruct (d_ents d); [cbn [length]; cbn [format_all] in FA; apply pok_inj in FA; apply pair_inj in FA; destruct FA as [_ <-]; lia|].
    destruct BND; [discriminate|]. lia. }
  rewrite LL in TL. apply t_line_some in TL; [|exact BS|lia|lia|lia]. destruct TL as (cs & cg & cd & cp & ST & K1 & K2 & K3 & K4).
  exists ss, gls, ds, ps. eexists. exists s, gs, dd, pp, tt. split; [reflexivity|].
  repeat (split; [eassumption|]). split.
  - exists cs, cg, cd, cp. split; [reflexivity|]. rewrite EG in K2. split; [exact K1|]. split; [exact K2|].
    split.
    + replace (Z.of_nat (length ds)) with (2 * Z.of_nat (length (d_ents d))) by lia. exact K3.
    + replace (Z.of_nat (length ps)) with (next - 1) by lia. exact K4.
  - apply Forall_app. split; [exact C2|]. apply Forall_app. split; [exact CLG|exact CL].
Qed.
