(** Every record which a [format] method leaves behind consists of whole,
    consecutively numbered lines, whatever the entity holds. *)

From Coq Require Import Lia ZifyBool ZifyNat ZifyN QArith Qabs.
From Verif Require Import Base Num Spec NumFacts IoModel FieldFacts LineFacts TokenFacts RealFacts ParamFacts BuildFacts StreamFacts
  PdModel PdFacts.
Open Scope Z_scope.

Definition clean (s : str) : Prop := ~ In nl s.

Lemma clean_app a b : clean a -> clean b -> clean (a ++ b).
Proof. intros A B I. apply in_app_or in I. destruct I; auto. Qed.
Lemma clean_nil : clean [].
Proof. intros []. Qed.
Lemma clean_cons c s : c <> nl -> clean s -> clean (c :: s).
Proof. intros C S [I|I]; auto. Qed.
Lemma clean_firstn n s : clean s -> clean (firstn n s).
Proof. intros C I. apply C. rewrite <- (firstn_skipn n s). apply in_or_app. auto. Qed.
Lemma clean_skipn n s : clean s -> clean (skipn n s).
Proof. intros C I. apply C. rewrite <- (firstn_skipn n s). apply in_or_app. auto. Qed.
Lemma clean_blanks n : clean (repeat sp n).
Proof. intros I. apply repeat_spec in I. discriminate. Qed.
Lemma clean_padr w s : clean s -> clean (padr w s).
Proof. intros C. unfold padr. apply clean_app; [exact C|apply clean_blanks]. Qed.
Lemma clean_showZ n : clean (showZ n).
Proof.
  intros I. destruct (signed_chars _ n _ (showZ_signed n) I) as [E|[E|E]]; try discriminate.
  apply (isdig_not_nl _ E). reflexivity.
Qed.
Lemma clean_FormatDEInt n s : FormatDEInt n = Some s -> clean s.
Proof.
  unfold FormatDEInt. destruct (_ || _); [discriminate|]. intros H. apply some_inj in H. subst s.
  apply clean_app; [apply clean_blanks|apply clean_showZ].
Qed.

(** The state of the builder: whole lines belonging to [de], numbered from [k],
    provided that the numbers fit. *)
Definition tidy (de k : Z) (st : lst) : Prop :=
  clean (l_cur st) /\ k <= l_idx st /\
  (l_idx st <= 10000000 -> exists ds, numbered (pd_line de) k ds (l_out st) /\ l_idx st = k + Z.of_nat (length ds) /\ Forall clean ds).

Section Tidy.
Variable de k : Z.
Hypothesis de_ok : 1 <= de <= 9999999.
Hypothesis k_ok : 1 <= k.

Lemma tidy_start init : clean init -> tidy de k (mkLst init [] k).
Proof.
  intros C. split; [exact C|]. cbn [l_idx l_out]. split; [lia|]. intros _. exists []. repeat split; [constructor|cbn; lia|constructor].
Qed.

Lemma tidy_add st t : tidy de k st -> clean t -> tidy de k (mkLst (l_cur st ++ t) (l_out st) (l_idx st)).
Proof. intros (C & L & D) T. split; [apply clean_app; assumption|]. cbn [l_idx l_out]. auto. Qed.

Lemma tidy_flush st ok st' : tidy de k st -> (length (l_cur st) <= 64)%nat -> pd_flush de st = (ok, st') ->
  tidy de k st' /\ (ok = true -> l_cur st' = []).
Proof.
  intros (C & L & D) W H. destruct ok.
  - pose proof (pd_flush_big _ _ _ H) as B. destruct (Z_le_gt_dec (l_idx st) 9999999) as [S|S].
    + destruct (pd_flush_ok de st de_ok W ltac:(lia)) as (line & E & P). rewrite E in H. apply pair_inj in H.
      destruct H as [_ <-]. cbn [l_cur l_idx l_out] in *. split; [|reflexivity]. split; [apply clean_nil|].
      split; [cbn [l_idx]; lia|]. intros B2.
      destruct D as (ds & N & I & F); [lia|]. exists (ds ++ [padr 64 (l_cur st)]). cbn [l_out l_idx]. split; [|split].
      * apply numbered_app; [exact N|]. rewrite <- I. rewrite <- (app_nil_r line). constructor; [exact P|constructor].
      * rewrite app_length. cbn [length]. lia.
      * apply Forall_app. split; [exact F|]. constructor; [apply clean_padr; exact C|constructor].
    + unfold pd_flush in H. destruct (FormatDEInt de); [|discriminate]. destruct (FormatDEInt (l_idx st)); [|discriminate].
      apply pair_inj in H. destruct H as [_ <-]. split; [|reflexivity]. split; [apply clean_nil|]. cbn [l_idx] in *.
      split; lia.
  - split; [|discriminate]. unfold pd_flush in H. destruct (FormatDEInt de) as [s1|] eqn:E1; [|apply FormatDEInt_none in E1; lia].
    destruct (FormatDEInt (l_idx st)); [discriminate|]. apply pair_inj in H. destruct H as [_ <-].
    split; [|split; assumption]. apply clean_app; [apply clean_padr; exact C|eapply clean_FormatDEInt; eauto].
Qed.

Lemma tidy_item t st rd ok st' : tidy de k st -> clean t -> AddPDItem t st de rd = Ret ok st' -> tidy de k st'.
Proof.
  intros T C. unfold AddPDItem. destruct (64 <? length t)%nat eqn:E1; [intros H; apply ret_inj in H; destruct H as [_ <-]; exact T|].
  destruct (64 <? length (l_cur st))%nat eqn:E2; [intros H; apply ret_inj in H; destruct H as [_ <-]; exact T|].
  destruct (if (64 <? length (l_cur st) + length t)%nat then pd_flush de st else (true, st)) as [ok1 st1] eqn:F.
  assert (T1 : tidy de k st1 /\ (ok1 = true -> (length (l_cur st1) + length t <= 64)%nat)).
  { destruct (64 <? length (l_cur st) + length t)%nat eqn:E3.
    - destruct (tidy_flush _ _ _ T ltac:(lia) F) as [A B]. split; [exact A|]. intros X. rewrite (B X). cbn [length]. lia.
    - apply pair_inj in F. destruct F as [_ <-]. split; [exact T|]. lia. }
  destruct T1 as [T1 W1]. destruct ok1; cbn [negb]; [|intros H; apply ret_inj in H; destruct H as [_ <-]; exact T1].
  destruct (9999999 <? l_idx st1); [intros H; apply ret_inj in H; destruct H as [_ <-]; exact T1|].
  cbv zeta. destruct (last_char t) as [c|]; [|discriminate].
  destruct (Ascii.eqb c rd).
  - set (st2 := mkLst (l_cur st1 ++ t) (l_out st1) (l_idx st1)). destruct (pd_flush de st2) as [ok3 st3] eqn:F3.
    intros H. apply ret_inj in H. destruct H as [_ <-].
    eapply (tidy_flush _ _ _ (tidy_add _ _ T1 C)); [|exact F3]. cbn [l_cur]. rewrite app_length. specialize (W1 eq_refl). lia.
  - intros H. apply ret_inj in H. destruct H as [_ <-]. apply tidy_add; assumption.
Qed.

Lemma tidy_fill fuel : forall txt st ok st', tidy de k st -> (length (l_cur st) <= 64)%nat -> clean txt ->
  pd_fill fuel de txt st = (ok, st') -> tidy de k st' /\ (ok = true -> (length (l_cur st') <= 64)%nat).
Proof.
  induction fuel as [|fuel IH]; intros txt st ok st' T W C H; cbn [pd_fill] in H.
  - apply pair_inj in H. destruct H as [<- <-]. auto.
  - destruct txt as [|c txt]; [apply pair_inj in H; destruct H as [<- <-]; auto|].
    set (s := c :: txt) in *. set (n := (64 - length (l_cur st))%nat) in *.
    cbv zeta in H. set (st1 := mkLst (l_cur st ++ firstn n s) (l_out st) (l_idx st)) in *.
    assert (T1 : tidy de k st1) by (apply tidy_add; [exact T|apply clean_firstn; exact C]).
    assert (W1 : (length (l_cur st1) <= 64)%nat).
    { unfold st1. cbn [l_cur]. rewrite app_length, firstn_length. unfold n. lia. }
    destruct (if (length (l_cur st1) =? 64)%nat then pd_flush de st1 else (true, st1)) as [ok2 st2] eqn:F.
    assert (T2 : tidy de k st2 /\ (ok2 = true -> (length (l_cur st2) <= 64)%nat)).
    { destruct (length (l_cur st1) =? 64)%nat.
      - destruct (tidy_flush _ _ _ T1 W1 F) as [A B]. split; [exact A|]. intros X. rewrite (B X). cbn. lia.
      - apply pair_inj in F. destruct F as [_ <-]. auto. }
    destruct T2 as [T2 W2]. destruct ok2.
    + eapply IH; [exact T2|auto|apply clean_skipn; exact C|exact H].
    + apply pair_inj in H. destruct H as [<- <-]. split; [exact T2|discriminate].
Qed.

Lemma tidy_text s st pd rd d ok st' : tidy de k st -> clean s -> d <> nl -> AddPDHStr s st de pd rd d = Ret ok st' -> tidy de k st'.
Proof.
  intros T C D. unfold AddPDHStr. destruct s as [|c s].
  { apply tidy_item; [exact T|]. apply clean_cons; [exact D|apply clean_nil]. }
  set (t := c :: s) in *. destruct (negb _ && negb _); [intros H; apply ret_inj in H; destruct H as [_ <-]; exact T|].
  destruct ((64 <? length (l_cur st) + length (GetHConst t))%nat && (64 <? length (l_cur st))%nat) eqn:E; [discriminate|].
  destruct (if (64 <? length (l_cur st) + length (GetHConst t))%nat then pd_flush de st else (true, st)) as [ok1 st1] eqn:F.
  assert (T1 : tidy de k st1 /\ (ok1 = true -> (length (l_cur st1) <= 64)%nat)).
  { destruct (64 <? length (l_cur st) + length (GetHConst t))%nat eqn:E3.
    - destruct (tidy_flush _ _ _ T ltac:(lia) F) as [A B]. split; [exact A|]. intros X. rewrite (B X). cbn [length]. lia.
    - apply pair_inj in F. destruct F as [_ <-]. split; [exact T|]. lia. }
  destruct T1 as [T1 W1]. destruct ok1; cbn [negb]; [|intros H; apply ret_inj in H; destruct H as [_ <-]; exact T1].
  cbv zeta. set (txt := GetHConst t ++ t ++ [d]).
  assert (CT : clean txt).
  { unfold txt, GetHConst. repeat apply clean_app; auto.
    - pose proof (showN_digits (Z.of_nat (length t)) ltac:(lia)) as A. intros I.
      rewrite Forall_forall in A. apply (isdig_not_nl _ (A _ I)). reflexivity.
    - apply clean_cons; [discriminate|apply clean_nil].
    - apply clean_cons; [exact D|apply clean_nil]. }
  destruct (pd_fill (length txt) de txt st1) as [ok2 st2] eqn:F2.
  destruct (tidy_fill _ _ _ _ _ T1 (W1 eq_refl) CT F2) as [T2 W2].
  destruct ok2; cbn [negb]; [|intros H; apply ret_inj in H; destruct H as [_ <-]; exact T2].
  destruct (negb _ && Ascii.eqb d rd).
  - destruct (pd_flush de st2) as [ok3 st3] eqn:F3. intros H. apply ret_inj in H. destruct H as [_ <-].
    eapply tidy_flush; [exact T2|auto|exact F3].
  - intros H. apply ret_inj in H. destruct H as [_ <-]. exact T2.
Qed.

(** *** Steps of a [format] method *)

Definition act_clean (a : act) : Prop :=
  match a with WItem t => clean t | WReal _ d _ => d <> nl | WText s d => clean s /\ d <> nl end.

Lemma real_clean q d u t : FormatPDREal q d u = Some t -> d <> nl -> clean t.
Proof.
  unfold FormatPDREal. destruct (Qle_bool u 0) eqn:E; [discriminate|]. apply Qle_bool_false in E. intros H D. apply some_inj in H. subst t.
  assert (1 <= real_digits q u).
  { pose proof (real_digits_admissible q u E) as (A & _). lia. }
  destruct (format_real_spec (real_digits q u) q d H) as (t & v & -> & R & _).
  apply clean_app; [|apply clean_cons; [exact D|apply clean_nil]]. exact (param_text_no_nl (PReal v) t R I).
Qed.

Lemma tidy_emit pd rd acts : forall st ok st', tidy de k st -> Forall act_clean acts -> emit de pd rd acts st = Ret ok st' -> tidy de k st'.
Proof.
  induction acts as [|a acts IH]; intros st ok st' T F H; cbn [emit] in H.
  - apply ret_inj in H. destruct H as [_ <-]. exact T.
  - inversion F as [|? ? A F']. subst. destruct a as [t|q d u|s d]; cbn [act_clean] in A.
    + destruct (AddPDItem t st de rd) as [|ok1 st1] eqn:E; [discriminate|].
      eapply IH; [|exact F'|exact H]. eapply tidy_item; eauto.
    + destruct (FormatPDREal q d u) as [t|] eqn:E1; [|apply ret_inj in H; destruct H as [_ <-]; exact T].
      destruct (AddPDItem t st de rd) as [|ok1 st1] eqn:E; [discriminate|].
      eapply IH; [|exact F'|exact H]. eapply tidy_item; [exact T|eapply real_clean; eauto|exact E].
    + destruct (AddPDHStr s st de pd rd d) as [|[|] st1] eqn:E; [discriminate| |].
      * eapply IH; [|exact F'|exact H]. eapply tidy_text; [exact T|apply A|apply A|exact E].
      * apply ret_inj in H. destruct H as [_ <-]. eapply tidy_text; [exact T|apply A|apply A|exact E].
Qed.

(** *** Comments *)

(** Whole lines with 72 columns of data, numbered from [k0]. *)
Definition stacked (k0 : Z) (out : str) (k1 : Z) : Prop :=
  k0 <= k1 /\ (k1 <= 10000000 -> exists ds, numbered (sec_line "P") k0 ds out /\ k1 = k0 + Z.of_nat (length ds) /\ Forall clean ds).

Lemma comment_stack fuel : forall s o k1 k2 out out', comment_lines fuel s out k1 = (true, out', k2) ->
  clean s -> 1 <= o -> forall t, stacked o t k1 -> exists t', out' = out ++ t' /\ stacked o (t ++ t') k2.
Proof.
  induction fuel as [|fuel IH]; intros s o k1 k2 out out' H C O t S; cbn [comment_lines] in H.
  - apply pair_inj in H. destruct H as [H <-]. apply pair_inj in H. destruct H as [_ <-].
    exists []. rewrite !app_nil_r. auto.
  - destruct s as [|c s].
    { apply pair_inj in H. destruct H as [H <-]. apply pair_inj in H. destruct H as [_ <-].
      exists []. rewrite !app_nil_r. auto. }
    set (x := c :: s) in *. cbv zeta in H. destruct (FormatDEInt k1) as [n|] eqn:E; [|discriminate].
    set (l := padr 72 (firstn 72 x) ++ set0 "P" n ++ [nl]) in *.
    assert (S1 : stacked o (t ++ l) (k1 + 1)).
    { destruct S as [S1 S2]. split; [lia|]. intros B. destruct S2 as (ds & N & I & F); [lia|].
      exists (ds ++ [padr 72 (firstn 72 x)]). split; [|split].
      - apply numbered_app; [exact N|]. rewrite <- I. rewrite <- (app_nil_r l). constructor; [|constructor].
        destruct (column8_split k1 n ltac:(lia) E) as (c' & -> & Cc).
        split; [apply padr_length; rewrite firstn_length; lia|]. exists c'. split; [reflexivity|exact Cc].
      - rewrite app_length. cbn [length]. lia.
      - apply Forall_app. split; [exact F|]. constructor; [apply clean_padr, clean_firstn; exact C|constructor]. }
    destruct (IH _ o _ _ _ _ H (clean_skipn 72 _ C) O _ S1) as (t' & -> & S').
    exists (l ++ t'). rewrite <- app_assoc in S'. split; [|exact S'].
    unfold l. rewrite <- !app_assoc. reflexivity.
Qed.

Lemma comments_stack cs : forall o k1 k2 out out', comments_lines cs out k1 = (true, out', k2) ->
  Forall clean cs -> 1 <= o -> forall t, stacked o t k1 -> exists t', out' = out ++ t' /\ stacked o (t ++ t') k2.
Proof.
  induction cs as [|c cs IH]; intros o k1 k2 out out' H F O t S; cbn [comments_lines] in H.
  - apply pair_inj in H. destruct H as [H <-]. apply pair_inj in H. destruct H as [_ <-].
    exists []. rewrite !app_nil_r. auto.
  - inversion F as [|? ? C F']. subst. destruct (comment_lines (length c) c out k1) as [[b o1] k3] eqn:E. destruct b; [|discriminate].
    destruct (comment_stack _ _ o _ _ _ _ E C O t S) as (t1 & -> & S1).
    destruct (IH o _ _ _ _ H F' O _ S1) as (t2 & -> & S2).
    exists (t1 ++ t2). rewrite <- app_assoc in S2. rewrite <- app_assoc. split; [reflexivity|exact S2].
Qed.

(** *** Whole records *)

End Tidy.

(** The record [r] starts at line [k]: lines of the entity [de], then comments. *)
Definition laid (de k : Z) (cs : list str) (r : pdrec) : Prop :=
  p_next r = k + p_count r /\ 0 <= p_count r /\
  (p_next r <= 10000000 -> exists ds cds o1 o2, p_out r = o1 ++ o2 /\ numbered (pd_line de) k ds o1 /\
     numbered (sec_line "P") (k + Z.of_nat (length ds)) cds o2 /\ p_count r = Z.of_nat (length ds + length cds) /\
     Forall clean ds /\ Forall clean cds /\ (cs = [] -> cds = [])).

Lemma extras_clean extras pd rd : pd <> nl -> rd <> nl -> Forall act_clean (extras_acts extras pd rd).
Proof.
  intros P R.
  assert (X : forall n d, d <> nl -> act_clean (WInt n d)).
  { intros n d D. apply clean_app; [apply clean_showZ|apply clean_cons; [exact D|apply clean_nil]]. }
  assert (Y : forall l fd, fd <> nl -> Forall act_clean (ints_acts l pd fd)).
  { induction l as [|n l IH]; intros fd D; [constructor|]. destruct l as [|m l]; [constructor; [auto|constructor]|].
    cbn [ints_acts]. constructor; [auto|]. apply IH. exact D. }
  assert (Z0 : act_clean (WItem [pd])) by (apply clean_cons; [exact P|apply clean_nil]).
  unfold extras_acts. cbv zeta. destruct (map snd (filter is_secA extras)) as [|a al]; [constructor; [exact Z0|]; constructor; auto|].
  destruct (map snd (filter is_secB extras)) as [|b bl]; constructor; auto.
  apply Forall_app. split; [auto|]. constructor; auto.
Qed.

Lemma frame_laid init acts extras cs index seq pd rd r : 1 <= seq <= 9999999 -> pd <> nl -> rd <> nl ->
  clean init -> Forall act_clean acts -> Forall clean cs ->
  format_frame init acts extras cs index seq pd rd = POk r -> laid seq index cs r.
Proof.
  intros HS P R CI CA CC. unfold format_frame. destruct (_ || _) eqn:E; [discriminate|].
  destruct (emit seq pd rd acts (mkLst init [] index)) as [|[|] st] eqn:E1; try discriminate.
  assert (K : 1 <= index) by lia.
  pose proof (tidy_emit seq index HS K _ _ _ _ _ _ (tidy_start seq index _ CI) CA E1) as T.
  destruct (match extras with [] => Ret true st | _ => formatExtraParams extras seq pd rd st end) as [|[|] st1] eqn:E2; try discriminate.
  assert (T1 : tidy seq index st1).
  { destruct extras as [|x xs]; [apply ret_inj in E2; destruct E2 as [_ <-]; exact T|].
    unfold formatExtraParams in E2. destruct (forallb _ _); [|discriminate].
    refine (tidy_emit seq index HS K pd rd _ _ _ _ T _ E2). apply extras_clean; assumption. }
  destruct (formatComments cs (l_out st1) (l_idx st1)) as [[b out] k] eqn:E3. destruct b; [|discriminate].
  intros H. apply pok_inj in H. subst r. unfold formatComments in E3. destruct (negb _); [discriminate|].
  destruct T1 as (C1 & L1 & D1).
  destruct (comments_stack _ (l_idx st1) _ _ _ _ E3 CC ltac:(lia) []) as (t' & -> & S1 & S2).
  { split; [lia|]. intros _. exists []. repeat split; [constructor|cbn; lia|constructor]. }
  cbn [app] in S2.
  split; [cbn [p_next p_count]; lia|]. split; [cbn [p_count]; lia|]. cbn [p_next p_count p_out]. intros B.
  destruct D1 as (ds & N & I & F); [lia|]. destruct S2 as (cds & N2 & I2 & F2); [lia|].
  exists ds, cds, (l_out st1), t'. rewrite I in N2. repeat split; auto; [lia|].
  intros ->. cbn [comments_lines] in E3. apply pair_inj in E3. destruct E3 as [_ E4].
  destruct cds; [reflexivity|]. cbn [length] in I2. lia.
Qed.

(** ** Formats of the single types *)

From Verif Require Import EntModel EntModel2 EntModel3 DeModel HeaderModel GlobalModel PayloadModel FileModel.

Lemma WInt_clean n d : d <> nl -> act_clean (WInt n d).
Proof. intros D. apply clean_app; [apply clean_showZ|apply clean_cons; [exact D|apply clean_nil]]. Qed.

Lemma ints_clean pd l : pd <> nl -> forall fd, fd <> nl -> Forall act_clean (ints_acts l pd fd).
Proof.
  intros P. induction l as [|n l IH]; intros fd D; [constructor|]. destruct l as [|m l].
  - constructor; [apply WInt_clean; exact D|constructor].
  - cbn [ints_acts]. constructor; [apply WInt_clean; exact P|]. apply IH. exact D.
Qed.

Lemma reals_clean u pd l : pd <> nl -> forall fd, fd <> nl -> Forall act_clean (reals_acts u l pd fd).
Proof.
  intros P. induction l as [|n l IH]; intros fd D; [constructor|]. destruct l as [|m l].
  - constructor; [exact D|constructor].
  - cbn [reals_acts]. constructor; [exact P|]. apply IH. exact D.
Qed.

Lemma vertex_clean u pd l : pd <> nl -> forall fd, fd <> nl -> Forall act_clean (vertex_acts u l pd fd).
Proof.
  intros P. induction l as [|[[x y] z] l IH]; intros fd D; [constructor|]. destruct l as [|m l].
  - repeat constructor; exact D.
  - cbn [vertex_acts]. do 3 (constructor; [exact P|]). apply IH. exact D.
Qed.

Lemma ints_text_clean pd l : pd <> nl -> forall fd, fd <> nl -> clean (ints_text l pd fd).
Proof.
  intros P. induction l as [|n l IH]; intros fd D; [apply clean_nil|]. destruct l as [|m l].
  - apply clean_app; [apply clean_showZ|apply clean_cons; [exact D|apply clean_nil]].
  - cbn [ints_text]. apply clean_app; [apply clean_showZ|]. apply clean_cons; [exact P|]. apply IH. exact D.
Qed.

Lemma edge_clean pd l : pd <> nl -> forall fd, fd <> nl -> Forall act_clean (edge_acts l pd fd).
Proof.
  intros P. induction l as [|n l IH]; intros fd D; [constructor|]. destruct l as [|m l].
  - constructor; [apply ints_text_clean; assumption|constructor].
  - cbn [edge_acts]. constructor; [apply ints_text_clean; assumption|]. apply IH. exact D.
Qed.

Lemma Forall_flat_map' {A B} (P : B -> Prop) (f : A -> list B) l : (forall x, Forall P (f x)) -> Forall P (flat_map f l).
Proof. intros H. induction l as [|x l IH]; [constructor|]. cbn [flat_map]. apply Forall_app. auto. Qed.

Lemma fdel_clean extras pd rd : pd <> nl -> rd <> nl -> fdel extras pd rd <> nl.
Proof. intros P R. destruct extras; assumption. Qed.

Lemma head_text_clean l pd : pd <> nl -> clean (head_text l pd).
Proof.
  intros P. induction l as [|n l IH]; [apply clean_nil|]. cbn [head_text flat_map].
  apply clean_app; [|exact IH]. apply clean_app; [apply clean_showZ|apply clean_cons; [exact P|apply clean_nil]].
Qed.

Lemma loop_clean pd l : pd <> nl -> forall fd, fd <> nl -> Forall act_clean (loop_acts l pd fd).
Proof.
  intros P.
  assert (X : forall e kd, kd <> nl -> Forall act_clean (ledge_acts e pd kd)).
  { intros e kd K. unfold ledge_acts. apply Forall_app. split.
    - repeat (constructor; [apply WInt_clean; assumption|]). constructor.
    - unfold pcurve_acts. apply Forall_flat_map'. intros [b c]. repeat (constructor; [apply WInt_clean; assumption|]). constructor. }
  induction l as [|n l IH]; intros fd D; [constructor|]. destruct l as [|m l].
  - apply X. exact D.
  - cbn [loop_acts]. apply Forall_app. split; [apply X; exact P|]. apply IH. exact D.
Qed.

(** The texts of an entity hold no newline. *)
Definition payload_clean {D} (p : payload D) : Prop :=
  match p with P308 s => clean (sf_name s) | P314 c => clean (co_name c) | P406 n => clean n | _ => True end.
Definition ent_clean (e : ent) : Prop :=
  payload_clean (e_data e) /\ Forall clean (e_comments e) /\ clean (firstn 8 (d_label (e_dir e))).

Ltac cl := repeat (assumption || apply clean_app || apply clean_showZ || apply clean_nil || apply WInt_clean || apply fdel_clean ||
  apply ints_clean || apply reals_clean || apply vertex_clean || apply edge_clean || apply loop_clean || apply head_text_clean ||
  (apply clean_cons; [solve [cl || discriminate]|]) || (apply Forall_app; split) || (apply Forall_cons; [solve [cbn [act_clean]; cl]|]) ||
  apply Forall_nil).

Lemma ent_laid u pd rd index seq e r : 1 <= seq <= 9999999 -> pd <> nl -> rd <> nl -> ent_clean e ->
  format_ent u pd rd index seq e = POk r -> laid seq index (e_comments e) r.
Proof.
  intros HS P R (CP & CC & _). unfold format_ent. pose proof (fdel_clean (e_extras e) pd rd P R) as FD.
  destruct (e_data e) as [a|l|c|l|v|t|m|c [[i j] k]|s|o|t|c [[i j] k]|x [[i j] k]|l|b|s|c|n|o|v|l|l|f|l] eqn:E; cbn [payload_clean] in CP.
  - apply frame_laid; cl.
  - apply frame_laid; cl. apply clean_cons; [destruct l, (e_extras e); assumption|apply clean_nil].
  - apply frame_laid; cl.
  - apply frame_laid; cl.
  - unfold format120. destruct (rv_axis v), (rv_curve v); try discriminate. apply frame_laid; cl.
  - unfold format122. destruct (tc_curve t); try discriminate. apply frame_laid; cl.
  - apply frame_laid; cl.
  - unfold format126. destruct (_ || _); [discriminate|]. apply frame_laid; cl.
  - unfold format128. destruct (_ || _); [discriminate|]. apply frame_laid; cl.
    destruct (rational _); cl.
  - unfold format142. destruct (os_surf o); [|discriminate]. unfold guard. repeat (destruct (match _ with Some _ => _ | None => _ end) || destruct (range03 _)); try discriminate.
    all: apply frame_laid; cl.
  - unfold format144. destruct (tr_surf t); [|discriminate]. unfold guard. destruct (flag01 _); [|discriminate]. apply frame_laid; cl.
  - apply frame_laid; cl.
  - unfold format164. destruct (ex_curve x); [|discriminate]. apply frame_laid; cl.
  - unfold format180. destruct (_ || _); [discriminate|]. apply frame_laid; cl.
  - unfold format186. destruct (_ <? _); [discriminate|]. destruct (br_shell b); [|discriminate]. apply frame_laid; cl.
    destruct (br_voids b); cl.
  - unfold format308. destruct (sf_ents s); [discriminate|]. apply frame_laid; cl. apply Forall_cons; [split; assumption|]. cl.
  - unfold format314. cbv zeta. set (q := co_name c) in *. clearbody q. destruct q as [|a q]; apply frame_laid; cl.
  - unfold format406, guard. destruct (_ =? _); [|discriminate]. apply frame_laid; cl. apply Forall_cons; [split; assumption|]. cl.
  - unfold format408. destruct (in_def o); [|discriminate]. apply frame_laid; cl.
  - unfold format502. destruct (_ || _); [discriminate|]. destruct v; [discriminate|]. apply frame_laid; cl.
  - unfold format504. destruct (_ || _); [discriminate|]. destruct l; [discriminate|]. destruct (existsb _ _); [discriminate|]. apply frame_laid; cl.
  - unfold format508. destruct (_ || _); [discriminate|]. destruct (loop_check l); try discriminate. apply frame_laid; cl.
  - unfold format510. destruct (_ <? _); [discriminate|]. destruct (fc_surf f); [|discriminate]. destruct (fc_loops f); [discriminate|]. apply frame_laid; cl.
  - unfold format514. destruct (_ <? _); [discriminate|]. destruct l; [discriminate|]. apply frame_laid; cl.
Qed.
