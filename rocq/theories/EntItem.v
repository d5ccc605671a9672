(** Several parameters written as one item. *)

From Coq Require Import Lia ZifyBool ZifyNat ZifyN QArith Qabs.
From Verif Require Import Base Num Spec NumFacts IoModel FieldFacts LineFacts TokenFacts RealFacts RecordFacts
  ParamFacts PutModel BuildFacts StreamFacts PdModel PdFacts EntModel EntModel2 EntModel3 EntFacts.
Open Scope Z_scope.

Ltac Zify.zify_post_hook ::= Z.div_mod_to_equations.

Definition no_real (p : param) : Prop := match p with PReal _ => False | _ => True end.

Lemma wrote_same u p : no_real p -> wrote u p p.
Proof. destruct p; cbn; auto. tauto. Qed.

Lemma uwrote_same u ps : Forall no_real ps -> Forall2 uwrote (uni u ps) ps.
Proof. intros F. apply uwrote_uni. induction F; constructor; auto. apply wrote_same; assumption. Qed.

Section Item.
Variables (pd rd : ascii).
Hypothesis D : delims pd rd.

Lemma opens_item u ps t : (length t <= 64)%nat -> (exists t0, t = t0 ++ [pd]) -> 2 <= costs ps -> Forall no_real ps ->
  (forall b, blanks b -> spaced_open pd ps (b ++ t)) -> opens pd rd [WItem t] (uni u ps).
Proof using D.
  intros LT (t0 & ET) CP NR SP de st Hde Hi Hk Hc. rewrite ucosts_uni in *.
  destruct (AddPDItem_ok t st de rd Hde ltac:(lia) ltac:(rewrite ET; destruct t0; discriminate) LT Hc) as (st' & E & B).
  pose proof (AddPDItem_idx _ _ _ _ _ E) as B1. assert (X1 : l_idx st' <= 10000000) by lia.
  destruct (AddPDItem_ext _ _ _ _ _ Hde Hi X1 E) as (b & t1 & c & tl & ET' & EX & Bb & _ & _ & _ & C2 & C3 & _).
  rewrite ET in ET'. apply app_inj_tail in ET'. destruct ET' as [<- <-].
  assert (Npr : pd <> rd) by apply D. rewrite (C2 Npr), app_nil_r in EX.
  exists st', ps, (b ++ t). cbn [emit]. rewrite E. split; [reflexivity|]. split; [apply uwrote_same, NR|].
  split; [exact EX|]. split; [apply SP, Bb|]. split; [exact C3|lia].
Qed.

Lemma closes_item u ps t : (length t <= 64)%nat -> (exists t0, t = t0 ++ [rd]) -> 2 <= costs ps -> Forall no_real ps ->
  (forall b, blanks b -> spaced pd rd ps (b ++ t)) -> closes pd rd [WItem t] (uni u ps).
Proof using D.
  intros LT (t0 & ET) CP NR SP de st Hde Hi Hk Hc. rewrite ucosts_uni in *.
  destruct (AddPDItem_ok t st de rd Hde ltac:(lia) ltac:(rewrite ET; destruct t0; discriminate) LT Hc) as (st' & E & B).
  pose proof (AddPDItem_idx _ _ _ _ _ E) as B1. assert (X1 : l_idx st' <= 10000000) by lia.
  destruct (AddPDItem_ext _ _ _ _ _ Hde Hi X1 E) as (b & t1 & c & tl & ET' & EX & Bb & _ & Bt & C1 & _ & _ & C4).
  rewrite ET in ET'. apply app_inj_tail in ET'. destruct ET' as [<- <-].
  exists st', ps, (b ++ t), tl. cbn [emit]. rewrite E. split; [reflexivity|]. split; [apply uwrote_same, NR|].
  split; [rewrite <- app_assoc; exact EX|]. split; [apply SP, Bb|]. split; [exact Bt|]. split; [exact C4|].
  split; [apply C1; reflexivity|lia].
Qed.

(** Integers. *)
Lemma ints_text_open l : forall b, blanks b -> l <> [] -> spaced_open pd (ptr_params l) (b ++ ints_text l pd pd).
Proof using.
  induction l as [|n l IH]; intros b B NE; [congruence|]. destruct l as [|m l].
  - cbn [ints_text ptr_params map]. apply (spo_cons pd (PInt n) b (showZ n) [] []); auto.
    + apply showZ_signed. + intros E. destruct (signed_nonnil _ _ (showZ_signed n) E). + constructor.
  - change (ints_text (n :: m :: l) pd pd) with (showZ n ++ pd :: ints_text (m :: l) pd pd).
    change (ptr_params (n :: m :: l)) with (PInt n :: ptr_params (m :: l)).
    apply spo_cons; auto.
    + apply showZ_signed. + intros E. destruct (signed_nonnil _ _ (showZ_signed n) E).
    + apply (IH []); [constructor|discriminate].
Qed.

Lemma ints_text_close l : forall b, blanks b -> l <> [] -> spaced pd rd (ptr_params l) (b ++ ints_text l pd rd).
Proof using.
  induction l as [|n l IH]; intros b B NE; [congruence|]. destruct l as [|m l].
  - cbn [ints_text ptr_params map]. apply (spaced_last pd rd (PInt n) b (showZ n)); auto.
    + apply showZ_signed. + intros E. destruct (signed_nonnil _ _ (showZ_signed n) E).
  - change (ints_text (n :: m :: l) pd rd) with (showZ n ++ pd :: ints_text (m :: l) pd rd).
    change (ptr_params (n :: m :: l)) with (PInt n :: ptr_params (m :: l)).
    apply spaced_cons; auto.
    + apply showZ_signed. + intros E. destruct (signed_nonnil _ _ (showZ_signed n) E).
    + apply (IH []); [constructor|discriminate].
Qed.

Lemma ints_text_last l fd : l <> [] -> exists t, ints_text l pd fd = t ++ [fd].
Proof using.
  induction l as [|n l IH]; [congruence|]. intros _. destruct l as [|m l]; [exists (showZ n); reflexivity|].
  destruct (IH ltac:(discriminate)) as (t & E). exists (showZ n ++ pd :: t).
  change (ints_text (n :: m :: l) pd fd) with (showZ n ++ pd :: ints_text (m :: l) pd fd). rewrite E, <- app_assoc. reflexivity.
Qed.

Lemma ints_text_len l fd : Forall is_int32 l -> (length (ints_text l pd fd) <= 12 * length l)%nat.
Proof using.
  induction 1 as [|n l H F IH]; [cbn; lia|]. pose proof (showZ_len_int n H). destruct l as [|m l].
  - cbn [ints_text]. rewrite app_length. cbn [length]. lia.
  - change (ints_text (n :: m :: l) pd fd) with (showZ n ++ pd :: ints_text (m :: l) pd fd).
    rewrite app_length. cbn [length] in *. lia.
Qed.

Lemma no_real_ints l : Forall no_real (ptr_params l).
Proof using. apply Forall_map, Forall_forall. cbn. auto. Qed.

Lemma opens_ints_item u l : l <> [] -> (length l <= 5)%nat -> Forall is_int32 l ->
  opens pd rd [WItem (ints_text l pd pd)] (uni u (ptr_params l)).
Proof using D.
  intros NE LL F. apply opens_item.
  - pose proof (ints_text_len l pd F). lia.
  - apply ints_text_last, NE.
  - rewrite costs_ints. destruct l; [congruence|cbn [length]; lia].
  - apply no_real_ints.
  - intros b B. apply ints_text_open; auto.
Qed.

Lemma closes_ints_item u l : l <> [] -> (length l <= 5)%nat -> Forall is_int32 l ->
  closes pd rd [WItem (ints_text l pd rd)] (uni u (ptr_params l)).
Proof using D.
  intros NE LL F. apply closes_item.
  - pose proof (ints_text_len l rd F). lia.
  - apply ints_text_last, NE.
  - rewrite costs_ints. destruct l; [congruence|cbn [length]; lia].
  - apply no_real_ints.
  - intros b B. apply ints_text_close; auto.
Qed.

(** A text written by hand. *)
Definition hand_text (s : str) (fd : ascii) : str := showZ (Z.of_nat (length s)) ++ "H"%char :: s ++ [fd].

Lemma hand_hollerith s : s <> [] -> hollerith s (showZ (Z.of_nat (length s)) ++ "H"%char :: s).
Proof using.
  intros NE. right. split; [exact NE|]. eexists. split; [|reflexivity].
  unfold showZ. replace (Z.of_nat (length s) <? 0) with false by lia. apply showN_numeral. lia.
Qed.

Lemma opens_hand u s : s <> [] -> (length (hand_text s pd) <= 64)%nat -> opens pd rd [WItem (hand_text s pd)] [(u, PStr s)].
Proof using D.
  intros NE L. change [(u, PStr s)] with (uni u [PStr s]). apply opens_item; auto.
  - exists (showZ (Z.of_nat (length s)) ++ "H"%char :: s). unfold hand_text. rewrite <- app_assoc. reflexivity.
  - unfold costs. cbn [fold_right cost]. unfold str_cost. lia.
  - repeat constructor.
  - intros b B. unfold hand_text. pose proof (hand_hollerith s NE) as H.
    replace (b ++ showZ (Z.of_nat (length s)) ++ "H"%char :: s ++ [pd])
      with (b ++ (showZ (Z.of_nat (length s)) ++ "H"%char :: s) ++ pd :: []) by (rewrite <- app_assoc; reflexivity).
    apply spo_cons; auto; [|constructor]. intros E. destruct (showZ (Z.of_nat (length s))); discriminate.
Qed.

Lemma closes_hand u s : s <> [] -> (length (hand_text s rd) <= 64)%nat -> closes pd rd [WItem (hand_text s rd)] [(u, PStr s)].
Proof using D.
  intros NE L. change [(u, PStr s)] with (uni u [PStr s]). apply closes_item; auto.
  - exists (showZ (Z.of_nat (length s)) ++ "H"%char :: s). unfold hand_text. rewrite <- app_assoc. reflexivity.
  - unfold costs. cbn [fold_right cost]. unfold str_cost. lia.
  - repeat constructor.
  - intros b B. unfold hand_text. pose proof (hand_hollerith s NE) as H.
    replace (b ++ showZ (Z.of_nat (length s)) ++ "H"%char :: s ++ [rd])
      with (b ++ (showZ (Z.of_nat (length s)) ++ "H"%char :: s) ++ [rd]) by (rewrite <- app_assoc; reflexivity).
    apply spaced_last; auto. intros E. destruct (showZ (Z.of_nat (length s))); discriminate.
Qed.
End Item.
