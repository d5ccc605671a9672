(** Facts about the Start Section. *)

From Coq Require Import Lia ZifyBool ZifyNat.
From Verif Require Import Base Num IoModel Spec NumFacts FieldFacts LineFacts StreamFacts HeaderModel.
Open Scope Z_scope.

(** ** Vocabulary *)

(** The lines [ls] hold [text]: 72 columns each, one after the other, the rest of
    the last line blank. *)
Definition holds_text (ls : list str) (text : str) : Prop :=
  Forall (fun l => length l = 72%nat) ls /\
  exists b, concat ls = text ++ b /\ blanks b /\ (length b < 72)%nat.

(** What is added for a text: nothing if it has exactly 72 characters. *)
Definition added (text : str) (ls : list str) : Prop :=
  (length text <> 72%nat -> holds_text ls text) /\ (length text = 72%nat -> ls = []).

(** The Start Section at the front of a stream: records S numbered from [n], then
    the record [rec] of another section. *)
Inductive start_records : Z -> stream -> list str -> irec -> stream -> Prop :=
| sr_end : forall n f rec f', ReadIGESRecord f = POk (rec, f') -> r_sec rec <> "S"%char -> start_records n f [] rec f'
| sr_line : forall n f d f1 ls rec f', ReadIGESRecord f = POk (mkRec d "S" n, f1) ->
    start_records (n + 1) f1 ls rec f' -> start_records n f (d :: ls) rec f'.

(** ** Proofs *)

Lemma pieces72_text fuel : forall s, (length s <= fuel)%nat -> holds_text (pieces72 fuel s) s.
Proof.
  induction fuel as [|fuel IH]; intros s L.
  - destruct s; [|cbn in L; lia]. split; [constructor|]. exists []. repeat split; [constructor|cbn; lia].
  - destruct s as [|c r]; [split; [constructor|]; exists []; repeat split; [constructor|cbn; lia]|].
    set (s := c :: r) in *.
    change (pieces72 (S fuel) s) with (padr 72 (firstn 72 s) :: pieces72 fuel (skipn 72 s)).
    destruct (IH (skipn 72 s)) as [F (b & E & B & Lb)]; [rewrite skipn_length; unfold s in *; cbn [length] in *; lia|].
    split.
    + constructor; [|exact F]. apply padr_length. rewrite firstn_length. lia.
    + destruct (le_lt_dec 72 (length s)) as [H|H].
      * exists b. split; [|split; assumption]. cbn [concat]. rewrite E.
        unfold padr. rewrite firstn_length. replace (72 - Nat.min 72 (length s))%nat with 0%nat by lia.
        cbn [repeat]. rewrite app_nil_r, app_assoc. rewrite firstn_skipn. reflexivity.
      * exists (repeat sp (72 - length s)). split; [|split].
        -- cbn [concat]. unfold padr. rewrite firstn_all2 by lia. rewrite skipn_all2 by lia.
           assert (P : pieces72 fuel [] = []) by (destruct fuel; reflexivity). rewrite P. cbn [concat].
           rewrite app_nil_r. reflexivity.
        -- apply Forall_forall. intros x I. apply repeat_spec in I. exact I.
        -- rewrite repeat_length. unfold s. cbn [length]. lia.
Qed.

Lemma add_text lines text : exists ls, added text ls /\ AddToHeader lines text = lines ++ ls.
Proof.
  unfold AddToHeader. destruct text as [|c r].
  - exists []. split; [|rewrite app_nil_r; reflexivity]. split; [|reflexivity].
    intros _. split; [constructor|]. exists []. repeat split; [constructor|cbn; lia].
  - set (text := c :: r). destruct (length text <? 72)%nat eqn:E1; [|destruct (72 <? length text)%nat eqn:E2].
    + exists [padr 72 text]. split; [|reflexivity]. split; [|lia]. intros _. split.
      * constructor; [|constructor]. rewrite padr_length; lia.
      * exists (repeat sp (72 - length text)). split; [|split].
        -- cbn [concat]. rewrite app_nil_r. reflexivity.
        -- apply Forall_forall. intros x I. apply repeat_spec in I. exact I.
        -- rewrite repeat_length. unfold text. cbn [length]. lia.
    + exists (pieces72 (length text) text). split; [|reflexivity]. split; [|lia].
      intros _. apply pieces72_text. lia.
    + exists []. split; [|rewrite app_nil_r; reflexivity]. split; [lia|reflexivity].
Qed.

Lemma app_inj_pre {A} (a b c d : list A) : length a = length c -> a ++ b = c ++ d -> a = c /\ b = d.
Proof.
  revert c. induction a as [|x a IH]; intros [|y c] L E; try discriminate; [auto|].
  cbn [app] in E. injection E as -> E. cbn [length] in L. destruct (IH c) as [-> ->]; auto.
Qed.

Lemma added_unique text ls ls' : added text ls -> added text ls' -> ls = ls'.
Proof.
  intros [A1 A2] [B1 B2]. destruct (Nat.eq_dec (length text) 72) as [E|E]; [rewrite A2, B2; auto|].
  destruct (A1 E) as [F (b & C & Bb & Lb)], (B1 E) as [F' (b' & C' & Bb' & Lb')]. clear A1 A2 B1 B2.
  assert (LEN : forall l : list str, Forall (fun l => length l = 72%nat) l -> length (concat l) = (72 * length l)%nat).
  { induction 1 as [|x l Hx _ IH]; [reflexivity|]. cbn [concat length]. rewrite app_length, Hx, IH. lia. }
  pose proof (LEN _ F) as L1. pose proof (LEN _ F') as L2. rewrite C, app_length in L1. rewrite C', app_length in L2.
  assert (length b = length b') by lia.
  assert (BB : b = b').
  { clear - Bb Bb' H. revert b' Bb' H. induction Bb as [|x l -> _ IH]; intros [|y l'] Bb' H; try discriminate; [reflexivity|].
    inversion Bb' as [|? ? -> ?]. subst. f_equal. apply IH; auto. }
  subst b'. rewrite <- C' in C. clear - F F' C. revert ls' F' C.
  induction F as [|x l Lx _ IH]; intros [|y l'] F' C.
  - reflexivity.
  - inversion F' as [|? ? Ly _]. subst. destruct y; [discriminate|]. discriminate C.
  - destruct x; [discriminate|]. discriminate C.
  - inversion F' as [|? ? Ly Fl']. subst. cbn [concat] in C.
    assert (x = y /\ concat l = concat l') as [-> C2].
    { apply app_inj_pre; [congruence|exact C]. }
    f_equal. apply IH; assumption.
Qed.

Lemma history texts : exists lss, Forall2 added texts lss /\ fold_left AddToHeader texts [] = concat lss.
Proof.
  assert (G : forall l0, exists lss, Forall2 added texts lss /\ fold_left AddToHeader texts l0 = l0 ++ concat lss).
  { induction texts as [|t ts IH]; intros l0.
    - exists []. split; [constructor|]. cbn. rewrite app_nil_r. reflexivity.
    - cbn [fold_left]. destruct (add_text l0 t) as (ls & A & ->). destruct (IH (l0 ++ ls)) as (lss & F & E).
      exists (ls :: lss). split; [constructor; assumption|]. rewrite E. cbn [concat]. rewrite app_assoc. reflexivity. }
  apply (G []).
Qed.

Lemma history_width texts : Forall (fun l => length l = 72%nat) (fold_left AddToHeader texts []).
Proof.
  destruct (history texts) as (lss & F & ->). apply Forall_concat.
  induction F as [|t ls ts lss [A1 A2] _ IH]; constructor; [|exact IH].
  destruct (Nat.eq_dec (length t) 72) as [E|E]; [rewrite (A2 E); constructor|]. apply (A1 E).
Qed.

Lemma added_no_nl t ls : added t ls -> ~ In nl t -> Forall (fun l => ~ In nl l) ls.
Proof.
  intros [A1 A2] N. destruct (Nat.eq_dec (length t) 72) as [E|E]; [rewrite (A2 E); constructor|].
  destruct (A1 E) as [F (b & C & Bb & Lb)]. apply Forall_forall. intros l I J.
  assert (K : In nl (concat ls)) by (apply in_concat; eauto). rewrite C in K.
  apply in_app_or in K. destruct K as [K|K]; [auto|].
  unfold blanks in Bb. rewrite Forall_forall in Bb. apply Bb in K. discriminate.
Qed.

Lemma history_no_nl texts : Forall (fun t => ~ In nl t) texts ->
  Forall (fun l => ~ In nl l) (fold_left AddToHeader texts []).
Proof.
  intros N. destruct (history texts) as (lss & F & ->). apply Forall_concat.
  induction F as [|t ls ts lss A _ IH]; [constructor|]. inversion N. subst. constructor; [|auto].
  eapply added_no_nl; eauto.
Qed.

Lemma put_lines_ok ls : forall n, Forall (fun l => length l = 72%nat) ls -> 1 <= n -> n + Z.of_nat (length ls) <= 10000000 ->
  exists out, put_lines n ls = Some out /\ numbered (sec_line "S") n ls out.
Proof.
  induction ls as [|l ls IH]; intros n F N L.
  - exists []. split; [reflexivity|constructor].
  - inversion F as [|? ? Ll Fl]. subst. cbn [length] in L.
    destruct (IH (n + 1)) as (out & E & NB); [assumption|lia|lia|].
    assert (Ec : exists c, FormatDEInt n = Some c) by (rewrite FormatDEInt_in by lia; eauto). destruct Ec as (c & Ec).
    destruct (column8_split n c) as (c' & -> & C); [lia|assumption|].
    cbn [put_lines]. rewrite Ec, E. cbn [option_map set0]. eexists. split; [reflexivity|].
    replace (l ++ ("S"%char :: c') ++ [nl] ++ out) with ((l ++ "S"%char :: c' ++ [nl]) ++ out)
      by (rewrite <- !app_assoc; cbn [app]; rewrite <- app_assoc; reflexivity).
    constructor; [|exact NB]. split; [exact Ll|]. exists c'. split; [reflexivity|exact C].
Qed.

Lemma fix_lines_id ls : Forall (fun l => length l = 72%nat) ls -> fix_lines ls = Some ls.
Proof.
  induction 1 as [|l ls L _ IH]; [reflexivity|]. cbn [fix_lines]. rewrite L. cbn [Nat.ltb Nat.leb]. rewrite IH.
  cbn [option_map]. unfold padr. rewrite L. cbn [Nat.sub repeat]. rewrite app_nil_r. reflexivity.
Qed.

Lemma writeStart_ok ls : Forall (fun l => length l = 72%nat) ls -> ls <> [] -> Z.of_nat (length ls) <= 9999999 ->
  exists out, writeStart ls = POk (ls, out) /\ numbered (sec_line "S") 1 ls out.
Proof.
  intros F NE L. destruct (put_lines_ok ls 1 F) as (out & E & N); [lia|lia|]. exists out. split; [|exact N].
  unfold writeStart. destruct ls as [|l ls]; [congruence|]. rewrite fix_lines_id by exact F. rewrite E. reflexivity.
Qed.

Lemma writeStart_empty : exists out, writeStart [] = POk ([padr 72 start_default], out) /\
  numbered (sec_line "S") 1 [padr 72 start_default] out.
Proof.
  assert (F : Forall (fun l : str => length l = 72%nat) [padr 72 start_default]) by (repeat constructor).
  destruct (put_lines_ok _ 1 F) as (out & E & N); [lia|cbn; lia|]. exists out. split; [|exact N].
  unfold writeStart.
  replace (fix_lines [start_default]) with (Some [padr 72 start_default]) by (vm_compute; reflexivity).
  rewrite E. reflexivity.
Qed.

(** Reading. *)

Lemma record_shrinks f r f' : ReadIGESRecord f = POk (r, f') -> (length (s_rest f') < length (s_rest f))%nat.
Proof.
  unfold ReadIGESRecord, getline. destruct (s_eof f); [discriminate|].
  destruct (split_line (s_rest f)) as [l o] eqn:E. apply split_line_sound in E. destruct E as [_ E].
  destruct o as [r'|]; destruct (parse_record l) as [| |r0] eqn:P; cbn [pbind]; try discriminate;
    intros H; apply pok_inj in H; apply pair_inj in H; destruct H as [_ <-]; rewrite E; cbn [s_rest].
  - rewrite app_length. cbn [length]. lia.
  - destruct l; [vm_compute in P; discriminate|cbn [length]; lia].
Qed.

Lemma start_records_length n f ls rec f' : start_records n f ls rec f' -> (length ls < length (s_rest f))%nat.
Proof.
  induction 1 as [n f rec f' R _|n f d f1 ls rec f' R _ IH]; apply record_shrinks in R; cbn [length]; lia.
Qed.

Lemma start_lines_complete ls : forall n f rec f', start_records n f ls rec f' ->
  forall lines, n = Z.of_nat (length lines) + 1 -> forall fuel r0 f0, ReadIGESRecord f = POk (r0, f0) ->
  (length ls < fuel)%nat -> start_lines fuel r0 lines f0 = POk (lines ++ ls, rec, f').
Proof.
  induction ls as [|d ls IH]; intros n f rec f' H lines E fuel r0 f0 R L.
  - inversion H as [? ? ? ? R' NS|]. subst. rewrite R in R'. apply pok_inj in R'. apply pair_inj in R'. destruct R' as [-> ->].
    destruct fuel; [lia|]. cbn [start_lines]. destruct (Ascii.eqb_spec (r_sec rec) "S"); [congruence|].
    rewrite app_nil_r. reflexivity.
  - inversion H as [|? ? ? f1 ? ? ? R' T]. subst. rewrite R in R'. apply pok_inj in R'. apply pair_inj in R'. destruct R' as [-> ->].
    destruct fuel as [|fuel]; [lia|]. cbn [start_lines r_sec r_idx r_data Ascii.eqb Bool.eqb].
    rewrite Z.eqb_refl. unfold guard.
    assert (X : exists r1 f2, ReadIGESRecord f1 = POk (r1, f2)) by (inversion T; eauto).
    destruct X as (r1 & f2 & X). rewrite X. cbn [pbind].
    rewrite (IH _ _ _ _ T (lines ++ [d])) with (r0 := r1) (f0 := f2); [|rewrite app_length; cbn [length]; lia|exact X|cbn [length] in L; lia].
    rewrite <- app_assoc. reflexivity.
Qed.

Lemma start_lines_sound fuel : forall lines f r0 f0 ls rec f', ReadIGESRecord f = POk (r0, f0) ->
  start_lines fuel r0 lines f0 = POk (ls, rec, f') ->
  exists ls', ls = lines ++ ls' /\ start_records (Z.of_nat (length lines) + 1) f ls' rec f'.
Proof.
  induction fuel as [|fuel IH]; intros lines f r0 f0 ls rec f' R H; cbn [start_lines] in H;
    destruct (Ascii.eqb_spec (r_sec r0) "S") as [ES|NS]; try discriminate.
  - apply pok_inj in H. apply pair_inj in H. destruct H as [H ->]. apply pair_inj in H. destruct H as [<- ->].
    exists []. rewrite app_nil_r. split; [reflexivity|]. constructor; assumption.
  - unfold guard in H. destruct (r_idx r0 =? _) eqn:EI; [|discriminate].
    destruct (ReadIGESRecord f0) as [| |[r1 f1]] eqn:R1; cbn [pbind] in H; try discriminate.
    destruct (IH _ _ _ _ _ _ _ R1 H) as (ls' & -> & S). exists (r_data r0 :: ls').
    rewrite <- app_assoc. split; [reflexivity|]. apply sr_line with (f1 := f0).
    + rewrite R. destruct r0 as [dd ss ii]. cbn [r_sec r_idx r_data] in *. apply Z.eqb_eq in EI. subst. reflexivity.
    + rewrite app_length in S. cbn [length] in S. replace (Z.of_nat (length lines) + 1 + 1) with (Z.of_nat (length lines + 1) + 1) by lia.
      exact S.
  - apply pok_inj in H. apply pair_inj in H. destruct H as [H ->]. apply pair_inj in H. destruct H as [<- ->].
    exists []. rewrite app_nil_r. split; [reflexivity|]. constructor; assumption.
Qed.

(** The Start Section as a whole: [read_start] takes exactly the records S numbered
    from 1 in front of the first record G. *)
Lemma read_start_iff lines f ls rec f' :
  read_start lines f = POk (ls, rec, f') <->
  exists d ls', ls = lines ++ d :: ls' /\ start_records (Z.of_nat (length lines) + 1) f (d :: ls') rec f' /\ r_sec rec = "G"%char.
Proof.
  unfold read_start. split.
  - destruct (ReadIGESRecord f) as [| |[r0 f0]] eqn:R; cbn [pbind]; try discriminate.
    unfold guard at 1. destruct (Ascii.eqb_spec (r_sec r0) "S") as [ES|]; [|discriminate].
    destruct (start_lines _ _ _ _) as [| |[[l r1] f1]] eqn:L; cbn [pbind]; try discriminate.
    unfold guard. destruct (Ascii.eqb_spec (r_sec r1) "G") as [EG|]; [|discriminate].
    intros H. apply pok_inj in H. apply pair_inj in H. destruct H as [H <-]. apply pair_inj in H. destruct H as [<- <-].
    destruct (start_lines_sound _ _ _ _ _ _ _ _ R L) as (ls' & -> & S).
    destruct ls' as [|d ls'].
    + inversion S as [? ? ? ? R' NS|]. subst. rewrite R in R'. apply pok_inj in R'. apply pair_inj in R'. destruct R' as [-> _]. congruence.
    + exists d, ls'. auto.
  - intros (d & ls' & -> & S & EG). pose proof (start_records_length _ _ _ _ _ S) as L.
    inversion S as [|? ? ? f0 ? ? ? R T]. subst. rewrite R. cbn [pbind r_sec]. unfold guard at 1.
    change (Ascii.eqb "S" "S") with true. cbv iota.
    rewrite (start_lines_complete _ _ _ _ _ S lines eq_refl _ _ _ R).
    + cbn [pbind]. unfold guard. rewrite EG. reflexivity.
    + apply start_records_length in T. cbn [length]. lia.
Qed.

Lemma numbered_records ls : forall n out rest rec f', numbered (sec_line "S") n ls out -> 1 <= n ->
  Forall (fun l => ~ In nl l) ls ->
  ReadIGESRecord (mkStream rest false) = POk (rec, f') -> r_sec rec <> "S"%char ->
  start_records n (mkStream (out ++ rest) false) ls rec f'.
Proof.
  induction ls as [|l ls IH]; intros n out rest rec f' N K NL R NS; inversion N; subst.
  - cbn [app]. constructor; assumption.
  - inversion NL; subst. rewrite <- app_assoc. eapply sr_line.
    + apply sec_line_read; try assumption. unfold section_letter. auto.
    + apply IH; try assumption. lia.
Qed.

(** *** C11 *)

Lemma start_round ls rest rec f' : Forall (fun l => length l = 72%nat /\ ~ In nl l) ls -> ls <> [] -> Z.of_nat (length ls) <= 9999999 ->
  ReadIGESRecord (mkStream rest false) = POk (rec, f') -> r_sec rec = "G"%char ->
  exists out, writeStart ls = POk (ls, out) /\ read_start [] (mkStream (out ++ rest) false) = POk (ls, rec, f').
Proof.
  intros F NE L R EG.
  assert (F1 : Forall (fun l => length l = 72%nat) ls) by (eapply Forall_impl; [|exact F]; cbn; tauto).
  assert (F2 : Forall (fun l => ~ In nl l) ls) by (eapply Forall_impl; [|exact F]; cbn; tauto).
  destruct (writeStart_ok ls F1 NE L) as (out & E & N). exists out. split; [exact E|].
  apply read_start_iff. destruct ls as [|d ls]; [congruence|]. exists d, ls. split; [reflexivity|]. split; [|exact EG].
  apply numbered_records; auto; try lia. rewrite EG. discriminate.
Qed.

Lemma history_round texts rest rec f' ls :
  Forall (fun t => ~ In nl t) texts -> ls = fold_left AddToHeader texts [] -> ls <> [] -> Z.of_nat (length ls) <= 9999999 ->
  ReadIGESRecord (mkStream rest false) = POk (rec, f') -> r_sec rec = "G"%char ->
  exists out, writeStart ls = POk (ls, out) /\ numbered (sec_line "S") 1 ls out /\
    read_start [] (mkStream (out ++ rest) false) = POk (ls, rec, f').
Proof.
  intros N -> NE L R EG.
  pose proof (history_width texts) as W. pose proof (history_no_nl texts N) as NL.
  destruct (writeStart_ok _ W NE L) as (out & E & NB).
  destruct (start_round _ rest rec f' (Forall_and W NL) NE L R EG) as (out' & E' & RD).
  rewrite E in E'. apply pok_inj in E'. apply pair_inj in E'. destruct E' as [_ <-]. exists out. auto.
Qed.

(** Text which is already there makes the first record's number wrong. *)
Lemma read_start_dirty l lines f ls rec f' r0 f0 : ReadIGESRecord f = POk (r0, f0) -> r_idx r0 = 1 ->
  read_start (l :: lines) f <> POk (ls, rec, f').
Proof.
  intros R I H. apply read_start_iff in H. destruct H as (d & ls' & _ & S & _).
  inversion S as [|? ? ? f1 ? ? ? R' T]. subst. rewrite R in R'. apply pok_inj in R'. apply pair_inj in R'. destruct R' as [-> _].
  cbn [r_idx length] in I. lia.
Qed.
