(** How many lines a parameter record takes at most. *)

From Coq Require Import Lia ZifyBool ZifyNat ZifyN QArith Qabs.
From Verif Require Import Base Num Spec NumFacts IoModel LineFacts TokenFacts BuildFacts PdModel PdFacts EntModel EntModel2 EntModel3 EntSpec EntFacts.
Open Scope Z_scope.

Ltac Zify.zify_post_hook ::= Z.div_mod_to_equations.

Lemma flush_up de st : exists st', l_idx st <= l_idx st' <= l_idx st + 1 /\ (pd_flush de st = (true, st') \/ pd_flush de st = (false, st')) /\
  (pd_flush de st = (true, st') -> l_cur st' = []).
Proof.
  unfold pd_flush. destruct (FormatDEInt de); [destruct (FormatDEInt (l_idx st))|]; eexists; (split; [|split; [eauto|]]); cbn; try lia;
    intros H; inversion H; reflexivity.
Qed.

Lemma flush_up' de st b st' : pd_flush de st = (b, st') -> l_idx st <= l_idx st' <= l_idx st + 1 /\ (b = true -> l_cur st' = []).
Proof.
  intros E. destruct (flush_up de st) as (s & B & [H|H] & C); rewrite E in H, C; apply pair_inj in H; destruct H as [-> ->]; split; auto.
  discriminate.
Qed.

Lemma item_up t st de rd b st' : AddPDItem t st de rd = Ret b st' -> l_idx st' <= l_idx st + 2.
Proof.
  unfold AddPDItem. destruct (_ <? _)%nat. { intros H. apply ret_inj in H. destruct H as [_ <-]. lia. }
  destruct (_ <? _)%nat. { intros H. apply ret_inj in H. destruct H as [_ <-]. lia. }
  set (X := if (64 <? _)%nat then _ else _).
  assert (P : l_idx (snd X) <= l_idx st + 1).
  { subst X. destruct (_ <? _)%nat; [|cbn; lia]. destruct (pd_flush de st) as [b1 s1] eqn:E. apply flush_up' in E. cbn. lia. }
  destruct X as [ok st1]. cbn [snd] in P. destruct ok; cbn [negb]; [|intros H; apply ret_inj in H; destruct H as [_ <-]; lia].
  destruct (_ <? _); [intros H; apply ret_inj in H; destruct H as [_ <-]; lia|]. destruct (last_char t); [|discriminate].
  destruct (Ascii.eqb _ _).
  - destruct (pd_flush de _) as [ok st3] eqn:F. intros H. apply ret_inj in H. destruct H as [_ <-]. apply flush_up' in F. cbn in F. lia.
  - intros H. apply ret_inj in H. destruct H as [_ <-]. cbn. lia.
Qed.

Lemma fill_up de fuel : forall hc st b st', (length (l_cur st) < 64)%nat -> pd_fill fuel de hc st = (b, st') ->
  l_idx st' <= l_idx st + (Z.of_nat (length (l_cur st)) + Z.of_nat (length hc)) / 64.
Proof.
  induction fuel as [|f IH]; intros hc st b st' L H; cbn [pd_fill] in H.
  - apply pair_inj in H. destruct H as [_ <-]. lia.
  - destruct hc as [|c hc]; [apply pair_inj in H; destruct H as [_ <-]; lia|].
    remember (c :: hc) as h. cbv zeta in H. set (n := (64 - length (l_cur st))%nat) in *.
    set (st1 := mkLst (l_cur st ++ firstn n h) (l_out st) (l_idx st)) in *.
    assert (LC : length (l_cur st1) = (length (l_cur st) + Nat.min n (length h))%nat)
      by (unfold st1; cbn [l_cur]; rewrite app_length, firstn_length; reflexivity).
    pose proof (skipn_length n h) as LS.
    destruct (Nat.eqb_spec (length (l_cur st1)) 64) as [E|E].
    + destruct (pd_flush de st1) as [ok st2] eqn:F. apply flush_up' in F. destruct F as [F1 F2]. change (l_idx st1) with (l_idx st) in F1.
      destruct ok.
      * apply IH in H; [|rewrite F2; [cbn; lia|reflexivity]]. rewrite F2 in H by reflexivity. cbn [length] in H. unfold n in *. lia.
      * apply pair_inj in H. destruct H as [_ <-]. unfold n in *. lia.
    + apply IH in H; [|unfold n in *; lia]. change (l_idx st1) with (l_idx st) in H. unfold n in *. lia.
Qed.

Lemma text_up s st de pd rd d b st' : Z.of_nat (length s) <= int_max -> AddPDHStr s st de pd rd d = Ret b st' -> l_idx st' <= l_idx st + str_cost s.
Proof.
  intros LM. unfold AddPDHStr, str_cost. destruct s as [|c s]; [intros H; apply item_up in H; lia|].
  remember (c :: s) as s0. clear Heqs0 c s.
  destruct (negb _ && negb _); [intros H; apply ret_inj in H; destruct H as [_ <-]; lia|]. cbv zeta.
  destruct ((_ <? _)%nat && _) eqn:NC; [discriminate|].
  pose proof (GetHConst_len s0 LM) as G1. pose proof (GetHConst_pos s0) as G2.
  assert (P : forall ok st1, (if (64 <? length (l_cur st) + length (GetHConst s0))%nat then pd_flush de st else (true, st)) = (ok, st1) ->
    l_idx st1 <= l_idx st + 1 /\ (ok = true -> (length (l_cur st1) < 64)%nat /\
      l_idx st1 + (Z.of_nat (length (l_cur st1)) + Z.of_nat (length (GetHConst s0)) + Z.of_nat (length s0) + 1) / 64 <= l_idx st + Z.of_nat (length s0) / 64 + 3)).
  { intros ok st1. destruct (Nat.ltb_spec 64 (length (l_cur st) + length (GetHConst s0))) as [H0|H0]; intros H1.
    - apply flush_up' in H1. destruct H1 as [H1 H2]. split; [lia|]. intros ->. rewrite H2 by reflexivity. cbn [length]. lia.
    - apply pair_inj in H1. destruct H1 as [<- <-]. split; [lia|]. intros _. lia. }
  destruct (if (64 <? _)%nat then _ else _) as [ok st1]. specialize (P _ _ eq_refl). destruct P as [P1 P2].
  destruct ok; cbn [negb]; [|intros H; apply ret_inj in H; destruct H as [_ <-]; lia]. specialize (P2 eq_refl). destruct P2 as [P2 P3].
  destruct (pd_fill _ de _ st1) as [ok st2] eqn:F. apply fill_up in F; [|exact P2]. rewrite !app_length in F. cbn [length] in F.
  replace (Z.of_nat (length (l_cur st1)) + Z.of_nat (length (GetHConst s0) + (length s0 + 1))) with
    (Z.of_nat (length (l_cur st1)) + Z.of_nat (length (GetHConst s0)) + Z.of_nat (length s0) + 1) in F by lia.
  destruct ok; cbn [negb]; [|intros H; apply ret_inj in H; destruct H as [_ <-]; lia].
  destruct (negb _ && _).
  - destruct (pd_flush de _) as [ok st3] eqn:F3. intros H. apply ret_inj in H. destruct H as [_ <-]. apply flush_up' in F3. lia.
  - intros H. apply ret_inj in H. destruct H as [_ <-]. lia.
Qed.

(** *** Whole records *)

Definition act_cost (a : act) : Z := match a with WText s _ => str_cost s | _ => 2 end.
Definition act_len (a : act) : Prop := match a with WText s _ => Z.of_nat (length s) <= int_max | _ => True end.
Fixpoint acts_cost (l : list act) : Z := match l with [] => 0 | a :: r => act_cost a + acts_cost r end.

Lemma acts_cost_app a b : acts_cost (a ++ b) = acts_cost a + acts_cost b.
Proof. induction a as [|x a IH]; cbn [app acts_cost]; lia. Qed.

Lemma acts_cost_pos l : 0 <= acts_cost l.
Proof. induction l as [|[| |] l IH]; cbn [acts_cost act_cost]; unfold str_cost; lia. Qed.

Lemma emit_up de pd rd l : Forall act_len l -> forall st b st', emit de pd rd l st = Ret b st' -> l_idx st' <= l_idx st + acts_cost l.
Proof.
  induction 1 as [|a l Ha _ IH]; intros st b st' H; cbn [emit acts_cost] in *.
  - apply ret_inj in H. destruct H as [_ <-]. lia.
  - pose proof (acts_cost_pos l). destruct a as [t|q d u|s d]; cbn [act_cost act_len] in *.
    + destruct (AddPDItem t st de rd) as [|b1 s1] eqn:E; [discriminate|]. apply item_up in E. apply IH in H. lia.
    + destruct (FormatPDREal q d u) as [t|]; [|apply ret_inj in H; destruct H as [_ <-]; lia].
      destruct (AddPDItem t st de rd) as [|b1 s1] eqn:E; [discriminate|]. apply item_up in E. apply IH in H. lia.
    + destruct (AddPDHStr s st de pd rd d) as [|b1 s1] eqn:E; [discriminate|]. apply text_up in E; [|exact Ha].
      destruct b1; [apply IH in H; lia|apply ret_inj in H; destruct H as [_ <-]; lia].
Qed.

Lemma ints_cost l pd fd : acts_cost (ints_acts l pd fd) = 2 * Z.of_nat (length l) /\ Forall act_len (ints_acts l pd fd).
Proof.
  induction l as [|n [|m l] IH]; [split; [reflexivity|constructor]|split; [reflexivity|repeat constructor]|].
  change (ints_acts (n :: m :: l) pd fd) with (WInt n pd :: ints_acts (m :: l) pd fd). destruct IH as [I1 I2].
  split; [cbn [acts_cost]; rewrite I1; cbn [act_cost WInt length]; lia|constructor; [exact I|exact I2]].
Qed.
Lemma reals_cost u l pd fd : acts_cost (reals_acts u l pd fd) = 2 * Z.of_nat (length l) /\ Forall act_len (reals_acts u l pd fd).
Proof.
  induction l as [|n [|m l] IH]; [split; [reflexivity|constructor]|split; [reflexivity|repeat constructor]|].
  change (reals_acts u (n :: m :: l) pd fd) with (WReal n pd u :: reals_acts u (m :: l) pd fd). destruct IH as [I1 I2].
  split; [cbn [acts_cost]; rewrite I1; cbn [act_cost length]; lia|constructor; [exact I|exact I2]].
Qed.

Lemma extras_up extras pd rd : acts_cost (extras_acts extras pd rd) <= 2 * Z.of_nat (length extras) + 6 /\ Forall act_len (extras_acts extras pd rd).
Proof.
  assert (X : (length (filter is_secA extras) + length (filter is_secB extras) <= length extras)%nat).
  { induction extras as [|x l IH]; cbn [filter]; [cbn; lia|].
    assert (is_secA x = true -> is_secB x = false) by (unfold is_secA, is_secB; lia).
    destruct (is_secA x), (is_secB x); cbn [length]; try lia. }
  unfold extras_acts.
  pose proof (map_length snd (filter is_secA extras)) as LA. pose proof (map_length snd (filter is_secB extras)) as LB.
  revert X LA LB. generalize (length (filter is_secA extras)) (length (filter is_secB extras)). intros na nb X.
  generalize (map snd (filter is_secA extras)) (map snd (filter is_secB extras)). intros a b LA LB.
  destruct (ints_cost a pd pd) as [A1 A2]. destruct (ints_cost b pd rd) as [B1 B2]. destruct (ints_cost a pd rd) as [C1 C2].
  destruct a as [|x a]; [|destruct b as [|y b]]; rewrite <- LA, <- LB in X.
  - split; [cbn [acts_cost act_cost WInt]; rewrite B1; cbn [length] in *; lia|]. constructor; [exact I|]. constructor; [exact I|exact B2].
  - split; [cbn [acts_cost act_cost WInt] in *; rewrite C1; cbn [length] in *; lia|]. constructor; [exact I|exact C2].
  - split; [cbn [acts_cost act_cost WInt]; rewrite acts_cost_app, A1; cbn [acts_cost act_cost WInt]; rewrite B1; cbn [length] in *; lia|].
    constructor; [exact I|]. apply Forall_app. split; [exact A2|]. constructor; [exact I|exact B2].
Qed.

Lemma frame_up init acts extras k seq pd rd r : Forall act_len acts -> format_frame init acts extras [] k seq pd rd = POk r ->
  p_next r <= k + acts_cost acts + 2 * Z.of_nat (length extras) + 6.
Proof.
  intros F. unfold format_frame. destruct (_ || _); [discriminate|].
  destruct (emit seq pd rd acts _) as [|[] st] eqn:E; try discriminate. apply emit_up in E; [|exact F]. cbn [l_idx] in E.
  set (X := match extras with [] => _ | _ => _ end).
  assert (P : forall st1, X = Ret true st1 -> l_idx st1 <= l_idx st + 2 * Z.of_nat (length extras) + 6).
  { subst X. intros st1. destruct extras as [|e ex]; [intros H; apply ret_inj in H; destruct H as [_ <-]; cbn; lia|].
    unfold formatExtraParams. destruct (forallb _ _); [|discriminate]. destruct (extras_up (e :: ex) pd rd) as [U V].
    intros H. apply emit_up in H; [|exact V]. lia. }
  destruct X as [|[] st1]; try discriminate. specialize (P _ eq_refl).
  unfold formatComments. destruct (negb _); [discriminate|]. cbn [comments_lines]. intros H. apply pok_inj in H. subst r. cbn [p_next]. lia.
Qed.
