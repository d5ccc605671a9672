(** Which date texts [checkDate] accepts. *)

From Coq Require Import Lia ZifyBool ZifyNat ZifyN QArith.
From Verif Require Import Base Num Spec NumFacts IoModel FieldFacts GlobalModel.
Open Scope Z_scope.

Ltac Zify.zify_post_hook ::= Z.div_mod_to_equations.

Lemma date_num_read s v : (length s <= 8)%nat -> padded_number v s -> date_num s = (v, length s) /\ (0 < length s)%nat.
Proof.
  intros L (w & t & -> & W & T). unfold date_num.
  rewrite app_length in *.
  pose proof (signed_bound8 t v T ltac:(lia)) as B.
  assert (E : strtol (w ++ t) = Some (v, [])).
  { rewrite <- (app_nil_r t) at 1. apply strtol_signed; auto; [exact I|unfold long_min, long_max; lia]. }
  rewrite E. rewrite wrap32_id by lia. cbn [length]. split; [f_equal; lia|].
  destruct T as [(N & _)|[(d & -> & _)|(d & -> & _)]]; cbn; try lia. destruct t; [congruence|cbn; lia].
Qed.

Lemma date_num_sound s v : (length s <= 8)%nat -> s <> [] -> date_num s = (v, length s) -> padded_number v s.
Proof.
  intros L N. unfold date_num. destruct (strtol s) as [[x r]|] eqn:E.
  - apply strtol_sound in E. destruct E as (w & t & -> & W & T & _ & _). intros H. apply pair_inj in H.
    destruct H as [H1 H2]. rewrite !app_length in *. destruct r; [|cbn in H2; lia].
    pose proof (signed_bound8 t x T ltac:(lia)). rewrite wrap32_id in H1 by lia. subst x.
    exists w, t. rewrite app_nil_r. auto.
  - intros H. apply pair_inj in H. destruct H as [_ H]. destruct s; [congruence|discriminate].
Qed.

Lemma mdays_days m : mdays (m - 1) = if (1 <=? m) && (m <=? 12) then Some (days_in m) else None.
Proof.
  unfold mdays. destruct (Z.leb_spec 1 m) as [A|A].
  - replace (0 <=? m - 1) with true by lia. destruct (Z.leb_spec m 12) as [B|B]; cbn [andb].
    + assert (C : m = 1 \/ m = 2 \/ m = 3 \/ m = 4 \/ m = 5 \/ m = 6 \/ m = 7 \/ m = 8 \/ m = 9 \/ m = 10 \/ m = 11 \/ m = 12) by lia.
      repeat destruct C as [-> | C]; try reflexivity. subst. reflexivity.
    + apply nth_error_None. cbn. lia.
  - replace (0 <=? m - 1) with false by lia. apply nth_error_None. cbn. lia.
Qed.

(** The six fields of a text of the right length. *)
Lemma date_split (d : str) : length d = 13%nat \/ length d = 15%nat ->
  exists y m dd c h mi s, d = y ++ m ++ dd ++ c :: h ++ mi ++ s /\ (length y = 2%nat \/ length y = 4%nat) /\
    length m = 2%nat /\ length dd = 2%nat /\ length h = 2%nat /\ length mi = 2%nat /\ length s = 2%nat.
Proof.
  intros [L|L].
  - do 13 (destruct d as [|? d]; [discriminate|]). destruct d; [|discriminate].
    exists [a; a0], [a1; a2], [a3; a4], a5, [a6; a7], [a8; a9], [a10; a11]. cbn. auto 10.
  - do 15 (destruct d as [|? d]; [discriminate|]). destruct d; [|discriminate].
    exists [a; a0; a1; a2], [a3; a4], [a5; a6], a7, [a8; a9], [a10; a11], [a12; a13]. cbn. auto 10.
Qed.

(** [checkDate] on split texts. *)
Definition full_year (y : str) : str := if (length y =? 2)%nat then S2 "19" ++ y else y.

Lemma checkDate_split y m dd c h mi s : (length y = 2%nat \/ length y = 4%nat) ->
  length m = 2%nat -> length dd = 2%nat -> length h = 2%nat -> length mi = 2%nat -> length s = 2%nat ->
  checkDate (y ++ m ++ dd ++ c :: h ++ mi ++ s) =
  let rest (dayok : bool) :=
    Ascii.eqb c "." && (snd (date_num (full_year y)) =? 4)%nat && (snd (date_num m) =? 2)%nat &&
    (1 <=? fst (date_num m)) && (fst (date_num m) <=? 12) &&
    (snd (date_num dd) =? 2)%nat && dayok && (snd (date_num h) =? 2)%nat && (0 <=? fst (date_num h)) && (fst (date_num h) <=? 23) &&
    (snd (date_num mi) =? 2)%nat && (0 <=? fst (date_num mi)) && (fst (date_num mi) <=? 59) &&
    (snd (date_num s) =? 2)%nat && (0 <=? fst (date_num s)) && (fst (date_num mi) <=? 60) in
  if fst (date_num dd) <? 1 then Some (rest false) else
  match mdays (fst (date_num m) - 1) with
  | None => None
  | Some k => Some (rest (fst (date_num dd) <=? k))
  end.
Proof.
  intros Hy Hm Hd Hh Hmi Hs.
  do 2 (destruct m as [|? m]; [discriminate|]). destruct m; [|discriminate].
  do 2 (destruct dd as [|? dd]; [discriminate|]). destruct dd; [|discriminate].
  do 2 (destruct h as [|? h]; [discriminate|]). destruct h; [|discriminate].
  do 2 (destruct mi as [|? mi]; [discriminate|]). destruct mi; [|discriminate].
  do 2 (destruct s as [|? s]; [discriminate|]). destruct s; [|discriminate].
  destruct Hy as [Hy|Hy].
  - do 2 (destruct y as [|? y]; [discriminate|]). destruct y; [|discriminate].
    unfold checkDate, full_year. cbn [length app Nat.eqb negb orb substr skipn firstn Nat.add at_ nth].
    unfold substr. cbn [skipn firstn]. cbn [S2 list_ascii_of_string app].
    repeat match goal with |- context [date_num ?x] => destruct (date_num x) end. reflexivity.
  - do 4 (destruct y as [|? y]; [discriminate|]). destruct y; [|discriminate].
    unfold checkDate, full_year. cbn [length app Nat.eqb negb orb substr skipn firstn Nat.add at_ nth].
    unfold substr. cbn [skipn firstn].
    repeat match goal with |- context [date_num ?x] => destruct (date_num x) end. reflexivity.
Qed.

Lemma date_num_len2 s v n : length s = 2%nat -> date_num s = (v, n) -> n = 2%nat -> padded_number v s.
Proof. intros L E ->. apply date_num_sound; [lia|destruct s; [discriminate|congruence]|rewrite L; exact E]. Qed.

Theorem checkDate_iff d : checkDate d = Some true <-> accepted_date d.
Proof.
  split.
  - intros H.
    assert (L : length d = 13%nat \/ length d = 15%nat).
    { revert H. unfold checkDate. destruct (Nat.eqb_spec (length d) 13), (Nat.eqb_spec (length d) 15); cbn [orb negb]; auto; discriminate. }
    destruct (date_split d L) as (y & m & dd & c & h & mi & s & -> & Hy & Hm & Hd & Hh & Hmi & Hs).
    rewrite checkDate_split in H by assumption. cbv zeta in H.
    destruct (date_num (full_year y)) as [vy ny] eqn:Ey. destruct (date_num m) as [vm nm] eqn:Em.
    destruct (date_num dd) as [vd nd] eqn:Ed. destruct (date_num h) as [vh nh] eqn:Eh.
    destruct (date_num mi) as [vi ni] eqn:Ei. destruct (date_num s) as [vs ns] eqn:Es. cbn [fst snd] in H.
    destruct (vd <? 1) eqn:V1.
    { apply some_inj in H. rewrite !andb_false_r in H. cbn in H. discriminate. }
    rewrite mdays_days in H. destruct ((1 <=? vm) && (vm <=? 12)) eqn:V2; [|discriminate].
    apply some_inj in H. repeat match type of H with _ && _ = true => apply andb_true_iff in H; destruct H as [H ?] end.
    exists y, m, dd, h, mi, s, vy, vm, vd, vh, vi, vs.
    assert (c = "."%char) by (apply Ascii.eqb_eq; assumption). subst c.
    split; [reflexivity|]. split; [exact Hy|]. do 5 (split; [assumption|]).
    assert (LY : length (full_year y) = 4%nat).
    { unfold full_year. destruct (Nat.eqb_spec (length y) 2); [rewrite app_length; cbn; lia|lia]. }
    split. { fold (full_year y). apply date_num_sound.
      - lia.
      - intros E. rewrite E in LY. discriminate.
      - rewrite Ey, LY. f_equal. lia. }
    split; [eapply date_num_len2; eauto; lia|]. split; [lia|].
    split; [eapply date_num_len2; eauto; lia|]. split; [lia|].
    split; [eapply date_num_len2; eauto; lia|]. split; [lia|].
    split; [eapply date_num_len2; eauto; lia|]. split; [lia|].
    split; [eapply date_num_len2; eauto; lia|]. lia.
  - intros (y & m & dd & h & mi & s & vy & vm & vd & vh & vi & vs & -> & Hy & Hm & Hd & Hh & Hmi & Hs &
      Py & Pm & Bm & Pd & Bd & Ph & Bh & Pi & Bi & Ps & Bs).
    assert (LY : length (full_year y) = 4%nat).
    { unfold full_year. destruct (Nat.eqb_spec (length y) 2); [rewrite app_length; cbn; lia|lia]. }
    rewrite checkDate_split by assumption. cbv zeta.
    destruct (date_num_read _ _ ltac:(rewrite LY; lia) Py) as [-> _].
    destruct (date_num_read m _ ltac:(lia) Pm) as [-> _]. destruct (date_num_read dd _ ltac:(lia) Pd) as [-> _].
    destruct (date_num_read h _ ltac:(lia) Ph) as [-> _]. destruct (date_num_read mi _ ltac:(lia) Pi) as [-> _].
    destruct (date_num_read s _ ltac:(lia) Ps) as [-> _]. cbn [fst snd].
    rewrite LY, Hm, Hd, Hh, Hmi, Hs. replace (vd <? 1) with false by lia.
    rewrite mdays_days. replace ((1 <=? vm) && (vm <=? 12)) with true by lia. f_equal.
    repeat (apply andb_true_iff; split); first [reflexivity | lia].
Qed.

Theorem checkDate_crash d : checkDate d = None <-> month_outside d.
Proof.
  split.
  - intros H.
    assert (L : length d = 13%nat \/ length d = 15%nat).
    { revert H. unfold checkDate. destruct (Nat.eqb_spec (length d) 13), (Nat.eqb_spec (length d) 15); cbn [orb negb]; auto; discriminate. }
    destruct (date_split d L) as (y & m & dd & c & h & mi & s & -> & Hy & Hm & Hd & Hh & Hmi & Hs).
    rewrite checkDate_split in H by assumption. cbv zeta in H.
    destruct (fst (date_num dd) <? 1) eqn:V1; [discriminate|].
    rewrite mdays_days in H. destruct ((1 <=? fst (date_num m)) && (fst (date_num m) <=? 12)) eqn:V2; [discriminate|].
    exists y, m, dd, (c :: h ++ mi ++ s). split; [reflexivity|]. split; [exact Hy|]. split; [exact Hm|]. split; [exact Hd|].
    split; [cbn [length]; rewrite !app_length; lia|].
    assert (P : forall s v, length s = 2%nat -> leading_number s v -> fst (date_num s) = v).
    { clear. intros s v L (w & t & r & -> & W & T & ST). unfold date_num.
      rewrite !app_length in L. pose proof (signed_bound8 t v T ltac:(lia)).
      rewrite (strtol_signed w t r v); auto; [|unfold long_min, long_max; lia]. rewrite wrap32_id by lia. reflexivity. }
    split.
    + intros v LN. apply (P _ _ Hm) in LN. lia.
    + unfold date_num in V1. destruct (strtol dd) as [[v r]|] eqn:E; [|cbn in V1; lia].
      apply strtol_sound in E. destruct E as (w & t & -> & W & T & ST & _). cbn [fst] in V1.
      rewrite !app_length in Hd. pose proof (signed_bound8 t v T ltac:(lia)). rewrite wrap32_id in V1 by lia.
      exists v. split; [|lia]. exists w, t, r. auto.
  - intros (y & m & dd & x & -> & Hy & Hm & Hd & Hx & NM & (vd & (w & t & r & E & W & T & ST) & V)).
    do 7 (destruct x as [|? x]; [discriminate|]). destruct x; [|discriminate].
    replace [a; a0; a1; a2; a3; a4; a5] with (a :: [a0; a1] ++ [a2; a3] ++ [a4; a5]) by reflexivity.
    rewrite checkDate_split by (assumption || reflexivity). cbv zeta.
    assert (D : fst (date_num dd) = vd).
    { subst dd. rewrite !app_length in Hd. unfold date_num. pose proof (signed_bound8 t vd T ltac:(lia)).
      rewrite (strtol_signed w t r vd); auto; [|unfold long_min, long_max; lia]. rewrite wrap32_id by lia. reflexivity. }
    rewrite D. replace (vd <? 1) with false by lia.
    assert (M : ~ 1 <= fst (date_num m) <= 12).
    { unfold date_num. destruct (strtol m) as [[v r']|] eqn:E2; [|cbn; lia].
      apply strtol_sound in E2. destruct E2 as (w' & t' & E2 & W' & T' & ST' & _). cbn [fst].
      rewrite E2, !app_length in Hm. pose proof (signed_bound8 t' v T' ltac:(lia)). rewrite wrap32_id by lia.
      apply NM. exists w', t', r'. auto. }
    rewrite mdays_days. replace ((1 <=? fst (date_num m)) && (fst (date_num m) <=? 12)) with false by lia. reflexivity.
Qed.

Lemma numeral_padded s v : numeral s v -> padded_number v s.
Proof. intros N. exists [], s. split; [reflexivity|]. split; [constructor|left; exact N]. Qed.

Lemma numeral_nonneg s v : numeral s v -> 0 <= v.
Proof. intros (_ & F & <-). pose proof (dval_bound s F). lia. Qed.

Lemma calendar_accepted d : calendar_date d -> accepted_date d.
Proof.
  intros (y & m & dd & h & mi & s & vy & vm & vd & vh & vi & vs & -> & Hy & Hm & Hd & Hh & Hmi & Hs &
      Py & Pm & Bm & Pd & Bd & Ph & Bh & Pi & Bi & Ps & Bs).
  assert (Py' : exists v, padded_number v (if (length y =? 2)%nat then S2 "19" ++ y else y)).
  { destruct (length y =? 2)%nat; [|exists vy; apply numeral_padded, Py].
    exists (dval (S2 "19" ++ y)). apply numeral_padded. destruct Py as (N & F & _).
    split; [discriminate|]. split; [|reflexivity]. apply Forall_app. split; [repeat constructor; cbn; lia|exact F]. }
  destruct Py' as [v' Py']. exists y, m, dd, h, mi, s, v', vm, vd, vh, vi, vs.
  pose proof (numeral_nonneg _ _ Ph). pose proof (numeral_nonneg _ _ Pi). pose proof (numeral_nonneg _ _ Ps).
  apply numeral_padded in Pm, Pd, Ph, Pi, Ps. repeat (split; [assumption || lia || reflexivity|]). lia.
Qed.
