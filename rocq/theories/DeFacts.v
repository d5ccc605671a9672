(** Reading back a written Directory Entry. *)

From Coq Require Import Lia ZifyBool ZifyNat ZifyN.
From Verif Require Import Base Num Spec NumFacts IoModel FieldFacts LineFacts TokenFacts RecordFacts StreamFacts DeModel DeSpec.
Open Scope Z_scope.
Ltac Zify.zify_post_hook ::= Z.div_mod_to_equations.

(** *** Status numbers *)

Lemma status_parts v dep use hier : 0 <= dep <= 3 -> 0 <= use <= 6 -> 0 <= hier <= 2 ->
  let n := status_number v dep use hier in
  status_ok n = true /\ ((n / 1000000) mod 100 =? 0) = v /\ (n / 10000) mod 100 = dep /\
  (n / 100) mod 100 = use /\ n mod 100 = hier /\ 0 <= n <= 1030602.
Proof.
  intros A B C n.
  assert (E1 : n mod 100 = hier) by (unfold n, status_number; destruct v; lia).
  assert (E2 : (n / 100) mod 100 = use) by (unfold n, status_number; destruct v; lia).
  assert (E3 : (n / 10000) mod 100 = dep) by (unfold n, status_number; destruct v; lia).
  assert (E4 : (n / 1000000) mod 100 = if v then 0 else 1) by (unfold n, status_number; destruct v; lia).
  unfold status_ok. rewrite E1, E2, E3, E4.
  assert (E5 : 0 <= n <= 1030602) by (unfold n, status_number; destruct v; lia).
  clearbody n. repeat split; auto; try lia; destruct v; lia.
Qed.

(** *** Fields *)

Lemma field_nth (fs : list str) : Forall (fun f => length f = 8%nat) fs -> forall i s, nth_error fs i = Some s ->
  exists pre post, concat fs = pre ++ s ++ post /\ length pre = (8 * i)%nat.
Proof.
  induction 1 as [|f fs L F IH]; intros i s H; [destruct i; discriminate|].
  destruct i as [|i]; cbn in H.
  - apply some_inj in H. subst f. exists [], (concat fs). split; [reflexivity|reflexivity].
  - destruct (IH _ _ H) as (pre & post & E & Lp). exists (f ++ pre), post. cbn [concat]. rewrite E, <- app_assoc.
    split; [reflexivity|]. rewrite app_length. lia.
Qed.

Lemma field_read (fs : list str) i s n dflt : Forall (fun f => length f = 8%nat) fs -> nth_error fs i = Some s ->
  (i <= 9)%nat -> column 8 n s -> DEItemToInt (concat fs) (Z.of_nat i) dflt = POk n.
Proof.
  intros F H L C. destruct (field_nth _ F _ _ H) as (pre & post & -> & Lp).
  apply DEItemToInt_column; [lia|lia|exact C].
Qed.

Lemma de_fields_some l s : de_fields l = Some s ->
  exists fs, s = concat fs /\ Forall2 (column 8) l fs /\ Forall (fun n => -9999999 <= n <= 99999999) l.
Proof.
  revert s. induction l as [|n l IH]; intros s H; cbn [de_fields] in H.
  - apply some_inj in H. subst s. exists []. auto.
  - destruct (FormatDEInt n) as [a|] eqn:E; [|discriminate]. destruct (de_fields l) as [b|] eqn:E2; [|discriminate].
    apply some_inj in H. subst s. destruct (IH _ eq_refl) as (fs & -> & F & R).
    apply FormatDEInt_some in E. destruct E as [R0 C].
    exists (a :: fs). split; [reflexivity|]. split; constructor; auto.
Qed.

Lemma columns8 l fs : Forall2 (column 8) l fs -> Forall (fun f => length f = 8%nat) fs.
Proof. induction 1 as [|n f l fs [L _] F IH]; constructor; auto. Qed.

Lemma columns8_len l fs : Forall2 (column 8) l fs -> length fs = length l /\ length (concat fs) = (8 * length l)%nat.
Proof.
  induction 1 as [|n f l fs [L _] F [IH1 IH2]]; [split; reflexivity|]. cbn [length concat].
  rewrite app_length, L. split; lia.
Qed.

Lemma columns8_no_nl l fs : Forall2 (column 8) l fs -> ~ In nl (concat fs).
Proof.
  induction 1 as [|n f l fs C F IH]; cbn [concat]; [auto|]. intros I. apply in_app_or in I.
  destruct I as [I|I]; [apply (column_no_nl _ _ _ C I)|auto].
Qed.

Lemma de_tail_some n s : de_tail n = Some s -> exists c, s = "D"%char :: c /\ column 7 n c /\ -999999 <= n <= 9999999.
Proof.
  unfold de_tail. destruct (FormatDEInt n) as [[|c r]|] eqn:E; try discriminate.
  destruct (Ascii.eqb_spec c sp) as [->|]; [|discriminate]. intros H. apply some_inj in H. subst s.
  apply FormatDEInt_some in E. destruct E as [R (L & b & d & E & B & S)].
  exists r. split; [reflexivity|].
  assert (Hc : column 7 n r).
  { split; [cbn in L; lia|]. destruct b as [|b0 b].
    - exfalso. cbn in E. subst d. apply signed_nonblank in S. cbn in S. destruct (first_nonblank r); discriminate.
    - cbn in E. injection E as E0 E. exists b, d. split; [exact E|]. split; [|exact S]. inversion B; auto. }
  split; [exact Hc|]. destruct Hc as (L7 & b' & d' & -> & _ & S').
  assert (L' : (length d' <= 7)%nat) by (rewrite app_length in L7; lia).
  destruct S' as [(N1 & N2 & N3)|[(x & -> & (N1 & N2 & N3))|(x & -> & (N1 & N2 & N3))]].
  - pose proof (dval_bound _ N2) as D. assert (10 ^ Z.of_nat (length d') <= 10 ^ 7) by (apply Z.pow_le_mono_r; lia).
    change (10 ^ 7) with 10000000 in *. lia.
  - pose proof (dval_bound _ N2) as D. cbn [length] in L'.
    assert (10 ^ Z.of_nat (length x) <= 10 ^ 6) by (apply Z.pow_le_mono_r; lia).
    change (10 ^ 6) with 1000000 in *. lia.
  - pose proof (dval_bound _ N2) as D. cbn [length] in L'.
    assert (10 ^ Z.of_nat (length x) <= 10 ^ 6) by (apply Z.pow_le_mono_r; lia).
    change (10 ^ 6) with 1000000 in *. lia.
Qed.

Lemma de_tail_in n : 0 <= n <= 9999999 -> exists s, de_tail n = Some s.
Proof.
  intros H. destruct (FormatDEInt n) as [s|] eqn:E; [|apply FormatDEInt_none in E; lia].
  destruct (column8_split _ _ H E) as (c & -> & _). unfold de_tail. rewrite E. change (Ascii.eqb sp sp) with true. eauto.
Qed.

Lemma de_fields_in l : Forall (fun n => -9999999 <= n <= 99999999) l -> exists s, de_fields l = Some s.
Proof.
  induction 1 as [|n l R F [s IH]]; cbn [de_fields]; [eauto|]. rewrite (FormatDEInt_in _ R), IH. eauto.
Qed.

(** *** The label *)

Lemma de_label_len l : length (de_label l) = 8%nat.
Proof. unfold de_label. rewrite app_length, repeat_length, firstn_length. lia. Qed.

Lemma DEItemToStr_field pre s post : length pre = 56%nat -> length s = 8%nat ->
  exists t, DEItemToStr (pre ++ s ++ post) 7 = POk t /\ unindented s t.
Proof.
  intros Lp L. unfold DEItemToStr. change ((7 <? 0) || (9 <? 7)) with false. cbv iota.
  rewrite !app_length, L, Lp. replace (Z.of_nat _ <? _) with false by lia.
  replace (Z.to_nat (8 * 7)) with (length pre) by lia. rewrite substr_mid by exact L.
  pose proof (first_nonblank_split s) as FN. destruct (first_nonblank s) as [k|].
  - destruct FN as (F1 & F2 & F3). exists (skipn k s). split; [reflexivity|].
    exists (firstn k s). split; [symmetry; apply firstn_skipn|]. split; [exact F1|].
    intros r E. rewrite E in F3. auto.
  - exists []. split; [reflexivity|]. exists s. rewrite app_nil_r. split; [reflexivity|]. split; [exact FN|].
    intros r; discriminate.
Qed.

Lemma unindented_label l t : unindented (de_label l) t -> unindented (firstn 8 l) t.
Proof.
  unfold de_label. generalize (8 - length l)%nat as n. induction n as [|n IH]; [auto|].
  cbn [repeat app]. intros (b & E & B & N). apply IH. destruct b as [|c b].
  - exfalso. cbn in E. apply (N _ (eq_sym E)).
  - cbn in E. injection E as _ E. inversion B; subst. exists b. auto.
Qed.

(** *** The two lines *)

Lemma writeDE_lines d out : writeDE d = Some out ->
  d_pdata d + d_count d <= 10000000 /\
  exists fs1 fs2 sf l1 l2, out = l1 ++ l2 /\
    Forall2 (column 8) (de_line1 d) fs1 /\ sec_line "D" (d_seq d) (concat fs1) l1 /\
    Forall2 (column 8) (de_line2 d) fs2 /\ column 8 (d_sub d) sf /\
    sec_line "D" (d_seq d + 1) (concat (fs2 ++ [repeat sp 8; repeat sp 8; de_label (d_label d); sf])) l2.
Proof.
  unfold writeDE. destruct (10000000 <? _) eqn:E0; [discriminate|].
  destruct (de_fields (de_line1 d)) as [a|] eqn:E1; [|discriminate].
  destruct (de_tail (d_seq d)) as [ta|] eqn:E2; [|discriminate].
  destruct (de_fields (de_line2 d)) as [b|] eqn:E3; [|discriminate].
  destruct (de_fields [d_sub d]) as [s|] eqn:E4; [|discriminate].
  destruct (de_tail (d_seq d + 1)) as [tb|] eqn:E5; [|discriminate].
  intros H. apply some_inj in H. split; [lia|].
  apply de_fields_some in E1. destruct E1 as (fs1 & -> & F1 & _).
  apply de_fields_some in E3. destruct E3 as (fs2 & -> & F2 & _).
  apply de_fields_some in E4. destruct E4 as (fs3 & -> & F3 & _).
  apply de_tail_some in E2. destruct E2 as (c1 & -> & C1 & _).
  apply de_tail_some in E5. destruct E5 as (c2 & -> & C2 & _).
  inversion F3 as [|? sf ? ? C3 F4 Ea Eb]; subst. inversion F4; subst.
  exists fs1, fs2, sf, (concat fs1 ++ "D"%char :: c1 ++ [nl]),
    (concat (fs2 ++ [repeat sp 8; repeat sp 8; de_label (d_label d); sf]) ++ "D"%char :: c2 ++ [nl]).
  pose proof (columns8_len _ _ F1) as [_ L1]. pose proof (columns8_len _ _ F2) as [_ L2].
  split.
  { rewrite concat_app. cbn [concat app]. rewrite !app_nil_r, <- !app_assoc. cbn [app].
    rewrite <- !app_assoc. cbn [app]. reflexivity. }
  split; [exact F1|]. split.
  { split; [rewrite L1; reflexivity|]. eauto. }
  split; [exact F2|]. split; [exact C3|]. split; [|eauto].
  rewrite concat_app, app_length, L2. cbn [concat]. rewrite !app_length, de_label_len, !repeat_length.
  destruct C3 as [-> _]. reflexivity.
Qed.

(** Reading several fields: the values, provided they pass the checks. *)
Lemma de_read_fields fs specs : Forall (fun f => length f = 8%nat) fs -> forall ns,
  Forall2 (fun (p : Z * option Z * (Z -> bool)) v =>
    exists s, 0 <= fst (fst p) <= 9 /\ nth_error fs (Z.to_nat (fst (fst p))) = Some s /\ column 8 v s) specs ns ->
  de_read (concat fs) specs = if forallb (fun q => snd (fst q) (snd q)) (combine specs ns) then POk ns else PFail.
Proof.
  intros F ns H. induction H as [|[[n dflt] ok] v specs ns (s & R & E & C) H IH]; [reflexivity|].
  cbn [de_read fst snd combine forallb] in *.
  replace n with (Z.of_nat (Z.to_nat n)) by lia. rewrite (field_read fs (Z.to_nat n) s v dflt F E) by (auto; lia).
  cbn [pbind]. destruct (ok v); cbn [guard andb]; [|reflexivity]. rewrite IH.
  destruct (forallb _ _); reflexivity.
Qed.

Lemma F2_nth {A B} (R : A -> B -> Prop) l m : Forall2 R l m -> forall i a, nth_error l i = Some a ->
  exists b, nth_error m i = Some b /\ R a b.
Proof.
  induction 1 as [|a b l m H F IH]; intros i x E; [destruct i; discriminate|].
  destruct i; cbn in E |- *; [apply some_inj in E; subst; eauto|auto].
Qed.

Ltac pick F := match goal with |- exists s, _ /\ nth_error _ ?n = _ /\ column 8 ?v s =>
   let x := fresh in let H := fresh in
   destruct (F2_nth _ _ _ F n v eq_refl) as (x & H & ?); exists x; split; [cbn; lia|]; split; [|assumption] end.

Lemma line1_read etype d fs : Forall2 (column 8) (de_line1 d) fs ->
  de_read (concat fs) (de_spec1 etype) =
    if (d_type d =? etype) && (0 <=? d_pdata d) &&
       (neg_or (d_pfont d) ((0 <=? d_font d) && (d_font d <? 6)) (d_font d) <? 6) &&
       (0 <=? neg_or (d_plevel d) (0 <=? d_level d) (d_level d)) &&
       (0 <=? ptr_or0 (d_view d)) && (0 <=? ptr_or0 (d_trans d)) && (0 <=? ptr_or0 (d_lassoc d))
    then POk (firstn 8 (de_line1 d)) else PFail.
Proof.
  intros F. pose proof (columns8 _ _ F) as L8. unfold de_line1 in F.
  rewrite (de_read_fields fs (de_spec1 etype) L8 (firstn 8 (de_line1 d))).
  - cbn [de_spec1 de_line1 firstn combine forallb fst snd]. rewrite !andb_true_r, !andb_true_l, !andb_assoc. reflexivity.
  - cbn [de_spec1 de_line1 firstn].
    repeat (apply Forall2_cons; [cbn [fst snd]; change (Z.to_nat 0) with 0%nat; pick F; assumption|]). constructor.
Qed.

Lemma lenient_field fs i s n : Forall (fun f => length f = 8%nat) fs -> nth_error fs i = Some s -> (i <= 9)%nat ->
  column 8 n s -> de_lenient (concat fs) (Z.of_nat i) = n.
Proof. intros. unfold de_lenient. rewrite (field_read fs i s n None) by auto. reflexivity. Qed.

Definition fields2 (d : dir) (fs2 : list str) (sf : str) : list str :=
  fs2 ++ [repeat sp 8; repeat sp 8; de_label (d_label d); sf].

Lemma fields2_8 d fs2 sf : Forall2 (column 8) (de_line2 d) fs2 -> column 8 (d_sub d) sf ->
  Forall (fun f => length f = 8%nat) (fields2 d fs2 sf).
Proof.
  intros F C. apply Forall_app. split; [apply (columns8 _ _ F)|].
  repeat constructor; [apply de_label_len|apply C].
Qed.

Lemma line2_read etype d fs2 sf : Forall2 (column 8) (de_line2 d) fs2 -> column 8 (d_sub d) sf ->
  let col := neg_or (d_pcolor d) ((0 <=? d_color d) && (d_color d <? 9)) (d_color d) in
  de_read (concat (fields2 d fs2 sf)) (de_spec2 etype) =
    (if (d_type d =? etype) && (col <? 9) && ((0 <=? d_count d) && ((1 <=? d_count d) || (etype =? 0))) &&
        (0 <=? d_form d) && (0 <=? d_sub d)
     then POk [d_type d; col; d_count d; d_form d; d_sub d] else PFail) /\
  de_lenient (concat (fields2 d fs2 sf)) 1 = d_weight d /\
  exists t, DEItemToStr (concat (fields2 d fs2 sf)) 7 = POk t /\ unindented (firstn 8 (d_label d)) t.
Proof.
  intros F C. pose proof (fields2_8 d fs2 sf F C) as L8.
  assert (Lf : length fs2 = 5%nat) by (apply (columns8_len _ _ F)).
  assert (N : forall i, (i < 5)%nat -> nth_error (fields2 d fs2 sf) i = nth_error fs2 i).
  { intros i Hi. unfold fields2. apply nth_error_app1. lia. }
  assert (N8 : nth_error (fields2 d fs2 sf) 8 = Some sf).
  { unfold fields2. rewrite nth_error_app2 by lia. rewrite Lf. reflexivity. }
  assert (N7 : nth_error (fields2 d fs2 sf) 7 = Some (de_label (d_label d))).
  { unfold fields2. rewrite nth_error_app2 by lia. rewrite Lf. reflexivity. }
  split; [|split].
  - set (col := neg_or _ _ _).
    rewrite (de_read_fields _ (de_spec2 etype) L8 [d_type d; col; d_count d; d_form d; d_sub d]).
    + cbn [de_spec2 combine forallb fst snd]. rewrite !andb_true_r, !andb_assoc. reflexivity.
    + cbn [de_spec2]. unfold de_line2 in F. fold col in F.
      repeat apply Forall2_cons; [| | | | |constructor]; cbn [fst snd].
      * change (Z.to_nat 0) with 0%nat. pick F. rewrite N by lia. assumption.
      * change (Z.to_nat 2) with 2%nat. pick F. rewrite N by lia. assumption.
      * change (Z.to_nat 3) with 3%nat. pick F. rewrite N by lia. assumption.
      * change (Z.to_nat 4) with 4%nat. pick F. rewrite N by lia. assumption.
      * exists sf. split; [lia|]. split; [exact N8|exact C].
  - destruct (F2_nth _ _ _ F 1%nat (d_weight d) eq_refl) as (x & H & Cx).
    change 1 with (Z.of_nat 1). apply (lenient_field _ 1 x); auto; [rewrite N by lia; exact H|lia].
  - destruct (field_nth _ L8 _ _ N7) as (pre & post & -> & Lp).
    destruct (DEItemToStr_field pre (de_label (d_label d)) post) as (t & E & U); [lia|apply de_label_len|].
    exists t. split; [exact E|]. apply unindented_label, U.
Qed.

Definition accept (etype : Z) (d : dir) : bool :=
  ((1 <=? d_seq d) && (d_seq d <? 9999997) && Z.odd (d_seq d)) &&
  ((d_type d =? etype) && (0 <=? d_pdata d) &&
       (neg_or (d_pfont d) ((0 <=? d_font d) && (d_font d <? 6)) (d_font d) <? 6) &&
       (0 <=? neg_or (d_plevel d) (0 <=? d_level d) (d_level d)) &&
       (0 <=? ptr_or0 (d_view d)) && (0 <=? ptr_or0 (d_trans d)) && (0 <=? ptr_or0 (d_lassoc d))) &&
  status_ok (status_number (d_visible d) (d_dep d) (d_use d) (d_hier d)) &&
  ((d_type d =? etype) && (neg_or (d_pcolor d) ((0 <=? d_color d) && (d_color d <? 9)) (d_color d) <? 9) &&
   ((0 <=? d_count d) && ((1 <=? d_count d) || (etype =? 0))) && (0 <=? d_form d) && (0 <=? d_sub d)) &&
  (0 <=? d_weight d).

Definition dir_back (maxgrad : Z) (d : dir) (lab : str) : dirin :=
  let s := status_number (d_visible d) (d_dep d) (d_use d) (d_hier d) in
  let st := neg_or (d_struct d) false 0 in
  mkIn (d_seq d) (d_pdata d) (if 0 <? st then 0 else st)
    (neg_or (d_pfont d) ((0 <=? d_font d) && (d_font d <? 6)) (d_font d))
    (neg_or (d_plevel d) (0 <=? d_level d) (d_level d))
    (ptr_or0 (d_view d)) (ptr_or0 (d_trans d)) (ptr_or0 (d_lassoc d))
    ((s / 1000000) mod 100 =? 0) ((s / 10000) mod 100) ((s / 100) mod 100) (s mod 100)
    (if maxgrad <? d_weight d then maxgrad else d_weight d)
    (neg_or (d_pcolor d) ((0 <=? d_color d) && (d_color d <? 9)) (d_color d))
    (d_count d) (d_form d) lab (d_sub d).

(** What reading makes of a written Directory Entry, in all cases. *)
Lemma written_read etype maxgrad d out rest : writeDE d = Some out -> 1 <= d_seq d -> ~ In nl (firstn 8 (d_label d)) ->
  exists lab, unindented (firstn 8 (d_label d)) lab /\
  read_dir_base etype maxgrad (mkStream (out ++ rest) false) =
    if accept etype d then POk (dir_back maxgrad d lab, mkStream rest false) else PFail.
Proof.
  intros W S1 NL. destruct (writeDE_lines _ _ W) as (_ & fs1 & fs2 & sf & l1 & l2 & -> & F1 & SL1 & F2 & C & SL2).
  fold (fields2 d fs2 sf) in SL2.
  destruct (line2_read etype d fs2 sf F2 C) as (R2 & W2 & lab & RL & U).
  exists lab. split; [exact U|].
  pose proof (line1_read etype d fs1 F1) as R1.
  assert (St : de_lenient (concat fs1) 8 = status_number (d_visible d) (d_dep d) (d_use d) (d_hier d)).
  { destruct (F2_nth _ _ _ F1 8%nat _ eq_refl) as (x & H & Cx).
    change 8 with (Z.of_nat 8). apply (lenient_field _ 8 x); auto; try lia; apply (columns8 _ _ F1). }
  assert (N1 : ~ In nl (concat fs1)) by (apply (columns8_no_nl _ _ F1)).
  assert (N2 : ~ In nl (concat (fields2 d fs2 sf))).
  { unfold fields2. rewrite concat_app. intros I. apply in_app_or in I. destruct I as [I|I];
      [apply (columns8_no_nl _ _ F2 I)|]. cbn [concat] in I. rewrite app_nil_r in I.
    apply in_app_or in I. destruct I as [I|I]; [|apply in_app_or in I; destruct I as [I|I];
      [|apply in_app_or in I; destruct I as [I|I]]].
    - apply repeat_spec in I. discriminate.
    - apply repeat_spec in I. discriminate.
    - unfold de_label in I. apply in_app_or in I. destruct I as [I|I]; [apply repeat_spec in I; discriminate|auto].
    - apply (column_no_nl _ _ _ C I). }
  assert (SD : section_letter "D") by (unfold section_letter; tauto).
  unfold read_dir_base. rewrite <- app_assoc.
  rewrite (sec_line_read _ _ _ _ _ SL1 SD S1 N1). cbn [pbind].
  unfold readDE_base. cbn [r_sec r_idx r_data]. change (Ascii.eqb "D" "D") with true. cbn [guard].
  rewrite R1, St. unfold accept, readDE2.
  rewrite (sec_line_read _ _ _ _ _ SL2 SD) by (auto; lia). cbn [pbind r_sec r_idx r_data].
  change (Ascii.eqb "D" "D") with true. rewrite Z.eqb_refl. cbn [andb guard].
  rewrite R2, W2, RL.
  destruct (_ && Z.odd (d_seq d)); cbn [guard andb]; [|reflexivity].
  destruct (_ && (0 <=? ptr_or0 (d_lassoc d))); cbn [guard andb pbind]; [|reflexivity].
  destruct (status_ok _); cbn [guard andb]; [|reflexivity].
  destruct (_ && (0 <=? d_sub d)); cbn [guard andb pbind]; [|reflexivity].
  destruct (0 <=? d_weight d); cbn [guard andb pbind]; reflexivity.
Qed.

Lemma accept_iff d : dir_sane d -> 1 <= d_seq d -> (accept (d_type d) d = true <-> dir_readable d).
Proof.
  intros [P1 P2 P3 P4 P5 P6 P7 Q1 Q2 Q3 _] S1. unfold accept.
  destruct (status_parts (d_visible d) (d_dep d) (d_use d) (d_hier d) Q1 Q2 Q3) as (-> & _).
  rewrite Z.eqb_refl, !andb_true_l, andb_true_r, !andb_true_iff, !orb_true_iff, Z.odd_spec, !Z.leb_le, !Z.ltb_lt, Z.eqb_eq.
  unfold neg_or, ptr_or0, seq_ptr in *. split.
  - intros H. decompose [and] H. constructor; try lia; auto.
    destruct (d_plevel d); [lia|reflexivity].
  - intros [R1 R2 R3 R4 R5 R6 R7 R8]. rewrite R4 in *.
    destruct (d_pfont d), (d_view d), (d_trans d), (d_lassoc d), (d_pcolor d); repeat split; try lia; auto;
      repeat match goal with |- context[if ?b then _ else _] => destruct b eqn:? end; lia.
Qed.

Lemma back_kept maxgrad d lab : dir_sane d -> dir_readable d -> unindented (firstn 8 (d_label d)) lab ->
  dir_kept maxgrad d (dir_back maxgrad d lab).
Proof.
  intros [P1 P2 P3 P4 P5 P6 P7 Q1 Q2 Q3 _] [R1 R2 R3 R4 R5 R6 R7 R8] U. unfold dir_back.
  destruct (status_parts (d_visible d) (d_dep d) (d_use d) (d_hier d) Q1 Q2 Q3) as (_ & E1 & E2 & E3 & E4 & _).
  rewrite E1, E2, E3, E4, R4. unfold neg_or, ptr_or0, seq_ptr in *.
  constructor; cbn [i_seq i_pdata i_struct i_font i_level i_view i_trans i_lassoc i_visible i_dep i_use i_hier
                    i_weight i_color i_count i_form i_label i_sub]; auto.
  - split; [|split].
    + intros s E. rewrite E in *. replace (0 <? - s) with false by lia. reflexivity.
    + intros E. rewrite E. reflexivity.
    + intros E. lia.
  - split; [|split].
    + intros s E. rewrite E. reflexivity.
    + intros E V. rewrite E. replace (_ && _) with true by lia. reflexivity.
    + intros E V. rewrite E. replace (_ && _) with false by lia. reflexivity.
  - split; intros V; [replace (0 <=? d_level d) with true by lia|replace (0 <=? d_level d) with false by lia]; reflexivity.
  - split; [intros s E|intros E]; rewrite E; reflexivity.
  - split; [intros s E|intros E]; rewrite E; reflexivity.
  - split; [intros s E|intros E]; rewrite E; reflexivity.
  - destruct (maxgrad <? d_weight d) eqn:E; lia.
  - split; [|split].
    + intros s E. rewrite E. reflexivity.
    + intros E V. rewrite E. replace (_ && _) with true by lia. reflexivity.
    + intros E V. rewrite E. replace (_ && _) with false by lia. reflexivity.
Qed.
