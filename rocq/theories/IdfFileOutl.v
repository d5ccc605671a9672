(** Facts about the outlines of IDF boards (IdfFile.v, IdfFileSpec.v): which are read
    again after they are written. *)

From Verif Require Import Base Num IoModel IdfText IdfOutl IdfFile Spec IdfSpec IdfOutlSpec IdfFileSpec
  IdfFacts IdfNum IdfRound IdfSect IdfLine IdfOutlText IdfFileHead IdfFileSect IdfFileOrder.
From Verif Require IdfPlace.
From Coq Require Import Lia Lqa Qabs.
Open Scope Z_scope.

(** ** Fields *)

Lemma bare_fields t : written t (Bare t) -> field_ok (Bare t) /\ ~ In nl (field_text (Bare t)).
Proof. intros (_ & O & N). auto. Qed.

Lemma num_decimal u q : exists k m, decimal k (out_num u q) m.
Proof. destruct u; cbn [out_num]; eexists; eexists; apply fixed_decimal; lia. Qed.
Lemma num_field u q : field_ok (Bare (out_num u q)) /\ ~ In nl (field_text (Bare (out_num u q))).
Proof. destruct (num_decimal u q) as (k & m & D). apply bare_fields, (decimal_written _ _ _ D). Qed.
Lemma layer_field l : field_ok (Bare (layer_text l)) /\ ~ In nl (field_text (Bare (layer_text l))).
Proof. destruct l; apply bare_ok; try discriminate; reflexivity. Qed.
Lemma owner_field o : field_ok (Bare (owner_text o)) /\ ~ In nl (field_text (Bare (owner_text o))).
Proof. destruct o; apply bare_ok; try discriminate; reflexivity. Qed.
Lemma key_field k : field_ok (Bare (S2 (key k))) /\ ~ In nl (field_text (Bare (S2 (key k)))).
Proof. destruct k; apply bare_ok; try discriminate; reflexivity. Qed.
Lemma end_field k : field_ok (Bare (S2 (end_key k))) /\ ~ In nl (field_text (Bare (S2 (end_key k)))).
Proof. destruct k; apply bare_ok; try discriminate; reflexivity. Qed.

Lemma layer_parsed l : parse_layer (layer_text l) = Some l.
Proof. destruct l; reflexivity. Qed.

(** ** Lengths *)

Lemma num_above u q x : u <> Tnm -> sized q -> (0 <= q)%Q -> stream_num (out_num u q) = Some x -> (0 <= x)%Q.
Proof.
  intros U S Q E.
  destruct (unit_reads u V3 5 q U ltac:(lia) S) as (m & k & y & r & _ & Y & _ & _ & V).
  assert (T : unit_num u 5 q = out_num u q) by (destruct u; reflexivity || congruence). rewrite T in Y.
  assert (X : x = y) by congruence. subst y. rewrite V.
  assert (K : forall k z, (0 <= z)%Q -> (0 <= dec_value k (rounded k z))%Q).
  { intros k0 z Z0. pose proof (rounded_near k0 z) as R. pose proof (p10_pos k0) as P.
    assert (0 <= rounded k0 z)%Z.
    { apply Qabs_Qle_condition in R. destruct (Z.le_gt_cases 0 (rounded k0 z)) as [L|L]; [exact L|exfalso].
      assert (A : (inject_Z (rounded k0 z) <= inject_Z (-1))%Q) by (rewrite <- Zle_Qle; lia).
      assert (B : (0 <= z * inject_Z (10 ^ Z.of_nat k0))%Q).
      { apply Qmult_le_0_compat; [exact Z0|]. change 0%Q with (inject_Z 0). rewrite <- Zle_Qle. lia. }
      change (inject_Z (-1)) with (-1)%Q in A. lra. }
    unfold dec_value. apply Qle_shift_div_l; [|rewrite Qmult_0_l].
    - change 0%Q with (inject_Z 0). rewrite <- Zlt_Qlt. lia.
    - change 0%Q with (inject_Z 0). rewrite <- Zle_Qle. lia. }
  destruct u; [apply K, Q| |congruence]. apply K. apply Qle_shift_div_l; [reflexivity|]. rewrite Qmult_0_l. exact Q.
Qed.

Lemma length_again u v q : u <> Tnm -> sized q ->
  exists x, stream_num (out_num u q) = Some x /\ to_mm u v x = Some (back u q) /\ near (tol_pos u) q (back u q).
Proof.
  intros U S. destruct (num_back u q S) as (m & k & x & _ & R & B & N). exists x. split; [exact R|]. rewrite (conv_mm u v x U), <- B. auto.
Qed.

(** ** The second record *)

Lemma second_again u o : u <> Tnm -> ol_kind o <> KOther -> layer_fits (ol_kind o) (ol_layer o) ->
  high_fits u (ol_kind o) (ol_high o) -> id_fits (ol_kind o) (ol_id o) ->
  exists a q, write_second u o = Some a /\ near (tol_pos u) (ol_high o) q /\
    forall rest, rest <> [] -> second_record (ol_kind o) u V3 (mkStream (a ++ rest) false) = Some (ol_id o, q, ol_layer o, mkStream rest false).
Proof.
  intros U NO L H I. destruct o as [k ow id q l ls]. cbn [ol_kind ol_layer ol_high ol_id] in *. unfold write_second. cbn [ol_kind ol_layer ol_high ol_id].
  assert (N0 : near (tol_pos u) 0 0) by (unfold near; destruct u; cbn; discriminate).
  assert (W1 : forall t rest, field_ok (Bare t) /\ ~ In nl (field_text (Bare t)) -> (forall r, t <> hash :: r) ->
     opens (mkStream ((t ++ [nl]) ++ rest) false) t (mkStream rest false) /\ laid_out false [Bare t] t).
  { intros t rest F NH. assert (FF : fields_ok [Bare t]) by (apply Forall_cons; [exact F|apply Forall_nil]). split.
    - rewrite <- app_assoc. exact (opens_spaced (Bare t) [] rest FF NH).
    - exact (spaced_laid _ FF). }
  assert (NH1 : forall l r, layer_text l <> hash :: r) by (intros []; discriminate).
  assert (W2 : forall la g rest, field_ok g /\ ~ In nl (field_text g) ->
     let t := layer_text la ++ sp :: field_text g in
     opens (mkStream ((t ++ [nl]) ++ rest) false) t (mkStream rest false) /\ laid_out false [Bare (layer_text la); g] t).
  { intros la g rest F. assert (FF : fields_ok [Bare (layer_text la); g]) by (apply Forall_cons; [apply layer_field|apply Forall_cons; [exact F|apply Forall_nil]]). split.
    - rewrite <- app_assoc. exact (opens_spaced (Bare (layer_text la)) [g] rest FF (NH1 la)).
    - exact (spaced_laid _ FF). }
  assert (PK : forall la, k = KPlace \/ k = KPlaceKo -> l = Some la -> la = LTop \/ la = LBottom \/ la = LBoth -> (0 <= q)%Q /\ sized q -> id = [] ->
     near (tol_pos u) q (back u q) /\
     forall rest, rest <> [] -> second_record k u V3 (mkStream ((layer_text la ++ sp :: out_num u q ++ [nl]) ++ rest) false) = Some ([], back u q, Some la, mkStream rest false)).
  { intros la K _ LA (Q0 & QS) _. destruct (length_again u V3 q U QS) as (x & R & M & N). split; [exact N|]. intros rest _.
    destruct (W2 la (Bare (out_num u q)) rest (num_field u q)) as (O & LO). cbv zeta in O, LO. cbn [field_text] in O, LO. repeat (rewrite <- ?app_assoc in O; cbn [app] in O).
    pose proof (opens_head _ _ _ O) as HL. cbn [s_eof] in HL. pose proof (num_above u q x U QS Q0 R) as XP.
    assert (SL : second_line k u V3 (layer_text la ++ sp :: out_num u q) = Some ([], back u q, Some la)).
    { pose proof (before_start (layer_text la ++ sp :: out_num u q) [] false) as B0.
      destruct (word_laid _ _ _ _ _ LO B0) as (st & r1 & E1 & _ & B1 & L1). cbn [value] in E1.
      destruct (get_laid _ _ _ _ _ L1 B1) as (st2 & r2 & E2 & T2 & _). cbn [value] in T2.
      unfold second_line. destruct K as [-> | ->]; rewrite E1, layer_parsed, E2, T2, R, (proj2 (Qle_bool_iff 0 x) XP), M; cbn [negb]; destruct LA as [->|[->| ->]]; reflexivity. }
    destruct K as [-> | ->]; unfold second_record; repeat (rewrite <- ?app_assoc; cbn [app]); rewrite HL, SL; reflexivity. }
  destruct k.
  - cbn in L, H, I. subst l id. destruct H as (HL & HS). destruct (length_again u V3 q U HS) as (x & R & M & N).
    exists (out_num u q ++ [nl]), (back u q). split; [reflexivity|]. split; [exact N|]. intros rest _.
    assert (NH : forall r, out_num u q <> hash :: r).
    { intros r E. destruct (num_decimal u q) as (k & m & D). destruct (head_decimal _ _ _ [] D) as (c & t & X & _ & Y). rewrite app_nil_r in X. congruence. }
    destruct (W1 (out_num u q) rest (num_field u q) NH) as (O & LO). unfold second_record. rewrite (opens_last _ _ _ O).
    unfold second_line. destruct (word_laid _ _ _ _ _ LO (before_start _ [] false)) as (st & r1 & E1 & _). cbn [value] in E1. rewrite E1. unfold length_field. rewrite R, M.
    assert (P : (0 < back u q)%Q). { unfold near in N. apply Qabs_Qle_condition in N. destruct u; cbn in HL, N; lra. }
    unfold board_high. destruct (Qle_bool (back u q) 0) eqn:E; [|reflexivity]. apply Qle_bool_iff in E. exfalso. lra.
  - congruence.
  - cbn in L, H, I. subst q id. destruct l as [la|]; [|congruence]. exists (layer_text la ++ [nl]), 0%Q. split; [reflexivity|]. split; [exact N0|]. intros rest _.
    destruct (W1 (layer_text la) rest (layer_field la) (NH1 la)) as (O & LO). pose proof (opens_head _ _ _ O) as HL. cbn [s_eof] in HL. unfold second_record. rewrite HL.
    unfold second_line. destruct (get_laid _ _ _ _ _ LO (before_start _ [] false)) as (st & r1 & E1 & T1 & Q1 & _). cbn in T1, Q1. rewrite E1, Q1, T1, layer_parsed. destruct la; reflexivity.
  - cbn in L, H, I. assert (LX : exists la, l = Some la /\ (la = LTop \/ la = LBottom \/ la = LBoth)) by (destruct L as [->|[->| ->]]; eexists; split; auto). destruct LX as (la & -> & LA).
    destruct (PK la (or_introl eq_refl) eq_refl LA H I) as (N & R). subst id. exists (layer_text la ++ sp :: out_num u q ++ [nl]), (back u q). split; [|split; [exact N|exact R]].
    rewrite andb_false_r. destruct LA as [->|[->| ->]]; reflexivity.
  - cbn in L, H, I. subst q id. destruct l as [la|]; [|congruence]. exists (layer_text la ++ [nl]), 0%Q. split; [reflexivity|]. split; [exact N0|]. intros rest _.
    destruct (W1 (layer_text la) rest (layer_field la) (NH1 la)) as (O & LO). pose proof (opens_head _ _ _ O) as HL. cbn [s_eof] in HL. unfold second_record. rewrite HL.
    unfold second_line. destruct (get_laid _ _ _ _ _ LO (before_start _ [] false)) as (st & r1 & E1 & T1 & Q1 & _). cbn in T1, Q1. rewrite E1, Q1, T1, layer_parsed. destruct la; reflexivity.
  - cbn in L, H, I. subst. exists [], 0%Q. split; [reflexivity|]. split; [exact N0|]. reflexivity.
  - cbn in L, H, I. assert (LX : exists la, l = Some la /\ (la = LTop \/ la = LBottom \/ la = LBoth)) by (destruct L as [->|[->| ->]]; eexists; split; auto). destruct LX as (la & -> & LA).
    destruct (PK la (or_intror eq_refl) eq_refl LA H I) as (N & R). subst id. exists (layer_text la ++ sp :: out_num u q ++ [nl]), (back u q). split; [|split; [exact N|exact R]].
    rewrite (proj2 (Qle_bool_iff 0 q) (proj1 H)). cbn [negb andb]. destruct LA as [->|[->| ->]]; reflexivity.
  - cbn in L, H, I. subst q. assert (LX : exists la, l = Some la /\ (la = LTop \/ la = LBottom \/ la = LBoth)) by (destruct L as [->|[->| ->]]; eexists; split; auto). destruct LX as (la & -> & LA).
    destruct I as (I1 & I2). exists (layer_text la ++ sp :: quoted_text id ++ [nl]), 0%Q. split; [destruct LA as [->|[->| ->]]; reflexivity|]. split; [exact N0|]. intros rest _.
    destruct (W2 la (Quoted id) rest (quoted_ok id I1 I2)) as (O & LO). cbv zeta in O, LO. repeat (rewrite <- ?app_assoc in O; cbn [app] in O).
    change (field_text (Quoted id)) with (quoted_text id) in *.
    pose proof (opens_head _ _ _ O) as HL. cbn [s_eof] in HL. unfold second_record. repeat (rewrite <- ?app_assoc; cbn [app]). rewrite HL.
    unfold second_line. destruct (word_laid _ _ _ _ _ LO (before_start _ [] false)) as (st & r1 & E1 & _ & B1 & L1). cbn [value] in E1. rewrite E1, layer_parsed.
    destruct (word_laid _ _ _ _ _ L1 B1) as (st2 & r2 & E2 & _). cbn [value] in E2. rewrite E2. destruct LA as [->|[->| ->]]; reflexivity.
Qed.

(** ** The section *)

Lemma key_plain k : forallb (fun c => negb ((97 <=? code c) && (code c <=? 122))) (S2 (key k)) = true.
Proof. destruct k; reflexivity. Qed.
Lemma key_self k : compare_token k (S2 k) = true <-> map upper (S2 k) = S2 k.
Proof. unfold compare_token. apply str_eqb_eq. Qed.

Definition head_line_of (o : outl) : str := S2 (key (ol_kind o)) ++ sp :: owner_text (ol_owner o).

Lemma head_fields_of o : fields_ok [Bare (S2 (key (ol_kind o))); Bare (owner_text (ol_owner o))].
Proof. apply Forall_cons; [apply key_field|]. apply Forall_cons; [apply owner_field|apply Forall_nil]. Qed.

Lemma outl_again ccw u o : u <> Tnm -> outl_fits ccw u o ->
  exists body o', write_section ccw u o = Some (head_line_of o ++ nl :: body) /\ outl_back ccw u o o' /\
    forall rest, read_outline ccw (ol_kind o) u V3 (head_line_of o) (mkStream (body ++ rest) false) = Some (o', mkStream (nl :: rest) false).
Proof.
  intros U (NO & LF & HF & IF & NE & FF & SZ & TK).
  destruct (second_again u o U NO LF HF IF) as (a & q & W2 & N2 & R2).
  assert (RT : exists text ls', write_outlines ccw (single_of (ol_kind o)) u (ol_loops o) = Some text /\
     Forall2 (near_loop u) (ways ccw (single_of (ol_kind o)) 0 (ol_loops o)) ls' /\
     forall w rest, Forall (fun c => ~ isspc c) w ->
      let after := mkStream (S2 ".END_" ++ w ++ nl :: rest) false in
      read_outlines ccw (single_of (ol_kind o)) false u V3 (mkStream (text ++ s_rest after) false) = Some (ls', after)).
  { apply round_trip; auto.
    - destruct (ol_kind o); cbn; intros X; try discriminate; exact TK.
    - destruct (ol_kind o); cbn; intros X; try discriminate; [exact TK|congruence]. }
  destruct RT as (text & ls' & WO & NL & RO).
  exists (a ++ text ++ S2 (end_key (ol_kind o)) ++ [nl; nl]), (mkOutl (ol_kind o) (ol_owner o) (ol_id o) q (ol_layer o) ls').
  split; [|split].
  - unfold write_section, head_line_of. rewrite W2, WO. destruct (ol_loops o) eqn:E; destruct (ol_kind o) eqn:K; try (exfalso; apply NE; [discriminate|reflexivity]);
      repeat (rewrite <- ?app_assoc; cbn [app]); reflexivity.
  - split; [reflexivity|]. split; [reflexivity|]. split; [reflexivity|]. split; [reflexivity|]. split; [exact N2|]. cbn [ol_loops].
    destruct (ol_kind o); try exact NL. congruence.
  - intros rest. pose proof (head_fields_of o) as HO. pose proof (spaced_laid _ HO) as LO.
    assert (SPE : spaced [Bare (S2 (key (ol_kind o))); Bare (owner_text (ol_owner o))] = head_line_of o) by reflexivity. rewrite SPE in LO.
    pose proof (before_start (head_line_of o) [] false) as B0.
    destruct (get_laid _ _ _ _ _ LO B0) as (st & r1 & E1 & T1 & Q1 & B1 & L1). cbn [value in_quotes] in T1, Q1.
    destruct (word_laid _ _ _ _ _ L1 B1) as (st2 & r2 & E3 & _). cbn [value] in E3.
    unfold read_outline. rewrite E1, Q1, T1, E3, owner_back. rewrite (proj2 (key_self (key (ol_kind o)))) by (destruct (ol_kind o); reflexivity). cbn [negb].
    repeat rewrite <- app_assoc. rewrite R2.
    2: { destruct text; [destruct (ol_kind o)|]; discriminate. }
    assert (EK : exists w, S2 (end_key (ol_kind o)) = S2 ".END_" ++ w /\ Forall (fun c => ~ isspc c) w).
    { destruct (end_field (ol_kind o)) as ((_ & F & _) & _). exists (skipn 5 (S2 (end_key (ol_kind o)))). split; [destruct (ol_kind o); reflexivity|].
      rewrite <- (firstn_skipn 5) in F. apply Forall_app in F. apply F. }
    destruct EK as (w & EW & FW). specialize (RO w (nl :: rest) FW). cbv zeta in RO. cbn [s_rest] in RO.
    rewrite EW. cbn [app]. rewrite <- app_assoc. change ((S2 ".END_" ++ w) ++ [nl; nl] ++ rest) with ((S2 ".END_" ++ w) ++ nl :: nl :: rest) in *.
    repeat rewrite <- app_assoc in *. cbn [app] in *. rewrite RO.
    assert (OE : opens (mkStream (S2 (end_key (ol_kind o)) ++ nl :: nl :: rest) false) (S2 (end_key (ol_kind o))) (mkStream (nl :: rest) false)).
    { apply word_opens; destruct (ol_kind o); try discriminate; try reflexivity; split; reflexivity. }
    rewrite EW in OE. repeat rewrite <- app_assoc in OE. cbn [app] in OE.
    pose proof (opens_head _ _ _ OE) as HL. cbn [s_eof] in HL. rewrite HL.
    assert (LE : laid_out false [Bare (S2 (end_key (ol_kind o)))] (S2 (end_key (ol_kind o)))).
    { apply (spaced_laid [Bare (S2 (end_key (ol_kind o)))]). apply Forall_cons; [apply end_field|apply Forall_nil]. }
    destruct (word_laid _ _ _ _ _ LE (before_start _ [] false)) as (st3 & r3 & E4 & _). cbn [value] in E4.
    assert (EO : ends_outline (ol_kind o) (S2 (end_key (ol_kind o))) = true).
    { unfold ends_outline. destruct (ol_kind o); try reflexivity; rewrite E4; reflexivity. }
    rewrite EW in EO. cbn [app] in EO. rewrite EO. reflexivity.
Qed.

(** ** What is not read again *)

Lemma first_record ccw u l ls t : write_outlines ccw false u (l :: ls) = Some t ->
  exists p t', t = out_line u 0 p (S2 "0") ++ t'.
Proof.
  unfold write_outlines. cbn [write_loops]. destruct (write_outline ccw false u l 0) as [a|] eqn:W; [|discriminate].
  destruct (write_loops ccw false u ls (0 + 1)) as [b|]; [|discriminate]. intros H. injection H as <-.
  unfold write_outline in W. destruct l as [|s [|s' l']]; [discriminate| |].
  - destruct (negb (is_circle s)); [discriminate|]. match type of W with Some ?x = Some _ => assert (E : a = x) by congruence end. rewrite E. eexists. eexists. rewrite <- app_assoc. reflexivity.
  - destruct ((ccw (s :: s' :: l') && (0 <? 0)) || (negb (ccw (s :: s' :: l')) && (0 =? 0))).
    + match type of W with Some ?x = Some _ => assert (E : a = x) by congruence end. rewrite E. eexists. eexists. rewrite <- app_assoc. reflexivity.
    + match type of W with Some ?x = Some _ => assert (E : a = x) by congruence end. rewrite E. eexists. eexists. rewrite <- app_assoc. reflexivity.
Qed.

Lemma side_spoiled l : parse_layer (layer_text l ++ S2 "0") = None.
Proof. destruct l; reflexivity. Qed.

Lemma other_lost ccw u u' o text : ol_kind o = KOther -> ol_loops o <> [] -> ~ In quote (ol_id o) -> ~ In nl (ol_id o) ->
  write_section ccw u o = Some text ->
  exists body, text = head_line_of o ++ nl :: body /\
    forall rest, read_outline ccw KOther u' V3 (head_line_of o) (mkStream (body ++ rest) false) = None.
Proof.
  intros K NE IQ IN W. unfold write_section in W. rewrite K in W. destruct (ol_loops o) as [|l ls]; [congruence|].
  unfold write_second in W. rewrite K in W. cbn [single_of] in W.
  destruct (ol_layer o) as [la|]; [|discriminate].
  assert (LX : (la = LTop \/ la = LBottom) /\ exists t, write_outlines ccw false u (l :: ls) = Some t /\
    text = S2 (key KOther) ++ sp :: owner_text (ol_owner o) ++ nl :: (quoted_text (ol_id o) ++ sp :: out_num u (ol_high o) ++ sp :: layer_text la) ++ t ++ S2 (end_key KOther) ++ [nl; nl]).
  { destruct (write_outlines ccw false u (l :: ls)) as [t|]; destruct la; try discriminate; (split; [auto|]; exists t; split; [reflexivity|]; injection W as <-; reflexivity). }
  destruct LX as (_ & t & WO & ->). apply first_record in WO as (p & t' & ->).
  set (fs := [Quoted (ol_id o); Bare (out_num u (ol_high o)); Bare (layer_text la ++ S2 "0"); Bare (out_num u (qx p)); Bare (out_num u (qy p)); Bare (S2 "0")]).
  set (more := t' ++ S2 (end_key KOther) ++ [nl; nl]).
  exists (spaced fs ++ nl :: more). split.
  { unfold head_line_of. rewrite K. unfold fs, more, out_line, quoted_text. cbn [spaced field_text]. change (showN 0) with (S2 "0").
    repeat (rewrite <- ?app_assoc; cbn [app]). reflexivity. }
  intros rest. unfold read_outline. destruct (get_string (head_line_of o) (mkScan [] false 0)) as [[] st]; [|reflexivity].
  destruct (sc_quoted st); [reflexivity|]. destruct (negb _); [reflexivity|].
  assert (FF : fields_ok fs).
  { unfold fs. apply Forall_cons; [apply quoted_ok; assumption|]. apply Forall_cons; [apply num_field|].
    apply Forall_cons; [destruct la; apply bare_ok; try discriminate; reflexivity|]. apply Forall_cons; [apply num_field|]. apply Forall_cons; [apply num_field|].
    apply Forall_cons; [apply bare_ok; try discriminate; reflexivity|apply Forall_nil]. }
  assert (O : opens (mkStream ((spaced fs ++ nl :: more) ++ rest) false) (spaced fs) (mkStream (more ++ rest) false)).
  { rewrite <- app_assoc. cbn [app]. apply (opens_spaced (Quoted (ol_id o))); [exact FF|discriminate]. }
  pose proof (opens_head _ _ _ O) as HL. cbn [s_eof] in HL.
  assert (SR : second_record KOther u' V3 (mkStream ((spaced fs ++ nl :: more) ++ rest) false) = None); [|rewrite SR; reflexivity].
  unfold second_record. rewrite HL. clear HL O. unfold second_line.
  destruct (word_laid _ _ _ _ _ (spaced_laid _ FF) (before_start _ [] false)) as (s1 & r1 & E1 & _ & B1 & L1). rewrite E1.
  destruct (word_laid _ _ _ _ _ L1 B1) as (s2 & r2 & E2 & _ & B2 & L2). rewrite E2. destruct (length_field u' V3 _); [|reflexivity].
  destruct (word_laid _ _ _ _ _ L2 B2) as (s3 & r3 & E3 & _). rewrite E3. cbn [value]. rewrite side_spoiled. reflexivity.
Qed.

Lemma below_zero u q x : u <> Tnm -> sized q -> (q <= - (least_high u))%Q -> stream_num (out_num u q) = Some x -> (x < 0)%Q.
Proof.
  intros U S Q E. destruct (num_back u q S) as (m & k & y & _ & R & B & N).
  assert (y = x) by congruence. subst y. unfold near in N. rewrite B in N. apply Qabs_Qle_condition in N.
  destruct u; cbn [note_conv tol_pos least_high] in *; [| |congruence]; unfold thou_to_mm in *; lra.
Qed.

Lemma place_lost ccw u o text : u <> Tnm -> ol_kind o = KPlace -> ol_loops o <> [] -> sized (ol_high o) -> (ol_high o <= - (least_high u))%Q ->
  write_section ccw u o = Some text ->
  exists body, text = head_line_of o ++ nl :: body /\
    forall rest, read_outline ccw KPlace u V3 (head_line_of o) (mkStream (body ++ rest) false) = None.
Proof.
  intros U K NE SZ NG W. unfold write_section in W. rewrite K in W. destruct (ol_loops o) as [|l ls]; [congruence|].
  unfold write_second in W. rewrite K, andb_false_r in W. cbn [single_of] in W.
  destruct (ol_layer o) as [la|]; [|discriminate].
  assert (LX : exists t, text = S2 (key KPlace) ++ sp :: owner_text (ol_owner o) ++ nl :: (layer_text la ++ sp :: out_num u (ol_high o) ++ [nl]) ++ t).
  { destruct (write_outlines ccw true u (l :: ls)) as [t|]; destruct la; try discriminate; (eexists; injection W as <-; reflexivity). }
  destruct LX as (t & ->). set (fs := [Bare (layer_text la); Bare (out_num u (ol_high o))]).
  exists (spaced fs ++ nl :: t). split.
  { unfold head_line_of. rewrite K. unfold fs. cbn [spaced field_text]. repeat (rewrite <- ?app_assoc; cbn [app]). reflexivity. }
  intros rest. unfold read_outline. destruct (get_string (head_line_of o) (mkScan [] false 0)) as [[] st]; [|reflexivity].
  destruct (sc_quoted st); [reflexivity|]. destruct (negb _); [reflexivity|].
  assert (FF : fields_ok fs) by (apply Forall_cons; [apply layer_field|apply Forall_cons; [apply num_field|apply Forall_nil]]).
  assert (O : opens (mkStream ((spaced fs ++ nl :: t) ++ rest) false) (spaced fs) (mkStream (t ++ rest) false)).
  { rewrite <- app_assoc. cbn [app]. apply (opens_spaced (Bare (layer_text la))); [exact FF|]. destruct la; discriminate. }
  pose proof (opens_head _ _ _ O) as HL. cbn [s_eof] in HL.
  assert (SR : second_record KPlace u V3 (mkStream ((spaced fs ++ nl :: t) ++ rest) false) = None); [|rewrite SR; reflexivity].
  unfold second_record. rewrite HL. clear HL O. unfold second_line.
  destruct (word_laid _ _ _ _ _ (spaced_laid _ FF) (before_start _ [] false)) as (s1 & r1 & E1 & _ & B1 & L1). rewrite E1. cbn [value]. rewrite layer_parsed.
  destruct (get_laid _ _ _ _ _ L1 B1) as (s2 & r2 & E2 & T2 & _). rewrite E2, T2. cbn [value].
  destruct (num_back u (ol_high o) SZ) as (_ & _ & x & _ & R & _). rewrite R.
  pose proof (below_zero u _ x U SZ NG R) as XN. destruct (Qle_bool 0 x) eqn:QB; [apply Qle_bool_iff in QB; exfalso; lra|]. destruct la; reflexivity.
Qed.
