(** Proofs: which lines are holes, and whole sections. *)

From Coq Require Import Lia Lqa.
From Verif Require Import Base Num IoModel IdfText Spec NumFacts RealFacts IdfSpec IdfFacts IdfNum IdfRound.
Open Scope Z_scope.

Lemma word_laid b fs rest line st : laid_out b fs rest -> before line rest st ->
  match fs with
  | [] => word line st = None
  | f :: fs' => exists st' rest', word line st = Some (value f, st') /\ sc_quoted st' = in_quotes f /\
      before line rest' st' /\ laid_out b fs' rest'
  end.
Proof.
  intros L B. destruct L as [w W|w t W N|b w f fs rest W O E L].
  - destruct (get_none _ _ _ B W) as (st' & G & _). unfold word. rewrite G. reflexivity.
  - destruct (get_torn _ _ _ _ B W N) as (st' & G & _). unfold word. rewrite G. reflexivity.
  - destruct (get_field _ _ _ _ _ B W O E) as (G & B').
    eexists _, rest. unfold word. rewrite G. split; [reflexivity|]. split; [reflexivity|]. auto.
Qed.

Lemma number_word line st : number line st =
  match word line st with
  | None => None
  | Some (t, st') => if sc_quoted st' then None else
      match stream_num t with Some q => Some (q, st') | None => None end
  end.
Proof. unfold number, word. destruct (get_string line st) as [[|] st']; reflexivity. Qed.

Lemma first_laid b fs line : laid_out b fs line ->
  let st := snd (get_string line (mkScan [] false 0)) in
  match fs with
  | [] => sc_quoted st = b /\ sc_tok st = []
  | f :: fs' => sc_tok st = value f /\ sc_quoted st = in_quotes f /\
      exists rest, before line rest st /\ laid_out b fs' rest
  end.
Proof.
  intros L. pose proof (before_start line [] false) as B. cbn zeta.
  destruct L as [w W|w t W N|b w f fs rest W O E L].
  - destruct (get_none _ _ _ B W) as (st' & G & _ & T & Q). rewrite G. cbn [snd]. split; [exact Q|exact T].
  - destruct (get_torn _ _ _ _ B W N) as (st' & G & _ & T & Q). rewrite G. cbn [snd]. split; [exact Q|exact T].
  - destruct (get_field _ _ _ _ _ B W O E) as (G & B'). rewrite G. cbn [snd].
    split; [reflexivity|]. split; [reflexivity|]. exists rest. auto.
Qed.

Lemma word_excl k k' s : same_word k s -> same_word k' s ->
  forallb (fun c => negb ((97 <=? code c) && (code c <=? 122))) (S2 k) = true ->
  forallb (fun c => negb ((97 <=? code c) && (code c <=? 122))) (S2 k') = true -> S2 k = S2 k'.
Proof.
  intros A B C D. apply (keyword_same k s (capitals _ C)) in A. apply (keyword_same k' s (capitals _ D)) in B.
  unfold compare_token in *. apply str_eqb_eq in A, B. congruence.
Qed.

Ltac excl := exfalso; match goal with
  | A : same_word ?k ?s, B : same_word ?k' ?s |- _ =>
    first [constr_eq k k'; fail 1 | pose proof (word_excl k k' s A B eq_refl eq_refl) as X; vm_compute in X; discriminate X]
  end.

Lemma ref_back_named s r : ref_back (Named s) r <-> r = ref_of s.
Proof.
  split; [|intros ->; apply ref_named]. unfold ref_of.
  destruct (key_cases "BOARD" s eq_refl) as [[-> A]|[-> A]];
    [intros H; inversion H; subst; try reflexivity; try contradiction; excl|].
  destruct (key_cases "NOREFDES" s eq_refl) as [[-> B]|[-> B]];
    [intros H; inversion H; subst; try reflexivity; try contradiction; excl|].
  destruct (key_cases "PANEL" s eq_refl) as [[-> C]|[-> C]];
    intros H; inversion H; subst; try reflexivity; contradiction.
Qed.

Lemma hole_back_named s r : hole_back (Other s) r <-> r = hole_of s.
Proof.
  split; [|intros ->; apply hole_named]. unfold hole_of.
  destruct (key_cases "PIN" s eq_refl) as [[-> A]|[-> A]];
    [intros H; inversion H; subst; try reflexivity; try contradiction; excl|].
  destruct (key_cases "VIA" s eq_refl) as [[-> B]|[-> B]];
    [intros H; inversion H; subst; try reflexivity; try contradiction; excl|].
  destruct (key_cases "MTG" s eq_refl) as [[-> C]|[-> C]];
    [intros H; inversion H; subst; try reflexivity; try contradiction; excl|].
  destruct (key_cases "TOOL" s eq_refl) as [[-> D]|[-> D]];
    intros H; inversion H; subst; try reflexivity; contradiction.
Qed.

Lemma plating_read s b : (if compare_token "PTH" s then Some true else if compare_token "NPTH" s then Some false else None)
  = Some b <-> plating_of s b.
Proof.
  unfold plating_of.
  destruct (key_cases "PTH" s eq_refl) as [[-> A]|[-> A]].
  - split; [intros H; injection H as <-; exact A|]. destruct b; [reflexivity|]. intros H. excl.
  - destruct (key_cases "NPTH" s eq_refl) as [[-> B]|[-> B]].
    + split; [intros H; injection H as <-; exact B|]. destruct b; [contradiction|reflexivity].
    + split; [discriminate|]. destruct b; contradiction.
Qed.

Lemma owner_read s o : parse_owner s = Some o <-> owner_of s o.
Proof.
  unfold parse_owner, owner_of.
  destruct (key_cases "UNOWNED" s eq_refl) as [[-> A]|[-> A]].
  { split; [intros H; injection H as <-; exact A|]. destruct o; intros H; try reflexivity; excl. }
  destruct (key_cases "ECAD" s eq_refl) as [[-> B]|[-> B]].
  { split; [intros H; injection H as <-; exact B|]. destruct o; intros H; try reflexivity; try contradiction; excl. }
  destruct (key_cases "MCAD" s eq_refl) as [[-> C]|[-> C]].
  { split; [intros H; injection H as <-; exact C|]. destruct o; intros H; try reflexivity; contradiction. }
  split; [discriminate|]. destruct o; contradiction.
Qed.

Lemma to_mm_unit u v q : (v = V3 -> u <> Tnm) -> exists r, to_mm u v q = Some r /\ (r == q * unit_mm u)%Q.
Proof.
  intros H. destruct u, v; cbn; eexists; (split; [first [reflexivity|exfalso; apply (H eq_refl); reflexivity]|]); try reflexivity.
  all: ring.
Qed.

Lemma to_mm_none q : to_mm Tnm V3 q = None. Proof. reflexivity. Qed.

Lemma drill_line_means f u v line f' b fs : read_line f = Some (line, false, f') -> laid_out b fs line ->
  (forall d g, read_drill f u v = Got d g -> g = f' /\ drill_means u v fs d) /\
  (forall d, drill_means u v fs d -> exists d', read_drill f u v = Got d' f' /\ drill_eq d d') /\
  (forall g, read_drill f u v = Over g <->
     g = f' /\ exists a more, fs = Bare a :: more /\ same_word ".END_DRILLED_HOLES" a).
Proof.
  intros R L. pose proof (first_laid b fs line L) as F. cbn zeta in F.
  unfold read_drill. rewrite R. destruct (get_string line (mkScan [] false 0)) as [ok st]. cbn [snd] in F. clear L R ok.
  destruct fs as [|f1 fs].
  { destruct F as (Q & T). rewrite T.
    assert (E : (if sc_quoted st then @Wrong drill else
      if compare_token ".END_DRILLED_HOLES" [] then Over f' else
      match stream_num [] with
      | None => Wrong
      | Some dia => match drill_fields line st dia u v with Some d => Got d f' | None => Wrong end end) = Wrong)
      by (destruct (sc_quoted st); reflexivity).
    rewrite E. split; [discriminate|]. split.
    - intros d M. inversion M.
    - intros g. split; [discriminate|]. intros (_ & a & more & X & _). discriminate. }
  destruct F as (T & Q & rest & B & L). rewrite T, Q. clear T.
  destruct f1 as [a|a]; cbn [in_quotes value] in *.
  2: { split; [discriminate|]. split.
    - intros d M. inversion M.
    - intros g. split; [discriminate|]. intros (_ & x & more & X & _). discriminate. }
  destruct (key_cases ".END_DRILLED_HOLES" a eq_refl) as [[-> K]|[-> K]].
  { split; [discriminate|]. split.
    - intros d M. exfalso.
      assert (X : stream_num a = None).
      { apply (keyword_same ".END_DRILLED_HOLES" a (capitals ".END_DRILLED_HOLES" eq_refl)) in K. unfold compare_token in K.
        apply str_eqb_eq in K. destruct a as [|c1 [|c2 a]]; [discriminate|discriminate|].
        cbn in K. injection K as K1 K2 K3.
        assert (Z : c1 = "."%char).
        { pose proof (proj1 (upper_letter "."%char c1 ltac:(unfold capital; cbn; lia)) K1) as [Z|Z]; [auto|cbn in Z; lia]. }
        assert (D : ~ isdig c2).
        { intros D. unfold upper, isdig in *. replace ((97 <=? code c2) && (code c2 <=? 122)) with false in K2 by lia.
          subst c2. cbn in D. lia. }
        subst c1. unfold stream_num.
        change (take_sign (skip_space ("."%char :: c2 :: a))) with (false, "."%char :: c2 :: a).
        assert (SD : forall acc, scan_digits (c2 :: a) acc = (acc, c2 :: a)).
        { intros acc. cbn [scan_digits]. rewrite (digit_val_not c2 D). reflexivity. }
        cbv beta iota zeta. change (scan_digits ("."%char :: c2 :: a) 0) with (0, "."%char :: c2 :: a).
        cbv beta iota zeta. change (Ascii.eqb "." ".") with true. cbv beta iota zeta. rewrite SD. cbv beta iota zeta. rewrite !Nat.sub_diag. reflexivity. }
      inversion M; subst; congruence.
    - intros g. split.
      + intros H. injection H as <-. split; [reflexivity|]. exists a, fs. auto.
      + intros (-> & _). reflexivity. }
  assert (OV : forall x : option drill, forall g,
     (match stream_num a with None => @Wrong drill | Some _ => match x with Some d => Got d f' | None => Wrong end end) = Over g <->
     g = f' /\ exists a0 more, Bare a :: fs = Bare a0 :: more /\ same_word ".END_DRILLED_HOLES" a0).
  { intros x g. split.
    - destruct (stream_num a); [destruct x|]; discriminate.
    - intros (_ & a0 & more & X & Y). injection X as <- _. contradiction. }
  destruct (stream_num a) as [qa|] eqn:NA.
  2: { split; [discriminate|]. split; [intros d M; inversion M; subst; congruence|]. apply (OV None). }
  split; [|split; [|apply (OV (drill_fields line st qa u v))]]; clear OV.
  - intros d g. destruct (drill_fields line st qa u v) as [d'|] eqn:DF; [|discriminate].
    intros H. injection H as <- <-. split; [reflexivity|]. revert DF. unfold drill_fields.
    destruct (Qle_bool (min_dia u) qa) eqn:MD; cbn [negb]; [|discriminate]. apply Qle_bool_iff in MD.
    rewrite number_word. pose proof (word_laid _ _ _ _ _ L B) as W. clear L B.
    destruct fs as [|f2 fs]; [rewrite W; discriminate|].
    destruct W as (st2 & r2 & -> & Q2 & B & L). rewrite Q2.
    destruct f2 as [b2|b2]; cbn [in_quotes value]; [|discriminate].
    destruct (stream_num b2) as [qb|] eqn:NB; [|discriminate].
    rewrite number_word. pose proof (word_laid _ _ _ _ _ L B) as W. clear L B.
    destruct fs as [|f3 fs]; [rewrite W; discriminate|].
    destruct W as (st3 & r3 & -> & Q3 & B & L). rewrite Q3.
    destruct f3 as [b3|b3]; cbn [in_quotes value]; [|discriminate].
    destruct (stream_num b3) as [qc|] eqn:NC; [|discriminate].
    destruct v.
    + (* version 2 *)
      pose proof (word_laid _ _ _ _ _ L B) as W. clear L B.
      destruct fs as [|f4 fs]; [rewrite W; discriminate|].
      destruct W as (st4 & r4 & -> & Q4 & B & L).
      pose proof (word_laid _ _ _ _ _ L B) as W. clear L B.
      destruct fs as [|f5 fs]; [rewrite W; discriminate|].
      destruct W as (st5 & r5 & -> & Q5 & B & L).
      destruct (to_mm_unit u V2 qa ltac:(discriminate)) as (ra & -> & EA).
      destruct (to_mm_unit u V2 qb ltac:(discriminate)) as (rb & -> & EB).
      destruct (to_mm_unit u V2 qc ltac:(discriminate)) as (rc & -> & EC).
      intros H. injection H as <-.
      apply (means_v2 u a b2 b3 f4 f5 fs qa qb qc); cbn; auto; [apply ref_named|apply hole_named].
    + pose proof (word_laid _ _ _ _ _ L B) as W. clear L B.
      destruct fs as [|f4 fs]; [rewrite W; discriminate|].
      destruct W as (st4 & r4 & -> & Q4 & B & L).
      destruct (if compare_token "PTH" (value f4) then Some true else if compare_token "NPTH" (value f4) then Some false else None) as [pl|] eqn:PL.
      2: { destruct (compare_token "PTH" (value f4)); [discriminate|]. destruct (compare_token "NPTH" (value f4)); discriminate. }
      replace (if compare_token "PTH" (value f4) then Some (true, st4)
               else if compare_token "NPTH" (value f4) then Some (false, st4) else None) with (Some (pl, st4))
        by (destruct (compare_token "PTH" (value f4)); [injection PL as <-; reflexivity|];
            destruct (compare_token "NPTH" (value f4)); [injection PL as <-; reflexivity|discriminate]).
      apply plating_read in PL.
      pose proof (word_laid _ _ _ _ _ L B) as W. clear L B.
      destruct fs as [|f5 fs]; [rewrite W; discriminate|].
      destruct W as (st5 & r5 & -> & Q5 & B & L).
      pose proof (word_laid _ _ _ _ _ L B) as W. clear L B.
      destruct fs as [|f6 fs]; [rewrite W; discriminate|].
      destruct W as (st6 & r6 & -> & Q6 & B & L).
      pose proof (word_laid _ _ _ _ _ L B) as W. clear L B.
      destruct fs as [|f7 fs]; [rewrite W; discriminate|].
      destruct W as (st7 & r7 & -> & Q7 & B & L).
      destruct (parse_owner (value f7)) as [o|] eqn:OW; [|discriminate]. apply owner_read in OW.
      destruct u; [| |cbn; discriminate].
      * destruct (to_mm_unit MM V3 qa ltac:(discriminate)) as (ra & -> & EA).
        destruct (to_mm_unit MM V3 qb ltac:(discriminate)) as (rb & -> & EB).
        destruct (to_mm_unit MM V3 qc ltac:(discriminate)) as (rc & -> & EC).
        intros H. injection H as <-.
        apply (means_v3 MM a b2 b3 f4 f5 f6 f7 fs qa qb qc); cbn [dr_plated dr_ref dr_hole dr_owner dr_dia dr_x dr_y]; auto; try discriminate; [apply ref_named|apply hole_named].
      * destruct (to_mm_unit Thou V3 qa ltac:(discriminate)) as (ra & -> & EA).
        destruct (to_mm_unit Thou V3 qb ltac:(discriminate)) as (rb & -> & EB).
        destruct (to_mm_unit Thou V3 qc ltac:(discriminate)) as (rc & -> & EC).
        intros H. injection H as <-.
        apply (means_v3 Thou a b2 b3 f4 f5 f6 f7 fs qa qb qc); cbn [dr_plated dr_ref dr_hole dr_owner dr_dia dr_x dr_y]; auto; try discriminate; [apply ref_named|apply hole_named].
  - intros d M. unfold drill_fields.
    inversion M as [a0 b0 c0 p r h o more qa0 qb qc d0 U N1 N2 N3 MD PL RB HB OW E1 E2 E3 X1 X2 X3|
                    a0 b0 c0 h r more qa0 qb qc d0 N1 N2 N3 MD PL RB HB OW E1 E2 E3 X1 X2 X3]; subst; clear M.
    + assert (qa0 = qa) by congruence. subst qa0.
      rewrite (proj2 (Qle_bool_iff _ _) MD). cbn [negb].
      destruct (word_laid _ _ _ _ _ L B) as (st2 & r2 & W2 & Q2 & B2 & L2). clear L B.
      rewrite number_word, W2, Q2. cbn [value in_quotes]. rewrite N2.
      destruct (word_laid _ _ _ _ _ L2 B2) as (st3 & r3 & W3 & Q3 & B3 & L3). clear L2 B2.
      rewrite number_word, W3, Q3. cbn [value in_quotes]. rewrite N3.
      destruct (word_laid _ _ _ _ _ L3 B3) as (st4 & r4 & W4 & Q4 & B4 & L4). clear L3 B3. rewrite W4.
      apply plating_read in PL.
      replace (if compare_token "PTH" (value p) then Some (true, st4)
               else if compare_token "NPTH" (value p) then Some (false, st4) else None) with (Some (dr_plated d, st4))
        by (destruct (compare_token "PTH" (value p)); [injection PL as <-; reflexivity|];
            destruct (compare_token "NPTH" (value p)); [injection PL as <-; reflexivity|discriminate]).
      destruct (word_laid _ _ _ _ _ L4 B4) as (st5 & r5 & W5 & Q5 & B5 & L5). clear L4 B4. rewrite W5.
      destruct (word_laid _ _ _ _ _ L5 B5) as (st6 & r6 & W6 & Q6 & B6 & L6). clear L5 B5. rewrite W6.
      destruct (word_laid _ _ _ _ _ L6 B6) as (st7 & r7 & W7 & Q7 & B7 & L7). clear L6 B6. rewrite W7.
      apply owner_read in OW. rewrite OW. apply ref_back_named in RB. apply hole_back_named in HB.
      destruct (to_mm_unit u V3 qa (fun _ => U)) as (ra & -> & EA).
      destruct (to_mm_unit u V3 qb (fun _ => U)) as (rb & -> & EB).
      destruct (to_mm_unit u V3 qc (fun _ => U)) as (rc & -> & EC).
      eexists. split; [reflexivity|]. unfold drill_eq, drill_same. cbn [dr_plated dr_ref dr_hole dr_owner dr_dia dr_x dr_y].
      rewrite E1, E2, E3, EA, EB, EC. repeat split; auto; reflexivity.
    + assert (qa0 = qa) by congruence. subst qa0.
      rewrite (proj2 (Qle_bool_iff _ _) MD). cbn [negb].
      destruct (word_laid _ _ _ _ _ L B) as (st2 & r2 & W2 & Q2 & B2 & L2). clear L B.
      rewrite number_word, W2, Q2. cbn [value in_quotes]. rewrite N2.
      destruct (word_laid _ _ _ _ _ L2 B2) as (st3 & r3 & W3 & Q3 & B3 & L3). clear L2 B2.
      rewrite number_word, W3, Q3. cbn [value in_quotes]. rewrite N3.
      destruct (word_laid _ _ _ _ _ L3 B3) as (st4 & r4 & W4 & Q4 & B4 & L4). clear L3 B3. rewrite W4.
      destruct (word_laid _ _ _ _ _ L4 B4) as (st5 & r5 & W5 & Q5 & B5 & L5). clear L4 B4. rewrite W5.
      apply ref_back_named in RB. apply hole_back_named in HB.
      destruct (to_mm_unit u V2 qa ltac:(discriminate)) as (ra & -> & EA).
      destruct (to_mm_unit u V2 qb ltac:(discriminate)) as (rb & -> & EB).
      destruct (to_mm_unit u V2 qc ltac:(discriminate)) as (rc & -> & EC).
      eexists. split; [reflexivity|]. unfold drill_eq, drill_same. cbn [dr_plated dr_ref dr_hole dr_owner dr_dia dr_x dr_y].
      rewrite E1, E2, E3, EA, EB, EC. repeat split; auto; reflexivity.
Qed.
