(** Proofs: outlines which are written and read again. *)

From Coq Require Import Lia Lqa.
From Verif Require Import Base Num IoModel IdfText Spec NumFacts RealFacts IdfSpec IdfFacts IdfNum IdfRound IdfSect IdfOutl IdfOutlSpec IdfOutlFacts.
Open Scope Z_scope.

(** ** Fields *)

Lemma rest_decimal k s m : decimal k s m -> stream_rest s = [].
Proof.
  intros (sg & ip & fr & -> & N & D1 & D2 & L & SG). destruct ip as [|c ip]; [congruence|]. set (IP := c :: ip) in *.
  assert (DC : isdig c) by (inversion D1; auto). unfold stream_rest.
  assert (TS : take_sign (skip_space (sg ++ IP ++ "."%char :: fr)) = (match sg with [] => false | _ => true end, IP ++ "."%char :: fr)).
  { destruct SG as [[-> _]|[-> _]]; cbn; [|reflexivity]. rewrite isdig_not_space by exact DC. destruct (isdig_not_sign c DC) as [A B]. cbn. rewrite A, B. reflexivity. }
  rewrite TS. rewrite scan_digits_app; [|exact D1|cbn; unfold isdig; cbn; lia]. rewrite Ascii.eqb_refl.
  rewrite <- (app_nil_r fr), scan_digits_app; [|exact D2|exact I]. reflexivity.
Qed.

Lemma int_shown i : 0 <= i <= int_max -> stream_int (showN i) = Some (i, []).
Proof.
  intros B. pose proof (showN_digits i (proj1 B)) as D. pose proof (showN_dval i (proj1 B)) as V. pose proof (showN_nonnil i (proj1 B)) as N.
  unfold stream_int. destruct (showN i) as [|c r] eqn:E; [congruence|]. assert (DC : isdig c) by (inversion D; auto).
  assert (TS : take_sign (skip_space (c :: r)) = (false, c :: r)).
  { cbn [skip_space]. rewrite isdig_not_space by exact DC. cbn [take_sign]. destruct (isdig_not_sign c DC) as [-> ->]. reflexivity. }
  rewrite TS. pose proof (scan_digits_app (c :: r) [] D I 0) as SD. rewrite app_nil_r in SD. rewrite SD. cbn [length Nat.eqb].
  change (dvacc 0 (c :: r)) with (dval (c :: r)). rewrite V. destruct (i <? - int_max - 1) eqn:C1; [unfold int_max in *; lia|]. destruct (int_max <? i) eqn:C2; [lia|]. reflexivity.
Qed.

Lemma shown_written i : 0 <= i -> written (showN i) (Bare (showN i)).
Proof.
  intros B. pose proof (showN_digits i B) as D. pose proof (showN_nonnil i B) as N. rewrite Forall_forall in D.
  split; [reflexivity|]. split; [split; [exact N|split]|].
  - apply Forall_forall. intros c I. specialize (D c I). unfold isdig, isspc in *. lia.
  - intros r E. assert (I : In quote (showN i)) by (rewrite E; left; reflexivity). specialize (D _ I). unfold isdig in D. cbn in D. lia.
  - intros I. specialize (D _ I). unfold isdig in D. cbn in D. lia.
Qed.
Lemma shown_not_end i : 0 <= i -> is_end (showN i) = false.
Proof.
  intros B. pose proof (showN_digits i B) as D. unfold is_end. destruct (5 <=? length (showN i))%nat eqn:L; [|reflexivity]. cbn [andb].
  destruct (showN i) as [|c r]; [discriminate|]. inversion D as [|? ? DC _]; subst.
  destruct (compare_token ".END_" (firstn 5 (c :: r))) eqn:C; [|reflexivity].
  apply (keyword_same ".END_" _) in C; [|apply capitals; reflexivity]. unfold same_word in C. cbn [firstn] in C. inversion C as [|? ? ? ? H _]; subst.
  unfold same_letter, isdig in *. cbn in H. destruct H as [<-|H]; [cbn in DC; lia|lia].
Qed.

Lemma next_num_at line st w t rest q : before line (w ++ t ++ rest) st -> blank1 w -> written t (Bare t) -> stream_num t = Some q -> stream_rest t = [] -> after rest ->
  exists st', next_num line st [] = Some (q, st', []) /\ before line rest st' /\ sc_tok st' = t.
Proof.
  intros B W (_ & O & _) S R A. destruct (get_field _ _ _ (Bare t) _ B (blank1_space _ W) O (after_ends _ _ A)) as (G & B').
  eexists. unfold next_num. rewrite G. cbn [sc_quoted in_quotes sc_tok value app]. rewrite S, R. auto.
Qed.

(** ** Numbers which come back *)

Definition back (u : unit_of) (q : Q) : Q := match stream_num (out_num u q) with Some x => note_conv u x | None => 0%Q end.
Definition back_pt (u : unit_of) (p : qpt) : qpt := mkQp (back u (qx p)) (back u (qy p)).
Definition back_text (t : str) : Q := match stream_num t with Some x => x | None => 0%Q end.

Lemma num_back u q : sized q -> exists m k x, decimal k (out_num u q) m /\ stream_num (out_num u q) = Some x /\ back u q = note_conv u x /\ near (tol_pos u) q (back u q).
Proof.
  intros S. destruct (note_reads u q S) as (m & k & x & D & N & C). change (note_num u q) with (out_num u q) in *. exists m, k, x. unfold back. rewrite N. auto.
Qed.
Lemma conv_mm u v x : u <> Tnm -> to_mm u v x = Some (note_conv u x).
Proof. destruct u, v; try reflexivity; congruence. Qed.

(** Text of an angle. *)
Definition angle_text (t : str) : Prop := written t (Bare t) /\ (exists q, stream_num t = Some q) /\ stream_rest t = [].

Lemma text_0 : angle_text (S2 "0") /\ back_text (S2 "0") = 0%Q.
Proof. split; [|reflexivity]. split; [apply bare_by; [discriminate|reflexivity|reflexivity]|]. split; [|reflexivity]. eexists. reflexivity. Qed.
Lemma text_360 : angle_text (S2 "360") /\ (back_text (S2 "360") == 360)%Q.
Proof. split; [|reflexivity]. split; [apply bare_by; [discriminate|reflexivity|reflexivity]|]. split; [|reflexivity]. eexists. reflexivity. Qed.

Lemma deg_text a : (a == 0 \/ 11 # 1000 <= Qabs a <= 35998 # 100)%Q ->
  angle_text (out_deg a) /\ ~ round (back_text (out_deg a)) /\ exists a', taken (back_text (out_deg a)) a' /\ near (1 # 2000) a a'.
Proof.
  intros [Z|B].
  - assert (E : out_deg a = S2 "0").
    { unfold out_deg. rewrite (proj2 (qltb_iff a min_deg)), (proj2 (qltb_iff (- min_deg) a)); [reflexivity| |]; rewrite Z; reflexivity. }
    rewrite E. destruct text_0 as [T V]. split; [exact T|]. rewrite V. split; [apply straight_not_round; unfold straight; lra|]. exists 0%Q. split; [left; split; [unfold straight; lra|reflexivity]|].
    unfold near. rewrite Z. discriminate.
  - assert (E : out_deg a = fixed 3 a).
    { unfold out_deg. destruct (qltb a min_deg && qltb (- min_deg) a) eqn:C; [|reflexivity]. exfalso. apply andb_true_iff in C. rewrite !qltb_iff in C. unfold min_deg in C.
      assert (Qabs a <= 1 # 100)%Q by (apply Qabs_Qle_condition; split; lra). lra. }
    rewrite E. assert (BG : (Qabs a <= inject_Z (10 ^ 304))%Q) by (eapply Qle_trans; [apply B|vm_compute; discriminate]).
    destruct (fixed_reads 3 a ltac:(lia) BG) as (q & R & EQ). pose proof (fixed_decimal 3 a ltac:(lia)) as D.
    pose proof (dec_value_near 3 a) as N. rewrite <- EQ in N. change ((1 # 2) / inject_Z (10 ^ Z.of_nat 3))%Q with (1 # 2000)%Q in N.
    assert (V : back_text (fixed 3 a) = q) by (unfold back_text; rewrite R; reflexivity). rewrite V.
    assert (U1 : (Qabs a <= Qabs q + (1 # 2000))%Q).
    { eapply Qle_trans; [|apply Qplus_le_r; exact N]. eapply Qle_trans; [|]. 2: { rewrite Qplus_comm. assert (X : (Qabs (q - a) == Qabs (a - q))%Q) by (rewrite <- Qabs_opp; apply Qabs_wd; ring). rewrite X. apply Qabs_triangle. } apply Qle_lteq. right. apply Qabs_wd. ring. }
    assert (U2 : (Qabs q <= Qabs a + (1 # 2000))%Q).
    { eapply Qle_trans; [|apply Qplus_le_r; exact N]. eapply Qle_trans; [|]. 2: { rewrite Qplus_comm. apply Qabs_triangle. } apply Qle_lteq. right. apply Qabs_wd. ring. }
    assert (NR : ~ round q) by (unfold round; intros [X Y]; lra).
    split. { split; [exact (decimal_written _ _ _ D)|]. split; [exists q; exact R|exact (rest_decimal _ _ _ D)]. }
    split; [exact NR|]. exists q. split; [|exact N]. right. right. split; [|auto]. unfold straight. intros X. apply Qabs_Qle_condition in X. lra.
Qed.

(** Points which are apart do not meet. *)
Lemma far_apart u p q : sized_pt p -> sized_pt q -> apart u p q -> u <> Tnm -> ~ meets (back_pt u p) (back_pt u q).
Proof.
  intros [P1 P2] [Q1 Q2] A U. unfold meets, back_pt. cbn [qx qy].
  assert (K : forall x y, sized x -> sized y -> (gap u <= Qabs (x - y))%Q -> (1 # 10000000000 < (back u x - back u y) * (back u x - back u y))%Q).
  { intros x y X Y G. destruct (num_back u x X) as (_ & _ & _ & _ & _ & _ & NX). destruct (num_back u y Y) as (_ & _ & _ & _ & _ & _ & NY). unfold near in *.
    set (bx := back u x) in *. set (by' := back u y) in *. clearbody bx by'. apply Qabs_Qle_condition in NX. apply Qabs_Qle_condition in NY.
    assert (H : (2 # 100000 <= bx - by' \/ bx - by' <= - (2 # 100000))%Q \/ (4 # 10000 <= bx - by' \/ bx - by' <= - (4 # 10000))%Q).
    { destruct (Qlt_le_dec (x - y) 0) as [L|L].
      - rewrite Qabs_neg in G by lra. destruct u; cbn in *; [left|right|congruence]; right; lra.
      - rewrite Qabs_pos in G by exact L. destruct u; cbn in *; [left|right|congruence]; left; lra. }
    set (d := (bx - by')%Q) in *. clearbody d. destruct H as [[H|H]|[H|H]]; nra. }
  assert (SQ : forall z : Q, (0 <= z * z)%Q) by (intros z; destruct (Qlt_le_dec z 0); nra).
  intros M. destruct A as [A|A].
  - pose proof (K _ _ P1 Q1 A) as X. pose proof (SQ (back u (qy p) - back u (qy q))%Q) as Y. lra.
  - pose proof (K _ _ P2 Q2 A) as X. pose proof (SQ (back u (qx p) - back u (qx q))%Q) as Y. lra.
Qed.

(** ** Lines *)

(** What is written in a line: the number of the loop, a point and the text of an angle. *)
Record item := mkIt { it_idx : Z; it_pt : qpt; it_ang : str }.
Definition it_text (u : unit_of) (t : item) : str := out_line u (it_idx t) (it_pt t) (it_ang t).
Definition it_rec (u : unit_of) (t : item) : orec := mkOr (it_idx t) (back_pt u (it_pt t)) (back_text (it_ang t)).
Definition it_ok (t : item) : Prop := 0 <= it_idx t <= int_max /\ sized_pt (it_pt t) /\ angle_text (it_ang t).

Lemma fetched first f0 mid last f rest : written first (Bare first) -> (forall r, first <> hash :: r) -> f0 = mkStream ((first ++ sp :: mid ++ sp :: last) ++ nl :: rest) false ->
  written last f -> ~ In nl mid -> fetch_line f0 = (true, first ++ sp :: mid ++ sp :: last, Some false, mkStream rest false).
Proof.
  intros (_ & (N1 & N2 & _) & N3) NH -> W M. set (raw := first ++ sp :: mid ++ sp :: last). destruct (field_last _ _ W) as (NE & LA).
  assert (EL : ends_line raw (mkStream (raw ++ nl :: rest) false) (mkStream rest false)).
  { split; [reflexivity|]. split; [|left; exists rest; auto]. unfold raw. intros I. destruct W as (_ & _ & N4).
    apply in_sp in I as [I|[I|I]]; [auto|discriminate|]. apply in_sp in I as [I|[I|I]]; [auto|discriminate|auto]. }
  destruct first as [|c first]; [congruence|].
  rewrite (fetch_plain raw raw _ _ EL).
  - reflexivity.
  - intros r E. unfold raw in E. cbn [app] in E. injection E as -> _. exact (NH first eq_refl).
  - exists [], []. rewrite app_nil_r. split; [reflexivity|]. split; [constructor|]. split; [constructor|]. split.
    + intros x r E. unfold raw in E. cbn [app] in E. injection E as <- _. inversion N2; assumption.
    + intros x r H. assert (H' : ((c :: first) ++ sp :: mid ++ [sp]) ++ last = r ++ [x]).
      { rewrite <- H. unfold raw. repeat (rewrite <- app_assoc; cbn [app]). reflexivity. }
      destruct (app_last _ _ _ _ NE H') as (r' & R). exact (LA x r' R).
Qed.

Lemma item_line comp u v t tok rest : u <> Tnm -> it_ok t -> exists line,
  fetch_line (mkStream (it_text u t ++ rest) false) = (true, line, Some false, mkStream rest false) /\
  read_rec comp u v line tok [] = LRec (it_rec u t) (it_ang t) [].
Proof.
  destruct t as [i [x y] at']. intros U (BI & [SX SY] & (WA & (q & SA) & RA)). cbn [it_idx it_pt it_ang qx qy] in *.
  destruct (num_back u x SX) as (m1 & k1 & q1 & D1 & N1 & C1 & _). destruct (num_back u y SY) as (m2 & k2 & q2 & D2 & N2 & C2 & _).
  unfold it_text, it_rec, out_line. cbn [it_idx it_pt it_ang qx qy]. set (t0 := showN i) in *. set (t1 := out_num u x) in *. set (t2 := out_num u y) in *.
  pose proof (shown_written i (proj1 BI)) as W0. fold t0 in W0. pose proof (decimal_written _ _ _ D1) as W1. pose proof (decimal_written _ _ _ D2) as W2.
  exists (t0 ++ sp :: t1 ++ sp :: t2 ++ sp :: at'). split.
  - rewrite (fetched t0 _ (t1 ++ sp :: t2) at' (Bare at') rest W0) ; [repeat (rewrite <- app_assoc; cbn [app]); reflexivity| | |exact WA|].
    + intros r E. pose proof (showN_digits i (proj1 BI)) as D. fold t0 in D. rewrite E in D. inversion D as [|? ? DC _]; subst. unfold isdig in DC. cbn in DC. lia.
    + f_equal. repeat (rewrite <- app_assoc; cbn [app]). reflexivity.
    + destruct W1 as (_ & _ & X1). destruct W2 as (_ & _ & X2). intros I. apply in_sp in I as [I|[I|I]]; [auto|discriminate|auto].
  - set (line := t0 ++ sp :: t1 ++ sp :: t2 ++ sp :: at'). unfold read_rec.
    assert (B0 : before line ([] ++ field_text (Bare t0) ++ sp :: t1 ++ sp :: t2 ++ sp :: at') (mkScan tok false 0)) by apply before_start.
    destruct (get_field _ _ _ (Bare t0) _ B0 (Forall_nil _) (proj1 (proj2 W0)) sp_space) as (G & B). rewrite G. set (st0 := mkScan (value (Bare t0)) _ _) in *. change (sc_quoted st0) with false. change (sc_tok st0) with t0. cbn [app]. clearbody st0. cbv iota.
    unfold t0 at 1. rewrite (shown_not_end i (proj1 BI)). unfold t0 at 1. rewrite (int_shown i BI).
    destruct (next_num_at line _ [sp] t1 (sp :: t2 ++ sp :: at') q1 B (or_intror eq_refl) W1 N1 (rest_decimal _ _ _ D1) eq_refl) as (st1 & -> & B1 & _).
    destruct (next_num_at line _ [sp] t2 (sp :: at') q2 B1 (or_intror eq_refl) W2 N2 (rest_decimal _ _ _ D2) eq_refl) as (st2 & -> & B2 & _).
    assert (B2' : before line ([sp] ++ at' ++ []) st2) by (rewrite app_nil_r; exact B2).
    destruct (next_num_at line _ [sp] at' [] q B2' (or_intror eq_refl) WA SA RA I) as (st3 & -> & _ & ->).
    rewrite !conv_mm by exact U. unfold back_pt. cbn [qx qy]. rewrite C1, C2. unfold back_text. rewrite SA. reflexivity.
Qed.

Lemma run_items ccw single comp u v its : u <> Tnm -> Forall it_ok its -> forall s s' k tok rest, steps ccw single s (map (it_rec u) its) = Some s' ->
  exists tok', read_lines ccw single comp u v (length its + k) (mkStream (flat_map (it_text u) its ++ rest) false) tok [] s =
    read_lines ccw single comp u v k (mkStream rest false) tok' [] s'.
Proof.
  intros U F. induction F as [|t its T F IH]; intros s s' k tok rest E; cbn [map steps] in E.
  - injection E as <-. exists tok. reflexivity.
  - destruct (step ccw single s (it_rec u t)) as [s1|] eqn:ES; [|discriminate].
    destruct (item_line comp u v t tok (flat_map (it_text u) its ++ rest) U T) as (line & FL & RR).
    destruct (IH s1 s' k (it_ang t) rest E) as (tok' & R). exists tok'. cbn [length Nat.add flat_map read_lines s_eof]. rewrite <- app_assoc, FL, RR, ES. exact R.
Qed.

Lemma end_reads ccw single comp u v w rest tok s k : Forall (fun c => ~ isspc c) w ->
  let f := mkStream (S2 ".END_" ++ w ++ nl :: rest) false in
  read_lines ccw single comp u v (S k) f tok [] s = match finish s with Some l => Some (l, f) | None => None end.
Proof.
  intros W f. set (raw := S2 ".END_" ++ w).
  assert (O : field_ok (Bare raw)).
  { split; [discriminate|]. split; [|intros r X; discriminate]. unfold raw. apply Forall_app. split; [|exact W]. repeat (constructor; [unfold isspc; cbn; lia|]). constructor. }
  assert (SP : forall c, In c raw -> ~ isspc c) by (destruct O as (_ & O & _); rewrite Forall_forall in O; exact O).
  assert (EF : fetch_line f = (true, raw, Some false, mkStream rest false)).
  { assert (EL : ends_line raw f (mkStream rest false)).
    { split; [reflexivity|]. split. { intros I. apply (SP _ I). unfold isspc. cbn. lia. } left. exists rest. split; [unfold f, raw; cbn [s_rest]; rewrite <- app_assoc; reflexivity|reflexivity]. }
    rewrite (fetch_plain raw raw f _ EL); [reflexivity|intros r X; discriminate|]. exists [], []. rewrite app_nil_r. split; [reflexivity|]. split; [constructor|]. split; [constructor|]. split.
    - intros c r X. apply SP. rewrite X. left. reflexivity.
    - intros c r X. apply SP. rewrite X, in_app_iff. right. left. reflexivity. }
  assert (G : get_string raw (mkScan tok false 0) = (true, mkScan raw false (length raw - 0))).
  { assert (B : before raw ([] ++ field_text (Bare raw) ++ []) (mkScan tok false 0)) by (cbn [app field_text]; rewrite app_nil_r; apply before_start).
    exact (proj1 (get_field _ _ _ (Bare raw) [] B (Forall_nil _) O I)). }
  assert (IE : is_end raw = true) by reflexivity.
  cbn [read_lines]. change (s_eof f) with false. cbv iota. rewrite EF. unfold read_rec. rewrite G. cbn [sc_quoted sc_tok]. rewrite ?IE. cbv iota. rewrite ?G. cbn [sc_tok]. rewrite ?IE. destruct (finish s); reflexivity.
Qed.
Lemma end_stops ccw single comp u v w rest tok s l k : Forall (fun c => ~ isspc c) w -> finish s = Some l ->
  let f := mkStream (S2 ".END_" ++ w ++ nl :: rest) false in read_lines ccw single comp u v (S k) f tok [] s = Some (l, f).
Proof. intros W E f. unfold f. rewrite (end_reads ccw single comp u v w rest tok s k W), E. reflexivity. Qed.

(** ** A loop *)

Definition way_items (i : Z) (w : qloop) : list item :=
  match w with [] => [] | s :: _ => mkIt i (q_start s) (S2 "0") :: map (fun g => mkIt i (q_end g) (out_deg (q_ang g))) w end.

Definition fit_way (u : unit_of) (w : qloop) : Prop :=
  exists s mid z, w = s :: mid ++ [z] /\ joined (q_start s) w /\ q_end z = q_start s /\ Forall line_or_arc w /\ Forall sized_seg w /\
    Forall (fun g => apart u (q_end g) (q_start s)) mid.

Definition came (u : unit_of) (g : qseg) : qseg := new_seg (back_pt u (q_start g)) (back_pt u (q_end g)) (back_text (out_deg (q_ang g))).
Definition mark_of (u : unit_of) (g : qseg) : mark := (back_pt u (q_end g), back_text (out_deg (q_ang g))).

Lemma pt_near u p : sized_pt p -> near_pt u p (back_pt u p).
Proof. intros [A B]. destruct (num_back u _ A) as (_ & _ & _ & _ & _ & _ & NA). destruct (num_back u _ B) as (_ & _ & _ & _ & _ & _ & NB). split; assumption. Qed.

Lemma came_near u g : sized_seg g -> line_or_arc g -> near_seg u g (came u g).
Proof.
  intros [SA SB] LA. destruct (deg_text _ LA) as (_ & _ & a' & T & N). unfold came. rewrite (new_taken _ _ _ _ T). split; [apply pt_near, SA|]. split; [apply pt_near, SB|exact N].
Qed.

Lemma came_leads u : forall w p, joined p w -> leads (back_pt u p) (map (mark_of u) w) (map (came u) w).
Proof.
  induction w as [|g w IH]; intros p J; cbn [map]; [constructor|]. destruct J as [<- J]. unfold mark_of at 1, came at 1.
  destruct (taken_new (back_pt u (q_start g)) (back_pt u (q_end g)) (back_text (out_deg (q_ang g)))) as (a' & T & ->). constructor; [exact T|]. apply IH, J.
Qed.

Lemma fit_means u i w : u <> Tnm -> fit_way u w -> exists ms, map (it_rec u) (way_items i w) = with_index i ms /\ loop_means ms (map (came u) w) /\ near_loop u w (map (came u) w).
Proof.
  intros U (s & mid & z & EW & J & CL & LA & SZ & AP).
  exists ((back_pt u (q_start s), 0%Q) :: map (mark_of u) w). split; [|split].
  - rewrite EW at 1. unfold way_items. rewrite <- EW. cbn [map]. unfold it_rec at 1. cbn [it_idx it_pt it_ang]. rewrite (proj2 text_0). unfold with_index. cbn [map fst snd]. f_equal. rewrite !map_map. reflexivity.
  - pose proof (came_leads u w _ J) as LD. rewrite EW in LD |- *. cbn [map] in LD |- *. rewrite !map_app in LD. rewrite !map_app. cbn [map] in LD |- *.
    change [mark_of u z] with [(back_pt u (q_end z), back_text (out_deg (q_ang z)))] in *. apply means_loop.
    + unfold straight. lra.
    + assert (NR : Forall (fun n => ~ round (snd n)) (map (mark_of u) w)).
      { apply Forall_forall. intros n I. apply in_map_iff in I as (g & <- & I). rewrite Forall_forall in LA. exact (proj1 (proj2 (deg_text _ (LA g I)))). }
      rewrite EW in NR. cbn [map] in NR. rewrite map_app in NR. exact NR.
    + apply Forall_forall. intros n I. apply in_map_iff in I as (g & <- & I). cbn [mark_of fst]. rewrite Forall_forall in AP, SZ.
      apply far_apart; [apply SZ; rewrite EW; right; apply in_or_app; auto|apply SZ; rewrite EW; left; reflexivity|apply AP, I|exact U].
    + unfold mark_of. cbn [fst]. rewrite CL. unfold meets. setoid_replace ((qx (back_pt u (q_start s)) - qx (back_pt u (q_start s))) * (qx (back_pt u (q_start s)) - qx (back_pt u (q_start s))) + (qy (back_pt u (q_start s)) - qy (back_pt u (q_start s))) * (qy (back_pt u (q_start s)) - qy (back_pt u (q_start s))))%Q with 0%Q by ring. discriminate.
    + exact LD.
  - unfold near_loop. rewrite Forall_forall in LA, SZ. clear - LA SZ. induction w as [|g w IH]; cbn [map]; constructor.
    + apply came_near; [apply SZ|apply LA]; left; reflexivity.
    + apply IH; intros h I; [apply LA|apply SZ]; right; exact I.
Qed.

Lemma fit_items_ok u i w : 0 <= i <= int_max -> fit_way u w -> Forall it_ok (way_items i w).
Proof.
  intros B (s & mid & z & EW & J & CL & LA & SZ & AP). unfold way_items. rewrite EW at 1. rewrite Forall_forall in LA, SZ. constructor.
  - split; [exact B|]. split; [|apply text_0]. apply (SZ s). rewrite EW. left. reflexivity.
  - apply Forall_forall. intros t I. apply in_map_iff in I as (g & <- & I). rewrite EW in *. split; [exact B|]. split; [apply (SZ g I)|exact (proj1 (deg_text _ (LA g I)))].
Qed.

(** ** Both ways *)

Fixpoint end_of (p : qpt) (l : qloop) : qpt := match l with [] => p | g :: l' => end_of (q_end g) l' end.
Lemma joined_app a : forall p b, joined p (a ++ b) <-> joined p a /\ joined (end_of p a) b.
Proof. induction a as [|g a IH]; intros p b; cbn [app joined end_of]; [tauto|]. rewrite IH. tauto. Qed.
Lemma end_snoc a : forall p g, end_of p (a ++ [g]) = q_end g.
Proof. induction a as [|h a IH]; intros p g; cbn [app end_of]; [reflexivity|]. apply IH. Qed.
Lemma joined_rev l : forall p, joined p l -> joined (end_of p l) (rev (map flip l)) /\ end_of (end_of p l) (rev (map flip l)) = p.
Proof.
  induction l as [|g l IH]; intros p J; cbn [map rev joined end_of]; [auto|]. destruct J as [E J]. destruct (IH _ J) as [J' E']. split.
  - apply joined_app. split; [exact J'|]. rewrite E'. cbn. auto.
  - rewrite end_snoc. cbn. exact E.
Qed.

Lemma shut_form s mid z : shut (s :: mid ++ [z]) = s :: mid ++ [mkQs (q_start z) (q_start s) (q_ang z)].
Proof.
  unfold shut. change (s :: mid ++ [z]) with ((s :: mid) ++ [z]). rewrite removelast_last, last_last. reflexivity.
Qed.

Lemma line_flip g : line_or_arc g -> line_or_arc (flip g).
Proof. unfold line_or_arc, flip. cbn [q_ang]. rewrite Qabs_opp. intros [Z|B]; [left; rewrite Z; reflexivity|right; exact B]. Qed.

Lemma shut_fit u s mid z : let l := s :: mid ++ [z] in joined (q_start s) l -> Forall line_or_arc l -> Forall sized_seg l ->
  Forall (fun g => apart u (q_end g) (q_start s)) mid -> fit_way u (shut l).
Proof.
  intros l J LA SZ AP. unfold l in *. rewrite shut_form. exists s, mid, (mkQs (q_start z) (q_start s) (q_ang z)). split; [reflexivity|].
  cbn [joined] in *. destruct J as [_ J]. apply joined_app in J as [J1 J2]. split; [split; [reflexivity|apply joined_app; split; [exact J1|exact J2]]|]. split; [reflexivity|].
  inversion LA as [|? ? L1 L2]; subst. apply Forall_app in L2 as [L2 L3]. inversion L3 as [|? ? L4 _]; subst.
  inversion SZ as [|? ? S1 S2]; subst. apply Forall_app in S2 as [S2 S3]. inversion S3 as [|? ? S4 _]; subst.
  split; [constructor; [exact L1|apply Forall_app; split; [exact L2|constructor; [exact L4|constructor]]]|].
  split; [constructor; [exact S1|apply Forall_app; split; [exact S2|constructor; [|constructor]]]|exact AP]. split; [apply S4|apply S1].
Qed.

Lemma other_form s mid z : other_way (s :: mid ++ [z]) = flip s :: match mid with [] => [] | _ => rev (map flip (tl mid ++ [z])) end ++ [flip (hd z mid)].
Proof.
  unfold other_way. f_equal. destruct mid as [|m mid]; [reflexivity|]. cbn [app map rev hd tl]. reflexivity.
Qed.

Lemma other_fit u s mid z : let l := s :: mid ++ [z] in fit_way u l -> q_end z = q_start s -> joined (q_start s) l ->
  Forall (fun g => apart u (q_start g) (q_end s)) (tl mid ++ match mid with [] => [] | _ => [z] end) -> fit_way u (other_way l).
Proof.
  intros l (_ & _ & _ & _ & _ & _ & LA & SZ & _) CL J AP. unfold l in *. rewrite other_form.
  assert (IN : forall (P : qseg -> Prop), Forall P (s :: mid ++ [z]) -> (forall g, P g -> P (flip g)) ->
    Forall P (flip s :: match mid with [] => [] | _ => rev (map flip (tl mid ++ [z])) end ++ [flip (hd z mid)])).
  { intros P F K. rewrite Forall_forall in F. constructor; [apply K, F; left; reflexivity|]. apply Forall_app. split.
    - destruct mid as [|m mid]; [constructor|]. apply Forall_rev, Forall_forall. intros g I. apply in_map_iff in I as (h & <- & I). apply K, F. right. cbn [tl] in I. apply in_app_iff in I. cbn [app In]. rewrite in_app_iff. tauto.
    - constructor; [|constructor]. apply K, F. right. destruct mid; [left; reflexivity|left; reflexivity]. }
  eexists (flip s), _, (flip (hd z mid)). split; [reflexivity|]. split; [|split; [|split; [|split]]].
  - cbn [joined]. split; [reflexivity|]. destruct J as [_ J]. destruct (joined_rev _ _ J) as [J' _]. rewrite end_snoc, CL in J'. cbn [flip q_end].
    destruct mid as [|m mid]; [exact J'|]. cbn [app map rev tl hd] in *. exact J'.
  - destruct J as [_ J]. cbn [flip q_end q_start]. destruct mid as [|m mid]; [apply J|apply J].
  - apply IN; [exact LA|exact line_flip].
  - apply IN; [exact SZ|]. intros g [A B]. split; assumption.
  - destruct mid as [|m mid]; [constructor|]. cbn [tl] in AP. cbn [tl]. apply Forall_rev, Forall_forall. intros g I. apply in_map_iff in I as (h & <- & I). rewrite Forall_forall in AP. exact (AP h I).
Qed.

(** ** The whole section *)

(** The number with which a loop is written. *)
Definition number_of (ccw : qloop -> bool) (single : bool) (i : Z) (l : qloop) : Z :=
  if single then match l with [_] => 0 | _ => if ccw l then 0 else 1 end else i.

Lemma flat_items u i (h : qseg -> qpt) (a : qseg -> str) w : flat_map (fun g => out_line u i (h g) (a g)) w = flat_map (it_text u) (map (fun g => mkIt i (h g) (a g)) w).
Proof. induction w as [|g w IH]; cbn [flat_map map]; [reflexivity|]. rewrite IH. reflexivity. Qed.

Lemma outline_again ccw single u l i : u <> Tnm -> loop_fit u l -> 0 <= i <= int_max ->
  exists its ms l', let n := number_of ccw single i l in
    write_outline ccw single u l i = Some (flat_map (it_text u) its) /\ Forall it_ok its /\
    map (it_rec u) its = with_index n ms /\ loop_means ms l' /\ near_loop u (way ccw single i l) l'.
Proof.
  intros U [SZ F] B. destruct F as [(s & -> & A)|(s & mid & z & EL & J & LA & AP1 & AP2)].
  - set (n := number_of ccw single i [s]). assert (BN : 0 <= n <= int_max) by (unfold n, number_of; destruct single; unfold int_max in *; lia).
    inversion SZ as [|? ? [S1 S2'] _]; subst. destruct text_0 as [T0 V0]. destruct text_360 as [T3 V3].
    assert (R3 : round (back_text (S2 "360"))) by (unfold round; rewrite V3; split; reflexivity).
    exists [mkIt n (q_start s) (S2 "0"); mkIt n (q_end s) (S2 "360")], [(back_pt u (q_start s), back_text (S2 "0")); (back_pt u (q_end s), back_text (S2 "360"))], [mkQs (back_pt u (q_start s)) (back_pt u (q_end s)) 360].
    cbv zeta. split; [|split; [|split; [|split]]].
    + unfold write_outline, is_circle. rewrite A. change (full_deg 360) with true. cbn [negb]. unfold n, number_of. cbn [flat_map]. rewrite app_nil_r. destruct single; reflexivity.
    + constructor; [split; [exact BN|split; [exact S1|exact T0]]|constructor; [split; [exact BN|split; [exact S2'|exact T3]]|constructor]].
    + reflexivity.
    + apply means_circle; [rewrite V0; unfold straight; lra|exact R3|]. constructor; [right; left; auto|constructor].
    + unfold way, near_loop. constructor; [|constructor]. split; [apply pt_near, S1|]. split; [apply pt_near, S2'|]. cbn [q_ang]. rewrite A. discriminate.
  - set (n := number_of ccw single i l).
    assert (NB : 0 <= n <= int_max) by (unfold n, number_of; destruct single; [destruct l as [|? [|]]; try destruct (ccw _); unfold int_max in *; lia|exact B]).
    assert (SF : fit_way u (shut l)) by (rewrite EL in *; apply shut_fit; assumption).
    set (z' := mkQs (q_start z) (q_start s) (q_ang z)).
    assert (ES : shut l = s :: mid ++ [z']) by (rewrite EL; apply shut_form).
    assert (WAY : way ccw single i l = if negb single && Bool.eqb (ccw l) (0 <? i) then other_way (shut l) else shut l).
    { unfold way. rewrite EL. destruct mid; reflexivity. }
    assert (NN : n = if single then if ccw l then 0 else 1 else i).
    { unfold n, number_of. rewrite EL. destruct single; [|reflexivity]. destruct mid; reflexivity. }
    assert (WO : write_outline ccw single u l i = if (ccw l && (0 <? n)) || (negb (ccw l) && (n =? 0)) then
        match mid ++ [z] with [] => None | t :: l'' => Some (out_line u n (q_end s) (S2 "0") ++ out_line u n (q_start s) (out_deg (- q_ang s)) ++
            flat_map (fun g => out_line u n (q_start g) (out_deg (- q_ang g))) (rev (mkQs (q_end s) (q_end t) (q_ang t) :: l''))) end
      else Some (out_line u n (q_start s) (S2 "0") ++ flat_map (fun g => out_line u n (q_end g) (out_deg (q_ang g))) (removelast l ++ [mkQs (q_start (last l s)) (q_start s) (q_ang (last l s))]))).
    { rewrite NN. rewrite EL. unfold write_outline. destruct mid; reflexivity. }
    assert (COND : (ccw l && (0 <? n)) || (negb (ccw l) && (n =? 0)) = negb single && Bool.eqb (ccw l) (0 <? i)).
    { rewrite NN. destruct single; cbn [negb andb]; [destruct (ccw l); reflexivity|]. destruct (ccw l); cbn [negb andb orb].
      - rewrite orb_false_r. destruct (0 <? i); reflexivity.
      - destruct (0 <? i) eqn:P; cbn; [destruct (i =? 0) eqn:Z; [lia|reflexivity]|destruct (i =? 0) eqn:Z; [reflexivity|lia]]. }
    assert (GO : fit_way u (way ccw single i l) /\ write_outline ccw single u l i = Some (flat_map (it_text u) (way_items n (way ccw single i l)))).
    { rewrite WO, COND, WAY. destruct (negb single && Bool.eqb (ccw l) (0 <? i)).
      - split.
        + rewrite ES in *. apply other_fit; [exact SF|reflexivity| |].
          * rewrite EL in J. cbn [joined] in J |- *. destruct J as [_ J]. apply joined_app in J as [J1 J2]. split; [reflexivity|]. apply joined_app. split; [exact J1|]. exact J2.
          * destruct mid as [|m mid]; [constructor|]. apply Forall_app in AP2 as [X1 X2]. apply Forall_app. split; [exact X1|]. inversion X2 as [|? ? X3 _]; subst. constructor; [exact X3|constructor].
        + rewrite ES. unfold way_items, other_way. cbn [map flat_map flip q_start q_end q_ang]. unfold it_text at 1 2. cbn [it_idx it_pt it_ang].
          assert (JT : match mid ++ [z] with [] => True | t :: _ => q_start t = q_end s end).
          { rewrite EL in J. cbn [joined] in J. destruct J as [_ J]. destruct (mid ++ [z]); [exact I|]. apply J. }
          destruct (mid ++ [z]) as [|t l''] eqn:EM; [destruct mid; discriminate|]. do 3 f_equal. rewrite flat_items. f_equal.
          assert (SAME : map (fun g => mkIt n (q_start g) (out_deg (- q_ang g))) (mkQs (q_end s) (q_end t) (q_ang t) :: l'') = map (fun g => mkIt n (q_start g) (out_deg (- q_ang g))) (mid ++ [z'])).
          { rewrite <- JT. transitivity (map (fun g => mkIt n (q_start g) (out_deg (- q_ang g))) (mid ++ [z])); [rewrite EM; reflexivity|]. rewrite !map_app. reflexivity. }
          rewrite !map_rev, SAME, map_map. reflexivity.
      - split; [exact SF|]. unfold way_items. fold (shut l).
        assert (EH : removelast l ++ [mkQs (q_start (last l s)) (q_start s) (q_ang (last l s))] = shut l) by (rewrite EL; reflexivity).
        rewrite EH, flat_items. rewrite ES at 2. cbn [flat_map]. f_equal. }
    destruct GO as [FW WR]. destruct (fit_means u n _ U FW) as (ms & EM & LM & NL).
    exists (way_items n (way ccw single i l)), ms, (map (came u) (way ccw single i l)). cbv zeta. split; [exact WR|]. split; [exact (fit_items_ok u n _ NB FW)|]. auto.
Qed.

Lemma loops_again ccw u : u <> Tnm -> forall ls i, Forall (loop_fit u) ls -> 0 <= i -> i + Z.of_nat (length ls) <= int_max + 1 ->
  exists its gs ls', write_loops ccw false u ls i = Some (flat_map (it_text u) its) /\ Forall it_ok its /\
    map (it_rec u) its = numbered i gs /\ Forall2 loop_means gs ls' /\ Forall2 (near_loop u) (ways ccw false i ls) ls'.
Proof.
  intros U. induction ls as [|l ls IH]; intros i F P B; cbn [write_loops ways].
  - exists [], [], []. repeat split; constructor.
  - inversion F as [|? ? F1 F2]; subst. cbn [length] in B.
    destruct (outline_again ccw false u l i U F1 ltac:(lia)) as (its & ms & l' & W & OK & M & LM & NL). cbn [number_of] in M.
    destruct (IH (i + 1) F2 ltac:(lia) ltac:(lia)) as (its2 & gs & ls' & W2 & OK2 & M2 & LM2 & NL2).
    exists (its ++ its2), (ms :: gs), (l' :: ls'). rewrite W, W2, flat_map_app. split; [reflexivity|]. split; [apply Forall_app; auto|].
    split; [rewrite map_app, M, M2; reflexivity|]. split; constructor; assumption.
Qed.

Lemma near_split u ws : forall ls' a l b, Forall2 (near_loop u) ws ls' -> ls' = a ++ l :: b ->
  exists a' w b', ws = a' ++ w :: b' /\ length a' = length a /\ length b' = length b /\ near_loop u w l.
Proof.
  induction ws as [|w ws IH]; intros ls' a l b F E; [inversion F; subst; destruct a; discriminate|]. destruct ls' as [|l0 ls0]; [inversion F|]. inversion F as [|? ? ? ? N F']; clear F; subst.
  destruct a as [|x a]; cbn [app] in E; injection E as -> ->.
  - exists [], w, ws. split; [reflexivity|]. split; [reflexivity|]. split; [exact (Forall2_len _ _ _ F')|exact N].
  - destruct (IH _ a l b F' eq_refl) as (a' & w' & b' & -> & L1 & L2 & N'). exists (w :: a'), w', b'. cbn [length]. split; [reflexivity|]. split; [now rewrite L1|]. auto.
Qed.

Lemma turns_wound ccw u ws ls' : turns_kept ccw u ws -> Forall2 (near_loop u) ws ls' -> wound ccw ls'.
Proof.
  intros T F a l b E N. destruct (near_split u ws ls' a l b F E) as (a' & w & b' & EW & L1 & L2 & NL).
  destruct (T a' w b' EW) as [T1 T2]. { intros ->. destruct b; [congruence|discriminate]. }
  split.
  - intros ->. destruct a'; [|discriminate]. exact (T1 eq_refl l NL).
  - intros NA C. destruct T2 as [S|S]. { intros ->. destruct a; [congruence|discriminate]. }
    + rewrite (S l NL) in C. discriminate.
    + rewrite <- S. symmetry. exact (Forall2_len _ _ _ NL).
Qed.

Lemma round_trip ccw single comp u v ls : u <> Tnm -> Forall (loop_fit u) ls -> Z.of_nat (length ls) <= int_max + 1 ->
  (single = true -> (length ls <= 1)%nat) -> (single = false -> turns_kept ccw u (ways ccw single 0 ls)) ->
  exists text ls', write_outlines ccw single u ls = Some text /\ Forall2 (near_loop u) (ways ccw single 0 ls) ls' /\
    forall w rest, Forall (fun c => ~ isspc c) w ->
      let after := mkStream (S2 ".END_" ++ w ++ nl :: rest) false in
      read_outlines ccw single comp u v (mkStream (text ++ s_rest after) false) = Some (ls', after).
Proof.
  intros U F B SG T.
  assert (H : exists its ls', write_outlines ccw single u ls = Some (flat_map (it_text u) its) /\ Forall it_ok its /\
     section_means ccw single (map (it_rec u) its) ls' /\ Forall2 (near_loop u) (ways ccw single 0 ls) ls').
  { unfold write_outlines. destruct single.
    - specialize (SG eq_refl). destruct ls as [|l [|x ls]]; [|clear T|cbn in SG; lia].
      + exists [], []. split; [reflexivity|]. split; [constructor|]. split; [|constructor]. exists 0, []. split; [reflexivity|]. split; [constructor|]. split; [auto|]. split; [cbn; lia|]. intros a l b E. destruct a; discriminate.
      + inversion F as [|? ? F1 _]; subst. destruct (outline_again ccw true u l 0 U F1 ltac:(unfold int_max; lia)) as (its & ms & l' & W & OK & M & LM & NL). cbv zeta in *.
        exists its, [l']. cbn [write_loops ways]. rewrite W, app_nil_r. split; [reflexivity|]. split; [exact OK|]. split; [|constructor; [exact NL|constructor]].
        exists (number_of ccw true 0 l), [ms]. split; [cbn [numbered]; rewrite app_nil_r; exact M|]. split; [constructor; [exact LM|constructor]|].
        split; [unfold number_of; destruct l as [|? [|]]; try destruct (ccw _); auto|]. split; [cbn; lia|]. intros a x b E NB. destruct a as [|? [|]]; cbn in E; [injection E as <- <-; congruence|discriminate|discriminate].
    - destruct (loops_again ccw u U ls 0 F ltac:(lia) ltac:(lia)) as (its & gs & ls' & W & OK & M & LM & NL). exists its, ls'. split; [exact W|]. split; [exact OK|]. split; [|exact NL].
      exists 0, gs. split; [exact M|]. split; [exact LM|]. split; [auto|]. split; [discriminate|]. exact (turns_wound ccw u _ _ (T eq_refl) NL). }
  destruct H as (its & ls' & W & OK & SM & NL). exists (flat_map (it_text u) its), ls'. split; [exact W|]. split; [exact NL|].
  intros w rest NW after. destruct (complete _ _ _ _ SM) as (s & ST & FI).
  unfold read_outlines. cbn [s_rest].
  assert (LE : (length its <= length (flat_map (it_text u) its))%nat).
  { apply flat_len. intros [i p a]. unfold it_text, out_line. intros E. apply app_eq_nil in E as [_ E]. discriminate. }
  set (total := length (flat_map (it_text u) its ++ s_rest after)).
  assert (LT : (length its <= total)%nat) by (unfold total; rewrite app_length; lia).
  replace (S total) with (length its + S (total - length its))%nat by lia.
  destruct (run_items ccw single comp u v its U OK r_init s (S (total - length its)) [] (s_rest after) ST) as (tok' & ->).
  exact (end_stops ccw single comp u v w rest tok' s ls' _ NW FI).
Qed.
