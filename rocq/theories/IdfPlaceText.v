(** Proofs about the text of the section .PLACEMENT. *)

From Coq Require Import Lia Lqa.
From Verif Require Import Base Num IoModel IdfText IdfPlace Spec NumFacts RealFacts IdfSpec IdfFacts IdfNum IdfRound IdfLine IdfSect IdfPlaceSpec IdfPlaceFacts.
Open Scope Z_scope.

(** ** Keywords *)

Lemma ref_read s r : read_ref s = Some r <-> ref_word r s.
Proof.
  unfold read_ref, ref_word.
  destruct (key_cases "NOREFDES" s eq_refl) as [[-> A]|[-> A]].
  { destruct r as [t|]; [|tauto]. split; [discriminate|]. tauto. }
  destruct (key_cases "BOARD" s eq_refl) as [[-> B]|[-> B]].
  { split; [discriminate|]. destruct r; tauto. }
  destruct (key_cases "PANEL" s eq_refl) as [[-> C]|[-> C]].
  { split; [discriminate|]. destruct r; tauto. }
  destruct s as [|c s]; [split; [discriminate|]; destruct r; [intros (_ & N & _); congruence|contradiction]|].
  split.
  - intros H. injection H as <-. split; [reflexivity|]. split; [discriminate|]. auto.
  - destruct r as [t|]; [|contradiction]. intros (-> & _). reflexivity.
Qed.

Lemma side_read s x : read_side s = Some x <-> side_word x s.
Proof.
  unfold read_side, side_word.
  destruct (key_cases "TOP" s eq_refl) as [[-> A]|[-> A]].
  { split; [intros H; injection H as <-; exact A|]. destruct x; [reflexivity|]. intros H. excl. }
  destruct (key_cases "BOTTOM" s eq_refl) as [[-> B]|[-> B]].
  { split; [intros H; injection H as <-; exact B|]. destruct x; [contradiction|reflexivity]. }
  split; [discriminate|]. destruct x; contradiction.
Qed.

Lemma placing_read v k s x : read_placing v k s = Some x <-> placing_word v k x s.
Proof.
  unfold read_placing, placing_word.
  destruct (key_cases "PLACED" s eq_refl) as [[-> A]|[-> A]].
  { split; [intros H; injection H as <-; exact A|]. destruct x, v; intros H; try reflexivity; try destruct H as [_ H]; excl. }
  destruct (key_cases "UNPLACED" s eq_refl) as [[-> B]|[-> B]].
  { split; [intros H; injection H as <-; exact B|]. destruct x, v; intros H; try reflexivity; try contradiction; try destruct H as [_ H]; excl. }
  destruct v.
  - destruct (key_cases "FIXED" s eq_refl) as [[-> C]|[-> C]].
    + split; [intros H; injection H as <-; destruct k; auto|]. destruct x; try contradiction; intros (-> & _); reflexivity.
    + split; [discriminate|]. destruct x; try contradiction; intros (_ & H); contradiction.
  - destruct (key_cases "MCAD" s eq_refl) as [[-> C]|[-> C]].
    { split; [intros H; injection H as <-; exact C|]. destruct x; intros H; try reflexivity; try contradiction; excl. }
    destruct (key_cases "ECAD" s eq_refl) as [[-> D]|[-> D]].
    { split; [intros H; injection H as <-; exact D|]. destruct x; intros H; try reflexivity; contradiction. }
    split; [discriminate|]. destruct x; contradiction.
Qed.

(** ** The first line *)

Lemma names_first f line f' b fs : read_line f = Some (line, false, f') -> laid_out b fs line ->
  match fs with
  | g :: more =>
      if negb (in_quotes g) && compare_token ".END_PLACEMENT" (value g) then read_names f = Over f'
      else match more with
           | p :: n :: _ => read_names f = Got (mkNames (value g) (value p), value n) f'
           | _ => read_names f = Wrong
           end
  | [] => read_names f = Wrong
  end.
Proof.
  intros R L. unfold read_names. rewrite R.
  destruct fs as [|g more].
  - pose proof (before_start line [] false) as B.
    assert (X : exists st, get_string line (mkScan [] false 0) = (false, st) /\ sc_idx st = length line /\ sc_tok st = []).
    { inversion L; subst.
      - destruct (get_none _ _ _ B H) as (st & G & I & T & _). eauto.
      - destruct (get_torn _ _ _ _ B H H0) as (st & G & I & T & _). eauto. }
    destruct X as (st & -> & I & ->).
    assert (W : word line st = None).
    { unfold word, get_string. rewrite I, Nat.leb_refl. reflexivity. }
    destruct (negb (sc_quoted st)); cbn [andb]; rewrite W; reflexivity.
  - pose proof (first_laid b (g :: more) line L) as F. cbn zeta in F.
    destruct (get_string line (mkScan [] false 0)) as [ok st]. cbn [snd] in F.
    destruct F as (T & Q & rest & B & L'). rewrite T, Q.
    destruct (negb (in_quotes g) && compare_token ".END_PLACEMENT" (value g)); [reflexivity|].
    pose proof (word_laid _ _ _ _ _ L' B) as W. clear L' B.
    destruct more as [|p more]; [rewrite W; reflexivity|].
    destruct W as (st2 & r2 & -> & _ & B & L').
    pose proof (word_laid _ _ _ _ _ L' B) as W. clear L' B.
    destruct more as [|n more]; [rewrite W; reflexivity|].
    destruct W as (st3 & r3 & -> & _ & _). reflexivity.
Qed.

(** ** The second line *)

Definition conv (u : unit_of) (q : Q) : Q := match u with Thou => (q * thou_to_mm)%Q | _ => q end.

Lemma conv_unit u q : (conv u q == q * place_unit u)%Q.
Proof. destruct u; cbn [conv place_unit]; [ring|reflexivity|ring]. Qed.

Lemma loose_laid b fs rest line st : laid_out b fs rest -> before line rest st ->
  match fs with
  | [] => loose line st = None
  | f :: fs' =>
      match stream_num (value f) with
      | None => loose line st = None
      | Some q => exists st' rest', loose line st = Some (q, st') /\ before line rest' st' /\ laid_out b fs' rest'
      end
  end.
Proof.
  intros L B. unfold loose. pose proof (word_laid _ _ _ _ _ L B) as W. destruct fs as [|f fs]; [rewrite W; reflexivity|].
  destruct W as (st' & rest' & -> & _ & B' & L'). destruct (stream_num (value f)) as [q|]; [|reflexivity].
  exists st', rest'. auto.
Qed.

(** The part after the numbers. *)
Lemma tail_laid b fs rest line st : laid_out b fs rest -> before line rest st ->
  forall v k (F : side -> placing -> got (Q * Q * Q * Q * side * placing)),
  match fs with
  | s :: h :: _ =>
     match word line st with None => Wrong | Some (sd, st) =>
     match read_side sd with None => Wrong | Some s =>
     match word line st with None => Wrong | Some (pl, _) =>
     match read_placing v k pl with None => Wrong | Some h => F s h end end end end =
     match read_side (value s), read_placing v k (value h) with Some s, Some h => F s h | _, _ => Wrong end
  | _ =>
     match word line st with None => Wrong | Some (sd, st) =>
     match read_side sd with None => Wrong | Some s =>
     match word line st with None => Wrong | Some (pl, _) =>
     match read_placing v k pl with None => Wrong | Some h => F s h end end end end = Wrong
  end.
Proof.
  intros L B v k F. pose proof (word_laid _ _ _ _ _ L B) as W. clear L B.
  destruct fs as [|s fs]; [rewrite W; reflexivity|]. destruct W as (st2 & r2 & -> & _ & B & L).
  pose proof (word_laid _ _ _ _ _ L B) as W. clear L B.
  destruct fs as [|h fs].
  - destruct (read_side (value s)); [|reflexivity]. rewrite W. reflexivity.
  - destruct W as (st3 & r3 & W & _). rewrite W. destruct (read_side (value s)); [|reflexivity].
    destruct (read_placing v k (value h)); reflexivity.
Qed.

Lemma spot_line f line f' b fs u v k : read_line f = Some (line, false, f') -> laid_out b fs line -> s_eof f' = false ->
  match v, fs with
  | V3, Bare a :: y :: z :: d :: s :: h :: _ =>
      read_spot f u v k =
        match stream_num a, stream_num (value y), stream_num (value z), stream_num (value d), read_side (value s), read_placing V3 k (value h) with
        | Some qa, Some qb, Some qc, Some qd, Some s, Some h => Got (conv u qa, conv u qb, conv u qc, qd, s, h) f'
        | _, _, _, _, _, _ => Wrong
        end
  | V2, Bare a :: y :: d :: s :: h :: _ =>
      read_spot f u v k =
        match stream_num a, stream_num (value y), stream_num (value d), read_side (value s), read_placing V2 k (value h) with
        | Some qa, Some qb, Some qd, Some s, Some h => Got (conv u qa, conv u qb, conv u 0%Q, qd, s, h) f'
        | _, _, _, _, _ => Wrong
        end
  | _, _ => read_spot f u v k = Wrong
  end.
Proof.
  intros R L E.
  assert (W0 : fs = [] -> read_spot f u v k = Wrong).
  { intros ->. unfold read_spot. rewrite R, E. pose proof (first_laid b [] line L) as F. cbn zeta in F.
    destruct (get_string line (mkScan [] false 0)) as [ok st]. cbn [snd] in F. destruct F as (_ & T). rewrite T.
    destruct (sc_quoted st); reflexivity. }
  destruct fs as [|[a|a] fs]; [destruct v; auto| |].
  2: { assert (X : read_spot f u v k = Wrong).
       { unfold read_spot. rewrite R, E. pose proof (first_laid b _ line L) as F. cbn zeta in F.
         destruct (get_string line (mkScan [] false 0)) as [ok st]. cbn [snd] in F. destruct F as (_ & Q & _). rewrite Q. reflexivity. }
       destruct v; exact X. }
  clear W0. unfold read_spot. rewrite R, E. pose proof (first_laid b _ line L) as F. cbn zeta in F.
  destruct (get_string line (mkScan [] false 0)) as [ok st]. cbn [snd] in F. destruct F as (T & Q & rest & B & L').
  rewrite T, Q. cbn [in_quotes value]. clear T Q L.
  destruct (stream_num a) as [qa|].
  2: { destruct v.
       - destruct fs as [|y [|d [|s [|h fs]]]]; reflexivity.
       - destruct fs as [|y [|z [|d [|s [|h fs]]]]]; reflexivity. }
  pose proof (loose_laid _ _ _ _ _ L' B) as W. clear L' B.
  destruct fs as [|y fs]; [rewrite W; destruct v; reflexivity|].
  destruct (stream_num (value y)) as [qb|].
  2: { rewrite W. destruct v.
       - destruct fs as [|d [|s [|h fs]]]; reflexivity.
       - destruct fs as [|z [|d [|s [|h fs]]]]; reflexivity. }
  destruct W as (st2 & r2 & -> & B & L). destruct v.
  - pose proof (loose_laid _ _ _ _ _ L B) as W. clear L B.
    destruct fs as [|d fs]; [rewrite W; reflexivity|].
    destruct (stream_num (value d)) as [qd|]; [|rewrite W; destruct fs as [|s [|h fs]]; reflexivity].
    destruct W as (st3 & r3 & -> & B & L).
    pose proof (tail_laid _ _ _ _ _ L B V2 k (fun s h => Got (conv u qa, conv u qb, conv u 0%Q, qd, s, h) f')) as X.
    destruct fs as [|s [|h fs]]; exact X.
  - pose proof (loose_laid _ _ _ _ _ L B) as W. clear L B.
    destruct fs as [|z fs]; [rewrite W; reflexivity|].
    destruct (stream_num (value z)) as [qc|]; [|rewrite W; destruct fs as [|d [|s [|h fs]]]; reflexivity].
    destruct W as (st3 & r3 & -> & B & L).
    pose proof (loose_laid _ _ _ _ _ L B) as W. clear L B.
    destruct fs as [|d fs]; [rewrite W; reflexivity|].
    destruct (stream_num (value d)) as [qd|]; [|rewrite W; destruct fs as [|s [|h fs]]; reflexivity].
    destruct W as (st4 & r4 & -> & B & L).
    pose proof (tail_laid _ _ _ _ _ L B V3 k (fun s h => Got (conv u qa, conv u qb, conv u qc, qd, s, h) f')) as X.
    destruct fs as [|s [|h fs]]; exact X.
Qed.

(** ** Both lines *)

Lemma spot_means_iff f line f' b fs u v k : read_line f = Some (line, false, f') -> laid_out b fs line -> s_eof f' = false ->
  (forall x y z a s h g, read_spot f u v k = Got (x, y, z, a, s, h) g ->
     g = f' /\ forall n r, spot_means u k v fs (mkPrec n r x y z a s h)) /\
  (forall r, spot_means u k v fs r -> exists x y z a, read_spot f u v k = Got (x, y, z, a, r_side r, r_how r) f' /\
     (r_x r == x)%Q /\ (r_y r == y)%Q /\ (r_z r == z)%Q /\ (r_a r == a)%Q) /\
  (forall g, read_spot f u v k <> Over g).
Proof.
  intros R L E. pose proof (spot_line f line f' b fs u v k R L E) as S. destruct v.
  - assert (NO : read_spot f u V2 k = Wrong -> (forall r, ~ spot_means u k V2 fs r) ->
      (forall x y z a s h g, read_spot f u V2 k = Got (x, y, z, a, s, h) g ->
        g = f' /\ forall n r, spot_means u k V2 fs (mkPrec n r x y z a s h)) /\
      (forall r, spot_means u k V2 fs r -> exists x y z a, read_spot f u V2 k = Got (x, y, z, a, r_side r, r_how r) f' /\
        (r_x r == x)%Q /\ (r_y r == y)%Q /\ (r_z r == z)%Q /\ (r_a r == a)%Q) /\
      (forall g, read_spot f u V2 k <> Over g)).
    { intros -> N. split; [discriminate|]. split; [intros r M; destruct (N r M)|discriminate]. }
    destruct fs as [|[a|a] [|y [|d [|s [|h more]]]]]; try (apply NO; [exact S|intros r M; inversion M]).
    clear NO. rewrite S. split; [|split].
    + intros x0 y0 z0 a0 s0 h0 g.
      destruct (stream_num a) as [qa|] eqn:NA; [|discriminate]. destruct (stream_num (value y)) as [qb|] eqn:NB; [|discriminate].
      destruct (stream_num (value d)) as [qd|] eqn:ND; [|discriminate]. destruct (read_side (value s)) as [s1|] eqn:RS; [|discriminate].
      destruct (read_placing V2 k (value h)) as [h1|] eqn:RH; [|discriminate]. intros H. injection H as <- <- <- <- <- <- <-.
      split; [reflexivity|]. intros n r. apply side_read in RS. apply placing_read in RH.
      apply (spot_v2 u k a y d s h more qa qb qd); cbn [r_x r_y r_z r_a r_side r_how]; auto; try apply conv_unit; try reflexivity.
      rewrite conv_unit. ring.
    + intros r M. inversion M as [|a0 y0 d0 s0 h0 more0 qa qb qd r0 N1 N2 N3 E1 E2 E3 E4 SW PW X1 X2 X3]; subst.
      apply side_read in SW. apply placing_read in PW. rewrite N1, N2, N3, SW, PW.
      eexists _, _, _, _. split; [reflexivity|]. rewrite !conv_unit. rewrite E1, E2, E3, E4. repeat split; try reflexivity.
    + intros g. destruct (stream_num a); [|discriminate]. destruct (stream_num (value y)); [|discriminate].
      destruct (stream_num (value d)); [|discriminate]. destruct (read_side (value s)); [|discriminate].
      destruct (read_placing V2 k (value h)); discriminate.
  - assert (NO : read_spot f u V3 k = Wrong -> (forall r, ~ spot_means u k V3 fs r) ->
      (forall x y z a s h g, read_spot f u V3 k = Got (x, y, z, a, s, h) g ->
        g = f' /\ forall n r, spot_means u k V3 fs (mkPrec n r x y z a s h)) /\
      (forall r, spot_means u k V3 fs r -> exists x y z a, read_spot f u V3 k = Got (x, y, z, a, r_side r, r_how r) f' /\
        (r_x r == x)%Q /\ (r_y r == y)%Q /\ (r_z r == z)%Q /\ (r_a r == a)%Q) /\
      (forall g, read_spot f u V3 k <> Over g)).
    { intros -> N. split; [discriminate|]. split; [intros r M; destruct (N r M)|discriminate]. }
    destruct fs as [|[a|a] [|y [|z [|d [|s [|h more]]]]]]; try (apply NO; [exact S|intros r M; inversion M]).
    clear NO. rewrite S. split; [|split].
    + intros x0 y0 z0 a0 s0 h0 g.
      destruct (stream_num a) as [qa|] eqn:NA; [|discriminate]. destruct (stream_num (value y)) as [qb|] eqn:NB; [|discriminate].
      destruct (stream_num (value z)) as [qc|] eqn:NC; [|discriminate].
      destruct (stream_num (value d)) as [qd|] eqn:ND; [|discriminate]. destruct (read_side (value s)) as [s1|] eqn:RS; [|discriminate].
      destruct (read_placing V3 k (value h)) as [h1|] eqn:RH; [|discriminate]. intros H. injection H as <- <- <- <- <- <- <-.
      split; [reflexivity|]. intros n r. apply side_read in RS. apply placing_read in RH.
      apply (spot_v3 u k a y z d s h more qa qb qc qd); cbn [r_x r_y r_z r_a r_side r_how]; auto; try apply conv_unit; try reflexivity.
    + intros r M. inversion M as [a0 y0 z0 d0 s0 h0 more0 qa qb qc qd r0 N1 N2 N3 N4 E1 E2 E3 E4 SW PW X1 X2 X3|]; subst.
      apply side_read in SW. apply placing_read in PW. rewrite N1, N2, N3, N4, SW, PW.
      eexists _, _, _, _. split; [reflexivity|]. rewrite !conv_unit. rewrite E1, E2, E3, E4. repeat split; reflexivity.
    + intros g. destruct (stream_num a); [|discriminate]. destruct (stream_num (value y)); [|discriminate].
      destruct (stream_num (value z)); [|discriminate].
      destruct (stream_num (value d)); [|discriminate]. destruct (read_side (value s)); [|discriminate].
      destruct (read_placing V3 k (value h)); discriminate.
Qed.

Lemma end_not_names fs r : (exists a more, fs = Bare a :: more /\ same_word ".END_PLACEMENT" a) -> ~ names_mean fs r.
Proof.
  intros (a & more & -> & S) (g & p & n & more' & E & N & _). injection E as <- _. apply N. split; [reflexivity|exact S].
Qed.

Lemma place_means f u v k line1 f1 b1 fs1 line2 f2 b2 fs2 :
  read_line f = Some (line1, false, f1) -> laid_out b1 fs1 line1 ->
  read_line f1 = Some (line2, false, f2) -> laid_out b2 fs2 line2 -> s_eof f2 = false ->
  (forall r g, read_place f u v k = Got r g -> g = f2 /\ names_mean fs1 r /\ spot_means u k v fs2 r) /\
  (forall r, names_mean fs1 r -> spot_means u k v fs2 r -> exists r', read_place f u v k = Got r' f2 /\ prec_eq r r').
Proof.
  intros R1 L1 R2 L2 E. pose proof (names_first f line1 f1 b1 fs1 R1 L1) as N.
  destruct (spot_means_iff f1 line2 f2 b2 fs2 u v k R2 L2 E) as (SA & SB & SC).
  unfold read_place. split.
  - intros r g. destruct fs1 as [|g1 more]; [rewrite N; discriminate|].
    destruct (negb (in_quotes g1) && compare_token ".END_PLACEMENT" (value g1)) eqn:Q; [rewrite N; discriminate|].
    destruct more as [|p more]; [rewrite N; discriminate|]. destruct more as [|n more]; [rewrite N; discriminate|].
    rewrite N. destruct (read_ref (value n)) as [rf|] eqn:RR; [|discriminate].
    destruct (read_spot f1 u v k) as [|g'|[[[[[x y] z] a] s] h] g'] eqn:RS; try discriminate.
    intros H. injection H as <- <-. destruct (SA _ _ _ _ _ _ _ eq_refl) as (-> & SM). split; [reflexivity|].
    split; [|apply SM]. exists g1, p, n, more. split; [reflexivity|]. split; [|split; [reflexivity|apply ref_read; exact RR]].
    intros (Q1 & Q2). rewrite Q1 in Q. cbn [negb andb] in Q.
    apply (keyword_same ".END_PLACEMENT" _ (capitals ".END_PLACEMENT" eq_refl)) in Q2. congruence.
  - intros r (g1 & p & n & more & -> & Q & NN & RW) SM.
    destruct (negb (in_quotes g1) && compare_token ".END_PLACEMENT" (value g1)) eqn:QQ.
    { exfalso. apply Q. apply andb_true_iff in QQ as (Q1 & Q2). apply negb_true_iff in Q1. split; [exact Q1|].
      apply (keyword_same ".END_PLACEMENT" _ (capitals ".END_PLACEMENT" eq_refl)). exact Q2. }
    rewrite N. apply ref_read in RW. rewrite RW. destruct (SB r SM) as (x & y & z & a & -> & EX & EY & EZ & EA).
    eexists. split; [reflexivity|]. unfold prec_eq. cbn. auto 10.
Qed.

Lemma place_over f u v k line1 f1 b1 fs1 : read_line f = Some (line1, false, f1) -> laid_out b1 fs1 line1 ->
  forall g, read_place f u v k = Over g <-> g = f1 /\ exists a more, fs1 = Bare a :: more /\ same_word ".END_PLACEMENT" a.
Proof.
  intros R1 L1 g. pose proof (names_first f line1 f1 b1 fs1 R1 L1) as N. unfold read_place.
  destruct fs1 as [|g1 more]; [rewrite N; split; [discriminate|intros (_ & a & m & X & _); discriminate]|].
  destruct (negb (in_quotes g1) && compare_token ".END_PLACEMENT" (value g1)) eqn:Q.
  - rewrite N. apply andb_true_iff in Q as (Q1 & Q2). apply negb_true_iff in Q1. destruct g1 as [a|a]; [|discriminate].
    cbn [value] in Q2. apply (keyword_same ".END_PLACEMENT" _ (capitals ".END_PLACEMENT" eq_refl)) in Q2.
    split; [intros H; injection H as <-; split; [reflexivity|]; exists a, more; auto|]. intros (-> & _). reflexivity.
  - assert (NO : ~ exists a m, g1 :: more = Bare a :: m /\ same_word ".END_PLACEMENT" a).
    { intros (a & m & X & S). injection X as -> ->. cbn [in_quotes negb value andb] in Q.
      apply (keyword_same ".END_PLACEMENT" _ (capitals ".END_PLACEMENT" eq_refl)) in S. congruence. }
    split; [|tauto]. destruct more as [|p more]; [rewrite N; discriminate|]. destruct more as [|n more]; [rewrite N; discriminate|].
    rewrite N. destruct (read_ref (value n)); [|discriminate].
    destruct (read_spot f1 u v k) as [|g'|[[[[[x y] z] a] s] h] g']; discriminate.
Qed.

(** A comment, or the end of the file after the second line, is an exception. *)
Lemma place_refused f u v k : 
  (forall line g, read_line f = Some (line, true, g) -> read_place f u v k = Wrong) /\
  (forall line1 f1 line2 c f2 b1 fs1, read_line f = Some (line1, false, f1) -> laid_out b1 fs1 line1 ->
     (forall a more, fs1 = Bare a :: more -> ~ same_word ".END_PLACEMENT" a) ->
     read_line f1 = Some (line2, c, f2) -> c = true \/ s_eof f2 = true -> read_place f u v k = Wrong).
Proof.
  split.
  - intros line g R. unfold read_place, read_names. rewrite R. reflexivity.
  - intros line1 f1 line2 c f2 b1 fs1 R1 L1 NE R2 H.
    assert (S : read_spot f1 u v k = Wrong).
    { unfold read_spot. rewrite R2. destruct H as [-> | H]; [reflexivity|]. destruct c; [reflexivity|]. rewrite H. reflexivity. }
    pose proof (names_first f line1 f1 b1 fs1 R1 L1) as N. unfold read_place.
    destruct fs1 as [|g1 more]; [rewrite N; reflexivity|].
    destruct (negb (in_quotes g1) && compare_token ".END_PLACEMENT" (value g1)) eqn:Q.
    + exfalso. apply andb_true_iff in Q as (Q1 & Q2). apply negb_true_iff in Q1. destruct g1 as [a|a]; [|discriminate].
      apply (NE a more eq_refl). cbn [value] in Q2. apply (keyword_same ".END_PLACEMENT" _ (capitals ".END_PLACEMENT" eq_refl)). exact Q2.
    + destruct more as [|p more]; [rewrite N; reflexivity|]. destruct more as [|n more]; [rewrite N; reflexivity|].
      rewrite N. destruct (read_ref (value n)); [|reflexivity]. rewrite S. reflexivity.
Qed.
