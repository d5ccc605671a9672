(** Proofs: the lines of an outline section. *)

From Coq Require Import Lia Lqa.
From Verif Require Import Base Num IoModel IdfText Spec NumFacts RealFacts IdfSpec IdfFacts IdfNum IdfRound IdfSect IdfOutl IdfOutlSpec IdfOutlFacts IdfOutlText.
Open Scope Z_scope.

Lemma plain_rest t : plain_number t -> stream_rest t = [].
Proof.
  intros (sg & ip & fr & SG & N & D1 & D2 & T). destruct T as [-> | ->].
  - destruct ip as [|c ip]; [congruence|]. set (IP := c :: ip) in *. assert (DC : isdig c) by (inversion D1; auto). unfold stream_rest.
    assert (TS : take_sign (skip_space (sg ++ IP)) = (match sg with [] => false | _ => true end, IP)).
    { destruct SG as [->| ->]; cbn; [|reflexivity]. rewrite isdig_not_space by exact DC. destruct (isdig_not_sign c DC) as [A B]. cbn. rewrite A, B. reflexivity. }
    rewrite TS. rewrite <- (app_nil_r IP), scan_digits_app; [|exact D1|exact I]. reflexivity.
  - destruct SG as [->| ->].
    + apply (rest_decimal (length fr) _ (dval (ip ++ fr))). exists [], ip, fr. auto 10.
    + apply (rest_decimal (length fr) _ (- dval (ip ++ fr))). exists ["-"%char], ip, fr. auto 10.
Qed.

Lemma numeral_int t i : numeral t i -> i <= int_max -> stream_int t = Some (i, []) /\ is_end t = false.
Proof.
  intros (N & D & V) B. assert (P : 0 <= i) by (rewrite <- V; apply (dval_bound _ D)).
  destruct t as [|c r]; [congruence|]. assert (DC : isdig c) by (inversion D; auto). split.
  - unfold stream_int. assert (TS : take_sign (skip_space (c :: r)) = (false, c :: r)).
    { cbn [skip_space]. rewrite isdig_not_space by exact DC. cbn [take_sign]. destruct (isdig_not_sign c DC) as [-> ->]. reflexivity. }
    rewrite TS. pose proof (scan_digits_app (c :: r) [] D I 0) as SD. rewrite app_nil_r in SD. rewrite SD. cbn [length Nat.eqb].
    change (dvacc 0 (c :: r)) with (dval (c :: r)). rewrite V. destruct (i <? - int_max - 1) eqn:C1; [unfold int_max in *; lia|]. destruct (int_max <? i) eqn:C2; [lia|]. reflexivity.
  - unfold is_end. destruct (5 <=? length (c :: r))%nat; [|reflexivity]. cbn [andb].
    destruct (compare_token ".END_" (firstn 5 (c :: r))) eqn:C; [|reflexivity].
    apply (keyword_same ".END_" _) in C; [|apply capitals; reflexivity]. unfold same_word in C. cbn [firstn] in C. inversion C as [|? ? ? ? H _]; subst.
    unfold same_letter, isdig in *. cbn in H. destruct H as [<-|H]; [cbn in DC; lia|lia].
Qed.

Lemma index_int t i : signed_numeral t i -> - int_max - 1 <= i <= int_max -> stream_int t = Some (i, []) /\ is_end t = false.
Proof.
  intros [H|[(d & -> & H)|(d & -> & H)]] B; [apply numeral_int; [exact H|lia]| |];
  destruct H as (N & D & V); (assert (P : 0 <= dval d) by apply (dval_bound _ D)); (split;
  [ unfold stream_int; cbn [skip_space is_space take_sign];
    pose proof (scan_digits_app d [] D I 0) as SD; rewrite app_nil_r in SD; change (dvacc 0 d) with (dval d) in SD
  | unfold is_end; destruct (5 <=? _)%nat; [|reflexivity]; reflexivity ]).
  - change (is_space "+"%char) with false. cbv iota. cbn [take_sign]. change (Ascii.eqb "+" "-") with false. change (Ascii.eqb "+" "+") with true. cbv iota.
    rewrite SD. destruct d as [|c r]; [congruence|]. cbn [length Nat.eqb]. rewrite V.
    destruct (i <? - int_max - 1) eqn:C1; [lia|]. destruct (int_max <? i) eqn:C2; [lia|]. reflexivity.
  - change (is_space "-"%char) with false. cbv iota. cbn [take_sign]. change (Ascii.eqb "-" "-") with true. cbv iota.
    rewrite SD. destruct d as [|c r]; [congruence|]. cbn [length Nat.eqb]. rewrite V, Z.opp_involutive.
    destruct (i <? - int_max - 1) eqn:C1; [lia|]. destruct (int_max <? i) eqn:C2; [lia|]. reflexivity.
Qed.

Lemma says_read comp u v line r tok : line_says u v line r -> exists tok', read_rec comp u v line tok [] = LRec r tok' [].
Proof.
  intros (b & fs & ti & tx & ty & ta & x & y & L & NI & BI & PX & PY & PA & SX & TX & SY & TY & SA).
  destruct (calls_laid b _ line line (mkScan tok false 0) L (before_start line tok false)) as (st' & C & _).
  inversion C as [|? s1 ? ? ? G1 K1 Q1 C1]; subst. inversion C1 as [|? s2 ? ? ? G2 K2 Q2 C2]; subst. inversion C2 as [|? s3 ? ? ? G3 K3 Q3 C3]; subst. inversion C3 as [|? s4 ? ? ? G4 K4 Q4 C4]; subst.
  cbn [value in_quotes] in *. unfold read_rec. rewrite G1, Q1, K1. destruct (index_int _ _ NI BI) as [EI EE]. rewrite EE. cbn [app]. rewrite EI.
  exists ta. unfold next_num. rewrite G2, Q2, K2. cbn [app]. rewrite SX, (plain_rest _ PX). rewrite G3, Q3, K3. cbn [app]. rewrite SY, (plain_rest _ PY). rewrite G4, Q4, K4. cbn [app]. rewrite SA, (plain_rest _ PA).
  rewrite TX, TY, K4. destruct r as [i [px py] a]. reflexivity.
Qed.

Lemma laid_nonempty b t fs line : laid_out b (Bare t :: fs) line -> line <> [].
Proof.
  intros L E. inversion L as [| |? w f ? rest W O EN L']; subst. match goal with H : _ ++ _ = [] |- _ => apply app_eq_nil in H as [_ H]; apply app_eq_nil in H as [H _]; cbn in H; destruct O as [O _]; congruence end.
Qed.
Lemma says_nonempty u v line r : line_says u v line r -> line <> [].
Proof.
  intros (b & fs & ti & tx & ty & ta & x & y & L & _). exact (laid_nonempty _ _ _ _ L).
Qed.

Lemma run_lines ccw single comp u v raws rs : lines_say u v raws rs -> forall k s tok rest, exists tok',
  read_lines ccw single comp u v (length raws + k) (mkStream (with_newlines raws ++ rest) false) tok [] s =
    match steps ccw single s rs with Some s' => read_lines ccw single comp u v k (mkStream rest false) tok' [] s' | None => None end.
Proof.
  intros H. induction H as [|raw l rs W NL H IH|raw line l r rs NL NH T S H IH|raw line l r rs NL T S H IH]; intros k s tok rest.
  - exists tok. reflexivity.
  - destruct (IH k s tok rest) as (tok' & E). exists tok'. cbn [length Nat.add read_lines s_eof]. unfold with_newlines in *. cbn [map concat]. rewrite <- !app_assoc. cbn [app].
    set (tl := concat (map (fun b => b ++ [nl]) l) ++ rest) in *.
    assert (EL : ends_line raw (mkStream (raw ++ nl :: tl) false) (mkStream tl false)) by (split; [reflexivity|split; [exact NL|left; exists tl; auto]]).
    rewrite (fetch_plain raw [] _ _ EL).
    + exact E.
    + intros r ->. inversion W as [|? ? X _]. unfold isspc in X. cbn in X. lia.
    + exists raw, []. rewrite app_nil_r. split; [reflexivity|]. split; [exact W|]. split; [constructor|]. split; intros c r X; [discriminate|destruct r; discriminate].
  - destruct (says_read comp u v line r tok S) as (tk & RR).
    cbn [length Nat.add read_lines s_eof steps]. unfold with_newlines in *. cbn [map concat]. rewrite <- !app_assoc. cbn [app].
    set (tl := concat (map (fun b => b ++ [nl]) l) ++ rest) in *.
    assert (EL : ends_line raw (mkStream (raw ++ nl :: tl) false) (mkStream tl false)) by (split; [reflexivity|split; [exact NL|left; exists tl; auto]]).
    rewrite (fetch_plain raw line _ _ EL NH T). pose proof (says_nonempty _ _ _ _ S) as NE. destruct line as [|c line]; [congruence|]. rewrite RR.
    destruct (step ccw single s r) as [s1|]; [|exists tok; reflexivity]. exact (IH k s1 tk rest).
  - destruct (says_read comp u v line r tok S) as (tk & RR).
    cbn [length Nat.add read_lines s_eof steps]. unfold with_newlines in *. cbn [map concat]. rewrite <- !app_assoc. cbn [app].
    set (tl := concat (map (fun b => b ++ [nl]) l) ++ rest) in *.
    assert (EL : ends_line (hash :: raw) (mkStream (hash :: raw ++ nl :: tl) false) (mkStream tl false)).
    { split; [reflexivity|split; [intros [X|X]; [discriminate|exact (NL X)]|left; exists tl; auto]]. }
    rewrite (fetch_comment raw line _ _ EL T). rewrite RR.
    destruct (step ccw single s r) as [s1|]; [|exists tok; reflexivity]. exact (IH k s1 tk rest).
Qed.

Lemma newlines_len l : (length l <= length (with_newlines l))%nat.
Proof. unfold with_newlines. induction l as [|a l IH]; cbn [map concat length]; [lia|]. rewrite !app_length. cbn [length]. lia. Qed.

Lemma lines_total (raws : list str) rest : exists k, S (length (with_newlines raws ++ rest)) = (length raws + S k)%nat.
Proof. pose proof (newlines_len raws) as L. exists (length (with_newlines raws ++ rest) - length raws)%nat. rewrite app_length in *. lia. Qed.

Lemma section_read ccw single comp u v raws rs w rest ls f : lines_say u v raws rs -> Forall (fun c => ~ isspc c) w ->
  let after := mkStream (S2 ".END_" ++ w ++ nl :: rest) false in
  read_outlines ccw single comp u v (mkStream (with_newlines raws ++ s_rest after) false) = Some (ls, f) <->
  section_means ccw single rs ls /\ f = after.
Proof.
  intros H W after. rewrite <- records_iff. unfold read_outlines. cbn [s_rest]. destruct (lines_total raws (s_rest after)) as (k & ->).
  destruct (run_lines ccw single comp u v raws rs H (S k) r_init [] (s_rest after)) as (tok' & ->).
  destruct (steps ccw single r_init rs) as [s|] eqn:E.
  - pose proof (end_reads ccw single comp u v w rest tok' s k W) as R. cbv zeta in R. change (mkStream (s_rest after) false) with after. fold after in R. rewrite R. split.
    + destruct (finish s) as [l|] eqn:F; [|discriminate]. intros X. injection X as <- <-. split; [|reflexivity]. exists s. auto.
    + intros [(s' & ES & F) ->]. injection ES as <-. rewrite F. reflexivity.
  - split; [discriminate|]. intros [(s' & ES & _) _]. discriminate.
Qed.

(** Properties end the reading, and nothing is checked. *)
Lemma letter_no_int c r : 65 <= code c -> stream_int (c :: r) = None.
Proof.
  intros L. unfold stream_int. assert (NS : is_space c = false) by (unfold is_space; lia). cbn [skip_space]. rewrite NS. cbn [take_sign].
  rewrite !eqb_code, code_minus, code_plus. destruct (code c =? 45) eqn:C1; [lia|]. destruct (code c =? 43) eqn:C2; [lia|].
  pose proof (scan_digits_app [] (c :: r) (Forall_nil _)) as SD. cbn [app] in SD. rewrite SD by (unfold isdig; lia). rewrite Nat.eqb_refl. reflexivity.
Qed.

Lemma section_prop ccw single u v raws rs raw line b t fs rest s : lines_say u v raws rs -> ~ In nl raw -> (forall r, raw <> hash :: r) -> trimmed_of raw line ->
  laid_out b (Bare t :: fs) line -> same_word "PROP" t -> steps ccw single r_init rs = Some s ->
  let after := mkStream (raw ++ nl :: rest) false in
  read_outlines ccw single true u v (mkStream (with_newlines raws ++ s_rest after) false) = Some (loops s, after).
Proof.
  intros H NL NH T L P ES after. unfold read_outlines. cbn [s_rest]. destruct (lines_total raws (s_rest after)) as (k & ->).
  destruct (run_lines ccw single true u v raws rs H (S k) r_init [] (s_rest after)) as (tok' & ->). rewrite ES. change (mkStream (s_rest after) false) with after.
  cbn [read_lines]. change (s_eof after) with false. cbv iota.
  assert (EL : ends_line raw after (mkStream rest false)) by (split; [reflexivity|split; [exact NL|left; exists rest; auto]]).
  rewrite (fetch_plain raw line _ _ EL NH T).
  destruct (calls_laid b _ line line (mkScan tok' false 0) L (before_start line tok' false)) as (st' & C & _).
  destruct t as [|c t']; [inversion P|].
  inversion C as [|? s1 ? ? ? G1 K1 Q1 C1]; subst. cbn [value in_quotes] in *.
  pose proof (laid_nonempty _ _ _ _ L) as NE.
  destruct line as [|x line]; [congruence|].
  assert (CK : compare_token "PROP" (c :: t') = true) by (apply (keyword_same "PROP" (c :: t')); [apply capitals; reflexivity|exact P]).
  unfold same_word in P. cbn in P. inversion P as [|? ? ? ? HC HR]; subst.
  assert (LC : 65 <= code c) by (destruct HC as [<-|HC]; [cbn; lia|cbn in HC; lia]).
  assert (NE2 : is_end (c :: t') = false).
  { unfold is_end. inversion HR as [|? ? ? ? _ HR1]; subst. inversion HR1 as [|? ? ? ? _ HR2]; subst. inversion HR2 as [|? ? ? ? _ HR3]; subst. inversion HR3; subst. reflexivity. }
  unfold read_rec. rewrite G1, Q1, K1, NE2. cbn [app]. rewrite (letter_no_int c t' LC), CK. cbn [andb]. rewrite ?G1, ?K1, ?NE2. reflexivity.
Qed.

(** Elsewhere they are refused. *)
Lemma section_prop_none ccw single u v raws rs raw line b t fs rest : lines_say u v raws rs -> ~ In nl raw -> (forall r, raw <> hash :: r) -> trimmed_of raw line ->
  laid_out b (Bare t :: fs) line -> same_word "PROP" t ->
  read_outlines ccw single false u v (mkStream (with_newlines raws ++ raw ++ nl :: rest) false) = None.
Proof.
  intros H NL NH T L P. set (after := mkStream (raw ++ nl :: rest) false). change (raw ++ nl :: rest) with (s_rest after). unfold read_outlines. cbn [s_rest]. destruct (lines_total raws (s_rest after)) as (k & ->).
  destruct (run_lines ccw single false u v raws rs H (S k) r_init [] (s_rest after)) as (tok' & ->). destruct (steps ccw single r_init rs) as [s|]; [|reflexivity]. change (mkStream (s_rest after) false) with after.
  cbn [read_lines]. change (s_eof after) with false. cbv iota.
  assert (EL : ends_line raw after (mkStream rest false)) by (split; [reflexivity|split; [exact NL|left; exists rest; auto]]).
  rewrite (fetch_plain raw line _ _ EL NH T).
  destruct (calls_laid b _ line line (mkScan tok' false 0) L (before_start line tok' false)) as (st' & C & _).
  destruct t as [|c t']; [inversion P|].
  inversion C as [|? s1 ? ? ? G1 K1 Q1 C1]; subst. cbn [value in_quotes] in *.
  pose proof (laid_nonempty _ _ _ _ L) as NE.
  destruct line as [|x line]; [congruence|].
  unfold same_word in P. cbn in P. inversion P as [|? ? ? ? HC HR]; subst.
  assert (LC : 65 <= code c) by (destruct HC as [<-|HC]; [cbn; lia|cbn in HC; lia]).
  assert (NE2 : is_end (c :: t') = false).
  { unfold is_end. inversion HR as [|? ? ? ? _ HR1]; subst. inversion HR1 as [|? ? ? ? _ HR2]; subst. inversion HR2 as [|? ? ? ? _ HR3]; subst. inversion HR3; subst. reflexivity. }
  unfold read_rec. rewrite G1, Q1, K1, NE2. cbn [app]. rewrite (letter_no_int c t' LC). cbn [andb]. reflexivity.
Qed.
