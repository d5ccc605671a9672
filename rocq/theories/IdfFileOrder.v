(** Facts about the sections of IDF files (IdfFile.v, IdfFileSpec.v): their order, and
    what follows a line which is no heading. *)

From Verif Require Import Base Num IoModel IdfText IdfOutl IdfFile Spec IdfSpec IdfOutlSpec IdfFileSpec
  IdfFacts IdfNum IdfRound IdfLine IdfOutlText IdfFileHead IdfFileSect.
From Verif Require IdfPlace.
From Coq Require Import Lia.
Open Scope Z_scope.

(** ** Headings *)

Lemma heading_none s : heading_of s = None <-> ~ heading_word s.
Proof.
  unfold heading_of. split.
  - intros H (k & I & W). apply (keyword_same k s) in W.
    2: { apply capitals. cbn in I. repeat (destruct I as [<-|I]; [reflexivity|]). destruct I. }
    cbn in I. repeat (destruct I as [<-|I]; [rewrite W in H; repeat (match type of H with context[if ?b then _ else _] => destruct b; [discriminate|] end); discriminate|]). destruct I.
  - intros H. assert (C : forall k, In k headings -> compare_token k s = false).
    { intros k I. destruct (compare_token k s) eqn:E; [|reflexivity]. exfalso. apply H. exists k. split; [exact I|].
      apply (keyword_same k s); [|exact E]. apply capitals. cbn in I. repeat (destruct I as [<-|I]; [reflexivity|]). destruct I. }
    rewrite !C by (cbn; tauto). reflexivity.
Qed.

(** ** Order *)

Lemma section_body ccw u v c st ids : forall fuel f sc com s st' g,
  read_section ccw u v c st ids fuel f sc com = SecGot s st' g ->
  exists h line f' com', read_body ccw u v c st ids h line f' com' = Some (s, st', g).
Proof.
  induction fuel as [|n IH]; intros f sc com s st' g H; cbn [read_section] in H; [discriminate|].
  destruct (next_any (S (length (s_rest f))) f) as [[[l []] f']|]; [eauto| |discriminate].
  destruct (get_string l sc) as [b sc']. destruct (sc_quoted sc'); [discriminate|].
  destruct (heading_of (sc_tok sc')) as [h|]; [|eauto].
  destruct (read_body ccw u v c st ids h l f' com) as [[[s0 st0] g0]|] eqn:B; [|discriminate].
  injection H as -> -> ->. eauto.
Qed.

Lemma outline_kind ccw k u v line f o g : read_outline ccw k u v line f = Some (o, g) -> ol_kind o = k.
Proof.
  unfold read_outline. destruct (get_string line (mkScan [] false 0)) as [[] st]; [|discriminate].
  destruct (sc_quoted st); [discriminate|]. destruct (negb (compare_token (key k) (sc_tok st))); [discriminate|].
  destruct (second_record k u v f) as [[[[id q] l] f1]|]; [|discriminate].
  destruct (read_outlines ccw (single_of k) false u v f1) as [[ls f2]|]; [|discriminate].
  destruct (head_line f2) as [[e f3]|]; [|discriminate]. destruct (ends_outline k e); [|discriminate].
  intros H. injection H as <- _. reflexivity.
Qed.

Lemma other_id_spec s : other_id s = other_ids [s].
Proof. destruct s as [com [[k o id q l ls]|l|l|l]]; try destruct k; reflexivity. Qed.

Lemma other_ids_cons s l : other_ids (s :: l) = other_ids [s] ++ other_ids l.
Proof. cbn [other_ids]. destruct (se_what s) as [[k o id q la ls]|x|x|x]; try destruct k; reflexivity. Qed.

Lemma not_existsb id ids : existsb (str_eqb id) ids = false -> ~ In id ids.
Proof.
  intros E I. assert (X : existsb (str_eqb id) ids = true) by (apply existsb_exists; exists id; split; [exact I|apply str_eqb_eq; reflexivity]). congruence.
Qed.

Lemma body_facts ccw u v c st ids h line f com s st' g : read_body ccw u v c st ids h line f com = Some (s, st', g) ->
  match st with
  | AtHeader => is_board s /\ st' = AtOutline
  | AtOutline => ~ is_board s /\ ((is_places s /\ st' = AtPlacement) \/ (~ is_places s /\ st' = AtOutline)) /\
      (v = V2 -> ~ is_notes s) /\ (forall id, In id (other_ids [s]) -> ~ In id ids)
  | AtPlacement => False
  end.
Proof.
  assert (OUT : forall k com' f', k <> KBoard -> (match read_outline ccw k u v line f' with
      | None => None
      | Some (o, f'') =>
          if match k with KOther => existsb (str_eqb (ol_id o)) ids | _ => false end then None
          else Some (mkSec (kept com') (COutline o), AtOutline, f'')
      end = Some (s, st', g)) ->
      ~ is_board s /\ ((is_places s /\ st' = AtPlacement) \/ (~ is_places s /\ st' = AtOutline)) /\
      (v = V2 -> ~ is_notes s) /\ (forall id, In id (other_ids [s]) -> ~ In id ids)).
  { intros k com' f' NB H. destruct (read_outline ccw k u v line f') as [[o f'']|] eqn:R; [|discriminate]. apply outline_kind in R.
    destruct (match k with KOther => existsb (str_eqb (ol_id o)) ids | _ => false end) eqn:E; [discriminate|]. injection H as <- <- _.
    split; [intros (o' & X & K); cbn in X; congruence|]. split; [right; split; [intros (l & X); discriminate|reflexivity]|].
    split; [intros _ (l & X); discriminate|]. intros id I. destruct o as [k' ow i q l ls]. cbn in R. subst k'.
    destruct k; cbn in I; try contradiction. destruct I as [<-|[]]. exact (not_existsb _ _ E). }
  intros H. unfold read_body in H.
  destruct h as [k| | | |]; destruct st; try discriminate; try (destruct k; discriminate).
  - destruct k; try discriminate. destruct (read_outline ccw KBoard u v line f) as [[o f']|] eqn:R; [|discriminate].
    injection H as <- <- _. split; [exists o; split; [reflexivity|exact (outline_kind _ _ _ _ _ _ _ _ R)]|reflexivity].
  - destruct k; try discriminate; refine (OUT _ com f _ H); discriminate.
  - destruct (read_drills u v f) as [[l f']|]; [|discriminate]. injection H as <- <- _.
    split; [intros (o & X & _); discriminate|]. split; [right; split; [intros (x & X); discriminate|reflexivity]|]. split; [intros _ (x & X); discriminate|intros id []].
  - destruct v; [discriminate|]. destruct (read_notes u f) as [[l f']|]; [|discriminate]. injection H as <- <- _.
    split; [intros (o & X & _); discriminate|]. split; [right; split; [intros (x & X); discriminate|reflexivity]|]. split; [discriminate|intros id []].
  - destruct (IdfPlace.read_places f u v c) as [[l f']|]; [|discriminate]. injection H as <- <- _.
    split; [intros (o & X & _); discriminate|]. split; [left; split; [exists l; reflexivity|reflexivity]|]. split; [intros _ (x & X); discriminate|intros id []].
Qed.

Definition later (v : version) (ids : list str) (l : list section) : Prop :=
  Forall (fun s => ~ is_board s) l /\ (forall a s b, l = a ++ s :: b -> is_places s -> b = []) /\
  (v = V2 -> Forall (fun s => ~ is_notes s) l) /\ NoDup (other_ids l) /\ (forall id, In id (other_ids l) -> ~ In id ids).

Lemma later_nil v ids : later v ids [].
Proof. split; [constructor|]. split; [intros [|] ? ? E; discriminate|]. split; [constructor|]. split; [constructor|intros id []]. Qed.

Lemma sections_later ccw u v c : forall fuel ids f l st' g, read_sections ccw u v c fuel AtOutline ids f = Some (l, st', g) -> later v ids l.
Proof.
  induction fuel as [|n IH]; intros ids f l st' g H; cbn [read_sections] in H; [discriminate|].
  destruct (s_eof f); [injection H as <- _ _; apply later_nil|].
  destruct (read_section ccw u v c AtOutline ids (S (length (s_rest f))) f start_scan []) as [| |s st1 f'] eqn:R; [discriminate|injection H as <- _ _; apply later_nil|].
  destruct (read_sections ccw u v c n st1 (other_id s ++ ids) f') as [[[l' st2] g']|] eqn:R2; [|discriminate]. injection H as <- _ _.
  apply section_body in R as (h & line & f1 & com & B). apply body_facts in B as (NB & PL & NN & NI).
  assert (L : later v (other_id s ++ ids) l' /\ (is_places s -> l' = [])).
  { destruct PL as [(P & ->)|(P & ->)].
    - destruct n; cbn [read_sections] in R2; [discriminate|]. injection R2 as <- _ _. split; [apply later_nil|reflexivity].
    - split; [exact (IH _ _ _ _ _ R2)|tauto]. }
  destruct L as ((L1 & L2 & L3 & L4 & L5) & LP). rewrite other_id_spec in L5.
  split; [constructor; assumption|]. split; [|split; [intros V; constructor; auto|]].
  - intros [|x a] y b E P; cbn [app] in E; injection E as E1 E2; [subst; auto|exact (L2 a y b E2 P)].
  - rewrite other_ids_cons. split.
    + destruct s as [cm [[k o id q la ls]|x|x|x]]; try exact L4. destruct k; try exact L4. cbn in *. constructor; [|exact L4]. intros I. apply (L5 _ I). left. reflexivity.
    + intros id I. apply in_app_iff in I as [I|I]; [exact (NI _ I)|]. intros J. apply (L5 _ I), in_app_iff. auto.
Qed.

Lemma file_order ccw c text h name u l : read_file ccw c text = Some (h, name, u, l) ->
  exists s rest, l = s :: rest /\ is_board s /\ Forall (fun x => ~ is_board x) rest /\
    (forall a x b, l = a ++ x :: b -> is_places x -> b = []) /\
    (h_ver h = V2 -> Forall (fun x => ~ is_notes x) l) /\ NoDup (other_ids l).
Proof.
  unfold read_file. destruct (read_head (mkStream text false)) as [[[[h' name'] u'] f]|]; [|discriminate].
  destruct (read_sections ccw u' (h_ver h') c (S (length text)) AtHeader [] f) as [[[l' st] g]|] eqn:R; [|discriminate].
  intros H. assert (E : h' = h /\ l' = l /\ (g <> None \/ st <> AtHeader)).
  { destruct g as [f'|].
    - destruct (trailing _ f'); [|discriminate]. injection H as <- _ _ <-. split; [reflexivity|]. split; [reflexivity|left; discriminate].
    - destruct st; [discriminate| |]; injection H as <- _ _ <-; (split; [reflexivity|split; [reflexivity|right; discriminate]]). }
  destruct E as (-> & -> & G). clear H. cbn [read_sections] in R.
  destruct (s_eof f); [injection R as _ <- <-; destruct G; congruence|].
  destruct (read_section ccw u' (h_ver h) c AtHeader [] (S (length (s_rest f))) f start_scan []) as [| |s st1 f'] eqn:RS; [discriminate|injection R as _ <- <-; destruct G; congruence|].
  destruct (read_sections ccw u' (h_ver h) c (length text) st1 (other_id s ++ []) f') as [[[l1 st2] g']|] eqn:R2; [|discriminate]. injection R as <- _ _.
  apply section_body in RS as (hd & line & f1 & com & B). apply body_facts in B as (IB & ->).
  apply sections_later in R2 as (L1 & L2 & L3 & L4 & _). exists s, l1. split; [reflexivity|]. split; [exact IB|]. split; [exact L1|].
  destruct IB as (o & W & K). split; [|split].
  - intros [|y a] x b E P; cbn [app] in E; injection E as E1 E2; [|exact (L2 a x b E2 P)]. subst x. destruct P as (pl & P). congruence.
  - intros V. constructor; [intros (x & X); congruence|exact (L3 V)].
  - rewrite other_ids_cons. cbn [other_ids]. rewrite W. destruct o as [k ow id q la ls]. cbn in K. subst k. exact L4.
Qed.

Lemma file_unit ccw c text h name u l : read_file ccw c text = Some (h, name, u, l) -> h_ver h = V3 -> u <> Tnm.
Proof.
  unfold read_file. destruct (read_head (mkStream text false)) as [[[[h' name'] u'] f]|] eqn:R; [|discriminate].
  intros H V. assert (E : h' = h /\ u' = u).
  { destruct (read_sections ccw u' (h_ver h') c (S (length text)) AtHeader [] f) as [[[l' st] g]|]; [|discriminate].
    destruct g as [f'|]; [destruct (trailing _ f')|destruct st]; try discriminate; injection H as <- _ <- _; auto. }
  destruct E as (-> & ->). unfold read_head in R.
  destruct (head_line _) as [[l1 f1]|]; [|discriminate]. destruct (negb _); [discriminate|].
  destruct (head_line f1) as [[l2 f2]|]; [|discriminate]. destruct (head_fields "BOARD_FILE" l2) as [[h0 st]|]; [|discriminate].
  destruct (head_line f2) as [[l3 f3]|]; [|discriminate]. destruct (name_fields (h_ver h0) l3 st) as [[n0 u0]|] eqn:N; [|discriminate].
  destruct (last_line f3) as [[l4 f4]|]; [|discriminate]. destruct (compare_token ".END_HEADER" l4); [|discriminate]. injection R as -> _ -> _.
  unfold name_fields in N. destruct (get_string l3 _) as [b1 s1]. destruct (get_string l3 s1) as [[] s2]; [|discriminate]. destruct (sc_quoted s2); [discriminate|].
  unfold unit_word in N. rewrite V in N. destruct (compare_token "MM" (sc_tok s2)); [injection N as _ <-; discriminate|].
  destruct (compare_token "THOU" (sc_tok s2)); [injection N as _ <-; discriminate|discriminate].
Qed.

(** ** After a line which is no heading *)

Lemma quiet_get l sc : quiet l -> (1 <= sc_idx sc)%nat -> sc_quoted sc = false -> heading_of (sc_tok sc) = None ->
  let sc' := snd (get_string l sc) in sc_quoted sc' = false /\ heading_of (sc_tok sc') = None /\ (1 <= sc_idx sc')%nat.
Proof.
  intros (NQ & NH) I Q H. unfold get_string. destruct (Nat.leb_spec (length l) (sc_idx sc)) as [L|L]; [cbn; auto|].
  destruct (skip_split (skipn (sc_idx sc) l)) as (w & E & _).
  destruct (skip_space (skipn (sc_idx sc) l)) as [|c r] eqn:SK; [cbn; repeat split; auto; lia|].
  assert (LL : l = firstn (sc_idx sc) l ++ w ++ c :: r) by (rewrite <- E; symmetry; apply firstn_skipn).
  assert (IC : In c l) by (rewrite LL, !in_app_iff; right; right; left; reflexivity).
  destruct (Ascii.eqb_spec c quote) as [->|_]; [tauto|].
  destruct (upto is_space (c :: r)) as [t r'] eqn:U. destruct (upto_split _ _ _ _ U) as (EU & _). cbn [snd sc_quoted sc_tok sc_idx].
  assert (LF : length (firstn (sc_idx sc) l) = sc_idx sc) by (rewrite firstn_length; lia).
  split; [reflexivity|]. split.
  - apply heading_none. apply (NH (firstn (sc_idx sc) l ++ w) t r').
    + rewrite <- app_assoc, <- EU. exact LL.
    + intros X. apply app_eq_nil in X as (X & _). rewrite X in LF. cbn in LF. lia.
  - rewrite EU in LL. apply (f_equal (@length ascii)) in LL. rewrite !app_length, LF in LL. lia.
Qed.

Definition lines (raws : list str) : stream := mkStream (with_newlines raws) false.

Lemma lines_cons raw raws : lines (raw :: raws) = mkStream (raw ++ nl :: with_newlines raws) false.
Proof. unfold lines, with_newlines. cbn [map concat]. rewrite <- app_assoc. reflexivity. Qed.

Lemma next_lines : forall raws fuel, Forall (fun r => ~ In nl r) raws -> (length raws < fuel)%nat ->
  next_any fuel (lines raws) = None \/
  exists bl raw raws' l cm, raws = bl ++ raw :: raws' /\ next_any fuel (lines raws) = Some (l, cm, lines raws') /\
    (cm = false -> (forall r, raw <> hash :: r) /\ trimmed_of raw l).
Proof.
  induction raws as [|raw raws IH]; intros fuel F B; (destruct fuel as [|k]; [cbn in B; lia|]).
  - left. cbn. reflexivity.
  - inversion F as [|? ? N F']; subst. cbn [length] in B.
    assert (EL : ends_line raw (lines (raw :: raws)) (lines raws)).
    { rewrite lines_cons. split; [reflexivity|]. split; [exact N|]. left. exists (with_newlines raws). split; reflexivity. }
    destruct (fetch_spec raw _ _ EL) as (l & [(NH & T & G)|(r & -> & T & G)]).
    + cbn [next_any]. rewrite G. destruct l as [|c l].
      * cbn [s_eof lines]. change (s_eof (lines raws)) with false. cbn iota.
        destruct (IH k F' ltac:(lia)) as [E|(bl & raw' & raws' & l & cm & -> & E & P)]; [left; exact E|].
        right. exists (raw :: bl), raw', raws', l, cm. split; [reflexivity|]. split; [exact E|exact P].
      * change (s_eof (lines raws)) with false. cbn iota. right. exists [], raw, raws, (c :: l), false. split; [reflexivity|]. split; [reflexivity|]. auto.
    + cbn [next_any]. rewrite G. change (s_eof (lines raws)) with false. cbn iota. right. exists [], (hash :: r), raws, l, true. split; [reflexivity|]. split; [reflexivity|discriminate].
Qed.

Lemma lost_lines ccw u v c st ids : forall n raws fuel sc com, (length raws <= n)%nat -> Forall quiet_line raws -> (length raws < fuel)%nat ->
  sc_quoted sc = false -> heading_of (sc_tok sc) = None -> (1 <= sc_idx sc)%nat ->
  read_section ccw u v c st ids fuel (lines raws) sc com = SecEnd.
Proof.
  induction n as [|n IH]; intros raws fuel sc com LN F B Q H I; (destruct fuel as [|k]; [lia|]); cbn [read_section].
  - destruct raws; [reflexivity|cbn in LN; lia].
  - assert (NL : Forall (fun r => ~ In nl r) raws) by (revert F; apply Forall_impl; intros a (X & _); exact X).
    assert (LE : (length raws <= length (s_rest (lines raws)))%nat).
    { unfold lines. cbn [s_rest]. clear. induction raws as [|r raws IH]; [cbn; lia|]. unfold with_newlines in *. cbn [map concat length]. rewrite !app_length. cbn [length]. lia. }
    assert (LF : (length raws < S (length (s_rest (lines raws))))%nat) by (apply le_n_S; exact LE).
    destruct (next_lines raws _ NL LF) as [->|(bl & raw & raws' & l & cm & E & -> & P)]; [reflexivity|].
    assert (LR : (length raws' < length raws)%nat) by (rewrite E, app_length; cbn [length]; lia).
    assert (L1 : (length raws' <= n)%nat) by (clear - LR LN; lia). assert (L2 : (length raws' < k)%nat) by (clear - LR B; lia).
    clear LR LF LE LN B NL. subst raws. apply Forall_app in F as (_ & F). inversion F as [|? ? FR F']; subst.
    destruct cm; [apply IH; auto|]. destruct (P eq_refl) as (NH & T).
    assert (QL : quiet l).
    { destruct FR as (_ & [(r & X)|(l' & T' & X)]); [destruct (NH r X)|]. rewrite (trimmed_unique _ _ _ T T'). exact X. }
    pose proof (quiet_get l sc QL I Q H) as G. cbn zeta in G. destruct (get_string l sc) as [b sc']. cbn [snd] in G. destruct G as (Q' & H' & I').
    rewrite Q', H'. apply IH; auto.
Qed.

Lemma lost_sections ccw u v c st ids raw l b w fs raws com fuel : ~ In nl raw -> (forall r, raw <> hash :: r) -> trimmed_of raw l ->
  laid_out b (Bare w :: fs) l -> ~ heading_word w -> Forall quiet_line raws -> (length (raw :: raws) < fuel)%nat ->
  read_section ccw u v c st ids fuel (lines (raw :: raws)) start_scan com = SecEnd.
Proof.
  intros N NH T L NW F B. destruct fuel as [|k]; [lia|]. cbn [length] in B. cbn [read_section].
  assert (NE : l <> []). { intros ->. inversion L as [| |b' w' f' fs' rest W O E L' X1 X2 X3]. destruct w'; [|discriminate]. destruct O as (O & _). cbn in X3. destruct w; [congruence|discriminate]. }
  assert (EL : ends_line raw (lines (raw :: raws)) (lines raws)).
  { rewrite lines_cons. split; [reflexivity|]. split; [exact N|]. left. exists (with_newlines raws). split; reflexivity. }
  assert (G : next_any (S (length (s_rest (lines (raw :: raws))))) (lines (raw :: raws)) = Some (l, false, lines raws)).
  { cbn [next_any]. rewrite (fetch_plain raw l _ _ EL NH T). destruct l; [congruence|]. reflexivity. }
  rewrite G. inversion L as [| |b' w' f' fs' rest W O E L']; subst.
  pose proof (before_start (w' ++ field_text (Bare w) ++ rest) [] false) as B0.
  destruct (get_field _ _ _ _ _ B0 W O E) as (GF & _). change (mkScan [] false 0) with start_scan in GF. rewrite GF. cbn [sc_quoted sc_tok in_quotes value].
  apply heading_none in NW. rewrite NW. apply (lost_lines ccw u v c st ids (length raws)); auto; [exact (proj2 (Nat.succ_lt_mono _ _) B)|].
  cbn [sc_idx]. rewrite !app_length. destruct O as (O & _). destruct w; [congruence|]. cbn [field_text length]. lia.
Qed.

Lemma lost_file ccw u v c st ids raw l b w fs raws fuel : ~ In nl raw -> (forall r, raw <> hash :: r) -> trimmed_of raw l ->
  laid_out b (Bare w :: fs) l -> ~ heading_word w -> Forall quiet_line raws -> st <> AtPlacement ->
  read_sections ccw u v c (S fuel) st ids (mkStream (with_newlines (raw :: raws)) false) = Some ([], st, None).
Proof.
  intros N NH T L NW F S. cbn [read_sections]. change (mkStream (with_newlines (raw :: raws)) false) with (lines (raw :: raws)).
  rewrite (lost_sections ccw u v c st ids raw l b w fs raws [] (Datatypes.S (length (s_rest (lines (raw :: raws))))) N NH T L NW F).
  - destruct st; [reflexivity|reflexivity|congruence].
  - clear. rewrite lines_cons. cbn [s_rest length]. rewrite app_length. cbn [length].
    assert (X : (length raws <= length (with_newlines raws))%nat).
    { unfold with_newlines. induction raws as [|r raws IH]; [cbn; lia|]. cbn [map concat length]. rewrite !app_length. cbn [length]. lia. }
    set (x := length (with_newlines raws)) in *. set (y := length raw) in *.
    match goal with |- (S (length ?z) < _)%nat => change (length z) with (length raws) end. set (z := length raws) in *. lia.
Qed.
