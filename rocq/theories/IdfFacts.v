(** Proofs about the lines and fields of an IDF file. *)

From Coq Require Import Lia.
From Verif Require Import Base Num IoModel IdfText Spec NumFacts RealFacts IdfSpec.
Open Scope Z_scope.

Lemma space_true c : is_space c = true <-> isspc c.
Proof. unfold is_space, isspc. rewrite orb_true_iff, andb_true_iff, Z.eqb_eq, !Z.leb_le. lia. Qed.

Lemma space_false c : is_space c = false <-> ~ isspc c.
Proof. rewrite <- space_true. destruct (is_space c); split; intros H; congruence || tauto || (exfalso; apply H; reflexivity). Qed.

Lemma quote_not_space : is_space quote = false. Proof. reflexivity. Qed.

Lemma skip_split s : exists w, s = w ++ skip_space s /\ Forall isspc w /\
  (forall c r, skip_space s = c :: r -> ~ isspc c).
Proof.
  induction s as [|c s (w & E & F & N)]; cbn.
  - exists []. repeat split; auto. discriminate.
  - destruct (is_space c) eqn:K.
    + exists (c :: w). cbn. split; [f_equal; exact E|]. split; [|exact N].
      constructor; [apply space_true, K|exact F].
    + exists []. cbn. split; [reflexivity|]. split; [constructor|].
      intros d r H. injection H as <- <-. apply space_false, K.
Qed.

Lemma skip_app w r : Forall isspc w -> skip_space (w ++ r) = skip_space r.
Proof. induction 1 as [|c w H _ IH]; cbn; [reflexivity|]. rewrite (proj2 (space_true c) H). exact IH. Qed.

Lemma skip_stop c r : ~ isspc c -> skip_space (c :: r) = c :: r.
Proof. intros H. cbn. rewrite (proj2 (space_false c) H). reflexivity. Qed.

Lemma skip_all w : Forall isspc w -> skip_space w = [].
Proof. intros F. rewrite <- (app_nil_r w), skip_app by exact F. reflexivity. Qed.

(** ** [upto] *)

Lemma upto_app p a r : Forall (fun c => p c = false) a ->
  match r with [] => True | c :: _ => p c = true end -> upto p (a ++ r) = (a, r).
Proof.
  induction 1 as [|c a H _ IH]; intros R; cbn.
  - destruct r as [|c r]; cbn; [reflexivity|]. rewrite R. reflexivity.
  - rewrite H, IH by exact R. reflexivity.
Qed.

Lemma upto_split p s a b : upto p s = (a, b) ->
  s = a ++ b /\ Forall (fun c => p c = false) a /\ match b with [] => True | c :: _ => p c = true end.
Proof.
  revert a b. induction s as [|c s IH]; intros a b; cbn.
  - intros E. injection E as <- <-. auto.
  - destruct (p c) eqn:K.
    + intros E. injection E as <- <-. auto.
    + destruct (upto p s) as [x y]. intros E. injection E as <- <-.
      destruct (IH x y eq_refl) as (-> & F & M). auto.
Qed.

Lemma no_quote_upto t : ~ In quote t <-> Forall (fun c => Ascii.eqb quote c = false) t.
Proof.
  rewrite Forall_forall. split.
  - intros H c I. apply Ascii.eqb_neq. intros <-. auto.
  - intros H I. specialize (H _ I). rewrite Ascii.eqb_refl in H. discriminate.
Qed.

Lemma no_space_upto t : Forall (fun c => ~ isspc c) t <-> Forall (fun c => is_space c = false) t.
Proof. rewrite !Forall_forall. split; intros H c I; apply space_false; auto. Qed.

(** ** One call *)

Definition suffix (r line : str) : Prop := exists p, line = p ++ r.

Lemma suffix_at r line : suffix r line -> skipn (length line - length r) line = r.
Proof.
  intros (p & ->). rewrite app_length. replace (length p + length r - length r)%nat with (length p) by lia.
  rewrite skipn_app, skipn_all, Nat.sub_diag. reflexivity.
Qed.

Lemma suffix_app w r line : suffix (w ++ r) line -> suffix r line.
Proof. intros (p & ->). exists (p ++ w). apply app_assoc. Qed.

Lemma suffix_len r line : suffix r line -> (length r <= length line)%nat.
Proof. intros (p & ->). rewrite app_length. lia. Qed.

(** The state stands before [r]. *)
Definition before (line r : str) (st : scan) : Prop :=
  suffix r line /\ sc_idx st = (length line - length r)%nat.

Lemma before_start line t q : before line line (mkScan t q 0).
Proof. split; [exists []; reflexivity|cbn; lia]. Qed.

Lemma get_field line st w f rest : before line (w ++ field_text f ++ rest) st ->
  Forall isspc w -> field_ok f -> ends f rest ->
  let st' := mkScan (value f) (in_quotes f) (length line - length rest) in
  get_string line st = (true, st') /\ before line rest st'.
Proof.
  intros (S & I) W O E. cbn zeta. split.
  2: { split; [|reflexivity]. rewrite app_assoc in S. exact (suffix_app _ _ _ S). }
  pose proof (suffix_len _ _ S) as L. unfold get_string.
  assert (NE : (length (field_text f) > 0)%nat).
  { destruct f as [s|s]; cbn; [destruct O as [O _]; destruct s; [congruence|cbn; lia]|lia]. }
  rewrite !app_length in L. rewrite !app_length in I.
  replace (length line <=? sc_idx st)%nat with false by (symmetry; apply Nat.leb_gt; lia).
  assert (I' : sc_idx st = (length line - length (w ++ field_text f ++ rest))%nat)
    by (rewrite !app_length; exact I).
  rewrite I', (suffix_at _ _ S). rewrite skip_app by exact W. clear I I' S L NE.
  destruct f as [s|s]; cbn [field_text value in_quotes].
  - destruct O as (N & F & Q). destruct s as [|c s]; [congruence|]. cbn [app].
    inversion F as [|? ? Nc Fs]; subst. rewrite skip_stop by exact Nc.
    destruct (Ascii.eqb_spec c quote) as [->|Nq]; [exfalso; apply (Q s); reflexivity|].
    change (c :: s ++ rest) with ((c :: s) ++ rest).
    rewrite upto_app; [reflexivity|apply no_space_upto; exact F|].
    cbn in E. destruct rest as [|x r]; [exact I|apply space_true, E].
  - cbn [app]. rewrite skip_stop by (apply space_false, quote_not_space).
    rewrite Ascii.eqb_refl. rewrite <- app_assoc.
    rewrite upto_app; [reflexivity|apply no_quote_upto, O|]. cbn. reflexivity.
Qed.

Lemma get_none line st w : before line w st -> Forall isspc w ->
  exists st', get_string line st = (false, st') /\ sc_idx st' = length line /\
    sc_tok st' = sc_tok st /\ sc_quoted st' = sc_quoted st.
Proof.
  intros (S & I) W. pose proof (suffix_len _ _ S) as L. unfold get_string.
  destruct (Nat.leb_spec (length line) (sc_idx st)) as [G|G].
  - exists st. repeat split. lia.
  - rewrite I, (suffix_at _ _ S), skip_all by exact W. eexists. repeat split.
Qed.

Lemma get_torn line st w t : before line (w ++ quote :: t) st -> Forall isspc w -> ~ In quote t ->
  exists st', get_string line st = (false, st') /\ sc_idx st' = length line /\
    sc_tok st' = sc_tok st /\ sc_quoted st' = true.
Proof.
  intros (S & I) W N. pose proof (suffix_len _ _ S) as L. unfold get_string.
  rewrite app_length in L. cbn in L.
  replace (length line <=? sc_idx st)%nat with false
    by (symmetry; apply Nat.leb_gt; rewrite I, app_length; cbn; lia).
  rewrite I, (suffix_at _ _ S), skip_app by exact W.
  rewrite skip_stop by (apply space_false, quote_not_space).
  rewrite Ascii.eqb_refl.
  replace (upto (Ascii.eqb quote) t) with (t, @nil ascii)
    by (rewrite <- (app_nil_r t) at 2; rewrite upto_app; [reflexivity|apply no_quote_upto, N|exact Logic.I]).
  eexists. repeat split.
Qed.

(** ** All calls *)

Lemma calls_laid b fs rest line st : laid_out b fs rest -> before line rest st ->
  exists st', calls line st fs st' /\ sc_idx st' = length line /\ (b = true -> sc_quoted st' = true) /\
    (b = false -> fs = [] -> sc_quoted st' = sc_quoted st) /\
    (forall f, b = false -> last (map Some fs) None = Some f -> sc_quoted st' = in_quotes f).
Proof.
  intros L. revert st. induction L as [w W|w t W N|b w f fs rest W O E L IH]; intros st B.
  - destruct (get_none _ _ _ B W) as (st' & G & I & _ & Q). exists st'.
    repeat split; auto; try discriminate. constructor. exact G.
  - destruct (get_torn _ _ _ _ B W N) as (st' & G & I & _ & Q). exists st'.
    repeat split; auto; try discriminate. constructor. exact G.
  - destruct (get_field _ _ _ _ _ B W O E) as (G & B'). destruct (IH _ B') as (st' & C & I & Q1 & Q2 & Q3).
    exists st'. repeat split; auto.
    + econstructor; [exact G|reflexivity|reflexivity|exact C].
    + discriminate.
    + intros g Hb H. cbn [map last] in H. destruct fs as [|f' fs'].
      * cbn in H. injection H as <-. rewrite (Q2 Hb eq_refl). reflexivity.
      * apply Q3; [exact Hb|]. exact H.
Qed.

Lemma calls_det line st fs a : calls line st fs a -> forall gs b, calls line st gs b -> fs = gs /\ a = b.
Proof.
  induction 1 as [st a G|st st' f fs a G T Q C IH]; intros gs b H; inversion H; subst.
  - split; congruence.
  - congruence.
  - congruence.
  - assert (E : st'0 = st') by congruence. subst. destruct (IH _ _ H3) as (-> & ->). split; [|reflexivity].
    f_equal. destruct f as [s|s], f0 as [s'|s']; cbn in *; congruence.
Qed.

(** Every line is laid out in one way. *)
Lemma laid_every : forall n line, (length line <= n)%nat -> exists b fs, laid_out b fs line.
Proof.
  induction n as [|n IH]; intros line L.
  - destruct line; [|cbn in L; lia]. exists false, []. constructor. constructor.
  - destruct (skip_split line) as (w & E & W & N).
    destruct (skip_space line) as [|c r].
    + rewrite app_nil_r in E. subst. exists false, []. constructor. exact W.
    + destruct (Ascii.eqb_spec c quote) as [->|Nq].
      * destruct (upto (Ascii.eqb quote) r) as [t x] eqn:U. apply upto_split in U as (-> & F & M).
        apply no_quote_upto in F. destruct x as [|d x].
        -- exists true, []. rewrite E, app_nil_r. constructor; auto.
        -- apply Ascii.eqb_eq in M. subst d.
           destruct (IH x) as (b & fs & H).
           { rewrite E in L. rewrite app_length in L. cbn in L. rewrite app_length in L. cbn in L. lia. }
           exists b, (Quoted t :: fs). rewrite E.
           replace (w ++ quote :: t ++ quote :: x) with (w ++ field_text (Quoted t) ++ x)
             by (cbn; rewrite <- app_assoc; reflexivity).
           constructor; auto. exact I.
      * destruct (upto is_space (c :: r)) as [t x] eqn:U.
        pose proof U as U'. apply upto_split in U as (E2 & F & M).
        assert (Nc : ~ isspc c) by (apply (N c r); reflexivity).
        assert (T : t <> []).
        { cbn in U'. rewrite (proj2 (space_false c) Nc) in U'. destruct (upto is_space r).
          injection U' as <- <-. discriminate. }
        destruct (IH x) as (b & fs & H).
        { rewrite E, app_length, E2, app_length in L. destruct t; [congruence|]. cbn in L. lia. }
        exists b, (Bare t :: fs). rewrite E, E2.
        change (t ++ x) with (field_text (Bare t) ++ x).
        constructor; auto.
        -- cbn. repeat split; [exact T|apply no_space_upto; exact F|].
           intros q ->. injection E2 as H1 _. exact (Nq H1).
        -- cbn. destruct x as [|d x]; [exact I|apply space_true, M].
Qed.

Lemma fields_read b fs line t q : laid_out b fs line ->
  exists st', calls line (mkScan t q 0) fs st' /\ sc_idx st' = length line /\
    (b = true -> sc_quoted st' = true).
Proof.
  intros L. destruct (calls_laid _ _ _ line (mkScan t q 0) L (before_start line t q)) as (st' & C & I & Q & _).
  exists st'. auto.
Qed.

Lemma fields_every line : exists b fs, laid_out b fs line /\
  (forall b' fs', laid_out b' fs' line -> fs' = fs).
Proof.
  destruct (laid_every (length line) line (le_n _)) as (b & fs & L). exists b, fs. split; [exact L|].
  intros b' fs' L'. destruct (fields_read _ _ _ [] false L) as (s1 & C1 & _).
  destruct (fields_read _ _ _ [] false L') as (s2 & C2 & _).
  exact (proj1 (calls_det _ _ _ _ C2 _ _ C1)).
Qed.

(** ** Lines *)

Lemma strip_trims s : trimmed_of s (strip_end (skip_space s)).
Proof.
  destruct (skip_split s) as (a & E & A & N). unfold strip_end.
  set (t := skip_space s) in *. destruct (skip_split (rev t)) as (b & E2 & B & N2).
  exists a, (rev b). set (u := skip_space (rev t)) in *.
  assert (T : t = rev u ++ rev b) by (rewrite <- rev_app_distr, <- E2, rev_involutive; reflexivity).
  split; [|split; [exact A|split; [|split]]].
  - rewrite E. f_equal. exact T.
  - rewrite Forall_forall in *. intros c I. apply B, in_rev, I.
  - intros c r H. apply (N c (r ++ rev b)). rewrite T, H. reflexivity.
  - intros c r H. apply (N2 c (rev r)). apply (f_equal (@rev ascii)) in H.
    rewrite rev_involutive, rev_app_distr in H. exact H.
Qed.

Lemma trimmed_unique s l l' : trimmed_of s l -> trimmed_of s l' -> l = l'.
Proof.
  assert (K : forall s l, trimmed_of s l -> strip_end (skip_space s) = l).
  { clear. intros s l (a & b & -> & A & B & N1 & N2). rewrite skip_app by exact A.
    unfold strip_end. destruct l as [|c l].
    - cbn [app]. rewrite (skip_all b) by exact B. reflexivity.
    - cbn [app]. rewrite skip_stop by (apply (N1 c l eq_refl)).
      change (c :: l ++ b) with ((c :: l) ++ b). rewrite rev_app_distr.
      rewrite skip_app by (apply Forall_rev, B).
      destruct (rev (c :: l)) as [|d r] eqn:R.
      { apply (f_equal (@rev ascii)) in R. rewrite rev_involutive in R. discriminate. }
      rewrite skip_stop.
      + rewrite <- R. apply rev_involutive.
      + apply (N2 d (rev r)). rewrite <- (rev_involutive (c :: l)), R. reflexivity. }
  intros H H'. rewrite <- (K _ _ H). apply K, H'.
Qed.

Lemma trimmed_strip s l : trimmed_of s l -> strip_end (skip_space s) = l.
Proof. intros H. exact (trimmed_unique _ _ _ (strip_trims s) H). Qed.

Lemma split_line_app l r : ~ In nl l -> split_line (l ++ nl :: r) = (l, Some r).
Proof.
  induction l as [|c l IH]; intros N; cbn [app split_line].
  - rewrite Ascii.eqb_refl. reflexivity.
  - destruct (Ascii.eqb_spec c nl) as [->|]; [exfalso; apply N; left; reflexivity|].
    rewrite IH; [reflexivity|]. intros I. apply N. right. exact I.
Qed.

Lemma split_line_end l : ~ In nl l -> split_line l = (l, None).
Proof.
  induction l as [|c l IH]; intros N; cbn [split_line]; [reflexivity|].
  destruct (Ascii.eqb_spec c nl) as [->|]; [exfalso; apply N; left; reflexivity|].
  rewrite IH; [reflexivity|]. intros I. apply N. right. exact I.
Qed.

Lemma getline_ends raw f f' : ends_line raw f f' -> getline f = (raw, f').
Proof.
  intros (_ & N & [(rest & E & ->)|(E & ->)]); unfold getline; rewrite E.
  - rewrite split_line_app by exact N. reflexivity.
  - rewrite split_line_end by exact N. reflexivity.
Qed.

Lemma fetch_plain raw l f f' : ends_line raw f f' -> (forall r, raw <> hash :: r) -> trimmed_of raw l ->
  fetch_line f = (match l with [] => false | _ => true end, l, Some false, f').
Proof.
  intros E H T. unfold fetch_line. destruct E as (Z & E). rewrite Z.
  rewrite (getline_ends raw f f') by (split; [exact Z|exact E]).
  replace (match raw with
           | [] => (false, raw)
           | c :: r => if Ascii.eqb c hash then (true, r) else (false, raw) end) with (false, raw).
  - rewrite (trimmed_strip _ _ T). destruct l; reflexivity.
  - destruct raw as [|c r]; [reflexivity|]. destruct (Ascii.eqb_spec c hash) as [->|]; [|reflexivity].
    exfalso. apply (H r). reflexivity.
Qed.

Lemma fetch_comment raw l f f' : ends_line (hash :: raw) f f' -> trimmed_of raw l ->
  fetch_line f = (true, l, Some true, f').
Proof.
  intros E T. unfold fetch_line. rewrite (getline_ends _ f f' E). destruct E as (Z & E). rewrite Z.
  rewrite Ascii.eqb_refl, (trimmed_strip _ _ T). destruct l; reflexivity.
Qed.

Lemma next_blanks bl : forall f raw l g fuel,
  Forall (fun b => Forall isspc b /\ ~ In nl b) bl ->
  s_eof f = false ->
  s_rest f = concat (map (fun b => b ++ [nl]) bl) ++ s_rest g -> s_eof g = false ->
  forall f', ends_line raw g f' -> (forall r, raw <> hash :: r) -> trimmed_of raw l -> l <> [] ->
  (length (s_rest f) < fuel)%nat -> next_line fuel f = Some (l, false, f').
Proof.
  induction bl as [|b bl IH]; intros f raw l g fuel F Z E Zg f' L H T N K; destruct fuel as [|fuel]; try lia.
  - cbn in E. assert (f = g) by (destruct f, g; cbn in *; subst; reflexivity). subst.
    cbn [next_line]. rewrite (fetch_plain _ _ _ _ L H T). destruct l; [congruence|reflexivity].
  - inversion F as [|? ? [B1 B2] F']; subst. cbn [map concat] in E. rewrite <- !app_assoc in E. cbn [app] in E.
    cbn [next_line].
    set (f1 := mkStream (concat (map (fun b => b ++ [nl]) bl) ++ s_rest g) false).
    assert (EL : ends_line b f f1) by (split; [exact Z|split; [exact B2|left; eexists; split; [exact E|reflexivity]]]).
    assert (TB : trimmed_of b []).
    { exists b, []. rewrite app_nil_r. split; [reflexivity|]. split; [exact B1|]. split; [constructor|].
      split; intros c r X; [discriminate|destruct r; discriminate]. }
    rewrite (fetch_plain b [] f f1 EL).
    + cbn [s_eof f1]. apply (IH f1 raw l g fuel F' eq_refl eq_refl Zg f' L H T N).
      cbn. rewrite E, app_length in K. cbn in K. lia.
    + intros r ->. inversion B1 as [|? ? X _]. unfold isspc in X. cbn in X. lia.
    + exact TB.
Qed.

Lemma read_line_blanks bl raw l g f' :
  Forall (fun b => Forall isspc b /\ ~ In nl b) bl -> s_eof g = false ->
  ends_line raw g f' -> (forall r, raw <> hash :: r) -> trimmed_of raw l -> l <> [] ->
  read_line (mkStream (concat (map (fun b => b ++ [nl]) bl) ++ s_rest g) false) = Some (l, false, f').
Proof.
  intros F Zg L H T N. unfold read_line.
  apply next_blanks with (bl := bl) (raw := raw) (g := g); try assumption; try reflexivity. apply le_n.
Qed.

Lemma next_comment bl : forall f raw l g fuel,
  Forall (fun b => Forall isspc b /\ ~ In nl b) bl ->
  s_eof f = false ->
  s_rest f = concat (map (fun b => b ++ [nl]) bl) ++ s_rest g -> s_eof g = false ->
  forall f', ends_line (hash :: raw) g f' -> trimmed_of raw l ->
  (length (s_rest f) < fuel)%nat -> next_line fuel f = match l with [] => None | _ => Some (l, true, f') end.
Proof.
  induction bl as [|b bl IH]; intros f raw l g fuel F Z E Zg f' L T K; destruct fuel as [|fuel]; try lia.
  - cbn in E. assert (f = g) by (destruct f, g; cbn in *; subst; reflexivity). subst.
    cbn [next_line]. rewrite (fetch_comment _ _ _ _ L T). reflexivity.
  - inversion F as [|? ? [B1 B2] F']; subst. cbn [map concat] in E. rewrite <- !app_assoc in E. cbn [app] in E.
    cbn [next_line].
    set (f1 := mkStream (concat (map (fun b => b ++ [nl]) bl) ++ s_rest g) false).
    assert (EL : ends_line b f f1) by (split; [exact Z|split; [exact B2|left; eexists; split; [exact E|reflexivity]]]).
    assert (TB : trimmed_of b []).
    { exists b, []. rewrite app_nil_r. split; [reflexivity|]. split; [exact B1|]. split; [constructor|].
      split; intros c r X; [discriminate|destruct r; discriminate]. }
    rewrite (fetch_plain b [] f f1 EL).
    + cbn [s_eof f1]. apply (IH f1 raw l g fuel F' eq_refl eq_refl Zg f' L T).
      cbn. rewrite E, app_length in K. cbn in K. lia.
    + intros r ->. inversion B1 as [|? ? X _]. unfold isspc in X. cbn in X. lia.
    + exact TB.
Qed.

Lemma read_line_comment bl raw g f' :
  Forall (fun b => Forall isspc b /\ ~ In nl b) bl -> s_eof g = false -> ends_line (hash :: raw) g f' ->
  read_line (mkStream (concat (map (fun b => b ++ [nl]) bl) ++ s_rest g) false) = None \/
  exists l, read_line (mkStream (concat (map (fun b => b ++ [nl]) bl) ++ s_rest g) false) = Some (l, true, f').
Proof.
  intros F Zg L. unfold read_line. pose proof (strip_trims raw) as T.
  assert (X : next_line (S (length (s_rest (mkStream (concat (map (fun b => b ++ [nl]) bl) ++ s_rest g) false))))
     (mkStream (concat (map (fun b => b ++ [nl]) bl) ++ s_rest g) false) =
     match strip_end (skip_space raw) with [] => None | _ => Some (strip_end (skip_space raw), true, f') end).
  { apply next_comment with (bl := bl) (raw := raw) (g := g); try assumption; try reflexivity. apply le_n. }
  rewrite X. destruct (strip_end (skip_space raw)) as [|c l]; [left; reflexivity|right; eexists; reflexivity].
Qed.

Lemma fetch_spec raw f f' : ends_line raw f f' -> exists l,
  ((forall r, raw <> hash :: r) /\ trimmed_of raw l /\
     fetch_line f = (match l with [] => false | _ => true end, l, Some false, f')) \/
  (exists r, raw = hash :: r /\ trimmed_of r l /\ fetch_line f = (true, l, Some true, f')).
Proof.
  intros E.
  assert (D : (exists r, raw = hash :: r) \/ (forall r, raw <> hash :: r)).
  { destruct raw as [|c r]; [right; discriminate|]. destruct (Ascii.eqb_spec c hash) as [->|N]; [left; eauto|].
    right. intros r' H. injection H as H _. exact (N H). }
  destruct D as [(r & ->)|N].
  - exists (strip_end (skip_space r)). right. exists r. split; [reflexivity|]. split; [apply strip_trims|].
    exact (fetch_comment _ _ _ _ E (strip_trims r)).
  - exists (strip_end (skip_space raw)). left. split; [exact N|]. split; [apply strip_trims|].
    exact (fetch_plain _ _ _ _ E N (strip_trims raw)).
Qed.

(** A line which needs no trimming. *)
Lemma read_line_plain raw rest : raw <> [] -> ~ In nl raw -> (forall r, raw <> hash :: r) ->
  (forall c r, raw = c :: r -> ~ isspc c) -> (forall c r, raw = r ++ [c] -> ~ isspc c) ->
  read_line (mkStream (raw ++ nl :: rest) false) = Some (raw, false, mkStream rest false).
Proof.
  intros N1 N2 H A B.
  assert (E : ends_line raw (mkStream (raw ++ nl :: rest) false) (mkStream rest false)).
  { split; [reflexivity|]. split; [exact N2|]. left. exists rest. split; reflexivity. }
  assert (T : trimmed_of raw raw).
  { exists [], []. rewrite app_nil_r. split; [reflexivity|]. split; [constructor|]. split; [constructor|]. split; assumption. }
  exact (read_line_blanks [] raw raw (mkStream (raw ++ nl :: rest) false) _ (Forall_nil _) eq_refl E H T N1).
Qed.

(** ** Keywords *)

Lemma str_eqb_eq a b : str_eqb a b = true <-> a = b.
Proof.
  revert b. induction a as [|x a IH]; intros [|y b]; cbn; split; intros H; try discriminate; auto.
  - apply andb_true_iff in H as [E F]. apply Ascii.eqb_eq in E. apply IH in F. subst. reflexivity.
  - injection H as -> ->. rewrite Ascii.eqb_refl. cbn. apply IH. reflexivity.
Qed.

Lemma upper_letter a b : capital a -> upper b = a <-> same_letter a b.
Proof.
  unfold upper, same_letter, capital. intros C.
  pose proof (code_range a). pose proof (code_range b).
  destruct (_ && _) eqn:E.
  - apply andb_true_iff in E as [E1 E2]. apply Z.leb_le in E1, E2. split.
    + intros <-. right. rewrite code_chr by lia. lia.
    + intros [->|[K1 K2]]; [exfalso; lia|]. apply code_inj. rewrite code_chr; lia.
  - apply andb_false_iff in E. rewrite !Z.leb_gt in E. split.
    + intros ->. left. reflexivity.
    + intros [->|[K1 K2]]; [reflexivity|lia].
Qed.

Lemma keyword_same key s : Forall capital (S2 key) -> compare_token key s = true <-> same_word key s.
Proof.
  unfold compare_token, same_word. rewrite str_eqb_eq. generalize (S2 key) as k. intros k.
  revert s. induction k as [|a k IH]; intros s C; split; intros H.
  - destruct s; [constructor|discriminate].
  - inversion H; subst. reflexivity.
  - destruct s as [|b s]; [discriminate|]. cbn in H. injection H as H1 H2. inversion C; subst.
    constructor; [apply upper_letter; auto|apply IH; auto].
  - inversion H as [|x y l l' H1 H2 E1 E2]; subst. inversion C; subst. cbn.
    rewrite (proj2 (upper_letter a y H4) H1). f_equal. apply IH; auto.
Qed.
