(** Facts about IDF libraries as a whole (IdfLib.v, IdfLibSpec.v): which are accepted and
    what they give. *)

From Verif Require Import Base Num IoModel IdfText IdfOutl IdfFile IdfLib Spec IdfSpec IdfOutlSpec IdfFileSpec IdfLibSpec
  IdfFacts IdfNum IdfRound IdfSect IdfLine IdfFileHead IdfFileSect IdfFileOutl IdfFileAgain IdfLibFacts.
From Verif Require Import IdfPlace IdfPlaceSpec IdfPlaceFacts.
From Coq Require Import Lia.
Open Scope Z_scope.

(** ** Duplicates *)

Lemma p_matches_iff p q : p_matches p q = true <-> close_pt p q.
Proof. unfold p_matches, close_pt. rewrite Qle_bool_iff. cbv zeta. split; intros H; (eapply Qle_trans; [exact H|]); unfold Qle; cbn; lia. Qed.

Lemma segs_match_iff a : forall b, segs_match a b = true <-> Forall2 close_seg a b.
Proof.
  induction a as [|s a IH]; intros [|t b]; cbn [segs_match].
  - split; [constructor|reflexivity].
  - split; [discriminate|intros H; inversion H].
  - split; [discriminate|intros H; inversion H].
  - rewrite !andb_true_iff, !p_matches_iff, IH. split.
    + intros ((A & B) & C). constructor; [split; assumption|exact C].
    + intros H. inversion H as [|? ? ? ? (A & B) C]; subst. auto.
Qed.

Lemma match_iff a b : match_comp a b = true <-> agrees a b.
Proof.
  unfold match_comp, agrees. rewrite !andb_true_iff, Nat.eqb_eq.
  assert (C : cls_eqb (co_cls a) (co_cls b) = true <-> co_cls a = co_cls b) by (destruct (co_cls a), (co_cls b); split; intros; try discriminate; reflexivity).
  rewrite C. destruct (co_loops a) as [|l la]; destruct (co_loops b) as [|m lb]; cbn [hd_error].
  - split; [intros ((A & B) & _); split; [exact A|]; split; [exact B|]; intros ? ? X; discriminate|]. intros (A & B & _). auto.
  - split; [intros ((A & B) & _); discriminate|intros (_ & B & _); discriminate].
  - split; [intros ((A & B) & _); discriminate|intros (_ & B & _); discriminate].
  - rewrite segs_match_iff. split.
    + intros ((A & B) & D). split; [exact A|]. split; [exact B|]. intros x y X Y. injection X as <-. injection Y as <-. exact D.
    + intros (A & B & D). split; [auto|]. apply D; reflexivity.
Qed.

(** ** The first ones *)

Lemma first_snoc k os o x : first_with k (os ++ [o]) x <-> first_with k os x \/ ((forall y, In y os -> uid y <> k) /\ x = o /\ uid o = k).
Proof.
  split.
  - intros (a & b & E & U & N). destruct b as [|z b] using rev_ind.
    + apply app_inj_tail in E as (-> & <-). right. auto.
    + clear IHb. left. rewrite app_comm_cons, app_assoc in E. apply app_inj_tail in E as (-> & _). exists a, b. auto.
  - intros [(a & b & -> & U & N)|(N & -> & U)].
    + exists a, (b ++ [o]). rewrite <- app_assoc. auto.
    + exists os, []. auto.
Qed.

Lemma first_dec k os : (exists x, first_with k os x) \/ (forall y, In y os -> uid y <> k).
Proof.
  induction os as [|o os IH] using rev_ind; [right; intros y []|]. destruct IH as [(x & F)|N].
  - left. exists x. apply first_snoc. auto.
  - destruct (eqb_cases (uid o) k) as [(_ & E)|(_ & NE)].
    + left. exists o. apply first_snoc. right. auto.
    + right. intros y I. apply in_app_iff in I as [I|[<-|[]]]; auto.
Qed.

Lemma first_not k os x : first_with k os x -> ~ (forall y, In y os -> uid y <> k).
Proof. intros (a & b & -> & U & _) N. apply (N x); [apply in_elt|exact U]. Qed.

Lemma consistent_snoc os o : consistent (os ++ [o]) <-> consistent os /\ forall x, first_with (uid o) os x -> agrees o x.
Proof.
  split.
  - intros C. split.
    + intros a y b x -> F. apply (C a y (b ++ [o]) x); [rewrite <- app_assoc; reflexivity|exact F].
    + intros x F. exact (C os o [] x eq_refl F).
  - intros (C & D) a y b x E F. destruct b as [|z b] using rev_ind.
    + apply app_inj_tail in E as (-> & <-). auto.
    + clear IHb. rewrite app_comm_cons, app_assoc in E. apply app_inj_tail in E as (-> & _). exact (C a y b x eq_refl F).
Qed.

Lemma consistent_pre a b : consistent (a ++ b) -> consistent a.
Proof. induction b as [|x b IH] using rev_ind; [rewrite app_nil_r; auto|]. rewrite app_assoc. intros C. apply IH. apply consistent_snoc in C. tauto. Qed.

(** ** Adding them *)

Fixpoint add_all (os : list cout) (m : lib) : option lib :=
  match os with
  | [] => Some m
  | o :: os' => match add_comp o m with None => None | Some m' => add_all os' m' end
  end.

Lemma add_one pre m o : lib_of pre m -> consistent pre ->
  (consistent (pre ++ [o]) -> exists m', add_comp o m = Some m' /\ lib_of (pre ++ [o]) m') /\
  (~ consistent (pre ++ [o]) -> add_comp o m = None).
Proof.
  intros (O & M) C. unfold add_comp. destruct (find (uid o) m) as [o'|] eqn:F.
  - apply find_in in F. apply M in F.
    destruct (match_comp o o') eqn:MC.
    + apply match_iff in MC. split; [intros _|intros N; exfalso; apply N, consistent_snoc; split; [exact C|]].
      * exists m. split; [reflexivity|]. split; [exact O|]. intros k x. rewrite first_snoc, M. split; [auto|]. intros [X|(X & -> & <-)]; [exact X|]. exfalso. exact (first_not _ _ _ F X).
      * intros x X. assert (x = o'); [|subst; exact MC]. apply M in F. apply M in X.
        pose proof (in_find _ _ _ (order_nodup _ O) F) as A. pose proof (in_find _ _ _ (order_nodup _ O) X) as B. congruence.
    + split; [|reflexivity]. intros X. apply consistent_snoc in X as (_ & X). specialize (X o' F). apply match_iff in X. congruence.
  - assert (N : forall y, In y pre -> uid y <> uid o).
    { destruct (first_dec (uid o) pre) as [(x & X)|X]; [|exact X]. apply M in X. apply find_none in F. exfalso. apply F. exact (in_map fst _ _ X). }
    split.
    + intros _. exists (put (uid o) o m). split; [reflexivity|]. split; [apply put_order, O|]. intros k x.
      rewrite (in_put_iff _ _ _ _ _ F (order_nodup _ O)), first_snoc, M. split.
      * intros [(-> & ->)|X]; [right; auto|left; exact X].
      * intros [X|(_ & -> & <-)]; [right; exact X|left; auto].
    + intros X. exfalso. apply X, consistent_snoc. split; [exact C|]. intros x Y. exfalso. exact (first_not _ _ _ Y N).
Qed.

Lemma add_all_iff os : forall pre m, lib_of pre m -> consistent pre ->
  (consistent (pre ++ os) -> exists m', add_all os m = Some m' /\ lib_of (pre ++ os) m') /\
  (~ consistent (pre ++ os) -> add_all os m = None).
Proof.
  induction os as [|o os IH]; intros pre m L C; cbn [add_all].
  - rewrite app_nil_r. split; [intros _; eauto|tauto].
  - destruct (add_one pre m o L C) as (Y & N). replace (pre ++ o :: os) with ((pre ++ [o]) ++ os) by (rewrite <- app_assoc; reflexivity).
    split.
    + intros X. destruct (Y (consistent_pre _ _ X)) as (m1 & -> & L1). apply (IH (pre ++ [o]) m1 L1 (consistent_pre _ _ X)). exact X.
    + intros X. destruct (add_comp o m) as [m1|] eqn:A; [|reflexivity].
      assert (DEC : consistent (pre ++ [o])).
      { apply consistent_snoc. split; [exact C|]. intros x F. destruct L as (O & M). pose proof F as F'. apply M in F'. apply (in_find _ _ _ (order_nodup _ O)) in F'.
        unfold add_comp in A. rewrite F' in A. destruct (match_comp o x) eqn:MC; [|discriminate]. apply match_iff, MC. }
      destruct (Y DEC) as (m2 & E & L1). injection E as ->. apply (IH (pre ++ [o]) m2 L1 DEC). exact X.
Qed.

Lemma lib_nil : lib_of [] [].
Proof. split; [constructor|]. intros k o. split; [intros []|]. intros (a & b & E & _). destruct a; discriminate. Qed.
Lemma consistent_nil : consistent [].
Proof. intros a o b x E. destruct a; discriminate. Qed.

(** ** Reading *)

Lemma lib_opens f l f' : opens f l f' -> next_lib (S (length (s_rest f))) f = Some (l, false, f').
Proof.
  intros (bl & raw & g & -> & B & G & EL & NH & T & NE). cbn [s_rest].
  assert (K : forall bl fuel, blank_lines bl -> (length bl < fuel)%nat -> next_lib fuel (mkStream (with_newlines bl ++ s_rest g) false) = Some (l, false, f')).
  { clear bl B. induction bl as [|x bl IH]; intros fuel B L; (destruct fuel as [|k]; [cbn in L; lia|]).
    - cbn [with_newlines map concat app next_lib]. destruct g as [r e]. cbn [s_eof s_rest] in *. subst e. rewrite (fetch_plain raw l _ _ EL NH T). destruct l; [congruence|]. reflexivity.
    - inversion B as [|? ? B1 B2]; subst. cbn [next_lib].
      assert (EX : ends_line x (mkStream (with_newlines (x :: bl) ++ s_rest g) false) (mkStream (with_newlines bl ++ s_rest g) false)).
      { unfold with_newlines. cbn [map concat]. rewrite <- !app_assoc. cbn [app]. split; [reflexivity|]. split; [|left; eexists; split; reflexivity].
        intros I. destruct B1 as (B1 & B3). tauto. }
      destruct B1 as (B1 & B3). rewrite (fetch_plain x [] _ _ EX).
      + cbn [s_eof]. apply IH; [exact B2|]. cbn [length] in L. exact (proj2 (Nat.succ_lt_mono _ _) L).
      + intros r ->. inversion B1 as [|? ? X _]; subst. revert X. unfold isspc. cbn. lia.
      + exists x, []. rewrite app_nil_r. cbn. split; [reflexivity|]. split; [exact B1|]. split; [constructor|]. split; [intros c r X; discriminate|intros c r X; destruct r; discriminate]. }
  apply K; [exact B|]. rewrite app_length. apply le_n_S. eapply Nat.le_trans; [apply newlines_len|apply Nat.le_add_r].
Qed.

Lemma blank_trim x : Forall isspc x -> trimmed_of x [].
Proof. intros B. exists x, []. rewrite app_nil_r. split; [reflexivity|]. split; [exact B|]. split; [constructor|]. split; [intros c r X; discriminate|intros c r X; destruct r; discriminate]. Qed.
Lemma blank_plain x : Forall isspc x -> forall r, x <> hash :: r.
Proof. intros B r ->. inversion B as [|? ? X _]; subst. revert X. unfold isspc. cbn. lia. Qed.

Lemma lib_blank bl w : blank_lines bl -> Forall isspc w -> ~ In nl w -> forall fuel, next_lib fuel (mkStream (with_newlines bl ++ w) false) = None.
Proof.
  intros B W N. induction B as [|x bl (B1 & B3) B IH]; intros fuel; (destruct fuel as [|k]; [reflexivity|]); cbn [next_lib].
  - cbn [with_newlines map concat app].
    assert (EX : ends_line w (mkStream w false) (mkStream [] true)) by (split; [reflexivity|]; split; [exact N|right; auto]).
    rewrite (fetch_plain w [] _ _ EX (blank_plain w W) (blank_trim w W)). reflexivity.
  - assert (EX : ends_line x (mkStream (with_newlines (x :: bl) ++ w) false) (mkStream (with_newlines bl ++ w) false)).
    { unfold with_newlines. cbn [map concat]. rewrite <- !app_assoc. cbn [app]. split; [reflexivity|]. split; [exact B3|left; eexists; split; reflexivity]. }
    rewrite (fetch_plain x [] _ _ EX (blank_plain x B1) (blank_trim x B1)). cbn [s_eof]. apply IH.
Qed.

Lemma opens_good f l f' : opens f l f' -> s_eof f = false.
Proof. intros (bl & raw & g & -> & _). reflexivity. Qed.

Lemma section_got ccw v k f l f' b w fs c com o g : opens f l f' -> laid_out b (Bare w :: fs) l -> same_word (cls_key c) w ->
  read_comp ccw c v com f' = Some (o, g) -> read_lib_section ccw v (S k) f com = LGot o g.
Proof.
  intros O L W R. cbn [read_lib_section]. rewrite (opens_good _ _ _ O), (lib_opens _ _ _ O).
  assert (NE : l <> []) by (destruct O as (? & ? & ? & ? & ? & ? & ? & ? & ? & NE); exact NE).
  destruct l as [|x l]; [congruence|].
  destruct (get_laid _ _ _ _ _ L (before_start (x :: l) [] false)) as (st & r & G & T & Q & _). cbn [value in_quotes] in T, Q.
  rewrite G, Q, T. destruct c; cbn [cls_key] in W.
  - rewrite (proj2 (keyword_same ".ELECTRICAL" w (capitals ".ELECTRICAL" eq_refl)) W), R. reflexivity.
  - destruct (key_cases ".ELECTRICAL" w eq_refl) as [(_ & X)|(-> & _)]; [pose proof (word_excl _ _ _ W X eq_refl eq_refl); discriminate|].
    rewrite (proj2 (keyword_same ".MECHANICAL" w (capitals ".MECHANICAL" eq_refl)) W), R. reflexivity.
Qed.

(** ** Streams become shorter *)

Definition size (f : stream) : nat := length (s_rest f).

Lemma split_len s : match split_line s with (_, Some r) => (length r <= length s)%nat | _ => True end.
Proof.
  induction s as [|c s IH]; cbn [split_line]; [exact I|]. destruct (Ascii.eqb c nl); [cbn [length]; lia|].
  destruct (split_line s) as [l [r|]]; [|exact I]. cbn [length]. lia.
Qed.
Lemma getline_len f raw f' : getline f = (raw, f') -> (size f' <= size f)%nat.
Proof.
  unfold getline, size. pose proof (split_len (s_rest f)) as S. destruct (split_line (s_rest f)) as [l [r|]]; intros H; injection H as <- <-; cbn [s_rest length]; [exact S|lia].
Qed.
Lemma fetch_len f b l c f' : fetch_line f = (b, l, c, f') -> (size f' <= size f)%nat.
Proof.
  unfold fetch_line. destruct (s_eof f); [intros H; injection H; intros; subst; lia|]. destruct (getline f) as [raw g] eqn:G. apply getline_len in G.
  destruct (match raw with [] => (false, raw) | x :: r => if Ascii.eqb x hash then (true, r) else (false, raw) end) as [com body].
  destruct (strip_end (skip_space body)), com; intros H; injection H; intros; subst; exact G.
Qed.
Lemma line_len fuel : forall f l c f', next_line fuel f = Some (l, c, f') -> (size f' <= size f)%nat.
Proof.
  induction fuel as [|k IH]; intros f l c f'; [discriminate|]. cbn [next_line]. destruct (fetch_line f) as [[[b x] y] g] eqn:F. apply fetch_len in F.
  destruct b.
  - destruct y; [|discriminate]. destruct x; [discriminate|]. intros H. injection H; intros; subst. exact F.
  - destruct (s_eof g); [discriminate|]. intros H. apply IH in H. lia.
Qed.
Lemma head_len f l f' : head_line f = Some (l, f') -> (size f' <= size f)%nat.
Proof.
  unfold head_line, read_line. destruct (next_line (S (length (s_rest f))) f) as [[[x y] g]|] eqn:N; [|discriminate]. apply line_len in N.
  destruct y; [discriminate|]. destruct (s_eof g); [discriminate|]. intros H. injection H as <- <-. exact N.
Qed.
Lemma lines_len ccw single comp u v fuel : forall f tok lft s ls f', read_lines ccw single comp u v fuel f tok lft s = Some (ls, f') -> (size f' <= size f)%nat.
Proof.
  induction fuel as [|k IH]; intros f tok lft s ls f'; [discriminate|]. cbn [read_lines]. destruct (s_eof f); [discriminate|].
  destruct (fetch_line f) as [[[b x] y] g] eqn:F. apply fetch_len in F. destruct b.
  - destruct (read_rec comp u v x tok lft) as [| |r t2 l2].
    + discriminate.
    + destruct (get_string x (mkScan tok false 0)) as [? st]. destruct (is_end (sc_tok st)).
      * destruct (finish s); [|discriminate]. intros H. injection H; intros; subst. lia.
      * intros H. injection H; intros; subst. lia.
    + destruct (IdfOutl.step ccw single s r); [|discriminate]. intros H. apply IH in H. lia.
  - intros H. apply IH in H. lia.
Qed.
Lemma props_len fuel : forall f m m' f', read_props fuel f m = Some (m', f') -> (size f' <= size f)%nat.
Proof.
  induction fuel as [|k IH]; intros f m m' f'; [discriminate|]. cbn [read_props]. unfold read_line.
  destruct (next_line (S (length (s_rest f))) f) as [[[x y] g]|] eqn:N; [|discriminate]. apply line_len in N. destruct y; [discriminate|].
  destruct (get_string x (mkScan [] false 0)) as [[] st]; [|discriminate]. destruct (sc_quoted st); [discriminate|].
  destruct (is_end (sc_tok st)); [intros H; injection H; intros; subst; lia|]. destruct (negb _); [discriminate|].
  destruct (word x st) as [[n st1]|]; [|discriminate]. destruct (word x st1) as [[w st2]|]; [|discriminate]. destruct (find n m); [discriminate|].
  intros H. apply IH in H. lia.
Qed.
Lemma comp_len ccw c v com f o g : read_comp ccw c v com f = Some (o, g) -> (size g <= size f)%nat.
Proof.
  unfold read_comp. destruct (head_line f) as [[l f1]|] eqn:H1; [|discriminate]. apply head_len in H1. destruct (comp_line v l) as [[[n u] q]|]; [|discriminate].
  destruct (read_outlines ccw true true u v f1) as [[ls f2]|] eqn:R; [|discriminate]. apply lines_len in R.
  destruct (match c, v with Elect, V3 => read_props (S (length (s_rest f2))) f2 [] | _, _ => Some ([], f2) end) as [[ps f3]|] eqn:P; [|discriminate].
  assert (L3 : (size f3 <= size f2)%nat).
  { destruct c, v; try (injection P; intros; subst; apply le_n). apply props_len in P. exact P. }
  destruct (head_line f3) as [[e f4]|] eqn:H4; [|discriminate]. apply head_len in H4. destruct (compare_token (cls_end c) e); [|discriminate].
  intros H. injection H; intros; subst. lia.
Qed.

(** ** The whole *)

Lemma sections_read ccw v f os : outlines_in ccw v f os -> forall fuel m, (size f < fuel)%nat -> read_lib_sections ccw v fuel f m = add_all os m.
Proof.
  induction 1 as [f E|bl w B W N|f l f' b k fs c o g os O L W R OI IH]; intros fuel m S; (destruct fuel as [|n]; [lia|]); cbn [read_lib_sections add_all].
  - rewrite E. reflexivity.
  - cbn [s_eof read_lib_section]. rewrite (lib_blank bl w B W N). reflexivity.
  - rewrite (opens_good _ _ _ O), (section_got ccw v _ f l f' b k fs c [] o g O L W R). destruct (add_comp o m) as [m'|]; [|reflexivity]. apply IH.
    assert (E' : s_eof f' = false).
    { destruct (s_eof f') eqn:E; [|reflexivity]. unfold read_comp, head_line, read_line in R. cbn [next_line] in R. unfold fetch_line in R. rewrite E in R. rewrite E in R. discriminate. }
    pose proof (opens_shorter _ _ _ O E') as SH. pose proof (comp_len _ _ _ _ _ _ _ R) as CL. unfold size in *. lia.
Qed.

Lemma library_read ccw v f os : outlines_in ccw v f os ->
  (consistent os -> exists m, read_lib_sections ccw v (S (length (s_rest f))) f [] = Some m /\ lib_of os m) /\
  (~ consistent os -> read_lib_sections ccw v (S (length (s_rest f))) f [] = None).
Proof.
  intros OI. pose proof (sections_read ccw v f os OI (S (length (s_rest f))) [] (Nat.lt_succ_diag_r _)) as E. rewrite E.
  exact (add_all_iff os [] [] lib_nil consistent_nil).
Qed.
