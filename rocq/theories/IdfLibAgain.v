(** A library which is written is read again (IdfLib.v, IdfLibSpec.v). *)

From Verif Require Import Base Num IoModel IdfText IdfOutl IdfFile IdfLib Spec IdfSpec IdfOutlSpec IdfFileSpec IdfLibSpec
  IdfFacts IdfNum IdfRound IdfSect IdfLine IdfOutlFacts IdfOutlSec IdfOutlText IdfFileHead IdfFileSect IdfFileOutl IdfFileAgain IdfLibFacts IdfLibFile.
From Verif Require Import IdfPlace IdfPlaceSpec IdfPlaceFacts.
From Coq Require Import Lia.
Open Scope Z_scope.

(** ** Outlines *)

Lemma prop_stops ccw single u v fs rest tok s k : fields_ok (Bare (S2 "PROP") :: fs) ->
  let f := mkStream (spaced (Bare (S2 "PROP") :: fs) ++ nl :: rest) false in
  read_lines ccw single true u v (S k) f tok [] s = Some (loops s, f).
Proof.
  intros F f. pose proof (opens_spaced (Bare (S2 "PROP")) fs rest F ltac:(discriminate)) as O.
  pose proof (spaced_laid _ F) as L. set (line := spaced (Bare (S2 "PROP") :: fs)) in *.
  assert (FE : fetch_line f = (true, line, Some false, mkStream rest false)).
  { assert (NN : line <> []) by (destruct O as (? & ? & ? & ? & ? & ? & ? & ? & ? & NE); exact NE).
    assert (EL : ends_line line f (mkStream rest false)) by (split; [reflexivity|]; split; [apply spaced_no_nl, F|left; exists rest; auto]).
    assert (T : trimmed_of line line).
    { exists [], []. rewrite app_nil_r. split; [reflexivity|]. split; [constructor|]. split; [constructor|]. split.
      - intros c r E. unfold line in E. assert (OK : field_ok (Bare (S2 "PROP"))) by (inversion F; tauto). exact (proj1 (spaced_head _ _ _ _ OK E)).
      - intros c r E. exact (spaced_last _ _ _ F E). }
    assert (NH : forall r, line <> hash :: r).
    { intros r E. unfold line in E. assert (OK : field_ok (Bare (S2 "PROP"))) by (inversion F; tauto). destruct (spaced_head _ _ _ _ OK E) as (_ & r' & E'). discriminate. }
    rewrite (fetch_plain line line f _ EL NH T). destruct line; [congruence|reflexivity]. }
  cbn [read_lines]. change (s_eof f) with false. cbv iota. rewrite FE.
  destruct (get_laid _ _ _ _ _ L (before_start line tok false)) as (st & r & G & T & Q & _). cbn [value in_quotes] in T, Q.
  unfold read_rec. rewrite G, Q, T. cbn [app]. change (is_end (S2 "PROP")) with false. cbn iota.
  change (stream_int (S2 "PROP")) with (@None (Z * str)). cbn iota. change (compare_token "PROP" (S2 "PROP")) with true. cbn [andb]. rewrite ?G, ?T. reflexivity.
Qed.

Lemma loops_then ccw u v ls : u <> Tnm -> Forall (loop_fit u) ls -> (length ls <= 1)%nat ->
  exists text ls', write_outlines ccw true u ls = Some text /\ Forall2 (near_loop u) (ways ccw true 0 ls) ls' /\
    (forall w rest, Forall (fun c => ~ isspc c) w ->
      let after := mkStream (S2 ".END_" ++ w ++ nl :: rest) false in
      read_outlines ccw true true u v (mkStream (text ++ s_rest after) false) = Some (ls', after)) /\
    (forall fs rest, fields_ok (Bare (S2 "PROP") :: fs) ->
      let after := mkStream (spaced (Bare (S2 "PROP") :: fs) ++ nl :: rest) false in
      read_outlines ccw true true u v (mkStream (text ++ s_rest after) false) = Some (ls', after)).
Proof.
  intros U F SG.
  assert (H : exists its ls', write_outlines ccw true u ls = Some (flat_map (it_text u) its) /\ Forall it_ok its /\
     section_means ccw true (map (it_rec u) its) ls' /\ Forall2 (near_loop u) (ways ccw true 0 ls) ls').
  { unfold write_outlines. destruct ls as [|l [|x ls]]; [| |cbn in SG; lia].
    - exists [], []. split; [reflexivity|]. split; [constructor|]. split; [|constructor]. exists 0, []. split; [reflexivity|]. split; [constructor|]. split; [auto|]. split; [cbn; lia|]. intros a l b E. destruct a; discriminate.
    - inversion F as [|? ? F1 _]; subst. destruct (outline_again ccw true u l 0 U F1 ltac:(unfold IdfOutl.int_max; lia)) as (its & ms & l' & W & OK & M & LM & NL). cbv zeta in *.
      exists its, [l']. cbn [write_loops ways]. rewrite W, app_nil_r. split; [reflexivity|]. split; [exact OK|]. split; [|constructor; [exact NL|constructor]].
      exists (number_of ccw true 0 l), [ms]. split; [cbn [numbered]; rewrite app_nil_r; exact M|]. split; [constructor; [exact LM|constructor]|].
      split; [unfold number_of; destruct l as [|? [|]]; try destruct (ccw _); auto|]. split; [cbn; lia|]. intros a x b E NB. destruct a as [|? [|]]; cbn in E; [injection E as <- <-; congruence|discriminate|discriminate]. }
  destruct H as (its & ls' & W & OK & SM & NL). exists (flat_map (it_text u) its), ls'. split; [exact W|]. split; [exact NL|].
  destruct (complete _ _ _ _ SM) as (s & ST & FI).
  assert (LE : (length its <= length (flat_map (it_text u) its))%nat).
  { apply flat_len. intros [i p a]. unfold it_text, out_line. intros E. apply app_eq_nil in E as [_ E]. discriminate. }
  assert (LO : loops s = ls') by (unfold finish in FI; destruct (match r_cur s with None => false | _ => r_any s && negb (r_closed s) end); congruence).
  split.
  - intros w rest NW after. unfold read_outlines. cbn [s_rest].
    set (total := length (flat_map (it_text u) its ++ s_rest after)).
    assert (LT : (length its <= total)%nat) by (unfold total; rewrite app_length; lia).
    replace (S total) with (length its + S (total - length its))%nat by lia.
    destruct (run_items ccw true true u v its U OK r_init s (S (total - length its)) [] (s_rest after) ST) as (tok' & ->).
    exact (end_stops ccw true true u v w rest tok' s ls' _ NW FI).
  - intros fs rest FO after. unfold read_outlines. cbn [s_rest].
    set (total := length (flat_map (it_text u) its ++ s_rest after)).
    assert (LT : (length its <= total)%nat) by (unfold total; rewrite app_length; lia).
    replace (S total) with (length its + S (total - length its))%nat by lia.
    destruct (run_items ccw true true u v its U OK r_init s (S (total - length its)) [] (s_rest after) ST) as (tok' & ->).
    change (mkStream (s_rest after) false) with after. unfold after. rewrite (prop_stops ccw true u v fs rest tok' s _ FO), LO. reflexivity.
Qed.

(** ** Properties *)

Definition prop_fields (p : str * str) : list field := [Bare (S2 "PROP"); Quoted (fst p); Quoted (snd p)].
Lemma prop_fields_ok p : text_ok (fst p) -> text_ok (snd p) -> fields_ok (prop_fields p).
Proof.
  intros (A & B) (C & D). apply Forall_cons; [apply bare_ok; try discriminate; reflexivity|].
  apply Forall_cons; [apply quoted_ok; assumption|]. apply Forall_cons; [apply quoted_ok; assumption|apply Forall_nil].
Qed.
Lemma write_props_cons p ps : write_props (p :: ps) = spaced (prop_fields p) ++ nl :: write_props ps.
Proof. unfold write_props, prop_fields, quoted_text. cbn [flat_map spaced field_text]. repeat (rewrite <- ?app_assoc; cbn [app]). reflexivity. Qed.

Lemma put_last {A} k (v : A) m : Forall (fun x => comes_before (fst x) k) m -> put k v m = m ++ [(k, v)].
Proof.
  induction 1 as [|[k1 v1] m B F IH]; cbn [put app]; [reflexivity|]. cbn [fst] in B.
  destruct (eqb_cases k k1) as [(_ & ->)|(-> & _)]; [exfalso; exact (before_irrefl _ B)|].
  destruct (str_ltb k k1) eqn:L; [|rewrite IH; reflexivity]. apply ltb_before in L. exfalso. exact (before_irrefl _ (before_trans _ _ _ L B)).
Qed.
Lemma find_last {A} k (m : list (str * A)) : Forall (fun x => comes_before (fst x) k) m -> find k m = None.
Proof.
  intros F. apply find_none. intros I. apply in_map_iff in I as ((k1 & v1) & <- & I). rewrite Forall_forall in F. exact (before_irrefl _ (F _ I)).
Qed.

Lemma props_again rest : ends_props (mkStream rest false) -> forall ps m fuel, Forall (fun p => text_ok (fst p) /\ text_ok (snd p)) ps ->
  in_order (map fst ps) -> (forall x p, In x m -> In p ps -> comes_before (fst x) (fst p)) -> (length ps < fuel)%nat ->
  read_props fuel (mkStream (write_props ps ++ rest) false) m = Some (m ++ ps, mkStream rest false).
Proof.
  intros E. induction ps as [|p ps IH]; intros m fuel F O B L; (destruct fuel as [|k]; [lia|]).
  - cbn [write_props flat_map app]. rewrite (ended_props _ m k E), app_nil_r. reflexivity.
  - inversion F as [|? ? (T1 & T2) F']; subst. inversion O as [|? ? OF O']; subst.
    rewrite write_props_cons, <- app_assoc. cbn [app].
    pose proof (prop_fields_ok p T1 T2) as FO.
    assert (PL : prop_line (mkStream (spaced (prop_fields p) ++ nl :: write_props ps ++ rest) false) p (mkStream (write_props ps ++ rest) false)).
    { apply (prop_is _ p _ (spaced (prop_fields p)) false (S2 "PROP") (Quoted (fst p)) (Quoted (snd p)) []).
      - apply (opens_spaced (Bare (S2 "PROP")) _ _ FO). discriminate.
      - apply (spaced_laid _ FO).
      - apply same_self.
      - destruct p; reflexivity. }
    rewrite (one_prop _ p _ m k PL).
    assert (FB : Forall (fun x => comes_before (fst x) (fst p)) m) by (apply Forall_forall; intros x I; apply B; [exact I|left; reflexivity]).
    rewrite (find_last _ _ FB), (put_last _ _ _ FB). rewrite IH; auto.
    + destruct p. rewrite <- app_assoc. reflexivity.
    + intros x y I J. apply in_app_iff in I as [I|[<-|[]]]; [apply B; [exact I|right; exact J]|]. cbn [fst].
      rewrite Forall_forall in OF. apply OF. exact (in_map fst _ _ J).
    + cbn [length] in L. lia.
Qed.

(** ** One outline *)

Lemma cls_end_opens c rest : opens (mkStream (S2 (cls_end c) ++ nl :: rest) false) (S2 (cls_end c)) (mkStream rest false).
Proof. apply word_opens; destruct c; try discriminate; try reflexivity; split; reflexivity. Qed.
Lemma cls_end_ends c rest : ends_props (mkStream (S2 (cls_end c) ++ nl :: rest) false).
Proof.
  exists (S2 (cls_end c)), (mkStream rest false), false, (S2 ".END_"), (skipn 5 (S2 (cls_end c))), []. split; [apply cls_end_opens|]. split; [|apply same_self].
  replace (S2 ".END_" ++ skipn 5 (S2 (cls_end c))) with (S2 (cls_end c)) by (destruct c; reflexivity).
  apply (spaced_laid [Bare (S2 (cls_end c))]). apply Forall_cons; [|apply Forall_nil]. destruct c; apply bare_ok; try discriminate; reflexivity.
Qed.
Lemma cls_end_split c : exists w, S2 (cls_end c) = S2 ".END_" ++ w /\ Forall (fun c => ~ isspc c) w.
Proof.
  exists (skipn 5 (S2 (cls_end c))). split; [destruct c; reflexivity|]. apply Forall_forall. intros x I X. apply space_true in X.
  destruct c; cbn in I; repeat (destruct I as [<-|I]; [discriminate|]); destruct I.
Qed.

Definition unit_word_of (u : unit_of) : str := match u with Thou => S2 "THOU" | _ => S2 "MM" end.
Definition second_fields (o : cout) : list field :=
  [Quoted (geom (co_names o)); Quoted (prt (co_names o)); Bare (unit_word_of (co_unit o)); Bare (out_num (co_unit o) (co_high o))].
Definition body_of (o : cout) (t : str) : str :=
  spaced (second_fields o) ++ nl :: t ++ (match co_cls o with Elect => write_props (co_props o) | Mechan => [] end) ++ S2 (cls_end (co_cls o)) ++ [nl; nl].

Lemma second_fields_ok o : comp_fits o -> fields_ok (second_fields o).
Proof.
  intros (_ & (A & B) & (C & D) & _). apply Forall_cons; [apply quoted_ok; assumption|]. apply Forall_cons; [apply quoted_ok; assumption|].
  apply Forall_cons; [destruct (co_unit o); apply bare_ok; try discriminate; reflexivity|]. apply Forall_cons; [apply num_field|apply Forall_nil].
Qed.

Lemma comp_again ccw o : comp_fits o -> exists t o',
  (forall r, r <> 0 -> write_comp ccw r o = Some (flat_map (fun s => S2 "# " ++ s ++ [nl]) (co_comments o) ++ S2 (cls_key (co_cls o)) ++ nl :: body_of o t)) /\
  comp_back ccw o o' /\
  forall rest, read_comp ccw (co_cls o) V3 (co_comments o) (mkStream (body_of o t ++ rest) false) = Some (o', mkStream (nl :: rest) false).
Proof.
  intros FI. pose proof (second_fields_ok o FI) as FO. destruct FI as (CO & TG & TP & NE & U & SZ & LF & LL & PO & PT).
  destruct (loops_then ccw (co_unit o) V3 (co_loops o) U LF LL) as (t & ls' & W & NL & RE & RP).
  destruct (length_again (co_unit o) V3 (co_high o) U SZ) as (x & SN & TM & NR).
  exists t, (mkCout (co_comments o) (co_cls o) (co_names o) (co_unit o) (back (co_unit o) (co_high o)) ls' (match co_cls o with Elect => co_props o | Mechan => [] end)).
  split; [|split].
  - intros r R. unfold write_comp. destruct (Z.eqb_spec r 0); [congruence|]. rewrite W. f_equal. f_equal. f_equal. f_equal.
    unfold body_of, second_fields, quoted_text, unit_word_of. cbn [spaced field_text].
    destruct (co_unit o); repeat (rewrite <- ?app_assoc; cbn [app]); reflexivity.
  - repeat (split; [reflexivity || assumption|]). reflexivity.
  - intros rest.
    set (pw := match co_cls o with Elect => write_props (co_props o) | Mechan => [] end).
    set (tail := pw ++ S2 (cls_end (co_cls o)) ++ nl :: nl :: rest).
    assert (EB : body_of o t ++ rest = spaced (second_fields o) ++ nl :: t ++ tail).
    { unfold tail, body_of. fold pw. repeat (rewrite <- ?app_assoc; cbn [app]). reflexivity. }
    rewrite EB. clear EB. unfold read_comp.
    assert (O1 : opens (mkStream (spaced (second_fields o) ++ nl :: t ++ tail) false) (spaced (second_fields o)) (mkStream (t ++ tail) false)).
    { apply (opens_spaced (Quoted (geom (co_names o))) _ _ FO). discriminate. }
    rewrite (opens_head _ _ _ O1). cbn [s_eof].
    assert (CM : comp_means V3 (second_fields o) (co_names o) (co_unit o) (back (co_unit o) (co_high o))).
    { pose proof (comp_is V3 (Quoted (geom (co_names o))) (Quoted (prt (co_names o))) (Bare (unit_word_of (co_unit o))) (Bare (out_num (co_unit o) (co_high o))) []
        (co_unit o) x (back (co_unit o) (co_high o)) NE) as K. cbn [value] in K. replace (mkNames (geom (co_names o)) (prt (co_names o))) with (co_names o) in K by (destruct (co_names o); reflexivity). apply K; auto.
      destruct (co_unit o); [apply same_self|apply same_self|congruence]. }
    rewrite (proj2 (comp_line_iff V3 _ false _ _ _ _ (spaced_laid _ FO)) CM).
    assert (KC : kept (co_comments o) = co_comments o).
    { clear - CO. induction CO as [|s l (N & _) CO IH]; [reflexivity|]. unfold kept in *. cbn [filter]. destruct s; [congruence|]. rewrite IH. reflexivity. }
    pose proof (cls_end_opens (co_cls o) (nl :: rest)) as OE. pose proof (opens_head _ _ _ OE) as HE. cbn [s_eof] in HE.
    assert (CT : compare_token (cls_end (co_cls o)) (S2 (cls_end (co_cls o))) = true) by (destruct (co_cls o); reflexivity).
    assert (NOPROP : pw = [] ->
      read_outlines ccw true true (co_unit o) V3 (mkStream (t ++ tail) false) = Some (ls', mkStream (S2 (cls_end (co_cls o)) ++ nl :: nl :: rest) false)).
    { intros EW. unfold tail. rewrite EW. cbn [app]. destruct (cls_end_split (co_cls o)) as (w & EE & FW). rewrite EE, <- app_assoc.
      specialize (RE w (nl :: rest) FW). cbv zeta in RE. cbn [s_rest] in RE. exact RE. }
    destruct (co_cls o) eqn:C.
    + destruct (co_props o) as [|p ps] eqn:EP.
      * rewrite (NOPROP eq_refl), (ended_props _ [] _ (cls_end_ends Elect (nl :: rest))), HE, CT, KC. reflexivity.
      * inversion PT as [|? ? (T1 & T2) PT']; subst.
        assert (RO : read_outlines ccw true true (co_unit o) V3 (mkStream (t ++ tail) false) = Some (ls', mkStream tail false)).
        { unfold tail, pw. rewrite write_props_cons, <- app_assoc. cbn [app].
          exact (RP [Quoted (fst p); Quoted (snd p)] (write_props ps ++ S2 (cls_end Elect) ++ nl :: nl :: rest) (prop_fields_ok p T1 T2)). }
        rewrite RO. cbn [s_rest]. unfold tail at 2. unfold pw. rewrite (props_again _ (cls_end_ends Elect (nl :: rest)) (p :: ps) []); [|exact PT|exact PO|intros ? ? []|].
        -- cbn [app]. rewrite HE, CT, KC. reflexivity.
        -- unfold tail, pw. rewrite app_length. clear. apply le_n_S. eapply Nat.le_trans; [|apply Nat.le_add_r].
           induction (p :: ps) as [|y l IH]; [apply le_n|]. rewrite write_props_cons, app_length. cbn [length].
           eapply Nat.le_trans; [apply le_n_S, IH|]. apply Nat.le_add_l.
    + rewrite (NOPROP eq_refl), HE, CT, KC. reflexivity.
Qed.

(** ** With its comments *)

Definition comments_text (cs : list str) : str := flat_map (fun s => S2 "# " ++ s ++ [nl]) cs.

Lemma comment_fetch s rest : comment_ok s -> fetch_line (mkStream ((S2 "# " ++ s ++ [nl]) ++ rest) false) = (true, s, Some true, mkStream rest false).
Proof.
  intros (N & NN & H1 & H2). apply (fetch_comment (sp :: s) s).
  - split; [reflexivity|]. split.
    + intros [X|[X|X]]; [discriminate|discriminate|tauto].
    + left. exists rest. split; [|reflexivity]. cbn [s_rest]. repeat rewrite <- app_assoc. reflexivity.
  - exists [sp], []. rewrite app_nil_r. split; [reflexivity|]. split; [constructor; [apply sp_space|constructor]|]. split; [constructor|]. auto.
Qed.

Lemma next_comment s rest bl : blank_lines bl -> comment_ok s -> forall fuel, (length bl < fuel)%nat ->
  next_lib fuel (mkStream (with_newlines bl ++ (S2 "# " ++ s ++ [nl]) ++ rest) false) = Some (s, true, mkStream rest false).
Proof.
  intros B CO. induction B as [|x bl (B1 & B3) B IH]; intros fuel L; (destruct fuel as [|k]; [lia|]); cbn [next_lib].
  - change (with_newlines []) with (@nil ascii). cbn [app]. rewrite (comment_fetch s rest CO : fetch_line _ = _). destruct s; reflexivity.
  - assert (EX : ends_line x (mkStream (with_newlines (x :: bl) ++ (S2 "# " ++ s ++ [nl]) ++ rest) false) (mkStream (with_newlines bl ++ (S2 "# " ++ s ++ [nl]) ++ rest) false)).
    { unfold with_newlines. cbn [map concat]. rewrite <- (app_assoc (x ++ [nl])), <- (app_assoc x). cbn [app]. split; [reflexivity|]. split; [exact B3|left; eexists; split; reflexivity]. }
    rewrite (fetch_plain x [] _ _ EX (blank_plain x B1) (blank_trim x B1)). cbn [s_eof]. apply IH. cbn [length] in L. lia.
Qed.

Lemma comments_read ccw v rest cs : Forall comment_ok cs -> forall bl com k, blank_lines bl ->
  exists bl', blank_lines bl' /\
  read_lib_section ccw v (length cs + k) (mkStream (with_newlines bl ++ comments_text cs ++ rest) false) com =
  read_lib_section ccw v k (mkStream (with_newlines bl' ++ rest) false) (com ++ cs).
Proof.
  induction 1 as [|s cs CO F IH]; intros bl com k B.
  - exists bl. split; [exact B|]. rewrite app_nil_r. reflexivity.
  - destruct (IH [] (com ++ [s]) k (Forall_nil _)) as (bl' & B' & E). exists bl'. split; [exact B'|].
    unfold comments_text. cbn [flat_map length Nat.add read_lib_section s_eof]. rewrite <- (app_assoc (S2 "# " ++ s ++ [nl])). rewrite (next_comment s _ bl B CO).
    + destruct CO as (N & _). destruct s as [|c s]; [congruence|]. cbn [with_newlines map concat app] in E. rewrite <- app_assoc in E. exact E.
    + cbn [s_rest]. rewrite app_length. apply le_n_S. eapply Nat.le_trans; [apply newlines_len|apply Nat.le_add_r].
Qed.

Lemma comments_len (cs : list str) : (length cs <= length (comments_text cs))%nat.
Proof.
  induction cs as [|s cs IH]; [apply le_n|]. unfold comments_text in *. cbn [flat_map length]. rewrite app_length. cbn [app length]. apply le_n_S.
  eapply Nat.le_trans; [exact IH|]. apply Nat.le_trans with (2 := Nat.le_succ_diag_r _). apply Nat.le_add_l.
Qed.

Lemma section_again ccw o : comp_fits o -> exists t o', t <> [] /\ (forall r, r <> 0 -> write_comp ccw r o = Some t) /\ comp_back ccw o o' /\
  forall bl rest, blank_lines bl ->
    read_lib_section ccw V3 (S (length (with_newlines bl ++ t ++ rest))) (mkStream (with_newlines bl ++ t ++ rest) false) [] = LGot o' (mkStream (nl :: rest) false).
Proof.
  intros FI. destruct (comp_again ccw o FI) as (t & o' & W & B & R). set (hd := S2 (cls_key (co_cls o)) ++ nl :: body_of o t) in *.
  exists (comments_text (co_comments o) ++ hd), o'. split; [|split; [exact W|split; [exact B|]]].
  { intros E. apply app_eq_nil in E as (_ & E). unfold hd in E. apply app_eq_nil in E as (_ & E). discriminate. }
  intros bl rest BL. rewrite <- app_assoc. set (total := length (with_newlines bl ++ comments_text (co_comments o) ++ hd ++ rest)).
  assert (LT : (length (co_comments o) <= total)%nat).
  { unfold total. rewrite !app_length. pose proof (comments_len (co_comments o)) as CL. set (a := length (co_comments o)) in *.
    eapply Nat.le_trans; [exact CL|]. eapply Nat.le_trans; [apply Nat.le_add_r|apply Nat.le_add_l]. }
  replace (S total) with (length (co_comments o) + S (total - length (co_comments o)))%nat by (set (a := length (co_comments o)) in *; lia).
  destruct FI as (CO & _). destruct (comments_read ccw V3 (hd ++ rest) (co_comments o) CO bl [] (S (total - length (co_comments o))) BL) as (bl' & B' & E).
  etransitivity; [exact E|]. cbn [app].
  apply (section_got ccw V3 _ _ (S2 (cls_key (co_cls o))) (mkStream (body_of o t ++ rest) false) false (S2 (cls_key (co_cls o))) [] (co_cls o)).
  - apply opens_blank; [exact B'|]. unfold hd. rewrite <- app_assoc. cbn [app]. apply word_opens; destruct (co_cls o); try discriminate; try reflexivity; split; reflexivity.
  - apply (spaced_laid [Bare (S2 (cls_key (co_cls o)))]). apply Forall_cons; [|apply Forall_nil]. destruct (co_cls o); apply bare_ok; try discriminate; reflexivity.
  - apply same_self.
  - apply R.
Qed.

(** ** The file *)

Definition entry_ok (x : str * (Z * cout)) : Prop := fst x = uid (snd (snd x)) /\ (fst (snd x) <> 0 -> comp_fits (snd (snd x))).

Lemma comps_again ccw l : Forall entry_ok l -> in_order (map fst l) -> exists t l', write_couts ccw l = Some t /\ Forall2 (entry_back ccw) (referred l) l' /\
  forall bl m fuel, blank_lines bl -> (forall x y, In x m -> In y l -> comes_before (fst x) (fst y)) ->
    (length (with_newlines bl ++ t) < fuel)%nat ->
    read_lib_sections ccw V3 fuel (mkStream (with_newlines bl ++ t) false) m = Some (m ++ l').
Proof.
  induction 1 as [|[k [r o]] l (EK & EF) F IH]; intros O.
  - exists [], []. split; [reflexivity|]. split; [constructor|]. intros bl m fuel B _ L. destruct fuel as [|n]; [lia|].
    cbn [read_lib_sections s_eof read_lib_section]. rewrite (lib_blank bl [] B (Forall_nil _)); [|intros []]. rewrite app_nil_r. reflexivity.
  - inversion O as [|? ? OF O']; subst. destruct (IH O') as (t & l' & W & B & R). clear IH. cbn [fst snd] in EK, EF. cbn [write_couts].
    unfold referred. cbn [filter fst snd]. destruct (Z.eqb_spec r 0) as [->|NR]; cbn [negb].
    + exists t, l'. unfold write_comp. cbn [Z.eqb]. rewrite W. split; [reflexivity|]. split; [exact B|]. intros bl m fuel BL OM L. apply R; auto. intros x y I J. apply OM; [exact I|right; exact J].
    + destruct (section_again ccw o (EF NR)) as (a & o' & NA & WA & CB & RA). rewrite (WA r NR), W. cbn [map].
      exists (a ++ t), ((k, o') :: l'). split; [reflexivity|]. split; [constructor; [split; [reflexivity|exact CB]|exact B]|].
      intros bl m fuel BL OM L. destruct fuel as [|n]; [lia|]. cbn [read_lib_sections s_eof s_rest]. rewrite (RA bl t BL).
      assert (UO : uid o' = k). { unfold uid. destruct CB as (_ & _ & -> & _). symmetry. exact EK. }
      assert (FB : Forall (fun x => comes_before (fst x) k) m) by (apply Forall_forall; intros x I; exact (OM x (k, (r, o)) I (or_introl eq_refl))).
      unfold add_comp. rewrite UO, (find_last _ _ FB), (put_last _ _ _ FB).
      change (mkStream (nl :: t) false) with (mkStream (with_newlines [[]] ++ t) false). rewrite R.
      * rewrite <- app_assoc. reflexivity.
      * exact blank_one.
      * intros x y I J. apply in_app_iff in I as [I|[<-|[]]]; [apply OM; [exact I|right; exact J]|]. cbn [fst]. rewrite Forall_forall in OF. apply OF. exact (in_map fst _ _ J).
      * assert (LA : (2 <= length a)%nat).
        { specialize (WA r NR). unfold write_comp in WA. destruct (Z.eqb_spec r 0); [congruence|]. destruct (write_outlines ccw true (co_unit o) (co_loops o)); [|discriminate].
          injection WA as <-. rewrite app_length. cbn [length]. rewrite app_length. destruct (co_cls o); cbn; lia. }
        revert L. rewrite !app_length. change (length (with_newlines [[]])) with 1%nat. set (x := length (with_newlines bl)). set (y := length t). clearbody x y. lia.
Qed.

Lemma library_again ccw source date n l : ~ In quote source -> ~ In nl source -> date_ok date -> 0 <= n + 1 <= IdfOutl.int_max ->
  Forall entry_ok l -> in_order (map fst l) ->
  exists text l', write_lib ccw source date n l = Some text /\ Forall2 (entry_back ccw) (referred l) l' /\
    read_lib ccw (mkStream text false) = Some (mkHead V3 (source_text source) date (n + 1), l').
Proof.
  intros Q N D B F O. destruct (comps_again ccw l F O) as (t & l' & W & E & R). exists (write_lib_head source date n ++ t), l'.
  unfold write_lib. rewrite W. split; [reflexivity|]. split; [exact E|]. unfold read_lib. rewrite (lib_head_again source date n t Q N D B). cbn [h_ver s_rest].
  specialize (R [[]] [] (S (length (nl :: t))) blank_one ltac:(intros x y []) (Nat.lt_succ_diag_r _)). cbn [app] in R.
  change (with_newlines [[]] ++ t) with (nl :: t) in R. rewrite R. reflexivity.
Qed.
