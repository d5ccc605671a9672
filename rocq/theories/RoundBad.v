(** Whole files with an entity which cannot be read back. *)

From Coq Require Import Lia ZifyBool ZifyNat ZifyN QArith Qabs.
From Verif Require Import Base Num Spec NumFacts IoModel FieldFacts LineFacts TokenFacts RecordFacts StreamFacts BuildFacts
  PdModel PdSpec PdFacts PdProps EntModel EntModel2 EntModel3 EntSpec EntFacts EntProps EntProps5 EntNeg2 NurbsNeg
  DeModel DeFacts DeSpec DeProps HeaderModel HeaderFacts PayloadModel GlobalModel GlobSpec GlobBack GlobRead
  FileModel LayoutFacts FileSpec FileFacts TailFacts RoundLines RoundSpec RoundEnt RoundFile.
Open Scope Z_scope.

(** *** Records *)

Lemma refused_lift {A} (c : A -> payload direction) fmt (read : Z -> stream -> pres (A * list Z * list str * stream)) :
  refused fmt read -> refused fmt (fun n f => lift c (read n f)).
Proof. intros (r & F & E). exists r. split; [exact F|]. intros rest. rewrite E. reflexivity. Qed.

Lemma arc_refused_at a extras k seq pd rd u u2 : EntSpec.settings_ok pd rd seq k extras -> (0 < u)%Q -> Forall real300 (arc_reals a) ->
  room k 7 0 extras ->
  (forall a', Forall2 (real_close u) (arc_reals a) (arc_reals a') ->
     ~ radii_ok u2 (a_xc a') (a_yc a') (a_xs a') (a_ys a') (a_xe a') (a_ye a')) ->
  refused (format100 a extras [] k seq pd rd u) (fun n f => readPD100 seq k n pd rd u2 f).
Proof.
  intros S U F RM OK. destruct (round100 a extras k seq pd rd u S U F RM) as (r & ds & FM & N & NE & C & X & a' & CL & RD).
  exists r. split; [exact FM|]. intros rest. unfold readPD100. rewrite RD. cbn [pbind].
  unfold guard. destruct (arc_ok a' u2) eqn:E; [|reflexivity]. exfalso. apply arc_ok_iff in E. exact (OK _ CL E).
Qed.

Lemma payload_refused u' u pd rd k seq e : EntSpec.settings_ok pd rd seq k (e_extras e) -> (0 < u)%Q ->
  data_refused u' u (e_extras e) (e_data e) -> e_comments e = [] -> k + ent_lines e <= 9999999 ->
  refused (format_ent u pd rd k seq e) (fun n f => read_payload (type_no (e_data e)) seq k n pd rd u' f).
Proof.
  destruct e as [d p ex cs]. cbn [e_dir e_data e_extras e_comments]. intros S U OK -> B. unfold ent_lines in B. cbn [e_data e_extras] in B.
  unfold format_ent. cbn [e_dir e_data e_extras e_comments].
  assert (RM : room k (items p) (text_lines p) ex) by (unfold room; lia). clear B.
  destruct p as [a|l|c|l|r|t|m|c v|s|o|t|c v|x v|l|b|s|c|nm|i|v|l|l|f|l];
    cbn [data_refused type_no items text_lines] in OK, RM; try contradiction; cbn [type_no read_payload].
  - destruct OK as [F OK]. apply refused_lift, arc_refused_at; assumption.
  - destruct v as [[i j] h]. destruct OK as (H1 & H2 & H3 & H4 & H5 & H6 & H7 & H8 & H9 & H10 & H11).
    apply refused_lift. apply (refused126 c i j h ex k seq pd rd); assumption.
  - destruct OK as (H1 & H2 & H3 & H4 & H5 & H6 & H7 & H8 & H9 & H10 & H11 & H12 & H13).
    apply refused_lift. apply (refused128 s ex k seq pd rd); assumption.
  - destruct OK as ((s & ES & PS) & N1 & O & F). destruct t as [xs n1 xo l]. cbn [tr_surf tr_n1 tr_outer tr_inner] in *. subst xs xo.
    apply refused_lift, refused144; assumption.
  - destruct OK as (F & L & B). apply refused_lift, refused180; assumption.
  - destruct OK as (-> & (s & ES & PS) & NE & F & ND). destruct b as [xs so vo]. cbn [br_shell br_voids br_sof] in *. subst xs.
    apply refused_lift, refused186; try assumption. unfold room in *. cbn [length] in *. lia.
Qed.

(** Every record has the common frame. *)
Definition framed (fmt : list str -> pres pdrec) (read : Z -> stream -> pres (payload direction * list Z * list str * stream))
  (etype seq k : Z) (pd rd : ascii) (extras : list (Z * Z)) : Prop :=
  forall cs0 r0, fmt cs0 = POk r0 ->
  exists A (parse : str -> nat -> pres (A * nat * bool)) init acts (h : A * list Z * list str * stream -> pres (payload direction * list Z * list str * stream)),
    (forall cs, fmt cs = format_frame init acts extras cs k seq pd rd) /\
    (forall n f, read n f = do x <- readPD_frame parse etype seq k n pd rd f; h x) /\
    (forall a ptrs cs f p ptrs' cs' f', h (a, ptrs, cs, f) = POk (p, ptrs', cs', f') -> ptrs' = ptrs /\ cs' = cs /\ f' = f).

Lemma framed_lift {A} (c : A -> payload direction) (parse : str -> nat -> pres (A * nat * bool)) init acts fmt etype seq k pd rd extras :
  (forall cs, fmt cs = format_frame init acts extras cs k seq pd rd) ->
  framed fmt (fun n f => lift c (readPD_frame parse etype seq k n pd rd f)) etype seq k pd rd extras.
Proof.
  intros E _ _ _. exists A, parse, init, acts, (fun x => let '(a, p, cs, f) := x in POk (c a, p, cs, f)).
  split; [exact E|]. split; [reflexivity|]. intros a ptrs cs f p ptrs' cs' f' H. injection H as _ <- <- <-. auto.
Qed.

Lemma ent_framed u' u pd rd k seq d p ex :
  framed (fun cs => format_ent u pd rd k seq (mkEnt d p ex cs)) (fun n f => read_payload (type_no p) seq k n pd rd u' f)
    (type_no p) seq k pd rd ex.
Proof.
  unfold format_ent. cbn [e_dir e_data e_extras e_comments].
  destruct p as [a|l|c|l|r|t|m|c v|s|o|t|c v|x v|l|b|s|c|nm|i|v|l|l|f|l]; cbn [type_no read_payload]; intros cs0 r0 F0.
  - eexists arc, (parse100 pd rd), _, _, (fun x => let '(a, p, cs, f) := x in guard (arc_ok a u') (POk (P100 a, p, cs, f))).
    split; [intros cs; unfold format100; reflexivity|]. split.
    + intros n f. unfold lift, readPD100. destruct (readPD_frame _ _ _ _ _ _ _ _) as [| |[[[x p] cs] g]]; try reflexivity.
      cbn [pbind]. unfold guard. destruct (arc_ok x u'); reflexivity.
    + intros x ptrs cs f p ptrs' cs' f'. unfold guard. destruct (arc_ok x u'); [|discriminate]. intros H. injection H as _ <- <- <-. auto.
  - eapply (framed_lift P102); [|exact F0]. intros cs. unfold format102. reflexivity.
  - eapply (framed_lift P104); [|exact F0]. intros cs. unfold format104. reflexivity.
  - eapply (framed_lift P110); [|exact F0]. intros cs. unfold format110. reflexivity.
  - unfold format120 in *. destruct (rv_axis r) as [l|]; [|discriminate]. destruct (rv_curve r) as [c|]; [|discriminate].
    eapply (framed_lift P120); [|exact F0]. intros cs. reflexivity.
  - unfold format122 in *. destruct (tc_curve t) as [c|]; [|discriminate].
    eapply (framed_lift P122); [|exact F0]. intros cs. reflexivity.
  - eapply (framed_lift P124); [|exact F0]. intros cs. unfold format124. reflexivity.
  - destruct v as [[i j] h]. unfold format126 in *. destruct (_ || _); [discriminate|].
    eapply (framed_lift (fun x => P126 (fst x) (snd x))); [|exact F0]. intros cs. reflexivity.
  - unfold format128 in *. destruct (_ || _); [discriminate|].
    eapply (framed_lift P128); [|exact F0]. intros cs. reflexivity.
  - unfold format142 in *. destruct (os_surf o) as [s|]; [|discriminate]. unfold guard in *.
    destruct (match os_b o, os_c o with None, None => false | _, _ => true end); [|discriminate]. cbv zeta in *.
    destruct (range03 _); [|discriminate]. destruct (range03 _); [|discriminate].
    eapply (framed_lift P142); [|exact F0]. intros cs. reflexivity.
  - unfold format144 in *. destruct (tr_surf t) as [s|]; [|discriminate]. unfold guard in *.
    destruct (flag01 _); [|discriminate].
    eapply (framed_lift P144); [|exact F0]. intros cs. reflexivity.
  - destruct v as [[i j] h]. eapply (framed_lift (fun x => P154 (fst x) (snd x))); [|exact F0]. intros cs. unfold format154. reflexivity.
  - destruct v as [[i j] h]. unfold format164 in *. destruct (ex_curve x) as [c|]; [|discriminate].
    eapply (framed_lift (fun x => P164 (fst x) (snd x))); [|exact F0]. intros cs. reflexivity.
  - unfold format180 in *. destruct (_ || _); [discriminate|].
    eapply (framed_lift P180); [|exact F0]. intros cs. reflexivity.
  - unfold format186 in *. destruct (_ <? _); [discriminate|]. destruct (br_shell b) as [s|]; [|discriminate].
    eapply (framed_lift P186); [|exact F0]. intros cs. reflexivity.
  - unfold format308 in *. destruct (sf_ents s) as [|x l]; [discriminate|].
    eapply (framed_lift P308); [|exact F0]. intros cs. reflexivity.
  - eapply (framed_lift P314); [|exact F0]. intros cs. unfold format314. cbv zeta. reflexivity.
  - unfold format406 in *. unfold guard in *. destruct (_ =? _); [|discriminate].
    eapply (framed_lift P406); [|exact F0]. intros cs. reflexivity.
  - unfold format408 in *. destruct (in_def i) as [c|]; [|discriminate].
    eapply (framed_lift P408); [|exact F0]. intros cs. reflexivity.
  - unfold format502 in *. destruct (_ || _); [discriminate|]. destruct v as [|x v]; [discriminate|].
    eapply (framed_lift P502); [|exact F0]. intros cs. reflexivity.
  - unfold format504 in *. destruct (_ || _); [discriminate|]. destruct l as [|x l]; [discriminate|]. destruct (existsb _ _); [discriminate|].
    eapply (framed_lift P504); [|exact F0]. intros cs. reflexivity.
  - unfold format508 in *. destruct (_ || _); [discriminate|]. destruct (loop_check l) as [| |[]]; try discriminate. cbn [pbind] in *.
    eapply (framed_lift P508); [|exact F0]. intros cs. reflexivity.
  - unfold format510 in *. destruct (_ <? _); [discriminate|]. destruct (fc_surf f) as [s|]; [|discriminate]. destruct (fc_loops f) as [|x l]; [discriminate|].
    eapply (framed_lift P510); [|exact F0]. intros cs. reflexivity.
  - unfold format514 in *. destruct (_ <? _); [discriminate|]. destruct l as [|x l]; [discriminate|].
    eapply (framed_lift P514); [|exact F0]. intros cs. reflexivity.
Qed.

(** A comment behind the record of an entity of any type. *)
Lemma comment_spoils u' u pd rd k seq e : EntSpec.settings_ok pd rd seq k (e_extras e) -> (0 < u)%Q ->
  data_ok u' u (d_form (e_dir e)) (e_extras e) (e_data e) -> k + ent_lines e <= 9999999 -> spoiling_comment seq (e_comments e) ->
  forall r, format_ent u pd rd k seq e = POk r ->
  forall rest, read_payload (type_no (e_data e)) seq k (p_count r) pd rd u' (mkStream (p_out r ++ rest) false) = PFail.
Proof.
  destruct e as [d p ex cs]. cbn [e_dir e_data e_extras e_comments]. intros S U OK B (c & FC & NN & NT) r F rest.
  pose proof S as (D & S1 & K1 & _).
  destruct (ent_framed u' u pd rd k seq d p ex cs r F) as (A & parse & init & acts & h & FM & RD & HH).
  rewrite RD.
  destruct (payload_round u' u pd rd k seq (mkEnt d p ex [])) as (r0 & ds & F0 & N & NE & C & X & a & G & R0); auto.
  cbn [e_dir e_data e_extras e_comments] in *. rewrite (FM []) in F0. rewrite (FM cs) in F.
  rewrite (comment_refused_gen A parse (type_no p) init acts ex cs c k seq pd rd r0 ds); auto; try lia.
  - destruct p; discriminate.
  - intros rest'. specialize (R0 rest'). rewrite RD in R0. apply pbind_ok in R0. destruct R0 as ([[[a0 ptrs0] cs0] f0] & R1 & H1).
    apply HH in H1. destruct H1 as (_ & _ & <-). eauto.
Qed.

Lemma record_fails u' u pd rd k seq e r : delims pd rd -> (0 < u)%Q -> 1 <= seq <= 9999999 -> 1 <= k -> k + ent_lines e <= 9999999 ->
  record_refused u' u seq e -> format_ent u pd rd k seq e = POk r ->
  forall rest, read_payload (type_no (e_data e)) seq k (p_count r) pd rd u' (mkStream (p_out r ++ rest) false) = PFail.
Proof.
  intros D U S K B (EO & H) F rest.
  assert (SO : EntSpec.settings_ok pd rd seq k (e_extras e)) by (split; [exact D|]; split; [exact S|]; split; [exact K|exact EO]).
  destruct H as [[DR NC]|[DO SC]].
  - destruct (payload_refused u' u pd rd k seq e SO U DR NC B) as (r' & F' & R). rewrite F in F'. apply pok_inj in F'. subst r'. apply R.
  - eapply comment_spoils; eassumption.
Qed.

(** *** Files *)

Lemma format_all_app u pd rd es1 : forall es2 seq k l next, format_all u pd rd seq k (es1 ++ es2) = POk (l, next) ->
  exists l1 k1 l2, format_all u pd rd seq k es1 = POk (l1, k1) /\
    format_all u pd rd (seq + 2 * Z.of_nat (length es1)) k1 es2 = POk (l2, next) /\ l = l1 ++ l2.
Proof.
  induction es1 as [|e es1 IH]; intros es2 seq k l next H.
  - exists [], k, l. cbn [length]. replace (seq + 2 * Z.of_nat 0) with seq by lia. auto.
  - cbn [app format_all length] in *. apply pbind_ok in H. destruct H as (r & F & H). apply pbind_ok in H. destruct H as ([l0 k0] & FA & H).
    apply pok_inj in H. apply pair_inj in H. destruct H as [<- <-]. rewrite F. cbn [pbind].
    destruct (IH _ _ _ _ _ FA) as (l1 & k1 & l2 & F1 & F2 & ->). rewrite F1. cbn [pbind].
    exists ((filed seq k (p_count r) e, r) :: l1), k1, l2. split; [reflexivity|]. split; [|reflexivity].
    replace (seq + 2 * Z.of_nat (S (length es1))) with (seq + 2 + 2 * Z.of_nat (length es1)) by lia. exact F2.
Qed.

Lemma format_all_dirs u pd rd es : forall seq k l next, format_all u pd rd seq k es = POk (l, next) -> 1 <= seq ->
  Forall2 (fun e x => exists s n c, fst x = filed s n c e /\ 1 <= s) es l.
Proof.
  induction es as [|e es IH]; intros seq k l next H S; cbn [format_all] in H.
  - apply pok_inj in H. apply pair_inj in H. destruct H as [<- _]. constructor.
  - apply pbind_ok in H. destruct H as (r & F & H). apply pbind_ok in H. destruct H as ([l0 k0] & FA & H).
    apply pok_inj in H. apply pair_inj in H. destruct H as [<- <-]. constructor; [|eapply IH; [exact FA|lia]].
    exists seq, k, (p_count r). auto.
Qed.

Lemma put_dirs_app l1 : forall l2 d, put_dirs (l1 ++ l2) = (true, d) ->
  exists d1 d2, put_dirs l1 = (true, d1) /\ put_dirs l2 = (true, d2) /\ d = d1 ++ d2.
Proof.
  induction l1 as [|[x r] l1 IH]; intros l2 d H; cbn [app put_dirs] in *; [exists [], d; auto|].
  destruct (writeDE x) as [s|]; [|discriminate]. destruct (put_dirs (l1 ++ l2)) as [ok t] eqn:E.
  apply pair_inj in H. destruct H as [-> <-]. destruct (IH _ _ E) as (d1 & d2 & -> & -> & ->).
  exists (s ++ d1), d2. rewrite app_assoc. auto.
Qed.
Lemma put_records_app l1 : forall l2 d, put_records (l1 ++ l2) = (true, d) ->
  exists d1 d2, put_records l1 = (true, d1) /\ put_records l2 = (true, d2) /\ d = d1 ++ d2.
Proof.
  induction l1 as [|[x r] l1 IH]; intros l2 d H; cbn [app put_records] in *; [exists [], d; auto|].
  destruct (writePD r) as [s|]; [|discriminate]. destruct (put_records (l1 ++ l2)) as [ok t] eqn:E.
  apply pair_inj in H. destruct H as [-> <-]. destruct (IH _ _ E) as (d1 & d2 & -> & -> & ->).
  exists (s ++ d1), d2. rewrite app_assoc. auto.
Qed.

(** The parts of a file which was written. *)
Lemma write_parts d name ver now t over s : Write d name ver now t over = POk (true, Old s) ->
  d_ents d <> [] /\ exists l next lines so gs ng dd p tl,
    format_all (minResolution (d_glob d)) (pdelim (d_glob d)) (rdelim (d_glob d)) 1 1 (d_ents d) = POk (l, next) /\
    fix_lines (start_lines_of (d_start d)) = Some lines /\ put_lines 1 lines = Some so /\
    writeGlobals (with_name (d_glob d) name) ver now = POk (gs, ng) /\ put_dirs l = (true, dd) /\ put_records l = (true, p) /\
    s = so ++ gs ++ dd ++ p ++ tl.
Proof.
  unfold Write. destruct (d_ents d) as [|e es] eqn:EE; [discriminate|]. rewrite <- EE. intros H. split; [rewrite EE; discriminate|]. cbv zeta in H.
  destruct (format_all _ _ _ _ _ _) as [| |[l next]] eqn:FA; try discriminate. destruct (opened t over); [|discriminate].
  unfold put_file in H. fold (start_lines_of (d_start d)) in H.
  destruct (fix_lines (start_lines_of (d_start d))) as [lines|] eqn:FL; [|discriminate].
  destruct (put_lines 1 lines) as [so|] eqn:PL; [|discriminate].
  destruct (writeGlobals _ ver now) as [| |[gs ng]] eqn:WG; try discriminate.
  unfold put_entities in H. destruct (put_dirs l) as [[] dd] eqn:PD; [|discriminate]. cbn [negb] in H.
  destruct (put_records l) as [[] p] eqn:PR; [|discriminate]. cbn [negb] in H.
  destruct (t_line _ _ _ _) as [tl|]; [|discriminate]. cbn [pbind] in H. apply pok_inj in H. injection H as <-.
  exists l, next, lines, so, gs, ng, dd, p, tl. repeat (split; [first [reflexivity|assumption]|]). reflexivity.
Qed.

(** Reading up to the Directory Entries. *)
Lemma read_to_dirs d name ver now l next dd rest lines so gs ng name2 : head_ok d name ver now -> d_ents d <> [] ->
  format_all (minResolution (d_glob d)) (pdelim (d_glob d)) (rdelim (d_glob d)) 1 1 (d_ents d) = POk (l, next) ->
  fix_lines (start_lines_of (d_start d)) = Some lines -> put_lines 1 lines = Some so ->
  writeGlobals (with_name (d_glob d) name) ver now = POk (gs, ng) -> put_dirs l = (true, dd) ->
  length dd = (162 * length l)%nat ->
  exists g' fuel pos, reads_back (with_name (d_glob d) name) ver now g' /\ (length l < fuel)%nat /\
    read_file [] 0 init_globals name2 (mkStream (so ++ gs ++ dd ++ rest) false) =
      do (ds, rec2, f3) <- dirs_from fuel (maxLinewidthGrad g') pos (mkStream (dd ++ rest) false);
      guard (Ascii.eqb (r_sec rec2) "P") (
      do (es, f4) <- read_records (pdelim g') (rdelim g') (minResolution g') ds f3;
      do ts <- readTS f4; POk (lines, with_name g' name2, es, ts)).
Proof.
  intros HO NE FA FL PL WG PD LD.
  destruct l as [|x l].
  { destruct (d_ents d) as [|e es]; [congruence|]. apply format_all_dirs in FA; [inversion FA|lia]. }
  assert (SQ : d_seq (fst x) = 1).
  { destruct (d_ents d) as [|e es]; [congruence|]. cbn [format_all] in FA. apply pbind_ok in FA. destruct FA as (r & _ & FA).
    apply pbind_ok in FA. destruct FA as ([l0 k0] & _ & FA). apply pok_inj in FA. apply pair_inj in FA. destruct FA as [FA _].
    injection FA as <- _. reflexivity. }
  destruct (head_of_dirs x l dd rest PD ltac:(lia)) as (rec1 & f2 & R1 & SD & IX & LS). rewrite SQ in IX.
  destruct (head_back d name ver now (dd ++ rest) rec1 f2 HO R1 SD) as (lines' & so' & gs' & ng' & g' & rec & f1 & FL' & PL' & WG' & _ & _ & SR & RB & RST & RGL).
  rewrite FL in FL'. apply some_inj in FL'. subst lines'. rewrite PL in PL'. apply some_inj in PL'. subst so'.
  rewrite WG in WG'. apply pok_inj in WG'. apply pair_inj in WG'. destruct WG' as [<- <-].
  exists g', (S (length (s_rest f2))), f2. split; [exact RB|]. split; [cbn [length] in *; lia|].
  unfold read_file. rewrite RST. cbn [pbind]. rewrite RGL. cbn [pbind]. rewrite SD, IX. change (Ascii.eqb "D" "D") with true.
  change (1 =? 1) with true. cbn [guard]. unfold dirs_from. rewrite R1. reflexivity.
Qed.

Lemma put_dirs_len l : forall d, put_dirs l = (true, d) -> Forall (fun x => 1 <= d_seq (fst x)) l -> length d = (162 * length l)%nat.
Proof.
  induction l as [|[x r] l IH]; intros d H F; cbn [put_dirs] in H; [apply pair_inj in H; destruct H as [_ <-]; reflexivity|].
  inversion F as [|? ? S F']. subst. cbn [fst] in S. destruct (writeDE x) as [s|] eqn:W; [|discriminate].
  destruct (put_dirs l) as [ok t] eqn:E. apply pair_inj in H. destruct H as [-> <-].
  destruct (one_dir x s [] W S) as [LS _]. rewrite app_length, LS, (IH t eq_refl F'). cbn [length]. lia.
Qed.

Lemma filed_dirs es l : Forall (fun e => dir_sane (e_dir e)) es -> Forall2 (fun e x => exists s n c, fst x = filed s n c e /\ 1 <= s) es l ->
  Forall (fun x : dir * pdrec => dir_sane (fst x) /\ 1 <= d_seq (fst x)) l.
Proof.
  intros F F2. induction F2 as [|e x es l (s & n & c & E & S) F2 IH]; [constructor|]. inversion F; subst.
  constructor; [|auto]. rewrite E. split; [apply filed_sane; assumption|exact S].
Qed.

Lemma dir_spoils d name ver now t over s name2 : head_ok d name ver now -> Forall (fun e => dir_sane (e_dir e)) (d_ents d) ->
  Exists dir_refused (d_ents d) -> Write d name ver now t over = POk (true, Old s) ->
  read_file [] 0 init_globals name2 (mkStream s false) = PFail.
Proof.
  intros HO SA EX W. destruct (write_parts _ _ _ _ _ _ _ W) as (NE & l & next & lines & so & gs & ng & dd & p & tl & FA & FL & PL & WG & PD & PR & ->).
  pose proof (format_all_dirs _ _ _ _ _ _ _ _ FA ltac:(lia)) as F2. pose proof (filed_dirs _ _ SA F2) as FS.
  assert (LD : length dd = (162 * length l)%nat).
  { apply put_dirs_len with (1 := PD). eapply Forall_impl; [|exact FS]. intros x [_ H]. exact H. }
  destruct (read_to_dirs d name ver now l next dd (p ++ tl) lines so gs ng name2 HO NE FA FL PL WG PD LD) as (g' & fuel & pos & _ & FU & ->).
  rewrite (dirs_fail (maxLinewidthGrad g') l dd PD FS); [reflexivity| |lia].
  intros FF. clear - EX F2 FF. induction F2 as [|e x es l (s & n & c & E & S) F2 IH]; [inversion EX|].
  inversion FF as [|? ? H FF']. subst. inversion EX as [? ? B|? ? B]; subst; [|auto].
  rewrite E in H. destruct H as [[] A]. cbn [filed d_plevel d_form d_type d_weight d_sub] in *.
  destruct B as [B|[B|[B|[B|B]]]]; try lia; auto.
Qed.

(** Reading a record means reading all of its lines. *)
Definition reads_own {A} (F : stream -> pres (A * list Z * list str * stream)) (seq k n : Z) : Prop :=
  forall f a p cs g, F f = POk (a, p, cs, g) -> exists ds, Z.of_nat (length ds) = n /\ own_lines seq k ds f g.

Lemma own_frame {A} (parse : str -> nat -> pres (A * nat * bool)) etype seq k n pd rd : etype <> 0 ->
  reads_own (readPD_frame parse etype seq k n pd rd) seq k n.
Proof.
  intros NE f a p cs g H. apply frame_own in H; [|exact NE]. destruct H as (d & ds & i & L & O & _). exists (d :: ds). auto.
Qed.
Lemma own_lift {A} (c : A -> payload direction) (F : stream -> pres (A * list Z * list str * stream)) seq k n : reads_own F seq k n ->
  reads_own (fun f => lift c (F f)) seq k n.
Proof.
  intros L f a p cs g H. unfold lift in H. apply pbind_ok in H. destruct H as ([[[x p'] cs'] f1] & H1 & H2).
  apply pok_inj in H2. injection H2 as _ <- <- <-. eapply L, H1.
Qed.
Lemma own_100 seq k n pd rd u : reads_own (readPD100 seq k n pd rd u) seq k n.
Proof.
  intros f a p cs g H. unfold readPD100 in *. apply pbind_ok in H. destruct H as ([[[x p'] cs'] f1] & H1 & H2).
  apply guard_ok in H2. destruct H2 as [_ H2]. apply pok_inj in H2. injection H2 as <- <- <- <-.
  eapply own_frame; [|exact H1]. lia.
Qed.
Lemma own_payload t0 seq k n pd rd u : reads_own (read_payload t0 seq k n pd rd u) seq k n.
Proof.
  intros f a p cs g H.
  assert (L : forall (F : stream -> pres (payload direction * list Z * list str * stream)), reads_own F seq k n -> F f = POk (a, p, cs, g) ->
    exists ds, Z.of_nat (length ds) = n /\ own_lines seq k ds f g) by (intros F L; apply L).
  unfold read_payload in *.
  repeat match type of H with
  | match ?z with _ => _ end = POk _ => destruct z; try discriminate H
  end;
  first [eapply (L _ (own_lift _ _ _ _ _ (own_100 _ _ _ _ _ _)) H) | refine (L _ (own_lift _ _ _ _ _ (own_frame _ _ _ _ _ _ _ _)) H); discriminate].
Qed.

Lemma stack_skip ps : forall k out rest ds seq f', numbered (sec_line "P") k ps out -> 1 <= k -> Forall clean ps ->
  own_lines seq k ds (mkStream (out ++ rest) false) f' -> length ds = length ps -> f' = mkStream rest false.
Proof.
  induction ps as [|x ps IH]; intros k out rest ds seq f' N K C O L.
  - destruct ds; [|discriminate]. inversion N. subst. inversion O. subst. reflexivity.
  - destruct ds as [|d ds]; [discriminate|]. inversion N as [|? ? ? l o SL N']. subst. inversion C as [|? ? C1 C2]. subst.
    inversion O as [|? ? ? ? f1 ? R T O']. subst. rewrite <- app_assoc in R.
    rewrite (sec_line_read "P" k x l (o ++ rest) SL) in R; [|unfold section_letter; auto 10|lia|exact C1].
    apply pok_inj in R. apply pair_inj in R. destruct R as [_ <-].
    eapply IH; [exact N'|lia|exact C2|exact O'|cbn [length] in L; lia].
Qed.

Lemma sec_lines_len k ds out : numbered (sec_line "P") k ds out -> length out = (81 * length ds)%nat.
Proof.
  induction 1 as [|k d ds l rest (L & c & -> & [L1 _]) N IH]; [reflexivity|].
  repeat (rewrite !app_length; cbn [length]). lia.
Qed.

Lemma ent_stack u pd rd k seq e r : delims pd rd -> 1 <= seq <= 9999999 -> 1 <= k -> dir_sane (e_dir e) -> ent_lined e ->
  format_ent u pd rd k seq e = POk r -> k + p_count r <= 10000000 ->
  p_next r = k + p_count r /\ exists ps, numbered (sec_line "P") k ps (p_out r) /\ p_count r = Z.of_nat (length ps) /\ Forall clean ps /\
    Z.of_nat (length (p_out r)) = 81 * p_count r.
Proof.
  intros D S K SA EL F B.
  pose proof delim_not_nl as DN.
  assert (EC : ent_clean e).
  { unfold ent_lined in EL. apply Forall_app in EL. destruct EL as [E1 E2]. split; [|split; [exact E2|apply SA]].
    unfold payload_clean. destruct (e_data e); try exact Logic.I; cbn [texts_of] in E1; inversion E1; assumption. }
  destruct (ent_laid u pd rd k seq e r S (DN _ (proj1 D)) (DN _ (proj1 (proj2 D))) EC F) as (X & C & L).
  split; [exact X|]. destruct (L ltac:(lia)) as (ds & cds & o1 & o2 & -> & N1 & N2 & CT & C1 & C2 & _).
  destruct (owned_lines seq ds k o1 N1 C1) as (ps & NP & LP & _ & CP). exists (ps ++ cds).
  split; [apply numbered_app; [exact NP|rewrite LP; exact N2]|]. split; [rewrite app_length, LP; exact CT|].
  split; [apply Forall_app; auto|]. rewrite app_length, CT, (sec_lines_len _ _ _ NP), (sec_lines_len _ _ _ N2), LP. lia.
Qed.

Lemma out_of_writePD r o : writePD r = Some o -> o = p_out r /\ p_out r <> [].
Proof. unfold writePD. destruct (p_out r); [discriminate|]. destruct (_ =? _)%nat; [|discriminate]. intros H. apply some_inj in H. split; [auto|discriminate]. Qed.

(** The entities [es] are read, if at all, up to the end of their records. *)
Lemma records_sync u' u pd rd maxgrad es : delims pd rd -> Forall (fun e => dir_sane (e_dir e) /\ ent_lined e) es ->
  forall seq k l next d p ds, 1 <= seq -> 1 <= k ->
  format_all u pd rd seq k es = POk (l, next) -> put_dirs l = (true, d) -> put_records l = (true, p) ->
  Forall2 (fun x i => fst i = d_type (fst x) /\ kept_by_type maxgrad (fst x) (snd i)) l ds ->
  81 * (next - k) = Z.of_nat (length p) /\ k <= next /\
  (es <> [] -> forall rest, exists rec f, ReadIGESRecord (mkStream (p ++ rest) false) = POk (rec, f) /\ r_sec rec = "P"%char) /\
  forall m rest a f, read_records pd rd u' (ds ++ m) (mkStream (p ++ rest) false) = POk (a, f) ->
    exists a', read_records pd rd u' m (mkStream rest false) = POk (a', f).
Proof.
  intros D. induction 1 as [|e es [SA EL] FE IH]; intros seq k l next d p ds S K FA PD PR F2; cbn [format_all] in *.
  - apply pok_inj in FA. apply pair_inj in FA. destruct FA as [<- <-]. cbn [put_records] in PR. apply pair_inj in PR. destruct PR as [_ <-].
    inversion F2. subst. split; [cbn [length]; lia|]. split; [lia|]. split; [congruence|]. intros m rest a f H. eauto.
  - apply pbind_ok in FA. destruct FA as (r & E & FA). apply pbind_ok in FA. destruct FA as ([l0 k0] & FA & H').
    apply pok_inj in H'. apply pair_inj in H'. destruct H' as [<- <-]. cbn [put_records put_dirs] in PR, PD.
    destruct (writeDE _) as [od|] eqn:WD; [|discriminate]. destruct (put_dirs l0) as [okd td] eqn:PD0. apply pair_inj in PD. destruct PD as [-> <-].
    destruct (writePD r) as [o|] eqn:WP; [|discriminate]. apply out_of_writePD in WP. destruct WP as [-> NO].
    destruct (put_records l0) as [ok t] eqn:PR0. apply pair_inj in PR. destruct PR as [-> <-].
    inversion F2 as [|? [ty i] ? ds0 [TY KT] F20]. subst. cbn [fst snd] in *.
    pose proof (writeDE_seq _ _ WD) as BS. destruct (writeDE_lines _ _ WD) as (BP & _). cbn [filed d_seq d_pdata d_count] in BS, BP.
    destruct (ent_stack u pd rd k seq e r D ltac:(lia) K SA EL E BP) as (NX & ps & NP & CT & CP & LP).
    destruct (IH (seq + 2) (p_next r) l0 k0 td t ds0) as (LL & KN & _ & RR); try lia; auto.
    split; [rewrite app_length; lia|]. split; [lia|]. split.
    { intros _ rest. rewrite <- app_assoc. destruct NP as [|k1 x ps' ln o' SL NP]; [congruence|]. rewrite <- app_assoc.
      rewrite (sec_line_read "P" k1 x ln (o' ++ t ++ rest) SL); [|unfold section_letter; auto 10|lia|inversion CP; assumption].
      do 2 eexists. split; reflexivity. }
    intros m rest a f H. cbn [app read_records] in H. apply pbind_ok in H. destruct H as ([e1 f1] & H1 & H).
    apply pbind_ok in H. destruct H as ([es' f2] & H2 & H). apply pok_inj in H. apply pair_inj in H. destruct H as [_ <-].
    unfold read_record in H1. rewrite TY in H1. cbn [filed d_type] in H1. rewrite known_type in H1.
    assert (KE : i_seq i = seq /\ i_pdata i = k /\ i_count i = p_count r).
    { destruct KT as (i0 & fl & KD & _ & _ & -> & -> & -> & _). destruct KD as [-> -> -> _ _ _ _ _ _ _ _ _ _ _ _ _ _]. auto. }
    destruct KE as (E1 & E2 & E3). rewrite E1, E2, E3 in H1. apply pbind_ok in H1. destruct H1 as ([[[x ptrs] cs] f3] & H1 & H3).
    apply pok_inj in H3. apply pair_inj in H3. destruct H3 as [_ <-].
    apply own_payload in H1. destruct H1 as (dl & LD & OW). rewrite <- app_assoc in OW.
    apply (stack_skip ps k (p_out r) (t ++ rest) dl seq f3 NP K CP) in OW; [|lia]. subst f3. eapply RR, H2.
Qed.

Lemma record_spoils d name ver now t over s name2 es1 e es2 : head_ok d name ver now -> d_ents d = es1 ++ e :: es2 ->
  Forall (fun e => dir_sane (e_dir e)) (d_ents d) -> Forall ent_lined (es1 ++ [e]) ->
  Z.of_nat (length s) <= 729000000 -> ent_lines e <= 900000 ->
  (forall g', reads_back (with_name (d_glob d) name) ver now g' ->
     record_refused (minResolution g') (minResolution (d_glob d)) (1 + 2 * Z.of_nat (length es1)) e) ->
  Write d name ver now t over = POk (true, Old s) ->
  forall x, read_file [] 0 init_globals name2 (mkStream s false) <> POk x.
Proof.
  intros HO EE SA EL LS LE RF W. destruct (write_parts _ _ _ _ _ _ _ W) as (NE & l & next & lines & so & gs & ng & dd & p & tl & FA & FL & PL & WG & PD & PR & ->).
  pose proof HO as (_ & GO & _ & MR). rewrite minRes_name in MR.
  pose proof (format_all_dirs _ _ _ _ _ _ _ _ FA ltac:(lia)) as F2.
  pose proof (filed_dirs _ _ SA F2) as FS.
  assert (LD : length dd = (162 * length l)%nat).
  { apply put_dirs_len with (1 := PD). eapply Forall_impl; [|exact FS]. intros y [_ H]. exact H. }
  destruct (read_to_dirs d name ver now l next dd (p ++ tl) lines so gs ng name2 HO NE FA FL PL WG PD LD) as (g' & fuel & pos & RB & FU & ->).
  specialize (RF g' RB). set (u' := minResolution g') in *. set (u := minResolution (d_glob d)) in *. intros x.
  assert (DEC : Forall (fun x => dir_fine (fst x)) l \/ ~ Forall (fun x => dir_fine (fst x)) l).
  { clear. induction l as [|y l IH]; [left; constructor|]. destruct IH as [IH|IH]; [|right; intros H; inversion H; auto].
    destruct (dir_fine_dec (fst y)) as [H|H]; [left; constructor; auto|right; intros B; inversion B; auto]. }
  destruct DEC as [FF|NF]; [|rewrite (dirs_fail (maxLinewidthGrad g') l dd PD FS NF) by lia; discriminate].
  assert (FSF : Forall (fun x => dir_sane (fst x) /\ dir_fine (fst x)) l).
  { rewrite Forall_forall in *. intros y I. split; [apply FS, I|apply FF, I]. }
  destruct (dirs_read (maxLinewidthGrad g') l dd PD FSF) as (_ & ds & FD & RD).
  replace fuel with (length l + (fuel - length l))%nat by lia. rewrite RD.
  assert (LN : l <> []) by (intros ->; inversion F2 as [E|]; congruence).
  (* the records *)
  rewrite EE in FA. destruct (format_all_app _ _ _ _ _ _ _ _ _ FA) as (l1 & k1 & l2 & FA1 & FA2 & EL0). cbn [format_all] in FA2.
  apply pbind_ok in FA2. destruct FA2 as (r & FE & FA2). apply pbind_ok in FA2. destruct FA2 as ([l3 k3] & FA3 & FA2).
  apply pok_inj in FA2. apply pair_inj in FA2. destruct FA2 as [<- <-].
  rewrite EL0 in PR, FD, PD. destruct (put_records_app _ _ _ PR) as (p1 & p2 & PR1 & PR2 & ->).
  destruct (put_dirs_app _ _ _ PD) as (d1 & d2 & PD1 & PD2 & ->).
  cbn [put_records] in PR2. destruct (writePD r) as [o|] eqn:WP; [|discriminate]. destruct (put_records l3) as [ok p3].
  apply pair_inj in PR2. destruct PR2 as [-> <-]. apply out_of_writePD in WP. destruct WP as [-> NO].
  apply Forall2_app_inv_l in FD. destruct FD as (ds1 & ds2 & FD1 & FD2 & ->).
  inversion FD2 as [|? [ty i] ? ds3 [TY KT] FD3]. subst. cbn [fst snd] in *.
  assert (D : delims (pdelim (d_glob d)) (rdelim (d_glob d))) by apply GO.
  assert (U : (0 < u)%Q) by (destruct MR as [[A _]|A]; [exact A|eapply Qlt_le_trans; [|exact A]; reflexivity]).
  rewrite EE in SA. apply Forall_app in SA. destruct SA as [SA1 SA2]. apply Forall_app in EL. destruct EL as [EL1 EL2].
  inversion SA2 as [|? ? SAe _]. inversion EL2 as [|? ? ELe _]. subst.
  assert (SE1 : Forall (fun e => dir_sane (e_dir e) /\ ent_lined e) es1).
  { rewrite Forall_forall in *. intros y I. split; [apply SA1, I|apply EL1, I]. }
  destruct (records_sync u' u _ _ (maxLinewidthGrad g') es1 D SE1 1 1 l1 k1 d1 p1 ds1) as (LP1 & KB & RP & RS); try lia; auto.
  assert (LS1 : 81 * (k1 - 1) <= 729000000) by (rewrite !app_length in LS; lia).
  cbn [put_dirs] in PD2. destruct (writeDE _) as [od|] eqn:WD; [|discriminate].
  pose proof (writeDE_seq _ _ WD) as BS. destruct (writeDE_lines _ _ WD) as (BP & _). cbn [filed d_seq d_pdata d_count] in BS, BP.
  set (seq := 1 + 2 * Z.of_nat (length es1)) in *.
  destruct (ent_stack u _ _ k1 seq e r D ltac:(lia) ltac:(lia) SAe ELe FE BP) as (NX & ps & NP & CT & CP & LP).
  pose proof (record_fails u' u _ _ k1 seq e r D U ltac:(lia) ltac:(lia) ltac:(lia) RF FE) as RFX.
  assert (HD : exists rec f, ReadIGESRecord (mkStream ((p1 ++ p_out r ++ p3) ++ tl) false) = POk (rec, f) /\ r_sec rec = "P"%char).
  { destruct es1 as [|y es1].
    - cbn [format_all] in FA1. apply pok_inj in FA1. apply pair_inj in FA1. destruct FA1 as [<- <-]. cbn [put_records] in PR1.
      apply pair_inj in PR1. destruct PR1 as [_ <-]. cbn [app]. inversion NP as [? EA EB EC|k2 z ps' ln o' SL NP' EA EB EC]; [congruence|].
      rewrite <- !app_assoc. rewrite (sec_line_read "P" 1 z ln (o' ++ p3 ++ tl) SL); [|unfold section_letter; auto 10|lia|rewrite <- EB in CP; inversion CP; assumption].
      do 2 eexists. split; reflexivity.
    - rewrite <- app_assoc. apply RP. discriminate. }
  destruct HD as (rec2 & f3 & R2 & SP). set (fl := (fuel - _)%nat).
  assert (RN : forall q, dirs_from fl (maxLinewidthGrad g') q (mkStream ((p1 ++ p_out r ++ p3) ++ tl) false) = POk ([], rec2, q)).
  { intros q. unfold dirs_from. rewrite R2. cbn [pbind]. destruct fl; cbn [read_dirs]; rewrite SP; reflexivity. }
  rewrite RN. cbn [pbind]. rewrite SP. change (Ascii.eqb "P" "P") with true. cbn [guard]. rewrite app_nil_r.
  destruct RB as (EP & ER & _). cbn [with_name pdelim rdelim] in EP, ER. rewrite EP, ER.
  match goal with |- context [match ?l with [] => _ | _ :: _ => _ end] => destruct l eqn:EQL end.
  { destruct l1; discriminate. }
  clear EQL. intros H. apply pbind_ok in H. destruct H as ([a f5] & H & _). rewrite <- app_assoc in H.
  apply RS in H. destruct H as (a' & H). cbn [read_records] in H. apply pbind_ok in H. destruct H as ([e1 f6] & H & _).
  unfold read_record in H. cbn [fst snd filed d_type] in H. rewrite known_type in H.
  assert (KE : i_seq i = seq /\ i_pdata i = k1 /\ i_count i = p_count r).
  { destruct KT as (i0 & fg & KD & _ & _ & -> & -> & -> & _). destruct KD as [-> -> -> _ _ _ _ _ _ _ _ _ _ _ _ _ _]. auto. }
  destruct KE as (E1 & E2 & E3). rewrite E1, E2, E3 in H. rewrite <- app_assoc, RFX in H. discriminate H.
Qed.
