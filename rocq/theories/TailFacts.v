(** Two files which differ only in the numbers of their Terminate Section are read
    alike. *)

From Coq Require Import Lia ZifyBool ZifyNat ZifyN QArith Qabs.
From Verif Require Import Base Num Spec NumFacts IoModel FieldFacts LineFacts TokenFacts RecordFacts StreamFacts
  PdModel EntModel EntModel2 EntModel3 DeModel HeaderModel GlobalModel PayloadModel FileModel FileSpec IoProps PdProps.
Open Scope Z_scope.

Lemma pbind_ok {A B} (x : pres A) (k : A -> pres B) b : pbind x k = POk b -> exists a, x = POk a /\ k a = POk b.
Proof. destruct x as [| |a]; try discriminate. intros H. exists a. auto. Qed.
Lemma guard_ok {A} b (k : pres A) a : guard b k = POk a -> b = true /\ k = POk a.
Proof. unfold guard. destruct b; [auto|discriminate]. Qed.

Section Tail.
Variables (tot tot' t t' rest : str).
Hypothesis T : sec_line "T" 1 tot t.
Hypothesis T' : sec_line "T" 1 tot' t'.
Hypothesis N : ~ In nl tot.
Hypothesis N' : ~ In nl tot'.

Definition whole (x : str) : Prop := x = [] \/ exists y, x = y ++ [nl].

Definition sim (f f' : stream) : Prop :=
  f = f' \/ exists x, whole x /\ f = mkStream (x ++ t ++ rest) false /\ f' = mkStream (x ++ t' ++ rest) false.

Definition simrec (r r' : irec) : Prop := r = r' \/ (r = mkRec tot "T" 1 /\ r' = mkRec tot' "T" 1).

Lemma sim_length f f' : sim f f' -> length (s_rest f) = length (s_rest f').
Proof.
  intros [->|(x & _ & -> & ->)]; [reflexivity|]. cbn [s_rest]. rewrite !app_length.
  destruct T as (L1 & c & -> & C1 & _). destruct T' as (L2 & c' & -> & C2 & _).
  rewrite !app_length. cbn [length]. rewrite !app_length. lia.
Qed.

Lemma split_whole y : exists l y', whole y' /\ forall z, split_line ((y ++ [nl]) ++ z) = (l, Some (y' ++ z)).
Proof.
  induction y as [|c y IH].
  - exists [], []. split; [left; reflexivity|]. reflexivity.
  - cbn [app split_line]. destruct (Ascii.eqb c nl) eqn:E.
    + exists [], (y ++ [nl]). split; [right; eauto|]. reflexivity.
    + destruct IH as (l & y' & W & E1). exists (c :: l), y'. split; [exact W|]. intros z. rewrite E1. reflexivity.
Qed.

Lemma sim_record f f' r g : sim f f' -> ReadIGESRecord f = POk (r, g) ->
  exists r' g', ReadIGESRecord f' = POk (r', g') /\ simrec r r' /\ sim g g'.
Proof.
  intros [->|(x & W & -> & ->)] H.
  - exists r, g. split; [exact H|]. split; [left; reflexivity|left; reflexivity].
  - destruct W as [->|(y & ->)].
    + cbn [app] in *. rewrite (sec_line_read "T" 1 tot) in H; [|assumption|unfold section_letter; tauto|lia|assumption].
      apply pok_inj in H. apply pair_inj in H. destruct H as [<- <-].
      exists (mkRec tot' "T" 1), (mkStream rest false). split; [|split; [right; auto|left; reflexivity]].
      apply sec_line_read; [assumption|unfold section_letter; tauto|lia|assumption].
    + destruct (split_whole y) as (l & y' & W & E2). unfold ReadIGESRecord, getline in *. cbn [s_eof s_rest] in *.
      rewrite E2 in H. rewrite E2. destruct (parse_record l) as [| |rr]; try discriminate. cbn [pbind] in *.
      apply pok_inj in H. apply pair_inj in H. destruct H as [<- <-]. eexists _, _. split; [reflexivity|]. split; [left; reflexivity|].
      right. exists y'. auto.
Qed.

Ltac sep c := let E := fresh "E" in destruct c eqn:E; [|discriminate].

Lemma simrec_sec r r' : simrec r r' -> r_sec r = r_sec r' /\ (r_sec r <> "T"%char -> r = r').
Proof. intros [->|[-> ->]]; cbn; auto. split; [reflexivity|]. congruence. Qed.

Lemma sim_start fuel : forall rec rec' lines f f' ls r g, simrec rec rec' -> sim f f' -> start_lines fuel rec lines f = POk (ls, r, g) ->
  exists r' g', start_lines fuel rec' lines f' = POk (ls, r', g') /\ simrec r r' /\ sim g g'.
Proof.
  induction fuel as [|fuel IH]; intros rec rec' lines f f' ls r g SR SF H; cbn [start_lines] in *;
    destruct (simrec_sec _ _ SR) as [ES EQ]; rewrite <- ES; destruct (Ascii.eqb_spec (r_sec rec) "S") as [E|E]; try discriminate.
  - apply pok_inj in H. apply pair_inj in H. destruct H as [H <-]. apply pair_inj in H. destruct H as [<- <-]. eauto.
  - rewrite <- EQ in * by (rewrite E; discriminate). apply guard_ok in H. destruct H as [G H]. rewrite G. cbn [guard].
    apply pbind_ok in H. destruct H as ([r1 f1] & H1 & H2). destruct (sim_record _ _ _ _ SF H1) as (r1' & f1' & E1 & S1 & S2).
    rewrite E1. cbn [pbind]. eapply IH; eauto.
  - apply pok_inj in H. apply pair_inj in H. destruct H as [H <-]. apply pair_inj in H. destruct H as [<- <-]. eauto.
Qed.

Lemma sim_read_start lines f f' ls r g : sim f f' -> read_start lines f = POk (ls, r, g) ->
  exists g', read_start lines f' = POk (ls, r, g') /\ r_sec r = "G"%char /\ sim g g'.
Proof.
  intros SF H. unfold read_start in *. apply pbind_ok in H. destruct H as ([r1 f1] & H1 & H2).
  destruct (sim_record _ _ _ _ SF H1) as (r1' & f1' & E1 & S1 & S2). rewrite E1. cbn [pbind].
  apply guard_ok in H2. destruct H2 as [G H2]. destruct (simrec_sec _ _ S1) as [ES EQ]. rewrite <- ES, G. cbn [guard].
  apply pbind_ok in H2. destruct H2 as ([[l r2] f2] & H3 & H4). rewrite <- (sim_length _ _ S2).
  destruct (sim_start _ _ _ _ _ _ _ _ _ S1 S2 H3) as (r2' & f2' & E2 & S3 & S4). rewrite E2. cbn [pbind].
  apply guard_ok in H4. destruct H4 as [G2 H4]. destruct (simrec_sec _ _ S3) as [ES2 EQ2]. rewrite <- ES2, G2. cbn [guard].
  apply pok_inj in H4. apply pair_inj in H4. destruct H4 as [H4 <-]. apply pair_inj in H4. destruct H4 as [<- <-].
  apply Ascii.eqb_eq in G2. rewrite <- EQ2 by (rewrite G2; discriminate). exists f2'. auto.
Qed.

Lemma sim_glob fuel : forall rec rec' n f f' s n' r g, simrec rec rec' -> sim f f' -> glob_lines fuel rec n f = POk (s, n', r, g) ->
  exists r' g', glob_lines fuel rec' n f' = POk (s, n', r', g') /\ simrec r r' /\ sim g g'.
Proof.
  induction fuel as [|fuel IH]; intros rec rec' n f f' s n' r g SR SF H; cbn [glob_lines] in *;
    destruct (simrec_sec _ _ SR) as [ES EQ]; rewrite <- ES; destruct (Ascii.eqb_spec (r_sec rec) "G") as [E|E]; try discriminate.
  - apply pok_inj in H. apply pair_inj in H. destruct H as [H <-]. apply pair_inj in H. destruct H as [H <-]. rewrite H. eauto.
  - rewrite <- EQ in * by (rewrite E; discriminate). destruct (negb _); [discriminate|].
    apply pbind_ok in H. destruct H as ([r1 f1] & H1 & H2). destruct (sim_record _ _ _ _ SF H1) as (r1' & f1' & E1 & S1 & S2).
    rewrite E1. cbn [pbind]. apply pbind_ok in H2. destruct H2 as ([[[s2 n2] r2] f2] & H3 & H4).
    destruct (IH _ _ _ _ _ _ _ _ _ S1 S2 H3) as (r2' & f2' & E2 & S3 & S4). rewrite E2. cbn [pbind].
    apply pok_inj in H4. apply pair_inj in H4. destruct H4 as [H4 <-]. apply pair_inj in H4. destruct H4 as [H4 <-]. rewrite H4. eauto.
  - apply pok_inj in H. apply pair_inj in H. destruct H as [H <-]. apply pair_inj in H. destruct H as [H <-]. rewrite H. eauto.
Qed.

Lemma sim_globals rec n g0 f f' g n' r h : sim f f' -> readGlobals rec n g0 f = POk (g, n', r, h) ->
  exists r' h', readGlobals rec n g0 f' = POk (g, n', r', h') /\ simrec r r' /\ sim h h'.
Proof.
  intros SF H. unfold readGlobals in *. apply pbind_ok in H. destruct H as ([[[s n1] r1] f1] & H1 & H2).
  rewrite <- (sim_length _ _ SF).
  destruct (sim_glob _ _ _ _ _ _ _ _ _ _ (or_introl eq_refl) SF H1) as (r1' & f1' & E1 & S1 & S2). rewrite E1. cbn [pbind].
  apply pbind_ok in H2. destruct H2 as ([[pd rd] i] & -> & H3). cbn [pbind].
  apply pbind_ok in H3. destruct H3 as ([g1 full] & -> & H4). cbn [pbind].
  apply pbind_ok in H4. destruct H4 as (g2 & -> & H5). cbn [pbind].
  apply pok_inj in H5. apply pair_inj in H5. destruct H5 as [H5 <-]. apply pair_inj in H5. destruct H5 as [H5 <-]. rewrite H5. eauto.
Qed.

(** [F] reads lines up to the Terminate Section only. *)
Definition local {A} (F : stream -> pres (A * stream)) : Prop :=
  forall f f' a g, sim f f' -> F f = POk (a, g) -> exists g', F f' = POk (a, g') /\ sim g g'.

Lemma local_readDE etype mg rec : local (readDE etype mg rec).
Proof.
  intros f f' a g SF H. unfold readDE, readDE_base in *. apply pbind_ok in H. destruct H as ([d f1] & H1 & H2).
  apply guard_ok in H1. destruct H1 as [-> H1]. apply guard_ok in H1. destruct H1 as [-> H1]. cbn [guard].
  apply pbind_ok in H1. destruct H1 as (l & -> & H1). cbn [pbind]. cbv zeta in *.
  apply guard_ok in H1. destruct H1 as [-> H1]. cbn [guard].
  apply pbind_ok in H1. destruct H1 as ([[[[[[w col] cnt] form] lab] sub] f2] & H3 & H4).
  unfold readDE2 in *. apply pbind_ok in H3. destruct H3 as ([r2 f3] & H5 & H6).
  destruct (sim_record _ _ _ _ SF H5) as (r2' & f3' & E3 & S1 & S2). rewrite E3. cbn [pbind].
  apply guard_ok in H6. destruct H6 as [G H6]. destruct (simrec_sec _ _ S1) as [ES EQ].
  assert (X : r_sec r2 = "D"%char) by (apply andb_prop in G; destruct G as [G _]; apply Ascii.eqb_eq, G).
  rewrite <- EQ by (rewrite X; discriminate). rewrite G. cbn [guard].
  apply pbind_ok in H6. destruct H6 as (l2 & -> & H6). cbn [pbind]. cbv zeta in *.
  apply guard_ok in H6. destruct H6 as [-> H6]. cbn [guard].
  apply pbind_ok in H6. destruct H6 as (lb & -> & H6). cbn [pbind].
  destruct l2 as [|? [|? [|? [|? [|? [|? ?]]]]]]; try discriminate. apply pok_inj in H6. apply pair_inj in H6. destruct H6 as [H6 <-].
  rewrite H6. cbn [pbind].
  destruct l as [|? [|? [|? [|? [|? [|? [|? [|? [|? ?]]]]]]]]]; try discriminate.
  apply pok_inj in H4. apply pair_inj in H4. destruct H4 as [<- <-]. cbn [pbind].
  apply guard_ok in H2. destruct H2 as [-> H2]. cbn [guard]. apply pok_inj in H2. apply pair_inj in H2. destruct H2 as [<- <-]. eauto.
Qed.

Lemma sim_dirs fuel : forall mg rec rec' f f' pos pos' l r g, simrec rec rec' -> sim f f' -> sim pos pos' ->
  read_dirs fuel mg rec f pos = POk (l, r, g) ->
  exists r' g', read_dirs fuel mg rec' f' pos' = POk (l, r', g') /\ simrec r r' /\ sim g g'.
Proof.
  induction fuel as [|fuel IH]; intros mg rec rec' f f' pos pos' l r g SR SF SP H; cbn [read_dirs] in *;
    destruct (simrec_sec _ _ SR) as [ES EQ]; rewrite <- ES; destruct (Ascii.eqb_spec (r_sec rec) "D") as [E|E]; try discriminate.
  - apply pok_inj in H. apply pair_inj in H. destruct H as [H <-]. apply pair_inj in H. destruct H as [<- <-]. eauto.
  - rewrite <- EQ in * by (rewrite E; discriminate).
    apply pbind_ok in H. destruct H as (ty & -> & H). cbn [pbind].
    apply pbind_ok in H. destruct H as ([d f1] & H1 & H). destruct (local_readDE _ _ _ _ _ _ _ SF H1) as (f1' & E1 & S1).
    rewrite E1. cbn [pbind]. apply pbind_ok in H. destruct H as ([r1 f2] & H2 & H).
    destruct (sim_record _ _ _ _ S1 H2) as (r2' & f2' & E2 & S2 & S3). rewrite E2. cbn [pbind].
    apply pbind_ok in H. destruct H as ([[l2 r3] f3] & H3 & H).
    destruct (IH _ _ _ _ _ _ _ _ _ _ S2 S3 S1 H3) as (r3' & f3' & E3 & S4 & S5). rewrite E3. cbn [pbind].
    apply pok_inj in H. apply pair_inj in H. destruct H as [H <-]. apply pair_inj in H. destruct H as [<- <-]. eauto.
  - apply pok_inj in H. apply pair_inj in H. destruct H as [H <-]. apply pair_inj in H. destruct H as [<- <-]. eauto.
Qed.

Lemma local_lines n : forall first etype seq k pd rd, local (pd_lines n first etype seq k pd rd).
Proof.
  induction n as [|n IH]; intros first etype seq k pd rd f f' a g SF H; cbn [pd_lines] in *.
  - apply pok_inj in H. apply pair_inj in H. destruct H as [<- <-]. eauto.
  - apply pbind_ok in H. destruct H as ([r f1] & H1 & H2). destruct (sim_record _ _ _ _ SF H1) as (r' & f1' & E1 & S1 & S2).
    rewrite E1. cbn [pbind]. destruct (simrec_sec _ _ S1) as [ES EQ]. apply guard_ok in H2. destruct H2 as [G H2].
    assert (X : r_sec r = "P"%char) by apply Ascii.eqb_eq, G. rewrite <- EQ by (rewrite X; discriminate). rewrite G. cbn [guard].
    apply guard_ok in H2. destruct H2 as [-> H2]. apply guard_ok in H2. destruct H2 as [-> H2]. cbn [guard].
    apply pbind_ok in H2. destruct H2 as (de & -> & H2). cbn [pbind]. apply guard_ok in H2. destruct H2 as [-> H2]. cbn [guard].
    apply pbind_ok in H2. destruct H2 as (u & -> & H2). cbn [pbind].
    apply pbind_ok in H2. destruct H2 as ([s f2] & H3 & H4). destruct (IH _ _ _ _ _ _ _ _ _ _ S2 H3) as (f2' & E2 & S3).
    rewrite E2. cbn [pbind]. apply pok_inj in H4. apply pair_inj in H4. destruct H4 as [<- <-]. eauto.
Qed.

Lemma local_base etype seq pdata count pd rd : local (readPD_base etype seq pdata count pd rd).
Proof.
  intros f f' a g SF H. unfold readPD_base in *. destruct (_ && _).
  { apply pok_inj in H. apply pair_inj in H. destruct H as [<- <-]. eauto. }
  destruct (_ || _); [discriminate|]. destruct (_ || _); [discriminate|]. eapply local_lines; eauto.
Qed.

Lemma local_frame {A} (parse : str -> nat -> pres (A * nat * bool)) etype seq pdata count pd rd :
  local (readPD_frame parse etype seq pdata count pd rd).
Proof.
  intros f f' a g SF H. unfold readPD_frame in *. apply pbind_ok in H. destruct H as ([data f1] & H1 & H2).
  destruct (local_base _ _ _ _ _ _ _ _ _ _ SF H1) as (f1' & E1 & S1). rewrite E1. cbn [pbind].
  destruct (find_char pd data) as [i|]; [|discriminate]. destruct (_ || _); [discriminate|].
  apply pbind_ok in H2. destruct H2 as ([[x idx] eor] & -> & H2). cbn [pbind].
  apply pbind_ok in H2. destruct H2 as ([ex idx'] & -> & H2). cbn [pbind].
  apply pok_inj in H2. apply pair_inj in H2. destruct H2 as [<- <-]. eauto.
Qed.

Lemma local_lift {A} (c : A -> payload direction) (F : stream -> pres (A * list Z * list str * stream)) : local F -> local (fun f => lift c (F f)).
Proof.
  intros L f f' a g SF H. unfold lift in *. apply pbind_ok in H. destruct H as ([[[x p] cs] f1] & H1 & H2).
  destruct (L _ _ _ _ SF H1) as (f1' & E1 & S1). rewrite E1. cbn [pbind].
  apply pok_inj in H2. apply pair_inj in H2. destruct H2 as [<- <-]. eauto.
Qed.

Lemma local_100 seq pdata count pd rd u : local (readPD100 seq pdata count pd rd u).
Proof.
  intros f f' a g SF H. unfold readPD100 in *. apply pbind_ok in H. destruct H as ([[[x p] cs] f1] & H1 & H2).
  destruct (local_frame _ _ _ _ _ _ _ _ _ _ _ SF H1) as (f1' & E1 & S1). rewrite E1. cbn [pbind].
  apply guard_ok in H2. destruct H2 as [-> H2]. cbn [guard].
  apply pok_inj in H2. apply pair_inj in H2. destruct H2 as [<- <-]. eauto.
Qed.

Lemma local_payload t0 seq pdata count pd rd u : local (read_payload t0 seq pdata count pd rd u).
Proof.
  intros f f' a g SF H.
  assert (L : forall (F : stream -> pres (payload direction * list Z * list str * stream)), local F -> F f = POk (a, g) ->
    exists g', F f' = POk (a, g') /\ sim g g') by (intros F L; apply L, SF).
  unfold read_payload in *.
  repeat match type of H with
  | match ?z with _ => _ end = POk _ => destruct z; try discriminate H
  end;
  first [eapply (L _ (local_lift _ _ (local_100 _ _ _ _ _ _)) H) | eapply (L _ (local_lift _ _ (local_frame _ _ _ _ _ _ _)) H)].
Qed.

Lemma local_skip n : forall k f f' g, sim f f' -> skip_records n k f = POk g -> exists g', skip_records n k f' = POk g' /\ sim g g'.
Proof.
  induction n as [|n IH]; intros k f f' g SF H; cbn [skip_records] in *.
  - apply pok_inj in H. subst g. eauto.
  - apply pbind_ok in H. destruct H as ([r f1] & H1 & H2). destruct (sim_record _ _ _ _ SF H1) as (r' & f1' & E1 & S1 & S2).
    rewrite E1. cbn [pbind]. destruct (simrec_sec _ _ S1) as [ES EQ]. apply guard_ok in H2. destruct H2 as [G H2].
    assert (X : r_sec r = "P"%char) by apply Ascii.eqb_eq, G. rewrite <- EQ by (rewrite X; discriminate). rewrite G. cbn [guard].
    apply guard_ok in H2. destruct H2 as [-> H2]. cbn [guard]. eauto.
Qed.

Lemma local_record pd rd u t0 d : local (read_record pd rd u t0 d).
Proof.
  intros f f' a g SF H. unfold read_record in *. destruct (mem t0 known_types).
  - apply pbind_ok in H. destruct H as ([[[p ptrs] cs] f1] & H1 & H2). destruct (local_payload _ _ _ _ _ _ _ _ _ _ _ SF H1) as (f1' & E1 & S1).
    rewrite E1. cbn [pbind]. apply pok_inj in H2. apply pair_inj in H2. destruct H2 as [<- <-]. eauto.
  - apply pbind_ok in H. destruct H as (f1 & H1 & H2). unfold readPDNULL in *. destruct (_ || _); [discriminate|].
    destruct (_ || _); [discriminate|]. destruct (local_skip _ _ _ _ _ SF H1) as (f1' & E1 & S1). rewrite E1. cbn [pbind].
    apply pok_inj in H2. apply pair_inj in H2. destruct H2 as [<- <-]. eauto.
Qed.

Lemma local_records pd rd u l : local (read_records pd rd u l).
Proof.
  induction l as [|[t0 d] l IH]; intros f f' a g SF H; cbn [read_records] in *.
  - apply pok_inj in H. apply pair_inj in H. destruct H as [<- <-]. eauto.
  - apply pbind_ok in H. destruct H as ([e f1] & H1 & H2). destruct (local_record _ _ _ _ _ _ _ _ _ SF H1) as (f1' & E1 & S1).
    rewrite E1. cbn [pbind]. apply pbind_ok in H2. destruct H2 as ([es f2] & H2 & H3).
    destruct (IH _ _ _ _ S1 H2) as (f2' & E2 & S2). rewrite E2. cbn [pbind].
    apply pok_inj in H3. apply pair_inj in H3. destruct H3 as [<- <-]. eauto.
Qed.

Hypothesis good' : exists ts', readTS (mkStream (t' ++ rest) false) = POk ts'.

Lemma sim_TS f f' ts : sim f f' -> readTS f = POk ts -> exists ts', readTS f' = POk ts'.
Proof.
  intros [->|(x & W & -> & ->)] H; [eauto|]. destruct W as [->|(y & ->)]; [exact good'|].
  exists ts. rewrite <- H. unfold readTS. destruct (split_whole y) as (l & y' & W & E2).
  unfold ReadIGESRecord, getline in *. cbn [s_eof s_rest] in *. rewrite !E2. destruct (parse_record l); reflexivity.
Qed.

Lemma sim_file lines n g0 name x st g es ts : whole x ->
  read_file lines n g0 name (mkStream (x ++ t ++ rest) false) = POk (st, g, es, ts) ->
  exists ts', read_file lines n g0 name (mkStream (x ++ t' ++ rest) false) = POk (st, g, es, ts').
Proof.
  intros W H. assert (S0 : sim (mkStream (x ++ t ++ rest) false) (mkStream (x ++ t' ++ rest) false)) by (right; eauto).
  unfold read_file in *. apply pbind_ok in H. destruct H as ([[s r] f1] & H1 & H).
  destruct (sim_read_start _ _ _ _ _ _ S0 H1) as (f1' & E1 & _ & S1). rewrite E1. cbn [pbind].
  apply pbind_ok in H. destruct H as ([[[g1 n1] r1] f2] & H2 & H).
  destruct (sim_globals _ _ _ _ _ _ _ _ _ S1 H2) as (r1' & f2' & E2 & SR & S2). rewrite E2. cbn [pbind].
  destruct (simrec_sec _ _ SR) as [ES EQ]. apply guard_ok in H. destruct H as [G H].
  assert (X : r_sec r1 = "D"%char) by apply Ascii.eqb_eq, G. rewrite <- EQ by (rewrite X; discriminate). rewrite G. cbn [guard].
  apply guard_ok in H. destruct H as [-> H]. cbn [guard].
  apply pbind_ok in H. destruct H as ([[ds r2] f3] & H3 & H). rewrite <- (sim_length _ _ S2).
  destruct (sim_dirs _ _ _ _ _ _ _ _ _ _ _ (or_introl eq_refl) S2 S2 H3) as (r2' & f3' & E3 & SR2 & S3). rewrite E3. cbn [pbind].
  destruct (simrec_sec _ _ SR2) as [ES2 _]. apply guard_ok in H. destruct H as [G2 H]. rewrite <- ES2, G2. cbn [guard].
  apply pbind_ok in H. destruct H as ([es1 f4] & H4 & H). destruct (local_records _ _ _ _ _ _ _ _ S3 H4) as (f4' & E4 & S4).
  rewrite E4. cbn [pbind]. apply pbind_ok in H. destruct H as (ts1 & H5 & H). destruct (sim_TS _ _ _ S4 H5) as (ts' & E5).
  rewrite E5. cbn [pbind]. exists ts'. apply pok_inj in H. apply pair_inj in H. destruct H as [H _]. rewrite H. reflexivity.
Qed.
End Tail.

(** *** The Terminate record *)


Lemma at_0 (c : ascii) (b : str) : at_ (c :: b) 0 = c. Proof. reflexivity. Qed.

Lemma blank_mid (a : str) c b i : length a = i -> blank_at i (a ++ c :: b) = a ++ sp :: b.
Proof.
  intros <-. unfold blank_at. rewrite firstn_mid. f_equal. f_equal.
  replace (a ++ c :: b) with ((a ++ [c]) ++ b) by (rewrite <- app_assoc; reflexivity).
  replace (S (length a)) with (length (a ++ [c])) by (rewrite app_length; cbn; lia). apply skipn_mid.
Qed.

Lemma field8 pre num post field v : 0 <= field <= 9 -> length pre = Z.to_nat (8 * field) -> length num = 7%nat ->
  (DEItemToInt (pre ++ (sp :: num) ++ post) field None = POk v <-> seven_columns v num).
Proof.
  intros F L1 L2. rewrite DEItemToInt_iff by (auto; cbn [length]; lia). split.
  - intros [[_ D]|(w & t & r & Es & W & S & R)]; [discriminate|]. split; [exact L2|]. destruct w as [|c w].
    + exfalso. cbn in Es. destruct S as [(N1 & N2 & _)|[(d & -> & _)|(d & -> & _)]]; try discriminate.
      destruct t as [|c t]; [congruence|]. cbn in Es. injection Es as Es _. subst c.
      inversion N2 as [|? ? D _]. unfold isdig in D. cbn in D. lia.
    + cbn in Es. injection Es as _ Es. inversion W; subst. exists w, t, r. auto.
  - intros (_ & w & t & z & -> & W & S & Z). right. exists (sp :: w), t, z. split; [reflexivity|].
    split; [constructor; [left; reflexivity|exact W]|]. auto.
Qed.

Lemma split72 (s : str) : length s = 72%nat ->
  exists c0 x0 c1 x1 c2 x2 c3 x3 r, s = c0 :: x0 ++ c1 :: x1 ++ c2 :: x2 ++ c3 :: x3 ++ r /\
    length x0 = 7%nat /\ length x1 = 7%nat /\ length x2 = 7%nat /\ length x3 = 7%nat /\ length r = 40%nat.
Proof.
  intros L.
  assert (K : forall (s : str) n, length s = (8 + n)%nat -> exists c x y, s = c :: x ++ y /\ length x = 7%nat /\ length y = n).
  { intros s0 n E. destruct s0 as [|c s0]; [cbn in E; lia|]. exists c, (firstn 7 s0), (skipn 7 s0). rewrite firstn_skipn.
    cbn [length] in E. rewrite firstn_length, skipn_length. split; [reflexivity|]. lia. }
  destruct (K s 64%nat L) as (c0 & x0 & y0 & -> & L0 & M0). destruct (K y0 56%nat M0) as (c1 & x1 & y1 & -> & L1 & M1).
  destruct (K y1 48%nat M1) as (c2 & x2 & y2 & -> & L2 & M2). destruct (K y2 40%nat M2) as (c3 & x3 & y3 & -> & L3 & M3).
  exists c0, x0, c1, x1, c2, x2, c3, x3, y3. auto 8.
Qed.

Lemma counts_read c0 x0 c1 x1 c2 x2 c3 x3 (r : str) :
  length x0 = 7%nat -> length x1 = 7%nat -> length x2 = 7%nat -> length x3 = 7%nat ->
  let s := c0 :: x0 ++ c1 :: x1 ++ c2 :: x2 ++ c3 :: x3 ++ r in
  at_ s 0 = c0 /\ at_ s 8 = c1 /\ at_ s 16 = c2 /\ at_ s 24 = c3 /\
  blank_at 24 (blank_at 16 (blank_at 8 (blank_at 0 s))) = sp :: x0 ++ sp :: x1 ++ sp :: x2 ++ sp :: x3 ++ r.
Proof.
  intros L0 L1 L2 L3 s.
  assert (A1 : s = (c0 :: x0) ++ c1 :: x1 ++ c2 :: x2 ++ c3 :: x3 ++ r) by reflexivity.
  assert (A2 : s = (c0 :: x0 ++ c1 :: x1) ++ c2 :: x2 ++ c3 :: x3 ++ r) by (unfold s; rewrite !app_comm_cons, !app_assoc; reflexivity).
  assert (A3 : s = (c0 :: x0 ++ c1 :: x1 ++ c2 :: x2) ++ c3 :: x3 ++ r).
  { unfold s. cbn [app]. rewrite <- app_assoc. cbn [app]. rewrite <- app_assoc. reflexivity. }
  split; [reflexivity|].
  split; [rewrite A1; replace 8%nat with (length (c0 :: x0)) by (cbn; lia); apply at_mid|].
  split; [rewrite A2; replace 16%nat with (length (c0 :: x0 ++ c1 :: x1)) by (cbn [length]; rewrite app_length; cbn [length]; lia); apply at_mid|].
  split; [rewrite A3; replace 24%nat with (length (c0 :: x0 ++ c1 :: x1 ++ c2 :: x2)) by
    (cbn [length]; rewrite app_length; cbn [length]; rewrite app_length; cbn [length]; lia); apply at_mid|].
  unfold s. replace (blank_at 0 _) with ((sp :: x0) ++ c1 :: x1 ++ c2 :: x2 ++ c3 :: x3 ++ r) by reflexivity.
  rewrite blank_mid by (cbn [length]; lia).
  replace ((sp :: x0) ++ sp :: x1 ++ c2 :: x2 ++ c3 :: x3 ++ r) with ((sp :: x0 ++ sp :: x1) ++ c2 :: x2 ++ c3 :: x3 ++ r)
    by (rewrite !app_comm_cons, !app_assoc; reflexivity).
  rewrite blank_mid by (cbn [length]; rewrite app_length; cbn [length]; lia).
  replace ((sp :: x0 ++ sp :: x1) ++ sp :: x2 ++ c3 :: x3 ++ r) with ((sp :: x0 ++ sp :: x1 ++ sp :: x2) ++ c3 :: x3 ++ r)
    by (cbn [app]; rewrite <- !app_assoc; cbn [app]; rewrite <- !app_assoc; reflexivity).
  rewrite blank_mid by (cbn [length]; rewrite app_length; cbn [length]; rewrite app_length; cbn [length]; lia).
  cbn [app]. rewrite <- !app_assoc. cbn [app]. rewrite <- !app_assoc. reflexivity.
Qed.

Lemma four_fields x0 x1 x2 x3 (r : str) a b c d :
  length x0 = 7%nat -> length x1 = 7%nat -> length x2 = 7%nat -> length x3 = 7%nat ->
  let s := sp :: x0 ++ sp :: x1 ++ sp :: x2 ++ sp :: x3 ++ r in
  (DEItemToInt s 0 None = POk a <-> seven_columns a x0) /\ (DEItemToInt s 1 None = POk b <-> seven_columns b x1) /\
  (DEItemToInt s 2 None = POk c <-> seven_columns c x2) /\ (DEItemToInt s 3 None = POk d <-> seven_columns d x3).
Proof.
  intros L0 L1 L2 L3 s.
  split; [|split; [|split]].
  - unfold s. apply (field8 [] x0 (sp :: x1 ++ sp :: x2 ++ sp :: x3 ++ r)); auto; lia.
  - unfold s. replace (sp :: x0 ++ sp :: x1 ++ sp :: x2 ++ sp :: x3 ++ r) with ((sp :: x0) ++ (sp :: x1) ++ sp :: x2 ++ sp :: x3 ++ r) by reflexivity.
    apply field8; auto; [lia|cbn [length]; lia].
  - unfold s. replace (sp :: x0 ++ sp :: x1 ++ sp :: x2 ++ sp :: x3 ++ r) with ((sp :: x0 ++ sp :: x1) ++ (sp :: x2) ++ sp :: x3 ++ r)
      by (cbn [app]; rewrite <- !app_assoc; reflexivity).
    apply field8; auto; [lia|cbn [length]; rewrite app_length; cbn [length]; lia].
  - unfold s. replace (sp :: x0 ++ sp :: x1 ++ sp :: x2 ++ sp :: x3 ++ r) with ((sp :: x0 ++ sp :: x1 ++ sp :: x2) ++ (sp :: x3) ++ r)
      by (cbn [app]; rewrite <- !app_assoc; cbn [app]; rewrite <- !app_assoc; reflexivity).
    apply field8; auto; [lia|cbn [length]; rewrite app_length; cbn [length]; rewrite app_length; cbn [length]; lia].
Qed.

Lemma readTS_iff f a b c d : readTS f = POk [a; b; c; d] <->
  exists data f', ReadIGESRecord f = POk (mkRec data "T" 1, f') /\ counts_text a b c d data.
Proof.
  unfold readTS. split.
  - intros H. apply pbind_ok in H. destruct H as ([[data sec idx] f'] & R & H). cbn [r_sec r_idx r_data] in H.
    apply guard_ok in H. destruct H as [G1 H]. apply guard_ok in H. destruct H as [G2 H]. cbv zeta in H.
    apply guard_ok in H. destruct H as [G3 H]. apply Ascii.eqb_eq in G1. subst sec. assert (idx = 1) by lia. subst idx.
    exists data, f'. split; [exact R|].
    assert (L : length data = 72%nat).
    { apply record_data_len in R. exact R. }
    destruct (split72 _ L) as (c0 & x0 & c1 & x1 & c2 & x2 & c3 & x3 & r & -> & L0 & L1 & L2 & L3 & LR).
    destruct (counts_read c0 x0 c1 x1 c2 x2 c3 x3 r L0 L1 L2 L3) as (A0 & A1 & A2 & A3 & B). rewrite A0, A1, A2, A3 in G3. rewrite B in H.
    apply andb_prop in G3. destruct G3 as [G3 E3]. apply andb_prop in G3. destruct G3 as [G3 E2]. apply andb_prop in G3. destruct G3 as [E0 E1].
    apply Ascii.eqb_eq in E0, E1, E2, E3. subst c0 c1 c2 c3.
    apply pbind_ok in H. destruct H as (va & H0 & H). apply pbind_ok in H. destruct H as (vb & H1 & H).
    apply pbind_ok in H. destruct H as (vc & H2 & H). apply pbind_ok in H. destruct H as (vd & H3 & H).
    apply pok_inj in H. injection H as -> -> -> ->.
    destruct (four_fields x0 x1 x2 x3 r a b c d L0 L1 L2 L3) as (F0 & F1 & F2 & F3).
    apply F0 in H0. apply F1 in H1. apply F2 in H2. apply F3 in H3.
    exists x0, x1, x2, x3, r. auto 10.
  - intros (data & f' & R & (x0 & x1 & x2 & x3 & r & -> & H0 & H1 & H2 & H3 & LR)). rewrite R. cbn [pbind r_sec r_idx r_data].
    pose proof (proj1 H0) as L0. pose proof (proj1 H1) as L1. pose proof (proj1 H2) as L2. pose proof (proj1 H3) as L3.
    destruct (counts_read "S" x0 "G" x1 "D" x2 "P" x3 r L0 L1 L2 L3) as (A0 & A1 & A2 & A3 & B). cbv zeta.
    rewrite A0, A1, A2, A3, B. cbn [Ascii.eqb Bool.eqb andb guard Z.eqb Pos.eqb].
    destruct (four_fields x0 x1 x2 x3 r a b c d L0 L1 L2 L3) as (F0 & F1 & F2 & F3).
    rewrite (proj2 F0 H0), (proj2 F1 H1), (proj2 F2 H2), (proj2 F3 H3). reflexivity.
Qed.

Lemma counts_ignored lines n g0 name body t t' rest st g es ts :
  whole_lines body -> terminate_line t -> terminate_line t' ->
  read_file lines n g0 name (mkStream (body ++ t ++ rest) false) = POk (st, g, es, ts) ->
  exists ts', read_file lines n g0 name (mkStream (body ++ t' ++ rest) false) = POk (st, g, es, ts').
Proof.
  intros W (a & b & c & d & tot & C & O & T) (a' & b' & c' & d' & tot' & C' & O' & T') H.
  refine (sim_file tot tot' t t' rest T T' O O' _ _ _ _ _ _ _ _ _ _ W H).
  exists [a'; b'; c'; d']. apply readTS_iff. exists tot', (mkStream rest false). split; [|exact C'].
  apply sec_line_read; [assumption|unfold section_letter; tauto|lia|assumption].
Qed.

(** *** Writing and the target *)

Lemma opened_iff t over : opened t over = true <-> can_open t over.
Proof. destruct t; cbn; intuition congruence. Qed.

Lemma write_target d name ver now t over b t' : Write d name ver now t over = POk (b, t') ->
  (b = false /\ t' = t /\ (can_open t over -> forall t2 over2, Write d name ver now t2 over2 = POk (false, t2))) \/
  (can_open t over /\ exists s, t' = Old s /\ forall t2 over2, can_open t2 over2 -> Write d name ver now t2 over2 = POk (b, Old s)).
Proof.
  unfold Write. destruct (d_ents d) as [|e es]; [intros H; apply pok_inj in H; apply pair_inj in H; destruct H as [<- <-]; left; auto|].
  cbv zeta. destruct (format_all _ _ _ 1 1 (e :: es)) as [| |[l next]]; [discriminate| |].
  - intros H. apply pok_inj in H. apply pair_inj in H. destruct H as [<- <-]. left. auto.
  - destruct (opened t over) eqn:O.
    + apply opened_iff in O. intros H. right. split; [exact O|]. apply pbind_ok in H. destruct H as ([ok s] & H1 & H2).
      apply pok_inj in H2. apply pair_inj in H2. destruct H2 as [<- <-]. exists s. split; [reflexivity|]. intros t2 over2 O2.
      apply opened_iff in O2. rewrite O2, H1. reflexivity.
    + intros H. apply pok_inj in H. apply pair_inj in H. destruct H as [<- <-]. left. split; [reflexivity|]. split; [reflexivity|].
      intros O2. apply opened_iff in O2. congruence.
Qed.

(** A way to show that a line is well formed: read it. *)
Lemma terminate_read data a b c d : length data = 72%nat -> one_lined data ->
  readTS (mkStream (data ++ S2 "T      1" ++ [nl]) false) = POk [a; b; c; d] ->
  terminate_line (data ++ S2 "T      1" ++ [nl]).
Proof.
  intros L O H. apply readTS_iff in H. destruct H as (data' & f' & R & C).
  assert (SL : sec_line "T" 1 data (data ++ S2 "T      1" ++ [nl])).
  { split; [exact L|]. exists (S2 "      1"). split; [reflexivity|]. split; [reflexivity|].
    exists (repeat sp 6), (S2 "1"). split; [reflexivity|]. split; [repeat constructor|]. left. split; [discriminate|].
    split; [repeat constructor; unfold isdig, code; cbn; lia|reflexivity]. }
  exists a, b, c, d, data. split; [|split; assumption].
  rewrite <- (app_nil_r (data ++ S2 "T      1" ++ [nl])) in R.
  rewrite (sec_line_read "T" 1 data) in R; [|assumption|unfold section_letter; tauto|lia|assumption].
  apply pok_inj in R. apply pair_inj in R. destruct R as [R _]. injection R as ->. exact C.
Qed.
