(** Entities whose records cannot be read back. *)

From Coq Require Import Lia ZifyBool ZifyNat ZifyN QArith Qabs Lqa.
From Verif Require Import Base Num Spec NumFacts IoModel FieldFacts LineFacts TokenFacts RealFacts RecordFacts
  ParamFacts PutModel BuildFacts StreamFacts PdModel PdFacts GlobBack EntSpec EntModel EntModel2 EntModel3
  EntFacts EntProps EntProps2 EntItem EntProps3 EntNeg.
Open Scope Z_scope.

Ltac Zify.zify_post_hook ::= Z.div_mod_to_equations.

Lemma no_nl_ptrs l : Forall no_nl (ptr_params l).
Proof. apply Forall_map, Forall_forall. cbn. auto. Qed.

(** A header of integers and a list of integers which the parser refuses. *)
Lemma ints_refused {A} etype seq k pd rd x ps0 l extras (parse : str -> nat -> pres (A * nat * bool)) :
  100 <= etype <= 999 -> settings_ok pd rd seq k extras -> spaced_open pd ps0 x -> (length x <= 60)%nat ->
  Forall no_nl ps0 -> l <> [] -> Forall is_int32 l -> room k (Z.of_nat (length l)) 0 extras ->
  (forall data n idx ex, ex = match extras with [] => [] | _ => extras_params extras end ->
     cursor pd rd data n idx false ((ps0 ++ ptr_params l) ++ ex) -> blanks (skipn (length data - n) data) ->
     parse data idx = PFail) ->
  refused (format_frame (showZ etype ++ pd :: x) (ints_acts l pd (fdel extras pd rd)) extras [] k seq pd rd)
    (fun n f => readPD_frame parse etype seq k n pd rd f).
Proof.
  intros He (D & Hs & Hk & EO) SO LX NL NE F RM P. pose proof (extras_cost_le extras) as XC.
  assert (LI : (length (showZ etype ++ pd :: x) <= 64)%nat) by (lens; pose proof (showZ_type_len etype He); lia).
  destruct (frame_ok etype seq k pd rd Hs Hk D x ps0 (fun d => ints_acts l pd d) (uni 1 (ptr_params l)) extras SO LI) as (r & ps' & FM & W & PR).
  - apply opens_ints; auto; reflexivity.
  - apply closes_ints; auto; reflexivity.
  - exact EO.
  - rewrite ucosts_uni, costs_ints. unfold room in RM. lia.
  - apply uwrote_ints in W. subst ps'. exists r. split; [exact FM|].
    assert (He' : 1 <= etype <= 9999999) by lia.
    refine (read_frame_fail etype seq k pd rd He' Hk D parse _ _ r _ _ PR).
    + intros data n idx C B. eapply P; eauto.
    + apply Forall_app. split; [apply Forall_app; split; [exact NL|apply no_nl_ptrs]|].
      destruct extras as [|e x']; [constructor|]. unfold extras_params.
      destruct (map snd (filter is_secA (e :: x'))), (map snd (filter is_secB (e :: x')));
        repeat first [apply no_nl_ptrs | apply Forall_nil | apply Forall_cons; [first [exact I | intros []]|] | apply Forall_app; split].
Qed.

Lemma parse_ints_bad pd rd ok data n : delims pd rd -> forall l ps idx eor,
  cursor pd rd data n idx eor (ptr_params l ++ ps) -> Forall is_int32 l -> Exists (fun v => ok v = false) l ->
  parse_ints (length l) ok data idx eor pd rd = PFail.
Proof.
  intros D. induction l as [|v l IH]; intros ps idx eor C F X; [inversion X|].
  inversion F; subst. cbn [ptr_params map app] in C. cbn [length parse_ints].
  destruct (step_int pd rd D data n idx eor v _ None C H1) as (i & e & P & C'). rewrite P. cbn [pbind]. unfold guard.
  destruct (ok v) eqn:O; [|reflexivity]. inversion X; subst; [congruence|].
  rewrite (IH _ _ _ C' H2 H0). reflexivity.
Qed.

(** ** Boolean trees *)

Lemma refused180 nodes extras k seq pd rd : settings_ok pd rd seq k extras -> Forall node_valid nodes ->
  (3 <= length nodes)%nat -> balanced nodes = true -> room k (Z.of_nat (length nodes)) 0 extras ->
  refused (format180 nodes extras [] k seq pd rd) (fun n f => readPD180 seq k n pd rd f).
Proof.
  intros S V L B RM. pose proof S as (D & Hs & Hk & _).
  assert (LL : 0 <= Z.of_nat (length nodes) <= 9999999) by (unfold room in RM; lia).
  unfold format180, readPD180. replace (Z.of_nat (length nodes) <? 3) with false by lia. rewrite B.
  replace (existsb node_null nodes) with false.
  2: { symmetry. clear -V. induction V as [|n l H _ IH]; [reflexivity|]. cbn. rewrite IH. destruct n as [|[|]]; [reflexivity|reflexivity|destruct H]. }
  cbn [orb negb].
  assert (F : Forall is_int32 (map node_int nodes)).
  { apply Forall_map. eapply Forall_impl; [|exact V]. intros [v|[p|]] H; cbn in *; [unfold is_int32; lia| |tauto].
    apply extra_ok_range in H. unfold is_int32. lia. }
  apply (ints_refused 180 seq k pd rd _ [PInt (Z.of_nat (length nodes))]); auto; try lia.
  - hdr.
  - lens. pose proof (showZ_ptr_len _ LL). lia.
  - repeat constructor.
  - destruct nodes; [cbn in L; lia|discriminate].
  - rewrite map_length. exact RM.
  - intros data n idx ex _ C _. cbn [app] in C. unfold parse180. unfold parse_int_if.
    destruct (step_int pd rd D data n idx false _ _ None C ltac:(lia)) as (i & e & P & C1). rewrite P. cbn [pbind]. unfold guard at 1.
    destruct (negb _ && _); [cbn [pbind]|reflexivity].
    rewrite Nat2Z.id, <- (map_length node_int nodes), (parse_ints_bad pd rd node_ok data n D _ ex _ _ C1 F); [reflexivity|].
    (* some operand exists *)
    apply Exists_exists.
    assert (X : exists p, In (Arg (Some p)) nodes).
    { clear -B V L. unfold balanced in B. destruct (filter (fun n => negb (is_op n)) nodes) as [|a r] eqn:E; [cbn [length] in B; lia|].
      assert (I : In a nodes /\ negb (is_op a) = true) by (apply (filter_In (fun n => negb (is_op n)) a nodes); rewrite E; left; auto).
      destruct I as [I O]. rewrite Forall_forall in V. specialize (V a I). destruct a as [v|[p|]]; [discriminate|exists p; exact I|destruct V]. }
    destruct X as (p & I). exists (- p). split; [apply (in_map node_int) in I; exact I|].
    rewrite Forall_forall in V. specialize (V _ I). cbn in V. apply extra_ok_range in V. destruct V as [R O]. unfold node_ok.
    replace (- p =? 0) with false by lia. replace (3 <? - p) with false by lia. replace (- p <? -9999997) with false by lia.
    replace (- p <? 0) with true by lia. rewrite Z.odd_opp, O. reflexivity.
Qed.

(** ** Trimmed surfaces without outer boundary *)

Lemma unwritten180 nodes extras cs k seq pd rd :
  (length nodes < 3)%nat \/ balanced nodes = false -> format180 nodes extras cs k seq pd rd = PFail.
Proof.
  intros H. unfold format180. destruct H as [H|H].
  - replace (Z.of_nat (length nodes) <? 3) with true by lia. reflexivity.
  - rewrite H. cbn [negb]. rewrite !orb_true_r. reflexivity.
Qed.

Lemma refused144 s n1 l extras k seq pd rd : settings_ok pd rd seq k extras -> extra_ok s = true -> (n1 = 0 \/ n1 = 1) ->
  Forall (fun v => extra_ok v = true) l -> room k (Z.of_nat (length l) + 1) 0 extras ->
  refused (format144 (mkTrim (Some s) n1 None l) extras [] k seq pd rd) (fun n f => readPD144 seq k n pd rd f).
Proof.
  intros S Os N1 F RM. pose proof S as (D & Hs & Hk & _). destruct (ptrs_int32 _ _ extra_ok_int32 F) as [F1 F2].
  assert (LL : 0 <= Z.of_nat (length l) <= 9999999) by (unfold room in RM; lia).
  pose proof (extra_ok_range _ Os) as [R _].
  unfold format144, readPD144. cbn [tr_surf tr_n1 tr_outer tr_inner ptr0]. unfold guard.
  replace (flag01 n1) with true by (unfold flag01; lia).
  apply (ints_refused 144 seq k pd rd _ [PInt s; PInt n1; PInt (Z.of_nat (length l))]); auto; try lia.
  - hdr.
  - lens. pose proof (showZ_ptr_len s ltac:(lia)). pose proof (showZ_ptr_len n1 ltac:(lia)). pose proof (showZ_ptr_len _ LL). lia.
  - repeat constructor.
  - discriminate.
  - constructor; [unfold is_int32; lia|exact F1].
  - cbn [length]. unfold room in *. lia.
  - intros data n idx ex _ C _. cbn [app ptr_params map] in C. unfold parse144.
    int_step C. int_step C. int_step C.
    unfold parse_int_if.
    match type of C with cursor _ _ _ _ ?i ?e (_ :: ?ps) =>
      destruct (step_int pd rd D data n i e 0 ps None C ltac:(lia)) as (i' & e' & P & C1) end.
    rewrite P. reflexivity.
Qed.

(** ** Solids with voids *)

Lemma refused186 s sof voids k seq pd rd : settings_ok pd rd seq k [] -> extra_ok s = true ->
  voids <> [] -> Forall (fun v => extra_ok (fst v) = true) voids -> NoDup (map fst voids) ->
  room k (2 * Z.of_nat (length voids)) 0 [] ->
  refused (format186 (mkBrep (Some s) sof voids) [] [] k seq pd rd) (fun n f => readPD186 seq k n pd rd f).
Proof.
  intros S Os NE F ND RM. pose proof S as (D & Hs & Hk & _). pose proof (extra_ok_range _ Os) as [R _].
  unfold format186, readPD186. cbn [br_shell br_sof br_voids].
  assert (K : 9999997 <? k = false) by (destruct voids; [congruence|]; unfold room in RM; cbn [length] in RM; lia). rewrite K.
  assert (LP : forall l : list (Z * bool), length (pairs_ints l) = (2 * length l)%nat).
  { induction l as [|v l IH]; [reflexivity|]. cbn [pairs_ints flat_map app length]. unfold pairs_ints in IH. rewrite IH. lia. }
  assert (PI : Forall is_int32 (pairs_ints voids)).
  { clear -F. induction F as [|v l H _ IH]; [constructor|]. cbn [pairs_ints flat_map app].
    apply extra_ok_range in H. constructor; [unfold is_int32; lia|]. constructor; [destruct (snd v); cbn; unfold is_int32; lia|exact IH]. }
  destruct voids as [|[p1 f1] v]; [congruence|].
  apply (ints_refused 186 seq k pd rd _ [PInt s; PInt (zb sof)] (pairs_ints ((p1, f1) :: v)) []); auto; try lia.
  - hdr.
  - lens. pose proof (showZ_ptr_len s ltac:(lia)). pose proof (showZ_ptr_len (zb sof) ltac:(destruct sof; cbn; lia)). lia.
  - repeat constructor.
  - discriminate.
  - rewrite LP. unfold room in *. lia.
  - intros data n idx ex -> C B. rewrite app_nil_r in C. cbn [app ptr_params map pairs_ints flat_map fst snd] in C. unfold parse186.
    assert (ZB : forall b, is_int32 (zb b)) by (intros []; unfold is_int32; cbn; lia).
    inversion F as [|? ? O1 F']; subst. cbn [fst] in O1. pose proof (extra_ok_range _ O1) as [R1 _].
    assert (A0 : any_ptr s = true) by (unfold any_ptr; unfold extra_ok in Os; lia).
    int_step C.
    destruct (st_int pd rd data n D flag01 _ _ _ _ C ltac:(destruct sof; reflexivity) (ZB _)) as (i1 & e1 & P1 & C1). rewrite P1. cbn [pbind]. clear C P1.
    int_step C1.
    assert (PB : forall m v p1 f1 i e, (1 <= m)%nat -> Forall is_int32 (pairs_ints v) -> NoDup (p1 :: map fst v) ->
        (p1 = 1 \/ (2 <= m)%nat) -> Forall (fun v => extra_ok (fst v) = true) v ->
        cursor pd rd data n i e (PInt (zb f1) :: map PInt (pairs_ints v)) ->
        parse_pairs m data i e pd rd = PFail).
    { clear -D B ZB. intros m v. revert m. induction v as [|[p2 f2] v IH]; intros m p1 f1 i e M PI ND PM F C.
      - destruct m as [|m]; [lia|]. cbn [parse_pairs]. unfold parse_int_if at 1.
        destruct (step_int pd rd D data n i e _ _ None C (ZB f1)) as (i' & e' & P & C'). rewrite P. cbn [pbind]. unfold guard.
        destruct (any_ptr (zb f1)); [|reflexivity]. cbn [pbind].
        rewrite (parse_int_end pd rd D flag01 data n i' e' C' B). reflexivity.
      - destruct m as [|m]; [lia|]. cbn [parse_pairs]. unfold parse_int_if at 1.
        destruct (step_int pd rd D data n i e _ _ None C (ZB f1)) as (i' & e' & P & C'). rewrite P. cbn [pbind]. unfold guard.
        destruct (any_ptr (zb f1)); [|reflexivity]. cbn [pbind].
        cbn [pairs_ints flat_map app map fst snd] in C', PI, ND. inversion PI as [|? ? I1 PI1]; subst. inversion PI1 as [|? ? I2 PI2]; subst.
        inversion F as [|? ? O2 F2]; subst. cbn [fst] in O2. pose proof (extra_ok_range _ O2) as [R2 _].
        unfold parse_int_if at 1. destruct (step_int pd rd D data n i' e' _ _ None C' I1) as (i2 & e2 & P2 & C2). rewrite P2. cbn [pbind]. unfold guard.
        destruct (flag01 p2) eqn:FL; [|reflexivity]. cbn [pbind].
        assert (p2 = 1) by (unfold flag01 in FL; lia). subst p2.
        assert (M2 : (1 <= m)%nat).
        { destruct PM as [->|]; [|lia]. exfalso. inversion ND; subst. apply H1. left. reflexivity. }
        inversion ND; subst.
        rewrite (IH m 1 f2 _ _ M2 PI2 H2 (or_introl eq_refl) F2 C2). reflexivity. }
    erewrite (PB (Z.to_nat p1) v p1 f1); [reflexivity|lia| |exact ND| |exact F'|exact C1].
    + cbn [pairs_ints flat_map app] in PI. inversion PI as [|? ? _ PI1]; subst. inversion PI1; auto.
    + destruct (Z.eq_dec p1 1); [left; auto|right; lia].
Qed.

Ltac take H := let X := fresh in
  match type of H with
  | context [pbind ?x _] => destruct x as [| |[[? ?] ?]] eqn:X; [discriminate|discriminate|]; cbn [pbind] in H
  end.
Ltac fin H := apply pok_inj in H; apply pair_inj in H; destruct H as [H _]; apply pair_inj in H; destruct H as [<- <-].

Lemma parse_pairs_nd pd rd : delims pd rd -> forall n data idx eor l i e, parse_pairs n data idx eor pd rd = POk (l, i, e) ->
  (2 * n + nd pd rd (skipn i data) <= nd pd rd (skipn idx data))%nat /\ length l = n.
Proof.
  intros D. induction n as [|n IH]; intros data idx eor l i e; cbn [parse_pairs]; intros H.
  - fin H. cbn. split; [lia|reflexivity].
  - take H. take H. take H. fin H. apply parse_int_if_nd in H0, H1; auto. apply IH in H2. cbn [length]. lia.
Qed.

Lemma ints_acts_ok pd rd fd : delims pd rd -> fd = pd \/ fd = rd -> forall l, Forall is_int32 l ->
  Forall2 (act_ok pd rd) (ints_acts l pd fd) (repeat 1%nat (length l)).
Proof.
  intros D Hf. induction l as [|v l IH]; intros F; [constructor|]. inversion F; subst. cbn [ints_acts length repeat].
  destruct l as [|w l]; [constructor; [apply WInt_ok; auto|constructor]|constructor; [apply WInt_ok; auto|apply IH; auto]].
Qed.

Lemma sum_repeat n : sum (repeat 1%nat n) = n.
Proof. unfold sum. induction n as [|n IH]; [reflexivity|]. cbn [repeat fold_right]. rewrite IH. reflexivity. Qed.

Lemma pairs_len (l : list (Z * bool)) : length (pairs_ints l) = (2 * length l)%nat.
Proof. induction l as [|v l IH]; [reflexivity|]. cbn [pairs_ints flat_map app length]. unfold pairs_ints in IH. rewrite IH. lia. Qed.

Lemma pairs_int32 (l : list (Z * bool)) : Forall (fun v => extra_ok (fst v) = true) l -> Forall is_int32 (pairs_ints l).
Proof.
  induction 1 as [|v l H _ IH]; [constructor|]. cbn [pairs_ints flat_map app].
  apply extra_ok_range in H. constructor; [unfold is_int32; lia|]. constructor; [destruct (snd v); cbn; unfold is_int32; lia|exact IH].
Qed.

Lemma nd_init pd rd n x : delims pd rd -> nd pd rd (showZ n ++ pd :: x) = S (nd pd rd x).
Proof.
  intros D. change (showZ n ++ pd :: x) with (showZ n ++ [pd] ++ x). rewrite !nd_app, nd_showZ, nd_del by auto. reflexivity.
Qed.

Lemma nd_nil pd rd : nd pd rd [] = O. Proof. reflexivity. Qed.

Lemma showZ_no_nl n : ~ In nl (showZ n).
Proof.
  intros I. destruct (signed_chars _ _ _ (showZ_signed n) I) as [E|[E|E]]; try discriminate. apply (isdig_not_nl _ E). reflexivity.
Qed.

Lemma no_nl_init pd rd n x : delims pd rd -> ~ In nl x -> ~ In nl (showZ n ++ pd :: x).
Proof.
  intros (D & _) N I. apply in_app_or in I. destruct I as [I|[I|I]]; [exact (showZ_no_nl _ I)|apply (delim_not_nl _ D I)|auto].
Qed.

(** Fewer voids come back than were written. *)
Lemma lost186 s sof voids k seq pd rd : settings_ok pd rd seq k [] -> extra_ok s = true ->
  voids <> [] -> Forall (fun v => extra_ok (fst v) = true) voids ->
  room k (2 * Z.of_nat (length voids)) 0 [] ->
  only_read_as (format186 (mkBrep (Some s) sof voids) [] [] k seq pd rd) (fun n f => readPD186 seq k n pd rd f)
    (fun b => (length (br_voids b) < length voids)%nat).
Proof.
  intros (D & Hs & Hk & _) Os NE F RM. pose proof (extra_ok_range _ Os) as [R _].
  unfold format186, readPD186. cbn [br_shell br_sof br_voids].
  assert (K : 9999997 <? k = false) by (unfold room in RM; lia). rewrite K.
  destruct voids as [|v0 v]; [congruence|]. remember (v0 :: v) as voids.
  pose proof (pairs_int32 _ F) as PI. pose proof (pairs_len voids) as LP.
  assert (ZB : 0 <= zb sof <= 9999999) by (destruct sof; cbn; lia).
  destruct (frame_count pd rd D 186 seq k (showZ s ++ pd :: showZ (zb sof) ++ [pd]) (ints_acts (pairs_ints voids) pd rd)
    (repeat 1%nat (length (pairs_ints voids))) (parse186 pd rd) ltac:(lia) Hs Hk) as (r & st & FM & _ & RD).
  - lens. pose proof (showZ_ptr_len s ltac:(lia)). pose proof (showZ_ptr_len _ ZB). pose proof (showZ_type_len 186 ltac:(lia)). lia.
  - eapply no_nl_init; eauto. eapply no_nl_init; eauto.
  - apply ints_acts_ok; auto.
  - assert (LA : forall l fd, length (ints_acts l pd fd) = length l).
    { induction l as [|z l IH]; intros fd; [reflexivity|]. cbn [ints_acts]. destruct l; [reflexivity|]. cbn [length]. rewrite IH. reflexivity. }
    rewrite LA, LP. unfold room in RM. lia.
  - exists r. split; [exact FM|]. intros rest a ptrs cs f H. apply RD in H. destruct H as (data & idx & i & e & P & N).
    unfold parse186 in P. take P. take P. take P. take P. apply pok_inj in P. apply pair_inj in P. destruct P as [P _]. apply pair_inj in P. destruct P as [<- _].
    cbn [br_voids]. apply parse_int_if_nd in H, H0, H1; auto. apply parse_pairs_nd in H2; auto.
    rewrite !nd_init, nd_nil, sum_repeat, LP in N by auto. lia.
Qed.

Lemma F2_len {A B} (R : A -> B -> Prop) l m : Forall2 R l m -> length l = length m.
Proof. induction 1; [reflexivity|]. cbn [length]. f_equal. assumption. Qed.

(** ** Loops *)

Lemma removelast_len {A} (l : list A) : length (removelast l) = (length l - 1)%nat.
Proof.
  induction l as [|x l IH]; [reflexivity|]. cbn [removelast]. destruct l as [|y l]; [reflexivity|].
  cbn [length] in *. rewrite IH. lia.
Qed.

Lemma removelast_in {A} (x : A) l : In x (removelast l) -> In x l.
Proof. induction l as [|y l IH]; [intros []|]. cbn [removelast]. destruct l; [intros []|]. intros [->|I]; [left; auto|right; auto]. Qed.

Lemma ledge_acts_ok pd rd kd e : delims pd rd -> kd = pd \/ kd = rd -> ledge_ok e ->
  Forall2 (act_ok pd rd) (ledge_acts e pd kd) (repeat 1%nat (ledge_size e - 2)).
Proof.
  intros D Hk ((p & Ed & Ip) & Ii & NE & LC & FC). unfold ledge_acts. rewrite Ed. cbn [ptr0].
  assert (ZB : forall b, is_int32 (zb b)) by (intros []; unfold is_int32; cbn; lia).
  replace (repeat 1%nat (ledge_size e - 2)) with ([1;1;1;1;1]%nat ++ repeat 1%nat (2 * length (removelast (le_curves e)))).
  2: { rewrite removelast_len. unfold ledge_size. destruct (le_curves e); [congruence|]. cbn [length].
       replace (5 + 2 * S (length l) - 2)%nat with (5 + 2 * (S (length l) - 1))%nat by lia. reflexivity. }
  apply Forall2_app.
  - repeat (constructor; [apply WInt_ok; auto; unfold is_int32 in *; lia|]). constructor.
  - assert (F2 : Forall (fun c => is_int32 (snd c)) (removelast (le_curves e))).
    { rewrite Forall_forall in *. intros c I. apply FC, removelast_in, I. }
    unfold pcurve_acts. clear -F2 D ZB. induction F2 as [|c l H _ IH]; [constructor|]. cbn [flat_map app length].
    replace (2 * S (length l))%nat with (S (S (2 * length l))) by lia. cbn [repeat].
    constructor; [apply WInt_ok; auto|]. constructor; [apply WInt_ok; auto|exact IH].
Qed.

Lemma loop_acts_ok pd rd fd : delims pd rd -> fd = pd \/ fd = rd -> forall l, Forall ledge_ok l ->
  exists ns, Forall2 (act_ok pd rd) (loop_acts l pd fd) ns /\ (sum ns + 2 * length l = loop_size l)%nat /\ length ns = sum ns.
Proof.
  intros D Hf. induction l as [|e l IH]; intros F.
  - exists []. split; [constructor|]. split; reflexivity.
  - inversion F; subst. destruct (IH H2) as (ns & A & S & L). exists (repeat 1%nat (ledge_size e - 2) ++ ns).
    assert (SA : forall a b, sum (a ++ b) = (sum a + sum b)%nat).
    { unfold sum. induction a as [|x a IHa]; intros b; [reflexivity|]. cbn [app fold_right]. rewrite IHa. lia. }
    assert (LE : (7 <= ledge_size e)%nat).
    { destruct H1 as (_ & _ & NE & _). unfold ledge_size. destruct (le_curves e); [congruence|]. cbn [length]. lia. }
    split.
    + destruct l as [|e2 l].
      * inversion A; subst. rewrite app_nil_r. apply ledge_acts_ok; auto.
      * apply Forall2_app; [apply ledge_acts_ok; auto|exact A].
    + rewrite SA, sum_repeat, app_length, repeat_length, L. unfold loop_size in *. cbn [map length]. unfold sum in *. cbn [fold_right]. lia.
Qed.

Lemma parse_pcurves_nd pd rd : delims pd rd -> forall n data idx eor l i e, parse_pcurves n data idx eor pd rd = POk (l, i, e) ->
  (2 * n + nd pd rd (skipn i data) <= nd pd rd (skipn idx data))%nat /\ length l = n.
Proof.
  intros D. induction n as [|n IH]; intros data idx eor l i e; cbn [parse_pcurves]; intros H.
  - fin H. cbn. split; [lia|reflexivity].
  - take H. take H. unfold guard in H. destruct (flag01 _); [|discriminate]. take H. fin H.
    apply ParseInt_nd in H0, H1; auto. apply IH in H2. cbn [length]. lia.
Qed.

Lemma parse_ledges_nd pd rd : delims pd rd -> forall n data idx eor l i e, parse_ledges n data idx eor pd rd = POk (l, i, e) ->
  (loop_size l + nd pd rd (skipn i data) <= nd pd rd (skipn idx data))%nat /\ length l = n.
Proof.
  intros D. induction n as [|n IH]; intros data idx eor l i e; cbn [parse_ledges]; intros H.
  - fin H. cbn. split; [lia|reflexivity].
  - take H. take H. take H. take H. take H. take H. destruct l0 as [|p [|x [|]]]; try discriminate. fin H.
    apply parse_int_if_nd in H0, H2, H3; auto. apply parse_ints_nd in H1; auto. apply parse_pcurves_nd in H4; auto. apply IH in H5.
    unfold loop_size in *. cbn [map length]. unfold sum, ledge_size in *. cbn [fold_right le_curves]. lia.
Qed.

Lemma lost508 l k seq pd rd : settings_ok pd rd seq k [] -> l <> [] -> Forall ledge_ok l ->
  room k (Z.of_nat (loop_size l)) 0 [] ->
  only_read_as (format508 l [] [] k seq pd rd) (fun n f => readPD508 seq k n pd rd f)
    (fun l' => (loop_size l' + 2 * length l <= loop_size l)%nat).
Proof.
  intros (D & Hs & Hk & _) NE F RM. unfold format508, readPD508.
  assert (LS : (7 * length l <= loop_size l)%nat).
  { clear -F. induction F as [|e l (_ & _ & NE & _) _ IH]; [cbn; lia|]. unfold loop_size in *. cbn [map length]. unfold sum, ledge_size in *. cbn [fold_right].
    destruct (le_curves e); [congruence|]. cbn [length]. lia. }
  replace ((k <? 1) || (9999999 <? k)) with false by (unfold room in RM; lia).
  assert (LC : loop_check l = POk tt).
  { clear -F. induction F as [|e l ((p & E & _) & _ & NE & _) _ IH]; [reflexivity|]. cbn [loop_check]. rewrite E.
    destruct (le_curves e); [congruence|exact IH]. }
  rewrite LC. cbn [pbind fdel].
  destruct (loop_acts_ok pd rd rd D (or_intror eq_refl) l F) as (ns & AO & SN & LN).
  assert (LL : 0 <= Z.of_nat (length l) <= 9999999) by (unfold room in RM; lia).
  destruct (frame_count pd rd D 508 seq k (showZ (Z.of_nat (length l)) ++ [pd]) (loop_acts l pd rd) ns
    (parse508 pd rd) ltac:(lia) Hs Hk) as (r & st & FM & _ & RD).
  - lens. pose proof (showZ_ptr_len _ LL). pose proof (showZ_type_len 508 ltac:(lia)). lia.
  - eapply no_nl_init; eauto.
  - exact AO.
  - apply F2_len in AO. rewrite AO, LN. unfold room in RM. lia.
  - exists r. split; [exact FM|]. intros rest a ptrs cs f H. apply RD in H. destruct H as (data & idx & i & e & P & N).
    unfold parse508 in P. take P. apply parse_int_if_nd in H; auto. apply parse_ledges_nd in P; auto.
    rewrite !nd_init, nd_nil in N by auto. lia.
Qed.

(** ** Records which are never finished *)

Lemma last_app {A} (x y : A) (l : list A) : exists l' z, l ++ [x; y] = l' ++ [z] /\ z = y.
Proof. exists (l ++ [x]), y. rewrite <- app_assoc. auto. Qed.

Lemma last_char_app s c : last_char (s ++ [c]) = Some c.
Proof.
  induction s as [|x s IH]; [reflexivity|]. cbn [app last_char]. destruct (s ++ [c]) as [|y r] eqn:E; [destruct s; discriminate|].
  rewrite IH. reflexivity.
Qed.

(** A real behind the last whole line stays behind: its delimiter is never
    written. *)
Lemma emit_last_real pd rd de acts ns q u st st' : delims pd rd -> 1 <= de <= 9999999 ->
  Forall2 (act_ok pd rd) acts ns -> 1 <= l_idx st -> l_idx st + 2 * Z.of_nat (length (acts ++ [WReal q pd u])) <= 9999999 ->
  (length (l_cur st) <= 64)%nat -> (0 < u)%Q -> real300 q ->
  emit de pd rd (acts ++ [WReal q pd u]) st = Ret true st' -> (1 <= nd pd rd (l_cur st'))%nat.
Proof.
  intros D Hde F Hi B Hc U R E. rewrite app_length in B. cbn [length] in B.
  destruct (emit_count pd rd D de acts Hde ns st F Hi ltac:(lia) Hc) as (st1 & b1 & E1 & _ & _ & _ & L1 & I1).
  rewrite emit_app, E1 in E. cbn [emit] in E.
  destruct (FormatPDREal_some q pd u U) as (t & FT). rewrite FT in E.
  pose proof (real_item pd rd D _ _ _ _ FT R (or_introl eq_refl)) as AO.
  destruct (item_count pd rd D t 1 de st1 AO Hde ltac:(lia) ltac:(lia) L1) as (st2 & b2 & E2 & _ & _ & _ & _ & _ & LC).
  rewrite E2 in E. apply ret_inj in E. destruct E as [_ <-].
  destruct (FormatPDREal_wrote _ _ _ _ FT R) as (t0 & q' & ET & _). 
  assert (NL : last_char t <> Some rd).
  { rewrite ET, last_char_app. destruct D as (_ & _ & N). congruence. }
  destruct (LC NL) as (x & ->). destruct AO as (_ & _ & N & _). rewrite nd_app, N. lia.
Qed.

(** ** Planes *)

Lemma reals_acts_ok pd rd u l : delims pd rd -> (0 < u)%Q -> Forall real300 l ->
  Forall2 (act_ok pd rd) (reals_acts u l pd pd) (repeat 1%nat (length l)).
Proof.
  intros D U. induction l as [|v l IH]; intros F; [constructor|]. inversion F; subst. cbn [reals_acts length repeat].
  assert (A : act_ok pd rd (WReal v pd u) 1) by (repeat split; auto).
  destruct l as [|w l]; [constructor; [exact A|constructor]|constructor; [exact A|apply IH; auto]].
Qed.

Lemma lost108 p k seq pd rd u : settings_ok pd rd seq k [] -> (0 < u)%Q -> plane_ok p -> room k 9 0 [] ->
  only_read_as (format108 p [] [] k seq pd rd u) (fun n f => readPD108 (pl_form p) seq k n pd rd f) (fun _ => False).
Proof.
  intros (D & Hs & Hk & _) U (RE & DG & PT) RM. unfold format108, readPD108.
  set (FR := format_frame _ _ _ _ _ _ _ _).
  assert (FF : match pl_ptr p with Some _ => guard (negb (pl_form p =? 0)) | None => guard (pl_form p =? 0) end
               (guard (negb (degenerate (pl_A p) (pl_B p) (pl_C p))) FR) = FR).
  { rewrite DG. destruct (pl_ptr p) as [n|]; [destruct PT as [P1 P2]; replace (pl_form p =? 0) with false by lia|rewrite PT; reflexivity]. reflexivity. }
  rewrite FF. unfold FR. clear FF FR.
  set (acts := reals_acts u [pl_A p; pl_B p; pl_C p; pl_D p] pd pd ++ WItem (plane_ptr p pd) :: reals_acts u [pl_X p; pl_Y p; pl_Z p; pl_size p] pd pd).
  set (acts0 := reals_acts u [pl_A p; pl_B p; pl_C p; pl_D p] pd pd ++ WItem (plane_ptr p pd) :: reals_acts u [pl_X p; pl_Y p; pl_Z p] pd pd).
  assert (EA : acts = acts0 ++ [WReal (pl_size p) pd u]) by reflexivity.
  inversion RE as [|? ? R1 RE1]; subst; inversion RE1 as [|? ? R2 RE2]; subst; inversion RE2 as [|? ? R3 RE3]; subst; inversion RE3 as [|? ? R4 RE4]; subst.
  inversion RE4 as [|? ? R5 RE5]; subst; inversion RE5 as [|? ? R6 RE6]; subst; inversion RE6 as [|? ? R7 RE7]; subst; inversion RE7 as [|? ? R8 RE8]; subst.
  assert (PO : exists m, act_ok pd rd (WItem (plane_ptr p pd)) m /\ (m <= 1)%nat).
  { unfold plane_ptr. destruct (pl_ptr p) as [n|].
    - exists 1%nat. split; [|lia]. destruct PT as [_ PT]. apply extra_ok_int32 in PT. apply (WInt_ok pd rd D n pd PT). left; auto.
    - exists 0%nat. split; [|lia]. change (FormatDEInt 0) with (Some (S2 "       0")). split; [discriminate|]. split; [cbn; lia|].
      destruct D as ((C1 & G1 & _) & (C2 & G2 & _) & _). split.
      + apply nd_none; intros I; repeat (destruct I as [I|I]; [subst; first [change (code " ") with 32 in *; lia | apply G1; vm_compute; split; congruence | apply G2; vm_compute; split; congruence]|]); destruct I.
      + intros I. repeat (destruct I as [I|I]; [discriminate|]). destruct I. }
  destruct PO as (m & PO & M1).
  assert (AO0 : Forall2 (act_ok pd rd) acts0 ([1;1;1;1] ++ m :: [1;1;1])%nat).
  { apply Forall2_app; [apply (reals_acts_ok pd rd u [pl_A p; pl_B p; pl_C p; pl_D p]); auto|].
    constructor; [exact PO|]. apply (reals_acts_ok pd rd u [pl_X p; pl_Y p; pl_Z p]); auto. }
  assert (AO : Forall2 (act_ok pd rd) acts (([1;1;1;1] ++ m :: [1;1;1]) ++ [1])%nat).
  { rewrite EA. apply Forall2_app; [exact AO0|]. constructor; [repeat split; auto|constructor]. }
  assert (LI : (length (showZ 108 ++ [pd]) <= 64)%nat) by (apply Nat.leb_le; reflexivity).
  destruct (frame_count pd rd D 108 seq k [] acts _ (parse108 (pl_form p) pd rd) ltac:(lia) Hs Hk LI ltac:(intros []) AO) as (r & st & FM & EM & RD).
  { change (length acts) with 9%nat. unfold room in RM. lia. }
  exists r. split; [exact FM|]. intros rest a ptrs cs f H. apply RD in H. destruct H as (data & idx & i & e & P & N).
  rewrite EA in EM.
  assert (NC : (1 <= nd pd rd (l_cur st))%nat).
  { refine (emit_last_real pd rd seq acts0 _ (pl_size p) u (mkLst (showZ 108 ++ [pd]) [] k) st D Hs AO0 Hk _ LI U R8 EM).
    change (length (acts0 ++ [WReal (pl_size p) pd u])) with 9%nat. cbn [l_idx]. unfold room in RM. lia. }
  cbn [app sum fold_right] in N. rewrite nd_nil in N.
  unfold parse108 in P. take P. destruct l as [|A [|B [|C [|E [|]]]]]; try discriminate. unfold guard in P. destruct (negb (degenerate A B C)); [|discriminate].
  take P. take P. apply parse_reals_nd in H, H1; auto. apply parse_int_if_nd in H0; auto. lia.
Qed.

(** ** Colors with long names *)

Lemma clamped d v : (d == 85 \/ d == 20)%Q -> real300 (clamp d v).
Proof.
  intros Hd. apply real300_small. unfold clamp. destruct (Qlt_bool v 0 || Qlt_bool 100 v) eqn:E.
  - apply Qabs_Qle_condition. destruct Hd; split; lra.
  - apply orb_false_iff in E. destruct E as [E1 E2]. unfold Qlt_bool in *. apply negb_false_iff in E1, E2.
    apply Qle_bool_iff in E1, E2. apply Qabs_Qle_condition. split; lra.
Qed.

Lemma emit_drop de pd rd acts t st : (64 < length t)%nat -> emit de pd rd (acts ++ [WItem t]) st = emit de pd rd acts st.
Proof.
  intros L. rewrite emit_app. destruct (emit de pd rd acts st) as [|[] st']; try reflexivity. cbn [emit]. unfold AddPDItem.
  replace (64 <? length t)%nat with true by lia. reflexivity.
Qed.

Lemma lost314 c k seq pd rd : settings_ok pd rd seq k [] -> (61 <= length (co_name c))%nat -> room k 4 0 [] ->
  only_read_as (format314 c [] [] k seq pd rd) (fun n f => readPD314 seq k n pd rd f) (fun _ => False).
Proof.
  intros (D & Hs & Hk & _) LN RM. unfold format314, readPD314.
  destruct (co_name c) as [|c0 name] eqn:EN; [cbn in LN; lia|]. remember (c0 :: name) as nm eqn:E0. clear c0 name E0 EN. cbn [fdel].
  set (acts0 := [WReal (clamp 85 (co_r c)) pd color_res; WReal (clamp 20 (co_g c)) pd color_res]).
  set (acts := acts0 ++ [WReal (clamp 20 (co_b c)) pd color_res]).
  change ([WReal (clamp 85 (co_r c)) pd color_res; WReal (clamp 20 (co_g c)) pd color_res; WReal (clamp 20 (co_b c)) pd color_res]) with acts.
  assert (LT : (64 < length (showZ (Z.of_nat (length nm)) ++ "H"%char :: nm ++ [rd]))%nat).
  { lens. destruct (Nat.eq_dec (length nm) 61) as [E|E]; [rewrite E; change (length (showZ (Z.of_nat 61))) with 2%nat; lia|].
    pose proof (showZ_type (Z.of_nat (length nm))). unfold showZ. replace (Z.of_nat (length nm) <? 0) with false by lia.
    pose proof (showN_pos_len (Z.of_nat (length nm)) ltac:(lia)). lia. }
  assert (FF : format_frame (showZ 314 ++ [pd]) (acts ++ [WItem (showZ (Z.of_nat (length nm)) ++ "H"%char :: nm ++ [rd])]) [] [] k seq pd rd =
               format_frame (showZ 314 ++ [pd]) acts [] [] k seq pd rd).
  { unfold format_frame. rewrite emit_drop by exact LT. reflexivity. }
  rewrite FF. clear FF LT.
  assert (U : (0 < color_res)%Q) by reflexivity.
  assert (RR : forall d v, (d == 85 \/ d == 20)%Q -> act_ok pd rd (WReal (clamp d v) pd color_res) 1).
  { intros d v Hd. split; [exact U|]. split; [apply clamped; exact Hd|]. split; auto. }
  assert (A0 : Forall2 (act_ok pd rd) acts0 [1; 1]%nat).
  { constructor; [apply RR; left; reflexivity|]. constructor; [apply RR; right; reflexivity|constructor]. }
  assert (A1 : Forall2 (act_ok pd rd) acts ([1; 1] ++ [1])%nat).
  { apply Forall2_app; [exact A0|]. constructor; [apply RR; right; reflexivity|constructor]. }
  assert (LI : (length (showZ 314 ++ [pd]) <= 64)%nat) by (apply Nat.leb_le; reflexivity).
  destruct (frame_count pd rd D 314 seq k [] acts _ (parse314 pd rd) ltac:(lia) Hs Hk LI ltac:(intros []) A1) as (r & st & FM & EM & RD).
  { change (length acts) with 3%nat. unfold room in RM. lia. }
  exists r. split; [exact FM|]. intros rest a ptrs cs f H. apply RD in H. destruct H as (data & idx & i & e & P & N).
  assert (NC : (1 <= nd pd rd (l_cur st))%nat).
  { refine (emit_last_real pd rd seq acts0 _ (clamp 20 (co_b c)) color_res (mkLst (showZ 314 ++ [pd]) [] k) st D Hs A0 Hk _ LI U _ EM).
    - cbn [l_idx length app acts0]. unfold room in RM. lia.
    - apply clamped. right; reflexivity. }
  cbn [app sum fold_right] in N. rewrite nd_nil in N.
  unfold parse314 in P. take P. apply parse_reals_nd in H; auto. lia.
Qed.
