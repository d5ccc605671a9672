(** Round trips of vertex lists, and of planes with optional pointers. *)

From Coq Require Import Lia ZifyBool ZifyNat ZifyN QArith Qabs Lqa.
From Verif Require Import Base Num Spec NumFacts IoModel FieldFacts LineFacts TokenFacts RealFacts RecordFacts
  ParamFacts PutModel BuildFacts StreamFacts PdModel PdFacts GlobBack EntSpec EntModel EntModel2 EntModel3
  EntFacts EntProps EntProps2 EntItem EntProps3 EntNeg EntNeg2.
Open Scope Z_scope.

Ltac Zify.zify_post_hook ::= Z.div_mod_to_equations.

(** ** Planes with a boundary curve and optional pointers *)

Lemma close_nonzero u v q : (1 # 100000000 <= Qabs v)%Q -> real_close u v q -> Qeq_bool 0 q = false.
Proof.
  intros H (_ & C). destruct (C H) as (_ & R & _). apply not_true_is_false. intros E. apply Qeq_bool_iff in E.
  assert (X : (Qabs (q - v) == Qabs v)%Q).
  { rewrite <- E. rewrite <- (Qabs_opp v). apply Qabs_wd. ring. }
  rewrite X in R. lra.
Qed.

Lemma round108 p c extras k seq pd rd u : settings_ok pd rd seq k extras -> extras <> [] -> (0 < u)%Q ->
  pl_ptr p = Some c -> extra_ok c = true -> pl_form p <> 0 -> Forall real300 (plane_reals p) ->
  (1 # 100000000 <= Qabs (pl_A p) \/ 1 # 100000000 <= Qabs (pl_B p) \/ 1 # 100000000 <= Qabs (pl_C p))%Q -> room k 9 0 extras ->
  round_trip (format108 p extras [] k seq pd rd u) (fun n f => readPD108 (pl_form p) seq k n pd rd f)
    seq k (extras_ptrs extras)
    (fun p' => pl_form p' = pl_form p /\ pl_ptr p' = Some c /\ Forall2 (real_close u) (plane_reals p) (plane_reals p')).
Proof.
  intros S NE U EP OC NF FR ND RM. pose proof S as (D & Hs & Hk & _). pose proof (extra_ok_range _ OC) as [R _].
  unfold format108, readPD108. rewrite EP. unfold guard at 1. replace (pl_form p =? 0) with false by lia. cbn [negb].
  assert (DG : degenerate (pl_A p) (pl_B p) (pl_C p) = false).
  { unfold degenerate. assert (G : forall v, (1 # 100000000 <= Qabs v)%Q -> Qeq_bool 0 v = false).
    { intros v H. apply not_true_is_false. intros E. apply Qeq_bool_iff in E. rewrite <- E in H. vm_compute in H. congruence. }
    destruct ND as [H|[H|H]]; rewrite (G _ H), ?andb_false_r; reflexivity. }
  rewrite DG. unfold guard at 1. cbn [negb]. unfold plane_ptr. rewrite EP.
  set (l1 := [pl_A p; pl_B p; pl_C p; pl_D p]). set (l2 := [pl_X p; pl_Y p; pl_Z p; pl_size p]).
  assert (EF : fdel extras pd rd = pd) by (destruct extras; [congruence|reflexivity]).
  unfold plane_reals in FR. change (Forall real300 (l1 ++ l2)) in FR. apply Forall_app in FR. destruct FR as [F1 F2].
  replace (reals_acts u l1 pd pd ++ WItem (showZ c ++ [pd]) :: reals_acts u l2 pd pd)
    with ((fun d => (reals_acts u l1 pd pd ++ [WInt c pd]) ++ reals_acts u l2 pd d) (fdel extras pd rd)) by (rewrite EF, <- app_assoc; reflexivity).
  apply (frame_round 108 seq k pd rd [] [] (fun d => (reals_acts u l1 pd pd ++ [WInt c pd]) ++ reals_acts u l2 pd d)
    ((uni u (map PReal l1) ++ [(1%Q, PInt c)]) ++ uni u (map PReal l2)) extras); auto; try lia.
  - constructor.
  - apply Nat.leb_le; reflexivity.
  - apply opens_app; auto; [|apply opens_reals; auto]. apply opens_app; auto; [apply opens_reals; auto|]. apply opens_int; auto; [reflexivity|lia].
  - apply closes_app; auto; [|apply closes_reals; auto; discriminate]. apply opens_app; auto; [apply opens_reals; auto|]. apply opens_int; auto; [reflexivity|lia].
  - rewrite !ucosts_app, !ucosts_uni, !costs_reals. unfold ucosts. cbn [map snd costs fold_right cost length]. unfold l1, l2, room in *. cbn [length]. lia.
  - rewrite app_nil_l, !map_app. apply Forall_app. split; [|apply no_nl_reals]. apply Forall_app. split; [apply no_nl_reals|]. repeat constructor.
  - intros ps' W data n idx ex C. apply uwrote_app in W. destruct W as (p12 & p3 & -> & W & W3). apply uwrote_app in W. destruct W as (p1 & p2 & -> & W1 & W2).
    apply uwrote_cons_int in W2. destruct W2 as (q & -> & W2). inversion W2; subst q. clear W2.
    apply uwrote_reals in W1. apply uwrote_reals in W3. cbn [app] in C. rewrite <- !app_assoc in C. cbn [app] in C. unfold parse108.
    destruct (st_reals pd rd data n D u l1 p1 _ _ _ C W1) as (l & i & e & P1 & C1 & X1). change (length l1) with 4%nat in P1. rewrite P1. cbn [pbind].
    unfold l1 in C1. inversion C1 as [|? a1 ? r1 A1 B1]; subst. inversion B1 as [|? a2 ? r2 A2 B2]; subst. inversion B2 as [|? a3 ? r3 A3 B3]; subst.
    inversion B3 as [|? a4 ? r4 A4 B4]; subst. inversion B4; subst.
    assert (DQ : degenerate a1 a2 a3 = false).
    { unfold degenerate. destruct ND as [H|[H|H]]; [rewrite (close_nonzero _ _ _ H A1)|rewrite (close_nonzero _ _ _ H A2)|rewrite (close_nonzero _ _ _ H A3)]; rewrite ?andb_false_r; reflexivity. }
    rewrite DQ. unfold guard. cbn [negb].
    assert (OK : (if pl_form p =? 0 then c =? 0 else negb (c =? 0)) = true) by (replace (pl_form p =? 0) with false by lia; lia).
    destruct (st_int pd rd data n D (fun n => if pl_form p =? 0 then n =? 0 else negb (n =? 0)) _ _ _ _ X1 OK ltac:(unfold is_int32; lia)) as (i2 & e2 & P2 & X2).
    rewrite P2. cbn [pbind].
    destruct (st_reals pd rd data n D u l2 p3 _ _ _ X2 W3) as (l & i3 & e3 & P3 & C3 & X3). change (length l2) with 4%nat in P3. rewrite P3. cbn [pbind].
    unfold l2 in C3. inversion C3 as [|? b1 ? s1 D1 E1]; subst. inversion E1 as [|? b2 ? s2 D2 E2]; subst. inversion E2 as [|? b3 ? s3 D3 E3]; subst.
    inversion E3 as [|? b4 ? s4 D4 E4]; subst. inversion E4; subst.
    eexists. exists i3, e3. split; [reflexivity|]. split; [|exact X3]. cbn. replace (c =? 0) with false by lia.
    split; [reflexivity|]. split; [reflexivity|]. unfold plane_reals. cbn. close2.
Qed.

(** ** Vertex lists *)

Section Mixed.
Variables (pd rd : ascii).
Hypothesis D : delims pd rd.

(** Reals each followed by either delimiter. *)
Inductive rtext : list (Q * ascii) -> str -> Prop :=
| rt_nil : rtext [] []
| rt_cons : forall q b t d l s, blanks b -> real_numeral t q -> in_double_range q = true -> d = pd \/ d = rd ->
    rtext l s -> rtext ((q, d) :: l) (b ++ t ++ d :: s).

Lemma rtext_app a s : rtext a s -> forall b t, rtext b t -> rtext (a ++ b) (s ++ t).
Proof.
  induction 1; intros c t' H'; [exact H'|]. cbn [app]. rewrite <- !app_assoc. cbn [app]. constructor; auto.
Qed.

Lemma rtext_blanks a s w : blanks w -> rtext a s -> a <> [] -> rtext a (w ++ s).
Proof.
  intros B R NE. destruct R as [|q b t d l s B1 T I Hd R]; [congruence|]. rewrite app_assoc. constructor; auto.
  apply Forall_app. auto.
Qed.

Lemma rtext_no_nl a s : rtext a s -> ~ In nl s.
Proof using D.
  induction 1; intros J; [exact J|]. destruct D as (D1 & D2 & _).
  apply in_app_or in J. destruct J as [J|J]; [exact (blanks_no_nl _ H J)|].
  apply in_app_or in J. destruct J as [J|[J|J]]; [| |auto].
  - destruct (real_chars _ _ _ H0 J) as [E|E]; [apply (isdig_not_nl _ E); reflexivity|].
    repeat (destruct E as [E|E]; [discriminate|]). discriminate.
  - destruct H2 as [->| ->]; [apply (delim_not_nl _ D1 J)|apply (delim_not_nl _ D2 J)].
Qed.

Definition wact (u : Q) (a : Q * ascii) : act := WReal (fst a) (snd a) u.
Definition wread (u : Q) (a b : Q * ascii) : Prop := real_close u (fst a) (fst b) /\ snd a = snd b.

Lemma emit_mixed de u : 1 <= de <= 9999999 -> (0 < u)%Q -> forall l st, Forall (fun a => real300 (fst a) /\ (snd a = pd \/ snd a = rd)) l ->
  1 <= l_idx st -> l_idx st + 2 * Z.of_nat (length l) <= 9999999 -> (length (l_cur st) <= 64)%nat ->
  exists st' m s tl, emit de pd rd (map (wact u) l) st = Ret true st' /\ ext (pd_line de) st st' (s ++ tl) /\ rtext m s /\
    Forall2 (wread u) l m /\ blanks tl /\ (length tl < 64)%nat /\ (length (l_cur st') <= 64)%nat /\
    l_idx st <= l_idx st' <= l_idx st + 2 * Z.of_nat (length l) /\
    (forall l' q, l = l' ++ [(q, rd)] -> l_cur st' = []).
Proof using D.
  intros Hde U. induction l as [|a l IH] using rev_ind; intros st F Hi B Hc.
  - exists st, [], [], []. split; [reflexivity|]. split; [apply ext_refl|]. split; [constructor|]. split; [constructor|].
    split; [constructor|]. cbn. split; [lia|]. split; [exact Hc|]. split; [lia|]. intros l' q E. destruct l'; discriminate.
  - apply Forall_app in F. destruct F as [F FA]. inversion FA as [|? ? [RA DA] _]; subst. rewrite app_length in B. cbn [length] in B.
    destruct (IH st F Hi ltac:(lia) Hc) as (st1 & m & s & tl & E & X & RT & W & BT & LT & LC & I & _).
    destruct a as [q d]. cbn [fst snd] in *.
    destruct (FormatPDREal_some q d u U) as (t & FT).
    destruct (FormatPDREal_wrote _ _ _ _ FT RA) as (t0 & q' & ET & RN & (CL & DR) & L40).
    destruct (AddPDItem_ok t st1 de rd Hde ltac:(lia) ltac:(rewrite ET; destruct t0; discriminate) ltac:(lia) LC) as (st2 & A & I2).
    pose proof (AddPDItem_idx _ _ _ _ _ A) as I3.
    assert (X9 : l_idx st2 <= 10000000) by lia.
    destruct (AddPDItem_ext t st1 de rd st2 Hde ltac:(lia) X9 A) as (p & t1 & c & tl2 & ET2 & EX & BP & _ & BT2 & CR & _ & L1 & L2).
    assert (Ec : t1 = t0 /\ c = d) by (rewrite ET in ET2; apply app_inj_tail in ET2; destruct ET2; auto).
    destruct Ec as [-> ->].
    exists st2, (m ++ [(q', d)]), (s ++ (tl ++ p) ++ t0 ++ [d]), tl2.
    rewrite map_app, emit_app, E. cbn [map emit wact fst snd]. rewrite FT, A. split; [reflexivity|].
    split. { pose proof (ext_trans _ _ _ _ _ _ X EX) as X2. rewrite ET in X2. 
             replace ((s ++ (tl ++ p) ++ t0 ++ [d]) ++ tl2) with ((s ++ tl) ++ p ++ (t0 ++ [d]) ++ tl2) by (rewrite <- !app_assoc; reflexivity). exact X2. }
    split. { apply rtext_app; [exact RT|]. constructor; auto; [apply Forall_app; auto|constructor]. }
    split. { apply Forall2_app; [exact W|]. constructor; [split; [exact CL|reflexivity]|constructor]. }
    split; [exact BT2|]. split; [exact L2|]. split; [exact L1|]. rewrite app_length. cbn [length]. split; [lia|].
    intros l' q2 E2. apply app_inj_tail in E2. destruct E2 as [_ E2]. apply pair_inj in E2. destruct E2 as [_ ->]. auto.
Qed.

(** Reading points from such a text. *)
Lemma parse_mixed u pts : forall l m s pre post e, rtext m s -> Forall2 (wread u) l m -> map fst l = flat_map pt_reals pts ->
  exists r e', parse_points (length pts) (pre ++ s ++ post) (length pre) e pd rd = POk (r, (length pre + length s)%nat, e') /\
    Forall2 (point_close u) pts r /\ ((e = true \/ In rd (map snd l)) -> e' = true).
Proof using D.
  assert (ST : forall v d l m s pre post e, rtext m s -> Forall2 (wread u) ((v, d) :: l) m ->
    exists q m' s' pre', ParseReal (pre ++ s ++ post) (length pre) e pd rd None = POk (q, length pre', eor_of d rd e) /\
      real_close u v q /\ rtext m' s' /\ Forall2 (wread u) l m' /\ pre ++ s ++ post = pre' ++ s' ++ post /\
      (length pre + length s = length pre' + length s')%nat).
  { intros v d l m s pre post e R W. inversion W as [|? b ? m' [CL Ed] W']; subst. inversion R as [|q b0 t d0 m2 s' B T I Hd R']; subst.
    cbn [fst snd] in *. subst d0.
    destruct (ParseReal_item pre b0 t q d (s' ++ post) e pd rd None D B T I Hd) as (q' & Eq & P).
    exists q', m', s', (pre ++ b0 ++ t ++ [d]).
    assert (EQ : pre ++ (b0 ++ t ++ d :: s') ++ post = (pre ++ b0 ++ t ++ [d]) ++ s' ++ post) by (rewrite <- !app_assoc; reflexivity).
    split. { replace (pre ++ (b0 ++ t ++ d :: s') ++ post) with (pre ++ b0 ++ t ++ d :: s' ++ post) by (rewrite <- !app_assoc; reflexivity).
             rewrite P. do 3 f_equal. repeat (rewrite app_length; cbn [length]). lia. }
    split; [eapply close_wd; [symmetry; exact Eq|exact CL]|]. split; [exact R'|]. split; [exact W'|]. split; [exact EQ|].
    repeat (rewrite app_length; cbn [length]). lia. }
  induction pts as [|[[x y] z] pts IH]; intros l m s pre post e R W E.
  - cbn in E. destruct l; [|discriminate]. inversion W; subst. inversion R; subst. exists [], e. cbn [parse_points length app].
    rewrite Nat.add_0_r. split; [reflexivity|]. split; [constructor|]. intros [H|[]]; exact H.
  - cbn [flat_map pt_reals app] in E. destruct l as [|[v1 d1] [|[v2 d2] [|[v3 d3] l]]]; try discriminate.
    cbn [map fst] in E. injection E as -> -> -> E. cbn [length parse_points].
    destruct (ST x d1 _ m s pre post e R W) as (q1 & m1 & s1 & pre1 & P1 & C1 & R1 & W1 & E1 & N1). rewrite P1. cbn [pbind]. rewrite E1.
    destruct (ST y d2 _ m1 s1 pre1 post (eor_of d1 rd e) R1 W1) as (q2 & m2 & s2 & pre2 & P2 & C2 & R2 & W2 & E2 & N2). rewrite P2. cbn [pbind]. rewrite E2.
    destruct (ST z d3 _ m2 s2 pre2 post (eor_of d2 rd (eor_of d1 rd e)) R2 W2) as (q3 & m3 & s3 & pre3 & P3 & C3 & R3 & W3 & E3 & N3). rewrite P3. cbn [pbind]. rewrite E3.
    destruct (IH l m3 s3 pre3 post (eor_of d3 rd (eor_of d2 rd (eor_of d1 rd e))) R3 W3 E) as (r & e' & P & F & EO). rewrite P. cbn [pbind].
    exists ((q1, q2, q3) :: r), e'. split; [do 3 f_equal; lia|]. split; [constructor; [cbn; auto|exact F]|].
    intros H. apply EO. unfold eor_of. cbn [map snd In] in H.
    repeat match goal with |- context [Ascii.eqb ?a rd] => destruct (Ascii.eqb_spec a rd) end; auto; [].
    destruct H as [H|[H|[H|[H|H]]]]; auto; congruence.
Qed.

End Mixed.

(** What [vertex_acts] writes. *)
Fixpoint vertex_list (l : list point) (pd fd : ascii) : list (Q * ascii) :=
  match l with
  | [] => []
  | [(x, y, z)] => [(x, fd); (y, fd); (z, fd)]
  | (x, y, z) :: r => (x, pd) :: (y, pd) :: (z, pd) :: vertex_list r pd fd
  end.

Lemma vertex_acts_list u l pd fd : vertex_acts u l pd fd = map (wact u) (vertex_list l pd fd).
Proof.
  induction l as [|[[x y] z] l IH]; [reflexivity|]. cbn [vertex_acts vertex_list]. destruct l; [reflexivity|].
  cbn [map]. rewrite IH. reflexivity.
Qed.

Lemma vertex_fst l pd fd : map fst (vertex_list l pd fd) = flat_map pt_reals l.
Proof.
  induction l as [|[[x y] z] l IH]; [reflexivity|]. cbn [vertex_list flat_map pt_reals app]. destruct l; [reflexivity|].
  cbn [map fst]. rewrite IH. reflexivity.
Qed.

Lemma vertex_last l pd rd : l <> [] -> exists m q, vertex_list l pd rd = m ++ [(q, rd)].
Proof.
  induction l as [|[[x y] z] l IH]; intros NE; [congruence|]. cbn [vertex_list]. destruct l as [|p l].
  - exists [(x, rd); (y, rd)], z. reflexivity.
  - destruct (IH ltac:(discriminate)) as (m & q & E). rewrite E. exists ((x, pd) :: (y, pd) :: (z, pd) :: m), q. reflexivity.
Qed.

Lemma vertex_snd l pd fd : Forall (fun a => snd a = pd \/ snd a = fd) (vertex_list l pd fd).
Proof.
  induction l as [|[[x y] z] l IH]; [constructor|]. cbn [vertex_list]. destruct l; repeat (constructor; [cbn; auto|]); [constructor|exact IH].
Qed.

Lemma vertex_open u l pd : vertex_acts u l pd pd = reals_acts u (flat_map pt_reals l) pd pd.
Proof.
  induction l as [|[[x y] z] l IH]; [reflexivity|]. cbn [vertex_acts flat_map pt_reals app]. destruct l as [|[[x' y'] z'] l]; [reflexivity|].
  rewrite IH. reflexivity.
Qed.

Lemma round502 v extras k seq pd rd u : settings_ok pd rd seq k extras -> (0 < u)%Q -> v <> [] ->
  Forall real300 (flat_map pt_reals v) -> room k (3 * Z.of_nat (length v)) 0 extras ->
  round_trip (format502 v extras [] k seq pd rd u) (fun n f => readPD502 seq k n pd rd f)
    seq k (extras_ptrs extras) (fun v' => Forall2 (point_close u) v v').
Proof.
  intros S U NE FR RM. pose proof S as (D & Hs & Hk & EO). unfold format502, readPD502.
  assert (LL : 1 <= Z.of_nat (length v) <= 9999999).
  { unfold room in RM. destruct v; [congruence|]. cbn [length] in *. lia. }
  replace ((k <? 1) || (9999999 <? k)) with false by (unfold room in RM; lia).
  assert (LF : length (flat_map pt_reals v) = (3 * length v)%nat).
  { clear. induction v as [|[[x y] z] v IH]; [reflexivity|]. cbn [flat_map pt_reals app length]. rewrite IH. lia. }
  assert (LI : (length (showZ 502 ++ pd :: showZ (Z.of_nat (length v)) ++ [pd]) <= 64)%nat).
  { lens. pose proof (showZ_type_len 502 ltac:(lia)). pose proof (showZ_ptr_len (Z.of_nat (length v)) ltac:(lia)). lia. }
  destruct v as [|p0 v0]; [congruence|]. remember (p0 :: v0) as v eqn:Ev. clear Ev p0 v0.
  destruct extras as [|e0 ex0].
  - cbn [fdel]. rewrite vertex_acts_list. set (l := vertex_list v pd rd).
    assert (FL : Forall (fun a => real300 (fst a) /\ (snd a = pd \/ snd a = rd)) l).
    { pose proof (vertex_snd v pd rd) as VS. fold l in VS. rewrite <- (vertex_fst v pd rd) in FR. fold l in FR.
      rewrite Forall_map in FR. rewrite Forall_forall in *. intros a I. split; [apply FR, I|apply VS, I]. }
    assert (LN : length l = (3 * length v)%nat) by (rewrite <- LF, <- (vertex_fst v pd rd), map_length; reflexivity).
    destruct (emit_mixed pd rd D seq u Hs U l (mkLst (showZ 502 ++ pd :: showZ (Z.of_nat (length v)) ++ [pd]) [] k) FL Hk)
      as (st & m & s & tl & E & (ds & out & N & O & I & CC) & RT & W & BT & LT & LC & II & CE); [cbn [l_idx]; unfold room in RM; lia|exact LI|].
    destruct (vertex_last v pd rd NE) as (l' & q & EL). specialize (CE l' q EL). rewrite CE, app_nil_r in CC.
    cbn [l_cur l_out l_idx app] in *. pose proof (numbered_len_pd _ _ _ _ N) as [LO LCc].
    exists (mkPd (l_out st) (l_idx st) (l_idx st - k)), ds.
    split. { unfold format_frame. replace ((k <? 1) || (9999999 <? k)) with false by (unfold room in RM; lia). rewrite E.
             unfold formatComments. rewrite O, LO, mod81. reflexivity. }
    cbn [p_out p_count p_next]. rewrite O, I. split; [exact N|].
    split. { intros ->. cbn in CC. destruct (showZ 502); discriminate. }
    split; [lia|]. split; [lia|].
    assert (CD : concat ds = (showZ 502 ++ pd :: showZ (Z.of_nat (length v)) ++ [pd]) ++ s ++ tl) by exact CC.
    set (pre := showZ 502 ++ pd :: showZ (Z.of_nat (length v)) ++ [pd]) in *.
    destruct (parse_mixed pd rd D u v l m s pre tl false RT W (vertex_fst v pd rd)) as (r & e' & P & PC & EOR).
    assert (e' = true).
    { apply EOR. right. fold l in EL. rewrite EL, map_app. apply in_or_app. right. left. reflexivity. }
    subst e'. exists r. split; [exact PC|]. intros rest.
    replace (k + Z.of_nat (length ds) - k) with (Z.of_nat (length ds)) by lia. unfold readPD_frame.
    assert (CD2 : concat ds = showZ 502 ++ pd :: (showZ (Z.of_nat (length v)) ++ [pd]) ++ s ++ tl).
    { rewrite CD. unfold pre. rewrite <- !app_assoc. cbn [app]. rewrite <- !app_assoc. reflexivity. }
    assert (NB : ~ In nl ((showZ (Z.of_nat (length v)) ++ [pd]) ++ s ++ tl)).
    { intros J. apply in_app_or in J. destruct J as [J|J].
      - eapply (no_nl_init pd rd (Z.of_nat (length v)) []); eauto.
      - apply in_app_or in J. destruct J as [J|J]; [eapply rtext_no_nl; eauto|exact (blanks_no_nl _ BT J)]. }
    rewrite (read_lines 502 seq k pd rd ds out _ ltac:(lia) Hk D NB N CD2 ltac:(rewrite I in II; unfold room in RM; lia) rest). cbn [pbind].
    rewrite find_char_mid by (apply signed_no_delim with (n := 502); [apply D|apply showZ_signed]).
    change (length (showZ 502)) with 3%nat. cbn [Nat.ltb Nat.leb orb].
    rewrite <- CD2, CD. unfold parse502.
    assert (P0 : ParseInt (pre ++ s ++ tl) 4 false pd rd None = POk (Z.of_nat (length v), length pre, false)).
    { replace (pre ++ s ++ tl) with ((showZ 502 ++ [pd]) ++ [] ++ showZ (Z.of_nat (length v)) ++ pd :: s ++ tl).
      2: { unfold pre. rewrite <- !app_assoc. cbn [app]. rewrite <- !app_assoc. reflexivity. }
      change 4%nat with (length (showZ 502 ++ [pd])).
      rewrite (ParseInt_item (showZ 502 ++ [pd]) [] (showZ (Z.of_nat (length v))) (Z.of_nat (length v)) pd (s ++ tl) false pd rd None D
        ltac:(constructor) (showZ_signed _) (or_introl eq_refl) ltac:(lia)).
      unfold eor_of. destruct (Ascii.eqb_spec pd rd) as [E'|_]; [destruct D as (_ & _ & N'); congruence|].
      do 3 f_equal. unfold pre. repeat (rewrite app_length; cbn [length]). lia. }
    unfold parse_int_if. rewrite P0. cbn [pbind]. unfold guard. replace (1 <=? Z.of_nat (length v)) with true by lia. cbn [pbind].
    rewrite Nat2Z.id, P. cbn [pbind].
    rewrite (readComments_none (pre ++ s ++ tl) _ (length tl)); [reflexivity| | |exact LT].
    + rewrite <- CD, LCc. rewrite Nat.mul_comm. apply Nat.mod_mul. discriminate.
    + rewrite !app_length. lia.
  - cbn [fdel]. rewrite vertex_open.
    apply (frame_round 502 seq k pd rd _ [PInt (Z.of_nat (length v))] (fun d => reals_acts u (flat_map pt_reals v) pd d)
      (uni u (map PReal (flat_map pt_reals v))) (e0 :: ex0)); auto; try lia.
    + hdr.
    + apply opens_reals; auto.
    + apply closes_reals; auto. destruct v as [|[[x y] z] v]; [congruence|discriminate].
    + rewrite ucosts_uni, costs_reals, LF. unfold room in RM. lia.
    + apply Forall_app. split; [repeat constructor|apply no_nl_reals].
    + intros ps' W data n idx ex C. apply uwrote_reals in W. cbn [app] in C. unfold parse502. int_step C. rewrite Nat2Z.id.
      destruct (st_points pd rd data n u v D ps' _ _ _ C W) as (r & i2 & e2 & P & Q & C2). exists r, i2, e2. auto.
Qed.
