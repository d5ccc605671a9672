(** Parameter Data records: what the [format] frame writes, the [readPD] frame
    reads back. *)

From Coq Require Import Lia ZifyBool ZifyNat ZifyN QArith Qabs.
From Verif Require Import Base Num Spec NumFacts IoModel FieldFacts LineFacts TokenFacts RealFacts RecordFacts
  ParamFacts PutModel BuildFacts StreamFacts PdModel.
Open Scope Z_scope.

Ltac Zify.zify_post_hook ::= Z.div_mod_to_equations.

(** ** Lines *)

Lemma numbered_len_pd de k ds out : numbered (pd_line de) k ds out ->
  length out = (81 * length ds)%nat /\ length (concat ds) = (64 * length ds)%nat.
Proof.
  induction 1 as [|k d ds l rest (L & c1 & c2 & -> & [L1 _] & [L2 _]) N [I1 I2]]; [split; reflexivity|].
  split.
  - repeat (rewrite !app_length; cbn [length]). lia.
  - cbn [concat]. rewrite app_length. cbn [length]. lia.
Qed.

Lemma pd_lines_read etype seq pd rd k ds out : numbered (pd_line seq) k ds out ->
  1 <= k -> ~ In nl (concat ds) -> forall rest first,
  (first = true -> ds <> [] /\
     forall d ds', ds = d :: ds' -> forall c, exists i, ParseInt (d ++ c) 0 false pd rd None = POk (etype, i, false)) ->
  pd_lines (length ds) first etype seq k pd rd (mkStream (out ++ rest) false) =
    POk (concat ds, mkStream rest false).
Proof.
  induction 1 as [k|k d ds l out P N IH]; intros K NN rest first F.
  - destruct first; [destruct F; [reflexivity|congruence]|reflexivity].
  - cbn [length pd_lines concat]. cbn [concat] in NN.
    assert (N1 : ~ In nl d) by (intros I; apply NN, in_or_app; auto).
    assert (N2 : ~ In nl (concat ds)) by (intros I; apply NN, in_or_app; auto).
    rewrite <- app_assoc.
    destruct (pd_line_read _ _ _ _ (out ++ rest) P K N1) as (rec & R & S1 & S2 & S3 & S4 & S5 & c & S6).
    rewrite R. cbn [pbind]. unfold guard. rewrite S1, S2, S3, S4, Z.eqb_refl. cbn [Ascii.eqb pbind].
    rewrite !Ascii.eqb_refl, Z.eqb_refl, S5.
    assert (HF : (if first then
       do (t, _, eor) <- ParseInt (r_data rec) 0 false pd rd None;
       if t =? etype then if negb eor then POk tt else PFail else PFail else POk tt) = POk tt).
    { destruct first; [|reflexivity]. destruct (F eq_refl) as [_ G]. destruct (G d ds eq_refl c) as (i & E).
      rewrite S6, E. cbn [pbind negb]. rewrite Z.eqb_refl. reflexivity. }
    rewrite HF. cbn [pbind].
    rewrite (IH ltac:(lia) N2 rest false) by discriminate. reflexivity.
Qed.

(** ** Steps of [format] methods *)

Lemma emit_app de pd rd a : forall b st,
  emit de pd rd (a ++ b) st =
    match emit de pd rd a st with Ret true st' => emit de pd rd b st' | o => o end.
Proof.
  induction a as [|x a IH]; intros b st; [reflexivity|]. destruct x; cbn [app emit].
  - destruct (AddPDItem _ _ _ _); [reflexivity|apply IH].
  - destruct (FormatPDREal _ _ _); [|reflexivity]. destruct (AddPDItem _ _ _ _); [reflexivity|apply IH].
  - destruct (AddPDHStr _ _ _ _ _ _) as [|[|] s']; try reflexivity. apply IH.
Qed.

Definition costs (ps : list param) : Z := fold_right (fun p a => cost p + a) 0 ps.

Lemma costs_cons p ps : costs (p :: ps) = cost p + costs ps.
Proof. reflexivity. Qed.

Lemma costs_app a b : costs (a ++ b) = costs a + costs b.
Proof. induction a as [|p a IH]; cbn [app costs fold_right]; [reflexivity|]. unfold costs in *. rewrite IH. lia. Qed.

Lemma costs_nonneg a : 0 <= costs a.
Proof. induction a as [|p a IH]; cbn; [lia|]. pose proof (cost_pos p). unfold costs in IH. lia. Qed.

(** Parameters with the resolution at which they are written. *)
Definition ucosts (ups : list (Q * param)) : Z := costs (map snd ups).
Definition uwrote (u : Q * param) (p : param) : Prop := wrote (fst u) (snd u) p.
Definition uni (u : Q) (ps : list param) : list (Q * param) := map (pair u) ps.

Lemma ucosts_app a b : ucosts (a ++ b) = ucosts a + ucosts b.
Proof. unfold ucosts. rewrite map_app. apply costs_app. Qed.
Lemma ucosts_nonneg a : 0 <= ucosts a.
Proof. apply costs_nonneg. Qed.
Lemma ucosts_uni u ps : ucosts (uni u ps) = costs ps.
Proof. unfold ucosts, uni. rewrite map_map. cbn. rewrite map_id. reflexivity. Qed.

Lemma uwrote_uni u ps ps' : Forall2 uwrote (uni u ps) ps' <-> Forall2 (wrote u) ps ps'.
Proof.
  split.
  - revert ps'. induction ps as [|p ps IH]; intros ps' H; inversion H; subst; constructor; auto.
  - induction 1; constructor; auto.
Qed.

Definition ptr_params (l : list Z) : list param := map PInt l.

Section Emit.
Variables (pd rd : ascii).
Hypothesis (D : delims pd rd).

(** The steps [acts] append the parameters [ups], each followed by the parameter
    delimiter. *)
Definition opens (acts : list act) (ups : list (Q * param)) : Prop :=
  forall de st, 1 <= de <= 9999999 -> 1 <= l_idx st -> l_idx st + ucosts ups <= 9999999 ->
  (length (l_cur st) <= 64)%nat ->
  exists st' ps' body, emit de pd rd acts st = Ret true st' /\ Forall2 uwrote ups ps' /\
    ext (pd_line de) st st' body /\ spaced_open pd ps' body /\ (length (l_cur st') <= 64)%nat /\
    1 <= l_idx st' <= l_idx st + ucosts ups.

(** The same where the last parameter is followed by the record delimiter, after
    which the line is filled with blanks. *)
Definition closes (acts : list act) (ups : list (Q * param)) : Prop :=
  forall de st, 1 <= de <= 9999999 -> 1 <= l_idx st -> l_idx st + ucosts ups <= 9999999 ->
  (length (l_cur st) <= 64)%nat ->
  exists st' ps' body tl, emit de pd rd acts st = Ret true st' /\ Forall2 uwrote ups ps' /\
    ext (pd_line de) st st' (body ++ tl) /\ spaced pd rd ps' body /\ blanks tl /\ (length tl < 64)%nat /\
    l_cur st' = [] /\ 1 <= l_idx st' <= l_idx st + ucosts ups.

Lemma opens_nil : opens [] [].
Proof using.
  intros de st _ Hi Hk Hc. exists st, [], []. cbn. split; [reflexivity|]. split; [constructor|].
  split; [apply ext_refl|]. split; [constructor|]. unfold ucosts in *. cbn in *. lia.
Qed.

Lemma opens_app a1 u1 a2 u2 : opens a1 u1 -> opens a2 u2 -> opens (a1 ++ a2) (u1 ++ u2).
Proof using.
  intros O1 O2 de st Hd Hi Hk Hc. rewrite ucosts_app in *. pose proof (ucosts_nonneg u2). pose proof (ucosts_nonneg u1).
  destruct (O1 de st Hd Hi ltac:(lia) Hc) as (st1 & p1 & b1 & E1 & W1 & X1 & S1 & C1 & I1).
  destruct (O2 de st1 Hd ltac:(lia) ltac:(lia) C1) as (st2 & p2 & b2 & E2 & W2 & X2 & S2 & C2 & I2).
  exists st2, (p1 ++ p2), (b1 ++ b2). rewrite emit_app, E1. split; [exact E2|].
  split; [apply Forall2_app; assumption|]. split; [eapply ext_trans; eassumption|].
  split; [|split; [exact C2|lia]].
  clear - S1 S2. induction S1; [exact S2|]. cbn [app]. rewrite <- !app_assoc. cbn [app]. constructor; auto.
Qed.

Lemma closes_app a1 u1 a2 u2 : opens a1 u1 -> closes a2 u2 -> closes (a1 ++ a2) (u1 ++ u2).
Proof using.
  intros O1 O2 de st Hd Hi Hk Hc. rewrite ucosts_app in *. pose proof (ucosts_nonneg u2). pose proof (ucosts_nonneg u1).
  destruct (O1 de st Hd Hi ltac:(lia) Hc) as (st1 & p1 & b1 & E1 & W1 & X1 & S1 & C1 & I1).
  destruct (O2 de st1 Hd ltac:(lia) ltac:(lia) C1) as (st2 & p2 & b2 & tl & E2 & W2 & X2 & S2 & B2 & L2 & C2 & I2).
  exists st2, (p1 ++ p2), (b1 ++ b2), tl. rewrite emit_app, E1. split; [exact E2|].
  split; [apply Forall2_app; assumption|]. split; [rewrite <- app_assoc; eapply ext_trans; eassumption|].
  split; [apply spaced_open_app; assumption|]. split; [exact B2|]. split; [exact L2|]. split; [exact C2|lia].
Qed.

(** One parameter written by [pd_put]. *)
Lemma opens_put a u p : (0 < u)%Q -> param_ok p ->
  (forall de st st', pd_put u p st de pd rd pd = Ret true st' -> emit de pd rd [a] st = Ret true st') ->
  opens [a] [(u, p)].
Proof using D.
  intros Hu Op E de st Hde Hi Hk Hc. unfold ucosts in *. cbn [map snd costs fold_right] in *. rewrite Z.add_0_r in *.
  destruct (pd_put_ok u p st de pd rd pd Hu Hde Hi ltac:(lia) Op Hc (or_introl eq_refl)) as (st1 & P & B).
  pose proof (pd_put_idx _ _ _ _ _ _ _ _ P) as B1.
  assert (X1 : l_idx st1 <= 10000000) by lia.
  destruct (pd_put_ext _ _ _ _ _ _ _ _ Hde Hi X1 Hc (param_ok_len _ Op) P)
    as (p' & b & t & tl & EX & W & T & BL & Z & _ & _ & C2 & C3 & _).
  assert (Npr : pd <> rd) by apply D. rewrite (C2 Npr) in EX.
  exists st1, [p'], (b ++ t ++ [pd]). split; [apply E, P|]. split; [repeat constructor; exact W|]. split; [exact EX|].
  split; [|split; [exact C3|lia]]. constructor; auto. constructor.
Qed.

Lemma closes_put a u p : (0 < u)%Q -> param_ok p ->
  (forall de st st', pd_put u p st de pd rd rd = Ret true st' -> emit de pd rd [a] st = Ret true st') ->
  closes [a] [(u, p)].
Proof using D.
  intros Hu Op E de st Hde Hi Hk Hc. unfold ucosts in *. cbn [map snd costs fold_right] in *. rewrite Z.add_0_r in *.
  destruct (pd_put_ok u p st de pd rd rd Hu Hde Hi ltac:(lia) Op Hc (or_intror eq_refl)) as (st1 & P & B).
  pose proof (pd_put_idx _ _ _ _ _ _ _ _ P) as B1.
  assert (X1 : l_idx st1 <= 10000000) by lia.
  destruct (pd_put_ext _ _ _ _ _ _ _ _ Hde Hi X1 Hc (param_ok_len _ Op) P)
    as (p' & b & t & tl & EX & W & T & BL & Z & TB & C1 & _ & _ & C4).
  exists st1, [p'], (b ++ t ++ [rd]), tl. split; [apply E, P|]. split; [repeat constructor; exact W|].
  split; [rewrite <- !app_assoc; exact EX|].
  split; [constructor; auto|]. split; [exact TB|]. split; [exact C4|]. split; [apply C1; reflexivity|lia].
Qed.

Lemma opens_int u n : (0 < u)%Q -> -2147483648 <= n <= 2147483647 -> opens [WInt n pd] [(u, PInt n)].
Proof using D. intros Hu R. apply opens_put; auto. intros de st st' P. cbn [pd_put] in P. unfold WInt. cbn [emit]. rewrite P. reflexivity. Qed.
Lemma closes_int u n : (0 < u)%Q -> -2147483648 <= n <= 2147483647 -> closes [WInt n rd] [(u, PInt n)].
Proof using D. intros Hu R. apply closes_put; auto. intros de st st' P. cbn [pd_put] in P. unfold WInt. cbn [emit]. rewrite P. reflexivity. Qed.
Lemma opens_none u : (0 < u)%Q -> opens [WItem [pd]] [(u, PStr [])].
Proof using D.
  intros Hu. apply opens_put; auto; [cbn; unfold int_max; lia|].
  intros de st st' P. cbn [pd_put] in P. unfold AddPDHStr in P. cbn [emit]. rewrite P. reflexivity.
Qed.
Lemma opens_text u s : (0 < u)%Q -> Z.of_nat (length s) <= int_max -> opens [WText s pd] [(u, PStr s)].
Proof using D. intros Hu R. apply opens_put; auto. intros de st st' P. cbn [pd_put] in P. cbn [emit]. rewrite P. reflexivity. Qed.
Lemma closes_text u s : (0 < u)%Q -> Z.of_nat (length s) <= int_max -> closes [WText s rd] [(u, PStr s)].
Proof using D. intros Hu R. apply closes_put; auto. intros de st st' P. cbn [pd_put] in P. cbn [emit]. rewrite P. reflexivity. Qed.
Lemma opens_real u q : (0 < u)%Q -> (Qabs q <= T 300)%Q -> opens [WReal q pd u] [(u, PReal q)].
Proof using D.
  intros Hu R. apply opens_put; auto. intros de st st' P. cbn [pd_put] in P. cbn [emit].
  destruct (FormatPDREal q pd u); [|discriminate]. rewrite P. reflexivity.
Qed.
Lemma closes_real u q : (0 < u)%Q -> (Qabs q <= T 300)%Q -> closes [WReal q rd u] [(u, PReal q)].
Proof using D.
  intros Hu R. apply closes_put; auto. intros de st st' P. cbn [pd_put] in P. cbn [emit].
  destruct (FormatPDREal q rd u); [|discriminate]. rewrite P. reflexivity.
Qed.

Definition is_int32 (n : Z) : Prop := -2147483648 <= n <= 2147483647.
Definition real300 (q : Q) : Prop := (Qabs q <= T 300)%Q.

Lemma opens_cons a u acts us : opens [a] [u] -> opens acts us -> opens (a :: acts) (u :: us).
Proof using. apply (opens_app [a] [u]). Qed.
Lemma closes_cons a u acts us : opens [a] [u] -> closes acts us -> closes (a :: acts) (u :: us).
Proof using. apply (closes_app [a] [u]). Qed.

Lemma opens_ints u l : (0 < u)%Q -> Forall is_int32 l -> opens (ints_acts l pd pd) (uni u (ptr_params l)).
Proof using D.
  intros Hu. induction 1 as [|n l R F IH]; [apply opens_nil|]. cbn [ints_acts ptr_params map uni].
  replace (match l with [] => [WInt n pd] | _ :: _ => WInt n pd :: ints_acts l pd pd end)
    with (WInt n pd :: ints_acts l pd pd) by (destruct l; reflexivity).
  apply opens_cons; [apply opens_int; auto|exact IH].
Qed.
Lemma closes_ints u l : (0 < u)%Q -> l <> [] -> Forall is_int32 l -> closes (ints_acts l pd rd) (uni u (ptr_params l)).
Proof using D.
  intros Hu N. induction 1 as [|n l R F IH]; [congruence|]. cbn [ints_acts ptr_params map uni].
  destruct l as [|m l]; [apply closes_int; auto|]. apply closes_cons; [apply opens_int; auto|apply IH; discriminate].
Qed.
Lemma opens_reals u l : (0 < u)%Q -> Forall real300 l -> opens (reals_acts u l pd pd) (uni u (map PReal l)).
Proof using D.
  intros Hu. induction 1 as [|n l R F IH]; [apply opens_nil|]. cbn [reals_acts map uni].
  replace (match l with [] => [WReal n pd u] | _ :: _ => WReal n pd u :: reals_acts u l pd pd end)
    with (WReal n pd u :: reals_acts u l pd pd) by (destruct l; reflexivity).
  apply opens_cons; [apply opens_real; auto|exact IH].
Qed.
Lemma closes_reals u l : (0 < u)%Q -> l <> [] -> Forall real300 l -> closes (reals_acts u l pd rd) (uni u (map PReal l)).
Proof using D.
  intros Hu N. induction 1 as [|n l R F IH]; [congruence|]. cbn [reals_acts map uni].
  destruct l as [|m l]; [apply closes_real; auto|]. apply closes_cons; [apply opens_real; auto|apply IH; discriminate].
Qed.

(** The parameters which stand for the optional pointers. *)
Definition extras_params (extras : list (Z * Z)) : list param :=
  let a := map snd (filter is_secA extras) in
  let b := map snd (filter is_secB extras) in
  match a, b with
  | [], _ => PStr [] :: PInt (Z.of_nat (length b)) :: ptr_params b
  | _, [] => PInt (Z.of_nat (length a)) :: ptr_params a
  | _, _ => PInt (Z.of_nat (length a)) :: ptr_params a ++ PInt (Z.of_nat (length b)) :: ptr_params b
  end.

Lemma closes_extras u extras : (0 < u)%Q -> extras <> [] ->
  Forall (fun e => is_secA e || is_secB e = true /\ is_int32 (snd e)) extras -> Z.of_nat (length extras) <= 2147483647 ->
  closes (extras_acts extras pd rd) (uni u (extras_params extras)).
Proof using D.
  intros Hu N F L. unfold extras_acts, extras_params.
  assert (NE : map snd (filter is_secA extras) <> [] \/ map snd (filter is_secB extras) <> []).
  { destruct extras as [|e r]; [congruence|]. inversion F as [|? ? [H _] _]; subst. cbn [filter].
    destruct (is_secA e); [left; discriminate|]. cbn in H. rewrite H. right; discriminate. }
  assert (R : forall g, Forall is_int32 (map snd (filter g extras)) /\ is_int32 (Z.of_nat (length (map snd (filter g extras))))).
  { intros g. split.
    - apply Forall_map, Forall_forall. intros e I. apply filter_In in I. rewrite Forall_forall in F. apply F, I.
    - rewrite map_length. unfold is_int32.
      assert (length (filter g extras) <= length extras)%nat by (clear; induction extras as [|x l IH]; cbn; [lia|]; destruct (g x); cbn; lia).
      lia. }
  destruct (R is_secA) as [RA LA]. destruct (R is_secB) as [RB LB].
  set (a := map snd (filter is_secA extras)) in *. set (b := map snd (filter is_secB extras)) in *.
  clearbody a b. destruct a as [|a0 a].
  - destruct NE as [NE|NE]; [congruence|].
    apply closes_cons; [apply opens_none, Hu|]. apply closes_cons; [apply opens_int; auto|]. apply closes_ints; auto.
  - destruct b as [|b0 b].
    + apply closes_cons; [apply opens_int; auto|]. apply closes_ints; auto. discriminate.
    + unfold uni. cbn [map]. rewrite map_app. apply closes_cons; [apply opens_int; auto|]. apply closes_app; [apply opens_ints; auto|].
      cbn [map]. apply closes_cons; [apply opens_int; auto|]. apply closes_ints; auto. discriminate.
Qed.
End Emit.

(** ** Optional pointers *)

(** Optional entities an API user can have attached: admitted types, Directory
    Entry numbers as assigned by [Write]. *)
Definition extras_ok (extras : list (Z * Z)) : Prop :=
  Forall (fun e => is_secA e || is_secB e = true /\ extra_ok (snd e) = true) extras /\
  Z.of_nat (length extras) <= 2147483647.

(** The order in which they are read back: types 212, 312, 402 first. *)
Definition extras_ptrs (extras : list (Z * Z)) : list Z :=
  map snd (filter is_secA extras) ++ map snd (filter is_secB extras).

Lemma extra_ok_range v : extra_ok v = true -> 1 <= v <= 9999997 /\ Z.odd v = true.
Proof. unfold extra_ok. destruct (Z.odd v); lia. Qed.

Lemma parse_ints_cursor pd rd ok data n : delims pd rd -> forall l ps idx eor,
  cursor pd rd data n idx eor (ptr_params l ++ ps) ->
  Forall (fun v => ok v = true /\ -2147483648 <= v <= 2147483647) l ->
  exists idx' eor', parse_ints (length l) ok data idx eor pd rd = POk (l, idx', eor') /\ cursor pd rd data n idx' eor' ps.
Proof.
  intros D. induction l as [|v l IH]; intros ps idx eor C F.
  - exists idx, eor. split; [reflexivity|exact C].
  - inversion F as [|? ? [O R] F']; subst. cbn [ptr_params map app] in C. cbn [length parse_ints].
    destruct (step_int pd rd D data n idx eor v _ None C R) as (i & e & P & C').
    destruct (IH ps i e C' F') as (i2 & e2 & P2 & C2).
    exists i2, e2. rewrite P. cbn [pbind]. rewrite O. unfold guard. rewrite P2. split; [reflexivity|exact C2].
Qed.

Lemma filter_len {A} (g : A -> bool) l : (length (filter g l) <= length l)%nat.
Proof. induction l as [|x l IH]; cbn; [lia|]. destruct (g x); cbn; lia. Qed.

Lemma readExtraParams_ok pd rd data n idx extras : delims pd rd -> extras <> [] -> extras_ok extras ->
  cursor pd rd data n idx false (extras_params extras) ->
  exists idx', readExtraParams data idx pd rd = POk (extras_ptrs extras, idx') /\ (idx' + n = length data)%nat.
Proof.
  intros D N [F L] C. unfold extras_ptrs.
  assert (RA : Forall (fun v => extra_ok v = true /\ -2147483648 <= v <= 2147483647) (map snd (filter is_secA extras))).
  { apply Forall_map, Forall_forall. intros e I. apply filter_In in I. destruct I as [I _].
    rewrite Forall_forall in F. destruct (F e I) as [_ O]. split; [exact O|]. apply extra_ok_range in O. lia. }
  assert (RB : Forall (fun v => extra_ok v = true /\ -2147483648 <= v <= 2147483647) (map snd (filter is_secB extras))).
  { apply Forall_map, Forall_forall. intros e I. apply filter_In in I. destruct I as [I _].
    rewrite Forall_forall in F. destruct (F e I) as [_ O]. split; [exact O|]. apply extra_ok_range in O. lia. }
  assert (LA : Z.of_nat (length (map snd (filter is_secA extras))) <= 2147483647)
    by (rewrite map_length; pose proof (filter_len is_secA extras); lia).
  assert (LB : Z.of_nat (length (map snd (filter is_secB extras))) <= 2147483647)
    by (rewrite map_length; pose proof (filter_len is_secB extras); lia).
  assert (NE : map snd (filter is_secA extras) <> [] \/ map snd (filter is_secB extras) <> []).
  { destruct extras as [|e r]; [congruence|]. inversion F as [|? ? [H _] _]; subst. cbn [filter].
    destruct (is_secA e); [left; discriminate|]. cbn in H. rewrite H. right; discriminate. }
  unfold extras_params in C.
  set (a := map snd (filter is_secA extras)) in *. set (b := map snd (filter is_secB extras)) in *.
  clearbody a b. unfold readExtraParams. destruct a as [|a0 a].
  - destruct (step_default pd rd D data n idx false _ 0 C) as (i1 & e1 & P1 & C1). rewrite P1. cbn [pbind].
    change (0 <=? 0) with true. unfold guard. change (Z.to_nat 0) with 0%nat. cbn [parse_ints pbind].
    pose proof (cursor_open _ _ _ _ _ _ _ _ C1) as ->.
    destruct (step_int pd rd D data n i1 false _ _ (Some 0) C1 ltac:(lia)) as (i2 & e2 & P2 & C2).
    rewrite P2. cbn [pbind]. replace (0 <=? Z.of_nat (length b)) with true by lia.
    rewrite Nat2Z.id. rewrite <- (app_nil_r (ptr_params b)) in C2.
    destruct (parse_ints_cursor pd rd extra_ok data n D b [] i2 e2 C2 RB) as (i3 & e3 & P3 & C3).
    rewrite P3. cbn [pbind]. destruct (cursor_end _ _ _ _ _ _ C3) as [-> E]. exists i3. split; [reflexivity|exact E].
  - remember (a0 :: a) as A eqn:EA.
    assert (C' : cursor pd rd data n idx false (PInt (Z.of_nat (length A)) :: ptr_params A ++
              match b with [] => [] | _ => PInt (Z.of_nat (length b)) :: ptr_params b end)).
    { rewrite EA in *. destruct b; [rewrite app_nil_r|]; exact C. }
    destruct (step_int pd rd D data n idx false _ _ (Some 0) C' ltac:(lia)) as (i1 & e1 & P1 & C1).
    rewrite P1. cbn [pbind]. replace (0 <=? Z.of_nat (length A)) with true by lia. unfold guard.
    rewrite Nat2Z.id.
    destruct (parse_ints_cursor pd rd extra_ok data n D A _ i1 e1 C1 RA) as (i2 & e2 & P2 & C2).
    rewrite P2. cbn [pbind]. destruct b as [|b0 b].
    + destruct (cursor_end _ _ _ _ _ _ C2) as [-> E]. exists i2. rewrite app_nil_r. split; [reflexivity|exact E].
    + remember (b0 :: b) as B. pose proof (cursor_open _ _ _ _ _ _ _ _ C2) as ->.
      destruct (step_int pd rd D data n i2 false _ _ (Some 0) C2 ltac:(lia)) as (i3 & e3 & P3 & C3).
      rewrite P3. cbn [pbind]. replace (0 <=? Z.of_nat (length B)) with true by lia.
      rewrite Nat2Z.id. rewrite <- (app_nil_r (ptr_params B)) in C3.
      destruct (parse_ints_cursor pd rd extra_ok data n D B [] i3 e3 C3 RB) as (i4 & e4 & P4 & C4).
      rewrite P4. cbn [pbind]. destruct (cursor_end _ _ _ _ _ _ C4) as [-> E]. exists i4. split; [reflexivity|exact E].
Qed.

(** ** Records *)

(** The record which [format] left: lines of the entity [seq] numbered from [k],
    whose data columns hold the entity type and the parameters [ps], followed by
    less than a line of blanks. *)
Definition pd_record (etype seq k : Z) (pd rd : ascii) (ps : list param) (r : pdrec) : Prop :=
  exists ds body tl, numbered (pd_line seq) k ds (p_out r) /\
    concat ds = showZ etype ++ pd :: body ++ tl /\ spaced pd rd ps body /\ blanks tl /\ (length tl < 64)%nat /\
    p_next r = k + p_count r /\ p_count r = Z.of_nat (length ds) /\ p_next r <= 10000000.

Lemma mod81 (n : nat) : Nat.eqb ((81 * n) mod 81) 0 = true.
Proof. rewrite Nat.mul_comm, Nat.mod_mul by lia. reflexivity. Qed.

Lemma length_nonnil {A} (l : list A) : (0 < length l)%nat -> l <> [].
Proof. destruct l; cbn; [lia|discriminate]. Qed.

Section Frame.
Variables (etype seq k : Z) (pd rd : ascii).
Hypothesis (Hs : 1 <= seq <= 9999999) (Hk : 1 <= k) (D : delims pd rd).

Lemma record_from_ext (init x body tl : str) (ps0 ps' : list param) st' :
  init = showZ etype ++ pd :: x -> spaced_open pd ps0 x ->
  ext (pd_line seq) (mkLst init [] k) st' (body ++ tl) ->
  spaced pd rd ps' body -> blanks tl -> (length tl < 64)%nat -> l_cur st' = [] -> l_idx st' <= 9999999 ->
  formatComments [] (l_out st') (l_idx st') = (true, l_out st', l_idx st') /\
  pd_record etype seq k pd rd (ps0 ++ ps') (mkPd (l_out st') (l_idx st') (l_idx st' - k)).
Proof using.
  intros -> SO (ds & out & N & O & I & C) SP B L CU X. cbn in O, I.
  rewrite O in *. pose proof (numbered_len_pd _ _ _ _ N) as [LO _].
  split.
  - unfold formatComments. rewrite LO, mod81. reflexivity.
  - exists ds, (x ++ body), tl. cbn [p_out p_next p_count]. split; [exact N|].
    split. { rewrite CU, app_nil_r in C. cbn [l_cur] in C. rewrite C. cbn [app]. rewrite <- !app_assoc. reflexivity. }
    split; [apply spaced_open_app; auto|]. split; [exact B|]. split; [exact L|]. lia.
Qed.

Lemma frame_closed x ps0 acts ups :
  spaced_open pd ps0 x -> (length (showZ etype ++ pd :: x) <= 64)%nat ->
  closes pd rd acts ups -> k + ucosts ups <= 9999999 ->
  exists r ps', format_frame (showZ etype ++ pd :: x) acts [] [] k seq pd rd = POk r /\
    Forall2 uwrote ups ps' /\ pd_record etype seq k pd rd (ps0 ++ ps') r.
Proof.
  intros SO LI F B. unfold format_frame. pose proof (ucosts_nonneg ups).
  replace ((k <? 1) || (9999999 <? k)) with false by lia.
  destruct (F seq (mkLst (showZ etype ++ pd :: x) [] k) Hs Hk B LI)
    as (st' & ps' & body & tl & EM & W & EX & SP & TB & TL & CU & IX).
  rewrite EM. cbn [l_idx] in IX.
  destruct (record_from_ext _ x body tl ps0 ps' st' eq_refl SO EX SP TB TL CU ltac:(lia)) as [FC PR].
  rewrite FC. eexists. exists ps'. split; [reflexivity|]. split; [exact W|exact PR].
Qed.

Lemma frame_extras x ps0 acts ups extras :
  spaced_open pd ps0 x -> (length (showZ etype ++ pd :: x) <= 64)%nat ->
  opens pd rd acts ups ->
  extras <> [] -> extras_ok extras ->
  k + ucosts ups + costs (extras_params extras) <= 9999999 ->
  exists r ps', format_frame (showZ etype ++ pd :: x) acts extras [] k seq pd rd = POk r /\
    Forall2 uwrote ups ps' /\ pd_record etype seq k pd rd (ps0 ++ ps' ++ extras_params extras) r.
Proof.
  intros SO LI F NE EO B. unfold format_frame. pose proof (ucosts_nonneg ups). pose proof (costs_nonneg (extras_params extras)).
  replace ((k <? 1) || (9999999 <? k)) with false by lia.
  destruct (F seq (mkLst (showZ etype ++ pd :: x) [] k) Hs Hk ltac:(cbn [l_idx]; lia) LI)
    as (st1 & ps1 & body1 & EM & W & EX & SP & CU & IX).
  rewrite EM. cbn [l_idx] in IX.
  assert (FA : Forall (fun e => is_secA e || is_secB e = true) extras).
  { destruct EO as [FE _]. eapply Forall_impl; [|exact FE]. cbn. tauto. }
  assert (FX : formatExtraParams extras seq pd rd st1 = emit seq pd rd (extras_acts extras pd rd) st1).
  { unfold formatExtraParams. destruct extras as [|e r]; [congruence|].
    replace (forallb _ _) with true; [reflexivity|]. symmetry. apply forallb_forall. rewrite Forall_forall in FA. exact FA. }
  replace (match extras with [] => Ret true st1 | _ :: _ => formatExtraParams extras seq pd rd st1 end)
    with (emit seq pd rd (extras_acts extras pd rd) st1) by (rewrite <- FX; destruct extras; [congruence|reflexivity]).
  assert (CX : closes pd rd (extras_acts extras pd rd) (uni 1 (extras_params extras))).
  { apply closes_extras; auto; [reflexivity| |apply EO]. destruct EO as [FE _]. eapply Forall_impl; [|exact FE].
    cbn. intros e [E1 E2]. split; [exact E1|]. apply extra_ok_range in E2. unfold is_int32. lia. }
  destruct (CX seq st1 Hs ltac:(lia) ltac:(rewrite ucosts_uni; lia) CU)
    as (st' & ps2' & body & tl & EM2 & W2 & EX2 & SP2 & TB & TL & CU2 & IX2).
  rewrite ucosts_uni in IX2. rewrite EM2.
  assert (W2' : ps2' = extras_params extras).
  { clear -W2. apply uwrote_uni in W2.
    assert (Q : forall l l', Forall2 (wrote 1) l l' -> Forall (fun p => match p with PReal _ => False | _ => True end) l -> l' = l).
    { induction 1 as [|u v l l' H _ IH]; intros G; [reflexivity|]. inversion G; subst. f_equal; [|auto].
      destruct u, v; cbn in H; try tauto; congruence. }
    apply Q; [exact W2|]. unfold extras_params, ptr_params.
    assert (G : forall l, Forall (fun p => match p with PReal _ => False | _ => True end) (map PInt l)).
    { intros l. apply Forall_map, Forall_forall. cbn. auto. }
    repeat match goal with |- context [match ?m with _ => _ end] => destruct m end;
      repeat (constructor; [exact I|]); try apply G. apply Forall_app. split; [apply G|]. constructor; [exact I|apply G]. }
  subst ps2'.
  assert (EX3 : ext (pd_line seq) (mkLst (showZ etype ++ pd :: x) [] k) st' ((body1 ++ body) ++ tl)).
  { rewrite <- app_assoc. eapply ext_trans; eassumption. }
  assert (SP3 : spaced pd rd (ps1 ++ extras_params extras) (body1 ++ body)) by (apply spaced_open_app; auto).
  destruct (record_from_ext _ x _ tl ps0 _ st' eq_refl SO EX3 SP3 TB TL CU2 ltac:(lia)) as [FC PR].
  rewrite FC. eexists. exists ps1. split; [reflexivity|]. split; [exact W|]. exact PR.
Qed.

(** Both cases: the last delimiter depends on whether there are optional
    pointers. *)
Definition extras_cost (extras : list (Z * Z)) : Z :=
  match extras with [] => 0 | _ => costs (extras_params extras) end.

Lemma frame_ok x ps0 (acts : ascii -> list act) ups extras :
  spaced_open pd ps0 x -> (length (showZ etype ++ pd :: x) <= 64)%nat ->
  opens pd rd (acts pd) ups -> closes pd rd (acts rd) ups -> extras_ok extras ->
  k + ucosts ups + extras_cost extras <= 9999999 ->
  exists r ps', format_frame (showZ etype ++ pd :: x) (acts (fdel extras pd rd)) extras [] k seq pd rd = POk r /\
    Forall2 uwrote ups ps' /\
    pd_record etype seq k pd rd ((ps0 ++ ps') ++ match extras with [] => [] | _ => extras_params extras end) r.
Proof.
  intros SO LI O C EO B. destruct extras as [|e ex].
  - cbn [fdel extras_cost] in *. destruct (frame_closed x ps0 _ ups SO LI C ltac:(lia)) as (r & ps' & H).
    exists r, ps'. rewrite app_nil_r. exact H.
  - destruct (frame_extras x ps0 _ ups (e :: ex) SO LI O ltac:(discriminate) EO B) as (r & ps' & H).
    exists r, ps'. rewrite <- app_assoc. exact H.
Qed.
End Frame.

(** ** Reading a record *)

Lemma readComments_none data idx n : (length data mod 64 = 0)%nat -> (idx + n = length data)%nat -> (n < 64)%nat ->
  readComments data idx = [].
Proof.
  intros M E N. unfold readComments.
  set (i := if (idx mod 64 =? 0)%nat then idx else (idx + (64 - idx mod 64))%nat).
  assert (I : (length data <= i)%nat).
  { unfold i. destruct (Nat.eqb_spec (idx mod 64) 0); lia. }
  rewrite skipn_all2 by exact I. destruct (length data); reflexivity.
Qed.

Definition no_nl (p : param) : Prop := match p with PStr s => ~ In nl s | _ => True end.

Lemma delim_not_nl c : delim_char c -> c <> nl.
Proof. intros (R & _) ->. cbn in R. lia. Qed.

Lemma real_chars s q c : real_numeral s q -> In c s ->
  isdig c \/ c = "+"%char \/ c = "-"%char \/ c = "."%char \/ c = "E"%char \/ c = "D"%char.
Proof.
  intros (sg & ip & fr & ex & m & x & -> & SG & _ & F1 & F2 & EX & _) I.
  rewrite Forall_forall in F1, F2.
  apply in_app_or in I. destruct I as [I|I].
  { destruct SG as [[-> _]|[-> _]]; [destruct I|destruct I as [<-|[]]; auto]. }
  apply in_app_or in I. destruct I as [I|I]; [left; auto|].
  apply in_app_or in I. destruct I as [I|I].
  { destruct fr; [destruct I|]. destruct I as [<-|I]; auto 6. }
  destruct EX as [[-> _]|(mk & sgn & d & -> & M & S)]; [destruct I|].
  destruct I as [<-|[<-|I]].
  - destruct M as [-> | ->]; auto 6.
  - destruct S as [[-> _]|[-> _]]; auto.
  - left. destruct S as [[_ (_ & F & _)]|[_ (_ & F & _)]]; rewrite Forall_forall in F; auto.
Qed.

Lemma isdig_not_nl c : isdig c -> c <> nl.
Proof. intros H ->. unfold isdig in H. cbn in H. lia. Qed.

Lemma param_text_no_nl p t : param_text p t -> no_nl p -> ~ In nl t.
Proof.
  destruct p as [n|s|q]; cbn [param_text no_nl]; intros T N I.
  - destruct (signed_chars _ _ _ T I) as [E|[E|E]]; try discriminate. apply (isdig_not_nl _ E). reflexivity.
  - destruct T as [[-> ->]|[_ (d & (_ & F & _) & ->)]]; [destruct I|].
    apply in_app_or in I. destruct I as [I|[I|I]]; [|discriminate|auto].
    rewrite Forall_forall in F. apply (isdig_not_nl _ (F _ I)). reflexivity.
  - destruct (real_chars _ _ _ T I) as [E|E]; [apply (isdig_not_nl _ E); reflexivity|].
    repeat (destruct E as [E|E]; [discriminate|]). discriminate.
Qed.

Lemma blanks_no_nl b : blanks b -> ~ In nl b.
Proof. intros B I. unfold blanks in B. rewrite Forall_forall in B. apply B in I. discriminate. Qed.

Lemma spaced_no_nl pd rd ps s : delims pd rd -> spaced pd rd ps s -> Forall no_nl ps -> ~ In nl s.
Proof.
  intros (D1 & D2 & _). induction 1 as [p b t B T _|p b t ps s B T _ SP IH]; intros F I.
  - inversion F; subst. apply in_app_or in I. destruct I as [I|I]; [exact (blanks_no_nl _ B I)|].
    apply in_app_or in I. destruct I as [I|[I|[]]]; [exact (param_text_no_nl _ _ T H1 I)|apply (delim_not_nl _ D2 I)].
  - inversion F; subst. apply in_app_or in I. destruct I as [I|I]; [exact (blanks_no_nl _ B I)|].
    apply in_app_or in I. destruct I as [I|[I|I]]; [exact (param_text_no_nl _ _ T H1 I)|apply (delim_not_nl _ D1 I)|apply IH; auto].
Qed.

(** Three digit entity types. *)
Lemma showZ_type etype : 1 <= etype <= 9999999 -> (1 <= length (showZ etype) <= 7)%nat.
Proof.
  intros H. unfold showZ. replace (etype <? 0) with false by lia.
  pose proof (showN_pos_len etype ltac:(lia)). pose proof (showN_len etype 7 ltac:(lia) ltac:(lia)).
  rewrite pow10_7 in H1. lia.
Qed.

(** Lines whose data columns hold the entity type and then [body]. *)
Lemma read_lines etype seq k pd rd ds out body :
  1 <= etype <= 9999999 -> 1 <= k -> delims pd rd -> ~ In nl body ->
  numbered (pd_line seq) k ds out -> concat ds = showZ etype ++ pd :: body ->
  k + Z.of_nat (length ds) <= 10000000 -> forall rest,
  readPD_base etype seq k (Z.of_nat (length ds)) pd rd (mkStream (out ++ rest) false) =
      POk (showZ etype ++ pd :: body, mkStream rest false).
Proof.
  intros He Hk D NB N C X rest.
  pose proof (showZ_type etype He) as LT.
  assert (NN : ~ In nl (concat ds)).
  { rewrite C. intros I. apply in_app_or in I. destruct I as [I|[I|I]].
    - destruct (signed_chars _ _ _ (showZ_signed etype) I) as [E|[E|E]]; try discriminate.
      apply (isdig_not_nl _ E). reflexivity.
    - apply (delim_not_nl pd); [apply D|exact I].
    - exact (NB I). }
  assert (LD : (0 < length ds)%nat).
  { destruct ds; cbn; [|lia]. cbn in C. apply (f_equal (@length ascii)) in C. rewrite app_length in C. cbn in C. lia. }
  unfold readPD_base. replace ((k =? 0) && (etype =? 0)) with false by lia.
  replace ((k <? 1) || (9999999 <? k)) with false by lia.
  replace ((Z.of_nat (length ds) <? 1) || (10000000 <? k + Z.of_nat (length ds))) with false by lia.
  rewrite <- C. rewrite Nat2Z.id.
  apply (pd_lines_read etype seq pd rd k ds out N Hk NN rest true).
  intros _. split; [destruct ds; [cbn in LD; lia|discriminate]|]. intros d ds' -> c.
  assert (LDD : length d = 64%nat) by (inversion N as [|? ? ? ? ? P _]; subst; apply P).
  assert (P : exists more, d = showZ etype ++ pd :: more).
  { cbn [concat] in C. assert (G : firstn (length (showZ etype ++ [pd])) d = showZ etype ++ [pd]).
    { apply (f_equal (firstn (length (showZ etype ++ [pd])))) in C.
      replace (showZ etype ++ pd :: body) with ((showZ etype ++ [pd]) ++ body) in C by (rewrite <- app_assoc; reflexivity).
      rewrite firstn_mid in C. rewrite firstn_app in C.
      assert (LL : (length (showZ etype ++ [pd]) <= 8)%nat) by (rewrite app_length; cbn; lia).
      replace (length (showZ etype ++ [pd]) - length d)%nat with 0%nat in C by lia.
      cbn [firstn] in C. rewrite app_nil_r in C. exact C. }
    exists (skipn (length (showZ etype ++ [pd])) d).
    rewrite <- (firstn_skipn (length (showZ etype ++ [pd])) d) at 1. rewrite G, <- app_assoc. reflexivity. }
  destruct P as [more ->]. eexists.
  replace ((showZ etype ++ pd :: more) ++ c) with ([] ++ [] ++ showZ etype ++ pd :: (more ++ c))
    by (cbn [app]; rewrite <- app_assoc; reflexivity).
  replace 0%nat with (length (@nil ascii)) by reflexivity.
  rewrite (ParseInt_item [] [] (showZ etype) etype pd (more ++ c) false pd rd None D); auto.
  - unfold eor_of. destruct (Ascii.eqb_spec pd rd) as [E|_]; [exfalso; apply D; exact E|reflexivity].
  - constructor.
  - apply showZ_signed.
  - lia.
Qed.

Lemma read_record_base etype seq k pd rd ps r :
  1 <= etype <= 9999999 -> 1 <= k -> delims pd rd -> Forall no_nl ps ->
  pd_record etype seq k pd rd ps r ->
  exists body tl, (forall rest, readPD_base etype seq k (p_count r) pd rd (mkStream (p_out r ++ rest) false) =
      POk (showZ etype ++ pd :: body ++ tl, mkStream rest false)) /\
    spaced pd rd ps body /\ blanks tl /\ (length tl < 64)%nat /\
    (length (showZ etype ++ pd :: body ++ tl) mod 64 = 0)%nat /\
    Z.of_nat (length (showZ etype ++ pd :: body ++ tl)) <= int_max.
Proof.
  intros He Hk D F (ds & body & tl & N & C & SP & B & L & X1 & X2 & X3).
  pose proof (numbered_len_pd _ _ _ _ N) as [L1 L2].
  exists body, tl. split; [|split; [exact SP|split; [exact B|split; [exact L|]]]].
  - intros rest. rewrite X2. apply (read_lines etype seq k pd rd ds); auto; [|lia].
    intros I. apply in_app_or in I. destruct I as [I|I]; [exact (spaced_no_nl _ _ _ _ D SP F I)|exact (blanks_no_nl _ B I)].
  - rewrite <- C, L2. split; [rewrite Nat.mul_comm; apply Nat.mod_mul; lia|]. unfold int_max. lia.
Qed.

Section ReadFrame.
Variables (etype seq k : Z) (pd rd : ascii).
Hypothesis (He : 1 <= etype <= 9999999) (Hk : 1 <= k) (D : delims pd rd).

(** The entity's own parser steps over exactly its parameters [qs], with a result
    in [R]. *)
Definition parses {A} (parse : str -> nat -> pres (A * nat * bool)) (qs : list param) (R : A -> Prop) : Prop :=
  forall data n idx ex, cursor pd rd data n idx false (qs ++ ex) ->
    exists a idx' eor', parse data idx = POk (a, idx', eor') /\ R a /\ cursor pd rd data n idx' eor' ex.

Definition parses_at {A} (parse : str -> nat -> pres (A * nat * bool)) (qs ex : list param) (R : A -> Prop) : Prop :=
  forall data n idx, cursor pd rd data n idx false (qs ++ ex) ->
    exists a idx' eor', parse data idx = POk (a, idx', eor') /\ R a /\ cursor pd rd data n idx' eor' ex.

Lemma read_frame {A} (parse : str -> nat -> pres (A * nat * bool)) qs R extras r :
  parses_at parse qs (match extras with [] => [] | _ => extras_params extras end) R -> Forall no_nl qs -> extras_ok extras ->
  pd_record etype seq k pd rd (qs ++ match extras with [] => [] | _ => extras_params extras end) r ->
  exists a, R a /\ forall rest, readPD_frame parse etype seq k (p_count r) pd rd (mkStream (p_out r ++ rest) false) =
    POk (a, extras_ptrs extras, [], mkStream rest false).
Proof.
  intros P F EO PR.
  assert (F2 : Forall no_nl (qs ++ match extras with [] => [] | _ => extras_params extras end)).
  { apply Forall_app. split; [exact F|]. destruct extras as [|e x]; [constructor|]. unfold extras_params, ptr_params.
    assert (G : forall l, Forall no_nl (map PInt l)) by (intros l; apply Forall_map, Forall_forall; cbn; auto).
    repeat match goal with |- context [match ?m with [] => _ | _ :: _ => _ end] => destruct m end;
      repeat (constructor; [cbn; auto|]); try apply G. apply Forall_app. split; [apply G|]. constructor; [exact I|apply G]. }
  destruct (read_record_base etype seq k pd rd _ r He Hk D F2 PR) as (body & tl & RB & SP & B & L & M & IM).
  assert (FC : find_char pd (showZ etype ++ pd :: body ++ tl) = Some (length (showZ etype))).
  { rewrite find_char_mid by (apply signed_no_delim with (n := etype); [apply D|apply showZ_signed]). reflexivity. }
  pose proof (showZ_type etype He) as LT.
  replace (showZ etype ++ pd :: body ++ tl) with ((showZ etype ++ [pd]) ++ body ++ tl) in * by (rewrite <- app_assoc; reflexivity).
  pose proof (cursor_start pd rd (showZ etype ++ [pd]) body tl _ SP IM) as C.
  replace (length (showZ etype ++ [pd])) with (S (length (showZ etype))) in C by (rewrite app_length; cbn; lia).
  destruct (P _ _ _ C) as (a & idx' & eor' & PE & RA & C'). exists a. split; [exact RA|]. intros rest.
  unfold readPD_frame. rewrite RB. cbn [pbind]. rewrite FC.
  replace ((length (showZ etype) <? 1)%nat || (8 <? length (showZ etype))%nat) with false by lia.
  rewrite PE. cbn [pbind].
  destruct extras as [|e x].
  - destruct (cursor_end _ _ _ _ _ _ C') as [-> E]. cbn [pbind].
    rewrite (readComments_none _ _ _ M E L). reflexivity.
  - assert (EE : eor' = false).
    { revert C'. destruct (extras_params (e :: x)) eqn:Q; [|apply cursor_open].
      unfold extras_params in Q. repeat match type of Q with context [match ?m with [] => _ | _ :: _ => _ end] => destruct m end; discriminate. }
    subst eor'. destruct (readExtraParams_ok pd rd _ _ _ (e :: x) D ltac:(discriminate) EO C') as (i & RE & E).
    rewrite RE. cbn [pbind]. rewrite (readComments_none _ _ _ M E L). reflexivity.
Qed.

(** A parser which refuses the parameters [qs]. *)
Lemma read_frame_fail {A} (parse : str -> nat -> pres (A * nat * bool)) qs ps r :
  (forall data n idx, cursor pd rd data n idx false (qs ++ ps) -> blanks (skipn (length data - n) data) ->
     parse data idx = PFail) -> Forall no_nl (qs ++ ps) ->
  pd_record etype seq k pd rd (qs ++ ps) r -> forall rest,
  readPD_frame parse etype seq k (p_count r) pd rd (mkStream (p_out r ++ rest) false) = PFail.
Proof.
  intros P F2 PR rest.
  destruct (read_record_base etype seq k pd rd _ r He Hk D F2 PR) as (body & tl & RB & SP & B & L & M & IM).
  assert (FC : find_char pd (showZ etype ++ pd :: body ++ tl) = Some (length (showZ etype))).
  { rewrite find_char_mid by (apply signed_no_delim with (n := etype); [apply D|apply showZ_signed]). reflexivity. }
  pose proof (showZ_type etype He) as LT.
  replace (showZ etype ++ pd :: body ++ tl) with ((showZ etype ++ [pd]) ++ body ++ tl) in * by (rewrite <- app_assoc; reflexivity).
  pose proof (cursor_start pd rd (showZ etype ++ [pd]) body tl _ SP IM) as C.
  replace (length (showZ etype ++ [pd])) with (S (length (showZ etype))) in C by (rewrite app_length; cbn; lia).
  unfold readPD_frame. rewrite RB. cbn [pbind]. rewrite FC.
  replace ((length (showZ etype) <? 1)%nat || (8 <? length (showZ etype))%nat) with false by lia.
  rewrite (P _ _ _ C); [reflexivity|].
  replace (length ((showZ etype ++ [pd]) ++ body ++ tl) - length tl)%nat with (length ((showZ etype ++ [pd]) ++ body))
    by (rewrite !app_length; cbn; lia).
  rewrite app_assoc, skipn_app, skipn_all, Nat.sub_diag. exact B.
Qed.
End ReadFrame.
