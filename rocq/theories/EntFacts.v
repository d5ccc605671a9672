(** Tools for the round trips of single entities. *)

From Coq Require Import Lia ZifyBool ZifyNat ZifyN QArith Qabs.
From Verif Require Import Base Num Spec NumFacts IoModel FieldFacts LineFacts TokenFacts RealFacts RecordFacts
  ParamFacts PutModel BuildFacts StreamFacts PdModel PdFacts GlobBack EntSpec EntModel EntModel2 EntModel3.
Open Scope Z_scope.

Ltac Zify.zify_post_hook ::= Z.div_mod_to_equations.

Lemma extras_cost_le extras : extras_cost extras <= 2 * Z.of_nat (length extras) + 6.
Proof.
  unfold extras_cost. destruct extras as [|e r]; [cbn; lia|]. remember (e :: r) as ex. clear Heqex.
  assert (P : forall l, costs (ptr_params l) = 2 * Z.of_nat (length l)).
  { induction l as [|v l IH]; [reflexivity|]. cbn [ptr_params map]. rewrite costs_cons. unfold ptr_params in IH. rewrite IH. cbn [cost length]. lia. }
  assert (X : (length (filter is_secA ex) + length (filter is_secB ex) <= length ex)%nat).
  { clear. induction ex as [|x l IH]; cbn [filter]; [cbn; lia|].
    assert (is_secA x = true -> is_secB x = false) by (unfold is_secA, is_secB; lia).
    destruct (is_secA x), (is_secB x); cbn [length]; try lia. }
  unfold extras_params.
  assert (LA : length (map snd (filter is_secA ex)) = length (filter is_secA ex)) by apply map_length.
  assert (LB : length (map snd (filter is_secB ex)) = length (filter is_secB ex)) by apply map_length.
  destruct (map snd (filter is_secA ex)) as [|a0 a], (map snd (filter is_secB ex)) as [|b0 b];
    rewrite ?costs_cons, ?costs_app, ?costs_cons, ?P; cbn [cost length] in *; unfold str_cost; cbn [length];
    change (Z.of_nat 0 / 64) with 0; change (costs []) with 0; lia.
Qed.

(** ** Writing and reading *)

Lemma frame_round_at {A} etype seq k pd rd x ps0 (acts : ascii -> list act) ups extras
  (parse : str -> nat -> pres (A * nat * bool)) R :
  1 <= etype <= 9999999 -> settings_ok pd rd seq k extras ->
  spaced_open pd ps0 x -> (length (showZ etype ++ pd :: x) <= 64)%nat ->
  opens pd rd (acts pd) ups -> closes pd rd (acts rd) ups ->
  k + ucosts ups + 2 * Z.of_nat (length extras) + 6 <= 9999999 -> Forall no_nl (ps0 ++ map snd ups) ->
  (forall ps', Forall2 uwrote ups ps' ->
     parses_at pd rd parse (ps0 ++ ps') (match extras with [] => [] | _ => extras_params extras end) R) ->
  round_trip (format_frame (showZ etype ++ pd :: x) (acts (fdel extras pd rd)) extras [] k seq pd rd)
    (fun n f => readPD_frame parse etype seq k n pd rd f) seq k (extras_ptrs extras) R.
Proof.
  intros He (D & Hs & Hk & EO) SO LI O C B NN P. pose proof (extras_cost_le extras) as XC.
  destruct (frame_ok etype seq k pd rd Hs Hk D x ps0 acts ups extras SO LI O C EO ltac:(lia)) as (r & ps' & F & W & PR).
  assert (NL : Forall no_nl (ps0 ++ ps')).
  { apply Forall_app in NN. destruct NN as [N0 N1]. apply Forall_app. split; [exact N0|].
    clear -W N1. revert N1. induction W as [|u p us ps U _ IH]; cbn [map]; intros N; [constructor|].
    inversion N; subst. constructor; [|auto]. destruct u as [u q]. unfold uwrote in U. cbn [fst snd] in *.
    destruct q, p; cbn in *; try tauto. subst; auto. }
  pose proof PR as (ds & body & tl & N & CC & SP & BL & LT & X1 & X2 & X3).
  exists r, ds. split; [exact F|]. split; [exact N|].
  split. { intros ->. cbn in CC. destruct (showZ etype); discriminate. }
  split; [exact X2|]. split; [exact X1|].
  destruct (read_frame etype seq k pd rd He Hk D parse _ R extras r (P ps' W) NL EO PR) as (a & RA & E).
  exists a. auto.
Qed.

Lemma frame_round {A} etype seq k pd rd x ps0 (acts : ascii -> list act) ups extras
  (parse : str -> nat -> pres (A * nat * bool)) R :
  1 <= etype <= 9999999 -> settings_ok pd rd seq k extras ->
  spaced_open pd ps0 x -> (length (showZ etype ++ pd :: x) <= 64)%nat ->
  opens pd rd (acts pd) ups -> closes pd rd (acts rd) ups ->
  k + ucosts ups + 2 * Z.of_nat (length extras) + 6 <= 9999999 -> Forall no_nl (ps0 ++ map snd ups) ->
  (forall ps', Forall2 uwrote ups ps' -> parses pd rd parse (ps0 ++ ps') R) ->
  round_trip (format_frame (showZ etype ++ pd :: x) (acts (fdel extras pd rd)) extras [] k seq pd rd)
    (fun n f => readPD_frame parse etype seq k n pd rd f) seq k (extras_ptrs extras) R.
Proof.
  intros. apply (frame_round_at etype seq k pd rd x ps0 acts ups extras parse R); auto.
  intros ps' W data n idx C. eapply H7; eauto.
Qed.

(** Weakening of the result. *)
Lemma round_trip_weaken {A} fmt (read : Z -> stream -> pres (A * list Z * list str * stream)) seq k ptrs (G G' : A -> Prop) :
  (forall a, G a -> G' a) -> round_trip fmt read seq k ptrs G -> round_trip fmt read seq k ptrs G'.
Proof.
  intros I (r & ds & F & N & NE & C & X & a & Ga & E). exists r, ds. repeat (split; [assumption|]).
  exists a. auto.
Qed.

(** ** Headers *)

Lemma open_int pd n ps x : spaced_open pd ps x -> spaced_open pd (PInt n :: ps) (showZ n ++ pd :: x).
Proof.
  intros S. apply (spo_cons pd (PInt n) [] (showZ n) ps x); auto.
  - constructor. - apply showZ_signed.
Qed.

Lemma showZ_ptr_len n : 0 <= n <= 9999999 -> (length (showZ n) <= 7)%nat.
Proof.
  intros H. unfold showZ. replace (n <? 0) with false by lia.
  pose proof (showN_len n 7 ltac:(lia) ltac:(lia)). rewrite pow10_7 in H0. lia.
Qed.

Lemma showZ_type_len n : 100 <= n <= 999 -> (length (showZ n) <= 3)%nat.
Proof.
  intros H. unfold showZ. replace (n <? 0) with false by lia.
  pose proof (showN_len n 3 ltac:(lia) ltac:(lia)). change (10 ^ Z.of_nat 3) with 1000 in H0. lia.
Qed.

(** ** Steps of the parsers *)

Section Steps.
Variables (pd rd : ascii) (data : str) (n : nat).
Hypothesis D : delims pd rd.

Notation cur := (cursor pd rd data n).

Lemma st_int ok idx eor v ps : cur idx eor (PInt v :: ps) -> ok v = true -> is_int32 v ->
  exists i e, parse_int_if ok data idx eor pd rd = POk (v, i, e) /\ cur i e ps.
Proof using D.
  intros C O R. destruct (step_int pd rd D data n idx eor v ps None C R) as (i & e & P & C').
  exists i, e. unfold parse_int_if. rewrite P. cbn [pbind]. rewrite O. auto.
Qed.

(** A real which was written for [v] at the resolution [u]. *)
Definition rwrote (u v : Q) (p : param) : Prop := wrote u (PReal v) p.

Lemma st_real u v p idx eor ps dflt : cur idx eor (p :: ps) -> rwrote u v p ->
  exists q i e, ParseReal data idx eor pd rd dflt = POk (q, i, e) /\ real_close u v q /\ cur i e ps.
Proof using D.
  intros C W. destruct p as [|?|q]; cbn in W; try tauto. destruct W as [W R].
  destruct (step_real pd rd D data n idx eor q ps dflt C R) as (q' & i & e & E & P & C').
  exists q', i, e. split; [exact P|]. split; [|exact C']. eapply close_wd; [|exact W]. symmetry; exact E.
Qed.

Lemma st_opt u v p idx eor ps dflt dend : cur idx eor (p :: ps) -> rwrote u v p ->
  exists q i e, parse_real_opt dflt dend data idx eor pd rd = POk (q, i, e) /\ real_close u v q /\ cur i e ps.
Proof using D.
  intros C W. pose proof (cursor_open _ _ _ _ _ _ _ _ C) as ->. unfold parse_real_opt.
  eapply st_real; eauto.
Qed.

Lemma st_reals u vs : forall qs idx eor ps, cur idx eor (qs ++ ps) -> Forall2 (rwrote u) vs qs ->
  exists l i e, parse_reals (length vs) data idx eor pd rd = POk (l, i, e) /\ Forall2 (real_close u) vs l /\ cur i e ps.
Proof using D.
  induction vs as [|v vs IH]; intros qs idx eor ps C W; inversion W; subst.
  - exists [], idx, eor. split; [reflexivity|]. split; [constructor|exact C].
  - cbn [app] in C. destruct (st_real u v y idx eor _ None C H1) as (q & i & e & P & Q & C1).
    destruct (IH _ _ _ _ C1 H3) as (l & i2 & e2 & P2 & Q2 & C2).
    exists (q :: l), i2, e2. cbn [length parse_reals]. rewrite P. cbn [pbind]. rewrite P2. cbn [pbind]. auto.
Qed.

Lemma st_opt0 u vs : forall qs idx eor ps, cur idx eor (qs ++ ps) -> Forall2 (rwrote u) vs qs ->
  exists l i e, parse_opt0 (length vs) data idx eor pd rd = POk (l, i, e) /\ Forall2 (real_close u) vs l /\ cur i e ps.
Proof using D.
  induction vs as [|v vs IH]; intros qs idx eor ps C W; inversion W; subst.
  - exists [], idx, eor. split; [reflexivity|]. split; [constructor|exact C].
  - cbn [app] in C. destruct (st_opt u v y idx eor _ 0 0 C H1) as (q & i & e & P & Q & C1).
    destruct (IH _ _ _ _ C1 H3) as (l & i2 & e2 & P2 & Q2 & C2).
    exists (q :: l), i2, e2. cbn [length parse_opt0]. rewrite P. cbn [pbind]. rewrite P2. cbn [pbind]. auto.
Qed.

Lemma st_ints ok l idx eor ps : cur idx eor (ptr_params l ++ ps) -> Forall (fun v => ok v = true /\ is_int32 v) l ->
  exists i e, parse_ints (length l) ok data idx eor pd rd = POk (l, i, e) /\ cur i e ps.
Proof using D. intros C F. apply (parse_ints_cursor pd rd ok data n D l ps idx eor C F). Qed.

Lemma st_text s idx eor ps : cur idx eor (PStr s :: ps) ->
  exists i e, ParseHString data idx eor pd rd = POk (s, i, e) /\ cur i e ps.
Proof using D. apply step_str, D. Qed.
End Steps.

(** ** What the steps of [format] wrote *)

Lemma uwrote_app a b ps : Forall2 uwrote (a ++ b) ps ->
  exists p q, ps = p ++ q /\ Forall2 uwrote a p /\ Forall2 uwrote b q.
Proof. intros W. apply Forall2_app_inv_l in W. destruct W as (p & q & A & B & ->). exists p, q. auto. Qed.

Lemma uwrote_reals u l ps : Forall2 uwrote (uni u (map PReal l)) ps -> Forall2 (rwrote u) l ps.
Proof.
  intros W. apply uwrote_uni in W. remember (map PReal l) as m eqn:E. revert l E.
  induction W as [|a b m ps W _ IH]; intros [|v l] E; try discriminate; [constructor|].
  injection E as -> ->. constructor; [exact W|]. apply IH. reflexivity.
Qed.

Lemma uwrote_ints u l ps : Forall2 uwrote (uni u (ptr_params l)) ps -> ps = ptr_params l.
Proof.
  intros W. apply uwrote_uni in W. remember (ptr_params l) as m eqn:E. revert l E.
  induction W as [|a b m ps W _ IH]; intros [|v l] E; try discriminate; [reflexivity|].
  cbn [ptr_params map] in E. injection E as -> ->. cbn [ptr_params map]. f_equal; [|apply (IH l eq_refl)].
  destruct b; cbn in W; try tauto. congruence.
Qed.

Lemma uwrote_cons_int u n us ps : Forall2 uwrote ((u, PInt n) :: us) ps -> exists q, ps = PInt n :: q /\ Forall2 uwrote us q.
Proof.
  intros W. inversion W as [|a b us' q U W' E1 E2]; subst. unfold uwrote in U. cbn in U. destruct b; try tauto.
  subst. exists q. auto.
Qed.

Lemma uwrote_cons_text u s us ps : Forall2 uwrote ((u, PStr s) :: us) ps -> exists q, ps = PStr s :: q /\ Forall2 uwrote us q.
Proof.
  intros W. inversion W as [|a b us' q U W' E1 E2]; subst. unfold uwrote in U. cbn in U. destruct b; try tauto.
  subst. exists q. auto.
Qed.

Lemma costs_reals l : costs (map PReal l) = 2 * Z.of_nat (length l).
Proof. induction l as [|v l IH]; [reflexivity|]. cbn [map]. rewrite costs_cons, IH. cbn [cost length]. lia. Qed.
Lemma costs_ints l : costs (ptr_params l) = 2 * Z.of_nat (length l).
Proof. induction l as [|v l IH]; [reflexivity|]. cbn [ptr_params map]. rewrite costs_cons. unfold ptr_params in IH. rewrite IH. cbn [cost length]. lia. Qed.

Lemma no_nl_reals u l : Forall no_nl (map snd (uni u (map PReal l))).
Proof. unfold uni. rewrite map_map. cbn [snd]. rewrite map_id. apply Forall_map, Forall_forall. cbn. auto. Qed.
Lemma no_nl_ints u l : Forall no_nl (map snd (uni u (ptr_params l))).
Proof. unfold uni. rewrite map_map. cbn [snd]. rewrite map_id. apply Forall_map, Forall_forall. cbn. auto. Qed.

(** Parsing with no state carried over. *)
Lemma parses_reals {A} pd rd u vs qs (f : list Q -> option A) (R : A -> Prop) (parse : str -> nat -> pres (A * nat * bool)) :
  delims pd rd -> Forall2 (rwrote u) vs qs ->
  (forall data idx, parse data idx =
     do (l, i, e) <- parse_reals (length vs) data idx false pd rd;
     match f l with Some a => POk (a, i, e) | None => PFail end) ->
  (forall l, Forall2 (real_close u) vs l -> exists a, f l = Some a /\ R a) ->
  parses pd rd parse qs R.
Proof.
  intros D W E H data n idx ex C. destruct (st_reals pd rd data n D u vs qs idx false ex C W) as (l & i & e & P & Q & C').
  destruct (H l Q) as (a & Fa & Ra). exists a, i, e. rewrite E, P. cbn [pbind]. rewrite Fa. auto.
Qed.
