(** The claims about Directory Entries, as lemmas. *)

From Coq Require Import Lia ZifyBool ZifyNat ZifyN.
From Verif Require Import Base Num Spec NumFacts IoModel FieldFacts LineFacts TokenFacts RecordFacts StreamFacts
  DeModel DeSpec DeFacts.
Open Scope Z_scope.
Ltac Zify.zify_post_hook ::= Z.div_mod_to_equations.

Lemma dir_base_round d maxgrad out : dir_sane d -> 1 <= d_seq d -> writeDE d = Some out ->
  (dir_readable d -> exists i, dir_kept maxgrad d i /\
     forall rest, read_dir_base (d_type d) maxgrad (mkStream (out ++ rest) false) = POk (i, mkStream rest false)) /\
  (~ dir_readable d -> forall rest, read_dir_base (d_type d) maxgrad (mkStream (out ++ rest) false) = PFail).
Proof.
  intros S S1 W. pose proof (accept_iff d S S1) as A. pose proof (sane_label d S) as NL. split.
  - intros R. destruct (written_read (d_type d) maxgrad d out [] W S1 NL) as (lab & U & _).
    exists (dir_back maxgrad d lab). split; [apply back_kept; auto|].
    intros rest. destruct (written_read (d_type d) maxgrad d out rest W S1 NL) as (lab' & U' & E).
    apply A in R. rewrite R in E. rewrite E. do 3 f_equal.
    (* the label does not depend on what follows *)
    destruct U as (b & E1 & B & N), U' as (b' & E1' & B' & N').
    assert (H : forall (b b' : str) t t', blanks b -> blanks b' -> (forall r, t <> sp :: r) -> (forall r, t' <> sp :: r) ->
              b ++ t = b' ++ t' -> t = t').
    { clear. induction b as [|c b IH]; intros b' t t' B B' N N' E.
      - destruct b' as [|c' b']; [exact E|]. exfalso. inversion B'; subst. apply (N _ E).
      - inversion B; subst. destruct b' as [|c' b']; [exfalso; symmetry in E; apply (N' _ E)|].
        inversion B'; subst. injection E as E. eauto. }
    eapply H; [exact B'|exact B|exact N'|exact N|]. rewrite <- E1, <- E1'. reflexivity.
  - intros R rest. destruct (written_read (d_type d) maxgrad d out rest W S1 NL) as (lab & U & E). rewrite E.
    destruct (accept (d_type d) d) eqn:EA; [|reflexivity]. exfalso. apply R, A. reflexivity.
Qed.

(** *** Entity types *)

Lemma mem_iff n l : mem n l = true <-> In n l.
Proof.
  unfold mem. rewrite existsb_exists. split.
  - intros (x & I & E). apply Z.eqb_eq in E. subst x. exact I.
  - intros I. exists n. split; [exact I|apply Z.eqb_refl].
Qed.

Lemma known_iff n : In n (map fst type_table) <-> In n known_types.
Proof. reflexivity. Qed.

Lemma not_known n l : ~ In n known_types -> (forall x, In x l -> In x known_types) -> mem n l = false.
Proof.
  intros N S. destruct (mem n l) eqn:E; [|reflexivity]. apply mem_iff in E. exfalso. auto.
Qed.

Ltac known := apply not_known; [assumption|intros ? Hx; cbn in Hx |- *; intuition subst; tauto].

Ltac each H := cbn in H; repeat (destruct H as [H|H]; [subst; try reflexivity|]); try contradiction.

Lemma keys_unique {B} (l : list (Z * B)) : NoDup (map fst l) -> forall k x y, In (k, x) l -> In (k, y) l -> x = y.
Proof.
  induction l as [|[k0 b] l IH]; intros ND k x y I J; [contradiction|].
  cbn in ND. inversion ND as [|? ? N ND']; subst. destruct I as [I|I], J as [J|J].
  - injection I as _ <-. injection J as _ <-. reflexivity.
  - injection I as -> ->. exfalso. apply N. apply (in_map fst) in J. exact J.
  - injection J as -> ->. exfalso. apply N. apply (in_map fst) in I. exact I.
  - eapply IH; eauto.
Qed.

Lemma table_unique k x y : In (k, x) type_table -> In (k, y) type_table -> x = y.
Proof. apply keys_unique. cbn. repeat (constructor; [cbn; intuition discriminate|]). constructor. Qed.

Lemma form_ok_iff etype form : 0 <= form -> (form_ok etype form = true <-> form_accepted etype form).
Proof.
  intros P. destruct (in_dec Z.eq_dec etype known_types) as [I|N].
  - assert (H : exists l o, In (etype, (l, o)) type_table /\
      (form_ok etype form = true <-> match o with Some fs => In form fs | None => True end)).
    { cbn in I. repeat (destruct I as [<-|I];
        [do 2 eexists; split; [cbn; eauto 30|unfold form_ok; cbn; lia]|]). contradiction. }
    destruct H as (l & o & Il & Hf). rewrite Hf. split.
    + intros Ho l' fs Il'. pose proof (table_unique _ _ _ Il Il') as E. injection E as -> ->. exact Ho.
    + intros Ho. destruct o as [fs|]; [|constructor]. eapply Ho; eauto.
  - split.
    + intros _ l fs Il. exfalso. apply N. change known_types with (map fst type_table). apply (in_map fst) in Il. exact Il.
    + intros _. unfold form_ok. cbn in N.
      repeat match goal with |- context[mem etype ?l] => rewrite (not_known etype l) by (auto; cbn; intuition) end.
      repeat match goal with |- context[etype =? ?c] => replace (etype =? c) with false by lia end. reflexivity.
Qed.

Lemma fixed_one etype i : exists l, fixed_fields etype l /\
  forall f, (exists c, In (f, c) l /\ fval f (de_adjust etype i) = c) \/
            (~ In f (map fst l) /\ fval f (de_adjust etype i) = fval f i).
Proof.
  destruct (in_dec Z.eq_dec etype known_types) as [I|N].
  - cbn in I. repeat (destruct I as [<-|I]; [eexists; split;
      [left; eexists; cbn; eauto 30
      |intros f; destruct f;
         first [left; eexists; split; [solve [cbn; eauto 14]|reflexivity]
               |right; split; [cbn; intuition discriminate|reflexivity]]]|]). contradiction.
  - exists []. split; [right; auto|]. intros f. right. split; [auto|].
    unfold de_adjust. rewrite (not_known etype known_types) by auto.
    destruct f; cbn [fval i_struct i_font i_level i_view i_trans i_lassoc i_visible i_dep i_use i_hier i_weight i_color];
      try reflexivity; cbn in N;
      repeat match goal with |- context[mem etype ?l] => rewrite (not_known etype l) by (auto; cbn; intuition) end;
      repeat match goal with |- context[etype =? ?c] => replace (etype =? c) with false by lia end; reflexivity.
Qed.

Lemma dir_type_round d maxgrad out : dir_sane d -> 1 <= d_seq d -> writeDE d = Some out ->
  (dir_readable d /\ form_accepted (d_type d) (d_form d) -> exists i, kept_by_type maxgrad d i /\
     forall rest, read_dir (d_type d) maxgrad (mkStream (out ++ rest) false) = POk (i, mkStream rest false)) /\
  (~ (dir_readable d /\ form_accepted (d_type d) (d_form d)) ->
     forall rest, read_dir (d_type d) maxgrad (mkStream (out ++ rest) false) = PFail).
Proof.
  intros S S1 W. destruct (dir_base_round d maxgrad out S S1 W) as [Y N].
  assert (E : forall f, read_dir (d_type d) maxgrad f =
    do (i, f1) <- read_dir_base (d_type d) maxgrad f; guard (form_ok (d_type d) (i_form i)) (POk (de_adjust (d_type d) i, f1))).
  { intros f. unfold read_dir, read_dir_base, readDE. destruct (ReadIGESRecord f) as [| |[rec f1]]; reflexivity. }
  split.
  - intros [R F]. destruct (Y R) as (i & K & H). exists (de_adjust (d_type d) i). split.
    + destruct (fixed_one (d_type d) i) as (l & Fl & Hl). exists i, l.
      split; [exact K|]. split; [exact Fl|]. split; [exact Hl|]. repeat split.
    + intros rest. rewrite E, H. cbn [pbind]. rewrite (k_form _ _ _ K).
      apply form_ok_iff in F; [|apply R]. rewrite F. reflexivity.
  - intros NR rest. rewrite E.
    assert (D : dir_readable d \/ ~ dir_readable d).
    { destruct (accept (d_type d) d) eqn:EA; [left|right; intros X; apply accept_iff in X; auto; congruence].
      apply accept_iff in EA; auto. }
    destruct D as [R|R].
    + destruct (Y R) as (i & K & H). rewrite H. cbn [pbind]. rewrite (k_form _ _ _ K).
      destruct (form_ok (d_type d) (d_form d)) eqn:EF; [|reflexivity].
      exfalso. apply NR. split; [exact R|]. apply form_ok_iff; [apply R|exact EF].
    + rewrite (N R). reflexivity.
Qed.

(** When the Directory Entry can be written. *)
Lemma writeDE_iff d : dir_sane d -> 1 <= d_seq d ->
  ((exists out, writeDE d = Some out) <->
   d_seq d <= 9999998 /\ d_pdata d + d_count d <= 10000000 /\
   Forall (fun n => -9999999 <= n <= 99999999) [d_type d; d_pdata d; d_count d; d_weight d; d_form d; d_sub d] /\
   (d_plevel d = None -> d_level d <= 99999999)).
Proof.
  intros [P1 P2 P3 P4 P5 P6 P7 Q1 Q2 Q3 _] S1.
  destruct (status_parts (d_visible d) (d_dep d) (d_use d) (d_hier d) Q1 Q2 Q3) as (_ & _ & _ & _ & _ & SR).
  split.
  - intros (out & W). unfold writeDE in W. destruct (10000000 <? _) eqn:E0; [discriminate|].
    destruct (de_fields (de_line1 d)) as [a|] eqn:E1; [|discriminate].
    destruct (de_tail (d_seq d)) as [ta|] eqn:E2; [|discriminate].
    destruct (de_fields (de_line2 d)) as [b|] eqn:E3; [|discriminate].
    destruct (de_fields [d_sub d]) as [s|] eqn:E4; [|discriminate].
    destruct (de_tail (d_seq d + 1)) as [tb|] eqn:E5; [|discriminate]. clear W.
    apply de_fields_some in E1. destruct E1 as (_ & _ & _ & F1).
    apply de_fields_some in E3. destruct E3 as (_ & _ & _ & F2).
    apply de_fields_some in E4. destruct E4 as (_ & _ & _ & F3).
    apply de_tail_some in E5. destruct E5 as (_ & _ & _ & R5).
    unfold de_line1, de_line2 in *. rewrite !Forall_cons_iff in *. unfold neg_or in *.
    split; [lia|]. split; [lia|]. split; [intuition lia|].
    intros E. rewrite E in *. destruct (0 <=? d_level d) eqn:El; lia.
  - intros (R1 & R2 & R3 & R4). unfold writeDE. replace (10000000 <? _) with false by lia.
    rewrite !Forall_cons_iff in R3. unfold seq_ptr, neg_or, ptr_or0 in *.
    destruct (de_fields_in (de_line1 d)) as (a & ->).
    { unfold de_line1, neg_or, ptr_or0. rewrite !Forall_cons_iff. repeat split; try lia; auto.
      all: repeat match goal with |- context[match ?p with Some _ => _ | None => _ end] => destruct p eqn:? end;
        repeat match goal with |- context[if ?p then _ else _] => destruct p eqn:? end; try lia.
      all: try (specialize (R4 eq_refl); lia). }
    destruct (de_tail_in (d_seq d)) as (ta & ->); [lia|].
    destruct (de_fields_in (de_line2 d)) as (b & ->).
    { unfold de_line2, neg_or. rewrite !Forall_cons_iff. repeat split; try lia; auto.
      all: repeat match goal with |- context[match ?p with Some _ => _ | None => _ end] => destruct p eqn:? end;
        repeat match goal with |- context[if ?p then _ else _] => destruct p eqn:? end; try lia. }
    destruct (de_fields_in [d_sub d]) as (s & ->); [repeat constructor; lia|].
    destruct (de_tail_in (d_seq d + 1)) as (tb & ->); [lia|]. eauto.
Qed.

(** *** C18 *)

Lemma status_injective v dep use hier v' dep' use' hier' :
  0 <= dep <= 3 -> 0 <= use <= 6 -> 0 <= hier <= 2 -> 0 <= dep' <= 3 -> 0 <= use' <= 6 -> 0 <= hier' <= 2 ->
  status_number v dep use hier = status_number v' dep' use' hier' -> v = v' /\ dep = dep' /\ use = use' /\ hier = hier'.
Proof. unfold status_number. destruct v, v'; intros; repeat split; try reflexivity; try lia. Qed.

(** Whatever record is accepted, the flags read are those of its status field, 0
    if that is not a number. *)
Lemma status_read etype maxgrad rec f i f' : readDE_base etype maxgrad rec f = POk (i, f') ->
  exists b n, (DEItemToInt (r_data rec) 8 None = POk n \/ (DEItemToInt (r_data rec) 8 None = PFail /\ n = 0)) /\
    0 <= n < 100000000 /\ n = b * 1000000 + i_dep i * 10000 + i_use i * 100 + i_hier i /\
    (i_visible i = true /\ b = 0 \/ i_visible i = false /\ b = 1) /\
    0 <= i_dep i <= 3 /\ 0 <= i_use i <= 6 /\ 0 <= i_hier i <= 2.
Proof.
  unfold readDE_base. unfold guard at 1. destruct (Ascii.eqb _ _); [|discriminate].
  unfold guard at 1. destruct (_ && Z.odd _); [|discriminate].
  destruct (de_read _ _) as [| |l]; cbn [pbind]; try discriminate.
  unfold guard. destruct (status_ok _) eqn:ES; [|discriminate].
  destruct (readDE2 _ _ _ _) as [| |[[[[[[w c] ct] fm] lb] sb] f1]]; cbn [pbind]; try discriminate.
  destruct l as [|? [|? [|? [|? [|? [|? [|? [|? [|]]]]]]]]]; try discriminate.
  intros H. apply pok_inj in H. apply pair_inj in H. destruct H as [<- _].
  cbn [i_dep i_use i_hier i_visible].
  set (n := de_lenient (r_data rec) 8) in *.
  assert (B : (DEItemToInt (r_data rec) 8 None = POk n \/ (DEItemToInt (r_data rec) 8 None = PFail /\ n = 0)) /\ n < 100000000).
  { unfold n, de_lenient. pose proof (DEItemToInt_nocrash (r_data rec) 8 None) as NC.
    destruct (DEItemToInt _ _ _) as [| |v] eqn:E; [congruence|split; [auto|lia]|]. split; [auto|].
    apply DEItemToInt_sound in E. destruct E as (pre & s & post & _ & _ & _ & L & [[_ X]|(w' & t & r & -> & _ & S & _)]).
    - discriminate.
    - rewrite !app_length in L. apply (signed_bound8 t) in S; lia. }
  exists ((n / 1000000) mod 100), n. split; [apply B|]. unfold status_ok in ES. destruct B as [_ B].
  split; [lia|]. split; [lia|]. split; [|lia].
  destruct ((n / 1000000) mod 100 =? 0) eqn:Eb; [left|right]; lia.
Qed.

(** Status numbers with an invalid component are refused. *)
Lemma status_refused etype maxgrad rec f n : DEItemToInt (r_data rec) 8 None = POk n ->
  n < 0 \/ n mod 100 > 2 \/ (n / 100) mod 100 > 6 \/ (n / 10000) mod 100 > 3 \/ (n / 1000000) mod 100 > 1 ->
  forall i f', readDE_base etype maxgrad rec f <> POk (i, f').
Proof.
  intros E H i f' R. apply status_read in R. destruct R as (b & m & [E'|[E' _]] & R1 & R2 & R3 & R4 & R5 & R6);
    rewrite E in E'; [|discriminate]. apply pok_inj in E'. subst m.
  assert (0 <= b <= 1) by lia. clear R3 E. lia.
Qed.

(** *** C19 *)

Lemma level_entity_refused d maxgrad out s : dir_sane d -> 1 <= d_seq d -> d_plevel d = Some s -> writeDE d = Some out ->
  forall rest, read_dir (d_type d) maxgrad (mkStream (out ++ rest) false) = PFail.
Proof.
  intros S S1 L W. apply (dir_type_round d maxgrad out S S1 W). intros [[_ _ _ R _ _ _ _] _]. congruence.
Qed.

(** A negative form number. *)
Lemma negative_form_refused d maxgrad out : dir_sane d -> 1 <= d_seq d -> d_form d < 0 -> writeDE d = Some out ->
  forall rest, read_dir (d_type d) maxgrad (mkStream (out ++ rest) false) = PFail.
Proof.
  intros S S1 L W. apply (dir_type_round d maxgrad out S S1 W). intros [[_ _ _ _ _ R _ _] _]. lia.
Qed.

Lemma shells_need_form_1 d maxgrad out : dir_sane d -> 1 <= d_seq d -> d_type d = 514 -> d_form d <> 1 -> writeDE d = Some out ->
  forall rest, read_dir 514 maxgrad (mkStream (out ++ rest) false) = PFail.
Proof.
  intros S S1 T F W. rewrite <- T. apply (dir_type_round d maxgrad out S S1 W). intros [R A]. rewrite T in A.
  apply form_ok_iff in A; [|apply R]. cbn in A. lia.
Qed.
