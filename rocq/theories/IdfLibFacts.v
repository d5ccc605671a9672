(** Facts about the outlines of IDF libraries (IdfLib.v, IdfLibSpec.v). *)

From Verif Require Import Base Num IoModel IdfText IdfOutl IdfFile IdfLib Spec IdfSpec IdfOutlSpec IdfFileSpec IdfLibSpec
  IdfFacts IdfNum IdfRound IdfSect IdfLine IdfOutlFacts IdfOutlSec IdfOutlText IdfFileHead IdfFileSect IdfFileOutl IdfFileAgain.
From Verif Require Import IdfPlace IdfPlaceSpec IdfPlaceFacts.
From Coq Require Import Lia Permutation.
Open Scope Z_scope.

(** ** RECORD 2 *)

Lemma comp_unit_iff v s u : comp_unit v s = Some u <-> unit_taken v s u.
Proof.
  unfold comp_unit.
  destruct (key_cases "MM" s eq_refl) as [(C & S1)|(C & S1)]; rewrite C.
  { split; [intros H; injection H as <-; exact S1|]. destruct u; cbn; intros H; [reflexivity|pose proof (word_excl _ _ _ S1 H eq_refl eq_refl); discriminate|tauto]. }
  destruct (key_cases "THOU" s eq_refl) as [(C2 & S2')|(C2 & S2')]; rewrite C2.
  { split; [intros H; injection H as <-; exact S2'|]. destruct u; cbn; tauto. }
  destruct v.
  2: { split; [discriminate|]. destruct u; cbn; try tauto. intros (X & _). discriminate. }
  destruct (key_cases "TNM" s eq_refl) as [(C3 & S3)|(C3 & S3)]; rewrite C3.
  - split; [discriminate|]. destruct u; cbn; tauto.
  - split; [intros H; injection H as <-; cbn; tauto|]. destruct u; cbn; tauto.
Qed.

Lemma comp_line_iff v line b fs n u q : laid_out b fs line -> (comp_line v line = Some (n, u, q) <-> comp_means v fs n u q).
Proof.
  intros L0. pose proof (before_start line [] false) as B0. unfold comp_line.
  pose proof (word_laid _ _ _ _ _ L0 B0) as G. destruct fs as [|g fs]; [rewrite G; split; [discriminate|intros M; inversion M]|].
  destruct G as (s1 & r1 & E1 & _ & B1 & L1). rewrite E1.
  pose proof (word_laid _ _ _ _ _ L1 B1) as G. destruct fs as [|p fs]; [rewrite G; split; [discriminate|intros M; inversion M]|].
  destruct G as (s2 & r2 & E2 & _ & B2 & L2). rewrite E2.
  assert (NM : (value g = [] /\ value p = []) \/ (value g <> [] \/ value p <> [])).
  { destruct (value g); [|right; left; discriminate]. destruct (value p); [left; auto|right; right; discriminate]. }
  destruct NM as [(N1 & N2)|NM].
  { rewrite N1, N2. split; [discriminate|intros M; inversion M; subst; tauto]. }
  assert (SK : forall (A : Type) (x y : A), match value g, value p with [], [] => x | _, _ => y end = y).
  { intros A x y. destruct (value g); [|reflexivity]. destruct (value p); [|reflexivity]. destruct NM; congruence. }
  rewrite SK. clear SK.
  pose proof (word_laid _ _ _ _ _ L2 B2) as G. destruct fs as [|w fs]; [rewrite G; split; [discriminate|intros M; inversion M]|].
  destruct G as (s3 & r3 & E3 & _ & B3 & L3). rewrite E3.
  pose proof (word_laid _ _ _ _ _ L3 B3) as G. destruct fs as [|h fs].
  { rewrite G. split; [destruct (comp_unit v (value w)); discriminate|intros M; inversion M]. }
  destruct G as (s4 & r4 & E4 & _). rewrite E4. unfold length_field. split.
  - destruct (comp_unit v (value w)) as [u'|] eqn:CU; [|discriminate]. destruct (stream_num (value h)) as [x|] eqn:SN; [|discriminate].
    destruct (to_mm u' v x) as [y|] eqn:TM; [|discriminate]. intros H. injection H as <- <- <-. apply (comp_is v g p w h fs u' x y); auto. apply comp_unit_iff, CU.
  - intros M. inversion M as [? ? ? ? ? ? x ? NE UT SN TM]; subst. apply comp_unit_iff in UT. rewrite UT, SN, TM. reflexivity.
Qed.

(** ** Properties *)

Lemma find_some_in k v m : find (A := str) k m = Some v -> In k (map fst m).
Proof. intros F. apply find_in in F. exact (in_map fst _ _ F). Qed.

Lemma put_perm (k v : str) m : find k m = None -> Permutation (put k v m) ((k, v) :: m).
Proof.
  induction m as [|[k1 v1] m IH]; cbn [put find]; intros F; [reflexivity|].
  destruct (str_eqb k k1); [discriminate|]. destruct (str_ltb k k1); [reflexivity|].
  etransitivity; [apply perm_skip, IH, F|]. apply perm_swap.
Qed.

Lemma end_word a k : same_word ".END_" a -> is_end (a ++ k) = true.
Proof.
  intros W. pose proof (proj2 (keyword_same ".END_" a (capitals ".END_" eq_refl)) W) as C.
  unfold same_word in W. cbn in W. repeat match goal with H : Forall2 _ (_ :: _) _ |- _ => inversion H; clear H; subst end.
  match goal with H : Forall2 _ [] _ |- _ => inversion H; subst end. unfold is_end. cbn [app firstn length Nat.leb andb] in *. exact C.
Qed.

Lemma prop_no_end t : same_word "PROP" t -> is_end t = false.
Proof.
  intros W. unfold same_word in W. cbn in W. repeat match goal with H : Forall2 _ (_ :: _) _ |- _ => inversion H; clear H; subst end.
  match goal with H : Forall2 _ [] _ |- _ => inversion H; subst end. reflexivity.
Qed.

Lemma ended_props f m k : ends_props f -> read_props (S k) f m = Some (m, f).
Proof.
  intros (l & f' & b & a & t & fs & O & L & W). cbn [read_props]. rewrite (opens_line _ _ _ O).
  destruct (get_laid _ _ _ _ _ L (before_start l [] false)) as (st & r & G & T & Q & _). cbn [value in_quotes] in T, Q.
  rewrite G, Q, T, (end_word _ _ W). reflexivity.
Qed.

Lemma one_prop f p f' m k : prop_line f p f' ->
  read_props (S k) f m = match find (fst p) m with Some _ => None | None => read_props k f' (put (fst p) (snd p) m) end.
Proof.
  intros [l b t n w more O L W ->]. cbn [read_props fst snd]. rewrite (opens_line _ _ _ O).
  destruct (get_laid _ _ _ _ _ L (before_start l [] false)) as (st & r & G & T & Q & B1 & L1). cbn [value in_quotes] in T, Q.
  rewrite G, Q, T, (prop_no_end _ W).
  rewrite (proj2 (keyword_same "PROP" t (capitals "PROP" eq_refl)) W). cbn [negb].
  destruct (word_laid _ _ _ _ _ L1 B1) as (s2 & r2 & E2 & _ & B2 & L2). rewrite E2.
  destruct (word_laid _ _ _ _ _ L2 B2) as (s3 & r3 & E3 & _). rewrite E3. reflexivity.
Qed.

Lemma opens_shorter f l f' : opens f l f' -> s_eof f' = false -> (length (s_rest f') < length (s_rest f))%nat.
Proof.
  intros (bl & raw & g & -> & _ & _ & (_ & _ & E) & _) N. cbn [s_rest]. destruct E as [(rest & E & ->)|(_ & ->)]; [|discriminate].
  cbn [s_rest]. rewrite E, !app_length. cbn [length]. set (a := length (with_newlines bl)). set (b := length raw). set (c := length rest). lia.
Qed.

Lemma all_props ps : forall f g, prop_lines f ps g -> ends_props g -> forall fuel m, (length (s_rest f) < fuel)%nat ->
  in_order (map fst m) ->
  (NoDup (map fst ps) /\ (forall k, In k (map fst ps) -> ~ In k (map fst m)) ->
     exists m', read_props fuel f m = Some (m', g) /\ in_order (map fst m') /\ Permutation m' (ps ++ m)) /\
  (~ (NoDup (map fst ps) /\ (forall k, In k (map fst ps) -> ~ In k (map fst m))) -> read_props fuel f m = None).
Proof.
  induction ps as [|p ps IH]; intros f g L E fuel m FU O; (destruct fuel as [|k]; [lia|]).
  - inversion L; subst. rewrite (ended_props g m k E). split.
    + intros _. exists m. split; [reflexivity|]. split; [exact O|reflexivity].
    + intros N. exfalso. apply N. split; [constructor|intros x []].
  - inversion L as [|? ? f' ? ? PL EO L']; subst. rewrite (one_prop f p f' m k PL).
    assert (SH : (length (s_rest f') < k)%nat).
    { destruct PL as [l ? ? ? ? ? OP ? ? ?]. pose proof (opens_shorter _ _ _ OP EO). lia. }
    destruct (find (fst p) m) as [x|] eqn:F.
    + split; [|reflexivity]. intros (_ & N). exfalso. apply (N (fst p)); [left; reflexivity|]. exact (find_some_in _ _ _ F).
    + destruct (IH f' g L' E k (put (fst p) (snd p) m) SH (put_order _ _ _ O)) as (Y & N). clear IH.
      assert (EQ : (NoDup (map fst (p :: ps)) /\ (forall x, In x (map fst (p :: ps)) -> ~ In x (map fst m))) <->
                   (NoDup (map fst ps) /\ (forall x, In x (map fst ps) -> ~ In x (map fst (put (fst p) (snd p) m))))).
      { apply find_none in F. cbn [map]. split.
        - intros (D & A). inversion D; subst. split; [assumption|]. intros x I J. apply in_put in J as [->|J]; [tauto|]. exact (A x (or_intror I) J).
        - intros (D & A). split.
          + constructor; [|exact D]. intros I. apply (A _ I). apply in_put. auto.
          + intros x [<-|I]; [exact F|]. intros J. apply (A x I). apply in_put. auto. }
      split; intros H.
      * destruct (Y (proj1 EQ H)) as (m' & R & O' & P). exists m'. split; [exact R|]. split; [exact O'|]. etransitivity; [exact P|].
        etransitivity; [apply Permutation_app_head, put_perm, F|]. destruct p. symmetry. cbn [fst snd app]. apply Permutation_middle.
      * apply N. intros X. apply H, EQ, X.
Qed.

Lemma props_read f ps g : prop_lines f ps g -> ends_props g ->
  (NoDup (map fst ps) -> exists m, read_props (S (length (s_rest f))) f [] = Some (m, g) /\ in_order (map fst m) /\ Permutation m ps) /\
  (~ NoDup (map fst ps) -> read_props (S (length (s_rest f))) f [] = None).
Proof.
  intros L E. destruct (all_props ps f g L E (S (length (s_rest f))) [] ltac:(lia) ord_nil) as (Y & N). split.
  - intros D. destruct Y as (m & R & O & P); [split; [exact D|intros k _ []]|]. rewrite app_nil_r in P. eauto.
  - intros D. apply N. intros (X & _). tauto.
Qed.

(** ** Refused *)

Lemma comp_comment ccw c v com f : opens_comment f -> read_comp ccw c v com f = None.
Proof. intros O. unfold read_comp. rewrite (proj1 (comment_refused f O)). reflexivity. Qed.

Lemma comp_bad ccw c v com f l f' b fs : opens f l f' -> laid_out b fs l -> (forall n u q, ~ comp_means v fs n u q) -> read_comp ccw c v com f = None.
Proof.
  intros O L N. unfold read_comp. rewrite (opens_head _ _ _ O). destruct (s_eof f'); [reflexivity|].
  destruct (comp_line v l) as [[[n u] q]|] eqn:E; [|reflexivity]. exfalso. apply (N n u q). apply (comp_line_iff v l b fs n u q L). exact E.
Qed.

Lemma comp_tnm ccw c com f l f' b g p w fs : opens f l f' -> laid_out b (g :: p :: w :: fs) l -> same_word "TNM" (value w) -> read_comp ccw c V2 com f = None.
Proof.
  intros O L W. apply (comp_bad ccw c V2 com f l f' b (g :: p :: w :: fs) O L). intros n u q M.
  inversion M as [? ? ? ? ? ? ? ? _ UT _ _]; subst. destruct u; cbn in UT.
  - pose proof (word_excl _ _ _ W UT eq_refl eq_refl). discriminate.
  - pose proof (word_excl _ _ _ W UT eq_refl eq_refl). discriminate.
  - tauto.
Qed.

Lemma comp_more ccw c v com f o g : read_comp ccw c v com f = Some (o, g) -> s_eof g = false.
Proof.
  unfold read_comp. destruct (head_line f) as [[l f1]|]; [|discriminate]. destruct (comp_line v l) as [[[n u] q]|]; [|discriminate].
  destruct (read_outlines ccw true true u v f1) as [[ls f2]|]; [|discriminate].
  destruct (match c, v with Elect, V3 => read_props (S (length (s_rest f2))) f2 [] | _, _ => Some ([], f2) end) as [[ps f3]|]; [|discriminate].
  unfold head_line. destruct (read_line f3) as [[[x y] z]|]; [|discriminate]. destruct y; [discriminate|]. destruct (s_eof z) eqn:E; [discriminate|].
  destruct (compare_token (cls_end c) x); [|discriminate]. intros H. injection H as <- <-. exact E.
Qed.

(** An outline all of whose lines are there says what they say. *)
Lemma comp_iff ccw c v com f l f1 b fs u0 q0 n0 ls f2 : opens f l f1 -> s_eof f1 = false -> laid_out b fs l -> comp_means v fs n0 u0 q0 ->
  read_outlines ccw true true u0 v f1 = Some (ls, f2) ->
  forall ps f3, (match c, v with Elect, V3 => read_props (S (length (s_rest f2))) f2 [] | _, _ => Some ([], f2) end) = Some (ps, f3) ->
  forall e f4, opens f3 e f4 ->
  forall o g, read_comp ccw c v com f = Some (o, g) <->
    s_eof f4 = false /\ same_word (cls_end c) e /\ g = f4 /\ o = mkCout (kept com) c n0 u0 q0 ls ps.
Proof.
  intros O E1 L M R ps f3 P e f4 O4 o g. unfold read_comp. rewrite (opens_head _ _ _ O), E1.
  rewrite (proj2 (comp_line_iff v l b fs n0 u0 q0 L) M), R, P, (opens_head _ _ _ O4).
  assert (K : forallb (fun c => negb ((97 <=? code c) && (code c <=? 122))) (S2 (cls_end c)) = true) by (destruct c; reflexivity).
  destruct (s_eof f4); [split; [discriminate|intros (X & _); discriminate]|].
  destruct (key_cases (cls_end c) e K) as [(-> & W)|(-> & W)]; (split; [|intros (_ & X & -> & ->)]); try tauto; try discriminate; try reflexivity.
  intros H. injection H as <- <-. auto.
Qed.
