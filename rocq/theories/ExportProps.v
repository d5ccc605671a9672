(** Proofs about the export of models: data, names, the whole. *)

From Coq Require Import QArith Lqa List Bool ZArith Lia ZifyBool.
From Verif Require Import Base Num IoModel EntModel GeomModel PayloadModel UnitModel UnitSpec UnitFacts UnitProps.
From Verif Require Import GraphModel GraphSpec GraphFacts ExportModel ExportSpec ExportFacts.
Import ListNotations.
Open Scope Z_scope.

(** ** Conversion *)

Section conv.
Context {D : Type}.
Implicit Types m : mdl D.

Lemma rescale_defined es s : sound es -> forall (l pre : list (item D)), es = pre ++ l ->
  exists b l', rescale_all es (length pre) s l = POk (b, l') /\ map it_parent l' = map it_parent l /\ map it_trans l' = map it_trans l.
Proof.
  intros SO l. induction l as [|it l IH]; intros pre E; [exists true, []; split; [reflexivity|split; reflexivity]|].
  destruct (IH (pre ++ [it])) as (b & l' & R & P & Tr); [now rewrite <- app_assoc|].
  rewrite app_length in R. cbn [length] in R. rewrite Nat.add_1_r in R.
  assert (N : nth_error es (length pre) = Some it).
  { rewrite E, nth_error_app2 by lia. now rewrite Nat.sub_diag. }
  cbn [rescale_all]. destruct (it_data it) as [p|] eqn:X.
  - destruct (rescale_item_ok es (length pre) it s (s * 1)%Q 1%Q ltac:(reflexivity) N) as (it' & H & K).
    { apply SO. apply nth_error_Some. congruence. }
    { unfold supported. congruence. }
    rewrite H, R. exists b, (it' :: l'). split; [reflexivity|]. destruct K as (K1 & K2 & _). cbn [map]. rewrite K1, K2, P, Tr. auto.
  - unfold rescale_item. rewrite X. exists false, (it :: l). split; [reflexivity|auto].
Qed.

Lemma parents_sound (es es' : list (item D)) : map it_parent es' = map it_parent es -> sound es -> sound es'.
Proof.
  intros E SO i L. assert (LE : length es' = length es) by (rewrite <- (map_length it_parent es'), E; apply map_length).
  assert (P : forall i, parent_at es' i = parent_at es i).
  { intros j. unfold parent_at, obind. assert (H : nth_error (map it_parent es') j = nth_error (map it_parent es) j) by now rewrite E.
    rewrite !nth_error_map in H. destruct (nth_error es' j), (nth_error es j); cbn in H; congruence. }
  specialize (SO i ltac:(lia)). clear L. induction SO as [i Pi|i k Pi K C IH]; [apply climbs_end|eapply climbs_up].
  - now rewrite P.
  - rewrite P. exact Pi.
  - lia.
  - exact IH.
Qed.

Lemma scale_defined m t : sound (m_ents m) ->
  exists b m1, ChangeModelScale m t = POk (b, m1) /\ m_unit m1 = m_unit m /\ sound (m_ents m1).
Proof.
  intros SO. unfold ChangeModelScale. destruct (Qlt_bool t _); [exists false, m; auto|]. destruct (Qlt_bool _ t); [exists false, m; auto|].
  destruct (rescale_defined (m_ents m) (t / m_scale m)%Q SO (m_ents m) [] eq_refl) as (b & l' & R & P & _).
  cbn [length] in R. rewrite R. eexists b, _. split; [reflexivity|]. cbn. split; [reflexivity|]. eapply parents_sound; eauto.
Qed.

Lemma units_defined m u : sound (m_ents m) -> a_unit (m_unit m) -> a_unit u ->
  exists b m1, ConvertUnits m u = POk (b, m1) /\ sound (m_ents m1).
Proof.
  intros SO A B. destruct (Z.eq_dec (m_unit m) u) as [E|E].
  { exists true, m. unfold ConvertUnits. rewrite (proj2 (Z.eqb_eq _ _) E). auto. }
  destruct (Z.eq_dec (m_unit m) 3) as [E3|E3]; [exists false, m; split; [apply convert_extern; auto|exact SO]|].
  destruct (Z.eq_dec u 3) as [E4|E4]; [exists false, m; split; [apply convert_extern; auto|exact SO]|].
  destruct A as [A|A]; [|contradiction]. destruct B as [B|B]; [|contradiction].
  destruct (unit_length (m_unit m)) as [a|] eqn:UA; [|contradiction]. destruct (unit_length u) as [b|] eqn:UB; [|contradiction].
  unfold ConvertUnits. rewrite (proj2 (Z.eqb_neq _ _) E), (proj2 (Z.eqb_neq _ _) E3), (proj2 (Z.eqb_neq _ _) E4).
  destruct (unit_mm_length _ _ UA) as (qa & QA & _). destruct (unit_mm_length _ _ UB) as (qb & QB & _). rewrite QA, QB.
  destruct (units_differ _ _ _ _ _ _ UA UB E QA QB) as (Z & N & _). rewrite Z. cbv zeta. unfold near in N. rewrite N.
  destruct (rescale_defined (m_ents m) (qa / qb)%Q SO (m_ents m) [] eq_refl) as (c & l' & R & P & _).
  cbn [length] in R. rewrite R. eexists c, _. split; [reflexivity|]. cbn. eapply parents_sound; eauto.
Qed.

Lemma convert_defined m t : sound (m_ents m) -> a_unit (m_unit m) -> a_unit (ta_unit t) -> exists m', convert m t = Some m'.
Proof.
  intros SO A B. unfold convert.
  assert (X : exists b m1, (if Qeq_bool (m_scale m) (ta_scale t) then POk (true, m) else ChangeModelScale m (ta_scale t)) = POk (b, m1) /\
             m_unit m1 = m_unit m /\ sound (m_ents m1)).
  { destruct (Qeq_bool _ _); [exists true, m; auto|]. apply scale_defined. exact SO. }
  destruct X as (b & m1 & X & U & S1). rewrite X.
  destruct (m_unit m1 =? ta_unit t) eqn:Eq; [eexists; reflexivity|].
  destruct (units_defined m1 (ta_unit t) S1) as (c & m2 & Y & _); [now rewrite U|exact B|]. rewrite Y. eexists; reflexivity.
Qed.

(** All goes well. *)
Lemma convert_right m t a b : sound (m_ents m) -> Forall supported (m_ents m) -> (0 < m_scale m)%Q ->
  scale_ok (ta_scale t) -> unit_length (m_unit m) = Some a -> unit_length (ta_unit t) = Some b ->
  exists m', convert m t = Some m' /\ m_unit m' = ta_unit t /\ (m_scale m' == ta_scale t)%Q /\
    all_rescaled (ta_scale t * a) (m_scale m * b) (m_ents m) (m_ents m').
Proof.
  intros SO F P TS UA UB.
  destruct (unit_mm_length _ _ UA) as (qa & _ & _ & PA & _). destruct (unit_mm_length _ _ UB) as (qb & _ & _ & PB & _).
  assert (PT : (0 < ta_scale t)%Q) by (destruct TS as [TS _]; lra).
  unfold convert.
  assert (X : exists m1 c, (if Qeq_bool (m_scale m) (ta_scale t) then POk (true, m) else ChangeModelScale m (ta_scale t)) = POk (c, m1) /\
             m_unit m1 = m_unit m /\ (m_scale m1 == ta_scale t)%Q /\ all_rescaled (ta_scale t) (m_scale m) (m_ents m) (m_ents m1)).
  { destruct (Qeq_bool _ _) eqn:E.
    - apply Qeq_bool_iff in E. exists m, true. split; [reflexivity|]. split; [reflexivity|]. split; [exact E|].
      apply (all_factor 1 1); [discriminate|lra|lra|]. apply all_same; assumption.
    - destruct (scale_change m (ta_scale t) TS P SO F) as (m1 & H & U & S1 & _ & R).
      exists m1, true. split; [exact H|]. split; [exact U|]. split; [now rewrite S1|exact R]. }
  destruct X as (m1 & c & X & U & S1 & R1). rewrite X.
  assert (Y : exists m2 c, (if m_unit m1 =? ta_unit t then POk (true, m1) else ConvertUnits m1 (ta_unit t)) = POk (c, m2) /\
             m_unit m2 = ta_unit t /\ m_scale m2 = m_scale m1 /\ all_rescaled a b (m_ents m1) (m_ents m2)).
  { pose proof (all_sound _ _ _ _ R1 SO) as SO1. pose proof (all_supported _ _ _ _ R1) as F1.
    destruct (m_unit m1 =? ta_unit t) eqn:E.
    - apply Z.eqb_eq in E. exists m1, true. split; [reflexivity|]. split; [exact E|]. split; [reflexivity|].
      assert (a = b) by congruence. subst b. apply all_same; assumption.
    - destruct (convert_ok m1 (ta_unit t) a b) as (m2 & H & U2 & S2 & _ & R2); try assumption; [congruence|].
      exists m2, true. auto. }
  destruct Y as (m2 & c2 & Y & U2 & S2 & R2). rewrite Y. exists m2. split; [reflexivity|]. split; [exact U2|]. split; [now rewrite S2|].
  assert (Nt : (~ m_scale m * b == 0)%Q). { intros X0. apply Qmult_integral in X0. destruct X0; lra. }
  apply (all_trans _ (m_scale m * a)%Q _ _ (m_ents m1)).
  - intros X0. apply Qmult_integral in X0. destruct X0; lra.
  - apply (all_factor (ta_scale t) (m_scale m)); [lra| |ring|exact R1].
    intros X0. apply Qmult_integral in X0. destruct X0; lra.
  - apply (all_factor a b); [lra|exact Nt|ring|exact R2].
Qed.

(** Units without conversion. *)
Lemma convert_custom m t : m_unit m <> ta_unit t -> m_unit m = 3 \/ ta_unit t = 3 -> (m_scale m == ta_scale t)%Q -> convert m t = Some m.
Proof.
  intros N X E. unfold convert. rewrite (proj2 (Qeq_bool_iff _ _) E). rewrite (proj2 (Z.eqb_neq _ _) N).
  rewrite (convert_extern m _ N X). reflexivity.
Qed.
Lemma convert_bad_scale m t : m_unit m = ta_unit t -> ~ scale_ok (ta_scale t) -> ~ (m_scale m == ta_scale t)%Q -> convert m t = Some m.
Proof.
  intros N X E. unfold convert. destruct (Qeq_bool _ _) eqn:Q; [apply Qeq_bool_iff in Q; contradiction|].
  rewrite (scale_refused m _ X). rewrite N, Z.eqb_refl. reflexivity.
Qed.
Lemma convert_half m t a b l1 it l2 : (m_scale m == ta_scale t)%Q -> m_unit m <> ta_unit t -> unit_length (m_unit m) = Some a ->
  unit_length (ta_unit t) = Some b -> sound (m_ents m) -> m_ents m = l1 ++ it :: l2 -> Forall supported l1 -> ~ supported it ->
  exists m' l1', convert m t = Some m' /\ m_unit m' = m_unit m /\ m_ents m' = l1' ++ it :: l2 /\ length l1' = length l1 /\ ~ (a == b)%Q /\
    forall i x x', nth_error l1 i = Some x -> nth_error l1' i = Some x' -> item_rescaled (m_ents m) a b i x x'.
Proof.
  intros Sc N UA UB SO E F NS.
  destruct (convert_not_atomic m (ta_unit t) a b l1 it l2 UA UB N SO E F NS) as (m' & l1' & H & U & _ & AB & _ & E' & L & R).
  exists m', l1'. split; [|auto]. unfold convert. rewrite (proj2 (Qeq_bool_iff _ _) Sc). rewrite (proj2 (Z.eqb_neq _ _) N), H. reflexivity.
Qed.

End conv.

(** ** Line weights *)

Lemma weights_defined mine theirs ws : 1 <= mine -> 1 <= theirs <= 2147483647 -> Forall (in_range mine) ws ->
  exists q vs, rate mine theirs = Some q /\ weights q ws = Some vs /\ Forall2 (weighs mine theirs) ws vs /\ Forall (in_range theirs) vs.
Proof.
  intros A B F. exists (theirs / mine). unfold rate. destruct (mine =? 0) eqn:Z0; [lia|].
  rewrite Z.quot_div_nonneg by lia.
  assert (Q0 : 0 <= theirs / mine) by (apply Z.div_pos; lia).
  assert (Q1 : mine * (theirs / mine) <= theirs) by (apply Z.mul_div_le; lia).
  induction F as [|w ws Hw _ (vs & E0 & E & W & R)]; [exists []; repeat split; constructor|].
  unfold in_range in Hw. cbn [weights]. rewrite E.
  assert (X : exists v, weight (theirs / mine) w = Some v /\ weighs mine theirs w v /\ in_range theirs v).
  { unfold weight, weighs, in_range. destruct (w >? 0) eqn:P.
    - assert (w * (theirs / mine) <= theirs) by nia. assert (0 <= w * (theirs / mine)) by nia.
      destruct ((w * (theirs / mine) <? -2147483648) || (w * (theirs / mine) >? 2147483647)) eqn:G; [lia|].
      eexists. split; [reflexivity|]. destruct (w * (theirs / mine) =? 0) eqn:Z1; (split; [right; split; lia|lia]).
    - assert (w = 0) by lia. subst. exists 0. split; [reflexivity|]. split; [left; auto|lia]. }
  destruct X as (v & Ev & Wv & Rv). rewrite Ev. exists (v :: vs). split; [reflexivity|]. split; [reflexivity|]. split; constructor; assumption.
Qed.

Lemma weighs_same mine w v : 1 <= mine -> weighs mine mine w v -> v = w.
Proof. intros H [[-> ->]|[A ->]]; [reflexivity|]. rewrite Z.div_same by lia. lia. Qed.
Lemma weighs_coarser mine theirs w v : 0 <= theirs < mine -> weighs mine theirs w v -> 0 < w -> v = 1.
Proof. intros H [[-> ->]|[A ->]] P; [lia|]. rewrite Z.div_small by lia. lia. Qed.
Lemma weighs_fun mine theirs w v v' : weighs mine theirs w v -> weighs mine theirs w v' -> v = v'.
Proof. unfold weighs. lia. Qed.

(** ** Names *)

Lemma last_dot_ok s : match last_dot s with
  | Some k => exists ext, s = firstn k s ++ "."%char :: ext /\ ~ In "."%char ext /\ length (firstn k s) = k
  | None => ~ In "."%char s end.
Proof.
  induction s as [|c s IH]; cbn [last_dot]; [intros []|].
  destruct (last_dot s) as [k|] eqn:E.
  - destruct IH as (ext & A & B & C). exists ext. cbn [firstn app length]. rewrite <- A. auto.
  - destruct (Ascii.eqb c ".") eqn:X.
    + apply Ascii.eqb_eq in X. subst c. exists s. split; [reflexivity|]. split; [exact IH|reflexivity].
    + intros [H|H]; [subst; discriminate X|contradiction].
Qed.
Lemma package_name_ok now b f : f <> [] -> without_extension f (package_name now b f).
Proof.
  intros N. assert (E : package_name now b f = match last_dot f with Some (S k) => firstn (S k) f | _ => f end) by (destruct f; [contradiction|reflexivity]).
  rewrite E. pose proof (last_dot_ok f) as H. destruct (last_dot f) as [[|k]|] eqn:L.
  - destruct H as (ext & A & B & C). cbn in A. right. split; [reflexivity|]. right. eauto.
  - destruct H as (ext & A & B & C). left. exists ext. split; [exact A|]. split; [exact B|].
    intros X. rewrite X in C. discriminate.
  - right. auto.
Qed.
Lemma without_fun f b b' : without_extension f b -> without_extension f b' -> b = b'.
Proof.
  assert (G : forall a e a' e' : str, a ++ "."%char :: e = a' ++ "."%char :: e' -> ~ In "."%char e -> ~ In "."%char e' -> a = a').
  { induction a as [|x a IH]; intros e [|y a'] e' H N N'; cbn in H.
    - reflexivity.
    - injection H as <- ->. exfalso. apply N. apply in_or_app. right. now left.
    - injection H as -> <-. exfalso. apply N'. apply in_or_app. right. now left.
    - injection H as <- H. f_equal. eapply IH; eauto. }
  intros [(e & A & B & C)|(A & B)] [(e' & A' & B' & C')|(A' & B')].
  - eapply G; [rewrite <- A; exact A'|assumption|assumption].
  - exfalso. destruct B' as [B'|(x & X & Y)]; [apply B'; rewrite A; apply in_or_app; right; now left|].
    apply C. symmetry. apply (G [] x b e); [now rewrite <- X, <- A|assumption|assumption].
  - exfalso. destruct B as [B|(x & X & Y)]; [apply B; rewrite A'; apply in_or_app; right; now left|].
    apply C'. symmetry. apply (G [] x b' e'); [now rewrite <- X, <- A'|assumption|assumption].
  - congruence.
Qed.
