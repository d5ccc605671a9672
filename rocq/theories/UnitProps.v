(** The claims about units, scales, transforms and end points, proved. *)

From Coq Require Import QArith Lqa Lia ZifyBool ZifyNat ZifyN.
From Verif Require Import Base Num NumFacts IoModel EntModel EntModel2 EntModel3 GeomModel PayloadModel UnitModel UnitSpec UnitFacts.
Open Scope Z_scope.

(** ** Units *)

Lemma unit_cases : forall u a, unit_length u = Some a ->
  u = 1 \/ u = 2 \/ u = 4 \/ u = 5 \/ u = 6 \/ u = 7 \/ u = 8 \/ u = 9 \/ u = 10 \/ u = 11.
Proof.
  intros u a H. unfold unit_length in H. destruct u as [|p|p]; try discriminate.
  do 4 (destruct p as [p|p|]; try discriminate; try lia).
Qed.

Lemma unit_mm_length : forall u a, unit_length u = Some a -> exists q, unit_mm u = Some q /\ (q == a)%Q /\ (0 < a)%Q /\ u <> 3.
Proof.
  intros u a H. pose proof (unit_cases _ _ H) as C.
  repeat (destruct C as [->|C]; [injection H as <-; eexists; (split; [reflexivity|]); (split; [reflexivity|]); (split; [reflexivity|discriminate])|]).
  subst. injection H as <-; eexists; (split; [reflexivity|]); (split; [reflexivity|]); (split; [reflexivity|discriminate]).
Qed.

Definition near (cf : Q) : bool := Qlt_bool (9999998 # 10000000) cf && Qlt_bool cf (1000001 # 1000000).

Lemma units_differ : forall u v a b qa qb, unit_length u = Some a -> unit_length v = Some b -> u <> v ->
  unit_mm u = Some qa -> unit_mm v = Some qb -> Qeq_bool qb 0 = false /\ near (qa / qb) = false /\ ~ (a == b)%Q.
Proof.
  intros u v a b qa qb A B N QA QB. pose proof (unit_cases _ _ A) as CA. pose proof (unit_cases _ _ B) as CB.
  repeat (destruct CA as [->|CA]; [|]); subst;
  repeat (destruct CB as [->|CB]; [|]); subst; try (exfalso; apply N; reflexivity);
  injection A as <-; injection B as <-; injection QA as <-; injection QB as <-;
  (split; [reflexivity|]); (split; [reflexivity|]); intros E; vm_compute in E; discriminate.
Qed.

Section convert.
Context {D : Type}.
Implicit Types m : mdl D.

Lemma convert_ok : forall m u a b, unit_length (m_unit m) = Some a -> unit_length u = Some b ->
  sound (m_ents m) -> Forall supported (m_ents m) ->
  exists m', ConvertUnits m u = POk (true, m') /\ m_unit m' = u /\ m_scale m' = m_scale m /\
             (m_res m * a == m_res m' * b)%Q /\ all_rescaled a b (m_ents m) (m_ents m').
Proof.
  intros m u a b A B SO F. unfold ConvertUnits.
  destruct (m_unit m =? u) eqn:E.
  { apply Z.eqb_eq in E. subst u. rewrite A in B. injection B as <-. exists m.
    split; [reflexivity|]. split; [reflexivity|]. split; [reflexivity|]. split; [reflexivity|]. apply all_same; assumption. }
  apply Z.eqb_neq in E.
  destruct (unit_mm_length _ _ A) as (qa & QA & EA & PA & NA). destruct (unit_mm_length _ _ B) as (qb & QB & EB & PB & NB).
  rewrite (proj2 (Z.eqb_neq _ _) NA), (proj2 (Z.eqb_neq _ _) NB), QA, QB.
  destruct (units_differ _ _ _ _ _ _ A B E QA QB) as (Z & N & _). rewrite Z. cbv zeta. unfold near in N. rewrite N.
  assert (NZ : ~ (qb == 0)%Q) by (apply Qeq_bool_neq; exact Z).
  assert (H : (qa / qb * b == a)%Q) by (rewrite <- EA, <- EB; field; exact NZ).
  destruct (rescale_all_total (qa / qb) a b (m_ents m) H SO F) as (es' & R & AR). rewrite R.
  eexists. split; [reflexivity|]. cbn [m_unit m_scale m_res m_ents].
  split; [reflexivity|]. split; [reflexivity|]. split; [rewrite <- H; ring|exact AR].
Qed.

Lemma convert_compose : forall m u v m1 m2, unit_length (m_unit m) <> None -> unit_length u <> None -> unit_length v <> None ->
  sound (m_ents m) -> Forall supported (m_ents m) ->
  ConvertUnits m u = POk (true, m1) -> ConvertUnits m1 v = POk (true, m2) ->
  exists m3, ConvertUnits m v = POk (true, m3) /\ m_unit m2 = m_unit m3 /\ m_scale m2 = m_scale m3 /\
             (m_res m2 == m_res m3)%Q /\ all_rescaled 1 1 (m_ents m2) (m_ents m3).
Proof.
  intros m u v m1 m2 A B C SO F H1 H2.
  destruct (unit_length (m_unit m)) as [a|] eqn:UA; [|congruence]. destruct (unit_length u) as [b|] eqn:UB; [|congruence].
  destruct (unit_length v) as [c|] eqn:UC; [|congruence]. clear A B C.
  destruct (convert_ok m u a b UA UB SO F) as (m1' & E1 & U1 & S1 & R1 & A1). rewrite H1 in E1. injection E1 as <-.
  assert (UB1 : unit_length (m_unit m1) = Some b) by (rewrite U1; exact UB).
  destruct (convert_ok m1 v b c UB1 UC (all_sound _ _ _ _ A1 SO) (all_supported _ _ _ _ A1)) as (m2' & E2 & U2 & S2 & R2 & A2).
  rewrite H2 in E2. injection E2 as <-.
  destruct (convert_ok m v a c UA UC SO F) as (m3 & E3 & U3 & S3 & R3 & A3).
  destruct (unit_mm_length _ _ UA) as (_ & _ & _ & PA & _). destruct (unit_mm_length _ _ UB) as (_ & _ & _ & PB & _).
  destruct (unit_mm_length _ _ UC) as (_ & _ & _ & PC & _).
  exists m3. split; [exact E3|]. split; [congruence|]. split; [congruence|]. split.
  - assert (NC : ~ (c == 0)%Q) by lra. apply (Qmult_inj_r _ _ c NC). rewrite <- R2, <- R1, R3. reflexivity.
  - apply (all_factor c c 1 1); try lra.
    eapply all_trans; [|apply all_flip|exact A3]; [lra|]. eapply all_trans; [|exact A1|exact A2]. lra.
Qed.

Lemma convert_there_and_back : forall m u m1, unit_length (m_unit m) <> None -> unit_length u <> None ->
  sound (m_ents m) -> Forall supported (m_ents m) -> ConvertUnits m u = POk (true, m1) ->
  exists m2, ConvertUnits m1 (m_unit m) = POk (true, m2) /\ m_unit m2 = m_unit m /\ m_scale m2 = m_scale m /\
             (m_res m2 == m_res m)%Q /\ all_rescaled 1 1 (m_ents m2) (m_ents m).
Proof.
  intros m u m1 A B SO F H1.
  destruct (unit_length (m_unit m)) as [a|] eqn:UA; [|congruence]. destruct (unit_length u) as [b|] eqn:UB; [|congruence].
  destruct (convert_ok m u a b UA UB SO F) as (m1' & E1 & U1 & S1 & R1 & A1). rewrite H1 in E1. injection E1 as <-.
  assert (UB1 : unit_length (m_unit m1) = Some b) by (rewrite U1; exact UB).
  destruct (convert_ok m1 _ b a UB1 UA (all_sound _ _ _ _ A1 SO) (all_supported _ _ _ _ A1)) as (m2 & E2 & _).
  exists m2. split; [exact E2|].
  destruct (convert_compose m u (m_unit m) m1 m2 ltac:(congruence) ltac:(congruence) ltac:(congruence) SO F H1 E2)
    as (m3 & E3 & X1 & X2 & X3 & X4).
  unfold ConvertUnits in E3. rewrite Z.eqb_refl in E3. injection E3 as <-. auto.
Qed.

Lemma convert_extern : forall m u, m_unit m <> u -> m_unit m = 3 \/ u = 3 -> ConvertUnits m u = POk (false, m).
Proof.
  intros m u N [E|E]; unfold ConvertUnits; rewrite (proj2 (Z.eqb_neq _ _) N).
  - rewrite E. reflexivity.
  - subst u. destruct (m_unit m =? 3); reflexivity.
Qed.

Lemma convert_outside : forall m u a, unit_length (m_unit m) = Some a -> u < 1 \/ 11 < u -> ConvertUnits m u = PCrash.
Proof.
  intros m u a A O. destruct (unit_mm_length _ _ A) as (qa & QA & EA & PA & NA). pose proof (unit_cases _ _ A) as C.
  unfold ConvertUnits. destruct (m_unit m =? u) eqn:E1; [apply Z.eqb_eq in E1; lia|].
  rewrite (proj2 (Z.eqb_neq _ _) NA). destruct (u =? 3) eqn:E3; [apply Z.eqb_eq in E3; lia|].
  rewrite QA. unfold unit_mm. destruct (u <? 1) eqn:L; [reflexivity|].
  assert (U : u = 12 \/ 12 < u) by lia. destruct U as [->|U]; [reflexivity|].
  destruct (nth_error unit_table (Z.to_nat (u - 1))) eqn:N; [|reflexivity].
  assert (Z.to_nat (u - 1) < length unit_table)%nat by (apply nth_error_Some; congruence). cbn [length unit_table] in *. lia.
Qed.

Lemma convert_not_atomic : forall m u a b l1 it l2, unit_length (m_unit m) = Some a -> unit_length u = Some b -> m_unit m <> u ->
  sound (m_ents m) -> m_ents m = l1 ++ it :: l2 -> Forall supported l1 -> ~ supported it ->
  exists m' l1', ConvertUnits m u = POk (false, m') /\ m_unit m' = m_unit m /\ m_scale m' = m_scale m /\
    ~ (a == b)%Q /\ (m_res m * a == m_res m' * b)%Q /\ m_ents m' = l1' ++ it :: l2 /\ length l1' = length l1 /\
    forall i x x', nth_error l1 i = Some x -> nth_error l1' i = Some x' -> item_rescaled (m_ents m) a b i x x'.
Proof.
  intros m u a b l1 it l2 A B E SO ES F NS. unfold ConvertUnits.
  rewrite (proj2 (Z.eqb_neq _ _) E).
  destruct (unit_mm_length _ _ A) as (qa & QA & EA & PA & NA). destruct (unit_mm_length _ _ B) as (qb & QB & EB & PB & NB).
  rewrite (proj2 (Z.eqb_neq _ _) NA), (proj2 (Z.eqb_neq _ _) NB), QA, QB.
  destruct (units_differ _ _ _ _ _ _ A B E QA QB) as (Z & N & AB). rewrite Z. cbv zeta. unfold near in N. rewrite N.
  assert (NZ : ~ (qb == 0)%Q) by (apply Qeq_bool_neq; exact Z).
  assert (H : (qa / qb * b == a)%Q) by (rewrite <- EA, <- EB; field; exact NZ).
  destruct (rescale_all_ok (qa / qb) a b (m_ents m) H SO l1 [] (it :: l2) ES F) as (l1' & [L S] & _ & R).
  specialize (R it l2 eq_refl NS). cbn [length] in R. rewrite <- ES in R. rewrite R.
  eexists. exists l1'. split; [reflexivity|]. cbn [m_unit m_scale m_res m_ents].
  split; [reflexivity|]. split; [reflexivity|]. split; [exact AB|]. split; [rewrite <- H; ring|]. split; [reflexivity|].
  split; [exact L|]. exact S.
Qed.

(** ** Scales *)

Lemma Qlt_bool_false : forall a b : Q, (b <= a)%Q -> Qlt_bool a b = false.
Proof. intros a b H. unfold Qlt_bool. apply Qle_bool_iff in H. rewrite H. reflexivity. Qed.
Lemma Qlt_bool_true : forall a b : Q, (a < b)%Q -> Qlt_bool a b = true.
Proof.
  intros a b H. unfold Qlt_bool. destruct (Qle_bool b a) eqn:E; [|reflexivity].
  apply Qle_bool_iff in E. exfalso. lra.
Qed.

Lemma scale_change : forall m t, scale_ok t -> (0 < m_scale m)%Q -> sound (m_ents m) -> Forall supported (m_ents m) ->
  exists m', ChangeModelScale m t = POk (true, m') /\ m_unit m' = m_unit m /\ m_scale m' = t /\
             (m_res m' == m_res m * t)%Q /\ all_rescaled t (m_scale m) (m_ents m) (m_ents m').
Proof.
  intros m t [T1 T2] P SO F. unfold ChangeModelScale. rewrite !Qlt_bool_false by assumption.
  assert (H : (t / m_scale m * m_scale m == t)%Q) by (field; lra).
  destruct (rescale_all_total (t / m_scale m) t (m_scale m) (m_ents m) H SO F) as (es' & R & AR). rewrite R.
  eexists. split; [reflexivity|]. cbn [m_unit m_scale m_res m_ents]. repeat (split; [reflexivity|]). exact AR.
Qed.

Lemma scale_refused : forall m t, ~ scale_ok t -> ChangeModelScale m t = POk (false, m).
Proof.
  intros m t N. unfold ChangeModelScale. destruct (Qlt_le_dec t (6 # 100000000)) as [L|L].
  - rewrite Qlt_bool_true by exact L. reflexivity.
  - rewrite Qlt_bool_false by exact L. rewrite Qlt_bool_true; [reflexivity|].
    apply Qnot_le_lt. intros X. apply N. split; assumption.
Qed.

Lemma scale_not_atomic : forall m t l1 it l2, scale_ok t -> (0 < m_scale m)%Q ->
  sound (m_ents m) -> m_ents m = l1 ++ it :: l2 -> Forall supported l1 -> ~ supported it ->
  exists m' l1', ChangeModelScale m t = POk (false, m') /\ m_unit m' = m_unit m /\ m_scale m' = t /\
    (m_res m' == m_res m * t)%Q /\ m_ents m' = l1' ++ it :: l2 /\ length l1' = length l1 /\
    forall i x x', nth_error l1 i = Some x -> nth_error l1' i = Some x' -> item_rescaled (m_ents m) t (m_scale m) i x x'.
Proof.
  intros m t l1 it l2 [T1 T2] P SO ES F NS. unfold ChangeModelScale. rewrite !Qlt_bool_false by assumption.
  assert (H : (t / m_scale m * m_scale m == t)%Q) by (field; lra).
  destruct (rescale_all_ok (t / m_scale m) t (m_scale m) (m_ents m) H SO l1 [] (it :: l2) ES F) as (l1' & [L S] & _ & R).
  specialize (R it l2 eq_refl NS). cbn [length] in R. rewrite <- ES in R. rewrite R.
  eexists. exists l1'. split; [reflexivity|]. cbn [m_unit m_scale m_res m_ents]. repeat (split; [reflexivity|]).
  split; [exact L|]. exact S.
Qed.

(** The resolution keeps its proportion to the lengths only from scale 1. *)
Lemma scale_resolution : forall m t m', scale_ok t -> (0 < m_scale m)%Q -> ~ (m_res m == 0)%Q ->
  ChangeModelScale m t = POk (true, m') -> ((m_res m * t == m_res m' * m_scale m)%Q <-> (m_scale m == 1)%Q).
Proof.
  intros m t m' [T1 T2] P NZ H. unfold ChangeModelScale in H. rewrite !Qlt_bool_false in H by assumption.
  destruct (rescale_all (m_ents m) 0 (t / m_scale m) (m_ents m)) as [| |[b es]]; try discriminate.
  injection H as -> <-. cbn [m_res]. split; intros E.
  - assert (X : (~ m_res m * t == 0)%Q) by (intros X; apply Qmult_integral in X; destruct X; [tauto|lra]).
    apply (Qmult_inj_l _ _ (m_res m * t) X). rewrite <- E. ring.
  - rewrite E. ring.
Qed.

(** ** Names *)

Lemma unit_name_next : forall u, 1 <= u <= 10 -> GetUnitName u = unit_abbrev (u + 1).
Proof.
  intros u H. assert (C : u = 1 \/ u = 2 \/ u = 3 \/ u = 4 \/ u = 5 \/ u = 6 \/ u = 7 \/ u = 8 \/ u = 9 \/ u = 10) by lia.
  repeat (destruct C as [->|C]; [reflexivity|]). subst. reflexivity.
Qed.

Lemma unit_name_last : GetUnitName 11 = Some [].
Proof. reflexivity. Qed.

Lemma unit_name_never : forall u, 1 <= u <= 11 -> GetUnitName u <> unit_abbrev u.
Proof.
  intros u H. assert (C : u = 1 \/ u = 2 \/ u = 3 \/ u = 4 \/ u = 5 \/ u = 6 \/ u = 7 \/ u = 8 \/ u = 9 \/ u = 10 \/ u = 11) by lia.
  repeat (destruct C as [->|C]; [discriminate|]). subst. discriminate.
Qed.

End convert.
