(** Circular arcs: the radius checks. *)

From Coq Require Import Lia ZifyBool ZifyNat ZifyN QArith Qabs Lqa.
From Verif Require Import Base Num Spec NumFacts IoModel FieldFacts LineFacts TokenFacts RealFacts RecordFacts
  ParamFacts PutModel BuildFacts StreamFacts PdModel PdFacts EntModel EntSpec EntFacts EntProps EntProps2.
Open Scope Z_scope.

Ltac Zify.zify_post_hook ::= Z.div_mod_to_equations.

Lemma Qlt_bool_iff a b : Qlt_bool a b = true <-> (a < b)%Q.
Proof.
  split; [|apply Qlt_bool_true]. unfold Qlt_bool. intros H. destruct (Qle_bool b a) eqn:E; [discriminate|].
  destruct (Qlt_le_dec a b) as [|L]; [assumption|]. apply Qle_bool_iff in L. congruence.
Qed.

Lemma Qlt_bool_no a b : Qlt_bool a b = false <-> (b <= a)%Q.
Proof.
  split; [|apply Qlt_bool_false]. intros H. destruct (Qlt_le_dec a b) as [L|]; [|assumption]. apply Qlt_bool_true in L. congruence.
Qed.

Lemma sq_nonneg (a : Q) : (0 <= a * a)%Q.
Proof.
  destruct a as [n d]. unfold Qle, Qmult. cbn [Qnum Qden]. nia.
Qed.

Lemma PointMatches_iff x1 y1 x2 y2 res : PointMatches x1 y1 x2 y2 res = true <-> coincide res x1 y1 x2 y2.
Proof.
  unfold PointMatches, coincide. set (d := ((x2 - x1) * (x2 - x1) + (y2 - y1) * (y2 - y1))%Q).
  set (n1 := (x1 * x1 + y1 * y1)%Q). set (n2 := (x2 * x2 + y2 * y2)%Q).
  assert (D : (0 <= d)%Q) by (unfold d; pose proof (sq_nonneg (x2 - x1)); pose proof (sq_nonneg (y2 - y1)); lra). assert (N1 : (0 <= n1)%Q) by (unfold n1; pose proof (sq_nonneg x1); pose proof (sq_nonneg y1); lra). assert (N2 : (0 <= n2)%Q) by (unfold n2; pose proof (sq_nonneg x2); pose proof (sq_nonneg y2); lra).
  set (t := (res * res)%Q). assert (T : (0 <= t)%Q) by (unfold t; apply sq_nonneg).
  assert (TT : ((30001 # 10000) * res * res == (30001 # 10000) * t)%Q) by (unfold t; ring).
  clearbody d n1 n2. cbv zeta.
  set (s := if Qlt_bool 1000000000000000 n1 || Qlt_bool 1000000000000000 n2 then (1 / (if Qlt_bool n1 n2 then n2 else n1))%Q else 1%Q).
  assert (SS : (0 < s)%Q /\ ((n1 <= 1000000000000000)%Q /\ (n2 <= 1000000000000000)%Q /\ (s == 1)%Q \/
    exists m, (s * m == 1)%Q /\ ((1000000000000000 < n1)%Q /\ (n2 <= n1)%Q /\ m = n1 \/ (1000000000000000 < n2)%Q /\ (n1 <= n2)%Q /\ m = n2))).
  { unfold s. destruct (Qlt_bool 1000000000000000 n1 || Qlt_bool 1000000000000000 n2) eqn:B.
    - destruct (Qlt_bool n1 n2) eqn:B2.
      + apply Qlt_bool_iff in B2. assert (L : (1000000000000000 < n2)%Q).
        { apply orb_true_iff in B. destruct B as [B|B]; apply Qlt_bool_iff in B; lra. }
        assert (E : (1 / n2 * n2 == 1)%Q) by (field; lra). split; [|right; exists n2; split; [exact E|right; split; [lra|split; [lra|reflexivity]]]].
        apply Qlt_shift_div_l; lra.
      + apply Qlt_bool_no in B2. assert (L : (1000000000000000 < n1)%Q).
        { apply orb_true_iff in B. destruct B as [B|B]; apply Qlt_bool_iff in B; lra. }
        assert (E : (1 / n1 * n1 == 1)%Q) by (field; lra). split; [|right; exists n1; split; [exact E|left; split; [lra|split; [lra|reflexivity]]]].
        apply Qlt_shift_div_l; lra.
    - apply orb_false_iff in B. destruct B as [B1 B2]. apply Qlt_bool_no in B1, B2. split; [lra|]. left. split; [|split]; lra. }
  clearbody s. destruct SS as [SP SS]. set (E := 3 # 1000000000000000000000000000000).
  assert (EQ : negb (Qlt_bool (if Qlt_bool ((30001 # 10000) * res * res * s) E then E else (30001 # 10000) * res * res * s) (d * s)) = true <->
    ((d * s <= (30001 # 10000) * t * s)%Q \/ (d * s <= E)%Q)).
  { rewrite negb_true_iff, Qlt_bool_no. destruct (Qlt_bool _ E) eqn:B.
    - apply Qlt_bool_iff in B. rewrite TT in B. split; [tauto|]. intros [H|H]; lra.
    - apply Qlt_bool_no in B. rewrite TT in *. split; [tauto|]. intros [H|H]; lra. }
  rewrite EQ. clear EQ TT.
  assert (C1 : (d * s <= (30001 # 10000) * t * s)%Q <-> (d <= (30001 # 10000) * t)%Q).
  { split; intros H; [apply Qmult_le_r in H; assumption|apply Qmult_le_r; assumption]. }
  rewrite C1. clear C1. change (fun q : Q => (d <= q)%Q) with (Qle d).
  destruct SS as [(A & B & S1)|(m & SM & [(A & B & ->)|(A & B & ->)])].
  - assert (DS : (d * s == d)%Q) by (rewrite S1; ring). rewrite DS. unfold E. clear - A B.
    split; [intros [H|H]; [left; exact H|right; left; split; [exact A|split; [exact B|exact H]]]|].
    intros [H|[(_ & _ & H)|[(H & _)|(H & _)]]]; [left; exact H|right; exact H|lra|lra].
  - assert (C : (d * s <= E)%Q <-> (d <= E * n1)%Q).
    { rewrite <- (Qmult_le_r _ _ n1) by lra. assert (X : (d * s * n1 == d)%Q) by (rewrite <- Qmult_assoc, SM; ring). rewrite X. reflexivity. }
    rewrite C. unfold E. split.
    + intros [H|H]; [left; exact H|]. right; right; left. split; [exact A|]. split; [exact B|exact H].
    + intros [H|[(H1 & _)|[(_ & _ & H)|(H1 & H2 & H)]]]; [left; exact H|lra|right; exact H|]. right. clear - H1 H2 H A B.
      assert (n1 == n2)%Q by lra. rewrite H0. exact H.
  - assert (C : (d * s <= E)%Q <-> (d <= E * n2)%Q).
    { rewrite <- (Qmult_le_r _ _ n2) by lra. assert (X : (d * s * n2 == d)%Q) by (rewrite <- Qmult_assoc, SM; ring). rewrite X. reflexivity. }
    rewrite C. unfold E. split.
    + intros [H|H]; [left; exact H|]. right; right; right. split; [exact A|]. split; [exact B|exact H].
    + intros [H|[(_ & H1 & _)|[(H1 & H2 & H)|(_ & _ & H)]]]; [left; exact H|lra| |right; exact H]. right. clear - H1 H2 H A B.
      assert (n1 == n2)%Q by lra. rewrite <- H0. exact H.
Qed.

Lemma arc_ok_iff a u : arc_ok a u = true <-> radii_ok u (a_xc a) (a_yc a) (a_xs a) (a_ys a) (a_xe a) (a_ye a).
Proof.
  unfold arc_ok, radii_ok. rewrite <- PointMatches_iff. destruct (PointMatches _ _ _ _ _).
  - split; [discriminate|]. intros [H _]. congruence.
  - rewrite negb_true_iff, Qlt_bool_no. split; [|tauto]. intros H. split; [discriminate|exact H].
Qed.

Lemma arc_round a extras k seq pd rd u : settings_ok pd rd seq k extras -> (0 < u)%Q -> Forall real300 (arc_reals a) ->
  room k 7 0 extras ->
  exists r a', format100 a extras [] k seq pd rd u = POk r /\ Forall2 (real_close u) (arc_reals a) (arc_reals a') /\
    forall rest,
    (radii_ok u (a_xc a') (a_yc a') (a_xs a') (a_ys a') (a_xe a') (a_ye a') ->
       readPD100 seq k (p_count r) pd rd u (mkStream (p_out r ++ rest) false) =
         POk (a', extras_ptrs extras, [], mkStream rest false)) /\
    (~ radii_ok u (a_xc a') (a_yc a') (a_xs a') (a_ys a') (a_xe a') (a_ye a') ->
       readPD100 seq k (p_count r) pd rd u (mkStream (p_out r ++ rest) false) = PFail).
Proof.
  intros S U F RM. destruct (round100 a extras k seq pd rd u S U F RM) as (r & ds & FM & _ & _ & _ & _ & a' & CL & RD).
  exists r, a'. split; [exact FM|]. split; [exact CL|]. intros rest. unfold readPD100. rewrite RD. cbn [pbind]. unfold guard.
  rewrite <- arc_ok_iff. destruct (arc_ok a' u); split; intros H; congruence.
Qed.

(** The resolution used for reading may be another one. *)
Lemma arc_round_at a extras k seq pd rd u u2 : settings_ok pd rd seq k extras -> (0 < u)%Q -> Forall real300 (arc_reals a) ->
  room k 7 0 extras ->
  (forall a', Forall2 (real_close u) (arc_reals a) (arc_reals a') ->
     radii_ok u2 (a_xc a') (a_yc a') (a_xs a') (a_ys a') (a_xe a') (a_ye a')) ->
  round_trip (format100 a extras [] k seq pd rd u) (fun n f => readPD100 seq k n pd rd u2 f) seq k (extras_ptrs extras)
    (fun a' => Forall2 (real_close u) (arc_reals a) (arc_reals a')).
Proof.
  intros S U F RM OK. destruct (round100 a extras k seq pd rd u S U F RM) as (r & ds & FM & N & NE & C & X & a' & CL & RD).
  exists r, ds. repeat (split; [assumption|]). exists a'. split; [exact CL|]. intros rest. unfold readPD100. rewrite RD. cbn [pbind].
  unfold guard. replace (arc_ok a' u2) with true; [reflexivity|]. symmetry. apply arc_ok_iff, OK, CL.
Qed.

Lemma six_close u v q : six_digits v -> real_close u v q -> (q == v)%Q.
Proof.
  intros (n & k & E & L & Z) [C1 C2]. destruct (Qlt_le_dec (Qabs v) (1 # 100000000)) as [H|H].
  - destruct Z as [Z|Z]; [|exfalso; apply (Qlt_not_le _ _ H Z)]. rewrite Z. apply C1, H.
  - apply C2 in H. destruct H as (_ & _ & H). apply (H n k E L).
Qed.

Lemma arc_exact a extras k seq pd rd u : settings_ok pd rd seq k extras -> (0 < u)%Q -> Forall real300 (arc_reals a) ->
  Forall six_digits (arc_reals a) -> room k 7 0 extras ->
  exists r a', format100 a extras [] k seq pd rd u = POk r /\ Forall2 Qeq (arc_reals a) (arc_reals a') /\
    forall rest,
    (radii_ok u (a_xc a) (a_yc a) (a_xs a) (a_ys a) (a_xe a) (a_ye a) ->
       readPD100 seq k (p_count r) pd rd u (mkStream (p_out r ++ rest) false) =
         POk (a', extras_ptrs extras, [], mkStream rest false)) /\
    (~ radii_ok u (a_xc a) (a_yc a) (a_xs a) (a_ys a) (a_xe a) (a_ye a) ->
       readPD100 seq k (p_count r) pd rd u (mkStream (p_out r ++ rest) false) = PFail).
Proof.
  intros S U F SD RM. destruct (arc_round a extras k seq pd rd u S U F RM) as (r & a' & FM & CL & RD).
  exists r, a'. split; [exact FM|].
  assert (EQ : Forall2 Qeq (arc_reals a) (arc_reals a')).
  { revert SD CL. generalize (arc_reals a) (arc_reals a'). induction l as [|v l IH]; intros l' SD CL; inversion CL; subst; [constructor|].
    inversion SD; subst. constructor; [symmetry; eapply six_close; eassumption|]. apply IH; assumption. }
  split; [exact EQ|]. intros rest. specialize (RD rest).
  assert (I : radii_ok u (a_xc a) (a_yc a) (a_xs a) (a_ys a) (a_xe a) (a_ye a) <->
    radii_ok u (a_xc a') (a_yc a') (a_xs a') (a_ys a') (a_xe a') (a_ye a')).
  { unfold arc_reals in EQ. repeat match goal with H : Forall2 _ _ _ |- _ => inversion H; clear H; subst end.
    unfold radii_ok, coincide. cbv zeta.
    repeat match goal with H : (_ == _)%Q |- _ => rewrite H; clear H end. reflexivity. }
  rewrite I. exact RD.
Qed.

Lemma perfect_arc_refused : exists a u, (0 < u)%Q /\
  (a_xs a * a_xs a + a_ys a * a_ys a == a_xe a * a_xe a + a_ye a * a_ye a)%Q /\ (a_xc a == 0)%Q /\ (a_yc a == 0)%Q /\
  refused (format100 a [] [] 1 5 "," ";" u) (fun n f => readPD100 5 1 n "," ";" u f).
Proof.
  exists (mkArc 0 0 0 1000000 0 (5000000 # 13) (12000000 # 13)), (1 # 1000).
  split; [reflexivity|]. split; [reflexivity|]. split; [reflexivity|]. split; [reflexivity|].
  unfold refused. eexists. split; [vm_compute; reflexivity|]. intros rest. vm_compute. reflexivity.
Qed.
