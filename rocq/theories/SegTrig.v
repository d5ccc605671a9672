(** Facts about the comparisons, [atan2] and whole turns of SegModel.v. *)

From Coq Require Import Reals Lra Psatz List Bool ZArith Lia.
From Verif Require Import SegModel.
Import ListNotations.
Open Scope R_scope.

Lemma ltb_true a b : ltb a b = true <-> a < b.
Proof. unfold ltb. destruct (Rlt_dec a b); split; intros; auto; discriminate. Qed.
Lemma ltb_false a b : ltb a b = false <-> b <= a.
Proof. unfold ltb. destruct (Rlt_dec a b); split; intros; auto; try discriminate; lra. Qed.
Lemma leb_true a b : leb a b = true <-> a <= b.
Proof. unfold leb. destruct (Rle_dec a b); split; intros; auto; discriminate. Qed.
Lemma leb_false a b : leb a b = false <-> b < a.
Proof. unfold leb. destruct (Rle_dec a b); split; intros; auto; try discriminate; lra. Qed.
Lemma eqb_true a b : eqb a b = true <-> a = b.
Proof. unfold eqb. destruct (Req_EM_T a b); split; intros; auto; discriminate. Qed.
Lemma eqb_false a b : eqb a b = false <-> a <> b.
Proof. unfold eqb. destruct (Req_EM_T a b); split; intros; auto; try discriminate; contradiction. Qed.

Lemma ltb_t a b : a < b -> ltb a b = true. Proof. apply ltb_true. Qed.
Lemma ltb_f a b : b <= a -> ltb a b = false. Proof. apply ltb_false. Qed.
Lemma leb_t a b : a <= b -> leb a b = true. Proof. apply leb_true. Qed.
Lemma leb_f a b : b < a -> leb a b = false. Proof. apply leb_false. Qed.
Lemma eqb_t a b : a = b -> eqb a b = true. Proof. apply eqb_true. Qed.
Lemma eqb_f a b : a <> b -> eqb a b = false. Proof. apply eqb_false. Qed.

Lemma e8_pos : 0 < e8. Proof. unfold e8. lra. Qed.
Lemma e8_small : e8 < 1 / 1000. Proof. unfold e8. lra. Qed.

(** ** atan2 *)

Lemma sq_sum_pos x y : x <> 0 \/ y <> 0 -> 0 < x * x + y * y.
Proof. intros [H|H]; pose proof (Rsqr_pos_lt _ H); unfold Rsqr in *; nra. Qed.

Lemma cos_atan_pos t : 0 < cos (atan t).
Proof. apply cos_gt_0; destruct (atan_bound t); lra. Qed.

Lemma sin_atan_cos t : sin (atan t) = t * cos (atan t).
Proof.
  pose proof (cos_atan_pos t). rewrite <- (tan_atan t) at 2. unfold tan. field. lra.
Qed.

Lemma cos_atan_sq t : cos (atan t) * cos (atan t) * (1 + t * t) = 1.
Proof.
  pose proof (sin2_cos2 (atan t)) as H. unfold Rsqr in H. rewrite sin_atan_cos in H. nra.
Qed.

Lemma sqrt_mult_sq k v : 0 <= k -> 0 <= v -> sqrt (k * k * v) = k * sqrt v.
Proof. intros. rewrite sqrt_mult; [|nra|lra]. now rewrite sqrt_square. Qed.

(* the point at the angle atan (y/x) or opposite to it *)
Lemma atan_polar x y : x <> 0 ->
  sqrt (x * x + y * y) * cos (atan (y / x)) = Rabs x /\ sqrt (x * x + y * y) * sin (atan (y / x)) = Rabs x * (y / x).
Proof.
  intro H. set (t := y / x). assert (E : x * x + y * y = Rabs x * Rabs x * (1 + t * t)).
  { unfold t. rewrite <- Rabs_mult, (Rabs_pos_eq (x * x)) by nra. field. exact H. }
  pose proof (cos_atan_sq t). pose proof (cos_atan_pos t). pose proof (Rabs_pos x).
  assert (C : sqrt (1 + t * t) * cos (atan t) = 1).
  { assert (G : sqrt (1 + t * t) * sqrt (1 + t * t) = 1 + t * t) by (apply sqrt_sqrt; nra).
    pose proof (sqrt_pos (1 + t * t)). apply Rsqr_inj; unfold Rsqr; try nra. }
  rewrite E, sqrt_mult_sq by nra. rewrite sin_atan_cos. split.
  - rewrite Rmult_assoc, C. ring.
  - replace (Rabs x * sqrt (1 + t * t) * (t * cos (atan t))) with (Rabs x * t * (sqrt (1 + t * t) * cos (atan t))) by ring.
    rewrite C. ring.
Qed.

Lemma atan2_point x y : x <> 0 \/ y <> 0 ->
  sqrt (x * x + y * y) * cos (atan2 y x) = x /\ sqrt (x * x + y * y) * sin (atan2 y x) = y.
Proof.
  intro H. unfold atan2.
  destruct (Rlt_dec 0 x) as [Px|Nx].
  - destruct (atan_polar x y ltac:(lra)) as [A B]. rewrite A, B, Rabs_pos_eq by lra. split; [reflexivity|]. field. lra.
  - destruct (Rlt_dec x 0) as [Mx|Zx].
    + destruct (atan_polar x y ltac:(lra)) as [A B].
      assert (C : Rabs x = - x) by (apply Rabs_left; lra).
      rewrite C in A, B.
      destruct (Rle_dec 0 y).
      * rewrite neg_cos, neg_sin. split; [nra|].
        replace (sqrt (x * x + y * y) * - sin (atan (y / x))) with (- (sqrt (x * x + y * y) * sin (atan (y / x)))) by ring.
        rewrite B. field. lra.
      * assert (Q : forall z, cos (z - PI) = - cos z /\ sin (z - PI) = - sin z).
        { intro z. rewrite cos_minus, sin_minus, cos_PI, sin_PI. split; ring. }
        destruct (Q (atan (y / x))) as [Q1 Q2]. rewrite Q1, Q2. split; [nra|].
        replace (sqrt (x * x + y * y) * - sin (atan (y / x))) with (- (sqrt (x * x + y * y) * sin (atan (y / x)))) by ring.
        rewrite B. field. lra.
    + assert (x = 0) by lra. subst x. replace (0 * 0 + y * y) with (y * y) by ring.
      destruct (Rlt_dec 0 y).
      * rewrite cos_PI2, sin_PI2, sqrt_square by lra. split; ring.
      * destruct (Rlt_dec y 0); [|lra].
        replace (y * y) with (- y * - y) by ring. rewrite cos_neg, sin_neg, cos_PI2, sin_PI2, sqrt_square by lra.
        split; ring.
Qed.

Lemma atan_sign t : (0 <= t -> 0 <= atan t) /\ (0 < t -> 0 < atan t) /\ (t <= 0 -> atan t <= 0) /\ (t < 0 -> atan t < 0).
Proof.
  pose proof atan_0 as Z. repeat split; intro H.
  - destruct (Rle_lt_or_eq_dec _ _ H) as [L|L]; [|subst; lra]. apply atan_increasing in L. lra.
  - apply atan_increasing in H. lra.
  - destruct (Rle_lt_or_eq_dec _ _ H) as [L|L]; [|subst; lra]. apply atan_increasing in L. lra.
  - apply atan_increasing in H. lra.
Qed.

Lemma atan2_range y x : - PI < atan2 y x <= PI.
Proof.
  pose proof PI_RGT_0 as P. pose proof (atan_bound (y / x)) as B. unfold atan2.
  destruct (Rlt_dec 0 x); [lra|]. destruct (Rlt_dec x 0).
  - destruct (atan_sign (y / x)) as (S1 & S2 & S3 & S4).
    assert (I : / x < 0) by now apply Rinv_lt_0_compat.
    destruct (Rle_dec 0 y).
    + assert (y / x <= 0) by (unfold Rdiv; nra). specialize (S3 H). lra.
    + assert (0 < y / x) by (unfold Rdiv; nra). specialize (S2 H). lra.
  - destruct (Rlt_dec 0 y); [lra|]. destruct (Rlt_dec y 0); lra.
Qed.

(** ** Angles are determined by their cosine and sine up to whole turns *)

Lemma cos_one_zero x : - (2 * PI) < x < 2 * PI -> cos x = 1 -> x = 0.
Proof.
  intros H E. assert (S : sin (x / 2) = 0).
  { assert (D : cos x = 1 - 2 * (sin (x / 2) * sin (x / 2))).
    { replace x with (2 * (x / 2)) at 1 by field. rewrite cos_2a_sin. ring. }
    nra. }
  destruct (Rtotal_order x 0) as [L|[L|L]]; [|exact L|].
  - pose proof (sin_gt_0 (- (x / 2)) ltac:(lra) ltac:(lra)). rewrite sin_neg in H0. lra.
  - pose proof (sin_gt_0 (x / 2) ltac:(lra) ltac:(lra)). lra.
Qed.

Lemma angle_unique a b : cos a = cos b -> sin a = sin b -> - (2 * PI) < a - b < 2 * PI -> a = b.
Proof.
  intros C S H. assert (cos (a - b) = 1).
  { rewrite cos_minus, C, S. pose proof (sin2_cos2 b) as Q. unfold Rsqr in Q. lra. }
  pose proof (cos_one_zero _ H H0). lra.
Qed.

Lemma cos_sin_polar x y r a : 0 < r -> x = r * cos a -> y = r * sin a -> sqrt (x * x + y * y) = r.
Proof.
  intros H -> ->. replace (r * cos a * (r * cos a) + r * sin a * (r * sin a)) with (r * r).
  - apply sqrt_square. lra.
  - pose proof (sin2_cos2 a) as Q. unfold Rsqr in Q. nra.
Qed.

Lemma polar_nonzero r a : 0 < r -> r * cos a <> 0 \/ r * sin a <> 0.
Proof.
  intro H. pose proof (sin2_cos2 a) as Q. unfold Rsqr in Q.
  destruct (Req_EM_T (r * cos a) 0) as [E|E]; [|now left]. right.
  assert (cos a = 0) by nra. rewrite H0 in Q. intro F. assert (sin a = 0) by nra. rewrite H1 in Q. lra.
Qed.

Lemma atan2_polar r a : 0 < r -> - PI < a <= PI -> atan2 (r * sin a) (r * cos a) = a.
Proof.
  intros H A. pose proof (atan2_range (r * sin a) (r * cos a)) as B.
  destruct (atan2_point (r * cos a) (r * sin a) (polar_nonzero r a H)) as [C S].
  rewrite (cos_sin_polar _ _ r a H eq_refl eq_refl) in C, S.
  apply angle_unique; try lra; nra.
Qed.

(* two directions with the same angle *)
Lemma atan2_same x y x' y' : (x <> 0 \/ y <> 0) -> (x' <> 0 \/ y' <> 0) -> atan2 y x = atan2 y' x' ->
  x * sqrt (x' * x' + y' * y') = x' * sqrt (x * x + y * y) /\ y * sqrt (x' * x' + y' * y') = y' * sqrt (x * x + y * y).
Proof.
  intros H H' E. destruct (atan2_point x y H) as [A B]. destruct (atan2_point x' y' H') as [A' B'].
  rewrite <- E in A', B'. set (r := sqrt (x * x + y * y)) in *. set (r' := sqrt (x' * x' + y' * y')) in *.
  set (w := atan2 y x) in *. clearbody r r' w. clear E. subst x y x' y'. split; ring.
Qed.

Lemma cos_turn a : cos (a + 2 * PI) = cos a. Proof. replace (2 * PI) with (2 * INR 1 * PI) by (cbn; ring). apply cos_period. Qed.
Lemma sin_turn a : sin (a + 2 * PI) = sin a. Proof. replace (2 * PI) with (2 * INR 1 * PI) by (cbn; ring). apply sin_period. Qed.

Lemma cos_turns a k : cos (a + 2 * PI * IZR k) = cos a /\ sin (a + 2 * PI * IZR k) = sin a.
Proof.
  assert (N : forall (n : nat) b, cos (b + 2 * PI * INR n) = cos b /\ sin (b + 2 * PI * INR n) = sin b).
  { intros n b. replace (b + 2 * PI * INR n) with (b + 2 * INR n * PI) by ring. split; [apply cos_period|apply sin_period]. }
  destruct (Z.le_ge_cases 0 k) as [H|H].
  - rewrite <- (Z2Nat.id k H), <- INR_IZR_INZ. apply N.
  - destruct (N (Z.to_nat (- k)) (a + 2 * PI * IZR k)) as [C S].
    rewrite INR_IZR_INZ, Z2Nat.id, opp_IZR in C, S by lia.
    replace (a + 2 * PI * IZR k + 2 * PI * - IZR k) with a in C, S by ring. split; congruence.
Qed.

(** ** Normalizing angles *)

Lemma up_spec x : IZR (up x) - 1 <= x < IZR (up x).
Proof. destruct (archimed x). lra. Qed.

Lemma turns_spec x : x / (2 * PI) <= turns x < x / (2 * PI) + 1.
Proof.
  unfold turns. rewrite opp_IZR, minus_IZR. pose proof (up_spec (- (x / (2 * PI)))). lra.
Qed.

Lemma two_pi : 0 < 2 * PI. Proof. pose proof PI_RGT_0. lra. Qed.

(* the angles are moved by whole turns; the smaller one ends up at pi or below and
   the larger one above -pi, and nothing is done when this is so already *)
Lemma norm_angles_spec a b : exists k : Z,
  norm_angles a b = (a + 2 * PI * IZR k, b + 2 * PI * IZR k) /\
  (Rmin a b <= PI -> - PI < Rmax a b -> k = 0%Z) /\
  (Rabs (b - a) <= 2 * PI -> Rmin (a + 2 * PI * IZR k) (b + 2 * PI * IZR k) <= PI /\ - PI < Rmax (a + 2 * PI * IZR k) (b + 2 * PI * IZR k)).
Proof.
  pose proof two_pi as T. unfold norm_angles.
  destruct (Rlt_dec PI (Rmin a b)) as [L|L].
  - set (z := (- (up (- ((Rmin a b - PI) / (2 * PI))) - 1))%Z). change (turns (Rmin a b - PI)) with (IZR z).
    pose proof (turns_spec (Rmin a b - PI)) as S. change (turns (Rmin a b - PI)) with (IZR z) in S.
    assert (S1 : Rmin a b - PI <= 2 * PI * IZR z < Rmin a b - PI + 2 * PI).
    { destruct S as [S1 S2]. set (v := (Rmin a b - PI) / (2 * PI)) in *.
      assert (E : Rmin a b - PI = v * (2 * PI)) by (unfold v; field; lra). rewrite E. nra. }
    assert (M : Rmax (a - 2 * PI * IZR z) (b - 2 * PI * IZR z) > - PI).
    { eapply Rlt_le_trans; [|apply Rmax_l]. pose proof (Rmin_l a b). lra. }
    destruct (Rle_dec (Rmax (a - 2 * PI * IZR z) (b - 2 * PI * IZR z)) (- PI)) as [Q|Q]; [lra|].
    exists (- z)%Z. rewrite opp_IZR. split; [|split].
    + f_equal; ring.
    + intros; lra.
    + intros D. split.
      * pose proof (Rmin_l a b). pose proof (Rmin_r a b). unfold Rmin in *. destruct (Rle_dec a b); destruct (Rle_dec (a + _) _); lra.
      * replace (a + 2 * PI * - IZR z) with (a - 2 * PI * IZR z) by ring. replace (b + 2 * PI * - IZR z) with (b - 2 * PI * IZR z) by ring. lra.
  - replace (a - 2 * PI * 0) with a by ring. replace (b - 2 * PI * 0) with b by ring.
    destruct (Rle_dec (Rmax a b) (- PI)) as [Q|Q].
    + set (z := up (- ((Rmax a b + PI) / (2 * PI)))). pose proof (up_spec (- ((Rmax a b + PI) / (2 * PI)))) as S. fold z in S.
      assert (S1 : - (Rmax a b + PI) < 2 * PI * IZR z <= - (Rmax a b + PI) + 2 * PI).
      { destruct S as [S1 S2]. set (v := (Rmax a b + PI) / (2 * PI)) in *.
        assert (E : Rmax a b + PI = v * (2 * PI)) by (unfold v; field; lra). rewrite E. nra. }
      exists z. split; [reflexivity|]. split; [intros; lra|]. intros D.
      unfold Rmax, Rmin in *. pose proof (Rcase_abs (b - a)). unfold Rabs in D.
      destruct (Rle_dec a b); destruct (Rle_dec (a + _) _); destruct (Rcase_abs (b - a)); lra.
    + exists 0%Z. split; [f_equal; ring|]. split; [reflexivity|]. intros _.
      replace (a + 2 * PI * 0) with a by ring. replace (b + 2 * PI * 0) with b by ring. lra.
Qed.

(* one pass of each loop of [NORMALIZE_ANGLES] *)
Lemma turns_less x : 0 < x -> turns x = (if Rlt_dec 0 (x - 2 * PI) then turns (x - 2 * PI) else 0) + 1.
Proof.
  intro H. pose proof two_pi as T.
  assert (E : (x - 2 * PI) / (2 * PI) = x / (2 * PI) - 1) by (field; lra).
  assert (P : 0 < x / (2 * PI)) by (apply Rdiv_lt_0_compat; lra).
  pose proof (turns_spec x) as A. destruct (Rlt_dec 0 (x - 2 * PI)) as [L|L].
  - pose proof (turns_spec (x - 2 * PI)) as B. rewrite E in B. unfold turns in *.
    rewrite <- plus_IZR in *. f_equal.
    set (z := (- (up (- (x / (2 * PI))) - 1))%Z) in *. set (w := (- (up (- ((x - 2 * PI) / (2 * PI))) - 1))%Z) in *.
    assert (IZR z < IZR (w + 2)) by (rewrite plus_IZR; lra). assert (IZR w < IZR z) by lra.
    apply lt_IZR in H0. apply lt_IZR in H1. lia.
  - assert (x / (2 * PI) <= 1) by (apply (Rmult_le_reg_r (2 * PI)); [lra|]; unfold Rdiv; rewrite Rmult_assoc, Rinv_l; lra).
    unfold turns in *. set (z := (- (up (- (x / (2 * PI))) - 1))%Z) in *.
    assert (IZR z < IZR 2) by lra. assert (IZR 0 < IZR z) by lra. apply lt_IZR in H1. apply lt_IZR in H2.
    replace z with 1%Z by lia. lra.
Qed.

Lemma norm_first_loop a b : PI < a -> PI < b -> norm_angles a b = norm_angles (a - 2 * PI) (b - 2 * PI).
Proof.
  intros A B. pose proof two_pi as T. unfold norm_angles.
  assert (M : Rmin (a - 2 * PI) (b - 2 * PI) = Rmin a b - 2 * PI).
  { unfold Rmin. destruct (Rle_dec a b); destruct (Rle_dec (a - _) _); lra. }
  assert (PI < Rmin a b) by (unfold Rmin; destruct (Rle_dec a b); lra).
  rewrite M. destruct (Rlt_dec PI (Rmin a b)); [|lra]. rewrite (turns_less (Rmin a b - PI)) by lra.
  replace (Rmin a b - PI - 2 * PI) with (Rmin a b - 2 * PI - PI) by ring.
  assert (D : forall k, a - 2 * PI * (k + 1) = a - 2 * PI - 2 * PI * k /\ b - 2 * PI * (k + 1) = b - 2 * PI - 2 * PI * k) by (intro; split; ring).
  destruct (Rlt_dec PI (Rmin a b - 2 * PI)); destruct (Rlt_dec 0 (Rmin a b - 2 * PI - PI)); try lra;
    [destruct (D (turns (Rmin a b - 2 * PI - PI))) as [-> ->]|destruct (D 0) as [-> ->]]; reflexivity.
Qed.

Lemma norm_second_loop a b : a <= - PI -> b <= - PI -> norm_angles a b = norm_angles (a + 2 * PI) (b + 2 * PI).
Proof.
  intros A B. pose proof two_pi as T. unfold norm_angles.
  assert (Rmin a b <= - PI) by (unfold Rmin; destruct (Rle_dec a b); lra).
  assert (Rmin (a + 2 * PI) (b + 2 * PI) <= PI) by (unfold Rmin; destruct (Rle_dec _ _); lra).
  destruct (Rlt_dec PI (Rmin a b)); [lra|]. destruct (Rlt_dec PI (Rmin (a + _) _)); [lra|].
  replace (a - 2 * PI * 0) with a by ring. replace (b - 2 * PI * 0) with b by ring.
  replace (a + 2 * PI - 2 * PI * 0) with (a + 2 * PI) by ring. replace (b + 2 * PI - 2 * PI * 0) with (b + 2 * PI) by ring.
  assert (M : Rmax (a + 2 * PI) (b + 2 * PI) = Rmax a b + 2 * PI).
  { unfold Rmax. destruct (Rle_dec a b); destruct (Rle_dec (a + _) _); lra. }
  assert (Rmax a b <= - PI) by (unfold Rmax; destruct (Rle_dec a b); lra).
  rewrite M. destruct (Rle_dec (Rmax a b) (- PI)); [|lra].
  set (v := Rmax a b + PI).
  replace (Rmax a b + 2 * PI + PI) with (v + 2 * PI) by (unfold v; ring).
  assert (U : IZR (up (- (v / (2 * PI)))) = (if Rle_dec (Rmax a b + 2 * PI) (- PI) then IZR (up (- ((v + 2 * PI) / (2 * PI)))) else 0) + 1).
  { assert (E : (v + 2 * PI) / (2 * PI) = v / (2 * PI) + 1) by (field; lra).
    pose proof (up_spec (- (v / (2 * PI)))) as S.
    destruct (Rle_dec (Rmax a b + 2 * PI) (- PI)) as [L|L].
    - pose proof (up_spec (- ((v + 2 * PI) / (2 * PI)))) as S'. rewrite E in S' at 2 3. rewrite <- plus_IZR. f_equal.
      set (z := up (- (v / (2 * PI)))) in *. set (w := up (- ((v + 2 * PI) / (2 * PI)))) in *.
      assert (IZR z < IZR (w + 2)) by (rewrite plus_IZR; lra). assert (IZR w < IZR z) by lra.
      apply lt_IZR in H2. apply lt_IZR in H3. lia.
    - assert (P : 0 <= - (v / (2 * PI)) < 1).
      { assert (W : v = v / (2 * PI) * (2 * PI)) by (field; lra). set (u := v / (2 * PI)) in *. unfold v in W. nra. }
      set (z := up (- (v / (2 * PI)))) in *. assert (IZR z < IZR 2) by lra. assert (IZR 0 < IZR z) by lra.
      apply lt_IZR in H2. apply lt_IZR in H3. replace z with 1%Z by lia. lra. }
  rewrite U. f_equal; ring.
Qed.

Lemma norm_no_loop a b : a <= PI \/ b <= PI -> - PI < a \/ - PI < b -> norm_angles a b = (a, b).
Proof.
  intros A B. destruct (norm_angles_spec a b) as (k & E & Z & _). rewrite E.
  rewrite Z; [f_equal; ring| |].
  - unfold Rmin. destruct (Rle_dec a b); lra.
  - unfold Rmax. destruct (Rle_dec a b); lra.
Qed.

Lemma norm_angles_up a b : - PI < Rmin a b -> exists k : Z,
  norm_angles a b = (a + 2 * PI * IZR k, b + 2 * PI * IZR k) /\ - PI < Rmin a b + 2 * PI * IZR k <= PI.
Proof.
  intro H. pose proof two_pi as T. unfold norm_angles.
  destruct (Rlt_dec PI (Rmin a b)) as [L|L].
  - set (z := (- (up (- ((Rmin a b - PI) / (2 * PI))) - 1))%Z). change (turns (Rmin a b - PI)) with (IZR z).
    pose proof (turns_spec (Rmin a b - PI)) as S. change (turns (Rmin a b - PI)) with (IZR z) in S.
    assert (S1 : Rmin a b - PI <= 2 * PI * IZR z < Rmin a b - PI + 2 * PI).
    { destruct S as [S1 S2]. set (v := (Rmin a b - PI) / (2 * PI)) in *.
      assert (E : Rmin a b - PI = v * (2 * PI)) by (unfold v; field; lra). rewrite E. nra. }
    assert (M : Rmax (a - 2 * PI * IZR z) (b - 2 * PI * IZR z) > - PI).
    { eapply Rlt_le_trans; [|apply Rmax_l]. pose proof (Rmin_l a b). lra. }
    destruct (Rle_dec (Rmax (a - 2 * PI * IZR z) (b - 2 * PI * IZR z)) (- PI)) as [Q|Q]; [lra|].
    exists (- z)%Z. rewrite opp_IZR. split; [f_equal; ring|]. lra.
  - exists 0%Z. replace (a - 2 * PI * 0) with a by ring. replace (b - 2 * PI * 0) with b by ring.
    destruct (Rle_dec (Rmax a b) (- PI)) as [Q|Q].
    + exfalso. pose proof (Rmax_l a b). pose proof (Rmin_l a b). lra.
    + split; [f_equal; ring|]. lra.
Qed.
