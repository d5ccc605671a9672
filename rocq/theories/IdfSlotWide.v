(** A slot which is too wide (IdfSlot.v). *)

From Coq Require Import Reals Lra List Bool ZArith Psatz.
From Verif Require Import SegModel SegSpec SegTrig SegFacts OutModel IdfGeo IdfGeoSpec IdfArc IdfConv IdfWind IdfStar IdfSlot IdfSlotSpec IdfSlotFacts.
Import ListNotations.
Open Scope R_scope.

Lemma sin_low t : 0 < t -> t <= 1 -> t / 2 <= sin t.
Proof.
  intros P L. pose proof PI2_3_2. destruct (SIN t ltac:(lra) ltac:(lra)) as (B & _). eapply Rle_trans; [|exact B].
  unfold sin_lb, sin_approx, sum_f_R0, sin_term. cbn [Nat.mul Nat.add fact pow INR].
  assert (E : forall n, INR (S n) = INR n + 1) by (intros; apply S_INR).
  replace (INR 1) with 1 by reflexivity.
  match goal with |- _ <= ?x => replace x with (t - t ^ 3 / 6 + t ^ 5 / 120 - t ^ 7 / 5040) end.
  - assert (0 < t ^ 2 <= 1) by nra. set (u := t ^ 2) in *. replace (t - t ^ 3 / 6 + t ^ 5 / 120 - t ^ 7 / 5040) with (t * (1 - u / 6 + u * u / 120 - u * u * u / 5040)) by (unfold u; field).
    assert (u * u * u <= 1) by nra. assert (0 <= u * u) by nra. nra.
  - field.
Qed.

Definition tilt : R := rad (1 / 20000).
Lemma tilt_small : 8 / 10 ^ 7 < tilt < 12 / 10 ^ 7.
Proof. unfold tilt, rad. pose proof PI_4. pose proof PI2_3_2. lra. Qed.

Lemma push_refused o s : (match l_segs o with [] => False | f :: l => idf_matches (g_start s) (g_end (last l f)) e3 = false end) -> snd (push o s) = o.
Proof.
  unfold push. destruct (l_segs o) as [|f l]; [intros []|]. intros ->. destruct (seg_circle s); [reflexivity|]. destruct (seg_circle (last l f)); reflexivity.
Qed.

Lemma two_pushed a b : seg_circle a = false -> seg_circle b = false -> idf_matches (g_start b) (g_end a) e3 = true ->
  l_segs (snd (push (snd (push iout_init a)) b)) = [a; b].
Proof.
  intros A B M1. unfold push at 2. cbn [iout_init l_segs snd]. unfold push. cbn [l_segs last snd app]. rewrite A, B, M1. reflexivity.
Qed.

(** Eight metres wide, at 90.00005 degrees: only one run and one cap are kept. *)
Lemma wide_slot : exists o, add_slot 8000 10 (90 + 1 / 20000) 0 0 = Some o /\ length (l_segs o) = 2%nat.
Proof.
  unfold add_slot. rewrite !ltb_f by lra. eexists. split; [reflexivity|].
  replace ((90 + 1 / 20000) / 180 * PI) with (tilt + PI / 2) by (unfold tilt, rad; field).
  replace (tilt + PI / 2 + PI / 2) with (tilt + PI) by field. rewrite neg_cos, neg_sin.
  replace (cos (tilt + PI / 2)) with (- sin tilt) by (rewrite cos_plus, cos_PI2, sin_PI2; ring).
  replace (sin (tilt + PI / 2)) with (cos tilt) by (rewrite sin_plus, cos_PI2, sin_PI2; ring).
  pose proof tilt_small as TS. pose proof (sin_low tilt ltac:(lra) ltac:(lra)) as SL. pose proof (sin_lt_x tilt ltac:(lra)) as SU.
  pose proof (chord_small tilt) as CL. pose proof (sin2_cos2 tilt) as T. unfold Rsqr in T. pose proof PI2_3_2.
  cbn [ix iy]. set (c1 := mkI (0 - _) _). set (p1 := mkI (0 - _ - _) _).
  assert (A : angle_deg c1 p1 = 0).
  { unfold angle_deg, angle_rad. replace (iy p1 - iy c1) with (4000 * sin tilt) by (cbn; field). replace (ix p1 - ix c1) with (4000 * cos tilt) by (cbn; field).
    rewrite atan2_polar by lra. replace (tilt / PI * 1800000) with (1 / 2) by (unfold tilt, rad; field; lra).
    unfold trunc. rewrite leb_t by lra. replace (Int_part (1 / 2)) with 0%Z; [field|]. unfold Int_part. rewrite <- (tech_up (1 / 2) 1); [reflexivity|lra|lra]. }
  assert (D : idf_dist c1 p1 = 4000).
  { unfold idf_dist. replace (_ + _) with (4000 ^ 2 * (sin tilt * sin tilt + cos tilt * cos tilt)) by (cbn; field). rewrite T, Rmult_1_r. apply sqrt_pow2. lra. }
  assert (E : arc_seg c1 p1 (- 180) true = mkSg p1 (mkI (ix c1 - 4000) (iy c1)) c1 (- 180) 0 4000).
  { unfold arc_seg. rewrite half_no_circle, A, D. unfold min_ang. rewrite (ltb_f (- (1 / 100)) (- 180)) by lra. rewrite andb_false_r. cbn [negb orb].
    replace ((0 + -180) / 180 * PI) with (- PI) by field. rewrite cos_neg, sin_neg, cos_PI, sin_PI. f_equal. apply ipt_eq; cbn; ring. }
  rewrite E. unfold push_all. cbn [fold_left].
  set (l0 := line_seg _ p1). set (cap1 := mkSg p1 _ c1 _ _ _). set (l2 := line_seg _ _). set (cap2 := arc_seg _ _ _ _).
  assert (P2 : l_segs (snd (push (snd (push iout_init l0)) cap1)) = [l0; cap1]).
  { apply two_pushed; [apply line_no_circle|exact half_no_circle|apply self_matches]. }
  set (o2 := snd (push (snd (push iout_init l0)) cap1)) in *.
  assert (X : ix (g_end cap1) = ix c1 - 4000 /\ iy (g_end cap1) = iy c1) by (split; reflexivity). destruct X as (X1 & X2).
  rewrite (push_refused o2 l2).
  - rewrite (push_refused o2 cap2); [rewrite P2; reflexivity|]. rewrite P2. cbn [last].
    assert (G : g_start cap2 = mkI (0 + 10 / 2 * - sin tilt + 8000 / 2 * - cos tilt) (0 + 10 / 2 * cos tilt + 8000 / 2 * - sin tilt)).
    { unfold cap2, arc_seg. rewrite half_no_circle. unfold min_ang. rewrite (ltb_f (- (1 / 100)) (- 180)) by lra. rewrite andb_false_r. reflexivity. }
    unfold idf_matches. rewrite G, X1, X2. apply leb_f. unfold e3, c1. cbn [ix iy].
    match goal with |- _ < ?a * ?a + ?b * ?b => set (dx := a); assert (Y : 4 < b) by nra; set (dy := b) in * end. nra.
  - rewrite P2. cbn [last]. unfold idf_matches, l2. cbn [line_seg g_start]. rewrite X1, X2. apply leb_f. unfold e3, c1. cbn [ix iy].
    match goal with |- _ < ?a * ?a + ?b * ?b => set (dx := a); replace b with (- (4000 * sin tilt)) by field end. nra.
Qed.
